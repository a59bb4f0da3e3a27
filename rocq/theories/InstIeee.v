(** * A concrete single precision call: the hypotheses of the C27 theorems can be met *)
From Coq Require Import Reals Lra Lia List Arith ZArith QArith Bool String.
From Flocq Require Import Core.Core IEEE754.BinarySingleNaN.
From Verif Require Import Py Tensor Scalar ModelExt ModelUtils ModelModels SpecCall PropsTables SpecR SpecMol SpecStore
  DataRef IeeeInst IeeeP SpecIeee IeeeW IeeeLib CallLemmas PropsIeee.
Import ListNotations.
Open Scope R_scope.

Local Existing Instance Hp64.
Local Existing Instance He64.
Local Existing Instance Hp32.
Local Existing Instance He32.

(** float32 working precision *)
Notation N32 := (IN 24 128 Lcr Lcr).
Notation f32 := (binary_float 24 128).

(** effective charges equal to the atomic number, hardness 1 *)
Definition X32 : Ext (sc N32) :=
  mkExt (sc N32) (fun _ _ _ => B754_zero false : sc N32) (Bdiv mode_NE) (Bsqrt mode_NE)
    (mkT [104%nat] (fun ix => blit 24 128 (inject_Z (Z.of_nat (hd 0%nat ix)))))
    (mkT [104%nat] (fun _ => blit 24 128 1))
    (mkT [104%nat; 104%nat] (fun _ => blit 24 128 1)).

Lemma X32_tables : ext_tables X32.
Proof. exists 104%nat, 104%nat, 104%nat. repeat split; auto. Qed.

(** a hydrogen and a carbon atom, with coordination numbers 100 and NaN *)
Definition HC : tensor Z := mkT [2%nat] (fun ix => match ix with [O] => 1%Z | _ => 6%Z end).
Definition cnHC : tensor (sc N32) :=
  mkT [2%nat] (fun ix => match ix with [O] => blit 24 128 100 | _ => B754_nan end).

Lemma positive_comp (x : f32) : is_finite x && Bltb (B754_zero false) x = true -> positive x.
Proof.
  intros H. apply andb_true_iff in H as (F & H). split; [exact F|].
  rewrite Bltb_correct in H by auto. simpl in H. destruct (Rlt_bool_spec 0 (B2R x)); [auto|discriminate].
Qed.

Lemma exp_ok_3 : exp_ok (L := Lcr) (blit 24 128 3).
Proof.
  assert (E3 : B2R (blit 24 128 3) = 3).
  { assert (E : B2SF (blit 24 128 3) = SpecFloat.S754_finite false 12582912 (-22)) by (vm_compute; reflexivity).
    destruct (blit 24 128 3) as [s|s| |s m e G]; simpl in E; try discriminate. injection E as -> -> ->.
    simpl. unfold F2R. simpl. lra. }
  split.
  - intros x Hx. split; [|apply exp_cr_nonneg].
    destruct x as [s|s| |s m e G]; try discriminate; try (destruct s; reflexivity);
      apply bround_spec, Rlt_le, exp_pos.
  - intros x [->|(F & H)]; [reflexivity|]. rewrite E3 in H.
    assert (Ex : l_exp Lcr x = bround (exp (B2R x))) by (destruct x; try discriminate; reflexivity).
    rewrite Ex. apply (bround_spec (exp (B2R x)) (Rlt_le _ _ (exp_pos _))).
    apply Rle_lt_trans with (bpow radix2 10); [|apply bpow_lt; lia].
    assert (R : round radix2 (SpecFloat.fexp 24 128) (round_mode mode_NE) (bpow radix2 10) = bpow radix2 10).
    { apply round_generic; [apply valid_rnd_round_mode|]. apply generic_format_bpow. vm_compute. discriminate. }
    rewrite <- R. apply rnd_mono. apply Rle_trans with (exp 3).
    + destruct (Rle_lt_or_eq_dec _ _ H) as [K| ->]; [left; now apply exp_increasing|lra].
    + replace 3 with (1 + 1 + 1) by lra. rewrite !exp_plus. pose proof exp_le_3. pose proof (exp_pos 1).
      apply Rle_trans with (3 * 3 * 3); [|simpl; lra].
      apply Rmult_le_compat; try lra; [apply Rmult_le_pos; lra|]. apply Rmult_le_compat; lra.
Qed.

Lemma charge_HC z : z = 1%nat \/ z = 6%nat -> charge_params_ok X32 no_kw z.
Proof.
  intros Hz. split; [|split; [exact exp_ok_3|split; [|split]]].
  - apply positive_comp. vm_compute. reflexivity.
  - destruct Hz as [->| ->]; vm_compute; reflexivity.
  - apply positive_comp. vm_compute. reflexivity.
  - assert (T : forallb (fun r => let x := Bplus mode_NE (q_tab (L := Lcr) (L64 := Lcr) "eeq" z r) (dat (x_zeff X32) [z]) in
        is_finite x && Bltb (B754_zero false) x) (seq 0 7) = true).
    { destruct Hz as [->| ->]; vm_compute; reflexivity. }
    rewrite forallb_seq in T. intros r Hr _. apply positive_comp. exact (T r Hr).
Qed.

Lemma HC_built kind : kind = D4M \/ kind = D4SM -> exists m, built X32 kind no_kw HC 2 [] m.
Proof.
  intros Hk.
  assert (Hkw : kw_ok (N := N32) kind no_kw 2 []) by (split; [reflexivity|exact I]).
  assert (Hel : elements_ok "eeq" HC).
  { left. split; [reflexivity|]. intros [|[|[|i]] [|j b]] H; simpl in H |- *; try lia. }
  destruct (new_model_ok X32 kind "D4Model" HC no_kw 2 [] X32_tables Hk eq_refl Hkw Hel) as (m & Em & _).
  exists m. split; [exact X32_tables|]. split; [exact Hk|]. split; [reflexivity|]. split; [exact Hkw|].
  split; [exact Hel|]. now exists "D4Model"%string.
Qed.

Lemma one_le_comp (x : f32) : is_finite x && Bleb (blit 24 128 1) x = true -> factor_ge_1 x.
Proof.
  intros H. apply andb_true_iff in H as (F & H). right. split; [exact F|].
  destruct (bratio_1 (Hp := Hp32) (He := He32)) as (O1 & O2).
  change (blit 24 128 1) with (bratio 24 128 false 1 1) in H.
  rewrite Bleb_correct in H by auto. rewrite O1 in H. destruct (Rle_bool_spec 1 (B2R x)); [auto|discriminate].
Qed.

Example C27_example kind : kind = D4M \/ kind = D4SM ->
  exists m gw, built X32 kind no_kw HC 2 [] m /\ weight_references X32 m (Some cnHC) None = Ok gw /\
    libm_nonneg Lcr /\ libm_underflow Lcr /\
    (forall i, (i < 2)%nat -> charge_params_ok X32 no_kw (Z.to_nat (sl1 HC [] i))) /\
    far_cn (arg_at (L := Lcr) (L64 := Lcr) (Some cnHC) [] 0) /\
    factor_ge_1 (wf_at (L := Lcr) (L64 := Lcr) kind no_kw HC [] 0 0) /\
    (** hydrogen, CN 100: all weight on the reference of largest CN, which is the second one *)
    largest_cn 1 1 /\ ~ largest_cn 1 0 /\
    (exists g : f32, B2R g = 1 /\ entry kind gw [] 0 0 1 = Bmult mode_NE (charge_factor_w X32 no_kw 1 1 (B754_zero false)) g) /\
    (** all weights finite, also for the NaN coordination number of carbon *)
    forall i r, (i < 2)%nat -> (r < 7)%nat -> is_finite (entry kind gw [] i 0 r) = true.
Proof.
  intros Hk. destruct (HC_built kind Hk) as (m & Hm).
  assert (Hc : opt_shape (A := sc N32) (Some cnHC) [2%nat]) by reflexivity.
  assert (Hq : opt_shape (A := sc N32) None [2%nat]) by exact I.
  destruct (C27_weights_ieee X32 kind no_kw HC 2 [] m (Some cnHC) None Lcr_nonneg Hm Hc Hq) as (gw & E & Sg & H).
  assert (HP : forall i, (i < 2)%nat -> charge_params_ok X32 no_kw (Z.to_nat (sl1 HC [] i))).
  { intros [|[|i]] Hi; [apply charge_HC; now left|apply charge_HC; now right|lia]. }
  assert (Hf : far_cn (arg_at (L := Lcr) (L64 := Lcr) (Some cnHC) [] 0)).
  { left. right. assert (E1 : B2SF (blit 24 128 100) = SpecFloat.S754_finite false 13107200 (-17)) by (vm_compute; reflexivity).
    change (arg_at (L := Lcr) (L64 := Lcr) (Some cnHC) [] 0) with (blit 24 128 100).
    destruct (blit 24 128 100) as [s|s| |s x e G]; simpl in E1; try discriminate. injection E1 as -> -> ->.
    split; [reflexivity|]. simpl. unfold F2R. simpl. lra. }
  assert (Hw : factor_ge_1 (wf_at (L := Lcr) (L64 := Lcr) kind no_kw HC [] 0 0)).
  { apply one_le_comp. destruct Hk as [->| ->]; vm_compute; reflexivity. }
  assert (L1 : largest_cn 1 1).
  { split; [reflexivity|]. intros s Hs Es Ne. rewrite !cn_ref_int. apply frac_lt.
    do 7 (destruct s as [|s]; [first [now elim Ne|vm_compute; reflexivity|discriminate Es]|]). lia. }
  assert (L0 : ~ largest_cn 1 0).
  { intros (_ & K). assert (K1 := K 1%nat ltac:(lia) (proj1 L1) ltac:(lia)). destruct L1 as (_ & K2).
    assert (K3 : exists_ref 1 0) by reflexivity. specialize (K2 0%nat ltac:(lia) K3 ltac:(lia)). lra. }
  exists m, gw. split; [exact Hm|]. split; [exact E|]. split; [exact Lcr_nonneg|]. split; [exact Lcr_underflow|].
  split; [exact HP|]. split; [exact Hf|]. split; [exact Hw|]. split; [exact L1|]. split; [exact L0|]. split.
  - destruct (C27_far_coordination_number X32 kind no_kw HC 2 [] m (Some cnHC) None gw [] 0 0 1 Lcr_nonneg Lcr_underflow
      Hm Hc Hq E I ltac:(lia) ltac:(lia) ltac:(lia) Hf Hw) as (g & _ & Eg & G1 & _).
    exists g. split; [now apply G1|exact Eg].
  - intros i r Hi Hr.
    apply (C27_weights_finite X32 kind no_kw HC 2 [] m (Some cnHC) None gw Lcr_nonneg Hm Hc Hq E); try exact I; try lia.
    intros [|x b] i' Hb Hi'; [now apply HP|destruct Hb].
Qed.
