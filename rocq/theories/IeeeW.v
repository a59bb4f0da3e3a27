(** * Reference weights in IEEE arithmetic: proofs *)
From Coq Require Import Reals Lra Lia List Arith ZArith QArith Qreals Bool String.
From Flocq Require Import Core.Core IEEE754.BinarySingleNaN.
From Verif Require Import Py Tensor Scalar ModelExt ModelUtils ModelModels SpecCall PropsTables
  DataRef DataPair IeeeInst IeeeP SpecIeee TensorLemmas Closed ClosedM ClosedModels CallLemmas.
Import ListNotations.
Open Scope R_scope.

Local Existing Instance Hp64.
Local Existing Instance He64.

(** ** literals *)
Section Lit.
Context {prec emax : Z} {Hp : Prec_gt_0 prec} {He : Prec_lt_emax prec emax}.

Lemma bratio_1 : B2R (bratio prec emax false 1 1) = 1 /\ is_finite (bratio prec emax false 1 1) = true.
Proof.
  unfold bratio. destruct (Bdiv_correct_aux prec emax Hp He mode_NE false 1 0 false 1 0) as [V C].
  revert V C. set (sf := let '(a, b, c) := SpecFloat.SFdiv_core_binary _ _ _ _ _ _ in _).
  intros V C. simpl proj1. rewrite B2R_SF2B, is_finite_SF2B. fold sf in C.
  assert (E : F2R (Float radix2 (cond_Zopp false 1) 0) / F2R (Float radix2 (cond_Zopp false 1) 0) = 1).
  { unfold F2R. simpl. field. }
  rewrite E, (rnd_1 (Hp := Hp) (He := He)), Rlt_bool_true in C.
  - tauto.
  - rewrite Rabs_R1. apply (bpow_emax_gt1 (Hp := Hp) (He := He)).
Qed.
End Lit.

(** ** the table of reference coordination numbers in double precision *)
Lemma lit300 : exists m e H, blit 53 1024 (1 # 10 ^ 300) = B754_finite false m e H.
Proof.
  assert (E : is_finite_strict (blit 53 1024 (1 # 10 ^ 300)) && negb (Bsign (blit 53 1024 (1 # 10 ^ 300))) = true)
    by (vm_compute; reflexivity).
  destruct (blit 53 1024 (1 # 10 ^ 300)) as [s|s| |s m e H]; simpl in E; try discriminate.
  destruct s; try discriminate. eauto.
Qed.

Definition cmax64 (z : nat) : binary_float 53 1024 :=
  bmax2 53 1024 (bmax2 53 1024 (bmax2 53 1024 (bmax2 53 1024 (bmax2 53 1024 (bmax2 53 1024
    (cn64 z 0) (cn64 z 1)) (cn64 z 2)) (cn64 z 3)) (cn64 z 4)) (cn64 z 5)) (cn64 z 6).

Lemma cmax64_table : forallb (fun z => forallb (fun r =>
   Bool.eqb (Beqb (cn64 (S z) r) (cmax64 (S z)))
            (forallb (fun s => (cn_int (S z) s <=? cn_int (S z) r)%Z) (seq 0 7))) (seq 0 7)) (seq 0 103) = true.
Proof. vm_compute. reflexivity. Qed.

Lemma cmax64_spec z r : (1 <= z <= 103)%nat -> (r < 7)%nat ->
  Beqb (cn64 z r) (cmax64 z) = forallb (fun s => (cn_int z s <=? cn_int z r)%Z) (seq 0 7).
Proof.
  intros Hz Hr. destruct z as [|z]; [lia|].
  pose proof (all2 103 7 _ cmax64_table z r ltac:(lia) Hr) as E. now apply eqb_prop in E.
Qed.

Lemma cn_ref_le z r s : cn_ref z r <= cn_ref z s <-> (cn_int z r <= cn_int z s)%Z.
Proof.
  rewrite !cn_ref_int. split; intros H; [|now apply frac_le].
  destruct (Z_le_gt_dec (cn_int z r) (cn_int z s)) as [|G]; auto.
  assert (L : (cn_int z s < cn_int z r)%Z) by lia. apply (frac_lt _ _ refcovcn_tab_dec) in L. lra.
Qed.

Lemma largest_cn_spec z r : (1 <= z <= 103)%nat -> (r < 7)%nat -> exists_ref z r ->
  (Beqb (cn64 z r) (cmax64 z) = true <-> largest_cn z r).
Proof.
  intros Hz Hr Ex. rewrite cmax64_spec, forallb_seq by auto.
  destruct (C38_unique_maximal_cn z Hz) as (r0 & Hr0 & Ex0 & M & U). split.
  - intros H. destruct (Nat.eq_dec r r0) as [->|Ne]; [split; auto|].
    specialize (U r Hr Ex Ne). specialize (H r0 Hr0). apply Z.leb_le, cn_ref_le in H. lra.
  - intros (_ & H) s Hs. apply Z.leb_le, cn_ref_le. destruct (Nat.eq_dec r r0) as [->|Ne]; [now apply M|].
    specialize (H r0 Hr0 Ex0 ltac:(congruence)). specialize (U r Hr Ex Ne). lra.
Qed.

(** ** sums *)
Lemma sum64_nonneg n f : (forall k, (k < n)%nat -> Bsign (f k) = false) ->
  Bsign (sum64 n f) = false /\
  (is_finite (sum64 n f) = true -> forall k, (k < n)%nat -> is_finite (f k) = true /\ B2R (f k) <= B2R (sum64 n f)).
Proof.
  induction n as [|n IH]; intros H; simpl.
  - split; [reflexivity|]. intros _ k Hk. lia.
  - destruct (IH ltac:(auto)) as (S1 & F1).
    destruct (plus_nonneg (Hp := Hp64) (He := He64) (sum64 n f) (f n) S1 (H n ltac:(lia))) as (S2 & F2).
    split; [exact S2|]. intros F k Hk. destruct (F2 F) as (Fa & Fb & _ & La & Lb).
    destruct (Nat.eq_dec k n) as [->|]; [auto|]. destruct (F1 Fa k ltac:(lia)). split; auto. lra.
Qed.

Lemma sum64_ext n f g : (forall k, (k < n)%nat -> f k = g k) -> sum64 n f = sum64 n g.
Proof. induction n; simpl; intros H; auto. rewrite IHn, H; auto. Qed.

Lemma sum64_zero n f : (forall k, (k < n)%nat -> f k = B754_zero false) -> sum64 n f = B754_zero false.
Proof. induction n; simpl; intros H; auto. rewrite IHn, H; auto. Qed.

Lemma c20_ok : SpecFloat.bounded 53 1024 5629499534213120 (-48) = true.
Proof. reflexivity. Qed.
Definition c20 : binary_float 53 1024 := B754_finite false 5629499534213120 (-48) c20_ok.
Lemma c20_val : B2R c20 = 20.
Proof. unfold c20. simpl. unfold F2R. simpl. lra. Qed.

Lemma cn64_table : forallb (fun z => forallb (fun r =>
   is_finite (cn64 z r) && Bleb (B754_zero false) (cn64 z r) && Bleb (cn64 z r) c20) (seq 0 7)) (seq 0 104) = true.
Proof. vm_compute. reflexivity. Qed.

Lemma cn64_range z r : (z <= 103)%nat -> (r < 7)%nat -> is_finite (cn64 z r) = true /\ 0 <= B2R (cn64 z r) <= 20.
Proof.
  intros Hz Hr. pose proof (all2 104 7 _ cn64_table z r ltac:(lia) Hr) as H. cbv beta in H.
  revert H. generalize (cn64 z r). intros c H.
  apply andb_true_iff in H as [H H3]. apply andb_true_iff in H as [H1 H2].
  split; [exact H1|].
  rewrite Bleb_correct in H2, H3 by auto. rewrite c20_val in H3.
  split; [destruct (Rle_bool_spec (B2R (prec := 53) (emax := 1024) (B754_zero false)) (B2R c)); [assumption|discriminate]|].
  destruct (Rle_bool_spec (B2R c) 20); [assumption|discriminate].
Qed.

(** ** sums in the order of the machine *)
Lemma l_plan_leaves {prec emax} (L : Libm prec emax) n k : In k (leaves (proj1_sig (l_plan L n))) <-> (k < n)%nat.
Proof.
  destruct (l_plan L n) as (t & P). cbn [proj1_sig]. split; intros H.
  - apply (Permutation.Permutation_in k P), in_seq in H. lia.
  - apply (Permutation.Permutation_in k (Permutation.Permutation_sym P)), in_seq. lia.
Qed.
Lemma tree64_nonneg t f : (forall k, In k (leaves t) -> Bsign (f k) = false) ->
  Bsign (tree64 t f) = false /\
  (is_finite (tree64 t f) = true -> forall k, In k (leaves t) -> is_finite (f k) = true /\ B2R (f k) <= B2R (tree64 t f)).
Proof.
  induction t as [|k|a IHa b IHb]; intros H; cbn [leaves tree64] in *.
  - split; [reflexivity|]. intros _ k [].
  - split; [apply H; now left|]. intros F j [<-|[]]. split; [exact F|lra].
  - destruct (IHa (fun k Hk => H k (in_or_app _ _ _ (or_introl Hk)))) as (Sa & Fa).
    destruct (IHb (fun k Hk => H k (in_or_app _ _ _ (or_intror Hk)))) as (Sb & Fb).
    destruct (plus_nonneg (Hp := Hp64) (He := He64) (tree64 a f) (tree64 b f) Sa Sb) as (S2 & F2).
    split; [exact S2|]. intros F k Hk. destruct (F2 F) as (F1 & F3 & _ & La & Lb).
    apply in_app_or in Hk as [Hk|Hk]; [destruct (Fa F1 k Hk)|destruct (Fb F3 k Hk)]; split; auto; lra.
Qed.
Lemma tsum64_nonneg L64 n f : (forall k, (k < n)%nat -> Bsign (f k) = false) ->
  Bsign (tsum64 L64 n f) = false /\
  (is_finite (tsum64 L64 n f) = true -> forall k, (k < n)%nat -> is_finite (f k) = true /\ B2R (f k) <= B2R (tsum64 L64 n f)).
Proof.
  intros H. destruct (tree64_nonneg (proj1_sig (l_plan L64 n)) f) as (A & C).
  { intros k Hk. apply H. now apply (l_plan_leaves L64). }
  split; [exact A|]. intros F k Hk. apply (C F). now apply l_plan_leaves.
Qed.
Lemma tsum64_ext L64 n f g : (forall k, (k < n)%nat -> f k = g k) -> tsum64 L64 n f = tsum64 L64 n g.
Proof.
  intros H. unfold tsum64. assert (HT := fun k => proj1 (l_plan_leaves L64 n k)). revert HT.
  generalize (proj1_sig (l_plan L64 n)). intros t. induction t as [|k|a IHa b IHb]; cbn [leaves tree64]; intros HT.
  - reflexivity.
  - apply H, HT. now left.
  - rewrite IHa, IHb; auto; intros k Hk; apply HT, in_or_app; auto.
Qed.
Lemma tsum64_zero L64 n f : (forall k, (k < n)%nat -> f k = B754_zero false) -> tsum64 L64 n f = B754_zero false.
Proof.
  intros H. unfold tsum64. assert (HT := fun k => proj1 (l_plan_leaves L64 n k)). revert HT.
  generalize (proj1_sig (l_plan L64 n)). intros t. induction t as [|k|a IHa b IHb]; cbn [leaves tree64]; intros HT.
  - reflexivity.
  - apply H, HT. now left.
  - rewrite IHa, IHb; auto; intros k Hk; apply HT, in_or_app; auto.
Qed.

Section W.
Context {prec emax : Z} {Hp : Prec_gt_0 prec} {He : Prec_lt_emax prec emax}.
Context {L : Libm prec emax} {L64 : Libm 53 1024}.
Notation N := (IN prec emax L L64).
Notation W := (binary_float prec emax).

Lemma gauss64_nonneg kind (wf cn : W) z r k : libm_nonneg L64 -> Bsign (gauss64 (L64 := L64) kind wf cn z r k) = false.
Proof. intros (H1 & H2 & H3). unfold gauss64. destruct kind; auto. Qed.

Lemma raw64_nonneg kind (wf cn : W) z r : libm_nonneg L64 -> Bsign (raw64 (L64 := L64) kind wf cn z r) = false.
Proof. intros H. apply sum64_nonneg. intros. now apply gauss64_nonneg. Qed.

(** the model's weight, for unnormalised weights [e] *)
Definition gwv64 (z : nat) (e : nat -> binary_float 53 1024) (r : nat) : W :=
  let t := bconv prec emax (Bdiv mode_NE (e r)
             (if (0 <? n_gauss z r)%Z then tsum64 L64 7 e else blit 53 1024 (1 # 10 ^ 300))) in
  if is_nan t || Bltb Bmax_float t
  then if Beqb (cn64 z r) (cmax64 z) then blit prec emax 1 else blit prec emax 0
  else t.

Lemma cnref_is z r : cnref (N := N) (Z.of_nat z) r = cn64 z r.
Proof. unfold cnref, t2. rewrite Nat2Z.id. reflexivity. Qed.
Lemma fsum_is n f : fsum (K := db N) n f = tsum64 L64 n f.
Proof.
  unfold fsum, tsum64. change (fplan (s := db N)) with (l_plan L64). generalize (proj1_sig (l_plan L64 n)). intros t.
  induction t as [|k|a IHa b IHb]; [reflexivity|reflexivity|]. cbn [feval tree64]. now rewrite IHa, IHb.
Qed.
Lemma maxcn_is z : maxcn (N := N) (Z.of_nat z) = cmax64 z.
Proof. unfold maxcn, fmaxn, cmax64. rewrite !cnref_is. reflexivity. Qed.

Lemma gwv_is z e r : gwv (N := N) (Z.of_nat z) e r = gwv64 z e r.
Proof.
  unfold gwv, gwt, normv, exceptional, present, nref, t2. rewrite Nat2Z.id, fsum_is, cnref_is, maxcn_is.
  change (dat refc [r; z]) with (n_gauss z r). unfold gwv64. generalize (n_gauss z r) (cn64 z r) (cmax64 z). intros c x y.
  set (l3 := flit (1 # 10 ^ 300)). change (blit 53 1024 (1 # 10 ^ 300)) with l3. clearbody l3.
  cbn [IN IS sc db up down fdiv fisnan flt feq flit fmaxfin].
  reflexivity.
Qed.

Lemma gwv64_absent z e r : ~ exists_ref z r -> e r = B754_zero false -> gwv64 z e r = B754_zero false.
Proof.
  intros Ne E. unfold gwv64. rewrite E. unfold exists_ref in Ne.
  destruct (Z.ltb_spec 0 (n_gauss z r)); [contradiction|].
  destruct lit300 as (m & x & H3 & ->). simpl Bdiv. simpl bconv. simpl is_nan.
  rewrite (not_above_max (Hp := Hp) (He := He)) by reflexivity. reflexivity.
Qed.

Lemma gwv64_cases z e r : (forall k, (k < 7)%nat -> Bsign (e k) = false) -> (r < 7)%nat -> exists_ref z r ->
     (is_nan (Bdiv mode_NE (e r) (tsum64 L64 7 e)) = true /\
      gwv64 z e r = if Beqb (cn64 z r) (cmax64 z) then blit prec emax 1 else blit prec emax 0) \/
     (unit_float (Bdiv mode_NE (e r) (tsum64 L64 7 e)) /\ gwv64 z e r = bconv prec emax (Bdiv mode_NE (e r) (tsum64 L64 7 e))).
Proof.
  intros Se Hr Ex. destruct (tsum64_nonneg L64 7 e Se) as (Ss & Fs).
  unfold gwv64. rewrite (proj2 (Z.ltb_lt _ _) Ex).
  destruct (div_unit (Hp := Hp64) (He := He64) (e r) (tsum64 L64 7 e) (Se r Hr) Ss (fun F => Fs F r Hr)) as [Nn|U].
  - left. rewrite bconv_nan, Nn. auto.
  - right. destruct (bconv_unit (Hp := Hp) (He := He) _ U) as ((Ft & _) & _).
    rewrite is_nan_finite, (not_above_max (Hp := Hp) (He := He)) by exact Ft. auto.
Qed.

Lemma one_unit : unit_float (blit prec emax 1).
Proof.
  destruct (bratio_1 (Hp := Hp) (He := He)) as (E & F). split; [exact F|].
  change (0 <= B2R (bratio prec emax false 1 1) <= 1). rewrite E. lra.
Qed.

Lemma div_not_nan (x s : binary_float 53 1024) : is_finite x = true -> is_finite s = true -> B2R s <> 0 ->
  is_nan (Bdiv mode_NE x s) = false.
Proof.
  intros Fx Fs Nz. generalize (Bdiv_correct _ _ Hp64 He64 mode_NE x s Nz). destruct Rlt_bool.
  - intros (_ & Ff & _). rewrite Fx in Ff. now apply is_nan_finite in Ff.
  - intros E. apply B2SF_inf_inv in E. rewrite E. reflexivity.
Qed.

Lemma gwv64_unit z e r : (forall k, (k < 7)%nat -> Bsign (e k) = false) -> (r < 7)%nat ->
  (~ exists_ref z r -> e r = B754_zero false) -> unit_float (gwv64 z e r).
Proof.
  intros Se Hr H0. destruct (Z_lt_dec 0 (n_gauss z r)) as [Ex|Ne].
  - destruct (gwv64_cases z e r Se Hr Ex) as [(_ & ->)|(U & ->)].
    + destruct Beqb; [exact one_unit|]. split; [reflexivity|simpl; lra].
    + apply (bconv_unit (Hp := Hp) (He := He) _ U).
  - rewrite (gwv64_absent z e r Ne (H0 Ne)). split; [reflexivity|simpl; lra].
Qed.

Lemma gwv64_rescue z e r : (forall k, (k < 7)%nat -> Bsign (e k) = false) -> (z <= 103)%nat -> (r < 7)%nat -> exists_ref z r ->
  is_nan (Bdiv mode_NE (e r) (tsum64 L64 7 e)) = true ->
  (largest_cn z r -> B2R (gwv64 z e r) = 1%R) /\ (~ largest_cn z r -> B2R (gwv64 z e r) = 0%R).
Proof.
  intros Se Hz Hr Ex Nn.
  assert (Hz' : (1 <= z <= 103)%nat).
  { destruct z; [|lia]. exfalso. now apply (C38_padding_has_no_references r Hr). }
  destruct (gwv64_cases z e r Se Hr Ex) as [(_ & E)|((F & _) & _)].
  2:{ apply is_nan_finite in F. rewrite Nn in F. discriminate. }
  rewrite E. split.
  - intros Lg. rewrite (proj2 (largest_cn_spec z r Hz' Hr Ex) Lg). apply (bratio_1 (Hp := Hp) (He := He)).
  - intros NL. destruct (Beqb (cn64 z r) (cmax64 z)) eqn:Eb; [|reflexivity].
    exfalso. apply NL. exact (proj1 (largest_cn_spec z r Hz' Hr Ex) Eb).
Qed.

Lemma raw64_absent kind (wf cn : W) z r : ~ exists_ref z r -> raw64 (L64 := L64) kind wf cn z r = B754_zero false.
Proof.
  unfold exists_ref, raw64. intros Ne. replace (Z.to_nat (n_gauss z r)) with 0%nat by lia. reflexivity.
Qed.

Lemma weight_spec_ok kind (wf cn : W) z r : libm_nonneg L64 -> (z <= 103)%nat -> (r < 7)%nat ->
  weight_spec (L64 := L64) kind wf cn z r (gwv64 z (raw64 (L64 := L64) kind wf cn z) r).
Proof.
  intros HL Hz Hr.
  assert (Se : forall k, (k < 7)%nat -> Bsign (raw64 (L64 := L64) kind wf cn z k) = false) by (intros; now apply raw64_nonneg).
  assert (Ab : forall k, ~ exists_ref z k -> raw64 (L64 := L64) kind wf cn z k = B754_zero false) by (intros; now apply raw64_absent).
  destruct (tsum64_nonneg L64 7 (raw64 (L64 := L64) kind wf cn z) Se) as (Ss & Fs).
  split; unfold norm64; revert Se Ab Ss Fs; generalize (raw64 (L64 := L64) kind wf cn z); intros e Se Ab Ss Fs.
  - apply gwv64_unit; auto.
  - intros Ne. apply gwv64_absent; auto.
  - intros Ex F Nz. destruct (gwv64_cases z e r Se Hr Ex) as [(Nn & _)|(U & E)]; [|exact E]. exfalso.
    destruct (Fs F r Hr) as (Fr & _). rewrite (div_not_nan _ _ Fr F Nz) in Nn. discriminate.
  - intros H.
    assert (Z0 : is_nan (Bdiv mode_NE (e r) (tsum64 L64 7 e)) = true).
    { destruct H as [H|H].
      - assert (E0 : forall s, (s < 7)%nat -> e s = B754_zero false).
        { intros s Hs. destruct (Z_lt_dec 0 (n_gauss z s)) as [Es|Es]; [now apply H|now apply Ab]. }
        rewrite (E0 r Hr), (tsum64_zero L64 7 e E0). reflexivity.
      - destruct (tsum64 L64 7 e); try discriminate. destruct (e r); reflexivity. }
    split.
    + intros Lg. exact (proj1 (gwv64_rescue z e r Se Hz Hr (proj1 Lg) Z0) Lg).
    + intros Ex NL. exact (proj2 (gwv64_rescue z e r Se Hz Hr Ex Z0) NL).
Qed.

(** the model's unnormalised weights *)
Lemma fold_fsum n (f : nat -> db N) :
  fold_left (fun acc i => fadd acc (f i)) (seq 1 n) (flit 0) = sum64 n (fun k => f (S k)).
Proof.
  induction n as [|n IH]; [reflexivity|].
  rewrite seq_S, fold_left_app, IH. reflexivity.
Qed.

Lemma expw4_is z cn wf r : (z <= 103)%nat -> (r < 7)%nat ->
  expw4 (N := N) (Z.of_nat z) cn wf r = raw64 (L64 := L64) D4M wf cn z r.
Proof.
  intros Hz Hr. unfold expw4, present, nref, t2. rewrite Nat2Z.id. change (dat refc [r; z]) with (n_gauss z r).
  assert (T : tmp4 (N := N) (Z.of_nat z) cn r = l_exp L64 (let d := Bminus mode_NE (bconv 53 1024 cn) (cn64 z r) in
     Bmult mode_NE (Bopp d) d)).
  { unfold tmp4, dcnv. rewrite cnref_is. generalize (cn64 z r). intros c.
    cbn [IN IS sc db up down fsub fexp fmul fopp]. reflexivity. }
  unfold raw64, gauss64. rewrite T. cbv zeta.
  generalize (l_exp L64 (Bmult mode_NE (Bopp (Bminus mode_NE (bconv 53 1024 cn) (cn64 z r)))
     (Bminus mode_NE (bconv 53 1024 cn) (cn64 z r)))). intros t.
  unfold pow4. rewrite !fold_fsum.
  destruct (C38_reference_counts z r Hz Hr) as [E|[E|E]]; rewrite E; [reflexivity| |].
  - change (0 <? 1)%Z with true. change (3 =? 1)%Z with false. change (1 =? 1)%Z with true. cbv iota.
    change (Z.to_nat 1) with 1%nat. apply sum64_ext. intros. unfold pw4. reflexivity.
  - change (0 <? 3)%Z with true. change (3 =? 3)%Z with true. cbv iota.
    change (Z.to_nat 3) with 3%nat. apply sum64_ext. intros. unfold pw4. reflexivity.
Qed.
Lemma expw4s_is z cn wf r : (z <= 103)%nat -> (r < 7)%nat ->
  expw4s (N := N) (Z.of_nat z) cn wf r = raw64 (L64 := L64) D4SM wf cn z r.
Proof.
  intros Hz Hr. unfold expw4s, present, nref, t2. rewrite Nat2Z.id. change (dat refc [r; z]) with (n_gauss z r).
  assert (T : exists_ref z r -> tmp4s (N := N) (Z.of_nat z) cn wf r =
     l_exp L64 (Bmult mode_NE (let d := Bminus mode_NE (bconv 53 1024 cn) (cn64 z r) in
     Bmult mode_NE (Bopp d) d) (bconv 53 1024 wf))).
  { intros Ex. unfold tmp4s, present, nref, t2, dcnv. rewrite cnref_is, Nat2Z.id. change (dat refc [r; z]) with (n_gauss z r).
    rewrite (proj2 (Z.ltb_lt _ _) Ex). generalize (cn64 z r). intros c.
    cbn [IN IS sc db up down fsub fexp fmul fopp]. reflexivity. }
  unfold raw64, gauss64. unfold pow4s. rewrite !fold_fsum. cbv zeta.
  destruct (C38_reference_counts z r Hz Hr) as [E|[E|E]].
  - rewrite E. reflexivity.
  - rewrite T by (unfold exists_ref; lia). rewrite E.
    change (0 <? 1)%Z with true. change (3 =? 1)%Z with false. change (1 =? 1)%Z with true. cbv iota.
    change (Z.to_nat 1) with 1%nat. apply sum64_ext. intros. cbn [IN IS sc db fpown]. reflexivity.
  - rewrite T by (unfold exists_ref; lia). rewrite E.
    change (0 <? 3)%Z with true. change (3 =? 3)%Z with true. cbv iota.
    change (Z.to_nat 3) with 3%nat. apply sum64_ext. intros. cbn [IN IS sc db fpown]. reflexivity.
Qed.

(** ** a coordination number far from all references *)
Lemma far_gauss kind (wf cn : W) z r k : libm_underflow L64 -> (kind = D4M \/ kind = D4SM) ->
  (z <= 103)%nat -> (r < 7)%nat -> far_cn cn -> factor_ge_1 wf ->
  gauss64 (L64 := L64) kind wf cn z r (S k) = B754_zero false.
Proof.
  intros (U1 & U2 & U3) Hk Hz Hr Hf Hwf. destruct (cn64_range z r Hz Hr) as (Fc & Rc).
  assert (R30 := rnd64_int 30 ltac:(lia)). assert (R50 := rnd64_int 50 ltac:(lia)).
  assert (R900 := rnd64_int 900 ltac:(lia)). assert (R1 := rnd64_int 1 ltac:(lia)).
  set (d := Bminus mode_NE (bconv 53 1024 cn) (cn64 z r)).
  assert (Hd : at_least d 30 \/ at_most d (-30)).
  { destruct Hf as [Hf|Hf].
    - left. replace 30 with (50 - 20) by lra. apply sub_at_least; try lra.
      + apply bconv_at_least; auto. lra.
      + exact Fc.
      + replace (50 - 20) with 30 by lra. exact R30.
    - right. replace (-30) with (- (30)) by lra. apply sub_at_most; try lra; auto.
      apply bconv_at_most; auto; lra. }
  assert (Hd2 : at_most (Bmult mode_NE (Bopp d) d) (- (30 * 30))).
  { assert (R9 : round radix2 (SpecFloat.fexp 53 1024) (round_mode mode_NE) (30 * 30) = 30 * 30)
      by (replace (30 * 30) with 900 by lra; exact R900).
    destruct Hd as [Hd|Hd].
    - apply (mul_at_most (Bopp d) d 30 30); try lra; auto. now apply at_most_opp.
    - assert (Ho : at_least (Bopp d) 30) by (replace 30 with (- (-30)) by lra; now apply at_least_opp).
      assert (Hd' : at_most d (- (30))) by (replace (- (30)) with (-30) by lra; exact Hd).
      exact (proj2 (mul_at_most d (Bopp d) 30 30 Hd' Ho ltac:(lra) ltac:(lra) R9)). }
  assert (M8 : forall x : binary_float 53 1024, at_most x (- (30 * 30)) -> l_exp L64 x = B754_zero false).
  { intros x Hx. apply U1. destruct Hx as [Hx|(Fx & Lx)]; [now left|right]. split; auto. lra. }
  unfold gauss64. fold d. destruct Hk as [->| ->].
  - rewrite (M8 _ Hd2). apply U2.
    assert (Hy : at_least (bconv 53 1024 (Bmult mode_NE (blit prec emax (inject_Z (Z.of_nat (S k)))) wf)) 1).
    { apply bconv_at_least; try lra; auto. replace 1 with (1 * 1) by lra.
      pose proof (rnd_1 (Hp := Hp) (He := He)) as Rw.
      apply mul_at_least; try lra; auto.
      - change (blit prec emax (inject_Z (Z.of_nat (S k)))) with (bratio prec emax false (Pos.of_succ_nat k) 1).
        apply bratio_at_least; try lra; auto. unfold Rdiv. rewrite Rinv_1, Rmult_1_r. apply IZR_le. lia.
      - rewrite Rmult_1_r. exact Rw. }
    destruct Hy as [Hy|(Fy & Ly)]; [now left|right]. split; auto. lra.
  - rewrite M8; [apply U3|].
    replace (30 * 30) with ((30 * 30) * 1) by lra.
    assert (R9 : round radix2 (SpecFloat.fexp 53 1024) (round_mode mode_NE) (30 * 30 * 1) = 30 * 30 * 1)
      by (replace (30 * 30 * 1) with 900 by lra; exact R900).
    assert (Hw : at_least (bconv 53 1024 wf) 1) by (apply bconv_at_least; auto; lra).
    exact (proj1 (mul_at_most _ _ (30 * 30) 1 Hd2 Hw ltac:(lra) ltac:(lra) R9)).
Qed.

Lemma far_raw kind (wf cn : W) z r : libm_underflow L64 -> (kind = D4M \/ kind = D4SM) ->
  (z <= 103)%nat -> (r < 7)%nat -> far_cn cn -> factor_ge_1 wf ->
  raw64 (L64 := L64) kind wf cn z r = B754_zero false.
Proof. intros. apply sum64_zero. intros. now apply far_gauss. Qed.
End W.

(** ** the charge factor *)
Section Z.
Context {prec emax : Z} {Hp : Prec_gt_0 prec} {He : Prec_lt_emax prec emax}.
Notation W := (binary_float prec emax).
Notation rnd := (round radix2 (SpecFloat.fexp prec emax) (round_mode mode_NE)).

Lemma minus_nan (x y : W) : is_finite x = true \/ is_finite y = true -> is_nan x = false -> is_nan y = false ->
  is_nan (Bminus mode_NE x y) = false.
Proof.
  intros F Nx Ny. destruct (is_finite x) eqn:Fx; [destruct (is_finite y) eqn:Fy|].
  - pose proof (Bminus_correct _ _ Hp He mode_NE x y Fx Fy) as C. destruct Rlt_bool.
    + apply is_nan_finite, C.
    + destruct C as (C & _). apply B2SF_inf_inv in C. now rewrite C.
  - destruct y as [s|s| |s m e G]; try discriminate; destruct x as [t|t| |t n f K]; try discriminate; reflexivity.
  - destruct F as [F|F]; [discriminate|].
    destruct x as [s|s| |s m e G]; try discriminate; destruct y as [t|t| |t n f K]; try discriminate; reflexivity.
Qed.

Lemma div_nan (x y : W) : is_finite_strict x = true -> is_nan y = false -> is_nan (Bdiv mode_NE x y) = false.
Proof.
  intros Fx Ny. destruct x as [s|s| |s m e G]; try discriminate.
  destruct y as [t|t| |t n f K]; try discriminate; try reflexivity.
  assert (Nz : B2R (B754_finite t n f K) <> 0).
  { simpl. apply F2R_neq_0. now destruct t. }
  pose proof (Bdiv_correct _ _ Hp He mode_NE (B754_finite s m e G) (B754_finite t n f K) Nz) as C. destruct Rlt_bool.
  - apply is_nan_finite. destruct C as (_ & -> & _). reflexivity.
  - apply B2SF_inf_inv in C. now rewrite C.
Qed.

Lemma mul_nan (x y : W) : is_finite_strict x = true -> is_nan y = false -> is_nan (Bmult mode_NE x y) = false.
Proof.
  intros Fx Ny. destruct x as [s|s| |s m e G]; try discriminate.
  destruct y as [t|t| |t n f K]; try discriminate; try reflexivity.
  pose proof (Bmult_correct _ _ Hp He mode_NE (B754_finite s m e G) (B754_finite t n f K)) as C. destruct Rlt_bool.
  - apply is_nan_finite. destruct C as (_ & -> & _). reflexivity.
  - apply B2SF_inf_inv in C. now rewrite C.
Qed.

Lemma not_nan_cases (x : W) : is_nan x = false -> Bsign x = false -> x = B754_infinity false \/ (is_finite x = true /\ 0 <= B2R x).
Proof.
  intros Nx Sx. pose proof (sign_nonneg x Sx). destruct x as [s|s| |s m e G]; try discriminate; auto.
  simpl in Sx. subst s. now left.
Qed.

Lemma one_minus (o x : W) : is_finite o = true -> B2R o = 1 -> is_nan x = false -> Bsign x = false ->
  at_most (Bminus mode_NE o x) 1.
Proof.
  intros Fo Eo Nx Sx. destruct (not_nan_cases x Nx Sx) as [->|(Fx & Px)].
  - left. destruct o; try discriminate; reflexivity.
  - pose proof (Bminus_correct _ _ Hp He mode_NE o x Fo Fx) as C. rewrite Eo in C.
    assert (U : rnd (1 - B2R x) <= rnd 1) by (apply rnd_mono; lra).
    rewrite (rnd_1 (prec := prec) (emax := emax)) in U.
    revert C. destruct (Rlt_bool_spec (Rabs (rnd (1 - B2R x))) (bpow radix2 emax)) as [H|H]; intros C.
    + destruct C as (E & F & _). right. rewrite E. auto.
    + destruct C as (E & Es). exfalso. rewrite Sx in Es. simpl in Es.
      assert (Bsign o = false).
      { apply (at_least_sign o 1); [right; split; auto; lra|lra]. }
      congruence.
Qed.

Lemma mul_le (a y : W) : is_finite a = true -> 0 < B2R a -> at_most y 1 -> at_most (Bmult mode_NE a y) (B2R a).
Proof.
  intros Fa Pa Hy. assert (Sa : Bsign a = false) by (apply (at_least_sign a (B2R a)); [right; split; auto; lra|lra]).
  destruct Hy as [->|(Fy & Ly)].
  - left. destruct a as [s|s| |s m e G]; simpl in *; try discriminate; try lra. now subst s.
  - pose proof (Bmult_correct _ _ Hp He mode_NE a y) as C.
    assert (U : rnd (B2R a * B2R y) <= B2R a).
    { rewrite <- (rnd_B2R a) at 2. apply rnd_mono. rewrite <- (Rmult_1_r (B2R a)) at 2. apply Rmult_le_compat_l; lra. }
    revert C. destruct (Rlt_bool_spec (Rabs (rnd (B2R a * B2R y))) (bpow radix2 emax)) as [H|H]; intros C.
    + destruct C as (E & F & _). right. rewrite E, F, Fa, Fy. auto.
    + apply B2SF_inf_inv in C. left. rewrite C, Sa. simpl. f_equal.
      destruct (Bsign y) eqn:Sy; auto. exfalso. pose proof (sign_nonneg y Sy).
      assert (0 <= rnd (B2R a * B2R y)).
      { rewrite <- (rnd_0 (prec := prec) (emax := emax)). apply rnd_mono. apply Rmult_le_pos; lra. }
      rewrite Rabs_pos_eq in H by auto. pose proof (abs_B2R_lt_emax prec emax a) as L.
      rewrite Rabs_pos_eq in L by lra. lra.
Qed.

Lemma mul_unit (x g : W) : is_finite x = true -> unit_float g -> is_finite (Bmult mode_NE x g) = true.
Proof.
  intros Fx (Fg & Rg). pose proof (Bmult_correct _ _ Hp He mode_NE x g) as C.
  rewrite Rlt_bool_true in C.
  - destruct C as (_ & -> & _). now rewrite Fx, Fg.
  - apply Rle_lt_trans with (Rabs (B2R x)); [|apply abs_B2R_lt_emax; auto].
    assert (Bd : Rabs (B2R x * B2R g) <= Rabs (B2R x)).
    { rewrite Rabs_mult, (Rabs_pos_eq (B2R g)) by lra. rewrite <- (Rmult_1_r (Rabs (B2R x))) at 2.
      apply Rmult_le_compat_l; [apply Rabs_pos|lra]. }
    assert (RA : rnd (Rabs (B2R x)) = Rabs (B2R x)).
    { rewrite <- B2R_Babs. apply rnd_B2R. }
    apply Rabs_le. apply Rabs_le_inv in Bd. split.
    + rewrite <- RA, <- rnd_opp. apply rnd_mono. lra.
    + rewrite <- RA. apply rnd_mono. lra.
Qed.
End Z.
