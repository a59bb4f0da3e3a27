(** * Reference weights in IEEE arithmetic (C27) *)
From Coq Require Import Reals Lra Lia List Arith ZArith QArith Qreals Bool String.
From Flocq Require Import Core.Core IEEE754.BinarySingleNaN.
From Verif Require Import Py Tensor Scalar ModelExt ModelUtils ModelModels SpecCall PropsTables
  DataRef DataPair IeeeInst IeeeP SpecIeee IeeeW TensorLemmas Closed ClosedM ClosedModels CallLemmas.
Import ListNotations.
Open Scope R_scope.

Local Existing Instance Hp64.
Local Existing Instance He64.

Section S.
Context {prec emax : Z} {Hp : Prec_gt_0 prec} {He : Prec_lt_emax prec emax}.
Context {L : Libm prec emax} {L64 : Libm 53 1024}.
Notation N := (IN prec emax L L64).
Notation W := (binary_float prec emax).
Notation T := (tensor (sc N)).
Context (X : Ext (sc N)).

Lemma ztv_is (kw : mkwargs N) ref z q r : ref = default (k_ref kw) "eeq"%string ->
  ztv X (default (k_ga kw) (flit GA_DEFAULT)) (default (k_gc kw) (flit GC_DEFAULT)) ref (Z.of_nat z) q r
  = charge_factor_w X kw z r q.
Proof.
  intros ->. unfold ztv, present, nref, t2, t1, tab_q, charge_factor_w, q_tab. rewrite !Nat2Z.id.
  change (dat refc [r; z]) with (n_gauss z r).
  destruct (0 <? n_gauss z r)%Z; [|reflexivity].
  destruct (default (k_ref kw) "eeq" =? "eeq")%string;
  [generalize (dat (@eeq_clsq (sc N)) [r; z])|generalize (dat (@gfn2_refq (sc N)) [r; z])]; intros qr;
  unfold zeta_s, zscale; cbn [IN IS sc fadd fsub fmul fdiv fexp flt feps flit]; reflexivity.
Qed.

Lemma wfv_is kind (kw : mkwargs N) numbers b i j : kind = D4M \/ kind = D4SM ->
  wfv kind kw (sl1 numbers b) b i j = wf_at kind kw numbers b i j.
Proof.
  intros Hk. unfold wfv, wf_at. destruct (k_wf kw); [destruct Hk as [->| ->]; reflexivity|].
  destruct Hk as [->| ->]; [reflexivity|].
  generalize (Z.to_nat (sl1 numbers b i)) (Z.to_nat (sl1 numbers b j)). intros zi zj. reflexivity.
Qed.

Lemma built_model kind kw numbers n B (m : Model N) : built X kind kw numbers n B m ->
  is_model X m kind kw numbers n B.
Proof.
  intros (HX & Hk & Hs & Hkw & Hel & cls & E).
  destruct (new_model_ok X kind cls numbers kw n B HX Hk Hs Hkw Hel) as (m' & E' & Hm').
  rewrite E in E'. injection E' as <-. exact Hm'.
Qed.

Lemma built_range kind kw numbers n B (m : Model N) b i : built X kind kw numbers n B m -> valid B b -> (i < n)%nat ->
  (0 <= sl1 numbers b i <= 103)%Z.
Proof.
  intros (_ & _ & Hs & _ & Hel & _) Hb Hi.
  assert (V : valid (shp numbers) (i :: b)) by (rewrite Hs; split; auto).
  unfold sl1. destruct Hel as [(_ & H)|(_ & H)]; specialize (H _ V); lia.
Qed.

(** weight of reference [r] of atom [i] (in the presence of atom [j]) *)
Lemma wt_is kind kw numbers n B (m : Model N) (cn q : option T) :
  is_model X m kind kw numbers n B -> kind = D4M \/ kind = D4SM ->
  (forall b i, valid B b -> (i < n)%nat -> (0 <= sl1 numbers b i <= 103)%Z) ->
  forall b i j r, valid B b -> (i < n)%nat -> (j < n)%nat -> (r < 7)%nat ->
     wt_of X m cn q b i j r = Bmult mode_NE (charge_factor_w X kw (Z.to_nat (sl1 numbers b i)) r (arg_at q b i))
       (gwv64 (L64 := L64) (Z.to_nat (sl1 numbers b i))
          (raw64 (L64 := L64) kind (wf_at kind kw numbers b i j) (arg_at cn b i) (Z.to_nat (sl1 numbers b i))) r).
Proof.
  intros (Hok & Ekind & Enum & Ega & Egc & Eref & Ewf) Hk HR b i j r Hb Hi Hj Hr.
  specialize (HR b i Hb Hi). unfold wt_of. rewrite Ewf, wfv_is, Enum, Ega, Egc by auto.
  replace (sl1 numbers b i) with (Z.of_nat (Z.to_nat (sl1 numbers b i))) by lia.
  assert (Hz : (Z.to_nat (sl1 numbers b i) <= 103)%nat) by lia.
  revert Hz. generalize (Z.to_nat (sl1 numbers b i)). intros z Hz. rewrite Nat2Z.id.
  change (cnq cn (i :: b)) with (arg_at cn b i). change (cnq q (i :: b)) with (arg_at q b i).
  unfold w4s, w4, is_d4s. rewrite (ztv_is kw (m_ref m) z (arg_at q b i) r Eref), !gwv_is, Ekind.
  assert (GE : forall e1 e2, (forall s, (s < 7)%nat -> e1 s = e2 s) -> gwv64 (L64 := L64) (prec := prec) (emax := emax) z e1 r = gwv64 (L64 := L64) z e2 r).
  { intros e1 e2 H. unfold gwv64. rewrite (tsum64_ext L64 7 e1 e2 H), (H r Hr). reflexivity. }
  destruct Hk as [->| ->].
  - rewrite (GE _ (raw64 (L64 := L64) D4M (wf_at D4M kw numbers b i j) (arg_at cn b i) z)); [reflexivity|].
    intros. apply expw4_is; auto.
  - rewrite (GE _ (raw64 (L64 := L64) D4SM (wf_at D4SM kw numbers b i j) (arg_at cn b i) z)); [reflexivity|].
    intros. apply expw4s_is; auto.
Qed.

(** the weights tensor, entry by entry *)
Lemma entries kind kw numbers n B (m : Model N) (cn q : option T) :
  built X kind kw numbers n B m -> opt_shape cn (n :: B) -> opt_shape q (n :: B) ->
  exists gw, weight_references X m cn q = Ok gw /\ shp gw = entry_shape kind n B /\
    forall b i j r, valid B b -> (i < n)%nat -> (j < n)%nat -> (r < 7)%nat ->
      let z := Z.to_nat (sl1 numbers b i) in
      entry kind gw b i j r = Bmult mode_NE (charge_factor_w X kw z r (arg_at q b i))
        (gwv64 (L64 := L64) z (raw64 (L64 := L64) kind (wf_at kind kw numbers b i j) (arg_at cn b i) z) r).
Proof.
  intros HC Hcn Hq. pose proof (built_model _ _ _ _ _ _ HC) as (Hok & Ekind & Enum & Ega & Egc & Eref & Ewf).
  destruct (weight_references_ev X m n B cn q Hok) as (gw & E & Hs & Hd).
  { destruct cn; auto. } { destruct q; auto. }
  pose proof (built_range kind kw numbers n B m) as HR.
  assert (Hk : kind = D4M \/ kind = D4SM) by apply HC.
  assert (Key : forall b i j r, valid B b -> (i < n)%nat -> (j < n)%nat -> (r < 7)%nat ->
     wt_of X m cn q b i j r = Bmult mode_NE (charge_factor_w X kw (Z.to_nat (sl1 numbers b i)) r (arg_at q b i))
       (gwv64 (L64 := L64) (Z.to_nat (sl1 numbers b i))
          (raw64 (L64 := L64) kind (wf_at kind kw numbers b i j) (arg_at cn b i) (Z.to_nat (sl1 numbers b i))) r)).
  { apply wt_is; auto. exact (built_model _ _ _ _ _ _ HC). }
  exists gw. split; [exact E|]. unfold is_d4s in Hs, Hd. rewrite Ekind in Hs, Hd.
  destruct Hk as [->| ->]; (split; [exact Hs|]); intros b i j r Hb Hi Hj Hr; cbv zeta; rewrite <- Key by auto.
  - unfold entry, sl2. rewrite Hd by (repeat split; auto). unfold ix2. unfold wt_of. rewrite !Ewf by auto.
    unfold is_d4s. rewrite Ekind. unfold wfv. reflexivity.
  - unfold entry, sl3. rewrite Hd by (repeat split; auto). reflexivity.
Qed.

(** ** C27 *)
(** Whatever coordination numbers are given (any float: also negative, infinite or NaN), whatever
    weighting factor, for D4 and D4S and any working precision: every returned weight is the charge
    factor, which does not depend on the coordination number, times a normalised weight that is a
    number in [0,1] and is given by the rounded quotient or, when all Gaussians underflow, is 1 for
    the reference of largest coordination number and 0 for the others. *)
Theorem C27_weights_ieee kind kw numbers n B (m : Model N) (cn q : option T) :
  libm_nonneg L64 -> built X kind kw numbers n B m -> opt_shape cn (n :: B) -> opt_shape q (n :: B) ->
  exists gw, weight_references X m cn q = Ok gw /\ shp gw = entry_shape kind n B /\
    forall b i j r, valid B b -> (i < n)%nat -> (j < n)%nat -> (r < 7)%nat ->
      let z := Z.to_nat (sl1 numbers b i) in
      exists g : W,
        weight_spec (L64 := L64) kind (wf_at kind kw numbers b i j) (arg_at cn b i) z r g /\
        entry kind gw b i j r = Bmult mode_NE (charge_factor_w X kw z r (arg_at q b i)) g.
Proof.
  intros HL HC Hcn Hq. destruct (entries kind kw numbers n B m cn q HC Hcn Hq) as (gw & E & Hs & H).
  exists gw. split; [exact E|]. split; [exact Hs|]. intros b i j r Hb Hi Hj Hr z.
  eexists. split; [|apply H; auto]. apply weight_spec_ok; auto.
  pose proof (built_range _ _ _ _ _ _ b i HC Hb Hi). unfold z. lia.
Qed.

(** all Gaussians underflow if the coordination number is far from the references: the weights are
    the charge factor of the reference of largest coordination number, and zero otherwise *)
Theorem C27_far_coordination_number kind kw numbers n B (m : Model N) (cn q : option T) gw b i j r :
  libm_nonneg L64 -> libm_underflow L64 -> built X kind kw numbers n B m ->
  opt_shape cn (n :: B) -> opt_shape q (n :: B) -> weight_references X m cn q = Ok gw ->
  valid B b -> (i < n)%nat -> (j < n)%nat -> (r < 7)%nat ->
  far_cn (arg_at cn b i) -> factor_ge_1 (wf_at kind kw numbers b i j) ->
  let z := Z.to_nat (sl1 numbers b i) in
  exists g : W, is_finite g = true /\
    entry kind gw b i j r = Bmult mode_NE (charge_factor_w X kw z r (arg_at q b i)) g /\
    (largest_cn z r -> B2R g = 1) /\ (~ largest_cn z r -> B2R g = 0).
Proof.
  intros HL HU HC Hcn Hq E Hb Hi Hj Hr Hf Hw z.
  destruct (C27_weights_ieee kind kw numbers n B m cn q HL HC Hcn Hq) as (gw' & E' & _ & H).
  rewrite E in E'. injection E' as <-. destruct (H b i j r Hb Hi Hj Hr) as (g & Hg & Eg). fold z in Hg, Eg.
  assert (Hz : (z <= 103)%nat) by (pose proof (built_range _ _ _ _ _ _ b i HC Hb Hi); unfold z; lia).
  exists g. split; [apply Hg|]. split; [exact Eg|].
  destruct (ws_underflow _ _ _ _ _ _ Hg) as (U1 & U2).
  { left. intros s Hs _. apply far_raw; auto. apply HC. }
  split; [exact U1|]. intros NL. destruct (Z_lt_dec 0 (n_gauss z r)) as [Ex|Ne]; [now apply U2|].
  rewrite (ws_absent _ _ _ _ _ _ Hg Ne). reflexivity.
Qed.

(** the charge factor is 0 or the exponential of something that is not above [ga] ... *)
Lemma charge_factor_arg kw z r q : charge_params_ok X kw z -> (r < 7)%nat ->
  charge_factor_w X kw z r q = B754_zero false \/
  exists y, charge_factor_w X kw z r q = l_exp L y /\ at_most y (B2R (default (k_ga kw) (blit prec emax 3))).
Proof.
  intros ((Fg & Pg) & (E1 & E2) & Fz & (Fm & Pm) & Hq) Hr. unfold charge_factor_w.
  destruct (Z.ltb_spec 0 (n_gauss z r)) as [Ex|]; [right|now left].
  destruct (Hq r Hr Ex) as (Fq & Pq). revert Fg Pg E2 Fm Pm Fq Pq.
  set (ga := default (k_ga kw) (blit prec emax 3)). set (gam := Bmult mode_NE _ (default (k_gc kw) _)).
  set (qref := Bplus mode_NE (q_tab _ z r) _). set (qmod := Bplus mode_NE q _).
  generalize ga gam qref qmod. clear ga gam qref qmod. intros ga gam qref qmod Fg Pg E2 Fm Pm Fq Pq.
  assert (St : forall x : W, is_finite x = true -> 0 < B2R x -> is_finite_strict x = true).
  { intros [s|s| |s mm e G]; simpl; try discriminate; auto; lra. }
  destruct (Bltb (blit prec emax 0) qmod) eqn:EL.
  - assert (Nq : is_nan qmod = false) by (destruct qmod; auto).
    assert (Ne : is_finite (Bldexp mode_NE Bone (1 - prec) : W) = true).
    { pose proof (Bldexp_correct prec emax Hp He mode_NE Bone (1 - prec)) as C.
      rewrite Bone_correct, Rmult_1_l in C. rewrite Rlt_bool_true in C.
      - destruct C as (_ & -> & _). apply is_finite_Bone.
      - pose proof (prec_gt_0 prec). pose proof (prec_lt_emax prec emax).
        assert (U : bpow radix2 (1 - prec) <= 1) by (change 1 with (bpow radix2 0); apply bpow_le; lia).
        assert (R1 := rnd_1 (prec := prec) (emax := emax)).
        assert (R2 : round radix2 (SpecFloat.fexp prec emax) (round_mode mode_NE) (bpow radix2 (1 - prec)) <= 1)
          by (rewrite <- R1 at 1; now apply rnd_mono).
        assert (R3 : 0 <= round radix2 (SpecFloat.fexp prec emax) (round_mode mode_NE) (bpow radix2 (1 - prec)))
          by (rewrite <- (rnd_0 (prec := prec) (emax := emax)); apply rnd_mono, bpow_ge_0).
        rewrite Rabs_pos_eq by exact R3. pose proof (bpow_emax_gt1 (prec := prec) (emax := emax)). lra. }
    revert Ne. generalize (Bldexp mode_NE Bone (1 - prec) : W). intros eps Ne.
    destruct (bratio_1 (Hp := Hp) (He := He)) as (O1 & O2).
    change (blit prec emax 1) with (bratio prec emax false 1 1).
    revert O1 O2. generalize (bratio prec emax false 1 1). intros one O1 O2.
    assert (N1 : is_nan (Bminus mode_NE qmod eps) = false) by (apply minus_nan; auto using is_nan_finite).
    assert (N2 : is_nan (Bdiv mode_NE qref (Bminus mode_NE qmod eps)) = false) by (apply div_nan; auto).
    assert (N3 := minus_nan one _ (or_introl O2) (is_nan_finite _ O2) N2).
    assert (N4 := mul_nan gam _ (St _ Fm Pm) N3).
    destruct (E1 _ N4) as (N5 & S5).
    assert (M := one_minus one _ O2 O1 N5 S5).
    eexists. split; [reflexivity|]. exact (mul_le ga _ Fg Pg M).
  - eexists. split; [reflexivity|]. right. split; auto. lra.
Qed.
(** ... and finite for every charge, NaN and infinities included ... *)
Lemma charge_factor_finite kw z r q : charge_params_ok X kw z -> (r < 7)%nat ->
  is_finite (charge_factor_w X kw z r q) = true.
Proof.
  intros H Hr. destruct (charge_factor_arg kw z r q H Hr) as [->|(y & -> & Hy)]; [reflexivity|]. now apply H.
Qed.

(** ... hence all weights are finite numbers, whatever coordination numbers and charges are given *)
Theorem C27_weights_finite kind kw numbers n B (m : Model N) (cn q : option T) gw :
  libm_nonneg L64 -> built X kind kw numbers n B m ->
  opt_shape cn (n :: B) -> opt_shape q (n :: B) -> weight_references X m cn q = Ok gw ->
  (forall b i, valid B b -> (i < n)%nat -> charge_params_ok X kw (Z.to_nat (sl1 numbers b i))) ->
  forall b i j r, valid B b -> (i < n)%nat -> (j < n)%nat -> (r < 7)%nat ->
    is_finite (entry kind gw b i j r) = true.
Proof.
  intros HL HC Hcn Hq E HP b i j r Hb Hi Hj Hr.
  destruct (C27_weights_ieee kind kw numbers n B m cn q HL HC Hcn Hq) as (gw' & E' & _ & H).
  rewrite E in E'. injection E' as <-. destruct (H b i j r Hb Hi Hj Hr) as (g & Hg & Eg).
  rewrite Eg. apply mul_unit; [|apply Hg]. apply charge_factor_finite; auto.
Qed.

(** the derivative with respect to the coordination number: charge factor times something that is
    never NaN *)
Theorem C27_derivative_not_nan kw numbers n B (m : Model N) (cn q : option T) dq :
  built X D4M kw numbers n B m -> opt_shape cn (n :: B) -> opt_shape q (n :: B) ->
  exists gw D rest, weight_references_gen X m cn q dq true = Ok (gw :: D :: rest) /\
    shp D = 7%nat :: n :: B /\
    forall b i r, valid B b -> (i < n)%nat -> (r < 7)%nat ->
      exists d : W, is_nan d = false /\
        sl2 D b i r = Bmult mode_NE (charge_factor_w X kw (Z.to_nat (sl1 numbers b i)) r (arg_at q b i)) d.
Proof.
  intros HC Hcn Hq. pose proof (built_model _ _ _ _ _ _ HC) as (Hok & Ekind & Enum & Ega & Egc & Eref & Ewf).
  destruct Hok as (HX & Hk & Hs & Hr & _ & Hwf). rewrite Ekind in Hwf.
  destruct (m_wf m) as [wf|] eqn:EW; [|contradiction].
  destruct (d4_weights_run X (m_numbers m) (n :: B) (m_ga m) (m_gc m) wf (dat wf []) (m_ref m) cn q dq true) as (l & El & Hl); auto.
  { split; auto. intros [|? ?] Hi; [reflexivity|destruct Hi]. }
  inversion Hl as [|gw s0 l0 sp0 H0 Hl0]; subst. inversion Hl0 as [|D s1 l1 sp1 H1 Hl1]; subst.
  exists gw, D, l1. split.
  { unfold weight_references_gen. rewrite Ekind, EW. exact El. }
  destruct H1 as (S1 & D1). split; [exact S1|]. intros b i r Hb Hi Hr'.
  exists (dgwv4 (N := N) (sl1 (m_numbers m) b i) (arg_at cn b i) (dat wf []) r). split.
  - unfold dgwv4. destruct exceptional eqn:EX; [reflexivity|]. unfold exceptional in EX. apply orb_false_iff in EX as (EX & _).
    revert EX. generalize (dgwt4 (N := N) (sl1 (m_numbers m) b i) (arg_at cn b i) (dat wf []) r). intros x EX.
    cbn [IN IS sc db down fisnan] in EX |- *. now rewrite bconv_nan.
  - unfold sl2. rewrite D1 by (repeat split; auto). unfold ix1.
    pose proof (built_range _ _ _ _ _ _ b i HC Hb Hi) as R.
    rewrite <- (ztv_is kw (m_ref m) _ _ r Eref). rewrite Z2Nat.id by lia. rewrite <- Ega, <- Egc. reflexivity.
Qed.
End S.
Print Assumptions C27_weights_ieee.
Print Assumptions C27_far_coordination_number.
Print Assumptions C27_weights_finite.
Print Assumptions C27_derivative_not_nan.
