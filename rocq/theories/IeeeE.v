(** * IEEE-754 arithmetic: accuracy of exponentials, literals and conversions (proof layer) *)
From Coq Require Import Reals Lra Lia ZArith QArith Qreals List Bool.
From Flocq Require Import Core.Core IEEE754.BinarySingleNaN.
From Verif Require Import Py Tensor Scalar RInst TensorLemmas EnergyR IeeeInst IeeeP IeeeB IeeeA IeeeM PropsFinite PropsAcc PropsAcc3.
Open Scope R_scope.

Lemma exp_mono a b : a <= b -> exp a <= exp b.
Proof. intros [T|T]; [left; now apply exp_increasing|rewrite T; lra]. Qed.
Lemma exp_small t : 0 <= t <= / 2 -> exp t <= 1 + 2 * t.
Proof.
  intros (T0 & T1). pose proof (exp_ineq1_le (- t)) as Q. rewrite exp_Ropp in Q. pose proof (exp_pos t) as P.
  apply Rmult_le_reg_r with (/ exp t); [now apply Rinv_0_lt_compat|]. rewrite Rinv_r by lra.
  apply Rle_trans with ((1 + 2 * t) * (1 + - t)); [nra|apply Rmult_le_compat_l; lra].
Qed.
Lemma ln2_ge : 2 / 3 <= ln 2.
Proof.
  assert (E : exp (2 / 3) <= 2).
  { replace (2 / 3) with (INR 16 * (1 / 24)) by (simpl; lra).
    assert (P : forall n, exp (INR n * (1 / 24)) = exp (1 / 24) ^ n).
    { induction n as [|n IH]; [simpl; rewrite Rmult_0_l; apply exp_0|]. rewrite S_INR, Rmult_plus_distr_r, exp_plus, IH, Rmult_1_l. simpl. ring. }
    rewrite P. assert (U : exp (1 / 24) <= 24 / 23).
    { pose proof (exp_ineq1_le (- (1 / 24))) as Q. rewrite exp_Ropp in Q. pose proof (exp_pos (1 / 24)) as P0.
      apply Rmult_le_reg_r with (/ exp (1 / 24)); [now apply Rinv_0_lt_compat|]. rewrite Rinv_r by lra. lra. }
    apply Rle_trans with ((24 / 23) ^ 16); [|lra]. apply pow_incr. split; [left; apply exp_pos|exact U]. }
  rewrite <- (ln_exp (2 / 3)). destruct E as [E|E]; [left; apply ln_increasing; [apply exp_pos|exact E]|rewrite E; lra].
Qed.
(** [e < 2^(3/2)] *)
Lemma exp_rng r z : 3 * Rabs r <= 2 * IZR z -> bpow radix2 (- z) <= exp r <= bpow radix2 z.
Proof.
  intros H. rewrite !bpow_exp, opp_IZR. change (IZR radix2) with 2. pose proof ln2_ge as L.
  assert (Z0 : 0 <= IZR z) by (pose proof (Rabs_pos r); lra).
  assert (Q : Rabs r <= IZR z * ln 2).
  { apply Rle_trans with (IZR z * (2 / 3)); [lra|apply Rmult_le_compat_l; lra]. }
  apply Rabs_le_inv in Q. split; apply exp_mono; lra.
Qed.

Section E.
Context {prec emax : Z} {Hp : Prec_gt_0 prec} {He : Prec_lt_emax prec emax}.
Notation F := (binary_float prec emax).
Notation p2 := (bpow radix2).
Notation w := (w (prec := prec)).
Notation few := (few (prec := prec)).
Notation appr := (appr (prec := prec) (emax := emax)).
Notation mapr := (mapr (prec := prec) (emax := emax)).
Notation rnd := (round radix2 (SpecFloat.fexp prec emax) (round_mode mode_NE)).

Lemma ln_w_le : ln w <= p2 (- prec).
Proof.
  assert (E : w <= exp (p2 (- prec))) by apply exp_ineq1_le.
  rewrite <- (ln_exp (p2 (- prec))). destruct E as [E|E]; [left; apply ln_increasing; [apply w_pos|exact E]|rewrite <- E; lra].
Qed.
Lemma few_u k : few k -> INR k * p2 (- prec) <= / 2.
Proof.
  intros H. pose proof (prec_gt_0 prec) as P.
  apply IZR_le in H. rewrite mult_IZR, (IZR_Zpower radix2) in H by lia. rewrite <- INR_IZR_INZ in H.
  apply Rmult_le_reg_r with (p2 prec); [apply bpow_gt_0|]. rewrite Rmult_assoc, <- bpow_plus.
  replace (- prec + prec)%Z with 0%Z by ring. simpl (p2 0). lra.
Qed.
(** [k] roundings are at most [2 k ln w] *)
Lemma wk_lin k : few k -> w ^ k - 1 <= 2 * (INR k * ln w).
Proof.
  intros H. pose proof (few_u k H) as U. pose proof ln_w_le as L. pose proof (ln_w_pos (prec := prec)) as L0.
  rewrite <- exp_ln_w. pose proof (pos_INR k) as K0.
  assert (T : INR k * ln w <= INR k * p2 (- prec)) by now apply Rmult_le_compat_l.
  pose proof (exp_small (INR k * ln w)) as S. assert (0 <= INR k * ln w) by now apply Rmult_le_pos. lra.
Qed.

(** numbers whose logarithms are close *)
Lemma exp_near x r j : Rabs (x - r) <= INR j * ln w -> exp r <= exp x * w ^ j /\ exp x <= exp r * w ^ j.
Proof.
  intros H. apply Rabs_le_inv in H. rewrite <- exp_ln_w, <- !exp_plus. split; apply exp_mono; lra.
Qed.

(** what is required of [torch.exp] *)
Definition exp_accurate (L : Libm prec emax) (ke : nat) : Prop := forall x : F, is_finite x = true ->
  p2 (2 - emax) <= exp (B2R x) <= p2 (emax - 1) -> within ke (l_exp L x) (exp (B2R x)).

Lemma appr_exp {L : Libm prec emax} ke k0 lo0 hi0 m (x : F) r A k z : exp_accurate L ke -> mapr k0 lo0 hi0 m x r -> m <= INR A ->
  few k0 -> few k -> (2 * k0 * A + ke <= k)%nat -> 3 * Rabs r <= 2 * IZR z -> (z + 3 <= emax)%Z ->
  appr k (- z) z (l_exp L x) (exp r).
Proof.
  intros EA H Hm F0 Fk Hk R Hz. pose proof (mapr_nonneg _ _ _ _ _ _ H) as Pm. destruct H as [Fx _ _ E].
  assert (D : Rabs (B2R x - r) <= INR (2 * k0 * A) * ln w).
  { apply Rle_trans with (1 := E). pose proof (wk_lin k0 F0) as W. pose proof (wk_ge1 (prec := prec) k0) as W1.
    rewrite !mult_INR. change (INR 2) with 2. replace (2 * INR k0 * INR A * ln w) with ((2 * (INR k0 * ln w)) * INR A) by ring.
    apply Rmult_le_compat; lra. }
  destruct (exp_near _ _ _ D) as (D1 & D2). set (j := (2 * k0 * A)%nat) in *.
  pose proof (few_2 (prec := prec) j ltac:(apply (few_le j k Fk); lia)) as W2. pose proof (wk_ge1 (prec := prec) j) as W1.
  destruct (exp_rng r z R) as (R1 & R2). pose proof (exp_pos r) as Pr. pose proof (exp_pos (B2R x)) as Px.
  assert (RQ : p2 (2 - emax) <= exp (B2R x) <= p2 (emax - 1)).
  { split.
    - assert (T : p2 (3 - emax) <= p2 (- z)) by (apply bpow_le; lia).
      replace (3 - emax)%Z with (2 - emax + 1)%Z in T by ring. rewrite bpow_plus in T. change (p2 1) with 2 in T.
      assert (exp (B2R x) * w ^ j <= exp (B2R x) * 2) by (apply Rmult_le_compat_l; lra). lra.
    - assert (T : p2 z <= p2 (emax - 2)) by (apply bpow_le; lia).
      replace (emax - 1)%Z with (emax - 2 + 1)%Z by ring. rewrite bpow_plus. change (p2 1) with 2.
      assert (exp r * w ^ j <= exp r * 2) by (apply Rmult_le_compat_l; lra). lra. }
  pose proof (EA x Fx RQ) as Wi. destruct (within_le _ _ _ Wi) as (A1 & A2). pose proof (growth_pos (prec := prec) ke) as We.
  change (growth (prec := prec) ke) with (w ^ ke) in *.
  apply (appr_weak (j + ke) (- z) z); try lia. split; [apply Wi|right; lra|..]; rewrite pow_add.
  - apply Rle_trans with (1 := D1). replace (B2R (l_exp L x) * (w ^ j * w ^ ke)) with (B2R (l_exp L x) * w ^ ke * w ^ j) by ring.
    apply Rmult_le_compat_r; lra.
  - apply Rle_trans with (1 := A2). rewrite <- Rmult_assoc. apply Rmult_le_compat_r; lra.
Qed.

(** literals *)
Lemma lit_round q : p2 (2 - emax) <= Rabs (Q2R q) <= p2 (emax - 2) ->
  is_finite (blit prec emax q) = true /\ B2R (blit prec emax q) = rnd (Q2R q).
Proof.
  destruct q as [[|m|m] d].
  - intros (H & _). unfold Q2R in H. cbn [Qnum] in H. rewrite Rmult_0_l, Rabs_R0 in H. pose proof (bpow_gt_0 radix2 (2 - emax)). lra.
  - intros (_ & H). unfold blit. cbn [Qnum Qden]. unfold bratio.
    pose proof (proj2 (Bdiv_correct_aux prec emax Hp He mode_NE false m 0 false d 0)) as Q.
    generalize (proj1 (Bdiv_correct_aux prec emax Hp He mode_NE false m 0 false d 0)). intros V. cbv zeta in Q.
    assert (E : F2R (Float radix2 (cond_Zopp false (Zpos m)) 0) / F2R (Float radix2 (cond_Zopp false (Zpos d)) 0) = Q2R (Zpos m # d)).
    { unfold F2R, Q2R. cbn [Fnum Fexp cond_Zopp Qnum Qden]. change (p2 0) with 1. unfold Rdiv. now rewrite !Rmult_1_r. }
    rewrite E in Q. rewrite Rlt_bool_true in Q; [split; [rewrite is_finite_SF2B; apply Q|rewrite B2R_SF2B; apply Q]|].
    apply Rle_lt_trans with (p2 (emax - 2)); [|apply bpow_lt; lia]. apply Rabs_le. apply Rabs_le_inv in H.
    rewrite <- (rnd_p2 (prec := prec) (emax := emax) (emax - 2)) by (pose proof (prec_gt_0 prec); pose proof (prec_lt_emax prec emax); lia).
    rewrite <- round_NE_opp. split; apply rnd_mono; lra.
  - intros (_ & H). unfold blit. cbn [Qnum Qden]. unfold bratio.
    pose proof (proj2 (Bdiv_correct_aux prec emax Hp He mode_NE true m 0 false d 0)) as Q.
    generalize (proj1 (Bdiv_correct_aux prec emax Hp He mode_NE true m 0 false d 0)). intros V. cbv zeta in Q.
    assert (E : F2R (Float radix2 (cond_Zopp true (Zpos m)) 0) / F2R (Float radix2 (cond_Zopp false (Zpos d)) 0) = Q2R (Zneg m # d)).
    { unfold F2R, Q2R. cbn [Fnum Fexp cond_Zopp Qnum Qden]. change (p2 0) with 1. unfold Rdiv. now rewrite !Rmult_1_r. }
    rewrite E in Q. rewrite Rlt_bool_true in Q; [split; [rewrite is_finite_SF2B; apply Q|rewrite B2R_SF2B; apply Q]|].
    apply Rle_lt_trans with (p2 (emax - 2)); [|apply bpow_lt; lia]. apply Rabs_le. apply Rabs_le_inv in H.
    rewrite <- (rnd_p2 (prec := prec) (emax := emax) (emax - 2)) by (pose proof (prec_gt_0 prec); pose proof (prec_lt_emax prec emax); lia).
    rewrite <- round_NE_opp. split; apply rnd_mono; lra.
Qed.
Lemma mapr_lit q lo hi : Q2R q = 0 \/ p2 lo <= Rabs (Q2R q) <= p2 hi -> (3 - emax <= lo)%Z -> (hi + 2 < emax)%Z ->
  mapr 1 lo hi (Rabs (Q2R q)) (blit prec emax q) (Q2R q).
Proof.
  intros R Hlo Hhi. destruct (Req_dec (Q2R q) 0) as [Z|NZ].
  - assert (Qnum q = 0%Z).
    { destruct q as [a d]. unfold Q2R in Z. cbn [Qnum Qden] in *. apply Rmult_integral in Z as [Z|Z]; [now apply eq_IZR_R0|].
      exfalso. revert Z. apply Rinv_neq_0_compat. apply not_0_IZR. discriminate. }
    rewrite Z, Rabs_R0. unfold blit. rewrite H. apply mapr_zero.
  - destruct R as [R|R]; [easy|].
    destruct (lit_round q) as (A & C).
    { split; [apply Rle_trans with (2 := proj1 R)|apply Rle_trans with (1 := proj2 R)]; apply bpow_le; lia. }
    destruct (round_m (prec := prec) (emax := emax) 0 lo hi (Rabs (Q2R q)) (Q2R q) (Q2R q)) as (_ & D); auto; try lra.
    + apply (few_le 0 0); [unfold few; simpl; pose proof (prec_gt_0 prec); assert (0 < 2 ^ prec)%Z by (apply Z.pow_pos_nonneg; lia); lia|lia].
    + rewrite Rminus_diag_eq by reflexivity. rewrite Rabs_R0. simpl. lra.
    + split; auto; try lra. rewrite C. exact D.
Qed.

(** [1 - 2 ..] the difference of a number and something much smaller *)
Lemma appr_mapr k lo hi m (x : F) r j : mapr k lo hi m x r -> 0 < r -> few k -> p2 lo <= r <= p2 hi -> m <= INR j * r -> few (4 * j * k) ->
  appr (4 * j * k) lo hi x r.
Proof.
  intros H Pr Fk R Hm Fj. pose proof (mapr_nonneg _ _ _ _ _ _ H) as Pm. destruct H as [Fx _ _ E]. pose proof (wk_lin k Fk) as W. pose proof (wk_ge1 (prec := prec) k) as W1.
  set (t := INR k * ln w) in *. pose proof (ln_w_pos (prec := prec)) as L0. assert (T0 : 0 <= t) by (apply Rmult_le_pos; [apply pos_INR|exact L0]).
  assert (D : Rabs (B2R x - r) <= 2 * INR j * t * r).
  { apply Rle_trans with (1 := E). apply Rle_trans with (2 * t * (INR j * r)); [apply Rmult_le_compat; try lra|right; ring]. }
  set (a := 2 * INR j * t) in *. assert (A0 : 0 <= a) by (unfold a; pose proof (pos_INR j); apply Rmult_le_pos; lra).
  assert (E4 : w ^ (4 * j * k) = exp (2 * a)).
  { rewrite <- exp_ln_w. f_equal. unfold a, t. rewrite !mult_INR. change (INR 4) with (1+1+1+1). ring. }
  assert (A1 : 2 * a <= / 2).
  { pose proof (few_u _ Fj) as U. pose proof ln_w_le as LL. unfold a, t. rewrite !mult_INR in U. change (INR 4) with (1+1+1+1) in U.
    pose proof (pos_INR j). pose proof (pos_INR k). assert (0 <= INR j * INR k) by now apply Rmult_le_pos.
    assert (INR j * INR k * ln w <= INR j * INR k * p2 (- prec)) by now apply Rmult_le_compat_l. lra. }
  pose proof (exp_ineq1_le (2 * a)) as X1. apply Rabs_le_inv in D as (D1 & D2).
  split; auto; rewrite E4.
  - apply Rle_trans with ((r - a * r) * (1 + 2 * a)); [nra|]. apply Rmult_le_compat; nra.
  - apply Rle_trans with (r * (1 + a)); [lra|apply Rmult_le_compat_l; lra].
Qed.
End E.

(** conversion to a wider format is exact *)
Lemma bconv_exact {p1 e1 q2 e2 : Z} {Hp1 : Prec_gt_0 p1} {He1 : Prec_lt_emax p1 e1} {Hp2 : Prec_gt_0 q2} {He2 : Prec_lt_emax q2 e2}
  (x : binary_float p1 e1) : (p1 <= q2)%Z -> (e1 <= e2)%Z -> is_finite x = true ->
  is_finite (bconv q2 e2 x) = true /\ B2R (bconv q2 e2 x) = B2R x.
Proof.
  intros Hpp Hee Fx. destruct x as [s|s| |s m e H]; try discriminate; [split; reflexivity|].
  simpl bconv. pose proof (binary_normalize_correct q2 e2 Hp2 He2 mode_NE (cond_Zopp s (Zpos m)) e s) as C.
  set (x := B754_finite s m e H : binary_float p1 e1) in *. assert (E : F2R (Float radix2 (cond_Zopp s (Zpos m)) e) = B2R x) by reflexivity.
  cbv zeta in C. rewrite E in C.
  assert (G : round radix2 (SpecFloat.fexp q2 e2) (round_mode mode_NE) (B2R x) = B2R x).
  { apply round_generic; [apply valid_rnd_round_mode|].
    pose proof (generic_format_B2R p1 e1 x) as G. apply (FLT_format_generic radix2 (3 - e1 - p1) p1) in G as [f E1 E2 E3].
    apply generic_format_FLT. exists f; auto.
    - apply Z.lt_le_trans with (1 := E2). apply Z.pow_le_mono_r; [reflexivity|exact Hpp].
    - change (3 - e2 - q2 <= Fexp f)%Z. lia. }
  rewrite G in C. rewrite Rlt_bool_true in C; [split; apply C|].
  apply Rlt_le_trans with (bpow radix2 e1); [apply abs_B2R_lt_emax|now apply bpow_le].
Qed.
