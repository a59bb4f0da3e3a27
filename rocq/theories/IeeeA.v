(** * IEEE-754 arithmetic: relative errors (proof layer).

    [appr k lo hi x r]: the float [x] approximates the real number [r] up to [k] rounding errors,
    [r / (1 + u)^k <= x <= r (1 + u)^k] with [u = 2^-prec], and [r] is zero or between [2^lo] and [2^hi].
    There is no cancellation in the formulas treated here: all numbers are non-negative. *)
From Coq Require Import Reals Lra Lia ZArith QArith Qreals List Bool.
From Flocq Require Import Core.Core IEEE754.BinarySingleNaN Relative Plus_error.
From Verif Require Import Py Tensor Scalar RInst IeeeInst IeeeP IeeeB.

Section I.
Context {prec emax : Z} {Hp : Prec_gt_0 prec} {He : Prec_lt_emax prec emax}.
Notation B := (binary_float prec emax).
Notation fx := (SpecFloat.fexp prec emax).
Notation rnd := (round radix2 fx (round_mode mode_NE)).
Notation p2 := (bpow radix2).
Open Scope R_scope.
Local Existing Instance fx_valid.

Definition w : R := 1 + p2 (- prec).
Lemma w_ge1 : 1 <= w.
Proof. unfold w. pose proof (bpow_gt_0 radix2 (- prec)). lra. Qed.
Lemma w_pos : 0 < w.
Proof. pose proof w_ge1. lra. Qed.
Lemma wk_ge1 k : 1 <= w ^ k.
Proof. apply pow_R1_Rle, w_ge1. Qed.
Lemma wk_pos k : 0 < w ^ k.
Proof. apply pow_lt, w_pos. Qed.
Lemma wk_le j k : (j <= k)%nat -> w ^ j <= w ^ k.
Proof. intros H. apply Rle_pow; [apply w_ge1|exact H]. Qed.

(** [k] rounding errors are at most a factor 2 *)
Definition few (k : nat) : Prop := (2 * Z.of_nat k <= 2 ^ prec)%Z.
Lemma few_le j k : few k -> (j <= k)%nat -> few j.
Proof. unfold few. intros. lia. Qed.
Lemma few_2 k : few k -> w ^ k <= 2.
Proof.
  intros H. pose proof (prec_gt_0 prec) as P.
  assert (U : INR k * p2 (- prec) <= / 2).
  { apply IZR_le in H. rewrite mult_IZR, (IZR_Zpower radix2) in H by lia. rewrite <- INR_IZR_INZ in H.
    apply Rmult_le_reg_r with (p2 prec); [apply bpow_gt_0|]. rewrite Rmult_assoc, <- bpow_plus.
    replace (- prec + prec)%Z with 0%Z by ring. simpl. lra. }
  assert (E : w <= exp (p2 (- prec))).
  { unfold w. pose proof (exp_ineq1_le (p2 (- prec))). lra. }
  apply Rle_trans with (exp (p2 (- prec)) ^ k); [apply pow_incr; split; [left; apply w_pos|exact E]|].
  assert (X : exp (p2 (- prec)) ^ k = exp (INR k * p2 (- prec))).
  { clear. induction k; [simpl; now rewrite Rmult_0_l, exp_0|]. rewrite S_INR. cbn [pow]. rewrite IHk, <- exp_plus. f_equal. ring. }
  rewrite X. apply Rle_trans with (exp (/ 2)).
  { destruct U as [U| ->]; [left; now apply exp_increasing|lra]. }
  assert (Q : exp (/ 2) * exp (/ 2) <= 4).
  { rewrite <- exp_plus. replace (/ 2 + / 2) with 1 by lra. pose proof exp_le_3. lra. }
  pose proof (exp_pos (/ 2)). nra.
Qed.

(** one rounding *)
Lemma u_ro_u : u_ro radix2 prec = p2 (- prec).
Proof.
  unfold u_ro. change (/ 2) with (p2 (-1)). rewrite <- bpow_plus. f_equal. ring.
Qed.
Lemma rel_1 v r eps : 0 <= v -> Rabs eps <= u_ro radix2 prec / (1 + u_ro radix2 prec) -> r = v * (1 + eps) -> v <= r * w /\ r <= v * w.
Proof.
  intros Pv He' ->. rewrite u_ro_u in He'. set (u := p2 (- prec)) in *.
  assert (Pu : 0 < u) by apply bpow_gt_0. apply Rabs_le_inv in He' as (L & U).
  assert (E : u / (1 + u) <= u).
  { apply Rmult_le_reg_r with (1 + u); [lra|]. unfold Rdiv. rewrite Rmult_assoc, Rinv_l by lra. nra. }
  assert (L' : 1 <= (1 + eps) * (1 + u)).
  { apply Rle_trans with ((1 - u / (1 + u)) * (1 + u)); [right; field; lra|]. apply Rmult_le_compat_r; lra. }
  change w with (1 + u). split.
  - rewrite Rmult_assoc. rewrite <- (Rmult_1_r v) at 1. now apply Rmult_le_compat_l.
  - apply Rmult_le_compat_l; lra.
Qed.
Lemma rnd_rel v : p2 (2 - emax) <= v -> v <= rnd v * w /\ rnd v <= v * w.
Proof.
  intros H. assert (Pv : 0 < v) by (apply Rlt_le_trans with (2 := H), bpow_gt_0).
  destruct (relative_error_N_FLX'_ex radix2 prec Hp (fun x => negb (Z.even x)) v) as (eps & A & E).
  apply (rel_1 v _ eps); [lra|exact A|]. rewrite <- E.
  apply (round_FLT_FLX radix2 (3 - emax - prec) prec). rewrite Rabs_pos_eq by lra.
  replace (3 - emax - prec + prec - 1)%Z with (2 - emax)%Z by ring. exact H.
Qed.
Lemma rnd_plus_rel (x y : B) : is_finite x = true -> is_finite y = true -> 0 <= B2R x + B2R y ->
  B2R x + B2R y <= rnd (B2R x + B2R y) * w /\ rnd (B2R x + B2R y) <= (B2R x + B2R y) * w.
Proof.
  intros Fx Fy P.
  destruct (FLT_plus_error_N_ex radix2 (3 - emax - prec) prec (fun x => negb (Z.even x)) (B2R x) (B2R y)
    (generic_format_B2R prec emax x) (generic_format_B2R prec emax y)) as (eps & A & E).
  apply (rel_1 _ _ eps); [exact P|exact A|exact E].
Qed.

Record appr (k : nat) (lo hi : Z) (x : B) (r : R) : Prop := {
  ap_fin : is_finite x = true;
  ap_rng : r = 0 \/ p2 lo <= r <= p2 hi;
  ap_ge : r <= B2R x * w ^ k;
  ap_le : B2R x <= r * w ^ k }.

Lemma rng_nonneg lo hi r : r = 0 \/ p2 lo <= r <= p2 hi -> 0 <= r.
Proof. intros [->|(H & _)]; [lra|]. pose proof (bpow_gt_0 radix2 lo). lra. Qed.
Lemma rng_hi lo hi r : r = 0 \/ p2 lo <= r <= p2 hi -> r <= p2 hi.
Proof. intros [->|(_ & H)]; [apply bpow_ge_0|exact H]. Qed.
Lemma appr_nonneg k lo hi x r : appr k lo hi x r -> 0 <= r.
Proof. intros H. apply (rng_nonneg lo hi), H. Qed.
Lemma appr_zero k lo hi x : appr k lo hi x 0 -> B2R x = 0.
Proof.
  intros [_ _ G L]. rewrite Rmult_0_l in L. pose proof (wk_pos k). apply Rle_antisym; [exact L|].
  apply Rmult_le_reg_r with (w ^ k); lra.
Qed.
Lemma appr_pos k lo hi x r : appr k lo hi x r -> 0 <= B2R x.
Proof. intros [_ R G L]. pose proof (rng_nonneg _ _ _ R). pose proof (wk_pos k). apply Rmult_le_reg_r with (w ^ k); lra. Qed.

Lemma appr_weak k lo hi k' lo' hi' x r : appr k lo hi x r -> (k <= k')%nat -> (lo' <= lo)%Z -> (hi <= hi')%Z -> appr k' lo' hi' x r.
Proof.
  intros A Hk Hl Hh. pose proof (appr_nonneg _ _ _ _ _ A) as P. pose proof (appr_pos _ _ _ _ _ A) as P'.
  destruct A as [Fx R G L]. pose proof (wk_le k k' Hk) as W. split; auto.
  - destruct R as [R|(R1 & R2)]; [now left|right]. split; [apply Rle_trans with (2 := R1)|apply Rle_trans with (1 := R2)]; now apply bpow_le.
  - apply Rle_trans with (1 := G). now apply Rmult_le_compat_l.
  - apply Rle_trans with (1 := L). now apply Rmult_le_compat_l.
Qed.
Lemma appr_0 k lo hi s : appr k lo hi (B754_zero s) 0.
Proof. split; [reflexivity|now left|simpl; lra|simpl; lra]. Qed.
(** a number that is given *)
Lemma appr_exact lo hi x : is_finite x = true -> B2R x = 0 \/ p2 lo <= B2R x <= p2 hi -> appr 0 lo hi x (B2R x).
Proof. intros F R. split; auto; simpl; lra. Qed.

Lemma Rpow_split a i j : a ^ (i + j) = a ^ i * a ^ j.
Proof. apply pow_add. Qed.

(** rounding of the exact result [v] of an operation on approximations of [r] *)
Lemma round_ok k lo hi v r : few k -> (3 - emax <= lo)%Z -> (hi + 2 < emax)%Z ->
  r = 0 \/ p2 lo <= r <= p2 hi -> r <= v * w ^ k -> v <= r * w ^ k ->
  rnd v < p2 emax /\ r <= rnd v * w ^ S k /\ rnd v <= r * w ^ S k /\ 0 <= rnd v.
Proof.
  intros Hk Hlo Hhi R G L. pose proof (few_2 k Hk) as W2. pose proof (wk_pos k) as Wp. pose proof (wk_ge1 k) as W1.
  destruct R as [->|(R1 & R2)].
  - rewrite Rmult_0_l in L. assert (v = 0) by (apply Rle_antisym; [exact L|]; apply Rmult_le_reg_r with (w ^ k); lra). subst v.
    rewrite (rnd_0 (prec := prec) (emax := emax)). split; [apply bpow_gt_0|]. lra.
  - pose proof (bpow_gt_0 radix2 lo) as Pl. 
    assert (Lv : p2 (lo - 1) <= v).
    { assert (E : p2 lo = p2 (lo - 1) * 2) by (replace lo with (lo - 1 + 1)%Z at 1 by ring; rewrite bpow_plus; simpl; lra).
      assert (0 <= v) by (apply Rmult_le_reg_r with (w ^ k); lra).
      assert (v * w ^ k <= v * 2) by now apply Rmult_le_compat_l. lra. }
    destruct (rnd_rel v) as (A & C).
    { apply Rle_trans with (2 := Lv). apply bpow_le. lia. }
    pose proof (bpow_gt_0 radix2 (lo - 1)) as Pv.
    split; [|split; [|split]].
    + apply Rle_lt_trans with (p2 (hi + 2)); [|apply bpow_lt; lia].
      assert (V : v <= p2 (hi + 1)).
      { rewrite bpow_plus. simpl. apply Rle_trans with (1 := L). apply Rmult_le_compat; lra. }
      assert (Wl : w <= 2).
      { unfold w. pose proof (bpow_le radix2 (- prec) 0). specialize (H ltac:(pose proof (prec_gt_0 prec); lia)). simpl in H. lra. }
      replace (hi + 2)%Z with (hi + 1 + 1)%Z by ring. rewrite bpow_plus. simpl. apply Rle_trans with (1 := C).
      pose proof w_pos. apply Rmult_le_compat; lra.
    + cbn [pow]. apply Rle_trans with (1 := G). rewrite <- Rmult_assoc. apply Rmult_le_compat_r; lra.
    + cbn [pow]. apply Rle_trans with (1 := C). replace (r * (w * w ^ k)) with (r * w ^ k * w) by ring.
      apply Rmult_le_compat_r; [left; apply w_pos|exact L].
    + pose proof w_pos. apply Rmult_le_reg_r with w; lra.
Qed.

Lemma appr_mul k1 k2 lo1 lo2 hi1 hi2 x y r t k lo hi : appr k1 lo1 hi1 x r -> appr k2 lo2 hi2 y t ->
  few k -> (k1 + k2 < k)%nat -> (3 - emax <= lo)%Z -> (lo <= lo1 + lo2)%Z -> (hi1 + hi2 <= hi)%Z -> (hi + 2 < emax)%Z ->
  appr k lo hi (Bmult mode_NE x y) (r * t).
Proof.
  intros Hx Hy Fk Hk E1 E2 E3 E4.
  pose proof (appr_nonneg _ _ _ _ _ Hx) as Pr. pose proof (appr_nonneg _ _ _ _ _ Hy) as Pt.
  pose proof (appr_pos _ _ _ _ _ Hx) as Px. pose proof (appr_pos _ _ _ _ _ Hy) as Py.
  destruct Hx as [Fx Rx Gx Lx]. destruct Hy as [Fy Ry Gy Ly].
  assert (R : r * t = 0 \/ p2 (lo1 + lo2) <= r * t <= p2 (hi1 + hi2)).
  { destruct Rx as [->|(A1 & A2)]; [left; lra|]. destruct Ry as [->|(B1 & B2)]; [left; lra|right].
    rewrite !bpow_plus. split; apply Rmult_le_compat; auto using bpow_ge_0. }
  destruct (round_ok (k1 + k2) (lo1 + lo2) (hi1 + hi2) (B2R x * B2R y) (r * t)) as (A & C & D & P); auto; try lia.
  { apply (few_le _ k); auto. lia. }
  { rewrite pow_add. replace (B2R x * B2R y * (w ^ k1 * w ^ k2)) with ((B2R x * w ^ k1) * (B2R y * w ^ k2)) by ring.
    now apply Rmult_le_compat. }
  { rewrite pow_add. replace (r * t * (w ^ k1 * w ^ k2)) with ((r * w ^ k1) * (t * w ^ k2)) by ring.
    now apply Rmult_le_compat. }
  pose proof (Bmult_correct _ _ Hp He mode_NE x y) as Q. rewrite Rlt_bool_true in Q by (rewrite Rabs_pos_eq; auto).
  destruct Q as (E & F & _).
  apply (appr_weak (S (k1 + k2)) (lo1 + lo2) (hi1 + hi2)); auto; try lia.
  split; [now rewrite F, Fx, Fy|exact R|rewrite E; exact C|rewrite E; exact D].
Qed.

Lemma appr_div k1 k2 lo1 lo2 hi1 hi2 x y r t k lo hi : appr k1 lo1 hi1 x r -> appr k2 lo2 hi2 y t -> t <> 0 ->
  few k -> (k1 + k2 < k)%nat -> (3 - emax <= lo)%Z -> (lo <= lo1 - hi2)%Z -> (hi1 - lo2 <= hi)%Z -> (hi + 2 < emax)%Z ->
  appr k lo hi (Bdiv mode_NE x y) (r / t).
Proof.
  intros Hx Hy Nt Fk Hk E1 E2 E3 E4.
  pose proof (appr_nonneg _ _ _ _ _ Hx) as Pr.
  pose proof (appr_pos _ _ _ _ _ Hx) as Px. pose proof (appr_pos _ _ _ _ _ Hy) as Py.
  destruct Hx as [Fx Rx Gx Lx]. destruct Hy as [Fy Ry Gy Ly].
  destruct Ry as [Ry|(B1 & B2)]; [contradiction|]. pose proof (bpow_gt_0 radix2 lo2) as P0.
  assert (Pt : 0 < t) by lra.
  assert (Py' : 0 < B2R y).
  { destruct Py as [Py|Py]; [exact Py|]. rewrite <- Py in Gy. lra. }
  assert (It : / p2 hi2 <= / t <= / p2 lo2) by (split; apply Rinv_le; lra).
  assert (R : r / t = 0 \/ p2 (lo1 - hi2) <= r / t <= p2 (hi1 - lo2)).
  { destruct Rx as [->|(A1 & A2)]; [left; unfold Rdiv; lra|right]. unfold Zminus, Rdiv. rewrite !bpow_plus, !bpow_opp.
    pose proof (bpow_gt_0 radix2 hi2) as P1. pose proof (Rinv_0_lt_compat _ P1). pose proof (Rinv_0_lt_compat _ Pt).
    split; apply Rmult_le_compat; auto using bpow_ge_0; try lra. }
  destruct (round_ok (k1 + k2) (lo1 - hi2) (hi1 - lo2) (B2R x / B2R y) (r / t)) as (A & C & D & P); auto; try lia.
  { apply (few_le _ k); auto. lia. }
  { rewrite pow_add. apply Rmult_le_reg_r with (t * B2R y); [now apply Rmult_lt_0_compat|].
    replace (r / t * (t * B2R y)) with (r * B2R y) by (field; lra).
    replace (B2R x / B2R y * (w ^ k1 * w ^ k2) * (t * B2R y)) with ((B2R x * w ^ k1) * (t * w ^ k2)) by (field; lra).
    apply Rmult_le_compat; lra. }
  { rewrite pow_add. apply Rmult_le_reg_r with (t * B2R y); [now apply Rmult_lt_0_compat|].
    replace (B2R x / B2R y * (t * B2R y)) with (B2R x * t) by (field; lra).
    replace (r / t * (w ^ k1 * w ^ k2) * (t * B2R y)) with ((r * w ^ k1) * (B2R y * w ^ k2)) by (field; lra).
    apply Rmult_le_compat; lra. }
  pose proof (Bdiv_correct _ _ Hp He mode_NE x y ltac:(lra)) as Q. rewrite Rlt_bool_true in Q by (rewrite Rabs_pos_eq; auto).
  destruct Q as (E & F & _).
  apply (appr_weak (S (k1 + k2)) (lo1 - hi2) (hi1 - lo2)); auto; try lia.
  split; [now rewrite F|exact R|rewrite E; exact C|rewrite E; exact D].
Qed.

(** addition never underflows *)
Lemma plus_ok k x y v : is_finite x = true -> is_finite y = true -> 0 <= B2R x + B2R y -> few k ->
  v <= (B2R x + B2R y) * w ^ k -> B2R x + B2R y <= v * w ^ k -> 4 * v < p2 emax ->
  is_finite (Bplus mode_NE x y) = true /\
  v <= B2R (Bplus mode_NE x y) * w ^ S k /\ B2R (Bplus mode_NE x y) <= v * w ^ S k.
Proof.
  intros Fx Fy P Fk G L H. destruct (rnd_plus_rel x y Fx Fy P) as (A & C).
  pose proof (wk_pos k) as Wp. pose proof (few_2 k Fk) as W2. pose proof (wk_ge1 k) as W1.
  assert (Pv : 0 <= v) by (apply Rmult_le_reg_r with (w ^ k); lra).
  assert (Wl : w <= 2).
  { unfold w. pose proof (bpow_le radix2 (- prec) 0 ltac:(pose proof (prec_gt_0 prec); lia)) as Q. simpl in Q. lra. }
  pose proof w_pos as W0.
  assert (Pr : 0 <= rnd (B2R x + B2R y)) by (apply Rmult_le_reg_r with w; lra).
  pose proof (Bplus_correct _ _ Hp He mode_NE x y Fx Fy) as Q. rewrite Rlt_bool_true in Q.
  - destruct Q as (E & F & _). split; [exact F|]. rewrite E. cbn [pow]. split.
    + apply Rle_trans with (1 := G). rewrite <- Rmult_assoc. apply Rmult_le_compat_r; lra.
    + apply Rle_trans with (1 := C). replace (v * (w * w ^ k)) with (v * w ^ k * w) by ring.
      apply Rmult_le_compat_r; lra.
  - rewrite Rabs_pos_eq by exact Pr. apply Rle_lt_trans with (2 := H). apply Rle_trans with (1 := C).
    apply Rle_trans with (v * 2 * 2); [|lra]. apply Rmult_le_compat; try lra.
    apply Rle_trans with (1 := L). apply Rmult_le_compat_l; lra.
Qed.
Lemma appr_add k0 lo0 hi0 x y r t k lo hi : appr k0 lo0 hi0 x r -> appr k0 lo0 hi0 y t ->
  few k -> (k0 < k)%nat -> (lo <= lo0)%Z -> (hi0 + 1 <= hi)%Z -> (hi + 2 < emax)%Z ->
  appr k lo hi (Bplus mode_NE x y) (r + t).
Proof.
  intros Hx Hy Fk Hk E2 E3 E4.
  pose proof (appr_nonneg _ _ _ _ _ Hx) as Pr. pose proof (appr_nonneg _ _ _ _ _ Hy) as Pt.
  pose proof (appr_pos _ _ _ _ _ Hx) as Px. pose proof (appr_pos _ _ _ _ _ Hy) as Py.
  destruct Hx as [Fx Rx Gx Lx]. destruct Hy as [Fy Ry Gy Ly].
  pose proof (rng_hi _ _ _ Rx) as Ux. pose proof (rng_hi _ _ _ Ry) as Uy.
  assert (E : p2 (hi0 + 1) = p2 hi0 * 2) by (rewrite bpow_plus; simpl; lra).
  assert (R : r + t = 0 \/ p2 lo0 <= r + t <= p2 (hi0 + 1)).
  { rewrite E. destruct Rx as [->|(A1 & A2)]; [destruct Ry as [->|(B1 & B2)]; [left; lra|right]|right]; lra. }
  destruct (plus_ok k0 x y (r + t) Fx Fy) as (F & G & L); try lra.
  { apply (few_le _ k); auto. lia. }
  { apply Rle_lt_trans with (p2 (hi0 + 3)); [|apply bpow_lt; lia].
    replace (hi0 + 3)%Z with (hi0 + 1 + 2)%Z by ring. rewrite (bpow_plus radix2 (hi0 + 1)). simpl. lra. }
  apply (appr_weak (S k0) lo0 (hi0 + 1)); auto; try lia. now split.
Qed.

Lemma appr_sqrt k1 lo1 hi1 x r k lo hi : appr k1 (2 * lo1) (2 * hi1) x r ->
  few k -> (k1 < k)%nat -> (3 - emax <= lo)%Z -> (lo <= lo1)%Z -> (hi1 <= hi)%Z -> (hi + 2 < emax)%Z ->
  appr k lo hi (Bsqrt mode_NE x) (sqrt r).
Proof.
  intros Hx Fk Hk E1 E2 E3 E4.
  pose proof (appr_nonneg _ _ _ _ _ Hx) as Pr. pose proof (appr_pos _ _ _ _ _ Hx) as Px.
  destruct Hx as [Fx Rx Gx Lx].
  assert (S2 : forall e, p2 e = sqrt (p2 (2 * e))).
  { intros e. rewrite <- (sqrt_square (p2 e)) by apply bpow_ge_0. f_equal. rewrite <- bpow_plus. f_equal. ring. }
  assert (R : sqrt r = 0 \/ p2 lo1 <= sqrt r <= p2 hi1).
  { destruct Rx as [->|(A1 & A2)]; [left; apply sqrt_0|right]. rewrite (S2 lo1), (S2 hi1). pose proof (bpow_ge_0 radix2 (2 * lo1)).
    split; apply sqrt_le_1; auto using bpow_ge_0. }
  assert (Wk : forall a b, 0 <= a -> 0 <= b -> a <= b * w ^ k1 -> sqrt a <= sqrt b * w ^ k1).
  { intros a b Pa Pb H. pose proof (wk_pos k1) as P1. pose proof (wk_ge1 k1) as P2.
    rewrite <- (sqrt_square (w ^ k1)) by lra. rewrite <- sqrt_mult by (try apply Rmult_le_pos; lra).
    apply sqrt_le_1; [lra|apply Rmult_le_pos; [lra|apply Rmult_le_pos; lra]|]. apply Rle_trans with (1 := H).
    apply Rmult_le_compat_l; [lra|]. rewrite <- (Rmult_1_r (w ^ k1)) at 1. apply Rmult_le_compat_l; lra. }
  destruct (round_ok k1 lo1 hi1 (sqrt (B2R x)) (sqrt r)) as (A & C & D & P); auto; try lia.
  { apply (few_le _ k); auto. lia. }
  pose proof (Bsqrt_correct _ _ Hp He mode_NE x) as (E & F & _).
  apply (appr_weak (S k1) lo1 hi1); auto; try lia.
  split; [|exact R|rewrite E; exact C|rewrite E; exact D].
  rewrite F. destruct x as [s|s| |[|] m e Q]; try discriminate; auto. exfalso. simpl in Px.
  assert (F2R (Float radix2 (Z.neg m) e) < 0) by now apply F2R_lt_0. lra.
Qed.

(** sums in any order *)
(** a tree without terms is the zero, which is neutral *)
Lemma feval_empty {L : Libm prec emax} t (f : nat -> B) : leaves t = nil -> feval (K := IS prec emax L) t f = B754_zero false.
Proof.
  induction t as [|k|a IHa b IHb]; cbn [leaves feval]; intros E; [reflexivity|discriminate|].
  apply app_eq_nil in E as (Ea & Eb). rewrite IHa, IHb by auto. reflexivity.
Qed.
Lemma zero_plus (x : B) : is_finite x = true ->
  is_finite (Bplus mode_NE (B754_zero false) x) = true /\ B2R (Bplus mode_NE (B754_zero false) x) = B2R x.
Proof. destruct x as [[|]|s| |s m e H]; try discriminate; auto. Qed.
Lemma plus_zero (x : B) : is_finite x = true ->
  is_finite (Bplus mode_NE x (B754_zero false)) = true /\ B2R (Bplus mode_NE x (B754_zero false)) = B2R x.
Proof. destruct x as [[|]|s| |s m e H]; try discriminate; auto. Qed.

Lemma appr_sum {L : Libm prec emax} n (f : nat -> B) (g : nat -> R) k0 lo0 hi0 l k lo hi :
  (forall j, (j < n)%nat -> appr k0 lo0 hi0 (f j) (g j)) -> (Z.of_nat n <= 2 ^ l)%Z -> (0 <= l)%Z ->
  few k -> (k0 + n <= k)%nat -> (lo <= lo0)%Z -> (hi0 + l <= hi)%Z -> (hi + 2 < emax)%Z ->
  appr k lo hi (fsum (K := IS prec emax L) n f) (rsum n g).
Proof.
  intros H Hn Hl Fk Hk E2 E3 E4.
  assert (K : forall t, (forall j, In j (leaves t) -> (j < n)%nat) -> (List.length (leaves t) <= n)%nat ->
    let s := feval (K := IS prec emax L) t f : B in let v := lsum (leaves t) g in let m := List.length (leaves t) in
    is_finite s = true /\ 0 <= B2R s /\ (v = 0 \/ p2 lo0 <= v) /\ v <= INR m * p2 hi0 /\
    v <= B2R s * w ^ (k0 + m) /\ B2R s <= v * w ^ (k0 + m)).
  { induction t as [|j|a IHa b IHb]; intros HT Hm.
    - cbn [leaves feval lsum List.length]. change (@f0 (IS prec emax L)) with (B754_zero false : B). simpl. repeat split; auto; lra.
    - cbn [leaves feval lsum List.length] in *. pose proof (H j (HT j (or_introl eq_refl))) as A.
      pose proof (appr_nonneg _ _ _ _ _ A) as Pr. pose proof (appr_pos _ _ _ _ _ A) as Px.
      destruct A as [Fm Rm Gm Lm]. pose proof (rng_hi _ _ _ Rm) as Um.
      pose proof (wk_le k0 (k0 + 1) ltac:(lia)) as W. cbv zeta. rewrite Rplus_0_r.
      split; [exact Fm|]. split; [exact Px|]. split; [|split; [|split]].
      + destruct Rm as [->|(Rm & _)]; auto.
      + change (INR 1) with 1. lra.
      + apply Rle_trans with (1 := Gm), Rmult_le_compat_l; auto.
      + apply Rle_trans with (1 := Lm), Rmult_le_compat_l; auto.
    - cbn [leaves feval] in *. rewrite app_length in Hm.
      destruct (IHa (fun j Hj => HT j (in_or_app _ _ _ (or_introl Hj))) ltac:(lia)) as (Fa & Pa & Ra & Ua & Ga & La).
      destruct (IHb (fun j Hj => HT j (in_or_app _ _ _ (or_intror Hj))) ltac:(lia)) as (Fb & Pb & Rb & Ub & Gb & Lb).
      cbv zeta. rewrite lsum_app, app_length, plus_INR.
      change (fadd (s := IS prec emax L)) with (Bplus (prec := prec) (emax := emax) mode_NE).
      destruct (leaves a) as [|a0 la] eqn:Ea.
      { rewrite (feval_empty a) by exact Ea. cbn [lsum List.length Nat.add]. destruct (zero_plus _ Fb) as (F1 & V1).
        rewrite !V1, !Rplus_0_l. change (INR 0) with 0. rewrite ?Rplus_0_l. repeat split; auto. }
      destruct (leaves b) as [|b0 lb] eqn:Eb.
      { rewrite (feval_empty b) by exact Eb. cbn [lsum List.length]. destruct (plus_zero _ Fa) as (F1 & V1).
        rewrite !V1, !Rplus_0_r, Nat.add_0_r. change (INR 0) with 0. rewrite ?Rplus_0_r. repeat split; auto. }
      rewrite <- Ea, <- Eb in *.
      assert (Na : (1 <= List.length (leaves a))%nat) by (rewrite Ea; simpl; lia).
      assert (Nb : (1 <= List.length (leaves b))%nat) by (rewrite Eb; simpl; lia).
      clear Ea Eb IHa IHb HT. revert Hm Na Nb Fa Pa Ra Ua Ga La Fb Pb Rb Ub Gb Lb.
      generalize (feval (K := IS prec emax L) a f : B), (feval (K := IS prec emax L) b f : B), (lsum (leaves a) g), (lsum (leaves b) g),
        (List.length (leaves a)), (List.length (leaves b)).
      intros x y u v p q Hm Na Nb Fa Pa Ra Ua Ga La Fb Pb Rb Ub Gb Lb.
      pose proof (bpow_gt_0 radix2 lo0) as P0. pose proof (bpow_gt_0 radix2 hi0) as P1.
      assert (Pu : 0 <= u) by (destruct Ra as [->|Ra]; lra).
      assert (Pv : 0 <= v) by (destruct Rb as [->|Rb]; lra).
      replace (k0 + (p + q))%nat with (S (k0 + (p + q - 1))) by lia.
      pose proof (wk_le (k0 + p) (k0 + (p + q - 1)) ltac:(lia)) as Wa.
      pose proof (wk_le (k0 + q) (k0 + (p + q - 1)) ltac:(lia)) as Wb.
      assert (U : u + v <= (INR p + INR q) * p2 hi0) by lra.
      assert (G1 : u <= B2R x * w ^ (k0 + (p + q - 1))) by (apply Rle_trans with (1 := Ga), Rmult_le_compat_l; auto).
      assert (L1 : B2R x <= u * w ^ (k0 + (p + q - 1))) by (apply Rle_trans with (1 := La), Rmult_le_compat_l; auto).
      assert (G2 : v <= B2R y * w ^ (k0 + (p + q - 1))) by (apply Rle_trans with (1 := Gb), Rmult_le_compat_l; auto).
      assert (L2 : B2R y <= v * w ^ (k0 + (p + q - 1))) by (apply Rle_trans with (1 := Lb), Rmult_le_compat_l; auto).
      destruct (plus_ok (k0 + (p + q - 1)) x y (u + v) Fa Fb) as (F1 & G' & L''); try lra.
      { apply (few_le _ k); auto. lia. }
      { apply Rle_lt_trans with (p2 (hi0 + l + 2)); [|apply bpow_lt; lia].
        rewrite !bpow_plus. simpl. assert (INR p + INR q <= p2 l).
        { rewrite <- plus_INR, <- (IZR_Zpower radix2) by auto. rewrite INR_IZR_INZ. apply IZR_le. change (radix2 ^ l)%Z with (2 ^ l)%Z. lia. }
        assert ((INR p + INR q) * p2 hi0 <= p2 hi0 * p2 l) by nra. nra. }
      split; [exact F1|]. split; [|split; [|split; [exact U|split; [exact G'|exact L'']]]].
      + pose proof (wk_pos (S (k0 + (p + q - 1)))). apply Rmult_le_reg_r with (w ^ S (k0 + (p + q - 1))); [lra|]. rewrite Rmult_0_l.
        apply Rle_trans with (2 := G'). lra.
      + destruct Ra as [->|Ra]; [rewrite Rplus_0_l; exact Rb|right; lra]. }
  unfold fsum. change (fplan (s := IS prec emax L)) with (l_plan L). destruct (l_plan L n) as (t & P). cbn [proj1_sig].
  pose proof (Permutation.Permutation_length P) as Len. rewrite seq_length in Len.
  destruct (K t) as (F & Q & R & U & G & L').
  { intros j Hj. apply (Permutation.Permutation_in j P), in_seq in Hj. lia. }
  { lia. }
  cbv zeta in *. rewrite Len, (lsum_perm _ _ g P), lsum_seq in *.
  apply (appr_weak (k0 + n) lo0 (hi0 + l)); auto; try lia. split; auto.
  destruct R as [R|R]; [now left|right]. split; [exact R|]. apply Rle_trans with (1 := U).
  rewrite bpow_plus, Rmult_comm. apply Rmult_le_compat_l; [apply bpow_ge_0|].
  rewrite <- (IZR_Zpower radix2) by auto. rewrite INR_IZR_INZ. apply IZR_le. exact Hn.
Qed.

(** literals that are integers *)
Lemma lit_int z : (0 <= z)%Z -> (z <= 2 ^ prec)%Z -> (z < 2 ^ (emax - 1))%Z ->
  is_finite (blit prec emax (inject_Z z)) = true /\ B2R (blit prec emax (inject_Z z)) = IZR z.
Proof.
  intros H0 H1 H2. destruct z as [|m|m]; [split; reflexivity| |lia].
  unfold blit. cbn [inject_Z Qnum Qden]. unfold bratio.
  pose proof (proj2 (Bdiv_correct_aux prec emax Hp He mode_NE false m 0 false 1 0)) as Q.
  generalize (proj1 (Bdiv_correct_aux prec emax Hp He mode_NE false m 0 false 1 0)). intros V.
  assert (E : F2R (Float radix2 (cond_Zopp false (Zpos m)) 0) / F2R (Float radix2 (cond_Zopp false (Zpos 1)) 0) = IZR (Zpos m)).
  { unfold F2R. cbn [Fnum Fexp bpow cond_Zopp]. field. }
  assert (RI : rnd (IZR (Zpos m)) = IZR (Zpos m)).
  { replace (IZR (Zpos m)) with (IZR (Zpos m) * p2 0) by (simpl; ring). apply rnd_int; [|lia].
    pose proof (prec_gt_0 prec). pose proof (prec_lt_emax prec emax). lia. }
  cbv zeta in Q. rewrite E, RI in Q. rewrite Rlt_bool_true in Q.
  - split; [rewrite is_finite_SF2B; apply Q|]. rewrite B2R_SF2B. apply Q.
  - rewrite Rabs_pos_eq by (apply IZR_le; lia). apply Rlt_le_trans with (p2 (emax - 1)).
    + rewrite <- (IZR_Zpower radix2); [apply IZR_lt; exact H2|]. pose proof (prec_lt_emax prec emax). pose proof (prec_gt_0 prec). lia.
    + apply bpow_le. lia.
Qed.
End I.
