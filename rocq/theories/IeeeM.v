(** * IEEE-754 arithmetic: errors relative to a majorant (proof layer).

    [mapr k lo hi m x r]: the float [x] approximates the real number [r] of either sign up to [k] rounding
    errors of the majorant [m >= |r|], [|x - r| <= ((1 + u)^k - 1) m] with [u = 2^-prec], and [m] is zero or
    between [2^lo] and [2^hi].  Differences are treated like sums: the majorant of [r - t] is the sum of
    the majorants, so that cancellation is accounted for. *)
From Coq Require Import Reals Lra Lia ZArith QArith Qreals List Bool.
From Flocq Require Import Core.Core IEEE754.BinarySingleNaN Relative Plus_error.
From Verif Require Import Py Tensor Scalar RInst TensorLemmas EnergyR IeeeInst IeeeP IeeeB IeeeA.

Section I.
Context {prec emax : Z} {Hp : Prec_gt_0 prec} {He : Prec_lt_emax prec emax}.
Notation B := (binary_float prec emax).
Notation fx := (SpecFloat.fexp prec emax).
Notation rnd := (round radix2 fx (round_mode mode_NE)).
Notation p2 := (bpow radix2).
Notation w := (w (prec := prec)).
Notation few := (few (prec := prec)).
Notation appr := (appr (prec := prec) (emax := emax)).
Open Scope R_scope.
Local Existing Instance fx_valid.

Record mapr (k : nat) (lo hi : Z) (m : R) (x : B) (r : R) : Prop := {
  mp_fin : is_finite x = true;
  mp_rng : m = 0 \/ p2 lo <= m <= p2 hi;
  mp_abs : Rabs r <= m;
  mp_err : Rabs (B2R x - r) <= (w ^ k - 1) * m }.

Lemma mapr_nonneg k lo hi m x r : mapr k lo hi m x r -> 0 <= m.
Proof. intros H. apply (rng_nonneg lo hi), H. Qed.
Lemma mapr_val k lo hi m x r : mapr k lo hi m x r -> Rabs (B2R x) <= m * w ^ k.
Proof.
  intros [_ _ A E]. replace (B2R x) with ((B2R x - r) + r) by ring.
  apply Rle_trans with (1 := Rabs_triang _ _). lra.
Qed.
Lemma mapr_weak k lo hi k' lo' hi' m x r : mapr k lo hi m x r -> (k <= k')%nat -> (lo' <= lo)%Z -> (hi <= hi')%Z -> mapr k' lo' hi' m x r.
Proof.
  intros H Hk Hl Hh. pose proof (mapr_nonneg _ _ _ _ _ _ H) as P. destruct H as [F R A E]. split; auto.
  - destruct R as [R|(R1 & R2)]; [now left|right]. split; [apply Rle_trans with (2 := R1)|apply Rle_trans with (1 := R2)]; now apply bpow_le.
  - apply Rle_trans with (1 := E). apply Rmult_le_compat_r; auto. pose proof (wk_le (prec := prec) k k' Hk). lra.
Qed.
Lemma mapr_zero k lo hi s : mapr k lo hi 0 (B754_zero s) 0.
Proof. split; auto; simpl; rewrite ?Rminus_0_r, ?Rabs_R0, ?Rmult_0_r; lra. Qed.
(** a number that is given *)
Lemma mapr_exact lo hi x : is_finite x = true -> B2R x = 0 \/ p2 lo <= Rabs (B2R x) <= p2 hi -> mapr 0 lo hi (Rabs (B2R x)) x (B2R x).
Proof.
  intros F R. split; auto; [|lra|].
  - destruct R as [->|R]; [left; apply Rabs_R0|now right].
  - rewrite Rminus_diag_eq by reflexivity. rewrite Rabs_R0. simpl. lra.
Qed.
Lemma mapr_appr k lo hi x r : appr k lo hi x r -> mapr k lo hi r x r.
Proof.
  intros H. pose proof (appr_nonneg _ _ _ _ _ H) as P. pose proof (appr_pos _ _ _ _ _ H) as P'. destruct H as [F R G U]. split; auto.
  - rewrite Rabs_pos_eq; lra.
  - pose proof (wk_ge1 (prec := prec) k) as W. set (g := w ^ k) in *. apply Rabs_le. split; [|lra].
    assert (B2R x * g <= r * g * g) by (apply Rmult_le_compat_r; lra).
    apply Rmult_le_reg_r with g; [lra|].
    assert (0 <= r * (g - 1) * (g - 1)) by (repeat apply Rmult_le_pos; lra). nra.
Qed.
Lemma mapr_opp k lo hi m x r : mapr k lo hi m x r -> mapr k lo hi m (Bopp x) (- r).
Proof.
  intros [F R A E]. split; auto; [now rewrite is_finite_Bopp|now rewrite Rabs_Ropp|].
  rewrite B2R_Bopp. replace (- B2R x - - r) with (- (B2R x - r)) by ring. now rewrite Rabs_Ropp.
Qed.

(** one rounding: relative, or absolute for subnormal numbers *)
Lemma rnd_err v : Rabs (rnd v - v) <= p2 (- prec) * Rabs v \/ Rabs (rnd v - v) <= p2 (- prec) * p2 (2 - emax).
Proof.
  destruct (error_N_FLT radix2 (3 - emax - prec) prec Hp (fun x => negb (Z.even x)) v) as (eps & eta & A & C & D & E).
  change (round radix2 (FLT_exp (3 - emax - prec) prec) (Znearest (fun x => negb (Z.even x))) v) with (rnd v) in E.
  rewrite E. apply Rmult_integral in D as [->| ->].
  - right. replace (v * (1 + 0) + eta - v) with eta by ring. apply Rle_trans with (1 := C).
    change (/ 2) with (p2 (-1)). rewrite <- !bpow_plus. apply bpow_le. lia.
  - left. replace (v * (1 + eps) + 0 - v) with (eps * v) by ring. rewrite Rabs_mult. apply Rmult_le_compat_r; [apply Rabs_pos|].
    apply Rle_trans with (1 := A). change (/ 2) with (p2 (-1)). rewrite <- bpow_plus. apply bpow_le. lia.
Qed.
Lemma round_m k lo hi m v r : few k -> (3 - emax <= lo)%Z -> (hi + 2 < emax)%Z ->
  m = 0 \/ p2 lo <= m <= p2 hi -> Rabs r <= m -> Rabs (v - r) <= (w ^ k - 1) * m ->
  Rabs (rnd v) < p2 emax /\ Rabs (rnd v - r) <= (w ^ S k - 1) * m.
Proof.
  intros Fk Hlo Hhi R A E. pose proof (few_2 k Fk) as W2. pose proof (wk_ge1 (prec := prec) k) as W1.
  assert (Pm : 0 <= m) by now apply (rng_nonneg lo hi).
  pose proof (bpow_gt_0 radix2 (- prec)) as Pu.
  assert (Lu : p2 (- prec) <= 1) by (apply (bpow_le radix2 _ 0); pose proof (prec_gt_0 prec); lia).
  assert (V : Rabs v <= m * w ^ k).
  { replace v with ((v - r) + r) by ring. apply Rle_trans with (1 := Rabs_triang _ _). lra. }
  assert (G : Rabs (rnd v - v) <= p2 (- prec) * (m * w ^ k)).
  { destruct R as [->|(R1 & R2)].
    - rewrite Rmult_0_l in V. assert (v = 0) as -> by (apply Rabs_eq_R0; pose proof (Rabs_pos v); lra).
      rewrite (rnd_0 (prec := prec) (emax := emax)), Rminus_0_r, Rabs_R0. lra.
    - destruct (rnd_err v) as [H|H]; apply Rle_trans with (1 := H); apply Rmult_le_compat_l; auto; try lra.
      assert (p2 (2 - emax) <= p2 lo) by (apply bpow_le; lia). assert (m * 1 <= m * w ^ k) by (apply Rmult_le_compat_l; lra). lra. }
  assert (H : Rabs (rnd v - r) <= (w ^ S k - 1) * m).
  { replace (rnd v - r) with ((rnd v - v) + (v - r)) by ring. apply Rle_trans with (1 := Rabs_triang _ _).
    cbn [pow]. unfold IeeeA.w at 1. apply Rle_trans with (p2 (- prec) * (m * w ^ k) + (w ^ k - 1) * m); [lra|]. right. ring. }
  split; [|exact H].
  apply Rle_lt_trans with (p2 (hi + 2)); [|apply bpow_lt; lia].
  replace (rnd v) with ((rnd v - v) + v) by ring. apply Rle_trans with (1 := Rabs_triang _ _).
  rewrite bpow_plus. change (p2 2) with 4. pose proof (rng_hi _ _ _ R) as U.
  assert (m * w ^ k <= p2 hi * 2) by (apply Rmult_le_compat; lra).
  assert (p2 (- prec) * (m * w ^ k) <= 1 * (p2 hi * 2)) by (apply Rmult_le_compat; try lra; apply Rmult_le_pos; lra). lra.
Qed.

Lemma prod_err (x y r t a b g h : R) : Rabs r <= a -> Rabs t <= b -> 1 <= g -> 1 <= h ->
  Rabs (x - r) <= (g - 1) * a -> Rabs (y - t) <= (h - 1) * b -> Rabs (x * y - r * t) <= (g * h - 1) * (a * b).
Proof.
  intros A C G H E1 E2. replace (x * y - r * t) with ((x - r) * (y - t) + (x - r) * t + r * (y - t)) by ring.
  apply Rle_trans with (1 := Rabs_triang _ _). apply Rle_trans with (Rabs ((x - r) * (y - t)) + Rabs ((x - r) * t) + Rabs (r * (y - t))).
  { apply Rplus_le_compat_r, Rabs_triang. }
  rewrite !Rabs_mult.
  assert (Rabs (x - r) * Rabs (y - t) <= ((g - 1) * a) * ((h - 1) * b)) by (apply Rmult_le_compat; auto using Rabs_pos).
  assert (Rabs (x - r) * Rabs t <= ((g - 1) * a) * b) by (apply Rmult_le_compat; auto using Rabs_pos).
  assert (Rabs r * Rabs (y - t) <= a * ((h - 1) * b)) by (apply Rmult_le_compat; auto using Rabs_pos).
  replace ((g * h - 1) * (a * b)) with (((g - 1) * a) * ((h - 1) * b) + ((g - 1) * a) * b + a * ((h - 1) * b)) by ring. lra.
Qed.
Lemma quot_err (x y r t a g h : R) : Rabs r <= a -> 0 < t -> 0 < y -> 1 <= g -> 1 <= h ->
  Rabs (x - r) <= (g - 1) * a -> t <= y * h -> y <= t * h -> Rabs (x / y - r / t) <= (g * h - 1) * (a / t).
Proof.
  intros A Pt Py G H E1 L U. unfold Rdiv. pose proof (Rinv_0_lt_compat _ Pt) as It. pose proof (Rinv_0_lt_compat _ Py) as Iy.
  assert (U1 : / y <= / t * h).
  { apply Rmult_le_reg_r with (y * t); [now apply Rmult_lt_0_compat|]. replace (/ y * (y * t)) with t by (field; lra).
    replace (/ t * h * (y * t)) with (y * h) by (field; lra). exact L. }
  assert (L1 : / t <= / y * h).
  { apply Rmult_le_reg_r with (y * t); [now apply Rmult_lt_0_compat|]. replace (/ t * (y * t)) with y by (field; lra).
    replace (/ y * h * (y * t)) with (t * h) by (field; lra). exact U. }
  apply (prod_err x (/ y) r (/ t)); auto; [rewrite Rabs_pos_eq; lra|].
  apply Rabs_le. split; [|lra].
  assert (/ y * h <= / t * h * h) by (apply Rmult_le_compat_r; lra).
  apply Rmult_le_reg_r with h; [lra|]. assert (0 <= / t * (h - 1) * (h - 1)) by (repeat apply Rmult_le_pos; lra). nra.
Qed.

Lemma mapr_mul k1 k2 lo1 lo2 hi1 hi2 m1 m2 x y r t k lo hi : mapr k1 lo1 hi1 m1 x r -> mapr k2 lo2 hi2 m2 y t ->
  few k -> (k1 + k2 < k)%nat -> (3 - emax <= lo)%Z -> (lo <= lo1 + lo2)%Z -> (hi1 + hi2 <= hi)%Z -> (hi + 2 < emax)%Z ->
  mapr k lo hi (m1 * m2) (Bmult mode_NE x y) (r * t).
Proof.
  intros Hx Hy Fk Hk E1 E2 E3 E4. pose proof (mapr_nonneg _ _ _ _ _ _ Hx) as P1. pose proof (mapr_nonneg _ _ _ _ _ _ Hy) as P2.
  destruct Hx as [Fx Rx Ax Ex]. destruct Hy as [Fy Ry Ay Ey].
  assert (R : m1 * m2 = 0 \/ p2 (lo1 + lo2) <= m1 * m2 <= p2 (hi1 + hi2)).
  { destruct Rx as [->|(A1 & A2)]; [left; lra|]. destruct Ry as [->|(B1 & B2)]; [left; lra|right].
    rewrite !bpow_plus. split; apply Rmult_le_compat; auto using bpow_ge_0. }
  assert (A : Rabs (r * t) <= m1 * m2) by (rewrite Rabs_mult; apply Rmult_le_compat; auto using Rabs_pos).
  destruct (round_m (k1 + k2) (lo1 + lo2) (hi1 + hi2) (m1 * m2) (B2R x * B2R y) (r * t)) as (Q1 & Q2); auto; try lia.
  { apply (few_le _ k); auto. lia. }
  { rewrite pow_add. apply prod_err; auto; apply wk_ge1. }
  pose proof (Bmult_correct _ _ Hp He mode_NE x y) as Q. rewrite Rlt_bool_true in Q by exact Q1. destruct Q as (E & F & _).
  apply (mapr_weak (S (k1 + k2)) (lo1 + lo2) (hi1 + hi2)); auto; try lia. split; auto; [now rewrite F, Fx, Fy|now rewrite E].
Qed.
Lemma mapr_div k1 k2 lo1 lo2 hi1 hi2 m x y r t k lo hi : mapr k1 lo1 hi1 m x r -> appr k2 lo2 hi2 y t -> t <> 0 ->
  few k -> (k1 + k2 < k)%nat -> (3 - emax <= lo)%Z -> (lo <= lo1 - hi2)%Z -> (hi1 - lo2 <= hi)%Z -> (hi + 2 < emax)%Z ->
  mapr k lo hi (m / t) (Bdiv mode_NE x y) (r / t).
Proof.
  intros Hx Hy Nt Fk Hk E1 E2 E3 E4. pose proof (mapr_nonneg _ _ _ _ _ _ Hx) as P1. pose proof (appr_pos _ _ _ _ _ Hy) as Py.
  destruct Hx as [Fx Rx Ax Ex]. destruct Hy as [Fy Ry Gy Ly].
  destruct Ry as [Ry|(B1 & B2)]; [contradiction|]. pose proof (bpow_gt_0 radix2 lo2) as P0.
  assert (Pt : 0 < t) by lra.
  assert (Py' : 0 < B2R y) by (destruct Py as [Py|Py]; [exact Py|rewrite <- Py in Gy; lra]).
  assert (It : / p2 hi2 <= / t <= / p2 lo2) by (split; apply Rinv_le; lra).
  pose proof (Rinv_0_lt_compat _ Pt) as It0.
  assert (R : m / t = 0 \/ p2 (lo1 - hi2) <= m / t <= p2 (hi1 - lo2)).
  { destruct Rx as [->|(A1 & A2)]; [left; unfold Rdiv; lra|right]. unfold Zminus, Rdiv. rewrite !bpow_plus, !bpow_opp.
    pose proof (bpow_gt_0 radix2 hi2) as P2. pose proof (Rinv_0_lt_compat _ P2).
    split; apply Rmult_le_compat; auto using bpow_ge_0; try lra. }
  assert (A : Rabs (r / t) <= m / t).
  { unfold Rdiv. rewrite Rabs_mult, (Rabs_pos_eq (/ t)) by lra. apply Rmult_le_compat_r; lra. }
  destruct (round_m (k1 + k2) (lo1 - hi2) (hi1 - lo2) (m / t) (B2R x / B2R y) (r / t)) as (Q1 & Q2); auto; try lia.
  { apply (few_le _ k); auto. lia. }
  { rewrite pow_add. apply quot_err; auto; apply wk_ge1. }
  pose proof (Bdiv_correct _ _ Hp He mode_NE x y ltac:(lra)) as Q. rewrite Rlt_bool_true in Q by exact Q1. destruct Q as (E & F & _).
  apply (mapr_weak (S (k1 + k2)) (lo1 - hi2) (hi1 - lo2)); auto; try lia. split; auto; [now rewrite F|now rewrite E].
Qed.
Lemma sum_rng lo hi a b : a = 0 \/ p2 lo <= a <= p2 hi -> b = 0 \/ p2 lo <= b <= p2 hi -> a + b = 0 \/ p2 lo <= a + b <= p2 (hi + 1).
Proof.
  intros Ra Rb. assert (E : p2 (hi + 1) = p2 hi * 2) by (rewrite bpow_plus; simpl; lra). rewrite E.
  pose proof (bpow_gt_0 radix2 lo). pose proof (bpow_gt_0 radix2 hi).
  destruct Ra as [->|(A1 & A2)]; [destruct Rb as [->|(B1 & B2)]; [left; lra|right; lra]|right]. destruct Rb as [->|(B1 & B2)]; lra.
Qed.
Lemma mapr_add k0 lo0 hi0 m1 m2 x y r t k lo hi : mapr k0 lo0 hi0 m1 x r -> mapr k0 lo0 hi0 m2 y t ->
  few k -> (k0 < k)%nat -> (3 - emax <= lo0)%Z -> (lo <= lo0)%Z -> (hi0 + 1 <= hi)%Z -> (hi + 2 < emax)%Z ->
  mapr k lo hi (m1 + m2) (Bplus mode_NE x y) (r + t).
Proof.
  intros Hx Hy Fk Hk E1 E2 E3 E4. destruct Hx as [Fx Rx Ax Ex]. destruct Hy as [Fy Ry Ay Ey].
  pose proof (sum_rng _ _ _ _ Rx Ry) as R.
  assert (A : Rabs (r + t) <= m1 + m2) by (apply Rle_trans with (1 := Rabs_triang _ _); lra).
  destruct (round_m k0 lo0 (hi0 + 1) (m1 + m2) (B2R x + B2R y) (r + t)) as (Q1 & Q2); auto; try lia.
  { apply (few_le _ k); auto. lia. }
  { replace (B2R x + B2R y - (r + t)) with ((B2R x - r) + (B2R y - t)) by ring. apply Rle_trans with (1 := Rabs_triang _ _). lra. }
  pose proof (Bplus_correct _ _ Hp He mode_NE x y Fx Fy) as Q. rewrite Rlt_bool_true in Q by exact Q1. destruct Q as (E & F & _).
  apply (mapr_weak (S k0) lo0 (hi0 + 1)); auto; try lia. split; auto. now rewrite E.
Qed.
Lemma mapr_sub k0 lo0 hi0 m1 m2 x y r t k lo hi : mapr k0 lo0 hi0 m1 x r -> mapr k0 lo0 hi0 m2 y t ->
  few k -> (k0 < k)%nat -> (3 - emax <= lo0)%Z -> (lo <= lo0)%Z -> (hi0 + 1 <= hi)%Z -> (hi + 2 < emax)%Z ->
  mapr k lo hi (m1 + m2) (Bminus mode_NE x y) (r - t).
Proof.
  intros Hx Hy Fk Hk E1 E2 E3 E4. destruct Hx as [Fx Rx Ax Ex]. destruct Hy as [Fy Ry Ay Ey].
  pose proof (sum_rng _ _ _ _ Rx Ry) as R.
  assert (A : Rabs (r - t) <= m1 + m2) by (unfold Rminus; apply Rle_trans with (1 := Rabs_triang _ _); rewrite Rabs_Ropp; lra).
  destruct (round_m k0 lo0 (hi0 + 1) (m1 + m2) (B2R x - B2R y) (r - t)) as (Q1 & Q2); auto; try lia.
  { apply (few_le _ k); auto. lia. }
  { replace (B2R x - B2R y - (r - t)) with ((B2R x - r) + - (B2R y - t)) by ring. apply Rle_trans with (1 := Rabs_triang _ _).
    rewrite Rabs_Ropp. lra. }
  pose proof (Bminus_correct _ _ Hp He mode_NE x y Fx Fy) as Q. rewrite Rlt_bool_true in Q by exact Q1. destruct Q as (E & F & _).
  apply (mapr_weak (S k0) lo0 (hi0 + 1)); auto; try lia. split; auto. now rewrite E.
Qed.

(** sums in any order *)
Lemma mapr_sum {L : Libm prec emax} n (f : nat -> B) (g m : nat -> R) k0 lo0 hi0 l k lo hi :
  (forall j, (j < n)%nat -> mapr k0 lo0 hi0 (m j) (f j) (g j)) -> (Z.of_nat n <= 2 ^ l)%Z -> (0 <= l)%Z ->
  few k -> (k0 + n <= k)%nat -> (3 - emax <= lo0)%Z -> (lo <= lo0)%Z -> (hi0 + l <= hi)%Z -> (hi + 2 < emax)%Z ->
  mapr k lo hi (rsum n m) (fsum (K := IS prec emax L) n f) (rsum n g).
Proof.
  intros H Hn Hl Fk Hk E1 E2 E3 E4.
  assert (Up : forall p, (p <= n)%nat -> INR p * p2 hi0 <= p2 (hi0 + l)).
  { intros p Hq. rewrite bpow_plus, Rmult_comm. apply Rmult_le_compat_l; [apply bpow_ge_0|].
    rewrite <- (IZR_Zpower radix2) by auto. rewrite INR_IZR_INZ. apply IZR_le. change (radix2 ^ l)%Z with (2 ^ l)%Z. lia. }
  assert (K : forall t, (forall j, In j (leaves t) -> (j < n)%nat) -> (List.length (leaves t) <= n)%nat ->
    let s := feval (K := IS prec emax L) t f : B in let v := lsum (leaves t) g in let a := lsum (leaves t) m in let p := List.length (leaves t) in
    is_finite s = true /\ (a = 0 \/ p2 lo0 <= a) /\ a <= INR p * p2 hi0 /\ Rabs v <= a /\ Rabs (B2R s - v) <= (w ^ (k0 + p) - 1) * a).
  { induction t as [|j|a IHa b IHb]; intros HT Hm.
    - cbn [leaves feval lsum List.length]. change (@f0 (IS prec emax L)) with (B754_zero false : B). cbv zeta.
      simpl B2R. rewrite Rminus_0_r, Rabs_R0. simpl INR. repeat split; auto; lra.
    - cbn [leaves feval lsum List.length] in *. pose proof (H j (HT j (or_introl eq_refl))) as A.
      pose proof (mapr_nonneg _ _ _ _ _ _ A) as Pm. destruct A as [Fm Rm Am Em]. pose proof (rng_hi _ _ _ Rm) as Um.
      pose proof (wk_le (prec := prec) k0 (k0 + 1) ltac:(lia)) as W. cbv zeta. rewrite !Rplus_0_r.
      split; [exact Fm|]. split; [|split; [|split; [exact Am|]]].
      + destruct Rm as [->|(Rm & _)]; auto.
      + change (INR 1) with 1. lra.
      + apply Rle_trans with (1 := Em), Rmult_le_compat_r; lra.
    - cbn [leaves feval] in *. rewrite app_length in Hm.
      destruct (IHa (fun j Hj => HT j (in_or_app _ _ _ (or_introl Hj))) ltac:(lia)) as (Fa & Ra & Ua & Aa & Ea').
      destruct (IHb (fun j Hj => HT j (in_or_app _ _ _ (or_intror Hj))) ltac:(lia)) as (Fb & Rb & Ub & Ab & Eb').
      cbv zeta. rewrite !lsum_app, app_length, plus_INR.
      change (fadd (s := IS prec emax L)) with (Bplus (prec := prec) (emax := emax) mode_NE).
      destruct (leaves a) as [|a0 la] eqn:Ea.
      { rewrite (feval_empty a) by exact Ea. cbn [lsum List.length Nat.add]. destruct (zero_plus _ Fb) as (F1 & V1).
        rewrite !V1, !Rplus_0_l. change (INR 0) with 0. rewrite ?Rplus_0_l. repeat split; auto. }
      destruct (leaves b) as [|b0 lb] eqn:Eb.
      { rewrite (feval_empty b) by exact Eb. cbn [lsum List.length]. destruct (plus_zero _ Fa) as (F1 & V1).
        rewrite !V1, !Rplus_0_r, Nat.add_0_r. change (INR 0) with 0. rewrite ?Rplus_0_r. repeat split; auto. }
      rewrite <- Ea, <- Eb in *.
      assert (Na : (1 <= List.length (leaves a))%nat) by (rewrite Ea; simpl; lia).
      assert (Nb : (1 <= List.length (leaves b))%nat) by (rewrite Eb; simpl; lia).
      clear Ea Eb IHa IHb HT. revert Hm Na Nb Fa Ra Ua Aa Ea' Fb Rb Ub Ab Eb'.
      generalize (feval (K := IS prec emax L) a f : B), (feval (K := IS prec emax L) b f : B), (lsum (leaves a) g), (lsum (leaves b) g),
        (lsum (leaves a) m), (lsum (leaves b) m), (List.length (leaves a)), (List.length (leaves b)).
      intros x y u v ma mb p q Hm Na Nb Fa Ra Ua Aa Ea Fb Rb Ub Ab Eb.
      pose proof (bpow_gt_0 radix2 lo0) as P0. pose proof (bpow_gt_0 radix2 hi0) as P1.
      assert (Pu : 0 <= ma) by (destruct Ra as [->|Ra]; lra).
      assert (Pv : 0 <= mb) by (destruct Rb as [->|Rb]; lra).
      assert (Wx : mapr (k0 + (p + q - 1)) lo0 (hi0 + l) ma x u).
      { split; auto. 
        - destruct Ra as [Ra|Ra]; [now left|right]. split; [exact Ra|]. apply Rle_trans with (1 := Ua), Up. lia.
        - apply Rle_trans with (1 := Ea), Rmult_le_compat_r; auto. pose proof (wk_le (prec := prec) (k0 + p) (k0 + (p + q - 1)) ltac:(lia)). lra. }
      assert (Wy : mapr (k0 + (p + q - 1)) lo0 (hi0 + l) mb y v).
      { split; auto. 
        - destruct Rb as [Rb|Rb]; [now left|right]. split; [exact Rb|]. apply Rle_trans with (1 := Ub), Up. lia.
        - apply Rle_trans with (1 := Eb), Rmult_le_compat_r; auto. pose proof (wk_le (prec := prec) (k0 + q) (k0 + (p + q - 1)) ltac:(lia)). lra. }
      assert (U : ma + mb <= (INR p + INR q) * p2 hi0) by lra.
      assert (A : Rabs (u + v) <= ma + mb) by (apply Rle_trans with (1 := Rabs_triang _ _); lra).
      assert (R : ma + mb = 0 \/ p2 lo0 <= ma + mb).
      { destruct Ra as [->|Ra]; [rewrite Rplus_0_l; exact Rb|right; lra]. }
      destruct (round_m (k0 + (p + q - 1)) lo0 (hi0 + l) (ma + mb) (B2R x + B2R y) (u + v)) as (Q1 & Q2); auto; try lia.
      { apply (few_le _ k); auto. lia. }
      { destruct R as [R|R]; [now left|right]. split; [exact R|]. apply Rle_trans with (1 := U). rewrite <- plus_INR. apply Up. lia. }
      { replace (B2R x + B2R y - (u + v)) with ((B2R x - u) + (B2R y - v)) by ring. apply Rle_trans with (1 := Rabs_triang _ _).
        pose proof (mp_err _ _ _ _ _ _ Wx). pose proof (mp_err _ _ _ _ _ _ Wy). lra. }
      pose proof (Bplus_correct _ _ Hp He mode_NE x y Fa Fb) as Q. rewrite Rlt_bool_true in Q by exact Q1. destruct Q as (E & F & _).
      split; [exact F|]. split; [exact R|]. split; [exact U|]. split; [exact A|]. rewrite E.
      replace (k0 + (p + q))%nat with (S (k0 + (p + q - 1))) by lia. exact Q2. }
  unfold fsum. change (fplan (s := IS prec emax L)) with (l_plan L). destruct (l_plan L n) as (t & P). cbn [proj1_sig].
  pose proof (Permutation.Permutation_length P) as Len. rewrite seq_length in Len.
  destruct (K t) as (F & R & U & A & E).
  { intros j Hj. apply (Permutation.Permutation_in j P), in_seq in Hj. lia. }
  { lia. }
  cbv zeta in *. rewrite Len, (lsum_perm _ _ g P), (lsum_perm _ _ m P), !lsum_seq in *.
  apply (mapr_weak (k0 + n) lo0 (hi0 + l)); auto; try lia. split; auto.
  destruct R as [R|R]; [now left|right]. split; [exact R|]. apply Rle_trans with (1 := U). apply Up. lia.
Qed.
End I.
