(** * Rounding errors of the three-body energy in IEEE arithmetic: C76 *)
From Coq Require Import Reals List Arith ZArith QArith Qreals Bool String Lia Lra.
From Flocq Require Import Core.Core IEEE754.BinarySingleNaN.
From Verif Require Import Py Tensor Scalar RInst ModelExt ModelUtils ModelDamping ModelModels
  ModelTerms TensorLemmas Closed ClosedM ClosedTerms ClosedDamp IeeeInst IeeeP IeeeB IeeeA IeeeM SpecR EnergyR Energy3R
  SpecIeee PropsFinite PropsAcc.
Import ListNotations.
Open Scope R_scope.

(** ** Specification *)

(** the sum of the absolute values of the terms of [triple_energy], the cosines not evaluated but bounded by
    the sum of the squared distances (the code forms their numerators by subtracting squared distances) *)
Definition triple_size (c : nat) (xi xj xk : nat -> R) (c9 rij rik rjk s9 alp : R) : R :=
  let r := euclid c xi xj * euclid c xi xk * euclid c xj xk in
  let q := sqd c xi xj + sqd c xi xk + sqd c xj xk in
  Rabs s9 * Rabs c9 * (3 * (q ^ 3 / (8 * r ^ 2)) + 1) / r ^ 3
  / (1 + 6 * Rpower (rij * rik * rjk / r) (alp / 3)).

Section S.
Context {prec emax : Z} {Hp : Prec_gt_0 prec} {He : Prec_lt_emax prec emax}.
Context {L : Libm prec emax} {L64 : Libm 53 1024}.
Notation N := (IN prec emax L L64).
Notation F := (binary_float prec emax).
Notation p2 := (bpow radix2).
Context (X : Ext (sc N)).

(** what is required of [torch.pow] with two floats, the base positive: a non-negative number, accurate away
    from underflow and overflow *)
Record rpow_accurate (kr : nat) : Prop := {
  ra_acc : forall x y : F, is_finite x = true -> 0 < B2R x -> is_finite y = true ->
    p2 (2 - emax) <= Rpower (B2R x) (B2R y) <= p2 (emax - 1) -> within kr (l_pow L x y) (Rpower (B2R x) (B2R y));
  ra_num : forall x y : F, is_finite x = true -> 0 < B2R x -> is_finite y = true -> nonneg_num (l_pow L x y) }.
(** ... and of the division of [tad_mctc.storch] *)
Definition div_accurate (kv : nat) : Prop := forall x y : F, is_finite x = true -> is_finite y = true -> 0 < B2R x -> 0 < B2R y ->
  p2 (2 - emax) <= B2R x / B2R y <= p2 (emax - 1) -> within kv (x_div X x y : F) (B2R x / B2R y).

(** Sizes, as exponents of two: all distances from [2^-tnear] to [2^tall]; in a triple within the cutoff up
    to [2^tfar], and their product up to [2^tprod]; radii from [2^trlo] to [2^trhi]; the power in the damping
    function from [2^-tplo] to [2^tphi]; C9 coefficients zero or of magnitude [2^-tc9min] to [2^tc9max]; the
    scaling parameter zero or of magnitude [2^-ts9] to [2^ts9]; at most [2^tatoms] atoms. *)
Record tri_sizes := mkTri { tnear : Z; tall : Z; tfar : Z; tprod : Z; trlo : Z; trhi : Z; tplo : Z; tphi : Z;
  tc9min : Z; tc9max : Z; ts9 : Z; tatoms : Z }.
Record tri_fits (s : tri_sizes) : Prop := {
  tf_pos : (0 <= tnear s /\ 0 <= tfar s <= tall s /\ 0 <= tprod s <= 3 * tall s /\ 0 <= tplo s /\ 0 <= tphi s /\ 0 <= tc9min s /\ 0 <= tc9max s
            /\ 0 <= ts9 s /\ 0 <= tatoms s)%Z;
  tf_prec : (24 <= prec /\ 128 <= emax)%Z;
  tf_dist : (6 * tall s + 3 <= emax /\ 15 * tnear s + 3 <= emax /\ 6 * tnear s + 5 * tprod s + 5 <= emax)%Z;
  tf_rad : (3 <= 3 * trlo s + emax /\ trlo s <= trhi s /\ 2 * trhi s + 3 <= emax /\ 3 * trhi s + 3 <= emax
            /\ 3 <= 2 * trlo s + emax /\ 3 * tall s + 3 <= 3 * trlo s + emax /\ 3 * trhi s + 3 * tnear s + 3 <= emax)%Z;
  tf_pow : (tplo s + 3 <= emax /\ tphi s + 7 <= emax)%Z;
  tf_low : (3 * tprod s + tphi s + ts9 s + tc9min s + 9 <= emax)%Z;
  tf_high : (6 * tfar s + 15 * tnear s + ts9 s + tc9max s + 2 * tatoms s + 9 < emax)%Z }.

(** the computed distances are accurate; the exact ones are within the sizes, and not too close to the cutoff *)
Definition tri_geometry (s : tri_sizes) (kd kr : nat) (cut : R) (numbers : tensor Z) (positions : tensor (sc N))
  (n c : nat) (B : list nat) : Prop :=
  (Z.of_nat n <= 2 ^ tatoms s)%Z /\
  (forall b i j, valid B b -> (i < n)%nat -> (j < n)%nat -> real_pair (sl1 numbers b) i j = true ->
    let d := euclid c (rcoord positions b i) (rcoord positions b j) in
    within kd (x_dist X c (sl2 positions b i) (sl2 positions b j) : F) d /\
    p2 (- tnear s) <= d <= p2 (tall s) /\
    (d * growth (prec := prec) (kd + kr + 1) <= cut \/ cut * growth (prec := prec) (kd + kr + 1) < d)) /\
  (forall b i j k, valid B b -> (i < n)%nat -> (j < n)%nat -> (k < n)%nat -> real_triple (sl1 numbers b) i j k = true ->
    let d i j := euclid c (rcoord positions b i) (rcoord positions b j) in
    d i j <= cut -> d j k <= cut ->
    d i j <= p2 (tfar s) /\ d i k <= p2 (tfar s) /\ d j k <= p2 (tfar s) /\ d i j * d i k * d j k <= p2 (tprod s)).

Definition tri_radii (s : tri_sizes) (numbers : tensor Z) (radii : tensor (sc N)) (n : nat) (B : list nat) : Prop :=
  forall b i j, valid B b -> (i < n)%nat -> (j < n)%nat -> real_pair (sl1 numbers b) i j = true ->
    is_finite (sl2 radii b i j : F) = true /\ p2 (trlo s) <= B2R (sl2 radii b i j : F) <= p2 (trhi s).
(** zero, or a number of either sign with a magnitude between the powers of two *)
Definition signed_or (lo hi : Z) (x : F) : Prop := is_finite x = true /\ (B2R x = 0 \/ p2 lo <= Rabs (B2R x) <= p2 hi).
Definition tri_c9 (s : tri_sizes) (c9 : tensor (sc N)) (n : nat) (B : list nat) : Prop :=
  forall b i j k, valid B b -> (i < n)%nat -> (j < n)%nat -> (k < n)%nat -> signed_or (- tc9min s) (tc9max s) (sl3 c9 b i j k : F).
(** the steepness of the damping, its third at most the integer [A] *)
Definition tri_alp (s : tri_sizes) (A : nat) (alp : F) : Prop :=
  zero_or (-8) 8 alp /\ B2R alp + 1 <= 3 * INR A /\
  IZR (tprod s - 3 * trlo s) * B2R alp <= 3 * IZR (tplo s) /\ IZR (3 * trhi s + 3 * tnear s) * B2R alp <= 3 * IZR (tphi s).

(** the three-body energy of atom [i] in exact arithmetic, for the same input, and the sum of the sizes *)
Definition exact_atm (f : nat -> (nat -> R) -> (nat -> R) -> (nat -> R) -> R -> R -> R -> R -> R -> R -> R)
  (numbers : tensor Z) (positions c9 radii : tensor (sc N)) (s9 alp : F)
  (cut : R) (n c : nat) (b : list nat) (i : nat) : R :=
  1 / 6 * rsum n (fun j => rsum n (fun k =>
    if real_triple (sl1 numbers b) i j k
       && rleb (euclid c (rcoord positions b i) (rcoord positions b j)) cut
       && rleb (euclid c (rcoord positions b j) (rcoord positions b k)) cut
    then f c (rcoord positions b i) (rcoord positions b j) (rcoord positions b k)
           (B2R (sl3 c9 b i j k : F)) (B2R (sl2 radii b i j : F)) (B2R (sl2 radii b i k : F)) (B2R (sl2 radii b j k : F)) (B2R s9) (B2R alp)
    else 0)).
End S.

(** number of rounding errors of a triple, with [kd] errors of the distances, [kr] of each power and [kv] of
    the division; the power in the damping function at most [A], its value between [2^-m] and [2^m] *)
Definition triple_errors (kd kr kv A m : nat) : nat :=
  (let k2 := 2 * kd + kr in 12 * k2 + (3 * k2 + 6 + kv) * A + m + kr + 26)%nat.
Definition atm_errors (kd kr kv A m n : nat) : nat := (triple_errors kd kr kv A m + 2 * n + 1)%nat.

(** ** Proofs *)
Section P.
Context {prec emax : Z} {Hp : Prec_gt_0 prec} {He : Prec_lt_emax prec emax}.
Context {L : Libm prec emax} {L64 : Libm 53 1024}.
Notation N := (IN prec emax L L64).
Notation KI := (IS prec emax L).
Notation F := (binary_float prec emax).
Notation p2 := (bpow radix2).
Notation gw := (growth (prec := prec)).
Notation w := (w (prec := prec)).
Notation few := (few (prec := prec)).
Notation appr := (appr (prec := prec) (emax := emax)).
Notation mapr := (mapr (prec := prec) (emax := emax)).
Notation rnd := (round radix2 (SpecFloat.fexp prec emax) (round_mode mode_NE)).
Context (X : Ext (sc N)).

Lemma appr_rng k lo hi lo' hi' (x : F) r : appr k lo hi x r -> p2 lo' <= r <= p2 hi' -> appr k lo' hi' x r.
Proof. intros [A R G U] H. split; auto. Qed.
Lemma mapr_rng k lo hi lo' hi' m (x : F) r : mapr k lo hi m x r -> m = 0 \/ p2 lo' <= m <= p2 hi' -> mapr k lo' hi' m x r.
Proof. intros [A R G U] H. split; auto. Qed.

(** powers with a real exponent *)
Lemma ln_w_pos : 0 <= ln w.
Proof. rewrite <- ln_1. destruct (w_ge1 (prec := prec)) as [H|H]; [left; apply ln_increasing; lra|rewrite <- H; lra]. Qed.
Lemma exp_ln_w k : exp (INR k * ln w) = w ^ k.
Proof. change (exp (INR k * ln w)) with (Rpower w (INR k)). apply Rpower_pow, w_pos. Qed.
Lemma ln_2_le : ln 2 <= 3 / 4.
Proof.
  assert (E : 2 <= exp (3 / 4)).
  { replace (3 / 4) with (INR 8 * (3 / 32)) by (simpl; lra).
    assert (P : exp (INR 8 * (3 / 32)) = exp (3 / 32) ^ 8).
    { simpl INR. replace ((1 + 1 + 1 + 1 + 1 + 1 + 1 + 1) * (3 / 32)) with (3/32 + (3/32 + (3/32 + (3/32 + (3/32 + (3/32 + (3/32 + 3/32))))))) by lra.
      rewrite !exp_plus. ring. }
    rewrite P. pose proof (exp_ineq1_le (3 / 32)) as Q. apply Rle_trans with ((1 + 3 / 32) ^ 8); [lra|]. apply pow_incr. lra. }
  rewrite <- (ln_exp (3 / 4)). destruct E as [E|E]; [left; apply ln_increasing; lra|rewrite <- E; lra].
Qed.
Lemma u_ln2 : (2 <= prec)%Z -> p2 (- prec) * ln 2 <= ln w.
Proof.
  intros Hq. set (u := p2 (- prec)). assert (Pu : 0 < u) by apply bpow_gt_0.
  assert (U : u <= / 4) by (apply (bpow_le radix2 (- prec) (-2)); lia).
  pose proof ln_2_le as L2. pose proof ln_lt_2 as L1. set (t := u * ln 2).
  assert (T : 0 <= t <= u * (3 / 4)) by (unfold t; split; [apply Rmult_le_pos; lra|apply Rmult_le_compat_l; lra]).
  rewrite <- (ln_exp t).
  assert (E : exp t <= w).
  { pose proof (exp_ineq1_le (- t)) as Q. rewrite exp_Ropp in Q. pose proof (exp_pos t) as P.
    apply Rmult_le_reg_r with (/ exp t); [now apply Rinv_0_lt_compat|]. rewrite Rinv_r by lra.
    unfold IeeeA.w. fold u. apply Rle_trans with ((1 + u) * (1 + - t)); [|apply Rmult_le_compat_l; lra]. nra. }
  destruct E as [E|E]; [left; apply ln_increasing; [apply exp_pos|exact E]|rewrite <- E; lra].
Qed.
Lemma ln_near k (x r : R) : 0 < x -> 0 < r -> r <= x * w ^ k -> x <= r * w ^ k -> Rabs (ln x - ln r) <= INR k * ln w.
Proof.
  intros Px Pr A C. pose proof (wk_pos (prec := prec) k) as W.
  assert (E : ln (w ^ k) = INR k * ln w) by (rewrite <- exp_ln_w, ln_exp; reflexivity).
  assert (M : forall a b, 0 < a -> a <= b -> ln a <= ln b).
  { intros a b Pa [Q|Q]; [left; now apply ln_increasing|rewrite Q; lra]. }
  apply M in A; [|lra]. apply M in C; [|lra]. rewrite ln_mult, E in A, C by lra. apply Rabs_le. lra.
Qed.

Context (kr : nat) (PA : rpow_accurate (L := L) kr).
Context (Kmax : nat) (HK : few Kmax).
Lemma fk3 k : (k <= Kmax)%nat -> few k.
Proof. intros H. exact (few_le _ _ HK H). Qed.

Lemma appr_rpow k0 lo0 hi0 (x y : F) r e A m k lo hi : appr k0 lo0 hi0 x r -> r <> 0 -> is_finite y = true -> 0 <= B2R y <= INR A ->
  Rabs ((B2R y - e) * ln r) <= INR m * ln w -> p2 lo <= Rpower r e <= p2 hi ->
  (k0 * A + m + kr <= k)%nat -> (k <= Kmax)%nat -> (3 - emax <= lo)%Z -> (hi + 2 <= emax)%Z ->
  appr k lo hi (l_pow L x y) (Rpower r e).
Proof.
  intros H Nr Fy Hy Hm R Hk HkM E1 E2. pose proof (appr_nonneg _ _ _ _ _ H) as Pr. pose proof (appr_pos _ _ _ _ _ H) as Px.
  destruct H as [Fx _ G U]. assert (Pr' : 0 < r) by lra. pose proof (wk_pos (prec := prec) k0) as W0.
  assert (Px' : 0 < B2R x) by (destruct Px as [Px|Px]; [exact Px|rewrite <- Px in G; lra]).
  pose proof (ln_near k0 _ _ Px' Pr' G U) as Ln. pose proof ln_w_pos as Lw.
  set (P := Rpower r e) in *. set (Q := Rpower (B2R x) (B2R y)).
  assert (D : Rabs (B2R y * ln (B2R x) - e * ln r) <= INR (k0 * A + m) * ln w).
  { replace (B2R y * ln (B2R x) - e * ln r) with (B2R y * (ln (B2R x) - ln r) + (B2R y - e) * ln r) by ring.
    apply Rle_trans with (1 := Rabs_triang _ _). rewrite plus_INR, mult_INR, Rmult_plus_distr_r. apply Rplus_le_compat; [|exact Hm].
    rewrite Rabs_mult, (Rabs_pos_eq (B2R y)) by lra. replace (INR k0 * INR A * ln w) with (INR A * (INR k0 * ln w)) by ring.
    apply Rmult_le_compat; try lra. apply Rabs_pos. }
  apply Rabs_le_inv in D as (D1 & D2).
  assert (Em : forall a b, a <= b -> exp a <= exp b) by (intros a b [T|T]; [left; now apply exp_increasing|rewrite T; lra]).
  set (kk := (k0 * A + m)%nat) in *.
  assert (Q1 : Q <= P * w ^ kk).
  { unfold Q, P, Rpower. rewrite <- exp_ln_w, <- exp_plus. apply Em. lra. }
  assert (Q2 : P <= Q * w ^ kk).
  { unfold Q, P, Rpower. rewrite <- exp_ln_w, <- exp_plus. apply Em. lra. }
  assert (PQ : 0 < Q) by apply exp_pos. assert (PP : 0 < P) by apply exp_pos.
  pose proof (few_2 (prec := prec) kk (fk3 kk ltac:(unfold kk; lia))) as W2. pose proof (wk_ge1 (prec := prec) kk) as W1.
  assert (RQ : p2 (2 - emax) <= Q <= p2 (emax - 1)).
  { split.
    - assert (T : p2 (3 - emax) <= p2 lo) by (apply bpow_le; lia).
      replace (3 - emax)%Z with (2 - emax + 1)%Z in T by ring. rewrite bpow_plus in T. change (p2 1) with 2 in T.
      assert (Q * w ^ kk <= Q * 2) by (apply Rmult_le_compat_l; lra). lra.
    - assert (T : p2 hi <= p2 (emax - 2)) by (apply bpow_le; lia).
      replace (emax - 1)%Z with (emax - 2 + 1)%Z by ring. rewrite bpow_plus. change (p2 1) with 2.
      assert (P * w ^ kk <= P * 2) by (apply Rmult_le_compat_l; lra). lra. }
  pose proof (ra_acc kr PA x y Fx Px' Fy RQ) as Wi. fold Q in Wi. destruct (within_le _ _ _ Wi) as (A1 & A2).
  apply (appr_weak (kk + kr) lo hi); try lia. pose proof (growth_pos (prec := prec) kr) as Wr. change (gw kr) with (w ^ kr) in *.
  split; [apply Wi|now right|..]; rewrite pow_add.
  - apply Rle_trans with (1 := Q2). replace (B2R (l_pow L x y) * (w ^ kk * w ^ kr)) with (B2R (l_pow L x y) * w ^ kr * w ^ kk) by ring.
    apply Rmult_le_compat_r; lra.
  - apply Rle_trans with (1 := A2). rewrite <- Rmult_assoc. apply Rmult_le_compat_r; lra.
Qed.

Lemma p2_ln e : ln (p2 e) = IZR e * ln 2.
Proof. rewrite bpow_exp, ln_exp. reflexivity. Qed.
Lemma rpow_rng lo hi r e pl ph : 0 < r -> p2 lo <= r <= p2 hi -> 0 <= e ->
  - IZR lo * e <= IZR pl -> IZR hi * e <= IZR ph ->
  p2 (- pl) <= Rpower r e <= p2 ph /\ - IZR pl * ln 2 <= e * ln r <= IZR ph * ln 2.
Proof.
  intros Pr (R1 & R2) Pe H1 H2. pose proof ln_lt_2 as L2.
  assert (M : forall a b, 0 < a -> a <= b -> ln a <= ln b).
  { intros a b Pa [Q|Q]; [left; now apply ln_increasing|rewrite Q; lra]. }
  apply M in R1; [|apply bpow_gt_0]. apply M in R2; [|exact Pr]. rewrite p2_ln in R1, R2.
  assert (A1 : - IZR pl * ln 2 <= e * ln r).
  { apply Rle_trans with (e * (IZR lo * ln 2)); [|now apply Rmult_le_compat_l].
    replace (e * (IZR lo * ln 2)) with ((IZR lo * e) * ln 2) by ring. apply Rmult_le_compat_r; lra. }
  assert (A2 : e * ln r <= IZR ph * ln 2).
  { apply Rle_trans with (e * (IZR hi * ln 2)); [now apply Rmult_le_compat_l|].
    replace (e * (IZR hi * ln 2)) with ((IZR hi * e) * ln 2) by ring. apply Rmult_le_compat_r; lra. }
  split; [|split; auto]. unfold Rpower. rewrite !bpow_exp, opp_IZR. change (IZR radix2) with 2.
  assert (Em : forall a b, a <= b -> exp a <= exp b) by (intros a b [T|T]; [left; now apply exp_increasing|rewrite T; lra]).
  split; apply Em; auto.
Qed.

(** literals *)
Lemma lit3_ok z lo hi : (24 <= prec)%Z -> (128 <= emax)%Z -> (0 <= z <= 64)%Z -> p2 lo <= IZR z <= p2 hi -> appr 0 lo hi (blit prec emax (inject_Z z)) (IZR z).
Proof.
  intros H1 H2 Hz R. destruct (lit_int (prec := prec) (emax := emax) z) as (A & C); [lia|..].
  - assert (2 ^ 24 <= 2 ^ prec)%Z by (apply Z.pow_le_mono_r; lia). lia.
  - assert (2 ^ 7 <= 2 ^ (emax - 1))%Z by (apply Z.pow_le_mono_r; lia). lia.
  - rewrite <- C. apply appr_exact; [exact A|]. right. now rewrite C.
Qed.
Lemma lit38_ok : (24 <= prec)%Z -> (128 <= emax)%Z -> appr 0 (-2) (-1) (blit prec emax (375 # 1000)) (3 / 8).
Proof.
  intros H1 H2.
  assert (Q : is_finite (blit prec emax (375 # 1000)) = true /\ B2R (blit prec emax (375 # 1000)) = 3 / 8).
  { unfold blit. cbn [Qnum Qden]. unfold bratio.
    pose proof (proj2 (Bdiv_correct_aux prec emax Hp He mode_NE false 375 0 false 1000 0)) as Q.
    generalize (proj1 (Bdiv_correct_aux prec emax Hp He mode_NE false 375 0 false 1000 0)). intros V.
    assert (E : F2R (Float radix2 (cond_Zopp false (Zpos 375)) 0) / F2R (Float radix2 (cond_Zopp false (Zpos 1000)) 0) = F2R (Float radix2 3 (-3))).
    { unfold F2R. cbn [Fnum Fexp cond_Zopp]. change (p2 (-3)) with (/ 8). change (p2 0) with 1. lra. }
    assert (RI : rnd (F2R (Float radix2 3 (-3))) = F2R (Float radix2 3 (-3))).
    { apply round_generic; [apply valid_rnd_round_mode|]. apply generic_format_FLT. exists (Float radix2 3 (-3)); auto; cbn [Fnum Fexp].
      - apply Z.lt_le_trans with (2 ^ 24)%Z; [reflexivity|]. change (2 ^ 24 <= 2 ^ prec)%Z. apply Z.pow_le_mono_r; lia.
      - change (3 - emax - prec <= -3)%Z. lia. }
    cbv zeta in Q. rewrite E, RI in Q. assert (T : F2R (Float radix2 3 (-3)) = 3 / 8) by (unfold F2R; simpl; lra). rewrite T in Q.
    rewrite Rlt_bool_true in Q.
    - split; [rewrite is_finite_SF2B; apply Q|]. rewrite B2R_SF2B. apply Q.
    - rewrite Rabs_pos_eq by lra. apply Rlt_trans with (p2 0); [simpl; lra|apply bpow_lt; lia]. }
  destruct Q as (A & C). rewrite <- C. apply appr_exact; [exact A|]. right. rewrite C. simpl. lra.
Qed.

Context (s : tri_sizes) (Hf : tri_fits (prec := prec) (emax := emax) s) (kd kv A : nat) (DA : div_accurate X kv).
Let m : nat := Z.to_nat (Z.max (tplo s) (tphi s)).
Let k2 : nat := (2 * kd + kr)%nat.
Let kb : nat := (3 * k2 + 6 + kv)%nat.
Let kf : nat := (kb * A + m + kr + 3)%nat.
Context (HKt : (12 * k2 + kf + 23 <= Kmax)%nat) (HA1 : (1 <= A)%nat).
Lemma kb_le : (kb <= Kmax)%nat.
Proof. assert (kb * 1 <= kb * A)%nat by (apply Nat.mul_le_mono_l; exact HA1). unfold kf in HKt. lia. Qed.
Ltac fits := destruct (tf_pos _ Hf) as (? & ? & ? & ? & ? & ? & ? & ? & ?); destruct (tf_prec _ Hf); destruct (tf_dist _ Hf) as (? & ? & ?);
  destruct (tf_rad _ Hf) as (? & ? & ? & ? & ? & ? & ?); destruct (tf_pow _ Hf); pose proof (tf_low _ Hf); pose proof (tf_high _ Hf).

Lemma p2_pow e o : p2 e ^ o = p2 (e * Z.of_nat o).
Proof. induction o as [|o IH]; [now rewrite Z.mul_0_r|]. cbn [pow]. rewrite IH, <- bpow_plus. f_equal. lia. Qed.

Lemma sq_acc (d : F) r f : within kd d r -> p2 (- tnear s) <= r <= p2 f -> (0 <= f <= tall s)%Z ->
  appr k2 (- (2 * tnear s)) (2 * f) (fpow (s := KI) d (flit (s := KI) 2) : F) (r ^ 2).
Proof.
  intros W R Hfa. fits. pose proof (bpow_gt_0 radix2 (- tnear s)) as P0.
  destruct (lit_int (prec := prec) (emax := emax) 2) as (F2 & V2); [lia|..].
  { assert (2 ^ 24 <= 2 ^ prec)%Z by (apply Z.pow_le_mono_r; lia). lia. }
  { assert (2 ^ 7 <= 2 ^ (emax - 1))%Z by (apply Z.pow_le_mono_r; lia). lia. }
  change (inject_Z 2) with 2%Q in *.
  assert (E : r ^ 2 = Rpower r 2) by (change 2 with (INR 2); rewrite Rpower_pow by lra; reflexivity).
  rewrite E. apply (appr_rpow kd (- tnear s) f d (blit prec emax 2) r 2 2 0).
  - now apply within_appr; [|right].
  - lra.
  - exact F2.
  - rewrite V2. simpl. lra.
  - rewrite V2. rewrite Rminus_diag_eq, Rmult_0_l, Rabs_R0 by reflexivity. simpl. lra.
  - rewrite <- E. replace (- (2 * tnear s))%Z with (- tnear s * Z.of_nat 2)%Z by lia. replace (2 * f)%Z with (f * Z.of_nat 2)%Z by lia.
    rewrite <- !p2_pow. split; apply pow_incr; lra.
  - unfold k2. lia.
  - lia.
  - lia.
  - lia.
Qed.

Section T.
Context (x y z : R) (a b c : F) (f : Z) (Hfa : (0 <= f <= tall s)%Z).
Context (Rx : p2 (- tnear s) <= x <= p2 f) (Ry : p2 (- tnear s) <= y <= p2 f) (Rz : p2 (- tnear s) <= z <= p2 f).
Context (Ha : appr k2 (- (2 * tnear s)) (2 * f) a (x ^ 2)) (Hb : appr k2 (- (2 * tnear s)) (2 * f) b (y ^ 2))
  (Hc : appr k2 (- (2 * tnear s)) (2 * f) c (z ^ 2)).
Let r2 : F := Bmult mode_NE (Bmult mode_NE a b) c.
Let rr : R := x * y * z.
Lemma pos_xyz : 0 < x /\ 0 < y /\ 0 < z /\ 0 < rr.
Proof.
  pose proof (bpow_gt_0 radix2 (- tnear s)) as P0. assert (0 < x) by lra. assert (0 < y) by lra. assert (0 < z) by lra.
  repeat split; auto. unfold rr. repeat apply Rmult_lt_0_compat; auto.
Qed.
Lemma rr_rng : p2 (- (3 * tnear s)) <= rr <= p2 (3 * f).
Proof.
  pose proof (bpow_gt_0 radix2 (- tnear s)) as P0. destruct pos_xyz as (? & ? & ? & ?).
  replace (- (3 * tnear s))%Z with (- tnear s + - tnear s + - tnear s)%Z by ring. replace (3 * f)%Z with (f + f + f)%Z by ring. rewrite !bpow_plus.
  unfold rr. split; repeat apply Rmult_le_compat; try lra; apply Rmult_le_pos; lra.
Qed.
Lemma r2_acc : appr (3 * k2 + 2) (- (6 * tnear s)) (6 * f) r2 (rr ^ 2).
Proof.
  fits. replace (rr ^ 2) with (x ^ 2 * y ^ 2 * z ^ 2) by (unfold rr; ring). unfold r2.
  apply (appr_mul (2 * k2 + 1) k2 (- (4 * tnear s)) (- (2 * tnear s)) (4 * f) (2 * f)); try lia; [|exact Hc|apply fk3; lia].
  apply (appr_mul k2 k2 (- (2 * tnear s)) (- (2 * tnear s)) (2 * f) (2 * f)); try lia; [exact Ha|exact Hb|apply fk3; lia].
Qed.
Lemma r1_acc : appr (3 * k2 + 3) (- (3 * tnear s)) (3 * f) (Bsqrt mode_NE r2) rr.
Proof.
  fits. destruct pos_xyz as (_ & _ & _ & P). rewrite <- (sqrt_pow2 rr) by lra.
  apply (appr_sqrt (3 * k2 + 2) (- (3 * tnear s)) (3 * f)); try lia; [|apply fk3; lia].
  replace (2 * - (3 * tnear s))%Z with (- (6 * tnear s))%Z by ring. replace (2 * (3 * f))%Z with (6 * f)%Z by ring. apply r2_acc.
Qed.

(** damping *)
Context (u v t alp : F).
Context (Hu : is_finite u = true /\ p2 (trlo s) <= B2R u <= p2 (trhi s)) (Hv : is_finite v = true /\ p2 (trlo s) <= B2R v <= p2 (trhi s))
  (Ht : is_finite t = true /\ p2 (trlo s) <= B2R t <= p2 (trhi s)) (HA : tri_alp s A alp).
Let r0 : F := Bmult mode_NE (Bmult mode_NE u v) t.
Let e0 : R := B2R u * B2R v * B2R t.
Let fd : F := zero_fac (K := KI) X (flit (s := KI) 1) (fdiv (s := KI) alp (flit (s := KI) 3)) r0 (Bsqrt mode_NE r2).
Lemma r0_acc : appr 2 (3 * trlo s) (3 * trhi s) r0 e0.
Proof.
  fits. unfold r0, e0. apply (appr_mul 1 0 (2 * trlo s) (trlo s) (2 * trhi s) (trhi s)); try lia; [| |apply fk3; lia].
  - apply (appr_mul 0 0 (trlo s) (trlo s) (trhi s) (trhi s)); try lia; [| |apply fk3; lia]; apply appr_exact; try right; tauto.
  - apply appr_exact; try right; tauto.
Qed.
Lemma e0_pos : 0 < e0.
Proof.
  pose proof (bpow_gt_0 radix2 (trlo s)). unfold e0. repeat apply Rmult_lt_0_compat; lra.
Qed.
Lemma appr_strict k lo hi (w : F) q : appr k lo hi w q -> 0 < q -> 0 < B2R w.
Proof.
  intros [_ _ G U] P. pose proof (wk_pos (prec := prec) k). destruct (Rlt_or_le 0 (B2R w)) as [Q|Q]; [exact Q|exfalso].
  assert (B2R w * IeeeA.w (prec := prec) ^ k <= 0 * IeeeA.w (prec := prec) ^ k) by (apply Rmult_le_compat_r; lra). lra.
Qed.
Lemma base_acc lo : (3 - emax <= lo)%Z -> p2 lo <= e0 / rr -> appr kb lo (3 * trhi s + 3 * tnear s)
  (Bmult mode_NE (blit prec emax 1) (x_div X r0 (Bsqrt mode_NE r2) : F)) (e0 / rr).
Proof.
  intros Hlo Rlo. fits. pose proof r0_acc as A0. pose proof r1_acc as A1. destruct pos_xyz as (_ & _ & _ & P1). pose proof e0_pos as P0.
  pose proof (appr_strict _ _ _ _ _ A0 P0) as S0. pose proof (appr_strict _ _ _ _ _ A1 P1) as S1.
  pose proof rr_rng as RR. pose proof (bpow_gt_0 radix2 (- (3 * tnear s))) as Q0.
  set (x0 := r0) in *. set (y0 := Bsqrt mode_NE r2) in *.
  assert (Rhi : e0 / rr <= p2 (3 * trhi s + 3 * tnear s)).
  { destruct (ap_rng _ _ _ _ _ A0) as [T|(_ & T)]; [lra|]. rewrite bpow_plus. unfold Rdiv. apply Rmult_le_compat; try lra.
    - left. now apply Rinv_0_lt_compat.
    - rewrite <- (Z.opp_involutive (3 * tnear s)), bpow_opp. apply Rinv_le; lra. }
  assert (D : B2R x0 / B2R y0 <= e0 / rr * w ^ (3 * k2 + 5) /\ e0 / rr <= B2R x0 / B2R y0 * w ^ (3 * k2 + 5)).
  { destruct A0 as [_ _ G0 U0]. destruct A1 as [_ _ G1 U1]. replace (3 * k2 + 5)%nat with (2 + (3 * k2 + 3))%nat by lia. rewrite pow_add.
    split; apply Rmult_le_reg_r with (rr * B2R y0); try (now apply Rmult_lt_0_compat).
    - replace (B2R x0 / B2R y0 * (rr * B2R y0)) with (B2R x0 * rr) by (field; lra).
      replace (e0 / rr * (w ^ 2 * w ^ (3 * k2 + 3)) * (rr * B2R y0)) with ((e0 * w ^ 2) * (B2R y0 * w ^ (3 * k2 + 3))) by (field; lra).
      apply Rmult_le_compat; lra.
    - replace (e0 / rr * (rr * B2R y0)) with (e0 * B2R y0) by (field; lra).
      replace (B2R x0 / B2R y0 * (w ^ 2 * w ^ (3 * k2 + 3)) * (rr * B2R y0)) with ((B2R x0 * w ^ 2) * (rr * w ^ (3 * k2 + 3))) by (field; lra).
      apply Rmult_le_compat; lra. }
  assert (PQ : 0 < B2R x0 / B2R y0) by now apply Rdiv_lt_0_compat. assert (PE : 0 < e0 / rr) by now apply Rdiv_lt_0_compat.
  pose proof (few_2 (prec := prec) (3 * k2 + 5) (fk3 (3 * k2 + 5) ltac:(lia))) as W2. pose proof (wk_ge1 (prec := prec) (3 * k2 + 5)) as W1.
  destruct D as (D1 & D2).
  assert (RQ : p2 (2 - emax) <= B2R x0 / B2R y0 <= p2 (emax - 1)).
  { split.
    - assert (T : p2 (3 - emax) <= p2 lo) by (apply bpow_le; lia).
      replace (3 - emax)%Z with (2 - emax + 1)%Z in T by ring. rewrite bpow_plus in T. change (p2 1) with 2 in T.
      assert (B2R x0 / B2R y0 * w ^ (3 * k2 + 5) <= B2R x0 / B2R y0 * 2) by (apply Rmult_le_compat_l; lra). lra.
    - assert (T : p2 (3 * trhi s + 3 * tnear s) <= p2 (emax - 2)) by (apply bpow_le; lia).
      replace (emax - 1)%Z with (emax - 2 + 1)%Z by ring. rewrite bpow_plus. change (p2 1) with 2.
      assert (e0 / rr * w ^ (3 * k2 + 5) <= e0 / rr * 2) by (apply Rmult_le_compat_l; lra). lra. }
  pose proof (DA x0 y0 (ap_fin _ _ _ _ _ A0) (ap_fin _ _ _ _ _ A1) S0 S1 RQ) as Wi. destruct (within_le _ _ _ Wi) as (B1 & B2).
  assert (Aq : appr (3 * k2 + 5 + kv) lo (3 * trhi s + 3 * tnear s) (x_div X x0 y0 : F) (e0 / rr)).
  { pose proof (growth_pos (prec := prec) kv) as Wr. change (gw kv) with (w ^ kv) in *.
    split; [apply Wi|right; lra|..]; rewrite pow_add.
    - apply Rle_trans with (1 := D2). replace (B2R (x_div X x0 y0 : F) * (w ^ (3 * k2 + 5) * w ^ kv)) with (B2R (x_div X x0 y0 : F) * w ^ kv * w ^ (3 * k2 + 5)) by ring.
      apply Rmult_le_compat_r; lra.
    - apply Rle_trans with (1 := B2). rewrite <- Rmult_assoc. apply Rmult_le_compat_r; lra. }
  rewrite <- (Rmult_1_l (e0 / rr)). apply (appr_mul 0 (3 * k2 + 5 + kv) 0 lo 0 (3 * trhi s + 3 * tnear s)); try (unfold kb; lia); [|exact Aq|apply fk3, kb_le].
  apply (lit3_ok 1); try lia. simpl. lra.
Qed.

Lemma alp_acc : is_finite (fdiv (s := KI) alp (flit (s := KI) 3) : F) = true /\ 0 <= B2R (fdiv (s := KI) alp (flit (s := KI) 3) : F) <= INR A /\
  Rabs (B2R (fdiv (s := KI) alp (flit (s := KI) 3) : F) - B2R alp / 3) <= p2 (- prec) * (B2R alp / 3).
Proof.
  fits. destruct HA as (ZA & HA3 & _).
  assert (D : appr 1 (-10) 7 (Bdiv mode_NE alp (blit prec emax 3)) (B2R alp / 3)).
  { apply (appr_div 0 0 (-8) 1 8 2); try lia; [now apply zero_or_appr| |lra|apply fk3; lia]. apply (lit3_ok 3); try lia. simpl. lra. }
  change (fdiv (s := KI) alp (flit (s := KI) 3) : F) with (Bdiv mode_NE alp (blit prec emax 3)).
  pose proof (mp_err _ _ _ _ _ _ (mapr_appr _ _ _ _ _ D)) as E. pose proof (appr_pos _ _ _ _ _ D) as P. pose proof (appr_nonneg _ _ _ _ _ D) as P'.
  destruct D as [Fd _ G U]. split; [exact Fd|].
  rewrite pow_1 in *. unfold IeeeA.w in *. replace (1 + p2 (- prec) - 1) with (p2 (- prec)) in E by ring. split; [split; [exact P|]|exact E].
  assert (Lu : p2 (- prec) <= p2 (-24)) by (apply bpow_le; lia).
  assert (B8 : B2R alp <= p2 8) by (destruct ZA as (_ & [ZA|(_ & ZA)]); [rewrite ZA; apply bpow_ge_0|exact ZA]).
  assert (T : B2R alp / 3 * p2 (- prec) <= p2 8 * p2 (-24)).
  { apply Rmult_le_compat; auto; try lra. apply bpow_ge_0. }
  rewrite <- bpow_plus in T. assert (p2 (8 + -24) <= / 3) by (simpl; lra). lra.
Qed.

Let sz0 : sizes := mkSizes 0 0 0 3 0.
Lemma fd_unit : unit_float fd.
Proof.
  fits. unfold fd, zero_fac. 
  assert (E : p2 (3 * trlo s - 3 * tall s) <= e0 / rr).
  { pose proof r0_acc as A0. pose proof rr_rng as RR. destruct pos_xyz as (_ & _ & _ & P1). pose proof e0_pos as P0.
    destruct (ap_rng _ _ _ _ _ A0) as [T|(T & _)]; [lra|]. unfold Zminus, Rdiv. rewrite bpow_plus, bpow_opp. apply Rmult_le_compat; auto using bpow_ge_0.
    - left. apply Rinv_0_lt_compat, bpow_gt_0.
    - apply Rinv_le; [exact P1|]. apply Rle_trans with (1 := proj2 RR), bpow_le. lia. }
  pose proof (base_acc (3 * trlo s - 3 * tall s) ltac:(lia) E) as Ba.
  apply (frac_unit (prec := prec) (emax := emax) ltac:(lia) ltac:(lia) sz0); try (cbn; lia).
  apply (ra_num kr PA); [apply Ba| |apply alp_acc].
  apply (appr_strict _ _ _ _ _ Ba). apply Rdiv_lt_0_compat; [apply e0_pos|apply pos_xyz].
Qed.

(** within the cutoff *)
Context (Rp : rr <= p2 (tprod s)) (Hff : (f <= tfar s)%Z).
Let P : R := Rpower (e0 / rr) (B2R alp / 3).
Lemma base_lo : p2 (3 * trlo s - tprod s) <= e0 / rr.
Proof.
  pose proof r0_acc as A0. destruct pos_xyz as (_ & _ & _ & P1). pose proof e0_pos as P0.
  destruct (ap_rng _ _ _ _ _ A0) as [T|(T & _)]; [lra|]. unfold Zminus, Rdiv. rewrite bpow_plus, bpow_opp. apply Rmult_le_compat; auto using bpow_ge_0.
  - left. apply Rinv_0_lt_compat, bpow_gt_0.
  - apply Rinv_le; [exact P1|exact Rp].
Qed.
Lemma P_acc : appr (kb * A + m + kr) (- tplo s) (tphi s)
  (l_pow L (Bmult mode_NE (blit prec emax 1) (x_div X r0 (Bsqrt mode_NE r2) : F)) (fdiv (s := KI) alp (flit (s := KI) 3))) P.
Proof.
  fits. pose proof base_lo as Lo. pose proof (base_acc (3 * trlo s - tprod s) ltac:(lia) Lo) as Ba.
  destruct alp_acc as (Fy & Ryy & Ey). destruct HA as (ZA & HA3 & HA4 & HA5).
  assert (PE : 0 < e0 / rr) by (apply Rdiv_lt_0_compat; [apply e0_pos|apply pos_xyz]).
  destruct (ap_rng _ _ _ _ _ Ba) as [T|(T1 & T2)]; [lra|].
  assert (Pa : 0 <= B2R alp) by (destruct ZA as (_ & [ZA|(ZA & _)]); [lra|pose proof (bpow_gt_0 radix2 (-8)); lra]).
  destruct (rpow_rng (3 * trlo s - tprod s) (3 * trhi s + 3 * tnear s) (e0 / rr) (B2R alp / 3) (tplo s) (tphi s) PE (conj T1 T2)) as (Q1 & Q2).
  { lra. }
  { rewrite <- opp_IZR. replace (- (3 * trlo s - tprod s))%Z with (tprod s - 3 * trlo s)%Z by ring. lra. }
  { lra. }
  apply (appr_rpow kb (3 * trlo s - tprod s) (3 * trhi s + 3 * tnear s)) with (A := A) (m := m); auto; try lia; [lra|].
  rewrite Rabs_mult. pose proof (u_ln2 ltac:(lia)) as Ul. pose proof (bpow_gt_0 radix2 (- prec)) as Pu. pose proof ln_lt_2 as L2.
  apply Rle_trans with (p2 (- prec) * (B2R alp / 3) * Rabs (ln (e0 / rr))); [apply Rmult_le_compat_r; [apply Rabs_pos|exact Ey]|].
  rewrite Rmult_assoc. rewrite <- (Rabs_pos_eq (B2R alp / 3)) by lra. rewrite <- Rabs_mult.
  assert (Mx : IZR (tplo s) <= INR m /\ IZR (tphi s) <= INR m).
  { unfold m. rewrite INR_IZR_INZ, Z2Nat.id by lia. split; apply IZR_le; lia. }
  assert (Bd : Rabs (B2R alp / 3 * ln (e0 / rr)) <= INR m * ln 2).
  { apply Rabs_le. destruct Mx as (M1 & M2).
    assert (IZR (tplo s) * ln 2 <= INR m * ln 2) by (apply Rmult_le_compat_r; lra).
    assert (IZR (tphi s) * ln 2 <= INR m * ln 2) by (apply Rmult_le_compat_r; lra). lra. }
  apply Rle_trans with (p2 (- prec) * (INR m * ln 2)); [apply Rmult_le_compat_l; lra|].
  replace (p2 (- prec) * (INR m * ln 2)) with (INR m * (p2 (- prec) * ln 2)) by ring. apply Rmult_le_compat_l; [apply pos_INR|exact Ul].
Qed.
Lemma fd_acc : appr kf (- (tphi s + 3)) 0 fd (1 / (1 + 6 * P)).
Proof.
  fits. pose proof P_acc as A0. pose proof (exp_pos (B2R alp / 3 * ln (e0 / rr))) as PP. change (0 < P) in PP.
  destruct (ap_rng _ _ _ _ _ A0) as [T|(T1 & T2)]; [lra|].
  assert (B1 : 1 <= p2 (tphi s)) by (apply (bpow_le radix2 0); lia).
  unfold fd, zero_fac, kf.
  apply (appr_div 0 (kb * A + m + kr + 2) 0 0 0 (tphi s + 3)); try lia; [| |lra|apply fk3; lia].
  - apply (lit3_ok 1); try lia. simpl. lra.
  - apply (appr_rng _ (- tplo s) (tphi s + 4)).
    2: { rewrite bpow_plus. change (p2 0) with 1. change (p2 3) with 8. lra. }
    apply (appr_add (kb * A + m + kr + 1) (- tplo s) (tphi s + 3)); try lia; [| |apply fk3; lia].
    + apply (appr_weak 0 0 0); try lia. apply (lit3_ok 1); try lia. simpl. lra.
    + apply (appr_mul 0 (kb * A + m + kr) 2 (- tplo s) 3 (tphi s)); try lia; [|exact A0|apply fk3; lia].
      apply (lit3_ok 6); try lia. simpl. lra.
Qed.

(** the angular factor *)
Let q : R := x ^ 2 + z ^ 2 + y ^ 2.
Let S0 : R := (x ^ 2 + z ^ 2 - y ^ 2) * (x ^ 2 - z ^ 2 + y ^ 2) * (- x ^ 2 + z ^ 2 + y ^ 2).
Let sp0 : F := Bmult mode_NE (Bmult mode_NE (Bminus mode_NE (Bplus mode_NE a c) b) (Bplus mode_NE (Bminus mode_NE a c) b))
  (Bplus mode_NE (Bplus mode_NE (Bopp a) c) b).
Let r3 : F := Bmult mode_NE (Bsqrt mode_NE r2) r2.
Let r5 : F := Bmult mode_NE r2 r3.
Let ang : F := Bplus mode_NE (Bdiv mode_NE (Bmult mode_NE (blit prec emax (375 # 1000)) sp0) r5) (Bdiv mode_NE (blit prec emax 1) r3).
Let mang : R := 3 / 8 * (q * q * q) / (rr ^ 2 * (rr * rr ^ 2)) + 1 / (rr * rr ^ 2).
Lemma sp_acc : mapr (3 * k2 + 8) (- (6 * tnear s)) (6 * f + 6) (q * q * q) sp0 S0.
Proof.
  fits. pose proof (mapr_appr _ _ _ _ _ Ha) as Ma. pose proof (mapr_appr _ _ _ _ _ Hb) as Mb. pose proof (mapr_appr _ _ _ _ _ Hc) as Mc.
  assert (Mb' : mapr (k2 + 1) (- (2 * tnear s)) (2 * f + 1) (y ^ 2) b (y ^ 2)) by (apply (mapr_weak _ _ _ _ _ _ _ _ _ Mb); lia).
  assert (E1 : mapr (k2 + 2) (- (2 * tnear s)) (2 * f + 2) q (Bminus mode_NE (Bplus mode_NE a c) b) (x ^ 2 + z ^ 2 - y ^ 2)).
  { apply (mapr_sub (k2 + 1) (- (2 * tnear s)) (2 * f + 1)); try lia; [|exact Mb'|apply fk3; lia].
    apply (mapr_add k2 (- (2 * tnear s)) (2 * f)); try lia; auto. apply fk3; lia. }
  assert (E2 : mapr (k2 + 2) (- (2 * tnear s)) (2 * f + 2) q (Bplus mode_NE (Bminus mode_NE a c) b) (x ^ 2 - z ^ 2 + y ^ 2)).
  { apply (mapr_add (k2 + 1) (- (2 * tnear s)) (2 * f + 1)); try lia; [|exact Mb'|apply fk3; lia].
    apply (mapr_sub k2 (- (2 * tnear s)) (2 * f)); try lia; auto. apply fk3; lia. }
  assert (E3 : mapr (k2 + 2) (- (2 * tnear s)) (2 * f + 2) q (Bplus mode_NE (Bplus mode_NE (Bopp a) c) b) (- x ^ 2 + z ^ 2 + y ^ 2)).
  { apply (mapr_add (k2 + 1) (- (2 * tnear s)) (2 * f + 1)); try lia; [|exact Mb'|apply fk3; lia].
    apply (mapr_add k2 (- (2 * tnear s)) (2 * f)); try lia; auto; [now apply mapr_opp|apply fk3; lia]. }
  apply (mapr_mul (2 * k2 + 5) (k2 + 2) (- (4 * tnear s)) (- (2 * tnear s)) (4 * f + 4) (2 * f + 2)); try lia; [|exact E3|apply fk3; lia].
  apply (mapr_mul (k2 + 2) (k2 + 2) (- (2 * tnear s)) (- (2 * tnear s)) (2 * f + 2) (2 * f + 2)); try lia; auto. apply fk3; lia.
Qed.
Lemma r2_acc' : appr (3 * k2 + 2) (- (6 * tnear s)) (2 * tprod s) r2 (rr ^ 2).
Proof.
  apply (appr_rng _ _ _ _ _ _ _ r2_acc). pose proof rr_rng as (R1 & _). pose proof (bpow_gt_0 radix2 (- (3 * tnear s))).
  replace (- (6 * tnear s))%Z with (- (3 * tnear s) * Z.of_nat 2)%Z by lia. replace (2 * tprod s)%Z with (tprod s * Z.of_nat 2)%Z by lia.
  rewrite <- !p2_pow. split; apply pow_incr; lra.
Qed.
Lemma r1_acc' : appr (3 * k2 + 3) (- (3 * tnear s)) (tprod s) (Bsqrt mode_NE r2) rr.
Proof. apply (appr_rng _ _ _ _ _ _ _ r1_acc). pose proof rr_rng as (R1 & _). lra. Qed.
Lemma r3_acc : appr (6 * k2 + 6) (- (9 * tnear s)) (3 * tprod s) r3 (rr * rr ^ 2).
Proof.
  fits. apply (appr_mul (3 * k2 + 3) (3 * k2 + 2) (- (3 * tnear s)) (- (6 * tnear s)) (tprod s) (2 * tprod s)); try lia;
    [apply r1_acc'|apply r2_acc'|apply fk3; lia].
Qed.
Lemma r5_acc : appr (9 * k2 + 9) (- (15 * tnear s)) (5 * tprod s) r5 (rr ^ 2 * (rr * rr ^ 2)).
Proof.
  fits. apply (appr_mul (3 * k2 + 2) (6 * k2 + 6) (- (6 * tnear s)) (- (9 * tnear s)) (2 * tprod s) (3 * tprod s)); try lia;
    [apply r2_acc'|apply r3_acc|apply fk3; lia].
Qed.
Lemma ang_acc : mapr (12 * k2 + 20) (- (3 * tprod s)) (6 * f + 15 * tnear s + 6) mang ang
  (3 / 8 * S0 / (rr ^ 2 * (rr * rr ^ 2)) + 1 / (rr * rr ^ 2)).
Proof.
  fits. destruct pos_xyz as (Px & Py & Pz & Pr).
  assert (P3 : 0 < rr * rr ^ 2) by (apply Rmult_lt_0_compat; [lra|apply pow_lt; lra]).
  assert (P5 : 0 < rr ^ 2 * (rr * rr ^ 2)) by (apply Rmult_lt_0_compat; [apply pow_lt; lra|lra]).
  assert (I3 : appr (6 * k2 + 7) (- (3 * tprod s)) (9 * tnear s) (Bdiv mode_NE (blit prec emax 1) r3) (1 / (rr * rr ^ 2))).
  { apply (appr_div 0 (6 * k2 + 6) 0 (- (9 * tnear s)) 0 (3 * tprod s)); try lia; [|apply r3_acc|lra|apply fk3; lia].
    apply (lit3_ok 1); try lia. simpl. lra. }
  assert (G : mapr (12 * k2 + 20) (- (6 * tnear s + 2 + 5 * tprod s)) (6 * f + 15 * tnear s + 6) mang ang
    (3 / 8 * S0 / (rr ^ 2 * (rr * rr ^ 2)) + 1 / (rr * rr ^ 2))).
  { apply (mapr_add (12 * k2 + 19) (- (6 * tnear s + 2 + 5 * tprod s)) (6 * f + 15 * tnear s + 5)); try lia; [| |apply fk3; lia].
    - apply (mapr_div (3 * k2 + 9) (9 * k2 + 9) (- (6 * tnear s + 2)) (- (15 * tnear s)) (6 * f + 5) (5 * tprod s)); try lia;
        [|apply r5_acc|lra|apply fk3; lia].
      apply (mapr_mul 0 (3 * k2 + 8) (-2) (- (6 * tnear s)) (-1) (6 * f + 6)); try lia; [|apply sp_acc|apply fk3; lia].
      apply mapr_appr, lit38_ok; lia.
    - apply mapr_appr. apply (appr_weak _ _ _ _ _ _ _ _ I3); lia. }
  apply (mapr_rng _ _ _ _ _ _ _ _ G). right. destruct (mp_rng _ _ _ _ _ _ G) as [T|(_ & T)].
  - exfalso. assert (0 < 1 / (rr * rr ^ 2)) by (apply Rdiv_lt_0_compat; lra).
    assert (0 <= 3 / 8 * (q * q * q) / (rr ^ 2 * (rr * rr ^ 2))); [|unfold mang in T; lra].
    apply Rmult_le_pos; [|left; now apply Rinv_0_lt_compat].
    assert (0 <= q) by (unfold q; pose proof (pow_lt x 2 Px); pose proof (pow_lt y 2 Py); pose proof (pow_lt z 2 Pz); lra).
    apply Rmult_le_pos; [lra|]. repeat apply Rmult_le_pos; auto.
  - split; [|exact T]. destruct (ap_rng _ _ _ _ _ I3) as [T'|(T' & _)].
    + exfalso. assert (0 < 1 / (rr * rr ^ 2)) by (apply Rdiv_lt_0_compat; lra). lra.
    + unfold mang. assert (0 <= 3 / 8 * (q * q * q) / (rr ^ 2 * (rr * rr ^ 2))); [|lra].
      apply Rmult_le_pos; [|left; now apply Rinv_0_lt_compat].
      assert (0 <= q) by (unfold q; pose proof (pow_lt x 2 Px); pose proof (pow_lt y 2 Py); pose proof (pow_lt z 2 Pz); lra).
      apply Rmult_le_pos; [lra|]. repeat apply Rmult_le_pos; auto.
Qed.

(** the energy of a triple *)
Context (s9 c9 : F) (H9 : signed_or (- ts9 s) (ts9 s) s9) (HC : signed_or (- tc9min s) (tc9max s) c9).
Lemma triple_acc : mapr (12 * k2 + kf + 23) (- (3 * tprod s + tphi s + 3 + ts9 s + tc9min s)) (6 * tfar s + 15 * tnear s + 6 + ts9 s + tc9max s)
  (mang * (1 / (1 + 6 * P)) * Rabs (B2R s9) * Rabs (B2R c9))
  (Bmult mode_NE (Bmult mode_NE (Bmult mode_NE ang fd) s9) c9)
  ((3 / 8 * S0 / (rr ^ 2 * (rr * rr ^ 2)) + 1 / (rr * rr ^ 2)) * (1 / (1 + 6 * P)) * B2R s9 * B2R c9).
Proof.
  fits. destruct H9 as (F9 & R9). destruct HC as (FC & RC).
  apply (mapr_mul (12 * k2 + kf + 22) 0 (- (3 * tprod s + tphi s + 3 + ts9 s)) (- tc9min s) (6 * tfar s + 15 * tnear s + 6 + ts9 s) (tc9max s)); try lia;
    [|now apply mapr_exact|apply fk3; lia].
  apply (mapr_mul (12 * k2 + kf + 21) 0 (- (3 * tprod s + tphi s + 3)) (- ts9 s) (6 * tfar s + 15 * tnear s + 6) (ts9 s)); try lia;
    [|now apply mapr_exact|apply fk3; lia].
  apply (mapr_mul (12 * k2 + 20) kf (- (3 * tprod s)) (- (tphi s + 3)) (6 * f + 15 * tnear s + 6) 0); try lia;
    [apply ang_acc|apply mapr_appr, fd_acc|apply fk3; lia].
Qed.
End T.

Lemma zmul sg (y : F) : is_finite y = true -> exists sg', Bmult mode_NE (B754_zero sg) y = B754_zero sg'.
Proof. destruct y; try discriminate; intros _; eexists; reflexivity. Qed.

(** comparison with the cutoff *)
Lemma cut_acc (d : F) r (cut : F) : within kd d r -> p2 (- tnear s) <= r <= p2 (tall s) -> is_finite cut = true ->
  p2 (- tnear s) <= B2R cut <= p2 (tall s) -> r * gw (kd + kr + 1) <= B2R cut \/ B2R cut * gw (kd + kr + 1) < r ->
  fle (s := KI) (fpow (s := KI) d (flit (s := KI) 2)) (fmul (s := KI) cut cut) = rleb r (B2R cut).
Proof.
  intros W R Fc Rc D. fits. pose proof (sq_acc d r (tall s) W R ltac:(lia)) as Sq.
  assert (C : appr 1 (- (2 * tnear s)) (2 * tall s) (Bmult mode_NE cut cut) (B2R cut * B2R cut)).
  { apply (appr_mul 0 0 (- tnear s) (- tnear s) (tall s) (tall s)); try lia; try (apply appr_exact; auto). apply fk3; lia. }
  change (fmul (s := KI) cut cut) with (Bmult mode_NE cut cut).
  set (d2 := fpow (s := KI) d (flit (s := KI) 2) : F) in *. set (cc := Bmult mode_NE cut cut) in *.
  change (fle (s := KI) d2 cc) with (Bleb (d2 : F) cc).
  rewrite Bleb_correct by (first [apply Sq|apply C]).
  pose proof (bpow_gt_0 radix2 (- tnear s)) as P0. set (k := (kd + kr + 1)%nat) in *. change (gw k) with (w ^ k) in D.
  pose proof (wk_ge1 (prec := prec) k) as W1. pose proof (appr_pos _ _ _ _ _ Sq) as Pd. pose proof (appr_pos _ _ _ _ _ C) as Pc.
  destruct Sq as [_ _ G1 U1]. destruct C as [_ _ G2 U2]. rewrite pow_1 in *.
  pose proof (wk_le (prec := prec) (k2 + 1) (2 * k) ltac:(unfold k, k2; lia)) as Wk. rewrite pow_add, pow_1 in Wk.
  replace (2 * k)%nat with (k + k)%nat in Wk by lia. rewrite pow_add in Wk.
  pose proof (w_ge1 (prec := prec)) as W0. pose proof (wk_ge1 (prec := prec) k2) as W2.
  unfold rleb. destruct (Rle_dec r (B2R cut)) as [Q|Q].
  - apply Rle_bool_true. destruct D as [D|D]; [|exfalso; assert (B2R cut * 1 <= B2R cut * w ^ k) by (apply Rmult_le_compat_l; lra); lra].
    assert (T : (r * w ^ k) * (r * w ^ k) <= B2R cut * B2R cut) by (apply Rmult_le_compat; try lra; apply Rmult_le_pos; lra).
    apply Rmult_le_reg_r with w; [lra|]. apply Rle_trans with (2 := G2). apply Rle_trans with (2 := T).
    apply Rle_trans with (r ^ 2 * w ^ k2 * w); [apply Rmult_le_compat_r; lra|].
    replace (r * w ^ k * (r * w ^ k)) with (r ^ 2 * (w ^ k * w ^ k)) by ring. rewrite Rmult_assoc. apply Rmult_le_compat_l; [apply pow2_ge_0|exact Wk].
  - apply Rle_bool_false. destruct D as [D|D]; [exfalso; assert (r * 1 <= r * w ^ k) by (apply Rmult_le_compat_l; lra); lra|].
    assert (T : (B2R cut * w ^ k) * (B2R cut * w ^ k) < r * r).
    { assert (0 <= B2R cut * w ^ k) by (apply Rmult_le_pos; lra). apply Rmult_le_0_lt_compat; auto. }
    apply Rmult_lt_reg_r with (w ^ k2); [lra|].
    apply Rlt_le_trans with (r ^ 2); [|exact G1]. apply Rle_lt_trans with (2 := T) || (replace (r ^ 2) with (r * r) by ring; apply Rle_lt_trans with (2 := T)).
    apply Rle_trans with (B2R cut * B2R cut * w * w ^ k2); [apply Rmult_le_compat_r; lra|].
    replace (B2R cut * w ^ k * (B2R cut * w ^ k)) with ((B2R cut * B2R cut) * (w ^ k * w ^ k)) by ring.
    replace (B2R cut * B2R cut * w * w ^ k2) with ((B2R cut * B2R cut) * (w ^ k2 * w)) by ring.
    apply Rmult_le_compat_l; [apply Rmult_le_pos; lra|exact Wk].
Qed.

(** the specification in the form of the code *)
Lemma energy_form c (xi xj xk : nat -> R) c9 rij rik rjk s9 alp :
  0 < euclid c xi xj -> 0 < euclid c xi xk -> 0 < euclid c xj xk ->
  let x := euclid c xi xj in let y := euclid c xi xk in let z := euclid c xj xk in let r := x * y * z in
  let P := Rpower (rij * rik * rjk / r) (alp / 3) in
  triple_energy c xi xj xk c9 rij rik rjk s9 alp =
    (3 / 8 * ((x ^ 2 + z ^ 2 - y ^ 2) * (x ^ 2 - z ^ 2 + y ^ 2) * (- x ^ 2 + z ^ 2 + y ^ 2)) / (r ^ 2 * (r * r ^ 2)) + 1 / (r * r ^ 2))
      * (1 / (1 + 6 * P)) * s9 * c9 /\
  triple_size c xi xj xk c9 rij rik rjk s9 alp =
    (3 / 8 * ((x ^ 2 + z ^ 2 + y ^ 2) * (x ^ 2 + z ^ 2 + y ^ 2) * (x ^ 2 + z ^ 2 + y ^ 2)) / (r ^ 2 * (r * r ^ 2)) + 1 / (r * r ^ 2))
      * (1 / (1 + 6 * P)) * Rabs s9 * Rabs c9.
Proof.
  intros Px Py Pz x y z r P. unfold triple_energy, triple_size, cos_at. rewrite !dot_law.
  rewrite <- !(euclid_sqr c).
  rewrite !(euclid_sym c xj xi), !(euclid_sym c xk). fold x y z in Px, Py, Pz |- *. fold r. fold P.
  assert (PP : 0 < P) by apply exp_pos. clearbody P. unfold r. clearbody x y z.
  split; field; repeat split; lra.
Qed.

Section E.
Context (n c : nat) (num : nat -> Z) (pos : nat -> nat -> F) (c9 : nat -> nat -> nat -> F) (rad : nat -> nat -> F) (cut s9 alp : F).
Let rd (i j : nat) : R := euclid c (fun k => B2R (pos i k)) (fun k => B2R (pos j k)).
Context (Hn : (Z.of_nat n <= 2 ^ tatoms s)%Z) (Fc : is_finite cut = true) (Rc : p2 (- tnear s) <= B2R cut <= p2 (tall s)).
Context (Hd : forall i j, (i < n)%nat -> (j < n)%nat -> real_pair num i j = true ->
    within kd (x_dist X c (pos i) (pos j) : F) (rd i j) /\ p2 (- tnear s) <= rd i j <= p2 (tall s) /\
    (rd i j * gw (kd + kr + 1) <= B2R cut \/ B2R cut * gw (kd + kr + 1) < rd i j)).
Context (Hin : forall i j k, (i < n)%nat -> (j < n)%nat -> (k < n)%nat -> real_triple num i j k = true ->
    rd i j <= B2R cut -> rd j k <= B2R cut ->
    rd i j <= p2 (tfar s) /\ rd i k <= p2 (tfar s) /\ rd j k <= p2 (tfar s) /\ rd i j * rd i k * rd j k <= p2 (tprod s)).
Context (Hr : forall i j, (i < n)%nat -> (j < n)%nat -> real_pair num i j = true ->
    is_finite (rad i j) = true /\ p2 (trlo s) <= B2R (rad i j) <= p2 (trhi s)).
Context (H9 : signed_or (- ts9 s) (ts9 s) s9) (HA : tri_alp s A alp).
Context (HC : forall i j k, (i < n)%nat -> (j < n)%nat -> (k < n)%nat -> signed_or (- tc9min s) (tc9max s) (c9 i j k)).

Definition rtri (f : nat -> (nat -> R) -> (nat -> R) -> (nat -> R) -> R -> R -> R -> R -> R -> R -> R) (i j k : nat) : R :=
  if real_triple num i j k && rleb (rd i j) (B2R cut) && rleb (rd j k) (B2R cut)
  then f c (fun k => B2R (pos i k)) (fun k => B2R (pos j k)) (fun l => B2R (pos k l))
         (B2R (c9 i j k)) (B2R (rad i j)) (B2R (rad i k)) (B2R (rad j k)) (B2R s9) (B2R alp)
  else 0.
Let g9 : F -> F -> F := zero_fac (K := KI) X (flit (s := KI) 1) (fdiv (s := KI) alp (flit (s := KI) 3)).
Let klo := (- (3 * tprod s + tphi s + 3 + ts9 s + tc9min s))%Z.
Let khi := (6 * tfar s + 15 * tnear s + 6 + ts9 s + tc9max s)%Z.

Lemma zero_triple sg (y : F) i j k : (i < n)%nat -> (j < n)%nat -> (k < n)%nat -> is_finite y = true ->
  mapr (12 * k2 + kf + 23) klo khi 0 (Bmult mode_NE (Bmult mode_NE (Bmult mode_NE (B754_zero sg) y) s9) (c9 i j k)) 0.
Proof.
  intros Hi Hj Hk Fy. destruct (zmul sg y Fy) as (s1 & ->). destruct (zmul s1 s9 (proj1 H9)) as (s2 & ->).
  destruct (zmul s2 (c9 i j k) (proj1 (HC i j k Hi Hj Hk))) as (s3 & ->). apply mapr_zero.
Qed.
Lemma pd2_eq i j : real_pair num i j = true -> pd2 (K := KI) X c num pos i j = fpow (s := KI) (x_dist X c (pos i) (pos j)) (flit (s := KI) 2).
Proof. intros H. unfold pd2, pdist. now rewrite pmask_real, H. Qed.

Lemma e3_triple_acc i j k : (i < n)%nat -> (j < n)%nat -> (k < n)%nat ->
  mapr (12 * k2 + kf + 23) klo khi (rtri triple_size i j k) (e3_triple (K := KI) X c num pos c9 rad cut g9 s9 i j k : F) (rtri triple_energy i j k).
Proof.
  intros Hi Hj Hk. fits. unfold e3_triple, angp, fdp, rtri. rewrite tmask_real.
  destruct (real_triple num i j k) eqn:E; cbn [andb].
  2: { apply (zero_triple false (blit prec emax 0)); auto. }
  destruct (real_triple_pairs _ _ _ _ E) as (E1 & E2 & E3).
  destruct (Hd i j Hi Hj E1) as (W1 & R1 & D1). destruct (Hd i k Hi Hk E2) as (W2 & R2 & D2). destruct (Hd j k Hj Hk E3) as (W3 & R3 & D3).
  unfold sp, r5p, r3p, r2p, r0p. rewrite tmask_real, E. rewrite !pd2_eq by assumption.
  rewrite (cut_acc _ (rd i j)), (cut_acc _ (rd j k)) by assumption. rewrite <- andb_assoc, andb_diag.
  pose proof (Hr i j Hi Hj E1) as U1. pose proof (Hr i k Hi Hk E2) as U2. pose proof (Hr j k Hj Hk E3) as U3.
  destruct (rleb (rd i j) (B2R cut) && rleb (rd j k) (B2R cut)) eqn:Q.
  - apply andb_true_iff in Q as (Q1 & Q2). apply rleb_true in Q1, Q2.
    destruct (Hin i j k Hi Hj Hk E Q1 Q2) as (T1 & T2 & T3 & T4).
    pose proof (bpow_gt_0 radix2 (- tnear s)) as P0.
    destruct (energy_form c (fun k => B2R (pos i k)) (fun k => B2R (pos j k)) (fun l => B2R (pos k l))
      (B2R (c9 i j k)) (B2R (rad i j)) (B2R (rad i k)) (B2R (rad j k)) (B2R s9) (B2R alp)) as (EE & ES).
    { change (0 < rd i j). lra. } { change (0 < rd i k). lra. } { change (0 < rd j k). lra. }
    rewrite EE, ES.
    apply (triple_acc (rd i j) (rd i k) (rd j k) _ _ _ (tfar s) ltac:(lia)); auto; try lra; try lia;
      try (apply sq_acc; auto; try lra; lia).
  - apply (zero_triple false (g9 _ _)); auto.
    apply (fd_unit (rd i j) (rd i k) (rd j k) _ _ _ (tall s) ltac:(lia)); auto; apply sq_acc; auto; lia.
Qed.

Lemma e3_atom_acc i : (i < n)%nat -> (12 * k2 + kf + 23 + 2 * n + 1 <= Kmax)%nat ->
  mapr (12 * k2 + kf + 23 + 2 * n + 1) (klo - 3) (khi + 2 * tatoms s)
    (rsum n (fun j => rsum n (fun k => rtri triple_size i j k)) / 6)
    (e3_atom (K := KI) X n c num pos c9 rad cut g9 s9 i : F)
    (rsum n (fun j => rsum n (fun k => rtri triple_energy i j k)) / 6).
Proof.
  intros Hi HKn. fits. unfold e3_atom.
  apply (mapr_div (12 * k2 + kf + 23 + 2 * n) 0 klo 2 (khi + 2 * tatoms s) 3); unfold klo, khi; try lia; [| |lra|apply fk3; lia].
  - apply (mapr_sum n _ _ _ (12 * k2 + kf + 23 + n) klo (khi + tatoms s) (tatoms s)); unfold klo, khi; try lia; [|apply fk3; lia].
    intros j Hj. apply (mapr_sum n _ _ _ (12 * k2 + kf + 23) klo khi (tatoms s)); unfold klo, khi; try lia; [|apply fk3; lia].
    intros k Hk. now apply e3_triple_acc.
  - apply (lit3_ok 6); try lia. simpl. lra.
Qed.
End E.
End P.

Section T.
Context {prec emax : Z} {Hp : Prec_gt_0 prec} {He : Prec_lt_emax prec emax}.
Context {L : Libm prec emax} {L64 : Libm 53 1024}.
Notation N := (IN prec emax L L64).
Notation KI := (IS prec emax L).
Notation F := (binary_float prec emax).
Notation p2 := (bpow radix2).
Context (X : Ext (sc N)).

(** The computed energies are numbers, and their errors are at most that of [atm_errors] roundings of the sum
    of the sizes of the triples. *)
Theorem C76_atm_accuracy (s : tri_sizes) (kd kr kv A : nat) (numbers : tensor Z) (positions c9 radii cutoff : tensor (sc N))
  (s9p alpp : pval (sc N)) (n c : nat) (B : list nat) (s9 alp : F) :
  let m := Z.to_nat (Z.max (tplo s) (tphi s)) in
  tri_fits (prec := prec) (emax := emax) s -> rpow_accurate (L := L) kr -> div_accurate X kv ->
  shp numbers = (n :: B)%list -> shp positions = (c :: n :: B)%list -> shp c9 = (n :: n :: n :: B)%list -> shp radii = (n :: n :: B)%list ->
  isnum s9p (s9 : sc N) -> isnum alpp (alp : sc N) -> shp cutoff = [] ->
  let cut : F := dat cutoff [] in
  is_finite cut = true -> p2 (- tnear s) <= B2R cut <= p2 (tall s) ->
  tri_geometry X s kd kr (B2R cut) numbers positions n c B -> tri_radii s numbers radii n B -> tri_c9 s c9 n B ->
  signed_or (- ts9 s) (ts9 s) s9 -> tri_alp s A alp ->
  (2 * Z.of_nat (atm_errors kd kr kv A m n) <= 2 ^ prec)%Z ->
  exists t : tensor (sc N), get_atm_dispersion X numbers positions c9 radii cutoff (ZeroDamping X) s9p alpp = Ok t /\ shp t = (n :: B)%list /\
    forall b i, valid B b -> (i < n)%nat ->
      let e := exact_atm triple_energy numbers positions c9 radii s9 alp (B2R cut) n c b i in
      let size := exact_atm triple_size numbers positions c9 radii s9 alp (B2R cut) n c b i in
      is_finite (sl1 t b i : F) = true /\ Rabs e <= size /\
      Rabs (B2R (sl1 t b i : F) - e) <= (growth (prec := prec) (atm_errors kd kr kv A m n) - 1) * size.
Proof.
  intros m Hf PA DA Hn Hx Hc Hr Hs Ha Hcut cut Fc Rc (Hnn & Hd & Hin) HR HC H9 HA HK.
  assert (HA1 : (1 <= A)%nat).
  { destruct HA as ((_ & Z) & H3 & _). destruct A; [|lia]. exfalso. simpl in H3. pose proof (bpow_gt_0 radix2 (-8)). destruct Z as [Z|Z]; lra. }
  destruct (get_atm_dispersion_ev (K := sc N) X numbers positions c9 radii cutoff (ZeroDamping X) s9p alpp n c B
    (zero_fac (K := sc N) X (flit 1) (fdiv (s := sc N) alp (flit 3))) s9 alp cut) as (t & Et & St & Dt); auto.
  { split; auto. intros ix Hix. destruct ix; [reflexivity|destruct Hix]. }
  { intros q Hq Eq. exact (atm_elementwise (K := sc N) X q _ Hq Eq). }
  exists t. split; [exact Et|]. split; [exact St|]. intros b i Hb Hi e size. unfold sl1 at 1 2. rewrite Dt by (split; auto).
  assert (Ek : (12 * (2 * kd + kr) + ((3 * (2 * kd + kr) + 6 + kv) * A + m + kr + 3) + 23 + 2 * n + 1 = atm_errors kd kr kv A m n)%nat).
  { unfold atm_errors, triple_errors. cbv zeta. lia. }
  pose proof (e3_atom_acc X kr PA (atm_errors kd kr kv A m n) HK s Hf kd kv A DA ltac:(fold m; lia) HA1 n c (sl1 numbers b) (sl2 positions b)
    (sl3 c9 b) (sl2 radii b) cut s9 alp Hnn Fc Rc (fun i j => Hd b i j Hb) (fun i j k => Hin b i j k Hb) (fun i j => HR b i j Hb) H9 HA
    (fun i j k => HC b i j k Hb) i Hi ltac:(fold m; lia)) as M.
  fold m in M. rewrite Ek in M. destruct M as [M1 _ M3 M4].
  assert (D6 : forall f, exact_atm f numbers positions c9 radii s9 alp (B2R cut) n c b i
    = rsum n (fun j => rsum n (fun k => rtri c (sl1 numbers b) (sl2 positions b) (sl3 c9 b) (sl2 radii b) cut s9 alp f i j k)) / 6).
  { intros f. unfold exact_atm. set (v := rsum n _) at 1. unfold Rdiv. rewrite Rmult_1_l, Rmult_comm. reflexivity. }
  unfold e, size. rewrite !D6. split; [exact M1|]. split; [exact M3|exact M4].
Qed.
End T.
Print Assumptions C76_atm_accuracy.
