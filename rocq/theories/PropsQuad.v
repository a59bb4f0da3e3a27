(** * The frequency quadrature of the C6 and C9 coefficients (C48): grid, prefactor, integral

    The code contains only 23 weights and a number for pi.  Here they are identified: the weights are
    those of the trapezoidal rule on the grid of imaginary frequencies on which the reference
    polarizabilities are tabulated, and the number is pi.  For a product of polarizabilities that
    decreases with the frequency the result is close to the Casimir-Polder integral up to the largest
    frequency. *)
From Coq Require Import Reals Lra Lia List Arith ZArith QArith Qreals Machin.
From Verif Require Import Py Tensor Scalar RInst ModelUtils DataPair Spec SpecW PropsWeights.
Import ListNotations.
Open Scope R_scope.

(** ** Specification *)
(** imaginary frequencies in Hartree, times 10^6 *)
Definition omega_tab : list Z :=
  [1; 50000; 100000; 200000; 300000; 400000; 500000; 600000; 700000; 800000; 900000; 1000000; 1200000;
   1400000; 1600000; 1800000; 2000000; 2500000; 3000000; 4000000; 5000000; 7500000; 10000000]%Z.
Definition omega (k : nat) : R := IZR (nth k omega_tab 0%Z) / 10 ^ 6.
(** trapezoidal rule for the values [F] on this grid *)
Definition trapezoid (F : nat -> R) : R := rsum 22 (fun k => (omega (S k) - omega k) * (F k + F (S k)) / 2).

(** ** The number pi *)
Definition pi_term (n : nat) : Q :=
  ((if Nat.even n then 1 else -1) * 2 # Pos.of_nat (2 * n + 1) * 3 ^ Pos.of_nat (2 * n + 1)) +
  ((if Nat.even n then 1 else -1) # Pos.of_nat (2 * n + 1) * 7 ^ Pos.of_nat (2 * n + 1)).
Fixpoint pi_sum (n : nat) : Q := match n with O => pi_term 0 | S m => pi_sum m + pi_term n end.

Lemma frac_R s k b : (0 < k)%nat -> Q2R (s # Pos.of_nat k * b ^ Pos.of_nat k) = IZR s * ((/ IZR (Zpos b)) ^ k / INR k).
Proof.
  intros Hk. unfold Q2R. cbn [Qnum Qden]. rewrite Pos2Z.inj_mul, mult_IZR, Pos2Z.inj_pow.
  assert (E : Zpos (Pos.of_nat k) = Z.of_nat k) by lia. rewrite E, <- pow_IZR, <- INR_IZR_INZ.
  assert (P : IZR (Zpos b) <> 0) by (apply not_0_IZR; lia). assert (Q : INR k <> 0) by (apply not_0_INR; lia).
  rewrite <- Rinv_pow by auto. field. split; auto. now apply pow_nonzero.
Qed.
Lemma sign_R n : (-1) ^ n = IZR (if Nat.even n then 1 else -1).
Proof.
  induction n as [|n IH]; [reflexivity|]. rewrite Nat.even_succ, <- Nat.negb_even. cbn [pow]. rewrite IH.
  destruct (Nat.even n); cbn [negb]; lra.
Qed.
Lemma pi_term_R n : tg_alt PI_2_3_7_tg n = Q2R (pi_term n).
Proof.
  unfold tg_alt, PI_2_3_7_tg, pi_term, Ratan_seq. rewrite Q2R_plus, !frac_R by lia. rewrite sign_R.
  replace (IZR ((if Nat.even n then 1 else -1) * 2)) with (IZR (if Nat.even n then 1 else -1) * 2) by (rewrite mult_IZR; reflexivity).
  ring.
Qed.
Lemma pi_sum_R n : sum_f_R0 (tg_alt PI_2_3_7_tg) n = Q2R (pi_sum n).
Proof. induction n as [|n IH]; cbn [sum_f_R0 pi_sum]; [apply pi_term_R|]. now rewrite IH, pi_term_R, Q2R_plus. Qed.

Lemma pi_bounds : Rabs (Q2R pi_lit - PI) <= 2 / 10 ^ 40.
Proof.
  destruct (PI_2_3_7_ineq 22) as (L & U). rewrite pi_sum_R in L, U.
  assert (A : (pi_lit - (2 # 10 ^ 40) <= 4 * pi_sum (S (2 * 22)))%Q) by (vm_compute; discriminate).
  assert (C : (4 * pi_sum (2 * 22) <= pi_lit + (2 # 10 ^ 40))%Q) by (vm_compute; discriminate).
  apply Qle_Rle in A. apply Qle_Rle in C. rewrite Q2R_minus, Q2R_mult in A. rewrite Q2R_plus, Q2R_mult in C.
  assert (E4 : Q2R 4 = 4) by (unfold Q2R; simpl; lra). rewrite E4 in A, C.
  assert (E : Q2R (2 # 10 ^ 40) = 2 / 10 ^ 40).
  { unfold Q2R. cbn [Qnum Qden]. rewrite Pos2Z.inj_pow. unfold Rdiv. f_equal. f_equal.
    change 40%positive with (Pos.of_nat 40). rewrite (pow_IZR 10 40). f_equal. }
  rewrite E in A, C. apply Rabs_le. lra.
Qed.

(** ** The rule *)
Lemma Rabs_le_inv x a : Rabs x <= a -> - a <= x <= a.
Proof. unfold Rabs. destruct (Rcase_abs x); lra. Qed.
Lemma weight_dec w : quad_weight w = IZR (nth w trapzd_weights_tab 0%Z) / IZR (Zpos trapzd_weights_tab_dec).
Proof. reflexivity. Qed.

Lemma rule_exact F : rsum 23 (fun w => quad_weight w * F w) = trapezoid F + F 2%nat / 10 ^ 17.
Proof.
  unfold trapezoid, omega. rewrite (rsum_ext 23 _ (fun w => IZR (nth w trapzd_weights_tab 0%Z) / 10 ^ 17 * F w)).
  - unfold rsum. cbn [nth omega_tab trapzd_weights_tab]. field.
  - intros w _. rewrite weight_dec. do 2 f_equal. unfold trapzd_weights_tab_dec. lra.
Qed.

Lemma omega_step k : (k < 22)%nat -> omega k < omega (S k).
Proof.
  intros Hk. unfold omega. apply Rmult_lt_compat_r; [apply Rinv_0_lt_compat, pow_lt; lra|]. apply IZR_lt.
  do 22 (destruct k as [|k]; [reflexivity|]). lia.
Qed.

Lemma trapezoid_third F : (forall w, (w < 23)%nat -> 0 <= F w) -> 3 / 40 * F 2%nat <= trapezoid F.
Proof.
  intros HF. unfold trapezoid.
  assert (T : forall k, (k < 22)%nat -> 0 <= (omega (S k) - omega k) * (F k + F (S k)) / 2).
  { intros k Hk. pose proof (omega_step k Hk). pose proof (HF k ltac:(lia)). pose proof (HF (S k) ltac:(lia)).
    apply Rmult_le_pos; [apply Rmult_le_pos; lra|lra]. }
  assert (S2 : forall n, (3 <= n <= 22)%nat ->
    rsum 3 (fun k => (omega (S k) - omega k) * (F k + F (S k)) / 2) <= rsum n (fun k => (omega (S k) - omega k) * (F k + F (S k)) / 2)).
  { induction n as [|n IH]; [lia|]. intros Hn. destruct (Nat.eq_dec n 2) as [->|]; [apply Rle_refl|].
    specialize (IH ltac:(lia)). pose proof (T n ltac:(lia)). cbn [rsum] in *. lra. }
  eapply Rle_trans; [|apply (S2 22%nat); lia].
  pose proof (HF 0%nat ltac:(lia)). pose proof (HF 1%nat ltac:(lia)). pose proof (HF 2%nat ltac:(lia)). pose proof (HF 3%nat ltac:(lia)).
  unfold rsum, omega. cbn [nth omega_tab]. lra.
Qed.

(** the quadrature of the code is the trapezoidal rule with the prefactor 3/pi, to 16 digits *)
Theorem C74_trapezoid f g : (forall w, (w < 23)%nat -> 0 <= f w * g w) ->
  let t := 3 / PI * trapezoid (fun w => f w * g w) in
  0 <= t /\ Rabs (casimir f g - t) <= 2 / 10 ^ 16 * t.
Proof.
  intros HF t. set (F := fun w => f w * g w) in *. pose proof (trapezoid_third F HF) as H3. pose proof (HF 2%nat ltac:(lia)) as H2.
  change (0 <= F 2%nat) in H2. pose proof PI_RGT_0 as PP. pose proof PI_4 as P4. pose proof pi_bounds as PB. apply Rabs_le_inv in PB.
  assert (P2 : 2 < PI) by (pose proof PI2_1; unfold PI2 in *; lra).
  assert (E : casimir f g = 3 / Q2R pi_lit * (trapezoid F + F 2%nat / 10 ^ 17)).
  { unfold casimir, three_over_pi. f_equal. rewrite <- rule_exact. apply rsum_ext. intros w _. unfold F. ring. }
  set (A := trapezoid F) in *. assert (HA : 0 <= A) by lra.
  assert (Hp : 0 < Q2R pi_lit) by lra.
  assert (Ht : 0 <= t).
  { unfold t. apply Rmult_le_pos; auto. apply Rlt_le, Rdiv_lt_0_compat; lra. }
  split; auto. rewrite E.
  replace (3 / Q2R pi_lit * (A + F 2%nat / 10 ^ 17) - t)
    with (3 / PI * ((PI - Q2R pi_lit) / Q2R pi_lit * (A + F 2%nat / 10 ^ 17) + F 2%nat / 10 ^ 17)) by (unfold t; fold A; field; lra).
  rewrite Rabs_mult, (Rabs_right (3 / PI)) by (apply Rle_ge, Rlt_le, Rdiv_lt_0_compat; lra).
  replace (2 / 10 ^ 16 * t) with (3 / PI * (2 / 10 ^ 16 * A)) by (unfold t; fold A; ring).
  apply Rmult_le_compat_l; [apply Rlt_le, Rdiv_lt_0_compat; lra|].
  assert (D : Rabs ((PI - Q2R pi_lit) / Q2R pi_lit) <= 2 / 10 ^ 40).
  { unfold Rdiv at 1. rewrite Rabs_mult, (Rabs_right (/ _)) by (apply Rle_ge, Rlt_le, Rinv_0_lt_compat; lra).
    apply (Rmult_le_reg_r (Q2R pi_lit)); auto. rewrite Rmult_assoc, Rinv_l, Rmult_1_r by lra.
    apply Rle_trans with (2 / 10 ^ 40); [apply Rabs_le; lra|]. assert (1 <= Q2R pi_lit) by lra. nra. }
  set (d := (PI - Q2R pi_lit) / Q2R pi_lit) in *.
  assert (B1 : 0 <= F 2%nat / 10 ^ 17 <= 14 / 10 ^ 17 * A) by lra.
  set (e := F 2%nat / 10 ^ 17) in *.
  eapply Rle_trans; [apply Rabs_triang|]. rewrite Rabs_mult, (Rabs_right e), (Rabs_right (A + e)) by lra.
  assert (Rabs d * (A + e) <= 2 / 10 ^ 40 * (A + e)) by (apply Rmult_le_compat_r; lra). lra.
Qed.

(** the trapezoidal rule and the integral *)
Lemma integral_cell phi a b (pr : Riemann_integrable phi a b) : a <= b ->
  (forall x y, a <= x -> x <= y -> y <= b -> phi y <= phi x) ->
  Rabs ((b - a) * (phi a + phi b) / 2 - RiemannInt pr) <= (b - a) * (phi a - phi b) / 2.
Proof.
  intros Hab Hm.
  pose proof (RiemannInt_P19 pr (RiemannInt_P14 a b (phi a)) Hab) as U.
  pose proof (RiemannInt_P19 (RiemannInt_P14 a b (phi b)) pr Hab) as L.
  rewrite RiemannInt_P15 in U, L. specialize (U ltac:(intros x Hx; unfold fct_cte; apply Hm; lra)).
  specialize (L ltac:(intros x Hx; unfold fct_cte; apply Hm; lra)). apply Rabs_le. lra.
Qed.

Lemma omega_le k : (k <= 22)%nat -> omega 0 <= omega k.
Proof. induction k as [|k IH]; intros Hk; [apply Rle_refl|]. pose proof (omega_step k ltac:(lia)). specialize (IH ltac:(lia)). lra. Qed.

Lemma integral_upto phi n : (n <= 22)%nat -> forall pr : Riemann_integrable phi (omega 0) (omega n),
  (forall x y, omega 0 <= x -> x <= y -> y <= omega n -> phi y <= phi x) ->
  Rabs (rsum n (fun k => (omega (S k) - omega k) * (phi (omega k) + phi (omega (S k))) / 2) - RiemannInt pr) <=
    rsum n (fun k => (omega (S k) - omega k) * (phi (omega k) - phi (omega (S k))) / 2).
Proof.
  induction n as [|n IH]; intros Hn pr Hm.
  - rewrite RiemannInt_P9. cbn [rsum]. rewrite Rminus_0_r, Rabs_R0. apply Rle_refl.
  - pose proof (omega_step n ltac:(lia)) as Hs. pose proof (omega_le n ltac:(lia)) as H0.
    assert (Hc : omega 0 <= omega n <= omega (S n)) by lra.
    set (p1 := RiemannInt_P22 pr Hc). set (p2 := RiemannInt_P23 pr Hc).
    rewrite <- (RiemannInt_P26 p1 p2 pr). cbn [rsum].
    specialize (IH ltac:(lia) p1 ltac:(intros x y; intros; apply Hm; lra)).
    pose proof (integral_cell phi _ _ p2 ltac:(lra) ltac:(intros x y; intros; apply Hm; lra)) as C.
    apply Rabs_le_inv in IH. apply Rabs_le_inv in C. apply Rabs_le. lra.
Qed.

(** for a product of polarizabilities that falls with the frequency the quadrature is the
    Casimir-Polder integral over the tabulated frequencies, up to the error of the trapezoidal rule *)
Theorem C74_integral f g phi (pr : Riemann_integrable phi (omega 0) (omega 22)) :
  (forall w, (w < 23)%nat -> f w * g w = phi (omega w)) ->
  (forall x, omega 0 <= x <= omega 22 -> 0 <= phi x) ->
  (forall x y, omega 0 <= x -> x <= y -> y <= omega 22 -> phi y <= phi x) ->
  Rabs (casimir f g - 3 / PI * RiemannInt pr) <=
    3 / PI * rsum 22 (fun k => (omega (S k) - omega k) * (phi (omega k) - phi (omega (S k))) / 2) +
    2 / 10 ^ 16 * (3 / PI * trapezoid (fun w => phi (omega w))).
Proof.
  intros HF Hp Hm.
  assert (Hw : forall w, (w < 23)%nat -> 0 <= f w * g w).
  { intros w Hw. rewrite HF by auto. apply Hp. split; [apply omega_le; lia|].
    assert (M : forall d k, (k + d = 22)%nat -> omega k <= omega 22).
    { induction d as [|d IH]; intros k E; [replace k with 22%nat by lia; apply Rle_refl|].
      pose proof (omega_step k ltac:(lia)). pose proof (IH (S k) ltac:(lia)). lra. }
    apply (M (22 - w)%nat). lia. }
  destruct (C74_trapezoid f g Hw) as (_ & C).
  assert (E : trapezoid (fun w => f w * g w) = trapezoid (fun w => phi (omega w))).
  { unfold trapezoid. apply rsum_ext. intros k Hk. now rewrite !HF by lia. }
  rewrite E in C. pose proof (integral_upto phi 22 ltac:(lia) pr Hm) as D. fold (trapezoid (fun w => phi (omega w))) in D.
  pose proof PI_RGT_0. assert (P3 : 0 < 3 / PI) by (apply Rdiv_lt_0_compat; lra).
  set (A := trapezoid _) in *. set (I := RiemannInt pr) in *. set (S := rsum 22 _) in *.
  replace (casimir f g - 3 / PI * I) with (casimir f g - 3 / PI * A + 3 / PI * (A - I)) by ring.
  eapply Rle_trans; [apply Rabs_triang|]. rewrite (Rabs_mult (3 / PI)), (Rabs_right (3 / PI)) by lra.
  assert (3 / PI * Rabs (A - I) <= 3 / PI * S) by (apply Rmult_le_compat_l; lra). lra.
Qed.

(** the results of the three functions of the API *)
Section Fun.
Context {eps mx : R}.
Local Notation K := (RS eps mx).
Local Notation T := (tensor K).
Definition close16 (x t : R) : Prop := 0 <= t /\ Rabs (x - t) <= 2 / 10 ^ 16 * t.

Theorem C74_functions n m r k B (pol1 pol2 : T) :
  (shp pol1 = 23 :: r :: n :: B -> shp pol2 = 23 :: k :: m :: B ->
   exists t, trapzd pol1 (Some pol2) = Ok t /\ shp t = k :: r :: m :: n :: B /\
     forall b i j x y, valid B b -> i < n -> j < m -> x < r -> y < k ->
       (forall w, (w < 23)%nat -> 0 <= sl3 pol1 b i x w * sl3 pol2 b j y w)%R ->
       close16 (dat t (y :: x :: j :: i :: b)) (3 / PI * trapezoid (fun w => sl3 pol1 b i x w * sl3 pol2 b j y w))%R)%nat /\
  (shp pol1 = 23 :: n :: B -> shp pol2 = 23 :: m :: B ->
   exists t, trapzd_noref pol1 (Some pol2) = Ok t /\ shp t = m :: n :: B /\
     forall b i j, valid B b -> i < n -> j < m ->
       (forall w, (w < 23)%nat -> 0 <= sl2 pol1 b i w * sl2 pol2 b j w)%R ->
       close16 (sl2 t b i j) (3 / PI * trapezoid (fun w => sl2 pol1 b i w * sl2 pol2 b j w))%R)%nat /\
  (shp pol1 = 23 :: k :: m :: n :: B ->
   exists t, trapzd_atm pol1 = Ok t /\ shp t = k :: m :: n :: B /\
     forall b i j l, valid B b -> i < n -> j < m -> l < k ->
       (forall w, (w < 23)%nat -> 0 <= dat pol1 (w :: l :: j :: i :: b))%R ->
       close16 (sl3 t b i j l) (3 / PI * trapezoid (fun w => dat pol1 (w :: l :: j :: i :: b)))%R)%nat.
Proof.
  destruct (C48_quadrature n m r k B pol1 pol2) as (A & C & D & _). split; [|split].
  - intros H1 H2. destruct (A H1 H2) as (t & E & S & V). exists t. split; auto. split; auto.
    intros b i j x y Hb Hi Hj Hx Hy HF. rewrite V by auto. apply C74_trapezoid. auto.
  - intros H1 H2. destruct (C H1 H2) as (t & E & S & V). exists t. split; auto. split; auto.
    intros b i j Hb Hi Hj HF. rewrite V by auto. apply C74_trapezoid. auto.
  - intros H1. destruct (D H1) as (t & E & S & V). exists t. split; auto. split; auto.
    intros b i j l Hb Hi Hj Hl HF. rewrite V by auto.
    assert (HF' : forall w, (w < 23)%nat -> 0 <= dat pol1 (w :: l :: j :: i :: b) * 1) by (intros w Hw; rewrite Rmult_1_r; auto).
    pose proof (C74_trapezoid _ (fun _ => 1) HF') as Q. cbv beta zeta in Q.
    assert (X : trapezoid (fun w => dat pol1 (w :: l :: j :: i :: b) * 1) = trapezoid (fun w => dat pol1 (w :: l :: j :: i :: b))).
    { unfold trapezoid. apply rsum_ext. intros q _. rewrite !Rmult_1_r. reflexivity. }
    rewrite X in Q. exact Q.
Qed.
End Fun.

(** two equal oscillators, alpha(w) = 1 / (1 + w^2): the hypotheses of [C74_integral] hold *)
Example C74_example : exists (phi : R -> R) (pr : Riemann_integrable phi (omega 0) (omega 22)),
  let f := fun w => / (1 + omega w * omega w) in
  (forall w, (w < 23)%nat -> f w * f w = phi (omega w)) /\
  (forall x, omega 0 <= x <= omega 22 -> 0 <= phi x) /\
  (forall x y, omega 0 <= x -> x <= y -> y <= omega 22 -> phi y <= phi x) /\
  phi (omega 22) < phi (omega 0).
Proof.
  set (h := fun x : R => / (1 + x * x)). set (phi := fun x => h x * h x).
  assert (Hh : forall x, 0 < h x) by (intros x; unfold h; apply Rinv_0_lt_compat; nra).
  assert (Hc : forall x, continuity_pt phi x).
  { intros x. assert (C : continuity_pt h x).
    { unfold h. change (continuity_pt (inv_fct (fun x : R => 1 + x * x)) x). apply continuity_pt_inv; [|nra].
      apply derivable_continuous_pt. reg. }
    now apply (continuity_pt_mult h h x). }
  assert (Hle : omega 0 <= omega 22) by (apply omega_le; lia).
  exists phi, (continuity_implies_RiemannInt Hle (fun x _ => Hc x)). cbv zeta.
  assert (M : forall x y, 0 <= x -> x <= y -> h y <= h x) by (intros x y H1 H2; unfold h; apply Rinv_le_contravar; nra).
  assert (P0 : 0 < omega 0) by (unfold omega; cbn [nth omega_tab]; lra).
  split; [|split; [|split]].
  - intros w _. reflexivity.
  - intros x _. unfold phi. pose proof (Hh x). nra.
  - intros x y H1 H2 _. unfold phi. pose proof (Hh x). pose proof (Hh y). pose proof (M x y ltac:(lra) H2). nra.
  - unfold phi. assert (h (omega 22) < h (omega 0)).
    { unfold h, omega. cbn [nth omega_tab]. apply Rinv_lt_contravar; nra. }
    pose proof (Hh (omega 0)). pose proof (Hh (omega 22)). nra.
Qed.

Print Assumptions C74_trapezoid.
Print Assumptions C74_integral.
Print Assumptions C74_functions.
Print Assumptions C74_example.
