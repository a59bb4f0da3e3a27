(** * Inequalities for the pair and triple energies (real numbers): proofs *)
From Coq Require Import Reals Lra Lia List Arith ZArith QArith Qreals Bool String.
From Verif Require Import Py Tensor Scalar RInst ModelExt ModelUtils ModelDamping Spec SpecR TensorLemmas
  Closed EnergyR Energy3R PropsEnergy SpecBounds.
Import ListNotations.
Open Scope R_scope.

(** ** Angles *)
Lemma dot_cs c x y : dot c x y ^ 2 <= dot c x x * dot c y y.
Proof.
  unfold dot. pose proof (rsum_cs c (fun _ => 1) x y ltac:(intros; lra)) as H.
  assert (E : forall u v : nat -> R, rsum c (fun i => 1 * u i * v i) = rsum c (fun k => u k * v k)).
  { intros u v. apply rsum_ext. intros. ring. }
  cbv beta in H. rewrite !E in H. exact H.
Qed.

Lemma dot_sqd c p x : dot c (fun k => x k - p k) (fun k => x k - p k) = sqd c p x.
Proof. unfold dot, sqd. apply rsum_ext. intros. ring. Qed.

(** law of cosines, squared: twice the product of two squared sides bounds the third *)
Lemma sides c p x y : (sqd c p x + sqd c p y - sqd c x y) ^ 2 <= 4 * (sqd c p x * sqd c p y).
Proof.
  pose proof (dot_cs c (fun k => x k - p k) (fun k => y k - p k)) as H. rewrite !dot_sqd, dot_law in H. nra.
Qed.

Lemma euclid_triangle c x y z : euclid c x z <= euclid c x y + euclid c y z.
Proof.
  pose proof (sides c y x z) as S. rewrite <- !(euclid_sqr c) in S.
  rewrite (euclid_sym c y x) in S. pose proof (euclid_nonneg c x y). pose proof (euclid_nonneg c y z). pose proof (euclid_nonneg c x z).
  set (u := euclid c x y) in *. set (v := euclid c y z) in *. set (w := euclid c x z) in *.
  destruct (Rle_dec w (u + v)) as [L|L]; [exact L|exfalso].
  assert (L2 : (u + v) ^ 2 < w ^ 2) by (simpl; nra).
  assert (0 <= u * v) by (apply Rmult_le_pos; auto).
  assert (2 * (u * v) < w ^ 2 - u ^ 2 - v ^ 2) by (simpl in *; lra). nra.
Qed.

Lemma cos_le_1 c p x y : 0 < euclid c p x -> 0 < euclid c p y -> -1 <= cos_at c p x y <= 1.
Proof.
  intros Hx Hy. unfold cos_at. rewrite dot_law. pose proof (sides c p x y) as S.
  rewrite <- !(euclid_sqr c) in *. set (u := euclid c p x) in *. set (v := euclid c p y) in *. set (w := euclid c x y ^ 2) in *.
  assert (P : 0 < u * v) by now apply Rmult_lt_0_compat.
  set (d := (u ^ 2 + v ^ 2 - w) / 2). assert (D : d ^ 2 <= (u * v) ^ 2) by (unfold d; nra).
  assert (B : - (u * v) <= d <= u * v) by nra.
  split.
  - apply (Rmult_le_reg_r (u * v)); auto. unfold Rdiv. rewrite Rmult_assoc, Rinv_l by lra. lra.
  - apply (Rmult_le_reg_r (u * v)); auto. unfold Rdiv. rewrite Rmult_assoc, Rinv_l by lra. lra.
Qed.

Definition angular (c : nat) (x y z : nat -> R) : R :=
  3 * cos_at c x y z * cos_at c y x z * cos_at c z x y + 1.

Lemma schur u v w : 0 <= u + v -> 0 <= u + w -> 0 <= v + w -> 8 * (u * v * w) <= (u + v) * (u + w) * (v + w).
Proof.
  intros H1 H2 H3.
  assert (E : (u + v) * (u + w) * (v + w) - 8 * (u * v * w) = u * (v - w) ^ 2 + v * (u - w) ^ 2 + w * (u - v) ^ 2) by ring.
  assert (G : 0 <= u -> 0 <= v -> 0 <= w -> 8 * (u * v * w) <= (u + v) * (u + w) * (v + w)).
  { intros. assert (0 <= u * (v - w) ^ 2) by (apply Rmult_le_pos; [auto|apply pow2_ge_0]).
    assert (0 <= v * (u - w) ^ 2) by (apply Rmult_le_pos; [auto|apply pow2_ge_0]).
    assert (0 <= w * (u - v) ^ 2) by (apply Rmult_le_pos; [auto|apply pow2_ge_0]). lra. }
  assert (R : 0 <= (u + v) * (u + w) * (v + w)) by (apply Rmult_le_pos; [apply Rmult_le_pos|]; auto).
  destruct (Rle_dec 0 u) as [Hu|Hu], (Rle_dec 0 v) as [Hv|Hv], (Rle_dec 0 w) as [Hw|Hw]; try lra; auto;
    assert (Q : u * v * w <= 0); try lra.
  - assert (0 <= u * v) by (apply Rmult_le_pos; auto). nra.
  - assert (0 <= u * w) by (apply Rmult_le_pos; auto). nra.
  - assert (0 <= v * w) by (apply Rmult_le_pos; auto). nra.
Qed.

Lemma angular_bounds c x y z : 0 < euclid c x y -> 0 < euclid c x z -> 0 < euclid c y z ->
  -2 <= angular c x y z <= 11 / 8.
Proof.
  intros H1 H2 H3. unfold angular.
  pose proof (cos_le_1 c x y z H1 H2) as C1.
  pose proof (cos_le_1 c y x z ltac:(rewrite euclid_sym; auto) H3) as C2.
  pose proof (cos_le_1 c z x y ltac:(rewrite euclid_sym; auto) ltac:(rewrite euclid_sym; auto)) as C3.
  split.
  - assert (B : forall a b, -1 <= a <= 1 -> -1 <= b <= 1 -> -1 <= a * b <= 1) by (intros; nra).
    pose proof (B _ _ (B _ _ C1 C2) C3). lra.
  - assert (E : cos_at c x y z * cos_at c y x z * cos_at c z x y <= 1 / 8); [|lra].
    clear C1 C2 C3. unfold cos_at. rewrite !dot_law.
    rewrite !(euclid_sym c y x), !(euclid_sym c z), !(sqd_sym c y x), !(sqd_sym c z).
    rewrite <- !(euclid_sqr c). rewrite ?(euclid_sym c z).
    set (p := euclid c x y) in *. set (q := euclid c x z) in *. set (r := euclid c y z) in *.
    pose proof (schur ((p ^ 2 + q ^ 2 - r ^ 2) / 2) ((p ^ 2 + r ^ 2 - q ^ 2) / 2) ((q ^ 2 + r ^ 2 - p ^ 2) / 2)) as S.
    assert (Pp : 0 < p ^ 2) by (apply pow_lt; auto). assert (Pq : 0 < q ^ 2) by (apply pow_lt; auto). assert (Pr : 0 < r ^ 2) by (apply pow_lt; auto).
    specialize (S ltac:(lra) ltac:(lra) ltac:(lra)).
    replace ((p ^ 2 + q ^ 2 - r ^ 2) / 2 + (p ^ 2 + r ^ 2 - q ^ 2) / 2) with (p ^ 2) in S by field.
    replace ((p ^ 2 + q ^ 2 - r ^ 2) / 2 + (q ^ 2 + r ^ 2 - p ^ 2) / 2) with (q ^ 2) in S by field.
    replace ((p ^ 2 + r ^ 2 - q ^ 2) / 2 + (q ^ 2 + r ^ 2 - p ^ 2) / 2) with (r ^ 2) in S by field.
    apply (Rmult_le_reg_r (8 * (p ^ 2 * q ^ 2 * r ^ 2))); [assert (0 < p ^ 2 * q ^ 2 * r ^ 2) by (apply Rmult_lt_0_compat; [apply Rmult_lt_0_compat|]; auto); lra|].
    match goal with |- ?a <= ?b => replace b with (p ^ 2 * q ^ 2 * r ^ 2) by field;
      replace a with (8 * ((p ^ 2 + q ^ 2 - r ^ 2) / 2 * ((p ^ 2 + r ^ 2 - q ^ 2) / 2) * ((q ^ 2 + r ^ 2 - p ^ 2) / 2)))
        by (field; repeat split; lra) end.
    exact S.
Qed.

Lemma cos_nonneg c p x y : 0 < euclid c p x -> 0 < euclid c p y -> sqd c x y <= sqd c p x + sqd c p y ->
  0 <= cos_at c p x y.
Proof.
  intros. unfold cos_at. rewrite dot_law. apply Rmult_le_pos; [lra|].
  left. apply Rinv_0_lt_compat. now apply Rmult_lt_0_compat.
Qed.

Lemma angular_acute c x y z : 0 < euclid c x y -> 0 < euclid c x z -> 0 < euclid c y z ->
  not_obtuse c x y z -> 1 <= angular c x y z.
Proof.
  intros H1 H2 H3 (O1 & O2 & O3). unfold angular.
  assert (C1 : 0 <= cos_at c x y z) by (apply cos_nonneg; auto).
  assert (C2 : 0 <= cos_at c y x z) by (apply cos_nonneg; [rewrite euclid_sym; auto|auto|rewrite (sqd_sym c y x); auto]).
  assert (C3 : 0 <= cos_at c z x y) by (apply cos_nonneg; [rewrite euclid_sym; auto|rewrite euclid_sym; auto|rewrite !(sqd_sym c z); auto]).
  assert (0 <= cos_at c x y z * cos_at c y x z * cos_at c z x y) by (apply Rmult_le_pos; [apply Rmult_le_pos|]; auto). lra.
Qed.

(** ** Triple energies *)
Section Triple.
Variables (c : nat) (xi xj xk : nat -> R) (c9 rij rik rjk s9 alp : R).
Hypothesis H1 : 0 < euclid c xi xj.
Hypothesis H2 : 0 < euclid c xi xk.
Hypothesis H3 : 0 < euclid c xj xk.
Hypothesis Hs : 0 <= s9 * c9.
Notation triple_size := (triple_size c xi xj xk c9 s9).

Lemma triple_form : exists f, 0 < f <= 1 /\
  triple_energy c xi xj xk c9 rij rik rjk s9 alp = f * angular c xi xj xk * triple_size.
Proof.
  unfold triple_energy, SpecBounds.triple_size. cbv zeta. set (r := euclid c xi xj * euclid c xi xk * euclid c xj xk).
  assert (Hr : 0 < r) by (repeat apply Rmult_lt_0_compat; auto).
  assert (HP : 0 < Rpower (rij * rik * rjk / r) (alp / 3)) by apply exp_pos. set (P := Rpower _ _) in *.
  exists (/ (1 + 6 * P)). split; [split; [apply Rinv_0_lt_compat; lra|]|].
  - rewrite <- Rinv_1 at 2. apply Rinv_le_contravar; lra.
  - unfold angular. field. split; [lra|]. apply Rgt_not_eq. lra.
Qed.

Lemma triple_size_nonneg : 0 <= triple_size.
Proof.
  unfold SpecBounds.triple_size. apply Rmult_le_pos; auto. left. apply Rinv_0_lt_compat, pow_lt. repeat apply Rmult_lt_0_compat; auto.
Qed.

Lemma triple_bounds :
  -2 * triple_size <= triple_energy c xi xj xk c9 rij rik rjk s9 alp <= 11 / 8 * triple_size.
Proof.
  destruct triple_form as (f & Hf & ->). pose proof (angular_bounds c xi xj xk H1 H2 H3) as A. pose proof triple_size_nonneg as S.
  assert (-2 <= f * angular c xi xj xk <= 11 / 8) by nra. nra.
Qed.

Lemma triple_acute : not_obtuse c xi xj xk -> 0 <= triple_energy c xi xj xk c9 rij rik rjk s9 alp.
Proof.
  intros O. destruct triple_form as (f & Hf & ->). pose proof (angular_acute c xi xj xk H1 H2 H3 O). pose proof triple_size_nonneg.
  apply Rmult_le_pos; auto. apply Rmult_le_pos; lra.
Qed.
End Triple.

(** ** Pair energies *)
Section Pair.
Variables (a1 a2 s6 s8 s10 c6 Qi Qj : R).
Hypothesis (H1 : 0 <= a1) (H2 : 0 < a2) (H8 : 0 <= s8) (H10 : 0 <= s10) (HQi : 0 <= Qi) (HQj : 0 <= Qj).
Notation E := (pair_energy a1 a2 s6 s8 s10 c6 Qi Qj).

Lemma bj_pos : 0 < a1 * sqrt (3 * Qi * Qj) + a2.
Proof. assert (0 <= a1 * sqrt (3 * Qi * Qj)) by (apply Rmult_le_pos; auto using sqrt_pos). lra. Qed.

(** farther apart, less energy *)
Lemma pair_energy_decreases r r' : 0 <= s6 -> 0 <= c6 -> 0 <= r <= r' -> E r' <= E r.
Proof.
  intros H6 Hc Hr. unfold pair_energy. cbv zeta. pose proof bj_pos as HR. set (R0 := _ + a2) in *.
  assert (D : forall o A, 0 <= A -> A / (r' ^ o + R0 ^ o) <= A / (r ^ o + R0 ^ o)).
  { intros o A HA. assert (0 <= r ^ o) by (apply pow_le; lra). assert (r ^ o <= r' ^ o) by (apply pow_incr; lra).
    assert (0 < R0 ^ o) by (apply pow_lt; auto). apply Rmult_le_compat_l; auto. apply Rinv_le_contravar; lra. }
  assert (Q0 : 0 <= 3 * Qi * Qj) by (apply Rmult_le_pos; lra).
  assert (A6 : 0 <= s6 * c6) by (apply Rmult_le_pos; auto).
  assert (A8 : 0 <= s8 * (3 * Qi * Qj * c6)) by (repeat apply Rmult_le_pos; lra).
  assert (A10 : 0 <= s10 * (49 / 40 * (3 * Qi * Qj) ^ 2 * c6)).
  { apply Rmult_le_pos; auto. apply Rmult_le_pos; auto. apply Rmult_le_pos; [lra|]. apply pow_le; auto. }
  pose proof (D 6%nat _ A6). pose proof (D 8%nat _ A8). pose proof (D 10%nat _ A10). lra.
Qed.

Lemma pair_energy_pos r : 0 < s6 -> 0 < c6 -> 0 <= r -> 0 < E r.
Proof.
  intros H6 Hc Hr. unfold pair_energy. cbv zeta. pose proof bj_pos as HR. set (R0 := _ + a2) in *.
  assert (D : forall o, 0 < r ^ o + R0 ^ o).
  { intros o. assert (0 <= r ^ o) by (apply pow_le; auto). assert (0 < R0 ^ o) by (apply pow_lt; auto). lra. }
  assert (Q0 : 0 <= 3 * Qi * Qj) by (apply Rmult_le_pos; lra).
  assert (0 < s6 * c6 / (r ^ 6 + R0 ^ 6)) by (apply Rdiv_lt_0_compat; [apply Rmult_lt_0_compat|]; auto).
  assert (0 <= s8 * (3 * Qi * Qj * c6) / (r ^ 8 + R0 ^ 8)).
  { apply Rmult_le_pos; [repeat apply Rmult_le_pos; lra|]. left. now apply Rinv_0_lt_compat. }
  assert (0 <= s10 * (49 / 40 * (3 * Qi * Qj) ^ 2 * c6) / (r ^ 10 + R0 ^ 10)).
  { apply Rmult_le_pos; [|left; now apply Rinv_0_lt_compat]. apply Rmult_le_pos; auto. apply Rmult_le_pos; [|lra].
    apply Rmult_le_pos; [lra|]. apply pow_le; auto. }
  lra.
Qed.

(** the decay of the undamped energy bounds the damped energy *)
Lemma pair_energy_decay r : 0 <= s6 -> 0 <= c6 -> 0 < r ->
  E r <= undamped s6 s8 s10 c6 Qi Qj r.
Proof.
  intros H6 Hc Hr. unfold pair_energy, undamped. cbv zeta. pose proof bj_pos as HR. set (R0 := _ + a2) in *.
  assert (D : forall o A, 0 <= A -> A / (r ^ o + R0 ^ o) <= A / r ^ o).
  { intros o A HA. assert (0 < r ^ o) by (apply pow_lt; lra). 
    assert (0 < R0 ^ o) by (apply pow_lt; auto). apply Rmult_le_compat_l; auto. apply Rinv_le_contravar; lra. }
  assert (Q0 : 0 <= 3 * Qi * Qj) by (apply Rmult_le_pos; lra).
  assert (A6 : 0 <= s6 * c6) by (apply Rmult_le_pos; auto).
  assert (A8 : 0 <= s8 * (3 * Qi * Qj * c6)) by (repeat apply Rmult_le_pos; lra).
  assert (A10 : 0 <= s10 * (49 / 40 * (3 * Qi * Qj) ^ 2 * c6)).
  { apply Rmult_le_pos; auto. apply Rmult_le_pos; auto. apply Rmult_le_pos; [lra|]. apply pow_le; auto. }
  pose proof (D 6%nat _ A6). pose proof (D 8%nat _ A8). pose proof (D 10%nat _ A10). lra.
Qed.
End Pair.
