(** * Rounding errors of the two-body energy in IEEE arithmetic: C67 *)
From Coq Require Import Reals List Arith ZArith QArith Qreals Bool String Lia Lra.
From Flocq Require Import Core.Core IEEE754.BinarySingleNaN.
From Verif Require Import Py Tensor Scalar RInst ModelExt ModelUtils ModelDamping ModelModels
  ModelTerms TensorLemmas Closed ClosedM ClosedTerms ClosedDamp IeeeInst IeeeP IeeeB IeeeA SpecR EnergyR.
Import ListNotations.
Open Scope R_scope.

(** ** Specification *)
Section S.
Context {prec emax : Z} {Hp : Prec_gt_0 prec} {He : Prec_lt_emax prec emax}.
Context {L : Libm prec emax} {L64 : Libm 53 1024}.
Notation N := (IN prec emax L L64).
Notation F := (binary_float prec emax).
Notation p2 := (bpow radix2).
Context (X : Ext (sc N)).

(** [k] rounding errors, each a factor between [1 / (1 + 2^-prec)] and [1 + 2^-prec] *)
Definition growth (k : nat) : R := (1 + p2 (- prec)) ^ k.
(** the float [x] is a number that approximates [r >= 0] up to [k] rounding errors *)
Definition within (k : nat) (x : F) (r : R) : Prop :=
  is_finite x = true /\ r / growth k <= B2R x <= r * growth k.

(** what is required of [torch.pow] with an integer exponent, away from underflow and overflow *)
Definition pow_accurate (kp : nat) : Prop := forall (x : F) (o : nat), is_finite x = true -> 0 <= B2R x ->
  B2R x = 0 \/ p2 (2 - emax) <= B2R x ^ o <= p2 (emax - 1) -> (0 < o)%nat -> within kp (l_pown L x o) (B2R x ^ o).

(** zero, or a number between the powers of two *)
Definition zero_or (lo hi : Z) (x : F) : Prop := is_finite x = true /\ (B2R x = 0 \/ p2 lo <= B2R x <= p2 hi).

(** Sizes, as exponents of two: distances from [2^-near] to [2^far], parameters zero or from [2^-par] to
    [2^par], C6 coefficients zero or from [2^-c6min] to [2^c6max], at most [2^atoms] atoms. *)
Record acc_sizes := mkAcc { afar : Z; anear : Z; apar : Z; ac6min : Z; ac6max : Z; aatoms : Z }.
Record acc_fits (s : acc_sizes) : Prop := {
  af_pos : (0 <= afar s /\ 0 <= anear s /\ 0 <= apar s /\ 0 <= ac6min s /\ 0 <= ac6max s /\ 0 <= aatoms s)%Z;
  af_prec : (6 <= prec /\ 8 <= emax)%Z;
  af_low : (ac6min s + 10 * Z.max (afar s) (apar s + 7) + apar s + 5 <= emax /\ 10 * anear s + 4 <= emax /\ 10 * apar s + 4 <= emax)%Z;
  af_high : (ac6max s + 10 * anear s + apar s + aatoms s + 33 < emax)%Z }.

(** coordinates, C6 coefficients, radii and parameters of a call *)
Definition rcoord (positions : tensor (sc N)) (b : list nat) (i k : nat) : R := B2R (sl2 positions b i k : F).

(** the computed distances are accurate; the exact ones are not too small, not too close to the cutoff,
    and within the sizes up to the cutoff *)
Definition acc_geometry (s : acc_sizes) (kd : nat) (cut : R) (numbers : tensor Z) (positions : tensor (sc N))
  (n c : nat) (B : list nat) : Prop :=
  (Z.of_nat n <= 2 ^ aatoms s)%Z /\
  forall b i j, valid B b -> (i < n)%nat -> (j < n)%nat -> real_pair (sl1 numbers b) i j = true ->
    let d := euclid c (rcoord positions b i) (rcoord positions b j) in
    within kd (x_dist X c (sl2 positions b i) (sl2 positions b j) : F) d /\
    p2 (- anear s) <= d /\ (d * growth kd <= cut /\ d <= p2 (afar s) \/ cut * growth kd < d).

Definition acc_c6 (s : acc_sizes) (c6 : tensor (sc N)) (n : nat) (B : list nat) : Prop :=
  forall b i j, valid B b -> (i < n)%nat -> (j < n)%nat -> zero_or (- ac6min s) (ac6max s) (sl2 c6 b i j : F).
(** <r4>/<r2>: zero (padding) or between 1 and 32, as the tabulated values *)
Definition acc_r4r2 (r4r2 : tensor (sc N)) (n : nat) (B : list nat) : Prop :=
  forall b i, valid B b -> (i < n)%nat -> zero_or 0 5 (sl1 r4r2 b i : F).
Definition acc_param (s : acc_sizes) (param : Param (sc N)) : Prop :=
  forall k (x : F), In k ["s6"; "s8"; "s10"; "a1"; "a2"]%string -> getp param k = Some x -> zero_or (- apar s) (apar s) x.

(** scaling parameters and cutoff in effect *)
Definition scale (param : Param (sc N)) (k : string) (dflt : R) : R :=
  match getp param k with Some x => B2R (x : F) | None => dflt end.
Definition scale8 (param : Param (sc N)) : R :=
  scale param "s8" (match getp param "rs8" with Some _ => 1 | None => 0 end).
Definition cutoff_float (o : option (tensor (sc N))) : F := match o with Some t => dat t [] | None => blit prec emax 60 end.

(** the two-body energy of atom [i] in exact arithmetic, for the same input *)
Definition exact_energy (numbers : tensor Z) (positions c6 r4r2 : tensor (sc N)) (param : Param (sc N)) (a1 a2 : F)
  (cut : R) (n c : nat) (b : list nat) (i : nat) : R :=
  two_body n c (sl1 numbers b) (rcoord positions b) (fun i j => B2R (sl2 c6 b i j : F)) (fun i => B2R (sl1 r4r2 b i : F))
    (B2R a1) (B2R a2) (scale param "s6" 1) (scale8 param) (scale param "s10" 0) cut i.
(** ... and of a pair *)
Definition exact_pair (numbers : tensor Z) (positions c6 r4r2 : tensor (sc N)) (param : Param (sc N)) (a1 a2 : F)
  (cut : R) (c : nat) (b : list nat) (i j : nat) : R :=
  let d := euclid c (rcoord positions b i) (rcoord positions b j) in
  if real_pair (sl1 numbers b) i j && rleb d cut
  then - pair_energy (B2R a1) (B2R a2) (scale param "s6" 1) (scale8 param) (scale param "s10" 0)
         (B2R (sl2 c6 b i j : F)) (B2R (sl1 r4r2 b i : F)) (B2R (sl1 r4r2 b j : F)) d
  else 0.
End S.

(** ** Proofs *)
Section P.
Context {prec emax : Z} {Hp : Prec_gt_0 prec} {He : Prec_lt_emax prec emax}.
Context {L : Libm prec emax} {L64 : Libm 53 1024}.
Notation N := (IN prec emax L L64).
Notation KI := (IS prec emax L).
Notation F := (binary_float prec emax).
Notation p2 := (bpow radix2).
Notation gw := (growth (prec := prec)).
Notation few := (few (prec := prec)).
Notation appr := (appr (prec := prec) (emax := emax)).
Context (X : Ext (sc N)).

Lemma growth_pos k : 0 < gw k.
Proof. apply (wk_pos (prec := prec)). Qed.
Lemma within_le k (x : F) r : within k x r -> r <= B2R x * gw k /\ B2R x <= r * gw k.
Proof.
  intros (_ & A & B). split; [|exact B]. pose proof (growth_pos k) as P.
  apply Rmult_le_compat_r with (r := gw k) in A; [|lra]. unfold Rdiv in A. rewrite Rmult_assoc, Rinv_l, Rmult_1_r in A by lra. exact A.
Qed.
Lemma within_appr k lo hi (x : F) r : within k x r -> r = 0 \/ p2 lo <= r <= p2 hi -> appr k lo hi x r.
Proof. intros H R. destruct (within_le _ _ _ H) as (A & B). split; auto. apply H. Qed.
Lemma appr_within k lo hi (x : F) r : appr k lo hi x r -> within k x r.
Proof.
  intros [Fx _ G U]. split; [exact Fx|]. split; [|exact U]. pose proof (growth_pos k) as P.
  apply Rmult_le_reg_r with (gw k); [exact P|]. unfold Rdiv. rewrite Rmult_assoc, Rinv_l, Rmult_1_r by lra. exact G.
Qed.
Lemma within_error k (x : F) r : 0 <= r -> within k x r -> Rabs (B2R x - r) <= (gw k - 1) * Rabs r.
Proof.
  intros Pr H. destruct (within_le _ _ _ H) as (A & B). rewrite (Rabs_pos_eq r) by exact Pr.
  pose proof (wk_ge1 (prec := prec) k) as G. change (1 <= gw k) in G.
  apply Rabs_le. split; [|lra].
  assert (r * 1 <= r * gw k) by (apply Rmult_le_compat_l; lra).
  assert (0 <= B2R x) by (apply Rmult_le_reg_r with (gw k); lra).
  assert (B2R x * gw k <= r * gw k * gw k) by (apply Rmult_le_compat_r; lra).
  apply Rmult_le_reg_r with (gw k); [lra|].
  replace (- ((gw k - 1) * r) * gw k) with (r * gw k - r * gw k * gw k) by ring.
  replace ((B2R x - r) * gw k) with (B2R x * gw k - r * gw k) by ring.
  assert (r * (gw k - 1) * (gw k - 1) >= 0) by (apply Rle_ge; repeat apply Rmult_le_pos; lra). nra.
Qed.
Lemma zero_or_appr lo hi (x : F) : zero_or lo hi x -> appr 0 lo hi x (B2R x).
Proof. intros (A & B). now apply appr_exact. Qed.
Lemma appr_lo k lo hi lo' (x : F) r : appr k lo hi x r -> p2 lo' <= r -> appr k lo' hi x r.
Proof.
  intros [A R G U] H. split; auto. destruct R as [->|(_ & R)]; [|auto].
  exfalso. pose proof (bpow_gt_0 radix2 lo'). lra.
Qed.

Context (s : acc_sizes) (kd kp : nat) (Hf : acc_fits (prec := prec) (emax := emax) s) (PA : pow_accurate (L := L) kp).
Context (Kmax : nat) (HK : few Kmax).
Let q : nat := Nat.max kd 5.
Let kt : nat := 10 * q + kp + 2.
Context (HKt : (kt + kp + 12 <= Kmax)%nat).
Let M : Z := Z.max (afar s) (apar s + 7).

Ltac fits := destruct (af_pos _ Hf) as (? & ? & ? & ? & ? & ?); destruct (af_prec _ Hf); destruct (af_low _ Hf) as (? & ? & ?);
  pose proof (af_high _ Hf).
Lemma fk k : (k <= Kmax)%nat -> few k.
Proof. intros H. exact (few_le _ _ HK H). Qed.

Lemma lit_ok z lo hi : (0 <= z <= 64)%Z -> p2 lo <= IZR z <= p2 hi -> appr 0 lo hi (blit prec emax (inject_Z z)) (IZR z).
Proof.
  intros Hz R. fits. destruct (lit_int (prec := prec) (emax := emax) z) as (A & B); [lia|..].
  - assert (2 ^ 6 <= 2 ^ prec)%Z by (apply Z.pow_le_mono_r; lia). lia.
  - assert (2 ^ 7 <= 2 ^ (emax - 1))%Z by (apply Z.pow_le_mono_r; lia). lia.
  - rewrite <- B. apply appr_exact; [exact A|]. right. now rewrite B.
Qed.

(** powers *)
Lemma appr_pown k0 lo0 hi0 (x : F) r o k lo hi : appr k0 lo0 hi0 x r -> (0 < o)%nat ->
  (k0 * o + kp <= k)%nat -> (k <= Kmax)%nat ->
  (lo <= lo0 * Z.of_nat o)%Z -> (hi0 * Z.of_nat o <= hi)%Z -> (3 - emax <= lo)%Z -> (hi + 2 <= emax)%Z ->
  appr k lo hi (l_pown L x o) (r ^ o).
Proof.
  intros H Ho Hk Hm E1 E2 E3 E4.
  pose proof (appr_nonneg _ _ _ _ _ H) as Pr. pose proof (appr_pos _ _ _ _ _ H) as Px. destruct H as [Fx R G U].
  assert (Po : forall e, p2 e ^ o = p2 (e * Z.of_nat o)).
  { intros e. clear. induction o as [|o IH]; [now rewrite Z.mul_0_r|]. cbn [pow]. rewrite IH, <- bpow_plus. f_equal. lia. }
  assert (Wm : gw (k0 * o) <= 2) by (apply few_2, fk; lia).
  assert (W1 : 1 <= gw (k0 * o)) by apply wk_ge1.
  assert (G' : r ^ o <= B2R x ^ o * gw (k0 * o)).
  { unfold growth. rewrite pow_mult, <- Rpow_mult_distr. apply pow_incr. split; auto. }
  assert (U' : B2R x ^ o <= r ^ o * gw (k0 * o)).
  { unfold growth. rewrite pow_mult, <- Rpow_mult_distr. apply pow_incr. split; auto. }
  assert (Ro : r ^ o = 0 \/ p2 (lo0 * Z.of_nat o) <= r ^ o <= p2 (hi0 * Z.of_nat o)).
  { destruct R as [->|(R1 & R2)]; [left; apply pow_i; lia|right]. rewrite <- !Po. split; apply pow_incr; auto.
    split; auto. apply bpow_ge_0. }
  assert (PX : 0 <= B2R x ^ o) by now apply pow_le.
  destruct (PA x o Fx Px) as (F1 & A); [|exact Ho|].
  { destruct R as [->|(R1 & R2)]; [left; pose proof (wk_pos (prec := prec) k0); apply Rle_antisym; lra|right].
    assert (Q1 : p2 (lo0 * Z.of_nat o) <= r ^ o <= p2 (hi0 * Z.of_nat o)).
    { rewrite <- !Po. split; apply pow_incr; auto. split; auto. apply bpow_ge_0. }
    split.
    - assert (T : p2 (3 - emax) <= p2 (lo0 * Z.of_nat o)) by (apply bpow_le; lia).
      replace (3 - emax)%Z with (2 - emax + 1)%Z in T by ring. rewrite bpow_plus in T. change (p2 1) with 2 in T.
      assert (B2R x ^ o * gw (k0 * o) <= B2R x ^ o * 2) by now apply Rmult_le_compat_l. lra.
    - assert (T : p2 (hi0 * Z.of_nat o) <= p2 (emax - 2)) by (apply bpow_le; lia).
      replace (emax - 1)%Z with (emax - 2 + 1)%Z by ring. rewrite bpow_plus. change (p2 1) with 2.
      assert (r ^ o * gw (k0 * o) <= r ^ o * 2) by (apply Rmult_le_compat_l; [now apply pow_le|lra]). lra. }
  destruct (within_le kp (l_pown L x o) (B2R x ^ o) (conj F1 A)) as (A1 & A2).
  apply (appr_weak (k0 * o + kp) (lo0 * Z.of_nat o) (hi0 * Z.of_nat o)); try lia.
  split; [exact F1|exact Ro|..]; change (w (prec := prec) ^ (k0 * o + kp)) with (gw (k0 * o + kp)%nat);
    unfold growth; rewrite pow_add; fold (gw (k0 * o)) (gw kp); pose proof (growth_pos kp).
  - apply Rle_trans with (1 := G'). replace (B2R (l_pown L x o) * (gw (k0 * o) * gw kp)) with (B2R (l_pown L x o) * gw kp * gw (k0 * o)) by ring.
    apply Rmult_le_compat_r; lra.
  - apply Rle_trans with (1 := A2). rewrite <- Rmult_assoc. apply Rmult_le_compat_r; lra.
Qed.

(** rational damping *)
Lemma qq_acc (r : nat -> F) i j : zero_or 0 5 (r i) -> zero_or 0 5 (r j) ->
  appr 2 1 12 (qq (K := KI) r i j : F) (3 * B2R (r i) * B2R (r j)).
Proof.
  intros Hi Hj. fits. apply zero_or_appr in Hi, Hj. unfold qq.
  apply (appr_mul 1 0 1 0 7 5 (fmul (s := KI) (flit (s := KI) 3) (r i)) (r j)); try lia; [|exact Hj|apply fk; lia].
  apply (appr_mul 0 0 1 0 2 5 (flit (s := KI) 3) (r i)); try lia; [|exact Hi|apply fk; lia].
  apply (lit_ok 3); [lia|simpl; lra].
Qed.

Definition rrad (a1 a2 r : R) : R := a1 * sqrt r + a2.
Definition rrat (a1 a2 : R) (o : nat) (d r : R) : R := 1 / (d ^ o + rrad a1 a2 r ^ o).

Lemma rat_acc (a1 a2 : F) o (d r : F) dr rr : zero_or (- apar s) (apar s) a1 -> zero_or (- apar s) (apar s) a2 ->
  (0 < o <= 10)%nat -> appr kd (- anear s) (afar s) d dr -> dr <> 0 -> appr 2 1 12 r rr ->
  appr kt (- (10 * M + 1)) (10 * anear s) (rat_g (K := KI) a1 a2 o d r : F) (rrat (B2R a1) (B2R a2) o dr rr).
Proof.
  intros H1 H2 Ho Hd Nd Hr. fits. apply zero_or_appr in H1, H2. unfold rat_g, rrat.
  assert (Zo : (0 < Z.of_nat o <= 10)%Z) by lia.
  assert (Mo : forall a, (0 <= a)%Z -> (0 <= a * Z.of_nat o <= 10 * a)%Z) by (intros; nia).
  assert (Le : forall a b, (a <= b)%Z -> (a * Z.of_nat o <= b * Z.of_nat o)%Z) by (intros; nia).
  assert (Q5 : (5 <= q /\ kd <= q)%nat) by (unfold q; lia).
  assert (Qo : (5 * o <= q * o /\ kd * o <= q * o /\ q * o <= 10 * q)%nat) by nia.
  assert (MM : (apar s + 7 <= M /\ afar s <= M)%Z) by (unfold M; lia). pose proof (Mo M ltac:(lia)) as M1.
  set (m := Z.max (anear s) (apar s)).
  assert (Mm : (anear s <= m /\ apar s <= m /\ 0 <= m /\ 10 * m + 4 <= emax)%Z) by (unfold m; lia).
  pose proof (Mo m ltac:(lia)) as M2. pose proof (Mo (anear s) ltac:(lia)) as M3.
  pose proof (Le _ _ (proj2 MM)) as M4. pose proof (Le _ _ (proj1 MM)) as M5.
  pose proof (Le _ _ (proj1 Mm)) as M6. pose proof (Le _ _ (proj1 (proj2 Mm))) as M7.
  assert (HM : (ac6min s + 10 * M + apar s + 5 <= emax)%Z) by (unfold M; lia).
  assert (MX : (10 * M + 5 <= emax)%Z) by lia. assert (Oq : (10 * q + kp + 2 = kt)%nat) by reflexivity.
  clearbody m M q kt.
  assert (S : appr 3 0 6 (Bsqrt mode_NE r) (sqrt rr)).
  { apply (appr_sqrt 2 0 6 r rr); try lia; [|apply fk; lia]. apply (appr_weak 2 1 12); auto; lia. }
  assert (T : appr 4 (- apar s) (apar s + 6) (Bmult mode_NE a1 (Bsqrt mode_NE r)) (B2R a1 * sqrt rr)).
  { apply (appr_mul 0 3 (- apar s) 0 (apar s) 6); auto; try lia. apply fk; lia. }
  assert (R : appr 5 (- apar s) (apar s + 7) (Bplus mode_NE (Bmult mode_NE a1 (Bsqrt mode_NE r)) a2) (rrad (B2R a1) (B2R a2) rr)).
  { apply (appr_add 4 (- apar s) (apar s + 6)); auto; try lia; [|apply fk; lia]. apply (appr_weak 0 (- apar s) (apar s)); auto; lia. }
  assert (PR : appr (q * o + kp) (- (m * Z.of_nat o)) (M * Z.of_nat o)
      (l_pown L (Bplus mode_NE (Bmult mode_NE a1 (Bsqrt mode_NE r)) a2) o) (rrad (B2R a1) (B2R a2) rr ^ o)).
  { apply (appr_pown 5 (- apar s) (apar s + 7)); auto; rewrite ?Z.mul_opp_l; lia. }
  assert (PD : appr (q * o + kp) (- (anear s * Z.of_nat o)) (M * Z.of_nat o) (l_pown L d o) (dr ^ o)).
  { apply (appr_pown kd (- anear s) (afar s)); auto; rewrite ?Z.mul_opp_l; lia. }
  assert (LD : p2 (- (anear s * Z.of_nat o)) <= dr ^ o).
  { destruct (ap_rng _ _ _ _ _ PD) as [Z0|(Z1 & _)]; [|exact Z1]. exfalso. revert Z0. now apply pow_nonzero. }
  pose proof (appr_nonneg _ _ _ _ _ PR) as PR0. pose proof (bpow_gt_0 radix2 (- (anear s * Z.of_nat o))) as P0.
  assert (SS : appr (q * o + kp + 1) (- (anear s * Z.of_nat o)) (M * Z.of_nat o + 1)
     (Bplus mode_NE (l_pown L d o) (l_pown L (Bplus mode_NE (Bmult mode_NE a1 (Bsqrt mode_NE r)) a2) o))
     (dr ^ o + rrad (B2R a1) (B2R a2) rr ^ o)).
  { apply (appr_lo _ (- (m * Z.of_nat o))); [|lra].
    apply (appr_add (q * o + kp) (- (m * Z.of_nat o)) (M * Z.of_nat o)); auto; try lia; [|apply fk; lia].
    apply (appr_weak _ _ _ _ _ _ _ _ PD); lia. }
  apply (appr_weak (q * o + kp + 2) (- (M * Z.of_nat o + 1)) (anear s * Z.of_nat o)); try lia.
  apply (appr_div 0 (q * o + kp + 1) 0 (- (anear s * Z.of_nat o)) 0 (M * Z.of_nat o + 1)); auto; try lia; try lra.
  - apply (lit_ok 1); [lia|simpl; lra].
  - apply fk; lia.
Qed.

(** the two-body energy *)
Section E.
Context (n c : nat) (num : nat -> Z) (pos : nat -> nat -> F) (c6 : nat -> nat -> F) (r : nat -> F) (cut : F).
Let rd i j := euclid c (fun k => B2R (pos i k)) (fun k => B2R (pos j k)).
Context (Hn : (Z.of_nat n <= 2 ^ aatoms s)%Z) (HKn : (kt + kp + n + 12 <= Kmax)%nat).
Context (Fc : is_finite cut = true).
Context (Hd : forall i j, (i < n)%nat -> (j < n)%nat -> real_pair num i j = true ->
    within kd (x_dist X c (pos i) (pos j) : F) (rd i j) /\ p2 (- anear s) <= rd i j /\
    (rd i j * gw kd <= B2R cut /\ rd i j <= p2 (afar s) \/ B2R cut * gw kd < rd i j)).
Context (H6 : forall i j, (i < n)%nat -> (j < n)%nat -> zero_or (- ac6min s) (ac6max s) (c6 i j)).
Context (Hr : forall i, (i < n)%nat -> zero_or 0 5 (r i)).
Context (g6 g8 : F -> F -> F) (s6 s8 : F) (s10 : option (F * (F -> F -> F))).
Context (q6 q8 q10 : R -> R -> R) (r10 : R).

(** a damping function and its exact counterpart *)
Definition gacc (g : F -> F -> F) (qr : R -> R -> R) : Prop := forall d r dr rr, appr kd (- anear s) (afar s) d dr -> dr <> 0 ->
  appr 2 1 12 r rr -> appr kt (- (10 * M + 1)) (10 * anear s) (g d r) (qr dr rr).
Context (G6 : gacc g6 q6) (G8 : gacc g8 q8).
Context (S6 : zero_or (- apar s) (apar s) s6) (S8 : zero_or (- apar s) (apar s) s8).
Context (S10 : match s10 with Some (x, g) => zero_or (- apar s) (apar s) x /\ r10 = B2R x /\ gacc g q10 | None => r10 = 0 end).

Lemma pmask_real i j : pmask num i j = real_pair num i j.
Proof. unfold pmask, real_pair, is_real. destruct (num i =? 0)%Z, (num j =? 0)%Z, (i =? j)%nat; reflexivity. Qed.

Definition rt (qr : R -> R -> R) i j : R :=
  if real_pair num i j && rleb (rd i j) (B2R cut) then qr (rd i j) (3 * B2R (r i) * B2R (r j)) else 0.

Lemma tfac_acc g qr i j : (i < n)%nat -> (j < n)%nat -> gacc g qr ->
  appr kt (- (10 * M + 1)) (10 * anear s) (tfac (K := KI) X g c num pos (qq (K := KI) r) cut i j : F) (rt qr i j).
Proof.
  intros Hi Hj Hg. unfold tfac, rt, pdist. rewrite pmask_real. destruct (real_pair num i j) eqn:E; [|apply appr_0].
  destruct (Hd i j Hi Hj E) as (D & D1 & D3). cbn [andb].
  pose proof (bpow_gt_0 radix2 (- anear s)) as P0. pose proof (growth_pos kd) as PG.
  pose proof (wk_ge1 (prec := prec) kd) as G1. change (1 <= gw kd) in G1.
  destruct (within_le _ _ _ D) as (A1 & A2).
  assert (Cmp : Bleb (x_dist X c (pos i) (pos j) : F) cut = rleb (rd i j) (B2R cut)).
  { rewrite Bleb_correct by (auto; apply D). unfold rleb. destruct (Rle_dec (rd i j) (B2R cut)) as [Q|Q].
    - apply Rle_bool_true. destruct D3 as [(D3 & D2)|D3]; [lra|]. exfalso.
      assert (0 < B2R cut) by lra. assert (B2R cut * 1 <= B2R cut * gw kd) by (apply Rmult_le_compat_l; lra). lra.
    - apply Rle_bool_false. destruct D3 as [(D3 & D2)|D3].
      + exfalso. assert (rd i j * 1 <= rd i j * gw kd) by (apply Rmult_le_compat_l; lra). lra.
      + apply Rmult_lt_reg_r with (gw kd); lra. }
  change (fle (s := KI) (x_dist X c (pos i) (pos j)) cut) with (Bleb (x_dist X c (pos i) (pos j) : F) cut).
  rewrite Cmp. unfold rleb. destruct (Rle_dec _ _) as [Q|Q]; [|apply appr_0].
  assert (D2 : rd i j <= p2 (afar s)).
  { destruct D3 as [(_ & D2)|D3]; [exact D2|exfalso]. assert (B2R cut * 1 <= B2R cut * gw kd) by (apply Rmult_le_compat_l; lra). lra. }
  apply Hg; [apply within_appr; auto|lra|]. apply qq_acc; auto.
Qed.

Let kc := (kt + kp + 8)%nat.
Let clo := (- (ac6min s + 10 * M + 1))%Z.
Let chi := (ac6max s + 25 + 10 * anear s)%Z.
Lemma HM : (ac6min s + 10 * M + apar s + 5 <= emax /\ 7 <= M)%Z.
Proof. fits. unfold M. lia. Qed.

Lemma c6_acc i j g qr : (i < n)%nat -> (j < n)%nat -> gacc g qr ->
  appr kc clo chi (Bmult mode_NE (c6 i j) (tfac (K := KI) X g c num pos (qq (K := KI) r) cut i j)) (B2R (c6 i j) * rt qr i j).
Proof.
  intros Hi Hj Hg. fits. pose proof HM. unfold kc, clo, chi.
  apply (appr_mul 0 kt (- ac6min s) (- (10 * M + 1)) (ac6max s) (10 * anear s)); try lia.
  - now apply zero_or_appr, H6.
  - now apply tfac_acc.
  - apply fk. lia.
Qed.
Lemma c8_acc i j g qr : (i < n)%nat -> (j < n)%nat -> gacc g qr ->
  appr kc clo chi (Bmult mode_NE (c8v (K := KI) c6 r i j) (tfac (K := KI) X g c num pos (qq (K := KI) r) cut i j))
    (B2R (c6 i j) * (3 * B2R (r i) * B2R (r j)) * rt qr i j).
Proof.
  intros Hi Hj Hg. fits. pose proof HM. unfold kc, clo, chi.
  apply (appr_mul 3 kt (- ac6min s) (- (10 * M + 1)) (ac6max s + 12) (10 * anear s)); try lia.
  - apply (appr_mul 0 2 (- ac6min s) 1 (ac6max s) 12); try lia; [now apply zero_or_appr, H6|apply qq_acc; auto|apply fk; lia].
  - now apply tfac_acc.
  - apply fk. lia.
Qed.
Lemma c10_acc i j g qr : (i < n)%nat -> (j < n)%nat -> gacc g qr ->
  appr kc clo chi (Bmult mode_NE (c10v (K := KI) c6 r i j) (tfac (K := KI) X g c num pos (qq (K := KI) r) cut i j))
    (B2R (c6 i j) * (3 * B2R (r i) * B2R (r j)) ^ 2 * 49 / 40 * rt qr i j).
Proof.
  intros Hi Hj Hg. fits. pose proof HM. unfold kc, clo, chi.
  apply (appr_mul (7 + kp) kt (- ac6min s) (- (10 * M + 1)) (ac6max s + 25) (10 * anear s)); try lia.
  - unfold c10v.
    apply (appr_div (6 + kp) 0 (6 - ac6min s) 5 (ac6max s + 30) 6); try lia; [| |lra|apply fk; lia].
    2: { apply (lit_ok 40); [lia|simpl; lra]. }
    apply (appr_mul (5 + kp) 0 (1 - ac6min s) 5 (ac6max s + 24) 6); try lia; [|apply (lit_ok 49); [lia|simpl; lra]|apply fk; lia].
    apply (appr_mul 0 (4 + kp) (- ac6min s) 2 (ac6max s) 24); try lia; [now apply zero_or_appr, H6| |apply fk; lia].
    apply (appr_pown 2 1 12 (qq (K := KI) r i j)); try lia. apply qq_acc; auto.
  - now apply tfac_acc.
  - apply fk. lia.
Qed.

Lemma half_lit : is_finite (blit prec emax (- (1 # 2))) = true /\ B2R (blit prec emax (- (1 # 2))) = - / 2.
Proof.
  fits. unfold blit. cbn [Qopp Qnum Qden Z.opp]. unfold bratio.
  pose proof (proj2 (Bdiv_correct_aux prec emax Hp He mode_NE true 1 0 false 2 0)) as Q.
  generalize (proj1 (Bdiv_correct_aux prec emax Hp He mode_NE true 1 0 false 2 0)). intros V.
  assert (E : F2R (Float radix2 (cond_Zopp true (Zpos 1)) 0) / F2R (Float radix2 (cond_Zopp false (Zpos 2)) 0) = - p2 (-1)).
  { unfold F2R. cbn [Fnum Fexp bpow cond_Zopp Z.opp]. simpl. lra. }
  cbv zeta in Q. rewrite E, rnd_opp, rnd_p2 in Q by lia. rewrite Rlt_bool_true in Q.
  - split; [rewrite is_finite_SF2B; apply Q|]. rewrite B2R_SF2B. rewrite (proj1 Q). simpl. lra.
  - rewrite Rabs_Ropp, Rabs_pos_eq by apply bpow_ge_0. apply bpow_lt. lia.
Qed.

(** product with [-1/2] *)
Lemma mhalf_acc k lo hi (x : F) v : appr k lo hi x v -> (S k <= Kmax)%nat -> (4 - emax <= lo)%Z -> (hi + 1 < emax)%Z ->
  within (S k) (Bopp (Bmult mode_NE (blit prec emax (- (1 # 2))) x)) (v / 2).
Proof.
  intros H Hk E1 E2. fits. destruct half_lit as (Fh & Vh).
  destruct (round_ok (prec := prec) (emax := emax) k (lo - 1) (hi - 1) (B2R x / 2) (v / 2)) as (A & C & D & P); try lia.
  - apply fk; lia.
  - assert (Z : forall e, p2 (e - 1) = p2 e / 2) by (intros; unfold Zminus; rewrite bpow_plus; change (p2 (- (1))) with (/ 2); lra).
    rewrite !Z. destruct (ap_rng _ _ _ _ _ H) as [->|(R1 & R2)]; [left; lra|right; lra].
  - pose proof (ap_ge _ _ _ _ _ H). lra.
  - pose proof (ap_le _ _ _ _ _ H). lra.
  - pose proof (Bmult_correct _ _ Hp He mode_NE (blit prec emax (- (1 # 2))) x) as Q.
    replace (B2R (blit prec emax (- (1 # 2))) * B2R x) with (- (B2R x / 2)) in Q by (rewrite Vh; field).
    rewrite rnd_opp, Rabs_Ropp, Rlt_bool_true in Q by (rewrite Rabs_pos_eq; auto).
    destruct Q as (E & Q & _).
    apply (appr_within (S k) (lo - 1) (hi - 1)). split.
    + rewrite is_finite_Bopp. rewrite Q, Fh. apply (ap_fin _ _ _ _ _ H).
    + assert (Z : forall e, p2 (e - 1) = p2 e / 2) by (intros; unfold Zminus; rewrite bpow_plus; change (p2 (- (1))) with (/ 2); lra).
      rewrite !Z. destruct (ap_rng _ _ _ _ _ H) as [->|(R1 & R2)]; [left; lra|right; lra].
    + rewrite B2R_Bopp, E, Ropp_involutive. exact C.
    + rewrite B2R_Bopp, E, Ropp_involutive. exact D.
Qed.

Definition renergy i : R :=
  B2R s6 * rsum n (fun j => B2R (c6 i j) * rt q6 i j) +
  B2R s8 * rsum n (fun j => B2R (c6 i j) * (3 * B2R (r i) * B2R (r j)) * rt q8 i j) +
  r10 * rsum n (fun j => B2R (c6 i j) * (3 * B2R (r i) * B2R (r j)) ^ 2 * 49 / 40 * rt q10 i j).

Lemma scaled_acc (x : F) (f : nat -> F) (g : nat -> R) m : zero_or (- apar s) (apar s) x -> (m <= n)%nat ->
  (forall j, (j < m)%nat -> appr kc clo chi (f j) (g j)) ->
  appr (kc + n + 1) (clo - apar s) (chi + aatoms s + apar s) (Bmult mode_NE x (fsum (K := KI) m f)) (B2R x * rsum m g).
Proof.
  intros Hx Hm H. fits. pose proof HM. 
  apply (appr_mul 0 (kc + n) (- apar s) clo (apar s) (chi + aatoms s)); try (unfold kc, clo, chi in *; lia); [now apply zero_or_appr| |apply fk; unfold kc; lia].
  apply (appr_sum m f g kc clo chi (aatoms s)); auto; try (unfold kc, clo, chi in *; lia). apply fk; unfold kc; lia.
Qed.

Theorem e2_atom_acc i : (i < n)%nat ->
  within (kt + kp + n + 12) (Bopp (e2_atom (K := KI) X n c num pos c6 (qq (K := KI) r) r cut g6 g8 s6 s8 s10 i : F)) (renergy i / 2).
Proof.
  intros Hi. fits. pose proof HM.
  assert (Q6 := scaled_acc s6 _ _ n S6 (Nat.le_refl n) (fun j Hj => c6_acc i j g6 q6 Hi Hj G6)).
  assert (Q8 := scaled_acc s8 _ _ n S8 (Nat.le_refl n) (fun j Hj => c8_acc i j g8 q8 Hi Hj G8)).
  match type of Q6 with appr _ _ _ ?a ?x => match type of Q8 with appr _ _ _ ?b ?y =>
    assert (Q68 : appr (kc + n + 2) (clo - apar s) (chi + aatoms s + apar s + 1) (Bplus mode_NE a b) (x + y)) end end.
  { apply (appr_add (kc + n + 1) (clo - apar s) (chi + aatoms s + apar s)); auto; try (unfold kc, clo, chi in *; lia). apply fk; unfold kc; lia. }
  unfold e2_atom, renergy. destruct s10 as [[x g10]|].
  - destruct S10 as (Sx & -> & G10).
    assert (Q10 := scaled_acc x _ _ n Sx (Nat.le_refl n) (fun j Hj => c10_acc i j g10 q10 Hi Hj G10)).
    replace (kt + kp + n + 12)%nat with (S (kc + n + 3)) by (unfold kc; lia).
    apply (mhalf_acc (kc + n + 3) (clo - apar s) (chi + aatoms s + apar s + 2)); try (unfold kc, clo, chi in *; lia).
    apply (appr_add (kc + n + 2) (clo - apar s) (chi + aatoms s + apar s + 1)); auto; try (unfold kc, clo, chi in *; lia).
    + apply (appr_weak (kc + n + 1) (clo - apar s) (chi + aatoms s + apar s)); auto; lia.
    + apply fk; unfold kc; lia.
  - rewrite S10. rewrite Rmult_0_l, Rplus_0_r.
    replace (kt + kp + n + 12)%nat with (S (kc + n + 3)) by (unfold kc; lia).
    apply (mhalf_acc (kc + n + 3) (clo - apar s) (chi + aatoms s + apar s + 2)); try (unfold kc, clo, chi in *; lia).
    apply (appr_weak (kc + n + 2) (clo - apar s) (chi + aatoms s + apar s + 1)); auto; lia.
Qed.

Definition rpairv i j : R :=
  B2R s6 * (B2R (c6 i j) * rt q6 i j) + B2R s8 * (B2R (c6 i j) * (3 * B2R (r i) * B2R (r j)) * rt q8 i j) +
  r10 * (B2R (c6 i j) * (3 * B2R (r i) * B2R (r j)) ^ 2 * 49 / 40 * rt q10 i j).
Lemma renergy_pairs i : renergy i = rsum n (rpairv i).
Proof. unfold renergy, rpairv. now rewrite !rsum_plus, !rsum_scal_l. Qed.

Lemma scaled1_acc (x y : F) v : zero_or (- apar s) (apar s) x -> appr kc clo chi y v ->
  appr (kc + 1) (clo - apar s) (chi + apar s) (Bmult mode_NE x y) (B2R x * v).
Proof.
  intros Hx H. fits. pose proof HM.
  apply (appr_mul 0 kc (- apar s) clo (apar s) chi); auto; try (unfold kc, clo, chi in *; lia); [now apply zero_or_appr|apply fk; unfold kc; lia].
Qed.
Theorem e2_mat_acc i j : (i < n)%nat -> (j < n)%nat ->
  within (kt + kp + 12) (Bopp (e2_mat (K := KI) X c num pos c6 (qq (K := KI) r) r cut g6 g8 s6 s8 s10 i j : F)) (rpairv i j).
Proof.
  intros Hi Hj. fits. pose proof HM.
  assert (Q6 := scaled1_acc s6 _ _ S6 (c6_acc i j g6 q6 Hi Hj G6)).
  assert (Q8 := scaled1_acc s8 _ _ S8 (c8_acc i j g8 q8 Hi Hj G8)).
  match type of Q6 with appr _ _ _ ?a ?x => match type of Q8 with appr _ _ _ ?b ?y =>
    assert (Q68 : appr (kc + 2) (clo - apar s) (chi + apar s + 1) (Bplus mode_NE a b) (x + y)) end end.
  { apply (appr_add (kc + 1) (clo - apar s) (chi + apar s)); auto; try (unfold kc, clo, chi in *; lia). apply fk; unfold kc; lia. }
  unfold e2_mat. change (fopp (s := KI)) with (@Bopp prec emax). rewrite Bopp_involutive.
  replace (kt + kp + 12)%nat with (kc + 4)%nat by (unfold kc; lia).
  apply (appr_within (kc + 4) (clo - apar s) (chi + apar s + 2)). unfold e2_mat_pos, rpairv. destruct s10 as [[x g10]|].
  - destruct S10 as (Sx & -> & G10).
    assert (Q10 := scaled1_acc x _ _ Sx (c10_acc i j g10 q10 Hi Hj G10)).
    apply (appr_add (kc + 2) (clo - apar s) (chi + apar s + 1)); auto; try (unfold kc, clo, chi in *; lia).
    + apply (appr_weak (kc + 1) (clo - apar s) (chi + apar s)); auto; lia.
    + apply fk; unfold kc; lia.
  - rewrite S10, Rmult_0_l, Rplus_0_r. apply (appr_weak (kc + 2) (clo - apar s) (chi + apar s + 1)); auto; lia.
Qed.
End E.
End P.

(** at most [2 k 2^-prec] for [k] rounding errors *)
Lemma growth_linear {prec : Z} {Hp : Prec_gt_0 prec} k : (2 * Z.of_nat k <= 2 ^ prec)%Z ->
  growth (prec := prec) k - 1 <= 2 * INR k * bpow radix2 (- prec).
Proof.
  intros H. pose proof (bpow_gt_0 radix2 (- prec)) as P. unfold growth. induction k as [|k IH]; [simpl; lra|].
  assert (Hk : (2 * Z.of_nat k <= 2 ^ prec)%Z) by lia. specialize (IH Hk).
  pose proof (few_2 (prec := prec) k Hk) as W. unfold w in W.
  cbn [pow]. rewrite S_INR. nra.
Qed.

(** number of rounding errors of a pair and of the energy of one of [n] atoms, with [kd] errors of
    the distances and [kp] of each power *)
Definition pair_errors (kd kp : nat) : nat := 10 * Nat.max kd 5 + 2 * kp + 14.
Definition atom_errors (kd kp n : nat) : nat := pair_errors kd kp + n.

Section T.
Context {prec emax : Z} {Hp : Prec_gt_0 prec} {He : Prec_lt_emax prec emax}.
Context {L : Libm prec emax} {L64 : Libm 53 1024}.
Notation N := (IN prec emax L L64).
Notation KI := (IS prec emax L).
Notation F := (binary_float prec emax).
Notation p2 := (bpow radix2).
Context (X : Ext (sc N)).
Context (s : acc_sizes) (kd kp : nat) (Hf : acc_fits (prec := prec) (emax := emax) s) (PA : pow_accurate (L := L) kp).
Context (numbers : tensor Z) (positions : tensor (sc N)) (param : Param (sc N)) (c6 r4r2 : tensor (sc N))
  (rvdw cutoff : option (tensor (sc N))) (n c : nat) (B : list nat) (a1 a2 : F).
Context (Hn : shp numbers = (n :: B)%list) (Hx : shp positions = (c :: n :: B)%list) (Hc : shp c6 = (n :: n :: B)%list)
  (Hr : shp r4r2 = (n :: B)%list) (Hcut : scalar_opt cutoff) (G : good_param param).
Context (E1 : getp param "a1" = Some (a1 : F)) (E2 : getp param "a2" = Some (a2 : F)).
Context (Fc : is_finite (cutoff_float (L := L) (L64 := L64) cutoff) = true).
Context (HG : acc_geometry X s kd (B2R (cutoff_float (L := L) (L64 := L64) cutoff)) numbers positions n c B)
  (H6 : acc_c6 s c6 n B) (H4 : acc_r4r2 r4r2 n B) (HP : acc_param s param).

Let cutf : F := cutoff_float (L := L) (L64 := L64) cutoff.
Let g8 : F -> F -> F := if active (K := sc N) param 8 then rat_g (K := KI) a1 a2 8 else fun _ _ => blit prec emax 0.
Let s10 : option (F * (F -> F -> F)) := match getp param "s10" with Some x => Some (x : F, rat_g (K := KI) a1 a2 10) | None => None end.
Let s6 : F := getd (K := sc N) param "s6" dS6.
Let s8 : F := getd (K := sc N) param "s8" dS8.

Lemma acc_ev (m : bool) :
  ev (dispersion2 X numbers positions param c6 r4r2 rvdw RationalDamping cutoff m)
     (if m then n :: n :: B else n :: B)%list
     (if m
      then ix2 (fun j i b => e2_mat (K := sc N) X c (sl1 numbers b) (sl2 positions b) (sl2 c6 b) (qq (K := sc N) (sl1 r4r2 b)) (sl1 r4r2 b) cutf
                  (rat_g (K := sc N) a1 a2 6) g8 s6 s8 s10 i j)
      else ix1 (fun i b => e2_atom (K := sc N) X n c (sl1 numbers b) (sl2 positions b) (sl2 c6 b) (qq (K := sc N) (sl1 r4r2 b)) (sl1 r4r2 b) cutf
                  (rat_g (K := sc N) a1 a2 6) g8 s6 s8 s10 i)).
Proof.
  apply (dispersion2_ev X numbers positions param c6 r4r2 rvdw RationalDamping cutoff n c B (rat_g (K := sc N) a1 a2 6) g8 s6 s8 cutf s10); auto.
  - left. reflexivity.
  - apply rational_elementwise; auto.
  - unfold g8. destruct (active param 8) eqn:A; [now apply rational_elementwise|exact (inactive_elementwise (K := sc N) RationalDamping param 8 false G A)].
  - apply pget_isnum; auto. discriminate.
  - apply pget_isnum; auto. discriminate.
  - unfold cutf, cutoff_float. destruct cutoff as [t|]; simpl.
    + split; auto. intros i Hi. destruct i; [reflexivity|destruct Hi].
    + split; reflexivity.
  - unfold s10. destruct (getp param "s10") eqn:E.
    + split; [|apply rational_elementwise; auto; unfold active, has; now rewrite E].
      destruct (good_isnum _ "s10" _ G ltac:(discriminate) E) as (p & D & P). eauto.
    + apply (good_none _ "s10" G); auto. discriminate.
Qed.

Lemma par_zero_or k (x : F) : In k ["s6"; "s8"; "s10"; "a1"; "a2"]%string -> getp param k = Some x -> zero_or (- apar s) (apar s) x.
Proof. apply HP. Qed.
Lemma one_ok : B2R (blit prec emax 1) = 1 /\ zero_or (- apar s) (apar s) (blit prec emax 1).
Proof.
  destruct (af_pos _ Hf) as (_ & _ & P & _). destruct (af_prec _ Hf).
  destruct (lit_int (prec := prec) (emax := emax) 1) as (A & C); [lia|..].
  - assert (2 ^ 6 <= 2 ^ prec)%Z by (apply Z.pow_le_mono_r; lia). lia.
  - assert (2 ^ 7 <= 2 ^ (emax - 1))%Z by (apply Z.pow_le_mono_r; lia). lia.
  - change (inject_Z 1) with 1%Q in *. split; [exact C|]. split; [exact A|]. right. rewrite C.
    change 1 with (p2 0). split; apply bpow_le; lia.
Qed.
Lemma s6_ok : B2R s6 = scale (L := L) (L64 := L64) param "s6" 1 /\ zero_or (- apar s) (apar s) s6.
Proof.
  unfold s6, getd, scale. destruct (getp param "s6") as [x|] eqn:E; cbn [default]; [|apply one_ok].
  split; auto. apply (par_zero_or "s6"); auto. simpl; tauto.
Qed.
Lemma s8_ok : zero_or (- apar s) (apar s) s8.
Proof.
  unfold s8, getd. destruct (getp param "s8") as [x|] eqn:E; cbn [default]; [|apply one_ok].
  apply (par_zero_or "s8"); auto. simpl; tauto.
Qed.

Let q8 : R -> R -> R := if active (K := sc N) param 8 then rrat (B2R a1) (B2R a2) 8 else fun _ _ => 0.
Lemma s8_eff x : B2R s8 * (if active (K := sc N) param 8 then x else 0) = scale8 (L := L) (L64 := L64) param * x.
Proof.
  unfold s8, getd, scale8, scale, active, has. destruct (getp param "s8") as [v|]; cbn [orb default]; [reflexivity|].
  change (B2R (flit (s := sc N) dS8 : F)) with (B2R (blit prec emax 1)). rewrite (proj1 one_ok).
  destruct (getp param "rs8"); lra.
Qed.

Lemma rpairv_exact b i j :
  rpairv c (sl1 numbers b) (sl2 positions b) (sl2 c6 b) (sl1 r4r2 b) cutf s6 s8 (rrat (B2R a1) (B2R a2) 6) q8 (rrat (B2R a1) (B2R a2) 10)
    (scale (L := L) (L64 := L64) param "s10" 0) i j
  = - exact_pair numbers positions c6 r4r2 param a1 a2 (B2R cutf) c b i j.
Proof.
  unfold rpairv, exact_pair, rt, rcoord. destruct (real_pair _ _ _ && _); [|lra]. rewrite Ropp_involutive.
  rewrite (proj1 s6_ok). unfold pair_energy.
  set (d := euclid _ _ _). set (v := 3 * B2R (sl1 r4r2 b i : F) * B2R (sl1 r4r2 b j : F)).
  change (a1 : F) with (a1). set (cc := B2R (sl2 c6 b i j : F)).
  replace (B2R s8 * (cc * v * q8 d v)) with ((B2R s8 * (if active (K := sc N) param 8 then rrat (B2R a1) (B2R a2) 8 d v else 0)) * (cc * v)).
  2: { unfold q8. destruct (active param 8); ring. }
  rewrite s8_eff. unfold rrat, rrad. unfold Rdiv. ring.
Qed.


Lemma acc_core : (2 * Z.of_nat (atom_errors kd kp n) <= 2 ^ prec)%Z ->
  (forall b i, valid B b -> (i < n)%nat ->
    within (atom_errors kd kp n) (Bopp (e2_atom (K := sc N) X n c (sl1 numbers b) (sl2 positions b) (sl2 c6 b) (qq (K := sc N) (sl1 r4r2 b)) (sl1 r4r2 b) cutf
                  (rat_g (K := sc N) a1 a2 6) g8 s6 s8 s10 i : F)) (- exact_energy numbers positions c6 r4r2 param a1 a2 (B2R cutf) n c b i)) /\
  (forall b i j, valid B b -> (i < n)%nat -> (j < n)%nat ->
    within (pair_errors kd kp) (Bopp (e2_mat (K := sc N) X c (sl1 numbers b) (sl2 positions b) (sl2 c6 b) (qq (K := sc N) (sl1 r4r2 b)) (sl1 r4r2 b) cutf
                  (rat_g (K := sc N) a1 a2 6) g8 s6 s8 s10 i j : F)) (- exact_pair numbers positions c6 r4r2 param a1 a2 (B2R cutf) c b i j)).
Proof.
  intros HK.
  assert (Kt : (10 * Nat.max kd 5 + kp + 2 + kp + n + 12 = atom_errors kd kp n)%nat) by (unfold atom_errors, pair_errors; lia).
  assert (Kt' : (10 * Nat.max kd 5 + kp + 2 + kp + 12 = pair_errors kd kp)%nat) by (unfold pair_errors; lia).
  destruct HG as (Hnn & HGd).
  assert (GA : forall o, (0 < o <= 10)%nat -> gacc (prec := prec) (emax := emax) s kd kp (rat_g (K := KI) a1 a2 o) (rrat (B2R a1) (B2R a2) o)).
  { intros o Ho d r dr rr Hd Nd Hrr. apply (rat_acc s kd kp Hf PA (atom_errors kd kp n) HK); auto; try lia.
    - apply (par_zero_or "a1"); auto. simpl; tauto.
    - apply (par_zero_or "a2"); auto. simpl; tauto. }
  assert (G8 : gacc (prec := prec) (emax := emax) s kd kp g8 q8).
  { unfold g8, q8. destruct (active param 8); [apply GA; lia|]. intros d r dr rr Hd Nd Hrr. apply appr_0. }
  assert (S10 : match s10 with Some (x, g) => zero_or (- apar s) (apar s) x /\ scale (L := L) (L64 := L64) param "s10" 0 = B2R x
      /\ gacc (prec := prec) (emax := emax) s kd kp g (rrat (B2R a1) (B2R a2) 10) | None => scale (L := L) (L64 := L64) param "s10" 0 = 0 end).
  { unfold s10, scale. destruct (getp param "s10") as [x|] eqn:E; [|reflexivity]. split; [|split; [reflexivity|apply GA; lia]].
    apply (par_zero_or "s10"); auto. simpl; tauto. }
  split.
  - intros b i Hb Hi. rewrite <- Kt.
    replace (- exact_energy numbers positions c6 r4r2 param a1 a2 (B2R cutf) n c b i) with
      (renergy n c (sl1 numbers b) (sl2 positions b) (sl2 c6 b) (sl1 r4r2 b) cutf s6 s8 (rrat (B2R a1) (B2R a2) 6) q8 (rrat (B2R a1) (B2R a2) 10)
        (scale (L := L) (L64 := L64) param "s10" 0) i / 2).
    + apply (e2_atom_acc X s kd kp Hf PA (atom_errors kd kp n) HK); try exact Hi; try exact Hnn; try exact Fc; try exact G8; try exact S10; try lia;
        try solve [apply GA; lia | apply s6_ok | apply s8_ok | intros i' j' Hi' Hj' R'; exact (HGd b i' j' Hb Hi' Hj' R') | intros i' j' Hi' Hj'; exact (H6 b i' j' Hb Hi' Hj') | intros i' Hi'; exact (H4 b i' Hb Hi')].
    + rewrite renergy_pairs. unfold exact_energy, two_body.
      rewrite (rsum_ext n _ (fun j => - exact_pair numbers positions c6 r4r2 param a1 a2 (B2R cutf) c b i j)) by (intros; apply rpairv_exact).
      rewrite rsum_opp. replace (- (- (1 / 2) * _)) with (/ 2 * rsum n (fun j => - exact_pair numbers positions c6 r4r2 param a1 a2 (B2R cutf) c b i j)); [rewrite rsum_opp; lra|].
      replace (- (- (1 / 2) * _)) with (1 / 2 * rsum n (fun j => - exact_pair numbers positions c6 r4r2 param a1 a2 (B2R cutf) c b i j)); [lra|].
      rewrite Ropp_mult_distr_l, Ropp_involutive. f_equal. apply rsum_ext. intros j Hj. unfold exact_pair.
      destruct (real_pair _ _ _ && _); lra.
  - intros b i j Hb Hi Hj. rewrite <- Kt', <- rpairv_exact.
    apply (e2_mat_acc X s kd kp Hf PA (atom_errors kd kp n) HK) with (n := n); try exact Hi; try exact Hj; try exact Hnn; try exact Fc; try exact G8; try exact S10; try lia;
        try solve [apply GA; lia | apply s6_ok | apply s8_ok | intros i' j' Hi' Hj' R'; exact (HGd b i' j' Hb Hi' Hj' R') | intros i' j' Hi' Hj'; exact (H6 b i' j' Hb Hi' Hj') | intros i' Hi'; exact (H4 b i' Hb Hi')].
Qed.

Lemma within_neg k (x : F) v : (0 < k)%nat -> within k (Bopp x) (- v) -> is_finite x = true /\ Rabs (B2R x - v) <= (growth (prec := prec) k - 1) * Rabs v.
Proof.
  intros Hk H. assert (Fx : is_finite x = true) by (destruct H as (A & _); now rewrite is_finite_Bopp in A). split; [exact Fx|].
  assert (P : 0 <= - v).
  { destruct (within_le _ _ _ H) as (A & C). pose proof (wk_le (prec := prec) 1 k Hk) as W. pose proof (bpow_gt_0 radix2 (- prec)) as U.
    change (w (prec := prec) ^ 1 <= growth (prec := prec) k) in W. rewrite pow_1 in W. unfold w in W.
    destruct (Rle_or_lt 0 (- v)) as [Q|Q]; [exact Q|exfalso].
    set (g := growth (prec := prec) k) in *. set (y := B2R (Bopp x)) in *.
    assert (y * g <= - v * g * g) by (apply Rmult_le_compat_r; lra).
    assert (v * (g * g - 1) > 0) by (apply Rmult_gt_0_compat; nra). nra. }
  pose proof (within_error k _ _ P H) as Q. rewrite B2R_Bopp in Q.
  replace (- B2R x - - v) with (- (B2R x - v)) in Q by ring. now rewrite !Rabs_Ropp in Q.
Qed.

(** The computed energies are numbers, and their relative errors are at most that of
    [atom_errors kd kp n] roundings. *)
Theorem C67_energy_accuracy : (2 * Z.of_nat (atom_errors kd kp n) <= 2 ^ prec)%Z ->
  exists t : tensor (sc N), dispersion2 X numbers positions param c6 r4r2 rvdw RationalDamping cutoff false = Ok t /\ shp t = (n :: B)%list /\
    forall b i, valid B b -> (i < n)%nat ->
      let e := exact_energy numbers positions c6 r4r2 param a1 a2 (B2R (cutoff_float (L := L) (L64 := L64) cutoff)) n c b i in
      is_finite (sl1 t b i : F) = true /\
      Rabs (B2R (sl1 t b i : F) - e) <= (growth (prec := prec) (atom_errors kd kp n) - 1) * Rabs e.
Proof.
  intros HK. destruct (acc_ev false) as (t & E & Hs & Hd). exists t. split; [exact E|]. split; [exact Hs|].
  intros b i Hb Hi e. apply within_neg; [unfold atom_errors, pair_errors; lia|]. unfold sl1 at 1. rewrite Hd by (split; auto). now apply acc_core.
Qed.

(** ... and those of the pairs that of [pair_errors kd kp] roundings, whatever the number of atoms. *)
Theorem C67_pair_accuracy : (2 * Z.of_nat (atom_errors kd kp n) <= 2 ^ prec)%Z ->
  exists t : tensor (sc N), dispersion2 X numbers positions param c6 r4r2 rvdw RationalDamping cutoff true = Ok t /\ shp t = (n :: n :: B)%list /\
    forall b i j, valid B b -> (i < n)%nat -> (j < n)%nat ->
      let e := exact_pair numbers positions c6 r4r2 param a1 a2 (B2R (cutoff_float (L := L) (L64 := L64) cutoff)) c b i j in
      is_finite (sl2 t b i j : F) = true /\
      Rabs (B2R (sl2 t b i j : F) - e) <= (growth (prec := prec) (pair_errors kd kp) - 1) * Rabs e.
Proof.
  intros HK. destruct (acc_ev true) as (t & E & Hs & Hd). exists t. split; [exact E|]. split; [exact Hs|].
  intros b i j Hb Hi Hj e. apply within_neg; [unfold pair_errors; lia|]. unfold sl2 at 1. rewrite Hd by (repeat split; auto). now apply acc_core.
Qed.
End T.
Print Assumptions C67_energy_accuracy.
Print Assumptions C67_pair_accuracy.
