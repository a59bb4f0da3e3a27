(** * C80: rounding errors of the three-body term from the weights to the sum over the triples *)
From Coq Require Import Reals Lra Lia ZArith QArith Qreals List Arith Bool String.
From Flocq Require Import Core.Core IEEE754.BinarySingleNaN.
From Verif Require Import CallLemmas Py Tensor Scalar RInst ModelExt ModelUtils ModelDamping ModelModels ModelTerms Spec SpecR SpecCall PropsTables TensorLemmas Closed ClosedTerms ClosedDamp
  EnergyR Energy3R IeeeInst IeeeP IeeeB IeeeA IeeeM IeeeE PropsAcc PropsAcc3 SpecW SpecIeee IeeeW PropsIeee PropsAccW PropsAccZ PropsAccT PropsAccC PropsAccC6 PropsAccE.
Import ListNotations.
Open Scope R_scope.

(** ** The exact formula under small changes of C9 and of the radii *)
Definition ratio (G x y : R) : Prop := y <= x * G /\ x <= y * G.

Lemma ratio_mul G H x y u v : 0 <= x -> 0 <= y -> 0 <= u -> 0 <= v -> 0 <= G -> 0 <= H -> ratio G x y -> ratio H u v -> ratio (G * H) (x * u) (y * v).
Proof.
  intros Px Py Pu Pv PG PH (A & B) (C & D). split.
  - replace (x * u * (G * H)) with ((x * G) * (u * H)) by ring. apply Rmult_le_compat; auto.
  - replace (y * v * (G * H)) with ((y * G) * (v * H)) by ring. apply Rmult_le_compat; auto.
Qed.
Lemma Rpower_ratio x y H p A : 0 < x -> 0 < y -> 1 <= H -> x <= y * H -> 0 <= p <= INR A -> Rpower x p <= Rpower y p * H ^ A.
Proof.
  intros Px Py H1 Hx (P0 & P1). apply Rle_trans with (Rpower (y * H) p); [apply Rle_Rpower_l; auto; split; auto|].
  rewrite <- Rpower_mult_distr by lra. apply Rmult_le_compat_l; [left; apply exp_pos|].
  rewrite <- Rpower_pow by lra. destruct (Req_dec H 1) as [->|Ne]; [unfold Rpower; rewrite ln_1, !Rmult_0_r; lra|].
  apply Rle_Rpower; lra.
Qed.
Lemma damping_ratio x y H p A : 0 < x -> 0 < y -> 1 <= H -> ratio H x y -> 0 <= p <= INR A ->
  ratio (H ^ A) (1 / (1 + 6 * Rpower x p)) (1 / (1 + 6 * Rpower y p)).
Proof.
  intros Px Py H1 (R1 & R2) Hp. pose proof (Rpower_ratio x y H p A Px Py H1 R2 Hp) as U. pose proof (Rpower_ratio y x H p A Py Px H1 R1 Hp) as V.
  pose proof (pow_R1_Rle H A H1) as W. pose proof (exp_pos (p * ln x)) as Ex. pose proof (exp_pos (p * ln y)) as Ey.
  change (exp (p * ln x)) with (Rpower x p) in Ex. change (exp (p * ln y)) with (Rpower y p) in Ey.
  set (P := Rpower x p) in *. set (Q := Rpower y p) in *. set (K := H ^ A) in *.
  assert (Aux : forall P Q, 0 < P -> 0 < Q -> P <= Q * K -> 1 / (1 + 6 * Q) <= 1 / (1 + 6 * P) * K).
  { intros p' q' Hp' Hq' Le. apply Rmult_le_reg_r with ((1 + 6 * q') * (1 + 6 * p')); [apply Rmult_lt_0_compat; lra|].
    replace (1 / (1 + 6 * q') * ((1 + 6 * q') * (1 + 6 * p'))) with (1 + 6 * p') by (field; lra).
    replace (1 / (1 + 6 * p') * K * ((1 + 6 * q') * (1 + 6 * p'))) with (K + 6 * (q' * K)) by (field; lra). lra. }
  split; auto.
Qed.

Lemma triple_bound c (xi xj xk : nat -> R) c9 rij rik rjk s9 alp :
  0 < euclid c xi xj -> 0 < euclid c xi xk -> 0 < euclid c xj xk ->
  Rabs (triple_energy c xi xj xk c9 rij rik rjk s9 alp) <= triple_size c xi xj xk c9 rij rik rjk s9 alp.
Proof.
  intros Px Py Pz. destruct (energy_form c xi xj xk c9 rij rik rjk s9 alp Px Py Pz) as (-> & ->).
  set (x := euclid c xi xj) in *. set (y := euclid c xi xk) in *. set (z := euclid c xj xk) in *.
  assert (Pr : 0 < x * y * z) by (apply Rmult_lt_0_compat; [apply Rmult_lt_0_compat|]; auto). set (r := x * y * z) in *.
  pose proof (exp_pos (alp / 3 * ln (rij * rik * rjk / r))) as PP. change (exp (alp / 3 * ln (rij * rik * rjk / r))) with (Rpower (rij * rik * rjk / r) (alp / 3)) in PP.
  set (P := Rpower _ _) in *. rewrite !Rabs_mult. apply Rmult_le_compat_r; [apply Rabs_pos|]. apply Rmult_le_compat_r; [apply Rabs_pos|].
  assert (D : 0 < 1 / (1 + 6 * P)) by (apply Rdiv_lt_0_compat; lra). rewrite (Rabs_pos_eq (1 / _)) by lra. apply Rmult_le_compat_r; [lra|].
  assert (R5 : 0 < r ^ 2 * (r * r ^ 2)) by (repeat apply Rmult_lt_0_compat; try lra; apply pow_lt; auto).
  assert (R3 : 0 < 1 / (r * r ^ 2)) by (apply Rdiv_lt_0_compat; [lra|apply Rmult_lt_0_compat; [auto|apply pow_lt; auto]]).
  apply Rle_trans with (1 := Rabs_triang _ _). rewrite (Rabs_pos_eq (1 / _)) by lra. apply Rplus_le_compat_r. unfold Rdiv. rewrite !Rabs_mult.
  rewrite (Rabs_pos_eq (/ (r ^ 2 * _))) by (left; now apply Rinv_0_lt_compat). apply Rmult_le_compat_r; [left; now apply Rinv_0_lt_compat|].
  rewrite (Rabs_pos_eq 3), (Rabs_pos_eq (/ 8)) by lra. apply Rmult_le_compat_l; [lra|].
  pose proof (pow2_ge_0 x). pose proof (pow2_ge_0 y). pose proof (pow2_ge_0 z).
  apply Rmult_le_compat; try apply Rabs_pos; [apply Rmult_le_pos; apply Rabs_pos| |apply Rabs_le; lra].
  apply Rmult_le_compat; try apply Rabs_pos; apply Rabs_le; lra.
Qed.

Lemma triple_change c (xi xj xk : nat -> R) c9 c9' rij rij' rik rik' rjk rjk' s9 alp G H A :
  0 < euclid c xi xj -> 0 < euclid c xi xk -> 0 < euclid c xj xk -> 0 < c9 -> 0 < c9' -> 1 <= G -> 1 <= H ->
  0 < rij -> 0 < rij' -> 0 < rik -> 0 < rik' -> 0 < rjk -> 0 < rjk' ->
  ratio G c9 c9' -> ratio H rij rij' -> ratio H rik rik' -> ratio H rjk rjk' -> 0 <= alp / 3 <= INR A ->
  let K := G * (H * H * H) ^ A in let S := triple_size c xi xj xk c9 rij rik rjk s9 alp in
  Rabs (triple_energy c xi xj xk c9' rij' rik' rjk' s9 alp - triple_energy c xi xj xk c9 rij rik rjk s9 alp) <= (K - 1) * S /\
  triple_size c xi xj xk c9' rij' rik' rjk' s9 alp <= K * S.
Proof.
  intros Px Py Pz P9 P9' G1 H1 P1 P1' P2 P2' P3 P3' R9 R1 R2 R3 Ha K S.
  pose proof (triple_bound c xi xj xk c9 rij rik rjk s9 alp Px Py Pz) as TB. fold S in TB.
  unfold S in *. clear S.
  destruct (energy_form c xi xj xk c9 rij rik rjk s9 alp Px Py Pz) as (E1 & E2).
  destruct (energy_form c xi xj xk c9' rij' rik' rjk' s9 alp Px Py Pz) as (E3 & E4).
  set (T := triple_energy c xi xj xk c9 rij rik rjk s9 alp) in *. set (S := triple_size c xi xj xk c9 rij rik rjk s9 alp) in *.
  set (T' := triple_energy c xi xj xk c9' _ _ _ _ _) in *. set (S' := triple_size c xi xj xk c9' _ _ _ _ _) in *.
  set (x := euclid c xi xj) in *. set (y := euclid c xi xk) in *. set (z := euclid c xj xk) in *.
  assert (Pr : 0 < x * y * z) by (apply Rmult_lt_0_compat; [apply Rmult_lt_0_compat|]; auto). set (r := x * y * z) in *.
  assert (Q : 0 < rij * rik * rjk / r) by (apply Rdiv_lt_0_compat; auto; repeat apply Rmult_lt_0_compat; auto).
  assert (Q' : 0 < rij' * rik' * rjk' / r) by (apply Rdiv_lt_0_compat; auto; repeat apply Rmult_lt_0_compat; auto).
  assert (HH : 1 <= H * H * H) by nra.
  assert (RQ : ratio (H * H * H) (rij * rik * rjk / r) (rij' * rik' * rjk' / r)).
  { assert (RR : ratio (H * H * H) (rij * rik * rjk) (rij' * rik' * rjk')).
    { apply ratio_mul; try lra; try (apply Rmult_le_pos; lra); auto. apply ratio_mul; auto; lra. }
    destruct RR as (U & V). unfold Rdiv. assert (0 < / r) by now apply Rinv_0_lt_compat.
    split; [replace (rij * rik * rjk * / r * (H * H * H)) with (rij * rik * rjk * (H * H * H) * / r) by ring|
            replace (rij' * rik' * rjk' * / r * (H * H * H)) with (rij' * rik' * rjk' * (H * H * H) * / r) by ring]; apply Rmult_le_compat_r; lra. }
  pose proof (damping_ratio _ _ _ _ A Q Q' HH RQ Ha) as RD.
  pose proof (exp_pos (alp / 3 * ln (rij * rik * rjk / r))) as PP. change (exp (alp / 3 * ln (rij * rik * rjk / r))) with (Rpower (rij * rik * rjk / r) (alp / 3)) in PP.
  pose proof (exp_pos (alp / 3 * ln (rij' * rik' * rjk' / r))) as PP'. change (exp (alp / 3 * ln (rij' * rik' * rjk' / r))) with (Rpower (rij' * rik' * rjk' / r) (alp / 3)) in PP'.
  set (P := Rpower (rij * rik * rjk / r) (alp / 3)) in *. set (P' := Rpower (rij' * rik' * rjk' / r) (alp / 3)) in *.
  assert (D : 0 < 1 / (1 + 6 * P)) by (apply Rdiv_lt_0_compat; lra). assert (D' : 0 < 1 / (1 + 6 * P')) by (apply Rdiv_lt_0_compat; lra).
  set (f := 1 / (1 + 6 * P)) in *. set (f' := 1 / (1 + 6 * P')) in *.
  assert (K1 : 1 <= (H * H * H) ^ A) by (apply pow_R1_Rle; lra).
  assert (RK : ratio K (c9 * f) (c9' * f')) by (unfold K; apply ratio_mul; try lra; auto).
  assert (PK : 1 <= K) by (unfold K; nra).
  assert (Pf : 0 < c9 * f) by now apply Rmult_lt_0_compat.
  set (th := (c9' * f') / (c9 * f)).
  assert (Eth : c9' * f' = th * (c9 * f)) by (unfold th; field; lra).
  destruct RK as (U & V). assert (T1 : th <= K) by (apply Rmult_le_reg_r with (c9 * f); [auto|rewrite <- Eth; lra]).
  assert (T2 : 1 <= th * K) by (apply Rmult_le_reg_r with (c9 * f); [auto|]; replace (th * K * (c9 * f)) with (th * (c9 * f) * K) by ring; rewrite <- Eth; lra).
  assert (ET : T' = th * T) by (rewrite E3, E1; match goal with |- ?a * f' * s9 * c9' = th * (?a * f * s9 * c9) => replace (a * f' * s9 * c9') with (a * s9 * (c9' * f')) by ring; rewrite Eth; ring end).
  assert (ES : S' = th * S) by (rewrite E4, E2, (Rabs_pos_eq c9), (Rabs_pos_eq c9') by lra;
    match goal with |- ?a * f' * ?b * c9' = th * (?a * f * ?b * c9) => replace (a * f' * b * c9') with (a * b * (c9' * f')) by ring; rewrite Eth; ring end).
  assert (S0 : 0 <= S) by (pose proof (Rabs_pos T); lra).
  rewrite ES, ET. split; [|apply Rmult_le_compat_r; auto].
  replace (th * T - T) with ((th - 1) * T) by ring. rewrite Rabs_mult.
  apply Rmult_le_compat; try apply Rabs_pos; auto. apply Rabs_le. split; [|lra].
  assert (0 < th) by (apply Rmult_lt_reg_r with K; lra). nra.
Qed.

Lemma rsum_tri n f g : (forall k, (k < n)%nat -> Rabs (f k) <= g k) -> Rabs (rsum n f) <= rsum n g.
Proof.
  induction n as [|n IH]; intros H; cbn [rsum]; [rewrite Rabs_R0; lra|].
  apply Rle_trans with (1 := Rabs_triang _ _). apply Rplus_le_compat; [apply IH; intros; apply H; lia|apply H; lia].
Qed.

Section T.
Context {prec emax : Z} {Hp : Prec_gt_0 prec} {He : Prec_lt_emax prec emax}.
Context {L : Libm prec emax} {L64 : Libm 53 1024}.
Notation N := (IN prec emax L L64).
Notation F := (binary_float prec emax).
Notation T := (tensor (sc N)).
Notation p2 := (bpow radix2).
Notation gw := (growth (prec := prec)).
Context (X : Ext (sc N)).

(** what is required of the square root of [tad_mctc.storch]: accurate from [2^-dl] on (it clamps
    small arguments); at zero a number of a size from [2^lo] to [2^hi], or zero *)
Record sqrt_accurate (ks : nat) (dl lo hi : Z) : Prop := {
  sa_acc : forall x : F, is_finite x = true -> p2 (- dl) <= B2R x <= p2 (emax - 1) -> within ks (x_sqrt X x : F) (sqrt (B2R x));
  sa_low : forall x : F, is_finite x = true -> B2R x = 0 -> signed_or lo hi (x_sqrt X x : F) }.

(** the exact C9 coefficient and radius *)
Definition exact_c9 (kind : mkind) (kw : mkwargs N) (numbers : tensor Z) (cn q : option T) (b : list nat) (i j k : nat) : R :=
  let c6 := exact_c6 X kind kw numbers cn q b in sqrt (Rabs (c6 i j * c6 i k * c6 j k)).
Definition exact_radius (r4r2 : T) (a1 a2 : F) (b : list nat) (i j : nat) : R :=
  B2R a1 * sqrt (3 * B2R (sl1 r4r2 b i : F) * B2R (sl1 r4r2 b j : F)) + B2R a2.
(** the sum over the triples of atom [i] *)
Definition atm_sum (f : nat -> (nat -> R) -> (nat -> R) -> (nat -> R) -> R -> R -> R -> R -> R -> R -> R)
  (numbers : tensor Z) (positions : T) (b : list nat) (c9 : nat -> nat -> nat -> R) (rad : nat -> nat -> R) (s9 alp cut : R) (n c i : nat) : R :=
  1 / 6 * rsum n (fun j => rsum n (fun k =>
    if real_triple (sl1 numbers b) i j k
       && rleb (euclid c (rcoord positions b i) (rcoord positions b j)) cut
       && rleb (euclid c (rcoord positions b j) (rcoord positions b k)) cut
    then f c (rcoord positions b i) (rcoord positions b j) (rcoord positions b k) (c9 i j k) (rad i j) (rad i k) (rad j k) s9 alp
    else 0)).

Lemma Rsqrt_ratio a b g : 0 <= a -> 0 <= b -> 0 <= g -> a <= b * (g * g) -> sqrt a <= sqrt b * g.
Proof.
  intros Pa Pb Pg H. rewrite <- (sqrt_square g) by exact Pg. rewrite <- sqrt_mult by (auto; now apply Rmult_le_pos).
  apply sqrt_le_1; auto. apply Rmult_le_pos; auto. now apply Rmult_le_pos.
Qed.
Lemma sqrt_p2 e : sqrt (p2 (2 * e)) = p2 e.
Proof. replace (2 * e)%Z with (e + e)%Z by ring. rewrite bpow_plus. apply sqrt_square, bpow_ge_0. Qed.

Section R.
Context (Hpp : (24 <= prec)%Z) (Hee : (128 <= emax)%Z).
Context (ks : nat) (dl lo hi : Z) (SA : sqrt_accurate ks dl lo hi) (HK : few (prec := prec) (ks + 3)).

Lemma gw_ge1 k : 1 <= gw k.
Proof. apply (wk_ge1 (prec := prec)). Qed.
Lemma gw_split i j : gw (i + j) = gw i * gw j.
Proof. apply Rpow_split. Qed.
Lemma gw_2 k : (k <= ks + 3)%nat -> gw k <= 2.
Proof. intros H. apply (few_2 (prec := prec)). now apply (few_le _ (ks + 3)). Qed.

(** square root of an approximate number: one error for each two of the argument *)
Lemma xsqrt_acc (x : F) r l h : appr 2 l h x r -> r <> 0 -> (1 - dl <= l)%Z -> (h + 2 <= emax)%Z ->
  within (ks + 1) (x_sqrt X x : F) (sqrt r).
Proof.
  intros A Nz Hl Hh. pose proof (appr_nonneg _ _ _ _ _ A) as Pr. pose proof (appr_pos _ _ _ _ _ A) as Px. destruct A as [Fx Rg G U].
  destruct Rg as [->|(R1 & R2)]; [congruence|]. pose proof (gw_2 2 ltac:(lia)) as W2. change (w (prec := prec) ^ 2) with (gw 2) in *.
  pose proof (gw_ge1 1) as W1. assert (E2 : gw 2 = gw 1 * gw 1) by (apply (gw_split 1 1)).
  pose proof (bpow_gt_0 radix2 l) as Pl.
  assert (Q1 : p2 (- dl) <= B2R x).
  { apply Rle_trans with (p2 (l - 1)); [apply bpow_le; lia|]. unfold Zminus. rewrite bpow_plus. change (p2 (- (1))) with (/ 2).
    assert (B2R x * gw 2 <= B2R x * 2) by (apply Rmult_le_compat_l; lra). lra. }
  assert (Q2 : B2R x <= p2 (emax - 1)).
  { apply Rle_trans with (p2 (h + 1)); [|apply bpow_le; lia]. rewrite bpow_plus. change (p2 1) with 2.
    assert (r * gw 2 <= r * 2) by (apply Rmult_le_compat_l; lra). lra. }
  pose proof (sa_acc _ _ _ _ SA x Fx (conj Q1 Q2)) as Wi. destruct (within_le _ _ _ Wi) as (A & B).
  rewrite E2 in G, U. apply Rsqrt_ratio in G; try lra. apply Rsqrt_ratio in U; try lra.
  assert (Pk : 0 < gw ks) by (pose proof (gw_ge1 ks); lra).
  split; [apply Wi|]. rewrite gw_split. assert (Pg : 0 < gw ks * gw 1) by (apply Rmult_lt_0_compat; lra). split.
  - apply Rmult_le_reg_r with (gw ks * gw 1); [exact Pg|]. unfold Rdiv. rewrite Rmult_assoc, Rinv_l, Rmult_1_r by lra.
    apply Rle_trans with (1 := G). rewrite <- Rmult_assoc. apply Rmult_le_compat_r; lra.
  - apply Rle_trans with (1 := B). replace (sqrt r * (gw ks * gw 1)) with (sqrt r * gw 1 * gw ks) by ring. apply Rmult_le_compat_r; lra.
Qed.

Lemma radius_acc (ap : Z) (ri rj a1 a2 : F) : (0 <= ap)%Z -> (ap + 10 < emax)%Z -> (0 <= dl)%Z ->
  zero_or (- ap) ap a1 -> zero_or (- ap) ap a2 ->
  is_finite ri = true -> p2 0 <= B2R ri <= p2 5 -> is_finite rj = true -> p2 0 <= B2R rj <= p2 5 ->
  within (ks + 3) (fadd (s := sc N) (fmul (s := sc N) a1 (x_sqrt X (fmul (s := sc N) (fmul (s := sc N) (flit 3) ri) rj))) a2 : F)
    (B2R a1 * sqrt (3 * B2R ri * B2R rj) + B2R a2).
Proof.
  intros H0 H1 Hdl (F1 & Z1) (F2 & Z2) Fi Ri Fj Rj.
  destruct (lit_int (prec := prec) (emax := emax) 3) as (F3 & V3); [lia|..].
  { apply Z.le_trans with (2 ^ 2)%Z; [lia|]. apply Z.pow_le_mono_r; lia. }
  { apply Z.lt_le_trans with (2 ^ 2)%Z; [lia|]. apply Z.pow_le_mono_r; lia. }
  assert (A3 : appr 0 1 2 (blit prec emax 3) 3).
  { rewrite <- V3. apply appr_exact; [exact F3|]. right. change (blit prec emax 3) with (blit prec emax (inject_Z 3)). rewrite V3. simpl. lra. }
  assert (HF : forall k, (k <= ks + 3)%nat -> few (prec := prec) k) by (intros k Hk; now apply (few_le _ (ks + 3))).
  assert (Ai := appr_exact 0 5 ri Fi (or_intror Ri)). assert (Aj := appr_exact 0 5 rj Fj (or_intror Rj)).
  assert (M1 : appr 1 1 7 (Bmult mode_NE (blit prec emax 3) ri) (3 * B2R ri)).
  { apply (appr_mul 0 0 1 0 2 5); auto; try lia. apply HF; lia. }
  assert (M2 : appr 2 1 12 (Bmult mode_NE (Bmult mode_NE (blit prec emax 3) ri) rj) (3 * B2R ri * B2R rj)).
  { apply (appr_mul 1 0 1 0 7 5); auto; try lia. apply HF; lia. }
  assert (Rq : p2 1 <= 3 * B2R ri * B2R rj <= p2 12).
  { simpl in Ri, Rj |- *. split; [|apply Rle_trans with (3 * 32 * 32); [apply Rmult_le_compat; lra|lra]].
    apply Rle_trans with (3 * 1 * 1); [lra|]. apply Rmult_le_compat; lra. }
  pose proof (bpow_gt_0 radix2 1).
  pose proof (xsqrt_acc _ _ _ _ M2 ltac:(lra) ltac:(lia) ltac:(lia)) as S.
  assert (S' : appr (ks + 1) 0 6 (x_sqrt X (Bmult mode_NE (Bmult mode_NE (blit prec emax 3) ri) rj : sc N) : F) (sqrt (3 * B2R ri * B2R rj))).
  { apply within_appr; [exact S|]. right. rewrite <- (sqrt_p2 0), <- (sqrt_p2 6). split; apply sqrt_le_1; try apply bpow_ge_0; try lra.
    apply Rle_trans with (2 := proj1 Rq). apply bpow_le. lia. apply Rle_trans with (2 := proj2 Rq); lra. }
  apply (appr_within _ (- ap) (7 + ap)).
  apply (appr_add (ks + 2) (- ap) (6 + ap)); auto; try lia.
  - apply (appr_mul 0 (ks + 1) (- ap) 0 ap 6); try lia; [now apply appr_exact|exact S'|apply HF; lia].
  - apply (appr_weak 0 (- ap) ap); try lia. now apply appr_exact.
Qed.

(** a product of three coefficients, and the root of its magnitude *)
Lemma c9_acc (a b : Z) (u v t : F) : (0 <= a)%Z -> (0 <= b)%Z -> (3 * a + 3 <= emax)%Z -> (3 * b + 2 < emax)%Z -> (3 * a + 1 <= dl)%Z ->
  (3 * a + 3 <= - (2 * lo))%Z -> (3 * b + 3 <= 2 * hi)%Z ->
  zero_or (- a) b u -> zero_or (- a) b v -> zero_or (- a) b t ->
  let x : F := x_sqrt X (fabs (s := sc N) (fmul (s := sc N) (fmul (s := sc N) u v) t)) in
  signed_or lo hi x /\ (B2R u <> 0 -> B2R v <> 0 -> B2R t <> 0 -> 0 < B2R x /\ within (ks + 1) x (sqrt (B2R u * B2R v * B2R t))).
Proof.
  intros Ha Hb E1 E2 Hdl El Eh (Fu & Zu) (Fv & Zv) (Ft & Zt) x.
  assert (HF : forall k, (k <= ks + 3)%nat -> few (prec := prec) k) by (intros k Hk; now apply (few_le _ (ks + 3))).
  assert (Au := appr_exact (- a) b u Fu Zu). assert (Av := appr_exact (- a) b v Fv Zv). assert (At := appr_exact (- a) b t Ft Zt).
  assert (M1 : appr 1 (- (2 * a)) (2 * b) (Bmult mode_NE u v) (B2R u * B2R v)).
  { apply (appr_mul 0 0 (- a) (- a) b b); auto; try lia. apply HF; lia. }
  assert (M2 : appr 2 (- (3 * a)) (3 * b) (Bmult mode_NE (Bmult mode_NE u v) t) (B2R u * B2R v * B2R t)).
  { apply (appr_mul 1 0 (- (2 * a)) (- a) (2 * b) b); auto; try lia. apply HF; lia. }
  set (P := B2R u * B2R v * B2R t) in *. pose proof (appr_pos _ _ _ _ _ M2) as Pp.
  assert (M3 : appr 2 (- (3 * a)) (3 * b) (Babs (Bmult mode_NE (Bmult mode_NE u v) t)) P).
  { destruct M2 as [A1 A2 A3 A4]. split; [now rewrite is_finite_Babs|exact A2|..]; rewrite B2R_Babs, Rabs_pos_eq; auto. }
  change (Babs (Bmult mode_NE (Bmult mode_NE u v) t)) with (fabs (s := sc N) (fmul (s := sc N) (fmul (s := sc N) u v) t)) in M3.
  set (y := fabs (s := sc N) _) in *. fold x. change (x_sqrt X y) with x.
  destruct (Req_dec P 0) as [P0|P0].
  - split.
    + rewrite P0 in M3. pose proof (appr_zero _ _ _ _ M3) as Y0. apply (sa_low _ _ _ _ SA y); [apply M3|exact Y0].
    + intros Nu Nv Nt. exfalso. apply Rmult_integral in P0. destruct P0 as [P0|P0]; [apply Rmult_integral in P0; tauto|tauto].
  - pose proof (xsqrt_acc y P _ _ M3 P0 ltac:(lia) ltac:(lia)) as Wi. change (x_sqrt X y) with x in Wi.
    destruct (within_le _ _ _ Wi) as (A & B). destruct M3 as [_ [R|(R1 & R2)] _ _]; [congruence|].
    pose proof (gw_2 (ks + 1) ltac:(lia)) as W2. pose proof (gw_ge1 (ks + 1)) as W1.
    assert (S1 : p2 (lo + 1) <= sqrt P).
    { rewrite <- sqrt_p2. apply sqrt_le_1; [apply bpow_ge_0|pose proof (bpow_gt_0 radix2 (- (3 * a))); lra|]. apply Rle_trans with (2 := R1). apply bpow_le. lia. }
    assert (S2 : sqrt P <= p2 (hi - 1)).
    { rewrite <- sqrt_p2. apply sqrt_le_1; [pose proof (bpow_gt_0 radix2 (- (3 * a))); lra|apply bpow_ge_0|]. apply Rle_trans with (1 := R2). apply bpow_le. lia. }
    assert (Q1 : p2 (lo + 1) = p2 lo * 2) by (rewrite bpow_plus; reflexivity).
    assert (Q2 : p2 hi = p2 (hi - 1) * 2) by (replace hi with (hi - 1 + 1)%Z at 1 by ring; rewrite bpow_plus; reflexivity).
    pose proof (bpow_gt_0 radix2 lo) as Pl.
    assert (Px : 0 < B2R x) by (apply Rmult_lt_reg_r with (gw (ks + 1)); lra).
    assert (B2R x * gw (ks + 1) <= B2R x * 2) by (apply Rmult_le_compat_l; lra).
    assert (sqrt P * gw (ks + 1) <= sqrt P * 2) by (apply Rmult_le_compat_l; lra).
    split; [|intros; split; auto]. split; [apply Wi|]. right. rewrite Rabs_pos_eq by lra. lra.
Qed.
End R.

Lemma close_ratio d x y : 0 <= d <= 1 / 2 -> 0 <= x -> Rabs (y - x) <= d * x -> ratio (1 + 2 * d) x y.
Proof.
  intros (D0 & D1) Px H. apply Rabs_le_inv in H. assert (0 <= d * x) by now apply Rmult_le_pos. assert (d * x <= 1 / 2 * x) by (apply Rmult_le_compat_r; lra).
  split; [lra|]. assert (Y : (1 - d) * x <= y) by lra.
  apply Rle_trans with ((1 - d) * x * (1 + 2 * d)); [|apply Rmult_le_compat_r; lra].
  replace ((1 - d) * x * (1 + 2 * d)) with (x + (1 - 2 * d) * (d * x)) by ring.
  assert (0 <= (1 - 2 * d) * (d * x)) by (apply Rmult_le_pos; lra). lra.
Qed.

(** the total change of the exact size and energy of a triple *)
Definition atm_change (ks A : nat) (d : R) : R := gw (ks + 1) * (1 + 2 * d) ^ 2 * (gw (ks + 3) * gw (ks + 3) * gw (ks + 3)) ^ A.

(** The energies returned by the three-body term of D4 with zero damping, for given coordination numbers and
    charges: they are numbers, and their errors are bounded by those of [atm_errors] roundings and by the change
    of the formula under the errors of C9 and of the radii, relative to the sum of the sizes of the triples. *)
Theorem C80_atm_term_accuracy (s0 : acc_sizes) (s : tri_sizes) kd kr3 kv ks dl A3 kind kw numbers n c B (m : Model N) (positions cn : T) (q : option T) (cdep : bool)
  (param : Param (sc N)) (r4r2 rvdw : T) (cutoff : Cutoff (sc N)) ke ke64 kr kp A D E Er A1 A2 k64 S1 S2 J zc lw Jc :
  (24 <= prec <= 53)%Z -> (128 <= emax <= 1024)%Z ->
  libm_nonneg L64 -> exp_accurate L ke -> exp_accurate L64 ke64 -> rpow_accurate (L := L64) kr -> pow_accurate (L := L64) kp ->
  rpow_accurate (L := L) kr3 -> div_accurate X kv -> sqrt_accurate ks dl (- tc9min s) (tc9max s) ->
  built X kind kw numbers n B m -> shp cn = n :: B -> opt_shape q (n :: B) -> shp positions = c :: n :: B -> shp r4r2 = n :: B ->
  shp (c_disp3 cutoff) = [] -> is_finite (dat (c_disp3 cutoff) [] : F) = true -> good_param param ->
  let a1 : F := getd param "a1" dA1 in let a2 : F := getd param "a2" dA2 in let s9 : F := getd param "s9" dS9 in let alp : F := getd param "alp" dALP in
  let cut : R := B2R (dat (c_disp3 cutoff) [] : F) in
  let mm := Z.to_nat (Z.max (tplo s) (tphi s)) in
  (* sizes *)
  tri_fits (prec := prec) (emax := emax) s -> p2 (- tnear s) <= cut <= p2 (tall s) ->
  (0 <= ac6min s0 /\ 0 <= ac6max s0 /\ 3 * ac6min s0 + 3 <= emax /\ 3 * ac6max s0 + 2 < emax /\ 3 * ac6min s0 + 1 <= dl /\
   3 * ac6min s0 + 3 <= 2 * tc9min s /\ 3 * ac6max s0 + 3 <= 2 * tc9max s /\ 0 <= apar s0 /\ apar s0 + 10 < emax)%Z ->
  (2 * Z.of_nat (atm_errors kd kr3 kv A3 mm n) <= 2 ^ prec)%Z -> (2 * Z.of_nat (ks + 3) <= 2 ^ prec)%Z ->
  tri_geometry X s kd kr3 cut numbers positions n c B -> signed_or (- ts9 s) (ts9 s) s9 -> tri_alp s A3 alp ->
  zero_or (- apar s0) (apar s0) a1 -> zero_or (- apar s0) (apar s0) a2 ->
  (forall b i j, valid B b -> (i < n)%nat -> (j < n)%nat -> real_pair (sl1 numbers b) i j = true ->
     is_finite (sl1 r4r2 b i : F) = true /\ p2 0 <= B2R (sl1 r4r2 b i : F) <= p2 5 /\
     is_finite (sl1 r4r2 b j : F) = true /\ p2 0 <= B2R (sl1 r4r2 b j : F) <= p2 5 /\
     p2 (trlo s + 1) <= exact_radius r4r2 a1 a2 b i j <= p2 (trhi s - 1)) ->
  let qe : option T := if cdep then q else None in
  let kc := c6_errors ke S1 S2 J (weight_errors ke A1 A2 k64 Er) in
  weights_fit (prec := prec) (emax := emax) kind ke ke64 kr kp A D E Er A1 A2 k64 -> c6_fit kw ke S1 S2 J A2 (weight_errors ke A1 A2 k64 Er) zc lw ->
  0 <= Jc -> (gw kc - 1) * Jc <= 1 / 2 ->
  (forall b i j, valid B b -> (i < n)%nat -> (j < n)%nat ->
     atom_domain X kind kw numbers (Some cn) qe b i j A D E Er A1 A2 S1 S2 J /\ c6_condition X kind kw numbers (Some cn) qe b i j s0 lw Jc /\
     (real_pair (sl1 numbers b) i j = true -> exact_c6 X kind kw numbers (Some cn) qe b i j <> 0)) ->
  exists t, term_calculate X (mkTerm D4ATMApprox (ZeroDamping X) cdep) numbers positions param cn m q r4r2 rvdw cutoff = Ok t /\ shp t = n :: B /\
    forall b i, valid B b -> (i < n)%nat ->
      let c9 := exact_c9 kind kw numbers (Some cn) qe b in let rad := exact_radius r4r2 a1 a2 b in
      let e := atm_sum triple_energy numbers positions b c9 rad (B2R s9) (B2R alp) cut n c i in
      let size := atm_sum triple_size numbers positions b c9 rad (B2R s9) (B2R alp) cut n c i in
      is_finite (sl1 t b i : F) = true /\ Rabs e <= size /\
      Rabs (B2R (sl1 t b i : F) - e) <= (gw (atm_errors kd kr3 kv A3 mm n) * atm_change ks A3 ((gw kc - 1) * Jc) - 1) * size.
Proof.
  intros Hpp Hee HL EA EA64 RA PA RA3 DA SA HB Hcn Hq Hx Hr Hcs Hcf G a1 a2 s9 alp cut mm Hf Rc (Z1 & Z2 & Z3 & Z4 & Z5 & Z6 & Z7 & Z8 & Z9) HK HKs HG H9 Halp Ha1 Ha2 HR qe kc WF CF HJ0 HJ HD.
  assert (Hqe : opt_shape qe (n :: B)) by (unfold qe; destruct cdep; [exact Hq|exact Logic.I]).
  destruct (c6_close X s0 kind kw numbers n B m cn qe ke ke64 kr kp A D E Er A1 A2 k64 S1 S2 J zc lw Jc Hpp Hee HL EA EA64 RA PA HB Hcn Hqe WF CF HJ0 HJ
    (fun b i j Hb Hi Hj => conj (proj1 (HD b i j Hb Hi Hj)) (proj1 (proj2 (HD b i j Hb Hi Hj))))) as (D1 & gwt & c6 & Ew & E6 & S6 & AC & C).
  fold kc in D1, C. set (d := (gw kc - 1) * Jc) in *.
  destruct (c9_approx_ev X c6 n B _ (ten_eq c6 _ S6)) as (c9 & E9 & S9 & V9).
  destruct (radii_bj_ev X param r4r2 n B a1 a2 Hr) as (rd & Erd & Srd & Vrd).
  { apply (pget_isnum param "a1" dA1 G); discriminate. }
  { apply (pget_isnum param "a2" dA2 G); discriminate. }
  assert (Hrd : forall b i j, valid B b -> (i < n)%nat -> (j < n)%nat -> real_pair (sl1 numbers b) i j = true ->
    within (ks + 3) (sl2 rd b i j : F) (exact_radius r4r2 a1 a2 b i j)).
  { intros b i j Hb Hi Hj Rp. destruct (HR b i j Hb Hi Hj Rp) as (F1 & R1 & F2 & R2 & _).
    unfold sl2. rewrite Vrd by (repeat apply valid_cons; auto). apply (radius_acc ltac:(lia) ltac:(lia) ks dl _ _ SA HKs (apar s0)); auto; lia. }
  assert (H9c : forall b i j k, valid B b -> (i < n)%nat -> (j < n)%nat -> (k < n)%nat -> let x := (sl3 c9 b i j k : F) in
    let u := B2R (sl2 c6 b i j : F) in let v := B2R (sl2 c6 b i k : F) in let t := B2R (sl2 c6 b j k : F) in
    signed_or (- tc9min s) (tc9max s) x /\ (u <> 0 -> v <> 0 -> t <> 0 -> 0 < B2R x /\ within (ks + 1) x (sqrt (u * v * t)))).
  { intros b i j k Hb Hi Hj Hk. unfold sl3. rewrite V9 by (repeat apply valid_cons; auto).
    apply (c9_acc ltac:(lia) ks dl _ _ SA HKs (ac6min s0) (ac6max s0)); try lia; apply AC; auto. }
  assert (TR : tri_radii s numbers rd n B).
  { intros b i j Hb Hi Hj Rp. pose proof (Hrd b i j Hb Hi Hj Rp) as Wi. destruct (HR b i j Hb Hi Hj Rp) as (_ & _ & _ & _ & R1 & R2).
    destruct (within_le _ _ _ Wi) as (U & V). split; [apply Wi|]. pose proof (few_2 (prec := prec) (ks + 3) HKs) as W2.
    change (w (prec := prec) ^ (ks + 3)) with (gw (ks + 3)) in W2. pose proof (gw_ge1 (ks + 3)) as W1.
    set (r := exact_radius r4r2 a1 a2 b i j) in *. set (f := B2R (sl2 rd b i j : F)) in *.
    assert (Q1 : p2 (trlo s + 1) = p2 (trlo s) * 2) by (rewrite bpow_plus; reflexivity).
    assert (Q2 : p2 (trhi s) = p2 (trhi s - 1) * 2) by (replace (trhi s) with (trhi s - 1 + 1)%Z at 1 by ring; rewrite bpow_plus; reflexivity).
    pose proof (bpow_gt_0 radix2 (trlo s)). assert (0 < f) by (apply Rmult_lt_reg_r with (gw (ks + 3)); lra).
    assert (f * gw (ks + 3) <= f * 2) by (apply Rmult_le_compat_l; lra). assert (r * gw (ks + 3) <= r * 2) by (apply Rmult_le_compat_l; lra). lra. }
  destruct (C76_atm_accuracy X s kd kr3 kv A3 numbers positions c9 rd (c_disp3 cutoff) (pget param "s9" dS9) (pget param "alp" dALP) n c B s9 alp)
    as (t & Et & St & Ht); auto.
  { apply HB. }
  { apply (pget_isnum param "s9" dS9 G); discriminate. }
  { apply (pget_isnum param "alp" dALP G); discriminate. }
  { intros b i j k Hb Hi Hj Hk. apply (H9c b i j k Hb Hi Hj Hk). }
  exists t. split.
  { assert (AB : abstract_model m = false) by (destruct HB as (HX & Kd & Hn' & Hkw & Hel & cls & Em); destruct (new_model_ok X kind cls numbers kw n B HX Kd Hn' Hkw Hel) as (m' & Em' & Hm'); rewrite Em in Em'; injection Em' as <-; unfold abstract_model; rewrite (proj1 (proj2 Hm')); destruct Kd as [->| ->]; reflexivity).
    unfold term_calculate. cbn [t_cdep t_class t_damping]. fold qe. rewrite AB. cbn [raise_if bind]. rewrite Ew. cbn [bind]. rewrite E6. cbn [bind].
    rewrite E9. cbn [bind]. rewrite Erd. cbn [bind]. exact Et. }
  split; [exact St|]. intros b i Hb Hi ec9 rad e size. destruct (Ht b i Hb Hi) as (Ff & Le' & Er'). split; [exact Ff|].
  change (B2R (dat (c_disp3 cutoff) [] : F)) with cut in Le', Er'. fold mm in Er'.
  set (e' := exact_atm triple_energy numbers positions c9 rd s9 alp cut n c b i) in *.
  set (size' := exact_atm triple_size numbers positions c9 rd s9 alp cut n c b i) in *.
  set (K := atm_change ks A3 d). set (g := gw (atm_errors kd kr3 kv A3 mm n)) in *.
  assert (Triple : forall j k, (j < n)%nat -> (k < n)%nat -> real_triple (sl1 numbers b) i j k = true ->
    let TE c9 rad := triple_energy c (rcoord positions b i) (rcoord positions b j) (rcoord positions b k) (c9 i j k) (rad i j) (rad i k) (rad j k) (B2R s9) (B2R alp) in
    let TS c9 rad := triple_size c (rcoord positions b i) (rcoord positions b j) (rcoord positions b k) (c9 i j k) (rad i j) (rad i k) (rad j k) (B2R s9) (B2R alp) in
    let f9 := fun i j k => B2R (sl3 c9 b i j k : F) in let fr := fun i j => B2R (sl2 rd b i j : F) in
    Rabs (TE ec9 rad) <= TS ec9 rad /\ Rabs (TE f9 fr - TE ec9 rad) <= (K - 1) * TS ec9 rad /\ TS f9 fr <= K * TS ec9 rad).
  { intros j k Hj Hk RT TE TS f9 fr.
    assert (RP : real_pair (sl1 numbers b) i j = true /\ real_pair (sl1 numbers b) i k = true /\ real_pair (sl1 numbers b) j k = true) by now apply real_triple_pairs.
    destruct RP as (Rij & Rik & Rjk).
    destruct HG as (_ & HG & _).
    assert (Pd : forall i j, (i < n)%nat -> (j < n)%nat -> real_pair (sl1 numbers b) i j = true -> 0 < euclid c (rcoord positions b i) (rcoord positions b j)).
    { intros i' j' Hi' Hj' Rp. destruct (HG b i' j' Hb Hi' Hj' Rp) as (_ & (P & _) & _). pose proof (bpow_gt_0 radix2 (- tnear s)). lra. }
    assert (Rr : forall i j, (i < n)%nat -> (j < n)%nat -> real_pair (sl1 numbers b) i j = true -> 0 < rad i j /\ 0 < fr i j /\ ratio (gw (ks + 3)) (rad i j) (fr i j)).
    { intros i' j' Hi' Hj' Rp. destruct (HR b i' j' Hb Hi' Hj' Rp) as (_ & _ & _ & _ & R1 & _). destruct (TR b i' j' Hb Hi' Hj' Rp) as (_ & R2 & _).
      pose proof (bpow_gt_0 radix2 (trlo s)). pose proof (bpow_gt_0 radix2 (trlo s + 1)). split; [unfold rad; lra|]. split; [unfold fr; lra|].
      destruct (within_le _ _ _ (Hrd b i' j' Hb Hi' Hj' Rp)). split; assumption. }
    assert (Rc6 : forall i j, (i < n)%nat -> (j < n)%nat -> real_pair (sl1 numbers b) i j = true ->
      let x := exact_c6 X kind kw numbers (Some cn) qe b i j in let y := B2R (sl2 c6 b i j : F) in 0 < x /\ 0 < y /\ ratio (1 + 2 * d) x y).
    { intros i' j' Hi' Hj' Rp x y. destruct (C b i' j' Hb Hi' Hj') as (P & Q). destruct (HD b i' j' Hb Hi' Hj') as (_ & _ & Nz). specialize (Nz Rp).
      fold x in P, Q, Nz. assert (0 < x) by lra. fold y in Q. split; [assumption|]. split; [|apply close_ratio; auto; lra].
      apply Rabs_le_inv in Q. assert (d * x <= 1 / 2 * x) by (apply Rmult_le_compat_r; lra). lra. }
    destruct (Rc6 i j Hi Hj Rij) as (X1 & Y1 & Q1). destruct (Rc6 i k Hi Hk Rik) as (X2 & Y2 & Q2). destruct (Rc6 j k Hj Hk Rjk) as (X3 & Y3 & Q3).
    destruct (Rr i j Hi Hj Rij) as (U1 & U1' & W1). destruct (Rr i k Hi Hk Rik) as (U2 & U2' & W2). destruct (Rr j k Hj Hk Rjk) as (U3 & U3' & W3).
    destruct (H9c b i j k Hb Hi Hj Hk) as (_ & P9). destruct P9 as (P9 & W9); try lra. destruct (within_le _ _ _ W9) as (V1 & V2).
    set (x1 := exact_c6 X kind kw numbers (Some cn) qe b i j) in *. set (x2 := exact_c6 X kind kw numbers (Some cn) qe b i k) in *. set (x3 := exact_c6 X kind kw numbers (Some cn) qe b j k) in *.
    set (y1 := B2R (sl2 c6 b i j : F)) in *. set (y2 := B2R (sl2 c6 b i k : F)) in *. set (y3 := B2R (sl2 c6 b j k : F)) in *.
    assert (Px : 0 < x1 * x2 * x3) by (repeat apply Rmult_lt_0_compat; auto). assert (Py : 0 < y1 * y2 * y3) by (repeat apply Rmult_lt_0_compat; auto).
    assert (E9' : ec9 i j k = sqrt (x1 * x2 * x3)) by (unfold ec9, exact_c9; cbv zeta; fold x1 x2 x3; rewrite Rabs_pos_eq; lra).
    assert (P9' : 0 < ec9 i j k) by (rewrite E9'; now apply sqrt_lt_R0).
    assert (R3 : ratio ((1 + 2 * d) * (1 + 2 * d) * (1 + 2 * d)) (x1 * x2 * x3) (y1 * y2 * y3)).
    { apply ratio_mul; try (apply Rmult_le_pos; lra); try lra; auto. apply ratio_mul; auto; lra. }
    assert (R4 : ratio ((1 + 2 * d) ^ 2) (ec9 i j k) (sqrt (y1 * y2 * y3))).
    { rewrite E9'. assert (D3 : (1 + 2 * d) * (1 + 2 * d) * (1 + 2 * d) <= (1 + 2 * d) ^ 2 * (1 + 2 * d) ^ 2).
      { set (z := 1 + 2 * d). assert (1 <= z) by (unfold z; lra). replace (z ^ 2 * z ^ 2) with (z * z * z * z) by ring.
        assert (1 <= z * z * z) by nra. nra. }
      assert (0 <= (1 + 2 * d) ^ 2) by (apply pow_le; lra). destruct R3 as (R3 & R3').
      split; apply Rsqrt_ratio; try lra; [apply Rle_trans with (1 := R3)|apply Rle_trans with (1 := R3')]; apply Rmult_le_compat_l; lra. }
    assert (R5 : ratio (gw (ks + 1) * (1 + 2 * d) ^ 2) (ec9 i j k) (f9 i j k)).
    { destruct R4 as (R4 & R4'). pose proof (gw_ge1 (ks + 1)). assert (1 <= (1 + 2 * d) ^ 2) by (apply pow_R1_Rle; lra). split.
      - unfold f9. apply Rle_trans with (1 := V2). rewrite Rmult_comm. replace (ec9 i j k * (gw (ks + 1) * (1 + 2 * d) ^ 2)) with (gw (ks + 1) * (ec9 i j k * (1 + 2 * d) ^ 2)) by ring.
        apply Rmult_le_compat_l; lra.
      - apply Rle_trans with (1 := R4'). unfold f9. rewrite <- Rmult_assoc. apply Rmult_le_compat_r; lra. }
    pose proof (gw_ge1 (ks + 1)) as G1. pose proof (gw_ge1 (ks + 3)) as G3. assert (G2 : 1 <= (1 + 2 * d) ^ 2) by (apply pow_R1_Rle; lra).
    split; [apply triple_bound; auto|].
    apply (triple_change c _ _ _ (ec9 i j k) (f9 i j k) (rad i j) (fr i j) (rad i k) (fr i k) (rad j k) (fr j k) (B2R s9) (B2R alp)
      (gw (ks + 1) * (1 + 2 * d) ^ 2) (gw (ks + 3)) A3); auto; [nra|].
    destruct Halp as ((_ & Z) & Ha & _). assert (0 <= B2R alp) by (destruct Z as [->|(Z & _)]; [lra|pose proof (bpow_gt_0 radix2 (-8)); lra]). lra. }
  assert (Le : Rabs e <= size).
  { unfold e, size, atm_sum. rewrite Rabs_mult, (Rabs_pos_eq (1 / 6)) by lra. apply Rmult_le_compat_l; [lra|].
    apply rsum_tri. intros j Hj. apply rsum_tri. intros k Hk. destruct (real_triple (sl1 numbers b) i j k) eqn:RT; simpl; [|rewrite Rabs_R0; lra].
    destruct (rleb _ _ && rleb _ _); [|rewrite Rabs_R0; lra]. apply (Triple j k Hj Hk RT). }
  assert (Df : Rabs (e' - e) <= (K - 1) * size).
  { unfold e', exact_atm, e, size, atm_sum. rewrite <- Rmult_minus_distr_l, Rabs_mult, (Rabs_pos_eq (1 / 6)) by lra.
    match goal with |- _ <= (K - 1) * (1 / 6 * ?z) => replace ((K - 1) * (1 / 6 * z)) with (1 / 6 * ((K - 1) * z)) by ring end. apply Rmult_le_compat_l; [lra|].
    unfold Rminus at 1. rewrite <- rsum_opp, <- rsum_plus, <- rsum_scal_l. apply rsum_tri. intros j Hj.
    rewrite <- rsum_opp, <- rsum_plus, <- rsum_scal_l. apply rsum_tri. intros k Hk.
    destruct (real_triple (sl1 numbers b) i j k) eqn:RT; cbn [andb]; [|rewrite Ropp_0, Rplus_0_l, Rabs_R0; lra].
    destruct (rleb _ _ && rleb _ _); [|rewrite Ropp_0, Rplus_0_l, Rabs_R0; lra]. apply (Triple j k Hj Hk RT). }
  assert (Sz : size' <= K * size).
  { unfold size', exact_atm, size, atm_sum.
    match goal with |- _ <= K * (1 / 6 * ?z) => replace (K * (1 / 6 * z)) with (1 / 6 * (K * z)) by ring end. apply Rmult_le_compat_l; [lra|].
    rewrite <- rsum_scal_l. apply rsum_le. intros j Hj. rewrite <- rsum_scal_l. apply rsum_le. intros k Hk.
    destruct (real_triple (sl1 numbers b) i j k) eqn:RT; cbn [andb]; [|lra].
    destruct (rleb _ _ && rleb _ _); [|lra]. apply (Triple j k Hj Hk RT). }
  split; [exact Le|]. pose proof (gw_ge1 (atm_errors kd kr3 kv A3 mm n)) as G1. fold g in G1.
  replace (B2R (sl1 t b i : F) - e) with ((B2R (sl1 t b i : F) - e') + (e' - e)) by ring.
  apply Rle_trans with (1 := Rabs_triang _ _). assert ((g - 1) * size' <= (g - 1) * (K * size)) by (apply Rmult_le_compat_l; lra). lra.
Qed.
End T.
Print Assumptions C80_atm_term_accuracy.
