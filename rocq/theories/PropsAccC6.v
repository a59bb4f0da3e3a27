(** * C78: rounding errors of the C6 coefficients returned by [get_atomic_c6] *)
From Coq Require Import Reals Lra Lia ZArith QArith Qreals List Arith Bool String.
From Flocq Require Import Core.Core IEEE754.BinarySingleNaN.
From Verif Require Import Py Tensor Scalar RInst ModelExt ModelUtils ModelModels SpecCall PropsTables TensorLemmas Closed ClosedM ClosedModels CallLemmas
  IeeeInst IeeeP IeeeB IeeeA IeeeM IeeeE PropsAcc PropsAcc3 SpecW SpecIeee IeeeW PropsIeee PropsAccW PropsAccZ PropsAccT PropsAccC.
Import ListNotations.
Open Scope R_scope.

Section T.
Context {prec emax : Z} {Hp : Prec_gt_0 prec} {He : Prec_lt_emax prec emax}.
Context {L : Libm prec emax} {L64 : Libm 53 1024}.
Notation N := (IN prec emax L L64).
Notation F := (binary_float prec emax).
Notation T := (tensor (sc N)).
Notation p2 := (bpow radix2).
Notation mapr := (mapr (prec := prec) (emax := emax)).
Context (X : Ext (sc N)).

(** the number of rounding errors of a C6 coefficient: twice those of a polarizability, twice those of a
    weight, 63 products, sums and literals *)
Definition c6_errors (ke S1 S2 J kwt : nat) : nat := (2 * secondary_errors ke S1 S2 J + 2 * kwt + 63)%nat.

(** [exp ga] is at most [2^zc]; weights below [2^lw] may underflow *)
Record c6_fit (kw : mkwargs N) (ke S1 S2 J A2 kwt : nat) (zc lw : Z) : Prop := {
  cf_ga : 0 <= B2R (the_ga kw) /\ exp (B2R (the_ga kw)) <= p2 zc;
  cf_zc : (0 <= zc /\ 4 * zc + 46 <= emax)%Z;
  cf_sec : (2 * Z.of_nat S1 + 10 < emax /\ 2 * Z.of_nat S2 + 20 <= emax)%Z;
  cf_lw : (zc + 3 - emax + 2 * Z.of_nat A2 <= lw <= 0 /\ 34 - emax <= 2 * lw)%Z;
  cf_errors : (2 * Z.of_nat (c6_errors ke S1 S2 J kwt + 2 * (12 * J + 6) * S1 + ke + 12 * J + 17) <= 2 ^ prec)%Z }.

(** the exact weight of reference [r] of atom [i] in the presence of atom [j] *)
Definition exact_weight (kind : mkind) (kw : mkwargs N) (numbers : tensor Z) (cn q : option T) (b : list nat) (i j r : nat) : R :=
  weight (real_ext X) (real_kw kw) (B2R (wf_at kind kw numbers b i j)) (Z.to_nat (sl1 numbers b i)) r (B2R (arg_at cn b i)) (B2R (arg_at q b i)).

(** the coordination number and the charge of atom [i] are in the domain of C77, the secondary systems of its
    references in that of the charge scaling *)
Definition atom_domain (kind : mkind) (kw : mkwargs N) (numbers : tensor Z) (cn q : option T) (b : list nat) (i j : nat)
  (A D E Er A1 A2 S1 S2 J : nat) : Prop :=
  let z := Z.to_nat (sl1 numbers b i) in
  forall r, (r < 7)%nat -> exists_ref z r ->
    cn_domain kind (wf_at kind kw numbers b i j) (arg_at cn b i) z A D E Er /\
    q_domain (the_ga kw) (the_gc kw) (dat (x_gam X) [z] : F) (dat (x_zeff X) [z] : F) (arg_at q b i) (q_ref (the_ref kw) z r) A1 A2 /\
    sec_ok X kw S1 S2 J z r.

Lemma weight_mapr kind kw numbers (cn q : option T) b i j r A D E Er A1 A2 S1 S2 J k64 ke ke64 kr kp kwt zc lw (x : F) :
  (24 <= prec <= 53)%Z -> (128 <= emax <= 1024)%Z -> c6_fit kw ke S1 S2 J A2 kwt zc lw -> kwt = weight_errors ke A1 A2 k64 Er ->
  weights_fit (prec := prec) (emax := emax) kind ke ke64 kr kp A D E Er A1 A2 k64 -> atom_domain kind kw numbers cn q b i j A D E Er A1 A2 S1 S2 J -> (r < 7)%nat ->
  let z := Z.to_nat (sl1 numbers b i) in
  (~ exists_ref z r -> x = B754_zero false) ->
  (exists_ref z r -> let exact := zeta_exact X kw z r (arg_at q b i) in let wt := gauss_weight (B2R (wf_at kind kw numbers b i j)) (B2R (arg_at cn b i)) z r in
     is_finite x = true /\ 0 < exact /\ 0 < wt <= 1 /\
     Rabs (B2R x - exact * wt) <= (growth (prec := prec) kwt - 1) * (exact * (wt + p2 (3 - emax + 2 * Z.of_nat A2)))) ->
  mapr kwt lw (zc + 1) (exact_weight kind kw numbers cn q b i j r + p2 lw) x (exact_weight kind kw numbers cn q b i j r).
Proof.
  intros Hpp Hee [(G0 & G1) (Z0 & Z1) _ (W1 & W2) _] -> WF AD Hr z Ha Hx. unfold exact_weight. fold z. unfold weight.
  pose proof (bpow_gt_0 radix2 lw) as Pl. assert (Lw : p2 lw <= p2 zc) by (apply bpow_le; lia).
  assert (E2 : p2 (zc + 1) = 2 * p2 zc) by (rewrite bpow_plus; change (p2 1) with 2; ring).
  pose proof (wk_ge1 (prec := prec) (weight_errors ke A1 A2 k64 Er)) as Wg.
  destruct (Z.ltb_spec 0 (n_gauss z r)) as [Ex|Nx].
  - specialize (Hx Ex). cbv zeta in Hx. set (exact := zeta_exact X kw z r (arg_at q b i)) in *.
    change (charge_factor (real_ext X) (real_kw kw) z r (B2R (arg_at q b i))) with exact.
    set (wt := gauss_weight _ _ z r) in *. destruct Hx as (Fx & Pz & (Pw & Pw1) & Er').
    assert (Le : exact <= p2 zc) by (apply (zeta_le kw zc G0 G1)).
    assert (Q : exact * p2 (3 - emax + 2 * Z.of_nat A2) <= p2 lw).
    { apply Rle_trans with (p2 zc * p2 (3 - emax + 2 * Z.of_nat A2)); [apply Rmult_le_compat_r; [apply bpow_ge_0|exact Le]|].
      rewrite <- bpow_plus. apply bpow_le. lia. }
    assert (P : 0 < exact * wt) by now apply Rmult_lt_0_compat. assert (P' : exact * wt <= exact) by (rewrite <- (Rmult_1_r exact) at 2; apply Rmult_le_compat_l; lra).
    split; [exact Fx|right; split; lra|rewrite Rabs_pos_eq; lra|].
    apply Rle_trans with (1 := Er'). apply Rmult_le_compat_l; [apply Rle_trans with (1 - 1); [lra|apply Rplus_le_compat_r; exact Wg]|]. rewrite Rmult_plus_distr_l. lra.
  - rewrite (Ha ltac:(unfold exists_ref; lia)). rewrite Rplus_0_l. split; [reflexivity|right; split; lra|rewrite Rabs_R0; lra|].
    change (B2R (B754_zero false : F)) with 0. rewrite Rminus_diag_eq, Rabs_R0 by reflexivity. apply Rmult_le_pos; lra.
Qed.

(** The C6 coefficients of a model, for given coordination numbers and charges, for any molecules of any size,
    with or without batch dimensions, for D4 and D4S: a coefficient is a number and differs from the
    Casimir-Polder value of the exact weights and exact reference polarizabilities by at most the growth of
    [c6_errors ...] rounding errors times the size of the coefficient. *)
Theorem C78_c6_accuracy kind kw numbers n B (m : Model N) (cn q : option T) ke ke64 kr kp :
  (24 <= prec <= 53)%Z -> (128 <= emax <= 1024)%Z ->
  libm_nonneg L64 -> exp_accurate L ke -> exp_accurate L64 ke64 -> rpow_accurate (L := L64) kr -> pow_accurate (L := L64) kp ->
  built X kind kw numbers n B m -> opt_shape cn (n :: B) -> opt_shape q (n :: B) ->
  exists gw c6, weight_references X m cn q = Ok gw /\ get_atomic_c6 m gw = Ok c6 /\ shp c6 = n :: n :: B /\
    forall b i j, valid B b -> (i < n)%nat -> (j < n)%nat ->
    forall A D E Er A1 A2 k64 S1 S2 J zc lw,
      atom_domain kind kw numbers cn q b i j A D E Er A1 A2 S1 S2 J -> atom_domain kind kw numbers cn q b j i A D E Er A1 A2 S1 S2 J ->
      weights_fit (prec := prec) (emax := emax) kind ke ke64 kr kp A D E Er A1 A2 k64 -> c6_fit kw ke S1 S2 J A2 (weight_errors ke A1 A2 k64 Er) zc lw ->
      let zi := Z.to_nat (sl1 numbers b i) in let zj := Z.to_nat (sl1 numbers b j) in
      let wi := exact_weight kind kw numbers cn q b i j in let wj := exact_weight kind kw numbers cn q b j i in
      is_finite (sl2 c6 b i j : F) = true /\
      Rabs (B2R (sl2 c6 b i j : F) - c6_pair (real_ext X) (real_kw kw) zi zj wi wj) <=
        (growth (prec := prec) (c6_errors ke S1 S2 J (weight_errors ke A1 A2 k64 Er)) - 1) *
        c6_size X kw zi zj (fun r => wi r + p2 lw) (fun r => wj r + p2 lw).
Proof.
  intros Hpp Hee HL EA EA64 RA PA HB Hcn Hq.
  destruct (C77_weights_accuracy X kind kw numbers n B m cn q ke ke64 kr kp Hpp Hee HL EA EA64 RA PA HB Hcn Hq) as (gw & Ew & Sw & HW).
  pose proof (built_model X _ _ _ _ _ _ HB) as Hm. pose proof Hm as (Hok & Ekind & Enum & Ega & Egc & Eref & Ewf).
  destruct (weight_references_ev X m n B cn q Hok) as (gw' & Ew' & Hw). { destruct cn; auto. } { destruct q; auto. }
  rewrite Ew in Ew'. injection Ew' as <-.
  destruct (get_atomic_c6_ev (N := N) X m n B cn q gw Hok Hw) as (c6 & E6 & S6 & V6).
  exists gw, c6. split; [exact Ew|]. split; [exact E6|]. split; [exact S6|].
  intros b i j Hb Hi Hj A D E Er A1 A2 k64 S1 S2 J zc lw Di Dj WF CF zi zj wi wj.
  assert (Kd : kind = D4M \/ kind = D4SM) by apply HB.
  assert (Key : forall i j r, (i < n)%nat -> (j < n)%nat -> (r < 7)%nat -> wt_of X m cn q b i j r = entry kind gw b i j r).
  { clear - Hw Ekind Kd Hb. intros i j r Hi Hj Hr. destruct Hw as (_ & Hd). unfold is_d4s in Hd. rewrite Ekind in Hd. destruct Kd as [->| ->]; unfold entry.
    - unfold sl2. rewrite Hd by (repeat split; auto). unfold ix2. apply wt_of_d4. unfold is_d4s. now rewrite Ekind.
    - unfold sl3. rewrite Hd by (repeat split; auto). reflexivity. }
  assert (R : forall i, (i < n)%nat -> (Z.to_nat (sl1 numbers b i) <= 103)%nat).
  { intros k Hk. pose proof (built_range X _ _ _ _ _ _ b k HB Hb Hk). lia. }
  assert (M : forall i j r, (i < n)%nat -> (j < n)%nat -> (r < 7)%nat -> atom_domain kind kw numbers cn q b i j A D E Er A1 A2 S1 S2 J ->
    mapr (weight_errors ke A1 A2 k64 Er) lw (zc + 1) (exact_weight kind kw numbers cn q b i j r + p2 lw) (wt_of X m cn q b i j r) (exact_weight kind kw numbers cn q b i j r)).
  { intros x y r Hx Hy Hr AD. rewrite Key by auto. destruct (HW b x y r Hb Hx Hy Hr) as (H1 & H2).
    apply (weight_mapr kind kw numbers cn q b x y r A D E Er A1 A2 S1 S2 J k64 ke ke64 kr kp _ zc lw); auto.
    intros Ex. destruct (AD r Hr Ex) as (D1 & D2 & _). exact (H2 Ex A D E Er A1 A2 k64 D1 D2 WF). }
  pose proof CF as [(G0 & G1) (Z0 & Z1) (C1 & C2) (W1 & W2) Fe].
  assert (SO : forall i j, (i < n)%nat -> atom_domain kind kw numbers cn q b i j A D E Er A1 A2 S1 S2 J -> forall r, (r < 7)%nat -> sec_ok X kw S1 S2 J (Z.to_nat (sl1 numbers b i)) r).
  { intros x y Hx AD r Hr. destruct (Z_lt_le_dec 0 (n_gauss (Z.to_nat (sl1 numbers b x)) r)) as [Ex|Nx]; [apply (AD r Hr Ex)|].
    intros Ps. exfalso. destruct (C38_secondary_systems _ r (R x Hx) Hr) as (_ & Q). destruct Q as (Q & _); [unfold exists_ref; lia|lia]. }
  assert (C : mapr (c6_errors ke S1 S2 J (weight_errors ke A1 A2 k64 Er)) (-31 + 2 * lw) (43 + 4 * zc)
     (c6_size X kw zi zj (fun r => wi r + p2 lw) (fun r => wj r + p2 lw)) (sl2 c6 b i j : F) (c6_pair (real_ext X) (real_kw kw) zi zj wi wj)).
  { unfold sl2. rewrite V6 by (repeat split; auto). unfold ix2, c6m. rewrite Ega, Egc, Eref, Enum.
    apply (c6_acc Hpp Hee X kw ke S1 S2 J zc EA); auto; try lia.
    - unfold few. unfold c6_errors in Fe. lia.
    - apply (SO i j); auto.
    - apply (SO j i); auto.
    - intros r Hr. apply M; auto.
    - intros r Hr. apply M; auto.
    - unfold few. unfold c6_errors in Fe. lia. }
  destruct C as [C0 _ _ C3]. split; [exact C0|exact C3].
Qed.
End T.
Print Assumptions C78_c6_accuracy.
