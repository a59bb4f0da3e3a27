(** * C79: rounding errors of the two-body energy from the weights to the sum over the pairs *)
From Coq Require Import Reals Lra Lia ZArith QArith Qreals List Arith Bool String.
From Flocq Require Import Core.Core IEEE754.BinarySingleNaN.
From Verif Require Import Py Tensor Scalar RInst ModelExt ModelUtils ModelDamping ModelModels ModelTerms Spec SpecR SpecCall PropsTables
  IeeeInst IeeeP IeeeB IeeeA IeeeM IeeeE PropsAcc PropsAcc3 SpecW SpecIeee IeeeW PropsIeee PropsAccW PropsAccZ PropsAccT PropsAccC PropsAccC6.
Import ListNotations.
Open Scope R_scope.

(** the energy of a pair is linear in the C6 coefficient *)
Lemma pair_energy_lin a1 a2 s6 s8 s10 c6 Qi Qj r : pair_energy a1 a2 s6 s8 s10 c6 Qi Qj r = pair_energy a1 a2 s6 s8 s10 1 Qi Qj r * c6.
Proof. unfold pair_energy, Rdiv. ring. Qed.
Lemma pair_energy_pos a1 a2 s6 s8 s10 Qi Qj r : 0 <= a1 -> 0 <= a2 -> 0 <= s6 -> 0 <= s8 -> 0 <= s10 -> 0 <= Qi -> 0 <= Qj -> 0 < r ->
  0 <= pair_energy a1 a2 s6 s8 s10 1 Qi Qj r.
Proof.
  intros. unfold pair_energy. set (R0 := a1 * sqrt (3 * Qi * Qj) + a2).
  assert (0 <= R0) by (apply Rplus_le_le_0_compat; auto; apply Rmult_le_pos; auto; apply sqrt_pos).
  assert (Q : 0 <= 3 * Qi * Qj) by (apply Rmult_le_pos; auto; lra).
  assert (P : forall o, 0 < r ^ o + R0 ^ o) by (intros o; pose proof (pow_lt r o); pose proof (pow_le R0 o); intuition lra).
  apply Rplus_le_le_0_compat; [apply Rplus_le_le_0_compat|]; (apply Rmult_le_pos; [|left; now apply Rinv_0_lt_compat]).
  - lra.
  - apply Rmult_le_pos; auto. lra.
  - apply Rmult_le_pos; auto. rewrite Rmult_1_r. apply Rmult_le_pos; [lra|apply pow2_ge_0].
Qed.

(** two energies with C6 coefficients that differ by the fraction [e] differ by the fraction [e] *)
Lemma two_body_close n c z x (f g : nat -> nat -> R) Q a1 a2 s6 s8 s10 cut i e : 0 <= e ->
  0 <= a1 -> 0 <= a2 -> 0 <= s6 -> 0 <= s8 -> 0 <= s10 -> (forall j, (j < n)%nat -> 0 <= Q j) -> (i < n)%nat ->
  (forall j, (j < n)%nat -> real_pair z i j = true -> 0 < euclid c (x i) (x j)) ->
  (forall j, (j < n)%nat -> 0 <= g i j /\ Rabs (f i j - g i j) <= e * g i j) ->
  Rabs (two_body n c z x f Q a1 a2 s6 s8 s10 cut i - two_body n c z x g Q a1 a2 s6 s8 s10 cut i)
    <= e * Rabs (two_body n c z x g Q a1 a2 s6 s8 s10 cut i).
Proof.
  intros He A1 A2 S6 S8 S10 HQ Hi HD HF. unfold two_body.
  set (h := fun j => if real_pair z i j && rleb (euclid c (x i) (x j)) cut then pair_energy a1 a2 s6 s8 s10 1 (Q i) (Q j) (euclid c (x i) (x j)) else 0).
  assert (Hh : forall j, (j < n)%nat -> 0 <= h j).
  { intros j Hj. unfold h. destruct (real_pair z i j) eqn:Rp; simpl; [|lra]. destruct rleb; [|lra]. apply pair_energy_pos; auto. }
  rewrite (rsum_ext n _ (fun j => h j * f i j)) by (intros j Hj; unfold h; destruct (_ && _); [apply pair_energy_lin|ring]).
  rewrite (rsum_ext n (fun j => if real_pair z i j && rleb (euclid c (x i) (x j)) cut then pair_energy a1 a2 s6 s8 s10 (g i j) (Q i) (Q j) (euclid c (x i) (x j)) else 0) (fun j => h j * g i j))
    by (intros j Hj; unfold h; destruct (_ && _); [apply pair_energy_lin|ring]).
  assert (P : 0 <= rsum n (fun j => h j * g i j)) by (apply rsum_nonneg; intros j Hj; apply Rmult_le_pos; [auto|apply HF; auto]).
  assert (U : rsum n (fun j => h j * f i j) <= (1 + e) * rsum n (fun j => h j * g i j)).
  { rewrite <- rsum_scal_l. apply rsum_le. intros j Hj. destruct (HF j Hj) as (G & D). apply Rabs_le_inv in D.
    replace ((1 + e) * (h j * g i j)) with (h j * ((1 + e) * g i j)) by ring. apply Rmult_le_compat_l; [auto|lra]. }
  assert (V : (1 - e) * rsum n (fun j => h j * g i j) <= rsum n (fun j => h j * f i j)).
  { rewrite <- rsum_scal_l. apply rsum_le. intros j Hj. destruct (HF j Hj) as (G & D). apply Rabs_le_inv in D.
    replace ((1 - e) * (h j * g i j)) with (h j * ((1 - e) * g i j)) by ring. apply Rmult_le_compat_l; [auto|lra]. }
  set (a := rsum n (fun j => h j * f i j)) in *. set (b := rsum n (fun j => h j * g i j)) in *.
  replace (- (1 / 2) * a - - (1 / 2) * b) with (- (1 / 2) * (a - b)) by ring. rewrite !Rabs_mult.
  rewrite (Rabs_left (- (1 / 2))) by lra. rewrite (Rabs_pos_eq b) by exact P.
  assert (Rabs (a - b) <= e * b) by (apply Rabs_le; lra). lra.
Qed.

Section T.
Context {prec emax : Z} {Hp : Prec_gt_0 prec} {He : Prec_lt_emax prec emax}.
Context {L : Libm prec emax} {L64 : Libm 53 1024}.
Notation N := (IN prec emax L L64).
Notation F := (binary_float prec emax).
Notation T := (tensor (sc N)).
Notation p2 := (bpow radix2).
Context (X : Ext (sc N)).

(** the exact C6 coefficient of two atoms *)
Definition exact_c6 (kind : mkind) (kw : mkwargs N) (numbers : tensor Z) (cn q : option T) (b : list nat) (i j : nat) : R :=
  c6_pair (real_ext X) (real_kw kw) (Z.to_nat (sl1 numbers b i)) (Z.to_nat (sl1 numbers b j))
    (exact_weight X kind kw numbers cn q b i j) (exact_weight X kind kw numbers cn q b j i).
(** the two-body energy of atom [i] in exact arithmetic with the exact C6 coefficients *)
Definition exact_term (kind : mkind) (kw : mkwargs N) (numbers : tensor Z) (positions : T) (cn q : option T) (r4r2 : T) (param : Param (sc N)) (a1 a2 : F)
  (cut : R) (n c : nat) (b : list nat) (i : nat) : R :=
  two_body n c (sl1 numbers b) (rcoord positions b) (exact_c6 kind kw numbers cn q b) (fun i => B2R (sl1 r4r2 b i : F))
    (B2R a1) (B2R a2) (scale param "s6" 1) (scale8 param) (scale param "s10" 0) cut i.

(** The exact coefficient is zero or of the given size; [Jc] tells how much larger the size of its sum is, in
    which the polarizabilities of the secondary systems are added and the weights increased by [2^lw]. *)
Definition c6_condition (kind : mkind) (kw : mkwargs N) (numbers : tensor Z) (cn q : option T) (b : list nat) (i j : nat) (s : acc_sizes) (lw : Z) (Jc : R) : Prop :=
  let c := exact_c6 kind kw numbers cn q b i j in
  (c = 0 \/ p2 (1 - ac6min s) <= c <= p2 (ac6max s - 1)) /\
  c6_size X kw (Z.to_nat (sl1 numbers b i)) (Z.to_nat (sl1 numbers b j))
    (fun r => exact_weight X kind kw numbers cn q b i j r + p2 lw) (fun r => exact_weight X kind kw numbers cn q b j i r + p2 lw) <= Jc * c.

(** the computed coefficients: numbers, within the fraction [(growth - 1) * Jc] of the exact ones, of the given sizes *)
Lemma c6_close (s : acc_sizes) kind kw numbers n B (m : Model N) (cn : T) (qe : option T) ke ke64 kr kp A D E Er A1 A2 k64 S1 S2 J zc lw Jc :
  (24 <= prec <= 53)%Z -> (128 <= emax <= 1024)%Z ->
  libm_nonneg L64 -> exp_accurate L ke -> exp_accurate L64 ke64 -> rpow_accurate (L := L64) kr -> pow_accurate (L := L64) kp ->
  built X kind kw numbers n B m -> shp cn = n :: B -> opt_shape qe (n :: B) ->
  let d := (growth (prec := prec) (c6_errors ke S1 S2 J (weight_errors ke A1 A2 k64 Er)) - 1) * Jc in
  weights_fit (prec := prec) (emax := emax) kind ke ke64 kr kp A D E Er A1 A2 k64 -> c6_fit kw ke S1 S2 J A2 (weight_errors ke A1 A2 k64 Er) zc lw ->
  0 <= Jc -> d <= 1 / 2 ->
  (forall b i j, valid B b -> (i < n)%nat -> (j < n)%nat ->
     atom_domain X kind kw numbers (Some cn) qe b i j A D E Er A1 A2 S1 S2 J /\ c6_condition kind kw numbers (Some cn) qe b i j s lw Jc) ->
  0 <= d /\ exists gw c6, weight_references X m (Some cn) qe = Ok gw /\ get_atomic_c6 m gw = Ok c6 /\ shp c6 = n :: n :: B /\ acc_c6 s c6 n B /\
    forall b i j, valid B b -> (i < n)%nat -> (j < n)%nat -> let x := exact_c6 kind kw numbers (Some cn) qe b i j in
      0 <= x /\ Rabs (B2R (sl2 c6 b i j : F) - x) <= d * x.
Proof.
  intros Hpp Hee HL EA EA64 RA PA HB Hcn Hqe d WF CF HJ0 HJ HD.
  destruct (C78_c6_accuracy X kind kw numbers n B m (Some cn) qe ke ke64 kr kp Hpp Hee HL EA EA64 RA PA HB Hcn Hqe) as (gw & c6 & Ew & E6 & S6 & H6).
  set (kc := c6_errors ke S1 S2 J (weight_errors ke A1 A2 k64 Er)) in *.
  assert (D1 : 0 <= d).
  { apply Rmult_le_pos; [|exact HJ0]. pose proof (wk_ge1 (prec := prec) kc) as W. change (1 <= growth (prec := prec) kc) in W. lra. }
  assert (C : forall b i j, valid B b -> (i < n)%nat -> (j < n)%nat -> let x := exact_c6 kind kw numbers (Some cn) qe b i j in
    is_finite (sl2 c6 b i j : F) = true /\ Rabs (B2R (sl2 c6 b i j : F) - x) <= d * x /\ (x = 0 \/ p2 (1 - ac6min s) <= x <= p2 (ac6max s - 1))).
  { intros b i j Hb Hi Hj x. destruct (HD b i j Hb Hi Hj) as (Di & (Z1 & Z2)). destruct (HD b j i Hb Hj Hi) as (Dj & _).
    destruct (H6 b i j Hb Hi Hj A D E Er A1 A2 k64 S1 S2 J zc lw Di Dj WF CF) as (Ff & Er'). split; [exact Ff|]. split; [|exact Z1].
    apply Rle_trans with (1 := Er'). unfold d. rewrite Rmult_assoc. apply Rmult_le_compat_l; [|exact Z2].
    pose proof (wk_ge1 (prec := prec) kc) as W. change (1 <= growth (prec := prec) kc) in W. fold kc. lra. }
  assert (C0 : forall b i j, valid B b -> (i < n)%nat -> (j < n)%nat -> 0 <= exact_c6 kind kw numbers (Some cn) qe b i j).
  { intros b i j Hb Hi Hj. destruct (C b i j Hb Hi Hj) as (_ & _ & [->|(P & _)]); [lra|]. pose proof (bpow_gt_0 radix2 (1 - ac6min s)). lra. }
  assert (AC : acc_c6 s c6 n B).
  { intros b i j Hb Hi Hj. destruct (C b i j Hb Hi Hj) as (Ff & Er' & Z1). split; [exact Ff|]. apply Rabs_le_inv in Er'.
    set (x := exact_c6 kind kw numbers (Some cn) qe b i j) in *. destruct Z1 as [Z1|(Z1 & Z2)].
    - left. rewrite Z1 in Er'. lra.
    - right. pose proof (bpow_gt_0 radix2 (1 - ac6min s)). assert (d * x <= 1 / 2 * x) by (apply Rmult_le_compat_r; lra).
      assert (Q1 : p2 (1 - ac6min s) = 2 * p2 (- ac6min s)) by (unfold Zminus; rewrite bpow_plus; reflexivity).
      assert (Q2 : p2 (ac6max s) = 2 * p2 (ac6max s - 1)) by (replace (ac6max s) with (1 + (ac6max s - 1))%Z at 1 by ring; rewrite bpow_plus; reflexivity).
      split; lra. }
  split; [exact D1|]. exists gw, c6. split; [exact Ew|]. split; [exact E6|]. split; [exact S6|]. split; [exact AC|].
  intros b i j Hb Hi Hj x. split; [now apply C0|now apply C].
Qed.

(** The energies returned by the two-body term with rational damping, for given coordination numbers and
    charges, for any molecules of any size, with or without batch dimensions, for D4 and D4S: they are numbers,
    and their relative errors are at most those of [atom_errors kd kp2 n] roundings and of the coefficients. *)
Theorem C79_term_accuracy (s : acc_sizes) kd kp2 kind kw numbers n c B (m : Model N) (positions cn : T) (q : option T) (cdep : bool) (param : Param (sc N)) (r4r2 rvdw : T) (cutoff : Cutoff (sc N))
  (a1 a2 : F) ke ke64 kr kp A D E Er A1 A2 k64 S1 S2 J zc lw Jc :
  (24 <= prec <= 53)%Z -> (128 <= emax <= 1024)%Z ->
  libm_nonneg L64 -> exp_accurate L ke -> pow_accurate (L := L) kp2 ->
  exp_accurate L64 ke64 -> rpow_accurate (L := L64) kr -> pow_accurate (L := L64) kp ->
  built X kind kw numbers n B m -> shp cn = n :: B -> opt_shape q (n :: B) -> shp positions = c :: n :: B -> shp r4r2 = n :: B ->
  shp (c_disp2 cutoff) = [] -> is_finite (dat (c_disp2 cutoff) [] : F) = true ->
  good_param param -> getp param "a1" = Some (a1 : F) -> getp param "a2" = Some (a2 : F) ->
  acc_fits (prec := prec) (emax := emax) s -> (2 * Z.of_nat (atom_errors kd kp2 n) <= 2 ^ prec)%Z ->
  let cut : R := B2R (dat (c_disp2 cutoff) [] : F) in
  acc_geometry X s kd cut numbers positions n c B -> acc_r4r2 r4r2 n B -> acc_param s param ->
  let qe : option T := if cdep then q else None in
  let kc := c6_errors ke S1 S2 J (weight_errors ke A1 A2 k64 Er) in
  weights_fit (prec := prec) (emax := emax) kind ke ke64 kr kp A D E Er A1 A2 k64 -> c6_fit kw ke S1 S2 J A2 (weight_errors ke A1 A2 k64 Er) zc lw ->
  0 <= Jc -> (growth (prec := prec) kc - 1) * Jc <= 1 / 2 ->
  (forall b i j, valid B b -> (i < n)%nat -> (j < n)%nat ->
     atom_domain X kind kw numbers (Some cn) qe b i j A D E Er A1 A2 S1 S2 J /\ c6_condition kind kw numbers (Some cn) qe b i j s lw Jc) ->
  exists t, term_calculate X (mkTerm TwoBodyTerm RationalDamping cdep) numbers positions param cn m q r4r2 rvdw cutoff = Ok t /\ shp t = n :: B /\
    forall b i, valid B b -> (i < n)%nat ->
      let e := exact_term kind kw numbers positions (Some cn) qe r4r2 param a1 a2 cut n c b i in
      is_finite (sl1 t b i : F) = true /\
      Rabs (B2R (sl1 t b i : F) - e) <= (growth (prec := prec) (atom_errors kd kp2 n) * (1 + (growth (prec := prec) kc - 1) * Jc) - 1) * Rabs e.
Proof.
  intros Hpp Hee HL EA PA2 EA64 RA PA HB Hcn Hq Hx Hr Hcs Hcf G E1 E2 Hf HK cut HG H4 HP qe kc WF CF HJ0 HJ HD.
  assert (Hqe : opt_shape qe (n :: B)) by (unfold qe; destruct cdep; [exact Hq|exact Logic.I]).
  destruct (c6_close s kind kw numbers n B m cn qe ke ke64 kr kp A D E Er A1 A2 k64 S1 S2 J zc lw Jc Hpp Hee HL EA EA64 RA PA HB Hcn Hqe WF CF HJ0 HJ HD)
    as (D1 & gw & c6 & Ew & E6 & S6 & AC & C).
  fold kc in D1, C. set (d := (growth (prec := prec) kc - 1) * Jc) in *.
  destruct (C67_energy_accuracy X s kd kp2 Hf PA2 numbers positions param c6 r4r2 (Some rvdw) (Some (c_disp2 cutoff)) n c B a1 a2) as (t & Et & St & Ht); auto.
  { apply HB. }
  exists t. split.
  { unfold term_calculate. cbn [t_cdep t_class t_damping]. fold qe. rewrite Ew. cbn [bind]. rewrite E6. cbn [bind]. exact Et. }
  split; [exact St|]. intros b i Hb Hi e. destruct (Ht b i Hb Hi) as (Ff & Er'). split; [exact Ff|].
  change (B2R (cutoff_float (Some (c_disp2 cutoff)))) with cut in Er'.
  set (e' := exact_energy numbers positions c6 r4r2 param a1 a2 cut n c b i) in *.
  assert (Par : forall k (x : F), In k ["s6"; "s8"; "s10"; "a1"; "a2"]%string -> getp param k = Some x -> 0 <= B2R x).
  { intros k x Hk Hx'. destruct (HP k x Hk Hx') as (_ & [->|(P & _)]); [lra|]. pose proof (bpow_gt_0 radix2 (- apar s)). lra. }
  assert (Cl : Rabs (e' - e) <= d * Rabs e).
  { apply two_body_close; auto.
    - apply (Par "a1"); auto. simpl; tauto.
    - apply (Par "a2"); auto. simpl; tauto.
    - unfold scale. destruct (getp param "s6") eqn:Eq; [|lra]. apply (Par "s6"); auto. simpl; tauto.
    - unfold scale8, scale. destruct (getp param "s8") eqn:Eq; [apply (Par "s8"); auto; simpl; tauto|]. destruct (getp param "rs8"); lra.
    - unfold scale. destruct (getp param "s10") eqn:Eq; [|lra]. apply (Par "s10"); auto. simpl; tauto.
    - intros j Hj. destruct (H4 b j Hb Hj) as (_ & [->|(P & _)]); [lra|]. pose proof (bpow_gt_0 radix2 0). lra.
    - intros j Hj Rp. destruct HG as (_ & HG). destruct (HG b i j Hb Hi Hj Rp) as (_ & P & _). pose proof (bpow_gt_0 radix2 (- anear s)). lra. }
  pose proof (wk_ge1 (prec := prec) (atom_errors kd kp2 n)) as W. change (1 <= growth (prec := prec) (atom_errors kd kp2 n)) in W.
  set (g := growth (prec := prec) (atom_errors kd kp2 n)) in *.
  replace (B2R (sl1 t b i : F) - e) with ((B2R (sl1 t b i : F) - e') + (e' - e)) by ring.
  apply Rle_trans with (1 := Rabs_triang _ _).
  assert (Rabs e' <= (1 + d) * Rabs e).
  { replace e' with ((e' - e) + e) by ring. apply Rle_trans with (1 := Rabs_triang _ _). lra. }
  assert ((g - 1) * Rabs e' <= (g - 1) * ((1 + d) * Rabs e)) by (apply Rmult_le_compat_l; lra). lra.
Qed.
End T.
Print Assumptions C79_term_accuracy.
