(** * Energies, C6 coefficients and polarizabilities are finite numbers in IEEE arithmetic. *)
From Coq Require Import Reals List Arith ZArith QArith Bool String Lia Lra.
From Flocq Require Import Core.Core IEEE754.BinarySingleNaN.
From Verif Require Import Py Tensor Scalar ModelExt ModelUtils ModelDamping ModelModels
  ModelTerms ModelDisp SpecCall TensorLemmas Closed ClosedM ClosedTerms ClosedModels ClosedDamp
  ClosedDisp CallLemmas IeeeInst IeeeP IeeeB SpecIeee IeeeW IeeeLib InstIeee PropsIeee PropsPadIeee
  PropsOutcome PropsSignIeee Usable InstW InstAny.
Import ListNotations.
Open Scope nat_scope.

(** ** Specification *)
Section S.
Context {prec emax : Z} {Hp : Prec_gt_0 prec} {He : Prec_lt_emax prec emax}.
Context {L : Libm prec emax} {L64 : Libm 53 1024}.
Notation N := (IN prec emax L L64).
Notation F := (binary_float prec emax).
Notation p2 := (bpow radix2).
Context (X : Ext (sc N)).

(** a number (not NaN, not infinite) of magnitude at most [2^e] *)
Definition upto (e : Z) (x : F) : Prop := is_finite x = true /\ (Rabs (B2R x) <= p2 e)%R.
(** +0, a positive number or +infinity, but not NaN *)
Definition nonneg_num (x : F) : Prop := is_nan x = false /\ nonneg x.

(** Sizes, as exponents of two: distances between [2^-near] and [2^far], charge scaling factors at
    most [2^chg], parameters at most [2^par], at most [2^atoms] atoms (padding included). *)
Record sizes := mkSizes { far : Z; near : Z; chg : Z; par : Z; atoms : Z }.

(** what is required of [pow]: not NaN for such a base, and on the right side of powers of two *)
Record pow_bounds : Prop := {
  pb_pow : forall x y, nonneg_num x -> is_nan y = false -> is_nan (l_pow L x y) = false;
  pb_pown : forall x k, nonneg_num x -> is_nan (l_pown L x k) = false;
  pb_pow_le : forall x y (b j : Z), nonneg_num x -> is_finite x = true -> (0 <= B2R x <= p2 b)%R -> is_finite y = true ->
    (0 <= B2R y <= IZR j)%R -> (0 <= b)%Z -> (b * j < emax)%Z -> upto (b * j) (l_pow L x y);
  pb_pow_ge : forall x y (a j : Z), at_least x (p2 (- a)) -> is_finite y = true ->
    (0 <= B2R y <= IZR j)%R -> (0 <= a)%Z -> (a * j < emax)%Z -> at_least (l_pow L x y) (p2 (- (a * j)));
  pb_pown_le : forall x k (b : Z), is_finite x = true -> (0 <= B2R x <= p2 b)%R ->
    (0 <= b)%Z -> (b * Z.of_nat k < emax)%Z -> upto (b * Z.of_nat k) (l_pown L x k);
  pb_pown_ge : forall x k (a : Z), at_least x (p2 (- a)) ->
    (0 <= a)%Z -> (a * Z.of_nat k < emax)%Z -> at_least (l_pown L x k) (p2 (- (a * Z.of_nat k))) }.

(** what is required of [storch.divide] and [storch.sqrt] *)
Record storch_bounds : Prop := {
  sb_div : forall x y, nonneg_num x -> is_finite x = true -> nonneg_num y -> y <> B754_zero false ->
    is_nan (x_div X x y : F) = false;
  sb_div_le : forall (x y : F) (a b : Z), nonneg x -> upto a x -> at_least y (p2 (- b)) -> (0 <= a + b < emax)%Z ->
    upto (a + b) (x_div X x y : F);
  sb_sqrt : forall (x : F) (a : Z), nonneg x -> upto (2 * a) x -> (0 <= a < emax)%Z ->
    nonneg (x_sqrt X x : F) /\ upto a (x_sqrt X x : F) }.

(** distances of the real atoms *)
Definition geometry_ok (s : sizes) (numbers : tensor Z) (positions : tensor (sc N)) (n c : nat) (B : list nat) : Prop :=
  (Z.of_nat n <= 2 ^ atoms s)%Z /\
  forall b i j, valid B b -> i < n -> j < n -> i <> j -> sl1 numbers b i <> 0%Z -> sl1 numbers b j <> 0%Z ->
    let d := x_dist X c (sl2 positions b i) (sl2 positions b j) : F in
    is_finite d = true /\ (p2 (- near s) <= B2R d <= p2 (far s))%R.

(** charge scaling: for the elements of the call *)
Definition charges_ok (s : sizes) (kw : mkwargs N) (numbers : tensor Z) (n : nat) (B : list nat) : Prop :=
  (forall b i, valid B b -> i < n -> sl1 numbers b i <> 0%Z -> charge_params_ok X kw (Z.to_nat (sl1 numbers b i))) /\
  forall y, at_most y (B2R (default (k_ga kw) (blit prec emax 3))) -> upto (chg s) (l_exp L y).

(** scaling and damping parameters *)
Record params_ok (s : sizes) (param : Param (sc N)) : Prop := {
  po_scale : forall k (x : F), In k ["s6"; "s8"; "s10"; "s9"]%string -> getp param k = Some x -> upto (par s) x;
  po_radius : forall k (x : F), In k ["a1"; "a2"; "bet"]%string -> getp param k = Some x -> nonneg x /\ upto (par s) x;
  po_bet : forall x : F, getp param "bet"%string = Some x -> (B2R x <= 8)%R;
  po_rs : forall k (x : F), In k ["rs6"; "rs8"; "rs9"]%string -> getp param k = Some x -> positive x /\ upto (par s) x;
  po_alp : forall x : F, getp param "alp"%string = Some x -> upto (par s) x }.

(** radii: [r4r2] at most 32 (the tabulated ones are), van-der-Waals radii positive *)
Record radii_ok (s : sizes) (a : Args N) (n : nat) (B : list nat) : Prop := {
  ro_r4r2 : forall t, a_r4r2 a = Some t -> forall b i, valid B b -> i < n -> nonneg (sl1 t b i : F) /\ upto 5 (sl1 t b i);
  ro_rvdw : forall t, a_rvdw a = Some t -> forall b i j, valid B b -> i < n -> j < n ->
    sl1 (a_numbers a) b i <> 0%Z -> sl1 (a_numbers a) b j <> 0%Z ->
    positive (sl2 t b i j : F) /\ upto (par s) (sl2 t b i j);
  ro_vdw : forall zi zj, (1 <= zi <= 103) -> (1 <= zj <= 103) ->
    positive (dat (x_vdw X) [zj; zi] : F) /\ upto (par s) (dat (x_vdw X) [zj; zi]) }.

(** The exponent range suffices.  [2^damping_exp] bounds the damping function of a two-body term. *)
Definition damping_exp (s : sizes) (cls : dclass) : Z :=
  match cls with OptimisedPower => 8 * far s + 16 * near s | _ => 10 * near s end.
Definition term_fits (s : sizes) (t : DispTerm N) : Prop :=
  match t_class t with
  | TwoBodyTerm => exists cls, t_damping t = damping_of X cls /\
      (2 * chg s + damping_exp s cls + par s + atoms s + 53 < emax)%Z
  | _ => t_damping t = ZeroDamping X /\
      (3 * chg s + 6 * far s + 15 * near s + par s + 2 * atoms s + 44 < emax)%Z
  end.
Record fits (s : sizes) (ts : list (DispTerm N)) : Prop := {
  ft_single : (24 <= prec /\ 128 <= emax)%Z;
  ft_pos : (0 <= far s /\ 0 <= near s /\ 0 <= chg s /\ 3 <= par s /\ 0 <= atoms s <= prec)%Z;
  ft_c6 : (6 * chg s + 70 <= emax /\ 6 * par s + 24 <= emax /\ 10 * near s < emax)%Z;
  ft_terms : forall t, In t ts -> term_fits s t;
  ft_number : List.length ts <= 16 }.
End S.

(** ** Proofs *)
Section P.
Context {prec emax : Z} {Hp : Prec_gt_0 prec} {He : Prec_lt_emax prec emax}.
Context {L : Libm prec emax} {L64 : Libm 53 1024}.
Notation N := (IN prec emax L L64).
Notation KI := (IS prec emax L).
Notation F := (binary_float prec emax).
Notation D := (binary_float 53 1024).
Notation p2 := (bpow radix2).
Notation rnd := (round radix2 (SpecFloat.fexp prec emax) (round_mode mode_NE)).
Context (X : Ext (sc N)).
Context (HL : libm_sign L) (H64 : libm_sign L64) (HE : ext_sign (L := L) (L64 := L64) X).
Context (PB : pow_bounds (L := L)) (SB : storch_bounds (L := L) (L64 := L64) X).
Context (H24 : (24 <= prec)%Z) (H128 : (128 <= emax)%Z).

Ltac rng := unfold IeeeB.in_range; lia.

Lemma upto_le2 e x : upto (prec := prec) (emax := emax) e x <-> le2 e x.
Proof. reflexivity. Qed.
Lemma nn_abs (x : F) : nonneg x -> Rabs (B2R x) = B2R x.
Proof. intros H. apply Rabs_pos_eq, sign_nonneg, H. Qed.

(** *** tables *)
Definition Ka : list Z := [10; 8; 8; 8; 7; 7; 7; 7; 6; 6; 6; 6; 5; 5; 5; 5; 4; 4; 3; 3; 2; 1; 0]%Z.
Definition Kt : list Z := [-5; -4; -3; -3; -3; -3; -3; -3; -3; -3; -3; -2; -2; -2; -2; -2; -1; -1; 0; 0; 1; 2; 1]%Z.
Definition ka (w : nat) : Z := nth w Ka 0%Z.
Definition kt (w : nat) : Z := nth w Kt 0%Z.

Lemma ka_range w : (0 <= ka w <= 10)%Z.
Proof. unfold ka, Ka. do 24 (destruct w as [|w]; [simpl; lia|]). simpl. destruct w; lia. Qed.
Lemma kt_range w : (-5 <= kt w <= 2)%Z.
Proof. unfold kt, Kt. do 24 (destruct w as [|w]; [simpl; lia|]). simpl. destruct w; lia. Qed.

Lemma alpha_tab : forallb (fun zt => forallb (fun rt => forallb (fun w =>
   (0 <=? nth w rt 0) && (nth w rt 0 <=? 2 ^ ka w * Zpos DataAlpha.refalpha_tab_dec))%Z (seq 0 23)) zt) DataAlpha.refalpha_tab = true.
Proof. vm_compute. reflexivity. Qed.
Lemma alpha_b z r w : w < 23 ->
  (0 <= nth w (nth r (nth z DataAlpha.refalpha_tab []) []) 0 <= 2 ^ ka w * Zpos DataAlpha.refalpha_tab_dec)%Z.
Proof.
  intros Hw. pose proof alpha_tab as T. rewrite forallb_forall in T.
  pose proof (ka_range w) as K. assert (Q : (0 < 2 ^ ka w)%Z) by (apply Z.pow_pos_nonneg; lia).
  destruct (nth_in_or_default z DataAlpha.refalpha_tab []) as [I| ->].
  2: { assert (E : forall r, nth w (nth r (@nil (list Z)) []) 0%Z = 0%Z) by (intros [|?]; destruct w; reflexivity). rewrite E. lia. }
  specialize (T _ I). rewrite forallb_forall in T.
  destruct (nth_in_or_default r (nth z DataAlpha.refalpha_tab []) []) as [J| ->].
  2: { assert (E : nth w (@nil Z) 0%Z = 0%Z) by (destruct w; reflexivity). rewrite E. lia. }
  specialize (T _ J). rewrite forallb_forall in T. specialize (T w ltac:(apply in_seq; lia)).
  apply andb_true_iff in T as (A & B). apply Z.leb_le in A, B. lia.
Qed.
Lemma tab2_bound (t : list (list Z)) (lo hi : Z) : (lo <= 0 <= hi)%Z ->
  forallb (fun zt => forallb (fun v => (lo <=? v) && (v <=? hi))%Z zt) t = true ->
  forall z r, (lo <= nth r (nth z t []) 0 <= hi)%Z.
Proof.
  intros H0 T z r. rewrite forallb_forall in T.
  destruct (nth_in_or_default z t []) as [I| ->]; [|destruct r; simpl; lia].
  specialize (T _ I). rewrite forallb_forall in T.
  destruct (nth_in_or_default r (nth z t []) 0%Z) as [J| ->]; [|lia].
  specialize (T _ J). apply andb_true_iff in T as (A & B). apply Z.leb_le in A, B. lia.
Qed.
Lemma ascale_tab : forallb (fun zt => forallb (fun v => (0 <=? v) && (v <=? Zpos DataRef.refascale_tab_dec))%Z zt) DataRef.refascale_tab = true.
Proof. vm_compute. reflexivity. Qed.
Definition bigZ : Z := (10 ^ 30)%Z.
Lemma scount_tab : forallb (fun zt => forallb (fun v => (0 <=? v) && (v <=? bigZ))%Z zt) DataRef.refscount_tab = true.
Proof. vm_compute. reflexivity. Qed.
Lemma secscale_tab_nn : forallb (fun zt => forallb (fun v => (0 <=? v) && (v <=? bigZ))%Z zt) DataRef.secscale_tab = true.
Proof. vm_compute. reflexivity. Qed.
Lemma secalpha_tab_nn : forallb (fun zt => forallb (fun v => (0 <=? v) && (v <=? bigZ))%Z zt) DataRef.secalpha_tab = true.
Proof. vm_compute. reflexivity. Qed.
Lemma big0 : (0 <= 0 <= bigZ)%Z. Proof. unfold bigZ. lia. Qed.

Lemma trap_b_tab (t : list Z) (d : BinNums.positive) : forallb (fun w => q_le2 (kt w) (nth w t 0%Z # d)) (seq 0 23) = true ->
  forall w, w < 23 -> le2 (kt w) (blit prec emax (nth w t 0%Z # d)).
Proof.
  intros T w Hw. pose proof (kt_range w). apply le2_lit; [rng|]. rewrite forallb_forall in T.
  apply T, in_seq. lia.
Qed.
Lemma trap_b w : w < 23 -> le2 (kt w) (trap_w (K := KI) w : F).
Proof. intros Hw. apply (trap_b_tab DataPair.trapzd_weights_tab DataPair.trapzd_weights_tab_dec); [vm_compute; reflexivity|exact Hw]. Qed.
Lemma trap_atm_b w : w < 23 -> le2 (kt w) (trap_w_atm (K := KI) w : F).
Proof. intros Hw. apply (trap_b_tab DataPair.trapzd_atm_weights_tab DataPair.trapzd_atm_weights_tab_dec); [vm_compute; reflexivity|exact Hw]. Qed.

Lemma cap_small k : (0 <= k <= 64)%Z -> cap (prec := prec) (emax := emax) (IZR k).
Proof.
  intros Hk. replace (IZR k) with (IZR k * p2 0)%R by (simpl; ring). apply cap_int; [lia|..].
  - assert ((2 ^ 24 <= 2 ^ prec)%Z) by (apply Z.pow_le_mono_r; lia). lia.
  - simpl. rewrite Rmult_1_r. apply Rle_lt_trans with (p2 6).
    + simpl. apply IZR_le. lia.
    + apply bpow_lt. lia.
Qed.

Lemma thopi_b : le2 0 (thopi (K := KI) : F).
Proof.
  apply (bnd_div (p2 0) _ _ 3 3); [apply cap_p2; rng| | |lra|simpl; lra].
  - apply bnd_lit; [apply cap_small; lia|lra|simpl; lra].
  - apply bratio_at_least; [|lra|apply cap_small; lia].
    apply Rmult_le_reg_r with (IZR (Z.pos (10 ^ 39))); [apply IZR_lt; lia|].
    unfold Rdiv. rewrite Rmult_assoc, Rinv_l, Rmult_1_r by (apply IZR_neq; lia).
    rewrite <- mult_IZR. apply IZR_le. vm_compute. discriminate.
Qed.

Lemma r4r2_b z : z < 119 -> le2 5 (dat (R4R2 (K := KI)) [z] : F).
Proof.
  intros Hz. change (le2 5 (r4r2_val (K := KI) z : F)). unfold r4r2_val.
  apply (le2_sqrt 5 _ 9); [| |lia|rng].
  - apply (le2_mul 9 _ _ (-1) 10); [apply le2_lit; [rng|reflexivity]| |lia|rng].
    apply (le2_mul 10 _ _ 6 4); [| |lia|rng].
    + apply le2_lit; [rng|]. revert z Hz. clear.
      assert (T : forallb (fun z => q_le2 6 (nth z DataPair.r4_over_r2_tab 0%Z # DataPair.r4_over_r2_tab_dec)) (seq 0 119) = true)
        by (vm_compute; reflexivity).
      intros z Hz. rewrite forallb_forall in T. apply (T z), in_seq. lia.
    + apply (le2_sqrt 4 _ 8); [| |lia|rng].
      * apply le2_lit; [rng|]. unfold q_le2. simpl. apply Z.leb_le. lia.
      * apply nn_lit. simpl. lia.
  - apply nn_mul; [now apply nn_lit|]. apply nn_mul; [|apply nn_sqrt, nn_lit; simpl; lia].
    apply nn_lit. apply (tab_nonneg _ r4_tab).
Qed.

(** *** reference polarizabilities and C6 coefficients *)
Lemma nn_zsec ga gc ref z r : nonneg (zsec (K := KI) X ga gc ref z r : F).
Proof. unfold zsec. destruct (_ : bool); [unfold zeta_s; destruct (flt _ _); apply HL|reflexivity]. Qed.

Lemma not_lt_nan (x : F) : is_nan x = true -> Bltb (blit prec emax 0) x = false.
Proof. destruct x; try discriminate. reflexivity. Qed.

Lemma aref_b ga gc ref z r w : w < 23 -> le2 (ka w) (aref (K := KI) X ga gc ref z r w : F).
Proof.
  intros Hw. pose proof (ka_range w) as Kr.
  unfold aref. destruct (flt (s := KI) (flit (s := KI) 0) (aref0 (K := KI) X ga gc ref z r w)) eqn:E; [|apply le2_0].
  pose proof (nn_lt0 _ E) as NN. revert E NN. unfold aref0. cbv zeta.
  set (u := t2 (refascale (K := KI)) z r : F). set (al := dat (refalpha (K := KI)) [w; r; Z.to_nat z] : F).
  set (x := fmul (s := KI) (t2 (refscount (K := KI)) z r) _ : F).
  change (fmul (s := KI) u (fsub (s := KI) al x)) with (Bmult mode_NE u (Bminus mode_NE al x)).
  intros E NN. change (Bltb (blit prec emax 0) (Bmult mode_NE u (Bminus mode_NE al x)) = true) in E.
  assert (Nx : nonneg x).
  { apply nn_mul; [|apply nn_mul; [apply nn_mul|apply nn_zsec]]; apply nn_lit;
      [apply (tab2_bound _ _ _ big0 scount_tab)|apply (tab2_bound _ _ _ big0 secscale_tab_nn)|apply (tab2_bound _ _ _ big0 secalpha_tab_nn)]. }
  assert (Uu : unit_float u).
  { assert (R : (0 <= 0 <= Z.pos DataRef.refascale_tab_dec)%Z) by lia.
    pose proof (tab2_bound _ _ _ R ascale_tab (Z.to_nat z) r) as T.
    assert (U : le2 0 u).
    { apply le2_lit; [rng|]. unfold q_le2. cbn [Qnum Qden]. apply Z.leb_le. change (2 ^ 0)%Z with 1%Z. lia. }
    assert (S : nonneg u) by (apply nn_lit; cbn [Qnum]; lia).
    destruct U as (U1 & U2). rewrite nn_abs in U2 by exact S. split; [exact U1|]. pose proof (sign_nonneg u S). simpl in U2. lra. }
  assert (Al : le2 (ka w) al /\ nonneg al).
  { pose proof (alpha_b (Z.to_nat z) r w Hw) as T. split.
    - apply le2_lit; [rng|]. unfold q_le2. cbn [Qnum Qden].
      replace (0 <=? ka w)%Z with true by (symmetry; apply Z.leb_le; lia). apply Z.leb_le. lia.
    - apply nn_lit. cbn [Qnum]. lia. }
  destruct Al as ((Fa & La) & Sa). rewrite nn_abs in La by exact Sa. pose proof (sign_nonneg al Sa) as Pa.
  destruct (is_nan x) eqn:Nn.
  { exfalso. destruct x; try discriminate. clear - E. destruct al, u; discriminate E. }
  pose proof (sub_le al x Fa Nn Nx Pa) as M1.
  pose proof (at_most_le _ _ _ M1 La) as M2.
  destruct (unit_mul_le u _ (p2 (ka w)) Uu M2 (bpow_ge_0 _ _) ltac:(apply rnd_p2; lia)) as [Q|[Q|(Q1 & Q2)]].
  - rewrite not_lt_nan in E by exact Q. discriminate.
  - rewrite Q in E. discriminate.
  - split; [exact Q1|]. change (Rabs (B2R (Bmult mode_NE u (Bminus mode_NE al x))) <= p2 (ka w))%R.
    rewrite nn_abs by exact NN. exact Q2.
Qed.

Lemma bnd_pow2 k e (x : F) : (0 <= k)%Z -> le2 (k + e) x -> bnd (IZR (2 ^ k) * p2 e) x.
Proof.
  intros Hk H. apply (bnd_le _ _ _ H). replace (IZR (2 ^ k)) with (p2 k) by (symmetry; apply (IZR_Zpower radix2); lia).
  rewrite bpow_plus. lra.
Qed.

Lemma rc6_b ga gc ref z1 z2 x y : le2 16 (rc6v (K := KI) X ga gc ref z1 z2 x y : F).
Proof.
  unfold rc6v. apply (le2_mul 16 _ _ 0 16); [exact thopi_b| |lia|rng].
  assert (Sm : zsum 23 (fun w => (2 ^ (2 * ka w + kt w))%Z) = 65458%Z) by reflexivity.
  assert (Q : (2 ^ 24 <= 2 ^ prec)%Z) by (apply Z.pow_le_mono_r; lia).
  assert (Bd : (IZR 65458 * p2 0 <= p2 16)%R) by (simpl; lra).
  apply bnd_le with (IZR (zsum 23 (fun w => (2 ^ (2 * ka w + kt w))%Z)) * p2 0)%R; [|rewrite Sm; exact Bd].
  apply bnd_sum; [lia| |rewrite Sm; lia|].
  - intros w Hw. pose proof (ka_range w). pose proof (kt_range w).
    assert (P : (0 <= 2 * ka w + kt w)%Z).
    { revert Hw. clear. unfold ka, kt, Ka, Kt. do 23 (destruct w as [|w]; [simpl; lia|]). lia. }
    split; [apply Z.lt_le_incl, Z.pow_pos_nonneg; lia|]. apply bnd_pow2; auto.
    apply (le2_mul _ _ _ (kt w + ka w) (ka w)); [|now apply aref_b|lia|rng].
    apply (le2_mul _ _ _ (kt w) (ka w)); [now apply trap_b|now apply aref_b|lia|rng].
  - rewrite Sm. apply Rle_lt_trans with (p2 16); auto. apply bpow_lt. lia.
Qed.

Section M.
Context (z : Z) (Hz : (0 <= z /\ 6 * z + 70 <= emax)%Z).

Lemma c6_b ga gc ref zi zj (wi wj : nat -> F) : (forall r, r < 7 -> le2 z (wi r)) -> (forall r, r < 7 -> le2 z (wj r)) ->
  le2 (22 + 2 * z) (c6_of (N := N) X ga gc ref zi zj wi wj : F).
Proof.
  intros Hi Hj. unfold c6_of.
  apply (le2_sum 7 _ (19 + 2 * z) 3); [|vm_compute; discriminate|lia|lia|lia|lia]. intros y Hy.
  apply (le2_mul _ _ _ (19 + z) z); [|now apply Hj|lia|rng].
  apply (le2_sum 7 _ (16 + z) 3); [|vm_compute; discriminate|lia|lia|lia|lia]. intros x Hx.
  apply (le2_mul _ _ _ 16 z); [apply rc6_b|now apply Hi|lia|rng].
Qed.
Lemma wpol_b ga gc ref zz (wi : nat -> F) w : (forall r, r < 7 -> le2 z (wi r)) -> w < 23 ->
  le2 (3 + z + ka w) (wpol (N := N) X ga gc ref zz wi w : F).
Proof.
  intros Hi Hw. pose proof (ka_range w). unfold wpol.
  apply (le2_sum 7 _ (z + ka w) 3); [|vm_compute; discriminate|lia|lia|lia|lia]. intros r Hr.
  apply (le2_mul _ _ _ z (ka w)); [now apply Hi|now apply aref_b|lia|rng].
Qed.
End M.

(** *** weights *)
Lemma unit_le2 (g : F) : unit_float g -> le2 0 g.
Proof. intros (A & B). split; [exact A|]. rewrite Rabs_pos_eq by lra. simpl. lra. Qed.
Lemma le2_unit (g : F) : nonneg g -> le2 0 g -> unit_float g.
Proof. intros S (A & B). rewrite nn_abs in B by auto. split; [exact A|]. pose proof (sign_nonneg g S). simpl in B. lra. Qed.

Lemma wt_b s kind kw numbers n B (m : Model N) (cn q : option (tensor (sc N))) :
  is_model (N := N) X m kind kw numbers n B -> kind = D4M \/ kind = D4SM ->
  (forall b i, valid B b -> i < n -> (0 <= sl1 numbers b i <= 103)%Z) ->
  charges_ok (L := L) (L64 := L64) X s kw numbers n B -> (0 <= chg s < emax)%Z ->
  forall b i j r, valid B b -> i < n -> j < n -> r < 7 -> le2 (chg s) (wt_of (N := N) X m cn q b i j r : F).
Proof.
  intros Hm Hk HR (HC & HX) Hz b i j r Hb Hi Hj Hr.
  refine (eq_ind_r (fun w : F => le2 (chg s) w) _ (wt_is X kind kw numbers n B m cn q Hm Hk HR b i j r Hb Hi Hj Hr)).
  pose proof (HR b i Hb Hi) as R.
  apply (le2_mul _ _ _ (chg s) 0); [| |lia|rng].
  - destruct (Z.eq_dec (sl1 numbers b i) 0) as [E|E].
    + rewrite E. replace (charge_factor_w X kw (Z.to_nat 0) r (arg_at q b i)) with (B754_zero false : F); [apply le2_0|].
      unfold charge_factor_w. do 7 (destruct r as [|r]; [reflexivity|]). lia.
    + destruct (charge_factor_arg X kw _ r (arg_at q b i) (HC b i Hb Hi E) Hr) as [-> |(y & -> & Hy)]; [apply le2_0|].
      apply HX, Hy.
  - apply unit_le2. apply (ws_unit _ _ _ _ _ _ (weight_spec_ok kind (wf_at kind kw numbers b i j) (arg_at cn b i)
      (Z.to_nat (sl1 numbers b i)) r H64 ltac:(lia) Hr)).
Qed.

(** *** damping functions *)
Context (s : sizes) (Hs : (0 <= far s /\ 0 <= near s /\ 0 <= chg s /\ 3 <= par s /\ 0 <= atoms s <= prec)%Z)
  (Hs6 : (6 * chg s + 70 <= emax /\ 6 * par s + 24 <= emax /\ 10 * near s < emax)%Z).

Definition dist_ok (d : F) : Prop := is_finite d = true /\ (p2 (- near s) <= B2R d <= p2 (far s))%R.
Lemma dist_ge d : dist_ok d -> at_least d (p2 (- near s)).
Proof. intros (A & B). right. split; auto. lra. Qed.
Lemma dist_nn d : dist_ok d -> nonneg d.
Proof. intros H. apply (at_least_sign d _ (dist_ge d H)), bpow_gt_0. Qed.
Lemma dist_num d : dist_ok d -> nonneg_num d.
Proof. intros H. split; [apply is_nan_finite, H|now apply dist_nn]. Qed.
Lemma dist_rng d : dist_ok d -> is_finite d = true /\ (0 <= B2R d <= p2 (far s))%R.
Proof. intros (A & B). split; auto. pose proof (bpow_gt_0 radix2 (- near s)). lra. Qed.

Lemma fin_num (x : F) : nonneg x -> is_finite x = true -> nonneg_num x.
Proof. intros A B. split; auto. now apply is_nan_finite. Qed.
Lemma pos_nn (x : F) : positive x -> nonneg x.
Proof. intros (A & B). apply (at_least_sign x (B2R x)); [right; split; auto; lra|auto]. Qed.
Lemma pos_strict (x : F) : positive x -> is_finite_strict x = true.
Proof. intros (A & B). destruct x; simpl in *; auto; try discriminate. lra. Qed.
Lemma lit_pos k : (1 <= k <= 64)%Z -> positive (blit prec emax (inject_Z k)) /\ at_least (blit prec emax (inject_Z k)) (IZR k).
Proof.
  intros Hk.
  assert (A : at_least (blit prec emax (inject_Z k)) (IZR k)).
  { destruct k as [|k|k]; try lia. apply bratio_at_least; [simpl; lra|apply IZR_lt; lia|apply cap_small; lia]. }
  assert (Bd : bnd (IZR k) (blit prec emax (inject_Z k))).
  { apply bnd_lit; [apply cap_small; lia|apply IZR_le; lia|]. simpl. rewrite Z.abs_eq by lia. lra. }
  split; auto. destruct Bd as (Bf & _). split; auto. destruct A as [A|(_ & A)]; [rewrite A in Bf; discriminate|].
  assert (0 < IZR k)%R by (apply IZR_lt; lia). lra.
Qed.

(** [1 / (1 + 6 y)] *)
Lemma frac_unit (y : F) : nonneg_num y ->
  unit_float (Bdiv mode_NE (blit prec emax 1) (Bplus mode_NE (blit prec emax 1) (Bmult mode_NE (blit prec emax 6) y))).
Proof.
  intros (Ny & Sy). destruct (lit_pos 1 ltac:(lia)) as (P1 & G1). destruct (lit_pos 6 ltac:(lia)) as (P6 & _).
  assert (S6 : nonneg (Bmult mode_NE (blit prec emax 6) y)) by (apply nn_mul; auto; now apply nn_lit).
  assert (N6 : is_nan (Bmult mode_NE (blit prec emax 6) y) = false) by (apply mul_nan_strict; auto; now apply pos_strict).
  assert (G : at_least (Bplus mode_NE (blit prec emax 1) (Bmult mode_NE (blit prec emax 6) y)) 1) by (apply ge2_add; auto; lra).
  apply le2_unit.
  - apply nn_div; [now apply nn_lit|]. apply (at_least_sign _ 1 G). lra.
  - apply (le2_div 0 _ _ 0 0); [apply le2_lit; [rng|reflexivity]|exact G|lia|rng].
Qed.

Lemma zero_fac_unit (rs alp d r : F) : positive rs -> is_nan alp = false -> nonneg_num (x_div X d r : F) ->
  unit_float (zero_fac (K := KI) X rs alp d r : F).
Proof.
  intros P A (N0 & S0). apply frac_unit. 
  assert (Q : nonneg_num (Bmult mode_NE rs (x_div X d r : F))).
  { split; [apply mul_nan_strict; auto; now apply pos_strict|]. apply nn_mul; auto. now apply pos_nn. }
  split; [now apply PB|]. apply HL. apply Q.
Qed.

Definition gb (rok : F -> Prop) (e : Z) (g : F -> F -> F) : Prop := forall d r, dist_ok d -> rok r -> le2 e (g d r).
Definition rokq (r : F) : Prop := nonneg r /\ le2 12 r.
Definition rokv (r : F) : Prop := positive r.

Lemma gb_eq rok e e' (g g' : F -> F -> F) : (forall x y, g x y = g' x y) -> gb rok e g' -> (e <= e')%Z -> gb rok e' g.
Proof. intros E K Le d r A B. rewrite E. apply (le2_le e); auto. Qed.
Lemma gb_0 rok e : gb rok e (fun _ _ => flit (s := KI) 0).
Proof. intros d r _ _. apply le2_0. Qed.

Lemma pown_ge d o : dist_ok d -> o <= 10 -> at_least (l_pown L d o) (p2 (- (near s * Z.of_nat o))).
Proof. intros H Ho. apply PB; [now apply dist_ge|lia|]. assert (near s * Z.of_nat o <= near s * 10)%Z by (apply Z.mul_le_mono_nonneg_l; lia). lia. Qed.
Lemma near_o o : o <= 10 -> (0 <= near s * Z.of_nat o <= 10 * near s)%Z.
Proof. intros Ho. assert (near s * Z.of_nat o <= near s * 10)%Z by (apply Z.mul_le_mono_nonneg_l; lia). lia. Qed.

Lemma rad_num (a1 a2 : F) (r : F) : nonneg a1 -> le2 (par s) a1 -> nonneg a2 -> le2 (par s) a2 -> nonneg r -> le2 6 r ->
  nonneg (Bplus mode_NE (Bmult mode_NE a1 r) a2) /\ le2 (par s + 7) (Bplus mode_NE (Bmult mode_NE a1 r) a2).
Proof.
  intros S1 B1 S2 B2 Sr Br. split; [apply nn_add; auto; now apply nn_mul|].
  apply (le2_add _ _ _ (par s + 6) (par s)); [|exact B2|lia|lia|rng].
  apply (le2_mul _ _ _ (par s) 6); auto; [lia|rng].
Qed.
Lemma sqrt_rokq (r : F) : rokq r -> nonneg (Bsqrt mode_NE r) /\ le2 6 (Bsqrt mode_NE r).
Proof. intros (S & H). split; [now apply nn_sqrt|]. apply (le2_sqrt _ _ 12); auto; [lia|rng]. Qed.

Lemma gb_rat (a1 a2 : F) o : nonneg a1 -> le2 (par s) a1 -> nonneg a2 -> le2 (par s) a2 -> o <= 10 ->
  gb rokq (10 * near s) (rat_g (K := KI) a1 a2 o).
Proof.
  intros S1 B1 S2 B2 Ho d r Hd Hr. unfold rat_g. destruct (sqrt_rokq r Hr) as (Sr & Br).
  destruct (rad_num a1 a2 _ S1 B1 S2 B2 Sr Br) as (SR & BR). pose proof (near_o o Ho).
  apply (le2_div _ _ _ 0 (- (near s * Z.of_nat o))); [apply le2_lit; [rng|reflexivity]| |lia|rng].
  apply ge2_add; [now apply pown_ge|apply bpow_gt_0| |].
  - apply PB. apply fin_num; [exact SR|apply BR].
  - apply HL. exact SR.
Qed.

Lemma gb_zero (rs alp : F) o : positive rs -> is_nan alp = false -> o <= 10 ->
  gb rokv (10 * near s) (zero_g (K := KI) X rs alp o false).
Proof.
  intros P A Ho d r Hd Hr. unfold zero_g. pose proof (near_o o Ho).
  assert (Q : nonneg_num (x_div X d r : F)).
  { split.
    - apply SB; [now apply dist_num|apply Hd|apply fin_num; [now apply pos_nn|apply Hr]|].
      intros ->. destruct Hr as (_ & Hr). simpl in Hr. lra.
    - apply HE; [now apply dist_nn|now apply pos_nn]. }
  pose proof (zero_fac_unit rs alp d r P A Q) as U.
  apply (le2_le (0 + near s * Z.of_nat o)); [|lia]. apply SB; [|now apply unit_le2|now apply pown_ge|lia].
  unfold zero_fac. apply nn_div; [now apply nn_lit|]. apply nn_add; [now apply nn_lit|].
  apply nn_mul; [now apply nn_lit|]. apply HL. apply nn_mul; [now apply pos_nn|apply Q].
Qed.

Lemma gb_mzero (rs alp bet : F) o : positive rs -> is_nan alp = false -> nonneg bet -> le2 (par s) bet -> o <= 10 ->
  gb (fun r => rokv r /\ le2 (par s) r) (10 * near s) (mzero_g (K := KI) X rs alp bet o).
Proof.
  intros P A Sb Bb Ho d r Hd (Hr & Br). unfold mzero_g. pose proof (near_o o Ho).
  set (y := fpow (s := KI) _ _ : F).
  assert (Q : nonneg_num y).
  { set (t := fadd (s := KI) (fdiv (s := KI) d (fmul (s := KI) rs r)) (fmul (s := KI) bet r) : F).
    assert (Tn : nonneg_num t).
    { assert (S1 : nonneg (Bmult mode_NE rs r)) by (apply nn_mul; now apply pos_nn).
      assert (N1 : is_nan (Bmult mode_NE rs r) = false).
      { apply mul_nan_strict; [now apply pos_strict|]. apply is_nan_finite, Hr. }
      assert (B1 : le2 (2 * par s) (Bmult mode_NE bet r)) by (apply (le2_mul _ _ _ (par s) (par s)); auto; [lia|rng]).
      split.
      - apply nn_add_nan.
        + apply div_nan; auto. apply pos_strict. destruct Hd as (Hd1 & Hd2). split; auto. pose proof (bpow_gt_0 radix2 (- near s)). lra.
        + apply is_nan_finite, B1.
        + apply nn_div; auto. now apply dist_nn.
        + apply nn_mul; auto. now apply pos_nn.
      - apply nn_add; [apply nn_div; auto; now apply dist_nn|]. apply nn_mul; auto. now apply pos_nn. }
    split; [|apply HL, Tn]. apply PB; [exact Tn|]. destruct alp; auto. }
  pose proof (frac_unit y Q) as U.
  apply (le2_le (0 + near s * Z.of_nat o)); [|lia]. apply SB; [|now apply unit_le2|now apply pown_ge|lia].
  apply nn_div; [now apply nn_lit|]. apply nn_add; [now apply nn_lit|]. apply nn_mul; [now apply nn_lit|apply Q].
Qed.

Lemma gb_op (a1 a2 bet : F) o : nonneg a1 -> le2 (par s) a1 -> nonneg a2 -> le2 (par s) a2 ->
  nonneg bet -> is_finite bet = true -> (B2R bet <= 8)%R -> o <= 8 -> (8 * far s + 16 * near s < emax)%Z ->
  gb rokq (8 * far s + 16 * near s) (op_g (K := KI) a1 a2 bet o).
Proof.
  intros S1 B1 S2 B2 Sb Fb Bb Ho Rg d r Hd Hr. unfold op_g. cbv zeta. destruct (sqrt_rokq r Hr) as (Sr & Br).
  destruct (rad_num a1 a2 _ S1 B1 S2 B2 Sr Br) as (SR & BR).
  pose proof (sign_nonneg bet Sb) as Pb.
  destruct (dist_rng d Hd) as (Fd & Ld).
  assert (U1 : le2 (far s * 8) (l_pow L d bet)) by (apply (pb_pow_le PB); auto; [now apply dist_num|lia..]).
  assert (U2 : at_least (l_pow L d bet) (p2 (- (near s * 8)))) by (apply PB; auto; [now apply dist_ge|lia..]).
  assert (U3 : at_least (l_pown L d o) (p2 (- (near s * Z.of_nat o)))) by (apply pown_ge; auto; lia).
  assert (No : (0 <= near s * Z.of_nat o <= 8 * near s)%Z).
  { assert (near s * Z.of_nat o <= near s * 8)%Z by (apply Z.mul_le_mono_nonneg_l; lia). lia. }
  apply (le2_div _ _ _ (far s * 8) (- (16 * near s))); [exact U1| |lia|rng].
  assert (NR : is_nan (l_pow L (Bplus mode_NE (Bmult mode_NE a1 (Bsqrt mode_NE r)) a2) bet) = false).
  { apply PB; [apply fin_num; [exact SR|apply BR]|now apply is_nan_finite]. }
  apply ge2_add; [|apply bpow_gt_0| |].
  - apply (ge2_mul _ _ _ (- (near s * 8)) (- (near s * Z.of_nat o))); auto; lia.
  - apply mul_nan_strict_r; [exact NR|]. apply pos_strict.
    assert (Uo : le2 (far s * Z.of_nat o) (l_pown L d o)).
    { apply (pb_pown_le PB d o (far s) Fd Ld); [lia|]. assert (far s * Z.of_nat o <= far s * 8)%Z by (apply Z.mul_le_mono_nonneg_l; lia). lia. }
    destruct Uo as (Fo & _). split; [exact Fo|]. destruct U3 as [Q|(_ & Q)]; [rewrite Q in Fo; discriminate|].
    exact (Rlt_le_trans _ _ _ (bpow_gt_0 radix2 _) Q).
  - apply nn_mul; [apply HL; exact SR|]. apply HL. now apply dist_nn.
Qed.

(** *** two-body energies *)
Section E.
Context (n c : nat) (num : nat -> Z) (pos : nat -> nat -> F) (r : nat -> F).
Context (Hn : (Z.of_nat n <= 2 ^ atoms s)%Z).
Context (Hd : forall i j, i < n -> j < n -> i <> j -> num i <> 0%Z -> num j <> 0%Z -> dist_ok (x_dist X c (pos i) (pos j) : F)).
Context (Hr : forall i, i < n -> nonneg (r i) /\ le2 5 (r i)).

Lemma is_real_nz x : is_real x = true -> x <> 0%Z.
Proof. unfold is_real. intros H ->. discriminate. Qed.
Lemma pmask_dist i j : i < n -> j < n -> pmask num i j = true -> dist_ok (pdist (K := KI) X c num pos i j : F).
Proof.
  intros Hi Hj E. unfold pdist. rewrite E. unfold pmask in E. apply andb_true_iff in E as (E & E3).
  apply andb_true_iff in E as (E1 & E2). apply Hd; auto using is_real_nz.
  intros ->. now rewrite Nat.eqb_refl in E3.
Qed.

Lemma qq_ok i j : i < n -> j < n -> rokq (qq (K := KI) r i j : F).
Proof.
  intros Hi Hj. destruct (Hr i Hi) as (Si & Bi). destruct (Hr j Hj) as (Sj & Bj). split.
  - apply nn_mul; auto. apply nn_mul; auto. now apply nn_lit.
  - apply (le2_mul _ _ _ 7 5); auto; [|lia|rng]. apply (le2_mul _ _ _ 2 5); auto; [|lia|rng].
    apply le2_lit; [rng|reflexivity].
Qed.

Section E2.
Context (c6 rad : nat -> nat -> F) (cut : F) (rok : F -> Prop).
Context (H6 : forall i j, i < n -> j < n -> le2 (22 + 2 * chg s) (c6 i j)).
Context (Hrad : forall i j, i < n -> j < n -> pmask num i j = true -> rok (rad i j)).
Context (te : Z) (Ht : (0 <= te /\ 2 * chg s + te + par s + atoms s + 53 < emax)%Z).

Lemma tfac_b g i j : i < n -> j < n -> gb rok te g -> le2 te (tfac (K := KI) X g c num pos rad cut i j : F).
Proof.
  intros Hi Hj Hg. unfold tfac. destruct (pmask num i j) eqn:E; [|apply le2_0]. cbn [andb].
  destruct (fle _ _); [|apply le2_0]. apply Hg; [now apply pmask_dist|now apply Hrad].
Qed.
Lemma c8_b i j : i < n -> j < n -> le2 (47 + 2 * chg s) (c8v (K := KI) c6 r i j : F).
Proof.
  intros Hi Hj. apply (le2_le (34 + 2 * chg s)); [|lia].
  apply (le2_mul _ _ _ (22 + 2 * chg s) 12); [auto|now apply qq_ok|lia|rng].
Qed.
Lemma c10_b i j : i < n -> j < n -> le2 (47 + 2 * chg s) (c10v (K := KI) c6 r i j : F).
Proof.
  intros Hi Hj. unfold c10v. destruct (qq_ok i j Hi Hj) as (S & Q).
  apply (le2_div _ _ _ (52 + 2 * chg s) 5); [| |lia|rng].
  - apply (le2_mul _ _ _ (46 + 2 * chg s) 6); [|apply le2_lit; [rng|reflexivity]|lia|rng].
    apply (le2_mul _ _ _ (22 + 2 * chg s) 24); [auto| |lia|rng].
    apply (pb_pown_le PB _ 2 12); [apply Q| |lia|lia]. destruct Q as (_ & Q). rewrite nn_abs in Q by exact S.
    split; [apply sign_nonneg, S|exact Q].
  - destruct (lit_pos 40 ltac:(lia)) as (_ & G). apply (at_least_le _ _ _ G). simpl. lra.
Qed.
Lemma dsum_b g (f : nat -> nat -> F) i : i < n -> gb rok te g -> (forall j, j < n -> le2 (47 + 2 * chg s) (f i j)) ->
  le2 (47 + 2 * chg s + te + atoms s) (fsum (K := KI) n (fun j => fmul (s := KI) (f i j) (tfac (K := KI) X g c num pos rad cut i j)) : F).
Proof.
  intros Hi Hg Hf. apply (le2_sum n _ (47 + 2 * chg s + te) (atoms s)); auto; try lia.
  intros j Hj. apply (le2_mul _ _ _ (47 + 2 * chg s) te); [now apply Hf|now apply tfac_b|lia|rng].
Qed.
Lemma e2_b g6 g8 (s6 s8 : F) (s10 : option (F * (F -> F -> F))) i : i < n ->
  gb rok te g6 -> gb rok te g8 -> le2 (par s) s6 -> le2 (par s) s8 ->
  match s10 with Some (x, g) => le2 (par s) x /\ gb rok te g | None => True end ->
  le2 (emax - 5) (e2_atom (K := KI) X n c num pos c6 rad r cut g6 g8 s6 s8 s10 i : F).
Proof.
  intros Hi G6 G8 S6 S8 S10. unfold e2_atom.
  set (E := (47 + 2 * chg s + te + atoms s + par s)%Z).
  assert (Q : le2 (E + 1) (fadd (s := KI)
     (fmul (s := KI) s6 (fsum (K := KI) n (fun j => fmul (s := KI) (c6 i j) (tfac (K := KI) X g6 c num pos rad cut i j))))
     (fmul (s := KI) s8 (fsum (K := KI) n (fun j => fmul (s := KI) (c8v (K := KI) c6 r i j) (tfac (K := KI) X g8 c num pos rad cut i j)))) : F)).
  { apply (le2_add _ _ _ E E); [| |lia|lia|rng].
    - apply (le2_mul _ _ _ (par s) (47 + 2 * chg s + te + atoms s)); [auto| |lia|rng].
      apply dsum_b; auto. intros j Hj. apply (le2_le (22 + 2 * chg s)); auto. lia.
    - apply (le2_mul _ _ _ (par s) (47 + 2 * chg s + te + atoms s)); [auto| |lia|rng].
      apply dsum_b; auto. intros j Hj. now apply c8_b. }
  apply (le2_mul _ _ _ 0 (E + 2)); [apply le2_lit; [rng|reflexivity]| |lia|rng].
  destruct s10 as [[s10 g10]|]; [|apply (le2_le (E + 1)); [exact Q|lia]].
  destruct S10 as (S10 & G10). apply (le2_add _ _ _ (E + 1) E); [exact Q| |lia|lia|rng].
  apply (le2_mul _ _ _ (par s) (47 + 2 * chg s + te + atoms s)); [auto| |lia|rng].
  apply dsum_b; auto. intros j Hj. now apply c10_b.
Qed.
End E2.

(** *** three-body energies *)
Section E3.
Context (c9 : nat -> nat -> nat -> F) (rad : nat -> nat -> F) (cut s9 alp : F).
Context (H9 : forall i j k, i < n -> j < n -> k < n -> le2 (35 + 3 * chg s) (c9 i j k)).
Context (Hrad : forall i j, i < n -> j < n -> pmask num i j = true -> nonneg (rad i j) /\ le2 (2 * par s + 7) (rad i j)).
Context (Hs9 : le2 (par s) s9) (Halp : is_nan alp = false).
Context (Hb : (3 * chg s + 6 * far s + 15 * near s + par s + 2 * atoms s + 44 < emax)%Z).

Lemma lit2_rng : is_finite (blit prec emax 2) = true /\ (0 <= B2R (blit prec emax 2) <= IZR 2)%R.
Proof.
  destruct (lit_pos 2 ltac:(lia)) as ((A & B) & _). split; [exact A|].
  assert (Bd : bnd (IZR 2) (blit prec emax 2)) by (apply bnd_lit; [apply cap_small; lia|lra|simpl; lra]).
  destruct Bd as (_ & Bd). apply Rabs_le_inv in Bd. change (inject_Z 2) with (2%Q) in B. lra.
Qed.
Lemma d2_b i j : i < n -> j < n -> pmask num i j = true ->
  nonneg (pd2 (K := KI) X c num pos i j : F) /\ le2 (2 * far s) (pd2 (K := KI) X c num pos i j : F) /\
  at_least (pd2 (K := KI) X c num pos i j : F) (p2 (- (2 * near s))).
Proof.
  intros Hi Hj E. pose proof (pmask_dist i j Hi Hj E) as G. unfold pd2. destruct lit2_rng as (F2 & R2).
  destruct (dist_rng _ G) as (Fd & Ld).
  split; [|split].
  - apply HL. now apply dist_nn.
  - apply (le2_le (far s * 2)); [|lia]. apply (pb_pow_le PB); auto; [now apply dist_num|lia..].
  - replace (2 * near s)%Z with (near s * 2)%Z by ring. apply (pb_pow_ge PB); auto; [now apply dist_ge|lia|lia].
Qed.
Lemma tmask_pmask i j k : tmask num i j k = true -> pmask num i j = true /\ pmask num i k = true /\ pmask num j k = true.
Proof.
  unfold tmask, pmask. intros H. repeat (apply andb_true_iff in H as (H & ?)). repeat split; repeat (apply andb_true_iff; split); auto.
Qed.

Lemma e3_triple_b i j k : i < n -> j < n -> k < n ->
  le2 (39 + 3 * chg s + 6 * far s + 15 * near s + par s)
    (e3_triple (K := KI) X c num pos c9 rad cut (zero_fac (K := KI) X (flit (s := KI) 1) alp) s9 i j k : F).
Proof.
  intros Hi Hj Hk. unfold e3_triple.
  apply (le2_mul _ _ _ (4 + 6 * far s + 15 * near s + par s) (35 + 3 * chg s)); [|now apply H9|lia|rng].
  apply (le2_mul _ _ _ (4 + 6 * far s + 15 * near s) (par s)); [|exact Hs9|lia|rng].
  unfold angp, fdp, sp, r5p, r3p. destruct (tmask num i j k) eqn:E.
  2: { cbn [andb]. apply (le2_mul _ _ _ 0 0); [apply le2_0|apply le2_0|lia|rng]. }
  destruct (tmask_pmask i j k E) as (Eij & Eik & Ejk).
  destruct (d2_b i j Hi Hj Eij) as (Sij & Uij & Lij). destruct (d2_b i k Hi Hk Eik) as (Sik & Uik & Lik).
  destruct (d2_b j k Hj Hk Ejk) as (Sjk & Ujk & Ljk).
  assert (R2u : le2 (6 * far s) (r2p (K := KI) X c num pos i j k : F)).
  { apply (le2_mul _ _ _ (4 * far s) (2 * far s)); auto; [|lia|rng]. apply (le2_mul _ _ _ (2 * far s) (2 * far s)); auto; [lia|rng]. }
  assert (R2l : at_least (r2p (K := KI) X c num pos i j k : F) (p2 (- (6 * near s)))).
  { apply (ge2_mul _ _ _ (- (4 * near s)) (- (2 * near s))); auto; [|lia|lia].
    apply (ge2_mul _ _ _ (- (2 * near s)) (- (2 * near s))); auto; lia. }
  assert (R2s : nonneg (r2p (K := KI) X c num pos i j k : F)) by (apply nn_mul; auto; now apply nn_mul).
  revert R2u R2l R2s. generalize (r2p (K := KI) X c num pos i j k : F). intros r2 R2u R2l R2s.
  assert (R1u : le2 (3 * far s) (Bsqrt mode_NE r2)) by (apply (le2_sqrt _ _ (6 * far s)); auto; [lia|rng]).
  assert (R1l : at_least (Bsqrt mode_NE r2) (p2 (- (3 * near s)))) by (apply (ge2_sqrt _ _ (- (6 * near s))); auto; lia).
  assert (R1s : nonneg (Bsqrt mode_NE r2)) by now apply nn_sqrt.
  assert (R3l : at_least (Bmult mode_NE (Bsqrt mode_NE r2) r2) (p2 (- (9 * near s)))).
  { apply (ge2_mul _ _ _ (- (3 * near s)) (- (6 * near s))); auto; lia. }
  assert (R5l : at_least (Bmult mode_NE r2 (Bmult mode_NE (Bsqrt mode_NE r2) r2)) (p2 (- (15 * near s)))).
  { apply (ge2_mul _ _ _ (- (6 * near s)) (- (9 * near s))); auto; lia. }
  (* damping *)
  assert (FD : le2 0 (zero_fac (K := KI) X (flit (s := KI) 1) alp (r0p (K := KI) rad i j k) (fsqrt (s := KI) r2) : F)).
  { destruct (Hrad i j Hi Hj Eij) as (A1 & A2). destruct (Hrad i k Hi Hk Eik) as (A3 & A4).
    destruct (Hrad j k Hj Hk Ejk) as (A5 & A6).
    assert (R0 : nonneg (r0p (K := KI) rad i j k : F)) by (apply nn_mul; auto; now apply nn_mul).
    assert (R0u : le2 (6 * par s + 21) (r0p (K := KI) rad i j k : F)).
    { apply (le2_mul _ _ _ (4 * par s + 14) (2 * par s + 7)); auto; [|lia|rng].
      apply (le2_mul _ _ _ (2 * par s + 7) (2 * par s + 7)); auto; [lia|rng]. }
    apply unit_le2. apply zero_fac_unit; auto; [apply (lit_pos 1); lia|]. split.
    - apply SB; [apply fin_num; auto; apply R0u|apply R0u|apply fin_num; auto; apply R1u|].
      intros Q. change (Bsqrt mode_NE r2 = B754_zero false) in Q. rewrite Q in R1l. destruct R1l as [R1l|(_ & R1l)]; [discriminate|].
      exact (Rlt_irrefl _ (Rlt_le_trans _ _ _ (bpow_gt_0 radix2 _) R1l)).
    - apply HE; auto. }
  apply (le2_mul _ _ _ (4 + 6 * far s + 15 * near s) 0); [|exact FD|lia|rng].
  match goal with |- context [if ?b then _ else _] => destruct b end; [|apply le2_0].
  apply (le2_add _ _ _ (3 + 6 * far s + 15 * near s) (9 * near s)); [| |lia|lia|rng].
  - apply (le2_div _ _ _ (3 + 6 * far s) (- (15 * near s))); [|exact R5l|lia|rng].
    apply (le2_mul _ _ _ (-1) (4 + 6 * far s)); [apply le2_lit; [rng|reflexivity]| |lia|rng].
    assert (Cp : cap (prec := prec) (emax := emax) (p2 (2 * far s + 1))) by (apply cap_p2; rng).
    assert (C0 : cap (prec := prec) (emax := emax) (p2 (2 * far s))) by (apply cap_p2; rng).
    apply (le2_mul _ _ _ (2 + 4 * far s) (2 + 2 * far s)); [| |lia|rng].
    + apply (le2_mul _ _ _ (2 * far s + 1) (2 * far s + 1)); [| |lia|rng].
      * apply bnd_sub_nonneg; auto.
        -- apply (le2_add _ _ _ (2 * far s) (2 * far s)); auto; [lia|lia|rng].
        -- apply (le2_le (2 * far s)); auto. lia.
        -- apply sign_nonneg, nn_add; auto.
        -- apply sign_nonneg; auto.
      * apply (le2_add _ _ _ (2 * far s) (2 * far s)); auto; [|lia|lia|rng].
        apply bnd_sub_nonneg; auto; apply sign_nonneg; auto.
    + apply (le2_add _ _ _ (2 * far s + 1) (2 * far s)); auto; [|lia|lia|rng].
      apply (le2_add _ _ _ (2 * far s) (2 * far s)); auto; [|lia|lia|rng]. apply bnd_opp. exact Uij.
  - apply (le2_div _ _ _ 0 (- (9 * near s))); [apply le2_lit; [rng|reflexivity]|exact R3l|lia|rng].
Qed.

Lemma e3_b i : i < n -> le2 (emax - 5)
  (e3_atom (K := KI) X n c num pos c9 rad cut (zero_fac (K := KI) X (flit (s := KI) 1) alp) s9 i : F).
Proof.
  intros Hi. unfold e3_atom. set (E := (39 + 3 * chg s + 6 * far s + 15 * near s + par s)%Z).
  apply (le2_div _ _ _ (E + 2 * atoms s) 0); [| |lia|rng].
  - apply (le2_sum n _ (E + atoms s) (atoms s)); auto; try lia. intros j Hj.
    apply (le2_sum n _ E (atoms s)); auto; try lia. intros k Hk. now apply e3_triple_b.
  - destruct (lit_pos 6 ltac:(lia)) as (_ & G). apply (at_least_le _ _ _ G). simpl. lra.
Qed.
End E3.
End E.

(** *** parameters *)
Section Q.
Context (param : Param (sc N)) (PO : params_ok (L := L) (L64 := L64) s param).

Lemma getd_cases k q (P : F -> Prop) : (forall x : F, getp (K := sc N) param k = Some x -> P x) -> P (blit prec emax q) ->
  P (getd (K := KI) param k q : F).
Proof.
  intros H1 H2. unfold getd. change (P (default (getp (K := sc N) param k) (blit prec emax q : sc N) : F)).
  destruct (getp (K := sc N) param k) as [x|] eqn:E; cbn [default]; auto.
Qed.
Lemma lit_le2 q e : q_le2 0 q = true -> (0 <= e)%Z -> le2 e (blit prec emax q).
Proof. intros H He'. apply (le2_le 0); [apply le2_lit; [rng|exact H]|lia]. Qed.

Lemma scale_b k q : In k ["s6"; "s8"; "s10"; "s9"]%string -> q_le2 0 q = true -> le2 (par s) (getd (K := KI) param k q : F).
Proof. intros Hk Hq. apply getd_cases; [intros x Hx; exact (po_scale _ _ PO k x Hk Hx)|]. apply lit_le2; [exact Hq|lia]. Qed.
Lemma alp_b : le2 (par s + 1) (getd (K := KI) param "alp" dALP : F).
Proof.
  apply getd_cases; [intros x Hx; apply (le2_le (par s)); [exact (po_alp _ _ PO x Hx)|lia]|].
  apply (le2_le 4); [apply le2_lit; [rng|reflexivity]|lia].
Qed.
Lemma alp_nan : is_nan (getd (K := KI) param "alp" dALP : F) = false.
Proof. apply is_nan_finite, alp_b. Qed.
Lemma alp2_nan : is_nan (fadd (s := KI) (getd (K := KI) param "alp" dALP) (flit (s := KI) 2) : F) = false.
Proof.
  apply is_nan_finite. refine (proj1 (_ : le2 (par s + 2) _)).
  apply (le2_add _ _ _ (par s + 1) 1); [exact alp_b|apply le2_lit; [rng|reflexivity]|lia|lia|rng].
Qed.
Lemma alp3_nan : is_nan (fdiv (s := KI) (getd (K := KI) param "alp" dALP) (flit (s := KI) 3) : F) = false.
Proof.
  apply is_nan_finite. refine (proj1 (_ : le2 (par s + 1) _)).
  apply (le2_div _ _ _ (par s + 1) 1); [exact alp_b| |lia|rng].
  destruct (lit_pos 3 ltac:(lia)) as (_ & G). apply (at_least_le _ _ _ G). simpl. lra.
Qed.

Definition rok_of (cls : dclass) : F -> Prop :=
  match cls with Rational | OptimisedPower => rokq | _ => fun r => rokv r /\ le2 (par s) r end.

Lemma gb_weak (rok rok' : F -> Prop) e g : (forall r, rok' r -> rok r) -> gb rok e g -> gb rok' e g.
Proof. intros H K d r A B. apply K; auto. Qed.

Lemma two_body_gb cls (Fn : tfun KI) kind cd : good_param param -> (damping_exp s cls < emax)%Z ->
  term_ok (N := N) param kind (mkTerm (N := N) TwoBodyTerm (damping_of X cls) cd) Fn ->
  gb (rok_of cls) (damping_exp s cls) (f6 Fn) /\ gb (rok_of cls) (damping_exp s cls) (f8 Fn) /\
  (getp param "s10" <> None -> gb (rok_of cls) (damping_exp s cls) (f10 Fn)).
Proof.
  intros G DE T. pose proof (two_body_outcome X cls param Fn kind cd G T) as H.
  cbn [term_ok t_class t_damping] in T. destruct T as (_ & T6 & T8 & T10).
  assert (PR : forall k x, getp param k = Some x -> In k ["a1"; "a2"; "bet"]%string -> nonneg (x : F) /\ le2 (par s) (x : F))
    by (intros k x Hx Hk; exact (po_radius _ _ PO k x Hk Hx)).
  assert (PS : forall k x, getp param k = Some x -> In k ["rs6"; "rs8"; "rs9"]%string -> positive (x : F))
    by (intros k x Hx Hk; exact (proj1 (po_rs _ _ PO k x Hk Hx))).
  apply outcome_none in H.
  assert (Off : (binds param "rs8" = false -> binds param "s8" = false) -> getp param "rs8" = None -> active param 8 = false).
  { intros A E8. unfold active, has. rewrite E8. assert (B : binds param "s8" = false) by (apply A; unfold binds; now rewrite E8).
    apply binds_none in B. now rewrite B. }
  assert (Off10 : binds param "s10" = false -> getp param "s10" <> None -> False) by (intros A B; now apply binds_none in A).
  assert (In0 : forall rok e d o g, active param o = false -> elementwise d param o false g -> gb rok e g).
  { intros rok e d o g A Hg. apply (gb_eq rok e e _ _ (elementwise_unique _ _ _ _ _ _ Hg (inactive_elementwise d param o false G A))); [apply gb_0|lia]. }
  destruct cls; cbn [damping_of damping_exp rok_of] in *.
  - destruct H as (E1 & E2).
    destruct (binds_some _ _ E1) as (a1 & E1'). destruct (binds_some _ _ E2) as (a2 & E2').
    destruct (PR "a1"%string a1 E1') as (S1 & B1); [simpl; tauto|]. destruct (PR "a2"%string a2 E2') as (S2 & B2); [simpl; tauto|].
    assert (Q : forall o g, o <= 10 -> elementwise RationalDamping param o false g -> gb rokq (10 * near s) g).
    { intros o g Ho Hg. destruct (active param o) eqn:A; [|eapply In0; eauto].
      apply (gb_eq _ _ _ _ _ (elementwise_unique _ _ _ _ _ _ Hg (rational_elementwise param o false a1 a2 G E1' E2' A)) (gb_rat a1 a2 o S1 B1 S2 B2 Ho)). lia. }
    split; [|split]; [apply (Q 6); auto; lia|apply (Q 8); auto; lia|intros B; apply (Q 10); auto].
  - destruct H as (E1 & E8 & E10). destruct (binds_some _ _ E1) as (rs6 & E1').
    assert (W : forall rs alp o, positive rs -> is_nan alp = false -> o <= 10 ->
       gb (fun r => rokv r /\ le2 (par s) r) (10 * near s) (zero_g (K := KI) X rs alp o false)).
    { intros rs alp o A B C. apply (gb_weak rokv); [tauto|now apply gb_zero]. }
    split; [|split; [|intros B; destruct (Off10 E10 B)]].
    + apply (gb_eq _ (10 * near s)%Z _ _ _ (elementwise_unique _ _ _ _ _ _ T6 (zero6_elementwise X param false rs6 G E1'))); [|lia].
      apply W; [|exact alp_nan|lia]. apply (PS "rs6"%string); auto; simpl; tauto.
    + destruct (getp param "rs8") as [rs8|] eqn:E8'; [|eapply In0; eauto].
      apply (gb_eq _ (10 * near s)%Z _ _ _ (elementwise_unique _ _ _ _ _ _ T8 (zero8_elementwise X param false rs8 G E8'))); [|lia].
      apply W; [|exact alp2_nan|lia]. apply (PS "rs8"%string); auto; simpl; tauto.
  - destruct H as ((E1 & Eb) & E8 & E10).
    destruct (binds_some _ _ E1) as (rs6 & E1'). destruct (binds_some _ _ Eb) as (bet & Eb').
    destruct (PR "bet"%string bet Eb') as (Sb & Bb); [simpl; tauto|].
    split; [|split; [|intros B; destruct (Off10 E10 B)]].
    + apply (gb_eq _ (10 * near s)%Z _ _ _ (elementwise_unique _ _ _ _ _ _ T6 (mzero6_elementwise X param false rs6 bet G E1' Eb'))); [|lia].
      apply gb_mzero; [|exact alp_nan|exact Sb|exact Bb|lia]. apply (PS "rs6"%string); auto; simpl; tauto.
    + destruct (getp param "rs8") as [rs8|] eqn:E8'; [|eapply In0; eauto].
      apply (gb_eq _ (10 * near s)%Z _ _ _ (elementwise_unique _ _ _ _ _ _ T8 (mzero8_elementwise X param false rs8 bet G E8' Eb'))); [|lia].
      apply gb_mzero; [|exact alp2_nan|exact Sb|exact Bb|lia]. apply (PS "rs8"%string); auto; simpl; tauto.
  - destruct H as ((E1 & E2 & Eb) & E10).
    destruct (binds_some _ _ E1) as (a1 & E1'). destruct (binds_some _ _ E2) as (a2 & E2').
    destruct (binds_some _ _ Eb) as (bet & Eb').
    destruct (PR "a1"%string a1 E1') as (S1 & B1); [simpl; tauto|]. destruct (PR "a2"%string a2 E2') as (S2 & B2); [simpl; tauto|].
    destruct (PR "bet"%string bet Eb') as (Sb & Bb); [simpl; tauto|].
    assert (Q : forall o g, (o = 6 \/ o = 8)%nat -> elementwise OptimisedPowerDamping param o false g -> gb rokq (8 * far s + 16 * near s) g).
    { intros o g Ho Hg. destruct (active param o) eqn:A; [|eapply In0; eauto].
      apply (gb_eq _ (8 * far s + 16 * near s)%Z _ _ _ (elementwise_unique _ _ _ _ _ _ Hg (op_elementwise param false o a1 a2 bet G Ho A E1' E2' Eb'))); [|lia].
      apply gb_op; auto; [apply Bb|exact (po_bet _ _ PO bet Eb')|lia]. }
    split; [|split; [|intros B; destruct (Off10 E10 B)]]; [eapply (Q 6); eauto|eapply (Q 8); eauto].
Qed.

Lemma f9_is cls (Fn : tfun KI) kind cd : cls <> TwoBodyTerm ->
  term_ok (N := N) param kind (mkTerm (N := N) cls (ZeroDamping X) cd) Fn ->
  forall x y, f9 Fn x y = zero_fac (K := KI) X (flit (s := KI) 1) (fdiv (s := KI) (getd (K := KI) param "alp" dALP) (flit (s := KI) 3)) x y.
Proof.
  intros Hc T. set (al := fdiv (s := KI) (getd (K := KI) param "alp" dALP) (flit (s := KI) 3)).
  assert (E : elementwise (K := KI) (ZeroDamping X) [("alp"%string, PT (mkT [] (fun _ => al)))] 9 true (f9 Fn)).
  { unfold term_ok in T. cbn [t_class t_damping] in T.
    destruct cls; try congruence; destruct T as (T & _); apply T; reflexivity. }
  exact (elementwise_unique _ _ _ _ _ _ E (atm_elementwise X (mkT [] (fun _ => al)) al eq_refl eq_refl)).
Qed.

Lemma rad3_b cls (r : nat -> F) (rv : nat -> nat -> F) n :
  (forall i, i < n -> nonneg (r i) /\ le2 5 (r i)) ->
  forall i j, i < n -> j < n -> (positive (rv i j) /\ le2 (par s) (rv i j)) ->
  nonneg (rad3_of (N := N) X cls param r rv i j : F) /\ le2 (2 * par s + 7) (rad3_of (N := N) X cls param r rv i j : F).
Proof.
  intros Hr i j Hi Hj (Pv & Bv).
  assert (RB : nonneg (radbj (K := KI) X (getd param "a1" dA1) (getd param "a2" dA2) r i j : F) /\
     le2 (2 * par s + 7) (radbj (K := KI) X (getd param "a1" dA1) (getd param "a2" dA2) r i j : F)).
  { destruct (qq_ok n r Hr i j Hi Hj) as (Sq & Bq).
    destruct (sb_sqrt _ SB (qq (K := KI) r i j : F) 6 Sq Bq ltac:(lia)) as (Sx & Bx).
    assert (P1 : nonneg (getd (K := KI) param "a1" dA1 : F) /\ le2 (par s) (getd (K := KI) param "a1" dA1 : F)).
    { apply (getd_cases "a1"%string dA1 (fun x => nonneg x /\ le2 (par s) x)).
      - intros x Hx. apply (po_radius _ _ PO "a1"%string x); [simpl; tauto|exact Hx].
      - split; [now apply nn_lit|apply lit_le2; [reflexivity|lia]]. }
    assert (P2 : nonneg (getd (K := KI) param "a2" dA2 : F) /\ le2 (par s) (getd (K := KI) param "a2" dA2 : F)).
    { apply (getd_cases "a2"%string dA2 (fun x => nonneg x /\ le2 (par s) x)).
      - intros x Hx. apply (po_radius _ _ PO "a2"%string x); [simpl; tauto|exact Hx].
      - split; [now apply nn_lit|apply (le2_le 3); [apply le2_lit; [rng|reflexivity]|lia]]. }
    destruct (rad_num _ _ _ (proj1 P1) (proj2 P1) (proj1 P2) (proj2 P2) Sx Bx) as (A & B).
    split; [exact A|]. apply (le2_le (par s + 7)); [exact B|lia]. }
  unfold rad3_of. destruct cls; try exact RB.
  assert (P9 : positive (getd (K := KI) param "rs9" dRS9 : F) /\ le2 (par s) (getd (K := KI) param "rs9" dRS9 : F)).
  { apply (getd_cases "rs9"%string dRS9 (fun x => positive x /\ le2 (par s) x)).
    - intros x Hx. apply (po_rs _ _ PO "rs9"%string x); [simpl; tauto|exact Hx].
    - split; [apply (lit_pos 1); lia|apply lit_le2; [reflexivity|lia]]. }
  split.
  - apply nn_mul; apply pos_nn; [apply P9|exact Pv].
  - apply (le2_mul _ _ _ (par s) (par s)); [apply P9|exact Bv|lia|rng].
Qed.
End Q.

(** *** the three-body coefficients *)
Section C9.
Context (kind : mkind) (kw : mkwargs N) (numbers : tensor Z) (n : nat) (B : list nat) (m : Model N).
Context (Hm : is_model (N := N) X m kind kw numbers n B) (Hk : kind = D4M \/ kind = D4SM).
Context (HR : forall b i, valid B b -> i < n -> (0 <= sl1 numbers b i <= 103)%Z).
Context (HC : charges_ok (L := L) (L64 := L64) X s kw numbers n B).
Context (cn q : option (tensor (sc N))) (b : list nat) (Hb : valid B b).

Lemma c6m_b i j : i < n -> j < n -> le2 (22 + 2 * chg s) (c6m (N := N) X m cn q b i j : F).
Proof.
  intros Hi Hj. unfold c6m. apply c6_b; [lia| |]; intros r Hr; apply (wt_b s kind kw numbers n B); auto; lia.
Qed.
Lemma wpm_b w i : i < n -> w < 23 -> le2 (3 + chg s + ka w) (wpm (N := N) X m cn q n b w i : F).
Proof.
  intros Hi Hw. unfold wpm. apply wpol_b; [lia| |exact Hw]. intros r Hr. apply (wt_b s kind kw numbers n B); auto; lia.
Qed.
Lemma c9a_b i j k : i < n -> j < n -> k < n -> le2 (35 + 3 * chg s) (c9a (K := KI) X (c6m (N := N) X m cn q b) i j k : F).
Proof.
  intros Hi Hj Hk'. unfold c9a. apply (le2_le (33 + 3 * chg s)); [|lia]. apply SB; [| |lia].
  - unfold nonneg. match goal with |- Bsign (fabs (s := KI) ?u) = false => change (Bsign (Babs (u : F)) = false); generalize (u : F) end.
    intros u. destruct u; reflexivity.
  - apply bnd_abs. apply (le2_mul _ _ _ (44 + 4 * chg s) (22 + 2 * chg s)); [|now apply c6m_b|lia|rng].
    apply (le2_mul _ _ _ (22 + 2 * chg s) (22 + 2 * chg s)); [now apply c6m_b|now apply c6m_b|lia|rng].
Qed.
Lemma c9x_b i j k : i < n -> j < n -> k < n -> le2 (35 + 3 * chg s) (c9x (N := N) X m cn q n b i j k : F).
Proof.
  intros Hi Hj Hk'. unfold c9x.
  apply (le2_mul _ _ _ 0 (35 + 3 * chg s)); [exact thopi_b| |lia|rng].
  assert (Sm : (zsum 23 (fun w => (2 ^ (Z.max 0 (3 * ka w + kt w - 3)))%Z) <= 2 ^ 23)%Z) by (vm_compute; discriminate).
  assert (S0 : (0 <= zsum 23 (fun w => (2 ^ (Z.max 0 (3 * ka w + kt w - 3)))%Z))%Z) by (vm_compute; discriminate).
  revert Sm S0. set (T := zsum 23 _). intros Sm S0.
  assert (Q : (2 ^ 24 <= 2 ^ prec)%Z) by (apply Z.pow_le_mono_r; lia).
  assert (Bd : (IZR T * p2 (12 + 3 * chg s) <= p2 (35 + 3 * chg s))%R).
  { replace (35 + 3 * chg s)%Z with (23 + (12 + 3 * chg s))%Z by ring. rewrite (bpow_plus radix2 23).
    apply Rmult_le_compat_r; [apply bpow_ge_0|]. replace (p2 23) with (IZR (2 ^ 23)) by (apply (IZR_Zpower radix2); lia).
    now apply IZR_le. }
  apply bnd_le with (IZR T * p2 (12 + 3 * chg s))%R; [|exact Bd].
  apply bnd_sum; [lia| |fold T; lia|].
  - intros w Hw. pose proof (ka_range w). pose proof (kt_range w).
    split; [apply Z.lt_le_incl, Z.pow_pos_nonneg; lia|]. apply bnd_pow2; [lia|].
    apply (le2_le (9 + 3 * chg s + 3 * ka w + kt w)); [|lia].
    pose proof (wpm_b w i Hi Hw) as Wi. pose proof (wpm_b w j Hj Hw) as Wj. pose proof (wpm_b w k Hk' Hw) as Wk.
    apply (le2_mul _ _ _ (9 + 3 * chg s + 3 * ka w) (kt w)); [|now apply trap_atm_b|lia|rng].
    apply (le2_mul _ _ _ (6 + 2 * chg s + 2 * ka w) (3 + chg s + ka w)); [|exact Wk|lia|rng].
    apply (le2_mul _ _ _ (3 + chg s + ka w) (3 + chg s + ka w)); [exact Wi|exact Wj|lia|rng].
  - fold T. apply Rle_lt_trans with (p2 (35 + 3 * chg s)); auto. apply bpow_lt. lia.
Qed.
Lemma c9_b cls i j k : i < n -> j < n -> k < n -> le2 (35 + 3 * chg s) (c9_of (N := N) X cls m cn q n b i j k : F).
Proof. intros. unfold c9_of. destruct cls; auto using c9a_b, c9x_b. Qed.
End C9.
End P.

(** ** Theorems *)
Definition is_two_body (c : tclass) : bool := match c with TwoBodyTerm => true | _ => false end.
Lemma e3_atom_g_ext {K : Scalar} (X : Ext K) n c num pos c9 rad cut (g g' : K -> K -> K) s9 i :
  (forall x y, g x y = g' x y) ->
  e3_atom X n c num pos c9 rad cut g s9 i = e3_atom X n c num pos c9 rad cut g' s9 i.
Proof. intros H. unfold e3_atom. f_equal. apply fsum_ext. intros. apply fsum_ext. intros. unfold e3_triple, fdp. now rewrite H. Qed.

Section T.
Context {prec emax : Z} {Hp : Prec_gt_0 prec} {He : Prec_lt_emax prec emax}.
Context {L : Libm prec emax} {L64 : Libm 53 1024}.
Notation N := (IN prec emax L L64).
Notation KI := (IS prec emax L).
Notation F := (binary_float prec emax).
Context (X : Ext (sc N)).
Context (HL : libm_sign L) (H64 : libm_sign L64) (HE : ext_sign (L := L) (L64 := L64) X).
Context (PB : pow_bounds (L := L)) (SB : storch_bounds (L := L) (L64 := L64) X).
Context (W : World N).

Lemma elements_103 ref numbers n B : elements_ok ref numbers -> shp numbers = n :: B ->
  forall b i, valid B b -> i < n -> (0 <= sl1 numbers b i <= 103)%Z.
Proof.
  intros He' Hn b i Hb Hi.
  assert (V : valid (shp numbers) (i :: b)) by (rewrite Hn; split; assumption).
  destruct He' as [(_ & H)|(_ & H)]; specialize (H _ V); unfold sl1; lia.
Qed.
Lemma model_from_kind (p : Disp N) numbers kind kw : model_from X p numbers kind kw -> kind = D4M \/ kind = D4SM.
Proof. intros [(_ & _ & [(_ & H)|(_ & H)])|(m & cls & _ & H & _)]; auto. Qed.

(** The energies of a call with real atoms at moderate distances are finite numbers in every
    precision from single on: no NaN and no overflow, whatever the coordination numbers, the charges
    and the coordinates of the padding atoms are. *)
Theorem C66_energy_finite : forall (s : sizes) (p : Disp N) (a : Args N) kind kw n c B,
  ext_tables X -> well_formed (N := N) X W p a kind kw n c B ->
  geometry_ok (L := L) (L64 := L64) X s (a_numbers a) (a_positions a) n c B ->
  charges_ok (L := L) (L64 := L64) X s kw (a_numbers a) n B ->
  params_ok (L := L) (L64 := L64) s (a_param a) -> radii_ok (L := L) (L64 := L64) X s a n B ->
  fits (L := L) (L64 := L64) X s (p_terms p) ->
  exists e, run (N := N) X W p a = Ok e /\ shp e = n :: B /\
    forall b i, valid B b -> i < n -> is_finite (sl1 e b i : F) = true.
Proof.
  intros s p a kind kw n c B HX WF (Hat & HG) HC PO RO [(H24 & H128) Hs Hs6 FT FN].
  destruct (terms_funs (a_param a) kind (p_terms p) (wf_terms _ _ _ _ _ _ _ _ _ WF)) as (Fs & HF).
  destruct (run_closed (N := N) X W p a kind kw n c B Fs HX WF HF)
    as (m & cn & q & r4 & rv & Hm & _ & _ & _ & _ & V4 & VV & (e & E & S & D)).
  exists e. split; [exact E|]. split; [exact S|]. intros b i V Hi. rewrite D by auto.
  assert (G : good_param (a_param a)) by apply WF.
  pose proof (elements_103 _ _ n B (wf_elements _ _ _ _ _ _ _ _ _ WF) (wf_numbers _ _ _ _ _ _ _ _ _ WF)) as HR.
  pose proof (model_from_kind _ _ _ _ (wf_model _ _ _ _ _ _ _ _ _ WF)) as Hk.
  assert (N4 : forall i, i < n -> nonneg (sl1 r4 b i : F) /\ le2 5 (sl1 r4 b i : F)).
  { intros j Hj. rewrite V4 by auto. unfold r4v. destruct (a_r4r2 a) as [t|] eqn:Et.
    - exact (ro_r4r2 _ _ _ _ _ RO t Et b j V Hj).
    - split; [apply nn_r4r2|]. apply r4r2_b; auto. pose proof (HR b j V Hj). lia. }
  assert (NV : forall i j, i < n -> j < n -> pmask (sl1 (a_numbers a) b) i j = true ->
     positive (sl2 rv b i j : F) /\ le2 (par s) (sl2 rv b i j : F)).
  { intros j k Hj Hk' M. rewrite VV by auto. unfold rvv. unfold pmask in M.
    apply andb_true_iff in M as (M & _). apply andb_true_iff in M as (M1 & M2). apply is_real_nz in M1, M2.
    destruct (a_rvdw a) as [t|] eqn:Et.
    - exact (ro_rvdw _ _ _ _ _ RO t Et b j k V Hj Hk' M1 M2).
    - pose proof (HR b j V Hj). pose proof (HR b k V Hk'). apply (ro_vdw _ _ _ _ _ RO); lia. }
  assert (GD : forall i j, i < n -> j < n -> i <> j -> sl1 (a_numbers a) b i <> 0%Z -> sl1 (a_numbers a) b j <> 0%Z ->
     dist_ok (prec := prec) (emax := emax) s (x_dist X c (sl2 (a_positions a) b i) (sl2 (a_positions a) b j) : F)).
  { intros j k Hj Hk' Hne M1 M2. exact (HG b j k V Hj Hk' Hne M1 M2). }
  unfold sumK. refine (proj1 (_ : le2 (emax - 1) _)).
  assert (FNl : List.length (atom_terms (N := N) X p Fs a m cn q r4 rv n c b i) <= 16).
  { unfold atom_terms. rewrite map_length, combine_length. lia. }
  apply (le2_fold _ (emax - 5) 4); [|exact (proj1 (Nat2Z.inj_le _ _) FNl)|lia|lia|lia|lia].
  apply Forall_forall.
  intros x Hx. unfold atom_terms in Hx. apply in_map_iff in Hx as ([t Ft] & <- & Hin). cbn [fst snd].
  assert (Ht : In t (p_terms p) /\ term_ok (N := N) (a_param a) kind t Ft).
  { revert Hin. clear - HF. induction HF as [|u Fu us Fus Hu HF IH]; cbn [combine]; [intros []|].
    intros [Q|Q]; [injection Q as <- <-; split; [now left|exact Hu]|]. destruct (IH Q). split; [now right|assumption]. }
  destruct Ht as (Ht & HFt). specialize (FT t Ht). destruct t as [tc td tq]. unfold term_fits in FT. cbn [t_class t_damping] in FT.
  destruct (is_two_body tc) eqn:T2.
  - destruct tc; try discriminate T2. destruct FT as (cls & -> & FT).
    assert (DP : (0 <= damping_exp s cls)%Z) by (destruct cls; unfold damping_exp; lia).
    destruct (two_body_gb X HL HE PB SB H24 H128 s Hs Hs6 (a_param a) PO cls Ft kind tq G ltac:(lia) HFt) as (K6 & K8 & K10).
    unfold term_val. cbn [t_class t_damping t_cdep].
    apply (e2_b X PB H24 H128 s Hs Hs6 n c _ _ _ Hat GD N4 _ _ _ (rok_of s cls)) with (te := damping_exp s cls); auto; try lia.
    + intros j k Hj Hk'. apply (c6m_b X HL H64 H24 H128 s Hs Hs6 kind kw (a_numbers a) n B); auto.
    + intros j k Hj Hk' M. destruct cls; cbn [rok_of];
        [apply (qq_ok H24 H128 s Hs Hs6 n); auto|apply NV; auto|apply NV; auto|apply (qq_ok H24 H128 s Hs Hs6 n); auto].
    + apply (scale_b H24 H128 s Hs); auto; simpl; tauto.
    + apply (scale_b H24 H128 s Hs); auto; simpl; tauto.
    + unfold s10_of. destruct (getp (a_param a) "s10") as [x|] eqn:E10; [|exact I].
      split; [apply (po_scale _ _ PO "s10"%string x); auto; simpl; tauto|apply K10; discriminate].
  - assert (TC : tc <> TwoBodyTerm) by (intros ->; discriminate).
    assert (FT' : td = ZeroDamping X /\ (3 * chg s + 6 * far s + 15 * near s + par s + 2 * atoms s + 44 < emax)%Z)
      by (destruct tc; [congruence|exact FT..]).
    destruct FT' as (-> & FT').
    pose proof (f9_is X (a_param a) tc Ft kind tq TC HFt) as F9.
    assert (G3 : forall cut qq', le2 (emax - 5)
      (e3_atom (K := KI) X n c (sl1 (a_numbers a) b) (sl2 (a_positions a) b)
         (c9_of (N := N) X tc m (Some cn) qq' n b)
         (rad3_of (N := N) X tc (a_param a) (sl1 r4 b) (sl2 rv b)) cut
         (f9 Ft) (getd (K := KI) (a_param a) "s9" dS9) i : F)).
    { intros cut qq'. rewrite (e3_atom_g_ext X n c _ _ _ _ _ _ _ _ i F9).
      apply (e3_b X HL HE PB SB H24 H128 s Hs Hs6); auto.
      + intros j k l Hj Hk' Hl. apply (c9_b X HL H64 SB H24 H128 s Hs Hs6 kind kw (a_numbers a) n B); auto.
      + intros j k Hj Hk' M. apply (rad3_b X SB H24 H128 s Hs Hs6 (a_param a) PO tc _ _ n); auto.
      + apply (scale_b H24 H128 s Hs); auto; simpl; tauto.
      + exact (alp3_nan H24 H128 s Hs Hs6 (a_param a) PO). }
    unfold term_val. cbn [t_class t_damping t_cdep]. destruct tc; [congruence|apply G3..].
Qed.

(** C6 coefficients of a model: [cn] and [q] may be anything, NaN included. *)
Theorem C66_c6_finite :
  forall (s : sizes) kind (kw : mkwargs N) numbers n B (m : Model N) (cn q : option (tensor (sc N))) gw,
  built (L := L) (L64 := L64) X kind kw numbers n B m -> opt_shape cn (n :: B) -> opt_shape q (n :: B) ->
  charges_ok (L := L) (L64 := L64) X s kw numbers n B ->
  (24 <= prec /\ 128 <= emax /\ 0 <= chg s /\ 6 * chg s + 70 <= emax)%Z ->
  weight_references (N := N) X m cn q = Ok gw ->
  exists c6, get_atomic_c6 (N := N) m gw = Ok c6 /\ shp c6 = n :: n :: B /\
    forall b i j, valid B b -> i < n -> j < n -> upto (22 + 2 * chg s) (sl2 c6 b i j : F).
Proof.
  intros s kind kw numbers n B m cn q gw (HX & Hk & Hn & Hkw & Hel & (cls & Em)) Hcn Hq HC (H24 & H128 & Hs & Hs6) Ew.
  destruct (new_model_ok (N := N) X kind cls numbers kw n B HX Hk Hn Hkw Hel) as (m' & Em' & Hm).
  rewrite Em in Em'. injection Em' as <-.
  destruct (weight_references_ev (N := N) X m n B cn q (proj1 Hm) Hcn Hq) as (w & Ew' & Hw).
  rewrite Ew in Ew'. injection Ew' as <-.
  destruct (get_atomic_c6_ev (N := N) X m n B cn q gw (proj1 Hm) Hw) as (c6 & E6 & S6 & V6).
  exists c6. split; [exact E6|]. split; [exact S6|]. intros b i j V Hi Hj.
  unfold sl2. rewrite V6 by (repeat split; auto). pose proof (elements_103 _ _ n B Hel Hn) as HR.
  unfold ix2. unfold c6m. apply c6_b; auto; intros r Hr; apply (wt_b X H64 H24 H128 s kind kw numbers n B); auto; lia.
Qed.

Theorem C66_properties_finite :
  forall (s : sizes) numbers positions charge cutoff n B (cn q : tensor (sc N)),
  ext_tables X -> shp numbers = n :: B ->
  (forall ix, valid (n :: B) ix -> (0 <= dat numbers ix <= 103)%Z) ->
  charges_ok (L := L) (L64 := L64) X s no_kw numbers n B ->
  (24 <= prec /\ 128 <= emax /\ 0 <= chg s /\ 6 * chg s + 70 <= emax)%Z ->
  w_cn_d4 W None numbers positions = Ok cn -> shp cn = n :: B ->
  w_eeq W numbers positions (match charge with Some c => c | None => scal (B754_zero false : sc N) end)
    (match cutoff with Some c => c_cn_eeq c | None => scal (blit prec emax 25 : sc N) end) = Ok q -> shp q = n :: B ->
  exists c6 alpha, get_properties (N := N) X W numbers positions charge cutoff = Ok (cn, q, c6, alpha) /\
    shp c6 = n :: n :: B /\ shp alpha = n :: B /\
    forall b i j, valid B b -> i < n -> j < n ->
      upto (22 + 2 * chg s) (sl2 c6 b i j : F) /\ upto (13 + chg s) (sl1 alpha b i : F).
Proof.
  intros s numbers positions charge cutoff n B cn q HX Hn Hz HC (H24 & H128 & Hs & Hs6) Ecn Scn Eq Sq. unfold get_properties.
  rewrite Ecn. cbn [bind].
  replace (w_eeq W numbers positions (default charge (scal f0)) (c_cn_eeq (default cutoff default_cutoff)))
    with (Ok q) by (rewrite <- Eq; destruct charge, cutoff; reflexivity). cbn [bind].
  assert (HK : kw_ok (N := N) D4M no_kw n B) by (split; [reflexivity|exact I]).
  assert (Hel : elements_ok (default (k_ref (no_kw (N := N))) "eeq"%string) numbers).
  { left. rewrite Hn. split; [reflexivity|exact Hz]. }
  destruct (new_model_ok (N := N) X D4M (class_name D4M) numbers no_kw n B HX (or_introl eq_refl) Hn HK Hel)
    as (m & -> & Hm). cbn [bind].
  destruct (weight_references_ev (N := N) X m n B (Some cn) (Some q) (proj1 Hm) Scn Sq) as (gw & -> & Hw).
  cbn [bind].
  destruct (get_atomic_c6_ev (N := N) X m n B (Some cn) (Some q) gw (proj1 Hm) Hw) as (c6 & -> & S6 & V6).
  cbn [bind].
  pose proof Hm as ((_ & Hkn & Hnm & Hr & _) & Hkd & Enum & _).
  assert (D4s : is_d4s m = false) by (unfold is_d4s; now rewrite Hkd). rewrite D4s in Hw.
  destruct (get_polarizabilities_ev (K := KI) X (m_numbers m) n B (m_ga m) (m_gc m) (m_ref m) gw _ HX Hkn Hnm Hr Hw)
    as (alpha & Ea & Sa & Va).
  exists c6, alpha. unfold model_polarizabilities. split.
  { change (sc N) with KI. rewrite Ea. reflexivity. }
  pose proof (elements_103 _ _ n B Hel Hn) as HR.
  assert (WB : forall b i j r, valid B b -> i < n -> j < n -> r < 7 -> le2 (chg s) (wt_of (N := N) X m (Some cn) (Some q) b i j r : F)).
  { intros b i j r Hb Hi Hj Hr'. apply (wt_b X H64 H24 H128 s D4M no_kw numbers n B); auto; lia. }
  split; [exact S6|]. split; [exact Sa|]. intros b i j V Hi Hj. split.
  - unfold sl2. rewrite V6 by (repeat split; auto). unfold ix2, c6m. apply c6_b; auto.
  - unfold sl1. rewrite Va by (repeat split; auto). replace (13 + chg s)%Z with (3 + chg s + ka 0)%Z by (change (ka 0) with 10%Z; lia).
    exact (wpol_b X HL H24 H128 (chg s) (conj Hs Hs6) (m_ga m) (m_gc m) (m_ref m) _ _ 0 (fun r Hr' => WB b i i r V Hi Hi Hr') ltac:(lia)).
Qed.
End T.
Print Assumptions C66_energy_finite.
Print Assumptions C66_c6_finite.
Print Assumptions C66_properties_finite.
