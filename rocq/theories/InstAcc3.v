(** * C76: the correctly rounded library meets the hypotheses; single and double precision; example *)
From Coq Require Import Reals List Arith ZArith QArith Bool String Lia Lra.
From Flocq Require Import Core.Core IEEE754.BinarySingleNaN.
From Verif Require Import Py Tensor Scalar RInst ModelExt ModelUtils ModelDamping ModelModels
  ModelTerms TensorLemmas Closed IeeeInst IeeeP IeeeB IeeeA IeeeLib SpecR EnergyR Energy3R SpecIeee PropsFinite PropsAcc PropsAcc3
  InstIeee InstW InstAny InstAcc.
Import ListNotations.
Open Scope R_scope.

Section D.
Context {prec emax : Z} {Hp : Prec_gt_0 prec} {He : Prec_lt_emax prec emax}.
Notation F := (binary_float prec emax).
Notation p2 := (bpow radix2).
Notation rnd := (round radix2 (SpecFloat.fexp prec emax) (round_mode mode_NE)).

(** correctly rounded powers and divisions make one rounding error *)
Lemma round_within v (x : F) : (4 <= emax)%Z -> p2 (2 - emax) <= v <= p2 (emax - 1) ->
  (rnd v < p2 emax -> is_finite x = true /\ B2R x = rnd v) -> within 1 x v.
Proof.
  intros H4 R H.
  assert (B : rnd v < p2 emax).
  { apply Rle_lt_trans with (p2 (emax - 1)); [|apply bpow_lt; lia].
    rewrite <- (rnd_p2 (prec := prec) (emax := emax) (emax - 1)) by (pose proof (prec_gt_0 prec); lia). apply rnd_mono, R. }
  destruct (H B) as (F1 & E1). destruct (rnd_rel (prec := prec) (emax := emax) v) as (A & C); [apply R|].
  apply (appr_within 1 (2 - emax) (emax - 1)). split; auto; rewrite E1, pow_1; lra.
Qed.
Theorem C76_correct_pow : (4 <= emax)%Z -> rpow_accurate (prec := prec) (emax := emax) (L := Lcr) 1.
Proof.
  intros H4.
  assert (E : forall x y : F, is_finite x = true -> 0 < B2R x -> is_finite y = true ->
    l_pow Lcr x y = Bone /\ B2R y = 0 \/ l_pow Lcr x y = bround (Rpower (B2R x) (B2R y))).
  { intros x y Fx Px Fy. destruct y as [s|s| |s m e H]; try discriminate; [left; auto|right].
    destruct x as [t|t| |t n f G]; try discriminate; [simpl in Px; lra|].
    destruct t; [exfalso; simpl in Px; assert (F2R (Float radix2 (Z.neg n) f) < 0) by (now apply F2R_lt_0); lra|reflexivity]. }
  constructor.
  - intros x y Fx Px Fy R. destruct (E x y Fx Px Fy) as [(-> & Y)| ->].
    + rewrite Y, Rpower_O by exact Px. split; [apply is_finite_Bone|]. rewrite Bone_correct.
      pose proof (wk_ge1 (prec := prec) 1) as W. change (1 <= growth (prec := prec) 1) in W. split; [|lra].
      unfold Rdiv. rewrite Rmult_1_l, <- Rinv_1. apply Rinv_le; lra.
    + apply round_within; auto. intros B. pose proof (exp_pos (B2R y * ln (B2R x))) as P.
      apply (bround_spec (Hp := Hp) (He := He)); [left; exact P|exact B].
  - intros x y Fx Px Fy. destruct (E x y Fx Px Fy) as [(-> & Y)| ->].
    + split; [apply is_nan_Bone|]. unfold nonneg. apply Bsign_Bone.
    + pose proof (exp_pos (B2R y * ln (B2R x))) as P.
      destruct (bround_spec (Hp := Hp) (He := He) (Rpower (B2R x) (B2R y))) as (A & C & _); [left; exact P|]. split; auto.
Qed.
Context {L : Libm prec emax} {L64 : Libm 53 1024}.
Theorem C76_correct_division (X : Ext (sc (IN prec emax L L64))) : (4 <= emax)%Z ->
  (forall x y : F, x_div X x y = Bdiv mode_NE x y) -> div_accurate X 1.
Proof.
  intros H4 E x y Fx Fy Px Py R. rewrite E. apply round_within; auto. intros B.
  pose proof (Bdiv_correct _ _ Hp He mode_NE x y ltac:(lra)) as Q. rewrite Rlt_bool_true in Q.
  - destruct Q as (E1 & F1 & _). split; [rewrite F1; exact Fx|exact E1].
  - rewrite Rabs_pos_eq; [exact B|]. rewrite <- (rnd_0 (prec := prec) (emax := emax)). apply rnd_mono. left. now apply Rdiv_lt_0_compat.
Qed.
End D.
Print Assumptions C76_correct_pow.
Print Assumptions C76_correct_division.

(** ** Sizes that fit *)

(** Single precision: distances from 1 to 2^20 bohr, in triples within the cutoff up to 128 bohr with a
    product up to 2^17 (any triple within the default cutoff of 40 bohr), radii from 4 to 16 bohr, C9
    coefficients zero or from 1/8 to 2^30, up to 65536 atoms. *)
Definition tri32 : tri_sizes := mkTri 0 20 7 17 2 4 59 64 3 30 1 16.
Definition tri64 : tri_sizes := mkTri 10 100 20 60 (-2) 10 352 320 100 100 20 50.
Theorem C76_single_precision_sizes : tri_fits (prec := 24) (emax := 128) tri32.
Proof. constructor; cbn; lia. Qed.
Theorem C76_double_precision_sizes : tri_fits (prec := 53) (emax := 1024) tri64.
Proof. constructor; cbn; lia. Qed.
(** the default steepness of the damping *)
Local Existing Instance Hp64.
Local Existing Instance He64.
Local Existing Instance Hp32.
Local Existing Instance He32.
Theorem C76_default_alp : tri_alp tri32 6 (blit 24 128 16) /\ tri_alp tri64 6 (blit 53 1024 16).
Proof.
  destruct (lit_int (prec := 24) (emax := 128) 16) as (A & C); [lia|lia|lia|].
  destruct (lit_int (prec := 53) (emax := 1024) 16) as (A' & C'); [lia|lia|lia|].
  change (inject_Z 16) with 16%Q in *.
  split; (split; [split; [assumption|right; rewrite ?C, ?C'; simpl; lra]|]); rewrite ?C, ?C'; cbn [tprod tri32 tri64 trlo trhi tplo tphi tnear]; simpl INR.
  - split; [lra|]. change (17 - 3 * 2)%Z with 11%Z. change (3 * 4 + 3 * 0)%Z with 12%Z. lra.
  - split; [lra|]. change (60 - 3 * -2)%Z with 66%Z. change (3 * 10 + 3 * 10)%Z with 60%Z. lra.
Qed.
Print Assumptions C76_single_precision_sizes.
Print Assumptions C76_double_precision_sizes.
Print Assumptions C76_default_alp.

(** ** Example *)
Definition dC9 : tensor (sc N32) := mkT [3; 3; 3; 2]%nat (fun _ => blit 24 128 10).
Definition dRad : tensor (sc N32) := mkT [3; 3; 2]%nat (fun _ => blit 24 128 5).
Definition dCut : tensor (sc N32) := mkT [] (fun _ => blit 24 128 40).
Definition dNum (q : Q) : pval (sc N32) := PT (K := sc N32) (mkT [] (fun _ => blit 24 128 q)).

Lemma dline_dist b i j : valid [2%nat] b -> (i < 3)%nat -> (j < 3)%nat -> real_pair (sl1 two_mols b) i j = true ->
  2 <= euclid 3 (rcoord (L := Lcr) (L64 := Lcr) dline b i) (rcoord (L := Lcr) (L64 := Lcr) dline b j) <= 4.
Proof.
  intros Hb Hi Hj R.
  assert (Zi : sl1 two_mols b i <> 0%Z) by (intros Z; unfold real_pair in R; rewrite Z in R; now rewrite andb_false_r in R).
  assert (Zj : sl1 two_mols b j <> 0%Z) by (intros Z; unfold real_pair in R; rewrite Z in R; now rewrite !andb_false_r in R).
  assert (Nij : i <> j) by (intros ->; unfold real_pair in R; now rewrite Nat.eqb_refl in R).
  set (d := euclid _ _ _).
  assert (D : d = 2 * Rabs (INR i - INR j)).
  { unfold d, euclid, sqd. cbn [rsum]. unfold rcoord.
    rewrite !(proj2 (dline_coord b i _ Hb Hi Zi)), !(proj2 (dline_coord b j _ Hb Hj Zj)). cbn [Nat.eqb].
    rewrite <- (sqrt_Rsqr (2 * Rabs (INR i - INR j))).
    - f_equal. unfold Rsqr. replace (2 * Rabs (INR i - INR j) * (2 * Rabs (INR i - INR j))) with (4 * (Rabs (INR i - INR j) * Rabs (INR i - INR j))) by ring.
      rewrite <- Rabs_mult, Rabs_pos_eq by apply Rle_0_sqr. ring.
    - pose proof (Rabs_pos (INR i - INR j)). lra. }
  assert (D4 : 1 <= Rabs (INR i - INR j) <= 2).
  { destruct i as [|[|[|i]]]; try lia; destruct j as [|[|[|j]]]; try lia; try (now elim Nij); cbn [INR];
      unfold Rabs; destruct (Rcase_abs _); lra. }
  lra.
Qed.

(** The batch of water and padded carbon monoxide of C67: the error of the three-body energies is at most
    590 units in the last place of the sum of the sizes of the triples. *)
Example C76_example : exists t : tensor (sc N32),
  get_atm_dispersion Xd two_mols dline dC9 dRad dCut (ZeroDamping Xd) (dNum 1) (dNum 16) = Ok t /\
  forall b i, valid [2%nat] b -> (i < 3)%nat ->
    let e f := exact_atm (L := Lcr) (L64 := Lcr) f two_mols dline dC9 dRad (blit 24 128 1) (blit 24 128 16) 40 3 3 b i in
    is_finite (sl1 t b i : f32) = true /\
    Rabs (B2R (sl1 t b i : f32) - e triple_energy) <= 590 * bpow radix2 (-23) * e triple_size.
Proof.
  destruct (lit32 40 ltac:(lia)) as (F40 & E40). destruct (lit32 5 ltac:(lia)) as (F5 & E5).
  destruct (lit32 10 ltac:(lia)) as (F10 & E10). destruct (lit32 1 ltac:(lia)) as (F1 & E1).
  change (inject_Z 40) with 40%Q in *. change (inject_Z 5) with 5%Q in *. change (inject_Z 10) with 10%Q in *. change (inject_Z 1) with 1%Q in *.
  destruct (C76_atm_accuracy (L := Lcr) (L64 := Lcr) Xd tri32 7 1 1 6 two_mols dline dC9 dRad dCut (dNum 1) (dNum 16) 3 3 [2%nat]
    (blit 24 128 1) (blit 24 128 16) C76_single_precision_sizes (C76_correct_pow (prec := 24) (emax := 128) ltac:(lia))
    (C76_correct_division (prec := 24) (emax := 128) Xd ltac:(lia) (fun _ _ => eq_refl))) as (t & E & S & H); try reflexivity.
  - eexists. split; [reflexivity|split; reflexivity].
  - eexists. split; [reflexivity|split; reflexivity].
  - change (dat dCut []) with (blit 24 128 40). rewrite E40. simpl. lra.
  - change (dat dCut []) with (blit 24 128 40). rewrite E40. split; [cbn; lia|].
    pose proof (few_2 (prec := 24) 9 ltac:(unfold few; change (2 ^ 24)%Z with 16777216%Z; lia)) as W. change (growth (prec := 24) 9 <= 2) in W.
    pose proof (growth_pos (prec := 24) 9) as W0. split.
    + intros b i j Hb Hi Hj R. pose proof (dline_dist b i j Hb Hi Hj R) as D. destruct (ex_geometry Lcr) as (_ & G).
      destruct (G b i j Hb Hi Hj R) as (A & _). split; [exact A|]. split; [simpl; lra|left]. change (7 + 1 + 1)%nat with 9%nat. nra.
    + intros b i j k Hb Hi Hj Hk R d _ _. destruct (real_triple_pairs _ _ _ _ R) as (R1 & R2 & R3).
      pose proof (dline_dist b i j Hb Hi Hj R1) as D1. pose proof (dline_dist b i k Hb Hi Hk R2) as D2. pose proof (dline_dist b j k Hb Hj Hk R3) as D3.
      change (2 <= d i j <= 4) in D1. change (2 <= d i k <= 4) in D2. change (2 <= d j k <= 4) in D3. 
      repeat split; try (simpl; lra). apply Rle_trans with (4 * 4 * 4); [|simpl; lra].
      apply Rmult_le_compat; try lra; [apply Rmult_le_pos; lra|]. apply Rmult_le_compat; lra.
  - intros b i j Hb Hi Hj _. change (sl2 dRad b i j) with (blit 24 128 5). split; [exact F5|]. rewrite E5. simpl. lra.
  - intros b i j k Hb Hi Hj Hk. change (sl3 dC9 b i j k) with (blit 24 128 10). split; [exact F10|right]. rewrite E10, Rabs_pos_eq by lra. simpl. lra.
  - split; [exact F1|right]. rewrite E1, Rabs_R1. simpl. lra.
  - apply C76_default_alp.
  - change (2 ^ 24)%Z with 16777216%Z. vm_compute. discriminate.
  - exists t. split; [exact E|]. intros b i Hb Hi e. destruct (H b i Hb Hi) as (A & Z & C). split; [exact A|].
    change (dat dCut []) with (blit 24 128 40) in *. rewrite E40 in Z, C.
    change (atm_errors 7 1 1 6 (Z.to_nat (Z.max (tplo tri32) (tphi tri32))) 3) with 590%nat in C. apply Rle_trans with (1 := C).
    apply Rmult_le_compat_r; [apply Rle_trans with (2 := Z), Rabs_pos|].
    pose proof (C67_linear (prec := 24) 590 ltac:(change (2 ^ 24)%Z with 16777216%Z; lia)) as Q.
    change (1 - 24)%Z with (-23)%Z in Q. replace 590 with (INR 590) by (rewrite INR_IZR_INZ; reflexivity). exact Q.
Qed.
