(** * C67: the correctly rounded library and directly evaluated distances meet the hypotheses; single
    and double precision; example *)
From Coq Require Import Reals List Arith ZArith QArith Bool String Lia Lra.
From Flocq Require Import Core.Core IEEE754.BinarySingleNaN.
From Verif Require Import Py Tensor Scalar RInst ModelExt ModelUtils ModelDamping ModelModels
  ModelTerms TensorLemmas Closed IeeeInst IeeeP IeeeB IeeeA IeeeLib SpecR EnergyR PropsAcc
  InstIeee InstW InstAny.
Import ListNotations.
Open Scope R_scope.

Section D.
Context {prec emax : Z} {Hp : Prec_gt_0 prec} {He : Prec_lt_emax prec emax}.
Notation F := (binary_float prec emax).
Notation p2 := (bpow radix2).
Notation rnd := (round radix2 (SpecFloat.fexp prec emax) (round_mode mode_NE)).

(** a correctly rounded power makes one rounding error *)
Lemma Lcr_pow_accurate : (4 <= emax)%Z -> pow_accurate (prec := prec) (emax := emax) (L := Lcr) 1.
Proof.
  intros H4 x o Fx Px R Ho. set (v := B2R x ^ o).
  assert (Pv : 0 <= v) by now apply pow_le.
  assert (E : l_pown Lcr x o = bround v).
  { destruct o as [|o]; [lia|]. destruct x; try discriminate; reflexivity. }
  rewrite E. pose proof (bround_spec (Hp := Hp) (He := He) v Pv) as (_ & _ & Fn & _).
  assert (V : v = 0 \/ p2 (2 - emax) <= v <= p2 (emax - 1)).
  { destruct R as [R|R]; [left; unfold v; rewrite R; apply pow_i; lia|right; exact R]. }
  assert (B : rnd v < p2 emax).
  { apply Rle_lt_trans with (p2 (emax - 1)); [|apply bpow_lt; lia].
    rewrite <- (rnd_p2 (prec := prec) (emax := emax) (emax - 1)) by (pose proof (prec_gt_0 prec); lia).
    apply rnd_mono. destruct V as [->|V]; [apply bpow_ge_0|apply V]. }
  destruct (Fn B) as (F1 & E1). apply (appr_within 1 (2 - emax) (emax - 1)). split; auto; rewrite E1, pow_1;
    destruct V as [->|(V1 & V2)]; try (rewrite (rnd_0 (prec := prec) (emax := emax)); lra);
    destruct (rnd_rel (prec := prec) (emax := emax) v) as (A & C); auto; lra.
Qed.

(** the distance evaluated directly: the square root of the sum of the squared differences *)
Context {L : Libm prec emax}.
Notation KI := (IS prec emax L).
Definition direct_dist (c : nat) (x y : nat -> F) : F :=
  fsqrt (s := KI) (fsum (K := KI) c (fun k => fmul (s := KI) (fsub (s := KI) (x k) (y k)) (fsub (s := KI) (x k) (y k)))).

Lemma minus_acc g f (x y : F) : is_finite x = true -> is_finite y = true ->
  B2R x - B2R y = 0 \/ p2 (- g) <= Rabs (B2R x - B2R y) <= p2 f -> (0 <= f)%Z -> (f + 2 < emax)%Z ->
  appr 1 (- g) f (Babs (Bminus mode_NE x y)) (Rabs (B2R x - B2R y)).
Proof.
  intros Fx Fy R F0 Hf.
  assert (Q : Rabs (B2R x - B2R y) <= rnd (Rabs (B2R x - B2R y)) * w (prec := prec) /\
              rnd (Rabs (B2R x - B2R y)) <= Rabs (B2R x - B2R y) * w (prec := prec)).
  { destruct (Rle_or_lt 0 (B2R x - B2R y)) as [P|P].
    - rewrite Rabs_pos_eq by lra. replace (B2R x - B2R y) with (B2R x + B2R (Bopp y)) in * by (rewrite B2R_Bopp; ring).
      apply rnd_plus_rel; auto. now rewrite is_finite_Bopp.
    - rewrite Rabs_left by lra. replace (- (B2R x - B2R y)) with (B2R y + B2R (Bopp x)) in * by (rewrite B2R_Bopp; ring).
      apply rnd_plus_rel; auto; [now rewrite is_finite_Bopp|]. rewrite B2R_Bopp. lra. }
  assert (V : Rabs (rnd (B2R x - B2R y)) = rnd (Rabs (B2R x - B2R y))).
  { symmetry. apply round_NE_abs. apply fexp_correct; auto. }
  pose proof (Bminus_correct prec emax Hp He mode_NE x y Fx Fy) as C. rewrite Rlt_bool_true in C.
  - destruct C as (E & Fc & _). split.
    + now rewrite is_finite_Babs.
    + destruct R as [->|R]; [left; apply Rabs_R0|right; exact R].
    + rewrite B2R_Babs, E, V, pow_1. apply Q.
    + rewrite B2R_Babs, E, V, pow_1. apply Q.
  - rewrite V. apply Rle_lt_trans with (p2 f); [|apply bpow_lt; lia].
    rewrite <- (rnd_p2 (prec := prec) (emax := emax) f) by (pose proof (prec_gt_0 prec); lia).
    apply rnd_mono. destruct R as [->|R]; [rewrite Rabs_R0; apply bpow_ge_0|apply R].
Qed.
Lemma square_abs (d : F) : Bmult mode_NE d d = Bmult mode_NE (Babs d) (Babs d).
Proof.
  destruct d as [s|s| |s m e H]; try reflexivity; try (now destruct s). destruct s; [|reflexivity].
  apply B2SF_inj. simpl. now rewrite !B2SF_SF2B.
Qed.

(** [c + 4] rounding errors, in up to four dimensions *)
Theorem C67_direct_distance c (x y : nat -> F) (g f : Z) : (c <= 4)%nat ->
  (forall k, (k < c)%nat -> is_finite (x k) = true /\ is_finite (y k) = true /\
     (B2R (x k) = B2R (y k) \/ p2 (- g) <= Rabs (B2R (x k) - B2R (y k)) <= p2 f)) ->
  (0 <= g)%Z -> (0 <= f)%Z -> (2 * g + 3 <= emax)%Z -> (2 * f + 4 < emax)%Z -> (4 <= prec)%Z ->
  within (c + 4) (direct_dist c x y) (euclid c (fun k => B2R (x k)) (fun k => B2R (y k))).
Proof.
  intros Hc H G0 F0 Hg Hf Pp.
  assert (FW : forall k, (k <= 8)%nat -> few (prec := prec) k).
  { intros k Hk. unfold few. assert (2 ^ 4 <= 2 ^ prec)%Z by (apply Z.pow_le_mono_r; lia). lia. }
  apply (appr_within (c + 4) (- g) (f + 1)). unfold direct_dist, euclid.
  apply (appr_sqrt (c + 3) (- g) (f + 1)); try lia; [|apply FW; lia].
  unfold sqd. rewrite (rsum_ext c _ (fun k => Rabs (B2R (x k) - B2R (y k)) * Rabs (B2R (x k) - B2R (y k)))).
  2: { intros k Hk. rewrite <- Rabs_mult. rewrite Rabs_pos_eq; [ring|apply Rle_0_sqr]. }
  apply (appr_sum c _ _ 3 (- (2 * g)) (2 * f) 2); try lia; [|apply FW; lia].
  intros k Hk. destruct (H k Hk) as (Fx & Fy & R).
  change (appr 3 (- (2 * g)) (2 * f) (Bmult mode_NE (Bminus mode_NE (x k) (y k)) (Bminus mode_NE (x k) (y k)))
     (Rabs (B2R (x k) - B2R (y k)) * Rabs (B2R (x k) - B2R (y k)))).
  rewrite square_abs.
  assert (M : appr 1 (- g) f (Babs (Bminus mode_NE (x k) (y k))) (Rabs (B2R (x k) - B2R (y k)))).
  { apply minus_acc; auto; [|lia]. destruct R as [R|R]; [left; lra|right; exact R]. }
  apply (appr_mul 1 1 (- g) (- g) f f _ _ _ _ _ _ _ M M); try lia. apply FW; lia.
Qed.
End D.
Print Assumptions C67_direct_distance.

(** ** Sizes that fit *)
Definition acc32 : acc_sizes := mkAcc 6 2 3 20 20 22.
Definition acc64 : acc_sizes := mkAcc 20 10 20 100 100 51.
(** Single precision: distances from 0.25 to 64 bohr (further ones beyond the cutoff), parameters zero or
    from 1/8 to 8, C6 coefficients zero or from 2^-20 to 2^20, up to four million atoms. *)
Theorem C67_single_precision_sizes : acc_fits (prec := 24) (emax := 128) acc32.
Proof. constructor; cbn; lia. Qed.
Theorem C67_double_precision_sizes : acc_fits (prec := 53) (emax := 1024) acc64.
Proof. constructor; cbn; lia. Qed.
Print Assumptions C67_single_precision_sizes.
Print Assumptions C67_double_precision_sizes.

(** The bound in linear form. *)
Theorem C67_linear {prec : Z} {Hp : Prec_gt_0 prec} k : (2 * Z.of_nat k <= 2 ^ prec)%Z ->
  growth (prec := prec) k - 1 <= INR k * bpow radix2 (1 - prec).
Proof.
  intros H. pose proof (growth_linear (prec := prec) k H). unfold Zminus. rewrite bpow_plus. change (bpow radix2 1) with 2. lra.
Qed.
Print Assumptions C67_linear.

(** ** Example *)
Local Existing Instance Hp64.
Local Existing Instance He64.
Local Existing Instance Hp32.
Local Existing Instance He32.
Definition XdL (L : Libm 24 128) : Ext (sc (IN 24 128 L Lcr)) :=
  mkExt (sc (IN 24 128 L Lcr)) (fun c x y => direct_dist (L := L) c x y) (Bdiv mode_NE) (Bsqrt mode_NE) (x_zeff X32) (x_gam X32) (x_vdw X32).
Definition Xd : Ext (sc N32) := XdL Lcr.
Definition dC6 : tensor (sc N32) := mkT [3; 3; 2]%nat (fun _ => blit 24 128 10).
Definition dQ : tensor (sc N32) := mkT [3; 2]%nat (fun _ => blit 24 128 2).
Definition dline : tensor (sc N32) := gline (N := N32) 3 [2%nat] (B754_nan : sc N32).

Lemma lit32 z : (0 <= z <= 64)%Z -> is_finite (blit 24 128 (inject_Z z)) = true /\ B2R (blit 24 128 (inject_Z z)) = IZR z.
Proof. intros H. apply (lit_int (prec := 24) (emax := 128) z); lia. Qed.
Lemma flt32 (x : f32) (m : BinNums.positive) (e : Z) : B2SF x = SpecFloat.S754_finite false m e ->
  is_finite x = true /\ B2R x = F2R (Float radix2 (Z.pos m) e).
Proof.
  intros E. destruct x as [s|s| |s m' e' G]; simpl in E; try discriminate. injection E as -> -> ->. split; reflexivity.
Qed.
Ltac sized := match goal with |- zero_or _ _ ?x =>
  let v := eval vm_compute in (B2SF x) in match v with SpecFloat.S754_finite false ?m ?e =>
    let H := fresh in destruct (flt32 x m e ltac:(vm_compute; reflexivity)) as (? & H);
    split; [assumption|right; rewrite H; unfold F2R; simpl; lra] end end.

Lemma dline_coord b i k : valid [2%nat] b -> (i < 3)%nat -> sl1 two_mols b i <> 0%Z ->
  is_finite (sl2 dline b i k : f32) = true /\ B2R (sl2 dline b i k : f32) = if Nat.eqb k 0 then 2 * INR i else 0.
Proof.
  intros V Hi Hz. destruct b as [|x [|]]; simpl in V; try tauto.
  assert (E : sl2 dline [x] i k = if Nat.eqb k 0 then blit 24 128 (inject_Z (2 * Z.of_nat i)) else blit 24 128 0).
  { destruct i as [|[|[|i]]]; try lia; try reflexivity. destruct x as [|[|x]]; try lia; try reflexivity. now elim Hz. }
  rewrite E. destruct (Nat.eqb k 0).
  - destruct (lit32 (2 * Z.of_nat i)) as (A & C); [lia|]. split; [exact A|]. rewrite C, mult_IZR, <- INR_IZR_INZ. reflexivity.
  - split; [reflexivity|]. reflexivity.
Qed.

(** the hypotheses of C67 *)
Lemma e60 : B2R (cutoff_float (prec := 24) (emax := 128) (L := Lcr) (L64 := Lcr) None) = 60.
Proof. apply (lit32 60). lia. Qed.
Lemma ex_geometry (L : Libm 24 128) : acc_geometry (L := L) (L64 := Lcr) (XdL L) acc32 7 60 two_mols dline 3 3 [2%nat].
Proof.
  change (acc_geometry (L := Lcr) (L64 := Lcr) (mkExt (sc N32) (fun c x y => direct_dist (L := L) c x y : sc N32)
    (Bdiv mode_NE) (Bsqrt mode_NE) (x_zeff X32) (x_gam X32) (x_vdw X32)) acc32 7 60 two_mols dline 3 3 [2%nat]).
  split; [cbn; lia|]. intros b i j Hb Hi Hj R d.
    assert (Zi : sl1 two_mols b i <> 0%Z) by (intros Z; unfold real_pair in R; rewrite Z in R; now rewrite andb_false_r in R).
    assert (Zj : sl1 two_mols b j <> 0%Z) by (intros Z; unfold real_pair in R; rewrite Z in R; now rewrite !andb_false_r in R).
    assert (Nij : i <> j) by (intros ->; unfold real_pair in R; now rewrite Nat.eqb_refl in R).
    assert (D : d = 2 * Rabs (INR i - INR j)).
    { unfold d, euclid, sqd. cbn [rsum]. unfold rcoord.
      rewrite !(proj2 (dline_coord b i _ Hb Hi Zi)), !(proj2 (dline_coord b j _ Hb Hj Zj)). cbn [Nat.eqb].
      rewrite <- (sqrt_Rsqr (2 * Rabs (INR i - INR j))).
      - f_equal. unfold Rsqr. replace (2 * Rabs (INR i - INR j) * (2 * Rabs (INR i - INR j))) with (4 * (Rabs (INR i - INR j) * Rabs (INR i - INR j))) by ring.
        rewrite <- Rabs_mult, Rabs_pos_eq by apply Rle_0_sqr. ring.
      - pose proof (Rabs_pos (INR i - INR j)). lra. }
    assert (D4 : 1 <= Rabs (INR i - INR j) <= 2).
    { destruct i as [|[|[|i]]]; try lia; destruct j as [|[|[|j]]]; try lia; try (now elim Nij); cbn [INR];
        unfold Rabs; destruct (Rcase_abs _); lra. }
    split; [|split].
    + apply (C67_direct_distance (L := L) 3 _ _ 0 3); try lia. intros k Hk.
      destruct (dline_coord b i k Hb Hi Zi) as (Fi & ->). destruct (dline_coord b j k Hb Hj Zj) as (Fj & ->).
      split; [exact Fi|]. split; [exact Fj|]. destruct (Nat.eqb k 0); [right|now left].
      replace (2 * INR i - 2 * INR j) with (2 * (INR i - INR j)) by ring. rewrite Rabs_mult, (Rabs_pos_eq 2) by lra. simpl. lra.
    + rewrite D. simpl. lra.
    + left. rewrite D. pose proof (few_2 (prec := 24) 7 ltac:(unfold few; change (2 ^ 24)%Z with 16777216%Z; lia)) as W.
      change (growth (prec := 24) 7 <= 2) in W. split; [|simpl; lra].
      pose proof (growth_pos (prec := 24) 7). nra.
Qed.
Lemma ex_c6 : acc_c6 (L := Lcr) (L64 := Lcr) acc32 dC6 3 [2%nat].
Proof. intros b i j Hb Hi Hj. change (zero_or (-20) 20 (blit 24 128 10)). sized. Qed.
Lemma ex_r4r2 : acc_r4r2 (L := Lcr) (L64 := Lcr) dQ 3 [2%nat].
Proof. intros b i Hb Hi. change (zero_or 0 5 (blit 24 128 2)). sized. Qed.
Lemma ex_param : acc_param (L := Lcr) (L64 := Lcr) acc32 (gparam (N := N32)).
Proof.
  intros k x Hk Hx. simpl in Hk. destruct Hk as [<-|[<-|[<-|[<-|[<-|[]]]]]]; try discriminate Hx.
    + change (Some (blit 24 128 1) = Some x) in Hx. injection Hx as <-. change (zero_or (-3) 3 (blit 24 128 1)). sized.
    + change (Some (blit 24 128 (96 # 100)) = Some x) in Hx. injection Hx as <-. change (zero_or (-3) 3 (blit 24 128 (96 # 100))). sized.
    + change (Some (blit 24 128 (39 # 100)) = Some x) in Hx. injection Hx as <-. change (zero_or (-3) 3 (blit 24 128 (39 # 100))). sized.
    + change (Some (blit 24 128 (48 # 10)) = Some x) in Hx. injection Hx as <-. change (zero_or (-3) 3 (blit 24 128 (48 # 10))). sized.
Qed.

(** The batch of water and padded carbon monoxide of single precision, the padding atom at NaN: the energies
    are finite, and their relative errors are at most 89 units in the last place. *)
Example C67_example : exists t : tensor (sc N32),
  dispersion2 Xd two_mols dline (gparam (N := N32)) dC6 dQ None RationalDamping None false = Ok t /\
  forall b i, valid [2%nat] b -> (i < 3)%nat ->
    let e := exact_energy (L := Lcr) (L64 := Lcr) two_mols dline dC6 dQ (gparam (N := N32)) (blit 24 128 (39 # 100)) (blit 24 128 (48 # 10)) 60 3 3 b i in
    is_finite (sl1 t b i : f32) = true /\ Rabs (B2R (sl1 t b i : f32) - e) <= 89 * bpow radix2 (-23) * Rabs e.
Proof.
  destruct (C67_energy_accuracy (L := Lcr) (L64 := Lcr) Xd acc32 7 1 C67_single_precision_sizes (Lcr_pow_accurate (prec := 24) (emax := 128) ltac:(lia))
    two_mols dline (gparam (N := N32)) dC6 dQ None None 3 3 [2%nat] (blit 24 128 (39 # 100)) (blit 24 128 (48 # 10))
    eq_refl eq_refl eq_refl eq_refl Logic.I (gparam_good (N := N32)) eq_refl eq_refl) as (t & E & S & H).
  - apply (lit32 60); lia.
  - rewrite e60. exact (ex_geometry Lcr).
  - exact ex_c6.
  - exact ex_r4r2.
  - exact ex_param.
  - change (2 ^ 24)%Z with 16777216%Z. cbn. lia.
  - exists t. split; [exact E|]. intros b i Hb Hi e. destruct (H b i Hb Hi) as (A & C). split; [exact A|].
    rewrite e60 in C. change (atom_errors 7 1 3) with 89%nat in C. apply Rle_trans with (1 := C).
    apply Rmult_le_compat_r; [apply Rabs_pos|].
    pose proof (C67_linear (prec := 24) 89 ltac:(change (2 ^ 24)%Z with 16777216%Z; lia)) as Q.
    change (1 - 24)%Z with (-23)%Z in Q. replace 89 with (INR 89) by (simpl; lra). exact Q.
Qed.
