(** * C66: the correctly rounded library meets the hypotheses; single and double precision; examples *)
From Coq Require Import Reals List Arith ZArith QArith Bool String Lia Lra.
From Flocq Require Import Core.Core IEEE754.BinarySingleNaN.
From Verif Require Import Py Tensor Scalar ModelExt ModelUtils ModelDamping ModelModels
  ModelTerms ModelDisp SpecCall PropsTables TensorLemmas ClosedDamp CallLemmas IeeeInst IeeeP IeeeB SpecIeee IeeeW IeeeLib InstIeee
  PropsPadIeee PropsOutcome PropsSignIeee PropsFinite Usable InstW InstAny.
Import ListNotations.
Open Scope R_scope.

Section L.
Context {prec emax : Z} {Hp : Prec_gt_0 prec} {He : Prec_lt_emax prec emax}.
Notation B := (binary_float prec emax).
Notation p2 := (bpow radix2).
Notation rnd := (round radix2 (SpecFloat.fexp prec emax) (round_mode mode_NE)).
Context (H24 : (24 <= prec)%Z).

Lemma one_B2R : is_finite (@Bone prec emax Hp He) = true /\ B2R (@Bone prec emax Hp He) = 1.
Proof. split; [apply is_finite_Bone|apply Bone_correct]. Qed.
Lemma one_upto e : (0 <= e)%Z -> upto e (@Bone prec emax Hp He).
Proof.
  intros H. destruct one_B2R as (F1 & R1). split; [exact F1|]. rewrite R1, Rabs_R1.
  change 1 with (p2 0). now apply bpow_le.
Qed.
Lemma one_ge e : (e <= 0)%Z -> at_least (@Bone prec emax Hp He) (p2 e).
Proof.
  intros H. destruct one_B2R as (F1 & R1). right. split; [exact F1|]. rewrite R1.
  change 1 with (p2 0). now apply bpow_le.
Qed.

Lemma bround_le x e : 0 <= x <= p2 e -> (0 <= e < emax)%Z -> upto e (bround (prec := prec) (emax := emax) x).
Proof.
  intros (P & H) R. destruct (bround_spec x P) as (_ & _ & A & _).
  assert (N0 : 0 <= rnd x) by (rewrite <- (rnd_0 (prec := prec) (emax := emax)); now apply (rnd_mono (Hp := Hp))).
  assert (M : rnd x <= p2 e) by (rewrite <- (rnd_p2 (prec := prec) (emax := emax) e) by lia; now apply (rnd_mono (Hp := Hp))).
  assert (T : rnd x < p2 emax) by (apply Rle_lt_trans with (p2 e); auto; apply bpow_lt; lia).
  destruct (A T) as (A1 & A2). split; [exact A1|]. rewrite A2, Rabs_pos_eq by auto. exact M.
Qed.
Lemma bround_ge x e : p2 e <= x -> (- emax < e)%Z -> at_least (bround (prec := prec) (emax := emax) x) (p2 e).
Proof.
  intros H R. pose proof (bpow_gt_0 radix2 e) as P0. assert (P : 0 <= x) by lra.
  destruct (bround_spec x P) as (_ & _ & A & C).
  assert (M : p2 e <= rnd x) by (rewrite <- (rnd_p2 (prec := prec) (emax := emax) e) by lia; now apply (rnd_mono (Hp := Hp))).
  destruct (Rlt_le_dec (rnd x) (p2 emax)) as [T|T]; [|left; auto].
  destruct (A T) as (A1 & A2). right. split; [exact A1|]. rewrite A2. exact M.
Qed.

Lemma ln2_pos : 0 < ln 2.
Proof. rewrite <- ln_1. apply ln_increasing; lra. Qed.
Lemma p2_exp e : p2 e = exp (IZR e * ln 2).
Proof. apply (bpow_exp radix2 e). Qed.
Lemma ln_p2 e : ln (p2 e) = IZR e * ln 2.
Proof. rewrite p2_exp. apply ln_exp. Qed.
Lemma exp_mono_le x y : x <= y -> exp x <= exp y.
Proof. intros [H| ->]; [left; now apply exp_increasing|lra]. Qed.
Lemma ln_mono_le x y : 0 < x -> x <= y -> ln x <= ln y.
Proof. intros P [H| ->]; [left; now apply ln_increasing|lra]. Qed.

Lemma Rpower_le2 x y b j : 0 < x -> x <= p2 b -> 0 <= y <= IZR j -> (0 <= b)%Z -> Rpower x y <= p2 (b * j).
Proof.
  intros P H (Y0 & Y1) Hb. unfold Rpower. rewrite p2_exp, mult_IZR. apply exp_mono_le.
  assert (Lx : ln x <= IZR b * ln 2) by (rewrite <- ln_p2; now apply ln_mono_le).
  apply Rle_trans with (y * (IZR b * ln 2)); [now apply Rmult_le_compat_l|].
  replace (IZR b * IZR j * ln 2) with (IZR j * (IZR b * ln 2)) by ring. apply Rmult_le_compat_r; auto.
  apply Rmult_le_pos; [now apply (IZR_le 0)|left; exact ln2_pos].
Qed.
Lemma Rpower_ge2 x y a j : p2 (- a) <= x -> 0 <= y <= IZR j -> (0 <= a)%Z -> p2 (- (a * j)) <= Rpower x y.
Proof.
  intros H (Y0 & Y1) Ha. unfold Rpower. rewrite p2_exp, opp_IZR, mult_IZR. apply exp_mono_le.
  assert (Lx : - (IZR a * ln 2) <= ln x).
  { replace (- (IZR a * ln 2)) with (ln (p2 (- a))) by (rewrite ln_p2, opp_IZR; ring). apply ln_mono_le; auto. apply bpow_gt_0. }
  apply Rle_trans with (y * - (IZR a * ln 2)); [|now apply Rmult_le_compat_l].
  assert (K : y * (IZR a * ln 2) <= IZR j * (IZR a * ln 2)).
  { apply Rmult_le_compat_r; auto. apply Rmult_le_pos; [now apply (IZR_le 0)|left; exact ln2_pos]. }
  lra.
Qed.
Lemma p2_pow b k : p2 (b * Z.of_nat k) = p2 b ^ k.
Proof.
  induction k as [|k IH]; [rewrite Z.mul_0_r; reflexivity|].
  rewrite Nat2Z.inj_succ. replace (b * Z.succ (Z.of_nat k))%Z with (b + b * Z.of_nat k)%Z by ring.
  rewrite bpow_plus, IH. reflexivity.
Qed.

Lemma neg_float (s : bool) m e H : B2R (B754_finite s m e H : B) <= 0 -> s = true.
Proof. destruct s; auto. simpl. intros K. assert (0 < F2R (Float radix2 (Z.pos m) e)) by (now apply F2R_gt_0). lra. Qed.

Lemma Lcr_pow_bounds : pow_bounds (L := Lcr (prec := prec) (emax := emax)).
Proof.
  constructor.
  - intros x y (Nx & Sx) Ny. cbn [Lcr l_pow]. unfold nonneg in Sx.
    assert (O1 : is_nan (@Bone prec emax Hp He) = false) by apply is_nan_Bone.
    assert (Rb : forall u v, is_nan (bround (prec := prec) (emax := emax) (Rpower u v)) = false) by (intros; apply bround_spec; left; apply exp_pos).
    destruct y as [s|s| |s m e H]; try discriminate; simpl; auto; rewrite Nx, Sx; cbn [orb];
      destruct x as [t|t| |t n f G]; try discriminate; simpl; auto;
      repeat match goal with |- context [if ?b then _ else _] => destruct b end; auto.
  - intros x k (Nx & Sx). cbn [Lcr l_pown]. unfold pown_cr. destruct k; [apply is_nan_Bone|].
    assert (P : 0 <= B2R x ^ S k) by (apply pow_le; now apply sign_nonneg).
    destruct x as [t|t| |t n f G]; try discriminate; auto; now apply bround_spec.
  - intros x y b j (Nx & Sx) Fx (X0 & Xb) Fy (Y0 & Yj) Hb Hj. unfold nonneg in Sx.
    assert (J : (0 <= j)%Z) by (apply le_IZR; lra). assert (BJ : (0 <= b * j)%Z) by lia.
    cbn [Lcr l_pow]. destruct y as [s|s| |s m e H]; try discriminate; [now apply one_upto|].
    cbn [pow_cr]. rewrite Nx, Sx. cbn [orb].
    destruct x as [t|t| |t n f G]; try discriminate.
    + assert (Es : Bsign (B754_finite s m e H : B) = false).
      { destruct s; auto. simpl in Y0. assert (F2R (Float radix2 (Z.neg m) e) < 0) by (now apply F2R_lt_0). lra. }
      rewrite Es. split; [reflexivity|]. simpl. rewrite Rabs_R0. apply bpow_ge_0.
    + simpl in Sx. subst t. assert (Px : 0 < B2R (B754_finite false n f G : B)) by (simpl; now apply F2R_gt_0).
      apply bround_le; [|lia]. split; [left; apply exp_pos|]. apply Rpower_le2; auto.
  - intros x y a j Hx Fy (Y0 & Yj) Ha Hj.
    assert (J : (0 <= j)%Z) by (apply le_IZR; lra). assert (AJ : (0 <= a * j)%Z) by lia.
    pose proof (at_least_sign x _ Hx (bpow_gt_0 _ _)) as Sx.
    cbn [Lcr l_pow]. destruct y as [s|s| |s m e H]; try discriminate; [apply one_ge; lia|].
    assert (Es : Bsign (B754_finite s m e H : B) = false).
    { destruct s; auto. simpl in Y0. assert (F2R (Float radix2 (Z.neg m) e) < 0) by (now apply F2R_lt_0). lra. }
    cbn [pow_cr]. destruct Hx as [->|(Fx & Hx)]; [cbn [is_nan Bsign orb]; cbn [Bsign] in Es; subst s; now left|].
    rewrite (is_nan_finite _ Fx), Sx. cbn [orb]. pose proof (bpow_gt_0 radix2 (- a)).
    destruct x as [t|t| |t n f G]; try discriminate; [simpl in Hx; lra|].
    apply bround_ge; [|lia]. apply Rpower_ge2; auto.
  - intros x k b Fx (X0 & Xb) Hb Hk. cbn [Lcr l_pown]. unfold pown_cr. destruct k; [apply one_upto; lia|].
    assert (P : 0 <= B2R x ^ S k) by now apply pow_le.
    assert (Q : B2R x ^ S k <= p2 (b * Z.of_nat (S k))) by (rewrite p2_pow; apply pow_incr; lra).
    destruct x as [t|t| |t n f G]; try discriminate; apply bround_le; auto; lia.
  - intros x k a Hx Ha Hk. cbn [Lcr l_pown]. unfold pown_cr. destruct k; [apply one_ge; lia|].
    destruct Hx as [->|(Fx & Hx)]; [now left|].
    assert (Q : p2 (- (a * Z.of_nat (S k))) <= B2R x ^ S k).
    { replace (- (a * Z.of_nat (S k)))%Z with (- a * Z.of_nat (S k))%Z by ring. rewrite p2_pow. apply pow_incr.
      split; [apply bpow_ge_0|exact Hx]. }
    destruct x as [t|t| |t n f G]; try discriminate; apply bround_ge; auto; lia.
Qed.
End L.

(** ** Sizes that fit *)
Section F.
Context {prec emax : Z} {Hp : Prec_gt_0 prec} {He : Prec_lt_emax prec emax}.
Context {L : Libm prec emax} {L64 : Libm 53 1024}.
Notation N := (IN prec emax L L64).
Context (X : Ext (sc N)).

(** terms with a shipped damping function *)
Definition shipped_terms (ts : list (DispTerm N)) : Prop :=
  (List.length ts <= 16)%nat /\
  forall t, In t ts -> (t_class t = TwoBodyTerm /\ exists cls, t_damping t = damping_of X cls) \/
                       (t_class t <> TwoBodyTerm /\ t_damping t = ZeroDamping X).

Lemma fits_intro s ts : shipped_terms ts -> (24 <= prec /\ 128 <= emax)%Z ->
  (0 <= far s /\ 0 <= near s /\ 0 <= chg s /\ 3 <= par s /\ 0 <= atoms s <= prec)%Z ->
  (6 * chg s + 70 <= emax /\ 6 * par s + 24 <= emax /\ 10 * near s < emax)%Z ->
  (2 * chg s + Z.max (10 * near s) (8 * far s + 16 * near s) + par s + atoms s + 53 < emax)%Z ->
  (3 * chg s + 6 * far s + 15 * near s + par s + 2 * atoms s + 44 < emax)%Z -> fits (L := L) (L64 := L64) X s ts.
Proof.
  intros (Hl & H) A B C D1 D2. constructor; auto. intros t Ht. unfold term_fits.
  destruct (H t Ht) as [(-> & cls & E)|(Hc & E)].
  - exists cls. split; auto. unfold damping_exp. destruct cls; lia.
  - destruct (t_class t); auto. congruence.
Qed.
End F.

(** Single precision: distances from 1 to 64 Bohr, up to 8192 atoms, charge scaling at most [2^5]
    (the default [ga = 3] gives [e^3]), parameters at most 8. *)
Definition sizes32 : sizes := mkSizes 6 0 5 3 13.
(** Double precision: distances from [2^-20] to [2^20] Bohr, up to [2^30] atoms, charge scaling and parameters up to 1024. *)
Definition sizes64 : sizes := mkSizes 20 20 10 10 30.

Local Existing Instance Hp64.
Local Existing Instance He64.
Local Existing Instance Hp32.
Local Existing Instance He32.

Theorem C66_single_precision_sizes : forall (L : Libm 24 128) (L64 : Libm 53 1024) (X : Ext (sc (IN 24 128 L L64))) ts,
  shipped_terms X ts -> fits X sizes32 ts.
Proof. intros. apply fits_intro; auto; cbn; lia. Qed.
Theorem C66_double_precision_sizes : forall (L L64 : Libm 53 1024) (X : Ext (sc (IN 53 1024 L L64))) ts,
  shipped_terms X ts -> fits X sizes64 ts.
Proof. intros. apply fits_intro; auto; cbn; lia. Qed.
Print Assumptions C66_single_precision_sizes.
Print Assumptions C66_double_precision_sizes.

(** ** Examples *)
Lemma Xl_storch : storch_bounds (L := Lcr) (L64 := Lcr) Xl.
Proof.
  constructor.
  - intros x y (Nx & Sx) Fx (Ny & Sy) Hy. cbn [x_div Xl]. unfold nonneg in *.
    destruct x as [s|s| |s m e G]; try discriminate.
    + destruct y as [t|t| |t n f K]; try discriminate; try reflexivity. simpl in Sy. subst t. now elim Hy.
    + now apply div_nan.
  - intros x y a b Sx Ux Ly R. cbn [x_div Xl]. apply (le2_div _ _ _ a (- b)); auto; [lia|].
    unfold IeeeB.in_range. lia.
  - intros x a Sx Ux R. cbn [x_sqrt Xl]. split; [now apply nn_sqrt|].
    apply (le2_sqrt _ _ (2 * a)); auto; [lia|]. unfold IeeeB.in_range. lia.
Qed.

Lemma exp3_32 (y : f32) : at_most y (B2R (blit 24 128 3)) -> upto 5 (l_exp Lcr y).
Proof.
  assert (E3 : B2R (blit 24 128 3) = 3).
  { assert (E : B2SF (blit 24 128 3) = SpecFloat.S754_finite false 12582912 (-22)) by (vm_compute; reflexivity).
    destruct (blit 24 128 3) as [s|s| |s m e G]; simpl in E; try discriminate. injection E as -> -> ->.
    simpl. unfold F2R. simpl. lra. }
  rewrite E3. intros [->|(F & H)]; [apply le2_0|].
  assert (Ex : l_exp Lcr y = bround (exp (B2R y))) by (destruct y; try discriminate; reflexivity).
  rewrite Ex. apply bround_le; [lia| |lia]. split; [left; apply exp_pos|].
  apply Rle_trans with (exp 3); [now apply exp_mono_le|].
  replace 3 with (1 + (1 + 1)) by ring. rewrite !exp_plus. pose proof exp_le_3. pose proof (exp_pos 1).
  assert (exp 1 * exp 1 <= 9) by (replace 9 with (3 * 3) by ring; apply Rmult_le_compat; lra).
  assert (exp 1 * (exp 1 * exp 1) <= 27) by (replace 27 with (3 * 9) by ring; apply Rmult_le_compat; try lra; apply Rmult_le_pos; lra).
  simpl. lra.
Qed.
Lemma charge_Xl z : (z = 1 \/ z = 6 \/ z = 8)%nat -> charge_params_ok (L := Lcr) (L64 := Lcr) Xl no_kw z.
Proof.
  intros Hz. split; [|split; [exact exp_ok_3|split; [|split]]].
  - apply positive_comp. vm_compute. reflexivity.
  - destruct Hz as [->|[->| ->]]; vm_compute; reflexivity.
  - apply positive_comp. vm_compute. reflexivity.
  - assert (T : forallb (fun r => let x := Bplus mode_NE (q_tab (L := Lcr) (L64 := Lcr) "eeq" z r) (dat (x_zeff Xl) [z]) in
        is_finite x && Bltb (B754_zero false) x) (seq 0 7) = true).
    { destruct Hz as [->|[->| ->]]; vm_compute; reflexivity. }
    rewrite forallb_seq in T. intros r Hr _. apply positive_comp. exact (T r Hr).
Qed.
Lemma two_mols_charges : charges_ok (L := Lcr) (L64 := Lcr) Xl sizes32 no_kw two_mols 3 [2%nat].
Proof.
  split; [|exact exp3_32]. intros [|x [|]] i V Hi Hz; simpl in V; try tauto. apply charge_Xl.
  destruct i as [|[|[|i]]]; try lia; destruct x as [|[|x]]; try lia; cbv; auto. now elim Hz.
Qed.

Lemma lit_upto q (x : f32) e : Some (blit 24 128 q) = Some x -> q_le2 e q = true -> (0 <= e < 100)%Z -> upto e x.
Proof. intros E H R. injection E as <-. apply (le2_lit (prec := 24) (emax := 128)); auto. unfold IeeeB.in_range. lia. Qed.

(** the parameters of the example: D4 with the three-body term *)
Lemma gparam_ok : params_ok (L := Lcr) (L64 := Lcr) sizes32 (gparam (N := N32)).
Proof.
  constructor.
  - intros k x Hk Hx. simpl in Hk. destruct Hk as [<-|[<-|[<-|[<-|[]]]]]; try discriminate Hx.
    + apply (lit_upto 1%Q x 3 Hx); [reflexivity|lia].
    + apply (lit_upto (96 # 100) x 3 Hx); [reflexivity|lia].
    + apply (lit_upto 1%Q x 3 Hx); [reflexivity|lia].
  - assert (P : forall q (x : f32), Some (blit 24 128 q) = Some x -> (0 <= Qnum q)%Z -> nonneg x).
    { intros q x E Hq. injection E as <-. now apply nn_lit. }
    intros k x Hk Hx. simpl in Hk. destruct Hk as [<-|[<-|[<-|[]]]]; try discriminate Hx.
    + split; [apply (P (39 # 100) x Hx); discriminate|apply (lit_upto (39 # 100) x 3 Hx); [reflexivity|lia]].
    + split; [apply (P (48 # 10) x Hx); discriminate|apply (lit_upto (48 # 10) x 3 Hx); [reflexivity|lia]].
  - discriminate.
  - intros k x Hk Hx. simpl in Hk. destruct Hk as [<-|[<-|[<-|[]]]]; discriminate Hx.
  - discriminate.
Qed.
Definition fcall : Args N32 := gmols (N := N32) (B754_nan : sc N32).

Lemma dist_lit (x : f32) (m : BinNums.positive) (e : Z) : B2SF x = SpecFloat.S754_finite false m e ->
  is_finite x = true /\ B2R x = F2R (Float radix2 (Z.pos m) e).
Proof.
  intros E. destruct x as [s|s| |s m' e' G]; simpl in E; try discriminate. injection E as -> -> ->. split; reflexivity.
Qed.

(** Single precision, the batch of water and padded carbon monoxide with NaN coordinates of the padding
    atom, two-body and three-body energies: every entry of the result is a finite number. *)
Example C66_example : exists e,
  run (N := N32) Xl (Wany Xl) (Pany Xl "d4") fcall = Ok e /\ shp e = [3; 2]%nat /\
  forall b i, valid [2%nat] b -> (i < 3)%nat -> is_finite (sl1 e b i : f32) = true.
Proof.
  apply (C66_energy_finite Xl Lcr_sign Lcr_sign Xl_sign (Lcr_pow_bounds (prec := 24) (emax := 128) ltac:(lia)) Xl_storch (Wany Xl) sizes32 (Pany Xl "d4") fcall D4M no_kw 3 3 [2%nat]).
  - exact Xf_tables.
  - exact (gcall_wf (N := N32) Xl two_mols (gline (N := N32) 3 [2%nat] (B754_nan : sc N32)) 3 3 [2%nat] "d4" D4M
      (or_introl (conj eq_refl eq_refl)) eq_refl eq_refl two_mols_range).
  - split; [cbn; lia|]. intros [|x [|]] i j V Hi Hj Hne Zi Zj; simpl in V; try tauto.
    assert (D2 : forall d : f32, B2SF d = SpecFloat.S754_finite false 8388608 (-22) ->
      is_finite d = true /\ bpow radix2 (- near sizes32) <= B2R d <= bpow radix2 (far sizes32)).
    { intros d E. destruct (dist_lit d _ _ E) as (F & ->). split; auto. unfold F2R. simpl. lra. }
    assert (D4 : forall d : f32, B2SF d = SpecFloat.S754_finite false 8388608 (-21) ->
      is_finite d = true /\ bpow radix2 (- near sizes32) <= B2R d <= bpow radix2 (far sizes32)).
    { intros d E. destruct (dist_lit d _ _ E) as (F & ->). split; auto. unfold F2R. simpl. lra. }
    destruct x as [|[|x]]; try lia; destruct i as [|[|[|i]]]; try lia; destruct j as [|[|[|j]]]; try lia;
      try (now elim Hne); try (now elim Zi); try (now elim Zj);
      first [apply D2; vm_compute; reflexivity|apply D4; vm_compute; reflexivity].
  - exact two_mols_charges.
  - exact gparam_ok.
  - constructor; [discriminate|discriminate|]. intros zi zj _ _. split; [apply positive_comp; vm_compute; reflexivity|].
    apply (lit_upto 1%Q _ 3 eq_refl); [reflexivity|lia].
  - apply C66_single_precision_sizes. split; [cbn; lia|]. intros t [<-|[<-|[]]]; [left|right].
    + split; [reflexivity|]. now exists Rational.
    + split; [discriminate|reflexivity].
Qed.

Example C66_properties_example : exists cn q c6 alpha : tensor (sc N32),
  get_properties (N := N32) Xl (Wany Xl) two_mols (gline (N := N32) 3 [2%nat] (B754_nan : sc N32)) None None = Ok (cn, q, c6, alpha) /\
  forall b i j, valid [2%nat] b -> (i < 3)%nat -> (j < 3)%nat -> upto 32 (sl2 c6 b i j : f32) /\ upto 18 (sl1 alpha b i : f32).
Proof.
  destruct (cn_any_ok (N := N32) Xl None two_mols (gline (N := N32) 3 [2%nat] (B754_nan : sc N32)) 3 3 [2%nat] eq_refl eq_refl)
    as (cn & Ec & Sc).
  assert (Q : forall ch co, exists q, w_eeq (Wany Xl) two_mols (gline (N := N32) 3 [2%nat] (B754_nan : sc N32)) ch co = Ok q /\ shp q = [3; 2]%nat).
  { intros ch co. cbn [w_eeq Wany]. unfold eeq_any. rewrite Ec. simpl. eexists. split; [reflexivity|]. exact Sc. }
  destruct (Q (scal (B754_zero false : sc N32)) (scal (blit 24 128 25 : sc N32))) as (q & Eq & Sq).
  destruct (C66_properties_finite Xl Lcr_sign Lcr_sign (Wany Xl) sizes32 two_mols _ None None 3 [2%nat] cn q
    Xf_tables eq_refl two_mols_range two_mols_charges ltac:(cbn; lia) Ec Sc Eq Sq) as (c6 & al & E & _ & _ & H).
  exists cn, q, c6, al. split; [exact E|exact H].
Qed.
