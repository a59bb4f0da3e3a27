(** * Rounding errors of the reference polarizabilities and reference C6 coefficients (proofs for C78) *)
From Coq Require Import Reals Lra Lia ZArith QArith Qreals List Arith Bool String.
From Flocq Require Import Core.Core IEEE754.BinarySingleNaN.
From Verif Require Import Py Tensor Scalar RInst ModelExt ModelUtils ModelModels SpecCall PropsTables TensorLemmas DataRef DataAlpha DataPair ClosedM
  IeeeInst IeeeP IeeeB IeeeA IeeeM IeeeE PropsAcc PropsAcc3 SpecW SpecIeee IeeeW PropsIeee PropsAccW PropsAccZ PropsAccT.
Import ListNotations.
Open Scope R_scope.

(** ** Ranges of the tables *)
(** zero, or between [2^-a] and [2^h] *)
Definition fits (d : BinNums.positive) (a h : Z) (v : Z) : bool :=
  ((v =? 0) || ((Zpos d <=? v * 2 ^ a) && (v <=? Zpos d * 2 ^ h)))%Z.
Definition fits2 d a h (t : list (list Z)) : bool := forallb (forallb (fits d a h)) t.
Definition fits3 d a h (t : list (list (list Z))) : bool := forallb (fits2 d a h) t.

Lemma fits_0 d a h : fits d a h 0 = true. Proof. reflexivity. Qed.
Lemma fits_nth d a h l k : forallb (fits d a h) l = true -> fits d a h (nth k l 0%Z) = true.
Proof. intros H. rewrite forallb_forall in H. destruct (nth_in_or_default k l 0%Z) as [I| ->]; [now apply H|apply fits_0]. Qed.
Lemma fits2_nth d a h t z r : fits2 d a h t = true -> fits d a h (nth r (nth z t []) 0%Z) = true.
Proof.
  intros H. unfold fits2 in H. rewrite forallb_forall in H. apply fits_nth. destruct (nth_in_or_default z t []) as [I| ->]; [now apply H|reflexivity].
Qed.
Lemma fits3_nth d a h t z r k : fits3 d a h t = true -> fits d a h (nth k (nth r (nth z t []) []) 0%Z) = true.
Proof.
  intros H. unfold fits3 in H. rewrite forallb_forall in H. destruct (nth_in_or_default z t []) as [I| ->].
  - specialize (H _ I). now apply fits2_nth.
  - destruct r, k; apply fits_0.
Qed.
Lemma fits_range d a h v : (0 <= a)%Z -> (0 <= h)%Z -> fits d a h v = true -> Q2R (v # d) = 0 \/ bpow radix2 (- a) <= Q2R (v # d) <= bpow radix2 h.
Proof.
  intros Ha Hh H. unfold fits in H. apply orb_true_iff in H as [H|H].
  - left. apply Z.eqb_eq in H. subst v. unfold Q2R. cbn [Qnum Qden]. lra.
  - right. apply andb_true_iff in H as (H1 & H2). apply Z.leb_le in H1, H2. apply IZR_le in H1, H2. rewrite mult_IZR in H1, H2.
    assert (P : 0 < IZR (Zpos d)) by now apply IZR_lt. unfold Q2R. cbn [Qnum Qden]. rewrite bpow_opp.
    assert (Ea : bpow radix2 a = IZR (2 ^ a)) by (symmetry; apply (IZR_Zpower radix2); lia).
    assert (Eh : bpow radix2 h = IZR (2 ^ h)) by (symmetry; apply (IZR_Zpower radix2); lia).
    pose proof (bpow_gt_0 radix2 a) as Pa. rewrite Eh, Ea in *. split.
    + apply Rmult_le_reg_r with (IZR (Zpos d) * IZR (2 ^ a)); [nra|].
      replace (/ IZR (2 ^ a) * (IZR (Zpos d) * IZR (2 ^ a))) with (IZR (Zpos d)) by (field; lra).
      replace (IZR v * / IZR (Zpos d) * (IZR (Zpos d) * IZR (2 ^ a))) with (IZR v * IZR (2 ^ a)) by (field; lra). exact H1.
    + apply Rmult_le_reg_r with (IZR (Zpos d)); [exact P|]. rewrite Rmult_assoc, Rinv_l; lra.
Qed.

Lemma ascale_fit : fits2 refascale_tab_dec 4 1 refascale_tab = true. Proof. vm_compute. reflexivity. Qed.
Lemma scount_fit : fits2 refscount_tab_dec 1 4 refscount_tab = true. Proof. vm_compute. reflexivity. Qed.
Lemma sscale_fit : fits2 secscale_tab_dec 4 1 secscale_tab = true. Proof. vm_compute. reflexivity. Qed.
Lemma salpha_fit : fits2 secalpha_tab_dec 7 7 secalpha_tab = true. Proof. vm_compute. reflexivity. Qed.
Lemma alpha_fit : fits3 refalpha_tab_dec 8 10 refalpha_tab = true. Proof. vm_compute. reflexivity. Qed.
Lemma trap_fit : forallb (fits trapzd_weights_tab_dec 6 2) trapzd_weights_tab = true. Proof. vm_compute. reflexivity. Qed.
Lemma clsh_tab_ok : forallb (fun row => forallb (fun v => (Z.abs v <=? 32 * Zpos clsh_tab_dec)%Z) row) clsh_tab = true.
Proof. vm_compute. reflexivity. Qed.
Lemma refh_tab_ok : forallb (fun row => forallb (fun v => (Z.abs v <=? 32 * Zpos gfn2_refh_tab_dec)%Z) row) gfn2_refh_tab = true.
Proof. vm_compute. reflexivity. Qed.
(** a reference without polarizability has no secondary system *)
Lemma no_alpha_no_sys z r w0 : (z <= 103)%nat -> (r < 7)%nat -> (w0 < 23)%nat -> alpha_ref z r w0 = 0 -> (sys_ref z r <= 0)%Z.
Proof.
  intros Hz Hr Hw E.
  assert (H : forallb (fun z => forallb (fun r => forallb (fun w0 => (negb (nth w0 (nth r (nth z refalpha_tab []) []) 0 =? 0) || (sys_ref z r <=? 0))%Z)
     (seq 0 23)) (seq 0 7)) (seq 0 104) = true) by (vm_compute; reflexivity).
  rewrite forallb_forall in H. specialize (H z ltac:(apply in_seq; lia)). rewrite forallb_forall in H. specialize (H r ltac:(apply in_seq; lia)).
  rewrite forallb_forall in H. specialize (H w0 ltac:(apply in_seq; lia)). apply orb_true_iff in H as [H|H]; [|now apply Z.leb_le].
  exfalso. apply negb_true_iff, Z.eqb_neq in H. apply H. apply eq_IZR.
  change (IZR (nth w0 (nth r (nth z refalpha_tab []) []) 0%Z) * / IZR (Zpos refalpha_tab_dec) = 0) in E.
  apply Rmult_integral in E as [E|E]; [exact E|]. exfalso. revert E. apply Rinv_neq_0_compat. apply IZR_neq. discriminate.
Qed.

Section C.
Context {prec emax : Z} {Hp : Prec_gt_0 prec} {He : Prec_lt_emax prec emax}.
Context {L : Libm prec emax} {L64 : Libm 53 1024}.
Notation N := (IN prec emax L L64).
Notation K := (sc N).
Notation F := (binary_float prec emax).
Notation p2 := (bpow radix2).
Notation few := (few (prec := prec)).
Notation appr := (appr (prec := prec) (emax := emax)).
Notation mapr := (mapr (prec := prec) (emax := emax)).
Notation rnd := (round radix2 (SpecFloat.fexp prec emax) (round_mode mode_NE)).

(** ** Domain of the charge scaling of the secondary system *)
(** [h]: charge of the reference; [J]: cancellation in [h + zeff]; [A1], [A2]: the two exponents *)
Record sec_domain (ga gc gam zeff : F) (h : R) (A1 A2 J : nat) : Prop := {
  sd_ga : signed_or (-20) 6 ga; sd_gc : signed_or (-20) 10 gc; sd_gam : signed_or (-20) 10 gam;
  sd_zeff : zero_or (-20) 10 zeff;
  sd_mod : let qmod := h + B2R zeff in let eps := p2 (1 - prec) in let gm := B2R gam * B2R gc in
    / 4 <= qmod /\ Rabs h + B2R zeff + eps <= INR J * (qmod - eps) /\
    Rabs (B2R gam) * Rabs (B2R gc) * (1 + B2R zeff / (qmod - eps)) <= INR A1 /\
    Rabs (B2R ga) * (1 + exp (gm * (1 - B2R zeff / (qmod - eps)))) <= INR A2 }.
(** its number of rounding errors *)
Definition secondary_errors (ke A1 A2 J : nat) : nat := (2 * (2 * (12 * J + 6) * A1 + ke + 2) * A2 + ke)%nat.

Context (Hpp : (24 <= prec <= 53)%Z) (Hee : (128 <= emax <= 1024)%Z).

Lemma few_small k : (k <= 1000)%nat -> few k.
Proof. exact (few24 Hpp 0 0 k). Qed.
Lemma one_exact lo hi : (lo <= 0)%Z -> (0 <= hi)%Z -> appr 0 lo hi (blit prec emax 1) 1.
Proof. apply one_appr; auto; exact 0%nat. Qed.
Lemma eps_exact : is_finite (Bldexp mode_NE Bone (1 - prec) : F) = true /\ B2R (Bldexp mode_NE Bone (1 - prec) : F) = p2 (1 - prec).
Proof. apply eps_val; auto; exact 0%nat. Qed.

(** ** Literals of the tables *)
Lemma lit_fit d a h v : (0 <= a)%Z -> (0 <= h)%Z -> (a + 3 <= emax)%Z -> (h + 2 < emax)%Z -> fits d a h v = true ->
  mapr 1 (- a) h (Q2R (v # d)) (blit prec emax (v # d)) (Q2R (v # d)).
Proof.
  intros Ha Hh H1 H2 Ft. pose proof (fits_range d a h v Ha Hh Ft) as R.
  assert (P : 0 <= Q2R (v # d)) by (destruct R as [->|(R & _)]; [lra|pose proof (bpow_gt_0 radix2 (- a)); lra]).
  rewrite <- (Rabs_pos_eq _ P) at 1. apply mapr_lit; try lia. rewrite Rabs_pos_eq by exact P. exact R.
Qed.
Definition h_tab (ref : string) (z r : nat) : F := dat (tab_h (K := K) ref) [r; z].
Lemma h_tab_acc ref z r : mapr 1 (-60) 5 (Rabs (h_ref ref z r)) (h_tab ref z r) (h_ref ref z r).
Proof.
  unfold h_tab, tab_h, h_ref. destruct (ref =? "eeq")%string.
  - destruct (tab_frac (prec := prec) (emax := emax) clsh_tab clsh_tab_dec ltac:(vm_compute; discriminate) clsh_tab_ok z r) as [H|H]; [exact H|lia].
  - destruct (tab_frac (prec := prec) (emax := emax) gfn2_refh_tab gfn2_refh_tab_dec ltac:(vm_compute; discriminate) refh_tab_ok z r) as [H|H]; [exact H|lia].
Qed.

(** ** Charge scaling of the secondary system *)
Section Z.
Context (ke A1 A2 J : nat) (EA : exp_accurate L ke).
Context (ga gc gam zeff ht : F) (h : R) (SD : sec_domain ga gc gam zeff h A1 A2 J).
Context (Hht : mapr 1 (-60) 5 (Rabs h) ht h).
Context (HK : few (secondary_errors ke A1 A2 J + 2 * (12 * J + 6) * A1 + ke + 12 * J + 6)) (HA1 : (2 * Z.of_nat A1 + 10 < emax)%Z) (HA2 : (2 * Z.of_nat A2 + 3 <= emax)%Z).
Lemma zsec_acc : appr (secondary_errors ke A1 A2 J) (- (2 * Z.of_nat A2)) (2 * Z.of_nat A2)
  (zeta_s (K := K) ga (Bmult mode_NE gam gc : F) zeff (Bplus mode_NE ht zeff : F))
  (zeta_fun (p2 (1 - prec)) (B2R ga) (B2R gam * B2R gc) (B2R zeff) (h + B2R zeff)).
Proof.
  destruct SD as [Da Dc Dm Dz HM]. cbv zeta in HM. destruct HM as (Q4 & HJ & HA1' & HA2').
  set (v := h + B2R zeff) in *. set (e := p2 (1 - prec)) in *.
  assert (I2 : IZR (2 * Z.of_nat A2) = 2 * INR A2) by (rewrite mult_IZR, <- INR_IZR_INZ; reflexivity).
  assert (I1 : IZR (2 * Z.of_nat A1) = 2 * INR A1) by (rewrite mult_IZR, <- INR_IZR_INZ; reflexivity).
  pose proof (pos_INR A1) as P1. pose proof (pos_INR A2) as P2.
  assert (E0 : 0 < e) by apply bpow_gt_0. assert (E8 : e <= / 16) by (change (/ 16) with (p2 (-4)); apply bpow_le; lia).
  assert (Mz : mapr 0 (-60) 10 (B2R zeff) zeff (B2R zeff)).
  { apply (mapr_weak 0 (-20) 10); try lia. apply mapr_appr. destruct Dz as (Z1 & Z2). now apply appr_exact. }
  assert (Pz : 0 <= B2R zeff) by (destruct Dz as (_ & [->|(Z2 & _)]); [lra|pose proof (bpow_gt_0 radix2 (-20)); lra]).
  assert (Mqm : mapr 2 (-60) 11 (Rabs h + B2R zeff) (Bplus mode_NE ht zeff) v).
  { apply (mapr_add 1 (-60) 10); try lia; [apply (mapr_weak 1 (-60) 5); auto; lia|apply (mapr_weak 0 (-60) 10); auto; lia|apply few_small; lia]. }
  destruct eps_exact as (Fe & Ve). fold e in Ve.
  assert (Ae : mapr 2 (-60) 11 e (Bldexp mode_NE Bone (1 - prec)) e).
  { apply (mapr_weak 0 (-60) 11); try lia. apply mapr_appr. rewrite <- Ve. apply appr_exact; [exact Fe|right]. rewrite Ve. unfold e. split; apply bpow_le; lia. }
  assert (Md : mapr 3 (-60) 12 (Rabs h + B2R zeff + e) (Bminus mode_NE (Bplus mode_NE ht zeff) (Bldexp mode_NE Bone (1 - prec))) (v - e)).
  { apply (mapr_sub 2 (-60) 11); auto; try lia. apply few_small; lia. }
  assert (V11 : v <= p2 11).
  { apply Rle_trans with (Rabs h + B2R zeff); [unfold v; pose proof (Rle_abs h); lra|]. exact (rng_hi _ _ _ (mp_rng _ _ _ _ _ _ Mqm)). }
  assert (R3 : p2 (-3) <= v - e <= p2 11) by (split; [change (p2 (-3)) with (/ 8); lra|apply Rle_trans with (2 := V11); lra]).
  assert (Vp : 0 < v - e) by lra.
  set (Dn := Bminus mode_NE (Bplus mode_NE ht zeff) (Bldexp mode_NE Bone (1 - prec))) in *.
  assert (Ad : appr (12 * J) (-3) 11 Dn (v - e)).
  { apply (appr_rng _ (-60) 12); [|exact R3]. replace (12 * J)%nat with (4 * J * 3)%nat by lia. apply (appr_mapr 3 (-60) 12 (Rabs h + B2R zeff + e)); auto.
    - apply few_small; lia.
    - split; [apply Rle_trans with (2 := proj1 R3)|apply Rle_trans with (1 := proj2 R3)]; apply bpow_le; lia.
    - apply (few_le _ _ HK). lia. }
  assert (Fqm : is_finite (Bplus mode_NE ht zeff) = true) by apply Mqm.
  assert (Pq : 0 < B2R (Bplus mode_NE ht zeff)).
  { pose proof (appr_pos _ _ _ _ _ Ad) as Pd. destruct (Rle_lt_dec (B2R (Bplus mode_NE ht zeff)) 0) as [Neg|]; [exfalso|assumption].
    assert (B2R Dn < 0); [|lra]. destruct Ad as [Fd _ _ _].
    pose proof (Bminus_correct prec emax Hp He mode_NE _ _ Fqm Fe) as C.
    destruct (Rlt_bool (Rabs (rnd (B2R (Bplus mode_NE ht zeff) - B2R (Bldexp mode_NE Bone (1 - prec) : F)))) (p2 emax)).
    - destruct C as (C & _). unfold Dn. rewrite C, Ve. apply Rle_lt_trans with (rnd (- e)).
      + apply round_le; [apply fexp_correct; auto|apply valid_rnd_round_mode|lra].
      + rewrite round_generic; [lra|apply valid_rnd_round_mode|]. apply generic_format_opp, generic_format_bpow. unfold SpecFloat.fexp, SpecFloat.emin. lia.
    - destruct C as (C & _). exfalso. unfold Dn in Fd. destruct (Bminus mode_NE (Bplus mode_NE ht zeff) (Bldexp mode_NE Bone (1 - prec))); discriminate. }
  assert (Lt : Bltb (blit prec emax 0) (Bplus mode_NE ht zeff) = true).
  { rewrite Bltb_correct by (auto; now rewrite zero_lit). rewrite zero_lit. apply Rlt_bool_true. exact Pq. }
  change (zeta_s (K := K) ga (Bmult mode_NE gam gc : F) zeff (Bplus mode_NE ht zeff : F)) with
    (if Bltb (blit prec emax 0) (Bplus mode_NE ht zeff) then l_exp L (Bmult mode_NE ga (Bminus mode_NE (blit prec emax 1) (l_exp L (Bmult mode_NE (Bmult mode_NE gam gc)
       (Bminus mode_NE (blit prec emax 1) (Bdiv mode_NE zeff Dn)))))) else l_exp L ga).
  rewrite Lt. unfold zeta_fun. destruct (Rlt_dec 0 v) as [_|]; [|lra].
  assert (Ms : mapr (12 * J + 3) (-71) 14 (B2R zeff / (v - e)) (Bdiv mode_NE zeff Dn) (B2R zeff / (v - e))).
  { apply (mapr_div 0 (12 * J) (-60) (-3) 11 11); auto; try lia; [apply (mapr_weak 0 (-60) 10); auto; lia|lra|apply (few_le _ _ HK); lia]. }
  set (M := B2R zeff / (v - e)) in *.
  assert (M0 : 0 <= M) by exact (mapr_nonneg _ _ _ _ _ _ Ms).
  set (kS := (12 * J + 6)%nat) in *.
  assert (Mo : mapr (12 * J + 4) 0 15 (1 + M) (Bminus mode_NE (blit prec emax 1) (Bdiv mode_NE zeff Dn)) (1 - M)).
  { assert (T : mapr (12 * J + 4) (-71) 15 (1 + M) (Bminus mode_NE (blit prec emax 1) (Bdiv mode_NE zeff Dn)) (1 - M)).
    { apply (mapr_sub (12 * J + 3) (-71) 14); auto; try lia; [apply (mapr_weak 0 0 0); try lia; apply mapr_appr, one_exact; lia|apply (few_le _ _ HK); lia]. }
    apply (mapr_rng _ _ _ _ _ _ _ _ T). apply (one_le (-71)); [apply T|lra]. }
  assert (Mg : mapr 1 (-40) 20 (Rabs (B2R gam) * Rabs (B2R gc)) (Bmult mode_NE gam gc) (B2R gam * B2R gc)).
  { apply (mapr_mul 0 0 (-20) (-20) 10 10); try lia; try (now apply signed_mapr). apply few_small; lia. }
  set (x1 := Bminus mode_NE (blit prec emax 1) (Bdiv mode_NE zeff Dn)) in *.
  assert (M1 : mapr kS (-40) 35 (Rabs (B2R gam) * Rabs (B2R gc) * (1 + M)) (Bmult mode_NE (Bmult mode_NE gam gc) x1) (B2R gam * B2R gc * (1 - M))).
  { apply (mapr_mul 1 (12 * J + 4) (-40) 0 20 15); auto; try (unfold kS; lia). apply (few_le _ _ HK). unfold kS. lia. }
  set (kx := (2 * kS * A1 + ke)%nat).
  assert (Ax : appr kx (- (2 * Z.of_nat A1)) (2 * Z.of_nat A1) (l_exp L (Bmult mode_NE (Bmult mode_NE gam gc) x1)) (exp (B2R gam * B2R gc * (1 - M)))).
  { apply (appr_exp ke kS (-40) 35 (Rabs (B2R gam) * Rabs (B2R gc) * (1 + M)) _ _ A1); auto; try (unfold kx; lia).
    - apply (few_le _ _ HK). unfold kS. lia.
    - apply (few_le _ _ HK). unfold kx. lia.
    - rewrite I1. pose proof (mp_abs _ _ _ _ _ _ M1). lra. }
  set (y1 := l_exp L (Bmult mode_NE (Bmult mode_NE gam gc) x1)) in *. set (sc := exp (B2R gam * B2R gc * (1 - M))) in *.
  assert (S0 : 0 < sc) by apply exp_pos.
  assert (Fx2 : few (kx + 2)) by (apply (few_le _ _ HK); unfold kx, kS; lia).
  assert (Mc : mapr (kx + 1) 0 (2 * Z.of_nat A1 + 1) (1 + sc) (Bminus mode_NE (blit prec emax 1) y1) (1 - sc)).
  { assert (T : mapr (kx + 1) (- (2 * Z.of_nat A1)) (2 * Z.of_nat A1 + 1) (1 + sc) (Bminus mode_NE (blit prec emax 1) y1) (1 - sc)).
    { apply (mapr_sub kx (- (2 * Z.of_nat A1)) (2 * Z.of_nat A1)); try lia; [|now apply mapr_appr|apply (few_le _ _ Fx2); lia].
      apply (mapr_weak 0 (- (2 * Z.of_nat A1)) (2 * Z.of_nat A1)); try lia. apply mapr_appr, one_exact; lia. }
    apply (mapr_rng _ _ _ _ _ _ _ _ T). apply (one_le (- (2 * Z.of_nat A1))); [apply T|lra]. }
  assert (M2 : mapr (kx + 2) (-20) (2 * Z.of_nat A1 + 7) (Rabs (B2R ga) * (1 + sc)) (Bmult mode_NE ga (Bminus mode_NE (blit prec emax 1) y1)) (B2R ga * (1 - sc))).
  { apply (mapr_mul 0 (kx + 1) (-20) 0 6 (2 * Z.of_nat A1 + 1)); auto; try lia. now apply signed_mapr. }
  apply (appr_exp ke (kx + 2) (-20) (2 * Z.of_nat A1 + 7) (Rabs (B2R ga) * (1 + sc)) _ _ A2); auto; try lia.
  - apply (few_le _ _ HK). lia.
  - rewrite I2. pose proof (mp_abs _ _ _ _ _ _ M2). lra.
Qed.
End Z.

(** ** Specification: the same quantities in exact arithmetic *)
(** the tables and the parameters given to the model, as real numbers *)
Notation RNp := (RN (p2 (1 - prec)) 0).
Definition real_ext (X : Ext K) : Ext (sc RNp) :=
  mkExt (sc RNp) (fun _ _ _ => 0) Rdiv sqrt (tmap (B2R (prec := prec) (emax := emax)) (x_zeff X)) (tmap (B2R (prec := prec) (emax := emax)) (x_gam X))
    (tmap (B2R (prec := prec) (emax := emax)) (x_vdw X)).
Definition real_kw (kw : mkwargs N) : mkwargs RNp :=
  mkKw (N := RNp) (Some (B2R (the_ga kw))) (Some (B2R (the_gc kw))) None (Some (the_ref kw)) None.
(** sizes: the difference in the polarizability replaced by the sum *)
Definition pol_size (X : Ext K) (kw : mkwargs N) (z r w : nat) : R :=
  dat (@refascale (RS 0 0)) [r; z] * (alpha_ref z r w + secondary (real_ext X) (real_kw kw) z r w).
Definition c6_size (X : Ext K) (kw : mkwargs N) (z1 z2 : nat) (w1 w2 : nat -> R) : R :=
  rsum 7 (fun r => rsum 7 (fun s => w1 r * w2 s * casimir (pol_size X kw z1 r) (pol_size X kw z2 s))).

Section P.
Context (X : Ext K) (kw : mkwargs N).
Context (ke S1 S2 J : nat) (zc : Z) (EA : exp_accurate L ke).
Notation kz := (secondary_errors ke S1 S2 J).
Context (HK : few (2 * kz + 2 * (12 * J + 6) * S1 + ke + 12 * J + 80)) (HS1 : (2 * Z.of_nat S1 + 10 < emax)%Z) (HS2 : (2 * Z.of_nat S2 + 20 <= emax)%Z).
Context (Hga : 0 <= B2R (the_ga kw)) (Hzc : exp (B2R (the_ga kw)) <= p2 zc) (Hzc0 : (0 <= zc)%Z) (Hzc1 : (4 * zc + 46 <= emax)%Z).

Lemma zeta_le e gm qr qm : zeta_fun e (B2R (the_ga kw)) gm qr qm <= p2 zc.
Proof.
  apply Rle_trans with (2 := Hzc). unfold zeta_fun. destruct Rlt_dec; [|lra]. apply exp_mono.
  pose proof (exp_pos (gm * (1 - qr / (qm - e)))). nra.
Qed.
Definition sec_ok (z r : nat) : Prop := (0 < sys_ref z r)%Z ->
  let s := Z.to_nat (sys_ref z r) in
  sec_domain (the_ga kw) (the_gc kw) (dat (x_gam X) [s]) (dat (x_zeff X) [s]) (h_ref (the_ref kw) z r) S1 S2 J.

Section A.
Context (zz : Z) (r w : nat).
Notation z := (Z.to_nat zz).
Context (Hz : (z <= 103)%nat) (Hr : (r < 7)%nat) (Hw : (w < 23)%nat) (SO : sec_ok z r).

Lemma zsec_mapr : let e := if (0 <? sys_ref z r)%Z then
     zeta_fun (p2 (1 - prec)) (B2R (the_ga kw)) (B2R (dat (x_gam X) [Z.to_nat (sys_ref z r)] : F) * B2R (the_gc kw))
       (B2R (dat (x_zeff X) [Z.to_nat (sys_ref z r)] : F)) (h_ref (the_ref kw) z r + B2R (dat (x_zeff X) [Z.to_nat (sys_ref z r)] : F)) else 0 in
  mapr kz (- (2 * Z.of_nat S2)) zc e (zsec (K := K) X (the_ga kw : K) (the_gc kw : K) (the_ref kw) zz r : F) e.
Proof.
  cbv zeta. unfold zsec. change (t2 refsys zz r) with (sys_ref z r). pose proof SO as SO'. unfold sec_ok in SO'. destruct (Z.ltb_spec 0 (sys_ref z r)) as [P|P].
  - specialize (SO' P). cbv zeta in SO'.
    pose proof (zsec_acc ke S1 S2 J EA _ _ _ _ (h_tab (the_ref kw) z r) _ SO' (h_tab_acc _ z r)) as A.
    assert (A' := A ltac:(apply (few_le _ _ HK); lia) HS1 ltac:(lia)). clear A. pose proof (mapr_appr _ _ _ _ _ A') as M.
    apply (mapr_rng _ _ _ _ _ _ _ _ M). destruct (mp_rng _ _ _ _ _ _ M) as [E|(E & _)]; [now left|right]. split; [exact E|apply zeta_le].
  - apply mapr_zero.
Qed.

Lemma pol_acc : mapr (kz + 9) (-12) (14 + zc) (pol_size X kw z r w) (aref (K := K) X (the_ga kw : K) (the_gc kw : K) (the_ref kw) zz r w : F)
  (pol_ref (real_ext X) (real_kw kw) z r w).
Proof.
  pose proof zsec_mapr as Mz. cbv zeta in Mz. set (e := if (0 <? sys_ref z r)%Z then _ else 0) in Mz.
  set (s := Z.to_nat (sys_ref z r)) in *.
  set (cnt := dat (@refscount (RS 0 0)) [r; z] : R). set (scl := dat (@secscale (RS 0 0)) [0%nat; s] : R). set (sal := dat (@secalpha (RS 0 0)) [w; s] : R).
  set (asc := dat (@refascale (RS 0 0)) [r; z] : R). set (alp := alpha_ref z r w).
  assert (Es : secondary (real_ext X) (real_kw kw) z r w = cnt * ((scl * sal) * e)).
  { unfold secondary. cbv zeta. unfold e. destruct (0 <? sys_ref z r)%Z; [|ring].
    fold s. transitivity (cnt * scl * sal * zeta_fun (p2 (1 - prec)) (B2R (the_ga kw)) (B2R (dat (x_gam X) [s] : F) * B2R (the_gc kw))
       (B2R (dat (x_zeff X) [s] : F)) (h_ref (the_ref kw) z r + B2R (dat (x_zeff X) [s] : F))); [reflexivity|ring]. }
  assert (Mc : mapr 1 (-1) 4 cnt (dat (@refscount K) [r; z] : F) cnt).
  { apply (lit_fit refscount_tab_dec 1 4 (nth r (nth z refscount_tab []) 0%Z)); try lia. apply fits2_nth, scount_fit. }
  assert (Ms : mapr 1 (-4) 1 scl (dat (@secscale K) [0%nat; s] : F) scl).
  { apply (lit_fit secscale_tab_dec 4 1 (nth 0 (nth s secscale_tab []) 0%Z)); try lia. apply fits2_nth, sscale_fit. }
  assert (Ma : mapr 1 (-7) 7 sal (dat (@secalpha K) [w; s] : F) sal).
  { apply (lit_fit secalpha_tab_dec 7 7 (nth w (nth s secalpha_tab []) 0%Z)); try lia. apply fits2_nth, salpha_fit. }
  assert (Mx : mapr 1 (-4) 1 asc (dat (@refascale K) [r; z] : F) asc).
  { apply (lit_fit refascale_tab_dec 4 1 (nth r (nth z refascale_tab []) 0%Z)); try lia. apply fits2_nth, ascale_fit. }
  assert (Ml : mapr 1 (-8) 10 alp (dat (@refalpha K) [w; r; z] : F) alp).
  { apply (lit_fit refalpha_tab_dec 8 10 (nth w (nth r (nth z refalpha_tab []) []) 0%Z)); try lia. apply fits3_nth, alpha_fit. }
  assert (P1 : mapr 3 (-11) 8 (scl * sal) (Bmult mode_NE (dat (@secscale K) [0%nat; s] : F) (dat (@secalpha K) [w; s] : F)) (scl * sal)).
  { apply (mapr_mul 1 1 (-4) (-7) 1 7); auto; try lia. apply few_small. lia. }
  set (zs := zsec (K := K) X (the_ga kw : K) (the_gc kw : K) (the_ref kw) zz r : F) in *.
  assert (P2 : mapr (kz + 4) (-11 - 2 * Z.of_nat S2) (8 + zc) (scl * sal * e) (Bmult mode_NE (Bmult mode_NE (dat (@secscale K) [0%nat; s] : F) (dat (@secalpha K) [w; s] : F)) zs) (scl * sal * e)).
  { apply (mapr_mul 3 kz (-11) (- (2 * Z.of_nat S2)) 8 zc); auto; try lia. apply (few_le _ _ HK). lia. }
  set (x2 := Bmult mode_NE (Bmult mode_NE (dat (@secscale K) [0%nat; s] : F) (dat (@secalpha K) [w; s] : F)) zs) in *.
  assert (P3 : mapr (kz + 6) (-12 - 2 * Z.of_nat S2) (12 + zc) (cnt * (scl * sal * e)) (Bmult mode_NE (dat (@refscount K) [r; z] : F) x2) (cnt * (scl * sal * e))).
  { apply (mapr_mul 1 (kz + 4) (-1) (-11 - 2 * Z.of_nat S2) 4 (8 + zc)); auto; try lia. apply (few_le _ _ HK). lia. }
  set (x3 := Bmult mode_NE (dat (@refscount K) [r; z] : F) x2) in *. set (sec := cnt * (scl * sal * e)) in *.
  pose proof (mapr_nonneg _ _ _ _ _ _ P3) as S0.
  assert (P4 : mapr (kz + 7) (-8) (13 + zc) (alp + sec) (Bminus mode_NE (dat (@refalpha K) [w; r; z] : F) x3) (alp - sec)).
  { assert (T : mapr (kz + 7) (-12 - 2 * Z.of_nat S2) (13 + zc) (alp + sec) (Bminus mode_NE (dat (@refalpha K) [w; r; z] : F) x3) (alp - sec)).
    { apply (mapr_sub (kz + 6) (-12 - 2 * Z.of_nat S2) (12 + zc)); auto; try lia; [apply (mapr_weak 1 (-8) 10); auto; lia|apply (few_le _ _ HK); lia]. }
    apply (mapr_rng _ _ _ _ _ _ _ _ T). pose proof (mp_rng _ _ _ _ _ _ T) as RT. pose proof (rng_hi _ _ _ RT) as Up.
    destruct (mp_rng _ _ _ _ _ _ Ml) as [A0|(A0 & _)].
    - left. assert (Sy : (sys_ref z r <= 0)%Z) by (apply (no_alpha_no_sys z r w); auto).
      assert (E0 : e = 0) by (unfold e; destruct (Z.ltb_spec 0 (sys_ref z r)); [lia|reflexivity]). rewrite A0. unfold sec. rewrite E0. ring.
    - right. split; [lra|exact Up]. }
  assert (P5 : mapr (kz + 9) (-12) (14 + zc) (asc * (alp + sec)) (aref0 (K := K) X (the_ga kw : K) (the_gc kw : K) (the_ref kw) zz r w : F) (asc * (alp - sec))).
  { change (aref0 (K := K) X (the_ga kw : K) (the_gc kw : K) (the_ref kw) zz r w : F) with (Bmult mode_NE (dat (@refascale K) [r; z] : F) (Bminus mode_NE (dat (@refalpha K) [w; r; z] : F) x3)).
    apply (mapr_mul 1 (kz + 7) (-4) (-8) 1 (13 + zc)); auto; try lia. apply (few_le _ _ HK). lia. }
  unfold pol_size, pol_ref. rewrite Es. fold asc alp. change (cnt * (scl * sal * e)) with sec.
  unfold aref. set (a0 := aref0 (K := K) X _ _ _ zz r w : F) in *. destruct P5 as [Fa Ra Aa Ea].
  set (am := (if Bltb (blit prec emax 0) a0 then a0 else blit prec emax 0) : F).
  assert (V : is_finite am = true /\ B2R am = Rmax 0 (B2R a0)).
  { unfold am. rewrite Bltb_correct by (auto; now rewrite zero_lit). rewrite zero_lit.
    change (B2R (B754_zero false : F)) with 0. destruct (Rlt_bool_spec 0 (B2R a0)) as [Q|Q].
    - split; [exact Fa|]. rewrite Rmax_right; lra.
    - split; [reflexivity|]. rewrite Rmax_left by lra. reflexivity. }
  destruct V as (V1 & V2). change (dat (@refascale (RS 0 0)) [r; z] * (alpha_ref z r w - sec)) with (asc * (alp - sec)).
  match goal with |- IeeeM.mapr _ _ _ _ ?x _ => change x with am end.
  split; [exact V1|exact Ra| |].
  - apply Rle_trans with (2 := Aa). unfold Rmax. destruct Rle_dec; [lra|]. rewrite Rabs_R0. apply Rabs_pos.
  - rewrite V2. apply Rle_trans with (2 := Ea). unfold Rmax. repeat destruct Rle_dec; unfold Rabs; repeat destruct Rcase_abs; lra.
Qed.
End A.

Lemma thopi_acc : mapr 2 (-1) 0 three_over_pi (thopi (K := K) : F) three_over_pi.
Proof.
  change (thopi (K := K) : F) with (Bdiv mode_NE (blit prec emax (inject_Z 3)) (blit prec emax pi_lit)). unfold three_over_pi.
  assert (A3 : appr 0 0 2 (blit prec emax (inject_Z 3)) 3) by (apply lit3_ok; try lia; simpl; lra).
  assert (Q : 3 <= Q2R pi_lit <= 4).
  { unfold Q2R, pi_lit. cbn [Qnum Qden]. assert (0 < IZR (Zpos (10 ^ 39))) by now apply IZR_lt. split.
    - apply Rmult_le_reg_r with (IZR (Zpos (10 ^ 39))); [assumption|]. rewrite Rmult_assoc, Rinv_l by lra. rewrite Rmult_1_r, <- mult_IZR. apply IZR_le. vm_compute. discriminate.
    - apply Rmult_le_reg_r with (IZR (Zpos (10 ^ 39))); [assumption|]. rewrite Rmult_assoc, Rinv_l by lra. rewrite Rmult_1_r, <- mult_IZR. apply IZR_le. vm_compute. discriminate. }
  assert (Ap : appr 1 1 2 (blit prec emax pi_lit) (Q2R pi_lit)).
  { destruct (lit_round (prec := prec) (emax := emax) pi_lit) as (Lf & Lv).
    { rewrite Rabs_pos_eq by lra. split; [apply Rle_trans with (p2 0); [apply bpow_le; lia|simpl; lra]|apply Rle_trans with (p2 2); [simpl; lra|apply bpow_le; lia]]. }
    destruct (rnd_rel (prec := prec) (emax := emax) (Q2R pi_lit)) as (U1 & U2); [apply Rle_trans with (p2 0); [apply bpow_le; lia|simpl; lra]|].
    split; [exact Lf|right; split; simpl; lra|rewrite pow_1, Lv; exact U1|rewrite pow_1, Lv; exact U2]. }
  apply (mapr_rng _ (-3) 2).
  - apply mapr_appr. apply (appr_div 0 1 0 1 2 2); auto; try lia; [lra|apply few_small; lia].
  - right. simpl (p2 (-1)). simpl (p2 0). split; apply Rmult_le_reg_r with (Q2R pi_lit); try lra; unfold Rdiv; rewrite Rmult_assoc, Rinv_l; lra.
Qed.

Section W.
Context (zi zj : Z) (Hi : (Z.to_nat zi <= 103)%nat) (Hj : (Z.to_nat zj <= 103)%nat).
Context (SOi : forall r, (r < 7)%nat -> sec_ok (Z.to_nat zi) r) (SOj : forall r, (r < 7)%nat -> sec_ok (Z.to_nat zj) r).

Lemma rc6_acc x y : (x < 7)%nat -> (y < 7)%nat -> mapr (2 * kz + 47) (-31) (35 + 2 * zc)
  (casimir (pol_size X kw (Z.to_nat zi) x) (pol_size X kw (Z.to_nat zj) y))
  (rc6v (K := K) X (the_ga kw : K) (the_gc kw : K) (the_ref kw) zi zj x y : F)
  (casimir (pol_ref (real_ext X) (real_kw kw) (Z.to_nat zi) x) (pol_ref (real_ext X) (real_kw kw) (Z.to_nat zj) y)).
Proof.
  intros Hx Hy. unfold casimir, rc6v.
  apply (mapr_mul 2 (2 * kz + 44) (-1) (-30) 0 (35 + 2 * zc)); try lia; [apply thopi_acc| |apply (few_le _ _ HK); lia].
  apply (mapr_sum (L := L) 23 _ _ _ (2 * kz + 21) (-30) (30 + 2 * zc) 5); try lia; [|apply (few_le _ _ HK); lia].
  intros w0 Hw0.
  assert (Mt : mapr 1 (-6) 2 (quad_weight w0) (trap_w (K := K) w0 : F) (quad_weight w0)).
  { apply (lit_fit trapzd_weights_tab_dec 6 2 (nth w0 trapzd_weights_tab 0%Z)); try lia. apply fits_nth, trap_fit. }
  apply (mapr_mul (kz + 11) (kz + 9) (-18) (-12) (16 + zc) (14 + zc)); try lia; [|apply pol_acc; auto|apply (few_le _ _ HK); lia].
  apply (mapr_mul 1 (kz + 9) (-6) (-12) 2 (14 + zc)); try lia; [exact Mt|apply pol_acc; auto|apply (few_le _ _ HK); lia].
Qed.

Lemma c6_acc kwt lw (wi wj : nat -> F) (Wi Wj mi mj : nat -> R) :
  (forall r, (r < 7)%nat -> mapr kwt lw (zc + 1) (mi r) (wi r) (Wi r)) -> (forall r, (r < 7)%nat -> mapr kwt lw (zc + 1) (mj r) (wj r) (Wj r)) ->
  few (2 * kz + 2 * kwt + 63) -> (34 - emax <= 2 * lw)%Z -> (lw <= 0)%Z ->
  mapr (2 * kz + 2 * kwt + 63) (-31 + 2 * lw) (43 + 4 * zc)
    (c6_size X kw (Z.to_nat zi) (Z.to_nat zj) mi mj)
    (c6_of (N := N) X (the_ga kw : K) (the_gc kw : K) (the_ref kw) zi zj wi wj : F)
    (c6_pair (real_ext X) (real_kw kw) (Z.to_nat zi) (Z.to_nat zj) Wi Wj).
Proof.
  intros Mi Mj Fk Hl Hl0.
  set (P := fun x y => casimir (pol_ref (real_ext X) (real_kw kw) (Z.to_nat zi) x) (pol_ref (real_ext X) (real_kw kw) (Z.to_nat zj) y)).
  set (Q := fun x y => casimir (pol_size X kw (Z.to_nat zi) x) (pol_size X kw (Z.to_nat zj) y)).
  assert (Sw : forall (M : nat -> nat -> R) (a b : nat -> R), rsum 7 (fun r => rsum 7 (fun s => a r * b s * M r s)) = rsum 7 (fun y => rsum 7 (fun x => M x y * a x) * b y)).
  { intros M a b. rewrite rsum_swap. apply rsum_ext. intros y _. rewrite <- rsum_scal_r. apply rsum_ext. intros x _. ring. }
  assert (E1 : c6_size X kw (Z.to_nat zi) (Z.to_nat zj) mi mj = rsum 7 (fun y => rsum 7 (fun x => Q x y * mi x) * mj y)) by exact (Sw Q mi mj).
  assert (E2 : c6_pair (real_ext X) (real_kw kw) (Z.to_nat zi) (Z.to_nat zj) Wi Wj = rsum 7 (fun y => rsum 7 (fun x => P x y * Wi x) * Wj y)) by exact (Sw P Wi Wj).
  rewrite E1, E2. unfold c6_of.
  apply (mapr_sum (L := L) 7 _ _ _ (2 * kz + 2 * kwt + 56) (-31 + 2 * lw) (40 + 4 * zc) 3); try lia; auto.
  intros y Hy. apply (mapr_mul (2 * kz + kwt + 55) kwt (-31 + lw) lw (39 + 3 * zc) (zc + 1)); try lia; auto; [|apply (few_le _ _ Fk); lia].
  apply (mapr_sum (L := L) 7 _ _ _ (2 * kz + kwt + 48) (-31 + lw) (36 + 3 * zc) 3); try lia; [|apply (few_le _ _ Fk); lia].
  intros x Hx. apply (mapr_mul (2 * kz + 47) kwt (-31) lw (35 + 2 * zc) (zc + 1)); try lia; auto; [|apply (few_le _ _ Fk); lia].
  now apply rc6_acc.
Qed.
End W.
End P.
End C.
