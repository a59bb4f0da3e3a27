(** * A correctly rounded mathematical library: an instance of [Libm] used by the examples that
    show the hypotheses of the IEEE theorems can be met. *)
From Coq Require Import Reals Lra Lia ZArith List Bool.
From Flocq Require Import Core.Core IEEE754.BinarySingleNaN.
From Verif Require Import Py Tensor Scalar IeeeInst IeeeP SpecIeee.
Open Scope R_scope.

Section L.
Context {prec emax : Z} {Hp : Prec_gt_0 prec} {He : Prec_lt_emax prec emax}.
Notation B := (binary_float prec emax).
Notation fx := (SpecFloat.fexp prec emax).
Notation rnd := (round radix2 fx (round_mode mode_NE)).
Local Existing Instance fx_valid.

(** the float nearest to a real number *)
Definition bround (x : R) : B :=
  binary_normalize prec emax Hp He mode_NE (ZnearestE (scaled_mantissa radix2 fx x)) (cexp radix2 fx x) false.

Lemma rnd_idem x : rnd (rnd x) = rnd x.
Proof.
  apply round_generic; [apply valid_rnd_round_mode|]. apply generic_format_round; [apply fx_valid|apply valid_rnd_round_mode].
Qed.

Lemma bround_spec x : 0 <= x ->
  Bsign (bround x) = false /\ is_nan (bround x) = false /\
  (rnd x < bpow radix2 emax -> is_finite (bround x) = true /\ B2R (bround x) = rnd x) /\
  (bpow radix2 emax <= rnd x -> bround x = B754_infinity false).
Proof.
  intros Hx.
  pose proof (binary_normalize_correct prec emax Hp He mode_NE (ZnearestE (scaled_mantissa radix2 fx x)) (cexp radix2 fx x) false) as C.
  cbv zeta in C.
  change (F2R (Float radix2 (ZnearestE (scaled_mantissa radix2 fx x)) (cexp radix2 fx x))) with (rnd x) in C.
  fold (bround x) in C.
  rewrite rnd_idem in C. assert (N0 : 0 <= rnd x) by (rewrite <- (rnd_0 (prec := prec) (emax := emax)); now apply rnd_mono).
  rewrite Rabs_pos_eq in C by auto.
  split; [|split; [apply is_nan_binary_normalize|split]].
  - destruct Rlt_bool.
    + destruct C as (_ & _ & ->). destruct (Rcompare_spec (rnd x) 0); auto. lra.
    + apply B2SF_inf_inv in C. rewrite C. simpl. apply Rlt_bool_false. auto.
  - intros H. rewrite Rlt_bool_true in C by auto. tauto.
  - intros H. rewrite Rlt_bool_false in C by auto. apply B2SF_inf_inv in C. rewrite C, Rlt_bool_false; auto.
Qed.

Definition exp_cr (x : B) : B :=
  match x with
  | B754_nan => B754_nan
  | B754_infinity s => if s then B754_zero false else B754_infinity false
  | _ => bround (exp (B2R x))
  end.

(** C99 [pow] for a base with sign bit 0; other bases give NaN here *)
Definition pow_cr (x y : B) : B :=
  match y with
  | B754_zero _ => Bone
  | B754_nan => B754_nan
  | _ =>
      if is_nan x || Bsign x then B754_nan
      else match x with
           | B754_zero _ => if Bsign y then B754_infinity false else B754_zero false
           | B754_infinity _ => if Bsign y then B754_zero false else B754_infinity false
           | _ => match y with
                  | B754_infinity s =>
                      if Req_bool (B2R x) 1 then Bone
                      else if xorb s (Rlt_bool (B2R x) 1) then B754_zero false else B754_infinity false
                  | _ => bround (Rpower (B2R x) (B2R y))
                  end
           end
  end.

Definition pown_cr (x : B) (n : nat) : B :=
  match n with
  | O => Bone
  | S _ => match x with
           | B754_nan => B754_nan
           | B754_infinity s => B754_infinity (s && Nat.odd n)
           | _ => bround (B2R x ^ n)
           end
  end.

Definition Lcr : Libm prec emax := mkLibm exp_cr pow_cr pown_cr in_order.

Lemma exp_cr_nonneg x : Bsign (exp_cr x) = false.
Proof.
  destruct x as [s|s| |s m e H]; simpl; try (apply bround_spec, Rlt_le, exp_pos); auto. now destruct s.
Qed.
Lemma pow_cr_nonneg x y : Bsign (pow_cr x y) = false.
Proof.
  assert (O1 : Bsign (@Bone prec emax Hp He) = false) by apply Bsign_Bone.
  destruct y as [s|s| |s m e H]; simpl; auto; destruct (is_nan x || Bsign x); auto;
    destruct x as [t|t| |t n f G]; simpl; auto;
    repeat match goal with |- context [if ?b then _ else _] => destruct b end; auto;
    apply bround_spec; left; apply exp_pos.
Qed.
Lemma pown_cr_nonneg x k : Bsign x = false -> Bsign (pown_cr x k) = false.
Proof.
  assert (O1 : Bsign (@Bone prec emax Hp He) = false) by apply Bsign_Bone.
  intros Sx. unfold pown_cr. destruct k; auto.
  assert (P : 0 <= B2R x ^ S k) by (apply pow_le; now apply sign_nonneg).
  destruct x as [t|t| |t n f G]; simpl in Sx |- *; auto; try (subst t; reflexivity); now apply bround_spec.
Qed.
End L.

Local Existing Instance Hp64.
Local Existing Instance He64.

Lemma exp_14 : 2 ^ 19 <= exp 14.
Proof.
  replace 14 with (INR 112 * (/ 8)) by (simpl; lra).
  assert (E : forall n x, exp (INR n * x) = exp x ^ n).
  { intros n x. induction n; [simpl; rewrite Rmult_0_l; apply exp_0|].
    rewrite S_INR, Rmult_plus_distr_r, Rmult_1_l, exp_plus, IHn. simpl. ring. }
  rewrite E. assert (G : 1 + / 8 < exp (/ 8)) by (apply exp_ineq1; lra).
  apply Rle_trans with ((9 / 8) ^ 112).
  - apply Rmult_le_reg_r with (8 ^ 112); [apply pow_lt; lra|].
    unfold Rdiv. rewrite (Rpow_mult_distr 9 (/8) 112).
    rewrite Rmult_assoc, <- Rpow_mult_distr, Rinv_l, pow1, Rmult_1_r by lra.
    rewrite !pow_IZR, <- mult_IZR. apply IZR_le. vm_compute. discriminate.
  - apply pow_incr. lra.
Qed.

Lemma exp_m800 x : x <= -800 -> exp x <= bpow radix2 (-1083).
Proof.
  intros Hx. apply Rle_trans with (exp (-800)).
  { destruct (Rle_lt_or_eq_dec _ _ Hx) as [H| ->]; [left; now apply exp_increasing|lra]. }
  replace (-800) with (- (800)) by lra. rewrite exp_Ropp. change (-1083)%Z with (- (1083))%Z. rewrite bpow_opp.
  apply Rinv_le_contravar; [apply bpow_gt_0|].
  apply Rle_trans with (exp (INR 57 * 14)).
  2:{ left. apply exp_increasing. simpl. lra. }
  assert (E : forall n x, exp (INR n * x) = exp x ^ n).
  { intros n y. induction n; [simpl; rewrite Rmult_0_l; apply exp_0|].
    rewrite S_INR, Rmult_plus_distr_r, Rmult_1_l, exp_plus, IHn. simpl. ring. }
  rewrite E. apply Rle_trans with ((2 ^ 19) ^ 57).
  - rewrite <- pow_mult. change (bpow radix2 1083) with (IZR (Z.pow_pos 2 1083)).
    rewrite pow_IZR. apply IZR_le. vm_compute. discriminate.
  - apply pow_incr. split; [lra|apply exp_14].
Qed.

Lemma Lcr_nonneg : libm_nonneg Lcr.
Proof. split; [|split]; intros; [apply exp_cr_nonneg|apply pow_cr_nonneg|now apply pown_cr_nonneg]. Qed.

Lemma rnd64_tiny : round radix2 (SpecFloat.fexp 53 1024) (round_mode mode_NE) (bpow radix2 (-1083)) = 0.
Proof.
  apply (round_N_small_pos radix2 (SpecFloat.fexp 53 1024) _ _ (-1082)%Z).
  - split; [apply Rle_refl|apply bpow_lt; lia].
  - vm_compute. reflexivity.
Qed.

Lemma Lcr_underflow : libm_underflow Lcr.
Proof.
  split; [|split].
  - intros x [->|(F & H)]; [reflexivity|].
    assert (E : l_exp Lcr x = bround (exp (B2R x))) by (destruct x; try discriminate; reflexivity).
    rewrite E. pose proof (bround_spec (Hp := Hp64) (He := He64) (exp (B2R x)) (Rlt_le _ _ (exp_pos _))) as (Sg & _ & Fn & _).
    assert (Z0 : round radix2 (SpecFloat.fexp 53 1024) (round_mode mode_NE) (exp (B2R x)) = 0).
    { apply Rle_antisym.
      - rewrite <- rnd64_tiny. apply rnd_mono. now apply exp_m800.
      - rewrite <- (rnd_0 (prec := 53) (emax := 1024)). apply rnd_mono, Rlt_le, exp_pos. }
    rewrite Z0 in Fn. destruct (Fn (bpow_gt_0 _ _)) as (Ff & E0).
    apply B2R_Bsign_inj; auto.
  - intros y [->|(F & H)]; [reflexivity|].
    destruct y as [s|s| |s m e G]; simpl in F, H; try discriminate; try lra.
    simpl. destruct s; [|reflexivity]. exfalso. simpl in H.
    assert (F2R (Float radix2 (Z.neg m) e) < 0) by (now apply F2R_lt_0). lra.
  - intros k. cbn [Lcr l_pown pown_cr]. simpl B2R. rewrite pow_i by lia.
    pose proof (bround_spec (Hp := Hp64) (He := He64) 0 (Rle_refl _)) as (Sg & _ & Fn & _).
    rewrite (rnd_0 (prec := 53) (emax := 1024)) in Fn. destruct (Fn (bpow_gt_0 _ _)) as (Ff & E0).
    apply B2R_Bsign_inj; auto.
Qed.
