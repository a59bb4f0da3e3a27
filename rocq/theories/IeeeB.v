(** * IEEE-754 arithmetic: magnitude bounds (proof layer) *)
From Coq Require Import Reals Lra Lia ZArith QArith Qreals List Bool.
From Flocq Require Import Core.Core IEEE754.BinarySingleNaN.
From Verif Require Import Py Tensor Scalar IeeeInst IeeeP.

Section I.
Context {prec emax : Z} {Hp : Prec_gt_0 prec} {He : Prec_lt_emax prec emax}.
Notation B := (binary_float prec emax).
Notation fx := (SpecFloat.fexp prec emax).
Notation rnd := (round radix2 fx (round_mode mode_NE)).
Notation p2 := (bpow radix2).
Open Scope R_scope.
Local Existing Instance fx_valid.

(** exponents of powers of two that are floats *)
Definition in_range (e : Z) : Prop := (3 - emax - prec <= e < emax)%Z.

Lemma in_range_0 : in_range 0.
Proof. pose proof (prec_gt_0 prec). pose proof (prec_lt_emax prec emax). unfold in_range. lia. Qed.

Lemma rnd_p2 e : (3 - emax - prec <= e)%Z -> rnd (p2 e) = p2 e.
Proof.
  intros H. apply round_generic; [apply valid_rnd_round_mode|]. apply generic_format_bpow.
  unfold SpecFloat.fexp, SpecFloat.emin. pose proof (prec_gt_0 prec). lia.
Qed.

(** integers times a power of two *)
Lemma rnd_int k e : (3 - emax - prec <= e)%Z -> (Z.abs k <= 2 ^ prec)%Z -> rnd (IZR k * p2 e) = IZR k * p2 e.
Proof.
  intros He' Hk. pose proof (prec_gt_0 prec) as P.
  destruct (Z.eq_dec (Z.abs k) (2 ^ prec)) as [E|E].
  - assert (X : IZR (Z.abs k) * p2 e = p2 (prec + e)).
    { rewrite E, (IZR_Zpower radix2) by lia. symmetry. apply bpow_plus. }
    assert (Y : rnd (IZR (Z.abs k) * p2 e) = IZR (Z.abs k) * p2 e) by (rewrite X; apply rnd_p2; lia).
    destruct (Z.abs_spec k) as [(_ & A)|(_ & A)]; rewrite A in Y; [exact Y|].
    rewrite opp_IZR, Ropp_mult_distr_l_reverse, rnd_opp in Y. lra.
  - apply round_generic; [apply valid_rnd_round_mode|].
    apply (generic_format_FLT radix2 (3 - emax - prec) prec).
    exists (Float radix2 k e); [reflexivity| |cbn [Fexp]; lia]. cbn [Fnum].
    change (Z.abs k < 2 ^ prec)%Z. lia.
Qed.

(** a number of magnitude at most [c] *)
Definition bnd (c : R) (x : B) : Prop := is_finite x = true /\ Rabs (B2R x) <= c.
Definition cap (c : R) : Prop := rnd c = c /\ c < p2 emax.
Definition le2 (e : Z) : B -> Prop := bnd (p2 e).

Lemma cap_p2 e : in_range e -> cap (p2 e).
Proof. intros (A & B). split; [now apply rnd_p2|now apply bpow_lt]. Qed.
Lemma cap_int k e : (3 - emax - prec <= e)%Z -> (0 <= k <= 2 ^ prec)%Z -> IZR k * p2 e < p2 emax -> cap (IZR k * p2 e).
Proof. intros A B C. split; [|exact C]. apply rnd_int; auto. rewrite Z.abs_eq; lia. Qed.

Lemma bnd_le a b x : bnd a x -> a <= b -> bnd b x.
Proof. intros (F & H) L. split; auto. lra. Qed.
Lemma le2_le a b x : le2 a x -> (a <= b)%Z -> le2 b x.
Proof. intros H L. apply (bnd_le _ _ _ H). now apply bpow_le. Qed.

Lemma rnd_cap c v : cap c -> Rabs v <= c -> Rabs (rnd v) <= c /\ Rabs (rnd v) < p2 emax.
Proof.
  intros (R & L) H. assert (K : Rabs (rnd v) <= c).
  { apply Rabs_le. apply Rabs_le_inv in H. split.
    - rewrite <- R, <- rnd_opp. now apply (rnd_mono (Hp := Hp)).
    - rewrite <- R. now apply (rnd_mono (Hp := Hp)). }
  split; lra.
Qed.

Lemma bnd_add c x y a b : cap c -> bnd a x -> bnd b y -> a + b <= c -> bnd c (Bplus mode_NE x y).
Proof.
  intros C (Fx & Lx) (Fy & Ly) H. pose proof (Bplus_correct _ _ Hp He mode_NE x y Fx Fy) as Q.
  destruct (rnd_cap c (B2R x + B2R y) C) as (K1 & K2).
  { eapply Rle_trans; [apply Rabs_triang|]. lra. }
  rewrite Rlt_bool_true in Q by exact K2. destruct Q as (E & F & _). split; [exact F|]. now rewrite E.
Qed.
Lemma bnd_sub c x y a b : cap c -> bnd a x -> bnd b y -> a + b <= c -> bnd c (Bminus mode_NE x y).
Proof.
  intros C (Fx & Lx) (Fy & Ly) H. pose proof (Bminus_correct _ _ Hp He mode_NE x y Fx Fy) as Q.
  destruct (rnd_cap c (B2R x - B2R y) C) as (K1 & K2).
  { unfold Rminus. eapply Rle_trans; [apply Rabs_triang|]. rewrite Rabs_Ropp. lra. }
  rewrite Rlt_bool_true in Q by exact K2. destruct Q as (E & F & _). split; [exact F|]. now rewrite E.
Qed.
(** difference of two non-negative numbers *)
Lemma bnd_sub_nonneg c x y : cap c -> bnd c x -> bnd c y -> 0 <= B2R x -> 0 <= B2R y -> bnd c (Bminus mode_NE x y).
Proof.
  intros C (Fx & Lx) (Fy & Ly) Px Py. pose proof (Bminus_correct _ _ Hp He mode_NE x y Fx Fy) as Q.
  destruct (rnd_cap c (B2R x - B2R y) C) as (K1 & K2).
  { rewrite Rabs_pos_eq in Lx, Ly by auto. apply Rabs_le. lra. }
  rewrite Rlt_bool_true in Q by exact K2. destruct Q as (E & F & _). split; [exact F|]. now rewrite E.
Qed.
Lemma bnd_mul c x y a b : cap c -> bnd a x -> bnd b y -> a * b <= c -> bnd c (Bmult mode_NE x y).
Proof.
  intros C (Fx & Lx) (Fy & Ly) H. pose proof (Bmult_correct _ _ Hp He mode_NE x y) as Q.
  destruct (rnd_cap c (B2R x * B2R y) C) as (K1 & K2).
  { rewrite Rabs_mult. apply Rle_trans with (a * b); auto. apply Rmult_le_compat; auto using Rabs_pos. }
  rewrite Rlt_bool_true in Q by exact K2. destruct Q as (E & F & _). split; [now rewrite F, Fx, Fy|]. now rewrite E.
Qed.
Lemma bnd_div c x y a b : cap c -> bnd a x -> at_least y b -> 0 < b -> a / b <= c -> bnd c (Bdiv mode_NE x y).
Proof.
  intros C (Fx & Lx) Hy Pb H.
  assert (P0 : 0 <= c).
  { apply Rle_trans with (a / b); auto. apply Rmult_le_pos; [|left; now apply Rinv_0_lt_compat].
    apply Rle_trans with (Rabs (B2R x)); auto using Rabs_pos. }
  destruct Hy as [->|(Fy & Ly)].
  { destruct x as [s|s| |s m e G]; try discriminate; (split; [reflexivity|]); simpl; rewrite Rabs_R0; auto. }
  assert (NZ : B2R y <> 0) by lra.
  pose proof (Bdiv_correct _ _ Hp He mode_NE x y NZ) as Q.
  destruct (rnd_cap c (B2R x / B2R y) C) as (K1 & K2).
  { unfold Rdiv. rewrite Rabs_mult, Rabs_inv, (Rabs_pos_eq (B2R y)) by lra.
    apply Rle_trans with (a / b); auto. apply Rmult_le_compat; auto using Rabs_pos.
    - left. apply Rinv_0_lt_compat. lra.
    - apply Rinv_le; auto. }
  rewrite Rlt_bool_true in Q by exact K2. destruct Q as (E & F & _). split; [now rewrite F, Fx|]. now rewrite E.
Qed.
Lemma bnd_sqrt c x a : cap c -> bnd a x -> Bsign x = false -> 0 <= c -> a <= c * c -> bnd c (Bsqrt mode_NE x).
Proof.
  intros C (Fx & Lx) Sx Pc H. pose proof (Bsqrt_correct _ _ Hp He mode_NE x) as (E & F & _).
  pose proof (sign_nonneg x Sx) as P. rewrite Rabs_pos_eq in Lx by auto.
  split.
  - rewrite F. destruct x as [s|s| |s m e G]; simpl in *; auto. now subst s.
  - rewrite E. apply (rnd_cap c); auto. rewrite Rabs_pos_eq by apply sqrt_pos.
    rewrite <- (sqrt_square c Pc). apply sqrt_le_1; [auto|now apply Rmult_le_pos|lra].
Qed.
Lemma bnd_opp c x : bnd c x -> bnd c (Bopp x).
Proof. intros (F & L). split; [now rewrite is_finite_Bopp|]. now rewrite B2R_Bopp, Rabs_Ropp. Qed.
Lemma bnd_abs c x : bnd c x -> bnd c (Babs x).
Proof. intros (F & L). split; [now rewrite is_finite_Babs|]. now rewrite B2R_Babs, Rabs_Rabsolu. Qed.
Lemma bnd_0 c s : 0 <= c -> bnd c (B754_zero s).
Proof. intros H. split; [reflexivity|]. simpl. now rewrite Rabs_R0. Qed.
Lemma le2_0 e s : le2 e (B754_zero s).
Proof. apply bnd_0, bpow_ge_0. Qed.

(** literals *)
Lemma bnd_ratio c s m d : cap c -> IZR (Zpos m) <= c * IZR (Zpos d) -> bnd c (bratio prec emax s m d).
Proof.
  intros C H. unfold bratio.
  pose proof (proj2 (Bdiv_correct_aux prec emax Hp He mode_NE s m 0 false d 0)) as Q.
  generalize (proj1 (Bdiv_correct_aux prec emax Hp He mode_NE s m 0 false d 0)). intros V.
  assert (P : 0 < IZR (Zpos d)) by (apply IZR_lt; lia).
  assert (P' : 0 < IZR (Zpos m)) by (apply IZR_lt; lia).
  assert (A : Rabs (F2R (Float radix2 (cond_Zopp s (Zpos m)) 0) / F2R (Float radix2 (cond_Zopp false (Zpos d)) 0)) <= c).
  { unfold F2R. cbn [Fnum Fexp bpow]. rewrite !Rmult_1_r. cbn [cond_Zopp]. unfold Rdiv.
    rewrite Rabs_mult, Rabs_inv, (Rabs_pos_eq (IZR (Zpos d))) by lra.
    assert (E : Rabs (IZR (cond_Zopp s (Zpos m))) = IZR (Zpos m)).
    { rewrite <- abs_IZR. f_equal. destruct s; simpl; reflexivity. }
    rewrite E. apply Rmult_le_reg_r with (IZR (Zpos d)); auto. rewrite Rmult_assoc, Rinv_l, Rmult_1_r by lra. exact H. }
  destruct (rnd_cap c _ C A) as (K1 & K2). rewrite Rlt_bool_true in Q by exact K2.
  split; [rewrite is_finite_SF2B; apply Q|]. rewrite B2R_SF2B. destruct Q as (E & _).
  match type of E with ?a = _ => match goal with |- Rabs ?b <= _ => change b with a end end. rewrite E. exact K1.
Qed.
Lemma bnd_lit c q : cap c -> 0 <= c -> IZR (Z.abs (Qnum q)) <= c * IZR (Zpos (Qden q)) -> bnd c (blit prec emax q).
Proof.
  intros C P H. unfold blit. destruct (Qnum q) as [|m|m]; [now apply bnd_0|..]; now apply bnd_ratio.
Qed.
(** [|q| <= 2^e], checked on integers *)
Definition q_le2 (e : Z) (q : Q) : bool :=
  if (0 <=? e)%Z then (Z.abs (Qnum q) <=? 2 ^ e * Zpos (Qden q))%Z else (Z.abs (Qnum q) * 2 ^ (- e) <=? Zpos (Qden q))%Z.
Lemma le2_lit e q : in_range e -> q_le2 e q = true -> le2 e (blit prec emax q).
Proof.
  intros R H. apply bnd_lit; [now apply cap_p2|apply bpow_ge_0|]. unfold q_le2 in H.
  destruct (Z.leb_spec 0 e) as [L|L]; apply Z.leb_le, IZR_le in H; rewrite mult_IZR in H.
  - rewrite <- (IZR_Zpower radix2) by auto. exact H.
  - assert (E : IZR (2 ^ (- e)) = p2 (- e)) by (apply (IZR_Zpower radix2); lia). rewrite E in H.
    apply Rmult_le_reg_r with (p2 (- e)); [apply bpow_gt_0|].
    replace (p2 e * IZR (Z.pos (Qden q)) * p2 (- e)) with (IZR (Z.pos (Qden q)) * (p2 (e + - e))) by (rewrite bpow_plus; ring).
    replace (e + - e)%Z with 0%Z by ring. simpl. lra.
Qed.

(** powers of two *)
Lemma le2_add c x y a b : le2 a x -> le2 b y -> (a + 1 <= c)%Z -> (b + 1 <= c)%Z -> in_range c -> le2 c (Bplus mode_NE x y).
Proof.
  intros Hx Hy A B R. apply (bnd_add _ _ _ (p2 (c - 1)) (p2 (c - 1))); [now apply cap_p2|..].
  - apply (bnd_le _ _ _ Hx), bpow_le. lia.
  - apply (bnd_le _ _ _ Hy), bpow_le. lia.
  - replace c with (c - 1 + 1)%Z at 3 by ring. rewrite bpow_plus. simpl. lra.
Qed.
Lemma le2_sub c x y a b : le2 a x -> le2 b y -> (a + 1 <= c)%Z -> (b + 1 <= c)%Z -> in_range c -> le2 c (Bminus mode_NE x y).
Proof.
  intros Hx Hy A B R. apply (bnd_sub _ _ _ (p2 (c - 1)) (p2 (c - 1))); [now apply cap_p2|..].
  - apply (bnd_le _ _ _ Hx), bpow_le. lia.
  - apply (bnd_le _ _ _ Hy), bpow_le. lia.
  - replace c with (c - 1 + 1)%Z at 3 by ring. rewrite bpow_plus. simpl. lra.
Qed.
Lemma le2_mul c x y a b : le2 a x -> le2 b y -> (a + b <= c)%Z -> in_range c -> le2 c (Bmult mode_NE x y).
Proof.
  intros Hx Hy A R. apply (bnd_mul _ _ _ _ _ (cap_p2 _ R) Hx Hy). rewrite <- bpow_plus. now apply bpow_le.
Qed.
Lemma le2_div c x y a b : le2 a x -> at_least y (p2 b) -> (a - b <= c)%Z -> in_range c -> le2 c (Bdiv mode_NE x y).
Proof.
  intros Hx Hy A R. apply (bnd_div _ _ _ _ _ (cap_p2 _ R) Hx Hy); [apply bpow_gt_0|].
  unfold Rdiv. rewrite <- bpow_opp, <- bpow_plus. apply bpow_le. lia.
Qed.
Lemma le2_sqrt c x a : le2 a x -> Bsign x = false -> (a <= 2 * c)%Z -> in_range c -> le2 c (Bsqrt mode_NE x).
Proof.
  intros Hx S A R. apply (bnd_sqrt _ _ _ (cap_p2 _ R) Hx S); [apply bpow_ge_0|].
  rewrite <- bpow_plus. apply bpow_le. lia.
Qed.

(** [x] is at least the power of two *)
Lemma ge2_mul c x y a b : at_least x (p2 a) -> at_least y (p2 b) -> (c <= a + b)%Z -> (3 - emax - prec <= a + b)%Z ->
  at_least (Bmult mode_NE x y) (p2 c).
Proof.
  intros Hx Hy A R. apply at_least_le with (p2 (a + b)); [|now apply bpow_le].
  rewrite bpow_plus. apply mul_at_least; auto using bpow_gt_0. rewrite <- bpow_plus. now apply rnd_p2.
Qed.
Lemma ge2_sqrt c x a : at_least x (p2 a) -> (2 * c <= a)%Z -> (3 - emax - prec <= c)%Z ->
  at_least (Bsqrt mode_NE x) (p2 c).
Proof.
  intros Hx A R. pose proof (Bsqrt_correct _ _ Hp He mode_NE x) as (E & F & _).
  destruct Hx as [->|(Fx & Lx)]; [now left|right].
  assert (Sx : Bsign x = false) by (apply (at_least_sign x (p2 a)); [right; auto|apply bpow_gt_0]).
  split.
  - rewrite F. destruct x as [s|s| |s m e G]; simpl in *; auto. now subst s.
  - rewrite E, <- (rnd_p2 c R). apply (rnd_mono (Hp := Hp)).
    rewrite <- (sqrt_square (p2 c)) by apply bpow_ge_0. apply sqrt_le_1.
    + apply Rmult_le_pos; apply bpow_ge_0.
    + pose proof (bpow_ge_0 radix2 a). lra.
    + rewrite <- bpow_plus. apply Rle_trans with (p2 a); auto. apply bpow_le. lia.
Qed.
(** adding something that is not negative *)
Lemma ge2_add x y a : at_least x a -> 0 < a -> is_nan y = false -> Bsign y = false -> at_least (Bplus mode_NE x y) a.
Proof.
  intros Hx Pa Ny Sy. pose proof (at_least_sign _ _ Hx Pa) as Sx.
  destruct (plus_nonneg x y Sx Sy) as (S & H).
  destruct (is_finite (Bplus mode_NE x y)) eqn:F.
  - right. split; auto. destruct (H eq_refl) as (Fx & _ & _ & L & _). destruct Hx as [->|(_ & Hx)]; [discriminate|lra].
  - left. destruct Hx as [->|(Fx & Hx)].
    + destruct y as [s|s| |s m e G]; try discriminate; try reflexivity. simpl in Sy. now subst s.
    + destruct (is_finite y) eqn:Fy.
      * pose proof (Bplus_correct _ _ Hp He mode_NE x y Fx Fy) as C. destruct Rlt_bool.
        -- destruct C as (_ & C & _). congruence.
        -- destruct C as (C & _). apply B2SF_inf_inv in C. now rewrite C, Sx.
      * destruct y as [s|s| |s m e G]; try discriminate. simpl in Sy. subst s.
        destruct x as [t|t| |t m e G]; try discriminate; reflexivity.
Qed.
Lemma nn_add_nan x y : is_nan x = false -> is_nan y = false -> Bsign x = false -> Bsign y = false ->
  is_nan (Bplus mode_NE x y) = false.
Proof.
  intros Nx Ny Sx Sy.
  destruct (is_finite x) eqn:Fx; [destruct (is_finite y) eqn:Fy|].
  - pose proof (Bplus_correct _ _ Hp He mode_NE x y Fx Fy) as C. destruct Rlt_bool.
    + destruct C as (_ & C & _). now apply is_nan_finite.
    + destruct C as (C & _). apply B2SF_inf_inv in C. now rewrite C.
  - destruct y as [s|s| |s m e G]; try discriminate. simpl in Sy; subst s.
    destruct x as [t|t| |t m e G]; try discriminate; reflexivity.
  - destruct x as [s|s| |s m e G]; try discriminate. simpl in Sx; subst s.
    destruct y as [t|t| |t m e G]; try discriminate; try reflexivity. simpl in Sy; now subst t.
Qed.
Lemma mul_nan_strict (x y : B) : is_finite_strict x = true -> is_nan y = false -> is_nan (Bmult mode_NE x y) = false.
Proof.
  intros Fx Ny. destruct (is_finite y) eqn:Fy.
  - pose proof (Bmult_correct _ _ Hp He mode_NE x y) as C. destruct Rlt_bool.
    + destruct C as (_ & C & _). apply is_nan_finite. rewrite C, Fy. destruct x; auto; discriminate.
    + apply B2SF_inf_inv in C. now rewrite C.
  - destruct x as [t|t| |t m e G]; try discriminate; destruct y as [s|s| |s k f Q]; try discriminate; reflexivity.
Qed.

Lemma mul_nan_strict_r (x y : B) : is_nan x = false -> is_finite_strict y = true -> is_nan (Bmult mode_NE x y) = false.
Proof.
  intros Nx Fy. destruct (is_finite x) eqn:Fx.
  - pose proof (Bmult_correct _ _ Hp He mode_NE x y) as C. destruct Rlt_bool.
    + destruct C as (_ & C & _). apply is_nan_finite. rewrite C, Fx. destruct y; auto; discriminate.
    + apply B2SF_inf_inv in C. now rewrite C.
  - destruct y as [t|t| |t m e G]; try discriminate; destruct x as [s|s| |s k f Q]; try discriminate; reflexivity.
Qed.

(** ** upper bounds of differences that may be -infinity *)
Lemma sub_le (a x : B) : is_finite a = true -> is_nan x = false -> Bsign x = false -> 0 <= B2R a ->
  at_most (Bminus mode_NE a x) (B2R a).
Proof.
  intros Fa Nx Sx Pa. destruct (is_finite x) eqn:Fx.
  - pose proof (sign_nonneg x Sx) as Px.
    pose proof (Bminus_correct _ _ Hp He mode_NE a x Fa Fx) as C.
    assert (U : rnd (B2R a - B2R x) <= B2R a).
    { rewrite <- (rnd_B2R (prec := prec) (emax := emax) a) at 2. apply (rnd_mono (Hp := Hp)). lra. }
    assert (U' : - B2R x <= rnd (B2R a - B2R x)).
    { rewrite <- (rnd_B2R (prec := prec) (emax := emax) x) at 1. rewrite <- rnd_opp. apply (rnd_mono (Hp := Hp)). lra. }
    rewrite Rlt_bool_true in C.
    + destruct C as (E & F & _). right. rewrite F, E. auto.
    + pose proof (abs_B2R_lt_emax prec emax a) as L1. pose proof (abs_B2R_lt_emax prec emax x) as L2.
      rewrite Rabs_pos_eq in L1, L2 by auto. apply Rabs_def1; lra.
  - left. destruct x as [s|s| |s m e G]; try discriminate. simpl in Sx. subst s.
    destruct a; try discriminate; reflexivity.
Qed.
(** times a number in [0,1]: at most the bound, or NaN *)
Lemma unit_mul_le (u y : B) c : unit_float u -> at_most y c -> 0 <= c -> rnd c = c ->
  is_nan (Bmult mode_NE u y) = true \/ at_most (Bmult mode_NE u y) c.
Proof.
  intros (Fu & U) Hy Pc R. destruct Hy as [->|(Fy & Ly)].
  - destruct u as [s|s| |s m e G]; simpl; try discriminate; auto. right. left.
    destruct s; [|reflexivity]. exfalso. simpl in U. assert (F2R (Float radix2 (Z.neg m) e) < 0) by now apply F2R_lt_0. lra.
  - right. right. pose proof (Bmult_correct _ _ Hp He mode_NE u y) as C.
    assert (L : rnd (B2R u * B2R y) <= c).
    { rewrite <- R. apply (rnd_mono (Hp := Hp)). destruct (Rle_dec 0 (B2R y)).
      - apply Rle_trans with (1 * B2R y); [apply Rmult_le_compat_r; lra|lra].
      - apply Rle_trans with 0; auto. assert (0 <= B2R u * - B2R y) by (apply Rmult_le_pos; lra). lra. }
    rewrite Rlt_bool_true in C.
    + destruct C as (E & F & _). now rewrite F, Fu, Fy, E.
    + apply Rle_lt_trans with (Rabs (B2R y)); [|apply abs_B2R_lt_emax; auto].
      assert (RA : rnd (Rabs (B2R y)) = Rabs (B2R y)) by (rewrite <- B2R_Babs; apply (rnd_B2R (prec := prec) (emax := emax))).
      assert (Bd : Rabs (B2R u * B2R y) <= Rabs (B2R y)).
      { rewrite Rabs_mult, (Rabs_pos_eq (B2R u)) by lra. rewrite <- (Rmult_1_l (Rabs (B2R y))) at 2.
        apply Rmult_le_compat_r; [apply Rabs_pos|lra]. }
      apply Rabs_le. apply Rabs_le_inv in Bd. split.
      * rewrite <- RA, <- rnd_opp. apply (rnd_mono (Hp := Hp)). lra.
      * rewrite <- RA. apply (rnd_mono (Hp := Hp)). lra.
Qed.

(** ** sums *)
Fixpoint zsum (n : nat) (b : nat -> Z) : Z := match n with O => 0%Z | S k => (zsum k b + b k)%Z end.
Lemma zsum_nonneg n b : (forall j, (j < n)%nat -> (0 <= b j)%Z) -> (0 <= zsum n b)%Z.
Proof. induction n; simpl; intros H; [lia|]. specialize (IHn ltac:(intros; apply H; lia)). specialize (H n ltac:(lia)). lia. Qed.

Fixpoint lzsum (l : list nat) (b : nat -> Z) : Z := match l with nil => 0%Z | cons k r => (b k + lzsum r b)%Z end.
Lemma lzsum_app l m b : lzsum (l ++ m) b = (lzsum l b + lzsum m b)%Z.
Proof. induction l as [|k l IH]; cbn [lzsum app]; [lia|]. rewrite IH. lia. Qed.
Lemma lzsum_perm l m b : Permutation.Permutation l m -> lzsum l b = lzsum m b.
Proof. induction 1; cbn [lzsum]; lia. Qed.
Lemma lzsum_seq n b : lzsum (seq 0 n) b = zsum n b.
Proof. induction n as [|n IH]; [reflexivity|]. rewrite seq_S, lzsum_app, IH. cbn [lzsum zsum Nat.add]. lia. Qed.
Lemma lzsum_nonneg l b : (forall j, In j l -> (0 <= b j)%Z) -> (0 <= lzsum l b)%Z.
Proof.
  induction l as [|k l IH]; cbn [lzsum]; intros H; [lia|]. specialize (IH ltac:(intros; apply H; now right)).
  specialize (H k ltac:(now left)). lia.
Qed.

Lemma bnd_sum {L : Libm prec emax} n (f : nat -> B) (b : nat -> Z) e :
  (3 - emax - prec <= e)%Z -> (forall j, (j < n)%nat -> (0 <= b j)%Z /\ bnd (IZR (b j) * p2 e) (f j)) ->
  (zsum n b <= 2 ^ prec)%Z -> IZR (zsum n b) * p2 e < p2 emax ->
  bnd (IZR (zsum n b) * p2 e) (fsum (K := IS prec emax L) n f).
Proof.
  intros Re H. unfold fsum. change (fplan (s := IS prec emax L)) with (l_plan L). destruct (l_plan L n) as (t & P). cbn [proj1_sig].
  rewrite <- lzsum_seq, <- (lzsum_perm _ _ b P).
  assert (HT : forall j, In j (leaves t) -> (0 <= b j)%Z /\ bnd (IZR (b j) * p2 e) (f j)).
  { intros j Hj. apply H. apply (Permutation.Permutation_in j P), in_seq in Hj. lia. }
  clear P H. pose proof (bpow_gt_0 radix2 e) as Pe.
  induction t as [|k|t1 IH1 t2 IH2]; cbn [leaves feval lzsum]; intros S1 S2.
  - apply bnd_0. simpl. lra.
  - rewrite Z.add_0_r. apply HT. now left.
  - cbn [leaves] in HT.
    assert (H1 := fun j Hj => HT j (in_or_app _ _ _ (or_introl Hj))). assert (H2 := fun j Hj => HT j (in_or_app _ _ _ (or_intror Hj))).
    pose proof (lzsum_nonneg (leaves t1) b ltac:(intros; now apply H1)) as P1.
    pose proof (lzsum_nonneg (leaves t2) b ltac:(intros; now apply H2)) as P2.
    rewrite lzsum_app in *.
    assert (Q1 : 0 <= IZR (lzsum (leaves t1) b) * p2 e) by (apply Rmult_le_pos; [now apply IZR_le|lra]).
    assert (Q2 : 0 <= IZR (lzsum (leaves t2) b) * p2 e) by (apply Rmult_le_pos; [now apply IZR_le|lra]).
    assert (S3 := S2). rewrite plus_IZR in S3.
    change (fadd (s := IS prec emax L)) with (Bplus (prec := prec) (emax := emax) mode_NE).
    eapply bnd_add; [|apply IH1; [exact H1|lia|lra]|apply IH2; [exact H2|lia|lra]|].
    + apply cap_int; auto. lia.
    + rewrite plus_IZR. lra.
Qed.
Lemma zsum_const n b : zsum n (fun _ => b) = (Z.of_nat n * b)%Z.
Proof. induction n; [reflexivity|]. cbn [zsum]. rewrite IHn. lia. Qed.

Lemma le2_sum {L : Libm prec emax} n (f : nat -> B) a l c : (forall j, (j < n)%nat -> le2 a (f j)) ->
  (Z.of_nat n <= 2 ^ l)%Z -> (0 <= l <= prec)%Z -> (3 - emax - prec <= a)%Z -> (a + l <= c)%Z -> (c < emax)%Z ->
  le2 c (fsum (K := IS prec emax L) n f).
Proof.
  intros H N Hl Ha Hc C.
  assert (Z1 : zsum n (fun _ => 1%Z) = Z.of_nat n) by (rewrite zsum_const; lia).
  assert (P : (2 ^ l <= 2 ^ prec)%Z) by (apply Z.pow_le_mono_r; lia).
  assert (Q : IZR (zsum n (fun _ => 1%Z)) * p2 a <= p2 c).
  { rewrite Z1. apply Rle_trans with (p2 l * p2 a).
    - apply Rmult_le_compat_r; [apply bpow_ge_0|]. rewrite <- (IZR_Zpower radix2) by lia. now apply IZR_le.
    - rewrite <- bpow_plus. apply bpow_le. lia. }
  eapply bnd_le; [apply (bnd_sum n f (fun _ => 1%Z) a)|exact Q]; auto.
  - intros j Hj. split; [lia|]. rewrite Rmult_1_l. now apply H.
  - rewrite Z1. lia.
  - apply Rle_lt_trans with (p2 c); auto. now apply bpow_lt.
Qed.
Lemma le2_fold (l : list B) a k c : Forall (le2 a) l -> (Z.of_nat (List.length l) <= 2 ^ k)%Z -> (0 <= k <= prec)%Z ->
  (3 - emax - prec <= a)%Z -> (a + k <= c)%Z -> (c < emax)%Z ->
  le2 c (fold_left (Bplus mode_NE) l (B754_zero false)).
Proof.
  intros H N Hl Ha Hc C. pose proof (bpow_gt_0 radix2 a) as Pa.
  assert (P : (2 ^ k <= 2 ^ prec)%Z) by (apply Z.pow_le_mono_r; lia).
  assert (Q : IZR (2 ^ k) * p2 a <= p2 c).
  { replace (IZR (2 ^ k)) with (p2 k) by (symmetry; apply (IZR_Zpower radix2); lia).
    rewrite <- bpow_plus. apply bpow_le. lia. }
  assert (Cp : p2 c < p2 emax) by now apply bpow_lt.
  assert (K : forall l s e, (0 <= s)%Z -> (s + Z.of_nat (List.length l) <= 2 ^ k)%Z -> Forall (le2 a) l ->
    bnd (IZR s * p2 a) e -> le2 c (fold_left (Bplus mode_NE) l e)).
  { clear l H N. induction l as [|x l IH]; intros s e Ps Ls F E; cbn [fold_left].
    - eapply bnd_le; [exact E|]. apply Rle_trans with (IZR (2 ^ k) * p2 a); auto.
      apply Rmult_le_compat_r; [lra|]. apply IZR_le. simpl in Ls. lia.
    - inversion F; subst. cbn [List.length] in Ls. apply (IH (s + 1)%Z); auto; [lia|lia|].
      rewrite plus_IZR. eapply bnd_add; [|exact E|exact H1|lra].
      rewrite <- plus_IZR. apply cap_int; auto; [lia|]. apply Rle_lt_trans with (p2 c); auto.
      apply Rle_trans with (IZR (2 ^ k) * p2 a); auto. apply Rmult_le_compat_r; [lra|]. apply IZR_le. lia. }
  apply (K l 0%Z); [lia|lia|exact H|apply bnd_0; lra].
Qed.
End I.
