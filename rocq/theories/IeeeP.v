(** * IEEE-754 arithmetic: facts used for the reference weights (proof layer) *)
From Coq Require Import Reals Lra Lia ZArith QArith Qreals List Bool.
From Flocq Require Import Core.Core IEEE754.BinarySingleNaN.
From Verif Require Import Py Tensor Scalar IeeeInst.

Section I.
Context {prec emax : Z} {Hp : Prec_gt_0 prec} {He : Prec_lt_emax prec emax}.
Notation B := (binary_float prec emax).
Notation fx := (SpecFloat.fexp prec emax).
Notation rnd := (round radix2 fx (round_mode mode_NE)).
Open Scope R_scope.

Local Instance fx_valid : Valid_exp fx := fexp_correct prec emax Hp.

Lemma rnd_B2R (x : B) : rnd (B2R x) = B2R x.
Proof. apply round_generic; [apply valid_rnd_round_mode|apply generic_format_B2R]. Qed.
Lemma rnd_mono x y : x <= y -> rnd x <= rnd y.
Proof. apply round_le; [apply fx_valid|apply valid_rnd_round_mode]. Qed.
Lemma rnd_0 : rnd 0 = 0.
Proof. apply round_0, valid_rnd_round_mode. Qed.
Lemma rnd_1 : rnd 1 = 1.
Proof. rewrite <- (Bone_correct prec emax Hp He). apply rnd_B2R. Qed.

(** a float that is a number between 0 and 1 *)
Definition unit_float (x : B) : Prop := is_finite x = true /\ 0 <= B2R x <= 1.

Lemma bpow_emax_gt1 : 1 < bpow radix2 emax.
Proof.
  change 1 with (bpow radix2 0). apply bpow_lt.
  pose proof (prec_gt_0 prec). pose proof (prec_lt_emax prec emax). lia.
Qed.

Lemma sign_nonneg (x : B) : Bsign x = false -> 0 <= B2R x.
Proof.
  destruct x as [s|s| |s m e H]; simpl; try lra. intros ->. apply F2R_ge_0. simpl. lia.
Qed.

Lemma B2SF_inf_inv (x : B) s : B2SF x = binary_overflow prec emax mode_NE s -> x = B754_infinity s.
Proof. destruct x; simpl; try discriminate. intros E. injection E as ->. reflexivity. Qed.

(** sums of non-negative floats *)
Lemma plus_nonneg (x y : B) : Bsign x = false -> Bsign y = false ->
  Bsign (Bplus mode_NE x y) = false /\
  (is_finite (Bplus mode_NE x y) = true ->
     is_finite x = true /\ is_finite y = true /\
     B2R (Bplus mode_NE x y) = rnd (B2R x + B2R y) /\
     B2R x <= B2R (Bplus mode_NE x y) /\ B2R y <= B2R (Bplus mode_NE x y)).
Proof.
  intros Sx Sy. pose proof (sign_nonneg x Sx) as Nx. pose proof (sign_nonneg y Sy) as Ny.
  destruct (is_finite x) eqn:Fx; [destruct (is_finite y) eqn:Fy|].
  - generalize (Bplus_correct _ _ Hp He mode_NE x y Fx Fy). destruct Rlt_bool.
    + intros (E & Ff & Es). rewrite Sx, Sy in Es. split.
      * rewrite Es. destruct (Rcompare_spec (B2R x + B2R y) 0); auto. lra.
      * intros _. repeat split; auto; rewrite E.
        -- rewrite <- (rnd_B2R x) at 1. apply rnd_mono. lra.
        -- rewrite <- (rnd_B2R y) at 1. apply rnd_mono. lra.
    + intros (E & _). apply B2SF_inf_inv in E. rewrite E, Sx. split; [reflexivity|discriminate].
  - destruct y as [sy|sy| |sy my ey Hy]; simpl in Fy; try discriminate.
    + simpl in Sy; subst sy. destruct x as [sx|sx| |sx mx ex Hx]; simpl in *; try discriminate; split; auto; discriminate.
    + destruct x as [sx|sx| |sx mx ex Hx]; simpl in *; split; auto; discriminate.
  - destruct x as [sx|sx| |sx mx ex Hx]; simpl in Fx; try discriminate.
    + simpl in Sx; subst sx. destruct y as [sy|sy| |sy my ey Hy]; simpl in *; try subst sy; split; auto; discriminate.
    + destruct y as [sy|sy| |sy my ey Hy]; simpl in *; split; auto; discriminate.
Qed.

(** quotients [x / s] with [0 <= x <= s]: in [0,1], or NaN *)
Lemma div_unit (x s : B) : Bsign x = false -> Bsign s = false ->
  (is_finite s = true -> is_finite x = true /\ B2R x <= B2R s) ->
  is_nan (Bdiv mode_NE x s) = true \/ unit_float (Bdiv mode_NE x s).
Proof.
  intros Sx Ss H. pose proof (sign_nonneg x Sx) as Nx. pose proof (sign_nonneg s Ss) as Ns.
  destruct (is_finite s) eqn:Fs.
  - destruct (H eq_refl) as (Fx & Le). destruct (Req_dec (B2R s) 0) as [Z|Z].
    + assert (x = B754_zero false /\ s = B754_zero false) as (-> & ->); [|left; reflexivity].
      assert (Ex : B2R x = 0) by lra. split.
      * apply B2R_Bsign_inj; auto.
      * apply B2R_Bsign_inj; auto.
    + right. generalize (Bdiv_correct _ _ Hp He mode_NE x s Z).
      assert (Q : 0 <= B2R x / B2R s <= 1).
      { split; [apply Rmult_le_pos; auto; apply Rlt_le, Rinv_0_lt_compat; lra|].
        apply Rmult_le_reg_r with (B2R s); [lra|]. unfold Rdiv. rewrite Rmult_assoc, Rinv_l by auto. lra. }
      assert (Qr : 0 <= rnd (B2R x / B2R s) <= 1).
      { split; [rewrite <- rnd_0|rewrite <- rnd_1]; apply rnd_mono; lra. }
      rewrite Rlt_bool_true.
      * intros (E & Ff & _). split; [congruence|]. rewrite E. exact Qr.
      * rewrite Rabs_pos_eq by lra. pose proof bpow_emax_gt1. lra.
  - destruct s as [ss|ss| |ss ms es Hs]; simpl in Fs; try discriminate.
    + destruct x as [sx|sx| |sx mx ex Hx]; simpl; auto; right; split; simpl; auto; lra.
    + left. destruct x; reflexivity.
Qed.

Lemma is_nan_finite (x : B) : is_finite x = true -> is_nan x = false.
Proof. now destruct x. Qed.

Lemma Bmax_float_finite : is_finite (@Bmax_float prec emax Hp He) = true.
Proof. unfold Bmax_float. rewrite is_finite_SF2B. reflexivity. Qed.

Lemma Bmax_float_val : B2R (@Bmax_float prec emax Hp He) = bpow radix2 emax - bpow radix2 (emax - prec).
Proof.
  unfold Bmax_float. rewrite B2R_SF2B. simpl. unfold F2R. simpl Fexp. simpl Fnum.
  pose proof (prec_gt_0 prec) as Hp'.
  assert (E : Zpos (shift_pos (Z.to_pos prec) 1 - 1) = (2 ^ prec - 1)%Z).
  { rewrite Pos2Z.inj_sub.
    - rewrite shift_pos_correct, Z.mul_1_r, Z.pow_pos_fold, Z2Pos.id; [reflexivity|lia].
    - change (Z.pos 1 < Z.pos (shift_pos (Z.to_pos prec) 1))%Z.
      rewrite shift_pos_correct, Z.mul_1_r, Z.pow_pos_fold, Z2Pos.id by lia.
      now apply (Zpower_gt_1 radix2). }
  rewrite E, minus_IZR. change 2%Z with (radix_val radix2). rewrite IZR_Zpower by lia.
  rewrite Rmult_minus_distr_r, <- bpow_plus. replace (prec + (emax - prec))%Z with emax by ring. lra.
Qed.

(** no finite float is larger than the maximal one *)
Lemma not_above_max (x : B) : is_finite x = true -> Bltb (@Bmax_float prec emax Hp He) x = false.
Proof.
  intros Fx. rewrite Bltb_correct by (auto using Bmax_float_finite). apply Rlt_bool_false.
  rewrite Bmax_float_val. eapply Rle_trans; [apply Rle_abs|]. apply abs_B2R_le_emax_minus_prec, Hp.
Qed.
End I.

Section C.
Context {p1 e1 p2 e2 : Z} {Hp : Prec_gt_0 p2} {He : Prec_lt_emax p2 e2}.
Open Scope R_scope.

Lemma bconv_nan (x : binary_float p1 e1) : is_nan (bconv p2 e2 x) = is_nan x.
Proof. destruct x; simpl; auto. apply is_nan_binary_normalize. Qed.

Lemma bconv_unit (x : binary_float p1 e1) : unit_float x ->
  unit_float (bconv p2 e2 x) /\
  B2R (bconv p2 e2 x) = round radix2 (SpecFloat.fexp p2 e2) (round_mode mode_NE) (B2R x).
Proof.
  intros (F & R01). destruct x as [s|s| |s m e H]; simpl in F; try discriminate.
  - simpl. rewrite rnd_0. repeat split; auto; simpl; lra.
  - simpl bconv. pose proof (binary_normalize_correct p2 e2 Hp He mode_NE (cond_Zopp s (Zpos m)) e s) as C.
    cbv zeta in C. simpl B2R in R01 |- *.
    set (x := F2R _) in *.
    assert (Qr : 0 <= round radix2 (SpecFloat.fexp p2 e2) (round_mode mode_NE) x <= 1).
    { split; [rewrite <- (rnd_0 (prec := p2) (emax := e2))|rewrite <- (rnd_1 (prec := p2) (emax := e2))]; apply rnd_mono; lra. }
    rewrite Rlt_bool_true in C.
    + destruct C as (E & Ff & _). split; [split; [exact Ff|]|exact E].
      rewrite E. exact Qr.
    + rewrite Rabs_pos_eq by lra. pose proof (bpow_emax_gt1 (prec := p2) (emax := e2)). lra.
Qed.

Lemma bconv_finite_nan (x : binary_float p1 e1) : is_nan x = false -> is_nan (bconv p2 e2 x) = false.
Proof. now rewrite bconv_nan. Qed.
End C.

(** ** one-sided bounds, infinity included *)
Section G.
Context {prec emax : Z} {Hp : Prec_gt_0 prec} {He : Prec_lt_emax prec emax}.
Notation B := (binary_float prec emax).
Notation fx := (SpecFloat.fexp prec emax).
Notation rnd := (round radix2 fx (round_mode mode_NE)).
Open Scope R_scope.

(** [x] is a number at least [a] (or [+oo]); at most [a] (or [-oo]) *)
Definition at_least (x : B) (a : R) : Prop := x = B754_infinity false \/ (is_finite x = true /\ a <= B2R x).
Definition at_most (x : B) (a : R) : Prop := x = B754_infinity true \/ (is_finite x = true /\ B2R x <= a).

Lemma at_least_le x a b : at_least x a -> b <= a -> at_least x b.
Proof. intros [H|(F & H)] L; [now left|right; split; auto; lra]. Qed.
Lemma at_most_le x a b : at_most x a -> a <= b -> at_most x b.
Proof. intros [H|(F & H)] L; [now left|right; split; auto; lra]. Qed.

Lemma at_least_opp x a : at_most x a -> at_least (Bopp x) (- a).
Proof.
  intros [->|(F & H)]; [now left|right]. rewrite is_finite_Bopp, B2R_Bopp. split; auto. lra.
Qed.
Lemma at_most_opp x a : at_least x a -> at_most (Bopp x) (- a).
Proof.
  intros [->|(F & H)]; [now left|right]. rewrite is_finite_Bopp, B2R_Bopp. split; auto. lra.
Qed.

Lemma at_least_sign x a : at_least x a -> 0 < a -> Bsign x = false.
Proof.
  intros [->|(F & H)] Ha; [reflexivity|]. destruct x as [s|s| |s m e G]; simpl in *; try discriminate; try lra.
  destruct s; auto. simpl in H. assert (F2R (Float radix2 (Z.neg m) e) < 0) by now apply F2R_lt_0. lra.
Qed.
Lemma at_most_sign x a : at_most x a -> a < 0 -> Bsign x = true.
Proof.
  intros [->|(F & H)] Ha; [reflexivity|]. destruct x as [s|s| |s m e G]; simpl in *; try discriminate; try lra.
  destruct s; auto. simpl in H. assert (0 < F2R (Float radix2 (Z.pos m) e)) by now apply F2R_gt_0. lra.
Qed.

Lemma mul_at_least x y a b : at_least x a -> at_least y b -> 0 < a -> 0 < b -> rnd (a * b) = a * b ->
  at_least (Bmult mode_NE x y) (a * b).
Proof.
  intros Hx Hy Ha Hb R.
  pose proof (at_least_sign _ _ Hx Ha) as Sx. pose proof (at_least_sign _ _ Hy Hb) as Sy.
  assert (P : 0 < a * b) by (apply Rmult_lt_0_compat; auto).
  destruct Hx as [->|(Fx & Lx)], Hy as [->|(Fy & Ly)].
  - now left.
  - left. destruct y as [s|s| |s m e G]; simpl in *; try discriminate; try lra. subst s. reflexivity.
  - left. destruct x as [s|s| |s m e G]; simpl in *; try discriminate; try lra. subst s. reflexivity.
  - pose proof (Bmult_correct _ _ Hp He mode_NE x y) as C. destruct Rlt_bool.
    + destruct C as (E & F & _). right. rewrite F, Fx, Fy, E. split; auto.
      rewrite <- R. apply rnd_mono. apply Rmult_le_compat; lra.
    + apply B2SF_inf_inv in C. rewrite Sx, Sy in C. now left.
Qed.

Lemma rnd_opp x : rnd (- x) = - rnd x.
Proof. apply round_NE_opp. Qed.

Lemma mul_at_most x y a b : at_most x (- a) -> at_least y b -> 0 < a -> 0 < b -> rnd (a * b) = a * b ->
  at_most (Bmult mode_NE x y) (- (a * b)) /\ at_most (Bmult mode_NE y x) (- (a * b)).
Proof.
  intros Hx Hy Ha Hb R.
  pose proof (at_most_sign _ _ Hx ltac:(lra)) as Sx. pose proof (at_least_sign _ _ Hy Hb) as Sy.
  assert (P : 0 < a * b) by (apply Rmult_lt_0_compat; auto).
  destruct Hx as [->|(Fx & Lx)], Hy as [->|(Fy & Ly)].
  - split; now left.
  - destruct y as [s|s| |s m e G]; simpl in *; try discriminate; try lra. subst s. split; now left.
  - destruct x as [s|s| |s m e G]; simpl in *; try discriminate; try lra. subst s. split; now left.
  - assert (Key : rnd (B2R x * B2R y) <= - (a * b)).
    { rewrite <- R, <- rnd_opp. apply rnd_mono.
      assert (a * b <= (- B2R x) * B2R y) by (apply Rmult_le_compat; lra). lra. }
    split.
    + pose proof (Bmult_correct _ _ Hp He mode_NE x y) as C. destruct Rlt_bool.
      * destruct C as (E & F & _). right. rewrite F, Fx, Fy, E. split; auto.
      * apply B2SF_inf_inv in C. rewrite Sx, Sy in C. now left.
    + pose proof (Bmult_correct _ _ Hp He mode_NE y x) as C. rewrite (Rmult_comm (B2R y)) in C. destruct Rlt_bool.
      * destruct C as (E & F & _). right. rewrite F, Fx, Fy, E. split; auto.
      * apply B2SF_inf_inv in C. rewrite Sx, Sy in C. now left.
Qed.

Lemma sub_at_least x c a b : at_least x a -> is_finite c = true -> B2R c <= b -> 0 < a - b -> rnd (a - b) = a - b ->
  at_least (Bminus mode_NE x c) (a - b).
Proof.
  intros Hx Fc Lc P R. destruct Hx as [->|(Fx & Lx)].
  - left. destruct c; simpl in *; try discriminate; reflexivity.
  - pose proof (Bminus_correct _ _ Hp He mode_NE x c Fx Fc) as C.
    assert (Key : a - b <= rnd (B2R x - B2R c)) by (rewrite <- R at 1; apply rnd_mono; lra).
    destruct Rlt_bool eqn:EL in C.
    + destruct C as (E & F & _). right. rewrite F, E. auto.
    + destruct C as (E & Es). apply B2SF_inf_inv in E. left. rewrite E. f_equal.
      destruct (Bsign x) eqn:Sx; auto. exfalso.
      (* x negative, c positive: x - c negative *)
      assert (B2R x <= 0).
      { destruct x as [s|s| |s m e G]; simpl in *; try lra. subst s. left. now apply F2R_lt_0. }
      symmetry in Es. apply negb_true_iff in Es. pose proof (sign_nonneg c Es). lra.
Qed.

Lemma sub_at_most x c a : at_most x (- a) -> is_finite c = true -> 0 <= B2R c -> 0 < a -> rnd a = a ->
  at_most (Bminus mode_NE x c) (- a).
Proof.
  intros Hx Fc Lc P R. destruct Hx as [->|(Fx & Lx)].
  - left. destruct c; simpl in *; try discriminate; reflexivity.
  - pose proof (Bminus_correct _ _ Hp He mode_NE x c Fx Fc) as C.
    assert (Key : rnd (B2R x - B2R c) <= - a) by (rewrite <- R, <- rnd_opp; apply rnd_mono; lra).
    destruct Rlt_bool eqn:EL in C.
    + destruct C as (E & F & _). right. rewrite F, E. auto.
    + destruct C as (E & Es). apply B2SF_inf_inv in E. left. rewrite E. f_equal.
      apply (at_most_sign x (- a)); [right; auto|lra].
Qed.

(** literals *)
Lemma bratio_at_least m d a : a <= IZR (Zpos m) / IZR (Zpos d) -> 0 < a -> rnd a = a ->
  at_least (bratio prec emax false m d) a.
Proof.
  intros H P R. unfold bratio.
  pose proof (proj2 (Bdiv_correct_aux prec emax Hp He mode_NE false m 0 false d 0)) as C.
  generalize (proj1 (Bdiv_correct_aux prec emax Hp He mode_NE false m 0 false d 0)). intros V.
  assert (E : F2R (Float radix2 (cond_Zopp false (Zpos m)) 0) / F2R (Float radix2 (cond_Zopp false (Zpos d)) 0)
    = IZR (Zpos m) / IZR (Zpos d)).
  { unfold F2R. cbn [Fnum Fexp cond_Zopp bpow]. rewrite !Rmult_1_r. reflexivity. }
  rewrite E in C. destruct Rlt_bool.
  - right. rewrite B2R_SF2B, is_finite_SF2B. destruct C as (-> & -> & _). split; auto.
    rewrite <- R. now apply rnd_mono.
  - left. apply (B2SF_inf_inv _ false). rewrite B2SF_SF2B. exact C.
Qed.
End G.

Section CG.
Context {p1 e1 p2 e2 : Z} {Hp1 : Prec_gt_0 p1} {He1 : Prec_lt_emax p1 e1} {Hp : Prec_gt_0 p2} {He : Prec_lt_emax p2 e2}.
Open Scope R_scope.
Notation rnd := (round radix2 (SpecFloat.fexp p2 e2) (round_mode mode_NE)).

Lemma bconv_at_least (x : binary_float p1 e1) a : at_least x a -> 0 < a -> rnd a = a -> at_least (bconv p2 e2 x) a.
Proof.
  intros [->|(F & H)] P R; [now left|]. destruct x as [s|s| |s m e G]; try discriminate; [simpl in H; lra|].
  simpl bconv. simpl B2R in H.
  pose proof (binary_normalize_correct p2 e2 Hp He mode_NE (cond_Zopp s (Zpos m)) e s) as C. cbv zeta in C.
  revert C H. generalize (F2R (Float radix2 (cond_Zopp s (Zpos m)) e)). intros x C H.
  destruct Rlt_bool.
  - destruct C as (E & Ff & _). right. rewrite E. split; auto. rewrite <- R. now apply rnd_mono.
  - apply B2SF_inf_inv in C. left. rewrite C. f_equal. apply Rlt_bool_false. lra.
Qed.

Lemma bconv_at_most (x : binary_float p1 e1) a : at_most x (- a) -> 0 < a -> rnd a = a -> at_most (bconv p2 e2 x) (- a).
Proof.
  intros [->|(F & H)] P R; [now left|]. destruct x as [s|s| |s m e G]; try discriminate; [simpl in H; lra|].
  simpl bconv. simpl B2R in H.
  pose proof (binary_normalize_correct p2 e2 Hp He mode_NE (cond_Zopp s (Zpos m)) e s) as C. cbv zeta in C.
  revert C H. generalize (F2R (Float radix2 (cond_Zopp s (Zpos m)) e)). intros x C H.
  destruct Rlt_bool.
  - destruct C as (E & Ff & _). right. rewrite E. split; auto. rewrite <- R, <- rnd_opp. now apply rnd_mono.
  - apply B2SF_inf_inv in C. left. rewrite C. f_equal. apply Rlt_bool_true. lra.
Qed.
End CG.

Lemma rnd64_int k : (Z.abs k < 2 ^ 53)%Z ->
  round radix2 (SpecFloat.fexp 53 1024) (round_mode mode_NE) (IZR k) = IZR k.
Proof.
  intros H. apply round_generic; [apply valid_rnd_round_mode|].
  apply generic_format_FLT. exists (Float radix2 k 0).
  - unfold F2R. simpl. ring.
  - exact H.
  - vm_compute. discriminate.
Qed.
