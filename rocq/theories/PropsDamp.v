(** * The damping functions over the reals (C20-C23) *)
From Coq Require Import Reals Lra Lia List Arith ZArith QArith Qreals Bool String.
From Verif Require Import Py Tensor Scalar RInst ModelExt ModelUtils ModelDamping Spec SpecR
  TensorLemmas Closed ClosedDamp Inst.
Import ListNotations.
Open Scope string_scope.
Open Scope R_scope.

(** ** Specification *)
(** [acts d param o only g]: for all tensors of distances and radii of equal shape the damping
    call returns a tensor of that shape, with entries [g distance radius]. *)
Definition acts {eps mx} (d : Damping (RS eps mx)) (param : Param (RS eps mx)) (o : nat) (only : bool)
  (g : R -> R -> R) : Prop :=
  forall (dist radii : tensor (RS eps mx)), shp dist = shp radii ->
    exists t, damping_call d dist radii o only param = Ok t /\ shp t = shp dist /\
      forall i, valid (shp dist) i -> dat t i = g (dat dist i) (dat radii i).

(** Becke-Johnson critical radius *)
Definition bj_radius (a1 a2 rad : R) : R := a1 * sqrt rad + a2.
(** the documented zero-damping factor, [1/(1 + 6 (rs R0 / r)^alp)] *)
Definition zero_documented (rs alp r R0 : R) : R := / (1 + 6 * Rpower (rs * R0 / r) alp).

(** limits of a function of the distance *)
Definition at_short_range (f : R -> R) (l : R) : Prop :=
  forall e, 0 < e -> exists del, 0 < del /\ forall r, 0 < r < del -> Rabs (f r - l) < e.
Definition at_long_range (f : R -> R) (l : R) : Prop :=
  forall e, 0 < e -> exists M, 0 < M /\ forall r, M < r -> Rabs (f r - l) < e.

Section D.
Context {eps mx : R}.
Notation K := (RS eps mx).
Implicit Types (param : Param K).

Lemma acts_of d param o only g g' : elementwise d param o only g ->
  (forall x y, g x y = g' x y) -> @acts eps mx d param o only g'.
Proof.
  intros E G dist radii S. destruct (E dist radii _ eq_refl (eq_sym S)) as (t & Et & St & V).
  exists t. split; auto. split; auto. intros i Hi. rewrite V by auto. apply G.
Qed.

(** ** Real analysis *)
Lemma Rpower_mono_lt x y a : 0 < x < y -> 0 < a -> Rpower x a < Rpower y a.
Proof.
  intros [H1 H2] Ha. unfold Rpower. apply exp_increasing. apply Rmult_lt_compat_l; auto.
  apply ln_increasing; auto.
Qed.
Lemma Rpower_pos x a : 0 < Rpower x a.
Proof. apply exp_pos. Qed.
Lemma Rpower_inv x a : 0 < x -> Rpower (/ x) a = / Rpower x a.
Proof.
  intros H. unfold Rpower. rewrite ln_Rinv, <- exp_Ropp by auto. f_equal. ring.
Qed.

Lemma pow_lt_pos (r : R) n : 0 < r -> 0 < r ^ n. Proof. intros; now apply pow_lt. Qed.

Lemma pow_mono_lt x y n : 0 <= x < y -> (1 <= n)%nat -> x ^ n < y ^ n.
Proof.
  intros [H1 H2] Hn. induction n as [|n IH]; [lia|]. destruct n as [|n]; [simpl; lra|].
  assert (x ^ S n < y ^ S n) by (apply IH; lia). change (x * x ^ S n < y * y ^ S n).
  assert (0 <= x ^ S n) by now apply pow_le.
  apply Rle_lt_trans with (x * y ^ S n).
  - apply Rmult_le_compat_l; lra.
  - apply Rmult_lt_compat_r; lra.
Qed.

(** *** C20: rational damping *)
Theorem C20_rational_formula :
  forall param o only a1 a2,
  good_param param -> getp param "a1" = Some a1 -> getp param "a2" = Some a2 ->
  (o = 8%nat -> getp param "s8" <> None \/ getp param "rs8" <> None) ->
  (o = 10%nat -> getp param "s10" <> None) ->
  acts RationalDamping param o only (fun r rad => / (r ^ o + bj_radius a1 a2 rad ^ o)).
Proof.
  intros param o only a1 a2 G E1 E2 H8 H10. eapply acts_of.
  - apply rational_elementwise; eauto. unfold active, has.
    assert (A8 : o = 8%nat -> (match getp param "s8" with Some _ => true | None => false end
       || match getp param "rs8" with Some _ => true | None => false end)%bool = true).
    { intros H. destruct (getp param "s8"); [reflexivity|]. destruct (getp param "rs8"); [reflexivity|].
      destruct H8; auto; contradiction. }
    assert (A10 : o = 10%nat -> match getp param "s10" with Some _ => true | None => false end = true).
    { intros H. destruct (getp param "s10"); [reflexivity|]. now destruct H10. }
    destruct (Nat.eq_dec o 8) as [->|N8]; [auto|]. destruct (Nat.eq_dec o 10) as [->|N10]; [auto|].
    clear -N8 N10. destruct o as [|[|[|[|[|[|[|[|[|[|[|o]]]]]]]]]]]; reflexivity || congruence.
  - intros r rad. unfold rat_g, bj_radius. cbn [fdiv fadd fmul fpown fsqrt flit RS].
    change (Q2R 1 / (r ^ o + (a1 * sqrt rad + a2) ^ o) = / (r ^ o + (a1 * sqrt rad + a2) ^ o)).
    rewrite Q2R_1. unfold Rdiv. ring.
Qed.

Theorem C20_rational_bounds :
  forall param o only (a1 a2 : R) dist radii t i,
  good_param param -> getp param "a1" = Some a1 -> getp param "a2" = Some a2 ->
  (o = 8%nat -> getp param "s8" <> None \/ getp param "rs8" <> None) ->
  (o = 10%nat -> getp param "s10" <> None) ->
  shp dist = shp radii -> damping_call RationalDamping dist radii o only param = Ok t ->
  valid (shp dist) i ->
  let r := dat dist i in let R0 := bj_radius a1 a2 (dat radii i) in let v := dat t i in
  0 <= r -> 0 < R0 ->
  (* positive and bounded by the value for coincident atoms *)
  (0 < v <= / R0 ^ o) /\
  (* below the undamped value, with a relative deviation of at most (R0/r)^o *)
  (0 < r -> v < / r ^ o /\ 1 - (R0 / r) ^ o <= v * r ^ o < 1).
Proof.
  intros param o only a1 a2 dist radii t i G E1 E2 H8 H10 S E V r R0 v Hr HR.
  destruct (C20_rational_formula param o only a1 a2 G E1 E2 H8 H10 dist radii S) as (t' & E' & _ & F).
  assert (t' = t) by congruence. subst t'. assert (Ev : v = / (r ^ o + R0 ^ o)) by exact (F i V).
  assert (A : 0 < R0 ^ o) by now apply pow_lt. assert (B : 0 <= r ^ o) by now apply pow_le.
  rewrite Ev. split; [split|].
  - apply Rinv_0_lt_compat. lra.
  - apply Rinv_le_contravar; lra.
  - intros Hr'. assert (C : 0 < r ^ o) by now apply pow_lt.
    assert (Q : / (r ^ o + R0 ^ o) * r ^ o = 1 - R0 ^ o / (r ^ o + R0 ^ o)) by (field; lra).
    split; [|rewrite Q; split].
    + apply Rinv_lt_contravar; [|lra]. apply Rmult_lt_0_compat; lra.
    + unfold Rdiv at 1. rewrite Rpow_mult_distr, pow_inv.
      assert (R0 ^ o / (r ^ o + R0 ^ o) <= R0 ^ o * / r ^ o); [|lra].
      apply Rmult_le_compat_l; [lra|]. apply Rinv_le_contravar; lra.
    + assert (0 < R0 ^ o / (r ^ o + R0 ^ o)) by (apply Rdiv_lt_0_compat; lra). lra.
Qed.

(** strictly decreasing in the distance, at equal radii *)
Theorem C20_rational_decreasing :
  forall param o only (a1 a2 : R) dist radii t i j,
  good_param param -> getp param "a1" = Some a1 -> getp param "a2" = Some a2 ->
  (o = 8%nat -> getp param "s8" <> None \/ getp param "rs8" <> None) ->
  (o = 10%nat -> getp param "s10" <> None) -> (1 <= o)%nat ->
  shp dist = shp radii -> damping_call RationalDamping dist radii o only param = Ok t ->
  valid (shp dist) i -> valid (shp dist) j -> dat radii i = dat radii j ->
  0 < bj_radius a1 a2 (dat radii i) -> 0 <= dat dist i -> dat dist i < dat dist j ->
  dat t j < dat t i.
Proof.
  intros param o only a1 a2 dist radii t i j G E1 E2 H8 H10 Ho S E Vi Vj ER HR H0 Hlt.
  destruct (C20_rational_formula param o only a1 a2 G E1 E2 H8 H10 dist radii S) as (t' & E' & _ & F).
  assert (t' = t) by congruence. subst t'. rewrite (F i Vi), (F j Vj), <- ER.
  assert (A : 0 < bj_radius a1 a2 (dat radii i) ^ o) by now apply pow_lt.
  assert (B : 0 <= (dat dist i : R) ^ o) by now apply pow_le.
  assert (C : (dat dist i : R) ^ o < (dat dist j : R) ^ o) by (apply pow_mono_lt; auto).
  apply Rinv_lt_contravar; [|lra]. apply Rmult_lt_0_compat; lra.
Qed.

(** *** C21: zero damping *)
Context (X : Ext (RS eps mx)).

Definition rs_of param (o : nat) : option R :=
  match o with
  | 6%nat => getp param "rs6" | 8%nat => getp param "rs8"
  | 9%nat => Some (getd param "rs9" 1) | _ => None
  end.
Definition alp_of param (o : nat) : R :=
  match o with 8%nat => getd param "alp" 16 + 2 | _ => getd param "alp" 16 end.

Lemma fpow_pos (x y : R) : 0 < x -> fpow (s := K) x y = Rpower x y.
Proof. intros. exact (rpow_pos x y H). Qed.

Lemma zero_acts param o only rs :
  good_param param -> In o [6; 8; 9]%nat -> rs_of param o = Some rs ->
  acts (ZeroDamping X) param o only (zero_g X rs (alp_of param o) o only).
Proof.
  intros G [<-|[<-|[<-|[]]]] E; cbn in E.
  - eapply acts_of; [apply zero6_elementwise; eauto|]. reflexivity.
  - eapply acts_of; [apply zero8_elementwise; eauto|]. intros. unfold alp_of.
    cbn [fadd RS flit]. replace (Q2R 2) with 2 by (unfold Q2R; simpl; lra). reflexivity.
  - injection E as <-. eapply acts_of; [apply zero9_elementwise; eauto|]. reflexivity.
Qed.

Lemma zero_fac_doc (rs alp r R0 : R) : div_contract X -> 0 < rs -> 0 < r -> 0 < R0 ->
  zero_fac X rs alp r R0 = zero_documented rs alp R0 r.
Proof.
  intros HX Hrs Hr HR. unfold zero_fac, zero_documented.
  change (Q2R 1 / (Q2R 1 + Q2R 6 * rpow (rs * x_div X r R0) alp) = / (1 + 6 * Rpower (rs * r / R0) alp)).
  assert (H : 0 < rs * (r / R0)) by (apply Rmult_lt_0_compat; auto; now apply Rdiv_lt_0_compat).
  rewrite HX by lra. rewrite (rpow_pos _ _ H).
  replace (Q2R 1) with 1 by (symmetry; apply Q2R_1). replace (Q2R 6) with 6 by (unfold Q2R; simpl; lra).
  replace (rs * r / R0) with (rs * (r / R0)) by (unfold Rdiv; ring). unfold Rdiv. ring.
Qed.

(** The call [(distances, radii)] evaluates the documented formula with distance and radius
    exchanged. *)
Theorem C21_zero_damping_is_exchanged :
  forall param o rs dist radii t i,
  div_contract X -> good_param param -> In o [6; 8; 9]%nat -> rs_of param o = Some rs -> 0 < rs ->
  shp dist = shp radii -> valid (shp dist) i -> 0 < dat dist i -> 0 < dat radii i ->
  (damping_call (ZeroDamping X) dist radii o true param = Ok t ->
     dat t i = zero_documented rs (alp_of param o) (dat radii i) (dat dist i)) /\
  (damping_call (ZeroDamping X) dist radii o false param = Ok t ->
     dat t i = zero_documented rs (alp_of param o) (dat radii i) (dat dist i) / dat dist i ^ o) /\
  (* the exchanged call, as made by the three-body term, is the documented one *)
  (damping_call (ZeroDamping X) radii dist o true param = Ok t ->
     dat t i = zero_documented rs (alp_of param o) (dat dist i) (dat radii i)).
Proof.
  intros param o rs dist radii t i HX G Ho E Hrs S V Hd Hr.
  split; [|split]; intros C.
  - destruct (zero_acts param o true rs G Ho E dist radii S) as (t' & E' & _ & F).
    assert (t' = t) by congruence. subst t'. rewrite F by auto. apply zero_fac_doc; auto.
  - destruct (zero_acts param o false rs G Ho E dist radii S) as (t' & E' & _ & F).
    assert (t' = t) by congruence. subst t'. rewrite F by auto. unfold zero_g.
    rewrite HX by (apply Rgt_not_eq, pow_lt; exact Hd). rewrite zero_fac_doc by auto. reflexivity.
  - destruct (zero_acts param o true rs G Ho E radii dist (eq_sym S)) as (t' & E' & _ & F).
    assert (t' = t) by congruence. subst t'. rewrite F by (rewrite S in V; exact V). apply zero_fac_doc; auto.
Qed.

(** limits of the documented factor *)
Lemma Rpower_below a b c : 0 < a -> 0 < b -> 0 < c -> c < Rpower b (/ a) -> Rpower c a < b.
Proof.
  intros Ha Hb Hc H. apply Rlt_le_trans with (Rpower (Rpower b (/ a)) a).
  - apply Rpower_mono_lt; auto.
  - rewrite Rpower_mult, Rinv_l, Rpower_1; lra.
Qed.
Lemma Rpower_above a b c : 0 < a -> 0 < b -> Rpower b (/ a) < c -> b < Rpower c a.
Proof.
  intros Ha Hb H. apply Rle_lt_trans with (Rpower (Rpower b (/ a)) a).
  - rewrite Rpower_mult, Rinv_l, Rpower_1; lra.
  - apply Rpower_mono_lt; auto. split; auto. apply exp_pos.
Qed.

Lemma frac_near_1 p e : 0 < p -> 0 < e -> 6 * p < e -> Rabs (/ (1 + 6 * p) - 1) < e.
Proof.
  intros Hp He H. replace (/ (1 + 6 * p) - 1) with (- (6 * p / (1 + 6 * p))) by (field; lra).
  rewrite Rabs_Ropp, Rabs_right.
  - apply Rle_lt_trans with (6 * p); auto.
    assert (/ (1 + 6 * p) <= 1) by (rewrite <- Rinv_1; apply Rinv_le_contravar; lra).
    assert (0 < / (1 + 6 * p)) by (apply Rinv_0_lt_compat; lra). unfold Rdiv. nra.
  - apply Rle_ge. apply Rlt_le, Rdiv_lt_0_compat; lra.
Qed.
Lemma frac_near_0 p e : 0 < e -> / e < p -> Rabs (/ (1 + 6 * p) - 0) < e.
Proof.
  intros He H. assert (0 < / e) by now apply Rinv_0_lt_compat.
  rewrite Rminus_0_r, Rabs_right.
  - rewrite <- (Rinv_inv e). apply Rinv_lt_contravar; [|lra]. apply Rmult_lt_0_compat; lra.
  - apply Rle_ge, Rlt_le, Rinv_0_lt_compat. lra.
Qed.

(** As a two-body damping factor it is 1 at short and 0 at long range: the opposite of the
    documented function, which is 0 at short and 1 at long range. *)
Theorem C21_wrong_limits :
  forall rs alp R0 : R, 0 < rs -> 0 < alp -> 0 < R0 ->
  at_short_range (fun r => zero_documented rs alp R0 r) 1 /\
  at_long_range (fun r => zero_documented rs alp R0 r) 0 /\
  at_short_range (fun r => zero_documented rs alp r R0) 0 /\
  at_long_range (fun r => zero_documented rs alp r R0) 1.
Proof.
  intros rs alp R0 Hrs Ha HR. unfold zero_documented. split; [|split; [|split]]; intros e He.
  - exists (Rpower (e / 6) (/ alp) * R0 / rs). split.
    + apply Rdiv_lt_0_compat; auto. apply Rmult_lt_0_compat; auto. apply exp_pos.
    + intros r [H1 H2]. apply frac_near_1; auto; [apply exp_pos|].
      assert (Rpower (rs * r / R0) alp < e / 6); [|lra]. apply Rpower_below; auto; [lra| |].
      * apply Rdiv_lt_0_compat; auto. now apply Rmult_lt_0_compat.
      * apply Rmult_lt_reg_r with (R0 / rs); [now apply Rdiv_lt_0_compat|].
        replace (rs * r / R0 * (R0 / rs)) with r by (field; lra). unfold Rdiv in *. rewrite <- Rmult_assoc. exact H2.
  - exists (Rpower (/ e) (/ alp) * R0 / rs). split.
    + apply Rdiv_lt_0_compat; auto. apply Rmult_lt_0_compat; auto. apply exp_pos.
    + intros r H2. apply frac_near_0; auto. apply Rpower_above; auto; [now apply Rinv_0_lt_compat|].
      apply Rmult_lt_reg_r with (R0 / rs); [now apply Rdiv_lt_0_compat|].
      replace (rs * r / R0 * (R0 / rs)) with r by (field; lra). unfold Rdiv in *. rewrite <- Rmult_assoc. exact H2.
  - assert (HP : 0 < Rpower (/ e) (/ alp)) by apply exp_pos.
    exists (rs * R0 / Rpower (/ e) (/ alp)). split.
    + apply Rdiv_lt_0_compat; auto. now apply Rmult_lt_0_compat.
    + intros r [H1 H2]. apply frac_near_0; auto. apply Rpower_above; auto; [now apply Rinv_0_lt_compat|].
      apply Rmult_lt_reg_r with (r / Rpower (/ e) (/ alp)); [now apply Rdiv_lt_0_compat|].
      replace (rs * R0 / r * (r / Rpower (/ e) (/ alp))) with (rs * R0 / Rpower (/ e) (/ alp)) by (field; lra).
      replace (Rpower (/ e) (/ alp) * (r / Rpower (/ e) (/ alp))) with r by (field; lra). exact H2.
  - assert (HP : 0 < Rpower (e / 6) (/ alp)) by apply exp_pos.
    exists (rs * R0 / Rpower (e / 6) (/ alp)). split.
    + apply Rdiv_lt_0_compat; auto. now apply Rmult_lt_0_compat.
    + intros r H2. assert (H1 : 0 < r).
      { apply Rlt_trans with (2 := H2). apply Rdiv_lt_0_compat; auto. now apply Rmult_lt_0_compat. }
      apply frac_near_1; auto; [apply exp_pos|].
      assert (Rpower (rs * R0 / r) alp < e / 6); [|lra]. apply Rpower_below; auto; [lra| |].
      * apply Rdiv_lt_0_compat; auto. now apply Rmult_lt_0_compat.
      * apply Rmult_lt_reg_r with (r / Rpower (e / 6) (/ alp)); [now apply Rdiv_lt_0_compat|].
        replace (rs * R0 / r * (r / Rpower (e / 6) (/ alp))) with (rs * R0 / Rpower (e / 6) (/ alp)) by (field; lra).
        replace (Rpower (e / 6) (/ alp) * (r / Rpower (e / 6) (/ alp))) with r by (field; lra). exact H2.
Qed.

(** *** C22: modified zero damping *)
Definition mzero_factor (rs alp bet r R0 : R) : R :=
  / (1 + 6 * Rpower (r / (rs * R0) + bet * R0) (- alp)).

Lemma mzero_acts param o only rs bet :
  good_param param -> In o [6; 8]%nat -> rs_of param o = Some rs -> getp param "bet" = Some bet ->
  acts (MZeroDamping X) param o only (mzero_g X rs (alp_of param o) bet o).
Proof.
  intros G [<-|[<-|[]]] E EB; cbn in E.
  - eapply acts_of; [apply mzero6_elementwise; eauto|]. reflexivity.
  - eapply acts_of; [apply mzero8_elementwise; eauto|]. intros. unfold alp_of.
    cbn [fadd RS flit]. replace (Q2R 2) with 2 by (unfold Q2R; simpl; lra). reflexivity.
Qed.

Theorem C22_modified_zero_damping :
  forall param o only rs bet dist radii t i,
  div_contract X -> good_param param -> In o [6; 8]%nat -> rs_of param o = Some rs ->
  getp param "bet" = Some bet -> shp dist = shp radii ->
  damping_call (MZeroDamping X) dist radii o only param = Ok t -> valid (shp dist) i ->
  0 < rs -> 0 <= bet -> 0 < dat dist i -> 0 < dat radii i ->
  let f := mzero_factor rs (alp_of param o) bet (dat dist i) (dat radii i) in
  dat t i = f / dat dist i ^ o /\ 0 < f < 1.
Proof.
  intros param o only rs bet dist radii t i HX G Ho E EB S C V Hrs Hb Hd Hr f.
  destruct (mzero_acts param o only rs bet G Ho E EB dist radii S) as (t' & E' & _ & F).
  assert (t' = t) by congruence. subst t'. rewrite F by auto. split.
  - unfold mzero_g. rewrite HX.
    + unfold f, mzero_factor. cbn [fdiv fadd fmul fopp fpow flit RS fpown].
      rewrite fpow_pos.
      * change (Q2R 1 / (Q2R 1 + Q2R 6 * Rpower (dat dist i / (rs * dat radii i) + bet * dat radii i) (- alp_of param o))
          / dat dist i ^ o = / (1 + 6 * Rpower (dat dist i / (rs * dat radii i) + bet * dat radii i) (- alp_of param o)) / dat dist i ^ o).
        rewrite Q2R_1. replace (Q2R 6) with 6 by (unfold Q2R; simpl; lra). unfold Rdiv. ring.
      * assert (0 < (dat dist i : R) / (rs * dat radii i)) by (apply Rdiv_lt_0_compat; auto; now apply Rmult_lt_0_compat).
        assert (0 <= bet * dat radii i) by (apply Rmult_le_pos; auto; apply Rlt_le; exact Hr).
        change (0 < dat dist i / (rs * dat radii i) + bet * dat radii i). lra.
    + apply Rgt_not_eq, pow_lt. exact Hd.
  - unfold f, mzero_factor. set (p := Rpower _ _). assert (0 < p) by apply exp_pos.
    split; [apply Rinv_0_lt_compat; lra|]. rewrite <- Rinv_1. apply Rinv_lt_contravar; lra.
Qed.

Theorem C22_factor_increases :
  forall rs alp bet R0 r r' : R, 0 < rs -> 0 < alp -> 0 <= bet -> 0 < R0 -> 0 < r < r' ->
  mzero_factor rs alp bet r R0 < mzero_factor rs alp bet r' R0.
Proof.
  intros rs alp bet R0 r r' Hrs Ha Hb HR [Hr Hlt]. unfold mzero_factor.
  assert (P : 0 < rs * R0) by now apply Rmult_lt_0_compat.
  assert (A : 0 < r / (rs * R0)) by now apply Rdiv_lt_0_compat.
  assert (B : r / (rs * R0) < r' / (rs * R0)).
  { unfold Rdiv. apply Rmult_lt_compat_r; auto. now apply Rinv_0_lt_compat. }
  assert (C : 0 <= bet * R0) by (apply Rmult_le_pos; lra).
  assert (D : Rpower (r / (rs * R0) + bet * R0) alp < Rpower (r' / (rs * R0) + bet * R0) alp).
  { apply Rpower_mono_lt; lra. }
  rewrite !Rpower_Ropp.
  assert (E : / Rpower (r' / (rs * R0) + bet * R0) alp < / Rpower (r / (rs * R0) + bet * R0) alp).
  { apply Rinv_lt_contravar; auto. apply Rmult_lt_0_compat; apply exp_pos. }
  assert (0 < / Rpower (r' / (rs * R0) + bet * R0) alp) by (apply Rinv_0_lt_compat, exp_pos).
  apply Rinv_lt_contravar; [|lra]. apply Rmult_lt_0_compat; lra.
Qed.

(** *** C23: optimised power damping *)
Lemma op_algebra (r R0 bet : R) o : 0 < r -> 0 < R0 ->
  Rpower r bet / (Rpower r bet * r ^ o + Rpower R0 bet * r ^ o) = / (r ^ o * (1 + Rpower (R0 / r) bet)).
Proof.
  intros Hr HR.
  assert (Q : Rpower (R0 / r) bet = Rpower R0 bet / Rpower r bet).
  { unfold Rdiv. rewrite <- Rpower_inv by auto. symmetry. apply Rpower_mult_distr; auto.
    now apply Rinv_0_lt_compat. }
  rewrite Q. assert (0 < Rpower r bet) by apply exp_pos. assert (0 < Rpower R0 bet) by apply exp_pos.
  assert (0 < r ^ o) by now apply pow_lt. field. repeat split; lra || nra.
Qed.

Theorem C23_optimised_power_formula :
  forall param o only a1 a2 bet dist radii t i,
  good_param param -> In o [6; 8]%nat -> (o = 8%nat -> getp param "s8" <> None \/ getp param "rs8" <> None) ->
  getp param "a1" = Some a1 -> getp param "a2" = Some a2 -> getp param "bet" = Some bet ->
  shp dist = shp radii -> damping_call OptimisedPowerDamping dist radii o only param = Ok t ->
  valid (shp dist) i ->
  let r := dat dist i in let R0 := bj_radius a1 a2 (dat radii i) in
  0 < r -> 0 < R0 ->
  dat t i = / (r ^ o * (1 + Rpower (R0 / r) bet)).
Proof.
  intros param o only a1 a2 bet dist radii t i G Ho H8 E1 E2 E3 S C V r R0 Hr HR.
  assert (Ho' : o = 6%nat \/ o = 8%nat) by (destruct Ho as [<-|[<-|[]]]; auto).
  assert (A : active param o = true).
  { destruct Ho' as [->| ->]; auto. unfold active, has.
    destruct (getp param "s8"); [reflexivity|]. destruct (getp param "rs8"); [reflexivity|].
    destruct H8; auto; contradiction. }
  destruct (op_elementwise param only o a1 a2 bet G Ho' A E1 E2 E3 dist radii _ eq_refl (eq_sym S)) as (t' & E' & _ & F).
  assert (t' = t) by congruence. subst t'. rewrite F by auto. unfold op_g.
  cbn [fdiv fadd fmul fpown fsqrt fpow flit RS].
  change (rpow r bet / (rpow r bet * r ^ o + rpow R0 bet * r ^ o) = / (r ^ o * (1 + Rpower (R0 / r) bet))).
  clearbody r R0. clear -Hr HR. rewrite !rpow_pos by auto. apply op_algebra; auto.
Qed.

(** The value diverges at short range for orders above [bet] (and [bet] is small in practice),
    while the expression given in the source comment stays bounded. *)
Definition op_value (o : nat) (bet R0 r : R) : R := / (r ^ o * (1 + Rpower (R0 / r) bet)).
Definition op_documented (o : nat) (bet R0 r : R) : R :=
  Rpower r bet / (Rpower r bet * r ^ o + Rpower R0 bet * R0 ^ o).

Lemma op_value_alt o bet R0 r : 0 < r -> 0 < R0 ->
  op_value o bet R0 r = / (r ^ o + Rpower R0 bet * Rpower r (INR o - bet)).
Proof.
  intros Hr HR. unfold op_value. f_equal. rewrite Rmult_plus_distr_l, Rmult_1_r. f_equal.
  unfold Rdiv. rewrite <- Rpower_mult_distr by (auto; now apply Rinv_0_lt_compat).
  rewrite Rpower_inv by auto. unfold Rminus. rewrite Rpower_plus, Rpower_Ropp, Rpower_pow by auto. ring.
Qed.

Theorem C23_diverges :
  forall (o : nat) bet R0 M, 0 < R0 -> bet < INR o -> (1 <= o)%nat -> 0 < M ->
  exists del, 0 < del /\ forall r, 0 < r < del -> M < op_value o bet R0 r.
Proof.
  intros o bet R0 M HR Hb Ho HM.
  assert (HP : 0 < Rpower R0 bet) by apply exp_pos.
  set (a := INR o - bet). assert (Ha : 0 < a) by (unfold a; lra).
  set (b := / (2 * M * Rpower R0 bet)).
  assert (Hbp : 0 < b) by (apply Rinv_0_lt_compat; nra).
  exists (Rmin (Rmin 1 (/ (2 * M))) (Rpower b (/ a))).
  assert (HM2 : 0 < / (2 * M)) by (apply Rinv_0_lt_compat; lra).
  split; [repeat apply Rmin_glb_lt; try lra; apply exp_pos|].
  intros r [Hr H].
  assert (H1 : r < 1) by (eapply Rlt_le_trans; [exact H|]; eapply Rle_trans; [apply Rmin_l|apply Rmin_l]).
  assert (H2 : r < / (2 * M)) by (eapply Rlt_le_trans; [exact H|]; eapply Rle_trans; [apply Rmin_l|apply Rmin_r]).
  assert (H3 : r < Rpower b (/ a)) by (eapply Rlt_le_trans; [exact H|]; apply Rmin_r).
  rewrite op_value_alt by auto. fold a.
  assert (A : Rpower r a < b) by (apply Rpower_below; auto).
  assert (B : r ^ o <= r).
  { destruct o as [|o]; [lia|]. simpl. assert (0 <= r ^ o <= 1).
    { split; [apply pow_le; lra|]. rewrite <- (pow1 o). apply pow_incr. lra. } nra. }
  assert (C : Rpower R0 bet * Rpower r a < / (2 * M)).
  { apply Rlt_le_trans with (Rpower R0 bet * b).
    - apply Rmult_lt_compat_l; auto.
    - unfold b. right. field. lra. }
  assert (D : 0 < r ^ o + Rpower R0 bet * Rpower r a).
  { assert (0 < r ^ o) by now apply pow_lt. assert (0 < Rpower r a) by apply exp_pos. nra. }
  rewrite <- (Rinv_inv M). apply Rinv_lt_contravar.
  - apply Rmult_lt_0_compat; auto. apply Rinv_0_lt_compat; lra.
  - replace (/ M) with (/ (2 * M) + / (2 * M)) by (field; lra). lra.
Qed.

Theorem C23_documented_is_bounded :
  forall (o : nat) bet R0 r, 0 < R0 -> 0 <= bet -> 0 < r ->
  op_documented o bet R0 r <= / R0 ^ o.
Proof.
  intros o bet R0 r HR Hb Hr. unfold op_documented.
  assert (A : 0 < Rpower r bet) by apply exp_pos. assert (B : 0 < Rpower R0 bet) by apply exp_pos.
  assert (C : 0 < r ^ o) by now apply pow_lt. assert (D : 0 < R0 ^ o) by now apply pow_lt.
  assert (0 < / R0 ^ o) by now apply Rinv_0_lt_compat.
  destruct (Rle_dec R0 r).
  - assert (F : R0 ^ o <= r ^ o) by (apply pow_incr; lra).
    apply Rle_trans with (Rpower r bet / (Rpower r bet * R0 ^ o)).
    + apply Rmult_le_compat_l; [lra|]. apply Rinv_le_contravar; [nra|]. nra.
    + right. field. lra.
  - assert (E : Rpower r bet <= Rpower R0 bet).
    { destruct (Req_dec bet 0) as [->|]; [rewrite !Rpower_O; lra|]. apply Rlt_le, Rpower_mono_lt; lra. }
    apply Rle_trans with (Rpower r bet / (Rpower R0 bet * R0 ^ o)).
    + apply Rmult_le_compat_l; [lra|]. apply Rinv_le_contravar; nra.
    + apply Rmult_le_reg_r with (Rpower R0 bet * R0 ^ o); [nra|].
      replace (Rpower r bet / (Rpower R0 bet * R0 ^ o) * (Rpower R0 bet * R0 ^ o)) with (Rpower r bet) by (field; lra).
      replace (/ R0 ^ o * (Rpower R0 bet * R0 ^ o)) with (Rpower R0 bet) by (field; lra). exact E.
Qed.

End D.

(** ** The documented formulas are refuted, on concrete inputs *)
Section R.
Context (eps mx : R).
Definition zp : Param (RS eps mx) := [pnum "rs6" 1; pnum "alp" 1].
Definition opp : Param (RS eps mx) := [pnum "a1" 1; pnum "a2" 1; pnum "bet" 1].
Definition c1 (x : R) : tensor (RS eps mx) := mkT [1%nat] (fun _ => x).

Lemma zp_good : good_param zp.
Proof.
  apply (pnum_good (eps := eps) (mx := mx) [("rs6", 1); ("alp", 1)]%string). simpl.
  intros k x [H|[H|[]]]; injection H as <- _; tauto.
Qed.
Lemma opp_good : good_param opp.
Proof.
  apply (pnum_good (eps := eps) (mx := mx) [("a1", 1); ("a2", 1); ("bet", 1)]%string). simpl.
  intros k x [H|[H|[H|[]]]]; injection H as <- _; tauto.
Qed.

Theorem C21_zero_damping_documented_refuted :
  exists (param : Param (RS eps mx)) (rs : R) (dist radii t : tensor (RS eps mx)) i,
    good_param param /\ rs_of param 6 = Some rs /\ 0 < rs /\ shp dist = shp radii /\ valid (shp dist) i /\
    0 < dat dist i /\ 0 < dat radii i /\
    damping_call (ZeroDamping (Xex eps mx)) dist radii 6 true param = Ok t /\
    dat t i <> zero_documented rs (alp_of param 6) (dat dist i) (dat radii i).
Proof.
  destruct (zero_acts (Xex eps mx) zp 6 true 1 zp_good ltac:(simpl; auto) eq_refl (c1 1) (c1 2) eq_refl) as (t & Et & St & F).
  exists zp, 1, (c1 1), (c1 2), t, [0%nat].
  split; [apply zp_good|]. split; [reflexivity|]. split; [lra|]. split; [reflexivity|].
  split; [simpl; lia|]. split; [simpl; lra|]. split; [simpl; lra|]. split; [exact Et|].
  rewrite F by (simpl; lia).
  intros H0. assert (H : zero_documented 1 1 2 1 = zero_documented 1 1 1 2).
  { etransitivity; [|exact H0]. symmetry. apply (zero_fac_doc (Xex eps mx) 1 1 1 2); try lra. apply Xex_div. }
  unfold zero_documented in H. rewrite !Rpower_1 in H by lra. apply (f_equal Rinv) in H. rewrite !Rinv_inv in H. lra.
Qed.

Theorem C23_documented_refuted :
  exists (param : Param (RS eps mx)) (a1 a2 bet : R) (dist radii t : tensor (RS eps mx)) i,
    good_param param /\ getp param "a1" = Some a1 /\ getp param "a2" = Some a2 /\ getp param "bet" = Some bet /\
    shp dist = shp radii /\ valid (shp dist) i /\ 0 < dat dist i /\
    damping_call OptimisedPowerDamping dist radii 6 false param = Ok t /\
    dat t i <> op_documented 6 bet (bj_radius a1 a2 (dat radii i)) (dat dist i).
Proof.
  destruct (op_elementwise opp false 6 1 1 1 opp_good (or_introl eq_refl) eq_refl eq_refl eq_refl eq_refl
     (c1 1) (c1 1) _ eq_refl eq_refl) as (t & Et & St & F).
  exists opp, 1, 1, 1, (c1 1), (c1 1), t, [0%nat].
  split; [apply opp_good|]. do 4 (split; [reflexivity|]). split; [simpl; lia|]. split; [simpl; lra|].
  split; [exact Et|].
  rewrite (C23_optimised_power_formula opp 6 false 1 1 1 (c1 1) (c1 1) t [0%nat] opp_good (or_introl eq_refl)
     ltac:(discriminate) eq_refl eq_refl eq_refl eq_refl Et ltac:(simpl; lia)).
  - change (/ (1 ^ 6 * (1 + Rpower ((1 * sqrt 1 + 1) / 1) 1))
        <> Rpower 1 1 / (Rpower 1 1 * 1 ^ 6 + Rpower (1 * sqrt 1 + 1) 1 * (1 * sqrt 1 + 1) ^ 6)).
    rewrite sqrt_1. rewrite !Rpower_1 by lra. intros H. field_simplify in H. lra.
  - simpl. lra.
  - unfold bj_radius. simpl. rewrite sqrt_1. lra.
Qed.

(** hypotheses of C20, C21 and C22 on concrete parameters *)
Example C20_example :
  good_param (pbe_like (eps := eps) (mx := mx)) /\
  getp (K := RS eps mx) pbe_like "a1" = Some (39 / 100) /\ getp (K := RS eps mx) pbe_like "a2" = Some (48 / 10) /\
  getp (K := RS eps mx) pbe_like "s8" <> None /\ 0 < bj_radius (39 / 100) (48 / 10) 9.
Proof.
  split; [apply pbe_like_good|]. split; [reflexivity|]. split; [reflexivity|]. split; [discriminate|].
  unfold bj_radius. replace 9 with (3 * 3) by lra. rewrite sqrt_square by lra. lra.
Qed.
Example C22_example :
  let param : Param (RS eps mx) := map (fun kx => pnum (fst kx) (snd kx)) [("rs8", 1); ("bet", 1 / 10)] in
  good_param param /\ rs_of param 8 = Some 1 /\ getp param "bet" = Some (1 / 10) /\ alp_of param 8 = Q2R 16 + 2.
Proof.
  split; [|repeat split]. apply pnum_good. simpl.
  intros k x [H|[H|[]]]; injection H as <- _; tauto.
Qed.
End R.
Print Assumptions C20_rational_formula.
Print Assumptions C20_rational_bounds.
Print Assumptions C20_rational_decreasing.
Print Assumptions C21_zero_damping_is_exchanged.
Print Assumptions C21_wrong_limits.
Print Assumptions C21_zero_damping_documented_refuted.
Print Assumptions C22_modified_zero_damping.
Print Assumptions C22_factor_increases.
Print Assumptions C23_optimised_power_formula.
Print Assumptions C23_diverges.
Print Assumptions C23_documented_is_bounded.
Print Assumptions C23_documented_refuted.
