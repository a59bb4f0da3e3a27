(** * Energies over the reals: proofs (closed forms to textbook formulas). *)
From Coq Require Import Reals Lra Lia List Arith ZArith QArith Qreals Bool String.
From Verif Require Import Py Tensor Scalar RInst ModelExt ModelUtils ModelDamping ModelModels
  ModelTerms TensorLemmas Closed ClosedTerms ClosedDamp SpecR.
Import ListNotations.
Open Scope R_scope.

Ltac rs := cbn [fadd fsub fmul fdiv fopp fexp fsqrt fabs fpow fpown flt fle feq fisnan fmax2
                fmaxfin feps flit RS F] in *.

Lemma Q2R_3 : Q2R 3 = 3. Proof. unfold Q2R; simpl; lra. Qed.
Lemma Q2R_2 : Q2R 2 = 2. Proof. unfold Q2R; simpl; lra. Qed.
Lemma Q2R_6 : Q2R 6 = 6. Proof. unfold Q2R; simpl; lra. Qed.
Lemma Q2R_16 : Q2R 16 = 16. Proof. unfold Q2R; simpl; lra. Qed.
Lemma Q2R_49 : Q2R 49 = 49. Proof. unfold Q2R; simpl; lra. Qed.
Lemma Q2R_40 : Q2R 40 = 40. Proof. unfold Q2R; simpl; lra. Qed.
Lemma Q2R_mhalf : Q2R (- (1 # 2)) = - (1 / 2). Proof. unfold Q2R; simpl; lra. Qed.
Lemma Q2R_375 : Q2R (375 # 1000) = 3 / 8. Proof. unfold Q2R; simpl; lra. Qed.
#[global] Hint Rewrite Q2R_0 Q2R_1 Q2R_2 Q2R_3 Q2R_6 Q2R_16 Q2R_49 Q2R_40 Q2R_mhalf Q2R_375 : q2r.

Lemma is_real_eqb z : is_real z = negb (Z.eqb z 0).
Proof. reflexivity. Qed.

Lemma pmask_real num i j : pmask num i j = real_pair num i j.
Proof.
  unfold pmask, real_pair. rewrite !is_real_eqb.
  destruct (negb (Z.eqb (num i) 0)), (negb (Z.eqb (num j) 0)), (negb (Nat.eqb i j)); reflexivity.
Qed.

Lemma tmask_real num i j k : tmask num i j k = real_triple num i j k.
Proof.
  unfold tmask, real_triple, real_pair. rewrite !is_real_eqb.
  destruct (negb (Z.eqb (num i) 0)), (negb (Z.eqb (num j) 0)), (negb (Z.eqb (num k) 0)),
    (negb (Nat.eqb i j)), (negb (Nat.eqb i k)), (negb (Nat.eqb j k)); reflexivity.
Qed.

Lemma real_pair_sym z i j : real_pair z i j = real_pair z j i.
Proof.
  unfold real_pair. rewrite (Nat.eqb_sym j i).
  destruct (negb (Nat.eqb i j)), (negb (Z.eqb (z i) 0)), (negb (Z.eqb (z j) 0)); reflexivity.
Qed.

Lemma real_pair_diag z i : real_pair z i i = false.
Proof. unfold real_pair. now rewrite Nat.eqb_refl. Qed.

Lemma sqd_sym c x y : sqd c x y = sqd c y x.
Proof. unfold sqd. apply rsum_ext. intros. ring. Qed.

Lemma sqd_nonneg c x y : 0 <= sqd c x y.
Proof. unfold sqd. apply rsum_nonneg. intros. apply pow2_ge_0. Qed.

Section E.
Context {eps mx : R} (X : Ext (RS eps mx)).
Notation K := (RS eps mx).

Definition rdist := x_dist X.

(** pair contribution, with the damping functions abstract *)
Definition pairv (c6 : nat -> nat -> R) (r : nat -> R) (g6 g8 : R -> R -> R) (s6 s8 : R)
  (s10 : option (R * (R -> R -> R))) (d rad : R) (i j : nat) : R :=
  s6 * (c6 i j * g6 d rad) + s8 * (c6 i j * (3 * r i * r j) * g8 d rad)
  + match s10 with
    | None => 0
    | Some (s10, g10) => s10 * (c6 i j * (3 * r i * r j) ^ 2 * 49 / 40 * g10 d rad)
    end.

Section E2.
Variables (n c : nat) (num : nat -> Z) (pos : nat -> nat -> R) (c6 rad : nat -> nat -> R)
  (r : nat -> R) (cut : R) (g6 g8 : R -> R -> R) (s6 s8 : R) (s10 : option (R * (R -> R -> R))).

Definition pair_in i j : bool := real_pair num i j && rleb (x_dist X c (pos i) (pos j)) cut.

Lemma tfac_R g i j :
  tfac (K := K) X g c num pos rad cut i j
  = if pair_in i j then g (x_dist X c (pos i) (pos j)) (rad i j) else 0.
Proof.
  unfold tfac, pair_in, pdist. rewrite pmask_real. rs.
  destruct (real_pair num i j); simpl; [|apply Q2R_0].
  destruct (rleb _ _); auto using Q2R_0.
Qed.

Definition pv i j : R :=
  if pair_in i j then
    pairv c6 r g6 g8 s6 s8 s10 (x_dist X c (pos i) (pos j)) (rad i j) i j else 0.

Lemma e2_mat_pos_R i j : e2_mat_pos (K := K) X c num pos c6 rad r cut g6 g8 s6 s8 s10 i j = pv i j.
Proof.
  unfold e2_mat_pos, pv, pairv, c8v, c10v, qq. rewrite !tfac_R. rs. autorewrite with q2r.
  destruct s10 as [[x g]|]; rewrite ?tfac_R; destruct (pair_in i j); try ring; field.
Qed.

Lemma e2_atom_R i :
  e2_atom (K := K) X n c num pos c6 rad r cut g6 g8 s6 s8 s10 i = - (1 / 2) * rsum n (pv i).
Proof.
  unfold e2_atom. rs. autorewrite with q2r.
  rewrite !fsum_R. f_equal.
  destruct s10 as [[x g]|] eqn:E10; rewrite ?fsum_R, <- !rsum_scal_l, <- ?rsum_plus;
  apply rsum_ext; intros j Hj;
  rewrite <- e2_mat_pos_R; unfold e2_mat_pos; rs; rewrite E10; reflexivity.
Qed.

Lemma e2_mat_R i j : e2_mat (K := K) X c num pos c6 rad r cut g6 g8 s6 s8 s10 i j = - pv i j.
Proof. unfold e2_mat. rewrite e2_mat_pos_R. reflexivity. Qed.
End E2.

(** ** rational damping *)
Lemma rat_g_R a1 a2 o d r :
  rat_g (K := K) a1 a2 o d r = 1 / (d ^ o + (a1 * sqrt r + a2) ^ o).
Proof. unfold rat_g. rs. autorewrite with q2r. reflexivity. Qed.

Definition rat_or_0 (param : Param K) (a1 a2 : R) (o : nat) (d r : R) : R :=
  if active param o then 1 / (d ^ o + (a1 * sqrt r + a2) ^ o) else 0.

Lemma elementwise_ext (d : Damping K) param o only (g g' : R -> R -> R) :
  (forall x y, g x y = g' x y) -> elementwise d param o only g -> elementwise d param o only g'.
Proof.
  intros H E dist radii s H1 H2. destruct (E dist radii s H1 H2) as (t & Et & Hs & Hd).
  exists t. repeat split; auto. intros i Hi. rewrite Hd by auto. apply H.
Qed.

Lemma rational_all param o only a1 a2 :
  good_param param -> getp param "a1" = Some a1 -> getp param "a2" = Some a2 ->
  elementwise (K := K) RationalDamping param o only (rat_or_0 param a1 a2 o).
Proof.
  intros G E1 E2. unfold rat_or_0. destruct (active param o) eqn:A.
  - eapply elementwise_ext; [|eapply rational_elementwise; eauto]. intros; apply rat_g_R.
  - eapply elementwise_ext; [|eapply inactive_elementwise; eauto].
    intros; simpl. apply Q2R_0.
Qed.

Lemma getd_s6 (param : Param K) : getd param "s6" dS6 = eff_s6 param.
Proof. unfold getd, eff_s6, default. destruct (getp param "s6"); auto. apply Q2R_1. Qed.

Lemma eff8 (param : Param K) x :
  getd param "s8" dS8 * (if active param 8 then x else 0) = eff_s8 param * x.
Proof.
  unfold getd, eff_s8, active, has, default.
  destruct (getp param "s8"), (getp param "rs8"); cbn [orb flit RS]; unfold dS8;
  rewrite ?Q2R_1; ring.
Qed.

Definition rat_s10 (param : Param K) (a1 a2 : R) : option (R * (R -> R -> R)) :=
  match getp param "s10" with Some x => Some (x, rat_or_0 param a1 a2 10) | None => None end.

(** the pair term of rational damping is the textbook pair energy *)
Lemma pairv_rational (param : Param K) a1 a2 c6 r d i j :
  pairv c6 r (rat_or_0 param a1 a2 6) (rat_or_0 param a1 a2 8)
        (getd param "s6" dS6) (getd param "s8" dS8) (rat_s10 param a1 a2) d (3 * r i * r j) i j
  = pair_energy a1 a2 (eff_s6 param) (eff_s8 param) (eff_s10 param) (c6 i j) (r i) (r j) d.
Proof.
  unfold pairv, pair_energy. rewrite getd_s6. unfold rat_or_0 at 1. cbn [active].
  set (R0 := a1 * sqrt (3 * r i * r j) + a2).
  replace (getd param "s8" dS8 * (c6 i j * (3 * r i * r j) * rat_or_0 param a1 a2 8 d (3 * r i * r j)))
    with ((getd param "s8" dS8 * (if active param 8 then 1 / (d ^ 8 + R0 ^ 8) else 0))
          * (c6 i j * (3 * r i * r j))).
  2:{ unfold rat_or_0. fold R0. ring. }
  rewrite eff8. unfold rat_s10, eff_s10, default. destruct (getp param "s10") eqn:E.
  - unfold rat_or_0, active, has. rewrite E. fold R0. unfold Rdiv. ring.
  - unfold Rdiv. ring.
Qed.

Lemma cut_ten (cutoff : option (tensor K)) q :
  scalar_opt cutoff -> ten (default cutoff (scal (flit q))) [] (fun _ => eff_cut (Q2R q) cutoff).
Proof.
  destruct cutoff as [t|]; simpl; intros H.
  - split; auto. intros i Hi. destruct i; [reflexivity|destruct Hi].
  - split; reflexivity.
Qed.

Lemma ev_returns1 {A} (m : res (tensor A)) n B f :
  ev m (n :: B) (ix1 (fun i b => f b i)) -> returns1 m n B f.
Proof.
  intros (t & E & Hs & Hd). exists t. repeat split; auto. intros b i Hb Hi.
  unfold sl1. rewrite Hd by (split; auto). reflexivity.
Qed.

Lemma ev_returns2 {A} (m : res (tensor A)) n B f :
  ev m (n :: n :: B) (ix2 (fun j i b => f b i j)) -> returns2 m n B f.
Proof.
  intros (t & E & Hs & Hd). exists t. repeat split; auto. intros b i j Hb Hi Hj.
  unfold sl2. rewrite Hd by (repeat split; auto). reflexivity.
Qed.

Section Two.
Variables (numbers : tensor Z) (positions : tensor K) (param : Param K) (c6 r4r2 : tensor K)
  (rvdw cutoff : option (tensor K)) (n c : nat) (B : list nat).
Hypothesis Hn : shp numbers = n :: B.
Hypothesis Hp : shp positions = c :: n :: B.
Hypothesis Hc : shp c6 = n :: n :: B.
Hypothesis Hr : shp r4r2 = n :: B.
Hypothesis Hcut : scalar_opt cutoff.
Hypothesis G : good_param param.

Let cut := eff_cut 60 cutoff.

(** any damping function *)
Section AnyDamping.
Variables (d : Damping K) (g6 g8 g10 : R -> R -> R).
Hypothesis Hrad : radius_ok d rvdw (n :: n :: B).
Hypothesis H6 : elementwise d param 6 false g6.
Hypothesis H8 : elementwise d param 8 false g8.
Hypothesis H10 : getp param "s10" <> None -> elementwise d param 10 false g10.

Definition s10g : option (R * (R -> R -> R)) :=
  match getp param "s10" with Some x => Some (x, g10) | None => None end.

Definition pvb b := pv c (sl1 numbers b) (sl2 positions b) (sl2 c6 b)
  (rad_of d (sl1 r4r2 b) (rvdat rvdw b)) (sl1 r4r2 b) cut g6 g8
  (getd param "s6" dS6) (getd param "s8" dS8) s10g.

Lemma disp2_any :
  returns1 (dispersion2 X numbers positions param c6 r4r2 rvdw d cutoff false) n B
    (fun b i => - (1 / 2) * rsum n (pvb b i)) /\
  returns2 (dispersion2 X numbers positions param c6 r4r2 rvdw d cutoff true) n B
    (fun b i j => - pvb b i j).
Proof.
  assert (Hs10 : match s10g with
                  | None => dget param "s10" = None
                  | Some (x, g10) => (exists p, dget param "s10" = Some p /\ isnum p x)
                                     /\ elementwise d param 10 false g10
                  end).
  { unfold s10g. destruct (getp param "s10") eqn:E.
    - split; [|apply H10; discriminate].
      destruct (good_isnum _ "s10" _ G ltac:(discriminate) E) as (p & D & P). eauto.
    - apply (good_none _ "s10" G); auto. discriminate. }
  assert (Hcut' := cut_ten cutoff D4_DISP2_CUTOFF Hcut).
  replace (Q2R D4_DISP2_CUTOFF) with 60 in Hcut' by (unfold D4_DISP2_CUTOFF, Q2R; simpl; lra).
  assert (P6 := pget_isnum param "s6" dS6 G ltac:(discriminate)).
  assert (P8 := pget_isnum param "s8" dS8 G ltac:(discriminate)).
  pose proof (dispersion2_ev X numbers positions param c6 r4r2 rvdw d cutoff n c B
                g6 g8 _ _ _ s10g Hn Hp Hc Hr Hrad H6 H8 P6 P8 Hcut' Hs10) as V.
  split.
  - apply ev_returns1. eapply ev_conv; [exact (V false)|]. vsimp. apply e2_atom_R.
  - apply ev_returns2. eapply ev_conv; [exact (V true)|]. vsimp. apply e2_mat_R.
Qed.
End AnyDamping.

(** rational damping *)
Variables (a1 a2 d0 : R).
Hypothesis E1 : getp param "a1" = Some a1.
Hypothesis E2 : getp param "a2" = Some a2.
Hypothesis HD : dist_contract d0 X.

(** pair energies without any assumption on the geometry: [gd] is the distance function *)
Definition rpair (gd : R -> R) b i j : R :=
  let d := gd (sqd c (sl2 positions b i) (sl2 positions b j)) in
  if real_pair (sl1 numbers b) i j && rleb d cut
  then pair_energy a1 a2 (eff_s6 param) (eff_s8 param) (eff_s10 param)
         (sl2 c6 b i j) (sl1 r4r2 b i) (sl1 r4r2 b j) d
  else 0.

Lemma disp2_rational_gd gd :
  (forall c x y, x_dist X c x y = gd (sqd c x y)) ->
  returns1 (dispersion2 X numbers positions param c6 r4r2 rvdw RationalDamping cutoff false) n B
    (fun b i => - (1 / 2) * rsum n (rpair gd b i)) /\
  returns2 (dispersion2 X numbers positions param c6 r4r2 rvdw RationalDamping cutoff true) n B
    (fun b i j => - rpair gd b i j).
Proof.
  intros Hgd.
  destruct (disp2_any RationalDamping (rat_or_0 param a1 a2 6) (rat_or_0 param a1 a2 8)
              (rat_or_0 param a1 a2 10)) as [V1 V2].
  - left. reflexivity.
  - apply rational_all; auto.
  - apply rational_all; auto.
  - intros _. apply rational_all; auto.
  - assert (P : forall b i j, pvb RationalDamping (rat_or_0 param a1 a2 6)
       (rat_or_0 param a1 a2 8) (rat_or_0 param a1 a2 10) b i j = rpair gd b i j).
    { intros b i j. unfold pvb, pv, pair_in, rpair. rewrite Hgd.
      destruct (real_pair _ _ _); simpl; auto. destruct (rleb _ _); auto.
      rewrite <- pairv_rational. unfold rad_of. cbn [d_radius_type RationalDamping].
      change ("r4r2" =? "rvdw")%string with false. cbv iota. unfold qq. rs.
      rewrite Q2R_3. reflexivity. }
    split.
    + destruct V1 as (t & ? & ? & Hd). exists t. repeat split; auto. intros.
      rewrite Hd by auto. f_equal. apply rsum_ext. intros. apply P.
    + destruct V2 as (t & ? & ? & Hd). exists t. repeat split; auto. intros.
      rewrite Hd by auto. f_equal. apply P.
Qed.

Definition upair b i j : R :=
  if real_pair (sl1 numbers b) i j && rleb (euclid c (sl2 positions b i) (sl2 positions b j)) cut
  then pair_energy a1 a2 (eff_s6 param) (eff_s8 param) (eff_s10 param)
         (sl2 c6 b i j) (sl1 r4r2 b i) (sl1 r4r2 b j) (euclid c (sl2 positions b i) (sl2 positions b j))
  else 0.

Lemma disp2_rational : separated d0 numbers positions n c B ->
  returns1 (dispersion2 X numbers positions param c6 r4r2 rvdw RationalDamping cutoff false) n B
    (fun b i => - (1 / 2) * rsum n (upair b i)) /\
  returns2 (dispersion2 X numbers positions param c6 r4r2 rvdw RationalDamping cutoff true) n B
    (fun b i j => - upair b i j).
Proof.
  intros HS. destruct HD as (gd & H1 & H2 & H3).
  destruct (disp2_rational_gd gd H1) as [V1 V2].
  assert (P : forall b i j, valid B b -> (i < n)%nat -> (j < n)%nat -> rpair gd b i j = upair b i j).
  { intros b i j Hb Hi Hj. unfold rpair, upair. destruct (real_pair _ _ _) eqn:E; auto.
    rewrite H3 by (apply HS; auto). reflexivity. }
  split.
  - destruct V1 as (t & ? & ? & Hd). exists t. repeat split; auto. intros.
    rewrite Hd by auto. f_equal. apply rsum_ext. intros. apply P; auto.
  - destruct V2 as (t & ? & ? & Hd). exists t. repeat split; auto. intros.
    rewrite Hd by auto. f_equal. apply P; auto.
Qed.
End Two.
End E.
