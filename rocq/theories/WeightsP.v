(** * Polarizabilities and C6 coefficients over the reals (proof layer) *)
From Coq Require Import Reals Lra Lia List Arith ZArith QArith Qreals Bool String.
From Verif Require Import Py Tensor Scalar RInst ModelExt ModelUtils ModelModels SpecCall SpecR
  DataPair DataRef TensorLemmas EinsumLemmas Closed ClosedM ClosedModels CallLemmas PropsTables SpecW WeightsR.
Import ListNotations.
Open Scope R_scope.

Section S.
Context {eps mx : R}.
Notation N := (RN eps mx).
Notation K := (sc N).
Context (X : Ext (sc N)).

Lemma tab_h_R ref z r : t2 (@tab_h K ref) z r = h_ref ref (Z.to_nat z) r.
Proof. unfold t2, tab_h, h_ref. destruct (ref =? "eeq")%string; reflexivity. Qed.

Lemma zsec_R (kw : mkwargs N) z r :
  zsec X (kw_ga kw) (kw_gc kw) (kw_ref kw) z r =
  (if (0 <? sys_ref (Z.to_nat z) r)%Z then
    zeta_fun eps (kw_ga kw) (dat (x_gam X) [Z.to_nat (sys_ref (Z.to_nat z) r)] * kw_gc kw)
      (dat (x_zeff X) [Z.to_nat (sys_ref (Z.to_nat z) r)])
      (h_ref (kw_ref kw) (Z.to_nat z) r + dat (x_zeff X) [Z.to_nat (sys_ref (Z.to_nat z) r)]) else 0).
Proof.
  unfold zsec. change (t2 refsys z r) with (sys_ref (Z.to_nat z) r).
  destruct (0 <? sys_ref (Z.to_nat z) r)%Z; [|apply Q2R_0].
  change (sc N) with (RS eps mx). rewrite zeta_s_R. rewrite <- tab_h_R. reflexivity.
Qed.

Lemma aref0_R (kw : mkwargs N) z r w :
  aref0 X (kw_ga kw) (kw_gc kw) (kw_ref kw) z r w =
  dat (@refascale (RS 0 0)) [r; Z.to_nat z] * (alpha_ref (Z.to_nat z) r w - secondary X kw (Z.to_nat z) r w).
Proof.
  unfold aref0. rewrite zsec_R. unfold secondary.
  change (t2 refsys z r) with (sys_ref (Z.to_nat z) r).
  set (s := sys_ref (Z.to_nat z) r).
  change (fsub (s := K)) with Rminus. change (fmul (s := K)) with Rmult.
  change (t2 refascale z r) with (dat (@refascale (RS 0 0)) [r; Z.to_nat z]).
  change (dat refalpha [w; r; Z.to_nat z]) with (alpha_ref (Z.to_nat z) r w).
  change (t2 refscount z r) with (dat (@refscount (RS 0 0)) [r; Z.to_nat z]).
  change (t2 secscale s 0) with (dat (@secscale (RS 0 0)) [0%nat; Z.to_nat s]).
  change (t2 secalpha s w) with (dat (@secalpha (RS 0 0)) [w; Z.to_nat s]).
  destruct (0 <? s)%Z; match goal with |- ?a * (?b - ?c) = ?a * (?b - ?d) => replace c with d; [reflexivity|] end; ring.
Qed.

Lemma aref_R (kw : mkwargs N) z r w :
  aref X (kw_ga kw) (kw_gc kw) (kw_ref kw) z r w = pol_ref X kw (Z.to_nat z) r w.
Proof.
  unfold aref, pol_ref. rewrite aref0_R. set (x := _ * _).
  change (flt (s := K) (flit 0) x) with (rltb (Q2R 0) x). change (flit (s := K) 0) with (Q2R 0). rewrite Q2R_0.
  destruct (rltb 0 x) eqn:E; [apply rltb_true in E|apply rltb_false in E].
  - rewrite Rmax_right; lra.
  - rewrite Rmax_left; lra.
Qed.

Lemma thopi_R : thopi (K := K) = three_over_pi.
Proof. unfold thopi, three_over_pi. change (Q2R 3 / Q2R pi_lit = 3 / Q2R pi_lit). f_equal. unfold Q2R; simpl; lra. Qed.

Lemma rc6v_R (kw : mkwargs N) z1 z2 x y :
  rc6v X (kw_ga kw) (kw_gc kw) (kw_ref kw) z1 z2 x y
  = casimir (pol_ref X kw (Z.to_nat z1) x) (pol_ref X kw (Z.to_nat z2) y).
Proof.
  unfold rc6v, casimir. rewrite thopi_R.
  change (three_over_pi * @fsum (RS eps mx) 23 (fun w => trap_w (K := K) w * aref X (kw_ga kw) (kw_gc kw) (kw_ref kw) z1 x w
     * aref X (kw_ga kw) (kw_gc kw) (kw_ref kw) z2 y w) =
     three_over_pi * rsum 23 (fun w => quad_weight w * pol_ref X kw (Z.to_nat z1) x w * pol_ref X kw (Z.to_nat z2) y w)).
  rewrite fsum_R. f_equal. apply rsum_ext. intros w Hw. now rewrite !aref_R.
Qed.

Lemma c6_of_R (kw : mkwargs N) zi zj (wi wj : nat -> R) :
  c6_of X (kw_ga kw) (kw_gc kw) (kw_ref kw) zi zj wi wj = c6_pair X kw (Z.to_nat zi) (Z.to_nat zj) wi wj.
Proof.
  unfold c6_of, c6_pair.
  change (@fsum (RS eps mx) 7 (fun y => @fsum (RS eps mx) 7 (fun x =>
      rc6v X (kw_ga kw) (kw_gc kw) (kw_ref kw) zi zj x y * wi x) * wj y) =
    rsum 7 (fun r => rsum 7 (fun s => wi r * wj s * casimir (pol_ref X kw (Z.to_nat zi) r) (pol_ref X kw (Z.to_nat zj) s)))).
  rewrite fsum_R. rewrite (rsum_ext 7 _ (fun y => rsum 7 (fun x => wi x * wj y *
    casimir (pol_ref X kw (Z.to_nat zi) x) (pol_ref X kw (Z.to_nat zj) y)))).
  - apply rsum_swap.
  - intros y _. rewrite fsum_R, <- rsum_scal_r. apply rsum_ext. intros x _. rewrite rc6v_R. ring.
Qed.

(** ** The API on a constructed model *)
Lemma constructed_is kind kw numbers n B m : constructed X kind kw numbers n B m ->
  is_model X m kind kw numbers n B /\ (kind = D4M \/ kind = D4SM).
Proof.
  intros (HX & Hk & Hs & Hkw & He & cls & Em).
  destruct (new_model_ok X kind cls numbers kw n B HX Hk Hs Hkw He) as (m' & Em' & Hm).
  rewrite Em in Em'. injection Em' as <-. auto.
Qed.

Lemma constructed_range kind kw numbers n B m b i : constructed X kind kw numbers n B m ->
  an_atom n B b i -> (0 <= sl1 numbers b i <= 103)%Z.
Proof.
  intros (_ & _ & Hs & _ & He & _) (Hb & Hi).
  assert (V : valid (shp numbers) (i :: b)) by (rewrite Hs; split; auto).
  unfold sl1. destruct He as [(_ & He)|(_ & He)]; apply He in V; lia.
Qed.

Lemma is_model_ga m kind kw numbers n B : is_model X m kind kw numbers n B ->
  m_ga m = kw_ga kw /\ m_gc m = kw_gc kw /\ m_ref m = kw_ref kw.
Proof. intros (_ & _ & _ & Eg & Ec & Er & _). rewrite Eg, Ec, Er. rewrite kw_ga_R, kw_gc_R. auto. Qed.

Lemma weights_run kind kw numbers n B m cn q : constructed X kind kw numbers n B m ->
  atomwise cn q n B -> 1 <= mx ->
  exists gw, weight_references X m cn q = Ok gw /\ shp gw = wt_shape kind n B /\
    forall b i j r, an_atom n B b i -> (j < n)%nat -> (r < 7)%nat ->
      wt kind gw b i j r = weight X kw (kw_wf kind kw numbers b i j) (elem numbers b i) r (opt_at cn b i) (opt_at q b i).
Proof.
  intros HC (Hcn & Hq) Hm. destruct (constructed_is _ _ _ _ _ _ HC) as (Him & Hk).
  pose proof Him as (Hok & EK & _).
  destruct (weight_references_ev X m n B cn q Hok Hcn Hq) as (gw & E & Hs & Hd).
  exists gw. split; auto. unfold is_d4s in *. rewrite EK in *.
  split; [destruct Hk as [->| ->]; exact Hs|].
  intros b i j r (Hb & Hi) Hj Hr. unfold elem. rewrite <- (wt_of_R X m kind kw numbers n B cn q b i j r Him Hk Hm Hb Hi Hj Hr).
  destruct Hk as [->| ->]; unfold wt, sl2, sl3; rewrite Hd by (repeat apply valid_cons; auto); [|reflexivity].
  cbn [ix2]. refine (wt_of_d4 X m cn q b i i j r _). unfold is_d4s. now rewrite EK.
Qed.

Lemma c6_run kind kw numbers n B m gw : constructed X kind kw numbers n B m ->
  shp gw = wt_shape kind n B ->
  exists c6, get_atomic_c6 m gw = Ok c6 /\ shp c6 = n :: n :: B /\
    forall b i j, an_atom n B b i -> (j < n)%nat ->
      sl2 c6 b i j = c6_pair X kw (elem numbers b i) (elem numbers b j) (wt kind gw b i j) (wt kind gw b j i).
Proof.
  intros HC Hs. destruct (constructed_is _ _ _ _ _ _ HC) as (Him & Hk).
  destruct (is_model_ga _ _ _ _ _ _ Him) as (Eg & Ec & Er).
  destruct Him as ((_ & _ & _ & _ & Hrc & _) & EK & EN & _).
  rewrite EN, Eg, Ec, Er in Hrc.
  unfold get_atomic_c6. rewrite EK. destruct Hk as [->| ->]; cbn [wt_shape] in Hs.
  - destruct (ein_c6_d4 (K := K) _ _ _ n 7 B _ _ _ Hrc (ten_eq gw _ Hs) (ten_eq gw _ Hs)) as (c6 & E & Ht & Hd).
    exists c6. split; [exact E|]. split; [exact Ht|]. intros b i j (Hb & Hi) Hj.
    unfold sl2. rewrite Hd by (repeat apply valid_cons; auto). unfold elem.
    rewrite <- c6_of_R. reflexivity.
  - destruct (ein_c6_d4s (K := K) _ _ _ n 7 B _ _ _ Hrc (ten_eq gw _ Hs) (ten_eq gw _ Hs)) as (c6 & E & Ht & Hd).
    exists c6. split; [exact E|]. split; [exact Ht|]. intros b i j (Hb & Hi) Hj.
    unfold sl2. rewrite Hd by (repeat apply valid_cons; auto). unfold elem.
    rewrite <- c6_of_R. reflexivity.
Qed.

Lemma alpha_run kind kw numbers n B m : constructed X kind kw numbers n B m ->
  exists al, model_alpha X m = Ok al /\ shp al = 23%nat :: 7%nat :: n :: B /\
    forall b i r w, an_atom n B b i -> (r < 7)%nat -> (w < 23)%nat ->
      sl3 al b i r w = pol_ref X kw (elem numbers b i) r w.
Proof.
  intros HC. destruct (constructed_is _ _ _ _ _ _ HC) as (Him & Hk).
  destruct (is_model_ga _ _ _ _ _ _ Him) as (Eg & Ec & Er).
  destruct Him as ((HX & Hkn & Hs & Hr & _) & EK & EN & _).
  unfold model_alpha. rewrite EN, Eg, Ec, Er in *.
  destruct (get_alpha_ev X numbers (n :: B) (kw_ga kw) (kw_gc kw) (kw_ref kw) HX Hkn Hs Hr) as (al & E & Hsh & Hd).
  exists al. split; [exact E|]. split; [exact Hsh|]. intros b i r w (Hb & Hi) Hr' Hw.
  unfold sl3. rewrite Hd by (repeat apply valid_cons; auto). unfold ix2. apply aref_R.
Qed.

(** ** Inequalities *)
Lemma pi_lit_pos : 0 < Q2R pi_lit.
Proof. replace 0 with (Q2R 0) by apply Q2R_0. apply Qlt_Rlt. reflexivity. Qed.
Lemma three_over_pi_pos : 0 < three_over_pi.
Proof. unfold three_over_pi. apply Rdiv_lt_0_compat; [lra|apply pi_lit_pos]. Qed.
Lemma quad_weight_pos w : (w < 23)%nat -> 0 < quad_weight w.
Proof.
  intros H. pose proof trap_all_pos as P. apply andb_true_iff in P as [P _]. apply andb_true_iff in P as [P _].
  unfold trap_pos in P. rewrite forallb_seq in P. specialize (P w H). apply Z.ltb_lt in P.
  unfold quad_weight. change (0 < IZR (nth w trapzd_weights_tab 0%Z) / IZR (Zpos trapzd_weights_tab_dec)).
  apply Rdiv_lt_0_compat; apply IZR_lt; [exact P|reflexivity].
Qed.
Lemma pol_ref_nonneg kw z r w : 0 <= pol_ref X kw z r w.
Proof. apply Rmax_l. Qed.
Lemma casimir_nonneg f g : (forall w, (w < 23)%nat -> 0 <= f w) -> (forall w, (w < 23)%nat -> 0 <= g w) -> 0 <= casimir f g.
Proof.
  intros Hf Hg. unfold casimir. apply Rmult_le_pos; [apply Rlt_le, three_over_pi_pos|].
  apply rsum_nonneg. intros w Hw. apply Rmult_le_pos; auto. apply Rmult_le_pos; auto. now apply Rlt_le, quad_weight_pos.
Qed.
Lemma casimir_sym f g : casimir f g = casimir g f.
Proof. unfold casimir. f_equal. apply rsum_ext. intros. ring. Qed.
Lemma c6_pair_sym kw z1 z2 w1 w2 : c6_pair X kw z1 z2 w1 w2 = c6_pair X kw z2 z1 w2 w1.
Proof.
  unfold c6_pair. rewrite rsum_swap. apply rsum_ext. intros r _. apply rsum_ext. intros s _.
  rewrite casimir_sym. ring.
Qed.
Lemma c6_pair_nonneg kw z1 z2 w1 w2 : (forall r, (r < 7)%nat -> 0 <= w1 r) -> (forall r, (r < 7)%nat -> 0 <= w2 r) ->
  0 <= c6_pair X kw z1 z2 w1 w2.
Proof.
  intros H1 H2. apply rsum_nonneg. intros r Hr. apply rsum_nonneg. intros s Hs.
  apply Rmult_le_pos; [apply Rmult_le_pos; auto|]. apply casimir_nonneg; intros; apply pol_ref_nonneg.
Qed.
Lemma c6_pair_ext kw z1 z2 w1 w2 u1 u2 : (forall r, (r < 7)%nat -> w1 r = u1 r) -> (forall r, (r < 7)%nat -> w2 r = u2 r) ->
  c6_pair X kw z1 z2 w1 w2 = c6_pair X kw z1 z2 u1 u2.
Proof.
  intros H1 H2. apply rsum_ext. intros r Hr. apply rsum_ext. intros s Hs. now rewrite H1, H2.
Qed.
Lemma c6_pair_0 kw z1 z2 w1 w2 : (forall r, (r < 7)%nat -> w1 r = 0) -> c6_pair X kw z1 z2 w1 w2 = 0.
Proof.
  intros H. unfold c6_pair. apply rsum_0.
  intros r Hr. apply rsum_0. intros s Hs. rewrite H; auto. ring.
Qed.
(** C6 is the Casimir-Polder integral of the weighted polarizabilities *)
Lemma c6_pair_casimir kw z1 z2 w1 w2 : c6_pair X kw z1 z2 w1 w2 = casimir (pol_atom X kw z1 w1) (pol_atom X kw z2 w2).
Proof.
  unfold c6_pair, casimir, pol_atom.
  rewrite (rsum_ext 23 _ (fun w => rsum 7 (fun r => rsum 7 (fun s =>
     quad_weight w * (w1 r * pol_ref X kw z1 r w) * (w2 s * pol_ref X kw z2 s w))))).
  2:{ intros w _. rewrite Rmult_assoc, <- rsum_scal_r, <- rsum_scal_l. apply rsum_ext. intros r _.
      rewrite <- Rmult_assoc, <- rsum_scal_l. reflexivity. }
  rewrite (rsum_swap 23 7), <- rsum_scal_l. apply rsum_ext. intros r _.
  rewrite (rsum_swap 23 7), <- rsum_scal_l. apply rsum_ext. intros s _.
  rewrite <- !rsum_scal_l. apply rsum_ext. intros. ring.
Qed.
End S.
