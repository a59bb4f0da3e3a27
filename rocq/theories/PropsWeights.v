(** * Reference weights, C6 and C9 coefficients, polarizabilities: C26, C31, C32, C33, C35, C36, C48 *)
From Coq Require Import Reals Lra Lia List Arith ZArith QArith Qreals Bool String.
From Verif Require Import Py Tensor Scalar RInst ModelExt ModelUtils ModelDamping ModelModels ModelTerms
  SpecCall SpecR DataPair TensorLemmas EinsumLemmas Closed ClosedM ClosedModels ClosedTerms CallLemmas
  PropsTables SpecW WeightsR WeightsP.
Import ListNotations.
Open Scope R_scope.

Section S.
Context {eps mx : R}.
Notation N := (RN eps mx).
Notation T := (tensor (sc N)).
Context (X : Ext (sc N)).

(** ** C26 *)
(** [weight_references] returns the weights of the formula, for D4 and D4S *)
Theorem C26_weights_formula kind kw numbers n B m (cn q : option T) :
  constructed X kind kw numbers n B m -> atomwise cn q n B -> 1 <= mx ->
  exists gw, weight_references X m cn q = Ok gw /\ shp gw = wt_shape kind n B /\
    forall b i j r, an_atom n B b i -> (j < n)%nat -> (r < 7)%nat ->
      wt kind gw b i j r =
        weight X kw (kw_wf kind kw numbers b i j) (elem numbers b i) r (opt_at cn b i) (opt_at q b i).
Proof. apply weights_run. Qed.

Lemma weights_of kind kw numbers n B m (cn q : option T) gw :
  constructed X kind kw numbers n B m -> atomwise cn q n B -> 1 <= mx ->
  weight_references X m cn q = Ok gw ->
  shp gw = wt_shape kind n B /\ forall b i j r, an_atom n B b i -> (j < n)%nat -> (r < 7)%nat ->
      wt kind gw b i j r =
        weight X kw (kw_wf kind kw numbers b i j) (elem numbers b i) r (opt_at cn b i) (opt_at q b i).
Proof.
  intros HC Ha Hm E. destruct (weights_run X kind kw numbers n B m cn q HC Ha Hm) as (gw' & E' & H).
  rewrite E in E'. injection E' as <-. exact H.
Qed.

Lemma zeta_fun_pos e ga gam qref qmod : 0 < zeta_fun e ga gam qref qmod.
Proof. unfold zeta_fun. destruct (Rlt_dec 0 qmod); apply exp_pos. Qed.
Lemma zeta_fun_le e ga gam qref qmod : 0 <= ga -> zeta_fun e ga gam qref qmod <= exp ga.
Proof.
  intros Hg. unfold zeta_fun. destruct (Rlt_dec 0 qmod); [|lra].
  destruct (Req_dec ga 0) as [->|]; [rewrite Rmult_0_l; lra|].
  left. apply exp_increasing. pose proof (exp_pos (gam * (1 - qref / (qmod - e)))). nra.
Qed.
Lemma zeta_fun_ga0 e gam qref qmod : zeta_fun e 0 gam qref qmod = 1.
Proof. unfold zeta_fun. rewrite Rmult_0_l, exp_0. now destruct (Rlt_dec 0 qmod). Qed.

Lemma weight_nonneg kw wf z r cn q : (z <= 103)%nat -> (r < 7)%nat -> 0 <= weight X kw wf z r cn q.
Proof.
  intros Hz Hr. unfold weight. destruct (Z.ltb_spec 0 (n_gauss z r)); [|lra].
  apply Rmult_le_pos; [apply Rlt_le, zeta_fun_pos|]. apply gauss_weight_range; auto. apply (exists_ref_real z r); auto.
Qed.

(** absent references, hence all references of padding atoms, have weight exactly zero; all
    weights lie between 0 and [exp ga] *)
Theorem C26_weights_bounds kind kw numbers n B m (cn q : option T) gw b i j r :
  constructed X kind kw numbers n B m -> atomwise cn q n B -> 1 <= mx ->
  weight_references X m cn q = Ok gw -> an_atom n B b i -> (j < n)%nat -> (r < 7)%nat ->
  0 <= wt kind gw b i j r /\
  (0 <= kw_ga kw -> wt kind gw b i j r <= exp (kw_ga kw)) /\
  (~ exists_ref (elem numbers b i) r -> wt kind gw b i j r = 0) /\
  (sl1 numbers b i = 0%Z -> wt kind gw b i j r = 0) /\
  (exists_ref (elem numbers b i) r -> 0 < wt kind gw b i j r).
Proof.
  intros HC Ha Hm E Hi Hj Hr. rewrite (proj2 (weights_of _ _ _ _ _ _ _ _ _ HC Ha Hm E) b i j r Hi Hj Hr).
  pose proof (constructed_range X _ _ _ _ _ _ b i HC Hi) as Hz.
  assert (Hz' : (elem numbers b i <= 103)%nat) by (unfold elem; lia).
  split; [now apply weight_nonneg|].
  split; [|split; [|split]].
  - intros Hg. unfold weight. pose proof (exp_pos (kw_ga kw)). destruct (Z.ltb_spec 0 (n_gauss (elem numbers b i) r)); [|lra].
    apply Rle_trans with (exp (kw_ga kw) * 1); [|lra].
    destruct (gauss_weight_range (kw_wf kind kw numbers b i j) (opt_at cn b i) (elem numbers b i) r) as [G1 G2]; auto.
    { apply (exists_ref_real _ r); auto. }
    apply Rmult_le_compat; auto; [apply Rlt_le, zeta_fun_pos|now apply zeta_fun_le].
  - intros Ne. unfold weight. destruct (Z.ltb_spec 0 (n_gauss (elem numbers b i) r)); [contradiction|reflexivity].
  - intros E0. unfold weight, elem. rewrite E0. destruct (Z.ltb_spec 0 (n_gauss (Z.to_nat 0) r)) as [L|]; [|reflexivity].
    exfalso. now apply (C38_padding_has_no_references r Hr).
  - intros Ex. unfold weight. destruct (Z.ltb_spec 0 (n_gauss (elem numbers b i) r)); [|unfold exists_ref in Ex; lia].
    apply Rmult_lt_0_compat; [apply zeta_fun_pos|]. unfold gauss_weight. apply Rdiv_lt_0_compat; [now apply gauss_pos|].
    apply gauss_sum_pos. apply (exists_ref_real _ r); auto.
Qed.

(** without charge scaling ([ga = 0]) the weights of a real atom sum to exactly one *)
Theorem C26_weights_normalised kind kw numbers n B m (cn q : option T) gw b i j :
  constructed X kind kw numbers n B m -> atomwise cn q n B -> 1 <= mx ->
  weight_references X m cn q = Ok gw -> a_real_atom numbers n B b i -> (j < n)%nat ->
  kw_ga kw = 0 ->
  rsum 7 (fun r => wt kind gw b i j r) = 1 /\
  forall r, (r < 7)%nat -> 0 <= wt kind gw b i j r <= 1.
Proof.
  intros HC Ha Hm E (Hi & Hre) Hj Hg.
  pose proof (constructed_range X _ _ _ _ _ _ b i HC Hi) as Hz.
  assert (P := gauss_sum_pos (kw_wf kind kw numbers b i j) (opt_at cn b i) (elem numbers b i) ltac:(unfold elem; lia)).
  split.
  - rewrite (rsum_ext 7 _ (fun r => gauss (kw_wf kind kw numbers b i j) (opt_at cn b i) (elem numbers b i) r *
      / rsum 7 (gauss (kw_wf kind kw numbers b i j) (opt_at cn b i) (elem numbers b i)))).
    { rewrite rsum_scal_r. apply Rinv_r. lra. }
    intros r Hr. rewrite (proj2 (weights_of _ _ _ _ _ _ _ _ _ HC Ha Hm E) b i j r Hi Hj Hr).
    unfold weight, charge_factor. rewrite Hg, zeta_fun_ga0.
    destruct (0 <? n_gauss (elem numbers b i) r)%Z eqn:L; [unfold gauss_weight, Rdiv; ring|].
    rewrite gauss_absent by auto. ring.
  - intros r Hr. destruct (C26_weights_bounds kind kw numbers n B m cn q gw b i j r) as (H1 & H2 & _); auto.
    split; auto. rewrite <- exp_0, <- Hg. apply H2. lra.
Qed.

(** ** C31 *)
(** the C6 matrix is symmetric, whatever weights are given *)
Theorem C31_c6_symmetric kind kw numbers n B m (gw : T) :
  constructed X kind kw numbers n B m -> shp gw = wt_shape kind n B ->
  exists c6, get_atomic_c6 m gw = Ok c6 /\ shp c6 = n :: n :: B /\
    forall b i j, an_atom n B b i -> (j < n)%nat -> sl2 c6 b i j = sl2 c6 b j i.
Proof.
  intros HC Hs. destruct (c6_run X kind kw numbers n B m gw HC Hs) as (c6 & E & Hc & Hv).
  exists c6. split; auto. split; auto. intros b i j (Hb & Hi) Hj. rewrite !Hv by (split; auto) || auto. apply c6_pair_sym.
Qed.

(** with the model's own weights it is nonnegative, and zero for padding atoms *)
Theorem C31_c6_nonneg kind kw numbers n B m (cn q : option T) gw c6 b i j :
  constructed X kind kw numbers n B m -> atomwise cn q n B -> 1 <= mx ->
  weight_references X m cn q = Ok gw -> get_atomic_c6 m gw = Ok c6 ->
  an_atom n B b i -> (j < n)%nat ->
  0 <= sl2 c6 b i j /\ (sl1 numbers b i = 0%Z \/ sl1 numbers b j = 0%Z -> sl2 c6 b i j = 0).
Proof.
  intros HC Ha Hm Ew Ec Hi Hj. destruct (weights_of _ _ _ _ _ _ _ _ _ HC Ha Hm Ew) as (Hs & Hw).
  destruct (c6_run X kind kw numbers n B m gw HC Hs) as (c6' & E & Hc & Hv). rewrite Ec in E. injection E as <-.
  rewrite Hv by auto. destruct Hi as (Hb & Hi).
  assert (Hbd : forall i j r, (i < n)%nat -> (j < n)%nat -> (r < 7)%nat -> 0 <= wt kind gw b i j r /\ (sl1 numbers b i = 0%Z -> wt kind gw b i j r = 0)).
  { intros i' j' r Hi' Hj' Hr.
    destruct (C26_weights_bounds kind kw numbers n B m cn q gw b i' j' r) as (H1 & _ & _ & H2 & _); auto. now split. }
  split.
  - apply c6_pair_nonneg; intros r Hr; apply Hbd; auto.
  - intros [E|E].
    + apply c6_pair_0. intros r Hr. now apply (Hbd i j r).
    + rewrite c6_pair_sym. apply c6_pair_0. intros r Hr. now apply (Hbd j i r).
Qed.

(** the value *)
Theorem C31_c6_formula kind kw numbers n B m (gw : T) c6 b i j :
  constructed X kind kw numbers n B m -> shp gw = wt_shape kind n B -> get_atomic_c6 m gw = Ok c6 ->
  an_atom n B b i -> (j < n)%nat ->
  sl2 c6 b i j = c6_pair X kw (elem numbers b i) (elem numbers b j) (wt kind gw b i j) (wt kind gw b j i).
Proof.
  intros HC Hs E Hi Hj. destruct (c6_run X kind kw numbers n B m gw HC Hs) as (c6' & E' & Hc & Hv).
  rewrite E in E'. injection E' as <-. now apply Hv.
Qed.

(** ** C48 *)
Lemma trap_eq w : (w < 23)%nat -> trap_w (K := RS eps mx) w = quad_weight w /\
  trap_w_noref (K := RS eps mx) w = quad_weight w /\ trap_w_atm (K := RS eps mx) w = quad_weight w.
Proof.
  intros Hw. pose proof trap_same as H. rewrite forallb_seq in H. specialize (H w Hw).
  apply andb_true_iff in H as [H1 H2]. apply Z.eqb_eq in H1, H2.
  unfold trap_w, trap_w_noref, trap_w_atm, quad_weight.
  change (dat (@trapzd_weights (RS eps mx)) [w]) with (IZR (nth w trapzd_weights_tab 0%Z) / IZR (Zpos trapzd_weights_tab_dec)).
  change (dat (@trapzd_weights (RS 0 0)) [w]) with (IZR (nth w trapzd_weights_tab 0%Z) / IZR (Zpos trapzd_weights_tab_dec)).
  change (dat (@trapzd_noref_weights (RS eps mx)) [w]) with (IZR (nth w trapzd_noref_weights_tab 0%Z) / IZR (Zpos trapzd_noref_weights_tab_dec)).
  change (dat (@trapzd_atm_weights (RS eps mx)) [w]) with (IZR (nth w trapzd_atm_weights_tab 0%Z) / IZR (Zpos trapzd_atm_weights_tab_dec)).
  rewrite <- H1, <- H2. split; [|split]; reflexivity.
Qed.

Lemma thopi_RS : thopi (K := RS eps mx) = three_over_pi.
Proof. exact (thopi_R (eps := eps) (mx := mx)). Qed.

(** the three integration functions use one positive quadrature rule *)
Theorem C48_quadrature n m r k B (pol1 pol2 : T) :
  (shp pol1 = 23 :: r :: n :: B -> shp pol2 = 23 :: k :: m :: B ->
   exists t, trapzd pol1 (Some pol2) = Ok t /\ shp t = k :: r :: m :: n :: B /\
     forall b i j x y, valid B b -> i < n -> j < m -> x < r -> y < k ->
       dat t (y :: x :: j :: i :: b) = casimir (sl3 pol1 b i x) (sl3 pol2 b j y))%nat /\
  (shp pol1 = 23 :: n :: B -> shp pol2 = 23 :: m :: B ->
   exists t, trapzd_noref pol1 (Some pol2) = Ok t /\ shp t = m :: n :: B /\
     forall b i j, valid B b -> i < n -> j < m -> sl2 t b i j = casimir (sl2 pol1 b i) (sl2 pol2 b j))%nat /\
  (shp pol1 = 23 :: k :: m :: n :: B ->
   exists t, trapzd_atm pol1 = Ok t /\ shp t = k :: m :: n :: B /\
     forall b i j l, valid B b -> i < n -> j < m -> l < k ->
       sl3 t b i j l = casimir (fun w => dat pol1 (w :: l :: j :: i :: b)) (fun _ => 1%R))%nat /\
  (forall w, (w < 23)%nat -> 0 < quad_weight w).
Proof.
  split; [|split; [|split]]; [intros H1 H2|intros H1 H2|intros H1|apply quad_weight_pos].
  - assert (E : ev (trapzd pol1 (Some pol2)) (k :: r :: m :: n :: B)
     (ix4 (fun y x j i b => fmul thopi (fsum 23 (fun w => fmul (fmul (trap_w w) (dat pol1 (w :: x :: i :: b))) (dat pol2 (w :: y :: j :: b))))))).
    { unfold trapzd. eapply ev_conv.
      - eapply (ev_lift2 fmul); [apply ev_scal| |bshape_solve].
        eapply ein_trapzd; [apply ten_eq; reflexivity | apply ten_eq, H1 | apply ten_eq, H2].
      - vsimp. reflexivity. }
    destruct E as (t & E & Hs & Hd). exists t. split; auto. split; auto.
    intros b i j x y Hb Hi Hj Hx Hy. rewrite Hd by (repeat apply valid_cons; auto). cbn [ix4 hd tl].
    change (thopi (K := RS eps mx) * @fsum (RS eps mx) 23 (fun w => trap_w (K := RS eps mx) w * dat pol1 (w :: x :: i :: b) * dat pol2 (w :: y :: j :: b)) = casimir (sl3 pol1 b i x) (sl3 pol2 b j y)).
    rewrite fsum_R, thopi_RS. unfold casimir. f_equal.
  - assert (E : ev (trapzd_noref pol1 (Some pol2)) (m :: n :: B)
     (ix2 (fun j i b => fmul thopi (fsum 23 (fun w => fmul (fmul (trap_w_noref w) (dat pol1 (w :: i :: b))) (dat pol2 (w :: j :: b))))))).
    { unfold trapzd_noref. eapply ev_conv.
      - eapply (ev_lift2 fmul); [apply ev_scal| |bshape_solve].
        eapply ein_trapzd_noref; [apply ten_eq; reflexivity | apply ten_eq, H1 | apply ten_eq, H2].
      - vsimp. reflexivity. }
    destruct E as (t & E & Hs & Hd). exists t. split; auto. split; auto.
    intros b i j Hb Hi Hj. unfold sl2 at 1. rewrite Hd by (repeat apply valid_cons; auto). cbn [ix2 hd tl].
    change (thopi (K := RS eps mx) * @fsum (RS eps mx) 23 (fun w => trap_w_noref (K := RS eps mx) w * dat pol1 (w :: i :: b) * dat pol2 (w :: j :: b)) = casimir (sl2 pol1 b i) (sl2 pol2 b j)).
    rewrite fsum_R, thopi_RS. unfold casimir. f_equal.
  - assert (E : ev (trapzd_atm pol1) (k :: m :: n :: B)
     (fun i => fmul thopi (fsum 23 (fun w => fmul (dat pol1 (w :: i)) (trap_w_atm w))))).
    { unfold trapzd_atm. eapply ev_conv.
      - eapply (ev_lift2 fmul); [apply ev_scal| |bshape_solve].
        eapply ein_trapzd_atm; [apply ten_eq, H1 | apply ten_eq; reflexivity].
      - vsimp. reflexivity. }
    destruct E as (t & E & Hs & Hd). exists t. split; auto. split; auto.
    intros b i j l Hb Hi Hj Hl. unfold sl3 at 1. rewrite Hd by (repeat apply valid_cons; auto).
    change (thopi (K := RS eps mx) * @fsum (RS eps mx) 23 (fun w => dat pol1 (w :: l :: j :: i :: b) * trap_w_atm (K := RS eps mx) w) = casimir (fun w => dat pol1 (w :: l :: j :: i :: b)) (fun _ => 1)).
    rewrite fsum_R, thopi_RS. unfold casimir. f_equal. apply rsum_ext. intros w Hw. rewrite (proj2 (proj2 (trap_eq w Hw))). ring.
Qed.

(** the quadrature rule is linear in either argument, symmetric and positive definite *)
Theorem C48_bilinear f g h a c :
  casimir (fun w => a * f w + c * g w) h = a * casimir f h + c * casimir g h /\
  casimir f h = casimir h f /\
  0 <= casimir f f /\
  casimir f h ^ 2 <= casimir f f * casimir h h /\
  (casimir f f = 0 -> forall w, (w < 23)%nat -> f w = 0).
Proof.
  assert (P := three_over_pi_pos).
  assert (Pf : forall w, (w < 23)%nat -> 0 <= quad_weight w * f w * f w).
  { intros w Hw. rewrite Rmult_assoc. apply Rmult_le_pos; [now apply Rlt_le, quad_weight_pos|]. nra. }
  split; [|split; [|split; [|split]]].
  - unfold casimir. rewrite (rsum_ext 23 _ (fun w => a * (quad_weight w * f w * h w) + c * (quad_weight w * g w * h w))) by (intros; ring).
    rewrite rsum_plus, !rsum_scal_l. ring.
  - apply casimir_sym.
  - unfold casimir. apply Rmult_le_pos; [lra|]. now apply rsum_nonneg.
  - unfold casimir. pose proof (rsum_cs 23 quad_weight f h (fun i Hi => Rlt_le _ _ (quad_weight_pos i Hi))). nra.
  - intros E w Hw. unfold casimir in E. apply Rmult_integral in E as [E|E]; [lra|].
    destruct (Req_dec (f w) 0) as [|Ne]; auto. exfalso.
    assert (0 < rsum 23 (fun w => quad_weight w * f w * f w)).
    { apply (rsum_pos _ _ w); auto. rewrite Rmult_assoc. apply Rmult_lt_0_compat; [now apply quad_weight_pos|]. nra. }
    lra.
Qed.

(** ** C32 *)
Lemma pols_run kw numbers n B m (gw : T) : constructed X D4M kw numbers n B m ->
  shp gw = 7%nat :: n :: B ->
  exists p, get_weighted_pols X m gw = Ok p /\ shp p = 23%nat :: n :: B /\
    forall b i w, an_atom n B b i -> (w < 23)%nat ->
      sl2 p b i w = pol_atom X kw (elem numbers b i) (sl2 gw b i) w.
Proof.
  intros HC Hs. destruct (constructed_is X _ _ _ _ _ _ HC) as ((_ & EK & _) & _).
  destruct (alpha_run X _ _ _ _ _ _ HC) as (al & Ea & Hsa & Hva).
  unfold get_weighted_pols. rewrite EK, Ea. cbn [bind].
  destruct (ein_wpol (K := RS eps mx) gw al n 7 23 B _ _ (ten_eq gw _ Hs) (ten_eq al _ Hsa)) as (p & E & Hsp & Hd).
  exists p. split; [exact E|]. split; [exact Hsp|]. intros b i w (Hb & Hi) Hw.
  unfold sl2. rewrite Hd by (repeat apply valid_cons; auto). cbn [ix2 hd tl].
  change (@fsum (RS eps mx) 7 (fun x => dat gw (x :: i :: b) * dat al (w :: x :: i :: b)) = pol_atom X kw (elem numbers b i) (sl2 gw b i) w).
  rewrite fsum_R. apply rsum_ext. intros r Hr. change (dat al (w :: r :: i :: b)) with (sl3 al b i r w).
  rewrite Hva by (auto; split; auto). reflexivity.
Qed.

(** for D4, the C6 matrix is the Casimir-Polder integral of the weighted polarizabilities *)
Theorem C32_casimir_polder kw numbers n B m (gw : T) :
  constructed X D4M kw numbers n B m -> shp gw = 7%nat :: n :: B ->
  exists c6 p c, get_atomic_c6 m gw = Ok c6 /\ get_weighted_pols X m gw = Ok p /\ trapzd_noref p None = Ok c /\
    shp c6 = n :: n :: B /\ shp p = 23%nat :: n :: B /\ shp c = n :: n :: B /\
    forall b i j, an_atom n B b i -> (j < n)%nat -> sl2 c6 b i j = sl2 c b i j.
Proof.
  intros HC Hs. destruct (c6_run X D4M kw numbers n B m gw HC Hs) as (c6 & E & Hc & Hv).
  destruct (pols_run kw numbers n B m gw HC Hs) as (p & Ep & Hp & Hvp).
  destruct (C48_quadrature n n 0 0 B p p) as (_ & H & _). destruct (H Hp Hp) as (c & Et & Hsc & Hvc).
  exists c6, p, c. repeat (split; [assumption|]). intros b i j (Hb & Hi) Hj.
  rewrite Hv, Hvc, c6_pair_casimir by (auto; split; auto). unfold casimir. f_equal.
  apply rsum_ext. intros w Hw. rewrite !Hvp by (auto; split; auto). reflexivity.
Qed.

(** hence [C6(i,j)^2 <= C6(i,i) C6(j,j)], for any weights *)
Theorem C32_cauchy_schwarz kw numbers n B m (gw : T) c6 b i j :
  constructed X D4M kw numbers n B m -> shp gw = 7%nat :: n :: B -> get_atomic_c6 m gw = Ok c6 ->
  an_atom n B b i -> (j < n)%nat ->
  sl2 c6 b i j ^ 2 <= sl2 c6 b i i * sl2 c6 b j j /\ 0 <= sl2 c6 b i i.
Proof.
  intros HC Hs E (Hb & Hi) Hj. destruct (c6_run X D4M kw numbers n B m gw HC Hs) as (c6' & E' & Hc & Hv).
  rewrite E in E'. injection E' as <-. rewrite !Hv, !c6_pair_casimir by (auto; split; auto). cbn [wt].
  destruct (C48_bilinear (pol_atom X kw (elem numbers b i) (sl2 gw b i)) (fun _ => 0)
              (pol_atom X kw (elem numbers b j) (sl2 gw b j)) 0 0) as (_ & _ & H1 & H2 & _). auto.
Qed.

(** ** C33 *)
(** the same model parameters except the weighting factors *)
Definition same_but_wf (kw kw' : mkwargs N) : Prop :=
  kw_ga kw = kw_ga kw' /\ kw_gc kw = kw_gc kw' /\ kw_ref kw = kw_ref kw'.
Definition uniform (kind : mkind) (kw : mkwargs N) (numbers : tensor Z) (n : nat) (B : list nat) (w : R) : Prop :=
  forall b i j, valid B b -> (i < n)%nat -> (j < n)%nat -> kw_wf kind kw numbers b i j = w.

Lemma weight_same kw kw' wf z r cn q : same_but_wf kw kw' -> weight X kw wf z r cn q = weight X kw' wf z r cn q.
Proof. intros (E1 & E2 & E3). unfold weight, charge_factor. now rewrite E1, E2, E3. Qed.
Lemma c6_pair_same kw kw' z1 z2 w1 w2 : same_but_wf kw kw' -> c6_pair X kw z1 z2 w1 w2 = c6_pair X kw' z1 z2 w1 w2.
Proof.
  intros (E1 & E2 & E3). unfold c6_pair. apply rsum_ext. intros r _. apply rsum_ext. intros s _. f_equal.
  unfold casimir. f_equal. apply rsum_ext. intros w _. unfold pol_ref, secondary. now rewrite E1, E2, E3.
Qed.

Theorem C33_d4s_reduces_to_d4 kw kws w numbers n B m ms (cn q : option T) :
  constructed X D4M kw numbers n B m -> constructed X D4SM kws numbers n B ms ->
  same_but_wf kws kw -> uniform D4M kw numbers n B w -> uniform D4SM kws numbers n B w ->
  atomwise cn q n B -> 1 <= mx ->
  exists gw gws c6 c6s,
    weight_references X m cn q = Ok gw /\ weight_references X ms cn q = Ok gws /\
    get_atomic_c6 m gw = Ok c6 /\ get_atomic_c6 ms gws = Ok c6s /\
    (forall b i j r, an_atom n B b i -> (j < n)%nat -> (r < 7)%nat -> wt D4SM gws b i j r = wt D4M gw b i j r) /\
    (forall b i j, an_atom n B b i -> (j < n)%nat -> sl2 c6s b i j = sl2 c6 b i j).
Proof.
  intros HC HCs HS HU HUs Ha Hm.
  destruct (weights_run X _ _ _ _ _ _ cn q HC Ha Hm) as (gw & Ew & Hs & Hw).
  destruct (weights_run X _ _ _ _ _ _ cn q HCs Ha Hm) as (gws & Ews & Hss & Hws).
  destruct (c6_run X _ _ _ _ _ _ gw HC Hs) as (c6 & Ec & _ & Hc).
  destruct (c6_run X _ _ _ _ _ _ gws HCs Hss) as (c6s & Ecs & _ & Hcs).
  exists gw, gws, c6, c6s. repeat (split; [assumption|]).
  assert (G : forall b i j r, an_atom n B b i -> (j < n)%nat -> (r < 7)%nat -> wt D4SM gws b i j r = wt D4M gw b i j r).
  { intros b i j r (Hb & Hi) Hj Hr. rewrite Hw, Hws by (auto; split; auto). rewrite HU, HUs by auto. now apply weight_same. }
  split; [exact G|]. intros b i j (Hb & Hi) Hj. rewrite Hc, Hcs by (auto; split; auto).
  rewrite (c6_pair_same kws kw) by auto. apply c6_pair_ext; intros r Hr; apply G; auto; split; auto.
Qed.

(** ** C35 *)
(** reference polarizabilities are nonnegative, and zero for absent references *)
Theorem C35_reference_polarizabilities kind kw numbers n B m :
  constructed X kind kw numbers n B m ->
  exists al, model_alpha X m = Ok al /\ shp al = 23%nat :: 7%nat :: n :: B /\
    forall b i r w, an_atom n B b i -> (r < 7)%nat -> (w < 23)%nat ->
      sl3 al b i r w = pol_ref X kw (elem numbers b i) r w /\ 0 <= sl3 al b i r w /\
      (~ exists_ref (elem numbers b i) r -> sl3 al b i r w = 0).
Proof.
  intros HC. destruct (alpha_run X _ _ _ _ _ _ HC) as (al & E & Hs & Hv).
  exists al. split; auto. split; auto. intros b i r w Hi Hr Hw. rewrite Hv by auto.
  split; [reflexivity|]. split; [apply pol_ref_nonneg|]. intros Ne.
  pose proof (constructed_range X _ _ _ _ _ _ b i HC Hi) as Hz.
  destruct (C38_secondary_systems (elem numbers b i) r) as (_ & H); [unfold elem; lia|auto|].
  destruct (H Ne) as (E1 & E2). unfold pol_ref, secondary. rewrite E1, E2 by auto. cbn [Z.ltb Z.compare].
  rewrite Rminus_0_r, Rmult_0_r. apply Rmax_left. lra.
Qed.

(** molecular polarizabilities of a D4 model: one per atom, nonnegative *)
Theorem C35_d4_polarizabilities kw numbers n B m (cn q : option T) gw :
  constructed X D4M kw numbers n B m -> atomwise cn q n B -> 1 <= mx ->
  weight_references X m cn q = Ok gw ->
  exists p, model_polarizabilities X m gw = Ok p /\ shp p = n :: B /\
    forall b i, an_atom n B b i ->
      sl1 p b i = pol_atom X kw (elem numbers b i) (sl2 gw b i) 0 /\ 0 <= sl1 p b i.
Proof.
  intros HC Ha Hm Ew. destruct (weights_of _ _ _ _ _ _ _ _ _ HC Ha Hm Ew) as (Hs & Hw).
  destruct (constructed_is X _ _ _ _ _ _ HC) as (Him & _). destruct (is_model_ga X _ _ _ _ _ _ Him) as (Eg & Ec & Er).
  destruct Him as ((HX & Hkn & Hsn & Hr & _) & EK & EN & _).
  unfold model_polarizabilities. rewrite EN, Eg, Ec, Er in *.
  destruct (get_polarizabilities_ev X numbers n B (kw_ga kw) (kw_gc kw) (kw_ref kw) gw _ HX Hkn Hsn Hr (ten_eq gw _ Hs)) as (p & E & Hsp & Hd).
  exists p. split; auto. split; auto. intros b i (Hb & Hi).
  assert (V : sl1 p b i = pol_atom X kw (elem numbers b i) (sl2 gw b i) 0).
  { unfold sl1. rewrite Hd by (repeat apply valid_cons; auto). cbn [ix1 hd tl].
    change (@fsum (RS eps mx) 7 (fun r => dat gw (r :: i :: b) * aref X (kw_ga kw) (kw_gc kw) (kw_ref kw) (sl1 numbers b i) r 0) =
      pol_atom X kw (elem numbers b i) (sl2 gw b i) 0).
    rewrite fsum_R. apply rsum_ext. intros r _. rewrite aref_R. reflexivity. }
  split; auto. rewrite V. apply rsum_nonneg. intros r Hr'. apply Rmult_le_pos; [|apply pol_ref_nonneg].
  now apply (C26_weights_bounds D4M kw numbers n B m cn q gw b i i r).
Qed.

(** ** C36 *)
(** the approximate C9 coefficients of a symmetric C6 matrix *)
Theorem C36_c9_approx n B (c6 : T) :
  shp c6 = n :: n :: B ->
  (forall b i j, an_atom n B b i -> (j < n)%nat -> sl2 c6 b i j = sl2 c6 b j i) ->
  exists c9, c9_approx X c6 = Ok c9 /\ shp c9 = n :: n :: n :: B /\
    forall b i j k, an_atom n B b i -> (j < n)%nat -> (k < n)%nat ->
      sl3 c9 b i j k = sl3 c9 b j i k /\ sl3 c9 b i j k = sl3 c9 b i k j /\
      (forall d0, sqrt_contract d0 X -> 0 <= sl3 c9 b i j k) /\
      (forall d0, sqrt_contract d0 X -> d0 <= Rabs (sl2 c6 b i j * sl2 c6 b i k * sl2 c6 b j k) ->
         sl3 c9 b i j k = sqrt (Rabs (sl2 c6 b i j * sl2 c6 b i k * sl2 c6 b j k))).
Proof.
  intros Hs Hsym. destruct (c9_approx_ev X c6 n B _ (ten_eq c6 _ Hs)) as (c9 & E & Hs9 & Hd).
  exists c9. split; auto. split; auto. intros b i j k (Hb & Hi) Hj Hk.
  assert (V : forall i j k, (i < n)%nat -> (j < n)%nat -> (k < n)%nat ->
    sl3 c9 b i j k = x_sqrt X (Rabs (sl2 c6 b i j * sl2 c6 b i k * sl2 c6 b j k))).
  { intros i' j' k' Hi' Hj' Hk'. unfold sl3. rewrite Hd by (repeat apply valid_cons; auto). reflexivity. }
  rewrite !V by auto.
  split; [|split; [|split]].
  - f_equal. f_equal. rewrite (Hsym b i j) by (auto; split; auto).
    change (sl2 c6 b j i * sl2 c6 b i k * sl2 c6 b j k = sl2 c6 b j i * sl2 c6 b j k * sl2 c6 b i k :> R). ring.
  - f_equal. f_equal. rewrite (Hsym b k j) by (auto; split; auto).
    change (sl2 c6 b i j * sl2 c6 b i k * sl2 c6 b j k = sl2 c6 b i k * sl2 c6 b i j * sl2 c6 b j k :> R). ring.
  - intros d0 (_ & H). apply H.
  - intros d0 (H & _) Hb'. now apply H.
Qed.

(** the exact C9 coefficients, from weighted polarizabilities *)
Theorem C36_c9_exact n B (p : T) :
  shp p = 23%nat :: n :: B ->
  exists c9, c9_exact p = Ok c9 /\ shp c9 = n :: n :: n :: B /\
    forall b i j k, an_atom n B b i -> (j < n)%nat -> (k < n)%nat ->
      sl3 c9 b i j k = three_over_pi * rsum 23 (fun w => quad_weight w * sl2 p b i w * sl2 p b j w * sl2 p b k w) /\
      sl3 c9 b i j k = sl3 c9 b j i k /\ sl3 c9 b i j k = sl3 c9 b i k j /\
      ((forall l w, (l < n)%nat -> (w < 23)%nat -> 0 <= sl2 p b l w) -> 0 <= sl3 c9 b i j k).
Proof.
  intros Hs. destruct (c9_exact_ev p n B _ (ten_eq p _ Hs)) as (c9 & E & Hs9 & Hd).
  exists c9. split; auto. split; auto. intros b i j k (Hb & Hi) Hj Hk.
  assert (V : forall i j k, (i < n)%nat -> (j < n)%nat -> (k < n)%nat ->
    sl3 c9 b i j k = three_over_pi * rsum 23 (fun w => quad_weight w * sl2 p b i w * sl2 p b j w * sl2 p b k w)).
  { intros i' j' k' Hi' Hj' Hk'. unfold sl3. rewrite Hd by (repeat apply valid_cons; auto). cbn [ix3 hd tl].
    change (thopi (K := RS eps mx) * @fsum (RS eps mx) 23 (fun w => sl2 p b i' w * sl2 p b j' w * sl2 p b k' w * trap_w_atm (K := RS eps mx) w) =
      three_over_pi * rsum 23 (fun w => quad_weight w * sl2 p b i' w * sl2 p b j' w * sl2 p b k' w)).
    rewrite fsum_R, thopi_RS. f_equal. apply rsum_ext. intros w Hw.
    rewrite (proj2 (proj2 (trap_eq w Hw))).
    change (sl2 p b i' w * sl2 p b j' w * sl2 p b k' w * quad_weight w = quad_weight w * sl2 p b i' w * sl2 p b j' w * sl2 p b k' w :> R). ring. }
  rewrite !V by auto. split; [reflexivity|].
  split; [|split].
  - f_equal. apply rsum_ext. intros w _.
    change (quad_weight w * sl2 p b i w * sl2 p b j w * sl2 p b k w = quad_weight w * sl2 p b j w * sl2 p b i w * sl2 p b k w :> R). ring.
  - f_equal. apply rsum_ext. intros w _.
    change (quad_weight w * sl2 p b i w * sl2 p b j w * sl2 p b k w = quad_weight w * sl2 p b i w * sl2 p b k w * sl2 p b j w :> R). ring.
  - intros Hp. apply Rmult_le_pos; [apply Rlt_le, three_over_pi_pos|]. apply rsum_nonneg. intros w Hw.
    pose proof (quad_weight_pos w Hw). apply Rmult_le_pos; [apply Rmult_le_pos; [apply Rmult_le_pos|]|]; try (apply Hp; auto). lra.
Qed.

End S.
Print Assumptions C26_weights_formula.
Print Assumptions C26_weights_bounds.
Print Assumptions C26_weights_normalised.
Print Assumptions C31_c6_symmetric.
Print Assumptions C31_c6_nonneg.
Print Assumptions C31_c6_formula.
Print Assumptions C32_casimir_polder.
Print Assumptions C32_cauchy_schwarz.
Print Assumptions C33_d4s_reduces_to_d4.
Print Assumptions C35_reference_polarizabilities.
Print Assumptions C35_d4_polarizabilities.
Print Assumptions C36_c9_approx.
Print Assumptions C36_c9_exact.
Print Assumptions C48_quadrature.
Print Assumptions C48_bilinear.
