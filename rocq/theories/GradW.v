(** * Backward mode with infinities and NaN: reference weights and coefficients (proof layer) *)
From Coq Require Import Reals Lra Lia List Arith ZArith QArith Qreals Bool String.
From Verif Require Import Py Tensor Scalar RInst AdInst GradInst ModelExt ModelUtils ModelDamping ModelModels
  ModelTerms ModelDisp ModelGrad DataRef DataAlpha DataPair SpecCall Spec SpecR SpecW SpecD4 TensorLemmas Closed ClosedM
  ClosedTerms ClosedModels ClosedDamp ClosedDisp CallLemmas PropsOutcome SpecGrad ClosedGrad GradR GradT.
Import ListNotations.
Open Scope R_scope.

Section G.
Context {I : Type} {eps mx : R}.
Notation KG := (GS I eps mx).
Notation KA := (AS (Bwd I) eps mx).
Notation NG := (GN I eps mx).
Notation NA := (AN (Bwd I) eps mx).
Notation G := (gnum I).
Notation A := (adn (Bwd I)).
Context (XG : Ext KG) (XA : Ext KA) (HE : ext_live XG XA) (Heps : 0 < eps).
Notation lv := (@live I).

Lemma l_tab2 n1 n2 d l z r :
  live (t2 (table2 n1 n2 (fun z => @lit_of d z KG) l) z r) (t2 (table2 n1 n2 (fun z => @lit_of d z KA) l) z r).
Proof. apply live_lit. Qed.
Lemma l_tabq ref z r : live (t2 (tab_q (K := KG) ref) z r) (t2 (tab_q (K := KA) ref) z r).
Proof. unfold tab_q. destruct (ref =? "eeq")%string; apply l_tab2. Qed.
Lemma l_tabh ref z r : live (t2 (tab_h (K := KG) ref) z r) (t2 (tab_h (K := KA) ref) z r).
Proof. unfold tab_h. destruct (ref =? "eeq")%string; apply l_tab2. Qed.
Lemma l_zeff z : live (t1 (x_zeff XG) z) (t1 (x_zeff XA) z).
Proof. apply HE. Qed.
Lemma l_gam z : live (t1 (x_gam XG) z) (t1 (x_gam XA) z).
Proof. apply HE. Qed.

Lemma l_zeta ga gaA gam gamA qref qrefA qmod qmodA : lv ga gaA -> lv gam gamA -> lv qref qrefA -> lv qmod qmodA ->
  fst qmodA <> eps ->
  live (zeta_s_g (N := NG) gsel ga gam qref qmod) (zeta_s_g (N := NA) where3 gaA gamA qrefA qmodA).
Proof.
  intros L1 L2 L3 L4 P. unfold zeta_s_g.
  replace (flt (s := sc NG) (flit (s := sc NG) 0) qmod) with (flt (s := KA) (flit (s := KA) 0) qmodA)
    by (symmetry; apply live_lt; [apply live_lit|exact L4]).
  apply live_sel; [|now apply live_exp]. apply live_exp, live_mul; [exact L1|]. apply live_sub; [apply live_lit|].
  unfold zscale. apply live_exp, live_mul; [exact L2|]. apply live_sub; [apply live_lit|].
  apply live_div; [exact L3| |].
  - apply live_sub; [exact L4|apply live_eps].
  - change (fst qmodA - eps <> 0). lra.
Qed.

Section Mdl.
Context (ga gc : G) (gaA gcA : A) (Hga : lv ga gaA) (Hgc : lv gc gcA) (ref : string).

Definition no_pole_ref (z : Z) (r : nat) : Prop :=
  fst (t2 (tab_h (K := KA) ref) z r) + fst (t1 (x_zeff XA) (t2 refsys z r)) <> eps.
Lemma l_aref z r w : no_pole_ref z r ->
  live (aref_g (N := NG) XG gsel ga gc ref z r w) (aref_g (N := NA) XA where3 gaA gcA ref z r w).
Proof.
  intros P.
  assert (Z0 : live (zsec_g (N := NG) XG gsel ga gc ref z r) (zsec_g (N := NA) XA where3 gaA gcA ref z r)).
  { unfold zsec_g. apply live_sel; [|apply live_lit].
    apply l_zeta; [exact Hga|apply live_mul; [apply l_gam|exact Hgc]|apply l_zeff| |exact P].
    apply live_add; [apply l_tabh|apply l_zeff]. }
  assert (A0 : live (aref0_g (N := NG) XG gsel ga gc ref z r w) (aref0_g (N := NA) XA where3 gaA gcA ref z r w)).
  { unfold aref0_g. apply live_mul; [apply l_tab2|]. apply live_sub; [apply live_lit|].
    apply live_mul; [apply l_tab2|]. apply live_mul; [|exact Z0].
    apply live_mul; apply l_tab2. }
  unfold aref_g.
  replace (flt (s := sc NG) (flit (s := sc NG) 0) (aref0_g (N := NG) XG gsel ga gc ref z r w))
    with (flt (s := KA) (flit (s := KA) 0) (aref0_g (N := NA) XA where3 gaA gcA ref z r w))
    by (symmetry; apply live_lt; [apply live_lit|exact A0]).
  apply live_sel; [exact A0|apply live_lit].
Qed.
Lemma l_thopi : live (thopi (K := KG)) (thopi (K := KA)).
Proof.
  unfold thopi. apply live_div; [apply live_lit|apply live_lit|]. change (Q2R pi_lit <> 0).
  unfold Q2R, pi_lit. cbn [Qnum Qden]. apply Rmult_integral_contrapositive_currified; [|apply Rinv_neq_0_compat];
    apply not_0_IZR; discriminate.
Qed.
Lemma l_rc6v z1 z2 x y : no_pole_ref z1 x -> no_pole_ref z2 y ->
  live (rc6v_g (N := NG) XG gsel ga gc ref z1 z2 x y) (rc6v_g (N := NA) XA where3 gaA gcA ref z1 z2 x y).
Proof.
  intros P1 P2. unfold rc6v_g. apply live_mul; [apply l_thopi|]. apply live_sum. intros w _.
  apply live_mul; [apply live_mul; [apply live_lit|now apply l_aref]|now apply l_aref].
Qed.
End Mdl.

(** ** Gaussian weights *)
Lemma l_fold (g : nat -> G) (gA : nat -> A) l e a : (forall i, live (g i) (gA i)) -> live e a ->
  live (fold_left (fun acc i => fadd (s := KG) acc (g i)) l e) (fold_left (fun acc i => fadd (s := KA) acc (gA i)) l a).
Proof. intros H. revert e a. induction l as [|i l IH]; intros e a L; cbn [fold_left]; auto. apply IH. apply live_add; auto. Qed.

Section W.
Context (z : Z) (cn wf : G) (cnA wfA : A) (Lc : lv cn cnA) (Lw : lv wf wfA).

Lemma l_dcn r : live (dcnv (N := NG) z cn r) (dcnv (N := NA) z cnA r).
Proof. unfold dcnv. apply live_sub; [exact Lc|]. apply l_tab2. Qed.
Lemma l_tmp4 r : live (tmp4 (N := NG) z cn r) (tmp4 (N := NA) z cnA r).
Proof. unfold tmp4. apply live_exp, live_mul; [apply live_opp|]; apply l_dcn. Qed.
Lemma p_tmp4 r : 0 < fst (tmp4 (N := NA) z cnA r).
Proof. apply exp_pos. Qed.
Lemma l_pow4 r k : live (pow4 (N := NG) (tmp4 (N := NG) z cn r) wf k) (pow4 (N := NA) (tmp4 (N := NA) z cnA r) wfA k).
Proof.
  unfold pow4. apply (l_fold (pw4 (N := NG) (tmp4 (N := NG) z cn r) wf) (pw4 (N := NA) (tmp4 (N := NA) z cnA r) wfA)); [|apply live_lit].
  intros i. unfold pw4. apply live_pow; [apply l_tmp4| |left; apply p_tmp4]. apply live_mul; [apply live_lit|exact Lw].
Qed.
Lemma l_expw4 r : live (expw4_g (N := NG) gsel z cn wf r) (expw4_g (N := NA) where3 z cnA wfA r).
Proof.
  unfold expw4_g, pow3_g, pow1_g. apply live_sel; [|apply live_lit]. apply live_sel; [apply l_pow4|].
  apply live_sel; [apply l_pow4|apply l_tmp4].
Qed.
Lemma p_expw4 r : present z r = true -> 0 < fst (expw4_g (N := NA) where3 z cnA wfA r).
Proof.
  intros P. unfold expw4_g, pow3_g, pow1_g, where3. rewrite P.
  pose proof (p_tmp4 r) as P4.
  assert (PW : forall i, 0 < fst (pw4 (N := NA) (tmp4 (N := NA) z cnA r) wfA i)) by (intros; now apply rpow_pos').
  assert (P3 := PW 1%nat). assert (P2 := PW 2%nat). assert (P1 := PW 3%nat).
  destruct (Z.eqb 3 (nref z r)); [|destruct (Z.eqb 1 (nref z r)); [|exact P4]].
  - change (0 < Q2R 0 + fst (pw4 (N := NA) (tmp4 (N := NA) z cnA r) wfA 1) + fst (pw4 (N := NA) (tmp4 (N := NA) z cnA r) wfA 2)
              + fst (pw4 (N := NA) (tmp4 (N := NA) z cnA r) wfA 3)). rewrite q0. lra.
  - change (0 < Q2R 0 + fst (pw4 (N := NA) (tmp4 (N := NA) z cnA r) wfA 1)). rewrite q0. lra.
Qed.
Lemma z_expw4 r : present z r = false -> fst (expw4_g (N := NA) where3 z cnA wfA r) = 0.
Proof. intros P. unfold expw4_g, where3. rewrite P. apply q0. Qed.

Lemma l_tmp4s r : live (tmp4s_g (N := NG) gsel z cn wf r) (tmp4s_g (N := NA) where3 z cnA wfA r).
Proof.
  unfold tmp4s_g. apply live_sel; [|apply live_lit]. apply live_exp, live_mul; [apply live_mul; [apply live_opp|]; apply l_dcn|exact Lw].
Qed.
Lemma l_pow4s r k : live (pow4s (N := NG) (tmp4s_g (N := NG) gsel z cn wf r) k) (pow4s (N := NA) (tmp4s_g (N := NA) where3 z cnA wfA r) k).
Proof.
  unfold pow4s. apply (l_fold (fun i => fpown (s := KG) (tmp4s_g (N := NG) gsel z cn wf r) i) (fun i => fpown (s := KA) (tmp4s_g (N := NA) where3 z cnA wfA r) i)); [|apply live_lit].
  intros i. apply live_pown, l_tmp4s.
Qed.
Lemma l_expw4s r : live (expw4s_g (N := NG) gsel z cn wf r) (expw4s_g (N := NA) where3 z cnA wfA r).
Proof.
  unfold expw4s_g, pow3s_g, pow1s_g. apply live_sel; [|apply live_lit]. apply live_sel; [apply l_pow4s|].
  apply live_sel; [apply l_pow4s|apply l_tmp4s].
Qed.
Lemma p_expw4s r : present z r = true -> 0 < fst (expw4s_g (N := NA) where3 z cnA wfA r).
Proof.
  intros P.
  assert (P4 : 0 < fst (tmp4s_g (N := NA) where3 z cnA wfA r)) by (unfold tmp4s_g, where3; rewrite P; apply exp_pos).
  unfold expw4s_g, pow3s_g, pow1s_g. unfold where3 at 1. rewrite P. unfold where3 at 1 3.
  set (x := tmp4s_g (N := NA) where3 z cnA wfA r) in *. clearbody x.
  pose proof (pow_lt _ 1 P4) as W1. pose proof (pow_lt _ 2 P4) as W2. pose proof (pow_lt _ 3 P4) as W3.
  destruct (Z.eqb 3 (nref z r)); [|destruct (Z.eqb 1 (nref z r)); [|exact P4]].
  - change (0 < Q2R 0 + fst x ^ 1 + fst x ^ 2 + fst x ^ 3). rewrite q0. lra.
  - change (0 < Q2R 0 + fst x ^ 1). rewrite q0. lra.
Qed.
Lemma z_expw4s r : present z r = false -> fst (expw4s_g (N := NA) where3 z cnA wfA r) = 0.
Proof. intros P. unfold expw4s_g, where3. rewrite P. apply q0. Qed.
End W.

Lemma fsum_pos n (u : nat -> A) k : (k < n)%nat -> (forall i, (i < n)%nat -> 0 <= fst (u i)) -> 0 < fst (u k) -> 0 < fst (fsum (K := KA) n u).
Proof.
  assert (NN : forall n, (forall i, (i < n)%nat -> 0 <= fst (u i)) -> 0 <= fst (fsum (K := KA) n u)).
  { induction n0 as [|m IH]; intros H.
    - change (0 <= Q2R 0). rewrite q0. lra.
    - change (0 <= fst (fsum (K := KA) m u) + fst (u m)). specialize (IH ltac:(intros; apply H; lia)). specialize (H m ltac:(lia)). lra. }
  induction n as [|n IH]; intros Hk H P; [lia|].
  change (0 < fst (fsum (K := KA) n u) + fst (u n)).
  destruct (Nat.eq_dec k n) as [->|Ne].
  - specialize (NN n ltac:(intros; apply H; lia)). lra.
  - specialize (IH ltac:(lia) ltac:(intros; apply H; lia) P). specialize (H n ltac:(lia)). lra.
Qed.

Section N.
Context (z : Z) (e : nat -> G) (eA : nat -> A) (Le : forall r, (r < 7)%nat -> live (e r) (eA r)).
Context (Pe : forall r, present z r = true -> 0 < fst (eA r)) (Ze : forall r, present z r = false -> fst (eA r) = 0).
Lemma l_norm r : (r < 7)%nat -> live (normv_g (N := NG) gsel z e r) (normv_g (N := NA) where3 z eA r).
Proof. intros Hr. unfold normv_g. apply live_sel; [now apply live_sum|apply live_lit]. Qed.
Lemma p_norm r : (r < 7)%nat -> 0 < fst (normv_g (N := NA) where3 z eA r).
Proof.
  intros Hr. unfold normv_g, where3. destruct (present z r) eqn:P.
  - apply (fsum_pos 7 eA r Hr); auto. intros i Hi. destruct (present z i) eqn:Pi; [apply Rlt_le; auto|rewrite Ze by auto; lra].
  - change (0 < Q2R (1 # 10 ^ 300)). unfold Q2R. cbn [Qnum Qden].
    apply Rmult_lt_0_compat; [lra|]. apply Rinv_0_lt_compat, IZR_lt. apply Pos2Z.is_pos.
Qed.
Lemma l_gwt r : (r < 7)%nat -> live (gwt_g (N := NG) gsel z e r) (gwt_g (N := NA) where3 z eA r).
Proof.
  intros Hr. unfold gwt_g. change (@down NG) with (fun x : G => x). change (@down NA) with (fun x : A => x). cbv beta.
  apply live_div; [now apply Le|now apply l_norm|]. apply Rgt_not_eq. now apply p_norm.
Qed.
Lemma l_gwv r : (r < 7)%nat -> live (gwv_g (N := NG) gsel gsel z e r) (gwv_g (N := NA) where3 where3 z eA r).
Proof.
  intros Hr. unfold gwv_g.
  assert (EX : exceptional (K := sc NG) (fmaxfin (s := sc NG)) (gwt_g (N := NG) gsel z e r)
             = exceptional (K := sc NA) (fmaxfin (s := sc NA)) (gwt_g (N := NA) where3 z eA r)).
  { unfold exceptional. f_equal; [now apply live_nan, l_gwt|]. apply live_lt; [apply live_maxfin|now apply l_gwt]. }
  rewrite EX. apply live_sel; [|now apply l_gwt].
  assert (FM : forall n, live (fmaxn (K := KG) n (cnref (N := NG) z)) (fmaxn (K := KA) n (cnref (N := NA) z))).
  { induction n as [|[|n] IH]; [apply l_tab2|apply l_tab2|]. cbn [fmaxn]. apply live_max2; [exact IH|apply l_tab2]. }
  replace (feq (s := db NG) (cnref (N := NG) z r) (maxcn (N := NG) z)) with (feq (s := KA) (cnref (N := NA) z r) (maxcn (N := NA) z))
    by (symmetry; apply live_eq; [apply l_tab2|apply FM]).
  apply live_sel; apply live_lit.
Qed.
End N.

Section M.
Context (ga gc : G) (gaA gcA : A) (Hga : lv ga gaA) (Hgc : lv gc gcA) (ref : string).
Lemma l_ztv z q qA r : lv q qA -> fst qA + fst (t1 (x_zeff XA) z) <> eps ->
  live (ztv_g (N := NG) XG gsel ga gc ref z q r) (ztv_g (N := NA) XA where3 gaA gcA ref z qA r).
Proof.
  intros Lq P. unfold ztv_g. apply live_sel; [|apply live_lit].
  apply l_zeta; [exact Hga|apply live_mul; [apply l_gam|exact Hgc]| | |exact P].
  - apply live_add; [apply l_tabq|apply l_zeff].
  - apply live_add; [exact Lq|apply l_zeff].
Qed.
Lemma l_w4 wf wfA z cn cnA q qA r : (r < 7)%nat -> lv wf wfA -> lv cn cnA -> lv q qA -> fst qA + fst (t1 (x_zeff XA) z) <> eps ->
  live (w4_g (N := NG) XG gsel gsel ga gc ref wf z cn q r) (w4_g (N := NA) XA where3 where3 gaA gcA ref wfA z cnA qA r).
Proof.
  intros Hr Lw Lc Lq P. unfold w4_g. apply live_mul; [now apply l_ztv|]. apply l_gwv; auto.
  - intros. now apply l_expw4.
  - intros. now apply p_expw4.
  - intros. now apply z_expw4.
Qed.
Lemma l_w4s wf wfA z cn cnA q qA r : (r < 7)%nat -> lv wf wfA -> lv cn cnA -> lv q qA -> fst qA + fst (t1 (x_zeff XA) z) <> eps ->
  live (w4s_g (N := NG) XG gsel gsel ga gc ref wf z cn q r) (w4s_g (N := NA) XA where3 where3 gaA gcA ref wfA z cnA qA r).
Proof.
  intros Hr Lw Lc Lq P. unfold w4s_g. apply live_mul; [now apply l_ztv|]. apply l_gwv; auto.
  - intros. now apply l_expw4s.
  - intros. now apply p_expw4s.
  - intros. now apply z_expw4s.
Qed.
End M.

(** ** Coefficients of one molecule *)
Section Mdl2.
Context (kind : mkind) (kw : mkwargs NG) (kwA : mkwargs NA) (numbers : tensor Z) (n : nat) (B : list nat).
Context (m : Model NG) (mA : Model NA) (HM : is_model_g (N := NG) XG gsel m kind kw numbers n B)
  (HMA : is_model_g (N := NA) XA where3 mA kind kwA numbers n B).
Context (Hkw : kw_live kw kwA) (b : list nat) (Hb : valid B b).
Context (cn : tensor G) (cnA : tensor A) (qo : option (tensor G)) (qoA : option (tensor A)).
Context (Hcn : forall i, (i < n)%nat -> live (sl1 cn b i) (sl1 cnA b i)).
Context (Hq : forall i, (i < n)%nat -> live (cnq (N := NG) qo (i :: b)) (cnq (N := NA) qoA (i :: b))).
Context (Hpole : forall i, (i < n)%nat -> fst (cnq (N := NA) qoA (i :: b)) + fst (t1 (x_zeff XA) (sl1 numbers b i)) <> eps).
Context (Href : forall i r, (i < n)%nat -> (r < 7)%nat -> no_pole_ref (m_ref m) (sl1 numbers b i) r).

Lemma l_default o oA q : opt_live o oA -> live (default o (flit (s := KG) q)) (default oA (flit (s := KA) q)).
Proof. unfold opt_live. destruct o, oA; cbn [default]; try contradiction; auto. intros _. apply live_lit. Qed.
Lemma l_mga : live (m_ga m) (m_ga mA).
Proof. destruct HM as (_ & _ & _ & -> & _), HMA as (_ & _ & _ & -> & _). apply l_default. apply Hkw. Qed.
Lemma l_mgc : live (m_gc m) (m_gc mA).
Proof. destruct HM as (_ & _ & _ & _ & -> & _), HMA as (_ & _ & _ & _ & -> & _). apply l_default. apply Hkw. Qed.
Lemma ref_same : m_ref mA = m_ref m.
Proof. destruct HM as (_ & _ & _ & _ & _ & -> & _), HMA as (_ & _ & _ & _ & _ & -> & _). now rewrite (proj1 Hkw). Qed.
Lemma l_wf i j : (i < n)%nat -> (j < n)%nat -> live (wf_of m b i j) (wf_of mA b i j).
Proof.
  intros Hi Hj. destruct HM as (_ & _ & _ & _ & _ & _ & W), HMA as (_ & _ & _ & _ & _ & _ & WA).
  rewrite W, WA by auto. unfold wfv. destruct Hkw as (_ & _ & _ & Kw). unfold opt_live_at in Kw.
  destruct (k_wf kw) as [w|], (k_wf kwA) as [wA|]; try contradiction.
  - destruct kind; apply Kw; exact Logic.I.
  - destruct kind; try apply live_lit.
Qed.
Lemma d4s_same : is_d4s mA = is_d4s m.
Proof. unfold is_d4s. now rewrite (proj1 (proj2 HM)), (proj1 (proj2 HMA)). Qed.
Lemma l_nums : m_numbers m = numbers /\ m_numbers mA = numbers.
Proof. split; [apply HM|apply HMA]. Qed.
Lemma l_wt i j r : (i < n)%nat -> (j < n)%nat -> (r < 7)%nat ->
  live (wt_of_g (N := NG) XG gsel gsel m (Some cn) qo b i j r) (wt_of_g (N := NA) XA where3 where3 mA (Some cnA) qoA b i j r).
Proof.
  intros Hi Hj Hr. unfold wt_of_g. destruct l_nums as (-> & ->). rewrite ref_same, d4s_same. cbn [cnq].
  destruct (is_d4s m); [apply l_w4s|apply l_w4]; auto using l_mga, l_mgc, l_wf; now apply Hcn.
Qed.
Lemma l_c6m i j : (i < n)%nat -> (j < n)%nat ->
  live (c6m_g (N := NG) XG gsel gsel m (Some cn) qo b i j) (c6m_g (N := NA) XA where3 where3 mA (Some cnA) qoA b i j).
Proof.
  intros Hi Hj. unfold c6m_g, c6_of_g. destruct l_nums as (-> & ->). rewrite ref_same.
  apply live_sum. intros y Hy. apply live_mul; [|now apply l_wt].
  apply live_sum. intros x Hx. apply live_mul; [|now apply l_wt].
  apply l_rc6v; auto using l_mga, l_mgc.
Qed.
Lemma l_wpm w i : (i < n)%nat ->
  live (wpm_g (N := NG) XG gsel gsel m (Some cn) qo n b w i) (wpm_g (N := NA) XA where3 where3 mA (Some cnA) qoA n b w i).
Proof.
  intros Hi. unfold wpm_g, wpol_g. destruct l_nums as (-> & ->). rewrite ref_same.
  apply live_sum. intros x Hx. apply live_mul; [now apply l_wt|]. apply l_aref; auto using l_mga, l_mgc.
Qed.
Lemma l_c9 cls i j k : (i < n)%nat -> (j < n)%nat -> (k < n)%nat ->
  live (c9_of_g (N := NG) XG gsel gsel cls m (Some cn) qo n b i j k) (c9_of_g (N := NA) XA where3 where3 cls mA (Some cnA) qoA n b i j k).
Proof.
  intros Hi Hj Hk. unfold c9_of_g.
  assert (C : live (c9a (K := KG) XG (c6m_g (N := NG) XG gsel gsel m (Some cn) qo b) i j k)
                   (c9a (K := KA) XA (c6m_g (N := NA) XA where3 where3 mA (Some cnA) qoA b) i j k)).
  { unfold c9a. apply (el_sqrt _ _ HE), live_abs, live_mul; [apply live_mul|]; now apply l_c6m. }
  destruct cls; try exact C.
  unfold c9x_g. apply live_mul; [apply l_thopi|]. apply live_sum. intros w _.
  apply live_mul; [|apply live_lit]. apply live_mul; [apply live_mul|]; now apply l_wpm.
Qed.
End Mdl2.
End G.
