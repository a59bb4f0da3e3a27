(** * C65: masks and padding do not poison gradients *)
From Coq Require Import Reals Lra Lia List Arith ZArith QArith Qreals Bool String.
From Verif Require Import Py Tensor Scalar RInst AdInst GradInst ModelExt ModelUtils ModelDamping ModelModels
  ModelTerms ModelDisp ModelGrad DataRef DataAlpha DataPair SpecCall Spec SpecR SpecMol SpecW SpecD4 TensorLemmas Closed ClosedM
  ClosedTerms ClosedModels ClosedDamp ClosedDisp CallLemmas Usable PropsOutcome SpecGrad ClosedGrad GradR GradT GradW
  SpecAD AdR AdW AdT PropsAD.
Import ListNotations.
Open Scope R_scope.

(** ** With plain selection, the program with [torch.where] as an operation is the program *)
Theorem C65_same_program {N : Num} (X : Ext (sc N)) W p a : run_g X where3 where3 W p a = run X W p a.
Proof. reflexivity. Qed.

Section T.
Context {I : Type} {eps mx : R}.
Notation KG := (GS I eps mx).
Notation KA := (AS (Bwd I) eps mx).
Notation NG := (GN I eps mx).
Notation NA := (AN (Bwd I) eps mx).
Notation G := (gnum I).
Notation A := (adn (Bwd I)).

Lemma same_terms_g (XG : Ext KG) (XA : Ext KA) ts tsA : Forall2 (term_same XG XA) ts tsA ->
  exists cl, same_terms (NR := NG) (NA := NA) XG XA ts tsA cl.
Proof.
  induction 1 as [|t tA ts tsA (H1 & H2 & H3) HR (cl & IH)]; [exists []; exact Logic.I|].
  destruct (t_class t) eqn:E.
  - destruct H3 as (c & H3). exists (c :: cl). cbn [same_terms]. rewrite E. auto.
  - exists (Rational :: cl). cbn [same_terms]. rewrite E. auto.
  - exists (Rational :: cl). cbn [same_terms]. rewrite E. auto.
  - exists (Rational :: cl). cbn [same_terms]. rewrite E. auto.
Qed.

Lemma l_r4tab z : live (dat (@R4R2 KG) [z]) (dat (@R4R2 KA) [z]).
Proof.
  change (live (r4r2_val (K := KG) z) (r4r2_val (K := KA) z)). unfold r4r2_val.
  assert (N0 : 0 <= Q2R (inject_Z (Z.of_nat z))).
  { unfold Q2R, inject_Z. cbn [Qnum Qden]. apply Rmult_le_pos; [apply IZR_le; lia|]. apply Rlt_le, Rinv_0_lt_compat. lra. }
  apply live_sqrt.
  - apply live_mul; [apply live_lit|]. apply live_mul; [apply live_lit|]. apply live_sqrt; [apply live_lit|].
    right. split; [exact N0|apply dead_lit].
  - right. split.
    + change (0 <= Q2R (1 # 2) * (IZR (nth z r4_over_r2_tab 0%Z) / IZR (Zpos r4_over_r2_tab_dec) * sqrt (Q2R (inject_Z (Z.of_nat z))))).
      apply Rmult_le_pos; [unfold Q2R; cbn; lra|]. apply Rmult_le_pos; [|apply sqrt_pos].
      apply Rmult_le_pos; [|apply Rlt_le, Rinv_0_lt_compat, IZR_lt; apply Pos2Z.is_pos].
      apply IZR_le. assert (T : forallb (Z.leb 0) r4_over_r2_tab = true) by (vm_compute; reflexivity).
      rewrite forallb_forall in T. destruct (Nat.lt_ge_cases z (List.length r4_over_r2_tab)) as [L|L].
      * apply Z.leb_le, T. now apply nth_In.
      * rewrite nth_overflow by exact L. lia.
    + apply dead_mul; [apply dead_lit|]. apply dead_mul; [apply dead_lit|]. apply dead_sqrt, dead_lit.
Qed.

Section Call.
Context (XG : Ext KG) (XA : Ext KA) (HE : ext_live XG XA) (Heps : 0 < eps).
Context (kind : mkind) (kw : mkwargs NG) (kwA : mkwargs NA) (n c : nat) (B : list nat).
Context (a : Args NG) (aA : Args NA) (EN : a_numbers a = a_numbers aA).
Context (m : Model NG) (mA : Model NA) (HM : is_model_g (N := NG) XG gsel m kind kw (a_numbers aA) n B)
  (HMA : is_model_g (N := NA) XA where3 mA kind kwA (a_numbers aA) n B).
Context (Hkw : kw_live kw kwA) (b : list nat) (Hb : valid B b).
Context (cn : tensor G) (cnA : tensor A) (qo : option (tensor G)) (qoA : option (tensor A)).
Context (LM : live_mol a aA n c cn cnA qo qoA b).
Context (ts : list (DispTerm NG)) (GSf : grad_safe XG XA a aA b ts (m_ref m) n c qoA).
Context (r4 rv : tensor G) (r4A rvA : tensor A).
Context (V4 : forall i, (i < n)%nat -> sl1 r4 b i = r4v (N := NG) a b i) (V4A : forall i, (i < n)%nat -> sl1 r4A b i = r4v (N := NA) aA b i).
Context (Vv : forall i j, (i < n)%nat -> (j < n)%nat -> sl2 rv b i j = rvv (N := NG) XG a b i j)
  (VvA : forall i j, (i < n)%nat -> (j < n)%nat -> sl2 rvA b i j = rvv (N := NA) XA aA b i j).
Notation num := (sl1 (a_numbers aA) b).

Lemma l_r4 i : (i < n)%nat -> live (sl1 r4 b i) (sl1 r4A b i).
Proof.
  intros Hi. rewrite V4, V4A by auto. pose proof (cl_r4r2 _ _ _ _ _ (lm_call _ _ _ _ _ _ _ _ _ LM)) as H.
  unfold r4v. unfold opt_live_at in H. destruct (a_r4r2 a) as [u|], (a_r4r2 aA) as [uA|]; try contradiction.
  - apply H. eauto.
  - rewrite EN. apply l_r4tab.
Qed.
Lemma l_rv i j : (i < n)%nat -> (j < n)%nat -> live (sl2 rv b i j) (sl2 rvA b i j).
Proof.
  intros Hi Hj. rewrite Vv, VvA by auto. pose proof (cl_rvdw _ _ _ _ _ (lm_call _ _ _ _ _ _ _ _ _ LM)) as H.
  unfold rvv. unfold opt_live_at in H. destruct (a_rvdw a) as [u|], (a_rvdw aA) as [uA|]; try contradiction.
  - apply H. eauto.
  - rewrite EN. apply HE.
Qed.
Lemma qq_is i j : (i < n)%nat -> (j < n)%nat -> qq (K := KG) (sl1 r4 b) i j = qq_at (N := NG) a b i j.
Proof. intros Hi Hj. unfold qq. rewrite !V4 by auto. reflexivity. Qed.
Lemma qq_isA i j : (i < n)%nat -> (j < n)%nat -> qq (K := KA) (sl1 r4A b) i j = qq_at (N := NA) aA b i j.
Proof. intros Hi Hj. unfold qq. rewrite !V4A by auto. reflexivity. Qed.
Lemma l_qq i j : (i < n)%nat -> (j < n)%nat -> live (qq (K := KG) (sl1 r4 b) i j) (qq (K := KA) (sl1 r4A b) i j).
Proof. intros Hi Hj. unfold qq. apply live_mul; [apply live_mul; [apply live_lit|]|]; now apply l_r4. Qed.
Lemma rad_is cls i j : (i < n)%nat -> (j < n)%nat -> rad_of (damping_of XG cls) (sl1 r4 b) (sl2 rv b) i j
  = match cls with Rational | OptimisedPower => qq_at (N := NG) a b i j | _ => vdw_at (N := NG) XG a b i j end.
Proof. intros Hi Hj. destruct cls; unfold rad_of; cbn; try (now apply qq_is); now apply Vv. Qed.
Lemma rad_isA cls i j : (i < n)%nat -> (j < n)%nat -> rad_of (damping_of XA cls) (sl1 r4A b) (sl2 rvA b) i j
  = match cls with Rational | OptimisedPower => qq_at (N := NA) aA b i j | _ => vdw_at (N := NA) XA aA b i j end.
Proof. intros Hi Hj. destruct cls; unfold rad_of; cbn; try (now apply qq_isA); now apply VvA. Qed.
Lemma l_rad cls i j : (i < n)%nat -> (j < n)%nat ->
  live (rad_of (damping_of XG cls) (sl1 r4 b) (sl2 rv b) i j) (rad_of (damping_of XA cls) (sl1 r4A b) (sl2 rvA b) i j).
Proof. intros Hi Hj. destruct cls; unfold rad_of; cbn; try (now apply l_qq); now apply l_rv. Qed.
Lemma l_rad3 cls i j : (i < n)%nat -> (j < n)%nat ->
  live (rad3_of (N := NG) XG cls (a_param a) (sl1 r4 b) (sl2 rv b) i j) (rad3_of (N := NA) XA cls (a_param aA) (sl1 r4A b) (sl2 rvA b) i j).
Proof.
  intros Hi Hj. pose proof (cl_param _ _ _ _ _ (lm_call _ _ _ _ _ _ _ _ _ LM)) as HP.
  unfold rad3_of, radbj. destruct cls;
    try (apply live_add; [apply live_mul; [now apply l_getd|]|now apply l_getd]; apply (el_sqrt _ _ HE); now apply l_qq).
  apply live_mul; [now apply l_getd|now apply l_rv].
Qed.
Lemma rad3_is cls i j : (i < n)%nat -> (j < n)%nat -> rad3_of (N := NG) XG cls (a_param a) (sl1 r4 b) (sl2 rv b) i j = radius3 (N := NG) XG a b cls i j.
Proof.
  intros Hi Hj. unfold rad3_of, radius3, radbj. rewrite qq_is, Vv by auto. destruct cls; reflexivity.
Qed.
Lemma rad3_isA cls i j : (i < n)%nat -> (j < n)%nat -> rad3_of (N := NA) XA cls (a_param aA) (sl1 r4A b) (sl2 rvA b) i j = radius3 (N := NA) XA aA b cls i j.
Proof.
  intros Hi Hj. unfold rad3_of, radius3, radbj. rewrite qq_isA, VvA by auto. destruct cls; reflexivity.
Qed.
Lemma pm_real i j : pmask num i j = real2 aA b i j.
Proof. reflexivity. Qed.
Lemma tm_real i j k : tmask num i j k = real3 aA b i j k.
Proof.
  unfold tmask, real3, real2, is_real. destruct (num i =? 0)%Z, (num j =? 0)%Z, (num k =? 0)%Z, (i =? j)%nat, (i =? k)%nat, (j =? k)%nat; reflexivity.
Qed.
Lemma l_pos i k : (i < n)%nat -> (k < c)%nat -> live (sl2 (a_positions a) b i k) (sl2 (a_positions aA) b i k).
Proof. intros. now apply LM. Qed.
Lemma l_apart i j : (i < n)%nat -> (j < n)%nat -> pmask num i j = true ->
  0 < fst (x_dist XA c (sl2 (a_positions aA) b i) (sl2 (a_positions aA) b j)).
Proof. intros Hi Hj E. rewrite pm_real in E. now apply (gs_apart _ _ _ _ _ _ _ _ _ _ GSf). Qed.

Lemma l_q (t : DispTerm NG) i : (i < n)%nat ->
  live (cnq (N := NG) (if t_cdep t then qo else None) (i :: b)) (cnq (N := NA) (if t_cdep t then qoA else None) (i :: b)).
Proof.
  intros Hi. destruct (t_cdep t); cbn [cnq]; [|apply live_lit].
  pose proof (lm_q _ _ _ _ _ _ _ _ _ LM) as H. unfold opt_live_at in H.
  destruct qo, qoA; try contradiction; cbn [cnq]; [apply H; eauto|apply live_lit].
Qed.
Lemma q_pole (t : DispTerm NG) i : In t ts -> (i < n)%nat ->
  fst (cnq (N := NA) (if t_cdep t then qoA else None) (i :: b)) + fst (t1 (x_zeff XA) (num i)) <> eps.
Proof.
  intros Ht Hi. pose proof (gs_charges _ _ _ _ _ _ _ _ _ _ GSf i t Hi Ht) as H. unfold zeff_of in H.
  destruct (t_cdep t); cbn [cnq].
  - destruct qoA as [u|]; cbn [cnq]; [exact H|]. change (Q2R 0 + fst (t1 (x_zeff XA) (num i)) <> eps). rewrite q0. exact H.
  - change (Q2R 0 + fst (t1 (x_zeff XA) (num i)) <> eps). rewrite q0. destruct qoA; exact H.
Qed.
Lemma ref_pole i r : (i < n)%nat -> (r < 7)%nat -> no_pole_ref XA (m_ref m) (num i) r.
Proof.
  intros Hi Hr. pose proof (gs_refs _ _ _ _ _ _ _ _ _ _ GSf i r Hi Hr) as H. unfold no_pole_ref. unfold zeff_of, h_ref in H.
  unfold tab_h. destruct (m_ref m =? "eeq")%string; exact H.
Qed.
Lemma l_c6t t i j : In t ts -> (i < n)%nat -> (j < n)%nat ->
  live (c6m_g (N := NG) XG gsel gsel m (Some cn) (if t_cdep t then qo else None) b i j)
       (c6m_g (N := NA) XA where3 where3 mA (Some cnA) (if t_cdep t then qoA else None) b i j).
Proof.
  intros Ht Hi Hj. apply (l_c6m XG XA HE kind kw kwA (a_numbers aA) n B m mA HM HMA Hkw b Hb); auto.
  - apply LM.
  - apply l_q.
  - intros. now apply q_pole.
  - apply ref_pole.
Qed.

Lemma l_g cls o al alA rs i j : (i < n)%nat -> (j < n)%nat -> (exists k, o = 2 * k)%nat -> (rs = "rs6" \/ rs = "rs8")%string -> live al alA ->
  (dead (par (N := NG) a "alp" dALP) -> dead al) -> pair_safe XG XA a aA b cls i j ->
  g_live XG XA c num (sl2 (a_positions a) b) (sl2 (a_positions aA) b) (ship_g (K := KG) XG cls (a_param a) o al rs) (ship_g (K := KA) XA cls (a_param aA) o alA rs)
    (rad_of (damping_of XG cls) (sl1 r4 b) (sl2 rv b)) (rad_of (damping_of XA cls) (sl1 r4A b) (sl2 rvA b)) i j.
Proof.
  intros Hi Hj Ho Hrs La Da S. pose proof (cl_param _ _ _ _ _ (lm_call _ _ _ _ _ _ _ _ _ LM)) as HP.
  unfold g_live, ship_g. rewrite (GradT.active_same _ _ HP o).
  set (ac := active (K := KA) (a_param aA) o) in *. clearbody ac. destruct ac; [|left; apply live_lit].
  pose proof (l_pdist XG XA HE n c num _ _ l_pos i j Hi Hj) as LD.
  pose proof (p_pdist XA Heps n c num (sl2 (a_positions aA) b) l_apart i j Hi Hj) as PD.
  pose proof (l_rad cls i j Hi Hj) as LR. unfold pair_safe in S.
  assert (PP : 0 < fst (par (N := NA) aA "rs6" 1%Q) -> 0 < fst (par (N := NA) aA "rs8" 1%Q) -> 0 < fst (getd (K := KA) (a_param aA) rs 1)).
  { intros S6 S8. destruct Hrs as [->| ->]; [exact S6|exact S8]. }
  destruct cls.
  - left. apply l_rat; auto using (l_getd _ _ HP). rewrite rad_is, rad_isA by auto. exact S.
  - left. destruct S as (S6 & S8 & Sv). apply l_zero; auto using (l_getd _ _ HP). rewrite rad_isA by auto. exact Sv.
  - destruct S as [(S6 & S8 & Sv & Sb)|(E & Dv & D6 & D8 & Dal & Db)].
    + left. apply l_mzero; auto using (l_getd _ _ HP). rewrite rad_isA by auto. exact Sv.
    + right. split; [exact E|]. apply (dead_mzero XG XA HE); auto.
      * apply (d_pdist XG XA HE n c num (sl2 (a_positions a) b) (sl2 (a_positions aA) b) l_pos); auto.
      * rewrite rad_is by auto. exact Dv.
      * destruct Hrs as [->| ->]; [exact D6|exact D8].
  - left. destruct S as (S1 & S2). apply l_op; auto using (l_getd _ _ HP).
    + rewrite rad_is, rad_isA by auto. exact S1.
    + rewrite rad_isA by auto. exact S2.
Qed.

Lemma l_term2 (t : DispTerm NG) (tA : DispTerm NA) cls i : (i < n)%nat -> In t ts -> t_class t = TwoBodyTerm -> t_class tA = TwoBodyTerm -> t_cdep tA = t_cdep t ->
  t_damping t = damping_of XG cls -> t_damping tA = damping_of XA cls ->
  live (term_val_g (N := NG) XG gsel gsel t (ship XG cls (a_param a)) (a_param a) m n c num (sl2 (a_positions a) b) cn qo (sl1 r4 b) (sl2 rv b)
         (dat (c_disp2 (a_cut a)) []) (dat (c_disp3 (a_cut a)) []) b i)
       (term_val_g (N := NA) XA where3 where3 tA (ship XA cls (a_param aA)) (a_param aA) mA n c num (sl2 (a_positions aA) b) cnA qoA (sl1 r4A b) (sl2 rvA b)
         (dat (c_disp2 (a_cut aA)) []) (dat (c_disp3 (a_cut aA)) []) b i).
Proof.
  intros Hi Ht Ec EcA Ed Hd HdA. unfold term_val_g. rewrite Ec, EcA, Ed, Hd, HdA.
  pose proof (cl_param _ _ _ _ _ (lm_call _ _ _ _ _ _ _ _ _ LM)) as HP.
  assert (S : forall i j, (i < n)%nat -> (j < n)%nat -> pair_safe XG XA a aA b cls i j).
  { intros. now apply (gs_two _ _ _ _ _ _ _ _ _ _ GSf t). }
  apply (l_e2 XG XA HE n c num _ _ l_pos).
  - exact Hi.
  - intros. now apply l_c6t.
  - apply l_r4.
  - apply LM.
  - intros. apply l_g; auto. { exists 3%nat. lia. } now apply l_getd.
  - intros. apply l_g; auto. { exists 4%nat. lia. } { apply live_add; [now apply l_getd|apply live_lit]. }
    intros D. apply dead_add; [exact D|apply dead_lit].
  - now apply l_getd.
  - now apply l_getd.
  - unfold s10_of. pose proof (HP "s10"%string) as H10. unfold opt_live in H10.
    destruct (getp (a_param a) "s10") as [x|], (getp (a_param aA) "s10") as [xA|]; try contradiction; auto.
    split; [exact H10|]. intros. apply l_g; auto. { exists 5%nat. lia. } now apply l_getd.
Qed.
Lemma l_term3 (t : DispTerm NG) (tA : DispTerm NA) cls i : (i < n)%nat -> In t ts -> t_class t <> TwoBodyTerm -> t_class tA = t_class t -> t_cdep tA = t_cdep t ->
  live (term_val_g (N := NG) XG gsel gsel t (ship XG cls (a_param a)) (a_param a) m n c num (sl2 (a_positions a) b) cn qo (sl1 r4 b) (sl2 rv b)
         (dat (c_disp2 (a_cut a)) []) (dat (c_disp3 (a_cut a)) []) b i)
       (term_val_g (N := NA) XA where3 where3 tA (ship XA cls (a_param aA)) (a_param aA) mA n c num (sl2 (a_positions aA) b) cnA qoA (sl1 r4A b) (sl2 rvA b)
         (dat (c_disp2 (a_cut aA)) []) (dat (c_disp3 (a_cut aA)) []) b i).
Proof.
  intros Hi Ht Ec EcA Ed. unfold term_val_g. rewrite EcA, Ed.
  pose proof (cl_param _ _ _ _ _ (lm_call _ _ _ _ _ _ _ _ _ LM)) as HP.
  assert (E3 : live (e3_atom_g (N := NG) XG gsel n c num (sl2 (a_positions a) b) (c9_of_g (N := NG) XG gsel gsel (t_class t) m (Some cn) (if t_cdep t then qo else None) n b)
      (rad3_of (N := NG) XG (t_class t) (a_param a) (sl1 r4 b) (sl2 rv b)) (dat (c_disp3 (a_cut a)) []) (f9 (ship XG cls (a_param a))) (getd (K := KG) (a_param a) "s9" dS9) i)
    (e3_atom_g (N := NA) XA where3 n c num (sl2 (a_positions aA) b) (c9_of_g (N := NA) XA where3 where3 (t_class t) mA (Some cnA) (if t_cdep t then qoA else None) n b)
      (rad3_of (N := NA) XA (t_class t) (a_param aA) (sl1 r4A b) (sl2 rvA b)) (dat (c_disp3 (a_cut aA)) []) (f9 (ship XA cls (a_param aA))) (getd (K := KA) (a_param aA) "s9" dS9) i)).
  { cbn [ship f9]. apply (l_e3 XG XA HE Heps n c num _ _ l_pos l_apart); auto.
    - now apply l_getd.
    - now apply l_getd.
    - apply LM.
    - intros. apply (l_c9 XG XA HE kind kw kwA (a_numbers aA) n B m mA HM HMA Hkw b Hb); auto.
      + apply LM.
      + apply l_q.
      + intros. now apply q_pole.
      + apply ref_pole.
    - intros. now apply l_rad3.
    - intros x y z Hx Hy Hz. pose proof (gs_three _ _ _ _ _ _ _ _ _ _ GSf t x y z Ht Ec Hx Hy Hz) as S.
      unfold triple_safe in S. rewrite tm_real. unfold r0p. rewrite !rad3_is, !rad3_isA by auto. exact S. }
  destruct (t_class t); [congruence|exact E3..].
Qed.
Lemma l_terms tl tlA cl i : (i < n)%nat -> (forall t, In t tl -> In t ts) -> same_terms (NR := NG) (NA := NA) XG XA tl tlA cl -> forall e eA, live e eA ->
  live (fold_left (fun x y => fadd (s := KG) x y) (map (fun tF => term_val_g (N := NG) XG gsel gsel (fst tF) (snd tF) (a_param a) m n c (sl1 (a_numbers a) b) (sl2 (a_positions a) b) cn qo
            (sl1 r4 b) (sl2 rv b) (dat (c_disp2 (a_cut a)) []) (dat (c_disp3 (a_cut a)) []) b i)
          (combine tl (map (fun c => ship XG c (a_param a)) cl))) e)
       (fold_left (fun x y => fadd (s := KA) x y) (map (fun tF => term_val_g (N := NA) XA where3 where3 (fst tF) (snd tF) (a_param aA) mA n c (sl1 (a_numbers aA) b) (sl2 (a_positions aA) b) cnA qoA
            (sl1 r4A b) (sl2 rvA b) (dat (c_disp2 (a_cut aA)) []) (dat (c_disp3 (a_cut aA)) []) b i)
          (combine tlA (map (fun c => ship XA c (a_param aA)) cl))) eA).
Proof.
  intros Hi. rewrite EN. revert tl tlA. induction cl as [|cls cl IH]; intros [|t tl] [|tA tlA] Hin H e eA L; cbn [same_terms] in H; try contradiction; [exact L|].
  destruct H as ((E1 & E2 & H) & HS). cbn [map combine fold_left fst snd]. apply IH; auto.
  { intros t' Ht'. apply Hin. now right. }
  apply live_add; [exact L|]. destruct (t_class t) eqn:Ec.
  - destruct H as (Hd & HdA). apply l_term2; auto. apply Hin. now left.
  - apply l_term3; auto; [apply Hin; now left|congruence..].
  - apply l_term3; auto; [apply Hin; now left|congruence..].
  - apply l_term3; auto; [apply Hin; now left|congruence..].
Qed.
End Call.

(** ** The backward pass gives finite energies and gradients, those of exact arithmetic *)
Theorem C65_gradients (XG : Ext KG) (XA : Ext KA) WG WA p pA a aA kind kw kwA n c B cn cnA q qA :
  same_graph XG XA WG WA p pA a aA kind kw kwA n c B cn cnA q qA ->
  exists EG EA, run_g (N := NG) XG gsel gsel WG p a = Ok EG /\ run (N := NA) XA WA pA aA = Ok EA /\
    shp EG = (n :: B)%list /\ shp EA = (n :: B)%list /\
    forall b i, valid B b -> (i < n)%nat ->
      live_mol a aA n c cn cnA q qA b -> grad_safe XG XA a aA b (p_terms p) (default (k_ref kw) "eeq"%string) n c qA ->
      live (sl1 EG b i) (sl1 EA b i).
Proof.
  intros SG. destruct SG as [sg_eps sg_tables sg_ext sg_inst sg_terms sg_kw sg_numbers sg_wfG sg_wfA sg_cnG sg_cnA sg_qG sg_qA].
  destruct (same_terms_g XG XA _ _ sg_terms) as (cl & HT).
  destruct sg_tables as (TG & TA). destruct sg_inst as (PG & PA).
  pose proof (same_ok_R (NR := NG) (NA := NA) XG XA (a_param a) kind cl _ _ (wf_param _ _ _ _ _ _ _ _ _ sg_wfG) HT (wf_terms _ _ _ _ _ _ _ _ _ sg_wfG)) as OG.
  pose proof (same_ok_A (NR := NG) (NA := NA) XG XA (a_param aA) kind cl _ _ (wf_param _ _ _ _ _ _ _ _ _ sg_wfA) HT (wf_terms _ _ _ _ _ _ _ _ _ sg_wfA)) as OA.
  destruct (run_closed_full_g (N := NG) XG gsel gsel WG p a kind kw n c B _ TG PG sg_wfG OG)
    as (m & cn' & qo & r4 & rv & _ & _ & _ & HM & Ecn & _ & Eq & _ & V4 & Vv & RT).
  destruct (run_closed_full_g (N := NA) XA where3 where3 WA pA aA kind kwA n c B _ TA PA sg_wfA OA)
    as (mA & cnA' & qoA & r4A & rvA & _ & _ & _ & HMA & EcnA & _ & EqA & _ & V4A & VvA & RTA).
  assert (cn' = cn) by congruence. assert (cnA' = cnA) by congruence. subst cn' cnA'.
  apply charges_are_g in Eq, EqA.
  pose proof (charges_unique_g _ _ _ _ _ Eq sg_qG). pose proof (charges_unique_g _ _ _ _ _ EqA sg_qA). subst qo qoA.
  rewrite C65_same_program in RTA.
  destruct RT as (EG & Et & SG & Vt). destruct RTA as (EA & EtA & SA & VtA).
  exists EG, EA. split; [exact Et|]. split; [exact EtA|]. split; [exact SG|]. split; [exact SA|].
  intros b i Hb Hi LM GSf.
  rewrite Vt, VtA by auto. unfold sumK, atom_terms_g. rewrite sg_numbers in HM.
  apply (l_terms XG XA sg_ext sg_eps kind kw kwA n c B a aA sg_numbers m mA HM HMA sg_kw b Hb cn cnA q qA LM (p_terms p)); auto.
  - replace (m_ref m) with (default (k_ref kw) "eeq"%string) by (symmetry; apply HM). exact GSf.
  - apply live_lit.
Qed.

(** what the backward pass of [sum_i g_i * e_i] adds to the gradient of leaf [j] *)
Fixpoint xsum (n : nat) (f : nat -> xnum) : xnum :=
  match n with O => XR 0 | S n => xadd (xsum n f) (f n) end.
Lemma xsum_R n f h : (forall i, (i < n)%nat -> f i = XR (h i)) -> xsum n f = XR (rsum n h).
Proof.
  induction n as [|n IH]; intros H; cbn [xsum rsum]; [reflexivity|].
  rewrite IH by (intros; apply H; lia). rewrite H by lia. reflexivity.
Qed.

(** With real numbers for coordinates and parameters, these gradients are the derivatives of the
    energies. *)
Theorem C65_gradient_is_derivative (X : Ext (RS eps mx)) (XG : Ext KG) (XA : Ext KA) W WG WA p pG pA
    (a : I -> R -> Args (RN eps mx)) aG aA kind kw kwG kwA n c B d0 ds (t0 : I -> R) cn cnG cnA q qG qA E :
  1 <= mx ->
  (forall j, same_calc (M := Bwd I) (grad_of j) X XA W WA p pA (a j) aA kind kw kwA n c B d0 ds (t0 j) (cn j) cnA (q j) qA (E j)) ->
  same_graph XG XA WG WA pG pA aG aA kind kwG kwA n c B cnG cnA qG qA ->
  exists EG, run_g (N := NG) XG gsel gsel WG pG aG = Ok EG /\ shp EG = (n :: B)%list /\
    forall b j, valid B b ->
      live_mol aG aA n c cnG cnA qG qA b -> grad_safe XG XA aG aA b (p_terms pG) (default (k_ref kwG) "eeq"%string) n c qA ->
      smooth_mol (M := Bwd I) (grad_of j) X p (a j) kind kw n c d0 ds (t0 j) (cn j) cnA (q j) qA b ->
      (forall i, (i < n)%nat -> fst (sl1 EG b i) = XR (sl1 (E j (t0 j)) b i)) /\
      forall g : nat -> R, exists l, xsum n (fun i => grad (sl1 EG b i) (XR (g i)) j) = XR l /\
        derivable_pt_lim (fun t => rsum n (fun i => g i * sl1 (E j t) b i)) (t0 j) l.
Proof.
  intros Hm SC SG. destruct (C65_gradients _ _ _ _ _ _ _ _ _ _ _ _ _ _ _ _ _ _ SG) as (EG & EA & RG & RA & ShG & _ & L).
  exists EG. split; [exact RG|]. split; [exact ShG|]. intros b j Hb LM GSf SM.
  destruct (C64_backward_mode X XA W WA p pA a aA kind kw kwA n c B d0 ds t0 cn cnA q qA E j Hm SC) as (eA & Er & _ & V & D).
  assert (eA = EA) by congruence. subst eA. split.
  - intros i Hi. destruct (L b i Hb Hi LM GSf) as (-> & _). f_equal. now apply V.
  - intros g. eexists. split; [|exact (D b j g Hb SM)].
    apply xsum_R. intros i Hi. destruct (L b i Hb Hi LM GSf) as (_ & G & _). apply G.
Qed.
End T.

(** ** Example: water and (padded) carbon monoxide, all coordinates require gradients *)
From Verif Require Import PropsC6 Inst InstW SpecBits InstAny PropsDiff.
Open Scope R_scope.

(** safe external functions: distances, quotients and square roots that avoid their singular points
    with [torch.where] before and after *)
Definition safe_root (K : Scalar) (wk : bool -> K -> K -> K) (x : K) : K :=
  wk (flt (flit 0) x) (fsqrt (wk (flt (flit 0) x) x (flit 1))) (flit 0).
Definition Xsafe (K : Scalar) (wk : bool -> K -> K -> K) : Ext K :=
  mkExt K (fun c x y => safe_root K wk (fsum c (fun k => fpown (fsub (x k) (y k)) 2)))
    (fun x y => fdiv x (wk (feq y (flit 0)) (flit 1) y)) (safe_root K wk)
    (mkT [104%nat] (fun _ => flit 1)) (mkT [104%nat] (fun _ => flit 1)) (mkT [104%nat; 104%nat] (fun _ => flit 1)).
Lemma Xsafe_tables K wk : ext_tables (Xsafe K wk).
Proof. exists 104%nat, 104%nat, 104%nat. repeat split; lia. Qed.

Section Safe.
Context {I : Type} {eps mx : R}.
Notation KG := (GS I eps mx).
Notation KA := (AS (Bwd I) eps mx).

Lemma Xsafe_live : ext_live (Xsafe KG gsel) (Xsafe KA where3).
Proof.
  assert (RT : forall x xA, live x xA -> live (safe_root KG gsel x) (safe_root KA where3 xA)).
  { intros x xA L. pose proof (live_lt (eps := eps) (mx := mx) (flit (s := KG) 0) x (flit (s := KA) 0) xA (live_lit (eps := eps) (mx := mx) 0) L) as E.
    unfold safe_root. rewrite E. apply live_sel; [|apply live_lit]. apply live_sqrt; [apply live_sel; [exact L|apply live_lit]|].
    left. unfold where3. destruct (flt (s := KA) (flit (s := KA) 0) xA) eqn:F.
    - cbn [flt AS flit fst acon] in F. apply rltb_true in F. rewrite Q2R_0 in F. exact F.
    - change (0 < Q2R 1). rewrite Q2R_1. lra. }
  constructor.
  - intros c x y xA yA Hx Hy. apply RT. apply live_sum. intros k Hk. apply live_pown. apply live_sub; auto.
  - intros x y xA yA Lx Ly. cbn [Xsafe x_div]. rewrite (live_eq (eps := eps) (mx := mx) y (flit (s := KG) 0) yA (flit (s := KA) 0) Ly (live_lit (eps := eps) (mx := mx) 0)).
    apply live_div; [exact Lx|apply live_sel; [apply live_lit|exact Ly]|].
    unfold where3. destruct (feq (s := KA) yA (flit (s := KA) 0)) eqn:F.
    + change (Q2R 1 <> 0). rewrite Q2R_1. lra.
    + cbn [feq AS flit fst acon] in F. rewrite Q2R_0 in F. unfold reqb in F. now destruct (Req_EM_T (fst yA) 0).
  - exact RT.
  - intros x y Dx Dy. cbn [Xsafe x_div]. apply dead_div; [exact Dx|]. intros g i. rewrite grad_sel. rewrite Dy.
    rewrite (dead_lit (eps := eps) (mx := mx)). cbn. f_equal. ring.
  - intros xA yA N. cbn [Xsafe x_div]. unfold where3. destruct (feq (s := KA) yA (flit (s := KA) 0)) eqn:F; [|reflexivity].
    cbn [feq AS flit fst acon] in F. rewrite Q2R_0 in F. unfold reqb in F. now destruct (Req_EM_T (fst yA) 0).
  - intros xA yA Px Py. cbn [Xsafe x_div]. unfold where3. destruct (feq (s := KA) yA (flit (s := KA) 0)) eqn:F.
    + change (0 < fst xA / Q2R 1). rewrite Q2R_1. unfold Rdiv. now rewrite Rinv_1, Rmult_1_r.
    + change (0 < fst xA / fst yA). apply Rdiv_lt_0_compat; [exact Px|].
      cbn [feq AS flit fst acon] in F. rewrite Q2R_0 in F. unfold reqb in F. destruct (Req_EM_T (fst yA) 0); [discriminate|].
      destruct Py; [assumption|congruence].
  - intros z. apply live_lit.
  - intros z. apply live_lit.
  - intros y z. apply live_lit.
Qed.
End Safe.

Lemma Xsafe_carries {M} (means : LT M -> R -> Prop) eps mx d0 ds : lin_sound means -> 0 <= d0 -> 0 <= ds ->
  ext_ad means d0 ds (Xex eps mx) (Xsafe (AS M eps mx) where3).
Proof.
  intros HS Hd Hs. pose proof (Xad_carries means eps mx d0 ds HS Hd Hs) as Y.
  constructor.
  - intros t c x y xA yA Hx Hy P.
    pose proof (ea_dist means d0 ds _ _ Y t c x y xA yA Hx Hy P) as T.
    assert (P' : 0 < fst (fsum (K := AS M eps mx) c (fun k => fpown (s := AS M eps mx) (fsub (s := AS M eps mx) (xA k) (yA k)) 2))).
    { assert (T' : tracks means t (fun s => fsum (K := RS eps mx) c (fun k => fpown (s := RS eps mx) (fsub (s := RS eps mx) (x s k) (y s k)) 2))
        (fsum (K := AS M eps mx) c (fun k => fpown (s := AS M eps mx) (fsub (s := AS M eps mx) (xA k) (yA k)) 2))).
      { apply (r_sum means HS t c (fun k s => fpown (s := RS eps mx) (fsub (s := RS eps mx) (x s k) (y s k)) 2)). intros k Hk.
        apply (r_pown means HS). apply (r_sub means HS); auto. }
      destruct T' as (-> & _). cbv beta. eapply Rle_lt_trans; [exact Hd|]. eapply Rlt_le_trans; [exact P|]. right. unfold sqd. symmetry. apply fsum_R. }
    cbn [Xsafe x_dist]. unfold safe_root, where3. cbn [flt AS flit fst acon]. rewrite Q2R_0.
    assert (F : rltb 0 (fst (fsum (K := AS M eps mx) c (fun k => fpown (s := AS M eps mx) (fsub (s := AS M eps mx) (xA k) (yA k)) 2))) = true) by (now apply rltb_true).
    change (tracks means t (fun s : R => x_dist (Xex eps mx) c (x s) (y s)) (let u := fsum (K := AS M eps mx) c (fun k => fpown (s := AS M eps mx) (fsub (s := AS M eps mx) (xA k) (yA k)) 2) in if rltb 0 (fst u) then fsqrt (s := AS M eps mx) (if rltb 0 (fst u) then u else acon (Q2R 1)) else acon 0)). cbv zeta. rewrite F. exact T.
  - intros t f g fA gA Tf Tg N. pose proof (ea_div means d0 ds _ _ Y t f g fA gA Tf Tg N) as T.
    cbn [Xsafe x_div]. unfold where3. cbn [feq AS flit fst acon]. rewrite Q2R_0. destruct Tg as (Vg & _).
    unfold reqb. destruct (Req_EM_T (fst gA) 0); [congruence|exact T].
  - intros t f fA Tf P. pose proof (ea_sqrt means d0 ds _ _ Y t f fA Tf P) as T.
    cbn [Xsafe x_sqrt]. unfold safe_root, where3. cbn [flt AS flit fst acon]. rewrite Q2R_0. destruct Tf as (Vf & _).
    assert (F : rltb 0 (fst fA) = true) by (apply rltb_true; lra). rewrite F. exact T.
  - intros d Pd. cbn [Xsafe x_sqrt]. unfold safe_root, where3. destruct (flt (s := AS M eps mx) (flit (s := AS M eps mx) 0) d).
    + exact (ea_sqrt_proper means d0 ds _ _ Y d Pd).
    + exists 0. apply HS.
  - apply Y.
  - apply Y.
  - apply Y.
Qed.

Section Ex.
Context {eps mx : R} (He : 0 < eps < 1 / 4) (Hm : 1 <= mx).
Notation J := (list nat).
Notation KG := (GS J eps mx).
Notation KA := (AS (Bwd J) eps mx).
Notation NG := (GN J eps mx).
Notation NA := (AN (Bwd J) eps mx).
Notation NR := (RN eps mx).
Notation XGs := (Xsafe KG gsel).
Notation XAs := (Xsafe KA where3).
Notation x0 := (line (eps := eps) (mx := mx) 3 [2%nat] 2).
Notation lvs := (leaves (eps := eps) (mx := mx)).
(** the coordinates, as leaves *)
Definition leaves_g : tensor (gnum J) :=
  mkT (shp x0) (fun ix => (XR (dat x0 ix), Some (fun g j => if list_eq_dec Nat.eq_dec ix j then g else XR 0))).
Lemma leaves_live ix : live (dat leaves_g ix) (dat lvs ix).
Proof.
  unfold leaves_g, leaves. cbn [dat]. split; [reflexivity|]. unfold grad. cbn [snd]. split.
  - intros g i. destruct (list_eq_dec Nat.eq_dec ix i); reflexivity.
  - intros i. destruct (list_eq_dec Nat.eq_dec ix i); reflexivity.
Qed.
Notation WG := (Wany (N := NG) XGs).
Notation WA := (Wany (N := NA) XAs).
Notation PG := (Pany (N := NG) XGs "d4").
Notation PA := (Pany (N := NA) XAs "d4").
Notation aG := (gcall (N := NG) two_mols leaves_g).
Notation aA := (gcall (N := NA) two_mols lvs).
Definition cnG_of : tensor (gnum J) := match cn_any (N := NG) XGs None two_mols leaves_g with Ok u => u | Raise _ => leaves_g end.
Definition qG_of : tensor (gnum J) :=
  match eeq_any (N := NG) XGs two_mols leaves_g (scal (flit (s := KG) 0)) (scal (flit (s := KG) 25)) with Ok u => u | Raise _ => leaves_g end.
Notation cnA := (cnA_of XAs lvs).
Notation qA := (qA_of XAs lvs).
Lemma ex_cnG : cn_any (N := NG) XGs None two_mols leaves_g = Ok cnG_of.
Proof. unfold cnG_of. destruct (cn_any_ok (N := NG) XGs None two_mols leaves_g 3 3 [2%nat] eq_refl eq_refl) as (u & E & _). now rewrite E. Qed.
Lemma ex_qG : eeq_any (N := NG) XGs two_mols leaves_g (scal (flit (s := KG) 0)) (scal (flit (s := KG) 25)) = Ok qG_of.
Proof. unfold qG_of, eeq_any. rewrite ex_cnG. reflexivity. Qed.
Lemma ex_graph : same_graph XGs XAs WG WA PG PA aG aA D4M no_kw no_kw 3 3 [2%nat] cnG_of cnA (Some qG_of) (Some qA).
Proof.
  constructor.
  - lra.
  - split; apply Xsafe_tables.
  - apply Xsafe_live.
  - split; reflexivity.
  - constructor; [|constructor; [|constructor]].
    + split; [reflexivity|]. split; [reflexivity|]. exists Rational. split; reflexivity.
    + split; [reflexivity|]. split; [reflexivity|]. split; reflexivity.
  - split; [reflexivity|]. repeat split.
  - reflexivity.
  - apply gcall_wf; auto using two_mols_range.
  - apply gcall_wf; auto using two_mols_range.
  - apply ex_cnG.
  - now apply ex_cnA.
  - split; [|intros NC; elim NC; eexists; split; [left; reflexivity|reflexivity]].
    intros _. exists qG_of. split; [reflexivity|]. apply ex_qG.
  - split; [|intros NC; elim NC; eexists; split; [left; reflexivity|reflexivity]].
    intros _. exists qA. split; [reflexivity|]. now apply ex_qA.
Qed.
Lemma ex_dist_pos b i j : 0 < 1 + fst (x_dist XAs 3 (sl2 lvs b i) (sl2 lvs b j)).
Proof.
  assert (H : forall x : adn (Bwd J), 0 <= fst (safe_root KA where3 x)).
  { intros x. unfold safe_root, where3. destruct (flt (s := KA) (flit (s := KA) 0) x).
    - apply sqrt_pos.
    - change (0 <= Q2R 0). rewrite Q2R_0. lra. }
  pose proof (H (fsum (K := KA) 3 (fun k => fpown (s := KA) (fsub (s := KA) (sl2 lvs b i k) (sl2 lvs b j k)) 2))) as H1.
  change (0 < 1 + fst (safe_root KA where3 (fsum (K := KA) 3 (fun k => fpown (s := KA) (fsub (s := KA) (sl2 lvs b i k) (sl2 lvs b j k)) 2)))). lra.
Qed.
Lemma ex_cn_live b i : (i < 3)%nat -> live (sl1 cnG_of b i) (sl1 cnA b i).
Proof.
  intros Hi.
  match goal with |- live _ ?u => refine (eq_ind_r (fun d => live d u) _ (cn_any_val (N := NG) XGs None two_mols leaves_g 3 3 [2%nat] _ b i eq_refl eq_refl ex_cnG)) end.
  match goal with |- live ?u _ => refine (eq_ind_r (fun d => live u d) _ (cn_any_val (N := NA) XAs None two_mols lvs 3 3 [2%nat] _ b i eq_refl eq_refl (ex_cnA XAs lvs eq_refl))) end.
  apply live_sum. intros j Hj. destruct (pmask (sl1 two_mols b) i j); [|apply live_lit].
  apply live_div; [apply live_lit|apply live_add; [apply live_lit|]|].
  - apply (el_dist _ _ Xsafe_live); intros k _; apply leaves_live.
  - pose proof (ex_dist_pos b i j). change (Q2R 1 + fst (x_dist XAs 3 (sl2 lvs b i) (sl2 lvs b j)) <> 0). rewrite Q2R_1. lra.
Qed.
Lemma ex_mol b : live_mol aG aA 3 3 cnG_of cnA (Some qG_of) (Some qA) b.
Proof.
  constructor.
  - constructor.
    + intros i k _ _. apply (leaves_live (k :: i :: b)).
    + intros k. cbn [gcall a_param]. unfold opt_live, getp, gparam. cbn [dget].
      repeat (match goal with |- context [String.eqb ?u k] => destruct (String.eqb u k) end; [apply live_lit|]). exact Logic.I.
    + exact Logic.I.
    + exact Logic.I.
    + apply live_lit.
    + apply live_lit.
  - intros i Hi. now apply ex_cn_live.
  - intros ix (i & Hi & ->).
    assert (EG : dat qG_of (i :: b) = fadd (s := KG) (flit (s := KG) 0) (sl1 cnG_of b i)).
    { unfold qG_of, eeq_any. rewrite ex_cnG. reflexivity. }
    assert (EA : dat qA (i :: b) = fadd (s := KA) (flit (s := KA) 0) (sl1 cnA b i)).
    { unfold qA_of, eeq_any. rewrite ex_cnA by reflexivity. reflexivity. }
    rewrite EG, EA. apply live_add; [apply live_lit|now apply ex_cn_live].
Qed.
Lemma ex_cn_nonneg_A b i : 0 <= fst (sl1 cnA b i).
Proof.
  refine (eq_ind_r (fun d : adn (Bwd J) => 0 <= fst d) _ (cn_any_val (N := NA) XAs None two_mols lvs 3 3 [2%nat] _ b i eq_refl eq_refl (ex_cnA XAs lvs eq_refl))).
  assert (S : forall n (f : nat -> adn (Bwd J)), (forall j, (j < n)%nat -> 0 <= fst (f j)) -> 0 <= fst (fsum (K := KA) n f)).
  { induction n as [|n IH]; intros f H.
    - change (0 <= Q2R 0). rewrite Q2R_0. lra.
    - change (0 <= fst (fsum (K := KA) n f) + fst (f n)). pose proof (IH f ltac:(intros; apply H; lia)). pose proof (H n ltac:(lia)). lra. }
  apply S. intros j _. destruct (pmask (sl1 two_mols b) i j).
  - pose proof (ex_dist_pos b i j). change (0 <= Q2R 1 / (Q2R 1 + fst (x_dist XAs 3 (sl2 lvs b i) (sl2 lvs b j)))). rewrite Q2R_1.
    apply Rlt_le, Rdiv_lt_0_compat; lra.
  - change (0 <= Q2R 0). rewrite Q2R_0. lra.
Qed.
Lemma ex_r4 z : 0 <= fst (dat (@R4R2 KA) [z]).
Proof. apply sqrt_pos. Qed.
Lemma ex_r4_dead z : dead (dat (@R4R2 KG) [z]).
Proof. change (dead (r4r2_val (K := KG) z)). unfold r4r2_val. apply dead_sqrt, dead_mul; [apply dead_lit|]. apply dead_mul; [apply dead_lit|]. apply dead_sqrt, dead_lit. Qed.
Lemma ex_h z r : -3/4 <= h_ref "eeq" z r.
Proof.
  assert (T : forallb (forallb (Z.leb (-60000000000000))) clsh_tab = true) by (vm_compute; reflexivity).
  change (-3/4 <= IZR (nth r (nth z clsh_tab []) 0%Z) / IZR 100000000000000).
  assert (N : (-60000000000000 <= nth r (nth z clsh_tab []) 0)%Z).
  { rewrite forallb_forall in T. destruct (Nat.lt_ge_cases z (List.length clsh_tab)) as [L|L].
    - specialize (T _ (nth_In _ [] L)). rewrite forallb_forall in T.
      destruct (Nat.lt_ge_cases r (List.length (nth z clsh_tab []))) as [L'|L'].
      + apply Z.leb_le, T. now apply nth_In.
      + rewrite nth_overflow by exact L'. lia.
    - rewrite (nth_overflow clsh_tab) by exact L. destruct r; cbn; lia. }
  apply IZR_le in N. lra.
Qed.
Lemma ex_safe b : valid [2%nat] b -> grad_safe XGs XAs aG aA b (p_terms PG) "eeq" 3 3 (Some qA).
Proof.
  intros Hb. 
  assert (QQ : forall i j, 0 <= fst (qq_at (N := NA) aA b i j)).
  { intros i j. change (0 <= Q2R 3 * fst (dat (@R4R2 KA) [Z.to_nat (sl1 two_mols b i)]) * fst (dat (@R4R2 KA) [Z.to_nat (sl1 two_mols b j)])).
    apply Rmult_le_pos; [apply Rmult_le_pos|]; try apply ex_r4. unfold Q2R; cbn; lra. }
  assert (RT : forall x : adn (Bwd J), 0 <= fst (safe_root KA where3 x)).
  { intros x. unfold safe_root, where3. destruct (flt (s := KA) (flit (s := KA) 0) x).
    - apply sqrt_pos.
    - change (0 <= Q2R 0). rewrite Q2R_0. lra. }
  constructor.
  - intros i j Hi Hj R.
    assert (N : i <> j) by (intros ->; unfold real2 in R; rewrite Nat.eqb_refl, andb_false_r in R; discriminate).
    set (u := fsum (K := KA) 3 (fun k => fpown (s := KA) (fsub (s := KA) (sl2 lvs b i k) (sl2 lvs b j k)) 2)).
    assert (U : 0 < fst u).
    { change (0 < Q2R 0 + (fst (sl2 lvs b i 0) - fst (sl2 lvs b j 0)) ^ 2 + (fst (sl2 lvs b i 1) - fst (sl2 lvs b j 1)) ^ 2 + (fst (sl2 lvs b i 2) - fst (sl2 lvs b j 2)) ^ 2).
      unfold sl2, leaves, line. cbn [dat fst Nat.eqb]. rewrite Q2R_0.
      destruct i as [|[|[|i]]], j as [|[|[|j]]]; try lia; cbn [INR]; lra. }
    change (0 < fst (safe_root KA where3 u)). unfold safe_root, where3. cbn [flt AS flit fst acon]. rewrite Q2R_0.
    assert (F : rltb 0 (fst u) = true) by now apply rltb_true. rewrite F. apply sqrt_lt_R0. exact U.
  - intros i t Hi Ht. pose proof (ex_cn_nonneg_A b i) as C.
    assert (EA : sl1 qA b i = fadd (s := KA) (flit (s := KA) 0) (sl1 cnA b i)).
    { unfold qA_of, eeq_any. rewrite ex_cnA by reflexivity. reflexivity. }
    rewrite EA. unfold zeff_of. cbn [Xsafe x_zeff dat].
    change ((if t_cdep t then Q2R 0 + fst (sl1 cnA b i) else 0) + Q2R 1 <> eps). rewrite Q2R_0, Q2R_1. destruct (t_cdep t); lra.
  - intros i r Hi Hr. unfold zeff_of. cbn [Xsafe x_zeff dat].
    change (h_ref "eeq" (Z.to_nat (sl1 two_mols b i)) r + Q2R 1 <> eps). rewrite Q2R_1.
    pose proof (ex_h (Z.to_nat (sl1 two_mols b i)) r). lra.
  - intros t cls i j [<-|[<-|[]]] Ec Ed Hi Hj; [|discriminate Ec]. destruct cls.
    + right. split; [apply QQ|]. apply dead_mul; [apply dead_mul; [apply dead_lit|]|]; apply ex_r4_dead.
    + apply (f_equal (fun d => d_radius_type d)) in Ed. discriminate Ed.
    + apply (f_equal (fun d => d_radius_type d)) in Ed. discriminate Ed.
    + split; [right; split; [apply QQ|apply dead_mul; [apply dead_mul; [apply dead_lit|]|]; apply ex_r4_dead]|].
      change (0 < Q2R (39 # 100) * sqrt (fst (qq_at (N := NA) aA b i j)) + Q2R (48 # 10)).
      apply Rplus_le_lt_0_compat; [apply Rmult_le_pos; [unfold Q2R; cbn; lra|apply sqrt_pos]|unfold Q2R; cbn; lra].
  - intros t i j k [<-|[<-|[]]] Nc Hi Hj Hk; [now elim Nc|]. left.
    assert (P : forall i j, 0 < fst (radius3 (N := NA) XAs aA b D4ATMApprox i j)).
    { intros i' j'. change (0 < Q2R (39 # 100) * fst (safe_root KA where3 (qq_at (N := NA) aA b i' j')) + Q2R (48 # 10)).
      pose proof (RT (qq_at (N := NA) aA b i' j')) as H. apply Rplus_le_lt_0_compat; [apply Rmult_le_pos; [unfold Q2R; cbn; lra|exact H]|unfold Q2R; cbn; lra]. }
    change (0 < fst (radius3 (N := NA) XAs aA b D4ATMApprox i j) * fst (radius3 (N := NA) XAs aA b D4ATMApprox i k) * fst (radius3 (N := NA) XAs aA b D4ATMApprox j k)).
    apply Rmult_lt_0_compat; [apply Rmult_lt_0_compat|]; apply P.
Qed.
(** energies and gradients of both molecules are finite, and the gradient of any weighted sum of
    the energies of a molecule with respect to any coordinate, padding included, is its derivative *)
Example C65_example : exists EG, run_g (N := NG) XGs gsel gsel WG PG aG = Ok EG /\ shp EG = [3; 2]%nat /\
  forall b j, valid [2%nat] b ->
    (forall i, (i < 3)%nat -> fst (sl1 EG b i) = XR (sl1 (e_of (eps := eps) (mx := mx) x0) b i)) /\
    forall g : nat -> R, exists l, xsum 3 (fun i => grad (sl1 EG b i) (XR (g i)) j) = XR l /\
      derivable_pt_lim (fun s => rsum 3 (fun i => g i * sl1 (e_of (eps := eps) (mx := mx) (replaced (eps := eps) (mx := mx) j s)) b i)) (dat x0 j) l.
Proof.
  assert (He1 : 0 <= eps < 1) by lra.
  assert (CR : forall j, ext_ad (M := Bwd J) (grad_of j) 1 0 (Xex eps mx) XAs).
  { intros j. apply Xsafe_carries; [apply bwd_sound|lra|lra]. }
  assert (H0 : forall j ix, dat (replaced (eps := eps) (mx := mx) j (dat x0 j)) ix = dat x0 ix).
  { intros j ix. unfold replaced. cbn [dat]. destruct (list_eq_dec Nat.eq_dec ix j) as [->|]; reflexivity. }
  destruct (C65_gradient_is_derivative (Xex eps mx) XGs XAs (Wany (N := NR) (Xex eps mx)) WG WA (Pany (N := NR) (Xex eps mx) "d4") PG PA
    (fun j s => gcall (N := NR) two_mols (replaced (eps := eps) (mx := mx) j s)) aG aA D4M no_kw no_kw no_kw 3 3 [2%nat] 1 0 (fun j => dat x0 j)
    (fun j s => cn_of (eps := eps) (mx := mx) (replaced (eps := eps) (mx := mx) j s)) cnG_of cnA (fun j s => Some (q_of (eps := eps) (mx := mx) (replaced (eps := eps) (mx := mx) j s))) (Some qG_of) (Some qA)
    (fun j s => e_of (eps := eps) (mx := mx) (replaced (eps := eps) (mx := mx) j s)) Hm) as (EG & ER & ES & G).
  - intros j. apply (ex_same (grad_of j) (bwd_sound _ j) XAs (CR j) (Xsafe_tables _ _) (replaced (eps := eps) (mx := mx) j) lvs (dat x0 j)); auto; try (intros; apply leaves_trk).
  - apply ex_graph.
  - exists EG. split; [exact ER|]. split; [exact ES|]. intros b j Hb.
    destruct (G b j Hb (ex_mol b) (ex_safe b Hb)) as (V & D).
    { apply (ex_smooth He1 (grad_of j) (bwd_sound _ j) XAs (CR j) (replaced (eps := eps) (mx := mx) j) lvs (dat x0 j)); auto; try (intros; apply leaves_trk). }
    split; [|exact D]. intros i Hi. rewrite (V i Hi). 
    replace (replaced (eps := eps) (mx := mx) j (dat x0 j)) with x0; [reflexivity|].
    unfold replaced. symmetry. transitivity (mkT (shp x0) (dat x0)); [|reflexivity]. apply (f_equal (mkT (shp x0))). apply FunctionalExtensionality.functional_extensionality.
    intros ix. destruct (list_eq_dec Nat.eq_dec ix j) as [->|]; reflexivity.
Qed.
End Ex.

(** ** Where gradients are poisoned nevertheless

    Two cases in which padding does make gradients NaN: a padding entry of a radius that itself
    requires gradients sits at a singular point of the (not selected) damping function. *)
Section Poison.
Context {I : Type} {eps mx : R} (Heps : 0 < eps).
Notation KG := (GS I eps mx).
Notation NG := (GN I eps mx).
Notation G := (gnum I).

(** whatever gradient comes in, leaf [l] receives NaN *)
Definition poisoned (l : I) (e : G) : Prop := forall g, grad e g l = XNaN.
Lemma xadd_nan_l x : xadd XNaN x = XNaN. Proof. now destruct x. Qed.
Lemma xadd_nan_r x : xadd x XNaN = XNaN. Proof. now destruct x. Qed.
Lemma xmul_nan_l x : xmul XNaN x = XNaN. Proof. now destruct x. Qed.
Lemma po_l l F k1 k2 e f : poisoned l e -> poisoned l (gbin I F k1 k2 e f).
Proof. intros P g. rewrite grad_bin, P. apply xadd_nan_l. Qed.
Lemma po_r l F k1 k2 e f : poisoned l f -> poisoned l (gbin I F k1 k2 e f).
Proof. intros P g. rewrite grad_bin, P. apply xadd_nan_r. Qed.
Lemma po_sel l e f : grad e (XR 0) l = XNaN -> poisoned l (gsel false e f).
Proof. intros P g. rewrite grad_sel, P. apply xadd_nan_l. Qed.
Lemma po_sum l n (f : nat -> G) k : (k < n)%nat -> poisoned l (f k) -> poisoned l (fsum (K := KG) n f).
Proof.
  induction n as [|n IH]; intros Hk P; [lia|].
  change (poisoned l (fadd (s := KG) (fsum (K := KG) n f) (f n))).
  destruct (Nat.eq_dec k n) as [->|N]; [now apply po_r|]. apply po_l, IH; [lia|exact P].
Qed.
Lemma po_fold_keep l es : forall e : G, poisoned l e -> poisoned l (fold_left (fun x y => fadd (s := KG) x y) es e).
Proof. induction es as [|x es IH]; intros e P; [exact P|]. apply IH. now apply po_l. Qed.
Lemma po_fold l es : forall e e0 : G, In e es -> poisoned l e -> poisoned l (fold_left (fun x y => fadd (s := KG) x y) es e0).
Proof.
  induction es as [|x es IH]; intros e e0 [] P; cbn [fold_left].
  - subst x. apply po_fold_keep. now apply po_r.
  - now apply (IH e).
Qed.

Lemma add_nan (e f : G) g l : grad e g l = XNaN -> grad (fadd (s := KG) e f) g l = XNaN.
Proof. intros H. cbn [fadd GS]. rewrite grad_bin, H. apply xadd_nan_l. Qed.
Lemma add_nan_r (e f : G) g l : grad f g l = XNaN -> grad (fadd (s := KG) e f) g l = XNaN.
Proof. intros H. cbn [fadd GS]. rewrite grad_bin, H. apply xadd_nan_r. Qed.

Lemma g_mul (e f : G) g l : grad (fmul (s := KG) e f) g l = xadd (grad e (xmul g (fst f)) l) (grad f (xmul g (fst e)) l).
Proof. unfold grad. cbn [fmul fdiv fpow GS gbin snd]. rewrite grad_gplus, !grad_gback. reflexivity. Qed.
Lemma g_div (e f : G) g l : grad (fdiv (s := KG) e f) g l
  = xadd (grad e (xdiv g (fst f)) l) (grad f (xmul (xopp g) (xdiv (xdiv (fst e) (fst f)) (fst f))) l).
Proof. unfold grad. cbn [fmul fdiv fpow GS gbin snd]. rewrite grad_gplus, !grad_gback. reflexivity. Qed.
Lemma g_pow (e f : G) g l : grad (fpow (s := KG) e f) g l = xadd (grad e (bpow1 (fst e) (fst f) g) l) (grad f (bpow2 (fst e) (fst f) g) l).
Proof. unfold grad. cbn [fmul fdiv fpow GS gbin snd]. rewrite grad_gplus, !grad_gback. reflexivity. Qed.
Lemma g_pown (e : G) n g l : grad (fpown (s := KG) e n) g l = grad e (bpown n (fst e) g) l.
Proof. apply (grad_un (fun x => xpown x n) (bpown n)). Qed.
Lemma g_sqrt (e : G) g l : grad (fsqrt (s := KG) e) g l = grad e (xdiv g (xmul (XR 2) (xsqrt (fst e)))) l.
Proof. apply (grad_un xsqrt (fun x g => xdiv g (xmul (XR 2) (xsqrt x)))). Qed.

(** the rational damping function at radius 0, for the gradient 0 of the masked entries *)
Lemma rat_nan (a1 a2 d r : G) l v1 v2 : fst a1 = XR v1 -> fst a2 = XR v2 -> fst d = XR eps -> fst r = XR 0 ->
  grad r XNaN l = XNaN -> grad (rat_g (K := KG) a1 a2 6 d r) (XR 0) l = XNaN.
Proof.
  intros E1 E2 Ed Er Gr.
  assert (NZ : eps ^ 6 + (v1 * 0 + v2) ^ 6 <> 0).
  { assert (0 < eps ^ 6) by (now apply pow_lt). replace ((v1 * 0 + v2) ^ 6) with (((v1 * 0 + v2) ^ 3) ^ 2) by ring.
    pose proof (pow2_ge_0 ((v1 * 0 + v2) ^ 3)). lra. }
  assert (Vs : fst (fsqrt (s := KG) r) = XR 0).
  { change (xsqrt (fst r) = XR 0). rewrite Er, xsqrt_R by lra. now rewrite sqrt_0. }
  assert (VR : fst (fadd (s := KG) (fmul (s := KG) a1 (fsqrt (s := KG) r)) a2) = XR (v1 * 0 + v2)).
  { change (xadd (xmul (fst a1) (fst (fsqrt (s := KG) r))) (fst a2) = XR (v1 * 0 + v2)). now rewrite E1, E2, Vs. }
  assert (VD : fst (fadd (s := KG) (fpown (s := KG) d 6) (fpown (s := KG) (fadd (s := KG) (fmul (s := KG) a1 (fsqrt (s := KG) r)) a2) 6)) = XR (eps ^ 6 + (v1 * 0 + v2) ^ 6)).
  { change (xadd (xpown (fst d) 6) (xpown (fst (fadd (s := KG) (fmul (s := KG) a1 (fsqrt (s := KG) r)) a2)) 6) = XR (eps ^ 6 + (v1 * 0 + v2) ^ 6)). now rewrite Ed, VR. }
  assert (GR : grad (fadd (s := KG) (fmul (s := KG) a1 (fsqrt (s := KG) r)) a2) (XR 0) l = XNaN).
  { apply add_nan. rewrite g_mul, E1.
    assert (GS0 : grad (fsqrt (s := KG) r) (XR 0) l = XNaN).
    { rewrite g_sqrt, Er. rewrite xsqrt_R by lra. rewrite sqrt_0. cbn [xmul].
      replace (2 * 0) with 0 by ring. unfold xdiv. destruct (Req_EM_T 0 0); [exact Gr|congruence]. }
    cbn [xmul]. rewrite Rmult_0_l. rewrite GS0. apply xadd_nan_r. }
  unfold rat_g. rewrite g_div.
  match goal with |- xadd _ (grad ?e ?g l) = _ => assert (Z : g = XR 0) end.
  { rewrite VD. change (fst (flit (s := KG) 1)) with (XR (Q2R 1)). rewrite xdiv_R by exact NZ. rewrite xdiv_R by exact NZ. cbn [xopp xmul]. f_equal. ring. }
  rewrite Z. rewrite add_nan_r; [apply xadd_nan_r|].
  rewrite g_pown, VR. unfold bpown. cbn [xpown xmul]. rewrite Rmult_0_l. exact GR.
Qed.

(** quotients with a denominator other than 0 have the gradients of quotients *)
Definition div_grad (XG : Ext KG) : Prop := forall x y w g l, fst y = XR w -> w <> 0 ->
  grad (x_div XG x y) g l = grad (fdiv (s := KG) x y) g l.

(** the modified zero damping function at radius 0 *)
Lemma mzero_nan XG (rs al bet d r : G) l vrs val vbet : div_grad XG ->
  fst rs = XR vrs -> fst al = XR val -> fst bet = XR vbet -> fst d = XR eps -> fst r = XR 0 -> 0 < val ->
  grad rs XNaN l = XNaN -> grad (mzero_g (K := KG) XG rs al bet 6 d r) (XR 0) l = XNaN.
Proof.
  intros HD Ers Eal Eb Ed Er Pal Grs.
  assert (E6 : 0 < eps ^ 6) by (now apply pow_lt).
  set (den := fmul (s := KG) rs r). assert (Vden : fst den = XR 0).
  { change (xmul (fst rs) (fst r) = XR 0). rewrite Ers, Er. cbn. f_equal. ring. }
  assert (Gden : grad den XNaN l = XNaN). { unfold den. rewrite g_mul, xmul_nan_l, Grs. apply xadd_nan_l. }
  set (quo := fdiv (s := KG) d den). assert (Vq : fst quo = XInf true).
  { change (xdiv (fst d) (fst den) = XInf true). rewrite Ed, Vden. cbn. destruct (Req_EM_T 0 0); [|congruence].
    destruct (Req_EM_T eps 0); [lra|]. f_equal. now apply rltb_true. }
  assert (Gq : grad quo (XR 0) l = XNaN).
  { unfold quo. rewrite g_div. replace (xmul (xopp (XR 0)) (xdiv (xdiv (fst d) (fst den)) (fst den))) with XNaN; [rewrite Gden; apply xadd_nan_r|].
    change (xdiv (fst d) (fst den)) with (fst quo). rewrite Vq, Vden. cbn. destruct (Req_EM_T 0 0); [|congruence]. cbn. unfold inf_mul.
    destruct (Req_EM_T (- 0) 0); [reflexivity|]. lra. }
  set (base := fadd (s := KG) quo (fmul (s := KG) bet r)). assert (Vb : fst base = XInf true).
  { change (xadd (fst quo) (xmul (fst bet) (fst r)) = XInf true). now rewrite Vq, Eb, Er. }
  assert (Gb : grad base (XR 0) l = XNaN) by (now apply add_nan).
  set (ex := fopp (s := KG) al). assert (Ve : fst ex = XR (- val)).
  { change (xopp (fst al) = XR (- val)). now rewrite Eal. }
  assert (PW : forall y, y < 0 -> xpow (XInf true) (XR y) = XR 0).
  { intros y Hy. cbn. destruct (Req_EM_T y 0); [lra|]. destruct (Rlt_dec 0 y); [lra|reflexivity]. }
  set (pw := fpow (s := KG) base ex). assert (Vp : fst pw = XR 0).
  { change (xpow (fst base) (fst ex) = XR 0). rewrite Vb, Ve. apply PW. lra. }
  assert (Gp : grad pw (XR 0) l = XNaN).
  { unfold pw. rewrite g_pow, Vb, Ve. replace (bpow1 (XInf true) (XR (- val)) (XR 0)) with (XR 0); [rewrite Gb; apply xadd_nan_l|].
    unfold bpow1. cbn [xeq]. unfold reqb. destruct (Req_EM_T (- val) 0); [reflexivity|]. cbn [xsub xadd xopp].
    rewrite PW by lra. cbn. f_equal. ring. }
  set (m6 := fmul (s := KG) (flit (s := KG) 6) pw). assert (V6 : fst m6 = XR 0).
  { change (xmul (XR (Q2R 6)) (fst pw) = XR 0). rewrite Vp. cbn. f_equal. ring. }
  assert (G6 : grad m6 (XR 0) l = XNaN).
  { unfold m6. rewrite g_mul. change (fst (flit (s := KG) 6)) with (XR (Q2R 6)). cbn [xmul]. rewrite Rmult_0_l, Gp. apply xadd_nan_r. }
  set (dn := fadd (s := KG) (flit (s := KG) 1) m6). assert (Vn : fst dn = XR 1).
  { change (xadd (XR (Q2R 1)) (fst m6) = XR 1). rewrite V6, Q2R_1. cbn. f_equal. ring. }
  assert (Gn : grad dn (XR 0) l = XNaN) by (now apply add_nan_r).
  set (fr := fdiv (s := KG) (flit (s := KG) 1) dn).
  assert (Gf : grad fr (XR 0) l = XNaN).
  { unfold fr. rewrite g_div, Vn. change (fst (flit (s := KG) 1)) with (XR (Q2R 1)). rewrite !xdiv_R by lra. cbn [xopp xmul].
    replace (- 0 * (Q2R 1 / 1 / 1)) with 0 by ring. rewrite Gn. apply xadd_nan_r. }
  change (grad (x_div XG fr (fpown (s := KG) d 6)) (XR 0) l = XNaN).
  assert (Vd6 : fst (fpown (s := KG) d 6) = XR (eps ^ 6)) by (change (xpown (fst d) 6 = XR (eps ^ 6)); now rewrite Ed).
  rewrite (HD _ _ (eps ^ 6)) by (auto; lra). rewrite g_div, Vd6, xdiv_R by lra.
  replace (0 / eps ^ 6) with 0 by (field; lra). rewrite Gf. apply xadd_nan_l.
Qed.

Section Run.
Context (XG : Ext KG) (W : World NG) (p : Disp NG) (a : Args NG) (kind : mkind) (kw : mkwargs NG) (n c : nat) (B b : list nat) (i k : nat) (l : I).
Context (HX : ext_tables XG) (HP : p_inst p = None) (WF : well_formed (N := NG) XG W p a kind kw n c B).
Context (Hb : valid B b) (Hi : (i < n)%nat) (Hk : (k < n)%nat) (Pad : sl1 (a_numbers a) b k = 0%Z).
Context (cl : list dclass) (Hcl : same_terms (NR := NG) (NA := NG) XG XG (p_terms p) (p_terms p) cl).

Lemma po_run t cls : In (t, cls) (combine (p_terms p) cl) -> t_class t = TwoBodyTerm ->
  (forall d, fst d = XR eps ->
     grad (ship_g (K := KG) XG cls (a_param a) 6 (par (N := NG) a "alp" dALP) "rs6" d
       (match cls with Rational | OptimisedPower => qq_at (N := NG) a b i k | _ => vdw_at (N := NG) XG a b i k end)) (XR 0) l = XNaN) ->
  exists EG, run_g (N := NG) XG gsel gsel W p a = Ok EG /\ poisoned l (sl1 EG b i).
Proof.
  intros Ht Ec HG.
  pose proof (same_ok_R (NR := NG) (NA := NG) XG XG (a_param a) kind cl _ _ (wf_param _ _ _ _ _ _ _ _ _ WF) Hcl (wf_terms _ _ _ _ _ _ _ _ _ WF)) as OG.
  destruct (run_closed_full_g (N := NG) XG gsel gsel W p a kind kw n c B _ HX HP WF OG)
    as (m & cn & qo & r4 & rv & _ & _ & _ & HM & Ecn & _ & Eq & _ & V4 & Vv & (EG & Et & _ & Vt)).
  exists EG. split; [exact Et|]. rewrite Vt by auto. unfold sumK, atom_terms_g.
  assert (Hin : In (t, ship (K := KG) XG cls (a_param a)) (combine (p_terms p) (map (fun c => ship (K := KG) XG c (a_param a)) cl))).
  { clear - Ht. revert Ht. generalize (p_terms p). induction cl as [|x xs IH]; intros [|y ys] H; cbn [combine map] in *; try contradiction.
    destruct H as [H|H]; [left; congruence|right; now apply IH]. }
  assert (Ed : t_damping t = damping_of XG cls).
  { clear - Ht Hcl Ec. revert Ht Hcl. generalize (p_terms p). induction cl as [|x xs IH]; intros [|y ys] H Hcl; cbn [combine] in *; try contradiction.
    cbn [same_terms] in Hcl. destruct Hcl as ((_ & _ & H1) & H2). destruct H as [H|H]; [|now apply (IH ys)].
    injection H as <- <-. rewrite Ec in H1. apply H1. }
  eapply po_fold; [apply in_map; exact Hin|]. cbn [fst snd]. unfold term_val_g. rewrite Ec, Ed. unfold e2_atom_g.
  assert (P6 : poisoned l (fsum (K := KG) n (fun j => fmul (s := KG) (c6m_g (N := NG) XG gsel gsel m (Some cn) (if t_cdep t then qo else None) b i j)
      (tfac_g (N := NG) XG gsel (f6 (ship (K := KG) XG cls (a_param a))) c (sl1 (a_numbers a) b) (sl2 (a_positions a) b)
         (rad_of (damping_of XG cls) (sl1 r4 b) (sl2 rv b)) (dat (c_disp2 (a_cut a)) []) i j)))).
  { apply (po_sum l n _ k Hk). apply po_r. unfold tfac_g.
    assert (PM : pmask (sl1 (a_numbers a) b) i k = false) by (unfold pmask; rewrite Pad; cbn; now rewrite andb_false_r).
    rewrite PM. cbn [andb]. apply po_sel.
    assert (RK : rad_of (damping_of XG cls) (sl1 r4 b) (sl2 rv b) i k
      = match cls with Rational | OptimisedPower => qq_at (N := NG) a b i k | _ => vdw_at (N := NG) XG a b i k end).
    { destruct cls; unfold rad_of; cbn; try (unfold qq; rewrite !V4 by auto; reflexivity); now apply Vv. }
    rewrite RK. apply HG. unfold pdist_g. rewrite PM. reflexivity. }
  apply po_r. destruct (s10_of (a_param a) (ship XG cls (a_param a))) as [(x & g10)|]; [apply po_l|]; apply po_l; now apply po_r.
Qed.
End Run.

Definition three_only (XG : Ext KG) (ts : list (DispTerm NG)) : Prop :=
  forall t, In t ts -> t_class t <> TwoBodyTerm /\ t_damping t = ZeroDamping XG.
Lemma three_terms XG ts : three_only XG ts -> same_terms (NR := NG) (NA := NG) XG XG ts ts (map (fun _ => Rational) ts).
Proof.
  induction ts as [|t ts IH]; intros H; cbn [map same_terms]; [exact Logic.I|].
  split; [|apply IH; intros x Hx; apply H; now right]. destruct (H t (or_introl eq_refl)) as (N & D).
  split; [reflexivity|]. split; [reflexivity|]. destruct (t_class t); auto. now elim N.
Qed.

(** <r4>/<r2> values that require gradients must not be padded with zeros: the square root in the
    rational damping function is differentiated at 0 *)
Theorem C65_zero_padded_r4r2_refuted XG W p a kind kw n c B b i k (l : I) (r : tensor G) a1 a2 x cd ts :
  ext_tables XG -> p_inst p = None -> well_formed (N := NG) XG W p a kind kw n c B ->
  p_terms p = mkTerm (N := NG) TwoBodyTerm (damping_of XG Rational) cd :: ts -> three_only XG ts ->
  valid B b -> (i < n)%nat -> (k < n)%nat -> sl1 (a_numbers a) b k = 0%Z ->
  fst (par (N := NG) a "a1" dA1) = XR a1 -> fst (par (N := NG) a "a2" dA2) = XR a2 ->
  a_r4r2 a = Some r -> (forall g, grad (sl1 r b i) g l = g) -> fst (sl1 r b i) = XR x -> fst (sl1 r b k) = XR 0 ->
  exists EG, run_g (N := NG) XG gsel gsel W p a = Ok EG /\ forall g, grad (sl1 EG b i) g l = XNaN.
Proof.
  intros HX HP WF Ht H3 Hb Hi Hk Pad E1 E2 Er Hl Vi Vk.
  apply (po_run XG W p a kind kw n c B b i k l HX HP WF Hb Hi Hk Pad (Rational :: map (fun _ => Rational) ts)) with (t := mkTerm (N := NG) TwoBodyTerm (damping_of XG Rational) cd) (cls := Rational); auto.
  - rewrite Ht. cbn [same_terms]. split; [repeat split|now apply three_terms].
  - rewrite Ht. now left.
  - intros d Vd.
    assert (QV : fst (qq_at (N := NG) a b i k) = XR 0).
    { unfold qq_at, r4r2_at. rewrite Er. change (xmul (xmul (XR (Q2R 3)) (fst (sl1 r b i))) (fst (sl1 r b k)) = XR 0).
      rewrite Vi, Vk. cbn. f_equal. ring. }
    assert (QG : grad (qq_at (N := NG) a b i k) XNaN l = XNaN).
    { unfold qq_at, r4r2_at. rewrite Er. cbn [fmul GS GN sc]. rewrite grad_bin. apply (eq_trans (y := xadd XNaN (grad (sl1 r b k) (xmul XNaN (fst (fmul (s := KG) (flit (s := KG) 3) (sl1 r b i)))) l))); [|apply xadd_nan_l].
      f_equal. rewrite grad_bin. rewrite Hl. rewrite !xmul_nan_l. apply xadd_nan_r. }
    unfold ship_g. cbn [active]. now apply (rat_nan _ _ d _ l a1 a2).
Qed.

(** the radius of a padding atom is 0: if a parameter of the modified zero damping function requires
    gradients, its gradient is NaN in every padded molecule *)
Theorem C65_mzero_padding_refuted XG W p a kind kw n c B b i k (l : I) rs al bet cd ts :
  ext_tables XG -> div_grad XG -> p_inst p = None -> well_formed (N := NG) XG W p a kind kw n c B ->
  p_terms p = mkTerm (N := NG) TwoBodyTerm (damping_of XG MZero) cd :: ts -> three_only XG ts ->
  valid B b -> (i < n)%nat -> (k < n)%nat -> sl1 (a_numbers a) b k = 0%Z -> fst (vdw_at (N := NG) XG a b i k) = XR 0 ->
  fst (par (N := NG) a "rs6" 1%Q) = XR rs -> (forall g, grad (par (N := NG) a "rs6" 1%Q) g l = g) ->
  fst (par (N := NG) a "alp" dALP) = XR al -> 0 < al -> fst (par (N := NG) a "bet" 0%Q) = XR bet ->
  exists EG, run_g (N := NG) XG gsel gsel W p a = Ok EG /\ forall g, grad (sl1 EG b i) g l = XNaN.
Proof.
  intros HX HD HP WF Ht H3 Hb Hi Hk Pad Vv Er Hl Ea Pa Ebt.
  apply (po_run XG W p a kind kw n c B b i k l HX HP WF Hb Hi Hk Pad (MZero :: map (fun _ => Rational) ts)) with (t := mkTerm (N := NG) TwoBodyTerm (damping_of XG MZero) cd) (cls := MZero); auto.
  - rewrite Ht. cbn [same_terms]. split; [repeat split|now apply three_terms].
  - rewrite Ht. now left.
  - intros d Vd. unfold ship_g. cbn [active]. now apply (mzero_nan XG _ _ _ d _ l rs al bet).
Qed.
End Poison.

(** *** carbon monoxide, padded, beside water: the <r4>/<r2> values require gradients; or [rs6] does *)
Section PoisonEx.
Context {eps mx : R} (He : 0 < eps).
Notation J := (list nat).
Notation KG := (GS J eps mx).
Notation NG := (GN J eps mx).
Notation XGs := (Xsafe KG gsel).
Notation WG := (Wany (N := NG) XGs).
Lemma Xsafe_div_grad : div_grad (eps := eps) (mx := mx) XGs.
Proof.
  intros x y w g l E N. cbn [Xsafe x_div].
  assert (F : feq (s := KG) y (flit (s := KG) 0) = false).
  { change (xeq (fst y) (XR (Q2R 0)) = false). rewrite E, Q2R_0. cbn. unfold reqb. now destruct (Req_EM_T w 0). }
  rewrite F. rewrite !g_div. change (fst (gsel false (flit (s := KG) 1) y)) with (fst y).
  f_equal. rewrite grad_sel. rewrite (dead_lit (eps := eps) (mx := mx)). apply xadd_0_l.
Qed.
Definition leaf (j : J) (x : R) : gnum J := (XR x, Some (fun g i => if list_eq_dec Nat.eq_dec j i then g else XR 0)).
Lemma leaf_self j x g : grad (leaf j x) g j = g.
Proof. unfold grad, leaf. cbn [snd]. now destruct (list_eq_dec Nat.eq_dec j j). Qed.
Notation pos0 := (tmap (fun x => gcon (I := J) (XR x)) (line (eps := eps) (mx := mx) 3 [2%nat] 2)).
Definition padded_call (param : Param KG) (r4 rv : option (tensor (gnum J))) : Args NG := mkCall (N := NG) two_mols pos0 (scal (flit (s := KG) 0)) param None None None r4 rv.
Lemma padded_wf param r4 rv ts : good_param param ->
  match r4 with Some u => shp u = [3; 2]%nat | None => True end -> match rv with Some u => shp u = [3; 3; 2]%nat | None => True end ->
  (forall t, In t ts -> usable param D4M t) ->
  well_formed (N := NG) XGs WG (mkDisp ts (cn_any (N := NG) XGs) None "d4" None no_kw) (padded_call param r4 rv) D4M no_kw 3 3 [2%nat].
Proof.
  intros GP S4 Sv U.
  constructor; cbn [padded_call a_numbers a_positions a_q a_rcov a_r4r2 a_rvdw a_cutoff a_param
    a_charge opt_shape p_cn_fn p_cn_kw p_terms]; auto; try congruence; try reflexivity; try exact Logic.I.
  - left. split; [reflexivity|]. split; [reflexivity|]. left. split; reflexivity.
  - split; reflexivity.
  - left. split; [reflexivity|]. apply two_mols_range.
  - now apply (cn_any_ok (N := NG) XGs None two_mols pos0 3 3 [2%nat]).
  - intros _ _. cbn [w_eeq Wany]. unfold eeq_any. destruct (cn_any_ok (N := NG) XGs None two_mols pos0 3 3 [2%nat] eq_refl eq_refl) as (cn & -> & Sc).
    eexists. split; [reflexivity|]. exact Sc.
Qed.
Definition r4_leaves : tensor (gnum J) := mkT [3; 2]%nat (fun ix => leaf ix (if list_eq_dec Nat.eq_dec ix [2; 1]%nat then 0 else 2)).
Example C65_r4r2_example : exists EG, run_g (N := NG) XGs gsel gsel WG (mkDisp (terms_d4 (N := NG) XGs) (cn_any (N := NG) XGs) None "d4" None no_kw)
    (padded_call (gparam (N := NG)) (Some r4_leaves) None) = Ok EG /\
  forall g, grad (sl1 EG [1%nat] 0) g [0; 1]%nat = XNaN.
Proof.
  refine (C65_zero_padded_r4r2_refuted He XGs WG (mkDisp (terms_d4 (N := NG) XGs) (cn_any (N := NG) XGs) None "d4" None no_kw) (padded_call (gparam (N := NG)) (Some r4_leaves) None) D4M no_kw 3 3 [2%nat] [1%nat] 0 2 [0; 1]%nat
    r4_leaves (Q2R (39 # 100)) (Q2R (48 # 10)) 2 true (tl (terms_d4 (N := NG) XGs)) _ _ _ _ _ _ _ _ _ _ _ _ _ _ _); try reflexivity; try lia.
  - apply Xsafe_tables.
  - apply padded_wf; [apply gparam_good|reflexivity|exact Logic.I|].
    intros t [<-|[<-|[]]]; [apply usable_rational; [apply gparam_good|discriminate|discriminate]|apply usable_atm; discriminate].
  - intros t [<-|[]]. split; [discriminate|reflexivity].
  - cbn. lia.
Qed.
Definition mz_param : Param KG :=
  [("s6", lit_p 1); ("s8", lit_p (96 # 100)); ("rs6", PT (K := KG) (mkT [] (fun _ => leaf [] 1))); ("rs8", lit_p 1); ("bet", lit_p (1 # 10)); ("s9", lit_p 1)]%string.
Lemma mz_good : good_param mz_param.
Proof.
  intros k v H. simpl in H.
  repeat (destruct H as [H|H]; [injection H as <- <-; split; [simpl; tauto|intros _; eexists; first [apply isnum_lit | eexists; split; [reflexivity|]; split; reflexivity]]|]).
  destruct H.
Qed.
Definition rv_padded : tensor (gnum J) := mkT [3; 3; 2]%nat (fun ix => match ix with j :: i :: [1%nat] => if (i =? 2)%nat || (j =? 2)%nat then gcon (XR 0) else gcon (XR 3) | _ => gcon (XR 3) end).
Example C65_mzero_example : exists EG, run_g (N := NG) XGs gsel gsel WG (mkDisp [mkTerm (N := NG) TwoBodyTerm (damping_of XGs MZero) true] (cn_any (N := NG) XGs) None "d4" None no_kw)
    (padded_call mz_param None (Some rv_padded)) = Ok EG /\
  forall g, grad (sl1 EG [1%nat] 0) g [] = XNaN.
Proof.
  refine (C65_mzero_padding_refuted He XGs WG (mkDisp [mkTerm (N := NG) TwoBodyTerm (damping_of XGs MZero) true] (cn_any (N := NG) XGs) None "d4" None no_kw) (padded_call mz_param None (Some rv_padded)) D4M no_kw 3 3 [2%nat] [1%nat] 0 2 []
    1 (Q2R 16) (Q2R (1 # 10)) true [] _ _ _ _ _ _ _ _ _ _ _ _ _ _ _ _); try reflexivity; try lia.
  - apply Xsafe_tables.
  - apply Xsafe_div_grad.
  - apply padded_wf; [apply mz_good|exact Logic.I|reflexivity|].
    intros t [<-|[]]. apply (usable_mzero (N := NG) XGs); [apply mz_good|discriminate|discriminate|discriminate|reflexivity].
  - intros t [].
  - cbn. lia.
  - unfold Q2R. cbn. lra.
Qed.
End PoisonEx.

Print Assumptions C65_same_program.
Print Assumptions C65_gradients.
Print Assumptions C65_gradient_is_derivative.
Print Assumptions C65_zero_padded_r4r2_refuted.
Print Assumptions C65_mzero_padding_refuted.
