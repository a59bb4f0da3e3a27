(** * C69: derivatives of any order by nested automatic differentiation *)
From Coq Require Import Reals Lra Lia List Arith ZArith QArith Qreals Bool String.
From Verif Require Import Py Tensor Scalar RInst AdInst ModelExt ModelUtils ModelDamping ModelModels
  ModelTerms ModelDisp Spec SpecCall SpecR SpecMol SpecW SpecD4 DataPair TensorLemmas Closed ClosedM ClosedTerms ClosedModels ClosedDamp ClosedDisp CallLemmas
  Usable PropsOutcome PropsTables WeightsR WeightsP PropsDiff PropsD4 EnergyR Energy3R PropsAD SpecADN AdN AdG AdNW AdNT.
From Verif Require SpecAD.
Import ListNotations.
Open Scope R_scope.

Lemma same_terms_of {eps mx} {T : Tracking} (X : Ext (RS eps mx)) (XA : Ext T) ts tsA :
  Forall2 (term_ad T X XA) ts tsA -> exists cl, same_terms (NR := RN eps mx) (NA := LN T) X XA ts tsA cl.
Proof.
  induction 1 as [|t tA ts tsA (H1 & H2 & H3) HR (cl & IH)]; [exists []; exact I|].
  destruct (t_class t) eqn:E.
  - destruct H3 as (c & H3). exists (c :: cl). cbn [same_terms]. rewrite E. auto.
  - exists (Rational :: cl). cbn [same_terms]. rewrite E. auto.
  - exists (Rational :: cl). cbn [same_terms]. rewrite E. auto.
  - exists (Rational :: cl). cbn [same_terms]. rewrite E. auto.
Qed.

Section P.
Context {eps mx : R} {T : Tracking} (L : Laws (eps := eps) (mx := mx) T).
Notation t := (Tp0 T).
Notation P := (TP T).
Notation KR := (RS eps mx).
Notation KA := (sl_sc (TK T)).
Notation NR := (RN eps mx).
Notation NA := (LN T).
Notation trk := (Ttrk T).
Notation fx := (fixedT (T := T)).
Context {d0 ds : R} (X : Ext KR) (XA : Ext KA) (HE : ext_ad T d0 ds X XA).
Context (Hd0 : 0 < d0) (Hds : 0 <= ds) (HD : dist_contract d0 X) (HV : div_contract X) (HQ : sqrt_contract ds X) (Hm : 1 <= mx).

(** ** Model parameters *)
Section Mdl.
Context (kind : mkind) (kw : mkwargs NR) (kwA : mkwargs NA) (numbers : tensor Z) (n : nat) (B : list nat).
Context (m : Model NR) (mA : Model NA) (HM : is_model (N := NR) X m kind kw numbers n B) (HMA : is_model (N := NA) XA mA kind kwA numbers n B).
Context (Hkw : kw_ad T kw kwA) (Hk : kind = D4M \/ kind = D4SM).
Context (b : list nat) (Hb : valid B b).

Lemma y_default o oA q : opt_fixed T o oA -> fx (default o (flit (s := KR) q)) (default oA (flit (s := KA) q)).
Proof. unfold opt_fixed. destruct o, oA; cbn [default]; try contradiction; auto. intros _. apply (y_lit L). Qed.
Lemma y_mga : fx (m_ga m) (m_ga mA).
Proof. destruct HM as (_ & _ & _ & -> & _), HMA as (_ & _ & _ & -> & _). apply y_default. apply Hkw. Qed.
Lemma y_mgc : fx (m_gc m) (m_gc mA).
Proof. destruct HM as (_ & _ & _ & _ & -> & _), HMA as (_ & _ & _ & _ & -> & _). apply y_default. apply Hkw. Qed.
Lemma m_ref_same : m_ref mA = m_ref m.
Proof. destruct HM as (_ & _ & _ & _ & _ & -> & _), HMA as (_ & _ & _ & _ & _ & -> & _). now rewrite (proj1 Hkw). Qed.
Lemma y_wf i j : (i < n)%nat -> (j < n)%nat -> fx (wf_of m b i j) (wf_of mA b i j).
Proof.
  intros Hi Hj. destruct HM as (_ & _ & _ & _ & _ & _ & W), HMA as (_ & _ & _ & _ & _ & _ & WA).
  rewrite W, WA by auto. unfold wfv. destruct Hkw as (_ & _ & _ & Kw). unfold opt_fixed_t in Kw.
  destruct (k_wf kw) as [w|], (k_wf kwA) as [wA|]; try contradiction.
  - destruct kind; apply Kw.
  - destruct kind; try apply (y_lit L).
Qed.
Lemma z_range i : (i < n)%nat -> (0 <= sl1 numbers b i <= 103)%Z.
Proof.
  intros Hi. destruct HM as ((_ & _ & Hs & HR & _) & _ & EN & _). rewrite EN in *.
  assert (V : valid (shp numbers) (i :: b)) by (rewrite Hs; split; auto).
  apply HR in V. pose proof (ref_limit_le (m_ref m)). unfold sl1. lia.
Qed.
Lemma present_real i r : (i < n)%nat -> (r < 7)%nat -> present (sl1 numbers b i) r = true -> real_atom numbers b i.
Proof.
  intros Hi Hr P E. rewrite E in P. rewrite present_n in P. apply Z.ltb_lt in P.
  apply (C38_padding_has_no_references r Hr). exact P.
Qed.

Context (cn : P -> tensor R) (cnA : tensor (F KA)) (qo : P -> option (tensor R)) (qoA : option (tensor (F KA))).
Context (Hcn : forall i, (i < n)%nat -> real_atom numbers b i -> trk (fun s => sl1 (cn s) b i) (sl1 cnA b i)).
Context (Hq : forall i, (i < n)%nat -> real_atom numbers b i ->
  (exists q0, (forall s, cnq (N := NR) (qo s) (i :: b) = q0) /\ fx q0 (cnq (N := NA) qoA (i :: b))) \/
  (trk (fun s => cnq (N := NR) (qo s) (i :: b)) (cnq (N := NA) qoA (i :: b)) /\
   smooth_charge X (Z.to_nat (sl1 numbers b i)) (cnq (N := NR) (qo t) (i :: b)))).

Lemma r_wt i j r : (i < n)%nat -> (j < n)%nat -> (r < 7)%nat ->
  trk (fun s => wt_of (N := NR) X m (Some (cn s)) (qo s) b i j r) (wt_of (N := NA) XA mA (Some cnA) qoA b i j r).
Proof.
  intros Hi Hj Hr. pose proof (y_wf i j Hi Hj) as YW.
  unfold wt_of. rewrite m_ref_same.
  assert (ED : is_d4s mA = is_d4s m).
  { unfold is_d4s. rewrite (proj1 (proj2 HM)), (proj1 (proj2 HMA)). reflexivity. }
  rewrite ED, (proj1 (proj2 (proj2 HM))), (proj1 (proj2 (proj2 HMA))).
  set (z := sl1 numbers b i) in *. cbn [cnq]. change (dat cnA (i :: b)) with (sl1 cnA b i).
  assert (Cz : (exists r, (r < 7)%nat /\ present z r = true) -> trk (fun s => sl1 (cn s) b i) (sl1 cnA b i)).
  { intros (r' & Hr' & P). apply Hcn; auto. now apply (present_real i r'). }
  assert (ZT : trk (fun s => ztv (N := NR) X (m_ga m) (m_gc m) (m_ref m) z (cnq (N := NR) (qo s) (i :: b)) r)
                   (ztv (N := NA) XA (m_ga mA) (m_gc mA) (m_ref m) z (cnq (N := NA) qoA (i :: b)) r)).
  { apply (r_ztv L X XA HE _ _ _ _ y_mga y_mgc (m_ref m) z (fun s => cnq (N := NR) (qo s) (i :: b))).
    intros P. apply Hq; auto. now apply (present_real i r). }
  destruct (is_d4s m).
  - unfold w4s. apply (r_mul L); [exact ZT|].
    apply (r_gwv L z (fun r s => expw4s (N := NR) z (sl1 (cn s) b i) (wf_of m b i j) r) (fun r => expw4s (N := NA) z (sl1 cnA b i) (wf_of mA b i j) r)
      (wf_of m b i j) (fun s => sl1 (cn s) b i)); auto.
    + now apply z_range.
    + intros s r' Hr'. apply expw4s_R; auto. now apply z_range.
    + intros r' Hr'. apply (r_expw4s L z _ _ YW (fun s => sl1 (cn s) b i)); auto.
  - unfold w4. apply (r_mul L); [exact ZT|].
    apply (r_gwv L z (fun r s => expw4 (N := NR) z (sl1 (cn s) b i) (wf_of m b i j) r) (fun r => expw4 (N := NA) z (sl1 cnA b i) (wf_of mA b i j) r)
      (wf_of m b i j) (fun s => sl1 (cn s) b i)); auto.
    + now apply z_range.
    + intros s r' Hr'. apply expw4_R; auto. now apply z_range.
    + intros r' Hr'. apply (r_expw4 L z _ _ YW (fun s => sl1 (cn s) b i)); auto.
Qed.
Lemma nums : m_numbers m = numbers /\ m_numbers mA = numbers.
Proof. split; [apply HM|apply HMA]. Qed.
Lemma r_c6m i j : (i < n)%nat -> (j < n)%nat ->
  trk (fun s : P => c6m (N := NR) X m (Some (cn s)) (qo s) b i j) (c6m (N := NA) XA mA (Some cnA) qoA b i j).
Proof.
  intros Hi Hj. unfold c6m, c6_of. destruct nums as (-> & ->). rewrite m_ref_same.
  apply (r_sum L 7 (fun y s => fmul (s := KR) (fsum (K := KR) 7 (fun x => fmul (s := KR) (rc6v (K := KR) X (m_ga m) (m_gc m) (m_ref m) (sl1 numbers b i) (sl1 numbers b j) x y)
    (wt_of (N := NR) X m (Some (cn s)) (qo s) b i j x))) (wt_of (N := NR) X m (Some (cn s)) (qo s) b j i y))). intros y Hy.
  apply (r_mul L); [|now apply r_wt].
  apply (r_sum L 7 (fun x s => fmul (s := KR) (rc6v (K := KR) X (m_ga m) (m_gc m) (m_ref m) (sl1 numbers b i) (sl1 numbers b j) x y)
    (wt_of (N := NR) X m (Some (cn s)) (qo s) b i j x))). intros x Hx.
  apply (r_mul L); [|now apply r_wt].
  apply fixed_tracks. apply (y_rc6v L X XA HE); [apply y_mga|apply y_mgc].
Qed.
Lemma r_wpm w i : (i < n)%nat ->
  trk (fun s => wpm (N := NR) X m (Some (cn s)) (qo s) n b w i) (wpm (N := NA) XA mA (Some cnA) qoA n b w i).
Proof.
  intros Hi. unfold wpm, wpol. destruct nums as (-> & ->). rewrite m_ref_same.
  apply (r_sum L 7 (fun x s => fmul (s := KR) (wt_of (N := NR) X m (Some (cn s)) (qo s) b i i x)
     (aref (K := KR) X (m_ga m) (m_gc m) (m_ref m) (sl1 numbers b i) x w))). intros x Hx.
  apply (r_mul L); [now apply r_wt|]. apply fixed_tracks.
  apply (y_aref L X XA HE); [apply y_mga|apply y_mgc].
Qed.
Lemma r_c9x i j k : (i < n)%nat -> (j < n)%nat -> (k < n)%nat ->
  trk (fun s => c9x (N := NR) X m (Some (cn s)) (qo s) n b i j k) (c9x (N := NA) XA mA (Some cnA) qoA n b i j k).
Proof.
  intros Hi Hj Hk'. unfold c9x. apply (r_mul L).
  { apply fixed_tracks. unfold thopi. apply (y_div L); apply (y_lit L). }
  apply (r_sum L 23 (fun w s => fmul (s := KR) (fmul (s := KR) (fmul (s := KR) (wpm (N := NR) X m (Some (cn s)) (qo s) n b w i)
    (wpm (N := NR) X m (Some (cn s)) (qo s) n b w j)) (wpm (N := NR) X m (Some (cn s)) (qo s) n b w k)) (trap_w_atm (K := KR) w))).
  intros w _. apply (r_mul L); [|apply fixed_tracks; apply (y_lit L)].
  apply (r_mul L); [apply (r_mul L)|]; now apply r_wpm.
Qed.
(** the coefficient computed along the path is the one of the specification *)
Lemma c6m_val a (qs : nat -> R) i j : a_numbers (N := NR) a = numbers -> (i < n)%nat -> (j < n)%nat ->
  (forall l, cnq (N := NR) (qo t) (l :: b) = qs l) ->
  c6m (N := NR) X m (Some (cn t)) (qo t) b i j = c6_coef X kind kw a b (sl1 (cn t) b) qs i j.
Proof.
  intros EN Hi Hj Eq. unfold c6m. destruct nums as (-> & _). destruct HM as (H1 & H2 & H3 & Eg & Ec & Er & H4).
  rewrite Eg, Ec, Er, kw_ga_R, kw_gc_R. fold (kw_ref kw). rewrite c6_of_R. unfold c6_coef, mol_z. rewrite EN.
  apply c6_pair_ext; intros r Hr; unfold atom_weight, mol_z; rewrite EN; rewrite (wt_of_R X m kind kw numbers n B) by auto;
    cbn [opt_at]; f_equal; rewrite <- cnq_R; apply Eq.
Qed.
End Mdl.

(** ** Radii and terms of one molecule *)
Notation oat := (opt_at (eps := eps) (mx := mx)).
Section Call.
Context (kind : mkind) (kw : mkwargs NR) (kwA : mkwargs NA) (n c : nat) (B : list nat).
Context (a : P -> Args NR) (aA : Args NA) (HC : call_ad T a aA n c B).
Context (m : Model NR) (mA : Model NA) (HM : is_model (N := NR) X m kind kw (a_numbers aA) n B) (HMA : is_model (N := NA) XA mA kind kwA (a_numbers aA) n B).
Context (Hkw : kw_ad T kw kwA) (Hk : kind = D4M \/ kind = D4SM).
Context (b : list nat) (Hb : valid B b).
Context (cn : P -> tensor R) (cnA : tensor (F KA)) (qo : P -> option (tensor R)) (qoA : option (tensor (F KA))).
Context (Hcn : trk_atoms T (a_numbers aA) n b (fun s => sl1 (cn s) b) (sl1 cnA b)).
Context (Hqo : trk_atoms T (a_numbers aA) n b (fun s => oat (qo s) b) (opt_atA T qoA b)).
Context (p : Disp NR) (Sm : SpecAD.smooth_at X p kind kw (a t) (sl1 (cn t) b) (oat (qo t) b) d0 ds n c b).
Context (Hc3 : 0 <= cut3 (a t)) (HX : exponents_ok T a aA).

Lemma r_r4v i : (i < n)%nat -> trk (fun s => r4v (N := NR) (a s) b i) (r4v (N := NA) aA b i).
Proof.
  intros Hi. pose proof (ca_r4r2 _ _ _ _ _ _ HC) as H. unfold opt_trk_t in H. unfold r4v. destruct (a_r4r2 aA) as [uA|].
  - destruct H as (u & E & TT). apply (tracks_ext L (fun s => sl1 (u s) b i)); [|apply TT; now apply valid_cons].
    intros s. now rewrite E.
  - apply (tracks_ext L (fun s => dat (@R4R2 KR) [Z.to_nat (sl1 (a_numbers aA) b i)])).
    { intros s. rewrite H. now rewrite (ca_numbers _ _ _ _ _ _ HC). }
    apply fixed_tracks. unfold R4R2. cbn [dat nth].
    apply (y_sqrt L). apply (y_mul L); [apply (y_lit L)|]. apply (y_mul L); [apply (y_lit L)|].
    apply (y_sqrt L). apply (y_lit L).
Qed.
Lemma r_rvv i j : (i < n)%nat -> (j < n)%nat -> trk (fun s => rvv (N := NR) X (a s) b i j) (rvv (N := NA) XA aA b i j).
Proof.
  intros Hi Hj. pose proof (ca_rvdw _ _ _ _ _ _ HC) as H. unfold opt_trk_t in H. unfold rvv. destruct (a_rvdw aA) as [uA|].
  - destruct H as (u & E & TT). apply (tracks_ext L (fun s => sl2 (u s) b i j)); [|apply TT; repeat apply valid_cons; auto].
    intros s. now rewrite E.
  - apply (tracks_ext L (fun s => dat (x_vdw X) [Z.to_nat (sl1 (a_numbers aA) b j); Z.to_nat (sl1 (a_numbers aA) b i)])).
    { intros s. rewrite H. now rewrite (ca_numbers _ _ _ _ _ _ HC). }
    apply fixed_tracks. apply HE.
Qed.
Lemma r4v_val i : r4v (N := NR) (a t) b i = mol_Q (a t) b i.
Proof. unfold r4v, mol_Q. destruct (a_r4r2 (a t)); [reflexivity|]. apply r4r2_R. Qed.
Lemma rvv_val i j : rvv (N := NR) X (a t) b i j = mol_vdw X (a t) b i j.
Proof. reflexivity. Qed.
Lemma z_same s : mol_z (a s) b = sl1 (a_numbers aA) b.
Proof. unfold mol_z. now rewrite (ca_numbers _ _ _ _ _ _ HC). Qed.

(** charges as the term [tm] sees them *)
Lemma q_seen (tm : DispTerm NR) : In tm (p_terms p) -> forall i, (i < n)%nat -> real_atom (a_numbers aA) b i ->
  (exists q0, (forall s, cnq (N := NR) (if t_cdep tm then qo s else None) (i :: b) = q0) /\ fx q0 (cnq (N := NA) (if t_cdep tm then qoA else None) (i :: b))) \/
  (trk (fun s => cnq (N := NR) (if t_cdep tm then qo s else None) (i :: b)) (cnq (N := NA) (if t_cdep tm then qoA else None) (i :: b)) /\
   smooth_charge X (Z.to_nat (sl1 (a_numbers aA) b i)) (cnq (N := NR) (if t_cdep tm then qo t else None) (i :: b))).
Proof.
  intros Ht i Hi Hr. destruct (t_cdep tm) eqn:E.
  - right. split.
    + apply (tracks_ext L (fun s => oat (qo s) b i)); [intros s; symmetry; apply cnq_R|].
      replace (cnq (N := NA) qoA (i :: b)) with (opt_atA T qoA b i); [now apply Hqo|].
      destruct qoA; reflexivity.
    + rewrite cnq_R. rewrite <- (z_same t). apply (SpecAD.sm_charges _ _ _ _ _ _ _ _ _ _ _ _ Sm); auto.
      * now exists tm.
      * now rewrite (ca_numbers _ _ _ _ _ _ HC).
  - left. exists (flit (s := KR) 0). split; [reflexivity|]. cbn [cnq]. apply (y_lit L).
Qed.
Lemma q_val (tm : DispTerm NR) l : cnq (N := NR) (if t_cdep tm then qo t else None) (l :: b) = seen (oat (qo t) b) tm l.
Proof. rewrite cnq_R. unfold seen. destruct (t_cdep tm); reflexivity. Qed.

Notation c6s tm := (fun s : P => c6m (N := NR) X m (Some (cn s)) (if t_cdep tm then qo s else None) b).
Notation c6sA tm := (c6m (N := NA) XA mA (Some cnA) (if t_cdep tm then qoA else None) b).
Lemma r_c6t tm i j : In tm (p_terms p) -> (i < n)%nat -> (j < n)%nat -> trk (fun s => c6s tm s i j) (c6sA tm i j).
Proof.
  intros Ht Hi Hj. apply (r_c6m kind kw kwA (a_numbers aA) n B m mA HM HMA Hkw Hk b Hb cn cnA (fun s => if t_cdep tm then qo s else None)); auto.
  now apply q_seen.
Qed.
Lemma r_cut2 s : dat (c_disp2 (a_cut (a s))) [] = Tval T (dat (c_disp2 (a_cut aA)) []).
Proof. apply HC. Qed.

(** exponents *)
Notation alp := (fun s => getd (K := KR) (a_param (a s)) "alp" dALP).
Notation alpA := (getd (K := KA) (a_param aA) "alp" dALP).
Lemma const_steady k q : const_param T a aA k -> steady (fun s => getd (K := KR) (a_param (a s)) k q) (getd (K := KA) (a_param aA) k q).
Proof.
  intros [E|(y & d & E & Ey & Hy)]; unfold steady, getd.
  - exists (flit (s := KR) q). pose proof (ca_param _ _ _ _ _ _ HC k) as HP. unfold opt_trk in HP. rewrite E in HP.
    replace (getp (K := KA) (a_param aA) k) with (@None (F KA)) by (symmetry; exact E). split; [|apply (y_lit L)].
    intros s. now rewrite HP.
  - exists y. replace (getp (K := KA) (a_param aA) k) with (Some d : option (F KA)) by (symmetry; exact E). split; [|exact Hy]. intros s. now rewrite Ey.
Qed.
Lemma alp_cases : steady alp alpA \/
  (clear (T := T) (alp t) /\ clear (T := T) (alp t + 2) /\ clear (T := T) (alp t / 3) /\ clear (T := T) (- alp t) /\ clear (T := T) (- (alp t + 2))).
Proof.
  destruct HX as ([H|H] & _); [left; now apply const_steady|].
  pose proof (ca_param _ _ _ _ _ _ HC "alp") as HP. unfold opt_trk in HP. destruct (getp (a_param aA) "alp") as [d|] eqn:E.
  - right. destruct HP as (f & Ef & _). specialize (H (f t) (Ef t)). unfold getd. now rewrite Ef.
  - left. apply const_steady. now left.
Qed.
Lemma bet_expo : expo (fun s => getd (K := KR) (a_param (a s)) "bet" 0) (getd (K := KA) (a_param aA) "bet" 0).
Proof.
  destruct HX as (_ & [H|H]); [left; now apply const_steady|].
  pose proof (ca_param _ _ _ _ _ _ HC "bet") as HP. unfold opt_trk in HP. destruct (getp (a_param aA) "bet") as [d|] eqn:E.
  - right. destruct HP as (f & Ef & _). specialize (H (f t) (Ef t)). unfold getd. now rewrite Ef.
  - left. apply const_steady. now left.
Qed.
Definition al_all (al : P -> R) (alA : F KA) : Prop := expo al alA /\ expo (fun s => - al s) (fopp (s := KA) alA).
Lemma steady_opp g e : steady g e -> steady (T := T) (fun s => - g s) (fopp (s := KA) e).
Proof. intros (y & Ey & Hy). exists (- y). split; [intros s; now rewrite Ey|]. exact (r_opp L (fun _ => y) e Hy). Qed.
Lemma Q2R2 : Q2R 2 = 2. Proof. unfold Q2R. cbn. lra. Qed.
Lemma steady_add2 g e : steady g e -> steady (T := T) (fun s => fadd (s := KR) (g s) (flit (s := KR) 2)) (fadd (s := KA) e (flit (s := KA) 2)).
Proof.
  intros (y & Ey & Hy). exists (y + Q2R 2). split; [intros s; now rewrite Ey|]. exact (r_add L (fun _ => y) (fun _ => Q2R 2) e _ Hy (y_lit L 2)).
Qed.
Lemma alp6_all : al_all alp alpA.
Proof.
  destruct alp_cases as [S|(C1 & C2 & C3 & C4 & C5)]; split; [now left|left; now apply (steady_opp alp)|right; exact C1|right; exact C4].
Qed.
Lemma alp8_all : al_all (fun s => fadd (s := KR) (alp s) (flit (s := KR) 2)) (fadd (s := KA) alpA (flit (s := KA) 2)).
Proof.
  destruct alp_cases as [S|(C1 & C2 & C3 & C4 & C5)].
  - split; left; [now apply steady_add2|now apply steady_opp, steady_add2].
  - rewrite <- Q2R2 in C2, C5. split; right; [exact C2|exact C5].
Qed.
Lemma alp9_expo : expo (fun s => fdiv (s := KR) (alp s) (flit (s := KR) 3)) (fdiv (s := KA) alpA (flit (s := KA) 3)).
Proof.
  destruct alp_cases as [(y & Ey & Hy)|(C1 & C2 & C3 & C4 & C5)].
  - left. exists (y / Q2R 3). split; [intros s; now rewrite Ey|]. exact (y_div L y (Q2R 3) _ _ Hy (y_lit L 3)).
  - right. replace 3 with (Q2R 3) in C3 by (unfold Q2R; cbn; lra). exact C3.
Qed.

(** *** two-body terms *)
Section Two.
Context (tm : DispTerm NR) (tmA : DispTerm NA) (Ht : In tm (p_terms p)) (Ec : t_class tm = TwoBodyTerm) (EcA : t_class tmA = TwoBodyTerm)
  (Ecd : t_cdep tmA = t_cdep tm) (cls : dclass) (Ed : t_damping tm = damping_of X cls) (EdA : t_damping tmA = damping_of XA cls).
Notation pa := (fun s => a_param (a s)).

Lemma r_rad i j : (i < n)%nat -> (j < n)%nat ->
  trk (fun s => rad_of (damping_of X cls) (r4v (N := NR) (a s) b) (rvv (N := NR) X (a s) b) i j)
      (rad_of (damping_of XA cls) (r4v (N := NA) aA b) (rvv (N := NA) XA aA b) i j).
Proof.
  intros Hi Hj.
  assert (Q : trk (fun s => qq (K := KR) (r4v (N := NR) (a s) b) i j) (qq (K := KA) (r4v (N := NA) aA b) i j)).
  { apply (r_qq L n (fun s => r4v (N := NR) (a s) b)); auto using r_r4v. }
  destruct cls; unfold rad_of; cbn [damping_of d_radius_type]; cbn; try exact Q; now apply r_rvv.
Qed.
Lemma qq_val i j : qq (K := KR) (r4v (N := NR) (a t) b) i j = 3 * mol_Q (a t) b i * mol_Q (a t) b j.
Proof.
  unfold qq. rewrite !r4v_val. change (Q2R 3 * mol_Q (a t) b i * mol_Q (a t) b j = 3 * mol_Q (a t) b i * mol_Q (a t) b j).
  replace (Q2R 3) with 3 by (unfold Q2R; cbn; lra). ring.
Qed.

Lemma g_ok_all rs i j : (rs = "rs6" \/ rs = "rs8")%string -> (i < n)%nat -> (j < n)%nat -> pmask (sl1 (a_numbers aA) b) i j = true ->
  g_ok (T := T) pa cls rs (rad_of (damping_of X cls) (r4v (N := NR) (a t) b) (rvv (N := NR) X (a t) b) i j).
Proof.
  intros Hrs Hi Hj E.
  pose proof (SpecAD.sm_two _ _ _ _ _ _ _ _ _ _ _ _ Sm tm cls Ht Ec Ed i j Hi Hj) as H. rewrite (z_same t), <- pmask_real in H. specialize (H E).
  assert (P1 : 0 < Q2R 1) by (unfold Q2R; cbn; lra).
  unfold g_ok. unfold SpecAD.two_smooth in H. destruct cls; unfold rad_of; cbn [damping_of d_radius_type]; cbn [RationalDamping ZeroDamping MZeroDamping OptimisedPowerDamping d_radius_type String.eqb Ascii.eqb Bool.eqb].
  - rewrite qq_val. split; [exact H|exact I].
  - destruct H as (H & H6 & H8). split; [exact H|]. apply (pos_getd (T := T) pa); [|exact P1]. destruct Hrs as [->| ->]; assumption.
  - destruct H as (H & H6 & H8 & Hbet). split; [exact H|]. split; [apply (pos_getd (T := T) pa); [|exact P1]; destruct Hrs as [->| ->]; assumption|].
    unfold getd, default. cbv beta. destruct (getp (K := KR) (a_param (a t)) "bet") as [x|] eqn:Eb; [exact (Hbet x Eb)|]. change (0 <= Q2R 0). rewrite Q2R_0. lra.
  - rewrite qq_val. destruct H as (H & H'). split; [exact H|].
    change (0 < getd (K := sc NR) (a_param (a t)) "a1" dA1 * sqrt (3 * mol_Q (a t) b i * mol_Q (a t) b j) + getd (K := sc NR) (a_param (a t)) "a2" dA2).
    rewrite getd_a1, getd_a2. exact H'.
Qed.
Lemma apart_pm i j : (i < n)%nat -> (j < n)%nat -> pmask (sl1 (a_numbers aA) b) i j = true ->
  d0 < sqd c (sl2 (a_positions (a t)) b i) (sl2 (a_positions (a t)) b j).
Proof. intros Hi Hj E. apply (SpecAD.sm_apart _ _ _ _ _ _ _ _ _ _ _ _ Sm); auto. now rewrite (z_same t), <- pmask_real. Qed.
Lemma pos_pm i k : (i < n)%nat -> (k < c)%nat -> trk (fun s => sl2 (a_positions (a s)) b i k) (sl2 (a_positions aA) b i k).
Proof. intros. now apply HC. Qed.
Lemma g_trk_all o al alA rs : (rs = "rs6" \/ rs = "rs8")%string -> (exists k, o = 2 * k)%nat -> trk al alA -> al_all al alA ->
  g_trk (T := T) X XA (sl1 (a_numbers aA) b) n c (fun s => sl2 (a_positions (a s)) b) (sl2 (a_positions aA) b)
    (fun s => rad_of (damping_of X cls) (r4v (N := NR) (a s) b) (rvv (N := NR) X (a s) b))
    (rad_of (damping_of XA cls) (r4v (N := NA) aA b) (rvv (N := NA) XA aA b))
    (fun s => ship_g (K := KR) X cls (a_param (a s)) o (al s) rs) (ship_g (K := KA) XA cls (a_param aA) o alA rs).
Proof.
  intros Hrs Ho Tal (TE & TEo) i j Hi Hj E.
  apply (r_ship_g L X XA HE HV pa (a_param aA) (ca_param _ _ _ _ _ _ HC) cls o al alA rs); auto.
  - unfold g_exp. destruct cls; auto. apply bet_expo.
  - apply (r_pdist L X XA HE _ n c (fun s => sl2 (a_positions (a s)) b)); auto using pos_pm, apart_pm.
  - now apply r_rad.
  - edestruct (pdist_val (T := T) X Hd0 HD (sl1 (a_numbers aA) b) n c (fun s => sl2 (a_positions (a s)) b)) as (V & Pv);
      [intros; apply apart_pm; eassumption|exact Hi|exact Hj|exact E|]. rewrite V. exact Pv.
  - now apply g_ok_all.
Qed.
Lemma r_term2 i : (i < n)%nat ->
  trk (fun s => term_val (N := NR) X tm (ship X cls (a_param (a s))) (a_param (a s)) m n c (sl1 (a_numbers aA) b) (sl2 (a_positions (a s)) b) (cn s) (qo s)
         (r4v (N := NR) (a s) b) (rvv (N := NR) X (a s) b) (dat (c_disp2 (a_cut (a s))) []) (dat (c_disp3 (a_cut (a s))) []) b i)
      (term_val (N := NA) XA tmA (ship XA cls (a_param aA)) (a_param aA) mA n c (sl1 (a_numbers aA) b) (sl2 (a_positions aA) b) cnA qoA
         (r4v (N := NA) aA b) (rvv (N := NA) XA aA b) (dat (c_disp2 (a_cut aA)) []) (dat (c_disp3 (a_cut aA)) []) b i).
Proof.
  intros Hi. unfold term_val. rewrite Ec, EcA, Ecd, Ed, EdA.
  pose proof (ca_param _ _ _ _ _ _ HC) as HP.
  apply (r_e2 L X XA HE Hd0 HD (sl1 (a_numbers aA) b) n c (fun s => sl2 (a_positions (a s)) b) (sl2 (a_positions aA) b) pos_pm apart_pm
     (fun s => rad_of (damping_of X cls) (r4v (N := NR) (a s) b) (rvv (N := NR) X (a s) b)) _
     (fun s => dat (c_disp2 (a_cut (a s))) []) _ r_cut2) with (c6 := c6s tm) (rr := fun s => r4v (N := NR) (a s) b)
     (g6 := fun s => f6 (ship X cls (a_param (a s)))) (g8 := fun s => f8 (ship X cls (a_param (a s))))
     (s6 := fun s => getd (K := KR) (a_param (a s)) "s6" dS6) (s8 := fun s => getd (K := KR) (a_param (a s)) "s8" dS8)
     (s10 := fun s => s10_of (N := NR) (a_param (a s)) (ship X cls (a_param (a s)))).
  - intros x y Hx Hy E. rewrite pmask_real, <- (z_same t) in E.
    pose proof (SpecAD.sm_cutoffs _ _ _ _ _ _ _ _ _ _ _ _ Sm tm x y Ht Hx Hy E) as O. unfold cut_of in O. rewrite Ec in O. rewrite cut2_val. exact O.
  - intros. now apply r_c6t.
  - apply r_r4v.
  - exact Hi.
  - apply g_trk_all; [now left|exists 3%nat; lia| |apply alp6_all]. apply (r_getd L pa (a_param aA) HP).
  - apply (g_trk_all 8 (fun s => fadd (s := KR) (getd (K := KR) (a_param (a s)) "alp" dALP) (flit (s := KR) 2))); [now right|exists 4%nat; lia| |apply alp8_all].
    apply (r_add L); [apply (r_getd L pa (a_param aA) HP)|apply (r_lit L)].
  - apply (r_getd L pa (a_param aA) HP).
  - apply (r_getd L pa (a_param aA) HP).
  - unfold s10_of. specialize (HP "s10"%string). unfold opt_trk in HP. destruct (getp (a_param aA) "s10") as [d|].
    + destruct HP as (f & Ef & Tf). exists f, (fun s => f10 (ship X cls (a_param (a s)))). split; [|split; [exact Tf|]].
      * intros s. now rewrite Ef.
      * apply g_trk_all; [now left|exists 5%nat; lia| |apply alp6_all]. apply (r_getd L pa (a_param aA) (ca_param _ _ _ _ _ _ HC)).
    + intros s. now rewrite HP.
Qed.
End Two.

(** *** three-body terms *)
Section Three.
Context (tm : DispTerm NR) (tmA : DispTerm NA) (Ht : In tm (p_terms p)) (Ec : t_class tm <> TwoBodyTerm) (EcA : t_class tmA = t_class tm)
  (Ecd : t_cdep tmA = t_cdep tm).
Notation pa := (fun s => a_param (a s)).
Notation num := (sl1 (a_numbers aA) b).

Lemma r_rad3 i j : (i < n)%nat -> (j < n)%nat -> pmask num i j = true ->
  trk (fun s => rad3_of (N := NR) X (t_class tm) (a_param (a s)) (r4v (N := NR) (a s) b) (rvv (N := NR) X (a s) b) i j)
      (rad3_of (N := NA) XA (t_class tm) (a_param aA) (r4v (N := NA) aA b) (rvv (N := NA) XA aA b) i j) /\
  0 < rad3_of (N := NR) X (t_class tm) (a_param (a t)) (r4v (N := NR) (a t) b) (rvv (N := NR) X (a t) b) i j.
Proof.
  intros Hi Hj E. pose proof (ca_param _ _ _ _ _ _ HC) as HP.
  destruct (SpecAD.sm_three _ _ _ _ _ _ _ _ _ _ _ _ Sm tm Ht Ec) as (H & _). specialize (H i j Hi Hj).
  rewrite (z_same t), <- pmask_real in H. destruct (H E) as (Pr & Ps). clear H.
  assert (BJ : t_class tm <> D3ATM ->
    trk (fun s => radbj (K := KR) X (getd (K := KR) (a_param (a s)) "a1" dA1) (getd (K := KR) (a_param (a s)) "a2" dA2) (r4v (N := NR) (a s) b) i j)
        (radbj (K := KA) XA (getd (K := KA) (a_param aA) "a1" dA1) (getd (K := KA) (a_param aA) "a2" dA2) (r4v (N := NA) aA b) i j) /\
    radbj (K := KR) X (getd (K := KR) (a_param (a t)) "a1" dA1) (getd (K := KR) (a_param (a t)) "a2" dA2) (r4v (N := NR) (a t) b) i j
     = bj_radius (eff_a1 (a t)) (eff_a2 (a t)) (mol_Q (a t) b) i j).
  { intros N3. specialize (Ps N3). unfold radbj. split.
    - apply (r_add L); [|apply (r_getd L pa (a_param aA) HP)]. apply (r_mul L); [apply (r_getd L pa (a_param aA) HP)|].
      apply (ea_sqrt T _ _ _ _ HE (fun s => qq (K := KR) (r4v (N := NR) (a s) b) i j)).
      + apply (r_qq L n (fun s => r4v (N := NR) (a s) b)); auto using r_r4v.
      + rewrite qq_val. exact Ps.
    - change (getd (K := sc NR) (a_param (a t)) "a1" dA1 * x_sqrt X (qq (K := KR) (r4v (N := NR) (a t) b) i j) + getd (K := sc NR) (a_param (a t)) "a2" dA2
         = bj_radius (eff_a1 (a t)) (eff_a2 (a t)) (mol_Q (a t) b) i j).
      rewrite getd_a1, getd_a2, qq_val. rewrite (proj1 HQ) by lra. reflexivity. }
  unfold radius_of in Pr. unfold rad3_of. destruct (t_class tm); [congruence|..].
  - destruct BJ as (TT & V); [discriminate|]. split; [exact TT|]. rewrite <- V in Pr. exact Pr.
  - destruct BJ as (TT & V); [discriminate|]. split; [exact TT|]. rewrite <- V in Pr. exact Pr.
  - split.
    + apply (r_mul L); [apply (r_getd L pa (a_param aA) HP)|]. now apply r_rvv.
    + rewrite rvv_val. replace (getd (K := sc NR) (a_param (a t)) "rs9" dRS9) with (eff_rs9 (a t)); [exact Pr|].
      unfold eff_rs9, getd, default. destruct (getp (K := sc NR) (a_param (a t)) "rs9"); [reflexivity|]. cbn. unfold Q2R; cbn; lra.
Qed.
Lemma r_c9 i j k : (i < n)%nat -> (j < n)%nat -> (k < n)%nat ->
  if tmask num i j k
  then trk (fun s => ClosedDisp.c9_of (N := NR) X (t_class tm) m (Some (cn s)) (if t_cdep tm then qo s else None) n b i j k)
           (ClosedDisp.c9_of (N := NA) XA (t_class tm) mA (Some cnA) (if t_cdep tm then qoA else None) n b i j k)
  else Tproper T (ClosedDisp.c9_of (N := NA) XA (t_class tm) mA (Some cnA) (if t_cdep tm then qoA else None) n b i j k).
Proof.
  intros Hi Hj Hk'.
  assert (EX : trk (fun s => c9x (N := NR) X m (Some (cn s)) (if t_cdep tm then qo s else None) n b i j k)
     (c9x (N := NA) XA mA (Some cnA) (if t_cdep tm then qoA else None) n b i j k)).
  { apply (r_c9x kind kw kwA (a_numbers aA) n B m mA HM HMA Hkw Hk b Hb cn cnA (fun s => if t_cdep tm then qo s else None)); auto.
    now apply q_seen. }
  assert (PR : trk (fun s => fmul (s := KR) (fmul (s := KR) (c6s tm s i j) (c6s tm s i k)) (c6s tm s j k))
     (fmul (s := KA) (fmul (s := KA) (c6sA tm i j) (c6sA tm i k)) (c6sA tm j k))).
  { apply (r_mul L); [apply (r_mul L)|]; now apply r_c6t. }
  assert (AP : t_class tm <> D4ATMExact -> if tmask num i j k
    then trk (fun s => c9a (K := KR) X (c6s tm s) i j k) (c9a (K := KA) XA (c6sA tm) i j k)
    else Tproper T (c9a (K := KA) XA (c6sA tm) i j k)).
  { intros NX. unfold c9a. destruct (tmask num i j k) eqn:E.
    - destruct (SpecAD.sm_three _ _ _ _ _ _ _ _ _ _ _ _ Sm tm Ht Ec) as (_ & H). specialize (H NX i j k Hi Hj Hk').
      rewrite (z_same t), <- tmask_real in H. specialize (H E).
      assert (V : forall x y, (x < n)%nat -> (y < n)%nat -> c6s tm t x y = c6_coef X kind kw (a t) b (sl1 (cn t) b) (seen (oat (qo t) b) tm) x y).
      { intros x y Hx Hy. apply (c6m_val kind kw kwA (a_numbers aA) n B m mA HM HMA Hk b Hb cn (fun s => if t_cdep tm then qo s else None)); auto.
        - apply HC.
        - intros l. apply q_val. }
      rewrite <- !V in H by auto.
      apply (ea_sqrt T _ _ _ _ HE (fun s => fabs (s := KR) (fmul (s := KR) (fmul (s := KR) (c6s tm s i j) (c6s tm s i k)) (c6s tm s j k)))).
      + apply (r_abs L); [exact PR|]. exact (Rle_lt_trans _ _ _ Hds H).
      + apply (Rlt_le_trans _ _ _ H). apply Rle_abs.
    - apply HE. apply (g_abs T L). exact (tracks_proper L _ _ PR). }
  unfold ClosedDisp.c9_of. destruct (t_class tm); [congruence|..].
  - apply AP. discriminate.
  - destruct (tmask num i j k); [exact EX|exact (tracks_proper L _ _ EX)].
  - apply AP. discriminate.
Qed.
Lemma r_term3 cls i : (i < n)%nat ->
  trk (fun s => term_val (N := NR) X tm (ship X cls (a_param (a s))) (a_param (a s)) m n c num (sl2 (a_positions (a s)) b) (cn s) (qo s)
         (r4v (N := NR) (a s) b) (rvv (N := NR) X (a s) b) (dat (c_disp2 (a_cut (a s))) []) (dat (c_disp3 (a_cut (a s))) []) b i)
      (term_val (N := NA) XA tmA (ship XA cls (a_param aA)) (a_param aA) mA n c num (sl2 (a_positions aA) b) cnA qoA
         (r4v (N := NA) aA b) (rvv (N := NA) XA aA b) (dat (c_disp2 (a_cut aA)) []) (dat (c_disp3 (a_cut aA)) []) b i).
Proof.
  intros Hi. pose proof (ca_param _ _ _ _ _ _ HC) as HP.
  assert (G : trk (fun s => e3_atom (K := KR) X n c num (sl2 (a_positions (a s)) b) (ClosedDisp.c9_of (N := NR) X (t_class tm) m (Some (cn s)) (if t_cdep tm then qo s else None) n b)
       (rad3_of (N := NR) X (t_class tm) (a_param (a s)) (r4v (N := NR) (a s) b) (rvv (N := NR) X (a s) b)) (dat (c_disp3 (a_cut (a s))) [])
       (zero_fac (K := KR) X (flit (s := KR) 1) (fdiv (s := KR) (getd (K := KR) (a_param (a s)) "alp" dALP) (flit (s := KR) 3)))
       (getd (K := KR) (a_param (a s)) "s9" dS9) i)
     (e3_atom (K := KA) XA n c num (sl2 (a_positions aA) b) (ClosedDisp.c9_of (N := NA) XA (t_class tm) mA (Some cnA) (if t_cdep tm then qoA else None) n b)
       (rad3_of (N := NA) XA (t_class tm) (a_param aA) (r4v (N := NA) aA b) (rvv (N := NA) XA aA b)) (dat (c_disp3 (a_cut aA)) [])
       (zero_fac (K := KA) XA (flit (s := KA) 1) (fdiv (s := KA) (getd (K := KA) (a_param aA) "alp" dALP) (flit (s := KA) 3)))
       (getd (K := KA) (a_param aA) "s9" dS9) i)).
  { apply (r_e3 L X XA HE Hd0 HD HV num n c (fun s => sl2 (a_positions (a s)) b) (sl2 (a_positions aA) b) pos_pm apart_pm
      (fun s => rad3_of (N := NR) X (t_class tm) (a_param (a s)) (r4v (N := NR) (a s) b) (rvv (N := NR) X (a s) b)) _
      (fun s => dat (c_disp3 (a_cut (a s))) []) (dat (c_disp3 (a_cut aA)) [])) with
      (c9 := fun s => ClosedDisp.c9_of (N := NR) X (t_class tm) m (Some (cn s)) (if t_cdep tm then qo s else None) n b)
      (al := fun s => fdiv (s := KR) (getd (K := KR) (a_param (a s)) "alp" dALP) (flit (s := KR) 3))
      (s9 := fun s => getd (K := KR) (a_param (a s)) "s9" dS9).
    - apply HC.
    - intros x y Hx Hy E. rewrite pmask_real, <- (z_same t) in E.
      pose proof (SpecAD.sm_cutoffs _ _ _ _ _ _ _ _ _ _ _ _ Sm tm x y Ht Hx Hy E) as O. unfold cut_of in O.
      change (dat (c_disp3 (a_cut (a t))) []) with (dat (c_disp3 (a_cut (N := NR) (a t))) []). rewrite cut3_val.
      destruct (t_class tm); [congruence|exact O..].
    - rewrite cut3_val. exact Hc3.
    - apply (r_div L); [apply (r_getd L pa (a_param aA) HP)|apply (r_lit L)|change (Q2R 3 <> 0); unfold Q2R; cbn; lra].
    - apply alp9_expo.
    - apply (r_getd L pa (a_param aA) HP).
    - intros. now apply r_rad3.
    - intros. now apply r_c9.
    - exact Hi. }
  unfold term_val. rewrite EcA, Ecd. destruct (t_class tm); [congruence|exact G..].
Qed.
End Three.

(** *** all terms *)
Lemma r_terms i cl ts tsA : (i < n)%nat -> (forall tm, In tm ts -> In tm (p_terms p)) -> same_terms (NR := NR) (NA := NA) X XA ts tsA cl ->
  forall acc accA, trk acc accA ->
  trk (fun s => fold_left (fadd (s := KR)) (map (fun tF => term_val (N := NR) X (fst tF) (snd tF) (a_param (a s)) m n c (sl1 (a_numbers aA) b) (sl2 (a_positions (a s)) b) (cn s) (qo s)
         (r4v (N := NR) (a s) b) (rvv (N := NR) X (a s) b) (dat (c_disp2 (a_cut (a s))) []) (dat (c_disp3 (a_cut (a s))) []) b i)
         (combine ts (map (fun c => ship X c (a_param (a s))) cl))) (acc s))
      (fold_left (fadd (s := KA)) (map (fun tF => term_val (N := NA) XA (fst tF) (snd tF) (a_param aA) mA n c (sl1 (a_numbers aA) b) (sl2 (a_positions aA) b) cnA qoA
         (r4v (N := NA) aA b) (rvv (N := NA) XA aA b) (dat (c_disp2 (a_cut aA)) []) (dat (c_disp3 (a_cut aA)) []) b i)
         (combine tsA (map (fun c => ship XA c (a_param aA)) cl))) accA).
Proof.
  intros Hi. revert ts tsA. induction cl as [|cl0 cl IH]; intros [|tm ts] [|tmA tsA] Hin H acc accA TT; cbn [same_terms] in H; try contradiction; [exact TT|].
  destruct H as ((E1 & E2 & H) & HR). cbn [map combine fold_left fst snd].
  apply (IH ts tsA (fun x Hx => Hin x (or_intror Hx)) HR
    (fun s => fadd (s := KR) (acc s) (term_val (N := NR) X tm (ship X cl0 (a_param (a s))) (a_param (a s)) m n c (sl1 (a_numbers aA) b) (sl2 (a_positions (a s)) b) (cn s) (qo s)
         (r4v (N := NR) (a s) b) (rvv (N := NR) X (a s) b) (dat (c_disp2 (a_cut (a s))) []) (dat (c_disp3 (a_cut (a s))) []) b i))).
  apply (r_add L); [exact TT|]. pose proof (Hin tm (or_introl eq_refl)) as Ht.
  destruct (t_class tm) eqn:E; [apply r_term2; auto; apply H|..]; (apply r_term3; auto; congruence).
Qed.
End Call.
End P.

(** ** The energy carries its derivatives *)
Section Main.
Context {eps mx : R} {T : Tracking}.
Notation KR := (RS eps mx).
Notation KA := (sl_sc (TK T)).
Notation NR := (RN eps mx).
Notation NA := (LN T).

(** Each energy the calculation with derivatives returns carries the energy of the calculation
    without, as a function of the parameters. *)
Theorem C69_derivatives_carried : forall (X : Ext KR) (XA : Ext KA) W WA p pA a aA kind kw kwA n c B d0 ds cn cnA q qA E,
  Laws (eps := eps) (mx := mx) T -> 1 <= mx ->
  same_calc T X XA W WA p pA a aA kind kw kwA n c B d0 ds cn cnA q qA E ->
  exists eA, run (N := NA) XA WA pA aA = Ok eA /\ shp eA = (n :: B)%list /\
    forall b i, valid B b -> (i < n)%nat -> smooth_mol T X p a kind kw n c d0 ds cn cnA q qA b ->
      Ttrk T (fun t => sl1 (E t) b i) (sl1 eA b i).
Proof.
  intros X XA W WA p pA a aA kind kw kwA n c B d0 ds cn cnA q qA E L Hm
    [(HX & HXA) (Hd0 & Hds & Hc3) (HD & HV & HQ) HE HT Hkw HC HEx HN WFA EcnA EqA].
  destruct (same_terms_of X XA _ _ HT) as (cl & ST).
  assert (FA : Forall2 (term_ok (N := NA) (a_param aA) kind) (p_terms pA) (map (fun c => ship XA c (a_param aA)) cl)).
  { apply (same_ok_A (NR := NR) (NA := NA) X XA _ kind cl (p_terms p)); [apply WFA|exact ST|apply WFA]. }
  destruct (run_closed_full (N := NA) XA WA pA aA kind kwA n c B _ HXA WFA FA) as
    (mA & cnA' & qA' & r4A & rvA & EmA & _ & _ & HMA & EcnA' & _ & EqA' & _ & V4A & VvA & (eA & ErA & SA & VA)).
  rewrite EcnA in EcnA'. assert (cnA' = cnA) by congruence. subst cnA'. clear EcnA'.
  apply charges_are_g in EqA'. pose proof (charges_unique_g _ _ _ _ _ EqA' EqA). subst qA'. clear EqA'.
  exists eA. split; [exact ErA|]. split; [exact SA|]. intros b i Hb Hi [Hcn Hq Sm].
  rewrite (ca_numbers _ _ _ _ _ _ HC) in Hcn, Hq.
  set (t0 := Tp0 T) in *. destruct (w_pt T L _ HN) as (WF0 & _). fold t0 in WF0.
  assert (HK : kind = D4M \/ kind = D4SM).
  { pose proof (wf_kw _ _ _ _ _ _ _ _ _ WF0) as Y. pose proof (wf_model _ _ _ _ _ _ _ _ _ WF0) as Z.
    clear - Z. unfold model_from in Z. destruct Z as [(_ & _ & [(_ & ->)|(_ & ->)])|(m & cls & _ & Z & _)]; auto. }
  destruct (model_from_ok (N := NR) X p (a_numbers (a t0)) kind kw n B HX (wf_model _ _ _ _ _ _ _ _ _ WF0) (wf_numbers _ _ _ _ _ _ _ _ _ WF0)
    (wf_kw _ _ _ _ _ _ _ _ _ WF0) (wf_elements _ _ _ _ _ _ _ _ _ WF0)) as (m & Em & HM).
  rewrite (ca_numbers _ _ _ _ _ _ HC) in Em, HM.
  rewrite VA by auto. unfold sumK, atom_terms.
  set (fA := fun tF : DispTerm NA * tfun (sc NA) => term_val (N := NA) XA (fst tF) (snd tF) (a_param aA) mA n c (sl1 (a_numbers aA) b) (sl2 (a_positions aA) b) cnA qA
     (r4v (N := NA) aA b) (rvv (N := NA) XA aA b) (dat (c_disp2 (a_cut aA)) []) (dat (c_disp3 (a_cut aA)) []) b i).
  rewrite (map_ext _ fA) by (intros tF; apply term_val_ext; auto).
  apply (w_loc T L (fun s => fold_left (fadd (s := KR)) (map (fun tF => term_val (N := NR) X (fst tF) (snd tF) (a_param (a s)) m n c (sl1 (a_numbers aA) b) (sl2 (a_positions (a s)) b) (cn s) (q s)
         (r4v (N := NR) (a s) b) (rvv (N := NR) X (a s) b) (dat (c_disp2 (a_cut (a s))) []) (dat (c_disp3 (a_cut (a s))) []) b i)
         (combine (p_terms p) (map (fun c => ship X c (a_param (a s))) cl))) (flit (s := KR) 0))); [refine (w_mono T L _ _ _ HN)|].
  - intros s (WF & Ecn & Eq & Er).
    assert (FR : Forall2 (term_ok (N := NR) (a_param (a s)) kind) (p_terms p) (map (fun c => ship X c (a_param (a s))) cl)).
    { apply (same_ok_R (NR := NR) (NA := NA) X XA _ kind cl (p_terms p) (p_terms pA)); [apply WF|exact ST|apply WF]. }
    destruct (run_closed_full (N := NR) X W p (a s) kind kw n c B _ HX WF FR) as
      (m' & cn' & q' & r4 & rv & Em' & _ & _ & _ & Ecn' & _ & Eq' & _ & V4 & Vv & (e & Er' & _ & V)).
    rewrite Er in Er'. assert (e = E s) by congruence. subst e. clear Er'.
    rewrite Ecn in Ecn'. assert (cn' = cn s) by congruence. subst cn'. clear Ecn'.
    apply charges_are_g in Eq'. pose proof (charges_unique_g _ _ _ _ _ Eq' Eq). subst q'. clear Eq'.
    rewrite (ca_numbers _ _ _ _ _ _ HC) in Em'. rewrite Em in Em'. assert (m' = m) by congruence. subst m'. clear Em'.
    rewrite V by auto. unfold sumK, atom_terms. rewrite (ca_numbers _ _ _ _ _ _ HC).
    apply (f_equal (fun l => fold_left (fadd (s := KR)) l (flit (s := KR) 0))). apply map_ext. intros tF. symmetry. apply term_val_ext; auto.
  - apply (r_terms L X XA HE Hd0 Hds HD HV HQ Hm kind kw kwA n c B a aA HC m mA HM HMA Hkw HK b Hb cn cnA q qA Hcn Hq p Sm Hc3 HEx i cl
      (p_terms p) (p_terms pA) Hi (fun _ h => h) ST (fun _ => flit (s := KR) 0)).
    apply (r_lit L).
Qed.
End Main.

(** ** Second derivatives by two backward passes *)
Section Hessian.
Context {eps mx : R} {J : Type}.
Notation K1 := (Grad1 eps mx J).
Notation K2 := (Grad2 eps mx J).
Notation Tn j1 j2 x1 x2 := (Tb2 eps mx (J := J) j1 j2 x1 x2).

Lemma Tb1_laws (j2 : J) x2 : Laws (eps := eps) (mx := mx) (Tb1 eps mx j2 x2).
Proof. exact (next_laws (T0_laws eps mx) _ _ (bwd_laws (T0_laws eps mx) j2) x2 (T0_deep eps mx)). Qed.
Lemma Tb1_deep (j2 : J) x2 : Deep (Tb1 eps mx j2 x2).
Proof. exact (next_deep (T0_laws eps mx) _ _ (bwd_laws (T0_laws eps mx) j2) x2 (T0_deep eps mx)). Qed.
Lemma Tb2_laws (j1 j2 : J) x1 x2 : Laws (eps := eps) (mx := mx) (Tn j1 j2 x1 x2).
Proof. exact (next_laws (Tb1_laws j2 x2) _ _ (bwd_laws (Tb1_laws j2 x2) j1) x1 (Tb1_deep j2 x2)). Qed.
Lemma con_trk1 (j2 : J) x2 x : Ttrk (Tb1 eps mx j2 x2) (fun _ => x) (ncon (K := RL eps mx) (M := BwdK (RL eps mx) J) x).
Proof.
  apply (next_con (T0_laws eps mx) _ _ (bwd_laws (T0_laws eps mx) j2)). split; [reflexivity|].
  apply (n_0 _ _ _ (bwd_laws (T0_laws eps mx) j2)).
Qed.
(** what a number of the first level knows *)
Lemma Tb1_der (j2 : J) x2 (D : R -> R) (d : K1) : Ttrk (Tb1 eps mx j2 x2) (fun p => D (fst p)) d ->
  fst d = D x2 /\ derivable_pt_lim D x2 (snd d 1 j2).
Proof.
  intros (V & D' & HD & HM). cbn in V, HD. split; [exact V|]. specialize (HM (fun _ => 1) 1 eq_refl). cbn in HM.
  change (snd d 1 j2 = 1 * D' tt) in HM. rewrite HM, Rmult_1_l. exact HD.
Qed.
Lemma grad_entry_trk n (g : nat -> R) (e : nat -> K2) (f : nat -> R -> R -> R) (j1 j2 : J) u1 u2 :
  (forall i, (i < n)%nat -> Ttrk (Tn j1 j2 u1 u2) (two (f i)) (e i)) ->
  exists D : R * unit -> R,
    Tnear (Tb1 eps mx j2 u2) (fun p => derivable_pt_lim (fun s => rsum n (fun i => g i * f i s (fst p))) u1 (D p)) /\
    Ttrk (Tb1 eps mx j2 u2) D (grad_entry n g e j1).
Proof.
  pose proof (Tb1_laws j2 u2) as L. unfold grad_entry. induction n as [|n IH]; intros H.
  - exists (fun _ => 0). split.
    + apply (near_all L). intros p. apply derivable_pt_lim_const.
    + apply (trk_ext L (fun _ => Q2R 0)); [intros; apply Q2R_0|]. apply (w_lit _ L).
  - destruct IH as (D & HD & TD); [intros i Hi; apply H; lia|].
    destruct (H n (Nat.lt_succ_diag_r n)) as (_ & D' & HD' & TD').
    exists (fun p => D p + g n * D' p). split.
    + apply (near_lim L _ _ (w_and _ L _ _ HD HD')). intros p (P1 & P2). cbn [rsum].
      apply (derivable_pt_lim_plus (fun s => rsum n (fun i => g i * f i s (fst p))) (fun s => g n * f n s (fst p))); [exact P1|].
      apply (derivable_pt_lim_scal (fun s => f n s (fst p))). exact P2.
    + apply (w_add _ L); [exact TD|]. apply (TD' (fun _ => g n)). apply con_trk1.
Qed.

Lemma hessian_of n (g : nat -> R) (e : nat -> K2) (f : nat -> R -> R -> R) (j1 j2 : J) u1 u2 :
  (forall i, (i < n)%nat -> Ttrk (Tn j1 j2 u1 u2) (two (f i)) (e i)) ->
  let G s1 s2 := rsum n (fun i => g i * f i s1 s2) in
  derivable_pt_lim (fun s1 => G s1 u2) u1 (fst (grad_entry n g e j1)) /\ second_derivative G u1 u2 (hess_entry n g e j1 j2).
Proof.
  intros H G. destruct (grad_entry_trk n g e f j1 j2 u1 u2 H) as (D & HD & TD).
  assert (TD' : Ttrk (Tb1 eps mx j2 u2) (fun p => D (fst p, tt)) (grad_entry n g e j1)).
  { apply (trk_ext (Tb1_laws j2 u2) D); [intros (s & []); reflexivity|exact TD]. }
  apply (Tb1_der j2 u2 (fun s => D (s, tt))) in TD'. destruct TD' as (V & DD).
  destruct HD as (r & Hr & HD). split.
  - refine (eq_ind_r (derivable_pt_lim _ _) _ V). apply (HD u2). rewrite Rminus_eq_0, Rabs_R0. exact Hr.
  - exists (fun s => D (s, tt)). split; [|exact DD]. exists r. split; [exact Hr|]. exact HD.
Qed.

Theorem C69_hessian : forall (X : Ext (RS eps mx)) (XA : Ext K2) (W : World (RN eps mx)) (WA : World (LN K2)) (p : Disp (RN eps mx)) (pA : Disp (LN K2))
    (a : J -> J -> R -> R -> Args (RN eps mx)) (aA : Args (LN K2)) kind (kw : mkwargs (RN eps mx)) (kwA : mkwargs (LN K2)) n c B d0 ds
    (x1 x2 : J -> J -> R) (cn : J -> J -> R -> R -> tensor R) (cnA : tensor K2) (q : J -> J -> R -> R -> option (tensor R)) (qA : option (tensor K2)) (E : J -> J -> R -> R -> tensor R) (j0 : J),
  1 <= mx ->
  (forall j1 j2, same_calc (Tn j1 j2 (x1 j1 j2) (x2 j1 j2)) X XA W WA p pA (two (a j1 j2)) aA kind kw kwA n c B d0 ds
     (two (cn j1 j2)) cnA (two (q j1 j2)) qA (two (E j1 j2))) ->
  exists eA, run (N := LN K2) XA WA pA aA = Ok eA /\ shp eA = (n :: B)%list /\
    forall b j1 j2 (g : nat -> R), valid B b ->
      smooth_mol (Tn j1 j2 (x1 j1 j2) (x2 j1 j2)) X p (two (a j1 j2)) kind kw n c d0 ds (two (cn j1 j2)) cnA (two (q j1 j2)) qA b ->
      let G s1 s2 := rsum n (fun i => g i * sl1 (E j1 j2 s1 s2) b i) in
      derivable_pt_lim (fun s1 => G s1 (x2 j1 j2)) (x1 j1 j2) (fst (grad_entry n g (sl1 eA b) j1)) /\
      second_derivative G (x1 j1 j2) (x2 j1 j2) (hess_entry n g (sl1 eA b) j1 j2).
Proof.
  intros X XA W WA p pA a aA kind kw kwA n c B d0 ds x1 x2 cn cnA q qA E j0 Hm H.
  pose proof (fun j1 j2 => C69_derivatives_carried (T := Tn j1 j2 (x1 j1 j2) (x2 j1 j2)) _ _ _ _ _ _ _ _ _ _ _ _ _ _ _ _ _ _ _ _ _
     (Tb2_laws j1 j2 (x1 j1 j2) (x2 j1 j2)) Hm (H j1 j2)) as C.
  destruct (C j0 j0) as (eA & Er & Sh & _). exists eA. split; [exact Er|]. split; [exact Sh|].
  intros b j1 j2 g Hb Sm G. destruct (C j1 j2) as (eA' & Er' & _ & Tr).
  assert (Q : Ok eA' = Ok eA) by (rewrite <- Er; symmetry; exact Er'). injection Q as ->.
  apply (hessian_of n g (sl1 eA b) (fun i s1 s2 => sl1 (E j1 j2 s1 s2) b i) j1 j2 (x1 j1 j2) (x2 j1 j2)).
  intros i Hi. exact (Tr b i Hb Hi Sm).
Qed.
End Hessian.

(** ** Derivatives of any order by nested forward passes *)
Section Forward.
Context {eps mx : R}.
Lemma Tf_both k : forall x, Laws (eps := eps) (mx := mx) (Tf eps mx k x) /\ Deep (Tf eps mx k x).
Proof.
  induction k as [|k IH]; intros x; [split; [apply T0_laws|apply T0_deep]|]. destruct (IH (snd x)) as (H & HD). split.
  - exact (next_laws H _ _ (fwd_laws H) (fst x) HD).
  - exact (next_deep H _ _ (fwd_laws H) (fst x) HD).
Qed.
Lemma Tf_laws k x : Laws (eps := eps) (mx := mx) (Tf eps mx k x).
Proof. apply Tf_both. Qed.
Fixpoint rap (k : nat) : forall x : Rk k, Rk k -> TP (Tf eps mx k x) :=
  match k with O => fun _ p => p | S k => fun x p => (fst p, rap k (snd x) (snd p)) end.
Lemma par_rap k : forall x p, par k x (rap k x p) = p.
Proof. induction k as [|k IH]; intros x p; [destruct p; reflexivity|]. cbn. rewrite IH. now destruct p. Qed.
Lemma Tf_near k : forall x Q, Tnear (Tf eps mx k x) Q -> neark k x (fun p => Q (rap k x p)).
Proof. induction k as [|k IH]; intros x Q H; [exact H|]. exact (IH (snd x) _ H). Qed.
Lemma near_k k : forall x (Q Q' : Rk k -> Prop), (forall p, Q p -> Q' p) -> neark k x Q -> neark k x Q'.
Proof.
  induction k as [|k IH]; intros x Q Q' HQ H; [exact (HQ _ H)|]. apply (IH (snd x) (fun p => exists r, 0 < r /\ forall s, Rabs (s - fst x) < r -> Q (s, p))); [|exact H].
  intros p (r & Hr & H'). exists r. split; auto.
Qed.
Lemma mixed_ext k : forall x f g l, (forall p, f p = g p) -> mixed k f x l -> mixed k g x l.
Proof.
  induction k as [|k IH]; intros x f g l H Hf; [cbn in *; now rewrite <- H|].
  destruct Hf as (D & HD & HM). exists D. split; [|exact HM]. revert HD. apply near_k. intros p. apply derivable_pt_lim_ext. intros s. apply H.
Qed.
Lemma Tf_mixed k : forall x f (d : Tf eps mx k x), Ttrk (Tf eps mx k x) f d -> mixed k (fun p => f (rap k x p)) x (top k x d).
Proof.
  induction k as [|k IH]; intros x f d H; [exact H|]. destruct H as (_ & D & HD & HM).
  exists (fun p => D (rap k (snd x) p)). split; [|exact (IH (snd x) D (snd d) HM)]. exact (Tf_near k (snd x) _ HD).
Qed.

Theorem C69_forward_orders : forall (k : nat) (x : Rk k), let T := Tf eps mx k x in
  forall (X : Ext (RS eps mx)) (XA : Ext T) W WA p pA (a : Rk k -> Args (RN eps mx)) aA kind kw kwA n c B d0 ds
    cn cnA q qA (E : Rk k -> tensor R),
  1 <= mx ->
  same_calc T X XA W WA p pA (fun s => a (par k x s)) aA kind kw kwA n c B d0 ds
     (fun s => cn (par k x s)) cnA (fun s => q (par k x s)) qA (fun s => E (par k x s)) ->
  exists eA, run (N := LN T) XA WA pA aA = Ok eA /\ shp eA = (n :: B)%list /\
    forall b i, valid B b -> (i < n)%nat ->
      smooth_mol T X p (fun s => a (par k x s)) kind kw n c d0 ds (fun s => cn (par k x s)) cnA (fun s => q (par k x s)) qA b ->
      mixed k (fun s => sl1 (E s) b i) x (top k x (sl1 eA b i)).
Proof.
  intros k x T X XA W WA p pA a aA kind kw kwA n c B d0 ds cn cnA q qA E Hm H.
  destruct (C69_derivatives_carried _ _ _ _ _ _ _ _ _ _ _ _ _ _ _ _ _ _ _ _ _ (Tf_laws k x) Hm H) as (eA & Er & Sh & Tr).
  exists eA. split; [exact Er|]. split; [exact Sh|]. intros b i Hb Hi Sm.
  apply (mixed_ext k x (fun s => sl1 (E (par k x (rap k x s))) b i)); [intros s; now rewrite par_rap|].
  exact (Tf_mixed k x _ _ (Tr b i Hb Hi Sm)).
Qed.
End Forward.
(** ** Examples: water and carbon monoxide, all 18 coordinates as leaves *)
From Verif Require Import PropsC6 Inst InstW SpecBits InstAny.
Open Scope R_scope.
(** the external functions with their derivatives: distance, quotient and square root by the chain
    rule, constant tables *)
Definition XadN (K : Scalar) : Ext K :=
  mkExt K (fun c x y => fsqrt (fsum c (fun k => fpown (fsub (x k) (y k)) 2)))
    (fdiv (s := K)) (fsqrt (s := K))
    (mkT [104%nat] (fun _ => flit 1)) (mkT [104%nat] (fun _ => flit 1)) (mkT [104%nat; 104%nat] (fun _ => flit 1)).

Lemma XadN_carries {eps mx} {T : Tracking} (L : Laws (eps := eps) (mx := mx) T) d0 ds : 0 <= d0 -> 0 <= ds ->
  ext_ad T d0 ds (Xex eps mx) (XadN T).
Proof.
  intros Hd Hs. constructor; cbn [Xex XadN x_dist x_div x_sqrt x_zeff x_gam x_vdw dat].
  - intros c x y xA yA Hx Hy Pp.
    apply (tracks_ext L (fun s => fsqrt (s := RS eps mx) (fsum (K := RS eps mx) c (fun k => fpown (s := RS eps mx) (fsub (s := RS eps mx) (x s k) (y s k)) 2)))).
    { intros s. unfold euclid, sqd. cbn [fsqrt RS]. f_equal. apply fsum_R. }
    apply (r_sqrt L).
    + apply (r_sum L c (fun k s => fpown (s := RS eps mx) (fsub (s := RS eps mx) (x s k) (y s k)) 2)). intros k Hk.
      apply (r_pown L). apply (r_sub L); auto.
    + eapply Rle_lt_trans; [exact Hd|]. eapply Rlt_le_trans; [exact Pp|]. right. unfold sqd. symmetry. apply fsum_R.
  - intros f g fA gA Tf Tg N. now apply (r_div L).
  - intros f fA Tf Pp. apply (r_sqrt L); [exact Tf|]. exact (Rle_lt_trans _ _ _ Hs Pp).
  - intros d. apply (g_sqrt T L).
  - intros z. rewrite <- Q2R_1. apply (y_lit L).
  - intros z. rewrite <- Q2R_1. apply (y_lit L).
  - intros y z. rewrite <- Q2R_1. apply (y_lit L).
Qed.

Lemma XadN_tables K : ext_tables (XadN K).
Proof. exists 104%nat, 104%nat, 104%nat. repeat split; lia. Qed.

Section Ex.
Context {eps mx : R} (He : 0 <= eps < 1) (Hm : 1 <= mx).
Notation NR := (RN eps mx).
Notation XR := (Xex eps mx).
Notation WR := (Wany (N := NR) XR).
Notation PR := (Pany (N := NR) XR "d4").

Section Path.
Context {T : Tracking} (L : Laws (eps := eps) (mx := mx) T).
Notation t0 := (Tp0 T).
Notation P := (TP T).
Notation trk := (Ttrk T).
Notation cn_of := (cn_of (eps := eps) (mx := mx)).
Notation q_of := (q_of (eps := eps) (mx := mx)).
Notation e_of := (e_of (eps := eps) (mx := mx)).
Notation NA := (LN T).
Notation KA := (sl_sc (TK T)).
Context (XA : Ext KA) (HXA : ext_ad T 1 0 XR XA) (HTA : ext_tables XA).
Notation WA := (Wany (N := NA) XA).
Notation PA := (Pany (N := NA) XA "d4").
Context (path : P -> tensor R) (posA : tensor (F KA)).
Context (Hp : forall s, shp (path s) = [3; 3; 2]%nat) (HpA : shp posA = [3; 3; 2]%nat).
Context (H0 : forall ix, dat (path t0) ix = dat (line (eps := eps) (mx := mx) 3 [2%nat] 2) ix).
Context (Tp : forall b i k, valid [2%nat] b -> (i < 3)%nat -> (k < 3)%nat -> trk (fun s => sl2 (path s) b i k) (sl2 posA b i k)).

Definition cnA_of : tensor (F KA) := match cn_any (N := NA) XA None two_mols posA with Ok u => u | Raise _ => posA end.
Definition qA_of : tensor (F KA) :=
  match eeq_any (N := NA) XA two_mols posA (scal (flit (s := KA) 0)) (scal (flit (s := KA) 25)) with Ok u => u | Raise _ => posA end.

Lemma ex_cnA : cn_any (N := NA) XA None two_mols posA = Ok cnA_of.
Proof. unfold cnA_of. destruct (cn_any_ok (N := NA) XA None two_mols posA 3 3 [2%nat] eq_refl HpA) as (u & E & _). now rewrite E. Qed.
Lemma ex_qA : eeq_any (N := NA) XA two_mols posA (scal (flit (s := KA) 0)) (scal (flit (s := KA) 25)) = Ok qA_of.
Proof. unfold qA_of, eeq_any. rewrite ex_cnA. reflexivity. Qed.
Lemma ex_wfA : well_formed (N := NA) XA WA PA (gcall (N := NA) two_mols posA) D4M no_kw 3 3 [2%nat].
Proof. apply gcall_wf; auto using two_mols_range. Qed.
Lemma ex_same : same_calc T XR XA WR WA PR PA (fun s => gcall (N := NR) two_mols (path s)) (gcall (N := NA) two_mols posA)
  D4M no_kw no_kw 3 3 [2%nat] 1 0 (fun s => cn_of (path s)) cnA_of (fun s => Some (q_of (path s))) (Some qA_of) (fun s => e_of (path s)).
Proof.
  constructor.
  - split; [apply Xex_tables|exact HTA].
  - split; [lra|]. split; [lra|]. unfold cut3. cbn. lra.
  - split; [apply Xex_dist|]. split; [apply Xex_div|apply Xex_sqrt].
  - exact HXA.
  - constructor; [|constructor; [|constructor]].
    + split; [reflexivity|]. split; [reflexivity|]. exists Rational. split; reflexivity.
    + split; [reflexivity|]. split; [reflexivity|]. split; reflexivity.
  - split; [reflexivity|]. repeat split.
  - constructor; cbn [gcall a_numbers a_positions a_param a_r4r2 a_rvdw].
    + reflexivity.
    + intros b i k Hb Hi Hk. now apply Tp.
    + intros k. unfold opt_trk, getp, gparam. cbn [dget].
      repeat (match goal with |- context [String.eqb ?u k] => destruct (String.eqb u k) end;
        [eexists (fun _ => _); split; [intros s; reflexivity|apply (r_lit L)]|]). reflexivity.
    + cbn. auto.
    + cbn. auto.
    + intros s. symmetry. exact (tracks_val L _ _ (w_lit T L _)).
    + intros s. symmetry. exact (tracks_val L _ _ (w_lit T L _)).
  - split; left.
    + left. reflexivity.
    + left. reflexivity.
  - apply (near_all L). intros s. split; [now apply ex_wf|]. split; [now apply ex_cn|]. split; [|now apply ex_run].
    split; [|intros NC; elim NC; eexists; split; [left; reflexivity|reflexivity]].
    intros _. exists (q_of (path s)). split; [reflexivity|]. apply (ex_q (path s) (Hp s)).
  - apply ex_wfA.
  - apply ex_cnA.
  - split; [|intros NC; elim NC; eexists; split; [left; reflexivity|reflexivity]].
    intros _. exists qA_of. split; [reflexivity|]. apply ex_qA.
Qed.

Notation z := (sl1 two_mols).
Lemma ex_sqd b i j : sqd 3 (sl2 (path t0) b i) (sl2 (path t0) b j) = ((INR i - INR j) * 2) ^ 2.
Proof.
  rewrite <- (line_sqd (eps := eps) (mx := mx) 3 [2%nat] 2 b i j). unfold sqd. apply rsum_ext. intros k _. unfold sl2. now rewrite !H0.
Qed.
Lemma ex_apart b i j : (i < 3)%nat -> (j < 3)%nat -> real_pair (z b) i j = true -> 4 <= sqd 3 (sl2 (path t0) b i) (sl2 (path t0) b j) <= 16.
Proof.
  intros Hi Hj R. rewrite ex_sqd. assert (i <> j).
  { intros ->. unfold real_pair in R. now rewrite Nat.eqb_refl in R. }
  destruct i as [|[|[|i]]], j as [|[|[|j]]]; try lia; cbn [INR]; lra.
Qed.
Lemma ex_cn_val b i s : sl1 (cn_of (path s)) b i = fsum (K := RS eps mx) 3 (fun j => if pmask (z b) i j
    then fdiv (s := RS eps mx) (flit (s := RS eps mx) 1) (fadd (s := RS eps mx) (flit (s := RS eps mx) 1) (x_dist XR 3 (sl2 (path s) b i) (sl2 (path s) b j))) else flit (s := RS eps mx) 0).
Proof. exact (cn_any_val (N := NR) XR None two_mols (path s) 3 3 [2%nat] _ b i eq_refl (Hp s) (ex_cn _ (Hp s))). Qed.
Lemma ex_cn_nonneg b i s : 0 <= sl1 (cn_of (path s)) b i.
Proof.
  rewrite ex_cn_val. rewrite fsum_R. apply rsum_nonneg. intros j _. destruct (pmask (z b) i j); cbn; rewrite ?Q2R_0, ?Q2R_1; [|lra].
  apply Rlt_le, Rdiv_lt_0_compat; [lra|]. pose proof (sqrt_pos (sqd 3 (sl2 (path s) b i) (sl2 (path s) b j))) as P. unfold euclid. lra.
Qed.
Lemma ex_cn_trk b i : valid [2%nat] b -> (i < 3)%nat -> trk (fun s => sl1 (cn_of (path s)) b i) (sl1 cnA_of b i).
Proof.
  intros Hb Hi. apply (tracks_ext L _ _ _ (fun s => eq_sym (ex_cn_val b i s))).
  match goal with |- Ttrk _ ?f _ => refine (eq_ind_r (fun d => trk f d) _ (cn_any_val (N := NA) XA None two_mols posA 3 3 [2%nat] _ b i eq_refl HpA ex_cnA)) end.
  apply (r_sum L 3 (fun j s => if pmask (z b) i j
    then fdiv (s := RS eps mx) (flit (s := RS eps mx) 1) (fadd (s := RS eps mx) (flit (s := RS eps mx) 1) (x_dist XR 3 (sl2 (path s) b i) (sl2 (path s) b j))) else flit (s := RS eps mx) 0)).
  intros j Hj. destruct (pmask (z b) i j) eqn:E; [|apply (r_lit L)]. rewrite pmask_real in E.
  destruct (ex_apart b i j Hi Hj E) as (A & _).
  apply (r_div L); [apply (r_lit L)| |].
  - apply (r_add L); [apply (r_lit L)|].
    apply (ea_dist T 1 0 _ _ HXA 3 (fun s => sl2 (path s) b i) (fun s => sl2 (path s) b j)).
    + intros k Hk. now apply Tp.
    + intros k Hk. now apply Tp.
    + lra.
  - change (Q2R 1 + euclid 3 (sl2 (path t0) b i) (sl2 (path t0) b j) <> 0). rewrite Q2R_1. unfold euclid.
    pose proof (sqrt_pos (sqd 3 (sl2 (path t0) b i) (sl2 (path t0) b j))). lra.
Qed.
Lemma ex_q_val b i s : sl1 (q_of (path s)) b i = 0 + sl1 (cn_of (path s)) b i.
Proof. unfold q_of, eeq_any. rewrite (ex_cn _ (Hp s)). cbn [rmap bind]. unfold sl1 at 1. cbn [dat]. unfold total_charge, scal. cbn [dat]. cbn [flit RS fadd]. now rewrite Q2R_0. Qed.

Lemma ex_smooth b : valid [2%nat] b ->
  smooth_mol T XR PR (fun s => gcall (N := NR) two_mols (path s)) D4M no_kw 3 3 1 0
    (fun s => cn_of (path s)) cnA_of (fun s => Some (q_of (path s))) (Some qA_of) b.
Proof.
  intros Hb. set (a := gcall (N := NR) two_mols (path t0)).
  assert (Q0 : forall i, (i < 3)%nat -> real_atom two_mols b i -> 0 < mol_Q a b i).
  { intros i Hi R. now apply (ex_elements He). }
  assert (RA : forall i j, real_pair (z b) i j = true -> real_atom two_mols b i /\ real_atom two_mols b j).
  { intros i j R. now apply (real_pair_atoms a b i j). }
  assert (QQ : forall i j, (i < 3)%nat -> (j < 3)%nat -> real_pair (z b) i j = true -> 0 < 3 * mol_Q a b i * mol_Q a b j).
  { intros i j Hi Hj R. destruct (RA i j R). apply Rmult_lt_0_compat; [|now apply Q0]. apply Rmult_lt_0_compat; [lra|now apply Q0]. }
  assert (BJ : forall i j, (i < 3)%nat -> (j < 3)%nat -> real_pair (z b) i j = true -> 0 < bj_radius (eff_a1 a) (eff_a2 a) (mol_Q a b) i j).
  { intros i j Hi Hj R. unfold bj_radius.
    assert (A1 : eff_a1 a = 39 / 100) by (change (Q2R (39 # 100) = 39 / 100); unfold Q2R; cbn; lra).
    assert (A2 : eff_a2 a = 48 / 10) by (change (Q2R (48 # 10) = 48 / 10); unfold Q2R; cbn; lra).
    rewrite A1, A2. pose proof (sqrt_pos (3 * mol_Q a b i * mol_Q a b j)). lra. }
  constructor.
  - intros i Hi _. now apply ex_cn_trk.
  - intros i Hi _. cbn [opt_at opt_atA].
    apply (tracks_ext L (fun s => fadd (s := RS eps mx) (flit (s := RS eps mx) 0) (sl1 (cn_of (path s)) b i))).
    { intros s. rewrite ex_q_val. cbn [fadd flit RS]. now rewrite Q2R_0. }
    replace (sl1 qA_of b i) with (fadd (s := KA) (flit (s := KA) 0) (sl1 cnA_of b i)).
    + apply (r_add L); [apply (r_lit L)|now apply ex_cn_trk].
    + unfold qA_of, eeq_any. rewrite ex_cnA. reflexivity.
  - cbv beta. fold a. constructor.
    + intros i j Hi Hj R. pose proof (ex_apart b i j Hi Hj R). change (1 < sqd 3 (sl2 (path t0) b i) (sl2 (path t0) b j)). lra.
    + intros tm i j _ Hi Hj R. destruct (ex_apart b i j Hi Hj R) as (_ & A).
      apply Rlt_not_eq. apply (Rle_lt_trans _ 4).
      * change (sqrt (sqd 3 (sl2 (path t0) b i) (sl2 (path t0) b j)) <= 4). rewrite <- (sqrt_pow2 4) by lra. apply sqrt_le_1_alt. lra.
      * unfold cut_of, cut2, cut3. cbn. destruct (t_class tm); lra.
    + intros _ i Hi _. cbn [opt_at]. rewrite ex_q_val. pose proof (ex_cn_nonneg b i t0).
      split; [change (0 + sl1 (cn_of (path t0)) b i + 1 <> 0)|change (0 + sl1 (cn_of (path t0)) b i + 1 <> eps)]; lra.
    + intros tm cls [<-|[<-|[]]] Ec Ed i j Hi Hj R; [|discriminate Ec].
      destruct cls; cbn [SpecAD.two_smooth].
      * now apply QQ.
      * apply (f_equal (fun d => d_radius_type d)) in Ed. discriminate Ed.
      * apply (f_equal (fun d => d_radius_type d)) in Ed. discriminate Ed.
      * split; [now apply QQ|now apply BJ].
    + intros tm [<-|[<-|[]]] Nc; [now elim Nc|]. split.
      * intros i j Hi Hj R. split; [now apply BJ|]. intros _. now apply QQ.
      * intros _ i j k Hi Hj Hk R. unfold real_triple in R. apply andb_true_iff in R as (R & Rjk). apply andb_true_iff in R as (Rij & Rik).
        destruct (RA i j Rij) as (Ri & Rj). destruct (RA j k Rjk) as (_ & Rk).
        destruct (ex_elements He b i Hb Hi Ri) as (Zi & Ni & _). destruct (ex_elements He b j Hb Hj Rj) as (Zj & Nj & _). destruct (ex_elements He b k Hb Hk Rk) as (Zk & Nk & _).
        apply Rmult_lt_0_compat; [apply Rmult_lt_0_compat|]; apply c6_coef_pos; auto.
Qed.
End Path.

(** *** two backward passes: the Hessian of all energies with respect to all coordinates *)
Notation x0 := (line (eps := eps) (mx := mx) 3 [2%nat] 2).
Notation J := (list nat).
Notation K1 := (Grad1 eps mx J).
Notation K2 := (Grad2 eps mx J).
(** the coordinates, as leaves of both passes *)
Definition leaf {A} (zero : A) (ix : J) : A -> J -> A := fun g j => if list_eq_dec Nat.eq_dec ix j then g else zero.
Definition leaves2 : tensor K2 :=
  mkT (shp x0) (fun ix => ((dat x0 ix, leaf 0 ix), leaf (flit (s := K1) 0) ix)).
(** coordinates [j1] and [j2] moved by [s1] and [s2] *)
Definition moved (j1 j2 : J) (s1 s2 : R) : tensor R :=
  mkT (shp x0) (fun ix => dat x0 ix + (if list_eq_dec Nat.eq_dec ix j1 then s1 else 0) + (if list_eq_dec Nat.eq_dec ix j2 then s2 else 0)).
Lemma leaves2_trk j1 j2 ix : Ttrk (Tb2 eps mx j1 j2 0 0) (two (fun s1 s2 => dat (moved j1 j2 s1 s2) ix)) (dat leaves2 ix).
Proof.
  pose proof (Tb1_laws (eps := eps) (mx := mx) j2 0) as L1. unfold two, moved, leaves2. cbn [dat]. split; [split|].
  - cbn. destruct (list_eq_dec Nat.eq_dec ix j1), (list_eq_dec Nat.eq_dec ix j2); ring.
  - exists (fun _ => if list_eq_dec Nat.eq_dec ix j2 then 1 else 0). split.
    + cbn. destruct (list_eq_dec Nat.eq_dec ix j1), (list_eq_dec Nat.eq_dec ix j2); try apply derivable_pt_lim_const;
        (replace 1 with (0 + 1) by ring; apply (derivable_pt_lim_plus (fun _ => dat x0 ix + 0) id); [apply derivable_pt_lim_const|apply derivable_pt_lim_id]).
    + intros g gA HG. cbn in HG |- *. unfold leaf. rewrite HG. destruct (list_eq_dec Nat.eq_dec ix j2); ring.
  - exists (fun _ => if list_eq_dec Nat.eq_dec ix j1 then 1 else 0). split.
    + apply (near_all L1). intros p. cbn [fst snd].
      destruct (list_eq_dec Nat.eq_dec ix j1); [|apply derivable_pt_lim_const].
      match goal with |- derivable_pt_lim (fun s => ?u + s + ?v) _ _ => replace 1 with (0 + 1 + 0) by ring;
        apply (derivable_pt_lim_plus (fun s => u + s) (fun _ => v)); [|apply derivable_pt_lim_const];
        apply (derivable_pt_lim_plus (fun _ => u) id); [apply derivable_pt_lim_const|apply derivable_pt_lim_id] end.
    + intros g gA HG. cbn [snd]. unfold leaf. destruct (list_eq_dec Nat.eq_dec ix j1).
      * apply (trk_ext L1 g); [intros; ring|exact HG].
      * apply (trk_ext L1 (fun _ => Q2R 0)); [intros; rewrite Q2R_0; ring|apply (w_lit _ L1)].
Qed.
Example C69_hessian_example :
  exists eA, run (N := LN K2) (XadN K2) (Wany (N := LN K2) (XadN K2)) (Pany (N := LN K2) (XadN K2) "d4")
      (gcall (N := LN K2) two_mols leaves2) = Ok eA /\ shp eA = [3; 2]%nat /\
    forall b j1 j2 (g : nat -> R), valid [2%nat] b ->
      let G s1 s2 := rsum 3 (fun i => g i * sl1 (e_of (eps := eps) (mx := mx) (moved j1 j2 s1 s2)) b i) in
      derivable_pt_lim (fun s1 => G s1 0) 0 (fst (grad_entry 3 g (sl1 eA b) j1)) /\
      second_derivative G 0 0 (hess_entry 3 g (sl1 eA b) j1 j2).
Proof.
  assert (Z : forall j1 j2 ix, dat (moved j1 j2 0 0) ix = dat x0 ix).
  { intros j1 j2 ix. unfold moved. cbn [dat]. destruct (list_eq_dec Nat.eq_dec ix j1), (list_eq_dec Nat.eq_dec ix j2); ring. }
  assert (XC : forall j1 j2, ext_ad (Tb2 eps mx j1 j2 0 0) 1 0 XR (XadN K2)).
  { intros j1 j2. apply (XadN_carries (Tb2_laws j1 j2 0 0)); lra. }
  destruct (C69_hessian (J := J) XR (XadN K2) WR (Wany (N := LN K2) (XadN K2)) PR (Pany (N := LN K2) (XadN K2) "d4")
    (fun j1 j2 s1 s2 => gcall (N := NR) two_mols (moved j1 j2 s1 s2)) (gcall (N := LN K2) two_mols leaves2) D4M no_kw no_kw 3 3 [2%nat] 1 0
    (fun _ _ => 0) (fun _ _ => 0)
    (fun j1 j2 s1 s2 => cn_of (eps := eps) (mx := mx) (moved j1 j2 s1 s2)) (cnA_of (T := Tb2 eps mx [] [] 0 0) (XadN K2) leaves2)
    (fun j1 j2 s1 s2 => Some (q_of (eps := eps) (mx := mx) (moved j1 j2 s1 s2))) (Some (qA_of (T := Tb2 eps mx [] [] 0 0) (XadN K2) leaves2))
    (fun j1 j2 s1 s2 => e_of (eps := eps) (mx := mx) (moved j1 j2 s1 s2)) [] Hm) as (eA & E & S & G).
  - intros j1 j2. apply (ex_same (T := Tb2 eps mx j1 j2 0 0) (Tb2_laws j1 j2 0 0) (XadN K2) (XC j1 j2) (XadN_tables K2) (two (moved j1 j2)) leaves2); auto.
    intros. apply leaves2_trk.
  - exists eA. split; [exact E|]. split; [exact S|]. intros b j1 j2 g Hb. apply (G b j1 j2 g Hb).
    apply (ex_smooth (T := Tb2 eps mx j1 j2 0 0) (Tb2_laws j1 j2 0 0) (XadN K2) (XC j1 j2) (two (moved j1 j2)) leaves2); auto.
    + intros ix. apply Z.
    + intros. apply leaves2_trk.
Qed.

(** *** [k] forward passes: the k-th derivative as both molecules are stretched *)
Fixpoint total (k : nat) : Rk k -> R := match k with O => fun _ => 2 | S k => fun s => fst s + total k (snd s) end.
Fixpoint at0 (k : nat) : Rk k := match k with O => tt | S k => (0, at0 k) end.
Notation Tk k := (Tf eps mx k (at0 k)).
(** [u], and [u] times the length, as numbers with derivatives *)
Fixpoint cst (u : R) (k : nat) : Tk k := match k with O => u | S k => (cst u k, cst 0 k) end.
Fixpoint seed (u : R) (k : nat) : Tk k := match k with O => u * 2 | S k => (seed u k, cst u k) end.
Definition unit_line : tensor R := line (eps := eps) (mx := mx) 3 [2%nat] 1.
Definition seeds k : tensor (Tk k) := mkT (shp x0) (fun ix => seed (dat unit_line ix) k).
Lemma cst_trk k : forall u, Ttrk (Tk k) (fun _ => u) (cst u k).
Proof.
  induction k as [|k IH]; intros u; [reflexivity|]. split; [apply IH|]. exists (fun _ => 0). split; [|apply IH].
  apply (near_all (Tf_laws k (at0 k))). intros p. apply derivable_pt_lim_const.
Qed.
Lemma seed_trk k : forall u, Ttrk (Tk k) (fun p => u * total k (par k (at0 k) p)) (seed u k).
Proof.
  induction k as [|k IH]; intros u; [reflexivity|]. pose proof (Tf_laws (eps := eps) (mx := mx) k (at0 k)) as L. split.
  - apply (trk_ext L _ _ _ (fun p => eq_sym (f_equal (Rmult u) (Rplus_0_l (total k (par k (at0 k) p)))))). apply IH.
  - exists (fun _ => u). split; [|apply cst_trk]. apply (near_all L). intros p. cbn [total par fst snd].
    pose proof (derivable_pt_lim_scal (fun s => s + total k (par k (at0 k) p)) u (fst (at0 (S k))) 1) as H.
    rewrite Rmult_1_r in H. apply H. replace 1 with (1 + 0) by ring.
    apply (derivable_pt_lim_plus id (fun _ => total k (par k (at0 k) p))); [apply derivable_pt_lim_id|apply derivable_pt_lim_const].
Qed.
Lemma line_scaled s ix : dat (line (eps := eps) (mx := mx) 3 [2%nat] s) ix = dat unit_line ix * s.
Proof.
  unfold unit_line, line. cbn [dat]. destruct ix as [|k [|i l]]; [symmetry; apply Rmult_0_l|symmetry; apply Rmult_0_l|].
  destruct (Nat.eqb k 0); [|symmetry; apply Rmult_0_l]. change (INR i * s = INR i * 1 * s). ring.
Qed.
Lemma total_0 k : total k (par k (at0 k) (Tp0 (Tk k))) = 2.
Proof. induction k as [|k IH]; [reflexivity|]. change (0 + total k (par k (at0 k) (Tp0 (Tk k))) = 2). rewrite IH. ring. Qed.

Example C69_forward_example : forall k, let K := TK (Tk k) in
  exists eA, run (N := LN K) (XadN K) (Wany (N := LN K) (XadN K)) (Pany (N := LN K) (XadN K) "d4")
      (gcall (N := LN K) two_mols (seeds k)) = Ok eA /\ shp eA = [3; 2]%nat /\
    forall b i, valid [2%nat] b -> (i < 3)%nat ->
      mixed k (fun s => sl1 (e_of (eps := eps) (mx := mx) (line (eps := eps) (mx := mx) 3 [2%nat] (total k s))) b i) (at0 k) (top k (at0 k) (sl1 eA b i)).
Proof.
  intros k K. pose proof (Tf_laws (eps := eps) (mx := mx) k (at0 k)) as L.
  set (path := fun s : TP (Tk k) => line (eps := eps) (mx := mx) 3 [2%nat] (total k (par k (at0 k) s))).
  assert (TR : forall ix, Ttrk (Tk k) (fun s => dat (path s) ix) (dat (seeds k) ix)).
  { intros ix. apply (trk_ext L _ _ _ (fun s => eq_sym (line_scaled _ ix))). apply seed_trk. }
  assert (XC : ext_ad (Tk k) 1 0 XR (XadN K)) by (apply (XadN_carries L); lra).
  destruct (C69_forward_orders k (at0 k) XR (XadN K) WR (Wany (N := LN K) (XadN K)) PR (Pany (N := LN K) (XadN K) "d4")
    (fun s => gcall (N := NR) two_mols (line (eps := eps) (mx := mx) 3 [2%nat] (total k s))) (gcall (N := LN K) two_mols (seeds k)) D4M no_kw no_kw 3 3 [2%nat] 1 0
    (fun s => cn_of (eps := eps) (mx := mx) (line (eps := eps) (mx := mx) 3 [2%nat] (total k s))) (cnA_of (T := Tk k) (XadN K) (seeds k))
    (fun s => Some (q_of (eps := eps) (mx := mx) (line (eps := eps) (mx := mx) 3 [2%nat] (total k s)))) (Some (qA_of (T := Tk k) (XadN K) (seeds k)))
    (fun s => e_of (eps := eps) (mx := mx) (line (eps := eps) (mx := mx) 3 [2%nat] (total k s))) Hm) as (eA & E & S & G).
  - apply (ex_same (T := Tk k) L (XadN K) XC (XadN_tables K) path (seeds k)); auto; intros; apply TR.
  - exists eA. split; [exact E|]. split; [exact S|]. intros b i Hb Hi. apply (G b i Hb Hi).
    apply (ex_smooth (T := Tk k) L (XadN K) XC path (seeds k)); auto.
    + intros ix. unfold path. now rewrite total_0.
    + intros; apply TR.
Qed.
End Ex.
(** ** An exponent of exactly zero *)
(** The restriction on exponents ([expo]) is needed: at exponent 0, which is the default of [bet], the
    second derivative of a power by base and exponent is not the one PyTorch's formulas give. *)
Theorem C69_zero_exponent_refuted : forall eps mx, let T := Tf eps mx 2 (0, (0, tt)) in
  exists d e : T, Ttrk T (fun p => 2 + fst p) d /\ Ttrk T (fun p => fst (snd p)) e /\
    top 2 (0, (0, tt)) (fpow (s := T) d e) = 0 /\
    second_derivative (fun s1 s2 => rpow (2 + s1) s2) 0 0 (1 / 2).
Proof.
  intros eps mx T. exists ((2, 0), (1, 0)), ((0, 1), (0, 0)). cbn.
  assert (P : forall u x, derivable_pt_lim (fun s => u + s) x 1).
  { intros u x. replace 1 with (0 + 1) by ring. apply (derivable_pt_lim_plus (fun _ => u) id); [apply derivable_pt_lim_const|apply derivable_pt_lim_id]. }
  split; [|split; [|split]].
  - split; [split; [ring|]|].
    + exists (fun _ => 0). split; [apply derivable_pt_lim_const|reflexivity].
    + exists (fun _ => 1). split; [|split; [reflexivity|exists (fun _ => 0); split; [apply derivable_pt_lim_const|reflexivity]]].
      exists 1. split; [lra|]. intros s _. apply P.
  - split; [split; [reflexivity|]|].
    + exists (fun _ => 1). split; [apply derivable_pt_lim_id|reflexivity].
    + exists (fun _ => 0). split; [|split; [reflexivity|exists (fun _ => 0); split; [apply derivable_pt_lim_const|reflexivity]]].
      exists 1. split; [lra|]. intros s _. apply derivable_pt_lim_const.
  - unfold npow1. cbn. unfold reqb. destruct (Req_EM_T 0 (Q2R 0)) as [_|N]; [|elim N; now rewrite Q2R_0]. cbn. rewrite Q2R_0. ring.
  - exists (fun s => s * Rpower 2 (s - 1)). split.
    + exists 1. split; [lra|]. intros s _.
      apply (derivable_pt_lim_locally_ext (fun x => Rpower (2 + x) s) _ 0 (-1) 1); [lra| |].
      * intros z Hz. symmetry. apply rpow_pos. lra.
      * pose proof (derivable_pt_lim_comp (fun x => 2 + x) (fun y => Rpower y s) 0 1 (s * Rpower 2 (s - 1)) (P 2 0)) as H.
        rewrite Rmult_1_r in H. apply H. rewrite Rplus_0_r. apply derivable_pt_lim_power. lra.
    + replace (1 / 2) with (1 * Rpower 2 (0 - 1) + 0 * (Rpower 2 (0 - 1) * ln 2)).
      * apply (derivable_pt_lim_mult id (fun s => Rpower 2 (s - 1))); [apply derivable_pt_lim_id|].
        unfold Rpower. pose proof (derivable_pt_lim_comp (fun s => (s - 1) * ln 2) exp 0 (ln 2) (exp ((0 - 1) * ln 2))) as H.
        apply H; [|apply derivable_pt_lim_exp].
        pose proof (derivable_pt_lim_minus id (fun _ => 1) 0 1 0 (derivable_pt_lim_id 0) (derivable_pt_lim_const 1 0)) as Q.
        replace (1 - 0) with 1 in Q by ring.
        pose proof (derivable_pt_lim_mult (fun s => s - 1) (fun _ => ln 2) 0 1 0 Q (derivable_pt_lim_const (ln 2) 0)) as Q'.
        cbv beta in Q'. replace (1 * ln 2 + (0 - 1) * 0) with (ln 2) in Q' by ring. exact Q'.
      * replace (0 - 1) with (- (1)) by ring. rewrite Rpower_Ropp, Rpower_1 by lra. field.
Qed.
Print Assumptions C69_derivatives_carried.
Print Assumptions C69_hessian.
Print Assumptions C69_forward_orders.
Print Assumptions C69_zero_exponent_refuted.
