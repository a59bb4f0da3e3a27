(** * C64: derivatives of the energy by automatic differentiation *)
From Coq Require Import Reals Lra Lia List Arith ZArith QArith Qreals Bool String.
From Verif Require Import Py Tensor Scalar RInst AdInst ModelExt ModelUtils ModelDamping ModelModels
  ModelTerms ModelDisp Spec SpecCall SpecR SpecMol SpecW SpecD4 DataPair TensorLemmas Closed ClosedM ClosedTerms ClosedModels ClosedDamp ClosedDisp CallLemmas
  Usable PropsOutcome PropsTables WeightsR WeightsP PropsDiff PropsD4 EnergyR Energy3R SpecAD AdR AdW AdT.
Import ListNotations.
Open Scope R_scope.

(** ** The closed form of a term depends on the radii of the atoms of the molecule only *)
Section G.
Context {N : Num} (X : Ext (sc N)).
Lemma term_val_ext t F param (m : Model N) n c num pos cn q r r' rv rv' cut2 cut3 b i : (i < n)%nat ->
  (forall i, (i < n)%nat -> r i = r' i) -> (forall i j, (i < n)%nat -> (j < n)%nat -> rv i j = rv' i j) ->
  term_val X t F param m n c num pos cn q r rv cut2 cut3 b i = term_val X t F param m n c num pos cn q r' rv' cut2 cut3 b i.
Proof.
  intros Hi Hr Hv. unfold term_val.
  assert (Q : forall i j, (i < n)%nat -> (j < n)%nat -> qq r i j = qq r' i j) by (intros; unfold qq; now rewrite !Hr).
  assert (R3 : forall cls x y, (x < n)%nat -> (y < n)%nat -> rad3_of X cls param r rv x y = rad3_of X cls param r' rv' x y).
  { intros cls x y Hx Hy. unfold rad3_of, radbj. destruct cls; now rewrite ?Q, ?Hv. }
  destruct (t_class t); try (apply e3_atom_ext_n; auto).
  rewrite (e2_atom_ext_n X n c num pos _ (c6m X m (Some cn) (if t_cdep t then q else None) b) (rad_of (t_damping t) r rv) (rad_of (t_damping t) r' rv')); auto.
  2:{ intros x y Hx Hy. unfold rad_of. destruct (d_radius_type (t_damping t) =? "rvdw")%string; auto. }
  unfold e2_atom, c8v, c10v. f_equal.
  assert (E8 : forall cf, fsum n (fun j => fmul (fmul (c6m X m (Some cn) (if t_cdep t then q else None) b i j) (qq r i j)) (cf j))
     = fsum n (fun j => fmul (fmul (c6m X m (Some cn) (if t_cdep t then q else None) b i j) (qq r' i j)) (cf j))).
  { intros cf. apply fsum_ext. intros j Hj. now rewrite Q. }
  rewrite E8. destruct (s10_of param F) as [[x g]|]; [|reflexivity]. do 2 f_equal. apply fsum_ext. intros j Hj. now rewrite Q.
Qed.
Lemma charges_are_g (W : World N) (p : Disp N) a qo :
  charges W p (a_numbers a) (a_positions a) (a_charge a) (a_cut a) (a_q a) = Ok qo -> charges_are W p a qo.
Proof.
  unfold charges, charges_are. replace (c_cn_eeq (a_cut a)) with (eeq_cut a) by (unfold a_cut, eeq_cut; destruct (a_cutoff a); reflexivity).
  destruct (a_q a) as [q|]; [intros E; now injection E|].
  destruct (existsb (@t_cdep N) (p_terms p)) eqn:E.
  - destruct (w_eeq W _ _ _ _) as [q|] eqn:EQ; cbn [bind]; [|discriminate]. intros E'. injection E' as <-.
    split; [eauto|]. intros NC. elim NC. now apply needs_charges_b.
  - intros E'. injection E' as <-. split; [|reflexivity]. intros NC. apply needs_charges_b in NC. congruence.
Qed.
Lemma charges_unique_g (W : World N) (p : Disp N) a q q' : charges_are W p a q -> charges_are W p a q' -> q = q'.
Proof.
  unfold charges_are. destruct (a_q a) as [q0|]; [congruence|]. intros [H1 H2] [H1' H2'].
  destruct (existsb (@t_cdep N) (p_terms p)) eqn:E.
  - apply needs_charges_b in E. destruct (H1 E) as (t & -> & E1). destruct (H1' E) as (t' & -> & E2). congruence.
  - rewrite H2, H2'; auto; intros Y; apply needs_charges_b in Y; congruence.
Qed.
End G.

(** ** Terms with the classes of their damping functions *)
Section T.
Context {NR NA : Num} (X : Ext (sc NR)) (XA : Ext (sc NA)).
Fixpoint same_terms (ts : list (DispTerm NR)) (tsA : list (DispTerm NA)) (cl : list dclass) : Prop :=
  match ts, tsA, cl with
  | [], [], [] => True
  | t :: ts, tA :: tsA, c :: cl =>
      (t_class tA = t_class t /\ t_cdep tA = t_cdep t /\
       match t_class t with
       | TwoBodyTerm => t_damping t = damping_of X c /\ t_damping tA = damping_of XA c
       | _ => t_damping t = ZeroDamping X /\ t_damping tA = ZeroDamping XA
       end) /\ same_terms ts tsA cl
  | _, _, _ => False
  end.
Lemma same_ok_R param kind cl ts tsA : good_param param -> same_terms ts tsA cl -> (forall t, In t ts -> usable param kind t) ->
  Forall2 (term_ok param kind) ts (map (fun c => ship X c param) cl).
Proof.
  intros G. revert ts tsA. induction cl as [|c cl IH]; intros [|t ts] [|tA tsA] H U; cbn [same_terms map] in *; try contradiction; constructor.
  - destruct H as ((_ & _ & H) & _). pose proof (U t (or_introl eq_refl)) as Ut.
    destruct (t_class t) eqn:E; [apply term_ship2; auto; apply H|..]; (apply term_ship3; [congruence|apply H|exact Ut]).
  - destruct H as (_ & H). apply (IH ts tsA H). intros x Hx. apply U. now right.
Qed.
Lemma same_ok_A param kind cl ts tsA : good_param param -> same_terms ts tsA cl -> (forall t, In t tsA -> usable param kind t) ->
  Forall2 (term_ok param kind) tsA (map (fun c => ship XA c param) cl).
Proof.
  intros G. revert ts tsA. induction cl as [|c cl IH]; intros [|t ts] [|tA tsA] H U; cbn [same_terms map] in *; try contradiction; constructor.
  - destruct H as ((E1 & _ & H) & _). pose proof (U tA (or_introl eq_refl)) as Ut.
    destruct (t_class t) eqn:E; [apply term_ship2; auto; apply H|..]; (apply term_ship3; [congruence|apply H|exact Ut]).
  - destruct H as (_ & H). apply (IH ts tsA H). intros x Hx. apply U. now right.
Qed.
End T.
Lemma same_terms_of {M eps mx} (X : Ext (RS eps mx)) (XA : Ext (AS M eps mx)) ts tsA :
  Forall2 (term_ad X XA) ts tsA -> exists cl, same_terms (NR := RN eps mx) (NA := AN M eps mx) X XA ts tsA cl.
Proof.
  induction 1 as [|t tA ts tsA (H1 & H2 & H3) HR (cl & IH)]; [exists []; exact I|].
  destruct (t_class t) eqn:E.
  - destruct H3 as (c & H3). exists (c :: cl). cbn [same_terms]. rewrite E. auto.
  - exists (Rational :: cl). cbn [same_terms]. rewrite E. auto.
  - exists (Rational :: cl). cbn [same_terms]. rewrite E. auto.
  - exists (Rational :: cl). cbn [same_terms]. rewrite E. auto.
Qed.

Section P.
Context {M : Lin} (means : LT M -> R -> Prop) (HS : lin_sound means) {eps mx : R} (t : R).
Notation KR := (RS eps mx).
Notation KA := (AS M eps mx).
Notation NR := (RN eps mx).
Notation NA := (AN M eps mx).
Notation trk := (tracks means t).
Notation fx := (fixed means).
Context {d0 ds : R} (X : Ext KR) (XA : Ext KA) (HE : ext_ad means d0 ds X XA).
Context (Hd0 : 0 < d0) (Hds : 0 <= ds) (HD : dist_contract d0 X) (HV : div_contract X) (HQ : sqrt_contract ds X) (Hm : 1 <= mx).

(** ** Model parameters *)
Section Mdl.
Context (kind : mkind) (kw : mkwargs NR) (kwA : mkwargs NA) (numbers : tensor Z) (n : nat) (B : list nat).
Context (m : Model NR) (mA : Model NA) (HM : is_model (N := NR) X m kind kw numbers n B) (HMA : is_model (N := NA) XA mA kind kwA numbers n B).
Context (Hkw : kw_ad means kw kwA) (Hk : kind = D4M \/ kind = D4SM).
Context (b : list nat) (Hb : valid B b).

Lemma y_default o oA q : opt_fixed means o oA -> fx (default o (flit (s := KR) q)) (default oA (flit (s := KA) q)).
Proof. unfold opt_fixed. destruct o, oA; cbn [default]; try contradiction; auto. intros _. apply (y_lit means HS). Qed.
Lemma y_mga : fx (m_ga m) (m_ga mA).
Proof. destruct HM as (_ & _ & _ & -> & _), HMA as (_ & _ & _ & -> & _). apply y_default. apply Hkw. Qed.
Lemma y_mgc : fx (m_gc m) (m_gc mA).
Proof. destruct HM as (_ & _ & _ & _ & -> & _), HMA as (_ & _ & _ & _ & -> & _). apply y_default. apply Hkw. Qed.
Lemma m_ref_same : m_ref mA = m_ref m.
Proof. destruct HM as (_ & _ & _ & _ & _ & -> & _), HMA as (_ & _ & _ & _ & _ & -> & _). now rewrite (proj1 Hkw). Qed.
Lemma y_wf i j : (i < n)%nat -> (j < n)%nat -> fx (wf_of m b i j) (wf_of mA b i j).
Proof.
  intros Hi Hj. destruct HM as (_ & _ & _ & _ & _ & _ & W), HMA as (_ & _ & _ & _ & _ & _ & WA).
  rewrite W, WA by auto. unfold wfv. destruct Hkw as (_ & _ & _ & Kw). unfold opt_fixed_t in Kw.
  destruct (k_wf kw) as [w|], (k_wf kwA) as [wA|]; try contradiction.
  - destruct kind; apply Kw.
  - destruct kind; try apply (y_lit means HS).
Qed.
Lemma z_range i : (i < n)%nat -> (0 <= sl1 numbers b i <= 103)%Z.
Proof.
  intros Hi. destruct HM as ((_ & _ & Hs & HR & _) & _ & EN & _). rewrite EN in *.
  assert (V : valid (shp numbers) (i :: b)) by (rewrite Hs; split; auto).
  apply HR in V. pose proof (ref_limit_le (m_ref m)). unfold sl1. lia.
Qed.
Lemma present_real i r : (i < n)%nat -> (r < 7)%nat -> present (sl1 numbers b i) r = true -> real_atom numbers b i.
Proof.
  intros Hi Hr P E. rewrite E in P. rewrite present_n in P. apply Z.ltb_lt in P.
  apply (C38_padding_has_no_references r Hr). exact P.
Qed.

Context (cn : R -> tensor R) (cnA : tensor (adn M)) (qo : R -> option (tensor R)) (qoA : option (tensor (adn M))).
Context (Hcn : forall i, (i < n)%nat -> real_atom numbers b i -> trk (fun s => sl1 (cn s) b i) (sl1 cnA b i)).
Context (Hq : forall i, (i < n)%nat -> real_atom numbers b i ->
  (exists q0, (forall s, cnq (N := NR) (qo s) (i :: b) = q0) /\ fx q0 (cnq (N := NA) qoA (i :: b))) \/
  (trk (fun s => cnq (N := NR) (qo s) (i :: b)) (cnq (N := NA) qoA (i :: b)) /\
   smooth_charge X (Z.to_nat (sl1 numbers b i)) (cnq (N := NR) (qo t) (i :: b)))).

Lemma r_wt i j r : (i < n)%nat -> (j < n)%nat -> (r < 7)%nat ->
  trk (fun s => wt_of (N := NR) X m (Some (cn s)) (qo s) b i j r) (wt_of (N := NA) XA mA (Some cnA) qoA b i j r).
Proof.
  intros Hi Hj Hr. pose proof (y_wf i j Hi Hj) as YW.
  unfold wt_of. rewrite m_ref_same.
  assert (ED : is_d4s mA = is_d4s m).
  { unfold is_d4s. rewrite (proj1 (proj2 HM)), (proj1 (proj2 HMA)). reflexivity. }
  rewrite ED, (proj1 (proj2 (proj2 HM))), (proj1 (proj2 (proj2 HMA))).
  set (z := sl1 numbers b i) in *. cbn [cnq]. change (dat cnA (i :: b)) with (sl1 cnA b i).
  assert (Cz : (exists r, (r < 7)%nat /\ present z r = true) -> trk (fun s => sl1 (cn s) b i) (sl1 cnA b i)).
  { intros (r' & Hr' & P). apply Hcn; auto. now apply (present_real i r'). }
  assert (ZT : trk (fun s => ztv (N := NR) X (m_ga m) (m_gc m) (m_ref m) z (cnq (N := NR) (qo s) (i :: b)) r)
                   (ztv (N := NA) XA (m_ga mA) (m_gc mA) (m_ref m) z (cnq (N := NA) qoA (i :: b)) r)).
  { apply (r_ztv means HS t X XA HE _ _ _ _ y_mga y_mgc (m_ref m) z (fun s => cnq (N := NR) (qo s) (i :: b))).
    intros P. apply Hq; auto. now apply (present_real i r). }
  destruct (is_d4s m).
  - unfold w4s. apply (r_mul means HS); [exact ZT|].
    apply (r_gwv means HS t z (fun r s => expw4s (N := NR) z (sl1 (cn s) b i) (wf_of m b i j) r) (fun r => expw4s (N := NA) z (sl1 cnA b i) (wf_of mA b i j) r)
      (wf_of m b i j) (fun s => sl1 (cn s) b i)); auto.
    + now apply z_range.
    + intros s r' Hr'. apply expw4s_R; auto. now apply z_range.
    + intros r' Hr'. apply (r_expw4s means HS t z _ _ YW (fun s => sl1 (cn s) b i)); auto.
  - unfold w4. apply (r_mul means HS); [exact ZT|].
    apply (r_gwv means HS t z (fun r s => expw4 (N := NR) z (sl1 (cn s) b i) (wf_of m b i j) r) (fun r => expw4 (N := NA) z (sl1 cnA b i) (wf_of mA b i j) r)
      (wf_of m b i j) (fun s => sl1 (cn s) b i)); auto.
    + now apply z_range.
    + intros s r' Hr'. apply expw4_R; auto. now apply z_range.
    + intros r' Hr'. apply (r_expw4 means HS t z _ _ YW (fun s => sl1 (cn s) b i)); auto.
Qed.
Lemma nums : m_numbers m = numbers /\ m_numbers mA = numbers.
Proof. split; [apply HM|apply HMA]. Qed.
Lemma r_c6m i j : (i < n)%nat -> (j < n)%nat ->
  trk (fun s => c6m (N := NR) X m (Some (cn s)) (qo s) b i j) (c6m (N := NA) XA mA (Some cnA) qoA b i j).
Proof.
  intros Hi Hj. unfold c6m, c6_of. destruct nums as (-> & ->). rewrite m_ref_same.
  apply (r_sum means HS t 7 (fun y s => fmul (s := KR) (fsum (K := KR) 7 (fun x => fmul (s := KR) (rc6v (K := KR) X (m_ga m) (m_gc m) (m_ref m) (sl1 numbers b i) (sl1 numbers b j) x y)
    (wt_of (N := NR) X m (Some (cn s)) (qo s) b i j x))) (wt_of (N := NR) X m (Some (cn s)) (qo s) b j i y))). intros y Hy.
  apply (r_mul means HS); [|now apply r_wt].
  apply (r_sum means HS t 7 (fun x s => fmul (s := KR) (rc6v (K := KR) X (m_ga m) (m_gc m) (m_ref m) (sl1 numbers b i) (sl1 numbers b j) x y)
    (wt_of (N := NR) X m (Some (cn s)) (qo s) b i j x))). intros x Hx.
  apply (r_mul means HS); [|now apply r_wt].
  apply fixed_tracks. apply (y_rc6v means HS X XA HE); [apply y_mga|apply y_mgc].
Qed.
Lemma r_wpm w i : (i < n)%nat ->
  trk (fun s => wpm (N := NR) X m (Some (cn s)) (qo s) n b w i) (wpm (N := NA) XA mA (Some cnA) qoA n b w i).
Proof.
  intros Hi. unfold wpm, wpol. destruct nums as (-> & ->). rewrite m_ref_same.
  apply (r_sum means HS t 7 (fun x s => fmul (s := KR) (wt_of (N := NR) X m (Some (cn s)) (qo s) b i i x)
     (aref (K := KR) X (m_ga m) (m_gc m) (m_ref m) (sl1 numbers b i) x w))). intros x Hx.
  apply (r_mul means HS); [now apply r_wt|]. apply fixed_tracks.
  apply (y_aref means HS X XA HE); [apply y_mga|apply y_mgc].
Qed.
Lemma r_c9x i j k : (i < n)%nat -> (j < n)%nat -> (k < n)%nat ->
  trk (fun s => c9x (N := NR) X m (Some (cn s)) (qo s) n b i j k) (c9x (N := NA) XA mA (Some cnA) qoA n b i j k).
Proof.
  intros Hi Hj Hk'. unfold c9x. apply (r_mul means HS).
  { apply fixed_tracks. unfold thopi. apply (y_div means HS); apply (y_lit means HS). }
  apply (r_sum means HS t 23 (fun w s => fmul (s := KR) (fmul (s := KR) (fmul (s := KR) (wpm (N := NR) X m (Some (cn s)) (qo s) n b w i)
    (wpm (N := NR) X m (Some (cn s)) (qo s) n b w j)) (wpm (N := NR) X m (Some (cn s)) (qo s) n b w k)) (trap_w_atm (K := KR) w))).
  intros w _. apply (r_mul means HS); [|apply fixed_tracks; apply (y_lit means HS)].
  apply (r_mul means HS); [apply (r_mul means HS)|]; now apply r_wpm.
Qed.
(** the coefficient computed along the path is the one of the specification *)
Lemma c6m_val a (qs : nat -> R) i j : a_numbers (N := NR) a = numbers -> (i < n)%nat -> (j < n)%nat ->
  (forall l, cnq (N := NR) (qo t) (l :: b) = qs l) ->
  c6m (N := NR) X m (Some (cn t)) (qo t) b i j = c6_coef X kind kw a b (sl1 (cn t) b) qs i j.
Proof.
  intros EN Hi Hj Eq. unfold c6m. destruct nums as (-> & _). destruct HM as (H1 & H2 & H3 & Eg & Ec & Er & H4).
  rewrite Eg, Ec, Er, kw_ga_R, kw_gc_R. fold (kw_ref kw). rewrite c6_of_R. unfold c6_coef, mol_z. rewrite EN.
  apply c6_pair_ext; intros r Hr; unfold atom_weight, mol_z; rewrite EN; rewrite (wt_of_R X m kind kw numbers n B) by auto;
    cbn [opt_at]; f_equal; rewrite <- cnq_R; apply Eq.
Qed.
End Mdl.

(** ** Radii and terms of one molecule *)
Notation oat := (opt_at (eps := eps) (mx := mx)).
Section Call.
Context (kind : mkind) (kw : mkwargs NR) (kwA : mkwargs NA) (n c : nat) (B : list nat).
Context (a : R -> Args NR) (aA : Args NA) (HC : call_ad means t a aA n c B).
Context (m : Model NR) (mA : Model NA) (HM : is_model (N := NR) X m kind kw (a_numbers aA) n B) (HMA : is_model (N := NA) XA mA kind kwA (a_numbers aA) n B).
Context (Hkw : kw_ad means kw kwA) (Hk : kind = D4M \/ kind = D4SM).
Context (b : list nat) (Hb : valid B b).
Context (cn : R -> tensor R) (cnA : tensor (adn M)) (qo : R -> option (tensor R)) (qoA : option (tensor (adn M))).
Context (Hcn : trk_atoms means t (a_numbers aA) n b (fun s => sl1 (cn s) b) (sl1 cnA b)).
Context (Hqo : trk_atoms means t (a_numbers aA) n b (fun s => oat (qo s) b) (opt_atA qoA b)).
Context (p : Disp NR) (Sm : smooth_at X p kind kw (a t) (sl1 (cn t) b) (oat (qo t) b) d0 ds n c b).
Context (Hc3 : 0 <= cut3 (a t)).

Lemma r_r4v i : (i < n)%nat -> trk (fun s => r4v (N := NR) (a s) b i) (r4v (N := NA) aA b i).
Proof.
  intros Hi. pose proof (ca_r4r2 _ _ _ _ _ _ _ HC) as H. unfold opt_trk_t in H. unfold r4v. destruct (a_r4r2 aA) as [uA|].
  - destruct H as (u & E & T). apply (tracks_ext means (fun s => sl1 (u s) b i)); [|apply T; now apply valid_cons].
    intros s. now rewrite E.
  - apply (tracks_ext means (fun s => dat (@R4R2 KR) [Z.to_nat (sl1 (a_numbers aA) b i)])).
    { intros s. rewrite H. now rewrite (ca_numbers _ _ _ _ _ _ _ HC). }
    apply fixed_tracks. unfold R4R2. cbn [dat nth].
    apply (y_sqrt means HS). apply (y_mul means HS); [apply (y_lit means HS)|]. apply (y_mul means HS); [apply (y_lit means HS)|].
    apply (y_sqrt means HS). apply (y_lit means HS).
Qed.
Lemma r_rvv i j : (i < n)%nat -> (j < n)%nat -> trk (fun s => rvv (N := NR) X (a s) b i j) (rvv (N := NA) XA aA b i j).
Proof.
  intros Hi Hj. pose proof (ca_rvdw _ _ _ _ _ _ _ HC) as H. unfold opt_trk_t in H. unfold rvv. destruct (a_rvdw aA) as [uA|].
  - destruct H as (u & E & T). apply (tracks_ext means (fun s => sl2 (u s) b i j)); [|apply T; repeat apply valid_cons; auto].
    intros s. now rewrite E.
  - apply (tracks_ext means (fun s => dat (x_vdw X) [Z.to_nat (sl1 (a_numbers aA) b j); Z.to_nat (sl1 (a_numbers aA) b i)])).
    { intros s. rewrite H. now rewrite (ca_numbers _ _ _ _ _ _ _ HC). }
    apply fixed_tracks. apply HE.
Qed.
Lemma r4v_val i : r4v (N := NR) (a t) b i = mol_Q (a t) b i.
Proof. unfold r4v, mol_Q. destruct (a_r4r2 (a t)); [reflexivity|]. apply r4r2_R. Qed.
Lemma rvv_val i j : rvv (N := NR) X (a t) b i j = mol_vdw X (a t) b i j.
Proof. reflexivity. Qed.
Lemma z_same s : mol_z (a s) b = sl1 (a_numbers aA) b.
Proof. unfold mol_z. now rewrite (ca_numbers _ _ _ _ _ _ _ HC). Qed.

(** charges as the term [tm] sees them *)
Lemma q_seen (tm : DispTerm NR) : In tm (p_terms p) -> forall i, (i < n)%nat -> real_atom (a_numbers aA) b i ->
  (exists q0, (forall s, cnq (N := NR) (if t_cdep tm then qo s else None) (i :: b) = q0) /\ fx q0 (cnq (N := NA) (if t_cdep tm then qoA else None) (i :: b))) \/
  (trk (fun s => cnq (N := NR) (if t_cdep tm then qo s else None) (i :: b)) (cnq (N := NA) (if t_cdep tm then qoA else None) (i :: b)) /\
   smooth_charge X (Z.to_nat (sl1 (a_numbers aA) b i)) (cnq (N := NR) (if t_cdep tm then qo t else None) (i :: b))).
Proof.
  intros Ht i Hi Hr. destruct (t_cdep tm) eqn:E.
  - right. split.
    + apply (tracks_ext means (fun s => oat (qo s) b i)); [intros s; symmetry; apply cnq_R|].
      replace (cnq (N := NA) qoA (i :: b)) with (opt_atA qoA b i); [now apply Hqo|].
      destruct qoA; [reflexivity|]. cbn. now rewrite Q2R_0.
    + rewrite cnq_R. rewrite <- (z_same t). apply (sm_charges _ _ _ _ _ _ _ _ _ _ _ _ Sm); auto.
      * now exists tm.
      * now rewrite (ca_numbers _ _ _ _ _ _ _ HC).
  - left. exists (flit (s := KR) 0). split; [reflexivity|]. cbn [cnq]. apply (y_lit means HS).
Qed.
Lemma q_val (tm : DispTerm NR) l : cnq (N := NR) (if t_cdep tm then qo t else None) (l :: b) = seen (oat (qo t) b) tm l.
Proof. rewrite cnq_R. unfold seen. destruct (t_cdep tm); reflexivity. Qed.

Notation c6s tm := (fun s => c6m (N := NR) X m (Some (cn s)) (if t_cdep tm then qo s else None) b).
Notation c6sA tm := (c6m (N := NA) XA mA (Some cnA) (if t_cdep tm then qoA else None) b).
Lemma r_c6t tm i j : In tm (p_terms p) -> (i < n)%nat -> (j < n)%nat -> trk (fun s => c6s tm s i j) (c6sA tm i j).
Proof.
  intros Ht Hi Hj. apply (r_c6m kind kw kwA (a_numbers aA) n B m mA HM HMA Hkw Hk b Hb cn cnA (fun s => if t_cdep tm then qo s else None)); auto.
  now apply q_seen.
Qed.
Lemma r_cut2 s : dat (c_disp2 (a_cut (a s))) [] = fst (dat (c_disp2 (a_cut aA)) []).
Proof. apply HC. Qed.

(** *** two-body terms *)
Section Two.
Context (tm : DispTerm NR) (tmA : DispTerm NA) (Ht : In tm (p_terms p)) (Ec : t_class tm = TwoBodyTerm) (EcA : t_class tmA = TwoBodyTerm)
  (Ecd : t_cdep tmA = t_cdep tm) (cls : dclass) (Ed : t_damping tm = damping_of X cls) (EdA : t_damping tmA = damping_of XA cls).
Notation pa := (fun s => a_param (a s)).

Lemma r_rad i j : (i < n)%nat -> (j < n)%nat ->
  trk (fun s => rad_of (damping_of X cls) (r4v (N := NR) (a s) b) (rvv (N := NR) X (a s) b) i j)
      (rad_of (damping_of XA cls) (r4v (N := NA) aA b) (rvv (N := NA) XA aA b) i j).
Proof.
  intros Hi Hj.
  assert (Q : trk (fun s => qq (K := KR) (r4v (N := NR) (a s) b) i j) (qq (K := KA) (r4v (N := NA) aA b) i j)).
  { apply (r_qq means HS t n (fun s => r4v (N := NR) (a s) b)); auto using r_r4v. }
  destruct cls; unfold rad_of; cbn [damping_of d_radius_type]; cbn; try exact Q; now apply r_rvv.
Qed.
Lemma qq_val i j : qq (K := KR) (r4v (N := NR) (a t) b) i j = 3 * mol_Q (a t) b i * mol_Q (a t) b j.
Proof.
  unfold qq. rewrite !r4v_val. change (Q2R 3 * mol_Q (a t) b i * mol_Q (a t) b j = 3 * mol_Q (a t) b i * mol_Q (a t) b j).
  replace (Q2R 3) with 3 by (unfold Q2R; cbn; lra). ring.
Qed.

Lemma g_ok_all rs i j : (rs = "rs6" \/ rs = "rs8")%string -> (i < n)%nat -> (j < n)%nat -> pmask (sl1 (a_numbers aA) b) i j = true ->
  g_ok t pa cls rs (rad_of (damping_of X cls) (r4v (N := NR) (a t) b) (rvv (N := NR) X (a t) b) i j).
Proof.
  intros Hrs Hi Hj E.
  pose proof (sm_two _ _ _ _ _ _ _ _ _ _ _ _ Sm tm cls Ht Ec Ed i j Hi Hj) as H. rewrite (z_same t), <- pmask_real in H. specialize (H E).
  assert (P1 : 0 < Q2R 1) by (unfold Q2R; cbn; lra).
  unfold g_ok. unfold two_smooth in H. destruct cls; unfold rad_of; cbn [damping_of d_radius_type]; cbn [RationalDamping ZeroDamping MZeroDamping OptimisedPowerDamping d_radius_type String.eqb Ascii.eqb Bool.eqb].
  - rewrite qq_val. split; [exact H|exact I].
  - destruct H as (H & H6 & H8). split; [exact H|]. apply (pos_getd t pa); [|exact P1]. destruct Hrs as [->| ->]; assumption.
  - destruct H as (H & H6 & H8 & Hbet). split; [exact H|]. split; [apply (pos_getd t pa); [|exact P1]; destruct Hrs as [->| ->]; assumption|].
    unfold getd, default. cbv beta. destruct (getp (K := KR) (a_param (a t)) "bet") as [x|] eqn:Eb; [exact (Hbet x Eb)|]. change (0 <= Q2R 0). rewrite Q2R_0. lra.
  - rewrite qq_val. destruct H as (H & H'). split; [exact H|].
    change (0 < getd (K := sc NR) (a_param (a t)) "a1" dA1 * sqrt (3 * mol_Q (a t) b i * mol_Q (a t) b j) + getd (K := sc NR) (a_param (a t)) "a2" dA2).
    rewrite getd_a1, getd_a2. exact H'.
Qed.
Lemma apart_pm i j : (i < n)%nat -> (j < n)%nat -> pmask (sl1 (a_numbers aA) b) i j = true ->
  d0 < sqd c (sl2 (a_positions (a t)) b i) (sl2 (a_positions (a t)) b j).
Proof. intros Hi Hj E. apply (sm_apart _ _ _ _ _ _ _ _ _ _ _ _ Sm); auto. now rewrite (z_same t), <- pmask_real. Qed.
Lemma pos_pm i k : (i < n)%nat -> (k < c)%nat -> trk (fun s => sl2 (a_positions (a s)) b i k) (sl2 (a_positions aA) b i k).
Proof. intros. now apply HC. Qed.
Lemma g_trk_all o al alA rs : (rs = "rs6" \/ rs = "rs8")%string -> (exists k, o = 2 * k)%nat -> trk al alA ->
  g_trk means t X XA (sl1 (a_numbers aA) b) n c (fun s => sl2 (a_positions (a s)) b) (sl2 (a_positions aA) b)
    (fun s => rad_of (damping_of X cls) (r4v (N := NR) (a s) b) (rvv (N := NR) X (a s) b))
    (rad_of (damping_of XA cls) (r4v (N := NA) aA b) (rvv (N := NA) XA aA b))
    (fun s => ship_g (K := KR) X cls (a_param (a s)) o (al s) rs) (ship_g (K := KA) XA cls (a_param aA) o alA rs).
Proof.
  intros Hrs Ho Tal i j Hi Hj E.
  apply (r_ship_g means HS t X XA HE HV pa (a_param aA) (ca_param _ _ _ _ _ _ _ HC) cls o al alA rs); auto.
  - apply (r_pdist means HS t X XA HE _ n c (fun s => sl2 (a_positions (a s)) b)); auto using pos_pm, apart_pm.
  - now apply r_rad.
  - edestruct (pdist_val t X Hd0 HD (sl1 (a_numbers aA) b) n c (fun s => sl2 (a_positions (a s)) b)) as (V & P);
      [intros; apply apart_pm; eassumption|exact Hi|exact Hj|exact E|]. rewrite V. exact P.
  - now apply g_ok_all.
Qed.
Lemma r_term2 i : (i < n)%nat ->
  trk (fun s => term_val (N := NR) X tm (ship X cls (a_param (a s))) (a_param (a s)) m n c (sl1 (a_numbers aA) b) (sl2 (a_positions (a s)) b) (cn s) (qo s)
         (r4v (N := NR) (a s) b) (rvv (N := NR) X (a s) b) (dat (c_disp2 (a_cut (a s))) []) (dat (c_disp3 (a_cut (a s))) []) b i)
      (term_val (N := NA) XA tmA (ship XA cls (a_param aA)) (a_param aA) mA n c (sl1 (a_numbers aA) b) (sl2 (a_positions aA) b) cnA qoA
         (r4v (N := NA) aA b) (rvv (N := NA) XA aA b) (dat (c_disp2 (a_cut aA)) []) (dat (c_disp3 (a_cut aA)) []) b i).
Proof.
  intros Hi. unfold term_val. rewrite Ec, EcA, Ecd, Ed, EdA.
  pose proof (ca_param _ _ _ _ _ _ _ HC) as HP.
  apply (r_e2 means HS t X XA HE Hd0 HD (sl1 (a_numbers aA) b) n c (fun s => sl2 (a_positions (a s)) b) (sl2 (a_positions aA) b) pos_pm apart_pm
     (fun s => rad_of (damping_of X cls) (r4v (N := NR) (a s) b) (rvv (N := NR) X (a s) b)) _
     (fun s => dat (c_disp2 (a_cut (a s))) []) _ r_cut2) with (c6 := c6s tm) (rr := fun s => r4v (N := NR) (a s) b)
     (g6 := fun s => f6 (ship X cls (a_param (a s)))) (g8 := fun s => f8 (ship X cls (a_param (a s))))
     (s6 := fun s => getd (K := KR) (a_param (a s)) "s6" dS6) (s8 := fun s => getd (K := KR) (a_param (a s)) "s8" dS8)
     (s10 := fun s => s10_of (N := NR) (a_param (a s)) (ship X cls (a_param (a s)))).
  - intros x y Hx Hy E. rewrite pmask_real, <- (z_same t) in E.
    pose proof (sm_cutoffs _ _ _ _ _ _ _ _ _ _ _ _ Sm tm x y Ht Hx Hy E) as O. unfold cut_of in O. rewrite Ec in O. rewrite cut2_val. exact O.
  - intros. now apply r_c6t.
  - apply r_r4v.
  - exact Hi.
  - apply g_trk_all; [now left|exists 3%nat; lia|]. apply (r_getd means HS t pa (a_param aA) HP).
  - apply (g_trk_all 8 (fun s => fadd (s := KR) (getd (K := KR) (a_param (a s)) "alp" dALP) (flit (s := KR) 2))); [now right|exists 4%nat; lia|].
    apply (r_add means HS); [apply (r_getd means HS t pa (a_param aA) HP)|apply (r_lit means HS)].
  - apply (r_getd means HS t pa (a_param aA) HP).
  - apply (r_getd means HS t pa (a_param aA) HP).
  - unfold s10_of. specialize (HP "s10"%string). unfold opt_trk in HP. destruct (getp (a_param aA) "s10") as [d|].
    + destruct HP as (f & Ef & Tf). exists f, (fun s => f10 (ship X cls (a_param (a s)))). split; [|split; [exact Tf|]].
      * intros s. now rewrite Ef.
      * apply g_trk_all; [now left|exists 5%nat; lia|]. apply (r_getd means HS t pa (a_param aA) (ca_param _ _ _ _ _ _ _ HC)).
    + intros s. now rewrite HP.
Qed.
End Two.

(** *** three-body terms *)
Section Three.
Context (tm : DispTerm NR) (tmA : DispTerm NA) (Ht : In tm (p_terms p)) (Ec : t_class tm <> TwoBodyTerm) (EcA : t_class tmA = t_class tm)
  (Ecd : t_cdep tmA = t_cdep tm).
Notation pa := (fun s => a_param (a s)).
Notation num := (sl1 (a_numbers aA) b).

Lemma r_rad3 i j : (i < n)%nat -> (j < n)%nat -> pmask num i j = true ->
  trk (fun s => rad3_of (N := NR) X (t_class tm) (a_param (a s)) (r4v (N := NR) (a s) b) (rvv (N := NR) X (a s) b) i j)
      (rad3_of (N := NA) XA (t_class tm) (a_param aA) (r4v (N := NA) aA b) (rvv (N := NA) XA aA b) i j) /\
  0 < rad3_of (N := NR) X (t_class tm) (a_param (a t)) (r4v (N := NR) (a t) b) (rvv (N := NR) X (a t) b) i j.
Proof.
  intros Hi Hj E. pose proof (ca_param _ _ _ _ _ _ _ HC) as HP.
  destruct (sm_three _ _ _ _ _ _ _ _ _ _ _ _ Sm tm Ht Ec) as (H & _). specialize (H i j Hi Hj).
  rewrite (z_same t), <- pmask_real in H. destruct (H E) as (Pr & Ps). clear H.
  assert (BJ : t_class tm <> D3ATM ->
    trk (fun s => radbj (K := KR) X (getd (K := KR) (a_param (a s)) "a1" dA1) (getd (K := KR) (a_param (a s)) "a2" dA2) (r4v (N := NR) (a s) b) i j)
        (radbj (K := KA) XA (getd (K := KA) (a_param aA) "a1" dA1) (getd (K := KA) (a_param aA) "a2" dA2) (r4v (N := NA) aA b) i j) /\
    radbj (K := KR) X (getd (K := KR) (a_param (a t)) "a1" dA1) (getd (K := KR) (a_param (a t)) "a2" dA2) (r4v (N := NR) (a t) b) i j
     = bj_radius (eff_a1 (a t)) (eff_a2 (a t)) (mol_Q (a t) b) i j).
  { intros N3. specialize (Ps N3). unfold radbj. split.
    - apply (r_add means HS); [|apply (r_getd means HS t pa (a_param aA) HP)]. apply (r_mul means HS); [apply (r_getd means HS t pa (a_param aA) HP)|].
      apply (ea_sqrt means _ _ _ _ HE t (fun s => qq (K := KR) (r4v (N := NR) (a s) b) i j)).
      + apply (r_qq means HS t n (fun s => r4v (N := NR) (a s) b)); auto using r_r4v.
      + rewrite qq_val. exact Ps.
    - change (getd (K := sc NR) (a_param (a t)) "a1" dA1 * x_sqrt X (qq (K := KR) (r4v (N := NR) (a t) b) i j) + getd (K := sc NR) (a_param (a t)) "a2" dA2
         = bj_radius (eff_a1 (a t)) (eff_a2 (a t)) (mol_Q (a t) b) i j).
      rewrite getd_a1, getd_a2, qq_val. rewrite (proj1 HQ) by lra. reflexivity. }
  unfold radius_of in Pr. unfold rad3_of. destruct (t_class tm); [congruence|..].
  - destruct BJ as (T & V); [discriminate|]. split; [exact T|]. rewrite <- V in Pr. exact Pr.
  - destruct BJ as (T & V); [discriminate|]. split; [exact T|]. rewrite <- V in Pr. exact Pr.
  - split.
    + apply (r_mul means HS); [apply (r_getd means HS t pa (a_param aA) HP)|]. now apply r_rvv.
    + rewrite rvv_val. replace (getd (K := sc NR) (a_param (a t)) "rs9" dRS9) with (eff_rs9 (a t)); [exact Pr|].
      unfold eff_rs9, getd, default. destruct (getp (K := sc NR) (a_param (a t)) "rs9"); [reflexivity|]. cbn. unfold Q2R; cbn; lra.
Qed.
Lemma r_c9 i j k : (i < n)%nat -> (j < n)%nat -> (k < n)%nat ->
  if tmask num i j k
  then trk (fun s => ClosedDisp.c9_of (N := NR) X (t_class tm) m (Some (cn s)) (if t_cdep tm then qo s else None) n b i j k)
           (ClosedDisp.c9_of (N := NA) XA (t_class tm) mA (Some cnA) (if t_cdep tm then qoA else None) n b i j k)
  else proper means (ClosedDisp.c9_of (N := NA) XA (t_class tm) mA (Some cnA) (if t_cdep tm then qoA else None) n b i j k).
Proof.
  intros Hi Hj Hk'.
  assert (EX : trk (fun s => c9x (N := NR) X m (Some (cn s)) (if t_cdep tm then qo s else None) n b i j k)
     (c9x (N := NA) XA mA (Some cnA) (if t_cdep tm then qoA else None) n b i j k)).
  { apply (r_c9x kind kw kwA (a_numbers aA) n B m mA HM HMA Hkw Hk b Hb cn cnA (fun s => if t_cdep tm then qo s else None)); auto.
    now apply q_seen. }
  assert (PR : trk (fun s => fmul (s := KR) (fmul (s := KR) (c6s tm s i j) (c6s tm s i k)) (c6s tm s j k))
     (fmul (s := KA) (fmul (s := KA) (c6sA tm i j) (c6sA tm i k)) (c6sA tm j k))).
  { apply (r_mul means HS); [apply (r_mul means HS)|]; now apply r_c6t. }
  assert (AP : t_class tm <> D4ATMExact -> if tmask num i j k
    then trk (fun s => c9a (K := KR) X (c6s tm s) i j k) (c9a (K := KA) XA (c6sA tm) i j k)
    else proper means (c9a (K := KA) XA (c6sA tm) i j k)).
  { intros NX. unfold c9a. destruct (tmask num i j k) eqn:E.
    - destruct (sm_three _ _ _ _ _ _ _ _ _ _ _ _ Sm tm Ht Ec) as (_ & H). specialize (H NX i j k Hi Hj Hk').
      rewrite (z_same t), <- tmask_real in H. specialize (H E).
      assert (V : forall x y, (x < n)%nat -> (y < n)%nat -> c6s tm t x y = c6_coef X kind kw (a t) b (sl1 (cn t) b) (seen (oat (qo t) b) tm) x y).
      { intros x y Hx Hy. apply (c6m_val kind kw kwA (a_numbers aA) n B m mA HM HMA Hk b Hb cn (fun s => if t_cdep tm then qo s else None)); auto.
        - apply HC.
        - intros l. apply q_val. }
      rewrite <- !V in H by auto.
      apply (ea_sqrt means _ _ _ _ HE t (fun s => fabs (s := KR) (fmul (s := KR) (fmul (s := KR) (c6s tm s i j) (c6s tm s i k)) (c6s tm s j k)))).
      + apply (r_abs means HS); [exact PR|]. exact (Rle_lt_trans _ _ _ Hds H).
      + apply (Rlt_le_trans _ _ _ H). apply Rle_abs.
    - apply HE. apply (proper_un means HS). exact (tracks_proper _ _ _ _ PR). }
  unfold ClosedDisp.c9_of. destruct (t_class tm); [congruence|..].
  - apply AP. discriminate.
  - destruct (tmask num i j k); [exact EX|exact (tracks_proper _ _ _ _ EX)].
  - apply AP. discriminate.
Qed.
Lemma r_term3 cls i : (i < n)%nat ->
  trk (fun s => term_val (N := NR) X tm (ship X cls (a_param (a s))) (a_param (a s)) m n c num (sl2 (a_positions (a s)) b) (cn s) (qo s)
         (r4v (N := NR) (a s) b) (rvv (N := NR) X (a s) b) (dat (c_disp2 (a_cut (a s))) []) (dat (c_disp3 (a_cut (a s))) []) b i)
      (term_val (N := NA) XA tmA (ship XA cls (a_param aA)) (a_param aA) mA n c num (sl2 (a_positions aA) b) cnA qoA
         (r4v (N := NA) aA b) (rvv (N := NA) XA aA b) (dat (c_disp2 (a_cut aA)) []) (dat (c_disp3 (a_cut aA)) []) b i).
Proof.
  intros Hi. pose proof (ca_param _ _ _ _ _ _ _ HC) as HP.
  assert (G : trk (fun s => e3_atom (K := KR) X n c num (sl2 (a_positions (a s)) b) (ClosedDisp.c9_of (N := NR) X (t_class tm) m (Some (cn s)) (if t_cdep tm then qo s else None) n b)
       (rad3_of (N := NR) X (t_class tm) (a_param (a s)) (r4v (N := NR) (a s) b) (rvv (N := NR) X (a s) b)) (dat (c_disp3 (a_cut (a s))) [])
       (zero_fac (K := KR) X (flit (s := KR) 1) (fdiv (s := KR) (getd (K := KR) (a_param (a s)) "alp" dALP) (flit (s := KR) 3)))
       (getd (K := KR) (a_param (a s)) "s9" dS9) i)
     (e3_atom (K := KA) XA n c num (sl2 (a_positions aA) b) (ClosedDisp.c9_of (N := NA) XA (t_class tm) mA (Some cnA) (if t_cdep tm then qoA else None) n b)
       (rad3_of (N := NA) XA (t_class tm) (a_param aA) (r4v (N := NA) aA b) (rvv (N := NA) XA aA b)) (dat (c_disp3 (a_cut aA)) [])
       (zero_fac (K := KA) XA (flit (s := KA) 1) (fdiv (s := KA) (getd (K := KA) (a_param aA) "alp" dALP) (flit (s := KA) 3)))
       (getd (K := KA) (a_param aA) "s9" dS9) i)).
  { apply (r_e3 means HS t X XA HE Hd0 HD HV num n c (fun s => sl2 (a_positions (a s)) b) (sl2 (a_positions aA) b) pos_pm apart_pm
      (fun s => rad3_of (N := NR) X (t_class tm) (a_param (a s)) (r4v (N := NR) (a s) b) (rvv (N := NR) X (a s) b)) _
      (fun s => dat (c_disp3 (a_cut (a s))) []) (dat (c_disp3 (a_cut aA)) [])) with
      (c9 := fun s => ClosedDisp.c9_of (N := NR) X (t_class tm) m (Some (cn s)) (if t_cdep tm then qo s else None) n b)
      (al := fun s => fdiv (s := KR) (getd (K := KR) (a_param (a s)) "alp" dALP) (flit (s := KR) 3))
      (s9 := fun s => getd (K := KR) (a_param (a s)) "s9" dS9).
    - apply HC.
    - intros x y Hx Hy E. rewrite pmask_real, <- (z_same t) in E.
      pose proof (sm_cutoffs _ _ _ _ _ _ _ _ _ _ _ _ Sm tm x y Ht Hx Hy E) as O. unfold cut_of in O.
      change (dat (c_disp3 (a_cut (a t))) []) with (dat (c_disp3 (a_cut (N := NR) (a t))) []). rewrite cut3_val.
      destruct (t_class tm); [congruence|exact O..].
    - rewrite cut3_val. exact Hc3.
    - apply (r_div means HS); [apply (r_getd means HS t pa (a_param aA) HP)|apply (r_lit means HS)|change (Q2R 3 <> 0); unfold Q2R; cbn; lra].
    - apply (r_getd means HS t pa (a_param aA) HP).
    - intros. now apply r_rad3.
    - intros. now apply r_c9.
    - exact Hi. }
  unfold term_val. rewrite EcA, Ecd. destruct (t_class tm); [congruence|exact G..].
Qed.
End Three.

(** *** all terms *)
Lemma r_terms i cl ts tsA : (i < n)%nat -> (forall tm, In tm ts -> In tm (p_terms p)) -> same_terms (NR := NR) (NA := NA) X XA ts tsA cl ->
  forall acc accA, trk acc accA ->
  trk (fun s => fold_left (fadd (s := KR)) (map (fun tF => term_val (N := NR) X (fst tF) (snd tF) (a_param (a s)) m n c (sl1 (a_numbers aA) b) (sl2 (a_positions (a s)) b) (cn s) (qo s)
         (r4v (N := NR) (a s) b) (rvv (N := NR) X (a s) b) (dat (c_disp2 (a_cut (a s))) []) (dat (c_disp3 (a_cut (a s))) []) b i)
         (combine ts (map (fun c => ship X c (a_param (a s))) cl))) (acc s))
      (fold_left (fadd (s := KA)) (map (fun tF => term_val (N := NA) XA (fst tF) (snd tF) (a_param aA) mA n c (sl1 (a_numbers aA) b) (sl2 (a_positions aA) b) cnA qoA
         (r4v (N := NA) aA b) (rvv (N := NA) XA aA b) (dat (c_disp2 (a_cut aA)) []) (dat (c_disp3 (a_cut aA)) []) b i)
         (combine tsA (map (fun c => ship XA c (a_param aA)) cl))) accA).
Proof.
  intros Hi. revert ts tsA. induction cl as [|cl0 cl IH]; intros [|tm ts] [|tmA tsA] Hin H acc accA T; cbn [same_terms] in H; try contradiction; [exact T|].
  destruct H as ((E1 & E2 & H) & HR). cbn [map combine fold_left fst snd].
  apply (IH ts tsA (fun x Hx => Hin x (or_intror Hx)) HR
    (fun s => fadd (s := KR) (acc s) (term_val (N := NR) X tm (ship X cl0 (a_param (a s))) (a_param (a s)) m n c (sl1 (a_numbers aA) b) (sl2 (a_positions (a s)) b) (cn s) (qo s)
         (r4v (N := NR) (a s) b) (rvv (N := NR) X (a s) b) (dat (c_disp2 (a_cut (a s))) []) (dat (c_disp3 (a_cut (a s))) []) b i))).
  apply (r_add means HS); [exact T|]. pose proof (Hin tm (or_introl eq_refl)) as Ht.
  destruct (t_class tm) eqn:E; [apply r_term2; auto; apply H|..]; (apply r_term3; auto; congruence).
Qed.
End Call.
End P.

(** ** The energy carries its derivative *)
Section Main.
Context {M : Lin} {eps mx : R}.
Notation KR := (RS eps mx).
Notation KA := (AS M eps mx).
Notation NR := (RN eps mx).
Notation NA := (AN M eps mx).

(** Each energy the calculation with derivatives returns carries the energy of the calculation
    without, and its derivative. *)
Theorem C64_derivative_carried : forall (means : LT M -> R -> Prop) (X : Ext KR) (XA : Ext KA) W WA p pA a aA kind kw kwA n c B d0 ds t0 cn cnA q qA E,
  lin_sound means -> 1 <= mx ->
  same_calc means X XA W WA p pA a aA kind kw kwA n c B d0 ds t0 cn cnA q qA E ->
  exists eA, run (N := NA) XA WA pA aA = Ok eA /\ shp eA = (n :: B)%list /\
    forall b i, valid B b -> (i < n)%nat -> smooth_mol means X p a kind kw n c d0 ds t0 cn cnA q qA b ->
      tracks means t0 (fun t => sl1 (E t) b i) (sl1 eA b i).
Proof.
  intros means X XA W WA p pA a aA kind kw kwA n c B d0 ds t0 cn cnA q qA E HS Hm
    [(HX & HXA) (Hd0 & Hds & Hc3) (HD & HV & HQ) HE HT Hkw HC (dl & Hdl & HN) WFA EcnA EqA].
  destruct (same_terms_of X XA _ _ HT) as (cl & ST).
  assert (FA : Forall2 (term_ok (N := NA) (a_param aA) kind) (p_terms pA) (map (fun c => ship XA c (a_param aA)) cl)).
  { apply (same_ok_A (NR := NR) (NA := NA) X XA _ kind cl (p_terms p)); [apply WFA|exact ST|apply WFA]. }
  destruct (run_closed_full (N := NA) XA WA pA aA kind kwA n c B _ HXA WFA FA) as
    (mA & cnA' & qA' & r4A & rvA & EmA & _ & _ & HMA & EcnA' & _ & EqA' & _ & V4A & VvA & (eA & ErA & SA & VA)).
  rewrite EcnA in EcnA'. assert (cnA' = cnA) by congruence. subst cnA'. clear EcnA'.
  apply charges_are_g in EqA'. pose proof (charges_unique_g _ _ _ _ _ EqA' EqA). subst qA'. clear EqA'.
  exists eA. split; [exact ErA|]. split; [exact SA|]. intros b i Hb Hi [Hcn Hq Sm].
  rewrite (ca_numbers _ _ _ _ _ _ _ HC) in Hcn, Hq.
  assert (H00 : Rabs (t0 - t0) < dl) by (rewrite Rminus_eq_0, Rabs_R0; exact Hdl).
  destruct (HN t0 H00) as (WF0 & _).
  assert (HK : kind = D4M \/ kind = D4SM).
  { pose proof (wf_kw _ _ _ _ _ _ _ _ _ WF0) as Y. pose proof (wf_model _ _ _ _ _ _ _ _ _ WF0) as Z.
    clear - Z. unfold model_from in Z. destruct Z as [(_ & _ & [(_ & ->)|(_ & ->)])|(m & cls & _ & Z & _)]; auto. }
  destruct (model_from_ok (N := NR) X p (a_numbers (a t0)) kind kw n B HX (wf_model _ _ _ _ _ _ _ _ _ WF0) (wf_numbers _ _ _ _ _ _ _ _ _ WF0)
    (wf_kw _ _ _ _ _ _ _ _ _ WF0) (wf_elements _ _ _ _ _ _ _ _ _ WF0)) as (m & Em & HM).
  rewrite (ca_numbers _ _ _ _ _ _ _ HC) in Em, HM.
  rewrite VA by auto. unfold sumK, atom_terms.
  set (fA := fun tF : DispTerm NA * tfun (sc NA) => term_val (N := NA) XA (fst tF) (snd tF) (a_param aA) mA n c (sl1 (a_numbers aA) b) (sl2 (a_positions aA) b) cnA qA
     (r4v (N := NA) aA b) (rvv (N := NA) XA aA b) (dat (c_disp2 (a_cut aA)) []) (dat (c_disp3 (a_cut aA)) []) b i).
  rewrite (map_ext _ fA) by (intros tF; apply term_val_ext; auto).
  apply (tracks_loc means (fun s => fold_left (fadd (s := KR)) (map (fun tF => term_val (N := NR) X (fst tF) (snd tF) (a_param (a s)) m n c (sl1 (a_numbers aA) b) (sl2 (a_positions (a s)) b) (cn s) (q s)
         (r4v (N := NR) (a s) b) (rvv (N := NR) X (a s) b) (dat (c_disp2 (a_cut (a s))) []) (dat (c_disp3 (a_cut (a s))) []) b i)
         (combine (p_terms p) (map (fun c => ship X c (a_param (a s))) cl))) (flit (s := KR) 0)) _ t0 dl); [exact Hdl| |].
  - intros s Hs. destruct (HN s Hs) as (WF & Ecn & Eq & Er).
    assert (FR : Forall2 (term_ok (N := NR) (a_param (a s)) kind) (p_terms p) (map (fun c => ship X c (a_param (a s))) cl)).
    { apply (same_ok_R (NR := NR) (NA := NA) X XA _ kind cl (p_terms p) (p_terms pA)); [apply WF|exact ST|apply WF]. }
    destruct (run_closed_full (N := NR) X W p (a s) kind kw n c B _ HX WF FR) as
      (m' & cn' & q' & r4 & rv & Em' & _ & _ & _ & Ecn' & _ & Eq' & _ & V4 & Vv & (e & Er' & _ & V)).
    rewrite Er in Er'. assert (e = E s) by congruence. subst e. clear Er'.
    rewrite Ecn in Ecn'. assert (cn' = cn s) by congruence. subst cn'. clear Ecn'.
    apply charges_are_g in Eq'. pose proof (charges_unique_g _ _ _ _ _ Eq' Eq). subst q'. clear Eq'.
    rewrite (ca_numbers _ _ _ _ _ _ _ HC) in Em'. rewrite Em in Em'. assert (m' = m) by congruence. subst m'. clear Em'.
    rewrite V by auto. unfold sumK, atom_terms. rewrite (ca_numbers _ _ _ _ _ _ _ HC).
    apply (f_equal (fun l => fold_left (fadd (s := KR)) l (flit (s := KR) 0))). apply map_ext. intros tF. symmetry. apply term_val_ext; auto.
  - apply (r_terms means HS t0 X XA HE Hd0 Hds HD HV HQ Hm kind kw kwA n c B a aA HC m mA HM HMA Hkw HK b Hb cn cnA q qA Hcn Hq p Sm Hc3 i cl
      (p_terms p) (p_terms pA) Hi (fun _ h => h) ST (fun _ => flit (s := KR) 0)).
    apply (r_lit means HS).
Qed.
End Main.

(** *** forward mode *)
Section Forward.
Context {eps mx : R}.
Theorem C64_forward_mode : forall (X : Ext (RS eps mx)) (XA : Ext (AS Fwd eps mx)) W WA p pA a aA kind kw kwA n c B d0 ds t0 cn cnA q qA E,
  1 <= mx -> same_calc (M := Fwd) eq X XA W WA p pA a aA kind kw kwA n c B d0 ds t0 cn cnA q qA E ->
  exists eA, run (N := AN Fwd eps mx) XA WA pA aA = Ok eA /\ shp eA = (n :: B)%list /\
    forall b i, valid B b -> (i < n)%nat -> smooth_mol (M := Fwd) eq X p a kind kw n c d0 ds t0 cn cnA q qA b ->
      fst (sl1 eA b i) = sl1 (E t0) b i /\ derivable_pt_lim (fun t => sl1 (E t) b i) t0 (snd (sl1 eA b i)).
Proof.
  intros X XA W WA p pA a aA kind kw kwA n c B d0 ds t0 cn cnA q qA E Hm H.
  destruct (C64_derivative_carried (M := Fwd) eq _ _ _ _ _ _ _ _ _ _ _ _ _ _ _ _ _ _ _ _ _ _ fwd_sound Hm H) as (eA & Er & Sh & T).
  exists eA. split; [exact Er|]. split; [exact Sh|]. intros b i Hb Hi S. destruct (T b i Hb Hi S) as (V & l & D & L).
  split; [exact V|]. rewrite L. exact D.
Qed.
End Forward.

(** *** backward mode: one pass serves all leaves [j]; leaf [j] varies along the path [a j] *)
Section Backward.
Context {eps mx : R} {J : Type}.
(** the derivative of leaf [j] that the gradient function [u] stands for *)
Definition grad_of (j : J) (u : LT (Bwd J)) (l : R) : Prop := forall g, u g j = g * l.
Lemma grad_sum n (f : nat -> R -> R) (u : nat -> LT (Bwd J)) (g : nat -> R) j t0 :
  (forall i, (i < n)%nat -> exists l, derivable_pt_lim (f i) t0 l /\ grad_of j (u i) l) ->
  derivable_pt_lim (fun t => rsum n (fun i => g i * f i t)) t0 (rsum n (fun i => u i (g i) j)).
Proof.
  induction n as [|n IH]; intros H; cbn [rsum]; [apply derivable_pt_lim_const|].
  destruct (H n (Nat.lt_succ_diag_r n)) as (l & D & G). rewrite (G (g n)).
  apply (derivable_pt_lim_plus (fun t => rsum n (fun i => g i * f i t)) (fun t => g n * f n t)).
  - apply IH. intros i Hi. apply H. lia.
  - apply (derivable_pt_lim_scal (f n)). exact D.
Qed.
Theorem C64_backward_mode : forall (X : Ext (RS eps mx)) (XA : Ext (AS (Bwd J) eps mx)) W WA p pA (a : J -> R -> Args (RN eps mx)) aA kind kw kwA n c B d0 ds
    (t0 : J -> R) cn cnA q qA E j0,
  1 <= mx ->
  (forall j, same_calc (M := Bwd J) (grad_of j) X XA W WA p pA (a j) aA kind kw kwA n c B d0 ds (t0 j) (cn j) cnA (q j) qA (E j)) ->
  exists eA, run (N := AN (Bwd J) eps mx) XA WA pA aA = Ok eA /\ shp eA = (n :: B)%list /\
    (forall b i, valid B b -> (i < n)%nat -> smooth_mol (M := Bwd J) (grad_of j0) X p (a j0) kind kw n c d0 ds (t0 j0) (cn j0) cnA (q j0) qA b ->
       fst (sl1 eA b i) = sl1 (E j0 (t0 j0)) b i) /\
    forall b j (g : nat -> R), valid B b -> smooth_mol (M := Bwd J) (grad_of j) X p (a j) kind kw n c d0 ds (t0 j) (cn j) cnA (q j) qA b ->
      derivable_pt_lim (fun t => rsum n (fun i => g i * sl1 (E j t) b i)) (t0 j) (rsum n (fun i => snd (sl1 eA b i) (g i) j)).
Proof.
  intros X XA W WA p pA a aA kind kw kwA n c B d0 ds t0 cn cnA q qA E j0 Hm H.
  assert (T : forall j, exists eA, run (N := AN (Bwd J) eps mx) XA WA pA aA = Ok eA /\ shp eA = (n :: B)%list /\
    forall b i, valid B b -> (i < n)%nat -> smooth_mol (M := Bwd J) (grad_of j) X p (a j) kind kw n c d0 ds (t0 j) (cn j) cnA (q j) qA b ->
      tracks (M := Bwd J) (grad_of j) (t0 j) (fun t => sl1 (E j t) b i) (sl1 eA b i)).
  { intros j. exact (C64_derivative_carried (M := Bwd J) (grad_of j) _ _ _ _ _ _ _ _ _ _ _ _ _ _ _ _ _ _ _ _ _ _ (bwd_sound J j) Hm (H j)). }
  destruct (T j0) as (eA & Er & Sh & T0). exists eA. split; [exact Er|]. split; [exact Sh|]. split.
  - intros b i Hb Hi S. apply (T0 b i Hb Hi S).
  - intros b j g Hb S. destruct (T j) as (eA' & Er' & _ & Tj). rewrite Er in Er'. assert (eA' = eA) by congruence. subst eA'.
    apply (grad_sum n (fun i t => sl1 (E j t) b i) (fun i => snd (sl1 eA b i)) g j (t0 j)).
    intros i Hi. apply (Tj b i Hb Hi S).
Qed.
End Backward.

(** ** Examples: water and carbon monoxide, all 18 coordinates as leaves *)
From Verif Require Import PropsC6 Inst InstW SpecBits InstAny.
Open Scope R_scope.
(** the external functions with their derivatives: distance, quotient and square root by the chain
    rule, constant tables *)
Definition Xad (M : Lin) (eps mx : R) : Ext (AS M eps mx) :=
  mkExt (AS M eps mx) (fun c x y => fsqrt (fsum c (fun k => fpown (fsub (x k) (y k)) 2)))
    (fdiv (s := AS M eps mx)) (fsqrt (s := AS M eps mx))
    (mkT [104%nat] (fun _ => flit 1)) (mkT [104%nat] (fun _ => flit 1)) (mkT [104%nat; 104%nat] (fun _ => flit 1)).

Lemma Xad_carries {M} (means : LT M -> R -> Prop) eps mx d0 ds : lin_sound means -> 0 <= d0 -> 0 <= ds ->
  ext_ad means d0 ds (Xex eps mx) (Xad M eps mx).
Proof.
  intros HS Hd Hs. constructor; cbn [Xex Xad x_dist x_div x_sqrt x_zeff x_gam x_vdw dat].
  - intros t c x y xA yA Hx Hy P.
    apply (tracks_ext means (fun s => fsqrt (s := RS eps mx) (fsum (K := RS eps mx) c (fun k => fpown (s := RS eps mx) (fsub (s := RS eps mx) (x s k) (y s k)) 2)))).
    { intros s. unfold euclid, sqd. cbn [fsqrt RS]. f_equal. apply fsum_R. }
    apply (r_sqrt means HS).
    + apply (r_sum means HS t c (fun k s => fpown (s := RS eps mx) (fsub (s := RS eps mx) (x s k) (y s k)) 2)). intros k Hk.
      apply (r_pown means HS). apply (r_sub means HS); auto.
    + eapply Rle_lt_trans; [exact Hd|]. eapply Rlt_le_trans; [exact P|]. right. unfold sqd. symmetry. apply fsum_R.
  - intros t f g fA gA Tf Tg N. now apply (r_div means HS).
  - intros t f fA Tf P. apply (r_sqrt means HS); [exact Tf|]. exact (Rle_lt_trans _ _ _ Hs P).
  - intros d. apply (proper_un means HS).
  - intros z. rewrite <- Q2R_1. apply (y_lit means HS).
  - intros z. rewrite <- Q2R_1. apply (y_lit means HS).
  - intros y z. rewrite <- Q2R_1. apply (y_lit means HS).
Qed.

Lemma Xad_tables M eps mx : ext_tables (Xad M eps mx).
Proof. exists 104%nat, 104%nat, 104%nat. repeat split; lia. Qed.

Section Ex.
Context {eps mx : R} (He : 0 <= eps < 1) (Hm : 1 <= mx).
Notation NR := (RN eps mx).
Notation XR := (Xex eps mx).
Notation WR := (Wany (N := NR) XR).
Notation PR := (Pany (N := NR) XR "d4").

(** *** the calculation, for any path through the geometry [line 3 [2] 2] *)
Definition cn_of (x : tensor R) : tensor R :=
  match cn_any (N := NR) XR None two_mols x with Ok u => u | Raise _ => x end.
Definition q_of (x : tensor R) : tensor R :=
  match eeq_any (N := NR) XR two_mols x (scal (flit (s := RS eps mx) 0)) (scal (flit (s := RS eps mx) 25)) with Ok u => u | Raise _ => x end.
Definition e_of (x : tensor R) : tensor R :=
  match run (N := NR) XR WR PR (gcall (N := NR) two_mols x) with Ok e => e | Raise _ => x end.

Section Path.
Context {M : Lin} (means : LT M -> R -> Prop) (HS : lin_sound means).
Notation NA := (AN M eps mx).
Context (XA : Ext (AS M eps mx)) (HXA : ext_ad means 1 0 XR XA) (HTA : ext_tables XA).
Notation WA := (Wany (N := NA) XA).
Notation PA := (Pany (N := NA) XA "d4").
Context (path : R -> tensor R) (posA : tensor (adn M)) (t0 : R).
Context (Hp : forall s, shp (path s) = [3; 3; 2]%nat) (HpA : shp posA = [3; 3; 2]%nat).
Context (H0 : forall ix, dat (path t0) ix = dat (line (eps := eps) (mx := mx) 3 [2%nat] 2) ix).
Context (Tp : forall b i k, valid [2%nat] b -> (i < 3)%nat -> (k < 3)%nat -> tracks means t0 (fun s => sl2 (path s) b i k) (sl2 posA b i k)).

Definition cnA_of : tensor (adn M) := match cn_any (N := NA) XA None two_mols posA with Ok u => u | Raise _ => posA end.
Definition qA_of : tensor (adn M) :=
  match eeq_any (N := NA) XA two_mols posA (scal (flit (s := AS M eps mx) 0)) (scal (flit (s := AS M eps mx) 25)) with Ok u => u | Raise _ => posA end.

Lemma ex_cn x : shp x = [3; 3; 2]%nat -> cn_any (N := NR) XR None two_mols x = Ok (cn_of x).
Proof. intros S. unfold cn_of. destruct (cn_any_ok (N := NR) XR None two_mols x 3 3 [2%nat] eq_refl S) as (u & E & _). now rewrite E. Qed.
Lemma ex_cnA : cn_any (N := NA) XA None two_mols posA = Ok cnA_of.
Proof. unfold cnA_of. destruct (cn_any_ok (N := NA) XA None two_mols posA 3 3 [2%nat] eq_refl HpA) as (u & E & _). now rewrite E. Qed.
Lemma ex_q x : shp x = [3; 3; 2]%nat ->
  eeq_any (N := NR) XR two_mols x (scal (flit (s := RS eps mx) 0)) (scal (flit (s := RS eps mx) 25)) = Ok (q_of x).
Proof. intros S. unfold q_of, eeq_any. rewrite (ex_cn x S). reflexivity. Qed.
Lemma ex_qA : eeq_any (N := NA) XA two_mols posA (scal (flit (s := AS M eps mx) 0)) (scal (flit (s := AS M eps mx) 25)) = Ok qA_of.
Proof. unfold qA_of, eeq_any. rewrite ex_cnA. reflexivity. Qed.
Lemma ex_wf x : shp x = [3; 3; 2]%nat -> well_formed (N := NR) XR WR PR (gcall (N := NR) two_mols x) D4M no_kw 3 3 [2%nat].
Proof. intros S. apply gcall_wf; auto using two_mols_range. Qed.
Lemma ex_wfA : well_formed (N := NA) XA WA PA (gcall (N := NA) two_mols posA) D4M no_kw 3 3 [2%nat].
Proof. apply gcall_wf; auto using two_mols_range. Qed.
Lemma ex_run x : shp x = [3; 3; 2]%nat -> run (N := NR) XR WR PR (gcall (N := NR) two_mols x) = Ok (e_of x).
Proof.
  intros S. destruct (terms_funs (N := NR) _ _ _ (wf_terms _ _ _ _ _ _ _ _ _ (ex_wf x S))) as (Fs & HF).
  destruct (run_closed (N := NR) XR WR PR (gcall (N := NR) two_mols x) D4M no_kw 3 3 [2%nat] Fs (Xex_tables eps mx) (ex_wf x S) HF)
    as (m & cn & qo & r4 & rv & _ & _ & _ & _ & _ & _ & _ & (e & E & _)).
  unfold e_of. now rewrite E.
Qed.

Lemma ex_same : same_calc means XR XA WR WA PR PA (fun s => gcall (N := NR) two_mols (path s)) (gcall (N := NA) two_mols posA)
  D4M no_kw no_kw 3 3 [2%nat] 1 0 t0 (fun s => cn_of (path s)) cnA_of (fun s => Some (q_of (path s))) (Some qA_of) (fun s => e_of (path s)).
Proof.
  constructor.
  - split; [apply Xex_tables|exact HTA].
  - split; [lra|]. split; [lra|]. unfold cut3. cbn. lra.
  - split; [apply Xex_dist|]. split; [apply Xex_div|apply Xex_sqrt].
  - exact HXA.
  - constructor; [|constructor; [|constructor]].
    + split; [reflexivity|]. split; [reflexivity|]. exists Rational. split; reflexivity.
    + split; [reflexivity|]. split; [reflexivity|]. split; reflexivity.
  - split; [reflexivity|]. repeat split.
  - constructor; cbn [gcall a_numbers a_positions a_param a_r4r2 a_rvdw].
    + reflexivity.
    + intros b i k Hb Hi Hk. now apply Tp.
    + intros k. unfold opt_trk, getp, gparam. cbn [dget].
      repeat (match goal with |- context [String.eqb ?u k] => destruct (String.eqb u k) end;
        [eexists (fun _ => _); split; [intros s; reflexivity|apply (r_lit means HS)]|]). reflexivity.
    + cbn. auto.
    + cbn. auto.
    + intros s. reflexivity.
    + intros s. reflexivity.
  - exists 1. split; [lra|]. intros s _. split; [now apply ex_wf|]. split; [now apply ex_cn|]. split; [|now apply ex_run].
    split; [|intros NC; elim NC; eexists; split; [left; reflexivity|reflexivity]].
    intros _. exists (q_of (path s)). split; [reflexivity|]. apply (ex_q (path s) (Hp s)).
  - apply ex_wfA.
  - apply ex_cnA.
  - split; [|intros NC; elim NC; eexists; split; [left; reflexivity|reflexivity]].
    intros _. exists qA_of. split; [reflexivity|]. apply ex_qA.
Qed.

Notation z := (sl1 two_mols).
Lemma ex_elements b i : valid [2%nat] b -> (i < 3)%nat -> real_atom two_mols b i -> (1 <= z b i <= 103)%Z /\ z b i <> 58%Z /\
  0 < r4r2_elem (Z.to_nat (z b i)).
Proof.
  intros Hb Hi R. destruct b as [|b0 [|? ?]]; cbn in Hb; try tauto. destruct Hb as [Hb _]. unfold real_atom, sl1 in *.
  assert (P : forall k, (0 <? nth k r4_over_r2_tab 0)%Z = true -> (0 < k)%nat -> 0 < r4r2_elem k).
  { intros k H1 H2. apply Z.ltb_lt, IZR_lt in H1. unfold r4r2_elem, r4_over_r2. apply sqrt_lt_R0.
    apply Rmult_lt_0_compat; [lra|]. apply Rmult_lt_0_compat; [|apply sqrt_lt_R0; now apply lt_0_INR].
    apply Rdiv_lt_0_compat; [exact H1|]. apply IZR_lt. reflexivity. }
  destruct b0 as [|[|b0]]; [| |lia]; destruct i as [|[|[|i]]]; try lia; cbn [dat two_mols nth] in *; try congruence;
    (split; [lia|]; split; [lia|]; apply P; [vm_compute; reflexivity|vm_compute; lia]).
Qed.
Lemma ex_sqd b i j : sqd 3 (sl2 (path t0) b i) (sl2 (path t0) b j) = ((INR i - INR j) * 2) ^ 2.
Proof.
  rewrite <- (line_sqd (eps := eps) (mx := mx) 3 [2%nat] 2 b i j). unfold sqd. apply rsum_ext. intros k _. unfold sl2. now rewrite !H0.
Qed.
Lemma ex_apart b i j : (i < 3)%nat -> (j < 3)%nat -> real_pair (z b) i j = true -> 4 <= sqd 3 (sl2 (path t0) b i) (sl2 (path t0) b j) <= 16.
Proof.
  intros Hi Hj R. rewrite ex_sqd. assert (i <> j).
  { intros ->. unfold real_pair in R. now rewrite Nat.eqb_refl in R. }
  destruct i as [|[|[|i]]], j as [|[|[|j]]]; try lia; cbn [INR]; lra.
Qed.
Lemma ex_cn_val b i s : sl1 (cn_of (path s)) b i = fsum (K := RS eps mx) 3 (fun j => if pmask (z b) i j
    then fdiv (s := RS eps mx) (flit (s := RS eps mx) 1) (fadd (s := RS eps mx) (flit (s := RS eps mx) 1) (x_dist XR 3 (sl2 (path s) b i) (sl2 (path s) b j))) else flit (s := RS eps mx) 0).
Proof. exact (cn_any_val (N := NR) XR None two_mols (path s) 3 3 [2%nat] _ b i eq_refl (Hp s) (ex_cn _ (Hp s))). Qed.
Lemma ex_cn_nonneg b i s : 0 <= sl1 (cn_of (path s)) b i.
Proof.
  rewrite ex_cn_val. rewrite fsum_R. apply rsum_nonneg. intros j _. destruct (pmask (z b) i j); cbn; rewrite ?Q2R_0, ?Q2R_1; [|lra].
  apply Rlt_le, Rdiv_lt_0_compat; [lra|]. pose proof (sqrt_pos (sqd 3 (sl2 (path s) b i) (sl2 (path s) b j))) as P. unfold euclid. lra.
Qed.
Lemma ex_cn_trk b i : valid [2%nat] b -> (i < 3)%nat -> tracks means t0 (fun s => sl1 (cn_of (path s)) b i) (sl1 cnA_of b i).
Proof.
  intros Hb Hi. apply (tracks_ext means _ _ _ _ (fun s => eq_sym (ex_cn_val b i s))).
  match goal with |- tracks _ _ ?f _ => refine (eq_ind_r (fun d => tracks means t0 f d) _ (cn_any_val (N := NA) XA None two_mols posA 3 3 [2%nat] _ b i eq_refl HpA ex_cnA)) end.
  apply (r_sum means HS t0 3 (fun j s => if pmask (z b) i j
    then fdiv (s := RS eps mx) (flit (s := RS eps mx) 1) (fadd (s := RS eps mx) (flit (s := RS eps mx) 1) (x_dist XR 3 (sl2 (path s) b i) (sl2 (path s) b j))) else flit (s := RS eps mx) 0)).
  intros j Hj. destruct (pmask (z b) i j) eqn:E; [|apply (r_lit means HS)]. rewrite pmask_real in E.
  destruct (ex_apart b i j Hi Hj E) as (A & _).
  apply (r_div means HS); [apply (r_lit means HS)| |].
  - apply (r_add means HS); [apply (r_lit means HS)|].
    apply (ea_dist means 1 0 _ _ HXA t0 3 (fun s => sl2 (path s) b i) (fun s => sl2 (path s) b j)).
    + intros k Hk. now apply Tp.
    + intros k Hk. now apply Tp.
    + lra.
  - change (Q2R 1 + euclid 3 (sl2 (path t0) b i) (sl2 (path t0) b j) <> 0). rewrite Q2R_1. unfold euclid.
    pose proof (sqrt_pos (sqd 3 (sl2 (path t0) b i) (sl2 (path t0) b j))). lra.
Qed.
Lemma ex_q_val b i s : sl1 (q_of (path s)) b i = 0 + sl1 (cn_of (path s)) b i.
Proof. unfold q_of, eeq_any. rewrite (ex_cn _ (Hp s)). cbn [rmap bind]. unfold sl1 at 1. cbn [dat]. unfold total_charge, scal. cbn [dat]. cbn [flit RS fadd]. now rewrite Q2R_0. Qed.

Lemma ex_smooth b : valid [2%nat] b ->
  smooth_mol means XR PR (fun s => gcall (N := NR) two_mols (path s)) D4M no_kw 3 3 1 0 t0
    (fun s => cn_of (path s)) cnA_of (fun s => Some (q_of (path s))) (Some qA_of) b.
Proof.
  intros Hb. set (a := gcall (N := NR) two_mols (path t0)).
  assert (Q0 : forall i, (i < 3)%nat -> real_atom two_mols b i -> 0 < mol_Q a b i).
  { intros i Hi R. now apply ex_elements. }
  assert (RA : forall i j, real_pair (z b) i j = true -> real_atom two_mols b i /\ real_atom two_mols b j).
  { intros i j R. now apply (real_pair_atoms a b i j). }
  assert (QQ : forall i j, (i < 3)%nat -> (j < 3)%nat -> real_pair (z b) i j = true -> 0 < 3 * mol_Q a b i * mol_Q a b j).
  { intros i j Hi Hj R. destruct (RA i j R). apply Rmult_lt_0_compat; [|now apply Q0]. apply Rmult_lt_0_compat; [lra|now apply Q0]. }
  assert (BJ : forall i j, (i < 3)%nat -> (j < 3)%nat -> real_pair (z b) i j = true -> 0 < bj_radius (eff_a1 a) (eff_a2 a) (mol_Q a b) i j).
  { intros i j Hi Hj R. unfold bj_radius.
    assert (A1 : eff_a1 a = 39 / 100) by (change (Q2R (39 # 100) = 39 / 100); unfold Q2R; cbn; lra).
    assert (A2 : eff_a2 a = 48 / 10) by (change (Q2R (48 # 10) = 48 / 10); unfold Q2R; cbn; lra).
    rewrite A1, A2. pose proof (sqrt_pos (3 * mol_Q a b i * mol_Q a b j)). lra. }
  constructor.
  - intros i Hi _. now apply ex_cn_trk.
  - intros i Hi _. cbn [opt_at opt_atA].
    apply (tracks_ext means (fun s => fadd (s := RS eps mx) (flit (s := RS eps mx) 0) (sl1 (cn_of (path s)) b i))).
    { intros s. rewrite ex_q_val. cbn [fadd flit RS]. now rewrite Q2R_0. }
    replace (sl1 qA_of b i) with (fadd (s := AS M eps mx) (flit (s := AS M eps mx) 0) (sl1 cnA_of b i)).
    + apply (r_add means HS); [apply (r_lit means HS)|now apply ex_cn_trk].
    + unfold qA_of, eeq_any. rewrite ex_cnA. reflexivity.
  - cbv beta. fold a. constructor.
    + intros i j Hi Hj R. pose proof (ex_apart b i j Hi Hj R). change (1 < sqd 3 (sl2 (path t0) b i) (sl2 (path t0) b j)). lra.
    + intros tm i j _ Hi Hj R. destruct (ex_apart b i j Hi Hj R) as (_ & A).
      apply Rlt_not_eq. apply (Rle_lt_trans _ 4).
      * change (sqrt (sqd 3 (sl2 (path t0) b i) (sl2 (path t0) b j)) <= 4). rewrite <- (sqrt_pow2 4) by lra. apply sqrt_le_1_alt. lra.
      * unfold cut_of, cut2, cut3. cbn. destruct (t_class tm); lra.
    + intros _ i Hi _. cbn [opt_at]. rewrite ex_q_val. pose proof (ex_cn_nonneg b i t0).
      split; [change (0 + sl1 (cn_of (path t0)) b i + 1 <> 0)|change (0 + sl1 (cn_of (path t0)) b i + 1 <> eps)]; lra.
    + intros tm cls [<-|[<-|[]]] Ec Ed i j Hi Hj R; [|discriminate Ec].
      destruct cls; cbn [two_smooth].
      * now apply QQ.
      * apply (f_equal (fun d => d_radius_type d)) in Ed. discriminate Ed.
      * apply (f_equal (fun d => d_radius_type d)) in Ed. discriminate Ed.
      * split; [now apply QQ|now apply BJ].
    + intros tm [<-|[<-|[]]] Nc; [now elim Nc|]. split.
      * intros i j Hi Hj R. split; [now apply BJ|]. intros _. now apply QQ.
      * intros _ i j k Hi Hj Hk R. unfold real_triple in R. apply andb_true_iff in R as (R & Rjk). apply andb_true_iff in R as (Rij & Rik).
        destruct (RA i j Rij) as (Ri & Rj). destruct (RA j k Rjk) as (_ & Rk).
        destruct (ex_elements b i Hb Hi Ri) as (Zi & Ni & _). destruct (ex_elements b j Hb Hj Rj) as (Zj & Nj & _). destruct (ex_elements b k Hb Hk Rk) as (Zk & Nk & _).
        apply Rmult_lt_0_compat; [apply Rmult_lt_0_compat|]; apply c6_coef_pos; auto.
Qed.
End Path.

(** *** backward mode: the gradient of all energies with respect to all coordinates *)
Notation x0 := (line (eps := eps) (mx := mx) 3 [2%nat] 2).
(** the coordinates, as leaves *)
Definition leaves : tensor (adn (Bwd (list nat))) :=
  mkT (shp x0) (fun ix => (dat x0 ix, fun g j => if list_eq_dec Nat.eq_dec ix j then g else 0)).
(** the geometry with coordinate [j] replaced *)
Definition replaced (j : list nat) (s : R) : tensor R := mkT (shp x0) (fun ix => if list_eq_dec Nat.eq_dec ix j then s else dat x0 ix).
Lemma leaves_trk j ix : tracks (M := Bwd (list nat)) (grad_of j) (dat x0 j) (fun s => dat (replaced j s) ix) (dat leaves ix).
Proof.
  unfold replaced, leaves. cbn [dat]. split; cbn [fst snd].
  - destruct (list_eq_dec Nat.eq_dec ix j) as [->|]; reflexivity.
  - destruct (list_eq_dec Nat.eq_dec ix j) as [->|N].
    + exists 1. split; [apply derivable_pt_lim_id|]. intros g. destruct (list_eq_dec Nat.eq_dec j j); [ring|congruence].
    + exists 0. split; [apply derivable_pt_lim_const|]. intros g. destruct (list_eq_dec Nat.eq_dec ix j); [congruence|ring].
Qed.
Example C64_backward_example :
  exists eA, run (N := AN (Bwd (list nat)) eps mx) (Xad _ eps mx) (Wany (N := AN (Bwd (list nat)) eps mx) (Xad _ eps mx)) (Pany (N := AN (Bwd (list nat)) eps mx) (Xad _ eps mx) "d4")
      (gcall (N := AN (Bwd (list nat)) eps mx) two_mols leaves) = Ok eA /\ shp eA = [3; 2]%nat /\
    forall b j (g : nat -> R), valid [2%nat] b ->
      derivable_pt_lim (fun s => rsum 3 (fun i => g i * sl1 (e_of (replaced j s)) b i)) (dat x0 j) (rsum 3 (fun i => snd (sl1 eA b i) (g i) j)).
Proof.
  destruct (C64_backward_mode (J := list nat) XR (Xad _ eps mx) WR (Wany (N := AN (Bwd (list nat)) eps mx) (Xad _ eps mx)) PR (Pany (N := AN (Bwd (list nat)) eps mx) (Xad _ eps mx) "d4")
    (fun j s => gcall (N := NR) two_mols (replaced j s)) (gcall (N := AN (Bwd (list nat)) eps mx) two_mols leaves) D4M no_kw no_kw 3 3 [2%nat] 1 0 (fun j => dat x0 j)
    (fun j s => cn_of (replaced j s)) (cnA_of (Xad _ eps mx) leaves) (fun j s => Some (q_of (replaced j s))) (Some (qA_of (Xad _ eps mx) leaves)) (fun j s => e_of (replaced j s)) [] Hm) as (eA & E & S & _ & G).
  - intros j. apply (ex_same (grad_of j) (bwd_sound _ j) (Xad _ eps mx) (Xad_carries (grad_of j) eps mx 1 0 (bwd_sound _ j) ltac:(lra) ltac:(lra)) (Xad_tables _ eps mx) (replaced j) leaves (dat x0 j)); auto; try (intros; apply leaves_trk).
  - exists eA. split; [exact E|]. split; [exact S|]. intros b j g Hb. apply (G b j g Hb).
    apply (ex_smooth (grad_of j) (bwd_sound _ j) (Xad _ eps mx) (Xad_carries (grad_of j) eps mx 1 0 (bwd_sound _ j) ltac:(lra) ltac:(lra)) (replaced j) leaves (dat x0 j)); auto; try (intros; apply leaves_trk).
    intros ix. unfold replaced. cbn [dat]. destruct (list_eq_dec Nat.eq_dec ix j) as [->|]; reflexivity.
Qed.

(** *** forward mode: stretching both molecules *)
Definition stretched (s : R) : tensor R := line (eps := eps) (mx := mx) 3 [2%nat] s.
Definition stretched_A : tensor (adn Fwd) := mkT (shp x0) (fun ix => (dat x0 ix, dat (line (eps := eps) (mx := mx) 3 [2%nat] 1) ix)).
Example C64_forward_example :
  exists eA, run (N := AN Fwd eps mx) (Xad _ eps mx) (Wany (N := AN Fwd eps mx) (Xad _ eps mx)) (Pany (N := AN Fwd eps mx) (Xad _ eps mx) "d4")
      (gcall (N := AN Fwd eps mx) two_mols stretched_A) = Ok eA /\ shp eA = [3; 2]%nat /\
    forall b i, valid [2%nat] b -> (i < 3)%nat ->
      fst (sl1 eA b i) = sl1 (e_of x0) b i /\ derivable_pt_lim (fun s => sl1 (e_of (stretched s)) b i) 2 (snd (sl1 eA b i)).
Proof.
  assert (T : forall ix, tracks (M := Fwd) eq 2 (fun s => dat (stretched s) ix) (dat stretched_A ix)).
  { intros ix. split; [reflexivity|]. exists (dat (line (eps := eps) (mx := mx) 3 [2%nat] 1) ix). split; [|reflexivity].
    unfold stretched, line. cbn [dat]. destruct ix as [|k [|i l]]; try apply derivable_pt_lim_const.
    destruct (Nat.eqb k 0); [|apply derivable_pt_lim_const]. apply (derivable_pt_lim_scal id). apply derivable_pt_lim_id. }
  destruct (C64_forward_mode XR (Xad _ eps mx) WR (Wany (N := AN Fwd eps mx) (Xad _ eps mx)) PR (Pany (N := AN Fwd eps mx) (Xad _ eps mx) "d4")
    (fun s => gcall (N := NR) two_mols (stretched s)) (gcall (N := AN Fwd eps mx) two_mols stretched_A) D4M no_kw no_kw 3 3 [2%nat] 1 0 2
    (fun s => cn_of (stretched s)) (cnA_of (Xad _ eps mx) stretched_A) (fun s => Some (q_of (stretched s))) (Some (qA_of (Xad _ eps mx) stretched_A)) (fun s => e_of (stretched s)) Hm) as (eA & E & S & G).
  - apply (ex_same (M := Fwd) eq fwd_sound (Xad _ eps mx) (Xad_carries (M := Fwd) eq eps mx 1 0 fwd_sound ltac:(lra) ltac:(lra)) (Xad_tables _ eps mx) stretched stretched_A 2); auto; intros; apply T.
  - exists eA. split; [exact E|]. split; [exact S|]. intros b i Hb Hi. apply (G b i Hb Hi).
    apply (ex_smooth (M := Fwd) eq fwd_sound (Xad _ eps mx) (Xad_carries (M := Fwd) eq eps mx 1 0 fwd_sound ltac:(lra) ltac:(lra)) stretched stretched_A 2); auto; intros; apply T.
Qed.
End Ex.
Print Assumptions C64_derivative_carried.
Print Assumptions C64_forward_mode.
Print Assumptions C64_backward_mode.
