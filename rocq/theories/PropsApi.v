(** * dftd4, get_properties and the D4 terms *)
From Coq Require Import Reals Lra Lia List Arith ZArith QArith Qreals Bool String Ascii.
From Verif Require Import Py Tensor Scalar RInst ModelExt ModelUtils ModelDamping ModelModels
  ModelTerms ModelDisp SpecCall TensorLemmas EinsumLemmas Closed ClosedM ClosedTerms ClosedModels
  ClosedDamp ClosedDisp CallLemmas SpecR EnergyR Energy3R Sums Relabel SpecMol Inst InstW Usable
  PropsTerms.
Import ListNotations.
Open Scope py_scope.

Section G.
Context {N : Num} (X : Ext (sc N)) (W : World N).
Notation K := (sc N).

(** *** C46: [dftd4] is [DispD4(...).calculate(...)] *)
Theorem C46_dftd4_is_DispD4 :
  forall numbers positions charge param model rcov r4r2 rvdw q cutoff cnf cf,
  dftd4 X W numbers positions charge param model rcov r4r2 rvdw q cutoff cnf cf (RationalDamping (K := K))
  = (p <- DispD4 X W model no_kw (Some cnf) (Some cf) ;;
     calculate X W p numbers positions charge param cutoff q rcov r4r2 rvdw).
Proof.
  intros. unfold dftd4, DispD4, new_disp.
  destruct model as [s|m]; [|reflexivity].
  destruct (raise_if _ _); reflexivity.
Qed.

(** ... in particular with all defaults: [dftd4] uses [cn_d4] with [erf_count], [DispD4] uses
    [cn_d4] with its own default counting function, which tad_mctc documents to be [erf_count]. *)
Theorem C46_defaults_agree :
  forall numbers positions charge param s rcov r4r2 rvdw q cutoff,
  w_cn_d4 W None = w_cn_d4 W (Some (w_erf_count W)) ->
  In (casefold s) ["d4"; "d4s"]%string ->
  dftd4 X W numbers positions charge param (MKey s) rcov r4r2 rvdw q cutoff
        (w_cn_d4 W) (w_erf_count W) (RationalDamping (K := K))
  = (p <- DispD4 X W (MKey s) no_kw None None ;;
     calculate X W p numbers positions charge param cutoff q rcov r4r2 rvdw).
Proof.
  intros * E H. rewrite C46_dftd4_is_DispD4. unfold DispD4, new_disp.
  destruct H as [H|[H|[]]]; rewrite <- H; simpl; unfold calculate; simpl; rewrite E; reflexivity.
Qed.

(** *** C14: terms that do not depend on charges ignore the charge model and the total charge *)
Theorem C14_no_charge_dependence :
  forall (W' : World N) (p : Disp N) a ch,
  (forall t, In t (p_terms p) -> t_cdep t = false) -> a_q a = None ->
  run X W p a = run X W' p (set_charge a ch).
Proof.
  intros W' p a ch H Hq. unfold run, calculate. simpl. rewrite Hq.
  replace (existsb (@t_cdep N) (p_terms p)) with false; [reflexivity|].
  symmetry. destruct (existsb (@t_cdep N) (p_terms p)) eqn:E; auto.
  apply existsb_exists in E as (t & I & C). rewrite H in C by auto. discriminate.
Qed.

(** *** C45: passing the charges of the charge model explicitly changes nothing *)
Theorem C45_explicit_model_charges :
  forall (p : Disp N) a q,
  needs_charges p -> a_q a = None ->
  w_eeq W (a_numbers a) (a_positions a) (a_charge a) (c_cn_eeq (a_cut a)) = Ok q ->
  run X W p (set_q a (Some q)) = run X W p a.
Proof.
  intros p a q H Hq E. apply needs_charges_b in H. unfold run, calculate, a_cut in *. simpl. rewrite Hq, H.
  rewrite E. reflexivity.
Qed.
End G.

Section M.
Context {eps mx : R} (X : Ext (sc (RN eps mx))) (W : World (RN eps mx)).
Notation N := (RN eps mx).
Open Scope R_scope.

(** the D4 three-body term alone *)
Definition atm_only (p : Disp N) : Disp N := with_terms p [mkTerm (N := N) D4ATMApprox (ZeroDamping X) false].
(** the two-body term alone *)
Definition two_only (p : Disp N) : Disp N := with_terms p [mkTerm (N := N) TwoBodyTerm RationalDamping true].

(** *** C14: whatever charges or total charge (and charge model) are used, the energy is the
    two-body energy plus always the same three-body energy *)
Theorem C14_atm_ignores_charges :
  forall (p : Disp N) a kind kw n c B, ext_tables X ->
  p_terms p = terms_d4 X -> well_formed X W p a kind kw n c B ->
  exists e3, run X W (atm_only p) (set_q a None) = Ok e3 /\ shp e3 = n :: B /\
    forall (W' : World N) q ch, let a' := set_charge (set_q a q) ch in
      well_formed X W' p a' kind kw n c B ->
      exists e e2, run X W' p a' = Ok e /\ run X W' (two_only p) a' = Ok e2 /\
        shp e = n :: B /\ shp e2 = n :: B /\
        forall b i, valid B b -> (i < n)%nat -> sl1 e b i = sl1 e2 b i + sl1 e3 b i.
Proof.
  intros p a kind kw n c B HX HT WF.
  destruct (C46_energy_is_sum_of_terms X W p a kind kw n c B HX WF) as (_ & es & _ & _ & F & _).
  rewrite HT in F. inversion F as [|t2 e2 ts es' _ F' E1 E2]; subst. inversion F' as [|t3 e3 ts es'' [R3 S3] F'' E1 E2]; subst.
  exists e3. split; [exact R3|]. split; [exact S3|]. intros W' q ch a' WF'.
  destruct (C46_energy_is_sum_of_terms X W' p a' kind kw n c B HX WF') as (e & es & R & S & G & D).
  rewrite HT in G. inversion G as [|t2' e2' ts' gs' [R2' S2'] G' E1 E2]; subst.
  inversion G' as [|t3' e3' ts' gs'' [R3' S3'] G'' E1 E2]; subst. inversion G''; subst.
  exists e, e2'. split; [exact R|]. split; [destruct q; exact R2'|]. split; [exact S|]. split; [exact S2'|].
  intros b i Vb Hi. rewrite D by auto. simpl.
  assert (e3' = e3) as ->; [|ring].
  assert (Q : Ok e3' = Ok e3); [|now injection Q].
  rewrite <- R3, <- R3'. cbn [t_cdep].
  change (q_if false a') with (set_charge (set_q a None) ch).
  symmetry. apply C14_no_charge_dependence; [|reflexivity].
  intros t [<-|[]]. reflexivity.
Qed.

(** *** C44: few atoms *)
(** one real atom at most in molecule [b]; two at most *)
Definition at_most_one (numbers : tensor Z) (n : nat) (b : list nat) : Prop :=
  forall i j, (i < n)%nat -> (j < n)%nat -> real_atom numbers b i -> real_atom numbers b j -> i = j.
Definition at_most_two (numbers : tensor Z) (n : nat) (b : list nat) : Prop :=
  forall i j k, (i < n)%nat -> (j < n)%nat -> (k < n)%nat ->
    real_atom numbers b i -> real_atom numbers b j -> real_atom numbers b k -> i = j \/ i = k \/ j = k.

Theorem C44_few_atoms :
  forall (p : Disp N) a kind kw n c B,
  ext_tables X -> well_formed X W p a kind kw n c B ->
  exists e, run X W p a = Ok e /\ shp e = n :: B /\
    forall b, valid B b ->
      (at_most_one (a_numbers a) n b -> forall i, (i < n)%nat -> sl1 e b i = 0) /\
      (at_most_two (a_numbers a) n b -> (forall t, In t (p_terms p) -> t_class t <> TwoBodyTerm) ->
         forall i, (i < n)%nat -> sl1 e b i = 0).
Proof.
  intros p a kind kw n c B HX WF.
  destruct (terms_funs (a_param a) kind (p_terms p) (wf_terms _ _ _ _ _ _ _ _ _ WF)) as (Fs & HF).
  destruct (run_closed X W p a kind kw n c B Fs HX WF HF)
    as (m & cn & qo & r4 & rv & M & Ecn & Scn & Eq & Sq & R4 & RV & (e & E & S & D)).
  exists e. split; [exact E|]. split; [exact S|]. intros b Vb. split.
  - intros H i Hi. rewrite D by auto. apply sumK_0. intros x Hx.
    apply in_map_iff in Hx as (tF & <- & _). apply term_alone.
    intros j Hj. apply not_true_is_false. unfold real_pair.
    rewrite !andb_true_iff, !negb_true_iff, Nat.eqb_neq, !Z.eqb_neq. intros ((Nij & Ri) & Rj). auto.
  - intros H HT i Hi. rewrite D by auto. apply sumK_0. intros x Hx.
    apply in_map_iff in Hx as ([t F] & <- & I). apply in_combine_l in I. apply HT in I. cbn [fst snd].
    assert (RT : forall j k, (j < n)%nat -> (k < n)%nat -> real_triple (sl1 (a_numbers a) b) i j k = false).
    { intros j k Hj Hk. apply not_true_is_false. unfold real_triple, real_pair.
      rewrite !andb_true_iff, !negb_true_iff, !Nat.eqb_neq, !Z.eqb_neq.
      intros ((((N1 & R1) & R2) & ((N2 & _) & R3)) & ((N3 & _) & _)).
      destruct (H i j k) as [?|[?|?]]; auto. }
    unfold term_val. destruct (t_class t); [congruence| | |]; apply e3_alone; auto.
Qed.

(** *** C45: the C6 coefficients returned by [get_properties] are those of the two-body energy *)
Theorem C45_properties_are_those_of_the_energy :
  forall numbers (positions : tensor (sc N)) charge cutoff param n c B cf,
  let p := mkDisp [mkTerm (N := N) TwoBodyTerm RationalDamping true] (w_cn_d4 W) cf "d4" None no_kw in
  let a := mkCall numbers positions (default charge (scal (f0 (K := sc N)))) param cutoff None None None None in
  ext_tables X -> w_cn_d4 W cf = w_cn_d4 W None ->
  well_formed X W p a D4M no_kw n c B ->
  exists cn q c6 alpha,
  get_properties X W numbers positions charge cutoff = Ok (cn, q, c6, alpha) /\
  w_cn_d4 W None numbers positions = Ok cn /\
  w_eeq W numbers positions (a_charge a) (c_cn_eeq (a_cut a)) = Ok q /\
  shp c6 = n :: n :: B /\ shp alpha = n :: B /\
  exists r4r2 rvdw e e2, get_r4r2 numbers = Ok r4r2 /\ get_rvdw X numbers = Ok rvdw /\
    run X W p a = Ok e /\
    dispersion2 X numbers positions param c6 r4r2 (Some rvdw) RationalDamping
      (Some (c_disp2 (a_cut a))) false = Ok e2 /\ shp e = n :: B /\ shp e2 = n :: B /\
    forall b i, valid B b -> (i < n)%nat -> sl1 e b i = sl1 e2 b i.
Proof.
  intros * HX Ecf WF.
  destruct (terms_funs (a_param a) D4M (p_terms p) (wf_terms _ _ _ _ _ _ _ _ _ WF)) as (Fs & HF).
  destruct (run_closed_full X W p a D4M no_kw n c B Fs HX WF HF)
    as (m & cn' & qo & r4 & rv & Em & E4 & Ev & M & Ecn & Scn & Eq & Sq & R4 & RV & (e & E & S & D)).
  unfold get_properties. simpl in Ecn, Em. rewrite Ecf in Ecn. rewrite Ecn. cbn [bind].
  unfold charges in Eq. cbn [a_q a p_terms p existsb t_cdep orb a_numbers a_positions a_charge] in Eq.
  change (default cutoff default_cutoff) with (a_cut a).
  change (default charge (scal f0)) with (a_charge a). change (default charge (scal f0)) with (a_charge a) in Eq.
  destruct (w_eeq W numbers positions (a_charge a) (c_cn_eeq (a_cut a))) as [q|] eqn:EE; [|discriminate].
  cbn [bind]. cbn [bind] in Eq. assert (qo = Some q) as -> by congruence.
  change (get_model X p numbers = Ok m) in Em.
  change (new_model X D4M (class_name D4M) numbers no_kw) with (get_model X p numbers).
  rewrite Em. cbn [bind].
  assert (MO : model_ok X m n B) by apply M.
  destruct (weight_references_ev X m n B (Some cn') (Some q) MO Scn Sq) as (w & Ew & Hw).
  destruct (get_atomic_c6_ev X m n B (Some cn') (Some q) w MO Hw) as (c6 & E6 & (SC & _)).
  assert (KM : m_kind m = D4M) by apply M.
  assert (MO' := MO). destruct MO' as (_ & Hkn & Hnn & Hrr & _).
  unfold is_d4s in Hw. rewrite KM in Hw.
  destruct (get_polarizabilities_ev X (m_numbers m) n B (m_ga m) (m_gc m) (m_ref m) w _ HX Hkn Hnn Hrr Hw)
    as (al & Eal & (SA & _)).
  rewrite Ew. cbn [bind]. rewrite E6. cbn [bind]. unfold model_polarizabilities. rewrite Eal. cbn [bind].
  exists cn', q, c6, al. split; [reflexivity|].
  split; [reflexivity|]. split; [reflexivity|]. split; [exact SC|]. split; [exact SA|].
  rename cn' into cn.
  inversion HF as [|t F ts Fs' HT HF' E1 E2]; subst. inversion HF'; subst.
  destruct WF.
  assert (S4 : shp r4 = n :: B).
  { simpl in E4. apply elements_in_range in wf_elements as (_ & Hr).
    destruct (gather1 (@R4R2 (sc N)) 119 numbers R4R2_shp (in_range_119 _ _ Hr)) as (t & Et & St & _).
    unfold get_r4r2 in E4. rewrite Et in E4. injection E4 as <-. rewrite St. exact wf_numbers. }
  assert (SV : shp rv = n :: n :: B).
  { simpl in Ev. apply elements_in_range in wf_elements as (_ & Hr).
    destruct HX as (nz & ng & nv & _ & _ & Sv & _ & _ & Lv).
    assert (Hr' : in_range nv numbers).
    { eapply in_range_le; [|exact Hr]. unfold ref_limit. destruct (_ =? _)%string; lia. }
    destruct (gather_pair (x_vdw X) nv numbers n B Sv wf_numbers Hr') as (t & Et & St & _).
    unfold get_rvdw in Ev. rewrite Et in Ev. injection Ev as <-. exact St. }
  rewrite <- KM in HT.
  destruct (term_calculate_ev X numbers positions param cn m (Some q) r4 rv (a_cut a) n c B
     (dat (c_disp2 (a_cut a)) []) (dat (c_disp3 (a_cut a)) []) MO wf_numbers wf_positions Scn Sq S4 SV
     (ten_scalar _ wf_cut2) (ten_scalar _ wf_cut3) wf_param _ F HT) as (e2 & R2 & S2 & D2).
  exists r4, rv, e, e2. split; [exact E4|]. split; [exact Ev|]. split; [exact E|].
  split. { unfold term_calculate in R2. cbn [t_cdep t_class t_damping] in R2. rewrite Ew in R2. cbn [bind] in R2.
    rewrite E6 in R2. cbn [bind] in R2. exact R2. }
  split; [exact S|]. split; [exact S2|]. intros b i Vb Hi. rewrite D by auto.
  replace (sl1 e2 b i) with (dat e2 (i :: b)) by reflexivity. rewrite D2 by (split; auto). rewrite sumK_lsum. unfold atom_terms.
  cbn [p_terms p combine map lsum fold_right fst snd]. rewrite Rplus_0_r. reflexivity.
Qed.
End M.

(** ** The hypotheses can be met *)
Example C46_defaults_example eps mx :
  w_cn_d4 (Wex eps mx) None = w_cn_d4 (Wex eps mx) (Some (w_erf_count (Wex eps mx))) /\
  In (casefold "D4S") ["d4"; "d4s"]%string.
Proof. split; [reflexivity|]. simpl. auto. Qed.

Example C14_example eps mx (q : tensor (sc (RN eps mx))) ch : shp q = [3; 2]%nat ->
  p_terms (Pex eps mx) = terms_d4 (N := RN eps mx) (Xex eps mx) /\
  well_formed (N := RN eps mx) (Xex eps mx) (Wex eps mx) (Pex eps mx) mol_call D4M no_kw 3 3 [2%nat] /\
  well_formed (N := RN eps mx) (Xex eps mx) (Wex eps mx) (Pex eps mx) (set_charge (set_q mol_call (Some q)) ch) D4M no_kw 3 3 [2%nat].
Proof.
  intros Sq. split; [reflexivity|]. split; [apply mol_wf|]. destruct (mol_wf eps mx) as [H _]. destruct H.
  constructor; auto. - intros _. eexists. split; [left; reflexivity|reflexivity].
  - intros Q. discriminate.
Qed.

Example C44_example : at_most_two two_mols 3 [1%nat] /\ ~ at_most_two two_mols 3 [0%nat] /\
  at_most_one (mkT [4%nat] (fun ix => match ix with [2%nat] => 8%Z | _ => 0%Z end)) 4 [].
Proof.
  unfold at_most_one, at_most_two, real_atom, sl1, two_mols. simpl. split; [|split].
  - intros i j k Hi Hj Hk. destruct i as [|[|[|i]]], j as [|[|[|j]]], k as [|[|[|k]]]; simpl; intros; try lia.
  - intros H. destruct (H 0 1 2)%nat; simpl; lia.
  - intros i j Hi Hj. destruct i as [|[|[|[|i]]]], j as [|[|[|[|j]]]]; simpl; intros; try lia.
Qed.

Example C45_example eps mx :
  let p := mkDisp [mkTerm (N := RN eps mx) TwoBodyTerm RationalDamping true] (w_cn_d4 (Wex eps mx)) None "d4" None no_kw in
  well_formed (N := RN eps mx) (Xex eps mx) (Wex eps mx) p mol_call D4M no_kw 3 3 [2%nat] /\
  (mol_call (eps := eps) (mx := mx)) = mkCall (N := RN eps mx) two_mols (line 3 [2%nat] 2) (default None (scal (f0 (K := sc (RN eps mx)))))
     (pbe_like (eps := eps) (mx := mx)) None None None None None.
Proof.
  intros p. split.
  - apply (wf_one _ _ (Pex eps mx) mol_call D4M no_kw 3 3 [2%nat] (mkTerm (N := RN eps mx) TwoBodyTerm RationalDamping true));
      [apply mol_wf|left; reflexivity].
  - unfold mol_call, call. cbn [default]. unfold f0. change (flit (s := sc (RN eps mx)) 0) with (Q2R 0). now rewrite Q2R_0.
Qed.

Print Assumptions C46_dftd4_is_DispD4.
Print Assumptions C46_defaults_agree.
Print Assumptions C14_no_charge_dependence.
Print Assumptions C14_atm_ignores_charges.
Print Assumptions C44_few_atoms.
Print Assumptions C45_explicit_model_charges.
Print Assumptions C45_properties_are_those_of_the_energy.
