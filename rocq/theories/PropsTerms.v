(** * The energy is the sum over the registered terms. *)
From Coq Require Import Reals Lra Lia List Arith ZArith QArith Qreals Bool String.
From Verif Require Import Py Tensor Scalar RInst ModelExt ModelUtils ModelDamping ModelModels
  ModelTerms ModelDisp SpecCall TensorLemmas Closed ClosedM ClosedTerms ClosedModels ClosedDamp
  ClosedDisp CallLemmas SpecR EnergyR Energy3R Sums Relabel SpecMol Inst InstW Usable.
Import ListNotations.
Open Scope R_scope.

Section M.
Context {eps mx : R} (X : Ext (sc (RN eps mx))) (W : World (RN eps mx)).
Notation N := (RN eps mx).

(** sum of a list of numbers *)
Definition lsum (l : list R) : R := fold_right Rplus 0 l.

Lemma sumK_lsum l : sumK (N := N) l = lsum l.
Proof.
  unfold sumK. assert (G : forall l a, fold_left (fadd (s := sc N)) l a = a + lsum l).
  { clear. induction l as [|x l IH]; intros a; simpl; [lra|]. rewrite IH. rs. unfold lsum in *. simpl. lra. }
  rewrite G. replace (f0 (K := sc N)) with 0 by (symmetry; apply Q2R_0). apply Rplus_0_l.
Qed.

Lemma charges_q_if p t a : t_cdep t = true -> In t (p_terms p) ->
  charges W (with_terms p [t]) (a_numbers a) (a_positions a) (a_charge a) (a_cut a) (a_q a)
  = charges W p (a_numbers a) (a_positions a) (a_charge a) (a_cut a) (a_q a).
Proof.
  intros H I. unfold charges. simpl. rewrite H. simpl.
  replace (existsb (@t_cdep N) (p_terms p)) with true; auto.
  symmetry. apply existsb_exists. eauto.
Qed.

(** a well-formed call stays well-formed for each term alone *)
Lemma wf_one p a kind kw n c B t : well_formed X W p a kind kw n c B -> In t (p_terms p) ->
  well_formed X W (with_terms p [t]) (q_if (t_cdep t) a) kind kw n c B.
Proof.
  intros [] I. constructor; auto; simpl.
  - destruct (t_cdep t); simpl; auto.
  - intros H. exists t. simpl. split; auto. destruct (t_cdep t); congruence.
  - intros t' [<-|[]]. auto.
  - intros H (t' & [<-|[]] & E). rewrite E in H. apply wf_eeq; auto. exists t. auto.
Qed.

(** *** C46: every energy is the sum of the energies of the terms evaluated separately *)
Theorem C46_energy_is_sum_of_terms :
  forall (p : Disp N) a kind kw n c B,
  ext_tables X -> well_formed X W p a kind kw n c B ->
  exists e es, run X W p a = Ok e /\ shp e = n :: B /\
    Forall2 (fun t et => run X W (with_terms p [t]) (q_if (t_cdep t) a) = Ok et /\ shp et = n :: B)
            (p_terms p) es /\
    forall b i, valid B b -> (i < n)%nat -> sl1 e b i = lsum (map (fun et => sl1 et b i) es).
Proof.
  intros p a kind kw n c B HX WF.
  destruct (terms_funs (a_param a) kind (p_terms p) (wf_terms _ _ _ _ _ _ _ _ _ WF)) as (Fs & HF).
  destruct (run_closed_full X W p a kind kw n c B Fs HX WF HF)
    as (m & cn & qo & r4 & rv & Em & E4 & Ev & M & Ecn & Scn & Eq & Sq & R4 & RV & (e & E & S & D)).
  assert (ONE : forall t F, In t (p_terms p) -> term_ok (a_param a) kind t F ->
     exists et, run X W (with_terms p [t]) (q_if (t_cdep t) a) = Ok et /\ shp et = n :: B /\
       forall b i, valid B b -> (i < n)%nat -> sl1 et b i =
         term_val X t F (a_param a) m n c (sl1 (a_numbers a) b)
                   (sl2 (a_positions a) b) cn qo (sl1 r4 b) (sl2 rv b)
                   (dat (c_disp2 (a_cut a)) []) (dat (c_disp3 (a_cut a)) []) b i).
  { intros t F I HFt. pose proof (wf_one p a kind kw n c B t WF I) as WF1.
    destruct (run_closed_full X W (with_terms p [t]) (q_if (t_cdep t) a) kind kw n c B [F] HX WF1)
      as (m' & cn' & qo' & r4' & rv' & Em' & E4' & Ev' & _ & Ecn' & _ & Eq' & _ & _ & _ & (et & Et & St & Dt)).
    { simpl. constructor; [exact HFt|constructor]. }
    assert (m' = m) as -> by (assert (Q : Ok m' = Ok m) by (rewrite <- Em', <- Em; reflexivity); now injection Q).
    assert (cn' = cn) as -> by (assert (Q : Ok cn' = Ok cn) by (rewrite <- Ecn', <- Ecn; reflexivity); now injection Q).
    assert (r4' = r4) as -> by (assert (Q : Ok r4' = Ok r4) by (rewrite <- E4', <- E4; reflexivity); now injection Q).
    assert (rv' = rv) as -> by (assert (Q : Ok rv' = Ok rv) by (rewrite <- Ev', <- Ev; reflexivity); now injection Q).
    exists et. split; [exact Et|]. split; [exact St|]. intros b i Vb Hi. rewrite Dt by auto.
    rewrite sumK_lsum. unfold atom_terms. simpl. rewrite Rplus_0_r.
    unfold term_val. cbn [fst snd].
    replace (if t_cdep t then qo' else None) with (if t_cdep t then qo else None); [reflexivity|].
    destruct (t_cdep t) eqn:C; auto. simpl in Eq'.
    change (charges W (with_terms p [t]) (a_numbers a) (a_positions a) (a_charge a) (a_cut a) (a_q a) = Ok qo') in Eq'.
    rewrite (charges_q_if p t a C I) in Eq'. congruence. }
  exists e. 
  assert (G : forall ts Fs', incl ts (p_terms p) -> Forall2 (term_ok (a_param a) kind) ts Fs' ->
    exists es, Forall2 (fun t et => run X W (with_terms p [t]) (q_if (t_cdep t) a) = Ok et /\ shp et = n :: B) ts es /\
      forall b i, valid B b -> (i < n)%nat ->
        map (fun tF => term_val X (fst tF) (snd tF) (a_param a) m n c (sl1 (a_numbers a) b)
                   (sl2 (a_positions a) b) cn qo (sl1 r4 b) (sl2 rv b)
                   (dat (c_disp2 (a_cut a)) []) (dat (c_disp3 (a_cut a)) []) b i) (combine ts Fs')
        = map (fun et => sl1 et b i) es).
  { intros ts Fs' I H. induction H as [|t F ts Fs' HFt H IH].
    - exists []. split; [constructor|]. reflexivity.
    - destruct IH as (es & Hes & Ves). { intros x Hx. apply I. right. exact Hx. }
      destruct (ONE t F (I t (or_introl eq_refl)) HFt) as (et & Et & St & Dt).
      exists (et :: es). split; [constructor; auto|]. intros b i Vb Hi. simpl.
      rewrite <- Dt, Ves by auto. reflexivity. }
  destruct (G (p_terms p) Fs (incl_refl _) HF) as (es & Hes & Ves).
  exists es. repeat (split; [assumption|]). intros b i Vb Hi. rewrite D by auto.
  rewrite sumK_lsum. unfold atom_terms. now rewrite Ves.
Qed.

(** ** The parameters enter through their effective values only *)
Section P.
Variables (p : Disp N) (a : Args N) (kind : mkind) (kw : mkwargs N) (n c : nat) (B : list nat).
Hypothesis HX : ext_tables X.
Hypothesis WF : well_formed X W p a kind kw n c B.
Hypothesis HT : p_terms p = terms_d4 X.

Lemma wf_set_param pm : good_param (K := sc N) pm -> getp pm "a1" <> None -> getp pm "a2" <> None ->
  well_formed X W p (set_param a pm) kind kw n c B.
Proof.
  intros G H1 H2. destruct WF. constructor; auto.
  intros t Ht. rewrite HT in Ht. simpl. destruct Ht as [<-|[<-|[]]].
  - apply usable_rational; auto.
  - apply usable_atm; discriminate.
Qed.

Definition rat_tf (pm : Param (sc N)) (a1 a2 : R) : tfun (sc N) :=
  mkTf (sc N) (rat_or_0 pm a1 a2 6) (rat_or_0 pm a1 a2 8) (rat_or_0 pm a1 a2 10) (fun _ _ => 0).
Definition atm_tf (pm : Param (sc N)) : tfun (sc N) :=
  mkTf (sc N) (fun _ _ => 0) (fun _ _ => 0) (fun _ _ => 0)
    (zero_fac (K := sc N) X (flit 1) (fdiv (getd pm "alp" dALP) (flit 3))).

Lemma d4_tfs pm a1 a2 : good_param (K := sc N) pm -> getp pm "a1" = Some a1 -> getp pm "a2" = Some a2 ->
  Forall2 (term_ok pm kind) (p_terms p) [rat_tf pm a1 a2; atm_tf pm].
Proof.
  intros G E1 E2. rewrite HT. constructor; [|constructor; [|constructor]].
  - cbn [term_ok t_class t_damping f6 f8 f10 f9 rat_tf]. split; [left; reflexivity|].
    split; [|split]; intros; apply rational_all; auto.
  - cbn [term_ok t_class t_damping f9 atm_tf]. split; [|discriminate].
    intros u Su Du. now apply atm_elementwise.
Qed.
End P.

(** *** C12, C25: the energy of D4 is linear in the effective scaling parameters; everything
    else only depends on a1, a2 and alp *)
Theorem C12_energy_linear :
  forall (p : Disp N) a kind kw n c B (a1 a2 alp : R),
  ext_tables X -> well_formed X W p a kind kw n c B -> p_terms p = terms_d4 X ->
  exists e6 e8 e10 e9 : list nat -> nat -> R,
    forall pm, good_param (K := sc N) pm ->
      getp pm "a1" = Some a1 -> getp pm "a2" = Some a2 -> eff_alp (eps := eps) (mx := mx) pm = alp ->
      returns1 (run X W p (set_param a pm)) n B
        (fun b i => eff_s6 (eps := eps) (mx := mx) pm * e6 b i + eff_s8 (eps := eps) (mx := mx) pm * e8 b i
                    + eff_s10 (eps := eps) (mx := mx) pm * e10 b i
                    + eff_s9 (eps := eps) (mx := mx) pm * e9 b i).
Proof.
  intros p a kind kw n c B a1 a2 alp HX WF HT.
  (* the ingredients that do not depend on the parameters *)
  destruct (terms_funs (a_param a) kind (p_terms p) (wf_terms _ _ _ _ _ _ _ _ _ WF)) as (Fs0 & HF0).
  destruct (run_closed_full X W p a kind kw n c B Fs0 HX WF HF0)
    as (m & cn & qo & r4 & rv & Em & E4 & Ev & M & Ecn & _ & Eq & _).
  set (g := fun o d r => 1 / (d ^ o + (a1 * sqrt r + a2) ^ o)).
  set (D := fun b i j => x_dist X c (sl2 (a_positions a) b i) (sl2 (a_positions a) b j)).
  set (cut2 := dat (c_disp2 (a_cut a)) [] : R).
  set (cut3 := dat (c_disp3 (a_cut a)) [] : R).
  set (pin := fun b i j => pair_in (eps := eps) (mx := mx) X c (sl1 (a_numbers a) b) (sl2 (a_positions a) b) cut2 i j).
  set (q := fun b i j => 3 * sl1 r4 b i * sl1 r4 b j).
  set (c6 := fun b i j => c6m X m (Some cn) qo b i j : R).
  exists (fun b i => - (1 / 2) * rsum n (fun j => if pin b i j then
            c6 b i j * g 6%nat (D b i j) (q b i j) else 0)),
    (fun b i => - (1 / 2) * rsum n (fun j => if pin b i j then
            c6 b i j * q b i j * g 8%nat (D b i j) (q b i j) else 0)),
    (fun b i => - (1 / 2) * rsum n (fun j => if pin b i j then
            c6 b i j * q b i j ^ 2 * 49 / 40 * g 10%nat (D b i j) (q b i j) else 0)),
    (fun b i => e3_atom (K := sc N) X n c (sl1 (a_numbers a) b) (sl2 (a_positions a) b)
            (c9a X (c6m X m (Some cn) None b)) (radbj X a1 a2 (sl1 r4 b)) cut3
            (zero_fac (K := sc N) X (flit 1) (fdiv (s := sc N) alp (flit 3))) 1 i).
  intros pm G E1 E2 Ealp.
  pose proof (wf_set_param p a kind kw n c B WF HT pm G) as WF'.
  rewrite E1, E2 in WF'. specialize (WF' ltac:(discriminate) ltac:(discriminate)).
  destruct (run_closed_full X W p (set_param a pm) kind kw n c B [rat_tf pm a1 a2; atm_tf pm] HX WF')
    as (m' & cn' & qo' & r4' & rv' & Em' & E4' & Ev' & M' & Ecn' & _ & Eq' & _ & _ & _ & (e & E & S & De)).
  { apply d4_tfs; auto. }
  assert (m' = m) as -> by (assert (Q : Ok m' = Ok m) by (rewrite <- Em', <- Em; reflexivity); now injection Q).
  assert (cn' = cn) as -> by (assert (Q : Ok cn' = Ok cn) by (rewrite <- Ecn', <- Ecn; reflexivity); now injection Q).
  assert (qo' = qo) as -> by (assert (Q : Ok qo' = Ok qo) by (rewrite <- Eq', <- Eq; reflexivity); now injection Q).
  assert (r4' = r4) as -> by (assert (Q : Ok r4' = Ok r4) by (rewrite <- E4', <- E4; reflexivity); now injection Q).
  assert (rv' = rv) as -> by (assert (Q : Ok rv' = Ok rv) by (rewrite <- Ev', <- Ev; reflexivity); now injection Q).
  exists e. split; [exact E|]. split; [exact S|]. intros b i Vb Hi. rewrite De by auto.
  rewrite sumK_lsum. unfold atom_terms. rewrite HT. cbn [terms_d4 combine map lsum fold_right fst snd].
  unfold term_val. cbn [t_class t_cdep t_damping a_param set_param].
  change (a_numbers (set_param a pm)) with (a_numbers a). change (a_positions (set_param a pm)) with (a_positions a).
  change (a_cut (set_param a pm)) with (a_cut a). fold cut2 cut3.
  change (sc (RN eps mx)) with (RS eps mx).
  rewrite e2_atom_R, Rplus_0_r. f_equal.
  - match goal with |- _ = ?s6 * (_ * ?x) + ?s8 * (_ * ?y) + ?s10 * (_ * ?z) =>
      transitivity (- (1 / 2) * (s6 * x + s8 * y + s10 * z)); [|ring] end.
    f_equal. rewrite <- !rsum_scal_l, <- !rsum_plus. apply rsum_ext. intros j Hj.
    unfold pv. match goal with |- (if ?x then _ else _) = _ => change x with (pin b i j) end.
    destruct (pin b i j); [|ring].
    transitivity (pair_energy a1 a2 (eff_s6 (eps := eps) (mx := mx) pm) (eff_s8 (eps := eps) (mx := mx) pm)
      (eff_s10 (eps := eps) (mx := mx) pm) (c6 b i j) (sl1 r4 b i) (sl1 r4 b j) (D b i j)).
    + rewrite <- pairv_rational.
      change (rad_of RationalDamping (sl1 r4 b) (sl2 rv b) i j) with (qq (K := RS eps mx) (sl1 r4 b) i j).
      unfold qq. rs. rewrite Q2R_3. reflexivity.
    + unfold pair_energy, q, g, D. cbv zeta. unfold Rdiv. ring.
  - replace (rad3_of (N := RN eps mx) X D4ATMApprox pm (sl1 r4 b) (sl2 rv b)) with (radbj X a1 a2 (sl1 r4 b)).
    2:{ unfold rad3_of, getd. now rewrite E1, E2. }
    cbn [f9 atm_tf c9_of].
    replace (getd pm "alp" dALP) with alp.
    2:{ rewrite <- Ealp. unfold getd, eff_alp, default. change (sc (RN eps mx)) with (RS eps mx).
        destruct (getp (K := RS eps mx) pm "alp"); [reflexivity|]. symmetry. apply Q2R_16. }
    replace (getd pm "s9" dS9) with (eff_s9 (eps := eps) (mx := mx) pm).
    2:{ unfold getd, eff_s9, default. change (sc (RN eps mx)) with (RS eps mx).
        destruct (getp (K := RS eps mx) pm "s9"); [reflexivity|]. symmetry. apply Q2R_1. }
    unfold e3_atom. rs. rewrite !fsum_R. unfold Rdiv. rewrite <- Rmult_assoc. f_equal.
    rewrite <- rsum_scal_l. apply rsum_ext. intros j Hj. rewrite !fsum_R, <- rsum_scal_l.
    apply rsum_ext. intros k Hk. unfold e3_triple. rs.
    assert (R3 : rad3_of (N := RN eps mx) X D4ATMApprox pm (sl1 r4 b) (sl2 rv b) = radbj (K := sc N) X a1 a2 (sl1 r4 b))
      by (unfold rad3_of, getd; now rewrite E1, E2).
    assert (S9 : getd (K := RS eps mx) pm "s9" dS9 = eff_s9 (eps := eps) (mx := mx) pm).
    { unfold getd, eff_s9, default. change (sc (RN eps mx)) with (RS eps mx).
      destruct (getp (K := RS eps mx) pm "s9"); [reflexivity|]. apply Q2R_1. }
    match goal with |- ?A * ?F * ?S * ?C = ?s * (?A' * ?F' * 1 * ?C') =>
      assert (HF : F = F') by exact (f_equal (fun r => fdp (K := sc N) X c (sl1 (a_numbers a) b)
        (sl2 (a_positions a) b) r (zero_fac (K := sc N) X (flit 1) (fdiv (s := sc N) alp (flit 3))) i j k) R3);
      assert (HS : S = s) by exact S9; rewrite HF, HS; change C with C' end.
    ring.
Qed.

(** *** C25: an omitted s8 (and rs8) is the same as s8 = 0, an omitted s6 or s9 as 1, an omitted
    s10 as 0, an omitted alp as 16 *)
Theorem C25_omitted_parameters :
  forall (p : Disp N) a kind kw n c B,
  ext_tables X -> well_formed X W p a kind kw n c B -> p_terms p = terms_d4 X ->
  getp (a_param a) "a1" <> None -> getp (a_param a) "a2" <> None ->
  let same k x := exists e e', run X W p a = Ok e /\
      run X W p (set_param a (pnum (eps := eps) (mx := mx) k x :: a_param a)) = Ok e' /\
      shp e = n :: B /\ shp e' = n :: B /\
      forall b i, valid B b -> (i < n)%nat -> sl1 e b i = sl1 e' b i in
  (getp (a_param a) "s8" = None -> getp (a_param a) "rs8" = None -> same "s8"%string 0) /\
  (getp (a_param a) "s6" = None -> same "s6"%string 1) /\
  (getp (a_param a) "s10" = None -> same "s10"%string 0) /\
  (getp (a_param a) "s9" = None -> same "s9"%string 1) /\
  (getp (a_param a) "alp" = None -> same "alp"%string 16).
Proof.
  intros p a kind kw n c B HX WF HT H1 H2 same.
  destruct (getp (a_param a) "a1") as [a1|] eqn:E1; [|congruence].
  destruct (getp (a_param a) "a2") as [a2|] eqn:E2; [|congruence].
  destruct (C12_energy_linear p a kind kw n c B a1 a2 (eff_alp (eps := eps) (mx := mx) (a_param a)) HX WF HT)
    as (e6 & e8 & e10 & e9 & H).
  destruct (H (a_param a) (wf_param _ _ _ _ _ _ _ _ _ WF) E1 E2 eq_refl) as (e & E & S & D).
  assert (GO : forall k x, In k ["s6"; "s8"; "s9"; "s10"; "alp"]%string ->
     let pm := pnum (eps := eps) (mx := mx) k x :: a_param a in
     eff_alp (eps := eps) (mx := mx) pm = eff_alp (eps := eps) (mx := mx) (a_param a) ->
     eff_s6 (eps := eps) (mx := mx) pm = eff_s6 (eps := eps) (mx := mx) (a_param a) ->
     eff_s8 (eps := eps) (mx := mx) pm = eff_s8 (eps := eps) (mx := mx) (a_param a) ->
     eff_s10 (eps := eps) (mx := mx) pm = eff_s10 (eps := eps) (mx := mx) (a_param a) ->
     eff_s9 (eps := eps) (mx := mx) pm = eff_s9 (eps := eps) (mx := mx) (a_param a) -> same k x).
  { intros k x Hk pm Ha H6 H8 H10 H9.
    assert (G : good_param (K := sc N) pm).
    { intros k' v [Q|Q].
      - injection Q as <- <-. split; [|intros _; eexists; apply rnum_isnum].
        simpl in Hk |- *. tauto.
      - apply (wf_param _ _ _ _ _ _ _ _ _ WF); auto. }
    assert (NE : forall l, In l ["a1"; "a2"]%string -> getp pm l = getp (a_param a) l).
    { intros l Hl. unfold getp, pm, pnum. cbn [dget].
      destruct (String.eqb_spec k l); auto. subst. simpl in Hk, Hl. intuition congruence. }
    destruct (H pm G) as (e' & E' & S' & D'); [rewrite NE; simpl; auto|rewrite NE; simpl; auto|auto|].
    exists e, e'. repeat (split; [destruct a; assumption|]). intros b i Vb Hi.
    rewrite D, D' by auto. now rewrite H6, H8, H9, H10. }
  unfold eff_alp, eff_s6, eff_s8, eff_s10, eff_s9 in GO.
  split; [|split; [|split; [|split]]].
  - intros A8 R8. apply GO; try reflexivity; [simpl; tauto|].
    change (getp (K := RS eps mx) (a_param a) "s8" = None) in A8.
    change (getp (K := RS eps mx) (a_param a) "rs8" = None) in R8. rewrite A8, R8. reflexivity.
  - intros A. apply GO; try reflexivity; [simpl; tauto|].
    change (getp (K := RS eps mx) (a_param a) "s6" = None) in A. rewrite A. reflexivity.
  - intros A. apply GO; try reflexivity; [simpl; tauto|].
    change (getp (K := RS eps mx) (a_param a) "s10" = None) in A. rewrite A. reflexivity.
  - intros A. apply GO; try reflexivity; [simpl; tauto|].
    change (getp (K := RS eps mx) (a_param a) "s9" = None) in A. rewrite A. reflexivity.
  - intros A. apply GO; try reflexivity; [simpl; tauto|].
    change (getp (K := RS eps mx) (a_param a) "alp" = None) in A. rewrite A. reflexivity.
Qed.

End M.

(** ** The hypotheses can be met *)
Example C46_sum_example eps mx :
  ext_tables (Xex eps mx) /\
  well_formed (N := RN eps mx) (Xex eps mx) (Wex eps mx) (Pex eps mx) mol_call D4M no_kw 3 3 [2%nat] /\
  List.length (p_terms (Pex eps mx)) = 2%nat.
Proof. split; [apply Xex_tables|]. split; [apply mol_wf|]. reflexivity. Qed.

Example C12_energy_example eps mx :
  well_formed (N := RN eps mx) (Xex eps mx) (Wex eps mx) (PexS eps mx) mol_call D4SM no_kw 3 3 [2%nat] /\
  p_terms (PexS eps mx) = terms_d4 (N := RN eps mx) (Xex eps mx) /\
  forall s6 s8 s9 s10 : R, let pm := [pnum (eps := eps) (mx := mx) "s6" s6; pnum "s8" s8; pnum "s9" s9;
      pnum "s10" s10; pnum "a1" (39 / 100); pnum "a2" (48 / 10)] in
    good_param pm /\ getp pm "a1" = Some (39 / 100) /\ getp pm "a2" = Some (48 / 10) /\ eff_alp pm = 16 /\
    eff_s6 pm = s6 /\ eff_s8 pm = s8 /\ eff_s9 pm = s9 /\ eff_s10 pm = s10.
Proof.
  split; [apply mol_wf|]. split; [reflexivity|]. intros.
  split; [|repeat split; reflexivity].
  apply (pnum_good [("s6", s6); ("s8", s8); ("s9", s9); ("s10", s10); ("a1", 39 / 100); ("a2", 48 / 10)]%string).
  simpl. intros k x H. repeat (destruct H as [H|H]; [injection H as <- _; tauto|]). destruct H.
Qed.

Example C25_omitted_example eps mx :
  let pm := [pnum (eps := eps) (mx := mx) "a1" (39 / 100); pnum "a2" (48 / 10)] in
  let a := set_param (mol_call (eps := eps) (mx := mx)) pm in
  well_formed (N := RN eps mx) (Xex eps mx) (Wex eps mx) (Pex eps mx) a D4M no_kw 3 3 [2%nat] /\
  getp (K := sc (RN eps mx)) (a_param a) "a1" <> None /\ getp (K := sc (RN eps mx)) (a_param a) "a2" <> None /\
  Forall (fun k => getp (K := sc (RN eps mx)) (a_param a) k = None) ["s6"; "s8"; "rs8"; "s9"; "s10"; "alp"]%string.
Proof.
  intros pm a. split; [|split; [discriminate|split; [discriminate|]]].
  - apply wf_set_param; [apply mol_wf|reflexivity| |discriminate|discriminate].
    apply (pnum_good [("a1", 39 / 100); ("a2", 48 / 10)]%string).
    simpl. intros k x H. repeat (destruct H as [H|H]; [injection H as <- _; tauto|]). destruct H.
  - repeat constructor.
Qed.

Print Assumptions C46_energy_is_sum_of_terms.
Print Assumptions C12_energy_linear.
Print Assumptions C25_omitted_parameters.
