(** * Closed form of the dispersion terms and of [Disp.calculate] (proof layer). *)
From Coq Require Import List Arith ZArith QArith Bool String Lia.
From Verif Require Import Py Tensor Scalar ModelExt ModelUtils ModelDamping ModelModels
  ModelTerms ModelDisp SpecCall TensorLemmas EinsumLemmas Closed ClosedM ClosedTerms ClosedModels
  ClosedDamp.
Import ListNotations.
Open Scope nat_scope.
Open Scope string_scope.

Section C.
Context {N : Num} (X : Ext (sc N)).
Notation K := (sc N).

Definition c9x (m : Model N) cn q n b i j k : K :=
  fmul thopi (fsum 23 (fun w =>
    fmul (fmul (fmul (wpm X m cn q n b w i) (wpm X m cn q n b w j)) (wpm X m cn q n b w k))
         (trap_w_atm w))).

Definition c9_of (cls : tclass) (m : Model N) cn q n b i j k : K :=
  match cls with
  | D4ATMExact => c9x m cn q n b i j k
  | _ => c9a X (c6m X m cn q b) i j k
  end.

Definition rad3_of (cls : tclass) (param : Param K) (r : nat -> K) (rv : nat -> nat -> K) i j : K :=
  match cls with
  | D3ATM => fmul (getd param "rs9" dRS9) (rv i j)
  | _ => radbj X (getd param "a1" dA1) (getd param "a2" dA2) r i j
  end.

Definition s10_of (param : Param K) (F : tfun K) : option (K * (K -> K -> K)) :=
  match getp param "s10" with Some x => Some (x, f10 F) | None => None end.

(** energy of atom [i] of molecule [b] from one term *)
Definition term_val (t : DispTerm N) (F : tfun K) (param : Param K) (m : Model N)
  (n c : nat) (num : nat -> Z) (pos : nat -> nat -> K) (cn : tensor K) (q : option (tensor K))
  (r : nat -> K) (rv : nat -> nat -> K) (cut2 cut3 : K) (b : list nat) (i : nat) : K :=
  let q := if t_cdep t then q else None in
  match t_class t with
  | TwoBodyTerm =>
      e2_atom X n c num pos (c6m X m (Some cn) q b) (rad_of (t_damping t) r rv) r cut2
              (f6 F) (f8 F) (getd param "s6" dS6) (getd param "s8" dS8) (s10_of param F) i
  | cls =>
      e3_atom X n c num pos (c9_of cls m (Some cn) q n b) (rad3_of cls param r rv) cut3
              (f9 F) (getd param "s9" dS9) i
  end.

Section T.
Variables (numbers : tensor Z) (positions : tensor K) (param : Param K) (cn : tensor K)
  (m : Model N) (q : option (tensor K)) (r4r2 rvdw : tensor K) (cutoff : Cutoff K).
Variables (n c : nat) (B : list nat) (cut2 cut3 : K).
Hypothesis Hm : model_ok X m n B.
Hypothesis Hn : shp numbers = n :: B.
Hypothesis Hp : shp positions = c :: n :: B.
Hypothesis Hcn : shp cn = n :: B.
Hypothesis Hq : cnq_ok q (n :: B).
Hypothesis Hr : shp r4r2 = n :: B.
Hypothesis Hv : shp rvdw = n :: n :: B.
Hypothesis Hc2 : ten (c_disp2 cutoff) [] (fun _ => cut2).
Hypothesis Hc3 : ten (c_disp3 cutoff) [] (fun _ => cut3).
Hypothesis G : good_param param.

Let tv t F := fun i b => term_val t F param m n c (sl1 numbers b) (sl2 positions b) cn q
                           (sl1 r4r2 b) (sl2 rvdw b) cut2 cut3 b i.

Lemma e3_atom_ext num pos c9 c9' rad rad' cut g s9 i :
  (forall i j k, c9 i j k = c9' i j k) -> (forall i j, rad i j = rad' i j) ->
  e3_atom X n c num pos c9 rad cut g s9 i = e3_atom X n c num pos c9' rad' cut g s9 i.
Proof.
  intros H1 H2. unfold e3_atom. f_equal. apply fsum2_ext. intros. unfold e3_triple, fdp, r0p.
  now rewrite H1, !H2.
Qed.

Lemma e3_atom_ext_n num pos c9 c9' rad rad' cut g s9 i : i < n ->
  (forall i j k, i < n -> j < n -> k < n -> c9 i j k = c9' i j k) ->
  (forall i j, i < n -> j < n -> rad i j = rad' i j) ->
  e3_atom X n c num pos c9 rad cut g s9 i = e3_atom X n c num pos c9' rad' cut g s9 i.
Proof.
  intros Hi H1 H2. unfold e3_atom. f_equal. apply fsum2_ext. intros. unfold e3_triple, fdp, r0p.
  now rewrite H1, !H2.
Qed.

Lemma e2_atom_ext_n num pos c6 c6' rad rad' r cut g6 g8 s6 s8 s10 i : i < n ->
  (forall i j, i < n -> j < n -> c6 i j = c6' i j) ->
  (forall i j, i < n -> j < n -> rad i j = rad' i j) ->
  e2_atom X n c num pos c6 rad r cut g6 g8 s6 s8 s10 i
  = e2_atom X n c num pos c6' rad' r cut g6 g8 s6 s8 s10 i.
Proof.
  intros Hi H1 H2. unfold e2_atom. f_equal.
  assert (E : forall (a a' : nat -> nat -> K) g, (forall j, j < n -> a i j = a' i j) ->
    fsum n (fun j => fmul (a i j) (tfac X g c num pos rad cut i j))
    = fsum n (fun j => fmul (a' i j) (tfac X g c num pos rad' cut i j))).
  { intros a a' g Ha. apply fsum_ext. intros j Hj. rewrite Ha by auto.
    unfold tfac. now rewrite H2 by auto. }
  rewrite (E c6 c6'), (E (c8v c6 r) (c8v c6' r)); auto.
  2:{ intros. unfold c8v. now rewrite H1. }
  destruct s10 as [[x g]|]; auto. rewrite (E (c10v c6 r) (c10v c6' r)); auto.
  intros. unfold c10v. now rewrite H1.
Qed.

Lemma term_calculate_ev t F : term_ok param (m_kind m) t F ->
  ev (term_calculate X t numbers positions param cn m q r4r2 rvdw cutoff) (n :: B) (ix1 (tv t F)).
Proof.
  intros Ht. unfold term_calculate. set (q' := if t_cdep t then q else None).
  assert (Hq' : cnq_ok q' (n :: B)) by (unfold q'; destruct (t_cdep t); simpl; auto).
  assert (EW := weight_references_ev X m n B (Some cn) q' Hm Hcn Hq').
  assert (AB : abstract_model m = false).
  { destruct Hm as (_ & _ & _ & _ & _ & Hk). unfold abstract_model.
    destruct (m_kind m); auto; destruct (m_wf m); contradiction. }
  unfold tv, term_val. fold q'. unfold term_ok in Ht. destruct (t_class t) eqn:EC.
  - destruct Ht as (Hrt & H6 & H8 & H10).
    eapply ev_bind; [exact EW|]. intros w Hw.
    eapply ev_bind; [eapply get_atomic_c6_ev; eauto|]. intros c6 Hc6.
    eapply ev_conv.
    + apply (dispersion2_ev X numbers positions param c6 r4r2 (Some rvdw) (t_damping t)
               (Some (c_disp2 cutoff)) n c B (f6 F) (f8 F) (getd param "s6" dS6)
               (getd param "s8" dS8) cut2 (s10_of param F)); auto.
      * apply Hc6.
      * destruct Hrt as [E|E]; [left|right]; auto. split; auto. eauto.
      * apply (pget_isnum param "s6" dS6 G). discriminate.
      * apply (pget_isnum param "s8" dS8 G). discriminate.
      * unfold s10_of. destruct (getp param "s10") eqn:E.
        { split; [|apply H10; discriminate].
          destruct (good_isnum _ "s10" _ G ltac:(discriminate) E) as (p & D & P). eauto. }
        { apply (good_none _ "s10" G); auto. discriminate. }
    + vsimp. apply e2_atom_ext_n; auto.
      intros. unfold sl2. rewrite (proj2 Hc6) by (repeat apply valid_cons; auto). reflexivity.
  - destruct Ht as (H9 & Hex). rewrite AB. cbn [raise_if bind].
    eapply ev_bind; [exact EW|]. intros w Hw.
    eapply ev_bind. { eapply ev_bind; [eapply get_atomic_c6_ev; eauto|]. intros c6 Hc6.
      eapply c9_approx_ev; eauto. }
    intros c9 Hc9.
    eapply ev_bind. { eapply radii_bj_ev; [exact Hr| |].
      apply (pget_isnum param "a1" dA1 G); discriminate.
      apply (pget_isnum param "a2" dA2 G); discriminate. }
    intros rd Hrd.
    eapply ev_conv.
    + eapply (get_atm_dispersion_ev X numbers positions c9 rd (c_disp3 cutoff) (t_damping t) _ _
                n c B (f9 F) (getd param "s9" dS9) (getd param "alp" dALP) cut3); auto.
      * apply Hc9.
      * apply Hrd.
      * apply (pget_isnum param "s9" dS9 G). discriminate.
      * apply (pget_isnum param "alp" dALP G). discriminate.
    + vsimp. apply e3_atom_ext_n; auto.
      * intros. unfold sl3. rewrite (proj2 Hc9) by (repeat apply valid_cons; auto). reflexivity.
      * intros. unfold sl2. rewrite (proj2 Hrd) by (repeat apply valid_cons; auto). reflexivity.
  - destruct Ht as (H9 & Hex). specialize (Hex eq_refl). rewrite AB. cbn [raise_if bind].
    eapply ev_bind; [exact EW|]. intros w Hw.
    eapply ev_bind. { unfold is_d4s in Hw. rewrite Hex in Hw.
      eapply ev_bind; [eapply get_weighted_pols_d4_ev; eauto|]. intros a Ha.
      eapply c9_exact_ev; eauto. }
    intros c9 Hc9.
    eapply ev_bind. { eapply radii_bj_ev; [exact Hr| |].
      apply (pget_isnum param "a1" dA1 G); discriminate.
      apply (pget_isnum param "a2" dA2 G); discriminate. }
    intros rd Hrd.
    eapply ev_conv.
    + eapply (get_atm_dispersion_ev X numbers positions c9 rd (c_disp3 cutoff) (t_damping t) _ _
                n c B (f9 F) (getd param "s9" dS9) (getd param "alp" dALP) cut3); auto.
      * apply Hc9.
      * apply Hrd.
      * apply (pget_isnum param "s9" dS9 G). discriminate.
      * apply (pget_isnum param "alp" dALP G). discriminate.
    + vsimp. apply e3_atom_ext_n; auto.
      * intros. unfold sl3. rewrite (proj2 Hc9) by (repeat apply valid_cons; auto). reflexivity.
      * intros. unfold sl2. rewrite (proj2 Hrd) by (repeat apply valid_cons; auto). reflexivity.
  - destruct Ht as (H9 & Hex). rewrite AB. cbn [raise_if bind].
    eapply ev_bind; [exact EW|]. intros w Hw.
    eapply ev_bind. { eapply ev_bind; [eapply get_atomic_c6_ev; eauto|]. intros c6 Hc6.
      eapply c9_approx_ev; eauto. }
    intros c9 Hc9.
    eapply ev_bind. { eapply radii_vdw_ev; [exact Hv|].
      apply (pget_isnum param "rs9" dRS9 G); discriminate. }
    intros rd Hrd.
    eapply ev_conv.
    + eapply (get_atm_dispersion_ev X numbers positions c9 rd (c_disp3 cutoff) (t_damping t) _ _
                n c B (f9 F) (getd param "s9" dS9) (getd param "alp" dALP) cut3); auto.
      * apply Hc9.
      * apply Hrd.
      * apply (pget_isnum param "s9" dS9 G). discriminate.
      * apply (pget_isnum param "alp" dALP G). discriminate.
    + vsimp. apply e3_atom_ext_n; auto.
      * intros. unfold sl3. rewrite (proj2 Hc9) by (repeat apply valid_cons; auto). reflexivity.
      * intros. unfold sl2. rewrite (proj2 Hrd) by (repeat apply valid_cons; auto). reflexivity.
Qed.

Lemma sum_terms_ev (calc : DispTerm N -> res (tensor K)) (s : list nat) ts : forall fs e f,
  ten e s f ->
  Forall2 (fun t g => ev (calc t) s g) ts fs ->
  ev (sum_terms e ts calc) s (fun i => fold_left (fun a g => fadd a (g i)) fs (f i)).
Proof.
  induction ts as [|t ts IH]; intros fs e f He H; inversion H; subst; cbn [sum_terms fold_left].
  - now apply ev_t.
  - eapply (ev_bind _ _ s (fun i => fadd (f i) (y i))).
    { eapply ev_conv; [eapply (ev_lift2 fadd); [ev_go|eassumption|apply bshape_refl]|].
      intros i Hi. cbv beta. now rewrite !(bidx_valid s i Hi). }
    intros e' He'. apply (IH l' e' (fun i => fadd (f i) (y i))); auto.
Qed.
End T.

(** charges used by [calculate] *)
Definition charges (W : World N) (p : Disp N) numbers positions charge (cutoff : Cutoff K)
  (q : option (tensor K)) : res (option (tensor K)) :=
  match q with
  | Some q => Ok (Some q)
  | None => if existsb (@t_cdep N) (p_terms p)
            then q <- w_eeq W numbers positions charge (c_cn_eeq cutoff) ;; Ok (Some q)
            else Ok None
  end.

Lemma calculate_ev W p numbers positions charge param cutoff q rcov r4r2 rvdw
  m n c B cn qo r4 rv cut2 cut3 Fs :
  let cutoff' := default cutoff default_cutoff in
  shp numbers = n :: B -> shp positions = c :: n :: B ->
  get_model X p numbers = Ok m -> model_ok X m n B ->
  (match rcov with Some rc => shp rc = n :: B | None => True end) ->
  match r4r2 with None => get_r4r2 numbers | Some r => Ok r end = Ok r4 -> shp r4 = n :: B ->
  match rvdw with None => get_rvdw X numbers | Some r => Ok r end = Ok rv -> shp rv = n :: n :: B ->
  p_cn_fn p (p_cn_kw p) numbers positions = Ok cn -> shp cn = n :: B ->
  (q <> None -> existsb (@t_cdep N) (p_terms p) = true) ->
  charges W p numbers positions charge cutoff' q = Ok qo -> cnq_ok qo (n :: B) ->
  ten (c_disp2 cutoff') [] (fun _ => cut2) -> ten (c_disp3 cutoff') [] (fun _ => cut3) ->
  good_param param -> Forall2 (term_ok param (m_kind m)) (p_terms p) Fs ->
  ev (calculate X W p numbers positions charge param cutoff q rcov r4r2 rvdw) (n :: B)
    (ix1 (fun i b => fold_left (fun a g => fadd a g)
       (map (fun tF => term_val (fst tF) (snd tF) param m n c (sl1 numbers b) (sl2 positions b)
                         cn qo (sl1 r4 b) (sl2 rv b) cut2 cut3 b i)
            (combine (p_terms p) Fs)) f0)).
Proof.
  intros cutoff' Hn Hp Hgm Hm Hrc Er4 Hr4 Erv Hrv Ecn Hcn Hcd Eq Hqo Hc2 Hc3 G HF.
  unfold calculate. fold cutoff'. rewrite Hn, Hp.
  assert (CS : forall s, check_shape s s = Ok tt) by (intros; unfold check_shape; rewrite shape_eqb_refl; reflexivity).
  cbn [tl]. rewrite CS. cbn [bind]. rewrite Hgm. cbn [bind].
  replace (match rcov with Some rc => check_shape (n :: B) (shp rc) | None => Ok tt end) with (Ok tt)
    by (destruct rcov; [rewrite Hrc, CS|]; auto).
  cbn [bind]. rewrite Er4. cbn [bind]. rewrite Hr4, CS. cbn [bind]. rewrite Erv. cbn [bind].
  rewrite Hrv. cbn [tl]. rewrite CS. cbn [bind]. rewrite Ecn. cbn [bind].
  replace (raise_if _ RuntimeError) with (Ok tt).
  2:{ destruct q; [rewrite Hcd by discriminate|]; reflexivity. }
  cbn [bind]. unfold charges in Eq. rewrite Eq. cbn [bind].
  replace (match qo with Some q0 => check_shape (n :: B) (shp q0) | None => Ok tt end) with (Ok tt)
    by (destruct qo; [simpl in Hqo; rewrite Hqo, CS|]; auto).
  cbn [bind].
  eapply ev_conv.
  - eapply (sum_terms_ev _ (n :: B) _
      (map (fun tF => ix1 (fun i b => term_val (fst tF) (snd tF) param m n c (sl1 numbers b)
                 (sl2 positions b) cn qo (sl1 r4 b) (sl2 rv b) cut2 cut3 b i))
           (combine (p_terms p) Fs)) _ (fun _ => f0)).
    + split; [reflexivity|]. reflexivity.
    + clear Hcd Eq. induction HF; simpl; constructor; auto.
      eapply term_calculate_ev; eauto.
  - vsimp. generalize (f0 (K := K)).
    induction (combine (p_terms p) Fs) as [|tF l IH]; simpl; auto.
Qed.

End C.
