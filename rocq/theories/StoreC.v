(** * Proofs about the object store: calls in histories, counters *)
From Coq Require Import List Arith ZArith QArith Bool String Lia.
From Verif Require Import Py Tensor Scalar ModelExt ModelUtils ModelDamping ModelModels
  ModelTerms ModelDisp ModelStore SpecCall SpecStore StoreP.
Import ListNotations.

Section P.
Context {N : Num} (X : Ext (sc N)) (W : World N).
Notation K := (sc N).
Notation store := (store N).

(** *** calls do not matter *)
Lemma sim_possible (s s' : store) e : sim s s' -> possible s e = possible s' e.
Proof.
  intros S. pose proof (sim_len s s' S) as L. destruct S as (_ & Et & Ed).
  destruct e; cbn [possible]; unfold exists_damp; rewrite ?L, ?Et, ?Ed; auto.
Qed.

Lemma sim_do (s s' : store) e : wf s -> sim s s' -> possible s e = true ->
  exists r s1 s1', do X W e s = (s1, r) /\ do X W e s' = (s1', r) /\ sim s1 s1'.
Proof.
  intros Hw S Hp. pose proof (sim_wf s s' S Hw) as Hw'. pose proof Hp as Hp'. rewrite (sim_possible s s' e S) in Hp'.
  destruct (is_call e) eqn:Hc.
  { destruct (call_step X W s e Hw Hc Hp) as (s1 & E1 & S1). destruct (call_step X W s' e Hw' Hc Hp') as (s2 & E2 & S2).
    exists (pure_result X W s e), s1, s2. split; [exact E1|]. split.
    - rewrite E2. f_equal. destruct e; try discriminate; cbn [pure_result].
      + now rewrite (sim_disp s s' i S).
      + now rewrite (sim_damping s s' l S).
      + now rewrite (sim_damping s s' l S).
    - apply sim_trans with s; [now apply sim_sym|]. now apply sim_trans with s'. }
  pose proof S as (Sd & St & Sp). destruct e; try discriminate; cbn [possible] in Hp.
  - do 3 eexists. split; [reflexivity|]. split; [reflexivity|]. split; [|split]; cbn [s_damp s_terms s_disps]; auto.
    rewrite !map_app. now rewrite Sd.
  - do 3 eexists. split; [reflexivity|]. split; [reflexivity|]. split; [|split]; cbn [s_damp s_terms s_disps]; auto. now rewrite St.
  - cbn [do]. unfold no_value, new_disp_obj, bindM, ret. destruct (new_disp W [] model kw cn_fn cn_kw) as [conf|x].
    + rewrite !new_terms_spec. unfold alloc_disp. cbn [s_damp s_terms s_disps]. do 3 eexists. split; [reflexivity|]. split; [reflexivity|].
      split; [|split]; cbn [s_damp s_terms s_disps]; auto; rewrite St; auto. now rewrite Sp.
    + do 3 eexists. split; [reflexivity|]. split; [reflexivity|]. exact S.
  - apply andb_true_iff in Hp as (H1 & H2). apply Nat.ltb_lt in H1, H2.
    cbn [do]. unfold no_value, register_obj, bindM, deref, set_terms. rewrite <- Sp.
    destruct (nth_error (s_disps s) i) as [o|] eqn:Eo; [|exfalso; apply nth_error_None in Eo; lia].
    do 3 eexists. split; [reflexivity|]. split; [reflexivity|]. split; [|split]; cbn [s_damp s_terms s_disps]; rewrite ?St, ?Sp; auto.
  - apply andb_true_iff in Hp as (H1 & H2). apply Nat.ltb_lt in H1, H2.
    cbn [do]. unfold no_value, deregister_obj, bindM, deref, set_terms. rewrite <- Sp.
    destruct (nth_error (s_disps s) i) as [o|] eqn:Eo; [|exfalso; apply nth_error_None in Eo; lia].
    destruct (wf_term s t Hw H2) as (v & Ev). pose proof Ev as Ev'. rewrite (sim_term s s' t S) in Ev'.
    destruct (wf_disp s i Hw H1) as (p & Ep). unfold the_disp in Ep. rewrite Eo in Ep.
    destruct (all (map (the_term s) (o_terms o))) as [ts|] eqn:Ea; [|discriminate].
    assert (Ea' : all (map (the_term s') (o_terms o)) = Some ts).
    { rewrite <- Ea. f_equal. apply map_ext. intros x. symmetry. now apply sim_term. }
    assert (G : exists r, remove_obj (o_terms o) t s = (s, r) /\ remove_obj (o_terms o) t s' = (s', r)).
    { clear - Ea Ea' Ev Ev'. revert ts Ea Ea'. induction (o_terms o) as [|t' l IH]; intros ts Ea Ea'.
      - eexists; split; reflexivity.
      - cbn [map] in Ea, Ea'. apply all_cons in Ea as (v1 & r1 & E1 & E1' & ->). apply all_cons in Ea' as (v2 & r2 & E2 & E2' & Q).
        injection Q as <- <-. destruct (IH r1 E1' E2') as (r & R1 & R2).
        rewrite (remove_cons s t' l t v1 v E1 Ev), (remove_cons s' t' l t v1 v E2 Ev'). unfold bindM. rewrite R1, R2.
        destruct (term_eqb v1 v); [eexists; split; reflexivity|]. destruct r; eexists; split; reflexivity. }
    destruct G as (r & -> & ->). destruct r.
    + do 3 eexists. split; [reflexivity|]. split; [reflexivity|]. split; [|split]; cbn [s_damp s_terms s_disps]; auto. now rewrite Sp.
    + do 3 eexists. split; [reflexivity|]. split; [reflexivity|]. exact S.
Qed.

Lemma sim_step (s s' : store) e : wf s -> sim s s' -> sim (step X W s e) (step X W s' e).
Proof.
  intros Hw S. unfold step. rewrite <- (sim_possible s s' e S). destruct (possible s e) eqn:Hp; [|exact S].
  destruct (sim_do s s' e Hw S Hp) as (r & s1 & s2 & -> & -> & H). exact H.
Qed.
Lemma calls_skip h : forall s s' : store, wf s -> sim s s' ->
  sim (fold_left (step X W) h s) (fold_left (step X W) (filter (fun e => negb (is_call e)) h) s').
Proof.
  induction h as [|e h IH]; intros s s' Hw S; cbn [filter fold_left]; [exact S|].
  destruct (is_call e) eqn:Hc; cbn [negb].
  - apply IH; [now apply step_wf|]. apply sim_trans with s; [|exact S]. apply sim_sym. unfold step.
    destruct (possible s e) eqn:Hp; [|apply sim_refl]. destruct (call_step X W s e Hw Hc Hp) as (s1 & -> & H). exact H.
  - cbn [fold_left]. apply IH; [now apply step_wf|]. now apply sim_step.
Qed.

(** *** counters *)
Definition number (k : sort) (ts : list (DispTerm N)) : nat :=
  List.length (filter (fun t => sort_eqb k (sort_of t)) ts).

Record counts (s : store) (c : counters) : Prop := mkCounts {
  n_damp : c_damp c = map (fun o => d_class (o_class o)) (s_damp s);
  n_terms : forall t, nth_error (c_terms c) t = option_map sort_of (the_term s t);
  n_len : List.length (c_disps c) = List.length (s_disps s);
  n_disps : forall i p, the_disp s i = Some p ->
     exists f, nth_error (c_disps c) i = Some f /\ forall k, f k = number k (p_terms p) }.

Lemma counts_terms_len (s : store) (l : list sort) : wf s ->
  (forall t, nth_error l t = option_map sort_of (the_term s t)) -> List.length l = List.length (s_terms s).
Proof.
  intros Hw H. destruct (Nat.lt_trichotomy (List.length l) (List.length (s_terms s))) as [L|[L|L]]; auto; exfalso.
  - specialize (H (List.length l)). destruct (wf_term s _ Hw L) as (v & Ev). rewrite Ev in H.
    assert (Q : nth_error l (List.length l) = None) by now apply nth_error_None. rewrite Q in H. discriminate.
  - specialize (H (List.length (s_terms s))). unfold the_term in H.
    assert (Q : nth_error (s_terms s) (List.length (s_terms s)) = None) by now apply nth_error_None. rewrite Q in H.
    cbn in H. apply nth_error_None in H. lia.
Qed.

Lemma sort_in_term (s : store) c o : c_damp c = map (fun o => d_class (o_class o)) (s_damp s) ->
  sort_in c o = option_map sort_of (term_in s o).
Proof.
  intros H. unfold sort_in, term_in, the_damping. rewrite H, nth_error_map. destruct (nth_error (s_damp s) (o_damping o)); reflexivity.
Qed.
Lemma all_option_map {A B C} (f : A -> option B) (g : A -> option C) (h : B -> C) l :
  (forall x, g x = option_map h (f x)) -> all (map g l) = option_map (map h) (all (map f l)).
Proof.
  intros H. induction l as [|x l IH]; [reflexivity|]. cbn [map all]. rewrite H.
  destruct (f x); cbn [option_map all]; [|reflexivity]. rewrite IH. destruct (all (map f l)); reflexivity.
Qed.
Lemma the_term_app (s s' : store) ts t : s_damp s' = s_damp s -> s_terms s' = (s_terms s ++ ts)%list ->
  the_term s' t = match nth_error (s_terms s) t with Some _ => the_term s t
     | None => match nth_error ts (t - List.length (s_terms s)) with Some o => term_in s o | None => None end end.
Proof.
  intros Ed Et. unfold the_term, term_in, the_damping. rewrite Ed, Et.
  destruct (nth_error (s_terms s) t) eqn:E.
  - now rewrite (nth_app_old _ _ _ _ E).
  - rewrite nth_error_app2; [reflexivity|]. now apply nth_error_None.
Qed.
Lemma all_nth {A} (l : list (option A)) r i : all l = Some r ->
  nth_error r i = match nth_error l i with Some x => x | None => None end.
Proof.
  revert r i. induction l as [|x l IH]; intros r i E.
  - injection E as <-. now destruct i.
  - apply all_cons in E as (a & r' & -> & E & ->). destruct i; [reflexivity|]. cbn [nth_error]. now apply IH.
Qed.
Lemma nth_app_case {A} (l l' : list A) i : nth_error (l ++ l') i =
  match nth_error l i with Some x => Some x | None => nth_error l' (i - List.length l) end.
Proof.
  destruct (nth_error l i) eqn:E; [now apply nth_app_old|]. apply nth_error_app2. now apply nth_error_None.
Qed.

Lemma tclass_eqb_eq a b : tclass_eqb a b = true <-> a = b.
Proof. destruct a, b; cbn; split; congruence. Qed.
Lemma sort_eqb_eq a b : sort_eqb a b = true <-> a = b.
Proof.
  destruct a as [[a a'] a''], b as [[b b'] b'']. unfold sort_eqb. cbn [fst snd]. split.
  - intros H. apply andb_true_iff in H as (H & H3). apply andb_true_iff in H as (H1 & H2).
    apply tclass_eqb_eq in H1. apply String.eqb_eq in H2. apply eqb_prop in H3. congruence.
  - intros E. injection E as -> -> ->. rewrite String.eqb_refl, eqb_reflx. destruct b; reflexivity.
Qed.
Lemma sort_eqb_sym a b : sort_eqb a b = sort_eqb b a.
Proof.
  destruct (sort_eqb a b) eqn:E; symmetry.
  - apply sort_eqb_eq in E. subst. now apply sort_eqb_eq.
  - destruct (sort_eqb b a) eqn:E'; auto. apply sort_eqb_eq in E'. subst. rewrite (proj2 (sort_eqb_eq a a)) in E; congruence.
Qed.
Lemma term_eqb_sort (v v' : DispTerm N) : term_eqb v v' = sort_eqb (sort_of v) (sort_of v').
Proof. reflexivity. Qed.

Lemma number_cons k v ts : number k (v :: ts) = bump S (sort_of v) (fun k => number k ts) k.
Proof. unfold number, bump. cbn [filter]. rewrite sort_eqb_sym. destruct (sort_eqb (sort_of v) k); reflexivity. Qed.
Lemma number_app k a b : number k (a ++ b)%list = (number k a + number k b)%nat.
Proof. unfold number. rewrite filter_app. apply app_length. Qed.
Lemma number_fold k ts : fold_right (bump S) (fun _ => 0%nat) (map sort_of ts) k = number k ts.
Proof.
  revert k. induction ts as [|t ts IH]; intros k; [reflexivity|]. rewrite number_cons. cbn [map fold_right]. unfold bump at 1 3.
  now rewrite IH.
Qed.
Lemma list_remove_number ts v : match list_remove ts v with
  | Ok ts' => (0 < number (sort_of v) ts)%nat /\ forall k, number k ts' = bump pred (sort_of v) (fun k => number k ts) k
  | Raise e => e = ValueError /\ number (sort_of v) ts = 0%nat end.
Proof.
  induction ts as [|t ts IH]; cbn [list_remove]; [split; reflexivity|].
  rewrite term_eqb_sort. destruct (sort_eqb (sort_of t) (sort_of v)) eqn:E.
  - apply sort_eqb_eq in E. split.
    + rewrite number_cons. unfold bump. rewrite E, (proj2 (sort_eqb_eq _ _) eq_refl). lia.
    + intros k. unfold bump at 1. rewrite number_cons. unfold bump. rewrite E. destruct (sort_eqb (sort_of v) k); reflexivity.
  - destruct (list_remove ts v) as [r|x]; cbn [bind].
    + destruct IH as (H1 & H2). split.
      * rewrite number_cons. unfold bump. rewrite E. exact H1.
      * intros k. rewrite number_cons. unfold bump at 2. rewrite number_cons. unfold bump. rewrite H2. unfold bump.
        destruct (sort_eqb (sort_of t) k) eqn:E1, (sort_eqb (sort_of v) k) eqn:E2; auto.
        apply sort_eqb_eq in E1, E2. subst k. rewrite E2 in E. now rewrite (proj2 (sort_eqb_eq _ _) eq_refl) in E.
    + destruct IH as (-> & H). split; [reflexivity|]. rewrite number_cons. unfold bump. now rewrite E.
Qed.

Lemma update_nth {A} (l : list A) i (f : A -> A) j : nth_error (update l i f) j =
  if Nat.eqb j i then option_map f (nth_error l j) else nth_error l j.
Proof.
  unfold update. destruct (nth_error l i) eqn:E.
  - rewrite set_nth_nth by (apply nth_error_Some; congruence). destruct (Nat.eqb_spec j i) as [->|]; [|reflexivity]. now rewrite E.
  - destruct (Nat.eqb_spec j i) as [->|]; [|reflexivity]. now rewrite E.
Qed.
Lemma update_length {A} (l : list A) i (f : A -> A) : List.length (update l i f) = List.length l.
Proof. unfold update. destruct (nth_error l i) eqn:E; [|reflexivity]. apply set_nth_length. apply nth_error_Some. congruence. Qed.
Lemma the_disp_len (s : store) i p : the_disp s i = Some p -> (i < List.length (s_disps s))%nat.
Proof. intros E. apply nth_error_Some. unfold the_disp in E. destruct (nth_error (s_disps s) i); congruence. Qed.
Lemma the_term_len (s : store) i p : the_term s i = Some p -> (i < List.length (s_terms s))%nat.
Proof. intros E. apply nth_error_Some. unfold the_term in E. destruct (nth_error (s_terms s) i); congruence. Qed.
Lemma sim_counts (s s' : store) c : sim s s' -> counts s c -> counts s' c.
Proof.
  intros S [A B C D]. constructor.
  - rewrite A. destruct S as (S & _). rewrite <- !(map_map o_class (@d_class K)). now rewrite S.
  - intros t. rewrite <- (sim_term s s' t S). apply B.
  - rewrite C. destruct S as (_ & _ & ->). reflexivity.
  - intros i p. rewrite <- (sim_disp s s' i S). apply D.
Qed.
Lemma the_term_same (s s' : store) t : s_damp s' = s_damp s -> s_terms s' = s_terms s -> the_term s' t = the_term s t.
Proof. intros A B. unfold the_term, the_damping. now rewrite A, B. Qed.

Lemma step_counts (s : store) c e : wf s -> counts s c -> counts (step X W s e) (count W c e).
Proof.
  intros Hw HC. pose proof HC as [A B C D]. pose proof (counts_terms_len s _ Hw B) as LT. unfold step.
  destruct (is_call e) eqn:Hc.
  { replace (count W c e) with c by (destruct e; try discriminate; reflexivity).
    destruct (possible s e) eqn:Hp; [|exact HC].
    destruct (call_step X W s e Hw Hc Hp) as (s1 & -> & S). now apply sim_counts with s. }
  destruct e; try discriminate; cbn [possible count].
  - (* NewDamping *) cbn. constructor; cbn [c_damp c_terms c_disps s_damp s_terms s_disps].
    + rewrite A, map_app. reflexivity.
    + intros t. rewrite B. destruct (the_term s t) as [v|] eqn:Ev.
      * erewrite the_term_grow with (s := s); [reflexivity|reflexivity|symmetry; apply app_nil_r|exact Ev].
      * unfold the_term in *. cbn [s_terms]. destruct (nth_error (s_terms s) t) as [o|] eqn:Eo; [|reflexivity].
        exfalso. destruct (wf_damping s (o_damping o)) as (x & Ex); [now apply (proj1 Hw) with t|]. rewrite Ex in Ev. discriminate.
    + exact C.
    + intros i p Hp. apply D. destruct (wf_disp s i Hw) as (p' & Ep).
      { apply the_disp_len in Hp. exact Hp. }
      rewrite Ep. rewrite <- Hp. symmetry. eapply the_disp_grow with (tl := []) (ql := []); [reflexivity| | |exact Ep]; symmetry; apply app_nil_r.
  - (* NewTerm *) rewrite (sort_in_term s c t A). destruct (exists_damp s (o_damping t)) eqn:Hp.
    + apply Nat.ltb_lt in Hp. destruct (wf_damping s _ Hp) as (x & Ex). unfold term_in. rewrite Ex. cbn. constructor; cbn [c_damp c_terms c_disps s_damp s_terms s_disps].
      * exact A.
      * intros t0. erewrite the_term_app with (s := s); [|reflexivity|reflexivity]. rewrite nth_app_case, B, LT.
        destruct (nth_error (s_terms s) t0) as [o|] eqn:Eo.
        -- destruct (wf_term s t0 Hw) as (v & Ev); [apply nth_error_Some; congruence|]. now rewrite Ev.
        -- replace (the_term s t0) with (@None (DispTerm N)) by (unfold the_term; now rewrite Eo). cbn [option_map].
           destruct (t0 - List.length (s_terms s))%nat as [|m]; cbn [nth_error]; [|now destruct m].
           unfold term_in. now rewrite Ex.
      * exact C.
      * intros i p Hq. apply D. destruct (wf_disp s i Hw) as (p' & Ep).
        { apply the_disp_len in Hq. exact Hq. }
        rewrite Ep. rewrite <- Hq. symmetry. eapply the_disp_grow with (dl := []) (ql := []); [ |reflexivity| |exact Ep]; symmetry; apply app_nil_r.
    + unfold term_in. unfold the_damping. unfold exists_damp in Hp. apply Nat.ltb_ge in Hp. apply nth_error_None in Hp. rewrite Hp. exact HC.
  - (* NewDisp *)
    rewrite (all_option_map (term_in s) (sort_in c) sort_of) by (intros; now apply sort_in_term).
    destruct (forallb (fun t => exists_damp s (o_damping t)) TERMS) eqn:Hp.
    + destruct (possible_terms s TERMS Hp) as (vs & Ev). rewrite Ev. cbn [option_map]. unfold can_make.
      pose proof (new_disp_step X W s TERMS model kw cn_fn cn_kw vs Ev) as H.
      destruct (new_disp W [] model kw cn_fn cn_kw) as [conf|x].
      * destruct H as (s' & -> & Ed & Et & (o & Eo) & Ep). cbn [fst]. constructor; cbn [c_damp c_terms c_disps].
        -- now rewrite Ed.
        -- intros t0. rewrite (the_term_app s s' TERMS t0 Ed Et). rewrite nth_app_case, B, LT.
           destruct (nth_error (s_terms s) t0) as [o'|] eqn:Eo'.
           ++ destruct (wf_term s t0 Hw) as (v & Ev'); [apply nth_error_Some; congruence|]. now rewrite Ev'.
           ++ replace (the_term s t0) with (@None (DispTerm N)) by (unfold the_term; now rewrite Eo'). cbn [option_map].
              rewrite nth_error_map. rewrite (all_nth _ _ _ Ev), nth_error_map. destruct (nth_error TERMS _); reflexivity.
        -- rewrite Eo, !app_length, C. reflexivity.
        -- intros i p Hq. rewrite nth_app_case. destruct (Nat.lt_ge_cases i (List.length (s_disps s))) as [L|L].
           ++ destruct (wf_disp s i Hw L) as (p' & Ep'). 
              assert (Q : the_disp s' i = Some p') by (eapply the_disp_grow with (dl := []) (s := s); [rewrite Ed; symmetry; apply app_nil_r|exact Et|exact Eo|exact Ep']).
              rewrite Q in Hq. injection Hq as <-. destruct (D i p' Ep') as (f & Ef & Hf). rewrite Ef. eauto.
           ++ assert (i = List.length (s_disps s)) as ->.
              { apply the_disp_len in Hq. rewrite Eo, app_length in Hq. cbn in Hq. lia. }
              rewrite Ep in Hq. injection Hq as <-. replace (nth_error (c_disps c) (List.length (s_disps s))) with (@None (sort -> nat)).
              ** rewrite C, Nat.sub_diag. eexists. split; [reflexivity|]. intros k. cbn [with_terms p_terms]. apply number_fold.
              ** symmetry. apply nth_error_None. lia.
      * rewrite H. cbn [fst]. rewrite !app_nil_r. now destruct c.
    + replace (all (map (term_in s) TERMS)) with (@None (list (DispTerm N))); [exact HC|].
      symmetry. clear -Hp. induction TERMS as [|t ts IH]; [discriminate|]. cbn [forallb map all] in *.
      unfold term_in at 1. unfold the_damping. unfold exists_damp in Hp at 1.
      destruct (o_damping t <? List.length (s_damp s))%nat eqn:Hq; cbn [andb] in Hp.
      * rewrite (IH Hp). destruct (option_map _ _); reflexivity.
      * apply Nat.ltb_ge in Hq. apply nth_error_None in Hq. rewrite Hq. reflexivity.
  - (* Register *)
    rewrite B. destruct ((i <? List.length (s_disps s))%nat && (t <? List.length (s_terms s))%nat)%bool eqn:Hp.
    + apply andb_true_iff in Hp as (H1 & H2). apply Nat.ltb_lt in H1, H2.
      destruct (wf_disp s i Hw H1) as (p & Ep). destruct (wf_term s t Hw H2) as (v & Ev). rewrite Ev. cbn [option_map].
      destruct (register_step X W s i t p v Ep Ev) as (s' & -> & E1 & E2 & E3 & E4). cbn [fst].
      constructor; cbn [c_damp c_terms c_disps].
      * now rewrite E1.
      * intros t0. rewrite (the_term_same s s' t0 E1 E2). apply B.
      * rewrite update_length, C. now symmetry.
      * intros j pj Hj. rewrite E4 in Hj. rewrite update_nth. destruct (Nat.eqb_spec j i) as [->|Ne].
        -- injection Hj as <-. destruct (D i p Ep) as (f & Ef & Hf). rewrite Ef. eexists. split; [reflexivity|].
           intros k. unfold register. cbn [p_terms]. rewrite number_app. unfold bump. rewrite Hf. replace (number k [v]) with (if sort_eqb k (sort_of v) then 1%nat else 0%nat) by (unfold number; cbn [filter]; destruct (sort_eqb k (sort_of v)); reflexivity).
           rewrite (sort_eqb_sym k). destruct (sort_eqb (sort_of v) k); cbn [List.length]; lia.
        -- now apply D.
    + apply andb_false_iff in Hp. destruct (the_term s t) as [v|] eqn:Ev; [|exact HC]. cbn [option_map].
      destruct Hp as [Hp|Hp].
      * apply Nat.ltb_ge in Hp. unfold update. replace (nth_error (c_disps c) i) with (@None (sort -> nat)); [now destruct c|].
        symmetry. apply nth_error_None. lia.
      * apply the_term_len in Ev. apply Nat.ltb_ge in Hp. lia.
  - (* Deregister *)
    rewrite B. destruct ((i <? List.length (s_disps s))%nat && (t <? List.length (s_terms s))%nat)%bool eqn:Hp.
    + apply andb_true_iff in Hp as (H1 & H2). apply Nat.ltb_lt in H1, H2.
      destruct (wf_disp s i Hw H1) as (p & Ep). destruct (wf_term s t Hw H2) as (v & Ev). rewrite Ev. cbn [option_map].
      pose proof (deregister_step X W s i t p v Ep Ev) as H. pose proof (list_remove_number (p_terms p) v) as L.
      unfold deregister in H. destruct (list_remove (p_terms p) v) as [ts|x]; cbn [bind] in H.
      * destruct H as (s' & -> & E1 & E2 & E3 & E4). cbn [fst]. destruct L as (L0 & L).
        constructor; cbn [c_damp c_terms c_disps].
        -- now rewrite E1.
        -- intros t0. rewrite (the_term_same s s' t0 E1 E2). apply B.
        -- rewrite update_length, C. now symmetry.
        -- intros j pj Hj. rewrite E4 in Hj. rewrite update_nth. destruct (Nat.eqb_spec j i) as [->|Ne].
           ++ injection Hj as <-. destruct (D i p Ep) as (f & Ef & Hf). rewrite Ef. eexists. split; [reflexivity|].
              intros k. cbn [p_terms]. rewrite L. unfold bump. now rewrite Hf.
           ++ now apply D.
      * destruct H as (_ & ->). cbn [fst]. destruct L as (_ & L). constructor; cbn [c_damp c_terms c_disps]; auto.
        -- now rewrite update_length.
        -- intros j pj Hj. rewrite update_nth. destruct (D j pj Hj) as (f & Ef & Hf). destruct (Nat.eqb_spec j i) as [->|Ne]; [|eauto].
           rewrite Hj in Ep. injection Ep as ->. rewrite Ef. eexists. split; [reflexivity|]. intros k. unfold bump.
           destruct (sort_eqb (sort_of v) k) eqn:Ek; [|apply Hf]. apply sort_eqb_eq in Ek. subst k. rewrite Hf, L. reflexivity.
    + apply andb_false_iff in Hp. destruct (the_term s t) as [v|] eqn:Ev; [|exact HC]. cbn [option_map].
      destruct Hp as [Hp|Hp].
      * apply Nat.ltb_ge in Hp. unfold update. replace (nth_error (c_disps c) i) with (@None (sort -> nat)); [now destruct c|].
        symmetry. apply nth_error_None. lia.
      * apply the_term_len in Ev. apply Nat.ltb_ge in Hp. lia.
Qed.

Lemma after_counts h : counts (after X W h) (counted X W h).
Proof.
  unfold after, counted.
  assert (W0 : wf (import X)) by (split; intros i o E; destruct i; discriminate).
  assert (C0 : counts (import X) (mkC (map (fun o => d_class (o_class o)) (s_damp (import X))) [] [])).
  { constructor; [reflexivity| | |]; try reflexivity.
    - intros t. now destruct t.
    - intros i p E. destruct i; discriminate. }
  revert W0 C0. generalize (mkC (map (fun o => d_class (o_class o)) (s_damp (import X))) [] []) as c.
  generalize (import X) as s. induction h as [|e h IH]; intros s c H HC; cbn [fold_left]; [exact HC|].
  apply IH; [now apply step_wf|now apply step_counts].
Qed.

(** *** the damping classes of the package *)
Lemma after_package h : package_only X h -> forall l d, the_damping (after X W h) l = Some d -> package_damping X d.
Proof.
  assert (G : forall h (s : store), wf s -> (forall d, In (NewDamping d) h -> package_damping X d) ->
     Forall (package_damping X) (map o_class (s_damp s)) ->
     Forall (package_damping X) (map o_class (s_damp (fold_left (step X W) h s)))).
  { clear h. induction h as [|e h IH]; intros s Hw H HF; cbn [fold_left]; [exact HF|].
    apply IH; [now apply step_wf|intros d Hd; apply H; now right|].
    unfold step. destruct (possible s e) eqn:Hp; [|exact HF]. destruct (is_call e) eqn:Hc.
    { destruct (call_step X W s e Hw Hc Hp) as (s1 & -> & (S & _)). cbn [fst]. now rewrite <- S. }
    destruct e; try discriminate; cbn [possible] in Hp.
    - cbn. rewrite map_app. apply Forall_app. split; [exact HF|]. constructor; [|constructor]. apply H. now left.
    - exact HF.
    - destruct (possible_terms s TERMS Hp) as (vs & Ev). pose proof (new_disp_step X W s TERMS model kw cn_fn cn_kw vs Ev) as Q.
      destruct (new_disp W [] model kw cn_fn cn_kw); [|now rewrite Q]. destruct Q as (s' & -> & Ed & _). cbn [fst]. now rewrite Ed.
    - apply andb_true_iff in Hp as (H1 & H2). apply Nat.ltb_lt in H1, H2.
      destruct (wf_disp s i Hw H1) as (p & Ep). destruct (wf_term s t Hw H2) as (v & Ev).
      destruct (register_step X W s i t p v Ep Ev) as (s' & -> & E1 & _). cbn [fst]. now rewrite E1.
    - apply andb_true_iff in Hp as (H1 & H2). apply Nat.ltb_lt in H1, H2.
      destruct (wf_disp s i Hw H1) as (p & Ep). destruct (wf_term s t Hw H2) as (v & Ev).
      pose proof (deregister_step X W s i t p v Ep Ev) as Q. destruct (deregister p v).
      + destruct Q as (s' & -> & E1 & _). cbn [fst]. now rewrite E1.
      + destruct Q as (_ & ->). exact HF. }
  intros H l d E. assert (W0 : wf (import X)) by (split; intros i o Q; destruct i; discriminate).
  assert (F0 : Forall (package_damping X) (map o_class (s_damp (import X)))).
  { unfold import. cbn [s_damp]. rewrite map_map. cbn [o_class map]. repeat (apply Forall_cons; [unfold package_damping; cbn [In]; auto|]). apply Forall_nil. }
  specialize (G h (import X) W0 H F0). rewrite Forall_forall in G. apply G.
  unfold the_damping in E. destruct (nth_error _ l) as [o|] eqn:Eo; [|discriminate]. injection E as <-.
  apply in_map. apply nth_error_In with l. exact Eo.
Qed.
End P.
