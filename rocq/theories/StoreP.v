(** * Proofs about the object store *)
From Coq Require Import List Arith ZArith QArith Bool String Lia.
From Verif Require Import Py Tensor Scalar ModelExt ModelUtils ModelDamping ModelModels
  ModelTerms ModelDisp ModelStore SpecCall SpecStore.
Import ListNotations.

Section P.
Context {N : Num} (X : Ext (sc N)) (W : World N).
Notation K := (sc N).
Notation store := (store N).

(** equal up to the attribute [doi] of the damping objects *)
Definition sim (s s' : store) : Prop :=
  map o_class (s_damp s) = map o_class (s_damp s') /\ s_terms s = s_terms s' /\ s_disps s = s_disps s'.
Lemma sim_refl s : sim s s. Proof. now repeat split. Qed.
Lemma sim_sym s s' : sim s s' -> sim s' s. Proof. intros (?&?&?); now repeat split. Qed.
Lemma sim_trans a b c : sim a b -> sim b c -> sim a c.
Proof. intros (?&?&?) (?&?&?); repeat split; congruence. Qed.
Lemma sim_len s s' : sim s s' -> List.length (s_damp s) = List.length (s_damp s').
Proof. intros (H&_). apply (f_equal (@List.length _)) in H. now rewrite !map_length in H. Qed.
Lemma sim_damping s s' l : sim s s' -> the_damping s l = the_damping s' l.
Proof. intros (H&_). unfold the_damping. rewrite <- !nth_error_map. now rewrite H. Qed.
Lemma sim_term s s' t : sim s s' -> the_term s t = the_term s' t.
Proof.
  intros H. unfold the_term. pose proof H as (_ & E & _). rewrite E. destruct (nth_error _ _); auto.
  now rewrite (sim_damping s s').
Qed.
Lemma sim_disp s s' i : sim s s' -> the_disp s i = the_disp s' i.
Proof.
  intros H. unfold the_disp. pose proof H as (_ & _ & E). rewrite E. destruct (nth_error _ _); auto.
  f_equal. f_equal. apply map_ext. intros. now apply sim_term.
Qed.

(** [m] computes [r] from every store like [s0], and changes at most [doi] attributes *)
Definition comp {A} (s0 : store) (m : M N A) (r : res A) : Prop :=
  forall s, sim s0 s -> exists s', m s = (s', r) /\ sim s0 s'.

Lemma comp_ret {A} s0 (r : res A) : comp s0 (ret r) r.
Proof. intros s H. exists s. now split. Qed.
Lemma comp_bind {A B} s0 (m : M N A) (r : res A) (k : A -> M N B) (r' : A -> res B) :
  comp s0 m r -> (forall a, r = Ok a -> comp s0 (k a) (r' a)) -> comp s0 (bindM m k) (bind r r').
Proof.
  intros Hm Hk s H. destruct (Hm s H) as (s1 & E & H1). unfold bindM. rewrite E.
  destruct r as [a|e]; [apply Hk; auto|]. exists s1. now split.
Qed.
Lemma comp_bind_ret {A B} s0 (r : res A) (k : A -> M N B) (r' : A -> res B) :
  (forall a, r = Ok a -> comp s0 (k a) (r' a)) -> comp s0 (bindM (ret r) k) (bind r r').
Proof. intros H. apply comp_bind; [apply comp_ret|exact H]. Qed.
Lemma comp_eq {A} s0 (m : M N A) r r' : comp s0 m r -> r = r' -> comp s0 m r'.
Proof. now intros H <-. Qed.

Lemma comp_bind_ok {A B} s0 (m : M N A) a (k : A -> M N B) r :
  comp s0 m (Ok a) -> comp s0 (k a) r -> comp s0 (bindM m k) r.
Proof. intros Hm Hk. apply (comp_bind s0 m (Ok a) k (fun _ => r) Hm). intros a' E. now injection E as <-. Qed.

Lemma deref_terms s0 t o : nth_error (s_terms s0) t = Some o -> comp s0 (deref s_terms t) (Ok o).
Proof. intros E s H. exists s. split; [|exact H]. unfold deref. destruct H as (_ & <- & _). now rewrite E. Qed.
Lemma deref_disps s0 t o : nth_error (s_disps s0) t = Some o -> comp s0 (deref s_disps t) (Ok o).
Proof. intros E s H. exists s. split; [|exact H]. unfold deref. destruct H as (_ & _ & <-). now rewrite E. Qed.
(** the class of a damping object is all that can be known *)
Lemma comp_deref_damp {B} s0 l d (k : damp_obj N -> M N B) r :
  the_damping s0 l = Some d -> (forall o, o_class o = d -> comp s0 (k o) r) ->
  comp s0 (bindM (deref s_damp l) k) r.
Proof.
  intros E H s Hs. unfold bindM, deref. rewrite (sim_damping _ _ l Hs) in E. unfold the_damping in E.
  destruct (nth_error (s_damp s) l) as [o|]; [|discriminate]. injection E as E. now apply H.
Qed.

Lemma set_nth_map {A B} (f : A -> B) l i x : map f (ModelStore.set_nth l i x) = ModelStore.set_nth (map f l) i (f x).
Proof. unfold ModelStore.set_nth. now rewrite map_app, firstn_map, map_cons, skipn_map. Qed.
Lemma set_nth_same {A} (l : list A) i x : nth_error l i = Some x -> ModelStore.set_nth l i x = l.
Proof.
  unfold ModelStore.set_nth. revert i. induction l as [|y l IH]; intros [|i] E; try discriminate; cbn in *.
  - now injection E as ->.
  - now rewrite IH.
Qed.

Lemma damping_call_comp s0 l d dist radii order only param : the_damping s0 l = Some d ->
  comp s0 (damping_call_obj l dist radii order only param) (damping_call d dist radii order only param).
Proof.
  intros E. unfold damping_call_obj. apply comp_deref_damp with d; [exact E|]. intros o <-.
  unfold damping_call. apply comp_bind_ret. intros a _. intros s Hs.
  eexists. split; [reflexivity|].
  apply sim_trans with s; auto. split; [|split; reflexivity]. cbn [s_damp].
  rewrite set_nth_map. cbn [o_class]. symmetry. apply set_nth_same.
  rewrite nth_error_map. rewrite (sim_damping _ _ l Hs) in E. exact E.
Qed.

Lemma where_comp s0 (mask : res (tensor bool)) m r z : comp s0 m r ->
  comp s0 (where_obj mask m z) (twhere mask r (scal z)).
Proof.
  intros H. unfold where_obj. eapply comp_eq.
  - apply comp_bind_ret. intros mk _. apply comp_bind; [exact H|]. intros v _. apply comp_ret.
  - unfold twhere, lift2. destruct mask; [|reflexivity]. cbn [bind]. destruct r; reflexivity.
Qed.

Lemma dispersion2_comp s0 l d numbers positions param c6 r4r2 rvdw cutoff as_matrix : the_damping s0 l = Some d ->
  comp s0 (dispersion2_obj X numbers positions param c6 r4r2 rvdw l cutoff as_matrix)
          (dispersion2 X numbers positions param c6 r4r2 rvdw d cutoff as_matrix).
Proof.
  intros E. unfold dispersion2_obj, dispersion2.
  do 4 (apply comp_bind_ret; intros ? _). apply comp_deref_damp with d; [exact E|]. intros o ->.
  apply comp_bind_ret; intros radii _.
  apply comp_bind; [apply where_comp, damping_call_comp, E|intros t6 _].
  apply comp_bind; [apply where_comp, damping_call_comp, E|intros t8 _].
  do 3 (apply comp_bind_ret; intros ? _).
  apply comp_bind; [|intros ? _; apply comp_ret].
  destruct (dget param "s10"); [|apply comp_ret].
  apply comp_bind_ret; intros ? _.
  apply comp_bind; [apply where_comp, damping_call_comp, E|intros ? _].
  apply comp_bind_ret; intros ? _. apply comp_ret.
Qed.

Lemma atm_comp s0 l d numbers positions c9 radii cutoff s9 alp : the_damping s0 l = Some d ->
  comp s0 (get_atm_dispersion_obj X numbers positions c9 radii cutoff l s9 alp)
          (get_atm_dispersion X numbers positions c9 radii cutoff d s9 alp).
Proof.
  intros E. unfold get_atm_dispersion_obj, get_atm_dispersion.
  do 19 (apply comp_bind_ret; intros ? _).
  apply comp_bind; [apply (where_comp s0 (Ok _)), damping_call_comp, E|intros ? _].
  do 3 (apply comp_bind_ret; intros ? _). apply comp_ret.
Qed.

Lemma term_comp s0 t v numbers positions param cn model q r4r2 rvdw cutoff : the_term s0 t = Some v ->
  comp s0 (term_calculate_obj X t numbers positions param cn model q r4r2 rvdw cutoff)
          (term_calculate X v numbers positions param cn model q r4r2 rvdw cutoff).
Proof.
  intros E. unfold the_term in E. destruct (nth_error (s_terms s0) t) as [o|] eqn:Et; [|discriminate].
  destruct (the_damping s0 (o_damping o)) as [d|] eqn:Ed; [|discriminate]. injection E as <-.
  unfold term_calculate_obj.
  apply comp_bind_ok with o; [now apply deref_terms|].
  unfold term_calculate. cbn [t_class t_damping t_cdep]. destruct (o_tclass o).
  - do 2 (apply comp_bind_ret; intros ? _). now apply dispersion2_comp.
  - do 4 (apply comp_bind_ret; intros ? _). now apply atm_comp.
  - do 4 (apply comp_bind_ret; intros ? _). now apply atm_comp.
  - do 4 (apply comp_bind_ret; intros ? _). now apply atm_comp.
Qed.

Lemma all_cons {A} (x : option A) l r : all (x :: l) = Some r -> exists a r', x = Some a /\ all l = Some r' /\ r = a :: r'.
Proof. cbn [all]. destruct x; [|discriminate]. destruct (all l); [|discriminate]. intros E. injection E as <-. eauto. Qed.

Lemma sum_comp s0 ts vs e (calc : nat -> M N (tensor K)) calc' :
  all (map (the_term s0) ts) = Some vs ->
  (forall t v, the_term s0 t = Some v -> comp s0 (calc t) (calc' v)) ->
  comp s0 (sum_terms_obj e ts calc) (sum_terms e vs calc').
Proof.
  intros E H. revert vs e E. induction ts as [|t ts IH]; intros vs e E.
  - injection E as <-. apply comp_ret.
  - cbn [map] in E. apply all_cons in E as (v & vs' & Ev & E & ->). cbn [sum_terms_obj sum_terms].
    eapply comp_eq.
    + apply comp_bind; [exact (H t v Ev)|]. intros y _. apply comp_bind_ret. intros e' _. apply (IH vs' e' E).
    + unfold tadd, lift2. cbn [t2r bind]. destruct (calc' v); reflexivity.
Qed.

Lemma any_comp s0 ts vs : all (map (the_term s0) ts) = Some vs ->
  comp s0 (any_cdep ts) (Ok (existsb (@t_cdep N) vs)).
Proof.
  revert vs. induction ts as [|t ts IH]; intros vs E.
  - injection E as <-. apply comp_ret.
  - cbn [map] in E. apply all_cons in E as (v & vs' & Ev & E & ->). cbn [any_cdep existsb].
    unfold the_term in Ev. destruct (nth_error (s_terms s0) t) as [o|] eqn:Et; [|discriminate].
    destruct (the_damping s0 (o_damping o)); [|discriminate]. injection Ev as <-. cbn [t_cdep].
    apply comp_bind_ok with o; [now apply deref_terms|].
    destruct (o_cdep o); [apply comp_ret|now apply IH].
Qed.

Lemma calculate_comp s0 i p numbers positions charge param cutoff q rcov r4r2 rvdw : the_disp s0 i = Some p ->
  comp s0 (calculate_obj X W i numbers positions charge param cutoff q rcov r4r2 rvdw)
          (calculate X W p numbers positions charge param cutoff q rcov r4r2 rvdw).
Proof.
  intros E. unfold the_disp in E. destruct (nth_error (s_disps s0) i) as [o|] eqn:Ei; [|discriminate].
  destruct (all (map (the_term s0) (o_terms o))) as [ts|] eqn:Et; [|discriminate]. injection E as <-.
  unfold calculate_obj.
  apply comp_bind_ok with o; [now apply deref_disps|].
  unfold calculate. do 8 (apply comp_bind_ret; intros ? _).
  eapply comp_bind_ok; [apply any_comp, Et|].
  apply comp_bind_ret; intros ? _.
  eapply comp_eq.
  - apply comp_bind_ret; intros q' _. apply comp_bind_ret; intros ? _. apply sum_comp with (vs := ts); [exact Et|].
    intros t v Ev. refine (term_comp s0 t v _ _ _ _ _ _ _ _ _ Ev).
  - cbn [p_terms with_terms]. destruct q; [reflexivity|]. destruct (existsb _ ts); [|reflexivity].
    destruct (w_eeq _ _ _ _ _); reflexivity.
Qed.

(** ** No dangling references *)
Definition wf (s : store) : Prop :=
  (forall t o, nth_error (s_terms s) t = Some o -> (o_damping o < List.length (s_damp s))%nat) /\
  (forall i o, nth_error (s_disps s) i = Some o -> Forall (fun t => (t < List.length (s_terms s))%nat) (o_terms o)).

Lemma wf_damping (s : store) l : (l < List.length (s_damp s))%nat -> exists d, the_damping s l = Some d.
Proof.
  intros H. unfold the_damping. destruct (nth_error (s_damp s) l) eqn:E; [now eexists|].
  apply nth_error_None in E. lia.
Qed.
Lemma wf_term s t : wf s -> (t < List.length (s_terms s))%nat -> exists v, the_term s t = Some v.
Proof.
  intros (H & _) L. unfold the_term. destruct (nth_error (s_terms s) t) as [o|] eqn:E.
  - destruct (wf_damping s (o_damping o) (H t o E)) as (d & ->). now eexists.
  - apply nth_error_None in E. lia.
Qed.
Lemma all_map_some {A B} (f : A -> option B) l : (forall x, In x l -> exists y, f x = Some y) -> exists r, all (map f l) = Some r.
Proof.
  induction l as [|x l IH]; intros H; [now exists []|]. cbn [map all].
  destruct (H x (or_introl eq_refl)) as (y & ->). destruct (IH (fun z Hz => H z (or_intror Hz))) as (r & ->). now exists (y :: r).
Qed.
Lemma wf_disp s i : wf s -> (i < List.length (s_disps s))%nat -> exists p, the_disp s i = Some p.
Proof.
  intros H L. unfold the_disp. destruct (nth_error (s_disps s) i) as [o|] eqn:E.
  - pose proof (proj2 H i o E) as F. rewrite Forall_forall in F.
    destruct (all_map_some (the_term s) (o_terms o)) as (ts & ->); [|now eexists].
    intros t Ht. apply wf_term; auto.
  - apply nth_error_None in E. lia.
Qed.
Lemma sim_wf s s' : sim s s' -> wf s -> wf s'.
Proof. intros H (A & B). pose proof (sim_len _ _ H) as L. destruct H as (_ & Et & Ed). split; rewrite <- ?Et, <- ?Ed, <- ?L; auto. Qed.

(** ** What the events do *)
Lemma set_nth_last {A} (l : list A) x y : ModelStore.set_nth (l ++ [x])%list (List.length l) y = (l ++ [y])%list.
Proof.
  unfold ModelStore.set_nth. rewrite firstn_app, firstn_all, Nat.sub_diag. cbn [firstn]. rewrite app_nil_r.
  rewrite skipn_all2; [reflexivity|]. rewrite app_length. cbn. lia.
Qed.
Lemma nth_last {A} (l : list A) x : nth_error (l ++ [x])%list (List.length l) = Some x.
Proof. rewrite nth_error_app2, Nat.sub_diag by auto. reflexivity. Qed.
Lemma firstn_len_app {A} (l l' : list A) : firstn (List.length l) (l ++ l')%list = l.
Proof. rewrite firstn_app, firstn_all, Nat.sub_diag. cbn [firstn]. apply app_nil_r. Qed.
Lemma nth_app_old {A} (l l' : list A) i x : nth_error l i = Some x -> nth_error (l ++ l')%list i = Some x.
Proof. intros H. rewrite nth_error_app1; auto. apply nth_error_Some. congruence. Qed.

Lemma dftd4_result s l d a model cn cf : the_damping s l = Some d ->
  exists s', dftd4_obj X W (a_numbers a) (a_positions a) (a_charge a) (a_param a) model
               (a_rcov a) (a_r4r2 a) (a_rvdw a) (a_q a) (a_cutoff a) cn cf l s =
    (s', dftd4 X W (a_numbers a) (a_positions a) (a_charge a) (a_param a) model
               (a_rcov a) (a_r4r2 a) (a_rvdw a) (a_q a) (a_cutoff a) cn cf d) /\
    map o_class (firstn (List.length (s_damp s)) (s_damp s')) = map o_class (s_damp s) /\
    firstn (List.length (s_terms s)) (s_terms s') = s_terms s /\
    firstn (List.length (s_disps s)) (s_disps s') = s_disps s.
Proof.
  intros E. unfold dftd4_obj, dftd4, new_disp_obj. unfold bindM at 1 2. unfold ret at 1.
  destruct (new_disp W [] model no_kw (Some cn) (Some cf)) as [conf|e] eqn:Ec.
  2:{ exists s. cbn [bind]. split; [reflexivity|]. now rewrite !firstn_all. }
  assert (Pc : p_terms conf = []).
  { unfold new_disp in Ec. destruct model; cbn in Ec.
    - destruct (raise_if _ _); [|discriminate]. cbn in Ec. now injection Ec as <-.
    - now injection Ec as <-. }
  set (o1 := mkTermObj TwoBodyTerm l true). set (o2 := mkTermObj D4ATMApprox (List.length (s_damp s)) false).
  set (n := List.length (s_terms s)).
  set (s5 := mkStore (s_damp s ++ [mkDampObj (ZeroDamping X) None])%list (s_terms s ++ [o1; o2])%list
               (s_disps s ++ [mkDispObj [n; S n] conf])%list).
  unfold new_terms, ret at 1. unfold bindM at 1. unfold alloc_disp.
  unfold bindM at 1. unfold alloc_term at 1. cbn [s_damp s_terms s_disps].
  unfold bindM at 1. unfold register_obj at 1, bindM at 1, deref at 1. cbn [s_damp s_terms s_disps].
  rewrite nth_last. unfold set_terms at 1. cbn [s_damp s_terms s_disps o_terms o_conf app].
  unfold bindM at 1. unfold alloc_damp. cbn [s_damp s_terms s_disps].
  unfold bindM at 1. unfold alloc_term at 1. cbn [s_damp s_terms s_disps].
  unfold bindM at 1. unfold register_obj at 1, bindM at 1, deref at 1. cbn [s_damp s_terms s_disps].
  rewrite set_nth_last, nth_last. unfold set_terms at 1. cbn [s_damp s_terms s_disps o_terms o_conf app].
  rewrite set_nth_last. rewrite <- app_assoc. cbn [app]. rewrite app_length. cbn [List.length].
  fold o1. fold o2. fold n. replace (n + 1)%nat with (S n) by lia. fold s5.
  assert (D : the_disp s5 (List.length (s_disps s)) = Some (register (register conf (mkTerm TwoBodyTerm d true))
                                       (mkTerm D4ATMApprox (ZeroDamping X) false))).
  { unfold the_disp. cbn [s5 s_disps]. rewrite nth_last. cbn [o_terms o_conf map].
    assert (T1 : the_term s5 n = Some (mkTerm TwoBodyTerm d true)).
    { unfold the_term. cbn [s5 s_terms]. unfold n. rewrite nth_error_app2, Nat.sub_diag by auto. cbn [nth_error o1 o_damping].
      replace (the_damping s5 l) with (Some d); [reflexivity|]. symmetry. unfold the_damping in *. cbn [s5 s_damp].
      destruct (nth_error (s_damp s) l) eqn:El; [|discriminate]. now rewrite (nth_app_old _ _ _ _ El). }
    assert (T2 : the_term s5 (S n) = Some (mkTerm D4ATMApprox (ZeroDamping X) false)).
    { unfold the_term. cbn [s5 s_terms]. unfold n. rewrite nth_error_app2 by lia.
      replace (S (List.length (s_terms s)) - List.length (s_terms s))%nat with 1%nat by lia. cbn [nth_error o2 o_damping].
      unfold the_damping. cbn [s5 s_damp]. now rewrite nth_last. }
    rewrite T1, T2. cbn [all option_map]. unfold register, with_terms. cbn [p_terms p_cn_fn p_cn_kw p_key p_inst p_kw].
    now rewrite Pc. }
  destruct (calculate_comp s5 _ _ (a_numbers a) (a_positions a) (a_charge a) (a_param a) (a_cutoff a) (a_q a) (a_rcov a) (a_r4r2 a) (a_rvdw a) D s5 (sim_refl s5))
    as (s' & E' & S').
  exists s'. split; [exact E'|]. destruct S' as (S1 & S2 & S3). cbn [s5 s_damp s_terms s_disps] in S1, S2, S3.
  split; [|split].
  - rewrite <- firstn_map, <- S1, map_app. rewrite <- (map_length o_class (s_damp s)). apply firstn_len_app.
  - rewrite <- S2. apply firstn_len_app.
  - rewrite <- S3. apply firstn_len_app.
Qed.

(** *** calls *)
Definition pure_result (s : store) (e : event N) : res (option (tensor K)) :=
  match e with
  | Calculate i a => match the_disp s i with Some p => rmap Some (run X W p a) | None => Raise AttributeError end
  | CallDamping l dist radii order only param =>
      match the_damping s l with Some d => rmap Some (damping_call d dist radii order only param) | None => Raise AttributeError end
  | CallDftd4 a model cn cf l =>
      match the_damping s l with
      | Some d => rmap Some (dftd4 X W (a_numbers a) (a_positions a) (a_charge a) (a_param a) model
               (a_rcov a) (a_r4r2 a) (a_rvdw a) (a_q a) (a_cutoff a) cn cf d)
      | None => Raise AttributeError end
  | _ => Ok None
  end.

Lemma call_step s e : wf s -> is_call e = true -> possible s e = true ->
  exists s', do X W e s = (s', pure_result s e) /\ sim s s'.
Proof.
  intros Hw Hc Hp. destruct e; try discriminate; cbn [possible] in Hp; cbn [do pure_result].
  - apply Nat.ltb_lt in Hp. destruct (wf_disp s i Hw Hp) as (p & Ep). rewrite Ep.
    destruct (calculate_comp s i p (a_numbers a) (a_positions a) (a_charge a) (a_param a) (a_cutoff a) (a_q a) (a_rcov a) (a_r4r2 a) (a_rvdw a) Ep s (sim_refl s)) as (s' & E & S).
    exists s'. unfold value. rewrite E. split; [reflexivity|exact S].
  - apply Nat.ltb_lt in Hp. destruct (wf_damping s l Hp) as (d & Ed). rewrite Ed.
    destruct (damping_call_comp s l d dist radii order only param Ed s (sim_refl s)) as (s' & E & S).
    exists s'. unfold value. rewrite E. split; [reflexivity|exact S].
  - apply Nat.ltb_lt in Hp. destruct (wf_damping s l Hp) as (d & Ed). rewrite Ed.
    destruct (dftd4_result s l d a model cn cf Ed) as (s' & E & S1 & S2 & S3).
    eexists. split; [unfold value, collect; rewrite E; reflexivity|].
    split; [|split]; cbn [s_damp s_terms s_disps]; congruence.
Qed.

(** *** register *)
Lemma set_nth_nth {A} (l : list A) i x j : (i < List.length l)%nat ->
  nth_error (ModelStore.set_nth l i x) j = if Nat.eqb j i then Some x else nth_error l j.
Proof.
  intros Hi. unfold ModelStore.set_nth. destruct (Nat.eqb_spec j i) as [->|Ne].
  - rewrite nth_error_app2; rewrite firstn_length_le by lia; auto. now rewrite Nat.sub_diag.
  - destruct (Nat.lt_ge_cases j i) as [L|L].
    + rewrite nth_error_app1 by (rewrite firstn_length_le; lia).
      rewrite <- (firstn_skipn i l) at 2. rewrite nth_error_app1 by (rewrite firstn_length_le; lia). reflexivity.
    + rewrite nth_error_app2 by (rewrite firstn_length_le; lia). rewrite firstn_length_le by lia.
      rewrite <- (firstn_skipn (S i) l) at 2. rewrite nth_error_app2 by (rewrite firstn_length_le; lia).
      rewrite firstn_length_le by lia. destruct (j - i)%nat as [|k] eqn:E; [lia|].
      cbn [nth_error]. f_equal. lia.
Qed.
Lemma set_nth_length {A} (l : list A) i x : (i < List.length l)%nat -> List.length (ModelStore.set_nth l i x) = List.length l.
Proof. intros Hi. unfold ModelStore.set_nth. rewrite app_length. cbn [List.length]. rewrite firstn_length_le, skipn_length by lia. lia. Qed.

Definition with_disp (s : store) i (o : disp_obj N) : store := mkStore (s_damp s) (s_terms s) (ModelStore.set_nth (s_disps s) i o).

Lemma all_app {A} (l l' : list (option A)) r r' : all l = Some r -> all l' = Some r' -> all (l ++ l')%list = Some (r ++ r')%list.
Proof.
  revert r. induction l as [|x l IH]; intros r E E'; cbn [app].
  - now injection E as <-.
  - apply all_cons in E as (a & r0 & -> & E & ->). cbn [all]. now rewrite (IH r0).
Qed.

Lemma with_disp_the_disp s i o p : the_disp s i = Some p -> forall j, the_disp (with_disp s i o) j =
  if Nat.eqb j i then option_map (with_terms (o_conf o)) (all (map (the_term s) (o_terms o))) else the_disp s j.
Proof.
  intros Hp j. unfold the_disp at 1. cbn [with_disp s_disps].
  assert (L : (i < List.length (s_disps s))%nat).
  { apply nth_error_Some. unfold the_disp in Hp. destruct (nth_error _ _); congruence. }
  rewrite set_nth_nth by auto. destruct (Nat.eqb j i); reflexivity.
Qed.

Lemma register_step s i t p v : the_disp s i = Some p -> the_term s t = Some v ->
  exists s', do X W (Register i t) s = (s', Ok None) /\ s_damp s' = s_damp s /\ s_terms s' = s_terms s /\
    List.length (s_disps s') = List.length (s_disps s) /\
    forall j, the_disp s' j = if Nat.eqb j i then Some (register p v) else the_disp s j.
Proof.
  intros Hp Hv. pose proof Hp as Hp'. unfold the_disp in Hp'. destruct (nth_error (s_disps s) i) as [o|] eqn:Ei; [|discriminate].
  destruct (all (map (the_term s) (o_terms o))) as [ts|] eqn:Et; [|discriminate]. injection Hp' as <-.
  exists (with_disp s i (mkDispObj (o_terms o ++ [t]) (o_conf o))). split; [|split; [|split; [|split]]]; try reflexivity.
  - cbn [do]. unfold no_value, register_obj, bindM, deref. rewrite Ei. reflexivity.
  - cbn [with_disp s_disps]. apply set_nth_length. apply nth_error_Some. congruence.
  - intros j. rewrite (with_disp_the_disp _ _ _ _ Hp). destruct (Nat.eqb j i); [|reflexivity]. cbn [o_terms o_conf].
    rewrite map_app. rewrite (all_app _ _ ts [v]); [reflexivity|exact Et|]. cbn [map all]. now rewrite Hv.
Qed.

Lemma eq_comp s t t' v v' : the_term s t = Some v -> the_term s t' = Some v' ->
  comp s (eq_obj t t') (Ok (term_eqb (N:=N) v v')).
Proof.
  intros E E'. unfold the_term in E, E'.
  destruct (nth_error (s_terms s) t) as [o|] eqn:Et; [|discriminate]. destruct (nth_error (s_terms s) t') as [o'|] eqn:Et'; [|discriminate].
  destruct (the_damping s (o_damping o)) as [d|] eqn:Ed; [|discriminate]. destruct (the_damping s (o_damping o')) as [d'|] eqn:Ed'; [|discriminate].
  injection E as <-. injection E' as <-. unfold eq_obj.
  apply comp_bind_ok with o; [now apply deref_terms|]. apply comp_bind_ok with o'; [now apply deref_terms|].
  apply comp_deref_damp with d; [exact Ed|]. intros x <-. apply comp_deref_damp with d'; [exact Ed'|]. intros x' <-. apply comp_ret.
Qed.

Lemma comp_now {A} s (m : M N A) r : comp s m r -> (forall s1 s2, m s1 = (s2, r) -> s1 = s2) -> m s = (s, r).
Proof. intros H Q. destruct (H s (sim_refl s)) as (s' & E & _). rewrite E. f_equal. symmetry. now apply Q. Qed.

Lemma eq_now (s : store) t t' v v' : the_term s t = Some v -> the_term s t' = Some v' -> eq_obj t t' s = (s, Ok (term_eqb v v')).
Proof.
  intros E E'. unfold the_term, the_damping in E, E'. unfold eq_obj, bindM, deref, ret.
  destruct (nth_error (s_terms s) t) as [o|]; [|discriminate]. destruct (nth_error (s_terms s) t') as [o'|]; [|discriminate].
  destruct (nth_error (s_damp s) (o_damping o)) as [d|]; [|discriminate]. destruct (nth_error (s_damp s) (o_damping o')) as [d'|]; [|discriminate].
  injection E as <-. injection E' as <-. reflexivity.
Qed.

Lemma remove_cons (s : store) t' l t v' v : the_term s t' = Some v' -> the_term s t = Some v ->
  remove_obj (t' :: l) t s = if term_eqb v' v then (s, Ok l)
    else bindM (remove_obj l t) (fun r => ret (Ok (t' :: r))) s.
Proof.
  intros E' Ev. cbn [remove_obj]. unfold bindM at 1. rewrite (eq_now s t' t v' v E' Ev). destruct (term_eqb v' v); reflexivity.
Qed.

Lemma remove_now (s : store) l t vs v : all (map (the_term s) l) = Some vs -> the_term s t = Some v ->
  match list_remove vs v with
  | Ok vs' => exists l', remove_obj l t s = (s, Ok l') /\ all (map (the_term s) l') = Some vs' /\ incl l' l
  | Raise e => e = ValueError /\ remove_obj l t s = (s, Raise ValueError)
  end.
Proof.
  intros E Ev. revert vs E. induction l as [|t' l IH]; intros vs E.
  - injection E as <-. split; reflexivity.
  - cbn [map] in E. apply all_cons in E as (v' & vs' & E' & E & ->). cbn [list_remove remove_obj].
    assert (EE : bindM (eq_obj t' t) (fun b : bool => if b then ret (Ok l) else bindM (remove_obj l t) (fun r => ret (Ok (t' :: r)))) s
       = if term_eqb v' v then (s, Ok l) else bindM (remove_obj l t) (fun r => ret (Ok (t' :: r))) s).
    { unfold bindM at 1. rewrite (eq_now s t' t v' v E' Ev). destruct (term_eqb v' v); reflexivity. }
    cbv beta in EE |- *. rewrite EE. clear EE.
    destruct (term_eqb v' v).
    + exists l. split; [reflexivity|]. split; [exact E|]. intros x Hx. now right.
    + specialize (IH vs' E). destruct (list_remove vs' v) as [r|e]; cbn [bind].
      * destruct IH as (l' & El & Al & Il). exists (t' :: l'). split; [|split].
        -- unfold bindM. rewrite El. reflexivity.
        -- cbn [map all]. now rewrite E', Al.
        -- intros x [Hx|Hx]; [now left|right; auto].
      * destruct IH as (-> & El). split; [reflexivity|]. unfold bindM. rewrite El. reflexivity.
Qed.

Lemma deregister_step (s : store) i t p v : the_disp s i = Some p -> the_term s t = Some v ->
  match deregister p v with
  | Ok p' => exists s', do X W (Deregister i t) s = (s', Ok None) /\ s_damp s' = s_damp s /\ s_terms s' = s_terms s /\
       List.length (s_disps s') = List.length (s_disps s) /\
       forall j, the_disp s' j = if Nat.eqb j i then Some p' else the_disp s j
  | Raise e => e = ValueError /\ do X W (Deregister i t) s = (s, Raise ValueError)
  end.
Proof.
  intros Hp Hv. pose proof Hp as Hp'. unfold the_disp in Hp'. destruct (nth_error (s_disps s) i) as [o|] eqn:Ei; [|discriminate].
  destruct (all (map (the_term s) (o_terms o))) as [ts|] eqn:Et; [|discriminate]. injection Hp' as <-.
  pose proof (remove_now s (o_terms o) t ts v Et Hv) as R. unfold deregister. cbn [with_terms p_terms].
  assert (Do : do X W (Deregister i t) s = let '(s1, r) := remove_obj (o_terms o) t s in
     match r with Ok l => (mkStore (s_damp s1) (s_terms s1) (ModelStore.set_nth (s_disps s1) i (mkDispObj l (o_conf o))), Ok None)
                | Raise e => (s1, Raise e) end).
  { cbn [do]. unfold no_value, deregister_obj, bindM, deref. rewrite Ei. destruct (remove_obj _ _ s) as [s1 [l|e]]; reflexivity. }
  rewrite Do. clear Do. destruct (list_remove ts v) as [ts'|e]; cbn [bind].
  - destruct R as (l' & -> & Al & _). exists (with_disp s i (mkDispObj l' (o_conf o))).
    split; [reflexivity|]. split; [reflexivity|]. split; [reflexivity|]. split.
    + cbn [with_disp s_disps]. apply set_nth_length. apply nth_error_Some. congruence.
    + intros j. rewrite (with_disp_the_disp _ _ _ _ Hp). cbn [o_terms o_conf]. rewrite Al. reflexivity.
  - destruct R as (-> & ->). split; reflexivity.
Qed.

(** *** creation *)
Lemma the_term_grow (s s' : store) dl tl t v : s_damp s' = (s_damp s ++ dl)%list -> s_terms s' = (s_terms s ++ tl)%list ->
  the_term s t = Some v -> the_term s' t = Some v.
Proof.
  intros Ed Et E. unfold the_term in *. destruct (nth_error (s_terms s) t) as [o|] eqn:Eo; [|discriminate].
  rewrite Et, (nth_app_old _ _ _ _ Eo). unfold the_damping in *. rewrite Ed.
  destruct (nth_error (s_damp s) (o_damping o)) eqn:Eq; [|discriminate]. now rewrite (nth_app_old _ _ _ _ Eq).
Qed.
Lemma all_ext_some {A B} (f g : A -> option B) l r : (forall x y, f x = Some y -> g x = Some y) ->
  all (map f l) = Some r -> all (map g l) = Some r.
Proof.
  intros H. revert r. induction l as [|x l IH]; intros r E; [exact E|]. cbn [map] in *.
  apply all_cons in E as (a & r0 & E1 & E2 & ->). cbn [all]. rewrite (H _ _ E1), (IH r0 E2). reflexivity.
Qed.
Lemma the_disp_grow (s s' : store) dl tl ql i p : s_damp s' = (s_damp s ++ dl)%list -> s_terms s' = (s_terms s ++ tl)%list ->
  s_disps s' = (s_disps s ++ ql)%list -> the_disp s i = Some p -> the_disp s' i = Some p.
Proof.
  intros Ed Et Eq E. unfold the_disp in *. destruct (nth_error (s_disps s) i) as [o|] eqn:Eo; [|discriminate].
  rewrite Eq, (nth_app_old _ _ _ _ Eo). destruct (all (map (the_term s) (o_terms o))) as [ts|] eqn:Ea; [|discriminate].
  rewrite (all_ext_some (the_term s) (the_term s') _ ts); [exact E| |exact Ea].
  intros. eapply the_term_grow; eauto.
Qed.

Lemma new_terms_spec ts : forall s : store, new_terms ts s =
  (mkStore (s_damp s) (s_terms s ++ ts)%list (s_disps s), Ok (seq (List.length (s_terms s)) (List.length ts))).
Proof.
  induction ts as [|t ts IH]; intros s; cbn [new_terms].
  - unfold ret. rewrite app_nil_r. now destruct s.
  - unfold bindM at 1. unfold alloc_term. unfold bindM at 1. rewrite IH. cbn [s_damp s_terms s_disps]. unfold ret.
    rewrite <- app_assoc. cbn [app]. rewrite app_length. cbn [List.length seq]. now rewrite Nat.add_1_r.
Qed.

Definition term_in (s : store) (o : term_obj) : option (DispTerm N) :=
  option_map (fun d => mkTerm (o_tclass o) d (o_cdep o)) (the_damping s (o_damping o)).

Lemma new_disp_step (s : store) ts model kw cnf cnk vs : all (map (term_in s) ts) = Some vs ->
  match new_disp W [] model kw cnf cnk with
  | Ok conf => exists s', do X W (NewDisp ts model kw cnf cnk) s = (s', Ok None) /\
       s_damp s' = s_damp s /\ s_terms s' = (s_terms s ++ ts)%list /\
       (exists o, s_disps s' = (s_disps s ++ [o])%list) /\
       the_disp s' (List.length (s_disps s)) = Some (with_terms conf vs)
  | Raise e => do X W (NewDisp ts model kw cnf cnk) s = (s, Raise e)
  end.
Proof.
  intros E. cbn [do]. unfold no_value, new_disp_obj, bindM, ret.
  destruct (new_disp W [] model kw cnf cnk) as [conf|e] eqn:Ec; [|reflexivity].
  rewrite new_terms_spec. unfold alloc_disp. cbn [s_damp s_terms s_disps]. eexists. split; [reflexivity|].
  cbn [s_damp s_terms s_disps]. split; [reflexivity|]. split; [reflexivity|]. split; [eexists; reflexivity|].
  unfold the_disp. cbn [s_disps]. rewrite nth_last. cbn [o_terms o_conf].
  match goal with |- option_map _ (all (map (the_term ?s1) _)) = _ => set (s' := s1) end.
  enough (A : all (map (the_term s') (seq (List.length (s_terms s)) (List.length ts))) = Some vs) by now rewrite A.
  assert (G : forall pre ts vs, s_terms s' = (s_terms s ++ pre ++ ts)%list -> all (map (term_in s) ts) = Some vs ->
     all (map (the_term s') (seq (List.length (s_terms s) + List.length pre) (List.length ts))) = Some vs).
  { clear E vs. intros pre ts0. revert pre. induction ts0 as [|t ts0 IH]; intros pre vs Es E.
    - exact E.
    - cbn [map] in E. apply all_cons in E as (v & vs' & E1 & E2 & ->). cbn [List.length seq map all].
      replace (the_term s' (List.length (s_terms s) + List.length pre)) with (Some v).
      + specialize (IH (pre ++ [t])%list vs'). rewrite app_length in IH. cbn [List.length] in IH.
        rewrite Nat.add_assoc, Nat.add_1_r in IH. rewrite IH; [reflexivity| |exact E2].
        rewrite Es, <- app_assoc. reflexivity.
      + unfold the_term. rewrite Es, app_assoc. rewrite <- app_length, nth_error_app2, Nat.sub_diag by auto.
        cbn [nth_error]. exact (eq_sym E1). }
  specialize (G [] ts vs eq_refl E). cbn [List.length] in G. now rewrite Nat.add_0_r in G.
Qed.
Lemma possible_terms (s : store) ts : forallb (fun t => exists_damp s (o_damping t)) ts = true -> exists vs, all (map (term_in s) ts) = Some vs.
Proof.
  intros H. apply all_map_some. intros o Ho. rewrite forallb_forall in H. specialize (H o Ho). apply Nat.ltb_lt in H.
  destruct (wf_damping s _ H) as (d & E). unfold term_in. rewrite E. now eexists.
Qed.

(** *** invariants *)
Lemma wf_intro (s s' : store) : wf s ->
  (List.length (s_damp s) <= List.length (s_damp s'))%nat -> s_terms s' = s_terms s ->
  List.length (s_disps s') = List.length (s_disps s) ->
  (forall j, (j < List.length (s_disps s))%nat -> exists p, the_disp s' j = Some p) -> wf s'.
Proof.
  intros (A & B) L Et Ll H. split.
  - intros t o E. rewrite Et in E. specialize (A t o E). lia.
  - intros i o E. destruct (H i) as (p & Ep). { rewrite <- Ll. apply nth_error_Some. congruence. }
    unfold the_disp in Ep. rewrite E in Ep. destruct (all (map (the_term s') (o_terms o))) as [ts|] eqn:Ea; [|discriminate].
    clear - Ea. revert ts Ea. induction (o_terms o) as [|t l IH]; intros ts Ea; constructor.
    + cbn [map] in Ea. apply all_cons in Ea as (v & r & Ev & _). unfold the_term in Ev.
      apply nth_error_Some. destruct (nth_error _ t); congruence.
    + cbn [map] in Ea. apply all_cons in Ea as (v & r & _ & Ev & _). eauto.
Qed.

Lemma step_wf s e : wf s -> wf (step X W s e).
Proof.
  intros Hw. unfold step. destruct (possible s e) eqn:Hp; [|exact Hw].
  destruct (is_call e) eqn:Hc.
  { destruct (call_step s e Hw Hc Hp) as (s' & -> & S). cbn [fst]. now apply sim_wf with s. }
  destruct e; try discriminate; cbn [possible] in Hp.
  - cbn. destruct Hw as (A & B). split; cbn [s_damp s_terms s_disps]; auto.
    intros t o E. specialize (A t o E). rewrite app_length. cbn. lia.
  - cbn. destruct Hw as (A & B). apply Nat.ltb_lt in Hp. split; cbn [s_damp s_terms s_disps].
    + intros t0 o E. destruct (Nat.lt_ge_cases t0 (List.length (s_terms s))) as [L|L].
      * rewrite nth_error_app1 in E by auto. eauto.
      * rewrite nth_error_app2 in E by auto. destruct (t0 - List.length (s_terms s))%nat as [|x].
        -- injection E as <-. exact Hp.
        -- destruct x; discriminate.
    + intros i o E. specialize (B i o E). rewrite Forall_forall in *. intros x Hx. specialize (B x Hx). rewrite app_length. lia.
  - destruct (possible_terms s TERMS Hp) as (vs & Ev).
    pose proof (new_disp_step s TERMS model kw cn_fn cn_kw vs Ev) as H.
    destruct (new_disp W [] model kw cn_fn cn_kw) as [conf|x]; [|rewrite H; exact Hw].
    destruct H as (s' & -> & Ed & Et & (o & Eo) & Ep). cbn [fst]. destruct Hw as (A & B). split.
    + intros t o' E. rewrite Et in E. rewrite Ed. destruct (Nat.lt_ge_cases t (List.length (s_terms s))) as [L|L].
      * rewrite nth_error_app1 in E by auto. eauto.
      * rewrite nth_error_app2 in E by auto. apply nth_error_In in E. rewrite forallb_forall in Hp. specialize (Hp _ E).
        now apply Nat.ltb_lt in Hp.
    + intros i o' E. destruct (Nat.lt_ge_cases i (List.length (s_disps s))) as [L|L].
      * rewrite Eo, nth_error_app1 in E by auto. specialize (B _ _ E). rewrite Forall_forall in *. intros x Hx.
        specialize (B x Hx). rewrite Et, app_length. lia.
      * assert (i = List.length (s_disps s)) as ->.
        { assert (i < List.length (s_disps s'))%nat by (apply nth_error_Some; congruence).
          rewrite Eo, app_length in H. cbn in H. lia. }
        unfold the_disp in Ep. rewrite E in Ep. destruct (all (map (the_term s') (o_terms o'))) as [r|] eqn:Ea; [|discriminate].
        clear - Ea. revert r Ea. induction (o_terms o') as [|t l IH]; intros ts Ea; constructor.
        -- cbn [map] in Ea. apply all_cons in Ea as (v & r & Ev & _). unfold the_term in Ev.
           apply nth_error_Some. destruct (nth_error _ t); congruence.
        -- cbn [map] in Ea. apply all_cons in Ea as (v & r & _ & Ev & _). eauto.
  - apply andb_true_iff in Hp as (H1 & H2). apply Nat.ltb_lt in H1, H2.
    destruct (wf_disp s i Hw H1) as (p & Ep). destruct (wf_term s t Hw H2) as (v & Ev).
    destruct (register_step s i t p v Ep Ev) as (s' & -> & E1 & E2 & E3 & E4). cbn [fst].
    apply wf_intro with s; auto; [rewrite E1; lia|]. intros j Hj. rewrite E4. destruct (Nat.eqb j i); [eauto|now apply wf_disp].
  - apply andb_true_iff in Hp as (H1 & H2). apply Nat.ltb_lt in H1, H2.
    destruct (wf_disp s i Hw H1) as (p & Ep). destruct (wf_term s t Hw H2) as (v & Ev).
    pose proof (deregister_step s i t p v Ep Ev) as H. destruct (deregister p v) as [p'|x].
    + destruct H as (s' & -> & E1 & E2 & E3 & E4). cbn [fst].
      apply wf_intro with s; auto; [rewrite E1; lia|]. intros j Hj. rewrite E4. destruct (Nat.eqb j i); [eauto|now apply wf_disp].
    + destruct H as (_ & ->). exact Hw.
Qed.

Lemma after_wf h : wf (after X W h).
Proof.
  unfold after. assert (W0 : wf (import X)). { split; intros i o E; destruct i; discriminate. }
  revert W0. generalize (import X) as s. induction h as [|e h IH]; intros s H; cbn [fold_left]; [exact H|].
  apply IH. now apply step_wf.
Qed.
End P.
