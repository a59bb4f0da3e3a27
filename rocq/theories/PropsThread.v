(** * C56: a thread that is not interrupted is the sequential program; a race of two [deregister] *)
From Coq Require Import List Arith ZArith QArith Bool String Lia.
From Verif Require Import Py Tensor Scalar ModelExt ModelUtils ModelDamping ModelModels
  ModelTerms ModelDisp ModelStore ModelConc SpecCall SpecStore SpecConc StoreP StoreC ConcP PropsStore PropsConc PropsRace.
Import ListNotations.
Open Scope ten_scope.
Open Scope string_scope.

Section P.
Context {N : Num} (X : Ext (sc N)) (W : World N).
Notation K := (sc N).
Notation store := (store N).
Notation P := (P N).
Notation M := (M N).

Definition refines {A} (p : P A) (m : M A) : Prop := forall s, steps s p (fst (m s)) (Done (snd (m s))).
Lemma refines_done {A} (r : res A) : refines (done r) (ret r).
Proof. intros s. constructor. Qed.
Lemma refines_act {A} (m : M A) : refines (act m) m.
Proof. intros s. constructor. constructor. Qed.
Lemma refines_bind {A B} (p : P A) (m : M A) (k : A -> P B) (k' : A -> M B) :
  refines p m -> (forall a, refines (k a) (k' a)) -> refines (bindP p k) (bindM m k').
Proof.
  intros H Hk s. unfold bindP. eapply steps_trans; [apply steps_after, H|]. rewrite after_done. unfold bindM.
  destruct (m s) as [s' [a|e]]; cbn [fst snd]; [apply Hk|constructor].
Qed.
Lemma refines_bind_done {A B} (r : res A) (k : A -> P B) (k' : A -> M B) :
  (forall a, refines (k a) (k' a)) -> refines (bindP (done r) k) (bindM (ret r) k').
Proof. intros H. apply refines_bind; [apply refines_done|exact H]. Qed.
Lemma refines_get {A} (f : store -> list A) l : refines (get f l) (deref f l).
Proof. apply refines_act. Qed.
Hint Resolve refines_done refines_get refines_act : th.
Ltac ref := repeat (match goal with |- refines (bindP _ _) _ => first [apply refines_bind_done; intros|apply refines_bind; [now auto with th|intros]] end); auto with th.

Lemma damping_call_refines l dist radii order only param :
  refines (damping_call_th l dist radii order only param) (damping_call_obj l dist radii order only param).
Proof. unfold damping_call_th, damping_call_obj, put_doi. ref. Qed.
Lemma where_refines mask (p : P (tensor K)) m z : refines p m -> refines (where_th mask p z) (where_obj mask m z).
Proof. intros H. unfold where_th, where_obj. ref. Qed.
Lemma dispersion2_refines numbers positions param c6 r4r2 rvdw l cutoff as_matrix :
  refines (dispersion2_th X numbers positions param c6 r4r2 rvdw l cutoff as_matrix)
          (dispersion2_obj X numbers positions param c6 r4r2 rvdw l cutoff as_matrix).
Proof.
  unfold dispersion2_th, dispersion2_obj. ref.
  apply refines_bind; [apply where_refines, damping_call_refines|intros].
  apply refines_bind; [apply where_refines, damping_call_refines|intros].
  ref. apply refines_bind; [|intros; ref]. destruct (dget param "s10"); ref.
  apply refines_bind; [apply where_refines, damping_call_refines|intros]. ref.
Qed.
Lemma atm_refines numbers positions c9 radii cutoff l s9 alp :
  refines (get_atm_dispersion_th X numbers positions c9 radii cutoff l s9 alp)
          (get_atm_dispersion_obj X numbers positions c9 radii cutoff l s9 alp).
Proof.
  unfold get_atm_dispersion_th, get_atm_dispersion_obj. ref.
  apply refines_bind; [apply where_refines, damping_call_refines|intros]. ref.
Qed.
Lemma term_refines t numbers positions param cn model q r4r2 rvdw cutoff :
  refines (term_calculate_th X t numbers positions param cn model q r4r2 rvdw cutoff)
          (term_calculate_obj X t numbers positions param cn model q r4r2 rvdw cutoff).
Proof.
  unfold term_calculate_th, term_calculate_obj. ref. destruct (o_tclass a); ref; try apply dispersion2_refines; apply atm_refines.
Qed.

(** ** Loops *)
Definition keeps {A} (m : M A) : Prop := forall s, s_disps (fst (m s)) = s_disps s.
Lemma keeps_ret {A} (r : res A) : keeps (ret r). Proof. intros s. reflexivity. Qed.
Lemma keeps_deref {A} (f : store -> list A) l : keeps (deref f l). Proof. intros s. reflexivity. Qed.
Lemma keeps_bind {A B} (m : M A) (k : A -> M B) : keeps m -> (forall a, keeps (k a)) -> keeps (bindM m k).
Proof. intros H Hk s. unfold bindM. specialize (H s). destruct (m s) as [s' [a|e]]; cbn [fst] in *; [now rewrite Hk|exact H]. Qed.
Lemma keeps_doi l o (d : option (pval K)) : keeps (set_doi l o d). Proof. intros s. reflexivity. Qed.
Hint Resolve keeps_ret keeps_deref keeps_doi : th.
Ltac kee := repeat (match goal with |- keeps (bindM _ _) => apply keeps_bind; [now auto with th|intros] end); auto with th.
Lemma keeps_damping l dist radii order only param : keeps (damping_call_obj l dist radii order only param).
Proof. unfold damping_call_obj. kee. Qed.
Lemma keeps_where mask (m : M (tensor K)) z : keeps m -> keeps (where_obj mask m z).
Proof. intros H. unfold where_obj. kee. Qed.
Lemma keeps_term t numbers positions param cn model q r4r2 rvdw cutoff :
  keeps (term_calculate_obj X t numbers positions param cn model q r4r2 rvdw cutoff).
Proof.
  assert (H2 : forall numbers positions param c6 r4r2 rvdw l cutoff as_matrix,
     keeps (dispersion2_obj X numbers positions param c6 r4r2 rvdw l cutoff as_matrix)).
  { intros. unfold dispersion2_obj. kee.
    apply keeps_bind; [apply keeps_where, keeps_damping|intros].
    apply keeps_bind; [apply keeps_where, keeps_damping|intros]. kee.
    apply keeps_bind; [|intros; kee]. destruct (dget param0 "s10"); kee.
    apply keeps_bind; [apply keeps_where, keeps_damping|intros]. kee. }
  assert (H3 : forall numbers positions c9 radii cutoff l s9 alp,
     keeps (get_atm_dispersion_obj X numbers positions c9 radii cutoff l s9 alp)).
  { intros. unfold get_atm_dispersion_obj. kee.
    apply keeps_bind; [apply keeps_where, keeps_damping|intros]. kee. }
  unfold term_calculate_obj. kee. destruct (o_tclass a); kee.
Qed.

Fixpoint loopM {B} (body : B -> nat -> M (B * bool)) (b : B) (ts : list nat) : M B :=
  match ts with
  | [] => ret (Ok b)
  | t :: ts => bindM (body b t) (fun x => if snd x then ret (Ok (fst x)) else loopM body (fst x) ts)
  end.
Lemma steps_iter {B} i (body : B -> nat -> P (B * bool)) j s cur s' cur' : steps s cur s' cur' ->
  steps s (iter i body j cur) s' (iter i body j cur').
Proof. intros H. induction H; [constructor|]. rewrite (iter_unfold i body j (Step u n)). now constructor. Qed.
Lemma skipn_nth {A} (l : list A) : forall j, nth_error l j = match skipn j l with [] => None | x :: _ => Some x end.
Proof. induction l as [|x l IH]; intros [|j]; try reflexivity. apply IH. Qed.
Lemma skipn_next {A} (l : list A) : forall j x r, skipn j l = x :: r -> skipn (S j) l = r.
Proof. induction l as [|y l IH]; intros [|j] x r E; cbn in *; try discriminate; [now injection E|]. now apply (IH j x r). Qed.
Lemma loop_refines {B} i o (body : B -> nat -> P (B * bool)) body' :
  (forall b t, refines (body b t) (body' b t)) -> (forall b t, keeps (body' b t)) ->
  forall ts j b s, nth_error (s_disps s) i = Some o -> skipn j (o_terms o) = ts ->
    steps s (iter i body j (Done (Ok (b, false)))) (fst (loopM body' b ts s)) (Done (snd (loopM body' b ts s))).
Proof.
  intros H Hk ts. induction ts as [|t ts IH]; intros j b s Ei Ej; rewrite iter_unfold; constructor; rewrite Ei, skipn_nth, Ej.
  - constructor.
  - eapply steps_trans; [apply steps_iter, H|]. cbn [loopM]. unfold bindM. pose proof (Hk b t s) as Hd.
    destruct (body' b t s) as [s' [[b' [|]]|e]]; cbn [fst snd] in *.
    + rewrite iter_unfold. constructor.
    + apply IH; [now rewrite Hd|]. now apply skipn_next with t.
    + rewrite iter_unfold. constructor.
Qed.

Lemma any_loopM ts : forall s,
  loopM (fun _ t => bindM (deref s_terms t) (fun o => ret (Ok (o_cdep o, o_cdep o)))) false ts s = any_cdep ts s.
Proof.
  induction ts as [|t ts IH]; intros s; [reflexivity|]. cbn [loopM any_cdep]. unfold bindM, deref at 1 3, ret.
  destruct (nth_error (s_terms s) t) as [o|]; [|reflexivity]. cbn [fst snd]. destruct (o_cdep o); [reflexivity|]. apply IH.
Qed.
Lemma sum_loopM (calc : nat -> M (tensor K)) ts : forall b s,
  loopM (fun (energy : tensor K) t => bindM (calc t) (fun e => bindM (ret (energy +t e)) (fun e' => ret (Ok (e', false))))) b ts s
  = sum_terms_obj b ts calc s.
Proof.
  induction ts as [|t ts IH]; intros b s; [reflexivity|]. cbn [loopM sum_terms_obj]. unfold bindM, ret.
  destruct (calc t s) as [s' [e|x]]; [|reflexivity]. destruct (b +t e) as [e'|x]; [|reflexivity]. cbn [fst snd]. apply IH.
Qed.
Lemma eq_obj_reads t t' (s : store) : fst (eq_obj t t' s) = s.
Proof.
  unfold eq_obj, bindM, deref, ret. destruct (nth_error (s_terms s) t) as [o|]; [|reflexivity].
  destruct (nth_error (s_terms s) t') as [o'|]; [|reflexivity].
  destruct (nth_error (s_damp s) (o_damping o)) as [d|]; [|reflexivity].
  destruct (nth_error (s_damp s) (o_damping o')) as [d'|]; reflexivity.
Qed.
Definition scanM (t : nat) : nat * bool -> nat -> M (nat * bool * bool) := fun acc t' =>
  bindM (eq_obj t' t) (fun b => ret (Ok (if b : bool then (fst acc, true, true) else (S (fst acc), false, false)))).
Lemma remove_loopM t ts : forall k (s : store),
  fst (loopM (scanM t) (k, false) ts s) = s /\
  match snd (loopM (scanM t) (k, false) ts s) with
  | Ok (k', true) => exists n, k' = (k + n)%nat /\ remove_obj ts t s = (s, Ok (firstn n ts ++ skipn (S n) ts)%list)
  | Ok (_, false) => remove_obj ts t s = (s, Raise ValueError)
  | Raise e => remove_obj ts t s = (s, Raise e)
  end.
Proof.
  induction ts as [|t' ts IH]; intros k s; [split; reflexivity|]. cbn [loopM remove_obj]. unfold scanM at 1 3, bindM, ret.
  pose proof (eq_obj_reads t' t s) as E. destruct (eq_obj t' t s) as [s1 [b|e]]; cbn [fst] in E; subst s1; [|split; reflexivity].
  destruct b; cbn [fst snd].
  - split; [reflexivity|]. exists 0%nat. split; [lia|reflexivity].
  - destruct (IH (S k) s) as (A & B). split; [exact A|].
    change (fun acc t'' => bindM (eq_obj t'' t) (fun b => ret (Ok (if b : bool then (fst acc, true, true) else (S (fst acc), false, false))))) with (scanM t).
    destruct (snd (loopM (scanM t) (S k, false) ts s)) as [[k' [|]]|e].
    + destruct B as (n & -> & ->). exists (S n). split; [lia|reflexivity].
    + now rewrite B.
    + now rewrite B.
Qed.

(** while the object [i] is [o] *)
Definition refines_at {A} i o (p : P A) (m : M A) : Prop :=
  forall s, nth_error (s_disps s) i = Some o -> steps s p (fst (m s)) (Done (snd (m s))).
Lemma at_any {A} i o (p : P A) m : refines p m -> refines_at i o p m.
Proof. intros H s _. apply H. Qed.
Lemma at_bind {A B} i o (p : P A) (m : M A) (k : A -> P B) (k' : A -> M B) :
  refines_at i o p m -> keeps m -> (forall a, refines_at i o (k a) (k' a)) -> refines_at i o (bindP p k) (bindM m k').
Proof.
  intros H Hm Hk s Hs. unfold bindP. eapply steps_trans; [apply steps_after, H, Hs|]. rewrite after_done. unfold bindM.
  specialize (Hm s). destruct (m s) as [s' [a|e]]; cbn [fst snd] in *; [apply Hk; now rewrite Hm|constructor].
Qed.
Lemma at_bind_done {A B} i o (r : res A) (k : A -> P B) (k' : A -> M B) :
  (forall a, refines_at i o (k a) (k' a)) -> refines_at i o (bindP (done r) k) (bindM (ret r) k').
Proof. intros H. apply at_bind; [apply at_any, refines_done|apply keeps_ret|exact H]. Qed.
Lemma at_loop {B} i o (body : B -> nat -> P (B * bool)) body' (b : B) (m : M B) :
  (forall b t, refines (body b t) (body' b t)) -> (forall b t, keeps (body' b t)) ->
  (forall s, loopM body' b (o_terms o) s = m s) -> refines_at i o (for_terms i b body) m.
Proof. intros H Hk Hm s Hs. rewrite <- Hm. unfold for_terms. now apply (loop_refines i o). Qed.
Lemma keeps_any ts : keeps (any_cdep (N := N) ts).
Proof. induction ts as [|t ts IH]; [apply keeps_ret|]. cbn [any_cdep]. kee. destruct (o_cdep a); auto with th. Qed.

Lemma calculate_refines i numbers positions charge param cutoff q rcov r4r2 rvdw :
  refines (calculate_th X W i numbers positions charge param cutoff q rcov r4r2 rvdw)
          (calculate_obj X W i numbers positions charge param cutoff q rcov r4r2 rvdw).
Proof.
  intros s. unfold calculate_th, calculate_obj, bindP at 1, get at 1, act. rewrite after_step. constructor. rewrite after_done.
  rewrite (surjective_pairing (bindM (deref s_disps i) _ s)) at 1.
  assert (E : forall (A : Type) (k : disp_obj N -> M A), bindM (deref s_disps i) k s =
     match nth_error (s_disps s) i with Some o => k o s | None => (s, Raise AttributeError) end).
  { intros A k. unfold bindM, deref. destruct (nth_error (s_disps s) i); reflexivity. }
  rewrite !E. unfold deref. cbn [fst snd]. destruct (nth_error (s_disps s) i) as [o|] eqn:Ei; cbn [fst snd]; [|constructor].
  match goal with |- steps s ?p (fst (?m s)) (Done (snd (?m s))) => cut (refines_at i o p m); [intros H; now apply H|] end.
  repeat (match goal with |- refines_at _ _ (bindP (done _) _) _ => apply at_bind_done; intros end).
  apply at_bind.
  - eapply at_loop; [| |intros; apply any_loopM]; cbv beta; intros.
    + ref.
    + kee.
  - apply keeps_any.
  - intros. repeat (match goal with |- refines_at _ _ (bindP (done _) _) _ => apply at_bind_done; intros end).
    eapply at_loop; [| |intros; apply sum_loopM]; cbv beta.
    + intros. apply refines_bind; [apply term_refines|]. intros. ref.
    + intros. apply keeps_bind; [apply keeps_term|]. intros. kee.
Qed.

Lemma deregister_refines i t : refines (deregister_th i t) (deregister_obj i t).
Proof.
  intros s. unfold deregister_th, deregister_obj.
  destruct (nth_error (s_disps s) i) as [o|] eqn:Ei.
  - unfold bindP at 1. eapply steps_trans; [apply steps_after|].
    + unfold for_terms. apply (loop_refines i o _ (scanM t)) with (ts := o_terms o).
      * intros. unfold scanM. apply refines_bind; [unfold eq_th, eq_obj; ref|]. intros. ref.
      * intros. unfold scanM. apply keeps_bind; [|intros; kee]. intros s'. now rewrite eq_obj_reads.
      * exact Ei.
      * reflexivity.
    + rewrite after_done. destruct (remove_loopM t (o_terms o) 0 s) as (A & B). rewrite A.
      unfold bindM at 1 3. unfold deref at 1 2. rewrite Ei. unfold bindM at 1 2.
      destruct (snd (loopM (scanM t) (0%nat, false) (o_terms o) s)) as [[k [|]]|e]; cbn [fst snd].
      * destruct B as (n & -> & ->). unfold act. constructor. unfold remove_at, bindM, deref. rewrite Ei. cbn [fst snd Nat.add]. constructor.
      * rewrite B. constructor.
      * rewrite B. constructor.
  - unfold for_terms. rewrite iter_unfold. unfold bindP. rewrite after_step. constructor. rewrite Ei, after_done.
    unfold bindM, deref. rewrite Ei. constructor.
Qed.

Lemma new_terms_refines ts : refines (new_terms_th (N := N) ts) (new_terms ts).
Proof.
  induction ts as [|t ts IH]; [apply refines_done|]. cbn [new_terms_th new_terms].
  apply refines_bind; [apply refines_act|intros]. apply refines_bind; [exact IH|intros]. apply refines_done.
Qed.
Lemma new_disp_refines ts model kw cnf cnk : refines (new_disp_th W ts model kw cnf cnk) (new_disp_obj W ts model kw cnf cnk).
Proof. unfold new_disp_th, new_disp_obj. ref. apply refines_bind; [apply new_terms_refines|intros]. apply refines_act. Qed.

Lemma value_refines {A} (f : A -> option (tensor K)) (p : P A) (m : M A) : refines p m ->
  refines (SpecConc.value f p) (fun s => let '(s', r) := m s in (s', rmap f r)).
Proof.
  intros H s. unfold SpecConc.value, bindP. eapply steps_trans; [apply steps_after, H|]. rewrite after_done.
  destruct (m s) as [s' [a|e]]; constructor.
Qed.

(** operations other than the function [dftd4], which leaves garbage *)
Definition not_dftd4 (e : event N) : bool := match e with CallDftd4 _ _ _ _ _ => false | _ => true end.
Lemma program_refines e : not_dftd4 e = true -> refines (program X W (Do e)) (do X W e).
Proof.
  intros H. destruct e; cbn [program do]; try discriminate;
    unfold SpecConc.no_value, SpecStore.no_value, SpecStore.value; apply value_refines; try apply refines_act.
  - apply new_disp_refines.
  - apply deregister_refines.
  - apply calculate_refines.
  - apply damping_call_refines.
Qed.

(** the operations one after the other: the objects afterwards, and the results *)
Fixpoint sequentially (s : store) (es : list (event N)) : store * list (res (option (tensor K))) :=
  match es with
  | [] => (s, [])
  | e :: es => let '(s1, r) := do X W e s in let '(s2, rs) := sequentially s1 es in (s2, r :: rs)
  end.

Lemma thread_refines es : forallb not_dftd4 es = true -> forall s,
  steps s (thread X W (map Do es)) (fst (sequentially s es)) (Done (Ok (snd (sequentially s es)))).
Proof.
  induction es as [|e es IH]; intros H s; [constructor|]. cbn [forallb] in H. apply andb_prop in H as [H1 H2].
  cbn [map thread sequentially]. eapply steps_trans; [apply steps_after, program_refines, H1|]. rewrite after_done.
  destruct (do X W e s) as [s1 r]. cbn [fst snd]. unfold bindP. eapply steps_trans; [apply steps_after, (IH H2 s1)|].
  rewrite after_done. destruct (sequentially s1 es) as [s2 rs]. constructor.
Qed.

(** A thread that is not interrupted does exactly what the sequential program does: the same results
    and exceptions, and the same objects afterwards, [register] and [deregister] included. *)
Theorem C56_uninterrupted_thread : forall history threads k es,
  nth_error threads k = Some (map Do es) -> forallb not_dftd4 es = true ->
  exists n, forall m, (n <= m)%nat ->
    shared (concurrently X W history threads (repeat k m)) = fst (sequentially (after X W history) es) /\
    results (concurrently X W history threads (repeat k m)) k = Some (snd (sequentially (after X W history) es)).
Proof.
  intros history threads k es Hk He.
  pose proof (thread_refines es He (after X W history)) as S.
  destruct (steps_pool k _ _ _ _ S (map (thread X W) threads)) as (n & En).
  { rewrite nth_error_map, Hk. reflexivity. }
  exists n. intros m Hm.
  assert (Lk : (k < List.length (map (thread X W) threads))%nat).
  { rewrite map_length. apply nth_error_Some. congruence. }
  set (c := mkPool _ _) in En at 2.
  assert (F : forall j, interleave (repeat k (n + j)) (mkPool (after X W history) (map (thread X W) threads)) = c).
  { induction j as [|j IHj]; [now rewrite Nat.add_0_r|]. rewrite Nat.add_succ_r.
    replace (Datatypes.S (n + j)) with ((n + j) + 1)%nat by lia. rewrite repeat_app. unfold interleave in *. rewrite fold_left_app, IHj.
    cbn [repeat fold_left]. unfold tick, c. cbn [progs]. rewrite set_nth_nth by exact Lk. now rewrite Nat.eqb_refl. }
  unfold concurrently. replace m with (n + (m - n))%nat by lia. rewrite F. unfold c, results. cbn [shared progs].
  split; [reflexivity|]. rewrite set_nth_nth by exact Lk. now rewrite Nat.eqb_refl.
Qed.

(** Two threads deregister two terms of one object.  One after the other, in either order, both
    succeed; but [list.remove] compares the elements one by one, and if the other thread deletes the
    first element in between, the second element is skipped: [ValueError], although the term was
    registered all the time. *)
Theorem C56_deregister_race : forall history i t0 t1 p v0 v1 w0 w1,
  let s := after X W history in
  the_disp s i = Some p -> p_terms p = [v0; v1] -> the_term s t0 = Some w0 -> the_term s t1 = Some w1 ->
  term_eqb v0 w0 = true -> term_eqb v1 w1 = true -> term_eqb v0 w1 = false ->
  snd (sequentially s [Deregister i t0; Deregister i t1]) = [Ok None; Ok None] /\
  snd (sequentially s [Deregister i t1; Deregister i t0]) = [Ok None; Ok None] /\
  exists schedule, let c := concurrently X W history [[Do (Deregister i t1)]; [Do (Deregister i t0)]] schedule in
    results c 0 = Some [Raise ValueError] /\ results c 1 = Some [Ok None] /\
    the_disp (shared c) i = Some (with_terms p [v1]).
Proof.
  intros history i t0 t1 p v0 v1 w0 w1 s Hp Ep H0 H1 E00 E11 E01.
  assert (D0 : deregister p w0 = Ok (with_terms p [v1])).
  { unfold deregister. rewrite Ep. cbn [list_remove]. rewrite E00. reflexivity. }
  assert (D1 : deregister p w1 = Ok (with_terms p [v0])).
  { unfold deregister. rewrite Ep. cbn [list_remove]. rewrite E01, E11. reflexivity. }
  assert (T : forall (s' : store) t v, s_damp s' = s_damp s -> s_terms s' = s_terms s -> the_term s t = Some v -> the_term s' t = Some v).
  { intros s' t v A B. unfold the_term, the_damping. now rewrite A, B. }
  pose proof (deregister_step X W s i t0 p w0 Hp H0) as Q0. rewrite D0 in Q0. destruct Q0 as (s0 & R0 & A0 & B0 & L0 & P0).
  pose proof (deregister_step X W s i t1 p w1 Hp H1) as Q1. rewrite D1 in Q1. destruct Q1 as (s1 & R1 & A1 & B1 & L1 & P1).
  assert (P0i : the_disp s0 i = Some (with_terms p [v1])) by (rewrite P0, Nat.eqb_refl; reflexivity).
  assert (P1i : the_disp s1 i = Some (with_terms p [v0])) by (rewrite P1, Nat.eqb_refl; reflexivity).
  split; [|split].
  - cbn [sequentially]. rewrite R0. pose proof (deregister_step X W s0 i t1 _ w1 P0i (T _ _ _ A0 B0 H1)) as Q.
    unfold deregister in Q. cbn [with_terms p_terms list_remove] in Q. rewrite E11 in Q. cbn [bind] in Q.
    destruct Q as (s2 & R2 & _). rewrite R2. reflexivity.
  - cbn [sequentially]. rewrite R1. pose proof (deregister_step X W s1 i t0 _ w0 P1i (T _ _ _ A1 B1 H0)) as Q.
    unfold deregister in Q. cbn [with_terms p_terms list_remove] in Q. rewrite E00 in Q. cbn [bind] in Q.
    destruct Q as (s2 & R2 & _). rewrite R2. reflexivity.
  - unfold the_disp in Hp. destruct (nth_error (s_disps s) i) as [o|] eqn:Ei; [|discriminate].
    destruct (all (map (the_term s) (o_terms o))) as [vs|] eqn:Ea; [|discriminate]. injection Hp as <-.
    cbn [with_terms p_terms] in Ep. subst vs.
    destruct (o_terms o) as [|ta [|tb [|]]] eqn:Eo; cbn [map] in Ea;
      try (apply all_cons in Ea as (? & ? & Ha & Ea & Ee); injection Ee as <- <-);
      try (apply all_cons in Ea as (? & ? & Hb & Ea & Ee); injection Ee as <- <-);
      try (apply all_cons in Ea as (? & ? & ? & Ea & Ee); discriminate Ee); try discriminate Ea.
    set (body := fun (acc : nat * bool) (t' : nat) => bindP (eq_th t' t1) (fun b => done (Ok (if b : bool then (fst acc, true, true) else (S (fst acc), false, false))))
           : P (nat * bool * bool)).
    set (fin := fun r : res (nat * bool) => match r with
        | Ok r => if snd r then act (remove_at i (fst r)) else done (Raise ValueError) | Raise e => Done (Raise e) end : P unit).
    set (kn := fun r : res unit => match r with Ok x => Done (Ok None) | Raise e0 => Done (Raise e0) end : P (option (tensor K))).
    set (k0 := fun r => bindP (thread X W []) (fun rs => Done (Ok (r :: rs)))).
    set (wrap := fun q : P (nat * bool) => after_any (after_any (after_any q fin) kn) k0).
    set (ps := map (thread X W) [[Do (Deregister i t1)]; [Do (Deregister i t0)]]).
    assert (S1 : steps s (thread X W [Do (Deregister i t1)]) s (wrap (iter i body 1 (body (0%nat, false) ta)))).
    { change (thread X W [Do (Deregister i t1)]) with (wrap (for_terms i (0%nat, false) body)).
      unfold wrap. apply steps_after, steps_after, steps_after. unfold for_terms. rewrite iter_unfold. constructor. rewrite Ei, Eo. constructor. }
    destruct (steps_pool 0 _ _ _ _ S1 ps eq_refl) as (n1 & E1).
    pose proof (thread_refines [Deregister i t0] eq_refl s) as S2. cbn [map sequentially] in S2. rewrite R0 in S2. cbn [fst snd] in S2.
    set (ps1 := ModelStore.set_nth ps 0 _) in E1.
    destruct (steps_pool 1 _ _ _ _ S2 ps1 eq_refl) as (n2 & E2).
    set (ps2 := ModelStore.set_nth ps1 1 _) in E2.
    assert (S3 : steps s0 (wrap (iter i body 1 (body (0%nat, false) ta))) s0 (Done (Ok [Raise ValueError]))).
    { unfold wrap. replace (Done (Ok [Raise ValueError])) with (after_any (after_any (Done (Raise ValueError)) kn) k0).
      - apply steps_after, steps_after. replace (Done (Raise ValueError)) with (after_any (Done (Ok (1%nat, false))) fin) by now rewrite after_done.
        apply steps_after. eapply steps_trans.
        + apply steps_iter. assert (Rb : refines (body (0%nat, false) ta) (scanM t1 (0%nat, false) ta)).
          { unfold body, scanM. apply refines_bind; [unfold eq_th, eq_obj; ref|]. intros. ref. }
          apply Rb.
        + unfold scanM, bindM. rewrite (eq_now s0 ta t1 v0 w1 (T _ _ _ A0 B0 Ha) (T _ _ _ A0 B0 H1)), E01.
          cbn [fst snd ret]. rewrite iter_unfold. constructor.
          unfold the_disp in P0i. destruct (nth_error (s_disps s0) i) as [o0|]; [|discriminate].
          destruct (all (map (the_term s0) (o_terms o0))) as [vs|] eqn:Ea0; [|discriminate].
          assert (Ev : vs = [v1]) by (apply (f_equal (option_map p_terms)) in P0i; cbn [option_map with_terms p_terms] in P0i; congruence).
          subst vs. destruct (o_terms o0) as [|tc [|td l]]; cbn [map] in Ea0; cbn [nth_error]; try constructor.
          apply all_cons in Ea0 as (? & ? & _ & Ea0 & Ee). injection Ee as _ <-. apply all_cons in Ea0 as (? & ? & _ & _ & Ee). discriminate Ee.
      - rewrite after_done. unfold kn. rewrite after_done. unfold k0. cbn [thread]. now rewrite bind_done. }
    destruct (steps_pool 0 _ _ _ _ S3 ps2 eq_refl) as (n3 & E3).
    exists (repeat 0%nat n1 ++ repeat 1%nat n2 ++ repeat 0%nat n3)%list. unfold concurrently. fold ps s.
    unfold interleave in *. rewrite !fold_left_app, E1, E2, E3. split; [reflexivity|]. split; [reflexivity|exact P0i].
Qed.
End P.

(** [d = DispD4(); t1, t2 = two terms like those of the class]: the object has a two-body and a
    three-body term *)
Section E.
Context {N : Num} (X : Ext (sc N)) (W : World N).
Definition two_terms : list (event N) :=
  [NewDisp TERMS_D4 (MKey "d4") no_kw None None; NewTerm default_two_body; NewTerm (default_atm D4ATMApprox)].
Example C56_deregister_race_example :
  exists p v0 v1 w0 w1, let s := after X W two_terms in
  the_disp s 0 = Some p /\ p_terms p = [v0; v1] /\ the_term s 2 = Some w0 /\ the_term s 3 = Some w1 /\
  term_eqb v0 w0 = true /\ term_eqb v1 w1 = true /\ term_eqb v0 w1 = false.
Proof. do 5 eexists. cbv zeta. repeat split. Qed.
Example C56_uninterrupted_example : let s := after X W two_terms in
  snd (sequentially X W s [Deregister 0 2; Deregister 0 2; Register 0 2; Deregister 0 3]) = [Ok None; Raise ValueError; Ok None; Ok None] /\
  option_map (fun o => o_terms o) (nth_error (s_disps (fst (sequentially X W s [Deregister 0 2; Register 0 2]))) 0) = Some [1; 2]%nat.
Proof. split; reflexivity. Qed.
End E.
Print Assumptions C56_uninterrupted_thread.
Print Assumptions C56_deregister_race.
