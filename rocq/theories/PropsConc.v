(** * C56: threads *)
From Coq Require Import List Arith ZArith QArith Bool String Reals Lia.
From Verif Require Import Py Tensor Scalar RInst ModelExt ModelUtils ModelDamping ModelModels
  ModelTerms ModelDisp ModelStore ModelConc SpecCall SpecStore SpecConc StoreP StoreC ConcP
  Inst InstW PropsStore.
Import ListNotations.
Open Scope string_scope.

Section P.
Context {N : Num} (X : Ext (sc N)) (W : World N).
Notation K := (sc N).
Notation store := (store N).
Notation P := (P N).

Lemma result_call (s s' : store) e : is_call e = true -> possible s e = true -> wf s -> env (List.length (s_disps s)) [] s s' ->
  result X W s' e = result X W s e.
Proof.
  intros Hc Hp Hw E.
  destruct (call_step X W s e Hw Hc Hp) as (s1 & E1 & _). unfold result. rewrite E1. cbn [snd].
  destruct e; try discriminate; cbn [possible] in Hp; cbn [do pure_result]; apply Nat.ltb_lt in Hp.
  - destruct (wf_disp s i Hw Hp) as (p & Ep). rewrite Ep.
    pose proof (env_disp _ _ _ _ _ _ E (or_introl Hp) Ep) as Ep'.
    destruct (calculate_comp X W s' i p (a_numbers a) (a_positions a) (a_charge a) (a_param a) (a_cutoff a) (a_q a) (a_rcov a) (a_r4r2 a) (a_rvdw a) Ep' s' (sim_refl s')) as (s2 & E2 & _).
    unfold SpecStore.value. now rewrite E2.
  - destruct (wf_damping s l Hp) as (d & Ed). rewrite Ed. pose proof (proj1 E _ _ Ed) as Ed'.
    destruct (damping_call_comp s' l d dist radii order only param Ed' s' (sim_refl s')) as (s2 & E2 & _).
    unfold SpecStore.value. now rewrite E2.
  - destruct (wf_damping s l Hp) as (d & Ed). rewrite Ed. pose proof (proj1 E _ _ Ed) as Ed'.
    destruct (dftd4_result X W s' l d a model cn cf Ed') as (s2 & E2 & _).
    unfold SpecStore.value, collect. now rewrite E2.
Qed.

Section S0.
Variable s0 : store.
Hypothesis Hw : wf s0.
Notation f := (List.length (s_disps s0)).
Notation env := (env f). Notation okown := (okown f). Notation runs := (runs f). Notation since := (since f).

Lemma alone_call e : is_call e = true -> possible s0 e = true -> alone X W s0 (Do e) = pure_result X W s0 e.
Proof. intros Hc Hp. cbn [alone]. unfold result. destruct (call_step X W s0 e Hw Hc Hp) as (s1 & -> & _). reflexivity. Qed.

Lemma alloc_value {A} (Q : list nat -> store -> res A -> Prop) own s p :
  runs Q own s p -> (forall own s r, Q own s r -> env [] s0 s /\ okown own s /\ exists a, r = Ok a) ->
  runs (since s0 (gives (Ok None))) own s (no_value p).
Proof.
  intros H HQ. unfold no_value, value. eapply runs_bind; [exact H| |].
  - intros own1 s1 a Ha. destruct (HQ _ _ _ Ha) as (E1 & O1 & _). constructor. intros s2 E2.
    split; [|split; [now apply okown_env with s1|reflexivity]]. apply env_trans with s1; auto. now apply env_weaken with own1.
  - intros own1 s1 a Ha. destruct (HQ _ _ _ Ha) as (_ & _ & x & Ex). discriminate.
Qed.

Lemma job_runs own s j : env [] s0 s -> okown own s -> independent s0 j = true ->
  runs (since s0 (gives (alone X W s0 j))) own s (program X W j).
Proof.
  intros Hs Ho Hi. destruct j as [e|ts model kw cnf cnk extra a].
  2:{ cbn [independent alone] in *. rewrite forallb_forall in Hi.
      destruct (all_map_some (described s0) (ts ++ extra)) as (vs & Ev).
      - intros t Ht. specialize (Hi t Ht). apply Nat.ltb_lt in Hi. destruct (wf_damping s0 _ Hi) as (d & Ed).
        unfold described. rewrite Ed. eexists. reflexivity.
      - rewrite Ev. now apply own_runs. }
  destruct (is_call e) eqn:Hc.
  { assert (Hp : possible s0 e = true) by (destruct e; try discriminate; exact Hi).
    rewrite alone_call by auto. destruct e; try discriminate; cbn [possible] in Hp; apply Nat.ltb_lt in Hp; cbn [pure_result program].
    - destruct (wf_disp s0 i Hw Hp) as (p & Ep). rewrite Ep. apply value_runs. apply calc_runs; [exact Hs|exact Ho|now left|].
      exact (env_disp f [] s0 s i p Hs (or_introl Hp) Ep).
    - destruct (wf_damping s0 l Hp) as (d & Ed). rewrite Ed. apply value_runs. apply calm_runs; auto.
      apply (damping_call_calm f own s l d); [exact (proj1 Hs _ _ Ed)|apply env_refl].
    - destruct (wf_damping s0 l Hp) as (d & Ed). rewrite Ed. apply value_runs. now apply dftd4_runs. }
  destruct e; try discriminate; cbn [independent alone program] in *.
  - eapply alloc_value; [apply (runs_alloc_damp f own s s d); [apply env_refl|exact Ho]|].
    intros own1 s1 r (-> & E & O & l & -> & _). split; [apply env_trans with s; [exact Hs|now apply env_weaken with own]|]. split; [exact O|now exists l].
  - eapply alloc_value; [apply (runs_alloc_term f own s s t); [apply env_refl|exact Ho]|].
    intros own1 s1 r (-> & E & O & l & -> & _). split; [apply env_trans with s; [exact Hs|now apply env_weaken with own]|]. split; [exact O|now exists l].
  - assert (Er : result X W s0 (NewDisp TERMS model kw cn_fn cn_kw) = match new_disp W [] model kw cn_fn cn_kw with Ok _ => Ok None | Raise e => Raise e end).
    { destruct (possible_terms s0 TERMS Hi) as (vs & Ev). pose proof (new_disp_step X W s0 TERMS model kw cn_fn cn_kw vs Ev) as Q.
      unfold result. destruct (new_disp W [] model kw cn_fn cn_kw); [destruct Q as (s' & -> & _)|rewrite Q]; reflexivity. }
    rewrite Er. unfold no_value, value. eapply runs_bind; [apply (new_disp_runs W f s0 own s TERMS model kw cn_fn cn_kw Hs Ho)| |].
    + intros own1 s1 i (E1 & O1 & H1). destruct (new_disp W [] model kw cn_fn cn_kw) as [conf|e]; [|discriminate].
      constructor. intros s2 E2. split; [|split; [now apply okown_env with s1|reflexivity]]. apply env_trans with s1; auto. now apply env_weaken with own1.
    + intros own1 s1 e (E1 & O1 & H1). destruct (new_disp W [] model kw cn_fn cn_kw) as [conf|e']; [destruct H1 as (i & Ei & _); discriminate|].
      injection H1 as <-. now apply raise_runs.
Qed.

Lemma thread_runs jobs : forall own s, env [] s0 s -> okown own s -> forallb (independent s0) jobs = true ->
  runs (since s0 (gives (Ok (map (alone X W s0) jobs)))) own s (thread X W jobs).
Proof.
  induction jobs as [|j js IH]; intros own s Hs Ho Hi; cbn [thread].
  - constructor. intros s' E. split; [|split; [now apply okown_env with s|reflexivity]]. apply env_trans with s; auto. now apply env_weaken with own.
  - cbn [forallb] in Hi. apply andb_true_iff in Hi as (Hj & Hjs).
    eapply runs_after; [apply (job_runs own s j Hs Ho Hj)|]. intros own1 s1 r (E1 & O1 & ->).
    eapply runs_bind; [apply (IH own1 s1 E1 O1 Hjs)| |].
    + intros own2 s2 rs (E2 & O2 & Er). injection Er as ->. constructor. intros s3 E3.
      split; [|split; [now apply okown_env with s2|reflexivity]]. apply env_trans with s2; auto. now apply env_weaken with own2.
    + intros own2 s2 e (_ & _ & Er). discriminate.
Qed.

(** ** The invariant of the pool *)
Context {A : Type} (expect : nat -> res A).
Definition inv (owns : nat -> list nat) (c : pool N A) : Prop :=
  env [] s0 (shared c) /\
  (forall k p, nth_error (progs c) k = Some p ->
     okown (owns k) (shared c) /\ runs (since s0 (gives (expect k))) (owns k) (shared c) p) /\
  (forall j k i, j <> k -> (j < List.length (progs c))%nat -> (k < List.length (progs c))%nat -> In i (owns j) -> ~ In i (owns k)).

Lemma nth_some_lt {B} (l : list B) k x : nth_error l k = Some x -> (k < List.length l)%nat.
Proof. intros E. apply nth_error_Some. congruence. Qed.

Lemma tick_inv owns c k : inv owns c -> exists owns', inv owns' (tick c k) /\
  List.length (progs (tick c k)) = List.length (progs c) /\
  (forall j, j <> k -> owns' j = owns j /\ nth_error (progs (tick c k)) j = nth_error (progs c) j /\
     ((j < List.length (progs c))%nat -> env (owns j) (shared c) (shared (tick c k)))) /\
  (forall u n own', nth_error (progs c) k = Some (Step u n) ->
     (forall s', env (owns k) (shared c) s' -> guar (owns k) (own' s') s' (u s')) ->
     (forall s', env (owns k) (shared c) s' -> runs (since s0 (gives (expect k))) (own' s') (u s') (n s')) ->
     exists owns'', inv owns'' (tick c k) /\ owns'' k = own' (shared c)).
Proof.
  intros (I1 & I2 & I3). unfold tick.
  destruct (nth_error (progs c) k) as [[r|u n]|] eqn:Ek.
  1,3: exists owns; split; [split; [|split]; auto|]; split; [reflexivity|]; split; [intros j _; split; [reflexivity|]; split; [reflexivity|]; intros _; apply env_refl|discriminate].
  pose proof (I2 k _ Ek) as (Ok & Rk).
  assert (Lk : (k < List.length (progs c))%nat) by now apply nth_some_lt with (Step u n).
  (* a step of thread [k] that obeys the guarantee *)
  assert (G : forall own', guar (owns k) own' (shared c) (u (shared c)) ->
     runs (since s0 (gives (expect k))) own' (u (shared c)) (n (shared c)) ->
     inv (fun j => if Nat.eqb j k then own' else owns j)
         (mkPool (u (shared c)) (ModelStore.set_nth (progs c) k (n (shared c)))) /\
     (forall j, j <> k -> (j < List.length (progs c))%nat -> env (owns j) (shared c) (u (shared c)))).
  { intros own' Hg Hr.
    assert (Ej : forall j, j <> k -> (j < List.length (progs c))%nat -> env (owns j) (shared c) (u (shared c))).
    { intros j Nj Lj. destruct Hg as (G1 & G2 & G3 & G4 & _). split; [|split; [|split]]; auto.
      intros i o Hi Ei. apply G3; auto. destruct Hi as [Hi|Hi].
      - intros Ii. destruct Ok as (_ & Ok). specialize (Ok i Ii). lia.
      - now apply (I3 j k i). }
    split; [|exact Ej]. split; [|split]; cbn [shared progs].
    - apply env_trans with (shared c); auto. now apply guar_env with (owns k) own'.
    - intros j p. rewrite set_nth_nth by auto. destruct (Nat.eqb_spec j k) as [->|Nj].
      + intros E. injection E as <-. split; [now apply okown_guar with (owns k) (shared c)|exact Hr].
      + intros E. destruct (I2 j p E) as (Oj & Rj). assert (Lj : (j < List.length (progs c))%nat) by now apply nth_some_lt with p.
        split; [apply okown_env with (shared c)|apply runs_env with (shared c)]; auto.
    - rewrite set_nth_length by auto. intros j j' i Nj Lj Lj' Hi Hi'.
      destruct Hg as (_ & _ & _ & _ & G5).
      destruct (Nat.eqb_spec j k) as [->|Nk], (Nat.eqb_spec j' k) as [->|Nk'].
      + now apply Nj.
      + destruct (G5 i Hi) as ([H|H] & _); [now apply (I3 k j' i)|].
        destruct (nth_error (progs c) j') as [p'|] eqn:E'; [|apply nth_error_None in E'; lia].
        destruct (I2 j' p' E') as ((_ & O') & _). specialize (O' i Hi'). lia.
      + destruct (G5 i Hi') as ([H|H] & _); [now apply (I3 k j i); auto|].
        destruct (nth_error (progs c) j) as [p'|] eqn:E'; [|apply nth_error_None in E'; lia].
        destruct (I2 j p' E') as ((_ & O') & _). specialize (O' i Hi). lia.
      + now apply (I3 j j' i). }
  inversion Rk as [|own s u' n' own' H1 H2]; subst. 
  destruct (G (own' (shared c)) (H1 _ (env_refl _ _ _)) (H2 _ (env_refl _ _ _))) as (G1 & G2).
  exists (fun j => if Nat.eqb j k then own' (shared c) else owns j). split; [exact G1|]. cbn [progs shared].
  split; [now apply set_nth_length|]. split.
  - intros j Nj. destruct (Nat.eqb_spec j k) as [|_]; [contradiction|]. split; [reflexivity|]. split; [|now apply G2].
    rewrite set_nth_nth by auto. destruct (Nat.eqb_spec j k); [contradiction|reflexivity].
  - intros u0 n0 own0 E0 H10 H20. injection E0 as <- <-.
    destruct (G (own0 (shared c)) (H10 _ (env_refl _ _ _)) (H20 _ (env_refl _ _ _))) as (G3 & _).
    eexists. split; [exact G3|]. cbn beta. now rewrite Nat.eqb_refl.
Qed.

Lemma interleave_inv schedule : forall owns c, inv owns c -> exists owns', inv owns' (interleave schedule c).
Proof.
  induction schedule as [|k l IH]; intros owns c H; [now exists owns|]. cbn [interleave fold_left].
  destruct (tick_inv owns c k H) as (owns' & H' & _). exact (IH owns' _ H').
Qed.

(** every fair schedule lets a thread finish *)
Definition prefix (sched : nat -> nat) (n : nat) : list nat := map sched (seq 0 n).
Lemma prefix_S sched n : prefix sched (S n) = (prefix sched n ++ [sched n])%list.
Proof. unfold prefix. rewrite seq_S, map_app. reflexivity. Qed.
Lemma interleave_S sched n (c : pool N A) : interleave (prefix sched (S n)) c = tick (interleave (prefix sched n) c) (sched n).
Proof. rewrite prefix_S. unfold interleave. now rewrite fold_left_app. Qed.

Lemma fair_finish sched k c0 : (forall m, exists n, (m <= n)%nat /\ sched n = k) ->
  forall own s p, runs (since s0 (gives (expect k))) own s p -> forall m owns,
  inv owns (interleave (prefix sched m) c0) -> owns k = own ->
  nth_error (progs (interleave (prefix sched m) c0)) k = Some p ->
  env own s (shared (interleave (prefix sched m) c0)) ->
  exists n, nth_error (progs (interleave (prefix sched n) c0)) k = Some (Done (expect k)).
Proof.
  intros Hf own s p H. induction H as [own s r Hr|own s u n own' H1 H2 IH]; intros m owns Hi Ho Hp He.
  - destruct (Hr _ He) as (_ & _ & ->). now exists m.
  - destruct (Hf m) as (n1 & L1 & E1).
    (* up to the next step of [k] *)
    assert (G : forall d m owns, (n1 = m + d)%nat -> inv owns (interleave (prefix sched m) c0) -> owns k = own ->
       nth_error (progs (interleave (prefix sched m) c0)) k = Some (Step u n) ->
       env own s (shared (interleave (prefix sched m) c0)) ->
       exists n, nth_error (progs (interleave (prefix sched n) c0)) k = Some (Done (expect k))).
    { clear m owns Hi Ho Hp He L1. induction d as [|d IHd]; intros m owns Hd Hi Ho Hp He.
      - assert (m = n1) by lia. subst m. destruct (tick_inv owns _ k Hi) as (_ & _ & _ & _ & Hk).
        set (c := interleave (prefix sched n1) c0) in *.
        destruct (Hk u n own' Hp) as (owns2 & I2 & O2).
        { intros s' E. rewrite Ho in *. apply H1. now apply env_trans with (shared c). }
        { intros s' E. rewrite Ho in *. apply H2. now apply env_trans with (shared c). }
        apply (IH (shared c) He (S n1) owns2).
        + rewrite interleave_S, E1. exact I2.
        + exact O2.
        + rewrite interleave_S, E1. fold c. unfold tick. rewrite Hp. cbn [progs]. rewrite set_nth_nth by now apply nth_some_lt with (Step u n).
          now rewrite Nat.eqb_refl.
        + rewrite interleave_S, E1. fold c. unfold tick. rewrite Hp. cbn [shared]. apply env_refl.
      - destruct (Nat.eq_dec (sched m) k) as [Em|Nm].
        + (* an earlier step of [k] *)
          destruct (tick_inv owns _ k Hi) as (_ & _ & _ & _ & Hk).
          set (c := interleave (prefix sched m) c0) in *.
          destruct (Hk u n own' Hp) as (owns2 & I2 & O2).
          { intros s' E. rewrite Ho in *. apply H1. now apply env_trans with (shared c). }
          { intros s' E. rewrite Ho in *. apply H2. now apply env_trans with (shared c). }
          apply (IH (shared c) He (S m) owns2).
          * rewrite interleave_S, Em. exact I2.
          * exact O2.
          * rewrite interleave_S, Em. fold c. unfold tick. rewrite Hp. cbn [progs]. rewrite set_nth_nth by now apply nth_some_lt with (Step u n).
            now rewrite Nat.eqb_refl.
          * rewrite interleave_S, Em. fold c. unfold tick. rewrite Hp. cbn [shared]. apply env_refl.
        + destruct (tick_inv owns _ (sched m) Hi) as (owns' & I' & _ & Hj & _).
          destruct (Hj k (not_eq_sym Nm)) as (Oj & Pj & Ej).
          apply (IHd (S m) owns'); [lia| | | |]; rewrite ?interleave_S.
          * exact I'.
          * now rewrite Oj.
          * now rewrite Pj.
          * eapply env_trans; [exact He|]. rewrite <- Ho. apply Ej. now apply nth_some_lt with (Step u n). }
    apply (G (n1 - m)%nat m owns); auto. lia.
Qed.
End S0.

(** *** C56 *)
Lemma start_inv history threads : forallb (forallb (independent (after X W history))) threads = true ->
  inv (after X W history) (fun k => Ok (map (alone X W (after X W history)) (nth k threads []))) (fun _ => [])
    (mkPool (after X W history) (map (thread X W) threads)).
Proof.
  intros H. pose proof (after_wf X W history) as Hw. set (s := after X W history) in *.
  assert (O : okown (List.length (s_disps s)) [] s) by (split; [auto|intros i []]).
  split; [apply env_refl|]. split; cbn [shared progs].
  - intros k p E. rewrite nth_error_map in E. destruct (nth_error threads k) as [jobs|] eqn:Ek; [|discriminate]. injection E as <-.
    split; [exact O|]. rewrite (nth_error_nth threads k [] Ek). apply thread_runs; auto; [apply env_refl|].
    rewrite forallb_forall in H. apply H. eapply nth_error_In; eauto.
  - intros j k i _ _ _ [].
Qed.

(** Whatever the interleaving, every job of every thread has the result that it has alone. *)
Theorem C56_concurrent_calls : forall history threads schedule k jobs rs,
  let s := after X W history in
  forallb (forallb (independent s)) threads = true ->
  nth_error threads k = Some jobs ->
  results (concurrently X W history threads schedule) k = Some rs ->
  rs = map (alone X W s) jobs.
Proof.
  intros history threads schedule k jobs rs s Hi Hk Hr. pose proof (start_inv history threads Hi) as H.
  destruct (interleave_inv _ _ schedule _ _ H) as (owns & (_ & I2 & _)). unfold results in Hr.
  unfold concurrently in Hr. destruct (nth_error (progs (interleave schedule _)) k) as [p|] eqn:Ep; [|discriminate].
  destruct (I2 k p Ep) as (_ & R). destruct p as [[l|e]|]; try discriminate. injection Hr as ->.
  inversion R as [own s' r Q|]; subst. destruct (Q _ (env_refl _ _ _)) as (_ & _ & E). injection E as ->.
  now rewrite (nth_error_nth threads k [] Hk).
Qed.

(** No thread waits for ever: with every schedule in which the thread occurs again and again, it
    finishes. *)
Theorem C56_every_fair_schedule_finishes : forall history threads k jobs (schedule : nat -> nat),
  forallb (forallb (independent (after X W history))) threads = true ->
  nth_error threads k = Some jobs ->
  (forall m, exists n, (m <= n)%nat /\ schedule n = k) ->
  exists n rs, results (concurrently X W history threads (map schedule (seq 0 n))) k = Some rs.
Proof.
  intros history threads k jobs sched Hi Hk Hf. pose proof (start_inv history threads Hi) as H.
  pose proof H as (_ & I2 & _).
  assert (Ep : nth_error (progs (mkPool (after X W history) (map (thread X W) threads))) k = Some (thread X W jobs)).
  { cbn [progs]. rewrite nth_error_map, Hk. reflexivity. }
  destruct (I2 _ _ Ep) as (_ & R).
  destruct (fair_finish _ _ sched k (mkPool (after X W history) (map (thread X W) threads)) Hf _ _ _ R 0 _ H eq_refl Ep (env_refl _ _ _)) as (n & En).
  exists n. unfold results, concurrently. fold (prefix sched n). rewrite En. eauto.
Qed.

(** At every moment, also if threads have been stopped in the middle of a call, the objects that
    existed before are what they were, and calls give what they gave before. *)
Theorem C56_objects_survive : forall history threads schedule,
  let s := after X W history in
  forallb (forallb (independent s)) threads = true ->
  let s' := shared (concurrently X W history threads schedule) in
  (forall i p, the_disp s i = Some p -> the_disp s' i = Some p) /\
  (forall t v, the_term s t = Some v -> the_term s' t = Some v) /\
  (forall l d, the_damping s l = Some d -> the_damping s' l = Some d) /\
  (forall e, is_call e = true -> possible s e = true -> result X W s' e = result X W s e).
Proof.
  intros history threads schedule s Hi s'. pose proof (start_inv history threads Hi) as H.
  destruct (interleave_inv _ _ schedule _ _ H) as (owns & (E & _)). fold s in E.
  change (env (List.length (s_disps s)) [] s s') in E.
  split; [|split; [|split]].
  - intros i p Hp. apply (env_disp _ _ _ _ _ _ E (or_introl (the_disp_len _ _ _ Hp)) Hp).
  - intros t v. apply (env_term _ _ _ _ _ _ E).
  - apply (proj1 E).
  - intros e Hc Hp. apply result_call; auto. apply after_wf.
Qed.
End P.

(** ** An example of use: three threads that share [Disp] objects and the default damping object *)
Section Ex.
Context (eps mx : R).
Notation N := (RN eps mx).
Notation X := (Xex eps mx : Ext (sc N)).
Notation W := (Wex eps mx : World N).
Definition some_threads : list (list (job N)) :=
  [[Do (Calculate 0 mol_call); Do (CallDftd4 mol_call (MKey "d4") (w_cn_d4 W) (w_erf_count W) dftd4_default_damping)];
   [Own TERMS_D4 (MKey "d4") no_kw None None [default_two_body] mol_call; Do (NewDamping (ZeroDamping X)); Do (Calculate 0 mol_call)];
   [Do (NewDisp TERMS_D4 (MKey "D4") no_kw None None); Do (Calculate 1 mol_call)]].
Lemma round_robin m k : (k < 3)%nat -> exists n, (m <= n)%nat /\ (n mod 3)%nat = k.
Proof.
  intros Hk. exists (k + m * 3)%nat. split; [lia|]. rewrite Nat.mod_add by lia. now apply Nat.mod_small.
Qed.
(** what the history of the example leaves: two objects, the terms of the package, its dampings *)
Example C56_example :
  forallb (forallb (independent (after X W (a_history eps mx)))) some_threads = true /\
  (forall k, (k < 3)%nat -> exists n rs,
     results (concurrently X W (a_history eps mx) some_threads (map (fun m => m mod 3)%nat (seq 0 n))) k = Some rs).
Proof.
  assert (H : forallb (forallb (independent (after X W (a_history eps mx)))) some_threads = true).
  { pose proof (C43_history_example eps mx) as (Hc & _ & _ & Hd).
    pose proof (C17_history_example eps mx) as (_ & H0 & H1 & _ & _ & _ & _ & _).
    clear Hc. apply the_disp_len in H0. apply the_disp_len in H1. unfold the_damping in Hd.
    generalize dependent (after X W (a_history eps mx)). intros s Hd H0 H1.
    destruct (nth_error (s_damp s) dftd4_default_damping) as [o|] eqn:E; [|discriminate].
    assert (D : (dftd4_default_damping < List.length (s_damp s))%nat) by (apply nth_error_Some; congruence).
    unfold dftd4_default_damping in D.
    cbn [forallb some_threads independent possible TERMS_D4 default_two_body o_damping app]. unfold exists_damp, dftd4_default_damping.
    repeat (apply andb_true_iff; split); try reflexivity; apply Nat.ltb_lt; lia. }
  split; [exact H|]. intros k Hk.
  destruct (nth_error some_threads k) as [jobs|] eqn:E.
  - eapply (C56_every_fair_schedule_finishes X W); eauto. intros m. now apply round_robin.
  - apply nth_error_None in E. cbn [some_threads List.length] in E. lia.
Qed.
End Ex.

Print Assumptions C56_concurrent_calls.
Print Assumptions C56_every_fair_schedule_finishes.
Print Assumptions C56_objects_survive.
