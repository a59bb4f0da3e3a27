(** * [get_params] in several threads: number of steps, number of times a file is read *)
From Coq Require Import List Arith String QArith Bool Lia.
From Verif Require Import Py DataToml ModelLoader ModelLoaderConc SpecLoader SpecLoaderConc LoaderP LoaderConcP.
Import ListNotations.
Open Scope string_scope.
Open Scope prog_scope.
Open Scope nat_scope.

(** ** Number of steps *)
Fixpoint within {A} (n : nat) (p : prog A) : Prop :=
  match p with
  | PDone _ => True
  | PStep _ nx => match n with 0 => False | S n' => forall s, within n' (nx s) end
  end.
Lemma within_mono {A} (p : prog A) : forall n n', n <= n' -> within n p -> within n' p.
Proof.
  induction p as [r|u nx IH]; intros [|n] [|n'] L H; cbn [within] in *; auto; try tauto; try lia.
  intros s. apply (IH s n); [lia|apply H].
Qed.
Lemma within_bind {A B} (p : prog A) (k : A -> prog B) b : (forall x, within b (k x)) ->
  forall a, within a p -> within (a + b) (pbind p k).
Proof.
  intros K. induction p as [[x|e]|u nx IH]; intros a H; cbn [pbind].
  - apply (within_mono _ b); [lia|apply K].
  - destruct (a + b); exact I.
  - destruct a as [|a]; [destruct H|]. cbn [within plus] in *. intros s. now apply IH.
Qed.
Fixpoint dicts (t : toml) : nat :=
  match t with TD d => S ((fix go d := match d with [] => 0 | (_, t) :: d => dicts t + go d end) d) | _ => 0 end.
Definition dicts_list := fix go (d : list (string * toml)) := match d with [] => 0 | (_, t) :: d => dicts t + go d end.
Lemma within_store t : within (dicts t) (store_th t).
Proof.
  induction t as [a|a|d IH] using toml_ind'; [exact I|exact I|].
  change (store_th (TD d)) with (d' <~ store_list_th d ;; l <~ new_dict d' ;; PDone (Ok (HR l))).
  change (dicts (TD d)) with (S (dicts_list d)). replace (S (dicts_list d)) with (dicts_list d + 1) by lia.
  apply within_bind; [intros x; cbn; auto|].
  induction d as [|[k t] d IHd]; [exact I|]. cbn [store_list_th dicts_list]. apply within_bind.
  - intros v. replace (dicts_list d) with (dicts_list d + 0) by lia. apply within_bind; [intros; exact I|].
    apply IHd. intros. eapply IH. right. eassumption.
  - eapply IH. left. reflexivity.
Qed.
Lemma within_peek {A} (f : heap -> res A) : within 1 (peek f). Proof. intros s. exact I. Qed.
Lemma within_done {A} (r : res A) n : within n (PDone r). Proof. destruct n; exact I. Qed.
Lemma within_lookup table m name variant keep : within 12 (get_params_in_th table m name variant keep).
Proof.
  unfold get_params_in_th. change 12 with (4 + 8). apply within_bind.
  - intros section. change 8 with (2 + 6). apply within_bind.
    + intros v. change 6 with (1 + 5). apply within_bind; [|apply within_peek]. intros x.
      change 5 with (1 + 4). apply within_bind; [|apply within_peek]. intros b.
      change 4 with (0 + 4). apply within_bind; [|apply within_done]. intros _.
      change 4 with (1 + 3). apply within_bind; [|apply within_peek]. intros block.
      change 3 with (1 + 2). apply within_bind; [|apply within_peek]. intros out. apply within_done.
    + destruct variant; [apply within_done|]. change 2 with (1 + 1). apply within_bind; [|apply within_peek]. intros d.
      change 1 with (1 + 0). apply within_bind; [|apply within_peek]. intros; apply within_done.
  - assert (D : within 4 (default_section <~ peek (fun h => item h table "default") ;;
        variant_section <~ peek (fun h => item h default_section (meth_value m)) ;;
        b <~ peek (fun h => contains h variant_section variant) ;;
        _ <~ guard b KeyError ;;
        peek (fun h => item h default_section "parameter"))).
    { change 4 with (1 + 3). apply within_bind; [|apply within_peek]. intros d.
      change 3 with (1 + 2). apply within_bind; [|apply within_peek]. intros x.
      change 2 with (1 + 1). apply within_bind; [|apply within_peek]. intros b.
      change 1 with (0 + 1). apply within_bind; [|apply within_done]. intros _. apply within_peek. }
    assert (E : forall name, within 4 (func_section <~ peek (fun h => item h table "parameter") ;;
        b <~ peek (fun h => contains h func_section (Some name)) ;;
        _ <~ guard b KeyError ;;
        disp <~ peek (fun h => item h func_section (casefold name)) ;;
        b <~ peek (fun h => contains h disp (Some (meth_value m))) ;;
        _ <~ guard b KeyError ;;
        PDone (Ok disp))).
    { intros n. change 4 with (1 + 3). apply within_bind; [|apply within_peek]. intros d.
      change 3 with (1 + 2). apply within_bind; [|apply within_peek]. intros x.
      change 2 with (0 + 2). apply within_bind; [|apply within_done]. intros _.
      change 2 with (1 + 1). apply within_bind; [|apply within_peek]. intros b.
      change 1 with (1 + 0). apply within_bind; [|apply within_peek]. intros b'.
      change 0 with (0 + 0). apply within_bind; [|apply within_done]. intros _. apply within_done. }
    destruct name as [name|]; [|exact D]. specialize (E name).
    destruct name as [|[[] [] [] [] [] [] [] []] name]; try exact E.
    do 7 (try (destruct name as [|[[] [] [] [] [] [] [] []] name]; try exact E)). exact D.
Qed.

Section Q.
Context (files : meth -> option toml).
Definition file_dicts (m : meth) : nat := match files m with Some t => dicts t | None => 0 end.
Definition enough : nat := 16 + file_dicts d3 + file_dicts d4 + file_dicts d5.
Lemma within_call method name variant keep : within enough (get_params_th files method name variant keep).
Proof.
  unfold get_params_th. destruct (meth_of method) as [m|e]; [|apply within_done].
  apply (within_mono _ ((3 + file_dicts m) + (12 + 1))); [unfold enough; destruct m; lia|].
  apply within_bind.
  - intros t. apply within_bind; [intros d s; exact I|]. apply within_lookup.
  - unfold load_th, file_dicts. change 3 with (1 + 2). rewrite <- Nat.add_assoc. apply within_bind; [|intros s; exact I].
    intros [l|]; [apply within_done|]. destruct (files m) as [t|]; [|apply within_done].
    replace (2 + dicts t) with (1 + (dicts t + 1)) by lia. apply within_bind; [|intros s; exact I]. intros _.
    apply within_bind; [|apply within_store]. intros [x|x|l]; try apply within_done. intros s. exact I.
Qed.

Lemma happens_calls y a j p : nth_error (y_calls y) j = Some p ->
  exists p', nth_error (y_calls (happens files y a)) j = Some p' /\
    (a <> Go j -> p' = p) /\ (a = Go j -> match p with PDone _ => p' = p | PStep _ n => p' = n (y_state y) end).
Proof.
  intros E. assert (L : j < List.length (y_calls y)) by (apply nth_error_Some; congruence). destruct a as [e|k].
  - exists p. split; [|split; [auto|discriminate]].
    destruct e; cbn [happens y_calls]; auto. now rewrite nth_error_app1.
  - cbn [happens]. destruct (nth_error (y_calls y) k) as [[r|u n]|] eqn:Ek.
    + exists p. split; [exact E|]. split; [auto|]. intros Ej. injection Ej as ->. rewrite Ek in E. injection E as <-. reflexivity.
    + cbn [y_calls]. assert (Lk : k < List.length (y_calls y)) by (apply nth_error_Some; congruence).
      rewrite set_nth_nth by auto. destruct (Nat.eqb_spec j k) as [->|Ne].
      * rewrite Ek in E. injection E as <-. eexists. split; [reflexivity|]. split; [congruence|reflexivity].
      * exists p. split; [exact E|]. split; [auto|]. congruence.
    + exists p. split; [exact E|]. split; [auto|]. intros Ej. injection Ej as ->. congruence.
Qed.
Lemma finishes l' : forall y k p n, nth_error (y_calls y) k = Some p -> within n p -> n <= given k l' ->
  exists r, nth_error (y_calls (fold_left (happens files) l' y)) k = Some (PDone r).
Proof.
  induction l' as [|a l' IH]; intros y k p n E W L; cbn [fold_left].
  - cbn in L. destruct p as [r|u nx]; [eauto|]. destruct n as [|n]; [destruct W|]. lia.
  - destruct (happens_calls y a k p E) as (p' & E' & H1 & H2).
    assert (D : {a = Go k} + {a <> Go k}).
    { destruct a as [e|j]; [right; discriminate|]. destruct (Nat.eq_dec j k); [left; congruence|right; congruence]. }
    destruct D as [->|Ne].
    + specialize (H2 eq_refl). unfold given in L. cbn [filter] in L. rewrite Nat.eqb_refl in L. cbn [List.length] in L.
      destruct p as [r|u nx].
      * subst p'. apply (IH _ k (PDone r) 0 E'); [exact I|lia].
      * subst p'. destruct n as [|n]; [destruct W|]. apply (IH _ k _ n E' (W (y_state y))). unfold given. lia.
    + rewrite (H1 Ne) in E'. apply (IH _ k p n E' W). revert L. unfold given. cbn [filter]. destruct a as [e|j]; auto.
      destruct (Nat.eqb_spec j k) as [->|]; [congruence|auto].
Qed.
Lemma calls_within l : forall p, In p (y_calls (execution files l)) -> within enough p.
Proof.
  induction l as [|a l IH] using rev_ind; [intros p []|]. rewrite execution_app. cbn [fold_left].
  set (y := execution files l) in *. destruct a as [e|k].
  - destruct e; cbn [happens y_calls]; auto. intros p H. apply in_app_or in H as [H|[<-|[]]]; auto. apply within_call.
  - cbn [happens]. destruct (nth_error (y_calls y) k) as [[r|u n]|] eqn:Ek; auto. cbn [y_calls].
    assert (Hk := IH _ (nth_error_In _ _ Ek)). intros p H. apply In_nth_error in H as (j & Ej).
    rewrite set_nth_nth in Ej by (apply nth_error_Some; congruence). destruct (Nat.eqb j k).
    + injection Ej as <-. revert Hk. generalize enough as n0. intros [|n'] W; [destruct W|]. apply (within_mono _ n'); [lia|apply W].
    + apply IH. eapply nth_error_In; eauto.
Qed.

(** ** How often a file is read *)
Section R.
Context (m : meth).
Definition cch (s : cstate) : option nat := py_cache (c_py s) m.
Definition cnt (s : cstate) : nat :=
  List.length (filter (fun m' => (meth_value m' =? meth_value m)%string) (c_reads s)).
Definition same (s s' : cstate) : Prop := cch s' = cch s /\ cnt s' = cnt s.

(** phases of a call, with respect to this file *)
Fixpoint quiet {A} (p : prog A) : Prop :=
  match p with PDone _ => True | PStep u n => forall s, same s (u s) /\ quiet (n s) end.
Fixpoint inC {A} (p : prog A) : Prop :=
  match p with
  | PDone _ => False
  | PStep u n => (forall s, same s (u s) /\ inC (n s)) \/
                 (forall s, cch (u s) <> None /\ cnt (u s) = cnt s /\ quiet (n s))
  end.
Definition inB {A} (p : prog A) : Prop :=
  match p with
  | PDone _ => False
  | PStep u n => forall s, cch (u s) = cch s /\ cnt (u s) = S (cnt s) /\ inC (n s)
  end.
Definition inA {A} (p : prog A) : Prop :=
  match p with
  | PDone _ => False
  | PStep u n => forall s, same s (u s) /\ (cch s = None -> inB (n s) \/ quiet (n s)) /\ (cch s <> None -> quiet (n s))
  end.
Fixpoint silent {A} (Q : A -> Prop) (p : prog A) : Prop :=
  match p with
  | PDone r => exists a, r = Ok a /\ Q a
  | PStep u n => forall s, same s (u s) /\ silent Q (n s)
  end.

Lemma same_refl s : same s s. Proof. split; reflexivity. Qed.
Lemma quiet_bind {A B} (p : prog A) (k : A -> prog B) : quiet p -> (forall a, quiet (k a)) -> quiet (pbind p k).
Proof.
  intros H K. induction p as [[a|e]|u n IH]; cbn [pbind quiet] in *; auto.
  intros s. destruct (H s) as (A1 & A2). auto.
Qed.
Lemma inC_bind {A B} (p : prog A) (k : A -> prog B) : inC p -> (forall a, quiet (k a)) -> inC (pbind p k).
Proof.
  intros H K. induction p as [r|u n IH]; cbn [pbind inC] in *; [tauto|].
  destruct H as [H|H]; [left|right]; intros s; destruct (H s) as (A1 & A2); auto.
  destruct A2 as (A2 & A3). split; [exact A1|]. split; [exact A2|]. now apply quiet_bind.
Qed.
Lemma inB_bind {A B} (p : prog A) (k : A -> prog B) : inB p -> (forall a, quiet (k a)) -> inB (pbind p k).
Proof.
  intros H K. destruct p as [r|u n]; cbn [pbind inB] in *; [tauto|].
  intros s; destruct (H s) as (A1 & A2 & A3). split; [exact A1|]. split; [exact A2|]. now apply inC_bind.
Qed.
Lemma inA_bind {A B} (p : prog A) (k : A -> prog B) : inA p -> (forall a, quiet (k a)) -> inA (pbind p k).
Proof.
  intros H K. destruct p as [r|u n]; cbn [pbind inA] in *; [tauto|].
  intros s; destruct (H s) as (A1 & A2 & A3). split; [exact A1|]. split.
  - intros E. destruct (A2 E); [left; now apply inB_bind|right; now apply quiet_bind].
  - intros E. apply quiet_bind; auto.
Qed.
Lemma silent_bind {A B} (Q : A -> Prop) (Q' : B -> Prop) (p : prog A) (k : A -> prog B) :
  silent Q p -> (forall a, Q a -> silent Q' (k a)) -> silent Q' (pbind p k).
Proof.
  intros H K. induction p as [r|u n IH]; cbn [pbind silent] in *.
  - destruct H as (a & -> & H). auto.
  - intros s. destruct (H s). auto.
Qed.
Lemma silent_inC {A B} (Q : A -> Prop) (p : prog A) (k : A -> prog B) :
  silent Q p -> (forall a, Q a -> inC (k a)) -> inC (pbind p k).
Proof.
  intros H K. induction p as [r|u n IH]; cbn [pbind silent] in *.
  - destruct H as (a & -> & H). auto.
  - cbn [inC]. left. intros s. destruct (H s). auto.
Qed.
Lemma silent_quiet {A} (Q : A -> Prop) (p : prog A) : silent Q p -> quiet p.
Proof. induction p as [r|u n IH]; cbn [silent quiet]; auto. intros H s. destruct (H s). auto. Qed.

Lemma silent_store t : silent (fun v => match t with TD _ => exists l, v = HR l | _ => True end) (store_th t).
Proof.
  induction t as [a|a|d IH] using toml_ind'; [cbn; eauto|cbn; eauto|].
  change (store_th (TD d)) with (d' <~ store_list_th d ;; l <~ new_dict d' ;; PDone (Ok (HR l))).
  apply (silent_bind (fun _ => True)).
  - induction d as [|[k t] d IHd]; [cbn; eauto|]. cbn [store_list_th]. eapply silent_bind; [eapply IH; now left|].
    intros v _. eapply silent_bind; [apply IHd; intros; eapply IH; right; eassumption|]. intros vs _. cbn. eauto.
  - intros d' _. cbn. intros s. split; [split; reflexivity|]. eauto.
Qed.
Lemma quiet_peek {A} (f : heap -> res A) : quiet (peek f). Proof. intros s. split; [apply same_refl|exact I]. Qed.
Ltac qb := repeat (first [ exact I | apply quiet_peek | apply quiet_bind; [|intros ?] ]).
Lemma quiet_lookup table m' name variant keep : quiet (get_params_in_th table m' name variant keep).
Proof.
  unfold get_params_in_th. apply quiet_bind.
  - assert (D : quiet (default_section <~ peek (fun h => item h table "default") ;;
        variant_section <~ peek (fun h => item h default_section (meth_value m')) ;;
        b <~ peek (fun h => contains h variant_section variant) ;;
        _ <~ guard b KeyError ;;
        peek (fun h => item h default_section "parameter"))) by qb.
    assert (E : forall name, quiet (func_section <~ peek (fun h => item h table "parameter") ;;
        b <~ peek (fun h => contains h func_section (Some name)) ;;
        _ <~ guard b KeyError ;;
        disp <~ peek (fun h => item h func_section (casefold name)) ;;
        b <~ peek (fun h => contains h disp (Some (meth_value m'))) ;;
        _ <~ guard b KeyError ;;
        PDone (Ok disp))) by (intros; qb).
    destruct name as [name|]; [|exact D]. specialize (E name).
    destruct name as [|[[] [] [] [] [] [] [] []] name]; try exact E.
    do 7 (try (destruct name as [|[[] [] [] [] [] [] [] []] name]; try exact E)). exact D.
  - intros section. apply quiet_bind; [destruct variant; qb|]. intros v. qb.
Qed.

Hypothesis Hdoc : forall m t, files m = Some t -> exists d, t = TD d.
Lemma load_phase m' : inA (load_th files m') \/ quiet (load_th files m').
Proof.
  destruct (string_dec (meth_value m') (meth_value m)) as [Em|Nm].
  - left. unfold load_th. cbn [pbind inA]. intros s. split; [apply same_refl|].
    assert (E : m' = m) by (destruct m', m; try discriminate Em; reflexivity). subst m'. fold (cch s). split.
    + intros ->. cbn [pbind]. destruct (files m) as [t|] eqn:Ef; [left|right; exact I].
      cbn [pbind inB]. intros s'. split; [reflexivity|]. split.
      * unfold cnt. cbn [c_reads filter]. rewrite String.eqb_refl. reflexivity.
      * eapply silent_inC; [apply silent_store|]. destruct (Hdoc m t Ef) as (d & ->). intros v (l & ->). cbn [inC]. right.
        intros s2. split; [|split; [reflexivity|exact I]]. unfold cch. cbn [c_py py_cache]. unfold upd_cache. destruct m; discriminate.
    + destruct (cch s); [intros _; exact I|congruence].
  - right. unfold load_th. cbn [pbind quiet]. intros s. split; [apply same_refl|].
    destruct (py_cache (c_py s) m') as [l|]; cbn [pbind]; [exact I|]. destruct (files m') as [t|]; [|exact I].
    cbn [pbind quiet]. intros s'. split.
    { split; [reflexivity|]. unfold cnt. cbn [c_reads filter]. destruct (String.eqb_spec (meth_value m') (meth_value m)); [contradiction|reflexivity]. }
    apply quiet_bind; [eapply silent_quiet; apply silent_store|]. intros [x|x|l]; try exact I. cbn [quiet].
    intros s2. split; [|exact I]. split; [|reflexivity]. unfold cch. cbn [c_py py_cache]. unfold upd_cache.
    destruct m', m; try reflexivity; now contradiction Nm.
Qed.
Lemma call_phase method name variant keep :
  inA (get_params_th files method name variant keep) \/ quiet (get_params_th files method name variant keep).
Proof.
  unfold get_params_th. destruct (meth_of method) as [m'|e]; [|right; exact I].
  assert (K : forall t, quiet (d <~ get_params_in_th (HR t) m' name variant keep ;; new_dict d)).
  { intros t. apply quiet_bind; [apply quiet_lookup|]. intros d s. split; [split; reflexivity|exact I]. }
  destruct (load_phase m') as [H|H]; [left; now apply inA_bind|right; now apply quiet_bind].
Qed.

Inductive phase := QA | QB | QC | QD.
Definition phased (ph : phase) (p : prog nat) : Prop :=
  match ph with QA => inA p | QB => inB p | QC => inC p | QD => quiet p end.
Lemma phase_dec (a b : phase) : {a = b} + {a <> b}. Proof. decide equality. Defined.
Definition num (ph : phase) (l : list phase) : nat := count_occ phase_dec l ph.

Definition rinv (N : nat) (y : system) (phs : list phase) : Prop :=
  Forall2 phased phs (y_calls y) /\
  (cch (y_state y) = None -> cnt (y_state y) = num QC phs) /\
  (cch (y_state y) <> None -> cnt (y_state y) + num QB phs <= N).

Lemma phased_running phs l : Forall2 phased phs l ->
  num QB phs + num QC phs <= List.length (filter (fun p => match p with PStep _ _ => true | _ => false end) l).
Proof.
  induction 1 as [|ph p phs l H _ IH]; [cbn; lia|]. unfold num in *. destruct ph, p as [r|u n]; cbn in *; try tauto; lia.
Qed.
Lemma num_mid ph l1 x l2 : num ph (l1 ++ x :: l2) = num ph l1 + (if phase_dec x ph then 1 else 0) + num ph l2.
Proof. unfold num. rewrite count_occ_app. cbn [count_occ]. destruct (phase_dec x ph); lia. Qed.
Lemma set_nth_mid {A} (l1 l2 : list A) x z : set_nth (l1 ++ x :: l2) (List.length l1) z = (l1 ++ z :: l2)%list.
Proof.
  unfold set_nth. rewrite firstn_app, Nat.sub_diag, firstn_all. cbn [firstn]. rewrite app_nil_r. f_equal. f_equal.
  rewrite skipn_app, skipn_all2 by lia. replace (S (List.length l1) - List.length l1) with 1 by lia. reflexivity.
Qed.

Lemma user_same s e : (forall a b c d, e <> Call a b c d) -> py_cache (s_py (step files s e)) = py_cache (s_py s).
Proof.
  assert (W : forall i g, py_cache (s_py (with_obj s i g)) = py_cache (s_py s)).
  { intros i g. unfold with_obj. destruct (nth_error (s_held s) i); [|reflexivity]. now destruct (nth_error (py_heap (s_py s)) n). }
  intros Ne. destruct e as [method name variant keep| |i k x|i k|i|i k]; cbn [step]; auto.
  - now contradiction (Ne method name variant keep).
  - destruct (uval_val s x); auto.
  - destruct (nth_error (s_held s) i); [|reflexivity]. destruct (nth_error (py_heap (s_py s)) n); [|reflexivity].
    destruct (dget d k) as [[v|v|l']|]; reflexivity.
Qed.

Lemma rinv_step N y phs a : rinv N y phs -> running y <= N -> exists phs', rinv N (happens files y a) phs'.
Proof.
  intros (Fa & H1 & H2) RN. pose proof (phased_running _ _ Fa) as PR. fold (running y) in PR. destruct a as [e|k].
  - assert (USR : (forall a b c d, e <> Call a b c d) -> rinv N
      (let s := step files (mkSession (c_py (y_state y)) (y_held y)) e in
      mkSys (mkC (s_py s) (c_reads (y_state y))) (s_held s) (y_calls y)) phs).
    { intros Ne. pose proof (user_same (mkSession (c_py (y_state y)) (y_held y)) e Ne) as E. cbn [s_py] in E.
      unfold rinv. cbn [y_calls y_state]. unfold cch, cnt in *. cbn [c_py c_reads]. rewrite E. auto. }
    destruct e as [method name variant keep| |i k x|i k|i|i k]; try (exists phs; apply USR; discriminate).
    destruct (call_phase method name variant keep) as [H|H]; [exists (phs ++ [QA])%list|exists (phs ++ [QD])%list];
      (split; [|cbn [happens y_state]; rewrite !num_mid; cbn; rewrite !Nat.add_0_r; split; [exact H1|exact H2]]);
      cbn [happens y_calls]; apply Forall2_app; auto.
  - cbn [happens]. destruct (nth_error (y_calls y) k) as [[r|u n]|] eqn:Ek.
    1,3: exists phs; split; [exact Fa|split; [exact H1|exact H2]].
    apply nth_error_split in Ek as (c1 & c2 & Ec & Lk). rewrite Ec in Fa |- *. subst k. rewrite set_nth_mid.
    apply Forall2_app_inv_r in Fa as (p1 & p23 & F1 & F23 & ->). inversion F23 as [|ph p p2 c2' Hp F2]; subst p23 p c2'.
    rewrite !num_mid in *. set (s := y_state y) in *.
    assert (New : forall ph', phased ph' (n s) -> Forall2 phased (p1 ++ ph' :: p2) (c1 ++ n s :: c2)).
    { intros ph' H. apply Forall2_app; auto. }
    destruct ph; cbn [phased] in Hp.
    + destruct (Hp s) as ((A1 & A1') & A2 & A3). destruct (cch s) as [l|] eqn:Es.
      * exists (p1 ++ QD :: p2)%list. split; [now apply New; apply A3|]. cbn [y_state]. rewrite !num_mid, A1, A1'. cbn in *. split; [intros; discriminate|auto].
      * destruct (A2 eq_refl) as [B|B]; [exists (p1 ++ QB :: p2)%list|exists (p1 ++ QD :: p2)%list];
          (split; [now apply New|]); cbn [y_state]; rewrite !num_mid, A1, A1'; cbn in *; (split; [auto|congruence]).
    + destruct (Hp s) as (A1 & A1' & A2). exists (p1 ++ QC :: p2)%list. split; [now apply New|].
      cbn [y_state]. rewrite !num_mid, A1, A1'. cbn in *. split; intros E; [specialize (H1 E)|specialize (H2 E)]; lia.
    + destruct Hp as [Hp|Hp]; destruct (Hp s) as (A1 & A2).
      * destruct A1 as (A1 & A1'). exists (p1 ++ QC :: p2)%list. split; [now apply New|].
        cbn [y_state]. rewrite !num_mid, A1, A1'. cbn in *. split; auto.
      * destruct A2 as (A1' & A2). exists (p1 ++ QD :: p2)%list. split; [now apply New|].
        cbn [y_state]. rewrite !num_mid, A1'. cbn in *. split; [intros E; contradiction|]. intros _.
        destruct (cch s) as [l|]; [assert (E : Some l <> None) by discriminate; specialize (H2 E)|specialize (H1 eq_refl)]; lia.
    + destruct (Hp s) as ((A1 & A1') & A2). exists (p1 ++ QD :: p2)%list. split; [now apply New|].
      cbn [y_state]. rewrite !num_mid, A1, A1'. cbn in *. split; auto.
Qed.

Lemma reads_bound N l : (forall l1 l2, l = (l1 ++ l2)%list -> running (execution files l1) <= N) ->
  cnt (y_state (execution files l)) <= N.
Proof.
  intros H. assert (I : exists phs, rinv N (execution files l) phs).
  { revert H. induction l as [|a l IH] using rev_ind; intros H.
    - exists []. split; [constructor|]. split; [reflexivity|]. intros E. now contradiction E.
    - destruct IH as (phs & I). { intros l1 l2 ->. apply (H l1 (l2 ++ [a])%list). now rewrite app_assoc. }
      rewrite execution_app. cbn [fold_left]. apply rinv_step with phs; auto. apply (H l [a]). reflexivity. }
  destruct I as (phs & Fa & H1 & H2). pose proof (phased_running _ _ Fa) as PR. fold (running (execution files l)) in PR.
  specialize (H l [] (eq_sym (app_nil_r _))).
  destruct (cch (y_state (execution files l))) as [x|]; [assert (E : Some x <> None) by discriminate; specialize (H2 E)|specialize (H1 eq_refl)]; lia.
Qed.
End R.
End Q.

(** ** Without interruption *)
Lemma un_bind {A B} (p : prog A) (k : A -> prog B) : forall s, uninterrupted (pbind p k) s =
  let '(s', r) := uninterrupted p s in match r with Ok a => uninterrupted (k a) s' | Raise e => (s', Raise e) end.
Proof. induction p as [[a|e]|u n IH]; intros s; cbn [pbind uninterrupted]; auto. Qed.
Lemma un_peek {A B} (f : heap -> res A) (k : A -> prog B) s : uninterrupted (pbind (peek f) k) s =
  match f (py_heap (c_py s)) with Ok a => uninterrupted (k a) s | Raise e => (s, Raise e) end.
Proof. cbn. now destruct (f (py_heap (c_py s))). Qed.
Lemma un_store t : forall s, uninterrupted (store_th t) s =
  let '(h, v) := store t (py_heap (c_py s)) in (mkC (mkPy h (py_cache (c_py s))) (c_reads s), Ok v).
Proof.
  induction t as [a|a|d IH] using toml_ind'; intros [[h c] rd]; [reflexivity|reflexivity|].
  change (store_th (TD d)) with (d' <~ store_list_th d ;; l <~ new_dict d' ;; PDone (Ok (HR l))).
  rewrite un_bind, store_TD. cbn [c_py py_heap py_cache c_reads].
  assert (L : forall h c rd, uninterrupted (store_list_th d) (mkC (mkPy h c) rd) =
     let '(h', d') := store_list d h in (mkC (mkPy h' c) rd, Ok d')).
  { clear h c rd. induction d as [|[k t] d IHd]; intros h c rd; [reflexivity|]. cbn [store_list_th store_list].
    rewrite un_bind, (IH k t (or_introl eq_refl)). cbn [c_py py_heap py_cache c_reads].
    destruct (store t h) as [h1 v]. rewrite un_bind, IHd by (intros; eapply IH; right; eassumption).
    destruct (store_list d h1) as [h2 r]. reflexivity. }
  rewrite L. destruct (store_list d h) as [h' d']. reflexivity.
Qed.
Lemma un_lookup table m name variant keep s :
  uninterrupted (get_params_in_th table m name variant keep) s =
  (s, get_params_in (py_heap (c_py s)) table m name variant keep).
Proof.
  assert (D : uninterrupted (default_section <~ peek (fun h => item h table "default") ;;
        variant_section <~ peek (fun h => item h default_section (meth_value m)) ;;
        b <~ peek (fun h => contains h variant_section variant) ;;
        _ <~ guard b KeyError ;;
        peek (fun h => item h default_section "parameter")) s =
      (s, default_section <- item (py_heap (c_py s)) table "default" ;;
        variant_section <- item (py_heap (c_py s)) default_section (meth_value m) ;;
        b <- contains (py_heap (c_py s)) variant_section variant ;;
        raise_if (negb b) KeyError ;;;
        item (py_heap (c_py s)) default_section "parameter")%py).
  { rewrite un_peek. destruct (item _ table _) as [d|]; [|reflexivity]. rewrite un_peek. cbn [bind].
    destruct (item _ d _) as [x|]; [|reflexivity]. rewrite un_peek. cbn [bind].
    destruct (contains _ x _) as [[]|]; reflexivity. }
  assert (E : forall name, uninterrupted (func_section <~ peek (fun h => item h table "parameter") ;;
        b <~ peek (fun h => contains h func_section (Some name)) ;;
        _ <~ guard b KeyError ;;
        disp <~ peek (fun h => item h func_section (casefold name)) ;;
        b <~ peek (fun h => contains h disp (Some (meth_value m))) ;;
        _ <~ guard b KeyError ;;
        PDone (Ok disp)) s =
      (s, func_section <- item (py_heap (c_py s)) table "parameter" ;;
        b <- contains (py_heap (c_py s)) func_section (Some name) ;;
        raise_if (negb b) KeyError ;;;
        disp <- item (py_heap (c_py s)) func_section (casefold name) ;;
        b <- contains (py_heap (c_py s)) disp (Some (meth_value m)) ;;
        raise_if (negb b) KeyError ;;;
        Ok disp)%py).
  { clear D. intros n. rewrite un_peek. destruct (item _ table _) as [d|]; [|reflexivity]. rewrite un_peek. cbn [bind].
    destruct (contains _ d _) as [[]|]; try reflexivity. cbn [guard negb raise_if pbind bind]. rewrite un_peek.
    destruct (item _ d _) as [x|]; [|reflexivity]. rewrite un_peek. cbn [bind].
    destruct (contains _ x _) as [[]|]; reflexivity. }
  unfold get_params_in_th, get_params_in. rewrite un_bind.
  set (sec := match name with None | Some "default" => _ | Some _ => _ end).
  set (sec' := match name with None | Some "default" => _ | Some _ => _ end).
  assert (S : uninterrupted sec s = (s, sec')).
  { subst sec sec'. clear - D E. destruct name as [name|]; [|exact D]. specialize (E name).
    destruct name as [|[[] [] [] [] [] [] [] []] name]; try exact E.
    do 7 (try (destruct name as [|[[] [] [] [] [] [] [] []] name]; try exact E)). exact D. }
  rewrite S. clearbody sec sec'. clear D E S sec. destruct sec' as [section|e]; [|reflexivity]. cbn [bind]. rewrite un_bind.
  assert (V : uninterrupted (match variant with
             | Some v => PDone (Ok v)
             | None => d <~ peek (fun h => item h table "default") ;;
                       l <~ peek (fun h => item h d (meth_value m)) ;;
                       PDone (first l)
             end) s = (s, match variant with
             | Some v => Ok v
             | None => d <- item (py_heap (c_py s)) table "default" ;; l <- item (py_heap (c_py s)) d (meth_value m) ;; first l
             end)%py).
  { destruct variant; [reflexivity|]. rewrite un_peek. destruct (item _ table _) as [d|]; [|reflexivity]. rewrite un_peek. cbn [bind].
    destruct (item _ d _); reflexivity. }
  rewrite V. destruct (match variant with Some v => Ok v | None => _ end) as [v|]; [|reflexivity]. cbn [bind].
  rewrite un_peek. destruct (item _ section _) as [x|]; [|reflexivity]. rewrite un_peek. cbn [bind].
  destruct (contains _ x _) as [[]|]; try reflexivity. cbn [guard negb raise_if pbind bind]. rewrite un_peek.
  destruct (item _ x v) as [b|]; [|reflexivity]. rewrite un_peek. cbn [bind]. destruct (copy _ b); reflexivity.
Qed.
Lemma un_load files m s : let '(s', r) := uninterrupted (load_th files m) s in (c_py s', r) = load files (c_py s) m.
Proof.
  destruct s as [[h c] rd]. unfold load_th, load. cbn [pbind uninterrupted c_py py_cache]. destruct (c m) as [l|]; [reflexivity|].
  cbn [pbind]. destruct (files m) as [t|]; [|reflexivity]. cbn [pbind uninterrupted]. rewrite un_bind, un_store. cbn [c_py py_heap py_cache c_reads].
  destruct (store t h) as [h' [x|x|l]]; reflexivity.
Qed.
Lemma un_call files method name variant keep s :
  let '(s', r) := uninterrupted (get_params_th files method name variant keep) s in
  (c_py s', r) = get_params files (c_py s) method name variant keep.
Proof.
  unfold get_params_th, get_params. destruct (meth_of method) as [m|e]; [|reflexivity].
  rewrite un_bind. pose proof (un_load files m s) as H. destruct (uninterrupted (load_th files m) s) as [s' [t|e]].
  - rewrite <- H. rewrite un_bind, un_lookup. destruct (get_params_in _ _ _ _ _ _); reflexivity.
  - now rewrite <- H.
Qed.
