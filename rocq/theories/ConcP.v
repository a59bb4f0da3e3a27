(** * Proofs about threads *)
From Coq Require Import List Arith ZArith QArith Bool String Lia.
From Verif Require Import Py Tensor Scalar ModelExt ModelUtils ModelDamping ModelModels
  ModelTerms ModelDisp ModelStore ModelConc SpecCall SpecStore SpecConc StoreP StoreC.
Import ListNotations.

Section P.
Context {N : Num} (X : Ext (sc N)) (W : World N).
Notation K := (sc N).
Notation store := (store N).
Notation P := (P N).

Definition frob {A} (p : P A) : P A := match p with Done r => Done r | Step u n => Step u n end.
Lemma frob_eq {A} (p : P A) : p = frob p. Proof. now destruct p. Qed.
Lemma after_done {A B} r (k : res A -> P B) : after_any (Done r) k = k r.
Proof. rewrite (frob_eq (after_any _ _)). change (frob (k r) = k r). symmetry. apply frob_eq. Qed.
Lemma after_step {A B} u n (k : res A -> P B) : after_any (Step u n) k = Step u (fun s => after_any (n s) k).
Proof. now rewrite (frob_eq (after_any _ _)). Qed.
Lemma bind_done {A B} (r : res A) (k : A -> P B) : bindP (Done r) k = match r with Ok a => k a | Raise e => Done (Raise e) end.
Proof. unfold bindP. now rewrite after_done. Qed.
Lemma iter_unfold {B} i (body : B -> nat -> P (B * bool)) j cur : iter i body j cur =
  match cur with
  | Done (Raise e) => Done (Raise e)
  | Done (Ok (b, true)) => Done (Ok b)
  | Done (Ok (b, false)) =>
      Step (fun s => s) (fun s =>
        match nth_error (s_disps s) i with
        | None => Done (Raise AttributeError)
        | Some o => match nth_error (o_terms o) j with
                    | None => Done (Ok b)
                    | Some t => iter i body (S j) (body b t)
                    end
        end)
  | Step u n => Step u (fun s => iter i body j (n s))
  end.
Proof. rewrite (frob_eq (iter _ _ _ _)). destruct cur as [[[b []]|e]|u n]; reflexivity. Qed.

(** ** What the other threads may do: nothing to the first [f] [Disp] objects, nor to those in [own] *)
Section F.
Variable f : nat.
Definition env (own : list nat) (s s' : store) : Prop :=
  (forall l d, the_damping s l = Some d -> the_damping s' l = Some d) /\
  (forall t o, nth_error (s_terms s) t = Some o -> nth_error (s_terms s') t = Some o) /\
  (forall i o, (i < f)%nat \/ In i own -> nth_error (s_disps s) i = Some o -> nth_error (s_disps s') i = Some o) /\
  (List.length (s_disps s) <= List.length (s_disps s'))%nat.
Lemma env_refl own s : env own s s. Proof. split; [|split; [|split]]; auto. Qed.
Lemma env_trans own a b c : env own a b -> env own b c -> env own a c.
Proof. intros (A1 & A2 & A3 & A4) (B1 & B2 & B3 & B4). split; [|split; [|split]]; auto. lia. Qed.
Lemma env_sim own s s' : sim s s' -> env own s s'.
Proof.
  intros H. split; [|split; [|split]].
  - intros l d E. now rewrite <- (sim_damping s s' l H).
  - destruct H as (_ & -> & _). auto.
  - destruct H as (_ & _ & ->). auto.
  - destruct H as (_ & _ & ->). auto.
Qed.
Lemma env_weaken own s s' : env own s s' -> env [] s s'.
Proof. intros (A & B & C & D). split; [|split; [|split]]; auto. intros i o [H|[]]. now apply C; left. Qed.
Lemma env_term own s s' t v : env own s s' -> the_term s t = Some v -> the_term s' t = Some v.
Proof.
  intros (A & B & _) E. unfold the_term in *. destruct (nth_error (s_terms s) t) as [o|] eqn:Et; [|discriminate].
  rewrite (B _ _ Et). destruct (the_damping s (o_damping o)) as [d|] eqn:Ed; [|discriminate]. now rewrite (A _ _ Ed).
Qed.
Lemma env_disp own s s' i p : env own s s' -> (i < f)%nat \/ In i own -> the_disp s i = Some p -> the_disp s' i = Some p.
Proof.
  intros H Hi E. pose proof H as (A & B & C & _). unfold the_disp in *. destruct (nth_error (s_disps s) i) as [o|] eqn:Ei; [|discriminate].
  rewrite (C _ _ Hi Ei). destruct (all (map (the_term s) (o_terms o))) as [ts|] eqn:Ea; [|discriminate].
  rewrite (all_ext_some (the_term s) (the_term s') _ ts); [exact E| |exact Ea]. intros. eapply env_term; eauto.
Qed.

(** ** Programs that change at most [doi] attributes *)
Inductive calm {A} (own : list nat) (r : res A) : store -> P A -> Prop :=
| calm_done s : calm own r s (Done r)
| calm_step s u n : (forall s', env own s s' -> sim s' (u s')) ->
    (forall s', env own s s' -> calm own r s' (n s')) -> calm own r s (Step u n).
Lemma calm_env {A} own (r : res A) s s' p : calm own r s p -> env own s s' -> calm own r s' p.
Proof.
  intros H E. destruct H as [s|s u n H1 H2]; constructor; intros s'' E'; [apply H1|apply H2]; now apply env_trans with s'.
Qed.
Lemma calm_after {A B} own (r : res A) (r' : res B) s m k : calm own r s m ->
  (forall s', env own s s' -> calm own r' s' (k r)) -> calm own r' s (after_any m k).
Proof.
  intros H. induction H as [s|s u n H1 H2 IH]; intros Hk.
  - rewrite after_done. apply Hk, env_refl.
  - rewrite after_step. constructor; [exact H1|]. intros s' E. apply IH; [exact E|]. intros s'' E'. apply Hk. now apply env_trans with s'.
Qed.

Definition calmly {A} own s0 (m : P A) (r : res A) : Prop := forall s, env own s0 s -> calm own r s m.
Lemma calmly_done {A} own s0 (r : res A) : calmly own s0 (done r) r.
Proof. intros s _. constructor. Qed.
Lemma calmly_bind {A B} own s0 (m : P A) (r : res A) (k : A -> P B) (r' : A -> res B) :
  calmly own s0 m r -> (forall a, r = Ok a -> calmly own s0 (k a) (r' a)) -> calmly own s0 (bindP m k) (bind r r').
Proof.
  intros Hm Hk s H. apply calm_after with r; [now apply Hm|]. intros s' E. destruct r as [a|e]; [|constructor].
  apply (Hk a eq_refl). now apply env_trans with s.
Qed.
Lemma calmly_bind_done {A B} own s0 (r : res A) (k : A -> P B) (r' : A -> res B) :
  (forall a, r = Ok a -> calmly own s0 (k a) (r' a)) -> calmly own s0 (bindP (done r) k) (bind r r').
Proof. intros H. apply calmly_bind; [apply calmly_done|exact H]. Qed.
Lemma calmly_eq {A} own s0 (m : P A) r r' : calmly own s0 m r -> r = r' -> calmly own s0 m r'.
Proof. now intros H <-. Qed.
Lemma calmly_bind_ok {A B} own s0 (m : P A) a (k : A -> P B) r :
  calmly own s0 m (Ok a) -> calmly own s0 (k a) r -> calmly own s0 (bindP m k) r.
Proof. intros Hm Hk. apply (calmly_bind own s0 m (Ok a) k (fun _ => r) Hm). intros a' E. now injection E as <-. Qed.

Lemma get_terms own s0 t o : nth_error (s_terms s0) t = Some o -> calmly own s0 (get s_terms t) (Ok o).
Proof.
  intros E s H. constructor.
  - intros s' _. cbn. apply sim_refl.
  - intros s' H'. cbn. rewrite (proj1 (proj2 (env_trans _ _ _ _ H H')) _ _ E). constructor.
Qed.
Lemma get_disps own s0 i o : (i < f)%nat \/ In i own -> nth_error (s_disps s0) i = Some o -> calmly own s0 (get s_disps i) (Ok o).
Proof.
  intros Hi E s H. constructor.
  - intros s' _. cbn. apply sim_refl.
  - intros s' H'. cbn. rewrite (proj1 (proj2 (proj2 (env_trans _ _ _ _ H H'))) _ _ Hi E). constructor.
Qed.
Lemma calmly_get_damp {B} own s0 l d (k : damp_obj N -> P B) r :
  the_damping s0 l = Some d -> (forall o, o_class o = d -> calmly own s0 (k o) r) ->
  calmly own s0 (bindP (get s_damp l) k) r.
Proof.
  intros E H s Hs. unfold bindP, get, act. rewrite after_step. constructor.
  - intros s' _. cbn. apply sim_refl.
  - intros s' H'. rewrite after_done. cbn. pose proof (env_trans _ _ _ _ Hs H') as Hs'.
    pose proof (proj1 Hs' _ _ E) as E'. unfold the_damping in E'.
    destruct (nth_error (s_damp s') l) as [o|]; [|discriminate]. injection E' as E'. now apply H.
Qed.

Lemma put_doi_calm own s0 l o d doi : the_damping s0 l = Some d -> o_class o = d -> calmly own s0 (put_doi l o doi) (Ok tt).
Proof.
  intros E Eo s Hs. constructor.
  - intros s' H'. cbn. pose proof (proj1 (env_trans _ _ _ _ Hs H') _ _ E) as E'.
    split; [|split; reflexivity]. cbn [s_damp]. rewrite set_nth_map. cbn [o_class]. symmetry. apply set_nth_same.
    rewrite nth_error_map. rewrite Eo. exact E'.
  - intros s' H'. cbn. constructor.
Qed.

Lemma damping_call_calm own s0 l d dist radii order only param : the_damping s0 l = Some d ->
  calmly own s0 (damping_call_th l dist radii order only param) (damping_call d dist radii order only param).
Proof.
  intros E. unfold damping_call_th. apply calmly_get_damp with d; [exact E|]. intros o Eo.
  unfold damping_call. apply calmly_bind_done. intros a _. eapply calmly_bind_ok; [eapply put_doi_calm; eauto|].
  rewrite Eo. apply calmly_done.
Qed.

Lemma where_calm own s0 (mask : res (tensor bool)) m r z : calmly own s0 m r ->
  calmly own s0 (where_th mask m z) (twhere mask r (scal z)).
Proof.
  intros H. unfold where_th. eapply calmly_eq.
  - apply calmly_bind_done. intros mk _. apply calmly_bind; [exact H|]. intros v _. apply calmly_done.
  - unfold twhere, lift2. destruct mask; [|reflexivity]. cbn [bind]. destruct r; reflexivity.
Qed.

Lemma dispersion2_calm own s0 l d numbers positions param c6 r4r2 rvdw cutoff as_matrix : the_damping s0 l = Some d ->
  calmly own s0 (dispersion2_th X numbers positions param c6 r4r2 rvdw l cutoff as_matrix)
          (dispersion2 X numbers positions param c6 r4r2 rvdw d cutoff as_matrix).
Proof.
  intros E. unfold dispersion2_th, dispersion2.
  do 4 (apply calmly_bind_done; intros ? _). apply calmly_get_damp with d; [exact E|]. intros o ->.
  apply calmly_bind_done; intros radii _.
  apply calmly_bind; [apply where_calm, damping_call_calm, E|intros t6 _].
  apply calmly_bind; [apply where_calm, damping_call_calm, E|intros t8 _].
  do 3 (apply calmly_bind_done; intros ? _).
  apply calmly_bind; [|intros ? _; apply calmly_done].
  destruct (dget param "s10"); [|apply calmly_done].
  apply calmly_bind_done; intros ? _.
  apply calmly_bind; [apply where_calm, damping_call_calm, E|intros ? _].
  apply calmly_bind_done; intros ? _. apply calmly_done.
Qed.

Lemma atm_calm own s0 l d numbers positions c9 radii cutoff s9 alp : the_damping s0 l = Some d ->
  calmly own s0 (get_atm_dispersion_th X numbers positions c9 radii cutoff l s9 alp)
          (get_atm_dispersion X numbers positions c9 radii cutoff d s9 alp).
Proof.
  intros E. unfold get_atm_dispersion_th, get_atm_dispersion.
  do 19 (apply calmly_bind_done; intros ? _).
  apply calmly_bind; [apply (where_calm own s0 (Ok _)), damping_call_calm, E|intros ? _].
  do 3 (apply calmly_bind_done; intros ? _). apply calmly_done.
Qed.

Lemma term_calm own s0 t v numbers positions param cn model q r4r2 rvdw cutoff : the_term s0 t = Some v ->
  calmly own s0 (term_calculate_th X t numbers positions param cn model q r4r2 rvdw cutoff)
          (term_calculate X v numbers positions param cn model q r4r2 rvdw cutoff).
Proof.
  intros E. unfold the_term in E. destruct (nth_error (s_terms s0) t) as [o|] eqn:Et; [|discriminate].
  destruct (the_damping s0 (o_damping o)) as [d|] eqn:Ed; [|discriminate]. injection E as <-.
  unfold term_calculate_th.
  apply calmly_bind_ok with o; [now apply get_terms|].
  unfold term_calculate. cbn [t_class t_damping t_cdep]. destruct (o_tclass o).
  - do 2 (apply calmly_bind_done; intros ? _). now apply dispersion2_calm.
  - do 4 (apply calmly_bind_done; intros ? _). now apply atm_calm.
  - do 4 (apply calmly_bind_done; intros ? _). now apply atm_calm.
  - do 4 (apply calmly_bind_done; intros ? _). now apply atm_calm.
Qed.

(** the loop over a list that does not change *)
Fixpoint loop {B} (bd : B -> nat -> res (B * bool)) (ts : list nat) (rc : res (B * bool)) : res B :=
  match rc with
  | Raise e => Raise e
  | Ok (b, true) => Ok b
  | Ok (b, false) => match ts with [] => Ok b | t :: ts => loop bd ts (bd b t) end
  end.
Lemma iter_calm {B} own s0 i o (body : B -> nat -> P (B * bool)) bd :
  (i < f)%nat \/ In i own -> nth_error (s_disps s0) i = Some o ->
  (forall b t, In t (o_terms o) -> calmly own s0 (body b t) (bd b t)) ->
  forall ts pre cur rc s, o_terms o = (pre ++ ts)%list -> env own s0 s -> calm own rc s cur ->
  calm own (loop bd ts rc) s (iter i body (List.length pre) cur).
Proof.
  intros Hi Ei Hb. induction ts as [|t ts IH]; intros pre cur rc s Eo Hs Hc.
  - induction Hc as [s|s u n H1 H2 IHc].
    + rewrite iter_unfold. destruct rc as [[b []]|e]; try constructor.
      * intros s' _. apply sim_refl.
      * intros s' H'. rewrite (proj1 (proj2 (proj2 (env_trans _ _ _ _ Hs H'))) _ _ Hi Ei). rewrite Eo, app_nil_r.
        rewrite (proj2 (nth_error_None pre (List.length pre))) by auto. constructor.
    + rewrite iter_unfold. constructor; [exact H1|]. intros s' H'. apply IHc; [exact H'|now apply env_trans with s].
  - induction Hc as [s|s u n H1 H2 IHc].
    + rewrite iter_unfold. destruct rc as [[b []]|e]; try constructor.
      * intros s' _. apply sim_refl.
      * intros s' H'. pose proof (env_trans _ _ _ _ Hs H') as Hs'. rewrite (proj1 (proj2 (proj2 Hs')) _ _ Hi Ei).
        assert (En : nth_error (o_terms o) (List.length pre) = Some t) by (rewrite Eo, nth_error_app2, Nat.sub_diag by auto; reflexivity).
        rewrite En. cbn [loop]. replace (S (List.length pre)) with (List.length (pre ++ [t])%list) by (rewrite app_length; cbn; lia).
        apply IH; [now rewrite <- app_assoc|exact Hs'|]. apply Hb; [rewrite Eo; apply in_or_app; right; now left|exact Hs'].
    + rewrite iter_unfold. constructor; [exact H1|]. intros s' H'. apply IHc; [exact H'|now apply env_trans with s].
Qed.
Lemma for_calm {B} own s0 i o (b : B) body bd :
  (i < f)%nat \/ In i own -> nth_error (s_disps s0) i = Some o ->
  (forall b t, In t (o_terms o) -> calmly own s0 (body b t) (bd b t)) ->
  calmly own s0 (for_terms i b body) (loop bd (o_terms o) (Ok (b, false))).
Proof.
  intros Hi Ei Hb s Hs. unfold for_terms. apply (iter_calm own s0 i o body bd Hi Ei Hb (o_terms o) []); auto. constructor.
Qed.

Lemma all_in (s : store) ts vs t : all (map (the_term s) ts) = Some vs -> In t ts -> exists v, the_term s t = Some v.
Proof.
  revert vs. induction ts as [|x ts IH]; intros vs E Ht; [destruct Ht|]. cbn [map] in E.
  apply all_cons in E as (v & vs' & Ev & E & ->). destruct Ht as [->|Ht]; eauto.
Qed.

Lemma any_loop s0 ts vs : all (map (the_term s0) ts) = Some vs ->
  loop (fun (_ : bool) t => match nth_error (s_terms s0) t with Some o => Ok (o_cdep o, o_cdep o) | None => Raise AttributeError end)
    ts (Ok (false, false)) = Ok (existsb (@t_cdep N) vs).
Proof.
  revert vs. induction ts as [|t ts IH]; intros vs E.
  - injection E as <-. reflexivity.
  - cbn [map] in E. apply all_cons in E as (v & vs' & Ev & E & ->). cbn [loop existsb].
    unfold the_term in Ev. destruct (nth_error (s_terms s0) t) as [o|] eqn:Et; [|discriminate].
    destruct (the_damping s0 (o_damping o)); [|discriminate]. injection Ev as <-. cbn [t_cdep].
    destruct (o_cdep o); [destruct ts; reflexivity|]. now apply IH.
Qed.
Lemma sum_loop s0 ts vs (calc' : DispTerm N -> res (tensor K)) : all (map (the_term s0) ts) = Some vs -> forall e,
  loop (fun e t => match the_term s0 t with Some v => bind (calc' v) (fun y => bind (tadd (Ok e) (Ok y)) (fun e' => Ok (e', false)))
                                    | None => Raise AttributeError end) ts (Ok (e, false))
  = sum_terms e vs calc'.
Proof.
  revert vs. induction ts as [|t ts IH]; intros vs E e.
  - injection E as <-. reflexivity.
  - cbn [map] in E. apply all_cons in E as (v & vs' & Ev & E & ->). cbn [loop sum_terms]. rewrite Ev.
    unfold tadd, lift2. cbn [bind t2r]. destruct (calc' v) as [y|x]; cbn [bind]; [|destruct ts; reflexivity].
    cbn [t2r]. destruct (tmap2 _ _ _) as [e'|x]; cbn [bind]; [|destruct ts; reflexivity]. now apply IH.
Qed.

Lemma calculate_calm own s0 i p numbers positions charge param cutoff q rcov r4r2 rvdw : (i < f)%nat \/ In i own ->
  the_disp s0 i = Some p ->
  calmly own s0 (calculate_th X W i numbers positions charge param cutoff q rcov r4r2 rvdw)
          (calculate X W p numbers positions charge param cutoff q rcov r4r2 rvdw).
Proof.
  intros Hi E. unfold the_disp in E. destruct (nth_error (s_disps s0) i) as [o|] eqn:Ei; [|discriminate].
  destruct (all (map (the_term s0) (o_terms o))) as [ts|] eqn:Et; [|discriminate]. injection E as <-.
  unfold calculate_th.
  apply calmly_bind_ok with o; [now apply get_disps|].
  unfold calculate. do 8 (apply calmly_bind_done; intros ? _).
  eapply calmly_bind_ok.
  { eapply calmly_eq; [|apply (any_loop s0 _ _ Et)]. apply for_calm with (o := o); auto.
    intros b t Ht. destruct (all_in _ _ _ t Et Ht) as (v & Ev). unfold the_term in Ev.
    destruct (nth_error (s_terms s0) t) as [x|] eqn:Ex; [|discriminate].
    eapply calmly_bind_ok; [apply get_terms; exact Ex|]. apply calmly_done. }
  apply calmly_bind_done; intros ? _.
  eapply calmly_eq.
  - apply calmly_bind_done; intros q' _. apply calmly_bind_done; intros ? _.
    eapply calmly_eq; [|apply (sum_loop s0 _ _ (fun v => term_calculate X v numbers positions param a6 a0 q' a2 a4 (default cutoff default_cutoff)) Et)].
    apply for_calm with (o := o); auto. intros e t Ht. destruct (all_in _ _ _ t Et Ht) as (v & Ev). rewrite Ev.
    apply calmly_bind; [apply term_calm; exact Ev|]. intros y _. apply calmly_bind_done. intros e' _. apply calmly_done.
  - cbn [p_terms with_terms]. destruct q; [reflexivity|]. destruct (existsb _ ts); [|reflexivity].
    destruct (w_eeq _ _ _ _ _); reflexivity.
Qed.

(** ** Programs that make and change their own objects *)
Definition guar (own own' : list nat) (s s' : store) : Prop :=
  (forall l d, the_damping s l = Some d -> the_damping s' l = Some d) /\
  (forall t o, nth_error (s_terms s) t = Some o -> nth_error (s_terms s') t = Some o) /\
  (forall i o, ~ In i own -> nth_error (s_disps s) i = Some o -> nth_error (s_disps s') i = Some o) /\
  (List.length (s_disps s) <= List.length (s_disps s'))%nat /\
  (forall i, In i own' -> (In i own \/ List.length (s_disps s) <= i)%nat /\ (i < List.length (s_disps s'))%nat).

(** objects of a thread: made after the start *)
Definition okown (own : list nat) (s : store) : Prop :=
  (f <= List.length (s_disps s))%nat /\ forall i, In i own -> (f <= i < List.length (s_disps s))%nat.
Lemma okown_env own s s' : okown own s -> env own s s' -> okown own s'.
Proof. intros (A & B) (_ & _ & _ & L). split; [lia|]. intros i Hi. specialize (B i Hi). lia. Qed.
Lemma okown_guar own own' s s' : okown own s -> guar own own' s s' -> okown own' s'.
Proof. intros (A & B) (_ & _ & _ & L & H). split; [lia|]. intros i Hi. destruct (H i Hi) as ([I|I] & U); [specialize (B i I)|]; lia. Qed.
Lemma guar_env own own' s s' : okown own s -> guar own own' s s' -> env [] s s'.
Proof.
  intros (A & B) (H1 & H2 & H3 & H4 & _). split; [|split; [|split]]; auto.
  intros i o [Hi|[]] E. apply H3; auto. intros I. specialize (B i I). lia.
Qed.

(** [runs Q own s p]: whatever the other threads do, [p] finishes, having changed only its own
    objects, and then [Q] holds of its objects, the store and the result *)
Inductive runs {A} (Q : list nat -> store -> res A -> Prop) : list nat -> store -> P A -> Prop :=
| runs_done own s r : (forall s', env own s s' -> Q own s' r) -> runs Q own s (Done r)
| runs_step own s u n own' :
    (forall s', env own s s' -> guar own (own' s') s' (u s')) ->
    (forall s', env own s s' -> runs Q (own' s') (u s') (n s')) -> runs Q own s (Step u n).

Lemma runs_env {A} (Q : list nat -> store -> res A -> Prop) own s s' p : runs Q own s p -> env own s s' -> runs Q own s' p.
Proof.
  intros H E. destruct H as [own s r H|own s u n own' H1 H2].
  - constructor. intros s'' E'. apply H. now apply env_trans with s'.
  - apply runs_step with own'; intros s'' E'; [apply H1|apply H2]; now apply env_trans with s'.
Qed.
Lemma runs_after {A B} (Q : list nat -> store -> res A -> Prop) (Q' : list nat -> store -> res B -> Prop) own s m k :
  runs Q own s m -> (forall own s r, Q own s r -> runs Q' own s (k r)) -> runs Q' own s (after_any m k).
Proof.
  intros H Hk. induction H as [own s r H|own s u n own' H1 H2 IH].
  - rewrite after_done. apply Hk, H, env_refl.
  - rewrite after_step. apply runs_step with own'; auto.
Qed.
Lemma runs_bind {A B} (Q : list nat -> store -> res A -> Prop) (Q' : list nat -> store -> res B -> Prop) own s m k :
  runs Q own s m -> (forall own s a, Q own s (Ok a) -> runs Q' own s (k a)) ->
  (forall own s e, Q own s (Raise e) -> runs Q' own s (Done (Raise e))) -> runs Q' own s (bindP m k).
Proof. intros H H1 H2. apply runs_after with Q; auto. intros own1 s1 [a|e] Hq; auto. Qed.
Lemma runs_conseq {A} (Q Q' : list nat -> store -> res A -> Prop) own s p :
  runs Q own s p -> (forall own s r, Q own s r -> Q' own s r) -> runs Q' own s p.
Proof.
  intros H Hq. induction H as [own s r H|own s u n own' H1 H2 IH].
  - constructor. intros s' E. apply Hq, H, E.
  - apply runs_step with own'; auto.
Qed.
Lemma sim_guar own s s' : okown own s -> sim s s' -> guar own own s s'.
Proof.
  intros (A & B) H. pose proof (env_sim own s s' H) as (H1 & H2 & _ & H4). split; [|split; [|split; [|split]]]; auto.
  - destruct H as (_ & _ & ->). auto.
  - intros i Hi. specialize (B i Hi). split; [now left|lia].
Qed.
(** the assertion that is kept by everything: the objects that existed in [s0] are the same *)
Definition since (s0 : store) {A} (Q : list nat -> store -> res A -> Prop) : list nat -> store -> res A -> Prop :=
  fun own s r => env [] s0 s /\ okown own s /\ Q own s r.
Definition gives {A} (r : res A) : list nat -> store -> res A -> Prop := fun _ _ r' => r' = r.
Lemma calm_runs {A} (r : res A) s0 own s p : env [] s0 s -> okown own s -> calm own r s p -> runs (since s0 (gives r)) own s p.
Proof.
  intros Hs Ho H. revert Hs Ho. induction H as [s|s u n H1 H2 IH]; intros Hs Ho.
  - constructor. intros s' E. split; [|split; [now apply okown_env with s|reflexivity]]. apply env_trans with s; auto. now apply env_weaken with own.
  - apply runs_step with (fun _ => own); intros s' E; pose proof (okown_env _ _ _ Ho E) as Ho'.
    + apply sim_guar; auto.
    + apply runs_env with s'; [|now apply env_sim, H1]. apply IH; auto. apply env_trans with s; auto. now apply env_weaken with own.
Qed.
Lemma runs_act {A} (own' : store -> list nat) (Q : list nat -> store -> res A -> Prop) own s (m : M N A) :
  (forall s', env own s s' -> guar own (own' s') s' (fst (m s')) /\
     forall s'', env (own' s') (fst (m s')) s'' -> Q (own' s') s'' (snd (m s'))) ->
  runs Q own s (act m).
Proof.
  intros H. apply runs_step with own'; intros s' E; destruct (H s' E) as (G & S); [exact G|]. constructor. exact S.
Qed.

(** the steps that make objects *)
Lemma damp_grow (s : store) o l d : the_damping s l = Some d ->
  the_damping (mkStore (s_damp s ++ [o]) (s_terms s) (s_disps s)) l = Some d.
Proof.
  intros E. unfold the_damping in *. cbn [s_damp]. destruct (nth_error (s_damp s) l) eqn:El; [|discriminate].
  now rewrite (nth_app_old _ _ _ _ El).
Qed.
Lemma guar_alloc_damp own s d : okown own s -> guar own own s (fst (alloc_damp d s)).
Proof.
  intros (A & B). cbn. split; [|split; [|split; [|split]]]; auto; cbn [s_disps].
  - intros l d' E. now apply damp_grow.
  - intros i Hi. specialize (B i Hi). split; [now left|lia].
Qed.
Lemma guar_alloc_term own s t : okown own s -> guar own own s (fst (alloc_term t s)).
Proof.
  intros (A & B). cbn. split; [|split; [|split; [|split]]]; auto; cbn [s_disps s_terms].
  - intros l d' E. now apply nth_app_old.
  - intros i Hi. specialize (B i Hi). split; [now left|lia].
Qed.
Lemma guar_alloc_disp own s o : okown own s -> guar own (List.length (s_disps s) :: own) s (fst (alloc_disp o s)).
Proof.
  intros (A & B). cbn. split; [|split; [|split; [|split]]]; auto; cbn [s_disps s_terms].
  - intros l d' _ E. now apply nth_app_old.
  - rewrite app_length. lia.
  - rewrite app_length. cbn. intros i [<-|Hi]; [split; [right|]; lia|]. specialize (B i Hi). split; [now left|lia].
Qed.
Lemma guar_register own s i t o : okown own s -> In i own -> nth_error (s_disps s) i = Some o ->
  guar own own s (fst (register_obj i t s)).
Proof.
  intros (A & B) Hi E. unfold register_obj, bindM, deref. rewrite E. cbn.
  assert (L : (i < List.length (s_disps s))%nat) by (apply nth_error_Some; congruence).
  split; [|split; [|split; [|split]]]; auto; cbn [s_disps s_terms].
  - intros j o' Hj Ej. rewrite set_nth_nth by auto. destruct (Nat.eqb_spec j i) as [->|]; [destruct (Hj Hi)|exact Ej].
  - rewrite set_nth_length; auto.
  - rewrite set_nth_length by auto. intros j Hj. specialize (B j Hj). split; [now left|lia].
Qed.

(** the objects of a list of terms *)
Definition have (s : store) (ls : list nat) (ts : list term_obj) : Prop :=
  Forall2 (fun l t => nth_error (s_terms s) l = Some t) ls ts.
Lemma have_env own s s' ls ts : env own s s' -> have s ls ts -> have s' ls ts.
Proof. intros (_ & H & _) F. induction F; constructor; auto. Qed.
Lemma have_all s s0 own ls ts vs : env own s0 s -> have s ls ts -> all (map (described s0) ts) = Some vs ->
  all (map (the_term s) ls) = Some vs.
Proof.
  intros (H & _) F. revert vs. induction F as [|l t ls ts E F IH]; intros vs Ea; [exact Ea|].
  cbn [map] in Ea. apply all_cons in Ea as (v & r & Ev & Er & ->). cbn [map all]. rewrite (IH _ Er).
  unfold the_term. rewrite E. unfold described in Ev. destruct (the_damping s0 (o_damping t)) as [d|] eqn:Ed; [|discriminate].
  rewrite (H _ _ Ed). cbn [option_map] in *. now injection Ev as <-.
Qed.

Lemma okown_self own s : okown own s -> okown [] s.
Proof. intros (A & _). split; [exact A|intros i []]. Qed.
Lemma env_alloc_term own s t : env own s (fst (alloc_term t s)).
Proof. split; [|split; [|split]]; cbn; auto. intros x o Ex. now apply nth_app_old. Qed.

Lemma runs_alloc_term own s0 s t : env own s0 s -> okown own s ->
  runs (fun own' s' r => own' = own /\ env own s0 s' /\ okown own s' /\ exists l, r = Ok l /\ nth_error (s_terms s') l = Some t)
    own s (act (alloc_term t)).
Proof.
  intros Hs Ho. apply runs_act with (fun _ => own). intros s' E. pose proof (okown_env _ _ _ Ho E) as Ho'.
  split; [now apply guar_alloc_term|]. intros s'' E''. split; [reflexivity|].
  split; [|split].
  - apply env_trans with s; auto. apply env_trans with s'; auto. apply env_trans with (fst (alloc_term t s')); auto. apply env_alloc_term.
  - apply okown_env with (fst (alloc_term t s')); [apply okown_env with s'; [exact Ho'|apply env_alloc_term]|exact E''].
  - eexists. split; [reflexivity|]. apply (proj1 (proj2 E'')). cbn. apply nth_last.
Qed.

Lemma new_terms_runs own ts : forall s0 s, env own s0 s -> okown own s ->
  runs (fun own' s' r => own' = own /\ env own s0 s' /\ okown own s' /\ exists ls, r = Ok ls /\ have s' ls ts)
    own s (new_terms_th ts).
Proof.
  induction ts as [|t ts IH]; intros s0 s Hs Ho; cbn [new_terms_th].
  - constructor. intros s' E. split; [reflexivity|]. split; [now apply env_trans with s|]. split; [now apply okown_env with s|].
    exists []. split; [reflexivity|constructor].
  - eapply runs_bind; [apply (runs_alloc_term own s0 s t Hs Ho)| |].
    + intros own1 s1 l (-> & E1 & O1 & l' & El & Hl). injection El as <-.
      eapply runs_bind; [apply (IH s1 s1 (env_refl own s1) O1)| |].
      * intros own2 s2 ls (-> & E2 & O2 & ls' & Els & H2). injection Els as <-.
        constructor. intros s3 E3. pose proof (env_trans _ _ _ _ E2 E3) as E13. split; [reflexivity|].
        split; [now apply env_trans with s1|]. split; [now apply okown_env with s2|].
        exists (l :: ls). split; [reflexivity|]. constructor; [now apply (proj1 (proj2 E13))|now apply have_env with own s2].
      * intros own2 s2 e (_ & _ & _ & ls & Els & _). discriminate.
    + intros own2 s2 e (_ & _ & _ & ls & Els & _). discriminate.
Qed.

(** an object [i] of the thread, with this configuration and these terms *)
Definition mine (own : list nat) (s : store) (i : nat) (conf : Disp N) (ts : list term_obj) : Prop :=
  In i own /\ exists ls, nth_error (s_disps s) i = Some (mkDispObj ls conf) /\ have s ls ts.
Lemma mine_env own s s' i conf ts : env own s s' -> mine own s i conf ts -> mine own s' i conf ts.
Proof.
  intros E (I & ls & El & H). split; [exact I|]. exists ls. split; [|now apply have_env with own s].
  apply (proj1 (proj2 (proj2 E))); auto.
Qed.
Lemma mine_disp own s s0 i conf ts vs own0 : mine own s i conf ts -> env own0 s0 s -> all (map (described s0) ts) = Some vs ->
  the_disp s i = Some (with_terms conf vs).
Proof.
  intros (_ & ls & El & H) E Ea. unfold the_disp. rewrite El. cbn [o_terms o_conf]. now rewrite (have_all s s0 own0 ls ts vs E H Ea).
Qed.

Lemma new_disp_runs s0 own s ts model kw cnf cnk : env [] s0 s -> okown own s ->
  runs (since s0 (fun own' s' r => match new_disp W [] model kw cnf cnk with
      | Ok conf => exists i, r = Ok i /\ mine own' s' i conf ts
      | Raise e => r = Raise e end)) own s (new_disp_th W ts model kw cnf cnk).
Proof.
  intros Hs Ho. unfold new_disp_th, done. rewrite bind_done. destruct (new_disp W [] model kw cnf cnk) as [conf|e].
  2:{ constructor. intros s' E. split; [|split; [now apply okown_env with s|reflexivity]]. apply env_trans with s; auto. now apply env_weaken with own. }
  eapply runs_bind; [apply (new_terms_runs own ts s s (env_refl own s) Ho)| |].
  - intros own1 s1 ls (-> & E1 & O1 & ls' & Els & H1). injection Els as <-.
    apply runs_act with (fun s => List.length (s_disps s) :: own). intros s2 E2. pose proof (okown_env _ _ _ O1 E2) as O2.
    pose proof (guar_alloc_disp own s2 (mkDispObj ls conf) O2) as G. split; [exact G|].
    intros s3 E3. set (i := List.length (s_disps s2)) in *.
    split; [|split].
    + apply env_trans with s; auto. apply env_trans with s1; [now apply env_weaken with own|].
      apply env_trans with s2; [now apply env_weaken with own|].
      apply env_trans with (fst (alloc_disp (mkDispObj ls conf) s2)); [|now apply env_weaken with (i :: own)].
      now apply guar_env with own (i :: own).
    + apply okown_env with (fst (alloc_disp (mkDispObj ls conf) s2)); [|exact E3]. now apply okown_guar with own s2.
    + exists i. split; [reflexivity|]. apply mine_env with (fst (alloc_disp (mkDispObj ls conf) s2)); [exact E3|].
      split; [now left|]. exists ls. split; [apply nth_last|]. assert (H2 : have s2 ls ts) by now apply have_env with own s1.
      unfold have in *. cbn. exact H2.
  - intros own1 s1 e (_ & _ & _ & ls & Els & _). discriminate.
Qed.

Lemma have_app s l1 t1 l2 t2 : have s l1 t1 -> have s l2 t2 -> have s (l1 ++ l2)%list (t1 ++ t2)%list.
Proof. apply Forall2_app. Qed.

Lemma register_runs s0 own s i conf ts l t : env [] s0 s -> okown own s -> mine own s i conf ts ->
  nth_error (s_terms s) l = Some t ->
  runs (since s0 (fun own' s' r => own' = own /\ r = Ok tt /\ mine own s' i conf (ts ++ [t])%list)) own s (register_th i l).
Proof.
  intros Hs Ho Hm Hl. apply runs_act with (fun _ => own). intros s1 E1. pose proof (okown_env _ _ _ Ho E1) as O1.
  pose proof (mine_env _ _ _ _ _ _ E1 Hm) as (I & ls & Els & H1).
  pose proof (guar_register own s1 i l _ O1 I Els) as G. split; [exact G|]. intros s2 E2.
  split; [|split].
  - apply env_trans with s; auto. apply env_trans with s1; [now apply env_weaken with own|].
    apply env_trans with (fst (register_obj i l s1)); [|now apply env_weaken with own]. now apply guar_env with own own.
  - apply okown_env with (fst (register_obj i l s1)); [|exact E2]. now apply okown_guar with own s1.
  - split; [reflexivity|].
    assert (Q : register_obj i l s1 = (with_disp s1 i (mkDispObj (ls ++ [l]) conf), Ok tt)).
    { unfold register_obj, bindM, deref. rewrite Els. reflexivity. }
    rewrite Q in *. cbn [fst snd] in *. split; [reflexivity|]. apply mine_env with (with_disp s1 i (mkDispObj (ls ++ [l]) conf)); [exact E2|].
    split; [exact I|]. exists (ls ++ [l])%list. cbn [with_disp s_disps]. split.
    + rewrite set_nth_nth by (apply nth_error_Some; congruence). now rewrite Nat.eqb_refl.
    + apply have_app; [exact H1|]. constructor; [|constructor]. cbn. now apply (proj1 (proj2 E1)).
Qed.

Lemma register_new_runs s0 own i conf extra : forall ts s, env [] s0 s -> okown own s -> mine own s i conf ts ->
  runs (since s0 (fun own' s' r => own' = own /\ r = Ok tt /\ mine own s' i conf (ts ++ extra)%list)) own s (register_new i extra).
Proof.
  induction extra as [|x extra IH]; intros ts s Hs Ho Hm; cbn [register_new].
  - constructor. intros s' E. split; [|split; [now apply okown_env with s|]].
    + apply env_trans with s; auto. now apply env_weaken with own.
    + split; [reflexivity|]. split; [reflexivity|]. rewrite app_nil_r. now apply mine_env with s.
  - eapply runs_bind; [apply (runs_alloc_term own s s x (env_refl own s) Ho)| |].
    + intros own1 s1 l (-> & E1 & O1 & l' & El & Hl). injection El as <-.
      assert (Hs1 : env [] s0 s1) by (apply env_trans with s; [exact Hs|now apply env_weaken with own]).
      eapply runs_bind; [apply (register_runs s0 own s1 i conf ts l x Hs1 O1); [now apply mine_env with s|exact Hl]| |].
      * intros own2 s2 [] (H2 & O2 & -> & _ & M2).
        replace (ts ++ x :: extra)%list with ((ts ++ [x]) ++ extra)%list by now rewrite <- app_assoc.
        now apply IH.
      * intros own2 s2 e (_ & _ & _ & E & _). discriminate.
    + intros own1 s1 e (_ & _ & _ & l & E & _). discriminate.
Qed.

Lemma calc_runs s0 own s i p a : env [] s0 s -> okown own s -> (i < f)%nat \/ In i own -> the_disp s i = Some p ->
  runs (since s0 (gives (run X W p a))) own s (calc X W i a).
Proof.
  intros Hs Ho Hi Hp. apply calm_runs; auto. apply (calculate_calm own s i p); auto. apply env_refl.
Qed.
Lemma value_runs {A} s0 (g : A -> option (tensor K)) r own s p : runs (since s0 (gives r)) own s p ->
  runs (since s0 (gives (rmap g r))) own s (value g p).
Proof.
  intros H. apply runs_bind with (since s0 (gives r)); [exact H| |].
  - intros own1 s1 x (E1 & O1 & Er). unfold gives in Er. subst r. constructor. intros s2 E2.
    split; [|split; [now apply okown_env with s1|reflexivity]]. apply env_trans with s1; auto. now apply env_weaken with own1.
  - intros own1 s1 x (E1 & O1 & Er). unfold gives in Er. subst r. constructor. intros s2 E2.
    split; [|split; [now apply okown_env with s1|reflexivity]]. apply env_trans with s1; auto. now apply env_weaken with own1.
Qed.
Lemma raise_runs {A} s0 own s (e : exn) : env [] s0 s -> okown own s -> runs (since s0 (gives (Raise e))) own s (Done (A:=A) (Raise e)).
Proof.
  intros Hs Ho. constructor. intros s2 E2.
  split; [|split; [now apply okown_env with s|reflexivity]]. apply env_trans with s; auto. now apply env_weaken with own.
Qed.

Lemma new_disp_terms ts model kw cnf cnk : new_disp W ts model kw cnf cnk
  = rmap (fun p => with_terms p ts) (new_disp (N := N) W [] model kw cnf cnk).
Proof.
  unfold new_disp. destruct model as [st|m]; cbn [bind].
  - destruct (raise_if _ _); cbn [bind]; [|reflexivity]. destruct cnf as [g|]; [reflexivity|]. destruct (pick_cn _ _); reflexivity.
  - destruct cnf as [g|]; [reflexivity|]. destruct (pick_cn _ _); reflexivity.
Qed.

Lemma own_runs s0 own s ts model kw cnf cnk extra a vs : env [] s0 s -> okown own s ->
  all (map (described s0) (ts ++ extra)) = Some vs ->
  runs (since s0 (gives (bind (new_disp W vs model kw cnf cnk) (fun p => rmap Some (run X W p a))))) own s
    (program X W (Own ts model kw cnf cnk extra a)).
Proof.
  intros Hs Ho Ev. cbn [program]. rewrite new_disp_terms.
  eapply runs_bind; [apply (new_disp_runs s0 own s ts model kw cnf cnk Hs Ho)| |].
  - intros own1 s1 i (E1 & O1 & H1). destruct (new_disp W [] model kw cnf cnk) as [conf|e]; [|discriminate].
    destruct H1 as (i' & Ei & M1). injection Ei as <-. cbn [rmap bind].
    eapply runs_bind; [apply (register_new_runs s0 own1 i conf extra ts s1 E1 O1 M1)| |].
    + intros own2 s2 [] (E2 & O2 & -> & _ & M2). apply value_runs. apply calc_runs; auto; [right; apply M2|].
      now apply (mine_disp own1 s2 s0 i conf (ts ++ extra) vs []).
    + intros own2 s2 e (_ & _ & _ & E & _). discriminate.
  - intros own1 s1 e (E1 & O1 & H1). destruct (new_disp W [] model kw cnf cnk) as [conf|e']; [destruct H1 as (i & Ei & _); discriminate|].
    injection H1 as <-. cbn [rmap bind]. now apply raise_runs.
Qed.

Lemma runs_alloc_damp own s0 s d : env own s0 s -> okown own s ->
  runs (fun own' s' r => own' = own /\ env own s0 s' /\ okown own s' /\ exists l, r = Ok l /\ the_damping s' l = Some d)
    own s (act (alloc_damp d)).
Proof.
  intros Hs Ho. apply runs_act with (fun _ => own). intros s' E. pose proof (okown_env _ _ _ Ho E) as Ho'.
  assert (Ea : env own s' (fst (alloc_damp d s'))).
  { split; [|split; [|split]]; cbn; auto. intros l d'. apply damp_grow. }
  split; [now apply guar_alloc_damp|]. intros s'' E''. split; [reflexivity|].
  split; [|split].
  - apply env_trans with s; auto. apply env_trans with s'; auto. apply env_trans with (fst (alloc_damp d s')); auto.
  - apply okown_env with (fst (alloc_damp d s')); [apply okown_env with s'; [exact Ho'|exact Ea]|exact E''].
  - eexists. split; [reflexivity|]. apply (proj1 E''). cbn. unfold the_damping. cbn [s_damp]. now rewrite nth_last.
Qed.

Lemma dftd4_runs s0 own s a model cn cf l d : env [] s0 s -> okown own s -> the_damping s0 l = Some d ->
  runs (since s0 (gives (dftd4 X W (a_numbers a) (a_positions a) (a_charge a) (a_param a) model
               (a_rcov a) (a_r4r2 a) (a_rvdw a) (a_q a) (a_cutoff a) cn cf d))) own s
    (dftd4_th X W (a_numbers a) (a_positions a) (a_charge a) (a_param a) model
               (a_rcov a) (a_r4r2 a) (a_rvdw a) (a_q a) (a_cutoff a) cn cf l).
Proof.
  intros Hs Ho Ed. unfold dftd4_th, dftd4.
  eapply runs_bind; [apply (new_disp_runs s0 own s [] model no_kw (Some cn) (Some cf) Hs Ho)| |].
  2:{ intros own1 s1 e (E1 & O1 & H1). destruct (new_disp W [] model no_kw (Some cn) (Some cf)) as [conf|e']; [destruct H1 as (i & Ei & _); discriminate|].
      injection H1 as <-. cbn [bind]. now apply raise_runs. }
  intros own1 s1 i (E1 & O1 & H1). destruct (new_disp W [] model no_kw (Some cn) (Some cf)) as [conf|e] eqn:Ec; [|discriminate].
  assert (Pc : p_terms conf = []).
  { unfold new_disp in Ec. destruct model; cbn in Ec.
    - destruct (raise_if _ _); [|discriminate]. cbn in Ec. now injection Ec as <-.
    - now injection Ec as <-. }
  destruct H1 as (i' & Ei & M1). injection Ei as <-. cbn [bind].
  set (t1 := mkTermObj TwoBodyTerm l true).
  eapply runs_bind; [apply (runs_alloc_term own1 s1 s1 t1 (env_refl own1 s1) O1)| |intros ? ? ? (_ & _ & _ & ? & ? & _); discriminate].
  intros own2 s2 l1 (-> & E2 & O2 & l' & El & H2). injection El as <-.
  assert (G2 : env [] s0 s2) by (apply env_trans with s1; [exact E1|now apply env_weaken with own1]).
  eapply runs_bind; [apply (register_runs s0 own1 s2 i conf [] l1 t1 G2 O2); [now apply mine_env with s1|exact H2]| |intros ? ? ? (_ & _ & _ & E & _); discriminate].
  intros own3 s3 [] (G3 & O3 & -> & _ & M3). cbn [app] in M3.
  eapply runs_bind; [apply (runs_alloc_damp own1 s3 s3 (ZeroDamping X) (env_refl own1 s3) O3)| |intros ? ? ? (_ & _ & _ & ? & ? & _); discriminate].
  intros own4 s4 d4 (-> & E4 & O4 & l' & El & H4). injection El as <-.
  set (t2 := mkTermObj D4ATMApprox d4 false).
  eapply runs_bind; [apply (runs_alloc_term own1 s4 s4 t2 (env_refl own1 s4) O4)| |intros ? ? ? (_ & _ & _ & ? & ? & _); discriminate].
  intros own5 s5 l2 (-> & E5 & O5 & l' & El & H5). injection El as <-.
  assert (G4 : env [] s0 s4) by (apply env_trans with s3; [exact G3|now apply env_weaken with own1]).
  assert (G45 : env [] s4 s5) by now apply env_weaken with own1.
  eapply runs_bind; [apply (register_runs s4 own1 s5 i conf [t1] l2 t2 G45 O5); [|exact H5]| |intros ? ? ? (_ & _ & _ & E & _); discriminate].
  { apply mine_env with s4; [exact E5|]. apply mine_env with s3; auto. }
  intros own6 s6 [] (G46 & O6 & -> & _ & M6). cbn [app] in M6.
  assert (G6 : env [] s0 s6) by now apply env_trans with s4.
  apply (calc_runs s0 own1 s6 i _ a G6 O6); [right; apply M6|].
  rewrite (mine_disp own1 s6 s4 i conf [t1; t2] [mkTerm TwoBodyTerm d true; mkTerm D4ATMApprox (ZeroDamping X) false] [] M6 G46).
  - f_equal. unfold register, with_terms. cbn [p_terms p_cn_fn p_cn_kw p_key p_inst p_kw]. now rewrite Pc.
  - cbn [map all]. unfold described. cbn [t1 t2 o_damping o_tclass o_cdep]. rewrite H4. rewrite (proj1 G4 _ _ Ed). reflexivity.
Qed.
End F.
End P.
