(** * C17, C43: histories of operations on objects *)
From Coq Require Import List Arith ZArith QArith Bool String Reals Lia Lra.
From Verif Require Import Py Tensor Scalar RInst ModelExt ModelUtils ModelDamping ModelModels
  ModelTerms ModelDisp ModelStore SpecCall SpecR SpecStore StoreP StoreC TensorLemmas Closed ClosedTerms Usable
  PropsCall PropsParams PropsTerms Inst InstW.
Import ListNotations.
Open Scope string_scope.

Section P.
Context {N : Num} (X : Ext (sc N)) (W : World N).
Notation K := (sc N).

Lemma after_snoc h e : after X W (h ++ [e])%list = step X W (after X W h) e.
Proof. unfold after. now rewrite fold_left_app. Qed.

(** *** C43: the state of the damping objects never influences a result.

    Leaving out all the calls from a history does not change the result of anything done later,
    whatever damping objects are shared. *)
Theorem C43_calls_do_not_matter : forall history e,
  possible (after X W history) e = true ->
  let without_calls := filter (fun e => negb (is_call e)) history in
  possible (after X W without_calls) e = true /\
  result X W (after X W history) e = result X W (after X W without_calls) e.
Proof.
  intros h e Hp h'. pose proof (after_wf X W h) as Hw.
  assert (S : sim (after X W h) (after X W h')).
  { apply calls_skip; [exact (after_wf X W [])|apply sim_refl]. }
  split; [now rewrite <- (sim_possible _ _ e S)|].
  unfold result. destruct (sim_do X W _ _ e Hw S Hp) as (r & s1 & s2 & -> & -> & _). reflexivity.
Qed.

(** ... and the objects are the same. *)
Theorem C43_calls_change_no_object : forall history,
  let without_calls := filter (fun e => negb (is_call e)) history in
  (forall i, the_disp (after X W history) i = the_disp (after X W without_calls) i) /\
  (forall t, the_term (after X W history) t = the_term (after X W without_calls) t) /\
  (forall l, the_damping (after X W history) l = the_damping (after X W without_calls) l).
Proof.
  intros h h'. assert (S : sim (after X W h) (after X W h')).
  { apply calls_skip; [exact (after_wf X W [])|apply sim_refl]. }
  split; [|split]; intros x; [now apply sim_disp|now apply sim_term|now apply sim_damping].
Qed.

(** After any history, [calculate] is a function of the configuration of the object, its terms
    and the arguments ... *)
Theorem C43_calculate_after_any_history : forall history i p a,
  the_disp (after X W history) i = Some p ->
  result X W (after X W history) (Calculate i a) = rmap Some (run X W p a).
Proof.
  intros h i p a Hp. pose proof (after_wf X W h) as Hw.
  destruct (call_step X W (after X W h) (Calculate i a) Hw eq_refl) as (s' & E & _).
  { cbn [possible]. apply Nat.ltb_lt. now apply the_disp_len with p. }
  unfold result. rewrite E. cbn [snd pure_result]. now rewrite Hp.
Qed.

(** ... a call of a damping object depends on its class and the arguments ... *)
Theorem C43_damping_after_any_history : forall history l d dist radii order only param,
  the_damping (after X W history) l = Some d ->
  result X W (after X W history) (CallDamping l dist radii order only param)
  = rmap Some (damping_call d dist radii order only param).
Proof.
  intros h l d dist radii order only param Hd. pose proof (after_wf X W h) as Hw.
  destruct (call_step X W (after X W h) (CallDamping l dist radii order only param) Hw eq_refl) as (s' & E & _).
  { cbn [possible]. apply Nat.ltb_lt. unfold the_damping in Hd. apply nth_error_Some. destruct (nth_error _ l); discriminate. }
  unfold result. rewrite E. cbn [snd pure_result]. now rewrite Hd.
Qed.

(** ... and [dftd4] on the class of the damping object and the arguments. *)
Theorem C43_dftd4_after_any_history : forall history l d a model cn cf,
  the_damping (after X W history) l = Some d ->
  result X W (after X W history) (CallDftd4 a model cn cf l)
  = rmap Some (dftd4 X W (a_numbers a) (a_positions a) (a_charge a) (a_param a) model
                 (a_rcov a) (a_r4r2 a) (a_rvdw a) (a_q a) (a_cutoff a) cn cf d).
Proof.
  intros h l d a model cn cf Hd. pose proof (after_wf X W h) as Hw.
  destruct (call_step X W (after X W h) (CallDftd4 a model cn cf l) Hw eq_refl) as (s' & E & _).
  { cbn [possible]. apply Nat.ltb_lt. unfold the_damping in Hd. apply nth_error_Some. destruct (nth_error _ l); discriminate. }
  unfold result. rewrite E. cbn [snd pure_result]. now rewrite Hd.
Qed.

(** the classes of the damping objects never change *)
Lemma step_damping s e : wf s -> exists r, map o_class (s_damp (step X W s e)) = (map o_class (s_damp s) ++ r)%list.
Proof.
  intros Hw. unfold step. assert (Z : forall l : list (Damping K), exists r, l = (l ++ r)%list) by (intros l; exists []; now rewrite app_nil_r).
  destruct (possible s e) eqn:Hp; [|apply Z]. destruct (is_call e) eqn:Hc.
  { destruct (call_step X W s e Hw Hc Hp) as (s1 & -> & (S & _)). cbn [fst]. rewrite <- S. apply Z. }
  destruct e; try discriminate; cbn [possible] in Hp.
  - cbn. rewrite map_app. eexists. reflexivity.
  - cbn. apply Z.
  - destruct (possible_terms s TERMS Hp) as (vs & Ev). pose proof (new_disp_step X W s TERMS model kw cn_fn cn_kw vs Ev) as Q.
    destruct (new_disp W [] model kw cn_fn cn_kw); [|rewrite Q; apply Z]. destruct Q as (s' & -> & Ed & _). cbn [fst]. rewrite Ed. apply Z.
  - apply andb_true_iff in Hp as (H1 & H2). apply Nat.ltb_lt in H1, H2.
    destruct (wf_disp s i Hw H1) as (p & Ep). destruct (wf_term s t Hw H2) as (v & Ev).
    destruct (register_step X W s i t p v Ep Ev) as (s' & -> & E1 & _). cbn [fst]. rewrite E1. apply Z.
  - apply andb_true_iff in Hp as (H1 & H2). apply Nat.ltb_lt in H1, H2.
    destruct (wf_disp s i Hw H1) as (p & Ep). destruct (wf_term s t Hw H2) as (v & Ev).
    pose proof (deregister_step X W s i t p v Ep Ev) as Q. destruct (deregister p v).
    + destruct Q as (s' & -> & E1 & _). cbn [fst]. rewrite E1. apply Z.
    + destruct Q as (_ & ->). apply Z.
Qed.
Lemma after_damping h : exists r, map o_class (s_damp (after X W h)) = (map o_class (s_damp (import X)) ++ r)%list.
Proof.
  induction h as [|e h IH] using rev_ind; [exists []; now rewrite app_nil_r|].
  rewrite after_snoc. destruct IH as (r & E). destruct (step_damping (after X W h) e (after_wf X W h)) as (r' & E').
  rewrite E'. rewrite E. exists (r ++ r')%list. now rewrite app_assoc.
Qed.
Lemma after_import h l d : the_damping (import X) l = Some d -> the_damping (after X W h) l = Some d.
Proof.
  intros E. unfold the_damping in *. rewrite <- nth_error_map in *. destruct (after_damping h) as (r & ->). now apply nth_app_old.
Qed.

(** Whatever has been done before, a new [DispD4] object (and the other classes of the package) is
    what it is in a fresh interpreter, and computes what the closed model [DispD4] computes. *)
Definition class_of (TERMS : list term_obj) (terms : list (DispTerm N)) : Prop :=
  In (TERMS, terms) [(TERMS_D4, terms_d4 X); (TERMS_D4Exact, terms_d4_exact X);
                     (TERMS_D3BJ, terms_d3bj X); (TERMS_D3Zero, terms_d3zero X)].
Theorem C43_new_object_after_any_history : forall history TERMS terms model kw cnf cnk,
  class_of TERMS terms ->
  let s := after X W history in
  let i := List.length (s_disps s) in
  match new_disp W terms model kw cnf cnk with
  | Ok p => result X W s (NewDisp TERMS model kw cnf cnk) = Ok None /\
            the_disp (after X W (history ++ [NewDisp TERMS model kw cnf cnk])%list) i = Some p
  | Raise e => result X W s (NewDisp TERMS model kw cnf cnk) = Raise e
  end.
Proof.
  intros h TERMS terms model kw cnf cnk HT s i.
  assert (Ev : all (map (term_in s) TERMS) = Some terms).
  { destruct HT as [E|[E|[E|[E|[]]]]]; injection E as <- <-; cbn [map TERMS_D4 TERMS_D4Exact TERMS_D3BJ TERMS_D3Zero]; unfold term_in; cbn [o_damping o_tclass o_cdep];
    unfold s; erewrite !after_import by reflexivity; reflexivity. }
  pose proof (new_disp_step X W s TERMS model kw cnf cnk terms Ev) as H.
  assert (Q : new_disp W terms model kw cnf cnk = rmap (fun p => with_terms p terms) (new_disp W [] model kw cnf cnk)).
  { unfold new_disp. destruct model as [st|m]; cbn [bind].
    - destruct (raise_if _ _); cbn [bind]; [|reflexivity]. destruct cnf as [f|]; [reflexivity|]. destruct (pick_cn _ _); reflexivity.
    - destruct cnf as [f|]; [reflexivity|]. destruct (pick_cn _ _); reflexivity. }
  rewrite Q. rewrite after_snoc. fold s. unfold result, step.
  assert (Hp : possible s (NewDisp TERMS model kw cnf cnk) = true).
  { cbn [possible]. apply forallb_forall. intros t Ht. apply Nat.ltb_lt.
    assert (L : exists v, term_in s t = Some v).
    { clear -Ev Ht. revert terms Ev. induction TERMS as [|x l IH]; intros r E; [destruct Ht|]. cbn [map] in E. apply all_cons in E as (v & r' & E1 & E2 & _).
      destruct Ht as [->|Ht]; eauto. }
    destruct L as (v & L). unfold term_in, the_damping in L. apply nth_error_Some. destruct (nth_error _ (o_damping t)); discriminate. }
  rewrite Hp. destruct (new_disp W [] model kw cnf cnk) as [conf|x]; cbn [rmap bind].
  - destruct H as (s' & -> & _ & _ & _ & E). cbn [fst snd]. split; [reflexivity|exact E].
  - rewrite H. reflexivity.
Qed.

(** *** C17 *)
(** Only [register] and [deregister] on the object itself change it. *)
Theorem C17_other_objects_unaffected : forall history e i p,
  the_disp (after X W history) i = Some p ->
  (forall t, e <> Register i t) -> (forall t, e <> Deregister i t) ->
  the_disp (after X W (history ++ [e])%list) i = Some p.
Proof.
  intros h e i p Hp H1 H2. rewrite after_snoc. pose proof (after_wf X W h) as Hw. set (s := after X W h) in *. unfold step.
  destruct (possible s e) eqn:Hq; [|exact Hp]. destruct (is_call e) eqn:Hc.
  { destruct (call_step X W s e Hw Hc Hq) as (s1 & -> & S). cbn [fst]. now rewrite <- (sim_disp s s1 i S). }
  destruct e; try discriminate; cbn [possible] in Hq.
  - cbn. eapply the_disp_grow with (tl := []) (ql := []); [reflexivity| | |exact Hp]; symmetry; apply app_nil_r.
  - cbn. eapply the_disp_grow with (dl := []) (ql := []); [ |reflexivity| |exact Hp]; symmetry; apply app_nil_r.
  - destruct (possible_terms s TERMS Hq) as (vs & Ev). pose proof (new_disp_step X W s TERMS model kw cn_fn cn_kw vs Ev) as Q.
    destruct (new_disp W [] model kw cn_fn cn_kw); [|now rewrite Q]. destruct Q as (s' & -> & Ed & Et & (o & Eo) & _). cbn [fst].
    eapply the_disp_grow with (dl := []); [rewrite Ed; symmetry; apply app_nil_r|exact Et|exact Eo|exact Hp].
  - apply andb_true_iff in Hq as (L1 & L2). apply Nat.ltb_lt in L1, L2.
    destruct (wf_disp s i0 Hw L1) as (p0 & Ep). destruct (wf_term s t Hw L2) as (v & Ev).
    destruct (register_step X W s i0 t p0 v Ep Ev) as (s' & -> & _ & _ & _ & E). cbn [fst]. rewrite E.
    destruct (Nat.eqb_spec i i0) as [->|]; [|exact Hp]. now destruct (H1 t).
  - apply andb_true_iff in Hq as (L1 & L2). apply Nat.ltb_lt in L1, L2.
    destruct (wf_disp s i0 Hw L1) as (p0 & Ep). destruct (wf_term s t Hw L2) as (v & Ev).
    pose proof (deregister_step X W s i0 t p0 v Ep Ev) as Q. destruct (deregister p0 v).
    + destruct Q as (s' & -> & _ & _ & _ & E). cbn [fst]. rewrite E. destruct (Nat.eqb_spec i i0) as [->|]; [|exact Hp]. now destruct (H2 t).
    + destruct Q as (_ & ->). exact Hp.
Qed.

(** [register] appends the term. *)
Theorem C17_register : forall history i t p v,
  the_disp (after X W history) i = Some p -> the_term (after X W history) t = Some v ->
  result X W (after X W history) (Register i t) = Ok None /\
  the_disp (after X W (history ++ [Register i t])%list) i = Some (with_terms p (p_terms p ++ [v])%list).
Proof.
  intros h i t p v Hp Hv. destruct (register_step X W _ i t p v Hp Hv) as (s' & E & _ & _ & _ & H).
  unfold result. rewrite after_snoc. unfold step. cbn [possible].
  rewrite (proj2 (Nat.ltb_lt _ _) (the_disp_len _ _ _ Hp)), (proj2 (Nat.ltb_lt _ _) (the_term_len _ _ _ Hv)). cbn [andb].
  rewrite E. split; [reflexivity|]. cbn [fst]. rewrite H, Nat.eqb_refl. reflexivity.
Qed.

(** [deregister] removes exactly one term of the same class, damping class and charge dependence,
    the others are kept in their order; it raises [ValueError] and changes nothing if there is no
    such term. *)
Theorem C17_deregister : forall history i t p v,
  the_disp (after X W history) i = Some p -> the_term (after X W history) t = Some v ->
  let h' := (history ++ [Deregister i t])%list in
  (forall l v' r, p_terms p = (l ++ v' :: r)%list -> sort_of v' = sort_of v -> (forall u, In u l -> sort_of u <> sort_of v) ->
     result X W (after X W history) (Deregister i t) = Ok None /\
     the_disp (after X W h') i = Some (with_terms p (l ++ r)%list)) /\
  ((forall u, In u (p_terms p) -> sort_of u <> sort_of v) ->
     result X W (after X W history) (Deregister i t) = Raise ValueError /\ after X W h' = after X W history).
Proof.
  intros h i t p v Hp Hv h'. pose proof (deregister_step X W _ i t p v Hp Hv) as Q.
  unfold h', result. rewrite after_snoc. unfold step. cbn [possible].
  rewrite (proj2 (Nat.ltb_lt _ _) (the_disp_len _ _ _ Hp)), (proj2 (Nat.ltb_lt _ _) (the_term_len _ _ _ Hv)). cbn [andb].
  assert (L1 : forall l v' r, sort_of v' = sort_of v -> (forall u, In u l -> sort_of u <> sort_of v) -> list_remove (l ++ v' :: r) v = Ok (l ++ r)%list).
  { induction l as [|x l IH]; intros v' r E Hu; cbn [app list_remove]; rewrite term_eqb_sort.
    - now rewrite (proj2 (sort_eqb_eq _ _) E).
    - destruct (sort_eqb (sort_of x) (sort_of v)) eqn:Ex.
      + apply sort_eqb_eq in Ex. destruct (Hu x (or_introl eq_refl) Ex).
      + rewrite IH; auto. intros u Iu. apply Hu. now right. }
  assert (L2 : forall l, (forall u, In u l -> sort_of u <> sort_of v) -> list_remove l v = Raise ValueError).
  { induction l as [|x l IH]; intros Hu; cbn [list_remove]; [reflexivity|]. rewrite term_eqb_sort.
    destruct (sort_eqb (sort_of x) (sort_of v)) eqn:Ex.
    - apply sort_eqb_eq in Ex. destruct (Hu x (or_introl eq_refl) Ex).
    - rewrite IH; auto. intros u Iu. apply Hu. now right. }
  unfold deregister in Q. split.
  - intros l v' r E Es Hu. rewrite E in Q. rewrite (L1 l v' r Es Hu) in Q. cbn [bind] in Q. destruct Q as (s' & -> & _ & _ & _ & H).
    split; [reflexivity|]. cbn [fst]. rewrite H, Nat.eqb_refl. reflexivity.
  - intros Hu. rewrite (L2 _ Hu) in Q. cbn [bind] in Q. destruct Q as (_ & ->). split; reflexivity.
Qed.

(** After any history, the number of registered terms of each sort is the one obtained by
    counting the operations. *)
Theorem C17_counts : forall history i p,
  the_disp (after X W history) i = Some p ->
  exists c, nth_error (c_disps (counted X W history)) i = Some c /\
    forall k, List.length (filter (fun t => sort_eqb k (sort_of t)) (p_terms p)) = c k.
Proof.
  intros h i p Hp. destruct (n_disps _ _ (after_counts X W h) i p Hp) as (f & Ef & Hf). exists f. split; [exact Ef|].
  intros k. symmetry. apply Hf.
Qed.

(** [deregister] raises exactly if the counter is zero. *)
Theorem C17_deregister_raises_iff_none : forall history i t c k,
  nth_error (c_disps (counted X W history)) i = Some c ->
  nth_error (c_terms (counted X W history)) t = Some k ->
  result X W (after X W history) (Deregister i t) = if Nat.eqb (c k) 0 then Raise ValueError else Ok None.
Proof.
  intros h i t c k Hc Hk. pose proof (after_counts X W h) as C. pose proof (after_wf X W h) as Hw.
  assert (Li : (i < List.length (s_disps (after X W h)))%nat) by (rewrite <- (n_len _ _ C); apply nth_error_Some; congruence).
  destruct (wf_disp _ i Hw Li) as (p & Hp). destruct (n_disps _ _ C i p Hp) as (f & Ef & Hf). rewrite Hc in Ef. injection Ef as <-.
  rewrite (n_terms _ _ C) in Hk. destruct (the_term (after X W h) t) as [v|] eqn:Hv; [|discriminate]. injection Hk as <-.
  pose proof (deregister_step X W _ i t p v Hp Hv) as Q. pose proof (list_remove_number (p_terms p) v) as L.
  unfold deregister in Q. unfold result. rewrite Hf. destruct (list_remove (p_terms p) v); cbn [bind] in Q.
  - destruct Q as (s' & -> & _). destruct L as (L & _). destruct (number (sort_of v) (p_terms p)); [lia|reflexivity].
  - destruct Q as (_ & ->). destruct L as (_ & ->). reflexivity.
Qed.
End P.

(** ** Energies over the reals *)
Section R.
Context {eps mx : R}.
Notation N := (RN eps mx).
Notation K := (sc N).
Context (X : Ext K) (W : World N).

(** the sorts of terms that can be made with the damping functions of the package, and the term
    of each sort *)
Definition dampings : list (Damping K) := [RationalDamping; ZeroDamping X; MZeroDamping X; OptimisedPowerDamping].
Definition package_terms : list (DispTerm N) :=
  map (fun x => mkTerm (fst (fst x)) (snd (fst x)) (snd x))
    (list_prod (list_prod [TwoBodyTerm; D4ATMApprox; D4ATMExact; D3ATM] dampings) [true; false]).

Lemma package_terms_in t : package_damping X (t_damping t) -> In t package_terms.
Proof.
  intros H. destruct t as [c d b]. apply in_map_iff. exists (c, d, b). split; [reflexivity|].
  apply in_prod; [apply in_prod|].
  - destruct c; cbn [In]; auto.
  - exact H.
  - destruct b; cbn [In]; auto.
Qed.
Lemma package_sorts_nodup : NoDup (map sort_of package_terms).
Proof.
  assert (G : forall l : list sort, (fix nd l := match l with [] => true | x :: l => negb (existsb (sort_eqb x) l) && nd l end) l = true -> NoDup l).
  { induction l as [|x l IH]; intros H; constructor.
    - apply andb_true_iff in H as (H & _). apply negb_true_iff in H. intros I.
      assert (Q : existsb (sort_eqb x) l = true) by (apply existsb_exists; exists x; split; [exact I|now apply sort_eqb_eq]). congruence.
    - apply IH. now apply andb_true_iff in H as (_ & H). }
  apply G. reflexivity.
Qed.
Lemma sort_inj t t' : In t package_terms -> In t' package_terms -> sort_of t = sort_of t' -> t = t'.
Proof.
  pose proof package_sorts_nodup as ND. revert t t'. generalize dependent package_terms. intros l ND.
  induction l as [|x l IH]; intros t t' H H' E; [destruct H|]. cbn [map] in ND. apply NoDup_cons_iff in ND as (N1 & N2).
  destruct H as [->|H], H' as [<-|H']; auto.
  - destruct N1. rewrite E. now apply in_map.
  - destruct N1. rewrite <- E. now apply in_map.
Qed.

Lemma lsum_counts (g : DispTerm N -> R) L : NoDup (map sort_of L) -> forall ts, (forall t, In t ts -> In t L) ->
  lsum (map g ts) = lsum (map (fun t => (INR (number (sort_of t) ts) * g t)%R) L).
Proof.
  intros ND. assert (Z : forall (L : list (DispTerm N)), lsum (map (fun t => (INR 0 * g t)%R) L) = 0%R).
  { induction L0 as [|x l IH]; [reflexivity|]. cbn [map lsum fold_right]. unfold lsum in IH. rewrite IH. cbn [INR]. lra. }
  induction ts as [|s ts IH]; intros H.
  - symmetry. exact (Z L).
  - cbn [map lsum fold_right]. fold (lsum (map g ts)). rewrite IH by (intros; apply H; now right).
    specialize (H s (or_introl eq_refl)). clear IH. revert ND H. induction L as [|x l IHl]; intros ND I; [destruct I|].
    cbn [map] in ND. apply NoDup_cons_iff in ND as (N1 & N2). cbn [map lsum fold_right].
    fold (lsum (map (fun t => (INR (number (sort_of t) ts) * g t)%R) l)). fold (lsum (map (fun t => (INR (number (sort_of t) (s :: ts)) * g t)%R) l)).
    destruct I as [->|I].
    + rewrite number_cons. unfold bump. rewrite (proj2 (sort_eqb_eq _ _) eq_refl), S_INR.
      replace (lsum (map (fun t => (INR (number (sort_of t) (s :: ts)) * g t)%R) l)) with (lsum (map (fun t => (INR (number (sort_of t) ts) * g t)%R) l)).
      * lra.
      * f_equal. apply map_ext_in. intros t It. rewrite number_cons. unfold bump.
        destruct (sort_eqb (sort_of s) (sort_of t)) eqn:E; [|reflexivity]. apply sort_eqb_eq in E. destruct N1. rewrite E. now apply in_map.
    + rewrite <- IHl by auto. rewrite number_cons. unfold bump.
      destruct (sort_eqb (sort_of s) (sort_of x)) eqn:E.
      * apply sort_eqb_eq in E. destruct N1. rewrite <- E. now apply in_map.
      * lra.
Qed.

Lemma disp_term_package h i p : package_only X h -> the_disp (after X W h) i = Some p ->
  forall t, In t (p_terms p) -> In t package_terms.
Proof.
  intros HP Hp t It. apply package_terms_in. unfold the_disp in Hp. destruct (nth_error _ i) as [o|]; [|discriminate].
  destruct (all _) as [ts|] eqn:Ea; [|discriminate]. injection Hp as <-. cbn [with_terms p_terms] in It.
  assert (Ex : exists x, the_term (after X W h) x = Some t).
  { revert ts Ea It. induction (o_terms o) as [|y l IH]; intros ts Ea It.
    - injection Ea as <-. destruct It.
    - cbn [map] in Ea. apply all_cons in Ea as (v & r & E1 & E2 & ->). destruct It as [->|It]; eauto. }
  destruct Ex as (x & Ex). unfold the_term in Ex. destruct (nth_error _ x) as [o'|]; [|discriminate].
  destruct (the_damping _ (o_damping o')) as [d|] eqn:Ed; [|discriminate]. injection Ex as <-. cbn [t_damping].
  now apply (after_package X W h HP (o_damping o')).
Qed.

(** *** C17: after any history the energy is the sum over the sorts of terms, each term counted as
    often as it is registered, of the energy that one term of this sort gives alone. *)
Theorem C17_energy_of_multiset : forall history i p c a kind kw n d B,
  package_only X history -> the_disp (after X W history) i = Some p ->
  nth_error (c_disps (counted X W history)) i = Some c ->
  ext_tables X -> well_formed X W p a kind kw n d B ->
  exists e (E : DispTerm N -> tensor K),
    result X W (after X W history) (Calculate i a) = Ok (Some e) /\ shp e = n :: B /\
    (forall t, In t package_terms -> (0 < c (sort_of t))%nat ->
       run X W (with_terms p [t]) (q_if (t_cdep t) a) = Ok (E t)) /\
    forall b j, valid B b -> (j < n)%nat ->
      sl1 e b j = lsum (map (fun t => (INR (c (sort_of t)) * sl1 (E t) b j)%R) package_terms).
Proof.
  intros h i p c a kind kw n d B HP Hp Hc HX WF.
  destruct (C46_energy_is_sum_of_terms X W p a kind kw n d B HX WF) as (e & es & He & Se & Fs & De).
  pose proof (disp_term_package h i p HP Hp) as PT. pose proof (C17_counts X W h i p Hp) as (c' & Ec & Hn). rewrite Hc in Ec. injection Ec as <-.
  exists e, (fun t => match run X W (with_terms p [t]) (q_if (t_cdep t) a) with Ok x => x | Raise _ => scal (flit 0) end).
  split; [|split; [exact Se|split]].
  - rewrite (C43_calculate_after_any_history X W h i p a Hp), He. reflexivity.
  - intros t It Ht. assert (I : In t (p_terms p)).
    { rewrite <- Hn in Ht. destruct (filter _ _) as [|x l] eqn:Ef; [cbn in Ht; lia|].
      assert (Ix : In x (filter (fun t0 => sort_eqb (sort_of t) (sort_of t0)) (p_terms p))) by (rewrite Ef; now left).
      apply filter_In in Ix as (Ix & Es). apply sort_eqb_eq in Es. rewrite (sort_inj t x It (PT x Ix) Es). exact Ix. }
    clear -Fs I. induction Fs as [|x y l l' (Hx & _) _ IH]; [destruct I|]. destruct I as [->|I]; [|auto]. rewrite Hx. reflexivity.
  - intros b j Hb Hj. rewrite De by auto.
    set (g := fun t => (sl1 (match run X W (with_terms p [t]) (q_if (t_cdep t) a) with Ok x => x | Raise _ => scal (flit 0) end) b j) : R).
    transitivity (lsum (map g (p_terms p))).
    + f_equal. clear -Fs. induction Fs as [|x y l l' (Hx & _) _ IH]; [reflexivity|]. cbn [map]. rewrite IH. f_equal. unfold g. now rewrite Hx.
    + rewrite (lsum_counts g package_terms package_sorts_nodup (p_terms p) PT). f_equal. apply map_ext. intros t. unfold g. rewrite <- Hn. reflexivity.
Qed.

(** Hence the order of registration does not matter, nor what was registered and removed again:
    equal counters and the same configuration give the same energies. *)
Theorem C17_energy_depends_on_counts_only : forall h h' i i' p p' c c' a kind kw n d B,
  package_only X h -> package_only X h' ->
  the_disp (after X W h) i = Some p -> the_disp (after X W h') i' = Some p' ->
  with_terms p [] = with_terms p' [] ->
  nth_error (c_disps (counted X W h)) i = Some c -> nth_error (c_disps (counted X W h')) i' = Some c' ->
  (forall k, c k = c' k) ->
  ext_tables X -> well_formed X W p a kind kw n d B ->
  exists e e', result X W (after X W h) (Calculate i a) = Ok (Some e) /\
    result X W (after X W h') (Calculate i' a) = Ok (Some e') /\
    shp e = n :: B /\ shp e' = n :: B /\
    forall b j, valid B b -> (j < n)%nat -> sl1 e b j = sl1 e' b j.
Proof.
  intros h h' i i' p p' c c' a kind kw n d B P P' Hp Hp' Same Hc Hc' EQ HX WF.
  assert (SP : forall ts, with_terms p ts = with_terms p' ts).
  { intros ts. apply (f_equal (fun q => with_terms q ts)) in Same. exact Same. }
  assert (INC : forall q q' hh hh' k k' cc cc', package_only X hh -> package_only X hh' ->
     the_disp (after X W hh) k = Some q -> the_disp (after X W hh') k' = Some q' ->
     nth_error (c_disps (counted X W hh)) k = Some cc -> nth_error (c_disps (counted X W hh')) k' = Some cc' ->
     (forall s, cc s = cc' s) -> forall t, In t (p_terms q) -> In t (p_terms q')).
  { intros q q' hh hh' k k' cc cc' Ph Ph' Hq Hq' Hcc Hcc' Q t It.
    destruct (C17_counts X W hh k q Hq) as (x & Ex & Hx). rewrite Hcc in Ex. injection Ex as <-.
    destruct (C17_counts X W hh' k' q' Hq') as (x & Ex & Hx'). rewrite Hcc' in Ex. injection Ex as <-.
    specialize (Hx (sort_of t)). specialize (Hx' (sort_of t)). rewrite <- Q, <- Hx in Hx'.
    destruct (filter (fun u => sort_eqb (sort_of t) (sort_of u)) (p_terms q')) as [|u l] eqn:Ef.
    - exfalso. assert (I : In t (filter (fun u => sort_eqb (sort_of t) (sort_of u)) (p_terms q))) by (apply filter_In; split; [exact It|now apply sort_eqb_eq]).
      destruct (filter _ (p_terms q)); [destruct I|discriminate].
    - assert (Iu : In u (filter (fun u => sort_eqb (sort_of t) (sort_of u)) (p_terms q'))) by (rewrite Ef; now left).
      apply filter_In in Iu as (Iu & Es). apply sort_eqb_eq in Es.
      rewrite (sort_inj t u); auto; [apply (disp_term_package hh k q Ph Hq); auto|apply (disp_term_package hh' k' q' Ph' Hq'); auto]. }
  pose proof (INC p p' h h' i i' c c' P P' Hp Hp' Hc Hc' EQ) as I1.
  pose proof (INC p' p h' h i' i c' c P' P Hp' Hp Hc' Hc (fun k => eq_sym (EQ k))) as I2.
  assert (WF' : well_formed X W p' a kind kw n d B).
  { assert (F1 : p_cn_fn p = p_cn_fn p') by (apply (f_equal p_cn_fn) in Same; exact Same).
    assert (F2 : p_cn_kw p = p_cn_kw p') by (apply (f_equal p_cn_kw) in Same; exact Same).
    assert (F3 : p_key p = p_key p') by (apply (f_equal p_key) in Same; exact Same).
    assert (F4 : p_inst p = p_inst p') by (apply (f_equal p_inst) in Same; exact Same).
    assert (F5 : p_kw p = p_kw p') by (apply (f_equal p_kw) in Same; exact Same).
    destruct WF. constructor; auto.
    - intros Q. destruct (wf_q_used Q) as (t & It & Et). exists t. auto.
    - unfold model_from in *. rewrite <- F3, <- F4, <- F5. exact wf_model.
    - rewrite <- F1, <- F2. exact wf_cn.
    - intros Q (t & It & Et). apply wf_eeq; [exact Q|]. exists t. auto. }
  destruct (C17_energy_of_multiset h i p c a kind kw n d B P Hp Hc HX WF) as (e & E & He & Se & HE & De).
  destruct (C17_energy_of_multiset h' i' p' c' a kind kw n d B P' Hp' Hc' HX WF') as (e' & E' & He' & Se' & HE' & De').
  exists e, e'. split; [exact He|]. split; [exact He'|]. split; [exact Se|]. split; [exact Se'|].
  intros b j Hb Hj. rewrite De, De' by auto. f_equal. apply map_ext_in. intros t It. rewrite <- EQ.
  destruct (c (sort_of t)) eqn:Ec; [cbn [INR]; lra|].
  assert (Q : Ok (E t) = Ok (E' t)) by (rewrite <- HE, <- HE' by (rewrite <- ?EQ; auto; lia); now rewrite SP).
  injection Q as ->. reflexivity.
Qed.

(** [register] followed by [deregister] of an equal term restores the energies. *)
Theorem C17_register_deregister : forall h i t t' v v' p a kind kw n d B,
  package_only X h ->
  the_disp (after X W h) i = Some p ->
  the_term (after X W h) t = Some v -> the_term (after X W h) t' = Some v' -> sort_of v = sort_of v' ->
  ext_tables X -> well_formed X W p a kind kw n d B ->
  let h' := (h ++ [Register i t; Deregister i t'])%list in
  result X W (after X W (h ++ [Register i t])%list) (Deregister i t') = Ok None /\
  exists e e', result X W (after X W h) (Calculate i a) = Ok (Some e) /\
    result X W (after X W h') (Calculate i a) = Ok (Some e') /\
    shp e = n :: B /\ shp e' = n :: B /\
    forall b j, valid B b -> (j < n)%nat -> sl1 e b j = sl1 e' b j.
Proof.
  intros h i t t' v v' p a kind kw n d B HP Hp Hv Hv' ES HX WF h'.
  destruct (C17_register X W h i t p v Hp Hv) as (_ & H1).
  set (h1 := (h ++ [Register i t])%list) in *.
  assert (P1 : package_only X h1) by (intros x Ix; apply in_app_iff in Ix as [Ix|[Ix|[]]]; [now apply HP|discriminate]).
  assert (Eh : h' = (h1 ++ [Deregister i t'])%list) by (unfold h1, h'; rewrite <- app_assoc; reflexivity).
  assert (P2 : package_only X h') by (intros x Ix; rewrite Eh in Ix; apply in_app_iff in Ix as [Ix|[Ix|[]]]; [now apply P1|discriminate]).
  assert (Hv1 : the_term (after X W h1) t' = Some v').
  { unfold h1. rewrite after_snoc. unfold step. cbn [possible].
    rewrite (proj2 (Nat.ltb_lt _ _) (the_disp_len _ _ _ Hp)), (proj2 (Nat.ltb_lt _ _) (the_term_len _ _ _ Hv)). cbn [andb].
    destruct (register_step X W _ i t p v Hp Hv) as (s' & -> & E1 & E2 & _). cbn [fst]. now rewrite (the_term_same _ s' t' E1 E2). }
  destruct (C17_counts X W h i p Hp) as (c & Ec & Hn).
  pose proof (after_counts X W h) as C0. pose proof (n_terms _ _ C0 t) as Tt. pose proof (n_terms _ _ C0 t') as Tt'. rewrite Hv in Tt. rewrite Hv' in Tt'. cbn [option_map] in Tt, Tt'.
  assert (C1 : counted X W h1 = count W (counted X W h) (Register i t)) by (unfold counted, h1; now rewrite fold_left_app).
  assert (C2 : counted X W h' = count W (counted X W h1) (Deregister i t')) by (rewrite Eh; unfold counted; now rewrite fold_left_app).
  cbn [count] in C1. rewrite Tt in C1. cbn [count] in C2. rewrite C1 in C2. cbn [c_terms c_disps c_damp] in C2. rewrite Tt' in C2.
  assert (Ec1 : nth_error (c_disps (counted X W h1)) i = Some (bump S (sort_of v) c)).
  { rewrite C1. cbn [c_disps]. now rewrite update_nth, Nat.eqb_refl, Ec. }
  assert (Ec2 : nth_error (c_disps (counted X W h')) i = Some (bump pred (sort_of v') (bump S (sort_of v) c))).
  { rewrite C2. cbn [c_disps]. now rewrite !update_nth, Nat.eqb_refl, Ec. }
  assert (R2 : result X W (after X W h1) (Deregister i t') = Ok None).
  { rewrite (C17_deregister_raises_iff_none X W h1 i t' _ (sort_of v') Ec1); [|rewrite (n_terms _ _ (after_counts X W h1)), Hv1; reflexivity].
    unfold bump. rewrite ES, (proj2 (sort_eqb_eq _ _) eq_refl). reflexivity. }
  split; [exact R2|].
  pose proof (deregister_step X W _ i t' _ v' H1 Hv1) as Q. unfold result in R2.
  destruct (deregister (with_terms p (p_terms p ++ [v])) v') as [p2|x] eqn:Ed; [|destruct Q as (_ & Q); rewrite Q in R2; discriminate].
  destruct Q as (s' & E' & _ & _ & _ & E4).
  assert (Hp2 : the_disp (after X W h') i = Some p2).
  { rewrite Eh, after_snoc. unfold step. cbn [possible].
    rewrite (proj2 (Nat.ltb_lt _ _) (the_disp_len _ _ _ H1)), (proj2 (Nat.ltb_lt _ _) (the_term_len _ _ _ Hv1)). cbn [andb].
    rewrite E'. cbn [fst]. now rewrite E4, Nat.eqb_refl. }
  assert (Same : with_terms p [] = with_terms p2 []).
  { unfold deregister in Ed. destruct (list_remove _ _); cbn [bind] in Ed; [|discriminate]. injection Ed as <-. reflexivity. }
  apply (C17_energy_depends_on_counts_only h h' i i p p2 c _ a kind kw n d B HP P2 Hp Hp2 Same Ec Ec2); auto.
  intros k. unfold bump. rewrite ES. destruct (sort_eqb (sort_of v') k); reflexivity.
Qed.
End R.

(** ** The hypotheses can be met: the object of class [DispD4] of a fresh interpreter, to which
    terms have been added and removed. *)
Section Ex.
Context (eps mx : R).
Notation N := (RN eps mx).
Notation X := (Xex eps mx : Ext (sc N)).
Notation W := (Wex eps mx : World N).
(** [d = DispD4()], [t = TwoBodyTerm()], [u = D4ATMApprox()], a calculation, [d.register(t)] twice,
    a second object, [d.deregister(t)], [d.deregister(ATM)] of the class default and re-registration *)
Definition a_history : list (event N) :=
  [NewDisp TERMS_D4 (MKey "d4") no_kw None None; NewTerm default_two_body; NewTerm (default_atm D4ATMApprox);
   Calculate 0 mol_call; Register 0 2; Register 0 2; NewDisp TERMS_D4 (MKey "D4") no_kw None None;
   Deregister 0 2; Deregister 0 3; CallDftd4 mol_call (MKey "d4") (w_cn_d4 W) (w_erf_count W) 10; Register 0 3; Deregister 0 0].

Example C17_history_example :
  package_only X a_history /\
  the_disp (after X W a_history) 0 = Some (Pex eps mx) /\ the_disp (after X W a_history) 1 = Some (Pex eps mx) /\
  well_formed (N := N) X W (Pex eps mx) mol_call D4M no_kw 3 3 [2%nat] /\ ext_tables X /\
  option_map (fun c => (c (TwoBodyTerm, "RationalDamping", true), c (D4ATMApprox, "ZeroDamping", false), c (D3ATM, "ZeroDamping", false)))
    (nth_error (c_disps (counted X W a_history)) 0) = Some (1, 1, 0)%nat /\
  the_term (after X W a_history) 2 = Some (mkTerm TwoBodyTerm RationalDamping true) /\
  the_term (after X W a_history) 0 = Some (mkTerm TwoBodyTerm RationalDamping true).
Proof.
  destruct (C43_calls_change_no_object X W a_history) as (Hd & Ht & _). rewrite !Hd, !Ht. clear Hd Ht.
  split; [|split; [|split; [|split; [|split; [|split; [|split]]]]]].
  - intros d Hd. cbn [a_history In] in Hd. repeat (destruct Hd as [Hd|Hd]; [discriminate|]). destruct Hd.
  - reflexivity.
  - reflexivity.
  - apply mol_wf.
  - apply Xex_tables.
  - reflexivity.
  - reflexivity.
  - reflexivity.
Qed.

(** the history above with calls, followed by a calculation or a removal *)
Example C43_history_example :
  possible (after X W a_history) (Calculate 0 mol_call) = true /\
  possible (after X W a_history) (Deregister 0 2) = true /\
  existsb is_call a_history = true /\
  the_damping (after X W a_history) dftd4_default_damping = Some RationalDamping.
Proof.
  destruct C17_history_example as (_ & H & _ & _ & _ & _ & Ht & _).
  split; [|split; [|split]].
  - cbn [possible]. apply Nat.ltb_lt. exact (the_disp_len _ _ _ H).
  - cbn [possible]. apply andb_true_iff. split; apply Nat.ltb_lt; [exact (the_disp_len _ _ _ H)|exact (the_term_len _ _ _ Ht)].
  - reflexivity.
  - now apply after_import.
Qed.
End Ex.

Print Assumptions C43_calls_do_not_matter.
Print Assumptions C43_calls_change_no_object.
Print Assumptions C43_calculate_after_any_history.
Print Assumptions C43_damping_after_any_history.
Print Assumptions C43_dftd4_after_any_history.
Print Assumptions C43_new_object_after_any_history.
Print Assumptions C17_other_objects_unaffected.
Print Assumptions C17_register.
Print Assumptions C17_deregister.
Print Assumptions C17_counts.
Print Assumptions C17_deregister_raises_iff_none.
Print Assumptions C17_energy_of_multiset.
Print Assumptions C17_energy_depends_on_counts_only.
Print Assumptions C17_register_deregister.
