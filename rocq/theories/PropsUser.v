(** * User-defined terms (C75) *)
From Coq Require Import Reals Lra Lia List Arith ZArith QArith Qreals Bool String Permutation.
From Verif Require Import Py Tensor Scalar RInst ModelExt ModelUtils ModelDamping ModelModels ModelTerms ModelDisp ModelUser
  SpecCall SpecR TensorLemmas ClosedDamp PropsEnergy Inst.
Import ListNotations.
Open Scope R_scope.

(** ** Specification *)
Section S.
Context {N : Num} (X : Ext (sc N)) (W : World N).
Notation K := (sc N).

(** a call of [calculate] on an object [p] with the terms [ts] *)
Definition run_u (p : Disp N) (ts : list (uterm N)) (a : Args N) : res (tensor K) :=
  calculate_u X W p ts (a_numbers a) (a_positions a) (a_charge a) (a_param a) (a_cutoff a)
    (a_q a) (a_rcov a) (a_r4r2 a) (a_rvdw a).

(** the method [calculate] uses charges only if the object says so *)
Definition honest (t : uterm N) : Prop :=
  u_cdep t = false -> forall numbers positions param cn model q r4r2 rvdw cutoff,
    u_calc (u_class t) (u_damping t) false numbers positions param cn model q r4r2 rvdw cutoff =
    u_calc (u_class t) (u_damping t) false numbers positions param cn model None r4r2 rvdw cutoff.

(** the result of a term alone *)
Definition alone (p : Disp N) (a : Args N) (n : nat) (B : list nat) (t : uterm N) (e : tensor K) : Prop :=
  run_u p [t] (q_if (u_cdep t) a) = Ok e /\ shp e = (n :: B)%list.

(** ** The classes of the package *)
(** Objects of the four classes of the package behave as in the other files. *)
Definition packaged (t : DispTerm N) : res (uterm N) := new_term X (t_class t) (t_damping t) (t_cdep t).

Lemma add_terms_map {A B} (g : A -> B) calc ts : forall e : tensor K,
  add_terms e (map g ts) calc = add_terms e ts (fun t => calc (g t)).
Proof. induction ts as [|t ts IH]; intros e; cbn [add_terms map]; [reflexivity|]. destruct (tadd _ _); cbn [bind]; auto. Qed.
Lemma add_terms_ext {A} (f g : A -> res (tensor K)) ts : (forall t, In t ts -> f t = g t) -> forall e, add_terms e ts f = add_terms e ts g.
Proof.
  induction ts as [|t ts IH]; intros H e; cbn [add_terms]; [reflexivity|]. rewrite (H t) by (now left).
  destruct (tadd _ _); cbn [bind]; [|reflexivity]. apply IH. intros u Hu. apply H. now right.
Qed.
Lemma sum_add (calc : DispTerm N -> res (tensor K)) ts : forall e, sum_terms e ts calc = add_terms e ts calc.
Proof. induction ts as [|t ts IH]; intros e; cbn [add_terms sum_terms]; [reflexivity|]. destruct (tadd _ _); cbn [bind]; auto. Qed.

Lemma packaged_ok t : exists u, packaged t = Ok u /\ u_cdep u = t_cdep t /\ u_damping u = t_damping t /\
  u_id (u_class u) = class_id (t_class t) /\
  forall numbers positions param cn model q r4r2 rvdw cutoff,
    u_calc (u_class u) (u_damping u) (u_cdep u) numbers positions param cn model q r4r2 rvdw cutoff =
    term_calculate X t numbers positions param cn model q r4r2 rvdw cutoff.
Proof.
  destruct t as [c d cd]. destruct c; unfold packaged; cbn; eexists; (split; [reflexivity|]); repeat (split; [reflexivity|]);
    intros; cbn [u_calc u_class]; unfold two_body_calc, atm_calc, get_c9_approx, get_c9_exact, get_radii_bj, get_radii_vdw, term_calculate;
    cbn [t_class t_cdep t_damping u_cdep u_damping u_class u_calc]; [reflexivity| | |];
    (destruct (raise_if (abstract_model model) AttributeError); cbn [bind]; [|reflexivity]);
    (destruct (weight_references X model (Some cn) (if cd then q else None)); cbn [bind]; [|reflexivity]);
    [destruct (get_atomic_c6 model a0)|destruct (get_weighted_pols X model a0)|destruct (get_atomic_c6 model a0)];
    cbn [bind]; reflexivity.
Qed.

Lemma calculate_split (p : Disp N) numbers positions charge param cutoff q rcov r4r2 rvdw :
  calculate X W p numbers positions charge param cutoff q rcov r4r2 rvdw =
  bind (prepare X W p numbers positions charge cutoff q rcov r4r2 rvdw (existsb (@t_cdep N) (p_terms p))) (fun pr =>
    let '(cutoff, model, r4r2, rvdw, cn, q) := pr in
    add_terms (mkT (shp numbers) (fun _ => f0)) (p_terms p)
      (fun t => term_calculate X t numbers positions param cn model q r4r2 rvdw cutoff)).
Proof.
  unfold calculate, prepare.
  destruct (check_shape (shp numbers) (tl (shp positions))); cbn [bind]; [|reflexivity].
  destruct (get_model X p numbers); cbn [bind]; [|reflexivity].
  match goal with |- bind ?u _ = _ => destruct u end; cbn [bind]; [|reflexivity].
  match goal with |- bind ?u _ = _ => destruct u end; cbn [bind]; [|reflexivity].
  match goal with |- bind ?u _ = _ => destruct u end; cbn [bind]; [|reflexivity].
  match goal with |- bind ?u _ = _ => destruct u end; cbn [bind]; [|reflexivity].
  match goal with |- bind ?u _ = _ => destruct u end; cbn [bind]; [|reflexivity].
  match goal with |- bind ?u _ = _ => destruct u end; cbn [bind]; [|reflexivity].
  match goal with |- bind ?u _ = _ => destruct u end; cbn [bind]; [|reflexivity].
  match goal with |- bind ?u _ = _ => destruct u as [q'|] end; cbn [bind]; [|reflexivity].
  match goal with |- bind ?u _ = _ => destruct u end; cbn [bind]; [|reflexivity].
  apply sum_add.
Qed.

Theorem C75_package_classes (p : Disp N) :
  exists us, Forall2 (fun t u => packaged t = Ok u) (p_terms p) us /\ forall a, run_u p us a = run X W p a.
Proof.
  assert (G : forall ts, exists us, Forall2 (fun t u => packaged t = Ok u) ts us /\
    existsb u_cdep us = existsb (@t_cdep N) ts /\
    forall e numbers positions param cn model q r4r2 rvdw cutoff,
      add_terms e us (fun u => u_calc (u_class u) (u_damping u) (u_cdep u) numbers positions param cn model q r4r2 rvdw cutoff) =
      add_terms e ts (fun t => term_calculate X t numbers positions param cn model q r4r2 rvdw cutoff)).
  { induction ts as [|t ts (us & F & E & C)]; [exists []; split; [constructor|]; split; reflexivity|].
    destruct (packaged_ok t) as (u & P & Ec & _ & _ & Q). exists (u :: us). split; [now constructor|]. split; [cbn [existsb]; now rewrite Ec, E|].
    intros. cbn [add_terms]. rewrite Q. destruct (tadd _ _); cbn [bind]; [apply C|reflexivity]. }
  destruct (G (p_terms p)) as (us & F & E & C). exists us. split; auto. intros a.
  unfold run_u, run, calculate_u. rewrite calculate_split, E.
  destruct (prepare _ _ _ _ _ _ _ _ _ _ _ _) as [[[[[[co m] r4] rv] cn] q]|]; cbn [bind]; [apply C|reflexivity].
Qed.

(** [==] of two objects of the package is what the other files say. *)
Theorem C75_package_equality t t' u u' : packaged t = Ok u -> packaged t' = Ok u' -> uterm_eqb u u' = term_eqb t t'.
Proof.
  intros P P'. destruct (packaged_ok t) as (v & E & C & D & I & _). destruct (packaged_ok t') as (v' & E' & C' & D' & I' & _).
  rewrite P in E. injection E as <-. rewrite P' in E'. injection E' as <-.
  unfold uterm_eqb, term_eqb. rewrite C, C', D, D', I, I'. now destruct (t_class t), (t_class t').
Qed.

(** ** Mixins: an object can be made iff both methods are defined before [ATM]; the first definitions count *)
Definition first_def {A} (get : methods N -> option A) (l : list (methods N)) (f : A) : Prop :=
  exists l1 m l2, l = (l1 ++ m :: l2)%list /\ get m = Some f /\ forall m', In m' l1 -> get m' = None.

Lemma in_bases_spec {A} (get : methods N -> option A) before after : forall f,
  in_bases get (map (@Mixin N) before ++ (ATM_ :: after))%list = Some f <-> first_def get before f.
Proof.
  induction before as [|m l IH]; intros f; cbn [map app in_bases].
  - split; [discriminate|]. intros (l1 & m & l2 & E & _). destruct l1; discriminate.
  - destruct (get m) as [g|] eqn:Eg; split.
    + intros H. injection H as <-. exists [], m, l. split; [reflexivity|]. split; auto. intros m' [].
    + intros (l1 & m1 & l2 & E & G & H). destruct l1 as [|x l1].
      * injection E as <- <-. congruence.
      * injection E as <- ->. rewrite H in Eg by (now left). discriminate.
    + intros H. apply IH in H as (l1 & m1 & l2 & -> & G & H). exists (m :: l1), m1, l2. split; [reflexivity|]. split; auto.
      intros m' [<-|I]; auto.
    + intros (l1 & m1 & l2 & E & G & H). apply IH. destruct l1 as [|x l1].
      * injection E as <- <-. congruence.
      * injection E as <- ->. exists l1, m1, l2. split; [reflexivity|]. split; auto. intros m' I. apply H. now right.
Qed.

Lemma attribute_spec {A} (get : methods N -> option A) body before after f :
  attribute get body (map (@Mixin N) before ++ (ATM_ :: after))%list = Some f <-> first_def get (body :: before) f.
Proof. exact (in_bases_spec get (body :: before) after f). Qed.

Theorem C75_mixins id body before after d cdep :
  let bases := (map (@Mixin N) before ++ (ATM_ :: after))%list in
  (forall u, new_atm X id body bases d cdep = Ok u <->
     exists g9 gr, first_def me_c9 (body :: before) g9 /\ first_def me_radii (body :: before) gr /\
       u = mkUTerm (mkUClass id (atm_calc X g9 gr)) d cdep) /\
  (forall e, new_atm X id body bases d cdep = Raise e <-> e = TypeError /\
     ((forall m, In m (body :: before) -> me_c9 m = None) \/ (forall m, In m (body :: before) -> me_radii m = None))).
Proof.
  intros bases.
  assert (NONE : forall A (get : methods N -> option A), attribute get body bases = None <-> forall m, In m (body :: before) -> get m = None).
  { intros A get. split.
    - intros H. assert (Q : forall l, (forall f, ~ first_def get l f) -> forall m, In m l -> get m = None).
      { induction l as [|x l IH]; intros F m []; subst.
        - destruct (get m) eqn:E; auto. destruct (F a). exists [], m, l. split; [reflexivity|]. split; auto. intros m' [].
        - apply IH; auto. intros f (l1 & m1 & l2 & -> & G & Hn). destruct (get x) eqn:Ex.
          + destruct (F a). exists [], x, (l1 ++ m1 :: l2)%list. split; [reflexivity|]. split; auto. intros m' [].
          + destruct (F f). exists (x :: l1), m1, l2. split; [reflexivity|]. split; auto. intros m' [<-|I]; auto. }
      apply Q. intros f Hf. apply (attribute_spec get body before after) in Hf. fold bases in Hf. congruence.
    - intros H. destruct (attribute get body bases) as [f|] eqn:E; auto. apply attribute_spec in E as (l1 & m & l2 & El & G & _).
      rewrite (H m) in G; [discriminate|]. rewrite El. apply in_or_app. right. now left. }
  unfold new_atm. split.
  - intros u. split.
    + destruct (attribute me_c9 body bases) as [g9|] eqn:E9; [|discriminate]. destruct (attribute me_radii body bases) as [gr|] eqn:Er; [|discriminate].
      intros H. injection H as <-. apply attribute_spec in E9, Er. exists g9, gr. auto.
    + intros (g9 & gr & F9 & Fr & ->). apply (attribute_spec me_c9 body before after) in F9. apply (attribute_spec me_radii body before after) in Fr.
      fold bases in F9, Fr. now rewrite F9, Fr.
  - intros e. rewrite <- !NONE.
    destruct (attribute me_c9 body bases) as [g9|]; destruct (attribute me_radii body bases) as [gr|]; split; intros H;
      try discriminate; try (injection H as <-; auto); try (destruct H as (-> & [H|H]); try discriminate; reflexivity).
Qed.

(** ** Equality and removal *)
(** the same class, the same class of damping function, the same charge dependence *)
Definition same_term (t t' : uterm N) : Prop :=
  u_id (u_class t) = u_id (u_class t') /\ d_class (u_damping t) = d_class (u_damping t') /\ u_cdep t = u_cdep t'.

Lemma same_term_spec t t' : uterm_eqb t t' = true <-> same_term t t'.
Proof.
  unfold uterm_eqb, same_term, damping_eqb. rewrite !andb_true_iff, Nat.eqb_eq, String.eqb_eq, eqb_true_iff. tauto.
Qed.

(** [deregister] removes the first equal term and leaves the others as they are; without one it raises. *)
Theorem C75_deregister (l : list (uterm N)) t :
  (forall l', deregister_u l t = Ok l' <-> exists l1 t' l2, l = (l1 ++ t' :: l2)%list /\ l' = (l1 ++ l2)%list /\
     same_term t' t /\ forall x, In x l1 -> ~ same_term x t) /\
  (forall e, deregister_u l t = Raise e <-> e = ValueError /\ forall x, In x l -> ~ same_term x t).
Proof.
  induction l as [|x l [IH1 IH2]]; cbn [deregister_u].
  - split.
    + intros l'. split; [discriminate|]. intros (l1 & t' & l2 & E & _). destruct l1; discriminate.
    + intros e. split; [intros H; injection H as <-; split; auto; intros x []|intros [-> _]; auto].
  - destruct (uterm_eqb x t) eqn:E.
    + apply same_term_spec in E. split.
      * intros l'. split.
        -- intros H. injection H as <-. exists [], x, l. split; [reflexivity|]. split; [reflexivity|]. split; auto.
        -- intros (l1 & t' & l2 & El & -> & S & F). destruct l1 as [|y l1].
           ++ injection El as <- <-. reflexivity.
           ++ injection El as <- ->. destruct (F x); auto. now left.
      * intros e. split; [discriminate|]. intros [_ F]. destruct (F x); auto. now left.
    + assert (NE : ~ same_term x t) by (intros C; apply same_term_spec in C; congruence).
      split.
      * intros l'. split.
        -- destruct (deregister_u l t) as [r|] eqn:Er; cbn [bind]; [|discriminate]. intros H. injection H as <-.
           destruct (proj1 (IH1 r) eq_refl) as (l1 & t' & l2 & -> & -> & S & F). exists (x :: l1), t', l2.
           split; [reflexivity|]. split; [reflexivity|]. split; auto. intros y [<-|I]; auto.
        -- intros (l1 & t' & l2 & El & -> & S & F). destruct l1 as [|y l1].
           ++ injection El as <- <-. contradiction.
           ++ injection El as <- ->. rewrite (proj2 (IH1 (l1 ++ l2)%list)); [reflexivity|]. exists l1, t', l2.
              split; [reflexivity|]. split; [reflexivity|]. split; auto. intros y I. apply F. now right.
      * intros e. split.
        -- destruct (deregister_u l t) as [r|e'] eqn:Er; cbn [bind]; [discriminate|]. intros H. injection H as <-.
           destruct (proj1 (IH2 e') eq_refl) as [-> F]. split; auto. intros y [<-|I]; auto.
        -- intros [-> F]. rewrite (proj2 (IH2 ValueError)); [reflexivity|]. split; auto. intros y I. apply F. now right.
Qed.

(** [register] puts the term behind those registered before, which keep their positions; removing a term
    equal to it undoes the registration, if no term registered before is equal to it. *)
Theorem C75_register (l : list (uterm N)) t :
  (forall k, nth_error (register_u l t) k =
     if (k <? List.length l)%nat then nth_error l k else if (k =? List.length l)%nat then Some t else None) /\
  (forall t', same_term t t' -> (forall x, In x l -> ~ same_term x t') -> deregister_u (register_u l t) t' = Ok l).
Proof.
  unfold register_u. split.
  - intros k. destruct (Nat.ltb_spec k (List.length l)) as [H|H]; [now apply nth_error_app1|].
    rewrite nth_error_app2 by auto. destruct (Nat.eqb_spec k (List.length l)) as [->|H']; [now rewrite Nat.sub_diag|].
    destruct (k - List.length l)%nat as [|x] eqn:E; [lia|]. cbn. now destruct x.
  - intros t' H F. apply (proj2 (proj1 (C75_deregister (l ++ [t])%list t') l)). exists l, t, (@nil (uterm N)).
    split; [reflexivity|]. split; [now rewrite app_nil_r|]. auto.
Qed.

(** The terms of the package keep to their flag. *)
Theorem C75_package_honest t u : packaged t = Ok u -> honest u.
Proof.
  intros P C. destruct (packaged_ok t) as (v & E & Ec & Ed & _ & Q). rewrite P in E. injection E as <-.
  intros. rewrite C in Ec. specialize (Q numbers positions param cn model). rewrite C in Q. rewrite !Q.
  unfold term_calculate. now rewrite <- Ec.
Qed.

(** ** The preparation, in two stages *)
Definition prep1 (p : Disp N) (a : Args N) : res (Cutoff K * Model N * tensor K * tensor K * tensor K) :=
  bind (check_shape (shp (a_numbers a)) (tl (shp (a_positions a)))) (fun _ =>
  bind (get_model X p (a_numbers a)) (fun model =>
  bind (match a_rcov a with None => Ok tt | Some rc => check_shape (shp (a_numbers a)) (shp rc) end) (fun _ =>
  bind (match a_r4r2 a with None => get_r4r2 (a_numbers a) | Some r => Ok r end) (fun r4r2 =>
  bind (check_shape (shp (a_numbers a)) (shp r4r2)) (fun _ =>
  bind (match a_rvdw a with None => get_rvdw X (a_numbers a) | Some r => Ok r end) (fun rvdw =>
  bind (check_shape (shp (a_numbers a)) (tl (shp rvdw))) (fun _ =>
  bind (p_cn_fn p (p_cn_kw p) (a_numbers a) (a_positions a)) (fun cn =>
  Ok (a_cut a, model, r4r2, rvdw, cn))))))))).
Definition prep2 (a : Args N) (q : option (tensor K)) (cd : bool) : res (option (tensor K)) :=
  bind (raise_if (match q with Some _ => negb cd | None => false end) RuntimeError) (fun _ =>
  bind (match q with
        | Some q => Ok (Some q)
        | None => if cd then bind (w_eeq W (a_numbers a) (a_positions a) (a_charge a) (c_cn_eeq (a_cut a))) (fun q => Ok (Some q)) else Ok None
        end) (fun q =>
  bind (match q with None => Ok tt | Some q => check_shape (shp (a_numbers a)) (shp q) end) (fun _ => Ok q))).

Lemma prep1_cut p a pr : prep1 p a = Ok pr -> fst (fst (fst (fst pr))) = a_cut a.
Proof.
  unfold prep1. repeat (match goal with |- bind ?u _ = _ -> _ => destruct u end; cbn [bind]; [|discriminate]). intros H. now injection H as <-.
Qed.

Lemma prepare_stages p a q cd :
  prepare X W p (a_numbers a) (a_positions a) (a_charge a) (a_cutoff a) q (a_rcov a) (a_r4r2 a) (a_rvdw a) cd =
  bind (prep1 p a) (fun pr => bind (prep2 a q cd) (fun q => Ok (pr, q))).
Proof.
  unfold prepare, prep1, prep2. fold (a_cut a).
  repeat (match goal with |- bind ?u _ = _ => destruct u end; cbn [bind]; [|reflexivity]).
  reflexivity.
Qed.

(** what the terms of a list are called with *)
Definition calc_of (a : Args N) (pr : Cutoff K * Model N * tensor K * tensor K * tensor K) (q : option (tensor K)) (t : uterm N) : res (tensor K) :=
  let '(cutoff, model, r4r2, rvdw, cn) := pr in
  u_calc (u_class t) (u_damping t) (u_cdep t) (a_numbers a) (a_positions a) (a_param a) cn model q r4r2 rvdw cutoff.

Lemma run_u_stages p ts a :
  run_u p ts a = bind (prep1 p a) (fun pr => bind (prep2 a (a_q a) (existsb u_cdep ts)) (fun q =>
    add_terms (mkT (shp (a_numbers a)) (fun _ => f0)) ts (calc_of a pr q))).
Proof.
  unfold run_u, calculate_u. rewrite prepare_stages. destruct (prep1 p a) as [[[[[co m] r4] rv] cn]|]; cbn [bind]; [|reflexivity].
  destruct (prep2 _ _ _); cbn [bind]; reflexivity.
Qed.

Lemma run_u_alone p t a :
  run_u p [t] (q_if (u_cdep t) a) = bind (prep1 p a) (fun pr => bind (prep2 a (if u_cdep t then a_q a else None) (u_cdep t)) (fun q =>
    tadd (Ok (mkT (shp (a_numbers a)) (fun _ => f0))) (calc_of a pr q t))).
Proof.
  rewrite run_u_stages. change (prep1 p (q_if (u_cdep t) a)) with (prep1 p a). destruct (prep1 p a) as [pr|]; cbn [bind]; [|reflexivity].
  cbn [existsb]. rewrite orb_false_r. change (prep2 (q_if (u_cdep t) a)) with (prep2 a).
  change (a_q (q_if (u_cdep t) a)) with (if u_cdep t then a_q a else None). destruct (prep2 _ _ _) as [q|]; cbn [bind]; [|reflexivity].
  cbn [add_terms]. change (calc_of (q_if (u_cdep t) a) pr q t) with (calc_of a pr q t). change (a_numbers (q_if (u_cdep t) a)) with (a_numbers a).
  destruct (tadd _ _); reflexivity.
Qed.

Lemma honest_calc a pr t q : honest t -> u_cdep t = false -> calc_of a pr q t = calc_of a pr None t.
Proof. intros H C. unfold calc_of. destruct pr as [[[[co m] r4] rv] cn]. rewrite C. apply (H C). Qed.

(** In a joint call every term does what it does alone. *)
Lemma joint_calc p a pr t q : honest t ->
  prep1 p a = Ok pr -> prep2 a (a_q a) true = Ok q \/ (u_cdep t = false) ->
  run_u p [t] (q_if (u_cdep t) a) = tadd (Ok (mkT (shp (a_numbers a)) (fun _ => f0))) (calc_of a pr q t).
Proof.
  intros Hh H1 H2. rewrite run_u_alone, H1. cbn [bind]. destruct (u_cdep t) eqn:C.
  - destruct H2 as [H2|]; [|discriminate]. now rewrite H2.
  - change (prep2 a None false) with (Ok (A := option (tensor K)) None). cbn [bind]. now rewrite (honest_calc a pr t q).
Qed.

(** ** Failures *)
(** A term that raises alone makes the joint call raise the same exception, if the terms before it
    give energies of the right shape (and no later term is the only one to ask for charges). *)
Theorem C75_failure (p : Disp N) (a : Args N) n B pre t post es e :
  shp (a_numbers a) = (n :: B)%list ->
  (forall t', In t' (pre ++ [t])%list -> honest t') -> (a_q a <> None -> exists t', In t' (pre ++ t :: post)%list /\ u_cdep t' = true) ->
  Forall2 (alone p a n B) pre es ->
  (forall t', In t' post -> u_cdep t' = true -> exists t'', In t'' (pre ++ [t])%list /\ u_cdep t'' = true) ->
  run_u p [t] (q_if (u_cdep t) a) = Raise e ->
  run_u p (pre ++ t :: post)%list a = Raise e.
Proof.
  intros Hs Hh Hq Hal Hp He. rewrite run_u_stages.
  assert (CD : existsb u_cdep (pre ++ t :: post) = existsb u_cdep (pre ++ [t])).
  { apply eq_iff_eq_true. rewrite !existsb_exists. split.
    - intros (t' & I & C). apply in_app_or in I as [I|[<-|I]].
      + exists t'. split; auto. apply in_or_app; auto.
      + exists t. split; auto. apply in_or_app; right; now left.
      + eauto.
    - intros (t' & I & C). exists t'. split; auto. apply in_app_or in I as [I|[<-|[]]]; apply in_or_app; auto. right; now left. }
  set (cd := existsb u_cdep (pre ++ t :: post)) in *.
  assert (Q0 : cd = false -> a_q a = None).
  { intros E. destruct (a_q a) eqn:Eq; auto. destruct Hq as (t' & I & C); [discriminate|].
    assert (cd = true); [apply existsb_exists; eauto|congruence]. }
  destruct (prep1 p a) as [pr|e'] eqn:E1; cbn [bind]; [|rewrite run_u_alone, E1 in He; exact He].
  (* the charges *)
  assert (CH : (exists q, prep2 a (a_q a) cd = Ok q) \/ (prep2 a (a_q a) cd = Raise e)).
  { destruct cd eqn:Ec.
    - symmetry in CD. apply existsb_exists in CD as (t0 & I & C). apply in_app_or in I as [I|[<-|[]]].
      + left. clear - Hal I C E1. induction Hal as [|x y l l' [R _] F IH]; [destruct I|]; destruct I as [<-|I]; auto.
        rewrite run_u_alone, E1, C in R. cbn [bind] in R. destruct (prep2 a (a_q a) true); [eauto|discriminate].
      + rewrite run_u_alone, E1, C in He. cbn [bind] in He. destruct (prep2 a (a_q a) true) as [q|e']; [eauto|right; cbn [bind] in He; injection He as ->; reflexivity].
    - rewrite Q0 by auto. left. exists None. reflexivity. }
  destruct CH as [[q E2]| ->]; [|reflexivity]. rewrite E2. cbn [bind].
  assert (J : forall t', In t' (pre ++ [t]) -> run_u p [t'] (q_if (u_cdep t') a) = tadd (Ok (mkT (shp (a_numbers a)) (fun _ => f0))) (calc_of a pr q t')).
  { intros t' I. apply joint_calc; auto. destruct (u_cdep t') eqn:C; auto. left.
    assert (cd = true) as ->; auto. rewrite CD. apply existsb_exists. eauto. }
  clear CD Q0 Hq Hp E2.
  (* the loop *)
  assert (L : forall en, shp en = (n :: B)%list -> add_terms en (pre ++ t :: post) (calc_of a pr q) = Raise e).
  { induction Hal as [|t1 e1 pre es [R1 S1] F IH]; intros en Hen; cbn [app add_terms].
    - rewrite J in He by (apply in_or_app; right; now left). unfold tadd, lift2, t2r in He |- *. cbn [bind] in He |- *.
      destruct (calc_of a pr q t) as [x|e'] eqn:Ex; cbn [bind] in He |- *; [|exact He]. unfold tmap2 in He |- *. cbn [shp] in He.
      rewrite Hs in He. rewrite Hen. destruct (bshape (n :: B) (shp x)); [discriminate|]. cbn [bind]. exact He.
    - rewrite J in R1 by (now left). unfold tadd, lift2, t2r in R1 |- *. cbn [bind] in R1 |- *.
      destruct (calc_of a pr q t1) as [x|e'] eqn:Ex; cbn [bind] in R1 |- *; [|discriminate]. unfold tmap2 in R1 |- *. cbn [shp] in R1.
      rewrite Hs in R1. rewrite Hen. destruct (bshape (n :: B) (shp x)) as [s|]; [|discriminate]. cbn [bind]. injection R1 as <-. cbn [shp] in S1. subst s.
      apply IH; [| |reflexivity].
      + intros t' I. apply Hh. apply in_app_or in I as [I|[<-|[]]]; [right; apply in_or_app; auto|right; apply in_or_app; right; now left].
      + intros t' I. apply J. now right. }
  apply L. exact Hs.
Qed.
End S.

(** ** The sum *)
Section R.
Variables (eps mx : R).
Notation N := (RN eps mx).
Notation K := (sc N).
Variables (X : Ext K) (W : World N).

(** total of a list of numbers *)
Definition total (l : list R) : R := fold_right Rplus 0 l.

(** The energies of a joint call are the sums of the energies of the terms alone. *)
Theorem C75_sum (p : Disp N) (a : Args N) n B (ts : list (uterm N)) es :
  shp (a_numbers a) = (n :: B)%list -> ts <> [] ->
  (forall t, In t ts -> honest t) ->
  (a_q a <> None -> exists t, In t ts /\ u_cdep t = true) ->
  Forall2 (alone X W p a n B) ts es ->
  returns1 (run_u X W p ts a) n B (fun b i => total (map (fun e => sl1 e b i) es)).
Proof.
  intros Hs Hne Hh Hq Hal. rewrite run_u_stages.
  set (cd := existsb u_cdep ts).
  assert (Q0 : cd = false -> a_q a = None).
  { intros E. destruct (a_q a) eqn:Eq; auto. destruct Hq as (t' & I & C); [discriminate|].
    assert (cd = true); [apply existsb_exists; eauto|congruence]. }
  assert (AL : forall t, In t ts -> exists e, run_u X W p [t] (q_if (u_cdep t) a) = Ok e).
  { clear - Hal. induction Hal as [|t e l l' [R _] F IH]; intros t' I; [destruct I|destruct I as [<-|I]; eauto]. }
  destruct (prep1 X p a) as [pr|e'] eqn:E1.
  2:{ destruct ts as [|t ts]; [contradiction|]. destruct (AL t) as (e & R); [now left|]. rewrite run_u_alone, E1 in R. discriminate. }
  cbn [bind].
  assert (CH : exists q, prep2 W a (a_q a) cd = Ok q).
  { destruct cd eqn:Ec.
    - apply existsb_exists in Ec as (t0 & I & C). destruct (AL t0 I) as (e & R). rewrite run_u_alone, E1, C in R. cbn [bind] in R.
      destruct (prep2 W a (a_q a) true); eauto; discriminate.
    - rewrite Q0 by auto. exists None. reflexivity. }
  destruct CH as (q & E2). rewrite E2. cbn [bind].
  assert (J : forall t', In t' ts -> run_u X W p [t'] (q_if (u_cdep t') a) = tadd (Ok (mkT (shp (a_numbers a)) (fun _ => f0))) (calc_of a pr q t')).
  { intros t' I. apply joint_calc; auto. destruct (u_cdep t') eqn:C; auto. left.
    assert (cd = true) as <-; auto. apply existsb_exists. eauto. }
  clear Q0 Hq E2 cd Hh AL Hne.
  assert (L : forall en : tensor K, shp en = (n :: B)%list -> returns1 (add_terms en ts (calc_of a pr q)) n B (fun b i => sl1 en b i + total (map (fun e => sl1 e b i) es))).
  { induction Hal as [|t1 e1 ts es [R1 S1] F IH]; intros en Hen; cbn [add_terms map total fold_right].
    - exists en. split; [reflexivity|]. split; auto. intros. cbn. lra.
    - rewrite J in R1 by (now left). unfold tadd, lift2, t2r in R1 |- *. cbn [bind] in R1 |- *.
      destruct (calc_of a pr q t1) as [x|e'] eqn:Ex; cbn [bind] in R1 |- *; [|discriminate]. unfold tmap2 in R1 |- *. cbn [shp] in R1.
      rewrite Hs in R1. rewrite Hen. destruct (bshape (n :: B) (shp x)) as [s|]; [|discriminate]. cbn [bind]. injection R1 as <-. cbn [shp] in S1. subst s.
      match goal with |- returns1 (add_terms ?en' _ _) _ _ _ => destruct (IH ltac:(intros; apply J; now right) en' eq_refl) as (r & Er & Sr & Vr) end.
      exists r. split; [exact Er|]. split; [exact Sr|]. intros b i Hb Hi. rewrite Vr by auto. unfold sl1. cbn [dat].
      rewrite (bidx_valid (n :: B) (i :: b)) by (split; auto). cbn. unfold total. lra. }
  destruct (L (mkT (shp (a_numbers a)) (fun _ => f0)) Hs) as (r & Er & Sr & Vr). exists r. split; [exact Er|]. split; [exact Sr|].
  intros b i Hb Hi. rewrite Vr by auto. unfold sl1 at 1. cbn. lra.
Qed.

(** The order of the terms does not matter. *)
Theorem C75_order (p : Disp N) (a : Args N) n B (ts ts' : list (uterm N)) :
  shp (a_numbers a) = (n :: B)%list -> ts <> [] -> Permutation ts ts' ->
  (forall t, In t ts -> honest t) ->
  (a_q a <> None -> exists t, In t ts /\ u_cdep t = true) ->
  (forall t, In t ts -> exists e, alone X W p a n B t e) ->
  exists f, returns1 (run_u X W p ts a) n B f /\ returns1 (run_u X W p ts' a) n B f.
Proof.
  intros Hs Hne P Hh Hq Hal.
  assert (F : exists es, Forall2 (alone X W p a n B) ts es).
  { clear - Hal. induction ts as [|t l IH]; [exists []; constructor|]. destruct (Hal t) as (e & He); [now left|].
    destruct IH as (es & F); [intros; apply Hal; now right|]. exists (e :: es). now constructor. }
  destruct F as (es & F). destruct (Permutation_Forall2 P F) as (es' & Pe & F').
  exists (fun b i => total (map (fun e => sl1 e b i) es)). split; [apply C75_sum; auto|].
  destruct (C75_sum p a n B ts' es' Hs) as (r & Er & Sr & Vr).
  - intros ->. apply Hne. now apply Permutation_nil, Permutation_sym.
  - intros t I. apply Hh. eapply Permutation_in; [apply Permutation_sym, P|exact I].
  - intros Q. destruct (Hq Q) as (t & I & C). exists t. split; auto. eapply Permutation_in; eauto.
  - exact F'.
  - exists r. split; auto. split; auto. intros b i Hb Hi. rewrite Vr by auto.
    assert (PM := Permutation_map (fun e : tensor K => sl1 e b i) Pe). unfold total.
    clear - PM. induction PM; cbn; [reflexivity| | |]; try lra.
Qed.

(** ** The three-body formula for any C9 coefficients and radii *)
Theorem C75_atm_formula d0 id body before after cdep u g9 gr
  (numbers : tensor Z) (positions : tensor K) param (cn : tensor K) model q (r4r2 rvdw : tensor K) (cutoff : Cutoff K) (c9 radii : tensor K) n c B :
  new_atm X id body (map (@Mixin N) before ++ (ATM_ :: after))%list (ZeroDamping X) cdep = Ok u ->
  first_def me_c9 (body :: before) g9 -> first_def me_radii (body :: before) gr ->
  g9 cdep model cn q = Ok c9 -> gr param r4r2 rvdw = Ok radii ->
  shp numbers = (n :: B)%list -> shp positions = (c :: n :: B)%list ->
  shp c9 = (n :: n :: n :: B)%list -> shp radii = (n :: n :: B)%list ->
  good_param param -> shp (c_disp3 cutoff) = [] -> 0 <= dat (c_disp3 cutoff) [] ->
  0 < d0 -> dist_contract d0 X -> div_contract X -> separated d0 numbers positions n c B ->
  (forall b i j, valid B b -> (i < n)%nat -> (j < n)%nat ->
     real_pair (sl1 numbers b) i j = true -> 0 < sl2 radii b i j) ->
  returns1 (u_calc (u_class u) (u_damping u) (u_cdep u) numbers positions param cn model q r4r2 rvdw cutoff) n B
    (fun b i => 1 / 6 * rsum n (fun j => rsum n (fun k =>
       if real_triple (sl1 numbers b) i j k
          && rleb (euclid c (sl2 positions b i) (sl2 positions b j)) (dat (c_disp3 cutoff) [])
          && rleb (euclid c (sl2 positions b j) (sl2 positions b k)) (dat (c_disp3 cutoff) [])
       then triple_energy c (sl2 positions b i) (sl2 positions b j) (sl2 positions b k)
              (sl3 c9 b i j k) (sl2 radii b i j) (sl2 radii b i k) (sl2 radii b j k) (getd param "s9" 1) (getd param "alp" 16)
       else 0))).
Proof.
  intros Hu F9 Fr E9 Er Hn Hp H9 Hr G Hc Hc0 Hd Dc Vc Sp Rp.
  apply attribute_spec with (after := after) in F9. apply attribute_spec with (after := after) in Fr.
  unfold new_atm in Hu. rewrite F9, Fr in Hu. injection Hu as <-. cbn [u_calc u_class u_damping u_cdep]. unfold atm_calc.
  rewrite E9, Er. cbn [bind].
  apply (C02_atm_closed_form eps mx X d0 numbers positions c9 radii (c_disp3 cutoff) _ _ n c B); auto.
  - apply pget_isnum; auto. discriminate.
  - apply pget_isnum; auto. discriminate.
Qed.
End R.

(** ** Examples *)
Section Ex.
Notation N := (RN 0 0).
Notation K := (sc N).
Definition uX : Ext K := Xex 0 0.
Definition u_cn : CNFunc N := fun _ n _ => Ok (@const K (shp n) 4).
Definition u_eeq : tensor Z -> tensor K -> tensor K -> tensor K -> res (tensor K) := fun n _ _ _ =>
  Ok (@mkT K (shp n) (fun ix => match ix with i :: _ => INR i + / 8 | [] => 0 end)).
Definition uW : World N := mkWorld u_cn u_cn (fun x _ => x) u_eeq.
Definition u_numbers : tensor Z := const [2]%nat 6%Z.
Definition u_model : Model N := mkModel (N := N) D4M "D4Model" u_numbers 3 2 None "eeq" (const [1]%nat 0).
Definition u_disp : Disp N :=
  mkDisp [] u_cn None "d4" (Some u_model) (mkKw None None None None None).
Definition u_args : Args N :=
  mkCall (N := N) u_numbers (line 2 [] 3) (scal 0) [] None None None (Some (const [2]%nat 2)) (Some (const [2; 2]%nat 3)).

(** energies -1 for every atom, from a tensor that has to be broadcast; charge independent *)
Definition minus_one : uterm N :=
  mkUTerm (N := N) (mkUClass (N := N) 10 (fun _ _ _ _ _ _ _ _ _ _ _ => Ok (const [1]%nat (-1)))) (RationalDamping) false.
(** the charges as energies; without charges [None + ..] raises *)
Definition charges_as_energy : uterm N :=
  mkUTerm (N := N) (mkUClass (N := N) 11 (fun _ _ _ _ _ _ _ q _ _ _ => match q with Some q => Ok q | None => Raise TypeError end)) (RationalDamping) true.
(** a class with the flag unset that nevertheless uses charges when there are some *)
Definition sly : uterm N :=
  mkUTerm (N := N) (mkUClass (N := N) 12 (fun _ _ n _ _ _ _ q _ _ _ => match q with Some q => Ok q | None => Ok (const (shp n) 0) end)) (RationalDamping) false.
Definition raising : uterm N :=
  mkUTerm (N := N) (mkUClass (N := N) 13 (fun _ _ _ _ _ _ _ _ _ _ _ => Raise KeyError)) (RationalDamping) false.

Lemma u_alone_minus_one : exists e, alone uX uW u_disp u_args 2 [] minus_one e /\ forall i, sl1 e [] i = 0 + -1.
Proof. eexists. split; [split; reflexivity|]. intros. unfold sl1. cbn. lra. Qed.
Lemma u_alone_charges : exists e, alone uX uW u_disp u_args 2 [] charges_as_energy e /\ forall i, (i < 2)%nat -> sl1 e [] i = 0 + (INR i + / 8).
Proof. eexists. split; [split; reflexivity|]. intros i Hi. unfold sl1. cbn. lra. Qed.

Example C75_sum_example :
  returns1 (run_u uX uW u_disp [minus_one; charges_as_energy; minus_one] u_args) 2 [] (fun _ i => INR i - 15 / 8).
Proof.
  destruct u_alone_minus_one as (e1 & A1 & V1). destruct u_alone_charges as (e2 & A2 & V2).
  destruct (C75_sum 0 0 uX uW u_disp u_args 2 [] [minus_one; charges_as_energy; minus_one] [e1; e2; e1]) as (r & Er & Sr & Vr).
  - reflexivity.
  - discriminate.
  - intros t [<-|[<-|[<-|[]]]] C; try discriminate C; reflexivity.
  - intros H. destruct H. reflexivity.
  - repeat constructor; auto; apply A1 || apply A2.
  - exists r. split; [exact Er|]. split; [exact Sr|]. intros b i Hb Hi. rewrite Vr by auto. destruct b; [|destruct Hb].
    cbn [map total fold_right]. rewrite V1, V2 by auto. lra.
Qed.

Example C75_order_example : exists f, returns1 (run_u uX uW u_disp [minus_one; charges_as_energy] u_args) 2 [] f /\
  returns1 (run_u uX uW u_disp [charges_as_energy; minus_one] u_args) 2 [] f.
Proof.
  destruct u_alone_minus_one as (e1 & A1 & V1). destruct u_alone_charges as (e2 & A2 & V2).
  apply C75_order; [reflexivity|discriminate|constructor| | |].
  - intros t [<-|[<-|[]]] C; try discriminate C; reflexivity.
  - intros H. destruct H. reflexivity.
  - intros t [<-|[<-|[]]]; eauto.
Qed.

Example C75_failure_example : run_u uX uW u_disp ([minus_one] ++ raising :: [minus_one])%list u_args = Raise KeyError.
Proof.
  destruct u_alone_minus_one as (e1 & A1 & V1).
  apply (C75_failure uX uW u_disp u_args 2 [] [minus_one] raising [minus_one] [e1]); try reflexivity.
  - intros t [<-|[<-|[]]] C; reflexivity.
  - intros H. destruct H. reflexivity.
  - repeat constructor; apply A1.
  - intros t [<-|[]] C. discriminate C.
Qed.

(** The flag does not keep the charges from a term: if another term asks for them, [calculate] gets
    them with [charge_dependent = False] too.  Without the hypothesis on the method, the sum fails. *)
Theorem C75_sum_without_honesty_refuted :
  ~ (forall (X : Ext K) (W : World N) (p : Disp N) (a : Args N) n B (ts : list (uterm N)) es,
       shp (a_numbers a) = (n :: B)%list -> ts <> [] ->
       (a_q a <> None -> exists t, In t ts /\ u_cdep t = true) ->
       Forall2 (alone X W p a n B) ts es ->
       returns1 (run_u X W p ts a) n B (fun b i => total (map (fun e => sl1 e b i) es))).
Proof.
  intros H. destruct u_alone_charges as (e2 & A2 & V2).
  assert (A1 : exists e, alone uX uW u_disp u_args 2 [] sly e /\ forall i, sl1 e [] i = 0 + 0).
  { eexists. split; [split; reflexivity|]. intros. unfold sl1. cbn. lra. }
  destruct A1 as (e1 & A1 & V1).
  destruct (H uX uW u_disp u_args 2%nat [] [sly; charges_as_energy] [e1; e2]) as (r & Er & Sr & Vr).
  - reflexivity.
  - discriminate.
  - intros Q. destruct Q. reflexivity.
  - repeat constructor; apply A1 || apply A2.
  - assert (Q := Vr [] 1%nat Logic.I ltac:(lia)). cbn [map total fold_right] in Q. rewrite V1, V2 in Q by lia.
    assert (Z : exists r', run_u uX uW u_disp [sly; charges_as_energy] u_args = Ok r' /\ sl1 r' [] 1 = 0 + (INR 1 + / 8) + (INR 1 + / 8)).
    { eexists. split; [reflexivity|]. unfold sl1. cbn. lra. }
    destruct Z as (r' & Er' & Vr'). rewrite Er in Er'. injection Er' as <-. rewrite Vr' in Q. change (INR 1) with 1 in Q. lra.
Qed.

(** A subclass of [ATM] with its own [get_c9] before [RadiiVDWMixin]; mixins after [ATM] do not count. *)
Definition my_c9 : methods N := mkMethods (N := N) (Some (fun _ _ cn _ => Ok (const [2; 2; 2]%nat 100))) None.
Example C75_mixins_example :
  (exists u, new_atm uX 20 my_c9 [Mixin (C9ExactMixin uX); Mixin RadiiVDWMixin; ATM_] (ZeroDamping uX) false = Ok u) /\
  new_atm uX 20 my_c9 [ATM_; Mixin RadiiVDWMixin] (ZeroDamping uX) false = Raise TypeError.
Proof. split; [eexists|]; reflexivity. Qed.

Definition my_methods : methods N :=
  mkMethods (N := N) (Some (fun _ _ cn _ => Ok (const [3; 3; 3]%nat 100))) (Some (fun _ _ _ => Ok (const [3; 3]%nat 5))).
Example C75_atm_example : exists u f,
  new_atm uX 20 no_methods [Mixin my_methods; ATM_; Mixin (C9ExactMixin uX)] (ZeroDamping uX) false = Ok u /\
  returns1 (u_calc (u_class u) (u_damping u) (u_cdep u) (const [3]%nat 6%Z) (line 3 [] 2) pbe_like (const [3]%nat 4) u_model None
    (const [3]%nat 2) (const [3; 3]%nat 3) default_cutoff) 3 [] f.
Proof.
  eexists. eexists. split; [reflexivity|].
  apply (C75_atm_formula 0 0 uX (/ 2) 20 no_methods [my_methods] [Mixin (C9ExactMixin uX)] false _
    (fun _ _ _ _ => Ok (const [3; 3; 3]%nat 100)) (fun _ _ _ => Ok (const [3; 3]%nat 5)) (const [3]%nat 6%Z) (line 3 [] 2) pbe_like (const [3]%nat 4) u_model None
    (const [3]%nat 2) (const [3; 3]%nat 3) default_cutoff (const [3; 3; 3]%nat 100) (const [3; 3]%nat 5) 3 3 []);
    try reflexivity; auto using Xex_dist, Xex_div, pbe_like_good; try lra.
  - exists [no_methods], my_methods, []. split; [reflexivity|]. split; [reflexivity|]. intros m [<-|[]]. reflexivity.
  - exists [no_methods], my_methods, []. split; [reflexivity|]. split; [reflexivity|]. intros m [<-|[]]. reflexivity.
  - exact pbe_like_good.
  - change (0 <= Q2R D4_DISP3_CUTOFF). unfold Q2R, D4_DISP3_CUTOFF. simpl. lra.
  - apply Xex_dist.
  - apply Xex_div.
  - apply line_separated. lra.
  - intros. unfold sl2, const. simpl. lra.
Qed.

Example C75_deregister_example :
  deregister_u [minus_one; raising; minus_one] minus_one = Ok [raising; minus_one] /\
  deregister_u [raising; charges_as_energy] minus_one = Raise ValueError.
Proof. split; reflexivity. Qed.
Example C75_register_example :
  same_term minus_one minus_one /\ (forall x, In x [raising; charges_as_energy] -> ~ same_term x minus_one) /\
  register_u [raising; charges_as_energy] minus_one = [raising; charges_as_energy; minus_one].
Proof.
  split; [repeat split|]. split; [|reflexivity]. intros x Hx H. apply same_term_spec in H. destruct Hx as [<-|[<-|[]]]; discriminate H.
Qed.
End Ex.

Print Assumptions C75_package_classes.
Print Assumptions C75_package_equality.
Print Assumptions C75_package_honest.
Print Assumptions C75_mixins.
Print Assumptions C75_deregister.
Print Assumptions C75_register.
Print Assumptions C75_failure.
Print Assumptions C75_sum.
Print Assumptions C75_order.
Print Assumptions C75_sum_without_honesty_refuted.
Print Assumptions C75_atm_formula.
