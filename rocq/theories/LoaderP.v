(** * Proofs about the loader: the cached tables are never reached by the user *)
From Coq Require Import List Arith String QArith Bool Lia.
From Verif Require Import Py DataToml ModelLoader SpecLoader.
Import ListNotations.
Open Scope string_scope.

(** [v] represents [t] in the heap [h], in locations [P] *)
Fixpoint repr (P : nat -> Prop) (h : heap) (t : toml) (v : hval) : Prop :=
  match t, v with
  | TV a, HV b => a = b
  | TL a, HL b => a = b
  | TD d, HR l => P l /\ exists d', nth_error h l = Some d' /\
      (fix go d d' := match d, d' with
                      | [], [] => True
                      | (k, t) :: d, (k', v) :: d' => k = k' /\ repr P h t v /\ go d d'
                      | _, _ => False end) d d'
  | _, _ => False
  end.
Fixpoint reprs (P : nat -> Prop) (h : heap) (d : list (string * toml)) (d' : dict hval) : Prop :=
  match d, d' with
  | [], [] => True
  | (k, t) :: d, (k', v) :: d' => k = k' /\ repr P h t v /\ reprs P h d d'
  | _, _ => False
  end.
Lemma repr_TD P h d l : repr P h (TD d) (HR l) <-> P l /\ exists d', nth_error h l = Some d' /\ reprs P h d d'.
Proof.
  assert (G : forall d', (fix go (d : list (string * toml)) (d' : dict hval) := match d, d' with
                      | [], [] => True
                      | (k, t) :: d, (k', v) :: d' => k = k' /\ repr P h t v /\ go d d'
                      | _, _ => False end) d d' <-> reprs P h d d').
  { induction d as [|[k t] d IH]; intros [|[k' v] d']; cbn [reprs]; try tauto. now rewrite <- IH. }
  cbn [repr]. split; intros (HP & d' & E & H); (split; [exact HP|]); exists d'; (split; [exact E|]); now apply G.
Qed.

Fixpoint toml_ind' (Q : toml -> Prop) (HV' : forall v, Q (TV v)) (HL' : forall l, Q (TL l))
  (HD : forall d, (forall k t, In (k, t) d -> Q t) -> Q (TD d)) (t : toml) {struct t} : Q t.
Proof.
  destruct t as [v|l|d]; [apply HV'|apply HL'|]. apply HD.
  induction d as [|[k0 t0] d IH]; intros k t H; [destruct H|].
  destruct H as [E|H]; [|exact (IH k t H)].
  injection E as _ <-. exact (toml_ind' Q HV' HL' HD t0).
Defined.

Lemma repr_mono (P P' : nat -> Prop) (h h' : heap) : (forall l, P l -> P' l) -> (forall l d, P l -> nth_error h l = Some d -> nth_error h' l = Some d) ->
  forall t v, repr P h t v -> repr P' h' t v.
Proof.
  intros HP Hh t. induction t as [a|a|d IH] using toml_ind'; intros [b|b|l]; auto; try (cbn [repr]; tauto).
  rewrite !repr_TD. intros (A & d' & E & H). split; [auto|]. exists d'. split; [now apply Hh|]. clear E A.
  revert d' H. induction d as [|[k t] d IHd]; intros [|[k' v] d']; cbn [reprs]; auto.
  intros (-> & A & B). split; [reflexivity|]. split; [apply (IH k' t); [now left|exact A]|].
  apply IHd; auto. intros k t' Hin. apply (IH k). now right.
Qed.

Lemma reprs_mono (P P' : nat -> Prop) (h h' : heap) : (forall l, P l -> P' l) -> (forall l d, P l -> nth_error h l = Some d -> nth_error h' l = Some d) ->
  forall d d', reprs P h d d' -> reprs P' h' d d'.
Proof.
  intros HP Hh d. induction d as [|[k t] d IHd]; intros [|[k' v] d']; cbn [reprs]; auto.
  intros (-> & A & B). split; [reflexivity|]. split; [|auto]. revert A. now apply repr_mono.
Qed.

Definition store_list := fix go (d : list (string * toml)) (h : heap) : heap * dict hval :=
  match d with
  | [] => (h, [])
  | (k, t) :: d' => let '(h1, v) := store t h in let '(h2, r) := go d' h1 in (h2, (k, v) :: r)
  end.
Lemma store_TD d h : store (TD d) h = let '(h', d') := store_list d h in (app h' [d'], HR (List.length h')).
Proof. reflexivity. Qed.

Definition between (a b l : nat) : Prop := (a <= l < b)%nat.
Lemma nth_app_l {A} (a b : list A) i x : nth_error a i = Some x -> nth_error (a ++ b)%list i = Some x.
Proof. intros H. rewrite nth_error_app1; auto. apply nth_error_Some. congruence. Qed.

Lemma store_repr : forall t h h' v, store t h = (h', v) ->
  (exists e, h' = h ++ e)%list /\ repr (between (List.length h) (List.length h')) h' t v.
Proof.
  intros t. induction t as [a|a|d IH] using toml_ind'; intros h h' v E.
  1,2: injection E as <- <-; split; [exists []; now rewrite app_nil_r|reflexivity].
  rewrite store_TD in E.
  assert (G : forall d h h' d', (forall k t, In (k, t) d -> forall h h' v, store t h = (h', v) ->
     (exists e, h' = h ++ e)%list /\ repr (between (List.length h) (List.length h')) h' t v) ->
     store_list d h = (h', d') -> (exists e, h' = h ++ e)%list /\ reprs (between (List.length h) (List.length h')) h' d d').
  { clear. intros d. induction d as [|[k t] d IHd]; intros h h' d' IH E.
    - injection E as <- <-. split; [exists []; now rewrite app_nil_r|exact I].
    - cbn [store_list] in E. destruct (store t h) as [h1 v] eqn:E1. destruct (store_list d h1) as [h2 r] eqn:E2.
      injection E as <- <-. destruct (IH k t (or_introl eq_refl) _ _ _ E1) as ((e1 & ->) & R1).
      destruct (IHd _ _ _ (fun k' t' H => IH k' t' (or_intror H)) E2) as ((e2 & ->) & R2).
      split; [exists (e1 ++ e2)%list; now rewrite app_assoc|]. cbn [reprs]. split; [reflexivity|]. split.
      + revert R1. apply repr_mono.
        * unfold between. intros l. rewrite !app_length. lia.
        * intros l d0 _. apply nth_app_l.
      + revert R2. apply reprs_mono; auto. unfold between. intros l. rewrite !app_length. lia. }
  destruct (store_list d h) as [h1 d1] eqn:E1. injection E as <- <-.
  destruct (G d h h1 d1 IH E1) as ((e & ->) & R). split; [exists (e ++ [d1])%list; now rewrite app_assoc|].
  rewrite repr_TD. split.
  - unfold between. rewrite !app_length. simpl. lia.
  - exists d1. split; [rewrite nth_error_app2, Nat.sub_diag by auto; reflexivity|].
    revert R. apply reprs_mono.
    + unfold between. intros l. rewrite !app_length. lia.
    + intros l d0 _. apply nth_app_l.
Qed.

(** ** Reading a represented table *)
Lemma reprs_get P h d d' k : reprs P h d d' ->
  match dget d k with
  | Some t => exists v, dget d' k = Some v /\ repr P h t v
  | None => dget d' k = None
  end.
Proof.
  revert d'. induction d as [|[k0 t] d IH]; intros [|[k' v] d']; cbn [reprs dget]; auto; try tauto.
  intros (-> & A & B). destruct (k' =? k); [eauto|]. now apply IH.
Qed.
Lemma item_repr P h d v k : repr P h (TD d) v ->
  match dget d k with
  | Some t => exists v', item h v k = Ok v' /\ repr P h t v'
  | None => item h v k = Raise KeyError
  end.
Proof.
  destruct v as [x|x|l]; try (cbn [repr]; tauto). rewrite repr_TD. intros (_ & d' & E & R).
  unfold item. rewrite E. unfold dgetitem. pose proof (reprs_get P h d d' k R) as H.
  destruct (dget d k) as [t|]; [destruct H as (v & -> & H); eauto|now rewrite H].
Qed.
Lemma contains_repr P h d v k : repr P h (TD d) v -> contains h v (Some k) = Ok (dmem d k).
Proof.
  destruct v as [x|x|l]; try (cbn [repr]; tauto). rewrite repr_TD. intros (_ & d' & E & R).
  unfold contains. rewrite E. unfold dmem. pose proof (reprs_get P h d d' k R) as H.
  destruct (dget d k) as [t|]; [destruct H as (v & -> & H); auto|now rewrite H].
Qed.
Lemma copy_repr P h b v : repr P h (block_toml b) v -> copy h v = Ok (scalars b).
Proof.
  unfold block_toml. destruct v as [x|x|l]; try (cbn [repr]; tauto). rewrite repr_TD. intros (_ & d' & E & R).
  unfold copy. rewrite E. f_equal. clear E. revert d' R. induction b as [|[k x] b IH]; intros [|[k' v] d']; cbn [map reprs fst snd]; auto; try tauto.
  intros (<- & A & B). unfold scalars. cbn [map fst snd]. f_equal; [|now apply IH].
  destruct v; cbn [repr] in A; try tauto. congruence.
Qed.
Lemma dget_map {A B} (f : A -> B) (d : list (string * A)) k :
  dget (map (fun kv => (fst kv, f (snd kv))) d) k = option_map f (dget d k).
Proof. induction d as [|[k' x] d IH]; cbn [map dget fst snd]; [reflexivity|]. now destruct (k' =? k). Qed.

Lemma scalars_pop keep b : (if negb keep && dmem (scalars b) "doi" then dpop (scalars b) "doi" else scalars b)
  = scalars (without_doi keep b).
Proof.
  unfold without_doi. destruct keep; [reflexivity|]. cbn [negb andb].
  assert (E : dpop (scalars b) "doi" = scalars (filter (fun kv => negb (fst kv =? "doi")) b)).
  { unfold dpop, scalars. induction b as [|[k x] b IH]; cbn [map filter fst]; [reflexivity|].
    destruct (negb (k =? "doi")); cbn [map fst snd]; now rewrite IH. }
  rewrite <- E. destruct (dmem (scalars b) "doi") eqn:M; [reflexivity|].
  clear E. unfold dmem in M. induction b as [|[k x] b IH]; [reflexivity|].
  unfold scalars in *. cbn [map fst snd dget] in *. unfold dpop in *. cbn [filter fst].
  destruct (k =? "doi"); [discriminate|]. cbn [negb]. rewrite <- IH; auto.
Qed.

Lemma casefold_in f k vs : file_ok f -> dget (f_functionals f) k = Some vs -> casefold k = k.
Proof.
  intros (_ & H) E. apply H. clear H. induction (f_functionals f) as [|[k' x] d IH]; [discriminate|].
  cbn [dget] in E. cbn [map fst]. destruct (k' =? k) eqn:Q; [left; now apply String.eqb_eq|right; auto].
Qed.

(** [get_params], given any heap in which the file content is represented *)
Section G.
Context (P : nat -> Prop) (h : heap) (m : meth) (f : tfile) (v : hval).
Hypothesis (Hf : file_ok f) (Hv : repr P h (tree m f) v).

Lemma get_default : exists d, item h v "default" = Ok d /\
  item h d (meth_value m) = Ok (HL (f_variants f)) /\
  exists p, item h d "parameter" = Ok p /\ exists b, item h p (meth_value m) = Ok b /\ repr P h (blocks_toml (f_defaults f)) b.
Proof.
  destruct (item_repr P h _ v "default" Hv) as (d & E & R). exists d. split; [exact E|].
  assert (M : (meth_value m =? "parameter") = false) by (destruct m; reflexivity).
  pose proof (item_repr P h _ d (meth_value m) R) as H1. pose proof (item_repr P h _ d "parameter" R) as H2.
  cbn [dget] in H1, H2. rewrite String.eqb_refl in H1. rewrite M in H2. cbn [String.eqb Ascii.eqb Bool.eqb] in H2.
  destruct H1 as (x & E1 & R1). destruct H2 as (p & E2 & R2).
  split. { rewrite E1. destruct x; cbn [repr] in R1; try tauto. now rewrite R1. }
  exists p. split; [exact E2|]. pose proof (item_repr P h _ p (meth_value m) R2) as H3. cbn [dget] in H3.
  rewrite String.eqb_refl in H3. exact H3.
Qed.
Lemma get_functional k : exists s, item h v "parameter" = Ok s /\ contains h s (Some k) = Ok (dmem (f_functionals f) k) /\
  forall vs, dget (f_functionals f) k = Some vs -> exists d, item h s k = Ok d /\ contains h d (Some (meth_value m)) = Ok true /\
    exists b, item h d (meth_value m) = Ok b /\ repr P h (blocks_toml vs) b.
Proof.
  pose proof (item_repr P h _ v "parameter" Hv) as (s & E & R). exists s. split; [exact E|].
  split. { rewrite (contains_repr _ _ _ _ _ R). unfold dmem.
    rewrite (dget_map (fun x => TD [(meth_value m, blocks_toml x)])). now destruct (dget (f_functionals f) k). }
  intros vs Ek. pose proof (item_repr P h _ s k R) as H.
  rewrite (dget_map (fun x => TD [(meth_value m, blocks_toml x)])), Ek in H. cbn [option_map] in H. destruct H as (d & Ed & Rd).
  exists d. split; [exact Ed|]. split. { rewrite (contains_repr _ _ _ _ _ Rd). unfold dmem. cbn [dget]. now rewrite String.eqb_refl. }
  pose proof (item_repr P h _ d (meth_value m) Rd) as H. cbn [dget] in H. rewrite String.eqb_refl in H. exact H.
Qed.

Lemma tail_ok vs b v' keep : repr P h (blocks_toml vs) b ->
  (b0 <- contains h b (Some v') ;;
   raise_if (negb b0) KeyError ;;;
   block <- item h b v' ;;
   out <- copy h block ;;
   Ok (if negb keep && dmem out "doi" then dpop out "doi" else out))%py
  = match dget vs v' with Some bl => Ok (scalars (without_doi keep bl)) | None => Raise KeyError end.
Proof.
  intros R. rewrite (contains_repr _ _ _ _ _ R). unfold dmem at 1. rewrite (dget_map block_toml).
  pose proof (item_repr P h _ b v' R) as H. rewrite (dget_map block_toml) in H.
  destruct (dget vs v') as [bl|]; cbn [option_map bind raise_if negb] in *; [|reflexivity].
  destruct H as (x & -> & Rx). cbn [bind]. rewrite (copy_repr _ _ _ _ Rx). cbn [bind]. now rewrite scalars_pop.
Qed.

Lemma params_default variant keep name : name = None \/ name = Some "default" ->
  get_params_in h v m name variant keep =
  match variant with
  | Some v' => if str_in v' (f_variants f) then
                 match dget (f_defaults f) v' with Some bl => Ok (scalars (without_doi keep bl)) | None => Raise KeyError end
               else Raise KeyError
  | None => Raise KeyError end.
Proof.
  intros Hn. destruct get_default as (d & E1 & E2 & p & E3 & b & E4 & R).
  assert (E : get_params_in h v m name variant keep =
    (section <- (default_section <- item h v "default" ;;
        variant_section <- item h default_section (meth_value m) ;;
        b <- contains h variant_section variant ;;
        raise_if (negb b) KeyError ;;;
        item h default_section "parameter") ;;
     variant <- match variant with
             | Some v => Ok v
             | None => d <- item h v "default" ;; l <- item h d (meth_value m) ;; first l
             end ;;
  variant_section <- item h section (meth_value m) ;;
  b <- contains h variant_section (Some variant) ;;
  raise_if (negb b) KeyError ;;;
  block <- item h variant_section variant ;;
  out <- copy h block ;;
  Ok (if negb keep && dmem out "doi" then dpop out "doi" else out))%py) by (destruct Hn as [-> | ->]; reflexivity).
  rewrite E, E1. cbn [bind]. rewrite E2. cbn [bind]. destruct variant as [v'|]; [|reflexivity].
  cbn [contains bind]. destruct (str_in v' (f_variants f)); [|reflexivity].
  cbn [negb raise_if bind]. rewrite E3. cbn [bind]. rewrite E4. cbn [bind]. now apply tail_ok.
Qed.

Lemma params_functional name variant keep : name <> "default" ->
  get_params_in h v m (Some name) variant keep =
  match dget (f_functionals f) name with
  | None => Raise KeyError
  | Some vs =>
      match dget vs (match variant with Some v' => v' | None => hd "" (f_variants f) end) with
      | Some bl => Ok (scalars (without_doi keep bl)) | None => Raise KeyError end
  end.
Proof.
  intros Hn. destruct get_default as (d & E1 & E2 & _). destruct (get_functional name) as (s & Es & Ec & Hs).
  assert (E : get_params_in h v m (Some name) variant keep =
    (section <- (func_section <- item h v "parameter" ;;
        b <- contains h func_section (Some name) ;;
        raise_if (negb b) KeyError ;;;
        disp <- item h func_section (casefold name) ;;
        b <- contains h disp (Some (meth_value m)) ;;
        raise_if (negb b) KeyError ;;;
        Ok disp) ;;
     variant <- match variant with
             | Some v => Ok v
             | None => d <- item h v "default" ;; l <- item h d (meth_value m) ;; first l
             end ;;
  variant_section <- item h section (meth_value m) ;;
  b <- contains h variant_section (Some variant) ;;
  raise_if (negb b) KeyError ;;;
  block <- item h variant_section variant ;;
  out <- copy h block ;;
  Ok (if negb keep && dmem out "doi" then dpop out "doi" else out))%py).
  { unfold get_params_in. clear - Hn.
    destruct name as [|[[] [] [] [] [] [] [] []] name]; try reflexivity.
    do 7 (try (destruct name as [|[[] [] [] [] [] [] [] []] name]; try reflexivity)).
    now contradiction Hn. }
  rewrite E, Es. cbn [bind]. rewrite Ec. cbn [bind]. unfold dmem at 1.
  destruct (dget (f_functionals f) name) as [vs|] eqn:Ef; [|reflexivity].
  cbn [negb raise_if bind]. rewrite (casefold_in f name vs Hf Ef). destruct (Hs vs eq_refl) as (d' & Ed & Ec' & b & Eb & Rb).
  rewrite Ed. cbn [bind]. rewrite Ec'. cbn [negb raise_if bind].
  destruct variant as [v'|].
  - cbn [bind]. rewrite Eb. cbn [bind]. now apply tail_ok.
  - rewrite E1. cbn [bind]. rewrite E2. cbn [bind]. destruct Hf as (Hne & _).
    destruct (f_variants f) as [|x r]; [contradiction|]. cbn [first bind hd]. rewrite Eb. cbn [bind]. now apply tail_ok.
Qed.

Lemma str_in_In k l : str_in k l = true <-> In k l.
Proof.
  unfold str_in. rewrite existsb_exists. split.
  - intros (x & H & E). apply String.eqb_eq in E. now subst.
  - intros H. exists k. split; auto. apply String.eqb_refl.
Qed.

Lemma params_spec name variant keep :
  (forall b, entry f name variant b -> get_params_in h v m name variant keep = Ok (scalars (without_doi keep b))) /\
  ((forall b, ~ entry f name variant b) -> get_params_in h v m name variant keep = Raise KeyError).
Proof.
  split.
  - intros b He. destruct He as [name vs v' b Hn E1 E2|name vs v' r b Hn E1 E2 E3|name v' b Hn Hi E].
    + rewrite params_functional, E1, E2 by auto. reflexivity.
    + rewrite params_functional, E1, E2 by auto. cbn [hd]. now rewrite E3.
    + rewrite params_default by auto. apply str_in_In in Hi. rewrite Hi, E. reflexivity.
  - intros Hne.
    assert (D : (name = None \/ name = Some "default") \/ exists n, name = Some n /\ n <> "default").
    { destruct name as [n|]; [|now left; left]. destruct (string_dec n "default") as [->|]; [left; now right|right; eauto]. }
    destruct D as [D|(n & -> & D)].
    + rewrite params_default by auto. destruct variant as [v'|]; [|reflexivity].
      destruct (str_in v' (f_variants f)) eqn:S; [|reflexivity]. apply str_in_In in S.
      destruct (dget (f_defaults f) v') as [b|] eqn:E; [|reflexivity].
      exfalso. apply (Hne b). now apply entry_default.
    + rewrite params_functional by auto. destruct (dget (f_functionals f) n) as [vs|] eqn:E; [|reflexivity].
      destruct (dget vs _) as [b|] eqn:Eb; [|reflexivity]. exfalso. apply (Hne b).
      destruct variant as [v'|].
      * now apply entry_variant with vs.
      * destruct Hf as (Hv' & _). destruct (f_variants f) as [|x r] eqn:Ev; [contradiction|].
        now apply entry_default_variant with vs x r.
Qed.
End G.

Lemma entry_dec f name variant : file_ok f -> (exists b, entry f name variant b) \/ (forall b, ~ entry f name variant b).
Proof.
  intros Hf.
  assert (D : (name = None \/ name = Some "default") \/ exists n, name = Some n /\ n <> "default").
    { destruct name as [n|]; [|now left; left]. destruct (string_dec n "default") as [->|]; [left; now right|right; eauto]. }
    destruct D as [D|(n & -> & D)].
    - destruct variant as [v|].
      2:{ right. intros b H. inversion H; subst; destruct D; congruence. }
      destruct (in_dec string_dec v (f_variants f)) as [I|I].
      + destruct (dget (f_defaults f) v) as [b|] eqn:E; [left; exists b; now apply entry_default|].
        right. intros b H. inversion H; subst; try (destruct D; congruence); congruence.
      + right. intros b H. inversion H; subst; try (destruct D; congruence); congruence.
    - destruct (dget (f_functionals f) n) as [vs|] eqn:E.
      2:{ right. intros b H. inversion H; subst; try congruence. destruct H0; congruence. }
      destruct (dget vs (match variant with Some v' => v' | None => hd "" (f_variants f) end)) as [b|] eqn:Eb.
      + left. exists b. destruct variant as [v'|]; [now apply entry_variant with vs|].
        destruct Hf as (Hv' & _). destruct (f_variants f) as [|x r] eqn:Ev; [contradiction|].
        now apply entry_default_variant with vs x r.
      + right. intros b H. inversion H; subst; try congruence.
        * rewrite H3 in Eb. cbn [hd] in Eb. congruence.
        * destruct H0; congruence.
Qed.

(** ** Histories *)
Section H.
Context (F : meth -> option tfile).
Context (files : meth -> option toml).
Hypothesis Hfiles : forall m, files m = option_map (tree m) (F m).
Hypothesis HF : forall m f, F m = Some f -> file_ok f.

(** [P]: the locations of the cached tables *)
Definition good (P : nat -> Prop) (s : session) : Prop :=
  let h := py_heap (s_py s) in
  (forall m l, py_cache (s_py s) m = Some l -> exists f, F m = Some f /\ repr P h (tree m f) (HR l)) /\
  (forall l, P l -> l < List.length h)%nat /\
  (forall l, In l (s_held s) -> ~ P l /\ l < List.length h)%nat /\
  (forall l d k l', ~ P l -> nth_error h l = Some d -> In (k, HR l') d -> ~ P l' /\ l' < List.length h)%nat.

Lemma load_good P s m : good P s ->
  exists P', let '(p, r) := load files (s_py s) m in
    good P' (mkSession p (s_held s)) /\
    match F m with
    | Some f => exists l, r = Ok l /\ repr P' (py_heap p) (tree m f) (HR l)
    | None => r = Raise FileNotFoundError /\ p = s_py s
    end.
Proof.
  intros G; pose proof G as (G1 & G2 & G3 & G4). unfold load. destruct (py_cache (s_py s) m) as [l|] eqn:Ec.
  - exists P. split; [exact G|]. destruct (G1 m l Ec) as (f & -> & R). eauto.
  - rewrite Hfiles. destruct (F m) as [f|] eqn:Ef; cbn [option_map].
    2:{ exists P. split; [exact G|auto]. }
    destruct (store (tree m f) (py_heap (s_py s))) as [h v] eqn:Es.
    destruct (store_repr _ _ _ _ Es) as ((e & ->) & R). destruct v as [x|x|l]; try (cbn [tree file_toml repr] in R; tauto).
    set (h := py_heap (s_py s)) in *.
    exists (fun l => P l \/ between (List.length h) (List.length (h ++ e)%list) l).
    assert (R' : repr (fun l => P l \/ between (List.length h) (List.length (h ++ e)%list) l) (h ++ e)%list (tree m f) (HR l)).
    { revert R. apply repr_mono; auto. }
    split; [|eauto]. unfold good. cbn [s_py s_held py_heap py_cache].
    assert (Len : (List.length h <= List.length (h ++ e)%list)%nat) by (rewrite app_length; lia).
    split; [|split; [|split]].
    + intros m' l' E'. unfold upd_cache in E'.
      assert (Old : py_cache (s_py s) m' = Some l' -> exists f', F m' = Some f' /\
        repr (fun l => P l \/ between (List.length h) (List.length (h ++ e)%list) l) (h ++ e)%list (tree m' f') (HR l')).
      { intros E0. destruct (G1 _ _ E0) as (f' & E1 & R1). exists f'. split; [exact E1|]. revert R1. apply repr_mono; auto.
        intros l0 d _. apply nth_app_l. }
      destruct m, m'; try (apply Old; exact E'); injection E' as <-; eauto.
    + intros l' [H|H]; [apply G2 in H; lia|unfold between in H; lia].
    + intros l' H. apply G3 in H as (H1 & H2). split; [|lia]. unfold between. intros [H|H]; [auto|lia].
    + intros l' d k l'' Hn E' Hin.
      assert (L : (l' < List.length h)%nat).
      { destruct (Nat.lt_ge_cases l' (List.length h)); auto. exfalso. apply Hn. right. unfold between. split; auto.
        apply nth_error_Some. congruence. }
      rewrite nth_error_app1 in E' by auto. destruct (G4 l' d k l'' ltac:(tauto) E' Hin) as (A & B).
      split; [|lia]. unfold between. intros [H|H]; [auto|lia].
Qed.

Lemma set_nth_nth {A} (l : list A) i x j : (i < List.length l)%nat ->
  nth_error (set_nth l i x) j = if Nat.eqb j i then Some x else nth_error l j.
Proof.
  intros Hi. unfold set_nth. destruct (Nat.eqb_spec j i) as [->|Ne].
  - rewrite nth_error_app2; rewrite firstn_length_le by lia; auto. now rewrite Nat.sub_diag.
  - destruct (Nat.lt_ge_cases j i) as [L|L].
    + rewrite nth_error_app1 by (rewrite firstn_length_le; lia).
      rewrite <- (firstn_skipn i l) at 2. rewrite nth_error_app1 by (rewrite firstn_length_le; lia). reflexivity.
    + rewrite nth_error_app2 by (rewrite firstn_length_le; lia). rewrite firstn_length_le by lia.
      rewrite <- (firstn_skipn (S i) l) at 2. rewrite nth_error_app2 by (rewrite firstn_length_le; lia).
      rewrite firstn_length_le by lia. destruct (j - i)%nat as [|k] eqn:E; [lia|].
      cbn [nth_error]. f_equal. lia.
Qed.
Lemma set_nth_length {A} (l : list A) i x : (i < List.length l)%nat -> List.length (set_nth l i x) = List.length l.
Proof. intros Hi. unfold set_nth. rewrite app_length. cbn [List.length]. rewrite firstn_length_le, skipn_length by lia. lia. Qed.

Lemma with_obj_good P s i g : good P s ->
  (forall d, (forall k l, In (k, HR l) d -> ~ P l /\ l < List.length (py_heap (s_py s)))%nat ->
     forall k l, In (k, HR l) (g d) -> ~ P l /\ l < List.length (py_heap (s_py s)))%nat ->
  good P (with_obj s i g).
Proof.
  intros G Hg; pose proof G as (G1 & G2 & G3 & G4). unfold with_obj.
  destruct (nth_error (s_held s) i) as [l|] eqn:Ei; [|exact G].
  destruct (nth_error (py_heap (s_py s)) l) as [d|] eqn:El; [|exact G].
  assert (Hl := G3 l (nth_error_In _ _ Ei)). destruct Hl as (NP & L).
  unfold good. cbn [s_py s_held py_heap py_cache]. rewrite set_nth_length by auto.
  split; [|split; [|split]]; auto.
  - intros m l' E. destruct (G1 m l' E) as (f & Ef & R). exists f. split; auto. revert R. apply repr_mono; auto.
    intros l0 d0 H0 E0. rewrite set_nth_nth by auto. destruct (Nat.eqb_spec l0 l) as [->|]; [contradiction|auto].
  - intros l' d' k l'' HP E. rewrite set_nth_nth in E by auto. destruct (Nat.eqb_spec l' l) as [->|].
    + injection E as <-. apply Hg. intros. eapply G4; eauto.
    + eapply G4; eauto.
Qed.

Lemma in_dset {V} (d : dict V) k v k' v' : In (k', v') (dset d k v) -> In (k', v') d \/ v' = v.
Proof.
  induction d as [|[k0 v0] d IH]; cbn [dset].
  - intros [E|[]]. injection E as _ <-. now right.
  - destruct (k0 =? k).
    + intros [E|H]; [injection E as _ <-; now right|left; now right].
    + intros [E|H]; [left; now left|]. destruct (IH H); [left; now right|now right].
Qed.
Lemma dget_in {V} (d : dict V) k v : dget d k = Some v -> exists k', In (k', v) d.
Proof.
  induction d as [|[k0 v0] d IH]; cbn [dget]; [discriminate|]. destruct (k0 =? k).
  - intros E. injection E as <-. exists k0. now left.
  - intros E. destruct (IH E) as (k' & H). exists k'. now right.
Qed.

Lemma good_alloc P s d : good P s ->
  (forall k l, In (k, HR l) d -> ~ P l /\ l < List.length (py_heap (s_py s)))%nat ->
  good P (mkSession (mkPy (py_heap (s_py s) ++ [d])%list (py_cache (s_py s))) (s_held s ++ [List.length (py_heap (s_py s))])%list).
Proof.
  intros G Hd; pose proof G as (G1 & G2 & G3 & G4). unfold good. cbn [s_py s_held py_heap py_cache].
  rewrite app_length. cbn [List.length]. split; [|split; [|split]].
  - intros m l E. destruct (G1 m l E) as (f & Ef & R). exists f. split; auto. revert R. apply repr_mono; auto.
    intros l0 d0 _. apply nth_app_l.
  - intros l H. apply G2 in H. lia.
  - intros l H. apply in_app_or in H as [H|[<-|[]]].
    + apply G3 in H. split; [tauto|lia].
    + split; [|lia]. intros H. apply G2 in H. lia.
  - intros l d' k l' HP E Hin. destruct (Nat.lt_ge_cases l (List.length (py_heap (s_py s)))) as [L|L].
    + rewrite nth_error_app1 in E by auto. destruct (G4 _ _ _ _ HP E Hin). split; [auto|lia].
    + rewrite nth_error_app2 in E by auto. destruct (l - List.length (py_heap (s_py s)))%nat as [|x]; cbn [nth_error] in E.
      * injection E as <-. destruct (Hd _ _ Hin). split; [auto|lia].
      * destruct x; discriminate.
Qed.

Lemma scalars_no_refs b k l : ~ In (k, HR l) (scalars b).
Proof. unfold scalars. rewrite in_map_iff. intros ([k' v] & E & _). discriminate. Qed.

(** a call: its result, and the session after it *)
Lemma call_good P s m name variant keep : good P s ->
  exists P', let '(p, r) := get_params files (s_py s) (meth_value m) name variant keep in
    good P' (mkSession p (match r with Ok l => s_held s ++ [l] | Raise _ => s_held s end)%list) /\
    match F m with
    | None => r = Raise FileNotFoundError
    | Some f =>
      (forall b, entry f name variant b -> exists l, r = Ok l /\ ~ In l (s_held s) /\
          content (py_heap p) l = Some (scalars (without_doi keep b))) /\
      ((forall b, ~ entry f name variant b) -> r = Raise KeyError)
    end.
Proof.
  intros G. destruct (load_good P s m G) as (P' & H). unfold get_params.
  replace (meth_of (meth_value m)) with (Ok m) by (destruct m; reflexivity).
  destruct (load files (s_py s) m) as [p t]. destruct H as (G' & H). exists P'.
  destruct (F m) as [f|] eqn:Ef.
  2:{ destruct H as (-> & ->). split; [exact G'|reflexivity]. }
  destruct H as (l & -> & R). pose proof (HF m f Ef) as Hf.
  pose proof (entry_dec f name variant Hf) as D.
  destruct (params_spec P' (py_heap p) m f (HR l) Hf R name variant keep) as (S1 & S2).
  destruct D as [(b & Hb)|Hn].
  - rewrite (S1 b Hb). split.
    + apply (good_alloc P' (mkSession p (s_held s))); auto. intros k l' H. now apply scalars_no_refs in H.
    + split; [|intros Hn; now contradiction (Hn b)]. intros b' Hb'. eexists. split; [reflexivity|]. split.
      * intros Hi. destruct G' as (_ & _ & G3 & _). apply G3 in Hi. cbn [s_py] in Hi. lia.
      * unfold content. cbn [py_heap]. rewrite nth_error_app2, Nat.sub_diag by auto. cbn [nth_error].
        specialize (S1 b' Hb'). rewrite (proj1 (params_spec P' (py_heap p) m f (HR l) Hf R name variant keep) b Hb) in S1.
        now injection S1 as ->.
  - rewrite (S2 Hn). split; [exact G'|]. split; [|reflexivity]. intros b Hb. now contradiction (Hn b).
Qed.

Lemma meth_of_cases s : (exists m, s = meth_value m) \/ meth_of s = Raise ValueError.
Proof.
  unfold meth_of. destruct (String.eqb_spec s "d3") as [->|]; [left; now exists d3|].
  destruct (String.eqb_spec s "d4") as [->|]; [left; now exists d4|].
  destruct (String.eqb_spec s "d5") as [->|]; [left; now exists d5|]. now right.
Qed.

Lemma step_good P s e : good P s -> exists P', good P' (step files s e).
Proof.
  intros G. destruct e as [method name variant keep| |i k x|i k|i|i k]; cbn [step].
  - destruct (meth_of_cases method) as [(m & ->)|E].
    + destruct (call_good P s m name variant keep G) as (P' & H). destruct (get_params _ _ _ _ _ _) as [p r]. exists P'. apply H.
    + unfold get_params. rewrite E. exists P. exact G.
  - exists P. apply good_alloc; auto. intros k l [].
  - exists P. destruct (uval_val s x) as [v|] eqn:Ev; [|exact G]. apply with_obj_good; auto.
    intros d Hd k' l' Hin. apply in_dset in Hin as [Hin|E]; [eapply Hd; eauto|]. subst v.
    destruct x as [v|l|j]; try discriminate. cbn [uval_val] in Ev. destruct (nth_error (s_held s) j) as [l0|] eqn:Ej; [|discriminate].
    injection Ev as ->. destruct G as (_ & _ & G3 & _). apply G3. now apply nth_error_In in Ej.
  - exists P. apply with_obj_good; auto. intros d Hd k' l' Hin. unfold dpop in Hin. apply filter_In in Hin as (Hin & _). eapply Hd; eauto.
  - exists P. apply with_obj_good; auto. intros d Hd k' l' [].
  - exists P. destruct (nth_error (s_held s) i) as [l|] eqn:Ei; [|exact G].
    destruct (nth_error (py_heap (s_py s)) l) as [d|] eqn:El; [|exact G].
    destruct (dget d k) as [[v|v|l']|] eqn:Ed; try exact G.
    destruct G as (G1 & G2 & G3 & G4). repeat split; auto.
    + cbn [s_held] in H. apply in_app_or in H as [H|[<-|[]]]; [now apply G3|].
      destruct (dget_in _ _ _ Ed) as (k' & Hin). apply (G4 l d k' l'); auto. apply G3. now apply nth_error_In in Ei.
    + cbn [s_held] in H. apply in_app_or in H as [H|[<-|[]]]; [now apply G3|].
      destruct (dget_in _ _ _ Ed) as (k' & Hin). apply (G4 l d k' l'); auto. apply G3. now apply nth_error_In in Ei.
    + eapply G4; eauto.
    + eapply G4; eauto.
Qed.

Lemma after_good history : exists P, good P (after files history).
Proof.
  unfold after. assert (G : exists P, good P start).
  { exists (fun _ => False). split; [|split; [|split]].
    - intros m l E. discriminate E.
    - intros l [].
    - intros l [].
    - intros l d k l' _ E. destruct l; discriminate E. }
  revert G. generalize start as s. induction history as [|e es IH]; intros s (P & G); cbn [fold_left]; [eauto|].
  apply IH. now apply step_good with P.
Qed.
End H.
