(** * Proofs about [get_params] in several threads *)
From Coq Require Import List Arith String QArith Bool Lia.
From Verif Require Import Py DataToml ModelLoader ModelLoaderConc SpecLoader SpecLoaderConc LoaderP.
Import ListNotations.
Open Scope string_scope.
Open Scope prog_scope.
Open Scope nat_scope.

(** ** What the other threads may do to the dictionaries [P] of the cached tables: nothing *)
Definition rely (P : nat -> Prop) (h : heap) (P' : nat -> Prop) (h' : heap) : Prop :=
  (forall l, P l -> P' l) /\ (forall l d, P l -> nth_error h l = Some d -> nth_error h' l = Some d).
Lemma rely_refl P h : rely P h P h. Proof. split; auto. Qed.
Lemma rely_trans P h P1 h1 P2 h2 : rely P h P1 h1 -> rely P1 h1 P2 h2 -> rely P h P2 h2.
Proof. intros (A & B) (C & D). split; auto. Qed.
Lemma repr_rely P h P' h' t v : rely P h P' h' -> repr P h t v -> repr P' h' t v.
Proof. intros (A & B). now apply repr_mono. Qed.
Lemma reprs_rely P h P' h' t v : rely P h P' h' -> reprs P h t v -> reprs P' h' t v.
Proof. intros (A & B). now apply reprs_mono. Qed.

Section S.
Context (F : meth -> option tfile) (files : meth -> option toml).
Hypothesis Hfiles : forall m, files m = option_map (tree m) (F m).
Hypothesis HF : forall m f, F m = Some f -> file_ok f.
Notation hp s := (py_heap (c_py s)).
Notation gd P s held := (good F P (mkSession (c_py s) held)).

Definition Post A := (nat -> Prop) -> cstate -> list nat -> res A -> Prop.
(** the program keeps the invariant and ends with [Q], whatever happens between its steps *)
Fixpoint safe {A} (Q : Post A) (P : nat -> Prop) (s : cstate) (held : list nat) (p : prog A) : Prop :=
  match p with
  | PDone r => Q P s held r
  | PStep u n => forall P' s' held', gd P' s' held' -> rely P (hp s) P' (hp s') ->
      exists P'', gd P'' (u s') held' /\ rely P' (hp s') P'' (hp (u s')) /\ safe Q P'' (u s') held' (n s')
  end.
Definition stable {A} (Q : Post A) : Prop := forall P s held P' s' held' r,
  Q P s held r -> rely P (hp s) P' (hp s') -> Q P' s' held' r.

Lemma safe_rely {A} (Q : Post A) P s held P' s' held' p : stable Q ->
  safe Q P s held p -> rely P (hp s) P' (hp s') -> safe Q P' s' held' p.
Proof.
  intros HQ H R. destruct p as [r|u n]; cbn [safe] in *; [eapply HQ; eauto|].
  intros P1 s1 held1 G R1. apply H; auto. eapply rely_trans; eauto.
Qed.
Lemma safe_step_rely {A} (Q : Post A) P s held P' s' held' u n :
  safe Q P s held (PStep u n) -> rely P (hp s) P' (hp s') -> safe Q P' s' held' (PStep u n).
Proof. intros H R P1 s1 held1 G R1. apply H; auto. eapply rely_trans; eauto. Qed.

Lemma safe_bind {A B} (Q : Post A) (Q' : Post B) p k : forall P s held,
  gd P s held -> safe Q P s held p ->
  (forall P' s' held' r, rely P (hp s) P' (hp s') -> gd P' s' held' -> Q P' s' held' r ->
     safe Q' P' s' held' (match r with Ok a => k a | Raise e => PDone (Raise e) end)) ->
  safe Q' P s held (pbind p k).
Proof.
  induction p as [r|u n IH]; intros P s held G H K; cbn [pbind].
  - specialize (K P s held r (rely_refl _ _) G H). destruct r; exact K.
  - cbn [safe]. intros P' s' held' G' R. destruct (H P' s' held' G' R) as (P'' & G'' & R' & H').
    exists P''. split; [exact G''|]. split; [exact R'|]. apply IH; auto.
    intros P1 s1 held1 r R1. apply K. eapply rely_trans; [exact R|]. eapply rely_trans; eauto.
Qed.

(** reading *)
Lemma safe_peek {A} (f : heap -> res A) (Q : Post A) P s held :
  (forall P' s' held', rely P (hp s) P' (hp s') -> gd P' s' held' -> Q P' s' held' (f (hp s'))) ->
  safe Q P s held (peek f).
Proof.
  intros H P' s' held' G R. exists P'. split; [exact G|]. split; [apply rely_refl|]. now apply H.
Qed.

Definition vok P h v := exists t, repr P h t v.
Lemma reprs_in P h d : forall d' k v, reprs P h d d' -> dget d' k = Some v -> vok P h v.
Proof.
  induction d as [|[k0 t] d IH]; intros [|[k' v'] d'] k v; cbn [reprs dget]; try tauto; try discriminate.
  intros (_ & R & Rs) E. destruct (k' =? k)%string; [injection E as <-; now exists t|eauto].
Qed.
Lemma same_dict P h P' h' v : vok P h v -> rely P h P' h' ->
  match v with HR l => exists d d', nth_error h l = Some d /\ nth_error h' l = Some d /\ reprs P h d' d | _ => True end.
Proof.
  intros (t & R) (_ & H). destruct v as [x|x|l]; auto. destruct t as [x|x|d']; try (cbn [repr] in R; tauto).
  apply repr_TD in R as (HP & d & E & Rs). exists d, d'. auto.
Qed.
Lemma item_same P h P' h' v k : vok P h v -> rely P h P' h' ->
  item h' v k = item h v k /\ (forall v', item h v k = Ok v' -> vok P h v').
Proof.
  intros V R. pose proof (same_dict _ _ _ _ _ V R) as H. destruct v as [x|x|l]; cbn [item]; try (split; [reflexivity|discriminate]).
  destruct H as (d & d' & -> & -> & Rs). split; [reflexivity|]. unfold dgetitem. destruct (dget d k) as [x|] eqn:E; [|discriminate].
  intros v' Ev. injection Ev as <-. eapply reprs_in; eauto.
Qed.
Lemma contains_same P h P' h' v k : vok P h v -> rely P h P' h' -> contains h' v k = contains h v k.
Proof.
  intros V R. pose proof (same_dict _ _ _ _ _ V R) as H. destruct v as [x|x|l]; cbn [contains]; auto.
  destruct H as (d & d' & -> & -> & _). reflexivity.
Qed.
Lemma copy_same P h P' h' v : vok P h v -> rely P h P' h' -> copy h' v = copy h v.
Proof.
  intros V R. pose proof (same_dict _ _ _ _ _ V R) as H. destruct v as [x|x|l]; cbn [copy]; auto.
  destruct H as (d & d' & -> & -> & _). reflexivity.
Qed.

(** the lookup gives what it gives without interruption *)
Section In.
Context (P0 : nat -> Prop) (h0 : heap).
Definition ans {A} (r0 : res A) : Post A := fun P s _ r => rely P0 h0 P (hp s) /\ r = r0.
Lemma ans_bind {A B} (r0 : res A) (f0 : A -> res B) p k P s held :
  gd P s held -> safe (ans r0) P s held p ->
  (forall a P' s' held', r0 = Ok a -> gd P' s' held' -> rely P0 h0 P' (hp s') ->
     safe (ans (f0 a)) P' s' held' (k a)) ->
  safe (ans (bind r0 f0)) P s held (pbind p k).
Proof.
  intros G H K. eapply safe_bind; [exact G|exact H|]. intros P' s' held' r _ G' (R & ->).
  destruct r0 as [a|e]; cbn [bind]; [now apply K|]. cbn [safe]. split; [exact R|reflexivity].
Qed.
Lemma ans_done {A} (r : res A) P s held : rely P0 h0 P (hp s) -> safe (ans r) P s held (PDone r).
Proof. intros R. split; auto. Qed.
Lemma ans_peek {A} (f : heap -> res A) P s held : rely P0 h0 P (hp s) ->
  (forall P' h', rely P0 h0 P' h' -> f h' = f h0) -> safe (ans (f h0)) P s held (peek f).
Proof.
  intros R H. apply safe_peek. intros P' s' held' R' _. pose proof (rely_trans _ _ _ _ _ _ R R') as R2.
  split; [exact R2|]. eapply H; eauto.
Qed.
Lemma vok_item v k v' : vok P0 h0 v -> item h0 v k = Ok v' -> vok P0 h0 v'.
Proof. intros V E. exact (proj2 (item_same P0 h0 P0 h0 v k V (rely_refl _ _)) v' E). Qed.

Ltac pk := match goal with |- safe _ _ _ _ (peek ?f) => apply (ans_peek f) end; [assumption|]; intros ? ? ?; cbv beta;
  first [ eapply (fun P h P' h' v k A B => proj1 (item_same P h P' h' v k A B)); eassumption
        | eapply contains_same; eassumption | eapply copy_same; eassumption ].
Ltac nx := eapply ans_bind; [assumption|first [pk | apply ans_done; assumption]|]; intros ? ? ? ? ? ? ?.
Ltac voks := repeat match goal with
  | V : vok P0 h0 ?v, E : item h0 ?v ?k = Ok ?v' |- _ =>
      lazymatch goal with H : vok P0 h0 v' |- _ => fail | _ => pose proof (vok_item v k v' V E) end end.

Lemma lookup_safe table m name variant keep P s held :
  vok P0 h0 table -> rely P0 h0 P (hp s) -> gd P s held ->
  safe (ans (get_params_in h0 table m name variant keep)) P s held
    (get_params_in_th table m name variant keep).
Proof.
  intros V R G. unfold get_params_in, get_params_in_th.
  assert (T : forall section v P s held, vok P0 h0 section -> rely P0 h0 P (hp s) -> gd P s held ->
    safe (ans (variant_section <- item h0 section (meth_value m) ;;
               b <- contains h0 variant_section (Some v) ;;
               raise_if (negb b) KeyError ;;;
               block <- item h0 variant_section v ;;
               out <- copy h0 block ;;
               Ok (if negb keep && dmem out "doi" then dpop out "doi" else out))%py) P s held
      (variant_section <~ peek (fun h => item h section (meth_value m)) ;;
       b <~ peek (fun h => contains h variant_section (Some v)) ;;
       _ <~ guard b KeyError ;;
       block <~ peek (fun h => item h variant_section v) ;;
       out <~ peek (fun h => copy h block) ;;
       PDone (Ok (if (negb keep && dmem out "doi")%bool then dpop out "doi" else out)))).
  { clear. intros section v P s held V R G. nx. voks. nx. nx. nx. voks. nx. now apply ans_done. }
  eapply ans_bind; [assumption| |].
  - destruct name as [name|].
    2:{ nx. voks. nx. voks. nx. nx. pk. }
    assert (D : safe (ans (default_section <- item h0 table "default" ;;
        variant_section <- item h0 default_section (meth_value m) ;;
        b <- contains h0 variant_section variant ;;
        raise_if (negb b) KeyError ;;;
        item h0 default_section "parameter")%py) P s held
       (default_section <~ peek (fun h => item h table "default") ;;
        variant_section <~ peek (fun h => item h default_section (meth_value m)) ;;
        b <~ peek (fun h => contains h variant_section variant) ;;
        _ <~ guard b KeyError ;;
        peek (fun h => item h default_section "parameter"))).
    { nx. voks. nx. voks. nx. nx. pk. }
    assert (E : forall name, safe (ans (func_section <- item h0 table "parameter" ;;
        b <- contains h0 func_section (Some name) ;;
        raise_if (negb b) KeyError ;;;
        disp <- item h0 func_section (casefold name) ;;
        b <- contains h0 disp (Some (meth_value m)) ;;
        raise_if (negb b) KeyError ;;;
        Ok disp)%py) P s held
       (func_section <~ peek (fun h => item h table "parameter") ;;
        b <~ peek (fun h => contains h func_section (Some name)) ;;
        _ <~ guard b KeyError ;;
        disp <~ peek (fun h => item h func_section (casefold name)) ;;
        b <~ peek (fun h => contains h disp (Some (meth_value m))) ;;
        _ <~ guard b KeyError ;;
        PDone (Ok disp))).
    { intros n. nx. voks. nx. nx. nx. voks. nx. nx. now apply ans_done. }
    clear T. specialize (E name).
    destruct name as [|[[] [] [] [] [] [] [] []] name]; try exact E.
    do 7 (try (destruct name as [|[[] [] [] [] [] [] [] []] name]; try exact E)). exact D.
  - intros section P1 s1 held1 Es G1 R1.
    assert (Vs : vok P0 h0 section).
    { revert Es. clear - V.
      assert (D : (default_section <- item h0 table "default" ;;
        variant_section <- item h0 default_section (meth_value m) ;;
        b <- contains h0 variant_section variant ;;
        raise_if (negb b) KeyError ;;;
        item h0 default_section "parameter")%py = Ok section -> vok P0 h0 section).
      { destruct (item h0 table "default") as [d|] eqn:E1; [|discriminate]. cbn [bind].
        destruct (item h0 d (meth_value m)) as [x|]; [|discriminate]. cbn [bind].
        destruct (contains h0 x variant) as [[]|]; try discriminate. cbn [bind negb raise_if]. intros E2.
        eapply vok_item; [|exact E2]. eapply vok_item; eauto. }
      assert (E : forall name, (func_section <- item h0 table "parameter" ;;
        b <- contains h0 func_section (Some name) ;;
        raise_if (negb b) KeyError ;;;
        disp <- item h0 func_section (casefold name) ;;
        b <- contains h0 disp (Some (meth_value m)) ;;
        raise_if (negb b) KeyError ;;;
        Ok disp)%py = Ok section -> vok P0 h0 section).
      { intros n. destruct (item h0 table "parameter") as [d|] eqn:E1; [|discriminate]. cbn [bind].
        destruct (contains h0 d (Some n)) as [[]|]; try discriminate. cbn [bind negb raise_if].
        destruct (item h0 d (casefold n)) as [x|] eqn:E2; [|discriminate]. cbn [bind].
        destruct (contains h0 x (Some (meth_value m))) as [[]|]; try discriminate. cbn [bind negb raise_if].
        intros E3. injection E3 as <-. eapply vok_item; [|exact E2]. eapply vok_item; eauto. }
      destruct name as [name|]; [|exact D]. specialize (E name).
      destruct name as [|[[] [] [] [] [] [] [] []] name]; try exact E.
      do 7 (try (destruct name as [|[[] [] [] [] [] [] [] []] name]; try exact E)). exact D. }
    eapply ans_bind; [assumption| |].
    + destruct variant as [v|]; [now apply ans_done|]. nx. voks. nx. now apply ans_done.
    + intros v P2 s2 held2 _ G2 R2. now apply T.
Qed.
End In.

(** ** Loading *)
Lemma good_held P s held held' : gd P s held -> (forall l, In l held' -> In l held) -> gd P s held'.
Proof. intros (A & B & C & D) H. split; [|split; [|split]]; auto. Qed.
(** a new private dictionary *)
Lemma good_private P s held d : gd P s held ->
  exists P', let s' := mkC (mkPy (hp s ++ [d])%list (py_cache (c_py s))) (c_reads s) in
    gd P' s' held /\ rely P (hp s) P' (hp s') /\ P' (List.length (hp s)) /\
    nth_error (hp s') (List.length (hp s)) = Some d.
Proof.
  intros (G1 & G2 & G3 & G4). cbn [s_py s_held] in *. exists (fun l => P l \/ l = List.length (hp s)).
  cbn [c_py py_heap]. set (h := hp s) in *.
  assert (R : rely P h (fun l => P l \/ l = List.length h) (h ++ [d])%list).
  { split; auto. intros l d0 _. apply nth_app_l. }
  split; [|split; [exact R|split; [now right|]]].
  - unfold good. cbn [s_py s_held py_heap py_cache c_py]. rewrite app_length. cbn [List.length].
    split; [|split; [|split]].
    + intros m l E. destruct (G1 m l E) as (f & Ef & Rf). exists f. split; auto. now apply (repr_rely _ _ _ _ _ _ R).
    + intros l [H| ->]; [apply G2 in H; lia|lia].
    + intros l H. apply G3 in H as (A & B). split; [intros [H| ->]; [auto|lia]|lia].
    + intros l d' k l' HP E Hin.
      assert (L : l < List.length h).
      { destruct (Nat.lt_ge_cases l (List.length h)) as [|L]; auto. exfalso. apply HP. right.
        assert (l < List.length (h ++ [d])%list) by (apply nth_error_Some; congruence). rewrite app_length in H. cbn in H. lia. }
      rewrite nth_error_app1 in E by auto. destruct (G4 l d' k l' ltac:(tauto) E Hin) as (A & B).
      split; [intros [H| ->]; [auto|lia]|lia].
  - rewrite nth_error_app2, Nat.sub_diag by auto. reflexivity.
Qed.

Definition stored (t : toml) : Post hval := fun P s _ r => exists v, r = Ok v /\ repr P (hp s) t v.
Lemma stored_stable t : stable (stored t).
Proof. intros P s held P' s' held' r (v & -> & H) R. exists v. split; auto. eapply repr_rely; eauto. Qed.
Definition store_list_th := fix go (d : list (string * toml)) : prog (dict hval) := match d with
  | [] => PDone (Ok [])
  | (k, t) :: d' => v <~ store_th t ;; r <~ go d' ;; PDone (Ok ((k, v) :: r))
  end.
Definition storeds (d : list (string * toml)) : Post (dict hval) := fun P s _ r => exists v, r = Ok v /\ reprs P (hp s) d v.

Lemma store_safe t : forall P s held, gd P s held -> safe (stored t) P s held (store_th t).
Proof.
  induction t as [a|a|d IH] using toml_ind'; intros P s held G.
  1,2: eexists; split; reflexivity.
  change (store_th (TD d)) with (d' <~ store_list_th d ;; l <~ new_dict d' ;; PDone (Ok (HR l))).
  assert (L : forall P s held, gd P s held -> safe (storeds d) P s held (store_list_th d)).
  { clear P s held G. induction d as [|[k t] d IHd]; intros P s held G.
    - eexists; split; [reflexivity|exact I].
    - cbn [store_list_th]. eapply safe_bind; [exact G|apply (IH k t); [now left|exact G]|].
      intros P1 s1 held1 r R1 G1 (v & -> & Hv).
      eapply safe_bind; [exact G1|apply IHd; [intros; eapply IH; [right; eassumption|assumption]|exact G1]|].
      intros P2 s2 held2 r R2 G2 (vs & -> & Hvs). eexists. split; [reflexivity|]. cbn [reprs].
      split; [reflexivity|]. split; [eapply repr_rely; eauto|exact Hvs]. }
  eapply safe_bind; [exact G|apply L; exact G|]. intros P1 s1 held1 r R1 G1 (d' & -> & Hd).
  unfold new_dict. cbn [pbind safe]. intros P2 s2 held2 G2 R2.
  destruct (good_private P2 s2 held2 d' G2) as (P3 & G3 & R3 & HP & E). exists P3. split; [exact G3|]. split; [exact R3|].
  eexists. split; [reflexivity|]. apply repr_TD. split; [exact HP|]. exists d'. split; [exact E|].
  eapply reprs_rely; [|exact Hd]. eapply rely_trans; eauto.
Qed.

Definition loaded (m : meth) : Post nat := fun P s _ r =>
  match F m with
  | Some f => exists l, r = Ok l /\ repr P (hp s) (tree m f) (HR l)
  | None => r = Raise FileNotFoundError
  end.
Lemma load_safe m P s held : gd P s held -> safe (loaded m) P s held (load_th files m).
Proof.
  intros G. unfold load_th. cbn [pbind safe]. intros P1 s1 held1 G1 R1. exists P1. split; [exact G1|]. split; [apply rely_refl|].
  destruct (py_cache (c_py s1) m) as [l|] eqn:Ec; cbn [pbind].
  - destruct G1 as (G1 & _). destruct (G1 m l Ec) as (f & Ef & Rf). unfold loaded. cbn [safe]. rewrite Ef. eauto.
  - rewrite Hfiles. unfold loaded. destruct (F m) as [f|] eqn:Ef; cbn [option_map]; [|reflexivity].
    cbn [pbind safe]. intros P2 s2 held2 G2 R2. exists P2. split; [exact G2|]. split; [apply rely_refl|].
    eapply safe_bind; [exact G2|apply store_safe; exact G2|]. intros P3 s3 held3 r R3 G3 (v & -> & Hv).
    destruct v as [x|x|l]; try (cbn [tree file_toml repr] in Hv; tauto).
    cbn [safe]. intros P4 s4 held4 G4 R4. exists P4. pose proof (repr_rely _ _ _ _ _ _ R4 Hv) as Hv'. split; [|split; [apply rely_refl|]].
    + destruct G4 as (A & B & C & D). split; [|split; [|split]]; auto. cbn [s_py c_py py_heap py_cache].
      intros m' l' E'. unfold upd_cache in E'. destruct m, m'; try (apply A; exact E'); injection E' as <-; eauto.
    + exists l. split; auto.
Qed.

(** ** A call *)
Definition called (m : meth) name variant keep : Post nat := fun P s held r =>
  good F P (mkSession (c_py s) (match r with Ok l => held ++ [l] | Raise _ => held end)%list) /\
  match F m with
  | None => r = Raise FileNotFoundError
  | Some f =>
      (forall b, entry f name variant b -> exists l, r = Ok l /\ ~ In l held /\
          content (hp s) l = Some (scalars (without_doi keep b))) /\
      ((forall b, ~ entry f name variant b) -> r = Raise KeyError)
  end.
Lemma call_safe m name variant keep P s held : gd P s held ->
  safe (called m name variant keep) P s held (get_params_th files (meth_value m) name variant keep).
Proof.
  intros G. unfold get_params_th. replace (meth_of (meth_value m)) with (Ok m) by (destruct m; reflexivity).
  eapply safe_bind; [exact G|apply load_safe; exact G|]. intros P1 s1 held1 r _ G1 H. unfold loaded in H. unfold called.
  destruct (F m) as [f|] eqn:Ef.
  2:{ subst r. cbn [safe]. split; [exact G1|reflexivity]. }
  destruct H as (l & -> & Rl). pose proof (HF m f Ef) as Hf.
  eapply safe_bind; [exact G1| |].
  { apply (lookup_safe P1 (hp s1)); [exists (tree m f); exact Rl|apply rely_refl|exact G1]. }
  intros P2 s2 held2 r _ G2 (_ & ->).
  destruct (params_spec P1 (hp s1) m f (HR l) Hf Rl name variant keep) as (S1 & S2).
  destruct (entry_dec f name variant Hf) as [(b & Hb)|Hn].
  - rewrite (S1 b Hb). unfold new_dict. cbn [safe]. intros P3 s3 held3 G3 R3.
    pose proof (good_alloc F P3 (mkSession (c_py s3) held3) (scalars (without_doi keep b)) G3
      (fun k l' H => False_ind _ (scalars_no_refs _ _ _ H))) as G4. cbn [s_py s_held] in G4.
    exists P3. split; [|split].
    + eapply (good_held P3 (mkC (mkPy (hp s3 ++ [scalars (without_doi keep b)])%list (py_cache (c_py s3))) (c_reads s3))); [exact G4|].
      intros l' Hl. apply in_or_app. now left.
    + split; auto. intros l' d' _. apply nth_app_l.
    + cbn [c_py py_heap]. split; [exact G4|]. split; [|intros Hn; now contradiction (Hn b)].
      intros b' Hb'. eexists. split; [reflexivity|]. split.
      * intros Hi. destruct G3 as (_ & _ & G3 & _). apply G3 in Hi. cbn [s_py] in Hi. lia.
      * unfold content. rewrite nth_error_app2, Nat.sub_diag by auto. cbn [nth_error].
        pose proof (S1 b' Hb') as E'. rewrite (S1 b Hb) in E'. now injection E' as ->.
  - rewrite (S2 Hn). cbn [safe]. split; [exact G2|]. split; [|reflexivity]. intros b Hb. now contradiction (Hn b).
Qed.

(** ** User code: changes no table *)
Lemma with_obj_rely P s i g : good F P s -> rely P (py_heap (s_py s)) P (py_heap (s_py (with_obj s i g))).
Proof.
  intros (_ & _ & G3 & _). unfold with_obj. destruct (nth_error (s_held s) i) as [l|] eqn:Ei; [|apply rely_refl].
  destruct (nth_error (py_heap (s_py s)) l) as [d|] eqn:El; [|apply rely_refl]. cbn [s_py py_heap].
  destruct (G3 l (nth_error_In _ _ Ei)) as (NP & L). split; auto. intros l' d' HP E.
  rewrite set_nth_nth by auto. destruct (Nat.eqb_spec l' l) as [->|]; [contradiction|exact E].
Qed.
Lemma user_good P s e : (forall a b c d, e <> Call a b c d) -> good F P s ->
  good F P (step files s e) /\ rely P (py_heap (s_py s)) P (py_heap (s_py (step files s e))).
Proof.
  intros Ne G. destruct e as [method name variant keep| |i k x|i k|i|i k]; cbn [step].
  - now contradiction (Ne method name variant keep).
  - split; [apply good_alloc; auto; intros k l []|]. split; auto. intros l d _. apply nth_app_l.
  - destruct (uval_val s x) as [v|] eqn:Ev; [|split; [exact G|apply rely_refl]]. split; [|now apply with_obj_rely].
    apply with_obj_good; auto.
    intros d Hd k' l' Hin. apply in_dset in Hin as [Hin|E]; [eapply Hd; eauto|]. subst v.
    destruct x as [v|l|j]; try discriminate. cbn [uval_val] in Ev. destruct (nth_error (s_held s) j) as [l0|] eqn:Ej; [|discriminate].
    injection Ev as ->. destruct G as (_ & _ & G3 & _). apply G3. now apply nth_error_In in Ej.
  - split; [|now apply with_obj_rely]. apply with_obj_good; auto. intros d Hd k' l' Hin. unfold dpop in Hin. apply filter_In in Hin as (Hin & _). eapply Hd; eauto.
  - split; [|now apply with_obj_rely]. apply with_obj_good; auto. intros d Hd k' l' [].
  - destruct (nth_error (s_held s) i) as [l|] eqn:Ei; [|split; [exact G|apply rely_refl]].
    destruct (nth_error (py_heap (s_py s)) l) as [d|] eqn:El; [|split; [exact G|apply rely_refl]].
    destruct (dget d k) as [[v|v|l']|] eqn:Ed; try (split; [exact G|apply rely_refl]).
    split; [|apply rely_refl].
    destruct G as (G1 & G2 & G3 & G4). split; [|split; [|split]]; auto. intros x H.
    cbn [s_held] in H. apply in_app_or in H as [H|[<-|[]]]; [now apply G3|].
    destruct (dget_in _ _ _ Ed) as (k' & Hin). apply (G4 l d k' l'); auto. apply G3. now apply nth_error_In in Ei.
Qed.

(** ** Executions *)
Definition callspec (a : string * option string * option string * bool) (P : nat -> Prop) (s : cstate) (held : list nat)
  (p : prog nat) : Prop :=
  let '(method, name, variant, keep) := a in
  match p with
  | PDone r => meth_of method = Raise ValueError -> r = Raise ValueError
  | PStep _ _ => exists m, method = meth_value m /\ safe (called m name variant keep) P s held p
  end.
Definition inv (l : list action) (y : system) : Prop := exists P,
  gd P (y_state y) (y_held y) /\
  List.length (y_calls y) = List.length (begun l) /\
  forall k p a, nth_error (y_calls y) k = Some p -> nth_error (begun l) k = Some a ->
    callspec a P (y_state y) (y_held y) p.

Lemma callspec_rely a P s held P' s' held' p : callspec a P s held p -> rely P (hp s) P' (hp s') ->
  callspec a P' s' held' p.
Proof.
  destruct a as [[[method name] variant] keep]. unfold callspec. destruct p as [r|u n]; auto.
  intros (m & E & H) R. exists m. split; auto. eapply safe_step_rely; eauto.
Qed.
Lemma begun_app l l' : begun (l ++ l') = (begun l ++ begun l')%list.
Proof. apply flat_map_app. Qed.

(** one step of a running call: it finishes as it should *)
Lemma go_step l y k u n a : inv l y -> nth_error (y_calls y) k = Some (PStep u n) -> nth_error (begun l) k = Some a ->
  exists P, good F P (mkSession (c_py (u (y_state y)))
        (match n (y_state y) with PDone (Ok l) => y_held y ++ [l] | _ => y_held y end)%list) /\
    (forall j p b, nth_error (y_calls y) j = Some p -> nth_error (begun l) j = Some b -> callspec b P (u (y_state y)) (y_held y) p) /\
    callspec a P (u (y_state y)) (y_held y) (n (y_state y)) /\
    forall r m name variant keep, n (y_state y) = PDone r -> a = (meth_value m, name, variant, keep) ->
      called m name variant keep P (u (y_state y)) (y_held y) r.
Proof.
  intros (P & G & Len & H) Ek Ea. pose proof (H k _ a Ek Ea) as Hc. destruct a as [[[method name] variant] keep].
  cbn [callspec] in Hc. destruct Hc as (m & -> & Hs).
  destruct (Hs P (y_state y) (y_held y) G (rely_refl _ _)) as (P' & G' & R & Hs'). exists P'.
  split; [|split; [|split]].
  - destruct (n (y_state y)) as [[x|e]|u' n'] eqn:En; cbn [safe] in Hs'; [apply Hs'|exact G'|exact G'].
  - intros j p b Ej Eb. eapply callspec_rely; [now apply (H j p b)|exact R].
  - unfold callspec. destruct (n (y_state y)) as [r|u' n'].
    + intros E. destruct m; discriminate E.
    + exists m. split; [reflexivity|exact Hs'].
  - intros r m' name' variant' keep' En Ea'. rewrite En in Hs'. cbn [safe] in Hs'. injection Ea' as E1 <- <- <-.
    replace m' with m; [exact Hs'|]. destruct m, m'; try discriminate E1; reflexivity.
Qed.

Lemma set_nth_ge {A} (l : list A) i x j : nth_error l i <> None ->
  nth_error (set_nth l i x) j = if Nat.eqb j i then Some x else nth_error l j.
Proof. intros H. apply set_nth_nth. now apply nth_error_Some. Qed.

Lemma inv_step l y a : inv l y -> inv (l ++ [a]) (happens files y a).
Proof.
  intros I. pose proof I as (P & G & Len & H).
  assert (USR : forall e, (forall a b c d, e <> Call a b c d) ->
    inv (l ++ [User e]) (let s := step files (mkSession (c_py (y_state y)) (y_held y)) e in
      mkSys (mkC (s_py s) (c_reads (y_state y))) (s_held s) (y_calls y))).
  { intros e Ne. destruct (user_good P _ e Ne G) as (G' & R).
    assert (B : begun [User e] = []) by (destruct e; try reflexivity; now contradiction (Ne method functional variant keep_doi)).
    exists P. rewrite begun_app, B, app_nil_r. cbn [y_state y_held y_calls c_py]. split; [|split; [exact Len|]].
    - destruct (step files _ e); exact G'.
    - intros k p b Ek Eb. eapply callspec_rely; [now apply (H k)|exact R]. }
  destruct a as [e|k].
  - destruct e as [method name variant keep| |i k x|i k|i|i k]; try (apply USR; discriminate).
    exists P. cbn [happens y_state y_held y_calls]. rewrite begun_app, !app_length, Len. split; [exact G|]. split; [reflexivity|].
    intros k p b Ek Eb. destruct (Nat.lt_ge_cases k (List.length (begun l))) as [L|L].
    + rewrite nth_error_app1 in Ek by lia. rewrite nth_error_app1 in Eb by lia. now apply (H k).
    + rewrite nth_error_app2 in Ek by lia. rewrite nth_error_app2 in Eb by lia. rewrite Len in Ek.
      cbn [begun flat_map app] in Eb. destruct (k - List.length (begun l)) as [|z]; [|destruct z; discriminate].
      injection Ek as <-. injection Eb as <-. unfold callspec.
      destruct (meth_of_cases method) as [(m & ->)|E].
      * pose proof (call_safe m name variant keep P (y_state y) (y_held y) G) as S.
        destruct (get_params_th files (meth_value m) name variant keep) as [r|u n] eqn:Ep.
        -- intros E. destruct m; discriminate E.
        -- exists m. split; [reflexivity|exact S].
      * unfold get_params_th. rewrite E. reflexivity.
  - assert (B : begun (l ++ [Go k]) = begun l) by (rewrite begun_app; apply app_nil_r).
    assert (Stay : inv (l ++ [Go k]) y) by (exists P; rewrite B; auto).
    cbn [happens]. destruct (nth_error (y_calls y) k) as [[r|u n]|] eqn:Ek; [exact Stay| |exact Stay].
    assert (Lk : k < List.length (y_calls y)) by (apply nth_error_Some; congruence).
    destruct (nth_error (begun l) k) as [a|] eqn:Ea.
    2:{ apply nth_error_None in Ea. lia. }
    destruct (go_step l y k u n a I Ek Ea) as (P' & G' & Ho & Hk & _).
    exists P'. rewrite B. cbn [y_state y_held y_calls].
    split; [exact G'|]. split; [rewrite set_nth_length by auto; exact Len|].
    intros j p b Ej Eb. rewrite set_nth_nth in Ej by auto. eapply callspec_rely; [|apply rely_refl].
    destruct (Nat.eqb_spec j k) as [->|].
    + injection Ej as <-. rewrite Ea in Eb. injection Eb as <-. exact Hk.
    + eapply Ho; eauto.
Qed.

Lemma execution_app l l' : execution files (l ++ l') = fold_left (happens files) l' (execution files l).
Proof. apply fold_left_app. Qed.
Lemma inv_execution l : inv l (execution files l).
Proof.
  induction l as [|a l IH] using rev_ind.
  - exists (fun _ => False). split; [|split; [reflexivity|]].
    + split; [|split; [|split]].
      * intros m x E. discriminate E.
      * intros x [].
      * intros x [].
      * intros x d k l' _ E. destruct x; discriminate E.
    + intros k p a E. destruct k; discriminate E.
  - rewrite execution_app. cbn [fold_left]. now apply inv_step.
Qed.
End S.
