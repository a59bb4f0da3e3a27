(** * Definitions of damping classes: C62 *)
From Coq Require Import List Arith Lia Bool String.
From Verif Require Import Py Tensor Scalar ModelExt ModelUtils ModelDamping ModelSubclass SpecSubclass.
Import ListNotations.
Open Scope py_scope.
Open Scope string_scope.

Section C.
Context {K : Scalar}.
Notation T := (tensor K).
Notation decl := (decl K).

Section Ind.
Context (P : decl -> Prop) (H0 : P Root) (H1 : forall n r f, P (Mixin n r f))
  (H2 : forall n r f m, Forall P m -> P (Sub n r f m)).
Fixpoint decl_rect' (d : decl) : P d :=
  match d with
  | Root => H0
  | Mixin n r f => H1 n r f
  | Sub n r f m => H2 n r f m ((fix all (l : list decl) : Forall P l :=
      match l with [] => Forall_nil _ | e :: l' => Forall_cons _ (decl_rect' e) (all l') end) m)
  end.
End Ind.

Fixpoint define_all (m : list decl) : res (list (cls K)) :=
  match m with
  | [] => Ok []
  | e :: m' => c <- define e ;; l <- define_all m' ;; Ok (c :: l)
  end.
Lemma define_sub n r f m : define (Sub n r f m) = (l <- define_all m ;; new_class n r f l).
Proof. reflexivity. Qed.

Lemma define_all_2 m l : define_all m = Ok l -> Forall2 (fun d c => define d = Ok c) m l.
Proof.
  revert l. induction m as [|e m IH]; intros l E; cbn [define_all] in E.
  - injection E as <-. constructor.
  - destruct (define e) as [c|] eqn:Ee; [|discriminate]. cbn [bind] in E.
    destruct (define_all m) as [l'|]; [|discriminate]. cbn [bind] in E. injection E as <-. constructor; auto.
Qed.

Lemma new_class_shape n r f l c : new_class (K := K) n r f l = Ok c ->
  exists g, c = Cls n r g l.
Proof.
  unfold new_class. intros E. destruct (default _ _).
  - injection E as <-. eauto.
  - destruct (get_f _); [|discriminate]. destruct (raise_if _ _); [|discriminate]. cbn [bind] in E. injection E as <-. eauto.
Qed.

Lemma define_req (d : decl) c : define d = Ok c -> c_req c = own_req d.
Proof.
  destruct d as [|n r f|n r f m]; intros E.
  - injection E as <-. reflexivity.
  - injection E as <-. reflexivity.
  - rewrite define_sub in E. destruct (define_all m) as [l|]; [|discriminate]. cbn [bind] in E.
    apply new_class_shape in E as (g & ->). reflexivity.
Qed.
Lemma req_2 m l : Forall2 (fun d c => define d = Ok c) m l -> first_some c_req l = first_some (own_req (K := K)) m.
Proof. induction 1 as [|d c m l E _ IH]; [reflexivity|]. simpl. now rewrite (define_req _ _ E), IH. Qed.

Lemma visible_of n r (f : option (fdef K)) m l g : Forall2 (fun d c => define d = Ok c) m l ->
  default (get_req (Cls n r g l)) [] = visible_req (Sub n r f m).
Proof.
  intros H. unfold get_req, visible_req. cbn [first_some c_req c_mro own_req mro_of].
  now rewrite (req_2 _ _ H).
Qed.

(** what a call of the function object does *)
Fixpoint outcome (f : fdef K) (maps : list reqmap) (args : list (val K)) (kw : dict (val K)) : res T :=
  match maps with
  | [] => b <- bind_args (fd_sig f) args kw ;; fd_body f b
  | m :: maps' =>
      b <- bind_args (fd_sig f) args kw ;;
      v <- dgetitem b "order" ;;
      raise_if (existsb (fun n => val_missing (dget b n)) match order_key v with Some o => req_get m o | None => [] end) TypeError ;;;
      outcome f maps' args kw
  end.
Definition fn_ok (g : fn K) (f : fdef K) (maps : list reqmap) : Prop :=
  fn_sig g = fd_sig f /\ fn_abstract g = fd_abstract f /\ forall args kw, fn_call g args kw = outcome f maps args kw.

Lemma plain_ok f : fn_ok (plain f) f [].
Proof. repeat split. Qed.
Lemma checked_ok m g f maps : fn_ok g f maps -> fn_ok (checked m g) f (m :: maps).
Proof.
  intros (Hs & Ha & Hc). split; [exact Hs|]. split; [exact Ha|]. intros args kw. cbn [outcome fn_call checked].
  rewrite Hs. destruct (bind_args _ _ _); [|reflexivity]. cbn [bind]. destruct (dgetitem _ _); [|reflexivity]. cbn [bind].
  destruct (raise_if _ _); [|reflexivity]. cbn [bind]. apply Hc.
Qed.

(** a class has an attribute [_f] of its own exactly if it provides one *)
Lemma own_f (d : decl) c : define d = Ok c -> (c_f c <> None <-> provides d).
Proof.
  destruct d as [|n r f|n r f m]; intros E.
  - injection E as <-. simpl. split; [auto|discriminate].
  - injection E as <-. simpl. destruct f; simpl; split; congruence.
  - rewrite define_sub in E. destruct (define_all m) as [l|] eqn:El; [|discriminate]. cbn [bind] in E.
    apply define_all_2 in El. unfold new_class in E. rewrite (visible_of n r f m l _ El) in E. cbn [provides].
    destruct (visible_req (Sub n r f m)) as [|x y].
    + injection E as <-. cbn [c_f]. destruct f; simpl; split; intros H; try (left; congruence); destruct H; congruence.
    + destruct (get_f _); [|discriminate]. destruct (raise_if _ _); [|discriminate]. injection E as <-. cbn [c_f].
      split; [right; discriminate|discriminate].
Qed.

Lemma next_2 m (l : list (cls K)) e : Forall2 (fun d c => define d = Ok c) m l -> next_provider m e ->
  exists c, define e = Ok c /\ c_f c <> None /\ first_some c_f l = c_f c.
Proof.
  intros H. revert e. induction H as [|d c m l E H IH]; intros e (b & a & Em & Pe & Hb).
  - destruct b; discriminate.
  - destruct b as [|x b]; cbn [app] in Em; injection Em as -> Em.
    + exists c. split; [exact E|]. pose proof (proj2 (own_f e c E) Pe) as Q. split; [exact Q|].
      cbn [first_some]. destruct (c_f c); [reflexivity|congruence].
    + destruct (IH e) as (c' & E' & Q & F).
      { exists b, a. split; [exact Em|]. split; [exact Pe|]. intros y Hy. apply Hb. now right. }
      exists c'. split; [exact E'|]. split; [exact Q|]. cbn [first_some].
      destruct (c_f c) eqn:Ec; [|exact F]. exfalso. apply (Hb x (or_introl eq_refl)). apply (own_f x c E). congruence.
Qed.

Lemma get_f_own (c : cls K) g : c_f c = Some g -> get_f c = Some g.
Proof. destruct c as [n r f m]. unfold get_f. cbn [first_some c_f]. now intros ->. Qed.

(** the function object found in the class behaves as specified *)
Lemma uses_ok d f maps : uses d f maps -> forall c, define d = Ok c ->
  exists g, get_f c = Some g /\ fn_ok g f maps.
Proof.
  assert (W : forall n r (f0 : option (fdef K)) m l c base f maps, Forall2 (fun d c => define d = Ok c) m l ->
     new_class n r f0 l = Ok c -> get_f (Cls n r (option_map plain f0) l) = Some base -> fn_ok base f maps ->
     exists g, get_f c = Some g /\ fn_ok g f (with_own (Sub n r f0 m) maps)).
  { intros n r f0 m l c base f' maps' H E G B. unfold new_class in E. rewrite (visible_of n r f0 m l _ H) in E.
    unfold with_own. destruct (visible_req (Sub n r f0 m)) as [|x y].
    - injection E as <-. eauto.
    - rewrite G in E. destruct (raise_if _ _); [|discriminate]. cbn [bind] in E. injection E as <-.
      eexists. split; [reflexivity|]. now apply checked_ok. }
  induction 1 as [|n r f|n r f m|n r m e f maps N U IH]; intros c E.
  - injection E as <-. eexists. split; [reflexivity|]. apply plain_ok.
  - injection E as <-. eexists. split; [reflexivity|]. apply plain_ok.
  - rewrite define_sub in E. destruct (define_all m) as [l|] eqn:El; [|discriminate]. cbn [bind] in E.
    apply define_all_2 in El. eapply W; [exact El|exact E|reflexivity|apply plain_ok].
  - rewrite define_sub in E. destruct (define_all m) as [l|] eqn:El; [|discriminate]. cbn [bind] in E.
    apply define_all_2 in El. destruct (next_2 _ _ _ El N) as (ce & Ee & Q & F).
    destruct (IH ce Ee) as (g & G & B).
    destruct (c_f ce) as [g'|] eqn:Ec; [|congruence]. rewrite (get_f_own _ _ Ec) in G. injection G as ->.
    eapply W; [exact El|exact E| |exact B]. unfold get_f. cbn [first_some c_f option_map c_mro]. exact F.
Qed.

Lemma provides_dec (d : decl) : provides d \/ ~ provides d.
Proof.
  destruct d as [|n r f|n r f m]; cbn [provides]; [auto| |].
  - destruct f; [left|right]; congruence.
  - destruct f; [left; left; discriminate|]. destruct (visible_req _); [right; intros [H|H]; congruence|left; right; discriminate].
Qed.
Lemma next_exists (m : list decl) x : In x m -> provides x -> exists e, next_provider m e /\ In e m.
Proof.
  induction m as [|d m IH]; [contradiction|]. intros Hin Hp. destruct (provides_dec d) as [D|D].
  - exists d. split; [|now left]. exists [], m. split; [reflexivity|]. split; [exact D|contradiction].
  - destruct Hin as [->|Hin]; [contradiction|]. destruct (IH Hin Hp) as (e & (b & a & E & P & Hb) & He).
    exists e. split; [|now right]. exists (d :: b), a. rewrite E. split; [reflexivity|]. split; [exact P|].
    intros y [<-|Hy]; auto.
Qed.

(** every class has exactly one such function *)
Lemma uses_exists (d : decl) : wf d -> provides d \/ (exists n r f m, d = Sub n r f m) -> exists f maps, uses d f maps.
Proof.
  induction d as [|n r f|n r f m IH] using decl_rect'; intros W P.
  - eexists _, _. constructor.
  - destruct f as [f|]; [eexists _, _; constructor|]. destruct P as [P|(? & ? & ? & ? & P)]; [now destruct P|discriminate].
  - destruct f as [f|]; [eexists _, _; constructor|].
    inversion W as [| |? ? ? ? Hr Hw]; subst.
    destruct (next_exists m Root Hr I) as (e & N & He).
    rewrite Forall_forall in IH. destruct (IH e He (Hw e He)) as (f & maps & U).
    + left. now destruct N as (? & ? & _ & ? & _).
    + eexists _, _. econstructor; eauto.
Qed.

Lemma bind_pos_te fs : forall args kw e, bind_pos (K := K) fs args kw = Raise e -> e = TypeError.
Proof.
  induction fs as [|(n, d) fs IH]; intros args kw e E; [discriminate|]. cbn [bind_pos] in E. destruct args as [|a args].
  - destruct (dget kw n); [|destruct d; [|congruence]];
      (destruct (bind_pos fs [] kw) eqn:F; [discriminate|]; cbn [bind] in E; injection E as <-; eapply IH; eauto).
  - destruct (dmem kw n); [congruence|]. destruct (bind_pos fs args kw) eqn:F; [discriminate|]. cbn [bind] in E.
    injection E as <-. eapply IH; eauto.
Qed.
Lemma bind_kw_te fs kw e : bind_kw (K := K) fs kw = Raise e -> e = TypeError.
Proof.
  induction fs as [|(n, d) fs IH]; intros E; [discriminate|]. cbn [bind_kw] in E.
  destruct (dget kw n); [|destruct d; [|congruence]];
    (destruct (bind_kw fs kw) eqn:F; [discriminate|]; cbn [bind] in E; injection E as <-; apply IH; reflexivity).
Qed.
Lemma bind_args_te s args kw e : bind_args (K := K) s args kw = Raise e -> e = TypeError.
Proof.
  unfold bind_args. destruct (bind_pos _ _ _) eqn:E1; [|cbn; intros E; injection E as <-; eapply bind_pos_te; eauto].
  cbn [bind]. destruct (snd a), (sg_varargs s); cbn [bind]; try congruence;
  (destruct (bind_kw _ _) eqn:E2; [|cbn; intros E; injection E as <-; eapply bind_kw_te; eauto]); cbn [bind];
  destruct (filter _ _), (sg_varkw s); cbn [bind]; congruence.
Qed.

Lemma val_missing_spec (o : option (val K)) : val_missing o = true <-> o = None \/ o = Some (VPar PNone).
Proof. destruct o as [[| | | |[]| |]|]; simpl; split; intros H; auto; try discriminate; destruct H; discriminate. Qed.

(** *** C62: a class statement fails exactly if the class requires a name that its [_f] does not have *)
Theorem C62_class_statement : forall n r f (m : list decl),
  wf (Sub n r f m) -> (forall e, In e m -> exists c, define e = Ok c) ->
  exists g maps, uses (Sub n r f m) g maps /\
    ((exists c, define (Sub n r f m) = Ok c) \/ define (Sub n r f m) = Raise TypeError) /\
    (define (Sub n r f m) = Raise TypeError <-> unknown_name (Sub n r f m) g).
Proof.
  intros n r f m W HD.
  assert (HA : exists l, define_all m = Ok l).
  { clear W. induction m as [|e m IH]; [eexists; reflexivity|]. destruct (HD e (or_introl eq_refl)) as (c & E).
    destruct (IH (fun e' He => HD e' (or_intror He))) as (l & El). cbn [define_all]. rewrite E. cbn [bind]. rewrite El. cbn [bind]. eauto. }
  destruct HA as (l & El). pose proof (define_all_2 _ _ El) as H2.
  destruct (uses_exists _ W) as (g & maps & U); [right; eauto 6|].
  exists g, maps. split; [exact U|]. rewrite define_sub, El. cbn [bind].
  assert (HF : exists base mp, get_f (Cls n r (option_map plain f) l) = Some base /\ fn_ok base g mp).
  { inversion U as [| |? ? ? ? |? ? ? e ? mp N U']; subst.
    - eexists _, _. split; [reflexivity|apply plain_ok].
    - destruct (next_2 _ _ _ H2 N) as (ce & Ee & Q & F). destruct (uses_ok _ _ _ U' ce Ee) as (g' & G & B).
      destruct (c_f ce) as [g''|] eqn:Ec; [|congruence]. rewrite (get_f_own _ _ Ec) in G. injection G as ->.
      exists g', mp. split; [|exact B]. unfold get_f. cbn [first_some c_f option_map c_mro]. exact F. }
  destruct HF as (base & mp & HF & (Hs & _)).
  unfold new_class. rewrite (visible_of n r f m l _ H2), HF, Hs.
  unfold unknown_name. destruct (visible_req (Sub n r f m)) as [|x y].
  - split; [left; eauto|]. split; [discriminate|]. intros (o & names & k & [] & _).
  - remember (x :: y) as M eqn:EM. clear EM x y.
    match goal with |- context [existsb ?F M] => destruct (existsb F M) eqn:EX end; cbn [raise_if bind].
    + split; [now right|]. split; [intros _|reflexivity].
      apply existsb_exists in EX as ((o & names) & Hin & EX). apply existsb_exists in EX as (k & Hk & EX).
      exists o, names, k. split; [exact Hin|]. split; [exact Hk|]. intros Hp.
      apply negb_true_iff in EX. unfold str_in in EX.
      assert (Y : existsb (String.eqb k) (param_names (fd_sig g)) = true); [|congruence].
      apply existsb_exists. exists k. split; [exact Hp|apply String.eqb_refl].
    + split; [left; eauto|]. split; [discriminate|]. intros (o & names & k & Hin & Hk & Hp). exfalso.
      match type of EX with existsb ?F M = _ => assert (Y : existsb F M = true); [|congruence] end.
      apply existsb_exists. exists (o, names). split; [exact Hin|]. apply existsb_exists. exists k. split; [exact Hk|].
      apply negb_true_iff. destruct (str_in k _) eqn:Es; [|reflexivity]. unfold str_in in Es.
      apply existsb_exists in Es as (k' & Hk' & Ek). apply String.eqb_eq in Ek. subst k'. contradiction.
Qed.

(** *** C62: calls of an object.  Unless the order is switched off, the call raises [TypeError] if
    the arguments do not fit the signature of the function, or if a required value is missing or [None] (the
    function is not entered then); otherwise it does what the function does. *)
Theorem C62_call : forall (d : decl) f maps c dist radii order only a,
  uses d f maps -> define d = Ok c ->
  (skipped order a = true -> object_call c dist radii order only a = Ok (zeros_like dist)) /\
  (skipped order a = false ->
     match bind_args (fd_sig f) (positional dist radii order) (call_kw a only) with
     | Raise _ => object_call c dist radii order only a = Raise TypeError
     | Ok b =>
         (lacks maps b -> object_call c dist radii order only a = Raise TypeError) /\
         (maps = [] -> object_call c dist radii order only a = fd_body f b) /\
         (dget b "order" <> None -> ~ lacks maps b -> object_call c dist radii order only a = fd_body f b) /\
         (dget b "order" = None -> maps <> [] -> object_call c dist radii order only a = Raise KeyError)
     end) /\
  (instantiate c = if fd_abstract f then Raise TypeError else Ok tt).
Proof.
  intros * U E. destruct (uses_ok _ _ _ U c E) as (g & G & (Hs & Ha & Hc)).
  assert (S : skipped order a =
    ((order =? 6)%nat && (is_none (g_s6 a) && is_none (g_rs6 a)) || ((order =? 8)%nat && (is_none (g_s8 a) && is_none (g_rs8 a)) ||
     ((order =? 9)%nat && (is_none (g_s9 a) && is_none (g_rs9 a)) || (order =? 10)%nat && is_none (g_s10 a))))%bool).
  { unfold skipped. do 11 (destruct order as [|order]; [simpl; repeat (rewrite ?andb_true_r, ?orb_false_r); reflexivity|]). reflexivity. }
  split; [|split].
  - intros Sk. unfold object_call. rewrite S in Sk.
    destruct ((order =? 6)%nat && _); [reflexivity|]. destruct ((order =? 8)%nat && _); [reflexivity|].
    destruct ((order =? 9)%nat && _); [reflexivity|]. cbn [orb] in Sk. now rewrite Sk.
  - intros Sk. rewrite S in Sk. apply orb_false_iff in Sk as [S1 Sk]. apply orb_false_iff in Sk as [S2 Sk]. apply orb_false_iff in Sk as [S3 S4].
    unfold object_call. rewrite S1, S2, S3, S4, G, Hc. fold (positional dist radii order).
    generalize (positional dist radii order) (call_kw a only). intros args kw.
    destruct (bind_args (fd_sig f) args kw) as [b|e] eqn:EB.
    + clear -EB. split; [|split; [|split]].
      * intros (m & v & o & n & Hm & Ho & Hk & Hn & Hv). induction maps as [|m' maps IH]; [contradiction|]. cbn [outcome].
        rewrite EB. cbn [bind]. unfold dgetitem. rewrite Ho. cbn [bind]. rewrite Hk. destruct Hm as [->|Hm].
        -- replace (existsb _ _) with true; [reflexivity|]. symmetry. apply existsb_exists. exists n. split; [exact Hn|].
           now apply val_missing_spec.
        -- destruct (existsb _ _); [reflexivity|]. cbn [raise_if bind]. auto.
      * intros ->. cbn [outcome]. now rewrite EB.
      * intros Ho HL. induction maps as [|m maps IH]; cbn [outcome]; rewrite EB; cbn [bind]; [reflexivity|].
        destruct (dget b "order") as [v|] eqn:Ev; [|congruence]. unfold dgetitem. rewrite Ev. cbn [bind].
        destruct (existsb _ _) eqn:EX.
        -- exfalso. apply HL. apply existsb_exists in EX as (n & Hn & EX). apply val_missing_spec in EX.
           destruct (order_key v) as [o|] eqn:Eo; [|contradiction]. exists m, v, o, n. split; [now left|]. auto.
        -- cbn [raise_if bind]. apply IH. intros (m' & v' & o' & n' & Hm' & R). apply HL. exists m', v', o', n'. split; [now right|exact R].
      * intros Ho HM. destruct maps as [|m maps]; [congruence|]. cbn [outcome]. rewrite EB. cbn [bind]. unfold dgetitem. now rewrite Ho.
    + apply bind_args_te in EB as EB'. subst e. destruct maps; cbn [outcome]; now rewrite EB.
  - unfold instantiate. rewrite G, Ha. destruct (fd_abstract f); reflexivity.
Qed.

(** *** C62: the arguments of a call are matched with the parameters by Python's rules *)
Lemma dget_app (a b : dict (val K)) n : dget (a ++ b)%list n = match dget a n with Some v => Some v | None => dget b n end.
Proof. induction a as [|(k, v) a IH]; [reflexivity|]. cbn [app dget]. destruct (String.eqb k n); auto. Qed.
Lemma dget_none (a : dict (val K)) n : ~ In n (map fst a) -> dget a n = None.
Proof.
  induction a as [|(k, v) a IH]; [reflexivity|]. cbn [map fst In dget]. intros H. destruct (String.eqb k n) eqn:E.
  - apply String.eqb_eq in E. subst. exfalso. apply H. now left.
  - apply IH. intros Q. apply H. now right.
Qed.
Lemma str_in_spec n l : str_in n l = true <-> In n l.
Proof.
  unfold str_in. rewrite existsb_exists. split.
  - intros (x & H & E). apply String.eqb_eq in E. now subst.
  - intros H. exists n. split; [exact H|apply String.eqb_refl].
Qed.

Lemma bind_pos_ok fs : forall args kw r, bind_pos (K := K) fs args kw = Ok r -> NoDup (map fst fs) ->
  map fst (fst r) = map fst fs /\ snd r = skipn (List.length fs) args /\
  (forall i n d, nth_error fs i = Some (n, d) ->
     (if (i <? List.length args)%nat then dget kw n = None else dget kw n <> None \/ d <> None) /\
     dget (fst r) n = if (i <? List.length args)%nat then nth_error args i else given kw n d).
Proof.
  induction fs as [|(n0, d0) fs IH]; intros args kw r E ND.
  - injection E as <-. split; [reflexivity|]. split; [reflexivity|]. intros [|i] n d Hi; discriminate.
  - inversion ND as [|? ? Nin ND']; subst. cbn [bind_pos] in E. destruct args as [|a args].
    + assert (X : exists v r', given kw n0 d0 = Some v /\ bind_pos fs [] kw = Ok r' /\ r = ((n0, v) :: fst r', snd r') /\
                 (dget kw n0 <> None \/ d0 <> None)).
      { unfold given. destruct (dget kw n0) as [v|] eqn:Ek; [|destruct d0 as [v|]; [|discriminate]];
          (destruct (bind_pos fs [] kw) as [r'|]; [|discriminate]; cbn [bind] in E; injection E as <-; exists v, r';
           split; [reflexivity|]; split; [reflexivity|]; split; [reflexivity|]; (left; congruence) || (right; congruence)). }
      destruct X as (v & r' & Eg & E' & -> & Hn). destruct (IH _ _ _ E' ND') as (A & B & C). cbn [fst snd map].
      split; [now rewrite A|]. split; [rewrite B; now rewrite !skipn_nil|].
      intros [|i] n d En; cbn [nth_error length Nat.ltb Nat.leb] in *.
      * injection En as <- <-. split; [exact Hn|]. cbn [dget]. rewrite String.eqb_refl. now rewrite Eg.
      * destruct (C i n d En) as (C1 & C2). cbn in C1, C2. split; [exact C1|]. cbn [dget].
        destruct (String.eqb n0 n) eqn:Q; [|exact C2]. exfalso. apply String.eqb_eq in Q. subst. apply Nin.
        apply nth_error_In in En. now apply (in_map fst) in En.
    + unfold dmem in E. destruct (dget kw n0) eqn:Ek; [discriminate|].
      destruct (bind_pos fs args kw) as [r'|] eqn:E'; [|discriminate]. cbn [bind] in E. injection E as <-.
      destruct (IH _ _ _ E' ND') as (A & B & C). cbn [fst snd map].
      split; [now rewrite A|]. split; [exact B|].
      intros [|i] n d En; cbn [nth_error length] in *.
      * injection En as <- <-. split; [exact Ek|]. cbn [dget]. now rewrite String.eqb_refl.
      * destruct (C i n d En) as (C1 & C2). change (S i <? S (List.length args))%nat with (i <? List.length args)%nat.
        split; [exact C1|]. cbn [dget].
        destruct (String.eqb n0 n) eqn:Q; [|exact C2]. exfalso. apply String.eqb_eq in Q. subst. apply Nin.
        apply nth_error_In in En. now apply (in_map fst) in En.
Qed.
Lemma bind_pos_total fs : forall args kw, 
  (forall i n d, nth_error fs i = Some (n, d) ->
     if (i <? List.length args)%nat then dget (V := val K) kw n = None else dget kw n <> None \/ d <> None) ->
  exists r, bind_pos fs args kw = Ok r.
Proof.
  induction fs as [|(n0, d0) fs IH]; intros args kw H; [eexists; reflexivity|].
  cbn [bind_pos]. pose proof (H O n0 d0 eq_refl) as H0. destruct args as [|a args].
  - destruct (IH [] kw) as (r & E). { intros i n d En. exact (H (S i) n d En). }
    cbn in H0. destruct (dget kw n0); [rewrite E; eexists; reflexivity|]. destruct d0; [rewrite E; eexists; reflexivity|].
    destruct H0; congruence.
  - destruct (IH args kw) as (r & E). { intros i n d En. exact (H (S i) n d En). }
    cbn in H0. unfold dmem. rewrite H0, E. eexists; reflexivity.
Qed.
Lemma bind_kw_ok fs kw : forall r, bind_kw (K := K) fs kw = Ok r -> NoDup (map fst fs) ->
  map fst r = map fst fs /\
  (forall n d, In (n, d) fs -> (dget kw n <> None \/ d <> None) /\ dget r n = given kw n d).
Proof.
  induction fs as [|(n0, d0) fs IH]; intros r E ND.
  - injection E as <-. split; [reflexivity|contradiction].
  - inversion ND as [|? ? Nin ND']; subst. cbn [bind_kw] in E.
    assert (X : exists v r', given kw n0 d0 = Some v /\ bind_kw fs kw = Ok r' /\ r = ((n0, v) :: r') /\
                 (dget kw n0 <> None \/ d0 <> None)).
    { unfold given. destruct (dget kw n0) as [v|] eqn:Ek; [|destruct d0 as [v|]; [|discriminate]];
        (destruct (bind_kw fs kw) as [r'|]; [|discriminate]; cbn [bind] in E; injection E as <-; exists v, r';
         split; [reflexivity|]; split; [reflexivity|]; split; [reflexivity|]; (left; congruence) || (right; congruence)). }
    destruct X as (v & r' & Eg & E' & -> & Hn). destruct (IH _ E' ND') as (A & C). cbn [map fst].
    split; [now rewrite A|]. intros n d [En|Hin].
    + injection En as <- <-. split; [exact Hn|]. cbn [dget]. rewrite String.eqb_refl. now rewrite Eg.
    + destruct (C n d Hin) as (C1 & C2). split; [exact C1|]. cbn [dget].
      destruct (String.eqb n0 n) eqn:Q; [|exact C2]. exfalso. apply String.eqb_eq in Q. subst. apply Nin.
      now apply (in_map fst) in Hin.
Qed.
Lemma bind_kw_total fs kw : 
  (forall n d, In (n, d) fs -> dget (V := val K) kw n <> None \/ d <> None) -> exists r, bind_kw fs kw = Ok r.
Proof.
  induction fs as [|(n0, d0) fs IH]; intros H; [eexists; reflexivity|].
  cbn [bind_kw]. pose proof (H n0 d0 (or_introl eq_refl)) as H0.
  destruct IH as (r & E). { intros n d Hin. apply H. now right. }
  destruct (dget kw n0); [rewrite E; eexists; reflexivity|]. destruct d0; [rewrite E; eexists; reflexivity|].
  destruct H0; congruence.
Qed.

Lemma rest_In pos ko (kw : dict (val K)) k v :
  In (k, v) (filter (fun e => negb (str_in (fst e) (pos ++ ko)%list)) kw) <-> In (k, v) kw /\ ~ In k pos /\ ~ In k ko.
Proof.
  rewrite filter_In. cbn [fst]. rewrite negb_true_iff. split; intros (H & Q); (split; [exact H|]).
  - assert (~ In k (pos ++ ko)%list). { intros Y. apply str_in_spec in Y. congruence. }
    rewrite in_app_iff in H0. tauto.
  - destruct (str_in k (pos ++ ko)%list) eqn:Y; [|reflexivity]. apply str_in_spec in Y. apply in_app_iff in Y. tauto.
Qed.

Lemma nodup_app {A} (a b : list A) : NoDup (a ++ b)%list -> NoDup a /\ NoDup b /\ forall x, In x a -> ~ In x b.
Proof.
  induction a as [|x a IH]; cbn [app]; intros H.
  - repeat split; auto using NoDup_nil.
  - inversion H as [|? ? N H']; subst. destruct (IH H') as (A1 & A2 & A3). rewrite in_app_iff in N.
    repeat split; [constructor; tauto|exact A2|]. intros y [<-|Hy]; [tauto|now apply A3].
Qed.

Theorem C62_binding : forall s args kw, NoDup (param_names s) ->
  (fits (K := K) s args kw -> exists b, bind_args s args kw = Ok b /\ bound_as s args kw b) /\
  (~ fits s args kw -> bind_args s args kw = Raise TypeError).
Proof.
  intros s args kw ND.
  assert (X : forall b, bind_args s args kw = Ok b -> fits s args kw /\ bound_as s args kw b).
  { intros b E. unfold bind_args in E. unfold param_names in ND.
    apply nodup_app in ND as (N1 & ND & D1). apply nodup_app in ND as (_ & ND & D2).
    apply nodup_app in ND as (N3 & _ & D3).
    destruct (bind_pos _ _ _) as [p|] eqn:E1; [|discriminate]. cbn [bind] in E.
    destruct (bind_pos_ok _ _ _ _ E1 N1) as (P1 & P2 & P3).
    match type of E with (_ <- ?m ;; _) = _ => destruct m as [va|] eqn:E2; [|discriminate] end. cbn [bind] in E.
    destruct (bind_kw _ _) as [k|] eqn:E3; [|discriminate]. cbn [bind] in E.
    destruct (bind_kw_ok _ _ _ E3 N3) as (K1 & K2).
    match type of E with (_ <- ?m ;; _) = _ => destruct m as [vk|] eqn:E4; [|discriminate] end. cbn [bind] in E.
    injection E as <-.
    assert (V1 : map fst va = match sg_varargs s with Some n => [n] | None => [] end).
    { destruct (snd p), (sg_varargs s); try discriminate; injection E2 as <-; reflexivity. }
    assert (V2 : map fst vk = match sg_varkw s with Some n => [n] | None => [] end).
    { destruct (filter _ _), (sg_varkw s); try discriminate; injection E4 as <-; reflexivity. }
    assert (G : forall n, dget (fst p ++ va ++ k ++ vk)%list n =
      match dget (fst p) n with Some v => Some v | None =>
        match dget va n with Some v => Some v | None =>
          match dget k n with Some v => Some v | None => dget vk n end end end).
    { intros n. now rewrite !dget_app. }
    split.
    - split; [|split; [|split]].
      + destruct (sg_varargs s) eqn:EV; [right; discriminate|left]. destruct (snd p) as [|x l] eqn:ES; [|discriminate].
        symmetry in P2. apply (f_equal (@List.length _)) in P2. rewrite skipn_length in P2. simpl in P2. lia.
      + intros i n d Hi. exact (proj1 (P3 i n d Hi)).
      + intros n d Hi. exact (proj1 (K2 n d Hi)).
      + destruct (sg_varkw s) eqn:EV; [left; discriminate|right]. intros n v Hin.
        destruct (filter _ _) as [|x l] eqn:EF; [|discriminate].
        destruct (in_dec string_dec n (map fst (sg_pos s))) as [?|Q1]; [now left|].
        destruct (in_dec string_dec n (map fst (sg_kwonly s))) as [?|Q2]; [now right|]. exfalso.
        apply (in_nil (a := (n, v))). rewrite <- EF. apply rest_In. auto.
    - split; [|split; [|split; [|split]]].
      + intros i n d Hi. rewrite G. destruct (P3 i n d Hi) as (F & <-).
        destruct (dget (fst p) n) eqn:Y; [reflexivity|]. exfalso.
        destruct (P3 i n d Hi) as (_ & Z). rewrite Y in Z. destruct (Nat.ltb_spec i (List.length args)).
        * symmetry in Z. apply nth_error_None in Z. lia.
        * unfold given in Z. destruct (dget kw n); [discriminate|]. subst d. destruct F; congruence.
      + intros n En. rewrite En in *. rewrite G. rewrite (dget_none (fst p)).
        * destruct (snd p) eqn:ES; injection E2 as <-; cbn [dget]; rewrite String.eqb_refl; now rewrite <- P2.
        * rewrite P1. intros Y. apply (D1 _ Y). apply in_app_iff. left. now left.
      + intros n d Hi. rewrite G. pose proof (in_map fst _ _ Hi) as Hn. cbn [fst] in Hn.
        rewrite (dget_none (fst p)), (dget_none va).
        * destruct (K2 n d Hi) as (F & <-). destruct (dget k n) eqn:Y; [reflexivity|]. exfalso.
          destruct (K2 n d Hi) as (_ & Z). rewrite Y in Z. unfold given in Z. destruct (dget kw n); [discriminate|]. subst d.
          destruct F; congruence.
        * rewrite V1. intros Y. apply (D2 _ Y). apply in_app_iff. now left.
        * rewrite P1. intros Y. apply (D1 _ Y). apply in_app_iff. right. apply in_app_iff. now left.
      + intros n En. rewrite En in *. rewrite G, (dget_none (fst p)), (dget_none va), (dget_none k).
        * match type of E4 with context [filter ?f kw] => exists (filter f kw) end. split.
          -- destruct (filter _ _); injection E4 as <-; cbn [dget]; now rewrite String.eqb_refl.
          -- intros. apply rest_In.
        * rewrite K1. intros Y. apply (D3 _ Y). now left.
        * rewrite V1. intros Y. apply (D2 _ Y). apply in_app_iff. right. now left.
        * rewrite P1. intros Y. apply (D1 _ Y). apply in_app_iff. right. apply in_app_iff. right. now left.
      + intros n Hn. unfold param_names in Hn. rewrite !in_app_iff in Hn. rewrite G, !dget_none; [reflexivity|..].
        * rewrite V2. tauto.
        * rewrite K1. tauto.
        * rewrite V1. tauto.
        * rewrite P1. tauto. }
  split.
  - intros (F1 & F2 & F3 & F4).
    assert (Y : exists b, bind_args s args kw = Ok b).
    { unfold bind_args. destruct (bind_pos_total _ _ _ F2) as (p & E1). rewrite E1. cbn [bind].
      unfold param_names in ND. apply nodup_app in ND as (N1 & _ & _).
      destruct (bind_pos_ok _ _ _ _ E1 N1) as (_ & P2 & _).
      destruct (bind_kw_total _ _ F3) as (k & E3).
      assert (A1 : exists va, match snd p, sg_varargs s with
        | l, Some n => Ok [(n, VTuple l)] | [], None => Ok [] | _ :: _, None => Raise TypeError end = Ok va).
      { rewrite P2. destruct (skipn _ args) eqn:ES, (sg_varargs s) eqn:EV; try (eexists; reflexivity). exfalso.
        destruct F1 as [F1|]; [|congruence]. apply (f_equal (@List.length _)) in ES. rewrite skipn_length in ES. simpl in ES. lia. }
      destruct A1 as (va & ->). cbn [bind]. rewrite E3. cbn [bind].
      match goal with |- exists b, (_ <- ?m ;; _) = _ => assert (A2 : exists vk, m = Ok vk) end.
      { destruct (filter _ _) as [|(n, v) l] eqn:EF, (sg_varkw s) eqn:EV; try (eexists; reflexivity). exfalso.
        destruct F4 as [F4|F4]; [congruence|].
        assert (Hin : In (n, v) ((n, v) :: l)) by now left. rewrite <- EF in Hin. apply rest_In in Hin as (H1 & H2 & H3).
        destruct (F4 _ _ H1); auto. }
      destruct A2 as (vk & ->). eexists; reflexivity. }
    destruct Y as (b & E). exists b. split; [exact E|]. exact (proj2 (X b E)).
  - intros NF. destruct (bind_args s args kw) as [b|e] eqn:E.
    + exfalso. apply NF. exact (proj1 (X b eq_refl)).
    + now rewrite (bind_args_te _ _ _ _ E).
Qed.

(** *** C62: a call that hands the function a name it does not have raises [TypeError] *)
Theorem C62_unknown_keyword : forall (d : decl) f maps c dist radii order only a n v,
  uses d f maps -> define d = Ok c -> NoDup (param_names (fd_sig f)) -> sg_varkw (fd_sig f) = None ->
  skipped order a = false -> In (n, v) (call_kw a only) -> ~ In n (param_names (fd_sig f)) ->
  object_call c dist radii order only a = Raise TypeError.
Proof.
  intros * U E ND VK Sk Hin Hn. destruct (C62_call d f maps c dist radii order only a U E) as (_ & C & _).
  specialize (C Sk). rewrite (proj2 (C62_binding (fd_sig f) (positional dist radii order) (call_kw a only) ND)) in C; [exact C|].
  intros (_ & _ & _ & [F|F]); [congruence|]. apply Hn. unfold param_names. rewrite !in_app_iff. destruct (F _ _ Hin); tauto.
Qed.

(** so a function of one's own has to take all twelve names, or [**kwargs] *)
Theorem C62_all_names_needed : forall (d : decl) f maps c dist radii order only a n,
  uses d f maps -> define d = Ok c -> NoDup (param_names (fd_sig f)) -> sg_varkw (fd_sig f) = None ->
  skipped order a = false ->
  In n ["a1"; "a2"; "s6"; "rs6"; "s8"; "rs8"; "s9"; "rs9"; "s10"; "alp"; "bet"; "only_damping"] ->
  ~ In n (param_names (fd_sig f)) ->
  object_call c dist radii order only a = Raise TypeError.
Proof.
  intros * U E ND VK Sk Hin Hn. change (In n (map fst (call_kw a only))) in Hin. apply in_map_iff in Hin as ((n', v) & En & Hin).
  cbn [fst] in En. subst n'. eapply C62_unknown_keyword; eauto.
Qed.

(** the hypotheses can be met: a function without the parameter [alp] *)
Example C62_unknown_example : forall (dist radii : T) only (v : pval K),
  let s := mkSig (K := K) [("self", None); ("distances", None); ("radii", None); ("order", None)] None
             [("a1", None); ("a2", Some (VPar PNone))] None in
  NoDup (param_names s) /\
  fits s (positional dist radii 6) [("a1", VPar v)] /\
  ~ fits s (positional dist radii 6) [("a1", VPar v); ("alp", VPar only)] /\
  ~ fits s (positional dist radii 6) [("a2", VPar v)] /\
  ~ fits s (positional dist radii 6) [("a1", VPar v); ("order", VInt 6)].
Proof.
  intros. split; [repeat constructor; cbn; intuition discriminate|].
  split; [|split; [|split]].
  - split; [left; cbn; lia|]. split; [|split].
    + intros i n d. do 4 (destruct i as [|i]; [intros E; injection E as <- <-; reflexivity|]). destruct i; discriminate.
    + intros n d [E|[E|[]]]; injection E as <- <-; [left|right]; discriminate.
    + right. intros n w [E|[]]; injection E as <- <-. right. now left.
  - intros (_ & _ & _ & [F|F]); [now apply F|]. destruct (F "alp" (VPar only)) as [Q|Q]; [right; now left| |];
      cbn in Q; intuition discriminate.
  - intros (_ & _ & F & _). destruct (F "a1" None) as [Q|Q]; [now left| |]; now apply Q.
  - intros (_ & F & _). specialize (F 3%nat "order" None eq_refl). discriminate.
Qed.

Example C62_names_example : forall (dist radii : T) only a,
  let d := Sub "Own" None (Some (mkDef (mkSig [("self", None); ("distances", None); ("radii", None); ("order", None)] None
             [("a1", None); ("a2", Some (VPar PNone))] None) false (fun _ => Raise ValueError))) [Root] in
  g_s6 a <> PNone -> exists c, define d = Ok c /\ object_call c dist radii 6 only a = Raise TypeError.
Proof.
  intros dist radii only a d Ha. eexists. split; [reflexivity|].
  eapply (C62_all_names_needed d _ _ _ dist radii 6 only a "alp"); [apply uses_own|reflexivity| |reflexivity| |cbn; tauto|].
  - repeat constructor; cbn; intuition discriminate.
  - cbn. destruct (g_s6 a); cbn; congruence.
  - cbn. intuition discriminate.
Qed.

(** *** C62: a subclass that does not define [_f] keeps all requirements of the class it takes it from,
    whatever it declares itself *)
Theorem C62_subclass_cannot_relax : forall n r (m : list decl) (e : decl) f maps f' maps',
  next_provider m e -> uses e f' maps' -> uses (Sub n r None m) f maps ->
  f = f' /\ forall x, In x maps' -> In x maps.
Proof.
  assert (NU : forall m (e e' : decl), next_provider m e -> next_provider m e' -> e = e').
  { induction m as [|d m IH]; intros e e' (b & a & E & P & H) (b' & a' & E' & P' & H'); [destruct b; discriminate|].
    destruct b as [|x b], b' as [|x' b']; cbn [app] in E, E'; injection E as <- E; injection E' as <- E'; auto.
    - exfalso. apply (H' d); [now left|exact P].
    - exfalso. apply (H d); [now left|exact P'].
    - apply IH; [exists b, a|exists b', a']; (split; [assumption|]; split; [assumption|]; intros; auto using in_cons). }
  assert (UU : forall (d : decl) f maps, uses d f maps -> forall f' maps', uses d f' maps' -> f = f' /\ maps = maps').
  { induction 1 as [|? ? ?|? ? ? ?|? ? ? e' ? ? N U IH]; intros f' maps' U'; inversion U' as [|? ? ?|? ? ? ?|? ? ? e'' ? mp'' N' U'']; subst; auto.
    rewrite (NU _ _ _ N' N) in U''. destruct (IH _ _ U'') as (-> & ->). auto. }
  intros n r m e f maps f' maps' N U U'. inversion U' as [| | |? ? ? e' ? mp N' Ue]; subst.
  rewrite (NU _ _ _ N' N) in Ue. destruct (UU _ _ _ U _ _ Ue) as (-> & ->). split; [reflexivity|].
  intros x Hx. unfold with_own. destruct (visible_req _); [exact Hx|now right].
Qed.

(** *** A direct subclass with the usual signature behaves as [ModelDamping.v] says; in particular the four
    shipped classes, and they can be instantiated *)
Definition param_keys : list string := ["a1"; "a2"; "s6"; "rs6"; "s8"; "rs8"; "s9"; "rs9"; "s10"; "alp"; "bet"].

Lemma bind_shipped defs dist radii order (a : dargs K) only :
  exists b, bind_args (shipped_sig defs) (positional dist radii order) (call_kw a only) = Ok b /\
    dget b "order" = Some (VInt order) /\ (forall n, In n param_keys -> dget b n = Some (VPar (arg a n))) /\
    forall g, body_of g b = g dist radii order a only.
Proof.
  destruct a. eexists. split; [vm_compute; reflexivity|]. split; [reflexivity|]. split.
  - intros n Hn. repeat (destruct Hn as [<-|Hn]; [reflexivity|]). contradiction.
  - reflexivity.
Qed.

Theorem C62_usual_class : forall name (m : reqmap) defs (d : Damping K),
  (forall o, d_required d o = req_get m o) ->
  (forall o names n, In (o, names) m -> In n names -> In n param_keys) ->
  exists c, define (Sub name (Some m) (Some (mkDef (shipped_sig defs) false (body_of (d_f d)))) [Root]) = Ok c /\
    instantiate c = Ok tt /\
    forall dist radii order only a, object_call c dist radii order only a = damping_call_args d dist radii order only a.
Proof.
  intros name m defs d HR HN. set (fd := mkDef (shipped_sig defs) false (body_of (d_f d))).
  assert (W : wf (Sub name (Some m) (Some fd) [Root])).
  { constructor; [now left|]. intros e [<-|[]]. constructor. }
  assert (VR : visible_req (Sub name (Some m) (Some fd) [Root]) = m) by reflexivity.
  assert (U : uses (Sub name (Some m) (Some fd) [Root]) fd (with_own (Sub name (Some m) (Some fd) [Root]) [])) by constructor.
  destruct (C62_class_statement name (Some m) (Some fd) [Root] W) as (g & maps & U' & [(c & E)|E] & HU).
  { intros e [<-|[]]. eexists. reflexivity. }
  2:{ exfalso. apply HU in E as (o & names & n & Hin & Hn & Hp). inversion U'; subst. apply Hp.
      rewrite VR in Hin. specialize (HN _ _ _ Hin Hn). unfold fd, shipped_sig, param_names. cbn [fd_sig sg_pos sg_varargs sg_kwonly sg_varkw].
      unfold param_keys in HN. rewrite map_app, map_map. cbn. simpl in HN. tauto. }
  exists c. split; [exact E|]. split.
  { destruct (C62_call _ _ _ c (mkT [] (fun _ => f0)) (mkT [] (fun _ => f0)) 0 false (mkArgs PNone PNone PNone PNone PNone PNone PNone PNone PNone PNone PNone) U E) as (_ & _ & I). exact I. }
  intros dist radii order only a.
  destruct (uses_ok _ _ _ U c E) as (g0 & G & (_ & _ & Hc)).
  unfold object_call, damping_call_args. rewrite G, Hc. clear Hc G.
  destruct (_ && _); [reflexivity|]. destruct (_ && _); [reflexivity|]. destruct (_ && _); [reflexivity|]. destruct (_ && _); [reflexivity|].
  destruct (bind_shipped defs dist radii order a only) as (b & EB & EO & EN & EG). unfold positional in EB.
  assert (Q : forall n, In n (req_get m order) -> In n param_keys).
  { intros n Hn. clear -Hn HN. induction m as [|(o, l) m IH]; [contradiction|]. cbn [req_get] in Hn.
    destruct (o =? order)%nat; [eapply HN; [now left|exact Hn]|]. apply IH; auto. intros; eapply HN; [right|]; eauto. }
  unfold checked_f. rewrite HR. unfold with_own. rewrite VR.
  assert (X : existsb (fun n => val_missing (dget b n)) (req_get m order) = existsb (fun name => is_none (arg a name)) (req_get m order)).
  { clear -EN Q. induction (req_get m order) as [|n l IH]; [reflexivity|]. cbn [existsb]. rewrite EN by (apply Q; now left).
    rewrite IH by (intros; apply Q; now right). destruct (arg a n); reflexivity. }
  destruct m as [|x y]; cbn [outcome fd_sig fd]; rewrite EB; cbn [bind].
  - cbn [req_get existsb]. unfold fd. cbn [fd_body]. apply EG.
  - unfold dgetitem. rewrite EO. cbn [bind order_key]. rewrite X. clear X. destruct (existsb _ _); [reflexivity|]. cbn [raise_if bind].
    unfold fd. cbn [fd_body]. apply EG.
Qed.

Theorem C62_shipped (X : Ext K) :
  (forall cl d, In (cl, d) [(RationalDamping_class, RationalDamping); (ZeroDamping_class X, ZeroDamping X);
                            (MZeroDamping_class X, MZeroDamping X); (OptimisedPowerDamping_class, OptimisedPowerDamping)] ->
    exists c, cl = Ok c /\ instantiate c = Ok tt /\
      forall dist radii order only a, object_call c dist radii order only a = damping_call_args d dist radii order only a) /\
  (exists c, ZDamping_class (K := K) = Ok c /\ instantiate c = Raise TypeError).
Proof.
  split; [|eexists; split; reflexivity].
  assert (R : forall name m defs (d : Damping K), (forall o, d_required d o = req_get m o) ->
    (forallb (fun e => forallb (fun n => str_in n param_keys) (snd e)) m = true) ->
    exists c, new_class name (Some m) (Some (mkDef (shipped_sig defs) false (body_of (d_f d)))) [damping_cls] = Ok c /\ instantiate c = Ok tt /\
      forall dist radii order only a, object_call c dist radii order only a = damping_call_args d dist radii order only a).
  { intros name m defs d H1 H2. apply (C62_usual_class name m defs d H1). intros o names n Hin Hn.
    rewrite forallb_forall in H2. specialize (H2 _ Hin). rewrite forallb_forall in H2. specialize (H2 _ Hn).
    unfold str_in in H2. apply existsb_exists in H2 as (k & Hk & E). apply String.eqb_eq in E. now subst. }
  assert (O : forall (d : Damping K) m, (forall o, (o < 11)%nat -> d_required d o = req_get m o) -> (forall o, d_required d (11 + o) = req_get m (11 + o)) ->
     forall o, d_required d o = req_get m o).
  { intros d m L H o. destruct (Nat.lt_ge_cases o 11) as [Q|Q]; [now apply L|]. replace o with (11 + (o - 11))%nat by lia. apply H. }
  intros cl d [E|[E|[E|[E|[]]]]]; injection E as <- <-;
    [apply (R "RationalDamping" _ _ RationalDamping)|apply (R "ZeroDamping" _ _ (ZeroDamping X))
    |apply (R "MZeroDamping" _ _ (MZeroDamping X))|apply (R "OptimisedPowerDamping" _ _ OptimisedPowerDamping)];
    try reflexivity; apply O; try reflexivity;
    intros o Ho; do 11 (destruct o as [|o]; [reflexivity|]); lia.
Qed.

(** *** Surprises *)
(** a class that only declares requirements hides the function of the classes after it: the result is abstract,
    although a class with a function follows in the method resolution order *)
Definition only_names : decl := Sub "Names" (Some [(6%nat, ["a1"])]) None [Root].
Definition rational_decl : decl :=
  Sub "RationalDamping" (Some [(6%nat, ["a1"; "a2"]); (8%nat, ["a1"; "a2"]); (10%nat, ["a1"; "a2"])])
    (Some (mkDef (shipped_sig []) false (body_of rational_f))) [Root].
Theorem C62_names_hide_function :
  let d := Sub "Both" None None [only_names; rational_decl; Root] in
  wf d /\ exists c, define d = Ok c /\ instantiate c = Raise TypeError /\
  exists c', define rational_decl = Ok c' /\ instantiate c' = Ok tt.
Proof.
  intros d. split.
  - constructor; [simpl; auto|].
    intros e [<-|[<-|[<-|[]]]]; [| |constructor]; (constructor; [now left|]; intros e [<-|[]]; constructor).
  - eexists. split; [reflexivity|]. split; [reflexivity|]. eexists. split; reflexivity.
Qed.

(** a function that takes its parameters as [**kwargs] cannot be given requirements *)
Theorem C62_kwargs_rejected :
  let d := Sub (K := K) "Mine" (Some [(6%nat, ["a1"])])
    (Some (mkDef (mkSig [("self", None); ("distances", None); ("radii", None); ("order", None)] None [] (Some "kw"))
             false (fun _ => Raise ValueError))) [Root] in
  wf d /\ define d = Raise TypeError.
Proof.
  intros d. split; [|reflexivity]. constructor; [now left|]. intros e [<-|[]]. constructor.
Qed.

(** ** The hypotheses can be met: a subclass of [RationalDamping] with requirements of its own *)
Example C62_example :
  let d := Sub "Strict" (Some [(6%nat, ["s8"])]) None [rational_decl; Root] in
  wf d /\ (exists c, define d = Ok c) /\ next_provider [rational_decl; Root] rational_decl /\
  exists f, uses d f [[(6%nat, ["s8"])]; [(6%nat, ["a1"; "a2"]); (8%nat, ["a1"; "a2"]); (10%nat, ["a1"; "a2"])]] /\
  let b := [("order", VInt (K := K) 6); ("s8", VPar PNone)] in
  lacks [[(6%nat, ["s8"])]] b.
Proof.
  intros d. split.
  - constructor; [simpl; auto|]. intros e [<-|[<-|[]]]; [|constructor]. constructor; [now left|]. intros e [<-|[]]; constructor.
  - split; [eexists; reflexivity|].
    assert (N : next_provider [rational_decl; Root] rational_decl).
    { exists [], [Root]. split; [reflexivity|]. split; [left; discriminate|contradiction]. }
    split; [exact N|]. eexists. split.
    + apply (uses_inherited "Strict" (Some [(6%nat, ["s8"])]) [rational_decl; Root] rational_decl _
               [[(6%nat, ["a1"; "a2"]); (8%nat, ["a1"; "a2"]); (10%nat, ["a1"; "a2"])]] N). apply uses_own.
    + exists [(6%nat, ["s8"])], (VInt 6), 6%nat, "s8". split; [now left|]. repeat (split; [reflexivity|]). split; [now left|now right].
Qed.
End C.

Print Assumptions C62_class_statement.
Print Assumptions C62_call.
Print Assumptions C62_binding.
Print Assumptions C62_unknown_keyword.
Print Assumptions C62_all_names_needed.
Print Assumptions C62_subclass_cannot_relax.
Print Assumptions C62_usual_class.
Print Assumptions C62_shipped.
Print Assumptions C62_names_hide_function.
Print Assumptions C62_kwargs_rejected.
