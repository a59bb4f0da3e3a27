(** * C40-C42: [get_params] *)
From Coq Require Import List Arith Ascii String QArith Bool Lia Reals.
From Verif Require Import Py Tensor Scalar RInst ModelExt ModelUtils ModelDamping ModelModels
  ModelTerms ModelDisp SpecCall SpecR TensorLemmas Closed ClosedTerms Usable PropsCall PropsParams PropsTerms
  Inst InstW DataToml ModelLoader SpecLoader LoaderP.
Import ListNotations.
Open Scope string_scope.

(** the files of the package, as contents *)
Definition package (m : meth) : option tfile :=
  match m with
  | d3 => Some (mkFile d3_default_variants d3_default_blocks d3_functionals)
  | d4 => Some (mkFile d4_default_variants d4_default_blocks d4_functionals)
  | d5 => None
  end.

Lemma package_shipped m : shipped m = option_map (tree m) (package m).
Proof. destruct m; reflexivity. Qed.

Definition lower_names (f : tfile) : bool :=
  match f_variants f with [] => false | _ => true end &&
  forallb (fun k => casefold k =? k) (map fst (f_functionals f)).
Lemma lower_names_ok f : lower_names f = true -> file_ok f.
Proof.
  unfold lower_names, file_ok. intros H. apply andb_true_iff in H as (H1 & H2). split.
  - intros E. rewrite E in H1. discriminate.
  - intros k Hk. rewrite forallb_forall in H2. apply String.eqb_eq. now apply H2.
Qed.
Lemma package_ok m f : package m = Some f -> file_ok f.
Proof.
  intros E. apply lower_names_ok. destruct m; try discriminate; injection E as <-; vm_compute; reflexivity.
Qed.

(** *** C40: whatever the history, [get_params] returns a new dictionary with the content of the
    entry of the file, or raises [KeyError] if there is no such entry. *)
Theorem C40_pure_lookup :
  forall (F : meth -> option tfile) files history m functional variant keep_doi,
  (forall m f, F m = Some f -> file_ok f) -> (forall m, files m = option_map (tree m) (F m)) ->
  let s := after files history in
  let '(p, r) := get_params files (s_py s) (meth_value m) functional variant keep_doi in
  match F m with
  | Some f =>
      (forall b, entry f functional variant b -> exists l, r = Ok l /\ ~ In l (s_held s) /\
          content (py_heap p) l = Some (scalars (without_doi keep_doi b))) /\
      ((forall b, ~ entry f functional variant b) -> r = Raise KeyError)
  | None => r = Raise FileNotFoundError
  end.
Proof.
  intros F files history m functional variant keep HF Hf s. destruct (after_good F files Hf HF history) as (P & G). fold s in G.
  destruct (call_good F files Hf HF P s m functional variant keep G) as (P' & H).
  destruct (get_params _ _ _ _ _ _) as [p r]. apply H.
Qed.

(** ... in particular for the package: two calls with the same arguments agree, whatever
    happened in between *)
Theorem C40_same_arguments_same_content :
  forall (F : meth -> option tfile) files history history' m functional variant keep_doi,
  (forall m f, F m = Some f -> file_ok f) -> (forall m, files m = option_map (tree m) (F m)) ->
  let call h := get_params files (s_py (after files h)) (meth_value m) functional variant keep_doi in
  match snd (call history), snd (call history') with
  | Ok l, Ok l' => exists d, content (py_heap (fst (call history))) l = Some d /\
                             content (py_heap (fst (call history'))) l' = Some d
  | Raise e, Raise e' => e = e'
  | _, _ => False
  end.
Proof.
  intros F files h h' m name v keep HF Hf call.
  pose proof (C40_pure_lookup F files h m name v keep HF Hf) as A.
  pose proof (C40_pure_lookup F files h' m name v keep HF Hf) as A'. cbv zeta in A, A'.
  change (get_params files (s_py (after files h)) (meth_value m) name v keep) with (call h) in A.
  change (get_params files (s_py (after files h')) (meth_value m) name v keep) with (call h') in A'.
  destruct (call h) as [p r], (call h') as [p' r']. cbn [fst snd].
  destruct (F m) as [f|] eqn:Ef; [|subst; reflexivity].
  destruct A as (A & B), A' as (A' & B').
  destruct (entry_dec f name v (HF m f Ef)) as [(b & Hb)|Hn].
  - destruct (A b Hb) as (l & -> & _ & C). destruct (A' b Hb) as (l' & -> & _ & C'). eauto.
  - rewrite B, B' by auto. reflexivity.
Qed.

(** *** C41: names *)
(** with the files of the package *)
Definition params_after (history : list event) := get_params shipped (s_py (after shipped history)).

Lemma package_lookup history m functional variant keep :
  let '(p, r) := params_after history (meth_value m) functional variant keep in
  match package m with
  | Some f =>
      (forall b, entry f functional variant b -> exists l, r = Ok l /\ ~ In l (s_held (after shipped history)) /\
          content (py_heap p) l = Some (scalars (without_doi keep b))) /\
      ((forall b, ~ entry f functional variant b) -> r = Raise KeyError)
  | None => r = Raise FileNotFoundError
  end.
Proof. exact (C40_pure_lookup package shipped history m functional variant keep package_ok package_shipped). Qed.

(** a name with a capital letter is not found (the docstring says that the name is
    case-insensitive) *)
Theorem C41_upper_case_name :
  forall history method functional variant keep_doi,
  method = "d3" \/ method = "d4" ->
  (exists c, In c (list_ascii_of_string functional) /\ (65 <= Ascii.nat_of_ascii c <= 90)%nat) ->
  snd (params_after history method (Some functional) variant keep_doi) = Raise KeyError.
Proof.
  intros history method name variant keep Hm (c & Hc & Ec).
  assert (NF : casefold name <> name).
  { clear - Hc Ec. unfold casefold. induction name as [|x s IH]; [destruct Hc|].
    cbn [list_ascii_of_string] in Hc. cbn. destruct Hc as [->|Hc].
    - intros E. injection E as E _. revert E Ec. clear.
      destruct c as [[] [] [] [] [] [] [] []]; cbn; intros E; try discriminate E; intros; lia.
    - intros E. injection E as _ E. now apply IH. }
  assert (ND : name <> "default") by (intros ->; now apply NF).
  assert (HM : exists m f, method = meth_value m /\ package m = Some f).
  { destruct Hm as [-> | ->]; [exists d3|exists d4]; eexists; split; reflexivity. }
  destruct HM as (m & f & -> & Ef).
  pose proof (package_lookup history m (Some name) variant keep) as H. rewrite Ef in H.
  destruct (params_after _ _ _ _ _) as [p r]. destruct H as (_ & H). apply H.
  intros b Hb. inversion Hb; subst; try (destruct H0; congruence);
    apply NF; eapply casefold_in; eauto; eapply package_ok; eauto.
Qed.

(** no functional and no variant: never found, although the file names a default variant *)
Theorem C41_no_functional_no_variant :
  forall history method functional keep_doi,
  method = "d3" \/ method = "d4" -> functional = None \/ functional = Some "default" ->
  snd (params_after history method functional None keep_doi) = Raise KeyError.
Proof.
  intros history method name keep Hm Hn.
  assert (HM : exists m f, method = meth_value m /\ package m = Some f).
  { destruct Hm as [-> | ->]; [exists d3|exists d4]; eexists; split; reflexivity. }
  destruct HM as (m & f & -> & Ef).
  pose proof (package_lookup history m name None keep) as H. rewrite Ef in H.
  destruct (params_after _ _ _ _ _) as [p r]. destruct H as (_ & H). apply H.
  intros b Hb. inversion Hb; subst. destruct Hn; congruence.
Qed.

Theorem C41_methods :
  forall history method functional variant keep_doi,
  (method = "d5" -> snd (params_after history method functional variant keep_doi) = Raise FileNotFoundError) /\
  (method <> "d3" -> method <> "d4" -> method <> "d5" ->
     snd (params_after history method functional variant keep_doi) = Raise ValueError).
Proof.
  intros history method name variant keep. split.
  - intros ->. pose proof (package_lookup history d5 name variant keep) as H. cbn [package meth_value] in H.
    destruct (params_after _ _ _ _ _) as [p r]. exact H.
  - intros H3 H4 H5. unfold params_after, get_params, meth_of.
    destruct (String.eqb_spec method "d3"), (String.eqb_spec method "d4"), (String.eqb_spec method "d5"); try contradiction.
    reflexivity.
Qed.

(** the claim of the docstring is false *)
Theorem C41_case_insensitive_refuted :
  ~ (forall method f f' variant keep_doi, casefold f = casefold f' ->
       match snd (params_after [] method (Some f) variant keep_doi),
             snd (params_after [] method (Some f') variant keep_doi) with
       | Ok _, Ok _ => True
       | Raise e, Raise e' => e = e'
       | _, _ => False
       end).
Proof. intros H. specialize (H "d4" "pbe" "PBE" None false eq_refl). vm_compute in H. exact H. Qed.

(** *** C42: the parameters of the package *)
(** conversion of the content of the dictionary to a parameter dictionary *)
Definition to_param {K : Scalar} (b : list (string * tval)) : Param K :=
  map (fun kv => (fst kv, match snd kv with TNum q => PT (scal (flit q)) | TStr s => PStr s end)) b.

Definition block_usable (b : list (string * tval)) : bool :=
  forallb (fun kv => str_in (fst kv) known_names &&
                     ((fst kv =? "doi") || match snd kv with TNum _ => true | TStr _ => false end)) b
  && forallb (fun k => match dget b k with Some (TNum _) => true | _ => false end) ["a1"; "a2"; "s8"].

Lemma to_param_get {K : Scalar} b k : dget (to_param (K := K) b) k =
  option_map (fun v => match v with TNum q => PT (scal (flit q)) | TStr s => PStr s end) (dget b k).
Proof. unfold to_param. now rewrite (dget_map (fun v => match v with TNum q => PT (scal (flit q)) | TStr s => PStr s end)). Qed.

Lemma block_usable_good {K : Scalar} b : block_usable b = true ->
  good_param (to_param (K := K) b) /\ forall k, In k ["a1"; "a2"; "s8"] -> getp (to_param (K := K) b) k <> None.
Proof.
  unfold block_usable. rewrite andb_true_iff, !forallb_forall. intros (H1 & H2). split.
  - intros k v Hin. unfold to_param in Hin. apply in_map_iff in Hin as ([k' v'] & E & Hin). cbn [fst snd] in E. injection E as <- <-.
    specialize (H1 _ Hin). cbn [fst snd] in H1. apply andb_true_iff in H1 as (A & B). split.
    + now apply str_in_In.
    + intros ND. destruct v' as [q|s].
      * exists (flit q). now exists (scal (flit q)).
      * apply orb_true_iff in B as [B|B]; [apply String.eqb_eq in B; contradiction|discriminate].
  - intros k Hk. specialize (H2 k Hk). unfold getp. rewrite to_param_get.
    destruct (dget b k) as [[q|s]|]; try discriminate.
Qed.

Definition check_functional (vs : list (string * list (string * tval))) : bool :=
  match dget vs "bj-eeq-atm" with Some b => block_usable b && block_usable (without_doi false b) | None => false end.
Lemma all_functionals_checked : forallb (fun kv => check_functional (snd kv)) d4_functionals = true.
Proof. vm_compute. reflexivity. Qed.
Lemma dget_in_list {V} (d : list (string * V)) k v : dget d k = Some v -> In (k, v) d.
Proof.
  induction d as [|[k' v'] d IH]; cbn [dget]; [discriminate|].
  destruct (String.eqb_spec k' k) as [->|]; intros E; [injection E as <-; now left|right; auto].
Qed.
Lemma in_dget {V} (d : list (string * V)) k : In k (map fst d) -> exists v, dget d k = Some v.
Proof.
  induction d as [|[k' v'] d IH]; cbn [map dget fst]; [intros []|].
  intros [->|H]; [rewrite String.eqb_refl; eauto|]. destruct (k' =? k); eauto.
Qed.

Section U.
Context {N : Num} (X : Ext (sc N)) (W : World N).
Notation K := (sc N).

(** The parameters of every functional in d4.toml are found by [get_params], whatever was done
    before, and every otherwise well-formed D4 calculation accepts them. *)
Theorem C42_shipped_parameters_accepted :
  forall history functional keep_doi, In functional (map fst d4_functionals) ->
  exists p l b,
    params_after history "d4" (Some functional) None keep_doi = (p, Ok l) /\
    content (py_heap p) l = Some (scalars b) /\
    (forall k, In k ["a1"; "a2"; "s8"] -> exists q, dget b k = Some (TNum q)) /\
    forall (d : Disp N) a kind kw n c B, ext_tables X -> well_formed X W d a kind kw n c B ->
      p_terms d = terms_d4 X ->
      exists e, run X W d (set_param a (to_param b)) = Ok e /\ shp e = shp (a_numbers a).
Proof.
  intros history name keep Hin.
  destruct (in_dget _ _ Hin) as (vs & Ev). pose proof all_functionals_checked as C. rewrite forallb_forall in C.
  specialize (C _ (dget_in_list _ _ _ Ev)). cbn [snd] in C. unfold check_functional in C.
  destruct (dget vs "bj-eeq-atm") as [b|] eqn:Eb; [|discriminate]. apply andb_true_iff in C as (C1 & C2).
  assert (CB : block_usable (without_doi keep b) = true) by (destruct keep; assumption). clear C1 C2.
  assert (ND : name <> "default").
  { intros ->. vm_compute in Ev. discriminate. }
  pose proof (package_lookup history d4 (Some name) None keep) as H. cbn [package meth_value] in H.
  destruct (params_after history "d4" (Some name) None keep) as [p r]. destruct H as (H & _).
  destruct (H b) as (l & -> & _ & Hc).
  { eapply entry_default_variant with (vs := vs) (v := "bj-eeq-atm"); auto. reflexivity. }
  exists p, l, (without_doi keep b). split; [reflexivity|]. split; [exact Hc|]. split.
  - intros k Hk. unfold block_usable in CB. apply andb_true_iff in CB as (_ & CB). rewrite forallb_forall in CB.
    specialize (CB k Hk). destruct (dget (without_doi keep b) k) as [[q|s]|]; try discriminate. eauto.
  - intros d a kind kw n c B HX WF HT. destruct (block_usable_good (K := K) _ CB) as (G & Q).
    assert (WF' : well_formed X W d (set_param a (to_param (without_doi keep b))) kind kw n c B).
    { destruct WF. constructor; auto. intros t Ht. rewrite HT in Ht. simpl. destruct Ht as [<-|[<-|[]]].
      - apply usable_rational; auto; apply Q; cbn [In]; tauto.
      - apply usable_atm; discriminate. }
    apply (C15_well_formed_call_returns X W d _ kind kw n c B HX WF').
Qed.

(** The default section is found only with one of the default variants, and its content is
    rejected by every calculation: [TypeError]. *)
Definition has_unknown (b : list (string * tval)) : bool := existsb (fun kv => negb (str_in (fst kv) known_names)) b.
Lemma defaults_have_unknown : forallb (fun kv => has_unknown (snd kv) && has_unknown (without_doi false (snd kv))) d4_default_blocks = true.
Proof. vm_compute. reflexivity. Qed.

Theorem C42_default_section_rejected :
  forall history functional variant keep_doi p l,
  functional = None \/ functional = Some "default" ->
  params_after history "d4" functional variant keep_doi = (p, Ok l) ->
  exists b, content (py_heap p) l = Some (scalars b) /\
    forall (d : Disp N) a kind kw n c B, ext_tables X -> well_formed X W d a kind kw n c B ->
      p_terms d = terms_d4 X ->
      run X W d (set_param a (to_param b)) = Raise TypeError.
Proof.
  intros history name variant keep p l Hn E.
  pose proof (package_lookup history d4 name variant keep) as H. cbn [package meth_value] in H. rewrite E in H.
  destruct H as (H1 & H2).
  destruct (entry_dec _ name variant (package_ok d4 _ eq_refl)) as [(b & Hb)|H0]; [|discriminate (H2 H0)].
  destruct (H1 b Hb) as (l' & El & _ & Hc). injection El as <-.
  exists (without_doi keep b). split; [exact Hc|]. intros d a kind kw n c B HX WF HT.
  assert (U : has_unknown (without_doi keep b) = true).
  { inversion Hb; subst; try (destruct Hn; congruence). cbn [f_defaults] in *.
    pose proof defaults_have_unknown as C. rewrite forallb_forall in C.
    match goal with Hd : dget d4_default_blocks _ = Some b |- _ => specialize (C _ (dget_in_list _ _ _ Hd)) end.
    cbn [snd] in C. apply andb_true_iff in C as (C1 & C2). now destruct keep. }
  unfold has_unknown in U. apply existsb_exists in U as ([k v] & Hin & U). cbn [fst] in U.
  refine (C24_unknown_name_in_call X W d a kind kw n c B _ _ _ k _ HX WF HT _ _ _).
  - reflexivity.
  - unfold to_param. apply in_map_iff. exists (k, v). split; [reflexivity|exact Hin].
  - rewrite <- str_in_In. apply negb_true_iff in U. congruence.
Qed.
End U.

(** The variant without three-body term in its name, bj-eeq-two, has no s9: the three-body
    energy is the one with s9 = 1. *)
Definition check_two (vs : list (string * list (string * tval))) : bool :=
  match dget vs "bj-eeq-two" with
  | Some b => forallb (fun b => block_usable b && negb (dmem b "s9")) [b; without_doi false b]
  | None => true end.
Lemma two_checked : forallb (fun kv => check_two (snd kv)) d4_functionals = true.
Proof. vm_compute. reflexivity. Qed.

Section V.
Context (eps mx : R) (X : Ext (sc (RN eps mx))) (W : World (RN eps mx)).
Notation N := (RN eps mx).
Theorem C42_two_body_variant_keeps_three_body :
  forall history functional keep_doi p l,
  functional <> "default" ->
  params_after history "d4" (Some functional) (Some "bj-eeq-two") keep_doi = (p, Ok l) ->
  exists b, content (py_heap p) l = Some (scalars b) /\
    forall (d : Disp N) a kind kw n c B, ext_tables X -> well_formed X W d a kind kw n c B ->
      p_terms d = terms_d4 X ->
      exists e e', run X W d (set_param a (to_param b)) = Ok e /\
        run X W d (set_param a (pnum (eps := eps) (mx := mx) "s9" 1 :: to_param b)) = Ok e' /\
        shp e = n :: B /\ shp e' = n :: B /\
        forall b i, valid B b -> (i < n)%nat -> sl1 e b i = sl1 e' b i.
Proof.
  intros history name keep p l Hn E.
  pose proof (package_lookup history d4 (Some name) (Some "bj-eeq-two") keep) as H. cbn [package meth_value] in H. rewrite E in H.
  destruct H as (H1 & H2).
  destruct (entry_dec _ (Some name) (Some "bj-eeq-two") (package_ok d4 _ eq_refl)) as [(b & Hb)|H0]; [|discriminate (H2 H0)].
  destruct (H1 b Hb) as (l' & El & _ & Hc). injection El as <-.
  exists (without_doi keep b). split; [exact Hc|]. intros d a kind kw n c B HX WF HT.
  assert (U : block_usable (without_doi keep b) && negb (dmem (without_doi keep b) "s9") = true).
  { inversion Hb; subst; [|match goal with HH : _ \/ _ |- _ => destruct HH; congruence end]. cbn [f_functionals] in *.
    pose proof two_checked as C. rewrite forallb_forall in C.
    match goal with Hd : dget d4_functionals _ = Some _ |- _ => specialize (C _ (dget_in_list _ _ _ Hd)) end.
    cbn [snd] in C. unfold check_two in C.
    match goal with Hd : dget _ "bj-eeq-two" = Some b |- _ => rewrite Hd in C end. cbn [forallb] in C.
    rewrite !andb_true_iff in C. rewrite andb_true_iff. destruct keep; cbn [without_doi]; tauto. }
  apply andb_true_iff in U as (U & S9). destruct (block_usable_good (K := sc N) _ U) as (G & Q).
  pose proof (wf_set_param X W d a kind kw n c B WF HT (to_param (without_doi keep b)) G
    (Q "a1" ltac:(cbn [In]; tauto)) (Q "a2" ltac:(cbn [In]; tauto))) as WF'.
  destruct (C25_omitted_parameters X W d _ kind kw n c B HX WF' HT
    (Q "a1" ltac:(cbn [In]; tauto)) (Q "a2" ltac:(cbn [In]; tauto))) as (_ & _ & _ & H & _).
  apply H. cbn [a_param set_param]. unfold getp. rewrite to_param_get. unfold dmem in S9.
  destruct (dget (without_doi keep b) "s9"); [discriminate|reflexivity].
Qed.
End V.

(** ** The hypotheses can be met *)
(** a history with mutations of a returned dictionary, and a call after it *)
Definition ex_history : list event :=
  [Call "d4" (Some "pbe") None true; SetItem 0 "a1" (UScalar (TNum 7)); DelItem 0 "s8"; NewDict;
   SetItem 1 "x" (UHeld 0); GetItem 1 "x"; Clear 2; Call "d4" (Some "PBE") None false;
   Call "d3" (Some "pbe") (Some "zero") false; SetItem 0 "self" (UHeld 0)].
Example C40_example :
  (forall m f, package m = Some f -> file_ok f) /\ (forall m, shipped m = option_map (tree m) (package m)) /\
  s_held (after shipped ex_history) = (let l := List.length (fst (store (tree d4 (mkFile d4_default_variants d4_default_blocks d4_functionals)) [])) in
     [l; S l; l; List.length (py_heap (s_py (after shipped ex_history))) - 1]%nat) /\
  exists b, entry (mkFile d4_default_variants d4_default_blocks d4_functionals) (Some "pbe") None b /\
    dget b "a1" = Some (TNum (38574991 # 100000000)) /\ dget b "doi" <> None.
Proof.
  split; [exact package_ok|]. split; [exact package_shipped|]. split; [vm_compute; reflexivity|].
  eexists. split.
  - eapply entry_default_variant with (v := "bj-eeq-atm").
    + discriminate.
    + vm_compute. reflexivity.
    + reflexivity.
    + vm_compute. reflexivity.
  - vm_compute. split; [reflexivity|discriminate].
Qed.
Example C40_no_entry_example : forall b, ~ entry (mkFile d4_default_variants d4_default_blocks d4_functionals) (Some "pbe") (Some "zero") b.
Proof.
  intros b H. inversion H; subst.
  - cbn [f_functionals] in *.
    match goal with Hv : dget d4_functionals "pbe" = Some ?vs |- _ =>
      assert (E : match dget d4_functionals "pbe" with Some vs => dget vs "zero" = None | None => False end) by (vm_compute; reflexivity);
      rewrite Hv in E; congruence end.
  - match goal with Hd : _ \/ _ |- _ => destruct Hd; discriminate end.
Qed.
Example C41_example : exists c, In c (list_ascii_of_string "B3LYP") /\ (65 <= Ascii.nat_of_ascii c <= 90)%nat.
Proof. exists "B"%char. split; [now left|]. vm_compute. lia. Qed.
Example C42_example : In "b3lyp" (map fst d4_functionals) /\
  (exists p l, params_after ex_history "d4" None (Some "bj-eeq-atm") false = (p, Ok l)) /\
  (exists p l, params_after ex_history "d4" (Some "dftb_3ob") (Some "bj-eeq-two") false = (p, Ok l)) /\
  forall eps mx, ext_tables (Xex eps mx) /\
    well_formed (N := RN eps mx) (Xex eps mx) (Wex eps mx) (Pex eps mx) mol_call D4M no_kw 3 3 [2%nat] /\
    p_terms (Pex eps mx) = terms_d4 (N := RN eps mx) (Xex eps mx).
Proof.
  split; [vm_compute; tauto|]. split; [do 2 eexists; vm_compute; reflexivity|].
  split; [do 2 eexists; vm_compute; reflexivity|].
  intros. split; [apply Xex_tables|]. split; [apply mol_wf|reflexivity].
Qed.

Print Assumptions C40_pure_lookup.
Print Assumptions C40_same_arguments_same_content.
Print Assumptions C41_upper_case_name.
Print Assumptions C41_no_functional_no_variant.
Print Assumptions C41_methods.
Print Assumptions C41_case_insensitive_refuted.
Print Assumptions C42_shipped_parameters_accepted.
Print Assumptions C42_default_section_rejected.
Print Assumptions C42_two_body_variant_keeps_three_body.
