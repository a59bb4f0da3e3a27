(** * C49: the parameters shipped for D3 *)
From Coq Require Import List Arith ZArith QArith Bool String Lia Reals.
From Verif Require Import Py Tensor Scalar RInst ModelExt ModelUtils ModelDamping ModelModels ModelTerms
  ModelDisp SpecCall Spec TensorLemmas Closed ClosedTerms ClosedModels ClosedDamp ClosedDisp CallLemmas
  Usable PropsCall PropsParams PropsTerms Inst InstW DataToml ModelLoader SpecLoader LoaderP PropsLoader
  PropsOutcome.
Import ListNotations.
Open Scope string_scope.

(** ** Specification *)
(** The damping function of a variant of d3.toml: the one the section [default.parameter] of the
    file names ("damping"). *)
Definition variant_class (v : string) : option dclass :=
  match dget d3_default_blocks v with
  | Some b => match dget b "damping" with
              | Some (TStr s) => if s =? "rational" then Some Rational else if s =? "zero" then Some Zero
                                 else if s =? "mzero" then Some MZero
                                 else if s =? "optimizedpower" then Some OptimisedPower else None
              | _ => None
              end
  | None => None
  end.

(** zero damping: the only functionals with a usable entry *)
Definition usable_zero_entries : list string := ["slaterdirac"; "wb97x"; "cf22d"].
(** functionals without an entry for the default variant, bj *)
Definition no_bj_entry : list string :=
  ["slaterdirac"; "mpw1lyp"; "mpwkcis1k"; "pkzb"; "n12"; "ms2"; "ms2h"; "m05"; "m052x"; "m06l"; "m06";
   "m062x"; "m08hx"; "m11l"; "mn15l"; "pwp"; "cf22d"].

Definition d3_accepted (functional variant : string) : bool :=
  match variant_class variant with
  | Some Rational | Some OptimisedPower => true
  | Some Zero => str_in functional usable_zero_entries
  | _ => false
  end.

(** ** Proofs *)
Definition numeric (b : list (string * tval)) : bool :=
  forallb (fun kv => str_in (fst kv) known_names &&
                     ((fst kv =? "doi") || match snd kv with TNum _ => true | TStr _ => false end)) b.
Definition bnum (b : list (string * tval)) (k : string) : bool :=
  match dget b k with Some (TNum _) => true | _ => false end.

Lemma numeric_good {K : Scalar} b : numeric b = true -> good_param (to_param (K := K) b).
Proof.
  unfold numeric. rewrite forallb_forall. intros H1 k v Hin.
  unfold to_param in Hin. apply in_map_iff in Hin as ([k' v'] & E & Hin). cbn [fst snd] in E. injection E as <- <-.
  specialize (H1 _ Hin). cbn [fst snd] in H1. apply andb_true_iff in H1 as (A & B). split.
  - now apply str_in_In.
  - intros ND. destruct v' as [q|s].
    + exists (flit q). now exists (scal (flit q)).
    + apply orb_true_iff in B as [B|B]; [apply String.eqb_eq in B; contradiction|discriminate].
Qed.
Lemma binds_to_param {K : Scalar} b k : binds (to_param (K := K) b) k = bnum b k.
Proof. unfold binds, bnum, getp. rewrite to_param_get. now destruct (dget b k) as [[q|s]|]. Qed.

Lemma outcome_ext cls h h' : (forall k, h k = h' k) -> outcome cls h = outcome cls h'.
Proof. intros H. unfold outcome. cbn [forallb]. now rewrite !H. Qed.

Definition outcome_eqb (o : option exn) (accepted : bool) : bool :=
  match o with None => accepted | Some TypeError => negb accepted | _ => false end.

Definition check_entry (name v : string) (b : list (string * tval)) : bool :=
  match variant_class v with
  | Some cls => numeric b && outcome_eqb (outcome cls (bnum b)) (d3_accepted name v) && negb (dmem b "alp")
  | None => false
  end.
Lemma d3_checked : forallb (fun f => forallb (fun e =>
    check_entry (fst f) (fst e) (snd e) && check_entry (fst f) (fst e) (without_doi false (snd e))) (snd f))
  d3_functionals = true.
Proof. vm_compute. reflexivity. Qed.

Lemma default_variant_checked : forallb (fun f => Bool.eqb (dmem (snd f) "bj") (negb (str_in (fst f) no_bj_entry))) d3_functionals = true.
Proof. vm_compute. reflexivity. Qed.

Section U.
Context {N : Num} (X : Ext (sc N)) (W : World N).
Notation K := (sc N).

(** The entry of any functional and variant in d3.toml, passed to a calculation with the damping
    function of that variant.  The entries for Becke-Johnson and optimised-power damping are
    accepted; those for zero damping, apart from three functionals, and all of those for modified
    zero damping are refused with a [TypeError] (they do not contain [rs8]). *)
Theorem C49_d3_entries :
  forall history functional variant keep_doi p l,
  functional <> "default" ->
  params_after history "d3" (Some functional) (Some variant) keep_doi = (p, Ok l) ->
  exists b cls, content (py_heap p) l = Some (scalars b) /\ variant_class variant = Some cls /\
    forall (d : Disp N) a kind kw n c B cd ts, ext_tables X -> well_formed X W d a kind kw n c B ->
      p_terms d = mkTerm TwoBodyTerm (damping_of X cls) cd :: ts ->
      Forall (fun t => t_class t <> TwoBodyTerm /\ t_damping t = ZeroDamping X) ts ->
      if d3_accepted functional variant
      then exists e, run X W d (set_param a (to_param b)) = Ok e /\ shp e = shp (a_numbers a)
      else run X W d (set_param a (to_param b)) = Raise TypeError.
Proof.
  intros history name v keep p l Hn E.
  pose proof (package_lookup history d3 (Some name) (Some v) keep) as H. cbn [package meth_value] in H. rewrite E in H.
  destruct H as (H1 & H2).
  destruct (entry_dec _ (Some name) (Some v) (package_ok d3 _ eq_refl)) as [(b & Hb)|H0]; [|discriminate (H2 H0)].
  destruct (H1 b Hb) as (l' & El & _ & Hc). injection El as <-.
  assert (U : check_entry name v (without_doi keep b) = true).
  { inversion Hb; subst; [|match goal with HH : _ \/ _ |- _ => destruct HH; congruence end]. cbn [f_functionals] in *.
    pose proof d3_checked as C. rewrite forallb_forall in C.
    match goal with Hd : dget d3_functionals _ = Some _ |- _ => specialize (C _ (dget_in_list _ _ _ Hd)) end.
    cbn [fst snd] in C. rewrite forallb_forall in C.
    match goal with Hd : dget _ v = Some b |- _ => specialize (C _ (dget_in_list _ _ _ Hd)) end.
    cbn [fst snd] in C. apply andb_true_iff in C as (C1 & C2). now destruct keep. }
  unfold check_entry in U. destruct (variant_class v) as [cls|] eqn:EV; [|discriminate].
  apply andb_true_iff in U as (U & _). apply andb_true_iff in U as (U1 & U2).
  exists (without_doi keep b), cls. split; [exact Hc|]. split; [reflexivity|].
  intros d a kind kw n c B cd ts HX WF ET Hts.
  pose proof (C49_outcome X W d a kind kw n c B cls cd ts _ HX WF ET Hts (numeric_good _ U1)) as HO.
  rewrite (outcome_ext cls _ (bnum (without_doi keep b))) in HO by (intros; apply binds_to_param).
  destruct (outcome cls (bnum (without_doi keep b))) as [[]|]; cbn [outcome_eqb] in U2;
    destruct (d3_accepted name v); try discriminate; exact HO.
Qed.

(** Without a variant: found for the functionals that have a Becke-Johnson entry only. *)
Theorem C49_d3_default_variant :
  forall history functional keep_doi, In functional (map fst d3_functionals) ->
  (In functional no_bj_entry -> snd (params_after history "d3" (Some functional) None keep_doi) = Raise KeyError) /\
  (~ In functional no_bj_entry -> exists l, snd (params_after history "d3" (Some functional) None keep_doi) = Ok l).
Proof.
  intros history name keep Hin.
  destruct (in_dget _ _ Hin) as (vs & Ev). pose proof default_variant_checked as C. rewrite forallb_forall in C.
  specialize (C _ (dget_in_list _ _ _ Ev)). cbn [fst snd] in C. apply eqb_prop in C.
  assert (ND : name <> "default"). { intros ->. vm_compute in Ev. discriminate. }
  pose proof (package_lookup history d3 (Some name) None keep) as H. cbn [package meth_value] in H.
  destruct (params_after history "d3" (Some name) None keep) as [p r]. destruct H as (H1 & H2). cbn [snd].
  split; intros Hb.
  - apply H2. intros b Hb'. inversion Hb'; subst. cbn [f_functionals f_variants] in *.
    match goal with Hd : d3_default_variants = _ |- _ => injection Hd as <- <- end.
    apply str_in_In in Hb. rewrite Hb in C. unfold dmem in C.
    match goal with Hd : dget d3_functionals name = Some ?v |- _ => rewrite Ev in Hd; injection Hd as <- end.
    match goal with Hd : dget _ "bj" = Some b |- _ => rewrite Hd in C end. discriminate.
  - assert (Hb' : str_in name no_bj_entry = false).
    { destruct (str_in name no_bj_entry) eqn:E; auto. apply str_in_In in E. contradiction. }
    rewrite Hb' in C. unfold dmem in C. destruct (dget vs "bj") as [b|] eqn:Eb; [|discriminate].
    destruct (H1 b) as (l & -> & _).
    { eapply entry_default_variant with (vs := vs) (v := "bj"); auto. reflexivity. }
    eauto.
Qed.

(** ** Leaving out a parameter that has a default in every function is the same as passing the default *)
Definition signature_default (k : string) : option Q :=
  dget [("s6", 1%Q); ("s9", 1%Q); ("rs9", 1%Q); ("alp", 16%Q)] k.

Lemma bind_default (param : Param K) k q : dget param k = None -> signature_default k = Some q ->
  bind_call ((k, lit_p q) :: param) = bind_call param.
Proof.
  intros E S. unfold signature_default in S. cbn [dget] in S.
  repeat (match type of S with (if ?x =? k then _ else _) = _ => destruct (String.eqb_spec x k) as [<-|_];
    [injection S as <-; unfold bind_call; cbn [forallb fst str_in existsb call_keys dget String.eqb Ascii.eqb Bool.eqb orb andb default];
     rewrite E; reflexivity|] end). discriminate.
Qed.
Lemma pget_default (param : Param K) k q : dget param k = None -> signature_default k = Some q ->
  forall k' q', signature_default k' = Some q' \/ signature_default k' = None ->
  (forall q'', signature_default k' = Some q'' -> q'' = q') ->
  pget ((k, lit_p q) :: param) k' q' = pget param k' q'.
Proof.
  intros E S k' q' _ H. unfold pget. cbn [dget]. destruct (String.eqb_spec k k') as [<-|]; [|reflexivity].
  rewrite E. cbn [default]. now rewrite (H q S).
Qed.

Lemma term_default (t : DispTerm N) numbers positions (param : Param K) k q cn m qo r4 rv cut :
  dget param k = None -> signature_default k = Some q ->
  term_calculate X t numbers positions ((k, lit_p q) :: param) cn m qo r4 rv cut
  = term_calculate X t numbers positions param cn m qo r4 rv cut.
Proof.
  intros E S.
  assert (P : forall k' q', (forall q'', signature_default k' = Some q'' -> q'' = q') ->
     pget ((k, lit_p q) :: param) k' q' = pget param k' q').
  { intros k' q' H. apply pget_default; auto. destruct (signature_default k') eqn:E'; auto. left. f_equal. auto. }
  assert (S10 : dget ((k, lit_p (K := K) q) :: param) "s10" = dget param "s10").
  { cbn [dget]. destruct (String.eqb_spec k "s10") as [->|]; [discriminate|reflexivity]. }
  unfold term_calculate, dispersion2, radii_bj, radii_vdw, damping_call.
  rewrite S10, (bind_default param k q E S).
  rewrite (P "s6" dS6), (P "s8" dS8), (P "a1" dA1), (P "a2" dA2), (P "rs9" dRS9), (P "s9" dS9), (P "alp" dALP);
    try (intros q'' H; cbn in H; discriminate || (injection H as <-; reflexivity)).
  reflexivity.
Qed.

Lemma bind_ext {A B} (m : res A) (f g : A -> res B) : (forall x, f x = g x) -> bind m f = bind m g.
Proof. intros H. destruct m; cbn [bind]; auto. Qed.
Lemma sum_terms_ext f g ts : (forall t, f t = g t) -> forall e : tensor K, sum_terms e ts f = sum_terms (N := N) e ts g.
Proof. intros H. induction ts as [|t ts IH]; intros e; cbn [sum_terms]; [reflexivity|]. rewrite H. apply bind_ext, IH. Qed.

(** For every number type, terms and damping functions: a calculation without [s6], [s9], [rs9] or
    [alp] is literally the calculation with the value 1, 1, 1 or 16.  (The entries of d3.toml do not
    contain [alp], so [alp] is 16 although the file says 14 for its methods.) *)
Theorem C49_signature_defaults :
  forall (d : Disp N) (a : Args N) k q,
  dget (a_param a) k = None -> signature_default k = Some q ->
  run X W d (set_param a ((k, lit_p q) :: a_param a)) = run X W d a.
Proof.
  intros d a k q E S. unfold run, calculate.
  cbn [set_param a_numbers a_positions a_charge a_cutoff a_q a_rcov a_r4r2 a_rvdw a_param].
  repeat (apply bind_ext; intros ?).
  apply sum_terms_ext. intros t. now apply term_default.
Qed.
End U.

(** ... in particular with the entries of d3.toml, of which the file says [alp = 14] *)
Theorem C49_d3_alp :
  forall {N : Num} (X : Ext (sc N)) (W : World N) history functional variant keep_doi p l,
  functional <> "default" ->
  params_after history "d3" (Some functional) (Some variant) keep_doi = (p, Ok l) ->
  (exists b, dget d3_default_blocks variant = Some b /\ dget b "alp" = Some (TNum (140 # 10))) /\
  exists b, content (py_heap p) l = Some (scalars b) /\
    forall (d : Disp N) a,
      run X W d (set_param a (("alp", lit_p 16) :: to_param b)) = run X W d (set_param a (to_param b)).
Proof.
  intros N X W history name v keep p l Hn E.
  pose proof (package_lookup history d3 (Some name) (Some v) keep) as H. cbn [package meth_value] in H. rewrite E in H.
  destruct H as (H1 & H2).
  destruct (entry_dec _ (Some name) (Some v) (package_ok d3 _ eq_refl)) as [(b & Hb)|H0]; [|discriminate (H2 H0)].
  destruct (H1 b Hb) as (l' & El & _ & Hc). injection El as <-.
  assert (U : check_entry name v (without_doi keep b) = true).
  { inversion Hb; subst; [|match goal with HH : _ \/ _ |- _ => destruct HH; congruence end]. cbn [f_functionals] in *.
    pose proof d3_checked as C. rewrite forallb_forall in C.
    match goal with Hd : dget d3_functionals _ = Some _ |- _ => specialize (C _ (dget_in_list _ _ _ Hd)) end.
    cbn [fst snd] in C. rewrite forallb_forall in C.
    match goal with Hd : dget _ v = Some b |- _ => specialize (C _ (dget_in_list _ _ _ Hd)) end.
    cbn [fst snd] in C. apply andb_true_iff in C as (C1 & C2). now destruct keep. }
  unfold check_entry in U. destruct (variant_class v) as [cls|] eqn:EV; [|discriminate].
  apply andb_true_iff in U as (_ & U). split.
  - unfold variant_class in EV. destruct (dget d3_default_blocks v) as [b'|] eqn:Eb; [|discriminate].
    exists b'. split; [reflexivity|]. clear - Eb.
    unfold d3_default_blocks in Eb. cbn [dget] in Eb.
    repeat (match type of Eb with (if ?x =? v then _ else _) = _ => destruct (x =? v);
      [injection Eb as <-; reflexivity|] end). discriminate.
  - exists (without_doi keep b). split; [exact Hc|]. intros d a.
    assert (EA : dget (to_param (K := sc N) (without_doi keep b)) "alp" = None).
    { rewrite to_param_get. unfold dmem in U. destruct (dget (without_doi keep b) "alp"); [discriminate|reflexivity]. }
    exact (C49_signature_defaults X W d (set_param a (to_param (without_doi keep b))) "alp" 16 EA eq_refl).
Qed.

(** ** The hypotheses can be met *)
(** a calculation with each of the damping functions, D3 three-body term *)
Definition full_param {eps mx} : Param (sc (RN eps mx)) :=
  map (fun kx => pnum (eps := eps) (mx := mx) (fst kx) (snd kx))
    [("a1", 39 / 100); ("a2", 48 / 10); ("rs6", 1); ("s8", 2); ("rs8", 1); ("bet", 1)]%R.
Definition disp_with {eps mx} (cls : dclass) : Disp (RN eps mx) :=
  with_terms (Pex eps mx) [mkTerm (N := RN eps mx) TwoBodyTerm (damping_of (Xex eps mx) cls) false; mkTerm (N := RN eps mx) D3ATM (ZeroDamping (Xex eps mx)) false].
Lemma full_good eps mx : good_param (full_param (eps := eps) (mx := mx)).
Proof.
  apply pnum_good. simpl. intros k x H. repeat (destruct H as [H|H]; [injection H as <- _; tauto|]). destruct H.
Qed.
Lemma disp_with_wf eps mx cls :
  well_formed (N := RN eps mx) (Xex eps mx) (Wex eps mx) (disp_with cls) (set_param mol_call full_param) D4M no_kw 3 3 [2%nat].
Proof.
  destruct (proj1 (mol_wf eps mx)). constructor; auto.
  - intros H. now destruct H.
  - apply full_good.
  - intros t [<-|[<-|[]]].
    + apply (outcome_usable (N := RN eps mx) (Xex eps mx) cls); [apply full_good|]. destruct cls; reflexivity.
    + apply (usable_atm (N := RN eps mx) (Xex eps mx)); discriminate.
  - intros _ (t & [<-|[<-|[]]] & H); discriminate H.
Qed.
Example C49_outcome_example eps mx cls :
  well_formed (N := RN eps mx) (Xex eps mx) (Wex eps mx) (disp_with cls) (set_param mol_call full_param) D4M no_kw 3 3 [2%nat] /\
  (exists cd ts, p_terms (disp_with (eps := eps) (mx := mx) cls) = mkTerm (N := RN eps mx) TwoBodyTerm (damping_of (Xex eps mx) cls) cd :: ts /\
     ts <> [] /\ Forall (fun t : DispTerm (RN eps mx) => t_class t <> TwoBodyTerm /\ t_damping t = ZeroDamping (Xex eps mx)) ts) /\
  good_param (full_param (eps := eps) (mx := mx)) /\
  (forall k, binds (full_param (eps := eps) (mx := mx)) k = str_in k ["a1"; "a2"; "rs6"; "s8"; "rs8"; "bet"]).
Proof.
  split; [apply disp_with_wf|]. split.
  - exists false, [mkTerm (N := RN eps mx) D3ATM (ZeroDamping (Xex eps mx)) false]. split; [reflexivity|]. split; [discriminate|].
    constructor; [|constructor]. split; [discriminate|reflexivity].
  - split; [apply full_good|]. intros k. unfold binds, getp. cbn [full_param map fst snd pnum dget str_in existsb].
    rewrite !(String.eqb_sym k).
    repeat match goal with |- context [?x =? k] => destruct (x =? k); [reflexivity|] end. reflexivity.
Qed.
(** entries of each kind exist *)
Definition found (v f : string) : Prop :=
  exists p l, params_after ex_history "d3" (Some f) (Some v) false = (p, Ok l).
Lemma found_entry v f vs b : f <> "default" -> dget d3_functionals f = Some vs -> dget vs v = Some b -> found v f.
Proof.
  intros H1 H2 H3. unfold found. pose proof (package_lookup ex_history d3 (Some f) (Some v) false) as H.
  cbn [package meth_value] in H. destruct (params_after ex_history "d3" (Some f) (Some v) false) as [p r].
  destruct H as (H & _). destruct (H b) as (l & -> & _); [eapply entry_variant; eauto|]. eauto.
Qed.
Example C49_entries_example :
  found "bj" "pbe" /\ found "bjm" "pbe" /\ found "op" "pbe" /\ found "zero" "wb97x" /\
  found "zero" "pbe" /\ found "zerom" "pbe" /\ d3_accepted "pbe" "bj" = true /\ d3_accepted "pbe" "op" = true /\
  d3_accepted "wb97x" "zero" = true /\ d3_accepted "pbe" "zero" = false /\ d3_accepted "pbe" "zerom" = false.
Proof.
  repeat split; try reflexivity; (eapply found_entry; [discriminate|vm_compute; reflexivity|vm_compute; reflexivity]).
Qed.
Example C49_default_variant_example :
  In "pbe" (map fst d3_functionals) /\ ~ In "pbe" no_bj_entry /\
  Forall (fun f => In f (map fst d3_functionals)) no_bj_entry.
Proof.
  split; [|split].
  - apply str_in_In. vm_compute. reflexivity.
  - intros H. apply str_in_In in H. vm_compute in H. discriminate.
  - apply Forall_forall. intros f Hf. apply str_in_In.
    assert (C : forallb (fun f => str_in f (map fst d3_functionals)) no_bj_entry = true) by (vm_compute; reflexivity).
    rewrite forallb_forall in C. auto.
Qed.

Print Assumptions C49_d3_entries.
Print Assumptions C49_d3_default_variant.
Print Assumptions C49_signature_defaults.
Print Assumptions C49_d3_alp.
