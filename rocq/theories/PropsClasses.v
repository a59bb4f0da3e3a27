(** * C50: the parameter data classes *)
From Coq Require Import List Arith ZArith QArith Bool String Lia Reals Lra.
From Verif Require Import Py Tensor Scalar RInst ModelExt ModelUtils ModelDamping ModelModels ModelTerms
  ModelDisp SpecCall Spec SpecR TensorLemmas Closed ClosedTerms ClosedDamp CallLemmas
  Usable PropsCall PropsParams PropsTerms Inst InstW DataToml ModelLoader SpecLoader LoaderP PropsLoader
  ModelParams PropsOutcome PropsD3.
Import ListNotations.
Open Scope string_scope.

(** ** Specification *)
(** the damping function that the data class describes *)
Definition class_damping (c : pclass) : dclass :=
  match c with
  | RationalParams => Rational
  | ZeroParams => Zero
  | MZeroParams => MZero
  | OptimisedPowerParams => OptimisedPower
  end.

(** numbers that an instance must be given *)
Definition must_have (c : pclass) : list string :=
  match c with
  | RationalParams => ["a1"; "a2"]
  | ZeroParams => ["alp"; "rs6"; "rs8"]
  | MZeroParams => ["alp"; "rs6"; "rs8"; "bet"]
  | OptimisedPowerParams => ["a1"; "a2"; "bet"]
  end.

(** entries that can be numbers are numbers, [doi] is a string *)
Definition well_typed (b : list (string * tval)) : Prop :=
  forall k v, dget b k = Some v -> if k =? "doi" then exists s, v = TStr s else exists q, v = TNum q.

(** ** Proofs *)
Section P.
Context {K : Scalar}.

Lemma validate_fields_ok d fs :
  (forall f k, In (f, k) fs -> exists v, field_value (K := K) d f k = Ok v) ->
  exists pm, validate_fields (K := K) d fs = Ok pm /\ map fst pm = map fst fs /\
    (forall f v, In (f, v) pm -> exists k, In (f, k) fs /\ field_value d f k = Ok v).
Proof.
  induction fs as [|[f k] fs IH]; intros H; cbn [validate_fields].
  - exists []. split; [reflexivity|]. split; [reflexivity|]. intros ? ? [].
  - destruct (H f k (or_introl eq_refl)) as (v & Ev). rewrite Ev. cbn [bind].
    destruct IH as (pm & -> & M & V). { intros; apply H; now right. }
    cbn [bind]. eexists. split; [reflexivity|]. split; [cbn [map fst]; now rewrite M|].
    intros f' v' [E|Hin].
    + injection E as <- <-. exists k. split; [now left|auto].
    + destruct (V f' v' Hin) as (k' & Hk & E). exists k'. split; [now right|auto].
Qed.

Lemma validate_fields_fail d fs f k :
  In (f, k) fs -> (forall v, field_value (K := K) d f k <> Ok v) ->
  validate_fields (K := K) d fs = Raise ValueError.
Proof.
  induction fs as [|[f' k'] fs IH]; intros H N; cbn [validate_fields]; [destruct H|].
  assert (FV : forall g k0, (exists v, field_value (K := K) d g k0 = Ok v) \/ field_value (K := K) d g k0 = Raise ValueError).
  { intros g k0. unfold field_value. destruct k0, (dget d g) as [[]|]; eauto. }
  destruct H as [E|H].
  - injection E as -> ->. destruct (FV f k) as [(v & E)|E]; [destruct (N v E)|]. now rewrite E.
  - destruct (FV f' k') as [(v & E)|E]; rewrite E; cbn [bind]; [|reflexivity]. now rewrite IH.
Qed.

Lemma must_have_required c k : In k (must_have c) <-> In (k, Required) (fields c).
Proof.
  destruct c; cbn [must_have fields base_fields app In]; intuition (try congruence); subst; auto 12.
Qed.

(** a dictionary of numbers is accepted if and only if it has the required ones; the dump has
    exactly the fields of the class, with the number of the dictionary or the default *)
Theorem C50_validation :
  forall c (b : list (string * tval)), well_typed b ->
  ((forall k, In k (must_have c) -> dget b k <> None) ->
     exists pm, validated (K := K) c b = Ok pm /\ map fst pm = map fst (fields c) /\ good_param pm /\
       forall k, k <> "doi" -> binds pm k = str_in k (map fst (fields c)) /\
         (binds pm k = true -> getp pm k = Some (match dget b k with
            | Some (TNum q) => flit q
            | _ => if (k =? "s6") || (k =? "s8") then flit 1 else flit 0
            end))) /\
  ((exists k, In k (must_have c) /\ dget b k = None) -> validated (K := K) c b = Raise ValueError).
Proof.
  intros c b WT. split.
  - intros HR. unfold validated.
    destruct (validate_fields_ok b (fields c)) as (pm & E & M & V).
    { intros f k Hin. unfold field_value. destruct (dget b f) as [v|] eqn:Ev.
      - pose proof (WT f v Ev) as T. destruct (String.eqb_spec f "doi") as [->|ND].
        + destruct T as (s & ->). assert (k = OptionalStr) as ->.
          { destruct c; cbn [fields base_fields app In] in Hin;
            repeat (destruct Hin as [Hin|Hin]; [congruence|]); destruct Hin. }
          eauto.
        + destruct T as (q & ->). destruct k; eauto.
          exfalso. destruct c; cbn [fields base_fields app In] in Hin;
          repeat (destruct Hin as [Hin|Hin]; [congruence|]); destruct Hin.
      - destruct k; eauto. exfalso. apply must_have_required in Hin. now apply (HR f Hin). }
    exists pm. split; [exact E|]. split; [exact M|].
    assert (ND : NoDup (map fst (fields c))).
    { destruct c; cbn; repeat constructor; cbn [In]; intuition discriminate. }
    assert (G : forall k, k <> "doi" -> forall v, In (k, v) pm -> v = PT (scal (match dget b k with
            | Some (TNum q) => flit q
            | _ => if (k =? "s6") || (k =? "s8") then flit 1 else flit 0 end)) /\ In k (map fst (fields c))).
    { intros k Hk v Hin. destruct (V k v Hin) as (kd & Hkd & Ef).
      split; [|apply in_map_iff; exists (k, kd); auto].
      unfold field_value in Ef. destruct (dget b k) as [tv|] eqn:Ev.
      - pose proof (WT k tv Ev) as T. destruct (String.eqb_spec k "doi"); [contradiction|]. destruct T as (q & ->).
        destruct kd; try discriminate; now injection Ef as <-.
      - destruct kd as [|q|]; try discriminate.
        + injection Ef as <-. f_equal. f_equal.
          destruct c; cbn [fields base_fields app In] in Hkd;
          repeat (destruct Hkd as [Hkd|Hkd]; [first [discriminate Hkd | injection Hkd as <- <-; reflexivity]|]); destruct Hkd.
        + exfalso. destruct c; cbn [fields base_fields app In] in Hkd;
          repeat (destruct Hkd as [Hkd|Hkd]; [congruence|]); destruct Hkd. }
    split.
    + intros k v Hin. split.
      * assert (F : In k (map fst (fields c))) by (rewrite <- M; apply in_map_iff; exists (k, v); auto).
        destruct c; cbn in F |- *; intuition.
      * intros Hk. destruct (G k Hk v Hin) as (-> & _). eexists. eexists. split; [reflexivity|]. split; reflexivity.
    + intros k Hk.
      assert (B : binds pm k = str_in k (map fst (fields c)) ).
      { unfold binds, getp. destruct (dget pm k) as [v|] eqn:Ev.
        - destruct (G k Hk v (dget_in_list _ _ _ Ev)) as (-> & Hin). apply str_in_In in Hin. now rewrite Hin.
        - destruct (str_in k (map fst (fields c))) eqn:Es; [|reflexivity]. apply str_in_In in Es. rewrite <- M in Es.
          destruct (in_dget _ _ Es) as (v & Ev'). congruence. }
      split; [exact B|]. intros Bt. unfold binds, getp in *. destruct (dget pm k) as [v|] eqn:Ev; [|discriminate].
      destruct (G k Hk v (dget_in_list _ _ _ Ev)) as (-> & _). reflexivity.
  - intros (k & Hk & E). unfold validated. apply must_have_required in Hk.
    eapply validate_fields_fail; [exact Hk|]. intros v. unfold field_value. rewrite E. discriminate.
Qed.
End P.

(** *** Zero, modified zero and optimised power damping: the dump is refused by every calculation
    with the damping function of the class (it contains [s10 = 0.0], and these functions have no
    order 10) *)
Section W.
Context {N : Num} (X : Ext (sc N)) (W : World N).
Notation K := (sc N).
Theorem C50_validated_refused :
  forall c b pm, c <> RationalParams -> well_typed b -> validated (K := K) c b = Ok pm ->
  forall (p : Disp N) a kind kw n cc B cd ts,
  ext_tables X -> well_formed X W p a kind kw n cc B ->
  p_terms p = mkTerm TwoBodyTerm (damping_of X (class_damping c)) cd :: ts ->
  Forall (fun t => t_class t <> TwoBodyTerm /\ t_damping t = ZeroDamping X) ts ->
  run X W p (set_param a pm) = Raise ValueError.
Proof.
  intros c b pm HC WT E p a kind kw n cc B cd ts HX WF ET Hts.
  destruct (C50_validation (K := K) c b WT) as (H1 & H2).
  assert (HR : forall k, In k (must_have c) -> dget b k <> None).
  { intros k Hk En. rewrite H2 in E by eauto. discriminate. }
  destruct (H1 HR) as (pm' & E' & _ & G & Bk). rewrite E in E'. injection E' as <-.
  pose proof (C49_outcome X W p a kind kw n cc B (class_damping c) cd ts pm HX WF ET Hts G) as HO.
  assert (BB : forall k, k <> "doi" -> binds pm k = str_in k (map fst (fields c))) by (intros; now apply Bk).
  destruct c; [contradiction| | |]; cbn [class_damping outcome forallb] in HO;
    rewrite !BB in HO by discriminate; exact HO.
Qed.

(** Becke-Johnson damping: accepted *)
Theorem C50_validated_rational_accepted :
  forall b pm, well_typed b -> validated (K := K) RationalParams b = Ok pm ->
  forall (p : Disp N) a kind kw n c B cd ts,
  ext_tables X -> well_formed X W p a kind kw n c B ->
  p_terms p = mkTerm TwoBodyTerm RationalDamping cd :: ts ->
  Forall (fun t => t_class t <> TwoBodyTerm /\ t_damping t = ZeroDamping X) ts ->
  exists e, run X W p (set_param a pm) = Ok e /\ shp e = shp (a_numbers a).
Proof.
  intros b pm WT E p a kind kw n c B cd ts HX WF ET Hts.
  destruct (C50_validation (K := K) RationalParams b WT) as (H1 & H2).
  assert (HR : forall k, In k (must_have RationalParams) -> dget b k <> None).
  { intros k Hk En. rewrite H2 in E by eauto. discriminate. }
  destruct (H1 HR) as (pm' & E' & _ & G & Bk). rewrite E in E'. injection E' as <-.
  pose proof (C49_outcome X W p a kind kw n c B Rational cd ts pm HX WF ET Hts G) as HO.
  assert (BB : forall k, k <> "doi" -> binds pm k = str_in k (map fst (fields RationalParams))) by (intros; now apply Bk).
  cbn [outcome forallb] in HO. rewrite !BB in HO by discriminate. exact HO.
Qed.
End W.

(** *** Becke-Johnson damping, exact arithmetic: the dump of an entry with [s8] gives the energy of
    the entry itself, except that [s9] and [alp] of the entry are ignored *)
Section R.
Context (eps mx : R) (X : Ext (sc (RN eps mx))) (W : World (RN eps mx)).
Notation N := (RN eps mx).
Theorem C50_validated_energy :
  forall b pm, well_typed b -> numeric b = true -> dget b "s8" <> None -> validated (K := sc N) RationalParams b = Ok pm ->
  forall (p : Disp N) a kind kw n c B, ext_tables X -> well_formed X W p a kind kw n c B -> p_terms p = terms_d4 X ->
  exists e e',
    run X W p (set_param a pm) = Ok e /\
    run X W p (set_param a (pnum (eps := eps) (mx := mx) "s9" 1 :: pnum "alp" 16 :: to_param b)) = Ok e' /\
    shp e = n :: B /\ shp e' = n :: B /\
    forall b i, valid B b -> (i < n)%nat -> sl1 e b i = sl1 e' b i.
Proof.
  intros b pm WT NB H8 E p a kind kw n c B HX WF HT.
  destruct (C50_validation (K := sc N) RationalParams b WT) as (H1 & H2).
  assert (HR : forall k, In k (must_have RationalParams) -> dget b k <> None).
  { intros k Hk En. rewrite H2 in E by eauto. discriminate. }
  destruct (H1 HR) as (pm' & E' & _ & G & Bk). rewrite E in E'. injection E' as <-. clear H1 H2.
  assert (NUM : forall k, k <> "doi" -> dget b k <> None -> exists q, dget b k = Some (TNum q)).
  { intros k Hk Hn. destruct (dget b k) as [v|] eqn:Ev; [|congruence]. pose proof (WT k v Ev) as T.
    destruct (String.eqb_spec k "doi"); [contradiction|]. destruct T as (q & ->). eauto. }
  destruct (NUM "a1" ltac:(discriminate) (HR "a1" ltac:(simpl; tauto))) as (q1 & Q1).
  destruct (NUM "a2" ltac:(discriminate) (HR "a2" ltac:(simpl; tauto))) as (q2 & Q2).
  destruct (NUM "s8" ltac:(discriminate) H8) as (q8 & Q8).
  set (pm2 := pnum (eps := eps) (mx := mx) "s9" 1 :: pnum "alp" 16 :: to_param b).
  assert (G2 : good_param (K := sc N) pm2).
  { intros k v [Q|[Q|Q]].
    - injection Q as <- <-. split; [simpl; tauto|]. intros _; eexists; apply rnum_isnum.
    - injection Q as <- <-. split; [simpl; tauto|]. intros _; eexists; apply rnum_isnum.
    - now apply (numeric_good (K := sc N) b NB). }
  assert (F1 : forall k q, In k ["a1"; "a2"; "s6"; "s8"; "s10"] -> dget b k = Some (TNum q) ->
     getp (K := sc N) pm k = Some (Q2R q) /\ getp (K := sc N) pm2 k = Some (Q2R q)).
  { intros k q Hk Eq. assert (Hd : k <> "doi") by (intros ->; simpl in Hk; intuition discriminate). split.
    - destruct (Bk k Hd) as (B1 & B2). rewrite B2, Eq; [reflexivity|]. rewrite B1. apply str_in_In. cbn. simpl in Hk. tauto.
    - unfold getp, pm2, pnum. cbn [dget].
      destruct (String.eqb_spec "s9" k); [subst; simpl in Hk; intuition discriminate|].
      destruct (String.eqb_spec "alp" k); [subst; simpl in Hk; intuition discriminate|].
      rewrite to_param_get, Eq. reflexivity. }
  destruct (F1 "a1" q1 ltac:(simpl; tauto) Q1) as (A1 & A1').
  destruct (F1 "a2" q2 ltac:(simpl; tauto) Q2) as (A2 & A2').
  destruct (F1 "s8" q8 ltac:(simpl; tauto) Q8) as (A8 & A8').
  assert (NB1 : forall k, k <> "doi" -> str_in k (map fst (fields RationalParams)) = false -> getp (K := sc N) pm k = None).
  { intros k Hk Hs. apply binds_none. destruct (Bk k Hk) as (-> & _). exact Hs. }
  assert (FB : forall k, In k ["s6"; "s10"] -> dget b k = None ->
     getp (K := sc N) pm k = Some (if k =? "s6" then 1%R else 0%R) /\ getp (K := sc N) pm2 k = None).
  { intros k Hk Eq. split.
    - assert (Hd : k <> "doi") by (intros ->; simpl in Hk; intuition discriminate).
      destruct (Bk k Hd) as (B1 & B2). rewrite B2, Eq.
      + simpl in Hk. destruct Hk as [<-|[<-|[]]]; cbn [String.eqb Ascii.eqb Bool.eqb orb]; f_equal; apply (Q2R_1) || apply Q2R_0.
      + rewrite B1. simpl in Hk. destruct Hk as [<-|[<-|[]]]; reflexivity.
    - unfold getp, pm2, pnum. cbn [dget].
      destruct (String.eqb_spec "s9" k); [subst; simpl in Hk; intuition discriminate|].
      destruct (String.eqb_spec "alp" k); [subst; simpl in Hk; intuition discriminate|].
      now rewrite to_param_get, Eq. }
  destruct (C12_energy_linear X W p a kind kw n c B (Q2R q1) (Q2R q2) 16 HX WF HT) as (e6 & e8 & e10 & e9 & H).
  assert (K9 : getp (K := RS eps mx) pm "s9" = None) by (apply NB1; [discriminate|reflexivity]).
  assert (KA : getp (K := RS eps mx) pm "alp" = None) by (apply NB1; [discriminate|reflexivity]).
  destruct (H pm G A1 A2) as (e & Ee & Se & De).
  { unfold eff_alp. now rewrite KA. }
  destruct (H pm2 G2 A1' A2' eq_refl) as (e' & Ee' & Se' & De').
  exists e, e'. repeat (split; [assumption|]). intros bb i Vb Hi. rewrite De, De' by auto.
  assert (S8 : eff_s8 (eps := eps) (mx := mx) pm = eff_s8 (eps := eps) (mx := mx) pm2).
  { unfold eff_s8. change (getp (K := RS eps mx) pm "s8" = Some (Q2R q8)) in A8.
    change (getp (K := RS eps mx) pm2 "s8" = Some (Q2R q8)) in A8'. now rewrite A8, A8'. }
  assert (S9 : eff_s9 (eps := eps) (mx := mx) pm = eff_s9 (eps := eps) (mx := mx) pm2).
  { unfold eff_s9. rewrite K9. reflexivity. }
  assert (S6 : eff_s6 (eps := eps) (mx := mx) pm = eff_s6 (eps := eps) (mx := mx) pm2).
  { unfold eff_s6. destruct (dget b "s6") eqn:E6.
    - destruct (NUM "s6" ltac:(discriminate) ltac:(congruence)) as (q6 & Q6).
      destruct (F1 "s6" q6 ltac:(simpl; tauto) Q6) as (P1 & P2).
      change (getp (K := RS eps mx) pm "s6" = Some (Q2R q6)) in P1. change (getp (K := RS eps mx) pm2 "s6" = Some (Q2R q6)) in P2.
      now rewrite P1, P2.
    - destruct (FB "s6" ltac:(simpl; tauto) E6) as (P1 & P2). 
      change (getp (K := RS eps mx) pm "s6" = Some 1%R) in P1. change (getp (K := RS eps mx) pm2 "s6" = None) in P2.
      now rewrite P1, P2. }
  assert (S10 : eff_s10 (eps := eps) (mx := mx) pm = eff_s10 (eps := eps) (mx := mx) pm2).
  { unfold eff_s10. destruct (dget b "s10") eqn:E6.
    - destruct (NUM "s10" ltac:(discriminate) ltac:(congruence)) as (q6 & Q6).
      destruct (F1 "s10" q6 ltac:(simpl; tauto) Q6) as (P1 & P2).
      change (getp (K := RS eps mx) pm "s10" = Some (Q2R q6)) in P1. change (getp (K := RS eps mx) pm2 "s10" = Some (Q2R q6)) in P2.
      now rewrite P1, P2.
    - destruct (FB "s10" ltac:(simpl; tauto) E6) as (P1 & P2).
      change (getp (K := RS eps mx) pm "s10" = Some 0%R) in P1. change (getp (K := RS eps mx) pm2 "s10" = None) in P2.
      now rewrite P1, P2. }
  now rewrite S6, S8, S9, S10.
Qed.
End R.

(** *** The shipped entries *)
(** [PARAM_MODELS[Variant(variant)]( **entry)] for each entry of the TOML files: only the variants
    bj (D3) and bj-eeq-atm (D4) pass *)
Definition model_dump {K : Scalar} (variant : string) (b : list (string * tval)) : res (Param K) :=
  match param_model variant with Ok c => validated c b | Raise e => Raise e end.

(** [PARAM_MODELS[Variant(variant)]( **entry).model_dump()] for any variant and any entry: the
    numbers required, and the keys of the result *)
Definition variant_needs (variant : string) : option (list string) :=
  match variant with
  | "bj" | "bj-eeq-atm" => Some ["a1"; "a2"]
  | "zero" => Some ["alp"; "rs6"; "rs8"]
  | "mzero" => Some ["alp"; "rs6"; "rs8"; "bet"]
  | "optimizedpower" => Some ["a1"; "a2"; "bet"]
  | _ => None
  end.
Definition variant_keys (variant : string) : list string :=
  ["s6"; "s8"; "s10"; "doi"] ++
  match variant with
  | "bj" | "bj-eeq-atm" => ["a1"; "a2"]
  | "zero" | "mzero" => ["alp"; "rs6"; "rs8"; "rs9"; "bet"]
  | _ => ["a1"; "a2"; "bet"]
  end.
Lemma variant_class v : match param_model v with
  | Ok c => variant_needs v = Some (must_have c) /\ variant_keys v = map fst (fields c)
  | Raise e => e = ValueError /\ variant_needs v = None
  end.
Proof.
  unfold param_model.
  destruct (String.eqb_spec v "bj") as [->|N1]; [split; reflexivity|].
  destruct (String.eqb_spec v "bj-eeq-atm") as [->|N2]; [split; reflexivity|].
  destruct (String.eqb_spec v "zero") as [->|N3]; [split; reflexivity|].
  destruct (String.eqb_spec v "mzero") as [->|N4]; [split; reflexivity|].
  destruct (String.eqb_spec v "optimizedpower") as [->|N5]; [split; reflexivity|].
  split; [reflexivity|]. unfold variant_needs.
  repeat first [reflexivity | (exfalso; congruence) |
    match goal with |- match ?x with _ => _ end = None => is_var x; destruct x end].
Qed.
Theorem C50_variants : forall (K : Scalar) variant (b : list (string * tval)), well_typed b ->
  match variant_needs variant with
  | None => model_dump (K := K) variant b = Raise ValueError
  | Some ks =>
      ((forall k, In k ks -> dget b k <> None) ->
         exists pm, model_dump (K := K) variant b = Ok pm /\ map fst pm = variant_keys variant) /\
      ((exists k, In k ks /\ dget b k = None) -> model_dump (K := K) variant b = Raise ValueError)
  end.
Proof.
  intros K v b WT. pose proof (variant_class v) as H. unfold model_dump. destruct (param_model v) as [c|e].
  - destruct H as (-> & ->). destruct (C50_validation (K := K) c b WT) as (H1 & H2). split.
    + intros Hk. destruct (H1 Hk) as (pm & E & M & _). eauto.
    + exact H2.
  - destruct H as (-> & ->). reflexivity.
Qed.

Definition well_typedb (b : list (string * tval)) : bool :=
  forallb (fun kv => match snd kv with TStr _ => fst kv =? "doi" | TNum _ => negb (fst kv =? "doi") end) b.
Lemma well_typedb_ok b : well_typedb b = true -> well_typed b.
Proof.
  unfold well_typedb. rewrite forallb_forall. intros H k v E. apply dget_in_list in E. specialize (H _ E). cbn [fst snd] in H.
  destruct v as [q|s]; [apply negb_true_iff in H|]; rewrite H; eauto.
Qed.

Definition check_class (v : string) (b : list (string * tval)) : bool :=
  well_typedb b && numeric b &&
  match param_model v with
  | Ok c => if str_in v ["bj"; "bj-eeq-atm"]
            then match c with RationalParams => forallb (fun k => dmem b k) ["a1"; "a2"; "s8"] | _ => false end
            else existsb (fun k => negb (dmem b k)) (must_have c)
  | Raise ValueError => negb (str_in v ["bj"; "bj-eeq-atm"])
  | _ => false
  end.
Lemma classes_checked : forallb (fun f => forallb (fun e =>
    check_class (fst e) (snd e) && check_class (fst e) (without_doi false (snd e))) (snd f))
  (d3_functionals ++ d4_functionals)%list = true.
Proof. vm_compute. reflexivity. Qed.

Theorem C50_shipped_entries :
  forall {K : Scalar} history m functional variant keep_doi p l,
  functional <> "default" ->
  params_after history (meth_value m) (Some functional) (Some variant) keep_doi = (p, Ok l) ->
  exists b, content (py_heap p) l = Some (scalars b) /\ well_typed b /\ numeric b = true /\
    (In variant ["bj"; "bj-eeq-atm"] ->
       dget b "s8" <> None /\ param_model variant = Ok RationalParams /\
       exists pm, model_dump (K := K) variant b = Ok pm) /\
    (~ In variant ["bj"; "bj-eeq-atm"] -> model_dump (K := K) variant b = Raise ValueError).
Proof.
  intros K history m name v keep p l Hn E.
  assert (PK : exists f, package m = Some f /\ incl (f_functionals f) (d3_functionals ++ d4_functionals)%list).
  { pose proof (package_lookup history m (Some name) (Some v) keep) as H. rewrite E in H.
    destruct m; [eexists; split; [reflexivity|]; apply incl_appl, incl_refl|
                 eexists; split; [reflexivity|]; apply incl_appr, incl_refl|discriminate H]. }
  destruct PK as (f & Ef & HI).
  pose proof (package_lookup history m (Some name) (Some v) keep) as H. rewrite E, Ef in H.
  destruct H as (H1 & H2).
  destruct (entry_dec _ (Some name) (Some v) (package_ok m _ Ef)) as [(b & Hb)|H0]; [|discriminate (H2 H0)].
  destruct (H1 b Hb) as (l' & El & _ & Hc). injection El as <-.
  assert (U : check_class v (without_doi keep b) = true).
  { inversion Hb; subst; [|match goal with HH : _ \/ _ |- _ => destruct HH; congruence end].
    pose proof classes_checked as C. rewrite forallb_forall in C.
    match goal with Hd : dget (f_functionals f) _ = Some _ |- _ => specialize (C _ (HI _ (dget_in_list _ _ _ Hd))) end.
    cbn [fst snd] in C. rewrite forallb_forall in C.
    match goal with Hd : dget _ v = Some b |- _ => specialize (C _ (dget_in_list _ _ _ Hd)) end.
    cbn [fst snd] in C. apply andb_true_iff in C as (C1 & C2). now destruct keep. }
  unfold check_class in U. rewrite !andb_true_iff in U. destruct U as ((WT & NU) & U).
  apply well_typedb_ok in WT.
  exists (without_doi keep b). split; [exact Hc|]. split; [exact WT|]. split; [exact NU|].
  unfold model_dump. split.
  - intros Hv. apply str_in_In in Hv. rewrite Hv in U.
    destruct (param_model v) as [c|[]]; try discriminate. destruct c; try discriminate.
    rewrite forallb_forall in U.
    assert (HM : forall k, In k ["a1"; "a2"; "s8"] -> dget (without_doi keep b) k <> None).
    { intros k Hk. specialize (U k Hk). unfold dmem in U. destruct (dget (without_doi keep b) k); congruence. }
    split; [apply HM; simpl; tauto|]. split; [reflexivity|].
    destruct (C50_validation (K := K) RationalParams _ WT) as (H & _).
    destruct H as (pm & Epm & _); [|eauto]. intros k Hk. apply HM. simpl in Hk |- *. tauto.
  - intros Hv. assert (Hv' : str_in v ["bj"; "bj-eeq-atm"] = false).
    { destruct (str_in v ["bj"; "bj-eeq-atm"]) eqn:Q; auto. apply str_in_In in Q. contradiction. }
    rewrite Hv' in U. destruct (param_model v) as [c|[]]; try discriminate; [|reflexivity].
    apply existsb_exists in U as (k & Hk & U). destruct (C50_validation (K := K) c _ WT) as (_ & H).
    apply H. exists k. split; auto. unfold dmem in U. destruct (dget (without_doi keep b) k); [discriminate|reflexivity].
Qed.

(** ** The hypotheses can be met *)
Definition ex_entry : list (string * tval) :=
  [("alp", TNum 14); ("rs6", TNum 1); ("s8", TNum 2); ("rs8", TNum 1); ("bet", TNum 0); ("a1", TNum (4 # 10));
   ("a2", TNum 5); ("s9", TNum 2); ("doi", TStr "x")].
Example C50_example (K : Scalar) :
  well_typed ex_entry /\ numeric ex_entry = true /\ dget ex_entry "s8" <> None /\
  forall c, exists pm, validated (K := K) c ex_entry = Ok pm.
Proof.
  split; [apply well_typedb_ok; reflexivity|]. split; [reflexivity|]. split; [discriminate|].
  intros c. destruct c; eexists; reflexivity.
Qed.
(** the entry of r2scan-3c has s9 = 2: the dump does not contain it *)
Example C50_r2scan3c (K : Scalar) : exists vs b pm, dget d4_functionals "r2scan-3c" = Some vs /\
  dget vs "bj-eeq-atm" = Some b /\ dget b "s9" = Some (TNum (20 # 10)) /\
  model_dump (K := K) "bj-eeq-atm" b = Ok pm /\ dget pm "s9" = None.
Proof. do 3 eexists. split; [vm_compute; reflexivity|]. split; [reflexivity|]. split; [reflexivity|]. split; reflexivity. Qed.

Print Assumptions C50_validation.
Print Assumptions C50_validated_refused.
Print Assumptions C50_validated_rational_accepted.
Print Assumptions C50_validated_energy.
Print Assumptions C50_shipped_entries.
Print Assumptions C50_variants.
