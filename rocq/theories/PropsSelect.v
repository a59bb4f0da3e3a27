(** * Model selection, coordination number function, reference charges, elements, parameters *)
From Coq Require Import List Arith ZArith QArith Bool String Ascii Lia.
From Verif Require Import Py Tensor Scalar ModelExt ModelUtils ModelDamping ModelModels
  ModelTerms ModelDisp SpecCall TensorLemmas EinsumLemmas Closed ClosedM ClosedTerms ClosedModels
  ClosedDamp ClosedDisp CallLemmas PropsCall.
Import ListNotations.
Open Scope py_scope.
Open Scope nat_scope.
Open Scope string_scope.

(** ** Strings *)
Lemma lower_cases (c l : ascii) :
  ascii_lower c = l -> ascii_lower l = l ->
  c = l \/ (nat_of_ascii c + 32 = nat_of_ascii l /\ 65 <= nat_of_ascii c <= 90).
Proof.
  unfold ascii_lower. intros H L.
  destruct (andb (Nat.leb 65 (nat_of_ascii c)) (Nat.leb (nat_of_ascii c) 90)) eqn:E; [|auto].
  apply andb_true_iff in E as [E1 E2]. apply Nat.leb_le in E1, E2. right. split; auto.
  rewrite <- H, nat_ascii_embedding; lia.
Qed.

Lemma fold_d c : ascii_lower c = "d"%char <-> c = "d"%char \/ c = "D"%char.
Proof.
  split; [|intros [->| ->]; reflexivity]. intros H. destruct (lower_cases _ _ H eq_refl) as [E|[E _]]; auto.
  right. rewrite <- (ascii_nat_embedding c), <- (ascii_nat_embedding "D"). f_equal.
  change (nat_of_ascii "d") with 100 in E. change (nat_of_ascii "D") with 68. lia.
Qed.
Lemma fold_s c : ascii_lower c = "s"%char <-> c = "s"%char \/ c = "S"%char.
Proof.
  split; [|intros [->| ->]; reflexivity]. intros H. destruct (lower_cases _ _ H eq_refl) as [E|[E _]]; auto.
  right. rewrite <- (ascii_nat_embedding c), <- (ascii_nat_embedding "S"). f_equal.
  change (nat_of_ascii "s") with 115 in E. change (nat_of_ascii "S") with 83. lia.
Qed.
Lemma fold_digit c l : nat_of_ascii l < 65 -> ascii_lower c = l <-> c = l.
Proof.
  intros Hl. assert (L : ascii_lower l = l).
  { unfold ascii_lower. destruct (Nat.leb_spec 65 (nat_of_ascii l)); [lia|reflexivity]. }
  split; [|intros ->; auto]. intros H. destruct (lower_cases _ _ H L) as [E|[E F]]; auto. lia.
Qed.

Lemma casefold_nil s : casefold s = "" <-> s = "".
Proof. destruct s; simpl; split; congruence. Qed.
Lemma casefold_cons s c t : casefold s = String c t <->
  exists c' t', s = String c' t' /\ ascii_lower c' = c /\ casefold t' = t.
Proof.
  split.
  - destruct s as [|c' t']; simpl; [discriminate|]. intros E. injection E as <- <-. eauto.
  - intros (c' & t' & -> & <- & <-). reflexivity.
Qed.

(** The ten accepted spellings. *)
Definition model_names : list string :=
  ["d3"; "D3"; "d4"; "D4"; "d4s"; "d4S"; "D4s"; "D4S"; "d5"; "D5"].

Lemma accepted_keys s : str_in (casefold s) ALLOWED_MODELS_ = true <-> In s model_names.
Proof.
  split.
  - intros H. apply existsb_exists in H as (k & Hk & E). apply String.eqb_eq in E.
    assert (D : forall x y, nat_of_ascii x < 65 -> casefold s = String "d" (String x y) ->
      exists c t, (c = "d"%char \/ c = "D"%char) /\ s = String c (String x t) /\ casefold t = y).
    { intros x y Hx Hs. apply casefold_cons in Hs as (c & t & -> & Hc & Ht).
      apply fold_d in Hc. apply casefold_cons in Ht as (c' & t' & -> & Hc' & Ht').
      apply (fold_digit c' x Hx) in Hc'. subst. exists c, t'. auto. }
    simpl in Hk. destruct Hk as [<-|[<-|[<-|[<-|[]]]]].
    + apply D in E as (c & t & Hc & -> & Ht); [|compute; lia]. apply casefold_nil in Ht as ->.
      destruct Hc as [->| ->]; simpl; tauto.
    + apply D in E as (c & t & Hc & -> & Ht); [|compute; lia]. apply casefold_nil in Ht as ->.
      destruct Hc as [->| ->]; simpl; tauto.
    + apply D in E as (c & t & Hc & -> & Ht); [|compute; lia].
      apply casefold_cons in Ht as (c' & t' & -> & Hc' & Ht'). apply casefold_nil in Ht' as ->.
      apply fold_s in Hc'. destruct Hc as [->| ->], Hc' as [->| ->]; simpl; tauto.
    + apply D in E as (c & t & Hc & -> & Ht); [|compute; lia]. apply casefold_nil in Ht as ->.
      destruct Hc as [->| ->]; simpl; tauto.
  - intros H. simpl in H. repeat (destruct H as [<-|H]; [reflexivity|]). destruct H.
Qed.

Section S.
Context {N : Num} (X : Ext (sc N)) (W : World N).
Notation K := (sc N).

(** *** C18: model selection *)

(** Any [Disp] class (whatever its terms) accepts exactly the ten spellings, and any other
    string raises [ValueError]. *)
Theorem C18_accepted_models :
  forall (terms : list (DispTerm N)) s kw cn cnkw,
  (In s model_names -> exists p, new_disp W terms (MKey s) kw (Some cn) cnkw = Ok p /\
     p_terms p = terms /\ p_inst p = None /\ p_kw p = kw /\ p_key p = casefold s) /\
  (~ In s model_names -> new_disp W terms (MKey s) kw (Some cn) cnkw = Raise ValueError).
Proof.
  intros. unfold new_disp. split; intros H.
  - apply accepted_keys in H. rewrite H. cbn [negb raise_if bind].
    eexists. split; [reflexivity|]. auto.
  - destruct (str_in (casefold s) ALLOWED_MODELS_) eqn:E.
    + exfalso. apply H. now apply accepted_keys.
    + reflexivity.
Qed.

(** In particular the shipped D4 classes accept the D3 model and conversely: the restriction
    announced by the class attribute of [DispD4]/[DispD3BJ] is not applied. *)
Theorem C18_class_restriction_not_applied :
  forall kw cnkw,
  (exists p, DispD4 X W (MKey "d3") kw None cnkw = Ok p) /\
  (exists p, DispD4Exact X W (MKey "D3") kw None cnkw = Ok p) /\
  (exists p, DispD3BJ X W (MKey "d4") kw None cnkw = Ok p) /\
  (exists p, DispD3Zero X W (MKey "d4s") kw None cnkw = Ok p).
Proof. intros. repeat split; eexists; reflexivity. Qed.

(** "d5" passes construction and then fails in every calculation. *)
Theorem C18_d5_always_fails :
  forall (terms : list (DispTerm N)) s kw cn cnkw p a,
  In s ["d5"; "D5"] -> new_disp W terms (MKey s) kw cn cnkw = Ok p ->
  run X W p a = Raise ValueError.
Proof.
  intros terms s kw cn cnkw p a Hs E.
  assert (P : p_inst p = None /\ casefold (p_key p) = "d5").
  { destruct Hs as [<-|[<-|[]]]; unfold new_disp in E; simpl in E;
    destruct cn; simpl in E; injection E as <-; auto. }
  destruct P as (Ei & Ek). unfold run, calculate, check_shape, get_model.
  destruct (shape_eqb _ _); cbn [negb raise_if bind]; [|reflexivity].
  rewrite Ei, Ek. reflexivity.
Qed.

(** "d3" passes construction and fails in every calculation that has a term: the D3 model has
    no reference weights. *)
Definition no_model_error (t : DispTerm N) : exn :=
  match t_class t with TwoBodyTerm => TypeError | _ => AttributeError end.

Theorem C18_d3_has_no_energy :
  forall (p : Disp N) a kind kw n c B t ts key,
  ext_tables X -> well_formed X W p a kind kw n c B ->
  p_terms p = t :: ts -> casefold key = "d3" -> k_rc6 kw = None ->
  run X W (mkDisp (p_terms p) (p_cn_fn p) (p_cn_kw p) key None kw) a = Raise (no_model_error t).
Proof.
  intros p a kind kw n c B t ts key HX WF ET EK Hrc.
  pose proof WF as WF'. destruct WF'. destruct wf_cn as (cn & Ecn & Scn).
  apply elements_in_range in wf_elements as (Hkn & Hr).
  assert (R4 : exists r4, match a_r4r2 a with None => get_r4r2 (a_numbers a) | Some r => Ok r end = Ok r4
            /\ shp r4 = n :: B).
  { destruct (a_r4r2 a) as [u|] eqn:E; [eauto|].
    destruct (gather1 (@R4R2 K) 119 (a_numbers a) R4R2_shp (in_range_119 _ _ Hr)) as (u & Et & St & _).
    exists u. split; [exact Et|]. congruence. }
  destruct R4 as (r4 & Er4 & Hr4).
  assert (RV : exists rv, match a_rvdw a with None => get_rvdw X (a_numbers a) | Some r => Ok r end = Ok rv
            /\ shp rv = n :: n :: B).
  { destruct (a_rvdw a) as [u|] eqn:E; [eauto|].
    pose proof HX as (nz & ng & nv & _ & _ & Sv & _ & _ & Lv).
    assert (Hr' : in_range nv (a_numbers a)).
    { eapply in_range_le; [|exact Hr]. unfold ref_limit. destruct (_ =? _)%string; lia. }
    destruct (gather_pair (x_vdw X) nv (a_numbers a) n B Sv wf_numbers Hr') as (u & Et & St & _).
    exists u. split; [exact Et|]. auto. }
  destruct RV as (rv & Erv & Hrv).
  destruct (get_refc6_ev X (a_numbers a) n B (default (k_ga kw) (flit GA_DEFAULT))
     (default (k_gc kw) (flit GC_DEFAULT)) _ HX Hkn wf_numbers Hr) as (rc6 & Erc6 & _).
  assert (EM : exists m, get_model X (mkDisp (p_terms p) (p_cn_fn p) (p_cn_kw p) key None kw) (a_numbers a) = Ok m
             /\ m_kind m = D3M).
  { unfold get_model. cbn [p_inst p_key p_kw]. rewrite EK. cbn [String.eqb Ascii.eqb Bool.eqb].
    unfold new_model. rewrite Hrc, Erc6. destruct (k_wf kw); cbn [bind get_wf]; eauto. }
  destruct EM as (m & Em & Hm).
  unfold run, calculate. rewrite Em. cbn [p_cn_fn p_cn_kw p_terms].
  rewrite wf_positions, wf_numbers. cbn [tl]. rewrite check_shape_ok. cbn [bind].
  assert (RC : match a_rcov a with None => Ok tt | Some rc => check_shape (n :: B) (shp rc) end = Ok tt).
  { destruct (a_rcov a); auto. simpl in wf_rcov. rewrite wf_rcov. apply check_shape_ok. }
  rewrite RC. cbn [bind]. rewrite Er4. cbn [bind]. rewrite Hr4, check_shape_ok. cbn [bind].
  rewrite Erv. cbn [bind]. rewrite Hrv. cbn [tl]. rewrite check_shape_ok. cbn [bind].
  rewrite Ecn. cbn [bind].
  assert (TE : forall q : option (tensor K), term_calculate X t (a_numbers a) (a_positions a) (a_param a) cn m q r4 rv
            (default (a_cutoff a) default_cutoff) = Raise (no_model_error t)).
  { intros q. unfold term_calculate, no_model_error, weight_references, weight_references_gen, abstract_model.
    rewrite Hm. destruct (t_class t); reflexivity. }
  destruct (a_q a) as [q|] eqn:EQ.
  - assert (NC : existsb (@t_cdep N) (p_terms p) = true).
    { apply needs_charges_b. apply wf_q_used. discriminate. }
    rewrite NC. cbn [negb raise_if bind]. simpl in wf_q. rewrite wf_q, check_shape_ok. cbn [bind].
    rewrite ET. cbn [sum_terms]. unfold tadd, lift2. cbn [t2r bind]. rewrite TE. reflexivity.
  - cbn [raise_if bind]. destruct (existsb (@t_cdep N) (p_terms p)) eqn:NC.
    + destruct wf_eeq as (q & Eq & Sq); auto. { now apply needs_charges_b. }
      unfold a_cut in Eq. rewrite Eq. cbn [bind]. rewrite Sq, check_shape_ok. cbn [bind].
      rewrite ET. cbn [sum_terms]. unfold tadd, lift2. cbn [t2r bind]. rewrite TE. reflexivity.
    + cbn [bind]. rewrite ET. cbn [sum_terms]. unfold tadd, lift2. cbn [t2r bind]. rewrite TE. reflexivity.
Qed.

(** A model instance is used as it is: keyword arguments given next to it are ignored. *)
Theorem C18_instance_used_as_is :
  forall (terms : list (DispTerm N)) m kw kw' cn cnkw,
  new_disp W terms (MInst m) kw (Some cn) cnkw = new_disp W terms (MInst m) kw' (Some cn) cnkw /\
  (exists p, new_disp W terms (MInst m) kw (Some cn) cnkw = Ok p /\
     forall numbers, get_model X p numbers = Ok m).
Proof. intros. split; [reflexivity|]. eexists. split; reflexivity. Qed.

(** *** C19: default coordination number function *)

(** the character occurs in the string *)
Definition occurs (c : ascii) (s : string) : Prop := exists k, get k s = Some c.

Lemma str_has_spec c s : str_has c s = true <-> occurs c s.
Proof.
  unfold occurs. induction s as [|c' s IH]; simpl.
  - split; [discriminate|]. intros ([|k] & H); discriminate.
  - destruct (Ascii.eqb_spec c c').
    + split; auto. intros _. exists 0. congruence.
    + rewrite IH. split; intros (k & H).
      * exists (S k). exact H.
      * destruct k as [|k]; [congruence|]. eauto.
Qed.

Theorem C19_default_cn_function :
  forall (terms : list (DispTerm N)) model kw cnkw,
  let name := match model with MKey s => casefold s | MInst m => m_cls m end in
  (forall s, model = MKey s -> In s model_names) ->
  (occurs "3" name -> exists p, new_disp W terms model kw None cnkw = Ok p /\ p_cn_fn p = w_cn_d3 W) /\
  (~ occurs "3" name -> occurs "4" name ->
     exists p, new_disp W terms model kw None cnkw = Ok p /\ p_cn_fn p = w_cn_d4 W) /\
  (~ occurs "3" name -> ~ occurs "4" name -> occurs "5" name ->
     exists p, new_disp W terms model kw None cnkw = Ok p /\ p_cn_fn p = w_cn_d3 W) /\
  (~ occurs "3" name -> ~ occurs "4" name -> ~ occurs "5" name ->
     new_disp W terms model kw None cnkw = Raise ValueError).
Proof.
  intros terms model kw cnkw name Hm.
  assert (F : forall c, ~ occurs c name -> str_has c name = false).
  { intros c H. destruct (str_has c name) eqn:E; auto. apply str_has_spec in E. contradiction. }
  assert (E : exists inst kw', match inst with Some m => m_cls m | None => name end = name /\
     new_disp W terms model kw None cnkw
     = (cnf <- pick_cn W name ;; Ok (mkDisp terms cnf cnkw
          (match model with MKey s => casefold s | MInst _ => "instance" end) inst kw'))).
  { destruct model as [s|m].
    - exists None, kw. split; auto. unfold new_disp. specialize (Hm s eq_refl).
      apply accepted_keys in Hm. rewrite Hm. reflexivity.
    - exists (Some m), no_kw. split; reflexivity. }
  destruct E as (inst & kw' & _ & ->). unfold pick_cn.
  split; [|split; [|split]].
  - intros H. apply str_has_spec in H. rewrite H. eexists. split; reflexivity.
  - intros H3 H. apply str_has_spec in H. rewrite (F "3"%char H3), H. eexists. split; reflexivity.
  - intros H3 H4 H. apply str_has_spec in H. rewrite (F "3"%char H3), (F "4"%char H4), H.
    eexists. split; reflexivity.
  - intros H3 H4 H5. rewrite (F "3"%char H3), (F "4"%char H4), (F "5"%char H5). reflexivity.
Qed.

(** ... so every string key has one: [cn_d3] for d3 and d5, [cn_d4] for d4 and d4s. *)
Theorem C19_by_key :
  forall (terms : list (DispTerm N)) s kw cnkw p,
  new_disp W terms (MKey s) kw None cnkw = Ok p ->
  (In s ["d3"; "D3"; "d5"; "D5"] /\ p_cn_fn p = w_cn_d3 W) \/
  (In s ["d4"; "D4"; "d4s"; "d4S"; "D4s"; "D4S"] /\ p_cn_fn p = w_cn_d4 W).
Proof.
  intros terms s kw cnkw p E.
  assert (Hs : In s model_names).
  { apply accepted_keys. unfold new_disp in E. destruct (str_in _ _); [reflexivity|discriminate]. }
  simpl in Hs. repeat (destruct Hs as [<-|Hs]; [cbn in E; injection E as <-; simpl; tauto|]). destruct Hs.
Qed.

(** *** C37: unknown reference charges *)
Theorem C37_unknown_reference_charges :
  forall kind cls numbers (kw : mkwargs N) n B,
  ref_known (default (k_ref kw) "eeq") = false -> shp numbers = n :: B ->
  (forall ix, valid (n :: B) ix -> (0 <= dat numbers ix <= 103)%Z) ->
  (k_rc6 kw = None -> new_model X kind cls numbers kw = Raise ValueError) /\
  (forall r, k_rc6 kw = Some r -> kind = D4M \/ kind = D4SM ->
     exists m, new_model X kind cls numbers kw = Ok m /\
       forall cn q d1 d2, weight_references_gen X m cn q d1 d2 = Raise ValueError).
Proof.
  intros kind cls numbers kw n B Hu Hs Hz.
  assert (H1 : (default (k_ref kw) "eeq" =? "eeq") = false).
  { unfold ref_known in Hu. apply orb_false_iff in Hu. tauto. }
  assert (H2 : (default (k_ref kw) "eeq" =? "gfn2") = false).
  { unfold ref_known in Hu. apply orb_false_iff in Hu. tauto. }
  assert (R104 : in_range 104 numbers). { intros i Hi. rewrite Hs in Hi. specialize (Hz i Hi). simpl. lia. }
  assert (R119 : in_range 119 numbers) by (eapply in_range_le; [|exact R104]; lia).
  assert (WF : exists w, match k_wf kw with Some w => Ok (Some w) | None => get_wf (K := K) kind numbers end = Ok w
               /\ (kind = D4M \/ kind = D4SM -> w <> None)).
  { destruct (k_wf kw) as [w|]; [exists (Some w); split; [auto|discriminate]|].
    destruct kind; cbn [get_wf].
    - exists None. split; auto. intros [?|?]; discriminate.
    - eexists. split; [reflexivity|discriminate].
    - destruct (gather_pair (@WFPAIR K) 119 numbers n B WFPAIR_shp Hs R119) as (w & -> & _).
      eexists. split; [reflexivity|discriminate].
    - rewrite Hs. eexists. split; [reflexivity|discriminate].
    - exists None. split; auto. intros [?|?]; discriminate. }
  destruct WF as (w & Ew & Hw). split.
  - intros Hr. unfold new_model. rewrite Ew, Hr. cbn [bind]. unfold get_refc6, get_alpha.
    destruct (gather2' refsys 7 104 numbers _ _ eq_refl (ten_eq _ _ eq_refl) R104) as (t1 & -> & _).
    cbn [bind].
    destruct (gather2' (@refascale K) 7 104 numbers _ _ eq_refl (ten_eq _ _ eq_refl) R104) as (t2 & -> & _).
    cbn [bind].
    destruct (gather3' (@refalpha K) 23 7 104 numbers _ _ eq_refl (ten_eq _ _ eq_refl) R104) as (t3 & -> & _).
    cbn [bind].
    destruct (gather2' (@refscount K) 7 104 numbers _ _ eq_refl (ten_eq _ _ eq_refl) R104) as (t4 & -> & _).
    cbn [bind]. rewrite H1, H2. reflexivity.
  - intros r Hr Hk. unfold new_model. rewrite Ew, Hr. cbn [bind]. eexists. split; [reflexivity|].
    intros cn q d1 d2. unfold weight_references_gen. cbn [m_kind m_wf m_numbers m_ref m_ga m_gc].
    destruct w as [w|]; [|exfalso; apply (Hw Hk); reflexivity].
    destruct Hk as [->| ->]; unfold d4_weight_references, d4s_weight_references, get_refq;
    rewrite H1, H2; reflexivity.
Qed.

End S.
Print Assumptions C18_accepted_models.
Print Assumptions C18_class_restriction_not_applied.
Print Assumptions C18_d5_always_fails.
Print Assumptions C18_d3_has_no_energy.
Print Assumptions C18_instance_used_as_is.
Print Assumptions C19_default_cn_function.
Print Assumptions C19_by_key.
Print Assumptions C37_unknown_reference_charges.
