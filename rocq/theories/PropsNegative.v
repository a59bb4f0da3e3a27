(** * Negative atomic numbers: C39 *)
From Coq Require Import List Arith Lia ZArith QArith Bool String FunctionalExtensionality.
From Verif Require Import Py Tensor Scalar ModelExt ModelUtils ModelDamping ModelModels
  SpecCall TensorLemmas EinsumLemmas Closed ClosedM ClosedModels CallLemmas PropsParams RInst Inst InstW.
Import ListNotations.
Open Scope py_scope.
Open Scope nat_scope.
Open Scope string_scope.

(** ** Specification *)
(** The element that a negative atomic number is taken for: Python indices count from the end of
    a table, and the reference tables have 104 rows, one per element from 0 (padding) to 103. *)
Definition taken_for (z : Z) : Z :=
  if ((-104 <=? z) && (z <? 0))%Z%bool then (z + 104)%Z else z.

Definition all_taken_for (numbers : tensor Z) : tensor Z :=
  mkT (shp numbers) (fun ix => taken_for (dat numbers ix)).

Definition indexable (numbers : tensor Z) : Prop :=
  forall ix, valid (shp numbers) ix -> (-104 <= dat numbers ix <= 103)%Z.

(** ** Lemmas *)
Lemma taken_wrap z : wrap_index 104 (taken_for z) = wrap_index 104 z.
Proof.
  unfold wrap_index, taken_for. change (Z.of_nat 104) with 104%Z.
  destruct (Z.leb_spec (-104) z) as [H|H]; destruct (Z.ltb_spec z 0) as [H'|H']; cbn [andb]; auto.
  destruct (Z.leb_spec 0 (z + 104)); [|lia]. destruct (Z.ltb_spec (z + 104) 104); [|lia].
  destruct (Z.leb_spec 0 z); [lia|]. destruct (Z.leb_spec (-(104)) z); [reflexivity|lia].
Qed.

Lemma taken_gather {A} (T : tensor A) rest (numbers : tensor Z) : shp T = (rest ++ [104])%list ->
  gather T (all_taken_for numbers) = gather T numbers.
Proof.
  intros HT. unfold gather. destruct (shp T) as [|s0 s'] eqn:E; [destruct rest; discriminate|].
  rewrite HT, removelast_last, last_last. cbn [shp dat all_taken_for].
  assert (W : forall z, wrapped 104 (taken_for z) = wrapped 104 z)
    by (intros; unfold wrapped; now rewrite taken_wrap).
  assert (I : forall z, index_ok 104 (taken_for z) = index_ok 104 z)
    by (intros; unfold index_ok; now rewrite taken_wrap).
  replace (fun i => index_ok 104 (taken_for (dat numbers i)))
    with (fun i => index_ok 104 (dat numbers i)) by (apply functional_extensionality; intros; now rewrite I).
  destruct (forallb _ _); [|reflexivity].
  do 2 f_equal. apply functional_extensionality. intros i. now rewrite W.
Qed.

Section C.
Context {N : Num} (X : Ext (sc N)).
Notation K := (sc N).

Lemma taken_refc6 numbers (ga gc : K) :
  get_refc6 X (all_taken_for numbers) ga gc "eeq" = get_refc6 X numbers ga gc "eeq".
Proof.
  unfold get_refc6, get_alpha. cbn [String.eqb Ascii.eqb Bool.eqb].
  rewrite (taken_gather refsys [7] numbers eq_refl).
  rewrite (taken_gather (@refascale K) [7] numbers eq_refl).
  rewrite (taken_gather (@refalpha K) [23; 7] numbers eq_refl).
  rewrite (taken_gather (@refscount K) [7] numbers eq_refl).
  rewrite (taken_gather (@eeq_clsh K) [7] numbers eq_refl).
  reflexivity.
Qed.

Lemma taken_elements numbers : indexable numbers -> elements_ok "eeq" (all_taken_for numbers).
Proof.
  intros H. left. split; auto. intros ix Hix. cbn [dat all_taken_for]. specialize (H ix Hix).
  unfold taken_for. destruct (Z.leb_spec (-104) (dat numbers ix)); [|lia].
  destruct (Z.ltb_spec (dat numbers ix) 0); cbn [andb]; lia.
Qed.

Lemma pair_indices (numbers : tensor Z) n B : shp numbers = n :: B ->
  exists t1 t2 u, unsqueeze 1 numbers = Ok t1 /\ unsqueeze 2 numbers = Ok t2 /\
    tmap2 (fun a b => (a, b)) t1 t2 = Ok u /\ shp u = n :: n :: B /\
    forall j i b, valid (n :: n :: B) (j :: i :: b) ->
      dat u (j :: i :: b) = (dat numbers (i :: b), dat numbers (j :: b)).
Proof.
  intros Hs. assert (T := ten_eq _ _ Hs).
  assert (E1 : ev (unsqueeze 1 numbers) (1 :: n :: B) (fun i => dat numbers (tl i))).
  { eapply ev_conv; [ev_go|]. intros i Hi. destruct i; reflexivity. }
  assert (E2 : ev (unsqueeze 2 numbers) (n :: 1 :: B) (fun i => dat numbers (hd 0 i :: tl (tl i)))).
  { eapply ev_conv; [ev_go|]. intros i Hi. vdes. reflexivity. }
  assert (E3 : ev (lift2 (fun a b => (a, b)) (unsqueeze 1 numbers) (unsqueeze 2 numbers)) (n :: n :: B)
     (fun i => (dat numbers (tl i), dat numbers (hd 0 i :: tl (tl i))))).
  { ev_to. reflexivity. }
  destruct E3 as (u & E & Su & Du). destruct E1 as (t1 & E1 & _). destruct E2 as (t2 & E2 & _).
  unfold lift2 in E. rewrite E1, E2 in E. cbn [bind] in E.
  exists t1, t2, u. repeat (split; [assumption|]). intros j i b V. now rewrite (Du _ V).
Qed.

Lemma wf_cases kind (numbers : tensor Z) n B : kind = D4M \/ kind = D4SM -> shp numbers = n :: B ->
  indexable numbers -> exists w, @get_wf K kind numbers = Ok (Some w).
Proof.
  intros Hk Hs H. destruct Hk as [->| ->]; cbn [get_wf]; [eauto|].
  destruct (pair_indices numbers n B Hs) as (t1 & t2 & u & E1 & E2 & E & Su & Du).
  unfold gather2, lift2. rewrite E1, E2. cbn [bind]. rewrite E. cbn [bind]. rewrite WFPAIR_shp.
  assert (F : forallb (fun i => index_ok 119 (fst (dat u i)) && index_ok 119 (snd (dat u i))) (all_idx (shp u)) = true).
  { apply forallb_forall. intros i Hi. apply all_idx_in in Hi. rewrite Su in Hi.
    destruct i as [|j [|k b]]; try (simpl in Hi; tauto).
    rewrite (Du _ _ _ Hi). cbn [fst snd]. destruct Hi as (Hj & Hk & Hb).
    assert (R : forall z, (-104 <= z <= 103)%Z -> index_ok 119 z = true).
    { intros z Hz. unfold index_ok, wrap_index. change (Z.of_nat 119) with 119%Z.
      destruct (Z.leb_spec 0 z); [destruct (Z.ltb_spec z 119)|destruct (Z.leb_spec (-(119)) z)]; auto; lia. }
    rewrite !R; auto; apply H; rewrite Hs; split; auto. }
  rewrite F. cbn [bind]. eauto.
Qed.

(** ** Theorems *)
(** a model is built exactly for the numbers -104..103; it has the reference C6 coefficients of the
    elements these numbers are taken for, so a negative number is not noticed *)
Theorem C39_accepted_numbers :
  forall kind cls numbers (kw : mkwargs N) n B,
  ext_tables X -> kind = D4M \/ kind = D4SM -> shp numbers = n :: B -> kw_ok kind kw n B ->
  default (k_ref kw) "eeq" = "eeq" -> indexable numbers ->
  exists m m', new_model X kind cls numbers kw = Ok m /\
    new_model X kind cls (all_taken_for numbers) kw = Ok m' /\
    elements_ok "eeq" (all_taken_for numbers) /\ m_rc6 m = m_rc6 m'.
Proof.
  intros kind cls numbers kw n B HX Hk Hs Hkw Hr Hi.
  assert (He := taken_elements _ Hi).
  destruct (new_model_ok X kind cls (all_taken_for numbers) kw n B HX Hk Hs Hkw) as (m' & Em' & _);
    [now rewrite Hr|].
  destruct (wf_cases kind numbers n B Hk Hs Hi) as (w & Ew).
  assert (Em : exists m, new_model X kind cls numbers kw = Ok m /\ m_rc6 m = m_rc6 m').
  { revert Em'. unfold new_model. rewrite Hr, (proj1 Hkw), taken_refc6.
    destruct (get_refc6 X numbers _ _ _) as [r|e].
    - destruct (k_wf kw) as [u|].
      + cbn [bind]. intros [= <-]. eexists. split; reflexivity.
      + rewrite Ew. destruct (get_wf kind (all_taken_for numbers)); cbn [bind]; [|discriminate].
        intros [= <-]. eexists. split; reflexivity.
    - intros Em. exfalso. revert Em. destruct (k_wf kw); [discriminate|].
      destruct (get_wf kind (all_taken_for numbers)); discriminate. }
  destruct Em as (m & Em & Hm). exists m, m'. auto.
Qed.

Theorem C39_rejected_numbers :
  forall kind cls numbers (kw : mkwargs N) n B,
  kind = D4M \/ kind = D4SM -> shp numbers = n :: B -> k_rc6 kw = None ->
  default (k_ref kw) "eeq" = "eeq" ->
  (exists ix, valid (shp numbers) ix /\ ~ (-104 <= dat numbers ix <= 103)%Z) ->
  new_model X kind cls numbers kw = Raise IndexError.
Proof.
  intros kind cls numbers kw n B Hk Hs Hrc Hr (ix & Hix & Hz). unfold new_model. rewrite Hrc, Hr.
  assert (RC : forall ga gc, get_refc6 X numbers ga gc "eeq" = Raise IndexError).
  { intros. unfold get_refc6, get_alpha.
    rewrite (gather_out_of_range refsys [7] 104 numbers ix eq_refl Hix); [reflexivity|].
    unfold index_ok, wrap_index. change (Z.of_nat 104) with 104%Z.
    destruct (Z.leb_spec 0 (dat numbers ix));
      [destruct (Z.ltb_spec (dat numbers ix) 104)|destruct (Z.leb_spec (-(104)) (dat numbers ix))];
      auto; lia. }
  rewrite RC. destruct (k_wf kw) as [u|]; [reflexivity|].
  destruct Hk as [->| ->]; cbn [get_wf]; [reflexivity|].
  destruct (pair_indices numbers n B Hs) as (t1 & t2 & u & E1 & E2 & E & Su & Du).
  unfold gather2, lift2. rewrite E1, E2. cbn [bind]. rewrite E. cbn [bind]. rewrite WFPAIR_shp.
  destruct (forallb _ _); reflexivity.
Qed.

End C.
Print Assumptions C39_accepted_numbers.
Print Assumptions C39_rejected_numbers.

(** ** A concrete case: -1 beside oxygen is accepted and taken for element 103; -105 is refused *)
Section E.
Context (eps mx : Rdefinitions.R).
Notation N := (RN eps mx).
Definition neg (z : Z) : tensor Z := mkT [2] (fun ix => match ix with [1] => z | _ => 8%Z end).

Example C39_negative_example :
  (exists m m', new_model (N := N) (Xex eps mx) D4M "D4Model" (neg (-1)) no_kw = Ok m /\
    new_model (N := N) (Xex eps mx) D4M "D4Model" (all_taken_for (neg (-1))) no_kw = Ok m' /\
    dat (all_taken_for (neg (-1))) [1] = 103%Z /\ m_rc6 m = m_rc6 m') /\
  new_model (N := N) (Xex eps mx) D4SM "D4SModel" (neg (-105)) no_kw = Raise IndexError.
Proof.
  split.
  - destruct (C39_accepted_numbers (N := N) (Xex eps mx) D4M "D4Model" (neg (-1)) no_kw 2 []) as (m & m' & E & E' & _ & H).
    + apply Xex_tables.
    + auto.
    + reflexivity.
    + split; reflexivity || exact I.
    + reflexivity.
    + intros ix Hix. destruct ix as [|[|[|x]] [|y r]]; simpl; lia.
    + exists m, m'. auto.
  - apply (C39_rejected_numbers (N := N) (Xex eps mx) D4SM "D4SModel" (neg (-105)) no_kw 2 []); auto.
    exists [1]. split; [simpl; lia|]. simpl. lia.
Qed.
End E.
