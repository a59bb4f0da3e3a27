(** * Damping parameters and supported elements *)
From Coq Require Import List Arith ZArith QArith Bool String Lia.
From Verif Require Import Py Tensor Scalar ModelExt ModelUtils ModelDamping ModelModels
  ModelTerms ModelDisp SpecCall TensorLemmas EinsumLemmas Closed ClosedM ClosedTerms ClosedModels
  ClosedDamp ClosedDisp CallLemmas PropsCall.
Import ListNotations.
Open Scope py_scope.
Open Scope nat_scope.
Open Scope string_scope.

(** ** Specification *)
(** The parameter names a damping function understands. *)
Definition known_names : list string :=
  ["a1"; "a2"; "s6"; "rs6"; "s8"; "rs8"; "s9"; "rs9"; "s10"; "alp"; "bet"; "doi"].

(** The names that have a default value in a damping call. *)
Definition defaulted (k : string) : Prop := In k ["s6"; "s9"; "rs9"; "alp"].

Definition known_param {K : Scalar} (param : Param K) : Prop :=
  forall k v, In (k, v) param -> In k known_names.

(** Parameter [k] is missing: not given (and without default), or given as [None]. *)
Definition missing {K : Scalar} (param : Param K) (k : string) : Prop :=
  (dget param k = None /\ ~ defaulted k) \/ dget param k = Some PNone.

(** Parameters needed for the given order. *)
Definition rational_needs (o : nat) (k : string) : Prop := In o [6; 8; 10] /\ In k ["a1"; "a2"].
Definition zero_needs (o : nat) (k : string) : Prop :=
  (In o [6; 8; 9] /\ k = "alp") \/ (o = 6 /\ k = "rs6") \/ (o = 8 /\ k = "rs8") \/ (o = 9 /\ k = "rs9").
Definition mzero_needs (o : nat) (k : string) : Prop :=
  (In o [6; 8] /\ In k ["alp"; "bet"]) \/ (o = 6 /\ k = "rs6") \/ (o = 8 /\ k = "rs8").
Definition op_needs (o : nat) (k : string) : Prop := In o [6; 8] /\ In k ["a1"; "a2"; "bet"].

(** The order is switched off: no scaling parameter for it (then the result is zero). *)
Definition switched_off {K : Scalar} (param : Param K) (o : nat) : Prop :=
  (o = 6 /\ missing param "s6" /\ missing param "rs6") \/
  (o = 8 /\ missing param "s8" /\ missing param "rs8") \/
  (o = 9 /\ missing param "s9" /\ missing param "rs9") \/
  (o = 10 /\ missing param "s10").

(** ** Proofs *)
Section P.
Context {K : Scalar} (X : Ext K).

Lemma bind_known (param : Param K) : known_param param ->
  exists a, bind_call param = Ok a /\
    forall k, In k known_names -> k <> "doi" -> (is_none (arg a k) = true <-> missing param k).
Proof.
  intros H. unfold bind_call.
  replace (forallb _ param) with true.
  2:{ symmetry. apply forallb_forall. intros [k v] Hin. unfold str_in. apply existsb_exists.
      exists k. split; [exact (H k v Hin)|apply String.eqb_refl]. }
  eexists. split; [reflexivity|].
  assert (Q : forall k, ~ defaulted k ->
     (is_none (default (dget param k) PNone) = true <-> missing param k)).
  { intros k Hk. unfold missing. destruct (dget param k) as [[t| |s]|]; simpl; split; intros; auto;
    try discriminate; destruct H0 as [[? ?]|?]; discriminate. }
  assert (Q' : forall k q, defaulted k ->
     (is_none (default (dget param k) (lit_p q)) = true <-> missing param k)).
  { intros k q Hk. unfold missing. destruct (dget param k) as [[t| |s]|]; simpl; split; intros; auto;
    try discriminate; destruct H0 as [[? ?]|?]; try discriminate; contradiction. }
  assert (ND : forall k, In k ["a1"; "a2"; "rs6"; "s8"; "rs8"; "s10"; "bet"] -> ~ defaulted k).
  { intros k Hk Hd. unfold defaulted in Hd. simpl in Hk, Hd.
    repeat (destruct Hk as [<-|Hk]; [destruct Hd as [?|[?|[?|[?|[]]]]]; discriminate|]). destruct Hk. }
  intros k Hk Hdoi. simpl in Hk.
  repeat (destruct Hk as [<-|Hk];
    [cbn; first [apply Q; apply ND; simpl; tauto | apply Q'; unfold defaulted; simpl; tauto
                | exfalso; apply Hdoi; reflexivity]|]).
  destruct Hk.
Qed.

Lemma call_unfold (d : Damping K) dist radii o only param : known_param param ->
  exists a, bind_call param = Ok a /\
    (forall k, In k known_names -> k <> "doi" -> (is_none (arg a k) = true <-> missing param k)) /\
    (switched_off param o -> damping_call d dist radii o only param = Ok (zeros_like dist)) /\
    (~ switched_off param o ->
       damping_call d dist radii o only param = checked_f d dist radii o a only).
Proof.
  intros H. destruct (bind_known param H) as (a & E & Q). exists a. split; auto. split; auto.
  assert (N6 := Q "s6" ltac:(simpl; tauto) ltac:(discriminate)).
  assert (N6' := Q "rs6" ltac:(simpl; tauto) ltac:(discriminate)).
  assert (N8 := Q "s8" ltac:(simpl; tauto) ltac:(discriminate)).
  assert (N8' := Q "rs8" ltac:(simpl; tauto) ltac:(discriminate)).
  assert (N9 := Q "s9" ltac:(simpl; tauto) ltac:(discriminate)).
  assert (N9' := Q "rs9" ltac:(simpl; tauto) ltac:(discriminate)).
  assert (N10 := Q "s10" ltac:(simpl; tauto) ltac:(discriminate)).
  cbn in N6, N6', N8, N8', N9, N9', N10.
  unfold damping_call. rewrite E. cbn [bind]. unfold damping_call_args, switched_off.
  split.
  - intros [(-> & H1 & H2)|[(-> & H1 & H2)|[(-> & H1 & H2)|(-> & H1)]]]; cbn.
    + apply N6 in H1. apply N6' in H2. now rewrite H1, H2.
    + apply N8 in H1. apply N8' in H2. now rewrite H1, H2.
    + apply N9 in H1. apply N9' in H2. now rewrite H1, H2.
    + apply N10 in H1. now rewrite H1.
  - intros NS.
    destruct (Nat.eqb_spec o 6); [subst; cbn|destruct (Nat.eqb_spec o 8); [subst; cbn|
      destruct (Nat.eqb_spec o 9); [subst; cbn|destruct (Nat.eqb_spec o 10); [subst; cbn|reflexivity]]]].
    + destruct (is_none (g_s6 a) && is_none (g_rs6 a)) eqn:B; auto. exfalso. apply NS.
      apply andb_true_iff in B as [B1 B2]. left. rewrite <- N6, <- N6'. auto.
    + destruct (is_none (g_s8 a) && is_none (g_rs8 a)) eqn:B; auto. exfalso. apply NS.
      apply andb_true_iff in B as [B1 B2]. right; left. rewrite <- N8, <- N8'. auto.
    + destruct (is_none (g_s9 a) && is_none (g_rs9 a)) eqn:B; auto. exfalso. apply NS.
      apply andb_true_iff in B as [B1 B2]. do 2 right; left. rewrite <- N9, <- N9'. auto.
    + destruct (is_none (g_s10 a)) eqn:B; auto. exfalso. apply NS.
      do 3 right. rewrite <- N10. auto.
Qed.

(** *** C24: validation of the parameters of a damping call *)
Theorem C24_unknown_name_raises :
  forall (d : Damping K) dist radii o only (param : Param K) k v,
  In (k, v) param -> ~ In k known_names ->
  damping_call d dist radii o only param = Raise TypeError.
Proof.
  intros d dist radii o only param k v Hin Hk. unfold damping_call, bind_call.
  replace (forallb _ param) with false; [reflexivity|]. symmetry. apply not_true_is_false. intros F.
  rewrite forallb_forall in F. apply F in Hin. simpl fst in Hin.
  unfold str_in in Hin. apply existsb_exists in Hin as (k' & Hin & E). apply String.eqb_eq in E.
  subst. contradiction.
Qed.

Lemma required_raises (d : Damping K) dist radii o only param k :
  known_param param -> ~ switched_off param o -> In k (d_required d o) -> In k known_names ->
  k <> "doi" -> missing param k -> damping_call d dist radii o only param = Raise TypeError.
Proof.
  intros H NS Hr Hk Hd Hm. destruct (call_unfold d dist radii o only param H) as (a & _ & Q & _ & C).
  rewrite (C NS). unfold checked_f.
  replace (existsb _ _) with true; [reflexivity|]. symmetry. apply existsb_exists. exists k.
  split; auto. apply Q; auto.
Qed.

Theorem C24_missing_parameter_raises :
  forall dist radii o only (param : Param K) k,
  known_param param -> ~ switched_off param o -> missing param k ->
  (rational_needs o k -> damping_call RationalDamping dist radii o only param = Raise TypeError) /\
  (zero_needs o k -> damping_call (ZeroDamping X) dist radii o only param = Raise TypeError) /\
  (mzero_needs o k -> damping_call (MZeroDamping X) dist radii o only param = Raise TypeError) /\
  (op_needs o k -> damping_call OptimisedPowerDamping dist radii o only param = Raise TypeError).
Proof.
  intros dist radii o only param k H NS Hm.
  assert (G : forall d : Damping K, In k (d_required d o) -> In k known_names -> k <> "doi" ->
     damping_call d dist radii o only param = Raise TypeError).
  { intros. eapply required_raises; eauto. }
  unfold rational_needs, zero_needs, mzero_needs, op_needs. simpl.
  split; [|split; [|split]]; intros HN; apply G; clear G;
  repeat match goal with
  | H : _ /\ _ |- _ => destruct H
  | H : _ \/ _ |- _ => destruct H
  | H : False |- _ => destruct H
  end; subst; simpl; try tauto; try discriminate.
Qed.

(** an order that is switched off gives zero, whatever else is missing *)
Theorem C24_switched_off_is_zero :
  forall (d : Damping K) dist radii o only (param : Param K),
  known_param param -> switched_off param o ->
  exists t, damping_call d dist radii o only param = Ok t /\ shp t = shp dist /\
    forall ix, dat t ix = flit 0.
Proof.
  intros d dist radii o only param H S.
  destruct (call_unfold d dist radii o only param H) as (a & _ & _ & C & _).
  rewrite (C S). eexists. split; [reflexivity|]. split; reflexivity.
Qed.

(** orders that a function does not implement *)
Theorem C24_unimplemented_order :
  forall dist radii o only (param : Param K),
  known_param param -> ~ switched_off param o -> (forall k, In k known_names -> ~ missing param k \/ k = "doi") ->
  (~ In o [6; 8; 9] -> damping_call (ZeroDamping X) dist radii o only param = Raise ValueError) /\
  (~ In o [6; 8] -> damping_call (MZeroDamping X) dist radii o only param = Raise ValueError) /\
  (~ In o [6; 8] -> damping_call OptimisedPowerDamping dist radii o only param = Raise ValueError).
Proof.
  intros dist radii o only param H NS HA.
  assert (P : forall d : Damping K, exists a, damping_call d dist radii o only param
                = checked_f d dist radii o a only /\ forall k, In k known_names -> k <> "doi" -> is_none (arg a k) = false).
  { intros d. destruct (call_unfold d dist radii o only param H) as (a & _ & Q & _ & C).
    exists a. split; [auto|]. intros k Hk Hd. destruct (is_none (arg a k)) eqn:E; auto.
    apply (Q k Hk Hd) in E. destruct (HA k Hk); [contradiction|congruence]. }
  assert (E : forall (a : dargs K) l, (forall k, In k l -> is_none (arg a k) = false) ->
            existsb (fun name => is_none (arg a name)) l = false).
  { intros a l Hl. apply not_true_is_false. intros F. apply existsb_exists in F as (k & Hk & F).
    rewrite Hl in F by auto. discriminate. }
  split; [|split]; intros Ho.
  - destruct (P (ZeroDamping X)) as (a & -> & Q). unfold checked_f.
    assert (R : d_required (ZeroDamping X) o = []).
    { cbn. do 10 (destruct o as [|o]; [try reflexivity; exfalso; apply Ho; simpl; auto 6|]). reflexivity. }
    rewrite R. cbn [existsb]. cbn [d_f ZeroDamping]. unfold zero_f, assert_some.
    rewrite (Q "alp" ltac:(simpl; tauto) ltac:(discriminate) : is_none (g_alp a) = false). cbn [raise_if bind].
    do 10 (destruct o as [|o]; [try reflexivity; exfalso; apply Ho; simpl; auto 6|]). reflexivity.
  - destruct (P (MZeroDamping X)) as (a & -> & Q). unfold checked_f.
    assert (R : d_required (MZeroDamping X) o = []).
    { cbn. do 9 (destruct o as [|o]; [try reflexivity; exfalso; apply Ho; simpl; auto 6|]). reflexivity. }
    rewrite R. cbn [existsb]. cbn [d_f MZeroDamping]. unfold mzero_f, assert_some.
    rewrite (Q "alp" ltac:(simpl; tauto) ltac:(discriminate) : is_none (g_alp a) = false). cbn [raise_if bind].
    rewrite (Q "bet" ltac:(simpl; tauto) ltac:(discriminate) : is_none (g_bet a) = false). cbn [raise_if bind].
    do 9 (destruct o as [|o]; [try reflexivity; exfalso; apply Ho; simpl; auto 6|]). reflexivity.
  - destruct (P OptimisedPowerDamping) as (a & -> & Q). unfold checked_f.
    assert (R : d_required (K := K) OptimisedPowerDamping o = []).
    { cbn. do 9 (destruct o as [|o]; [try reflexivity; exfalso; apply Ho; simpl; auto 6|]). reflexivity. }
    rewrite R. cbn [existsb]. cbn [d_f OptimisedPowerDamping]. unfold op_f, assert_some.
    rewrite (Q "a1" ltac:(simpl; tauto) ltac:(discriminate) : is_none (g_a1 a) = false). cbn [raise_if bind].
    rewrite (Q "a2" ltac:(simpl; tauto) ltac:(discriminate) : is_none (g_a2 a) = false). cbn [raise_if bind].
    rewrite (Q "bet" ltac:(simpl; tauto) ltac:(discriminate) : is_none (g_bet a) = false). cbn [raise_if bind].
    destruct (Nat.eqb_spec o 6); [exfalso; apply Ho; simpl; auto 6|].
    destruct (Nat.eqb_spec o 8); [exfalso; apply Ho; simpl; auto 6|]. reflexivity.
Qed.

Lemma dispersion2_raises numbers positions param c6 r4r2 rvdw (d : Damping K) cutoff n c B e m :
  shp numbers = n :: B -> shp positions = c :: n :: B -> shp c6 = n :: n :: B -> shp r4r2 = n :: B ->
  radius_ok d rvdw (n :: n :: B) -> shp (default cutoff (scal (flit D4_DISP2_CUTOFF))) = [] ->
  (forall dist radii, damping_call d dist radii 6 false param = Raise e) ->
  dispersion2 X numbers positions param c6 r4r2 rvdw d cutoff m = Raise e.
Proof.
  intros Hn Hp Hc Hr Hrad Hcut HE.
  apply ten_eq in Hc as Tc. apply ten_eq in Hr as Tr.
  unfold dispersion2.
  destruct (ev_real_pairs numbers n B Hn) as (mask & -> & Hm). cbn [bind].
  assert (ED : ev (twhere mask (cdist X positions positions) (scal feps)) (n :: n :: B)
                  (ix2 (fun j i b => pdist X c (sl1 numbers b) (sl2 positions b) i j))).
  { eapply ev_conv.
    - eapply ev_where; [ev_go | eapply ev_cdist; eauto | ev_go | bshape_solve | bshape_solve].
    - vsimp. reflexivity. }
  destruct ED as (dist & -> & Hd). cbn [bind].
  assert (EQ : ev (tmul (tmul (tlit 3) (unsqueeze 1 r4r2)) (unsqueeze 2 r4r2)) (n :: n :: B)
                  (ix2 (fun j i b => qq (sl1 r4r2 b) i j))). { ev_to. reflexivity. }
  destruct EQ as (q & -> & Hq). cbn [bind].
  assert (E8 : ev (tmul c6 q) (n :: n :: B) (ix2 (fun j i b => c8v (sl2 c6 b) (sl1 r4r2 b) i j))).
  { ev_to. reflexivity. }
  destruct E8 as (c8 & -> & Hc8). cbn [bind].
  assert (ER : exists radii, (if d_radius_type d =? "rvdw"
                 then match rvdw with Some r => Ok r | None => Raise ValueError end
                 else if d_radius_type d =? "r4r2" then Ok q else Raise ValueError) = Ok radii).
  { destruct Hrad as [Er | (Er & v & -> & Hv)]; rewrite Er; simpl; eauto. }
  destruct ER as (radii & ->). cbn [bind].
  apply ten_scalar in Hcut.
  assert (EM : ev (tand mask (tle dist (default cutoff (scal (flit D4_DISP2_CUTOFF))))) (n :: n :: B)
     (ix2 (fun j i b => pmask (sl1 numbers b) i j && fle (pdist X c (sl1 numbers b) (sl2 positions b) i j)
            (dat (default cutoff (scal (flit D4_DISP2_CUTOFF))) [])))).
  { ev_to. reflexivity. }
  destruct EM as (mk & EM & _). unfold twhere at 1. unfold lift2 at 1 2. rewrite EM, HE. reflexivity.
Qed.
End P.

Section W.
Context {N : Num} (X : Ext (sc N)) (W : World N).
Notation K := (sc N).

(** The same call with other parameters, the first term being a two-body term whose damping
    function refuses the parameters: the call raises. *)
Lemma first_two_body_raises (p : Disp N) a kind kw n c B t ts param e :
  ext_tables X -> well_formed X W p a kind kw n c B ->
  p_terms p = t :: ts -> t_class t = TwoBodyTerm ->
  (forall dist radii, damping_call (t_damping t) dist radii 6 false param = Raise e) ->
  run X W p (set_param a param) = Raise e.
Proof.
  intros HX WF ET EC HE.
  destruct (run_steps X W p a kind kw n c B HX WF) as (m & cn & qo & r4 & rv & Hm & Scn & Sq & S4 & SV & R).
  rewrite R, ET. cbn [sum_terms]. unfold tadd, lift2. cbn [t2r bind].
  unfold term_calculate. rewrite EC.
  assert (Sq' : cnq_ok (if t_cdep t then qo else None) (n :: B)) by (destruct (t_cdep t); simpl; auto).
  destruct (weight_references_ev X m n B (Some cn) (if t_cdep t then qo else None) (proj1 Hm) Scn Sq') as (w & -> & Hw).
  cbn [bind].
  destruct (get_atomic_c6_ev X m n B (Some cn) _ w (proj1 Hm) Hw) as (c6 & -> & Hc6). cbn [bind].
  destruct (wf_terms _ _ _ _ _ _ _ _ _ WF t) as (F & HF). { rewrite ET. left. auto. }
  unfold term_ok in HF. rewrite EC in HF. destruct HF as (Hrt & _).
  rewrite (dispersion2_raises X (a_numbers a) (a_positions a) param c6 r4 (Some rv) (t_damping t)
     (Some (c_disp2 (a_cut a))) n c B e false); auto.
  - apply WF.
  - apply WF.
  - apply Hc6.
  - destruct Hrt as [E|E]; [left|right]; auto. split; auto. eauto.
  - apply WF.
Qed.

(** [DispD4] and [dftd4] without [a1] or [a2], or with an unknown parameter name, raise
    [TypeError]; the default values declared for [a1] and [a2] are not used. *)
Theorem C24_d4_needs_a1_a2 :
  forall (p : Disp N) a kind kw n c B damp ts param,
  ext_tables X -> well_formed X W p a kind kw n c B ->
  p_terms p = mkTerm TwoBodyTerm damp true :: ts -> damp = RationalDamping ->
  known_param param -> missing param "a1" \/ missing param "a2" -> ~ switched_off param 6 ->
  run X W p (set_param a param) = Raise TypeError.
Proof.
  intros p a kind kw n c B damp ts param HX WF ET -> HK HM HS.
  eapply first_two_body_raises; eauto. intros dist radii. cbn [t_damping].
  destruct HM as [HM|HM].
  - apply (C24_missing_parameter_raises X dist radii 6 false param "a1" HK HS HM). split; simpl; tauto.
  - apply (C24_missing_parameter_raises X dist radii 6 false param "a2" HK HS HM). split; simpl; tauto.
Qed.

Theorem C24_unknown_name_in_call :
  forall (p : Disp N) a kind kw n c B t ts param k v,
  ext_tables X -> well_formed X W p a kind kw n c B ->
  p_terms p = t :: ts -> t_class t = TwoBodyTerm ->
  In (k, v) param -> ~ In k known_names ->
  run X W p (set_param a param) = Raise TypeError.
Proof.
  intros. eapply first_two_body_raises; eauto. intros. eapply C24_unknown_name_raises; eauto.
Qed.

(** *** C39: supported elements *)
Theorem C39_supported_elements :
  forall kind cls numbers (kw : mkwargs N) n B cn q,
  ext_tables X -> kind = D4M \/ kind = D4SM -> shp numbers = n :: B -> kw_ok kind kw n B ->
  elements_ok (default (k_ref kw) "eeq") numbers -> opt_shape cn (n :: B) -> opt_shape q (n :: B) ->
  exists m gw c6, new_model X kind cls numbers kw = Ok m /\ weight_references X m cn q = Ok gw /\
    get_atomic_c6 m gw = Ok c6 /\ shp c6 = n :: n :: B.
Proof.
  intros kind cls numbers kw n B cn q HX Hk Hs Hkw He Hc Hq.
  destruct (new_model_ok X kind cls numbers kw n B HX Hk Hs Hkw He) as (m & Em & Hm).
  destruct (weight_references_ev X m n B cn q (proj1 Hm) Hc Hq) as (w & Ew & Hw).
  destruct (get_atomic_c6_ev X m n B cn _ w (proj1 Hm) Hw) as (c6 & E6 & H6 & _).
  exists m, w, c6. auto.
Qed.

Lemma gather_cases {A} (T : tensor A) ix :
  gather T ix = Raise IndexError \/ exists t, gather T ix = Ok t.
Proof. unfold gather. destruct (shp T); auto. destruct (forallb _ _); eauto. Qed.

Lemma too_big n z : (Z.of_nat n <= z)%Z -> index_ok n z = false.
Proof.
  intros H. unfold index_ok, wrap_index.
  destruct (Z.leb_spec 0 z); [|lia]. destruct (Z.ltb_spec z (Z.of_nat n)); [lia|]. reflexivity.
Qed.

(** an element beyond the limit: the model cannot be built *)
Theorem C39_too_heavy_elements :
  forall kind cls numbers (kw : mkwargs N) ix,
  kind = D4M \/ kind = D4SM -> k_rc6 kw = None -> k_wf kw = None -> valid (shp numbers) ix ->
  (default (k_ref kw) "eeq" = "eeq" /\ (104 <= dat numbers ix)%Z) \/
  (default (k_ref kw) "eeq" = "gfn2" /\ (87 <= dat numbers ix)%Z) ->
  (exists n B, shp numbers = n :: B) ->
  new_model X kind cls numbers kw = Raise IndexError.
Proof.
  intros kind cls numbers kw ix Hk Hrc Hwf Hix Hz (n & B & Hs). unfold new_model. rewrite Hrc, Hwf.
  assert (RC : get_refc6 X numbers (default (k_ga kw) (flit GA_DEFAULT)) (default (k_gc kw) (flit GC_DEFAULT))
            (default (k_ref kw) "eeq") = Raise IndexError).
  { unfold get_refc6, get_alpha.
    destruct (gather_cases refsys numbers) as [->|(t1 & E1)]; [reflexivity|]. rewrite E1. cbn [bind].
    destruct (gather_cases (@refascale K) numbers) as [->|(t2 & ->)]; [reflexivity|]. cbn [bind].
    destruct (gather_cases (@refalpha K) numbers) as [->|(t3 & ->)]; [reflexivity|]. cbn [bind].
    destruct (gather_cases (@refscount K) numbers) as [->|(t4 & ->)]; [reflexivity|]. cbn [bind].
    destruct Hz as [(Er & Hz)|(Er & Hz)].
    - rewrite (gather_out_of_range refsys [7] 104 numbers ix eq_refl Hix) in E1 by (apply too_big; simpl; lia).
      discriminate.
    - rewrite Er. cbn [String.eqb Ascii.eqb Bool.eqb].
      rewrite (gather_out_of_range (@gfn2_refh K) [7] 87 numbers ix eq_refl Hix) by (apply too_big; simpl; lia).
      reflexivity. }
  destruct Hk as [->| ->]; cbn [get_wf].
  - cbn [bind]. rewrite RC. reflexivity.
  - assert (G : forall i1 i2 : res (tensor Z), (exists t1 t2 u, i1 = Ok t1 /\ i2 = Ok t2 /\ tmap2 (fun a b => (a, b)) t1 t2 = Ok u) ->
       gather2 (@WFPAIR K) i1 i2 = Raise IndexError \/ exists t, gather2 (@WFPAIR K) i1 i2 = Ok t).
    { intros i1 i2 (t1 & t2 & u & -> & -> & E). unfold gather2, lift2. cbn [bind]. rewrite E. cbn [bind].
      rewrite WFPAIR_shp. destruct (forallb _ _); eauto. }
    destruct (G (unsqueeze 1 numbers) (unsqueeze 2 numbers)) as [->|(w & ->)].
    + assert (T := ten_eq _ _ Hs).
      assert (E1 : ev (unsqueeze 1 numbers) (1 :: n :: B) (fun i => dat numbers (tl i))).
      { eapply ev_conv; [ev_go|]. intros i Hi. destruct i; reflexivity. }
      assert (E2 : ev (unsqueeze 2 numbers) (n :: 1 :: B) (fun i => dat numbers (hd 0 i :: tl (tl i)))).
      { eapply ev_conv; [ev_go|]. intros i Hi. vdes. reflexivity. }
      destruct E1 as (t1 & -> & S1 & _). destruct E2 as (t2 & -> & S2 & _).
      exists t1, t2. unfold tmap2. rewrite S1, S2.
      assert (BS : bshape (1 :: n :: B) (n :: 1 :: B) = Some (n :: n :: B)) by bshape_solve.
      rewrite BS. eexists. repeat split; reflexivity.
    + reflexivity.
    + cbn [bind]. rewrite RC. reflexivity.
Qed.

(** ... so a calculation with the model chosen by name raises [IndexError] *)
Theorem C39_too_heavy_call :
  forall (p : Disp N) a ix,
  p_inst p = None -> In (casefold (p_key p)) ["d4"; "d4s"] ->
  k_rc6 (p_kw p) = None -> k_wf (p_kw p) = None ->
  shp (a_numbers a) = tl (shp (a_positions a)) -> (exists n B, shp (a_numbers a) = n :: B) ->
  valid (shp (a_numbers a)) ix ->
  (default (k_ref (p_kw p)) "eeq" = "eeq" /\ (104 <= dat (a_numbers a) ix)%Z) \/
  (default (k_ref (p_kw p)) "eeq" = "gfn2" /\ (87 <= dat (a_numbers a) ix)%Z) ->
  run X W p a = Raise IndexError.
Proof.
  intros p a ix Hi Hk Hrc Hwf Hs HnB Hix Hz. unfold run, calculate.
  rewrite <- Hs, check_shape_ok. cbn [bind]. unfold get_model. rewrite Hi.
  destruct Hk as [E|[E|[]]]; rewrite <- E; cbn [String.eqb Ascii.eqb Bool.eqb];
  erewrite C39_too_heavy_elements; eauto.
Qed.

End W.
Print Assumptions C24_unknown_name_raises.
Print Assumptions C24_missing_parameter_raises.
Print Assumptions C24_switched_off_is_zero.
Print Assumptions C24_unimplemented_order.
Print Assumptions C24_d4_needs_a1_a2.
Print Assumptions C24_unknown_name_in_call.
Print Assumptions C39_supported_elements.
Print Assumptions C39_too_heavy_elements.
Print Assumptions C39_too_heavy_call.
