(** * A well-formed call evaluates to the closed form (proof layer). *)
From Coq Require Import List Arith ZArith QArith Bool String Lia.
From Verif Require Import Py Tensor Scalar ModelExt ModelUtils ModelDamping ModelModels
  ModelTerms ModelDisp SpecCall TensorLemmas EinsumLemmas Closed ClosedM ClosedTerms ClosedModels
  ClosedDamp ClosedDisp.
Import ListNotations.
Open Scope nat_scope.
Open Scope string_scope.

Lemma WFPAIR_shp {K : Scalar} : shp (@WFPAIR K) = [119; 119].
Proof. reflexivity. Qed.
Lemma R4R2_shp {K : Scalar} : shp (@R4R2 K) = [119].
Proof. reflexivity. Qed.
Local Opaque WFPAIR R4R2 WF_DEFAULT GA_DEFAULT GC_DEFAULT.

Section C.
Context {N : Num} (X : Ext (sc N)).
Notation K := (sc N).

Lemma elements_in_range ref numbers : elements_ok ref numbers ->
  ref_known ref = true /\ in_range (ref_limit ref) numbers.
Proof.
  unfold elements_ok, in_range, ref_known, ref_limit.
  intros [(-> & H)|(-> & H)]; (split; [reflexivity|]); intros i Hi; specialize (H i Hi); simpl; lia.
Qed.

Lemma in_range_119 ref numbers : in_range (ref_limit ref) numbers -> in_range 119 numbers.
Proof.
  intros H. eapply in_range_le; [|exact H].
  unfold ref_limit. destruct (ref =? "eeq"); lia.
Qed.

(** pair table lookups [T[numbers.unsqueeze(-1), numbers.unsqueeze(-2)]] *)
Lemma gather_pair {A} (T' : tensor A) nt numbers n B :
  shp T' = [nt; nt] -> shp numbers = n :: B -> in_range nt numbers ->
  ev (gather2 T' (unsqueeze 1 numbers) (unsqueeze 2 numbers)) (n :: n :: B)
     (ix2 (fun j i b => dat T' [Z.to_nat (sl1 numbers b j); Z.to_nat (sl1 numbers b i)])).
Proof.
  intros HT Hn H. assert (T := ten_eq _ _ Hn).
  assert (R : forall i b, i < n -> valid B b -> (0 <= dat numbers (i :: b) < Z.of_nat nt)%Z).
  { intros. apply H. rewrite Hn. split; auto. }
  eapply ev_conv.
  - eapply (ev_gather2 T' nt nt _ _ (1 :: n :: B) _ (n :: 1 :: B) _ (n :: n :: B)); [exact HT|ev_go|ev_go| | |].
    + bshape_solve.
    + intros i Hi. vdes. bsimp. cbn [hd tl]. auto.
    + intros i Hi. vdes. bsimp. cbn [hd tl]. auto.
  - vsimp. reflexivity.
Qed.

(** the weighting exponent of atom [i] in the presence of atom [j] *)
Definition wfv (kind : mkind) (kw : mkwargs N) (num : nat -> Z) (b : list nat) (i j : nat) : K :=
  match k_wf kw with
  | Some w => match kind with D4M => dat w [] | _ => sl2 w b i j end
  | None => match kind with
            | D4M => flit WF_DEFAULT
            | _ => dat WFPAIR [Z.to_nat (num j); Z.to_nat (num i)]
            end
  end.

Definition is_model (m : Model N) (kind : mkind) (kw : mkwargs N) (numbers : tensor Z)
  (n : nat) (B : list nat) : Prop :=
  model_ok X m n B /\ m_kind m = kind /\ m_numbers m = numbers /\
  m_ga m = default (k_ga kw) (flit GA_DEFAULT) /\ m_gc m = default (k_gc kw) (flit GC_DEFAULT) /\
  m_ref m = default (k_ref kw) "eeq" /\
  forall b i j, valid B b -> i < n -> j < n -> wf_of m b i j = wfv kind kw (sl1 numbers b) b i j.

Lemma get_wf_ev kind numbers n B : (kind = D4M \/ kind = D4SM) ->
  shp numbers = n :: B -> in_range 119 numbers ->
  exists w, get_wf (K := K) kind numbers = Ok (Some w) /\
    match kind with
    | D4M => ten w [] (fun _ => flit WF_DEFAULT)
    | _ => ten w (n :: n :: B)
             (ix2 (fun j i b => dat WFPAIR [Z.to_nat (sl1 numbers b j); Z.to_nat (sl1 numbers b i)]))
    end.
Proof.
  intros [->| ->] Hn Hr; cbn [get_wf].
  - eexists. split; [reflexivity|]. split; reflexivity.
  - destruct (gather_pair (@WFPAIR K) 119 numbers n B WFPAIR_shp Hn Hr) as (w & -> & Hw).
    exists w. split; [reflexivity|auto].
Qed.

Lemma new_model_ok kind cls numbers kw n B :
  ext_tables X -> (kind = D4M \/ kind = D4SM) -> shp numbers = n :: B ->
  kw_ok kind kw n B -> elements_ok (default (k_ref kw) "eeq") numbers ->
  exists m, new_model X kind cls numbers kw = Ok m /\ is_model m kind kw numbers n B.
Proof.
  intros HX Hk Hn (Hrc & Hwf) He. apply elements_in_range in He as (Hkn & Hr).
  destruct (get_wf_ev kind numbers n B Hk Hn (in_range_119 _ _ Hr)) as (w & Ew & Hw).
  destruct (get_refc6_ev X numbers n B (default (k_ga kw) (flit GA_DEFAULT))
     (default (k_gc kw) (flit GC_DEFAULT)) _ HX Hkn Hn Hr) as (t & Et & Ht).
  unfold new_model. rewrite Hrc.
  destruct (k_wf kw) as [u|] eqn:EW.
  - cbn [bind]. rewrite Et. cbn [bind]. eexists. split; [reflexivity|].
    unfold is_model, model_ok, wf_of, wfv, is_d4s. cbn [m_numbers m_kind m_wf m_ref m_rc6 m_ga m_gc].
    rewrite EW. refine (conj (conj HX (conj Hkn (conj Hn (conj Hr (conj Ht _))))) _).
    + destruct Hk as [->| ->]; exact Hwf.
    + repeat (split; [reflexivity|]). intros. destruct Hk as [->| ->]; reflexivity.
  - rewrite Ew. cbn [bind]. rewrite Et. cbn [bind]. eexists. split; [reflexivity|].
    unfold is_model, model_ok, wf_of, wfv, is_d4s. cbn [m_numbers m_kind m_wf m_ref m_rc6 m_ga m_gc].
    rewrite EW. refine (conj (conj HX (conj Hkn (conj Hn (conj Hr (conj Ht _))))) _).
    + destruct Hk as [->| ->]; apply Hw.
    + repeat (split; [reflexivity|]). intros b i j Hb Hi Hj. destruct Hk as [->| ->].
      * apply (proj2 Hw). constructor.
      * unfold sl2. rewrite (proj2 Hw) by (repeat split; auto). reflexivity.
Qed.

Lemma model_from_ok p numbers kind kw n B :
  ext_tables X -> model_from X p numbers kind kw -> shp numbers = n :: B ->
  kw_ok kind kw n B -> elements_ok (default (k_ref kw) "eeq") numbers ->
  exists m, get_model X p numbers = Ok m /\ is_model m kind kw numbers n B.
Proof.
  intros HX Hm Hn Hkw He. unfold get_model. destruct Hm as [(-> & Ek & Hm)|(m & cls & -> & Hk & Em)].
  - rewrite Ek. destruct Hm as [(-> & ->)|(-> & ->)]; simpl; apply new_model_ok; auto.
  - destruct (new_model_ok kind cls numbers kw n B HX Hk Hn Hkw He) as (m' & Em' & Hm').
    rewrite Em in Em'. injection Em' as <-. eauto.
Qed.

Definition r4v (a : Args N) (b : list nat) (i : nat) : K :=
  match a_r4r2 a with
  | Some t => sl1 t b i
  | None => dat R4R2 [Z.to_nat (sl1 (a_numbers a) b i)]
  end.
Definition rvv (a : Args N) (b : list nat) (i j : nat) : K :=
  match a_rvdw a with
  | Some t => sl2 t b i j
  | None => dat (x_vdw X) [Z.to_nat (sl1 (a_numbers a) b j); Z.to_nat (sl1 (a_numbers a) b i)]
  end.

Lemma terms_funs param kind ts : (forall t, In t ts -> usable (N := N) param kind t) ->
  exists Fs, Forall2 (term_ok param kind) ts Fs.
Proof.
  induction ts as [|t ts IH]; intros H.
  - exists []. constructor.
  - destruct IH as (Fs & HF); [intros; apply H; right; auto|].
    destruct (H t) as (F & HFt); [left; auto|]. exists (F :: Fs). constructor; auto.
Qed.

Lemma needs_charges_b (p : Disp N) : needs_charges p <-> existsb (@t_cdep N) (p_terms p) = true.
Proof. unfold needs_charges. now rewrite existsb_exists. Qed.

Definition sumK (l : list K) : K := fold_left fadd l f0.

(** the energy of one atom, term by term *)
Definition atom_terms (p : Disp N) (Fs : list (tfun K)) (a : Args N) (m : Model N) (cn : tensor K)
  (qo : option (tensor K)) (r4 rv : tensor K) (n c : nat) (b : list nat) (i : nat) : list K :=
  map (fun tF => term_val X (fst tF) (snd tF) (a_param a) m n c (sl1 (a_numbers a) b)
                   (sl2 (a_positions a) b) cn qo (sl1 r4 b) (sl2 rv b)
                   (dat (c_disp2 (a_cut a)) []) (dat (c_disp3 (a_cut a)) []) b i)
      (combine (p_terms p) Fs).

Lemma ten_scalar {A} (t : tensor A) : shp t = [] -> ten t [] (fun _ => dat t []).
Proof. intros H. split; auto. intros [|? ?] Hi; [reflexivity|destruct Hi]. Qed.

Lemma run_closed_full W p a kind kw n c B Fs :
  ext_tables X -> well_formed X W p a kind kw n c B ->
  Forall2 (term_ok (a_param a) kind) (p_terms p) Fs ->
  exists m cn qo r4 rv,
    get_model X p (a_numbers a) = Ok m /\
    match a_r4r2 a with None => get_r4r2 (a_numbers a) | Some r => Ok r end = Ok r4 /\
    match a_rvdw a with None => get_rvdw X (a_numbers a) | Some r => Ok r end = Ok rv /\
    is_model m kind kw (a_numbers a) n B /\
    p_cn_fn p (p_cn_kw p) (a_numbers a) (a_positions a) = Ok cn /\ shp cn = n :: B /\
    charges W p (a_numbers a) (a_positions a) (a_charge a) (a_cut a) (a_q a) = Ok qo /\
    cnq_ok qo (n :: B) /\
    (forall b i, valid B b -> i < n -> sl1 r4 b i = r4v a b i) /\
    (forall b i j, valid B b -> i < n -> j < n -> sl2 rv b i j = rvv a b i j) /\
    returns1 (run X W p a) n B (fun b i => sumK (atom_terms p Fs a m cn qo r4 rv n c b i)).
Proof.
  intros HX H HF. destruct H.
  destruct (model_from_ok p (a_numbers a) kind kw n B HX wf_model wf_numbers wf_kw wf_elements)
    as (m & Em & Hm).
  destruct wf_cn as (cn & Ecn & Hcn).
  assert (HQ : exists qo, charges W p (a_numbers a) (a_positions a) (a_charge a) (a_cut a) (a_q a) = Ok qo
                 /\ cnq_ok qo (n :: B)).
  { unfold charges. destruct (a_q a) as [q|] eqn:Eq.
    - exists (Some q). split; auto.
    - destruct (existsb (@t_cdep N) (p_terms p)) eqn:E.
      + destruct wf_eeq as (q & -> & Hq); auto. { now apply needs_charges_b. }
        exists (Some q). split; auto.
      + exists None. split; simpl; auto. }
  destruct HQ as (qo & Eqo & Hqo).
  apply elements_in_range in wf_elements as (Hkn & Hr).
  assert (R4 : exists r4, match a_r4r2 a with None => get_r4r2 (a_numbers a) | Some r => Ok r end = Ok r4
            /\ shp r4 = n :: B /\ forall b i, valid B b -> i < n -> sl1 r4 b i = r4v a b i).
  { unfold r4v. destruct (a_r4r2 a) as [t|] eqn:E.
    - exists t. auto.
    - destruct (gather1 (@R4R2 K) 119 (a_numbers a) R4R2_shp (in_range_119 _ _ Hr)) as (t & Et & St & Dt).
      exists t. split; [exact Et|]. rewrite wf_numbers in *. split; auto. intros. unfold sl1.
      rewrite Dt by (split; auto). reflexivity. }
  destruct R4 as (r4 & Er4 & Hr4 & Vr4).
  assert (RV : exists rv, match a_rvdw a with None => get_rvdw X (a_numbers a) | Some r => Ok r end = Ok rv
            /\ shp rv = n :: n :: B /\ forall b i j, valid B b -> i < n -> j < n -> sl2 rv b i j = rvv a b i j).
  { unfold rvv. destruct (a_rvdw a) as [t|] eqn:E.
    - exists t. auto.
    - destruct HX as (nz & ng & nv & _ & _ & Sv & _ & _ & Lv).
      assert (Hr' : in_range nv (a_numbers a)).
      { eapply in_range_le; [|exact Hr]. unfold ref_limit. destruct (_ =? _); lia. }
      destruct (gather_pair (x_vdw X) nv (a_numbers a) n B Sv wf_numbers Hr') as (t & Et & St & Dt).
      exists t. split; [exact Et|]. split; auto. intros. unfold sl2.
      rewrite Dt by (repeat split; auto). reflexivity. }
  destruct RV as (rv & Erv & Hrv & Vrv).
  exists m, cn, qo, r4, rv. repeat (split; [assumption|]).
  destruct (calculate_ev X W p (a_numbers a) (a_positions a) (a_charge a) (a_param a) (a_cutoff a)
    (a_q a) (a_rcov a) (a_r4r2 a) (a_rvdw a) m n c B cn qo r4 rv
    (dat (c_disp2 (a_cut a)) []) (dat (c_disp3 (a_cut a)) []) Fs) as (t & Et & St & Dt); auto.
  - apply Hm.
  - intros Q. apply needs_charges_b. auto.
  - now apply ten_scalar.
  - now apply ten_scalar.
  - destruct Hm as (_ & -> & _). auto.
  - exists t. split; [exact Et|]. split; auto. intros b i Hb Hi. unfold sl1.
    rewrite Dt by (split; auto). reflexivity.
Qed.

Lemma run_closed W p a kind kw n c B Fs :
  ext_tables X -> well_formed X W p a kind kw n c B ->
  Forall2 (term_ok (a_param a) kind) (p_terms p) Fs ->
  exists m cn qo r4 rv,
    is_model m kind kw (a_numbers a) n B /\
    p_cn_fn p (p_cn_kw p) (a_numbers a) (a_positions a) = Ok cn /\ shp cn = n :: B /\
    charges W p (a_numbers a) (a_positions a) (a_charge a) (a_cut a) (a_q a) = Ok qo /\
    cnq_ok qo (n :: B) /\
    (forall b i, valid B b -> i < n -> sl1 r4 b i = r4v a b i) /\
    (forall b i j, valid B b -> i < n -> j < n -> sl2 rv b i j = rvv a b i j) /\
    returns1 (run X W p a) n B (fun b i => sumK (atom_terms p Fs a m cn qo r4 rv n c b i)).
Proof.
  intros HX H HF.
  destruct (run_closed_full W p a kind kw n c B Fs HX H HF) as (m & cn & qo & r4 & rv & _ & _ & _ & Q).
  exists m, cn, qo, r4, rv. exact Q.
Qed.

(** ** The steps of a call up to the terms (which are the only place where the parameters
    are used). *)
Lemma run_steps_full W p a kind kw n c B : ext_tables X -> well_formed X W p a kind kw n c B ->
  exists m cn qo r4 rv,
    get_model X p (a_numbers a) = Ok m /\
    p_cn_fn p (p_cn_kw p) (a_numbers a) (a_positions a) = Ok cn /\
    charges W p (a_numbers a) (a_positions a) (a_charge a) (a_cut a) (a_q a) = Ok qo /\
    (forall b i, valid B b -> i < n -> sl1 r4 b i = r4v a b i) /\
    (forall b i j, valid B b -> i < n -> j < n -> sl2 rv b i j = rvv a b i j) /\
    is_model m kind kw (a_numbers a) n B /\ shp cn = n :: B /\ cnq_ok qo (n :: B) /\
    shp r4 = n :: B /\ shp rv = n :: n :: B /\
    forall param, run X W p (set_param a param)
      = sum_terms (mkT (n :: B) (fun _ => f0)) (p_terms p)
          (fun t => term_calculate X t (a_numbers a) (a_positions a) param cn m qo r4 rv (a_cut a)).
Proof.
  intros HX WF.
  destruct (terms_funs (a_param a) kind (p_terms p) (wf_terms _ _ _ _ _ _ _ _ _ WF)) as (Fs & HF).
  destruct (run_closed_full W p a kind kw n c B Fs HX WF HF)
    as (m & cn & qo & r4 & rv & Em & E4 & Ev & Hm & Ecn & Scn & Eq & Sq & V4 & VV & _).
  destruct WF.
  apply elements_in_range in wf_elements as (Hkn & Hr).
  assert (S4 : shp r4 = n :: B).
  { destruct (a_r4r2 a) as [u|] eqn:E; [simpl in wf_r4r2; injection E4 as <-; auto|].
    destruct (gather1 (@R4R2 K) 119 (a_numbers a) R4R2_shp (in_range_119 _ _ Hr)) as (u & Et & St & _).
    unfold get_r4r2 in E4. rewrite Et in E4. injection E4 as <-. congruence. }
  assert (SV : shp rv = n :: n :: B).
  { destruct (a_rvdw a) as [u|] eqn:E; [simpl in wf_rvdw; injection Ev as <-; auto|].
    pose proof HX as (nz & ng & nv & _ & _ & Sv & _ & _ & Lv).
    assert (Hr' : in_range nv (a_numbers a)).
    { eapply in_range_le; [|exact Hr]. unfold ref_limit. destruct (_ =? _)%string; lia. }
    destruct (gather_pair (x_vdw X) nv (a_numbers a) n B Sv wf_numbers Hr') as (u & Et & St & _).
    unfold get_rvdw in Ev. rewrite Et in Ev. injection Ev as <-. exact St. }
  exists m, cn, qo, r4, rv. repeat (split; [assumption|]). intros param.
  assert (CS : forall s, check_shape s s = Ok tt).
  { intros s. unfold check_shape. now rewrite shape_eqb_refl. }
  unfold run, calculate.
  cbn [set_param a_numbers a_positions a_charge a_param a_cutoff a_q a_rcov a_r4r2 a_rvdw].
  rewrite wf_positions, wf_numbers. cbn [tl]. rewrite CS. cbn [bind].
  rewrite Em. cbn [bind].
  assert (RC : match a_rcov a with None => Ok tt | Some rc => check_shape (n :: B) (shp rc) end = Ok tt).
  { destruct (a_rcov a); auto. simpl in wf_rcov. rewrite wf_rcov. apply CS. }
  rewrite RC. cbn [bind]. rewrite E4. cbn [bind]. rewrite S4, CS. cbn [bind].
  rewrite Ev. cbn [bind]. rewrite SV. cbn [tl]. rewrite CS. cbn [bind]. rewrite Ecn. cbn [bind].
  fold (a_cut a). unfold charges in Eq.
  destruct (a_q a) as [q|] eqn:EQ.
  - assert (NC : existsb (@t_cdep N) (p_terms p) = true).
    { apply needs_charges_b. apply wf_q_used. discriminate. }
    rewrite NC. cbn [negb raise_if bind]. injection Eq as <-. simpl in wf_q. rewrite wf_q, CS. reflexivity.
  - cbn [raise_if bind]. destruct (existsb (@t_cdep N) (p_terms p)).
    + rewrite Eq. cbn [bind]. destruct qo as [q|]; [|reflexivity]. simpl in Sq. rewrite Sq, CS. reflexivity.
    + injection Eq as <-. reflexivity.
Qed.

Lemma run_steps W p a kind kw n c B : ext_tables X -> well_formed X W p a kind kw n c B ->
  exists m cn qo r4 rv,
    is_model m kind kw (a_numbers a) n B /\ shp cn = n :: B /\ cnq_ok qo (n :: B) /\
    shp r4 = n :: B /\ shp rv = n :: n :: B /\
    forall param, run X W p (set_param a param)
      = sum_terms (mkT (n :: B) (fun _ => f0)) (p_terms p)
          (fun t => term_calculate X t (a_numbers a) (a_positions a) param cn m qo r4 rv (a_cut a)).
Proof.
  intros HX WF. destruct (run_steps_full W p a kind kw n c B HX WF) as (m & cn & qo & r4 & rv & _ & _ & _ & _ & _ & Q).
  exists m, cn, qo, r4, rv. exact Q.
Qed.

End C.
