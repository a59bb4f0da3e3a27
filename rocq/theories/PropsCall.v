(** * Calls: shape checks, termination without exception, ignored arguments. *)
From Coq Require Import List Arith ZArith QArith Bool String Lia.
From Verif Require Import Py Tensor Scalar ModelExt ModelUtils ModelDamping ModelModels
  ModelTerms ModelDisp SpecCall TensorLemmas Closed ClosedM ClosedTerms ClosedModels ClosedDamp
  ClosedDisp CallLemmas Usable.
Import ListNotations.
Open Scope nat_scope.
Open Scope string_scope.

Section C.
Context {N : Num} (X : Ext (sc N)) (W : World N).
Notation K := (sc N).

(** *** C15: a well-formed call returns a tensor of the shape of [numbers] *)
Theorem C15_well_formed_call_returns :
  forall (p : Disp N) a kind kw n c B,
  ext_tables X -> well_formed X W p a kind kw n c B ->
  exists e, run X W p a = Ok e /\ shp e = shp (a_numbers a).
Proof.
  intros p a kind kw n c B HX WF.
  destruct (terms_funs (a_param a) kind (p_terms p) (wf_terms _ _ _ _ _ _ _ _ _ WF)) as (Fs & HF).
  destruct (run_closed X W p a kind kw n c B Fs HX WF HF)
    as (_ & _ & _ & _ & _ & _ & _ & _ & _ & _ & _ & _ & (e & E & S & _)).
  exists e. split; auto. rewrite S. symmetry. apply WF.
Qed.

(** the terms of the shipped methods (and of [dftd4] with any shipped damping function) can
    be used with complete numeric parameters *)
Theorem C15_shipped_terms_usable :
  forall (param : Param K) kind, good_param param ->
  (getp param "a1" <> None -> getp param "a2" <> None ->
     (forall t, In t (terms_d4 X) -> usable param kind t) /\
     (forall t, In t (terms_d3bj X) -> usable param kind t) /\
     (kind = D4M -> forall t, In t (terms_d4_exact X) -> usable param kind t) /\
     (getp param "bet" <> None -> getp param "s10" = None ->
        usable param kind (mkTerm TwoBodyTerm OptimisedPowerDamping true))) /\
  (getp param "rs6" <> None -> (getp param "s8" <> None -> getp param "rs8" <> None) ->
     getp param "s10" = None ->
     (forall t, In t (terms_d3zero X) -> usable param kind t) /\
     (getp param "bet" <> None -> usable param kind (mkTerm TwoBodyTerm (MZeroDamping X) true))).
Proof.
  intros param kind G. split.
  - intros A1 A2. split; [|split; [|split]].
    + intros t [<-|[<-|[]]]; [apply usable_rational|apply usable_atm]; auto; discriminate.
    + intros t [<-|[<-|[]]]; [apply usable_rational|apply usable_atm]; auto; discriminate.
    + intros Hk t [<-|[<-|[]]]; [apply usable_rational|apply usable_atm]; auto; discriminate.
    + intros Hb H10. apply usable_op; auto.
  - intros R6 R8 H10. split.
    + intros t [<-|[<-|[]]]; [apply usable_zero|apply usable_atm]; auto; discriminate.
    + intros Hb. apply usable_mzero; auto.
Qed.

(** replacing one argument (see also SpecCall.v) *)
Definition set_positions (a : Args N) x := mkCall (a_numbers a) x (a_charge a) (a_param a)
  (a_cutoff a) (a_q a) (a_rcov a) (a_r4r2 a) (a_rvdw a).
Definition set_rcov (a : Args N) x := mkCall (a_numbers a) (a_positions a) (a_charge a) (a_param a)
  (a_cutoff a) (a_q a) x (a_r4r2 a) (a_rvdw a).
Definition set_r4r2 (a : Args N) x := mkCall (a_numbers a) (a_positions a) (a_charge a) (a_param a)
  (a_cutoff a) (a_q a) (a_rcov a) x (a_rvdw a).
Definition set_rvdw (a : Args N) x := mkCall (a_numbers a) (a_positions a) (a_charge a) (a_param a)
  (a_cutoff a) (a_q a) (a_rcov a) (a_r4r2 a) x.

Lemma check_shape_ok s : check_shape s s = Ok tt.
Proof. unfold check_shape. now rewrite shape_eqb_refl. Qed.
Lemma check_shape_bad s s' : s <> s' -> check_shape s s' = Raise ValueError.
Proof.
  intros H. unfold check_shape. destruct (shape_eqb s s') eqn:E; auto.
  exfalso. apply H. clear H. revert s' E. induction s; destruct s'; simpl; try discriminate; auto.
  intros E. apply andb_true_iff in E as [E1 E2]. apply Nat.eqb_eq in E1. f_equal; auto.
Qed.

(** wrong shapes raise [ValueError]; unused charges raise [RuntimeError] *)
Theorem C15_wrong_shapes_raise :
  forall (p : Disp N) a kind kw n c B,
  ext_tables X -> well_formed X W p a kind kw n c B ->
  (forall pos, tl (shp pos) <> shp (a_numbers a) ->
     run X W p (set_positions a pos) = Raise ValueError) /\
  (forall t, shp t <> shp (a_numbers a) -> run X W p (set_rcov a (Some t)) = Raise ValueError) /\
  (forall t, shp t <> shp (a_numbers a) -> run X W p (set_r4r2 a (Some t)) = Raise ValueError) /\
  (forall t, tl (shp t) <> shp (a_numbers a) -> run X W p (set_rvdw a (Some t)) = Raise ValueError) /\
  (forall t, needs_charges p -> shp t <> shp (a_numbers a) ->
     run X W p (set_q a (Some t)) = Raise ValueError) /\
  (forall t, ~ needs_charges p -> run X W p (set_q a (Some t)) = Raise RuntimeError).
Proof.
  intros p a kind kw n c B HX WF.
  pose proof WF as WF'. destruct WF'.
  destruct (model_from_ok X p (a_numbers a) kind kw n B HX wf_model wf_numbers wf_kw wf_elements)
    as (m & Em & _).
  destruct wf_cn as (cn & Ecn & _).
  apply elements_in_range in wf_elements as (Hkn & Hr).
  assert (R4 : exists r4, match a_r4r2 a with None => get_r4r2 (a_numbers a) | Some r => Ok r end = Ok r4
            /\ shp r4 = n :: B).
  { destruct (a_r4r2 a) as [t|] eqn:E; [eauto|].
    destruct (gather1 (@R4R2 K) 119 (a_numbers a) R4R2_shp (in_range_119 _ _ Hr)) as (t & Et & St & _).
    exists t. split; [exact Et|]. congruence. }
  destruct R4 as (r4 & Er4 & Hr4).
  assert (RV : exists rv, match a_rvdw a with None => get_rvdw X (a_numbers a) | Some r => Ok r end = Ok rv
            /\ shp rv = n :: n :: B).
  { destruct (a_rvdw a) as [t|] eqn:E; [eauto|].
    pose proof HX as (nz & ng & nv & _ & _ & Sv & _ & _ & Lv).
    assert (Hr' : in_range nv (a_numbers a)).
    { eapply in_range_le; [|exact Hr]. unfold ref_limit. destruct (_ =? _)%string; lia. }
    destruct (gather_pair (x_vdw X) nv (a_numbers a) n B Sv wf_numbers Hr') as (t & Et & St & _).
    exists t. split; [exact Et|]. auto. }
  destruct RV as (rv & Erv & Hrv).
  assert (RC : match a_rcov a with None => Ok tt | Some rc => check_shape (shp (a_numbers a)) (shp rc) end = Ok tt).
  { destruct (a_rcov a); auto. simpl in wf_rcov. rewrite wf_rcov, wf_numbers. apply check_shape_ok. }
  assert (POS : check_shape (shp (a_numbers a)) (tl (shp (a_positions a))) = Ok tt).
  { rewrite wf_positions, wf_numbers. apply check_shape_ok. }
  assert (C4 : check_shape (shp (a_numbers a)) (shp r4) = Ok tt).
  { rewrite Hr4, wf_numbers. apply check_shape_ok. }
  assert (CV : check_shape (shp (a_numbers a)) (tl (shp rv)) = Ok tt).
  { rewrite Hrv, wf_numbers. apply check_shape_ok. }
  unfold run, calculate.
  split; [|split; [|split; [|split; [|split]]]].
  - intros pos H. cbn [a_numbers a_positions set_positions].
    rewrite check_shape_bad by congruence. reflexivity.
  - intros t H. cbn [a_numbers a_positions a_rcov set_rcov]. rewrite POS. cbn [bind].
    rewrite Em. cbn [bind]. rewrite check_shape_bad by congruence. reflexivity.
  - intros t H. cbn [a_numbers a_positions a_rcov a_r4r2 set_r4r2]. rewrite POS. cbn [bind].
    rewrite Em. cbn [bind]. rewrite RC. cbn [bind]. rewrite check_shape_bad by congruence. reflexivity.
  - intros t H. cbn [a_numbers a_positions a_rcov a_r4r2 a_rvdw set_rvdw]. rewrite POS. cbn [bind].
    rewrite Em. cbn [bind]. rewrite RC. cbn [bind]. rewrite Er4. cbn [bind]. rewrite C4. cbn [bind].
    rewrite check_shape_bad by congruence. reflexivity.
  - intros t Hc H. cbn [a_numbers a_positions a_rcov a_r4r2 a_rvdw a_q set_q]. rewrite POS. cbn [bind].
    rewrite Em. cbn [bind]. rewrite RC. cbn [bind]. rewrite Er4. cbn [bind]. rewrite C4. cbn [bind].
    rewrite Erv. cbn [bind]. rewrite CV. cbn [bind]. rewrite Ecn. cbn [bind].
    apply needs_charges_b in Hc. rewrite Hc. cbn [negb raise_if bind].
    rewrite check_shape_bad by congruence. reflexivity.
  - intros t Hc. cbn [a_numbers a_positions a_rcov a_r4r2 a_rvdw a_q set_q]. rewrite POS. cbn [bind].
    rewrite Em. cbn [bind]. rewrite RC. cbn [bind]. rewrite Er4. cbn [bind]. rewrite C4. cbn [bind].
    rewrite Erv. cbn [bind]. rewrite CV. cbn [bind]. rewrite Ecn. cbn [bind].
    assert (E : existsb (@t_cdep N) (p_terms p) = false).
    { destruct (existsb (@t_cdep N) (p_terms p)) eqn:E; auto. exfalso. apply Hc. now apply needs_charges_b. }
    rewrite E. reflexivity.
Qed.

(** *** C16: the values of [rcov] and of [cutoff.cn] have no effect, for any call at all *)
Theorem C16_rcov_and_cn_cutoff_ignored :
  forall (p : Disp N) numbers positions charge param (co : Cutoff K) cn' q (rc rc' : tensor K) r4r2 rvdw,
  shp rc' = shp rc ->
  calculate X W p numbers positions charge param (Some co) q (Some rc) r4r2 rvdw
  = calculate X W p numbers positions charge param
      (Some (mkCutoff (c_disp2 co) (c_disp3 co) cn' (c_cn_eeq co))) q (Some rc') r4r2 rvdw.
Proof. intros. unfold calculate. cbn [default c_cn_eeq]. rewrite H. reflexivity. Qed.

(** ... and omitting [rcov] is the same as passing one of the right shape *)
Theorem C16_rcov_optional :
  forall (p : Disp N) numbers positions charge param co q (rc : tensor K) r4r2 rvdw,
  shp rc = shp numbers ->
  calculate X W p numbers positions charge param co q (Some rc) r4r2 rvdw
  = calculate X W p numbers positions charge param co q None r4r2 rvdw.
Proof.
  intros. unfold calculate. rewrite H, check_shape_ok. reflexivity.
Qed.

(** *** C13: explicit charges override the total charge, the EEQ cutoff and the charge model *)
Theorem C13_explicit_charges_override :
  forall W' (p : Disp N) numbers positions charge charge' param (co : Cutoff K) eeq' q rcov r4r2 rvdw,
  calculate X W p numbers positions charge param (Some co) (Some q) rcov r4r2 rvdw
  = calculate X W' p numbers positions charge' param
      (Some (mkCutoff (c_disp2 co) (c_disp3 co) (c_cn co) eeq')) (Some q) rcov r4r2 rvdw.
Proof. reflexivity. Qed.

End C.
