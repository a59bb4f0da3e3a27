(** * Lemmas about the dtype and device model *)
From Coq Require Import List Arith Bool String Lia.
From Verif Require Import Py ModelTerms ModelDtype SpecDtype.
Import ListNotations.
Open Scope string_scope.

Lemma device_eqb_refl v : device_eqb v v = true.
Proof. destruct v; cbn; auto using Nat.eqb_refl. Qed.
Lemma device_eqb_eq v w : device_eqb v w = true <-> v = w.
Proof.
  destruct v, w; cbn; try (split; congruence).
  rewrite Nat.eqb_eq. split; congruence.
Qed.
Lemma dtype_eqb_eq a b : dtype_eqb a b = true <-> a = b.
Proof. destruct a, b; cbn; split; congruence. Qed.

Section Lemmas.
Context (dflt : dtype) (v : device).
Notation D a := (with_dims a v).
Hypothesis Hf : is_float dflt = true.

Lemma common_DD a b : common_device [D a; D b] = v.
Proof. cbn. destruct (is_cpu v) eqn:E; destruct v; cbn in *; congruence. Qed.

Lemma same_dev_DD a b : same_device [D a; D b] = Ok v.
Proof.
  unfold same_device. rewrite common_DD. cbn. now rewrite device_eqb_refl.
Qed.

Lemma small_cases s : small v s -> (exists f, s = VPy f) \/
  (exists a w, s = VT (mkTy a w false) /\ is_float a = true /\ (w = Cpu \/ w = v)).
Proof.
  destruct s as [[a w b]|f]; cbn; intros H.
  - right. destruct H as (-> & Ha & Hw). eauto.
  - left. eauto.
Qed.

Lemma on_small s : small v s -> on_device v s = true.
Proof.
  intros H. destruct (small_cases _ H) as [[f ->]|(a & w & -> & Ha & [->| ->])]; cbn; auto.
  - destruct v; auto.
  - now rewrite device_eqb_refl.
Qed.

Lemma on_D a : on_device v (D a) = true.
Proof. cbn. now rewrite device_eqb_refl. Qed.

Definition ond (x : tval) : Prop := (exists a, x = D a) \/ small v x.

Lemma ond_on x : ond x -> on_device v x = true.
Proof. intros [[a ->]|H]; auto using on_D, on_small. Qed.

Lemma common_ond l : Forall ond l -> common_device l = v \/ common_device l = Cpu.
Proof.
  induction 1 as [|x l Hx _ IH]; cbn; auto.
  destruct Hx as [[a ->]|Hx]; cbn.
  - destruct (is_cpu v) eqn:E; auto.
  - destruct (small_cases _ Hx) as [[f ->]|(a & w & -> & Ha & [->| ->])]; cbn; auto.
    destruct (is_cpu v) eqn:E; auto.
Qed.

Lemma common_has l a : Forall ond l -> In (D a) l -> common_device l = v.
Proof.
  induction 1 as [|x l Hx Hl IH]; cbn; [tauto|]. intros [->|Hin].
  - cbn. destruct (is_cpu v) eqn:E; auto.
    assert (v = Cpu) by (destruct v; cbn in E; congruence).
    destruct (common_ond l Hl); congruence.
  - specialize (IH Hin). destruct x as [t|f]; auto.
    destruct (is_cpu (ty_dev t)) eqn:E; auto.
    destruct Hx as [[b Hb]|Hx].
    + injection Hb as ->. reflexivity.
    + destruct (small_cases _ Hx) as [[f Hq]|(b & w & Hq & Ha & Hw)]; [discriminate|].
      injection Hq as ->. cbn in *. destruct Hw as [->| ->]; [discriminate|reflexivity].
Qed.

Lemma same_has l a : Forall ond l -> In (D a) l -> same_device l = Ok v.
Proof.
  intros Hl Hin. unfold same_device. rewrite (common_has l a Hl Hin).
  replace (forallb (on_device v) l) with true; auto.
  symmetry. apply forallb_forall. rewrite Forall_forall in Hl. auto using ond_on.
Qed.

Lemma rt_DD a b : result_type dflt (D a) (D b) = promote a b.
Proof. reflexivity. Qed.
Lemma rt_DS a s : is_float a = true -> small v s -> result_type dflt (D a) s = a.
Proof.
  intros Ha H. destruct (small_cases _ H) as [[f ->]|(b & w & -> & Hb & _)];
    destruct a; try discriminate Ha; try destruct f; reflexivity.
Qed.
Lemma rt_SD a s : is_float a = true -> small v s -> result_type dflt s (D a) = a.
Proof.
  intros Ha H. destruct (small_cases _ H) as [[f ->]|(b & w & -> & Hb & _)];
    destruct a; try discriminate Ha; try destruct f; reflexivity.
Qed.
Lemma rt_II f : result_type dflt (D Int64) (VPy f) = if f then dflt else Int64.
Proof. destruct f; [|reflexivity]. destruct dflt; try discriminate Hf; reflexivity. Qed.

Lemma ond_D a : ond (D a).
Proof. left. eauto. Qed.
Lemma ond_S s : small v s -> ond s.
Proof. now right. Qed.

Ltac onds := repeat apply Forall_cons; try apply Forall_nil; auto using ond_D, ond_S.
Ltac dev1 := erewrite same_has; [|onds|left; reflexivity].
Ltac dev2 := erewrite same_has; [|onds|right; left; reflexivity].

Lemma ebin_DD a b : ebin dflt (D a) (D b) = Ok (D (promote a b)).
Proof. unfold ebin. cbn [with_dims]. fold (D a) (D b). dev1. reflexivity. Qed.
Lemma ebin_DS a s : is_float a = true -> small v s -> ebin dflt (D a) s = Ok (D a).
Proof.
  intros Ha H. unfold ebin. cbn [with_dims]. fold (D a). dev1. cbn [bind].
  rewrite (rt_DS a s Ha H). reflexivity.
Qed.
Lemma ebin_SD a s : is_float a = true -> small v s -> ebin dflt s (D a) = Ok (D a).
Proof.
  intros Ha H. unfold ebin. cbn [with_dims]. fold (D a).
  destruct s as [t|f]; dev2; cbn [bind];
  rewrite (rt_SD a _ Ha H), orb_true_r; reflexivity.
Qed.
Lemma ediv_DD a b : is_float (promote a b) = true ->
  ediv dflt (D a) (D b) = Ok (D (promote a b)).
Proof.
  intros Hp. unfold ediv. cbn [with_dims]. fold (D a) (D b). dev1. cbn [bind].
  rewrite rt_DD, Hp. reflexivity.
Qed.
Lemma ediv_DS a s : is_float a = true -> small v s -> ediv dflt (D a) s = Ok (D a).
Proof.
  intros Ha H. unfold ediv. cbn [with_dims]. fold (D a). dev1. cbn [bind].
  rewrite (rt_DS a s Ha H), Ha. reflexivity.
Qed.
Lemma ediv_SD a s : is_float a = true -> small v s -> ediv dflt s (D a) = Ok (D a).
Proof.
  intros Ha H. unfold ediv. cbn [with_dims]. fold (D a).
  destruct s as [t|f]; dev2; cbn [bind];
  rewrite (rt_SD a _ Ha H), Ha, orb_true_r; reflexivity.
Qed.
Lemma ecmp_DD a b : ecmp (D a) (D b) = Ok (D Bool_).
Proof. unfold ecmp. dev1. reflexivity. Qed.
Lemma ecmp_DS a s : small v s -> ecmp (D a) s = Ok (D Bool_).
Proof. intros H. unfold ecmp. dev1. reflexivity. Qed.
Lemma efun_D a : is_float a = true -> efun dflt (D a) = Ok (D a).
Proof. intros Ha. cbn. now rewrite Ha. Qed.
Lemma where_DD a b : ewhere dflt (D Bool_) (D a) (D b) = Ok (D (promote a b)).
Proof.
  unfold ewhere. cbn [with_dims ty_dtype dtype_eqb]. fold (D Bool_) (D a) (D b).
  dev1. reflexivity.
Qed.
Lemma where_DS a s : is_float a = true -> small v s ->
  ewhere dflt (D Bool_) (D a) s = Ok (D a).
Proof.
  intros Ha H. unfold ewhere. cbn [with_dims ty_dtype dtype_eqb]. fold (D Bool_) (D a).
  dev1. cbn [bind]. rewrite rt_DS by assumption. reflexivity.
Qed.

(** scalars of one [dd] *)
Lemma where_SS a : is_float a = true ->
  ewhere dflt (D Bool_) (VT (mkTy a v false)) (VT (mkTy a v false)) = Ok (D a).
Proof.
  intros Ha. unfold ewhere. cbn [with_dims ty_dtype dtype_eqb]. fold (D Bool_).
  assert (small v (VT (mkTy a v false))) by (cbn; auto).
  dev1. cbn [bind dims ty_dims with_dims]. destruct a; try discriminate Ha; reflexivity.
Qed.

Lemma small_scalar a : is_float a = true -> small v (VT (mkTy a v false)).
Proof. cbn. auto. Qed.

(** two small operands *)
Lemma ebin_SS s t : small v s -> small v t ->
  exists r, ebin dflt s t = Ok r /\ small v r.
Proof.
  intros Hs Ht.
  destruct (small_cases _ Hs) as [[f ->]|(a & w & -> & Ha & Hw)];
  destruct (small_cases _ Ht) as [[g ->]|(b & u & -> & Hb & Hu)].
  - cbn. eauto.
  - unfold ebin, same_device. cbn -[device_eqb result_type].
    assert (Hr : is_float (result_type dflt (VPy f) (VT (mkTy b u false))) = true)
      by (destruct b; try discriminate; destruct f; reflexivity).
    destruct u; cbn -[device_eqb result_type]; rewrite ?device_eqb_refl; cbn -[result_type];
      eexists; (split; [reflexivity|]); cbn -[result_type]; auto.
  - unfold ebin, same_device. cbn -[device_eqb result_type].
    assert (Hr : is_float (result_type dflt (VT (mkTy a w false)) (VPy g)) = true)
      by (destruct a; try discriminate; destruct g; reflexivity).
    destruct w; cbn -[device_eqb result_type]; rewrite ?device_eqb_refl; cbn -[result_type];
      eexists; (split; [reflexivity|]); cbn -[result_type]; auto.
  - unfold ebin, same_device. cbn -[device_eqb result_type].
    assert (Hr : is_float (result_type dflt (VT (mkTy a w false)) (VT (mkTy b u false))) = true)
      by (destruct a, b; try discriminate; reflexivity).
    destruct Hw as [-> | ->], Hu as [-> | ->]; cbn -[device_eqb result_type];
      destruct v; cbn -[result_type]; rewrite ?Nat.eqb_refl; cbn -[result_type];
      eexists; (split; [reflexivity|]); cbn -[result_type]; auto.
Qed.

Lemma ediv_SS s t : small v s -> small v t ->
  exists r, ediv dflt s t = Ok r /\ small v r.
Proof.
  intros Hs Ht.
  destruct (small_cases _ Hs) as [[f ->]|(a & w & -> & Ha & Hw)];
  destruct (small_cases _ Ht) as [[g ->]|(b & u & -> & Hb & Hu)].
  - cbn. eauto.
  - unfold ediv, same_device. cbn -[device_eqb result_type].
    assert (Hr : is_float (result_type dflt (VPy f) (VT (mkTy b u false))) = true)
      by (destruct b; try discriminate; destruct f; reflexivity).
    destruct u; cbn -[device_eqb result_type]; rewrite ?device_eqb_refl; cbn -[result_type];
      rewrite Hr; eexists; (split; [reflexivity|]); cbn -[result_type]; auto.
  - unfold ediv, same_device. cbn -[device_eqb result_type].
    assert (Hr : is_float (result_type dflt (VT (mkTy a w false)) (VPy g)) = true)
      by (destruct a; try discriminate; destruct g; reflexivity).
    destruct w; cbn -[device_eqb result_type]; rewrite ?device_eqb_refl; cbn -[result_type];
      rewrite Hr; eexists; (split; [reflexivity|]); cbn -[result_type]; auto.
  - unfold ediv, same_device. cbn -[device_eqb result_type].
    assert (Hr : is_float (result_type dflt (VT (mkTy a w false)) (VT (mkTy b u false))) = true)
      by (destruct a, b; try discriminate; reflexivity).
    destruct Hw as [-> | ->], Hu as [-> | ->]; cbn -[device_eqb result_type];
      destruct v; cbn -[result_type]; rewrite ?Nat.eqb_refl; cbn -[result_type];
      rewrite Hr; eexists; (split; [reflexivity|]); cbn -[result_type]; auto.
Qed.

Lemma contract_DD a : econtract (D a) (D a) = Ok (D a).
Proof.
  cbn. unfold same_ty. cbn. rewrite device_eqb_refl. now destruct a.
Qed.
Lemma contract_ne a b : a <> b -> econtract (D a) (D b) = Raise RuntimeError.
Proof.
  intros H. cbn. unfold same_ty. cbn.
  replace (dtype_eqb a b) with false; [reflexivity|].
  symmetry. destruct (dtype_eqb a b) eqn:E; auto. now apply dtype_eqb_eq in E.
Qed.
Lemma gather_D a : egather (D a) (D Int64) = Ok (D a).
Proof. cbn. rewrite device_eqb_refl. now rewrite orb_true_r. Qed.

Lemma iadd_DD a b : is_float a = true -> eiadd dflt (D a) (D b) = Ok (D a).
Proof.
  intros Ha. unfold eiadd. cbn [with_dims]. fold (D a) (D b). rewrite ebin_DD.
  cbn. now rewrite Ha, orb_true_r, device_eqb_refl.
Qed.

End Lemmas.

(** ** The functions of the code *)
Section Functions.
Context (dflt : dtype) (v : device).
Notation D a := (with_dims a v).
Hypothesis Hf : is_float dflt = true.

Lemma table_D a : table_of (mkDD a v) = D a.
Proof. reflexivity. Qed.
Lemma int_D : int_table v = D Int64.
Proof. reflexivity. Qed.
Lemma cast_D a b : cast b (D a) = D b.
Proof. reflexivity. Qed.
Lemma cdist_D a : cdist_ty (D a) = D a.
Proof. reflexivity. Qed.
Lemma mask_D a : mask_of (D a) = Ok (D Bool_).
Proof. reflexivity. Qed.
Lemma atomwise_D a : atomwise (D Int64) (D a) = Ok (D a).
Proof. cbn. now rewrite device_eqb_refl. Qed.
Lemma small_sc a : is_float a = true -> small v (scalar_of (mkDD a v)).
Proof. cbn. auto. Qed.
Lemma small_py f : small v (VPy f).
Proof. exact I. Qed.
Lemma efun_S s : small v s -> (exists f, s = VPy f) \/ efun dflt s = Ok s.
Proof.
  intros H. destruct (small_cases v s H) as [[f ->]|(a & w & -> & Ha & Hw)]; [eauto|].
  right. cbn. now rewrite Ha.
Qed.
Lemma efun_sc a : is_float a = true ->
  efun dflt (scalar_of (mkDD a v)) = Ok (scalar_of (mkDD a v)).
Proof. intros Ha. cbn. now rewrite Ha. Qed.
Lemma where_sc a : is_float a = true ->
  ewhere dflt (D Bool_) (scalar_of (mkDD a v)) (scalar_of (mkDD a v)) = Ok (D a).
Proof. apply where_SS. Qed.

Ltac side := first [reflexivity | assumption | apply small_py
                   | apply small_sc; reflexivity].
Ltac ty1 :=
  first
  [ progress cbn [bind lift1 lift2 lift3 tval_res promote Nat.leb rank dd_dtype dd_dev
                  sdivide_ty ssqrt_ty fst snd rmap default]
  | rewrite table_D | rewrite int_D | rewrite cast_D | rewrite cdist_D | rewrite mask_D
  | rewrite gather_D | rewrite contract_DD | rewrite ecmp_DD
  | rewrite ebin_DD | rewrite where_DD
  | rewrite iadd_DD by side
  | rewrite ediv_DD by side
  | rewrite efun_D by side
  | rewrite efun_sc by side
  | rewrite where_sc by side
  | rewrite ecmp_DS by side
  | rewrite ebin_DS by side | rewrite ebin_SD by side
  | rewrite ediv_DS by side | rewrite ediv_SD by side
  | rewrite where_DS by side ].
Ltac ty := repeat ty1.

Lemma zeta_D d r m : is_float d = true -> is_float m = true -> (r = Int64 \/ is_float r = true) ->
  zeta_ty dflt (mkDD d v) (D d) (D r) (D m) = Ok (D (promote d (promote r m))).
Proof.
  intros Hd Hm Hr. unfold zeta_ty.
  destruct d; try discriminate Hd; destruct m; try discriminate Hm;
  destruct r; try (destruct Hr; discriminate); ty; reflexivity.
Qed.

Lemma dzeta_D d r m : is_float d = true -> is_float m = true -> is_float r = true ->
  dzeta_ty dflt (mkDD d v) (D d) (D r) (D m) = Ok (D (promote d (promote r m))).
Proof.
  intros Hd Hm Hr. unfold dzeta_ty.
  destruct d; try discriminate Hd; destruct m; try discriminate Hm;
  destruct r; try discriminate Hr; ty; reflexivity.
Qed.

Lemma alpha_D d : is_float d = true ->
  get_alpha_ty dflt (mkDD d v) (D Int64) = Ok (D d).
Proof.
  intros Hd. unfold get_alpha_ty.
  destruct d; try discriminate Hd; ty;
    (rewrite zeta_D; [|reflexivity|reflexivity|now left]); ty; reflexivity.
Qed.

Lemma trapzd_D d : is_float d = true -> trapzd_ty dflt (D d) = Ok (D d).
Proof.
  intros Hd. unfold trapzd_ty. cbn [with_dims ty_dtype ty_dev]. fold (D d).
  destruct d; try discriminate Hd; ty; reflexivity.
Qed.

Lemma trapzd_atm_D d : is_float d = true -> trapzd_atm_ty dflt (D d) = Ok (D d).
Proof.
  intros Hd. unfold trapzd_atm_ty. cbn [with_dims ty_dtype ty_dev]. fold (D d).
  destruct d; try discriminate Hd; ty; reflexivity.
Qed.

(** A model in precision [d] on [v]. *)
Definition model_on (d : dtype) (m : MTy) : Prop :=
  my_dd m = mkDD d v /\ my_numbers m = D Int64 /\ my_rc6 m = D d /\
  (small v (my_wf m) \/ exists a, is_float a = true /\ my_wf m = D a).

Lemma new_model_D k d : is_float d = true ->
  exists m, new_model_ty dflt k (mkDD d v) (D Int64) None None = Ok m /\ model_on d m.
Proof.
  intros Hd. unfold new_model_ty.
  destruct k; unfold get_wf_ty; rewrite (alpha_D d Hd); ty; rewrite (trapzd_D d Hd); ty;
    eexists; (split; [reflexivity|]); (split; [reflexivity|]);
    (split; [reflexivity|]); (split; [reflexivity|]); cbn [my_wf].
  - left. now apply small_sc.
  - right. eauto.
Qed.

Lemma wf_pow m d a : model_on d m ->
  exists w, ebin dflt (VPy false) (my_wf m) = Ok w /\ (small v w \/ exists b, w = D b /\ is_float b = true) /\
   (a = Float64 -> ebin dflt (D a) w = Ok (D a)).
Proof.
  intros (_ & _ & _ & [Hw|(b & Hb & ->)]).
  - destruct (ebin_SS dflt v (VPy false) (my_wf m)) as (r & Hr & Hs); auto using small_py.
    exists r. split; [exact Hr|]. split; [auto|]. intros ->. now rewrite ebin_DS.
  - exists (D b). rewrite ebin_SD by side. split; [reflexivity|]. split; [eauto|].
    intros ->. rewrite ebin_DD. destruct b; try discriminate Hb; reflexivity.
Qed.

Lemma gauss_D d m p : is_float d = true -> is_float p = true -> model_on d m ->
  gauss_ty dflt m (D p) = Ok (D d).
Proof.
  intros Hd Hp Hm.
  destruct (wf_pow m d Float64 Hm) as (w & Hw & Hs & He). specialize (He eq_refl).
  unfold gauss_ty.
  destruct Hm as (Edd & En & Er & Hwf). rewrite Edd, En.
  assert (Hmul : ebin dflt (D Float64) (my_wf m) = Ok (D Float64)).
  { destruct Hwf as [Hwf|(b & Hb & ->)].
    - now rewrite ebin_DS.
    - rewrite ebin_DD. destruct b; try discriminate Hb; reflexivity. }
  cbn [dd_dev dd_dtype].
  assert (Hz : small v (scalar_of (mkDD dflt v))) by now apply small_sc.
  destruct (my_kind m).
  - ty. rewrite Hw. ty. rewrite He. ty. rewrite ?Hw. ty. rewrite ?He. ty.
    destruct d; try discriminate Hd; ty; reflexivity.
  - ty. rewrite Hmul. ty. destruct d; try discriminate Hd; ty; reflexivity.
Qed.

Lemma weights_D d m p q : is_float d = true -> is_float p = true -> model_on d m ->
  (forall x, q = Some x -> exists a, x = D a /\ is_float a = true) ->
  weight_references_ty dflt m (D p) q =
    Ok (D (match q with Some (VT t) => promote d (ty_dtype t) | _ => d end)).
Proof.
  intros Hd Hp Hm Hq. unfold weight_references_ty.
  rewrite (gauss_D d m p Hd Hp Hm).
  destruct Hm as (Edd & En & Er & Hwf). rewrite Edd, En. cbn [dd_dev dd_dtype].
  destruct q as [x|].
  - destruct (Hq x eq_refl) as (a & -> & Ha). cbn [with_dims ty_dtype]. fold (D a).
    destruct d; try discriminate Hd; destruct a; try discriminate Ha; ty;
      (rewrite zeta_D; [|reflexivity|reflexivity|now right]); ty; reflexivity.
  - destruct d; try discriminate Hd; ty;
      (rewrite zeta_D; [|reflexivity|reflexivity|now right]); ty; reflexivity.
Qed.

Lemma c6_D d m : model_on d m -> get_atomic_c6_ty m (D d) = Ok (D d).
Proof. intros (_ & _ & Er & _). unfold get_atomic_c6_ty. rewrite Er. now ty. Qed.

Lemma c6_ne d m a : model_on d m -> d <> a -> get_atomic_c6_ty m (D a) = Raise RuntimeError.
Proof.
  intros (_ & _ & Er & _) H. unfold get_atomic_c6_ty. rewrite Er.
  rewrite contract_ne by exact H. reflexivity.
Qed.

Lemma wpols_D d m : is_float d = true -> model_on d m ->
  get_weighted_pols_ty dflt m (D d) = Ok (D d).
Proof.
  intros Hd (Edd & En & _). unfold get_weighted_pols_ty. rewrite Edd, En, (alpha_D d Hd).
  destruct (my_kind m); ty; [reflexivity|].
  destruct d; try discriminate Hd; ty; reflexivity.
Qed.

Lemma wpols_ne d m a : is_float d = true -> model_on d m -> d <> a ->
  get_weighted_pols_ty dflt m (D a) = Raise RuntimeError.
Proof.
  intros Hd (Edd & En & _) H. unfold get_weighted_pols_ty. rewrite Edd, En, (alpha_D d Hd).
  cbn [bind]. rewrite contract_ne by congruence. now destruct (my_kind m).
Qed.

End Functions.

(** ** Damping functions and terms *)
Section Terms.
Context (dflt : dtype) (v : device).
Notation D a := (with_dims a v).
Hypothesis Hf : is_float dflt = true.
Context (P : PTy).
Hypothesis HP : forall k x, dget P k = Some x -> small v x.

Lemma get_small k x : small v x -> small v (default (dget P k) x).
Proof. intros H. destruct (dget P k) eqn:E; cbn; eauto. Qed.

Ltac side := first [reflexivity | assumption | apply small_py
                   | apply small_sc; (reflexivity || assumption)
                   | eapply HP; eassumption
                   | apply get_small; side0]
with side0 := first [apply small_py | apply small_sc; (reflexivity || assumption)].
Ltac ty1 :=
  first
  [ progress cbn [bind lift1 lift2 lift3 tval_res promote Nat.leb rank dd_dtype dd_dev
                  sdivide_ty ssqrt_ty fst snd rmap]
  | rewrite table_D | rewrite int_D | rewrite cast_D | rewrite cdist_D | rewrite mask_D
  | rewrite gather_D | rewrite contract_DD | rewrite ecmp_DD
  | rewrite ebin_DD | rewrite where_DD
  | rewrite iadd_DD by side
  | rewrite ediv_DD by side
  | rewrite efun_D by side
  | rewrite ecmp_DS by side
  | rewrite ebin_DS by side | rewrite ebin_SD by side
  | rewrite ediv_DS by side | rewrite ediv_SD by side
  | rewrite where_DS by side ].
Ltac ty := repeat ty1.

Lemma need_cases k : (exists x, need P k = Ok x /\ small v x) \/ need P k = Raise AssertionError.
Proof. unfold need. destruct (dget P k) eqn:E; eauto. Qed.

Lemma perr_A : param_error AssertionError. Proof. unfold param_error. auto. Qed.
Lemma perr_T : param_error TypeError. Proof. unfold param_error. auto. Qed.
Lemma perr_V : param_error ValueError. Proof. unfold param_error. auto. Qed.

Lemma yields_err e x : param_error e -> yields (Raise e) x.
Proof. right. eauto. Qed.

Ltac needs k := let x := fresh "x" in let E := fresh "E" in let S := fresh "S" in
  destruct (need_cases k) as [(x & E & S)|E]; rewrite E; cbn [bind];
  [|apply yields_err, perr_A].

Lemma alp2 a : small v a -> exists r, ebin dflt a (VPy true) = Ok r /\ small v r.
Proof. intros H. apply ebin_SS; auto using small_py. Qed.

Lemma damping_f_D d p r order only : is_float p = true -> is_float r = true ->
  yields (damping_f dflt d (D p) (D r) order only P) (D (promote p r)).
Proof.
  intros Hp Hr. unfold damping_f.
  assert (Ha : small v (default (dget P "alp") (VPy true))) by (apply get_small, small_py).
  set (alp := default (dget P "alp") (VPy true)) in *. clearbody alp.
  assert (Ar : forall o, (exists x, o = Ok x /\ small v (fst x) /\ small v (snd x)) \/
      (exists e, o = Raise e /\ param_error e) ->
      yields (bind o (fun ar : tval * tval =>
        bind (lift2 (ebin dflt) (snd ar) (sdivide_ty dflt (D p) (D r))) (fun t_n =>
        bind (lift2 (ediv dflt) (VPy true) (lift2 (ebin dflt) (VPy true)
          (lift2 (ebin dflt) (VPy true) (lift2 (ebin dflt) t_n (fst ar))))) (fun f_n =>
        if only then Ok f_n else sdivide_ty dflt f_n (lift2 (ebin dflt) (D p) (VPy false))))))
        (D (promote p r))).
  { intros o [((al & rs) & -> & H1 & H2)|(e & -> & He)].
    - cbn [fst snd] in *. left.
      destruct p; try discriminate Hp; destruct r; try discriminate Hr; ty;
        destruct only; ty; reflexivity.
    - apply yields_err, He. }
  assert (Br : forall o bet, small v bet ->
      (exists x, o = Ok x /\ small v (fst x) /\ small v (snd x)) \/
      (exists e, o = Raise e /\ param_error e) ->
      yields (bind o (fun ar : tval * tval =>
        bind (lift2 (ebin dflt) (lift2 (ediv dflt) (D p) (lift2 (ebin dflt) (snd ar) (D r)))
              (lift2 (ebin dflt) bet (D r))) (fun t_n =>
        bind (lift2 (ediv dflt) (VPy true) (lift2 (ebin dflt) (VPy true)
          (lift2 (ebin dflt) (VPy true) (lift2 (ebin dflt) t_n (fst ar))))) (fun fn =>
        sdivide_ty dflt fn (lift2 (ebin dflt) (D p) (VPy false))))))
        (D (promote p r))).
  { intros o bet Hb [((al & rs) & -> & H1 & H2)|(e & -> & He)].
    - cbn [fst snd] in *. left.
      destruct p; try discriminate Hp; destruct r; try discriminate Hr; ty; reflexivity.
    - apply yields_err, He. }
  assert (N6 : forall k, (exists x, bind (need P k) (fun rs => Ok (alp, rs)) = Ok x /\
                  small v (fst x) /\ small v (snd x)) \/
      (exists e, bind (need P k) (fun rs => Ok (alp, rs)) = Raise e /\ param_error e)).
  { intros k. destruct (need_cases k) as [(x & -> & S)| ->]; cbn; [left|right].
    - eexists; split; [reflexivity|auto].
    - eauto using perr_A. }
  assert (N8 : forall k, (exists x, bind (need P k) (fun rs =>
      bind (lift2 (ebin dflt) alp (VPy true)) (fun a => Ok (a, rs))) = Ok x /\
                  small v (fst x) /\ small v (snd x)) \/
      (exists e, bind (need P k) (fun rs =>
      bind (lift2 (ebin dflt) alp (VPy true)) (fun a => Ok (a, rs))) = Raise e /\ param_error e)).
  { intros k. destruct (alp2 alp Ha) as (a' & Ea & Sa).
    destruct (need_cases k) as [(x & -> & S)| ->]; cbn [bind]; [left|right].
    - cbn [lift2 bind tval_res]. rewrite Ea. cbn. eexists; split; [reflexivity|auto].
    - eauto using perr_A. }
  assert (Bad : forall e, param_error e ->
     (exists x : tval * tval, @Raise (tval * tval) e = Ok x /\ small v (fst x) /\ small v (snd x)) \/
     (exists e0, @Raise (tval * tval) e = Raise e0 /\ param_error e0)) by eauto.
  destruct d.
  - needs "a1". needs "a2". left.
    destruct p; try discriminate Hp; destruct r; try discriminate Hr; ty; reflexivity.
  - apply Ar.
    do 6 (destruct order as [|order]; [apply Bad, perr_V|]).
    destruct order as [|order]; [apply N6|].
    destruct order as [|order]; [apply Bad, perr_V|].
    destruct order as [|order]; [apply N8|].
    destruct order as [|order]; [|apply Bad, perr_V].
    left. eexists; split; [reflexivity|]. cbn [fst snd]. split; [exact Ha|].
    apply get_small, small_py.
  - needs "bet". apply Br; [assumption|].
    do 6 (destruct order as [|order]; [apply Bad, perr_V|]).
    destruct order as [|order]; [apply N6|].
    destruct order as [|order]; [apply Bad, perr_V|].
    destruct order as [|order]; [apply N8|apply Bad, perr_V].
  - needs "a1". needs "a2". needs "bet".
    unfold raise_if. destruct (negb _); cbn [bind]; [apply yields_err, perr_V|].
    left. destruct p; try discriminate Hp; destruct r; try discriminate Hr; ty; reflexivity.
Qed.

Lemma damping_D d p r order only : is_float p = true -> is_float r = true ->
  yields (damping_call_ty dflt d (D p) (D r) order only P) (D (promote p r)) \/
  ((order = 8 \/ order = 10) /\ damping_call_ty dflt d (D p) (D r) order only P = Ok (D p)).
Proof.
  intros Hp Hr. unfold damping_call_ty.
  destruct ((order =? 8)%nat && negb (dmem P "s8") && negb (dmem P "rs8"))%bool eqn:E8.
  { right. split; [|reflexivity]. left. rewrite !andb_true_iff in E8. now apply Nat.eqb_eq. }
  destruct ((order =? 10)%nat && negb (dmem P "s10"))%bool eqn:E10.
  { right. split; [|reflexivity]. right. rewrite andb_true_iff in E10. now apply Nat.eqb_eq. }
  left. unfold raise_if. destruct (existsb _ _); cbn [bind].
  - apply yields_err, perr_T.
  - now apply damping_f_D.
Qed.

(** The precision of one term: positions [p], model [d], [r4r2], [rvdw]. *)
Definition term_dtype (t : TTerm) (p d dr dw : dtype) : dtype :=
  promote p (promote d
    match tt_class t with
    | TwoBodyTerm => promote dr (if radius_rvdw (tt_damping t) then dw else dr)
    | D3ATM => dw
    | _ => dr
    end).

Lemma dd_of_D p : is_float p = true -> dd_of (D p) = Ok (mkDD p v).
Proof. intros H. cbn. now rewrite H. Qed.

(** The only way for [dispersion2] to fail is a damping function that raises. *)
Definition fails (k : dkind) (p r : dtype) (m : res tval) : Prop :=
  exists o e, In o [6; 8; 10] /\ damping_call_ty dflt k (D p) (D r) o false P = Raise e /\
    param_error e /\ m = Raise e.

Lemma dispersion2_S k p d dr dw cut : is_float p = true -> is_float d = true ->
  is_float dr = true -> is_float dw = true -> small v cut ->
  dispersion2_ty dflt (D Int64) (D p) P (D d) (D dr) (D dw) k cut =
    Ok (D (promote p (promote d (promote dr (if radius_rvdw k then dw else dr))))) \/
  fails k p (if radius_rvdw k then dw else dr)
    (dispersion2_ty dflt (D Int64) (D p) P (D d) (D dr) (D dw) k cut).
Proof.
  intros Hp Hd Hr Hw Hc. unfold dispersion2_ty. rewrite dd_of_D by assumption.
  cbn [bind].
  assert (Hz : small v (scalar_of (mkDD p v))) by now apply small_sc.
  assert (Hs6 := get_small "s6" _ Hz). assert (Hs8 := get_small "s8" _ Hz).
  ty.
  assert (Ep : promote p p = p) by (destruct p; reflexivity).
  assert (Er : promote dr dr = dr) by (destruct dr; reflexivity).
  rewrite Er. ty.
  set (rr := if radius_rvdw k then dw else dr).
  replace (if radius_rvdw k then D dw else D dr) with (D rr)
    by (unfold rr; now destruct (radius_rvdw k)).
  assert (Hrr : is_float rr = true) by (unfold rr; now destruct (radius_rvdw k)).
  clearbody rr.
  destruct (damping_D k p rr 6 false Hp Hrr) as [[E6|(e & E6 & He)]|[H _]];
    [| |now destruct H]; rewrite E6; cbn [bind];
    [|right; do 2 eexists; (split; [|split; [eassumption|split; [assumption|reflexivity]]]); cbn; auto].
  assert (Hpr : is_float (promote p rr) = true)
    by (destruct p, rr; try discriminate; reflexivity).
  rewrite where_DS by side. cbn [bind lift2 tval_res].
  assert (E8 : (exists b, damping_call_ty dflt k (D p) (D rr) 8 false P = Ok (D b) /\
                 (b = p \/ b = promote p rr)) \/
          exists e, damping_call_ty dflt k (D p) (D rr) 8 false P = Raise e /\ param_error e).
  { destruct (damping_D k p rr 8 false Hp Hrr) as [[E|E]|[_ E]]; eauto. }
  destruct E8 as [(b & E8 & Hb)|(e & E8 & He)]; rewrite E8; cbn [bind];
    [|right; do 2 eexists; (split; [|split; [eassumption|split; [assumption|reflexivity]]]); cbn; auto].
  assert (Hbf : is_float b = true) by (destruct Hb as [->| ->]; auto).
  rewrite where_DS by side. ty.
  assert (H1 : is_float (promote d (promote p rr)) = true)
    by (destruct p, rr, d; try discriminate; reflexivity).
  assert (H2 : is_float (promote (promote d dr) b) = true)
    by (destruct b, dr, d; try discriminate; reflexivity).
  ty.
  set (res_ty := promote (promote d (promote p rr)) (promote (promote d dr) b)).
  assert (Hres : res_ty = promote p (promote d (promote dr rr))).
  { unfold res_ty. destruct Hb as [->| ->];
    destruct p, d, dr, rr; try discriminate; reflexivity. }
  assert (Hresf : is_float res_ty = true)
    by (rewrite Hres; destruct p, d, dr, rr; try discriminate; reflexivity).
  rewrite Hres in *. clear res_ty Hres.
  destruct (dget P "s10") as [s10|] eqn:E10; cbn [bind]; [|left; ty; reflexivity].
  assert (Hs10 : small v s10) by eauto.
  assert (Hdr : is_float (promote d dr) = true)
    by (destruct dr, d; try discriminate; reflexivity).
  ty.
  assert (E9 : (exists c, damping_call_ty dflt k (D p) (D rr) 10 false P = Ok (D c) /\
                 (c = p \/ c = promote p rr)) \/
          exists e, damping_call_ty dflt k (D p) (D rr) 10 false P = Raise e /\ param_error e).
  { destruct (damping_D k p rr 10 false Hp Hrr) as [[E|E]|[_ E]]; eauto. }
  destruct E9 as [(c & E9 & Hc')|(e & E9 & He)]; rewrite E9; cbn [bind];
    [|right; do 2 eexists; (split; [|split; [eassumption|split; [assumption|reflexivity]]]); cbn; auto].
  assert (Hcf : is_float c = true) by (destruct Hc' as [->| ->]; auto).
  rewrite where_DS by side. ty.
  assert (H3 : is_float (promote (promote d dr) c) = true)
    by (destruct c, dr, d; try discriminate; reflexivity).
  left. ty. reflexivity.
Qed.

Lemma dispersion2_D k p d dr dw cut : is_float p = true -> is_float d = true ->
  is_float dr = true -> is_float dw = true -> small v cut ->
  yields (dispersion2_ty dflt (D Int64) (D p) P (D d) (D dr) (D dw) k cut)
    (D (promote p (promote d (promote dr (if radius_rvdw k then dw else dr))))).
Proof.
  intros Hp Hd Hr Hw Hc.
  destruct (dispersion2_S k p d dr dw cut Hp Hd Hr Hw Hc) as [->|(o & e & _ & _ & He & ->)].
  - now left.
  - now apply yields_err.
Qed.

Lemma rational_ok p r o : is_float p = true -> is_float r = true -> In o [6; 8; 10] ->
  dmem P "a1" = true -> dmem P "a2" = true ->
  exists b, damping_call_ty dflt Rational (D p) (D r) o false P = Ok b.
Proof.
  intros Hp Hr Ho H1 H2. unfold damping_call_ty.
  destruct ((o =? 8)%nat && negb (dmem P "s8") && negb (dmem P "rs8"))%bool; [eauto|].
  destruct ((o =? 10)%nat && negb (dmem P "s10"))%bool; [eauto|].
  replace (existsb (fun k => negb (dmem P k)) (required Rational o)) with false.
  - cbn [raise_if bind]. unfold damping_f, need. unfold dmem in *.
    destruct (dget P "a1") eqn:E1; [|discriminate].
    destruct (dget P "a2") eqn:E2; [|discriminate].
    destruct p; try discriminate Hp; destruct r; try discriminate Hr; ty; eauto.
  - destruct Ho as [<-|[<-|[<-|[]]]]; cbn [required existsb]; now rewrite H1, H2.
Qed.

Lemma zero9_ok p r only : is_float p = true -> is_float r = true ->
  damping_call_ty dflt Zero (D p) (D r) 9 only P = Ok (D (promote p r)).
Proof.
  intros Hp Hr. unfold damping_call_ty. cbn [Nat.eqb andb required existsb raise_if bind].
  unfold damping_f.
  assert (Ha : small v (default (dget P "alp") (VPy true))) by (apply get_small, small_py).
  assert (H9 : small v (default (dget P "rs9") (VPy true))) by (apply get_small, small_py).
  cbn [bind fst snd].
  destruct p; try discriminate Hp; destruct r; try discriminate Hr; ty; destruct only; ty;
    reflexivity.
Qed.

End Terms.

Section Calc.
Context (dflt : dtype) (v : device).
Notation D a := (with_dims a v).
Hypothesis Hf : is_float dflt = true.

Lemma promote_idem a : promote a a = a.
Proof. now destruct a. Qed.
Lemma promote_float a b : is_float a = true -> is_float b = true -> is_float (promote a b) = true.
Proof. now destruct a, b. Qed.

Ltac side := first [reflexivity | assumption | apply small_py
                   | apply small_sc; (reflexivity || assumption)
                   | apply promote_float; assumption].
Ltac ty1 :=
  first
  [ progress cbn [bind lift1 lift2 lift3 tval_res dd_dtype dd_dev
                  sdivide_ty ssqrt_ty fst snd rmap]
  | rewrite table_D | rewrite int_D | rewrite cast_D | rewrite cdist_D | rewrite mask_D
  | rewrite gather_D | rewrite contract_DD | rewrite ecmp_DD
  | rewrite ebin_DD | rewrite where_DD
  | rewrite iadd_DD by side
  | rewrite ediv_DD by side
  | rewrite efun_D by side
  | rewrite ecmp_DS by side
  | rewrite ebin_DS by side | rewrite ebin_SD by side
  | rewrite ediv_DS by side | rewrite ediv_SD by side
  | rewrite where_DS by side ].
Ltac ty := repeat ty1.

Lemma any_small x dd : small v x -> any_to_tensor x dd = scalar_of dd.
Proof.
  intros H. destruct (small_cases v x H) as [[f ->]|(a & w & -> & _)]; reflexivity.
Qed.

Lemma atm_D k p c r cut s9 alp : is_float p = true -> is_float c = true ->
  is_float r = true -> small v cut -> small v s9 -> small v alp ->
  yields (get_atm_dispersion_ty dflt (D Int64) (D p) (D c) (D r) cut k s9 alp)
    (D (promote p (promote c r))).
Proof.
  intros Hp Hc Hr Hcut Hs Ha. unfold get_atm_dispersion_ty.
  rewrite dd_of_D by assumption. cbn [bind].
  rewrite (any_small s9 _ Hs), (any_small alp _ Ha).
  assert (Hz : small v (scalar_of (mkDD p v))) by now apply small_sc.
  set (z := scalar_of (mkDD p v)) in *. clearbody z.
  destruct (ebin_SS dflt v cut cut Hcut Hcut) as (c2 & E2 & Hc2).
  cbn [lift2 tval_res bind]. rewrite E2. ty. rewrite !promote_idem. ty.
  rewrite ?promote_idem. ty. rewrite ?promote_idem. ty. rewrite ?promote_idem. ty.
  destruct (ediv_SS dflt v z (VPy true) Hz (small_py v true)) as (a3 & E3 & Ha3).
  rewrite E3. cbn [bind].
  assert (HP : forall k x, dget [("alp", a3)] k = Some x -> small v x).
  { intros k' x. cbn [dget]. destruct (String.eqb "alp" k'); intros Hx; congruence. }
  destruct (damping_D dflt v [("alp", a3)] HP k r p 9 true Hr Hp) as [[E|(e & E & He)]|[H9 _]].
  - rewrite E. cbn [bind]. assert (Hrp := promote_float r p Hr Hp).
    rewrite where_DS by assumption. ty. repeat (rewrite ?promote_idem; ty).
    assert (Hprp := promote_float p (promote r p) Hp Hrp). ty.
    assert (H4 := promote_float _ c Hprp Hc). ty. left. do 2 f_equal.
    destruct p, r, c; try discriminate; reflexivity.
  - rewrite E. now apply yields_err.
  - destruct H9; discriminate.
Qed.

Lemma atm_zero p c r cut s9 alp : is_float p = true -> is_float c = true ->
  is_float r = true -> small v cut -> small v s9 -> small v alp ->
  get_atm_dispersion_ty dflt (D Int64) (D p) (D c) (D r) cut Zero s9 alp =
    Ok (D (promote p (promote c r))).
Proof.
  intros Hp Hc Hr Hcut Hs Ha. unfold get_atm_dispersion_ty.
  rewrite dd_of_D by assumption. cbn [bind].
  rewrite (any_small s9 _ Hs), (any_small alp _ Ha).
  assert (Hz : small v (scalar_of (mkDD p v))) by now apply small_sc.
  set (z := scalar_of (mkDD p v)) in *. clearbody z.
  destruct (ebin_SS dflt v cut cut Hcut Hcut) as (c2 & E2 & Hc2).
  cbn [lift2 tval_res bind]. rewrite E2. ty. rewrite !promote_idem. ty.
  rewrite ?promote_idem. ty. rewrite ?promote_idem. ty. rewrite ?promote_idem. ty.
  destruct (ediv_SS dflt v z (VPy true) Hz (small_py v true)) as (a3 & E3 & Ha3).
  rewrite E3. cbn [bind].
  assert (HP : forall k x, dget [("alp", a3)] k = Some x -> small v x).
  { intros k' x. cbn [dget]. destruct (String.eqb "alp" k'); intros Hx; congruence. }
  rewrite (zero9_ok dflt v [("alp", a3)] HP r p true Hr Hp).
  cbn [bind]. assert (Hrp := promote_float r p Hr Hp).
  rewrite where_DS by assumption. ty. repeat (rewrite ?promote_idem; ty).
  assert (Hprp := promote_float p (promote r p) Hp Hrp). ty.
  assert (H4 := promote_float _ c Hprp Hc). ty. do 2 f_equal.
  destruct p, r, c; try discriminate; reflexivity.
Qed.

Lemma radii_D t P p4 pw : params_on v P -> term_on v t -> is_float p4 = true -> is_float pw = true ->
  tt_class t <> TwoBodyTerm ->
  get_radii_ty dflt t P (D p4) (D pw) =
    Ok (D (match tt_class t with D3ATM => pw | _ => p4 end)).
Proof.
  intros HP Ht H4 Hw Hc. unfold get_radii_ty.
  assert (S1 := get_small v P HP "a1" _ Ht). assert (S2 := get_small v P HP "a2" _ Ht).
  assert (S9 := get_small v P HP "rs9" _ Ht).
  destruct (tt_class t); try congruence; ty; rewrite ?promote_idem; ty; rewrite ?promote_idem; ty;
    reflexivity.
Qed.

Section OneTerm.
Context (P : PTy) (m : MTy) (p d dr dw : dtype) (cut2 cut3 : tval).
Hypothesis HP : params_on v P.
Hypothesis Hm : model_on v d m.
Hypothesis (Hp : is_float p = true) (Hd : is_float d = true).
Hypothesis (Hr : is_float dr = true) (Hw : is_float dw = true).
Hypothesis (Hc2 : small v cut2) (Hc3 : small v cut3).

Notation run t q := (term_calculate_ty dflt t (D Int64) (D p) P (D p) m q (D dr) (D dw) cut2 cut3).

(** The charges seen by a term. *)
Definition seen (t : TTerm) (q : option dtype) : option dtype := if tt_cdep t then q else None.

Lemma seen_opt t q :
  (if tt_cdep t then option_map (fun a => D a) q else None) = option_map (fun a => D a) (seen t q).
Proof. unfold seen. now destruct (tt_cdep t). Qed.

Lemma weights_seen q : arg_on v q ->
  weight_references_ty dflt m (D p) (option_map (fun a => D a) q) =
    Ok (D (match q with Some a => promote d a | None => d end)).
Proof.
  intros Hq. rewrite (weights_D dflt v Hf d m p); auto.
  - now destruct q.
  - destruct q as [a|]; cbn; [|discriminate]. intros x Hx. exists a. split; [congruence|exact Hq].
Qed.

Lemma term_D t q : term_on v t -> arg_on v q ->
  match seen t q with Some a => promote d a = d | None => True end ->
  yields (run t (option_map (fun a => D a) q)) (D (term_dtype t p d dr dw)).
Proof.
  intros Ht Hq Hs. unfold term_calculate_ty. rewrite seen_opt.
  rewrite weights_seen by (unfold seen; destruct (tt_cdep t); cbn; auto).
  replace (match seen t q with Some a => promote d a | None => d end) with d
    by (destruct (seen t q); auto).
  cbn [bind].
  assert (S9 := get_small v P HP "s9" _ Ht). assert (Sa := get_small v P HP "alp" _ Ht).
  assert (Hrad := radii_D t P dr dw HP Ht Hr Hw).
  unfold term_dtype. destruct (tt_class t) eqn:Ec.
  - rewrite (c6_D v d m Hm). cbn [bind]. now apply dispersion2_D.
  - rewrite (c6_D v d m Hm). cbn [bind]. ty. rewrite ?promote_idem. ty. rewrite ?promote_idem. ty.
    rewrite Hrad by discriminate. cbn [bind]. apply atm_D; assumption.
  - rewrite (wpols_D dflt v d m Hd Hm). ty. repeat (rewrite promote_idem; ty).
    rewrite (trapzd_atm_D dflt v d Hd). ty.
    rewrite Hrad by discriminate. cbn [bind]. apply atm_D; assumption.
  - rewrite (c6_D v d m Hm). cbn [bind]. ty. rewrite ?promote_idem. ty. rewrite ?promote_idem. ty.
    rewrite Hrad by discriminate. cbn [bind]. apply atm_D; assumption.
Qed.

Lemma term_ne t a : tt_cdep t = true -> is_float a = true -> promote d a <> d ->
  run t (Some (D a)) = Raise RuntimeError.
Proof.
  intros Hc Ha Hne. unfold term_calculate_ty. rewrite Hc.
  change (Some (D a)) with (option_map (fun a => D a) (Some a)).
  rewrite weights_seen by exact Ha. cbn [bind].
  destruct (tt_class t).
  - rewrite (c6_ne v d m _ Hm) by congruence. reflexivity.
  - rewrite (c6_ne v d m _ Hm) by congruence. reflexivity.
  - rewrite (wpols_ne dflt v d m _ Hd Hm) by congruence. reflexivity.
  - rewrite (c6_ne v d m _ Hm) by congruence. reflexivity.
Qed.

Lemma sum_D l : forall q e, is_float e = true -> Forall (term_on v) l -> arg_on v q ->
  Forall (fun t => match seen t q with Some a => promote d a = d | None => True end) l ->
  yields (sum_terms_ty dflt (D e) l (fun t => run t (option_map (fun a => D a) q)))
    (D (fold_left (fun a t => promote a (term_dtype t p d dr dw)) l e)).
Proof.
  induction l as [|t l IH]; intros q e He Ht Hq Hs; cbn [sum_terms_ty fold_left]; [now left|].
  apply Forall_cons_iff in Ht as [Ht Htl]. apply Forall_cons_iff in Hs as [Hs Hsl].
  destruct (term_D t q Ht Hq Hs) as [->|(x & -> & Hx)].
  - ty. apply IH; auto. apply promote_float; auto. unfold term_dtype.
    destruct p, d, dr, dw; try discriminate; destruct (tt_class t), (radius_rvdw (tt_damping t));
      reflexivity.
  - cbn. now apply yields_err.
Qed.

Lemma sum_ne l a : forall e, is_float a = true -> promote d a <> d -> Forall (term_on v) l ->
  is_float e = true -> existsb tt_cdep l = true ->
  exists x, sum_terms_ty dflt (D e) l (fun t => run t (Some (D a))) = Raise x.
Proof.
  induction l as [|t l IH]; intros e Ha Hne Ht He Hc; cbn in Hc; [discriminate|].
  apply Forall_cons_iff in Ht as [Ht Htl]. cbn [sum_terms_ty].
  destruct (tt_cdep t) eqn:Ec.
  - rewrite (term_ne t a Ec Ha Hne). cbn. eauto.
  - destruct (term_D t (Some a) Ht Ha) as [E|(x & E & Hx)].
    + unfold seen. now rewrite Ec.
    + cbn [option_map] in E. rewrite E. ty. apply IH; auto. apply promote_float; auto.
      unfold term_dtype. destruct p, d, dr, dw; try discriminate;
      destruct (tt_class t), (radius_rvdw (tt_damping t)); reflexivity.
    + cbn [option_map] in E. rewrite E. cbn. eauto.
Qed.

End OneTerm.

(** The tensor of an optional argument. *)
Lemma calc_D D0 k P cut q r4 rw p d :
  py_dd D0 = mkDD d v ->
  py_model D0 = MKey k \/ (exists m, py_model D0 = MInst m /\ model_on v d m) ->
  Forall (term_on v) (py_terms D0) -> params_on v P -> cutoff_on v cut ->
  is_float p = true -> is_float d = true -> arg_on v q -> arg_on v r4 -> arg_on v rw ->
  (q <> None -> existsb tt_cdep (py_terms D0) = true) ->
  let qd := default q p in
  let dr := default r4 d in
  let dw := default rw d in
  let opt := option_map (fun a => D a) in
  (existsb tt_cdep (py_terms D0) = true -> promote d qd = d) ->
  yields (calculate_ty dflt D0 (D Int64) (D p) P cut (opt q) (opt r4) (opt rw))
    (D (fold_left (fun a t => promote a (term_dtype t p d dr dw)) (py_terms D0) p)).
Proof.
  intros Edd Emod Ht HP Hcut Hp Hd Hq H4 Hw Hqc qd dr dw opt Hprom.
  unfold calculate_ty. cbn [with_dims ty_dtype ty_dev]. fold (D p).
  assert (Hm : exists m, get_model_ty dflt D0 (D Int64) = Ok m /\ model_on v d m).
  { unfold get_model_ty. destruct Emod as [-> |(m & -> & Hm)]; [|eauto].
    rewrite Edd. now apply new_model_D. }
  destruct Hm as (m & -> & Hm). cbn [bind]. rewrite Edd.
  replace (match opt r4 with Some r => Ok r | None => egather (table_of (mkDD d v)) (D Int64) end)
    with (Ok (D dr)) by (unfold dr; destruct r4; cbn -[egather]; rewrite ?gather_D; auto;
                         rewrite table_D, gather_D; auto).
  cbn [bind].
  replace (match opt rw with Some r => Ok r | None => egather (table_of (mkDD d v)) (D Int64) end)
    with (Ok (D dw)) by (unfold dw; destruct rw; cbn -[egather]; rewrite ?gather_D; auto;
                         rewrite table_D, gather_D; auto).
  cbn [bind]. rewrite atomwise_D. cbn [bind rmap].
  assert (Hdr : is_float dr = true) by (unfold dr; destruct r4; auto).
  assert (Hdw : is_float dw = true) by (unfold dw; destruct rw; auto).
  set (cu := default cut (default_cutoff_ty (mkDD p v))).
  assert (Hcu : small v (cu_disp2 cu) /\ small v (cu_disp3 cu)).
  { unfold cu. destruct cut; cbn; auto. }
  destruct Hcu as [Hc2 Hc3].
  destruct (existsb tt_cdep (py_terms D0)) eqn:Ec.
  - specialize (Hprom eq_refl).
    replace (match opt q with Some _ => negb true | None => false end) with false
      by (now destruct q).
    cbn [raise_if bind].
    replace (match opt q with Some q0 => Ok (Some q0) | None => Ok (Some (D p)) end)
      with (Ok (option_map (fun a => D a) (Some qd))) by (unfold qd; now destruct q).
    cbn [bind]. rewrite table_D. apply sum_D; auto.
    + cbn. unfold qd. destruct q; auto.
    + apply Forall_forall. intros t _. unfold seen. destruct (tt_cdep t); auto.
  - assert (q = None) as -> by (destruct q; auto; discriminate Hqc; congruence).
    cbn [opt option_map raise_if bind]. rewrite table_D.
    apply (sum_D P m p d dr dw (cu_disp2 cu) (cu_disp3 cu) HP Hm Hp Hd Hdr Hdw Hc2 Hc3
             (py_terms D0) None p); cbn; auto.
    apply Forall_forall. intros t _. unfold seen. now destruct (tt_cdep t).
Qed.

Lemma calc_ne D0 k P cut q r4 rw p d :
  py_dd D0 = mkDD d v ->
  py_model D0 = MKey k \/ (exists m, py_model D0 = MInst m /\ model_on v d m) ->
  Forall (term_on v) (py_terms D0) -> params_on v P -> cutoff_on v cut ->
  is_float p = true -> is_float d = true -> arg_on v q -> arg_on v r4 -> arg_on v rw ->
  let qd := default q p in
  let opt := option_map (fun a => D a) in
  existsb tt_cdep (py_terms D0) = true -> promote d qd <> d ->
  exists e, calculate_ty dflt D0 (D Int64) (D p) P cut (opt q) (opt r4) (opt rw) = Raise e.
Proof.
  intros Edd Emod Ht HP Hcut Hp Hd Hq H4 Hw qd opt Ec Hne.
  unfold calculate_ty. cbn [with_dims ty_dtype ty_dev]. fold (D p).
  assert (Hm : exists m, get_model_ty dflt D0 (D Int64) = Ok m /\ model_on v d m).
  { unfold get_model_ty. destruct Emod as [-> |(m & -> & Hm)]; [|eauto].
    rewrite Edd. now apply new_model_D. }
  destruct Hm as (m & -> & Hm). cbn [bind]. rewrite Edd.
  set (dr := default r4 d). set (dw := default rw d).
  replace (match opt r4 with Some r => Ok r | None => egather (table_of (mkDD d v)) (D Int64) end)
    with (Ok (D dr)) by (unfold dr; destruct r4; cbn -[egather]; rewrite ?gather_D; auto;
                         rewrite table_D, gather_D; auto).
  cbn [bind].
  replace (match opt rw with Some r => Ok r | None => egather (table_of (mkDD d v)) (D Int64) end)
    with (Ok (D dw)) by (unfold dw; destruct rw; cbn -[egather]; rewrite ?gather_D; auto;
                         rewrite table_D, gather_D; auto).
  cbn [bind]. rewrite atomwise_D. cbn [bind rmap].
  assert (Hdr : is_float dr = true) by (unfold dr; destruct r4; auto).
  assert (Hdw : is_float dw = true) by (unfold dw; destruct rw; auto).
  set (cu := default cut (default_cutoff_ty (mkDD p v))).
  assert (Hcu : small v (cu_disp2 cu) /\ small v (cu_disp3 cu)).
  { unfold cu. destruct cut; cbn; auto. }
  destruct Hcu as [Hc2 Hc3].
  rewrite Ec.
  replace (match opt q with Some _ => negb true | None => false end) with false
    by (now destruct q).
  cbn [raise_if bind].
  replace (match opt q with Some q0 => Ok (Some q0) | None => Ok (Some (D p)) end)
    with (Ok (Some (D qd))) by (unfold qd; now destruct q).
  cbn [bind]. rewrite table_D. apply (sum_ne P m p d) with (1 := HP); auto. unfold qd. destruct q; auto.
Qed.

End Calc.
