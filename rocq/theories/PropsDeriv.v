(** * Derivatives of the weights and the charge scaling function: C28, C29, C30 *)
From Coq Require Import Reals Ranalysis5 Lra Lia List Arith ZArith QArith Qreals Bool String.
From Verif Require Import Py Tensor Scalar RInst ModelExt ModelUtils ModelModels SpecCall SpecR
  DataRef TensorLemmas Closed ClosedM ClosedModels CallLemmas PropsTables SpecW WeightsR WeightsP PropsWeights DerivR.
Import ListNotations.
Open Scope R_scope.

Section S.
Context {eps mx : R}.
Notation N := (RN eps mx).
Notation T := (tensor (sc N)).
Context (X : Ext (sc N)).

Lemma set_at_same (t : T) b i x : sl1 (set_at t b i x) b i = x.
Proof. unfold sl1, set_at. cbn [dat]. destruct (list_eq_dec Nat.eq_dec (i :: b) (i :: b)); [reflexivity|contradiction]. Qed.
Lemma set_at_other (t : T) b i x b' i' : (i' :: b') <> (i :: b) -> sl1 (set_at t b i x) b' i' = sl1 t b' i'.
Proof. intros H. unfold sl1, set_at. cbn [dat]. destruct (list_eq_dec Nat.eq_dec (i' :: b') (i :: b)); [contradiction|reflexivity]. Qed.

(** ** C28 *)
(** [W x] are the weights when the coordination number of atom [i] of molecule [b] is [x];
    [D] is what [weight_references] returns for [with_dgwdcn] at the coordination numbers [cn].
    The derivative of the weights of that atom is [- D], and no other weights change. *)
Theorem C28_dgwdcn_is_minus_derivative kw numbers n B m (cn : T) (q : option T) dq b i r
  gw D rest (W : R -> T) :
  constructed X D4M kw numbers n B m -> atomwise (Some cn) q n B -> 1 <= mx -> div_contract X ->
  an_atom n B b i -> (r < 7)%nat ->
  12 * Rabs (kw_wf D4M kw numbers b i i) * (Rabs (sl1 cn b i) + 20) <= mx ->
  weight_references_gen X m (Some cn) q dq true = Ok (gw :: D :: rest) ->
  (forall x, weight_references X m (Some (set_at cn b i x)) q = Ok (W x)) ->
  shp D = 7%nat :: n :: B /\
  derivable_pt_lim (fun x => sl2 (W x) b i r) (sl1 cn b i) (- sl2 D b i r) /\
  (forall x b' i' r', an_atom n B b' i' -> (r' < 7)%nat -> (i' :: b') <> (i :: b) ->
     sl2 (W x) b' i' r' = sl2 gw b' i' r').
Proof.
  intros HC Ha Hm HD Hi Hr Hbd E HW.
  destruct (dcn_run X kw numbers n B m cn q dq HC Ha Hm HD) as (gw' & D' & rest' & E' & Sg & SD & V).
  rewrite E in E'. injection E' as <- <- <-. split; [exact SD|].
  assert (VW : forall x b' i' r', an_atom n B b' i' -> (r' < 7)%nat ->
    sl2 (W x) b' i' r' = weight X kw (kw_wf D4M kw numbers b' i' i') (elem numbers b' i') r' (sl1 (set_at cn b i x) b' i') (opt_at q b' i')).
  { intros x b' i' r' Hi' Hr'.
    assert (Ha' : atomwise (Some (set_at cn b i x)) q n B) by (destruct Ha as (A1 & A2); split; auto).
    destruct (weights_of X D4M kw numbers n B m _ q (W x) HC Ha' Hm (HW x)) as (_ & HV).
    apply (HV b' i' i' r'); auto. apply Hi'. }
  split.
  - destruct (V b i r Hi Hr) as (_ & VD). rewrite (VD Hbd).
    apply (deriv_ext (fun x => weight X kw (kw_wf D4M kw numbers b i i) (elem numbers b i) r x (opt_at q b i))).
    { intros x. rewrite VW by auto. now rewrite set_at_same. }
    pose proof (constructed_range X _ _ _ _ _ _ b i HC Hi) as Z.
    unfold weight. destruct (0 <? n_gauss (elem numbers b i) r)%Z eqn:P.
    + set (c := charge_factor X kw (elem numbers b i) r (opt_at q b i)).
      apply (deriv_val _ _ (c * - dgauss_weight (kw_wf D4M kw numbers b i i) (sl1 cn b i) (elem numbers b i) r)); [ring|].
      apply deriv_scal. apply deriv_gauss_weight. apply (exists_ref_real _ r); auto; [now apply Z.ltb_lt in P|unfold elem; lia].
    + apply (deriv_val _ _ 0); [ring|]. apply (derivable_pt_lim_const 0).
  - intros x b' i' r' Hi' Hr' Ne. rewrite VW by auto. rewrite set_at_other by auto.
    symmetry. apply (V b' i' r' Hi' Hr').
Qed.

(** so it is not the derivative, as documented: a hydrogen atom at the coordination number of its
    first reference *)
Theorem C28_documented_derivative_refuted : ext_tables X -> div_contract X -> 1524 <= mx ->
  exists m (cn : T) gw D (W : R -> T),
    new_model X D4M "D4Model" (mkT [1%nat] (fun _ => 1%Z)) no_kw = Ok m /\
    weight_references_gen X m (Some cn) None false true = Ok [gw; D] /\
    (forall x, weight_references X m (Some (set_at cn [] 0 x)) None = Ok (W x)) /\
    ~ derivable_pt_lim (fun x => sl2 (W x) [] 0 1) (sl1 cn [] 0) (sl2 D [] 0 1).
Proof.
  intros HX HD Hm. set (numbers := mkT [1%nat] (fun _ => 1%Z)).
  assert (Hkw : kw_ok (N := N) D4M no_kw 1 []) by (split; [reflexivity|exact I]).
  assert (He : elements_ok (kw_ref (no_kw (N := N))) numbers) by (left; split; [reflexivity|intros; simpl; lia]).
  destruct (new_model_ok X D4M "D4Model" numbers no_kw 1 [] HX (or_introl eq_refl) eq_refl Hkw He) as (m & Em & _).
  assert (HC : constructed X D4M no_kw numbers 1 [] m).
  { split; [exact HX|]. split; [now left|]. split; [reflexivity|]. split; [exact Hkw|]. split; [exact He|]. now exists "D4Model"%string. }
  set (a := cn_ref 1 0). set (cn := mkT [1%nat] (fun _ => a) : T).
  assert (Ha : forall x, atomwise (eps := eps) (mx := mx) (Some (set_at cn [] 0 x)) None 1 []) by (intros x; split; [reflexivity|exact I]).
  assert (Ha0 : atomwise (eps := eps) (mx := mx) (Some cn) None 1 []) by (split; [reflexivity|exact I]).
  assert (M1 : 1 <= mx) by lra.
  assert (Hi : an_atom 1 [] [] 0) by (split; [exact I|lia]).
  destruct (d4_run X no_kw numbers 1 [] m (Some cn) None false true HC Ha0 M1 HD) as (l & El & Hl).
  inversion Hl as [|gw s0 l0 sp0 H0 Hl0]; subst. inversion Hl0 as [|D s1 l1 sp1 H1 Hl1]; subst. inversion Hl1; subst.
  exists m, cn, gw, D.
  exists (fun x => match weight_references X m (Some (set_at cn [] 0 x)) None with Ok g => g | Raise _ => gw end).
  assert (HW : forall x, weight_references X m (Some (set_at cn [] 0 x)) None =
    Ok match weight_references X m (Some (set_at cn [] 0 x)) None with Ok g => g | Raise _ => gw end).
  { intros x. destruct (weights_run X D4M no_kw numbers 1 [] m _ None HC (Ha x) M1) as (g & Eg & _). now rewrite Eg. }
  split; [exact Em|]. split; [exact El|]. split; [exact HW|]. intros F.
  assert (Ca : 0 <= a <= 20) by (apply C38_cn_nonneg; lia).
  assert (Hbd : 12 * Rabs (kw_wf (eps := eps) (mx := mx) D4M no_kw numbers [] 0 0) * (Rabs (sl1 cn [] 0) + 20) <= mx).
  { change (12 * Rabs 6 * (Rabs a + 20) <= mx). rewrite !Rabs_right by lra.
    assert (a <= 1); [|lra]. unfold a. rewrite cn_ref_int. apply Rmult_le_reg_r with (IZR (Zpos refcovcn_tab_dec)); [apply IZR_lt; reflexivity|].
    unfold Rdiv. rewrite Rmult_assoc, Rinv_l, Rmult_1_r, Rmult_1_l by (apply Rgt_not_eq, IZR_lt; reflexivity).
    apply IZR_le. vm_compute. discriminate. }
  destruct (C28_dgwdcn_is_minus_derivative no_kw numbers 1 [] m cn None false [] 0 1 gw D [] _ HC Ha0 M1 HD Hi ltac:(lia) Hbd El HW) as (_ & G & _).
  assert (EQ : sl2 D [] 0 1 = - sl2 D [] 0 1) by exact (uniqueness_limite _ _ _ _ F G).
  destruct (dcn_run X no_kw numbers 1 [] m cn None false HC Ha0 M1 HD) as (gw' & D' & rest' & E' & _ & _ & V).
  rewrite El in E'. injection E' as <- <- <-.
  destruct (V [] 0%nat 1%nat Hi ltac:(lia)) as (_ & VD). rewrite (VD Hbd) in EQ. clear - EQ.
  change (elem numbers [] 0) with 1%nat in EQ. change (kw_wf (eps := eps) (mx := mx) D4M no_kw numbers [] 0 0) with 6 in EQ. change (sl1 cn [] 0) with a in EQ.
  replace (0 <? n_gauss 1 1)%Z with true in EQ by reflexivity.
  assert (P : 0 < charge_factor X no_kw 1 1 (opt_at (mx := mx) (eps := eps) None [] 0)) by apply zeta_fun_pos.
  assert (Q : 0 < - dgauss_weight 6 a 1 1).
  { assert (A0 : dgauss 6 a 1 0 = 0).
    { unfold dgauss. replace (Z.to_nat (n_gauss 1 0)) with 3%nat by reflexivity. fold a. cbn [rsum]. rewrite !(Rminus_diag_eq a a) by reflexivity. ring. }
    assert (AB : forall s, (2 <= s < 7)%nat -> dgauss 6 a 1 s = 0 /\ gauss 6 a 1 s = 0).
    { intros s Hs. unfold dgauss, gauss. replace (Z.to_nat (n_gauss 1 s)) with 0%nat; [split; reflexivity|].
      destruct s as [|[|[|[|[|[|[|s]]]]]]]; try reflexivity; lia. }
    assert (c1 : a = 0). { unfold a. rewrite cn_ref_int. replace (cn_int 1 0) with 0%Z by reflexivity. apply frac_0. }
    assert (a0 : 0 < cn_ref 1 1). { rewrite cn_ref_int. apply Rdiv_lt_0_compat; apply IZR_lt; [vm_compute|]; reflexivity. }
    assert (A1 : dgauss 6 a 1 1 < 0).
    { unfold dgauss. replace (Z.to_nat (n_gauss 1 1)) with 1%nat by reflexivity. rewrite c1. cbn [rsum INR].
      match goal with |- context [exp ?y] => pose proof (exp_pos y) as E; set (e := exp y) in * end.
      pose proof (Rmult_lt_0_compat _ _ a0 E) as P1. apply Rle_lt_trans with (- 12 * (cn_ref 1 1 * e)); [right; ring|lra]. }
    assert (G0 : 0 < gauss 6 a 1 0) by (apply gauss_pos; unfold exists_ref; reflexivity).
    assert (G1 : 0 < gauss 6 a 1 1) by (apply gauss_pos; unfold exists_ref; reflexivity).
    assert (SG : rsum 7 (gauss 6 a 1) = gauss 6 a 1 0 + gauss 6 a 1 1).
    { cbn [rsum]. rewrite (proj2 (AB 2%nat ltac:(lia))), (proj2 (AB 3%nat ltac:(lia))), (proj2 (AB 4%nat ltac:(lia))), (proj2 (AB 5%nat ltac:(lia))), (proj2 (AB 6%nat ltac:(lia))). ring. }
    assert (SD : rsum 7 (dgauss 6 a 1) = dgauss 6 a 1 1).
    { cbn [rsum]. rewrite (proj1 (AB 2%nat ltac:(lia))), (proj1 (AB 3%nat ltac:(lia))), (proj1 (AB 4%nat ltac:(lia))), (proj1 (AB 5%nat ltac:(lia))), (proj1 (AB 6%nat ltac:(lia))). rewrite A0. ring. }
    unfold dgauss_weight. rewrite SG, SD.
    replace (- ((dgauss 6 a 1 1 - gauss 6 a 1 1 * dgauss 6 a 1 1 / (gauss 6 a 1 0 + gauss 6 a 1 1)) / (gauss 6 a 1 0 + gauss 6 a 1 1)))
      with (- dgauss 6 a 1 1 * gauss 6 a 1 0 / (gauss 6 a 1 0 + gauss 6 a 1 1) ^ 2) by (field; lra).
    apply Rdiv_lt_0_compat; [apply Rmult_lt_0_compat; lra|]. apply pow_lt. lra. }
  assert (PQ := Rmult_lt_0_compat _ _ P Q). cbv iota in EQ. lra.
Qed.

(** ** C29 *)
(** [W x]: the weights when the charge of atom [i] is [x]; [D]: what is returned for [with_dgwdq].
    [q + zeff] is the effective charge of the atom. *)
Theorem C29_dgwdq_derivative kind kw numbers n B m (cn : option T) (q : T) b i j r gw D (W : R -> T) :
  constructed X kind kw numbers n B m -> atomwise cn (Some q) n B -> 1 <= mx -> div_contract X ->
  an_atom n B b i -> (j < n)%nat -> (r < 7)%nat ->
  weight_references_gen X m cn (Some q) true false = Ok [gw; D] ->
  (forall x, weight_references X m cn (Some (set_at q b i x)) = Ok (W x)) ->
  let qeff := sl1 q b i + dat (x_zeff X) [elem numbers b i] in
  (0 < qeff -> qeff <> eps ->
     derivable_pt_lim (fun x => wt kind (W x) b i j r) (sl1 q b i) ((qeff / (qeff - eps)) ^ 2 * wt kind D b i j r)) /\
  (qeff < 0 ->
     derivable_pt_lim (fun x => wt kind (W x) b i j r) (sl1 q b i) 0 /\ wt kind D b i j r = 0) /\
  (forall x b' i' j' r', an_atom n B b' i' -> (j' < n)%nat -> (r' < 7)%nat -> (i' :: b') <> (i :: b) ->
     wt kind (W x) b' i' j' r' = wt kind gw b' i' j' r').
Proof.
  intros HC Ha Hm HD Hi Hj Hr E HW qeff.
  destruct (dq_run X kind kw numbers n B m cn (Some q) HC Ha Hm HD) as (gw' & D' & E' & _ & _ & V).
  rewrite E in E'. injection E' as <- <-.
  assert (VW : forall x b' i' j' r', an_atom n B b' i' -> (j' < n)%nat -> (r' < 7)%nat ->
    wt kind (W x) b' i' j' r' = weight X kw (kw_wf kind kw numbers b' i' j') (elem numbers b' i') r' (opt_at cn b' i') (sl1 (set_at q b i x) b' i')).
  { intros x b' i' j' r' Hi' Hj' Hr'.
    assert (Ha' : atomwise cn (Some (set_at q b i x)) n B) by (destruct Ha as (A1 & A2); split; auto).
    destruct (weights_of X kind kw numbers n B m cn _ (W x) HC Ha' Hm (HW x)) as (_ & HV).
    apply (HV b' i' j' r'); auto. }
  destruct (V b i j r Hi Hj Hr) as (_ & VD). cbn [opt_at] in VD. fold qeff in VD.
  assert (EX : forall l, derivable_pt_lim (fun x => weight X kw (kw_wf kind kw numbers b i j) (elem numbers b i) r (opt_at cn b i) x) (sl1 q b i) l ->
     derivable_pt_lim (fun x => wt kind (W x) b i j r) (sl1 q b i) l).
  { intros l. apply deriv_ext. intros x. rewrite VW by auto. now rewrite set_at_same. }
  set (z := elem numbers b i) in *. set (g := gauss_weight (kw_wf kind kw numbers b i j) (opt_at cn b i) z r) in *.
  assert (DW : forall d, derivable_pt_lim (fun x => zeta_fun eps (kw_ga kw) (dat (x_gam X) [z] * kw_gc kw)
      (q_ref (kw_ref kw) z r + dat (x_zeff X) [z]) (x + dat (x_zeff X) [z])) (sl1 q b i) d ->
      derivable_pt_lim (fun x => weight X kw (kw_wf kind kw numbers b i j) z r (opt_at cn b i) x) (sl1 q b i)
        (if (0 <? n_gauss z r)%Z then d * g else 0)).
  { intros d Hd. unfold weight. destruct (0 <? n_gauss z r)%Z; [|apply (derivable_pt_lim_const 0)].
    fold g. unfold charge_factor.
    apply (deriv_ext (fun x => g * zeta_fun eps (kw_ga kw) (dat (x_gam X) [z] * kw_gc kw)
      (q_ref (kw_ref kw) z r + dat (x_zeff X) [z]) (x + dat (x_zeff X) [z]))); [intros; ring|].
    apply (deriv_val _ _ (g * d)); [ring|]. now apply deriv_scal. }
  split; [|split].
  - intros H0 Hne. apply EX. eapply deriv_val; [|apply DW, deriv_zeta_fun; auto].
    rewrite VD. fold qeff. destruct (0 <? n_gauss z r)%Z; ring.
  - intros H0. destruct (deriv_zeta_neg (eps := eps) (kw_ga kw) (dat (x_gam X) [z] * kw_gc kw)
      (q_ref (kw_ref kw) z r + dat (x_zeff X) [z]) (dat (x_zeff X) [z]) (sl1 q b i) H0) as (G1 & G2).
    split.
    + apply EX. eapply deriv_val; [|apply DW, G1]. destruct (0 <? n_gauss z r)%Z; ring.
    + rewrite VD. fold qeff in G2. rewrite G2. destruct (0 <? n_gauss z r)%Z; ring.
  - intros x b' i' j' r' Hi' Hj' Hr' Ne. rewrite VW by auto. rewrite set_at_other by auto.
    symmetry. apply (V b' i' j' r' Hi' Hj' Hr').
Qed.

(** D4S has no coordination number derivative *)
Theorem C28_d4s_not_implemented kw numbers n B m (cn q : option T) dq :
  constructed X D4SM kw numbers n B m -> atomwise cn q n B -> 1 <= mx -> div_contract X ->
  weight_references_gen X m cn q dq true = Raise NotImplementedError.
Proof.
  intros HC Ha Hm HD. destruct (d4s_run X kw numbers n B m cn q false HC Ha Hm HD) as (l & E & _).
  pose proof (constructed_is X _ _ _ _ _ _ HC) as ((Hok & EK & _) & _).
  destruct Hok as (_ & _ & _ & _ & _ & Hwf).
  unfold weight_references_gen in *. rewrite EK in *. destruct (m_wf m) as [wf|]; [|contradiction].
  rewrite d4s_dcn, E. reflexivity.
Qed.

(** ** C30 *)
(** the function computed by [_zeta], elementwise on tensors of equal shape *)
Theorem C30_zeta_formula (ga : R) (gam qref qmod : T) s :
  shp gam = s -> shp qref = s -> shp qmod = s ->
  exists z, zeta (K := RS eps mx) ga (Ok gam) (Ok qref) (Ok qmod) = Ok z /\ shp z = s /\
    forall ix, valid s ix -> dat z ix = zeta_fun eps ga (dat gam ix) (dat qref ix) (dat qmod ix).
Proof.
  intros H1 H2 H3.
  assert (E : forall t : T, shp t = s -> ev (Ok t) s (dat t)).
  { intros t Ht. exists t. split; [reflexivity|]. now apply ten_eq. }
  destruct (zeta_ev (K := RS eps mx) ga (Ok gam) (Ok qref) (Ok qmod) s s s s s _ _ _ (E _ H1) (E _ H2) (E _ H3)) as (z & Ez & Hs & Hd);
    try apply bshape_refl.
  { intros i Hi. rewrite !(bidx_valid s i Hi). reflexivity. }
  { intros i Hi. rewrite !(bidx_valid s i Hi). reflexivity. }
  exists z. split; [exact Ez|]. split; [exact Hs|]. intros ix Hix. rewrite Hd by auto. rewrite !bidx_valid by auto.
  exact (zeta_s_R (mx := mx) ga (dat gam ix) (dat qref ix) (dat qmod ix)).
Qed.

Theorem C30_range e ga gam qref qmod : 0 <= ga ->
  0 < zeta_fun e ga gam qref qmod <= exp ga /\
  (qmod <= 0 -> zeta_fun e ga gam qref qmod = exp ga).
Proof.
  intros Hg. split; [split; [apply zeta_fun_pos|now apply zeta_fun_le]|].
  intros Hq. unfold zeta_fun. destruct (Rlt_dec 0 qmod); [lra|reflexivity].
Qed.

Theorem C30_reference_value e ga gam qref : 0 <= e -> 0 < qref -> zeta_fun e ga gam qref (qref + e) = 1.
Proof.
  intros He Hq. unfold zeta_fun. destruct (Rlt_dec 0 (qref + e)); [|lra].
  replace (qref / (qref + e - e)) with 1 by (field; lra).
  replace (gam * (1 - 1)) with 0 by ring. rewrite exp_0. replace (ga * (1 - 1)) with 0 by ring. apply exp_0.
Qed.

Lemma exp_le x y : x <= y -> exp x <= exp y.
Proof. intros [H| ->]; [left; now apply exp_increasing|right; reflexivity]. Qed.

Theorem C30_decreasing e ga gam qref q1 q2 : 0 <= e -> 0 <= ga -> 0 <= gam -> 0 <= qref -> e < q1 -> q1 < q2 ->
  zeta_fun e ga gam qref q2 <= zeta_fun e ga gam qref q1 /\
  (0 < ga -> 0 < gam -> 0 < qref -> zeta_fun e ga gam qref q2 < zeta_fun e ga gam qref q1).
Proof.
  intros He Hg Hm Hq H1 H2. unfold zeta_fun. destruct (Rlt_dec 0 q1); [|lra]. destruct (Rlt_dec 0 q2); [|lra].
  assert (I : / (q2 - e) < / (q1 - e)) by (apply Rinv_lt_contravar; [apply Rmult_lt_0_compat|]; lra).
  split.
  - apply exp_le, Rmult_le_compat_l; auto.
    assert (exp (gam * (1 - qref / (q1 - e))) <= exp (gam * (1 - qref / (q2 - e)))); [|lra].
    apply exp_le, Rmult_le_compat_l; auto. unfold Rdiv.
    assert (qref * / (q2 - e) <= qref * / (q1 - e)) by (apply Rmult_le_compat_l; lra). lra.
  - intros Hg' Hm' Hq'. apply exp_increasing, Rmult_lt_compat_l; auto.
    assert (exp (gam * (1 - qref / (q1 - e))) < exp (gam * (1 - qref / (q2 - e)))); [|lra].
    apply exp_increasing, Rmult_lt_compat_l; auto. unfold Rdiv.
    assert (qref * / (q2 - e) < qref * / (q1 - e)) by (apply Rmult_lt_compat_l; lra). lra.
Qed.

(** but not across the regularisation: for effective charges between 0 and [e] the value is
    smaller than for any larger charge, and smaller than one *)
Theorem C30_monotone_refuted e ga gam qref q1 q2 : 0 < e -> 0 < ga -> 0 < gam -> 0 < qref ->
  0 < q1 < e -> e < q2 ->
  zeta_fun e ga gam qref q1 < zeta_fun e ga gam qref q2 /\ zeta_fun e ga gam qref q1 < 1.
Proof.
  intros He Hg Hm Hq H1 H2. unfold zeta_fun. destruct (Rlt_dec 0 q1); [|lra]. destruct (Rlt_dec 0 q2); [|lra].
  assert (A : qref / (q1 - e) < 0).
  { unfold Rdiv. rewrite <- (Rmult_0_r qref). apply Rmult_lt_compat_l; auto. apply Rinv_lt_0_compat. lra. }
  assert (B : 0 < qref / (q2 - e)) by (apply Rdiv_lt_0_compat; lra).
  split.
  - apply exp_increasing, Rmult_lt_compat_l; auto.
    assert (exp (gam * (1 - qref / (q2 - e))) < exp (gam * (1 - qref / (q1 - e)))); [|lra].
    apply exp_increasing, Rmult_lt_compat_l; lra.
  - rewrite <- exp_0 at 3. apply exp_increasing.
    assert (1 < exp (gam * (1 - qref / (q1 - e)))).
    { rewrite <- exp_0 at 1. apply exp_increasing. apply Rmult_lt_0_compat; lra. }
    nra.
Qed.

(** the weights of an atom decrease when its charge is raised (effective charge above [eps]) *)
Theorem C30_weights_decrease_with_charge kind kw numbers n B m (cn : option T) (q q' : T) gw gw' b i j r :
  constructed X kind kw numbers n B m -> atomwise cn (Some q) n B -> atomwise cn (Some q') n B -> 1 <= mx ->
  weight_references X m cn (Some q) = Ok gw -> weight_references X m cn (Some q') = Ok gw' ->
  an_atom n B b i -> (j < n)%nat -> (r < 7)%nat ->
  let z := elem numbers b i in
  0 <= eps -> 0 <= kw_ga kw -> 0 <= dat (x_gam X) [z] * kw_gc kw -> 0 <= q_ref (kw_ref kw) z r + dat (x_zeff X) [z] ->
  eps < sl1 q b i + dat (x_zeff X) [z] -> sl1 q b i <= sl1 q' b i ->
  wt kind gw' b i j r <= wt kind gw b i j r.
Proof.
  intros HC Ha Ha' Hm E E' Hi Hj Hr z He Hg Hgam Hqr Hq Hle.
  rewrite (proj2 (weights_of X _ _ _ _ _ _ _ _ _ HC Ha Hm E) b i j r Hi Hj Hr).
  rewrite (proj2 (weights_of X _ _ _ _ _ _ _ _ _ HC Ha' Hm E') b i j r Hi Hj Hr).
  cbn [opt_at]. unfold weight. fold z. destruct (0 <? n_gauss z r)%Z eqn:P; [|lra].
  pose proof (constructed_range X _ _ _ _ _ _ b i HC Hi) as Z.
  apply Rmult_le_compat_r.
  - apply gauss_weight_range; auto. apply (exists_ref_real _ r); auto; [now apply Z.ltb_lt in P|unfold z, elem; lia].
  - unfold charge_factor. destruct (Rle_lt_or_eq_dec _ _ Hle) as [L| ->]; [|lra].
    apply C30_decreasing; auto. lra.
Qed.
End S.
Print Assumptions C28_dgwdcn_is_minus_derivative.
Print Assumptions C28_documented_derivative_refuted.
Print Assumptions C28_d4s_not_implemented.
Print Assumptions C29_dgwdq_derivative.
Print Assumptions C30_zeta_formula.
Print Assumptions C30_range.
Print Assumptions C30_reference_value.
Print Assumptions C30_decreasing.
Print Assumptions C30_monotone_refuted.
Print Assumptions C30_weights_decrease_with_charge.
