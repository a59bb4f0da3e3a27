(** * C82: example in single precision: the four results of [get_properties] for the atoms of [C78_example] *)
From Coq Require Import Reals List Arith ZArith QArith Qreals Bool String Lia Lra.
From Flocq Require Import Core.Core IEEE754.BinarySingleNaN.
From Verif Require Import Py Tensor Scalar RInst ModelExt ModelUtils ModelModels ModelDisp SpecCall PropsTables TensorLemmas DataRef
  IeeeInst IeeeP IeeeB IeeeA IeeeM IeeeE IeeeLib PropsAcc PropsAcc3 SpecW SpecIeee IeeeW PropsIeee PropsAccW PropsAccT PropsAccC PropsAccC6 PropsAccP
  InstIeee InstAcc InstAcc3 InstAccT InstAccC6.
Import ListNotations.
Open Scope R_scope.

Local Existing Instance Hp64.
Local Existing Instance He64.
Local Existing Instance Hp32.
Local Existing Instance He32.

Lemma pol_size_nonneg z r w0 : 0 <= pol_size (L := Lcr) (L64 := Lcr) X32 no_kw z r w0.
Proof.
  assert (F : forall d a h v, (0 <= a)%Z -> (0 <= h)%Z -> fits d a h v = true -> 0 <= Q2R (v # d)).
  { intros d a h v Ha Hh Ft. destruct (fits_range d a h v Ha Hh Ft) as [->|(R & _)]; [lra|pose proof (bpow_gt_0 radix2 (- a)); lra]. }
  apply Rmult_le_pos; [apply (F DataRef.refascale_tab_dec 4%Z 1%Z); try lia; apply fits2_nth, ascale_fit|]. apply Rplus_le_le_0_compat.
  - apply (F DataAlpha.refalpha_tab_dec 8%Z 10%Z); try lia. apply fits3_nth, alpha_fit.
  - unfold secondary. cbv zeta. destruct (0 <? sys_ref z r)%Z; [|lra]. apply Rmult_le_pos; [apply Rmult_le_pos; [apply Rmult_le_pos|]|].
    + apply (F DataRef.refscount_tab_dec 1%Z 4%Z); try lia. apply fits2_nth, scount_fit.
    + apply (F DataRef.secscale_tab_dec 4%Z 1%Z); try lia. apply fits2_nth, sscale_fit.
    + apply (F DataRef.secalpha_tab_dec 7%Z 7%Z); try lia. apply fits2_nth, salpha_fit.
    + unfold zeta_fun. destruct Rlt_dec; left; apply exp_pos.
Qed.

(** coordination numbers 1 and 3 and charges 1 and -1, whatever the geometry *)
Definition Wp : World N32 := mkWorld (fun _ _ _ => Ok cnT) (fun _ _ _ => Ok cnT) (fun x _ => x) (fun _ _ _ _ => Ok qT).

Lemma HC_range ix : valid (shp HC) ix -> (0 <= dat HC ix <= 103)%Z.
Proof. destruct (HC_built D4M (or_introl eq_refl)) as (m & _ & _ & _ & _ & [(_ & H)|(H & _)] & _); [apply H|discriminate H]. Qed.

Example C82_example positions : exists c6 al,
  get_properties X32 Wp HC positions None None = Ok (cnT, qT, c6, al) /\ shp c6 = [2; 2]%nat /\ shp al = [2%nat] /\
  forall i, (i < 2)%nat ->
    let z := Z.to_nat (sl1 HC [] i) in
    let wt := exact_weight (L := Lcr) (L64 := Lcr) X32 D4M no_kw HC (Some cnT) (Some qT) [] i i in
    is_finite (sl1 al [] i : f32) = true /\
    Rabs (B2R (sl1 al [] i : f32) - pol_atom (real_ext (L := Lcr) (L64 := Lcr) X32) (real_kw (L := Lcr) (L64 := Lcr) no_kw) z wt 0) <=
      25 / 10000 * rsum 7 (fun r => (wt r + bpow radix2 (-47)) * pol_size (L := Lcr) (L64 := Lcr) X32 no_kw z r 0).
Proof.
  destruct (HC_built D4M (or_introl eq_refl)) as (m & HX & _ & Hn & _).
  destruct (C82_get_properties X32 Wp HC positions None None 2 [] cnT qT 1 1 1 1 ltac:(lia) ltac:(lia) Lcr_nonneg
    (C77_correct_exp (prec := 24) (emax := 128) ltac:(lia)) (C77_correct_exp (prec := 53) (emax := 1024) ltac:(lia)) (C76_correct_pow (prec := 53) (emax := 1024) ltac:(lia)) (Lcr_pow_accurate (prec := 53) (emax := 1024) ltac:(lia))
    HX Hn HC_range eq_refl eq_refl eq_refl eq_refl) as (c6 & al & E & S6 & Sa & H).
  exists c6, al. split; [exact E|]. split; [exact S6|]. split; [exact Sa|]. intros i Hi z wt.
  destruct (H [] i Logic.I Hi 24%nat 50%nat 240%nat 0%nat 5%nat 30%nat 1%nat 5%nat 12%nat 2%nat 5%Z (-47)%Z (ex_fit D4M (or_introl eq_refl)) ex_c6_fit) as (Ha & _).
  destruct (Ha (ex_atom D4M i i (or_introl eq_refl) Hi Hi)) as (Ff & Er).
  split; [exact Ff|]. apply Rle_trans with (1 := Er).
  assert (Wn : forall r, 0 <= wt r).
  { intros r. unfold wt, exact_weight, weight. destruct (0 <? _)%Z; [|lra]. apply Rmult_le_pos; [unfold charge_factor, zeta_fun; destruct Rlt_dec; left; apply exp_pos|].
    apply gauss_nonneg. }
  apply Rmult_le_compat_r.
  { pose proof (bpow_gt_0 radix2 (-47)). apply rsum_nonneg. intros r _. apply Rmult_le_pos; [pose proof (Wn r); lra|apply pol_size_nonneg]. }
  change (pol_errors 1 5 12 2 (weight_errors 1 5 30 1 0)) with 20674%nat. unfold growth.
  pose proof (wk_lin (prec := 24) 20674 ltac:(vm_compute; discriminate)) as W. pose proof (ln_w_le (prec := 24)) as Lw. unfold w in W, Lw.
  assert (I : INR 20674 = 20674) by (rewrite INR_IZR_INZ; reflexivity). rewrite I in W.
  change (bpow radix2 (- (24))) with (/ 16777216) in *. lra.
Qed.
Print Assumptions C82_example.
