(** * C78: example in single precision: the atoms of [C77_example] *)
From Coq Require Import Reals List Arith ZArith QArith Qreals Bool String Lia Lra.
From Flocq Require Import Core.Core IEEE754.BinarySingleNaN.
From Verif Require Import Py Tensor Scalar RInst ModelExt ModelUtils ModelModels SpecCall PropsTables TensorLemmas DataRef
  IeeeInst IeeeP IeeeB IeeeA IeeeM IeeeE IeeeLib PropsAcc PropsAcc3 SpecW SpecIeee IeeeW PropsIeee PropsAccW PropsAccT PropsAccC PropsAccC6
  InstIeee InstAcc InstAcc3 InstAccT.
Import ListNotations.
Open Scope R_scope.

Local Existing Instance Hp64.
Local Existing Instance He64.
Local Existing Instance Hp32.
Local Existing Instance He32.

Lemma h_quarter z r : z = 1%nat \/ z = 6%nat -> (r < 7)%nat -> Rabs (h_ref "eeq" z r) <= 1 / 4.
Proof.
  intros Hz Hr. change (h_ref "eeq" z r) with (IZR (nth r (nth z clsh_tab []) 0%Z) / IZR (Zpos clsh_tab_dec)).
  assert (T : forallb (fun r => (4 * Z.abs (nth r (nth z clsh_tab []) 0%Z) <=? Zpos clsh_tab_dec)%Z) (seq 0 7) = true)
    by (destruct Hz as [->| ->]; vm_compute; reflexivity).
  rewrite forallb_forall in T. specialize (T r ltac:(apply in_seq; lia)). apply Z.leb_le in T.
  apply IZR_le in T. rewrite mult_IZR, abs_IZR in T. assert (P : 0 < IZR (Zpos clsh_tab_dec)) by now apply IZR_lt.
  unfold Rdiv. rewrite Rabs_mult, (Rabs_pos_eq (/ _)) by (left; now apply Rinv_0_lt_compat).
  apply Rmult_le_reg_r with (IZR (Zpos clsh_tab_dec)); auto. rewrite Rmult_assoc, Rinv_l; lra.
Qed.
Lemma sys_12 z r : z = 1%nat \/ z = 6%nat -> (r < 7)%nat -> (0 < sys_ref z r)%Z -> sys_ref z r = 1%Z \/ sys_ref z r = 2%Z.
Proof.
  intros Hz Hr. assert (T : forallb (fun r => (sys_ref z r <=? 2)%Z) (seq 0 7) = true) by (destruct Hz as [->| ->]; vm_compute; reflexivity).
  rewrite forallb_forall in T. specialize (T r ltac:(apply in_seq; lia)). apply Z.leb_le in T. lia.
Qed.

Lemma ex_sec z r : z = 1%nat \/ z = 6%nat -> (r < 7)%nat -> sec_ok (L := Lcr) (L64 := Lcr) X32 no_kw 5 12 2 z r.
Proof.
  intros Hz Hr Ps s. pose proof (h_quarter z r Hz Hr) as Hh. change (the_ref no_kw) with "eeq"%string. set (h := h_ref "eeq" z r) in *.
  change (the_ga no_kw) with (blit 24 128 (inject_Z 3)). change (the_gc no_kw) with (blit 24 128 (inject_Z 2)).
  destruct (lit32 1 ltac:(lia)) as (F1 & V1). destruct (lit32 2 ltac:(lia)) as (F2 & V2). destruct (lit32 3 ltac:(lia)) as (F3 & V3).
  change (dat (x_gam X32) [s]) with (blit 24 128 (inject_Z 1)).
  assert (S20 := p2_small (-20) ltac:(lia)).
  set (zf := dat (x_zeff X32) [s] : f32).
  assert (Cv : zero_or (-20) 10 zf /\ 1 <= B2R zf <= 2).
  { unfold zf, s. destruct (sys_12 z r Hz Hr Ps) as [->| ->].
    - change (dat (x_zeff X32) [Z.to_nat 1] : f32) with (blit 24 128 (inject_Z 1)). split; [split; [exact F1|right; rewrite V1; simpl (bpow radix2 10); lra]|rewrite V1; lra].
    - change (dat (x_zeff X32) [Z.to_nat 2] : f32) with (blit 24 128 (inject_Z 2)). split; [split; [exact F2|right; rewrite V2; simpl (bpow radix2 10); lra]|rewrite V2; lra]. }
  destruct Cv as (Zs & Z1 & Z2).
  assert (I12 : INR 12 = 12) by (rewrite INR_IZR_INZ; reflexivity). assert (I5 : INR 5 = 5) by (rewrite INR_IZR_INZ; reflexivity).
  assert (Ep : bpow radix2 (1 - 24) <= / 16) by (change (/ 16) with (bpow radix2 (-4)); apply bpow_le; lia).
  assert (Eq : bpow radix2 (1 - 24) <= / 512) by (change (/ 512) with (bpow radix2 (-9)); apply bpow_le; lia).
  assert (E0 := bpow_gt_0 radix2 (1 - 24)). apply Rabs_le_inv in Hh as Hh'.
  split; auto; try (apply lit_signed; try lia; [exact S20|simpl; lra]).
  cbv zeta. rewrite V1, V2, V3, I5, I12. change (INR 2) with 2. set (e := bpow radix2 (1 - 24)) in *. rewrite !(Rabs_pos_eq 1), !(Rabs_pos_eq 2), !(Rabs_pos_eq 3) by lra.
  set (zv := B2R zf) in *. assert (Pv : 0 < h + zv - e) by lra.
  split; [lra|]. split; [lra|]. split.
  - assert (zv / (h + zv - e) <= 3 / 2) by (apply Rmult_le_reg_r with (h + zv - e); [exact Pv|]; unfold Rdiv; rewrite Rmult_assoc, Rinv_l; lra). lra.
  - assert (S : / 2 <= zv / (h + zv - e)) by (apply Rmult_le_reg_r with (h + zv - e); [exact Pv|]; unfold Rdiv; rewrite Rmult_assoc, Rinv_l; lra).
    assert (exp (1 * 2 * (1 - zv / (h + zv - e))) <= 3) by (apply Rle_trans with (exp 1); [apply exp_mono; lra|exact exp_le_3]). lra.
Qed.

Lemma ex_atom kind i j : kind = D4M \/ kind = D4SM -> (i < 2)%nat -> (j < 2)%nat ->
  atom_domain (L := Lcr) (L64 := Lcr) X32 kind no_kw HC (Some cnT) (Some qT) [] i j 24 50 240 0 5 30 5 12 2.
Proof.
  intros Hk Hi Hj. unfold atom_domain. cbv zeta. intros r Hr Ex. split; [now apply ex_cn|]. split; [now apply ex_q|]. apply ex_sec; auto.
  destruct i as [|[|i]]; [left|right|lia]; reflexivity.
Qed.
Lemma ex_c6_fit : c6_fit (L := Lcr) (L64 := Lcr) (prec := 24) (emax := 128) no_kw 1 5 12 2 30 (weight_errors 1 5 30 1 0) 5 (-47).
Proof.
  split; try lia; [|vm_compute; discriminate].
  change (the_ga no_kw) with (blit 24 128 (inject_Z 3)). destruct (lit32 3 ltac:(lia)) as (_ & V3). rewrite V3. split; [lra|].
  replace 3 with (1 + (1 + 1)) by ring. rewrite !exp_plus. pose proof exp_le_3. pose proof (exp_pos 1). change (bpow radix2 5) with 32.
  assert (exp 1 * exp 1 <= 9) by nra. assert (exp 1 * (exp 1 * exp 1) <= 3 * 9) by (apply Rmult_le_compat; nra). lra.
Qed.

Lemma size_nonneg z1 z2 w1 w2 : (forall r, 0 <= w1 r) -> (forall r, 0 <= w2 r) ->
  0 <= c6_size (L := Lcr) (L64 := Lcr) X32 no_kw z1 z2 w1 w2.
Proof.
  intros H1 H2.
  assert (F : forall d a h v, (0 <= a)%Z -> (0 <= h)%Z -> fits d a h v = true -> 0 <= Q2R (v # d)).
  { intros d a h v Ha Hh Ft. destruct (fits_range d a h v Ha Hh Ft) as [->|(R & _)]; [lra|pose proof (bpow_gt_0 radix2 (- a)); lra]. }
  assert (P : forall z r w0, 0 <= pol_size (L := Lcr) (L64 := Lcr) X32 no_kw z r w0).
  { intros z r w0. apply Rmult_le_pos; [apply (F DataRef.refascale_tab_dec 4%Z 1%Z); try lia; apply fits2_nth, ascale_fit|]. apply Rplus_le_le_0_compat.
    - apply (F DataAlpha.refalpha_tab_dec 8%Z 10%Z); try lia. apply fits3_nth, alpha_fit.
    - unfold secondary. cbv zeta. destruct (0 <? sys_ref z r)%Z; [|lra]. apply Rmult_le_pos; [apply Rmult_le_pos; [apply Rmult_le_pos|]|].
      + apply (F DataRef.refscount_tab_dec 1%Z 4%Z); try lia. apply fits2_nth, scount_fit.
      + apply (F DataRef.secscale_tab_dec 4%Z 1%Z); try lia. apply fits2_nth, sscale_fit.
      + apply (F DataRef.secalpha_tab_dec 7%Z 7%Z); try lia. apply fits2_nth, salpha_fit.
      + unfold zeta_fun. destruct Rlt_dec; left; apply exp_pos. }
  apply rsum_nonneg. intros r _. apply rsum_nonneg. intros s _. apply Rmult_le_pos; [apply Rmult_le_pos; auto|].
  apply Rmult_le_pos.
  - apply Rmult_le_pos; [lra|]. left. apply Rinv_0_lt_compat. unfold Q2R, pi_lit. cbn [Qnum Qden]. apply Rmult_lt_0_compat; [now apply IZR_lt|apply Rinv_0_lt_compat; now apply IZR_lt].
  - apply rsum_nonneg. intros w0 _. apply Rmult_le_pos; [apply Rmult_le_pos|]; auto.
    apply (F DataPair.trapzd_weights_tab_dec 6%Z 2%Z (nth w0 DataPair.trapzd_weights_tab 0%Z)); try lia. apply fits_nth, trap_fit.
Qed.

Lemma gauss_nonneg wf cn z r : 0 <= gauss_weight wf cn z r.
Proof.
  assert (G : forall s, 0 <= gauss wf cn z s) by (intros; apply rsum_nonneg; intros; left; apply exp_pos).
  unfold gauss_weight, Rdiv. destruct (Req_dec (rsum 7 (gauss wf cn z)) 0) as [Z0|Z0]; [rewrite Z0, Rinv_0; lra|].
  apply Rmult_le_pos; [apply G|]. left. apply Rinv_0_lt_compat.
  assert (0 <= rsum 7 (gauss wf cn z)) by (apply rsum_nonneg; intros; apply G). lra.
Qed.

Example C78_example kind : kind = D4M \/ kind = D4SM ->
  exists m gw c6, built X32 kind no_kw HC 2 [] m /\ weight_references X32 m (Some cnT) (Some qT) = Ok gw /\ get_atomic_c6 m gw = Ok c6 /\
    forall i j, (i < 2)%nat -> (j < 2)%nat ->
      let zi := Z.to_nat (sl1 HC [] i) in let zj := Z.to_nat (sl1 HC [] j) in
      let wi := exact_weight (L := Lcr) (L64 := Lcr) X32 kind no_kw HC (Some cnT) (Some qT) [] i j in
      let wj := exact_weight (L := Lcr) (L64 := Lcr) X32 kind no_kw HC (Some cnT) (Some qT) [] j i in
      is_finite (sl2 c6 [] i j : f32) = true /\
      Rabs (B2R (sl2 c6 [] i j : f32) - c6_pair (real_ext (L := Lcr) (L64 := Lcr) X32) (real_kw (L := Lcr) (L64 := Lcr) no_kw) zi zj wi wj) <=
        5 / 1000 * c6_size (L := Lcr) (L64 := Lcr) X32 no_kw zi zj (fun r => wi r + bpow radix2 (-47)) (fun r => wj r + bpow radix2 (-47)).
Proof.
  intros Hk. destruct (HC_built kind Hk) as (m & Hm).
  destruct (C78_c6_accuracy X32 kind no_kw HC 2 [] m (Some cnT) (Some qT) 1 1 1 1 ltac:(lia) ltac:(lia) Lcr_nonneg
    (C77_correct_exp (prec := 24) (emax := 128) ltac:(lia)) (C77_correct_exp (prec := 53) (emax := 1024) ltac:(lia)) (C76_correct_pow (prec := 53) (emax := 1024) ltac:(lia)) (Lcr_pow_accurate (prec := 53) (emax := 1024) ltac:(lia)) Hm eq_refl eq_refl) as (gw & c6 & E & E6 & _ & H).
  exists m, gw, c6. split; [exact Hm|]. split; [exact E|]. split; [exact E6|]. intros i j Hi Hj zi zj wi wj.
  destruct (H [] i j Logic.I Hi Hj 24%nat 50%nat 240%nat 0%nat 5%nat 30%nat 1%nat 5%nat 12%nat 2%nat 5%Z (-47)%Z (ex_atom kind i j Hk Hi Hj) (ex_atom kind j i Hk Hj Hi) (ex_fit kind Hk) ex_c6_fit) as (Ff & Er).
  split; [exact Ff|]. apply Rle_trans with (1 := Er).
  assert (Wn : forall i j r, 0 <= exact_weight (L := Lcr) (L64 := Lcr) X32 kind no_kw HC (Some cnT) (Some qT) [] i j r).
  { intros a b r. unfold exact_weight, weight. destruct (0 <? _)%Z; [|lra]. apply Rmult_le_pos; [unfold charge_factor, zeta_fun; destruct Rlt_dec; left; apply exp_pos|].
    apply gauss_nonneg. }
  apply Rmult_le_compat_r.
  { pose proof (bpow_gt_0 radix2 (-47)). apply size_nonneg; [intros r; pose proof (Wn i j r); unfold wi; lra|intros r; pose proof (Wn j i r); unfold wj; lra]. }
  change (c6_errors 1 5 12 2 (weight_errors 1 5 30 1 0)) with 41377%nat. unfold growth.
  pose proof (wk_lin (prec := 24) 41377 ltac:(vm_compute; discriminate)) as W. pose proof (ln_w_le (prec := 24)) as Lw. unfold w in W, Lw.
  assert (I : INR 41377 = 41377) by (rewrite INR_IZR_INZ; reflexivity). rewrite I in W.
  change (bpow radix2 (- (24))) with (/ 16777216) in *. lra.
Qed.
