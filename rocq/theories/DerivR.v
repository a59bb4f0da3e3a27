(** * Derivatives of the reference weights over the reals (proof layer) *)
From Coq Require Import Reals Ranalysis5 Lra Lia List Arith ZArith QArith Qreals Bool String.
From Verif Require Import Py Tensor Scalar RInst ModelExt ModelUtils ModelModels SpecCall SpecR
  TensorLemmas Closed ClosedM ClosedModels CallLemmas PropsTables SpecW WeightsR WeightsP PropsWeights.
Import ListNotations.
Open Scope R_scope.

Lemma deriv_rsum n (f : nat -> R -> R) (d : nat -> R) x :
  (forall k, (k < n)%nat -> derivable_pt_lim (f k) x (d k)) ->
  derivable_pt_lim (fun y => rsum n (fun k => f k y)) x (rsum n d).
Proof.
  induction n as [|n IH]; intros H; cbn [rsum].
  - apply (derivable_pt_lim_const 0 x).
  - apply (derivable_pt_lim_plus (fun y => rsum n (fun k => f k y)) (f n)); auto.
Qed.

Lemma deriv_ext f g x l : (forall y, f y = g y) -> derivable_pt_lim f x l -> derivable_pt_lim g x l.
Proof.
  intros E H e He. destruct (H e He) as (d & Hd). exists d. intros h H1 H2. rewrite <- !E. auto.
Qed.
Lemma deriv_val f x l l' : l = l' -> derivable_pt_lim f x l -> derivable_pt_lim f x l'.
Proof. now intros ->. Qed.

Lemma deriv_exp_comp f x d : derivable_pt_lim f x d -> derivable_pt_lim (fun y => exp (f y)) x (exp (f x) * d).
Proof. intros H. exact (derivable_pt_lim_comp f exp x d (exp (f x)) H (derivable_pt_lim_exp (f x))). Qed.

Lemma deriv_lin a c x : derivable_pt_lim (fun y => a * y + c) x a.
Proof.
  apply (deriv_val _ _ (a * 1 + 0)); [ring|].
  apply (derivable_pt_lim_plus (fun y => a * y) (fun _ => c)); [|apply derivable_pt_lim_const].
  apply (derivable_pt_lim_scal id). apply derivable_pt_lim_id.
Qed.
Lemma deriv_scal a f x d : derivable_pt_lim f x d -> derivable_pt_lim (fun y => a * f y) x (a * d).
Proof. intros H. exact (derivable_pt_lim_scal f a x d H). Qed.

Section G.
(** minus the derivative of the Gaussians *)
Definition dgauss (wf cn : R) (z r : nat) : R :=
  rsum (Z.to_nat (n_gauss z r)) (fun k => 2 * INR (S k) * wf * (cn - cn_ref z r) * exp (- (INR (S k) * wf * (cn - cn_ref z r) ^ 2))).

Lemma deriv_gauss wf cn z r : derivable_pt_lim (fun x => gauss wf x z r) cn (- dgauss wf cn z r).
Proof.
  unfold gauss, dgauss. rewrite <- rsum_opp. apply deriv_rsum. intros k _.
  set (a := INR (S k) * wf). set (c := cn_ref z r).
  apply (deriv_val _ _ (exp (- (a * (cn - c) ^ 2)) * (-2 * a * (cn - c)))); [unfold a; ring|].
  apply (deriv_exp_comp (fun y => - (a * (y - c) ^ 2))).
  apply (deriv_ext (fun y => (- a * y + a * c) * (1 * y + - c))); [intros; ring|].
  apply (deriv_val _ _ ((- a) * (1 * cn + - c) + (- a * cn + a * c) * 1)); [ring|].
  apply (derivable_pt_lim_mult (fun y => - a * y + a * c) (fun y => 1 * y + - c)); apply deriv_lin.
Qed.

Definition dgauss_weight (wf cn : R) (z r : nat) : R :=
  (dgauss wf cn z r - gauss wf cn z r * rsum 7 (dgauss wf cn z) / rsum 7 (gauss wf cn z)) / rsum 7 (gauss wf cn z).

Lemma deriv_gauss_weight wf cn z r : (1 <= z <= 103)%nat ->
  derivable_pt_lim (fun x => gauss_weight wf x z r) cn (- dgauss_weight wf cn z r).
Proof.
  intros Hz. unfold gauss_weight. pose proof (gauss_sum_pos wf cn z Hz) as P.
  apply (deriv_val _ _ ((- dgauss wf cn z r * rsum 7 (gauss wf cn z) - (rsum 7 (fun s => - dgauss wf cn z s)) * gauss wf cn z r) / Rsqr (rsum 7 (gauss wf cn z)))).
  { rewrite rsum_opp. unfold dgauss_weight, Rsqr. field. lra. }
  apply (derivable_pt_lim_div (fun x => gauss wf x z r) (fun x => rsum 7 (gauss wf x z))).
  - apply deriv_gauss.
  - apply (deriv_ext (fun x => rsum 7 (fun s => gauss wf x z s))); [reflexivity|].
    apply deriv_rsum. intros. apply deriv_gauss.
  - lra.
Qed.

(** size of the derivative *)
Lemma dgauss_bound wf cn z r : (z <= 103)%nat -> (r < 7)%nat ->
  Rabs (dgauss wf cn z r) <= 6 * Rabs wf * (Rabs cn + 20) * gauss wf cn z r.
Proof.
  intros Hz Hr. unfold dgauss, gauss. rewrite <- rsum_scal_l.
  assert (Hn : (Z.to_nat (n_gauss z r) <= 3)%nat).
  { destruct (C38_reference_counts z r Hz Hr) as [->|[->| ->]]; simpl; lia. }
  assert (Hc : Rabs (cn - cn_ref z r) <= Rabs cn + 20).
  { destruct (C38_cn_nonneg z r Hz Hr) as [C1 C2]. unfold Rabs. repeat destruct Rcase_abs; lra. }
  assert (G : forall m f g, (forall k, (k < m)%nat -> Rabs (f k) <= g k) -> Rabs (rsum m f) <= rsum m g).
  { induction m as [|m IH]; intros f g H; cbn [rsum]; [rewrite Rabs_R0; lra|].
    eapply Rle_trans; [apply Rabs_triang|]. apply Rplus_le_compat; auto. }
  apply G. intros k Hk. rewrite Rabs_mult, (Rabs_right (exp _)) by (apply Rle_ge, Rlt_le, exp_pos).
  apply Rmult_le_compat_r; [apply Rlt_le, exp_pos|].
  rewrite !Rabs_mult, (Rabs_right 2) by lra. rewrite (Rabs_right (INR (S k))) by (apply Rle_ge, pos_INR).
  assert (I : 0 <= INR (S k) <= 3).
  { split; [apply pos_INR|]. replace 3 with (INR 3) by (simpl; lra). apply le_INR. lia. }
  pose proof (Rabs_pos wf) as W. pose proof (Rabs_pos (cn - cn_ref z r)) as V.
  apply Rmult_le_compat; auto.
  - repeat apply Rmult_le_pos; lra.
  - apply Rmult_le_compat_r; auto. lra.
Qed.

Lemma dgauss_weight_bound wf cn z r : (1 <= z <= 103)%nat -> (r < 7)%nat ->
  dgauss_weight wf cn z r <= 12 * Rabs wf * (Rabs cn + 20).
Proof.
  intros Hz Hr. set (L := 6 * Rabs wf * (Rabs cn + 20)).
  assert (L0 : 0 <= L).
  { unfold L. pose proof (Rabs_pos wf). pose proof (Rabs_pos cn). repeat apply Rmult_le_pos; lra. }
  pose proof (gauss_sum_pos wf cn z Hz) as P. set (S := rsum 7 (gauss wf cn z)) in *.
  destruct (gauss_weight_range wf cn z r Hz Hr) as [W1 W2]. unfold gauss_weight in W1, W2. fold S in W1, W2.
  assert (B : forall s, (s < 7)%nat -> - (L * gauss wf cn z s) <= dgauss wf cn z s <= L * gauss wf cn z s).
  { intros s Hs. assert (Q := dgauss_bound wf cn z s ltac:(lia) Hs). fold L in Q. revert Q. unfold Rabs at 1.
    pose proof (gauss_nonneg wf cn z s). assert (0 <= L * gauss wf cn z s) by now apply Rmult_le_pos.
    destruct (Rcase_abs (dgauss wf cn z s)); lra. }
  assert (D : - (L * S) <= rsum 7 (dgauss wf cn z)).
  { unfold S. rewrite <- rsum_scal_l, <- rsum_opp. apply rsum_le. intros s Hs. apply B; auto. }
  assert (E : dgauss_weight wf cn z r = dgauss wf cn z r / S - gauss wf cn z r / S * (rsum 7 (dgauss wf cn z) / S)).
  { unfold dgauss_weight. fold S. field. lra. }
  assert (E1 : dgauss wf cn z r / S <= L).
  { apply Rmult_le_reg_r with S; auto. unfold Rdiv. rewrite Rmult_assoc, Rinv_l, Rmult_1_r by lra.
    eapply Rle_trans; [apply B; auto|]. apply Rmult_le_compat_l; auto.
    apply Rmult_le_reg_r with (/ S); [now apply Rinv_0_lt_compat|]. rewrite Rinv_r by lra. exact W2. }
  assert (E2 : - L <= rsum 7 (dgauss wf cn z) / S).
  { apply Rmult_le_reg_r with S; auto. unfold Rdiv. rewrite Rmult_assoc, Rinv_l, Rmult_1_r by lra. lra. }
  rewrite E. replace (12 * Rabs wf * (Rabs cn + 20)) with (L + L) by (unfold L; ring).
  set (g := gauss wf cn z r / S) in *. set (t := rsum 7 (dgauss wf cn z) / S) in *.
  assert (- (g * t) <= L). { destruct (Rle_dec 0 t) as [T0|T0].
    - assert (0 <= g * t) by (now apply Rmult_le_pos). lra.
    - assert (g * - t <= 1 * L) by (apply Rmult_le_compat; lra). lra. }
  lra.
Qed.
End G.

Section S.
Context {eps mx : R}.
Notation N := (RN eps mx).
Notation K := (sc N).
Context (X : Ext (sc N)).

Lemma dpw4_R (x d wf : R) i : dpw4 (N := N) d (exp x) wf i = 2 * INR i * wf * d * exp (INR i * wf * x).
Proof.
  unfold dpw4. rewrite pw4_R. change (Q2R (inject_Z (2 * Z.of_nat i)) * wf * d * exp (INR i * wf * x) =
    2 * INR i * wf * d * exp (INR i * wf * x)). rewrite Q2R_inj, mult_IZR, <- INR_IZR_INZ. ring.
Qed.
Lemma dpow4_R (x d wf : R) n : dpow4 (N := N) d (exp x) wf n = rsum n (fun k => 2 * INR (S k) * wf * d * exp (INR (S k) * wf * x)).
Proof.
  unfold dpow4. change (flit (s := db N) 0) with (Q2R 0). rewrite Q2R_0.
  etransitivity; [|apply (fold_seq n (fun i => 2 * INR i * wf * d * exp (INR i * wf * x)))].
  generalize 0. induction (seq 1 n) as [|i l IH]; intros a; [reflexivity|]. cbn [fold_left].
  rewrite IH. f_equal. change (a + dpw4 (N := N) d (exp x) wf i = a + 2 * INR i * wf * d * exp (INR i * wf * x)). now rewrite dpw4_R.
Qed.

Lemma dexpw4_R z (cn wf : R) r : (0 <= z <= 103)%Z -> (r < 7)%nat ->
  dexpw4 (N := N) z cn wf r = dgauss wf cn (Z.to_nat z) r.
Proof.
  intros Hz Hr. unfold dexpw4. rewrite nref_n. unfold dgauss, dcnv. rewrite cnref_n, tmp4_R.
  set (c := cn_ref (Z.to_nat z) r).
  assert (E0 : flit (s := db N) 0 = 0) by (change (Q2R 0 = 0); apply Q2R_0).
  assert (Q : forall n, dpow4 (N := N) (cn - c) (exp (- (cn - c) ^ 2)) wf n =
    rsum n (fun k => 2 * INR (S k) * wf * (cn - c) * exp (- (INR (S k) * wf * (cn - c) ^ 2)))).
  { intros n. rewrite dpow4_R. apply rsum_ext. intros k _. f_equal. f_equal. ring. }
  destruct (C38_reference_counts (Z.to_nat z) r ltac:(lia) Hr) as [E|[E|E]]; rewrite E; cbn [Z.eqb Pos.eqb]; rewrite E0.
  - change (0 + 0 = rsum 0 (fun k => 2 * INR (S k) * wf * (cn - c) * exp (- (INR (S k) * wf * (cn - c) ^ 2)))). simpl. ring.
  - etransitivity; [|apply Q]. change (dpow4 (N := N) (cn - c) (exp (- (cn - c) ^ 2)) wf 1 + 0 = dpow4 (N := N) (cn - c) (exp (- (cn - c) ^ 2)) wf 1). ring.
  - etransitivity; [|apply Q]. change (0 + dpow4 (N := N) (cn - c) (exp (- (cn - c) ^ 2)) wf 3 = dpow4 (N := N) (cn - c) (exp (- (cn - c) ^ 2)) wf 3). ring.
Qed.

Lemma dgwv4_R z (cn wf : R) r : (0 <= z <= 103)%Z -> (r < 7)%nat ->
  12 * Rabs wf * (Rabs cn + 20) <= mx ->
  dgwv4 (N := N) z cn wf r =
  (if (0 <? n_gauss (Z.to_nat z) r)%Z then dgauss_weight wf cn (Z.to_nat z) r else 0).
Proof.
  intros Hz Hr Hb. set (zz := Z.to_nat z).
  assert (T : dgwt4 (N := N) z cn wf r = (if (0 <? n_gauss zz r)%Z then dgauss_weight wf cn zz r else 0)).
  { unfold dgwt4, normv. rewrite present_n. fold zz.
    assert (A : forall s, (s < 7)%nat -> expw4 (N := N) z cn wf s = gauss wf cn zz s) by (intros; now apply expw4_R).
    assert (D : forall s, (s < 7)%nat -> dexpw4 (N := N) z cn wf s = dgauss wf cn zz s) by (intros; now apply dexpw4_R).
    rewrite A, D by auto.
    assert (FS : @fsum (RS eps mx) 7 (expw4 (N := N) z cn wf) = rsum 7 (gauss wf cn zz)) by (rewrite fsum_R; now apply rsum_ext).
    assert (FD : @fsum (RS eps mx) 7 (dexpw4 (N := N) z cn wf) = rsum 7 (dgauss wf cn zz)) by (rewrite fsum_R; now apply rsum_ext).
    destruct (0 <? n_gauss zz r)%Z eqn:P.
    - change ((dgauss wf cn zz r - gauss wf cn zz r * @fsum (RS eps mx) 7 (dexpw4 (N := N) z cn wf) / @fsum (RS eps mx) 7 (expw4 (N := N) z cn wf))
         / @fsum (RS eps mx) 7 (expw4 (N := N) z cn wf) = dgauss_weight wf cn zz r).
      rewrite FS, FD. reflexivity.
    - rewrite gauss_absent by auto. assert (E0 : dgauss wf cn zz r = 0).
      { unfold dgauss. apply Z.ltb_ge in P. replace (Z.to_nat (n_gauss zz r)) with 0%nat by lia. reflexivity. }
      rewrite E0. change ((0 - 0 * @fsum (RS eps mx) 7 (dexpw4 (N := N) z cn wf) / Q2R (1 # 10 ^ 300)) / Q2R (1 # 10 ^ 300) = 0).
      unfold Rdiv. ring. }
  unfold dgwv4. replace (exceptional _ _) with false; [exact T|]. symmetry. unfold exceptional. rewrite T.
  change (rltb mx (if (0 <? n_gauss zz r)%Z then dgauss_weight wf cn zz r else 0) = false).
  apply rltb_false. destruct (0 <? n_gauss zz r)%Z eqn:P.
  - eapply Rle_trans; [|exact Hb]. apply dgauss_weight_bound; auto. apply (exists_ref_real _ r); auto; [now apply Z.ltb_lt in P|unfold zz; lia].
  - eapply Rle_trans; [|exact Hb]. pose proof (Rabs_pos wf). pose proof (Rabs_pos cn). repeat apply Rmult_le_pos; lra.
Qed.

(** derivative of the charge scaling, as computed (quotient by the square of the unregularised charge) *)
Definition dzeta_fun (ga gam qref qmod : R) : R :=
  if Rlt_dec 0 qmod then
    - ga * gam * exp (gam * (1 - qref / (qmod - eps))) * exp (ga * (1 - exp (gam * (1 - qref / (qmod - eps))))) * (qref / qmod ^ 2)
  else 0.
Lemma dzeta_s_R (ga gam qref qmod : R) : div_contract X -> dzeta_s X ga gam qref qmod = dzeta_fun ga gam qref qmod.
Proof.
  intros HD. unfold dzeta_s, zscale, dzeta_fun.
  change (flt (s := sc N) (flit 0) qmod) with (rltb (Q2R 0) qmod). change (flit (s := sc N) 0) with (Q2R 0). rewrite Q2R_0. unfold rltb.
  destruct (Rlt_dec 0 qmod); [|reflexivity].
  change (- ga * gam * exp (gam * (Q2R 1 - qref / (qmod - eps))) * exp (ga * (Q2R 1 - exp (gam * (Q2R 1 - qref / (qmod - eps))))) * x_div X qref (qmod ^ 2)
   = - ga * gam * exp (gam * (1 - qref / (qmod - eps))) * exp (ga * (1 - exp (gam * (1 - qref / (qmod - eps))))) * (qref / qmod ^ 2)).
  rewrite Q2R_1, HD; [reflexivity|]. apply Rgt_not_eq, pow_lt. assumption.
Qed.

Lemma deriv_zeta_fun (ga gam qref c q : R) : 0 < q + c -> q + c <> eps ->
  derivable_pt_lim (fun x => zeta_fun eps ga gam qref (x + c)) q
    (((q + c) / (q + c - eps)) ^ 2 * dzeta_fun ga gam qref (q + c)).
Proof.
  intros Hq Hne.
  apply (derivable_pt_lim_locally_ext (fun x => exp (ga * (1 - exp (gam * (1 - qref / (x + c - eps)))))) _ q (- c) (q + 1)); [lra| |].
  { intros x Hx. unfold zeta_fun. destruct (Rlt_dec 0 (x + c)); [reflexivity|lra]. }
  unfold dzeta_fun. destruct (Rlt_dec 0 (q + c)); [|contradiction].
  set (S := exp (gam * (1 - qref / (q + c - eps)))).
  apply (deriv_val _ _ (exp (ga * (1 - S)) * (ga * (- (S * (gam * (qref / (q + c - eps) ^ 2))))))).
  { field. lra. }
  apply (deriv_exp_comp (fun x => ga * (1 - exp (gam * (1 - qref / (x + c - eps)))))).
  apply deriv_scal. apply (deriv_val _ _ (0 - S * (gam * (qref / (q + c - eps) ^ 2)))); [ring|].
  apply (derivable_pt_lim_minus (fun _ => 1) (fun x => exp (gam * (1 - qref / (x + c - eps))))); [apply derivable_pt_lim_const|].
  apply (deriv_exp_comp (fun x => gam * (1 - qref / (x + c - eps)))). apply deriv_scal.
  apply (deriv_val _ _ (0 - (0 * (q + c - eps) - 1 * qref) / Rsqr (q + c - eps))); [unfold Rsqr; field; lra|].
  apply (derivable_pt_lim_minus (fun _ => 1) (fun x => qref / (x + c - eps))); [apply derivable_pt_lim_const|].
  apply (derivable_pt_lim_div (fun _ => qref) (fun x => x + c - eps)); [apply derivable_pt_lim_const| |lra].
  apply (deriv_ext (fun y => 1 * y + (c - eps))); [intros; ring|]. apply deriv_lin.
Qed.
Lemma deriv_zeta_neg (ga gam qref c q : R) : q + c < 0 ->
  derivable_pt_lim (fun x => zeta_fun eps ga gam qref (x + c)) q 0 /\ dzeta_fun ga gam qref (q + c) = 0.
Proof.
  intros Hq. split.
  - apply (derivable_pt_lim_locally_ext (fun x => exp ga) _ q (q - 1) (- c)); [lra| |apply derivable_pt_lim_const].
    intros x Hx. unfold zeta_fun. destruct (Rlt_dec 0 (x + c)); [lra|reflexivity].
  - unfold dzeta_fun. destruct (Rlt_dec 0 (q + c)); [lra|reflexivity].
Qed.

Lemma dztv_R (kw : mkwargs N) z (q : R) r : div_contract X ->
  dztv X (kw_ga kw) (kw_gc kw) (kw_ref kw) z q r
  = (if (0 <? n_gauss (Z.to_nat z) r)%Z then
      dzeta_fun (kw_ga kw) (dat (x_gam X) [Z.to_nat z] * kw_gc kw) (q_ref (kw_ref kw) (Z.to_nat z) r + dat (x_zeff X) [Z.to_nat z])
        (q + dat (x_zeff X) [Z.to_nat z]) else 0).
Proof.
  intros HD. unfold dztv. rewrite present_n. destruct (0 <? n_gauss (Z.to_nat z) r)%Z; [|apply Q2R_0].
  rewrite <- (tab_q_R (eps := eps) (mx := mx)). exact (dzeta_s_R _ _ _ _ HD).
Qed.

(** ** The derivative outputs of [weight_references] *)
Lemma gwv_same z (e e' : nat -> R) r : (r < 7)%nat -> (forall s, (s < 7)%nat -> e s = e' s) ->
  gwv (N := N) z e r = gwv (N := N) z e' r.
Proof.
  intros Hr H. assert (E : gwt (N := N) z e r = gwt (N := N) z e' r).
  { unfold gwt, normv. rewrite H by auto. destruct (present z r); [|reflexivity].
    change (e' r / @fsum (RS eps mx) 7 e = e' r / @fsum (RS eps mx) 7 e'). rewrite !fsum_R. f_equal. now apply rsum_ext. }
  unfold gwv. now rewrite E.
Qed.

(** D4, any combination of derivatives *)
Lemma d4_run kw numbers n B m (cn q : option (tensor K)) dq dcn : constructed X D4M kw numbers n B m -> atomwise cn q n B -> 1 <= mx -> div_contract X ->
  exists l, weight_references_gen X m cn q dq dcn = Ok l /\
    let z b i := elem numbers b i in let wf b i := kw_wf D4M kw numbers b i i in
    tens l ((7%nat :: n :: B, ix2 (fun r i b => weight X kw (wf b i) (z b i) r (opt_at cn b i) (opt_at q b i))) ::
      (if dcn then [(7%nat :: n :: B, ix2 (fun r i b => ztv X (kw_ga kw) (kw_gc kw) (kw_ref kw) (sl1 numbers b i) (opt_at q b i) r *
           dgwv4 (N := N) (sl1 numbers b i) (opt_at cn b i) (wf b i) r))] else []) ++
      (if dq then [(7%nat :: n :: B, ix2 (fun r i b => if (0 <? n_gauss (z b i) r)%Z then
           dzeta_fun (kw_ga kw) (dat (x_gam X) [z b i] * kw_gc kw) (q_ref (kw_ref kw) (z b i) r + dat (x_zeff X) [z b i])
             (opt_at q b i + dat (x_zeff X) [z b i]) * gauss_weight (wf b i) (opt_at cn b i) (z b i) r else 0))] else [])).
Proof.
  intros HC (Hcn & Hq) Hm HD. pose proof (constructed_is X _ _ _ _ _ _ HC) as (Him & _).
  destruct (is_model_ga X _ _ _ _ _ _ Him) as (Eg & Ec & Er).
  pose proof Him as ((HX & Hkn & Hs & Hr & _ & Hwf) & EK & EN & _ & _ & _ & Ew).
  destruct (m_wf m) as [wf|] eqn:EW; rewrite EK in Hwf; [|contradiction].
  unfold weight_references_gen. rewrite EK, EW. rewrite EN, Eg, Ec, Er in *.
  assert (Twf : ten wf [] (fun _ => dat wf [])) by now apply ten_scalar.
  destruct (d4_weights_run X numbers (n :: B) (kw_ga kw) (kw_gc kw) wf _ (kw_ref kw) cn q dq dcn HX Hkn Hs Hr Twf Hcn Hq) as (l & El & Hl).
  exists l. split; [exact El|].
  assert (WF : forall b i, valid B b -> (i < n)%nat -> dat wf [] = kw_wf D4M kw numbers b i i).
  { intros b i Hb Hi. rewrite <- (wfv_R D4M kw numbers b i i), <- (Ew b i i Hb Hi Hi). unfold wf_of, is_d4s. now rewrite EW, EK. }
  assert (Z : forall b i, valid B b -> (i < n)%nat -> (0 <= sl1 numbers b i <= 103)%Z).
  { intros b i Hb Hi. apply (constructed_range X _ _ _ _ _ _ b i HC). split; auto. }
  clear El EN Eg Ec Er EK Ew Him. cbv zeta.
  assert (G : forall t f g, ten (A := K) t (7%nat :: n :: B) f -> (forall r i b, (r < 7)%nat -> (i < n)%nat -> valid B b -> f (r :: i :: b) = g (r :: i :: b)) -> ten t (7%nat :: n :: B) g).
  { intros t f g Ht H. eapply ten_conv; [exact Ht|]. intros ix V. vdes. auto. }
  inversion Hl as [|t0 s0 l0 sp0 H0 Hl0]; subst. constructor.
  { apply (G _ _ _ H0). intros r i b Hr' Hi Hb. unfold ix1, ix2; cbn [hd tl snd].
    rewrite <- (WF b i Hb Hi), <- !(cnq_R (eps := eps) (mx := mx)). unfold elem. rewrite <- w4_R by (auto; now apply Z). reflexivity. }
  assert (Q2 : forall t, ten (A := K) t (7%nat :: n :: B) (ix1 (fun r i => fmul (dztv X (kw_ga kw) (kw_gc kw) (kw_ref kw) (dat numbers i) (cnq q i) r)
                                          (gwv (dat numbers i) (expw4 (dat numbers i) (cnq cn i) (dat wf [])) r))) ->
     ten t (7%nat :: n :: B) (ix2 (fun r i b => if (0 <? n_gauss (elem numbers b i) r)%Z then
           dzeta_fun (kw_ga kw) (dat (x_gam X) [elem numbers b i] * kw_gc kw) (q_ref (kw_ref kw) (elem numbers b i) r + dat (x_zeff X) [elem numbers b i])
             (opt_at q b i + dat (x_zeff X) [elem numbers b i]) * gauss_weight (kw_wf D4M kw numbers b i i) (opt_at cn b i) (elem numbers b i) r else 0))).
  { intros t Ht. apply (G _ _ _ Ht). intros r i b Hr' Hi Hb. unfold ix1, ix2; cbn [hd tl].
    rewrite <- (WF b i Hb Hi), !(cnq_R (eps := eps) (mx := mx)). rewrite dztv_R by auto. fold (sl1 numbers b i).
    rewrite (gwv_R _ _ (dat wf []) (opt_at cn b i)) by (auto; intros; apply expw4_R; auto).
    fold (elem numbers b i). destruct (0 <? n_gauss (elem numbers b i) r)%Z; [reflexivity|].
    change (0 * 0 = 0). ring. }
  assert (Q1 : forall t, ten (A := K) t (7%nat :: n :: B) (ix1 (fun r i => fmul (ztv X (kw_ga kw) (kw_gc kw) (kw_ref kw) (dat numbers i) (cnq q i) r)
                                          (dgwv4 (dat numbers i) (cnq cn i) (dat wf []) r))) ->
     ten t (7%nat :: n :: B) (ix2 (fun r i b => ztv X (kw_ga kw) (kw_gc kw) (kw_ref kw) (sl1 numbers b i) (opt_at q b i) r *
           dgwv4 (N := N) (sl1 numbers b i) (opt_at cn b i) (kw_wf D4M kw numbers b i i) r))).
  { intros t Ht. apply (G _ _ _ Ht). intros r i b Hr' Hi Hb. unfold ix1, ix2; cbn [hd tl].
    rewrite <- (WF b i Hb Hi), !(cnq_R (eps := eps) (mx := mx)). reflexivity. }
  destruct dcn; cbn [app] in *.
  - inversion Hl0 as [|t1 s1 l1 sp1 H1 Hl1]; subst. constructor; [now apply Q1|].
    destruct dq; inversion Hl1 as [|t2 s2 l2 sp2 H2 Hl2]; subst; constructor; [now apply Q2|exact Hl2].
  - destruct dq; inversion Hl0 as [|t2 s2 l2 sp2 H2 Hl2]; subst; constructor; [now apply Q2|exact Hl2].
Qed.

(** D4S with the charge derivative *)
Lemma d4s_run kw numbers n B m (cn q : option (tensor K)) dq : constructed X D4SM kw numbers n B m -> atomwise cn q n B -> 1 <= mx -> div_contract X ->
  exists l, weight_references_gen X m cn q dq false = Ok l /\
    let z b i := elem numbers b i in let wf b i j := kw_wf D4SM kw numbers b i j in
    tens l ((7%nat :: n :: n :: B, ix3 (fun r i j b => weight X kw (wf b i j) (z b i) r (opt_at cn b i) (opt_at q b i))) ::
      (if dq then [(7%nat :: n :: n :: B, ix3 (fun r i j b => if (0 <? n_gauss (z b i) r)%Z then
           dzeta_fun (kw_ga kw) (dat (x_gam X) [z b i] * kw_gc kw) (q_ref (kw_ref kw) (z b i) r + dat (x_zeff X) [z b i])
             (opt_at q b i + dat (x_zeff X) [z b i]) * gauss_weight (wf b i j) (opt_at cn b i) (z b i) r else 0))] else [])).
Proof.
  intros HC (Hcn & Hq) Hm HD. pose proof (constructed_is X _ _ _ _ _ _ HC) as (Him & _).
  destruct (is_model_ga X _ _ _ _ _ _ Him) as (Eg & Ec & Er).
  pose proof Him as ((HX & Hkn & Hs & Hr & _ & Hwf) & EK & EN & _ & _ & _ & Ew).
  destruct (m_wf m) as [wf|] eqn:EW; rewrite EK in Hwf; [|contradiction].
  unfold weight_references_gen. rewrite EK, EW. rewrite EN, Eg, Ec, Er in *.
  destruct (d4s_weights_run X numbers n B (kw_ga kw) (kw_gc kw) wf _ (kw_ref kw) cn q dq HX Hkn Hs Hr (ten_eq wf _ Hwf) Hcn Hq) as (l & El & Hl).
  exists l. split; [exact El|].
  assert (WF : forall b i j, valid B b -> (i < n)%nat -> (j < n)%nat -> dat wf (j :: i :: b) = kw_wf D4SM kw numbers b i j).
  { intros b i j Hb Hi Hj. rewrite <- (wfv_R D4SM kw numbers b i j), <- (Ew b i j Hb Hi Hj). unfold wf_of, is_d4s. now rewrite EW, EK. }
  assert (Z : forall b i, valid B b -> (i < n)%nat -> (0 <= sl1 numbers b i <= 103)%Z).
  { intros b i Hb Hi. apply (constructed_range X _ _ _ _ _ _ b i HC). split; auto. }
  clear El EN Eg Ec Er EK Ew Him. cbv zeta.
  assert (G : forall t f g, ten (A := K) t (7%nat :: n :: n :: B) f -> (forall r i j b, (r < 7)%nat -> (i < n)%nat -> (j < n)%nat -> valid B b -> f (r :: i :: j :: b) = g (r :: i :: j :: b)) -> ten t (7%nat :: n :: n :: B) g).
  { intros t f g Ht H. eapply ten_conv; [exact Ht|]. intros ix V. vdes. auto. }
  inversion Hl as [|t0 s0 l0 sp0 H0 Hl0]; subst. constructor.
  { apply (G _ _ _ H0). intros r i j b Hr' Hi Hj Hb. unfold ix3; cbn [hd tl snd].
    rewrite <- (WF b i j Hb Hi Hj), <- !(cnq_R (eps := eps) (mx := mx)). unfold elem. rewrite <- w4s_R by (auto; now apply Z). reflexivity. }
  destruct dq; inversion Hl0 as [|t2 s2 l2 sp2 H2 Hl2]; subst; constructor; [|exact Hl2].
  apply (G _ _ _ H2). intros r i j b Hr' Hi Hj Hb. unfold ix3; cbn [hd tl snd].
  rewrite <- (WF b i j Hb Hi Hj), !(cnq_R (eps := eps) (mx := mx)). rewrite dztv_R by auto. fold (sl1 numbers b i).
  rewrite (gwv_R _ _ (dat wf (j :: i :: b)) (opt_at cn b i)) by (auto; intros; apply expw4s_R; auto).
  fold (elem numbers b i). destruct (0 <? n_gauss (elem numbers b i) r)%Z; [reflexivity|].
  change (0 * 0 = 0). ring.
Qed.

Lemma dq_run kind kw numbers n B m (cn q : option (tensor K)) : constructed X kind kw numbers n B m -> atomwise cn q n B -> 1 <= mx -> div_contract X ->
  exists gw D, weight_references_gen X m cn q true false = Ok [gw; D] /\ shp gw = wt_shape kind n B /\ shp D = wt_shape kind n B /\
    forall b i j r, an_atom n B b i -> (j < n)%nat -> (r < 7)%nat ->
      let z := elem numbers b i in let wf := kw_wf kind kw numbers b i j in
      wt kind gw b i j r = weight X kw wf z r (opt_at cn b i) (opt_at q b i) /\
      wt kind D b i j r = if (0 <? n_gauss z r)%Z then
           dzeta_fun (kw_ga kw) (dat (x_gam X) [z] * kw_gc kw) (q_ref (kw_ref kw) z r + dat (x_zeff X) [z])
             (opt_at q b i + dat (x_zeff X) [z]) * gauss_weight wf (opt_at cn b i) z r else 0.
Proof.
  intros HC Ha Hm HD. pose proof (constructed_is X _ _ _ _ _ _ HC) as (_ & [->| ->]).
  - destruct (d4_run kw numbers n B m cn q true false HC Ha Hm HD) as (l & E & Hl). cbv zeta in Hl. cbn [app] in Hl.
    inversion Hl as [|gw s0 l0 sp0 H0 Hl0]; subst. inversion Hl0 as [|D s1 l1 sp1 H1 Hl1]; subst. inversion Hl1; subst.
    exists gw, D. destruct H0 as (S0 & V0), H1 as (S1 & V1). repeat (split; [assumption|]).
    intros b i j r (Hb & Hi) Hj Hr. cbv zeta. unfold wt, sl2. cbn [fst snd] in V0, V1.
    rewrite V0, V1 by (repeat apply valid_cons; auto). unfold ix2. cbn [hd tl].
    assert (W : kw_wf D4M kw numbers b i i = kw_wf D4M kw numbers b i j) by reflexivity. now rewrite W.
  - destruct (d4s_run kw numbers n B m cn q true HC Ha Hm HD) as (l & E & Hl). cbv zeta in Hl.
    inversion Hl as [|gw s0 l0 sp0 H0 Hl0]; subst. inversion Hl0 as [|D s1 l1 sp1 H1 Hl1]; subst. inversion Hl1; subst.
    exists gw, D. destruct H0 as (S0 & V0), H1 as (S1 & V1). repeat (split; [assumption|]).
    intros b i j r (Hb & Hi) Hj Hr. cbv zeta. unfold wt, sl3. cbn [fst snd] in V0, V1.
    rewrite V0, V1 by (repeat apply valid_cons; auto). unfold ix3. cbn [hd tl]. auto.
Qed.

Lemma dcn_run kw numbers n B m cn (q : option (tensor K)) dq : constructed X D4M kw numbers n B m -> atomwise (Some cn) q n B -> 1 <= mx -> div_contract X ->
  exists gw D rest, weight_references_gen X m (Some cn) q dq true = Ok (gw :: D :: rest) /\
    shp gw = 7%nat :: n :: B /\ shp D = 7%nat :: n :: B /\
    forall b i r, an_atom n B b i -> (r < 7)%nat ->
      let z := elem numbers b i in let wf := kw_wf D4M kw numbers b i i in
      sl2 gw b i r = weight X kw wf z r (sl1 cn b i) (opt_at q b i) /\
      (12 * Rabs wf * (Rabs (sl1 cn b i) + 20) <= mx ->
       sl2 D b i r = if (0 <? n_gauss z r)%Z then charge_factor X kw z r (opt_at q b i) * dgauss_weight wf (sl1 cn b i) z r else 0).
Proof.
  intros HC Ha Hm HD. destruct (d4_run kw numbers n B m (Some cn) q dq true HC Ha Hm HD) as (l & E & Hl). cbv zeta in Hl. cbn [app] in Hl.
  inversion Hl as [|gw s0 l0 sp0 H0 Hl0]; subst. inversion Hl0 as [|D s1 l1 sp1 H1 Hl1]; subst.
  exists gw, D, l1. destruct H0 as (S0 & V0), H1 as (S1 & V1). repeat (split; [assumption|]).
  intros b i r (Hb & Hi) Hr. cbv zeta. unfold sl2. cbn [fst snd] in V0, V1.
  rewrite V0, V1 by (repeat apply valid_cons; auto). unfold ix2. cbn [hd tl opt_at]. split; [reflexivity|].
  intros Hb'. pose proof (constructed_range X _ _ _ _ _ _ b i HC (conj Hb Hi)) as Z.
  rewrite ztv_R, dgwv4_R by auto. fold (elem numbers b i). destruct (0 <? n_gauss (elem numbers b i) r)%Z; [reflexivity|change (0 * 0 = 0); ring].
Qed.
End S.

(** D4S has no coordination number derivative *)
Lemma bind_last {A B C} (F : res B -> res C) (m : res A) k1 k2 :
  (forall e, F (Raise e) = Raise e) -> (forall a, k1 a = F (k2 a)) -> bind m k1 = F (bind m k2).
Proof. intros H1 H2. destruct m; simpl; auto. Qed.
Lemma d4s_dcn {N : Num} (X : Ext (sc N)) numbers ga gc wf ref cn q dq :
  d4s_weight_references (N := N) X numbers ga gc wf ref cn q dq true =
  match d4s_weight_references (N := N) X numbers ga gc wf ref cn q false false with
  | Ok _ => Raise NotImplementedError | Raise e => Raise e end.
Proof.
  set (F := fun r : res (list (tensor (sc N))) => match r return res (list (tensor (sc N))) with Ok _ => Raise NotImplementedError | Raise e => Raise e end).
  change (d4s_weight_references (N := N) X numbers ga gc wf ref cn q dq true = F (d4s_weight_references (N := N) X numbers ga gc wf ref cn q false false)).
  unfold d4s_weight_references. cbv zeta.
  repeat (apply bind_last; [reflexivity|]; intros ?). reflexivity.
Qed.
