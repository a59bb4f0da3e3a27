(** * The reference weights over the reals (proof layer) *)
From Coq Require Import Reals Lra Lia List Arith ZArith QArith Qreals Bool String.
From Verif Require Import Py Tensor Scalar RInst ModelExt ModelUtils ModelModels SpecCall SpecR
  TensorLemmas Closed ClosedM ClosedModels CallLemmas PropsTables SpecW.
Import ListNotations.
Open Scope R_scope.

Section S.
Context {eps mx : R}.
Notation N := (RN eps mx).
Notation K := (sc N).
Context (X : Ext (sc N)).

Lemma Q2R_inj z : Q2R (inject_Z z) = IZR z.
Proof. unfold Q2R; simpl. field. Qed.

Lemma nref_n z r : nref z r = n_gauss (Z.to_nat z) r. Proof. reflexivity. Qed.
Lemma cnref_n z r : cnref (N := N) z r = cn_ref (Z.to_nat z) r. Proof. reflexivity. Qed.

Lemma rpow_exp x y : rpow (exp x) y = exp (y * x).
Proof. rewrite rpow_pos by apply exp_pos. unfold Rpower. now rewrite ln_exp. Qed.

Lemma tmp4_R z cn r : tmp4 (N := N) z cn r = exp (- (cn - cn_ref (Z.to_nat z) r) ^ 2).
Proof.
  unfold tmp4, dcnv. rewrite cnref_n. change (exp (- (cn - cn_ref (Z.to_nat z) r) * (cn - cn_ref (Z.to_nat z) r))
    = exp (- (cn - cn_ref (Z.to_nat z) r) ^ 2)). f_equal. ring.
Qed.

Lemma pw4_R (x wf : R) i : pw4 (N := N) (exp x) wf i = exp (INR i * wf * x).
Proof.
  unfold pw4. change (rpow (exp x) (Q2R (inject_Z (Z.of_nat i)) * wf) = exp (INR i * wf * x)).
  rewrite rpow_exp, Q2R_inj, <- INR_IZR_INZ. reflexivity.
Qed.

(** sums [0 + f 1 + ... + f n] *)
Lemma fold_seq n (f : nat -> R) :
  fold_left (fun acc i => acc + f i) (seq 1 n) 0 = rsum n (fun k => f (S k)).
Proof.
  assert (G : forall m s a, fold_left (fun acc i => acc + f i) (seq s m) a = a + rsum m (fun k => f (s + k)%nat)).
  { induction m as [|m IH]; intros s a; [simpl; lra|].
    rewrite seq_S, fold_left_app. cbn [fold_left]. rewrite IH. simpl. lra. }
  rewrite G, Rplus_0_l. apply rsum_ext. intros. f_equal.
Qed.

Lemma pow4_R (x wf : R) n : pow4 (N := N) (exp x) wf n = rsum n (fun k => exp (INR (S k) * wf * x)).
Proof.
  unfold pow4. change (flit (s := db N) 0) with (Q2R 0). rewrite Q2R_0.
  etransitivity; [|apply (fold_seq n (fun i => exp (INR i * wf * x)))].
  generalize 0. induction (seq 1 n) as [|i l IH]; intros a; [reflexivity|]. cbn [fold_left].
  rewrite IH. f_equal. change (a + pw4 (N := N) (exp x) wf i = a + exp (INR i * wf * x)). now rewrite pw4_R.
Qed.

Lemma pow4s_R (x : R) n : pow4s (N := N) (exp x) n = rsum n (fun k => exp (INR (S k) * x)).
Proof.
  unfold pow4s. change (flit (s := db N) 0) with (Q2R 0). rewrite Q2R_0.
  etransitivity; [|apply (fold_seq n (fun i => exp (INR i * x)))].
  generalize 0. induction (seq 1 n) as [|i l IH]; intros a; [reflexivity|]. cbn [fold_left].
  rewrite IH. f_equal. change (a + exp x ^ i = a + exp (INR i * x)). f_equal.
  rewrite <- Rpower_pow by apply exp_pos. unfold Rpower. now rewrite ln_exp.
Qed.

Lemma present_n z r : present z r = (0 <? n_gauss (Z.to_nat z) r)%Z.
Proof. reflexivity. Qed.

Lemma expw4_R z (cn wf : R) r : (0 <= z <= 103)%Z -> (r < 7)%nat ->
  expw4 (N := N) z cn wf r = gauss wf cn (Z.to_nat z) r.
Proof.
  intros Hz Hr. unfold expw4. rewrite present_n, nref_n. unfold gauss.
  destruct (C38_reference_counts (Z.to_nat z) r ltac:(lia) Hr) as [E|[E|E]]; rewrite E; cbn [Z.ltb Z.eqb Z.compare Pos.compare Pos.compare_cont Pos.eqb].
  - change (Q2R 0 = rsum 0 (fun k => exp (- (INR (S k) * wf * (cn - cn_ref (Z.to_nat z) r) ^ 2)))). apply Q2R_0.
  - rewrite tmp4_R. etransitivity; [apply pow4_R|]. apply rsum_ext. intros. f_equal. ring.
  - rewrite tmp4_R. etransitivity; [apply pow4_R|]. apply rsum_ext. intros. f_equal. ring.
Qed.

Lemma tmp4s_R z (cn wf : R) r : present z r = true ->
  tmp4s (N := N) z cn wf r = exp (- (wf * (cn - cn_ref (Z.to_nat z) r) ^ 2)).
Proof.
  intros E. unfold tmp4s, dcnv. rewrite E, cnref_n.
  change (exp (- (cn - cn_ref (Z.to_nat z) r) * (cn - cn_ref (Z.to_nat z) r) * wf)
    = exp (- (wf * (cn - cn_ref (Z.to_nat z) r) ^ 2))). f_equal. ring.
Qed.

Lemma expw4s_R z (cn wf : R) r : (0 <= z <= 103)%Z -> (r < 7)%nat ->
  expw4s (N := N) z cn wf r = gauss wf cn (Z.to_nat z) r.
Proof.
  intros Hz Hr. unfold expw4s. rewrite present_n, nref_n. unfold gauss.
  destruct (C38_reference_counts (Z.to_nat z) r ltac:(lia) Hr) as [E|[E|E]]; rewrite E; cbn [Z.ltb Z.eqb Z.compare Pos.compare Pos.compare_cont Pos.eqb].
  - change (Q2R 0 = rsum 0 (fun k => exp (- (INR (S k) * wf * (cn - cn_ref (Z.to_nat z) r) ^ 2)))). apply Q2R_0.
  - rewrite tmp4s_R by (rewrite present_n, E; reflexivity). etransitivity; [apply pow4s_R|]. apply rsum_ext. intros. f_equal. ring.
  - rewrite tmp4s_R by (rewrite present_n, E; reflexivity). etransitivity; [apply pow4s_R|]. apply rsum_ext. intros. f_equal. ring.
Qed.

(** ** Normalisation *)
Lemma gauss_nonneg wf cn z r : 0 <= gauss wf cn z r.
Proof. apply rsum_nonneg. intros. apply Rlt_le, exp_pos. Qed.
Lemma gauss_pos wf cn z r : exists_ref z r -> 0 < gauss wf cn z r.
Proof.
  intros H. unfold gauss. apply (rsum_pos _ _ 0); [intros; apply Rlt_le, exp_pos| |apply exp_pos].
  unfold exists_ref in H. lia.
Qed.
Lemma gauss_absent wf cn z r : (0 <? n_gauss z r)%Z = false -> gauss wf cn z r = 0.
Proof.
  intros H. apply Z.ltb_ge in H. unfold gauss. replace (Z.to_nat (n_gauss z r)) with 0%nat by lia. reflexivity.
Qed.
Lemma gauss_sum_pos wf cn z : (1 <= z <= 103)%nat -> 0 < rsum 7 (gauss wf cn z).
Proof.
  intros Hz. destruct (C38_unique_maximal_cn z Hz) as (r & Hr & E & _).
  apply (rsum_pos _ _ r); auto using gauss_pos. intros. apply gauss_nonneg.
Qed.
Lemma exists_ref_real z r : (r < 7)%nat -> exists_ref z r -> (z <= 103)%nat -> (1 <= z <= 103)%nat.
Proof.
  intros Hr E Hz. destruct z; [|lia]. exfalso. now apply (C38_padding_has_no_references r).
Qed.
Lemma gauss_weight_range wf cn z r : (1 <= z <= 103)%nat -> (r < 7)%nat -> 0 <= gauss_weight wf cn z r <= 1.
Proof.
  intros Hz Hr. assert (P := gauss_sum_pos wf cn z Hz). unfold gauss_weight. split.
  - apply Rmult_le_pos; [apply gauss_nonneg|]. apply Rlt_le. now apply Rinv_0_lt_compat.
  - apply Rmult_le_reg_r with (rsum 7 (gauss wf cn z)); auto.
    replace (gauss wf cn z r / rsum 7 (gauss wf cn z) * rsum 7 (gauss wf cn z)) with (gauss wf cn z r) by (field; lra).
    rewrite Rmult_1_l.
    assert (Q : rsum 7 (fun s => if Nat.eqb s r then gauss wf cn z s else 0) = gauss wf cn z r).
    { rewrite (rsum_single 7 r); auto; [now rewrite Nat.eqb_refl|].
      intros s Hs Ne. destruct (Nat.eqb_spec s r); [contradiction|reflexivity]. }
    rewrite <- Q. apply rsum_le. intros s Hs. destruct (Nat.eqb_spec s r); [lra|apply gauss_nonneg].
Qed.

(** the normalised weight computed by the model, for any unnormalised weight equal to the
    Gaussian one *)
Lemma gwv_R z (e : nat -> R) wf cn r : 1 <= mx -> (0 <= z <= 103)%Z -> (r < 7)%nat ->
  (forall s, (s < 7)%nat -> e s = gauss wf cn (Z.to_nat z) s) ->
  gwv (N := N) z e r = (if (0 <? n_gauss (Z.to_nat z) r)%Z then gauss_weight wf cn (Z.to_nat z) r else 0).
Proof.
  intros Hmx Hz Hr He.
  assert (T : gwt (N := N) z e r = (if (0 <? n_gauss (Z.to_nat z) r)%Z then gauss_weight wf cn (Z.to_nat z) r else 0)).
  { unfold gwt, normv. rewrite present_n.
    destruct (0 <? n_gauss (Z.to_nat z) r)%Z eqn:P.
    - change (e r / @fsum (RS eps mx) 7 e = gauss_weight wf cn (Z.to_nat z) r). rewrite fsum_R.
      rewrite (rsum_ext 7 e _ He), He by auto. reflexivity.
    - change (e r / Q2R (1 # 10 ^ 300) = 0). rewrite He, gauss_absent by auto. unfold Rdiv. ring. }
  unfold gwv. replace (exceptional _ _) with false; auto. symmetry.
  unfold exceptional. rewrite T.
  change (rltb mx (if (0 <? n_gauss (Z.to_nat z) r)%Z then gauss_weight wf cn (Z.to_nat z) r else 0) = false).
  apply rltb_false. destruct (0 <? n_gauss (Z.to_nat z) r)%Z eqn:P; [|lra].
  apply Rle_trans with 1; auto. apply gauss_weight_range; auto.
  apply (exists_ref_real _ r); auto; [|lia]. apply Z.ltb_lt in P. exact P.
Qed.

Lemma zeta_s_R (ga gam qref qmod : R) : zeta_s (K := RS eps mx) ga gam qref qmod = zeta_fun eps ga gam qref qmod.
Proof.
  unfold zeta_s, zscale, zeta_fun.
  change (flt (s := RS eps mx) (flit 0) qmod) with (rltb (Q2R 0) qmod). rewrite Q2R_0. unfold rltb.
  destruct (Rlt_dec 0 qmod); [|reflexivity].
  change (exp (ga * (Q2R 1 - exp (gam * (Q2R 1 - qref / (qmod - eps))))) =
    exp (ga * (1 - exp (gam * (1 - qref / (qmod - eps)))))). now rewrite Q2R_1.
Qed.

Lemma tab_q_R ref z r : t2 (@tab_q K ref) z r = q_ref ref (Z.to_nat z) r.
Proof. unfold t2, tab_q, q_ref. destruct (ref =? "eeq")%string; reflexivity. Qed.

Lemma ztv_R (kw : mkwargs N) z (q : R) r :
  ztv X (kw_ga kw) (kw_gc kw) (kw_ref kw) z q r
  = (if (0 <? n_gauss (Z.to_nat z) r)%Z then charge_factor X kw (Z.to_nat z) r q else 0).
Proof.
  unfold ztv. rewrite present_n. destruct (0 <? n_gauss (Z.to_nat z) r)%Z; [|apply Q2R_0].
  change (sc N) with (RS eps mx). rewrite zeta_s_R. unfold charge_factor.
  rewrite <- tab_q_R. reflexivity.
Qed.

Lemma w4_R kw z (cn wf q : R) r : 1 <= mx -> (0 <= z <= 103)%Z -> (r < 7)%nat ->
  w4 X (kw_ga kw) (kw_gc kw) (kw_ref kw) wf z cn q r = weight X kw wf (Z.to_nat z) r cn q.
Proof.
  intros Hm Hz Hr. unfold w4, weight. rewrite ztv_R.
  rewrite (gwv_R z _ wf cn r) by (auto; intros; now apply expw4_R).
  destruct (0 <? n_gauss (Z.to_nat z) r)%Z; [reflexivity|]. change (0 * 0 = 0). ring.
Qed.
Lemma w4s_R kw z (cn wf q : R) r : 1 <= mx -> (0 <= z <= 103)%Z -> (r < 7)%nat ->
  w4s X (kw_ga kw) (kw_gc kw) (kw_ref kw) wf z cn q r = weight X kw wf (Z.to_nat z) r cn q.
Proof.
  intros Hm Hz Hr. unfold w4s, weight. rewrite ztv_R.
  rewrite (gwv_R z _ wf cn r) by (auto; intros; now apply expw4s_R).
  destruct (0 <? n_gauss (Z.to_nat z) r)%Z; [reflexivity|]. change (0 * 0 = 0). ring.
Qed.

(** ** The model values in terms of the keyword arguments *)
Lemma kw_ga_R kw : default (k_ga kw) (flit (s := K) GA_DEFAULT) = kw_ga kw.
Proof. unfold kw_ga. destruct (k_ga kw); [reflexivity|]. change (Q2R 3 = 3). unfold Q2R; simpl; lra. Qed.
Lemma kw_gc_R kw : default (k_gc kw) (flit (s := K) GC_DEFAULT) = kw_gc kw.
Proof. unfold kw_gc. destruct (k_gc kw); [reflexivity|]. change (Q2R 2 = 2). unfold Q2R; simpl; lra. Qed.
Lemma wfv_R kind kw numbers b i j : wfv kind kw (sl1 numbers b) b i j = kw_wf (eps := eps) (mx := mx) kind kw numbers b i j.
Proof.
  unfold wfv, kw_wf. destruct (k_wf kw) as [w|]; [now destruct kind|].
  assert (E : flit (s := K) WF_DEFAULT = 6) by (change (Q2R 6 = 6); unfold Q2R; simpl; lra).
  destruct kind; auto.
Qed.
Lemma cnq_R (o : option (tensor K)) b i : cnq o (i :: b) = opt_at o b i.
Proof. destruct o; [reflexivity|]. apply Q2R_0. Qed.

(** values of the weights of a constructed model *)
Lemma wt_of_R m kind kw numbers n B cn q b i j r :
  is_model X m kind kw numbers n B -> (kind = D4M \/ kind = D4SM) -> 1 <= mx ->
  valid B b -> (i < n)%nat -> (j < n)%nat -> (r < 7)%nat ->
  wt_of X m cn q b i j r = weight X kw (kw_wf kind kw numbers b i j) (Z.to_nat (sl1 numbers b i)) r (opt_at cn b i) (opt_at q b i).
Proof.
  intros (Hok & EK & EN & Eg & Ec & Er & Ew) Hk Hm Hb Hi Hj Hr.
  assert (Hz : (0 <= sl1 numbers b i <= 103)%Z).
  { destruct Hok as (_ & _ & Hs & HR & _). rewrite EN in *. assert (V : valid (shp numbers) (i :: b)) by (rewrite Hs; split; auto).
    apply HR in V. pose proof (ref_limit_le (m_ref m)). unfold sl1. lia. }
  unfold wt_of. rewrite EN, Eg, Ec, Er, kw_ga_R, kw_gc_R, !cnq_R, (Ew b i j Hb Hi Hj), wfv_R.
  unfold is_d4s. rewrite EK. destruct Hk as [->| ->]; [apply w4_R|apply w4s_R]; auto.
Qed.
End S.
