(** * C79: example in single precision: a hydrogen molecule with a padding atom *)
From Coq Require Import Reals List Arith ZArith QArith Qreals Bool String Lia Lra.
From Flocq Require Import Core.Core IEEE754.BinarySingleNaN.
From Verif Require Import Py Tensor Scalar RInst ModelExt ModelUtils ModelDamping ModelModels ModelTerms Spec SpecR SpecCall PropsTables TensorLemmas DataRef DataAlpha DataPair CallLemmas
  IeeeInst IeeeP IeeeB IeeeA IeeeM IeeeE IeeeLib PropsAcc PropsAcc3 SpecW SpecIeee IeeeW PropsIeee PropsAccW PropsAccT PropsAccC PropsAccC6 PropsAccE
  InstAny InstIeee InstAcc InstAcc3 InstAccT InstAccC6.
Import ListNotations.
Open Scope R_scope.

Local Existing Instance Hp64.
Local Existing Instance He64.
Local Existing Instance Hp32.
Local Existing Instance He32.

Definition HH : tensor Z := mkT [3%nat] (fun ix => match ix with [O] | [1%nat] => 1%Z | _ => 0%Z end).
Definition hPos : tensor (sc N32) := mkT [3; 3]%nat (fun ix => match ix with
  | [_; 2%nat] => B754_nan
  | k :: i :: _ => if Nat.eqb k 0 then blit 24 128 (inject_Z (2 * Z.of_nat i)) else blit 24 128 0
  | _ => blit 24 128 0 end).
Definition hCn : tensor (sc N32) := mkT [3%nat] (fun ix => match ix with [2%nat] => B754_nan | _ => blit 24 128 (inject_Z 1) end).
Definition hQ : tensor (sc N32) := mkT [3%nat] (fun ix => match ix with [2%nat] => B754_nan | _ => blit 24 128 (inject_Z 0) end).
Definition hR : tensor (sc N32) := mkT [3%nat] (fun ix => match ix with [2%nat] => blit 24 128 0 | _ => blit 24 128 (inject_Z 2) end).
Definition hSizes : acc_sizes := mkAcc 6 0 3 20 33 2.
Notation hw := (exact_weight (L := Lcr) (L64 := Lcr) Xd D4M no_kw HH (Some hCn) (Some hQ) []).

Lemma h_fits : acc_fits (prec := 24) (emax := 128) hSizes.
Proof. split; cbn; lia. Qed.

Lemma h_built : exists m, built Xd D4M no_kw HH 3 [] m.
Proof.
  assert (Hkw : kw_ok (N := N32) D4M no_kw 3 []) by (split; [reflexivity|exact Logic.I]).
  assert (Hel : elements_ok "eeq" HH).
  { left. split; [reflexivity|]. intros [|[|[|[|i]]] [|j b]] H; simpl in H |- *; try lia. }
  assert (Ht : ext_tables Xd) by exact X32_tables.
  destruct (new_model_ok Xd D4M "D4Model" HH no_kw 3 [] Ht (or_introl eq_refl) eq_refl Hkw Hel) as (m & Em & _).
  exists m. split; [exact Ht|]. split; [now left|]. split; [reflexivity|]. split; [exact Hkw|].
  split; [exact Hel|]. now exists "D4Model"%string.
Qed.

Lemma h_pos i k : (i < 2)%nat -> is_finite (sl2 hPos [] i k : f32) = true /\ B2R (sl2 hPos [] i k : f32) = if Nat.eqb k 0 then 2 * INR i else 0.
Proof.
  intros Hi.
  assert (E : sl2 hPos [] i k = if Nat.eqb k 0 then blit 24 128 (inject_Z (2 * Z.of_nat i)) else blit 24 128 0).
  { destruct i as [|[|i]]; try lia; reflexivity. }
  rewrite E. destruct (Nat.eqb k 0).
  - destruct (lit32 (2 * Z.of_nat i)) as (A & C); [lia|]. split; [exact A|]. rewrite C, mult_IZR, <- INR_IZR_INZ. reflexivity.
  - split; reflexivity.
Qed.

Lemma h_geometry : acc_geometry (L := Lcr) (L64 := Lcr) Xd hSizes 7 60 HH hPos 3 3 [].
Proof.
  split; [cbn; lia|]. intros b i j Hb Hi Hj R d. destruct b; [|destruct Hb].
  assert (Hi2 : (i < 2)%nat) by (destruct i as [|[|[|i]]]; try lia; destruct j as [|[|[|j]]]; try lia; discriminate R).
  assert (Hj2 : (j < 2)%nat) by (destruct j as [|[|[|j]]]; try lia; destruct i as [|[|[|i]]]; try lia; discriminate R).
  assert (Nij : i <> j) by (intros ->; unfold real_pair in R; now rewrite Nat.eqb_refl in R).
  assert (D : d = 2).
  { unfold d, euclid, sqd. cbn [rsum]. unfold rcoord. rewrite !(proj2 (h_pos i _ Hi2)), !(proj2 (h_pos j _ Hj2)). cbn [Nat.eqb].
    transitivity (sqrt (Rsqr 2)); [f_equal; unfold Rsqr|apply sqrt_Rsqr; lra]. destruct i as [|[|i]]; try lia; destruct j as [|[|j]]; try lia; try (now elim Nij); cbn [INR]; lra. }
  split; [|split].
  - apply (C67_direct_distance (L := Lcr) 3 _ _ 0 3); try lia. intros k Hk.
    destruct (h_pos i k Hi2) as (Fi & ->). destruct (h_pos j k Hj2) as (Fj & ->).
    split; [exact Fi|]. split; [exact Fj|]. destruct (Nat.eqb k 0); [right|now left].
    simpl. destruct i as [|[|i]]; try lia; destruct j as [|[|j]]; try lia; try (now elim Nij); cbn [INR]; unfold Rabs; destruct (Rcase_abs _); lra.
  - rewrite D. simpl. lra.
  - left. rewrite D. pose proof (few_2 (prec := 24) 7 ltac:(unfold few; change (2 ^ 24)%Z with 16777216%Z; lia)) as W.
    change (growth (prec := 24) 7 <= 2) in W. split; [|simpl; lra]. lra.
Qed.
Lemma h_r4r2 : acc_r4r2 (L := Lcr) (L64 := Lcr) hR 3 [].
Proof.
  intros b i Hb Hi. destruct b; [|destruct Hb]. destruct (lit32 2 ltac:(lia)) as (F2 & V2). destruct i as [|[|[|i]]]; try lia.
  - change (zero_or 0 5 (blit 24 128 (inject_Z 2))). split; [exact F2|right; rewrite V2; simpl; lra].
  - change (zero_or 0 5 (blit 24 128 (inject_Z 2))). split; [exact F2|right; rewrite V2; simpl; lra].
  - split; [reflexivity|now left].
Qed.

Lemma h_q r : (r < 7)%nat ->
  q_domain (the_ga (L := Lcr) (L64 := Lcr) no_kw) (the_gc (L := Lcr) (L64 := Lcr) no_kw) (dat (x_gam Xd) [1%nat]) (dat (x_zeff Xd) [1%nat])
    (blit 24 128 (inject_Z 0)) (q_ref (the_ref (L := Lcr) (L64 := Lcr) no_kw) 1 r) 5 30.
Proof.
  intros Hr.
  assert (Q0 : q_ref (the_ref (L := Lcr) (L64 := Lcr) no_kw) 1 r = 0).
  { change (q_ref (the_ref no_kw) 1 r) with (IZR (nth r (nth 1 clsq_tab []) 0%Z) / IZR (Zpos clsq_tab_dec)).
    do 7 (destruct r as [|r]; [unfold Rdiv; apply Rmult_0_l|]). lia. }
  rewrite Q0. change (the_ga no_kw) with (blit 24 128 (inject_Z 3)). change (the_gc no_kw) with (blit 24 128 (inject_Z 2)).
  destruct (lit32 0 ltac:(lia)) as (F0 & V0). destruct (lit32 1 ltac:(lia)) as (F1 & V1). destruct (lit32 2 ltac:(lia)) as (F2 & V2). destruct (lit32 3 ltac:(lia)) as (F3 & V3).
  change (dat (x_gam Xd) [1%nat]) with (blit 24 128 (inject_Z 1)). change (dat (x_zeff Xd) [1%nat]) with (blit 24 128 (inject_Z 1)).
  assert (S20 := p2_small (-20) ltac:(lia)).
  assert (I30 : INR 30 = 30) by (rewrite INR_IZR_INZ; reflexivity). assert (I5 : INR 5 = 5) by (rewrite INR_IZR_INZ; reflexivity).
  assert (Ep : bpow radix2 (1 - 24) <= / 16) by (change (/ 16) with (bpow radix2 (-4)); apply bpow_le; lia).
  assert (E0 := bpow_gt_0 radix2 (1 - 24)).
  split; try (apply lit_signed; try lia; [exact S20|simpl; lra]).
  - split; [exact F1|right; rewrite V1; simpl (bpow radix2 10); lra].
  - split; [exact F0|now left].
  - rewrite V3, I30, Rabs_pos_eq; lra.
  - right. cbv zeta. rewrite V0, V1, V2, V3, I5, I30, Rabs_R0. set (e := bpow radix2 (1 - 24)) in *. rewrite !(Rabs_pos_eq 1), !(Rabs_pos_eq 2), !(Rabs_pos_eq 3) by lra.
    assert (Pv : 0 < 0 + 1 - e) by lra.
    assert (U : (0 + 1) / (0 + 1 - e) <= 3 / 2) by (apply Rmult_le_reg_r with (0 + 1 - e); [exact Pv|]; unfold Rdiv; rewrite Rmult_assoc, Rinv_l; lra).
    assert (V : 1 <= (0 + 1) / (0 + 1 - e)) by (apply Rmult_le_reg_r with (0 + 1 - e); [exact Pv|]; unfold Rdiv; rewrite Rmult_assoc, Rinv_l; lra).
    split; [lra|]. split; [lra|].
    assert (exp (1 * 2 * (1 - (0 + 1) / (0 + 1 - e))) <= 1) by (apply Rle_trans with (exp 0); [apply exp_mono; lra|rewrite exp_0; lra]). lra.
Qed.

Lemma h_atom i j : (i < 3)%nat -> (j < 3)%nat ->
  atom_domain (L := Lcr) (L64 := Lcr) Xd D4M no_kw HH (Some hCn) (Some hQ) [] i j 24 50 240 0 5 30 5 12 2.
Proof.
  intros Hi Hj. unfold atom_domain. cbv zeta. intros r Hr Ex.
  destruct i as [|[|[|i]]]; try lia.
  - split; [exact (ex_cn D4M 0 0 (or_introl eq_refl) ltac:(lia) ltac:(lia))|]. split; [exact (h_q r Hr)|exact (ex_sec 1 r (or_introl eq_refl) Hr)].
  - split; [exact (ex_cn D4M 0 0 (or_introl eq_refl) ltac:(lia) ltac:(lia))|]. split; [exact (h_q r Hr)|exact (ex_sec 1 r (or_introl eq_refl) Hr)].
  - exfalso. change (exists_ref 0 r) in Ex. unfold exists_ref in Ex. do 7 (destruct r as [|r]; [vm_compute in Ex; discriminate|]). lia.
Qed.

(** ** The exact C6 coefficient of two hydrogen atoms *)
Notation hX := (real_ext (L := Lcr) (L64 := Lcr) Xd).
Notation hK := (real_kw (L := Lcr) (L64 := Lcr) no_kw).
Definition h_pol (r w : nat) : R := dat (@refascale (RS 0 0)) [r; 1%nat] * alpha_ref 1 r w.

Lemma fits_nn d a h v : (0 <= a)%Z -> (0 <= h)%Z -> fits d a h v = true -> 0 <= Q2R (v # d) <= bpow radix2 h.
Proof.
  intros Ha Hh Ft. pose proof (bpow_gt_0 radix2 h). pose proof (bpow_gt_0 radix2 (- a)).
  destruct (fits_range d a h v Ha Hh Ft) as [->|(R1 & R2)]; split; lra.
Qed.
Lemma h_pol_range r w : 0 <= h_pol r w <= 16.
Proof.
  assert (A : 0 <= dat (@refascale (RS 0 0)) [r; 1%nat] <= bpow radix2 1) by (apply (fits_nn refascale_tab_dec 4 1); try lia; apply fits2_nth, ascale_fit).
  assert (T : fits2 refalpha_tab_dec 8 3 (nth 1 refalpha_tab []) = true) by (vm_compute; reflexivity).
  assert (C : 0 <= alpha_ref 1 r w <= bpow radix2 3) by (apply (fits_nn refalpha_tab_dec 8 3); try lia; now apply fits2_nth).
  simpl in A, C. unfold h_pol. split; [apply Rmult_le_pos; tauto|]. replace 16 with (2 * 8) by ring. apply Rmult_le_compat; tauto.
Qed.
Lemma h_pol_13 : 2 <= h_pol 1 3.
Proof.
  change (h_pol 1 3) with (Q2R (50000000000000 # 100000000000000) * Q2R (47462570 # 10000000)). unfold Q2R. cbn [Qnum Qden]. lra.
Qed.
Lemma h_alpha r w : (2 <= r)%nat -> alpha_ref 1 r w = 0.
Proof.
  intros Hr. assert (T : forallb (forallb (fun v => (v =? 0)%Z)) (skipn 2 (nth 1 refalpha_tab [])) = true) by (vm_compute; reflexivity).
  change (alpha_ref 1 r w) with (Q2R (nth w (nth r (nth 1 refalpha_tab []) []) 0%Z # refalpha_tab_dec)).
  assert (E : nth w (nth r (nth 1 refalpha_tab []) []) 0%Z = 0%Z).
  { destruct r as [|[|r]]; try lia. change (nth (S (S r)) (nth 1 refalpha_tab []) []) with (nth r (skipn 2 (nth 1 refalpha_tab [])) []).
    rewrite forallb_forall in T. destruct (nth_in_or_default r (skipn 2 (nth 1 refalpha_tab [])) []) as [I| ->]; [|now destruct w].
    specialize (T _ I). rewrite forallb_forall in T. destruct (nth_in_or_default w (nth r (skipn 2 (nth 1 refalpha_tab [])) []) 0%Z) as [I'| ->]; [|reflexivity].
    apply Z.eqb_eq. now apply T. }
  rewrite E. unfold Q2R. cbn [Qnum Qden]. lra.
Qed.
Lemma h_scount r : dat (@refscount (RS 0 0)) [r; 1%nat] = 0.
Proof.
  change (dat (@refscount (RS 0 0)) [r; 1%nat]) with (Q2R (nth r (nth 1 refscount_tab []) 0%Z # refscount_tab_dec)).
  assert (E : nth r (nth 1 refscount_tab []) 0%Z = 0%Z) by (do 7 (destruct r as [|r]; [reflexivity|]); now destruct r).
  rewrite E. unfold Q2R. cbn [Qnum Qden]. lra.
Qed.
Lemma h_secondary r w : secondary hX hK 1 r w = 0.
Proof. unfold secondary. cbv zeta. rewrite h_scount. destruct (0 <? sys_ref 1 r)%Z; ring. Qed.
Lemma h_size r w : pol_size (L := Lcr) (L64 := Lcr) Xd no_kw 1 r w = h_pol r w.
Proof. unfold pol_size. rewrite h_secondary. unfold h_pol. ring. Qed.
Lemma h_ref_pol r w : pol_ref hX hK 1 r w = h_pol r w.
Proof. unfold pol_ref. rewrite h_secondary, Rminus_0_r. apply Rmax_right, h_pol_range. Qed.
(** nothing for a padding atom *)
Lemma pad_alpha r w : alpha_ref 0 r w = 0.
Proof.
  assert (T : forallb (forallb (fun v => (v =? 0)%Z)) (nth 0 refalpha_tab []) = true) by (vm_compute; reflexivity).
  change (alpha_ref 0 r w) with (Q2R (nth w (nth r (nth 0 refalpha_tab []) []) 0%Z # refalpha_tab_dec)).
  assert (E : nth w (nth r (nth 0 refalpha_tab []) []) 0%Z = 0%Z).
  { rewrite forallb_forall in T. destruct (nth_in_or_default r (nth 0 refalpha_tab []) []) as [I| ->]; [|now destruct w].
    specialize (T _ I). rewrite forallb_forall in T. destruct (nth_in_or_default w (nth r (nth 0 refalpha_tab []) []) 0%Z) as [I'| ->]; [|reflexivity].
    apply Z.eqb_eq. now apply T. }
  rewrite E. unfold Q2R. cbn [Qnum Qden]. lra.
Qed.
Lemma pad_secondary r w : secondary hX hK 0 r w = 0.
Proof.
  unfold secondary. cbv zeta. assert (E : dat (@refscount (RS 0 0)) [r; 0%nat] = 0); [|rewrite E; destruct (0 <? sys_ref 0 r)%Z; ring].
  change (dat (@refscount (RS 0 0)) [r; 0%nat]) with (Q2R (nth r (nth 0 refscount_tab []) 0%Z # refscount_tab_dec)).
  assert (E : nth r (nth 0 refscount_tab []) 0%Z = 0%Z) by (do 7 (destruct r as [|r]; [reflexivity|]); now destruct r).
  rewrite E. unfold Q2R. cbn [Qnum Qden]. lra.
Qed.
Lemma pad_size r w : pol_size (L := Lcr) (L64 := Lcr) Xd no_kw 0 r w = 0.
Proof. unfold pol_size. rewrite pad_secondary, pad_alpha. ring. Qed.
Lemma pad_ref r w : pol_ref hX hK 0 r w = 0.
Proof. unfold pol_ref. rewrite pad_secondary, pad_alpha, Rminus_0_r, Rmult_0_r. apply Rmax_left. lra. Qed.

(** the quadrature *)
Lemma rsum_term_le n f k : (k < n)%nat -> (forall i, (i < n)%nat -> 0 <= f i) -> f k <= rsum n f.
Proof.
  induction n as [|n IH]; intros Hk Hf; [lia|]. cbn [rsum]. assert (0 <= rsum n f) by (apply rsum_nonneg; intros; apply Hf; lia).
  destruct (Nat.eq_dec k n) as [->|Ne]; [lra|]. specialize (IH ltac:(lia) ltac:(intros; apply Hf; lia)). pose proof (Hf n ltac:(lia)). lra.
Qed.
Lemma topi : 9 / 10 <= three_over_pi <= 1.
Proof.
  unfold three_over_pi. assert (B : Q2R 3 <= Q2R pi_lit <= Q2R (10 # 3)) by (split; apply Qle_Rle; vm_compute; discriminate).
  assert (E3 : Q2R 3 = 3) by (unfold Q2R; cbn [Qnum Qden]; lra). assert (E10 : Q2R (10 # 3) = 10 / 3) by (unfold Q2R; cbn [Qnum Qden]; lra).
  rewrite E3, E10 in B.
  set (x := Q2R pi_lit) in *. split; apply Rmult_le_reg_r with x; try lra; replace (3 / x * x) with 3 by (field; lra); lra.
Qed.
Lemma quad_range w : 0 <= quad_weight w <= 4.
Proof.
  assert (Q : 0 <= quad_weight w <= bpow radix2 2) by (apply (fits_nn trapzd_weights_tab_dec 6 2 (nth w trapzd_weights_tab 0%Z)); try lia; apply fits_nth, trap_fit).
  simpl in Q. lra.
Qed.
Lemma quad_3 : quad_weight 3 = 1 / 10.
Proof. change (quad_weight 3) with (Q2R (10000000000000000 # 100000000000000000)). unfold Q2R. cbn [Qnum Qden]. lra. Qed.

Lemma casimir_ext f g f' g' : (forall w, f w = f' w) -> (forall w, g w = g' w) -> casimir f g = casimir f' g'.
Proof. intros Hf Hg. unfold casimir. f_equal. apply rsum_ext. intros w _. now rewrite Hf, Hg. Qed.
Lemma h_cas r s : 0 <= casimir (h_pol r) (h_pol s) <= 24000.
Proof.
  unfold casimir. destruct topi as (T1 & T2).
  assert (Q : forall w, 0 <= quad_weight w * h_pol r w * h_pol s w <= 4 * 16 * 16).
  { intros w. destruct (quad_range w), (h_pol_range r w), (h_pol_range s w).
    split; [apply Rmult_le_pos; [apply Rmult_le_pos|]; lra|]. apply Rmult_le_compat; try lra; [apply Rmult_le_pos; lra|]. apply Rmult_le_compat; lra. }
  assert (P : 0 <= rsum 23 (fun w => quad_weight w * h_pol r w * h_pol s w)) by (apply rsum_nonneg; intros; apply Q).
  assert (U : rsum 23 (fun w => quad_weight w * h_pol r w * h_pol s w) <= rsum 23 (fun _ => 4 * 16 * 16)) by (apply rsum_le; intros; apply Q).
  cbn [rsum] in U. cbn [rsum] in P. cbn [rsum]. set (x := _ + quad_weight 22 * _ * _) in *. split; [apply Rmult_le_pos; lra|].
  apply Rle_trans with (1 * x); [apply Rmult_le_compat_r; lra|lra].
Qed.
Lemma h_cas_11 : 1 / 3 <= casimir (h_pol 1) (h_pol 1).
Proof.
  unfold casimir. destruct topi as (T1 & T2).
  assert (Q : forall w, 0 <= quad_weight w * h_pol 1 w * h_pol 1 w).
  { intros w. destruct (quad_range w), (h_pol_range 1 w). apply Rmult_le_pos; [apply Rmult_le_pos|]; lra. }
  assert (U : 4 / 10 <= quad_weight 3 * h_pol 1 3 * h_pol 1 3).
  { rewrite quad_3. pose proof h_pol_13. replace (4 / 10) with (1 / 10 * 2 * 2) by lra.
    apply Rmult_le_compat; try lra. }
  assert (V : 4 / 10 <= rsum 23 (fun w => quad_weight w * h_pol 1 w * h_pol 1 w)).
  { apply Rle_trans with (1 := U). apply (rsum_term_le 23 (fun w => quad_weight w * h_pol 1 w * h_pol 1 w) 3); [lia|]. intros; apply Q. }
  apply Rle_trans with (9 / 10 * (4 / 10)); [lra|]. apply Rmult_le_compat; lra.
Qed.
Lemma h_cas_0 r s : (2 <= r)%nat \/ (2 <= s)%nat -> casimir (h_pol r) (h_pol s) = 0.
Proof.
  intros H. unfold casimir. rewrite (rsum_ext 23 _ (fun _ => 0 * 0)); [rewrite rsum_scal_l; ring|].
  intros w _. unfold h_pol. destruct H as [H|H]; rewrite (h_alpha _ w H); ring.
Qed.

(** the weights *)
Definition hW (r : nat) : R := weight hX hK 6 1 r 1 0.
Lemma hw_val i j r : (i < 2)%nat -> hw i j r = hW r.
Proof.
  intros Hi. destruct (lit32 0 ltac:(lia)) as (_ & V0). destruct (lit32 1 ltac:(lia)) as (_ & V1). destruct (lit32 6 ltac:(lia)) as (_ & V6).
  transitivity (weight hX hK (B2R (blit 24 128 (inject_Z 6))) 1 r (B2R (blit 24 128 (inject_Z 1))) (B2R (blit 24 128 (inject_Z 0)))).
  - destruct i as [|[|i]]; [| |lia]; reflexivity.
  - unfold hW. rewrite V0, V1, V6. reflexivity.
Qed.
Lemma h_zeta r : (r < 7)%nat -> 1 <= charge_factor hX hK 1 r 0 <= 32.
Proof.
  intros Hr. destruct (lit32 1 ltac:(lia)) as (_ & V1). destruct (lit32 2 ltac:(lia)) as (_ & V2). destruct (lit32 3 ltac:(lia)) as (_ & V3).
  change (charge_factor hX hK 1 r 0) with (zeta_fun (bpow radix2 (1 - 24)) (B2R (blit 24 128 (inject_Z 3))) (B2R (blit 24 128 (inject_Z 1)) * B2R (blit 24 128 (inject_Z 2)))
    (q_ref "eeq" 1 r + B2R (blit 24 128 (inject_Z 1))) (0 + B2R (blit 24 128 (inject_Z 1)))).
  assert (Q0 : q_ref "eeq" 1 r = 0).
  { change (q_ref "eeq" 1 r) with (IZR (nth r (nth 1 clsq_tab []) 0%Z) / IZR (Zpos clsq_tab_dec)).
    do 7 (destruct r as [|r]; [unfold Rdiv; apply Rmult_0_l|]). lia. }
  rewrite Q0, V1, V2, V3. unfold zeta_fun. destruct (Rlt_dec 0 (0 + 1)) as [_|Q]; [|lra].
  assert (Ep : bpow radix2 (1 - 24) <= / 16) by (change (/ 16) with (bpow radix2 (-4)); apply bpow_le; lia).
  assert (E0 := bpow_gt_0 radix2 (1 - 24)). set (e := bpow radix2 (1 - 24)) in *.
  assert (V : 1 <= (0 + 1) / (0 + 1 - e)) by (apply Rmult_le_reg_r with (0 + 1 - e); [lra|]; unfold Rdiv; rewrite Rmult_assoc, Rinv_l; lra).
  assert (A : exp (1 * 2 * (1 - (0 + 1) / (0 + 1 - e))) <= 1) by (apply Rle_trans with (exp 0); [apply exp_mono; lra|rewrite exp_0; lra]).
  pose proof (exp_pos (1 * 2 * (1 - (0 + 1) / (0 + 1 - e)))) as P. set (y := exp _) in *. split.
  - apply Rle_trans with (exp 0); [rewrite exp_0; lra|apply exp_mono; lra].
  - apply Rle_trans with (exp 3); [apply exp_mono; lra|]. replace 3 with (1 + (1 + 1)) by ring. rewrite !exp_plus. pose proof exp_le_3. pose proof (exp_pos 1).
    assert (exp 1 * exp 1 <= 9) by nra. assert (exp 1 * (exp 1 * exp 1) <= 3 * 9) by (apply Rmult_le_compat; nra). lra.
Qed.
Lemma h_cn : 89 / 100 <= cn_ref 1 1 <= 9 / 10.
Proof. change (cn_ref 1 1) with (Q2R (89422436546040 # 100000000000000)). unfold Q2R. cbn [Qnum Qden]. lra. Qed.
Lemma h_gauss : / 729 <= gauss 6 1 1 0 <= 3 /\ / 2 <= gauss 6 1 1 1 <= 1 /\ rsum 7 (gauss 6 1 1) = gauss 6 1 1 0 + gauss 6 1 1 1.
Proof.
  assert (Z : forall r, (2 <= r < 7)%nat -> gauss 6 1 1 r = 0).
  { intros r Hr. unfold gauss. assert (E : n_gauss 1 r = 0%Z) by (do 7 (destruct r as [|r]; [try lia; reflexivity|]); lia). rewrite E. reflexivity. }
  assert (E1 : forall x, 0 <= x -> exp (- x) <= 1) by (intros x Hx; rewrite <- exp_0; apply exp_mono; lra).
  split; [|split].
  - unfold gauss. change (Z.to_nat (n_gauss 1 0)) with 3%nat. cbn [rsum].
    assert (C0 : cn_ref 1 0 = 0) by (change (cn_ref 1 0) with (Q2R (0 # 100000000000000)); unfold Q2R; cbn [Qnum Qden]; lra).
    rewrite C0. cbn [INR]. assert (L1 : / 729 <= exp (- (1 * 6 * (1 - 0) ^ 2))).
    { replace (1 * 6 * (1 - 0) ^ 2) with 6 by ring. rewrite exp_Ropp. apply Rinv_le_contravar; [apply exp_pos|].
      replace 6 with (1 + (1 + (1 + (1 + (1 + 1))))) by ring. rewrite !exp_plus. pose proof exp_le_3. pose proof (exp_pos 1). set (a := exp 1) in *.
      assert (a * a <= 9) by nra. assert (a * (a * a) <= 3 * 9) by (apply Rmult_le_compat; nra).
      replace (a * (a * (a * (a * (a * a))))) with ((a * (a * a)) * (a * (a * a))) by ring.
      assert (0 <= a * (a * a)) by nra. replace 729 with ((3 * 9) * (3 * 9)) by ring. apply Rmult_le_compat; lra. }
    pose proof (exp_pos (- ((1 + 1) * 6 * (1 - 0) ^ 2))). pose proof (exp_pos (- ((1 + 1 + 1) * 6 * (1 - 0) ^ 2))).
    pose proof (E1 (1 * 6 * (1 - 0) ^ 2) ltac:(lra)). pose proof (E1 ((1 + 1) * 6 * (1 - 0) ^ 2) ltac:(lra)). pose proof (E1 ((1 + 1 + 1) * 6 * (1 - 0) ^ 2) ltac:(lra)). lra.
  - unfold gauss. change (Z.to_nat (n_gauss 1 1)) with 1%nat. cbn [rsum INR]. destruct h_cn as (C1 & C2). set (x := cn_ref 1 1) in *.
    assert (Q : 0 <= (1 - x) ^ 2 <= 2 / 100) by nra. pose proof (E1 (1 * 6 * (1 - x) ^ 2) ltac:(lra)).
    pose proof (exp_ineq1_le (- (1 * 6 * (1 - x) ^ 2))). lra.
  - cbn [rsum]. rewrite (Z 2%nat), (Z 3%nat), (Z 4%nat), (Z 5%nat), (Z 6%nat) by lia. ring.
Qed.
Lemma hW_range r : (r < 7)%nat -> 0 <= hW r <= 32 /\ ((r < 2)%nat -> / 3000 <= hW r) /\ (r = 1%nat -> / 8 <= hW r).
Proof.
  intros Hr. destruct h_gauss as ((A1 & A2) & (B1 & B2) & S). destruct (h_zeta r Hr) as (Z1 & Z2). unfold hW, weight.
  destruct (Nat.le_gt_cases 2 r) as [H|H].
  - assert (E : (0 <? n_gauss 1 r)%Z = false) by (do 7 (destruct r as [|r]; [try lia; reflexivity|]); lia). rewrite E.
    split; [lra|]. split; intros; lia.
  - assert (E : (0 <? n_gauss 1 r)%Z = true) by (destruct r as [|[|r]]; try lia; reflexivity). rewrite E.
    set (c := charge_factor hX hK 1 r 0) in *. unfold gauss_weight. rewrite S. set (g0 := gauss 6 1 1 0) in *. set (g1 := gauss 6 1 1 1) in *.
    assert (D : forall g, (g = g0 \/ g = g1) -> / 4 * g <= g / (g0 + g1) <= 1).
    { intros g Hg. split; apply Rmult_le_reg_r with (g0 + g1); try lra; replace (g / (g0 + g1) * (g0 + g1)) with g by (field; lra); [|destruct Hg; lra].
      assert (0 <= g) by (destruct Hg; lra). nra. }
    assert (Ge : gauss 6 1 1 r = g0 \/ gauss 6 1 1 r = g1) by (destruct r as [|[|r]]; [left|right|lia]; reflexivity).
    assert (G0 : / 729 <= gauss 6 1 1 r) by (destruct Ge as [->| ->]; lra).
    specialize (D _ Ge). set (x := gauss 6 1 1 r / (g0 + g1)) in *.
    assert (c * x <= 32 * 1) by (apply Rmult_le_compat; lra). assert (1 * x <= c * x) by (apply Rmult_le_compat_r; lra).
    split; [lra|]. split; [intros _; lra|]. intros ->. change (gauss 6 1 1 1) with g1 in D. lra.
Qed.

Lemma h_condition i j : (i < 3)%nat -> (j < 3)%nat ->
  c6_condition (L := Lcr) (L64 := Lcr) Xd D4M no_kw HH (Some hCn) (Some hQ) [] i j hSizes (-47) 4.
Proof.
  intros Hi Hj. unfold c6_condition. cbv zeta. unfold exact_c6, c6_pair, c6_size.
  assert (Zero : forall f : nat -> nat -> R, (forall r s, f r s = 0) -> rsum 7 (fun r => rsum 7 (f r)) = 0).
  { intros f Hf. apply rsum_0. intros r _. apply rsum_0. intros s _. apply Hf. }
  assert (C0 : forall f g, (forall w, f w = 0) \/ (forall w, g w = 0) -> casimir f g = 0).
  { intros f g H. unfold casimir. rewrite rsum_0; [ring|]. intros w _. destruct H as [H|H]; rewrite H; ring. }
  destruct (Nat.eq_dec i 2) as [->|Ni].
  { change (Z.to_nat (sl1 HH [] 2)) with 0%nat. rewrite !Zero; [split; [now left|lra]| |]; intros r s; rewrite C0; try ring; left; intros; first [apply pad_ref | apply pad_size]. }
  destruct (Nat.eq_dec j 2) as [->|Nj].
  { change (Z.to_nat (sl1 HH [] 2)) with 0%nat. rewrite !Zero; [split; [now left|lra]| |]; intros r s; rewrite C0; try ring; right; intros; first [apply pad_ref | apply pad_size]. }
  assert (Hi2 : (i < 2)%nat) by lia. assert (Hj2 : (j < 2)%nat) by lia.
  assert (Ei : Z.to_nat (sl1 HH [] i) = 1%nat) by (destruct i as [|[|i]]; try lia; reflexivity).
  assert (Ej : Z.to_nat (sl1 HH [] j) = 1%nat) by (destruct j as [|[|j]]; try lia; reflexivity).
  rewrite Ei, Ej.
  assert (P : rsum 7 (fun r => rsum 7 (fun s => hw i j r * hw j i s * casimir (pol_ref hX hK 1 r) (pol_ref hX hK 1 s))) =
    rsum 7 (fun r => rsum 7 (fun s => hW r * hW s * casimir (h_pol r) (h_pol s)))).
  { apply rsum_ext. intros r _. apply rsum_ext. intros s _. rewrite !hw_val by lia. f_equal. apply casimir_ext; intros; apply h_ref_pol. }
  rewrite P. clear P. set (phi := bpow radix2 (-47)). assert (Ph : 0 < phi <= / 3000).
  { split; [apply bpow_gt_0|]. apply Rle_trans with (bpow radix2 (-12)); [apply bpow_le; lia|]. simpl. lra. }
  assert (T : forall r s, (r < 7)%nat -> (s < 7)%nat -> 0 <= hW r * hW s * casimir (h_pol r) (h_pol s) <= 32 * 32 * 24000).
  { intros r s Hr Hs. destruct (hW_range r Hr) as (W1 & _). destruct (hW_range s Hs) as (W2 & _). destruct (h_cas r s) as (D1 & D2).
    split; [apply Rmult_le_pos; [apply Rmult_le_pos; lra|lra]|]. apply Rmult_le_compat; try lra; [apply Rmult_le_pos; lra|]. apply Rmult_le_compat; lra. }
  split.
  - right. split.
    + apply Rle_trans with (/ 8 * / 8 * (1 / 3)). { change (1 - ac6min hSizes)%Z with (-19)%Z. simpl. lra. }
      apply Rle_trans with (hW 1 * hW 1 * casimir (h_pol 1) (h_pol 1)).
      { destruct (hW_range 1 ltac:(lia)) as (W1 & _ & W2). specialize (W2 eq_refl). pose proof h_cas_11. apply Rmult_le_compat; try lra. apply Rmult_le_compat; lra. }
      apply Rle_trans with (rsum 7 (fun s => hW 1 * hW s * casimir (h_pol 1) (h_pol s))).
      { apply (rsum_term_le 7 (fun s => hW 1 * hW s * casimir (h_pol 1) (h_pol s)) 1); [lia|]. intros s Hs. apply T; lia. }
      apply (rsum_term_le 7 (fun r => rsum 7 (fun s => hW r * hW s * casimir (h_pol r) (h_pol s))) 1); [lia|]. intros r Hr. apply rsum_nonneg. intros s Hs. apply T; lia.
    + apply Rle_trans with (rsum 7 (fun _ => rsum 7 (fun _ => 32 * 32 * 24000))).
      { apply rsum_le. intros r Hr. apply rsum_le. intros s Hs. apply T; lia. }
      cbn [rsum]. change (ac6max hSizes - 1)%Z with 32%Z. simpl. lra.
  - rewrite <- rsum_scal_l. apply rsum_le. intros r Hr. rewrite <- rsum_scal_l. apply rsum_le. intros s Hs.
    rewrite !hw_val by lia.
    rewrite (casimir_ext _ _ (h_pol r) (h_pol s)) by (intros; apply h_size).
    destruct (Nat.le_gt_cases 2 r) as [Q|Q]; [rewrite (h_cas_0 r s) by (now left); lra|].
    destruct (Nat.le_gt_cases 2 s) as [Q'|Q']; [rewrite (h_cas_0 r s) by (now right); lra|].
    destruct (hW_range r Hr) as (_ & W1 & _). destruct (hW_range s Hs) as (_ & W2 & _). specialize (W1 Q). specialize (W2 Q').
    destruct (h_cas r s) as (D1 & _). rewrite <- Rmult_assoc. apply Rmult_le_compat_r; [exact D1|].
    replace (4 * (hW r * hW s)) with ((2 * hW r) * (2 * hW s)) by ring. apply Rmult_le_compat; lra.
Qed.

(** The energies of the two atoms have three per cent of error at most (the bound counts every rounding as the
    worst case), that of the padding atom is zero. *)
Example C79_example : exists m t, built Xd D4M no_kw HH 3 [] m /\
  term_calculate Xd (mkTerm TwoBodyTerm RationalDamping true) HH hPos (gparam (N := N32)) hCn m (Some hQ) hR (x_vdw Xd) (default_cutoff (K := sc N32)) = Ok t /\
  forall i, (i < 3)%nat ->
    let e := exact_term (L := Lcr) (L64 := Lcr) Xd D4M no_kw HH hPos (Some hCn) (Some hQ) hR (gparam (N := N32)) (blit 24 128 (39 # 100)) (blit 24 128 (48 # 10)) 60 3 3 [] i in
    is_finite (sl1 t [] i : f32) = true /\ Rabs (B2R (sl1 t [] i : f32) - e) <= 3 / 100 * Rabs e.
Proof.
  destruct h_built as (m & Hm). assert (V60 : B2R (dat (c_disp2 (default_cutoff (K := sc N32))) [] : f32) = 60) by (apply (lit32 60); lia).
  assert (G4 : growth (prec := 24) 41377 - 1 <= 5 / 1000).
  { unfold growth. pose proof (wk_lin (prec := 24) 41377 ltac:(vm_compute; discriminate)) as W. pose proof (ln_w_le (prec := 24)) as Lw. unfold w in W, Lw.
    assert (I : INR 41377 = 41377) by (rewrite INR_IZR_INZ; reflexivity). rewrite I in W. change (bpow radix2 (- (24))) with (/ 16777216) in *. lra. }
  destruct (C79_term_accuracy (L := Lcr) (L64 := Lcr) Xd hSizes 7 1 D4M no_kw HH 3 3 [] m hPos hCn (Some hQ) true (gparam (N := N32)) hR (x_vdw Xd) (default_cutoff (K := sc N32))
    (blit 24 128 (39 # 100)) (blit 24 128 (48 # 10)) 1 1 1 1 24 50 240 0 5 30 1 5 12 2 5 (-47) 4 ltac:(lia) ltac:(lia) Lcr_nonneg
    (C77_correct_exp (prec := 24) (emax := 128) ltac:(lia)) (Lcr_pow_accurate (prec := 24) (emax := 128) ltac:(lia))
    (C77_correct_exp (prec := 53) (emax := 1024) ltac:(lia)) (C76_correct_pow (prec := 53) (emax := 1024) ltac:(lia)) (Lcr_pow_accurate (prec := 53) (emax := 1024) ltac:(lia))
    Hm eq_refl eq_refl eq_refl eq_refl eq_refl) as (t & Et & _ & Ht).
  - apply (lit32 60); lia.
  - exact (gparam_good (N := N32)).
  - reflexivity.
  - reflexivity.
  - exact h_fits.
  - vm_compute. discriminate.
  - rewrite V60. exact h_geometry.
  - exact h_r4r2.
  - exact ex_param.
  - apply ex_fit. now left.
  - exact ex_c6_fit.
  - lra.
  - change (c6_errors 1 5 12 2 (weight_errors 1 5 30 1 0)) with 41377%nat. lra.
  - intros b i j Hb Hi Hj. destruct b; [|destruct Hb]. split; [now apply h_atom|now apply h_condition].
  - exists m, t. split; [exact Hm|]. split; [exact Et|]. intros i Hi e. destruct (Ht [] i Logic.I Hi) as (Ff & Er). split; [exact Ff|].
    rewrite V60 in Er. apply Rle_trans with (1 := Er). apply Rmult_le_compat_r; [apply Rabs_pos|].
    change (c6_errors 1 5 12 2 (weight_errors 1 5 30 1 0)) with 41377%nat. change (atom_errors 7 1 3) with 89%nat.
    pose proof (growth_linear (prec := 24) 89 ltac:(change (2 ^ 24)%Z with 16777216%Z; lia)) as G9. assert (I : INR 89 = 89) by (rewrite INR_IZR_INZ; reflexivity).
    rewrite I in G9. change (bpow radix2 (- (24))) with (/ 16777216) in G9. pose proof (wk_ge1 (prec := 24) 41377) as W1. change (1 <= growth (prec := 24) 41377) in W1.
    assert (growth (prec := 24) 89 * (1 + (growth (prec := 24) 41377 - 1) * 4) <= (1 + 1 / 10000) * (1 + 5 / 1000 * 4)); [|lra].
    apply Rmult_le_compat; try lra. left. apply growth_pos.
Qed.
