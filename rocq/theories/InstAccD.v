(** * C81: example in single precision: the energies of three hydrogen atoms and a padding atom, from [Disp.calculate] *)
From Coq Require Import Reals List Arith ZArith QArith Qreals Bool String Lia Lra.
From Flocq Require Import Core.Core IEEE754.BinarySingleNaN.
From Verif Require Import Py Tensor Scalar RInst ModelExt ModelUtils ModelDamping ModelModels ModelTerms ModelDisp Spec SpecR SpecCall PropsTables TensorLemmas DataRef DataAlpha DataPair CallLemmas Energy3R ClosedDisp
  IeeeInst IeeeP IeeeB IeeeA IeeeM IeeeE IeeeLib PropsAcc PropsAcc3 SpecW SpecIeee IeeeW PropsIeee PropsAccW PropsAccT PropsAccC PropsAccC6 PropsAccE PropsAccA PropsAccD
  InstAny InstIeee InstAcc InstAcc3 InstAccT InstAccC6 InstAccE InstAccA.
Import ListNotations.
Open Scope R_scope.

Local Existing Instance Hp64.
Local Existing Instance He64.
Local Existing Instance Hp32.
Local Existing Instance He32.

(** coordination numbers, charges, expectation values and radii are given by the caller *)
Definition tRv : tensor (sc N32) := mkT [4; 4]%nat (fun _ => blit 24 128 (inject_Z 3)).
Definition tDisp : Disp N32 := mkDisp (N := N32) (terms_d4 Xd) (fun _ _ _ => Ok tCn) None "d4" None no_kw.
Definition tArgs : Args N32 := mkCall (N := N32) H3 tPos (scal (flit 0)) (gparam (N := N32)) None (Some tQ0) None (Some tR) (Some tRv).
Definition t_two : list nat -> nat -> R := fun _ i => exact_term (L := Lcr) (L64 := Lcr) Xd D4M no_kw H3 tPos (Some tCn) (Some tQ0) tR (gparam (N := N32))
  (blit 24 128 (39 # 100)) (blit 24 128 (48 # 10)) 60 4 3 [] i.
Definition t_three (f : nat -> (nat -> R) -> (nat -> R) -> (nat -> R) -> R -> R -> R -> R -> R -> R -> R) : list nat -> nat -> R := fun _ i =>
  atm_sum (L := Lcr) (L64 := Lcr) f H3 tPos [] (exact_c9 (L := Lcr) (L64 := Lcr) Xd D4M no_kw H3 (Some tCn) None [])
    (exact_radius (L := Lcr) (L64 := Lcr) tR (blit 24 128 (39 # 100)) (blit 24 128 (48 # 10)) []) 1 16 40 4 3 i.

Lemma t_geometry2 : acc_geometry (L := Lcr) (L64 := Lcr) Xd hSizes 7 60 H3 tPos 4 3 [].
Proof.
  split; [cbn; lia|]. intros b i j Hb Hi Hj R d. destruct b; [|destruct Hb]. destruct (t_dist i j Hi Hj R) as (A & D). change (2 <= d <= 4) in D.
  split; [exact A|]. split; [simpl; lra|]. left. pose proof (few_2 (prec := 24) 7 ltac:(unfold few; change (2 ^ 24)%Z with 16777216%Z; lia)) as W.
  change (growth (prec := 24) 7 <= 2) in W. pose proof (growth_pos (prec := 24) 7). split; [nra|simpl; lra].
Qed.
Lemma t_r4r2 : acc_r4r2 (L := Lcr) (L64 := Lcr) tR 4 [].
Proof.
  intros b i Hb Hi. destruct b; [|destruct Hb]. destruct (lit32 2 ltac:(lia)) as (F2 & V2). destruct i as [|[|[|[|i]]]]; try lia;
    try (change (zero_or 0 5 (blit 24 128 (inject_Z 2))); split; [exact F2|right; rewrite V2; simpl; lra]).
  split; [reflexivity|now left].
Qed.

Lemma t_two_body m : built Xd D4M no_kw H3 4 [] m -> exists t,
  term_calculate Xd (mkTerm TwoBodyTerm RationalDamping true) H3 tPos (gparam (N := N32)) tCn m (Some tQ0) tR tRv (default_cutoff (K := sc N32)) = Ok t /\ shp t = [4%nat] /\
  forall i, (i < 4)%nat -> is_finite (sl1 t [] i : f32) = true /\ Rabs (B2R (sl1 t [] i : f32) - t_two [] i) <= 9 / 100 * Rabs (t_two [] i).
Proof.
  intros Hm. assert (V60 : B2R (dat (c_disp2 (default_cutoff (K := sc N32))) [] : f32) = 60) by (apply (lit32 60); lia).
  assert (G4 : growth (prec := 24) 41377 - 1 <= 5 / 1000).
  { unfold growth. pose proof (wk_lin (prec := 24) 41377 ltac:(vm_compute; discriminate)) as W. pose proof (ln_w_le (prec := 24)) as Lw. unfold w in W, Lw.
    assert (I : INR 41377 = 41377) by (rewrite INR_IZR_INZ; reflexivity). rewrite I in W. change (bpow radix2 (- (24))) with (/ 16777216) in *. lra. }
  destruct (C79_term_accuracy (L := Lcr) (L64 := Lcr) Xd hSizes 7 1 D4M no_kw H3 4 3 [] m tPos tCn (Some tQ0) true (gparam (N := N32)) tR tRv (default_cutoff (K := sc N32))
    (blit 24 128 (39 # 100)) (blit 24 128 (48 # 10)) 1 1 1 1 24 50 240 0 5 30 1 5 12 2 5 (-47) 4 ltac:(lia) ltac:(lia) Lcr_nonneg
    (C77_correct_exp (prec := 24) (emax := 128) ltac:(lia)) (Lcr_pow_accurate (prec := 24) (emax := 128) ltac:(lia))
    (C77_correct_exp (prec := 53) (emax := 1024) ltac:(lia)) (C76_correct_pow (prec := 53) (emax := 1024) ltac:(lia)) (Lcr_pow_accurate (prec := 53) (emax := 1024) ltac:(lia))
    Hm eq_refl eq_refl eq_refl eq_refl eq_refl) as (t & Et & St & Ht).
  - apply (lit32 60); lia.
  - exact (gparam_good (N := N32)).
  - reflexivity.
  - reflexivity.
  - exact h_fits.
  - vm_compute. discriminate.
  - rewrite V60. exact t_geometry2.
  - exact t_r4r2.
  - exact ex_param.
  - apply ex_fit. now left.
  - exact ex_c6_fit.
  - lra.
  - change (c6_errors 1 5 12 2 (weight_errors 1 5 30 1 0)) with 41377%nat. lra.
  - intros b i j Hb Hi Hj. destruct b; [|destruct Hb]. split; [apply t_atom|apply t_condition]; auto; now right.
  - exists t. split; [exact Et|]. split; [exact St|]. intros i Hi. destruct (Ht [] i Logic.I Hi) as (Ff & Er). split; [exact Ff|].
    rewrite V60 in Er. apply Rle_trans with (1 := Er). apply Rmult_le_compat_r; [apply Rabs_pos|].
    change (c6_errors 1 5 12 2 (weight_errors 1 5 30 1 0)) with 41377%nat. set (k := atom_errors 7 1 4). vm_compute in k.
    pose proof (growth_linear (prec := 24) k ltac:(unfold k; change (2 ^ 24)%Z with 16777216%Z; lia)) as G9. assert (I : INR k <= 200) by (unfold k; rewrite INR_IZR_INZ; simpl; lra).
    change (bpow radix2 (- (24))) with (/ 16777216) in G9. pose proof (wk_ge1 (prec := 24) 41377) as W1. change (1 <= growth (prec := 24) 41377) in W1.
    assert (growth (prec := 24) k * (1 + (growth (prec := 24) 41377 - 1) * 4) <= (1 + 1 / 10000) * (1 + 5 / 1000 * 4)); [|lra].
    apply Rmult_le_compat; try lra. left. apply growth_pos.
Qed.

(** ** The sizes are far from the largest number *)
Lemma t_c6 q i j : t_charges q -> (i < 4)%nat -> (j < 4)%nat -> 0 <= exact_c6 (L := Lcr) (L64 := Lcr) Xd D4M no_kw H3 (Some tCn) q [] i j <= bpow radix2 32.
Proof.
  intros Hq Hi Hj. destruct (t_condition q i j Hq Hi Hj) as (([E|(A & B)] & _) & _).
  - rewrite E. split; [lra|left; apply bpow_gt_0].
  - split; [|exact B]. apply Rle_trans with (2 := A). left. apply bpow_gt_0.
Qed.
Lemma rsum_le_const n f M : (forall i, (i < n)%nat -> f i <= M) -> rsum n f <= INR n * M.
Proof.
  induction n as [|n IH]; intros H; [simpl; lra|]. rewrite S_INR. cbn [rsum]. pose proof (H n ltac:(lia)). specialize (IH ltac:(intros; apply H; lia)). lra.
Qed.
Lemma div_le x y M : 0 <= x <= M -> 1 <= y -> 0 <= x / y <= M.
Proof.
  intros (H1 & H2) Hy. assert (0 < / y <= 1).
  { split; [apply Rinv_0_lt_compat; lra|]. rewrite <- Rinv_1. apply Rinv_le_contravar; lra. }
  unfold Rdiv. split; [apply Rmult_le_pos; lra|]. replace M with (M * 1) by ring. apply Rmult_le_compat; lra.
Qed.
Lemma t_two_bound i : (i < 4)%nat -> Rabs (t_two [] i) <= bpow radix2 40.
Proof.
  intros Hi. unfold t_two, exact_term, two_body. rewrite Rabs_mult, (Rabs_left (- (1 / 2))) by lra.
  assert (Er : forall i, (i < 4)%nat -> 0 <= B2R (sl1 tR [] i : f32) <= 2).
  { destruct (lit32 2 ltac:(lia)) as (_ & V2). intros [|[|[|[|?]]]] ?; try lia; try (change (0 <= B2R (blit 24 128 (inject_Z 2)) <= 2); rewrite V2; lra).
    change (0 <= 0 <= 2). lra. }
  assert (S6 : scale (L := Lcr) (L64 := Lcr) (gparam (N := N32)) "s6" 1 = 1) by (apply (lit32 1); lia).
  assert (S8 : 0 <= scale8 (L := Lcr) (L64 := Lcr) (gparam (N := N32)) <= 1) by (change (0 <= B2R (blit 24 128 (96 # 100)) <= 1); value (blit 24 128 (96 # 100))).
  assert (S10 : scale (L := Lcr) (L64 := Lcr) (gparam (N := N32)) "s10" 0 = 0) by reflexivity.
  pose proof t_a1 as A1. pose proof t_a2 as A2.
  set (f := fun j => _).
  assert (H : forall j, (j < 4)%nat -> 0 <= f j <= 16 * bpow radix2 32).
  { intros j Hj. unfold f. pose proof (bpow_gt_0 radix2 32) as B0. destruct (real_pair (sl1 H3 []) i j) eqn:Rp; simpl (_ && _); [|lra].
    destruct rleb; [|lra]. destruct (t_dist i j Hi Hj Rp) as (_ & D). destruct (t_c6 (Some tQ0) i j (or_intror eq_refl) Hi Hj) as (C1 & C2).
    destruct (Er i Hi) as (R1 & R2). destruct (Er j Hj) as (R3 & R4). set (d := euclid _ _ _) in *. set (c6 := exact_c6 _ _ _ _ _ _ _ _ _) in *.
    set (qi := B2R (sl1 tR [] i)) in *. set (qj := B2R (sl1 tR [] j)) in *. unfold pair_energy. cbv zeta. rewrite S6, S10.
    set (s8 := scale8 _) in *.
    assert (Q : 0 <= 3 * qi * qj <= 12) by (split; [apply Rmult_le_pos; lra|]; replace 12 with (3 * 2 * 2) by ring; apply Rmult_le_compat; lra).
    set (x := 3 * qi * qj) in *. assert (Sx : 0 <= sqrt x) by apply sqrt_pos.
    set (R0 := _ * sqrt x + _). assert (HR0 : 0 <= R0) by (unfold R0; nra).
    assert (P : forall o, 1 <= d ^ o + R0 ^ o) by (intros o; pose proof (pow_R1_Rle d o ltac:(lra)); pose proof (pow_le R0 o HR0); lra).
    set (Bm := bpow radix2 32) in *.
    assert (T6 : 0 <= 1 * c6 / (d ^ 6 + R0 ^ 6) <= Bm) by (apply div_le; [lra|apply P]).
    assert (T8 : 0 <= s8 * (x * c6) / (d ^ 8 + R0 ^ 8) <= 1 * (12 * Bm)).
    { apply div_le; [|apply P]. assert (0 <= x * c6 <= 12 * Bm) by (split; [apply Rmult_le_pos; lra|apply Rmult_le_compat; lra]).
      split; [apply Rmult_le_pos; lra|apply Rmult_le_compat; lra]. }
    unfold Rdiv at 3 5. rewrite !Rmult_0_l. lra. }
  assert (U : 0 <= rsum 4 f <= INR 4 * (16 * bpow radix2 32)).
  { split; [apply rsum_nonneg; intros; now apply H|apply rsum_le_const; intros; now apply H]. }
  rewrite (Rabs_pos_eq (rsum 4 f)) by tauto. simpl INR in U.
  assert (E : bpow radix2 40 = 256 * bpow radix2 32) by (change 40%Z with (8 + 32)%Z; rewrite bpow_plus; reflexivity). pose proof (bpow_gt_0 radix2 32). lra.
Qed.
Lemma t_three_bound i : (i < 4)%nat -> t_three triple_size [] i <= bpow radix2 54.
Proof.
  intros Hi. unfold t_three, atm_sum. set (f := fun j => rsum 4 _).
  assert (H : forall j, (j < 4)%nat -> f j <= INR 4 * (2 * bpow radix2 48)).
  { intros j Hj. unfold f. apply rsum_le_const. intros k Hk. pose proof (bpow_gt_0 radix2 48) as B0.
    destruct (real_triple (sl1 H3 []) i j k) eqn:RT; simpl (_ && _ && _); [|lra]. destruct (_ && _); [|lra].
    destruct (real_triple_pairs _ _ _ _ RT) as (R1 & R2 & R3).
    pose proof (proj2 (t_dist i j Hi Hj R1)) as D1. pose proof (proj2 (t_dist i k Hi Hk R2)) as D2. pose proof (proj2 (t_dist j k Hj Hk R3)) as D3.
    unfold triple_size.
    set (xi := rcoord tPos [] i) in *. set (xj := rcoord tPos [] j) in *. set (xk := rcoord tPos [] k) in *.
    assert (Q : forall x y, 2 <= euclid 3 x y <= 4 -> 0 <= sqd 3 x y <= 16).
    { intros x y (E1 & E2). assert (P : 0 <= sqd 3 x y) by (unfold sqd; apply rsum_nonneg; intros; apply pow2_ge_0).
      split; [exact P|]. unfold euclid in *. rewrite <- (sqrt_sqrt (sqd 3 x y)) by exact P. nra. }
    pose proof (Q _ _ D1) as Q1. pose proof (Q _ _ D2) as Q2. pose proof (Q _ _ D3) as Q3.
    assert (C9 : 0 <= exact_c9 (L := Lcr) (L64 := Lcr) Xd D4M no_kw H3 (Some tCn) None [] i j k <= bpow radix2 48).
    { unfold exact_c9. split; [apply sqrt_pos|]. pose proof (t_c6 None i j (or_introl eq_refl) Hi Hj) as C1. pose proof (t_c6 None i k (or_introl eq_refl) Hi Hk) as C2. pose proof (t_c6 None j k (or_introl eq_refl) Hj Hk) as C3.
      rewrite Rabs_pos_eq by (repeat apply Rmult_le_pos; tauto).
      rewrite <- (sqrt_square (bpow radix2 48)) by lra. apply sqrt_le_1; [repeat apply Rmult_le_pos; tauto|apply Rmult_le_pos; lra|].
      replace (bpow radix2 48 * bpow radix2 48) with (bpow radix2 32 * bpow radix2 32 * bpow radix2 32) by (rewrite <- !bpow_plus; reflexivity).
      apply Rmult_le_compat; try tauto; [apply Rmult_le_pos; tauto|apply Rmult_le_compat; tauto]. }
    set (c9 := exact_c9 _ _ _ _ _ _ _ _ _ _) in *. set (P := Rpower _ _). assert (P0 : 0 < P) by apply exp_pos.
    set (q := sqd 3 xi xj + _ + _). assert (Hq : 0 <= q <= 48) by (unfold q; lra).
    set (r := euclid 3 xi xj * _ * _). assert (Hr : 8 <= r).
    { unfold r. replace 8 with (2 * 2 * 2) by ring. apply Rmult_le_compat; try lra. apply Rmult_le_compat; lra. }
    rewrite Rabs_R1, Rmult_1_l, (Rabs_pos_eq c9) by tauto.
    assert (R2p : 64 <= r ^ 2) by (simpl; nra). assert (R3p : 512 <= r ^ 3) by (simpl in *; nra).
    assert (Hq3 : 0 <= q ^ 3 <= 110592).
    { split; [apply pow_le; tauto|]. replace 110592 with (48 ^ 3) by ring. apply pow_incr. exact Hq. }
    assert (V : 0 <= q ^ 3 / (8 * r ^ 2) <= 216).
    { assert (0 < / (8 * r ^ 2) <= / 512) by (split; [apply Rinv_0_lt_compat; lra|apply Rinv_le_contravar; lra]). unfold Rdiv.
      split; [apply Rmult_le_pos; lra|]. replace 216 with (110592 * / 512) by field. apply Rmult_le_compat; lra. }
    set (v := q ^ 3 / _) in *.
    assert (I3 : 0 < / r ^ 3 <= / 512) by (split; [apply Rinv_0_lt_compat; lra|apply Rinv_le_contravar; lra]).
    apply div_le; [|lra].
    assert (Z : 0 <= c9 * (3 * v + 1) <= bpow radix2 48 * 649) by (split; [apply Rmult_le_pos; lra|apply Rmult_le_compat; lra]).
    unfold Rdiv. split; [apply Rmult_le_pos; lra|]. apply Rle_trans with (bpow radix2 48 * 649 * / 512); [apply Rmult_le_compat; lra|lra]. }
  pose proof (rsum_le_const 4 f _ H) as U. simpl INR in U. pose proof (bpow_gt_0 radix2 48).
  assert (E : bpow radix2 54 = 64 * bpow radix2 48) by (change 54%Z with (6 + 48)%Z; rewrite bpow_plus; reflexivity). lra.
Qed.

(** The energies returned by the D4 calculation are within ten per cent of the sum of the sizes. *)
Example C81_example : exists t, run Xd (Wany (N := N32) Xd) tDisp tArgs = Ok t /\ shp t = [4%nat] /\
  forall i, (i < 4)%nat -> is_finite (sl1 t [] i : f32) = true /\
    Rabs (B2R (sl1 t [] i : f32) - (t_two [] i + t_three triple_energy [] i)) <= 1 / 10 * (Rabs (t_two [] i) + t_three triple_size [] i).
Proof.
  destruct t_built_d4 as (m & Hm & Em).
  pose proof (growth_linear (prec := 24) 2 ltac:(change (2 ^ 24)%Z with 16777216%Z; lia)) as G. simpl INR in G. change (bpow radix2 (- (24))) with (/ 16777216) in G.
  pose proof (growth_pos (prec := 24) 2) as G0.
  destruct (C81_sum_of_terms (L := Lcr) (L64 := Lcr) Xd (Wany (N := N32) Xd) tDisp tArgs m tCn (Some tQ0) tR tRv 4 3 []
    [mkContr t_two (fun b i => Rabs (t_two b i)); mkContr (t_three triple_energy) (t_three triple_size)] (9 / 100)) as (t & Et & St & Ht); try reflexivity.
  - exact Em.
  - intros _. exists (mkTerm TwoBodyTerm RationalDamping true). split; [now left|reflexivity].
  - lra.
  - destruct (t_two_body m Hm) as (u & Eu & Su & Hu). destruct (t_atm m (Some tQ0) tRv Hm eq_refl) as (v & Ev & Sv & Hv).
    constructor; [|constructor; [|constructor]].
    + exists u. split; [exact Eu|]. split; [exact Su|]. intros b i Hb Hi. destruct b; [|destruct Hb]. destruct (Hu i Hi) as (F & E). split; [exact F|]. split; [apply Rle_refl|exact E].
    + exists v. split; [exact Ev|]. split; [exact Sv|]. intros b i Hb Hi. destruct b; [|destruct Hb]. exact (Hv i Hi).
  - intros b i Hb Hi. destruct b; [|destruct Hb]. unfold total. cbn [map fold_right c_size]. change (List.length (p_terms tDisp)) with 2%nat.
    pose proof (t_two_bound i Hi) as B1. pose proof (t_three_bound i Hi) as B2. pose proof (Rabs_pos (t_two [] i)) as B0.
    destruct (t_atm m (Some tQ0) tRv Hm eq_refl) as (v & _ & _ & Hv). destruct (Hv i Hi) as (_ & B3 & _). change (Rabs (t_three triple_energy [] i) <= t_three triple_size [] i) in B3.
    pose proof (Rabs_pos (t_three triple_energy [] i)) as B4.
    assert (B5 : bpow radix2 40 <= bpow radix2 54) by (apply bpow_le; lia).
    assert (B6 : bpow radix2 (128 - 1) = bpow radix2 73 * bpow radix2 54) by (rewrite <- bpow_plus; reflexivity).
    assert (B7 : 16 <= bpow radix2 73) by (change 16 with (bpow radix2 4); apply bpow_le; lia).
    pose proof (bpow_gt_0 radix2 54) as B8.
    apply Rle_lt_trans with (2 * (109 / 100) * (2 * bpow radix2 54)).
    { apply Rmult_le_compat; try lra. }
    rewrite B6. nra.
  - exists t. split; [exact Et|]. split; [exact St|]. intros i Hi. destruct (Ht [] i Logic.I Hi) as (F & Le & E). split; [exact F|].
    unfold total in Le, E. cbn [map fold_right c_size c_energy] in Le, E. change (List.length (p_terms tDisp)) with 2%nat in E. rewrite !Rplus_0_r in Le, E.
    apply Rle_trans with (1 := E). apply Rmult_le_compat_r; [apply Rle_trans with (2 := Le), Rabs_pos|lra].
Qed.
Print Assumptions C81_example.
