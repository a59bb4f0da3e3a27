(** * Rounding errors of the charge scaling (proofs for C77) *)
From Coq Require Import Reals Lra Lia ZArith QArith Qreals List Arith Bool.
From Flocq Require Import Core.Core IEEE754.BinarySingleNaN.
From Verif Require Import Scalar RInst DataRef IeeeInst IeeeP IeeeB IeeeA IeeeM IeeeE PropsAcc PropsAcc3 SpecW PropsAccW.
Open Scope R_scope.

Section Z.
Context {prec emax : Z} {Hp : Prec_gt_0 prec} {He : Prec_lt_emax prec emax}.
Context {L : Libm prec emax}.
Notation F := (binary_float prec emax).
Notation p2 := (bpow radix2).
Notation w := (w (prec := prec)).
Notation few := (few (prec := prec)).
Notation appr := (appr (prec := prec) (emax := emax)).
Notation mapr := (mapr (prec := prec) (emax := emax)).
Notation rnd := (round radix2 (SpecFloat.fexp prec emax) (round_mode mode_NE)).
Context (Hpp : (24 <= prec <= 53)%Z) (Hee : (128 <= emax <= 1024)%Z).
Context (ke A1 A2 : nat) (EA : exp_accurate L ke).
Context (ga gc gam zeff q qt : F) (qr : R) (QD : q_domain ga gc gam zeff q qr A1 A2).
Context (Hqt : mapr 1 (-60) 5 (Rabs qr) qt qr).
Context (HK : few (charge_errors ke A1 A2 + 44 * A1 + ke + 2)) (HA1 : (2 * Z.of_nat A1 + 10 < emax)%Z) (HA2 : (2 * Z.of_nat A2 + 3 <= emax)%Z).

Definition zeta_w : F :=
  let qmod := Bplus mode_NE q zeff in
  let one := blit prec emax 1 in
  if Bltb (blit prec emax 0) qmod then
    l_exp L (Bmult mode_NE ga (Bminus mode_NE one (l_exp L (Bmult mode_NE (Bmult mode_NE gam gc) (Bminus mode_NE one
      (Bdiv mode_NE (Bplus mode_NE qt zeff) (Bminus mode_NE qmod (Bldexp mode_NE Bone (1 - prec)))))))))
  else l_exp L ga.

Lemma few24 k : (k <= 1000)%nat -> few k.
Proof. intros H. unfold few. assert (2 ^ 24 <= 2 ^ prec)%Z by (apply Z.pow_le_mono_r; lia). lia. Qed.
Lemma signed_mapr lo hi (x : F) : signed_or lo hi x -> mapr 0 lo hi (Rabs (B2R x)) x (B2R x).
Proof. intros (A & B). now apply mapr_exact. Qed.
Lemma one_appr lo hi : (lo <= 0)%Z -> (0 <= hi)%Z -> appr 0 lo hi (blit prec emax 1) 1.
Proof.
  intros H1 H2. apply (appr_weak 0 0 0); try lia. change 1%Q with (inject_Z 1). change 1 with (IZR 1). apply lit3_ok; try lia. simpl. lra.
Qed.
Lemma eps_val : is_finite (Bldexp mode_NE Bone (1 - prec) : F) = true /\ B2R (Bldexp mode_NE Bone (1 - prec) : F) = p2 (1 - prec).
Proof.
  pose proof (Bldexp_correct prec emax Hp He mode_NE Bone (1 - prec)) as C. rewrite Bone_correct, Rmult_1_l in C.
  assert (R0 : rnd (p2 (1 - prec)) = p2 (1 - prec)).
  { apply round_generic; [apply valid_rnd_round_mode|]. apply generic_format_bpow. unfold SpecFloat.fexp, SpecFloat.emin. lia. }
  rewrite R0 in C. rewrite Rlt_bool_true in C.
  - destruct C as (-> & -> & _). split; [apply is_finite_Bone|reflexivity].
  - rewrite Rabs_pos_eq by apply bpow_ge_0. apply bpow_lt. lia.
Qed.
Lemma zero_lit : blit prec emax 0 = B754_zero false.
Proof. reflexivity. Qed.
Lemma one_le lo hi v : v = 0 \/ p2 lo <= v <= p2 hi -> 1 <= v -> v = 0 \/ p2 0 <= v <= p2 hi.
Proof. intros [H|H] V; [lra|right]. change (p2 0) with 1. lra. Qed.

Lemma zeta_acc : appr (charge_errors ke A1 A2) (- (2 * Z.of_nat A2)) (2 * Z.of_nat A2) zeta_w
  (zeta_fun (p2 (1 - prec)) (B2R ga) (B2R gam * B2R gc) (qr + B2R zeff) (B2R q + B2R zeff)).
Proof.
  destruct QD as [Da Dc Dm Dz Dq HA HM].
  assert (FK : few (charge_errors ke A1 A2)) by (apply (few_le _ _ HK); lia).
  assert (I2 : IZR (2 * Z.of_nat A2) = 2 * INR A2) by (rewrite mult_IZR, <- INR_IZR_INZ; reflexivity).
  assert (I1 : IZR (2 * Z.of_nat A1) = 2 * INR A1) by (rewrite mult_IZR, <- INR_IZR_INZ; reflexivity).
  pose proof (pos_INR A1) as P1. pose proof (pos_INR A2) as P2.
  assert (Mz : mapr 1 (-60) 10 (B2R zeff) zeff (B2R zeff)).
  { apply (mapr_weak 0 (-20) 10); try lia. apply mapr_appr. destruct Dz as (Z1 & Z2). now apply appr_exact. }
  assert (Pz : 0 <= B2R zeff) by (destruct Dz as (_ & [->|(Z2 & _)]); [lra|pose proof (bpow_gt_0 radix2 (-20)); lra]).
  assert (Mq : mapr 1 (-60) 10 (Rabs (B2R q)) q (B2R q)) by (apply (mapr_weak 0 (-60) 10); try lia; now apply signed_mapr).
  assert (Mqm : mapr 2 (-60) 11 (Rabs (B2R q) + B2R zeff) (Bplus mode_NE q zeff) (B2R q + B2R zeff)).
  { apply (mapr_add 1 (-60) 10); auto; try lia. apply few24. lia. }
  pose proof (mp_fin _ _ _ _ _ _ Mqm) as Fqm.
  assert (Vqm : B2R (Bplus mode_NE q zeff) = rnd (B2R q + B2R zeff)).
  { pose proof (Bplus_correct prec emax Hp He mode_NE q zeff (proj1 Dq) (proj1 Dz)) as C.
    destruct (Rlt_bool (Rabs (rnd (B2R q + B2R zeff))) (p2 emax)); [apply C|exfalso].
    destruct C as (C & _). destruct (Bplus mode_NE q zeff); discriminate. }
  assert (Lt : Bltb (blit prec emax 0) (Bplus mode_NE q zeff) = Rlt_bool 0 (rnd (B2R q + B2R zeff))).
  { rewrite Bltb_correct by (auto; now rewrite zero_lit). rewrite zero_lit, Vqm. reflexivity. }
  unfold zeta_w. cbv zeta. rewrite Lt. destruct HM as [Neg|(Q4 & HA1' & HA2')].
  - rewrite Rlt_bool_false by (rewrite <- (rnd_0 (prec := prec) (emax := emax)); now apply rnd_mono).
    unfold zeta_fun. destruct (Rlt_dec 0 (B2R q + B2R zeff)); [lra|].
    apply (appr_exp ke 0 (-20) 6 (Rabs (B2R ga)) _ _ A2); auto; try lia.
    + now apply signed_mapr.
    + apply few24. lia.
    + unfold charge_errors. lia.
    + rewrite I2. lra.
  - cbv zeta in Q4, HA1', HA2'. set (v := B2R q + B2R zeff) in *. set (e := p2 (1 - prec)) in *.
    destruct (rnd_plus_rel (prec := prec) (emax := emax) q zeff (proj1 Dq) (proj1 Dz) ltac:(fold v; lra)) as (V1 & V2). fold v in V1, V2.
    pose proof (w_pos (prec := prec)) as Wp.
    assert (Pr : 0 < rnd v) by (apply Rmult_lt_reg_r with w; lra).
    rewrite Rlt_bool_true by exact Pr. unfold zeta_fun. destruct (Rlt_dec 0 v); [|lra].
    assert (E0 : 0 < e) by apply bpow_gt_0. assert (E8 : e <= / 16).
    { change (/ 16) with (p2 (-4)). apply bpow_le. lia. }
    assert (V10 : v <= p2 11).
    { change (p2 11) with 2048. destruct Dq as (_ & Q). destruct Dz as (_ & Z).
      assert (B2R q <= 1024) by (destruct Q as [->|(_ & Q)]; [lra|change (p2 10) with 1024 in Q; pose proof (Rle_abs (B2R q)); lra]).
      assert (B2R zeff <= 1024) by (destruct Z as [->|(_ & Z)]; [lra|change (p2 10) with 1024 in Z; lra]). unfold v. lra. }
    assert (Aq : appr 1 (-2) 11 (Bplus mode_NE q zeff) v).
    { split; [exact Fqm|right; split; [exact Q4|exact V10]|rewrite pow_1, Vqm; exact V1|rewrite pow_1, Vqm; exact V2]. }
    destruct eps_val as (Fe & Ve). fold e in Ve.
    assert (Ae : appr 1 (-60) 11 (Bldexp mode_NE Bone (1 - prec)) e).
    { apply (appr_weak 0 (-60) 11); try lia. rewrite <- Ve. apply appr_exact; [exact Fe|right]. rewrite Ve. unfold e. split; apply bpow_le; lia. }
    assert (Md : mapr 2 (-60) 12 (v + e) (Bminus mode_NE (Bplus mode_NE q zeff) (Bldexp mode_NE Bone (1 - prec))) (v - e)).
    { apply (mapr_sub 1 (-60) 11); try lia; [apply mapr_appr, (appr_weak 1 (-2) 11); auto; lia|now apply mapr_appr|apply few24; lia]. }
    assert (R3 : p2 (-3) <= v - e <= p2 11) by (split; [change (p2 (-3)) with (/ 8); lra|apply Rle_trans with (2 := V10); lra]).
    assert (Ad : appr 16 (-3) 11 (Bminus mode_NE (Bplus mode_NE q zeff) (Bldexp mode_NE Bone (1 - prec))) (v - e)).
    { apply (appr_rng _ (-60) 12); [|exact R3]. change 16%nat with (4 * 2 * 2)%nat. apply (appr_mapr 2 (-60) 12 (v + e)); auto; try (apply few24; lia).
      - lra.
      - split; [apply Rle_trans with (2 := proj1 R3)|apply Rle_trans with (1 := proj2 R3)]; apply bpow_le; lia.
      - change (INR 2) with 2. lra. }
    assert (Mr : mapr 2 (-60) 11 (Rabs qr + B2R zeff) (Bplus mode_NE qt zeff) (qr + B2R zeff)).
    { apply (mapr_add 1 (-60) 10); auto; try lia; [apply (mapr_weak 1 (-60) 5); auto; lia|apply few24; lia]. }
    assert (Ms : mapr 19 (-71) 14 ((Rabs qr + B2R zeff) / (v - e)) (Bdiv mode_NE (Bplus mode_NE qt zeff) (Bminus mode_NE (Bplus mode_NE q zeff) (Bldexp mode_NE Bone (1 - prec))))
      ((qr + B2R zeff) / (v - e))).
    { apply (mapr_div 2 16 (-60) (-3) 11 11); auto; try lia; [lra|apply few24; lia]. }
    set (M := (Rabs qr + B2R zeff) / (v - e)) in *. set (S := (qr + B2R zeff) / (v - e)) in *.
    assert (M0 : 0 <= M) by exact (mapr_nonneg _ _ _ _ _ _ Ms).
    assert (Mo : mapr 20 0 15 (1 + M) (Bminus mode_NE (blit prec emax 1) (Bdiv mode_NE (Bplus mode_NE qt zeff) (Bminus mode_NE (Bplus mode_NE q zeff) (Bldexp mode_NE Bone (1 - prec)))))
      (1 - S)).
    { assert (T : mapr 20 (-71) 15 (1 + M) (Bminus mode_NE (blit prec emax 1) (Bdiv mode_NE (Bplus mode_NE qt zeff) (Bminus mode_NE (Bplus mode_NE q zeff) (Bldexp mode_NE Bone (1 - prec))))) (1 - S)).
      { apply (mapr_sub 19 (-71) 14); auto; try lia; [apply (mapr_weak 0 0 0); try lia; apply mapr_appr, one_appr; lia|apply few24; lia]. }
      apply (mapr_rng _ _ _ _ _ _ _ _ T). apply (one_le (-71)); [apply T|lra]. }
    assert (Mg : mapr 1 (-40) 20 (Rabs (B2R gam) * Rabs (B2R gc)) (Bmult mode_NE gam gc) (B2R gam * B2R gc)).
    { apply (mapr_mul 0 0 (-20) (-20) 10 10); try lia; try (now apply signed_mapr). apply few24; lia. }
    set (x1 := Bminus mode_NE (blit prec emax 1) _) in Mo |- *.
    assert (M1 : mapr 22 (-40) 35 (Rabs (B2R gam) * Rabs (B2R gc) * (1 + M)) (Bmult mode_NE (Bmult mode_NE gam gc) x1) (B2R gam * B2R gc * (1 - S))).
    { apply (mapr_mul 1 20 (-40) 0 20 15); auto; try lia. apply few24; lia. }
    assert (Ax : appr (44 * A1 + ke) (- (2 * Z.of_nat A1)) (2 * Z.of_nat A1) (l_exp L (Bmult mode_NE (Bmult mode_NE gam gc) x1)) (exp (B2R gam * B2R gc * (1 - S)))).
    { apply (appr_exp ke 22 (-40) 35 (Rabs (B2R gam) * Rabs (B2R gc) * (1 + M)) _ _ A1); auto; try lia.
      - apply few24. lia.
      - apply (few_le _ _ HK). lia.
      - rewrite I1. pose proof (mp_abs _ _ _ _ _ _ M1). lra. }
    set (y1 := l_exp L (Bmult mode_NE (Bmult mode_NE gam gc) x1)) in *. set (sc := exp (B2R gam * B2R gc * (1 - S))) in *.
    assert (S0 : 0 < sc) by apply exp_pos.
    assert (Mc : mapr (44 * A1 + ke + 1) 0 (2 * Z.of_nat A1 + 1) (1 + sc) (Bminus mode_NE (blit prec emax 1) y1) (1 - sc)).
    { assert (T : mapr (44 * A1 + ke + 1) (- (2 * Z.of_nat A1)) (2 * Z.of_nat A1 + 1) (1 + sc) (Bminus mode_NE (blit prec emax 1) y1) (1 - sc)).
      { apply (mapr_sub (44 * A1 + ke) (- (2 * Z.of_nat A1)) (2 * Z.of_nat A1)); try lia; [|now apply mapr_appr|apply (few_le _ _ HK); lia].
        apply (mapr_weak 0 (- (2 * Z.of_nat A1)) (2 * Z.of_nat A1)); try lia. apply mapr_appr, one_appr; lia. }
      apply (mapr_rng _ _ _ _ _ _ _ _ T). apply (one_le (- (2 * Z.of_nat A1))); [apply T|lra]. }
    assert (M2 : mapr (44 * A1 + ke + 2) (-20) (2 * Z.of_nat A1 + 7) (Rabs (B2R ga) * (1 + sc)) (Bmult mode_NE ga (Bminus mode_NE (blit prec emax 1) y1)) (B2R ga * (1 - sc))).
    { apply (mapr_mul 0 (44 * A1 + ke + 1) (-20) 0 6 (2 * Z.of_nat A1 + 1)); auto; try lia; [now apply signed_mapr|apply (few_le _ _ HK); lia]. }
    apply (appr_exp ke (44 * A1 + ke + 2) (-20) (2 * Z.of_nat A1 + 7) (Rabs (B2R ga) * (1 + sc)) _ _ A2); auto; try lia.
    + apply (few_le _ _ HK). lia.
    + rewrite I2. pose proof (mp_abs _ _ _ _ _ _ M2). lra.
Qed.
End Z.
