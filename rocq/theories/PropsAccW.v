(** * C77: rounding errors of the reference weights *)
From Coq Require Import Reals Lra Lia ZArith QArith Qreals List Arith Bool String.
From Flocq Require Import Core.Core IEEE754.BinarySingleNaN.
From Verif Require Import Py Tensor Scalar RInst ModelExt ModelUtils ModelModels SpecCall SpecR PropsTables TensorLemmas EnergyR DataRef
  IeeeInst IeeeP IeeeB IeeeA IeeeM IeeeE PropsFinite PropsAcc PropsAcc3 SpecW SpecIeee IeeeW PropsIeee.
Import ListNotations.
Open Scope R_scope.

Local Existing Instance Hp64.
Local Existing Instance He64.

(** ** Specification *)
Section S.
Context {prec emax : Z} {Hp : Prec_gt_0 prec} {He : Prec_lt_emax prec emax}.
Notation F := (binary_float prec emax).
Notation p2 := (bpow radix2).

(** A coordination number [cn] and a weighting factor [wf] for an atom of element [z]: [cn] of magnitude at
    most 32, [A] a bound of the weighting factors, [D] and [E] bounds of the exponents that occur;
    [Er = 0] will do if the multiples of [wf] need no rounding, [Er = E] always. *)
Record cn_domain (kind : mkind) (wf cn : F) (z : nat) (A D E Er : nat) : Prop := {
  cd_cn : signed_or (-60) 5 cn;
  cd_wf : is_finite wf = true /\ p2 (-10) <= B2R wf /\ 4 * B2R wf <= INR A;
  cd_D : forall r, (r < 7)%nat -> exists_ref z r -> (Rabs (B2R cn) + cn_ref z r) ^ 2 <= INR D;
  cd_E : forall r, (r < 7)%nat -> exists_ref z r -> 4 * B2R wf * (B2R cn - cn_ref z r) ^ 2 <= INR E;
  cd_round : kind = D4M -> (E <= Er)%nat \/
    forall k, (1 <= k <= 3)%nat -> B2R (Bmult mode_NE (blit prec emax (inject_Z (Z.of_nat k))) wf) = INR k * B2R wf }.

(** Charge scaling: parameters [ga], [gc], hardness [gam], effective charge [zeff], charge [q] and reference
    charge [qr]; the shifted charge [q + zeff] is not positive or at least 1/4; [A1] and [A2] bound the
    arguments of the two exponential functions, with differences replaced by sums. *)
Record q_domain (ga gc gam zeff q : F) (qr : R) (A1 A2 : nat) : Prop := {
  qd_ga : signed_or (-20) 6 ga; qd_gc : signed_or (-20) 10 gc; qd_gam : signed_or (-20) 10 gam;
  qd_zeff : zero_or (-20) 10 zeff; qd_q : signed_or (-60) 10 q;
  qd_A2 : Rabs (B2R ga) <= INR A2;
  qd_mod : B2R q + B2R zeff <= 0 \/
    let qmod := B2R q + B2R zeff in let eps := p2 (1 - prec) in let gm := B2R gam * B2R gc in
    / 4 <= qmod /\
    Rabs (B2R gam) * Rabs (B2R gc) * (1 + (Rabs qr + B2R zeff) / (qmod - eps)) <= INR A1 /\
    Rabs (B2R ga) * (1 + exp (gm * (1 - (qr + B2R zeff) / (qmod - eps)))) <= INR A2 }.
End S.

(** errors of a Gaussian, in double precision *)
Definition gauss_errors (kind : mkind) (ke kr kp A D : nat) : nat :=
  match kind with D4M => (10 * D + ke) * A + kr | _ => (12 * (A * D) + ke) * 3 + kp end%nat.
(** errors of the normalised weight, in double precision *)
Definition quotient_errors (kind : mkind) (ke kr kp A D : nat) : nat := (2 * gauss_errors kind ke kr kp A D + 14)%nat.
(** errors of the charge scaling, in the working precision *)
Definition charge_errors (ke A1 A2 : nat) : nat := (2 * (44 * A1 + ke + 2) * A2 + ke)%nat.

(** ** Proofs *)
Lemma sum_pos n f : (forall k, 0 < f k) -> 0 <= rsum n f /\ ((0 < n)%nat -> 0 < rsum n f).
Proof.
  intros H. induction n as [|n (A & _)]; cbn [rsum]; [split; [lra|lia]|]. pose proof (H n). split; intros; lra.
Qed.
Lemma sum_ge n f j : (forall k, 0 <= f k) -> (j < n)%nat -> 0 <= f j <= rsum n f.
Proof.
  intros H Hj. assert (P : forall m, 0 <= rsum m f) by (induction m; cbn [rsum]; [lra|pose proof (H m); lra]).
  induction n as [|n IH]; [lia|]. cbn [rsum]. destruct (Nat.eq_dec j n) as [->|Q]; [pose proof (P n); pose proof (H n); lra|].
  pose proof (H n). destruct IH; [lia|]. lra.
Qed.
Lemma sum_times n a b c : (forall k, (k < n)%nat -> a k <= b k * c) -> rsum n a <= rsum n b * c.
Proof.
  intros H. induction n as [|n IH]; cbn [rsum]; [lra|]. pose proof (H n ltac:(lia)). assert (rsum n a <= rsum n b * c) by (apply IH; intros; apply H; lia). lra.
Qed.
Lemma quot_ratio a b a' b' c : 0 <= a' -> 0 < b -> 0 < b' -> 0 <= c -> a <= a' * c -> b' <= b * c -> a / b <= a' / b' * (c * c).
Proof.
  intros Pa Pb Pb' Pc Ha Hb. unfold Rdiv. pose proof (Rinv_0_lt_compat _ Pb) as Ib. pose proof (Rinv_0_lt_compat _ Pb') as Ib'.
  assert (Q : / b <= / b' * c).
  { apply Rmult_le_reg_r with (b * b'); [nra|]. replace (/ b * (b * b')) with b' by (field; lra). replace (/ b' * c * (b * b')) with (b * c) by (field; lra). exact Hb. }
  apply Rle_trans with (a' * c * / b); [apply Rmult_le_compat_r; lra|].
  replace (a' * / b' * (c * c)) with (a' * c * (/ b' * c)) by ring. apply Rmult_le_compat_l; [nra|exact Q].
Qed.
Lemma bconv_round {p1 e1 q2 e2 : Z} {Hp1 : Prec_gt_0 p1} {He1 : Prec_lt_emax p1 e1} {Hp2 : Prec_gt_0 q2} {He2 : Prec_lt_emax q2 e2}
  (x : binary_float p1 e1) : is_finite x = true -> Rabs (round radix2 (SpecFloat.fexp q2 e2) (round_mode mode_NE) (B2R x)) < bpow radix2 e2 ->
  is_finite (bconv q2 e2 x) = true /\ B2R (bconv q2 e2 x) = round radix2 (SpecFloat.fexp q2 e2) (round_mode mode_NE) (B2R x).
Proof.
  intros Fx H. destruct x as [s|s| |s m e G]; try discriminate; [simpl; split; auto; symmetry; apply rnd_0|].
  simpl bconv. pose proof (binary_normalize_correct q2 e2 Hp2 He2 mode_NE (cond_Zopp s (Zpos m)) e s) as C.
  set (x := B754_finite s m e G : binary_float p1 e1) in *. assert (E : F2R (Float radix2 (cond_Zopp s (Zpos m)) e) = B2R x) by reflexivity.
  cbv zeta in C. rewrite E in C. rewrite Rlt_bool_true in C by exact H. split; apply C.
Qed.
Section G.
Context {prec emax : Z} {Hp : Prec_gt_0 prec} {He : Prec_lt_emax prec emax}.
Context {L : Libm prec emax} {L64 : Libm 53 1024}.
Notation F := (binary_float prec emax).
Notation D64 := (binary_float 53 1024).
Notation p2 := (bpow radix2).
Notation w := (w (prec := prec)).
Notation few := (few (prec := prec)).
Notation few64 := (IeeeA.few (prec := 53)).
Notation appr := (appr (prec := prec) (emax := emax)).
Notation mapr := (mapr (prec := prec) (emax := emax)).
Notation ap64 := (IeeeA.appr (prec := 53) (emax := 1024)).
Notation mp64 := (IeeeM.mapr (prec := 53) (emax := 1024)).
Notation rnd := (round radix2 (SpecFloat.fexp prec emax) (round_mode mode_NE)).
Context (Hpp : (24 <= prec <= 53)%Z) (Hee : (128 <= emax <= 1024)%Z).

Section D.
Context (kind : mkind) (ke kr kp A D E Er : nat) (wf cn : F) (z : nat).
Context (EA : exp_accurate L64 ke) (RA : rpow_accurate (L := L64) kr) (PA : pow_accurate (L := L64) kp).
Context (Hz : (z <= 103)%nat) (Hk : kind = D4M \/ kind = D4SM).
Context (CD : cn_domain kind wf cn z A D E Er).
Notation kg := (gauss_errors kind ke kr kp A D).
Context (HK : few64 (2 * kg + 64)) (HD : (3 * D <= 2000)%nat) (HE : (3 * E <= 2000)%nat) (HA : (A <= 256)%nat).

(** the exponents as computed *)
Definition wfk (k : nat) : R := match kind with D4M => B2R (Bmult mode_NE (blit prec emax (inject_Z (Z.of_nat k))) wf) | _ => INR k * B2R wf end.

Lemma k3_rng k lo : (1 <= k <= 3)%nat -> (lo <= 0)%Z -> p2 lo <= IZR (Z.of_nat k) <= p2 2.
Proof.
  intros H Hl. assert (p2 lo <= 1) by (change 1 with (p2 0); now apply bpow_le).
  assert (1 <= IZR (Z.of_nat k) <= 3) by (split; apply IZR_le; lia). change (p2 2) with 4. lra.
Qed.
Lemma w_43 : w <= 4 / 3.
Proof. unfold IeeeA.w. assert (p2 (- prec) <= p2 (-2)) by (apply bpow_le; lia). change (p2 (-2)) with (/ 4) in H. lra. Qed.
Lemma wf_prod k : (1 <= k <= 3)%nat ->
  is_finite (Bmult mode_NE (blit prec emax (inject_Z (Z.of_nat k))) wf) = true /\
  INR k * B2R wf <= B2R (Bmult mode_NE (blit prec emax (inject_Z (Z.of_nat k))) wf) * w /\
  B2R (Bmult mode_NE (blit prec emax (inject_Z (Z.of_nat k))) wf) <= INR k * B2R wf * w.
Proof.
  intros H. destruct CD as [_ (Fw & W1 & W2) _ _ _].
  assert (A256 : INR A <= p2 8) by (replace (p2 8) with (INR 256) by (rewrite INR_IZR_INZ; reflexivity); now apply le_INR).
  assert (A1 : appr 0 0 2 (blit prec emax (inject_Z (Z.of_nat k))) (IZR (Z.of_nat k))) by (apply lit3_ok; try lia; apply k3_rng; lia).
  assert (A2 : appr 0 (-10) 8 wf (B2R wf)) by (apply appr_exact; [exact Fw|right; split; [exact W1|]]; pose proof (bpow_gt_0 radix2 (-10)); lra).
  assert (few 1) by (apply (few_le 1 1); [unfold few; assert (2 ^ 24 <= 2 ^ prec)%Z by (apply Z.pow_le_mono_r; lia); lia|lia]).
  pose proof (appr_mul 0 0 0 (-10) 2 8 _ _ _ _ 1 (-10) 10 A1 A2 H0 ltac:(lia) ltac:(lia) ltac:(lia) ltac:(lia) ltac:(lia)) as [Q1 Q2 Q3 Q4].
  rewrite pow_1 in Q3, Q4. rewrite <- INR_IZR_INZ in Q3, Q4. auto.
Qed.
Lemma wfk_rng k : (1 <= k <= 3)%nat -> 0 < wfk k <= 4 * B2R wf /\ wfk k <= INR A.
Proof.
  intros H. pose proof (wf_prod k H) as (_ & P1 & P2). destruct CD as [_ (Fw & W1 & W2) _ _ _].
  pose proof (bpow_gt_0 radix2 (-10)) as P0. assert (1 <= INR k <= 3) by (rewrite INR_IZR_INZ; split; apply IZR_le; lia).
  pose proof w_43 as W4. pose proof (w_pos (prec := prec)) as Wp.
  assert (Q : 0 < wfk k <= 4 * B2R wf).
  { unfold wfk. destruct Hk as [Q|Q]; rewrite Q.
    - split.
      + apply Rmult_lt_reg_r with w; [exact Wp|]. rewrite Rmult_0_l. apply Rlt_le_trans with (2 := P1). nra.
      + apply Rle_trans with (1 := P2). apply Rle_trans with (3 * B2R wf * (4 / 3)); [|lra].
        apply Rmult_le_compat; try lra; [apply Rmult_le_pos; lra|apply Rmult_le_compat_r; lra].
    - split; nra. }
  lra.
Qed.

Lemma cn_tab : forallb (fun z => forallb (fun r => (0 <=? cn_int z r)%Z && (cn_int z r <=? 20 * Zpos refcovcn_tab_dec)%Z) (seq 0 7)) (seq 0 104) = true.
Proof. vm_compute. reflexivity. Qed.
Lemma dec_le : IZR (Zpos refcovcn_tab_dec) <= p2 60.
Proof. change (p2 60) with (IZR (2 ^ 60)). apply IZR_le. vm_compute. discriminate. Qed.
Lemma cn_rng r : (r < 7)%nat -> 0 <= cn_ref z r <= 20 /\ (cn_ref z r = 0 \/ p2 (-60) <= cn_ref z r).
Proof.
  intros Hr. pose proof cn_tab as T. rewrite forallb_forall in T. specialize (T z). rewrite forallb_forall in T.
  assert (Q : (0 <=? cn_int z r)%Z && (cn_int z r <=? 20 * Zpos refcovcn_tab_dec)%Z = true) by (apply T; apply in_seq; lia).
  apply andb_true_iff in Q as (Q1 & Q2). apply Z.leb_le in Q1, Q2. rewrite cn_ref_int.
  assert (P : 0 < IZR (Zpos refcovcn_tab_dec)) by now apply IZR_lt. pose proof dec_le as DL.
  pose proof (Rinv_0_lt_compat _ P) as I. apply IZR_le in Q1, Q2. rewrite mult_IZR in Q2. unfold Rdiv. split; [split|].
  - apply Rmult_le_pos; lra.
  - apply Rmult_le_reg_r with (IZR (Zpos refcovcn_tab_dec)); [exact P|]. rewrite Rmult_assoc, Rinv_l; lra.
  - destruct (Z.eq_dec (cn_int z r) 0) as [Z|Z]; [left; rewrite Z; lra|right].
    assert (1 <= IZR (cn_int z r)) by (apply IZR_le; apply le_IZR in Q1; lia).
    apply Rle_trans with (1 * / IZR (Zpos refcovcn_tab_dec)); [|apply Rmult_le_compat_r; lra]. rewrite Rmult_1_l.
    change (-60)%Z with (- (60))%Z; rewrite bpow_opp. apply Rinv_le; assumption.
Qed.

Section R.
Context (r : nat) (Hr : (r < 7)%nat) (Ex : exists_ref z r).
Let d : R := B2R cn - cn_ref z r.
Let dm : R := Rabs (B2R cn) + cn_ref z r.
Lemma f64 k : (k <= 20)%nat -> few64 k.
Proof. intros. apply (few_le k (2 * kg + 64) HK). lia. Qed.
Lemma d2_acc : mp64 5 (-120) 12 (dm * dm) (let d := Bminus mode_NE (bconv 53 1024 cn) (cn64 z r) in Bmult mode_NE (Bopp d) d) (- d ^ 2).
Proof.
  destruct (cd_cn _ _ _ _ _ _ _ _ CD) as (Fc & Rc).
  destruct (bconv_exact (q2 := 53) (e2 := 1024) cn) as (F1 & V1); [lia|lia|exact Fc|].
  destruct (cn_rng r Hr) as ((C0 & C20) & Cz).
  assert (M1 : mp64 1 (-60) 5 (Rabs (B2R cn)) (bconv 53 1024 cn) (B2R cn)).
  { apply (mapr_weak 0 (-60) 5); try lia. rewrite <- V1. apply mapr_exact; [exact F1|]. rewrite V1. exact Rc. }
  assert (M2 : mp64 1 (-60) 5 (cn_ref z r) (cn64 z r) (cn_ref z r)).
  { assert (Q : cn_ref z r = Q2R (cn_int z r # refcovcn_tab_dec)) by (rewrite cn_ref_int; reflexivity).
    rewrite <- (Rabs_pos_eq (cn_ref z r)) at 1 by lra. unfold cn64. rewrite Q. apply mapr_lit; try lia. rewrite <- Q, Rabs_pos_eq by lra.
    destruct Cz as [Cz|Cz]; [left; exact Cz|right]. split; [exact Cz|]. change (p2 5) with 32. lra. }
  assert (M3 : mp64 2 (-60) 6 dm (Bminus mode_NE (bconv 53 1024 cn) (cn64 z r)) d).
  { apply (mapr_sub 1 (-60) 5); try lia; auto. apply f64. lia. }
  cbv zeta. replace (- d ^ 2) with (- d * d) by ring.
  apply (mapr_mul 2 2 (-60) (-60) 6 6); try lia; [now apply mapr_opp|exact M3|apply f64; lia].
Qed.
Lemma dm_rng : 0 <= dm * dm <= INR D /\ d ^ 2 <= dm * dm.
Proof.
  pose proof (cd_D _ _ _ _ _ _ _ _ CD r Hr Ex) as Q. fold dm in Q. destruct (cn_rng r Hr) as ((C0 & C20) & _).
  pose proof (Rabs_pos (B2R cn)) as P. assert (0 <= dm) by (unfold dm; lra). split; [split; [nra|simpl in Q; lra]|].
  assert (Rabs d <= dm).
  { unfold d, dm, Rminus. apply Rle_trans with (1 := Rabs_triang _ _). rewrite Rabs_Ropp, (Rabs_pos_eq (cn_ref z r)); lra. }
  rewrite <- (Rabs_pos_eq (d ^ 2)) by (simpl; nra). rewrite <- RPow_abs. simpl. rewrite Rmult_1_r.
  apply Rmult_le_compat; auto using Rabs_pos.
Qed.

Lemma gauss_acc k : (1 <= k <= 3)%nat -> ap64 kg (-1000) 0 (gauss64 (L64 := L64) kind wf cn z r k) (exp (- (wfk k * d ^ 2))).
Proof.
  intros Hkk. pose proof d2_acc as M. cbv zeta in M. destruct dm_rng as (Dm & Dd). assert (D0 : 0 <= d ^ 2) by (simpl; nra).
  destruct (wfk_rng k Hkk) as (Wk & WA). pose proof (cd_E _ _ _ _ _ _ _ _ CD r Hr Ex) as QE. fold d in QE.
  assert (EE : 3 * INR E <= 2000) by (replace 3 with (INR 3) by (simpl; lra); rewrite <- mult_INR; replace 2000 with (INR 2000) by (rewrite INR_IZR_INZ; reflexivity); now apply le_INR).
  assert (DD : 3 * INR D <= 2000) by (replace 3 with (INR 3) by (simpl; lra); rewrite <- mult_INR; replace 2000 with (INR 2000) by (rewrite INR_IZR_INZ; reflexivity); now apply le_INR).
  assert (YD : 0 <= wfk k * d ^ 2 <= INR E) by (split; [apply Rmult_le_pos; lra|apply Rle_trans with (2 := QE); apply Rmult_le_compat_r; lra]).
  assert (Rg : p2 (-1000) <= exp (- (wfk k * d ^ 2)) <= p2 0).
  { split.
    - apply (exp_rng (- (wfk k * d ^ 2)) 1000). rewrite Rabs_Ropp, Rabs_pos_eq; lra.
    - change (p2 0) with 1. rewrite <- exp_0. apply exp_mono. lra. }
  unfold gauss64. cbv zeta. pose proof HK as HK'. destruct Hk as [Q|Q].
  - assert (Ek : wfk k = B2R (Bmult mode_NE (blit prec emax (inject_Z (Z.of_nat k))) wf)) by (unfold wfk; now rewrite Q).
    rewrite Ek in *. rewrite Q in HK' |- *. cbn [gauss_errors] in HK' |- *. destruct (wf_prod k Hkk) as (Fy & _ & _).
    set (y := Bmult mode_NE (blit prec emax (inject_Z (Z.of_nat k))) wf) in *.
    destruct (bconv_exact (q2 := 53) (e2 := 1024) y) as (F1 & V1); [lia|lia|exact Fy|].
    assert (T : ap64 (10 * D + ke) (-1000) 1000 (l_exp L64 (Bmult mode_NE (Bopp (Bminus mode_NE (bconv 53 1024 cn) (cn64 z r))) (Bminus mode_NE (bconv 53 1024 cn) (cn64 z r)))) (exp (- d ^ 2))).
    { assert (A0 : (1 <= A)%nat).
      { destruct A as [|a]; [exfalso|lia]. simpl in WA. lra. }
      assert (10 * D + ke <= (10 * D + ke) * A)%nat by nia.
      apply (appr_exp ke 5 (-120) 12 (dm * dm) _ _ D (10 * D + ke) 1000); auto; try lia; try (now apply f64; lia).
      - apply Dm.
      - apply (few_le _ _ HK'). lia.
      - rewrite Rabs_Ropp, Rabs_pos_eq by exact D0. lra. }
    assert (E1 : Rpower (exp (- d ^ 2)) (B2R y) = exp (- (B2R y * d ^ 2))) by (unfold Rpower; rewrite ln_exp; f_equal; ring).
    rewrite <- E1. apply (appr_rpow kr RA (2 * ((10 * D + ke) * A + kr) + 64) HK' (10 * D + ke) (-1000) 1000 _ _ _ _ A 0); auto; try lia.
    + pose proof (exp_pos (- d ^ 2)). lra.
    + rewrite V1. split; [lra|exact WA].
    + rewrite V1. rewrite Rminus_diag_eq, Rmult_0_l, Rabs_R0 by reflexivity. simpl. lra.
    + rewrite E1. exact Rg.
  - assert (Ek : wfk k = INR k * B2R wf) by (unfold wfk; now rewrite Q).
    rewrite Ek in *. rewrite Q in HK' |- *. cbn [gauss_errors] in HK' |- *. destruct (cd_wf _ _ _ _ _ _ _ _ CD) as (Fw & W1 & W2).
    destruct (bconv_exact (q2 := 53) (e2 := 1024) wf) as (F1 & V1); [lia|lia|exact Fw|].
    assert (A256 : INR A <= p2 8) by (replace (p2 8) with (INR 256) by (rewrite INR_IZR_INZ; reflexivity); now apply le_INR).
    pose proof (bpow_gt_0 radix2 (-10)) as P0.
    assert (MW : mp64 0 (-10) 8 (B2R wf) (bconv 53 1024 wf) (B2R wf)).
    { apply mapr_appr. rewrite <- V1. apply appr_exact; [exact F1|right]. rewrite V1. lra. }
    assert (M6 : mp64 6 (-130) 20 (dm * dm * B2R wf) (Bmult mode_NE (Bmult mode_NE (Bopp (Bminus mode_NE (bconv 53 1024 cn) (cn64 z r))) (Bminus mode_NE (bconv 53 1024 cn) (cn64 z r)))
       (bconv 53 1024 wf)) (- d ^ 2 * B2R wf)).
    { apply (mapr_mul 5 0 (-120) (-10) 12 8); auto; try lia. apply f64; lia. }
    assert (WD : 3 * (B2R wf * d ^ 2) <= 2000 / 4) by lra.
    assert (T : ap64 (12 * (A * D) + ke) (-333) 333 (l_exp L64 (Bmult mode_NE (Bmult mode_NE (Bopp (Bminus mode_NE (bconv 53 1024 cn) (cn64 z r))) (Bminus mode_NE (bconv 53 1024 cn) (cn64 z r)))
       (bconv 53 1024 wf))) (exp (- d ^ 2 * B2R wf))).
    { apply (appr_exp ke 6 (-130) 20 (dm * dm * B2R wf) _ _ (A * D) (12 * (A * D) + ke) 333); auto; try lia; try (now apply f64; lia).
      - rewrite mult_INR. rewrite Rmult_comm. apply Rmult_le_compat; lra.
      - apply (few_le _ _ HK'). lia.
      - rewrite Rabs_mult, Rabs_Ropp, !Rabs_pos_eq by lra. lra. }
    assert (E1 : exp (- d ^ 2 * B2R wf) ^ k = exp (- (INR k * B2R wf * d ^ 2))).
    { rewrite <- Rpower_pow by apply exp_pos. unfold Rpower. rewrite ln_exp. f_equal. ring. }
    rewrite <- E1 in Rg |- *. apply (appr_rng _ (-333 * Z.of_nat k) (333 * Z.of_nat k)); [|exact Rg].
    assert (HKT : (10 * Nat.max 0 5 + kp + 2 + kp + 12 <= 2 * ((12 * (A * D) + ke) * 3 + kp) + 64)%nat) by (cbn [Nat.max]; lia).
    apply (appr_pown (mkAcc 0 0 0 0 0 0) 0 kp PA (2 * ((12 * (A * D) + ke) * 3 + kp) + 64) HK' HKT (12 * (A * D) + ke) (-333) 333); auto; try lia.
    assert ((12 * (A * D) + ke) * k <= (12 * (A * D) + ke) * 3)%nat by (apply Nat.mul_le_mono_l; lia). lia.
Qed.
End R.

Definition rawR (r : nat) : R := rsum (Z.to_nat (n_gauss z r)) (fun k => exp (- (wfk (S k) * (B2R cn - cn_ref z r) ^ 2))).
Lemma count_3 r : (r < 7)%nat -> (Z.to_nat (n_gauss z r) <= 3)%nat.
Proof. intros Hr. destruct (C38_reference_counts z r Hz Hr) as [->|[->| ->]]; simpl; lia. Qed.
Lemma count_ex r k : (k < Z.to_nat (n_gauss z r))%nat -> exists_ref z r.
Proof. unfold exists_ref. lia. Qed.
Lemma sum64_acc k0 lo f g n : (forall k, (k < n)%nat -> ap64 k0 lo 0 (f k) (g k)) -> (n <= 3)%nat -> few64 (k0 + 3) ->
  ap64 (k0 + n) lo (Z.of_nat n) (sum64 n f) (rsum n g).
Proof.
  intros H Hn Fk. induction n as [|n IH]; [apply appr_0|]. cbn [sum64 rsum].
  apply (appr_add (k0 + n) lo (Z.of_nat n)); try lia.
  - apply IH; [intros; apply H|]; lia.
  - apply (appr_weak k0 lo 0); try lia. apply H. lia.
  - apply (few_le _ _ Fk). lia.
Qed.
Lemma raw_acc r : (r < 7)%nat -> ap64 (kg + 3) (-1000) 3 (raw64 (L64 := L64) kind wf cn z r) (rawR r).
Proof.
  intros Hr. pose proof (count_3 r Hr) as C3. apply (appr_weak (kg + Z.to_nat (n_gauss z r)) (-1000) (Z.of_nat (Z.to_nat (n_gauss z r)))); try lia.
  apply sum64_acc; auto; [|apply (few_le _ _ HK); lia]. intros k Hkk. apply gauss_acc; auto; [apply (count_ex r k Hkk)|lia].
Qed.
Lemma tree64_feval t f : tree64 t f = feval (K := IS 53 1024 L64) t f.
Proof. induction t as [|k|a IHa b IHb]; cbn [tree64 feval]; [reflexivity|reflexivity|]. rewrite IHa, IHb. reflexivity. Qed.
Lemma norm_acc : ap64 (kg + 10) (-1000) 6 (norm64 (L64 := L64) kind wf cn z) (rsum 7 rawR).
Proof.
  unfold norm64, tsum64. rewrite tree64_feval. change (feval (proj1_sig (l_plan L64 7)) ?f) with (fsum (K := IS 53 1024 L64) 7 f).
  apply (appr_sum 7 _ _ (kg + 3) (-1000) 3 3); try lia; [apply raw_acc|apply (few_le _ _ HK); lia].
Qed.
Lemma rawR_pos r : 0 <= rawR r /\ (exists_ref z r -> 0 < rawR r).
Proof.
  destruct (sum_pos (Z.to_nat (n_gauss z r)) (fun k => exp (- (wfk (S k) * (B2R cn - cn_ref z r) ^ 2)))) as (P & Q); [intros; apply exp_pos|].
  split; [exact P|]. intros Ex. apply Q. unfold exists_ref in Ex. lia.
Qed.
Lemma quot_acc r : (r < 7)%nat -> exists_ref z r ->
  is_finite (norm64 (L64 := L64) kind wf cn z) = true /\ B2R (norm64 (L64 := L64) kind wf cn z) <> 0 /\
  ap64 (2 * kg + 14) (-1006) 1003 (Bdiv mode_NE (raw64 (L64 := L64) kind wf cn z r) (norm64 (L64 := L64) kind wf cn z)) (rawR r / rsum 7 rawR).
Proof.
  intros Hr Ex. destruct (rawR_pos r) as (_ & P). specialize (P Ex).
  pose proof (sum_ge 7 rawR r (fun k => proj1 (rawR_pos k)) Hr) as (_ & G). pose proof norm_acc as Na.
  assert (Nz : rsum 7 rawR <> 0) by lra. split; [apply Na|]. split.
  - intros Z0. destruct Na as [_ _ G1 _]. rewrite Z0, Rmult_0_l in G1. lra.
  - apply (appr_div (kg + 3) (kg + 10) (-1000) (-1000) 3 6); auto using raw_acc; try lia. apply (few_le _ _ HK). lia.
Qed.

(** the exponents are those of the exact formula up to rounding errors *)
Lemma gauss_near r k : (r < 7)%nat -> exists_ref z r -> (1 <= k <= 3)%nat ->
  exp (- (INR k * B2R wf * (B2R cn - cn_ref z r) ^ 2)) <= exp (- (wfk k * (B2R cn - cn_ref z r) ^ 2)) * w ^ (2 * Er) /\
  exp (- (wfk k * (B2R cn - cn_ref z r) ^ 2)) <= exp (- (INR k * B2R wf * (B2R cn - cn_ref z r) ^ 2)) * w ^ (2 * Er).
Proof.
  intros Hr Ex Hkk. set (D2 := (B2R cn - cn_ref z r) ^ 2). assert (D0 : 0 <= D2) by (apply pow2_ge_0).
  pose proof (wk_ge1 (prec := prec) (2 * Er)) as W1.
  assert (Eq : wfk k = INR k * B2R wf -> exp (- (INR k * B2R wf * D2)) <= exp (- (wfk k * D2)) * w ^ (2 * Er) /\
     exp (- (wfk k * D2)) <= exp (- (INR k * B2R wf * D2)) * w ^ (2 * Er)).
  { intros ->. pose proof (exp_pos (- (INR k * B2R wf * D2))) as P. split; rewrite <- (Rmult_1_r (exp _)) at 1; apply Rmult_le_compat_l; lra. }
  destruct Hk as [Q|Q]; [|apply Eq; unfold wfk; now rewrite Q].
  assert (Ek : wfk k = B2R (Bmult mode_NE (blit prec emax (inject_Z (Z.of_nat k))) wf)) by (unfold wfk; now rewrite Q).
  destruct (cd_round _ _ _ _ _ _ _ _ CD Q) as [HR|HR]; [|apply Eq; rewrite Ek; now apply HR].
  destruct (wf_prod k Hkk) as (_ & P1 & P2). rewrite <- Ek in P1, P2.
  pose proof (cd_E _ _ _ _ _ _ _ _ CD r Hr Ex) as QE. fold D2 in QE.
  destruct (wfk_rng k Hkk) as ((Wk0 & Wk) & _). destruct (cd_wf _ _ _ _ _ _ _ _ CD) as (_ & Wf & _). pose proof (bpow_gt_0 radix2 (-10)) as P0.
  assert (K13 : 1 <= INR k <= 3) by (rewrite INR_IZR_INZ; split; apply IZR_le; lia).
  assert (F1 : few 1) by (unfold few; assert (2 ^ 24 <= 2 ^ prec)%Z by (apply Z.pow_le_mono_r; lia); lia).
  pose proof (wk_lin (prec := prec) 1 F1) as WL. rewrite pow_1 in WL. change (INR 1) with 1 in WL. pose proof (w_ge1 (prec := prec)) as Wg.
  assert (Dl : Rabs (- (wfk k * D2) - - (INR k * B2R wf * D2)) <= INR (2 * E) * ln w).
  { replace (- (wfk k * D2) - - (INR k * B2R wf * D2)) with (- ((wfk k - INR k * B2R wf) * D2)) by ring.
    rewrite Rabs_Ropp, Rabs_mult, (Rabs_pos_eq D2) by exact D0.
    assert (Q1 : Rabs (wfk k - INR k * B2R wf) <= (w - 1) * (4 * B2R wf)).
    { assert (T : INR k * B2R wf <= 4 * B2R wf) by (apply Rmult_le_compat_r; lra).
      assert (T1 : (w - 1) * (INR k * B2R wf) <= (w - 1) * (4 * B2R wf)) by (apply Rmult_le_compat_l; lra).
      assert (T2 : (w - 1) * wfk k <= (w - 1) * (4 * B2R wf)) by (apply Rmult_le_compat_l; lra). apply Rabs_le. lra. }
    apply Rle_trans with ((w - 1) * (4 * B2R wf) * D2); [apply Rmult_le_compat_r; lra|].
    rewrite Rmult_assoc. apply Rle_trans with ((w - 1) * INR E); [apply Rmult_le_compat_l; lra|].
    rewrite mult_INR. change (INR 2) with 2. pose proof (pos_INR E) as PE.
    apply Rle_trans with (2 * (1 * ln w) * INR E); [apply Rmult_le_compat_r; lra|lra]. }
  destruct (exp_near (prec := prec) _ _ _ Dl) as (N1 & N2).
  assert (WW : w ^ (2 * E) <= w ^ (2 * Er)) by (apply wk_le; lia).
  split; [apply Rle_trans with (1 := N1)|apply Rle_trans with (1 := N2)]; apply Rmult_le_compat_l; auto; left; apply exp_pos.
Qed.
Notation gwr r := (gauss_weight (B2R wf) (B2R cn) z r).
Lemma gauss_pos r : 0 <= gauss (B2R wf) (B2R cn) z r /\ (exists_ref z r -> 0 < gauss (B2R wf) (B2R cn) z r).
Proof.
  destruct (sum_pos (Z.to_nat (n_gauss z r)) (fun k => exp (- (INR (S k) * B2R wf * (B2R cn - cn_ref z r) ^ 2)))) as (P & Q); [intros; apply exp_pos|].
  split; [exact P|]. intros Ex. apply Q. unfold exists_ref in Ex. lia.
Qed.
Lemma raw_near r : (r < 7)%nat -> gauss (B2R wf) (B2R cn) z r <= rawR r * w ^ (2 * Er) /\ rawR r <= gauss (B2R wf) (B2R cn) z r * w ^ (2 * Er).
Proof.
  intros Hr. pose proof (count_3 r Hr) as C3.
  split; apply sum_times; intros k Hkk; apply gauss_near; try lia; auto; apply (count_ex r k Hkk).
Qed.
Lemma weight_near r : (r < 7)%nat -> exists_ref z r ->
  0 < gwr r <= 1 /\ gwr r <= rawR r / rsum 7 rawR * w ^ (4 * Er) /\ rawR r / rsum 7 rawR <= gwr r * w ^ (4 * Er).
Proof.
  intros Hr Ex. destruct (rawR_pos r) as (R0 & R1). specialize (R1 Ex). destruct (gauss_pos r) as (G0 & G1). specialize (G1 Ex).
  pose proof (sum_ge 7 rawR r (fun k => proj1 (rawR_pos k)) Hr) as (_ & S1).
  pose proof (sum_ge 7 (gauss (B2R wf) (B2R cn) z) r (fun k => proj1 (gauss_pos k)) Hr) as (_ & S2).
  pose proof (sum_times 7 _ _ _ (fun k H => proj1 (raw_near k H))) as T1. pose proof (sum_times 7 _ _ _ (fun k H => proj2 (raw_near k H))) as T2.
  destruct (raw_near r Hr) as (N1 & N2). pose proof (wk_pos (prec := prec) (2 * Er)) as Wp.
  unfold gauss_weight. replace (4 * Er)%nat with (2 * Er + 2 * Er)%nat by lia. rewrite Rpow_split. split; [split|split].
  - apply Rdiv_lt_0_compat; lra.
  - apply Rmult_le_reg_r with (rsum 7 (gauss (B2R wf) (B2R cn) z)); [lra|]. unfold Rdiv. rewrite Rmult_assoc, Rinv_l; lra.
  - apply quot_ratio; lra.
  - apply quot_ratio; lra.
Qed.

Context (k64 : nat) (Hg : growth (prec := 53) (2 * kg + 14) <= growth (prec := prec) k64) (F64 : few (k64 + 4 * Er + 1)).
Lemma weight_acc r lo : (r < 7)%nat -> exists_ref z r -> (3 - emax <= lo)%Z -> (lo <= 0)%Z ->
  mapr (k64 + 4 * Er + 1) lo 1 (gwr r + p2 lo)
    (bconv prec emax (Bdiv mode_NE (raw64 (L64 := L64) kind wf cn z r) (norm64 (L64 := L64) kind wf cn z))) (gwr r).
Proof.
  intros Hr Ex L1 L2. destruct (quot_acc r Hr Ex) as (_ & _ & Qa). destruct (weight_near r Hr Ex) as ((G0 & G1) & N1 & N2).
  set (x := Bdiv mode_NE _ _) in *. pose proof (appr_pos _ _ _ _ _ Qa) as Px. pose proof (appr_nonneg _ _ _ _ _ Qa) as Pq.
  destruct Qa as [Fx _ Gx Ux]. set (q := rawR r / rsum 7 rawR) in *. set (c := w ^ (k64 + 4 * Er)).
  assert (Wk := wk_pos (prec := prec) k64). assert (We := wk_pos (prec := prec) (4 * Er)).
  assert (C1 : 1 <= c) by apply wk_ge1. unfold growth in Hg.
  assert (E1 : gwr r <= B2R x * c).
  { apply Rle_trans with (1 := N1). unfold c. rewrite Rpow_split, <- Rmult_assoc. apply Rmult_le_compat_r; [lra|].
    apply Rle_trans with (1 := Gx). apply Rmult_le_compat_l; [exact Px|exact Hg]. }
  assert (E2 : B2R x <= gwr r * c).
  { apply Rle_trans with (1 := Ux). apply Rle_trans with (q * w ^ k64); [apply Rmult_le_compat_l; [exact Pq|exact Hg]|].
    unfold c. rewrite Rpow_split, (Rmult_comm (w ^ k64)), <- Rmult_assoc. apply Rmult_le_compat_r; lra. }
  assert (Er1 : Rabs (B2R x - gwr r) <= (c - 1) * (gwr r + p2 lo)).
  { pose proof (bpow_gt_0 radix2 lo) as PL. apply Rle_trans with ((c - 1) * gwr r); [|apply Rmult_le_compat_l; lra].
    apply Rabs_le. split; [|lra]. apply Rmult_le_reg_r with c; [lra|]. assert (0 <= (c - 1) * (c - 1) * gwr r) by (apply Rmult_le_pos; [apply Rmult_le_pos|]; lra). lra. }
  assert (PL1 : p2 lo <= 1) by (change 1 with (p2 0); now apply bpow_le).
  assert (Rm : gwr r + p2 lo = 0 \/ p2 lo <= gwr r + p2 lo <= p2 1) by (right; change (p2 1) with 2; lra).
  destruct (round_m (prec := prec) (emax := emax) (k64 + 4 * Er) lo 1 (gwr r + p2 lo) (B2R x) (gwr r)) as (M1 & M2); auto; try lia.
  - apply (few_le _ _ F64). lia.
  - rewrite Rabs_pos_eq; [pose proof (bpow_gt_0 radix2 lo)|]; lra.
  - destruct (bconv_round (Hp2 := Hp) (He2 := He) x Fx M1) as (Fy & Vy). split; auto.
    + rewrite Rabs_pos_eq; [pose proof (bpow_gt_0 radix2 lo)|]; lra.
    + rewrite Vy. replace (k64 + 4 * Er + 1)%nat with (S (k64 + 4 * Er)) by lia. exact M2.
Qed.
End D.
End G.
