(** * C77: the correctly rounded library meets the hypotheses; example in single precision *)
From Coq Require Import Reals List Arith ZArith QArith Qreals Bool String Lia Lra.
From Flocq Require Import Core.Core IEEE754.BinarySingleNaN.
From Verif Require Import Py Tensor Scalar RInst ModelExt ModelUtils ModelModels SpecCall PropsTables TensorLemmas DataRef DataPair
  IeeeInst IeeeP IeeeB IeeeA IeeeM IeeeE IeeeLib PropsAcc PropsAcc3 SpecW SpecIeee IeeeW PropsIeee PropsAccW PropsAccT
  InstIeee InstAcc InstAcc3.
Import ListNotations.
Open Scope R_scope.

Local Existing Instance Hp64.
Local Existing Instance He64.
Local Existing Instance Hp32.
Local Existing Instance He32.

(** the correctly rounded exponential function makes one rounding error *)
Theorem C77_correct_exp {prec emax : Z} {Hp : Prec_gt_0 prec} {He : Prec_lt_emax prec emax} : (4 <= emax)%Z ->
  exp_accurate (prec := prec) (emax := emax) Lcr 1.
Proof.
  intros H4 x Fx R. assert (E : l_exp Lcr x = bround (exp (B2R x))) by (destruct x; try discriminate; reflexivity).
  rewrite E. apply round_within; auto. intros B. apply (bround_spec (Hp := Hp) (He := He)); [left; apply exp_pos|exact B].
Qed.
(** 2^28 double precision errors are less than one single precision error *)
Theorem C77_double_in_single k : (Z.of_nat k <= 2 ^ 28)%Z -> growth (prec := 53) k <= growth (prec := 24) 1.
Proof.
  intros H. unfold growth. assert (Fk : few (prec := 53) k) by (unfold few; lia).
  pose proof (wk_lin (prec := 53) k Fk) as W. unfold w in W. pose proof (ln_w_le (prec := 53)) as Lw. unfold w in Lw.
  assert (K : INR k <= bpow radix2 28) by (rewrite INR_IZR_INZ; change (bpow radix2 28) with (IZR (2 ^ 28)); now apply IZR_le).
  rewrite pow_1. change (- (53))%Z with (-53)%Z in *. change (- (24))%Z with (-24)%Z.
  assert (E : 2 * (bpow radix2 28 * bpow radix2 (-53)) = bpow radix2 (-24)).
  { rewrite <- bpow_plus. change 2 with (bpow radix2 1). rewrite <- bpow_plus. reflexivity. }
  rewrite <- E. apply Rplus_le_reg_l with (- (1)). ring_simplify.
  apply Rle_trans with (2 * (INR k * ln (1 + bpow radix2 (-53)))); [lra|].
  assert (INR k * ln (1 + bpow radix2 (-53)) <= bpow radix2 28 * bpow radix2 (-53)); [|lra].
  apply Rmult_le_compat; auto using pos_INR. apply (ln_w_pos (prec := 53)).
Qed.
Print Assumptions C77_correct_exp.
Print Assumptions C77_double_in_single.

(** ** A hydrogen atom with coordination number 1 and charge +1, a carbon atom with 3 and -1 *)
Definition cnT : tensor (sc N32) := mkT [2%nat] (fun ix => match ix with [O] => blit 24 128 (inject_Z 1) | _ => blit 24 128 (inject_Z 3) end).
Definition qT : tensor (sc N32) := mkT [2%nat] (fun ix => match ix with [O] => blit 24 128 (inject_Z 1) | _ => Bopp (blit 24 128 (inject_Z 1)) end).

Lemma wf_16 kind i j : kind = D4M \/ kind = D4SM -> (i < 2)%nat -> (j < 2)%nat ->
  is_finite (wf_at (L := Lcr) (L64 := Lcr) kind no_kw HC [] i j) = true /\
  1 <= B2R (wf_at (L := Lcr) (L64 := Lcr) kind no_kw HC [] i j) <= 6.
Proof.
  intros Hk Hi Hj. set (x := wf_at kind no_kw HC [] i j).
  assert (C : is_finite x && Bleb (blit 24 128 (inject_Z 1)) x && Bleb x (blit 24 128 (inject_Z 6)) = true).
  { unfold x. destruct i as [|[|i]]; [| |lia]; (destruct j as [|[|j]]; [| |lia]); destruct Hk as [->| ->]; vm_compute; reflexivity. }
  apply andb_true_iff in C as (C & C3). apply andb_true_iff in C as (C1 & C2). split; [exact C1|].
  destruct (lit32 1 ltac:(lia)) as (F1 & V1). destruct (lit32 6 ltac:(lia)) as (F6 & V6).
  rewrite Bleb_correct in C2 by auto. rewrite Bleb_correct in C3 by auto. rewrite V1 in C2. rewrite V6 in C3.
  split; [destruct (Rle_bool_spec 1 (B2R x)) as [Q|]; [exact Q|discriminate]|destruct (Rle_bool_spec (B2R x) 6) as [Q|]; [exact Q|discriminate]].
Qed.
Lemma cn_4 z r : z = 1%nat \/ z = 6%nat -> (r < 7)%nat -> 0 <= cn_ref z r <= 4.
Proof.
  intros Hz Hr. rewrite cn_ref_int.
  assert (T : forallb (fun r => (0 <=? cn_int z r)%Z && (cn_int z r <=? 4 * Zpos refcovcn_tab_dec)%Z) (seq 0 7) = true)
    by (destruct Hz as [->| ->]; vm_compute; reflexivity).
  rewrite forallb_forall in T. specialize (T r ltac:(apply in_seq; lia)). apply andb_true_iff in T as (T1 & T2). apply Z.leb_le in T1, T2.
  apply IZR_le in T1, T2. rewrite mult_IZR in T2. assert (P : 0 < IZR (Zpos refcovcn_tab_dec)) by now apply IZR_lt.
  split; apply Rmult_le_reg_r with (IZR (Zpos refcovcn_tab_dec)); auto; unfold Rdiv; rewrite Rmult_assoc, Rinv_l; lra.
Qed.
Lemma qr_half z r : z = 1%nat \/ z = 6%nat -> (r < 7)%nat -> Rabs (q_ref "eeq" z r) <= 1 / 2.
Proof.
  intros Hz Hr. change (q_ref "eeq" z r) with (IZR (nth r (nth z clsq_tab []) 0%Z) / IZR (Zpos clsq_tab_dec)).
  assert (T : forallb (fun r => (2 * Z.abs (nth r (nth z clsq_tab []) 0%Z) <=? Zpos clsq_tab_dec)%Z) (seq 0 7) = true)
    by (destruct Hz as [->| ->]; vm_compute; reflexivity).
  rewrite forallb_forall in T. specialize (T r ltac:(apply in_seq; lia)). apply Z.leb_le in T.
  apply IZR_le in T. rewrite mult_IZR, abs_IZR in T. assert (P : 0 < IZR (Zpos clsq_tab_dec)) by now apply IZR_lt.
  unfold Rdiv. rewrite Rabs_mult, (Rabs_pos_eq (/ _)) by (left; now apply Rinv_0_lt_compat).
  apply Rmult_le_reg_r with (IZR (Zpos clsq_tab_dec)); auto. rewrite Rmult_assoc, Rinv_l; lra.
Qed.
Lemma lit_signed z lo hi : (1 <= z <= 64)%Z -> bpow radix2 lo <= 1 -> IZR z <= bpow radix2 hi -> signed_or lo hi (blit 24 128 (inject_Z z)).
Proof.
  intros Hz H1 H2. destruct (lit32 z ltac:(lia)) as (A & C). split; [exact A|right]. rewrite C.
  assert (1 <= IZR z) by (apply IZR_le; lia). rewrite Rabs_pos_eq; lra.
Qed.
Lemma p2_small k : (k <= 0)%Z -> bpow radix2 k <= 1.
Proof. intros H. change 1 with (bpow radix2 0). now apply bpow_le. Qed.

Lemma ex_cn kind i j : kind = D4M \/ kind = D4SM -> (i < 2)%nat -> (j < 2)%nat ->
  cn_domain kind (wf_at (L := Lcr) (L64 := Lcr) kind no_kw HC [] i j) (arg_at (L := Lcr) (L64 := Lcr) (Some cnT) [] i)
    (Z.to_nat (sl1 HC [] i)) 24 50 240 0.
Proof.
  intros Hk Hi Hj. destruct (wf_16 kind i j Hk Hi Hj) as (Fw & W1 & W6).
  assert (Hz : Z.to_nat (sl1 HC [] i) = 1%nat \/ Z.to_nat (sl1 HC [] i) = 6%nat) by (destruct i as [|[|i]]; [left|right|lia]; reflexivity).
  set (z := Z.to_nat (sl1 HC [] i)) in *. set (wf := wf_at kind no_kw HC [] i j) in *.
  set (c := arg_at (Some cnT) [] i).
  assert (Cv : signed_or (-60) 5 c /\ (B2R c = 1 \/ B2R c = 3)).
  { unfold c. destruct i as [|[|i]]; [| |lia]; cbn -[blit bpow].
    - split; [apply lit_signed; try lia; [apply p2_small; lia|simpl; lra]|left; apply (lit32 1); lia].
    - split; [apply lit_signed; try lia; [apply p2_small; lia|simpl; lra]|right; apply (lit32 3); lia]. }
  destruct Cv as (Cs & Cv). assert (I24 : INR 24 = 24) by (rewrite INR_IZR_INZ; reflexivity).
  assert (I50 : INR 50 = 50) by (rewrite INR_IZR_INZ; reflexivity). assert (I216 : INR 240 = 240) by (rewrite INR_IZR_INZ; reflexivity).
  assert (Hc : forall r, (r < 7)%nat -> 0 <= cn_ref z r <= 4) by (intros; now apply cn_4).
  split.
  - exact Cs.
  - split; [exact Fw|]. rewrite I24. pose proof (p2_small (-10) ltac:(lia)). lra.
  - intros r Hr _. specialize (Hc r Hr). rewrite I50. destruct Cv as [-> | ->]; rewrite Rabs_pos_eq by lra; nra.
  - intros r Hr _. specialize (Hc r Hr). rewrite I216.
    assert (Q : (B2R c - cn_ref z r) ^ 2 <= 9) by (destruct Cv as [-> | ->]; nra).
    assert (0 <= (B2R c - cn_ref z r) ^ 2) by apply pow2_ge_0. nra.
  - intros ->. right. intros k Hkk. change wf with (blit 24 128 (inject_Z 6)).
    destruct (lit32 6 ltac:(lia)) as (F6 & V6). rewrite V6.
    assert (E : Bmult mode_NE (blit 24 128 (inject_Z (Z.of_nat k))) (blit 24 128 (inject_Z 6)) = blit 24 128 (inject_Z (Z.of_nat k * 6))).
    { apply B2SF_inj. destruct k as [|[|[|[|k]]]]; try lia; vm_compute; reflexivity. }
    rewrite E. destruct (lit32 (Z.of_nat k * 6) ltac:(lia)) as (_ & ->). rewrite mult_IZR, INR_IZR_INZ. reflexivity.
Qed.

Lemma ex_q i r : (i < 2)%nat -> (r < 7)%nat ->
  q_domain (the_ga (L := Lcr) (L64 := Lcr) no_kw) (the_gc (L := Lcr) (L64 := Lcr) no_kw) (dat (x_gam X32) [Z.to_nat (sl1 HC [] i)])
    (dat (x_zeff X32) [Z.to_nat (sl1 HC [] i)]) (arg_at (L := Lcr) (L64 := Lcr) (Some qT) [] i)
    (q_ref (the_ref (L := Lcr) (L64 := Lcr) no_kw) (Z.to_nat (sl1 HC [] i)) r) 5 30.
Proof.
  intros Hi Hr.
  assert (Hz : Z.to_nat (sl1 HC [] i) = 1%nat \/ Z.to_nat (sl1 HC [] i) = 6%nat) by (destruct i as [|[|i]]; [left|right|lia]; reflexivity).
  pose proof (qr_half _ r Hz Hr) as Qh. change (the_ref no_kw) with "eeq"%string. set (qr := q_ref "eeq" _ r) in *.
  change (the_ga no_kw) with (blit 24 128 (inject_Z 3)). change (the_gc no_kw) with (blit 24 128 (inject_Z 2)).
  destruct (lit32 1 ltac:(lia)) as (F1 & V1). destruct (lit32 2 ltac:(lia)) as (F2 & V2). destruct (lit32 3 ltac:(lia)) as (F3 & V3). destruct (lit32 6 ltac:(lia)) as (F6 & V6).
  change (dat (x_gam X32) [Z.to_nat (sl1 HC [] i)]) with (blit 24 128 (inject_Z 1)).
  set (zf := dat (x_zeff X32) [Z.to_nat (sl1 HC [] i)] : f32). set (qi := arg_at (Some qT) [] i).
  assert (S20 := p2_small (-20) ltac:(lia)). assert (S60 := p2_small (-60) ltac:(lia)).
  assert (Cv : zero_or (-20) 10 zf /\ signed_or (-60) 10 qi /\ (B2R zf = 1 /\ B2R qi = 1 \/ B2R zf = 6 /\ B2R qi = -1)).
  { unfold zf, qi. destruct i as [|[|i]]; [| |lia].
    - change (dat (x_zeff X32) [Z.to_nat (sl1 HC [] 0)] : f32) with (blit 24 128 (inject_Z 1)). change (arg_at (Some qT) [] 0) with (blit 24 128 (inject_Z 1)).
      split; [split; [exact F1|right; rewrite V1; simpl (bpow radix2 10); lra]|]. split; [apply lit_signed; try lia; [exact S60|simpl; lra]|]. left. auto.
    - change (dat (x_zeff X32) [Z.to_nat (sl1 HC [] 1)] : f32) with (blit 24 128 (inject_Z 6)). change (arg_at (Some qT) [] 1) with (Bopp (blit 24 128 (inject_Z 1))).
      split; [split; [exact F6|right; rewrite V6; simpl (bpow radix2 10); lra]|]. split; [|right; rewrite B2R_Bopp, V1; auto].
      split; [now rewrite is_finite_Bopp|right]. rewrite B2R_Bopp, Rabs_Ropp, V1, Rabs_pos_eq by lra. simpl (bpow radix2 10). lra. }
  destruct Cv as (Zs & Qs & Cv).
  assert (I30 : INR 30 = 30) by (rewrite INR_IZR_INZ; reflexivity). assert (I5 : INR 5 = 5) by (rewrite INR_IZR_INZ; reflexivity).
  assert (E1 := p2_small (1 - 24 + 13) ltac:(lia)). assert (Ep : bpow radix2 (1 - 24) <= / 16) by (change (/ 16) with (bpow radix2 (-4)); apply bpow_le; lia).
  assert (E0 := bpow_gt_0 radix2 (1 - 24)). apply Rabs_le_inv in Qh as Qh'.
  split; auto; try (apply lit_signed; try lia; [exact S20|simpl; lra]).
  - rewrite V3, I30, Rabs_pos_eq; lra.
  - right. cbv zeta. rewrite V1, V2, V3, I5, I30. set (e := bpow radix2 (1 - 24)) in *. rewrite !(Rabs_pos_eq 1), !(Rabs_pos_eq 2), !(Rabs_pos_eq 3) by lra.
    assert (S : forall v, 0 < v -> 0 <= qr + B2R zf -> exp (1 * 2 * (1 - (qr + B2R zf) / v)) <= 9).
    { intros v Pv Pq. apply Rle_trans with (exp (1 + 1)).
      - apply exp_mono. assert (0 <= (qr + B2R zf) / v) by (apply Rmult_le_pos; [exact Pq|left; now apply Rinv_0_lt_compat]). lra.
      - rewrite exp_plus. pose proof exp_le_3. pose proof (exp_pos 1). nra. }
    assert (M : forall a v, 0 < v -> a <= 3 / 2 * v -> 1 * 2 * (1 + a / v) <= 5).
    { intros a v Pv Ha. assert (a / v <= 3 / 2) by (apply Rmult_le_reg_r with v; [exact Pv|]; unfold Rdiv; rewrite Rmult_assoc, Rinv_l; lra). lra. }
    destruct Cv as [(Ez & Eq)|(Ez & Eq)]; rewrite Ez, Eq in *; (split; [lra|split; [apply M; lra|]]).
    + pose proof (S (1 + 1 - e) ltac:(lra) ltac:(lra)). lra.
    + pose proof (S (-1 + 6 - e) ltac:(lra) ltac:(lra)). lra.
Qed.
Lemma ex_fit kind : kind = D4M \/ kind = D4SM -> weights_fit (prec := 24) (emax := 128) kind 1 1 1 1 24 50 240 0 5 30 1.
Proof.
  intros Hk. split; try lia.
  - destruct Hk as [->| ->]; vm_compute; discriminate.
  - apply C77_double_in_single. destruct Hk as [->| ->]; vm_compute; discriminate.
  - vm_compute; discriminate.
Qed.

Example C77_example kind : kind = D4M \/ kind = D4SM ->
  exists m gw, built X32 kind no_kw HC 2 [] m /\ weight_references X32 m (Some cnT) (Some qT) = Ok gw /\
    forall i j r, (i < 2)%nat -> (j < 2)%nat -> (r < 7)%nat ->
      let z := Z.to_nat (sl1 HC [] i) in
      let exact := zeta_exact X32 no_kw z r (arg_at (L := Lcr) (L64 := Lcr) (Some qT) [] i) in
      let weight := gauss_weight (B2R (wf_at (L := Lcr) (L64 := Lcr) kind no_kw HC [] i j)) (B2R (arg_at (L := Lcr) (L64 := Lcr) (Some cnT) [] i)) z r in
      (~ exists_ref z r -> entry kind gw [] i j r = B754_zero false) /\
      (exists_ref z r -> is_finite (entry kind gw [] i j r) = true /\
        Rabs (B2R (entry kind gw [] i j r) - exact * weight) <= 2 / 1000 * (exact * (weight + bpow radix2 (-65)))).
Proof.
  intros Hk. destruct (HC_built kind Hk) as (m & Hm).
  destruct (C77_weights_accuracy X32 kind no_kw HC 2 [] m (Some cnT) (Some qT) 1 1 1 1 ltac:(lia) ltac:(lia) Lcr_nonneg
    (C77_correct_exp (prec := 24) (emax := 128) ltac:(lia)) (C77_correct_exp (prec := 53) (emax := 1024) ltac:(lia)) (C76_correct_pow (prec := 53) (emax := 1024) ltac:(lia)) (Lcr_pow_accurate (prec := 53) (emax := 1024) ltac:(lia)) Hm eq_refl eq_refl) as (gw & E & _ & H).
  exists m, gw. split; [exact Hm|]. split; [exact E|]. intros i j r Hi Hj Hr z exact weight.
  destruct (H [] i j r Logic.I Hi Hj Hr) as (H1 & H2). split; [exact H1|]. intros Ex.
  destruct (H2 Ex 24%nat 50%nat 240%nat 0%nat 5%nat 30%nat 1%nat (ex_cn kind i j Hk Hi Hj) (ex_q i r Hi Hr) (ex_fit kind Hk)) as (Ff & Pz & (Pw & _) & Er).
  change (0 < exact) in Pz. change (0 < weight) in Pw. split; [exact Ff|]. apply Rle_trans with (1 := Er).
  change (3 - 128 + 2 * Z.of_nat 30)%Z with (-65)%Z.
  apply Rmult_le_compat_r; [apply Rmult_le_pos; [left; exact Pz|pose proof (bpow_gt_0 radix2 (-65)) as P65; apply Rplus_le_le_0_compat; left; assumption]|].
  change (weight_errors 1 5 30 1 0) with 13384%nat. unfold growth.
  pose proof (wk_lin (prec := 24) 13384 ltac:(vm_compute; discriminate)) as W. pose proof (ln_w_le (prec := 24)) as Lw. unfold w in W, Lw.
  assert (I : INR 13384 = 13384) by (rewrite INR_IZR_INZ; reflexivity). rewrite I in W.
  change (bpow radix2 (- (24))) with (/ 16777216) in *. lra.
Qed.
