(** * C80: example in single precision: three hydrogen atoms and a padding atom *)
From Coq Require Import Reals List Arith ZArith QArith Qreals Bool String Lia Lra.
From Flocq Require Import Core.Core IEEE754.BinarySingleNaN.
From Verif Require Import Py Tensor Scalar RInst ModelExt ModelUtils ModelDamping ModelModels ModelTerms Spec SpecR SpecCall PropsTables TensorLemmas DataRef DataAlpha DataPair CallLemmas Energy3R
  IeeeInst IeeeP IeeeB IeeeA IeeeM IeeeE IeeeLib PropsAcc PropsAcc3 SpecW SpecIeee IeeeW PropsIeee PropsAccW PropsAccT PropsAccC PropsAccC6 PropsAccE PropsAccA
  InstAny InstIeee InstAcc InstAcc3 InstAccT InstAccC6 InstAccE.
Import ListNotations.
Open Scope R_scope.

(** the correctly rounded square root, without a clamp *)
Section D.
Context {prec emax : Z} {Hp : Prec_gt_0 prec} {He : Prec_lt_emax prec emax}.
Context {L : Libm prec emax} {L64 : Libm 53 1024}.
Theorem C80_correct_sqrt (X : Ext (sc (IN prec emax L L64))) dl lo hi : (4 <= emax)%Z -> (0 <= dl)%Z -> (dl + 2 <= emax)%Z ->
  (forall x : binary_float prec emax, x_sqrt X x = Bsqrt mode_NE x) -> sqrt_accurate X 1 dl lo hi.
Proof.
  intros H4 H0 H1 E. split.
  - intros x Fx (R1 & R2). rewrite E. pose proof (bpow_gt_0 radix2 (- dl)) as P.
    apply round_within; auto.
    + split.
      * apply Rle_trans with (bpow radix2 (- dl)); [apply bpow_le; lia|]. destruct (Rle_dec (B2R x) 1) as [Q|Q].
        { apply Rle_trans with (1 := R1). rewrite <- (sqrt_square (B2R x)) at 1 by lra. apply sqrt_le_1; nra. }
        { apply Rle_trans with 1; [change 1 with (bpow radix2 0); apply bpow_le; lia|]. rewrite <- sqrt_1. apply sqrt_le_1; lra. }
      * destruct (Rle_dec (B2R x) 1) as [Q|Q].
        { apply Rle_trans with 1; [|change 1 with (bpow radix2 0); apply bpow_le; lia]. rewrite <- sqrt_1. apply sqrt_le_1; lra. }
        { apply Rle_trans with (2 := R2). rewrite <- (sqrt_square (B2R x)) at 2 by lra. apply sqrt_le_1; nra. }
    + intros _. destruct (Bsqrt_correct _ _ Hp He mode_NE x) as (V & F & _). split; [|exact V].
      rewrite F. destruct x as [s|s| |[|] m e Q]; try discriminate; auto. exfalso. simpl in R1.
      assert (F2R (Float radix2 (Z.neg m) e) < 0) by now apply F2R_lt_0. simpl in *. lra.
  - intros x Fx Z. rewrite E. destruct (Bsqrt_correct _ _ Hp He mode_NE x) as (V & F & _). split.
    + rewrite F. destruct x as [s|s| |[|] m e Q]; try discriminate; auto. exfalso. simpl in Z.
      assert (F2R (Float radix2 (Z.neg m) e) < 0) by now apply F2R_lt_0. simpl in *. lra.
    + left. rewrite V, Z, sqrt_0. apply round_0. apply valid_rnd_round_mode.
Qed.
End D.
Print Assumptions C80_correct_sqrt.

Local Existing Instance Hp64.
Local Existing Instance He64.
Local Existing Instance Hp32.
Local Existing Instance He32.

Definition H3 : tensor Z := mkT [4%nat] (fun ix => match ix with [O] | [1%nat] | [2%nat] => 1%Z | _ => 0%Z end).
Definition tPos : tensor (sc N32) := mkT [3; 4]%nat (fun ix => match ix with
  | [_; 3%nat] => B754_nan
  | k :: i :: _ => if Nat.eqb k 0 then blit 24 128 (inject_Z (2 * Z.of_nat i)) else blit 24 128 0
  | _ => blit 24 128 0 end).
Definition tCn : tensor (sc N32) := mkT [4%nat] (fun ix => match ix with [3%nat] => B754_nan | _ => blit 24 128 (inject_Z 1) end).
Definition tQ : tensor (sc N32) := mkT [4%nat] (fun _ => B754_nan).
(** charges of the atoms: none in the three-body term, zeros in C81 *)
Definition tQ0 : tensor (sc N32) := mkT [4%nat] (fun ix => match ix with [3%nat] => B754_nan | _ => blit 24 128 (inject_Z 0) end).
Definition t_charges (q : option (tensor (sc N32))) : Prop := q = None \/ q = Some tQ0.
Definition tR : tensor (sc N32) := mkT [4%nat] (fun ix => match ix with [3%nat] => blit 24 128 0 | _ => blit 24 128 (inject_Z 2) end).
Definition tSizes : tri_sizes := mkTri 0 6 2 6 1 4 16 64 32 51 1 2.
Notation tw q := (exact_weight (L := Lcr) (L64 := Lcr) Xd D4M no_kw H3 (Some tCn) q []).

Lemma t_fits : tri_fits (prec := 24) (emax := 128) tSizes.
Proof. constructor; cbn; lia. Qed.

Lemma t_built_d4 : exists m, built Xd D4M no_kw H3 4 [] m /\ new_model Xd D4M "D4Model" H3 no_kw = Ok m.
Proof.
  assert (Hkw : kw_ok (N := N32) D4M no_kw 4 []) by (split; [reflexivity|exact Logic.I]).
  assert (Hel : elements_ok "eeq" H3).
  { left. split; [reflexivity|]. intros [|[|[|[|[|i]]]] [|j b]] H; simpl in H |- *; try lia. }
  assert (Ht : ext_tables Xd) by exact X32_tables.
  destruct (new_model_ok Xd D4M "D4Model" H3 no_kw 4 [] Ht (or_introl eq_refl) eq_refl Hkw Hel) as (m & Em & _).
  exists m. split; [|exact Em]. split; [exact Ht|]. split; [now left|]. split; [reflexivity|]. split; [exact Hkw|].
  split; [exact Hel|]. now exists "D4Model"%string.
Qed.
Lemma t_built : exists m, built Xd D4M no_kw H3 4 [] m.
Proof. destruct t_built_d4 as (m & H & _). now exists m. Qed.

Lemma t_pos i k : (i < 3)%nat -> is_finite (sl2 tPos [] i k : f32) = true /\ B2R (sl2 tPos [] i k : f32) = if Nat.eqb k 0 then 2 * INR i else 0.
Proof.
  intros Hi.
  assert (E : sl2 tPos [] i k = if Nat.eqb k 0 then blit 24 128 (inject_Z (2 * Z.of_nat i)) else blit 24 128 0).
  { destruct i as [|[|[|i]]]; try lia; reflexivity. }
  rewrite E. destruct (Nat.eqb k 0).
  - destruct (lit32 (2 * Z.of_nat i)) as (A & C); [lia|]. split; [exact A|]. rewrite C, mult_IZR, <- INR_IZR_INZ. reflexivity.
  - split; reflexivity.
Qed.
Lemma t_real i j : (i < 4)%nat -> (j < 4)%nat -> real_pair (sl1 H3 []) i j = true -> (i < 3)%nat /\ (j < 3)%nat /\ i <> j.
Proof.
  intros Hi Hj R. split; [|split].
  - destruct (Nat.eq_dec i 3) as [->|]; [|lia]. exfalso. revert R. unfold real_pair. now rewrite ?andb_false_r.
  - destruct (Nat.eq_dec j 3) as [->|]; [|lia]. exfalso. revert R. unfold real_pair. change (sl1 H3 [] 3) with 0%Z. now rewrite ?andb_false_r.
  - intros ->. unfold real_pair in R. now rewrite Nat.eqb_refl in R.
Qed.
Lemma t_dist i j : (i < 4)%nat -> (j < 4)%nat -> real_pair (sl1 H3 []) i j = true ->
  let d := euclid 3 (rcoord (L := Lcr) (L64 := Lcr) tPos [] i) (rcoord (L := Lcr) (L64 := Lcr) tPos [] j) in
  within (prec := 24) 7 (x_dist Xd 3 (sl2 tPos [] i) (sl2 tPos [] j) : f32) d /\ 2 <= d <= 4.
Proof.
  intros Hi Hj R d. destruct (t_real i j Hi Hj R) as (Hi2 & Hj2 & Nij).
  assert (D4 : 1 <= Rabs (INR i - INR j) <= 2).
  { destruct i as [|[|[|i]]]; try lia; destruct j as [|[|[|j]]]; try lia; try (now elim Nij); cbn [INR];
      unfold Rabs; destruct (Rcase_abs _); lra. }
  assert (D : d = 2 * Rabs (INR i - INR j)).
  { unfold d, euclid, sqd. cbn [rsum]. unfold rcoord. rewrite !(proj2 (t_pos i _ Hi2)), !(proj2 (t_pos j _ Hj2)). cbn [Nat.eqb].
    transitivity (sqrt (Rsqr (2 * Rabs (INR i - INR j)))); [f_equal|apply sqrt_Rsqr; lra]. unfold Rsqr.
    replace (2 * Rabs (INR i - INR j) * (2 * Rabs (INR i - INR j))) with (4 * (Rabs (INR i - INR j) * Rabs (INR i - INR j))) by ring.
    rewrite <- Rabs_mult, Rabs_pos_eq by apply Rle_0_sqr. ring. }
  split; [|lra].
  apply (C67_direct_distance (L := Lcr) 3 _ _ 0 3); try lia. intros k Hk.
  destruct (t_pos i k Hi2) as (Fi & ->). destruct (t_pos j k Hj2) as (Fj & ->).
  split; [exact Fi|]. split; [exact Fj|]. destruct (Nat.eqb k 0); [right|now left].
  replace (2 * INR i - 2 * INR j) with (2 * (INR i - INR j)) by ring. rewrite Rabs_mult, (Rabs_pos_eq 2) by lra. simpl. lra.
Qed.

Lemma t_geometry : tri_geometry (L := Lcr) (L64 := Lcr) Xd tSizes 7 1 40 H3 tPos 4 3 [].
Proof.
  split; [cbn; lia|].
  pose proof (few_2 (prec := 24) 9 ltac:(unfold few; change (2 ^ 24)%Z with 16777216%Z; lia)) as W. change (growth (prec := 24) 9 <= 2) in W.
  pose proof (growth_pos (prec := 24) 9) as W0. split.
  - intros b i j Hb Hi Hj R. destruct b; [|destruct Hb]. destruct (t_dist i j Hi Hj R) as (A & D). split; [exact A|]. split; [simpl; lra|left].
    change (7 + 1 + 1)%nat with 9%nat. nra.
  - intros b i j k Hb Hi Hj Hk R d _ _. destruct b; [|destruct Hb]. destruct (real_triple_pairs _ _ _ _ R) as (R1 & R2 & R3).
    pose proof (proj2 (t_dist i j Hi Hj R1)) as D1. pose proof (proj2 (t_dist i k Hi Hk R2)) as D2. pose proof (proj2 (t_dist j k Hj Hk R3)) as D3.
    change (2 <= d i j <= 4) in D1. change (2 <= d i k <= 4) in D2. change (2 <= d j k <= 4) in D3.
    repeat split; try (simpl; lra). apply Rle_trans with (4 * 4 * 4); [|simpl; lra].
    apply Rmult_le_compat; try lra; [apply Rmult_le_pos; lra|]. apply Rmult_le_compat; lra.
Qed.

Lemma t_atom q i j : t_charges q -> (i < 4)%nat -> (j < 4)%nat ->
  atom_domain (L := Lcr) (L64 := Lcr) Xd D4M no_kw H3 (Some tCn) q [] i j 24 50 240 0 5 30 5 12 2.
Proof.
  intros Hq Hi Hj. unfold atom_domain. cbv zeta. intros r Hr Ex.
  destruct Hq as [-> | ->]; (destruct i as [|[|[|[|i]]]]; try lia);
    try (split; [exact (ex_cn D4M 0 0 (or_introl eq_refl) ltac:(lia) ltac:(lia))|]; split; [exact (h_q r Hr)|exact (ex_sec 1 r (or_introl eq_refl) Hr)]).
  all: exfalso; change (exists_ref 0 r) in Ex; unfold exists_ref in Ex; do 7 (destruct r as [|r]; [vm_compute in Ex; discriminate|]); lia.
Qed.
Lemma tw_val q i j r : t_charges q -> (i < 3)%nat -> tw q i j r = hW r.
Proof.
  intros Hq Hi. destruct (lit32 0 ltac:(lia)) as (_ & V0). destruct (lit32 1 ltac:(lia)) as (_ & V1). destruct (lit32 6 ltac:(lia)) as (_ & V6).
  transitivity (weight hX hK (B2R (blit 24 128 (inject_Z 6))) 1 r (B2R (blit 24 128 (inject_Z 1))) (B2R (blit 24 128 (inject_Z 0)))).
  - destruct Hq as [-> | ->]; (destruct i as [|[|[|i]]]; [| | |lia]); reflexivity.
  - unfold hW. rewrite V0, V1, V6. reflexivity.
Qed.

Lemma t_condition q i j : t_charges q -> (i < 4)%nat -> (j < 4)%nat ->
  c6_condition (L := Lcr) (L64 := Lcr) Xd D4M no_kw H3 (Some tCn) q [] i j hSizes (-47) 4 /\
  (real_pair (sl1 H3 []) i j = true -> exact_c6 (L := Lcr) (L64 := Lcr) Xd D4M no_kw H3 (Some tCn) q [] i j <> 0).
Proof.
  intros Hq Hi Hj. unfold c6_condition. cbv zeta. unfold exact_c6, c6_pair, c6_size.
  assert (Zero : forall f : nat -> nat -> R, (forall r s, f r s = 0) -> rsum 7 (fun r => rsum 7 (f r)) = 0).
  { intros f Hf. apply rsum_0. intros r _. apply rsum_0. intros s _. apply Hf. }
  assert (C0 : forall f g, (forall w, f w = 0) \/ (forall w, g w = 0) -> casimir f g = 0).
  { intros f g H. unfold casimir. rewrite rsum_0; [ring|]. intros w _. destruct H as [H|H]; rewrite H; ring. }
  destruct (Nat.eq_dec i 3) as [->|Ni].
  { change (Z.to_nat (sl1 H3 [] 3)) with 0%nat. rewrite !Zero; [split; [split; [now left|lra]|intros Rp; destruct (t_real _ _ Hi Hj Rp) as (? & ? & _); lia]| |]; intros r s; rewrite C0; try ring; left; intros; first [apply pad_ref | apply pad_size]. }
  destruct (Nat.eq_dec j 3) as [->|Nj].
  { change (Z.to_nat (sl1 H3 [] 3)) with 0%nat. rewrite !Zero; [split; [split; [now left|lra]|intros Rp; destruct (t_real _ _ Hi Hj Rp) as (? & ? & _); lia]| |]; intros r s; rewrite C0; try ring; right; intros; first [apply pad_ref | apply pad_size]. }
  assert (Hi2 : (i < 3)%nat) by lia. assert (Hj2 : (j < 3)%nat) by lia.
  assert (Ei : Z.to_nat (sl1 H3 [] i) = 1%nat) by (destruct i as [|[|[|i]]]; try lia; reflexivity).
  assert (Ej : Z.to_nat (sl1 H3 [] j) = 1%nat) by (destruct j as [|[|[|j]]]; try lia; reflexivity).
  rewrite Ei, Ej.
  assert (P : rsum 7 (fun r => rsum 7 (fun s => tw q i j r * tw q j i s * casimir (pol_ref hX hK 1 r) (pol_ref hX hK 1 s))) =
    rsum 7 (fun r => rsum 7 (fun s => hW r * hW s * casimir (h_pol r) (h_pol s)))).
  { apply rsum_ext. intros r _. apply rsum_ext. intros s _. rewrite !tw_val by (assumption || lia). f_equal. apply casimir_ext; intros; apply h_ref_pol. }
  rewrite P. clear P. set (phi := bpow radix2 (-47)). assert (Ph : 0 < phi <= / 3000).
  { split; [apply bpow_gt_0|]. apply Rle_trans with (bpow radix2 (-12)); [apply bpow_le; lia|]. simpl. lra. }
  assert (T : forall r s, (r < 7)%nat -> (s < 7)%nat -> 0 <= hW r * hW s * casimir (h_pol r) (h_pol s) <= 32 * 32 * 24000).
  { intros r s Hr Hs. destruct (hW_range r Hr) as (W1 & _). destruct (hW_range s Hs) as (W2 & _). destruct (h_cas r s) as (D1 & D2).
    split; [apply Rmult_le_pos; [apply Rmult_le_pos; lra|lra]|]. apply Rmult_le_compat; try lra; [apply Rmult_le_pos; lra|]. apply Rmult_le_compat; lra. }
  assert (Low : bpow radix2 (1 - ac6min hSizes) <= rsum 7 (fun r => rsum 7 (fun s => hW r * hW s * casimir (h_pol r) (h_pol s)))).
  { apply Rle_trans with (/ 8 * / 8 * (1 / 3)). { change (1 - ac6min hSizes)%Z with (-19)%Z. simpl. lra. }
      apply Rle_trans with (hW 1 * hW 1 * casimir (h_pol 1) (h_pol 1)).
      { destruct (hW_range 1 ltac:(lia)) as (W1 & _ & W2). specialize (W2 eq_refl). pose proof h_cas_11. apply Rmult_le_compat; try lra. apply Rmult_le_compat; lra. }
      apply Rle_trans with (rsum 7 (fun s => hW 1 * hW s * casimir (h_pol 1) (h_pol s))).
      { apply (rsum_term_le 7 (fun s => hW 1 * hW s * casimir (h_pol 1) (h_pol s)) 1); [lia|]. intros s Hs. apply T; lia. }
      apply (rsum_term_le 7 (fun r => rsum 7 (fun s => hW r * hW s * casimir (h_pol r) (h_pol s))) 1); [lia|]. intros r Hr. apply rsum_nonneg. intros s Hs. apply T; lia. }
  split; [|intros _; pose proof (bpow_gt_0 radix2 (1 - ac6min hSizes)); lra].
  split.
  - right. split.
    + exact Low.
    + apply Rle_trans with (rsum 7 (fun _ => rsum 7 (fun _ => 32 * 32 * 24000))).
      { apply rsum_le. intros r Hr. apply rsum_le. intros s Hs. apply T; lia. }
      cbn [rsum]. change (ac6max hSizes - 1)%Z with 32%Z. simpl. lra.
  - rewrite <- rsum_scal_l. apply rsum_le. intros r Hr. rewrite <- rsum_scal_l. apply rsum_le. intros s Hs.
    rewrite !tw_val by (assumption || lia).
    rewrite (casimir_ext _ _ (h_pol r) (h_pol s)) by (intros; apply h_size).
    destruct (Nat.le_gt_cases 2 r) as [Q|Q]; [rewrite (h_cas_0 r s) by (now left); lra|].
    destruct (Nat.le_gt_cases 2 s) as [Q'|Q']; [rewrite (h_cas_0 r s) by (now right); lra|].
    destruct (hW_range r Hr) as (_ & W1 & _). destruct (hW_range s Hs) as (_ & W2 & _). specialize (W1 Q). specialize (W2 Q').
    destruct (h_cas r s) as (D1 & _). rewrite <- Rmult_assoc. apply Rmult_le_compat_r; [exact D1|].
    replace (4 * (hW r * hW s)) with ((2 * hW r) * (2 * hW s)) by ring. apply Rmult_le_compat; lra.
Qed.


Lemma t_params : zero_or (prec := 24) (-3) 3 (blit 24 128 (39 # 100)) /\ zero_or (prec := 24) (-3) 3 (blit 24 128 (48 # 10)).
Proof. split; sized. Qed.
Ltac value x := let v := eval vm_compute in (B2SF x) in match v with SpecFloat.S754_finite false ?m ?e =>
  rewrite (proj2 (flt32 x m e ltac:(vm_compute; reflexivity))); unfold F2R; simpl; lra end.
Lemma t_a1 : 1 / 4 <= B2R (blit 24 128 (39 # 100)) <= 1 / 2.
Proof. value (blit 24 128 (39 # 100)). Qed.
Lemma t_a2 : 4 <= B2R (blit 24 128 (48 # 10)) <= 5.
Proof. value (blit 24 128 (48 # 10)). Qed.

Lemma growth_merge (a b c : nat) (D : R) :
  growth (prec := 24) a * (growth (prec := 24) b * D * growth (prec := 24) c) = growth (prec := 24) (a + (b + c)) * D.
Proof. unfold growth. rewrite !pow_add. ring. Qed.

Lemma t_atm m (q : option (tensor (sc N32))) (rv : tensor (sc N32)) : built Xd D4M no_kw H3 4 [] m -> opt_shape q [4%nat] -> exists t,
  term_calculate Xd (mkTerm D4ATMApprox (ZeroDamping Xd) false) H3 tPos (gparam (N := N32)) tCn m q tR rv (default_cutoff (K := sc N32)) = Ok t /\ shp t = [4%nat] /\
  forall i, (i < 4)%nat ->
    let e f := atm_sum (L := Lcr) (L64 := Lcr) f H3 tPos [] (exact_c9 (L := Lcr) (L64 := Lcr) Xd D4M no_kw H3 (Some tCn) None [])
      (exact_radius (L := Lcr) (L64 := Lcr) tR (blit 24 128 (39 # 100)) (blit 24 128 (48 # 10)) []) 1 16 40 4 3 i in
    is_finite (sl1 t [] i : f32) = true /\ Rabs (e triple_energy) <= e triple_size /\ Rabs (B2R (sl1 t [] i : f32) - e triple_energy) <= 9 / 100 * e triple_size.
Proof.
  intros Hm Hq.
  assert (V40 : B2R (dat (c_disp3 (default_cutoff (K := sc N32))) [] : f32) = 40) by (apply (lit32 40); lia).
  destruct (lit32 1 ltac:(lia)) as (F1 & V1). destruct (lit32 2 ltac:(lia)) as (F2 & V2). destruct (lit32 16 ltac:(lia)) as (F16 & V16).
  destruct t_params as (Pa1 & Pa2).
  assert (G4 : growth (prec := 24) 41377 - 1 <= 5 / 1000).
  { unfold growth. pose proof (wk_lin (prec := 24) 41377 ltac:(vm_compute; discriminate)) as W. pose proof (ln_w_le (prec := 24)) as Lw. unfold w in W, Lw.
    assert (I : INR 41377 = 41377) by (rewrite INR_IZR_INZ; reflexivity). rewrite I in W. change (bpow radix2 (- (24))) with (/ 16777216) in *. lra. }
  destruct (C80_atm_term_accuracy (L := Lcr) (L64 := Lcr) Xd hSizes tSizes 7 1 1 1 61 6 D4M no_kw H3 4 3 [] m tPos tCn q false (gparam (N := N32)) tR rv (default_cutoff (K := sc N32))
    1 1 1 1 24 50 240 0 5 30 1 5 12 2 5 (-47) 4 ltac:(lia) ltac:(lia) Lcr_nonneg
    (C77_correct_exp (prec := 24) (emax := 128) ltac:(lia)) (C77_correct_exp (prec := 53) (emax := 1024) ltac:(lia))
    (C76_correct_pow (prec := 53) (emax := 1024) ltac:(lia)) (Lcr_pow_accurate (prec := 53) (emax := 1024) ltac:(lia))
    (C76_correct_pow (prec := 24) (emax := 128) ltac:(lia)) (C76_correct_division (prec := 24) (emax := 128) Xd ltac:(lia) (fun _ _ => eq_refl))
    (C80_correct_sqrt (prec := 24) (emax := 128) Xd 61 _ _ ltac:(lia) ltac:(lia) ltac:(lia) (fun _ => eq_refl))
    Hm eq_refl Hq eq_refl eq_refl eq_refl) as (t & Et & St & Ht).
  - apply (lit32 40); lia.
  - exact (gparam_good (N := N32)).
  - exact t_fits.
  - rewrite V40. simpl. lra.
  - cbn. lia.
  - vm_compute. discriminate.
  - vm_compute. discriminate.
  - rewrite V40. exact t_geometry.
  - change (signed_or (prec := 24) (-1) 1 (blit 24 128 (inject_Z 1))). split; [exact F1|right]. rewrite V1, Rabs_R1. simpl. lra.
  - change (tri_alp tSizes 6 (blit 24 128 (inject_Z 16))). split; [split; [exact F16|right; rewrite V16; simpl; lra]|]. rewrite V16.
    cbn [tprod tSizes trlo trhi tplo tphi tnear]. simpl INR. change (6 - 3 * 1)%Z with 3%Z. change (3 * 4 + 3 * 0)%Z with 12%Z. lra.
  - exact Pa1.
  - exact Pa2.
  - intros b i j Hb Hi Hj R. destruct b; [|destruct Hb]. destruct (t_real i j Hi Hj R) as (Hi3 & Hj3 & _).
    assert (Er : forall i, (i < 3)%nat -> sl1 tR [] i = blit 24 128 (inject_Z 2)) by (intros [|[|[|?]]] ?; try lia; reflexivity).
    unfold exact_radius. rewrite !Er by assumption. rewrite V2. simpl bpow at 1 2 3 4. repeat (split; [first [exact F2|lra]|]).
    change (getd (gparam (N := N32)) "a1" dA1) with (blit 24 128 (39 # 100)). change (getd (gparam (N := N32)) "a2" dA2) with (blit 24 128 (48 # 10)).
    assert (S : 3 <= sqrt (3 * 2 * 2) <= 4).
    { split; [rewrite <- (sqrt_square 3) at 1 by lra|rewrite <- (sqrt_square 4) by lra]; apply sqrt_le_1; lra. }
    assert (A1 : 1 / 4 <= B2R (blit 24 128 (39 # 100)) <= 1 / 2) by exact t_a1.
    assert (A2 : 4 <= B2R (blit 24 128 (48 # 10)) <= 5) by exact t_a2.
    cbn [trlo trhi tSizes]. simpl (bpow radix2 _). nra.
  - apply ex_fit. now left.
  - exact ex_c6_fit.
  - lra.
  - change (c6_errors 1 5 12 2 (weight_errors 1 5 30 1 0)) with 41377%nat. lra.
  - intros b i j Hb Hi Hj. destruct b; [|destruct Hb]. split; [apply t_atom|apply t_condition]; auto; now left.
  - exists t. split; [exact Et|]. split; [exact St|]. intros i Hi e. destruct (Ht [] i Logic.I Hi) as (Ff & Le & Er). split; [exact Ff|].
    rewrite V40 in Le, Er.
    change (getd (gparam (N := N32)) "s9" dS9) with (blit 24 128 (inject_Z 1)) in *. change (getd (gparam (N := N32)) "alp" dALP) with (blit 24 128 (inject_Z 16)) in *.
    rewrite V1, V16 in Le, Er. change (getd (gparam (N := N32)) "a1" dA1) with (blit 24 128 (39 # 100)) in *. change (getd (gparam (N := N32)) "a2" dA2) with (blit 24 128 (48 # 10)) in *.
    split; [exact Le|].
    apply Rle_trans with (1 := Er). apply Rmult_le_compat_r; [apply Rle_trans with (2 := Le), Rabs_pos|].
    change (c6_errors 1 5 12 2 (weight_errors 1 5 30 1 0)) with 41377%nat. change (atm_errors 7 1 1 6 (Z.to_nat (Z.max (tplo tSizes) (tphi tSizes))) 4) with 592%nat.
    unfold atm_change. pose proof (wk_ge1 (prec := 24) 41377) as W1. change (1 <= growth (prec := 24) 41377) in W1.
    set (d := (growth (prec := 24) 41377 - 1) * 4). assert (Hd : 0 <= d <= 2 / 100) by (unfold d; lra).
    assert (E74 : (growth (prec := 24) (1 + 3) * growth (prec := 24) (1 + 3) * growth (prec := 24) (1 + 3)) ^ 6 = growth (prec := 24) 72).
    { unfold growth. rewrite <- !pow_add, <- pow_mult. reflexivity. }
    rewrite E74. rewrite growth_merge. change (592 + ((1 + 1) + 72))%nat with 666%nat.
    pose proof (growth_linear (prec := 24) 666 ltac:(change (2 ^ 24)%Z with 16777216%Z; lia)) as G9. assert (I : INR 666 = 666) by (rewrite INR_IZR_INZ; reflexivity).
    rewrite I in G9. change (bpow radix2 (- (24))) with (/ 16777216) in G9.
    assert (Q : (1 + 2 * d) ^ 2 <= 1082 / 1000) by nra. assert (0 <= (1 + 2 * d) ^ 2) by apply pow2_ge_0.
    assert (growth (prec := 24) 666 * (1 + 2 * d) ^ 2 <= (1 + 1 / 1000) * (1082 / 1000)); [|lra].
    apply Rmult_le_compat; try lra. left. apply growth_pos.
Qed.
(** The energies of the three atoms are within nine per cent of the sum of the sizes of the triples (every rounding
    counted as the worst case). The charges, all NaN, are not used by the term. *)
Example C80_example : exists m t, built Xd D4M no_kw H3 4 [] m /\
  term_calculate Xd (mkTerm D4ATMApprox (ZeroDamping Xd) false) H3 tPos (gparam (N := N32)) tCn m (Some tQ) tR (x_vdw Xd) (default_cutoff (K := sc N32)) = Ok t /\
  forall i, (i < 4)%nat ->
    let e f := atm_sum (L := Lcr) (L64 := Lcr) f H3 tPos [] (exact_c9 (L := Lcr) (L64 := Lcr) Xd D4M no_kw H3 (Some tCn) None [])
      (exact_radius (L := Lcr) (L64 := Lcr) tR (blit 24 128 (39 # 100)) (blit 24 128 (48 # 10)) []) 1 16 40 4 3 i in
    is_finite (sl1 t [] i : f32) = true /\ Rabs (B2R (sl1 t [] i : f32) - e triple_energy) <= 9 / 100 * e triple_size.
Proof.
  destruct t_built as (m & Hm). destruct (t_atm m (Some tQ) (x_vdw Xd) Hm eq_refl) as (t & Et & _ & Ht).
  exists m, t. split; [exact Hm|]. split; [exact Et|]. intros i Hi e. destruct (Ht i Hi) as (F & _ & E). split; [exact F|exact E].
Qed.
