(** * C77: rounding errors of the reference weights returned by [weight_references] *)
From Coq Require Import Reals Lra Lia ZArith QArith Qreals List Arith Bool String.
From Flocq Require Import Core.Core IEEE754.BinarySingleNaN.
From Verif Require Import Py Tensor Scalar RInst ModelExt ModelUtils ModelModels SpecCall PropsTables TensorLemmas DataRef
  IeeeInst IeeeP IeeeB IeeeA IeeeM IeeeE PropsAcc PropsAcc3 SpecW SpecIeee IeeeW PropsIeee PropsAccW PropsAccZ.
Import ListNotations.
Open Scope R_scope.

Local Existing Instance Hp64.
Local Existing Instance He64.

Section T.
Context {prec emax : Z} {Hp : Prec_gt_0 prec} {He : Prec_lt_emax prec emax}.
Context {L : Libm prec emax} {L64 : Libm 53 1024}.
Notation N := (IN prec emax L L64).
Notation F := (binary_float prec emax).
Notation T := (tensor (sc N)).
Notation p2 := (bpow radix2).
Context (X : Ext (sc N)).

(** the number of rounding errors of a weight: charge scaling, [k64] units for the double precision part,
    the rounded multiples of the weighting factor, the conversion and the product *)
Definition weight_errors (ke A1 A2 k64 Er : nat) : nat := (charge_errors ke A1 A2 + k64 + 4 * Er + 2)%nat.

(** the counts fit into the two formats; [k64]: working precision units that cover the errors of the double
    precision part (1 if the working precision is single) *)
Record weights_fit (kind : mkind) (ke ke64 kr kp A D E Er A1 A2 k64 : nat) : Prop := {
  wf_sizes : (A <= 256 /\ 3 * D <= 2000 /\ 3 * E <= 2000)%nat;
  wf_double : (2 * Z.of_nat (2 * gauss_errors kind ke64 kr kp A D + 64) <= 2 ^ 53)%Z;
  wf_k64 : growth (prec := 53) (quotient_errors kind ke64 kr kp A D) <= growth (prec := prec) k64;
  wf_working : (2 * Z.of_nat (weight_errors ke A1 A2 k64 Er + 44 * A1 + ke) <= 2 ^ prec)%Z;
  wf_range : (2 * Z.of_nat A1 + 10 < emax /\ 2 * Z.of_nat A2 + 3 < emax)%Z }.

Definition the_ga (kw : mkwargs N) : F := default (k_ga kw) (blit prec emax 3).
Definition the_gc (kw : mkwargs N) : F := default (k_gc kw) (blit prec emax 2).
Definition the_ref (kw : mkwargs N) : string := default (k_ref kw) "eeq"%string.
(** the exact charge scaling of reference [r] of element [z] at charge [q] *)
Definition zeta_exact (kw : mkwargs N) (z r : nat) (q : F) : R :=
  zeta_fun (p2 (1 - prec)) (B2R (the_ga kw)) (B2R (dat (x_gam X) [z] : F) * B2R (the_gc kw))
    (q_ref (the_ref kw) z r + B2R (dat (x_zeff X) [z] : F)) (B2R q + B2R (dat (x_zeff X) [z] : F)).

(** the tables of reference charges *)
Lemma tab_frac (t : list (list Z)) (dec : BinNums.positive) : (Zpos dec <= 2 ^ 60)%Z ->
  forallb (fun row => forallb (fun v => (Z.abs v <=? 32 * Zpos dec)%Z) row) t = true -> forall z r,
  mapr (prec := prec) (emax := emax) 1 (-60) 5 (Rabs (Q2R (nth r (nth z t []) 0%Z # dec))) (blit prec emax (nth r (nth z t []) 0%Z # dec)) (Q2R (nth r (nth z t []) 0%Z # dec)) \/ (emax < 70)%Z.
Proof.
  intros Hd Ht z r. destruct (Z_lt_le_dec emax 70) as [|Em]; [now right|left]. set (v := nth r (nth z t []) 0%Z).
  assert (Hv : (Z.abs v <= 32 * Zpos dec)%Z).
  { rewrite forallb_forall in Ht. unfold v. destruct (nth_in_or_default z t []) as [I| ->].
    - specialize (Ht _ I). rewrite forallb_forall in Ht. destruct (nth_in_or_default r (nth z t []) 0%Z) as [I2| ->]; [apply Z.leb_le, Ht, I2|simpl; lia].
    - destruct r; simpl; lia. }
  apply mapr_lit; try lia. unfold Q2R. cbn [Qnum Qden].
  assert (P : 0 < IZR (Zpos dec)) by now apply IZR_lt. pose proof (Rinv_0_lt_compat _ P) as I.
  destruct (Z.eq_dec v 0) as [->|Nz]; [left; lra|right]. rewrite Rabs_mult, (Rabs_pos_eq (/ _)) by lra. rewrite <- abs_IZR.
  assert (V1 : 1 <= IZR (Z.abs v)) by (apply IZR_le; lia). apply IZR_le in Hv. rewrite mult_IZR in Hv. split.
  - apply Rle_trans with (1 * / IZR (Zpos dec)); [|apply Rmult_le_compat_r; lra]. rewrite Rmult_1_l.
    change (-60)%Z with (- (60))%Z. rewrite bpow_opp. apply Rinv_le; [exact P|]. change (p2 60) with (IZR (2 ^ 60)). now apply IZR_le.
  - change (p2 5) with 32. apply Rmult_le_reg_r with (IZR (Zpos dec)); [exact P|]. rewrite Rmult_assoc, Rinv_l; lra.
Qed.
Lemma eeq_tab : forallb (fun row => forallb (fun v => (Z.abs v <=? 32 * Zpos clsq_tab_dec)%Z) row) clsq_tab = true.
Proof. vm_compute. reflexivity. Qed.
Lemma gfn2_tab : forallb (fun row => forallb (fun v => (Z.abs v <=? 32 * Zpos gfn2_refq_tab_dec)%Z) row) gfn2_refq_tab = true.
Proof. vm_compute. reflexivity. Qed.
Lemma q_tab_acc ref z r : (128 <= emax)%Z ->
  mapr (prec := prec) (emax := emax) 1 (-60) 5 (Rabs (q_ref ref z r)) (q_tab (L := L) (L64 := L64) ref z r) (q_ref ref z r).
Proof.
  intros Em. unfold q_tab, q_ref. destruct (ref =? "eeq")%string.
  - destruct (tab_frac clsq_tab clsq_tab_dec ltac:(vm_compute; discriminate) eeq_tab z r) as [H|H]; [exact H|lia].
  - destruct (tab_frac gfn2_refq_tab gfn2_refq_tab_dec ltac:(vm_compute; discriminate) gfn2_tab z r) as [H|H]; [exact H|lia].
Qed.

(** The weights returned by [weight_references], for any molecules of any size, with or without batch
    dimensions, for D4 and D4S: an absent reference has weight zero; the weight of a reference is a number and
    differs from charge scaling times normalised Gaussian weight, both exact functions of the stored
    coordination number and charge, by at most the growth of [weight_errors ...] rounding errors. The
    second summand accounts for Gaussian weights that underflow. *)
Theorem C77_weights_accuracy kind kw numbers n B (m : Model N) (cn q : option T) ke ke64 kr kp :
  (24 <= prec <= 53)%Z -> (128 <= emax <= 1024)%Z ->
  libm_nonneg L64 -> exp_accurate L ke -> exp_accurate L64 ke64 -> rpow_accurate (L := L64) kr -> pow_accurate (L := L64) kp ->
  built X kind kw numbers n B m -> opt_shape cn (n :: B) -> opt_shape q (n :: B) ->
  exists gw, weight_references X m cn q = Ok gw /\ shp gw = entry_shape kind n B /\
    forall b i j r, valid B b -> (i < n)%nat -> (j < n)%nat -> (r < 7)%nat ->
      let z := Z.to_nat (sl1 numbers b i) in
      let zeff : F := dat (x_zeff X) [z] in let gam : F := dat (x_gam X) [z] in
      let wf := wf_at kind kw numbers b i j in let c := arg_at cn b i in let qi := arg_at q b i in
      (~ exists_ref z r -> entry kind gw b i j r = B754_zero false) /\
      (exists_ref z r -> forall A D E Er A1 A2 k64,
        cn_domain kind wf c z A D E Er -> q_domain (the_ga kw) (the_gc kw) gam zeff qi (q_ref (the_ref kw) z r) A1 A2 ->
        weights_fit kind ke ke64 kr kp A D E Er A1 A2 k64 ->
        let exact := zeta_exact kw z r qi in let weight := gauss_weight (B2R wf) (B2R c) z r in
        is_finite (entry kind gw b i j r) = true /\ 0 < exact /\ 0 < weight <= 1 /\
        Rabs (B2R (entry kind gw b i j r) - exact * weight) <=
          (growth (prec := prec) (weight_errors ke A1 A2 k64 Er) - 1) * (exact * (weight + p2 (3 - emax + 2 * Z.of_nat A2)))).
Proof.
  intros Hpp Hee HL EA EA64 RA PA HB Hcn Hq.
  destruct (C27_weights_ieee X kind kw numbers n B m cn q HL HB Hcn Hq) as (gw & Ok' & Sh & H).
  exists gw. split; [exact Ok'|]. split; [exact Sh|]. intros b i j r Hb Hi Hj Hr z zeff gam wf c qi.
  destruct (H b i j r Hb Hi Hj Hr) as (g & WS & E0). cbv zeta in E0. fold z in WS, E0. fold c wf in WS. fold qi in E0. destruct WS as [_ Wa Wq _].
  assert (Zr : (z <= 103)%nat) by (pose proof (built_range X _ _ _ _ _ _ b i HB Hb Hi); unfold z; lia).
  assert (Kd : kind = D4M \/ kind = D4SM) by apply HB.
  unfold charge_factor_w in E0. fold zeff gam (the_ga kw) (the_gc kw) (the_ref kw) in E0. split.
  - intros Nx. rewrite E0, (Wa Nx). unfold exists_ref in Nx. destruct (Z.ltb_spec 0 (n_gauss z r)); [contradiction|]. reflexivity.
  - intros Ex A D E Er A1 A2 k64 CD QD [(S1 & S2 & S3) Fd Fg Fw (R1 & R2)] exact weight.
    rewrite (proj2 (Z.ltb_lt _ _) Ex) in E0.
    set (kz := charge_errors ke A1 A2) in *. unfold weight_errors in *. fold kz in Fw |- *.
    assert (FW : few (prec := prec) (kz + k64 + 4 * Er + 2 + 44 * A1 + ke)) by exact Fw.
    assert (Az : appr (prec := prec) (emax := emax) kz (- (2 * Z.of_nat A2)) (2 * Z.of_nat A2)
       (zeta_w (L := L) (the_ga kw) (the_gc kw) gam zeff qi (q_tab (L := L) (L64 := L64) (the_ref kw) z r)) exact).
    { apply zeta_acc; auto; try lia; [apply q_tab_acc; lia|]. apply (few_le _ _ FW). fold kz. lia. }
    set (lo := (3 - emax + 2 * Z.of_nat A2)%Z).
    assert (Mg : mapr (prec := prec) (emax := emax) (k64 + 4 * Er + 1) lo 1 (weight + p2 lo) g weight).
    { destruct (quot_acc (L64 := L64) Hpp Hee kind ke64 kr kp A D E Er wf c z EA64 RA PA Zr Kd CD Fd S2 S3 S1 r Hr Ex) as (Fn & Nn & _).
      rewrite (Wq Ex Fn Nn).
      apply (weight_acc (L64 := L64) Hpp Hee kind ke64 kr kp A D E Er wf c z EA64 RA PA Zr Kd CD Fd S2 S3 S1 k64); auto; try lia.
      apply (few_le _ _ FW). lia. }
    assert (G : 0 < weight <= 1) by apply (weight_near Hpp Hee kind A D E Er wf c z Zr Kd CD S2 S3 S1 r Hr Ex).
    assert (Pz : 0 < exact) by (unfold exact, zeta_exact, zeta_fun; destruct Rlt_dec; apply exp_pos).
    assert (Mp : mapr (prec := prec) (emax := emax) (kz + k64 + 4 * Er + 2) (3 - emax) (2 * Z.of_nat A2 + 1) (exact * (weight + p2 lo)) (entry kind gw b i j r) (exact * weight)).
    { rewrite E0. apply (mapr_mul kz (k64 + 4 * Er + 1) (- (2 * Z.of_nat A2)) lo (2 * Z.of_nat A2) 1); auto; try (unfold lo; lia).
      - apply mapr_appr. exact Az.
      - apply (few_le _ _ FW). lia. }
    destruct Mp as [M1 _ _ M4]. split; [exact M1|]. split; [exact Pz|]. split; [exact G|exact M4].
Qed.
End T.
Print Assumptions C77_weights_accuracy.
