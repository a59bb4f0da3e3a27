(** * Two machines: C73

    A machine is given by the record [Libm]: its mathematical library and the order in which it adds
    numbers.  Two machines return different bits (an example below), but both results are close to the
    exact one, hence to each other. *)
From Coq Require Import Reals List Arith ZArith QArith Bool String Lia Lra.
From Flocq Require Import Core.Core IEEE754.BinarySingleNaN.
From Verif Require Import Py Tensor Scalar RInst ModelExt ModelUtils ModelDamping ModelModels
  ModelTerms TensorLemmas Spec Closed ClosedM ClosedTerms ClosedDamp IeeeInst IeeeP IeeeB IeeeA IeeeLib SpecR EnergyR PropsAcc
  InstIeee InstW InstAny InstAcc.
Import ListNotations.
Open Scope R_scope.

Section T.
Context {prec emax : Z} {Hp : Prec_gt_0 prec} {He : Prec_lt_emax prec emax}.
Notation F := (binary_float prec emax).

(** The two-body energies on two machines [L] and [L'] (with their functions for distances [X] and
    [X']): both are numbers, and they differ by at most twice the relative error bound of C67. *)
Theorem C73_two_machines (L L' : Libm prec emax) (L64 L64' : Libm 53 1024)
  (X : Ext (sc (IN prec emax L L64))) (X' : Ext (sc (IN prec emax L' L64'))) (s : acc_sizes) (kd kp : nat)
  (numbers : tensor Z) (positions c6 r4r2 : tensor F) (rvdw cutoff : option (tensor F))
  (param : Param (sc (IN prec emax L L64))) (param' : Param (sc (IN prec emax L' L64'))) (n c : nat) (B : list nat) (a1 a2 : F) :
  let cut := B2R (cutoff_float (L := L) (L64 := L64) cutoff) in
  acc_fits (prec := prec) (emax := emax) s -> pow_accurate (L := L) kp -> pow_accurate (L := L') kp ->
  shp numbers = (n :: B)%list -> shp positions = (c :: n :: B)%list -> shp c6 = (n :: n :: B)%list -> shp r4r2 = (n :: B)%list ->
  scalar_opt cutoff -> good_param param -> good_param param' ->
  (forall k, getp param k = getp param' k :> option F) ->
  getp param "a1" = Some (a1 : F) -> getp param "a2" = Some (a2 : F) ->
  is_finite (cutoff_float (L := L) (L64 := L64) cutoff) = true ->
  acc_geometry (L := L) (L64 := L64) X s kd cut numbers positions n c B ->
  acc_geometry (L := L') (L64 := L64') X' s kd cut numbers positions n c B ->
  acc_c6 (L := L) (L64 := L64) s c6 n B -> acc_r4r2 (L := L) (L64 := L64) r4r2 n B -> acc_param (L := L) (L64 := L64) s param ->
  (2 * Z.of_nat (atom_errors kd kp n) <= 2 ^ prec)%Z ->
  exists t t' : tensor F,
    dispersion2 (K := sc (IN prec emax L L64)) X numbers positions param c6 r4r2 rvdw RationalDamping cutoff false = Ok t /\
    dispersion2 (K := sc (IN prec emax L' L64')) X' numbers positions param' c6 r4r2 rvdw RationalDamping cutoff false = Ok t' /\
    shp t = (n :: B)%list /\ shp t' = (n :: B)%list /\
    forall b i, valid B b -> (i < n)%nat ->
      let x : F := dat t (i :: b) in let x' : F := dat t' (i :: b) in
      is_finite x = true /\ is_finite x' = true /\
      Rabs (B2R x - B2R x') <= 2 * (growth (prec := prec) (atom_errors kd kp n) - 1) *
        Rabs (exact_energy (L := L) (L64 := L64) numbers positions c6 r4r2 param a1 a2 cut n c b i).
Proof.
  intros cut Hf PA PA' Hn Hx Hc Hr Hcut G G' EP E1 E2 Fc HG HG' H6 H4 HP HK.
  destruct (C67_energy_accuracy (L := L) (L64 := L64) X s kd kp Hf PA numbers positions param c6 r4r2 rvdw cutoff n c B a1 a2
    Hn Hx Hc Hr Hcut G E1 E2 Fc HG H6 H4 HP HK) as (t & E & S & H).
  assert (HP' : acc_param (L := L') (L64 := L64') s param') by (intros k x Hk Hx'; exact (HP k x Hk (eq_trans (EP k) Hx'))).
  destruct (C67_energy_accuracy (L := L') (L64 := L64') X' s kd kp Hf PA' numbers positions param' c6 r4r2 rvdw cutoff n c B a1 a2
    Hn Hx Hc Hr Hcut G' (eq_trans (eq_sym (EP _)) E1) (eq_trans (eq_sym (EP _)) E2) Fc HG' H6 H4 HP' HK) as (t' & E' & S' & H').
  exists t, t'. split; [exact E|]. split; [exact E'|]. split; [exact S|]. split; [exact S'|].
  intros b i Hb Hi x x'. destruct (H b i Hb Hi) as (A & D). destruct (H' b i Hb Hi) as (A' & D').
  change (sl1 t b i : F) with x in A, D. change (sl1 t' b i : F) with x' in A', D'.
  split; [exact A|]. split; [exact A'|].
  assert (EE : exact_energy (L := L') (L64 := L64') numbers positions c6 r4r2 param' a1 a2 (B2R (cutoff_float (L := L') (L64 := L64') cutoff)) n c b i
    = exact_energy (L := L) (L64 := L64) numbers positions c6 r4r2 param a1 a2 cut n c b i).
  { unfold exact_energy, scale8, scale. now rewrite <- !EP. }
  rewrite EE in D'.
  change (B2R (cutoff_float (L := L) (L64 := L64) cutoff)) with cut in D.
  set (e := exact_energy (L := L) (L64 := L64) numbers positions c6 r4r2 param a1 a2 cut n c b i) in *.
  replace (B2R x - B2R x') with ((B2R x - e) - (B2R x' - e)) by ring.
  apply Rle_trans with (Rabs (B2R x - e) + Rabs (B2R x' - e)); [|lra].
  pose proof (Rabs_triang (B2R x - e) (- (B2R x' - e))) as Q. rewrite Rabs_Ropp in Q. exact Q.
Qed.
End T.
Print Assumptions C73_two_machines.

(** ** Examples *)
Local Existing Instance Hp64.
Local Existing Instance He64.
Local Existing Instance Hp32.
Local Existing Instance He32.

(** from the last to the first *)
Fixpoint down_from (k n : nat) : stree :=
  match n with
  | O => PZero
  | S m => PAdd (PTerm k) (down_from (S k) m)
  end.
Lemma leaves_down n : forall k, leaves (down_from k n) = seq k n.
Proof. induction n as [|n IH]; intros k; [reflexivity|]. simpl. now rewrite IH. Qed.
Definition from_last (n : nat) : plan n :=
  exist _ (down_from 0 n) (eq_ind_r (fun l => Permutation.Permutation l (seq 0 n)) (Permutation.Permutation_refl (seq 0 n)) (leaves_down n 0)).

(** water and padded carbon monoxide in single precision, on two machines that add in opposite orders *)
Definition Lrev : Libm 24 128 := mkLibm exp_cr pow_cr pown_cr from_last.
Definition Nrev : Num := IN 24 128 Lrev Lcr.
Lemma gparam_same k : getp (gparam (N := N32)) k = getp (gparam (N := Nrev)) k :> option f32.
Proof.
  unfold getp, gparam, lit_p. cbn [dget].
  repeat match goal with |- context [String.eqb ?a k] => destruct (String.eqb a k); [reflexivity|] end. reflexivity.
Qed.
Example C73_example : exists t t' : tensor f32,
  dispersion2 (K := sc N32) Xd two_mols dline (gparam (N := N32)) dC6 dQ None RationalDamping None false = Ok t /\
  dispersion2 (K := sc Nrev) (XdL Lrev) two_mols dline (gparam (N := Nrev)) dC6 dQ None RationalDamping None false = Ok t' /\
  forall b i, valid [2%nat] b -> (i < 3)%nat ->
    let e := exact_energy (L := Lcr) (L64 := Lcr) two_mols dline dC6 dQ (gparam (N := N32)) (blit 24 128 (39 # 100)) (blit 24 128 (48 # 10)) 60 3 3 b i in
    Rabs (B2R (dat t (i :: b) : f32) - B2R (dat t' (i :: b) : f32)) <= 178 * bpow radix2 (-23) * Rabs e.
Proof.
  destruct (C73_two_machines (prec := 24) (emax := 128) Lcr Lrev Lcr Lcr Xd (XdL Lrev) acc32 7 1
    two_mols dline dC6 dQ None None (gparam (N := N32)) (gparam (N := Nrev)) 3 3 [2%nat] (blit 24 128 (39 # 100)) (blit 24 128 (48 # 10))
    C67_single_precision_sizes (Lcr_pow_accurate (prec := 24) (emax := 128) ltac:(lia)) (Lcr_pow_accurate (prec := 24) (emax := 128) ltac:(lia))
    eq_refl eq_refl eq_refl eq_refl Logic.I (gparam_good (N := N32)) (gparam_good (N := Nrev)) gparam_same eq_refl eq_refl) as (t & t' & E & E' & _ & _ & H).
  - apply (lit32 60); lia.
  - exact (eq_ind_r (fun q => acc_geometry (L := Lcr) (L64 := Lcr) Xd acc32 7 q two_mols dline 3 3 [2%nat]) (ex_geometry Lcr) e60).
  - exact (eq_ind_r (fun q => acc_geometry (L := Lrev) (L64 := Lcr) (XdL Lrev) acc32 7 q two_mols dline 3 3 [2%nat]) (ex_geometry Lrev) e60).
  - exact ex_c6.
  - exact ex_r4r2.
  - exact ex_param.
  - change (2 ^ 24)%Z with 16777216%Z. cbn. lia.
  - exists t, t'. split; [exact E|]. split; [exact E'|]. intros b i Hb Hi e.
    destruct (H b i Hb Hi) as (_ & _ & C). change (atom_errors 7 1 3) with 89%nat in C.
    assert (EE : exact_energy (L := Lcr) (L64 := Lcr) two_mols dline dC6 dQ (gparam (N := N32)) (blit 24 128 (39 # 100)) (blit 24 128 (48 # 10))
      (B2R (cutoff_float (L := Lcr) (L64 := Lcr) None)) 3 3 b i = e) by (rewrite e60; reflexivity).
    apply Rle_trans with (1 := C).
    refine (eq_ind_r (fun z => _ * Rabs z <= _) _ EE). apply Rmult_le_compat_r; [apply Rabs_pos|].
    pose proof (C67_linear (prec := 24) 89 ltac:(change (2 ^ 24)%Z with 16777216%Z; lia)) as Q.
    change (1 - 24)%Z with (-23)%Z in Q. replace (INR 89) with 89 in Q by (simpl; lra). lra.
Qed.
Print Assumptions C73_example.

(** The order matters: the same call, the same library (powers by repeated multiplication); only the order of the sums differs, and so does the last bit of an energy. *)
Fixpoint pow_mul (x : f32) (n : nat) : f32 := match n with O => Bone | S m => Bmult mode_NE (pow_mul x m) x end.
Definition Lup : Libm 24 128 := mkLibm exp_cr pow_cr pow_mul in_order.
Definition Ldn : Libm 24 128 := mkLibm exp_cr pow_cr pow_mul from_last.
Definition five : tensor Z := mkT [5%nat] (fun _ => 6%Z).
Definition fline : tensor f32 :=
  mkT [3; 5]%nat (fun ix => match ix with
    | [k; i] => if Nat.eqb k 0 then blit 24 128 (inject_Z (Z.of_nat (i * i + 3 * i))) else blit 24 128 0
    | _ => blit 24 128 0 end).
Definition fC6 : tensor f32 := mkT [5; 5]%nat (fun _ => blit 24 128 10).
Definition fQ : tensor f32 := mkT [5]%nat (fun _ => blit 24 128 2).
Definition energy_of (L : Libm 24 128) (i : nat) : res SpecFloat.spec_float :=
  match dispersion2 (K := sc (IN 24 128 L Lcr)) (XdL L) five fline (gparam (N := IN 24 128 L Lcr)) fC6 fQ None RationalDamping None false with
  | Ok t => Ok (B2SF (dat t [i] : f32))
  | Raise e => Raise e
  end.
Theorem C73_same_bits_refuted :
  energy_of Lup 4 = Ok (SpecFloat.S754_finite true 12087490 (-41)) /\
  energy_of Ldn 4 = Ok (SpecFloat.S754_finite true 12087492 (-41)).
Proof. split; vm_compute; reflexivity. Qed.
Print Assumptions C73_same_bits_refuted.
