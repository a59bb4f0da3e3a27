(** * C82: rounding errors of the polarizabilities and of the results of [get_properties] *)
From Coq Require Import Reals Lra Lia ZArith QArith Qreals List Arith Bool String.
From Flocq Require Import Core.Core IEEE754.BinarySingleNaN.
From Verif Require Import Py Tensor Scalar RInst ModelExt ModelUtils ModelModels ModelDisp Spec SpecCall PropsTables TensorLemmas Closed ClosedM ClosedModels CallLemmas
  IeeeInst IeeeP IeeeB IeeeA IeeeM IeeeE PropsAcc PropsAcc3 SpecW SpecIeee IeeeW PropsIeee PropsAccW PropsAccZ PropsAccT PropsAccC PropsAccC6.
Import ListNotations.
Open Scope R_scope.

Section T.
Context {prec emax : Z} {Hp : Prec_gt_0 prec} {He : Prec_lt_emax prec emax}.
Context {L : Libm prec emax} {L64 : Libm 53 1024}.
Notation N := (IN prec emax L L64).
Notation F := (binary_float prec emax).
Notation T := (tensor (sc N)).
Notation p2 := (bpow radix2).
Notation mapr := (mapr (prec := prec) (emax := emax)).
Context (X : Ext (sc N)).

(** the number of rounding errors of a polarizability: those of a reference polarizability, of a weight, and
    17 products, sums and literals *)
Definition pol_errors (ke S1 S2 J kwt : nat) : nat := (secondary_errors ke S1 S2 J + kwt + 17)%nat.
(** the size of a polarizability with given weights: secondary systems added instead of subtracted *)
Definition pol_atom_size (kw : mkwargs N) (z : nat) (wt : nat -> R) : R := rsum 7 (fun r => wt r * pol_size X kw z r 0).

(** a polarizability and a C6 coefficient within their errors *)
Definition polarizability_close (kw : mkwargs N) (z : nat) (wt : nat -> R) (k : nat) (lw : Z) (x : F) : Prop :=
  is_finite x = true /\
  Rabs (B2R x - pol_atom (real_ext X) (real_kw kw) z wt 0) <= (growth (prec := prec) k - 1) * pol_atom_size kw z (fun r => wt r + p2 lw).

Theorem C82_polarizabilities kw numbers n B (m : Model N) (cn q : option T) gw ke ke64 kr kp :
  (24 <= prec <= 53)%Z -> (128 <= emax <= 1024)%Z ->
  libm_nonneg L64 -> exp_accurate L ke -> exp_accurate L64 ke64 -> rpow_accurate (L := L64) kr -> pow_accurate (L := L64) kp ->
  built X D4M kw numbers n B m -> opt_shape cn (n :: B) -> opt_shape q (n :: B) -> weight_references X m cn q = Ok gw ->
  exists al, model_polarizabilities X m gw = Ok al /\ shp al = n :: B /\
    forall b i, valid B b -> (i < n)%nat ->
    forall A D E Er A1 A2 k64 S1 S2 J zc lw,
      atom_domain X D4M kw numbers cn q b i i A D E Er A1 A2 S1 S2 J ->
      weights_fit (prec := prec) (emax := emax) D4M ke ke64 kr kp A D E Er A1 A2 k64 -> c6_fit kw ke S1 S2 J A2 (weight_errors ke A1 A2 k64 Er) zc lw ->
      polarizability_close kw (Z.to_nat (sl1 numbers b i)) (exact_weight X D4M kw numbers cn q b i i)
        (pol_errors ke S1 S2 J (weight_errors ke A1 A2 k64 Er)) lw (sl1 al b i).
Proof.
  intros Hpp Hee HL EA EA64 RA PA HB Hcn Hq Egw.
  destruct (C77_weights_accuracy X D4M kw numbers n B m cn q ke ke64 kr kp Hpp Hee HL EA EA64 RA PA HB Hcn Hq) as (gw' & Ew & Sw & HW).
  rewrite Egw in Ew. injection Ew as <-.
  pose proof (built_model X _ _ _ _ _ _ HB) as Hm. pose proof Hm as (Hok & Ekind & Enum & Ega & Egc & Eref & Ewf).
  pose proof Hok as (HX & Hkn & Hsn & Hr & _). rewrite Enum in Hsn, Hr.
  destruct (get_polarizabilities_ev X numbers n B (m_ga m) (m_gc m) (m_ref m) gw _ HX Hkn Hsn Hr (ten_eq gw _ Sw)) as (al & Ea & Sa & Va).
  exists al. split; [unfold model_polarizabilities; rewrite Enum; exact Ea|]. split; [exact Sa|].
  intros b i Hb Hi A D E Er A1 A2 k64 S1 S2 J zc lw Di WF CF.
  pose proof CF as [(G0 & G1) (Z0 & Z1) (C1 & C2) (W1 & W2) Fe]. set (kwt := weight_errors ke A1 A2 k64 Er) in *.
  assert (Rz : (Z.to_nat (sl1 numbers b i) <= 103)%nat) by (pose proof (built_range X _ _ _ _ _ _ b i HB Hb Hi); lia).
  assert (SO : forall r, (r < 7)%nat -> sec_ok X kw S1 S2 J (Z.to_nat (sl1 numbers b i)) r).
  { intros r Hr'. destruct (Z_lt_le_dec 0 (n_gauss (Z.to_nat (sl1 numbers b i)) r)) as [Ex|Nx]; [apply (Di r Hr' Ex)|].
    intros Ps. exfalso. destruct (C38_secondary_systems _ r Rz Hr') as (_ & Q). destruct Q as (Q & _); [unfold exists_ref; lia|lia]. }
  assert (M : forall r, (r < 7)%nat -> mapr kwt lw (zc + 1) (exact_weight X D4M kw numbers cn q b i i r + p2 lw) (sl2 gw b i r : F) (exact_weight X D4M kw numbers cn q b i i r)).
  { intros r Hr'. destruct (HW b i i r Hb Hi Hi Hr') as (H1 & H2).
    apply (weight_mapr X D4M kw numbers cn q b i i r A D E Er A1 A2 S1 S2 J k64 ke ke64 kr kp _ zc lw); auto.
    intros Ex. destruct (Di r Hr' Ex) as (D1 & D2 & _). exact (H2 Ex A D E Er A1 A2 k64 D1 D2 WF). }
  assert (C : mapr (pol_errors ke S1 S2 J kwt) (-12 + lw) (18 + 2 * zc) (pol_atom_size kw (Z.to_nat (sl1 numbers b i)) (fun r => exact_weight X D4M kw numbers cn q b i i r + p2 lw))
    (sl1 al b i : F) (pol_atom (real_ext X) (real_kw kw) (Z.to_nat (sl1 numbers b i)) (exact_weight X D4M kw numbers cn q b i i) 0)).
  { unfold sl1 at 2. rewrite Va by (repeat split; auto). unfold ix1. cbn [hd tl]. rewrite Ega, Egc, Eref. unfold pol_errors, pol_atom, pol_atom_size.
    apply (mapr_sum (L := L) 7 _ _ _ (secondary_errors ke S1 S2 J + kwt + 10) (-12 + lw) (15 + 2 * zc) 3); try lia; [|unfold few; unfold c6_errors in Fe; lia].
    intros r Hr'. apply (mapr_mul kwt (secondary_errors ke S1 S2 J + 9) lw (-12) (zc + 1) (14 + zc)); try lia; [exact (M r Hr')| |unfold few; unfold c6_errors in Fe; lia].
    apply (pol_acc Hpp Hee X kw ke S1 S2 J zc EA); auto; try lia. unfold few. unfold c6_errors in Fe. lia. }
  destruct C as [C0 _ _ C3]. split; [exact C0|exact C3].
Qed.

(** The four results of [get_properties], given the coordination numbers and charges: these are returned as
    they are, the C6 coefficients and the polarizabilities are those of C78 and of the theorem above. *)
Theorem C82_get_properties (W : World N) numbers positions charge cutoff n B (cn q : T) ke ke64 kr kp :
  (24 <= prec <= 53)%Z -> (128 <= emax <= 1024)%Z ->
  libm_nonneg L64 -> exp_accurate L ke -> exp_accurate L64 ke64 -> rpow_accurate (L := L64) kr -> pow_accurate (L := L64) kp ->
  ext_tables X -> shp numbers = n :: B -> (forall ix, valid (n :: B) ix -> (0 <= dat numbers ix <= 103)%Z) ->
  w_cn_d4 W None numbers positions = Ok cn -> shp cn = n :: B ->
  w_eeq W numbers positions (default charge (scal f0)) (c_cn_eeq (default cutoff default_cutoff)) = Ok q -> shp q = n :: B ->
  exists c6 al, get_properties X W numbers positions charge cutoff = Ok (cn, q, c6, al) /\ shp c6 = n :: n :: B /\ shp al = n :: B /\
    forall b i, valid B b -> (i < n)%nat ->
    forall A D E Er A1 A2 k64 S1 S2 J zc lw,
      weights_fit (prec := prec) (emax := emax) D4M ke ke64 kr kp A D E Er A1 A2 k64 -> c6_fit (no_kw : mkwargs N) ke S1 S2 J A2 (weight_errors ke A1 A2 k64 Er) zc lw ->
      let domain i j := atom_domain X D4M no_kw numbers (Some cn) (Some q) b i j A D E Er A1 A2 S1 S2 J in
      let wt i := exact_weight X D4M no_kw numbers (Some cn) (Some q) b i i in
      let z i := Z.to_nat (sl1 numbers b i) in
      (domain i i -> polarizability_close no_kw (z i) (wt i) (pol_errors ke S1 S2 J (weight_errors ke A1 A2 k64 Er)) lw (sl1 al b i)) /\
      (forall j, (j < n)%nat -> domain i i -> domain j j ->
        is_finite (sl2 c6 b i j : F) = true /\
        Rabs (B2R (sl2 c6 b i j : F) - c6_pair (real_ext X) (real_kw (no_kw : mkwargs N)) (z i) (z j) (wt i) (wt j)) <=
          (growth (prec := prec) (c6_errors ke S1 S2 J (weight_errors ke A1 A2 k64 Er)) - 1) *
          c6_size X no_kw (z i) (z j) (fun r => wt i r + p2 lw) (fun r => wt j r + p2 lw)).
Proof.
  intros Hpp Hee HL EA EA64 RA PA HX Hn Hz Ecn Scn Eq Sq.
  assert (Hkw : kw_ok (N := N) D4M no_kw n B) by (split; [reflexivity|exact Logic.I]).
  assert (Hel : elements_ok "eeq" numbers) by (left; split; [reflexivity|now rewrite Hn]).
  destruct (new_model_ok X D4M (class_name D4M) numbers no_kw n B HX (or_introl eq_refl) Hn Hkw Hel) as (m & Em & _).
  assert (HB : built X D4M no_kw numbers n B m).
  { split; [exact HX|]. split; [now left|]. split; [exact Hn|]. split; [exact Hkw|]. split; [exact Hel|]. now exists (class_name D4M). }
  destruct (C78_c6_accuracy X D4M no_kw numbers n B m (Some cn) (Some q) ke ke64 kr kp Hpp Hee HL EA EA64 RA PA HB Scn Sq) as (gw & c6 & Ew & E6 & S6 & H6).
  destruct (C82_polarizabilities no_kw numbers n B m (Some cn) (Some q) gw ke ke64 kr kp Hpp Hee HL EA EA64 RA PA HB Scn Sq Ew) as (al & Ea & Sa & Ha).
  exists c6, al. split.
  { unfold get_properties. cbv zeta. rewrite Ecn. cbn [bind]. rewrite Eq. cbn [bind]. rewrite Em. cbn [bind]. rewrite Ew. cbn [bind]. rewrite E6. cbn [bind]. rewrite Ea. reflexivity. }
  split; [exact S6|]. split; [exact Sa|]. intros b i Hb Hi A D E Er A1 A2 k64 S1 S2 J zc lw WF CF domain wt z. split.
  - intros Di. apply (Ha b i Hb Hi A D E Er A1 A2 k64 S1 S2 J zc lw Di WF CF).
  - intros j Hj Di Dj. exact (H6 b i j Hb Hi Hj A D E Er A1 A2 k64 S1 S2 J zc lw Di Dj WF CF).
Qed.
End T.
Print Assumptions C82_polarizabilities.
Print Assumptions C82_get_properties.
