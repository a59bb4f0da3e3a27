(** * The DFT-D4 energy as one formula (specification layer, real numbers).

    Only elements, coordinates, coordination numbers, charges, the tables and the parameters
    appear here; the tensor programs do not. *)
From Coq Require Import Reals List Arith ZArith QArith Qreals Bool String.
From Verif Require Import Py Tensor Scalar RInst ModelExt ModelUtils ModelDamping ModelModels
  ModelTerms ModelDisp SpecCall SpecR DataPair DataRef PropsTables SpecW.
Import ListNotations.
Open Scope R_scope.

(** ** Radii and expectation values *)
(** sqrt(1/2 * <r4>/<r2> * sqrt z) of element [z] *)
Definition r4_over_r2 (z : nat) : R := IZR (nth z r4_over_r2_tab 0%Z) / IZR (Zpos r4_over_r2_tab_dec).
Definition r4r2_elem (z : nat) : R := sqrt (1 / 2 * (r4_over_r2 z * sqrt (INR z))).
(** Becke-Johnson radius of a pair *)
Definition bj_radius (a1 a2 : R) (Q : nat -> R) (i j : nat) : R := a1 * sqrt (3 * Q i * Q j) + a2.

(** ** Three-body energy of atom [i] *)
Definition three_body (n c : nat) (z : nat -> Z) (x : nat -> nat -> R) (c9 : nat -> nat -> nat -> R)
  (R0 : nat -> nat -> R) (s9 alp cut : R) (i : nat) : R :=
  1 / 6 * rsum n (fun j => rsum n (fun k =>
    if real_triple z i j k && rleb (euclid c (x i) (x j)) cut && rleb (euclid c (x j) (x k)) cut
    then triple_energy c (x i) (x j) (x k) (c9 i j k) (R0 i j) (R0 i k) (R0 j k) s9 alp
    else 0)).

Section D4.
Context {eps mx : R}.
Notation N := (RN eps mx).
Notation T := (tensor (sc N)).
Context (X : Ext (sc N)) (kind : mkind) (kw : mkwargs N) (a : Args N) (b : list nat).

(** ** Molecule [b] of the call [a] *)
Definition mol_z : nat -> Z := sl1 (a_numbers a) b.
Definition mol_x : nat -> nat -> R := sl2 (a_positions a) b.
Definition mol_Q (i : nat) : R :=
  match a_r4r2 a with Some t => sl1 t b i | None => r4r2_elem (Z.to_nat (mol_z i)) end.
Definition mol_vdw (i j : nat) : R :=
  match a_rvdw a with Some t => sl2 t b i j
  | None => dat (x_vdw X) [Z.to_nat (mol_z j); Z.to_nat (mol_z i)] end.

(** ** Coefficients, for given coordination numbers and charges *)
Section C.
Variables (cn q : nat -> R).
(** weight of reference [r] of atom [i] in the presence of atom [j] *)
Definition atom_weight (i j r : nat) : R :=
  weight X kw (kw_wf kind kw (a_numbers a) b i j) (Z.to_nat (mol_z i)) r (cn i) (q i).
Definition c6_coef (i j : nat) : R :=
  c6_pair X kw (Z.to_nat (mol_z i)) (Z.to_nat (mol_z j)) (atom_weight i j) (atom_weight j i).
(** geometric mean of the C6 coefficients *)
Definition c9_mean (i j k : nat) : R := sqrt (c6_coef i j * c6_coef i k * c6_coef j k).
(** triple integral over the dynamic polarizabilities *)
Definition alpha_atom (i w : nat) : R := pol_atom X kw (Z.to_nat (mol_z i)) (atom_weight i i) w.
Definition c9_integral (i j k : nat) : R :=
  three_over_pi * rsum 23 (fun w => quad_weight w * alpha_atom i w * alpha_atom j w * alpha_atom k w).
End C.

(** ** Energy of one term; [q] are the charges in use *)
Variables (n c : nat) (cn q : nat -> R).
(** cutoffs in Bohr: those given, or 60 and 40 *)
Definition cut2 : R := match a_cutoff a with Some co => dat (c_disp2 co) [] | None => 60 end.
Definition cut3 : R := match a_cutoff a with Some co => dat (c_disp3 co) [] | None => 40 end.
Definition eff_rs9 : R := default (getp (a_param a) "rs9") 1.
(** parameters of the Becke-Johnson radii *)
Definition eff_a1 : R := default (getp (a_param a) "a1") (4 / 10).
Definition eff_a2 : R := default (getp (a_param a) "a2") 5.

(** a term that does not depend on charges sees the charge 0 everywhere *)
Definition seen (t : DispTerm N) (i : nat) : R := if t_cdep t then q i else 0.

Definition c9_of (t : DispTerm N) : nat -> nat -> nat -> R :=
  match t_class t with D4ATMExact => c9_integral cn (seen t) | _ => c9_mean cn (seen t) end.
Definition radius_of (t : DispTerm N) : nat -> nat -> R :=
  match t_class t with
  | D3ATM => fun i j => eff_rs9 * mol_vdw i j
  | _ => bj_radius eff_a1 eff_a2 mol_Q
  end.

Definition term_energy (t : DispTerm N) (i : nat) : R :=
  match t_class t with
  | TwoBodyTerm =>
      two_body n c mol_z mol_x (c6_coef cn (seen t)) mol_Q eff_a1 eff_a2
        (eff_s6 (a_param a)) (eff_s8 (a_param a)) (eff_s10 (a_param a)) cut2 i
  | _ => three_body n c mol_z mol_x (c9_of t) (radius_of t) (eff_s9 (a_param a)) (eff_alp (a_param a)) cut3 i
  end.

Definition terms_energy (ts : list (DispTerm N)) (i : nat) : R :=
  fold_right Rplus 0 (map (fun t => term_energy t i) ts).

(** ** The D4 energy of atom [i]: two-body energy with the charge-dependent C6 coefficients, plus
    three-body energy with C9 coefficients at zero charge *)
Definition d4_energy (i : nat) : R :=
  two_body n c mol_z mol_x (c6_coef cn q) mol_Q eff_a1 eff_a2
    (eff_s6 (a_param a)) (eff_s8 (a_param a)) (eff_s10 (a_param a)) cut2 i
  + three_body n c mol_z mol_x (c9_mean cn (fun _ => 0)) (bj_radius eff_a1 eff_a2 mol_Q)
      (eff_s9 (a_param a)) (eff_alp (a_param a)) cut3 i.

(** ... with the exact three-body coefficients ([DispD4Exact]) *)
Definition d4_exact_energy (i : nat) : R :=
  two_body n c mol_z mol_x (c6_coef cn q) mol_Q eff_a1 eff_a2
    (eff_s6 (a_param a)) (eff_s8 (a_param a)) (eff_s10 (a_param a)) cut2 i
  + three_body n c mol_z mol_x (c9_integral cn (fun _ => 0)) (bj_radius eff_a1 eff_a2 mol_Q)
      (eff_s9 (a_param a)) (eff_alp (a_param a)) cut3 i.

(** ** What the regularised external functions require of a three-body term: positive radii, and
    arguments of the square roots from [ds] on *)
Definition regular (ds : R) (t : DispTerm N) : Prop :=
  (forall i j, (i < n)%nat -> (j < n)%nat -> real_pair mol_z i j = true ->
     0 < radius_of t i j /\ (t_class t <> D3ATM -> ds <= 3 * mol_Q i * mol_Q j)) /\
  (t_class t <> D4ATMExact -> forall i j k, (i < n)%nat -> (j < n)%nat -> (k < n)%nat ->
     real_triple mol_z i j k = true ->
     ds <= c6_coef cn (seen t) i j * c6_coef cn (seen t) i k * c6_coef cn (seen t) j k).
End D4.

(** shipped damping functions of the D4 method: rational for two-body, zero for three-body terms *)
Definition d4_damped {eps mx} (X : Ext (sc (RN eps mx))) (t : DispTerm (RN eps mx)) : Prop :=
  match t_class t with
  | TwoBodyTerm => t_damping t = RationalDamping
  | _ => t_damping t = ZeroDamping X
  end.

(** the cutoff handed to the charge model: the one given, or 25 *)
Definition eeq_cut {N : Num} (a : Args N) : tensor (sc N) :=
  match a_cutoff a with Some co => c_cn_eeq co | None => scal (flit 25) end.

(** the charges a call uses: those given, or those of the charge model *)
Definition charges_are {N : Num} (W : World N) (p : Disp N) (a : Args N) (q : option (tensor (sc N))) : Prop :=
  match a_q a with
  | Some q' => q = Some q'
  | None => (needs_charges p ->
             exists t, q = Some t /\ w_eeq W (a_numbers a) (a_positions a) (a_charge a) (eeq_cut a) = Ok t)
            /\ (~ needs_charges p -> q = None)
  end.
