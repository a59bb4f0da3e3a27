(** * Signs and bounds of energies (specification layer, real numbers) *)
From Coq Require Import Reals List Arith ZArith QArith Qreals Bool String.
From Verif Require Import Py Tensor Scalar RInst ModelExt ModelUtils ModelDamping ModelModels
  ModelTerms ModelDisp SpecCall SpecR SpecD4.
Import ListNotations.
Open Scope R_scope.

(** no angle of the triangle is obtuse *)
Definition not_obtuse (c : nat) (x y z : nat -> R) : Prop :=
  sqd c x y <= sqd c x z + sqd c y z /\ sqd c x z <= sqd c x y + sqd c y z /\ sqd c y z <= sqd c x y + sqd c x z.

(** size of the undamped triple energy without the angular factor *)
Definition triple_size (c : nat) (xi xj xk : nat -> R) (c9 s9 : R) : R :=
  s9 * c9 / (euclid c xi xj * euclid c xi xk * euclid c xj xk) ^ 3.
Definition triples_size (n c : nat) (z : nat -> Z) (x : nat -> nat -> R) (c9 : nat -> nat -> nat -> R)
  (s9 cut : R) (i : nat) : R :=
  1 / 6 * rsum n (fun j => rsum n (fun k =>
    if real_triple z i j k && rleb (euclid c (x i) (x j)) cut && rleb (euclid c (x j) (x k)) cut
    then triple_size c (x i) (x j) (x k) (c9 i j k) s9 else 0)).

(** pair energies if the two atoms were at the same place, and without damping at distance [r] *)
Definition contact (n : nat) (z : nat -> Z) (c6 : nat -> nat -> R) (Q : nat -> R) (a1 a2 s6 s8 s10 : R) (i : nat) : R :=
  1 / 2 * rsum n (fun j => if real_pair z i j then pair_energy a1 a2 s6 s8 s10 (c6 i j) (Q i) (Q j) 0 else 0).
Definition undamped (s6 s8 s10 c6 Qi Qj r : R) : R :=
  s6 * c6 / r ^ 6 + s8 * (3 * Qi * Qj * c6) / r ^ 8 + s10 * (49 / 40 * (3 * Qi * Qj) ^ 2 * c6) / r ^ 10.

Section D4.
Context {eps mx : R}.
Notation N := (RN eps mx).

(** parameters with which every pair attracts; radii given by the caller are not negative *)
Definition attractive (a : Args N) (n : nat) (B : list nat) : Prop :=
  0 <= eff_a1 a /\ 0 < eff_a2 a /\ 0 <= eff_s6 (a_param a) /\ 0 <= eff_s8 (a_param a) /\ 0 <= eff_s10 (a_param a) /\
  forall t, a_r4r2 a = Some t -> forall b i, valid B b -> (i < n)%nat -> 0 <= sl1 t b i.

(** an element with a reference system that consists of the element alone: all but cerium *)
Definition ordinary (z : Z) : Prop := (1 <= z <= 103)%Z /\ z <> 58%Z.

(** the same call with another two-body cutoff *)
Definition set_cut2 (a : Args N) (r : R) : Args N :=
  let co := a_cut a in
  mkCall (a_numbers a) (a_positions a) (a_charge a) (a_param a)
    (Some (mkCutoff (scal (A := sc N) r) (c_disp3 co) (c_cn co) (c_cn_eeq co)))
    (a_q a) (a_rcov a) (a_r4r2 a) (a_rvdw a).
(** ... and with another three-body cutoff *)
Definition set_cut3 (a : Args N) (r : R) : Args N :=
  let co := a_cut a in
  mkCall (a_numbers a) (a_positions a) (a_charge a) (a_param a)
    (Some (mkCutoff (c_disp2 co) (scal (A := sc N) r) (c_cn co) (c_cn_eeq co)))
    (a_q a) (a_rcov a) (a_r4r2 a) (a_rvdw a).
End D4.

(** bound on the energy of the pairs of atom [i] that are farther apart than [r] (for one two-body
    term, without damping), summed over the two-body terms *)
Section Tail.
Context {eps mx : R}.
Notation N := (RN eps mx).
Context (X : Ext (sc N)) (kind : mkind) (kw : mkwargs N) (a : Args N) (b : list nat) (n : nat) (cn q : nat -> R).
Definition tail (r : R) (t : DispTerm N) (i : nat) : R :=
  match t_class t with
  | TwoBodyTerm => 1 / 2 * rsum n (fun j => if real_pair (mol_z a b) i j then
      undamped (eff_s6 (a_param a)) (eff_s8 (a_param a)) (eff_s10 (a_param a))
        (c6_coef X kind kw a b cn (seen q t) i j) (mol_Q a b i) (mol_Q a b j) r else 0)
  | _ => 0
  end.
Definition tails (r : R) (ts : list (DispTerm N)) (i : nat) : R :=
  fold_right Rplus 0 (map (fun t => tail r t i) ts).
(** the same for triples of atoms at least [m] apart with one side longer than [r] (then a second one
    is longer than [r / 2]), without damping and angular factor *)
Definition tail3 (m r : R) (t : DispTerm N) (i : nat) : R :=
  match t_class t with
  | TwoBodyTerm => 0
  | _ => 1 / 6 * rsum n (fun j => rsum n (fun k => if real_triple (mol_z a b) i j k then
      eff_s9 (a_param a) * c9_of X kind kw a b cn q t i j k / (m * (r / 2) * r) ^ 3 else 0))
  end.
Definition tails3 (m r : R) (ts : list (DispTerm N)) (i : nat) : R :=
  fold_right Rplus 0 (map (fun t => tail3 m r t i) ts).
End Tail.
