(** * Textbook formulas over the real numbers (specification layer).

    Nothing here refers to the tensor programs: only real arithmetic, finite sums
    [rsum n f = f 0 + ... + f (n-1)] and the records of inputs. *)
From Coq Require Import Reals List Arith ZArith QArith Qreals Bool String.
From Verif Require Import Py Tensor Scalar RInst ModelExt ModelUtils ModelDamping Spec.
Import ListNotations.
Open Scope R_scope.

(** ** Sums over unordered pairs and triples of indices below [n] *)
Definition pairs_sum (n : nat) (f : nat -> nat -> R) : R :=
  rsum n (fun i => rsum n (fun j => if (i <? j)%nat then f i j else 0)).

Definition triples_sum (n : nat) (f : nat -> nat -> nat -> R) : R :=
  rsum n (fun i => rsum n (fun j => rsum n (fun k =>
    if ((i <? j) && (j <? k))%nat then f i j k else 0))).

(** ** Geometry: points with [c] coordinates *)
Definition sqd (c : nat) (x y : nat -> R) : R := rsum c (fun k => (x k - y k) ^ 2).
Definition euclid (c : nat) (x y : nat -> R) : R := sqrt (sqd c x y).
Definition dot (c : nat) (x y : nat -> R) : R := rsum c (fun k => x k * y k).
(** cosine of the angle at [p] in the triangle [p], [x], [y] *)
Definition cos_at (c : nat) (p x y : nat -> R) : R :=
  dot c (fun k => x k - p k) (fun k => y k - p k) / (euclid c p x * euclid c p y).

(** ** Contracts of the external numerical functions *)

(** [tad_mctc.storch.cdist] depends on the squared Euclidean distance only and is
    its square root from [d0] on (below, an implementation may regularise). *)
Definition dist_contract {eps mx} (d0 : R) (X : Ext (RS eps mx)) : Prop :=
  exists gd : R -> R,
    (forall c x y, x_dist X c x y = gd (sqd c x y)) /\
    (forall s, 0 <= s -> 0 <= gd s) /\
    (forall s, d0 <= s -> gd s = sqrt s).

(** [tad_mctc.storch.divide] is division whenever the divisor is not zero. *)
Definition div_contract {eps mx} (X : Ext (RS eps mx)) : Prop :=
  forall a b, b <> 0 -> x_div X a b = a / b.

(** [tad_mctc.storch.sqrt] is the square root from [d0] on, and never negative. *)
Definition sqrt_contract {eps mx} (d0 : R) (X : Ext (RS eps mx)) : Prop :=
  (forall s, d0 <= s -> x_sqrt X s = sqrt s) /\ (forall s, 0 <= x_sqrt X s).

(** The external tables cover the supported elements 0..103. *)
Definition tables_contract {eps mx} (X : Ext (RS eps mx)) : Prop := ext_tables X.

(** ** Two-body energy *)

(** pair energy of rational (Becke-Johnson) damping, positive for attraction *)
Definition pair_energy (a1 a2 s6 s8 s10 c6 Qi Qj r : R) : R :=
  let R0 := a1 * sqrt (3 * Qi * Qj) + a2 in
  s6 * c6 / (r ^ 6 + R0 ^ 6)
  + s8 * (3 * Qi * Qj * c6) / (r ^ 8 + R0 ^ 8)
  + s10 * (49 / 40 * (3 * Qi * Qj) ^ 2 * c6) / (r ^ 10 + R0 ^ 10).

(** two different real atoms (atomic number 0 is padding) *)
Definition real_pair (z : nat -> Z) (i j : nat) : bool :=
  negb (Nat.eqb i j) && negb (Z.eqb (z i) 0) && negb (Z.eqb (z j) 0).

Definition two_body (n c : nat) (z : nat -> Z) (x : nat -> nat -> R) (c6 : nat -> nat -> R)
  (Q : nat -> R) (a1 a2 s6 s8 s10 cut : R) (i : nat) : R :=
  - (1 / 2) * rsum n (fun j =>
    if real_pair z i j && rleb (euclid c (x i) (x j)) cut
    then pair_energy a1 a2 s6 s8 s10 (c6 i j) (Q i) (Q j) (euclid c (x i) (x j))
    else 0).

(** scaling parameters actually in effect *)
Definition eff_s6 {eps mx} (param : Param (RS eps mx)) : R := default (getp param "s6") 1.
Definition eff_s8 {eps mx} (param : Param (RS eps mx)) : R :=
  match getp param "s8", getp param "rs8" with
  | Some s, _ => s
  | None, Some _ => 1
  | None, None => 0
  end.
Definition eff_s10 {eps mx} (param : Param (RS eps mx)) : R := default (getp param "s10") 0.
(** a cutoff argument: a number, or the default *)
Definition eff_cut {eps mx} (dflt : R) (o : option (tensor (RS eps mx))) : R :=
  match o with Some t => dat t [] | None => dflt end.
Definition scalar_opt {A} (o : option (tensor A)) : Prop :=
  match o with Some t => shp t = [] | None => True end.

(** real atoms of every molecule are at least [sqrt d0] apart *)
Definition separated {eps mx} (d0 : R) (numbers : tensor Z) (positions : tensor (RS eps mx))
  (n c : nat) (B : list nat) : Prop :=
  forall b i j, valid B b -> (i < n)%nat -> (j < n)%nat -> real_pair (sl1 numbers b) i j = true ->
    d0 <= sqd c (sl2 positions b i) (sl2 positions b j).

Definition eff_s9 {eps mx} (param : Param (RS eps mx)) : R := default (getp param "s9") 1.
Definition eff_alp {eps mx} (param : Param (RS eps mx)) : R := default (getp param "alp") 16.

(** ** Three-body energy (Axilrod-Teller-Muto with zero damping) *)
Definition real_triple (z : nat -> Z) (i j k : nat) : bool :=
  real_pair z i j && real_pair z i k && real_pair z j k.

Definition triple_energy (c : nat) (xi xj xk : nat -> R) (c9 rij rik rjk s9 alp : R) : R :=
  let r := euclid c xi xj * euclid c xi xk * euclid c xj xk in
  s9 * c9 * (3 * cos_at c xi xj xk * cos_at c xj xi xk * cos_at c xk xi xj + 1) / r ^ 3
  / (1 + 6 * Rpower (rij * rik * rjk / r) (alp / 3)).
