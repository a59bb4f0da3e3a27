(** * Automatic differentiation as an instance of [Scalar].

    PyTorch differentiates a program by the chain rule: every elementary operation hands on the
    partial derivatives with respect to its arguments, [torch.where], indexing and broadcasting
    hand on the derivative of the entry they select, comparisons look at the values only, and
    constants (tables, literals) carry no derivative.  An entry of a tensor is then a pair of a
    number and what is known about its derivative.

    The second component is an element of a space [Lin] with zero, sum and multiples; the two modes
    of PyTorch are two choices of that space:
    - forward mode ([torch.func.jvp]): the tangent, a number;
    - backward mode ([torch.autograd.grad], [Tensor.backward]): the map that sends an incoming
      gradient to its contributions to the gradients of all the leaves.

    The operations below are the derivative formulas of PyTorch (derivatives.yaml) for the
    operations of the model, in exact arithmetic.  Not modelled: rounding, infinities and NaN
    in derivatives (in particular a factor 0 times an infinite derivative), the order in which
    contributions to a gradient are added, and in-place accumulation into [.grad]. *)
From Coq Require Import Reals ZArith QArith Qreals List Bool.
From Verif Require Import Py Tensor Scalar RInst.
Import ListNotations.
Open Scope R_scope.

Record Lin : Type := mkLin { LT : Type; lz : LT; lp : LT -> LT -> LT; ls : R -> LT -> LT }.
Arguments lz {l}.
Arguments lp {l}.
Arguments ls {l}.

(** forward mode: tangents *)
Definition Fwd : Lin := mkLin R 0 Rplus Rmult.
(** backward mode, for leaves indexed by [I]: incoming gradient to gradients of the leaves *)
Definition Bwd (I : Type) : Lin :=
  mkLin (R -> I -> R) (fun _ _ => 0) (fun u v g i => u g i + v g i) (fun a u g i => u (g * a) i).

Section AD.
Context (M : Lin) (eps mx : R).

Definition adn : Type := R * LT M.
(** a constant *)
Definition acon (x : R) : adn := (x, lz).
(** operations of one and two arguments with their partial derivatives *)
Definition aun (f df : R -> R) (x : adn) : adn := (f (fst x), ls (df (fst x)) (snd x)).
Definition abin (f d1 d2 : R -> R -> R) (x y : adn) : adn :=
  (f (fst x) (fst y), lp (ls (d1 (fst x) (fst y)) (snd x)) (ls (d2 (fst x) (fst y)) (snd y))).

(** [sgn]: derivative of [abs] *)
Definition rsgn (x : R) : R := if Rlt_dec 0 x then 1 else if Rlt_dec x 0 then -1 else 0.
(** [pow_backward_self]: [exponent == 0 ? 0 : exponent * self^(exponent - 1)] *)
Definition dpow1 (x y : R) : R := if Req_EM_T y 0 then 0 else y * rpow x (y - 1).
(** [pow_backward_exponent]: [self == 0 && exponent >= 0 ? 0 : result * log self] *)
Definition dpow2 (x y : R) : R :=
  if Req_EM_T x 0 then (if Rle_dec 0 y then 0 else rpow x y * ln x) else rpow x y * ln x.
Definition dpown (n : nat) (x : R) : R := INR n * x ^ (Nat.pred n).

Definition AS : Scalar :=
  mkScalar adn
    (abin Rplus (fun _ _ => 1) (fun _ _ => 1))
    (abin Rminus (fun _ _ => 1) (fun _ _ => -1))
    (abin Rmult (fun _ y => y) (fun x _ => x))
    (abin Rdiv (fun _ y => / y) (fun x y => - (x / y / y)))
    (aun Ropp (fun _ => -1))
    (aun exp exp)
    (aun sqrt (fun x => / (2 * sqrt x)))
    (aun Rabs rsgn)
    (abin rpow dpow1 dpow2)
    (fun x n => aun (fun x => x ^ n) (dpown n) x)
    (fun x y => rltb (fst x) (fst y))
    (fun x y => rleb (fst x) (fst y))
    (fun x y => reqb (fst x) (fst y))
    (fun _ => false)
    (fun x y => if Rlt_dec (fst x) (fst y) then y else x)
    (acon mx) (acon eps) (fun q => acon (Q2R q)) in_order.

Definition AN : Num := mkNum AS AS (fun x => x) (fun x => x).
End AD.
Arguments acon {M}.
