(** * Nested automatic differentiation as an instance of [Scalar].

    A derivative that PyTorch returns can be differentiated again: [torch.func.hessian],
    [jacrev(jacrev(f))], nested [torch.func.jvp], or [torch.autograd.grad] with [create_graph].  The
    derivative formulas are then themselves made of differentiable operations, carried out on numbers
    that carry the derivatives of the outer level.  So automatic differentiation over the reals
    (AdInst.v) is one case of automatic differentiation over any numbers with the operations of
    [Scalar] and a logarithm (which occurs in the derivative of a power with respect to its exponent).

    As in AdInst.v the formulas are those of PyTorch (derivatives.yaml), written with the operations
    of the numbers they act on; literals in them carry no derivatives.  Not modelled: rounding,
    infinities and NaN in derivatives, the order in which contributions to a gradient are added. *)
From Coq Require Import Reals ZArith QArith List Bool.
From Verif Require Import Py Tensor Scalar RInst.
Import ListNotations.

(** numbers with a logarithm ([torch.log]) *)
Record ScL : Type := mkScL { sl_sc :> Scalar; fln : sl_sc -> sl_sc }.
Arguments fln {s}.
Definition RL (eps mx : R) : ScL := mkScL (RS eps mx) ln.

(** what an operation knows about derivatives: a space with zero, sum and multiples *)
Record LinK (K : Scalar) : Type := mkLinK { KT : Type; kz : KT; kp : KT -> KT -> KT; ks : K -> KT -> KT }.
Arguments KT {K}.
Arguments kz {K l}.
Arguments kp {K l}.
Arguments ks {K l}.
(** forward mode: tangents *)
Definition FwdK (K : Scalar) : LinK K := mkLinK K K (flit 0) fadd fmul.
(** backward mode, for leaves indexed by [I]: incoming gradient to gradients of the leaves *)
Definition BwdK (K : Scalar) (I : Type) : LinK K :=
  mkLinK K (K -> I -> K) (fun _ _ => flit 0) (fun u v g i => fadd (u g i) (v g i)) (fun a u g i => u (fmul g a) i).

Section Nest.
Context (K : ScL) (M : LinK K).

Definition nn : Type := K * KT M.
(** a constant *)
Definition ncon (x : K) : nn := (x, kz).
(** operations of one and two arguments with their partial derivatives *)
Definition nun (f df : K -> K) (x : nn) : nn := (f (fst x), ks (df (fst x)) (snd x)).
Definition nbin (f d1 d2 : K -> K -> K) (x y : nn) : nn :=
  (f (fst x) (fst y), kp (ks (d1 (fst x) (fst y)) (snd x)) (ks (d2 (fst x) (fst y)) (snd y))).

(** [sgn]: derivative of [abs] *)
Definition nsgn (x : K) : K := if flt (flit 0) x then flit 1 else if flt x (flit 0) then flit (-1) else flit 0.
(** [pow_backward_self]: [exponent == 0 ? 0 : exponent * self^(exponent - 1)] *)
Definition npow1 (x y : K) : K := if feq y (flit 0) then flit 0 else fmul y (fpow x (fsub y (flit 1))).
(** [pow_backward_exponent]: [self == 0 && exponent >= 0 ? 0 : result * log self] *)
Definition npow2 (x y : K) : K :=
  if feq x (flit 0) && fle (flit 0) y then flit 0 else fmul (fpow x y) (fln x).
Definition npown (n : nat) (x : K) : K := fmul (flit (Z.of_nat n # 1)) (fpown x (Nat.pred n)).

Definition NestS : Scalar :=
  mkScalar nn
    (nbin fadd (fun _ _ => flit 1) (fun _ _ => flit 1))
    (nbin fsub (fun _ _ => flit 1) (fun _ _ => flit (-1)))
    (nbin fmul (fun _ y => y) (fun x _ => x))
    (nbin fdiv (fun _ y => fdiv (flit 1) y) (fun x y => fopp (fdiv (fdiv x y) y)))
    (nun fopp (fun _ => flit (-1)))
    (nun fexp fexp)
    (nun fsqrt (fun x => fdiv (flit 1) (fmul (flit 2) (fsqrt x))))
    (nun fabs nsgn)
    (nbin fpow npow1 npow2)
    (fun x n => nun (fun x => fpown x n) (npown n) x)
    (fun x y => flt (fst x) (fst y))
    (fun x y => fle (fst x) (fst y))
    (fun x y => feq (fst x) (fst y))
    (fun x => fisnan (fst x))
    (fun x y => if flt (fst x) (fst y) then y else x)
    (ncon fmaxfin) (ncon feps) (fun q => ncon (flit q)) (fplan (s := K)).
Definition Nest : ScL := mkScL NestS (nun fln (fun x => fdiv (flit 1) x)).
End Nest.
Arguments ncon {K M}.

(** the working dtype; double and the casts as in exact arithmetic *)
Definition LN (K : ScL) : Num := mkNum K K (fun x => x) (fun x => x).
