(** * Backward mode with infinities and NaN as an instance of [Scalar].

    [AdInst] differentiates in exact arithmetic and drops what is not selected by [torch.where].
    PyTorch does not: the backward pass of [torch.where(m, x, y)] sends a gradient of 0 into the
    branch that was not selected, and a factor 0 times an infinite local derivative is NaN.  Here
    numbers and gradients are real numbers extended by the two infinities and NaN, with the rules
    of IEEE 754 for them (one zero only; finite arithmetic exact, no overflow).

    An entry of a tensor is a number with its gradient function: [None] if the entry does not
    depend on a leaf, [Some u] otherwise, where [u g i] is the contribution of an incoming gradient
    [g] to the gradient of leaf [i].  [torch.where] is [gsel]: an operation of the number type, not
    an [if] (see ModelGrad.v). *)
From Coq Require Import Reals ZArith QArith Qreals List Bool.
From Verif Require Import Py Tensor Scalar RInst AdInst.
Import ListNotations.
Open Scope R_scope.

Inductive xnum : Type := XR (x : R) | XInf (positive : bool) | XNaN.

Definition xopp (x : xnum) : xnum :=
  match x with XR a => XR (- a) | XInf s => XInf (negb s) | XNaN => XNaN end.
Definition xadd (x y : xnum) : xnum :=
  match x, y with
  | XR a, XR b => XR (a + b)
  | XInf s, XInf t => if Bool.eqb s t then XInf s else XNaN
  | XInf s, XR _ | XR _, XInf s => XInf s
  | _, _ => XNaN
  end.
Definition xsub (x y : xnum) : xnum := xadd x (xopp y).
(** infinity of sign [s] times a finite number *)
Definition inf_mul (s : bool) (a : R) : xnum :=
  if Req_EM_T a 0 then XNaN else XInf (Bool.eqb s (rltb 0 a)).
Definition xmul (x y : xnum) : xnum :=
  match x, y with
  | XR a, XR b => XR (a * b)
  | XInf s, XInf t => XInf (Bool.eqb s t)
  | XInf s, XR a | XR a, XInf s => inf_mul s a
  | _, _ => XNaN
  end.
Definition xdiv (x y : xnum) : xnum :=
  match x, y with
  | XR a, XR b =>
      if Req_EM_T b 0 then (if Req_EM_T a 0 then XNaN else XInf (rltb 0 a)) else XR (a / b)
  | XR _, XInf _ => XR 0
  | XInf s, XR b => if Req_EM_T b 0 then XInf s else inf_mul s b
  | _, _ => XNaN
  end.
Definition xexp (x : xnum) : xnum :=
  match x with XR a => XR (exp a) | XInf true => XInf true | XInf false => XR 0 | XNaN => XNaN end.
Definition xsqrt (x : xnum) : xnum :=
  match x with
  | XR a => if Rlt_dec a 0 then XNaN else XR (sqrt a)
  | XInf true => XInf true
  | _ => XNaN
  end.
Definition xabs (x : xnum) : xnum :=
  match x with XR a => XR (Rabs a) | XInf _ => XInf true | XNaN => XNaN end.
Definition xln (x : xnum) : xnum :=
  match x with
  | XR a => if Rlt_dec 0 a then XR (ln a) else if Req_EM_T a 0 then XInf false else XNaN
  | XInf true => XInf true
  | _ => XNaN
  end.
(** [torch.pow] with a floating point exponent.  Simplified: a negative base and an infinite
    exponent always give NaN. *)
Definition xpow (x y : xnum) : xnum :=
  match x, y with
  | XR a, XR b =>
      if Rlt_dec 0 a then XR (rpow a b)
      else if Req_EM_T a 0
           then if Rlt_dec b 0 then XInf true else if Req_EM_T b 0 then XR 1 else XR 0
           else XNaN
  | XInf true, XR b =>
      if Req_EM_T b 0 then XR 1 else if Rlt_dec 0 b then XInf true else XR 0
  | _, _ => XNaN
  end.
(** [torch.pow] with an integer exponent *)
Definition xpown (x : xnum) (n : nat) : xnum :=
  match x with
  | XR a => XR (a ^ n)
  | XInf s => match n with O => XR 1 | _ => XInf (s || Nat.even n) end
  | XNaN => match n with O => XR 1 | _ => XNaN end
  end.
Definition xlt (x y : xnum) : bool :=
  match x, y with
  | XR a, XR b => rltb a b
  | XInf s, XR _ => negb s
  | XR _, XInf t => t
  | XInf s, XInf t => negb s && t
  | _, _ => false
  end.
Definition xeq (x y : xnum) : bool :=
  match x, y with
  | XR a, XR b => reqb a b
  | XInf s, XInf t => Bool.eqb s t
  | _, _ => false
  end.
Definition xle (x y : xnum) : bool := xlt x y || xeq x y.
Definition xisnan (x : xnum) : bool := match x with XNaN => true | _ => false end.
Definition xsgn (x : xnum) : xnum :=
  match x with XR a => XR (rsgn a) | XInf true => XR 1 | XInf false => XR (-1) | XNaN => XNaN end.

Section G.
Context (I : Type) (eps mx : R).

Definition gfun : Type := xnum -> I -> xnum.
Definition gnum : Type := xnum * option gfun.
(** an entry without gradient *)
Definition gcon (x : xnum) : gnum := (x, None).

(** contributions of two arguments *)
Definition gplus (u v : option gfun) : option gfun :=
  match u, v with
  | None, w | w, None => w
  | Some u, Some v => Some (fun g i => xadd (u g i) (v g i))
  end.
(** the incoming gradient passes the local backward map [b] first *)
Definition gback (b : xnum -> xnum) (u : option gfun) : option gfun :=
  match u with None => None | Some u => Some (fun g i => u (b g) i) end.

Definition gun (f : xnum -> xnum) (b : xnum -> xnum -> xnum) (x : gnum) : gnum :=
  (f (fst x), gback (b (fst x)) (snd x)).
Definition gbin (f : xnum -> xnum -> xnum) (b1 b2 : xnum -> xnum -> xnum -> xnum) (x y : gnum) : gnum :=
  (f (fst x) (fst y),
   gplus (gback (b1 (fst x) (fst y)) (snd x)) (gback (b2 (fst x) (fst y)) (snd y))).

(** [torch.where]: the gradient goes to the branch that was selected, 0 to the other *)
Definition gsel (m : bool) (x y : gnum) : gnum :=
  (if m then fst x else fst y,
   gplus (gback (fun g => if m then g else XR 0) (snd x))
         (gback (fun g => if m then XR 0 else g) (snd y))).

(** backward formulas of [torch.pow] (derivatives.yaml, FunctionsManual.cpp) *)
Definition bpow1 (x y g : xnum) : xnum :=
  if xeq y (XR 0) then XR 0 else xmul g (xmul y (xpow x (xsub y (XR 1)))).
Definition bpow2 (x y g : xnum) : xnum :=
  if xeq x (XR 0) && xle (XR 0) y then XR 0 else xmul g (xmul (xpow x y) (xln x)).
Definition bpown (n : nat) (x g : xnum) : xnum :=
  match n with O => XR 0 | S k => xmul g (xmul (XR (INR n)) (xpown x k)) end.

Definition GS : Scalar :=
  mkScalar gnum
    (gbin xadd (fun _ _ g => g) (fun _ _ g => g))
    (gbin xsub (fun _ _ g => g) (fun _ _ g => xopp g))
    (gbin xmul (fun _ y g => xmul g y) (fun x _ g => xmul g x))
    (gbin xdiv (fun _ y g => xdiv g y) (fun x y g => xmul (xopp g) (xdiv (xdiv x y) y)))
    (gun xopp (fun _ g => xopp g))
    (gun xexp (fun x g => xmul g (xexp x)))
    (gun xsqrt (fun x g => xdiv g (xmul (XR 2) (xsqrt x))))
    (gun xabs (fun x g => xmul g (xsgn x)))
    (gbin xpow bpow1 bpow2)
    (fun x n => gun (fun x => xpown x n) (bpown n) x)
    (fun x y => xlt (fst x) (fst y))
    (fun x y => xle (fst x) (fst y))
    (fun x y => xeq (fst x) (fst y))
    (fun x => xisnan (fst x))
    (fun x y => if xlt (fst x) (fst y) then y else x)
    (gcon (XR mx)) (gcon (XR eps)) (fun q => gcon (XR (Q2R q))) in_order.

Definition GN : Num := mkNum GS GS (fun x => x) (fun x => x).

(** the gradient of leaf [i] for an incoming gradient [g]; an entry without gradient contributes
    nothing *)
Definition grad (x : gnum) (g : xnum) (i : I) : xnum :=
  match snd x with None => XR 0 | Some u => u g i end.
End G.
Arguments gcon {I}.
Arguments gsel {I}.
Arguments grad {I}.
