(** * IEEE-754 binary floating point as an instance of [Scalar] (Flocq, [BinarySingleNaN]).

    [IS prec emax L]: binary floating point numbers with [prec] significand bits and maximal
    exponent [emax] (binary32: 24, 128; binary64: 53, 1024), with signed zeros, infinities and NaN
    (NaN payloads are not distinguished), arithmetic rounded to nearest even.  Addition,
    subtraction, multiplication, division, square root, comparison and literals are correctly
    rounded; [exp] and [pow] are not specified by IEEE 754 and are parameters [L], as is the order
    in which a sum is taken. *)
From Coq Require Import Reals ZArith QArith Qreals List Bool.
From Flocq Require Import Core.Core IEEE754.BinarySingleNaN.
From Verif Require Import Py Tensor Scalar.

(** what PyTorch leaves to the machine: the mathematical functions of the C library used by
    [torch.exp] and [torch.pow], and the order in which sums are taken *)
Record Libm (prec emax : Z) : Type := mkLibm {
  l_exp : binary_float prec emax -> binary_float prec emax;
  l_pow : binary_float prec emax -> binary_float prec emax -> binary_float prec emax;
  l_pown : binary_float prec emax -> nat -> binary_float prec emax;
  l_plan : forall n, plan n                (* order of summation *)
}.
Arguments mkLibm {prec emax}.
Arguments l_exp {prec emax}.
Arguments l_pow {prec emax}.
Arguments l_pown {prec emax}.
Arguments l_plan {prec emax}.

Section I.
Context (prec emax : Z) {Hp : Prec_gt_0 prec} {He : Prec_lt_emax prec emax}.
Notation B := (binary_float prec emax).

(** the float nearest to [+-m/d], and to a rational number *)
Definition bratio (s : bool) (m d : positive) : B :=
  SF2B _ (proj1 (Bdiv_correct_aux prec emax Hp He mode_NE s m 0 false d 0)).
Definition blit (q : Q) : B :=
  match Qnum q with
  | Z0 => B754_zero false
  | Zpos m => bratio false m (Qden q)
  | Zneg m => bratio true m (Qden q)
  end.

(** binary step of [torch.max]: propagates NaN *)
Definition bmax2 (x y : B) : B :=
  if is_nan x then x else if is_nan y then y else if Bltb x y then y else x.

Definition IS (L : Libm prec emax) : Scalar :=
  mkScalar B (Bplus mode_NE) (Bminus mode_NE) (Bmult mode_NE) (Bdiv mode_NE) Bopp
    (l_exp L) (Bsqrt mode_NE) Babs (l_pow L) (l_pown L) Bltb Bleb Beqb is_nan bmax2
    Bmax_float (Bldexp mode_NE Bone (1 - prec)) blit (l_plan L).
End I.

(** conversion between formats ([.type(dtype)]), rounded to nearest even *)
Definition bconv {p1 e1} (p2 e2 : Z) {Hp : Prec_gt_0 p2} {He : Prec_lt_emax p2 e2}
  (x : binary_float p1 e1) : binary_float p2 e2 :=
  match x with
  | B754_zero s => B754_zero s
  | B754_infinity s => B754_infinity s
  | B754_nan => B754_nan
  | B754_finite s m e _ => binary_normalize p2 e2 Hp He mode_NE (cond_Zopp s (Zpos m)) e s
  end.

(** [torch.double] *)
Definition Hp64 : Prec_gt_0 53 := eq_refl.
Definition He64 : Prec_lt_emax 53 1024 := eq_refl.
Definition Hp32 : Prec_gt_0 24 := eq_refl.
Definition He32 : Prec_lt_emax 24 128 := eq_refl.

(** a working dtype with [prec] and [emax], together with [torch.double] *)
Definition IN (prec emax : Z) {Hp : Prec_gt_0 prec} {He : Prec_lt_emax prec emax}
  (L : Libm prec emax) (L64 : Libm 53 1024) : Num :=
  mkNum (IS prec emax L) (@IS 53 1024 Hp64 He64 L64)
        (@bconv prec emax 53 1024 Hp64 He64) (bconv prec emax).
