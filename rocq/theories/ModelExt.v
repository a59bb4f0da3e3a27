(** * External packages (tad_mctc, tad_multicharge): the parameters of the model.

    Their source is not part of /repo.  Numerical functions are fields of the
    record [Ext]; theorems state explicitly what they assume about them. *)
From Coq Require Import List Arith ZArith QArith Bool.
From Verif Require Import Py Tensor Scalar.
Import ListNotations.
Open Scope py_scope.

(** functions of tad_mctc called in functions.py:370,378, twobody.py:89-201, threebody.py:54-163, 244-256, model/base.py:367-418 and base.py:275-281 *)
Record Ext (K : Scalar) : Type := mkExt {
  (** [tad_mctc.storch.cdist(x, y, p=2)]: distance of two rows of [c] coordinates. *)
  x_dist : nat -> (nat -> K) -> (nat -> K) -> K;
  (** [tad_mctc.storch.divide], elementwise. *)
  x_div : K -> K -> K;
  (** [tad_mctc.storch.sqrt], elementwise. *)
  x_sqrt : K -> K;
  (** [tad_mctc.data.zeff.ZEFF], [tad_mctc.data.GAM]: one-dimensional tables. *)
  x_zeff : tensor K;
  x_gam : tensor K;
  (** [tad_mctc.data.VDW_PAIRWISE]: two-dimensional table. *)
  x_vdw : tensor K
}.
Arguments x_dist {K}.
Arguments x_div {K}.
Arguments x_sqrt {K}.
Arguments x_zeff {K}.
Arguments x_gam {K}.
Arguments x_vdw {K}.

(** [tad_mctc.batch.mask.real_atoms]: padding has atomic number 0. (called in d4.py:103-266) *)
Definition is_real (z : Z) : bool := negb (Z.eqb z 0).
(** [tad_mctc.batch.mask.real_atoms] on a tensor (d4.py:103-266, d4s.py:109-266) *)
Definition real_atoms (numbers : tensor Z) : tensor bool := tmap is_real numbers.

(** [tad_mctc.batch.real_pairs(numbers, mask_diagonal=True)]:
    both atoms real, diagonal masked. (called in twobody.py:89-201) *)
Definition real_pairs (numbers : tensor Z) : res (tensor bool) :=
  match shp numbers with
  | [] => Raise IndexError
  | n :: B =>
      Ok (mkT (n :: n :: B)
              (fun ix => match ix with
                         | j :: i :: b =>
                             is_real (dat numbers (i :: b)) && is_real (dat numbers (j :: b))
                             && negb (Nat.eqb i j)
                         | _ => false
                         end))
  end.

(** [tad_mctc.batch.real_triples(numbers, mask_diagonal=True, mask_self=True)]:
    three real atoms, no two indices identical. (called in threebody.py:54-163) *)
Definition real_triples (numbers : tensor Z) : res (tensor bool) :=
  match shp numbers with
  | [] => Raise IndexError
  | n :: B =>
      Ok (mkT (n :: n :: n :: B)
              (fun ix => match ix with
                         | k :: j :: i :: b =>
                             is_real (dat numbers (i :: b)) && is_real (dat numbers (j :: b))
                             && is_real (dat numbers (k :: b))
                             && negb (Nat.eqb i j) && negb (Nat.eqb i k) && negb (Nat.eqb j k)
                         | _ => false
                         end))
  end.

Section Ext.
Context {K : Scalar} (X : Ext K).

(** [storch.cdist(x, y, p=2)] for tensors [(..., n, c)] and [(..., m, c)].
    (called in twobody.py:89-201, threebody.py:54-163) *)
Definition cdist (x y : tensor K) : res (tensor K) :=
  match shp x, shp y with
  | c :: n :: B, c' :: m :: B' =>
      if Nat.eqb c c' then
        match bshape B B' with
        | Some s =>
            Ok (mkT (m :: n :: s)
                    (fun ix => match ix with
                               | j :: i :: b =>
                                   x_dist X c (fun k => dat x (k :: i :: bidx B b))
                                              (fun k => dat y (k :: j :: bidx B' b))
                               | _ => f0
                               end))
        | None => Raise RuntimeError
        end
      else Raise RuntimeError
  | _, _ => Raise RuntimeError
  end.

(** [storch.divide] on tensors (functions.py:370,378; threebody.py:54-163; model/base.py:337-365) *)
Definition sdivide := lift2 (x_div X).
(** [storch.sqrt] on tensors (threebody.py:244-256, 311-321) *)
Definition ssqrt := lift1 (x_sqrt X).

End Ext.
