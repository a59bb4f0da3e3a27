(** * Floating point numbers as an abstract record of operations.

    The model is generic in the number type.  [Scalar] lists exactly the
    primitive operations the code performs on numbers. *)
From Coq Require Import List ZArith QArith Permutation.
From Verif Require Import Py Tensor.
Import ListNotations.

(** ** The order of a sum
    PyTorch leaves the order of floating point summation unspecified: it depends on the vector
    width, the number of threads and the size.  A sum of [n] numbers is a tree of additions that has
    each of the numbers once as a leaf, in any order, and any number of zeros (from which an
    accumulator may start). *)
Inductive stree : Type :=
  | PZero
  | PTerm (k : nat)
  | PAdd (a b : stree).
Fixpoint leaves (t : stree) : list nat :=
  match t with
  | PZero => []
  | PTerm k => [k]
  | PAdd a b => leaves a ++ leaves b
  end.
Definition plan (n : nat) : Type := {t : stree | Permutation (leaves t) (seq 0 n)}.

(** in index order, from zero *)
Fixpoint upto (n : nat) : stree :=
  match n with
  | O => PZero
  | S k => PAdd (upto k) (PTerm k)
  end.
Lemma leaves_upto n : leaves (upto n) = seq 0 n.
Proof. induction n as [|n IH]; [reflexivity|]. rewrite seq_S. simpl. now rewrite IH. Qed.
Definition in_order (n : nat) : plan n :=
  exist _ (upto n) (eq_ind_r (fun l => Permutation l (seq 0 n)) (Permutation_refl (seq 0 n)) (leaves_upto n)).

Record Scalar : Type := mkScalar {
  F :> Type;
  fadd : F -> F -> F;
  fsub : F -> F -> F;
  fmul : F -> F -> F;
  fdiv : F -> F -> F;
  fopp : F -> F;
  fexp : F -> F;                (* torch.exp *)
  fsqrt : F -> F;               (* torch.sqrt *)
  fabs : F -> F;                (* torch.abs *)
  fpow : F -> F -> F;           (* torch.pow with a floating point exponent *)
  fpown : F -> nat -> F;        (* torch.pow with a Python int exponent *)
  flt : F -> F -> bool;         (* a < b *)
  fle : F -> F -> bool;         (* a <= b *)
  feq : F -> F -> bool;         (* a == b *)
  fisnan : F -> bool;           (* torch.isnan *)
  fmax2 : F -> F -> F;          (* binary step of torch.max *)
  fmaxfin : F;                  (* torch.finfo(dtype).max *)
  feps : F;                     (* torch.finfo(dtype).eps *)
  flit : Q -> F;                (* a decimal literal *)
  fplan : forall n, plan n      (* order in which torch.sum and torch.einsum add n numbers *)
}.

Arguments fadd {s}.
Arguments fsub {s}.
Arguments fmul {s}.
Arguments fdiv {s}.
Arguments fopp {s}.
Arguments fexp {s}.
Arguments fsqrt {s}.
Arguments fabs {s}.
Arguments fpow {s}.
Arguments fpown {s}.
Arguments flt {s}.
Arguments fle {s}.
Arguments feq {s}.
Arguments fisnan {s}.
Arguments fmax2 {s}.
Arguments fmaxfin {s}.
Arguments feps {s}.
Arguments flit {s}.
Arguments fplan {s}.

(** The working dtype together with [torch.double] and the two casts
    ([.type(torch.double)], [.type(self.dtype)]). *)
Record Num : Type := mkNum {
  sc : Scalar;
  db : Scalar;
  up : sc -> db;
  down : db -> sc
}.
Arguments up {n}.
Arguments down {n}.

Section Reductions.
Context {K : Scalar}.

Definition f0 : K := flit 0.
Definition f1 : K := flit 1.

(** [torch.sum] over one dimension. *)
Fixpoint feval (t : stree) (f : nat -> K) : K :=
  match t with
  | PZero => f0
  | PTerm k => f k
  | PAdd a b => fadd (feval a f) (feval b f)
  end.
Definition fsum (n : nat) (f : nat -> K) : K := feval (proj1_sig (fplan (s := K) n)) f.

(** [torch.max] over one nonempty dimension. *)
Fixpoint fmaxn (n : nat) (f : nat -> K) : K :=
  match n with
  | O => f 0%nat
  | S O => f 0%nat
  | S k => fmax2 (fmaxn k f) (f k)
  end.
End Reductions.

(** ** Tensor arithmetic notation. *)
Declare Scope ten_scope.
Delimit Scope ten_scope with ten.

(** A tensor used as an expression. *)
Coercion t2r {A} (t : tensor A) : res (tensor A) := Ok t.

Definition tadd {K : Scalar} := lift2 (@fadd K).
Definition tsub {K : Scalar} := lift2 (@fsub K).
Definition tmul {K : Scalar} := lift2 (@fmul K).
Definition tdiv {K : Scalar} := lift2 (@fdiv K).
Definition tpow {K : Scalar} := lift2 (@fpow K).
Definition tle {K : Scalar} := lift2 (@fle K).
Definition tlt {K : Scalar} := lift2 (@flt K).
Definition teq {K : Scalar} := lift2 (@feq K).
Definition tand := lift2 andb.
Definition topp {K : Scalar} := lift1 (@fopp K).
Definition texp {K : Scalar} := lift1 (@fexp K).
Definition tsqrt {K : Scalar} := lift1 (@fsqrt K).
Definition tabs {K : Scalar} := lift1 (@fabs K).
Definition tpown {K : Scalar} (m : res (tensor K)) (n : nat) := lift1 (fun x => fpown x n) m.
Definition tlit {K : Scalar} (q : Q) : res (tensor K) := Ok (scal (flit q)).
Definition tsum1 {K : Scalar} (m : res (tensor K)) : res (tensor K) :=
  rmap (reduce_last fsum) m.
Definition tsum1k {K : Scalar} (m : res (tensor K)) : res (tensor K) :=
  rmap (reduce_last_keep fsum) m.
Definition tmax1k {K : Scalar} (m : res (tensor K)) : res (tensor K) :=
  rmap (reduce_last_keep fmaxn) m.
Definition einsumK {K : Scalar} := @einsum K f1 fmul fsum.

Notation "a +t b" := (tadd a b) (at level 50, left associativity) : ten_scope.
Notation "a -t b" := (tsub a b) (at level 50, left associativity) : ten_scope.
Notation "a *t b" := (tmul a b) (at level 40, left associativity) : ten_scope.
Notation "a /t b" := (tdiv a b) (at level 40, left associativity) : ten_scope.
Notation "a <=t b" := (tle a b) (at level 70) : ten_scope.
Notation "a <t b" := (tlt a b) (at level 70) : ten_scope.
Notation "a &&t b" := (tand a b) (at level 71, left associativity) : ten_scope.

(** Constant tables: nested lists of scaled integers. *)
Definition lit_of (d : positive) (z : Z) {K : Scalar} : K := flit (z # d).

Definition table2 {A} (n1 n2 : nat) (f : Z -> A) (l : list (list Z)) : tensor A :=
  mkT [n2; n1] (fun i => match i with
                         | [r; z] => f (nth r (nth z l []) 0%Z)
                         | _ => f 0%Z
                         end).

Definition table3 {A} (n1 n2 n3 : nat) (f : Z -> A) (l : list (list (list Z))) : tensor A :=
  mkT [n3; n2; n1] (fun i => match i with
                             | [w; r; z] => f (nth w (nth r (nth z l []) []) 0%Z)
                             | _ => f 0%Z
                             end).

Definition table1 {A} (n : nat) (f : Z -> A) (l : list Z) : tensor A :=
  mkT [n] (fun i => match i with
                    | [z] => f (nth z l 0%Z)
                    | _ => f 0%Z
                    end).
