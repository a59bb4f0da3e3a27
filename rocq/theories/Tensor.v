(** * PyTorch tensors: shapes, broadcasting, reductions, indexing, einsum.

    A tensor is a shape together with a total data function on index lists;
    only the values at [valid] indices are meaningful.

    CONVENTION.  Shapes and indices are stored INNERMOST DIMENSION FIRST, so
    that PyTorch's dimension [-1] is the head of the list, [-2] the second
    element, and the leading batch dimensions [...] are the tail.  A tensor of
    PyTorch shape [(b, nat, 3)] has [shp = [3; nat; b]], and entry [t[b,i,c]]
    is [dat t [c; i; b]]. *)
From Coq Require Import List Arith ZArith Bool String Ascii.
From Verif Require Import Py.
Import ListNotations.
Open Scope py_scope.

Record tensor (A : Type) : Type := mkT { shp : list nat; dat : list nat -> A }.
Arguments mkT {A} shp dat.
Arguments shp {A} t.
Arguments dat {A} t i.

(** [valid s i]: [i] is an index list of a tensor of shape [s]. *)
Fixpoint valid (s i : list nat) : Prop :=
  match s, i with
  | [], [] => True
  | n :: s', x :: i' => x < n /\ valid s' i'
  | _, _ => False
  end.

(** All valid indices, as a list. *)
Fixpoint all_idx (s : list nat) : list (list nat) :=
  match s with
  | [] => [[]]
  | n :: s' => flat_map (fun x => map (cons x) (all_idx s')) (seq 0 n)
  end.

Fixpoint shape_eqb (s1 s2 : list nat) : bool :=
  match s1, s2 with
  | [], [] => true
  | a :: s1', b :: s2' => Nat.eqb a b && shape_eqb s1' s2'
  | _, _ => false
  end.

(** ** Broadcasting (PyTorch semantics: align at the innermost dimension;
    sizes must agree or be 1). *)
Definition bdim (a b : nat) : option nat :=
  if Nat.eqb a b then Some a
  else if Nat.eqb a 1 then Some b
  else if Nat.eqb b 1 then Some a
  else None.

Fixpoint bshape (s1 s2 : list nat) : option (list nat) :=
  match s1, s2 with
  | [], _ => Some s2
  | _, [] => Some s1
  | a :: s1', b :: s2' =>
      match bdim a b, bshape s1' s2' with
      | Some c, Some s => Some (c :: s)
      | _, _ => None
      end
  end.

(** Index into an operand of shape [s] for index [i] of the broadcast result. *)
Fixpoint bidx (s i : list nat) : list nat :=
  match s, i with
  | [], _ => []
  | n :: s', x :: i' => (if Nat.eqb n 1 then 0 else x) :: bidx s' i'
  | n :: s', [] => 0 :: bidx s' []
  end.

Section Ops.
Context {A B C D : Type}.

(** 0-dimensional tensor, [torch.tensor(x)]. *)
Definition scal (x : A) : tensor A := mkT [] (fun _ => x).

Definition tmap (f : A -> B) (t : tensor A) : tensor B :=
  mkT (shp t) (fun i => f (dat t i)).

(** Elementwise binary operation with broadcasting. *)
Definition tmap2 (f : A -> B -> C) (t : tensor A) (u : tensor B) : res (tensor C) :=
  match bshape (shp t) (shp u) with
  | Some s => Ok (mkT s (fun i => f (dat t (bidx (shp t) i)) (dat u (bidx (shp u) i))))
  | None => Raise RuntimeError
  end.

(** Lifted versions: operands are results of earlier expressions. *)
Definition lift1 (f : A -> B) (m : res (tensor A)) : res (tensor B) :=
  t <- m ;; Ok (tmap f t).

Definition lift2 (f : A -> B -> C) (m : res (tensor A)) (n : res (tensor B))
  : res (tensor C) :=
  t <- m ;; u <- n ;; tmap2 f t u.

(** [t.unsqueeze(-d)], [1 <= d]: new dimension of size 1 at position [-d]. *)
Definition unsq (d : nat) (t : tensor A) : res (tensor A) :=
  match d with
  | O => Raise IndexError
  | S k =>
      if Nat.leb k (List.length (shp t)) then
        Ok (mkT (firstn k (shp t) ++ 1 :: skipn k (shp t))
                (fun i => dat t (firstn k i ++ skipn (S k) i)))
      else Raise IndexError
  end.

Definition unsqueeze (d : nat) (m : res (tensor A)) : res (tensor A) :=
  t <- m ;; unsq d t.

(** [t.expand] to [s], for a full target shape. *)
Definition expand (s : list nat) (m : res (tensor A)) : res (tensor A) :=
  t <- m ;;
  match bshape (shp t) s with
  | Some s' => if shape_eqb s' s
               then Ok (mkT s (fun i => dat t (bidx (shp t) i)))
               else Raise RuntimeError
  | None => Raise RuntimeError
  end.

(** Reduction over dimension [-1]; [red n f] reduces [f 0 .. f (n-1)].
    A 0-dimensional tensor is returned unchanged, as in PyTorch. *)
Definition reduce_last (red : nat -> (nat -> A) -> A) (t : tensor A) : tensor A :=
  match shp t with
  | [] => t
  | n :: s => mkT s (fun i => red n (fun x => dat t (x :: i)))
  end.

Definition reduce_last_keep (red : nat -> (nat -> A) -> A) (t : tensor A) : tensor A :=
  match shp t with
  | [] => t
  | n :: s => mkT (1 :: s) (fun i => red n (fun x => dat t (x :: tl i)))
  end.

(** [t[..., 0]]. *)
Definition select_last0 (m : res (tensor A)) : res (tensor A) :=
  t <- m ;;
  match shp t with
  | [] => Raise IndexError
  | n :: s => if Nat.ltb 0 n then Ok (mkT s (fun i => dat t (0 :: i)))
              else Raise IndexError
  end.

End Ops.

(** [torch.where(c, a, b)]. *)
Definition where3 {A} (c : bool) (a b : A) : A := if c then a else b.

Definition twhere {A} (c : res (tensor bool)) (a b : res (tensor A)) : res (tensor A) :=
  lift2 (fun (cx : bool * A) y => where3 (fst cx) (snd cx) y)
        (lift2 (fun c x => (c, x)) c a) b.

(** ** Advanced indexing [table[numbers]].

    PyTorch wraps negative indices once and raises [IndexError] otherwise. *)
Definition wrap_index (n : nat) (z : Z) : option nat :=
  if (0 <=? z)%Z then
    if (z <? Z.of_nat n)%Z then Some (Z.to_nat z) else None
  else
    if (- Z.of_nat n <=? z)%Z then Some (Z.to_nat (z + Z.of_nat n)) else None.

Definition index_ok (n : nat) (z : Z) : bool :=
  match wrap_index n z with Some _ => true | None => false end.

Definition wrapped (n : nat) (z : Z) : nat := default (wrap_index n z) 0.

(** The leading (outermost) dimension is the last element of [shp]. *)
Definition gather {A} (table : tensor A) (ix : tensor Z) : res (tensor A) :=
  match shp table with
  | [] => Raise IndexError
  | s0 :: s' =>
      let rest := removelast (s0 :: s') in
      let n := List.last (s0 :: s') 0 in
      let k := List.length rest in
      if forallb (fun i => index_ok n (dat ix i)) (all_idx (shp ix)) then
        Ok (mkT (rest ++ shp ix)
                (fun i => dat table (firstn k i ++ [wrapped n (dat ix (skipn k i))])))
      else Raise IndexError
  end.

(** [table[ix1, ix2]] for a two-dimensional table. *)
Definition gather2 {A} (table : tensor A) (ix1 ix2 : res (tensor Z)) : res (tensor A) :=
  p <- lift2 (fun a b => (a, b)) ix1 ix2 ;;
  match shp table with
  | [n2; n1] =>
      if forallb (fun i => index_ok n1 (fst (dat p i)) && index_ok n2 (snd (dat p i)))
                 (all_idx (shp p)) then
        Ok (mkT (shp p)
                (fun i => dat table [wrapped n2 (snd (dat p i)); wrapped n1 (fst (dat p i))]))
      else Raise IndexError
  | _ => Raise IndexError
  end.

(** ** einsum.

    Operand subscripts are either [Ell "iaw"] for ["...iaw"] or [NoEll "w"].
    As in PyTorch, sizes of equal labels are broadcast against each other, the
    ellipsis dimensions of the operands are broadcast, labels absent from the
    output are summed. *)
Inductive subs : Type := Ell (s : string) | NoEll (s : string).

Definition sub_labels (s : subs) : list ascii :=
  rev (list_ascii_of_string (match s with Ell x => x | NoEll x => x end)).

Definition sub_ell (s : subs) : bool := match s with Ell _ => true | NoEll _ => false end.

Definition lenv := list (ascii * nat).

Fixpoint lget (e : lenv) (l : ascii) : option nat :=
  match e with
  | [] => None
  | (l', n) :: e' => if Ascii.eqb l' l then Some n else lget e' l
  end.

Fixpoint lset (e : lenv) (l : ascii) (n : nat) : lenv :=
  match e with
  | [] => [(l, n)]
  | (l', n') :: e' => if Ascii.eqb l' l then (l, n) :: e' else (l', n') :: lset e' l n
  end.

Definition lval (e : lenv) (l : ascii) : nat := default (lget e l) 0.

(** Bind labels to the innermost dimensions; returns the remaining shape. *)
Fixpoint bind_labels (e : lenv) (ls : list ascii) (s : list nat) : option (lenv * list nat) :=
  match ls with
  | [] => Some (e, s)
  | l :: ls' =>
      match s with
      | [] => None
      | n :: s' =>
          match lget e l with
          | None => bind_labels (lset e l n) ls' s'
          | Some m => match bdim m n with
                      | Some c => bind_labels (lset e l c) ls' s'
                      | None => None
                      end
          end
      end
  end.

(** Sizes of all labels, and broadcast ellipsis shape. *)
Fixpoint ein_sizes {A} (ops : list (subs * tensor A)) (e : lenv) (ell : list nat)
  : option (lenv * list nat) :=
  match ops with
  | [] => Some (e, ell)
  | (sb, t) :: ops' =>
      match bind_labels e (sub_labels sb) (shp t) with
      | None => None
      | Some (e', rest) =>
          if sub_ell sb then
            match bshape ell rest with
            | Some ell' => ein_sizes ops' e' ell'
            | None => None
            end
          else match rest with [] => ein_sizes ops' e' ell | _ => None end
      end
  end.

Section Einsum.
Context {A : Type} (one : A) (mul : A -> A -> A) (sum : nat -> (nat -> A) -> A).

(** Index of an operand under a label assignment and an ellipsis index. *)
Definition op_index (sb : subs) (s : list nat) (env : lenv) (e : list nat) : list nat :=
  let ls := sub_labels sb in
  bidx (firstn (List.length ls) s) (map (lval env) ls)
  ++ bidx (skipn (List.length ls) s) e.

Definition op_val (env : lenv) (e : list nat) (o : subs * tensor A) : A :=
  dat (snd o) (op_index (fst o) (shp (snd o)) env e).

Definition prod_ops (env : lenv) (e : list nat) (ops : list (subs * tensor A)) : A :=
  match ops with
  | [] => one
  | o :: ops' => fold_left (fun acc o' => mul acc (op_val env e o')) ops' (op_val env e o)
  end.

Fixpoint sum_labels (ls : lenv) (env : lenv) (body : lenv -> A) : A :=
  match ls with
  | [] => body env
  | (l, n) :: ls' => sum n (fun x => sum_labels ls' ((l, x) :: env) body)
  end.

Definition label_in (l : ascii) (ls : list ascii) : bool := existsb (Ascii.eqb l) ls.

Definition einsum (ops : list (subs * tensor A)) (out : subs) : res (tensor A) :=
  match ein_sizes ops [] [] with
  | None => Raise RuntimeError
  | Some (sizes, ell) =>
      let ol := sub_labels out in
      let k := List.length ol in
      if forallb (fun l => match lget sizes l with Some _ => true | None => false end) ol
      then
        let summed := filter (fun ln => negb (label_in (fst ln) ol)) sizes in
        Ok (mkT (map (lval sizes) ol ++ (if sub_ell out then ell else []))
                (fun i =>
                   sum_labels summed (combine ol (firstn k i))
                     (fun env => prod_ops env (skipn k i) ops)))
      else Raise RuntimeError
  end.

End Einsum.
