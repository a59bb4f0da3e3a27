(** * Python results: exceptions as values.

    Every modelled Python function returns [res A]: either a value or the class
    of the exception that the call raises.  Messages are not modelled. *)
From Coq Require Import List String Ascii.
Import ListNotations.

Inductive exn : Type :=
| ValueError | TypeError | KeyError | RuntimeError | IndexError
| NotImplementedError | AssertionError | FileNotFoundError | AttributeError.

Inductive res (A : Type) : Type :=
| Ok (a : A)
| Raise (e : exn).
Arguments Ok {A} a.
Arguments Raise {A} e.

Definition bind {A B} (m : res A) (k : A -> res B) : res B :=
  match m with Ok a => k a | Raise e => Raise e end.

Definition rmap {A B} (f : A -> B) (m : res A) : res B :=
  match m with Ok a => Ok (f a) | Raise e => Raise e end.

Declare Scope py_scope.
Delimit Scope py_scope with py.
Notation "x <- m ;; k" := (bind m (fun x => k))
  (at level 61, m at next level, right associativity) : py_scope.
Notation "m ;;; k" := (bind m (fun _ => k))
  (at level 61, right associativity) : py_scope.

(** [raise_if b e]: an [if b: raise e] statement. *)
Definition raise_if (b : bool) (e : exn) : res unit :=
  if b then Raise e else Ok tt.

(** [None]-able arguments are [option]s. *)
Definition default {A} (o : option A) (d : A) : A :=
  match o with Some a => a | None => d end.

(** Python [dict] with string keys: association list, first binding wins.
    Only lookup, membership, deletion and update are used by the code. *)
Definition dict (V : Type) := list (string * V).

Fixpoint dget {V} (d : dict V) (k : string) : option V :=
  match d with
  | [] => None
  | (k', v) :: d' => if String.eqb k' k then Some v else dget d' k
  end.

Definition dmem {V} (d : dict V) (k : string) : bool :=
  match dget d k with Some _ => true | None => false end.

Fixpoint dset {V} (d : dict V) (k : string) (v : V) : dict V :=
  match d with
  | [] => [(k, v)]
  | (k', v') :: d' => if String.eqb k' k then (k, v) :: d' else (k', v') :: dset d' k v
  end.

Definition dpop {V} (d : dict V) (k : string) : dict V :=
  filter (fun kv => negb (String.eqb (fst kv) k)) d.

(** [d[k]] as an expression: [KeyError] when missing. *)
Definition dgetitem {V} (d : dict V) (k : string) : res V :=
  match dget d k with Some v => Ok v | None => Raise KeyError end.

(** [str.casefold] restricted to ASCII (the only simplification: non-ASCII
    characters are left unchanged). *)
Definition ascii_lower (c : ascii) : ascii :=
  let n := nat_of_ascii c in
  if andb (Nat.leb 65 n) (Nat.leb n 90) then ascii_of_nat (n + 32) else c.

Fixpoint casefold (s : string) : string :=
  match s with
  | EmptyString => EmptyString
  | String c s' => String (ascii_lower c) (casefold s')
  end.

(** ["c" in s] for a one-character string. *)
Fixpoint str_has (c : ascii) (s : string) : bool :=
  match s with
  | EmptyString => false
  | String c' s' => if Ascii.eqb c c' then true else str_has c s'
  end.

Definition str_in (k : string) (l : list string) : bool :=
  existsb (String.eqb k) l.
