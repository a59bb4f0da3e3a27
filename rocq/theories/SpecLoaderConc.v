(** * Threads that call [get_params] and change the dictionaries they hold (specification) *)
From Coq Require Import List Arith String QArith Bool.
From Verif Require Import Py DataToml ModelLoader ModelLoaderConc SpecLoader.
Import ListNotations.
Open Scope string_scope.

(** The interpreter, the dictionaries that user code (of any thread) has references to, and the
    calls of [get_params] in the order they were begun. *)
Record system : Type := mkSys { y_state : cstate; y_held : list nat; y_calls : list (prog nat) }.

(** What happens next: user code of some thread does something (a [Call] is begun, and nothing more
    than that), or call number [k] makes one step. *)
Inductive action : Type := User (e : event) | Go (k : nat).

Section S.
Context (files : meth -> option toml).
Definition happens (y : system) (a : action) : system :=
  match a with
  | User (Call method functional variant keep) =>
      mkSys (y_state y) (y_held y) (y_calls y ++ [get_params_th files method functional variant keep])
  | User e =>
      let s := step files (mkSession (c_py (y_state y)) (y_held y)) e in
      mkSys (mkC (s_py s) (c_reads (y_state y))) (s_held s) (y_calls y)
  | Go k =>
      match nth_error (y_calls y) k with
      | Some (PStep u n) =>
          mkSys (u (y_state y))
                (match n (y_state y) with PDone (Ok l) => y_held y ++ [l] | _ => y_held y end)
                (set_nth (y_calls y) k (n (y_state y)))
      | _ => y
      end
  end.
Definition sys0 : system := mkSys (mkC (mkPy [] (fun _ => None)) []) [] [].
(** any execution: a list of actions from the start of the program on *)
Definition execution (l : list action) : system := fold_left happens l sys0.
End S.

(** the result of call [k]: [None] while it is running (or if there is no such call) *)
Definition outcome (y : system) (k : nat) : option (res nat) :=
  match nth_error (y_calls y) k with Some (PDone r) => Some r | _ => None end.
(** the arguments of the calls, in the order they were begun *)
Definition begun (l : list action) : list (string * option string * option string * bool) :=
  flat_map (fun a => match a with User (Call m f v b) => [(m, f, v, b)] | _ => [] end) l.
(** number of steps that call [k] was given *)
Definition given (k : nat) (l : list action) : nat :=
  List.length (filter (fun a => match a with Go j => Nat.eqb j k | _ => false end) l).
(** number of calls that have not finished *)
Definition running (y : system) : nat :=
  List.length (filter (fun p => match p with PStep _ _ => true | _ => false end) (y_calls y)).
Definition times_read (y : system) (m : meth) : nat :=
  List.length (filter (fun m' => meth_value m' =? meth_value m) (c_reads (y_state y))).

(** a call that is never interrupted *)
Fixpoint uninterrupted {A} (p : prog A) (s : cstate) : cstate * res A :=
  match p with PDone r => (s, r) | PStep u n => uninterrupted (n s) (u s) end.
