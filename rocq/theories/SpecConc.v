(** * Threads that share damping objects, terms and [Disp] objects (specification layer) *)
From Coq Require Import List Arith ZArith QArith Bool String.
From Verif Require Import Py Tensor Scalar ModelExt ModelUtils ModelDamping ModelModels
  ModelTerms ModelDisp ModelStore ModelConc SpecCall SpecStore.
Import ListNotations.

Section S.
Context {N : Num} (X : Ext (sc N)) (W : World N).
Notation K := (sc N).
Notation store := (store N).

(** What a thread does: the events of SpecStore.v, or the following, with objects that the thread
    makes itself: [p = cls(..)], [p.register(term)] for some new terms, [p.calculate(..)]. *)
Inductive job : Type :=
| Do (e : event N)
| Own (TERMS : list term_obj) (model : marg N) (kw : mkwargs N) (cn_fn : option (CNFunc N))
      (cn_kw : option (CountF N)) (extra : list term_obj) (a : Args N).

Definition value {A} (f : A -> option (tensor K)) (m : P N A) : P N (option (tensor K)) :=
  bindP m (fun x => Done (Ok (f x))).
Definition no_value {A} : P N A -> P N (option (tensor K)) := value (fun _ => None).
Definition calc (i : nat) (a : Args N) : P N (tensor K) :=
  calculate_th X W i (a_numbers a) (a_positions a) (a_charge a) (a_param a)
    (a_cutoff a) (a_q a) (a_rcov a) (a_r4r2 a) (a_rvdw a).
Fixpoint register_new (i : nat) (extra : list term_obj) : P N unit :=
  match extra with
  | [] => Done (Ok tt)
  | x :: l => bindP (act (alloc_term x)) (fun t => bindP (register_th i t) (fun _ => register_new i l))
  end.

Definition program (j : job) : P N (option (tensor K)) :=
  match j with
  | Do (NewDamping d) => no_value (act (alloc_damp d))
  | Do (NewTerm t) => no_value (act (alloc_term t))
  | Do (NewDisp ts model kw cnf cnk) => no_value (new_disp_th W ts model kw cnf cnk)
  | Do (Register i t) => no_value (register_th i t)
  | Do (Deregister i t) => no_value (deregister_th i t)
  | Do (Calculate i a) => value Some (calc i a)
  | Do (CallDamping l dist radii order only param) =>
      value Some (damping_call_th l dist radii order only param)
  | Do (CallDftd4 a model cn cf l) =>
      value Some (dftd4_th X W (a_numbers a) (a_positions a) (a_charge a) (a_param a) model
               (a_rcov a) (a_r4r2 a) (a_rvdw a) (a_q a) (a_cutoff a) cn cf l)
  | Own ts model kw cnf cnk extra a =>
      bindP (new_disp_th W ts model kw cnf cnk) (fun i =>
      bindP (register_new i extra) (fun _ => value Some (calc i a)))
  end.

(** a thread does its jobs one after the other, and keeps the result or the exception of each *)
Fixpoint thread (jobs : list job) : P N (list (res (option (tensor K)))) :=
  match jobs with
  | [] => Done (Ok [])
  | j :: js => after_any (program j) (fun r => bindP (thread js) (fun rs => Done (Ok (r :: rs))))
  end.

(** ** Interleavings: a schedule says which thread makes the next step (a thread that has finished,
    or does not exist, makes none).  A thread that does not occur any more in the schedule has been
    stopped, or is waiting. *)
Record pool (A : Type) : Type := mkPool { shared : store; progs : list (P N A) }.
Arguments mkPool {A}. Arguments shared {A}. Arguments progs {A}.
Definition tick {A} (c : pool A) (k : nat) : pool A :=
  match nth_error (progs c) k with
  | Some (Step u n) => mkPool (u (shared c)) (ModelStore.set_nth (progs c) k (n (shared c)))
  | _ => c
  end.
Definition interleave {A} (schedule : list nat) (c : pool A) : pool A := fold_left tick schedule c.

(** threads started after a history of (sequential) operations, run with a schedule *)
Definition concurrently (history : list (event N)) (threads : list (list job)) (schedule : list nat) :
  pool (list (res (option (tensor K)))) :=
  interleave schedule (mkPool (after X W history) (map thread threads)).

(** the results of thread [k], if it has finished *)
Definition results {A} (c : pool (list A)) (k : nat) : option (list A) :=
  match nth_error (progs c) k with Some (Done (Ok l)) => Some l | _ => None end.

(** ** What a job gives when nothing else happens *)
Definition described (s : store) (t : term_obj) : option (DispTerm N) :=
  option_map (fun d => mkTerm (o_tclass t) d (o_cdep t)) (the_damping s (o_damping t)).
Definition alone (s : store) (j : job) : res (option (tensor K)) :=
  match j with
  | Do e => result X W s e
  | Own ts model kw cnf cnk extra a =>
      match all (map (described s) (ts ++ extra)) with
      | None => Raise AttributeError
      | Some terms => bind (new_disp W terms model kw cnf cnk) (fun p => rmap Some (run X W p a))
      end
  end.

(** jobs that register or deregister nothing with an object that other threads can see, and refer
    to existing objects only *)
Definition independent (s : store) (j : job) : bool :=
  match j with
  | Do (Register _ _) | Do (Deregister _ _) => false
  | Do e => possible s e
  | Own ts _ _ _ _ extra _ => forallb (fun t => exists_damp s (o_damping t)) (ts ++ extra)
  end.
End S.
Arguments job N : clear implicits.
Arguments pool N A : clear implicits.
Arguments mkPool {N A}. Arguments shared {N A}. Arguments progs {N A}.
