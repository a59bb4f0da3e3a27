(** * Definitions of damping classes (specification layer) *)
From Coq Require Import List Arith Bool String.
From Verif Require Import Py Tensor Scalar ModelExt ModelUtils ModelDamping ModelSubclass.
Import ListNotations.
Open Scope py_scope.
Open Scope string_scope.

Section C.
Context {K : Scalar}.
Notation T := (tensor K).

(** A class as it is written: [Damping] itself; an ordinary class that does not derive from [Damping];
    a subclass of [Damping] with the attributes it declares and the classes that follow it in its method
    resolution order. *)
Inductive decl : Type :=
| Root
| Mixin (name : string) (req : option reqmap) (f : option (fdef K))
| Sub (name : string) (req : option reqmap) (f : option (fdef K)) (mro : list decl).

Definition own_req (d : decl) : option reqmap :=
  match d with Root => None | Mixin _ r _ => r | Sub _ r _ _ => r end.
Definition mro_of (d : decl) : list decl := match d with Sub _ _ _ m => m | _ => [] end.
(** the requirements that are visible in the class: its own, else those of the next class that has some *)
Definition visible_req (d : decl) : reqmap := default (first_some own_req (d :: mro_of d)) [].

(** all classes in the method resolution order of a subclass of [Damping] exist, [Damping] among them *)
Inductive wf : decl -> Prop :=
| wf_root : wf Root
| wf_mixin n r f : wf (Mixin n r f)
| wf_sub n r f m : In Root m -> (forall e, In e m -> wf e) -> wf (Sub n r f m).

(** [uses d f maps]: calls of objects of class [d] run the function [f] and are subject to the requirements
    [maps]: those visible in [d], and, where [d] does not define [_f] itself, those of the class it
    takes [_f] from.  This is the next class [e] of its method resolution order that defines [_f] or,
    being a subclass of [Damping], has requirements (so that it has a checking function of its own). *)
Definition provides (d : decl) : Prop :=
  match d with
  | Root => True
  | Mixin _ _ f => f <> None
  | Sub _ _ f _ => f <> None \/ visible_req d <> []
  end.
Definition next_provider (l : list decl) (e : decl) : Prop :=
  exists before after, l = (before ++ e :: after)%list /\ provides e /\ forall x, In x before -> ~ provides x.

Definition with_own (d : decl) (maps : list reqmap) : list reqmap :=
  match visible_req d with [] => maps | m => m :: maps end.

Inductive uses : decl -> fdef K -> list reqmap -> Prop :=
| uses_root : uses Root damping_f_def []
| uses_mixin n r f : uses (Mixin n r (Some f)) f []
| uses_own n r f m : uses (Sub n r (Some f) m) f (with_own (Sub n r (Some f) m) [])
| uses_inherited n r m e f maps : next_provider m e -> uses e f maps ->
    uses (Sub n r None m) f (with_own (Sub n r None m) maps).

(** running the class statements, bases first *)
Fixpoint define (d : decl) : res (cls K) :=
  match d with
  | Root => Ok damping_cls
  | Mixin n r f => Ok (Cls n r (option_map plain f) [])
  | Sub n r f m =>
      l <- (fix all (m : list decl) : res (list (cls K)) :=
              match m with
              | [] => Ok []
              | e :: m' => c <- define e ;; l <- all m' ;; Ok (c :: l)
              end) m ;;
      new_class n r f l
  end.

(** a name that is required for some order but is no parameter of the function *)
Definition unknown_name (d : decl) (f : fdef K) : Prop :=
  exists o names n, In (o, names) (visible_req d) /\ In n names /\ ~ In n (param_names (fd_sig f)).

(** in the bound arguments [b] a required value is missing or [None] *)
Definition lacks (maps : list reqmap) (b : dict (val K)) : Prop :=
  exists m v o n, In m maps /\ dget b "order" = Some v /\ order_key v = Some o /\
    In n (req_get m o) /\ (dget b n = None \/ dget b n = Some (VPar PNone)).

(** the arguments passed to [_f] by a call of the object *)
Definition positional (dist radii : T) (order : nat) : list (val K) := [VSelf; VTen dist; VTen radii; VInt order].
(** orders for which the call returns zeros without calling [_f] *)
Definition skipped (order : nat) (a : dargs K) : bool :=
  match order with
  | 6 => is_none (g_s6 a) && is_none (g_rs6 a)
  | 8 => is_none (g_s8 a) && is_none (g_rs8 a)
  | 9 => is_none (g_s9 a) && is_none (g_rs9 a)
  | 10 => is_none (g_s10 a)
  | _ => false
  end%nat.

(** Python's rules for a call with arguments [args] by position and [kw] by name: no more arguments by position than
    parameters, unless there is [*args]; no parameter given twice; none without default left out; no name that is not
    a parameter, unless there is [**kwargs] *)
Definition fits (s : signature K) (args : list (val K)) (kw : dict (val K)) : Prop :=
  ((List.length args <= List.length (sg_pos s))%nat \/ sg_varargs s <> None) /\
  (forall i n d, nth_error (sg_pos s) i = Some (n, d) ->
     if (i <? List.length args)%nat then dget kw n = None else dget kw n <> None \/ d <> None) /\
  (forall n d, In (n, d) (sg_kwonly s) -> dget kw n <> None \/ d <> None) /\
  (sg_varkw s <> None \/ forall n v, In (n, v) kw -> In n (map fst (sg_pos s)) \/ In n (map fst (sg_kwonly s))).
(** the value by name, else the default *)
Definition given (kw : dict (val K)) (n : string) (d : option (val K)) : option (val K) :=
  match dget kw n with Some v => Some v | None => d end.
(** the value every parameter has in the function *)
Definition bound_as (s : signature K) (args : list (val K)) (kw b : dict (val K)) : Prop :=
  (forall i n d, nth_error (sg_pos s) i = Some (n, d) ->
     dget b n = if (i <? List.length args)%nat then nth_error args i else given kw n d) /\
  (forall n, sg_varargs s = Some n -> dget b n = Some (VTuple (skipn (List.length (sg_pos s)) args))) /\
  (forall n d, In (n, d) (sg_kwonly s) -> dget b n = given kw n d) /\
  (forall n, sg_varkw s = Some n -> exists l, dget b n = Some (VDict l) /\
     forall k v, In (k, v) l <-> In (k, v) kw /\ ~ In k (map fst (sg_pos s)) /\ ~ In k (map fst (sg_kwonly s))) /\
  (forall n, ~ In n (param_names s) -> dget b n = None).
End C.
Arguments decl K : clear implicits.
