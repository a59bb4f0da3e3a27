(** * Histories of operations on damping objects, terms and [Disp] objects (specification layer) *)
From Coq Require Import List Arith ZArith QArith Bool String.
From Verif Require Import Py Tensor Scalar ModelExt ModelUtils ModelDamping ModelModels
  ModelTerms ModelDisp ModelStore SpecCall.
Import ListNotations.
Open Scope string_scope.

Section S.
Context {N : Num} (X : Ext (sc N)) (W : World N).
Notation K := (sc N).

(** What a user can do.  Objects are numbered in the order of their creation (damping objects
    after those made at import). *)
Inductive event : Type :=
| NewDamping (d : Damping K)                                   (* d() *)
| NewTerm (t : term_obj)                                       (* cls(damping_fn=.., charge_dependent=..) *)
| NewDisp (TERMS : list term_obj) (model : marg N) (kw : mkwargs N)
          (cn_fn : option (CNFunc N)) (cn_kw : option (CountF N))
| Register (i t : nat)                                         (* disp.register(term) *)
| Deregister (i t : nat)
| Calculate (i : nat) (a : Args N)                             (* disp.calculate(..) *)
| CallDamping (l : nat) (dist radii : tensor K) (order : nat) (only : bool) (param : Param K)
| CallDftd4 (a : Args N) (model : marg N) (cn : CNFunc N) (cf : CountF N) (l : nat).

(** references occurring in the event are to existing objects *)
Definition exists_damp (s : store N) (l : nat) : bool := (l <? List.length (s_damp s))%nat.
Definition possible (s : store N) (e : event) : bool :=
  match e with
  | NewDamping _ => true
  | NewTerm t => exists_damp s (o_damping t)
  | NewDisp ts _ _ _ _ => forallb (fun t => exists_damp s (o_damping t)) ts
  | Register i t | Deregister i t => (i <? List.length (s_disps s))%nat && (t <? List.length (s_terms s))%nat
  | Calculate i _ => (i <? List.length (s_disps s))%nat
  | CallDamping l _ _ _ _ _ => exists_damp s l
  | CallDftd4 _ _ _ _ l => exists_damp s l
  end.

(** the result of an event: an exception, a tensor, or nothing *)
Definition no_value {A} (m : M N A) : M N (option (tensor K)) :=
  fun s => let '(s', r) := m s in (s', rmap (fun _ => None) r).
Definition value (m : M N (tensor K)) : M N (option (tensor K)) :=
  fun s => let '(s', r) := m s in (s', rmap Some r).
(** the objects made by a call are garbage when it has returned *)
Definition collect {A} (m : M N A) : M N A :=
  fun s => let '(s', r) := m s in
    (mkStore (firstn (List.length (s_damp s)) (s_damp s')) (firstn (List.length (s_terms s)) (s_terms s'))
             (firstn (List.length (s_disps s)) (s_disps s')), r).

Definition do (e : event) : M N (option (tensor K)) :=
  match e with
  | NewDamping d => no_value (alloc_damp d)
  | NewTerm t => no_value (alloc_term t)
  | NewDisp ts model kw cnf cnk => no_value (new_disp_obj W ts model kw cnf cnk)
  | Register i t => no_value (register_obj i t)
  | Deregister i t => no_value (deregister_obj i t)
  | Calculate i a => value (calculate_obj X W i (a_numbers a) (a_positions a) (a_charge a) (a_param a)
                              (a_cutoff a) (a_q a) (a_rcov a) (a_r4r2 a) (a_rvdw a))
  | CallDamping l dist radii order only param => value (damping_call_obj l dist radii order only param)
  | CallDftd4 a model cn cf l =>
      value (collect (dftd4_obj X W (a_numbers a) (a_positions a) (a_charge a) (a_param a) model
               (a_rcov a) (a_r4r2 a) (a_rvdw a) (a_q a) (a_cutoff a) cn cf l))
  end.

Definition step (s : store N) (e : event) : store N :=
  if possible s e then fst (do e s) else s.
Definition result (s : store N) (e : event) : res (option (tensor K)) := snd (do e s).
Definition after (history : list event) : store N := fold_left step history (import X).

(** ** What an object is at a given time *)
Definition the_damping (s : store N) (l : nat) : option (Damping K) :=
  option_map o_class (nth_error (s_damp s) l).
Definition the_term (s : store N) (t : nat) : option (DispTerm N) :=
  match nth_error (s_terms s) t with
  | Some o => option_map (fun d => mkTerm (o_tclass o) d (o_cdep o)) (the_damping s (o_damping o))
  | None => None
  end.
Fixpoint all {A} (l : list (option A)) : option (list A) :=
  match l with
  | [] => Some []
  | Some x :: l => option_map (cons x) (all l)
  | None :: _ => None
  end.
Definition the_disp (s : store N) (i : nat) : option (Disp N) :=
  match nth_error (s_disps s) i with
  | Some o => option_map (with_terms (o_conf o)) (all (map (the_term s) (o_terms o)))
  | None => None
  end.

(** ** Counters: how many terms of each sort are registered.  A sort is the class of the term,
    the class of its damping function and the flag [charge_dependent]. *)
Definition sort : Type := tclass * string * bool.
Definition sort_eqb (a b : sort) : bool :=
  tclass_eqb (fst (fst a)) (fst (fst b)) && (snd (fst a) =? snd (fst b)) && Bool.eqb (snd a) (snd b).
Definition sort_of (t : DispTerm N) : sort := (t_class t, d_class (t_damping t), t_cdep t).

Record counters : Type := mkC {
  c_damp : list string; c_terms : list sort; c_disps : list (sort -> nat) }.
Definition bump (f : nat -> nat) (k : sort) (c : sort -> nat) : sort -> nat :=
  fun k' => if sort_eqb k k' then f (c k') else c k'.
Definition update {A} (l : list A) (i : nat) (f : A -> A) : list A :=
  match nth_error l i with Some x => ModelStore.set_nth l i (f x) | None => l end.
Definition sort_in (c : counters) (t : term_obj) : option sort :=
  option_map (fun d => (o_tclass t, d, o_cdep t)) (nth_error (c_damp c) (o_damping t)).
(** a [Disp] cannot be made with an unknown model *)
Definition can_make (model : marg N) (kw : mkwargs N) (cnf : option (CNFunc N)) (cnk : option (CountF N)) : bool :=
  match new_disp W [] model kw cnf cnk with Ok _ => true | Raise _ => false end.
Definition count (c : counters) (e : event) : counters :=
  match e with
  | NewDamping d => mkC (c_damp c ++ [d_class d]) (c_terms c) (c_disps c)
  | NewTerm t => match sort_in c t with
                 | Some k => mkC (c_damp c) (c_terms c ++ [k]) (c_disps c)
                 | None => c end
  | NewDisp ts model kw cnf cnk =>
      match all (map (sort_in c) ts) with
      | Some ks => mkC (c_damp c) (c_terms c ++ if can_make model kw cnf cnk then ks else [])
                     (c_disps c ++ if can_make model kw cnf cnk
                                   then [fold_right (bump S) (fun _ => 0%nat) ks] else [])
      | None => c end
  | Register i t => match nth_error (c_terms c) t with
                    | Some k => mkC (c_damp c) (c_terms c) (update (c_disps c) i (bump S k))
                    | None => c end
  | Deregister i t => match nth_error (c_terms c) t with
                      | Some k => mkC (c_damp c) (c_terms c) (update (c_disps c) i (bump pred k))
                      | None => c end
  | _ => c
  end.
Definition counted (history : list event) : counters :=
  fold_left count history
    (mkC (map (fun o => d_class (o_class o)) (s_damp (import X))) [] []).

(** only the damping functions of the package *)
Definition package_damping (d : Damping K) : Prop :=
  In d [RationalDamping; ZeroDamping X; MZeroDamping X; OptimisedPowerDamping].
Definition package_only (history : list event) : Prop :=
  forall d, In (NewDamping d) history -> package_damping d.

(** calls only (no object is made or changed by the user) *)
Definition is_call (e : event) : bool :=
  match e with Calculate _ _ | CallDamping _ _ _ _ _ _ | CallDftd4 _ _ _ _ _ => true | _ => false end.
End S.
Arguments event N : clear implicits.
