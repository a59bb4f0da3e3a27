(** * src/tad_dftd4/damping/functions.py: defining subclasses of [Damping]

    [Damping.__init_subclass__] (functions.py:68-114) runs when a subclass is defined: it checks the
    names in [REQUIRED_BY_ORDER] and replaces [_f] by a checking wrapper.  [ModelDamping.v] takes the
    wrapped function of one class for granted; here class definitions, attribute lookup along the
    method resolution order and the binding of arguments are modelled. *)
From Coq Require Import List Arith ZArith QArith Bool String.
From Verif Require Import Py Tensor Scalar ModelExt ModelUtils ModelDamping.
Import ListNotations.
Open Scope py_scope.
Open Scope string_scope.

Section C.
Context {K : Scalar}.
Notation T := (tensor K).

(** Python values that reach [_f]: the object, tensors, integers, booleans, parameters (numbers, [None],
    strings), and the tuple and dictionary that collect excess arguments. (functions.py:94-112) *)
Inductive val : Type :=
| VSelf | VTen (t : T) | VInt (n : nat) | VBool (b : bool) | VPar (p : pval K)
| VTuple (l : list val) | VDict (d : list (string * val)).

(** [inspect.Signature]: parameters that can be given by position (the object first), the name of
    [*args] if any, keyword-only parameters, the name of [**kwargs] if any.  Parameters that cannot be given by
    keyword are left out. (functions.py:78) *)
Record signature : Type := mkSig {
  sg_pos : list (string * option val);
  sg_varargs : option string;
  sg_kwonly : list (string * option val);
  sg_varkw : option string }.

(** [sig.parameters] (functions.py:83) *)
Definition param_names (s : signature) : list string :=
  (map fst (sg_pos s) ++ match sg_varargs s with Some n => [n] | None => [] end ++
   map fst (sg_kwonly s) ++ match sg_varkw s with Some n => [n] | None => [] end)%list.

(** [Signature.bind] followed by [BoundArguments.apply_defaults] (Python's [inspect]); calling a Python
    function binds its arguments in the same way (functions.py:96-97) *)
Fixpoint bind_pos (fs : list (string * option val)) (args : list val) (kw : dict val)
  : res (dict val * list val) :=
  match fs, args with
  | [], _ => Ok ([], args)
  | (n, _) :: fs', a :: args' =>
      if dmem kw n then Raise TypeError
      else r <- bind_pos fs' args' kw ;; Ok ((n, a) :: fst r, snd r)
  | (n, d) :: fs', [] =>
      match dget kw n, d with
      | Some v, _ | None, Some v => r <- bind_pos fs' [] kw ;; Ok ((n, v) :: fst r, snd r)
      | None, None => Raise TypeError
      end
  end.
(** Python: binding of keyword-only parameters, part of [Signature.bind] (functions.py:96-97) *)
Fixpoint bind_kw (fs : list (string * option val)) (kw : dict val) : res (dict val) :=
  match fs with
  | [] => Ok []
  | (n, d) :: fs' =>
      match dget kw n, d with
      | Some v, _ | None, Some v => r <- bind_kw fs' kw ;; Ok ((n, v) :: r)
      | None, None => Raise TypeError
      end
  end.
(** Python: [Signature.bind] and [apply_defaults] (functions.py:96-97) *)
Definition bind_args (s : signature) (args : list val) (kw : dict val) : res (dict val) :=
  p <- bind_pos (sg_pos s) args kw ;;
  va <- match snd p, sg_varargs s with
        | l, Some n => Ok [(n, VTuple l)]
        | [], None => Ok []
        | _ :: _, None => Raise TypeError
        end ;;
  k <- bind_kw (sg_kwonly s) kw ;;
  let rest := filter (fun e => negb (str_in (fst e) (map fst (sg_pos s) ++ map fst (sg_kwonly s))%list)) kw in
  vk <- match rest, sg_varkw s with
        | l, Some n => Ok [(n, VDict l)]
        | [], None => Ok []
        | _ :: _, None => Raise TypeError
        end ;;
  Ok (fst p ++ va ++ k ++ vk)%list.

(** A function definition in the source: signature, decorated by [abstractmethod] or not, body.  The body is
    any function of the bound arguments (also one that calls [super()._f]). (functions.py:171-190, 262-305) *)
Record fdef : Type := mkDef {
  fd_sig : signature; fd_abstract : bool; fd_body : dict val -> res T }.

(** A function object: what [inspect.signature] reports (it follows [__wrapped__]), [__isabstractmethod__]
    (copied by [functools.wraps]), and what a call does. (functions.py:78, 92-114) *)
Record fn : Type := mkFn {
  fn_sig : signature; fn_abstract : bool; fn_call : list val -> dict val -> res T }.
(** Python: the function object made by a [def] statement (functions.py:172, 262) *)
Definition plain (f : fdef) : fn :=
  mkFn (fd_sig f) (fd_abstract f) (fun args kw => b <- bind_args (fd_sig f) args kw ;; fd_body f b).

(** [REQUIRED_BY_ORDER]: a dictionary from orders to parameter names (functions.py:71-73, 255-259) *)
Definition reqmap := list (nat * list string).
(** [req_map.get(order_val, ())] (functions.py:100) *)
Fixpoint req_get (m : reqmap) (o : nat) : list string :=
  match m with
  | [] => []
  | (o', l) :: m' => if (o' =? o)%nat then l else req_get m' o
  end.
(** the integer a dictionary key is equal to (functions.py:99-100) *)
Definition order_key (v : val) : option nat :=
  match v with VInt n => Some n | VBool b => Some (if b then 1 else 0)%nat | _ => None end.
(** [bound.arguments.get(name, _MISSING) in (None, _MISSING)] (functions.py:105) *)
Definition val_missing (o : option val) : bool :=
  match o with None | Some (VPar PNone) => true | _ => false end.

(** the wrapper [_checked_f] (functions.py:94-112) *)
Definition checked (req_map : reqmap) (original_f : fn) : fn :=
  mkFn (fn_sig original_f) (fn_abstract original_f) (fun args kw =>
    bound <- bind_args (fn_sig original_f) args kw ;;
    order_val <- dgetitem bound "order" ;;
    let required := match order_key order_val with Some o => req_get req_map o | None => [] end in
    raise_if (existsb (fun name => val_missing (dget bound name)) required) TypeError ;;;
    fn_call original_f args kw).

(** A class object: name, own attributes [REQUIRED_BY_ORDER] and [_f], and the classes that follow
    it in its method resolution order. (functions.py:52-114) *)
Inductive cls : Type := Cls (name : string) (req : option reqmap) (f : option fn) (mro : list cls).
(** Python: the own attribute [REQUIRED_BY_ORDER] of a class *)
Definition c_req (c : cls) := let '(Cls _ r _ _) := c in r.
(** Python: the own attribute [_f] of a class *)
Definition c_f (c : cls) := let '(Cls _ _ f _) := c in f.
(** Python: [__mro__] without the class itself *)
Definition c_mro (c : cls) := let '(Cls _ _ _ m) := c in m.

(** attribute lookup: the first class of the method resolution order that has the attribute (Python) *)
Fixpoint first_some {A B} (f : A -> option B) (l : list A) : option B :=
  match l with
  | [] => None
  | a :: l' => match f a with Some b => Some b | None => first_some f l' end
  end.
(** [getattr(cls, 'REQUIRED_BY_ORDER', {})] (functions.py:71-73) *)
Definition get_req (c : cls) : option reqmap := first_some c_req (c :: c_mro c).
(** [cls._f] (functions.py:78, 92) *)
Definition get_f (c : cls) : option fn := first_some c_f (c :: c_mro c).

(** [class name(...): ...] for a subclass of [Damping] with method resolution order [mro] (after the
    class itself): [__init_subclass__] (functions.py:68-114) *)
Definition new_class (name : string) (own_req : option reqmap) (own_f : option fdef) (mro : list cls)
  : res cls :=
  let c := Cls name own_req (option_map plain own_f) mro in
  match default (get_req c) [] with
  | [] => Ok c
  | m =>
      match get_f c with
      | None => Raise AttributeError
      | Some f =>
          raise_if (existsb (fun e => existsb (fun n => negb (str_in n (param_names (fn_sig f)))) (snd e)) m) TypeError ;;;
          Ok (Cls name own_req (Some (checked m f)) mro)
      end
  end.

(** keyword parameters with default [None] (functions.py:178-188) *)
Definition kwnone (l : list string) : list (string * option val) := map (fun n => (n, Some (VPar PNone))) l.
(** signature of [Damping._f] (functions.py:172-190) *)
Definition damping_sig : signature :=
  mkSig [("self", None); ("distances", None); ("radii", None); ("order", None)] None
    (kwnone ["a1"; "a2"; "s6"; "rs6"; "s8"; "rs8"; "s9"; "rs9"; "s10"; "alp"; "bet"] ++
     [("only_damping", Some (VBool false))])%list None.
(** [Damping] (functions.py:52-212): [_f] is abstract, its body is a docstring (it returns [None],
    which is no tensor). *)
Definition damping_f_def : fdef := mkDef damping_sig true (fun _ => Raise TypeError).
(** the class object [Damping] (functions.py:52-212) *)
Definition damping_cls : cls := Cls "Damping" None (Some (plain damping_f_def)) [].

(** creating an object: [TypeError] for a class with an abstract method (Python: [ABC] (functions.py:52, 171)) *)
Definition instantiate (c : cls) : res unit :=
  match get_f c with
  | Some f => raise_if (fn_abstract f) TypeError
  | None => Ok tt
  end.

(** the keyword arguments passed by [Damping.__call__] (functions.py:153-169) *)
Definition call_kw (a : dargs K) (only : bool) : dict val :=
  [("a1", VPar (g_a1 a)); ("a2", VPar (g_a2 a)); ("s6", VPar (g_s6 a)); ("rs6", VPar (g_rs6 a));
   ("s8", VPar (g_s8 a)); ("rs8", VPar (g_rs8 a)); ("s9", VPar (g_s9 a)); ("rs9", VPar (g_rs9 a));
   ("s10", VPar (g_s10 a)); ("alp", VPar (g_alp a)); ("bet", VPar (g_bet a)); ("only_damping", VBool only)].

(** [Damping.__call__] of an object of class [c] (functions.py:116-169) after argument binding *)
Definition object_call (c : cls) (dist radii : T) (order : nat) (only : bool) (a : dargs K) : res T :=
  if (order =? 6)%nat && (is_none (g_s6 a) && is_none (g_rs6 a)) then Ok (zeros_like dist)
  else if (order =? 8)%nat && (is_none (g_s8 a) && is_none (g_rs8 a)) then Ok (zeros_like dist)
  else if (order =? 9)%nat && (is_none (g_s9 a) && is_none (g_rs9 a)) then Ok (zeros_like dist)
  else if (order =? 10)%nat && is_none (g_s10 a) then Ok (zeros_like dist)
  else match get_f c with
       | Some f => fn_call f [VSelf; VTen dist; VTen radii; VInt order] (call_kw a only)
       | None => Raise AttributeError
       end.

(** The shipped classes as class statements.  The keyword parameters of their [_f] have defaults other than
    [None] for some names (functions.py:262-290, 329-348, 393-412, 449-468); [__call__] passes all of
    them, so that the defaults are never used.  [shipped_sig defs] is the signature with the defaults [defs]. *)
Definition shipped_sig (defs : dict (pval K)) : signature :=
  mkSig [("self", None); ("distances", None); ("radii", None); ("order", None)] None
    (map (fun n => (n, Some (VPar (default (dget defs n) PNone))))
       ["a1"; "a2"; "s6"; "rs6"; "s8"; "rs8"; "s9"; "rs9"; "s10"; "alp"; "bet"] ++
     [("only_damping", Some (VBool false))])%list None.

(** reading a bound parameter in the body of [_f] (functions.py:262-305) *)
Definition par (b : dict val) (n : string) : pval K := match dget b n with Some (VPar p) => p | _ => PNone end.
(** a body given as a function of distances, radii, order and parameters (as in [ModelDamping.v])
    (functions.py:262-305, 329-378, 393-434, 449-484) *)
Definition body_of (g : T -> T -> nat -> dargs K -> bool -> res T) (b : dict val) : res T :=
  match dget b "distances", dget b "radii", dget b "order", dget b "only_damping" with
  | Some (VTen d), Some (VTen r), Some (VInt o), Some (VBool only) =>
      g d r o (mkArgs (par b "a1") (par b "a2") (par b "s6") (par b "rs6") (par b "s8") (par b "rs8")
                 (par b "s9") (par b "rs9") (par b "s10") (par b "alp") (par b "bet")) only
  | _, _, _, _ => Raise TypeError
  end.

(** [class RationalDamping] (functions.py:241-305) *)
Definition RationalDamping_class : res cls :=
  new_class "RationalDamping" (Some [(6%nat, ["a1"; "a2"]); (8%nat, ["a1"; "a2"]); (10%nat, ["a1"; "a2"])])
    (Some (mkDef (shipped_sig [("a1", lit_p dA1); ("a2", lit_p dA2)]) false (body_of rational_f))) [damping_cls].
(** [class ZeroDamping] (functions.py:308-378) *)
Definition ZeroDamping_class (X : Ext K) : res cls :=
  new_class "ZeroDamping" (Some [(6%nat, ["rs6"; "alp"]); (8%nat, ["rs8"; "alp"]); (9%nat, ["rs9"; "alp"])])
    (Some (mkDef (shipped_sig [("rs6", lit_p dRS6); ("rs8", lit_p dRS8); ("rs9", lit_p dRS9); ("alp", lit_p dALP)])
             false (body_of (zero_f X)))) [damping_cls].
(** [class MZeroDamping] (functions.py:381-434) *)
Definition MZeroDamping_class (X : Ext K) : res cls :=
  new_class "MZeroDamping" (Some [(6%nat, ["rs6"; "alp"; "bet"]); (8%nat, ["rs8"; "alp"; "bet"])])
    (Some (mkDef (shipped_sig [("rs6", lit_p dRS6); ("rs8", lit_p dRS8); ("alp", lit_p dALP); ("bet", lit_p dBET)])
             false (body_of (mzero_f X)))) [damping_cls].
(** [class OptimisedPowerDamping] (functions.py:437-484) *)
Definition OptimisedPowerDamping_class : res cls :=
  new_class "OptimisedPowerDamping" (Some [(6%nat, ["a1"; "a2"; "bet"]); (8%nat, ["a1"; "a2"; "bet"])])
    (Some (mkDef (shipped_sig [("a1", lit_p dA1); ("a2", lit_p dA2); ("bet", lit_p dBET)]) false (body_of op_f))) [damping_cls].
(** [ZDamping] (functions.py:487-488) declares nothing *)
Definition ZDamping_class : res cls := new_class "ZDamping" None None [damping_cls].
End C.
Arguments val K : clear implicits.
Arguments signature K : clear implicits.
Arguments fdef K : clear implicits.
Arguments fn K : clear implicits.
Arguments cls K : clear implicits.
