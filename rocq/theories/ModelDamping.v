(** * src/tad_dftd4/damping/functions.py *)
From Coq Require Import List Arith ZArith QArith Bool String.
From Verif Require Import Py Tensor Scalar ModelExt ModelUtils.
Import ListNotations.
Open Scope py_scope.
Open Scope ten_scope.
Open Scope string_scope.

Section Damping.
Context {K : Scalar} (X : Ext K).

(** Values of a parameter dictionary (damping/parameters/base.py:48-85 [Param]):
    numbers are 0-dimensional tensors; strings occur as [doi], [damping], [mbd]. *)
Inductive pval : Type :=
| PT (t : tensor K)
| PNone
| PStr (s : string).

(** [Param] (damping/parameters/base.py:48-85) *)
Definition Param := dict pval.

(** [x is None] (functions.py:105,141-150) *)
Definition is_none (p : pval) : bool := match p with PNone => true | _ => false end.

(** A parameter used in arithmetic: [None] and strings raise [TypeError]. (functions.py:304,370,372) *)
Definition num (p : pval) : res (tensor K) :=
  match p with PT t => Ok t | _ => Raise TypeError end.

(** Keyword arguments of [Damping._f] (functions.py:172-190). *)
Record dargs : Type := mkArgs {
  g_a1 : pval; g_a2 : pval; g_s6 : pval; g_rs6 : pval; g_s8 : pval; g_rs8 : pval;
  g_s9 : pval; g_rs9 : pval; g_s10 : pval; g_alp : pval; g_bet : pval }.

(** [bound.arguments.get(name)] (functions.py:99-106) *)
Definition arg (a : dargs) (name : string) : pval :=
  if name =? "a1" then g_a1 a else if name =? "a2" then g_a2 a
  else if name =? "s6" then g_s6 a else if name =? "rs6" then g_rs6 a
  else if name =? "s8" then g_s8 a else if name =? "rs8" then g_rs8 a
  else if name =? "s9" then g_s9 a else if name =? "rs9" then g_rs9 a
  else if name =? "s10" then g_s10 a else if name =? "alp" then g_alp a
  else if name =? "bet" then g_bet a else PNone.

(** Keyword-only parameters of [Damping.__call__] (functions.py:116-135). *)
Definition call_keys : list string :=
  ["a1"; "a2"; "s6"; "rs6"; "s8"; "rs8"; "s9"; "rs9"; "s10"; "alp"; "bet"; "doi"].

(** a default of the signature of [__call__] (functions.py:125-132) *)
Definition lit_p (q : Q) : pval := PT (scal (flit q)).

(** Binding of [**param] to the signature of [__call__] (functions.py:116-135);
    an unknown keyword raises [TypeError]. *)
Definition bind_call (param : Param) : res dargs :=
  if forallb (fun kv => str_in (fst kv) call_keys) param then
    let get k d := default (dget param k) d in
    Ok (mkArgs (get "a1" PNone) (get "a2" PNone)
               (get "s6" (lit_p dS6)) (get "rs6" PNone)
               (get "s8" PNone) (get "rs8" PNone)
               (get "s9" (lit_p dS9)) (get "rs9" (lit_p dRS9))
               (get "s10" PNone) (get "alp" (lit_p dALP)) (get "bet" PNone))
  else Raise TypeError.

(** A damping class: [radius_type], [REQUIRED_BY_ORDER] (empty for an order that
    is not a key) and the undecorated [_f]. (functions.py:52-66, 255-260) *)
Record Damping : Type := mkDamping {
  d_class : string;
  d_radius_type : string;
  d_required : nat -> list string;
  d_f : tensor K -> tensor K -> nat -> dargs -> bool -> res (tensor K)
}.

(** [torch.zeros_like(distances)] (functions.py:142-151) *)
Definition zeros_like (t : tensor K) : tensor K := mkT (shp t) (fun _ => f0).

(** [_checked_f] installed by [__init_subclass__] (functions.py:94-114). *)
Definition checked_f (d : Damping) (dist radii : tensor K) (order : nat) (a : dargs)
  (only : bool) : res (tensor K) :=
  if existsb (fun name => is_none (arg a name)) (d_required d order)
  then Raise TypeError
  else d_f d dist radii order a only.

(** [Damping.__call__] (functions.py:116-169) after argument binding.  The
    assignment [self.doi = doi] (line 136) is modelled in ModelStore.v. *)
Definition damping_call_args (d : Damping) (dist radii : tensor K) (order : nat)
  (only : bool) (a : dargs) : res (tensor K) :=
  if (order =? 6)%nat && (is_none (g_s6 a) && is_none (g_rs6 a)) then Ok (zeros_like dist)
  else if (order =? 8)%nat && (is_none (g_s8 a) && is_none (g_rs8 a)) then Ok (zeros_like dist)
  else if (order =? 9)%nat && (is_none (g_s9 a) && is_none (g_rs9 a)) then Ok (zeros_like dist)
  else if (order =? 10)%nat && is_none (g_s10 a) then Ok (zeros_like dist)
  else checked_f d dist radii order a only.

(** [Damping.__call__] (functions.py:116-169) with binding of the parameters *)
Definition damping_call (d : Damping) (dist radii : tensor K) (order : nat)
  (only : bool) (param : Param) : res (tensor K) :=
  a <- bind_call param ;;
  damping_call_args d dist radii order only a.

(** [assert x is not None] (functions.py:302,348,357) *)
Definition assert_some (p : pval) : res unit := raise_if (is_none p) AssertionError.

(** [RationalDamping._f] (functions.py:262-305); [only_damping] is ignored there. *)
Definition rational_f (dist radii : tensor K) (order : nat) (a : dargs) (_ : bool)
  : res (tensor K) :=
  assert_some (g_a1 a) ;;;
  assert_some (g_a2 a) ;;;
  radius <- num (g_a1 a) *t tsqrt radii +t num (g_a2 a) ;;
  tlit 1 /t (tpown dist order +t tpown radius order).

(** [RationalDamping] (functions.py:241-260): attributes *)
Definition RationalDamping : Damping :=
  mkDamping "RationalDamping" "r4r2"
    (fun o => match o with 6%nat | 8%nat | 10%nat => ["a1"; "a2"] | _ => [] end)
    rational_f.

(** [ZeroDamping._f] (functions.py:329-378) *)
Definition zero_f (dist radii : tensor K) (order : nat) (a : dargs) (only : bool)
  : res (tensor K) :=
  assert_some (g_alp a) ;;;
  ar <- match order with
        | 6%nat => assert_some (g_rs6 a) ;;; Ok (num (g_alp a), g_rs6 a)
        | 8%nat => assert_some (g_rs8 a) ;;; Ok (num (g_alp a) +t tlit 2, g_rs8 a)
        | 9%nat => assert_some (g_rs9 a) ;;; Ok (num (g_alp a), g_rs9 a)
        | _ => Raise ValueError
        end ;;
  alp_n <- fst ar ;;
  t_n <- num (snd ar) *t sdivide X dist radii ;;
  f_n <- tlit 1 /t (tlit 1 +t tlit 6 *t tpow t_n alp_n) ;;
  if only then Ok f_n else sdivide X f_n (tpown dist order).

(** [ZeroDamping] (functions.py:308-327): attributes *)
Definition ZeroDamping : Damping :=
  mkDamping "ZeroDamping" "rvdw"
    (fun o => match o with
              | 6%nat => ["rs6"; "alp"] | 8%nat => ["rs8"; "alp"]
              | 9%nat => ["rs9"; "alp"] | _ => [] end)
    zero_f.

(** [MZeroDamping._f] (functions.py:393-434); [only_damping] is ignored there. *)
Definition mzero_f (dist radii : tensor K) (order : nat) (a : dargs) (_ : bool)
  : res (tensor K) :=
  assert_some (g_alp a) ;;;
  assert_some (g_bet a) ;;;
  ar <- match order with
        | 6%nat => assert_some (g_rs6 a) ;;; Ok (num (g_alp a), g_rs6 a)
        | 8%nat => assert_some (g_rs8 a) ;;; Ok (num (g_alp a) +t tlit 2, g_rs8 a)
        | _ => Raise ValueError
        end ;;
  alp_n <- fst ar ;;
  t_n <- dist /t (num (snd ar) *t radii) +t num (g_bet a) *t radii ;;
  fn <- tlit 1 /t (tlit 1 +t tlit 6 *t tpow t_n (topp alp_n)) ;;
  sdivide X fn (tpown dist order).

(** [MZeroDamping] (functions.py:381-391): attributes *)
Definition MZeroDamping : Damping :=
  mkDamping "MZeroDamping" "rvdw"
    (fun o => match o with
              | 6%nat => ["rs6"; "alp"; "bet"] | 8%nat => ["rs8"; "alp"; "bet"]
              | _ => [] end)
    mzero_f.

(** [OptimisedPowerDamping._f] (functions.py:449-484) *)
Definition op_f (dist radii : tensor K) (order : nat) (a : dargs) (_ : bool)
  : res (tensor K) :=
  assert_some (g_a1 a) ;;;
  assert_some (g_a2 a) ;;;
  assert_some (g_bet a) ;;;
  raise_if (negb ((order =? 6)%nat || (order =? 8)%nat)) ValueError ;;;
  radius <- num (g_a1 a) *t tsqrt radii +t num (g_a2 a) ;;
  ab <- tpow radius (num (g_bet a)) ;;
  rb <- tpow dist (num (g_bet a)) ;;
  rb /t (rb *t tpown dist order +t ab *t tpown dist order).

(** [OptimisedPowerDamping] (functions.py:437-447): attributes *)
Definition OptimisedPowerDamping : Damping :=
  mkDamping "OptimisedPowerDamping" "r4r2"
    (fun o => match o with 6%nat | 8%nat => ["a1"; "a2"; "bet"] | _ => [] end)
    op_f.

(** [Damping.__eq__] (functions.py:214-235): same class. *)
Definition damping_eqb (d d' : Damping) : bool := d_class d =? d_class d'.

End Damping.
Arguments pval K : clear implicits.
Arguments Param K : clear implicits.
Arguments dargs K : clear implicits.
Arguments Damping K : clear implicits.
