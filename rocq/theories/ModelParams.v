(** * src/tad_dftd4/damping/parameters/base.py: the parameter data classes *)
From Coq Require Import List Arith String QArith Bool.
From Verif Require Import Py Tensor Scalar ModelExt ModelUtils ModelDamping DataToml.
Import ListNotations.
Open Scope py_scope.
Open Scope string_scope.

(** The concrete data classes (base.py:118-149). *)
Inductive pclass : Type := RationalParams | ZeroParams | MZeroParams | OptimisedPowerParams.

(** Declaration of a field: [float] required, [float] with a default, [Optional[str]]. (base.py:109-149) *)
Inductive fkind : Type := Required | Default (q : Q) | OptionalStr.

(** [BaseParams] (base.py:109-115) *)
Definition base_fields : list (string * fkind) :=
  [("s6", Default 1); ("s8", Default 1); ("s10", Default 0); ("doi", OptionalStr)].

(** base.py:118-149; inherited fields come first, a redefined field keeps its place. *)
Definition fields (c : pclass) : list (string * fkind) :=
  (base_fields ++
   match c with
   | RationalParams => [("a1", Required); ("a2", Required)]
   | ZeroParams => [("alp", Required); ("rs6", Required); ("rs8", Required);
                    ("rs9", Default 0); ("bet", Default 0)]
   | MZeroParams => [("alp", Required); ("rs6", Required); ("rs8", Required);
                     ("rs9", Default 0); ("bet", Required)]
   | OptimisedPowerParams => [("a1", Required); ("a2", Required); ("bet", Required)]
   end)%list.

(** [PARAM_MODELS[Variant(v)]] (base.py:96-103, 152-158): [Variant(v)] is by value. *)
Definition param_model (v : string) : res pclass :=
  if v =? "bj" then Ok RationalParams
  else if v =? "bj-eeq-atm" then Ok RationalParams
  else if v =? "zero" then Ok ZeroParams
  else if v =? "mzero" then Ok MZeroParams
  else if v =? "optimizedpower" then Ok OptimisedPowerParams
  else Raise ValueError.

Section Validate.
Context {K : Scalar}.

(** One field of [cls( **d)]; [pydantic.ValidationError] is a [ValueError].  Unknown keys of [d]
    are ignored (pydantic's default).  Simplification: pydantic also accepts a string that
    spells a number for a [float] field. (pydantic; base.py:109-149) *)
Definition field_value (d : dict tval) (f : string) (k : fkind) : res (pval K) :=
  match k, dget d f with
  | Required, Some (TNum q) | Default _, Some (TNum q) => Ok (PT (scal (flit q)))
  | Default q, None => Ok (PT (scal (flit q)))
  | OptionalStr, Some (TStr s) => Ok (PStr s)
  | OptionalStr, None => Ok PNone
  | _, _ => Raise ValueError
  end.

(** pydantic: the fields of [cls( **d)], in the order of declaration (base.py:109-149) *)
Fixpoint validate_fields (d : dict tval) (fs : list (string * fkind)) : res (Param K) :=
  match fs with
  | [] => Ok []
  | (f, k) :: fs' =>
      v <- field_value d f k ;;
      r <- validate_fields d fs' ;;
      Ok ((f, v) :: r)
  end.

(** [cls( **d).model_dump()]: a dictionary with every field of the class. (pydantic; base.py:109-149) *)
Definition validated (c : pclass) (d : dict tval) : res (Param K) :=
  validate_fields d (fields c).
End Validate.
