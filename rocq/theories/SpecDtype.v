(** * Vocabulary for statements about dtypes and devices *)
From Coq Require Import List String.
From Verif Require Import Py ModelDtype.

(** A tensor with dimensions, of dtype [a] on device [v]: atomic numbers, positions,
    charges, energies ... *)
Definition with_dims (a : dtype) (v : device) : tval := VT (mkTy a v true).

(** A damping parameter or cutoff for a calculation on device [v]: a Python number, or a
    floating point tensor without dimensions of any precision on [v] or on the CPU. *)
Definition small (v : device) (s : tval) : Prop :=
  match s with
  | VPy _ => True
  | VT t => ty_dims t = false /\ is_float (ty_dtype t) = true /\ (ty_dev t = Cpu \/ ty_dev t = v)
  end.

(** The error classes of missing or unsupported damping parameters. *)
Definition param_error (e : exn) : Prop :=
  e = TypeError \/ e = AssertionError \/ e = ValueError.

(** The result [x], unless a damping parameter is missing or unsupported. *)
Definition yields (m : res tval) (x : tval) : Prop :=
  m = Ok x \/ exists e, m = Raise e /\ param_error e.

(** A damping parameter dictionary / the two cutoffs for a calculation on [v]. *)
Definition params_on (v : device) (P : PTy) : Prop :=
  forall k x, dget P k = Some x -> small v x.
Definition cutoff_on (v : device) (c : option CutTy) : Prop :=
  match c with None => True | Some c => small v (cu_disp2 c) /\ small v (cu_disp3 c) end.
(** The term was created with a floating point dtype, on [v] or on the CPU (where
    the constructors put it by default). *)
Definition term_on (v : device) (t : TTerm) : Prop := small v (scalar_of (tt_dd t)).
(** An optional argument: absent, or a floating point tensor on [v]. *)
Definition arg_on (v : device) (o : option dtype) : Prop :=
  match o with None => True | Some a => is_float a = true end.
