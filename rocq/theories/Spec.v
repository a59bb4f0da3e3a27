(** * Vocabulary for stating the properties (specification layer). *)
From Coq Require Import List Arith ZArith QArith Bool String.
From Verif Require Import Py Tensor Scalar ModelExt ModelUtils ModelDamping.
Import ListNotations.
Open Scope nat_scope.
Open Scope string_scope.

(** A damping function acts elementwise as [g] for the given order and parameters. *)
Definition elementwise {K : Scalar} (d : Damping K) (param : Param K) (order : nat)
  (only : bool) (g : K -> K -> K) : Prop :=
  forall dist radii s, shp dist = s -> shp radii = s ->
    exists t, damping_call d dist radii order only param = Ok t /\ shp t = s /\
      forall i, valid s i -> dat t i = g (dat dist i) (dat radii i).

(** A number-valued parameter: a 0-dimensional tensor. *)
Definition isnum {K : Scalar} (p : pval K) (x : K) : Prop :=
  exists t, p = PT t /\ shp t = [] /\ dat t [] = x.

(** A parameter dictionary a caller may pass: only names known to the damping
    functions, every one of them (except [doi]) bound to a number. *)
Definition good_param {K : Scalar} (param : Param K) : Prop :=
  forall k v, In (k, v) param ->
    In k ["a1"; "a2"; "s6"; "rs6"; "s8"; "rs8"; "s9"; "rs9"; "s10"; "alp"; "bet"; "doi"] /\
    (k <> "doi" -> exists x, isnum v x).

(** The number bound to [k], if any. *)
Definition getp {K : Scalar} (param : Param K) (k : string) : option K :=
  match dget param k with Some (PT t) => Some (dat t []) | _ => None end.

(** ... with a default. *)
Definition getd {K : Scalar} (param : Param K) (k : string) (q : Q) : K :=
  default (getp param k) (flit q).

(** Slices of a batched tensor: the data of the molecule with batch index [b],
    in the order of the Python indices ([t[b, i, j]] is [sl2 t b i j]). *)
Definition sl1 {A} (t : tensor A) (b : list nat) (i : nat) : A := dat t (i :: b).
Definition sl2 {A} (t : tensor A) (b : list nat) (i j : nat) : A := dat t (j :: i :: b).
Definition sl3 {A} (t : tensor A) (b : list nat) (i j k : nat) : A := dat t (k :: j :: i :: b).

(** [returns1 m n B f]: the call returns a tensor of shape [(B..., n)] whose entry for
    molecule [b] and atom [i] is [f b i]; [returns2]: shape [(B..., n, n)]. *)
Definition returns1 {A} (m : res (tensor A)) (n : nat) (B : list nat)
  (f : list nat -> nat -> A) : Prop :=
  exists t, m = Ok t /\ shp t = n :: B /\
    forall b i, valid B b -> i < n -> sl1 t b i = f b i.
Definition returns2 {A} (m : res (tensor A)) (n : nat) (B : list nat)
  (f : list nat -> nat -> nat -> A) : Prop :=
  exists t, m = Ok t /\ shp t = n :: n :: B /\
    forall b i j, valid B b -> i < n -> j < n -> sl2 t b i j = f b i j.

(** the external tables cover the supported elements *)
Definition ext_tables {K : Scalar} (X : Ext K) : Prop :=
  exists nz ng nv, shp (x_zeff X) = [nz] /\ shp (x_gam X) = [ng] /\ shp (x_vdw X) = [nv; nv] /\
    104 <= nz /\ 104 <= ng /\ 104 <= nv.
