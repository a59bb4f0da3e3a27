(** * When two calls describe the same molecule (specification layer, real numbers). *)
From Coq Require Import Reals List Arith ZArith Bool String.
From Verif Require Import Py Tensor Scalar RInst ModelExt ModelUtils ModelDamping ModelModels
  ModelTerms ModelDisp SpecCall SpecR.
Import ListNotations.
Open Scope R_scope.

(** atom [i] of molecule [b] is real (atomic number 0 is padding) *)
Definition real_atom (numbers : tensor Z) (b : list nat) (i : nat) : Prop :=
  sl1 numbers b i <> 0%Z.

Section S.
Context {eps mx : R}.
Notation N := (RN eps mx).
Notation T := (tensor (sc N)).

(** [s] maps the real atoms of molecule [b1] of the first system injectively to real atoms
    of molecule [b2] of the second one: same elements, same mutual distances. *)
Record embeds (c n1 n2 : nat) (s : nat -> nat) (numbers1 : tensor Z) (positions1 : T)
  (b1 : list nat) (numbers2 : tensor Z) (positions2 : T) (b2 : list nat) : Prop := mkEmb {
  em_num : forall i, (i < n1)%nat -> real_atom numbers1 b1 i ->
    (s i < n2)%nat /\ sl1 numbers2 b2 (s i) = sl1 numbers1 b1 i;
  em_inj : forall i j, (i < n1)%nat -> (j < n1)%nat -> real_atom numbers1 b1 i ->
    real_atom numbers1 b1 j -> s i = s j -> i = j;
  em_dist : forall i j, (i < n1)%nat -> (j < n1)%nat -> real_atom numbers1 b1 i ->
    real_atom numbers1 b1 j ->
    sqd c (sl2 positions2 b2 (s i)) (sl2 positions2 b2 (s j))
    = sqd c (sl2 positions1 b1 i) (sl2 positions1 b1 j) }.

(** ... and onto: both systems are the same molecule. *)
Definition same_molecule c n1 n2 s numbers1 positions1 b1 numbers2 positions2 b2 : Prop :=
  embeds c n1 n2 s numbers1 positions1 b1 numbers2 positions2 b2 /\
  forall k, (k < n2)%nat -> real_atom numbers2 b2 k ->
    exists i, (i < n1)%nat /\ real_atom numbers1 b1 i /\ s i = k.

(** Contract of a coordination number function: the value of a real atom depends on its
    molecule only (elements and distances of the real atoms), not on the order of the
    atoms, on padding or on the other molecules of the batch. *)
Definition cn_contract (f : tensor Z -> T -> res T) : Prop :=
  forall c n1 n2 B1 B2 numbers1 (positions1 : T) b1 numbers2 (positions2 : T) b2 s t1 t2,
    shp numbers1 = n1 :: B1 -> shp positions1 = (c :: n1 :: B1)%nat -> valid B1 b1 ->
    shp numbers2 = n2 :: B2 -> shp positions2 = (c :: n2 :: B2)%nat -> valid B2 b2 ->
    same_molecule c n1 n2 s numbers1 positions1 b1 numbers2 positions2 b2 ->
    f numbers1 positions1 = Ok t1 -> f numbers2 positions2 = Ok t2 ->
    forall i, (i < n1)%nat -> real_atom numbers1 b1 i -> sl1 t2 b2 (s i) = sl1 t1 b1 i.

(** total charge of molecule [b]: the charge argument is a scalar or one value per molecule *)
Definition mol_charge (charge : T) (b : list nat) : R := dat charge (bidx (shp charge) b).

(** The same for the charge model; the charges may also depend on the total charge of the
    molecule and on the cutoff. *)
Definition eeq_contract (W : World N) : Prop :=
  forall c n1 n2 B1 B2 numbers1 (positions1 : T) b1 numbers2 (positions2 : T) b2 s
         charge1 charge2 cutoff t1 t2,
    shp numbers1 = n1 :: B1 -> shp positions1 = (c :: n1 :: B1)%nat -> valid B1 b1 ->
    shp numbers2 = n2 :: B2 -> shp positions2 = (c :: n2 :: B2)%nat -> valid B2 b2 ->
    same_molecule c n1 n2 s numbers1 positions1 b1 numbers2 positions2 b2 ->
    mol_charge charge1 b1 = mol_charge charge2 b2 ->
    w_eeq W numbers1 positions1 charge1 cutoff = Ok t1 ->
    w_eeq W numbers2 positions2 charge2 cutoff = Ok t2 ->
    forall i, (i < n1)%nat -> real_atom numbers1 b1 i -> sl1 t2 b2 (s i) = sl1 t1 b1 i.

(** Optional per-atom and per-pair arguments correspond along [s]. *)
Definition opt1 (n1 : nat) (s : nat -> nat) (numbers1 : tensor Z) (b1 b2 : list nat)
  (o1 o2 : option T) : Prop :=
  match o1, o2 with
  | None, None => True
  | Some t1, Some t2 => forall i, (i < n1)%nat -> real_atom numbers1 b1 i ->
      sl1 t2 b2 (s i) = sl1 t1 b1 i
  | _, _ => False
  end.
Definition opt2 (n1 : nat) (s : nat -> nat) (numbers1 : tensor Z) (b1 b2 : list nat)
  (o1 o2 : option T) : Prop :=
  match o1, o2 with
  | None, None => True
  | Some t1, Some t2 => forall i j, (i < n1)%nat -> (j < n1)%nat ->
      real_atom numbers1 b1 i -> real_atom numbers1 b1 j ->
      sl2 t2 b2 (s i) (s j) = sl2 t1 b1 i j
  | _, _ => False
  end.

(** Two calls with the same method and settings: same terms, coordination number function,
    parameters and cutoffs, corresponding optional arguments.  ([rcov] is not mentioned.) *)
Record same_settings (n1 : nat) (s : nat -> nat) (p1 : Disp N) (a1 : Args N) (b1 : list nat)
  (p2 : Disp N) (a2 : Args N) (b2 : list nat) : Prop := mkSet {
  st_terms : p_terms p1 = p_terms p2;
  st_cn : p_cn_fn p1 = p_cn_fn p2;
  st_cnkw : p_cn_kw p1 = p_cn_kw p2;
  st_param : a_param a1 = a_param a2;
  st_cutoff : a_cutoff a1 = a_cutoff a2;
  st_charge : mol_charge (a_charge a1) b1 = mol_charge (a_charge a2) b2;
  st_q : opt1 n1 s (a_numbers a1) b1 b2 (a_q a1) (a_q a2);
  st_r4r2 : opt1 n1 s (a_numbers a1) b1 b2 (a_r4r2 a1) (a_r4r2 a2);
  st_rvdw : opt2 n1 s (a_numbers a1) b1 b2 (a_rvdw a1) (a_rvdw a2) }.

(** Weighting factors come from the class (user-supplied pair factors of D4S are tied to
    one list of atoms). *)
Definition own_wf (kind : mkind) (kw : mkwargs N) : Prop := kind = D4M \/ k_wf kw = None.

(** [storch.cdist] depends on the Euclidean distance only. *)
Definition dist_metric (X : Ext (sc N)) : Prop :=
  exists gd : R -> R, forall c x y, x_dist X c x y = gd (sqd c x y).

(** Rigid motions: orthogonal matrix [O] followed by a translation [v]. *)
Definition orthogonal (c : nat) (O : nat -> nat -> R) : Prop :=
  forall k l, (k < c)%nat -> (l < c)%nat ->
    rsum c (fun m => O m k * O m l) = if Nat.eqb k l then 1 else 0.
Definition rigid (c : nat) (O : nat -> nat -> R) (v : nat -> R) (x : nat -> R) : nat -> R :=
  fun k => rsum c (fun l => O k l * x l) + v k.

(** Replace the positions of a call. *)
Definition with_positions (a : Args N) (pos : T) : Args N :=
  mkCall (a_numbers a) pos (a_charge a) (a_param a) (a_cutoff a) (a_q a) (a_rcov a)
         (a_r4r2 a) (a_rvdw a).

(** Every atom of every molecule shifted by [t * v]. *)
Definition shifted (pos : T) (t : R) (v : nat -> R) : T :=
  mkT (shp pos) (fun ix => match ix with
                           | k :: i => dat pos (k :: i) + t * v k
                           | [] => dat pos []
                           end).
End S.
