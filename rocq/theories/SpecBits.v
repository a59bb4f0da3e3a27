(** * Two calls that hand a molecule over bit for bit (specification layer, any arithmetic). *)
From Coq Require Import List Arith ZArith Bool String.
From Verif Require Import Py Tensor Scalar ModelExt ModelUtils ModelDamping ModelModels
  ModelTerms ModelDisp SpecCall.
Import ListNotations.

Section S.
Context {N : Num}.
Notation K := (sc N).
Notation T := (tensor K).

(** Molecule [b1] of one batch and molecule [b2] of another one have the same [n] atomic numbers
    (padding included) and their real atoms have the same coordinates.  Nothing is said about the
    coordinates of padding atoms. *)
Definition same_atoms (n c : nat) (numbers1 : tensor Z) (positions1 : T) (b1 : list nat)
  (numbers2 : tensor Z) (positions2 : T) (b2 : list nat) : Prop :=
  (forall i, i < n -> sl1 numbers1 b1 i = sl1 numbers2 b2 i) /\
  (forall i k, i < n -> k < c -> sl1 numbers1 b1 i <> 0%Z ->
     sl2 positions1 b1 i k = sl2 positions2 b2 i k).

(** [storch.cdist] reads the [c] coordinates of the two points and nothing else. *)
Definition dist_local (X : Ext K) : Prop :=
  forall c x x' y y', (forall k, k < c -> x k = x' k) -> (forall k, k < c -> y k = y' k) ->
    x_dist X c x y = x_dist X c x' y'.

(** A coordination number function treats the molecules of a batch separately and does not look at
    the coordinates of padding atoms. *)
Definition cn_local (f : tensor Z -> T -> res T) : Prop :=
  forall n c B1 B2 numbers1 (positions1 : T) b1 numbers2 (positions2 : T) b2 t1 t2,
    shp numbers1 = n :: B1 -> shp positions1 = c :: n :: B1 -> valid B1 b1 ->
    shp numbers2 = n :: B2 -> shp positions2 = c :: n :: B2 -> valid B2 b2 ->
    same_atoms n c numbers1 positions1 b1 numbers2 positions2 b2 ->
    f numbers1 positions1 = Ok t1 -> f numbers2 positions2 = Ok t2 ->
    forall i, i < n -> sl1 t1 b1 i = sl1 t2 b2 i.

(** total charge of molecule [b]: a scalar or one value per molecule *)
Definition total_charge (charge : T) (b : list nat) : K := dat charge (bidx (shp charge) b).

(** The same for the charge model. *)
Definition eeq_local (W : World N) : Prop :=
  forall n c B1 B2 numbers1 (positions1 : T) b1 numbers2 (positions2 : T) b2 charge1 charge2
         cutoff t1 t2,
    shp numbers1 = n :: B1 -> shp positions1 = c :: n :: B1 -> valid B1 b1 ->
    shp numbers2 = n :: B2 -> shp positions2 = c :: n :: B2 -> valid B2 b2 ->
    same_atoms n c numbers1 positions1 b1 numbers2 positions2 b2 ->
    total_charge charge1 b1 = total_charge charge2 b2 ->
    w_eeq W numbers1 positions1 charge1 cutoff = Ok t1 ->
    w_eeq W numbers2 positions2 charge2 cutoff = Ok t2 ->
    forall i, i < n -> sl1 t1 b1 i = sl1 t2 b2 i.

(** optional arguments: omitted in both calls, or with the same values for this molecule *)
Definition same_opt1 (n : nat) (o1 o2 : option T) (b1 b2 : list nat) : Prop :=
  match o1, o2 with
  | None, None => True
  | Some t1, Some t2 => forall i, i < n -> sl1 t1 b1 i = sl1 t2 b2 i
  | _, _ => False
  end.
Definition same_opt2 (n : nat) (o1 o2 : option T) (b1 b2 : list nat) : Prop :=
  match o1, o2 with
  | None, None => True
  | Some t1, Some t2 => forall i j, i < n -> j < n -> sl2 t1 b1 i j = sl2 t2 b2 i j
  | _, _ => False
  end.

(** Two calls of the same method with the same settings that contain the same molecule.  The other
    molecules, and even the shapes of the two batches, may be anything. *)
Record same_call (n c : nat) (p1 : Disp N) (a1 : Args N) (b1 : list nat)
  (p2 : Disp N) (a2 : Args N) (b2 : list nat) : Prop := mkSame {
  sm_terms : p_terms p1 = p_terms p2;
  sm_cn : p_cn_fn p1 = p_cn_fn p2;
  sm_cnkw : p_cn_kw p1 = p_cn_kw p2;
  sm_param : a_param a1 = a_param a2;
  sm_cutoff : a_cutoff a1 = a_cutoff a2;
  sm_atoms : same_atoms n c (a_numbers a1) (a_positions a1) b1
                            (a_numbers a2) (a_positions a2) b2;
  sm_charge : total_charge (a_charge a1) b1 = total_charge (a_charge a2) b2;
  sm_q : same_opt1 n (a_q a1) (a_q a2) b1 b2;
  sm_r4r2 : same_opt1 n (a_r4r2 a1) (a_r4r2 a2) b1 b2;
  sm_rvdw : same_opt2 n (a_rvdw a1) (a_rvdw a2) b1 b2 }.

(** the weighting factors are those of the class, or one number (D4) *)
Definition class_wf (kind : mkind) (kw : mkwargs N) : Prop := kind = D4M \/ k_wf kw = None.

(** One molecule taken out of a batch: the innermost dimensions, at batch index [b]. *)
Definition drop_batch {A} (keep : nat) (b : list nat) (t : tensor A) : tensor A :=
  mkT (firstn keep (shp t)) (fun ix => dat t (ix ++ b)%list).
Definition alone (b : list nat) (a : Args N) : Args N :=
  mkCall (drop_batch 1 b (a_numbers a)) (drop_batch 2 b (a_positions a))
    (scal (total_charge (a_charge a) b)) (a_param a) (a_cutoff a)
    (option_map (drop_batch 1 b) (a_q a)) (option_map (drop_batch 1 b) (a_rcov a))
    (option_map (drop_batch 1 b) (a_r4r2 a)) (option_map (drop_batch 2 b) (a_rvdw a)).

(** The same call with other positions. *)
Definition set_positions (a : Args N) (x : T) : Args N :=
  mkCall (a_numbers a) x (a_charge a) (a_param a) (a_cutoff a) (a_q a) (a_rcov a)
         (a_r4r2 a) (a_rvdw a).
End S.
