(** * C54: which radii [dispersion2] uses, and when it refuses *)
From Coq Require Import List Arith ZArith QArith Bool String.
From Verif Require Import Py Tensor Scalar ModelExt ModelUtils ModelDamping ModelModels ModelTerms
  Spec SpecCall TensorLemmas Closed ClosedTerms InstAny.
Import ListNotations.
Open Scope string_scope.

Section P.
Context {K : Scalar} (X : Ext K).

Lemma dispersion2_up_to_radii numbers (positions : tensor K) param c6 r4r2 rvdw (d : Damping K) cutoff n c B m e :
  shp numbers = n :: B -> shp positions = c :: n :: B -> shp c6 = n :: n :: B -> shp r4r2 = n :: B ->
  (forall q : tensor K, (if d_radius_type d =? "rvdw"
      then match rvdw with Some r => Ok r | None => Raise ValueError end
      else if d_radius_type d =? "r4r2" then Ok q else Raise ValueError) = Raise e) ->
  dispersion2 X numbers positions param c6 r4r2 rvdw d cutoff m = Raise e.
Proof.
  intros Hn Hp Hc Hr HE.
  apply ten_eq in Hc as Tc. apply ten_eq in Hr as Tr. unfold dispersion2.
  destruct (ev_real_pairs numbers n B Hn) as (mask & -> & Hm). cbn [bind].
  assert (ED : ev (twhere mask (cdist X positions positions) (scal feps)) (n :: n :: B)
                  (ix2 (fun j i b => pdist X c (sl1 numbers b) (sl2 positions b) i j))).
  { eapply ev_conv.
    - eapply ev_where; [ev_go | eapply ev_cdist; eauto | ev_go | bshape_solve | bshape_solve].
    - vsimp. reflexivity. }
  destruct ED as (dist & -> & Hd). cbn [bind].
  assert (EQ : ev (tmul (tmul (tlit 3) (unsqueeze 1 r4r2)) (unsqueeze 2 r4r2)) (n :: n :: B)
                  (ix2 (fun j i b => qq (sl1 r4r2 b) i j))). { ev_to. reflexivity. }
  destruct EQ as (q & -> & Hq). cbn [bind].
  assert (E8 : ev (tmul c6 q) (n :: n :: B) (ix2 (fun j i b => c8v (sl2 c6 b) (sl1 r4r2 b) i j))).
  { ev_to. reflexivity. }
  destruct E8 as (c8 & -> & Hc8). cbn [bind].
  rewrite HE. reflexivity.
Qed.

(** A damping function of radius type [rvdw] without van der Waals radii is refused with
    [ValueError], whatever the parameters. *)
Theorem C54_missing_radii :
  forall numbers (positions : tensor K) param c6 r4r2 (d : Damping K) cutoff as_matrix n c B,
  shp numbers = n :: B -> shp positions = c :: n :: B -> shp c6 = n :: n :: B -> shp r4r2 = n :: B ->
  d_radius_type d = "rvdw" ->
  dispersion2 X numbers positions param c6 r4r2 None d cutoff as_matrix = Raise ValueError.
Proof.
  intros numbers positions param c6 r4r2 d cutoff m n c B Hn Hp Hc Hr E.
  eapply dispersion2_up_to_radii; eauto. intros q. rewrite E. reflexivity.
Qed.

(** so are unknown radius types *)
Theorem C54_unknown_radius_type :
  forall numbers (positions : tensor K) param c6 r4r2 rvdw (d : Damping K) cutoff as_matrix n c B,
  shp numbers = n :: B -> shp positions = c :: n :: B -> shp c6 = n :: n :: B -> shp r4r2 = n :: B ->
  d_radius_type d <> "rvdw" -> d_radius_type d <> "r4r2" ->
  dispersion2 X numbers positions param c6 r4r2 rvdw d cutoff as_matrix = Raise ValueError.
Proof.
  intros numbers positions param c6 r4r2 rvdw d cutoff m n c B Hn Hp Hc Hr E E'.
  eapply dispersion2_up_to_radii; eauto. intros q.
  destruct (eqb_spec (d_radius_type d) "rvdw"); [congruence|]. destruct (eqb_spec (d_radius_type d) "r4r2"); [congruence|reflexivity].
Qed.

(** A damping function of radius type [r4r2] never looks at the van der Waals radii. *)
Theorem C54_radii_not_used :
  forall numbers (positions : tensor K) param c6 r4r2 rvdw rvdw' (d : Damping K) cutoff as_matrix,
  d_radius_type d = "r4r2" ->
  dispersion2 X numbers positions param c6 r4r2 rvdw d cutoff as_matrix
  = dispersion2 X numbers positions param c6 r4r2 rvdw' d cutoff as_matrix.
Proof. intros * E. unfold dispersion2. rewrite E. reflexivity. Qed.

(** The damping functions of the package: zero and modified zero damping need the radii, rational and
    optimised power damping do not. *)
Theorem C54_shipped_functions :
  forall numbers (positions : tensor K) param c6 r4r2 cutoff as_matrix n c B,
  shp numbers = n :: B -> shp positions = c :: n :: B -> shp c6 = n :: n :: B -> shp r4r2 = n :: B ->
  (forall d, In d [ZeroDamping X; MZeroDamping X] ->
     dispersion2 X numbers positions param c6 r4r2 None d cutoff as_matrix = Raise ValueError) /\
  (forall d v, In d [RationalDamping; OptimisedPowerDamping] ->
     dispersion2 X numbers positions param c6 r4r2 (Some v) d cutoff as_matrix
     = dispersion2 X numbers positions param c6 r4r2 None d cutoff as_matrix).
Proof.
  intros numbers positions param c6 r4r2 cutoff m n c B Hn Hp Hc Hr. split.
  - intros d [<-|[<-|[]]]; eapply C54_missing_radii; eauto.
  - intros d v [<-|[<-|[]]]; apply C54_radii_not_used; reflexivity.
Qed.

(** Without a cutoff the default of 60 Bohr is used. *)
Theorem C54_default_cutoff :
  forall numbers (positions : tensor K) param c6 r4r2 rvdw (d : Damping K) as_matrix,
  dispersion2 X numbers positions param c6 r4r2 rvdw d None as_matrix
  = dispersion2 X numbers positions param c6 r4r2 rvdw d (Some (scal (flit 60))) as_matrix.
Proof. reflexivity. Qed.

(** ** Example: a batch of two triatomic molecules; zero damping is refused without radii and
    accepted with them *)
Example C54_example :
  let numbers := mkT [3; 2]%nat (fun _ => 6%Z) in
  let positions := mkT [3; 3; 2]%nat (fun ix => flit (inject_Z (Z.of_nat (nth 1 ix O)))) : tensor K in
  let t s := mkT s (fun _ => flit 3) : tensor K in
  let param := [("s6", PT (scal (flit 1))); ("s8", PT (scal (flit 1))); ("rs6", PT (scal (flit 1))); ("rs8", PT (scal (flit 1)))] in
  dispersion2 X numbers positions param (t [3; 3; 2]%nat) (t [3; 2]%nat) None (ZeroDamping X) None false = Raise ValueError /\
  exists e, dispersion2 X numbers positions param (t [3; 3; 2]%nat) (t [3; 2]%nat) (Some (t [3; 3; 2]%nat))
    (ZeroDamping X) None false = Ok e.
Proof.
  intros numbers positions t param. split.
  - apply (C54_missing_radii numbers positions param (t [3; 3; 2]%nat) (t [3; 2]%nat) (ZeroDamping X) None false 3 3 [2%nat]); reflexivity.
  - eexists. vm_compute. reflexivity.
Qed.
End P.
Print Assumptions C54_missing_radii.
Print Assumptions C54_unknown_radius_type.
Print Assumptions C54_radii_not_used.
Print Assumptions C54_shipped_functions.
Print Assumptions C54_default_cutoff.
