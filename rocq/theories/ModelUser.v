(** * User-defined dispersion terms: subclasses of [DispTerm] and of [ATM]

    The other model files have the four term classes of the package.  Here a term may be of any class
    that derives from [DispTerm] (dispersion/base.py:38-104), with any method [calculate], and the
    three-body classes are put together from mixins as Python does it. *)
From Coq Require Import List Arith ZArith QArith Bool String.
From Verif Require Import Py Tensor Scalar ModelExt ModelUtils ModelDamping ModelModels ModelTerms ModelDisp.
Import ListNotations.
Open Scope py_scope.
Open Scope ten_scope.

Section User.
Context {N : Num} (X : Ext (sc N)) (W : World N).
Notation K := (sc N).
Notation T := (tensor (sc N)).

(** The method [calculate] (base.py:88-104): [self] is represented by the attributes [damping_fn] and
    [charge_dependent]; then the arguments in the order of the signature. *)
Definition calc_fn : Type :=
  Damping K -> bool -> tensor Z -> T -> Param K -> T -> Model N -> option T -> T -> T -> Cutoff K -> res T.

(** A concrete subclass of [DispTerm].  Classes are compared by identity ([is], base.py:80): the number
    tells which class it is. *)
Record uclass : Type := mkUClass { u_id : nat; u_calc : calc_fn }.
(** An object of such a class (base.py:56-77) *)
Record uterm : Type := mkUTerm { u_class : uclass; u_damping : Damping K; u_cdep : bool }.

(** [DispTerm.__eq__] (base.py:79-86) *)
Definition uterm_eqb (a b : uterm) : bool :=
  Nat.eqb (u_id (u_class a)) (u_id (u_class b))
  && damping_eqb (u_damping a) (u_damping b)
  && Bool.eqb (u_cdep a) (u_cdep b).

(** [Disp.calculate] before the loop (base.py:347-415): checks, defaults, coordination numbers, charges. *)
Definition prepare (p : Disp N) (numbers : tensor Z) (positions charge : T) (cutoff : option (Cutoff K))
  (q rcov r4r2 rvdw : option T) (is_c_dep : bool) : res (Cutoff K * Model N * T * T * T * option T) :=
  check_shape (shp numbers) (tl (shp positions)) ;;;
  let cutoff := default cutoff default_cutoff in
  model <- get_model X p numbers ;;
  match rcov with
  | None => Ok tt
  | Some rc => check_shape (shp numbers) (shp rc)
  end ;;;
  r4r2 <- match r4r2 with None => get_r4r2 numbers | Some r => Ok r end ;;
  check_shape (shp numbers) (shp r4r2) ;;;
  rvdw <- match rvdw with None => get_rvdw X numbers | Some r => Ok r end ;;
  check_shape (shp numbers) (tl (shp rvdw)) ;;;
  cn <- p_cn_fn p (p_cn_kw p) numbers positions ;;
  raise_if (match q with Some _ => negb is_c_dep | None => false end) RuntimeError ;;;
  q <- match q with
       | Some q => Ok (Some q)
       | None => if is_c_dep
                 then q <- w_eeq W numbers positions charge (c_cn_eeq cutoff) ;; Ok (Some q)
                 else Ok None
       end ;;
  match q with
  | None => Ok tt
  | Some q => check_shape (shp numbers) (shp q)
  end ;;;
  Ok (cutoff, model, r4r2, rvdw, cn, q).

(** the loop (base.py:417-431) *)
Fixpoint add_terms {A} (energy : T) (terms : list A) (calc : A -> res T) : res T :=
  match terms with
  | [] => Ok energy
  | t :: ts => energy' <- energy +t calc t ;; add_terms energy' ts calc
  end.

(** [Disp.calculate] (base.py:285-431) with the list [terms] of terms ([p_terms p] is not used) *)
Definition calculate_u (p : Disp N) (terms : list uterm) (numbers : tensor Z) (positions charge : T)
  (param : Param K) (cutoff : option (Cutoff K)) (q rcov r4r2 rvdw : option T) : res T :=
  pr <- prepare p numbers positions charge cutoff q rcov r4r2 rvdw (existsb u_cdep terms) ;;
  let '(cutoff, model, r4r2, rvdw, cn, q) := pr in
  add_terms (mkT (shp numbers) (fun _ => f0)) terms
    (fun t => u_calc (u_class t) (u_damping t) (u_cdep t) numbers positions param cn model q r4r2 rvdw cutoff).

(** ** Two-body terms *)
(** [TwoBodyTerm.calculate] (twobody.py:60-86) *)
Definition two_body_calc : calc_fn :=
  fun d cdep numbers positions param cn model q r4r2 rvdw cutoff =>
  weights <- weight_references X model (Some cn) (if cdep then q else None) ;;
  c6 <- get_atomic_c6 model weights ;;
  dispersion2 X numbers positions param c6 r4r2 (Some rvdw) d (Some (c_disp2 cutoff)) false.

(** ** Three-body terms *)
(** The methods [get_c9] (with [self.charge_dependent]) and [get_radii] (threebody.py:197-208) *)
Definition c9_fn : Type := bool -> Model N -> T -> option T -> res T.
Definition radii_fn : Type := Param K -> T -> T -> res T.

(** [ATM.calculate] (threebody.py:210-235) with the methods found on the class *)
Definition atm_calc (get_c9 : c9_fn) (get_radii : radii_fn) : calc_fn :=
  fun d cdep numbers positions param cn model q r4r2 rvdw cutoff =>
  c9 <- get_c9 cdep model cn q ;;
  radii <- get_radii param r4r2 rvdw ;;
  get_atm_dispersion X numbers positions c9 radii (c_disp3 cutoff) d (pget param "s9" dS9) (pget param "alp" dALP).

(** [C9ExactMixin.get_c9] (threebody.py:282-302); with an abstract model [None.unsqueeze] *)
Definition get_c9_exact : c9_fn := fun cdep model cn q =>
  raise_if (abstract_model model) AttributeError ;;;
  weights <- weight_references X model (Some cn) (if cdep then q else None) ;;
  aiw <- get_weighted_pols X model weights ;; c9_exact aiw.
(** [C9ApproxMixin.get_c9] (threebody.py:311-321) *)
Definition get_c9_approx : c9_fn := fun cdep model cn q =>
  raise_if (abstract_model model) AttributeError ;;;
  weights <- weight_references X model (Some cn) (if cdep then q else None) ;;
  c6 <- get_atomic_c6 model weights ;; c9_approx X c6.
(** [RadiiBJMixin.get_radii] (threebody.py:244-256) *)
Definition get_radii_bj : radii_fn := fun param r4r2 _ => radii_bj X param r4r2.
(** [RadiiVDWMixin.get_radii] (threebody.py:262-270) *)
Definition get_radii_vdw : radii_fn := fun param _ rvdw => radii_vdw param rvdw.

(** The methods among these two that a class body defines. (threebody.py:241-321) *)
Record methods : Type := mkMethods { me_c9 : option c9_fn; me_radii : option radii_fn }.
(** a class body that defines neither (d4.py:44, 67; d3.py:44) *)
Definition no_methods : methods := mkMethods None None.
(** the four mixins of the package (threebody.py:241-321) *)
Definition C9ExactMixin : methods := mkMethods (Some get_c9_exact) None.
Definition C9ApproxMixin : methods := mkMethods (Some get_c9_approx) None.
Definition RadiiBJMixin : methods := mkMethods None (Some get_radii_bj).
Definition RadiiVDWMixin : methods := mkMethods None (Some get_radii_vdw).

(** A base class in the list of bases of a subclass of [ATM]: [ATM] itself, or a mixin that has no base
    class of its own.  For such bases the method resolution order is the order of the list. *)
Inductive base : Type := ATM_ | Mixin (m : methods).

(** Attribute lookup: the class body, then the bases; in [ATM] both methods are there, but abstract
    (threebody.py:197-208).  [None]: abstract. *)
Fixpoint in_bases {A} (get : methods -> option A) (bases : list base) : option A :=
  match bases with
  | [] => None
  | ATM_ :: _ => None
  | Mixin m :: bs => match get m with Some f => Some f | None => in_bases get bs end
  end.
(** Python: attribute lookup on the class (used in threebody.py:223-224) *)
Definition attribute {A} (get : methods -> option A) (body : methods) (bases : list base) : option A :=
  match get body with Some f => Some f | None => in_bases get bases end.

(** An object of the class [id] with this body and these bases, among them [ATM] (threebody.py:178-235):
    [TypeError] if a method is abstract ([ABC]). *)
Definition new_atm (id : nat) (body : methods) (bases : list base) (d : Damping K) (cdep : bool) : res uterm :=
  match attribute me_c9 body bases, attribute me_radii body bases with
  | Some g9, Some gr => Ok (mkUTerm (mkUClass id (atm_calc g9 gr)) d cdep)
  | _, _ => Raise TypeError
  end.

(** ** The classes of the package *)
(** identities of the four classes (twobody.py:38, d4.py:44, 67, d3.py:44) *)
Definition class_id (c : tclass) : nat :=
  match c with TwoBodyTerm => 0 | D4ATMApprox => 1 | D4ATMExact => 2 | D3ATM => 3 end.
(** [TwoBodyTerm(..)] (twobody.py:38-58), [D4ATMApprox(..)] (d4.py:44), [D4ATMExact(..)] (d4.py:67),
    [D3ATM(..)] (d3.py:44) *)
Definition new_term (c : tclass) (d : Damping K) (cdep : bool) : res uterm :=
  match c with
  | TwoBodyTerm => Ok (mkUTerm (mkUClass (class_id c) two_body_calc) d cdep)
  | D4ATMApprox => new_atm (class_id c) no_methods [Mixin C9ApproxMixin; Mixin RadiiBJMixin; ATM_] d cdep
  | D4ATMExact => new_atm (class_id c) no_methods [Mixin C9ExactMixin; Mixin RadiiBJMixin; ATM_] d cdep
  | D3ATM => new_atm (class_id c) no_methods [Mixin C9ApproxMixin; Mixin RadiiVDWMixin; ATM_] d cdep
  end.

(** ** Registration *)
(** [Disp.register] (base.py:215-216) *)
Definition register_u (l : list uterm) (t : uterm) : list uterm := l ++ [t].
(** [Disp.deregister] (base.py:218-219): [list.remove] *)
Fixpoint deregister_u (l : list uterm) (t : uterm) : res (list uterm) :=
  match l with
  | [] => Raise ValueError
  | t' :: l' => if uterm_eqb t' t then Ok l' else r <- deregister_u l' t ;; Ok (t' :: r)
  end.
End User.
Arguments uclass N : clear implicits.
Arguments uterm N : clear implicits.
Arguments methods N : clear implicits.
Arguments base N : clear implicits.
