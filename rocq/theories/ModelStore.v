(** * Objects with identity: damping objects, terms and [Disp] objects

    The damping objects are mutable: every call writes the attribute [doi]
    (src/tad_dftd4/damping/functions.py:136), and the same damping object is shared between terms
    (the objects in the class attributes [TERMS], dispersion/d4.py and d3.py, and the default
    arguments).  This file models the code of ModelTerms.v and ModelDisp.v that handles such
    objects with a store.  Not modelled: assignment to attributes by the user. *)
From Coq Require Import List Arith ZArith QArith Bool String.
From Verif Require Import Py Tensor Scalar ModelExt ModelUtils ModelDamping ModelModels
  ModelTerms ModelDisp.
Import ListNotations.
Open Scope ten_scope.
Open Scope string_scope.

Section Store.
Context {N : Num} (X : Ext (sc N)) (W : World N).
Notation K := (sc N).

(** a damping object: its class and its attribute [doi] (functions.py:65) *)
Record damp_obj : Type := mkDampObj { o_class : Damping K; o_doi : option (pval K) }.
(** a term object (dispersion/base.py:38-77): class, reference to the damping object *)
Record term_obj : Type := mkTermObj { o_tclass : tclass; o_damping : nat; o_cdep : bool }.
(** a [Disp] object (base.py:88-132): references to the terms, the other attributes ([p_terms]
    of [o_conf] is not used) *)
Record disp_obj : Type := mkDispObj { o_terms : list nat; o_conf : Disp N }.

(** Python: the objects that exist, by reference *)
Record store : Type := mkStore {
  s_damp : list damp_obj; s_terms : list term_obj; s_disps : list disp_obj }.

(** Computations with a store that can raise. (Python statements) *)
Definition M (A : Type) : Type := store -> store * res A.
(** Python: a statement without effect *)
Definition ret {A} (r : res A) : M A := fun s => (s, r).
(** Python: sequencing of statements; an exception ends it *)
Definition bindM {A B} (m : M A) (k : A -> M B) : M B :=
  fun s => let '(s', r) := m s in match r with Ok a => k a s' | Raise e => (s', Raise e) end.

Declare Scope m_scope.
Notation "x <-- m ;; k" := (bindM m (fun x => k)) (at level 61, m at next level, right associativity) : m_scope.
Notation "x <- m ;; k" := (bindM (ret m) (fun x => k)) (at level 61, m at next level, right associativity) : m_scope.
Notation "m ;;; k" := (bindM (ret m) (fun _ => k)) (at level 61, right associativity) : m_scope.
Open Scope m_scope.

(** reading a reference; a dangling reference cannot occur (proved) and raises
    (Python: attribute access, e.g. twobody.py:60-86) *)
Definition deref {A} (f : store -> list A) (l : nat) : M A :=
  fun s => (s, match nth_error (f s) l with Some x => Ok x | None => Raise AttributeError end).

(** Python: [l[i] = x] *)
Definition set_nth {A} (l : list A) (i : nat) (x : A) : list A := firstn i l ++ x :: skipn (S i) l.

(** [self.doi = doi] (functions.py:136) *)
Definition set_doi (l : nat) (o : damp_obj) (doi : option (pval K)) : M unit :=
  fun s => (mkStore (set_nth (s_damp s) l (mkDampObj (o_class o) doi)) (s_terms s) (s_disps s), Ok tt).

(** [Damping.__call__] (functions.py:116-169): the arguments are bound first *)
Definition damping_call_obj (l : nat) (dist radii : tensor K) (order : nat) (only : bool)
  (param : Param K) : M (tensor K) :=
  o <-- deref s_damp l ;;
  a <- bind_call param ;;
  _ <-- set_doi l o (dget param "doi") ;;
  ret (damping_call_args (o_class o) dist radii order only a).

(** [torch.where(mask, f(..), zero)]: [mask] is evaluated first (twobody.py:141-201, threebody.py:95-163) *)
Definition where_obj (mask : res (tensor bool)) (m : M (tensor K)) (z : K) : M (tensor K) :=
  mask <- mask ;;
  v <-- m ;;
  ret (twhere mask v (scal z)).

(** [dispersion2] (twobody.py:89-201), see ModelTerms.v *)
Definition dispersion2_obj (numbers : tensor Z) (positions : tensor K) (param : Param K)
  (c6 r4r2 : tensor K) (rvdw : option (tensor K)) (l : nat)
  (cutoff : option (tensor K)) (as_matrix : bool) : M (tensor K) :=
  let cutoff := default cutoff (scal (flit D4_DISP2_CUTOFF)) in
  mask <- real_pairs numbers ;;
  distances <- twhere mask (cdist X positions positions) (scal feps) ;;
  qq <- tlit 3 *t unsqueeze 1 r4r2 *t unsqueeze 2 r4r2 ;;
  c8 <- c6 *t qq ;;
  o <-- deref s_damp l ;;
  radii <- (if d_radius_type (o_class o) =? "rvdw" then
              match rvdw with None => Raise ValueError | Some r => Ok r end
            else if d_radius_type (o_class o) =? "r4r2" then Ok qq
            else Raise ValueError) ;;
  t6 <-- where_obj (mask &&t (distances <=t cutoff))
                   (damping_call_obj l distances radii 6 false param) (flit 0) ;;
  t8 <-- where_obj (mask &&t (distances <=t cutoff))
                   (damping_call_obj l distances radii 8 false param) (flit 0) ;;
  e6 <- (if as_matrix then c6 *t t6 else tsum1 (c6 *t t6)) ;;
  e8 <- (if as_matrix then c8 *t t8 else tsum1 (c8 *t t8)) ;;
  edisp <- num (pget param "s6" dS6) *t e6 +t num (pget param "s8" dS8) *t e8 ;;
  edisp <-- match dget param "s10" with
           | None => ret (Ok edisp)
           | Some s10 =>
               c10 <- c6 *t tpown qq 2 *t tlit 49 /t tlit 40 ;;
               t10 <-- where_obj (mask &&t (distances <=t cutoff))
                             (damping_call_obj l distances radii 10 false param) (flit 0) ;;
               e10 <- (if as_matrix then c10 *t t10 else tsum1 (c10 *t t10)) ;;
               ret (iadd edisp (num s10 *t e10))
           end ;;
  ret (if as_matrix then topp edisp else tlit (- (1 # 2)) *t edisp).

(** [get_atm_dispersion] (threebody.py:54-163), see ModelTerms.v *)
Definition get_atm_dispersion_obj (numbers : tensor Z) (positions : tensor K)
  (c9 radii cutoff : tensor K) (l : nat) (s9 alp : pval K) : M (tensor K) :=
  s9 <- num s9 ;;
  alp <- num alp ;;
  cutoff2 <- cutoff *t cutoff ;;
  mask_pairs <- real_pairs numbers ;;
  mask_triples <- real_triples numbers ;;
  r0ij <- unsqueeze 1 radii ;;
  r0ik <- unsqueeze 2 radii ;;
  r0jk <- unsqueeze 3 radii ;;
  r0 <- r0ij *t r0ik *t r0jk ;;
  distances <- tpow (twhere mask_pairs (cdist X positions positions) (scal feps)) (tlit 2) ;;
  r2ij <- unsqueeze 1 distances ;;
  r2ik <- unsqueeze 2 distances ;;
  r2jk <- unsqueeze 3 distances ;;
  r2 <- r2ij *t r2ik *t r2jk ;;
  r1 <- tsqrt r2 ;;
  r3 <- twhere mask_triples (r1 *t r2) (scal feps) ;;
  r5 <- twhere mask_triples (r2 *t r3) (scal feps) ;;
  r1' <- twhere mask_triples r1 (tlit 1) ;;
  alp3 <- alp /t tlit 3 ;;
  fdamp <-- where_obj (Ok mask_triples)
                  (damping_call_obj l r0 r1' 9 true [("alp", PT alp3)]) (flit 0) ;;
  s <- twhere mask_triples
              ((r2ij +t r2jk -t r2ik) *t (r2ij -t r2jk +t r2ik)
               *t (topp r2ij +t r2jk +t r2ik))
              (tlit 0) ;;
  ang <- twhere (mask_triples &&t (r2ij <=t cutoff2) &&t (r2jk <=t cutoff2)
                 &&t (r2jk <=t cutoff2))
                (tlit (375 # 1000) *t s /t r5 +t tlit 1 /t r3)
                (tlit 0) ;;
  energy <- ang *t fdamp *t s9 *t c9 ;;
  ret (tsum1 (tsum1 energy) /t tlit 6).

(** [TwoBodyTerm.calculate] (twobody.py:60-86), [ATM.calculate] (threebody.py:210-235) *)
Definition term_calculate_obj (t : nat) (numbers : tensor Z) (positions : tensor K)
  (param : Param K) (cn : tensor K) (model : Model N) (q : option (tensor K))
  (r4r2 rvdw : tensor K) (cutoff : Cutoff K) : M (tensor K) :=
  t <-- deref s_terms t ;;
  let q := if o_cdep t then q else None in
  match o_tclass t with
  | TwoBodyTerm =>
      weights <- weight_references X model (Some cn) q ;;
      c6 <- get_atomic_c6 model weights ;;
      dispersion2_obj numbers positions param c6 r4r2 (Some rvdw) (o_damping t)
                  (Some (c_disp2 cutoff)) false
  | cls =>
      raise_if (abstract_model model) AttributeError ;;;
      weights <- weight_references X model (Some cn) q ;;
      c9 <- match cls with
            | D4ATMExact => bind (get_weighted_pols X model weights) c9_exact
            | _ => bind (get_atomic_c6 model weights) (c9_approx X)
            end ;;
      radii <- match cls with
               | D3ATM => radii_vdw param rvdw
               | _ => radii_bj X param r4r2
               end ;;
      get_atm_dispersion_obj numbers positions c9 radii (c_disp3 cutoff) (o_damping t)
                         (pget param "s9" dS9) (pget param "alp" dALP)
  end.

(** the loop of [Disp.calculate] (base.py:417-431) *)
Fixpoint sum_terms_obj (energy : tensor K) (terms : list nat)
  (calc : nat -> M (tensor K)) : M (tensor K) :=
  match terms with
  | [] => ret (Ok energy)
  | t :: ts => e <-- calc t ;; energy' <- energy +t e ;; sum_terms_obj energy' ts calc
  end.

(** [any(t.charge_dependent for t in self.terms)] (base.py:393) *)
Fixpoint any_cdep (terms : list nat) : M bool :=
  match terms with
  | [] => ret (Ok false)
  | t :: ts => o <-- deref s_terms t ;; if o_cdep o then ret (Ok true) else any_cdep ts
  end.

(** [Disp.calculate] (base.py:285-431), see ModelDisp.v *)
Definition calculate_obj (i : nat) (numbers : tensor Z) (positions : tensor K)
  (charge : tensor K) (param : Param K) (cutoff : option (Cutoff K))
  (q rcov r4r2 rvdw : option (tensor K)) : M (tensor K) :=
  p <-- deref s_disps i ;;
  check_shape (shp numbers) (tl (shp positions)) ;;;
  let cutoff := default cutoff default_cutoff in
  model <- get_model X (o_conf p) numbers ;;
  match rcov with
  | None => Ok tt
  | Some rc => check_shape (shp numbers) (shp rc)
  end ;;;
  r4r2 <- match r4r2 with None => get_r4r2 numbers | Some r => Ok r end ;;
  check_shape (shp numbers) (shp r4r2) ;;;
  rvdw <- match rvdw with None => get_rvdw X numbers | Some r => Ok r end ;;
  check_shape (shp numbers) (tl (shp rvdw)) ;;;
  cn <- p_cn_fn (o_conf p) (p_cn_kw (o_conf p)) numbers positions ;;
  is_c_dep <-- any_cdep (o_terms p) ;;
  raise_if (match q with Some _ => negb is_c_dep | None => false end) RuntimeError ;;;
  q <- match q with
       | Some q => Ok (Some q)
       | None => if is_c_dep
                 then rmap Some (w_eeq W numbers positions charge (c_cn_eeq cutoff))
                 else Ok None
       end ;;
  match q with
  | None => Ok tt
  | Some q => check_shape (shp numbers) (shp q)
  end ;;;
  sum_terms_obj (mkT (shp numbers) (fun _ => f0)) (o_terms p)
    (fun t => term_calculate_obj t numbers positions param cn model q r4r2 rvdw cutoff).

(** Allocation. (creating a damping object, e.g. disp.py:58) *)
Definition alloc_damp (d : Damping K) : M nat :=
  fun s => (mkStore (s_damp s ++ [mkDampObj d None]) (s_terms s) (s_disps s), Ok (List.length (s_damp s))).
(** creating a term object (base.py:66-77, 213; disp.py:124,130) *)
Definition alloc_term (t : term_obj) : M nat :=
  fun s => (mkStore (s_damp s) (s_terms s ++ [t]) (s_disps s), Ok (List.length (s_terms s))).
(** creating a [Disp] object (base.py:140-213; disp.py:117) *)
Definition alloc_disp (p : disp_obj) : M nat :=
  fun s => (mkStore (s_damp s) (s_terms s) (s_disps s ++ [p]), Ok (List.length (s_disps s))).
(** changing the list [self.terms] (base.py:210, 216, 219) *)
Definition set_terms (i : nat) (p : disp_obj) (l : list nat) : M unit :=
  fun s => (mkStore (s_damp s) (s_terms s) (set_nth (s_disps s) i (mkDispObj l (o_conf p))), Ok tt).

(** [Disp.register] (base.py:215-216): append *)
Definition register_obj (i t : nat) : M unit :=
  p <-- deref s_disps i ;;
  set_terms i p (o_terms p ++ [t]).

(** [DispTerm.__eq__] (base.py:79-86), [Damping.__eq__] (functions.py:214-235) *)
Definition eq_obj (t t' : nat) : M bool :=
  o <-- deref s_terms t ;;
  o' <-- deref s_terms t' ;;
  d <-- deref s_damp (o_damping o) ;;
  d' <-- deref s_damp (o_damping o') ;;
  ret (Ok (tclass_eqb (o_tclass o) (o_tclass o') && damping_eqb (o_class d) (o_class d')
           && Bool.eqb (o_cdep o) (o_cdep o'))).

(** [list.remove]: the first element that is equal; [ValueError] if there is none (base.py:219) *)
Fixpoint remove_obj (l : list nat) (t : nat) : M (list nat) :=
  match l with
  | [] => ret (Raise ValueError)
  | t' :: l' => b <-- eq_obj t' t ;;
                if b : bool then ret (Ok l') else r <-- remove_obj l' t ;; ret (Ok (t' :: r))
  end.

(** [Disp.deregister] (base.py:218-219) *)
Definition deregister_obj (i t : nat) : M unit :=
  p <-- deref s_disps i ;;
  l <-- remove_obj (o_terms p) t ;;
  set_terms i p l.

(** [for term_cls, kw in self.TERMS: self.register(term_cls( **kw))] (base.py:211-213): new term
    objects, the damping object of the class attribute *)
Fixpoint new_terms (terms : list term_obj) : M (list nat) :=
  match terms with
  | [] => ret (Ok [])
  | t :: ts => l <-- alloc_term t ;; r <-- new_terms ts ;; ret (Ok (l :: r))
  end.

(** [Disp.__init__] (base.py:140-213) of a class with this attribute [TERMS] *)
Definition new_disp_obj (TERMS : list term_obj) (model : marg N) (kw : mkwargs N)
  (cn_fn : option (CNFunc N)) (cn_kw : option (CountF N)) : M nat :=
  conf <- new_disp W [] model kw cn_fn cn_kw ;;
  l <-- new_terms TERMS ;;
  alloc_disp (mkDispObj l conf).

(** [dftd4] (disp.py:44-146), with a damping object *)
Definition dftd4_obj (numbers : tensor Z) (positions charge : tensor K) (param : Param K)
  (model : marg N) (rcov r4r2 rvdw q : option (tensor K)) (cutoff : option (Cutoff K))
  (cn_function : CNFunc N) (counting_function : CountF N) (l : nat) : M (tensor K) :=
  i <-- new_disp_obj [] model no_kw (Some cn_function) (Some counting_function) ;;
  t <-- alloc_term (mkTermObj TwoBodyTerm l true) ;;
  _ <-- register_obj i t ;;
  d <-- alloc_damp (ZeroDamping X) ;;
  t <-- alloc_term (mkTermObj D4ATMApprox d false) ;;
  _ <-- register_obj i t ;;
  calculate_obj i numbers positions charge param cutoff q rcov r4r2 rvdw.

(** The damping objects made when the package is imported: two for each of the classes [DispD4],
    [DispD4Exact] (dispersion/d4.py:51-60, 74-83), [DispD3BJ], [DispD3Zero] (d3.py:51-60, 70-79),
    and the default arguments of [TwoBodyTerm] (twobody.py:54), [ThreeBodyTerm] (threebody.py:172)
    and [dftd4] (disp.py:58). *)
Definition import : store :=
  mkStore (map (fun d => mkDampObj d None)
    [RationalDamping; ZeroDamping X; RationalDamping; ZeroDamping X; RationalDamping; ZeroDamping X;
     ZeroDamping X; ZeroDamping X; RationalDamping; ZeroDamping X; RationalDamping]) [] [].
(** [DispD4.TERMS] (d4.py:51-60) *)
Definition TERMS_D4 := [mkTermObj TwoBodyTerm 0 true; mkTermObj D4ATMApprox 1 false].
(** [DispD4Exact.TERMS] (d4.py:74-83) *)
Definition TERMS_D4Exact := [mkTermObj TwoBodyTerm 2 true; mkTermObj D4ATMExact 3 false].
(** [DispD3BJ.TERMS] (d3.py:51-60) *)
Definition TERMS_D3BJ := [mkTermObj TwoBodyTerm 4 false; mkTermObj D3ATM 5 false].
(** [DispD3Zero.TERMS] (d3.py:70-79) *)
Definition TERMS_D3Zero := [mkTermObj TwoBodyTerm 6 false; mkTermObj D3ATM 7 false].
(** [TwoBodyTerm()] with its default damping object (twobody.py:51-58) *)
Definition default_two_body := mkTermObj TwoBodyTerm 8 true.
(** an [ATM] term with its default damping object (threebody.py:169-176) *)
Definition default_atm (cls : tclass) := mkTermObj cls 9 false.
(** the default of [damping_function] (disp.py:58) *)
Definition dftd4_default_damping : nat := 10.
End Store.
Arguments damp_obj N : clear implicits.
Arguments disp_obj N : clear implicits.
Arguments store N : clear implicits.
Arguments M N A : clear implicits.
