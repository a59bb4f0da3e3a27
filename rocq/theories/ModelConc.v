(** * Threads

    The operations of ModelStore.v as programs of atomic steps, for any number of threads that share
    the objects.  A step is one access to an object (reading an attribute, writing an attribute,
    appending to a list, making an object); between two steps of a thread any number of steps of
    other threads may happen, and a thread may also stop for ever between two steps.  Everything
    else (arithmetic on tensors) does not touch shared objects: tensors given to or returned by the
    functions are not modified in place by the package.

    Python's loops [for t in self.terms] read the list again in every iteration, so these programs
    may run for ever if other threads keep on appending; hence [CoInductive]. *)
From Coq Require Import List Arith ZArith QArith Bool String.
From Verif Require Import Py Tensor Scalar ModelExt ModelUtils ModelDamping ModelModels
  ModelTerms ModelDisp ModelStore.
Import ListNotations.
Open Scope ten_scope.
Open Scope string_scope.

Section Conc.
Context {N : Num} (X : Ext (sc N)) (W : World N).
Notation K := (sc N).
Notation store := (store N).

(** The program of a thread: finished, or one atomic step (its effect, what comes next). *)
CoInductive P (A : Type) : Type :=
| Done (r : res A)
| Step (effect : store -> store) (next : store -> P A).
Arguments Done {A}. Arguments Step {A}.

(** one atomic access (Python's memory model; see the head of this file) *)
Definition act {A} (m : M N A) : P A := Step (fun s => fst (m s)) (fun s => Done (snd (m s))).
(** a step list that is empty: a thread that has returned or raised *)
Definition done {A} (r : res A) : P A := Done r.
(** [try: m; except: ..]: what comes next may depend on the exception *)
CoFixpoint after_any {A B} (m : P A) (k : res A -> P B) : P B :=
  match m with
  | Done r => k r
  | Step u n => Step u (fun s => after_any (n s) k)
  end.
(** sequencing of the statements of a function, cf. base.py:350-431 *)
Definition bindP {A B} (m : P A) (k : A -> P B) : P B :=
  after_any m (fun r => match r with Ok a => k a | Raise e => Done (Raise e) end).

Declare Scope p_scope.
Notation "x <-- m ;; k" := (bindP m (fun x => k)) (at level 61, m at next level, right associativity) : p_scope.
Notation "x <- m ;; k" := (bindP (done m) (fun x => k)) (at level 61, m at next level, right associativity) : p_scope.
Notation "m ;;; k" := (bindP (done m) (fun _ => k)) (at level 61, right associativity) : p_scope.
Open Scope p_scope.

(** reading an attribute, e.g. [term.damping_fn] (twobody.py:60-86) *)
Definition get {A} (f : store -> list A) (l : nat) : P A := act (deref f l).
(** [self.doi = doi] (functions.py:136) *)
Definition put_doi (l : nat) (o : damp_obj N) (doi : option (pval K)) : P unit := act (set_doi l o doi).

(** [for t in self.terms: ..] (base.py:393, 418): the iterator of a list reads the element at its
    position, until the position is beyond the end.  [cur] is the rest of the body for the current
    element; it gives the new value of the variables, and whether to leave the loop. *)
CoFixpoint iter {B} (i : nat) (body : B -> nat -> P (B * bool)) (j : nat) (cur : P (B * bool)) : P B :=
  match cur with
  | Done (Raise e) => Done (Raise e)
  | Done (Ok (b, true)) => Done (Ok b)
  | Done (Ok (b, false)) =>
      Step (fun s => s) (fun s =>
        match nth_error (s_disps s) i with
        | None => Done (Raise AttributeError)
        | Some o => match nth_error (o_terms o) j with
                    | None => Done (Ok b)
                    | Some t => iter i body (S j) (body b t)
                    end
        end)
  | Step u n => Step u (fun s => iter i body j (n s))
  end.
(** the loop over [self.terms] from position [i] (base.py:393, 418) *)
Definition for_terms {B} (i : nat) (b : B) (body : B -> nat -> P (B * bool)) : P B :=
  iter i body 0 (Done (Ok (b, false))).

(** [Damping.__call__] (functions.py:116-169): the arguments are bound first *)
Definition damping_call_th (l : nat) (dist radii : tensor K) (order : nat) (only : bool)
  (param : Param K) : P (tensor K) :=
  o <-- get s_damp l ;;
  a <- bind_call param ;;
  _ <-- put_doi l o (dget param "doi") ;;
  done (damping_call_args (o_class o) dist radii order only a).

(** [torch.where(mask, f(..), zero)]: [mask] is evaluated first (twobody.py:141-201, threebody.py:95-163) *)
Definition where_th (mask : res (tensor bool)) (m : P (tensor K)) (z : K) : P (tensor K) :=
  mask <- mask ;;
  v <-- m ;;
  done (twhere mask v (scal z)).

(** [dispersion2] (twobody.py:89-201), see ModelTerms.v *)
Definition dispersion2_th (numbers : tensor Z) (positions : tensor K) (param : Param K)
  (c6 r4r2 : tensor K) (rvdw : option (tensor K)) (l : nat)
  (cutoff : option (tensor K)) (as_matrix : bool) : P (tensor K) :=
  let cutoff := default cutoff (scal (flit D4_DISP2_CUTOFF)) in
  mask <- real_pairs numbers ;;
  distances <- twhere mask (cdist X positions positions) (scal feps) ;;
  qq <- tlit 3 *t unsqueeze 1 r4r2 *t unsqueeze 2 r4r2 ;;
  c8 <- c6 *t qq ;;
  o <-- get s_damp l ;;
  radii <- (if d_radius_type (o_class o) =? "rvdw" then
              match rvdw with None => Raise ValueError | Some r => Ok r end
            else if d_radius_type (o_class o) =? "r4r2" then Ok qq
            else Raise ValueError) ;;
  t6 <-- where_th (mask &&t (distances <=t cutoff))
                   (damping_call_th l distances radii 6 false param) (flit 0) ;;
  t8 <-- where_th (mask &&t (distances <=t cutoff))
                   (damping_call_th l distances radii 8 false param) (flit 0) ;;
  e6 <- (if as_matrix then c6 *t t6 else tsum1 (c6 *t t6)) ;;
  e8 <- (if as_matrix then c8 *t t8 else tsum1 (c8 *t t8)) ;;
  edisp <- num (pget param "s6" dS6) *t e6 +t num (pget param "s8" dS8) *t e8 ;;
  edisp <-- match dget param "s10" with
           | None => done (Ok edisp)
           | Some s10 =>
               c10 <- c6 *t tpown qq 2 *t tlit 49 /t tlit 40 ;;
               t10 <-- where_th (mask &&t (distances <=t cutoff))
                             (damping_call_th l distances radii 10 false param) (flit 0) ;;
               e10 <- (if as_matrix then c10 *t t10 else tsum1 (c10 *t t10)) ;;
               done (iadd edisp (num s10 *t e10))
           end ;;
  done (if as_matrix then topp edisp else tlit (- (1 # 2)) *t edisp).

(** [get_atm_dispersion] (threebody.py:54-163), see ModelTerms.v *)
Definition get_atm_dispersion_th (numbers : tensor Z) (positions : tensor K)
  (c9 radii cutoff : tensor K) (l : nat) (s9 alp : pval K) : P (tensor K) :=
  s9 <- num s9 ;;
  alp <- num alp ;;
  cutoff2 <- cutoff *t cutoff ;;
  mask_pairs <- real_pairs numbers ;;
  mask_triples <- real_triples numbers ;;
  r0ij <- unsqueeze 1 radii ;;
  r0ik <- unsqueeze 2 radii ;;
  r0jk <- unsqueeze 3 radii ;;
  r0 <- r0ij *t r0ik *t r0jk ;;
  distances <- tpow (twhere mask_pairs (cdist X positions positions) (scal feps)) (tlit 2) ;;
  r2ij <- unsqueeze 1 distances ;;
  r2ik <- unsqueeze 2 distances ;;
  r2jk <- unsqueeze 3 distances ;;
  r2 <- r2ij *t r2ik *t r2jk ;;
  r1 <- tsqrt r2 ;;
  r3 <- twhere mask_triples (r1 *t r2) (scal feps) ;;
  r5 <- twhere mask_triples (r2 *t r3) (scal feps) ;;
  r1' <- twhere mask_triples r1 (tlit 1) ;;
  alp3 <- alp /t tlit 3 ;;
  fdamp <-- where_th (Ok mask_triples)
                  (damping_call_th l r0 r1' 9 true [("alp", PT alp3)]) (flit 0) ;;
  s <- twhere mask_triples
              ((r2ij +t r2jk -t r2ik) *t (r2ij -t r2jk +t r2ik)
               *t (topp r2ij +t r2jk +t r2ik))
              (tlit 0) ;;
  ang <- twhere (mask_triples &&t (r2ij <=t cutoff2) &&t (r2jk <=t cutoff2)
                 &&t (r2jk <=t cutoff2))
                (tlit (375 # 1000) *t s /t r5 +t tlit 1 /t r3)
                (tlit 0) ;;
  energy <- ang *t fdamp *t s9 *t c9 ;;
  done (tsum1 (tsum1 energy) /t tlit 6).

(** [TwoBodyTerm.calculate] (twobody.py:60-86), [ATM.calculate] (threebody.py:210-235) *)
Definition term_calculate_th (t : nat) (numbers : tensor Z) (positions : tensor K)
  (param : Param K) (cn : tensor K) (model : Model N) (q : option (tensor K))
  (r4r2 rvdw : tensor K) (cutoff : Cutoff K) : P (tensor K) :=
  t <-- get s_terms t ;;
  let q := if o_cdep t then q else None in
  match o_tclass t with
  | TwoBodyTerm =>
      weights <- weight_references X model (Some cn) q ;;
      c6 <- get_atomic_c6 model weights ;;
      dispersion2_th numbers positions param c6 r4r2 (Some rvdw) (o_damping t)
                  (Some (c_disp2 cutoff)) false
  | cls =>
      raise_if (abstract_model model) AttributeError ;;;
      weights <- weight_references X model (Some cn) q ;;
      c9 <- match cls with
            | D4ATMExact => bind (get_weighted_pols X model weights) c9_exact
            | _ => bind (get_atomic_c6 model weights) (c9_approx X)
            end ;;
      radii <- match cls with
               | D3ATM => radii_vdw param rvdw
               | _ => radii_bj X param r4r2
               end ;;
      get_atm_dispersion_th numbers positions c9 radii (c_disp3 cutoff) (o_damping t)
                         (pget param "s9" dS9) (pget param "alp" dALP)
  end.

(** [Disp.calculate] (base.py:285-431), see ModelDisp.v *)
Definition calculate_th (i : nat) (numbers : tensor Z) (positions : tensor K)
  (charge : tensor K) (param : Param K) (cutoff : option (Cutoff K))
  (q rcov r4r2 rvdw : option (tensor K)) : P (tensor K) :=
  p <-- get s_disps i ;;
  check_shape (shp numbers) (tl (shp positions)) ;;;
  let cutoff := default cutoff default_cutoff in
  model <- get_model X (o_conf p) numbers ;;
  match rcov with
  | None => Ok tt
  | Some rc => check_shape (shp numbers) (shp rc)
  end ;;;
  r4r2 <- match r4r2 with None => get_r4r2 numbers | Some r => Ok r end ;;
  check_shape (shp numbers) (shp r4r2) ;;;
  rvdw <- match rvdw with None => get_rvdw X numbers | Some r => Ok r end ;;
  check_shape (shp numbers) (tl (shp rvdw)) ;;;
  cn <- p_cn_fn (o_conf p) (p_cn_kw (o_conf p)) numbers positions ;;
  is_c_dep <-- for_terms i false (fun _ t => o <-- get s_terms t ;; done (Ok (o_cdep o, o_cdep o))) ;;
  raise_if (match q with Some _ => negb is_c_dep | None => false end) RuntimeError ;;;
  q <- match q with
       | Some q => Ok (Some q)
       | None => if is_c_dep
                 then rmap Some (w_eeq W numbers positions charge (c_cn_eeq cutoff))
                 else Ok None
       end ;;
  match q with
  | None => Ok tt
  | Some q => check_shape (shp numbers) (shp q)
  end ;;;
  for_terms i (mkT (shp numbers) (fun _ => f0)) (fun energy t =>
    e <-- term_calculate_th t numbers positions param cn model q r4r2 rvdw cutoff ;;
    energy' <- energy +t e ;;
    done (Ok (energy', false))).

(** [Disp.register] (base.py:215-216): [list.append] is atomic *)
Definition register_th (i t : nat) : P unit := act (register_obj i t).

(** [DispTerm.__eq__] (base.py:79-86), [Damping.__eq__] (functions.py:214-235) *)
Definition eq_th (t t' : nat) : P bool :=
  o <-- get s_terms t ;;
  o' <-- get s_terms t' ;;
  d <-- get s_damp (o_damping o) ;;
  d' <-- get s_damp (o_damping o') ;;
  done (Ok (tclass_eqb (o_tclass o) (o_tclass o') && damping_eqb (o_class d) (o_class d')
            && Bool.eqb (o_cdep o) (o_cdep o'))).

(** [Disp.deregister] (base.py:218-219): [list.remove] calls [__eq__] for one element after the
    other, and then deletes the element at the position where it stopped *)
Definition remove_at (i j : nat) : M N unit :=
  bindM (deref s_disps i) (fun p => set_terms i p (firstn j (o_terms p) ++ skipn (S j) (o_terms p))).
(** [Disp.deregister] (base.py:218-219) *)
Definition deregister_th (i t : nat) : P unit :=
  r <-- for_terms i (0%nat, false) (fun acc t' =>
          b <-- eq_th t' t ;;
          done (Ok (if b : bool then (fst acc, true, true) else (S (fst acc), false, false)))) ;;
  if snd r : bool then act (remove_at i (fst r)) else done (Raise ValueError).

(** [for term_cls, kw in self.TERMS: self.register(term_cls( **kw))] (base.py:211-213): new term
    objects, the damping object of the class attribute.  Simplification: the list is made before
    the [Disp] object; no other thread has a reference to the object before [__init__] returns. *)
Fixpoint new_terms_th (terms : list term_obj) : P (list nat) :=
  match terms with
  | [] => done (Ok [])
  | t :: ts => l <-- act (alloc_term t) ;; r <-- new_terms_th ts ;; done (Ok (l :: r))
  end.

(** [Disp.__init__] (base.py:140-213) of a class with this attribute [TERMS] *)
Definition new_disp_th (TERMS : list term_obj) (model : marg N) (kw : mkwargs N)
  (cn_fn : option (CNFunc N)) (cn_kw : option (CountF N)) : P nat :=
  conf <- new_disp W [] model kw cn_fn cn_kw ;;
  l <-- new_terms_th TERMS ;;
  act (alloc_disp (mkDispObj l conf)).

(** [dftd4] (disp.py:44-146), with a damping object *)
Definition dftd4_th (numbers : tensor Z) (positions charge : tensor K) (param : Param K)
  (model : marg N) (rcov r4r2 rvdw q : option (tensor K)) (cutoff : option (Cutoff K))
  (cn_function : CNFunc N) (counting_function : CountF N) (l : nat) : P (tensor K) :=
  i <-- new_disp_th [] model no_kw (Some cn_function) (Some counting_function) ;;
  t <-- act (alloc_term (mkTermObj TwoBodyTerm l true)) ;;
  _ <-- register_th i t ;;
  d <-- act (alloc_damp (ZeroDamping X)) ;;
  t <-- act (alloc_term (mkTermObj D4ATMApprox d false)) ;;
  _ <-- register_th i t ;;
  calculate_th i numbers positions charge param cutoff q rcov r4r2 rvdw.

End Conc.
Arguments P N A : clear implicits.
Arguments Done {N A}. Arguments Step {N A}.
