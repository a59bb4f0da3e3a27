(** * src/tad_dftd4/dispersion/{twobody,threebody}.py *)
From Coq Require Import List Arith ZArith QArith Bool String.
From Verif Require Import Py Tensor Scalar ModelExt ModelUtils ModelDamping ModelModels.
Import ListNotations.
Open Scope py_scope.
Open Scope ten_scope.
Open Scope string_scope.

Section Terms.
Context {K : Scalar} (X : Ext K).

(** [param.get(k, torch.tensor(q))] (twobody.py:60-201, threebody.py:210-270) *)
Definition pget (param : Param K) (k : string) (q : Q) : pval K :=
  default (dget param k) (lit_p q).

(** In-place [a += b]: the broadcast shape must be the shape of [a]. (twobody.py:197) *)
Definition iadd (a b : res (tensor K)) : res (tensor K) :=
  a' <- a ;;
  r <- a' +t b ;;
  if shape_eqb (shp r) (shp a') then Ok r else Raise RuntimeError.

(** [dispersion2] (twobody.py:89-201) *)
Definition dispersion2 (numbers : tensor Z) (positions : tensor K) (param : Param K)
  (c6 r4r2 : tensor K) (rvdw : option (tensor K)) (d : Damping K)
  (cutoff : option (tensor K)) (as_matrix : bool) : res (tensor K) :=
  let cutoff := default cutoff (scal (flit D4_DISP2_CUTOFF)) in
  mask <- real_pairs numbers ;;
  distances <- twhere mask (cdist X positions positions) (scal feps) ;;
  qq <- tlit 3 *t unsqueeze 1 r4r2 *t unsqueeze 2 r4r2 ;;
  c8 <- c6 *t qq ;;
  radii <- (if d_radius_type d =? "rvdw" then
              match rvdw with None => Raise ValueError | Some r => Ok r end
            else if d_radius_type d =? "r4r2" then Ok qq
            else Raise ValueError) ;;
  t6 <- twhere (mask &&t (distances <=t cutoff))
               (damping_call d distances radii 6 false param) (tlit 0) ;;
  t8 <- twhere (mask &&t (distances <=t cutoff))
               (damping_call d distances radii 8 false param) (tlit 0) ;;
  e6 <- (if as_matrix then c6 *t t6 else tsum1 (c6 *t t6)) ;;
  e8 <- (if as_matrix then c8 *t t8 else tsum1 (c8 *t t8)) ;;
  edisp <- num (pget param "s6" dS6) *t e6 +t num (pget param "s8" dS8) *t e8 ;;
  edisp <- match dget param "s10" with
           | None => Ok edisp
           | Some s10 =>
               c10 <- c6 *t tpown qq 2 *t tlit 49 /t tlit 40 ;;
               t10 <- twhere (mask &&t (distances <=t cutoff))
                             (damping_call d distances radii 10 false param) (tlit 0) ;;
               e10 <- (if as_matrix then c10 *t t10 else tsum1 (c10 *t t10)) ;;
               iadd edisp (num s10 *t e10)
           end ;;
  if as_matrix then topp edisp else tlit (- (1 # 2)) *t edisp.

(** [get_atm_dispersion] (threebody.py:54-163) *)
Definition get_atm_dispersion (numbers : tensor Z) (positions : tensor K)
  (c9 radii cutoff : tensor K) (d : Damping K) (s9 alp : pval K) : res (tensor K) :=
  s9 <- num s9 ;;
  alp <- num alp ;;
  cutoff2 <- cutoff *t cutoff ;;
  mask_pairs <- real_pairs numbers ;;
  mask_triples <- real_triples numbers ;;
  r0ij <- unsqueeze 1 radii ;;
  r0ik <- unsqueeze 2 radii ;;
  r0jk <- unsqueeze 3 radii ;;
  r0 <- r0ij *t r0ik *t r0jk ;;
  distances <- tpow (twhere mask_pairs (cdist X positions positions) (scal feps)) (tlit 2) ;;
  r2ij <- unsqueeze 1 distances ;;
  r2ik <- unsqueeze 2 distances ;;
  r2jk <- unsqueeze 3 distances ;;
  r2 <- r2ij *t r2ik *t r2jk ;;
  r1 <- tsqrt r2 ;;
  r3 <- twhere mask_triples (r1 *t r2) (scal feps) ;;
  r5 <- twhere mask_triples (r2 *t r3) (scal feps) ;;
  r1' <- twhere mask_triples r1 (tlit 1) ;;
  alp3 <- alp /t tlit 3 ;;
  fdamp <- twhere mask_triples
                  (damping_call d r0 r1' 9 true [("alp", PT alp3)]) (tlit 0) ;;
  s <- twhere mask_triples
              ((r2ij +t r2jk -t r2ik) *t (r2ij -t r2jk +t r2ik)
               *t (topp r2ij +t r2jk +t r2ik))
              (tlit 0) ;;
  ang <- twhere (mask_triples &&t (r2ij <=t cutoff2) &&t (r2jk <=t cutoff2)
                 &&t (r2jk <=t cutoff2))
                (tlit (375 # 1000) *t s /t r5 +t tlit 1 /t r3)
                (tlit 0) ;;
  energy <- ang *t fdamp *t s9 *t c9 ;;
  tsum1 (tsum1 energy) /t tlit 6.

(** [RadiiBJMixin.get_radii] (threebody.py:244-256) *)
Definition radii_bj (param : Param K) (r4r2 : tensor K) : res (tensor K) :=
  num (pget param "a1" dA1)
    *t ssqrt X (tlit 3 *t unsqueeze 1 r4r2 *t unsqueeze 2 r4r2)
  +t num (pget param "a2" dA2).

(** [RadiiVDWMixin.get_radii] (threebody.py:262-270) *)
Definition radii_vdw (param : Param K) (rvdw : tensor K) : res (tensor K) :=
  num (pget param "rs9" dRS9) *t rvdw.

(** [C9ApproxMixin.get_c9] (threebody.py:311-321), from the C6 coefficients. *)
Definition c9_approx (c6 : tensor K) : res (tensor K) :=
  ssqrt X (tabs (unsqueeze 1 c6 *t unsqueeze 2 c6 *t unsqueeze 3 c6)).

(** [C9ExactMixin.get_c9] (threebody.py:282-302), from the weighted polarizabilities. *)
Definition c9_exact (aiw : tensor K) : res (tensor K) :=
  aiwi <- unsqueeze 2 (unsqueeze 2 aiw) ;;
  aiwj <- unsqueeze 2 (unsqueeze 3 aiw) ;;
  aiwk <- unsqueeze 3 (unsqueeze 3 aiw) ;;
  p <- aiwi *t aiwj *t aiwk ;;
  trapzd_atm p.

End Terms.

(** ** Dispersion terms *)

(** The concrete term classes: [TwoBodyTerm] (twobody.py:38), [D4ATMApprox]
    (d4.py:44), [D4ATMExact] (d4.py:67), [D3ATM] (d3.py:44). *)
Inductive tclass : Type := TwoBodyTerm | D4ATMApprox | D4ATMExact | D3ATM.

(** [self.__class__ is other.__class__] (base.py:80) *)
Definition tclass_eqb (a b : tclass) : bool :=
  match a, b with
  | TwoBodyTerm, TwoBodyTerm | D4ATMApprox, D4ATMApprox
  | D4ATMExact, D4ATMExact | D3ATM, D3ATM => true
  | _, _ => false
  end.

Section DispTerm.
Context {N : Num} (X : Ext (sc N)).
Notation K := (sc N).

(** [DispTerm] attributes (base.py:38-77) *)
Record DispTerm : Type := mkTerm {
  t_class : tclass;
  t_damping : Damping K;
  t_cdep : bool
}.

(** [DispTerm.__eq__] (base.py:79-86) *)
Definition term_eqb (a b : DispTerm) : bool :=
  tclass_eqb (t_class a) (t_class b)
  && damping_eqb (t_damping a) (t_damping b)
  && Bool.eqb (t_cdep a) (t_cdep b).

(** [D3Model] and [D5Model] inherit [weight_references] and [get_atomic_c6] that
    return [None] (model/base.py:168-183,229-263). *)
Definition abstract_model (m : Model N) : bool :=
  match m_kind m with D3M | D5M => true | _ => false end.

(** [TwoBodyTerm.calculate] (twobody.py:60-86), [ATM.calculate]
    (threebody.py:210-235) with the mixins of the class.  With an abstract model
    [None * tensor] is a [TypeError] (twobody.py:148) and [None.unsqueeze] an
    [AttributeError] (threebody.py:296,320). *)
Definition term_calculate (t : DispTerm) (numbers : tensor Z) (positions : tensor K)
  (param : Param K) (cn : tensor K) (model : Model N) (q : option (tensor K))
  (r4r2 rvdw : tensor K) (cutoff : Cutoff K) : res (tensor K) :=
  let q := if t_cdep t then q else None in
  match t_class t with
  | TwoBodyTerm =>
      weights <- weight_references X model (Some cn) q ;;
      c6 <- get_atomic_c6 model weights ;;
      dispersion2 X numbers positions param c6 r4r2 (Some rvdw) (t_damping t)
                  (Some (c_disp2 cutoff)) false
  | cls =>
      raise_if (abstract_model model) AttributeError ;;;
      weights <- weight_references X model (Some cn) q ;;
      c9 <- match cls with
            | D4ATMExact => aiw <- get_weighted_pols X model weights ;; c9_exact aiw
            | _ => c6 <- get_atomic_c6 model weights ;; c9_approx X c6
            end ;;
      radii <- match cls with
               | D3ATM => radii_vdw param rvdw
               | _ => radii_bj X param r4r2
               end ;;
      get_atm_dispersion X numbers positions c9 radii (c_disp3 cutoff) (t_damping t)
                         (pget param "s9" dS9) (pget param "alp" dALP)
  end.

End DispTerm.
Arguments DispTerm N : clear implicits.
