(** * The energy with [torch.where] as an operation of its own

    A copy of the functions on the way to the energy (ModelModels.v, ModelTerms.v, ModelDisp.v)
    in which [torch.where] on numbers is a parameter, [wk] on the working dtype and [wd] on
    [torch.double].  With plain selection it is the model itself
    (PropsGrad.C65_same_program, by computation); with [GradInst.gsel] the branch that is not
    selected still takes part in the backward pass. *)
From Coq Require Import List Arith ZArith QArith Bool String.
From Verif Require Import Py Tensor Scalar ModelExt ModelUtils ModelDamping ModelModels ModelTerms ModelDisp.
Import ListNotations.
Open Scope py_scope.
Open Scope ten_scope.
Open Scope string_scope.

(** [torch.where(c, a, b)] with [w] selecting entries
    (twobody.py:141-201, threebody.py:95-163, d4.py:200-217, model/base.py:308-365) *)
Definition gwhere {A} (w : bool -> A -> A -> A) (c : res (tensor bool)) (a b : res (tensor A)) : res (tensor A) :=
  lift2 (fun (cx : bool * A) y => w (fst cx) (snd cx) y)
        (lift2 (fun c x => (c, x)) c a) b.

Section Scaling.
Context {K : Scalar} (X : Ext K) (wk : bool -> K -> K -> K).

(** [BaseModel._zeta] (base.py:308-335) *)
Definition zeta_g (ga : K) (gam qref qmod : res (tensor K)) : res (tensor K) :=
  gam <- gam ;; qref <- qref ;; qmod <- qmod ;;
  eps <- scal feps ;;
  ga <- scal ga ;;
  scale <- texp (gam *t (tlit 1 -t qref /t (qmod -t eps))) ;;
  gwhere wk (tlit 0 <t qmod) (texp (ga *t (tlit 1 -t scale))) (texp ga).

(** [BaseModel._dzeta] (base.py:337-365) *)
Definition dzeta_g (ga : K) (gam qref qmod : res (tensor K)) : res (tensor K) :=
  gam <- gam ;; qref <- qref ;; qmod <- qmod ;;
  eps <- scal feps ;;
  ga <- scal ga ;;
  scale <- texp (gam *t (tlit 1 -t qref /t (qmod -t eps))) ;;
  zt <- texp (ga *t (tlit 1 -t scale)) ;;
  gwhere wk (tlit 0 <t qmod)
         (topp ga *t gam *t scale *t zt *t sdivide X qref (tpown qmod 2))
         (tlit 0).

(** [BaseModel._get_alpha] (base.py:367-418) *)
Definition get_alpha_g (numbers : tensor Z) (ga gc : K) (ref : string) : res (tensor K) :=
  refsys' <- gather refsys numbers ;;
  refascale' <- gather refascale numbers ;;
  refalpha' <- gather refalpha numbers ;;
  refscount' <- gather refscount numbers ;;
  refsq <- (if ref =? "eeq" then gather eeq_clsh numbers
            else if ref =? "gfn2" then gather gfn2_refh numbers
            else Raise ValueError) ;;
  mask <- lift1 (fun z => Z.ltb 0 z) refsys' ;;
  zeff <- gather (x_zeff X) refsys' ;;
  gam <- gather (x_gam X) refsys' *t scal gc ;;
  zt <- gwhere wk mask (zeta_g ga gam zeff (refsq +t zeff)) (tlit 0) ;;
  aiw <- gather secscale refsys' *t gather secalpha refsys' *t unsqueeze 1 zt ;;
  h <- refalpha' -t unsqueeze 1 refscount' *t aiw ;;
  alpha <- unsqueeze 1 refascale' *t h ;;
  gwhere wk (tlit 0 <t alpha) alpha (tlit 0).

(** [BaseModel._get_refc6] (base.py:420-431) *)
Definition get_refc6_g (numbers : tensor Z) (ga gc : K) (ref : string) : res (tensor K) :=
  alpha <- get_alpha_g numbers ga gc ref ;;
  trapzd alpha None.

End Scaling.

Section Models.
Context {N : Num} (X : Ext (sc N)) (wk : bool -> sc N -> sc N -> sc N) (wd : bool -> db N -> db N -> db N).
Notation K := (sc N).

(** [BaseModel.__init__] (base.py:107-151) *)
Definition new_model_g (kind : mkind) (cls : string) (numbers : tensor Z) (kw : mkwargs N)
  : res (Model N) :=
  let ga := default (k_ga kw) (flit GA_DEFAULT) in
  let gc := default (k_gc kw) (flit GC_DEFAULT) in
  let ref := default (k_ref kw) "eeq" in
  wf <- match k_wf kw with Some w => Ok (Some w) | None => get_wf kind numbers end ;;
  rc6 <- match k_rc6 kw with Some r => Ok r | None => get_refc6_g X wk numbers ga gc ref end ;;
  Ok (mkModel kind cls numbers ga gc wf ref rc6).

(** Common tail of both [weight_references]: normalisation, underflow rescue
    (d4.py:200-217, d4s.py:219-236). *)
Definition wnorm_g (mask : tensor bool) (expw : tensor (db N)) : res (tensor (db N)) :=
  gwhere wd mask (tsum1k expw) (tlit (1 # 10 ^ 300)).

(** underflow rescue (d4.py:200-217, d4s.py:219-236) *)
Definition wrescue_g (refcn : tensor (db N)) (gw_temp : tensor K) : res (tensor K) :=
  maxcn <- tmax1k refcn ;;
  gwhere wk (is_exceptional fmaxfin gw_temp)
         (gwhere wk (teq refcn maxcn) (tlit 1) (tlit 0))
         gw_temp.

(** [D4Model.weight_references] (d4.py:103-266) *)
Definition d4_weight_references_g (numbers : tensor Z) (ga gc : K) (wf : tensor K)
  (ref : string) (cn q : option (tensor K)) (with_dgwdq with_dgwdcn : bool)
  : res (list (tensor K)) :=
  let cn := default cn (zeros_of numbers) in
  let q := default q (zeros_of numbers) in
  refq <- get_refq ref numbers ;;
  refc' <- gather refc numbers ;;
  mask <- lift1 (fun z => Z.ltb 0 z) refc' ;;
  refcn <- gather (@refcovcn (db N)) numbers ;;
  dcn <- lift1 up (unsqueeze 1 cn) -t refcn ;;
  tmp <- texp (topp dcn *t dcn) ;;
  refc_pow_1 <- gwhere wd (lift1 (Z.eqb 1) refc') (d4_refc_pow tmp wf 1) tmp ;;
  refc_pow_final <- gwhere wd (lift1 (Z.eqb 3) refc') (d4_refc_pow tmp wf 3) refc_pow_1 ;;
  expw <- gwhere wd mask refc_pow_final (tlit 0) ;;
  norm <- wnorm_g mask expw ;;
  gw_temp <- lift1 down (expw /t norm) ;;
  gw <- wrescue_g refcn gw_temp ;;
  zeff <- unsqueeze 1 (gather (x_zeff X) numbers) ;;
  gam <- unsqueeze 1 (gather (x_gam X) numbers) *t scal gc ;;
  q <- unsqueeze 1 q ;;
  zt <- gwhere wk mask (zeta_g wk ga gam (refq +t zeff) (q +t zeff)) (tlit 0) ;;
  out0 <- zt *t gw ;;
  out1 <- (if with_dgwdcn then
             wf_1 <- gwhere wd (lift1 (Z.eqb 1) refc') (d4_dpow dcn tmp wf 1) (tlit 0) ;;
             wf_3 <- gwhere wd (lift1 (Z.eqb 3) refc') (d4_dpow dcn tmp wf 3) (tlit 0) ;;
             dexpw <- wf_1 +t wf_3 ;;
             dnorm <- tsum1k dexpw ;;
             dgw_ <- (dexpw -t expw *t dnorm /t norm) /t norm ;;
             dgw <- gwhere wk (is_exceptional (up fmaxfin) dgw_) (tlit 0) (lift1 down dgw_) ;;
             o <- zt *t dgw ;; Ok [o]
           else Ok []) ;;
  out2 <- (if with_dgwdq then
             dzt <- gwhere wk mask (dzeta_g X wk ga gam (refq +t zeff) (q +t zeff)) (tlit 0) ;;
             o <- dzt *t gw ;; Ok [o]
           else Ok []) ;;
  Ok (out0 :: out1 ++ out2).

(** [D4SModel.weight_references] (d4s.py:109-266) *)
Definition d4s_weight_references_g (numbers : tensor Z) (ga gc : K) (wf : tensor K)
  (ref : string) (cn q : option (tensor K)) (with_dgwdq with_dgwdcn : bool)
  : res (list (tensor K)) :=
  let cn := default cn (zeros_of numbers) in
  let q := default q (zeros_of numbers) in
  refq <- get_refq ref numbers ;;
  refc_ <- gather refc numbers ;;
  xshp <- match shp refc_ with
          | r :: n :: B => Ok (r :: n :: n :: B)
          | _ => Raise IndexError
          end ;;
  refc' <- expand xshp (unsqueeze 3 refc_) ;;
  mask <- lift1 (fun z => Z.ltb 0 z) refc' ;;
  refcn_ <- gather (@refcovcn (db N)) numbers ;;
  refcn <- expand xshp (unsqueeze 3 refcn_) ;;
  dcn <- unsqueeze 3 (unsqueeze 1 (lift1 up cn)) -t refcn ;;
  ndcn <- topp dcn ;;
  arg <- einsumK [(Ell "mnr", ndcn); (Ell "mnr", dcn); (Ell "nm", tmap up wf)] (Ell "mnr") ;;
  tmp <- gwhere wd mask (texp arg) (tlit 0) ;;
  refc_pow_1 <- gwhere wd (lift1 (Z.eqb 1) refc') (d4s_refc_pow tmp 1) tmp ;;
  refc_pow_final <- gwhere wd (lift1 (Z.eqb 3) refc') (d4s_refc_pow tmp 3) refc_pow_1 ;;
  expw <- gwhere wd mask refc_pow_final (tlit 0) ;;
  norm <- wnorm_g mask expw ;;
  gw_temp <- lift1 down (expw /t norm) ;;
  gw <- wrescue_g refcn gw_temp ;;
  zeff <- unsqueeze 1 (gather (x_zeff X) numbers) ;;
  gam <- unsqueeze 1 (gather (x_gam X) numbers) *t scal gc ;;
  q <- unsqueeze 1 q ;;
  zt_ <- zeta_g wk ga gam (refq +t zeff) (q +t zeff) ;;
  zt <- gwhere wk mask (expand xshp (unsqueeze 3 zt_)) (tlit 0) ;;
  out0 <- zt *t gw ;;
  (if with_dgwdcn then Raise NotImplementedError
   else if with_dgwdq then
     dzt_ <- dzeta_g X wk ga gam (refq +t zeff) (q +t zeff) ;;
     dzt <- gwhere wk mask (expand xshp (unsqueeze 3 dzt_)) (tlit 0) ;;
     o <- dzt *t gw ;; Ok [out0; o]
   else Ok [out0]).

(** [model.weight_references(cn, q, with_dgwdq=, with_dgwdcn=)].  For [D3M]/[D5M]
    the abstract method (base.py:229-263) returns [None]; every use of that
    value in the package raises [TypeError], which is what is modelled. *)
Definition weight_references_gen_g (m : Model N) (cn q : option (tensor K))
  (with_dgwdq with_dgwdcn : bool) : res (list (tensor K)) :=
  match m_kind m, m_wf m with
  | D4M, Some wf =>
      d4_weight_references_g (m_numbers m) (m_ga m) (m_gc m) wf (m_ref m) cn q
                           with_dgwdq with_dgwdcn
  | (D4SM | D4SDebugM), Some wf =>
      d4s_weight_references_g (m_numbers m) (m_ga m) (m_gc m) wf (m_ref m) cn q
                            with_dgwdq with_dgwdcn
  | _, _ => Raise TypeError
  end.

(** [model.weight_references(cn, q)]: a single tensor. (d4.py:103-266, d4s.py:109-266) *)
Definition weight_references_g (m : Model N) (cn q : option (tensor K)) : res (tensor K) :=
  l <- weight_references_gen_g m cn q false false ;;
  match l with [w] => Ok w | _ => Raise TypeError end.

(** [self._get_alpha()] (model/base.py:367-418) of a model object *)
Definition model_alpha_g (m : Model N) : res (tensor K) :=
  get_alpha_g X wk (m_numbers m) (m_ga m) (m_gc m) (m_ref m).

(** [get_weighted_pols]: d4.py:291-307, d4s.py:292-316; abstract base.py:265-280. *)
Definition get_weighted_pols_g (m : Model N) (gw : tensor K) : res (tensor K) :=
  match m_kind m with
  | D4M => a <- model_alpha_g m ;; einsumK [(Ell "nr", gw); (Ell "nrw", a)] (Ell "nw")
  | D4SM | D4SDebugM =>
      a <- model_alpha_g m ;;
      einsumK [(Ell "mnr", gw); (Ell "nrw", a)] (Ell "mw") /t count_real (m_numbers m)
  | D3M | D5M => Raise TypeError
  end.

End Models.

Section Terms.
Context {K : Scalar} (X : Ext K) (wk : bool -> K -> K -> K).

(** [dispersion2] (twobody.py:89-201) *)
Definition dispersion2_g (numbers : tensor Z) (positions : tensor K) (param : Param K)
  (c6 r4r2 : tensor K) (rvdw : option (tensor K)) (d : Damping K)
  (cutoff : option (tensor K)) (as_matrix : bool) : res (tensor K) :=
  let cutoff := default cutoff (scal (flit D4_DISP2_CUTOFF)) in
  mask <- real_pairs numbers ;;
  distances <- gwhere wk mask (cdist X positions positions) (scal feps) ;;
  qq <- tlit 3 *t unsqueeze 1 r4r2 *t unsqueeze 2 r4r2 ;;
  c8 <- c6 *t qq ;;
  radii <- (if d_radius_type d =? "rvdw" then
              match rvdw with None => Raise ValueError | Some r => Ok r end
            else if d_radius_type d =? "r4r2" then Ok qq
            else Raise ValueError) ;;
  t6 <- gwhere wk (mask &&t (distances <=t cutoff))
               (damping_call d distances radii 6 false param) (tlit 0) ;;
  t8 <- gwhere wk (mask &&t (distances <=t cutoff))
               (damping_call d distances radii 8 false param) (tlit 0) ;;
  e6 <- (if as_matrix then c6 *t t6 else tsum1 (c6 *t t6)) ;;
  e8 <- (if as_matrix then c8 *t t8 else tsum1 (c8 *t t8)) ;;
  edisp <- num (pget param "s6" dS6) *t e6 +t num (pget param "s8" dS8) *t e8 ;;
  edisp <- match dget param "s10" with
           | None => Ok edisp
           | Some s10 =>
               c10 <- c6 *t tpown qq 2 *t tlit 49 /t tlit 40 ;;
               t10 <- gwhere wk (mask &&t (distances <=t cutoff))
                             (damping_call d distances radii 10 false param) (tlit 0) ;;
               e10 <- (if as_matrix then c10 *t t10 else tsum1 (c10 *t t10)) ;;
               iadd edisp (num s10 *t e10)
           end ;;
  if as_matrix then topp edisp else tlit (- (1 # 2)) *t edisp.

(** [get_atm_dispersion] (threebody.py:54-163) *)
Definition get_atm_dispersion_g (numbers : tensor Z) (positions : tensor K)
  (c9 radii cutoff : tensor K) (d : Damping K) (s9 alp : pval K) : res (tensor K) :=
  s9 <- num s9 ;;
  alp <- num alp ;;
  cutoff2 <- cutoff *t cutoff ;;
  mask_pairs <- real_pairs numbers ;;
  mask_triples <- real_triples numbers ;;
  r0ij <- unsqueeze 1 radii ;;
  r0ik <- unsqueeze 2 radii ;;
  r0jk <- unsqueeze 3 radii ;;
  r0 <- r0ij *t r0ik *t r0jk ;;
  distances <- tpow (gwhere wk mask_pairs (cdist X positions positions) (scal feps)) (tlit 2) ;;
  r2ij <- unsqueeze 1 distances ;;
  r2ik <- unsqueeze 2 distances ;;
  r2jk <- unsqueeze 3 distances ;;
  r2 <- r2ij *t r2ik *t r2jk ;;
  r1 <- tsqrt r2 ;;
  r3 <- gwhere wk mask_triples (r1 *t r2) (scal feps) ;;
  r5 <- gwhere wk mask_triples (r2 *t r3) (scal feps) ;;
  r1' <- gwhere wk mask_triples r1 (tlit 1) ;;
  alp3 <- alp /t tlit 3 ;;
  fdamp <- gwhere wk mask_triples
                  (damping_call d r0 r1' 9 true [("alp", PT alp3)]) (tlit 0) ;;
  s <- gwhere wk mask_triples
              ((r2ij +t r2jk -t r2ik) *t (r2ij -t r2jk +t r2ik)
               *t (topp r2ij +t r2jk +t r2ik))
              (tlit 0) ;;
  ang <- gwhere wk (mask_triples &&t (r2ij <=t cutoff2) &&t (r2jk <=t cutoff2)
                 &&t (r2jk <=t cutoff2))
                (tlit (375 # 1000) *t s /t r5 +t tlit 1 /t r3)
                (tlit 0) ;;
  energy <- ang *t fdamp *t s9 *t c9 ;;
  tsum1 (tsum1 energy) /t tlit 6.

End Terms.

Section Disp.
Context {N : Num} (X : Ext (sc N)) (wk : bool -> sc N -> sc N -> sc N) (wd : bool -> db N -> db N -> db N).
Notation K := (sc N).

(** [TwoBodyTerm.calculate] (twobody.py:60-86), [ATM.calculate]
    (threebody.py:210-235) with the mixins of the class.  With an abstract model
    [None * tensor] is a [TypeError] (twobody.py:148) and [None.unsqueeze] an
    [AttributeError] (threebody.py:296,320). *)
Definition term_calculate_g (t : DispTerm N) (numbers : tensor Z) (positions : tensor K)
  (param : Param K) (cn : tensor K) (model : Model N) (q : option (tensor K))
  (r4r2 rvdw : tensor K) (cutoff : Cutoff K) : res (tensor K) :=
  let q := if t_cdep t then q else None in
  match t_class t with
  | TwoBodyTerm =>
      weights <- weight_references_g X wk wd model (Some cn) q ;;
      c6 <- get_atomic_c6 model weights ;;
      dispersion2_g X wk numbers positions param c6 r4r2 (Some rvdw) (t_damping t)
                  (Some (c_disp2 cutoff)) false
  | cls =>
      raise_if (abstract_model model) AttributeError ;;;
      weights <- weight_references_g X wk wd model (Some cn) q ;;
      c9 <- match cls with
            | D4ATMExact => aiw <- get_weighted_pols_g X wk model weights ;; c9_exact aiw
            | _ => c6 <- get_atomic_c6 model weights ;; c9_approx X c6
            end ;;
      radii <- match cls with
               | D3ATM => radii_vdw param rvdw
               | _ => radii_bj X param r4r2
               end ;;
      get_atm_dispersion_g X wk numbers positions c9 radii (c_disp3 cutoff) (t_damping t)
                         (pget param "s9" dS9) (pget param "alp" dALP)
  end.

(** [Disp.get_model] (base.py:221-259) *)
Definition get_model_g (p : Disp N) (numbers : tensor Z) : res (Model N) :=
  match p_inst p with
  | Some m => Ok m
  | None =>
      let key := casefold (p_key p) in
      if key =? "d3" then new_model_g X wk D3M (class_name D3M) numbers (p_kw p)
      else if key =? "d4" then new_model_g X wk D4M (class_name D4M) numbers (p_kw p)
      else if key =? "d4s" then new_model_g X wk D4SM (class_name D4SM) numbers (p_kw p)
      else Raise ValueError
  end.

Context (W : World N).

(** [Disp.calculate] (base.py:285-431) *)
Definition calculate_g (p : Disp N) (numbers : tensor Z) (positions : tensor K)
  (charge : tensor K) (param : Param K) (cutoff : option (Cutoff K))
  (q rcov r4r2 rvdw : option (tensor K)) : res (tensor K) :=
  check_shape (shp numbers) (tl (shp positions)) ;;;
  let cutoff := default cutoff default_cutoff in
  model <- get_model_g p numbers ;;
  match rcov with
  | None => Ok tt
  | Some rc => check_shape (shp numbers) (shp rc)
  end ;;;
  r4r2 <- match r4r2 with None => get_r4r2 numbers | Some r => Ok r end ;;
  check_shape (shp numbers) (shp r4r2) ;;;
  rvdw <- match rvdw with None => get_rvdw X numbers | Some r => Ok r end ;;
  check_shape (shp numbers) (tl (shp rvdw)) ;;;
  cn <- p_cn_fn p (p_cn_kw p) numbers positions ;;
  let is_c_dep := existsb (@t_cdep N) (p_terms p) in
  raise_if (match q with Some _ => negb is_c_dep | None => false end) RuntimeError ;;;
  q <- match q with
       | Some q => Ok (Some q)
       | None => if is_c_dep
                 then q <- w_eeq W numbers positions charge (c_cn_eeq cutoff) ;; Ok (Some q)
                 else Ok None
       end ;;
  match q with
  | None => Ok tt
  | Some q => check_shape (shp numbers) (shp q)
  end ;;;
  sum_terms (mkT (shp numbers) (fun _ => f0)) (p_terms p)
    (fun t => term_calculate_g t numbers positions param cn model q r4r2 rvdw cutoff).

End Disp.
