(** * src/tad_dftd4/model/{base,d4,d4s,d3,d5}.py *)
From Coq Require Import List Arith ZArith QArith Bool String.
From Verif Require Import Py Tensor Scalar ModelExt ModelUtils.
Import ListNotations.
Open Scope py_scope.
Open Scope ten_scope.
Open Scope string_scope.

(** base.py:57-59 *)
Definition GA_DEFAULT : Q := 3.
(** base.py:58 *)
Definition GC_DEFAULT : Q := 2.
(** base.py:59 *)
Definition WF_DEFAULT : Q := 6.

(** The concrete model classes. [D3M] and [D5M] are empty subclasses of
    [BaseModel] (d3.py:32-35, d5.py:31-34). *)
Inductive mkind : Type := D3M | D4M | D4SM | D4SDebugM | D5M.

Section Scaling.
Context {K : Scalar} (X : Ext K).

(** [BaseModel._zeta] (base.py:308-335) *)
Definition zeta (ga : K) (gam qref qmod : res (tensor K)) : res (tensor K) :=
  gam <- gam ;; qref <- qref ;; qmod <- qmod ;;
  eps <- scal feps ;;
  ga <- scal ga ;;
  scale <- texp (gam *t (tlit 1 -t qref /t (qmod -t eps))) ;;
  twhere (tlit 0 <t qmod) (texp (ga *t (tlit 1 -t scale))) (texp ga).

(** [BaseModel._dzeta] (base.py:337-365) *)
Definition dzeta (ga : K) (gam qref qmod : res (tensor K)) : res (tensor K) :=
  gam <- gam ;; qref <- qref ;; qmod <- qmod ;;
  eps <- scal feps ;;
  ga <- scal ga ;;
  scale <- texp (gam *t (tlit 1 -t qref /t (qmod -t eps))) ;;
  zt <- texp (ga *t (tlit 1 -t scale)) ;;
  twhere (tlit 0 <t qmod)
         (topp ga *t gam *t scale *t zt *t sdivide X qref (tpown qmod 2))
         (tlit 0).

(** [BaseModel._get_alpha] (base.py:367-418) *)
Definition get_alpha (numbers : tensor Z) (ga gc : K) (ref : string) : res (tensor K) :=
  refsys' <- gather refsys numbers ;;
  refascale' <- gather refascale numbers ;;
  refalpha' <- gather refalpha numbers ;;
  refscount' <- gather refscount numbers ;;
  refsq <- (if ref =? "eeq" then gather eeq_clsh numbers
            else if ref =? "gfn2" then gather gfn2_refh numbers
            else Raise ValueError) ;;
  mask <- lift1 (fun z => Z.ltb 0 z) refsys' ;;
  zeff <- gather (x_zeff X) refsys' ;;
  gam <- gather (x_gam X) refsys' *t scal gc ;;
  zt <- twhere mask (zeta ga gam zeff (refsq +t zeff)) (tlit 0) ;;
  aiw <- gather secscale refsys' *t gather secalpha refsys' *t unsqueeze 1 zt ;;
  h <- refalpha' -t unsqueeze 1 refscount' *t aiw ;;
  alpha <- unsqueeze 1 refascale' *t h ;;
  twhere (tlit 0 <t alpha) alpha (tlit 0).

(** [BaseModel._get_refc6] (base.py:420-431) *)
Definition get_refc6 (numbers : tensor Z) (ga gc : K) (ref : string) : res (tensor K) :=
  alpha <- get_alpha numbers ga gc ref ;;
  trapzd alpha None.

(** [BaseModel.get_polarizabilities] (base.py:286-302) *)
Definition get_polarizabilities (numbers : tensor Z) (ga gc : K) (ref : string)
  (weights : tensor K) : res (tensor K) :=
  a0 <- select_last0 (get_alpha numbers ga gc ref) ;;
  einsumK [(Ell "nr", weights); (Ell "nr", a0)] (Ell "n").

(** [_get_wf] of D4Model (d4.py:59-61), D4SModel (d4s.py:61-67), D4SDebug
    (d4s.py:326-329); the abstract method of the base class (base.py:157-166)
    returns [None]. *)
Definition get_wf (kind : mkind) (numbers : tensor Z) : res (option (tensor K)) :=
  match kind with
  | D4M => Ok (Some (scal (flit WF_DEFAULT)))
  | D4SM => w <- gather2 WFPAIR (unsqueeze 1 numbers) (unsqueeze 2 numbers) ;; Ok (Some w)
  | D4SDebugM =>
      match shp numbers with
      | [] => Raise IndexError
      | s0 :: s => let n := List.last (s0 :: s) 0%nat in
                   Ok (Some (mkT [n; n] (fun _ => flit WF_DEFAULT)))
      end
  | D3M | D5M => Ok None
  end.

End Scaling.

Section Models.
Context {N : Num} (X : Ext (sc N)).
Notation K := (sc N).

(** [BaseModel] attributes (base.py:67-105) and the class of the instance;
    [m_cls] is [__class__.__name__] (any name for a user-defined subclass). *)
Record Model : Type := mkModel {
  m_kind : mkind;
  m_cls : string;
  m_numbers : tensor Z;
  m_ga : K;
  m_gc : K;
  m_wf : option (tensor K);
  m_ref : string;
  m_rc6 : tensor K
}.

(** Keyword arguments of [BaseModel.__init__] (base.py:107-117). *)
Record mkwargs : Type := mkKw {
  k_ga : option K; k_gc : option K; k_wf : option (tensor K);
  k_ref : option string; k_rc6 : option (tensor K) }.

(** all arguments left at their defaults (base.py:107-117) *)
Definition no_kw : mkwargs := mkKw None None None None None.

(** [__class__.__name__] (used in dispersion/base.py:182) *)
Definition class_name (k : mkind) : string :=
  match k with
  | D3M => "D3Model" | D4M => "D4Model" | D4SM => "D4SModel"
  | D4SDebugM => "D4SDebug" | D5M => "D5Model"
  end.

(** [BaseModel.__init__] (base.py:107-151) *)
Definition new_model (kind : mkind) (cls : string) (numbers : tensor Z) (kw : mkwargs)
  : res Model :=
  let ga := default (k_ga kw) (flit GA_DEFAULT) in
  let gc := default (k_gc kw) (flit GC_DEFAULT) in
  let ref := default (k_ref kw) "eeq" in
  wf <- match k_wf kw with Some w => Ok (Some w) | None => get_wf kind numbers end ;;
  rc6 <- match k_rc6 kw with Some r => Ok r | None => get_refc6 X numbers ga gc ref end ;;
  Ok (mkModel kind cls numbers ga gc wf ref rc6).

(** [torch.zeros(self.numbers.shape)] (d4.py:103-266, d4s.py:109-266) *)
Definition zeros_of (numbers : tensor Z) : tensor K := mkT (shp numbers) (fun _ => f0).

(** Selection of the reference charges (d4.py:142-149,154; d4s.py:148-159). *)
Definition get_refq (ref : string) (numbers : tensor Z) : res (tensor K) :=
  if ref =? "eeq" then gather eeq_clsq numbers
  else if ref =? "gfn2" then gather gfn2_refq numbers
  else Raise ValueError.

(** Common tail of both [weight_references]: normalisation, underflow rescue
    (d4.py:200-217, d4s.py:219-236). *)
Definition wnorm (mask : tensor bool) (expw : tensor (db N)) : res (tensor (db N)) :=
  twhere mask (tsum1k expw) (tlit (1 # 10 ^ 300)).

(** underflow rescue (d4.py:200-217, d4s.py:219-236) *)
Definition wrescue (refcn : tensor (db N)) (gw_temp : tensor K) : res (tensor K) :=
  maxcn <- tmax1k refcn ;;
  twhere (is_exceptional fmaxfin gw_temp)
         (twhere (teq refcn maxcn) (tlit 1) (tlit 0))
         gw_temp.

(** [D4Model.weight_references] (d4.py:103-266).  The result is the list of the
    returned tensors: one, two or three of them.  [d4_refc_pow] is the local
    function of d4.py:185-189. *)
Definition d4_refc_pow (tmp : tensor (db N)) (wf : tensor K) (n : nat) : res (tensor (db N)) :=
  fold_left (fun acc i => acc +t tpow tmp (lift1 up (tlit (inject_Z (Z.of_nat i)) *t wf)))
            (seq 1 n) (tlit 0).

(** local function [_dpow] of d4.py:236-243 *)
Definition d4_dpow (dcn tmp : tensor (db N)) (wf : tensor K) (n : nat) : res (tensor (db N)) :=
  fold_left (fun acc i =>
               acc +t lift1 up (tlit (inject_Z (2 * Z.of_nat i)) *t wf) *t dcn
                   *t tpow tmp (lift1 up (tlit (inject_Z (Z.of_nat i)) *t wf)))
            (seq 1 n) (tlit 0).

(** [D4Model.weight_references] (d4.py:103-266) *)
Definition d4_weight_references (numbers : tensor Z) (ga gc : K) (wf : tensor K)
  (ref : string) (cn q : option (tensor K)) (with_dgwdq with_dgwdcn : bool)
  : res (list (tensor K)) :=
  let cn := default cn (zeros_of numbers) in
  let q := default q (zeros_of numbers) in
  refq <- get_refq ref numbers ;;
  refc' <- gather refc numbers ;;
  mask <- lift1 (fun z => Z.ltb 0 z) refc' ;;
  refcn <- gather (@refcovcn (db N)) numbers ;;
  dcn <- lift1 up (unsqueeze 1 cn) -t refcn ;;
  tmp <- texp (topp dcn *t dcn) ;;
  refc_pow_1 <- twhere (lift1 (Z.eqb 1) refc') (d4_refc_pow tmp wf 1) tmp ;;
  refc_pow_final <- twhere (lift1 (Z.eqb 3) refc') (d4_refc_pow tmp wf 3) refc_pow_1 ;;
  expw <- twhere mask refc_pow_final (tlit 0) ;;
  norm <- wnorm mask expw ;;
  gw_temp <- lift1 down (expw /t norm) ;;
  gw <- wrescue refcn gw_temp ;;
  zeff <- unsqueeze 1 (gather (x_zeff X) numbers) ;;
  gam <- unsqueeze 1 (gather (x_gam X) numbers) *t scal gc ;;
  q <- unsqueeze 1 q ;;
  zt <- twhere mask (zeta ga gam (refq +t zeff) (q +t zeff)) (tlit 0) ;;
  out0 <- zt *t gw ;;
  out1 <- (if with_dgwdcn then
             wf_1 <- twhere (lift1 (Z.eqb 1) refc') (d4_dpow dcn tmp wf 1) (tlit 0) ;;
             wf_3 <- twhere (lift1 (Z.eqb 3) refc') (d4_dpow dcn tmp wf 3) (tlit 0) ;;
             dexpw <- wf_1 +t wf_3 ;;
             dnorm <- tsum1k dexpw ;;
             dgw_ <- (dexpw -t expw *t dnorm /t norm) /t norm ;;
             dgw <- twhere (is_exceptional (up fmaxfin) dgw_) (tlit 0) (lift1 down dgw_) ;;
             o <- zt *t dgw ;; Ok [o]
           else Ok []) ;;
  out2 <- (if with_dgwdq then
             dzt <- twhere mask (dzeta X ga gam (refq +t zeff) (q +t zeff)) (tlit 0) ;;
             o <- dzt *t gw ;; Ok [o]
           else Ok []) ;;
  Ok (out0 :: out1 ++ out2).

(** local function [refc_pow] of d4s.py:205-208 *)
Definition d4s_refc_pow (tmp : tensor (db N)) (n : nat) : res (tensor (db N)) :=
  fold_left (fun acc i => acc +t tpown tmp i) (seq 1 n) (tlit 0).

(** [D4SModel.weight_references] (d4s.py:109-266) *)
Definition d4s_weight_references (numbers : tensor Z) (ga gc : K) (wf : tensor K)
  (ref : string) (cn q : option (tensor K)) (with_dgwdq with_dgwdcn : bool)
  : res (list (tensor K)) :=
  let cn := default cn (zeros_of numbers) in
  let q := default q (zeros_of numbers) in
  refq <- get_refq ref numbers ;;
  refc_ <- gather refc numbers ;;
  xshp <- match shp refc_ with
          | r :: n :: B => Ok (r :: n :: n :: B)
          | _ => Raise IndexError
          end ;;
  refc' <- expand xshp (unsqueeze 3 refc_) ;;
  mask <- lift1 (fun z => Z.ltb 0 z) refc' ;;
  refcn_ <- gather (@refcovcn (db N)) numbers ;;
  refcn <- expand xshp (unsqueeze 3 refcn_) ;;
  dcn <- unsqueeze 3 (unsqueeze 1 (lift1 up cn)) -t refcn ;;
  ndcn <- topp dcn ;;
  arg <- einsumK [(Ell "mnr", ndcn); (Ell "mnr", dcn); (Ell "nm", tmap up wf)] (Ell "mnr") ;;
  tmp <- twhere mask (texp arg) (tlit 0) ;;
  refc_pow_1 <- twhere (lift1 (Z.eqb 1) refc') (d4s_refc_pow tmp 1) tmp ;;
  refc_pow_final <- twhere (lift1 (Z.eqb 3) refc') (d4s_refc_pow tmp 3) refc_pow_1 ;;
  expw <- twhere mask refc_pow_final (tlit 0) ;;
  norm <- wnorm mask expw ;;
  gw_temp <- lift1 down (expw /t norm) ;;
  gw <- wrescue refcn gw_temp ;;
  zeff <- unsqueeze 1 (gather (x_zeff X) numbers) ;;
  gam <- unsqueeze 1 (gather (x_gam X) numbers) *t scal gc ;;
  q <- unsqueeze 1 q ;;
  zt_ <- zeta ga gam (refq +t zeff) (q +t zeff) ;;
  zt <- twhere mask (expand xshp (unsqueeze 3 zt_)) (tlit 0) ;;
  out0 <- zt *t gw ;;
  (if with_dgwdcn then Raise NotImplementedError
   else if with_dgwdq then
     dzt_ <- dzeta X ga gam (refq +t zeff) (q +t zeff) ;;
     dzt <- twhere mask (expand xshp (unsqueeze 3 dzt_)) (tlit 0) ;;
     o <- dzt *t gw ;; Ok [out0; o]
   else Ok [out0]).

(** [model.weight_references(cn, q, with_dgwdq=, with_dgwdcn=)].  For [D3M]/[D5M]
    the abstract method (base.py:229-263) returns [None]; every use of that
    value in the package raises [TypeError], which is what is modelled. *)
Definition weight_references_gen (m : Model) (cn q : option (tensor K))
  (with_dgwdq with_dgwdcn : bool) : res (list (tensor K)) :=
  match m_kind m, m_wf m with
  | D4M, Some wf =>
      d4_weight_references (m_numbers m) (m_ga m) (m_gc m) wf (m_ref m) cn q
                           with_dgwdq with_dgwdcn
  | (D4SM | D4SDebugM), Some wf =>
      d4s_weight_references (m_numbers m) (m_ga m) (m_gc m) wf (m_ref m) cn q
                            with_dgwdq with_dgwdcn
  | _, _ => Raise TypeError
  end.

(** [model.weight_references(cn, q)]: a single tensor. (d4.py:103-266, d4s.py:109-266) *)
Definition weight_references (m : Model) (cn q : option (tensor K)) : res (tensor K) :=
  l <- weight_references_gen m cn q false false ;;
  match l with [w] => Ok w | _ => Raise TypeError end.

(** [get_atomic_c6]: d4.py:268-289, d4s.py:268-290; abstract base.py:168-183.
    The path [optimize=[(0, 1), (0, 1)]] (d4.py:288, d4s.py:289) contracts the reference C6 coefficients
    with the first weights, and what remains with the second. *)
Definition get_atomic_c6 (m : Model) (gw : tensor K) : res (tensor K) :=
  match m_kind m with
  | D4M =>
      t <- einsumK [(Ell "ijab", m_rc6 m); (Ell "ia", gw)] (Ell "ijb") ;;
      einsumK [(Ell "ijb", t); (Ell "jb", gw)] (Ell "ij")
  | D4SM | D4SDebugM =>
      t <- einsumK [(Ell "ijab", m_rc6 m); (Ell "jia", gw)] (Ell "ijb") ;;
      einsumK [(Ell "ijb", t); (Ell "ijb", gw)] (Ell "ij")
  | D3M | D5M => Raise TypeError
  end.

(** [self._get_alpha()] (base.py:367-418) of a model object *)
Definition model_alpha (m : Model) : res (tensor K) :=
  get_alpha X (m_numbers m) (m_ga m) (m_gc m) (m_ref m).

(** number of real atoms, [real_atoms(numbers).sum(-1, keepdim=True)] (d4s.py:292-316) *)
Definition count_real (numbers : tensor Z) : tensor K :=
  tmap (fun n => flit (inject_Z (Z.of_nat n)))
       (reduce_last_keep (fun n f => list_sum (map f (seq 0 n)))
                         (tmap (fun b : bool => if b then 1%nat else 0%nat)
                               (real_atoms numbers))).

(** [get_weighted_pols]: d4.py:291-307, d4s.py:292-316; abstract base.py:265-280. *)
Definition get_weighted_pols (m : Model) (gw : tensor K) : res (tensor K) :=
  match m_kind m with
  | D4M => a <- model_alpha m ;; einsumK [(Ell "nr", gw); (Ell "nrw", a)] (Ell "nw")
  | D4SM | D4SDebugM =>
      a <- model_alpha m ;;
      einsumK [(Ell "mnr", gw); (Ell "nrw", a)] (Ell "mw") /t count_real (m_numbers m)
  | D3M | D5M => Raise TypeError
  end.

(** [get_polarizabilities] (base.py:286-302) of a model object *)
Definition model_polarizabilities (m : Model) (weights : tensor K) : res (tensor K) :=
  get_polarizabilities X (m_numbers m) (m_ga m) (m_gc m) (m_ref m) weights.

End Models.
Arguments Model N : clear implicits.
Arguments mkwargs N : clear implicits.
