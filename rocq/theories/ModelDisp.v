(** * src/tad_dftd4/dispersion/base.py (Disp), d4.py, d3.py and disp.py *)
From Coq Require Import List Arith ZArith QArith Bool String Ascii.
From Verif Require Import Py Tensor Scalar ModelExt ModelUtils ModelDamping ModelModels ModelTerms.
Import ListNotations.
Open Scope py_scope.
Open Scope ten_scope.
Open Scope string_scope.

Section Disp.
Context {N : Num} (X : Ext (sc N)).
Notation K := (sc N).

(** A coordination number function (tad_mctc.typing.CNFunc) called with
    [numbers, positions] and optionally [counting_function]; counting functions
    are only passed through. (disp.py:57, 119) *)
Definition CountF := K -> K -> K.
(** [CNFunc]: used in base.py:390 *)
Definition CNFunc := option CountF -> tensor Z -> tensor K -> res (tensor K).

(** tad_mctc.ncoord.{cn_d3,cn_d4,erf_count} and tad_multicharge.get_eeq_charges
    (external): [w_eeq numbers positions charge cutoff]. (base.py:180-207, 401-407; disp.py:189-190) *)
Record World : Type := mkWorld {
  w_cn_d3 : CNFunc;
  w_cn_d4 : CNFunc;
  w_erf_count : CountF;
  w_eeq : tensor Z -> tensor K -> tensor K -> tensor K -> res (tensor K)
}.
Context (W : World).

(** [model] argument: a string or an instance (base.py:142). *)
Inductive marg : Type := MKey (s : string) | MInst (m : Model N).

(** [Disp] attributes (base.py:107-132). *)
Record Disp : Type := mkDisp {
  p_terms : list (DispTerm N);
  p_cn_fn : CNFunc;
  p_cn_kw : option CountF;
  p_key : string;
  p_inst : option (Model N);
  p_kw : mkwargs N
}.

(** base.py:134 *)
Definition ALLOWED_MODELS_ : list string := ["d3"; "d4"; "d4s"; "d5"].

(** Choice of the coordination number function (base.py:180-207). *)
Definition pick_cn (name : string) : res CNFunc :=
  if str_has "3" name then Ok (w_cn_d3 W)
  else if str_has "4" name then Ok (w_cn_d4 W)
  else if str_has "5" name then Ok (w_cn_d3 W)
  else Raise ValueError.

(** [Disp.__init__] (base.py:140-213); [terms] are those of the class attribute
    [TERMS] of the (sub)class. *)
Definition new_disp (terms : list (DispTerm N)) (model : marg) (kw : mkwargs N)
  (cn_fn : option CNFunc) (cn_kw : option CountF) : res Disp :=
  km <- match model with
        | MKey s =>
            let key := casefold s in
            raise_if (negb (str_in key ALLOWED_MODELS_)) ValueError ;;;
            Ok (key, None, kw)
        | MInst m => Ok ("instance", Some m, no_kw)
        end ;;
  let '(key, inst, kw') := km in
  cnf <- match cn_fn with
         | Some f => Ok f
         | None => pick_cn (match inst with Some m => m_cls m | None => key end)
         end ;;
  Ok (mkDisp terms cnf cn_kw key inst kw').

(** [Disp.register] (base.py:215-216) *)
Definition register (p : Disp) (t : DispTerm N) : Disp :=
  mkDisp (p_terms p ++ [t]) (p_cn_fn p) (p_cn_kw p) (p_key p) (p_inst p) (p_kw p).

(** [list.remove]: first equal element, [ValueError] if there is none. (base.py:219) *)
Fixpoint list_remove (l : list (DispTerm N)) (t : DispTerm N) : res (list (DispTerm N)) :=
  match l with
  | [] => Raise ValueError
  | t' :: l' => if term_eqb t' t then Ok l'
                else r <- list_remove l' t ;; Ok (t' :: r)
  end.

(** [Disp.deregister] (base.py:218-219) *)
Definition deregister (p : Disp) (t : DispTerm N) : res Disp :=
  l <- list_remove (p_terms p) t ;;
  Ok (mkDisp l (p_cn_fn p) (p_cn_kw p) (p_key p) (p_inst p) (p_kw p)).

(** [Disp.get_model] (base.py:221-259) *)
Definition get_model (p : Disp) (numbers : tensor Z) : res (Model N) :=
  match p_inst p with
  | Some m => Ok m
  | None =>
      let key := casefold (p_key p) in
      if key =? "d3" then new_model X D3M (class_name D3M) numbers (p_kw p)
      else if key =? "d4" then new_model X D4M (class_name D4M) numbers (p_kw p)
      else if key =? "d4s" then new_model X D4SM (class_name D4SM) numbers (p_kw p)
      else Raise ValueError
  end.

(** [Disp.get_r4r2] (base.py:269-273) *)
Definition get_r4r2 (numbers : tensor Z) : res (tensor K) := gather R4R2 numbers.

(** [Disp.get_rvdw] (base.py:275-281) *)
Definition get_rvdw (numbers : tensor Z) : res (tensor K) :=
  gather2 (x_vdw X) (unsqueeze 1 numbers) (unsqueeze 2 numbers).

(** [a.shape != b.shape[:-1]] etc. (base.py:354-387, 409-414) *)
Definition check_shape (s1 s2 : list nat) : res unit :=
  raise_if (negb (shape_eqb s1 s2)) ValueError.

(** the accumulation loop of [Disp.calculate] (base.py:417-431) *)
Fixpoint sum_terms (energy : tensor K) (terms : list (DispTerm N))
  (calc : DispTerm N -> res (tensor K)) : res (tensor K) :=
  match terms with
  | [] => Ok energy
  | t :: ts => energy' <- energy +t calc t ;; sum_terms energy' ts calc
  end.

(** [Disp.calculate] (base.py:285-431) *)
Definition calculate (p : Disp) (numbers : tensor Z) (positions : tensor K)
  (charge : tensor K) (param : Param K) (cutoff : option (Cutoff K))
  (q rcov r4r2 rvdw : option (tensor K)) : res (tensor K) :=
  check_shape (shp numbers) (tl (shp positions)) ;;;
  let cutoff := default cutoff default_cutoff in
  model <- get_model p numbers ;;
  match rcov with
  | None => Ok tt
  | Some rc => check_shape (shp numbers) (shp rc)
  end ;;;
  r4r2 <- match r4r2 with None => get_r4r2 numbers | Some r => Ok r end ;;
  check_shape (shp numbers) (shp r4r2) ;;;
  rvdw <- match rvdw with None => get_rvdw numbers | Some r => Ok r end ;;
  check_shape (shp numbers) (tl (shp rvdw)) ;;;
  cn <- p_cn_fn p (p_cn_kw p) numbers positions ;;
  let is_c_dep := existsb (@t_cdep N) (p_terms p) in
  raise_if (match q with Some _ => negb is_c_dep | None => false end) RuntimeError ;;;
  q <- match q with
       | Some q => Ok (Some q)
       | None => if is_c_dep
                 then q <- w_eeq W numbers positions charge (c_cn_eeq cutoff) ;; Ok (Some q)
                 else Ok None
       end ;;
  match q with
  | None => Ok tt
  | Some q => check_shape (shp numbers) (shp q)
  end ;;;
  sum_terms (mkT (shp numbers) (fun _ => f0)) (p_terms p)
    (fun t => term_calculate X t numbers positions param cn model q r4r2 rvdw cutoff).

(** Terms of the shipped classes: [DispD4] (d4.py:51-60), [DispD4Exact]
    (d4.py:74-83), [DispD3BJ] (d3.py:51-60), [DispD3Zero] (d3.py:70-79). *)
Definition terms_d4 : list (DispTerm N) :=
  [mkTerm TwoBodyTerm RationalDamping true; mkTerm D4ATMApprox (ZeroDamping X) false].
(** [DispD4Exact.TERMS] (d4.py:74-83) *)
Definition terms_d4_exact : list (DispTerm N) :=
  [mkTerm TwoBodyTerm RationalDamping true; mkTerm D4ATMExact (ZeroDamping X) false].
(** [DispD3BJ.TERMS] (d3.py:51-60) *)
Definition terms_d3bj : list (DispTerm N) :=
  [mkTerm TwoBodyTerm RationalDamping false; mkTerm D3ATM (ZeroDamping X) false].
(** [DispD3Zero.TERMS] (d3.py:70-79) *)
Definition terms_d3zero : list (DispTerm N) :=
  [mkTerm TwoBodyTerm (ZeroDamping X) false; mkTerm D3ATM (ZeroDamping X) false].

(** [DispD4(..)] (d4.py:48-61) *)
Definition DispD4 := new_disp terms_d4.
(** [DispD4Exact(..)] (d4.py:71-84) *)
Definition DispD4Exact := new_disp terms_d4_exact.
(** [DispD3BJ(..)] (d3.py:48-61) *)
Definition DispD3BJ := new_disp terms_d3bj.
(** [DispD3Zero(..)] (d3.py:67-80) *)
Definition DispD3Zero := new_disp terms_d3zero.

(** [dftd4] (disp.py:44-146) *)
Definition dftd4 (numbers : tensor Z) (positions charge : tensor K) (param : Param K)
  (model : marg) (rcov r4r2 rvdw q : option (tensor K)) (cutoff : option (Cutoff K))
  (cn_function : CNFunc) (counting_function : CountF) (damping_function : Damping K)
  : res (tensor K) :=
  disp <- new_disp [] model no_kw (Some cn_function) (Some counting_function) ;;
  let disp := register disp (mkTerm TwoBodyTerm damping_function true) in
  let disp := register disp (mkTerm D4ATMApprox (ZeroDamping X) false) in
  calculate disp numbers positions charge param cutoff q rcov r4r2 rvdw.

(** [get_properties] (disp.py:149-197) *)
Definition get_properties (numbers : tensor Z) (positions : tensor K)
  (charge : option (tensor K)) (cutoff : option (Cutoff K))
  : res (tensor K * tensor K * tensor K * tensor K) :=
  let cutoff := default cutoff default_cutoff in
  let charge := default charge (scal f0) in
  cn <- w_cn_d4 W None numbers positions ;;
  q <- w_eeq W numbers positions charge (c_cn_eeq cutoff) ;;
  model <- new_model X D4M (class_name D4M) numbers no_kw ;;
  weights <- weight_references X model (Some cn) (Some q) ;;
  c6 <- get_atomic_c6 model weights ;;
  alpha <- model_polarizabilities X model weights ;;
  Ok (cn, q, c6, alpha).

End Disp.
Arguments World N : clear implicits.
Arguments Disp N : clear implicits.
Arguments marg N : clear implicits.
Arguments CNFunc N : clear implicits.
Arguments CountF N : clear implicits.
Arguments MKey {N}.
Arguments MInst {N}.
