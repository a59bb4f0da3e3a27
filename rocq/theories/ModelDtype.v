(** * dtype and device of every tensor of a calculation

    The other model files have one floating point type per call and no devices.
    This file follows the same functions once more and keeps, of every tensor,
    only what they leave out: its dtype, its device, and whether it has
    dimensions.  Shapes are not tracked (they are in the other files): an
    operation fails here for reasons of dtype or device only.

    First the rules of PyTorch (trusted), then the code. *)
From Coq Require Import List Arith Bool String.
From Verif Require Import Py ModelTerms.
Import ListNotations.
Open Scope py_scope.
Open Scope string_scope.

(** ** PyTorch *)

(** The dtypes that occur.  [torch.half] and [torch.bfloat16] are left out.
    (base.py:350, d4.py:103-266 ([torch.double])) *)
Inductive dtype : Type := Bool_ | Int64 | Float32 | Float64.
(** PyTorch: [torch.device] (base.py:350) *)
Inductive device : Type := Cpu | Cuda (n : nat).

(** PyTorch: equality of dtypes *)
Definition dtype_eqb (a b : dtype) : bool :=
  match a, b with
  | Bool_, Bool_ | Int64, Int64 | Float32, Float32 | Float64, Float64 => true
  | _, _ => false
  end.
(** PyTorch: equality of devices *)
Definition device_eqb (a b : device) : bool :=
  match a, b with Cpu, Cpu => true | Cuda n, Cuda m => Nat.eqb n m | _, _ => false end.
(** PyTorch: [device.type == 'cpu'] *)
Definition is_cpu (d : device) : bool := match d with Cpu => true | _ => false end.
(** PyTorch: [dtype.is_floating_point] *)
Definition is_float (d : dtype) : bool :=
  match d with Float32 | Float64 => true | _ => false end.

(** dtype, device, and whether the tensor has at least one dimension. (PyTorch: what a result type depends on) *)
Record ttype : Type := mkTy { ty_dtype : dtype; ty_dev : device; ty_dims : bool }.

(** An operand: a tensor, or a Python number ([float] or [int]).
    (operands in functions.py:304-305, 370-378 and elsewhere) *)
Inductive tval : Type := VT (t : ttype) | VPy (float : bool).
Coercion tval_res (v : tval) : res tval := Ok v.

(** [torch.promote_types] (PyTorch) *)
Definition rank (d : dtype) : nat :=
  match d with Bool_ => 0 | Int64 => 1 | Float32 => 2 | Float64 => 3 end.
(** PyTorch: [torch.promote_types] *)
Definition promote (a b : dtype) : dtype := if Nat.leb (rank a) (rank b) then b else a.

(** PyTorch: the same where a category may be empty *)
Definition opromote (a b : option dtype) : option dtype :=
  match a, b with
  | Some a, Some b => Some (promote a b)
  | Some a, None => Some a
  | None, b => b
  end.

(** ATen [combine_categories]: the operands of lower priority (first the tensors
    without dimensions, then the Python numbers) only count when their category
    (bool, integer, float) is higher. (PyTorch) *)
Definition combine_categories (higher lower : option dtype) : option dtype :=
  match higher, lower with
  | None, l => l
  | h, None => h
  | Some h, Some l =>
      if is_float h then Some h
      else if dtype_eqb h Bool_ || is_float l then Some (promote h l)
      else Some h
  end.

Section Dtype.
(** [torch.get_default_dtype()] *)
Context (dflt : dtype).

(** PyTorch: dtype of an operand, if it is a tensor with dimensions *)
Definition dim_dtype (v : tval) : option dtype :=
  match v with VT t => if ty_dims t then Some (ty_dtype t) else None | _ => None end.
(** PyTorch: dtype of an operand, if it is a tensor without dimensions *)
Definition zero_dtype (v : tval) : option dtype :=
  match v with VT t => if ty_dims t then None else Some (ty_dtype t) | _ => None end.
(** PyTorch: dtype of an operand, if it is a Python number *)
Definition py_dtype (v : tval) : option dtype :=
  match v with VT _ => None | VPy f => Some (if f then dflt else Int64) end.

(** [torch.result_type] of two operands (PyTorch) *)
Definition result_type (a b : tval) : dtype :=
  default (combine_categories (opromote (dim_dtype a) (dim_dtype b))
             (combine_categories (opromote (zero_dtype a) (zero_dtype b))
                (opromote (py_dtype a) (py_dtype b))))
          dflt.

(** PyTorch: whether an operand has dimensions *)
Definition dims (v : tval) : bool := match v with VT t => ty_dims t | VPy _ => false end.
(** PyTorch: device of an operand, none for a Python number *)
Definition odev (v : tval) : option device :=
  match v with VT t => Some (ty_dev t) | VPy _ => None end.

(** The device of an elementwise operation: the first device that is not the CPU. (PyTorch) *)
Fixpoint common_device (l : list tval) : device :=
  match l with
  | [] => Cpu
  | VT t :: l' => if is_cpu (ty_dev t) then common_device l' else ty_dev t
  | VPy _ :: l' => common_device l'
  end.
(** All operands are on that device, except that tensors without dimensions may be on
    the CPU. (PyTorch) *)
Definition on_device (c : device) (v : tval) : bool :=
  match v with
  | VPy _ => true
  | VT t => device_eqb (ty_dev t) c || (is_cpu (ty_dev t) && negb (ty_dims t))
  end.
(** PyTorch: [RuntimeError] for operands on different devices *)
Definition same_device (l : list tval) : res device :=
  let c := common_device l in
  if forallb (on_device c) l then Ok c else Raise RuntimeError.

(** Elementwise arithmetic (including [pow]); two Python numbers give a Python number. (PyTorch) *)
Definition ebin (a b : tval) : res tval :=
  match a, b with
  | VPy f, VPy g => Ok (VPy (f || g))
  | _, _ =>
      c <- same_device [a; b] ;;
      Ok (VT (mkTy (result_type a b) c (dims a || dims b)))
  end.
(** True division: integers give the default dtype. (PyTorch) *)
Definition ediv (a b : tval) : res tval :=
  match a, b with
  | VPy _, VPy _ => Ok (VPy true)
  | _, _ =>
      c <- same_device [a; b] ;;
      let d := result_type a b in
      Ok (VT (mkTy (if is_float d then d else dflt) c (dims a || dims b)))
  end.
(** PyTorch: a comparison gives booleans *)
Definition ecmp (a b : tval) : res tval :=
  c <- same_device [a; b] ;; Ok (VT (mkTy Bool_ c (dims a || dims b))).
(** [exp], [sqrt] (PyTorch) *)
Definition efun (a : tval) : res tval :=
  match a with
  | VT t => Ok (VT (mkTy (if is_float (ty_dtype t) then ty_dtype t else dflt)
                         (ty_dev t) (ty_dims t)))
  | VPy _ => Raise TypeError
  end.
(** [torch.where] (PyTorch; used in twobody.py:141-201, d4.py:200-217) *)
Definition ewhere (c a b : tval) : res tval :=
  match c with
  | VT m =>
      if dtype_eqb (ty_dtype m) Bool_ then
        d <- same_device [c; a; b] ;;
        Ok (VT (mkTy (result_type a b) d (dims c || dims a || dims b)))
      else Raise RuntimeError
  | VPy _ => Raise TypeError
  end.
(** In-place [a += b]: the result must be convertible to the dtype of [a]. (PyTorch; used in twobody.py:197) *)
Definition eiadd (a b : tval) : res tval :=
  match a, b with
  | VT t, _ =>
      r <- ebin a b ;;
      match r with
      | VT u => if Nat.leb (rank (ty_dtype u)) (rank (ty_dtype t)) || is_float (ty_dtype t)
                then if device_eqb (ty_dev u) (ty_dev t) then Ok a else Raise RuntimeError
                else Raise RuntimeError
      | VPy _ => Ok a
      end
  | _, _ => ebin a b
  end.
(** Contraction by [einsum] (matrix products): one dtype, one device. (PyTorch) *)
Definition same_ty (a b : ttype) : bool :=
  dtype_eqb (ty_dtype a) (ty_dtype b) && device_eqb (ty_dev a) (ty_dev b).
(** PyTorch: [einsum] of two operands (utils.py:91-94) *)
Definition econtract (a b : tval) : res tval :=
  match a, b with
  | VT s, VT t => if same_ty s t then Ok (VT (mkTy (ty_dtype s) (ty_dev s) true))
                  else Raise RuntimeError
  | _, _ => Raise TypeError
  end.
(** [table[index]]: integers, on the device of the table or on the CPU. (PyTorch; used in base.py:273, 279-281) *)
Definition egather (tab idx : tval) : res tval :=
  match tab, idx with
  | VT t, VT i =>
      if dtype_eqb (ty_dtype i) Int64 then
        if is_cpu (ty_dev i) || device_eqb (ty_dev i) (ty_dev t)
        then Ok (VT (mkTy (ty_dtype t) (ty_dev t) true))
        else Raise RuntimeError
      else Raise IndexError
  | _, _ => Raise TypeError
  end.
(** [.type(dtype)], [.to(...)] (PyTorch; used in d4.py:103-266) *)
Definition cast (d : dtype) (v : tval) : tval :=
  match v with VT t => VT (mkTy d (ty_dev t) (ty_dims t)) | VPy f => VPy f end.

(** The attribute [dd] of [TensorLike] objects. (tad_mctc) *)
Record DD : Type := mkDD { dd_dtype : dtype; dd_dev : device }.
(** [TensorLike.__init__] (tad_mctc): defaults for arguments that are [None].
    (called in cutoff.py:80, dispersion/base.py:74,150) *)
Definition tensorlike (dev : option device) (dt : option dtype) : DD :=
  mkDD (default dt dflt) (default dev Cpu).

(** [torch.tensor(0.0, **dd)]; a tensor with dimensions made with [**dd] or
    [.to( **dd)] (disp.py:185, model/base.py:308-335) *)
Definition scalar_of (dd : DD) : tval := VT (mkTy (dd_dtype dd) (dd_dev dd) false).
(** PyTorch: a table made with [**dd] (base.py:273, 279) *)
Definition table_of (dd : DD) : tval := VT (mkTy (dd_dtype dd) (dd_dev dd) true).
(** [tad_mctc.convert.any_to_tensor(x, **dd)] (called in base.py:352, cutoff.py:82-85) *)
Definition any_to_tensor (v : tval) (dd : DD) : tval :=
  match v with
  | VT t => VT (mkTy (dd_dtype dd) (dd_dev dd) (ty_dims t))
  | VPy _ => scalar_of dd
  end.

(** sequencing of exceptions, as in Tensor.v *)
Definition lift2 (f : tval -> tval -> res tval) (a b : res tval) : res tval :=
  x <- a ;; y <- b ;; f x y.
(** sequencing of exceptions, as in Tensor.v *)
Definition lift1 (f : tval -> res tval) (a : res tval) : res tval := x <- a ;; f x.
(** sequencing of exceptions, as in Tensor.v *)
Definition lift3 (f : tval -> tval -> tval -> res tval) (a b c : res tval) : res tval :=
  x <- a ;; y <- b ;; z <- c ;; f x y z.
Notation "a [*] b" := (lift2 ebin a b) (at level 40, left associativity).
Notation "a [+] b" := (lift2 ebin a b) (at level 50, left associativity).
Notation "a [-] b" := (lift2 ebin a b) (at level 50, left associativity).
Notation "a [/] b" := (lift2 ediv a b) (at level 40, left associativity).
Notation "a [^] b" := (lift2 ebin a b) (at level 30, right associativity).
Notation "a [<=] b" := (lift2 ecmp a b) (at level 60).
Notation where_ := (lift3 ewhere).
Notation fl := (VPy true).
Notation int := (VPy false).

(** ** External packages: dtype and device of their results *)

(** [storch.divide(x, y)]: [x / where(y == 0, eps, y)] with [eps] like [x]. (called in functions.py:370,378) *)
Definition sdivide_ty := lift2 ediv.
(** [storch.sqrt]: keeps the type. (called in threebody.py:244-256, 311-321) *)
Definition ssqrt_ty := lift1 efun.
(** [real_pairs], [real_triples], [real_atoms]: on the device of the numbers.
    (called in twobody.py:89-201, threebody.py:54-163, d4.py:103-266) *)
Definition mask_of (numbers : tval) : res tval :=
  match numbers with
  | VT t => Ok (VT (mkTy Bool_ (ty_dev t) true))
  | VPy _ => Raise TypeError
  end.
(** [storch.cdist(positions, positions)] (called in twobody.py:89-201, threebody.py:54-163) *)
Definition cdist_ty (positions : tval) : tval :=
  match positions with VT t => VT (mkTy (ty_dtype t) (ty_dev t) true) | v => v end.
(** The coordination number function and [get_eeq_charges]: dtype and device of the
    positions; the numbers have to be on the same device. (called in base.py:390, 405) *)
Definition atomwise (numbers positions : tval) : res tval :=
  match numbers, positions with
  | VT n, VT p => if device_eqb (ty_dev n) (ty_dev p)
                  then Ok (VT (mkTy (ty_dtype p) (ty_dev p) true)) else Raise RuntimeError
  | _, _ => Raise TypeError
  end.

(** ** src/tad_dftd4/model *)

(** the classes [D4Model] (model/d4.py:54) and [D4SModel] (model/d4s.py:56) *)
Inductive mkind_ty : Type := TD4 | TD4S.

(** [BaseModel] (model/base.py:107-151) *)
Record MTy : Type := mkMTy {
  my_kind : mkind_ty; my_dd : DD; my_numbers : tval; my_wf : tval; my_rc6 : tval
}.

(** [BaseModel._zeta] (model/base.py:308-335), [gc] and [ga] are Python numbers *)
Definition zeta_ty (dd : DD) (gam qref qmod : tval) : res tval :=
  let eps := scalar_of dd in
  let ga := scalar_of dd in
  scale <- lift1 efun (gam [*] (fl [-] qref [/] (qmod [-] eps))) ;;
  where_ (qmod [<=] fl) (lift1 efun (ga [*] (fl [-] scale))) (lift1 efun ga).

(** [BaseModel._dzeta] (model/base.py:337-365) *)
Definition dzeta_ty (dd : DD) (gam qref qmod : tval) : res tval :=
  let eps := scalar_of dd in
  let ga := scalar_of dd in
  scale <- lift1 efun (gam [*] (fl [-] qref [/] (qmod [-] eps))) ;;
  zeta <- lift1 efun (ga [*] (fl [-] scale)) ;;
  where_ (qmod [<=] fl)
         (ga [*] gam [*] scale [*] zeta [*] sdivide_ty qref (qmod [^] int))
         (scalar_of dd).

(** A table of integers moved to [device] ([refsys], [refc], [ZEFF]). (model/base.py:367-418, d4.py:103-266) *)
Definition int_table (dev : device) : tval := VT (mkTy Int64 dev true).

(** [BaseModel._get_alpha] (model/base.py:367-418) *)
Definition get_alpha_ty (dd : DD) (numbers : tval) : res tval :=
  let zero := scalar_of dd in
  refsys <- egather (int_table (dd_dev dd)) numbers ;;
  refascale <- egather (table_of dd) numbers ;;
  refalpha <- egather (table_of dd) numbers ;;
  refscount <- egather (table_of dd) numbers ;;
  refsq <- egather (table_of dd) numbers ;;
  mask <- refsys [<=] int ;;
  zeff <- egather (int_table (dd_dev dd)) refsys ;;
  gam <- lift2 egather (table_of dd) refsys [*] fl ;;
  qmod <- refsq [+] zeff ;;
  zeta <- where_ mask (zeta_ty dd gam zeff qmod) zero ;;
  aiw <- lift2 egather (table_of dd) refsys [*] lift2 egather (table_of dd) refsys [*] zeta ;;
  h <- refalpha [-] refscount [*] aiw ;;
  alpha <- refascale [*] h ;;
  where_ (alpha [<=] fl) alpha zero.

(** [trapzd] (utils.py:33-95), [trapzd_atm] (utils.py:155-205): the quadrature weights
    take dtype and device of the polarizabilities. *)
Definition trapzd_ty (pol : tval) : res tval :=
  match pol with
  | VT t =>
      let w := table_of (mkDD (ty_dtype t) (ty_dev t)) in
      fl [*] lift2 econtract (econtract w pol) pol
  | VPy _ => Raise TypeError
  end.
(** [trapzd_atm] (utils.py:155-205) *)
Definition trapzd_atm_ty (pol : tval) : res tval :=
  match pol with
  | VT t => fl [*] econtract pol (table_of (mkDD (ty_dtype t) (ty_dev t)))
  | VPy _ => Raise TypeError
  end.

(** [_get_wf] (model/d4.py:59-61, d4s.py:61-67) *)
Definition get_wf_ty (k : mkind_ty) (dd : DD) (numbers : tval) : res tval :=
  match k with TD4 => scalar_of dd | TD4S => egather (table_of dd) numbers end.

(** [BaseModel.__init__] (model/base.py:107-151) *)
Definition new_model_ty (k : mkind_ty) (dd : DD) (numbers : tval) (wf rc6 : option tval)
  : res MTy :=
  wf <- match wf with None => get_wf_ty k dd numbers | Some w => Ok (any_to_tensor w dd) end ;;
  rc6 <- match rc6 with
         | None => lift1 trapzd_ty (get_alpha_ty dd numbers)
         | Some r => Ok r
         end ;;
  Ok (mkMTy k dd numbers wf rc6).

(** [weight_references] (model/d4.py:103-266, d4s.py:109-266), return value without
    derivatives.  In [D4Model] the sum of powers starts from
    [torch.tensor(0.0, device=tmp.device)], which has the default dtype (d4.py:185-189). *)
Definition gauss_ty (m : MTy) (cn : tval) : res tval :=
  let dev := dd_dev (my_dd m) in
  let dbl := scalar_of (mkDD Float64 dev) in
  refc <- egather (int_table dev) (my_numbers m) ;;
  mask <- refc [<=] int ;;
  refcn <- egather (table_of (mkDD Float64 dev)) (my_numbers m) ;;
  dcn <- cast Float64 cn [-] refcn ;;
  tp <- match my_kind m with
        | TD4 =>
            tmp <- lift1 efun (dcn [*] dcn) ;;
            p1 <- scalar_of (mkDD dflt dev) [+] tmp [^] (int [*] my_wf m) ;;
            p3 <- p1 [+] tmp [^] (int [*] my_wf m) [+] tmp [^] (int [*] my_wf m) ;;
            Ok (tmp, p1, p3)
        | TD4S =>
            tmp <- where_ mask (lift1 efun (dcn [*] dcn [*] my_wf m)) dbl ;;
            p1 <- dbl [+] tmp [^] int ;;
            p3 <- p1 [+] tmp [^] int [+] tmp [^] int ;;
            Ok (tmp, p1, p3)
        end ;;
  let '(tmp, p1, p3) := tp in
  r1 <- where_ (refc [<=] int) p1 tmp ;;
  rfin <- where_ (refc [<=] int) p3 r1 ;;
  expw <- where_ mask rfin dbl ;;
  norm <- where_ mask expw dbl ;;
  gwt <- rmap (cast (dd_dtype (my_dd m))) (expw [/] norm) ;;
  where_ (gwt [<=] fl)
         (where_ (refcn [<=] refcn) (scalar_of (my_dd m)) (scalar_of (my_dd m))) gwt.

(** [weight_references] (model/d4.py:103-266, d4s.py:109-266): the result *)
Definition weight_references_ty (m : MTy) (cn : tval) (q : option tval) : res tval :=
  let dev := dd_dev (my_dd m) in
  let q := default q (table_of (my_dd m)) in
  refq <- egather (table_of (my_dd m)) (my_numbers m) ;;
  refc <- egather (int_table dev) (my_numbers m) ;;
  mask <- refc [<=] int ;;
  gw <- gauss_ty m cn ;;
  zeff <- egather (int_table dev) (my_numbers m) ;;
  gam <- lift2 egather (table_of (my_dd m)) (my_numbers m) [*] fl ;;
  qref <- refq [+] zeff ;;
  qmod <- q [+] zeff ;;
  zeta <- where_ mask (zeta_ty (my_dd m) gam qref qmod) (scalar_of (my_dd m)) ;;
  zeta [*] gw.

(** [get_atomic_c6] (model/d4.py:268-289, d4s.py:268-290) *)
Definition get_atomic_c6_ty (m : MTy) (gw : tval) : res tval :=
  lift2 econtract (econtract (my_rc6 m) gw) gw.

(** [get_weighted_pols] (model/d4.py:291-307, d4s.py:292-316) *)
Definition get_weighted_pols_ty (m : MTy) (gw : tval) : res tval :=
  a <- get_alpha_ty (my_dd m) (my_numbers m) ;;
  match my_kind m with
  | TD4 => econtract gw a
  | TD4S =>
      mask <- mask_of (my_numbers m) ;;
      econtract gw a [/] cast Int64 mask
  end.

(** [get_polarizabilities] (model/base.py:286-302) *)
Definition get_polarizabilities_ty (m : MTy) (gw : tval) : res tval :=
  a <- get_alpha_ty (my_dd m) (my_numbers m) ;; econtract gw a.

(** ** src/tad_dftd4/damping/functions.py *)

(** Values of parameters: tensors or Python numbers. (damping/parameters/base.py:48-85) *)
Definition PTy := dict tval.

(** The shipped damping functions. (functions.py:241,308,381,437) *)
Inductive dkind : Type := Rational | Zero | MZero | OptPower.

(** [radius_type] (functions.py:252,319,384,440) *)
Definition radius_rvdw (d : dkind) : bool :=
  match d with Zero | MZero => true | _ => false end.

(** [REQUIRED_BY_ORDER] without the parameters for which [__call__] has a default.
    (functions.py:255-259,322-326,387-390,443-447) *)
Definition required (d : dkind) (order : nat) : list string :=
  match d, order with
  | Rational, (6 | 8 | 10) => ["a1"; "a2"]
  | Zero, 6 => ["rs6"] | Zero, 8 => ["rs8"]
  | MZero, 6 => ["rs6"; "bet"] | MZero, 8 => ["rs8"; "bet"]
  | OptPower, (6 | 8) => ["a1"; "a2"; "bet"]
  | _, _ => []
  end.

(** [assert x is not None] for a parameter (functions.py:302,348,357) *)
Definition need (p : PTy) (k : string) : res tval :=
  match dget p k with Some v => Ok v | None => Raise AssertionError end.

(** [_f] of the four classes (functions.py:262-305,329-378,393-434,449-484);
    [pow] by an integer [order] *)
Definition damping_f (d : dkind) (dist radii : tval) (order : nat) (only : bool) (p : PTy)
  : res tval :=
  let alp := default (dget p "alp") fl in
  match d with
  | Rational =>
      a1 <- need p "a1" ;; a2 <- need p "a2" ;;
      radius <- a1 [*] lift1 efun radii [+] a2 ;;
      fl [/] (dist [^] int [+] radius [^] int)
  | Zero =>
      ar <- match order with
            | 6 => rs <- need p "rs6" ;; Ok (alp, rs)
            | 8 => rs <- need p "rs8" ;; a <- alp [+] fl ;; Ok (a, rs)
            | 9 => Ok (alp, default (dget p "rs9") fl)
            | _ => Raise ValueError
            end ;;
      t_n <- snd ar [*] sdivide_ty dist radii ;;
      f_n <- fl [/] (fl [+] fl [*] t_n [^] fst ar) ;;
      if only then Ok f_n else sdivide_ty f_n (dist [^] int)
  | MZero =>
      bet <- need p "bet" ;;
      ar <- match order with
            | 6 => rs <- need p "rs6" ;; Ok (alp, rs)
            | 8 => rs <- need p "rs8" ;; a <- alp [+] fl ;; Ok (a, rs)
            | _ => Raise ValueError
            end ;;
      t_n <- dist [/] (snd ar [*] radii) [+] bet [*] radii ;;
      fn <- fl [/] (fl [+] fl [*] t_n [^] fst ar) ;;
      sdivide_ty fn (dist [^] int)
  | OptPower =>
      a1 <- need p "a1" ;; a2 <- need p "a2" ;; bet <- need p "bet" ;;
      raise_if (negb ((order =? 6)%nat || (order =? 8)%nat)) ValueError ;;;
      radius <- a1 [*] lift1 efun radii [+] a2 ;;
      ab <- radius [^] bet ;;
      rb <- dist [^] bet ;;
      rb [/] (rb [*] dist [^] int [+] ab [*] dist [^] int)
  end.

(** [Damping.__call__] (functions.py:116-169) with [_checked_f] (functions.py:94-114) *)
Definition damping_call_ty (d : dkind) (dist radii : tval) (order : nat) (only : bool)
  (p : PTy) : res tval :=
  if ((order =? 8) && negb (dmem p "s8") && negb (dmem p "rs8"))%nat%bool then Ok dist
  else if ((order =? 10) && negb (dmem p "s10"))%nat%bool then Ok dist
  else
    raise_if (existsb (fun k => negb (dmem p k)) (required d order)) TypeError ;;;
    damping_f d dist radii order only p.

(** ** src/tad_dftd4/dispersion *)

(** [dd] in [dispersion2] and [get_atm_dispersion] (twobody.py:134, threebody.py:91):
    that of the positions.  [torch.finfo] of an integer dtype is a [TypeError]. *)
Definition dd_of (v : tval) : res DD :=
  match v with
  | VT t => if is_float (ty_dtype t) then Ok (mkDD (ty_dtype t) (ty_dev t)) else Raise TypeError
  | VPy _ => Raise AttributeError
  end.

(** [dispersion2] (twobody.py:89-201), [as_matrix=False] *)
Definition dispersion2_ty (numbers positions : tval) (p : PTy) (c6 r4r2 rvdw : tval)
  (d : dkind) (cutoff : tval) : res tval :=
  dd <- dd_of positions ;;
  let zero := scalar_of dd in
  mask <- mask_of numbers ;;
  distances <- where_ mask (cdist_ty positions) (scalar_of dd) ;;
  qq <- int [*] r4r2 [*] r4r2 ;;
  c8 <- c6 [*] qq ;;
  let radii := if radius_rvdw d then rvdw else qq in
  t6 <- where_ (mask [*] (distances [<=] cutoff))
               (damping_call_ty d distances radii 6 false p) zero ;;
  t8 <- where_ (mask [*] (distances [<=] cutoff))
               (damping_call_ty d distances radii 8 false p) zero ;;
  e6 <- c6 [*] t6 ;;
  e8 <- c8 [*] t8 ;;
  edisp <- default (dget p "s6") (scalar_of dd) [*] e6
           [+] default (dget p "s8") (scalar_of dd) [*] e8 ;;
  edisp <- match dget p "s10" with
           | None => Ok edisp
           | Some s10 =>
               c10 <- c6 [*] qq [^] int [*] fl [/] fl ;;
               t10 <- where_ (mask [*] (distances [<=] cutoff))
                             (damping_call_ty d distances radii 10 false p) zero ;;
               e10 <- c10 [*] t10 ;;
               lift2 eiadd edisp (s10 [*] e10)
           end ;;
  fl [*] edisp.

(** [get_atm_dispersion] (threebody.py:54-163) *)
Definition get_atm_dispersion_ty (numbers positions c9 radii cutoff : tval) (d : dkind)
  (s9 alp : tval) : res tval :=
  dd <- dd_of positions ;;
  let s9 := any_to_tensor s9 dd in
  let alp := any_to_tensor alp dd in
  cutoff2 <- cutoff [*] cutoff ;;
  mask_pairs <- mask_of numbers ;;
  mask_triples <- mask_of numbers ;;
  let eps := scalar_of dd in
  let zero := scalar_of dd in
  let one := scalar_of dd in
  r0 <- radii [*] radii [*] radii ;;
  distances <- where_ mask_pairs (cdist_ty positions) eps [^] fl ;;
  r2 <- distances [*] distances [*] distances ;;
  r1 <- lift1 efun r2 ;;
  r3 <- where_ mask_triples (r1 [*] r2) eps ;;
  r5 <- where_ mask_triples (r2 [*] r3) eps ;;
  r1' <- where_ mask_triples r1 one ;;
  alp3 <- alp [/] fl ;;
  fdamp <- where_ mask_triples (damping_call_ty d r0 r1' 9 true [("alp", alp3)]) zero ;;
  s <- where_ mask_triples
         ((distances [+] distances [-] distances) [*] (distances [-] distances [+] distances)
          [*] (distances [+] distances [+] distances)) zero ;;
  ang <- where_ (mask_triples [*] (distances [<=] cutoff2) [*] (distances [<=] cutoff2)
                 [*] (distances [<=] cutoff2))
                (fl [*] s [/] r5 [+] fl [/] r3) zero ;;
  energy <- ang [*] fdamp [*] s9 [*] c9 ;;
  energy [/] fl.

(** A term: class, damping function, [charge_dependent], and its own [dd].  The
    constructor calls of disp.py:124-134 and base.py:211-213 pass neither [device] nor
    [dtype]. *)
Record TTerm : Type := mkTTerm {
  tt_class : tclass; tt_damping : dkind; tt_cdep : bool; tt_dd : DD
}.

(** [RadiiBJMixin.get_radii], [RadiiVDWMixin.get_radii] (threebody.py:241-270): default
    parameters have the [dd] of the term. *)
Definition get_radii_ty (t : TTerm) (p : PTy) (r4r2 rvdw : tval) : res tval :=
  match tt_class t with
  | D3ATM => default (dget p "rs9") (scalar_of (tt_dd t)) [*] rvdw
  | _ => default (dget p "a1") (scalar_of (tt_dd t)) [*] ssqrt_ty (fl [*] r4r2 [*] r4r2)
         [+] default (dget p "a2") (scalar_of (tt_dd t))
  end.

(** [TwoBodyTerm.calculate] (twobody.py:60-86), [ATM.calculate] (threebody.py:210-235)
    and [get_c9] (threebody.py:282-321) *)
Definition term_calculate_ty (t : TTerm) (numbers positions : tval) (p : PTy) (cn : tval)
  (m : MTy) (q : option tval) (r4r2 rvdw disp2 disp3 : tval) : res tval :=
  let q := if tt_cdep t then q else None in
  weights <- weight_references_ty m cn q ;;
  match tt_class t with
  | TwoBodyTerm =>
      c6 <- get_atomic_c6_ty m weights ;;
      dispersion2_ty numbers positions p c6 r4r2 rvdw (tt_damping t) disp2
  | cls =>
      c9 <- match cls with
            | D4ATMExact =>
                aiw <- get_weighted_pols_ty m weights ;;
                lift1 trapzd_atm_ty (aiw [*] aiw [*] aiw)
            | _ => c6 <- get_atomic_c6_ty m weights ;; ssqrt_ty (c6 [*] c6 [*] c6)
            end ;;
      radii <- get_radii_ty t p r4r2 rvdw ;;
      get_atm_dispersion_ty numbers positions c9 radii disp3 (tt_damping t)
        (default (dget p "s9") (scalar_of (tt_dd t)))
        (default (dget p "alp") (scalar_of (tt_dd t)))
  end.

(** [Cutoff] (cutoff.py): [disp2], [disp3]. *)
Record CutTy : Type := mkCut { cu_disp2 : tval; cu_disp3 : tval; cu_eeq : tval }.
(** [Cutoff.__init__] (cutoff.py:71-90): arguments are converted when [device] and
    [dtype] are given. *)
Definition default_cutoff_ty (dd : DD) : CutTy :=
  mkCut (scalar_of dd) (scalar_of dd) (scalar_of dd).

(** The model argument of [Disp]: a key, or an instance. (base.py:142) *)
Inductive marg_ty : Type := MKey (k : mkind_ty) | MInst (m : MTy).

(** [Disp] (base.py:103-213) *)
Record DispTy : Type := mkDispTy {
  py_dd : DD; py_model : marg_ty; py_terms : list TTerm
}.

(** [Disp.get_model] (base.py:221-259) *)
Definition get_model_ty (p : DispTy) (numbers : tval) : res MTy :=
  match py_model p with
  | MInst m => Ok m
  | MKey k => new_model_ty k (py_dd p) numbers None None
  end.

(** [energy = energy + term.calculate(...)] for all terms (base.py:417-431) *)
Fixpoint sum_terms_ty (energy : tval) (l : list TTerm) (f : TTerm -> res tval) : res tval :=
  match l with
  | [] => Ok energy
  | t :: l' => e <- energy [+] f t ;; sum_terms_ty e l' f
  end.

(** [Disp.calculate] (base.py:285-431); [get_r4r2], [get_rvdw] (base.py:269-281) *)
Definition calculate_ty (d : DispTy) (numbers positions : tval) (p : PTy)
  (cutoff : option CutTy) (q r4r2 rvdw : option tval) : res tval :=
  match positions with
  | VPy _ => Raise AttributeError
  | VT pos =>
  let dd := mkDD (ty_dtype pos) (ty_dev pos) in
  let cutoff := default cutoff (default_cutoff_ty dd) in
  model <- get_model_ty d numbers ;;
  r4r2 <- match r4r2 with None => egather (table_of (py_dd d)) numbers | Some r => Ok r end ;;
  rvdw <- match rvdw with None => egather (table_of (py_dd d)) numbers | Some r => Ok r end ;;
  cn <- atomwise numbers positions ;;
  let is_c_dep := existsb tt_cdep (py_terms d) in
  raise_if (match q with Some _ => negb is_c_dep | None => false end) RuntimeError ;;;
  q <- match q with
       | Some q => Ok (Some q)
       | None => if is_c_dep then rmap Some (atomwise numbers positions) else Ok None
       end ;;
  sum_terms_ty (table_of dd) (py_terms d)
    (fun t => term_calculate_ty t numbers positions p cn model q r4r2 rvdw
                (cu_disp2 cutoff) (cu_disp3 cutoff))
  end.

(** [dftd4] (disp.py:44-146) *)
Definition dftd4_ty (numbers positions : tval) (p : PTy) (model : marg_ty)
  (r4r2 rvdw q : option tval) (cutoff : option CutTy) (damping : dkind) : res tval :=
  match positions with
  | VPy _ => Raise AttributeError
  | VT pos =>
  let dd := mkDD (ty_dtype pos) (ty_dev pos) in
  let two := mkTTerm TwoBodyTerm damping true (tensorlike None None) in
  let three := mkTTerm D4ATMApprox Zero false (tensorlike None None) in
  calculate_ty (mkDispTy dd model [two; three]) numbers positions p cutoff q r4r2 rvdw
  end.

(** [get_properties] (disp.py:149-197) *)
Definition get_properties_ty (numbers positions : tval) : res (tval * tval * tval * tval) :=
  match positions with
  | VPy _ => Raise AttributeError
  | VT pos =>
  let dd := mkDD (ty_dtype pos) (ty_dev pos) in
  cn <- atomwise numbers positions ;;
  q <- atomwise numbers positions ;;
  model <- new_model_ty TD4 dd numbers None None ;;
  weights <- weight_references_ty model cn (Some q) ;;
  c6 <- get_atomic_c6_ty model weights ;;
  alpha <- get_polarizabilities_ty model weights ;;
  Ok (cn, q, c6, alpha)
  end.

End Dtype.
