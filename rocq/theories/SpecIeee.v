(** * Reference weights in IEEE arithmetic (specification layer) *)
From Coq Require Import Reals List Arith ZArith QArith Bool String.
From Flocq Require Import Core.Core IEEE754.BinarySingleNaN.
From Verif Require Import Py Tensor Scalar ModelExt ModelUtils ModelModels SpecCall PropsTables
  DataRef IeeeInst IeeeP.
Import ListNotations.

(** what is required of the double precision [exp] and [pow]: no negative results (NaN is not
    excluded, nor is infinity) *)
Definition libm_nonneg (L : Libm 53 1024) : Prop :=
  (forall x, Bsign (l_exp L x) = false) /\
  (forall x y, Bsign x = false -> Bsign (l_pow L x y) = false) /\
  (forall x k, Bsign x = false -> Bsign (l_pown L x k) = false).

(** additionally: [exp] underflows to zero below -800, positive powers of zero are zero *)
Definition libm_underflow (L : Libm 53 1024) : Prop :=
  (forall x, x = B754_infinity true \/ (is_finite x = true /\ (B2R x <= -800)%R) ->
     l_exp L x = B754_zero false) /\
  (forall y, y = B754_infinity false \/ (is_finite y = true /\ (0 < B2R y)%R) ->
     l_pow L (B754_zero false) y = B754_zero false) /\
  (forall k, l_pown L (B754_zero false) (S k) = B754_zero false).

(** double precision sum of [n] terms, from left to right, starting with 0 *)
Fixpoint sum64 (n : nat) (f : nat -> binary_float 53 1024) : binary_float 53 1024 :=
  match n with O => B754_zero false | S k => Bplus (prec_gt_0_ := Hp64) (prec_lt_emax_ := He64) mode_NE (sum64 k f) (f k) end.

(** double precision sum taken along a tree of additions *)
Fixpoint tree64 (t : stree) (f : nat -> binary_float 53 1024) : binary_float 53 1024 :=
  match t with
  | PZero => B754_zero false
  | PTerm k => f k
  | PAdd a b => Bplus (prec_gt_0_ := Hp64) (prec_lt_emax_ := He64) mode_NE (tree64 a f) (tree64 b f)
  end.
(** double precision sum of [n] terms in the order of the machine *)
Definition tsum64 (L64 : Libm 53 1024) (n : nat) (f : nat -> binary_float 53 1024) : binary_float 53 1024 :=
  tree64 (proj1_sig (l_plan L64 n)) f.

Section S.
Context {prec emax : Z} {Hp : Prec_gt_0 prec} {He : Prec_lt_emax prec emax}.
Context {L : Libm prec emax} {L64 : Libm 53 1024}.
Notation N := (IN prec emax L L64).
Notation W := (binary_float prec emax).
Notation D := (binary_float 53 1024).
Local Existing Instance Hp64.
Local Existing Instance He64.
Context (X : Ext (sc N)).

(** the coordination number of reference [r] of element [z]: the double nearest to the table entry *)
Definition cn64 (z r : nat) : D := blit 53 1024 (cn_int z r # refcovcn_tab_dec).

(** the [k]-th Gaussian of reference [r] of element [z]:
    D4 [(exp(-(cn-cn_ref)^2))^(k wf)], D4S [(exp(-(cn-cn_ref)^2 wf))^k] *)
Definition gauss64 (kind : mkind) (wf cn : W) (z r k : nat) : D :=
  let d := Bminus mode_NE (bconv 53 1024 cn) (cn64 z r) in
  let d2 := Bmult mode_NE (Bopp d) d in
  match kind with
  | D4M => l_pow L64 (l_exp L64 d2) (bconv 53 1024 (Bmult mode_NE (blit prec emax (inject_Z (Z.of_nat k))) wf))
  | _ => l_pown L64 (l_exp L64 (Bmult mode_NE d2 (bconv 53 1024 wf))) k
  end.

(** unnormalised weight: sum of the [n_gauss z r] Gaussians; 0 for an absent reference *)
Definition raw64 (kind : mkind) (wf cn : W) (z r : nat) : D :=
  sum64 (Z.to_nat (n_gauss z r)) (fun k => gauss64 kind wf cn z r (S k)).
Definition norm64 (kind : mkind) (wf cn : W) (z : nat) : D := tsum64 L64 7 (raw64 kind wf cn z).

(** reference [r] is the one of element [z] with the largest coordination number *)
Definition largest_cn (z r : nat) : Prop :=
  exists_ref z r /\ forall s, (s < 7)%nat -> exists_ref z s -> s <> r -> (cn_ref z s < cn_ref z r)%R.

(** [g] is a correct normalised weight of reference [r] for weighting factor [wf] and coordination
    number [cn]: *)
Record weight_spec (kind : mkind) (wf cn : W) (z r : nat) (g : W) : Prop := {
  (** a number (not NaN, not infinite) between 0 and 1 *)
  ws_unit : is_finite g = true /\ (0 <= B2R g <= 1)%R;
  (** an absent reference has weight +0 *)
  ws_absent : ~ exists_ref z r -> g = B754_zero false;
  (** if the Gaussians do not all underflow, the weight is the rounded quotient *)
  ws_quotient : exists_ref z r -> is_finite (norm64 kind wf cn z) = true -> (B2R (norm64 kind wf cn z) <> 0)%R ->
    g = bconv prec emax (Bdiv mode_NE (raw64 kind wf cn z r) (norm64 kind wf cn z));
  (** if they all underflow (or the sum is NaN), the reference of largest coordination number gets
      weight exactly 1 and the others get 0 *)
  ws_underflow : (forall s, (s < 7)%nat -> exists_ref z s -> raw64 kind wf cn z s = B754_zero false) \/
    is_nan (norm64 kind wf cn z) = true ->
    (largest_cn z r -> B2R g = 1%R) /\ (exists_ref z r -> ~ largest_cn z r -> B2R g = 0%R)
}.

(** a coordination number (infinities included) at least 50 or at most -30: all reference
    coordination numbers lie between 0 and 20 *)
Definition far_cn (cn : W) : Prop :=
  (cn = B754_infinity false \/ (is_finite cn = true /\ (50 <= B2R cn)%R)) \/
  (cn = B754_infinity true \/ (is_finite cn = true /\ (B2R cn <= -30)%R)).
(** a weighting factor of at least 1 *)
Definition factor_ge_1 (wf : W) : Prop :=
  wf = B754_infinity false \/ (is_finite wf = true /\ (1 <= B2R wf)%R).

(** ** charge scaling in the working precision *)
Definition q_tab (ref : string) (z r : nat) : W :=
  if (ref =? "eeq")%string then dat (@eeq_clsq (sc N)) [r; z] else dat (@gfn2_refq (sc N)) [r; z].
Definition charge_factor_w (kw : mkwargs N) (z r : nat) (q : W) : W :=
  let ga : W := default (k_ga kw) (blit prec emax 3) in
  let gam : W := Bmult mode_NE (dat (x_gam X) [z]) (default (k_gc kw) (blit prec emax 2)) in
  let qref := Bplus mode_NE (q_tab (default (k_ref kw) "eeq"%string) z r) (dat (x_zeff X) [z]) in
  let qmod := Bplus mode_NE q (dat (x_zeff X) [z]) in
  let one := blit prec emax 1 in
  if (0 <? n_gauss z r)%Z then
    if Bltb (blit prec emax 0) qmod then
      l_exp L (Bmult mode_NE ga (Bminus mode_NE one (l_exp L (Bmult mode_NE gam (Bminus mode_NE one
        (Bdiv mode_NE qref (Bminus mode_NE qmod (Bldexp mode_NE Bone (1 - prec)))))))))
    else l_exp L ga
  else B754_zero false.

(** [exp] in the working precision, for a charge scaling parameter [ga]: a non-negative number, or
    possibly infinity, for every argument that is not NaN; finite for arguments not above [ga] *)
Definition exp_ok (ga : W) : Prop :=
  (forall x, is_nan x = false -> is_nan (l_exp L x) = false /\ Bsign (l_exp L x) = false) /\
  (forall x, x = B754_infinity true \/ (is_finite x = true /\ (B2R x <= B2R ga)%R) -> is_finite (l_exp L x) = true).

(** the parameters of the charge scaling for element [z] are positive numbers *)
Definition positive (x : W) : Prop := is_finite x = true /\ (0 < B2R x)%R.
Definition charge_params_ok (kw : mkwargs N) (z : nat) : Prop :=
  positive (default (k_ga kw) (blit prec emax 3)) /\ exp_ok (default (k_ga kw) (blit prec emax 3)) /\
  is_finite (dat (x_zeff X) [z] : W) = true /\
  positive (Bmult mode_NE (dat (x_gam X) [z]) (default (k_gc kw) (blit prec emax 2))) /\
  forall r, (r < 7)%nat -> exists_ref z r ->
    positive (Bplus mode_NE (q_tab (default (k_ref kw) "eeq"%string) z r) (dat (x_zeff X) [z])).

(** ** calls *)
Definition built (kind : mkind) (kw : mkwargs N) (numbers : tensor Z) (n : nat) (B : list nat)
  (m : Model N) : Prop :=
  ext_tables X /\ (kind = D4M \/ kind = D4SM) /\ shp numbers = n :: B /\ kw_ok kind kw n B /\
  elements_ok (default (k_ref kw) "eeq"%string) numbers /\ exists cls, new_model X kind cls numbers kw = Ok m.

(** weighting factor of atom [i] in the presence of atom [j] *)
Definition wf_at (kind : mkind) (kw : mkwargs N) (numbers : tensor Z) (b : list nat) (i j : nat) : W :=
  match k_wf kw, kind with
  | Some w, D4M => dat w []
  | Some w, _ => sl2 w b i j
  | None, D4M => blit prec emax 6
  | None, _ => blit prec emax (wfp_int (Z.to_nat (sl1 numbers b i)) (Z.to_nat (sl1 numbers b j)) # DataPair.wfpair_tab_dec)
  end.
Definition arg_at (o : option (tensor (sc N))) (b : list nat) (i : nat) : W :=
  match o with Some t => sl1 t b i | None => B754_zero false end.
Definition entry (kind : mkind) (gw : tensor (sc N)) (b : list nat) (i j r : nat) : W :=
  match kind with D4M => sl2 gw b i r | _ => sl3 gw b j i r end.
Definition entry_shape (kind : mkind) (n : nat) (B : list nat) : list nat :=
  match kind with D4M => 7%nat :: n :: B | _ => 7%nat :: n :: n :: B end.
End S.
