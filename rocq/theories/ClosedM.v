(** * Closed forms of the dispersion models, per atom (proof layer). *)
From Coq Require Import List Arith ZArith QArith Bool String.
From Verif Require Import Py Tensor Scalar ModelExt ModelUtils ModelModels Closed.
Import ListNotations.
Open Scope nat_scope.
Open Scope string_scope.

Section S.
Context {K : Scalar} (X : Ext K).

(** table entry [T[z, r]] *)
Definition t2 {A} (T : tensor A) (z : Z) (r : nat) : A := dat T [r; Z.to_nat z].
Definition t1 {A} (T : tensor A) (z : Z) : A := dat T [Z.to_nat z].

Definition zscale (gam qref qmod : K) : K :=
  fexp (fmul gam (fsub (flit 1) (fdiv qref (fsub qmod feps)))).
Definition zeta_s (ga gam qref qmod : K) : K :=
  if flt (flit 0) qmod then fexp (fmul ga (fsub (flit 1) (zscale gam qref qmod))) else fexp ga.
Definition dzeta_s (ga gam qref qmod : K) : K :=
  if flt (flit 0) qmod then
    fmul (fmul (fmul (fmul (fopp ga) gam) (zscale gam qref qmod))
               (fexp (fmul ga (fsub (flit 1) (zscale gam qref qmod)))))
         (x_div X qref (fpown qmod 2))
  else flit 0.

Definition tab_h (ref : string) : tensor K := if ref =? "eeq" then eeq_clsh else gfn2_refh.
Definition tab_q (ref : string) : tensor K := if ref =? "eeq" then eeq_clsq else gfn2_refq.

(** charge scaling of the secondary system *)
Definition zsec (ga gc : K) (ref : string) (z : Z) (r : nat) : K :=
  let s := t2 refsys z r in
  if Z.ltb 0 s
  then zeta_s ga (fmul (t1 (x_gam X) s) gc) (t1 (x_zeff X) s)
                 (fadd (t2 (tab_h ref) z r) (t1 (x_zeff X) s))
  else flit 0.

(** reference polarizability of reference [r] of element [z] at frequency [w] *)
Definition aref0 (ga gc : K) (ref : string) (z : Z) (r w : nat) : K :=
  let s := t2 refsys z r in
  fmul (t2 refascale z r)
    (fsub (dat refalpha [w; r; Z.to_nat z])
          (fmul (t2 refscount z r)
                (fmul (fmul (t2 secscale s 0) (t2 secalpha s w)) (zsec ga gc ref z r)))).
Definition aref (ga gc : K) (ref : string) (z : Z) (r w : nat) : K :=
  if flt (flit 0) (aref0 ga gc ref z r w) then aref0 ga gc ref z r w else flit 0.

Definition trap_w (z : nat) : K := dat trapzd_weights [z].
Definition trap_w_noref (z : nat) : K := dat trapzd_noref_weights [z].
Definition trap_w_atm (z : nat) : K := dat trapzd_atm_weights [z].

(** reference C6 of references [x] of [z1] and [y] of [z2] *)
Definition rc6v (ga gc : K) (ref : string) (z1 z2 : Z) (x y : nat) : K :=
  fmul thopi (fsum 23 (fun w =>
    fmul (fmul (trap_w w) (aref ga gc ref z1 x w)) (aref ga gc ref z2 y w))).
End S.

Section N.
Context {N : Num} (X : Ext (sc N)).
Notation K := (sc N).

Definition cnref (z : Z) (r : nat) : db N := t2 refcovcn z r.
Definition nref (z : Z) (r : nat) : Z := t2 refc z r.
Definition present (z : Z) (r : nat) : bool := Z.ltb 0 (nref z r).

Definition dcnv (z : Z) (cn : K) (r : nat) : db N := fsub (up cn) (cnref z r).

(** D4: Gaussian, powers *)
Definition tmp4 z cn r : db N := fexp (fmul (fopp (dcnv z cn r)) (dcnv z cn r)).
Definition pw4 (tmp : db N) (wf : K) (i : nat) : db N :=
  fpow tmp (up (fmul (flit (inject_Z (Z.of_nat i))) wf)).
Definition pow4 (tmp : db N) (wf : K) (n : nat) : db N :=
  fold_left (fun acc i => fadd acc (pw4 tmp wf i)) (seq 1 n) (flit 0).
Definition expw4 z cn wf r : db N :=
  if present z r then
    if Z.eqb 3 (nref z r) then pow4 (tmp4 z cn r) wf 3
    else if Z.eqb 1 (nref z r) then pow4 (tmp4 z cn r) wf 1
    else tmp4 z cn r
  else flit 0.

(** D4S *)
Definition tmp4s z cn (wf : K) r : db N :=
  if present z r
  then fexp (fmul (fmul (fopp (dcnv z cn r)) (dcnv z cn r)) (up wf)) else flit 0.
Definition pow4s (tmp : db N) (n : nat) : db N :=
  fold_left (fun acc i => fadd acc (fpown tmp i)) (seq 1 n) (flit 0).
Definition expw4s z cn wf r : db N :=
  if present z r then
    if Z.eqb 3 (nref z r) then pow4s (tmp4s z cn wf r) 3
    else if Z.eqb 1 (nref z r) then pow4s (tmp4s z cn wf r) 1
    else tmp4s z cn wf r
  else flit 0.

(** normalisation and rescue, for an unnormalised weight [e] *)
Definition normv (z : Z) (e : nat -> db N) (r : nat) : db N :=
  if present z r then fsum 7 e else flit (1 # 10 ^ 300).
Definition maxcn (z : Z) : db N := fmaxn 7 (cnref z).
Definition gwt (z : Z) (e : nat -> db N) (r : nat) : K := down (fdiv (e r) (normv z e r)).
Definition gwv (z : Z) (e : nat -> db N) (r : nat) : K :=
  if exceptional fmaxfin (gwt z e r)
  then if feq (cnref z r) (maxcn z) then flit 1 else flit 0
  else gwt z e r.

(** charge scaling of the references *)
Definition ztv (ga gc : K) (ref : string) (z : Z) (q : K) (r : nat) : K :=
  if present z r
  then zeta_s ga (fmul (t1 (x_gam X) z) gc) (fadd (t2 (tab_q ref) z r) (t1 (x_zeff X) z))
              (fadd q (t1 (x_zeff X) z))
  else flit 0.
Definition dztv (ga gc : K) (ref : string) (z : Z) (q : K) (r : nat) : K :=
  if present z r
  then dzeta_s X ga (fmul (t1 (x_gam X) z) gc) (fadd (t2 (tab_q ref) z r) (t1 (x_zeff X) z))
               (fadd q (t1 (x_zeff X) z))
  else flit 0.

Definition w4 ga gc ref wf z cn q r : K :=
  fmul (ztv ga gc ref z q r) (gwv z (expw4 z cn wf) r).
Definition w4s ga gc ref wf z cn q r : K :=
  fmul (ztv ga gc ref z q r) (gwv z (expw4s z cn wf) r).

(** derivative outputs of D4 *)
Definition dpw4 (dcn tmp : db N) (wf : K) (i : nat) : db N :=
  fmul (fmul (up (fmul (flit (inject_Z (2 * Z.of_nat i))) wf)) dcn) (pw4 tmp wf i).
Definition dpow4 (dcn tmp : db N) (wf : K) (n : nat) : db N :=
  fold_left (fun acc i => fadd acc (dpw4 dcn tmp wf i)) (seq 1 n) (flit 0).
Definition dexpw4 z cn wf r : db N :=
  fadd (if Z.eqb 1 (nref z r) then dpow4 (dcnv z cn r) (tmp4 z cn r) wf 1 else flit 0)
       (if Z.eqb 3 (nref z r) then dpow4 (dcnv z cn r) (tmp4 z cn r) wf 3 else flit 0).
Definition dgwt4 z cn wf r : db N :=
  let e := expw4 z cn wf in
  fdiv (fsub (dexpw4 z cn wf r)
             (fdiv (fmul (e r) (fsum 7 (dexpw4 z cn wf))) (normv z e r)))
       (normv z e r).
Definition dgwv4 z cn wf r : K :=
  if exceptional (up fmaxfin) (dgwt4 z cn wf r) then flit 0 else down (dgwt4 z cn wf r).

(** C6 coefficients *)
Definition c6_of (ga gc : K) (ref : string) (zi zj : Z) (wi wj : nat -> K) : K :=
  fsum 7 (fun y => fmul (fsum 7 (fun x =>
    fmul (rc6v X ga gc ref zi zj x y) (wi x))) (wj y)).

(** weighted polarizability *)
Definition wpol (ga gc : K) (ref : string) (z : Z) (wi : nat -> K) (w : nat) : K :=
  fsum 7 (fun x => fmul (wi x) (aref X ga gc ref z x w)).

Definition nreal (n : nat) (num : nat -> Z) : nat :=
  list_sum (map (fun i => if is_real (num i) then 1 else 0) (seq 0 n)).
End N.
