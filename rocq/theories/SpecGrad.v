(** * Gradients of the backward pass with infinities and NaN (specification layer). *)
From Coq Require Import Reals List Arith ZArith QArith Bool String.
From Verif Require Import Py Tensor Scalar RInst AdInst GradInst ModelExt ModelUtils ModelDamping ModelModels
  ModelTerms ModelDisp ModelGrad DataRef.
From Verif Require Export SpecCall.
From Verif Require Import Spec SpecR SpecW SpecD4 PropsOutcome.
Import ListNotations.
Open Scope nat_scope.
Open Scope string_scope.

(** the call of [Disp.calculate] with given selection operations *)
Definition run_g {N : Num} (X : Ext (sc N)) (wk : bool -> sc N -> sc N -> sc N)
  (wd : bool -> db N -> db N -> db N) (W : World N) (p : Disp N) (a : Args N) : res (tensor (sc N)) :=
  calculate_g X wk wd W p (a_numbers a) (a_positions a) (a_charge a) (a_param a) (a_cutoff a)
              (a_q a) (a_rcov a) (a_r4r2 a) (a_rvdw a).

Open Scope R_scope.

Section S.
Context {I : Type}.

(** [e] carries the same number and the same gradients as [a], which is computed in exact
    arithmetic (AdInst): all of them finite *)
Definition live (e : gnum I) (a : adn (Bwd I)) : Prop :=
  fst e = XR (fst a) /\ (forall g i, grad e (XR g) i = XR (snd a g i)) /\ (forall i, snd a 0 i = 0).
(** no gradient, whatever comes in, reaches a leaf through [e] *)
Definition dead (e : gnum I) : Prop := forall g i, grad e g i = XR 0.
End S.

Section C.
Context {I : Type} {eps mx : R}.
Notation NG := (GN I eps mx).
Notation NA := (AN (Bwd I) eps mx).
Notation KG := (GS I eps mx).
Notation KA := (AS (Bwd I) eps mx).

(** ** What is assumed of the external functions: distances, quotients and square roots are safe,
    i.e. never make a gradient infinite (they clamp their arguments), and the tables are constants *)
Record ext_live (XG : Ext KG) (XA : Ext KA) : Prop := mkExtLive {
  el_dist : forall c (x y : nat -> gnum I) (xA yA : nat -> adn (Bwd I)),
    (forall k, (k < c)%nat -> live (x k) (xA k)) -> (forall k, (k < c)%nat -> live (y k) (yA k)) ->
    live (x_dist XG c x y) (x_dist XA c xA yA);
  el_div : forall x y xA yA, live x xA -> live y yA -> live (x_div XG x y) (x_div XA xA yA);
  el_sqrt : forall x xA, live x xA -> live (x_sqrt XG x) (x_sqrt XA xA);
  el_div_dead : forall x y, dead x -> dead y -> dead (x_div XG x y);
  el_div_value : forall xA yA, fst yA <> 0 -> fst (x_div XA xA yA) = fst xA / fst yA;
  el_div_pos : forall xA yA, 0 < fst xA -> 0 <= fst yA -> 0 < fst (x_div XA xA yA);
  el_zeff : forall z, live (dat (x_zeff XG) [z]) (dat (x_zeff XA) [z]);
  el_gam : forall z, live (dat (x_gam XG) [z]) (dat (x_gam XA) [z]);
  el_vdw : forall y z, live (dat (x_vdw XG) [y; z]) (dat (x_vdw XA) [y; z]) }.

(** ** The same calculation with the two kinds of numbers *)
Definition opt_live (x : option (gnum I)) (y : option (adn (Bwd I))) : Prop :=
  match x, y with Some x, Some y => live x y | None, None => True | _, _ => False end.
Definition opt_live_at (x : option (tensor (gnum I))) (y : option (tensor (adn (Bwd I)))) (at_ : list nat -> Prop) : Prop :=
  match x, y with
  | Some x, Some y => forall ix, at_ ix -> live (dat x ix) (dat y ix)
  | None, None => True | _, _ => False end.

Definition term_same (XG : Ext KG) (XA : Ext KA) (t : DispTerm NG) (tA : DispTerm NA) : Prop :=
  t_class t = t_class tA /\ t_cdep t = t_cdep tA /\
  match t_class t with
  | TwoBodyTerm => exists cls, t_damping t = damping_of XG cls /\ t_damping tA = damping_of XA cls
  | _ => t_damping t = ZeroDamping XG /\ t_damping tA = ZeroDamping XA
  end.
Definition kw_live (kw : mkwargs NG) (kwA : mkwargs NA) : Prop :=
  k_ref kwA = k_ref kw /\ opt_live (k_ga kw) (k_ga kwA) /\ opt_live (k_gc kw) (k_gc kwA) /\
  opt_live_at (k_wf kw) (k_wf kwA) (fun _ => True).

(** the arguments of molecule [b], padding included *)
Record call_live (a : Args NG) (aA : Args NA) (n c : nat) (b : list nat) : Prop := mkCallLive {
  cl_positions : forall i k, (i < n)%nat -> (k < c)%nat ->
    live (sl2 (a_positions a) b i k) (sl2 (a_positions aA) b i k);
  cl_param : forall k, opt_live (getp (a_param a) k) (getp (a_param aA) k);
  cl_r4r2 : opt_live_at (a_r4r2 a) (a_r4r2 aA) (fun ix => exists i, (i < n)%nat /\ ix = i :: b);
  cl_rvdw : opt_live_at (a_rvdw a) (a_rvdw aA) (fun ix => exists i j, (i < n)%nat /\ (j < n)%nat /\ ix = (j :: i :: b)%list);
  cl_cut2 : live (dat (c_disp2 (a_cut a)) []) (dat (c_disp2 (a_cut aA)) []);
  cl_cut3 : live (dat (c_disp3 (a_cut a)) []) (dat (c_disp3 (a_cut aA)) []) }.
End C.

(** ** Radii of a call *)
Section R.
Context {N : Num} (X : Ext (sc N)) (a : Args N) (b : list nat).
(** <r4>/<r2> value of atom [i], van-der-Waals radius of a pair *)
Definition r4r2_at (i : nat) : sc N :=
  match a_r4r2 a with Some t => sl1 t b i | None => dat R4R2 [Z.to_nat (sl1 (a_numbers a) b i)] end.
Definition vdw_at (i j : nat) : sc N :=
  match a_rvdw a with Some t => sl2 t b i j
  | None => dat (x_vdw X) [Z.to_nat (sl1 (a_numbers a) b j); Z.to_nat (sl1 (a_numbers a) b i)] end.
Definition qq_at (i j : nat) : sc N := fmul (fmul (flit 3) (r4r2_at i)) (r4r2_at j).
Definition par (k : string) (q : Q) : sc N := default (getp (a_param a) k) (flit q).
(** radius of a pair in a three-body term *)
Definition radius3 (cls : tclass) (i j : nat) : sc N :=
  match cls with
  | D3ATM => fmul (par "rs9" dRS9) (vdw_at i j)
  | _ => fadd (fmul (par "a1" dA1) (x_sqrt X (qq_at i j))) (par "a2" dA2)
  end.
Definition radius_prod (cls : tclass) (i j k : nat) : sc N :=
  fmul (fmul (radius3 cls i j) (radius3 cls i k)) (radius3 cls j k).
End R.

(** ** Where no operation of the backward pass is singular *)
Section S3.
Context {I : Type} {eps mx : R}.
Notation NG := (GN I eps mx).
Notation NA := (AN (Bwd I) eps mx).
Notation KG := (GS I eps mx).
Notation KA := (AS (Bwd I) eps mx).
Context (XG : Ext KG) (XA : Ext KA) (a : Args NG) (aA : Args NA) (b : list nat).
Notation z := (sl1 (a_numbers aA) b).

Definition real2 (i j : nat) : bool := negb (z i =? 0)%Z && negb (z j =? 0)%Z && negb (i =? j)%nat.
Definition real3 (i j k : nat) : bool := real2 i j && real2 i k && real2 j k.

(** a square root is differentiated only where its argument is positive *)
Definition root_ok (x : gnum I) (xA : adn (Bwd I)) : Prop := 0 < fst xA \/ (0 <= fst xA /\ dead x).

(** the two-body damping function [cls] at the pair [i], [j]; the pair need not be real.  The
    modified zero damping divides by the radius, which is 0 for padding in general: there, radii
    and parameters must not require gradients. *)
Definition pair_safe (cls : dclass) (i j : nat) : Prop :=
  let pos k := 0 < fst (par (N := NA) aA k 1%Q) in
  match cls with
  | Rational => root_ok (qq_at (N := NG) a b i j) (qq_at (N := NA) aA b i j)
  | Zero => pos "rs6"%string /\ pos "rs8"%string /\ 0 <= fst (vdw_at (N := NA) XA aA b i j)
  | MZero =>
      (pos "rs6"%string /\ pos "rs8"%string /\ 0 < fst (vdw_at (N := NA) XA aA b i j) /\ 0 <= fst (par (N := NA) aA "bet" 0%Q)) \/
      (real2 i j = false /\ dead (vdw_at (N := NG) XG a b i j) /\
       dead (par (N := NG) a "rs6" 1%Q) /\ dead (par (N := NG) a "rs8" 1%Q) /\ dead (par (N := NG) a "alp" dALP) /\ dead (par (N := NG) a "bet" 0%Q))
  | OptimisedPower =>
      root_ok (qq_at (N := NG) a b i j) (qq_at (N := NA) aA b i j) /\
      0 < fst (par (N := NA) aA "a1" dA1) * sqrt (fst (qq_at (N := NA) aA b i j)) + fst (par (N := NA) aA "a2" dA2)
  end.
(** the three-body damping function at the triple [i], [j], [k] *)
Definition triple_safe (cls : tclass) (i j k : nat) : Prop :=
  let r := fst (radius_prod (N := NA) XA aA b cls i j k) in
  0 < r \/ (0 <= r /\ 3 <= fst (par (N := NA) aA "alp" dALP)) \/
  (real3 i j k = false /\ dead (radius_prod (N := NG) XG a b cls i j k) /\ dead (par (N := NG) a "alp" dALP)).

Definition zeff_of (e : nat) : R := fst (dat (x_zeff XA) [e]).

Record grad_safe (ts : list (DispTerm NG)) (ref : string) (n c : nat) (q : option (tensor (adn (Bwd I)))) : Prop := mkGradSafe {
  (** real atoms at different places *)
  gs_apart : forall i j, (i < n)%nat -> (j < n)%nat -> real2 i j = true ->
    0 < fst (x_dist XA c (sl2 (a_positions aA) b i) (sl2 (a_positions aA) b j));
  (** the charge scaling has a pole where the effective charge is [eps] *)
  gs_charges : forall i t, (i < n)%nat -> In t ts ->
    (match q with Some u => if t_cdep t then fst (sl1 u b i) else 0 | None => 0 end) + zeff_of (Z.to_nat (z i)) <> eps;
  gs_refs : forall i r, (i < n)%nat -> (r < 7)%nat ->
    h_ref ref (Z.to_nat (z i)) r + zeff_of (Z.to_nat (dat refsys [r; Z.to_nat (z i)])) <> eps;
  gs_two : forall t cls i j, In t ts -> t_class t = TwoBodyTerm -> t_damping t = damping_of XG cls ->
    (i < n)%nat -> (j < n)%nat -> pair_safe cls i j;
  gs_three : forall t i j k, In t ts -> t_class t <> TwoBodyTerm ->
    (i < n)%nat -> (j < n)%nat -> (k < n)%nat -> triple_safe (t_class t) i j k }.
End S3.

(** ** The same calculation: with [torch.where] as an operation of PyTorch's backward pass, and in
    exact arithmetic *)
Record same_graph {I : Type} {eps mx : R} (XG : Ext (GS I eps mx)) (XA : Ext (AS (Bwd I) eps mx))
  (WG : World (GN I eps mx)) (WA : World (AN (Bwd I) eps mx)) (p : Disp (GN I eps mx)) (pA : Disp (AN (Bwd I) eps mx))
  (a : Args (GN I eps mx)) (aA : Args (AN (Bwd I) eps mx)) kind (kw : mkwargs (GN I eps mx)) (kwA : mkwargs (AN (Bwd I) eps mx))
  (n c : nat) (B : list nat) (cn : tensor (gnum I)) (cnA : tensor (adn (Bwd I))) (q : option (tensor (gnum I)))
  (qA : option (tensor (adn (Bwd I)))) : Prop := mkSameGraph {
  sg_eps : 0 < eps;
  sg_tables : ext_tables XG /\ ext_tables XA;
  sg_ext : ext_live XG XA;
  sg_inst : p_inst p = None /\ p_inst pA = None;
  sg_terms : Forall2 (term_same XG XA) (p_terms p) (p_terms pA);
  sg_kw : kw_live kw kwA;
  sg_numbers : a_numbers a = a_numbers aA;
  sg_wfG : well_formed (N := GN I eps mx) XG WG p a kind kw n c B;
  sg_wfA : well_formed (N := AN (Bwd I) eps mx) XA WA pA aA kind kwA n c B;
  sg_cnG : p_cn_fn p (p_cn_kw p) (a_numbers a) (a_positions a) = Ok cn;
  sg_cnA : p_cn_fn pA (p_cn_kw pA) (a_numbers aA) (a_positions aA) = Ok cnA;
  sg_qG : charges_are WG p a q;
  sg_qA : charges_are WA pA aA qA }.

(** In molecule [b], positions, parameters, coordination numbers and charges have finite gradients. *)
Record live_mol {I : Type} {eps mx : R} (a : Args (GN I eps mx)) (aA : Args (AN (Bwd I) eps mx)) (n c : nat)
  (cn : tensor (gnum I)) (cnA : tensor (adn (Bwd I))) (q : option (tensor (gnum I))) (qA : option (tensor (adn (Bwd I)))) (b : list nat) : Prop := mkLiveMol {
  lm_call : call_live a aA n c b;
  lm_cn : forall i, (i < n)%nat -> live (sl1 cn b i) (sl1 cnA b i);
  lm_q : opt_live_at q qA (fun ix => exists i, (i < n)%nat /\ ix = i :: b) }.
