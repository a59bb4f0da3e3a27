(** * Nested automatic differentiation of a calculation (specification layer)

    As SpecAD.v, for numbers that carry derivatives of any order ([Tracking], AdG.v): the arguments
    of a calculation depend on parameters [p], and the calculation is done with numbers that carry
    the arguments as functions of [p]. *)
From Coq Require Import Reals List Arith ZArith QArith Qreals Bool String.
From Verif Require Import Py Tensor Scalar RInst AdInst AdN ModelExt ModelUtils ModelDamping ModelModels
  ModelTerms ModelDisp Spec SpecCall SpecR SpecMol SpecW SpecD4 PropsOutcome PropsDiff.
From Verif Require SpecAD.
Import ListNotations.
Open Scope R_scope.

(** ** Numbers that carry something of a function of parameters [p : TP] at the point [Tp0] *)
Record Tracking : Type := mkTracking {
  TK :> ScL;                                  (* the numbers *)
  Tval : TK -> R;                             (* their values *)
  TP : Type;                                  (* parameters *)
  Tp0 : TP;                                   (* the point *)
  Tnear : (TP -> Prop) -> Prop;               (* holds near the point *)
  Ttrk : (TP -> R) -> TK -> Prop;             (* the number carries the function *)
  Tproper : TK -> Prop;                       (* the number is regular: nothing is known of its function, but
                                                 multiplied by zero it carries zero *)
  Tord : nat                                  (* order of derivatives *) }.

(** the reals: a number carries the value of a function at the point *)
Definition T0 (eps mx : R) : Tracking :=
  mkTracking (RL eps mx) (fun x => x) unit tt (fun Q => Q tt) (fun f d => d = f tt) (fun _ => True) 0.

(** one more parameter [s]: the first component carries the function at [s = s0], the second stands
    for ([means]) its derivative by [s] at [s0], both as functions of the other parameters *)
Definition Tnext (T : Tracking) (M : LinK T) (means : KT M -> (TP T -> R) -> Prop) (s0 : R) : Tracking :=
  let trk (f : R * TP T -> R) d := Ttrk T (fun p => f (s0, p)) (fst d) /\
       exists D, Tnear T (fun p => derivable_pt_lim (fun s => f (s, p)) s0 (D p)) /\ means (snd d) D in
  mkTracking (Nest T M) (fun d => Tval T (fst d)) (R * TP T) (s0, Tp0 T)
    (fun Q => Tnear T (fun p => exists r, 0 < r /\ forall s, Rabs (s - s0) < r -> Q (s, p)))
    trk (fun d => exists f, trk f d) (S (Tord T)).

(** forward mode: the tangent carries the derivative *)
Definition mfwd (T : Tracking) : KT (FwdK T) -> (TP T -> R) -> Prop := fun u D => Ttrk T D u.
(** backward mode: the gradient of leaf [j] for the incoming gradient [g] carries [g] times the derivative *)
Definition mbwd (T : Tracking) {I} (j : I) : KT (BwdK T I) -> (TP T -> R) -> Prop :=
  fun u D => forall g gA, Ttrk T g gA -> Ttrk T (fun p => g p * D p) (u gA j).

(** *** second derivatives by two backward passes, leaves indexed by [J] *)
(** numbers with gradients, and numbers with gradients of gradients *)
Definition Grad1 (eps mx : R) (J : Type) : ScL := Nest (RL eps mx) (BwdK (RL eps mx) J).
Definition Grad2 (eps mx : R) (J : Type) : ScL := Nest (Grad1 eps mx J) (BwdK (Grad1 eps mx J) J).
(** the first pass differentiates by [s1] (leaf [j1]), the second by [s2] (leaf [j2]), at [x1], [x2] *)
Definition Tb1 (eps mx : R) {J : Type} (j2 : J) (x2 : R) : Tracking :=
  Tnext (T0 eps mx) (BwdK (T0 eps mx) J) (mbwd (T0 eps mx) j2) x2.
Definition Tb2 (eps mx : R) {J : Type} (j1 j2 : J) (x1 x2 : R) : Tracking :=
  Tnext (Tb1 eps mx j2 x2) (BwdK (Tb1 eps mx j2 x2) J) (mbwd (Tb1 eps mx j2 x2) j1) x1.
(** a function of [s1] and [s2] *)
Definition two {A} (f : R -> R -> A) : R * (R * unit) -> A := fun p => f (fst p) (fst (snd p)).
(** the first pass: gradient of the sum of the energies [e i], weighted by [g], for leaf [j] *)
Definition grad_entry {eps mx J} (n : nat) (g : nat -> R) (e : nat -> Grad2 eps mx J) (j : J) : Grad1 eps mx J :=
  fsum (K := Grad1 eps mx J) n (fun i => snd (e i) (ncon (K := RL eps mx) (M := BwdK (RL eps mx) J) (g i)) j).
(** the second pass: gradient of that gradient *)
Definition hess_entry {eps mx J} (n : nat) (g : nat -> R) (e : nat -> Grad2 eps mx J) (j1 j2 : J) : R :=
  snd (grad_entry n g e j1) 1 j2.
(** [h] is the derivative by [s2] at [x2] of the derivative by [s1] at [x1] of [f] *)
Definition second_derivative (f : R -> R -> R) (x1 x2 h : R) : Prop :=
  exists D : R -> R,
    (exists r, 0 < r /\ forall s2, Rabs (s2 - x2) < r -> derivable_pt_lim (fun s1 => f s1 s2) x1 (D s2)) /\
    derivable_pt_lim D x2 h.

(** *** all pairs of leaves at once, and the symmetry of second derivatives *)
Section Sym.
Context {eps mx : R} {J : Type} (eqJ : forall i j : J, {i = j} + {i <> j}).
(** the gradient of [d] is [a], for every incoming gradient *)
Definition jet1 (d : Grad1 eps mx J) (a : J -> R) : Prop := forall k g, snd d g k = g * a k.
(** [d] has gradient [a] and matrix of second derivatives [b]: two backward passes with an incoming
    gradient [u], whose own derivative for leaf [k] is [c], give the product rule *)
Definition jet2 (d : Grad2 eps mx J) (a : J -> R) (b : J -> J -> R) : Prop :=
  jet1 (fst d) a /\
  forall (u : Grad1 eps mx J) j k c, (forall h, snd u h k = h * c) ->
    fst (snd d u j) = fst u * a j /\ forall h, snd (snd d u j) h k = h * (fst u * b j k + c * a j).
Definition sym_jet (d : Grad2 eps mx J) : Prop := exists a b, jet2 d a b /\ forall j k, b j k = b k j.
(** leaves [j1] and [j2] moved by [s1] and [s2] *)
Definition shift (j1 j2 : J) (s1 s2 : R) : J -> R :=
  fun j => (if eqJ j j1 then s1 else 0) + (if eqJ j j2 then s2 else 0).
(** the parameters are displacements of the leaves; a number carries the first and second derivatives
    for every pair of leaves, and its second derivatives are symmetric *)
Definition Tsym : Tracking :=
  let pair j1 j2 {A} (f : (J -> R) -> A) := two (fun s1 s2 => f (shift j1 j2 s1 s2)) in
  mkTracking (Grad2 eps mx J) (fun d => fst (fst d)) (J -> R) (fun _ => 0)
    (fun Q => Q (fun _ => 0) /\ forall j1 j2, Tnear (Tb2 eps mx j1 j2 0 0) (pair j1 j2 Q))
    (fun f d => fst (fst d) = f (fun _ => 0) /\ (forall j1 j2, Ttrk (Tb2 eps mx j1 j2 0 0) (pair j1 j2 f) d) /\ sym_jet d)
    sym_jet 2.
End Sym.

(** *** derivatives of order [k] by [k] nested forward passes, at the point [x] *)
Fixpoint Rk (k : nat) : Type := match k with O => unit | S k => (R * Rk k)%type end.
Fixpoint Tf (eps mx : R) (k : nat) : Rk k -> Tracking :=
  match k with
  | O => fun _ => T0 eps mx
  | S k => fun x => let T := Tf eps mx k (snd x) in Tnext T (FwdK T) (mfwd T) (fst x)
  end.
(** the parameters are [k] numbers *)
Fixpoint par {eps mx : R} (k : nat) : forall x : Rk k, TP (Tf eps mx k x) -> Rk k :=
  match k with O => fun _ p => p | S k => fun x p => (fst p, par k (snd x) (snd p)) end.
(** the derivative by all [k] parameters *)
Fixpoint top {eps mx : R} (k : nat) : forall x : Rk k, Tf eps mx k x -> R :=
  match k with O => fun _ d => d | S k => fun x d => top k (snd x) (snd d) end.
(** [Q] holds near [x] *)
Fixpoint neark (k : nat) : Rk k -> (Rk k -> Prop) -> Prop :=
  match k with
  | O => fun _ Q => Q tt
  | S k => fun x Q => neark k (snd x) (fun p => exists r, 0 < r /\ forall s, Rabs (s - fst x) < r -> Q (s, p))
  end.
(** [l] is the derivative of [f] at [x] by all [k] parameters, one after the other *)
Fixpoint mixed (k : nat) : (Rk k -> R) -> Rk k -> R -> Prop :=
  match k with
  | O => fun f _ l => l = f tt
  | S k => fun f x l => exists D : Rk k -> R,
      neark k (snd x) (fun p => derivable_pt_lim (fun s => f (s, p)) (fst x) (D p)) /\ mixed k D (snd x) l
  end.

Section C.
Context {T : Tracking}.
Notation trk := (Ttrk T).
Notation t := (Tp0 T).
(** [d] carries the constant [x] *)
Definition fixedT (x : R) (d : T) : Prop := trk (fun _ => x) d.
(** exponents for which PyTorch's derivatives of a power are right: either constant, or none of
    0, 1, 2, ... below the order of the derivatives less one (there the mask
    [exponent == 0] of [pow_backward_self] hides mixed derivatives) *)
Definition clear (x : R) : Prop := forall j, (S j < Tord T)%nat -> x <> INR j.
Definition steady (g : TP T -> R) (e : T) : Prop := exists y, (forall p, g p = y) /\ trk (fun _ => y) e.
Definition expo (g : TP T -> R) (e : T) : Prop := steady g e \/ clear (g t).

End C.

Section B.
Context {eps mx : R} (T : Tracking).
Notation t := (Tp0 T).
Notation P := (TP T).
Notation NR := (RN eps mx).
Notation NA := (LN T).
Notation trk := (Ttrk T).

(** ** What is assumed of the external functions: they, too, carry derivatives along *)
Record ext_ad (d0 ds : R) (X : Ext (RS eps mx)) (XA : Ext T) : Prop := mkExtAd {
  ea_dist : forall c (x y : P -> nat -> R) (xA yA : nat -> T),
    (forall k, (k < c)%nat -> trk (fun s => x s k) (xA k)) ->
    (forall k, (k < c)%nat -> trk (fun s => y s k) (yA k)) ->
    d0 < sqd c (x t) (y t) ->
    trk (fun s => x_dist X c (x s) (y s)) (x_dist XA c xA yA);
  ea_div : forall f g (fA gA : T), trk f fA -> trk g gA -> g t <> 0 ->
    trk (fun s => x_div X (f s) (g s)) (x_div XA fA gA);
  ea_sqrt : forall f (fA : T), trk f fA -> ds < f t ->
    trk (fun s => x_sqrt X (f s)) (x_sqrt XA fA);
  ea_sqrt_proper : forall d : T, Tproper T d -> Tproper T (x_sqrt XA d);
  ea_zeff : forall z, fixedT (T := T) (dat (x_zeff X) [z]) (dat (x_zeff XA) [z]);
  ea_gam : forall z, fixedT (T := T) (dat (x_gam X) [z]) (dat (x_gam XA) [z]);
  ea_vdw : forall y z, fixedT (T := T) (dat (x_vdw X) [y; z]) (dat (x_vdw XA) [y; z]) }.

(** ** The same calculation with and without derivatives *)
(** an optional number or tensor *)
Definition opt_trk (o : P -> option R) (oA : option (T)) : Prop :=
  match oA with
  | None => forall s, o s = None
  | Some d => exists f, (forall s, o s = Some (f s)) /\ trk f d
  end.
Definition opt_trk_t (sh : list nat) (o : P -> option (tensor R)) (oA : option (tensor (T))) : Prop :=
  match oA with
  | None => forall s, o s = None
  | Some uA => exists u, (forall s, o s = Some (u s)) /\
                 forall ix, valid sh ix -> trk (fun s => dat (u s) ix) (dat uA ix)
  end.

(** [aA] carries along the derivatives of the arguments [a s] at [t]: coordinates, damping
    parameters, <r4>/<r2> and van-der-Waals radii may all depend on [s] *)
Record call_ad (a : P -> Args NR) (aA : Args NA) (n c : nat) (B : list nat) : Prop := mkCallAd {
  ca_numbers : forall s, a_numbers (a s) = a_numbers aA;
  ca_positions : forall b i k, valid B b -> (i < n)%nat -> (k < c)%nat ->
    trk (fun s => sl2 (a_positions (a s)) b i k) (sl2 (a_positions aA) b i k);
  ca_param : forall k, opt_trk (fun s => getp (a_param (a s)) k) (getp (a_param aA) k);
  ca_r4r2 : opt_trk_t (n :: B) (fun s => a_r4r2 (a s)) (a_r4r2 aA);
  ca_rvdw : opt_trk_t (n :: n :: B) (fun s => a_rvdw (a s)) (a_rvdw aA);
  ca_cut2 : forall s, dat (c_disp2 (a_cut (a s))) [] = Tval T (dat (c_disp2 (a_cut aA)) []);
  ca_cut3 : forall s, dat (c_disp3 (a_cut (a s))) [] = Tval T (dat (c_disp3 (a_cut aA)) []) }.

(** the same term *)
Definition term_ad (X : Ext (RS eps mx)) (XA : Ext T) (t : DispTerm NR) (tA : DispTerm NA) : Prop :=
  t_class t = t_class tA /\ t_cdep t = t_cdep tA /\
  match t_class t with
  | TwoBodyTerm => exists cls, t_damping t = damping_of X cls /\ t_damping tA = damping_of XA cls
  | _ => t_damping t = ZeroDamping X /\ t_damping tA = ZeroDamping XA
  end.

(** the same model parameters, constant *)
Definition opt_fixed (o : option R) (oA : option (T)) : Prop :=
  match o, oA with Some x, Some d => fixedT (T := T) x d | None, None => True | _, _ => False end.
Definition opt_fixed_t (o : option (tensor R)) (oA : option (tensor (T))) : Prop :=
  match o, oA with
  | Some u, Some uA => forall ix, fixedT (T := T) (dat u ix) (dat uA ix)
  | None, None => True | _, _ => False end.
Definition kw_ad (kw : mkwargs NR) (kwA : mkwargs NA) : Prop :=
  k_ref kwA = k_ref kw /\ opt_fixed (k_ga kw) (k_ga kwA) /\ opt_fixed (k_gc kw) (k_gc kwA) /\
  opt_fixed_t (k_wf kw) (k_wf kwA).

(** a quantity of the real atoms of molecule [b] *)
Definition trk_atoms (numbers : tensor Z) (n : nat) (b : list nat) (u : P -> nat -> R) (uA : nat -> T) : Prop :=
  forall i, (i < n)%nat -> real_atom numbers b i -> trk (fun s => u s i) (uA i).
Definition opt_atA (o : option (tensor (T))) (b : list nat) (i : nat) : T :=
  match o with Some u => sl1 u b i | None => flit (s := T) 0 end.

(** the damping parameters used as exponents, [alp] (in various combinations) and [bet], are constant
    or such that the derivatives of powers are right *)
Definition const_param (a : P -> Args NR) (aA : Args NA) (k : string) : Prop :=
  getp (a_param aA) k = None \/
  exists y d, getp (a_param aA) k = Some d /\ (forall s, getp (a_param (a s)) k = Some y) /\ fixedT (T := T) y d.
Definition exponents_ok (a : P -> Args NR) (aA : Args NA) : Prop :=
  (const_param a aA "alp" \/ forall x, getp (a_param (a t)) "alp" = Some x ->
     clear (T := T) x /\ clear (T := T) (x + 2) /\ clear (T := T) (x / 3) /\ clear (T := T) (- x) /\ clear (T := T) (- (x + 2))) /\
  (const_param a aA "bet" \/ forall x, getp (a_param (a t)) "bet" = Some x -> clear (T := T) x).

(** ** The same calculation [run] near [t], without derivatives, and at [t], with derivatives *)
Record same_calc (X : Ext (RS eps mx)) (XA : Ext T) (W : World NR) (WA : World NA) (p : Disp NR) (pA : Disp NA)
  (a : P -> Args NR) (aA : Args NA) kind (kw : mkwargs NR) (kwA : mkwargs NA) (n c : nat) (B : list nat) (d0 ds : R)
  (cn : P -> tensor R) (cnA : tensor (T)) (q : P -> option (tensor R)) (qA : option (tensor (T))) (E : P -> tensor R) : Prop := mkSame {
  sc_tables : ext_tables X /\ ext_tables XA;
  sc_pos : 0 < d0 /\ 0 <= ds /\ 0 <= cut3 (a t);
  sc_contracts : dist_contract d0 X /\ div_contract X /\ sqrt_contract ds X;
  sc_ext : ext_ad d0 ds X XA;
  sc_terms : Forall2 (term_ad X XA) (p_terms p) (p_terms pA);
  sc_kw : kw_ad kw kwA;
  sc_args : call_ad a aA n c B;
  sc_exps : exponents_ok a aA;
  sc_near : Tnear T (fun t =>
     well_formed (N := NR) X W p (a t) kind kw n c B /\
     p_cn_fn p (p_cn_kw p) (a_numbers (a t)) (a_positions (a t)) = Ok (cn t) /\
     charges_are W p (a t) (q t) /\
     run (N := NR) X W p (a t) = Ok (E t));
  sc_wf : well_formed (N := NA) XA WA pA aA kind kwA n c B;
  sc_cn : p_cn_fn pA (p_cn_kw pA) (a_numbers aA) (a_positions aA) = Ok cnA;
  sc_q : charges_are WA pA aA qA }.

(** In molecule [b], coordination numbers and charges carry their derivatives along, and the
    energy is smooth. *)
Record smooth_mol (X : Ext (RS eps mx)) (p : Disp NR) (a : P -> Args NR) kind (kw : mkwargs NR) (n c : nat) (d0 ds : R)
  (cn : P -> tensor R) (cnA : tensor (T)) (q : P -> option (tensor R)) (qA : option (tensor (T))) (b : list nat) : Prop := mkSmoothMol {
  sl_cn : trk_atoms (a_numbers (a t)) n b (fun t => sl1 (cn t) b) (sl1 cnA b);
  sl_q : trk_atoms (a_numbers (a t)) n b (fun t => opt_at (eps := eps) (mx := mx) (q t) b) (opt_atA qA b);
  sl_at : SpecAD.smooth_at X p kind kw (a t) (sl1 (cn t) b) (opt_at (eps := eps) (mx := mx) (q t) b) d0 ds n c b }.
End B.
