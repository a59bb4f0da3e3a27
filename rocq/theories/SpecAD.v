(** * Automatic differentiation of a calculation (specification layer) *)
From Coq Require Import Reals List Arith ZArith QArith Qreals Bool String.
From Verif Require Import Py Tensor Scalar RInst AdInst ModelExt ModelUtils ModelDamping ModelModels
  ModelTerms ModelDisp Spec SpecCall SpecR SpecMol SpecW SpecD4 PropsOutcome PropsDiff.
Import ListNotations.
Open Scope R_scope.

(** ** Numbers with derivatives *)
Section A.
Context {M : Lin} (means : LT M -> R -> Prop).

(** [means u l]: the derivative information [u] stands for the derivative [l]; this is compatible
    with sums and multiples *)
Definition lin_sound : Prop :=
  means lz 0 /\
  (forall u v l m, means u l -> means v m -> means (lp u v) (l + m)) /\
  (forall a u l, means u l -> means (ls a u) (a * l)).
(** [d] carries the value of [f] at [t] and the derivative of [f] at [t] *)
Definition tracks (t : R) (f : R -> R) (d : adn M) : Prop :=
  fst d = f t /\ exists l, derivable_pt_lim f t l /\ means (snd d) l.
(** [d] carries the number [x] and the derivative 0 *)
Definition fixed (x : R) (d : adn M) : Prop := fst d = x /\ means (snd d) 0.
(** [d] carries some derivative *)
Definition proper (d : adn M) : Prop := exists l, means (snd d) l.
End A.

Section B.
Context {M : Lin} (means : LT M -> R -> Prop) {eps mx : R}.
Notation NR := (RN eps mx).
Notation NA := (AN M eps mx).
Notation trk := (tracks means).

(** ** What is assumed of the external functions: they, too, carry derivatives along *)
Record ext_ad (d0 ds : R) (X : Ext (RS eps mx)) (XA : Ext (AS M eps mx)) : Prop := mkExtAd {
  ea_dist : forall t c (x y : R -> nat -> R) (xA yA : nat -> adn M),
    (forall k, (k < c)%nat -> trk t (fun s => x s k) (xA k)) ->
    (forall k, (k < c)%nat -> trk t (fun s => y s k) (yA k)) ->
    d0 < sqd c (x t) (y t) ->
    trk t (fun s => x_dist X c (x s) (y s)) (x_dist XA c xA yA);
  ea_div : forall t f g (fA gA : adn M), trk t f fA -> trk t g gA -> g t <> 0 ->
    trk t (fun s => x_div X (f s) (g s)) (x_div XA fA gA);
  ea_sqrt : forall t f (fA : adn M), trk t f fA -> ds < f t ->
    trk t (fun s => x_sqrt X (f s)) (x_sqrt XA fA);
  ea_sqrt_proper : forall d : adn M, proper means d -> proper means (x_sqrt XA d);
  ea_zeff : forall z, fixed means (dat (x_zeff X) [z]) (dat (x_zeff XA) [z]);
  ea_gam : forall z, fixed means (dat (x_gam X) [z]) (dat (x_gam XA) [z]);
  ea_vdw : forall y z, fixed means (dat (x_vdw X) [y; z]) (dat (x_vdw XA) [y; z]) }.

(** ** The same calculation with and without derivatives *)
(** an optional number or tensor *)
Definition opt_trk (t : R) (o : R -> option R) (oA : option (adn M)) : Prop :=
  match oA with
  | None => forall s, o s = None
  | Some d => exists f, (forall s, o s = Some (f s)) /\ trk t f d
  end.
Definition opt_trk_t (t : R) (sh : list nat) (o : R -> option (tensor R)) (oA : option (tensor (adn M))) : Prop :=
  match oA with
  | None => forall s, o s = None
  | Some uA => exists u, (forall s, o s = Some (u s)) /\
                 forall ix, valid sh ix -> trk t (fun s => dat (u s) ix) (dat uA ix)
  end.

(** [aA] carries along the derivatives of the arguments [a s] at [s = t]: coordinates, damping
    parameters, <r4>/<r2> and van-der-Waals radii may all depend on [s] *)
Record call_ad (t : R) (a : R -> Args NR) (aA : Args NA) (n c : nat) (B : list nat) : Prop := mkCallAd {
  ca_numbers : forall s, a_numbers (a s) = a_numbers aA;
  ca_positions : forall b i k, valid B b -> (i < n)%nat -> (k < c)%nat ->
    trk t (fun s => sl2 (a_positions (a s)) b i k) (sl2 (a_positions aA) b i k);
  ca_param : forall k, opt_trk t (fun s => getp (a_param (a s)) k) (getp (a_param aA) k);
  ca_r4r2 : opt_trk_t t (n :: B) (fun s => a_r4r2 (a s)) (a_r4r2 aA);
  ca_rvdw : opt_trk_t t (n :: n :: B) (fun s => a_rvdw (a s)) (a_rvdw aA);
  ca_cut2 : forall s, dat (c_disp2 (a_cut (a s))) [] = fst (dat (c_disp2 (a_cut aA)) []);
  ca_cut3 : forall s, dat (c_disp3 (a_cut (a s))) [] = fst (dat (c_disp3 (a_cut aA)) []) }.

(** the same term *)
Definition term_ad (X : Ext (RS eps mx)) (XA : Ext (AS M eps mx)) (t : DispTerm NR) (tA : DispTerm NA) : Prop :=
  t_class t = t_class tA /\ t_cdep t = t_cdep tA /\
  match t_class t with
  | TwoBodyTerm => exists cls, t_damping t = damping_of X cls /\ t_damping tA = damping_of XA cls
  | _ => t_damping t = ZeroDamping X /\ t_damping tA = ZeroDamping XA
  end.

(** the same model parameters, constant *)
Definition opt_fixed (o : option R) (oA : option (adn M)) : Prop :=
  match o, oA with Some x, Some d => fixed means x d | None, None => True | _, _ => False end.
Definition opt_fixed_t (o : option (tensor R)) (oA : option (tensor (adn M))) : Prop :=
  match o, oA with
  | Some u, Some uA => forall ix, fixed means (dat u ix) (dat uA ix)
  | None, None => True | _, _ => False end.
Definition kw_ad (kw : mkwargs NR) (kwA : mkwargs NA) : Prop :=
  k_ref kwA = k_ref kw /\ opt_fixed (k_ga kw) (k_ga kwA) /\ opt_fixed (k_gc kw) (k_gc kwA) /\
  opt_fixed_t (k_wf kw) (k_wf kwA).

(** a quantity of the real atoms of molecule [b] *)
Definition trk_atoms (t : R) (numbers : tensor Z) (n : nat) (b : list nat) (u : R -> nat -> R) (uA : nat -> adn M) : Prop :=
  forall i, (i < n)%nat -> real_atom numbers b i -> trk t (fun s => u s i) (uA i).
Definition opt_atA (o : option (tensor (adn M))) (b : list nat) (i : nat) : adn M :=
  match o with Some u => sl1 u b i | None => acon 0 end.

(** ** Where the energy of molecule [b] is smooth *)
(** what a two-body damping function requires of the pair [i], [j] *)
Definition two_smooth (X : Ext (RS eps mx)) (cls : dclass) (a : Args NR) (b : list nat) (i j : nat) : Prop :=
  let pos k := forall x, getp (a_param a) k = Some x -> 0 < x in
  match cls with
  | Rational => 0 < 3 * mol_Q a b i * mol_Q a b j
  | Zero => 0 < mol_vdw X a b i j /\ pos "rs6"%string /\ pos "rs8"%string
  | MZero => 0 < mol_vdw X a b i j /\ pos "rs6"%string /\ pos "rs8"%string /\
             forall x, getp (a_param a) "bet" = Some x -> 0 <= x
  | OptimisedPower => 0 < 3 * mol_Q a b i * mol_Q a b j /\ 0 < bj_radius (eff_a1 a) (eff_a2 a) (mol_Q a b) i j
  end.
(** what a three-body term requires: positive radii, and square roots off their threshold *)
Definition three_smooth (X : Ext (RS eps mx)) kind kw (a : Args NR) (n : nat) (b : list nat) (cn q : nat -> R) (ds : R)
  (t : DispTerm NR) : Prop :=
  (forall i j, (i < n)%nat -> (j < n)%nat -> real_pair (mol_z a b) i j = true ->
     0 < radius_of X a b t i j /\ (t_class t <> D3ATM -> ds < 3 * mol_Q a b i * mol_Q a b j)) /\
  (t_class t <> D4ATMExact -> forall i j k, (i < n)%nat -> (j < n)%nat -> (k < n)%nat ->
     real_triple (mol_z a b) i j k = true ->
     ds < c6_coef X kind kw a b cn (seen q t) i j * c6_coef X kind kw a b cn (seen q t) i k
          * c6_coef X kind kw a b cn (seen q t) j k).

Record smooth_at (X : Ext (RS eps mx)) (p : Disp NR) kind kw (a : Args NR) (cn q : nat -> R) (d0 ds : R)
  (n c : nat) (b : list nat) : Prop := mkSmooth {
  sm_apart : forall i j, (i < n)%nat -> (j < n)%nat -> real_pair (mol_z a b) i j = true ->
    d0 < sqd c (mol_x a b i) (mol_x a b j);
  sm_cutoffs : off_cutoffs p a n c b;
  sm_charges : needs_charges p -> forall i, (i < n)%nat -> real_atom (a_numbers a) b i ->
    smooth_charge X (Z.to_nat (mol_z a b i)) (q i);
  sm_two : forall t cls, In t (p_terms p) -> t_class t = TwoBodyTerm -> t_damping t = damping_of X cls ->
    forall i j, (i < n)%nat -> (j < n)%nat -> real_pair (mol_z a b) i j = true -> two_smooth X cls a b i j;
  sm_three : forall t, In t (p_terms p) -> t_class t <> TwoBodyTerm -> three_smooth X kind kw a n b cn q ds t }.

(** ** The same calculation [run] near [t0], without derivatives, and at [t0], with derivatives *)
Record same_calc (X : Ext (RS eps mx)) (XA : Ext (AS M eps mx)) (W : World NR) (WA : World NA) (p : Disp NR) (pA : Disp NA)
  (a : R -> Args NR) (aA : Args NA) kind (kw : mkwargs NR) (kwA : mkwargs NA) (n c : nat) (B : list nat) (d0 ds t0 : R)
  (cn : R -> tensor R) (cnA : tensor (adn M)) (q : R -> option (tensor R)) (qA : option (tensor (adn M))) (E : R -> tensor R) : Prop := mkSame {
  sc_tables : ext_tables X /\ ext_tables XA;
  sc_pos : 0 < d0 /\ 0 <= ds /\ 0 <= cut3 (a t0);
  sc_contracts : dist_contract d0 X /\ div_contract X /\ sqrt_contract ds X;
  sc_ext : ext_ad d0 ds X XA;
  sc_terms : Forall2 (term_ad X XA) (p_terms p) (p_terms pA);
  sc_kw : kw_ad kw kwA;
  sc_args : call_ad t0 a aA n c B;
  sc_near : exists dl, 0 < dl /\ forall t, Rabs (t - t0) < dl ->
     well_formed (N := NR) X W p (a t) kind kw n c B /\
     p_cn_fn p (p_cn_kw p) (a_numbers (a t)) (a_positions (a t)) = Ok (cn t) /\
     charges_are W p (a t) (q t) /\
     run (N := NR) X W p (a t) = Ok (E t);
  sc_wf : well_formed (N := NA) XA WA pA aA kind kwA n c B;
  sc_cn : p_cn_fn pA (p_cn_kw pA) (a_numbers aA) (a_positions aA) = Ok cnA;
  sc_q : charges_are WA pA aA qA }.

(** In molecule [b], coordination numbers and charges carry their derivatives along, and the
    energy is smooth. *)
Record smooth_mol (X : Ext (RS eps mx)) (p : Disp NR) (a : R -> Args NR) kind (kw : mkwargs NR) (n c : nat) (d0 ds t0 : R)
  (cn : R -> tensor R) (cnA : tensor (adn M)) (q : R -> option (tensor R)) (qA : option (tensor (adn M))) (b : list nat) : Prop := mkSmoothMol {
  sl_cn : trk_atoms t0 (a_numbers (a t0)) n b (fun t => sl1 (cn t) b) (sl1 cnA b);
  sl_q : trk_atoms t0 (a_numbers (a t0)) n b (fun t => opt_at (eps := eps) (mx := mx) (q t) b) (opt_atA qA b);
  sl_at : smooth_at X p kind kw (a t0) (sl1 (cn t0) b) (opt_at (eps := eps) (mx := mx) (q t0) b) d0 ds n c b }.
End B.
