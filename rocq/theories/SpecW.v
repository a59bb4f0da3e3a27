(** * Reference weights: textbook formulas (specification layer, real numbers) *)
From Coq Require Import Reals List Arith ZArith QArith Qreals Bool String.
From Verif Require Import Py Tensor Scalar RInst ModelExt ModelUtils ModelModels SpecCall SpecR PropsTables.
Import ListNotations.
Open Scope R_scope.

(** Gaussian weight of reference [r] of element [z] before normalisation: a sum of
    [n_gauss z r] Gaussians of widths [wf], [2 wf], ... around its coordination number; zero for
    an absent reference *)
Definition gauss (wf cn : R) (z r : nat) : R :=
  rsum (Z.to_nat (n_gauss z r)) (fun k => exp (- (INR (S k) * wf * (cn - cn_ref z r) ^ 2))).
(** normalised (for a real element) *)
Definition gauss_weight (wf cn : R) (z r : nat) : R := gauss wf cn z r / rsum 7 (gauss wf cn z).

(** charge scaling; [eps] is the machine epsilon used as a regulariser *)
Definition zeta_fun (eps ga gam qref qmod : R) : R :=
  if Rlt_dec 0 qmod then exp (ga * (1 - exp (gam * (1 - qref / (qmod - eps))))) else exp ga.

Section S.
Context {eps mx : R}.
Notation N := (RN eps mx).
Notation T := (tensor (sc N)).
Context (X : Ext (sc N)).

(** charge of reference [r] of element [z] in the chosen charge model *)
Definition q_ref (ref : string) (z r : nat) : R :=
  if (ref =? "eeq")%string then dat (@eeq_clsq (RS 0 0)) [r; z] else dat (@gfn2_refq (RS 0 0)) [r; z].

(** values of the model parameters given to the constructor *)
Definition kw_ga (kw : mkwargs N) : R := default (k_ga kw) 3.
Definition kw_gc (kw : mkwargs N) : R := default (k_gc kw) 2.
Definition kw_ref (kw : mkwargs N) : string := default (k_ref kw) "eeq"%string.

(** weighting factor used for atom [i] in the presence of atom [j] *)
Definition kw_wf (kind : mkind) (kw : mkwargs N) (numbers : tensor Z) (b : list nat) (i j : nat) : R :=
  match k_wf kw, kind with
  | Some w, D4M => dat w []
  | Some w, _ => sl2 w b i j
  | None, D4M => 6
  | None, _ => wf_pair (Z.to_nat (sl1 numbers b i)) (Z.to_nat (sl1 numbers b j))
  end.

(** an optional per-atom argument, zero if omitted *)
Definition opt_at (o : option T) (b : list nat) (i : nat) : R :=
  match o with Some t => sl1 t b i | None => 0 end.

(** charge scaling factor of reference [r] of an atom of element [z] with charge [q] *)
Definition charge_factor (kw : mkwargs N) (z r : nat) (q : R) : R :=
  zeta_fun eps (kw_ga kw) (dat (x_gam X) [z] * kw_gc kw)
    (q_ref (kw_ref kw) z r + dat (x_zeff X) [z]) (q + dat (x_zeff X) [z]).

(** the weight: zero for an absent reference (so for all references of a padding atom) *)
Definition weight (kw : mkwargs N) (wf : R) (z r : nat) (cn q : R) : R :=
  if (0 <? n_gauss z r)%Z then charge_factor kw z r q * gauss_weight wf cn z r else 0.

End S.

Section B.
Context {eps mx : R}.
Notation N := (RN eps mx).
Notation T := (tensor (sc N)).
Context (X : Ext (sc N)).

(** [m] is the result of constructing a D4 or D4S model for the molecules [numbers], of batch
    shape [B] and [n] atoms each, with the keyword arguments [kw] *)
Definition constructed (kind : mkind) (kw : mkwargs N) (numbers : tensor Z) (n : nat) (B : list nat)
  (m : Model N) : Prop :=
  ext_tables X /\ (kind = D4M \/ kind = D4SM) /\ shp numbers = n :: B /\ kw_ok kind kw n B /\
  elements_ok (kw_ref kw) numbers /\ exists cls, new_model X kind cls numbers kw = Ok m.

(** the per-atom arguments [cn] and [q], each possibly omitted *)
Definition atomwise (cn q : option T) (n : nat) (B : list nat) : Prop :=
  opt_shape cn (n :: B) /\ opt_shape q (n :: B).

(** atom [i] of molecule [b] exists in the batch, and is not padding *)
Definition an_atom (n : nat) (B : list nat) (b : list nat) (i : nat) : Prop := valid B b /\ (i < n)%nat.
Definition a_real_atom (numbers : tensor Z) (n : nat) (B : list nat) (b : list nat) (i : nat) : Prop :=
  an_atom n B b i /\ (0 < sl1 numbers b i)%Z.

(** the entry of the weights tensor for reference [r] of atom [i] in the presence of atom [j];
    with D4 there is no dependence on [j] *)
Definition wt (kind : mkind) (gw : T) (b : list nat) (i j r : nat) : R :=
  match kind with D4M => sl2 gw b i r | _ => sl3 gw b j i r end.
Definition wt_shape (kind : mkind) (n : nat) (B : list nat) : list nat :=
  match kind with D4M => 7%nat :: n :: B | _ => 7%nat :: n :: n :: B end.
End B.

(** ** Polarizabilities and C6 coefficients *)
Section P.
Context {eps mx : R}.
Notation N := (RN eps mx).
Notation T := (tensor (sc N)).
Context (X : Ext (sc N)).

(** charge on the secondary system (hydrogen, carbon, ...) of reference [r] of element [z] *)
Definition h_ref (ref : string) (z r : nat) : R :=
  if (ref =? "eeq")%string then dat (@eeq_clsh (RS 0 0)) [r; z] else dat (@gfn2_refh (RS 0 0)) [r; z].

(** contribution of the secondary system at frequency [w] *)
Definition secondary (kw : mkwargs N) (z r w : nat) : R :=
  let s := Z.to_nat (sys_ref z r) in
  if (0 <? sys_ref z r)%Z then
    dat (@refscount (RS 0 0)) [r; z] * dat (@secscale (RS 0 0)) [0%nat; s] * dat (@secalpha (RS 0 0)) [w; s] *
    zeta_fun eps (kw_ga kw) (dat (x_gam X) [s] * kw_gc kw) (dat (x_zeff X) [s])
      (h_ref (kw_ref kw) z r + dat (x_zeff X) [s])
  else 0.

(** polarizability of reference [r] of element [z] at frequency [w]: that of the reference
    molecule without the secondary systems, cut off at zero *)
Definition pol_ref (kw : mkwargs N) (z r w : nat) : R :=
  Rmax 0 (dat (@refascale (RS 0 0)) [r; z] * (alpha_ref z r w - secondary kw z r w)).

(** Casimir-Polder quadrature: weights of the 23 frequencies, and [3/pi] as written in the code *)
Definition quad_weight (w : nat) : R := dat (@trapzd_weights (RS 0 0)) [w].
Definition three_over_pi : R := 3 / Q2R pi_lit.
Definition casimir (f g : nat -> R) : R := three_over_pi * rsum 23 (fun w => quad_weight w * f w * g w).

(** C6 coefficient of atoms of elements [z1], [z2] with weights [w1], [w2] *)
Definition c6_pair (kw : mkwargs N) (z1 z2 : nat) (w1 w2 : nat -> R) : R :=
  rsum 7 (fun r => rsum 7 (fun s => w1 r * w2 s * casimir (pol_ref kw z1 r) (pol_ref kw z2 s))).

(** polarizability of an atom of element [z] with weights [w1] *)
Definition pol_atom (kw : mkwargs N) (z : nat) (w1 : nat -> R) (w : nat) : R :=
  rsum 7 (fun r => w1 r * pol_ref kw z r w).

Definition elem (numbers : tensor Z) (b : list nat) (i : nat) : nat := Z.to_nat (sl1 numbers b i).
End P.

(** the per-atom tensor [t] with the value of atom [i] of molecule [b] replaced by [x] *)
Definition set_at {eps mx : R} (t : tensor (RS eps mx)) (b : list nat) (i : nat) (x : R) : tensor (RS eps mx) :=
  mkT (shp t) (fun ix => if list_eq_dec Nat.eq_dec ix (i :: b) then x else dat t ix).
