(** * The results of [get_properties] (specification layer, real numbers) *)
From Coq Require Import Reals List Arith ZArith Bool String.
From Verif Require Import Py Tensor Scalar RInst ModelExt ModelUtils ModelDamping ModelModels
  ModelTerms ModelDisp SpecCall SpecR SpecW.
Import ListNotations.
Open Scope R_scope.

Section S.
Context {eps mx : R}.
Notation N := (RN eps mx).
Notation T := (tensor (sc N)).
Context (X : Ext (sc N)) (W : World N).

(** The molecules [numbers], [positions] of batch shape [B], [n] atoms each; [cn] are their
    coordination numbers and [q] the charges the charge model gives for the total charge
    [charge] (zero if omitted) and the cutoff of the call (25 if omitted). *)
Record properties_of (numbers : tensor Z) (positions : T) (charge : option T) (cutoff : option (Cutoff (sc N)))
  (n : nat) (B : list nat) (cn q : T) : Prop := mkPrp {
  pr_numbers : shp numbers = n :: B;
  pr_elements : forall b i, valid B b -> (i < n)%nat -> (0 <= sl1 numbers b i <= 103)%Z;
  pr_cn : w_cn_d4 W None numbers positions = Ok cn;
  pr_cn_shp : shp cn = n :: B;
  pr_q : w_eeq W numbers positions (match charge with Some c => c | None => scal 0 end)
     (match cutoff with Some c => c_cn_eeq c | None => scal 25 end) = Ok q;
  pr_q_shp : shp q = n :: B }.

(** weight of reference [r] of atom [i] of molecule [b] *)
Definition own_weight (numbers : tensor Z) (cn q : T) (b : list nat) (i r : nat) : R :=
  weight X no_kw 6 (elem numbers b i) r (sl1 cn b i) (sl1 q b i).
End S.
