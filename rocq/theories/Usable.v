(** * The shipped damping functions and term lists are usable (proof layer). *)
From Coq Require Import List Arith ZArith QArith Bool String Lia.
From Verif Require Import Py Tensor Scalar ModelExt ModelUtils ModelDamping ModelModels
  ModelTerms ModelDisp SpecCall TensorLemmas Closed ClosedTerms ClosedDamp.
Import ListNotations.
Open Scope nat_scope.
Open Scope string_scope.

Section U.
Context {N : Num} (X : Ext (sc N)).
Notation K := (sc N).

Definition zf : K -> K -> K := fun _ _ => flit 0.

Lemma usable_rational (param : Param K) kind cd :
  good_param param -> getp param "a1" <> None -> getp param "a2" <> None ->
  usable param kind (mkTerm TwoBodyTerm RationalDamping cd).
Proof.
  intros G H1 H2. destruct (getp param "a1") as [a1|] eqn:E1; [|congruence].
  destruct (getp param "a2") as [a2|] eqn:E2; [|congruence].
  exists (mkTf _ (rat_g a1 a2 6) (if active param 8 then rat_g a1 a2 8 else zf) (rat_g a1 a2 10) zf).
  cbn [term_ok t_class t_damping f6 f8 f10 f9]. split; [left; reflexivity|].
  split; [|split].
  - apply rational_elementwise; auto.
  - destruct (active param 8) eqn:A; [apply rational_elementwise|apply inactive_elementwise]; auto.
  - intros S. apply rational_elementwise; auto. unfold active, has.
    destruct (getp param "s10"); congruence.
Qed.

Lemma usable_zero (param : Param K) kind cd :
  good_param param -> getp param "rs6" <> None ->
  (getp param "s8" <> None -> getp param "rs8" <> None) -> getp param "s10" = None ->
  usable param kind (mkTerm TwoBodyTerm (ZeroDamping X) cd).
Proof.
  intros G H1 H2 H3. destruct (getp param "rs6") as [rs6|] eqn:E1; [|congruence].
  assert (E8 : exists g8, elementwise (ZeroDamping X) param 8 false g8).
  { destruct (getp param "rs8") as [rs8|] eqn:E8.
    - eexists. apply (zero8_elementwise X param false rs8); auto.
    - eexists. apply inactive_elementwise; auto. unfold active, has. rewrite E8.
      destruct (getp param "s8"); auto. exfalso. apply H2; congruence. }
  destruct E8 as (g8 & E8).
  exists (mkTf _ (zero_g X rs6 (getd param "alp" dALP) 6 false) g8 zf zf).
  cbn [term_ok t_class t_damping f6 f8 f10 f9]. split; [right; reflexivity|].
  split; [|split; [exact E8|congruence]]. now apply zero6_elementwise.
Qed.

Lemma usable_mzero (param : Param K) kind cd :
  good_param param -> getp param "rs6" <> None -> getp param "bet" <> None ->
  (getp param "s8" <> None -> getp param "rs8" <> None) -> getp param "s10" = None ->
  usable param kind (mkTerm TwoBodyTerm (MZeroDamping X) cd).
Proof.
  intros G H1 Hb H2 H3. destruct (getp param "rs6") as [rs6|] eqn:E1; [|congruence].
  destruct (getp param "bet") as [bet|] eqn:Eb; [|congruence].
  assert (E8 : exists g8, elementwise (MZeroDamping X) param 8 false g8).
  { destruct (getp param "rs8") as [rs8|] eqn:E8.
    - eexists. apply (mzero8_elementwise X param false rs8 bet); auto.
    - eexists. apply inactive_elementwise; auto. unfold active, has. rewrite E8.
      destruct (getp param "s8"); auto. exfalso. apply H2; congruence. }
  destruct E8 as (g8 & E8).
  exists (mkTf _ (mzero_g X rs6 (getd param "alp" dALP) bet 6) g8 zf zf).
  cbn [term_ok t_class t_damping f6 f8 f10 f9]. split; [right; reflexivity|].
  split; [|split; [exact E8|congruence]]. now apply mzero6_elementwise.
Qed.

Lemma usable_op (param : Param K) kind cd :
  good_param param -> getp param "a1" <> None -> getp param "a2" <> None ->
  getp param "bet" <> None -> getp param "s10" = None ->
  usable param kind (mkTerm TwoBodyTerm OptimisedPowerDamping cd).
Proof.
  intros G H1 H2 H3 H10. destruct (getp param "a1") as [a1|] eqn:E1; [|congruence].
  destruct (getp param "a2") as [a2|] eqn:E2; [|congruence].
  destruct (getp param "bet") as [bet|] eqn:E3; [|congruence].
  exists (mkTf _ (op_g a1 a2 bet 6) (if active param 8 then op_g a1 a2 bet 8 else zf) zf zf).
  cbn [term_ok t_class t_damping f6 f8 f10 f9]. split; [left; reflexivity|].
  split; [|split; [|congruence]].
  - apply op_elementwise; auto.
  - destruct (active param 8) eqn:A; [apply op_elementwise|apply inactive_elementwise]; auto.
Qed.

Lemma usable_atm (param : Param K) kind cls cd :
  cls <> TwoBodyTerm -> (cls = D4ATMExact -> kind = D4M) ->
  usable param kind (mkTerm cls (ZeroDamping X) cd).
Proof.
  intros H1 H2.
  exists (mkTf _ zf zf zf (zero_fac X (flit 1) (fdiv (getd param "alp" dALP) (flit 3)))).
  unfold term_ok. cbn [t_class t_damping f9].
  assert (P : forall u : tensor K, shp u = [] -> dat u [] = fdiv (getd param "alp" dALP) (flit 3) ->
     elementwise (ZeroDamping X) [("alp", PT u)] 9 true
       (zero_fac X (flit 1) (fdiv (getd param "alp" dALP) (flit 3)))).
  { intros u Su Du. now apply atm_elementwise. }
  destruct cls; try congruence; split; auto; intros; congruence.
Qed.

End U.
