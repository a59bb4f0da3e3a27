(** * Arguments of [dftd4] that have no effect; examples for C13, C15, C16, C19. *)
From Coq Require Import List Arith ZArith QArith Bool String Lia.
From Verif Require Import Py Tensor Scalar ModelExt ModelUtils ModelDamping ModelModels
  ModelTerms ModelDisp SpecCall TensorLemmas Closed ClosedM ClosedTerms ClosedModels ClosedDamp
  ClosedDisp CallLemmas Usable PropsSelect InstW SpecBits InstAny PropsCall.
Import ListNotations.
Open Scope nat_scope.
Open Scope string_scope.

(** two sets of cutoffs that agree on the distances of the energy terms *)
Definition same_energy_cutoffs {K} (c1 c2 : Cutoff K) : Prop :=
  c_disp2 c1 = c_disp2 c2 /\ c_disp3 c1 = c_disp3 c2.

Section C.
Context {N : Num} (X : Ext (sc N)).
Notation K := (sc N).

(** *** C13, C16 for [dftd4]: with explicit charges [q], neither the total charge, nor the charge
    model (any two worlds [W1], [W2]), nor [cutoff.cn], [cutoff.cn_eeq], nor the values of [rcov]
    matter: the two calls return the same energies or raise the same exception. *)
Theorem C13_dftd4 :
  forall (W1 W2 : World N) numbers positions charge1 charge2 param model rc1 rc2 r4r2 rvdw q
         (co1 co2 : Cutoff K) cn_function counting damping,
  same_energy_cutoffs co1 co2 ->
  match rc1, rc2 with Some a, Some b => shp a = shp b | None, None => True | _, _ => False end ->
  dftd4 X W1 numbers positions charge1 param model rc1 r4r2 rvdw (Some q) (Some co1) cn_function counting damping
  = dftd4 X W2 numbers positions charge2 param model rc2 r4r2 rvdw (Some q) (Some co2) cn_function counting damping.
Proof.
  intros W1 W2 numbers positions charge1 charge2 param model rc1 rc2 r4r2 rvdw q co1 co2 cnf cf d (H2 & H3) HR.
  unfold dftd4.
  assert (E : forall W, new_disp W [] model no_kw (Some cnf) (Some cf)
            = match model with
              | MKey s => if str_in (casefold s) ["d3"; "d4"; "d4s"; "d5"]
                          then Ok (mkDisp [] cnf (Some cf) (casefold s) None no_kw) else Raise ValueError
              | MInst m => Ok (mkDisp [] cnf (Some cf) "instance" (Some m) no_kw)
              end).
  { intros W. unfold new_disp. destruct model; [|reflexivity]. destruct (str_in _ _); reflexivity. }
  rewrite !E. set (r := match model with MKey s => _ | MInst m => _ end). destruct r as [p|]; [|reflexivity].
  cbn [bind]. unfold calculate. cbn [default].
  replace (match rc2 with None => Ok tt | Some rc => check_shape (shp numbers) (shp rc) end)
    with (match rc1 with None => Ok tt | Some rc => check_shape (shp numbers) (shp rc) end)
    by (destruct rc1, rc2; try contradiction; try reflexivity; now rewrite HR).
  assert (T : forall cn m r4 rv t,
     term_calculate X t numbers positions param cn m (Some q) r4 rv co1
     = term_calculate X t numbers positions param cn m (Some q) r4 rv co2 :> res (tensor K)).
  { intros cn m r4 rv t. unfold term_calculate. rewrite H2, H3. reflexivity. }
  assert (TS : forall cn m r4 rv ts e,
     sum_terms e ts (fun t => term_calculate X t numbers positions param cn m (Some q) r4 rv co1)
     = sum_terms e ts (fun t => term_calculate X t numbers positions param cn m (Some q) r4 rv co2)).
  { intros cn m r4 rv ts. induction ts as [|t ts IH]; intros e; [reflexivity|].
    cbn [sum_terms]. rewrite T. destruct (tadd _ _); [|reflexivity]. cbn [bind]. apply IH. }
  destruct (check_shape _ _) as [[]|]; [|reflexivity]. cbn [bind].
  destruct (get_model X _ numbers) as [m|]; [|reflexivity]. cbn [bind].
  destruct (match rc1 with Some _ => _ | None => _ end) as [[]|]; [|reflexivity]. cbn [bind].
  destruct (match r4r2 with Some _ => _ | None => _ end) as [r4|]; [|reflexivity]. cbn [bind].
  destruct (check_shape _ _) as [[]|]; [|reflexivity]. cbn [bind].
  destruct (match rvdw with Some _ => _ | None => _ end) as [rv|]; [|reflexivity]. cbn [bind].
  destruct (check_shape _ _) as [[]|]; [|reflexivity]. cbn [bind].
  destruct (p_cn_fn _ _ _ _) as [cn|]; [|reflexivity]. cbn [bind].
  destruct (raise_if _ _) as [[]|]; [|reflexivity]. cbn [bind].
  destruct (check_shape _ _) as [[]|]; [|reflexivity]. cbn [bind].
  apply TS.
Qed.
End C.
Print Assumptions C13_dftd4.

(** ** Examples: water and padded carbon monoxide, in any arithmetic *)
Section Ex.
Context {N : Num} (X : Ext (sc N)).
Notation K := (sc N).
Hypothesis HX : ext_tables X.

Lemma gmols_wf pad : well_formed X (Wany X) (Pany X "d4") (gmols pad) D4M no_kw 3 3 [2].
Proof. apply gcall_wf; auto using two_mols_range. Qed.

(** the same call with explicit charges *)
Definition qmols (pad : K) : Args N := set_q (gmols pad) (Some (mkT [3; 2] (fun _ => flit (1 # 10)))).
Lemma qmols_wf pad : well_formed X (Wany X) (Pany X "d4") (qmols pad) D4M no_kw 3 3 [2].
Proof.
  destruct (gmols_wf pad). constructor; auto.
  intros _. eexists. split; [left; reflexivity|reflexivity].
Qed.

(** C13: [dftd4] with explicit charges returns energies, the same ones for every total charge and
    every charge model *)
Example C13_example pad charge (W' : World N) :
  exists e, shp e = [3; 2] /\
    forall charge' (W'' : World N), charge' = scal (flit 0) /\ W'' = Wany X \/ charge' = charge /\ W'' = W' ->
    dftd4 X W'' two_mols (gline 3 [2] pad) charge' gparam (MKey "d4") None None None
      (Some (mkT [3; 2] (fun _ => flit (1 # 10)))) (Some default_cutoff) (cn_any X) (fun x _ => x) RationalDamping = Ok e.
Proof.
  assert (WF : well_formed X (Wany X) (mkDisp (terms_d4 X) (cn_any X) (Some (fun x _ => x)) "d4" None no_kw)
    (mkCall two_mols (gline 3 [2] pad) (scal (flit 0)) gparam (Some default_cutoff)
       (Some (mkT [3; 2] (fun _ => flit (1 # 10)))) None None None) D4M no_kw 3 3 [2]).
  { destruct (qmols_wf pad). constructor; auto. }
  destruct (C15_well_formed_call_returns X (Wany X) _ _ D4M no_kw 3 3 [2] HX WF) as (e & E & S).
  exists e. split; [exact S|].
  assert (E0 : dftd4 X (Wany X) two_mols (gline 3 [2] pad) (scal (flit 0)) gparam (MKey "d4") None None None
      (Some (mkT [3; 2] (fun _ => flit (1 # 10)))) (Some default_cutoff) (cn_any X) (fun x _ => x) RationalDamping = Ok e)
    by exact E.
  intros charge' W'' [(-> & ->)|(-> & ->)]; [exact E0|].
  rewrite <- E0. apply C13_dftd4; [split; reflexivity|exact I].
Qed.

Example C15_example pad :
  (exists e, run X (Wany X) (Pany X "d4") (qmols pad) = Ok e /\ shp e = [3; 2]) /\
  run X (Wany X) (Pany X "d4") (PropsCall.set_positions (qmols pad) (gline 2 [2] pad)) = Raise ValueError /\
  run X (Wany X) (Pany X "d4") (set_q (gmols pad) (Some (mkT [2; 2] (fun _ => flit 0)))) = Raise ValueError /\
  run X (Wany X) (with_terms (Pany X "d4") [mkTerm D4ATMApprox (ZeroDamping X) false])
    (set_q (gmols pad) (Some (mkT [3; 2] (fun _ => flit 0)))) = Raise RuntimeError.
Proof.
  split; [exact (C15_well_formed_call_returns X (Wany X) _ _ D4M no_kw 3 3 [2] HX (qmols_wf pad))|].
  destruct (C15_wrong_shapes_raise X (Wany X) _ _ D4M no_kw 3 3 [2] HX (qmols_wf pad)) as (H & _).
  split; [apply H; discriminate|].
  destruct (C15_wrong_shapes_raise X (Wany X) _ _ D4M no_kw 3 3 [2] HX (gmols_wf pad)) as (_ & _ & _ & _ & Hq & _).
  split; [apply Hq; [eexists; split; [left; reflexivity|reflexivity]|discriminate]|].
  assert (WF : well_formed X (Wany X) (with_terms (Pany X "d4") [mkTerm D4ATMApprox (ZeroDamping X) false])
     (gmols pad) D4M no_kw 3 3 [2]).
  { destruct (gmols_wf pad). constructor; auto.
    - intros E. now elim E.
    - intros t [<-|[]]. apply usable_atm; discriminate.
    - intros _ (t & [<-|[]] & E). discriminate E. }
  destruct (C15_wrong_shapes_raise X (Wany X) _ _ D4M no_kw 3 3 [2] HX WF) as (_ & _ & _ & _ & _ & Hr).
  apply Hr. intros (t & [<-|[]] & E). discriminate E.
Qed.

Example C16_example pad :
  exists e, shp e = [3; 2] /\ forall rc : tensor K, shp rc = [3; 2] ->
    run X (Wany X) (Pany X "d4") (set_rcov (gmols pad) (Some rc)) = Ok e.
Proof.
  destruct (C15_well_formed_call_returns X (Wany X) _ _ D4M no_kw 3 3 [2] HX (gmols_wf pad)) as (e & E & S).
  exists e. split; [exact S|]. intros rc H. rewrite <- E. apply C16_rcov_optional. exact H.
Qed.

Example C19_example (W : World N) :
  (exists p, new_disp W (terms_d4 X) (MKey "D4S") no_kw None None = Ok p /\ p_cn_fn p = w_cn_d4 W) /\
  (exists p, new_disp W (terms_d4 X) (MKey "d5") no_kw None None = Ok p /\ p_cn_fn p = w_cn_d3 W) /\
  new_disp W (terms_d4 X) (MKey "d6") no_kw None None = Raise ValueError.
Proof. split; [|split]; [eexists; split; reflexivity..|reflexivity]. Qed.
End Ex.
