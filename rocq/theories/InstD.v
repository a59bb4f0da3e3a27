(** * Concrete cases meeting the hypotheses of the theorems about weights, C6 and C9
    coefficients, polarizabilities and derivatives: the batch [two_mols] of two molecules of three
    atoms (one atom is padding), with D4 and D4S models *)
From Coq Require Import Reals Lra Lia List Arith ZArith QArith Qreals Bool String.
From Verif Require Import Py Tensor Scalar RInst ModelExt ModelUtils ModelDamping ModelModels ModelTerms
  SpecCall SpecR TensorLemmas Closed ClosedM ClosedModels CallLemmas Inst InstW PropsTables
  SpecW WeightsR WeightsP PropsWeights PropsD4S DerivR PropsDeriv.
Import ListNotations.
Open Scope R_scope.

Section E.
Context (eps mx : R).
Notation N := (RN eps mx).
Notation T := (tensor (sc N)).
Notation X := (Xex eps mx : Ext (sc (RN eps mx))).

(** the first molecule of [two_mols] alone *)
Definition one_mol : tensor Z := mkT [3%nat] (fun ix => nth (hd 0%nat ix) [8; 1; 1]%Z 0%Z).

Lemma ex_constructed kind (kw : mkwargs N) numbers n B : (kind = D4M \/ kind = D4SM) -> shp numbers = n :: B ->
  kw_ok kind kw n B -> kw_ref kw = "eeq"%string -> (forall ix, valid (n :: B) ix -> (0 <= dat numbers ix <= 103)%Z) ->
  exists m, constructed X kind kw numbers n B m.
Proof.
  intros Hk Hs Hkw Hr Hn.
  assert (He : elements_ok (kw_ref kw) numbers) by (left; rewrite Hs; auto).
  destruct (new_model_ok (N := N) X kind (class_name kind) numbers kw n B (Xex_tables eps mx) Hk Hs Hkw He) as (m & E & _).
  exists m. repeat (split; [first [assumption|apply Xex_tables]|]). now exists (class_name kind).
Qed.

Lemma one_mol_range ix : valid [3%nat] ix -> (0 <= dat one_mol ix <= 103)%Z.
Proof. destruct ix as [|i [|x ix]]; simpl; try tauto. intros (Hi & _). destruct i as [|[|[|i]]]; simpl; lia. Qed.

Definition cn3 : T := mkT [3%nat; 2%nat] (fun ix => INR (hd 0%nat ix)).
Definition q3 : T := mkT [3%nat; 2%nat] (fun ix => INR (hd 0%nat ix) / 10).
Definition kw0 : mkwargs N := mkKw (N := N) (Some 0) None None None None.

Lemma two_con kind (kw : mkwargs N) : (kind = D4M \/ kind = D4SM) -> kw_ok kind kw 3 [2%nat] -> kw_ref kw = "eeq"%string ->
  exists m, constructed X kind kw two_mols 3 [2%nat] m.
Proof. intros. apply ex_constructed; auto using two_mols_range. Qed.
Lemma one_con kind (kw : mkwargs N) : (kind = D4M \/ kind = D4SM) -> kw_ok kind kw 3 [] -> kw_ref kw = "eeq"%string ->
  exists m, constructed X kind kw one_mol 3 [] m.
Proof. intros. apply ex_constructed; auto using one_mol_range. Qed.
Lemma nokw_ok kind n B : kw_ok (N := N) kind no_kw n B. Proof. split; [reflexivity|exact I]. Qed.
Lemma aw3 : atomwise (Some cn3) (Some q3) 3 [2%nat]. Proof. split; reflexivity. Qed.

(** C26, C31, C35: both models, with and without charge scaling; atom 0 of molecule 1 is carbon,
    atom 2 is padding *)
Example C26_example kind (kw : mkwargs N) : (kind = D4M \/ kind = D4SM) -> (kw = no_kw \/ kw = kw0) -> 1 <= mx ->
  exists m gw c6, constructed X kind kw two_mols 3 [2%nat] m /\ atomwise (Some cn3) (Some q3) 3 [2%nat] /\
    weight_references X m (Some cn3) (Some q3) = Ok gw /\ get_atomic_c6 m gw = Ok c6 /\
    an_atom 3 [2%nat] [1%nat] 2 /\ sl1 two_mols [1%nat] 2 = 0%Z /\
    a_real_atom two_mols 3 [2%nat] [1%nat] 0 /\ kw_ga kw0 = 0.
Proof.
  intros Hk Hkw Hm. destruct (two_con kind kw) as (m & HC); auto.
  { destruct Hkw as [-> | ->]; split; simpl; auto. }
  { now destruct Hkw as [-> | ->]. }
  destruct (weights_run X kind kw two_mols 3 [2%nat] m _ _ HC aw3 Hm) as (gw & E & Hs & _).
  destruct (c6_run X kind kw two_mols 3 [2%nat] m gw HC Hs) as (c6 & Ec & _).
  exists m, gw, c6. split; [exact HC|]. split; [exact aw3|]. split; [exact E|]. split; [exact Ec|].
  split; [split; [simpl; lia|lia]|]. split; [reflexivity|].
  split; [split; [split; [simpl; lia|lia]|reflexivity]|reflexivity].
Qed.

(** C28: oxygen atom of molecule 0, default weighting factor 6, all other hypotheses *)
Example C28_example : 2000 <= mx ->
  exists m gw D rest W, constructed X D4M no_kw two_mols 3 [2%nat] m /\ atomwise (Some cn3) (Some q3) 3 [2%nat] /\
    div_contract X /\ an_atom 3 [2%nat] [0%nat] 1 /\
    12 * Rabs (kw_wf (eps := eps) (mx := mx) D4M no_kw two_mols [0%nat] 1 1) * (Rabs (sl1 cn3 [0%nat] 1) + 20) <= mx /\
    weight_references_gen X m (Some cn3) (Some q3) true true = Ok (gw :: D :: rest) /\
    (forall x, weight_references X m (Some (set_at cn3 [0%nat] 1 x)) (Some q3) = Ok (W x)).
Proof.
  intros Hm. destruct (two_con D4M no_kw) as (m & HC); auto using nokw_ok.
  assert (M1 : 1 <= mx) by lra.
  destruct (dcn_run X no_kw two_mols 3 [2%nat] m cn3 (Some q3) true HC aw3 M1 (Xex_div eps mx)) as (gw & D & rest & E & _).
  exists m, gw, D, rest, (fun x => match weight_references X m (Some (set_at cn3 [0%nat] 1 x)) (Some q3) with Ok g => g | Raise _ => gw end).
  split; [exact HC|]. split; [exact aw3|]. split; [apply Xex_div|]. split; [split; [simpl; lia|lia]|]. split.
  { change (12 * Rabs 6 * (Rabs 1 + 20) <= mx). rewrite !Rabs_right by lra. lra. }
  split; [exact E|]. intros x.
  assert (A : atomwise (eps := eps) (mx := mx) (Some (set_at cn3 [0%nat] 1 x)) (Some q3) 3 [2%nat]) by (split; reflexivity).
  destruct (weights_run X _ _ _ _ _ _ _ _ HC A M1) as (g & Eg & _). now rewrite Eg.
Qed.

(** C29: the same atom, both models; its effective charge is 11/10 *)
Example C29_example kind : (kind = D4M \/ kind = D4SM) -> 1 <= mx -> eps < 1 ->
  exists m gw D W, constructed X kind no_kw two_mols 3 [2%nat] m /\ atomwise (Some cn3) (Some q3) 3 [2%nat] /\
    div_contract X /\ an_atom 3 [2%nat] [0%nat] 1 /\
    weight_references_gen X m (Some cn3) (Some q3) true false = Ok [gw; D] /\
    (forall x, weight_references X m (Some cn3) (Some (set_at q3 [0%nat] 1 x)) = Ok (W x)) /\
    let qeff := sl1 q3 [0%nat] 1 + dat (x_zeff X) [elem two_mols [0%nat] 1] in 0 < qeff /\ qeff <> eps.
Proof.
  intros Hk M1 He. destruct (two_con kind no_kw) as (m & HC); auto using nokw_ok.
  destruct (dq_run X kind no_kw two_mols 3 [2%nat] m (Some cn3) (Some q3) HC aw3 M1 (Xex_div eps mx)) as (gw & D & E & _).
  exists m, gw, D, (fun x => match weight_references X m (Some cn3) (Some (set_at q3 [0%nat] 1 x)) with Ok g => g | Raise _ => gw end).
  split; [exact HC|]. split; [exact aw3|]. split; [apply Xex_div|]. split; [split; [simpl; lia|lia]|].
  split; [exact E|]. split.
  - intros x.
    assert (A : atomwise (eps := eps) (mx := mx) (Some cn3) (Some (set_at q3 [0%nat] 1 x)) 3 [2%nat]) by (split; reflexivity).
    destruct (weights_run X _ _ _ _ _ _ _ _ HC A M1) as (g & Eg & _). now rewrite Eg.
  - change (0 < INR 1 / 10 + 1 /\ INR 1 / 10 + 1 <> eps). simpl INR. lra.
Qed.

Example C30_example :
  zeta_fun (1 / 100) 3 1 1 2 < zeta_fun (1 / 100) 3 1 1 1 /\
  zeta_fun (1 / 100) 3 1 1 (1 / 200) < zeta_fun (1 / 100) 3 1 1 1.
Proof.
  split.
  - apply C30_decreasing; lra.
  - apply C30_monotone_refuted; lra.
Qed.

(** C33: weighting factor 5 for all pairs *)
Example C33_example : let kw : mkwargs N := mkKw (N := N) None None (Some (scal (A := sc N) 5)) None None in
  let kws : mkwargs N := mkKw (N := N) None None (Some (mkT (A := sc N) [3; 3; 2]%nat (fun _ => 5))) None None in
  exists m ms, constructed X D4M kw two_mols 3 [2%nat] m /\ constructed X D4SM kws two_mols 3 [2%nat] ms /\
    same_but_wf kws kw /\ uniform D4M kw two_mols 3 [2%nat] 5 /\ uniform D4SM kws two_mols 3 [2%nat] 5.
Proof.
  intros kw kws. destruct (two_con D4M kw) as (m & HC); auto; [split; reflexivity|].
  destruct (two_con D4SM kws) as (ms & HCs); auto; [split; reflexivity|].
  exists m, ms. repeat (split; [assumption|]). split; [repeat split|]. split; intros b i j _ _ _; reflexivity.
Qed.

(** C34, C35: a single molecule; and the batch, for which the call fails *)
Example C34_example : exists m (gw p : T),
  constructed X D4SM no_kw one_mol 3 [] m /\ shp gw = [7; 3; 3]%nat /\
  (forall k l i r, (k < 3)%nat -> (l < 3)%nat -> (i < 3)%nat -> (r < 7)%nat -> sl3 gw [] k i r = sl3 gw [] l i r) /\
  get_weighted_pols X m gw = Ok p.
Proof.
  destruct (one_con D4SM no_kw) as (m & HC); auto using nokw_ok.
  set (gw := mkT [7; 3; 3]%nat (fun _ => 1) : T).
  destruct (C34_d4s_weighted_pols X no_kw one_mol 3 m gw HC eq_refl) as (p & E & _).
  exists m, gw, p. repeat split; auto; apply HC.
Qed.
Example C34_batched_example : 1 <= mx -> exists m gw,
  constructed X D4SM no_kw two_mols 3 [2%nat] m /\ weight_references X m (Some cn3) (Some q3) = Ok gw /\
  get_weighted_pols X m gw = Raise RuntimeError /\ model_polarizabilities X m gw = Raise RuntimeError.
Proof.
  intros M1. destruct (two_con D4SM no_kw) as (m & HC); auto using nokw_ok.
  destruct (weights_run X D4SM no_kw two_mols 3 [2%nat] m _ _ HC aw3 M1) as (gw & E & Hs & _).
  exists m, gw. split; [exact HC|]. split; [exact E|].
  split; [eapply C34_batched_raises|eapply C35_d4s_batched_raises]; eauto; discriminate.
Qed.

(** C36: the C6 matrix and the polarizabilities of the model *)
Example C36_example : 1 <= mx -> exists m gw c6 p c9 c9',
  constructed X D4M no_kw two_mols 3 [2%nat] m /\ weight_references X m (Some cn3) (Some q3) = Ok gw /\
  get_atomic_c6 m gw = Ok c6 /\ get_weighted_pols X m gw = Ok p /\
  c9_approx X c6 = Ok c9 /\ c9_exact p = Ok c9' /\ sqrt_contract 0 X.
Proof.
  intros M1. destruct (two_con D4M no_kw) as (m & HC); auto using nokw_ok.
  destruct (weights_run X D4M no_kw two_mols 3 [2%nat] m _ _ HC aw3 M1) as (gw & E & Hs & _).
  destruct (C31_c6_symmetric X D4M no_kw two_mols 3 [2%nat] m gw HC Hs) as (c6 & Ec & Hc & Hsym).
  destruct (pols_run X no_kw two_mols 3 [2%nat] m gw HC Hs) as (p & Ep & Hp & _).
  destruct (C36_c9_approx X 3 [2%nat] c6 Hc Hsym) as (c9 & E9 & _).
  destruct (C36_c9_exact 3 [2%nat] p Hp) as (c9' & E9' & _).
  exists m, gw, c6, p, c9, c9'. repeat (split; [assumption|]). apply Xex_sqrt.
Qed.
End E.
