(** * Concrete coordination number and charge models over the reals, and concrete calls:
    used by the examples that show the hypotheses of the theorems can be met. *)
From Coq Require Import Reals Lra Lia List Arith ZArith QArith Qreals Bool String.
From Verif Require Import Py Tensor Scalar RInst ModelExt ModelUtils ModelDamping ModelModels
  ModelTerms ModelDisp SpecCall SpecR SpecMol TensorLemmas Closed EnergyR Energy3R Sums Inst Usable.
Import ListNotations.
Open Scope R_scope.

(** coordination number: sum over the other real atoms of 1/(1+r^2) *)
Definition cn_ex {eps mx} : CNFunc (RN eps mx) :=
  fun _ numbers positions =>
    match shp positions with
    | c :: n :: B => if shape_eqb (shp numbers) (n :: B) then
        Ok (mkT (n :: B) (fun ix => match ix with
          | i :: b => rsum n (fun j => if real_pair (sl1 numbers b) i j
                        then / (1 + sqd c (sl2 positions b i) (sl2 positions b j)) else 0)
          | [] => 0 end))
        else Raise RuntimeError
    | _ => Raise RuntimeError
    end.

(** charges: the total charge plus 1/(1+CN) *)
Definition eeq_ex {eps mx} (numbers : tensor Z) (positions charge cutoff : tensor (sc (RN eps mx)))
  : res (tensor (sc (RN eps mx))) :=
  rmap (fun cn : tensor (sc (RN eps mx)) => mkT (A := sc (RN eps mx)) (shp cn) (fun ix => match ix with
          | i :: b => mol_charge charge b + / (1 + dat cn (i :: b))
          | [] => 0 end)) (cn_ex None numbers positions).

Definition Wex (eps mx : R) : World (RN eps mx) :=
  mkWorld cn_ex cn_ex (fun x _ => x) eeq_ex.

Lemma cn_ex_ok {eps mx} kw numbers (positions : tensor (sc (RN eps mx))) c n B :
  shp numbers = n :: B -> shp positions = (c :: n :: B)%nat ->
  exists t, cn_ex kw numbers positions = Ok t /\ shp t = n :: B.
Proof.
  intros H1 H2. unfold cn_ex. rewrite H1, H2, shape_eqb_refl. eexists. split; [reflexivity|reflexivity].
Qed.

Lemma cn_ex_val {eps mx} kw numbers (positions : tensor (sc (RN eps mx))) c n B t b i :
  shp numbers = n :: B -> shp positions = (c :: n :: B)%nat -> cn_ex kw numbers positions = Ok t ->
  sl1 t b i = rsum n (fun j => if real_pair (sl1 numbers b) i j
                        then / (1 + sqd c (sl2 positions b i) (sl2 positions b j)) else 0).
Proof.
  intros H1 H2. unfold cn_ex. rewrite H1, H2, shape_eqb_refl. intros E. injection E as <-. reflexivity.
Qed.

Lemma cn_ex_contract {eps mx} kw : cn_contract (@cn_ex eps mx kw).
Proof.
  intros c n1 n2 B1 B2 z1 x1 b1 z2 x2 b2 s t1 t2 S1 P1 V1 S2 P2 V2 ([EN EI ED] & ON) E1 E2 i Hi Ri.
  rewrite (cn_ex_val _ _ _ _ _ _ _ _ _ S1 P1 E1), (cn_ex_val _ _ _ _ _ _ _ _ _ S2 P2 E2).
  assert (RA : forall numbers b i j, real_pair (sl1 numbers b) i j = true <->
     i <> j /\ real_atom numbers b i /\ real_atom numbers b j).
  { intros. unfold real_pair, real_atom. rewrite !andb_true_iff, !negb_true_iff, Nat.eqb_neq, !Z.eqb_neq. tauto. }
  apply (rsum_bij n1 n2 (real_pair (sl1 z1 b1) i) (real_pair (sl1 z2 b2) (s i)) s).
  - intros j Hj R. apply RA in R as (_ & _ & Rj). now apply EN.
  - intros j k Hj Hk R R' Es. apply RA in R as (_ & _ & Rj). apply RA in R' as (_ & _ & Rk).
    apply EI; auto.
  - intros k Hk R. apply RA in R as (Nk & _ & Rk). destruct (ON k Hk Rk) as (j & Hj & Rj & E).
    exists j. repeat split; auto. apply RA. repeat split; auto. congruence.
  - intros j Hj R. rewrite R. apply RA in R as (Nij & _ & Rj).
    replace (real_pair (sl1 z2 b2) (s i) (s j)) with true; [rewrite ED; auto|].
    symmetry. apply RA. destruct (EN j Hj Rj) as [L E]. repeat split.
    + intros Es. apply Nij. apply EI; auto.
    + unfold real_atom. rewrite (proj2 (EN i Hi Ri)). exact Ri.
    + unfold real_atom. rewrite E. exact Rj.
  - intros j Hj R. now rewrite R.
  - intros j Hj R. now rewrite R.
Qed.

Lemma eeq_ex_contract {eps mx} : eeq_contract (Wex eps mx).
Proof.
  intros c n1 n2 B1 B2 z1 x1 b1 z2 x2 b2 s q1 q2 co t1 t2 S1 P1 V1 S2 P2 V2 SM Q E1 E2 i Hi Ri.
  simpl in E1, E2. unfold eeq_ex in E1, E2.
  destruct (cn_ex_ok None z1 x1 c n1 B1 S1 P1) as (c1 & C1 & SC1).
  destruct (cn_ex_ok None z2 x2 c n2 B2 S2 P2) as (c2 & C2 & SC2).
  rewrite C1 in E1. rewrite C2 in E2. simpl in E1, E2. injection E1 as <-. injection E2 as <-.
  unfold sl1 at 1 2. cbn [dat]. rewrite Q. f_equal. f_equal. f_equal.
  exact (cn_ex_contract None c n1 n2 B1 B2 z1 x1 b1 z2 x2 b2 s c1 c2 S1 P1 V1 S2 P2 V2 SM C1 C2 i Hi Ri).
Qed.

Lemma Xex_metric eps mx : dist_metric (eps := eps) (mx := mx) (Xex eps mx).
Proof. exists sqrt. reflexivity. Qed.

(** [DispD4] with the example models *)
Definition Pex (eps mx : R) : Disp (RN eps mx) :=
  mkDisp (terms_d4 (N := RN eps mx) (Xex eps mx)) cn_ex None "d4" None no_kw.
Definition PexS (eps mx : R) : Disp (RN eps mx) :=
  mkDisp (terms_d4 (N := RN eps mx) (Xex eps mx)) cn_ex None "d4s" None no_kw.

Lemma Pex_new eps mx : new_disp (Wex eps mx) (terms_d4 (N := RN eps mx) (Xex eps mx)) (MKey "d4") no_kw None None
  = Ok (Pex eps mx).
Proof. reflexivity. Qed.

(** a call for given atoms, everything else at its default *)
Definition call {eps mx} (numbers : tensor Z) (positions : tensor (sc (RN eps mx))) : Args (RN eps mx) :=
  mkCall numbers positions (scal (A := sc (RN eps mx)) 0) (pbe_like (eps := eps) (mx := mx)) None None None None None.

Lemma pbe_like_usable eps mx kind t : In t (terms_d4 (N := RN eps mx) (Xex eps mx)) ->
  usable (N := RN eps mx) (pbe_like (eps := eps) (mx := mx)) kind t.
Proof.
  intros [<-|[<-|[]]].
  - apply usable_rational; [apply pbe_like_good|discriminate|discriminate].
  - apply usable_atm; discriminate.
Qed.

Lemma call_wf eps mx numbers positions c n B :
  shp numbers = n :: B -> shp positions = (c :: n :: B)%nat ->
  (forall ix, valid (n :: B) ix -> (0 <= dat numbers ix <= 103)%Z) ->
  well_formed (N := RN eps mx) (Xex eps mx) (Wex eps mx) (Pex eps mx) (call numbers positions) D4M no_kw n c B /\
  well_formed (N := RN eps mx) (Xex eps mx) (Wex eps mx) (PexS eps mx) (call numbers positions) D4SM no_kw n c B.
Proof.
  intros S P Z.
  assert (E : elements_ok "eeq" numbers) by (left; rewrite S; auto).
  assert (Q : exists q, w_eeq (Wex eps mx) numbers positions (scal (A := sc (RN eps mx)) 0)
                (c_cn_eeq (K := sc (RN eps mx)) default_cutoff) = Ok q /\ shp q = n :: B).
  { simpl. unfold eeq_ex. destruct (cn_ex_ok None numbers positions c n B S P) as (cn & -> & Sc).
    simpl. eexists. split; [reflexivity|]. exact Sc. }
  split; constructor; cbn [call a_numbers a_positions a_q a_rcov a_r4r2 a_rvdw a_cutoff a_param
    a_charge opt_shape Pex PexS p_cn_fn p_cn_kw p_terms]; auto;
  try congruence; try reflexivity; try exact I.
  - left. repeat split; auto.
  - split; reflexivity.
  - apply pbe_like_good.
  - apply pbe_like_usable.
  - eapply cn_ex_ok; eauto.
  - left. repeat split; auto.
  - split; reflexivity.
  - apply pbe_like_good.
  - apply pbe_like_usable.
  - eapply cn_ex_ok; eauto.
Qed.

(** ** Concrete molecules *)
(** a batch of two molecules of three atoms: water-like (8,1,1), and carbon monoxide with a
    padding atom (6,8,0) *)
Definition two_mols : tensor Z :=
  mkT [3; 2]%nat (fun ix => match ix with
    | [i; 0%nat] => nth i [8; 1; 1]%Z 0%Z
    | [i; _] => nth i [6; 8; 0]%Z 0%Z
    | _ => 0%Z end).
Lemma two_mols_range ix : valid [3; 2]%nat ix -> (0 <= dat two_mols ix <= 103)%Z.
Proof.
  destruct ix as [|i [|b [|x ix]]]; simpl; try tauto. intros (Hi & Hb & _).
  destruct i as [|[|[|i]]], b as [|[|b]]; simpl; lia.
Qed.
Definition mol_call {eps mx} : Args (RN eps mx) := call two_mols (line 3 [2%nat] 2).
Lemma mol_wf eps mx :
  well_formed (N := RN eps mx) (Xex eps mx) (Wex eps mx) (Pex eps mx) mol_call D4M no_kw 3 3 [2%nat] /\
  well_formed (N := RN eps mx) (Xex eps mx) (Wex eps mx) (PexS eps mx) mol_call D4SM no_kw 3 3 [2%nat].
Proof. apply call_wf; auto using two_mols_range. Qed.
