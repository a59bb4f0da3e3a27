(** * Energies depend on the real atoms and their distances only (proof layer). *)
From Coq Require Import Reals Lra Lia List Arith ZArith QArith Qreals Bool String.
From Verif Require Import Py Tensor Scalar RInst ModelExt ModelUtils ModelDamping ModelModels
  ModelTerms ModelDisp SpecCall TensorLemmas Closed ClosedM ClosedTerms ClosedModels ClosedDamp
  ClosedDisp CallLemmas SpecR EnergyR Energy3R Sums.
Import ListNotations.
Open Scope R_scope.

Section R.
Context {eps mx : R} (X : Ext (RS eps mx)).
Variables (c n1 n2 : nat) (z1 z2 : nat -> Z) (x1 x2 : nat -> nat -> R) (s : nat -> nat)
  (cut2 cut3 : R).
Notation re1 i := (is_real (z1 i) = true).
Notation re2 i := (is_real (z2 i) = true).

Definition outside (k : nat) : Prop := forall j, (j < n1)%nat -> re1 j -> s j <> k.

Hypothesis Hs : forall i, (i < n1)%nat -> re1 i -> (s i < n2)%nat /\ z2 (s i) = z1 i.
Hypothesis Hinj : forall i j, (i < n1)%nat -> (j < n1)%nat -> re1 i -> re1 j -> s i = s j -> i = j.
Hypothesis Hd : forall i j, (i < n1)%nat -> (j < n1)%nat -> re1 i -> re1 j ->
  x_dist X c (x1 i) (x1 j) = x_dist X c (x2 (s i)) (x2 (s j)).
Hypothesis Hout : forall i k, (i < n1)%nat -> (k < n2)%nat -> re1 i -> re2 k -> outside k ->
  cut2 < x_dist X c (x2 (s i)) (x2 k) /\ cut3 * cut3 < rpow (x_dist X c (x2 (s i)) (x2 k)) 2.

Lemma sum_rel f g :
  (forall j, (j < n1)%nat -> re1 j -> g (s j) = f j) ->
  (forall j, (j < n1)%nat -> is_real (z1 j) = false -> f j = 0) ->
  (forall k, (k < n2)%nat -> is_real (z2 k) = false \/ (re2 k /\ outside k) -> g k = 0) ->
  rsum n2 g = rsum n1 f.
Proof.
  intros H1 H2 H3.
  set (Q := fun k => existsb (fun i => is_real (z1 i) && Nat.eqb (s i) k) (seq 0 n1)).
  apply (rsum_bij n1 n2 (fun i => is_real (z1 i)) Q s); auto.
  - intros. apply Hs; auto.
  - intros k Hk E. apply existsb_exists in E as (i & Hi & E). apply in_seq in Hi.
    apply andb_true_iff in E as (E1 & E2). apply Nat.eqb_eq in E2. exists i. repeat split; auto. lia.
  - intros k Hk E. apply H3; auto. destruct (is_real (z2 k)) eqn:Er; auto. right. split; auto.
    intros j Hj Hr Es. assert (Q k = true); [|congruence].
    apply existsb_exists. exists j. split; [apply in_seq; lia|]. rewrite Hr, Es, Nat.eqb_refl. reflexivity.
Qed.

Lemma s_num i : (i < n1)%nat -> re1 i -> z2 (s i) = z1 i.
Proof. intros. now apply Hs. Qed.

Lemma s_eqb i j : (i < n1)%nat -> (j < n1)%nat -> re1 i -> re1 j -> Nat.eqb (s i) (s j) = Nat.eqb i j.
Proof.
  intros. destruct (Nat.eqb_spec i j).
  - subst. apply Nat.eqb_refl.
  - apply Nat.eqb_neq. intros E. apply Hinj in E; auto.
Qed.

Lemma pmask_rel i j : (i < n1)%nat -> (j < n1)%nat -> re1 i -> re1 j ->
  pmask z2 (s i) (s j) = pmask z1 i j.
Proof.
  intros. unfold pmask. rewrite s_eqb by auto. now rewrite !s_num by auto.
Qed.

Lemma tmask_rel i j k : (i < n1)%nat -> (j < n1)%nat -> (k < n1)%nat -> re1 i -> re1 j -> re1 k ->
  tmask z2 (s i) (s j) (s k) = tmask z1 i j k.
Proof.
  intros. unfold tmask. rewrite !s_eqb by auto. now rewrite !s_num by auto.
Qed.

Lemma e2_rel c6 c6' rad rad' r r' g6 g8 s6 s8 s10 i :
  (forall i j, (i < n1)%nat -> (j < n1)%nat -> re1 i -> re1 j ->
     c6' (s i) (s j) = c6 i j /\ rad' (s i) (s j) = rad i j) ->
  (forall i, (i < n1)%nat -> re1 i -> r' (s i) = r i) ->
  (i < n1)%nat -> re1 i ->
  e2_atom (K := RS eps mx) X n2 c z2 x2 c6' rad' r' cut2 g6 g8 s6 s8 s10 (s i)
  = e2_atom (K := RS eps mx) X n1 c z1 x1 c6 rad r cut2 g6 g8 s6 s8 s10 i.
Proof.
  intros H6 Hr Hi Ri. rewrite !e2_atom_R. f_equal. apply sum_rel.
  - intros j Hj Rj. unfold pv, pair_in. rewrite <- !pmask_real, pmask_rel by auto.
    rewrite <- Hd by auto. destruct (H6 i j) as (E1 & E2); auto.
    unfold pairv. now rewrite E1, E2, !Hr by auto.
  - intros j Hj Rj. unfold pv, pair_in. rewrite <- pmask_real. unfold pmask. rewrite Rj, andb_false_r.
    reflexivity.
  - intros k Hk [Rk|[Rk Ok]]; unfold pv, pair_in; rewrite <- pmask_real.
    + unfold pmask. now rewrite Rk, andb_false_r.
    + destruct (Hout i k Hi Hk Ri Rk Ok) as (L & _).
      now rewrite (proj2 (rleb_false _ _) L), andb_false_r.
Qed.

Lemma pd2_rel i j : (i < n1)%nat -> (j < n1)%nat -> re1 i -> re1 j ->
  pd2 (K := RS eps mx) X c z2 x2 (s i) (s j) = pd2 (K := RS eps mx) X c z1 x1 i j.
Proof.
  intros. unfold pd2, pdist. rewrite pmask_rel by auto. now rewrite Hd by auto.
Qed.

Lemma e3_zero num pos c9 rad g s9 i j k :
  tmask num i j k = false \/ rleb (pd2 (K := RS eps mx) X c num pos i j) (cut3 * cut3) = false
    \/ rleb (pd2 (K := RS eps mx) X c num pos j k) (cut3 * cut3) = false ->
  e3_triple (K := RS eps mx) X c num pos c9 rad cut3 g s9 i j k = 0.
Proof.
  intros H. unfold e3_triple, angp. rs.
  destruct H as [-> | [-> | ->]]; rewrite ?andb_false_r; cbn [andb]; rewrite Q2R_0; ring.
Qed.

Lemma e3_rel c9 c9' rad rad' g s9 i :
  (forall i j k, (i < n1)%nat -> (j < n1)%nat -> (k < n1)%nat -> re1 i -> re1 j -> re1 k ->
     c9' (s i) (s j) (s k) = c9 i j k) ->
  (forall i j, (i < n1)%nat -> (j < n1)%nat -> re1 i -> re1 j -> rad' (s i) (s j) = rad i j) ->
  (i < n1)%nat -> re1 i ->
  e3_atom (K := RS eps mx) X n2 c z2 x2 c9' rad' cut3 g s9 (s i)
  = e3_atom (K := RS eps mx) X n1 c z1 x1 c9 rad cut3 g s9 i.
Proof.
  intros H9 Hr Hi Ri. unfold e3_atom. f_equal. rewrite !fsum_R.
  assert (NR : forall num (i j k : nat), is_real (num j) = false \/ is_real (num k) = false ->
     tmask num i j k = false).
  { intros num a b d [E|E]; unfold tmask; rewrite E; rewrite ?andb_false_r; reflexivity. }
  assert (PD : forall i k, (i < n1)%nat -> (k < n2)%nat -> re1 i -> re2 k -> outside k ->
     rleb (pd2 (K := RS eps mx) X c z2 x2 (s i) k) (cut3 * cut3) = false).
  { intros a k Ha Hk Ra Rk Ok. apply rleb_false.
    destruct (Hout a k Ha Hk Ra Rk Ok) as (_ & L).
    unfold pd2, pdist. replace (pmask z2 (s a) k) with true.
    - rs. rewrite Q2R_2. exact L.
    - unfold pmask. rewrite (proj2 (Hs a Ha Ra)), Ra, Rk.
      symmetry. simpl. apply negb_true_iff, Nat.eqb_neq. apply Ok; auto. }
  apply sum_rel.
  - intros j Hj Rj. rewrite !fsum_R. apply sum_rel.
    + intros k Hk Rk. unfold e3_triple, angp, fdp, sp, r5p, r3p, r2p, r0p.
      rewrite !tmask_rel, !pd2_rel, H9, !Hr by auto. reflexivity.
    + intros k Hk Rk. apply e3_zero. left. apply NR. auto.
    + intros k Hk [Rk|[Rk Ok]]; apply e3_zero.
      * left. apply NR. auto.
      * right. right. apply PD; auto.
  - intros j Hj Rj. rewrite fsum_R. apply rsum_0. intros k Hk. apply e3_zero. left. apply NR. auto.
  - intros j Hj H. rewrite fsum_R. apply rsum_0. intros k Hk. apply e3_zero.
    destruct H as [Rj|[Rj Oj]].
    + left. apply NR. auto.
    + right. left. apply PD; auto.
Qed.

End R.

Section Z.
Context {eps mx : R} (X : Ext (RS eps mx)).

Lemma e2_alone n c num pos c6 rad r cut g6 g8 s6 s8 s10 i :
  (forall j, (j < n)%nat -> real_pair num i j = false) ->
  e2_atom (K := RS eps mx) X n c num pos c6 rad r cut g6 g8 s6 s8 s10 i = 0.
Proof.
  intros H. rewrite e2_atom_R, rsum_0; [lra|]. intros j Hj. unfold pv, pair_in. now rewrite H.
Qed.

Lemma e3_alone n c num pos c9 rad cut g s9 i :
  (forall j k, (j < n)%nat -> (k < n)%nat -> real_triple num i j k = false) ->
  e3_atom (K := RS eps mx) X n c num pos c9 rad cut g s9 i = 0.
Proof.
  intros H. unfold e3_atom. rs. rewrite fsum_R, rsum_0; [unfold Rdiv; ring|].
  intros j Hj. rewrite fsum_R. apply rsum_0. intros k Hk. apply e3_zero. left.
  rewrite tmask_real. auto.
Qed.

Lemma term_alone t F param (m : Model (RN eps mx)) n c num pos cn q r rv cut2 cut3 b i :
  (forall j, (j < n)%nat -> real_pair num i j = false) ->
  term_val (N := RN eps mx) X t F param m n c num pos cn q r rv cut2 cut3 b i = 0.
Proof.
  intros H. unfold term_val.
  assert (H3 : forall j k, (j < n)%nat -> (k < n)%nat -> real_triple num i j k = false).
  { intros j k Hj Hk. unfold real_triple. now rewrite (H j Hj). }
  destruct (t_class t); [apply e2_alone|apply e3_alone|apply e3_alone|apply e3_alone]; auto.
Qed.

Lemma sumK_0 (l : list R) : (forall x, In x l -> x = 0) -> sumK (N := RN eps mx) l = 0.
Proof.
  unfold sumK. intros H. assert (G : forall l a, (forall x, In x l -> x = 0) ->
     fold_left (fadd (s := RS eps mx)) l a = a).
  { clear. induction l as [|x l IH]; intros a H; simpl; auto.
    rewrite (H x) by (left; auto). rewrite IH; [|intros; apply H; right; auto]. rs. lra. }
  rewrite G by auto. unfold f0. rs. apply Q2R_0.
Qed.

Lemma padding_alone num n i : is_real (num i) = false ->
  forall j, (j < n)%nat -> real_pair num i j = false.
Proof.
  intros H j _. unfold real_pair. rewrite is_real_eqb in H. rewrite H. now rewrite andb_false_r.
Qed.
End Z.

(** ** whole calls *)
Section W.
Context {eps mx : R} (X : Ext (sc (RN eps mx))).
Notation N := (RN eps mx).
Variables (W : World N) (p1 p2 : Disp N) (a1 a2 : Args N) (kind : mkind) (kw : mkwargs N).
Variables (n1 n2 c : nat) (B1 B2 b1 b2 : list nat) (s : nat -> nat).
Notation z1 := (sl1 (a_numbers a1) b1).
Notation z2 := (sl1 (a_numbers a2) b2).
Notation re1 i := (is_real (z1 i) = true).
Notation re2 i := (is_real (z2 i) = true).
Hypothesis HX : ext_tables X.
Hypothesis WF1 : well_formed X W p1 a1 kind kw n1 c B1.
Hypothesis WF2 : well_formed X W p2 a2 kind kw n2 c B2.
Hypothesis V1 : valid B1 b1.
Hypothesis V2 : valid B2 b2.
Hypothesis Hterms : p_terms p1 = p_terms p2.
Hypothesis Hparam : a_param a1 = a_param a2.
Hypothesis Hc2 : dat (c_disp2 (a_cut a1)) [] = dat (c_disp2 (a_cut a2)) [].
Hypothesis Hc3 : dat (c_disp3 (a_cut a1)) [] = dat (c_disp3 (a_cut a2)) [].
Let cut2 : R := dat (c_disp2 (a_cut a1)) [].
Let cut3 : R := dat (c_disp3 (a_cut a1)) [].
Let x1 : nat -> nat -> R := sl2 (a_positions a1) b1.
Let x2 : nat -> nat -> R := sl2 (a_positions a2) b2.
Hypothesis Hs : forall i, (i < n1)%nat -> re1 i -> (s i < n2)%nat /\ z2 (s i) = z1 i.
Hypothesis Hinj : forall i j, (i < n1)%nat -> (j < n1)%nat -> re1 i -> re1 j -> s i = s j -> i = j.
Hypothesis Hd : forall i j, (i < n1)%nat -> (j < n1)%nat -> re1 i -> re1 j ->
  x_dist X c (x1 i) (x1 j) = x_dist X c (x2 (s i)) (x2 (s j)).
Hypothesis Hout : forall i k, (i < n1)%nat -> (k < n2)%nat -> re1 i -> re2 k ->
  outside n1 z1 s k ->
  cut2 < x_dist X c (x2 (s i)) (x2 k) /\ cut3 * cut3 < rpow (x_dist X c (x2 (s i)) (x2 k)) 2.
Hypothesis Hcn : forall t1 t2,
  p_cn_fn p1 (p_cn_kw p1) (a_numbers a1) (a_positions a1) = Ok t1 ->
  p_cn_fn p2 (p_cn_kw p2) (a_numbers a2) (a_positions a2) = Ok t2 ->
  forall i, (i < n1)%nat -> re1 i -> sl1 t2 b2 (s i) = sl1 t1 b1 i.
Hypothesis Hq : forall o1 o2,
  charges W p1 (a_numbers a1) (a_positions a1) (a_charge a1) (a_cut a1) (a_q a1) = Ok o1 ->
  charges W p2 (a_numbers a2) (a_positions a2) (a_charge a2) (a_cut a2) (a_q a2) = Ok o2 ->
  forall i, (i < n1)%nat -> re1 i -> cnq o2 (s i :: b2) = cnq o1 (i :: b1).
Hypothesis Hr4 : forall i, (i < n1)%nat -> re1 i -> r4v a2 b2 (s i) = r4v a1 b1 i.
Hypothesis Hrv : forall i j, (i < n1)%nat -> (j < n1)%nat -> re1 i -> re1 j ->
  rvv X a2 b2 (s i) (s j) = rvv X a1 b1 i j.
Hypothesis Hwf : forall i j, (i < n1)%nat -> (j < n1)%nat -> re1 i -> re1 j ->
  wfv kind kw z2 b2 (s i) (s j) = wfv kind kw z1 b1 i j.

Lemma run_rel : exists e1 e2, run X W p1 a1 = Ok e1 /\ run X W p2 a2 = Ok e2 /\
  shp e1 = n1 :: B1 /\ shp e2 = n2 :: B2 /\
  (forall i, (i < n1)%nat -> re1 i -> sl1 e2 b2 (s i) = sl1 e1 b1 i) /\
  (forall b i, valid B1 b -> (i < n1)%nat -> is_real (sl1 (a_numbers a1) b i) = false -> sl1 e1 b i = 0) /\
  (forall b i, valid B2 b -> (i < n2)%nat -> is_real (sl1 (a_numbers a2) b i) = false -> sl1 e2 b i = 0).
Proof.
  destruct (terms_funs (a_param a1) kind (p_terms p1) (wf_terms _ _ _ _ _ _ _ _ _ WF1)) as (Fs & HF).
  destruct (run_closed X W p1 a1 kind kw n1 c B1 Fs HX WF1 HF)
    as (m1 & cn1 & q1 & r1 & v1 & M1 & C1 & SC1 & Q1 & SQ1 & R1 & RV1 & (e1 & E1 & S1 & D1)).
  assert (HF2 : Forall2 (term_ok (a_param a2) kind) (p_terms p2) Fs) by now rewrite <- Hparam, <- Hterms.
  destruct (run_closed X W p2 a2 kind kw n2 c B2 Fs HX WF2 HF2)
    as (m2 & cn2 & q2 & r2 & v2 & M2 & C2 & SC2 & Q2 & SQ2 & R2 & RV2 & (e2 & E2 & S2 & D2)).
  exists e1, e2. repeat (split; [assumption|]).
  specialize (Hcn cn1 cn2 C1 C2). specialize (Hq q1 q2 Q1 Q2).
  assert (Ha : forall i, (i < n1)%nat -> re1 i -> (s i < n2)%nat) by (intros; now apply Hs).
  assert (Hz : forall i, (i < n1)%nat -> re1 i -> z2 (s i) = z1 i) by (intros; now apply Hs).
  split; [|split].
  2:{ intros b i Hb Hi Hr. rewrite D1 by auto. apply sumK_0. intros x Hx.
      apply in_map_iff in Hx as (tF & <- & _). apply term_alone. now apply padding_alone. }
  2:{ intros b i Hb Hi Hr. rewrite D2 by auto. apply sumK_0. intros x Hx.
      apply in_map_iff in Hx as (tF & <- & _). apply term_alone. now apply padding_alone. }
  intros i Hi Ri. rewrite D1, D2 by auto. f_equal. unfold atom_terms. rewrite <- Hterms.
  apply map_ext. intros [t F]. cbn [fst snd].
  destruct M1 as (OK1 & K1 & N1 & ga1 & gc1 & rf1 & W1).
  destruct M2 as (OK2 & K2 & N2 & ga2 & gc2 & rf2 & W2).
  set (qa := if t_cdep t then q1 else None). set (qb := if t_cdep t then q2 else None).
  assert (Hqq : forall i, (i < n1)%nat -> re1 i -> cnq qb (s i :: b2) = cnq qa (i :: b1)).
  { unfold qa, qb. destruct (t_cdep t); auto. }
  assert (WT : forall i j r, (i < n1)%nat -> (j < n1)%nat -> re1 i -> re1 j ->
     wt_of X m2 (Some cn2) qb b2 (s i) (s j) r = wt_of X m1 (Some cn1) qa b1 i j r).
  { intros x y r Hx Hy Rx Ry. unfold wt_of, is_d4s.
    rewrite W1, W2, K1, K2, N1, N2, ga1, ga2, gc1, gc2, rf1, rf2, Hwf, Hqq, Hz by auto.
    assert (EC : cnq (Some cn2) (s x :: b2) = cnq (Some cn1) (x :: b1)) by (apply Hcn; auto).
    now rewrite EC. }
  assert (C6 : forall i j, (i < n1)%nat -> (j < n1)%nat -> re1 i -> re1 j ->
     c6m X m2 (Some cn2) qb b2 (s i) (s j) = c6m X m1 (Some cn1) qa b1 i j).
  { intros x y Hx Hy Rx Ry. unfold c6m.
    rewrite N1, N2, ga1, ga2, gc1, gc2, rf1, rf2, !Hz by auto.
    apply c6_of_ext; intros; now rewrite WT by auto. }
  assert (RR : forall i, (i < n1)%nat -> re1 i -> sl1 r2 b2 (s i) = sl1 r1 b1 i).
  { intros. rewrite R1, R2; auto. }
  assert (RV : forall i j, (i < n1)%nat -> (j < n1)%nat -> re1 i -> re1 j ->
     sl2 v2 b2 (s i) (s j) = sl2 v1 b1 i j).
  { intros. rewrite RV1, RV2; auto. }
  assert (C9 : forall cls i j k, (i < n1)%nat -> (j < n1)%nat -> (k < n1)%nat -> re1 i -> re1 j -> re1 k ->
     c9_of X cls m2 (Some cn2) qb n2 b2 (s i) (s j) (s k) = c9_of X cls m1 (Some cn1) qa n1 b1 i j k).
  { intros cls x y w Hx Hy Hw Rx Ry Rw. unfold c9_of, c9a. rewrite !C6 by auto.
    destruct cls; auto. unfold c9x. f_equal. apply fsum_ext. intros f Hf.
    unfold wpm, wpol. rewrite N1, N2, ga1, ga2, gc1, gc2, rf1, rf2, !Hz by auto.
    f_equal; f_equal; [f_equal|]; apply fsum_ext; intros; now rewrite WT by auto. }
  assert (R3 : forall cls i j, (i < n1)%nat -> (j < n1)%nat -> re1 i -> re1 j ->
     rad3_of X cls (a_param a2) (sl1 r2 b2) (sl2 v2 b2) (s i) (s j)
     = rad3_of X cls (a_param a1) (sl1 r1 b1) (sl2 v1 b1) i j).
  { intros cls x y Hx Hy Rx Ry. unfold rad3_of, radbj, qq. rewrite <- Hparam, RV, !RR by auto. reflexivity. }
  unfold term_val. fold qa qb. rewrite <- Hparam, <- Hc2, <- Hc3. fold cut2 cut3 x1 x2.
  rewrite Hparam in R3.
  destruct (t_class t) eqn:EC.
  - apply (e2_rel X c n1 n2 z1 z2 x1 x2 s cut2 cut3); auto. intros x y Hx Hy Rx Ry. split; [apply C6; auto|].
    unfold rad_of, qq. destruct (_ =? _)%string; [apply RV; auto|]. now rewrite !RR by auto.
  - rewrite Hparam. apply (e3_rel X c n1 n2 z1 z2 x1 x2 s cut2 cut3); auto.
  - rewrite Hparam. apply (e3_rel X c n1 n2 z1 z2 x1 x2 s cut2 cut3); auto.
  - rewrite Hparam. apply (e3_rel X c n1 n2 z1 z2 x1 x2 s cut2 cut3); auto.
Qed.

End W.
