(** * Padding, batching, permutations, rigid motions, size consistency. *)
From Coq Require Import Reals Lra Lia List Arith ZArith QArith Qreals Bool String.
From Verif Require Import Py Tensor Scalar RInst ModelExt ModelUtils ModelDamping ModelModels
  ModelTerms ModelDisp SpecCall TensorLemmas Closed ClosedM ClosedTerms ClosedModels ClosedDamp
  ClosedDisp CallLemmas SpecR EnergyR Energy3R Sums Relabel SpecMol Inst InstW Usable.
Import ListNotations.
Open Scope R_scope.

Lemma real_atom_b numbers b i : real_atom numbers b i <-> is_real (sl1 numbers b i) = true.
Proof.
  unfold real_atom, is_real. rewrite negb_true_iff, Z.eqb_neq. tauto.
Qed.

Section M.
Context {eps mx : R} (X : Ext (sc (RN eps mx))) (W : World (RN eps mx)).
Notation N := (RN eps mx).

Lemma r4v_rel n1 s (a1 a2 : Args N) b1 b2 i :
  opt1 n1 s (a_numbers a1) b1 b2 (a_r4r2 a1) (a_r4r2 a2) -> (i < n1)%nat ->
  real_atom (a_numbers a1) b1 i -> sl1 (a_numbers a2) b2 (s i) = sl1 (a_numbers a1) b1 i ->
  r4v a2 b2 (s i) = r4v a1 b1 i.
Proof.
  intros H Hi Ri E. unfold opt1 in H. unfold r4v.
  destruct (a_r4r2 a1), (a_r4r2 a2); try contradiction; auto. now rewrite E.
Qed.

Lemma rvv_rel n1 s (a1 a2 : Args N) b1 b2 i j :
  opt2 n1 s (a_numbers a1) b1 b2 (a_rvdw a1) (a_rvdw a2) -> (i < n1)%nat -> (j < n1)%nat ->
  real_atom (a_numbers a1) b1 i -> real_atom (a_numbers a1) b1 j ->
  sl1 (a_numbers a2) b2 (s i) = sl1 (a_numbers a1) b1 i ->
  sl1 (a_numbers a2) b2 (s j) = sl1 (a_numbers a1) b1 j ->
  rvv X a2 b2 (s i) (s j) = rvv X a1 b1 i j.
Proof.
  intros H Hi Hj Ri Rj E E'. unfold opt2 in H. unfold rvv.
  destruct (a_rvdw a1), (a_rvdw a2); try contradiction; auto. now rewrite E, E'.
Qed.

Lemma wfv_rel kind (kw : mkwargs N) z1 z2 b1 b2 (s : nat -> nat) i j :
  own_wf kind kw -> z2 (s i) = z1 i -> z2 (s j) = z1 j ->
  wfv kind kw z2 b2 (s i) (s j) = wfv kind kw z1 b1 i j.
Proof.
  intros H E E'. unfold wfv. destruct H as [-> | ->].
  - destruct (k_wf kw); reflexivity.
  - rewrite E, E'. reflexivity.
Qed.

Lemma a_cut_eq (a1 a2 : Args N) : a_cutoff a1 = a_cutoff a2 -> a_cut a1 = a_cut a2.
Proof. unfold a_cut. now intros ->. Qed.

(** *** The common core *)
Theorem same_molecule_same_energy :
  forall (p1 p2 : Disp N) a1 a2 kind kw n1 n2 c B1 B2 b1 b2 s,
  ext_tables X -> dist_metric X -> cn_contract (p_cn_fn p1 (p_cn_kw p1)) -> eeq_contract W ->
  well_formed X W p1 a1 kind kw n1 c B1 -> well_formed X W p2 a2 kind kw n2 c B2 ->
  own_wf kind kw -> valid B1 b1 -> valid B2 b2 ->
  same_settings n1 s p1 a1 b1 p2 a2 b2 ->
  same_molecule c n1 n2 s (a_numbers a1) (a_positions a1) b1 (a_numbers a2) (a_positions a2) b2 ->
  exists e1 e2, run X W p1 a1 = Ok e1 /\ run X W p2 a2 = Ok e2 /\
    shp e1 = n1 :: B1 /\ shp e2 = n2 :: B2 /\
    (forall i, (i < n1)%nat -> real_atom (a_numbers a1) b1 i -> sl1 e2 b2 (s i) = sl1 e1 b1 i) /\
    (forall b i, valid B1 b -> (i < n1)%nat -> sl1 (a_numbers a1) b i = 0%Z -> sl1 e1 b i = 0) /\
    (forall b i, valid B2 b -> (i < n2)%nat -> sl1 (a_numbers a2) b i = 0%Z -> sl1 e2 b i = 0).
Proof.
  intros p1 p2 a1 a2 kind kw n1 n2 c B1 B2 b1 b2 s HX (gd & Hgd) HCN HQ WF1 WF2 HW V1 V2 ST SM.
  pose proof SM as SM'.
  destruct SM as (EM & ON). destruct EM as [EN EI ED]. destruct ST as [T1 T2 T3 T4 T5 T6 T7 T8 T9].
  assert (EC := a_cut_eq a1 a2 T5).
  destruct (run_rel X W p1 p2 a1 a2 kind kw n1 n2 c B1 B2 b1 b2 s) as (e1 & e2 & P);
    auto; try (now rewrite EC).
  - intros i Hi Ri. apply EN; auto. now apply real_atom_b.
  - intros i j Hi Hj Ri Rj. apply EI; auto; now apply real_atom_b.
  - intros i j Hi Hj Ri Rj. rewrite !Hgd. f_equal. symmetry. apply ED; auto; now apply real_atom_b.
  - intros i k Hi Hk Ri Rk O. exfalso. apply real_atom_b in Rk.
    destruct (ON k Hk Rk) as (j & Hj & Rj & Es). apply (O j Hj); auto. now apply real_atom_b.
  - intros t1 t2 E1 E2 i Hi Ri. apply real_atom_b in Ri.
    rewrite <- T2, <- T3 in E2.
    eapply (HCN c n1 n2 B1 B2); eauto; try apply WF1; try apply WF2.
  - intros o1 o2 E1 E2 i Hi Ri. apply real_atom_b in Ri. unfold charges in E1, E2. unfold opt1 in T7.
    rewrite <- T1, <- EC in E2.
    destruct (a_q a1) as [q1|], (a_q a2) as [q2|]; try contradiction.
    + injection E1 as <-. injection E2 as <-. simpl. apply T7; auto.
    + destruct (existsb _ _).
      * destruct (w_eeq W (a_numbers a1) _ _ _) as [q1|] eqn:Q1; [|discriminate].
        destruct (w_eeq W (a_numbers a2) _ _ _) as [q2|] eqn:Q2; [|discriminate].
        injection E1 as <-. injection E2 as <-. simpl.
        eapply (HQ c n1 n2 B1 B2); eauto; try apply WF1; try apply WF2.
      * injection E1 as <-. injection E2 as <-. reflexivity.
  - intros i Hi Ri. apply real_atom_b in Ri. eapply r4v_rel; eauto. now apply EN.
  - intros i j Hi Hj Ri Rj. apply real_atom_b in Ri, Rj. eapply rvv_rel; eauto; now apply EN.
  - intros i j Hi Hj Ri Rj. apply real_atom_b in Ri, Rj. apply wfv_rel; auto; now apply EN.
  - destruct P as (E1 & E2 & S1 & S2 & P & Z1 & Z2). exists e1, e2. repeat (split; [assumption|]).
    split; [|split].
    + intros i Hi Ri. apply P; auto. now apply real_atom_b.
    + intros b i Hb Hi E. apply Z1; auto. unfold is_real. now rewrite E.
    + intros b i Hb Hi E. apply Z2; auto. unfold is_real. now rewrite E.
Qed.

(** *** C05: padding and batching.  Molecule [b2] of the second call consists of the atoms
    of molecule [b1] of the first one, in the same order, and padding; the atoms may sit
    at any places ([s] is increasing).  *)
Theorem C05_padding_and_batching :
  forall (p1 p2 : Disp N) a1 a2 kind kw n1 n2 c B1 B2 b1 b2 s,
  ext_tables X -> dist_metric X -> cn_contract (p_cn_fn p1 (p_cn_kw p1)) -> eeq_contract W ->
  well_formed X W p1 a1 kind kw n1 c B1 -> well_formed X W p2 a2 kind kw n2 c B2 ->
  own_wf kind kw -> valid B1 b1 -> valid B2 b2 ->
  same_settings n1 s p1 a1 b1 p2 a2 b2 ->
  (forall i j, (i < j)%nat -> (j < n1)%nat -> (s i < s j)%nat) ->
  (forall i, (i < n1)%nat -> (s i < n2)%nat) ->
  (forall i, (i < n1)%nat -> sl1 (a_numbers a2) b2 (s i) = sl1 (a_numbers a1) b1 i) ->
  (forall i k, (i < n1)%nat -> (k < c)%nat ->
     sl2 (a_positions a2) b2 (s i) k = sl2 (a_positions a1) b1 i k) ->
  (forall k, (k < n2)%nat -> (forall i, (i < n1)%nat -> s i <> k) -> sl1 (a_numbers a2) b2 k = 0%Z) ->
  exists e1 e2, run X W p1 a1 = Ok e1 /\ run X W p2 a2 = Ok e2 /\
    shp e1 = n1 :: B1 /\ shp e2 = n2 :: B2 /\
    (forall i, (i < n1)%nat -> sl1 e2 b2 (s i) = sl1 e1 b1 i) /\
    (forall b i, valid B2 b -> (i < n2)%nat -> sl1 (a_numbers a2) b i = 0%Z -> sl1 e2 b i = 0).
Proof.
  intros p1 p2 a1 a2 kind kw n1 n2 c B1 B2 b1 b2 s HX HD HCN HQ WF1 WF2 HW V1 V2 ST Hinc Hlt Hnum Hpos Hpad.
  destruct (same_molecule_same_energy p1 p2 a1 a2 kind kw n1 n2 c B1 B2 b1 b2 s)
    as (e1 & e2 & E1 & E2 & S1 & S2 & P & Z1 & Z2); auto.
  - split; [split|].
    + intros i Hi _. split; auto.
    + intros i j Hi Hj _ _ E. destruct (Nat.lt_trichotomy i j) as [L|[L|L]]; auto.
      * specialize (Hinc i j L Hj). lia.
      * specialize (Hinc j i L Hi). lia.
    + intros i j Hi Hj _ _. unfold sqd. apply rsum_ext. intros k Hk. now rewrite !Hpos.
    + intros k Hk Rk.
      destruct (existsb (fun i => Nat.eqb (s i) k) (seq 0 n1)) eqn:E.
      * apply existsb_exists in E as (i & Hi & E). apply in_seq in Hi. apply Nat.eqb_eq in E.
        exists i. repeat split; try lia; auto. unfold real_atom in *. rewrite <- E, Hnum in Rk by lia. auto.
      * exfalso. apply Rk. apply Hpad; auto. intros i Hi Es.
        assert (Y : existsb (fun i => Nat.eqb (s i) k) (seq 0 n1) = true); [|congruence].
        apply existsb_exists. exists i. split; [apply in_seq; lia|]. now apply Nat.eqb_eq.
  - exists e1, e2. repeat (split; [assumption|]). split; auto.
    intros i Hi. destruct (Z.eq_dec (sl1 (a_numbers a1) b1 i) 0) as [E|E].
    + rewrite Z1, Z2; auto. now rewrite Hnum.
    + apply P; auto.
Qed.

(** *** C06: permutations of the atoms *)
Theorem C06_permutation_equivariance :
  forall (p1 p2 : Disp N) a1 a2 kind kw n c B1 B2 b1 b2 s s',
  ext_tables X -> dist_metric X -> cn_contract (p_cn_fn p1 (p_cn_kw p1)) -> eeq_contract W ->
  well_formed X W p1 a1 kind kw n c B1 -> well_formed X W p2 a2 kind kw n c B2 ->
  own_wf kind kw -> valid B1 b1 -> valid B2 b2 ->
  same_settings n s p1 a1 b1 p2 a2 b2 ->
  (forall i, (i < n)%nat -> (s i < n)%nat /\ (s' i < n)%nat /\ s' (s i) = i /\ s (s' i) = i) ->
  (forall i, (i < n)%nat -> sl1 (a_numbers a2) b2 (s i) = sl1 (a_numbers a1) b1 i) ->
  (forall i k, (i < n)%nat -> (k < c)%nat ->
     sl2 (a_positions a2) b2 (s i) k = sl2 (a_positions a1) b1 i k) ->
  exists e1 e2, run X W p1 a1 = Ok e1 /\ run X W p2 a2 = Ok e2 /\
    (forall i, (i < n)%nat -> sl1 e2 b2 (s i) = sl1 e1 b1 i) /\
    rsum n (sl1 e2 b2) = rsum n (sl1 e1 b1).
Proof.
  intros p1 p2 a1 a2 kind kw n c B1 B2 b1 b2 s s' HX HD HCN HQ WF1 WF2 HW V1 V2 ST Hp Hnum Hpos.
  destruct (same_molecule_same_energy p1 p2 a1 a2 kind kw n n c B1 B2 b1 b2 s)
    as (e1 & e2 & E1 & E2 & S1 & S2 & P & Z1 & Z2); auto.
  - split; [split|].
    + intros i Hi _. split; auto. now apply Hp.
    + intros i j Hi Hj _ _ E. destruct (Hp i Hi) as (_ & _ & Ei & _).
      destruct (Hp j Hj) as (_ & _ & Ej & _). congruence.
    + intros i j Hi Hj _ _. unfold sqd. apply rsum_ext. intros k Hk. now rewrite !Hpos.
    + intros k Hk Rk. destruct (Hp k Hk) as (_ & L & _ & E). exists (s' k). repeat split; auto.
      unfold real_atom. rewrite <- Hnum, E; auto.
  - assert (Q : forall i, (i < n)%nat -> sl1 e2 b2 (s i) = sl1 e1 b1 i).
    { intros i Hi. destruct (Z.eq_dec (sl1 (a_numbers a1) b1 i) 0) as [E|E].
      + rewrite Z1, Z2; auto. now apply Hp. now rewrite Hnum.
      + apply P; auto. }
    exists e1, e2. repeat (split; [assumption|]).
    apply (rsum_reindex n n s); auto.
    + intros; now apply Hp.
    + intros i j Hi Hj E. destruct (Hp i Hi) as (_ & _ & Ei & _).
      destruct (Hp j Hj) as (_ & _ & Ej & _). congruence.
    + intros k Hk H. exfalso. destruct (Hp k Hk) as (_ & L & _ & E). apply (H (s' k)); auto.
Qed.

(** *** C07: rigid motions *)
Lemma rigid_sqd c O v x y : orthogonal c O -> sqd c (rigid c O v x) (rigid c O v y) = sqd c x y.
Proof.
  intros H. unfold sqd, rigid.
  rewrite (rsum_ext c _ (fun k => rsum c (fun l => rsum c (fun m =>
     O k l * (x l - y l) * (O k m * (x m - y m)))))).
  - rewrite (rsum_swap c c). rewrite (rsum_ext c _ (fun l => (x l - y l) ^ 2)); auto.
    intros l Hl. rewrite (rsum_swap c c).
    rewrite (rsum_single c l); auto.
    + rewrite (rsum_ext c _ (fun k => (x l - y l) * (x l - y l) * (O k l * O k l))) by (intros; ring).
      rewrite rsum_scal_l, H, Nat.eqb_refl by auto. ring.
    + intros m Hm Hne.
      rewrite (rsum_ext c _ (fun k => (x l - y l) * (x m - y m) * (O k l * O k m))) by (intros; ring).
      rewrite rsum_scal_l, H by auto. destruct (Nat.eqb_spec l m); [congruence|ring].
  - intros k Hk.
    replace (rsum c (fun l => O k l * x l) + v k - (rsum c (fun l => O k l * y l) + v k))
      with (rsum c (fun l => O k l * (x l - y l))).
    + simpl. rewrite Rmult_1_r, <- rsum_scal_r. apply rsum_ext. intros l Hl.
      rewrite <- rsum_scal_l. reflexivity.
    + rewrite (rsum_ext c (fun l => O k l * (x l - y l)) (fun l => O k l * x l + - (O k l * y l)))
        by (intros; ring).
      rewrite rsum_plus, rsum_opp. ring.
Qed.

(** every molecule of the batch may be moved by its own rigid motion *)
Theorem C07_rigid_motion_invariance :
  forall (p : Disp N) a positions' kind kw n c B O v,
  ext_tables X -> dist_metric X -> cn_contract (p_cn_fn p (p_cn_kw p)) -> eeq_contract W ->
  well_formed X W p a kind kw n c B -> well_formed X W p (with_positions a positions') kind kw n c B ->
  own_wf kind kw ->
  (forall b, valid B b -> orthogonal c (O b)) ->
  (forall b i k, valid B b -> (i < n)%nat -> (k < c)%nat ->
     sl2 positions' b i k = rigid c (O b) (v b) (sl2 (a_positions a) b i) k) ->
  exists e e', run X W p a = Ok e /\ run X W p (with_positions a positions') = Ok e' /\
    forall b i, valid B b -> (i < n)%nat -> sl1 e' b i = sl1 e b i.
Proof.
  intros p a pos' kind kw n c B O v HX HD HCN HQ WF1 WF2 HW HO Hpos.
  assert (Q : forall b, valid B b -> exists e e', run X W p a = Ok e /\
     run X W p (with_positions a pos') = Ok e' /\
     forall i, (i < n)%nat -> sl1 e' b i = sl1 e b i).
  { intros b Vb.
    destruct (same_molecule_same_energy p p a (with_positions a pos') kind kw n n c B B b b (fun i => i))
      as (e1 & e2 & E1 & E2 & S1 & S2 & P & Z1 & Z2); auto.
    - split; auto; simpl.
      + destruct (a_q a); simpl; auto.
      + destruct (a_r4r2 a); simpl; auto.
      + destruct (a_rvdw a); simpl; auto.
    - split; [split|]; simpl; auto.
      + intros i j Hi Hj _ _. rewrite <- (rigid_sqd c (O b) (v b) (sl2 (a_positions a) b i)) by auto.
        unfold sqd. apply rsum_ext. intros k Hk. now rewrite !Hpos.
      + intros k Hk Rk. exists k. auto.
    - exists e1, e2. repeat (split; [assumption|]). intros i Hi.
      destruct (Z.eq_dec (sl1 (a_numbers a) b i) 0) as [E|E].
      + rewrite Z1, Z2; auto.
      + apply P; auto. }
  destruct (terms_funs (a_param a) kind (p_terms p) (wf_terms _ _ _ _ _ _ _ _ _ WF1)) as (Fs & HF).
  destruct (run_closed X W p a kind kw n c B Fs HX WF1 HF)
    as (_ & _ & _ & _ & _ & _ & _ & _ & _ & _ & _ & _ & (e & E & _)).
  destruct (run_closed X W p (with_positions a pos') kind kw n c B Fs HX WF2 HF)
    as (_ & _ & _ & _ & _ & _ & _ & _ & _ & _ & _ & _ & (e' & E' & _)).
  exists e, e'. split; [exact E|]. split; [exact E'|]. intros b i Vb Hi.
  destruct (Q b Vb) as (f & f' & F & F' & G). rewrite E in F. rewrite E' in F'.
  injection F as <-. injection F' as <-. auto.
Qed.

(** *** C10: size consistency.  The molecule of the first call is a group of atoms of the
    molecule of the second call; all other atoms of the latter are farther than both
    cutoffs from every atom of the group. *)
Theorem C10_size_consistency :
  forall (p1 p2 : Disp N) a1 a2 kind kw n1 n2 c B1 B2 b1 b2 s d0,
  ext_tables X -> dist_contract d0 X ->
  well_formed X W p1 a1 kind kw n1 c B1 -> well_formed X W p2 a2 kind kw n2 c B2 ->
  own_wf kind kw -> valid B1 b1 -> valid B2 b2 ->
  same_settings n1 s p1 a1 b1 p2 a2 b2 ->
  embeds c n1 n2 s (a_numbers a1) (a_positions a1) b1 (a_numbers a2) (a_positions a2) b2 ->
  0 <= dat (c_disp3 (a_cut a1)) [] ->
  (forall i k, (i < n1)%nat -> (k < n2)%nat -> real_atom (a_numbers a1) b1 i ->
     real_atom (a_numbers a2) b2 k ->
     (forall j, (j < n1)%nat -> real_atom (a_numbers a1) b1 j -> s j <> k) ->
     let r := euclid c (sl2 (a_positions a2) b2 (s i)) (sl2 (a_positions a2) b2 k) in
     d0 <= r ^ 2 /\ dat (c_disp2 (a_cut a1)) [] < r /\ dat (c_disp3 (a_cut a1)) [] < r) ->
  (forall t1 t2,
     p_cn_fn p1 (p_cn_kw p1) (a_numbers a1) (a_positions a1) = Ok t1 ->
     p_cn_fn p2 (p_cn_kw p2) (a_numbers a2) (a_positions a2) = Ok t2 ->
     forall i, (i < n1)%nat -> real_atom (a_numbers a1) b1 i -> sl1 t2 b2 (s i) = sl1 t1 b1 i) ->
  (a_q a1 = None -> needs_charges p1 -> forall t1 t2,
     w_eeq W (a_numbers a1) (a_positions a1) (a_charge a1) (c_cn_eeq (a_cut a1)) = Ok t1 ->
     w_eeq W (a_numbers a2) (a_positions a2) (a_charge a2) (c_cn_eeq (a_cut a2)) = Ok t2 ->
     forall i, (i < n1)%nat -> real_atom (a_numbers a1) b1 i -> sl1 t2 b2 (s i) = sl1 t1 b1 i) ->
  exists e1 e2, run X W p1 a1 = Ok e1 /\ run X W p2 a2 = Ok e2 /\
    forall i, (i < n1)%nat -> real_atom (a_numbers a1) b1 i -> sl1 e2 b2 (s i) = sl1 e1 b1 i.
Proof.
  intros p1 p2 a1 a2 kind kw n1 n2 c B1 B2 b1 b2 s d0 HX HD WF1 WF2 HW V1 V2 ST EM C30 Hfar HCN HQ.
  destruct EM as [EN EI ED]. destruct ST as [T1 T2 T3 T4 T5 T6 T7 T8 T9].
  assert (EC := a_cut_eq a1 a2 T5). destruct HD as (gd & G1 & G2 & G3).
  destruct (run_rel X W p1 p2 a1 a2 kind kw n1 n2 c B1 B2 b1 b2 s) as (e1 & e2 & P);
    auto; try (now rewrite EC).
  - intros i Hi Ri. apply EN; auto. now apply real_atom_b.
  - intros i j Hi Hj Ri Rj. apply EI; auto; now apply real_atom_b.
  - intros i j Hi Hj Ri Rj. rewrite !G1. f_equal. symmetry. apply ED; auto; now apply real_atom_b.
  - intros i k Hi Hk Ri Rk O. apply real_atom_b in Ri, Rk.
    destruct (Hfar i k Hi Hk Ri Rk) as (L0 & L2 & L3).
    { intros j Hj Rj. apply O; auto. now apply real_atom_b. }
    rewrite G1. rewrite euclid_sqr in L0. rewrite G3 by auto. rewrite rpow_2.
    fold (euclid c (sl2 (a_positions a2) b2 (s i)) (sl2 (a_positions a2) b2 k)).
    split; auto. apply rleb_false. rewrite sqr_le_iff; auto using euclid_nonneg. now apply rleb_false.
  - intros t1 t2 E1 E2 i Hi Ri. apply real_atom_b in Ri. eapply HCN; eauto.
  - intros o1 o2 E1 E2 i Hi Ri. apply real_atom_b in Ri. unfold charges in E1, E2. unfold opt1 in T7.
    rewrite <- T1 in E2.
    destruct (a_q a1) as [q1|] eqn:EQ1, (a_q a2) as [q2|]; try contradiction.
    + injection E1 as <-. injection E2 as <-. simpl. apply T7; auto.
    + destruct (existsb _ _) eqn:EX.
      * destruct (w_eeq W (a_numbers a1) _ _ _) as [q1|] eqn:Q1; [|discriminate].
        destruct (w_eeq W (a_numbers a2) _ _ _) as [q2|] eqn:Q2; [|discriminate].
        injection E1 as <-. injection E2 as <-. simpl.
        apply needs_charges_b in EX. apply (HQ eq_refl EX q1 q2); auto.
      * injection E1 as <-. injection E2 as <-. reflexivity.
  - intros i Hi Ri. apply real_atom_b in Ri. eapply r4v_rel; eauto. now apply EN.
  - intros i j Hi Hj Ri Rj. apply real_atom_b in Ri, Rj. eapply rvv_rel; eauto; now apply EN.
  - intros i j Hi Hj Ri Rj. apply real_atom_b in Ri, Rj. apply wfv_rel; auto; now apply EN.
  - destruct P as (E1 & E2 & S1 & S2 & P & _ & _). exists e1, e2. repeat (split; [assumption|]).
    intros i Hi Ri. apply P; auto. now apply real_atom_b.
Qed.

(** *** C47: no net force and no net torque.  Along any family of rigid motions (translations
    [t * v], rotations about an axis, ...) the total energy has derivative zero. *)
Definition total_energy (r : res (tensor (sc N))) (n : nat) (b : list nat) : R :=
  match r with Ok e => rsum n (sl1 e b) | Raise _ => 0 end.

Theorem C47_no_net_force :
  forall (p : Disp N) a kind kw n c B O v (pos : R -> tensor (sc N)) b,
  ext_tables X -> dist_metric X -> cn_contract (p_cn_fn p (p_cn_kw p)) -> eeq_contract W ->
  (forall t, well_formed X W p (with_positions a (pos t)) kind kw n c B) ->
  own_wf kind kw -> valid B b ->
  (forall t b, valid B b -> orthogonal c (O t b)) ->
  (forall t b i k, valid B b -> (i < n)%nat -> (k < c)%nat ->
     sl2 (pos t) b i k = rigid c (O t b) (v t b) (sl2 (a_positions a) b i) k) ->
  (forall t, exists e, run X W p (with_positions a (pos t)) = Ok e) /\
  forall t, derivable_pt_lim (fun t => total_energy (run X W p (with_positions a (pos t))) n b) t 0.
Proof.
  intros p a kind kw n c B O v pos b HX HD HCN HQ WF HW Vb HO Hpos.
  assert (Q : forall t t', exists e e', run X W p (with_positions a (pos t)) = Ok e /\
     run X W p (with_positions a (pos t')) = Ok e' /\
     forall i, (i < n)%nat -> sl1 e' b i = sl1 e b i).
  { intros t t'.
    destruct (same_molecule_same_energy p p (with_positions a (pos t)) (with_positions a (pos t'))
        kind kw n n c B B b b (fun i => i))
      as (e1 & e2 & E1 & E2 & S1 & S2 & P & Z1 & Z2); auto.
    - split; auto; simpl.
      + destruct (a_q a); simpl; auto.
      + destruct (a_r4r2 a); simpl; auto.
      + destruct (a_rvdw a); simpl; auto.
    - split; [split|]; simpl; auto.
      + intros i j Hi Hj _ _.
        assert (G : forall t, sqd c (sl2 (pos t) b i) (sl2 (pos t) b j)
                    = sqd c (sl2 (a_positions a) b i) (sl2 (a_positions a) b j)); [|now rewrite !G].
        intros u. rewrite <- (rigid_sqd c (O u b) (v u b) (sl2 (a_positions a) b i)) by auto.
        unfold sqd. apply rsum_ext. intros k Hk. now rewrite !Hpos.
      + intros k Hk Rk. exists k. auto.
    - exists e1, e2. repeat (split; [assumption|]). intros i Hi.
      destruct (Z.eq_dec (sl1 (a_numbers a) b i) 0) as [E|E].
      + rewrite Z1, Z2; auto.
      + apply P; auto. }
  split.
  - intros t. destruct (Q t t) as (e & _ & E & _). eauto.
  - intros t. intros ep Hep. exists (mkposreal 1 Rlt_0_1). intros h Hh _.
    destruct (Q t (t + h)) as (e & e' & E & E' & G).
    unfold total_energy. rewrite E, E'. rewrite (rsum_ext n (sl1 e' b) (sl1 e b)) by auto.
    replace ((_ - _) / h - 0) with 0 by (field; auto). now rewrite Rabs_R0.
Qed.

End M.

Print Assumptions C05_padding_and_batching.
Print Assumptions C06_permutation_equivariance.
Print Assumptions C07_rigid_motion_invariance.
Print Assumptions C10_size_consistency.
Print Assumptions C47_no_net_force.

(** ** The hypotheses can be met *)
Section Ex.
Context (eps mx : R).
Notation N := (RN eps mx).
Notation Xe := (Xex eps mx). Notation We := (Wex eps mx). Notation Pe := (Pex eps mx).

Lemma Xex_contracts : ext_tables Xe /\ dist_metric (eps := eps) (mx := mx) Xe /\
  cn_contract (p_cn_fn Pe (p_cn_kw Pe)) /\ eeq_contract We /\ own_wf (eps := eps) (mx := mx) D4M no_kw.
Proof.
  split; [apply Xex_tables|]. split; [apply Xex_metric|]. split; [apply cn_ex_contract|].
  split; [apply eeq_ex_contract|]. left. reflexivity.
Qed.

(** carbon monoxide alone, and as molecule 1 of the batch, where it is padded to three atoms *)
Definition co : tensor Z := mkT [2%nat] (fun ix => match ix with [0%nat] => 6%Z | _ => 8%Z end).
Definition co_call : Args N := call co (line 2 [] 2).

Lemma co_wf : well_formed (N := N) Xe We Pe co_call D4M no_kw 2 3 [].
Proof.
  apply call_wf; auto. intros ix _. unfold co; cbn [dat].
  destruct ix as [|[|] [|]]; simpl; lia.
Qed.

Example C05_example :
  well_formed (N := N) Xe We Pe co_call D4M no_kw 2 3 [] /\
  well_formed (N := N) Xe We Pe mol_call D4M no_kw 3 3 [2%nat] /\
  valid [] [] /\ valid [2%nat] [1%nat] /\
  same_settings 2 (fun i => i) Pe co_call [] Pe mol_call [1%nat] /\
  (forall i, (i < 2)%nat -> sl1 two_mols [1%nat] i = sl1 co [] i) /\
  (forall i k, (i < 2)%nat -> (k < 3)%nat ->
     sl2 (a_positions (mol_call (eps := eps) (mx := mx))) [1%nat] i k = sl2 (a_positions co_call) [] i k) /\
  (forall k, (k < 3)%nat -> (forall i, (i < 2)%nat -> i <> k) -> sl1 two_mols [1%nat] k = 0%Z).
Proof.
  split; [apply co_wf|]. split; [apply mol_wf|]. split; [simpl; auto|]. split; [simpl; auto|].
  split; [split; try reflexivity; exact I|]. split; [|split].
  - intros [|[|i]] Hi; [reflexivity|reflexivity|lia].
  - intros i k Hi Hk. reflexivity.
  - intros [|[|[|k]]] Hk H; [|exfalso; now apply (H 1%nat); auto|reflexivity|lia].
    exfalso; now apply (H 0%nat); auto.
Qed.

(** carbon monoxide with the atoms exchanged *)
Definition sw (i : nat) : nat := match i with 0 => 1 | 1 => 0 | i => i end%nat.
Definition oc_call : Args N :=
  call (mkT [2%nat] (fun ix => match ix with [0%nat] => 8%Z | _ => 6%Z end))
       (mkT (A := sc N) [3; 2]%nat (fun ix => match ix with [k; i] => dat (line (eps := eps) (mx := mx) 2 [] 2) [k; sw i] | _ => 0 end)).

Example C06_example :
  well_formed (N := N) Xe We Pe oc_call D4M no_kw 2 3 [] /\
  same_settings 2 sw Pe co_call [] Pe oc_call [] /\
  (forall i, (i < 2)%nat -> (sw i < 2)%nat /\ (sw i < 2)%nat /\ sw (sw i) = i /\ sw (sw i) = i) /\
  (forall i, (i < 2)%nat -> sl1 (a_numbers oc_call) [] (sw i) = sl1 (a_numbers co_call) [] i) /\
  (forall i k, (i < 2)%nat -> (k < 3)%nat ->
     sl2 (a_positions oc_call) [] (sw i) k = sl2 (a_positions co_call) [] i k).
Proof.
  split. { apply call_wf; auto. intros ix _. cbn [dat]. destruct ix as [|[|] [|]]; simpl; lia. }
  split; [split; try reflexivity; exact I|].
  split; [|split].
  - intros [|[|i]] Hi; simpl; repeat split; lia.
  - intros [|[|i]] Hi; [reflexivity|reflexivity|lia].
  - intros [|[|i]] k Hi Hk; [reflexivity|reflexivity|lia].
Qed.

(** rotation by a quarter turn about the third axis, and a shift *)
Definition rot (k l : nat) : R :=
  match k, l with 0%nat, 1%nat => -1 | 1%nat, 0%nat => 1 | 2%nat, 2%nat => 1 | _, _ => 0 end.
Lemma rot_orthogonal : orthogonal 3 rot.
Proof.
  intros k l Hk Hl. destruct k as [|[|[|k]]], l as [|[|[|l]]]; try lia; simpl; ring.
Qed.
Definition moved (v : nat -> R) : tensor (sc N) :=
  mkT (A := sc N) [3; 3; 2]%nat (fun ix => match ix with
    | k :: i :: b => rigid 3 rot v (sl2 (line (eps := eps) (mx := mx) 3 [2%nat] 2) b i) k | _ => 0 end).

Example C07_example (v : nat -> R) :
  well_formed (N := N) Xe We Pe (with_positions mol_call (moved v)) D4M no_kw 3 3 [2%nat] /\
  orthogonal 3 rot /\
  forall b i k, sl2 (moved v) b i k = rigid 3 rot v (sl2 (a_positions (mol_call (eps := eps) (mx := mx))) b i) k.
Proof.
  split; [|split; [apply rot_orthogonal|reflexivity]].
  apply (call_wf eps mx two_mols (moved v) 3 3 [2%nat]); auto using two_mols_range.
Qed.

Example C47_example (v : nat -> R) :
  let pos := fun t : R => moved (fun k => t * v k) in
  (forall t, well_formed (N := N) Xe We Pe (with_positions mol_call (pos t)) D4M no_kw 3 3 [2%nat]) /\
  forall t b i k, sl2 (pos t) b i k
    = rigid 3 rot (fun k => t * v k) (sl2 (a_positions (mol_call (eps := eps) (mx := mx))) b i) k.
Proof. split; [intros t; apply (C07_example (fun k => t * v k))|reflexivity]. Qed.

(** two carbon monoxide molecules 1000 apart; charges are passed explicitly and the
    coordination numbers are those of a model with a finite range *)
Definition cn_local : CNFunc N :=
  fun _ numbers positions =>
    match shp positions with
    | c :: n :: B => Ok (mkT (A := sc N) (n :: B) (fun ix => match ix with
          | i :: b => rsum n (fun j => if real_pair (sl1 numbers b) i j
                        && rleb (sqd c (sl2 positions b i) (sl2 positions b j)) 900 then 1 else 0)
          | [] => 0 end))
    | _ => Raise RuntimeError
    end.
Definition Pl : Disp N := mkDisp (terms_d4 (N := N) Xe) cn_local None "d4" None no_kw.
Definition far4 : tensor (sc N) :=
  mkT (A := sc N) [3; 4]%nat (fun ix => match ix with
    | [k; i] => if Nat.eqb k 0 then nth i [0; 2; 1000; 1002] 0 else 0 | _ => 0 end).
Definition z4 : tensor Z := mkT [4%nat] (fun ix => match ix with [i] => nth i [6; 8; 6; 8]%Z 0%Z | _ => 0%Z end).
Definition q_ex (n : nat) : tensor (sc N) := mkT (A := sc N) [n] (fun _ => 1 / 10).
Definition co_q : Args N := set_q co_call (Some (q_ex 2)).
Definition co4_q : Args N := set_q (call z4 far4) (Some (q_ex 4)).

Example C10_example :
  well_formed (N := N) Xe We Pl co_q D4M no_kw 2 3 [] /\
  well_formed (N := N) Xe We Pl co4_q D4M no_kw 4 3 [] /\
  same_settings 2 (fun i => i) Pl co_q [] Pl co4_q [] /\
  embeds (eps := eps) (mx := mx) 3 2 4 (fun i => i) co (a_positions co_q) [] z4 far4 [] /\
  (forall i k, (i < 2)%nat -> (k < 4)%nat -> real_atom co [] i -> real_atom z4 [] k ->
     (forall j, (j < 2)%nat -> real_atom co [] j -> j <> k) ->
     let r := euclid 3 (sl2 far4 [] i) (sl2 far4 [] k) in
     0 <= r ^ 2 /\ dat (c_disp2 (a_cut co_q)) [] < r /\ dat (c_disp3 (a_cut co_q)) [] < r) /\
  (forall t1 t2, p_cn_fn Pl (p_cn_kw Pl) co (a_positions co_q) = Ok t1 ->
     p_cn_fn Pl (p_cn_kw Pl) z4 far4 = Ok t2 ->
     forall i, (i < 2)%nat -> real_atom co [] i -> sl1 t2 [] i = sl1 t1 [] i).
Proof.
  assert (SQ : forall i j, sqd 3 (sl2 far4 [] i) (sl2 far4 [] j)
     = (nth i [0; 2; 1000; 1002] 0 - nth j [0; 2; 1000; 1002] 0) ^ 2).
  { intros. unfold sqd, sl2, far4. simpl. ring. }
  assert (EU : forall i k, (i < 2)%nat -> (2 <= k < 4)%nat -> 998 <= euclid 3 (sl2 far4 [] i) (sl2 far4 [] k)).
  { intros i k Hi Hk. unfold euclid. rewrite SQ. rewrite <- (sqrt_pow2 998) by lra. apply sqrt_le_1_alt.
    destruct i as [|[|i]], k as [|[|[|[|k]]]]; try lia; simpl; lra. }
  split; [|split; [|split; [|split; [|split]]]].
  - destruct co_wf. constructor; auto.
    + intros _. eexists. split; [left; reflexivity|reflexivity].
    + simpl. eexists. split; reflexivity.
  - assert (H : well_formed (N := N) Xe We Pe (call z4 far4) D4M no_kw 4 3 []).
    { apply call_wf; auto. intros ix H. destruct ix as [|[|[|[|[|]]]] [|]]; simpl in *; lia. }
    destruct H. constructor; auto.
    + intros _. eexists. split; [left; reflexivity|reflexivity].
    + simpl. eexists. split; reflexivity.
  - split; try reflexivity; try exact I; intros i Hi _; reflexivity.
  - split.
    + intros [|[|i]] Hi _; [split; [lia|reflexivity]|split; [lia|reflexivity]|lia].
    + auto.
    + intros i j Hi Hj _ _. rewrite SQ. cbn [co_q set_q a_positions co_call call]. rewrite line_sqd.
      destruct i as [|[|i]], j as [|[|j]]; try lia; simpl; ring.
  - intros i k Hi Hk _ _ Hne r.
    assert (998 <= r).
    { apply EU; auto. split; auto. destruct k as [|[|k]]; [exfalso; apply (Hne 0%nat); [lia|discriminate|reflexivity]| |lia].
      exfalso. apply (Hne 1%nat); [lia|discriminate|reflexivity]. }
    split; [apply pow2_ge_0|].
    assert (E2 : dat (c_disp2 (a_cut co_q)) [] = 60) by (change (Q2R 60 = 60); unfold Q2R; simpl; lra).
    assert (E3 : dat (c_disp3 (a_cut co_q)) [] = 40) by (change (Q2R 40 = 40); unfold Q2R; simpl; lra).
    split; [rewrite E2; lra|rewrite E3; lra].
  - intros t1 t2 E1 E2 i Hi _.
    assert (V : forall numbers (positions : tensor (sc N)) n t, shp positions = [3; n]%nat ->
      cn_local None numbers positions = Ok t -> sl1 t [] i = rsum n (fun j => if real_pair (sl1 numbers []) i j
          && rleb (sqd 3 (sl2 positions [] i) (sl2 positions [] j)) 900 then 1 else 0)).
    { intros numbers positions n t H. unfold cn_local. rewrite H. intros Q. injection Q as <-. reflexivity. }
    rewrite (V z4 far4 4%nat t2 eq_refl E2), (V co (a_positions co_q) 2%nat t1 eq_refl E1).
    assert (F : forall i j, (i < 2)%nat -> (2 <= j < 4)%nat ->
      rleb (sqd 3 (sl2 far4 [] i) (sl2 far4 [] j)) 900 = false).
    { intros i' j Hi' Hj. apply rleb_false. rewrite SQ.
      destruct i' as [|[|i']], j as [|[|[|[|j]]]]; try lia; simpl; lra. }
    change (rsum 4 ?f) with (rsum 2 f + f 2%nat + f 3%nat).
    cbv beta. rewrite (F i 2%nat), (F i 3%nat), !andb_false_r, !Rplus_0_r by lia. apply rsum_ext. intros j Hj.
    replace (sqd 3 (sl2 far4 [] i) (sl2 far4 [] j))
      with (sqd 3 (sl2 (a_positions co_q) [] i) (sl2 (a_positions co_q) [] j)).
    2:{ rewrite SQ. cbn [co_q set_q a_positions co_call call]. rewrite line_sqd.
        destruct i as [|[|i]], j as [|[|j]]; try lia; simpl; ring. }
    destruct i as [|[|i]], j as [|[|j]]; try lia; reflexivity.
Qed.
End Ex.
