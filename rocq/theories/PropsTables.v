(** * Consistency of the shipped reference tables (C38) *)
From Coq Require Import Reals Lra Lia List Arith ZArith QArith Qreals Bool.
From Verif Require Import Py Tensor Scalar DataRef DataAlpha DataPair ModelUtils RInst.
Import ListNotations.

(** ** Specification: the tables as plain functions of element and reference *)
(** number of Gaussians of reference [r] of element [z]; the reference exists iff positive *)
Definition n_gauss (z r : nat) : Z := dat refc [r; z].
Definition exists_ref (z r : nat) : Prop := (0 < n_gauss z r)%Z.
(** its coordination number *)
Definition cn_ref (z r : nat) : R := dat (@refcovcn (RS 0 0)) [r; z].
(** its secondary system and raw dynamic polarizabilities *)
Definition sys_ref (z r : nat) : Z := dat refsys [r; z].
Definition alpha_ref (z r w : nat) : R := dat (@refalpha (RS 0 0)) [w; r; z].
(** pair weighting factors of D4S *)
Definition wf_pair (z1 z2 : nat) : R := dat (@WFPAIR (RS 0 0)) [z2; z1].

(** ** Proofs *)
Lemma forallb_seq n f : forallb f (seq 0 n) = true <-> forall i, (i < n)%nat -> f i = true.
Proof.
  rewrite forallb_forall. split; intros H i Hi; apply H; [apply in_seq; lia|apply in_seq in Hi; lia].
Qed.

Lemma all2 n m f : forallb (fun i => forallb (f i) (seq 0 m)) (seq 0 n) = true ->
  forall i j, (i < n)%nat -> (j < m)%nat -> f i j = true.
Proof. intros H i j Hi Hj. rewrite forallb_seq in H. specialize (H i Hi). rewrite forallb_seq in H. auto. Qed.

Lemma all3 n m l f : forallb (fun i => forallb (fun j => forallb (f i j) (seq 0 l)) (seq 0 m)) (seq 0 n) = true ->
  forall i j k, (i < n)%nat -> (j < m)%nat -> (k < l)%nat -> f i j k = true.
Proof.
  intros H i j k Hi Hj Hk. assert (F := all2 n m (fun i j => forallb (f i j) (seq 0 l)) H i j Hi Hj).
  rewrite forallb_seq in F. auto.
Qed.

Definition cn_int (z r : nat) : Z := nth r (nth z refcovcn_tab []) 0%Z.
Definition al_int (z r w : nat) : Z := nth w (nth r (nth z refalpha_tab []) []) 0%Z.
Definition wfp_int (z1 z2 : nat) : Z := nth (119 * z1 + z2) wfpair_tab 0%Z.

Lemma Q2R_frac a d : Q2R (a # d) = (IZR a / IZR (Zpos d))%R.
Proof. reflexivity. Qed.

Lemma cn_ref_int z r : cn_ref z r = (IZR (cn_int z r) / IZR (Zpos refcovcn_tab_dec))%R.
Proof. reflexivity. Qed.
Lemma alpha_ref_int z r w : alpha_ref z r w = (IZR (al_int z r w) / IZR (Zpos refalpha_tab_dec))%R.
Proof. reflexivity. Qed.
Lemma wf_pair_int z1 z2 : wf_pair z1 z2 = (IZR (wfp_int z1 z2) / IZR (Zpos wfpair_tab_dec))%R.
Proof. reflexivity. Qed.

Lemma frac_lt a b d : (a < b)%Z -> (IZR a / IZR (Zpos d) < IZR b / IZR (Zpos d))%R.
Proof.
  intros H. assert (0 < IZR (Zpos d))%R by (apply IZR_lt; lia). apply Rmult_lt_compat_r.
  - now apply Rinv_0_lt_compat.
  - now apply IZR_lt.
Qed.
Lemma frac_le a b d : (a <= b)%Z -> (IZR a / IZR (Zpos d) <= IZR b / IZR (Zpos d))%R.
Proof.
  intros H. assert (0 < IZR (Zpos d))%R by (apply IZR_lt; lia). apply Rmult_le_compat_r.
  - apply Rlt_le. now apply Rinv_0_lt_compat.
  - now apply IZR_le.
Qed.
Lemma frac_0 d : (IZR 0 / IZR (Zpos d) = 0)%R.
Proof. unfold Rdiv. ring. Qed.

Theorem C38_reference_counts :
  forall z r, (z <= 103)%nat -> (r < 7)%nat -> n_gauss z r = 0%Z \/ n_gauss z r = 1%Z \/ n_gauss z r = 3%Z.
Proof.
  assert (H : forallb (fun z => forallb (fun r => (n_gauss z r =? 0)%Z || (n_gauss z r =? 1)%Z || (n_gauss z r =? 3)%Z)
     (seq 0 7)) (seq 0 104) = true) by (vm_compute; reflexivity).
  intros z r Hz Hr. apply (all2 104 7 _ H z r) in Hr; [|lia].
  apply orb_true_iff in Hr as [Hr|Hr]; [apply orb_true_iff in Hr as [Hr|Hr]|]; apply Z.eqb_eq in Hr; auto.
Qed.

Theorem C38_padding_has_no_references : forall r, (r < 7)%nat -> ~ exists_ref 0 r.
Proof.
  assert (H : forallb (fun r => (n_gauss 0 r =? 0)%Z) (seq 0 7) = true) by (vm_compute; reflexivity).
  intros r Hr E. rewrite forallb_seq in H. apply H in Hr. apply Z.eqb_eq in Hr. unfold exists_ref in E. lia.
Qed.

(** Every element has exactly one existing reference of maximal coordination number; no entry of
    the element's row is larger. *)
Theorem C38_unique_maximal_cn :
  forall z, (1 <= z <= 103)%nat -> exists r, (r < 7)%nat /\ exists_ref z r /\
    (forall s, (s < 7)%nat -> (cn_ref z s <= cn_ref z r)%R) /\
    (forall s, (s < 7)%nat -> exists_ref z s -> s <> r -> (cn_ref z s < cn_ref z r)%R).
Proof.
  assert (H : forallb (fun z => existsb (fun r => (0 <? n_gauss (S z) r)%Z &&
     forallb (fun s => (cn_int (S z) s <=? cn_int (S z) r)%Z) (seq 0 7) &&
     forallb (fun s => (s =? r)%nat || negb (0 <? n_gauss (S z) s)%Z || (cn_int (S z) s <? cn_int (S z) r)%Z) (seq 0 7))
     (seq 0 7)) (seq 0 103) = true) by (vm_compute; reflexivity).
  intros z Hz. destruct z as [|z]; [lia|]. rewrite forallb_seq in H. specialize (H z ltac:(lia)).
  apply existsb_exists in H as (r & Hr & H). apply in_seq in Hr.
  apply andb_true_iff in H as [H H3]. apply andb_true_iff in H as [H1 H2].
  apply Z.ltb_lt in H1. rewrite forallb_seq in H2, H3.
  exists r. split; [lia|]. split; [exact H1|]. rewrite !cn_ref_int. split.
  - intros s Hs. apply H2 in Hs. apply Z.leb_le in Hs. rewrite cn_ref_int. now apply frac_le.
  - intros s Hs Es Ne. apply H3 in Hs. rewrite cn_ref_int. apply frac_lt.
    apply orb_true_iff in Hs as [Hs|Hs]; [apply orb_true_iff in Hs as [Hs|Hs]|].
    + apply Nat.eqb_eq in Hs. contradiction.
    + unfold exists_ref in Es. apply Z.ltb_lt in Es. rewrite Es in Hs. discriminate.
    + now apply Z.ltb_lt.
Qed.

Theorem C38_cn_nonneg : forall z r, (z <= 103)%nat -> (r < 7)%nat -> (0 <= cn_ref z r <= 20)%R.
Proof.
  assert (H : forallb (fun z => forallb (fun r => (0 <=? cn_int z r)%Z && (cn_int z r <=? 20 * Zpos refcovcn_tab_dec)%Z)
     (seq 0 7)) (seq 0 104) = true) by (vm_compute; reflexivity).
  intros z r Hz Hr. apply (all2 104 7 _ H z r) in Hr; [|lia]. rewrite cn_ref_int.
  apply andb_true_iff in Hr as [H1 H2]. apply Z.leb_le in H1, H2. split.
  - rewrite <- (frac_0 refcovcn_tab_dec). now apply frac_le.
  - replace 20%R with (IZR (20 * Zpos refcovcn_tab_dec) / IZR (Zpos refcovcn_tab_dec))%R.
    + now apply frac_le.
    + rewrite mult_IZR. field. apply not_0_IZR. discriminate.
Qed.

(** Existing references have a secondary system in 1..17 and some non-zero polarizability; absent
    ones have secondary system 0 and zero polarizability. *)
Theorem C38_secondary_systems :
  forall z r, (z <= 103)%nat -> (r < 7)%nat ->
  (exists_ref z r -> (1 <= sys_ref z r <= 17)%Z /\ exists w, (w < 23)%nat /\ alpha_ref z r w <> 0%R) /\
  (~ exists_ref z r -> sys_ref z r = 0%Z /\ forall w, (w < 23)%nat -> alpha_ref z r w = 0%R).
Proof.
  assert (H : forallb (fun z => forallb (fun r =>
     if (0 <? n_gauss z r)%Z then (1 <=? sys_ref z r)%Z && (sys_ref z r <=? 17)%Z &&
        existsb (fun w => negb (al_int z r w =? 0)%Z) (seq 0 23)
     else (sys_ref z r =? 0)%Z && forallb (fun w => (al_int z r w =? 0)%Z) (seq 0 23))
     (seq 0 7)) (seq 0 104) = true) by (vm_compute; reflexivity).
  intros z r Hz Hr. apply (all2 104 7 _ H z r) in Hr; [|lia]. cbv beta in Hr. clear H.
  assert (P : (0 < IZR (Zpos refalpha_tab_dec))%R) by (apply IZR_lt; lia).
  unfold exists_ref. split; intros E.
  - apply Z.ltb_lt in E. rewrite E in Hr. apply andb_true_iff in Hr as [Hr H3].
    apply andb_true_iff in Hr as [H1 H2]. apply Z.leb_le in H1, H2. split; [lia|].
    apply existsb_exists in H3 as (w & Hw & H3). apply in_seq in Hw. exists w. split; [lia|].
    rewrite alpha_ref_int. apply negb_true_iff, Z.eqb_neq in H3. intros F.
    apply H3, eq_IZR. unfold Rdiv in F. apply Rmult_integral in F as [F|F]; auto.
    exfalso. revert F. apply Rinv_neq_0_compat. lra.
  - destruct (Z.ltb_spec 0 (n_gauss z r)); [contradiction|].
    apply andb_true_iff in Hr as [H1 H2]. apply Z.eqb_eq in H1. split; auto.
    intros w Hw. rewrite forallb_seq in H2. apply H2 in Hw. apply Z.eqb_eq in Hw.
    rewrite alpha_ref_int, Hw. apply frac_0.
Qed.

(** the pair table row by row, to look entries up faster *)
Fixpoint chunk (k m : nat) (l : list Z) : list (list Z) :=
  match k with O => [] | S k => firstn m l :: chunk k m (skipn m l) end.
Lemma nth_firstn' m : forall j (l : list Z), (j < m)%nat -> nth j (firstn m l) 0%Z = nth j l 0%Z.
Proof.
  induction m as [|m IH]; intros j l H; [lia|]. destruct l as [|x l]; [now destruct j|].
  destruct j as [|j]; [reflexivity|]. simpl. apply IH. lia.
Qed.
Lemma nth_skipn' m : forall i (l : list Z), nth i (skipn m l) 0%Z = nth (m + i) l 0%Z.
Proof.
  induction m as [|m IH]; intros i l; [reflexivity|]. destruct l as [|x l]; [now destruct i|].
  simpl. apply IH.
Qed.
Lemma nth_chunk n m : forall k j (l : list Z), (k < n)%nat -> (j < m)%nat ->
  nth j (nth k (chunk n m l) []) 0%Z = nth (m * k + j) l 0%Z.
Proof.
  induction n as [|n IH]; intros k j l Hk Hj; [lia|]. destruct k as [|k]; cbn [chunk nth].
  - rewrite nth_firstn' by auto. f_equal. lia.
  - rewrite IH, nth_skipn' by lia. f_equal. lia.
Qed.
Definition wfp_rows : list (list Z) := Eval vm_compute in chunk 119 119 wfpair_tab.
Lemma wfp_rows_ok z1 z2 : (z1 < 119)%nat -> (z2 < 119)%nat -> wfp_int z1 z2 = nth z2 (nth z1 wfp_rows []) 0%Z.
Proof.
  intros H1 H2. unfold wfp_int. rewrite <- (nth_chunk 119 119) by auto.
  replace (chunk 119 119 wfpair_tab) with wfp_rows by (vm_compute; reflexivity). reflexivity.
Qed.

Theorem C38_pair_factors :
  forall z1 z2, (z1 <= 103)%nat -> (z2 <= 103)%nat ->
  wf_pair z1 z2 = wf_pair z2 z1 /\
  ((1 <= z1)%nat -> (1 <= z2)%nat -> (0 < wf_pair z1 z2)%R) /\
  ((z1 = 0 \/ z2 = 0)%nat -> wf_pair z1 z2 = 0%R).
Proof.
  assert (H : forallb (fun z1 => forallb (fun z2 => let w z1 z2 := nth z2 (nth z1 wfp_rows []) 0%Z in
     (w z1 z2 =? w z2 z1)%Z && (if (z1 =? 0)%nat || (z2 =? 0)%nat then (w z1 z2 =? 0)%Z else (0 <? w z1 z2)%Z))
     (seq 0 104)) (seq 0 104) = true) by (vm_compute; reflexivity).
  intros z1 z2 H1 H2. assert (Q := all2 104 104 _ H z1 z2 ltac:(lia) ltac:(lia)). cbv beta zeta in Q. clear H.
  rewrite <- !wfp_rows_ok in Q by lia. apply andb_true_iff in Q as [Q1 Q2]. apply Z.eqb_eq in Q1. rewrite !wf_pair_int. split; [|split].
  - now rewrite Q1.
  - intros L1 L2. destruct (Nat.eqb_spec z1 0); [lia|]. destruct (Nat.eqb_spec z2 0); [lia|].
    cbn [orb] in Q2. apply Z.ltb_lt in Q2. rewrite <- (frac_0 wfpair_tab_dec). now apply frac_lt.
  - intros L. replace ((z1 =? 0)%nat || (z2 =? 0)%nat) with true in Q2.
    + apply Z.eqb_eq in Q2. rewrite Q2. apply frac_0.
    + symmetry. apply orb_true_iff. destruct L as [->| ->]; auto.
Qed.

(** The quadrature weights are positive. *)
Definition trap_pos (tab : list Z) : bool := forallb (fun w => (0 <? nth w tab 0)%Z) (seq 0 23).
Lemma trap_all_pos : trap_pos trapzd_weights_tab && trap_pos trapzd_noref_weights_tab && trap_pos trapzd_atm_weights_tab = true.
Proof. vm_compute. reflexivity. Qed.
Lemma trap_same : forallb (fun w => (nth w trapzd_weights_tab 0 =? nth w trapzd_noref_weights_tab 0)%Z &&
  (nth w trapzd_weights_tab 0 =? nth w trapzd_atm_weights_tab 0)%Z) (seq 0 23) = true.
Proof. vm_compute. reflexivity. Qed.

(** concrete entries: carbon has seven references, the fifth (index 4) with the largest
    coordination number 3.7487 *)
Example C38_example : exists_ref 6 4 /\ cn_ref 6 4 = (374870030209262 / 100000000000000)%R /\
  sys_ref 1 1 = 1%Z /\ wf_pair 1 6 <> 0%R.
Proof.
  split; [reflexivity|]. split; [reflexivity|]. split; [reflexivity|].
  apply Rgt_not_eq. apply (C38_pair_factors 1 6); lia.
Qed.

Print Assumptions C38_reference_counts.
Print Assumptions C38_padding_has_no_references.
Print Assumptions C38_unique_maximal_cn.
Print Assumptions C38_cn_nonneg.
Print Assumptions C38_secondary_systems.
Print Assumptions C38_pair_factors.
