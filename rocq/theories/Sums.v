(** * Sums over unordered pairs and triples; sums along bijections of subsets. *)
From Coq Require Import Reals Lra Lia List Arith Bool.
From Verif Require Import RInst SpecR.
Open Scope R_scope.

Lemma rsum_pairs n f :
  (forall i j, (i < n)%nat -> (j < n)%nat -> f i j = f j i) ->
  (forall i, (i < n)%nat -> f i i = 0) ->
  rsum n (fun i => rsum n (f i)) = 2 * pairs_sum n f.
Proof.
  intros Hs H0.
  rewrite (rsum_ext n _ (fun i => rsum n (fun j => if (i <? j)%nat then f i j else 0)
                                  + rsum n (fun j => if (j <? i)%nat then f j i else 0))).
  - rewrite rsum_plus. rewrite (rsum_swap n n (fun i j => if (j <? i)%nat then f j i else 0)).
    unfold pairs_sum. lra.
  - intros i Hi. rewrite <- rsum_plus. apply rsum_ext. intros j Hj.
    destruct (Nat.ltb_spec i j), (Nat.ltb_spec j i); try lia.
    + lra.
    + rewrite Hs; auto; lra.
    + assert (i = j) by lia. subst. rewrite H0; auto; lra.
Qed.

Definition S3 n (f : nat -> nat -> nat -> R) : R :=
  rsum n (fun i => rsum n (fun j => rsum n (fun k => f i j k))).

Lemma S3_swap12 n f : S3 n (fun i j k => f j i k) = S3 n f.
Proof. unfold S3. rewrite rsum_swap. reflexivity. Qed.

Lemma S3_swap23 n f : S3 n (fun i j k => f i k j) = S3 n f.
Proof. unfold S3. apply rsum_ext. intros. rewrite rsum_swap. reflexivity. Qed.

Lemma S3_plus n f g : S3 n (fun i j k => f i j k + g i j k) = S3 n f + S3 n g.
Proof.
  unfold S3. rewrite <- rsum_plus. apply rsum_ext. intros. rewrite <- rsum_plus.
  apply rsum_ext. intros. rewrite <- rsum_plus. reflexivity.
Qed.

Lemma S3_ext n f g :
  (forall i j k, (i < n)%nat -> (j < n)%nat -> (k < n)%nat -> f i j k = g i j k) -> S3 n f = S3 n g.
Proof. intros H. unfold S3. do 3 (apply rsum_ext; intros). auto. Qed.

Lemma rsum_triples n f :
  (forall i j k, (i < n)%nat -> (j < n)%nat -> (k < n)%nat -> f i j k = f j i k) ->
  (forall i j k, (i < n)%nat -> (j < n)%nat -> (k < n)%nat -> f i j k = f i k j) ->
  (forall i j k, (i < n)%nat -> (j < n)%nat -> (k < n)%nat -> i = j \/ i = k \/ j = k -> f i j k = 0) ->
  S3 n f = 6 * triples_sum n f.
Proof.
  intros H12 H23 H0.
  set (g := fun i j k => if ((i <? j) && (j <? k))%nat then f i j k else 0).
  assert (E : S3 n f = S3 n (fun i j k => g i j k + g i k j + g j i k + g j k i + g k i j + g k j i)).
  { apply S3_ext. intros i j k Hi Hj Hk. unfold g.
    assert (E1 : f i k j = f i j k) by (symmetry; auto).
    assert (E2 : f j i k = f i j k) by (symmetry; auto).
    assert (E3 : f j k i = f i j k) by (rewrite H23; auto).
    assert (E4 : f k i j = f i j k) by (rewrite H12; auto).
    assert (E5 : f k j i = f i j k) by (rewrite H23; auto).
    rewrite E1, E2, E3, E4, E5.
    destruct (Nat.ltb_spec i j), (Nat.ltb_spec i k), (Nat.ltb_spec j i), (Nat.ltb_spec j k),
      (Nat.ltb_spec k i), (Nat.ltb_spec k j); try lia; simpl; try lra;
    rewrite H0; auto; try lra; lia. }
  rewrite E, !S3_plus.
  rewrite (S3_swap23 n g), (S3_swap12 n g).
  assert (A : S3 n (fun i j k => g j k i) = S3 n g).
  { rewrite <- (S3_swap12 n (fun i j k => g j k i)). cbv beta.
    rewrite (S3_swap23 n g). reflexivity. }
  assert (A' : S3 n (fun i j k => g k i j) = S3 n g).
  { rewrite <- (S3_swap23 n (fun i j k => g k i j)). cbv beta.
    rewrite (S3_swap12 n g). reflexivity. }
  assert (A'' : S3 n (fun i j k => g k j i) = S3 n g).
  { rewrite <- (S3_swap12 n (fun i j k => g k j i)). cbv beta. exact A'. }
  rewrite A, A', A''. unfold S3, g, triples_sum. lra.
Qed.

(** Sums that vanish outside of [P] (resp. [Q]), along a bijection of [P] with [Q]. *)
Lemma rsum_bij n n' (P Q : nat -> bool) (s : nat -> nat) f g :
  (forall i, (i < n)%nat -> P i = true -> (s i < n')%nat) ->
  (forall i j, (i < n)%nat -> (j < n)%nat -> P i = true -> P j = true -> s i = s j -> i = j) ->
  (forall k, (k < n')%nat -> Q k = true -> exists i, (i < n)%nat /\ P i = true /\ s i = k) ->
  (forall i, (i < n)%nat -> P i = true -> g (s i) = f i) ->
  (forall i, (i < n)%nat -> P i = false -> f i = 0) ->
  (forall k, (k < n')%nat -> Q k = false -> g k = 0) ->
  rsum n' g = rsum n f.
Proof.
  intros Hb Hi Hs Hg Hf0 Hg0.
  rewrite (rsum_ext n' g (fun k => rsum n (fun i => if P i && Nat.eqb (s i) k then f i else 0))).
  - rewrite rsum_swap. apply rsum_ext. intros i Hi'.
    destruct (P i) eqn:EP.
    + rewrite (rsum_single n' (s i)); auto.
      * simpl. now rewrite Nat.eqb_refl.
      * intros k Hk Hne. simpl. destruct (Nat.eqb_spec (s i) k); auto. congruence.
    + simpl. rewrite Hf0 by auto. now apply rsum_0.
  - intros k Hk. destruct (Q k) eqn:EQ.
    + destruct (Hs k Hk EQ) as (i & Hi' & EP & <-).
      rewrite (rsum_single n i); auto.
      * rewrite EP, Nat.eqb_refl. simpl. auto.
      * intros j Hj Hne. destruct (P j) eqn:EPj; simpl; auto.
        destruct (Nat.eqb_spec (s j) (s i)); auto. exfalso. apply Hne, Hi; auto.
    + rewrite Hg0 by auto. symmetry. apply rsum_0. intros i Hi'.
      destruct (P i) eqn:EP; simpl; auto. destruct (Nat.eqb_spec (s i) k); auto.
      subst. rewrite <- Hg by auto. auto.
Qed.
