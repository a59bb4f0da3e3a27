(** * Three-body energies over the reals: proofs. *)
From Coq Require Import Reals Lra Lia List Arith ZArith QArith Qreals Bool String.
From Verif Require Import Py Tensor Scalar RInst ModelExt ModelUtils ModelDamping ModelModels
  ModelTerms TensorLemmas Closed ClosedTerms ClosedDamp SpecR EnergyR.
Import ListNotations.
Open Scope R_scope.

Lemma dot_law c p x y :
  dot c (fun k => x k - p k) (fun k => y k - p k) = (sqd c p x + sqd c p y - sqd c x y) / 2.
Proof.
  unfold dot, sqd. replace (rsum c (fun k => (p k - x k) ^ 2) + rsum c (fun k => (p k - y k) ^ 2)
    - rsum c (fun k => (x k - y k) ^ 2))
   with (rsum c (fun k => 2 * ((x k - p k) * (y k - p k)))).
  - rewrite rsum_scal_l. field.
  - rewrite <- rsum_plus.
    match goal with |- _ = ?a - ?b => replace (a - b) with (a + - b) by ring end.
    rewrite <- rsum_opp, <- rsum_plus. apply rsum_ext. intros. ring.
Qed.

Lemma euclid_sqr c x y : euclid c x y ^ 2 = sqd c x y.
Proof. unfold euclid. rewrite pow2_sqrt; auto. apply sqd_nonneg. Qed.

Lemma euclid_sym c x y : euclid c x y = euclid c y x.
Proof. unfold euclid. now rewrite sqd_sym. Qed.

Lemma euclid_nonneg c x y : 0 <= euclid c x y.
Proof. apply sqrt_pos. Qed.

Lemma sqr_le_iff a b : 0 <= a -> 0 <= b -> (rleb (a ^ 2) (b * b) = rleb a b).
Proof.
  intros Ha Hb. destruct (rleb a b) eqn:E.
  - apply rleb_true. apply rleb_true in E. nra.
  - apply rleb_false. apply rleb_false in E. nra.
Qed.

Section E3.
Context {eps mx : R} (X : Ext (RS eps mx)).
Notation K := (RS eps mx).

Definition triple_in (c : nat) (z : nat -> Z) (x : nat -> nat -> R) (cut : R) i j k : bool :=
  real_triple z i j k && rleb (euclid c (x i) (x j)) cut && rleb (euclid c (x j) (x k)) cut.

Lemma real_triple_pairs z i j k : real_triple z i j k = true ->
  real_pair z i j = true /\ real_pair z i k = true /\ real_pair z j k = true.
Proof.
  unfold real_triple. intros H. apply andb_true_iff in H as [H H3].
  apply andb_true_iff in H as [H1 H2]. auto.
Qed.

Section T.
Variables (c : nat) (num : nat -> Z) (pos : nat -> nat -> R) (c9 : nat -> nat -> nat -> R)
  (rad : nat -> nat -> R) (cut s9 alp d0 : R) (i j k : nat).
Hypothesis HD : dist_contract d0 X.
Hypothesis HV : div_contract X.
Hypothesis Hd0 : 0 < d0.
Hypothesis Hcut : 0 <= cut.
Hypothesis Sij : real_pair num i j = true -> d0 <= sqd c (pos i) (pos j).
Hypothesis Sik : real_pair num i k = true -> d0 <= sqd c (pos i) (pos k).
Hypothesis Sjk : real_pair num j k = true -> d0 <= sqd c (pos j) (pos k).
Hypothesis Rij : real_pair num i j = true -> 0 < rad i j.
Hypothesis Rik : real_pair num i k = true -> 0 < rad i k.
Hypothesis Rjk : real_pair num j k = true -> 0 < rad j k.

Lemma pd2_R a b : real_pair num a b = true -> d0 <= sqd c (pos a) (pos b) ->
  pd2 (K := K) X c num pos a b = euclid c (pos a) (pos b) ^ 2.
Proof.
  intros H S. destruct HD as (gd & G1 & G2 & G3).
  unfold pd2, pdist. rewrite pmask_real, H. rs. rewrite Q2R_2, rpow_2.
  rewrite G1, G3 by auto. reflexivity.
Qed.

Lemma euclid_pos a b : d0 <= sqd c (pos a) (pos b) -> 0 < euclid c (pos a) (pos b).
Proof. intros H. unfold euclid. apply sqrt_lt_R0. lra. Qed.

Lemma e3_triple_R :
  e3_triple (K := K) X c num pos c9 rad cut (zero_fac (K := K) X (flit 1) (alp / 3)) s9 i j k
  = if triple_in c num pos cut i j k
    then triple_energy c (pos i) (pos j) (pos k) (c9 i j k) (rad i j) (rad i k) (rad j k) s9 alp
    else 0.
Proof.
  unfold e3_triple, triple_in, angp. rewrite tmask_real.
  destruct (real_triple num i j k) eqn:E.
  2:{ cbn [andb]. rs. rewrite Q2R_0. ring. }
  destruct (real_triple_pairs _ _ _ _ E) as (P1 & P2 & P3).
  assert (D1 := pd2_R i j P1 (Sij P1)). assert (D2 := pd2_R i k P2 (Sik P2)).
  assert (D3 := pd2_R j k P3 (Sjk P3)).
  assert (E1 := euclid_pos i j (Sij P1)). assert (E2 := euclid_pos i k (Sik P2)).
  assert (E3 := euclid_pos j k (Sjk P3)).
  rewrite D1, D3. cbn [andb]. rs.
  rewrite !sqr_le_iff by (auto using euclid_nonneg).
  rewrite <- andb_assoc, andb_diag.
  destruct (rleb (euclid c (pos i) (pos j)) cut && rleb (euclid c (pos j) (pos k)) cut).
  2:{ rewrite Q2R_0. ring. }
  unfold fdp, r5p, r3p, sp. rewrite tmask_real, E.
  unfold r2p. rewrite D1, D2, D3. rs. unfold zero_fac, r0p. rs.
  unfold triple_energy, cos_at. rewrite !dot_law.
  rewrite <- !(euclid_sqr c).
  rewrite !(euclid_sym c (pos j) (pos i)), !(euclid_sym c (pos k)).
  set (x := euclid c (pos i) (pos j)) in *. set (y := euclid c (pos i) (pos k)) in *.
  set (w := euclid c (pos j) (pos k)) in *.
  replace (x ^ 2 * y ^ 2 * w ^ 2) with ((x * y * w) ^ 2) by ring.
  assert (Hxyw : 0 < x * y * w) by (repeat apply Rmult_lt_0_compat; auto).
  rewrite sqrt_pow2 by lra. rewrite HV by lra.
  autorewrite with q2r. rewrite Rmult_1_l.
  assert (Hr0 : 0 < rad i j * rad i k * rad j k)
    by (repeat apply Rmult_lt_0_compat; auto).
  rewrite rpow_pos by (apply Rdiv_lt_0_compat; auto).
  assert (HP : 0 < Rpower (rad i j * rad i k * rad j k / (x * y * w)) (alp / 3))
    by apply exp_pos.
  set (P := Rpower _ _) in *. field.
  repeat split; try lra.
Qed.
End T.

Section Three.
Variables (numbers : tensor Z) (positions c9 radii cutoff : tensor K) (s9p alpp : pval K).
Variables (n c : nat) (B : list nat) (s9 alp d0 : R).
Hypothesis Hn : shp numbers = n :: B.
Hypothesis Hp : shp positions = c :: n :: B.
Hypothesis Hc : shp c9 = n :: n :: n :: B.
Hypothesis Hr : shp radii = n :: n :: B.
Hypothesis Hs9 : isnum s9p s9.
Hypothesis Halp : isnum alpp alp.
Hypothesis Hcut : shp cutoff = [].
Hypothesis HD : dist_contract d0 X.
Hypothesis HV : div_contract X.
Hypothesis Hd0 : 0 < d0.
Hypothesis Hcp : 0 <= dat cutoff [].
Hypothesis HS : separated d0 numbers positions n c B.
Hypothesis HR : forall b i j, valid B b -> (i < n)%nat -> (j < n)%nat ->
  real_pair (sl1 numbers b) i j = true -> 0 < sl2 radii b i j.

Lemma atm_R :
  returns1 (get_atm_dispersion X numbers positions c9 radii cutoff (ZeroDamping X) s9p alpp) n B
    (fun b i => 1 / 6 * rsum n (fun j => rsum n (fun k =>
       if triple_in c (sl1 numbers b) (sl2 positions b) (dat cutoff []) i j k
       then triple_energy c (sl2 positions b i) (sl2 positions b j) (sl2 positions b k)
              (sl3 c9 b i j k) (sl2 radii b i j) (sl2 radii b i k) (sl2 radii b j k) s9 alp
       else 0))).
Proof.
  apply ev_returns1. eapply ev_conv.
  - eapply (get_atm_dispersion_ev X numbers positions c9 radii cutoff (ZeroDamping X) s9p alpp
              n c B (zero_fac (K := K) X (flit 1) (alp / 3)) s9 alp (dat cutoff [])); auto.
    + split; auto. intros ix Hix. destruct ix; [reflexivity|destruct Hix].
    + intros t Ht Ed. rs. rewrite Q2R_3 in Ed. apply (atm_elementwise X t (alp / 3) Ht Ed).
  - vsimp. unfold e3_atom. rs. rewrite !fsum_R, Q2R_6.
    unfold Rdiv. rewrite Rmult_1_l, Rmult_comm. f_equal.
    apply rsum_ext. intros j Hj. rewrite fsum_R. apply rsum_ext. intros k Hk.
    apply (e3_triple_R c _ _ _ _ _ s9 alp d0); auto.
Qed.
End Three.
End E3.
