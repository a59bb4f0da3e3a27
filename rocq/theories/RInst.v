(** * Exact real arithmetic as an instance of [Scalar].

    [RS eps mx]: the real numbers; [eps] and [mx] stand for [torch.finfo(dtype).eps]
    and [.max] of the working dtype (any values).  Theorems about energies and
    coefficients are about this instance; rounding is not part of them. *)
From Coq Require Import Reals Lra Lia Arith ZArith QArith Qreals List Bool.
From Verif Require Import Py Tensor Scalar.
Import ListNotations.
Open Scope R_scope.

(** [torch.pow(x, y)] on the reals: [exp (y ln x)] for a positive base; at [x = 0]
    the values 1 ([y = 0]) and 0 ([y > 0]); for a negative base only integer
    exponents are meaningful.  All other cases (infinite or NaN in floating point)
    have the junk value 0; theorems only use positive bases or integer exponents. *)
Definition rpow (x y : R) : R :=
  if Rlt_dec 0 x then Rpower x y
  else if Req_EM_T x 0 then (if Req_EM_T y 0 then 1 else 0)
  else if Req_EM_T y (IZR (Rdefinitions.up y - 1)) then powerRZ x (Rdefinitions.up y - 1) else 0.

Definition rltb (x y : R) : bool := if Rlt_dec x y then true else false.
Definition rleb (x y : R) : bool := if Rle_dec x y then true else false.
Definition reqb (x y : R) : bool := if Req_EM_T x y then true else false.

Definition RS (eps mx : R) : Scalar :=
  mkScalar R Rplus Rminus Rmult Rdiv Ropp exp sqrt Rabs rpow pow rltb rleb reqb
           (fun _ => false) Rmax mx eps Q2R in_order.

(** working dtype and double are both exact *)
Definition RN (eps mx : R) : Num :=
  mkNum (RS eps mx) (RS eps mx) (fun x => x) (fun x => x).

(** ** Elementary facts *)
Lemma rltb_true x y : rltb x y = true <-> x < y.
Proof. unfold rltb. destruct (Rlt_dec x y); split; intros; auto; discriminate. Qed.
Lemma rltb_false x y : rltb x y = false <-> y <= x.
Proof. unfold rltb. destruct (Rlt_dec x y); split; intros; auto; try discriminate; lra. Qed.
Lemma rleb_true x y : rleb x y = true <-> x <= y.
Proof. unfold rleb. destruct (Rle_dec x y); split; intros; auto; discriminate. Qed.
Lemma rleb_false x y : rleb x y = false <-> y < x.
Proof. unfold rleb. destruct (Rle_dec x y); split; intros; auto; try discriminate; lra. Qed.
Lemma reqb_true x y : reqb x y = true <-> x = y.
Proof. unfold reqb. destruct (Req_EM_T x y); split; intros; auto; discriminate. Qed.
Lemma reqb_false x y : reqb x y = false <-> x <> y.
Proof. unfold reqb. destruct (Req_EM_T x y); split; intros; auto; try discriminate; contradiction. Qed.

Lemma rpow_pos x y : 0 < x -> rpow x y = Rpower x y.
Proof. intros. unfold rpow. destruct (Rlt_dec 0 x); auto; contradiction. Qed.

Lemma rpow_nat x n : 0 < x -> rpow x (INR n) = x ^ n.
Proof. intros. rewrite rpow_pos, Rpower_pow; auto. Qed.

Lemma up_int z : (Rdefinitions.up (IZR z) - 1)%Z = z.
Proof.
  destruct (archimed (IZR z)) as [H1 H2].
  assert (IZR z < IZR (Rdefinitions.up (IZR z))) by lra. apply lt_IZR in H.
  assert (IZR (Rdefinitions.up (IZR z)) <= IZR z + 1) by lra.
  rewrite <- plus_IZR in H0. apply le_IZR in H0. lia.
Qed.

Lemma rpow_2 x : rpow x 2 = x ^ 2.
Proof.
  unfold rpow. destruct (Rlt_dec 0 x).
  - replace 2 with (INR 2) by (simpl; lra). now rewrite Rpower_pow.
  - destruct (Req_EM_T x 0).
    + subst. destruct (Req_EM_T 2 0); [lra|]. simpl; lra.
    + rewrite (up_int 2). destruct (Req_EM_T 2 2); [|lra]. reflexivity.
Qed.

Lemma Q2R_0 : Q2R 0 = 0.
Proof. unfold Q2R; simpl; lra. Qed.
Lemma Q2R_1 : Q2R 1 = 1.
Proof. unfold Q2R; simpl; lra. Qed.
Lemma Q2R_Z z : Q2R (inject_Z z) = IZR z.
Proof. unfold Q2R; simpl; lra. Qed.

(** ** Finite sums *)
Fixpoint rsum (n : nat) (f : nat -> R) : R :=
  match n with O => 0 | S k => rsum k f + f k end.

Lemma fsum_R eps mx n f : @fsum (RS eps mx) n f = rsum n f.
Proof.
  induction n as [|n IH].
  - exact Q2R_0.
  - change (@fsum (RS eps mx) (S n) f) with (@fsum (RS eps mx) n f + f n). now rewrite IH.
Qed.

(** sums in any order *)
Fixpoint lsum (l : list nat) (g : nat -> R) : R := match l with nil => 0 | cons k r => g k + lsum r g end.
Lemma lsum_app l m g : lsum (l ++ m) g = lsum l g + lsum m g.
Proof. induction l as [|k l IH]; cbn [lsum app]; [lra|]. rewrite IH. lra. Qed.
Lemma lsum_perm l m g : Permutation.Permutation l m -> lsum l g = lsum m g.
Proof. induction 1; cbn [lsum]; lra. Qed.
Lemma lsum_seq n g : lsum (seq 0 n) g = rsum n g.
Proof. induction n as [|n IH]; [reflexivity|]. rewrite seq_S, lsum_app, IH. cbn [lsum rsum Nat.add]. lra. Qed.

Lemma feval_R eps mx n (p : plan n) f : @feval (RS eps mx) (proj1_sig p) f = rsum n f.
Proof.
  destruct p as (t & P). cbn [proj1_sig]. rewrite <- lsum_seq, <- (lsum_perm _ _ f P). clear P.
  induction t as [|k|a IHa b IHb]; cbn [leaves feval lsum]; [exact Q2R_0|lra|]. rewrite lsum_app, IHa, IHb. reflexivity.
Qed.

Lemma rsum_ext n f g : (forall i, (i < n)%nat -> f i = g i) -> rsum n f = rsum n g.
Proof. induction n; simpl; intros H; auto. rewrite IHn, H; auto. Qed.

Lemma rsum_0 n f : (forall i, (i < n)%nat -> f i = 0) -> rsum n f = 0.
Proof. induction n; simpl; intros H; auto. rewrite IHn, H; auto; lra. Qed.

Lemma rsum_plus n f g : rsum n (fun i => f i + g i) = rsum n f + rsum n g.
Proof. induction n; simpl; [lra|]. rewrite IHn; lra. Qed.

Lemma rsum_opp n f : rsum n (fun i => - f i) = - rsum n f.
Proof. induction n; simpl; [lra|]. rewrite IHn; lra. Qed.

Lemma rsum_scal_l n a f : rsum n (fun i => a * f i) = a * rsum n f.
Proof. induction n; simpl; [lra|]. rewrite IHn; lra. Qed.

Lemma rsum_scal_r n a f : rsum n (fun i => f i * a) = rsum n f * a.
Proof. induction n; simpl; [lra|]. rewrite IHn; lra. Qed.

Lemma rsum_swap n m f :
  rsum n (fun i => rsum m (fun j => f i j)) = rsum m (fun j => rsum n (fun i => f i j)).
Proof.
  induction n; simpl.
  - symmetry. now apply rsum_0.
  - rewrite IHn, <- rsum_plus. reflexivity.
Qed.

Lemma rsum_nonneg n f : (forall i, (i < n)%nat -> 0 <= f i) -> 0 <= rsum n f.
Proof.
  induction n; simpl; intros H; [lra|].
  assert (0 <= rsum n f) by auto. assert (0 <= f n) by auto. lra.
Qed.

Lemma rsum_le n f g : (forall i, (i < n)%nat -> f i <= g i) -> rsum n f <= rsum n g.
Proof.
  induction n; simpl; intros H; [lra|].
  assert (rsum n f <= rsum n g) by auto. assert (f n <= g n) by auto. lra.
Qed.

Lemma rsum_pos n f k : (forall i, (i < n)%nat -> 0 <= f i) -> (k < n)%nat -> 0 < f k ->
  0 < rsum n f.
Proof.
  induction n; simpl; intros H Hk Hp; [lia|].
  assert (0 <= rsum n f) by (apply rsum_nonneg; auto).
  destruct (Nat.eq_dec k n).
  - subst. lra.
  - assert (0 < rsum n f) by (apply IHn; auto; lia). assert (0 <= f n) by auto. lra.
Qed.

Lemma rsum_single n k f : (k < n)%nat -> (forall i, (i < n)%nat -> i <> k -> f i = 0) ->
  rsum n f = f k.
Proof.
  induction n; simpl; intros Hk H; [lia|].
  destruct (Nat.eq_dec k n).
  - subst. rewrite rsum_0; [lra|]. intros. apply H; lia.
  - rewrite IHn, (H n) by (auto; try lia; intros; apply H; lia). lra.
Qed.

(** Reindexing along an injection into a larger index set, with zeros elsewhere. *)
Lemma rsum_reindex n n' (s : nat -> nat) f g :
  (forall i, (i < n)%nat -> (s i < n')%nat) ->
  (forall i j, (i < n)%nat -> (j < n)%nat -> s i = s j -> i = j) ->
  (forall i, (i < n)%nat -> g (s i) = f i) ->
  (forall k, (k < n')%nat -> (forall i, (i < n)%nat -> s i <> k) -> g k = 0) ->
  rsum n' g = rsum n f.
Proof.
  intros Hb Hi Hg H0.
  rewrite (rsum_ext n' g (fun k => rsum n (fun i => if Nat.eqb (s i) k then f i else 0))).
  - rewrite rsum_swap. apply rsum_ext. intros i Hi'.
    rewrite (rsum_single n' (s i)); auto.
    + now rewrite Nat.eqb_refl.
    + intros k Hk Hne. destruct (Nat.eqb_spec (s i) k); auto. congruence.
  - intros k Hk. destruct (existsb (fun i => Nat.eqb (s i) k) (seq 0 n)) eqn:E.
    + apply existsb_exists in E as (i & Hin & Es). apply in_seq in Hin.
      apply Nat.eqb_eq in Es. subst k. rewrite (rsum_single n i); [|lia|].
      * rewrite Nat.eqb_refl. apply Hg. lia.
      * intros j Hj Hne. destruct (Nat.eqb_spec (s j) (s i)); auto.
        exfalso. apply Hne, Hi; auto; lia.
    + rewrite H0, rsum_0; auto.
      * intros i Hi'. destruct (Nat.eqb_spec (s i) k) as [Es|]; auto.
        assert (X : existsb (fun i => Nat.eqb (s i) k) (seq 0 n) = true).
        { apply existsb_exists. exists i. split; [apply in_seq; lia|]. now apply Nat.eqb_eq. }
        congruence.
      * intros i Hi' Es.
        assert (X : existsb (fun i => Nat.eqb (s i) k) (seq 0 n) = true).
        { apply existsb_exists. exists i. split; [apply in_seq; lia|]. now apply Nat.eqb_eq. }
        congruence.
Qed.

(** Cauchy-Schwarz with weights *)
Lemma rsum_cs n w f g : (forall i, (i < n)%nat -> 0 <= w i) ->
  (rsum n (fun i => w i * f i * g i)) ^ 2
  <= rsum n (fun i => w i * f i * f i) * rsum n (fun i => w i * g i * g i).
Proof.
  intros Hw.
  set (A := rsum n (fun i => w i * f i * f i)).
  set (B := rsum n (fun i => w i * g i * g i)).
  set (C := rsum n (fun i => w i * f i * g i)).
  assert (HA : 0 <= A).
  { apply rsum_nonneg. intros. specialize (Hw i H). rewrite Rmult_assoc.
    apply Rmult_le_pos; auto. apply Rle_0_sqr. }
  assert (HB : 0 <= B).
  { apply rsum_nonneg. intros. specialize (Hw i H). rewrite Rmult_assoc.
    apply Rmult_le_pos; auto. apply Rle_0_sqr. }
  assert (P : forall x y, 0 <= x * x * A + 2 * x * y * C + y * y * B).
  { intros x y. replace (x * x * A + 2 * x * y * C + y * y * B)
      with (rsum n (fun i => w i * ((x * f i + y * g i) * (x * f i + y * g i)))).
    - apply rsum_nonneg. intros. apply Rmult_le_pos; auto. apply Rle_0_sqr.
    - unfold A, B, C. rewrite <- !rsum_scal_l, <- !rsum_plus. apply rsum_ext. intros. ring. }
  destruct (Req_dec B 0) as [EB|NB].
  - assert (C = 0).
    { destruct (Req_dec C 0); auto. exfalso.
      specialize (P 1 (- (A + 1) / (2 * C))). rewrite EB in P.
      replace (1 * 1 * A + 2 * 1 * (- (A + 1) / (2 * C)) * C
               + - (A + 1) / (2 * C) * (- (A + 1) / (2 * C)) * 0) with (-1) in P
        by (field; auto). lra. }
    rewrite H, EB. lra.
  - assert (HB' : 0 < B) by lra.
    specialize (P B (- C)).
    assert (B * (B * A) >= B * (C * C)) by nra.
    assert (B * A >= C * C) by (apply Rle_ge; apply Rmult_le_reg_l with B; lra).
    simpl. lra.
Qed.
