(** * Nested automatic differentiation of damping functions and terms (proof layer) *)
From Coq Require Import Reals Lra Lia List Arith ZArith QArith Qreals Bool String.
From Verif Require Import Py Tensor Scalar RInst AdInst ModelExt ModelUtils ModelDamping ModelModels
  ModelTerms ModelDisp Spec SpecCall SpecR SpecMol SpecW SpecD4 TensorLemmas Closed ClosedM ClosedTerms ClosedModels ClosedDamp ClosedDisp CallLemmas
  Usable PropsOutcome EnergyR Energy3R SpecADN AdN AdG.
From Verif Require AdT.
Notation ship_g := AdT.ship_g.
Notation ship := AdT.ship.
Import ListNotations.
Open Scope R_scope.

(** ** Derivatives of the damping functions *)
Section D.
Context {eps mx : R} {T : Tracking} (L : Laws (eps := eps) (mx := mx) T).
Notation t := (Tp0 T).
Notation P := (TP T).
Notation KR := (RS eps mx).
Notation KA := (sl_sc (TK T)).
Notation NR := (RN eps mx).
Notation NA := (LN T).
Notation trk := (Ttrk T).
Notation fx := (fixedT (T := T)).
Context {d0 ds : R} (X : Ext KR) (XA : Ext KA) (HE : ext_ad T d0 ds X XA).
Context (Hd0 : 0 < d0) (Hds : 0 <= ds) (HD : dist_contract d0 X) (HV : div_contract X) (HQ : sqrt_contract ds X).

Ltac trk1 := first [eassumption | apply (r_lit L) | apply (r_add L) | apply (r_sub L) | apply (r_mul L)
  | apply (r_opp L) | apply (r_exp L) | apply (r_pown L) | apply (r_sqrt L) | apply (r_div L)].

Implicit Types f g d r : P -> R.
Section G.
Context (d r : P -> R) (dA rA : F KA) (Td : trk d dA) (Tr : trk r rA) (Pd : 0 < d t).

Lemma r_rat a1 a2 a1A a2A o : trk a1 a1A -> trk a2 a2A -> 0 < r t -> (exists k, o = 2 * k)%nat ->
  trk (fun s => rat_g (K := KR) (a1 s) (a2 s) o (d s) (r s)) (rat_g (K := KA) a1A a2A o dA rA).
Proof.
  intros T1 T2 Pr (k & ->). unfold rat_g. apply (r_div L); [apply (r_lit L)| |].
  - repeat trk1.
  - apply Rgt_not_eq. change (0 < d t ^ (2 * k) + (a1 t * sqrt (r t) + a2 t) ^ (2 * k)).
    assert (0 < d t ^ (2 * k)) by now apply pow_lt.
    assert (0 <= (a1 t * sqrt (r t) + a2 t) ^ (2 * k)) by (rewrite pow_mult; apply pow_le, pow2_ge_0). lra.
Qed.
Lemma one_plus_pow x y : 0 < x -> 0 < 1 + 6 * rpow x y.
Proof. intros H. rewrite rpow_pos by exact H. unfold Rpower. pose proof (exp_pos (y * ln x)). lra. Qed.
Lemma r_zero_fac rs al rsA alA : trk rs rsA -> trk al alA -> expo al alA -> 0 < r t -> 0 < rs t ->
  trk (fun s => zero_fac (K := KR) X (rs s) (al s) (d s) (r s)) (zero_fac (K := KA) XA rsA alA dA rA).
Proof.
  intros T1 T2 TE Pr P1. unfold zero_fac.
  assert (Q : trk (fun s => x_div X (d s) (r s)) (x_div XA dA rA)) by (apply HE; auto; lra).
  assert (P : 0 < rs t * x_div X (d t) (r t)).
  { rewrite HV by lra. apply Rmult_lt_0_compat; [exact P1|]. now apply Rdiv_lt_0_compat. }
  apply (r_div L); [apply (r_lit L)| |].
  - apply (r_add L); [apply (r_lit L)|]. apply (r_mul L); [apply (r_lit L)|].
    apply (r_pow L (fun s => fmul (s := KR) (rs s) (x_div X (d s) (r s)))); auto. apply (r_mul L); auto.
  - apply Rgt_not_eq. change (0 < Q2R 1 + Q2R 6 * rpow (rs t * x_div X (d t) (r t)) (al t)).
    replace (Q2R 1) with 1 by (unfold Q2R; cbn; lra). replace (Q2R 6) with 6 by (unfold Q2R; cbn; lra).
    now apply one_plus_pow.
Qed.
Lemma r_zero rs al rsA alA o : trk rs rsA -> trk al alA -> expo al alA -> 0 < r t -> 0 < rs t ->
  trk (fun s => zero_g (K := KR) X (rs s) (al s) o false (d s) (r s)) (zero_g (K := KA) XA rsA alA o false dA rA).
Proof.
  intros T1 T2 TE Pr P1. unfold zero_g.
  apply (ea_div T _ _ _ _ HE (fun s => zero_fac (K := KR) X (rs s) (al s) (d s) (r s)) (fun s => fpown (s := KR) (d s) o)).
  - now apply r_zero_fac.
  - now apply (r_pown L).
  - apply Rgt_not_eq. now apply pow_lt.
Qed.
Lemma r_mzero rs al bet rsA alA betA o : trk rs rsA -> trk al alA -> trk bet betA -> expo (fun s => - al s) (fopp (s := KA) alA) -> 0 < r t -> 0 < rs t -> 0 <= bet t ->
  trk (fun s => mzero_g (K := KR) X (rs s) (al s) (bet s) o (d s) (r s)) (mzero_g (K := KA) XA rsA alA betA o dA rA).
Proof.
  intros T1 T2 T3 TE Pr P1 P2. unfold mzero_g.
  assert (B : 0 < d t / (rs t * r t) + bet t * r t).
  { assert (0 < d t / (rs t * r t)) by (apply Rdiv_lt_0_compat; [exact Pd|now apply Rmult_lt_0_compat]).
    assert (0 <= bet t * r t) by (apply Rmult_le_pos; lra). lra. }
  apply (ea_div T _ _ _ _ HE (fun s => fdiv (s := KR) (flit (s := KR) 1) (fadd (s := KR) (flit (s := KR) 1) (fmul (s := KR) (flit (s := KR) 6)
     (fpow (s := KR) (fadd (s := KR) (fdiv (s := KR) (d s) (fmul (s := KR) (rs s) (r s))) (fmul (s := KR) (bet s) (r s))) (fopp (s := KR) (al s))))))
     (fun s => fpown (s := KR) (d s) o)).
  - apply (r_div L); [apply (r_lit L)| |].
    + apply (r_add L); [apply (r_lit L)|]. apply (r_mul L); [apply (r_lit L)|].
      apply (r_pow L); [|now apply (r_opp L)|exact B|exact TE].
      apply (r_add L); [|now apply (r_mul L)]. apply (r_div L); [exact Td|now apply (r_mul L)|].
      apply Rgt_not_eq. now apply Rmult_lt_0_compat.
    + apply Rgt_not_eq. change (0 < Q2R 1 + Q2R 6 * rpow (d t / (rs t * r t) + bet t * r t) (- al t)).
      replace (Q2R 1) with 1 by (unfold Q2R; cbn; lra). replace (Q2R 6) with 6 by (unfold Q2R; cbn; lra).
      now apply one_plus_pow.
  - now apply (r_pown L).
  - apply Rgt_not_eq. now apply pow_lt.
Qed.
Lemma r_op a1 a2 bet a1A a2A betA o : trk a1 a1A -> trk a2 a2A -> trk bet betA -> expo bet betA -> 0 < r t -> 0 < a1 t * sqrt (r t) + a2 t ->
  trk (fun s => op_g (K := KR) (a1 s) (a2 s) (bet s) o (d s) (r s)) (op_g (K := KA) a1A a2A betA o dA rA).
Proof.
  intros T1 T2 T3 TE Pr PR. unfold op_g. cbv zeta.
  assert (TR : trk (fun s => fadd (s := KR) (fmul (s := KR) (a1 s) (fsqrt (s := KR) (r s))) (a2 s)) (fadd (s := KA) (fmul (s := KA) a1A (fsqrt (s := KA) rA)) a2A)).
  { repeat trk1. }
  assert (TD : trk (fun s => fpow (s := KR) (d s) (bet s)) (fpow (s := KA) dA betA)) by (apply (r_pow L); auto).
  apply (r_div L); [exact TD| |].
  - apply (r_add L); apply (r_mul L); auto; try (now apply (r_pown L)).
    apply (r_pow L); auto.
  - apply Rgt_not_eq. change (0 < rpow (d t) (bet t) * d t ^ o + rpow (a1 t * sqrt (r t) + a2 t) (bet t) * d t ^ o).
    rewrite !rpow_pos by auto. unfold Rpower.
    apply Rplus_lt_0_compat; apply Rmult_lt_0_compat; try apply exp_pos; now apply pow_lt.
Qed.
End G.

(** ** parameters *)
Section Pm.
Context (pa : P -> Param KR) (paA : Param KA).
Context (HP : forall k, opt_trk T (fun s => getp (pa s) k) (getp paA k)).

Lemma r_getd k q : trk (fun s => getd (K := KR) (pa s) k q) (getd (K := KA) paA k q).
Proof.
  unfold getd. specialize (HP k). unfold opt_trk in HP. destruct (getp paA k) as [d|]; cbn [default].
  - destruct HP as (f & E & TT). apply (tracks_ext L f); [|exact TT]. intros s. now rewrite E.
  - apply (tracks_ext L (fun _ => flit (s := KR) q)); [|apply (r_lit L)]. intros s. now rewrite HP.
Qed.
Lemma has_same k s : has (K := KA) paA k = has (K := KR) (pa s) k.
Proof.
  unfold has. specialize (HP k). unfold opt_trk in HP. destruct (getp paA k) as [d|].
  - destruct HP as (f & E & TT). now rewrite E.
  - now rewrite HP.
Qed.
Lemma active_same o s : active (K := KA) paA o = active (K := KR) (pa s) o.
Proof. unfold active. now rewrite !(has_same _ s). Qed.
Lemma pos_getd k q : (forall x, getp (pa t) k = Some x -> 0 < x) -> 0 < Q2R q -> 0 < getd (K := KR) (pa t) k q.
Proof. intros H Hq. unfold getd. destruct (getp (pa t) k) eqn:E; cbn [default]; [now apply H|exact Hq]. Qed.

Definition g_ok (cls : dclass) (rs : string) (x : R) : Prop :=
  0 < x /\
  match cls with
  | Rational => True
  | Zero => 0 < getd (K := KR) (pa t) rs 1
  | MZero => 0 < getd (K := KR) (pa t) rs 1 /\ 0 <= getd (K := KR) (pa t) "bet" 0
  | OptimisedPower => 0 < getd (K := KR) (pa t) "a1" dA1 * sqrt x + getd (K := KR) (pa t) "a2" dA2
  end.
Definition g_exp (cls : dclass) (al : P -> R) (alA : F KA) : Prop :=
  match cls with
  | Rational => True
  | Zero => expo al alA
  | MZero => expo (fun s => - al s) (fopp (s := KA) alA)
  | OptimisedPower => expo (fun s => getd (K := KR) (pa s) "bet" 0) (getd (K := KA) paA "bet" 0)
  end.
Lemma r_ship_g cls o al alA rs d r dA rA : trk al alA -> g_exp cls al alA -> (exists k, o = 2 * k)%nat -> trk d dA -> trk r rA ->
  0 < d t -> g_ok cls rs (r t) ->
  trk (fun s => ship_g (K := KR) X cls (pa s) o (al s) rs (d s) (r s)) (ship_g (K := KA) XA cls paA o alA rs dA rA).
Proof.
  intros Ta TE Ho Td Tr Pd (Pr & C). unfold ship_g. rewrite (active_same o t).
  apply (tracks_ext L (fun s => (if active (pa t) o then match cls with
    | Rational => rat_g (K := KR) (getd (pa s) "a1" dA1) (getd (pa s) "a2" dA2) o
    | Zero => zero_g (K := KR) X (getd (pa s) rs 1) (al s) o false
    | MZero => mzero_g (K := KR) X (getd (pa s) rs 1) (al s) (getd (pa s) "bet" 0) o
    | OptimisedPower => op_g (K := KR) (getd (pa s) "a1" dA1) (getd (pa s) "a2" dA2) (getd (pa s) "bet" 0) o
    end else fun _ _ => flit (s := KR) 0) (d s) (r s))).
  { intros s. now rewrite <- (active_same o s), <- (active_same o t). }
  destruct (active (pa t) o); [|apply (r_lit L)].
  destruct cls.
  - apply (r_rat d r dA rA Td Tr Pd (fun s => getd (K := KR) (pa s) "a1" dA1) (fun s => getd (K := KR) (pa s) "a2" dA2)); auto using r_getd.
  - apply (r_zero d r dA rA Td Tr Pd (fun s => getd (K := KR) (pa s) rs 1) al); auto using r_getd.
  - apply (r_mzero d r dA rA Td Tr Pd (fun s => getd (K := KR) (pa s) rs 1) al (fun s => getd (K := KR) (pa s) "bet" 0)); auto using r_getd; apply C.
  - apply (r_op d r dA rA Td Tr Pd (fun s => getd (K := KR) (pa s) "a1" dA1) (fun s => getd (K := KR) (pa s) "a2" dA2) (fun s => getd (K := KR) (pa s) "bet" 0)); auto using r_getd.
Qed.
End Pm.

(** ** pairs and triples of one molecule *)
Section Mol.
Context (num : nat -> Z) (n c : nat) (pos : P -> nat -> nat -> R) (posA : nat -> nat -> F KA).
Context (Hpos : forall i k, (i < n)%nat -> (k < c)%nat -> trk (fun s => pos s i k) (posA i k)).
Context (Apart : forall i j, (i < n)%nat -> (j < n)%nat -> pmask num i j = true -> d0 < sqd c (pos t i) (pos t j)).
Context (rad : P -> nat -> nat -> R) (radA : nat -> nat -> F KA).
Context (cut : P -> R) (cutA : F KA) (Hcut : forall s, cut s = Tval T cutA).
Context (Off : forall i j, (i < n)%nat -> (j < n)%nat -> pmask num i j = true -> euclid c (pos t i) (pos t j) <> cut t).

Lemma r_pdist i j : (i < n)%nat -> (j < n)%nat ->
  trk (fun s => pdist (K := KR) X c num (pos s) i j) (pdist (K := KA) XA c num posA i j).
Proof.
  intros Hi Hj. unfold pdist. destruct (pmask num i j) eqn:E; [|apply (r_eps L)].
  apply (ea_dist T _ _ _ _ HE c (fun s => pos s i) (fun s => pos s j)); auto.
Qed.
Lemma pdist_val i j : (i < n)%nat -> (j < n)%nat -> pmask num i j = true ->
  pdist (K := KR) X c num (pos t) i j = euclid c (pos t i) (pos t j) /\ 0 < euclid c (pos t i) (pos t j).
Proof.
  intros Hi Hj E. unfold pdist. rewrite E. destruct HD as (gd & G1 & _ & G3). rewrite G1, G3 by (apply Rlt_le; auto).
  split; [reflexivity|]. apply sqrt_lt_R0. specialize (Apart i j Hi Hj E). lra.
Qed.
Lemma r_tfac (g : P -> R -> R -> R) gA i j : (i < n)%nat -> (j < n)%nat ->
  (pmask num i j = true -> trk (fun s => g s (pdist (K := KR) X c num (pos s) i j) (rad s i j)) (gA (pdist (K := KA) XA c num posA i j) (radA i j))) ->
  trk (fun s => tfac (K := KR) X (g s) c num (pos s) (rad s) (cut s) i j) (tfac (K := KA) XA gA c num posA radA cutA i j).
Proof.
  intros Hi Hj H. unfold tfac. destruct (pmask num i j) eqn:E; cbn [andb]; [|apply (r_lit L)].
  apply (tracks_ext L (fun s => if rleb (pdist (K := KR) X c num (pos s) i j) (cut t) then g s (pdist (K := KR) X c num (pos s) i j) (rad s i j) else flit (s := KR) 0)).
  { intros s. rewrite (Hcut t), <- (Hcut s). reflexivity. }
  apply (t_le L (fun s => pdist (K := KR) X c num (pos s) i j) (fun s => g s (pdist (K := KR) X c num (pos s) i j) (rad s i j)) (fun _ => flit (s := KR) 0)
    _ _ _ (cut t) cutA); auto using r_pdist.
  - rewrite (proj1 (pdist_val i j Hi Hj E)). auto.
  - apply (r_lit L).
Qed.

Section E2.
Context (c6 : P -> nat -> nat -> R) (c6A : nat -> nat -> F KA) (rr : P -> nat -> R) (rrA : nat -> F KA).
Context (H6 : forall i j, (i < n)%nat -> (j < n)%nat -> trk (fun s => c6 s i j) (c6A i j)).
Context (Hr : forall i, (i < n)%nat -> trk (fun s => rr s i) (rrA i)).
Definition g_trk (g : P -> R -> R -> R) (gA : F KA -> F KA -> F KA) : Prop :=
  forall i j, (i < n)%nat -> (j < n)%nat -> pmask num i j = true ->
    trk (fun s => g s (pdist (K := KR) X c num (pos s) i j) (rad s i j)) (gA (pdist (K := KA) XA c num posA i j) (radA i j)).
Lemma r_qq i j : (i < n)%nat -> (j < n)%nat -> trk (fun s => qq (K := KR) (rr s) i j) (qq (K := KA) rrA i j).
Proof. intros Hi Hj. unfold qq. apply (r_mul L); [apply (r_mul L)|]; auto. apply (r_lit L). Qed.
Lemma r_e2 (g6 g8 : P -> R -> R -> R) (g6A g8A : F KA -> F KA -> F KA) (s6 s8 : P -> R) s6A s8A (s10 : P -> option (R * (R -> R -> R))) (s10A : option (F KA * (F KA -> F KA -> F KA))) i :
  (i < n)%nat -> g_trk g6 g6A -> g_trk g8 g8A -> trk s6 s6A -> trk s8 s8A ->
  match s10A with
  | None => forall s, s10 s = None
  | Some (xA, gA) => exists (x : P -> R) (g : P -> R -> R -> R), (forall s, s10 s = Some (x s, g s)) /\ trk x xA /\ g_trk g gA
  end ->
  trk (fun s => e2_atom (K := KR) X n c num (pos s) (c6 s) (rad s) (rr s) (cut s) (g6 s) (g8 s) (s6 s) (s8 s) (s10 s) i)
      (e2_atom (K := KA) XA n c num posA c6A radA rrA cutA g6A g8A s6A s8A s10A i).
Proof.
  intros Hi G6 G8 T6 T8 H10. unfold e2_atom. apply (r_mul L); [apply (r_lit L)|].
  assert (E : trk (fun s => fadd (s := KR)
      (fmul (s := KR) (s6 s) (fsum (K := KR) n (fun j => fmul (s := KR) (c6 s i j) (tfac (K := KR) X (g6 s) c num (pos s) (rad s) (cut s) i j))))
      (fmul (s := KR) (s8 s) (fsum (K := KR) n (fun j => fmul (s := KR) (c8v (K := KR) (c6 s) (rr s) i j) (tfac (K := KR) X (g8 s) c num (pos s) (rad s) (cut s) i j)))))
     (fadd (s := KA)
      (fmul (s := KA) s6A (fsum (K := KA) n (fun j => fmul (s := KA) (c6A i j) (tfac (K := KA) XA g6A c num posA radA cutA i j))))
      (fmul (s := KA) s8A (fsum (K := KA) n (fun j => fmul (s := KA) (c8v (K := KA) c6A rrA i j) (tfac (K := KA) XA g8A c num posA radA cutA i j)))))).
  { apply (r_add L); (apply (r_mul L); [assumption|]).
    - apply (r_sum L n (fun j s => fmul (s := KR) (c6 s i j) (tfac (K := KR) X (g6 s) c num (pos s) (rad s) (cut s) i j))).
      intros j Hj. apply (r_mul L); auto. apply r_tfac; auto.
    - apply (r_sum L n (fun j s => fmul (s := KR) (c8v (K := KR) (c6 s) (rr s) i j) (tfac (K := KR) X (g8 s) c num (pos s) (rad s) (cut s) i j))).
      intros j Hj. apply (r_mul L).
      + unfold c8v. apply (r_mul L); auto using r_qq.
      + apply r_tfac; auto. }
  destruct s10A as [[xA gA]|].
  - destruct H10 as (x & g & Es & Tx & Tg).
    match type of E with Ttrk _ ?f _ =>
      apply (tracks_ext L (fun s => fadd (s := KR) (f s) (fmul (s := KR) (x s) (fsum (K := KR) n (fun j => fmul (s := KR) (c10v (K := KR) (c6 s) (rr s) i j)
       (tfac (K := KR) X (g s) c num (pos s) (rad s) (cut s) i j)))))) end.
    { intros s. now rewrite Es. }
    apply (r_add L); [exact E|]. apply (r_mul L); [exact Tx|].
    apply (r_sum L n (fun j s => fmul (s := KR) (c10v (K := KR) (c6 s) (rr s) i j) (tfac (K := KR) X (g s) c num (pos s) (rad s) (cut s) i j))).
    intros j Hj. apply (r_mul L); [|apply r_tfac; auto]. unfold c10v. apply (r_div L).
    + apply (r_mul L); [|apply (r_lit L)]. apply (r_mul L); auto. apply (r_pown L). auto using r_qq.
    + apply (r_lit L).
    + change (Q2R 40 <> 0). unfold Q2R. cbn. lra.
  - match type of E with Ttrk _ ?f _ => apply (tracks_ext L f); [|exact E] end. intros s. now rewrite H10.
Qed.
End E2.

(** three-body *)
Section E3.
Context (Pcut : 0 <= cut t).
Context (c9 : P -> nat -> nat -> nat -> R) (c9A : nat -> nat -> nat -> F KA) (al s9 : P -> R) (alA s9A : F KA).
Context (Tal : trk al alA) (Eal : expo al alA) (Ts9 : trk s9 s9A).
Context (Hrad : forall i j, (i < n)%nat -> (j < n)%nat -> pmask num i j = true -> trk (fun s => rad s i j) (radA i j) /\ 0 < rad t i j).
Context (H9 : forall i j k, (i < n)%nat -> (j < n)%nat -> (k < n)%nat ->
   if tmask num i j k then trk (fun s => c9 s i j k) (c9A i j k) else Tproper T (c9A i j k)).

Lemma tmask_pairs i j k : tmask num i j k = true -> pmask num i j = true /\ pmask num i k = true /\ pmask num j k = true.
Proof.
  unfold tmask, pmask. destruct (is_real (num i)), (is_real (num j)), (is_real (num k)), (Nat.eqb i j), (Nat.eqb i k), (Nat.eqb j k); cbn; try discriminate; auto.
Qed.
Lemma r_pd2 i j : (i < n)%nat -> (j < n)%nat -> pmask num i j = true ->
  trk (fun s => pd2 (K := KR) X c num (pos s) i j) (pd2 (K := KA) XA c num posA i j) /\
  pd2 (K := KR) X c num (pos t) i j = euclid c (pos t i) (pos t j) ^ 2 /\ 0 < pd2 (K := KR) X c num (pos t) i j.
Proof.
  intros Hi Hj E. destruct (pdist_val i j Hi Hj E) as (V & P).
  assert (Q : pd2 (K := KR) X c num (pos t) i j = euclid c (pos t i) (pos t j) ^ 2).
  { unfold pd2. change (rpow (pdist (K := KR) X c num (pos t) i j) (Q2R 2) = euclid c (pos t i) (pos t j) ^ 2).
    rewrite V. replace (Q2R 2) with 2 by (unfold Q2R; cbn; lra). apply rpow_2. }
  split; [|split; [exact Q|rewrite Q; now apply pow_lt]].
  unfold pd2. apply (r_powc L (fun s => pdist (K := KR) X c num (pos s) i j)); auto using r_pdist; [apply (y_lit L)|]. rewrite V. exact P.
Qed.
Lemma r_cutsq i j f h (fA hA : F KA) : (i < n)%nat -> (j < n)%nat -> pmask num i j = true -> trk f fA -> trk h hA ->
  trk (fun s => if fle (s := KR) (pd2 (K := KR) X c num (pos s) i j) (fmul (s := KR) (cut s) (cut s)) then f s else h s)
      (if fle (s := KA) (pd2 (K := KA) XA c num posA i j) (fmul (s := KA) cutA cutA) then fA else hA).
Proof.
  intros Hi Hj E Tf Th. destruct (r_pd2 i j Hi Hj E) as (TT & V & _).
  apply (tracks_ext L (fun s => if rleb (pd2 (K := KR) X c num (pos s) i j) (cut t * cut t) then f s else h s)).
  { intros s. change (fle (s := KR) (pd2 (K := KR) X c num (pos s) i j) (fmul (s := KR) (cut s) (cut s))) with (rleb (pd2 (K := KR) X c num (pos s) i j) (cut s * cut s)).
    now rewrite (Hcut s), (Hcut t). }
  apply (t_le L (fun s => pd2 (K := KR) X c num (pos s) i j) f h _ _ _ (cut t * cut t)); auto.
  - rewrite (w_vmul T L), <- (Hcut t). reflexivity.
  - rewrite V. intros Q. apply (Off i j Hi Hj E). destruct (pdist_val i j Hi Hj E) as (_ & P).
    apply Rsqr_inj; [lra|exact Pcut|]. unfold Rsqr. lra.
Qed.
Lemma r_e3_triple i j k : (i < n)%nat -> (j < n)%nat -> (k < n)%nat ->
  trk (fun s => e3_triple (K := KR) X c num (pos s) (c9 s) (rad s) (cut s) (zero_fac (K := KR) X (flit (s := KR) 1) (al s)) (s9 s) i j k)
      (e3_triple (K := KA) XA c num posA c9A radA cutA (zero_fac (K := KA) XA (flit (s := KA) 1) alA) s9A i j k).
Proof.
  intros Hi Hj Hk. specialize (H9 i j k Hi Hj Hk). unfold e3_triple.
  destruct (tmask num i j k) eqn:E.
  2:{ apply (tracks_ext L (fun s => 0 * c9 s i j k)).
      { intros s. unfold angp. rewrite E. cbn [andb]. change (0 * c9 s i j k = Q2R 0 * fdp (K := KR) X c num (pos s) (rad s) (zero_fac (K := KR) X (flit (s := KR) 1) (al s)) i j k * s9 s * c9 s i j k).
        rewrite Q2R_0. ring. }
      apply (t_mul_0 L); [|exact H9].
      apply (tracks_ext L (fun s => fmul (s := KR) (fmul (s := KR) (flit (s := KR) 0) (flit (s := KR) 0)) (s9 s))).
      { intros s. change (Q2R 0 * Q2R 0 * s9 s = 0). rewrite Q2R_0. ring. }
      apply (r_mul L); [|exact Ts9]. unfold angp, fdp. rewrite E. cbn [andb].
      apply (r_mul L); apply (r_lit L). }
  destruct (tmask_pairs i j k E) as (Pij & Pik & Pjk).
  destruct (r_pd2 i j Hi Hj Pij) as (Tij & _ & Qij). destruct (r_pd2 i k Hi Hk Pik) as (Tik & _ & Qik).
  destruct (r_pd2 j k Hj Hk Pjk) as (Tjk & _ & Qjk).
  destruct (Hrad i j Hi Hj Pij) as (Rij & Zij). destruct (Hrad i k Hi Hk Pik) as (Rik & Zik). destruct (Hrad j k Hj Hk Pjk) as (Rjk & Zjk).
  assert (T2 : trk (fun s => r2p (K := KR) X c num (pos s) i j k) (r2p (K := KA) XA c num posA i j k)).
  { unfold r2p. apply (r_mul L); [apply (r_mul L)|]; auto. }
  assert (Q2 : 0 < r2p (K := KR) X c num (pos t) i j k).
  { unfold r2p. change (0 < pd2 (K := KR) X c num (pos t) i j * pd2 (K := KR) X c num (pos t) i k * pd2 (K := KR) X c num (pos t) j k).
    apply Rmult_lt_0_compat; [apply Rmult_lt_0_compat|]; auto. }
  assert (TS : trk (fun s => fsqrt (s := KR) (r2p (K := KR) X c num (pos s) i j k)) (fsqrt (s := KA) (r2p (K := KA) XA c num posA i j k))).
  { now apply (r_sqrt L). }
  assert (QS : 0 < sqrt (r2p (K := KR) X c num (pos t) i j k)) by now apply sqrt_lt_R0.
  assert (T3 : trk (fun s => r3p (K := KR) X c num (pos s) i j k) (r3p (K := KA) XA c num posA i j k)).
  { unfold r3p. rewrite E. now apply (r_mul L). }
  assert (Q3 : 0 < r3p (K := KR) X c num (pos t) i j k).
  { unfold r3p. rewrite E. now apply (Rmult_lt_0_compat (sqrt (r2p (K := KR) X c num (pos t) i j k))). }
  assert (T5 : trk (fun s => r5p (K := KR) X c num (pos s) i j k) (r5p (K := KA) XA c num posA i j k)).
  { unfold r5p. rewrite E. now apply (r_mul L). }
  assert (Q5 : 0 < r5p (K := KR) X c num (pos t) i j k).
  { unfold r5p. rewrite E. now apply (Rmult_lt_0_compat (r2p (K := KR) X c num (pos t) i j k)). }
  apply (r_mul L); [|exact H9]. apply (r_mul L); [|exact Ts9]. apply (r_mul L).
  - unfold angp. rewrite E. cbn [andb].
    assert (TA : trk (fun s => fadd (s := KR) (fdiv (s := KR) (fmul (s := KR) (flit (s := KR) (375 # 1000)) (sp (K := KR) X c num (pos s) i j k)) (r5p (K := KR) X c num (pos s) i j k))
            (fdiv (s := KR) (flit (s := KR) 1) (r3p (K := KR) X c num (pos s) i j k)))
      (fadd (s := KA) (fdiv (s := KA) (fmul (s := KA) (flit (s := KA) (375 # 1000)) (sp (K := KA) XA c num posA i j k)) (r5p (K := KA) XA c num posA i j k))
            (fdiv (s := KA) (flit (s := KA) 1) (r3p (K := KA) XA c num posA i j k)))).
    { apply (r_add L); (apply (r_div L); [|assumption|now apply Rgt_not_eq]); [|apply (r_lit L)].
      apply (r_mul L); [apply (r_lit L)|]. unfold sp. rewrite E.
      apply (r_mul L); [apply (r_mul L)|].
      - apply (r_sub L); [apply (r_add L)|]; auto.
      - apply (r_add L); [apply (r_sub L)|]; auto.
      - apply (r_add L); [apply (r_add L); [apply (r_opp L)|]|]; auto. }
    match type of TA with Ttrk _ ?f ?fA =>
      apply (tracks_ext L (fun s => if fle (s := KR) (pd2 (K := KR) X c num (pos s) i j) (fmul (s := KR) (cut s) (cut s))
        then if fle (s := KR) (pd2 (K := KR) X c num (pos s) j k) (fmul (s := KR) (cut s) (cut s)) then f s else flit (s := KR) 0 else flit (s := KR) 0));
      [intros s; destruct (fle (s := KR) (pd2 (K := KR) X c num (pos s) i j) _), (fle (s := KR) (pd2 (K := KR) X c num (pos s) j k) _); reflexivity|];
      replace (if _ && _ && _ then fA else _) with (if fle (s := KA) (pd2 (K := KA) XA c num posA i j) (fmul (s := KA) cutA cutA)
        then if fle (s := KA) (pd2 (K := KA) XA c num posA j k) (fmul (s := KA) cutA cutA) then fA else flit (s := KA) 0 else flit (s := KA) 0)
        by (destruct (fle (s := KA) (pd2 (K := KA) XA c num posA i j) _), (fle (s := KA) (pd2 (K := KA) XA c num posA j k) _); reflexivity);
      apply (r_cutsq i j (fun s => if fle (s := KR) (pd2 (K := KR) X c num (pos s) j k) (fmul (s := KR) (cut s) (cut s)) then f s else flit (s := KR) 0) (fun _ => flit (s := KR) 0));
      auto; [|apply (r_lit L)]; apply (r_cutsq j k f (fun _ => flit (s := KR) 0)); auto; apply (r_lit L)
    end.
  - unfold fdp. rewrite E.
    apply (r_zero_fac (fun s => r0p (K := KR) (rad s) i j k) (fun s => fsqrt (s := KR) (r2p (K := KR) X c num (pos s) i j k))
      _ _) with (rs := fun _ => flit (s := KR) 1) (al := al); auto.
    + unfold r0p. apply (r_mul L); [apply (r_mul L)|]; auto.
    + unfold r0p. change (0 < rad t i j * rad t i k * rad t j k). apply Rmult_lt_0_compat; [apply Rmult_lt_0_compat|]; auto.
    + apply (r_lit L).
    + change (0 < Q2R 1). unfold Q2R. cbn. lra.
Qed.
Lemma r_e3 i : (i < n)%nat ->
  trk (fun s => e3_atom (K := KR) X n c num (pos s) (c9 s) (rad s) (cut s) (zero_fac (K := KR) X (flit (s := KR) 1) (al s)) (s9 s) i)
      (e3_atom (K := KA) XA n c num posA c9A radA cutA (zero_fac (K := KA) XA (flit (s := KA) 1) alA) s9A i).
Proof.
  intros Hi. unfold e3_atom. apply (r_div L); [|apply (r_lit L)|change (Q2R 6 <> 0); unfold Q2R; cbn; lra].
  apply (r_sum L n (fun j s => fsum (K := KR) n (fun k => e3_triple (K := KR) X c num (pos s) (c9 s) (rad s) (cut s) (zero_fac (K := KR) X (flit (s := KR) 1) (al s)) (s9 s) i j k))).
  intros j Hj. apply (r_sum L n (fun k s => e3_triple (K := KR) X c num (pos s) (c9 s) (rad s) (cut s) (zero_fac (K := KR) X (flit (s := KR) 1) (al s)) (s9 s) i j k)).
  intros k Hk. now apply r_e3_triple.
Qed.
End E3.
End Mol.
End D.
