(** * The Hessian is symmetric (C70) *)
From Coq Require Import Reals Lra Lia List Arith ZArith QArith Qreals Bool String FunctionalExtensionality.
From Verif Require Import Py Tensor Scalar RInst AdInst AdN ModelExt ModelUtils ModelDamping ModelModels
  ModelTerms ModelDisp Spec SpecCall SpecR SpecMol SpecW SpecD4 PropsOutcome PropsDiff SpecADN AdG PropsADN.
From Verif Require SpecAD AdR.
Import ListNotations.
Open Scope R_scope.

Section Jets.
Context {eps mx : R} {J : Type}.
Notation K1 := (Grad1 eps mx J).
Notation K2 := (Grad2 eps mx J).
Notation RL := (RL eps mx).
Notation B1 := (BwdK RL J).
Notation B2 := (BwdK K1 J).

Lemma jet1_ext (d : K1) a a' : (forall k, a k = a' k) -> jet1 d a -> jet1 d a'.
Proof. intros E H k g. rewrite H. now rewrite E. Qed.
Lemma jet2_ext (d : K2) a a' b b' : (forall k, a k = a' k) -> (forall j k, b j k = b' j k) -> jet2 d a b -> jet2 d a' b'.
Proof.
  intros E E' (H & H'). split; [now apply (jet1_ext _ a)|]. intros u j k c Hc. rewrite <- E, <- E'. now apply H'.
Qed.
Lemma j1_con x : jet1 (ncon (K := RL) (M := B1) x) (fun _ => 0).
Proof. intros k g. change (@eq R (Q2R 0) (g * 0)). rewrite Q2R_0. ring. Qed.
Lemma j1_un (F dF : R -> R) (d : K1) a : jet1 d a -> jet1 (nun RL B1 F dF d) (fun k => dF (fst d) * a k).
Proof. intros H k g. change (@eq R (snd d (g * dF (fst d)) k) (g * (dF (fst d) * a k))). rewrite H. ring. Qed.
Lemma j1_bin (F d1 d2 : R -> R -> R) (d e : K1) a b : jet1 d a -> jet1 e b ->
  jet1 (nbin RL B1 F d1 d2 d e) (fun k => d1 (fst d) (fst e) * a k + d2 (fst d) (fst e) * b k).
Proof.
  intros H H' k g. change (@eq R (snd d (g * d1 (fst d) (fst e)) k + snd e (g * d2 (fst d) (fst e)) k) (g * (d1 (fst d) (fst e) * a k + d2 (fst d) (fst e) * b k))).
  rewrite H, H'. ring.
Qed.

Lemma j2_con (x : K1) : jet1 x (fun _ => 0) -> jet2 (ncon (K := K1) (M := B2) x) (fun _ => 0) (fun _ _ => 0).
Proof.
  intros H. split; [exact H|]. intros u j k c _. change (@eq R (Q2R 0) (fst u * 0) /\ forall h : R, @eq R (Q2R 0) (h * (fst u * 0 + c * 0))).
  rewrite Q2R_0. split; [ring|intros; ring].
Qed.
Lemma j2_un (o do : K1 -> K1) (d : K2) a b F2 : jet2 d a b ->
  jet1 (o (fst d)) (fun k => fst (do (fst d)) * a k) -> jet1 (do (fst d)) (fun k => F2 * a k) ->
  jet2 (nun K1 B2 o do d) (fun k => fst (do (fst d)) * a k) (fun j k => fst (do (fst d)) * b j k + F2 * a k * a j).
Proof.
  intros (H1 & H2) Ho Hd. split; [exact Ho|]. intros u j k c Hc.
  change (snd (nun K1 B2 o do d) u j) with (snd d (fmul (s := K1) u (do (fst d))) j).
  destruct (H2 (fmul (s := K1) u (do (fst d))) j k (c * fst (do (fst d)) + fst u * (F2 * a k))) as (V & V').
  { intros h. change (@eq R (snd u (h * fst (do (fst d))) k + snd (do (fst d)) (h * fst u) k) (h * (c * fst (do (fst d)) + fst u * (F2 * a k)))).
    rewrite Hc, Hd. ring. }
  split.
  - rewrite V. change (@eq R (fst u * fst (do (fst d)) * a j) (fst u * (fst (do (fst d)) * a j))). ring.
  - intros h. rewrite V'. change (@eq R (h * (fst u * fst (do (fst d)) * b j k + (c * fst (do (fst d)) + fst u * (F2 * a k)) * a j)) (h * (fst u * (fst (do (fst d)) * b j k + F2 * a k * a j) + c * (fst (do (fst d)) * a j)))). ring.
Qed.
Lemma j2_bin (o o1 o2 : K1 -> K1 -> K1) (d e : K2) a b a' b' D11 D12 D21 D22 : jet2 d a b -> jet2 e a' b' ->
  let d1 := fst (o1 (fst d) (fst e)) in let d2 := fst (o2 (fst d) (fst e)) in
  jet1 (o (fst d) (fst e)) (fun k => d1 * a k + d2 * a' k) ->
  jet1 (o1 (fst d) (fst e)) (fun k => D11 * a k + D12 * a' k) -> jet1 (o2 (fst d) (fst e)) (fun k => D21 * a k + D22 * a' k) ->
  jet2 (nbin K1 B2 o o1 o2 d e) (fun k => d1 * a k + d2 * a' k)
    (fun j k => d1 * b j k + d2 * b' j k + (D11 * a k + D12 * a' k) * a j + (D21 * a k + D22 * a' k) * a' j).
Proof.
  intros (H1 & H2) (H1' & H2') d1 d2 Ho Hd1 Hd2. split; [exact Ho|]. intros u j k c Hc.
  set (u1 := fmul (s := K1) u (o1 (fst d) (fst e))). set (u2 := fmul (s := K1) u (o2 (fst d) (fst e))).
  destruct (H2 u1 j k (c * d1 + fst u * (D11 * a k + D12 * a' k))) as (V & W).
  { intros h. change (@eq R (snd u (h * d1) k + snd (o1 (fst d) (fst e)) (h * fst u) k) (h * (c * d1 + fst u * (D11 * a k + D12 * a' k)))).
    rewrite Hc, Hd1. ring. }
  destruct (H2' u2 j k (c * d2 + fst u * (D21 * a k + D22 * a' k))) as (V' & W').
  { intros h. change (@eq R (snd u (h * d2) k + snd (o2 (fst d) (fst e)) (h * fst u) k) (h * (c * d2 + fst u * (D21 * a k + D22 * a' k)))).
    rewrite Hc, Hd2. ring. }
  split.
  - change (@eq R (fst (snd d u1 j) + fst (snd e u2 j)) (fst u * (d1 * a j + d2 * a' j))). rewrite V, V'.
    change (@eq R (fst u * d1 * a j + fst u * d2 * a' j) (fst u * (d1 * a j + d2 * a' j))). ring.
  - intros h. change (@eq R (snd (snd d u1 j) (h * Q2R 1) k + snd (snd e u2 j) (h * Q2R 1) k) (h * (fst u * (d1 * b j k + d2 * b' j k + (D11 * a k + D12 * a' k) * a j + (D21 * a k + D22 * a' k) * a' j) + c * (d1 * a j + d2 * a' j)))).
    rewrite W, W', Q2R_1. change (fst u1) with (fst u * d1). change (fst u2) with (fst u * d2). ring.
Qed.

Lemma s_con (x : K1) : jet1 x (fun _ => 0) -> sym_jet (ncon (K := K1) (M := B2) x).
Proof. intros H. eexists _, _. split; [now apply j2_con|reflexivity]. Qed.
Lemma s_un (o do : K1 -> K1) (d : K2) : sym_jet d ->
  (forall a, jet1 (fst d) a -> jet1 (o (fst d)) (fun k => fst (do (fst d)) * a k) /\ exists F2, jet1 (do (fst d)) (fun k => F2 * a k)) ->
  sym_jet (nun K1 B2 o do d).
Proof.
  intros (a & b & H & S) HO. destruct (HO a (proj1 H)) as (Ho & F2 & Hd). eexists _, _. split; [eapply j2_un; eassumption|].
  intros j k. cbn beta. rewrite (S j k). ring.
Qed.
Lemma s_bin (o o1 o2 : K1 -> K1 -> K1) (d e : K2) : sym_jet d -> sym_jet e ->
  (forall a a', jet1 (fst d) a -> jet1 (fst e) a' ->
     jet1 (o (fst d) (fst e)) (fun k => fst (o1 (fst d) (fst e)) * a k + fst (o2 (fst d) (fst e)) * a' k) /\
     exists D11 D12 D21 D22, jet1 (o1 (fst d) (fst e)) (fun k => D11 * a k + D12 * a' k) /\ jet1 (o2 (fst d) (fst e)) (fun k => D21 * a k + D22 * a' k) /\
       (D12 = D21 \/ forall k, a' k = 0)) ->
  sym_jet (nbin K1 B2 o o1 o2 d e).
Proof.
  intros (a & b & H & S) (a' & b' & H' & S') HO. destruct (HO a a' (proj1 H) (proj1 H')) as (Ho & D11 & D12 & D21 & D22 & Hd & He & C).
  eexists _, _. split; [eapply j2_bin; eassumption|].
  intros j k. cbn beta zeta. rewrite (S j k), (S' j k). destruct C as [->|C]; [ring|]. rewrite !C. ring.
Qed.
End Jets.

Section Ops.
Context {eps mx : R} {J : Type}.
Notation K1 := (Grad1 eps mx J).
Notation K2 := (Grad2 eps mx J).
Notation RL := (RL eps mx).
Notation B1 := (BwdK RL J).
Notation B2 := (BwdK K1 J).
Implicit Types d e : K2.

Lemma s_lit q : sym_jet (flit (s := K2) q). Proof. apply s_con. apply j1_con. Qed.
Lemma s_eps : sym_jet (feps (s := K2)). Proof. apply s_con. apply j1_con. Qed.
Lemma s_max : sym_jet (fmaxfin (s := K2)). Proof. apply s_con. apply j1_con. Qed.
Lemma j1_lit q : jet1 (flit (s := K1) q) (fun _ => 0). Proof. apply j1_con. Qed.
Lemma j1_lit2 q (a a' : J -> R) : jet1 (flit (s := K1) q) (fun k => 0 * a k + 0 * a' k).
Proof. apply (jet1_ext _ (fun _ => 0)); [intros; ring|apply j1_lit]. Qed.
Lemma j1_lit1 q (a : J -> R) : jet1 (flit (s := K1) q) (fun k => 0 * a k).
Proof. apply (jet1_ext _ (fun _ => 0)); [intros; ring|apply j1_lit]. Qed.
Lemma s_add d e : sym_jet d -> sym_jet e -> sym_jet (fadd (s := K2) d e).
Proof. intros H H'. apply s_bin; auto. intros a a' Ha Ha'. split; [now apply j1_bin|]. exists 0, 0, 0, 0. split; [apply j1_lit2|]. split; [apply j1_lit2|now left]. Qed.
Lemma s_sub d e : sym_jet d -> sym_jet e -> sym_jet (fsub (s := K2) d e).
Proof. intros H H'. apply s_bin; auto. intros a a' Ha Ha'. split; [now apply j1_bin|]. exists 0, 0, 0, 0. split; [apply j1_lit2|]. split; [apply j1_lit2|now left]. Qed.
Lemma s_mul d e : sym_jet d -> sym_jet e -> sym_jet (fmul (s := K2) d e).
Proof.
  intros H H'. apply s_bin; auto. intros a a' Ha Ha'. split; [now apply (j1_bin Rmult (fun _ y => y) (fun x _ => x))|]. exists 0, 1, 1, 0. split; [|split; [|now left]].
  - apply (jet1_ext _ a'); [intros; ring|exact Ha'].
  - apply (jet1_ext _ a); [intros; ring|exact Ha].
Qed.
Lemma s_div d e : sym_jet d -> sym_jet e -> sym_jet (fdiv (s := K2) d e).
Proof.
  intros H H'. apply s_bin; auto. intros a a' Ha Ha'. split; [now apply (j1_bin Rdiv (fun _ y => Q2R 1 / y) (fun x y => - (x / y / y)))|].
  set (x := fst (fst d)). set (y := fst (fst e)).
  exists 0, (- (1 / y / y)), (- (1 / y / y)), (x / y / y / y + x / y / y / y). split; [|split; [|now left]].
  - eapply jet1_ext; [|apply (j1_bin Rdiv (fun _ y => Q2R 1 / y) (fun x y => - (x / y / y))); [apply j1_lit|exact Ha']]. intros k. cbn beta.
    change (fst (flit (s := K1) 1)) with (Q2R 1). rewrite Q2R_1. fold y. ring.
  - eapply jet1_ext; [|apply (j1_un Ropp (fun _ => Q2R (-1))); apply (j1_bin Rdiv (fun _ y => Q2R 1 / y) (fun x y => - (x / y / y))); [|exact Ha'];
      apply (j1_bin Rdiv (fun _ y => Q2R 1 / y) (fun x y => - (x / y / y))); [exact Ha|exact Ha']].
    intros k. change (Q2R (-1) * (Q2R 1 / y * (Q2R 1 / y * a k + - (x / y / y) * a' k) + - (x / y / y / y) * a' k) =
      - (1 / y / y) * a k + (x / y / y / y + x / y / y / y) * a' k).
    rewrite Q2R_1. replace (Q2R (-1)) with (-1) by (unfold Q2R; cbn; lra). generalize (x : R), (y : R), (a k), (a' k). clear. intros x y u v. unfold Rdiv. ring.
Qed.
Lemma s_opp d : sym_jet d -> sym_jet (fopp (s := K2) d).
Proof. intros H. apply s_un; auto. intros a Ha. split; [now apply (j1_un Ropp (fun _ => Q2R (-1)))|]. exists 0. apply j1_lit1. Qed.
Lemma s_exp d : sym_jet d -> sym_jet (fexp (s := K2) d).
Proof. intros H. apply s_un; auto. intros a Ha. split; [now apply (j1_un exp exp)|]. eexists. apply (j1_un exp exp). exact Ha. Qed.
Lemma s_ln d : sym_jet d -> sym_jet (fln (s := K2) d).
Proof.
  intros H. apply s_un; auto. intros a Ha. split; [now apply (j1_un ln (fun x => Q2R 1 / x))|].
  eexists. eapply jet1_ext; [|apply (j1_bin Rdiv (fun _ y => Q2R 1 / y) (fun x y => - (x / y / y))); [apply j1_lit|exact Ha]].
  intros k. cbn beta. rewrite Rmult_0_r, Rplus_0_l. reflexivity.
Qed.
Lemma s_abs d : sym_jet d -> sym_jet (fabs (s := K2) d).
Proof.
  intros H. apply s_un; auto. intros a Ha. split.
  - eapply jet1_ext; [|apply (j1_un Rabs (nsgn RL)); exact Ha]. intros k. cbn beta. f_equal. unfold nsgn.
    change (flt (s := K1) (flit (s := K1) 0) (fst d)) with (rltb (Q2R 0) (fst (fst d))).
    change (flt (s := K1) (fst d) (flit (s := K1) 0)) with (rltb (fst (fst d)) (Q2R 0)).
    change (flt (s := RL) (flit (s := RL) 0) (fst (fst d))) with (rltb (Q2R 0) (fst (fst d))).
    change (flt (s := RL) (fst (fst d)) (flit (s := RL) 0)) with (rltb (fst (fst d)) (Q2R 0)).
    destruct (rltb (Q2R 0) (fst (fst d))); [reflexivity|]. destruct (rltb (fst (fst d)) (Q2R 0)); reflexivity.
  - exists 0. unfold nsgn. destruct (flt _ _); [apply j1_lit1|]. destruct (flt _ _); apply j1_lit1.
Qed.
Lemma s_sqrt d : sym_jet d -> sym_jet (fsqrt (s := K2) d).
Proof.
  intros H. apply s_un; auto. intros a Ha. split; [now apply (j1_un sqrt (fun x => Q2R 1 / (Q2R 2 * sqrt x)))|].
  eexists. eapply jet1_ext; [|apply (j1_bin Rdiv (fun _ y => Q2R 1 / y) (fun x y => - (x / y / y))); [apply j1_lit|];
    apply (j1_bin Rmult (fun _ y => y) (fun x _ => x)); [apply j1_lit|]; apply (j1_un sqrt (fun x => Q2R 1 / (Q2R 2 * sqrt x))); exact Ha].
  intros k. cbn beta. rewrite !Rmult_0_r, !Rplus_0_l, <- !Rmult_assoc. reflexivity.
Qed.
Lemma s_pown d n : sym_jet d -> sym_jet (fpown (s := K2) d n).
Proof.
  intros H. apply s_un; auto. intros a Ha. split; [exact (j1_un (fun x => x ^ n) (npown RL n) (fst d) a Ha)|].
  eexists. eapply jet1_ext; [|apply (j1_bin Rmult (fun _ y => y) (fun x _ => x)); [apply j1_lit|]; apply (j1_un (fun x => x ^ (Nat.pred n)) (npown RL (Nat.pred n))); exact Ha].
  intros k. cbn beta. rewrite !Rmult_0_r, !Rplus_0_l, <- !Rmult_assoc. reflexivity.
Qed.
Lemma fst_pow1 (x y : K1) : fst (npow1 K1 x y) = npow1 RL (fst x) (fst y).
Proof.
  unfold npow1. change (feq (s := K1) y (flit (s := K1) 0)) with (feq (s := RL) (fst y) (flit (s := RL) 0)).
  destruct (feq (s := RL) (fst y) (flit (s := RL) 0)); reflexivity.
Qed.
Lemma fst_pow2 (x y : K1) : fst (npow2 K1 x y) = npow2 RL (fst x) (fst y).
Proof.
  unfold npow2. change (feq (s := K1) x (flit (s := K1) 0)) with (feq (s := RL) (fst x) (flit (s := RL) 0)).
  change (fle (s := K1) (flit (s := K1) 0) y) with (fle (s := RL) (flit (s := RL) 0) (fst y)).
  destruct (feq (s := RL) (fst x) (flit (s := RL) 0) && fle (s := RL) (flit (s := RL) 0) (fst y)); reflexivity.
Qed.
Lemma rpow_pred x y : 0 < x -> rpow x (y - 1) = rpow x y * (1 / x).
Proof.
  intros P. rewrite !rpow_pos by exact P. unfold Rminus. rewrite Rpower_plus, Rpower_Ropp, Rpower_1 by exact P. unfold Rdiv. ring.
Qed.
Lemma s_pow d e : sym_jet d -> sym_jet e -> 0 < fst (fst d) -> (fst (fst e) <> 0 \/ forall a, jet1 (fst e) a -> forall k, a k = 0) ->
  sym_jet (fpow (s := K2) d e).
Proof.
  intros H H' P C. apply s_bin; auto. intros a a' Ha Ha'.
  set (x := fst (fst d)) in *. set (y := fst (fst e)) in *.
  assert (EX : npow2 RL x y = rpow x y * ln x).
  { unfold npow2. change (feq (s := RL) x (flit (s := RL) 0)) with (reqb x (Q2R 0)). rewrite Q2R_0.
    rewrite (proj2 (reqb_false x 0)) by lra. reflexivity. }
  assert (EX1 : npow2 RL x (y - Q2R 1) = rpow x (y - 1) * ln x).
  { unfold npow2. change (feq (s := RL) x (flit (s := RL) 0)) with (reqb x (Q2R 0)). rewrite Q2R_0.
    rewrite (proj2 (reqb_false x 0)) by lra. cbn [andb]. now rewrite Q2R_1. }
  split.
  { eapply jet1_ext; [|apply (j1_bin rpow (npow1 RL) (npow2 RL)); [exact Ha|exact Ha']]. intros k. cbn beta. now rewrite fst_pow1, fst_pow2. }
  assert (J2 : jet1 (npow2 K1 (fst d) (fst e)) (fun k => (ln x * npow1 RL x y + rpow x y * (1 / x)) * a k + ln x * npow2 RL x y * a' k)).
  { unfold npow2 at 1. change (feq (s := K1) (fst d) (flit (s := K1) 0)) with (reqb x (Q2R 0)). rewrite Q2R_0.
    rewrite (proj2 (reqb_false x 0)) by lra. cbn [andb].
    eapply jet1_ext; [|apply (j1_bin Rmult (fun _ y => y) (fun x _ => x)); [apply (j1_bin rpow (npow1 RL) (npow2 RL)); [exact Ha|exact Ha']|apply (j1_un ln (fun x => Q2R 1 / x)); exact Ha]].
    intros k. change (ln x * (npow1 RL x y * a k + npow2 RL x y * a' k) + rpow x y * (Q2R 1 / x * a k) =
      (ln x * npow1 RL x y + rpow x y * (1 / x)) * a k + ln x * npow2 RL x y * a' k). rewrite Q2R_1.
    generalize (npow1 RL x y : R), (npow2 RL x y : R). intros u v. ring. }
  destruct (reqb y 0) eqn:E.
  - apply reqb_true in E. destruct C as [C|C]; [contradiction|].
    exists 0, 0. eexists _, _. split; [|split; [exact J2|right; now apply C]].
    unfold npow1. change (feq (s := K1) (fst e) (flit (s := K1) 0)) with (reqb y (Q2R 0)). rewrite Q2R_0, (proj2 (reqb_true y 0) E). apply j1_lit2.
  - apply reqb_false in E. exists (y * npow1 RL x (y - Q2R 1)), (rpow x (y - 1) + y * npow2 RL x (y - Q2R 1)). eexists _, _.
    split; [|split; [exact J2|left]].
    + unfold npow1 at 1. change (feq (s := K1) (fst e) (flit (s := K1) 0)) with (reqb y (Q2R 0)). rewrite Q2R_0, (proj2 (reqb_false y 0) E).
      eapply jet1_ext; [|apply (j1_bin Rmult (fun _ y => y) (fun x _ => x)); [exact Ha'|apply (j1_bin rpow (npow1 RL) (npow2 RL)); [exact Ha|];
        apply (j1_bin Rminus (fun _ _ => Q2R 1) (fun _ _ => Q2R (-1))); [exact Ha'|apply j1_lit]]].
      intros k. change (rpow x (y - Q2R 1) * a' k + y * (npow1 RL x (y - Q2R 1) * a k + npow2 RL x (y - Q2R 1) * (Q2R 1 * a' k + Q2R (-1) * 0)) =
        y * npow1 RL x (y - Q2R 1) * a k + (rpow x (y - 1) + y * npow2 RL x (y - Q2R 1)) * a' k).
      generalize (npow1 RL x (y - Q2R 1) : R), (npow2 RL x (y - Q2R 1) : R). intros u v. rewrite Q2R_1. ring.
    + assert (E1 : npow1 RL x y = y * rpow x (y - 1)).
      { unfold npow1. change (feq (s := RL) y (flit (s := RL) 0)) with (reqb y (Q2R 0)). rewrite Q2R_0, (proj2 (reqb_false y 0) E).
        change (y * rpow x (y - Q2R 1) = y * rpow x (y - 1)). now rewrite Q2R_1. }
      rewrite EX1, E1, <- (rpow_pred x y P). ring.
Qed.
End Ops.

Section Sym.
Context {eps mx : R} {J : Type} (eqJ : forall i j : J, {i = j} + {i <> j}).
Notation K1 := (Grad1 eps mx J).
Notation K2 := (Grad2 eps mx J).
Notation TS := (Tsym (eps := eps) (mx := mx) eqJ).
Notation T2 j1 j2 := (Tb2 eps mx (J := J) j1 j2 0 0).
Notation L2 j1 j2 := (Tb2_laws (eps := eps) (mx := mx) j1 j2 0 0).
Notation pr j1 j2 f := (two (fun s1 s2 => f (shift eqJ j1 j2 s1 s2))).

Lemma shift0 j1 j2 : shift eqJ j1 j2 0 0 = (fun _ => 0).
Proof. apply functional_extensionality. intros j. unfold shift. destruct (eqJ j j1), (eqJ j j2); ring. Qed.
(** a number with a gradient and second derivatives carries a function of every two leaves *)
Lemma jet_some (d : K2) a b j1 j2 : jet2 d a b -> Tsome (T2 j1 j2) d.
Proof.
  intros (H1 & H2).
  pose (v := (fst (fst d) : R)).
  assert (LL : forall u w x, derivable_pt_lim (fun s => u + w * s) x w).
  { intros u w x. pose proof (derivable_pt_lim_plus (fun _ => u) (fun s => w * s) x 0 (w * 1) (derivable_pt_lim_const u x) (derivable_pt_lim_scal id w x 1 (derivable_pt_lim_id x))) as Q.
    rewrite Rmult_1_r, Rplus_0_l in Q. exact Q. }
  exists (two (fun s1 s2 => v + s2 * a j2 + s1 * (a j1 + s2 * b j1 j2))). unfold two. split; [split|].
  - change (v = v + 0 * a j2 + 0 * (a j1 + 0 * b j1 j2)). ring.
  - exists (fun _ => a j2). split.
    + change (derivable_pt_lim (fun s => v + s * a j2 + 0 * (a j1 + s * b j1 j2)) 0 (a j2)).
      apply (derivable_pt_lim_ext (fun s => v + a j2 * s)); [intros; ring|apply LL].
    + intros g gA HG. cbn in HG |- *. subst gA. apply H1.
  - exists (fun p => a j1 + fst p * b j1 j2). split.
    + apply (near_all (Tb1_laws (eps := eps) (mx := mx) j2 0)). intros (s2, []).
      change (derivable_pt_lim (fun s => v + s2 * a j2 + s * (a j1 + s2 * b j1 j2)) 0 (a j1 + s2 * b j1 j2)).
      apply (derivable_pt_lim_ext (fun s => (v + s2 * a j2) + (a j1 + s2 * b j1 j2) * s)); [intros; ring|apply LL].
    + intros g gA (V & D & HD & HM). cbn in V, HD.
      destruct (H2 gA j1 j2 (D tt)) as (V1 & V2).
      { intros h. specialize (HM (fun _ => h) h eq_refl). exact HM. }
      split.
      * change (@eq R (fst (snd d gA j1)) (g (0, tt) * (a j1 + 0 * b j1 j2))). refine (eq_trans V1 _).
        pose (w := (fst gA : R)). assert (V' : w = g (0, tt)) by exact V. change (w * a j1 = g (0, tt) * (a j1 + 0 * b j1 j2)). rewrite V'. ring.
      * exists (fun _ => D tt * (a j1 + 0 * b j1 j2) + g (0, tt) * b j1 j2). split.
        -- cbn. apply (derivable_pt_lim_mult (fun s => g (s, tt)) (fun s => a j1 + s * b j1 j2)); [exact HD|].
           apply (derivable_pt_lim_ext (fun s => a j1 + b j1 j2 * s)); [intros; ring|apply LL].
        -- intros h hA ->. change (@eq R (snd (snd d gA j1) (h tt) j2) (h tt * (D tt * (a j1 + 0 * b j1 j2) + g (0, tt) * b j1 j2))).
           refine (eq_trans (V2 (h tt)) _).
           pose (w := (fst gA : R)). assert (V' : w = g (0, tt)) by exact V. pose (h' := (h tt : R)).
           change (h' * (w * b j1 j2 + D tt * a j1) = h' * (D tt * (a j1 + 0 * b j1 j2) + g (0, tt) * b j1 j2)). rewrite V'. generalize (D tt : R). intros. ring.
Qed.
Lemma const_jet x (d : K2) a : Ttrk TS (fun _ => x) d -> jet1 (fst d) a -> forall k, a k = 0.
Proof.
  intros (_ & H & _) Ha k. specialize (H k k). unfold two in H.
  destruct H as ((_ & D & HD & HM) & _). cbn in HD. specialize (HM (fun _ => 1) 1 eq_refl). cbn in HM.
  change (@eq R (snd (fst d) 1 k) (1 * D tt)) in HM. rewrite Ha in HM.
  assert (D tt = 0) by (eapply uniqueness_limite; [exact HD|apply derivable_pt_lim_const]). lra.
Qed.

Lemma Tsym_laws : Laws (eps := eps) (mx := mx) TS.
Proof.
  assert (P0 : forall j1 j2 (f : (J -> R) -> R), pr j1 j2 f (Tp0 (T2 j1 j2)) = f (fun _ => 0)).
  { intros j1 j2 f. unfold two. cbn. now rewrite shift0. }
  constructor.
  - intros Q Q' H (H0 & HN). split; [now apply H|]. intros j1 j2. refine (w_mono _ (L2 j1 j2) _ _ _ (HN j1 j2)). intros p. apply H.
  - intros Q Q' (H0 & HN) (H0' & HN'). split; [now split|]. intros j1 j2. exact (w_and _ (L2 j1 j2) _ _ (HN j1 j2) (HN' j1 j2)).
  - split; [exact Logic.I|]. intros j1 j2. apply (w_all _ (L2 j1 j2)).
  - intros Q (H0 & _). exact H0.
  - intros f g d (E0 & EN) (V & H & S). split; [now rewrite V|]. split; [|exact S]. intros j1 j2. exact (w_loc _ (L2 j1 j2) _ _ _ (EN j1 j2) (H j1 j2)).
  - discriminate.
  - intros f d (V & _). exact V.
  - intros f d a (V & H & _) A. split; [exact A|]. intros j1 j2. apply (w_above _ (L2 j1 j2) _ _ a (H j1 j2)). now rewrite P0.
  - intros f d a (V & H & _) A. split; [exact A|]. intros j1 j2. apply (w_below _ (L2 j1 j2) _ _ a (H j1 j2)). now rewrite P0.
  - reflexivity.
  - reflexivity.
  - reflexivity.
  - reflexivity.
  - reflexivity.
  - intros q. split; [reflexivity|]. split; [intros j1 j2; apply (w_lit _ (L2 j1 j2))|apply s_lit].
  - split; [reflexivity|]. split; [intros j1 j2; apply (w_eps _ (L2 j1 j2))|apply s_eps].
  - split; [reflexivity|]. split; [intros j1 j2; apply (w_max _ (L2 j1 j2))|apply s_max].
  - intros f g d e (V & H & S) (V' & H' & S'). split; [exact (f_equal2 Rplus V V')|]. split; [|now apply s_add].
    intros j1 j2. apply (w_add _ (L2 j1 j2) (pr j1 j2 f) (pr j1 j2 g)); auto.
  - intros f g d e (V & H & S) (V' & H' & S'). split; [exact (f_equal2 Rminus V V')|]. split; [|now apply s_sub].
    intros j1 j2. apply (w_sub _ (L2 j1 j2) (pr j1 j2 f) (pr j1 j2 g)); auto.
  - intros f g d e (V & H & S) (V' & H' & S'). split; [exact (f_equal2 Rmult V V')|]. split; [|now apply s_mul].
    intros j1 j2. apply (w_mul _ (L2 j1 j2) (pr j1 j2 f) (pr j1 j2 g)); auto.
  - intros f d (V & H & S). split; [exact (f_equal Ropp V)|]. split; [|now apply s_opp].
    intros j1 j2. apply (w_opp _ (L2 j1 j2) (pr j1 j2 f)); auto.
  - intros f d (V & H & S). split; [exact (f_equal exp V)|]. split; [|now apply s_exp].
    intros j1 j2. apply (w_exp _ (L2 j1 j2) (pr j1 j2 f)); auto.
  - intros f d n (V & H & S). split; [exact (f_equal (fun x => x ^ n) V)|]. split; [|now apply s_pown].
    intros j1 j2. apply (w_pown _ (L2 j1 j2) (pr j1 j2 f)); auto.
  - intros f g d e (V & H & S) (V' & H' & S') N. split; [exact (f_equal2 Rdiv V V')|]. split; [|now apply s_div].
    intros j1 j2. apply (w_div _ (L2 j1 j2) (pr j1 j2 f) (pr j1 j2 g)); auto. now rewrite P0.
  - intros f d (V & H & S) N. split; [exact (f_equal sqrt V)|]. split; [|now apply s_sqrt].
    intros j1 j2. apply (w_sqrt _ (L2 j1 j2) (pr j1 j2 f)); auto. now rewrite P0.
  - intros f d (V & H & S) N. split; [exact (f_equal Rabs V)|]. split; [|now apply s_abs].
    intros j1 j2. apply (w_abs _ (L2 j1 j2) (pr j1 j2 f)); auto. now rewrite P0.
  - intros f d (V & H & S) N. split; [exact (f_equal ln V)|]. split; [|now apply s_ln].
    intros j1 j2. apply (w_ln _ (L2 j1 j2) (pr j1 j2 f)); auto. now rewrite P0.
  - intros f g d e (V & H & S) (V' & H' & S') P C. split; [exact (f_equal2 rpow V V')|]. split.
    + intros j1 j2. apply (w_pow _ (L2 j1 j2) (pr j1 j2 f) (pr j1 j2 g)); [apply H|apply H'|now rewrite P0|]. rewrite P0. exact C.
    + apply s_pow; auto; [exact (eq_ind_r (fun x => 0 < x) P V)|]. left. intros Z. apply (C 0%nat); [cbn; lia|]. exact (eq_trans (eq_sym V') Z).
  - intros f y d e (V & H & S) HY P. pose proof HY as (V' & H' & S'). split; [exact (f_equal2 rpow V V')|]. split.
    + intros j1 j2. apply (w_powc _ (L2 j1 j2) (pr j1 j2 f) y); [apply H|apply H'|now rewrite P0].
    + apply s_pow; auto; [exact (eq_ind_r (fun x => 0 < x) P V)|]. right. intros a Ha. exact (const_jet y e a HY Ha).
  - intros x y d e (V & H & S) (V' & H' & S'). split; [exact (f_equal2 Rdiv V V')|]. split; [|now apply s_div].
    intros j1 j2. apply (v_div _ (L2 j1 j2) x y); [apply H|apply H'].
  - intros x d (V & H & S). split; [exact (f_equal sqrt V)|]. split; [|now apply s_sqrt].
    intros j1 j2. apply (v_sqrt _ (L2 j1 j2) x). apply H.
  - intros f d (_ & _ & S). exact S.
  - intros d e (V & H & S) S'. pose proof S' as (a & b & JE & _). split; [exact (eq_trans (f_equal2 Rmult V eq_refl) (Rmult_0_l _))|]. split; [|now apply s_mul].
    intros j1 j2. apply (g_mul _ (L2 j1 j2)); [apply H|]. exact (jet_some e a b j1 j2 JE).
  - intros d S. now apply s_abs.
  - intros d S. now apply s_sqrt.
Qed.

(** the second derivatives are read off by the two passes *)
Lemma hess_jets n (g : nat -> R) (e : nat -> K2) (a : nat -> J -> R) (b : nat -> J -> J -> R) j1 j2 :
  (forall i, (i < n)%nat -> jet2 (e i) (a i) (b i)) -> hess_entry n g e j1 j2 = rsum n (fun i => g i * b i j1 j2).
Proof.
  unfold hess_entry, grad_entry. intros H.
  assert (G : forall h, snd (fsum (K := K1) n (fun i => snd (e i) (ncon (K := RL eps mx) (M := BwdK (RL eps mx) J) (g i)) j1)) h j2 = h * rsum n (fun i => g i * b i j1 j2)).
  { induction n as [|n IH]; intros h.
    - change (@eq R (Q2R 0) (h * 0)). rewrite Q2R_0. ring.
    - cbn [rsum].
      change (@eq R (snd (fsum (K := K1) n (fun i => snd (e i) (ncon (K := RL eps mx) (M := BwdK (RL eps mx) J) (g i)) j1)) (h * Q2R 1) j2 +
        snd (snd (e n) (ncon (K := RL eps mx) (M := BwdK (RL eps mx) J) (g n)) j1) (h * Q2R 1) j2) (h * (rsum n (fun i => g i * b i j1 j2) + g n * b n j1 j2))).
      rewrite IH by (intros; apply H; lia).
      destruct (H n (Nat.lt_succ_diag_r n)) as (_ & H2).
      destruct (H2 (ncon (K := RL eps mx) (M := BwdK (RL eps mx) J) (g n)) j1 j2 0) as (_ & W); [intros k; apply j1_con|].
      rewrite W, Q2R_1. change (fst (ncon (K := RL eps mx) (M := BwdK (RL eps mx) J) (g n))) with (g n). ring. }
  rewrite G. ring.
Qed.

Theorem C70_hessian_symmetric : forall (X : Ext (RS eps mx)) (XA : Ext K2) (W : World (RN eps mx)) (WA : World (LN K2)) (p : Disp (RN eps mx)) (pA : Disp (LN K2))
    (a : (J -> R) -> Args (RN eps mx)) (aA : Args (LN K2)) kind (kw : mkwargs (RN eps mx)) (kwA : mkwargs (LN K2)) n c B d0 ds
    (cn : (J -> R) -> tensor R) (cnA : tensor K2) (q : (J -> R) -> option (tensor R)) (qA : option (tensor K2)) (E : (J -> R) -> tensor R),
  1 <= mx ->
  same_calc TS X XA W WA p pA a aA kind kw kwA n c B d0 ds cn cnA q qA E ->
  exists eA, run (N := LN K2) XA WA pA aA = Ok eA /\ shp eA = (n :: B)%list /\
    forall b (g : nat -> R), valid B b -> smooth_mol TS X p a kind kw n c d0 ds cn cnA q qA b ->
    forall j1 j2,
      second_derivative (fun s1 s2 => rsum n (fun i => g i * sl1 (E (shift eqJ j1 j2 s1 s2)) b i)) 0 0 (hess_entry n g (sl1 eA b) j1 j2) /\
      hess_entry n g (sl1 eA b) j1 j2 = hess_entry n g (sl1 eA b) j2 j1.
Proof.
  intros X XA W WA p pA a aA kind kw kwA n c B d0 ds cn cnA q qA E Hm H.
  destruct (C69_derivatives_carried (T := TS) _ _ _ _ _ _ _ _ _ _ _ _ _ _ _ _ _ _ _ _ _ Tsym_laws Hm H) as (eA & Er & Sh & Tr).
  exists eA. split; [exact Er|]. split; [exact Sh|]. intros b g Hb Sm j1 j2. split.
  - apply (hessian_of n g (sl1 eA b) (fun i s1 s2 => sl1 (E (shift eqJ j1 j2 s1 s2)) b i) j1 j2 0 0).
    intros i Hi. destruct (Tr b i Hb Hi Sm) as (_ & T2 & _). exact (T2 j1 j2).
  - assert (Q : exists (u : nat -> J -> R) (v : nat -> J -> J -> R), forall i, (i < n)%nat -> jet2 (sl1 eA b i) (u i) (v i) /\ forall j k, v i j k = v i k j).
    { assert (Q : forall i, exists uv : (J -> R) * (J -> J -> R), (i < n)%nat -> jet2 (sl1 eA b i) (fst uv) (snd uv) /\ forall j k, snd uv j k = snd uv k j).
      { intros i. destruct (Compare_dec.lt_dec i n) as [Hi|Hi].
        - destruct (Tr b i Hb Hi Sm) as (_ & _ & u & v & HJ & HS). exists (u, v). intros _. split; [exact HJ|exact HS].
        - exists (fun _ => 0, fun _ _ => 0). contradiction. }
      clear - Q. induction n as [|n IH].
      - exists (fun _ _ => 0), (fun _ _ _ => 0). intros; lia.
      - destruct IH as (u & v & HI). { intros i. destruct (Q i) as (uv & HQ). exists uv. intros. apply HQ. lia. }
        destruct (Q n) as ((un & vn) & HQ).
        exists (fun i => if Nat.eq_dec i n then un else u i), (fun i => if Nat.eq_dec i n then vn else v i).
        intros i Hi. destruct (Nat.eq_dec i n) as [->|]; [apply HQ; lia|apply HI; lia]. }
    destruct Q as (u & v & Q).
    assert (Q1 : forall i, (i < n)%nat -> jet2 (sl1 eA b i) (u i) (v i)) by apply Q.
    refine (eq_trans (hess_jets n g (sl1 eA b) u v j1 j2 Q1) (eq_trans _ (eq_sym (hess_jets n g (sl1 eA b) u v j2 j1 Q1)))).
    apply rsum_ext. intros i Hi. now rewrite (proj2 (Q i Hi) j1 j2).
Qed.
End Sym.

(** ** Example: water and carbon monoxide, all coordinates as leaves *)
From Verif Require Import PropsAD PropsC6 Inst InstW SpecBits InstAny.
Open Scope R_scope.
Section Ex.
Context {eps mx : R} (He : 0 <= eps < 1) (Hm : 1 <= mx).
Notation NR := (RN eps mx).
Notation XR := (Xex eps mx).
Notation WR := (Wany (N := NR) XR).
Notation PR := (Pany (N := NR) XR "d4").
Notation x0 := (line (eps := eps) (mx := mx) 3 [2%nat] 2).
Notation J := (list nat).
Notation K1 := (Grad1 eps mx J).
Notation K2 := (Grad2 eps mx J).
Notation eqJ := (list_eq_dec Nat.eq_dec).
Notation TS := (Tsym (eps := eps) (mx := mx) eqJ).
(** the geometry with all coordinates displaced *)
Definition displaced (p : J -> R) : tensor R := mkT (shp x0) (fun ix => dat x0 ix + p ix).
Lemma leaves_sym ix : Ttrk TS (fun p => dat (displaced p) ix) (dat (leaves2 (eps := eps) (mx := mx)) ix).
Proof.
  split; [exact (eq_sym (Rplus_0_r _))|]. split.
  - intros j1 j2. apply (trk_ext (Tb2_laws j1 j2 0 0) (two (fun s1 s2 => dat (moved (eps := eps) (mx := mx) j1 j2 s1 s2) ix))); [|apply leaves2_trk].
    intros p. unfold two, moved, displaced, shift. cbn [dat]. apply Rplus_assoc.
  - exists (fun j => if eqJ ix j then 1 else 0), (fun _ _ => 0). split; [|reflexivity]. split.
    + intros k g. cbn. unfold leaf. destruct (eqJ ix k); pose (w := (g : R)); [change (@eq R w (w * 1))|change (@eq R 0 (w * 0))]; ring.
    + intros u j k c Hc. cbn [leaves2 dat snd]. unfold leaf. destruct (eqJ ix j).
      * split; [exact (eq_sym (Rmult_1_r _))|]. intros h. rewrite Hc. pose (v := (fst u : R)). change (@eq R (h * c) (h * (v * 0 + c * 1))). ring.
      * change (@eq R (Q2R 0) (fst u * 0) /\ forall h : R, @eq R (Q2R 0) (h * (fst u * 0 + c * 0))). rewrite Q2R_0.
        pose (v := (fst u : R)). change (@eq R 0 (v * 0) /\ forall h : R, @eq R 0 (h * (v * 0 + c * 0))). split; [ring|intros; ring].
Qed.
Example C70_example :
  exists eA, run (N := LN K2) (XadN K2) (Wany (N := LN K2) (XadN K2)) (Pany (N := LN K2) (XadN K2) "d4")
      (gcall (N := LN K2) two_mols leaves2) = Ok eA /\ shp eA = [3; 2]%nat /\
    forall b (g : nat -> R), valid [2%nat] b -> forall j1 j2,
      second_derivative (fun s1 s2 => rsum 3 (fun i => g i * sl1 (e_of (eps := eps) (mx := mx) (displaced (shift eqJ j1 j2 s1 s2))) b i)) 0 0 (hess_entry 3 g (sl1 eA b) j1 j2) /\
      hess_entry 3 g (sl1 eA b) j1 j2 = hess_entry 3 g (sl1 eA b) j2 j1.
Proof.
  assert (XC : ext_ad TS 1 0 XR (XadN K2)) by (apply (XadN_carries (Tsym_laws eqJ)); lra).
  destruct (C70_hessian_symmetric (J := J) eqJ XR (XadN K2) WR (Wany (N := LN K2) (XadN K2)) PR (Pany (N := LN K2) (XadN K2) "d4")
    (fun p => gcall (N := NR) two_mols (displaced p)) (gcall (N := LN K2) two_mols leaves2) D4M no_kw no_kw 3 3 [2%nat] 1 0
    (fun p => cn_of (eps := eps) (mx := mx) (displaced p)) (PropsADN.cnA_of (T := TS) (XadN K2) leaves2)
    (fun p => Some (q_of (eps := eps) (mx := mx) (displaced p))) (Some (PropsADN.qA_of (T := TS) (XadN K2) leaves2))
    (fun p => e_of (eps := eps) (mx := mx) (displaced p)) Hm) as (eA & E & S & G).
  - apply (PropsADN.ex_same (T := TS) (Tsym_laws eqJ) (XadN K2) XC (XadN_tables K2) displaced leaves2); auto. intros. apply leaves_sym.
  - exists eA. split; [exact E|]. split; [exact S|]. intros b g Hb j1 j2. apply (G b g Hb).
    apply (PropsADN.ex_smooth He (T := TS) (Tsym_laws eqJ) (XadN K2) XC displaced leaves2); auto.
    + intros ix. exact (Rplus_0_r _).
    + intros. apply leaves_sym.
Qed.
End Ex.

(** ** An exponent of exactly zero *)
(** Here too the restriction on exponents is needed: for the power of two leaves, with base 2 and
    exponent 0, the matrix the two backward passes give is not symmetric. *)
Definition leaf_of {eps mx : R} (x : R) (j : bool) : Grad2 eps mx bool :=
  ((x, fun g k => if Bool.bool_dec j k then g else 0),
   fun g k => if Bool.bool_dec j k then g else flit (s := Grad1 eps mx bool) 0).
Theorem C70_zero_exponent_refuted : forall eps mx,
  let e (_ : nat) := fpow (s := Grad2 eps mx bool) (leaf_of 2 true) (leaf_of 0 false) in
  hess_entry 1 (fun _ => 1) e true false = 0 /\ hess_entry 1 (fun _ => 1) e false true = 1 / 2.
Proof.
  intros eps mx e. unfold hess_entry, grad_entry, e, leaf_of. cbn. unfold npow1. cbn. unfold reqb.
  destruct (Req_EM_T 0 (Q2R 0)) as [_|N]; [|elim N; now rewrite Q2R_0]. cbn.
  unfold npow2. cbn. unfold reqb, rleb. destruct (Req_EM_T 2 (Q2R 0)) as [N|_]; [rewrite Q2R_0 in N; lra|]. cbn.
  unfold npow1, npow2. cbn. unfold reqb. destruct (Req_EM_T 2 (Q2R 0)) as [N|_]; [rewrite Q2R_0 in N; lra|].
  destruct (Req_EM_T 0 (Q2R 0)) as [_|N]; [|elim N; now rewrite Q2R_0]. cbn.
  rewrite Q2R_0, ?Q2R_1, rpow_pos, Rpower_O by lra. split; [ring|field].
Qed.
Print Assumptions C70_hessian_symmetric.
Print Assumptions C70_zero_exponent_refuted.
Print Assumptions C70_example.
