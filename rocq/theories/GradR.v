(** * Backward mode with infinities and NaN: closure properties (proof layer) *)
From Coq Require Import Reals Lra Lia List Arith ZArith QArith Qreals Bool.
From Verif Require Import Py Tensor Scalar RInst AdInst GradInst SpecGrad.
Import ListNotations.
Open Scope R_scope.

Section G.
Context {I : Type} {eps mx : R}.
Notation KG := (GS I eps mx).
Notation KA := (AS (Bwd I) eps mx).
Notation B := (Bwd I).
Implicit Types (e f : gnum I) (a b : adn (Bwd I)).

Lemma xadd_0_l x : xadd (XR 0) x = x.
Proof. destruct x; cbn; [f_equal; ring|reflexivity..]. Qed.
Lemma xadd_0_r x : xadd x (XR 0) = x.
Proof. destruct x; cbn; [f_equal; ring|reflexivity..]. Qed.
Lemma grad_gplus (u v : option (gfun I)) g i :
  match gplus I u v with None => XR 0 | Some w => w g i end =
  xadd match u with None => XR 0 | Some w => w g i end match v with None => XR 0 | Some w => w g i end.
Proof. destruct u, v; cbn [gplus]; rewrite ?xadd_0_l, ?xadd_0_r; reflexivity. Qed.
Lemma grad_gback bb (u : option (gfun I)) g i :
  match gback I bb u with None => XR 0 | Some w => w g i end =
  match u with None => XR 0 | Some w => w (bb g) i end.
Proof. destruct u; reflexivity. Qed.
Lemma grad_un F bb e g i : grad (gun I F bb e) g i = grad e (bb (fst e) g) i.
Proof. unfold grad, gun. cbn [snd]. apply grad_gback. Qed.
Lemma grad_bin F k1 k2 e f g i :
  grad (gbin I F k1 k2 e f) g i = xadd (grad e (k1 (fst e) (fst f) g) i) (grad f (k2 (fst e) (fst f) g) i).
Proof. unfold grad, gbin. cbn [snd]. rewrite grad_gplus, !grad_gback. reflexivity. Qed.
Lemma grad_sel m e f g i :
  grad (gsel m e f) g i = xadd (grad e (if m then g else XR 0) i) (grad f (if m then XR 0 else g) i).
Proof. unfold grad, gsel. cbn [snd]. rewrite grad_gplus, !grad_gback. reflexivity. Qed.

(** ** entries through which no gradient flows *)
Lemma dead_con x : dead (gcon (I := I) x). Proof. intros g i. reflexivity. Qed.
Lemma dead_un F bb e : dead e -> dead (gun I F bb e).
Proof. intros H g i. rewrite grad_un. apply H. Qed.
Lemma dead_bin F k1 k2 e f : dead e -> dead f -> dead (gbin I F k1 k2 e f).
Proof. intros H H' g i. rewrite grad_bin, H, H'. cbn. f_equal. ring. Qed.
Lemma dead_add e f : dead e -> dead f -> dead (fadd (s := KG) e f). Proof. apply dead_bin. Qed.
Lemma dead_sub e f : dead e -> dead f -> dead (fsub (s := KG) e f). Proof. apply dead_bin. Qed.
Lemma dead_mul e f : dead e -> dead f -> dead (fmul (s := KG) e f). Proof. apply dead_bin. Qed.
Lemma dead_div e f : dead e -> dead f -> dead (fdiv (s := KG) e f). Proof. apply dead_bin. Qed.
Lemma dead_pow e f : dead e -> dead f -> dead (fpow (s := KG) e f). Proof. apply dead_bin. Qed.
Lemma dead_opp e : dead e -> dead (fopp (s := KG) e). Proof. apply dead_un. Qed.
Lemma dead_exp e : dead e -> dead (fexp (s := KG) e). Proof. apply dead_un. Qed.
Lemma dead_sqrt e : dead e -> dead (fsqrt (s := KG) e). Proof. apply dead_un. Qed.
Lemma dead_pown e n : dead e -> dead (fpown (s := KG) e n). Proof. apply dead_un. Qed.
Lemma dead_lit q : dead (flit (s := KG) q). Proof. apply dead_con. Qed.

(** [torch.where] *)
Lemma live_sel (m : bool) e f a b : live e a -> live f b -> live (gsel m e f) (where3 m a b).
Proof.
  intros (V & G & Z) (V' & G' & Z'). unfold where3. split; [|split].
  - unfold gsel. cbn [fst]. destruct m; auto.
  - intros g i. rewrite grad_sel. destruct m; rewrite G, G'; cbn; f_equal; rewrite ?Z, ?Z'; ring.
  - destruct m; auto.
Qed.
(** the branch that is not selected may be anything, if no gradient flows through it *)
Lemma live_sel_dead e f b (a : adn B) : dead e -> live f b -> live (gsel false e f) (where3 false a b).
Proof.
  intros D (V & G & Z). split; [exact V|]. split; [|exact Z].
  intros g i. rewrite grad_sel, D, G. cbn. f_equal. ring.
Qed.
Lemma dead_sel_masked e a f : live e a -> dead f -> dead (gsel false e f).
Proof.
  intros (V & G & Z) D g i. rewrite grad_sel, G, Z, D. cbn. f_equal. ring.
Qed.

(** ** entries with finite gradients *)
Lemma live_con x : live (gcon (I := I) (XR x)) (acon x).
Proof. split; [reflexivity|]. split; reflexivity. Qed.
Lemma live_lit q : live (flit (s := KG) q) (flit (s := KA) q). Proof. apply live_con. Qed.
Lemma live_eps : live (feps (s := KG)) (feps (s := KA)). Proof. apply live_con. Qed.
Lemma live_maxfin : live (fmaxfin (s := KG)) (fmaxfin (s := KA)). Proof. apply live_con. Qed.
Lemma live_dead_0 e a : live e a -> dead e -> forall g i, snd a g i = 0.
Proof. intros (_ & G & _) D g i. specialize (G g i). rewrite D in G. now injection G. Qed.

Lemma live_un F bb (f df : R -> R) e a : live e a ->
  F (XR (fst a)) = XR (f (fst a)) ->
  (dead e \/ forall g, bb (XR (fst a)) (XR g) = XR (g * df (fst a))) ->
  live (gun I F bb e) (aun B f df a).
Proof.
  intros L HF HB. pose proof L as (V & G & Z). split; [|split].
  - cbn [gun aun fst]. now rewrite V.
  - intros g i. rewrite grad_un, V. cbn [aun snd Bwd ls].
    destruct HB as [D|HB].
    + now rewrite D, (live_dead_0 e a L D).
    + rewrite HB. apply G.
  - intros i. cbn [aun snd Bwd ls]. rewrite Rmult_0_l. apply Z.
Qed.
Lemma live_bin F k1 k2 (f d1 d2 : R -> R -> R) e e' a a' : live e a -> live e' a' ->
  F (XR (fst a)) (XR (fst a')) = XR (f (fst a) (fst a')) ->
  (dead e \/ forall g, k1 (XR (fst a)) (XR (fst a')) (XR g) = XR (g * d1 (fst a) (fst a'))) ->
  (dead e' \/ forall g, k2 (XR (fst a)) (XR (fst a')) (XR g) = XR (g * d2 (fst a) (fst a'))) ->
  live (gbin I F k1 k2 e e') (abin B f d1 d2 a a').
Proof.
  intros L L' HF H1 H2. pose proof L as (V & G & Z). pose proof L' as (V' & G' & Z'). split; [|split].
  - cbn [gbin abin fst]. now rewrite V, V'.
  - intros g i. rewrite grad_bin, V, V'. cbn [abin snd Bwd ls lp].
    assert (P1 : grad e (k1 (XR (fst a)) (XR (fst a')) (XR g)) i = XR (snd a (g * d1 (fst a) (fst a')) i)).
    { destruct H1 as [D|H1]; [now rewrite D, (live_dead_0 e a L D)|]. rewrite H1. apply G. }
    assert (P2 : grad e' (k2 (XR (fst a)) (XR (fst a')) (XR g)) i = XR (snd a' (g * d2 (fst a) (fst a')) i)).
    { destruct H2 as [D|H2]; [now rewrite D, (live_dead_0 e' a' L' D)|]. rewrite H2. apply G'. }
    rewrite P1, P2. reflexivity.
  - intros i. cbn [abin snd Bwd ls lp]. rewrite !Rmult_0_l, Z, Z'. ring.
Qed.

Lemma live_add e f a b : live e a -> live f b -> live (fadd (s := KG) e f) (fadd (s := KA) a b).
Proof. intros. apply live_bin; auto; right; intros g; cbn; f_equal; ring. Qed.
Lemma live_sub e f a b : live e a -> live f b -> live (fsub (s := KG) e f) (fsub (s := KA) a b).
Proof. intros. apply live_bin; auto; right; intros g; cbn; f_equal; ring. Qed.
Lemma live_mul e f a b : live e a -> live f b -> live (fmul (s := KG) e f) (fmul (s := KA) a b).
Proof. intros. apply live_bin; auto; right; intros g; cbn; f_equal; ring. Qed.
Lemma xdiv_R x y : y <> 0 -> xdiv (XR x) (XR y) = XR (x / y).
Proof. intros N. cbn. now destruct (Req_EM_T y 0). Qed.
Lemma xsqrt_R x : 0 <= x -> xsqrt (XR x) = XR (sqrt x).
Proof. intros N. cbn. destruct (Rlt_dec x 0); [lra|reflexivity]. Qed.
Lemma xpow_R x y : 0 < x \/ (x = 0 /\ 0 <= y) -> xpow (XR x) (XR y) = XR (rpow x y).
Proof.
  intros P. cbn. unfold rpow. destruct (Rlt_dec 0 x); [reflexivity|].
  destruct (Req_EM_T x 0); [|lra]. destruct (Rlt_dec y 0); [lra|]. now destruct (Req_EM_T y 0).
Qed.
Lemma live_div e f a b : live e a -> live f b -> fst b <> 0 -> live (fdiv (s := KG) e f) (fdiv (s := KA) a b).
Proof.
  intros H H' N.
  apply (live_bin xdiv (fun _ y g => xdiv g y) (fun x y g => xmul (xopp g) (xdiv (xdiv x y) y))
           Rdiv (fun _ y => / y) (fun x y => - (x / y / y))); auto.
  - now apply xdiv_R.
  - right. intros g. now apply xdiv_R.
  - right. intros g. rewrite !xdiv_R by assumption. cbn. f_equal. ring.
Qed.
Lemma live_opp e a : live e a -> live (fopp (s := KG) e) (fopp (s := KA) a).
Proof. intros. apply live_un; auto. right. intros g. cbn. f_equal. ring. Qed.
Lemma live_exp e a : live e a -> live (fexp (s := KG) e) (fexp (s := KA) a).
Proof. intros. apply live_un; auto. Qed.
Lemma live_abs e a : live e a -> live (fabs (s := KG) e) (fabs (s := KA) a).
Proof. intros. apply live_un; auto. Qed.
Lemma live_pown e a n : live e a -> live (fpown (s := KG) e n) (fpown (s := KA) a n).
Proof.
  intros. apply (live_un (fun x => xpown x n) (bpown n) (fun x => x ^ n) (dpown n)); auto.
  right. intros g. destruct n; unfold dpown; cbn [bpown xpown xmul Nat.pred INR]; f_equal; ring.
Qed.
Lemma live_sqrt e a : live e a -> 0 < fst a \/ (0 <= fst a /\ dead e) ->
  live (fsqrt (s := KG) e) (fsqrt (s := KA) a).
Proof.
  intros H P. apply (live_un xsqrt (fun x g => xdiv g (xmul (XR 2) (xsqrt x))) sqrt (fun x => / (2 * sqrt x))); auto.
  - apply xsqrt_R. destruct P; lra.
  - destruct P as [P|(_ & D)]; [right|now left]. intros g. rewrite xsqrt_R by lra.
    cbn [xmul]. apply xdiv_R. pose proof (sqrt_lt_R0 _ P). lra.
Qed.
Lemma xeq_0 x : xeq (XR x) (XR 0) = if Req_EM_T x 0 then true else false.
Proof. cbn. unfold reqb. now destruct (Req_EM_T x 0). Qed.
Lemma xle_R x y : xle (XR x) (XR y) = rleb x y.
Proof.
  unfold xle. cbn. unfold rltb, reqb, rleb. destruct (Rlt_dec x y), (Req_EM_T x y), (Rle_dec x y); cbn; auto; lra.
Qed.
Lemma bpow1_R x y g : 0 < x \/ (x = 0 /\ 1 <= y) -> bpow1 (XR x) (XR y) (XR g) = XR (g * dpow1 x y).
Proof.
  intros P. unfold bpow1, dpow1. rewrite xeq_0. destruct (Req_EM_T y 0); [f_equal; ring|].
  cbn [xsub xopp xadd]. change (y + - (1)) with (y - 1). rewrite xpow_R; [reflexivity|].
  destruct P as [P|(P & Q)]; [now left|right; split; lra].
Qed.
Lemma bpow2_R x y g : 0 < x \/ (x = 0 /\ 0 <= y) -> bpow2 (XR x) (XR y) (XR g) = XR (g * dpow2 x y).
Proof.
  intros P. unfold bpow2, dpow2. rewrite xeq_0, xle_R. unfold rleb.
  destruct (Req_EM_T x 0), (Rle_dec 0 y); cbn [andb]; try lra; try (f_equal; ring);
    destruct P as [P|P]; try lra; rewrite xpow_R by auto; cbn [xln];
    destruct (Rlt_dec 0 x); try lra; cbn [xmul]; f_equal; ring.
Qed.
Lemma live_pow e f a b : live e a -> live f b -> 0 < fst a \/ (fst a = 0 /\ 1 <= fst b) ->
  live (fpow (s := KG) e f) (fpow (s := KA) a b).
Proof.
  intros H H' P. apply (live_bin xpow bpow1 bpow2 rpow dpow1 dpow2); auto.
  - apply xpow_R. destruct P as [P|(P & Q)]; [now left|right; split; [exact P|lra]].
  - right. intros g. now apply bpow1_R.
  - right. intros g. apply bpow2_R. destruct P as [P|(P & Q)]; [now left|right; split; [exact P|lra]].
Qed.

(** comparisons look at the values *)
Lemma live_lt e f a b : live e a -> live f b -> flt (s := KG) e f = flt (s := KA) a b.
Proof. intros (V & _) (V' & _). cbn. now rewrite V, V'. Qed.
Lemma live_le e f a b : live e a -> live f b -> fle (s := KG) e f = fle (s := KA) a b.
Proof. intros (V & _) (V' & _). cbn [fle GS AS]. rewrite V, V'. apply xle_R. Qed.
Lemma live_eq e f a b : live e a -> live f b -> feq (s := KG) e f = feq (s := KA) a b.
Proof. intros (V & _) (V' & _). cbn. now rewrite V, V'. Qed.
Lemma live_nan e a : live e a -> fisnan (s := KG) e = fisnan (s := KA) a.
Proof. intros (V & _). cbn. now rewrite V. Qed.
Lemma live_max2 e f a b : live e a -> live f b -> live (fmax2 (s := KG) e f) (fmax2 (s := KA) a b).
Proof.
  intros H H'. pose proof H as (V & _). pose proof H' as (V' & _).
  change (fmax2 (s := KG) e f) with (if xlt (fst e) (fst f) then f else e).
  change (fmax2 (s := KA) a b) with (if Rlt_dec (fst a) (fst b) then b else a).
  rewrite V, V'. cbn [xlt]. unfold rltb. now destruct (Rlt_dec (fst a) (fst b)).
Qed.
Lemma live_sum n (u : nat -> gnum I) (v : nat -> adn B) : (forall k, (k < n)%nat -> live (u k) (v k)) ->
  live (fsum (K := KG) n u) (fsum (K := KA) n v).
Proof.
  induction n as [|n IH]; intros H; [apply live_lit|].
  change (live (fadd (s := KG) (fsum (K := KG) n u) (u n)) (fadd (s := KA) (fsum (K := KA) n v) (v n))). apply live_add; auto.
Qed.
Lemma dead_sum n (u : nat -> gnum I) : (forall k, (k < n)%nat -> dead (u k)) -> dead (fsum (K := KG) n u).
Proof.
  induction n as [|n IH]; intros H; [apply dead_lit|].
  change (dead (fadd (s := KG) (fsum (K := KG) n u) (u n))). apply dead_add; auto.
Qed.
End G.
