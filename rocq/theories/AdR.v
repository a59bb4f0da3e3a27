(** * Automatic differentiation: closure properties (proof layer) *)
From Coq Require Import Reals Lra Lia List Arith ZArith QArith Qreals Bool.
From Verif Require Import Py Tensor Scalar RInst AdInst DiffR SpecAD.
Import ListNotations.
Open Scope R_scope.

Section T.
Context {M : Lin} (means : LT M -> R -> Prop).

Hypothesis HS : lin_sound means.
Notation tracks := (tracks means).
Notation fixed := (fixed means).
Notation proper := (proper means).


Lemma means_eq u l l' : means u l -> l = l' -> means u l'.
Proof. now intros H <-. Qed.
Lemma fixed_con x : fixed x (acon x).
Proof. split; [reflexivity|apply HS]. Qed.
Lemma fixed_tracks t x d : fixed x d -> tracks t (fun _ => x) d.
Proof. intros (E & H). split; [exact E|]. exists 0. split; [apply derivable_pt_lim_const|exact H]. Qed.
Lemma tracks_proper t f d : tracks t f d -> proper d.
Proof. intros (_ & l & _ & H). now exists l. Qed.
Lemma fixed_proper x d : fixed x d -> proper d.
Proof. intros (_ & H). now exists 0. Qed.
Lemma tracks_val t f d : tracks t f d -> fst d = f t. Proof. now intros (H & _). Qed.
Lemma tracks_dif t f d : tracks t f d -> dif f t. Proof. intros (_ & l & H & _). now exists l. Qed.

Lemma fixed_un f df x d : fixed x d -> fixed (f x) (aun M f df d).
Proof.
  intros (E & H). split; [now rewrite <- E|]. cbn [aun snd]. eapply means_eq; [apply HS; exact H|]. ring.
Qed.
Lemma fixed_bin f d1 d2 x y d e : fixed x d -> fixed y e -> fixed (f x y) (abin M f d1 d2 d e).
Proof.
  intros (E & H) (E' & H'). split; [now rewrite <- E, <- E'|]. cbn [abin snd].
  eapply means_eq; [apply HS; apply HS; [exact H|exact H']|]. ring.
Qed.
Lemma proper_un f df d : proper d -> proper (aun M f df d).
Proof. intros (l & H). eexists. apply HS. exact H. Qed.
Lemma proper_bin f d1 d2 d e : proper d -> proper e -> proper (abin M f d1 d2 d e).
Proof. intros (l & H) (l' & H'). eexists. apply HS; apply HS; [exact H|exact H']. Qed.

(** only values near [t] matter *)
Lemma lim_loc f g t d l : 0 < d -> (forall x, Rabs (x - t) < d -> f x = g x) ->
  derivable_pt_lim f t l -> derivable_pt_lim g t l.
Proof.
  intros Hd E H e He. destruct (H e He) as (dl & Hdl).
  assert (P : 0 < Rmin d dl) by (apply Rmin_pos; [exact Hd|apply cond_pos]).
  exists (mkposreal _ P). intros h Hh Hs. cbn [pos] in Hs.
  rewrite <- !E; [apply Hdl; auto; eapply Rlt_le_trans; [exact Hs|apply Rmin_r]| |].
  - rewrite Rminus_eq_0, Rabs_R0. exact Hd.
  - replace (t + h - t) with h by ring. eapply Rlt_le_trans; [exact Hs|apply Rmin_l].
Qed.
Lemma tracks_loc f g t r d : 0 < r -> (forall x, Rabs (x - t) < r -> f x = g x) -> tracks t f d -> tracks t g d.
Proof.
  intros Hr E (V & l & D & H). split.
  - rewrite V. apply E. rewrite Rminus_eq_0, Rabs_R0. exact Hr.
  - exists l. split; [|exact H]. now apply (lim_loc f g t r).
Qed.
Lemma tracks_ext f g t d : (forall x, f x = g x) -> tracks t f d -> tracks t g d.
Proof. intros E. apply (tracks_loc f g t 1); [lra|auto]. Qed.

Lemma tracks_un F dF t f d : tracks t f d -> derivable_pt_lim F (f t) (dF (f t)) ->
  tracks t (fun x => F (f x)) (aun M F dF d).
Proof.
  intros (V & l & D & H) DF. split; [cbn [aun fst]; now rewrite V|]. exists (dF (f t) * l).
  split; [now apply (derivable_pt_lim_comp f F)|]. cbn [aun snd]. rewrite V. now apply HS.
Qed.
Lemma tracks_bin F d1 d2 t f g d e l m : fst d = f t -> fst e = g t -> means (snd d) l -> means (snd e) m ->
  derivable_pt_lim (fun x => F (f x) (g x)) t (d1 (f t) (g t) * l + d2 (f t) (g t) * m) ->
  tracks t (fun x => F (f x) (g x)) (abin M F d1 d2 d e).
Proof.
  intros V V' H H' D. split; [cbn [abin fst]; now rewrite V, V'|]. eexists. split; [exact D|].
  cbn [abin snd]. rewrite V, V'. apply HS; now apply HS.
Qed.

Section Ops.
Context {eps mx : R} (t : R).
Notation K := (AS M eps mx).
Notation trk := (tracks t).
Implicit Types f g : R -> R.
Implicit Types d e : adn M.

Lemma t_add f g d e : trk f d -> trk g e -> trk (fun x => f x + g x) (fadd (s := K) d e).
Proof.
  intros (V & l & D & H) (V' & m & D' & H'). eapply (tracks_bin Rplus); eauto.
  replace (1 * l + 1 * m) with (l + m) by ring. now apply (derivable_pt_lim_plus f g).
Qed.
Lemma t_sub f g d e : trk f d -> trk g e -> trk (fun x => f x - g x) (fsub (s := K) d e).
Proof.
  intros (V & l & D & H) (V' & m & D' & H'). eapply (tracks_bin Rminus); eauto.
  replace (1 * l + -1 * m) with (l - m) by ring. now apply (derivable_pt_lim_minus f g).
Qed.
Lemma t_mul f g d e : trk f d -> trk g e -> trk (fun x => f x * g x) (fmul (s := K) d e).
Proof.
  intros (V & l & D & H) (V' & m & D' & H'). eapply (tracks_bin Rmult); eauto.
  cbv beta. replace (g t * l + f t * m) with (l * g t + f t * m) by ring. now apply (derivable_pt_lim_mult f g).
Qed.
Lemma t_div f g d e : trk f d -> trk g e -> g t <> 0 -> trk (fun x => f x / g x) (fdiv (s := K) d e).
Proof.
  intros (V & l & D & H) (V' & m & D' & H') N. eapply (tracks_bin Rdiv); eauto.
  cbv beta. replace (/ g t * l + - (f t / g t / g t) * m) with ((l * g t - m * f t) / Rsqr (g t))
    by (unfold Rsqr; field; exact N). now apply (derivable_pt_lim_div f g).
Qed.
Lemma t_opp f d : trk f d -> trk (fun x => - f x) (fopp (s := K) d).
Proof.
  intros H. apply (tracks_un Ropp _ t f d H). apply (derivable_pt_lim_opp id).
  apply derivable_pt_lim_id.
Qed.
Lemma t_exp f d : trk f d -> trk (fun x => exp (f x)) (fexp (s := K) d).
Proof. intros H. apply (tracks_un exp _ t f d H). apply derivable_pt_lim_exp. Qed.
Lemma t_sqrt f d : trk f d -> 0 < f t -> trk (fun x => sqrt (f x)) (fsqrt (s := K) d).
Proof. intros H P. apply (tracks_un sqrt _ t f d H). now apply derivable_pt_lim_sqrt. Qed.
Lemma t_pown f d n : trk f d -> trk (fun x => f x ^ n) (fpown (s := K) d n).
Proof. intros H. apply (tracks_un (fun x => x ^ n) _ t f d H). apply derivable_pt_lim_pow. Qed.
Lemma t_abs f d : trk f d -> 0 < f t -> trk (fun x => Rabs (f x)) (fabs (s := K) d).
Proof.
  intros H P. apply (tracks_un Rabs _ t f d H). unfold rsgn. destruct (Rlt_dec 0 (f t)); [|contradiction].
  now apply Rabs_derive_1.
Qed.
Lemma t_pow f g d e : trk f d -> trk g e -> 0 < f t -> trk (fun x => rpow (f x) (g x)) (fpow (s := K) d e).
Proof.
  intros Hf Hg P. pose proof (tracks_dif _ _ _ Hf) as Df.
  destruct Hf as (V & l & D & H), Hg as (V' & m & D' & H'). eapply (tracks_bin rpow); eauto.
  destruct (dif_above f 0 t Df P) as (r & Hr & Q).
  apply (lim_loc (fun x => exp (g x * ln (f x))) _ t r _ Hr).
  { intros x Hx. rewrite rpow_pos by auto. reflexivity. }
  replace (dpow1 (f t) (g t) * l + dpow2 (f t) (g t) * m)
    with (exp (g t * ln (f t)) * (m * ln (f t) + g t * (/ f t * l))).
  - apply (derivable_pt_lim_comp (fun x => g x * ln (f x)) exp); [|apply derivable_pt_lim_exp].
    apply (derivable_pt_lim_mult g (fun x => ln (f x))); [exact D'|].
    apply (derivable_pt_lim_comp f ln); [exact D|]. now apply derivable_pt_lim_ln.
  - unfold dpow1, dpow2. destruct (Req_EM_T (f t) 0) as [E|_]; [lra|].
    rewrite !rpow_pos by exact P. unfold Rpower.
    destruct (Req_EM_T (g t) 0) as [E|_]; [rewrite E; ring|].
    replace ((g t - 1) * ln (f t)) with (g t * ln (f t) + - ln (f t)) by ring.
    rewrite exp_plus, exp_Ropp, exp_ln by exact P. ring.
Qed.
Lemma t_lit q : trk (fun _ => Q2R q) (flit (s := K) q).
Proof. apply fixed_tracks, fixed_con. Qed.
Lemma t_sum n (f : nat -> R -> R) (d : nat -> adn M) : (forall i, (i < n)%nat -> trk (f i) (d i)) ->
  trk (fun x => rsum n (fun i => f i x)) (fsum (K := K) n d).
Proof.
  induction n as [|n IH]; intros H.
  - apply (tracks_ext (fun _ => Q2R 0)); [intros; apply Q2R_0|]. apply t_lit.
  - apply (t_add (fun x => rsum n (fun i => f i x)) (f n)); [|apply H; lia]. apply IH. intros. apply H. lia.
Qed.
(** a factor that vanishes identically *)
Lemma t_mul_0 f d e : trk (fun _ => 0) d -> proper e -> trk (fun x => 0 * f x) (fmul (s := K) d e).
Proof.
  intros (V & l & D & H) (m & H').
  assert (l = 0) by (apply (uniqueness_limite (fun _ => 0) t); [exact D|apply derivable_pt_lim_const]). subst l.
  apply (tracks_loc (fun _ => 0) _ t 1); [lra|intros; ring|].
  split; [cbn; rewrite V; ring|]. exists 0. split; [apply derivable_pt_lim_const|].
  cbn. eapply means_eq; [apply HS; apply HS; eassumption|]. rewrite V. ring.
Qed.
(** branches on a comparison with a fixed number *)
Lemma t_lt f g h d (dg dh : adn M) a e : trk f d -> fst e = a -> f t <> a -> trk g dg -> trk h dh ->
  trk (fun x => if rltb a (f x) then g x else h x) (if flt (s := K) e d then dg else dh).
Proof.
  intros Hf E N Hg Hh. change (flt (s := K) e d) with (rltb (fst e) (fst d)). rewrite E, (tracks_val _ _ _ Hf).
  pose proof (tracks_dif _ _ _ Hf) as D. destruct (Rlt_or_le a (f t)) as [L|L].
  - destruct (dif_above f a t D L) as (r & Hr & B). rewrite (proj2 (rltb_true a (f t)) L).
    apply (tracks_loc g _ t r); auto. intros x Hx. now rewrite (proj2 (rltb_true a (f x)) (B x Hx)).
  - assert (L' : f t < a) by lra. destruct (dif_below f a t D L') as (r & Hr & B). rewrite (proj2 (rltb_false a (f t)) L).
    apply (tracks_loc h _ t r); auto. intros x Hx. now rewrite (proj2 (rltb_false a (f x)) (Rlt_le _ _ (B x Hx))).
Qed.
Lemma t_le f g h d (dg dh : adn M) a e : trk f d -> fst e = a -> f t <> a -> trk g dg -> trk h dh ->
  trk (fun x => if rleb (f x) a then g x else h x) (if fle (s := K) d e then dg else dh).
Proof.
  intros Hf E N Hg Hh. change (fle (s := K) d e) with (rleb (fst d) (fst e)). rewrite E, (tracks_val _ _ _ Hf).
  pose proof (tracks_dif _ _ _ Hf) as D. destruct (Rlt_or_le a (f t)) as [L|L].
  - destruct (dif_above f a t D L) as (r & Hr & B). rewrite (proj2 (rleb_false (f t) a) L).
    apply (tracks_loc h _ t r); auto. intros x Hx. now rewrite (proj2 (rleb_false (f x) a) (B x Hx)).
  - assert (L' : f t < a) by lra. destruct (dif_below f a t D L') as (r & Hr & B). rewrite (proj2 (rleb_true (f t) a) L).
    apply (tracks_loc g _ t r); auto. intros x Hx. now rewrite (proj2 (rleb_true (f x) a) (Rlt_le _ _ (B x Hx))).
Qed.

(** ** fixed numbers *)
Lemma x_lit q : fixed (Q2R q) (flit (s := K) q).
Proof. apply fixed_con. Qed.
Lemma x_sum n (f : nat -> R) (d : nat -> adn M) : (forall i, (i < n)%nat -> fixed (f i) (d i)) ->
  fixed (fsum (K := RS eps mx) n f) (fsum (K := K) n d).
Proof.
  induction n as [|n IH]; intros H; [apply x_lit|].
  apply (fixed_bin Rplus); [apply IH; intros; apply H; lia|apply H; lia].
Qed.
Lemma proper_sum n (d : nat -> adn M) : (forall i, (i < n)%nat -> proper (d i)) -> proper (fsum (K := K) n d).
Proof.
  induction n as [|n IH]; intros H; [eapply fixed_proper, x_lit|].
  apply proper_bin; [apply IH; intros; apply H; lia|apply H; lia].
Qed.
End Ops.
End T.

(** the two modes *)
Lemma fwd_sound : lin_sound (M := Fwd) (fun u l => u = l).
Proof. repeat split; cbn; intros; subst; reflexivity. Qed.
(** in backward mode: the gradient of leaf [j] *)
Lemma bwd_sound I (j : I) : lin_sound (M := Bwd I) (fun u l => forall g, u g j = g * l).
Proof.
  split; [|split]; cbn; intros.
  - ring.
  - rewrite H, H0. ring.
  - rewrite H. ring.
Qed.

(** ** The same facts about the operations of the two instances *)
Section R.
Context {M : Lin} (means : LT M -> R -> Prop) (HS : lin_sound means) {eps mx : R} (t : R).
Notation KR := (RS eps mx).
Notation KA := (AS M eps mx).
Notation trk := (tracks means t).
Notation fx := (fixed means).
Implicit Types f g : R -> R.
Implicit Types d e : adn M.

Lemma r_add f g d e : trk f d -> trk g e -> trk (fun x => fadd (s := KR) (f x) (g x)) (fadd (s := KA) d e).
Proof. apply (t_add means HS). Qed.
Lemma r_sub f g d e : trk f d -> trk g e -> trk (fun x => fsub (s := KR) (f x) (g x)) (fsub (s := KA) d e).
Proof. apply (t_sub means HS). Qed.
Lemma r_mul f g d e : trk f d -> trk g e -> trk (fun x => fmul (s := KR) (f x) (g x)) (fmul (s := KA) d e).
Proof. apply (t_mul means HS). Qed.
Lemma r_div f g d e : trk f d -> trk g e -> g t <> 0 -> trk (fun x => fdiv (s := KR) (f x) (g x)) (fdiv (s := KA) d e).
Proof. apply (t_div means HS). Qed.
Lemma r_opp f d : trk f d -> trk (fun x => fopp (s := KR) (f x)) (fopp (s := KA) d).
Proof. apply (t_opp means HS). Qed.
Lemma r_exp f d : trk f d -> trk (fun x => fexp (s := KR) (f x)) (fexp (s := KA) d).
Proof. apply (t_exp means HS). Qed.
Lemma r_sqrt f d : trk f d -> 0 < f t -> trk (fun x => fsqrt (s := KR) (f x)) (fsqrt (s := KA) d).
Proof. apply (t_sqrt means HS). Qed.
Lemma r_abs f d : trk f d -> 0 < f t -> trk (fun x => fabs (s := KR) (f x)) (fabs (s := KA) d).
Proof. apply (t_abs means HS). Qed.
Lemma r_pown f d n : trk f d -> trk (fun x => fpown (s := KR) (f x) n) (fpown (s := KA) d n).
Proof. apply (t_pown means HS). Qed.
Lemma r_pow f g d e : trk f d -> trk g e -> 0 < f t -> trk (fun x => fpow (s := KR) (f x) (g x)) (fpow (s := KA) d e).
Proof. apply (t_pow means HS). Qed.
Lemma r_lit q : trk (fun _ => flit (s := KR) q) (flit (s := KA) q).
Proof. apply (t_lit means HS). Qed.
Lemma r_eps : trk (fun _ => feps (s := KR)) (feps (s := KA)).
Proof. apply fixed_tracks. now apply fixed_con. Qed.
Lemma r_sum n (f : nat -> R -> R) (d : nat -> adn M) : (forall i, (i < n)%nat -> trk (f i) (d i)) ->
  trk (fun x => fsum (K := KR) n (fun i => f i x)) (fsum (K := KA) n d).
Proof.
  intros H. apply (tracks_ext means (fun x => rsum n (fun i => f i x))); [intros; symmetry; apply fsum_R|].
  now apply (t_sum means HS).
Qed.

Lemma y_lit q : fx (flit (s := KR) q) (flit (s := KA) q).
Proof. now apply fixed_con. Qed.
Lemma y_add x y d e : fx x d -> fx y e -> fx (fadd (s := KR) x y) (fadd (s := KA) d e).
Proof. apply (fixed_bin means HS Rplus). Qed.
Lemma y_sub x y d e : fx x d -> fx y e -> fx (fsub (s := KR) x y) (fsub (s := KA) d e).
Proof. apply (fixed_bin means HS Rminus). Qed.
Lemma y_mul x y d e : fx x d -> fx y e -> fx (fmul (s := KR) x y) (fmul (s := KA) d e).
Proof. apply (fixed_bin means HS Rmult). Qed.
Lemma y_div x y d e : fx x d -> fx y e -> fx (fdiv (s := KR) x y) (fdiv (s := KA) d e).
Proof. apply (fixed_bin means HS Rdiv). Qed.
Lemma y_exp x d : fx x d -> fx (fexp (s := KR) x) (fexp (s := KA) d).
Proof. apply (fixed_un means HS exp). Qed.
Lemma y_sqrt x d : fx x d -> fx (fsqrt (s := KR) x) (fsqrt (s := KA) d).
Proof. apply (fixed_un means HS sqrt). Qed.
Lemma y_sum n (f : nat -> R) (d : nat -> adn M) : (forall i, (i < n)%nat -> fx (f i) (d i)) ->
  fx (fsum (K := KR) n f) (fsum (K := KA) n d).
Proof. apply (x_sum means HS). Qed.
End R.
