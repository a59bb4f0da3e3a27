(** * Differentiability of real functions: closure properties *)
From Coq Require Import Reals Lra Lia List Arith Bool.
From Verif Require Import Py Tensor Scalar RInst SpecR Sums.
Open Scope R_scope.

(** [f] is differentiable at [t] *)
Definition dif (f : R -> R) (t : R) : Prop := exists l, derivable_pt_lim f t l.

Lemma dif_const a t : dif (fun _ => a) t.
Proof. exists 0. apply derivable_pt_lim_const. Qed.
Lemma dif_id t : dif (fun x => x) t.
Proof. exists 1. apply derivable_pt_lim_id. Qed.
Lemma dif_plus f g t : dif f t -> dif g t -> dif (fun x => f x + g x) t.
Proof. intros (l & H) (m & H'). exists (l + m). now apply (derivable_pt_lim_plus f g). Qed.
Lemma dif_minus f g t : dif f t -> dif g t -> dif (fun x => f x - g x) t.
Proof. intros (l & H) (m & H'). exists (l - m). now apply (derivable_pt_lim_minus f g). Qed.
Lemma dif_opp f t : dif f t -> dif (fun x => - f x) t.
Proof. intros (l & H). exists (- l). now apply (derivable_pt_lim_opp f). Qed.
Lemma dif_mult f g t : dif f t -> dif g t -> dif (fun x => f x * g x) t.
Proof. intros (l & H) (m & H'). exists (l * g t + f t * m). now apply (derivable_pt_lim_mult f g). Qed.
Lemma dif_comp f g t : dif f t -> dif g (f t) -> dif (fun x => g (f x)) t.
Proof. intros (l & H) (m & H'). exists (m * l). now apply (derivable_pt_lim_comp f g). Qed.
Lemma dif_div f g t : dif f t -> dif g t -> g t <> 0 -> dif (fun x => f x / g x) t.
Proof.
  intros (l & H) (m & H') N. exists ((l * g t - m * f t) / Rsqr (g t)).
  now apply (derivable_pt_lim_div f g).
Qed.
Lemma dif_pow f n t : dif f t -> dif (fun x => f x ^ n) t.
Proof.
  intros H. apply (dif_comp f (fun x => x ^ n)); [exact H|]. eexists. apply derivable_pt_lim_pow.
Qed.
Lemma dif_sqrt f t : dif f t -> 0 < f t -> dif (fun x => sqrt (f x)) t.
Proof. intros H P. apply (dif_comp f sqrt); [exact H|]. eexists. now apply derivable_pt_lim_sqrt. Qed.
Lemma dif_exp f t : dif f t -> dif (fun x => exp (f x)) t.
Proof. intros H. apply (dif_comp f exp); [exact H|]. eexists. apply derivable_pt_lim_exp. Qed.
Lemma dif_ln f t : dif f t -> 0 < f t -> dif (fun x => ln (f x)) t.
Proof. intros H P. apply (dif_comp f ln); [exact H|]. eexists. now apply derivable_pt_lim_ln. Qed.
Lemma dif_Rpower f a t : dif f t -> 0 < f t -> dif (fun x => Rpower (f x) a) t.
Proof. intros H P. unfold Rpower. apply dif_exp, dif_mult; [apply dif_const|]. now apply dif_ln. Qed.
Lemma dif_sum_list {A} (l : list A) (f : A -> R -> R) t : (forall a, In a l -> dif (f a) t) ->
  dif (fun x => fold_right Rplus 0 (map (fun a => f a x) l)) t.
Proof.
  induction l as [|a l IH]; intros H; cbn [map fold_right]; [apply dif_const|].
  apply (dif_plus (f a)); [apply H; now left|]. apply IH. intros. apply H. now right.
Qed.

(** only values near [t] matter *)
Lemma dif_loc f g t d : 0 < d -> (forall x, Rabs (x - t) < d -> f x = g x) -> dif f t -> dif g t.
Proof.
  intros Hd E (l & H). exists l. intros e He. destruct (H e He) as (dl & Hdl).
  assert (P : 0 < Rmin d dl) by (apply Rmin_pos; [exact Hd|apply cond_pos]).
  exists (mkposreal _ P). intros h Hh Hs. cbn [pos] in Hs.
  rewrite <- !E; [apply Hdl; auto; eapply Rlt_le_trans; [exact Hs|apply Rmin_r]| |].
  - rewrite Rminus_eq_0, Rabs_R0. exact Hd.
  - replace (t + h - t) with h by ring. eapply Rlt_le_trans; [exact Hs|apply Rmin_l].
Qed.
Lemma dif_ext f g t : (forall x, f x = g x) -> dif f t -> dif g t.
Proof. intros E. apply (dif_loc f g t 1); [lra|auto]. Qed.

Lemma dif_rsum n (f : nat -> R -> R) t : (forall i, (i < n)%nat -> dif (f i) t) -> dif (fun x => rsum n (fun i => f i x)) t.
Proof.
  induction n as [|n IH]; intros H; [apply (dif_const 0)|].
  apply (dif_ext (fun x => rsum n (fun i => f i x) + f n x)); [intros x; reflexivity|].
  apply (dif_plus (fun x => rsum n (fun i => f i x)) (f n)); [|apply H; lia]. apply IH. intros. apply H. lia.
Qed.

Lemma dif_near f t e : dif f t -> 0 < e -> exists d, 0 < d /\ forall x, Rabs (x - t) < d -> Rabs (f x - f t) < e.
Proof.
  intros (l & H) He. assert (C : continuity_pt f t).
  { apply derivable_continuous_pt. exists l. exact H. }
  destruct (C e He) as (d & Hd & Hc). exists d. split; [exact Hd|]. intros x Hx.
  destruct (Req_dec t x) as [<-|N]; [rewrite Rminus_eq_0, Rabs_R0; exact He|].
  apply (Hc x). split; [split; [exact I|exact N]|exact Hx].
Qed.

(** a strict comparison stays decided in a neighbourhood *)
Lemma dif_below f a t : dif f t -> f t < a -> exists d, 0 < d /\ forall x, Rabs (x - t) < d -> f x < a.
Proof.
  intros H L. destruct (dif_near f t (a - f t) H ltac:(lra)) as (d & Hd & B). exists d. split; [exact Hd|].
  intros x Hx. specialize (B x Hx). apply Rabs_def2 in B. lra.
Qed.
Lemma dif_above f a t : dif f t -> a < f t -> exists d, 0 < d /\ forall x, Rabs (x - t) < d -> a < f x.
Proof.
  intros H L. destruct (dif_near f t (f t - a) H ltac:(lra)) as (d & Hd & B). exists d. split; [exact Hd|].
  intros x Hx. specialize (B x Hx). apply Rabs_def2 in B. lra.
Qed.

(** a branch on [f x <= a] with [f t <> a] *)
Lemma dif_rleb (f g h : R -> R) a t : dif f t -> f t <> a ->
  (f t < a -> dif g t) -> (a < f t -> dif h t) -> dif (fun x => if rleb (f x) a then g x else h x) t.
Proof.
  intros Hf N Hg Hh. destruct (Rlt_or_le (f t) a) as [L|L].
  - destruct (dif_below f a t Hf L) as (d & Hd & B). apply (dif_loc g _ t d Hd); auto.
    intros x Hx. specialize (B x Hx). unfold rleb. destruct (Rle_dec (f x) a); [reflexivity|lra].
  - assert (L' : a < f t) by lra. destruct (dif_above f a t Hf L') as (d & Hd & B). apply (dif_loc h _ t d Hd); auto.
    intros x Hx. specialize (B x Hx). unfold rleb. destruct (Rle_dec (f x) a); [lra|reflexivity].
Qed.
