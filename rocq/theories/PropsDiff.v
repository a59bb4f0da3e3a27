(** * The energy is a differentiable function of the geometry, away from the cutoffs: C55 *)
From Coq Require Import Reals Ranalysis5 Lra Lia List Arith ZArith QArith Qreals Bool String Classical.
From Verif Require Import Py Tensor Scalar RInst ModelExt ModelUtils ModelDamping ModelModels
  ModelTerms ModelDisp Spec SpecCall SpecR SpecMol TensorLemmas Closed PropsTables SpecW WeightsR WeightsP PropsWeights
  SpecD4 PropsD4 PropsC6 DiffR.
Import ListNotations.
Open Scope R_scope.

(** ** Specification: what the path of geometries must satisfy *)
(** cutoff of a term *)
Definition cut_of {eps mx} (a : Args (RN eps mx)) (t : DispTerm (RN eps mx)) : R :=
  match t_class t with TwoBodyTerm => cut2 a | _ => cut3 a end.
(** no two real atoms of molecule [b] are exactly a cutoff of the terms apart *)
Definition off_cutoffs {eps mx} (p : Disp (RN eps mx)) (a : Args (RN eps mx)) (n c : nat) (b : list nat) : Prop :=
  forall t i j, In t (p_terms p) -> (i < n)%nat -> (j < n)%nat -> real_pair (mol_z a b) i j = true ->
    euclid c (mol_x a b i) (mol_x a b j) <> cut_of a t.
(** the charge scaling is branch-free at the charge [q]: the effective charge [q + zeff] is
    neither 0 nor the regulariser *)
Definition smooth_charge {eps mx} (X : Ext (sc (RN eps mx))) (z : nat) (q : R) : Prop :=
  q + dat (x_zeff X) [z] <> 0 /\ q + dat (x_zeff X) [z] <> eps.
(** all C6 coefficients are positive (they are unless cerium is involved: C31_c6_positive) *)
Definition c6_all_positive {eps mx} (X : Ext (sc (RN eps mx))) kind kw (a : Args (RN eps mx)) b n cn q : Prop :=
  forall i j, (i < n)%nat -> (j < n)%nat -> real_pair (mol_z a b) i j = true -> 0 < c6_coef X kind kw a b cn q i j.
(** a quantity of the real atoms of molecule [b] is differentiable at [t0] *)
Definition dif_atoms (numbers : tensor Z) (n : nat) (b : list nat) (u : R -> nat -> R) (t0 : R) : Prop :=
  forall i, (i < n)%nat -> real_atom numbers b i -> dif (fun t => u t i) t0.

(** ** Pieces of the formula *)
Lemma dif_gauss wf (cn : R -> R) z r t : dif cn t -> dif (fun x => gauss wf (cn x) z r) t.
Proof.
  intros H. unfold gauss. apply (dif_rsum _ (fun k x => exp (- (INR (S k) * wf * (cn x - cn_ref z r) ^ 2)))).
  intros k _. apply dif_exp. apply dif_opp. apply dif_mult; [apply dif_const|]. apply (dif_pow (fun x => cn x - cn_ref z r)).
  apply dif_minus; [exact H|apply dif_const].
Qed.
Lemma dif_gauss_weight wf (cn : R -> R) z r t : (1 <= z <= 103)%nat -> dif cn t -> dif (fun x => gauss_weight wf (cn x) z r) t.
Proof.
  intros Hz H. unfold gauss_weight. apply dif_div; [now apply dif_gauss| |].
  - apply (dif_rsum 7 (fun s x => gauss wf (cn x) z s)). intros. now apply dif_gauss.
  - apply Rgt_not_eq. now apply gauss_sum_pos.
Qed.
Lemma dif_zeta e ga gam qref (qm : R -> R) t : dif qm t -> qm t <> 0 -> qm t <> e -> dif (fun x => zeta_fun e ga gam qref (qm x)) t.
Proof.
  intros H N0 Ne. destruct (Rlt_or_le 0 (qm t)) as [L|L].
  - destruct (dif_above qm 0 t H L) as (d & Hd & P).
    apply (dif_loc (fun x => exp (ga * (1 - exp (gam * (1 - qref / (qm x - e)))))) _ t d Hd).
    + intros x Hx. specialize (P x Hx). unfold zeta_fun. destruct (Rlt_dec 0 (qm x)); [reflexivity|lra].
    + apply dif_exp. apply dif_mult; [apply dif_const|]. apply dif_minus; [apply dif_const|]. apply dif_exp.
      apply dif_mult; [apply dif_const|]. apply dif_minus; [apply dif_const|]. apply dif_div; [apply dif_const| |lra].
      apply dif_minus; [exact H|apply dif_const].
  - destruct (dif_below qm 0 t H ltac:(lra)) as (d & Hd & P). apply (dif_loc (fun x => exp ga) _ t d Hd); [|apply dif_const].
    intros x Hx. specialize (P x Hx). unfold zeta_fun. destruct (Rlt_dec 0 (qm x)); [lra|reflexivity].
Qed.
Lemma dif_sqd c (x y : R -> nat -> R) t : (forall k, (k < c)%nat -> dif (fun s => x s k) t) -> (forall k, (k < c)%nat -> dif (fun s => y s k) t) ->
  dif (fun s => sqd c (x s) (y s)) t.
Proof.
  intros Hx Hy. unfold sqd. apply (dif_rsum c (fun k s => (x s k - y s k) ^ 2)). intros k Hk.
  apply (dif_pow (fun s => x s k - y s k)). apply dif_minus; auto.
Qed.
Lemma dif_euclid c (x y : R -> nat -> R) t : (forall k, (k < c)%nat -> dif (fun s => x s k) t) -> (forall k, (k < c)%nat -> dif (fun s => y s k) t) ->
  0 < sqd c (x t) (y t) -> dif (fun s => euclid c (x s) (y s)) t.
Proof. intros Hx Hy P. unfold euclid. apply dif_sqrt; auto. now apply dif_sqd. Qed.
Lemma dif_cos c (p x y : R -> nat -> R) t :
  (forall k, (k < c)%nat -> dif (fun s => p s k) t) ->
  (forall k, (k < c)%nat -> dif (fun s => x s k) t) -> (forall k, (k < c)%nat -> dif (fun s => y s k) t) ->
  0 < sqd c (p t) (x t) -> 0 < sqd c (p t) (y t) -> dif (fun s => cos_at c (p s) (x s) (y s)) t.
Proof.
  intros Hp Hx Hy P1 P2. unfold cos_at. apply dif_div.
  - unfold dot. apply (dif_rsum c (fun k s => (x s k - p s k) * (y s k - p s k))). intros k Hk.
    apply dif_mult; apply dif_minus; auto.
  - apply dif_mult; apply dif_euclid; auto.
  - apply Rmult_integral_contrapositive_currified; apply Rgt_not_eq; now apply sqrt_lt_R0.
Qed.
Lemma dif_pair_energy a1 a2 s6 s8 s10 (c6 r : R -> R) Qi Qj t : dif c6 t -> dif r t -> 0 < r t ->
  dif (fun x => pair_energy a1 a2 s6 s8 s10 (c6 x) Qi Qj (r x)) t.
Proof.
  intros H6 Hr P. unfold pair_energy. set (R0 := a1 * sqrt (3 * Qi * Qj) + a2).
  assert (E : forall k, (0 < 2 * k)%nat -> r t ^ (2 * k) + R0 ^ (2 * k) <> 0).
  { intros k _. apply Rgt_not_eq. assert (0 < r t ^ (2 * k)) by now apply pow_lt.
    assert (0 <= R0 ^ (2 * k)) by (rewrite pow_mult; apply pow_le, pow2_ge_0). lra. }
  apply dif_plus; [apply dif_plus|]; (apply dif_div; [| |]).
  - apply dif_mult; [apply dif_const|exact H6].
  - apply dif_plus; [now apply dif_pow|apply dif_const].
  - apply (E 3%nat). lia.
  - apply dif_mult; [apply dif_const|]. apply dif_mult; [apply dif_const|exact H6].
  - apply dif_plus; [now apply dif_pow|apply dif_const].
  - apply (E 4%nat). lia.
  - apply dif_mult; [apply dif_const|]. apply dif_mult; [apply dif_const|exact H6].
  - apply dif_plus; [now apply dif_pow|apply dif_const].
  - apply (E 5%nat). lia.
Qed.
Lemma dif_triple_energy c (x y z : R -> nat -> R) (c9 : R -> R) rij rik rjk s9 alp t :
  (forall k, (k < c)%nat -> dif (fun s => x s k) t) -> (forall k, (k < c)%nat -> dif (fun s => y s k) t) ->
  (forall k, (k < c)%nat -> dif (fun s => z s k) t) ->
  0 < sqd c (x t) (y t) -> 0 < sqd c (x t) (z t) -> 0 < sqd c (y t) (z t) -> dif c9 t ->
  0 < rij -> 0 < rik -> 0 < rjk ->
  dif (fun s => triple_energy c (x s) (y s) (z s) (c9 s) rij rik rjk s9 alp) t.
Proof.
  intros Hx Hy Hz P1 P2 P3 H9 Q1 Q2 Q3. unfold triple_energy.
  assert (SY : forall u v, sqd c u v = sqd c v u) by (intros; unfold sqd; apply rsum_ext; intros; ring).
  assert (E1 : 0 < euclid c (x t) (y t)) by now apply sqrt_lt_R0.
  assert (E2 : 0 < euclid c (x t) (z t)) by now apply sqrt_lt_R0.
  assert (E3 : 0 < euclid c (y t) (z t)) by now apply sqrt_lt_R0.
  assert (D : dif (fun s => euclid c (x s) (y s) * euclid c (x s) (z s) * euclid c (y s) (z s)) t).
  { apply dif_mult; [apply dif_mult|]; apply dif_euclid; auto. }
  assert (PP : 0 < euclid c (x t) (y t) * euclid c (x t) (z t) * euclid c (y t) (z t)) by (repeat apply Rmult_lt_0_compat; auto).
  assert (QQ : 0 < rij * rik * rjk) by (repeat apply Rmult_lt_0_compat; auto).
  apply dif_div; [apply dif_div|..].
  - apply dif_mult; [apply dif_mult; [apply dif_const|exact H9]|]. apply dif_plus; [|apply dif_const].
    apply dif_mult; [apply dif_mult; [apply dif_mult; [apply dif_const|]|]|]; apply dif_cos; auto; rewrite SY; auto.
  - exact (dif_pow _ 3 t D).
  - apply Rgt_not_eq. now apply pow_lt.
  - apply dif_plus; [apply dif_const|]. apply dif_mult; [apply dif_const|].
    apply (dif_Rpower (fun s => rij * rik * rjk / (euclid c (x s) (y s) * euclid c (x s) (z s) * euclid c (y s) (z s)))).
    + apply dif_div; [apply dif_const|exact D|now apply Rgt_not_eq].
    + now apply Rdiv_lt_0_compat.
  - apply Rgt_not_eq. match goal with |- _ > _ => idtac end. unfold Rpower. match goal with |- 1 + 6 * exp ?u > 0 => pose proof (exp_pos u) end. lra.
Qed.

Section S.
Context {eps mx : R}.
Notation N := (RN eps mx).
Notation T := (tensor (sc N)).
Context (X : Ext (sc N)) (W : World N).

Lemma charges_unique (p : Disp N) a (q q' : option T) : charges_are W p a q -> charges_are W p a q' -> q = q'.
Proof.
  unfold charges_are. destruct (a_q a) as [q0|]; [congruence|]. intros [H1 H2] [H1' H2'].
  destruct (classic (needs_charges p)) as [Y|Y].
  - destruct (H1 Y) as (t & -> & E). destruct (H1' Y) as (t' & -> & E'). congruence.
  - now rewrite H2, H2'.
Qed.

Section D.
Variables (kind : mkind) (kw : mkwargs N) (a : Args N) (n c : nat) (b : list nat) (t0 : R).
Variables (x : R -> nat -> nat -> R) (cn q : R -> nat -> R).
Notation z := (mol_z a b).
Hypothesis Hz : forall i, (i < n)%nat -> (0 <= z i <= 103)%Z.
Hypothesis Dcn : dif_atoms (a_numbers a) n b cn t0.

Lemma real_pair_atoms i j : real_pair z i j = true -> real_atom (a_numbers a) b i /\ real_atom (a_numbers a) b j.
Proof.
  unfold real_pair. intros H. apply andb_true_iff in H as [H H2]. apply andb_true_iff in H as [_ H1].
  apply negb_true_iff, Z.eqb_neq in H1, H2. split; assumption.
Qed.

Lemma dif_weight wf i r (u : R -> R) : (i < n)%nat -> real_atom (a_numbers a) b i -> dif u t0 ->
  ((exists u0, forall t, u t = u0) \/ smooth_charge X (Z.to_nat (z i)) (u t0)) ->
  dif (fun t => weight X kw wf (Z.to_nat (z i)) r (cn t i) (u t)) t0.
Proof.
  intros Hi Ri Hu S. unfold weight. destruct (0 <? n_gauss (Z.to_nat (z i)) r)%Z; [|apply dif_const].
  assert (R103 : (1 <= Z.to_nat (z i) <= 103)%nat).
  { specialize (Hz i Hi). unfold real_atom in Ri. fold (mol_z a b i) in Ri. unfold mol_z in *. lia. }
  apply dif_mult; [|apply dif_gauss_weight; auto]. unfold charge_factor.
  destruct S as [(u0 & E)|(N0 & Ne)].
  - apply (dif_ext (fun _ => zeta_fun eps (kw_ga kw) (dat (x_gam X) [Z.to_nat (z i)] * kw_gc kw)
      (q_ref (kw_ref kw) (Z.to_nat (z i)) r + dat (x_zeff X) [Z.to_nat (z i)]) (u0 + dat (x_zeff X) [Z.to_nat (z i)]))).
    + intros t. now rewrite E.
    + apply dif_const.
  - apply dif_zeta; auto. apply dif_plus; [exact Hu|apply dif_const].
Qed.

(** charges seen by a term *)
Variable u : R -> nat -> R.
Hypothesis Du : dif_atoms (a_numbers a) n b u t0.
Hypothesis Su : forall i, (i < n)%nat -> real_atom (a_numbers a) b i ->
  (exists u0, forall t, u t i = u0) \/ smooth_charge X (Z.to_nat (z i)) (u t0 i).

Lemma dif_c6 i j : (i < n)%nat -> (j < n)%nat -> real_atom (a_numbers a) b i -> real_atom (a_numbers a) b j ->
  dif (fun t => c6_coef X kind kw a b (cn t) (u t) i j) t0.
Proof.
  intros Hi Hj Ri Rj. unfold c6_coef, c6_pair, atom_weight.
  apply (dif_rsum 7 (fun r t => rsum 7 (fun s => _ * _ * _))). intros r _.
  apply (dif_rsum 7 (fun s t => _ * _ * _)). intros s _.
  apply dif_mult; [apply dif_mult|apply dif_const]; apply dif_weight; auto.
Qed.
Lemma dif_c9_mean i j k : (i < n)%nat -> (j < n)%nat -> (k < n)%nat -> real_triple z i j k = true ->
  c6_all_positive X kind kw a b n (cn t0) (u t0) ->
  dif (fun t => c9_mean X kind kw a b (cn t) (u t) i j k) t0.
Proof.
  intros Hi Hj Hk R P. unfold real_triple in R. apply andb_true_iff in R as [R R3]. apply andb_true_iff in R as [R1 R2].
  destruct (real_pair_atoms _ _ R1) as [Ri Rj]. destruct (real_pair_atoms _ _ R2) as [_ Rk].
  unfold c9_mean. apply dif_sqrt; [|repeat apply Rmult_lt_0_compat; apply P; auto].
  apply dif_mult; [apply dif_mult|]; apply dif_c6; auto.
Qed.
Lemma dif_c9_integral i j k : (i < n)%nat -> (j < n)%nat -> (k < n)%nat -> real_triple z i j k = true ->
  dif (fun t => c9_integral X kind kw a b (cn t) (u t) i j k) t0.
Proof.
  intros Hi Hj Hk R. unfold real_triple in R. apply andb_true_iff in R as [R R3]. apply andb_true_iff in R as [R1 R2].
  destruct (real_pair_atoms _ _ R1) as [Ri Rj]. destruct (real_pair_atoms _ _ R2) as [_ Rk].
  assert (A : forall l w, (l < n)%nat -> real_atom (a_numbers a) b l -> dif (fun t => alpha_atom X kind kw a b (cn t) (u t) l w) t0).
  { intros l w Hl Rl. unfold alpha_atom, pol_atom, atom_weight. apply (dif_rsum 7 (fun r t => _ * _)). intros r _.
    apply dif_mult; [apply dif_weight; auto|apply dif_const]. }
  unfold c9_integral. apply dif_mult; [apply dif_const|].
  apply (dif_rsum 23 (fun w t => quad_weight w * alpha_atom X kind kw a b (cn t) (u t) i w *
    alpha_atom X kind kw a b (cn t) (u t) j w * alpha_atom X kind kw a b (cn t) (u t) k w)). intros w _.
  apply dif_mult; [apply dif_mult; [apply dif_mult; [apply dif_const|]|]|]; apply A; auto.
Qed.

Hypothesis Dx : forall i k, (i < n)%nat -> (k < c)%nat -> dif (fun t => x t i k) t0.
Hypothesis Px : forall i j, (i < n)%nat -> (j < n)%nat -> real_pair z i j = true -> 0 < sqd c (x t0 i) (x t0 j).

Lemma dif_two_body Q a1 a2 s6 s8 s10 cut i : (i < n)%nat ->
  (forall i j, (i < n)%nat -> (j < n)%nat -> real_pair z i j = true -> euclid c (x t0 i) (x t0 j) <> cut) ->
  dif (fun t => two_body n c z (x t) (c6_coef X kind kw a b (cn t) (u t)) Q a1 a2 s6 s8 s10 cut i) t0.
Proof.
  intros Hi Ho. unfold two_body. apply dif_mult; [apply dif_const|].
  apply (dif_rsum n (fun j t => if real_pair z i j && rleb (euclid c (x t i) (x t j)) cut
    then pair_energy a1 a2 s6 s8 s10 (c6_coef X kind kw a b (cn t) (u t) i j) (Q i) (Q j) (euclid c (x t i) (x t j)) else 0)).
  intros j Hj. destruct (real_pair z i j) eqn:R; cbn [andb]; [|apply dif_const].
  destruct (real_pair_atoms _ _ R) as [Ri Rj].
  assert (DE : dif (fun t => euclid c (x t i) (x t j)) t0) by (apply dif_euclid; auto).
  apply (dif_rleb (fun t => euclid c (x t i) (x t j))); auto; [|intros; apply dif_const].
  intros _. apply (dif_pair_energy a1 a2 s6 s8 s10 (fun t => c6_coef X kind kw a b (cn t) (u t) i j)); auto.
  - now apply dif_c6.
  - apply sqrt_lt_R0. now apply Px.
Qed.
Lemma dif_three_body (c9 : R -> nat -> nat -> nat -> R) R0 s9 alp cut i : (i < n)%nat ->
  (forall i j k, (i < n)%nat -> (j < n)%nat -> (k < n)%nat -> real_triple z i j k = true -> dif (fun t => c9 t i j k) t0) ->
  (forall i j, (i < n)%nat -> (j < n)%nat -> real_pair z i j = true -> euclid c (x t0 i) (x t0 j) <> cut /\ 0 < R0 i j) ->
  dif (fun t => three_body n c z (x t) (c9 t) R0 s9 alp cut i) t0.
Proof.
  intros Hi H9 Ho. unfold three_body. apply dif_mult; [apply dif_const|].
  apply (dif_rsum n (fun j t => rsum n (fun k => if real_triple z i j k && rleb (euclid c (x t i) (x t j)) cut && rleb (euclid c (x t j) (x t k)) cut
    then triple_energy c (x t i) (x t j) (x t k) (c9 t i j k) (R0 i j) (R0 i k) (R0 j k) s9 alp else 0))). intros j Hj.
  apply (dif_rsum n (fun k t => if real_triple z i j k && rleb (euclid c (x t i) (x t j)) cut && rleb (euclid c (x t j) (x t k)) cut
    then triple_energy c (x t i) (x t j) (x t k) (c9 t i j k) (R0 i j) (R0 i k) (R0 j k) s9 alp else 0)). intros k Hk.
  destruct (real_triple z i j k) eqn:R; cbn [andb]; [|apply dif_const]. pose proof R as R'.
  unfold real_triple in R. apply andb_true_iff in R as [R R3]. apply andb_true_iff in R as [R1 R2].
  apply (dif_ext (fun t => if rleb (euclid c (x t i) (x t j)) cut then if rleb (euclid c (x t j) (x t k)) cut
    then triple_energy c (x t i) (x t j) (x t k) (c9 t i j k) (R0 i j) (R0 i k) (R0 j k) s9 alp else 0 else 0)).
  { intros t. destruct (rleb (euclid c (x t i) (x t j)) cut); reflexivity. }
  apply (dif_rleb (fun t => euclid c (x t i) (x t j))); [apply dif_euclid; auto|now apply Ho| |intros; apply dif_const].
  intros _. apply (dif_rleb (fun t => euclid c (x t j) (x t k))); [apply dif_euclid; auto|now apply Ho| |intros; apply dif_const].
  intros _. apply (dif_triple_energy c (fun t => x t i) (fun t => x t j) (fun t => x t k) (fun t => c9 t i j k)); auto; now apply Ho.
Qed.
End D.

(** [pos t] is a path of geometries, [cn t] and [q t] are the coordination numbers and charges in
    use along it, [E t] the energies.  Where the coordinates, coordination numbers and charges of
    molecule [b] are differentiable in [t], no distance equals a cutoff, and the effective charges
    stay off the two exceptional values, the energy of every atom is differentiable. *)
Theorem C55_energy_differentiable :
  forall (p : Disp N) (a : Args N) kind kw n c B d0 ds (pos cn : R -> T) (q : R -> option T) (E : R -> T) t0 dl b i,
  ext_tables X -> 1 <= mx -> 0 < d0 -> dist_contract d0 X -> div_contract X -> sqrt_contract ds X ->
  (forall t, In t (p_terms p) -> d4_damped X t) ->
  (forall t, In t (p_terms p) -> t_class t = TwoBodyTerm ->
     getp (a_param a) "a1" <> None /\ getp (a_param a) "a2" <> None) ->
  0 <= cut3 a -> 0 < dl ->
  (* near [t0] the call is well-formed and returns [E t] *)
  (forall t, Rabs (t - t0) < dl ->
     well_formed X W p (with_positions a (pos t)) kind kw n c B /\
     separated d0 (a_numbers a) (pos t) n c B /\
     p_cn_fn p (p_cn_kw p) (a_numbers a) (pos t) = Ok (cn t) /\
     charges_are W p (with_positions a (pos t)) (q t) /\
     (forall b tm, valid B b -> In tm (p_terms p) -> t_class tm <> TwoBodyTerm ->
        regular X kind kw a b n (sl1 (cn t) b) (opt_at (q t) b) ds tm) /\
     run X W p (with_positions a (pos t)) = Ok (E t)) ->
  valid B b -> (i < n)%nat ->
  (forall i k, (i < n)%nat -> (k < c)%nat -> dif (fun t => sl2 (pos t) b i k) t0) ->
  dif_atoms (a_numbers a) n b (fun t => sl1 (cn t) b) t0 ->
  dif_atoms (a_numbers a) n b (fun t => opt_at (q t) b) t0 ->
  off_cutoffs p (with_positions a (pos t0)) n c b ->
  (needs_charges p -> forall i, (i < n)%nat -> real_atom (a_numbers a) b i ->
     smooth_charge X (Z.to_nat (mol_z a b i)) (opt_at (q t0) b i)) ->
  (forall tm, In tm (p_terms p) -> t_class tm <> TwoBodyTerm -> t_class tm <> D4ATMExact ->
     c6_all_positive X kind kw a b n (sl1 (cn t0) b) (seen (opt_at (q t0) b) tm)) ->
  dif (fun t => sl1 (E t) b i) t0.
Proof.
  intros p a kind kw n c B d0 ds pos cn q E t0 dl b i HX Hm Hd0 HD HV HQ Hdm Ha P3 Hdl HN Hb Hi Dp Dcn Dq Off Sm C6.
  assert (H00 : Rabs (t0 - t0) < dl) by (rewrite Rminus_eq_0, Rabs_R0; exact Hdl).
  apply (dif_loc (fun t => terms_energy X kind kw (with_positions a (pos t)) b n c (sl1 (cn t) b) (opt_at (q t) b) (p_terms p) i) _ t0 dl Hdl).
  { intros t Ht. destruct (HN t Ht) as (WF & HS & Ecn & Hq & Hreg & ER).
    destruct (C53_energy_formula X W p (with_positions a (pos t)) kind kw n c B d0 ds HX Hm Hd0 HD HV HQ WF Hdm Ha HS P3)
      as (cn' & q' & Ecn' & Hq' & F).
    assert (cn' = cn t) by (cbn [with_positions a_numbers a_positions] in Ecn'; congruence). subst cn'.
    rewrite (charges_unique _ _ _ _ Hq' Hq) in F.
    destruct (F Hreg) as (e & Ee & _ & Ve). rewrite ER in Ee. injection Ee as <-. symmetry. now apply Ve. }
  destruct (HN t0 H00) as (WF & HS & _ & _ & Hreg & _).
  assert (Hz : forall l, (l < n)%nat -> (0 <= mol_z a b l <= 103)%Z).
  { intros l Hl. pose proof (wf_elements _ _ _ _ _ _ _ _ _ WF) as EL. pose proof (wf_numbers _ _ _ _ _ _ _ _ _ WF) as SN.
    cbn [with_positions a_numbers] in *. assert (V : valid (shp (a_numbers a)) (l :: b)) by (rewrite SN; apply valid_cons; auto).
    unfold elements_ok in EL. unfold mol_z, sl1. destruct EL as [[_ EL]|[_ EL]]; specialize (EL _ V); lia. }
  assert (Px : forall l j, (l < n)%nat -> (j < n)%nat -> real_pair (mol_z a b) l j = true -> 0 < sqd c (sl2 (pos t0) b l) (sl2 (pos t0) b j)).
  { intros l j Hl Hj R. eapply Rlt_le_trans; [exact Hd0|]. apply HS; auto. }
  unfold terms_energy. apply (dif_sum_list (p_terms p) (fun tm t => term_energy X kind kw (with_positions a (pos t)) b n c (sl1 (cn t) b) (opt_at (q t) b) tm i)).
  intros tm Hin.
  assert (Du : dif_atoms (a_numbers a) n b (fun t => seen (opt_at (q t) b) tm) t0).
  { intros l Hl Rl. unfold seen. destruct (t_cdep tm); [now apply Dq|apply dif_const]. }
  assert (Su : forall l, (l < n)%nat -> real_atom (a_numbers a) b l ->
    (exists u0, forall t, seen (opt_at (q t) b) tm l = u0) \/ smooth_charge X (Z.to_nat (mol_z a b l)) (seen (opt_at (q t0) b) tm l)).
  { intros l Hl Rl. unfold seen. destruct (t_cdep tm) eqn:EC; [right|left; exists 0; reflexivity].
    apply Sm; auto. now exists tm. }
  assert (Three : t_class tm <> TwoBodyTerm -> forall s9 alp,
     dif (fun t => three_body n c (mol_z a b) (fun i => sl2 (pos t) b i) (c9_of X kind kw a b (sl1 (cn t) b) (opt_at (q t) b) tm) (radius_of X a b tm) s9 alp (cut3 a) i) t0).
  { intros NT s9 alp.
    apply (dif_three_body a n c b t0 (fun t i => sl2 (pos t) b i) Dp Px (fun t => c9_of X kind kw a b (sl1 (cn t) b) (opt_at (q t) b) tm)); auto.
    - intros l j k Hl Hj Hk R. unfold c9_of. destruct (t_class tm) eqn:EC; try contradiction;
        try (apply (dif_c9_mean kind kw a n b t0 (fun t => sl1 (cn t) b) Hz Dcn (fun t => seen (opt_at (q t) b) tm) Du Su l j k Hl Hj Hk R);
             apply C6; auto; rewrite EC; discriminate).
      apply (dif_c9_integral kind kw a n b t0 (fun t => sl1 (cn t) b) Hz Dcn (fun t => seen (opt_at (q t) b) tm) Du Su l j k Hl Hj Hk R).
    - intros l j Hl Hj R. split.
      + pose proof (Off tm l j Hin Hl Hj R) as O. unfold cut_of in O. destruct (t_class tm); try contradiction; exact O.
      + apply (proj1 (Hreg b tm Hb Hin NT) l j Hl Hj R). }
  unfold term_energy. destruct (t_class tm) eqn:EC.
  - apply (dif_two_body kind kw a n c b t0 (fun t i => sl2 (pos t) b i) (fun t => sl1 (cn t) b) Hz Dcn (fun t => seen (opt_at (q t) b) tm) Du Su Dp Px
      (mol_Q a b) (eff_a1 a) (eff_a2 a) (eff_s6 (a_param a)) (eff_s8 (a_param a)) (eff_s10 (a_param a)) (cut2 a) i Hi).
    intros l j Hl Hj R. pose proof (Off tm l j Hin Hl Hj R) as O. unfold cut_of in O. rewrite EC in O. exact O.
  - refine (Three _ (eff_s9 (a_param a)) (eff_alp (a_param a))). discriminate.
  - refine (Three _ (eff_s9 (a_param a)) (eff_alp (a_param a))). discriminate.
  - refine (Three _ (eff_s9 (a_param a)) (eff_alp (a_param a))). discriminate.
Qed.

(** The cutoff is sharp: two real atoms (no cerium) within the cutoff attract, beyond it the
    energy is zero, whatever the coordination numbers and charges. *)
Lemma no_triple z i j k : (i < 2)%nat -> (j < 2)%nat -> (k < 2)%nat -> real_triple z i j k = false.
Proof.
  intros. unfold real_triple, real_pair. destruct i as [|[|i]], j as [|[|j]], k as [|[|k]]; try lia; cbn;
    rewrite ?andb_false_r; reflexivity.
Qed.
Theorem C55_sharp_cutoff :
  forall (p : Disp N) (a : Args N) kind kw c d0 ds e,
  ext_tables X -> 1 <= mx -> 0 < d0 -> dist_contract d0 X -> div_contract X -> sqrt_contract ds X ->
  well_formed X W p a kind kw 2 c [] -> p_terms p = terms_d4 X ->
  getp (a_param a) "a1" <> None -> getp (a_param a) "a2" <> None ->
  separated d0 (a_numbers a) (a_positions a) 2 c [] -> 0 <= cut3 a ->
  (forall i, (i < 2)%nat -> mol_z a [] i <> 0%Z /\ mol_z a [] i <> 58%Z /\ 0 <= mol_Q a [] i) ->
  0 < bj_radius (eff_a1 a) (eff_a2 a) (mol_Q a []) 0 1 -> ds <= 3 * mol_Q a [] 0 * mol_Q a [] 1 ->
  0 < eff_s6 (a_param a) -> 0 <= eff_s8 (a_param a) -> 0 <= eff_s10 (a_param a) ->
  run X W p a = Ok e ->
  (euclid c (mol_x a [] 0) (mol_x a [] 1) <= cut2 a -> sl1 e [] 0 < 0) /\
  (cut2 a < euclid c (mol_x a [] 0) (mol_x a [] 1) -> sl1 e [] 0 = 0).
Proof.
  intros p a kind kw c d0 ds e HX Hm Hd0 HD HV HQ WF HT A1 A2 HS P3 HA HB Hds S6 S8 S10 ER.
  destruct (C53_DispD4 X W p a kind kw 2 c [] d0 ds HX Hm Hd0 HD HV HQ WF HT A1 A2 HS P3) as (cn & q & _ & _ & F).
  destruct F as (e' & Ee & _ & Ve).
  { intros b Hb. destruct b; [|contradiction].
    assert (BJ : bj_radius (eff_a1 a) (eff_a2 a) (mol_Q a []) 1 0 = bj_radius (eff_a1 a) (eff_a2 a) (mol_Q a []) 0 1).
    { unfold bj_radius. do 3 f_equal. ring. }
    split.
    - intros i j Hi Hj R. cbn [t_class radius_of].
      destruct i as [|[|i]], j as [|[|j]]; try lia; try discriminate R; rewrite ?BJ; split; auto. intros _. lra.
    - intros _ i j k Hi Hj Hk R. rewrite no_triple in R by auto. discriminate R. }
  rewrite ER in Ee. injection Ee as <-. specialize (Ve [] 0%nat I ltac:(lia)).
  assert (Hz : forall i, (i < 2)%nat -> (1 <= mol_z a [] i <= 103)%Z).
  { intros l Hl. pose proof (wf_elements _ _ _ _ _ _ _ _ _ WF) as EL. pose proof (wf_numbers _ _ _ _ _ _ _ _ _ WF) as SN.
    assert (V : valid (shp (a_numbers a)) [l]) by (rewrite SN; apply valid_cons; auto; exact I).
    destruct (HA l Hl) as (N0 & _ & _). revert N0. unfold mol_z, sl1. unfold elements_ok in EL.
    destruct EL as [[_ EL]|[_ EL]]; specialize (EL _ V); lia. }
  pose proof (Hz 0%nat ltac:(lia)) as Z0. pose proof (Hz 1%nat ltac:(lia)) as Z1.
  destruct (HA 0%nat ltac:(lia)) as (_ & C0 & Q0). destruct (HA 1%nat ltac:(lia)) as (_ & C1 & Q1).
  pose proof (c6_coef_pos X kind kw a [] (sl1 cn []) (sl1 q []) 0 1 Z0 C0 Z1 C1) as C6.
  assert (R01 : real_pair (mol_z a []) 0 1 = true).
  { unfold real_pair. cbn. apply andb_true_iff. split; apply negb_true_iff, Z.eqb_neq; lia. }
  assert (D01 : 0 < euclid c (mol_x a [] 0) (mol_x a [] 1)).
  { apply sqrt_lt_R0. eapply Rlt_le_trans; [exact Hd0|]. apply (HS [] 0%nat 1%nat); auto. exact I. }
  assert (E3 : forall c9 R0 s9 alp cut, three_body 2 c (mol_z a []) (mol_x a []) c9 R0 s9 alp cut 0 = 0).
  { intros. unfold three_body. rewrite rsum_0; [ring|]. intros j Hj. apply rsum_0. intros k Hk. rewrite no_triple by (auto; lia). reflexivity. }
  rewrite Ve. unfold d4_energy. rewrite E3, Rplus_0_r. unfold two_body.
  set (r := euclid c (mol_x a [] 0) (mol_x a [] 1)) in *.
  cbn [rsum]. replace (real_pair (mol_z a []) 0 0) with false by reflexivity. rewrite R01. cbn [andb]. fold r. unfold rleb.
  split; intros H; destruct (Rle_dec r (cut2 a)); try lra.
  assert (PE : 0 < pair_energy (eff_a1 a) (eff_a2 a) (eff_s6 (a_param a)) (eff_s8 (a_param a)) (eff_s10 (a_param a))
    (c6_coef X kind kw a [] (sl1 cn []) (sl1 q []) 0 1) (mol_Q a [] 0) (mol_Q a [] 1) r); [|lra].
  unfold pair_energy. set (R0 := eff_a1 a * sqrt (3 * mol_Q a [] 0 * mol_Q a [] 1) + eff_a2 a).
  assert (HR0 : 0 < R0) by exact HB.
  assert (DN : forall k, 0 < r ^ k + R0 ^ k) by (intros k; apply Rplus_lt_0_compat; now apply pow_lt).
  assert (P1 := Rmult_lt_0_compat _ _ S6 C6).
  assert (QQ : 0 <= 3 * mol_Q a [] 0 * mol_Q a [] 1) by (apply Rmult_le_pos; [apply Rmult_le_pos; lra|lra]).
  assert (T1 := Rdiv_lt_0_compat _ _ P1 (DN 6%nat)).
  assert (DV : forall x y, 0 <= x -> 0 < y -> 0 <= x / y).
  { intros x y Hx Hy. apply Rmult_le_pos; [exact Hx|]. apply Rlt_le. now apply Rinv_0_lt_compat. }
  match goal with |- 0 < _ + ?u + ?v => assert (0 <= u /\ 0 <= v); [|lra] end. split; apply DV; auto.
  - apply Rmult_le_pos; [exact S8|]. apply Rmult_le_pos; lra.
  - apply Rmult_le_pos; [exact S10|]. apply Rmult_le_pos; [|lra]. apply Rmult_le_pos; [lra|]. apply pow2_ge_0.
Qed.
End S.

(** ** Examples: the two molecules of [mol_call], atoms [t] apart *)
From Verif Require Import Inst InstW PropsEnergy.
Section Ex.
Context {mx : R} (Hm : 1 <= mx).
Notation N := (RN 0 mx).
Notation T := (tensor (sc N)).

(** energies of a call along a path *)
Definition energies (p : Disp N) (a : Args N) (pos : R -> T) (t : R) : T :=
  match run (N := N) (Xex 0 mx) (Wex 0 mx) p (with_positions a (pos t)) with Ok e => e | Raise _ => pos t end.
Lemma dif_line n B b i k t0 : dif (fun t => sl2 (line (eps := 0) (mx := mx) n B t) b i k) t0.
Proof.
  unfold sl2, line. cbn [dat]. destruct (Nat.eqb k 0); [|apply dif_const]. apply dif_mult; [apply dif_const|apply dif_id].
Qed.

Lemma pex_off (t0 : R) b : 1 < t0 < 10 -> off_cutoffs (Pex 0 mx) (with_positions mol_call (line 3 [2%nat] t0)) 3 3 b.
Proof.
  intros H tm i j _ Hi Hj R. cbn [with_positions]. unfold mol_x. cbn [a_positions].
  assert (C : 40 <= cut_of (with_positions mol_call (line 3 [2%nat] t0)) tm).
  { unfold cut_of, cut2, cut3. cbn. destruct (t_class tm); lra. }
  assert (D : euclid 3 (sl2 (line (eps := 0) (mx := mx) 3 [2%nat] t0) b i) (sl2 (line (eps := 0) (mx := mx) 3 [2%nat] t0) b j) <= 20); [|apply Rlt_not_eq; eapply Rle_lt_trans; [exact D|]; eapply Rlt_le_trans; [|exact C]; lra].
  unfold euclid. rewrite line_sqd. rewrite <- (sqrt_pow2 20) by lra. apply sqrt_le_1_alt. rewrite Rpow_mult_distr.
  assert (I4 : (INR i - INR j) ^ 2 <= 4) by (destruct i as [|[|[|i]]], j as [|[|[|j]]]; try lia; cbn; lra).
  assert (T2 : 0 <= t0 ^ 2 <= 100) by (split; [apply pow2_ge_0|nra]).
  pose proof (pow2_ge_0 (INR i - INR j)). nra.
Qed.

Lemma cn_ex_line t : exists cn, cn_ex (eps := 0) (mx := mx) None two_mols (line 3 [2%nat] t) = Ok cn /\ shp cn = [3; 2]%nat /\
  forall b i, sl1 cn b i = rsum 3 (fun j => if real_pair (sl1 two_mols b) i j then / (1 + ((INR i - INR j) * t) ^ 2) else 0).
Proof.
  destruct (cn_ex_ok None two_mols (line (eps := 0) (mx := mx) 3 [2%nat] t) 3 3 [2%nat] eq_refl eq_refl) as (cn & E & S).
  exists cn. split; [exact E|]. split; [exact S|]. intros b i.
  rewrite (cn_ex_val None two_mols (line (eps := 0) (mx := mx) 3 [2%nat] t) 3 3 [2%nat] cn b i eq_refl eq_refl E). apply rsum_ext. intros j _. now rewrite line_sqd.
Qed.
Definition cn_line (t : R) : T := match cn_ex None two_mols (line 3 [2%nat] t) with Ok c => c | Raise _ => line 3 [2%nat] t end.
Definition q_line (t : R) : T :=
  match eeq_ex two_mols (line 3 [2%nat] t) (scal (A := sc N) 0) (scal (A := sc N) (Q2R 25)) with Ok c => c | Raise _ => line 3 [2%nat] t end.
Lemma cn_line_val t b i : sl1 (cn_line t) b i = rsum 3 (fun j => if real_pair (sl1 two_mols b) i j then / (1 + ((INR i - INR j) * t) ^ 2) else 0).
Proof. unfold cn_line. destruct (cn_ex_line t) as (cn & -> & _ & V). apply V. Qed.
Lemma q_line_val t b i : sl1 (q_line t) b i = / (1 + sl1 (cn_line t) b i).
Proof.
  unfold q_line, cn_line, eeq_ex. destruct (cn_ex_line t) as (cn & -> & _ & V). cbn [rmap bind].
  change (0 + / (1 + sl1 cn b i) = / (1 + sl1 cn b i)). ring.
Qed.
Lemma cn_line_pos t b i : 0 <= sl1 (cn_line t) b i.
Proof.
  rewrite cn_line_val. apply rsum_nonneg. intros j _. destruct (real_pair _ i j); [|lra].
  apply Rlt_le, Rinv_0_lt_compat. pose proof (pow2_ge_0 ((INR i - INR j) * t)). lra.
Qed.
Lemma dif_cn_line b i t0 : dif (fun t => sl1 (cn_line t) b i) t0.
Proof.
  apply (dif_ext (fun t => rsum 3 (fun j => if real_pair (sl1 two_mols b) i j then / (1 + ((INR i - INR j) * t) ^ 2) else 0))).
  { intros t. symmetry. apply cn_line_val. }
  apply (dif_rsum 3 (fun j t => if real_pair (sl1 two_mols b) i j then / (1 + ((INR i - INR j) * t) ^ 2) else 0)).
  intros j _. destruct (real_pair _ i j); [|apply dif_const].
  apply (dif_ext (fun t => 1 / (1 + ((INR i - INR j) * t) ^ 2))); [intros t; unfold Rdiv; ring|].
  apply dif_div; [apply dif_const| |].
  - apply dif_plus; [apply dif_const|]. apply (dif_pow (fun t => (INR i - INR j) * t)). apply dif_mult; [apply dif_const|apply dif_id].
  - pose proof (pow2_ge_0 ((INR i - INR j) * t0)). lra.
Qed.

Example C55_energy_differentiable_example : forall t0 b i, 1 < t0 < 10 -> valid [2%nat] b -> (i < 3)%nat ->
  dif (fun t => sl1 (energies (Pex 0 mx) mol_call (line 3 [2%nat]) t) b i) t0.
Proof.
  intros t0 b i Ht Hb Hi.
  assert (WF : forall t, well_formed (N := N) (Xex 0 mx) (Wex 0 mx) (Pex 0 mx) (with_positions mol_call (line 3 [2%nat] t)) D4M no_kw 3 3 [2%nat]).
  { intros t. apply (call_wf 0 mx two_mols (line 3 [2%nat] t) 3 3 [2%nat]); auto using two_mols_range. }
  assert (RD : forall t b tm (cn q : nat -> R), valid [2%nat] b -> In tm (p_terms (Pex 0 mx)) -> t_class tm <> TwoBodyTerm ->
     regular (Xex 0 mx) D4M no_kw (with_positions mol_call (line 3 [2%nat] t)) b 3 cn q 0 tm).
  { intros t b' tm cn q Hb' [<-|[<-|[]]] NT; [now elim NT|].
    eapply (regular_default (Xex 0 mx) (Wex 0 mx) D4M no_kw (with_positions mol_call (line 3 [2%nat] t)));
      eauto; try lra; try discriminate; try reflexivity; [apply (mol_a1 (mx := mx))|apply (mol_a2 (mx := mx))]. }
  assert (Q : forall t, charges_are (Wex 0 mx) (Pex 0 mx) (with_positions mol_call (line 3 [2%nat] t)) (Some (q_line t))).
  { intros t. split.
    - intros _. exists (q_line t). split; [reflexivity|]. cbn [w_eeq Wex]. unfold q_line, eeq_ex.
      destruct (cn_ex_line t) as (cn & E & _). cbn [with_positions a_numbers a_positions mol_call call]. rewrite E. reflexivity.
    - intros NC. elim NC. eexists. split; [left; reflexivity|reflexivity]. }
  refine (C55_energy_differentiable (Xex 0 mx) (Wex 0 mx) (Pex 0 mx) mol_call D4M no_kw 3 3 [2%nat] (/ 2) 0 (line 3 [2%nat]) cn_line (fun t => Some (q_line t))
    (energies (Pex 0 mx) mol_call (line 3 [2%nat])) t0 (t0 - 1) b i _ Hm _ (Xex_dist _ _ _) (Xex_div _ _) (Xex_sqrt _ _ _) _ _ _ _ _ Hb Hi _ _ _ _ _ _).
  - exact (Xex_tables 0 mx).
  - lra.
  - intros t [<-|[<-|[]]]; reflexivity.
  - intros; split; discriminate.
  - unfold cut3. cbn. lra.
  - lra.
  - intros t Hn. apply Rabs_def2 in Hn.
    assert (H1 : 1 <= t) by lra. split; [apply WF|]. split; [now apply line_separated|].
    split; [unfold cn_line; destruct (cn_ex_line t) as (cn & E & _); cbn [mol_call call a_numbers Pex p_cn_fn p_cn_kw]; rewrite E; reflexivity|].
    split; [apply Q|]. split; [intros; now apply RD|]. unfold energies.
    assert (C3 : 0 <= cut3 (with_positions mol_call (line (eps := 0) (mx := mx) 3 [2%nat] t))) by (unfold cut3; cbn; lra).
    destruct (C53_DispD4 (Xex 0 mx) (Wex 0 mx) (Pex 0 mx) (with_positions mol_call (line 3 [2%nat] t)) D4M no_kw 3 3 [2%nat] (/ 2) 0
      (Xex_tables 0 mx) Hm ltac:(lra) (Xex_dist _ _ _) (Xex_div _ _) (Xex_sqrt _ _ _) (WF t) eq_refl ltac:(discriminate) ltac:(discriminate)
      (line_separated _ _ _ _ H1) C3) as (cn & q & _ & _ & F).
    destruct F as (e & Ee & _); [|now rewrite Ee]. intros b' Hb'. apply RD; auto; [right; left; reflexivity|discriminate].
  - intros. apply dif_line.
  - intros l Hl _. apply dif_cn_line.
  - intros l Hl _. cbn [opt_at]. apply (dif_ext (fun t => 1 / (1 + sl1 (cn_line t) b l))); [intros t; rewrite q_line_val; unfold Rdiv; ring|].
    apply dif_div; [apply dif_const| |pose proof (cn_line_pos t0 b l); lra]. apply dif_plus; [apply dif_const|apply dif_cn_line].
  - now apply pex_off.
  - intros _ l Hl _. cbn [opt_at]. rewrite q_line_val. pose proof (cn_line_pos t0 b l) as P.
    assert (0 < / (1 + sl1 (cn_line t0) b l)) by (apply Rinv_0_lt_compat; lra).
    set (y := / (1 + sl1 (cn_line t0) b l)) in *.
    split; [change (y + 1 <> 0)|change (y + 1 <> 0)]; lra.
  - intros tm _ _ _ l j Hl Hj R. destruct (real_pair_atoms (mol_call (eps := 0) (mx := mx)) b l j R) as [R1 R2].
    assert (RG : forall k, (k < 3)%nat -> real_atom two_mols b k -> (1 <= sl1 two_mols b k <= 103)%Z /\ sl1 two_mols b k <> 58%Z).
    { intros k Hk Rk. destruct b as [|b0 [|? ?]]; try (cbn in Hb; tauto). destruct Hb as [Hb _]. unfold real_atom, sl1 in *. cbn [dat two_mols] in *.
      destruct b0 as [|[|b0]]; [| |lia]; destruct k as [|[|[|k]]]; try lia; cbn in *; lia. }
    destruct (RG l Hl R1), (RG j Hj R2). apply c6_coef_pos; auto.
Qed.

(** ** The hydrogen molecule at the default cutoff of 60 Bohr *)
Definition h2 : tensor Z := const [2%nat] 1%Z.
Lemma h2_wf t : well_formed (N := N) (Xex 0 mx) (Wex 0 mx) (Pex 0 mx) (with_positions (call h2 (line 2 [] 1)) (line 2 [] t)) D4M no_kw 2 3 [].
Proof. apply (call_wf 0 mx h2 (line 2 [] t) 3 2 []); auto. intros; cbn; lia. Qed.
Lemma h2_dist t : 0 <= t -> euclid 3 (sl2 (line (eps := 0) (mx := mx) 2 [] t) [] 0) (sl2 (line (eps := 0) (mx := mx) 2 [] t) [] 1) = t.
Proof. intros H. unfold euclid. rewrite line_sqd. cbn [INR]. replace (((0 - 1) * t) ^ 2) with (t ^ 2) by ring. now apply sqrt_pow2. Qed.

Lemma h2_energy t : 1 <= t ->
  run (N := N) (Xex 0 mx) (Wex 0 mx) (Pex 0 mx) (with_positions (call h2 (line 2 [] 1)) (line 2 [] t))
    = Ok (energies (Pex 0 mx) (call h2 (line 2 [] 1)) (line 2 []) t) /\
  (t <= 60 -> sl1 (energies (Pex 0 mx) (call h2 (line 2 [] 1)) (line 2 []) t) [] 0 < 0) /\
  (60 < t -> sl1 (energies (Pex 0 mx) (call h2 (line 2 [] 1)) (line 2 []) t) [] 0 = 0).
Proof.
  intros Ht. set (a := with_positions (call h2 (line 2 [] 1)) (line (eps := 0) (mx := mx) 2 [] t)).
  assert (C3 : 0 <= cut3 a) by (unfold cut3; cbn; lra).
  assert (WF := h2_wf t). fold a in WF.
  assert (A1 : 0 <= eff_a1 a) by exact (mol_a1 (mx := mx)). assert (A2 : 0 < eff_a2 a) by exact (mol_a2 (mx := mx)).
  assert (QN : forall i, 0 <= mol_Q a [] i) by (intros i; unfold mol_Q; cbn [a_r4r2]; apply sqrt_pos).
  assert (ER : exists e, run (N := N) (Xex 0 mx) (Wex 0 mx) (Pex 0 mx) a = Ok e).
  { destruct (C53_DispD4 (Xex 0 mx) (Wex 0 mx) (Pex 0 mx) a D4M no_kw 2 3 [] (/ 2) 0
      (Xex_tables 0 mx) Hm ltac:(lra) (Xex_dist _ _ _) (Xex_div _ _) (Xex_sqrt _ _ _) WF eq_refl ltac:(discriminate) ltac:(discriminate)
      (line_separated _ _ _ _ Ht) C3) as (cn & q & _ & _ & F).
    destruct F as (e & Ee & _); [|now exists e]. intros b Hb.
    apply (regular_default (Xex 0 mx) (Wex 0 mx) D4M no_kw a b 2 [] 3 (Pex 0 mx)); auto; [lra|discriminate]. }
  destruct ER as (e & ER). unfold energies. fold a. rewrite ER. split; [reflexivity|].
  assert (R3 : 0 <= 3 * mol_Q a [] 0 * mol_Q a [] 1).
  { pose proof (Rmult_le_pos _ _ (QN 0%nat) (QN 1%nat)). lra. }
  destruct (C55_sharp_cutoff (Xex 0 mx) (Wex 0 mx) (Pex 0 mx) a D4M no_kw 3 (/ 2) 0 e
      (Xex_tables 0 mx) Hm ltac:(lra) (Xex_dist _ _ _) (Xex_div _ _) (Xex_sqrt _ _ _) WF eq_refl ltac:(discriminate) ltac:(discriminate)
      (line_separated _ _ _ _ Ht) C3) as (L1 & L2); auto.
  - intros i Hi. split; [discriminate|]. split; [discriminate|apply QN].
  - unfold bj_radius. pose proof (sqrt_pos (3 * mol_Q a [] 0 * mol_Q a [] 1)) as SP. pose proof (Rmult_le_pos _ _ A1 SP). lra.
  - change (0 < 1). lra.
  - change (0 <= 96 / 100). lra.
  - change (0 <= 0). lra.
  - change (mol_x a []) with (sl2 (line (eps := 0) (mx := mx) 2 [] t) []) in L1, L2. rewrite h2_dist in L1, L2 by lra.
    change (cut2 a) with 60 in L1, L2. auto.
Qed.

(** The energy is not a continuous function of the geometry: along this straight path it jumps
    at the cutoff. *)
Theorem C55_continuous_refuted :
  exists (p : Disp N) (a : Args N) (pos E : R -> T),
    (forall t, 1 <= t -> well_formed (N := N) (Xex 0 mx) (Wex 0 mx) p (with_positions a (pos t)) D4M no_kw 2 3 [] /\
       run (N := N) (Xex 0 mx) (Wex 0 mx) p (with_positions a (pos t)) = Ok (E t)) /\
    (forall t0 i k, dif (fun t => sl2 (pos t) [] i k) t0) /\
    ~ continuity_pt (fun t => sl1 (E t) [] 0) 60.
Proof.
  exists (Pex 0 mx), (call h2 (line 2 [] 1)), (line 2 []), (energies (Pex 0 mx) (call h2 (line 2 [] 1)) (line 2 [])).
  split; [|split].
  - intros t Ht. split; [apply h2_wf|now apply h2_energy].
  - intros. apply dif_line.
  - intros C. destruct (h2_energy 60 ltac:(lra)) as (_ & L & _). specialize (L ltac:(lra)).
    set (f := fun t => sl1 (energies (Pex 0 mx) (call h2 (line 2 [] 1)) (line 2 []) t) [] 0) in *. change (f 60 < 0) in L.
    destruct (C (- f 60) ltac:(lra)) as (d & Hd & H).
    destruct (h2_energy (60 + d / 2) ltac:(lra)) as (_ & _ & Z). specialize (Z ltac:(lra)). change (f (60 + d / 2) = 0) in Z.
    specialize (H (60 + d / 2)). cbn in H. unfold R_dist in H. rewrite Z in H.
    assert (A : Rabs (0 - f 60) < - f 60).
    { apply H. split; [split; [exact I|apply Rlt_not_eq; lra]|]. rewrite Rabs_right; lra. }
    rewrite Rabs_right in A by lra. lra.
Qed.
End Ex.
Print Assumptions C55_energy_differentiable.
Print Assumptions C55_sharp_cutoff.
Print Assumptions C55_continuous_refuted.
