(** * Signs and bounds of energies: C57, and the error made by a cutoff: C58 *)
From Coq Require Import Reals Lra Lia List Arith ZArith QArith Qreals Bool String.
From Verif Require Import Py Tensor Scalar RInst ModelExt ModelUtils ModelDamping ModelModels
  ModelTerms ModelDisp Spec SpecCall SpecR SpecW SpecD4 SpecBounds TensorLemmas Closed ClosedTerms CallLemmas
  EnergyR Energy3R PropsEnergy WeightsR WeightsP PropsWeights PropsC6 PropsD4 BoundsR.
Import ListNotations.
Open Scope R_scope.
Open Scope string_scope.

Section P.
Context {eps mx : R}.
Notation N := (RN eps mx).
Notation K := (sc N).
Context (X : Ext (sc N)) (W : World N).

Section M.
Variables (p : Disp N) (a : Args N) (kind : mkind) (kw : mkwargs N) (n c : nat) (B : list nat) (b : list nat).
Hypothesis WF : well_formed X W p a kind kw n c B.
Hypothesis Hb : valid B b.

Lemma wf_elem i : (i < n)%nat -> (0 <= mol_z a b i <= 103)%Z.
Proof.
  intros Hi. destruct WF. assert (V : valid (shp (a_numbers a)) (i :: b)) by (rewrite wf_numbers; split; auto).
  unfold mol_z, sl1. destruct wf_elements as [(_ & He)|(_ & He)]; apply He in V; lia.
Qed.
Lemma wf_weight cn q i j r : (i < n)%nat -> (r < 7)%nat -> 0 <= atom_weight X kind kw a b cn q i j r.
Proof. intros Hi Hr. unfold atom_weight. pose proof (wf_elem i Hi). apply weight_nonneg; auto. lia. Qed.
Lemma wf_c6 cn q i j : (i < n)%nat -> (j < n)%nat -> 0 <= c6_coef X kind kw a b cn q i j.
Proof. intros Hi Hj. unfold c6_coef. apply c6_pair_nonneg; intros r Hr; now apply wf_weight. Qed.
Lemma wf_pol cn q i w : (i < n)%nat -> 0 <= alpha_atom X kind kw a b cn q i w.
Proof.
  intros Hi. unfold alpha_atom, pol_atom. apply rsum_nonneg. intros r Hr.
  apply Rmult_le_pos; [now apply wf_weight|apply pol_ref_nonneg].
Qed.
Lemma wf_c9 cn q t i j k : (i < n)%nat -> (j < n)%nat -> (k < n)%nat -> 0 <= c9_of X kind kw a b cn q t i j k.
Proof.
  intros Hi Hj Hk. unfold c9_of. destruct (t_class t); try apply sqrt_pos. unfold c9_integral.
  apply Rmult_le_pos; [apply Rlt_le, three_over_pi_pos|]. apply rsum_nonneg. intros w Hw.
  apply Rmult_le_pos; [apply Rmult_le_pos; [apply Rmult_le_pos|]|]; try (now apply wf_pol). apply Rlt_le. now apply quad_weight_pos.
Qed.
Lemma wf_Q i : attractive a n B -> (i < n)%nat -> 0 <= mol_Q a b i.
Proof.
  intros (_ & _ & _ & _ & _ & H) Hi. unfold mol_Q. destruct (a_r4r2 a) as [t|]; [now apply (H t)|apply sqrt_pos].
Qed.

Lemma two_body_bounds c6 cut i : attractive a n B -> (i < n)%nat ->
  (forall j, (j < n)%nat -> 0 <= c6 i j) ->
  - contact n (mol_z a b) c6 (mol_Q a b) (eff_a1 a) (eff_a2 a) (eff_s6 (a_param a)) (eff_s8 (a_param a)) (eff_s10 (a_param a)) i
  <= two_body n c (mol_z a b) (mol_x a b) c6 (mol_Q a b) (eff_a1 a) (eff_a2 a)
       (eff_s6 (a_param a)) (eff_s8 (a_param a)) (eff_s10 (a_param a)) cut i <= 0.
Proof.
  intros HA Hi H6. pose proof HA as (A1 & A2 & A6 & A8 & A10 & _). unfold contact, two_body.
  match goal with |- - (1 / 2 * ?S0) <= - (1 / 2) * ?S1 <= 0 => assert (0 <= S1 <= S0); [|lra] end.
  assert (E : forall j, (j < n)%nat ->
    0 <= pair_energy (eff_a1 a) (eff_a2 a) (eff_s6 (a_param a)) (eff_s8 (a_param a)) (eff_s10 (a_param a)) (c6 i j) (mol_Q a b i) (mol_Q a b j) (euclid c (mol_x a b i) (mol_x a b j))
    <= pair_energy (eff_a1 a) (eff_a2 a) (eff_s6 (a_param a)) (eff_s8 (a_param a)) (eff_s10 (a_param a)) (c6 i j) (mol_Q a b i) (mol_Q a b j) 0).
  { intros j Hj. apply pair_energy_bounds; auto using wf_Q, euclid_nonneg. }
  split; [apply rsum_nonneg|apply rsum_le]; intros j Hj; specialize (E j Hj);
    destruct (real_pair _ i j); cbn [andb]; try lra; destruct (rleb _ _); lra.
Qed.

Lemma two_body_negative c6 cut i : attractive a n B -> 0 < eff_s6 (a_param a) -> (i < n)%nat ->
  (forall j, (j < n)%nat -> 0 <= c6 i j) ->
  (exists j, (j < n)%nat /\ real_pair (mol_z a b) i j = true /\ euclid c (mol_x a b i) (mol_x a b j) <= cut /\ 0 < c6 i j) ->
  two_body n c (mol_z a b) (mol_x a b) c6 (mol_Q a b) (eff_a1 a) (eff_a2 a)
       (eff_s6 (a_param a)) (eff_s8 (a_param a)) (eff_s10 (a_param a)) cut i < 0.
Proof.
  intros HA H6 Hi HC (j & Hj & Rj & Dj & Cj). pose proof HA as (A1 & A2 & A6 & A8 & A10 & _). unfold two_body.
  match goal with |- - (1 / 2) * ?S1 < 0 => assert (0 < S1); [|lra] end.
  apply (rsum_pos _ _ j); auto.
  - intros k Hk. destruct (_ && _); [|lra]. apply pair_energy_bounds; auto using wf_Q, euclid_nonneg.
  - rewrite Rj. cbn [andb]. apply rleb_true in Dj. rewrite Dj. apply pair_energy_pos; auto using wf_Q, euclid_nonneg.
Qed.

(** three-body energies *)
Section Three.
Variables (d0 s9 alp cut : R) (c9 : nat -> nat -> nat -> R) (R0 : nat -> nat -> R) (i : nat).
Hypothesis Hd : 0 < d0.
Hypothesis HS : separated d0 (a_numbers a) (a_positions a) n c B.
Hypothesis Hs : 0 <= s9.
Hypothesis H9 : forall i j k, (i < n)%nat -> (j < n)%nat -> (k < n)%nat -> 0 <= c9 i j k.
Hypothesis Hi : (i < n)%nat.

Lemma apart j k : (j < n)%nat -> (k < n)%nat -> real_pair (mol_z a b) j k = true -> 0 < euclid c (mol_x a b j) (mol_x a b k).
Proof. intros Hj Hk R. unfold euclid. apply sqrt_lt_R0. apply Rlt_le_trans with d0; auto. now apply HS. Qed.

Lemma three_body_bounds :
  -2 * triples_size n c (mol_z a b) (mol_x a b) c9 s9 cut i
  <= three_body n c (mol_z a b) (mol_x a b) c9 R0 s9 alp cut i
  <= 11 / 8 * triples_size n c (mol_z a b) (mol_x a b) c9 s9 cut i.
Proof.
  unfold triples_size, three_body.
  match goal with |- -2 * (1 / 6 * ?S) <= 1 / 6 * ?T <= _ => assert (-2 * S <= T <= 11 / 8 * S); [|lra] end.
  assert (E : forall j k, (j < n)%nat -> (k < n)%nat ->
    let g := real_triple (mol_z a b) i j k && rleb (euclid c (mol_x a b i) (mol_x a b j)) cut && rleb (euclid c (mol_x a b j) (mol_x a b k)) cut in
    let s := if g then triple_size c (mol_x a b i) (mol_x a b j) (mol_x a b k) (c9 i j k) s9 else 0 in
    let t := if g then triple_energy c (mol_x a b i) (mol_x a b j) (mol_x a b k) (c9 i j k) (R0 i j) (R0 i k) (R0 j k) s9 alp else 0 in
    -2 * s <= t <= 11 / 8 * s).
  { intros j k Hj Hk g. destruct g eqn:G; cbv zeta; [|lra].
    apply andb_true_iff in G as [G _]. apply andb_true_iff in G as [G _].
    destruct (real_triple_pairs _ _ _ _ G) as (G1 & G2 & G3).
    apply triple_bounds; auto using apart. apply Rmult_le_pos; auto. }
  cbv zeta in E. split.
  - rewrite <- rsum_scal_l. apply rsum_le. intros j Hj. rewrite <- rsum_scal_l. apply rsum_le. intros k Hk. now apply E.
  - rewrite <- rsum_scal_l. apply rsum_le. intros j Hj. rewrite <- rsum_scal_l. apply rsum_le. intros k Hk. now apply E.
Qed.

Lemma three_body_acute :
  (forall j k, (j < n)%nat -> (k < n)%nat -> real_triple (mol_z a b) i j k = true ->
     euclid c (mol_x a b i) (mol_x a b j) <= cut -> euclid c (mol_x a b j) (mol_x a b k) <= cut ->
     not_obtuse c (mol_x a b i) (mol_x a b j) (mol_x a b k)) ->
  0 <= three_body n c (mol_z a b) (mol_x a b) c9 R0 s9 alp cut i.
Proof.
  intros HO. unfold three_body. apply Rmult_le_pos; [lra|]. apply rsum_nonneg. intros j Hj. apply rsum_nonneg. intros k Hk.
  destruct (_ && _) eqn:G; [|lra]. apply andb_true_iff in G as [G D2]. apply andb_true_iff in G as [G D1].
  destruct (real_triple_pairs _ _ _ _ G) as (G1 & G2 & G3). apply rleb_true in D1. apply rleb_true in D2.
  apply triple_acute; auto using apart. apply Rmult_le_pos; auto.
Qed.
End Three.
End M.

(** *** C57 *)
(** Two-body terms attract: the energy of an atom is never positive, and is negative as soon as the
    atom has a neighbour within the cutoff (cerium excepted). *)
Theorem C57_two_body_negative :
  forall (p : Disp N) (a : Args N) kind kw n c B d0 ds,
  ext_tables X -> 1 <= mx -> 0 < d0 -> dist_contract d0 X -> div_contract X -> sqrt_contract ds X ->
  well_formed X W p a kind kw n c B ->
  (forall t, In t (p_terms p) -> t_class t = TwoBodyTerm /\ t_damping t = RationalDamping) ->
  getp (a_param a) "a1" <> None -> getp (a_param a) "a2" <> None ->
  separated d0 (a_numbers a) (a_positions a) n c B -> 0 <= cut3 a -> attractive a n B ->
  exists e, run X W p a = Ok e /\ shp e = n :: B /\
    forall b i, valid B b -> (i < n)%nat ->
      sl1 e b i <= 0 /\
      (p_terms p <> [] -> 0 < eff_s6 (a_param a) ->
       (exists j, (j < n)%nat /\ i <> j /\ ordinary (mol_z a b i) /\ ordinary (mol_z a b j) /\
                  euclid c (mol_x a b i) (mol_x a b j) <= cut2 a) ->
       sl1 e b i < 0).
Proof.
  intros p a kind kw n c B d0 ds HX Hm Hd HD HV HQ WF HT E1 E2 HS H3 HA.
  destruct (C53_energy_formula X W p a kind kw n c B d0 ds) as (cn & q & Ecn & Hq & H); auto.
  { intros t Ht. unfold d4_damped. destruct (HT t Ht) as (-> & ->). reflexivity. }
  destruct H as (e & Ee & Es & He).
  { intros b t Hb Ht Hc. now destruct (HT t Ht). }
  exists e. split; [exact Ee|]. split; [exact Es|]. intros b i Hb Hi. rewrite He by auto.
  set (cnb := sl1 cn b). set (qb := opt_at q b).
  assert (NP : forall t, In t (p_terms p) -> term_energy X kind kw a b n c cnb qb t i <= 0).
  { intros t Ht. unfold term_energy. rewrite (proj1 (HT t Ht)).
    apply (two_body_bounds a n c B b Hb); auto. intros j Hj. now apply (wf_c6 p a kind kw n c B b WF Hb). }
  assert (NS : forall ts, (forall t, In t ts -> In t (p_terms p)) -> terms_energy X kind kw a b n c cnb qb ts i <= 0).
  { induction ts as [|t ts IH]; intros Hi'; unfold terms_energy; cbn [map fold_right]; [lra|].
    fold (terms_energy X kind kw a b n c cnb qb ts i). specialize (IH ltac:(intros; apply Hi'; now right)).
    specialize (NP t (Hi' t (or_introl eq_refl))). lra. }
  split; [now apply NS|]. intros Hne H6 (j & Hj & Nij & Oi & Oj & D).
  destruct (p_terms p) as [|t ts]; [now elim Hne|]. unfold terms_energy. cbn [map fold_right].
  fold (terms_energy X kind kw a b n c cnb qb ts i). specialize (NS ts ltac:(intros; now right)).
  assert (term_energy X kind kw a b n c cnb qb t i < 0); [|lra].
  unfold term_energy. rewrite (proj1 (HT t (or_introl eq_refl))).
  apply (two_body_negative a n c B b Hb); auto.
  - intros k Hk. now apply (wf_c6 p a kind kw n c B b WF Hb).
  - exists j. split; [exact Hj|]. destruct Oi as (Oi & Ni). destruct Oj as (Oj & Nj). split; [|split; [exact D|now apply c6_coef_pos]].
    unfold real_pair. destruct (Nat.eqb_spec i j) as [|_]; [contradiction|].
    destruct (Z.eqb_spec (mol_z a b i) 0); [lia|]. destruct (Z.eqb_spec (mol_z a b j) 0); [lia|]. reflexivity.
Qed.

(** The D4 energy of an atom lies between bounds given by the coefficients. *)
Theorem C57_D4_bounds :
  forall (p : Disp N) (a : Args N) kind kw n c B d0 ds,
  ext_tables X -> 1 <= mx -> 0 < d0 -> dist_contract d0 X -> div_contract X -> sqrt_contract ds X ->
  well_formed X W p a kind kw n c B -> p_terms p = terms_d4 X ->
  getp (a_param a) "a1" <> None -> getp (a_param a) "a2" <> None ->
  separated d0 (a_numbers a) (a_positions a) n c B -> 0 <= cut3 a -> attractive a n B -> 0 <= eff_s9 (a_param a) ->
  exists cn q, p_cn_fn p (p_cn_kw p) (a_numbers a) (a_positions a) = Ok cn /\ charges_are W p a (Some q) /\
    ((forall b, valid B b -> regular X kind kw a b n (sl1 cn b) (sl1 q b) ds (mkTerm D4ATMApprox (ZeroDamping X) false)) ->
     exists e, run X W p a = Ok e /\ shp e = n :: B /\
     forall b i, valid B b -> (i < n)%nat ->
       let S := triples_size n c (mol_z a b) (mol_x a b) (c9_mean X kind kw a b (sl1 cn b) (fun _ => 0)) (eff_s9 (a_param a)) (cut3 a) i in
       - contact n (mol_z a b) (c6_coef X kind kw a b (sl1 cn b) (sl1 q b)) (mol_Q a b) (eff_a1 a) (eff_a2 a)
           (eff_s6 (a_param a)) (eff_s8 (a_param a)) (eff_s10 (a_param a)) i - 2 * S
       <= sl1 e b i <= 11 / 8 * S).
Proof.
  intros p a kind kw n c B d0 ds HX Hm Hd HD HV HQ WF ET E1 E2 HS H3 HA H9.
  destruct (C53_DispD4 X W p a kind kw n c B d0 ds) as (cn & q & Ecn & Hq & H); auto.
  exists cn, q. split; [exact Ecn|]. split; [exact Hq|]. intros HR. destruct (H HR) as (e & Ee & Es & He).
  exists e. split; [exact Ee|]. split; [exact Es|]. intros b i Hb Hi. rewrite He by auto. unfold d4_energy.
  pose proof (two_body_bounds a n c B b Hb (c6_coef X kind kw a b (sl1 cn b) (sl1 q b)) (cut2 a) i HA Hi
    ltac:(intros j Hj; now apply (wf_c6 p a kind kw n c B b WF Hb))) as T2.
  pose proof (three_body_bounds a n c B b Hb d0 (eff_s9 (a_param a)) (eff_alp (a_param a)) (cut3 a)
    (c9_mean X kind kw a b (sl1 cn b) (fun _ => 0)) (bj_radius (eff_a1 a) (eff_a2 a) (mol_Q a b)) i Hd HS H9
    ltac:(intros; apply sqrt_pos) Hi) as T3.
  cbv zeta. lra.
Qed.

(** Three-body terms repel where no triangle within the cutoff is obtuse. *)
Theorem C57_three_body_acute :
  forall (p : Disp N) (a : Args N) kind kw n c B d0 ds,
  ext_tables X -> 1 <= mx -> 0 < d0 -> dist_contract d0 X -> div_contract X -> sqrt_contract ds X ->
  well_formed X W p a kind kw n c B ->
  (forall t, In t (p_terms p) -> t_class t <> TwoBodyTerm /\ t_damping t = ZeroDamping X) ->
  separated d0 (a_numbers a) (a_positions a) n c B -> 0 <= cut3 a -> 0 <= eff_s9 (a_param a) ->
  exists cn q, p_cn_fn p (p_cn_kw p) (a_numbers a) (a_positions a) = Ok cn /\ charges_are W p a q /\
    ((forall b t, valid B b -> In t (p_terms p) -> regular X kind kw a b n (sl1 cn b) (opt_at q b) ds t) ->
     exists e, run X W p a = Ok e /\ shp e = n :: B /\
     forall b i, valid B b -> (i < n)%nat ->
       (forall j k, (j < n)%nat -> (k < n)%nat -> real_triple (mol_z a b) i j k = true ->
          euclid c (mol_x a b i) (mol_x a b j) <= cut3 a -> euclid c (mol_x a b j) (mol_x a b k) <= cut3 a ->
          not_obtuse c (mol_x a b i) (mol_x a b j) (mol_x a b k)) ->
       0 <= sl1 e b i).
Proof.
  intros p a kind kw n c B d0 ds HX Hm Hd HD HV HQ WF HT HS H3 H9.
  destruct (C53_energy_formula X W p a kind kw n c B d0 ds) as (cn & q & Ecn & Hq & H); auto.
  { intros t Ht. destruct (HT t Ht) as (Hc & Ht'). unfold d4_damped. destruct (t_class t); try exact Ht'. now elim Hc. }
  { intros t Ht Hc. now elim (proj1 (HT t Ht)). }
  exists cn, q. split; [exact Ecn|]. split; [exact Hq|]. intros HR. destruct H as (e & Ee & Es & He).
  { intros b t Hb Ht _. now apply HR. }
  exists e. split; [exact Ee|]. split; [exact Es|]. intros b i Hb Hi HO. rewrite He by auto.
  unfold terms_energy. assert (NP : forall t, In t (p_terms p) -> 0 <= term_energy X kind kw a b n c (sl1 cn b) (opt_at q b) t i).
  { intros t Ht. assert (G : 0 <= three_body n c (mol_z a b) (mol_x a b) (c9_of X kind kw a b (sl1 cn b) (opt_at q b) t)
        (radius_of X a b t) (eff_s9 (a_param a)) (eff_alp (a_param a)) (cut3 a) i).
    { apply (three_body_acute a n c B b Hb d0); auto. intros. now apply (wf_c9 p a kind kw n c B b WF Hb). }
    unfold term_energy. destruct (HT t Ht) as (Hc & _). destruct (t_class t); auto. now elim Hc. }
  induction (p_terms p) as [|t ts IH]; cbn [map fold_right]; [lra|].
  assert (0 <= fold_right Rplus 0 (map (fun t => term_energy X kind kw a b n c (sl1 cn b) (opt_at q b) t i) ts)).
  { clear - NP. assert (G : forall t, In t ts -> 0 <= term_energy X kind kw a b n c (sl1 cn b) (opt_at q b) t i) by (intros; apply NP; now right).
    clear NP. induction ts as [|u us IH]; cbn [map fold_right]; [lra|]. specialize (G u (or_introl eq_refl)) as Gu.
    specialize (IH ltac:(intros; apply G; now right)). lra. }
  specialize (NP t (or_introl eq_refl)). lra.
Qed.

(** *** C58 *)
Lemma wf_set_cut2 (p : Disp N) (a : Args N) kind kw n c B r :
  well_formed X W p a kind kw n c B -> well_formed X W p (set_cut2 a r) kind kw n c B.
Proof. intros []. constructor; auto. Qed.

Lemma two_body_cutoffs (a : Args N) n c B b c6 r r' i : valid B b -> attractive a n B -> 0 < r <= r' -> (i < n)%nat ->
  (forall j, (j < n)%nat -> 0 <= c6 i j) ->
  let E cut := two_body n c (mol_z a b) (mol_x a b) c6 (mol_Q a b) (eff_a1 a) (eff_a2 a)
       (eff_s6 (a_param a)) (eff_s8 (a_param a)) (eff_s10 (a_param a)) cut i in
  0 <= E r - E r' <= 1 / 2 * rsum n (fun j => if real_pair (mol_z a b) i j then
      undamped (eff_s6 (a_param a)) (eff_s8 (a_param a)) (eff_s10 (a_param a)) (c6 i j) (mol_Q a b i) (mol_Q a b j) r else 0).
Proof.
  intros Hb HA Hr Hi H6 E. pose proof HA as (A1 & A2 & A6 & A8 & A10 & _). unfold E, two_body.
  match goal with |- 0 <= - (1 / 2) * ?S1 - - (1 / 2) * ?S2 <= 1 / 2 * ?S3 => assert (0 <= S2 - S1 <= S3); [|lra] end.
  match goal with |- 0 <= ?S2 - ?S1 <= ?S3 => replace (S2 - S1) with (S2 + - S1) by ring end.
  rewrite <- rsum_opp, <- rsum_plus.
  assert (G : forall j, (j < n)%nat ->
    let F cut := if real_pair (mol_z a b) i j && rleb (euclid c (mol_x a b i) (mol_x a b j)) cut then
       pair_energy (eff_a1 a) (eff_a2 a) (eff_s6 (a_param a)) (eff_s8 (a_param a)) (eff_s10 (a_param a)) (c6 i j) (mol_Q a b i) (mol_Q a b j) (euclid c (mol_x a b i) (mol_x a b j)) else 0 in
    0 <= F r' + - F r <= if real_pair (mol_z a b) i j then
      undamped (eff_s6 (a_param a)) (eff_s8 (a_param a)) (eff_s10 (a_param a)) (c6 i j) (mol_Q a b i) (mol_Q a b j) r else 0).
  { intros j Hj F. unfold F. destruct (real_pair (mol_z a b) i j); cbn [andb]; [|lra].
    pose proof (euclid_nonneg c (mol_x a b i) (mol_x a b j)) as D0. set (d := euclid c (mol_x a b i) (mol_x a b j)) in *.
    assert (Qi := wf_Q a n B b Hb i HA Hi). assert (Qj := wf_Q a n B b Hb j HA Hj).
    pose proof (pair_energy_decay (eff_a1 a) (eff_a2 a) (eff_s6 (a_param a)) (eff_s8 (a_param a)) (eff_s10 (a_param a))
      (c6 i j) (mol_Q a b i) (mol_Q a b j) A1 A2 A8 A10 Qi Qj r A6 (H6 j Hj) ltac:(lra)) as U.
    pose proof (pair_energy_bounds (eff_a1 a) (eff_a2 a) (eff_s6 (a_param a)) (eff_s8 (a_param a)) (eff_s10 (a_param a))
      (c6 i j) (mol_Q a b i) (mol_Q a b j) r A1 A2 A6 A8 A10 (H6 j Hj) Qi Qj ltac:(lra)) as U0.
    pose proof (pair_energy_bounds (eff_a1 a) (eff_a2 a) (eff_s6 (a_param a)) (eff_s8 (a_param a)) (eff_s10 (a_param a))
      (c6 i j) (mol_Q a b i) (mol_Q a b j) d A1 A2 A6 A8 A10 (H6 j Hj) Qi Qj D0) as U1.
    destruct (rleb d r) eqn:Er.
    - apply rleb_true in Er. assert (Er' : rleb d r' = true) by (apply rleb_true; lra). rewrite Er'. lra.
    - apply rleb_false in Er.
      pose proof (pair_energy_decreases (eff_a1 a) (eff_a2 a) (eff_s6 (a_param a)) (eff_s8 (a_param a)) (eff_s10 (a_param a))
        (c6 i j) (mol_Q a b i) (mol_Q a b j) A1 A2 A8 A10 Qi Qj r d A6 (H6 j Hj) ltac:(lra)) as U2.
      destruct (rleb d r'); lra. }
  cbv zeta in G. split; [apply rsum_nonneg|apply rsum_le]; intros j Hj; now apply G.
Qed.

(** With a larger two-body cutoff the energy of every atom is lower, by at most the undamped energy
    that all the other atoms would contribute at the smaller cutoff distance. *)
Theorem C58_two_body_cutoff_error :
  forall (p : Disp N) (a : Args N) kind kw n c B d0 ds r',
  ext_tables X -> 1 <= mx -> 0 < d0 -> dist_contract d0 X -> div_contract X -> sqrt_contract ds X ->
  well_formed X W p a kind kw n c B ->
  (forall t, In t (p_terms p) -> d4_damped X t) ->
  (forall t, In t (p_terms p) -> t_class t = TwoBodyTerm ->
     getp (a_param a) "a1" <> None /\ getp (a_param a) "a2" <> None) ->
  separated d0 (a_numbers a) (a_positions a) n c B -> 0 <= cut3 a -> attractive a n B ->
  0 < cut2 a <= r' ->
  exists cn q, p_cn_fn p (p_cn_kw p) (a_numbers a) (a_positions a) = Ok cn /\ charges_are W p a q /\
    ((forall b t, valid B b -> In t (p_terms p) -> t_class t <> TwoBodyTerm ->
        regular X kind kw a b n (sl1 cn b) (opt_at q b) ds t) ->
     exists e e', run X W p a = Ok e /\ run X W p (set_cut2 a r') = Ok e' /\
     forall b i, valid B b -> (i < n)%nat ->
       0 <= sl1 e b i - sl1 e' b i <= tails X kind kw a b n (sl1 cn b) (opt_at q b) (cut2 a) (p_terms p) i).
Proof.
  intros p a kind kw n c B d0 ds r' HX Hm Hd HD HV HQ WF HT HP HS H3 HA Hr.
  pose proof (wf_set_cut2 p a kind kw n c B r' WF) as WF'.
  destruct (C53_energy_formula X W p a kind kw n c B d0 ds) as (cn & q & Ecn & Hq & H); auto.
  destruct (C53_energy_formula X W p (set_cut2 a r') kind kw n c B d0 ds) as (cn' & q' & Ecn' & Hq' & H'); auto.
  { unfold cut3 in *. cbn [a_cutoff set_cut2 c_disp3]. unfold a_cut. destruct (a_cutoff a); cbn [default]; auto.
    cbn. unfold Q2R; cbn. lra. }
  assert (cn' = cn) by (cbn [set_cut2 a_numbers a_positions] in Ecn'; congruence). subst cn'.
  assert (q' = q).
  { unfold charges_are in Hq, Hq'. cbn [set_cut2 a_q] in Hq'. destruct (a_q a) as [q0|]; [congruence|].
    destruct (in_dec Bool.bool_dec true (map t_cdep (p_terms p))) as [Hin|Hin].
    - assert (NC : needs_charges p). { apply in_map_iff in Hin as (t & Et & Ht). now exists t. }
      destruct (proj1 Hq NC) as (u & -> & Eu). destruct (proj1 Hq' NC) as (u' & -> & Eu').
      unfold eeq_cut in *. cbn [set_cut2 a_cutoff a_numbers a_positions a_charge c_cn_eeq] in Eu'. unfold a_cut in Eu'.
      destruct (a_cutoff a); cbn [default default_cutoff c_cn_eeq] in Eu'; [congruence|].
      assert (Ok u = Ok u') by (rewrite <- Eu, <- Eu'; reflexivity). congruence.
    - assert (NC : ~ needs_charges p). { intros (t & Ht & Et). apply Hin. apply in_map_iff. now exists t. }
      rewrite (proj2 Hq NC), (proj2 Hq' NC). reflexivity. }
  subst q'. exists cn, q. split; [exact Ecn|]. split; [exact Hq|]. intros HR.
  destruct (H HR) as (e & Ee & Es & He). destruct (H' HR) as (e' & Ee' & Es' & He').
  exists e, e'. split; [exact Ee|]. split; [exact Ee'|]. intros b i Hb Hi. rewrite He, He' by auto.
  unfold terms_energy, tails. clear H H' HT HP HR Ee Ee' He He'.
  assert (G : forall t, 0 <= term_energy X kind kw a b n c (sl1 cn b) (opt_at q b) t i
      - term_energy X kind kw (set_cut2 a r') b n c (sl1 cn b) (opt_at q b) t i
      <= tail X kind kw a b n (sl1 cn b) (opt_at q b) (cut2 a) t i).
  { intros t. assert (C3 : cut3 (set_cut2 a r') = cut3 a).
    { unfold cut3. cbn [a_cutoff set_cut2 c_disp3]. unfold a_cut. destruct (a_cutoff a); cbn [default]; auto. cbn. unfold Q2R; cbn. lra. }
    unfold term_energy, tail. rewrite C3. destruct (t_class t).
    - apply (two_body_cutoffs a n c B b (c6_coef X kind kw a b (sl1 cn b) (seen (opt_at q b) t)) (cut2 a) r' i Hb HA Hr Hi).
      intros j Hj. now apply (wf_c6 p a kind kw n c B b WF Hb).
    - match goal with |- 0 <= ?u - ?v <= 0 => change v with u end. lra.
    - match goal with |- 0 <= ?u - ?v <= 0 => change v with u end. lra.
    - match goal with |- 0 <= ?u - ?v <= 0 => change v with u end. lra. }
  induction (p_terms p) as [|t ts IH]; cbn [map fold_right]; [lra|]. specialize (G t). lra.
Qed.
(** the three-body cutoff *)
Lemma wf_set_cut3 (p : Disp N) (a : Args N) kind kw n c B r :
  well_formed X W p a kind kw n c B -> well_formed X W p (set_cut3 a r) kind kw n c B.
Proof. intros []. constructor; auto. Qed.

Lemma three_body_cutoffs (a : Args N) n c B b d0 m c9 R0 s9 alp r r' i : valid B b -> 0 < d0 ->
  separated d0 (a_numbers a) (a_positions a) n c B -> 0 < m ->
  (forall i j, (i < n)%nat -> (j < n)%nat -> real_pair (mol_z a b) i j = true -> m <= euclid c (mol_x a b i) (mol_x a b j)) ->
  0 <= s9 -> (forall i j k, (i < n)%nat -> (j < n)%nat -> (k < n)%nat -> 0 <= c9 i j k) -> 0 < r <= r' -> (i < n)%nat ->
  let E cut := three_body n c (mol_z a b) (mol_x a b) c9 R0 s9 alp cut i in
  let T := 1 / 6 * rsum n (fun j => rsum n (fun k => if real_triple (mol_z a b) i j k then
      s9 * c9 i j k / (m * (r / 2) * r) ^ 3 else 0)) in
  - 2 * T <= E r' - E r <= 11 / 8 * T.
Proof.
  intros Hb Hd HS Hm Hap H9 HC Hr Hi E T. unfold E, T, three_body. clear E T.
  set (F := fun j k => triple_energy c (mol_x a b i) (mol_x a b j) (mol_x a b k) (c9 i j k) (R0 i j) (R0 i k) (R0 j k) s9 alp).
  set (G := fun cut j k => real_triple (mol_z a b) i j k && rleb (euclid c (mol_x a b i) (mol_x a b j)) cut && rleb (euclid c (mol_x a b j) (mol_x a b k)) cut).
  set (U := fun j k => s9 * c9 i j k / (m * (r / 2) * r) ^ 3).
  change (-2 * (1 / 6 * rsum n (fun j => rsum n (fun k => if real_triple (mol_z a b) i j k then U j k else 0)))
    <= 1 / 6 * rsum n (fun j => rsum n (fun k => if G r' j k then F j k else 0)) - 1 / 6 * rsum n (fun j => rsum n (fun k => if G r j k then F j k else 0))
    <= 11 / 8 * (1 / 6 * rsum n (fun j => rsum n (fun k => if real_triple (mol_z a b) i j k then U j k else 0)))).
  assert (Y : forall j k, (j < n)%nat -> (k < n)%nat ->
    -2 * (if real_triple (mol_z a b) i j k then U j k else 0) <= (if G r' j k then F j k else 0) + - (if G r j k then F j k else 0)
    <= 11 / 8 * (if real_triple (mol_z a b) i j k then U j k else 0)).
  { intros j k Hj Hk. unfold G. destruct (real_triple (mol_z a b) i j k) eqn:RT; cbn [andb]; [|lra].
    destruct (real_triple_pairs _ _ _ _ RT) as (P1 & P2 & P3).
    pose proof (Hap i j Hi Hj P1) as M1. pose proof (Hap i k Hi Hk P2) as M2. pose proof (Hap j k Hj Hk P3) as M3.
    assert (U0 : 0 <= U j k).
    { unfold U. apply Rmult_le_pos; [apply Rmult_le_pos; auto|]. left. apply Rinv_0_lt_compat, pow_lt. repeat apply Rmult_lt_0_compat; lra. }
    destruct (rleb (euclid c (mol_x a b i) (mol_x a b j)) r && rleb (euclid c (mol_x a b j) (mol_x a b k)) r) eqn:In.
    - apply andb_true_iff in In as (I1 & I2). apply rleb_true in I1. apply rleb_true in I2.
      assert (J1 : rleb (euclid c (mol_x a b i) (mol_x a b j)) r' = true) by (apply rleb_true; lra).
      assert (J2 : rleb (euclid c (mol_x a b j) (mol_x a b k)) r' = true) by (apply rleb_true; lra). rewrite J1, J2. cbn [andb]. lra.
    - assert (B0 : -2 * U j k <= F j k <= 11 / 8 * U j k); [|match goal with |- context [if ?g then F j k else 0] => destruct g end; cbv iota; lra].
      assert (C0 : 0 <= s9 * c9 i j k) by (apply Rmult_le_pos; auto).
      pose proof (triple_bounds c (mol_x a b i) (mol_x a b j) (mol_x a b k) (c9 i j k) (R0 i j) (R0 i k) (R0 j k) s9 alp ltac:(lra) ltac:(lra) ltac:(lra) C0) as TB.
      fold (F j k) in TB. assert (SZ : triple_size c (mol_x a b i) (mol_x a b j) (mol_x a b k) (c9 i j k) s9 <= U j k); [|lra].
      unfold triple_size, U. apply Rmult_le_compat_l; [exact C0|].
      apply Rinv_le_contravar; [apply pow_lt; repeat apply Rmult_lt_0_compat; lra|].
      apply pow_incr. split; [apply Rlt_le; repeat apply Rmult_lt_0_compat; lra|].
      pose proof (euclid_triangle c (mol_x a b i) (mol_x a b k) (mol_x a b j)) as T1.
      pose proof (euclid_triangle c (mol_x a b j) (mol_x a b i) (mol_x a b k)) as T2.
      rewrite (euclid_sym c (mol_x a b k) (mol_x a b j)) in T1. rewrite (euclid_sym c (mol_x a b j) (mol_x a b i)) in T2.
      set (u := euclid c (mol_x a b i) (mol_x a b j)) in *. set (v := euclid c (mol_x a b i) (mol_x a b k)) in *. set (w := euclid c (mol_x a b j) (mol_x a b k)) in *.
      assert (Q : forall x y z, m <= x -> r / 2 <= y -> r <= z -> m * (r / 2) * r <= x * y * z).
      { intros x y z Hx Hy Hz. apply Rmult_le_compat; try lra; [apply Rmult_le_pos; lra|]. apply Rmult_le_compat; lra. }
      apply andb_false_iff in In as [O|O]; apply rleb_false in O.
      + destruct (Rle_dec (r / 2) v) as [L|L].
        * replace (u * v * w) with (w * v * u) by ring. apply Q; lra.
        * replace (u * v * w) with (v * w * u) by ring. apply Q; lra.
      + destruct (Rle_dec (r / 2) v) as [L|L].
        * apply Q; lra.
        * replace (u * v * w) with (v * u * w) by ring. apply Q; lra. }
  assert (Z : -2 * rsum n (fun j => rsum n (fun k => if real_triple (mol_z a b) i j k then U j k else 0))
    <= rsum n (fun j => rsum n (fun k => if G r' j k then F j k else 0)) + - rsum n (fun j => rsum n (fun k => if G r j k then F j k else 0))
    <= 11 / 8 * rsum n (fun j => rsum n (fun k => if real_triple (mol_z a b) i j k then U j k else 0))); [|lra].
  rewrite <- rsum_opp, <- rsum_plus, <- !rsum_scal_l. split; apply rsum_le; intros j Hj; rewrite <- rsum_opp, <- rsum_plus, <- rsum_scal_l;
    apply rsum_le; intros k Hk; now apply Y.
Qed.

(** With a larger three-body cutoff the energy of every atom changes by at most 2 (downwards) or
    11/8 (upwards) times the undamped energy of the triples, taken at the smaller cutoff distance. *)
Theorem C58_three_body_cutoff_error :
  forall (p : Disp N) (a : Args N) kind kw n c B d0 ds m r',
  ext_tables X -> 1 <= mx -> 0 < d0 -> dist_contract d0 X -> div_contract X -> sqrt_contract ds X ->
  well_formed X W p a kind kw n c B ->
  (forall t, In t (p_terms p) -> d4_damped X t) ->
  (forall t, In t (p_terms p) -> t_class t = TwoBodyTerm ->
     getp (a_param a) "a1" <> None /\ getp (a_param a) "a2" <> None) ->
  separated d0 (a_numbers a) (a_positions a) n c B -> 0 <= eff_s9 (a_param a) ->
  0 < m -> (forall b i j, valid B b -> (i < n)%nat -> (j < n)%nat -> real_pair (mol_z a b) i j = true ->
     m <= euclid c (mol_x a b i) (mol_x a b j)) ->
  0 < cut3 a <= r' ->
  exists cn q, p_cn_fn p (p_cn_kw p) (a_numbers a) (a_positions a) = Ok cn /\ charges_are W p a q /\
    ((forall b t, valid B b -> In t (p_terms p) -> t_class t <> TwoBodyTerm ->
        regular X kind kw a b n (sl1 cn b) (opt_at q b) ds t) ->
     exists e e', run X W p a = Ok e /\ run X W p (set_cut3 a r') = Ok e' /\
     forall b i, valid B b -> (i < n)%nat ->
       let T := tails3 X kind kw a b n (sl1 cn b) (opt_at q b) m (cut3 a) (p_terms p) i in
       - 2 * T <= sl1 e' b i - sl1 e b i <= 11 / 8 * T).
Proof.
  intros p a kind kw n c B d0 ds m r' HX Hm Hd HD HV HQ WF HT HP HS H9 Hm0 Hap Hr.
  pose proof (wf_set_cut3 p a kind kw n c B r' WF) as WF'.
  destruct (C53_energy_formula X W p a kind kw n c B d0 ds) as (cn & q & Ecn & Hq & H); auto; [lra|].
  destruct (C53_energy_formula X W p (set_cut3 a r') kind kw n c B d0 ds) as (cn' & q' & Ecn' & Hq' & H'); auto.
  { unfold cut3 in *. cbn [a_cutoff set_cut3 c_disp3 default scal dat]. cbn. lra. }
  assert (cn' = cn) by (cbn [set_cut3 a_numbers a_positions] in Ecn'; congruence). subst cn'.
  assert (q' = q).
  { unfold charges_are in Hq, Hq'. cbn [set_cut3 a_q] in Hq'. destruct (a_q a) as [q0|]; [congruence|].
    destruct (in_dec Bool.bool_dec true (map t_cdep (p_terms p))) as [Hin|Hin].
    - assert (NC : needs_charges p). { apply in_map_iff in Hin as (t & Et & Ht). now exists t. }
      destruct (proj1 Hq NC) as (u & -> & Eu). destruct (proj1 Hq' NC) as (u' & -> & Eu').
      unfold eeq_cut in *. cbn [set_cut3 a_cutoff a_numbers a_positions a_charge c_cn_eeq] in Eu'. unfold a_cut in Eu'.
      destruct (a_cutoff a); cbn [default default_cutoff c_cn_eeq] in Eu'; [congruence|].
      assert (Ok u = Ok u') by (rewrite <- Eu, <- Eu'; reflexivity). congruence.
    - assert (NC : ~ needs_charges p). { intros (t & Ht & Et). apply Hin. apply in_map_iff. now exists t. }
      rewrite (proj2 Hq NC), (proj2 Hq' NC). reflexivity. }
  subst q'. exists cn, q. split; [exact Ecn|]. split; [exact Hq|]. intros HR.
  destruct (H HR) as (e & Ee & Es & He). destruct (H' HR) as (e' & Ee' & Es' & He').
  exists e, e'. split; [exact Ee|]. split; [exact Ee'|]. intros b i Hb Hi. rewrite He, He' by auto.
  unfold terms_energy, tails3. clear H H' HT HP HR Ee Ee' He He'.
  assert (G : forall t, - 2 * tail3 X kind kw a b n (sl1 cn b) (opt_at q b) m (cut3 a) t i
      <= term_energy X kind kw (set_cut3 a r') b n c (sl1 cn b) (opt_at q b) t i - term_energy X kind kw a b n c (sl1 cn b) (opt_at q b) t i
      <= 11 / 8 * tail3 X kind kw a b n (sl1 cn b) (opt_at q b) m (cut3 a) t i).
  { intros t. assert (C2 : cut2 (set_cut3 a r') = cut2 a).
    { unfold cut2. cbn [a_cutoff set_cut3 c_disp2]. unfold a_cut. destruct (a_cutoff a); cbn [default]; auto. cbn. unfold Q2R; cbn. lra. }
    unfold term_energy, tail3. rewrite C2.
    pose proof (three_body_cutoffs a n c B b d0 m (c9_of X kind kw a b (sl1 cn b) (opt_at q b) t) (radius_of X a b t)
       (eff_s9 (a_param a)) (eff_alp (a_param a)) (cut3 a) r' i Hb Hd HS Hm0 (fun i j => Hap b i j Hb) H9
       ltac:(intros; now apply (wf_c9 p a kind kw n c B b WF Hb)) Hr Hi) as Y. cbv zeta in Y.
    destruct (t_class t); [|exact Y..].
    match goal with |- -2 * 0 <= ?u - ?v <= 11 / 8 * 0 => change u with v end. lra. }
  induction (p_terms p) as [|t ts IH]; cbn [map fold_right]; [lra|]. specialize (G t). cbv zeta in IH. lra.
Qed.
End P.

Print Assumptions C57_two_body_negative.
Print Assumptions C57_D4_bounds.
Print Assumptions C57_three_body_acute.
Print Assumptions C58_two_body_cutoff_error.
Print Assumptions C58_three_body_cutoff_error.

(** ** Examples: water and padded carbon monoxide on a line, and on the axes (all triangles equilateral) *)
From Verif Require Import Inst InstW Usable.
Open Scope R_scope.
Section Ex.
Context {mx : R} (Hm : 1 <= mx).
Notation N := (RN 0 mx).
Notation X := (Xex 0 mx : Ext (sc N)).
Notation W := (Wex 0 mx : World N).

Lemma call_attractive numbers positions n B : attractive (call (eps := 0) (mx := mx) numbers positions) n B.
Proof.
  split; [change (0 <= 39 / 100); lra|]. split; [change (0 < 48 / 10); lra|]. split; [cbn; lra|]. split; [cbn; lra|]. split; [cbn; lra|].
  discriminate.
Qed.
Definition two_body_only : Disp N := with_terms (Pex 0 mx) [mkTerm TwoBodyTerm RationalDamping true].
Definition three_body_only : Disp N := with_terms (Pex 0 mx) [mkTerm D4ATMApprox (ZeroDamping X) false].
Lemma two_body_only_wf : well_formed X W two_body_only mol_call D4M no_kw 3 3 [2%nat].
Proof.
  destruct (mol_wf 0 mx) as ([] & _). constructor; auto.
  - intros _. exists (mkTerm TwoBodyTerm RationalDamping true). split; [left; reflexivity|reflexivity].
  - intros t [<-|[]]. apply usable_rational; [apply pbe_like_good|discriminate|discriminate].
  - intros _ _. apply wf_eeq; [reflexivity|]. eexists. split; [left; reflexivity|reflexivity].
Qed.

Example C57_two_body_example : exists e, run X W two_body_only mol_call = Ok e /\ sl1 e [0%nat] 0 < 0 /\ sl1 e [1%nat] 2 <= 0.
Proof.
  destruct (C57_two_body_negative X W two_body_only mol_call D4M no_kw 3 3 [2%nat] (/ 2) 0) as (e & Ee & _ & He).
  - exact (Xex_tables 0 mx).
  - exact Hm.
  - lra.
  - apply Xex_dist.
  - apply Xex_div.
  - apply Xex_sqrt.
  - exact two_body_only_wf.
  - intros t [<-|[]]. split; reflexivity.
  - discriminate.
  - discriminate.
  - apply sep_mols.
  - unfold cut3. cbn. unfold Q2R; cbn. lra.
  - apply call_attractive.
  - exists e. split; [exact Ee|]. split; [|apply He; [cbn; lia|lia]].
    apply He; [cbn; lia|lia|discriminate|cbn; lra|]. exists 1%nat. split; [lia|]. split; [discriminate|].
    split; [split; cbn; [lia|discriminate]|]. split; [split; cbn; [lia|discriminate]|].
    unfold mol_x. cbn [mol_call call a_positions]. unfold euclid. rewrite line_sqd.
    replace (((INR 0 - INR 1) * 2) ^ 2) with (2 ^ 2) by (cbn; ring). rewrite sqrt_pow2 by lra. unfold cut2. cbn. lra.
Qed.

Example C57_D4_bounds_example : exists e, run X W (Pex 0 mx) mol_call = Ok e /\
  exists L U, L <= sl1 e [0%nat] 0 <= U.
Proof.
  destruct (mol_wf 0 mx) as (WF & _).
  destruct (C57_D4_bounds X W (Pex 0 mx) mol_call D4M no_kw 3 3 [2%nat] (/ 2) 0) as (cn & q & Ecn & Hq & H);
    auto using Xex_dist, Xex_div, Xex_sqrt, sep_mols; try reflexivity; try lra; try discriminate.
  - exact (Xex_tables 0 mx).
  - unfold cut3. cbn. unfold Q2R; cbn. lra.
  - apply call_attractive.
  - cbn. lra.
  - destruct H as (e & Ee & _ & He).
    { intros b Hb. eapply regular_default; eauto using mol_a1, mol_a2; try lra; try discriminate; reflexivity. }
    exists e. split; [exact Ee|]. do 2 eexists. apply He; [cbn; lia|lia].
Qed.

(** atom [i] at distance 5 from the origin on axis [i] *)
Definition corner : tensor (sc N) :=
  mkT [3; 3; 2]%nat (fun ix => match ix with k :: i :: _ => if Nat.eqb k i then 5 else 0 | _ => 0 end).
Lemma corner_sqd b i j : (i < 3)%nat -> (j < 3)%nat -> i <> j -> sqd 3 (sl2 corner b i) (sl2 corner b j) = 50.
Proof.
  intros Hi Hj Nij. unfold sqd, sl2, corner.
  destruct i as [|[|[|i]]]; try lia; destruct j as [|[|[|j]]]; try lia; cbn; ring.
Qed.
Lemma three_body_only_wf : well_formed X W three_body_only (call two_mols corner) D4M no_kw 3 3 [2%nat].
Proof.
  destruct (call_wf 0 mx two_mols corner 3 3 [2%nat]) as ([] & _); auto using two_mols_range. constructor; auto.
  - intros Hq. now elim Hq.
  - intros t [<-|[]]. apply usable_atm; discriminate.
  - intros _ (t & [<-|[]] & E). discriminate.
Qed.
Lemma corner_separated : separated 1 two_mols corner 3 3 [2%nat].
Proof.
  intros b i j Hb Hi Hj R. unfold real_pair in R. destruct (Nat.eqb_spec i j) as [|Nij]; [discriminate|].
  rewrite corner_sqd by auto. lra.
Qed.

Example C57_acute_example : exists e, run X W three_body_only (call two_mols corner) = Ok e /\ 0 <= sl1 e [0%nat] 0.
Proof.
  destruct (C57_three_body_acute X W three_body_only (call two_mols corner) D4M no_kw 3 3 [2%nat] 1 0) as (cn & q & Ecn & Hq & H);
    auto using Xex_dist, Xex_div, Xex_sqrt, three_body_only_wf, corner_separated; try lra.
  - exact (Xex_tables 0 mx).
  - intros t [<-|[]]. split; [discriminate|reflexivity].
  - unfold cut3. cbn. unfold Q2R; cbn. lra.
  - cbn. lra.
  - destruct H as (e & Ee & _ & He).
    { intros b t Hb [<-|[]]. apply (regular_default X W D4M no_kw (call two_mols corner) b 3 [2%nat] 3 three_body_only);
        auto using three_body_only_wf; try lra; try discriminate; [change (0 <= 39 / 100); lra|change (0 < 48 / 10); lra]. }
    exists e. split; [exact Ee|]. apply He; [cbn; lia|lia|]. intros j k Hj Hk R _ _.
    destruct (real_triple_pairs _ _ _ _ R) as (R1 & R2 & R3).
    assert (D : forall i j, (i < 3)%nat -> (j < 3)%nat -> real_pair (mol_z (call two_mols corner) [0%nat]) i j = true ->
       sqd 3 (mol_x (call two_mols corner) [0%nat] i) (mol_x (call two_mols corner) [0%nat] j) = 50).
    { intros i1 j1 Hi1 Hj1 R0. unfold real_pair in R0. destruct (Nat.eqb_spec i1 j1) as [|Nij]; [discriminate|]. now apply corner_sqd. }
    unfold not_obtuse. rewrite !D by (auto; lia). lra.
Qed.

Example C58_example : exists e e', run X W (Pex 0 mx) mol_call = Ok e /\ run X W (Pex 0 mx) (set_cut2 mol_call 100) = Ok e' /\
  0 <= sl1 e [0%nat] 0 - sl1 e' [0%nat] 0.
Proof.
  destruct (mol_wf 0 mx) as (WF & _).
  destruct (C58_two_body_cutoff_error X W (Pex 0 mx) mol_call D4M no_kw 3 3 [2%nat] (/ 2) 0 100) as (cn & q & Ecn & Hq & H);
    auto using Xex_dist, Xex_div, Xex_sqrt, sep_mols; try reflexivity; try lra.
  - exact (Xex_tables 0 mx).
  - intros t [<-|[<-|[]]]; reflexivity.
  - intros t _ _. split; discriminate.
  - unfold cut3. cbn. unfold Q2R; cbn. lra.
  - apply call_attractive.
  - unfold cut2. cbn. lra.
  - destruct H as (e & e' & Ee & Ee' & He).
    { intros b t Hb [<-|[<-|[]]] Hc; [now elim Hc|].
      eapply regular_default; eauto using mol_a1, mol_a2; try lra; try discriminate; reflexivity. }
    exists e, e'. split; [exact Ee|]. split; [exact Ee'|]. apply He; [cbn; lia|lia].
Qed.

Example C58_three_body_example : exists e e' T, run X W (Pex 0 mx) mol_call = Ok e /\ run X W (Pex 0 mx) (set_cut3 mol_call 100) = Ok e' /\
  - 2 * T <= sl1 e' [0%nat] 0 - sl1 e [0%nat] 0 <= 11 / 8 * T.
Proof.
  destruct (mol_wf 0 mx) as (WF & _).
  destruct (C58_three_body_cutoff_error X W (Pex 0 mx) mol_call D4M no_kw 3 3 [2%nat] (/ 2) 0 (sqrt (/ 2)) 100) as (cn & q & Ecn & Hq & H);
    auto using Xex_dist, Xex_div, Xex_sqrt, sep_mols; try reflexivity; try lra.
  - exact (Xex_tables 0 mx).
  - intros t [<-|[<-|[]]]; reflexivity.
  - intros t _ _. split; discriminate.
  - change (0 <= 1). lra.
  - apply sqrt_lt_R0. lra.
  - intros b i j Hb Hi Hj RP. unfold euclid. apply sqrt_le_1_alt. now apply sep_mols.
  - unfold cut3. cbn. unfold Q2R; cbn. lra.
  - destruct H as (e & e' & Ee & Ee' & He).
    { intros b t Hb [<-|[<-|[]]] Hc; [now elim Hc|].
      eapply regular_default; eauto using mol_a1, mol_a2; try lra; try discriminate; reflexivity. }
    eexists e, e', _. split; [exact Ee|]. split; [exact Ee'|]. apply He; [cbn; lia|lia].
Qed.
End Ex.
