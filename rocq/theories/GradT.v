(** * Backward mode with infinities and NaN: the energy in closed form (proof layer) *)
From Coq Require Import Reals Lra Lia List Arith ZArith QArith Qreals Bool String.
From Verif Require Import Py Tensor Scalar RInst AdInst GradInst ModelExt ModelUtils ModelDamping ModelModels
  ModelTerms ModelDisp ModelGrad DataRef DataAlpha SpecCall Spec SpecR SpecW SpecD4 TensorLemmas Closed ClosedM
  ClosedTerms ClosedModels ClosedDamp ClosedDisp CallLemmas PropsOutcome SpecGrad ClosedGrad GradR.
Import ListNotations.
Open Scope R_scope.

Lemma rpow_nonneg x y : 0 < x \/ (x = 0 /\ 1 <= y) -> 0 <= rpow x y.
Proof.
  intros [P|(-> & P)]; unfold rpow.
  - destruct (Rlt_dec 0 x); [|lra]. unfold Rpower. apply Rlt_le, exp_pos.
  - destruct (Rlt_dec 0 0); [lra|]. destruct (Req_EM_T 0 0); [|lra]. destruct (Req_EM_T y 0); lra.
Qed.
Lemma rpow_pos' x y : 0 < x -> 0 < rpow x y.
Proof. intros P. unfold rpow. destruct (Rlt_dec 0 x); [|lra]. unfold Rpower. apply exp_pos. Qed.
Lemma q1 : Q2R 1 = 1. Proof. unfold Q2R; cbn; lra. Qed.
Lemma q6 : Q2R 6 = 6. Proof. unfold Q2R; cbn; lra. Qed.
Lemma q0 : Q2R 0 = 0. Proof. unfold Q2R; cbn; lra. Qed.

Section G.
Context {I : Type} {eps mx : R}.
Notation KG := (GS I eps mx).
Notation KA := (AS (Bwd I) eps mx).
Notation NG := (GN I eps mx).
Notation NA := (AN (Bwd I) eps mx).
Notation B := (Bwd I).
Notation G := (gnum I).
Notation A := (adn (Bwd I)).
Context (XG : Ext KG) (XA : Ext KA) (HE : ext_live XG XA) (Heps : 0 < eps).

Notation lv := (@live I).

Ltac lv1 :=
  lazymatch goal with
  | |- live (fadd _ _) _ => apply live_add
  | |- live (fsub _ _) _ => apply live_sub
  | |- live (fmul _ _) _ => apply live_mul
  | |- live (fopp _) _ => apply live_opp
  | |- live (fexp _) _ => apply live_exp
  | |- live (fabs _) _ => apply live_abs
  | |- live (fpown _ _) _ => apply live_pown
  | |- live (flit _) _ => apply live_lit
  | |- live feps _ => apply live_eps
  | |- live (gsel _ _ _) _ => apply live_sel
  | |- live (x_div _ _ _) _ => apply (el_div _ _ HE)
  | |- live (x_sqrt _ _) _ => apply (el_sqrt _ _ HE)
  end.
Ltac lvs := repeat (first [eassumption | lv1]).

(** ** damping functions *)
Section D.
Context (d r : G) (dA rA : A) (Ld : lv d dA) (Lr : lv r rA).

Lemma l_rat a1 a2 a1A a2A o : lv a1 a1A -> lv a2 a2A -> 0 < fst dA -> root_ok r rA -> (exists k, o = 2 * k)%nat ->
  live (rat_g (K := KG) a1 a2 o d r) (rat_g (K := KA) a1A a2A o dA rA).
Proof.
  intros L1 L2 P Q (k & ->). unfold rat_g. apply live_div; [apply live_lit| |].
  - lvs. now apply live_sqrt.
  - apply Rgt_not_eq. change (0 < fst dA ^ (2 * k) + (fst a1A * sqrt (fst rA) + fst a2A) ^ (2 * k)).
    assert (0 < fst dA ^ (2 * k)) by now apply pow_lt.
    assert (0 <= (fst a1A * sqrt (fst rA) + fst a2A) ^ (2 * k)) by (rewrite pow_mult; apply pow_le, pow2_ge_0). lra.
Qed.
Lemma l_zero_fac rs al rsA alA : lv rs rsA -> lv al alA ->
  0 < fst rsA * fst (x_div XA dA rA) \/ (fst rsA * fst (x_div XA dA rA) = 0 /\ 1 <= fst alA) ->
  live (zero_fac (K := KG) XG rs al d r) (zero_fac (K := KA) XA rsA alA dA rA).
Proof.
  intros L1 L2 P. unfold zero_fac. apply live_div; [apply live_lit| |].
  - lvs. apply live_pow; [lvs|exact L2|exact P].
  - change (Q2R 1 + Q2R 6 * rpow (fst rsA * fst (x_div XA dA rA)) (fst alA) <> 0). rewrite q1, q6.
    pose proof (rpow_nonneg _ _ P). lra.
Qed.
Lemma l_zero rs al rsA alA o : lv rs rsA -> lv al alA -> 0 < fst dA -> 0 < fst rsA -> 0 <= fst rA ->
  live (zero_g (K := KG) XG rs al o false d r) (zero_g (K := KA) XA rsA alA o false dA rA).
Proof.
  intros L1 L2 P P1 P2. unfold zero_g. apply (el_div _ _ HE); [|lvs].
  apply l_zero_fac; auto. left. apply Rmult_lt_0_compat; [exact P1|]. now apply (el_div_pos _ _ HE).
Qed.
Lemma l_mzero rs al bet rsA alA betA o : lv rs rsA -> lv al alA -> lv bet betA -> 0 < fst dA -> 0 < fst rsA -> 0 < fst rA -> 0 <= fst betA ->
  live (mzero_g (K := KG) XG rs al bet o d r) (mzero_g (K := KA) XA rsA alA betA o dA rA).
Proof.
  intros L1 L2 L3 P P1 P2 P3. unfold mzero_g. apply (el_div _ _ HE); [|lvs].
  assert (P4 : 0 < fst rsA * fst rA) by now apply Rmult_lt_0_compat.
  assert (Bs : 0 < fst dA / (fst rsA * fst rA) + fst betA * fst rA).
  { assert (0 < fst dA / (fst rsA * fst rA)) by now apply Rdiv_lt_0_compat.
    assert (0 <= fst betA * fst rA) by (apply Rmult_le_pos; lra). lra. }
  apply live_div; [apply live_lit| |].
  - apply live_add; [apply live_lit|]. apply live_mul; [apply live_lit|]. apply live_pow; [|lvs|left; exact Bs].
    apply live_add; [|lvs]. apply live_div; [exact Ld|lvs|]. apply Rgt_not_eq. exact P4.
  - change (Q2R 1 + Q2R 6 * rpow (fst dA / (fst rsA * fst rA) + fst betA * fst rA) (- fst alA) <> 0). rewrite q1, q6.
    pose proof (rpow_nonneg _ (- fst alA) (or_introl Bs)). lra.
Qed.
Lemma dead_mzero rs al bet o : dead d -> dead r -> dead rs -> dead al -> dead bet -> dead (mzero_g (K := KG) XG rs al bet o d r).
Proof.
  intros. unfold mzero_g. apply (el_div_dead _ _ HE); [|now apply dead_pown].
  apply dead_div; [apply dead_lit|]. apply dead_add; [apply dead_lit|]. apply dead_mul; [apply dead_lit|].
  apply dead_pow; [|now apply dead_opp]. apply dead_add; [|now apply dead_mul]. apply dead_div; [auto|now apply dead_mul].
Qed.
Lemma dead_zero_fac rs al : dead d -> dead r -> dead rs -> dead al -> dead (zero_fac (K := KG) XG rs al d r).
Proof.
  intros. unfold zero_fac. apply dead_div; [apply dead_lit|]. apply dead_add; [apply dead_lit|]. apply dead_mul; [apply dead_lit|].
  apply dead_pow; [|auto]. apply dead_mul; [auto|]. now apply (el_div_dead _ _ HE).
Qed.
Lemma l_op a1 a2 bet a1A a2A betA o : lv a1 a1A -> lv a2 a2A -> lv bet betA -> 0 < fst dA -> root_ok r rA ->
  0 < fst a1A * sqrt (fst rA) + fst a2A ->
  live (op_g (K := KG) a1 a2 bet o d r) (op_g (K := KA) a1A a2A betA o dA rA).
Proof.
  intros L1 L2 L3 P Q PR. unfold op_g. cbv zeta.
  assert (LR : live (fadd (s := KG) (fmul (s := KG) a1 (fsqrt (s := KG) r)) a2) (fadd (s := KA) (fmul (s := KA) a1A (fsqrt (s := KA) rA)) a2A)).
  { lvs. now apply live_sqrt. }
  assert (Lp : live (fpow (s := KG) d bet) (fpow (s := KA) dA betA)) by (apply live_pow; auto).
  apply live_div; [exact Lp| |].
  - apply live_add; apply live_mul; [exact Lp|lvs| |lvs]. apply live_pow; [exact LR|exact L3|left; exact PR].
  - apply Rgt_not_eq. change (0 < rpow (fst dA) (fst betA) * fst dA ^ o + rpow (fst a1A * sqrt (fst rA) + fst a2A) (fst betA) * fst dA ^ o).
    apply Rplus_lt_0_compat; apply Rmult_lt_0_compat; try (now apply rpow_pos'); now apply pow_lt.
Qed.
End D.

(** ** parameters *)
Section P.
Context (param : Param KG) (paramA : Param KA) (HP : forall k, opt_live (getp param k) (getp paramA k)).
Lemma l_getd k q : live (getd (K := KG) param k q) (getd (K := KA) paramA k q).
Proof.
  specialize (HP k). unfold getd, opt_live in *. destruct (getp param k), (getp paramA k); cbn [default]; try contradiction; auto.
  apply live_lit.
Qed.
Lemma active_same o : active (K := KG) param o = active (K := KA) paramA o.
Proof.
  assert (H : forall k, has param k = has paramA k).
  { intros k. specialize (HP k). unfold has, opt_live in *. destruct (getp param k), (getp paramA k); auto; contradiction. }
  unfold active. destruct o as [|[|[|[|[|[|[|[|[|[|[|o]]]]]]]]]]]; auto; now rewrite ?H.
Qed.

Section Two.
Context (n c : nat) (num : nat -> Z) (pos : nat -> nat -> G) (posA : nat -> nat -> A).
Context (Hpos : forall i k, (i < n)%nat -> (k < c)%nat -> live (pos i k) (posA i k)).
Context (Hap : forall i j, (i < n)%nat -> (j < n)%nat -> pmask num i j = true -> 0 < fst (x_dist XA c (posA i) (posA j))).
Notation pd := (pdist_g (N := NG) XG gsel c num pos).
Notation pdA := (pdist_g (N := NA) XA where3 c num posA).

Lemma l_dist i j : (i < n)%nat -> (j < n)%nat -> live (x_dist XG c (pos i) (pos j)) (x_dist XA c (posA i) (posA j)).
Proof. intros Hi Hj. apply (el_dist _ _ HE); intros; now apply Hpos. Qed.
Lemma l_pdist i j : (i < n)%nat -> (j < n)%nat -> live (pd i j) (pdA i j).
Proof. intros Hi Hj. unfold pdist_g. apply live_sel; [now apply l_dist|apply live_eps]. Qed.
Lemma p_pdist i j : (i < n)%nat -> (j < n)%nat -> 0 < fst (pdA i j).
Proof. intros Hi Hj. unfold pdist_g, where3. destruct (pmask num i j) eqn:E; [now apply Hap|exact Heps]. Qed.
Lemma d_pdist i j : (i < n)%nat -> (j < n)%nat -> pmask num i j = false -> dead (pd i j).
Proof. intros Hi Hj E. unfold pdist_g. rewrite E. eapply dead_sel_masked; [now apply l_dist|apply dead_con]. Qed.

(** the damping function at one pair *)
Definition g_live (g : G -> G -> G) (gA : A -> A -> A) (rad : nat -> nat -> G) (radA : nat -> nat -> A) i j : Prop :=
  live (g (pd i j) (rad i j)) (gA (pdA i j) (radA i j)) \/ (pmask num i j = false /\ dead (g (pd i j) (rad i j))).
Lemma l_tfac g gA rad radA cut cutA i j : (i < n)%nat -> (j < n)%nat -> g_live g gA rad radA i j -> lv cut cutA ->
  live (tfac_g (N := NG) XG gsel g c num pos rad cut i j) (tfac_g (N := NA) XA where3 gA c num posA radA cutA i j).
Proof.
  intros Hi Hj H Lc. unfold tfac_g.
  replace (fle (s := sc NG) (pd i j) cut) with (fle (s := KA) (pdA i j) cutA)
    by (symmetry; apply live_le; [now apply l_pdist|exact Lc]).
  destruct H as [H|(E & D)].
  - apply live_sel; [exact H|apply live_lit].
  - rewrite E. cbn [andb]. apply live_sel_dead; [exact D|apply live_lit].
Qed.

Lemma l_e2 c6 c6A rad radA rr rrA cut cutA g6 g8 g6A g8A s6 s8 s6A s8A s10 s10A i : (i < n)%nat ->
  (forall i j, (i < n)%nat -> (j < n)%nat -> live (c6 i j) (c6A i j)) ->
  (forall i, (i < n)%nat -> live (rr i) (rrA i)) -> lv cut cutA ->
  (forall i j, (i < n)%nat -> (j < n)%nat -> g_live g6 g6A rad radA i j) ->
  (forall i j, (i < n)%nat -> (j < n)%nat -> g_live g8 g8A rad radA i j) ->
  lv s6 s6A -> lv s8 s8A ->
  match s10, s10A with
  | Some (x, g), Some (xA, gA) => live x xA /\ forall i j, (i < n)%nat -> (j < n)%nat -> g_live g gA rad radA i j
  | None, None => True
  | _, _ => False
  end ->
  live (e2_atom_g (N := NG) XG gsel n c num pos c6 rad rr cut g6 g8 s6 s8 s10 i)
       (e2_atom_g (N := NA) XA where3 n c num posA c6A radA rrA cutA g6A g8A s6A s8A s10A i).
Proof.
  intros Hi L6 Lr Lc H6 H8 S6 S8 H10.
  assert (LQ : forall j, (j < n)%nat -> live (qq (K := KG) rr i j) (qq (K := KA) rrA i j)).
  { intros j Hj. unfold qq. lvs; auto. }
  assert (E : live
    (fadd (s := KG) (fmul (s := KG) s6 (fsum (K := KG) n (fun j => fmul (s := KG) (c6 i j) (tfac_g (N := NG) XG gsel g6 c num pos rad cut i j))))
                    (fmul (s := KG) s8 (fsum (K := KG) n (fun j => fmul (s := KG) (c8v (K := KG) c6 rr i j) (tfac_g (N := NG) XG gsel g8 c num pos rad cut i j)))))
    (fadd (s := KA) (fmul (s := KA) s6A (fsum (K := KA) n (fun j => fmul (s := KA) (c6A i j) (tfac_g (N := NA) XA where3 g6A c num posA radA cutA i j))))
                    (fmul (s := KA) s8A (fsum (K := KA) n (fun j => fmul (s := KA) (c8v (K := KA) c6A rrA i j) (tfac_g (N := NA) XA where3 g8A c num posA radA cutA i j)))))).
  { apply live_add; apply live_mul; auto; apply live_sum; intros j Hj; apply live_mul; auto using l_tfac.
    unfold c8v. apply live_mul; auto. }
  unfold e2_atom_g. cbv zeta. apply live_mul; [apply live_lit|].
  destruct s10 as [[x g]|], s10A as [[xA gA]|]; try contradiction; auto.
  destruct H10 as (Lx & H10). apply live_add; [exact E|]. apply live_mul; [exact Lx|].
  apply live_sum. intros j Hj. apply live_mul; [|auto using l_tfac].
  unfold c10v. apply live_div; [|apply live_lit|].
  - lvs; auto.
  - change (Q2R 40 <> 0). unfold Q2R; cbn; lra.
Qed.

(** ** three-body energy *)
Notation d2 := (pd2_g (N := NG) XG gsel c num pos).
Notation d2A := (pd2_g (N := NA) XA where3 c num posA).
Lemma l_pd2 i j : (i < n)%nat -> (j < n)%nat -> live (d2 i j) (d2A i j).
Proof.
  intros Hi Hj. unfold pd2_g. apply live_pow; [now apply l_pdist|apply live_lit|]. left. now apply p_pdist.
Qed.
Lemma p_pd2 i j : (i < n)%nat -> (j < n)%nat -> 0 < fst (d2A i j).
Proof. intros Hi Hj. apply rpow_pos'. now apply p_pdist. Qed.
Lemma d_pd2 i j : (i < n)%nat -> (j < n)%nat -> pmask num i j = false -> dead (d2 i j).
Proof. intros. apply dead_pow; [now apply d_pdist|apply dead_lit]. Qed.

Section Tri.
Context (i j k : nat) (Hi : (i < n)%nat) (Hj : (j < n)%nat) (Hk : (k < n)%nat).
Notation r2 := (r2p_g (N := NG) XG gsel c num pos i j k).
Notation r2A := (r2p_g (N := NA) XA where3 c num posA i j k).
Lemma l_r2p : live r2 r2A.
Proof. unfold r2p_g. lvs; now apply l_pd2. Qed.
Lemma p_r2p : 0 < fst r2A.
Proof. apply Rmult_lt_0_compat; [apply Rmult_lt_0_compat|]; now apply p_pd2. Qed.
Lemma l_s2 : live (fsqrt (s := KG) r2) (fsqrt (s := KA) r2A).
Proof. apply live_sqrt; [apply l_r2p|left; apply p_r2p]. Qed.
Lemma p_s2 : 0 < sqrt (fst r2A).
Proof. apply sqrt_lt_R0, p_r2p. Qed.
Lemma l_r3p : live (r3p_g (N := NG) XG gsel c num pos i j k) (r3p_g (N := NA) XA where3 c num posA i j k).
Proof. unfold r3p_g. apply live_sel; [|apply live_eps]. apply live_mul; [apply l_s2|apply l_r2p]. Qed.
Lemma p_r3p : 0 < fst (r3p_g (N := NA) XA where3 c num posA i j k).
Proof.
  unfold r3p_g, where3. destruct (tmask num i j k); [|exact Heps].
  apply Rmult_lt_0_compat; [apply p_s2|apply p_r2p].
Qed.
Lemma l_r5p : live (r5p_g (N := NG) XG gsel c num pos i j k) (r5p_g (N := NA) XA where3 c num posA i j k).
Proof. unfold r5p_g. apply live_sel; [|apply live_eps]. apply live_mul; [apply l_r2p|apply l_r3p]. Qed.
Lemma p_r5p : 0 < fst (r5p_g (N := NA) XA where3 c num posA i j k).
Proof.
  unfold r5p_g, where3 at 1. destruct (tmask num i j k) eqn:E; [|exact Heps].
  apply Rmult_lt_0_compat; [apply p_r2p|apply p_r3p].
Qed.
Lemma l_r1p : live (r1p_g (N := NG) XG gsel c num pos i j k) (r1p_g (N := NA) XA where3 c num posA i j k).
Proof. unfold r1p_g. apply live_sel; [apply l_s2|apply live_lit]. Qed.
Lemma p_r1p : 0 < fst (r1p_g (N := NA) XA where3 c num posA i j k).
Proof. unfold r1p_g, where3. destruct (tmask num i j k); [apply p_s2|]. change (0 < Q2R 1). rewrite q1. lra. Qed.
Lemma d_r1p : tmask num i j k = false -> dead (r1p_g (N := NG) XG gsel c num pos i j k).
Proof. intros E. unfold r1p_g. rewrite E. eapply dead_sel_masked; [apply l_s2|apply dead_lit]. Qed.
Lemma l_sp : live (sp_g (N := NG) XG gsel c num pos i j k) (sp_g (N := NA) XA where3 c num posA i j k).
Proof. unfold sp_g. apply live_sel; [|apply live_lit]. lvs; now apply l_pd2. Qed.
Lemma l_ang cut cutA : lv cut cutA ->
  live (angp_g (N := NG) XG gsel c num pos cut i j k) (angp_g (N := NA) XA where3 c num posA cutA i j k).
Proof.
  intros Lc. unfold angp_g.
  assert (LE : forall x y, (x < n)%nat -> (y < n)%nat -> fle (s := sc NG) (d2 x y) (fmul (s := sc NG) cut cut) = fle (s := sc NA) (d2A x y) (fmul (s := sc NA) cutA cutA)).
  { intros. apply live_le; [now apply l_pd2|now apply live_mul]. }
  rewrite !LE by assumption. apply live_sel; [|apply live_lit]. apply live_add.
  - apply live_div; [|apply l_r5p|apply Rgt_not_eq, p_r5p]. apply live_mul; [apply live_lit|apply l_sp].
  - apply live_div; [apply live_lit|apply l_r3p|apply Rgt_not_eq, p_r3p].
Qed.
(** the damping factor: [zero_fac] with the radius product over the distance product *)
Lemma l_fdp rad radA al alA : lv al alA ->
  (forall x y, (x < n)%nat -> (y < n)%nat -> live (rad x y) (radA x y)) ->
  0 < fst (r0p (K := KA) radA i j k) \/ (0 <= fst (r0p (K := KA) radA i j k) /\ 3 <= fst alA) \/
  (tmask num i j k = false /\ dead (r0p (K := KG) rad i j k) /\ dead al) ->
  live (fdp_g (N := NG) XG gsel c num pos rad (zero_fac (K := KG) XG (flit (s := KG) 1) (fdiv (s := KG) al (flit (s := KG) 3))) i j k)
       (fdp_g (N := NA) XA where3 c num posA radA (zero_fac (K := KA) XA (flit (s := KA) 1) (fdiv (s := KA) alA (flit (s := KA) 3))) i j k).
Proof.
  intros La Lr C. unfold fdp_g.
  assert (q3 : Q2R 3 = 3) by (unfold Q2R; cbn; lra).
  assert (L0 : live (r0p (K := KG) rad i j k) (r0p (K := KA) radA i j k)) by (unfold r0p; lvs; auto).
  assert (La3 : live (fdiv (s := KG) al (flit (s := KG) 3)) (fdiv (s := KA) alA (flit (s := KA) 3))).
  { apply live_div; [exact La|apply live_lit|]. change (Q2R 3 <> 0). lra. }
  pose proof p_r1p as P1.
  assert (V : fst (x_div XA (r0p (K := KA) radA i j k) (r1p_g (N := NA) XA where3 c num posA i j k))
     = fst (r0p (K := KA) radA i j k) / fst (r1p_g (N := NA) XA where3 c num posA i j k)).
  { apply (el_div_value _ _ HE). apply Rgt_not_eq. exact P1. }
  assert (W : 0 <= fst (r0p (K := KA) radA i j k) -> (0 < fst (r0p (K := KA) radA i j k) \/ 3 <= fst alA) ->
    live (zero_fac (K := KG) XG (flit (s := KG) 1) (fdiv (s := KG) al (flit (s := KG) 3)) (r0p (K := KG) rad i j k) (r1p_g (N := NG) XG gsel c num pos i j k))
         (zero_fac (K := KA) XA (flit (s := KA) 1) (fdiv (s := KA) alA (flit (s := KA) 3)) (r0p (K := KA) radA i j k) (r1p_g (N := NA) XA where3 c num posA i j k))).
  { intros P0 P. apply l_zero_fac; [exact L0|apply l_r1p|apply live_lit|exact La3|].
    change (fst (flit (s := KA) 1)) with (Q2R 1). rewrite q1, V, Rmult_1_l.
    change (fst (fdiv (s := KA) alA (flit (s := KA) 3))) with (fst alA / Q2R 3). rewrite q3.
    destruct (Rle_lt_or_eq_dec _ _ P0) as [P0'|P0'].
    - left. now apply Rdiv_lt_0_compat.
    - right. rewrite <- P0'. split; [unfold Rdiv; ring|]. destruct P; lra. }
  destruct C as [C|[(C & C')|(C & D & D')]].
  - apply live_sel; [|apply live_lit]. apply W; [lra|now left].
  - apply live_sel; [|apply live_lit]. apply W; [lra|now right].
  - rewrite C. apply live_sel_dead; [|apply live_lit].
    apply dead_zero_fac; [exact D|now apply d_r1p|apply dead_lit|]. apply dead_div; [exact D'|apply dead_lit].
Qed.
End Tri.

Lemma l_e3 c9 c9A rad radA cut cutA al alA s9 s9A i : (i < n)%nat -> lv al alA -> lv s9 s9A -> lv cut cutA ->
  (forall i j k, (i < n)%nat -> (j < n)%nat -> (k < n)%nat -> live (c9 i j k) (c9A i j k)) ->
  (forall x y, (x < n)%nat -> (y < n)%nat -> live (rad x y) (radA x y)) ->
  (forall i j k, (i < n)%nat -> (j < n)%nat -> (k < n)%nat ->
    0 < fst (r0p (K := KA) radA i j k) \/ (0 <= fst (r0p (K := KA) radA i j k) /\ 3 <= fst alA) \/
    (tmask num i j k = false /\ dead (r0p (K := KG) rad i j k) /\ dead al)) ->
  live (e3_atom_g (N := NG) XG gsel n c num pos c9 rad cut (zero_fac (K := KG) XG (flit (s := KG) 1) (fdiv (s := KG) al (flit (s := KG) 3))) s9 i)
       (e3_atom_g (N := NA) XA where3 n c num posA c9A radA cutA (zero_fac (K := KA) XA (flit (s := KA) 1) (fdiv (s := KA) alA (flit (s := KA) 3))) s9A i).
Proof.
  intros Hi La Ls Lc L9 Lr C. unfold e3_atom_g. apply live_div; [|apply live_lit|].
  - apply live_sum. intros j Hj. apply live_sum. intros k Hk. unfold e3_triple_g.
    apply live_mul; [|now apply L9]. apply live_mul; [|exact Ls]. apply live_mul; [now apply l_ang|]. apply l_fdp; auto.
  - change (Q2R 6 <> 0). rewrite q6. lra.
Qed.
End Two.
End P.
End G.
