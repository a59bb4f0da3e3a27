(** * C6 coefficients of real atoms are strictly positive: C31 *)
From Coq Require Import Reals Lra Lia List Arith ZArith QArith Qreals Bool String.
From Verif Require Import Py Tensor Scalar RInst ModelExt ModelUtils ModelModels SpecCall SpecR
  DataRef TensorLemmas Closed ClosedM ClosedModels CallLemmas PropsTables SpecW WeightsR WeightsP PropsWeights
  ModelDamping ModelTerms ModelDisp SpecD4.
Import ListNotations.
Open Scope R_scope.

Definition scount_int (z r : nat) : Z := nth r (nth z refscount_tab []) 0%Z.
Definition ascale_int (z r : nat) : Z := nth r (nth z refascale_tab []) 0%Z.

(** every element but cerium has an existing reference that consists of the element alone *)
Lemma own_reference : forall z, (1 <= z <= 103)%nat -> z <> 58%nat -> exists r, (r < 7)%nat /\ exists_ref z r /\
  scount_int z r = 0%Z /\ (0 < ascale_int z r)%Z /\ forall w, (w < 23)%nat -> (0 < al_int z r w)%Z.
Proof.
  assert (H : forallb (fun z => (S z =? 58)%nat || existsb (fun r => (0 <? n_gauss (S z) r)%Z &&
     (scount_int (S z) r =? 0)%Z && (0 <? ascale_int (S z) r)%Z && forallb (fun w => (0 <? al_int (S z) r w)%Z) (seq 0 23))
     (seq 0 7)) (seq 0 103) = true) by (vm_compute; reflexivity).
  intros z Hz Ne. destruct z as [|z]; [lia|]. rewrite forallb_seq in H. specialize (H z ltac:(lia)).
  apply orb_true_iff in H as [H|H]; [apply Nat.eqb_eq in H; contradiction|].
  apply existsb_exists in H as (r & Hr & H). apply in_seq in Hr.
  apply andb_true_iff in H as [H H4]. apply andb_true_iff in H as [H H3]. apply andb_true_iff in H as [H1 H2].
  rewrite forallb_seq in H4. exists r. split; [lia|]. split; [now apply Z.ltb_lt|].
  split; [now apply Z.eqb_eq|]. split; [now apply Z.ltb_lt|]. intros w Hw. apply H4 in Hw. now apply Z.ltb_lt.
Qed.

Section S.
Context {eps mx : R}.
Notation N := (RN eps mx).
Notation T := (tensor (sc N)).
Context (X : Ext (sc N)).

Lemma pol_ref_own kw z : (1 <= z <= 103)%nat -> z <> 58%nat -> exists r, (r < 7)%nat /\ exists_ref z r /\
  forall w, (w < 23)%nat -> 0 < pol_ref X kw z r w.
Proof.
  intros Hz Ne. destruct (own_reference z Hz Ne) as (r & Hr & E & S0 & A & P). exists r. split; [exact Hr|]. split; [exact E|].
  intros w Hw. unfold pol_ref. apply Rlt_le_trans with (2 := Rmax_r _ _).
  assert (Z0 : secondary X kw z r w = 0).
  { unfold secondary. destruct (0 <? sys_ref z r)%Z; [|reflexivity].
    replace (dat (@refscount (RS 0 0)) [r; z]) with 0; [ring|].
    change (0 = IZR (scount_int z r) / IZR (Zpos refscount_tab_dec)). rewrite S0. symmetry. apply frac_0. }
  rewrite Z0, Rminus_0_r. apply Rmult_lt_0_compat.
  - change (0 < IZR (ascale_int z r) / IZR (Zpos refascale_tab_dec)). apply Rdiv_lt_0_compat; apply IZR_lt; [exact A|reflexivity].
  - rewrite alpha_ref_int. apply Rdiv_lt_0_compat; apply IZR_lt; [now apply P|reflexivity].
Qed.

Lemma weight_pos kw wf z r cn q : (z <= 103)%nat -> (r < 7)%nat -> exists_ref z r -> 0 < weight X kw wf z r cn q.
Proof.
  intros Hz Hr E. unfold weight. destruct (Z.ltb_spec 0 (n_gauss z r)); [|unfold exists_ref in E; lia].
  apply Rmult_lt_0_compat; [apply zeta_fun_pos|]. apply Rdiv_lt_0_compat; [now apply gauss_pos|].
  apply gauss_sum_pos. now apply (exists_ref_real z r).
Qed.

Lemma pol_atom_pos kw z wf cn q w : (1 <= z <= 103)%nat -> z <> 58%nat -> (w < 23)%nat ->
  0 < pol_atom X kw z (fun r => weight X kw (wf r) z r (cn r) (q r)) w.
Proof.
  intros Hz Ne Hw. destruct (pol_ref_own kw z Hz Ne) as (r & Hr & E & P). unfold pol_atom.
  apply (rsum_pos _ _ r); auto.
  - intros s Hs. apply Rmult_le_pos; [apply weight_nonneg; auto; lia|apply pol_ref_nonneg].
  - apply Rmult_lt_0_compat; auto. apply weight_pos; auto. lia.
Qed.

Lemma c6_pair_pos kw z1 z2 wf1 cn1 q1 wf2 cn2 q2 :
  (1 <= z1 <= 103)%nat -> z1 <> 58%nat -> (1 <= z2 <= 103)%nat -> z2 <> 58%nat ->
  0 < c6_pair X kw z1 z2 (fun r => weight X kw wf1 z1 r cn1 q1) (fun r => weight X kw wf2 z2 r cn2 q2).
Proof.
  intros H1 N1 H2 N2. rewrite c6_pair_casimir. unfold casimir. apply Rmult_lt_0_compat; [apply three_over_pi_pos|].
  apply (rsum_pos _ _ 0); [|lia|].
  - intros w Hw. apply Rmult_le_pos; [apply Rmult_le_pos; [now apply Rlt_le, quad_weight_pos|]|];
      apply Rlt_le; [apply (pol_atom_pos kw z1 (fun _ => wf1) (fun _ => cn1) (fun _ => q1))|
                     apply (pol_atom_pos kw z2 (fun _ => wf2) (fun _ => cn2) (fun _ => q2))]; auto.
  - apply Rmult_lt_0_compat; [apply Rmult_lt_0_compat; [apply quad_weight_pos; lia|]|];
      [apply (pol_atom_pos kw z1 (fun _ => wf1) (fun _ => cn1) (fun _ => q1))|
       apply (pol_atom_pos kw z2 (fun _ => wf2) (fun _ => cn2) (fun _ => q2))]; auto; lia.
Qed.

(** For any coordination numbers and charges, the C6 coefficient of two real atoms, neither of
    them cerium, is strictly positive. *)
Theorem C31_c6_positive kind kw numbers n B m (cn q : option T) gw c6 b i j :
  constructed X kind kw numbers n B m -> atomwise cn q n B -> 1 <= mx ->
  weight_references X m cn q = Ok gw -> get_atomic_c6 m gw = Ok c6 ->
  a_real_atom numbers n B b i -> a_real_atom numbers n B b j ->
  sl1 numbers b i <> 58%Z -> sl1 numbers b j <> 58%Z ->
  0 < sl2 c6 b i j.
Proof.
  intros HC Ha Hm E E6 (Hi & Pi) ((Hb & Hj) & Pj) Ni Nj.
  destruct (weights_of X kind kw numbers n B m cn q gw HC Ha Hm E) as (Sg & V).
  rewrite (C31_c6_formula X kind kw numbers n B m gw c6 b i j HC Sg E6 Hi Hj).
  assert (Hj' : an_atom n B b j) by (split; auto).
  pose proof (constructed_range X _ _ _ _ _ _ b i HC Hi) as Ri.
  pose proof (constructed_range X _ _ _ _ _ _ b j HC Hj') as Rj.
  rewrite (c6_pair_ext X kw _ _ _ _
    (fun r => weight X kw (kw_wf kind kw numbers b i j) (elem numbers b i) r (opt_at cn b i) (opt_at q b i))
    (fun r => weight X kw (kw_wf kind kw numbers b j i) (elem numbers b j) r (opt_at cn b j) (opt_at q b j))).
  - apply c6_pair_pos; unfold elem; lia.
  - intros r Hr. apply (V b i j r); auto.
  - intros r Hr. apply (V b j i r); auto. apply Hi.
Qed.

(** the coefficients of the energy formula *)
Lemma c6_coef_pos kind kw a b cn q i j :
  (1 <= sl1 (a_numbers a) b i <= 103)%Z -> sl1 (a_numbers a) b i <> 58%Z ->
  (1 <= sl1 (a_numbers a) b j <= 103)%Z -> sl1 (a_numbers a) b j <> 58%Z ->
  0 < c6_coef X kind kw a b cn q i j.
Proof. intros. apply c6_pair_pos; unfold mol_z; lia. Qed.
End S.

(** carbon and oxygen of the second molecule of [two_mols] *)
From Verif Require Import InstW InstD Inst.
Example C31_c6_positive_example eps mx : 1 <= mx ->
  exists m gw c6, weight_references (N := RN eps mx) (Xex eps mx) m (Some (cn3 eps mx)) (Some (q3 eps mx)) = Ok gw /\
    get_atomic_c6 m gw = Ok c6 /\ 0 < sl2 c6 [1%nat] 0 1.
Proof.
  intros Hm. destruct (C26_example eps mx D4SM no_kw) as (m & gw & c6 & HC & Ha & E & E6 & _ & _ & R0 & _); auto.
  exists m, gw, c6. split; [exact E|]. split; [exact E6|].
  apply (C31_c6_positive (Xex eps mx) D4SM no_kw two_mols 3 [2%nat] m _ _ gw c6 [1%nat] 0 1 HC Ha Hm E E6 R0); try discriminate.
  split; [split; [apply R0|lia]|reflexivity].
Qed.
Print Assumptions C31_c6_positive.
