(** * The results of [get_properties]: C61 *)
From Coq Require Import Reals Lra Lia List Arith ZArith QArith Qreals Bool String.
From Verif Require Import Py Tensor Scalar RInst ModelExt ModelUtils ModelDamping ModelModels
  ModelTerms ModelDisp SpecCall SpecR SpecMol SpecProps DataRef TensorLemmas Closed ClosedM ClosedModels CallLemmas
  PropsTables SpecW WeightsR WeightsP PropsWeights PropsC6 Inst InstW PropsMol.
Import ListNotations.
Open Scope R_scope.

Section S.
Context {eps mx : R}.
Notation N := (RN eps mx).
Notation T := (tensor (sc N)).
Context (X : Ext (sc N)) (W : World N).

Lemma elements_of numbers n B : shp numbers = n :: B ->
  (forall b i, valid B b -> (i < n)%nat -> (0 <= sl1 numbers b i <= 103)%Z) ->
  elements_ok "eeq" numbers.
Proof.
  intros H E. left. split; [reflexivity|]. rewrite H. intros [|i b] V; [contradiction|].
  destruct V as (Hi & Hb). now apply E.
Qed.

Theorem C61_formula : forall numbers positions charge cutoff n B cn q,
  ext_tables X -> 1 <= mx -> properties_of W numbers positions charge cutoff n B cn q ->
  exists c6 alpha, get_properties X W numbers positions charge cutoff = Ok (cn, q, c6, alpha) /\
    shp c6 = n :: n :: B /\ shp alpha = n :: B /\
    forall b i j, valid B b -> (i < n)%nat -> (j < n)%nat ->
      sl2 c6 b i j = c6_pair X no_kw (elem numbers b i) (elem numbers b j)
                       (own_weight X numbers cn q b i) (own_weight X numbers cn q b j) /\
      sl1 alpha b i = pol_atom X no_kw (elem numbers b i) (own_weight X numbers cn q b i) 0.
Proof.
  intros * HX Hm [H1 H2 H3 H4 H5 H6].
  assert (HE : elements_ok (kw_ref (eps := eps) (mx := mx) no_kw) numbers) by (eapply elements_of; eauto).
  assert (HK : kw_ok (N := N) D4M no_kw n B) by (split; [reflexivity|exact I]).
  destruct (new_model_ok X D4M (class_name D4M) numbers no_kw n B HX (or_introl eq_refl) H1 HK HE) as (m & Em & _).
  assert (HC : constructed X D4M no_kw numbers n B m)
    by (repeat (split; [solve [assumption|left; reflexivity]|]); eauto).
  assert (HA : atomwise (Some cn) (Some q) n B) by (split; [exact H4|exact H6]).
  destruct (weights_run X _ _ _ _ _ _ _ _ HC HA Hm) as (gw & Ew & Sw & Vw).
  destruct (c6_run X _ _ _ _ _ _ gw HC Sw) as (c6 & E6 & S6 & V6).
  destruct (C35_d4_polarizabilities X _ _ _ _ _ _ _ _ HC HA Hm Ew) as (al & Ea & Sa & Va).
  exists c6, al. split.
  { unfold get_properties. rewrite H3. cbn [bind].
    replace (default charge (scal f0)) with (match charge with Some c => c | None => scal 0 end)
      by (destruct charge; [reflexivity|]; unfold f0; change (flit (s := sc N) 0) with (Q2R 0); now rewrite Q2R_0).
    replace (c_cn_eeq (default cutoff default_cutoff)) with (match cutoff with Some c => c_cn_eeq c | None => scal 25 end).
    2:{ destruct cutoff; [reflexivity|]. cbn [default default_cutoff c_cn_eeq].
        match goal with |- _ = ?x => change x with (scal (Q2R 25)) end. f_equal. unfold Q2R. simpl. lra. }
    rewrite H5. cbn [bind]. rewrite Em. cbn [bind]. rewrite Ew. cbn [bind]. rewrite E6. cbn [bind].
    rewrite Ea. reflexivity. }
  split; [exact S6|]. split; [exact Sa|]. intros b i j Hb Hi Hj.
  assert (V : forall k r, (k < n)%nat -> (r < 7)%nat -> sl2 gw b k r = own_weight X numbers cn q b k r).
  { intros k r Hk Hr. exact (Vw b k k r (conj Hb Hk) Hk Hr). }
  split.
  - rewrite V6 by (auto; split; auto). cbn [wt]. apply c6_pair_ext; intros r Hr; apply V; auto.
  - destruct (Va b i (conj Hb Hi)) as (-> & _). unfold pol_atom. apply rsum_ext. intros r Hr. now rewrite V.
Qed.

Lemma own_weight_pad numbers cn q b i r : sl1 numbers b i = 0%Z -> (r < 7)%nat -> own_weight X numbers cn q b i r = 0.
Proof.
  intros E Hr. unfold own_weight, weight. unfold elem. rewrite E. change (Z.to_nat 0) with 0%nat.
  destruct (0 <? n_gauss 0 r)%Z eqn:F; [|reflexivity].
  exfalso. apply (C38_padding_has_no_references r Hr). unfold exists_ref. now apply Z.ltb_lt in F.
Qed.

(** The C6 coefficients are symmetric, not negative, satisfy the Cauchy-Schwarz inequality, and
    are zero for padding; the polarizabilities are not negative and zero for padding.  Both are
    positive for real atoms (cerium excepted). *)
Theorem C61_signs : forall numbers positions charge cutoff n B cn q cn' q' c6 alpha,
  ext_tables X -> 1 <= mx -> properties_of W numbers positions charge cutoff n B cn q ->
  get_properties X W numbers positions charge cutoff = Ok (cn', q', c6, alpha) ->
  cn' = cn /\ q' = q /\
  forall b i j, valid B b -> (i < n)%nat -> (j < n)%nat ->
    sl2 c6 b i j = sl2 c6 b j i /\ 0 <= sl2 c6 b i j /\ 0 <= sl1 alpha b i /\
    sl2 c6 b i j ^ 2 <= sl2 c6 b i i * sl2 c6 b j j /\
    (sl1 numbers b i = 0%Z -> sl2 c6 b i j = 0 /\ sl1 alpha b i = 0) /\
    (sl1 numbers b i <> 0%Z -> sl1 numbers b i <> 58%Z ->
       0 < sl1 alpha b i /\
       (sl1 numbers b j <> 0%Z -> sl1 numbers b j <> 58%Z -> 0 < sl2 c6 b i j)).
Proof.
  intros * HX Hm HP E.
  destruct (C61_formula _ _ _ _ _ _ _ _ HX Hm HP) as (c & a & E' & _ & _ & V).
  rewrite E in E'. injection E' as -> -> -> ->. split; [reflexivity|]. split; [reflexivity|].
  intros b i j Hb Hi Hj. set (w := own_weight X numbers cn q b).
  assert (R : forall k, (k < n)%nat -> (0 <= sl1 numbers b k <= 103)%Z) by (intros; now apply (pr_elements W _ _ _ _ _ _ _ _ HP)).
  assert (WN : forall k r, (k < n)%nat -> (r < 7)%nat -> 0 <= w k r).
  { intros k r Hk Hr. apply weight_nonneg; auto. specialize (R k Hk). unfold elem. lia. }
  assert (PP : forall k wi, (k < n)%nat -> (wi < 23)%nat -> 0 <= pol_atom X no_kw (elem numbers b k) (w k) wi).
  { intros k wi Hk Hw. apply rsum_nonneg. intros r Hr. apply Rmult_le_pos; [|apply pol_ref_nonneg]. now apply WN. }
  assert (C : forall i j, (i < n)%nat -> (j < n)%nat -> sl2 c b i j = casimir (pol_atom X no_kw (elem numbers b i) (w i)) (pol_atom X no_kw (elem numbers b j) (w j))).
  { intros i' j' Hi' Hj'. destruct (V b i' j' Hb Hi' Hj') as (-> & _). apply c6_pair_casimir. }
  destruct (V b i j Hb Hi Hj) as (F1 & F2).
  destruct (C48_bilinear (pol_atom X no_kw (elem numbers b i) (w i)) (fun _ => 0)
              (pol_atom X no_kw (elem numbers b j) (w j)) 0 0) as (_ & B2 & B3 & B4 & B5).
  rewrite !C by auto.
  split. { unfold casimir. f_equal. apply rsum_ext. intros. ring. }
  split. { rewrite <- C, F1 by auto. apply c6_pair_nonneg; intros r Hr; now apply WN. }
  split. { rewrite F2. apply PP; [exact Hi|lia]. }
  split. { exact B4. }
  split.
  - intros Z0. split.
    + rewrite <- C, F1 by auto. apply c6_pair_0. intros r Hr. now apply own_weight_pad.
    + rewrite F2. apply rsum_0. intros r Hr. rewrite own_weight_pad; auto. ring.
  - intros Ni Ci.
    assert (Ez : forall k, (k < n)%nat -> sl1 numbers b k <> 0%Z -> sl1 numbers b k <> 58%Z ->
        (1 <= elem numbers b k <= 103)%nat /\ elem numbers b k <> 58%nat).
    { intros k Hk N0 N58. specialize (R k Hk). unfold elem. lia. }
    destruct (Ez i Hi Ni Ci) as (Ri & Qi). split.
    + rewrite F2. apply (pol_atom_pos X no_kw (elem numbers b i) (fun _ => 6) (fun _ => sl1 cn b i) (fun _ => sl1 q b i) 0); auto. lia.
    + intros Nj Cj. destruct (Ez j Hj Nj Cj) as (Rj & Qj). rewrite <- C, F1 by auto.
      apply (c6_pair_pos X no_kw (elem numbers b i) (elem numbers b j) 6 (sl1 cn b i) (sl1 q b i) 6 (sl1 cn b j) (sl1 q b j)); auto.
Qed.

(** Two calls that contain the same molecule (in any order of the atoms, padded and batched in
    any way, moved in any way) give it the same properties. *)
Theorem C61_same_molecule :
  forall numbers1 positions1 charge1 n1 B1 b1 cn1 q1 numbers2 positions2 charge2 n2 B2 b2 cn2 q2 cutoff c s,
  ext_tables X -> 1 <= mx -> cn_contract (w_cn_d4 W None) -> eeq_contract W ->
  properties_of W numbers1 positions1 charge1 cutoff n1 B1 cn1 q1 -> shp positions1 = (c :: n1 :: B1)%nat -> valid B1 b1 ->
  properties_of W numbers2 positions2 charge2 cutoff n2 B2 cn2 q2 -> shp positions2 = (c :: n2 :: B2)%nat -> valid B2 b2 ->
  same_molecule c n1 n2 s numbers1 positions1 b1 numbers2 positions2 b2 ->
  match charge1 with Some t => mol_charge t b1 | None => 0 end
  = match charge2 with Some t => mol_charge t b2 | None => 0 end ->
  exists c61 c62 alpha1 alpha2,
    get_properties X W numbers1 positions1 charge1 cutoff = Ok (cn1, q1, c61, alpha1) /\
    get_properties X W numbers2 positions2 charge2 cutoff = Ok (cn2, q2, c62, alpha2) /\
    forall i j, (i < n1)%nat -> (j < n1)%nat -> real_atom numbers1 b1 i -> real_atom numbers1 b1 j ->
      sl1 cn2 b2 (s i) = sl1 cn1 b1 i /\ sl1 q2 b2 (s i) = sl1 q1 b1 i /\
      sl1 alpha2 b2 (s i) = sl1 alpha1 b1 i /\ sl2 c62 b2 (s i) (s j) = sl2 c61 b1 i j.
Proof.
  intros * HX Hm HCN HQ P1 S1 V1 P2 S2 V2 SM EC.
  destruct (C61_formula _ _ _ _ _ _ _ _ HX Hm P1) as (c61 & al1 & E1 & _ & _ & F1).
  destruct (C61_formula _ _ _ _ _ _ _ _ HX Hm P2) as (c62 & al2 & E2 & _ & _ & F2).
  exists c61, c62, al1, al2. split; [exact E1|]. split; [exact E2|].
  assert (EC' : mol_charge (match charge1 with Some t => t | None => scal (A := sc N) 0 end) b1
              = mol_charge (match charge2 with Some t => t | None => scal (A := sc N) 0 end) b2).
  { destruct charge1, charge2; exact EC. }
  destruct P1 as [A1 A2 A3 A4 A5 A6], P2 as [D1 D2 D3 D4 D5 D6].
  assert (C : forall i, (i < n1)%nat -> real_atom numbers1 b1 i ->
     (s i < n2)%nat /\ sl1 cn2 b2 (s i) = sl1 cn1 b1 i /\ sl1 q2 b2 (s i) = sl1 q1 b1 i /\ elem numbers2 b2 (s i) = elem numbers1 b1 i).
  { intros i Hi Ri. destruct (em_num _ _ _ _ _ _ _ _ _ _ (proj1 SM) i Hi Ri) as (L & Ez).
    split; [exact L|]. split; [|split].
    - exact (HCN c n1 n2 B1 B2 numbers1 positions1 b1 numbers2 positions2 b2 s cn1 cn2 A1 S1 V1 D1 S2 V2 SM A3 D3 i Hi Ri).
    - exact (HQ c n1 n2 B1 B2 numbers1 positions1 b1 numbers2 positions2 b2 s _ _ _ q1 q2 A1 S1 V1 D1 S2 V2 SM EC' A5 D5 i Hi Ri).
    - unfold elem. now rewrite Ez. }
  intros i j Hi Hj Ri Rj.
  destruct (C i Hi Ri) as (Li & Ci & Qi & Zi), (C j Hj Rj) as (Lj & Cj & Qj & Zj).
  destruct (F1 b1 i j V1 Hi Hj) as (G1 & H1). destruct (F2 b2 (s i) (s j) V2 Li Lj) as (G2 & H2).
  split; [exact Ci|]. split; [exact Qi|]. rewrite G1, G2, H1, H2. unfold own_weight. rewrite Zi, Zj, Ci, Cj, Qi, Qj.
  split; reflexivity.
Qed.

(** *** The three cases users rely on: padding and batching, order of the atoms, rigid motions *)
Lemma batched_same c n1 n2 s numbers1 (positions1 : T) b1 numbers2 (positions2 : T) b2 :
  (forall i j, (i < j)%nat -> (j < n1)%nat -> (s i < s j)%nat) ->
  (forall i, (i < n1)%nat -> (s i < n2)%nat) ->
  (forall i, (i < n1)%nat -> sl1 numbers2 b2 (s i) = sl1 numbers1 b1 i) ->
  (forall i k, (i < n1)%nat -> (k < c)%nat -> sl2 positions2 b2 (s i) k = sl2 positions1 b1 i k) ->
  (forall k, (k < n2)%nat -> (forall i, (i < n1)%nat -> s i <> k) -> sl1 numbers2 b2 k = 0%Z) ->
  same_molecule c n1 n2 s numbers1 positions1 b1 numbers2 positions2 b2.
Proof.
  intros Hinc Hlt Hnum Hpos Hpad. split; [split|].
  - intros i Hi _. split; auto.
  - intros i j Hi Hj _ _ E. destruct (Nat.lt_trichotomy i j) as [L|[L|L]]; auto.
    + specialize (Hinc i j L Hj). lia.
    + specialize (Hinc j i L Hi). lia.
  - intros i j Hi Hj _ _. unfold sqd. apply rsum_ext. intros k Hk. now rewrite !Hpos.
  - intros k Hk Rk.
    destruct (existsb (fun i => Nat.eqb (s i) k) (seq 0 n1)) eqn:E.
    + apply existsb_exists in E as (i & Hi & E). apply in_seq in Hi. apply Nat.eqb_eq in E.
      exists i. split; [lia|]. split; [|exact E]. unfold real_atom in *. rewrite <- E, Hnum in Rk by lia. auto.
    + exfalso. apply Rk. apply Hpad; auto. intros i Hi Es.
      assert (Y : existsb (fun i => Nat.eqb (s i) k) (seq 0 n1) = true); [|congruence].
      apply existsb_exists. exists i. split; [apply in_seq; lia|]. now apply Nat.eqb_eq.
Qed.

Theorem C61_rigid_motion :
  forall numbers positions positions' charge cutoff n B c cn q cn' q' O v,
  ext_tables X -> 1 <= mx -> cn_contract (w_cn_d4 W None) -> eeq_contract W ->
  shp positions = (c :: n :: B)%nat -> shp positions' = (c :: n :: B)%nat ->
  properties_of W numbers positions charge cutoff n B cn q ->
  properties_of W numbers positions' charge cutoff n B cn' q' ->
  (forall b, valid B b -> orthogonal c (O b)) ->
  (forall b i k, valid B b -> (i < n)%nat -> (k < c)%nat ->
     sl2 positions' b i k = rigid c (O b) (v b) (sl2 positions b i) k) ->
  exists c6 c6' alpha alpha',
    get_properties X W numbers positions charge cutoff = Ok (cn, q, c6, alpha) /\
    get_properties X W numbers positions' charge cutoff = Ok (cn', q', c6', alpha') /\
    forall b i j, valid B b -> (i < n)%nat -> (j < n)%nat ->
      sl1 alpha' b i = sl1 alpha b i /\ sl2 c6' b i j = sl2 c6 b i j.
Proof.
  intros * HX Hm HCN HQ S1 S2 P1 P2 HO Hpos.
  destruct (C61_formula _ _ _ _ _ _ _ _ HX Hm P1) as (c6 & al & E1 & _).
  destruct (C61_formula _ _ _ _ _ _ _ _ HX Hm P2) as (c6' & al' & E2 & _).
  exists c6, c6', al, al'. split; [exact E1|]. split; [exact E2|]. intros b i j Hb Hi Hj.
  destruct (C61_same_molecule _ _ _ _ _ b _ _ _ _ charge _ _ b _ _ cutoff c (fun i => i)
     HX Hm HCN HQ P1 S1 Hb P2 S2 Hb) as (c61 & c62 & a1 & a2 & G1 & G2 & F).
  { split; [split|]; auto.
    - intros x y Hx Hy _ _. rewrite <- (rigid_sqd c (O b) (v b) (sl2 positions b x)) by auto.
      unfold sqd. apply rsum_ext. intros k Hk. now rewrite !Hpos.
    - intros k Hk Rk. exists k. auto. }
  { reflexivity. }
  rewrite E1 in G1. rewrite E2 in G2. injection G1 as <- <-. injection G2 as <- <-.
  destruct (C61_signs _ _ _ _ _ _ _ _ _ _ _ _ HX Hm P1 E1) as (_ & _ & Q1).
  destruct (C61_signs _ _ _ _ _ _ _ _ _ _ _ _ HX Hm P2 E2) as (_ & _ & Q2).
  destruct (Z.eq_dec (sl1 numbers b i) 0) as [Zi|Zi].
  { destruct (Q1 b i j Hb Hi Hj) as (_ & _ & _ & _ & Q1' & _). destruct (Q2 b i j Hb Hi Hj) as (_ & _ & _ & _ & Q2' & _).
    destruct (Q1' Zi) as (-> & ->). destruct (Q2' Zi) as (-> & ->). auto. }
  destruct (Z.eq_dec (sl1 numbers b j) 0) as [Zj|Zj].
  { split; [apply (F i i Hi Hi Zi Zi)|].
    destruct (Q1 b i j Hb Hi Hj) as (-> & _). destruct (Q2 b i j Hb Hi Hj) as (-> & _).
    destruct (Q1 b j i Hb Hj Hi) as (_ & _ & _ & _ & Q1' & _). destruct (Q2 b j i Hb Hj Hi) as (_ & _ & _ & _ & Q2' & _).
    destruct (Q1' Zj) as (-> & _). destruct (Q2' Zj) as (-> & _). auto. }
  destruct (F i j Hi Hj Zi Zj) as (_ & _ & ? & ?). auto.
Qed.
End S.

(** ** The hypotheses can be met: a batch of two molecules, one of them padded; the padded one alone *)
Example C61_example eps mx :
  (exists cn q, properties_of (eps := eps) (mx := mx) (Wex eps mx) two_mols (line 3 [2%nat] 2) None None 3 [2%nat] cn q) /\
  (exists cn q, properties_of (eps := eps) (mx := mx) (Wex eps mx) co (line 2 [] 2) None None 2 [] cn q) /\
  same_molecule (eps := eps) (mx := mx) 3 2 3 (fun i => i) co (line 2 [] 2) [] two_mols (line 3 [2%nat] 2) [1%nat] /\
  cn_contract (w_cn_d4 (Wex eps mx) None) /\ eeq_contract (Wex eps mx) /\
  sl1 two_mols [1%nat] 0 = 6%Z /\ sl1 two_mols [1%nat] 2 = 0%Z.
Proof.
  assert (P : forall numbers n B, shp numbers = n :: B ->
    (forall b i, valid B b -> (i < n)%nat -> (0 <= sl1 numbers b i <= 103)%Z) ->
    exists cn q, properties_of (eps := eps) (mx := mx) (Wex eps mx) numbers (line n B 2) None None n B cn q).
  { intros numbers n B Hn He.
    destruct (cn_ex_ok (eps := eps) (mx := mx) None numbers (line n B 2) 3 n B Hn eq_refl) as (cn & Ecn & Scn).
    exists cn. eexists. split; [exact Hn|exact He|exact Ecn|exact Scn| |].
    - cbn [w_eeq Wex]. unfold eeq_ex. rewrite Ecn. cbn [rmap]. reflexivity.
    - exact Scn. }
  split. { apply P; [reflexivity|]. intros b i Hb Hi. apply (two_mols_range (i :: b)). split; [exact Hi|exact Hb]. }
  split. { apply P; [reflexivity|]. intros [|] i Hb Hi; [|contradiction]. unfold sl1, co. cbn [dat]. destruct i; lia. }
  split. { apply batched_same; auto.
    - intros [|[|i]] Hi; [reflexivity|reflexivity|lia].
    - intros [|[|[|k]]] Hk H; [|exfalso; now apply (H 1%nat); auto|reflexivity|lia].
      exfalso; now apply (H 0%nat); auto. }
  split; [apply cn_ex_contract|]. split; [apply eeq_ex_contract|]. split; reflexivity.
Qed.

Print Assumptions C61_formula.
Print Assumptions C61_signs.
Print Assumptions C61_same_molecule.
Print Assumptions C61_rigid_motion.
