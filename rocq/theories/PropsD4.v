(** * The DFT-D4 energy, from the arguments of the call to the formula: C53 *)
From Coq Require Import Reals Lra Lia List Arith ZArith QArith Qreals Bool String.
From Verif Require Import Py Tensor Scalar RInst ModelExt ModelUtils ModelDamping ModelModels ModelTerms ModelDisp
  SpecCall SpecR DataPair DataRef TensorLemmas EinsumLemmas Closed ClosedM ClosedModels ClosedTerms ClosedDamp ClosedDisp
  CallLemmas EnergyR Energy3R Sums PropsTables SpecW WeightsR WeightsP PropsWeights SpecD4 PropsApi SpecMol Inst Usable InstW PropsEnergy.
Import ListNotations.
Open Scope R_scope.

Section S.
Context {eps mx : R}.
Notation N := (RN eps mx).
Notation K := (sc N).
Notation T := (tensor (sc N)).
Context (X : Ext (sc N)) (W : World N).

Lemma get_model_constructed (p : Disp N) numbers kind kw n B m :
  ext_tables X -> model_from X p numbers kind kw -> shp numbers = n :: B -> kw_ok kind kw n B ->
  elements_ok (kw_ref kw) numbers -> get_model X p numbers = Ok m ->
  constructed X kind kw numbers n B m.
Proof.
  intros HX Hm Hs Hk He Em. unfold get_model in Em.
  destruct Hm as [(Ei & Ek & Hc)|(m' & cls & Ei & Hkd & En)]; rewrite Ei in Em.
  - rewrite Ek in Em. destruct Hc as [(Ec & ->)|(Ec & ->)]; rewrite Ec in Em; simpl in Em;
      (split; [exact HX|]); (split; [auto|]); (split; [exact Hs|]); (split; [exact Hk|]); (split; [exact He|]); eauto.
  - injection Em as <-. split; [exact HX|]. split; [exact Hkd|]. split; [exact Hs|]. split; [exact Hk|]. split; [exact He|]. eauto.
Qed.

Lemma r4r2_R z : dat (@R4R2 K) [z] = r4r2_elem z.
Proof.
  change (sqrt (Q2R (1 # 2) * (IZR (nth z r4_over_r2_tab 0%Z) / IZR (Zpos r4_over_r2_tab_dec) * sqrt (Q2R (inject_Z (Z.of_nat z))))) = r4r2_elem z).
  unfold r4r2_elem, r4_over_r2. rewrite Q2R_Z, <- INR_IZR_INZ. unfold Q2R. simpl. do 2 f_equal; lra.
Qed.

Lemma cut2_val (a : Args N) : dat (c_disp2 (a_cut a)) [] = cut2 a.
Proof. unfold a_cut, cut2. destruct (a_cutoff a); [reflexivity|]. cbn. unfold Q2R; cbn; lra. Qed.
Lemma cut3_val (a : Args N) : dat (c_disp3 (a_cut a)) [] = cut3 a.
Proof. unfold a_cut, cut3. destruct (a_cutoff a); [reflexivity|]. cbn. unfold Q2R; cbn; lra. Qed.
Lemma eeq_cut_val (a : Args N) : c_cn_eeq (a_cut a) = eeq_cut a.
Proof. unfold a_cut, eeq_cut. destruct (a_cutoff a); reflexivity. Qed.

Lemma charges_spec (p : Disp N) a qo :
  charges W p (a_numbers a) (a_positions a) (a_charge a) (a_cut a) (a_q a) = Ok qo -> charges_are W p a qo.
Proof.
  unfold charges, charges_are. rewrite eeq_cut_val. destruct (a_q a) as [q|]; [intros E; now injection E|].
  destruct (existsb (@t_cdep N) (p_terms p)) eqn:E.
  - destruct (w_eeq W _ _ _ _) as [q|] eqn:EQ; cbn [bind]; [|discriminate]. intros E'. injection E' as <-.
    split; [eauto|]. intros NC. elim NC. now apply needs_charges_b.
  - intros E'. injection E' as <-. split; [|reflexivity]. intros NC. apply needs_charges_b in NC. congruence.
Qed.

Section R.
Variables (kind : mkind) (kw : mkwargs N) (a : Args N) (n c : nat) (B : list nat) (m : Model N).
Variables (cn : T) (qo : option T) (r4 rv : T) (d0 ds : R).
Hypothesis HC : constructed X kind kw (a_numbers a) n B m.
Hypothesis Hm : 1 <= mx.
Hypothesis Hn : shp (a_numbers a) = n :: B.
Hypothesis Hp : shp (a_positions a) = (c :: n :: B)%nat.
Hypothesis G : good_param (a_param a).
Hypothesis Hd0 : 0 < d0.
Hypothesis HD : dist_contract d0 X.
Hypothesis HV : div_contract X.
Hypothesis HQ : sqrt_contract ds X.
Hypothesis HS : separated d0 (a_numbers a) (a_positions a) n c B.
Hypothesis S2 : shp (c_disp2 (a_cut a)) = [].
Hypothesis S3 : shp (c_disp3 (a_cut a)) = [].
Hypothesis P3 : 0 <= dat (c_disp3 (a_cut a)) [].
Hypothesis Scn : shp cn = n :: B.
Hypothesis Sq : cnq_ok qo (n :: B).
Hypothesis S4 : shp r4 = n :: B.
Hypothesis SV : shp rv = (n :: n :: B)%nat.
Hypothesis V4 : forall b i, valid B b -> (i < n)%nat -> sl1 r4 b i = r4v a b i.
Hypothesis VV : forall b i j, valid B b -> (i < n)%nat -> (j < n)%nat -> sl2 rv b i j = rvv X a b i j.

Lemma eff_some k d : getp (K := K) (a_param a) k <> None -> getp (a_param a) k = Some (default (getp (a_param a) k) d).
Proof. now destruct (getp (a_param a) k). Qed.
Lemma getd_a1 : getd (a_param a) "a1" dA1 = eff_a1 a.
Proof.
  unfold getd, eff_a1, default. change (sc (RN eps mx)) with (RS eps mx).
  destruct (getp (K := RS eps mx) (a_param a) "a1"); [reflexivity|]. cbn. unfold Q2R; cbn; lra.
Qed.
Lemma getd_a2 : getd (a_param a) "a2" dA2 = eff_a2 a.
Proof.
  unfold getd, eff_a2, default. change (sc (RN eps mx)) with (RS eps mx).
  destruct (getp (K := RS eps mx) (a_param a) "a2"); [reflexivity|]. cbn. unfold Q2R; cbn; lra.
Qed.

Notation cnb b := (fun i => sl1 cn b i).
Notation qb b := (fun i => opt_at qo b i).

Lemma r4_mol b i : valid B b -> (i < n)%nat -> sl1 r4 b i = mol_Q a b i.
Proof. intros Hb Hi. rewrite V4 by auto. unfold r4v, mol_Q. destruct (a_r4r2 a); [reflexivity|]. apply r4r2_R. Qed.
Lemma rv_mol b i j : valid B b -> (i < n)%nat -> (j < n)%nat -> sl2 rv b i j = mol_vdw X a b i j.
Proof. intros Hb Hi Hj. rewrite VV by auto. reflexivity. Qed.

Definition tq (t : DispTerm N) : option T := if t_cdep t then qo else None.
Lemma tq_seen (t : DispTerm N) b i : opt_at (tq t) b i = seen (qb b) t i.
Proof. unfold tq, seen. now destruct (t_cdep t). Qed.

Lemma weights_t (t : DispTerm N) : exists gw, weight_references X m (Some cn) (tq t) = Ok gw /\ shp gw = wt_shape kind n B /\
  forall b i j r, valid B b -> (i < n)%nat -> (j < n)%nat -> (r < 7)%nat ->
    wt kind gw b i j r = atom_weight X kind kw a b (cnb b) (seen (qb b) t) i j r.
Proof.
  destruct (weights_run X kind kw (a_numbers a) n B m (Some cn) (tq t) HC) as (gw & E & Sg & V); auto.
  { split; [exact Scn|]. unfold tq. destruct (t_cdep t); [|exact I]. destruct qo; [exact Sq|exact I]. }
  exists gw. split; [exact E|]. split; [exact Sg|]. intros b i j r Hb Hi Hj Hr.
  rewrite V by (auto; split; auto). rewrite tq_seen. reflexivity.
Qed.

Lemma c6_t (t : DispTerm N) gw : shp gw = wt_shape kind n B ->
  (forall b i j r, valid B b -> (i < n)%nat -> (j < n)%nat -> (r < 7)%nat ->
    wt kind gw b i j r = atom_weight X kind kw a b (cnb b) (seen (qb b) t) i j r) ->
  exists c6, get_atomic_c6 m gw = Ok c6 /\ shp c6 = n :: n :: B /\
    forall b i j, valid B b -> (i < n)%nat -> (j < n)%nat ->
      sl2 c6 b i j = c6_coef X kind kw a b (cnb b) (seen (qb b) t) i j.
Proof.
  intros Sg Vg. destruct (c6_run X kind kw (a_numbers a) n B m gw HC Sg) as (c6 & E & S6 & V6).
  exists c6. split; [exact E|]. split; [exact S6|]. intros b i j Hb Hi Hj.
  rewrite V6 by (auto; split; auto). unfold c6_coef. apply c6_pair_ext; intros r Hr; apply Vg; auto.
Qed.

Lemma two_t (t : DispTerm N) : t_class t = TwoBodyTerm -> t_damping t = RationalDamping ->
  getp (a_param a) "a1" <> None -> getp (a_param a) "a2" <> None ->
  returns1 (term_calculate X t (a_numbers a) (a_positions a) (a_param a) cn m qo r4 rv (a_cut a)) n B
    (fun b i => term_energy X kind kw a b n c (cnb b) (qb b) t i).
Proof.
  intros Ec Ed H1 H2. unfold term_calculate. rewrite Ec. fold (tq t).
  destruct (weights_t t) as (gw & -> & Sg & Vg). cbn [bind].
  destruct (c6_t t gw Sg Vg) as (c6 & -> & S6 & V6). cbn [bind]. rewrite Ed.
  destruct (proj1 (disp2_rational X (a_numbers a) (a_positions a) (a_param a) c6 r4 (Some rv)
     (Some (c_disp2 (a_cut a))) n c B Hn Hp S6 S4 S2 G (eff_a1 a) (eff_a2 a) d0 (eff_some _ _ H1) (eff_some _ _ H2) HD HS)) as (e & E & Se & Ve).
  exists e. split; [exact E|]. split; [exact Se|]. intros b i Hb Hi. rewrite Ve by auto.
  unfold term_energy. rewrite Ec. unfold two_body. f_equal. apply rsum_ext. intros j Hj.
  unfold upair. cbn [eff_cut]. rewrite V6, !r4_mol, <- cut2_val by auto. reflexivity.
Qed.

(** the C9 coefficients *)
Lemma c9_t (t : DispTerm N) : t_class t <> TwoBodyTerm -> (t_class t = D4ATMExact -> kind = D4M) ->
  (forall b, valid B b -> regular X kind kw a b n (cnb b) (qb b) ds t) ->
  exists gw c9, weight_references X m (Some cn) (tq t) = Ok gw /\
    match t_class t with
    | D4ATMExact => aiw <- get_weighted_pols X m gw ;; c9_exact aiw
    | _ => c6 <- get_atomic_c6 m gw ;; c9_approx X c6
    end = Ok c9 /\ shp c9 = (n :: n :: n :: B)%nat /\
    forall b i j k, valid B b -> (i < n)%nat -> (j < n)%nat -> (k < n)%nat ->
      real_triple (mol_z a b) i j k = true -> sl3 c9 b i j k = c9_of X kind kw a b (cnb b) (qb b) t i j k.
Proof.
  intros Nt Hk Hreg. destruct (weights_t t) as (gw & Eg & Sg & Vg). exists gw.
  assert (AP : t_class t <> D4ATMExact -> exists c9, (c6 <- get_atomic_c6 m gw ;; c9_approx X c6) = Ok c9 /\
     shp c9 = (n :: n :: n :: B)%nat /\
     forall b i j k, valid B b -> (i < n)%nat -> (j < n)%nat -> (k < n)%nat ->
      real_triple (mol_z a b) i j k = true -> sl3 c9 b i j k = c9_mean X kind kw a b (cnb b) (seen (qb b) t) i j k).
  { intros Ne. destruct (c6_t t gw Sg Vg) as (c6 & -> & S6 & V6). cbn [bind].
    destruct (c9_approx_ev X c6 n B _ (ten_eq c6 _ S6)) as (c9 & -> & S9 & V9).
    exists c9. split; [reflexivity|]. split; [exact S9|]. intros b i j k Hb Hi Hj Hk' Ht.
    destruct (Hreg b Hb) as (_ & Hr). specialize (Hr Ne i j k Hi Hj Hk' Ht).
    unfold sl3. rewrite V9 by (repeat apply valid_cons; auto). cbn [ix3 hd tl].
    change (x_sqrt X (Rabs (sl2 c6 b i j * sl2 c6 b i k * sl2 c6 b j k)) = c9_mean X kind kw a b (cnb b) (seen (qb b) t) i j k).
    rewrite !V6 by auto. rewrite Rabs_right.
    - apply (proj1 HQ). exact Hr.
    - apply Rle_ge.
      assert (NN : forall i j, (i < n)%nat -> (j < n)%nat -> 0 <= c6_coef X kind kw a b (cnb b) (seen (qb b) t) i j).
      { intros i' j' Hi' Hj'. unfold c6_coef. apply c6_pair_nonneg; intros r Hr'; unfold atom_weight; apply weight_nonneg; auto;
          [pose proof (constructed_range X _ _ _ _ _ _ b i' HC (conj Hb Hi'))|pose proof (constructed_range X _ _ _ _ _ _ b j' HC (conj Hb Hj'))];
          unfold mol_z; lia. }
      apply Rmult_le_pos; [apply Rmult_le_pos|]; apply NN; auto. }
  destruct (t_class t) eqn:Ec; [congruence| | |].
  - destruct AP as (c9 & E & S9 & V9); [discriminate|]. exists c9. repeat (split; [assumption|]).
    intros. unfold c9_of. rewrite Ec. now apply V9.
  - specialize (Hk eq_refl). rewrite Hk in *. cbn [wt_shape] in Sg.
    destruct (pols_run X kw (a_numbers a) n B m gw HC Sg) as (pl & -> & Sp & Vp). cbn [bind].
    destruct (C36_c9_exact n B pl Sp) as (c9 & -> & S9 & V9). exists c9. split; [exact Eg|]. split; [reflexivity|]. split; [exact S9|].
    intros b i j k Hb Hi Hj Hk' _. unfold c9_of. rewrite Ec.
    rewrite (proj1 (V9 b i j k (conj Hb Hi) Hj Hk')). unfold c9_integral. f_equal. apply rsum_ext. intros w Hw.
    assert (PA : forall i, (i < n)%nat -> sl2 pl b i w = alpha_atom X D4M kw a b (cnb b) (seen (qb b) t) i w).
    { intros i' Hi'. rewrite Vp by (auto; split; auto). unfold alpha_atom, pol_atom. apply rsum_ext. intros r Hr. f_equal.
      rewrite <- (Vg b i' i' r) by auto. reflexivity. }
    now rewrite !PA by auto.
  - destruct AP as (c9 & E & S9 & V9); [discriminate|]. exists c9. repeat (split; [assumption|]).
    intros. unfold c9_of. rewrite Ec. now apply V9.
Qed.

Lemma radii_t (t : DispTerm N) : t_class t <> TwoBodyTerm ->
  (forall b, valid B b -> regular X kind kw a b n (cnb b) (qb b) ds t) ->
  exists rd, match t_class t with D3ATM => radii_vdw (a_param a) rv | _ => radii_bj X (a_param a) r4 end = Ok rd /\
    shp rd = (n :: n :: B)%nat /\
    forall b i j, valid B b -> (i < n)%nat -> (j < n)%nat -> real_pair (mol_z a b) i j = true ->
      sl2 rd b i j = radius_of X a b t i j /\ 0 < sl2 rd b i j.
Proof.
  intros Nt Hreg.
  assert (BJ : t_class t <> D3ATM -> exists rd, radii_bj X (a_param a) r4 = Ok rd /\ shp rd = (n :: n :: B)%nat /\
    forall b i j, valid B b -> (i < n)%nat -> (j < n)%nat -> real_pair (mol_z a b) i j = true ->
      sl2 rd b i j = bj_radius (eff_a1 a) (eff_a2 a) (mol_Q a b) i j).
  { intros N3.
    destruct (radii_bj_ev X (a_param a) r4 n B (getd (a_param a) "a1" dA1) (getd (a_param a) "a2" dA2) S4) as (rd & E & Sr & Vr).
    { apply (pget_isnum (a_param a) "a1" dA1 G). discriminate. }
    { apply (pget_isnum (a_param a) "a2" dA2 G). discriminate. }
    exists rd. split; [exact E|]. split; [exact Sr|]. intros b i j Hb Hi Hj Hr.
    unfold sl2. rewrite Vr by (repeat apply valid_cons; auto). cbn [ix2 hd tl].
    unfold radbj, qq. rewrite getd_a1, getd_a2.
    change (eff_a1 a * x_sqrt X (Q2R 3 * sl1 r4 b i * sl1 r4 b j) + eff_a2 a = bj_radius (eff_a1 a) (eff_a2 a) (mol_Q a b) i j).
    rewrite Q2R_3, !r4_mol by auto. unfold bj_radius. rewrite (proj1 HQ); [reflexivity|].
    destruct (Hreg b Hb) as (H & _). apply (H i j); auto. }
  destruct (t_class t) eqn:Ec; [congruence| | |].
  - destruct BJ as (rd & E & Sr & Vr); [discriminate|]. exists rd. split; [exact E|]. split; [exact Sr|].
    intros b i j Hb Hi Hj Hr. rewrite Vr by auto. unfold radius_of. rewrite Ec. split; [reflexivity|].
    destruct (Hreg b Hb) as (H & _). destruct (H i j Hi Hj Hr) as (H' & _). unfold radius_of in H'. now rewrite Ec in H'.
  - destruct BJ as (rd & E & Sr & Vr); [discriminate|]. exists rd. split; [exact E|]. split; [exact Sr|].
    intros b i j Hb Hi Hj Hr. rewrite Vr by auto. unfold radius_of. rewrite Ec. split; [reflexivity|].
    destruct (Hreg b Hb) as (H & _). destruct (H i j Hi Hj Hr) as (H' & _). unfold radius_of in H'. now rewrite Ec in H'.
  - destruct (radii_vdw_ev (a_param a) rv _ (getd (a_param a) "rs9" dRS9) SV) as (rd & E & Sr & Vr).
    { apply (pget_isnum (a_param a) "rs9" dRS9 G). discriminate. }
    exists rd. split; [exact E|]. split; [exact Sr|]. intros b i j Hb Hi Hj Hr.
    assert (EV : sl2 rd b i j = eff_rs9 a * mol_vdw X a b i j).
    { unfold sl2. rewrite Vr by (repeat apply valid_cons; auto). rewrite <- (rv_mol b i j) by auto.
      change (getd (a_param a) "rs9" dRS9 * sl2 rv b i j = eff_rs9 a * sl2 rv b i j). f_equal.
      unfold getd, eff_rs9, default. change (sc (RN eps mx)) with (RS eps mx). destruct (getp (K := RS eps mx) (a_param a) "rs9"); [reflexivity|].
      change (Q2R dRS9 = 1). unfold dRS9, Q2R; simpl; lra. }
    rewrite EV. unfold radius_of. rewrite Ec. split; [reflexivity|].
    destruct (Hreg b Hb) as (H & _). destruct (H i j Hi Hj Hr) as (H' & _). unfold radius_of in H'. now rewrite Ec in H'.
Qed.

Lemma atm_t (t : DispTerm N) : t_class t <> TwoBodyTerm -> t_damping t = ZeroDamping X -> (t_class t = D4ATMExact -> kind = D4M) ->
  (forall b, valid B b -> regular X kind kw a b n (cnb b) (qb b) ds t) ->
  returns1 (term_calculate X t (a_numbers a) (a_positions a) (a_param a) cn m qo r4 rv (a_cut a)) n B
    (fun b i => term_energy X kind kw a b n c (cnb b) (qb b) t i).
Proof.
  intros Nt Ed Hk Hreg. destruct (c9_t t Nt Hk Hreg) as (gw & c9 & Eg & E9 & S9 & V9).
  destruct (radii_t t Nt Hreg) as (rd & Er & Sr & Vr).
  assert (EC : term_calculate X t (a_numbers a) (a_positions a) (a_param a) cn m qo r4 rv (a_cut a)
     = get_atm_dispersion X (a_numbers a) (a_positions a) c9 rd (c_disp3 (a_cut a)) (ZeroDamping X)
         (pget (a_param a) "s9" dS9) (pget (a_param a) "alp" dALP)).
  { unfold term_calculate. fold (tq t). destruct (constructed_is X _ _ _ _ _ _ HC) as ((_ & Km & _) & Kd).
    assert (EA : abstract_model m = false) by (unfold abstract_model; rewrite Km; destruct Kd as [->| ->]; reflexivity).
    rewrite Ed. destruct (t_class t); [congruence| | |]; rewrite EA; cbn [raise_if bind]; rewrite Eg; cbn [bind]; rewrite E9; cbn [bind];
      rewrite Er; reflexivity. }
  rewrite EC.
  destruct (atm_R X (a_numbers a) (a_positions a) c9 rd (c_disp3 (a_cut a))
    (pget (a_param a) "s9" dS9) (pget (a_param a) "alp" dALP) n c B (getd (a_param a) "s9" dS9) (getd (a_param a) "alp" dALP) d0)
    as (e & E & Se & Ve); auto.
  { apply (pget_isnum (a_param a) "s9" dS9 G). discriminate. }
  { apply (pget_isnum (a_param a) "alp" dALP G). discriminate. }
  { intros b i j Hb Hi Hj Hr. now apply (Vr b i j). }
  exists e. split; [exact E|]. split; [exact Se|]. intros b i Hb Hi. rewrite Ve by auto.
  assert (ET : term_energy X kind kw a b n c (cnb b) (qb b) t i
     = three_body n c (mol_z a b) (mol_x a b) (c9_of X kind kw a b (cnb b) (qb b) t) (radius_of X a b t)
         (eff_s9 (a_param a)) (eff_alp (a_param a)) (cut3 a) i).
  { unfold term_energy. destruct (t_class t); [congruence|reflexivity..]. }
  rewrite ET. unfold three_body. rewrite <- cut3_val. f_equal. apply rsum_ext. intros j Hj. apply rsum_ext. intros k Hk'.
  unfold triple_in. fold (mol_z a b). destruct (real_triple (mol_z a b) i j k) eqn:ERt; [|reflexivity]. cbn [andb].
  destruct (real_triple_pairs _ _ _ _ ERt) as (R1 & R2 & R3).
  match goal with |- (if ?x then _ else _) = (if ?y then _ else _) => change x with y; destruct y; [|reflexivity] end.
  rewrite V9 by auto. unfold mol_x. f_equal.
  - exact (proj1 (Vr b i j Hb Hi Hj R1)).
  - exact (proj1 (Vr b i k Hb Hi Hk' R2)).
  - exact (proj1 (Vr b j k Hb Hj Hk' R3)).
  - unfold getd, eff_s9, default. change (sc (RN eps mx)) with (RS eps mx).
    destruct (getp (K := RS eps mx) (a_param a) "s9"); [reflexivity|]. cbn. unfold Q2R; cbn; lra.
  - unfold getd, eff_alp, default. change (sc (RN eps mx)) with (RS eps mx).
    destruct (getp (K := RS eps mx) (a_param a) "alp"); [reflexivity|]. cbn. unfold Q2R; cbn; lra.
Qed.
End R.

Lemma sum_terms_R (calc : DispTerm N -> res T) n B (f : DispTerm N -> list nat -> nat -> R) ts :
  (forall t, In t ts -> returns1 (calc t) n B (f t)) ->
  returns1 (sum_terms (mkT (n :: B) (fun _ => f0 (K := K))) ts calc) n B
    (fun b i => fold_right Rplus 0 (map (fun t => f t b i) ts)).
Proof.
  assert (GEN : forall ts (e : T), shp e = n :: B -> (forall t, In t ts -> returns1 (calc t) n B (f t)) ->
    returns1 (sum_terms e ts calc) n B (fun b i => sl1 e b i + fold_right Rplus 0 (map (fun t => f t b i) ts))).
  { clear ts. induction ts as [|t ts IH]; intros e Se H; cbn [sum_terms map fold_right].
    - exists e. split; [reflexivity|]. split; [exact Se|]. intros. lra.
    - destruct (H t (or_introl eq_refl)) as (x & Ex & Sx & Vx). rewrite Ex.
      assert (EA : ev (tadd (Ok e) (Ok x)) (n :: B) (fun i => fadd (s := K) (dat e i) (dat x i))).
      { eapply ev_conv; [eapply (ev_lift2 fadd); [apply ev_t, ten_eq, Se|apply ev_t, ten_eq, Sx|apply bshape_refl]|].
        intros i Hi. cbv beta. now rewrite !(bidx_valid _ i Hi). }
      destruct EA as (e' & EA & Se' & Ve').
      match goal with |- returns1 (bind ?u _) _ _ _ => replace u with (Ok e') by (symmetry; exact EA) end. cbn [bind].
      destruct (IH e' Se') as (y & Ey & Sy & Vy); [intros; apply H; now right|].
      exists y. split; [exact Ey|]. split; [exact Sy|]. intros b i Hb Hi. rewrite Vy by auto.
      unfold sl1 at 1. rewrite Ve' by (apply valid_cons; auto).
      change (sl1 e b i + sl1 x b i + fold_right Rplus 0 (map (fun t => f t b i) ts) = sl1 e b i + (f t b i + fold_right Rplus 0 (map (fun t => f t b i) ts))).
      rewrite Vx by auto. lra. }
  intros H. destruct (GEN ts (mkT (n :: B) (fun _ => f0 (K := K))) eq_refl H) as (e & E & Se & Ve).
  exists e. split; [exact E|]. split; [exact Se|]. intros b i Hb Hi. rewrite Ve by auto.
  unfold sl1. cbn [dat]. change (Q2R 0 + fold_right Rplus 0 (map (fun t => f t b i) ts) = fold_right Rplus 0 (map (fun t => f t b i) ts)).
  rewrite Q2R_0. lra.
Qed.

(** ** C53: the energy returned by [calculate] is the sum of the formulas of its terms *)
Theorem C53_energy_formula :
  forall (p : Disp N) (a : Args N) kind kw n c B d0 ds,
  ext_tables X -> 1 <= mx -> 0 < d0 -> dist_contract d0 X -> div_contract X -> sqrt_contract ds X ->
  well_formed X W p a kind kw n c B ->
  (forall t, In t (p_terms p) -> d4_damped X t) ->
  (forall t, In t (p_terms p) -> t_class t = TwoBodyTerm ->
     getp (a_param a) "a1" <> None /\ getp (a_param a) "a2" <> None) ->
  separated d0 (a_numbers a) (a_positions a) n c B -> 0 <= cut3 a ->
  exists cn q, p_cn_fn p (p_cn_kw p) (a_numbers a) (a_positions a) = Ok cn /\ charges_are W p a q /\
    ((forall b t, valid B b -> In t (p_terms p) -> t_class t <> TwoBodyTerm ->
        regular X kind kw a b n (sl1 cn b) (opt_at q b) ds t) ->
     returns1 (run X W p a) n B
       (fun b => terms_energy X kind kw a b n c (sl1 cn b) (opt_at q b) (p_terms p))).
Proof.
  intros p a kind kw n c B d0 ds HX Hmx Hd0 HD HV HQ WF HT H12 HS P3.
  rewrite <- cut3_val in P3.
  destruct (run_steps_full X W p a kind kw n c B HX WF)
    as (m & cn & qo & r4 & rv & Em & Ecn & Eq & V4 & VV & Him & Scn & Sq & S4 & SV & Run).
  exists cn, qo. split; [exact Ecn|]. split; [now apply charges_spec|]. intros Hreg.
  specialize (Run (a_param a)). replace (set_param a (a_param a)) with a in Run by (destruct a; reflexivity). rewrite Run.
  destruct WF.
  assert (HC : constructed X kind kw (a_numbers a) n B m) by (eapply get_model_constructed; eauto).
  unfold terms_energy. apply (sum_terms_R _ n B (fun t b i => term_energy X kind kw a b n c (sl1 cn b) (opt_at qo b) t i)).
  intros t Ht. specialize (HT t Ht). unfold d4_damped in HT.
  destruct (t_class t) eqn:Ec.
  - destruct (H12 t Ht Ec). apply (two_t kind kw a n c B m cn qo r4 rv d0); auto.
  - apply (atm_t kind kw a n c B m cn qo r4 rv d0 ds); auto; try congruence.
    intros b Hb. apply Hreg; auto. congruence.
  - apply (atm_t kind kw a n c B m cn qo r4 rv d0 ds); auto; try congruence.
    + intros _. destruct (wf_terms t Ht) as (F & HF). unfold term_ok in HF. rewrite Ec in HF. now apply HF.
    + intros b Hb. apply Hreg; auto. congruence.
  - apply (atm_t kind kw a n c B m cn qo r4 rv d0 ds); auto; try congruence.
    intros b Hb. apply Hreg; auto. congruence.
Qed.
End S.
Print Assumptions C53_energy_formula.

(** ** The shipped classes and [dftd4] *)
Section P.
Context {eps mx : R}.
Notation N := (RN eps mx).
Notation K := (sc N).
Notation T := (tensor (sc N)).
Context (X : Ext (sc N)) (W : World N).

(** with an exact square root nothing is asked of the system but positive radii, which non-negative
    [a1] and positive [a2] give *)
Lemma regular_default kind (kw : mkwargs N) (a : Args N) b n B c (p : Disp N) (cn q : nat -> R) ds t :
  well_formed X W p a kind kw n c B -> valid B b -> 1 <= mx ->
  a_r4r2 a = None -> 0 <= eff_a1 a -> 0 < eff_a2 a -> ds <= 0 -> t_class t <> D3ATM ->
  regular X kind kw a b n cn q ds t.
Proof.
  intros WF Hb Hm E4 H1 H2 Hds N3.
  assert (QN : forall i, 0 <= mol_Q a b i) by (intros i; unfold mol_Q; rewrite E4; apply sqrt_pos).
  assert (RG : forall i, (i < n)%nat -> (0 <= mol_z a b i <= 103)%Z).
  { intros i Hi. destruct WF. assert (V : valid (shp (a_numbers a)) (i :: b)) by (rewrite wf_numbers; split; auto).
    unfold mol_z, sl1. destruct wf_elements as [(_ & He)|(_ & He)]; apply He in V; lia. }
  assert (CN : forall i j, (i < n)%nat -> (j < n)%nat -> 0 <= c6_coef X kind kw a b cn (seen q t) i j).
  { intros i j Hi Hj. unfold c6_coef. apply c6_pair_nonneg; intros r Hr; unfold atom_weight; apply weight_nonneg; auto;
      [specialize (RG i Hi)|specialize (RG j Hj)]; lia. }
  split.
  - intros i j Hi Hj _. split.
    + unfold radius_of. assert (P : 0 < bj_radius (eff_a1 a) (eff_a2 a) (mol_Q a b) i j).
      { unfold bj_radius. pose proof (sqrt_pos (3 * mol_Q a b i * mol_Q a b j)). pose proof (Rmult_le_pos _ _ H1 H). lra. }
      destruct (t_class t); auto. congruence.
    + intros _. pose proof (Rmult_le_pos _ _ (QN i) (QN j)). lra.
  - intros _ i j k Hi Hj Hk _. pose proof (CN i j Hi Hj). pose proof (CN i k Hi Hk). pose proof (CN j k Hj Hk).
    apply Rle_trans with 0; [exact Hds|]. apply Rmult_le_pos; [apply Rmult_le_pos|]; auto.
Qed.

(** [DispD4].  The charges exist because the two-body term depends on them. *)
Theorem C53_DispD4 :
  forall (p : Disp N) (a : Args N) kind kw n c B d0 ds,
  ext_tables X -> 1 <= mx -> 0 < d0 -> dist_contract d0 X -> div_contract X -> sqrt_contract ds X ->
  well_formed X W p a kind kw n c B -> p_terms p = terms_d4 X ->
  getp (a_param a) "a1" <> None -> getp (a_param a) "a2" <> None ->
  separated d0 (a_numbers a) (a_positions a) n c B -> 0 <= cut3 a ->
  exists cn q, p_cn_fn p (p_cn_kw p) (a_numbers a) (a_positions a) = Ok cn /\
    charges_are W p a (Some q) /\
    ((forall b, valid B b -> regular X kind kw a b n (sl1 cn b) (sl1 q b) ds (mkTerm D4ATMApprox (ZeroDamping X) false)) ->
     returns1 (run X W p a) n B (fun b => d4_energy X kind kw a b n c (sl1 cn b) (sl1 q b))).
Proof.
  intros p a kind kw n c B d0 ds HX Hm Hd0 HD HV HQ WF HT E1 E2 HS P3.
  destruct (C53_energy_formula X W p a kind kw n c B d0 ds) as (cn & qo & Ecn & Hq & H); auto.
  { rewrite HT. intros t [<-|[<-|[]]]; reflexivity. }
  assert (NC : needs_charges p) by (eexists; rewrite HT; split; [left; reflexivity|reflexivity]).
  assert (exists q, qo = Some q) as (q & ->).
  { unfold charges_are in Hq. destruct (a_q a) as [q'|]; [eauto|]. destruct (proj1 Hq NC) as (t & -> & _). eauto. }
  exists cn, q. split; [exact Ecn|]. split; [exact Hq|]. intros Hr.
  destruct H as (e & Ee & Se & Ve).
  { intros b t Hb Ht Nt. rewrite HT in Ht. destruct Ht as [<-|[<-|[]]]; [now elim Nt|]. exact (Hr b Hb). }
  exists e. split; [exact Ee|]. split; [exact Se|]. intros b i Hb Hi. rewrite Ve by auto. rewrite HT.
  unfold terms_energy, terms_d4. cbn [map fold_right]. rewrite Rplus_0_r. reflexivity.
Qed.

(** [DispD4Exact] *)
Theorem C53_DispD4Exact :
  forall (p : Disp N) (a : Args N) kind kw n c B d0 ds,
  ext_tables X -> 1 <= mx -> 0 < d0 -> dist_contract d0 X -> div_contract X -> sqrt_contract ds X ->
  well_formed X W p a kind kw n c B -> p_terms p = terms_d4_exact X ->
  getp (a_param a) "a1" <> None -> getp (a_param a) "a2" <> None ->
  separated d0 (a_numbers a) (a_positions a) n c B -> 0 <= cut3 a ->
  exists cn q, p_cn_fn p (p_cn_kw p) (a_numbers a) (a_positions a) = Ok cn /\
    charges_are W p a (Some q) /\
    ((forall b, valid B b -> regular X kind kw a b n (sl1 cn b) (sl1 q b) ds (mkTerm D4ATMExact (ZeroDamping X) false)) ->
     returns1 (run X W p a) n B (fun b => d4_exact_energy X kind kw a b n c (sl1 cn b) (sl1 q b))).
Proof.
  intros p a kind kw n c B d0 ds HX Hm Hd0 HD HV HQ WF HT E1 E2 HS P3.
  destruct (C53_energy_formula X W p a kind kw n c B d0 ds) as (cn & qo & Ecn & Hq & H); auto.
  { rewrite HT. intros t [<-|[<-|[]]]; reflexivity. }
  assert (NC : needs_charges p) by (eexists; rewrite HT; split; [left; reflexivity|reflexivity]).
  assert (exists q, qo = Some q) as (q & ->).
  { unfold charges_are in Hq. destruct (a_q a) as [q'|]; [eauto|]. destruct (proj1 Hq NC) as (t & -> & _). eauto. }
  exists cn, q. split; [exact Ecn|]. split; [exact Hq|]. intros Hr.
  destruct H as (e & Ee & Se & Ve).
  { intros b t Hb Ht Nt. rewrite HT in Ht. destruct Ht as [<-|[<-|[]]]; [now elim Nt|]. exact (Hr b Hb). }
  exists e. split; [exact Ee|]. split; [exact Se|]. intros b i Hb Hi. rewrite Ve by auto. rewrite HT.
  unfold terms_energy, terms_d4_exact. cbn [map fold_right]. rewrite Rplus_0_r. reflexivity.
Qed.

(** [dftd4] with its default damping function *)
Theorem C53_dftd4 :
  forall numbers positions charge param model rcov r4r2 rvdw q cutoff cnf cf
         (p : Disp N) kind kw n c B d0 ds,
  let a := mkCall numbers positions charge param cutoff q rcov r4r2 rvdw in
  ext_tables X -> 1 <= mx -> 0 < d0 -> dist_contract d0 X -> div_contract X -> sqrt_contract ds X ->
  DispD4 X W model no_kw (Some cnf) (Some cf) = Ok p ->
  well_formed X W p a kind kw n c B ->
  getp param "a1" <> None -> getp param "a2" <> None ->
  separated d0 numbers positions n c B -> 0 <= cut3 a ->
  exists cn q', cnf (Some cf) numbers positions = Ok cn /\ charges_are W p a (Some q') /\
    ((forall b, valid B b -> regular X kind kw a b n (sl1 cn b) (sl1 q' b) ds (mkTerm D4ATMApprox (ZeroDamping X) false)) ->
     returns1 (dftd4 X W numbers positions charge param model rcov r4r2 rvdw q cutoff cnf cf RationalDamping) n B
       (fun b => d4_energy X kind kw a b n c (sl1 cn b) (sl1 q' b))).
Proof.
  intros numbers positions charge param model rcov r4r2 rvdw q cutoff cnf cf p kind kw n c B d0 ds a
    HX Hm Hd0 HD HV HQ Ep WF E1 E2 HS P3.
  rewrite C46_dftd4_is_DispD4, Ep. cbn [bind].
  assert (EP : p_terms p = terms_d4 X /\ p_cn_fn p = cnf /\ p_cn_kw p = Some cf).
  { unfold DispD4, new_disp in Ep. destruct model as [s|m].
    - destruct (raise_if _ _) in Ep; [|discriminate]. cbn in Ep. injection Ep as <-. auto.
    - cbn in Ep. injection Ep as <-. auto. }
  destruct EP as (HT & Ef & Ek).
  destruct (C53_DispD4 p a kind kw n c B d0 ds) as (cn & q' & Ecn & Hq & H); auto.
  exists cn, q'. split; [|split; [exact Hq|exact H]]. rewrite Ef, Ek in Ecn. exact Ecn.
Qed.
End P.
Print Assumptions C53_DispD4.
Print Assumptions C53_DispD4Exact.
Print Assumptions C53_dftd4.

(** ** Examples: water and padded carbon monoxide *)
Section Ex.
Context {mx : R} (Hm : 1 <= mx).
Notation N := (RN 0 mx).

Lemma sep_mols : separated (/ 2) (a_numbers (mol_call (eps := 0) (mx := mx))) (a_positions (mol_call (eps := 0) (mx := mx))) 3 3 [2%nat].
Proof. apply line_separated. lra. Qed.

Lemma mol_a1 : 0 <= eff_a1 (mol_call (eps := 0) (mx := mx)).
Proof. change (0 <= 39 / 100). lra. Qed.
Lemma mol_a2 : 0 < eff_a2 (mol_call (eps := 0) (mx := mx)).
Proof. change (0 < 48 / 10). lra. Qed.

Example C53_DispD4_example : exists cn q,
  cn_ex (eps := 0) (mx := mx) None two_mols (line 3 [2%nat] 2) = Ok cn /\
  eeq_ex two_mols (line 3 [2%nat] 2) (scal (A := sc N) 0) (scal (A := sc N) (Q2R 25)) = Ok q /\
  returns1 (run (N := N) (Xex 0 mx) (Wex 0 mx) (Pex 0 mx) mol_call) 3 [2%nat]
    (fun b => d4_energy (Xex 0 mx) D4M no_kw mol_call b 3 3 (sl1 cn b) (sl1 q b)).
Proof.
  destruct (mol_wf 0 mx) as (WF & _).
  destruct (C53_DispD4 (Xex 0 mx) (Wex 0 mx) (Pex 0 mx) mol_call D4M no_kw 3 3 [2%nat] (/ 2) 0)
    as (cn & q & Ecn & Hq & H); auto using Xex_dist, Xex_div, Xex_sqrt, sep_mols; try reflexivity; try lra; try discriminate.
  - exact (Xex_tables 0 mx).
  - unfold cut3. cbn. unfold Q2R; cbn. lra.
  - exists cn, q. split; [exact Ecn|]. destruct (proj1 Hq) as (t & E & Et).
    { eexists. split; [left; reflexivity|reflexivity]. }
    injection E as <-. split; [exact Et|]. apply H. intros b Hb.
    eapply regular_default; eauto using mol_a1, mol_a2; try lra; try discriminate; reflexivity.
Qed.

Example C53_DispD4Exact_example : exists cn q,
  cn_ex (eps := 0) (mx := mx) None two_mols (line 3 [2%nat] 2) = Ok cn /\
  eeq_ex two_mols (line 3 [2%nat] 2) (scal (A := sc N) 0) (scal (A := sc N) (Q2R 25)) = Ok q /\
  returns1 (run (N := N) (Xex 0 mx) (Wex 0 mx) (with_terms (Pex 0 mx) (terms_d4_exact (N := N) (Xex 0 mx))) mol_call) 3 [2%nat]
    (fun b => d4_exact_energy (Xex 0 mx) D4M no_kw mol_call b 3 3 (sl1 cn b) (sl1 q b)).
Proof.
  destruct (mol_wf 0 mx) as (WF' & _).
  assert (WF : well_formed (N := N) (Xex 0 mx) (Wex 0 mx) (with_terms (Pex 0 mx) (terms_d4_exact (N := N) (Xex 0 mx)))
     mol_call D4M no_kw 3 3 [2%nat]).
  { destruct WF'. constructor; auto.
    { intros Hq. now elim Hq. }
    { intros t [<-|[<-|[]]].
      - apply usable_rational; [apply pbe_like_good|discriminate|discriminate].
      - apply usable_atm; [discriminate|reflexivity]. }
    intros _ _. apply wf_eeq; [reflexivity|]. eexists. split; [left; reflexivity|reflexivity]. }
  destruct (C53_DispD4Exact (Xex 0 mx) (Wex 0 mx) (with_terms (Pex 0 mx) (terms_d4_exact (N := N) (Xex 0 mx))) mol_call D4M no_kw 3 3 [2%nat] (/ 2) 0)
    as (cn & q & Ecn & Hq & H); auto using Xex_dist, Xex_div, Xex_sqrt, sep_mols; try reflexivity; try lra; try discriminate.
  - exact (Xex_tables 0 mx).
  - unfold cut3. cbn. unfold Q2R; cbn. lra.
  - exists cn, q. split; [exact Ecn|]. destruct (proj1 Hq) as (t & E & Et).
    { eexists. split; [left; reflexivity|reflexivity]. }
    injection E as <-. split; [exact Et|]. apply H. intros b Hb.
    eapply regular_default; eauto using mol_a1, mol_a2; try lra; try discriminate; reflexivity.
Qed.

(** [dftd4], model chosen by name (in any case) *)
Example C53_dftd4_example : exists cn q,
  cn_ex (eps := 0) (mx := mx) (Some (fun x _ => x)) two_mols (line 3 [2%nat] 2) = Ok cn /\
  eeq_ex two_mols (line 3 [2%nat] 2) (scal (A := sc N) 0) (scal (A := sc N) (Q2R 25)) = Ok q /\
  returns1 (dftd4 (N := N) (Xex 0 mx) (Wex 0 mx) two_mols (line 3 [2%nat] 2) (scal (A := sc N) 0) (pbe_like (eps := 0) (mx := mx))
      (MKey "D4S") None None None None None cn_ex (fun x _ => x) RationalDamping) 3 [2%nat]
    (fun b => d4_energy (Xex 0 mx) D4SM no_kw mol_call b 3 3 (sl1 cn b) (sl1 q b)).
Proof.
  destruct (mol_wf 0 mx) as (_ & WF').
  pose (p := mkDisp (N := N) (terms_d4 (N := N) (Xex 0 mx)) cn_ex (Some (fun x _ => x)) "d4s" None no_kw).
  assert (WF : well_formed (N := N) (Xex 0 mx) (Wex 0 mx) p mol_call D4SM no_kw 3 3 [2%nat]).
  { destruct WF'. constructor; auto. }
  destruct (C53_dftd4 (Xex 0 mx) (Wex 0 mx) two_mols (line 3 [2%nat] 2) (scal (A := sc N) 0) (pbe_like (eps := 0) (mx := mx))
    (MKey "D4S") None None None None None cn_ex (fun x _ => x) p D4SM no_kw 3 3 [2%nat] (/ 2) 0)
    as (cn & q & Ecn & Hq & H); auto using Xex_dist, Xex_div, Xex_sqrt, sep_mols; try reflexivity; try lra; try discriminate.
  - exact (Xex_tables 0 mx).
  - unfold cut3. cbn. unfold Q2R; cbn. lra.
  - exists cn, q. split; [exact Ecn|]. destruct (proj1 Hq) as (t & E & Et).
    { eexists. split; [left; reflexivity|reflexivity]. }
    injection E as <-. split; [exact Et|]. apply H. intros b Hb.
    eapply regular_default; eauto using mol_a1, mol_a2; try lra; try discriminate; reflexivity.
Qed.
End Ex.
