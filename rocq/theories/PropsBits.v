(** * Batches and padding, bit for bit in any arithmetic. *)
From Coq Require Import List Arith ZArith QArith Bool String Lia.
From Verif Require Import Py Tensor Scalar ModelExt ModelUtils ModelDamping ModelModels
  ModelTerms ModelDisp SpecCall TensorLemmas Closed ClosedM ClosedTerms ClosedModels ClosedDamp
  ClosedDisp CallLemmas SpecBits.
Import ListNotations.
Open Scope nat_scope.

Section E.
Context {K : Scalar} (X : Ext K).

Lemma pmask_eq (z1 z2 : nat -> Z) n i j : (forall i, i < n -> z1 i = z2 i) -> i < n -> j < n ->
  pmask z1 i j = pmask z2 i j.
Proof. intros H Hi Hj. unfold pmask. now rewrite !H by auto. Qed.

Lemma tmask_eq (z1 z2 : nat -> Z) n i j k : (forall i, i < n -> z1 i = z2 i) ->
  i < n -> j < n -> k < n -> tmask z1 i j k = tmask z2 i j k.
Proof. intros H Hi Hj Hk. unfold tmask. now rewrite !H by auto. Qed.

Section P.
Variables (n c : nat) (z1 z2 : nat -> Z) (x1 x2 : nat -> nat -> K).
Hypothesis Hz : forall i, i < n -> z1 i = z2 i.
Hypothesis Hd : forall i j, i < n -> j < n -> is_real (z1 i) = true -> is_real (z1 j) = true ->
  x_dist X c (x1 i) (x1 j) = x_dist X c (x2 i) (x2 j).

Lemma pdist_eq i j : i < n -> j < n -> pdist X c z1 x1 i j = pdist X c z2 x2 i j.
Proof.
  intros Hi Hj. unfold pdist. rewrite (pmask_eq z1 z2 n) by auto.
  destruct (pmask z2 i j) eqn:E; [|reflexivity].
  unfold pmask in E. apply andb_true_iff in E as (E & _). apply andb_true_iff in E as (Ei & Ej).
  apply Hd; auto; rewrite Hz; auto.
Qed.

Lemma tfac_eq g rad1 rad2 cut i j : (forall i j, i < n -> j < n -> rad1 i j = rad2 i j) ->
  i < n -> j < n -> tfac X g c z1 x1 rad1 cut i j = tfac X g c z2 x2 rad2 cut i j.
Proof.
  intros Hr Hi Hj. unfold tfac. now rewrite (pmask_eq z1 z2 n), pdist_eq, Hr by auto.
Qed.

Lemma e2_eq c6 c6' rad rad' r r' cut g6 g8 s6 s8 s10 i :
  (forall i j, i < n -> j < n -> c6 i j = c6' i j) ->
  (forall i j, i < n -> j < n -> rad i j = rad' i j) ->
  (forall i, i < n -> r i = r' i) -> i < n ->
  e2_atom X n c z1 x1 c6 rad r cut g6 g8 s6 s8 s10 i
  = e2_atom X n c z2 x2 c6' rad' r' cut g6 g8 s6 s8 s10 i.
Proof.
  intros H6 Hrad Hr Hi. unfold e2_atom.
  assert (E : forall g f f', (forall i j, i < n -> j < n -> f i j = f' i j) ->
    fsum n (fun j => fmul (f i j) (tfac X g c z1 x1 rad cut i j))
    = fsum n (fun j => fmul (f' i j) (tfac X g c z2 x2 rad' cut i j))).
  { intros g f f' H. apply fsum_ext. intros j Hj. now rewrite H, (tfac_eq g rad rad') by auto. }
  rewrite (E g6 c6 c6'), (E g8 (c8v c6 r) (c8v c6' r')) by
    (auto; intros; unfold c8v, qq; now rewrite H6, !Hr by auto).
  destruct s10 as [[s10 g10]|]; [|reflexivity].
  rewrite (E g10 (c10v c6 r) (c10v c6' r')) by (intros; unfold c10v, qq; now rewrite H6, !Hr by auto).
  reflexivity.
Qed.

Lemma e3_eq c9 c9' rad rad' cut g s9 i :
  (forall i j k, i < n -> j < n -> k < n -> c9 i j k = c9' i j k) ->
  (forall i j, i < n -> j < n -> rad i j = rad' i j) -> i < n ->
  e3_atom X n c z1 x1 c9 rad cut g s9 i = e3_atom X n c z2 x2 c9' rad' cut g s9 i.
Proof.
  intros H9 Hrad Hi. unfold e3_atom. f_equal. apply fsum_ext. intros j Hj. apply fsum_ext. intros k Hk.
  assert (D : forall i j, i < n -> j < n -> pd2 X c z1 x1 i j = pd2 X c z2 x2 i j).
  { intros. unfold pd2. now rewrite pdist_eq by auto. }
  unfold e3_triple, angp, fdp, sp, r5p, r3p, r2p, r0p.
  now rewrite (tmask_eq z1 z2 n), !D, !Hrad, H9 by auto.
Qed.
End P.
End E.

Section B.
Context {N : Num} (X : Ext (sc N)) (W : World N).
Notation K := (sc N).

Lemma is_real_true z : is_real z = true -> z <> 0%Z.
Proof. unfold is_real. rewrite negb_true_iff, Z.eqb_neq. auto. Qed.

(** Whatever the arithmetic (IEEE single or double precision, exact reals, ...): the energies of a
    molecule do not depend, not even in the last bit, on the other molecules of the batch, on the
    shape of the batch, on its place in it, or on the coordinates of its padding atoms (which may
    be NaN). *)
Theorem C51_molecule_bit_for_bit :
  forall (p1 p2 : Disp N) a1 a2 kind kw n c B1 B2 b1 b2,
  ext_tables X -> dist_local X -> cn_local (p_cn_fn p1 (p_cn_kw p1)) -> eeq_local W ->
  well_formed X W p1 a1 kind kw n c B1 -> well_formed X W p2 a2 kind kw n c B2 ->
  class_wf kind kw -> valid B1 b1 -> valid B2 b2 ->
  same_call n c p1 a1 b1 p2 a2 b2 ->
  exists e1 e2, run X W p1 a1 = Ok e1 /\ run X W p2 a2 = Ok e2 /\
    shp e1 = n :: B1 /\ shp e2 = n :: B2 /\
    forall i, i < n -> sl1 e1 b1 i = sl1 e2 b2 i.
Proof.
  intros p1 p2 a1 a2 kind kw n c B1 B2 b1 b2 HX HD HCN HQ WF1 WF2 HW V1 V2 [T1 T2 T3 T4 T5 T6 T7 T8 T9 T10].
  destruct (terms_funs (a_param a1) kind (p_terms p1) (wf_terms _ _ _ _ _ _ _ _ _ WF1)) as (Fs & HF).
  destruct (run_closed X W p1 a1 kind kw n c B1 Fs HX WF1 HF)
    as (m1 & cn1 & q1 & r1 & v1 & M1 & C1 & SC1 & Q1 & SQ1 & R1 & RV1 & (e1 & E1 & S1 & D1)).
  assert (HF2 : Forall2 (term_ok (a_param a2) kind) (p_terms p2) Fs) by now rewrite <- T4, <- T1.
  destruct (run_closed X W p2 a2 kind kw n c B2 Fs HX WF2 HF2)
    as (m2 & cn2 & q2 & r2 & v2 & M2 & C2 & SC2 & Q2 & SQ2 & R2 & RV2 & (e2 & E2 & S2 & D2)).
  exists e1, e2. repeat (split; [assumption|]).
  assert (EC : a_cut a1 = a_cut a2) by (unfold a_cut; now rewrite T5).
  destruct M1 as (OK1 & K1 & N1 & ga1 & gc1 & rf1 & W1).
  destruct M2 as (OK2 & K2 & N2 & ga2 & gc2 & rf2 & W2).
  destruct (T6) as (Hz & Hx).
  assert (Hcn : forall i, i < n -> sl1 cn1 b1 i = sl1 cn2 b2 i).
  { rewrite <- T2, <- T3 in C2. eapply (HCN n c B1 B2); eauto; try apply WF1; apply WF2. }
  assert (Hq : forall i, i < n -> cnq q1 (i :: b1) = cnq q2 (i :: b2)).
  { intros i Hi. unfold charges in Q1, Q2. unfold same_opt1 in T8. rewrite <- T1, <- EC in Q2.
    destruct (a_q a1) as [u1|], (a_q a2) as [u2|]; try contradiction.
    - injection Q1 as <-. injection Q2 as <-. apply T8; auto.
    - destruct (existsb _ _).
      + destruct (w_eeq W (a_numbers a1) _ _ _) as [u1|] eqn:U1; [|discriminate].
        destruct (w_eeq W (a_numbers a2) _ _ _) as [u2|] eqn:U2; [|discriminate].
        injection Q1 as <-. injection Q2 as <-. simpl.
        eapply (HQ n c B1 B2); eauto; try apply WF1; apply WF2.
      + injection Q1 as <-. injection Q2 as <-. reflexivity. }
  assert (RR : forall i, i < n -> sl1 r1 b1 i = sl1 r2 b2 i).
  { intros i Hi. rewrite R1, R2 by auto. unfold r4v. unfold same_opt1 in T9.
    destruct (a_r4r2 a1), (a_r4r2 a2); try contradiction; auto. now rewrite Hz by auto. }
  assert (RV : forall i j, i < n -> j < n -> sl2 v1 b1 i j = sl2 v2 b2 i j).
  { intros i j Hi Hj. rewrite RV1, RV2 by auto. unfold rvv. unfold same_opt2 in T10.
    destruct (a_rvdw a1), (a_rvdw a2); try contradiction; auto. now rewrite !Hz by auto. }
  assert (WV : forall i j, i < n -> j < n -> wf_of m1 b1 i j = wf_of m2 b2 i j).
  { intros i j Hi Hj. rewrite W1, W2 by auto. unfold wfv. destruct HW as [-> | ->].
    - destruct (k_wf kw); reflexivity.
    - now rewrite !Hz by auto. }
  intros i Hi. rewrite D1, D2 by auto. f_equal. unfold atom_terms. rewrite <- T1.
  apply map_ext. intros [t F]. cbn [fst snd].
  set (qa := if t_cdep t then q1 else None). set (qb := if t_cdep t then q2 else None).
  assert (Hqq : forall i, i < n -> cnq qa (i :: b1) = cnq qb (i :: b2)).
  { unfold qa, qb. destruct (t_cdep t); auto. }
  assert (WT : forall i j r, i < n -> j < n ->
     wt_of X m1 (Some cn1) qa b1 i j r = wt_of X m2 (Some cn2) qb b2 i j r).
  { intros x y r Hx' Hy. unfold wt_of, is_d4s.
    rewrite WV, K1, K2, N1, N2, ga1, ga2, gc1, gc2, rf1, rf2, Hqq, Hz by auto.
    assert (EQ : cnq (Some cn1) (x :: b1) = cnq (Some cn2) (x :: b2)) by (apply Hcn; auto).
    now rewrite EQ. }
  assert (C6 : forall i j, i < n -> j < n -> c6m X m1 (Some cn1) qa b1 i j = c6m X m2 (Some cn2) qb b2 i j).
  { intros x y Hx' Hy. unfold c6m.
    rewrite N1, N2, ga1, ga2, gc1, gc2, rf1, rf2, !Hz by auto.
    apply c6_of_ext; intros; now rewrite WT by auto. }
  assert (C9 : forall cls i j k, i < n -> j < n -> k < n ->
     c9_of X cls m1 (Some cn1) qa n b1 i j k = c9_of X cls m2 (Some cn2) qb n b2 i j k).
  { intros cls x y w Hx' Hy Hw. unfold c9_of, c9a. rewrite !C6 by auto.
    destruct cls; auto. unfold c9x. f_equal. apply fsum_ext. intros f Hf.
    unfold wpm, wpol. rewrite N1, N2, ga1, ga2, gc1, gc2, rf1, rf2, !Hz by auto.
    f_equal; f_equal; [f_equal|]; apply fsum_ext; intros; now rewrite WT by auto. }
  assert (R3 : forall cls i j, i < n -> j < n ->
     rad3_of X cls (a_param a1) (sl1 r1 b1) (sl2 v1 b1) i j
     = rad3_of X cls (a_param a2) (sl1 r2 b2) (sl2 v2 b2) i j).
  { intros cls x y Hx' Hy. unfold rad3_of, radbj, qq. rewrite T4, RV, !RR by auto. reflexivity. }
  assert (DD : forall i j, i < n -> j < n -> is_real (sl1 (a_numbers a1) b1 i) = true ->
     is_real (sl1 (a_numbers a1) b1 j) = true ->
     x_dist X c (sl2 (a_positions a1) b1 i) (sl2 (a_positions a1) b1 j)
     = x_dist X c (sl2 (a_positions a2) b2 i) (sl2 (a_positions a2) b2 j)).
  { intros x y Hx' Hy Rx Ry. apply HD; intros k Hk; apply Hx; auto; now apply is_real_true. }
  unfold term_val. fold qa qb. rewrite EC.
  destruct (t_class t) eqn:ET.
  - rewrite T4. apply e2_eq; auto. intros x y Hx' Hy. unfold rad_of, qq.
    destruct (_ =? _)%string; [apply RV; auto|]. now rewrite !RR by auto.
  - rewrite T4 in *. apply e3_eq; auto.
  - rewrite T4 in *. apply e3_eq; auto.
  - rewrite T4 in *. apply e3_eq; auto.
Qed.

(** *** A molecule computed alone *)

Lemma drop_shape {A} (t : tensor A) s B b : shp t = (s ++ B)%list -> shp (drop_batch (List.length s) b t) = s.
Proof. intros H. unfold drop_batch. cbn [shp]. rewrite H. rewrite firstn_app, Nat.sub_diag, firstn_all. simpl. apply app_nil_r. Qed.

Lemma valid_app s B ix b : valid s ix -> valid B b -> valid (s ++ B) (ix ++ b).
Proof.
  revert ix. induction s as [|d s IH]; intros [|i ix] H1 H2; simpl in *; auto; try contradiction.
  destruct H1. split; auto.
Qed.

Lemma bidx_nil b : bidx [] b = [].
Proof. destruct b; reflexivity. Qed.

(** The single molecule makes a well-formed call whenever the coordination number function and the
    charge model accept it. *)
Lemma alone_well_formed p a kind kw n c B b :
  p_inst p = None -> class_wf kind kw -> valid B b ->
  well_formed X W p a kind kw n c B ->
  (exists cn, p_cn_fn p (p_cn_kw p) (a_numbers (alone b a)) (a_positions (alone b a)) = Ok cn
              /\ shp cn = [n]) ->
  (exists q, w_eeq W (a_numbers (alone b a)) (a_positions (alone b a)) (a_charge (alone b a))
               (c_cn_eeq (a_cut a)) = Ok q /\ shp q = [n]) ->
  well_formed X W p (alone b a) kind kw n c [].
Proof.
  intros Hi Hw V [] Hcn Hq.
  assert (CU : a_cut (alone b a) = a_cut a) by reflexivity.
  constructor; rewrite ?CU; auto.
  - cbn [alone a_numbers]. now apply (drop_shape _ [n] B).
  - cbn [alone a_positions]. now apply (drop_shape _ [c; n] B).
  - cbn [alone a_q]. destruct (a_q a); simpl in *; auto. now rewrite wf_q.
  - cbn [alone a_rcov]. destruct (a_rcov a); simpl in *; auto. now rewrite wf_rcov.
  - cbn [alone a_r4r2]. destruct (a_r4r2 a); simpl in *; auto. now rewrite wf_r4r2.
  - cbn [alone a_rvdw]. destruct (a_rvdw a); simpl in *; auto. now rewrite wf_rvdw.
  - intros H. apply wf_q_used. cbn [alone a_q] in H. destruct (a_q a); [discriminate|]. now elim H.
  - destruct wf_model as [M|(m & cls & M & _)]; [left; exact M|congruence].
  - destruct wf_kw as (Hr & Hk). split; auto. destruct (k_wf kw) eqn:Ek; auto.
    destruct Hw as [-> | Hw]; [exact Hk|congruence].
  - cbn [alone a_numbers]. destruct wf_elements as [(E & H)|(E & H)]; [left|right]; split; auto;
      intros ix Hix; cbn [drop_batch dat]; apply H; change (drop_batch 1) with (@drop_batch Z (List.length [n])) in Hix; rewrite (drop_shape _ [n] B b wf_numbers) in Hix;
      rewrite wf_numbers; exact (valid_app [n] B ix b Hix V).
Qed.

Theorem C51_molecule_alone : forall (p : Disp N) a kind kw n c B b,
  ext_tables X -> dist_local X -> cn_local (p_cn_fn p (p_cn_kw p)) -> eeq_local W ->
  p_inst p = None -> class_wf kind kw -> valid B b ->
  well_formed X W p a kind kw n c B ->
  (exists cn, p_cn_fn p (p_cn_kw p) (a_numbers (alone b a)) (a_positions (alone b a)) = Ok cn
              /\ shp cn = [n]) ->
  (exists q, w_eeq W (a_numbers (alone b a)) (a_positions (alone b a)) (a_charge (alone b a))
               (c_cn_eeq (a_cut a)) = Ok q /\ shp q = [n]) ->
  exists eb e, run X W p a = Ok eb /\ run X W p (alone b a) = Ok e /\
    shp eb = n :: B /\ shp e = [n] /\
    forall i, i < n -> dat e [i] = dat eb (i :: b).
Proof.
  intros p a kind kw n c B b HX HD HCN HQ Hi Hw V WF Ecn Eq.
  pose proof (alone_well_formed p a kind kw n c B b Hi Hw V WF Ecn Eq) as WF'.
  destruct (C51_molecule_bit_for_bit p p a (alone b a) kind kw n c B [] b [])
    as (e1 & e2 & E1 & E2 & S1 & S2 & H); auto.
  - exact I.
  - constructor; auto.
    + split; reflexivity.
    + cbn [alone a_q]. destruct (a_q a); simpl; auto.
    + cbn [alone a_r4r2]. destruct (a_r4r2 a); simpl; auto.
    + cbn [alone a_rvdw]. destruct (a_rvdw a); simpl; auto.
  - exists e1, e2. repeat (split; [assumption|]). intros i Hi'. symmetry. now apply H.
Qed.

(** *** Coordinates of padding atoms *)
Theorem C51_padding_coordinates : forall (p : Disp N) a pos kind kw n c B,
  ext_tables X -> dist_local X -> cn_local (p_cn_fn p (p_cn_kw p)) -> eeq_local W ->
  class_wf kind kw ->
  well_formed X W p a kind kw n c B -> well_formed X W p (set_positions a pos) kind kw n c B ->
  (forall b i k, valid B b -> i < n -> k < c -> sl1 (a_numbers a) b i <> 0%Z ->
     sl2 (a_positions a) b i k = sl2 pos b i k) ->
  exists e1 e2, run X W p a = Ok e1 /\ run X W p (set_positions a pos) = Ok e2 /\
    shp e1 = n :: B /\ shp e2 = n :: B /\
    forall b i, valid B b -> i < n -> sl1 e1 b i = sl1 e2 b i.
Proof.
  intros p a pos kind kw n c B HX HD HCN HQ Hw WF1 WF2 Hpos.
  assert (SC : forall b, valid B b -> same_call n c p a b p (set_positions a pos) b).
  { intros b V. constructor; auto.
    - split; auto.
    - cbn [set_positions a_q]. destruct (a_q a); simpl; auto.
    - cbn [set_positions a_r4r2]. destruct (a_r4r2 a); simpl; auto.
    - cbn [set_positions a_rvdw]. destruct (a_rvdw a); simpl; auto. }
  destruct (terms_funs (a_param a) kind (p_terms p) (wf_terms _ _ _ _ _ _ _ _ _ WF1)) as (Fs & HF).
  destruct (run_closed X W p a kind kw n c B Fs HX WF1 HF)
    as (m1 & cn1 & q1 & r1 & v1 & _ & _ & _ & _ & _ & _ & _ & (e1 & E1 & S1 & _)).
  destruct (run_closed X W p (set_positions a pos) kind kw n c B Fs HX WF2 HF)
    as (m2 & cn2 & q2 & r2 & v2 & _ & _ & _ & _ & _ & _ & _ & (e2 & E2 & S2 & _)).
  exists e1, e2. repeat (split; [assumption|]). intros b i V Hi.
  destruct (C51_molecule_bit_for_bit p p a (set_positions a pos) kind kw n c B B b b)
    as (e1' & e2' & E1' & E2' & _ & _ & H); auto.
  rewrite E1 in E1'. rewrite E2 in E2'. injection E1' as <-. injection E2' as <-. now apply H.
Qed.

End B.
Print Assumptions C51_molecule_bit_for_bit.
Print Assumptions C51_molecule_alone.
Print Assumptions C51_padding_coordinates.
