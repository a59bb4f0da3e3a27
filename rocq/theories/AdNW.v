(** * Nested automatic differentiation of weights and coefficients (proof layer) *)
From Coq Require Import Reals Lra Lia List Arith ZArith QArith Qreals Bool String.
From Verif Require Import Py Tensor Scalar RInst AdInst ModelExt ModelUtils ModelDamping ModelModels
  ModelTerms ModelDisp Spec SpecCall SpecR SpecMol SpecW SpecD4 DataPair Closed ClosedM ClosedModels ClosedDisp CallLemmas
  PropsTables WeightsR WeightsP PropsDiff DiffR SpecADN AdN AdG.
Import ListNotations.
Open Scope R_scope.

Section P.
Context {eps mx : R} {T : Tracking} (L : Laws (eps := eps) (mx := mx) T).
Notation t := (Tp0 T).
Notation P := (TP T).
Notation KR := (RS eps mx).
Notation KA := (sl_sc (TK T)).
Notation NR := (RN eps mx).
Notation NA := (LN T).
Notation trk := (Ttrk T).
Notation fx := (fixedT (T := T)).
Context {d0 ds : R} (X : Ext KR) (XA : Ext KA) (HE : ext_ad T d0 ds X XA).

Lemma y_tab2 n1 n2 d l z r :
  fx (t2 (table2 n1 n2 (fun z => @lit_of d z KR) l) z r) (t2 (table2 n1 n2 (fun z => @lit_of d z KA) l) z r).
Proof. apply (y_lit L). Qed.

Lemma y_zeta ga gaA gam gamA qref qrefA qmod qmodA : fx ga gaA -> fx gam gamA -> fx qref qrefA -> fx qmod qmodA ->
  fx (zeta_s (K := KR) ga gam qref qmod) (zeta_s (K := KA) gaA gamA qrefA qmodA).
Proof.
  intros H1 H2 H3 H4. unfold zeta_s, zscale.
  assert (E : flt (s := KA) (flit 0) qmodA = flt (s := KR) (flit 0) qmod) by (apply (y_lt L); [apply (y_lit L)|exact H4]).
  rewrite E. destruct (flt (s := KR) (flit 0) qmod); [|now apply (y_exp L)].
  apply (y_exp L), (y_mul L); [exact H1|]. apply (y_sub L); [apply (y_lit L)|].
  apply (y_exp L), (y_mul L); [exact H2|]. apply (y_sub L); [apply (y_lit L)|].
  apply (y_div L); [exact H3|]. apply (y_sub L); [exact H4|]. apply (w_eps T L).
Qed.
Lemma y_tabq ref z r : fx (t2 (tab_q (K := KR) ref) z r) (t2 (tab_q (K := KA) ref) z r).
Proof. unfold tab_q. destruct (ref =? "eeq")%string; apply y_tab2. Qed.
Lemma y_tabh ref z r : fx (t2 (tab_h (K := KR) ref) z r) (t2 (tab_h (K := KA) ref) z r).
Proof. unfold tab_h. destruct (ref =? "eeq")%string; apply y_tab2. Qed.
Lemma y_zeff z : fx (t1 (x_zeff X) z) (t1 (x_zeff XA) z).
Proof. apply HE. Qed.
Lemma y_gam z : fx (t1 (x_gam X) z) (t1 (x_gam XA) z).
Proof. apply HE. Qed.

Section Mdl.
Context (ga gc : R) (gaA gcA : F KA) (Hga : fx ga gaA) (Hgc : fx gc gcA).

Lemma y_aref ref z r w : fx (aref (K := KR) X ga gc ref z r w) (aref (K := KA) XA gaA gcA ref z r w).
Proof.
  assert (Z0 : fx (zsec (K := KR) X ga gc ref z r) (zsec (K := KA) XA gaA gcA ref z r)).
  { unfold zsec. destruct (Z.ltb 0 _); [|apply (y_lit L)].
    apply y_zeta; [exact Hga|apply (y_mul L); [apply y_gam|exact Hgc]|apply y_zeff|].
    apply (y_add L); [apply y_tabh|apply y_zeff]. }
  assert (A0 : fx (aref0 (K := KR) X ga gc ref z r w) (aref0 (K := KA) XA gaA gcA ref z r w)).
  { unfold aref0. apply (y_mul L); [apply y_tab2|]. apply (y_sub L); [apply (y_lit L)|].
    apply (y_mul L); [apply y_tab2|]. apply (y_mul L); [|exact Z0].
    apply (y_mul L); apply y_tab2. }
  unfold aref.
  assert (E : flt (s := KA) (flit 0) (aref0 (K := KA) XA gaA gcA ref z r w) = flt (s := KR) (flit 0) (aref0 (K := KR) X ga gc ref z r w)).
  { apply (y_lt L); [apply (y_lit L)|exact A0]. }
  rewrite E. destruct (flt (s := KR) (flit 0) _); [exact A0|apply (y_lit L)].
Qed.
Lemma y_rc6v ref z1 z2 x y : fx (rc6v (K := KR) X ga gc ref z1 z2 x y) (rc6v (K := KA) XA gaA gcA ref z1 z2 x y).
Proof.
  unfold rc6v. apply (y_mul L); [apply (y_div L); apply (y_lit L)|].
  apply (y_sum L). intros w _. apply (y_mul L); [apply (y_mul L)|]; [apply (y_lit L)|apply y_aref..].
Qed.

(** ** weights *)
Lemma r_fold (g : nat -> P -> R) (gA : nat -> F KA) l f d : (forall i, trk (g i) (gA i)) -> trk f d ->
  trk (fun s => fold_left (fun acc i => fadd (s := KR) acc (g i s)) l (f s))
      (fold_left (fun acc i => fadd (s := KA) acc (gA i)) l d).
Proof.
  intros H. revert f d. induction l as [|i l IH]; intros f d Hf; cbn [fold_left]; [exact Hf|].
  apply (IH (fun s => fadd (s := KR) (f s) (g i s))). apply (r_add L); auto.
Qed.
Lemma r_cnref z r : fx (cnref (N := NR) z r) (cnref (N := NA) z r).
Proof. apply y_tab2. Qed.

Section W.
Context (z : Z) (wf : R) (wfA : F KA) (Hwf : fx wf wfA) (cn : P -> R) (cnA : F KA).
Context (Hcn : (exists r, (r < 7)%nat /\ present z r = true) -> trk cn cnA).

Lemma r_dcn r : (r < 7)%nat -> present z r = true -> trk (fun s => dcnv (N := NR) z (cn s) r) (dcnv (N := NA) z cnA r).
Proof. intros Hr P. unfold dcnv. apply (r_sub L); [apply Hcn; eauto|]. apply fixed_tracks, r_cnref. Qed.
Lemma r_tmp4 r : (r < 7)%nat -> present z r = true -> trk (fun s => tmp4 (N := NR) z (cn s) r) (tmp4 (N := NA) z cnA r).
Proof.
  intros Hr P. unfold tmp4. apply (r_exp L), (r_mul L); [apply (r_opp L)|]; now apply r_dcn.
Qed.
Lemma r_expw4 r : (r < 7)%nat -> trk (fun s => expw4 (N := NR) z (cn s) wf r) (expw4 (N := NA) z cnA wfA r).
Proof.
  intros Hr. unfold expw4. destruct (present z r) eqn:P; [|apply (r_lit L)].
  assert (Q : forall n, trk (fun s => pow4 (N := NR) (tmp4 (N := NR) z (cn s) r) wf n) (pow4 (N := NA) (tmp4 (N := NA) z cnA r) wfA n)).
  { intros n. unfold pow4.
    apply (r_fold (fun i s => pw4 (N := NR) (tmp4 (N := NR) z (cn s) r) wf i) (fun i => pw4 (N := NA) (tmp4 (N := NA) z cnA r) wfA i)
             (seq 1 n) (fun _ => flit (s := KR) 0)); [|apply (r_lit L)].
    intros i. unfold pw4. apply (r_powc L (fun s => tmp4 (N := NR) z (cn s) r)); [now apply r_tmp4| |apply exp_pos].
    apply (y_mul L); [apply (y_lit L)|exact Hwf]. }
  destruct (Z.eqb 3 (nref z r)); [apply Q|]. destruct (Z.eqb 1 (nref z r)); [apply Q|]. now apply r_tmp4.
Qed.
Lemma r_expw4s r : (r < 7)%nat -> trk (fun s => expw4s (N := NR) z (cn s) wf r) (expw4s (N := NA) z cnA wfA r).
Proof.
  intros Hr. unfold expw4s. destruct (present z r) eqn:P; [|apply (r_lit L)].
  assert (TT : trk (fun s => tmp4s (N := NR) z (cn s) wf r) (tmp4s (N := NA) z cnA wfA r)).
  { unfold tmp4s. rewrite P. apply (r_exp L), (r_mul L); [|apply fixed_tracks; exact Hwf].
    apply (r_mul L); [apply (r_opp L)|]; now apply r_dcn. }
  assert (Q : forall n, trk (fun s => pow4s (N := NR) (tmp4s (N := NR) z (cn s) wf r) n) (pow4s (N := NA) (tmp4s (N := NA) z cnA wfA r) n)).
  { intros n. unfold pow4s.
    apply (r_fold (fun i s => fpown (s := KR) (tmp4s (N := NR) z (cn s) wf r) i) (fun i => fpown (s := KA) (tmp4s (N := NA) z cnA wfA r) i)
             (seq 1 n) (fun _ => flit (s := KR) 0)); [|apply (r_lit L)].
    intros i. now apply (r_pown L). }
  destruct (Z.eqb 3 (nref z r)); [apply Q|]. destruct (Z.eqb 1 (nref z r)); [apply Q|]. exact TT.
Qed.
End W.

(** the normalised weights, for any unnormalised weights equal to the Gaussian ones *)
Lemma r_gwv z (e : nat -> P -> R) (eA : nat -> F KA) wf (cn : P -> R) r :
  1 <= mx -> (0 <= z <= 103)%Z -> (r < 7)%nat ->
  (forall s r, (r < 7)%nat -> e r s = gauss wf (cn s) (Z.to_nat z) r) ->
  (forall r, (r < 7)%nat -> trk (e r) (eA r)) ->
  trk (fun s => gwv (N := NR) z (fun r => e r s) r) (gwv (N := NA) z eA r).
Proof.
  intros Hm Hz Hr He HA.
  assert (TV : forall s, gwt (N := NR) z (fun r => e r s) r
     = (if (0 <? n_gauss (Z.to_nat z) r)%Z then gauss_weight wf (cn s) (Z.to_nat z) r else 0)).
  { intros s. unfold gwt, normv. rewrite present_n. destruct (0 <? n_gauss (Z.to_nat z) r)%Z eqn:P.
    - change (e r s / @fsum (RS eps mx) 7 (fun r => e r s) = gauss_weight wf (cn s) (Z.to_nat z) r). rewrite fsum_R.
      rewrite (rsum_ext 7 (fun r => e r s) (gauss wf (cn s) (Z.to_nat z))) by auto. rewrite He by auto. reflexivity.
    - change (e r s / Q2R (1 # 10 ^ 300) = 0). rewrite He, gauss_absent by auto. unfold Rdiv. ring. }
  assert (TT : trk (fun s => gwt (N := NR) z (fun r => e r s) r) (gwt (N := NA) z eA r)).
  { unfold gwt, normv. rewrite present_n. destruct (0 <? n_gauss (Z.to_nat z) r)%Z eqn:P.
    - apply (r_div L (e r) (fun s => fsum (K := KR) 7 (fun r => e r s))); [now apply HA|now apply (r_sum L)|].
      change (@fsum (RS eps mx) 7 (fun r => e r t) <> 0). rewrite fsum_R.
      rewrite (rsum_ext 7 (fun r => e r t) (gauss wf (cn t) (Z.to_nat z))) by auto.
      apply Rgt_not_eq, gauss_sum_pos. apply (exists_ref_real _ r); auto; [|lia]. apply Z.ltb_lt in P. exact P.
    - apply (r_div L (e r) (fun _ => flit (s := KR) (1 # 10 ^ 300))); [now apply HA|apply (r_lit L)|].
      change (Q2R (1 # 10 ^ 300) <> 0). unfold Q2R. cbn [Qnum Qden]. apply Rmult_integral_contrapositive_currified; [lra|].
      apply Rinv_neq_0_compat. apply IZR_neq. lia. }
  assert (GV : forall s, gwv (N := NR) z (fun r => e r s) r = gwt (N := NR) z (fun r => e r s) r).
  { intros s. rewrite (gwv_R z (fun r => e r s) wf (cn s) r) by auto. now rewrite TV. }
  apply (tracks_ext L (fun s => gwt (N := NR) z (fun r => e r s) r)); [auto|].
  unfold gwv. replace (exceptional fmaxfin (gwt (N := NA) z eA r)) with false; [exact TT|].
  symmetry. change (fisnan (s := KA) (gwt (N := NA) z eA r) || flt (s := KA) (fmaxfin (s := KA)) (gwt (N := NA) z eA r) = false). rewrite (w_nan T L), (w_lt T L), (tracks_val L _ _ (w_max T L)). cbn [orb].
  rewrite (tracks_val L _ _ TT), TV. apply rltb_false. destruct (0 <? n_gauss (Z.to_nat z) r)%Z eqn:P; [|lra].
  apply Rle_trans with 1; auto. apply gauss_weight_range; auto.
  apply (exists_ref_real _ r); auto; [|lia]. apply Z.ltb_lt in P. exact P.
Qed.

(** charge scaling *)
Lemma r_ztv ref z (q : P -> R) qA r :
  (present z r = true -> (exists q0, (forall s, q s = q0) /\ fx q0 qA) \/ (trk q qA /\ smooth_charge X (Z.to_nat z) (q t))) ->
  trk (fun s => ztv (N := NR) X ga gc ref z (q s) r) (ztv (N := NA) XA gaA gcA ref z qA r).
Proof.
  intros H. unfold ztv. destruct (present z r); [|apply (r_lit L)].
  assert (G : fx (fmul (s := KR) (t1 (x_gam X) z) gc) (fmul (s := KA) (t1 (x_gam XA) z) gcA)).
  { apply (y_mul L); [apply y_gam|exact Hgc]. }
  assert (QR : fx (fadd (s := KR) (t2 (tab_q (K := KR) ref) z r) (t1 (x_zeff X) z)) (fadd (s := KA) (t2 (tab_q (K := KA) ref) z r) (t1 (x_zeff XA) z))).
  { apply (y_add L); [apply y_tabq|apply y_zeff]. }
  destruct (H eq_refl) as [(q0 & E & Hq)|(Hq & N0 & Ne)].
  - apply (tracks_ext L (fun _ => zeta_s (K := KR) ga (fmul (s := KR) (t1 (x_gam X) z) gc)
        (fadd (s := KR) (t2 (tab_q (K := KR) ref) z r) (t1 (x_zeff X) z)) (fadd (s := KR) q0 (t1 (x_zeff X) z)))).
    { intros s. now rewrite E. }
    apply fixed_tracks. apply y_zeta; auto. apply (y_add L); [exact Hq|apply y_zeff].
  - set (qm := fun s => fadd (s := KR) (q s) (t1 (x_zeff X) z)). set (qmA := fadd (s := KA) qA (t1 (x_zeff XA) z)).
    assert (Q : trk qm qmA) by (apply (r_add L); [exact Hq|apply fixed_tracks, y_zeff]).
    set (qr := fadd (s := KR) (t2 (tab_q (K := KR) ref) z r) (t1 (x_zeff X) z)) in *.
    set (gm := fmul (s := KR) (t1 (x_gam X) z) gc) in *.
    unfold zeta_s.
    apply (t_lt L qm (fun s => fexp (s := KR) (fmul (s := KR) ga (fsub (s := KR) (flit (s := KR) 1) (zscale (K := KR) gm qr (qm s))))) (fun _ => fexp (s := KR) ga)
       qmA _ _ (Q2R 0) (flit (s := KA) 0) Q (tracks_val L _ _ (w_lit T L 0))).
    + rewrite Q2R_0. exact N0.
    + unfold zscale. apply (r_exp L), (r_mul L); [now apply fixed_tracks|].
      apply (r_sub L); [apply (r_lit L)|]. apply (r_exp L), (r_mul L); [now apply fixed_tracks|].
      apply (r_sub L); [apply (r_lit L)|]. apply (r_div L); [now apply fixed_tracks| |].
      * apply (r_sub L); [exact Q|apply (r_eps L)].
      * intros E. apply Ne. apply Rminus_diag_uniq. exact E.
    + apply fixed_tracks. now apply (y_exp L).
Qed.
End Mdl.
End P.
