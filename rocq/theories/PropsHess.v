(** * Translations and rotations in the computed Hessian (C71) *)
From Coq Require Import Reals Lra Lia List Arith ZArith QArith Qreals Bool String FunctionalExtensionality.
From Verif Require Import Py Tensor Scalar RInst AdInst AdN ModelExt ModelUtils ModelDamping ModelModels
  ModelTerms ModelDisp Spec SpecCall SpecR SpecMol SpecW SpecD4 TensorLemmas Closed ClosedM
  ClosedTerms ClosedModels ClosedDamp ClosedDisp CallLemmas EnergyR Sums PropsOutcome PropsDiff SpecADN AdG PropsADN PropsMol PropsAD.
From Verif Require SpecAD AdR PropsForce.
Import ListNotations.
Open Scope R_scope.

(** ** Specification *)
Section S.
Context {eps mx : R}.
Notation NR := (RN eps mx).
Notation J := (list nat).
Notation K1 := (Grad1 eps mx J).
Notation K2 := (Grad2 eps mx J).
Notation NA := (LN K2).
Notation eqJ := (list_eq_dec Nat.eq_dec).

(** every coordinate is a leaf of its own, of both passes; coordinate [k] of atom [i] of molecule [b]
    has the index [k :: i :: b] *)
Definition as_leaves2 (x : tensor R) : tensor K2 :=
  mkT (shp x) (fun ix => ((dat x ix, fun g j => if eqJ ix j then g else 0),
                          fun g j => if eqJ ix j then g else flit (s := K1) 0)).

(** *** reading the first pass along a direction
    [w i k] is the velocity of coordinate [k] of atom [i] of molecule [b], and [G i k j] its derivative
    by the leaf [j] *)
Record reading : Type := mkReading { rd_n : nat; rd_c : nat; rd_b : list nat;
  rd_w : nat -> nat -> R; rd_G : nat -> nat -> J -> R; rd_j : J }.
Definition comb (r : reading) (v : J -> K1) : K1 :=
  (rsum (rd_n r) (fun i => rsum (rd_c r) (fun k => rd_w r i k * fst (v (k :: i :: rd_b r)%list))),
   fun h j => rsum (rd_n r) (fun i => rsum (rd_c r) (fun k =>
     rd_w r i k * snd (v (k :: i :: rd_b r)%list) h j + h * fst (v (k :: i :: rd_b r)%list) * rd_G r i k j))).
(** the first pass is read along the direction, the second for the leaf [rd_j r] *)
Definition Tread (r : reading) : Tracking :=
  let T := Tb1 eps mx (rd_j r) 0 in
  Tnext T (BwdK T J) (fun u D => forall g gA, Ttrk T g gA -> Ttrk T (fun p => g p * D p) (comb r (u gA))) 0.

(** the geometry depends on two parameters, and the leaves carry its derivatives at 0 *)
Record moves2 (r : reading) (path : R -> R -> tensor R) (x : tensor R) (n c : nat) (B : list nat) : Prop := mkMoves2 {
  m2_at : path 0 0 = x;
  m2_shape : forall s1 s2, shp (path s1 s2) = (c :: n :: B)%list;
  m2_der : forall b i k, valid B b -> (i < n)%nat -> (k < c)%nat ->
    Ttrk (Tread r) (two (fun s1 s2 => sl2 (path s1 s2) b i k)) (sl2 (as_leaves2 x) b i k) }.

(** [aA] is the call [a] with the coordinates as leaves, everything else constant; the external
    functions accept every geometry and carry derivatives along, however the derivatives are read *)
Record hess_call (X : Ext (RS eps mx)) (XA : Ext K2) (W : World NR) (WA : World NA) (p : Disp NR) (pA : Disp NA)
  (a : Args NR) (aA : Args NA) kind (kw : mkwargs NR) (kwA : mkwargs NA) (n c : nat) (B : list nat) (d0 ds : R) : Prop := mkHessCall {
  hc_tables : ext_tables X /\ ext_tables XA;
  hc_pos : 0 < d0 /\ 0 <= ds /\ 0 <= cut3 a;
  hc_contracts : dist_contract d0 X /\ div_contract X /\ sqrt_contract ds X;
  hc_ext : forall r, ext_ad (Tread r) d0 ds X XA;
  hc_terms : forall r, Forall2 (term_ad (Tread r) X XA) (p_terms p) (p_terms pA);
  hc_kw : forall r, kw_ad (Tread r) kw kwA;
  hc_numbers : a_numbers aA = a_numbers a;
  hc_positions : a_positions aA = as_leaves2 (a_positions a);
  hc_param : forall r k, opt_fixed (Tread r) (getp (a_param a) k) (getp (a_param aA) k);
  hc_r4r2 : forall r, opt_fixed_t (Tread r) (a_r4r2 a) (a_r4r2 aA);
  hc_rvdw : forall r, opt_fixed_t (Tread r) (a_rvdw a) (a_rvdw aA);
  hc_cut2 : dat (c_disp2 (a_cut a)) [] = fst (fst (dat (c_disp2 (a_cut aA)) []));
  hc_cut3 : dat (c_disp3 (a_cut a)) [] = fst (fst (dat (c_disp3 (a_cut aA)) []));
  hc_wf : forall x, shp x = (c :: n :: B)%list -> well_formed (N := NR) X W p (with_positions a x) kind kw n c B;
  hc_wfA : well_formed (N := NA) XA WA pA aA kind kwA n c B;
  hc_cn : forall r path cn cnA b, moves2 r path (a_positions a) n c B ->
    (forall s1 s2, p_cn_fn p (p_cn_kw p) (a_numbers a) (path s1 s2) = Ok (cn s1 s2)) ->
    p_cn_fn pA (p_cn_kw pA) (a_numbers aA) (a_positions aA) = Ok cnA ->
    valid B b -> trk_atoms (Tread r) (a_numbers a) n b (fun t => sl1 (two cn t) b) (sl1 cnA b);
  hc_q : forall r path q qA b, moves2 r path (a_positions a) n c B ->
    (forall s1 s2, charges_are W p (with_positions a (path s1 s2)) (q s1 s2)) ->
    charges_are WA pA aA qA ->
    valid B b -> trk_atoms (Tread r) (a_numbers a) n b (fun t => opt_at (eps := eps) (mx := mx) (two q t) b) (opt_atA (Tread r) qA b) }.
End S.

Section P.
Context {eps mx : R}.
Notation NR := (RN eps mx).
Notation J := (list nat).
Notation K1 := (Grad1 eps mx J).
Notation K2 := (Grad2 eps mx J).
Notation NA := (LN K2).
Notation eqJ := (list_eq_dec Nat.eq_dec).
Notation TR r := (Tread (eps := eps) (mx := mx) r).
Notation T1 j := (Tb1 eps mx j 0).

(** ** Numbers of the first level *)
Lemma T1_iff (j : J) F (d : K1) : Ttrk (T1 j) F d <->
  @eq R (fst d) (F (0, tt)) /\ exists l, derivable_pt_lim (fun s => F (s, tt)) 0 l /\ forall h : R, @eq R (snd d h j) (h * l).
Proof.
  split.
  - intros (V & D & HD & HM). split; [exact V|]. exists (D tt). split; [exact HD|]. intros h. exact (HM (fun _ => h) h eq_refl).
  - intros (V & l & HD & HM). split; [exact V|]. exists (fun _ => l). split; [exact HD|]. intros g gA ->. apply HM.
Qed.
Lemma read_laws r : MeansLaws (T1 (rd_j r)) (BwdK (T1 (rd_j r)) J)
  (fun u D => forall g gA, Ttrk (T1 (rd_j r)) g gA -> Ttrk (T1 (rd_j r)) (fun p => g p * D p) (comb r (u gA))).
Proof.
  pose proof (Tb1_laws (eps := eps) (mx := mx) (rd_j r) 0) as L. set (j := rd_j r) in *. constructor.
  - intros u D E HN H g gA Hg. apply (w_loc _ L (fun p => g p * D p)); [|now apply H].
    apply (w_mono _ L (fun p => D p = E p)); [|exact HN]. intros p Ep. now rewrite Ep.
  - intros g gA Hg. apply T1_iff. split.
    + change (rsum (rd_n r) (fun i => rsum (rd_c r) (fun k => rd_w r i k * Q2R 0)) = g (0, tt) * 0). rewrite Rmult_0_r.
      apply rsum_0. intros i _. apply rsum_0. intros k _. rewrite Q2R_0. ring.
    + exists 0. split.
      * apply (derivable_pt_lim_ext (fun _ => 0)); [intros; ring|apply derivable_pt_lim_const].
      * intros h. change (rsum (rd_n r) (fun i => rsum (rd_c r) (fun k => rd_w r i k * Q2R 0 + h * Q2R 0 * rd_G r i k j)) = h * 0). rewrite Rmult_0_r.
        apply rsum_0. intros i _. apply rsum_0. intros k _. rewrite Q2R_0. ring.
  - intros u v D E Hu Hv g gA Hg. specialize (Hu g gA Hg). specialize (Hv g gA Hg). apply T1_iff in Hu, Hv. apply T1_iff.
    destruct Hu as (U & l & DU & MU), Hv as (V & m & DV & MV). split.
    + rewrite Rmult_plus_distr_l. rewrite <- U, <- V. cbn [comb fst]. rewrite <- rsum_plus. apply rsum_ext. intros i _. rewrite <- rsum_plus. apply rsum_ext. intros k _.
      set (j' := (k :: i :: rd_b r)%list). change (rd_w r i k * (fst (u gA j') + fst (v gA j')) = rd_w r i k * fst (u gA j') + rd_w r i k * fst (v gA j')). ring.
    + exists (l + m). split.
      * apply (derivable_pt_lim_ext (fun s => g (s, tt) * D (s, tt) + g (s, tt) * E (s, tt))); [intros; ring|].
        now apply (derivable_pt_lim_plus (fun s => g (s, tt) * D (s, tt)) (fun s => g (s, tt) * E (s, tt))).
      * intros h. rewrite Rmult_plus_distr_l, <- MU, <- MV. cbn [comb snd fst]. rewrite <- rsum_plus. apply rsum_ext. intros i _. rewrite <- rsum_plus. apply rsum_ext. intros k _.
        set (j' := (k :: i :: rd_b r)%list).
        change (rd_w r i k * (snd (u gA j') (h * Q2R 1) j + snd (v gA j') (h * Q2R 1) j) + h * (fst (u gA j') + fst (v gA j')) * rd_G r i k j
          = rd_w r i k * snd (u gA j') h j + h * fst (u gA j') * rd_G r i k j + (rd_w r i k * snd (v gA j') h j + h * fst (v gA j') * rd_G r i k j)).
        rewrite Q2R_1, Rmult_1_r. ring.
  - intros a A u D Ha Hu g gA Hg. apply (trk_ext L (fun p => g p * A p * D p)); [intros; ring|].
    apply (Hu (fun p => g p * A p)). now apply (w_mul _ L).
Qed.
Lemma read_all r : Laws (eps := eps) (mx := mx) (TR r).
Proof. exact (next_laws (Tb1_laws (rd_j r) 0) _ _ (read_laws r) 0 (Tb1_deep (rd_j r) 0)). Qed.

(** a leaf carries a function of two parameters if its velocity along the first is the one read *)
Lemma leaf_read r x (f : R -> R -> R) i k D :
  (i < rd_n r)%nat -> (k < rd_c r)%nat -> let ix := (k :: i :: rd_b r)%list in
  f 0 0 = x -> (derivable_pt_lim (f 0) 0 (if eqJ ix (rd_j r) then 1 else 0)) ->
  (forall s2, derivable_pt_lim (fun s1 => f s1 s2) 0 (D s2)) -> D 0 = rd_w r i k -> derivable_pt_lim D 0 (rd_G r i k (rd_j r)) ->
  Ttrk (TR r) (two f) ((x, fun g j => if eqJ ix j then g else 0), fun g j => if eqJ ix j then g else flit (s := K1) 0).
Proof.
  intros Hi Hk ix V D2 D1 Vw DG. split.
  - apply T1_iff. split; [exact (eq_sym V)|]. exists (if eqJ ix (rd_j r) then 1 else 0). split; [exact D2|].
    intros h. cbn [fst snd]. destruct (eqJ ix (rd_j r)); ring.
  - exists (fun p => D (fst p)). split; [apply (near_all (Tb1_laws (rd_j r) 0)); intros p; exact (D1 (fst p))|].
    intros g gA Hg. apply T1_iff in Hg. destruct Hg as (Vg & l & Dg & Mg). apply T1_iff.
    cbn [comb fst snd]. split.
    + rewrite (rsum_single _ i); [rewrite (rsum_single _ k)| |]; auto.
      * fold ix. destruct (eqJ ix ix); [|congruence]. rewrite Vw, Vg. ring.
      * intros k' _ N. destruct (eqJ ix (k' :: i :: rd_b r)); [unfold ix in *; congruence|]. change (rd_w r i k' * Q2R 0 = 0). rewrite Q2R_0. ring.
      * intros i' _ N. apply rsum_0. intros k' _. destruct (eqJ ix (k' :: i' :: rd_b r)); [unfold ix in *; congruence|]. change (rd_w r i' k' * Q2R 0 = 0). rewrite Q2R_0. ring.
    + exists (l * D 0 + g (0, tt) * rd_G r i k (rd_j r)). split; [now apply (derivable_pt_lim_mult (fun s => g (s, tt)) D)|].
      intros h. rewrite (rsum_single _ i); [rewrite (rsum_single _ k)| |]; auto.
      * fold ix. destruct (eqJ ix ix); [|congruence]. rewrite Mg, Vw, Vg. ring.
      * intros k' _ N. destruct (eqJ ix (k' :: i :: rd_b r)); [unfold ix in *; congruence|]. change (rd_w r i k' * Q2R 0 + h * Q2R 0 * rd_G r i k' (rd_j r) = 0). rewrite Q2R_0. ring.
      * intros i' _ N. apply rsum_0. intros k' _. destruct (eqJ ix (k' :: i' :: rd_b r)); [unfold ix in *; congruence|]. change (rd_w r i' k' * Q2R 0 + h * Q2R 0 * rd_G r i' k' (rd_j r) = 0). rewrite Q2R_0. ring.
Qed.
(** the other leaves are at rest *)
Lemma leaf_still r x ix (f : R -> R -> R) : (forall i k, ix <> (k :: i :: rd_b r)%list) -> ix <> rd_j r -> (forall s1 s2, f s1 s2 = x) ->
  Ttrk (TR r) (two f) ((x, fun g j => if eqJ ix j then g else 0), fun g j => if eqJ ix j then g else flit (s := K1) 0).
Proof.
  intros N Nj H. split.
  - apply T1_iff. split; [exact (eq_sym (H 0 0))|]. exists 0. split; [apply (derivable_pt_lim_ext (fun _ => x)); [intros; symmetry; apply H|apply derivable_pt_lim_const]|].
    intros h. cbn [fst snd]. destruct (eqJ ix (rd_j r)); [contradiction|ring].
  - exists (fun _ => 0). split.
    + apply (near_all (Tb1_laws (rd_j r) 0)). intros p. apply (derivable_pt_lim_ext (fun _ => x)); [intros; symmetry; apply H|apply derivable_pt_lim_const].
    + intros g gA Hg. apply T1_iff. cbn [comb fst snd]. split.
      * rewrite Rmult_0_r. apply rsum_0. intros i _. apply rsum_0. intros k _. destruct (eqJ ix (k :: i :: rd_b r)) as [E|]; [now apply N in E|].
        change (rd_w r i k * Q2R 0 = 0). rewrite Q2R_0. ring.
      * exists 0. split; [apply (derivable_pt_lim_ext (fun _ => 0)); [intros; ring|apply derivable_pt_lim_const]|].
        intros h. rewrite Rmult_0_r. apply rsum_0. intros i _. apply rsum_0. intros k _. destruct (eqJ ix (k :: i :: rd_b r)) as [E|]; [now apply N in E|].
        change (rd_w r i k * Q2R 0 + h * Q2R 0 * rd_G r i k (rd_j r) = 0). rewrite Q2R_0. ring.
Qed.

(** ** What the two passes return *)
Lemma fst_fsum n (f : nat -> K1) : @eq R (fst (fsum (K := K1) n f)) (rsum n (fun m => fst (f m))).
Proof.
  induction n as [|n IH]; [exact Q2R_0|]. cbn [rsum]. rewrite <- IH. reflexivity.
Qed.
Lemma snd_fsum n (f : nat -> K1) (h : R) j : @eq R (snd (fsum (K := K1) n f) h j) (rsum n (fun m => snd (f m) h j)).
Proof.
  revert h. induction n as [|n IH]; intros h; [exact Q2R_0|]. cbn [rsum]. rewrite <- IH.
  change (snd (fsum (K := K1) n f) (h * Q2R 1) j + snd (f n) (h * Q2R 1) j = snd (fsum (K := K1) n f) h j + snd (f n) h j).
  now rewrite Q2R_1, Rmult_1_r.
Qed.
Lemma const_of (T : Tracking) (a : TP T -> Args NR) (aA : Args (LN T)) k o :
  (forall s, getp (a_param (a s)) k = o) -> opt_fixed T o (getp (a_param aA) k) -> const_param T a aA k.
Proof.
  intros H Y. unfold const_param, opt_fixed in *. destruct (getp (a_param aA) k) as [d|]; [right|now left].
  destruct o as [y|]; [|contradiction]. exists y, d. auto.
Qed.
Lemma fixed_trk (T : Tracking) o (oA : option T) : opt_fixed T o oA -> opt_trk T (fun _ => o) oA.
Proof.
  unfold opt_fixed, opt_trk. destruct oA as [d|], o as [x|]; try contradiction; auto. intros Y. exists (fun _ => x). auto.
Qed.
Lemma fixed_trk_t (T : Tracking) sh o (oA : option (tensor T)) : opt_fixed_t T o oA -> opt_trk_t T sh (fun _ => o) oA.
Proof.
  unfold opt_fixed_t, opt_trk_t. destruct oA as [d|], o as [x|]; try contradiction; auto. intros Y. exists (fun _ => x). split; auto. intros ix _. apply Y.
Qed.
(** ** The Hessian along every differentiable family of rigid motions *)
(** coordinate [j] moved by [s] *)
Definition nudge (x : tensor R) (j : J) (s : R) : tensor R := mkT (shp x) (fun ix => dat x ix + (if eqJ ix j then s else 0)).

Theorem C71_hessian_along_rigid_motions :
  forall (X : Ext (RS eps mx)) (XA : Ext K2) W WA p pA a aA kind kw kwA n c B d0 ds cn q b (g : nat -> R)
         (O : R -> nat -> nat -> R) (v : R -> nat -> R) O' v' i2 k2,
  1 <= mx -> cn_contract (p_cn_fn p (p_cn_kw p)) -> eeq_contract W -> own_wf kind kw ->
  hess_call X XA W WA p pA a aA kind kw kwA n c B d0 ds -> valid B b ->
  p_cn_fn p (p_cn_kw p) (a_numbers a) (a_positions a) = Ok cn -> charges_are W p a q ->
  SpecAD.smooth_at X p kind kw a (sl1 cn b) (opt_at (eps := eps) (mx := mx) q b) d0 ds n c b ->
  (* the motions: orthogonal matrices and shifts, none at 0, and their velocities at 0 *)
  (forall s, orthogonal c (O s)) ->
  (forall k l, (k < c)%nat -> (l < c)%nat -> O 0 k l = PropsForce.one k l) -> (forall k, v 0 k = 0) ->
  (forall k l, (k < c)%nat -> (l < c)%nat -> derivable_pt_lim (fun s => O s k l) 0 (O' k l)) ->
  (forall k, (k < c)%nat -> derivable_pt_lim (fun s => v s k) 0 (v' k)) ->
  (i2 < n)%nat -> (k2 < c)%nat ->
  exists eA, run (N := NA) XA WA pA aA = Ok eA /\ shp eA = (n :: B)%list /\
    rsum n (fun i => rsum c (fun k => (rsum c (fun l => O' k l * mol_x a b i l) + v' k)
        * hess_entry n g (sl1 eA b) (k :: i :: b)%list (k2 :: i2 :: b)%list))
    + rsum c (fun k => O' k k2 * fst (grad_entry n g (sl1 eA b) (k :: i2 :: b)%list)) = 0.
Proof.
  intros X XA W WA p pA a aA kind kw kwA n c B d0 ds cn q b g O v O' v' i2 k2 Hm HCN HQ HW
    [HT HP HC HE Htm Hkw Hnum Hpos Hpar Hr4 Hrv Hc2 Hc3 WF WFA Gcn Gq] Hb Ecn Eq Sm HO HO0 Hv0 HO' Hv' Hi2 Hk2.
  set (j2 := (k2 :: i2 :: b)%list). set (x0 := a_positions a) in *.
  set (w := fun i k => rsum c (fun l => O' k l * sl2 x0 b i l) + v' k).
  set (G := fun (i k : nat) (j : J) => match j with l :: i' :: b' => if Nat.eqb i i' then O' k l else 0 | _ => 0 end).
  set (r := mkReading n c b w G j2).
  pose proof (read_all r) as L.
  assert (Sx : shp x0 = (c :: n :: B)%list).
  { pose proof (wf_positions _ _ _ _ _ _ _ _ _ WFA) as Y. now rewrite Hpos in Y. }
  pose (path := fun s1 s2 => PropsForce.moved (nudge x0 j2 s2) c b (rigid c (O s1) (v s1))).
  assert (Hsh : forall s1 s2, shp (path s1 s2) = (c :: n :: B)%list) by (intros; exact Sx).
  assert (HR0 : forall y k, (k < c)%nat -> rigid c (O 0) (v 0) y k = y k).
  { intros y k Hk. unfold rigid. rewrite (rsum_ext c _ (fun l => PropsForce.one k l * y l)) by (intros l Hl; now rewrite HO0).
    rewrite PropsForce.rsum_one by auto. rewrite Hv0. ring. }
  assert (P0 : forall s2, path 0 s2 = nudge x0 j2 s2).
  { intros s2. unfold path. destruct (nudge x0 j2 s2) as [sh d]. unfold PropsForce.moved. cbn [shp dat]. refine (f_equal (mkT sh) _). apply functional_extensionality. intros ix.
    destruct ix as [|k [|i b']]; auto. destruct (list_eq_dec Nat.eq_dec b' b) as [->|]; auto.
    destruct (Nat.ltb_spec k c) as [Lk|]; auto. rewrite HR0 by auto. reflexivity. }
  assert (N0 : nudge x0 j2 0 = x0).
  { unfold nudge. destruct x0 as [sh d]. cbn [shp dat]. refine (f_equal (mkT sh) _). apply functional_extensionality. intros ix. destruct (eqJ ix j2); apply Rplus_0_r. }
  assert (Hin : forall s1 s2 i k, (k < c)%nat -> sl2 (path s1 s2) b i k = rsum c (fun l => O s1 k l * (sl2 x0 b i l + (if eqJ (l :: i :: b)%list j2 then s2 else 0))) + v s1 k).
  { intros s1 s2 i k Hk. unfold path, PropsForce.moved, sl2 at 1. cbn [dat]. destruct (list_eq_dec Nat.eq_dec b b); [|congruence].
    apply Nat.ltb_lt in Hk. rewrite Hk. reflexivity. }
  assert (Hout : forall s1 s2 b' i k, b' <> b -> sl2 (path s1 s2) b' i k = sl2 x0 b' i k).
  { intros s1 s2 b' i k N. unfold path, PropsForce.moved, sl2 at 1. cbn [dat]. destruct (list_eq_dec Nat.eq_dec b' b); [congruence|].
    unfold nudge. cbn [dat]. destruct (eqJ (k :: i :: b') j2) as [E|]; [unfold j2 in E; congruence|apply Rplus_0_r]. }
  assert (Ea : with_positions a (path 0 0) = a) by (rewrite P0, N0; unfold x0; destruct a; reflexivity).
  (* the results along the paths *)
  pose (cnf := fun s1 s2 => match p_cn_fn p (p_cn_kw p) (a_numbers a) (path s1 s2) with Ok u => u | Raise _ => cn end).
  assert (Ecnf : forall s1 s2, p_cn_fn p (p_cn_kw p) (a_numbers a) (path s1 s2) = Ok (cnf s1 s2)).
  { intros s1 s2. unfold cnf. destruct (wf_cn _ _ _ _ _ _ _ _ _ (WF (path s1 s2) (Hsh s1 s2))) as (u & E & _). cbn in E. now rewrite E. }
  assert (FUL : forall s1 s2, exists qo e, charges_are W p (with_positions a (path s1 s2)) qo /\ run (N := NR) X W p (with_positions a (path s1 s2)) = Ok e).
  { intros s1 s2. pose proof (WF (path s1 s2) (Hsh s1 s2)) as WFs.
    destruct (terms_funs (N := NR) _ _ _ (wf_terms _ _ _ _ _ _ _ _ _ WFs)) as (Fs & HF).
    destruct (run_closed_full (N := NR) X W p _ kind kw n c B Fs (proj1 HT) WFs HF)
      as (m & cn' & qo & r4 & rv & _ & _ & _ & _ & _ & _ & E & _ & _ & _ & (e & Er & _)).
    exists qo, e. split; [now apply charges_are_g|exact Er]. }
  pose (qf := fun s1 s2 => match charges W p (a_numbers a) (path s1 s2) (a_charge a) (a_cut a) (a_q a) with Ok o => o | Raise _ => None end).
  assert (Eqf : forall s1 s2, charges_are W p (with_positions a (path s1 s2)) (qf s1 s2)).
  { intros s1 s2. unfold qf. pose proof (WF (path s1 s2) (Hsh s1 s2)) as WFs.
    destruct (terms_funs (N := NR) _ _ _ (wf_terms _ _ _ _ _ _ _ _ _ WFs)) as (Fs & HF).
    destruct (run_closed_full (N := NR) X W p _ kind kw n c B Fs (proj1 HT) WFs HF)
      as (m & cn' & qo & r4 & rv & _ & _ & _ & _ & _ & _ & E & _).
    pose proof E as E'. cbn [with_positions a_numbers a_positions a_charge a_q] in E'.
    replace (a_cut (with_positions a (path s1 s2))) with (a_cut a) in E' by reflexivity. rewrite E'.
    apply charges_are_g. exact E. }
  pose (Ef := fun s1 s2 => match run (N := NR) X W p (with_positions a (path s1 s2)) with Ok e => e | Raise _ => cn end).
  assert (EEf : forall s1 s2, run (N := NR) X W p (with_positions a (path s1 s2)) = Ok (Ef s1 s2)).
  { intros s1 s2. unfold Ef. destruct (FUL s1 s2) as (_ & e & _ & E). now rewrite E. }
  assert (C0 : cnf 0 0 = cn).
  { pose proof (Ecnf 0 0) as E. rewrite P0, N0, Ecn in E. congruence. }
  assert (Q0 : qf 0 0 = q).
  { pose proof (Eqf 0 0) as E. rewrite Ea in E. exact (charges_unique_g _ _ _ _ _ E Eq). }
  (* rigid motions do not change the energies *)
  assert (INV : forall s1 s2 m, (m < n)%nat -> sl1 (Ef s1 s2) b m = sl1 (Ef 0 s2) b m).
  { intros s1 s2 m Hmn.
    assert (HDM : dist_metric X) by (destruct HC as ((gd & Gd & _) & _); exists gd; exact Gd).
    destruct (C07_rigid_motion_invariance (eps := eps) (mx := mx) X W p (with_positions a (path 0 s2)) (path s1 s2) kind kw n c B
      (fun b' => if list_eq_dec Nat.eq_dec b' b then O s1 else PropsForce.one) (fun b' => if list_eq_dec Nat.eq_dec b' b then v s1 else fun _ => 0)
      (proj1 HT) HDM HCN HQ (WF (path 0 s2) (Hsh 0 s2)) (WF (path s1 s2) (Hsh s1 s2)) HW) as (e & e' & E1 & E2 & Y).
    - intros b' _. destruct (list_eq_dec Nat.eq_dec b' b); [apply HO|apply PropsForce.one_orthogonal].
    - intros b' i k Hb' Hi Hk. cbn [with_positions a_positions]. destruct (list_eq_dec Nat.eq_dec b' b) as [->|Nb].
      + rewrite P0, Hin by auto. reflexivity.
      + unfold rigid. rewrite PropsForce.rsum_one by auto. rewrite !Hout by auto. symmetry. apply Rplus_0_r.
    - specialize (Y b m Hb Hmn). change (run (N := NR) X W p (with_positions a (path s1 s2)) = Ok e') in E2.
      rewrite EEf in E1, E2. assert (e = Ef 0 s2) by congruence. assert (e' = Ef s1 s2) by congruence. subst e e'. exact Y. }
  (* the leaves *)
  assert (Gj : forall i k, (i < n)%nat -> (k < c)%nat -> G i k j2 = if Nat.eqb i i2 then O' k k2 else 0) by reflexivity.
  assert (MV : moves2 (eps := eps) (mx := mx) r path x0 n c B).
  { constructor; auto; [now rewrite P0|]. intros b' i k Hb' Hi Hk. unfold as_leaves2. unfold sl2 at 2. cbn [dat].
    destruct (list_eq_dec Nat.eq_dec b' b) as [->|N].
    - apply (leaf_read r _ _ i k (fun s2 => rsum c (fun l => O' k l * (sl2 x0 b i l + (if eqJ (l :: i :: b)%list j2 then s2 else 0))) + v' k)); auto.
      + rewrite P0, N0. reflexivity.
      + apply (derivable_pt_lim_ext (fun s => sl2 x0 b i k + (if eqJ (k :: i :: b)%list j2 then s else 0))).
        { intros s. rewrite P0. reflexivity. }
        cbn [rd_b rd_j r]. destruct (eqJ (k :: i :: b) j2).
        * replace 1 with (0 + 1) by ring. apply (derivable_pt_lim_plus (fun _ => sl2 x0 b i k) id); [apply derivable_pt_lim_const|apply derivable_pt_lim_id].
        * apply derivable_pt_lim_const.
      + intros s2. apply (derivable_pt_lim_ext (fun s1 => rsum c (fun l => O s1 k l * (sl2 x0 b i l + (if eqJ (l :: i :: b)%list j2 then s2 else 0))) + v s1 k)).
        { intros s1. symmetry. now apply Hin. }
        apply (derivable_pt_lim_plus (fun s1 => rsum c (fun l => O s1 k l * (sl2 x0 b i l + (if eqJ (l :: i :: b)%list j2 then s2 else 0)))) (fun s1 => v s1 k)); [|now apply Hv'].
        apply (PropsForce.lim_sum c (fun l s1 => O s1 k l * (sl2 x0 b i l + (if eqJ (l :: i :: b)%list j2 then s2 else 0)))).
        intros l Hl. set (y := sl2 x0 b i l + _).
        apply (derivable_pt_lim_ext (fun s1 => y * O s1 k l)); [intros; ring|]. rewrite Rmult_comm.
        apply (derivable_pt_lim_scal (fun s1 => O s1 k l)). now apply HO'.
      + cbn [rd_w r]. unfold w. f_equal. apply rsum_ext. intros l Hl. destruct (eqJ (l :: i :: b) j2); ring.
      + cbn [rd_G rd_j r]. rewrite Gj by auto.
        apply (derivable_pt_lim_ext (fun s2 => (if Nat.eqb i i2 then O' k k2 else 0) * id s2 + w i k)).
        { intros s2. unfold w, id. rewrite <- Rplus_assoc. f_equal.
          rewrite (rsum_ext c (fun l => O' k l * (sl2 x0 b i l + (if eqJ (l :: i :: b)%list j2 then s2 else 0))) (fun l => O' k l * (if eqJ (l :: i :: b)%list j2 then s2 else 0) + O' k l * sl2 x0 b i l)) by (intros; ring).
          rewrite rsum_plus. f_equal. rewrite (rsum_single c k2); auto.
          - destruct (eqJ (k2 :: i :: b) j2) as [E|N], (Nat.eqb_spec i i2) as [->|Ni]; try ring; unfold j2 in *; congruence.
          - intros l _ N. destruct (eqJ (l :: i :: b) j2) as [E|_]; [unfold j2 in E; congruence|ring]. }
        set (z := if Nat.eqb i i2 then O' k k2 else 0).
        pose proof (derivable_pt_lim_plus (fun s => z * id s) (fun _ => w i k) 0 (z * 1) 0 (derivable_pt_lim_scal id z 0 1 (derivable_pt_lim_id 0)) (derivable_pt_lim_const (w i k) 0)) as Dz.
        rewrite Rmult_1_r, Rplus_0_r in Dz. exact Dz.
    - apply leaf_still.
      + intros i' k' E. cbn [rd_b r] in E. congruence.
      + cbn [rd_j r]. unfold j2. congruence.
      + intros s1 s2. rewrite Hout by auto. reflexivity. }
  destruct (wf_cn _ _ _ _ _ _ _ _ _ WFA) as (cnA & EcnA & _).
  assert (EqA : exists qA, charges_are WA pA aA qA).
  { destruct (terms_funs (N := NA) _ _ _ (wf_terms _ _ _ _ _ _ _ _ _ WFA)) as (Fs & HF).
    destruct (run_closed_full (N := NA) XA WA pA _ kind kwA n c B Fs (proj2 HT) WFA HF)
      as (m & cn' & qo & r4 & rv & _ & _ & _ & _ & _ & _ & E & _). exists qo. now apply charges_are_g. }
  destruct EqA as (qA & EqA).
  assert (CP : forall k, const_param (TR r) (fun s => with_positions a (two path s)) aA k).
  { intros k. apply (const_of (TR r) _ aA k (getp (a_param a) k)); [reflexivity|apply Hpar]. }
  assert (SC : same_calc (TR r) X XA W WA p pA (fun s => with_positions a (two path s)) aA kind kw kwA n c B d0 ds (two cnf) cnA (two qf) qA (two Ef)).
  { constructor; auto.
    - constructor.
      + intros s. exact (eq_sym Hnum).
      + intros b' i k Hb' Hi Hk. pose proof (m2_der _ _ _ _ _ _ MV b' i k Hb' Hi Hk) as Y. cbn [with_positions a_positions].
        exact (eq_ind_r (fun t => Ttrk (TR r) (fun s => sl2 (two path s) b' i k) (sl2 t b' i k)) Y Hpos).
      + intros k. apply (fixed_trk (TR r) (getp (a_param a) k)). apply Hpar.
      + apply (fixed_trk_t (TR r) (n :: B)%list (a_r4r2 a)). apply Hr4.
      + apply (fixed_trk_t (TR r) (n :: n :: B)%list (a_rvdw a)). apply Hrv.
      + intros s. exact Hc2.
      + intros s. exact Hc3.
    - split; left; apply CP.
    - apply (near_all L). intros (s1 & s2 & []). split; [apply WF; exact Sx|]. split; [apply Ecnf|]. split; [apply Eqf|apply EEf]. }
  destruct (C69_derivatives_carried (T := TR r) _ _ _ _ _ _ _ _ _ _ _ _ _ _ _ _ _ _ _ _ _ L Hm SC) as (eA & Er & Sh & Tr).
  exists eA. split; [exact Er|]. split; [exact Sh|].
  assert (SMo : smooth_mol (TR r) X p (fun s => with_positions a (two path s)) kind kw n c d0 ds (two cnf) cnA (two qf) qA b).
  { constructor.
    - exact (Gcn r path cnf cnA b MV Ecnf EcnA Hb).
    - exact (Gq r path qf qA b MV Eqf EqA Hb).
    - change (SpecAD.smooth_at X p kind kw (with_positions a (path 0 0)) (sl1 (cnf 0 0) b) (opt_at (eps := eps) (mx := mx) (qf 0 0) b) d0 ds n c b). rewrite Ea, C0, Q0. exact Sm. }
  (* every atom contributes nothing *)
  set (gc := fun m => ncon (K := RL eps mx) (M := BwdK (RL eps mx) J) (g m)).
  assert (Z : forall m, (m < n)%nat -> snd (comb r (snd (sl1 eA b m) (gc m))) 1 j2 = 0).
  { intros m Hmn. destruct (Tr b m Hb Hmn SMo) as (_ & D & (rr & Hr & HD) & HM).
    specialize (HM (fun _ => g m) (gc m) (con_trk1 (rd_j r) 0 (g m))). apply T1_iff in HM. destruct HM as (_ & l & Dl & Ml).
    pose proof (Ml 1) as M1. rewrite Rmult_1_l in M1. refine (eq_trans M1 _).
    apply (uniqueness_limite (fun s => g m * D (s, tt)) 0); [exact Dl|].
    apply (derivable_pt_lim_locally_ext (fun _ => 0) _ 0 (- rr) rr); [lra| |apply derivable_pt_lim_const].
    intros s Hs. assert (Y : D (s, tt) = 0); [|rewrite Y; ring].
    assert (Hs' : Rabs (s - 0) < rr) by (rewrite Rminus_0_r; apply Rabs_def1; lra).
    apply (uniqueness_limite (fun s1 => sl1 (Ef s1 s) b m) 0); [exact (HD s Hs')|].
    apply (derivable_pt_lim_ext (fun _ => sl1 (Ef 0 s) b m)); [intros s1; symmetry; now apply INV|apply derivable_pt_lim_const]. }
  assert (HE1 : forall i k, hess_entry n g (sl1 eA b) (k :: i :: b)%list j2 = rsum n (fun m => snd (snd (sl1 eA b m) (gc m) (k :: i :: b)%list) 1 j2)).
  { intros i k. unfold hess_entry, grad_entry. apply snd_fsum. }
  assert (GE1 : forall i k, @eq R (fst (grad_entry n g (sl1 eA b) (k :: i :: b)%list)) (rsum n (fun m => fst (snd (sl1 eA b m) (gc m) (k :: i :: b)%list)))).
  { intros i k. unfold grad_entry. apply fst_fsum. }
  rewrite <- (rsum_0 n (fun m => snd (comb r (snd (sl1 eA b m) (gc m))) 1 j2)) by exact Z.
  cbn [comb snd rd_n rd_c rd_b rd_w rd_G r].
  rewrite (rsum_swap n n).
  assert (R2 : rsum c (fun k => O' k k2 * fst (grad_entry n g (sl1 eA b) (k :: i2 :: b)%list))
    = rsum n (fun i => rsum c (fun k => G i k j2 * fst (grad_entry n g (sl1 eA b) (k :: i :: b)%list)))).
  { rewrite (rsum_single n i2); auto.
    - apply rsum_ext. intros k Hk. rewrite Gj, Nat.eqb_refl by auto. reflexivity.
    - intros i Hi N. apply rsum_0. intros k Hk. rewrite Gj by auto. destruct (Nat.eqb_spec i i2); [congruence|]. exact (Rmult_0_l _). }
  refine (eq_trans (f_equal2 Rplus eq_refl R2) _).
  rewrite <- rsum_plus. apply rsum_ext. intros i Hi. rewrite <- rsum_plus, (rsum_swap n c). apply rsum_ext. intros k Hk.
  refine (eq_trans (f_equal2 Rplus (f_equal (Rmult _) (HE1 i k)) (f_equal (Rmult _) (GE1 i k))) _).
  change (rsum c (fun l => O' k l * mol_x a b i l) + v' k) with (w i k).
  rewrite <- !rsum_scal_l, <- rsum_plus. apply rsum_ext. intros m Hmn.
  pose (y := (fst (snd (sl1 eA b m) (gc m) (k :: i :: b)%list) : R)). pose (z := (snd (snd (sl1 eA b m) (gc m) (k :: i :: b)%list) 1 j2 : R)).
  change (w i k * z + G i k j2 * y = w i k * z + 1 * y * G i k j2). ring.
Qed.
(** ** The sum rules of the Hessian *)
Theorem C71_sum_rules :
  forall (X : Ext (RS eps mx)) (XA : Ext K2) W WA p pA a aA kind kw kwA n c B d0 ds cn q b (g : nat -> R),
  1 <= mx -> cn_contract (p_cn_fn p (p_cn_kw p)) -> eeq_contract W -> own_wf kind kw ->
  hess_call X XA W WA p pA a aA kind kw kwA n c B d0 ds -> valid B b -> (0 < n)%nat -> (0 < c)%nat ->
  p_cn_fn p (p_cn_kw p) (a_numbers a) (a_positions a) = Ok cn -> charges_are W p a q ->
  SpecAD.smooth_at X p kind kw a (sl1 cn b) (opt_at (eps := eps) (mx := mx) q b) d0 ds n c b ->
  exists eA, run (N := NA) XA WA pA aA = Ok eA /\ shp eA = (n :: B)%list /\
    let H k i l j := hess_entry n g (sl1 eA b) (k :: i :: b)%list (l :: j :: b)%list in
    let G k i : R := fst (grad_entry n g (sl1 eA b) (k :: i :: b)%list) in
    (* translations *)
    (forall k j l, (k < c)%nat -> (j < n)%nat -> (l < c)%nat -> rsum n (fun i => H k i l j) = 0) /\
    (* rotations: [mol_x a b i k] is coordinate [k] of atom [i] *)
    (forall k l j m, (k < c)%nat -> (l < c)%nat -> (j < n)%nat -> (m < c)%nat ->
       rsum n (fun i => mol_x a b i k * H l i m j - mol_x a b i l * H k i m j)
         = (if Nat.eqb l m then G k j else 0) - (if Nat.eqb k m then G l j else 0)).
Proof.
  intros X XA W WA p pA a aA kind kw kwA n c B d0 ds cn q b g Hm HCN HQ HW HC Hb Hn Hcc Ecn Eq Sm.
  assert (TRA : forall k j l, (k < c)%nat -> (j < n)%nat -> (l < c)%nat -> exists eA, run (N := NA) XA WA pA aA = Ok eA /\ shp eA = (n :: B)%list /\
    rsum n (fun i => hess_entry n g (sl1 eA b) (k :: i :: b)%list (l :: j :: b)%list) = 0).
  { intros k j l Hk Hj Hl.
    destruct (C71_hessian_along_rigid_motions X XA W WA p pA a aA kind kw kwA n c B d0 ds cn q b g
      (fun _ => PropsForce.one) (fun s u => s * PropsForce.one k u) (fun _ _ => 0) (fun u => PropsForce.one k u) j l) as (eA & E & Sh & Y); auto.
    - intros _. apply PropsForce.one_orthogonal.
    - intros u. ring.
    - intros u v _ _. apply derivable_pt_lim_const.
    - intros u _. apply (derivable_pt_lim_ext (fun s => PropsForce.one k u * id s)); [intros; unfold id; ring|].
      pose proof (derivable_pt_lim_scal id (PropsForce.one k u) 0 1 (derivable_pt_lim_id 0)) as D. rewrite Rmult_1_r in D. exact D.
    - exists eA. split; [exact E|]. split; [exact Sh|].
      rewrite (rsum_0 c (fun k => 0 * _)) in Y by (intros; ring). rewrite Rplus_0_r in Y. refine (eq_trans _ Y). apply rsum_ext. intros i Hi.
      rewrite (rsum_ext c _ (fun u => PropsForce.one k u * hess_entry n g (sl1 eA b) (u :: i :: b)%list (l :: j :: b)%list)).
      + now rewrite PropsForce.rsum_one.
      + intros u Hu. rewrite (rsum_0 c (fun l => 0 * _)) by (intros; ring). ring. }
  assert (ROT : forall k l j m, (k < c)%nat -> (l < c)%nat -> k <> l -> (j < n)%nat -> (m < c)%nat -> exists eA, run (N := NA) XA WA pA aA = Ok eA /\ shp eA = (n :: B)%list /\
    rsum n (fun i => mol_x a b i k * hess_entry n g (sl1 eA b) (l :: i :: b)%list (m :: j :: b)%list - mol_x a b i l * hess_entry n g (sl1 eA b) (k :: i :: b)%list (m :: j :: b)%list)
         = (if Nat.eqb l m then fst (grad_entry n g (sl1 eA b) (k :: j :: b)%list) else 0) - (if Nat.eqb k m then fst (grad_entry n g (sl1 eA b) (l :: j :: b)%list) else 0)).
  { intros k l j m Hk Hl N Hj Hmc. pose (O' := fun u v => PropsForce.one l u * PropsForce.one k v - PropsForce.one k u * PropsForce.one l v).
    destruct (C71_hessian_along_rigid_motions X XA W WA p pA a aA kind kw kwA n c B d0 ds cn q b g
      (PropsForce.turn k l) (fun _ _ => 0) O' (fun _ => 0) j m) as (eA & E & Sh & Y); auto.
    - intros s. now apply PropsForce.turn_orthogonal.
    - intros u v _ _. unfold PropsForce.turn. rewrite cos_0, sin_0. destruct (Nat.eqb_spec u k) as [->|]; [ring|destruct (Nat.eqb_spec u l) as [->|]; ring].
    - intros u v _ _.
      assert (OE : O' u v = if Nat.eqb u k then - PropsForce.one l v else if Nat.eqb u l then PropsForce.one k v else 0).
      { unfold O'. rewrite (PropsForce.one_sym l u), (PropsForce.one_sym k u).
        set (y := PropsForce.one k v). set (z := PropsForce.one l v). unfold PropsForce.one.
        destruct (Nat.eqb_spec u k) as [->|]; [|destruct (Nat.eqb_spec u l); ring]. destruct (Nat.eqb_spec k l); [congruence|ring]. }
      rewrite OE. unfold PropsForce.turn. set (y := PropsForce.one k v). set (z := PropsForce.one l v).
      destruct (Nat.eqb u k); [|destruct (Nat.eqb u l)].
      + apply (derivable_pt_lim_ext (fun s => y * cos s - z * sin s)); [intros; ring|].
        replace (- z) with (y * 0 - z * 1) by ring.
        apply (derivable_pt_lim_minus (fun s => y * cos s) (fun s => z * sin s)).
        * apply (derivable_pt_lim_scal cos), PropsForce.lim_cos0.
        * apply (derivable_pt_lim_scal sin), PropsForce.lim_sin0.
      + apply (derivable_pt_lim_ext (fun s => y * sin s + z * cos s)); [intros; ring|].
        pose proof (derivable_pt_lim_plus (fun s => y * sin s) (fun s => z * cos s) 0 (y * 1) (z * 0)
          (derivable_pt_lim_scal sin y 0 1 PropsForce.lim_sin0) (derivable_pt_lim_scal cos z 0 0 PropsForce.lim_cos0)) as D.
        rewrite Rmult_1_r, Rmult_0_r, Rplus_0_r in D. exact D.
      + apply derivable_pt_lim_const.
    - intros u _. apply derivable_pt_lim_const.
    - exists eA. split; [exact E|]. split; [exact Sh|].
      set (H := fun k i => hess_entry n g (sl1 eA b) (k :: i :: b)%list (m :: j :: b)%list) in *.
      set (Gr := fun k => (fst (grad_entry n g (sl1 eA b) (k :: j :: b)%list) : R)) in *.
      assert (YH : rsum n (fun i => mol_x a b i k * H l i - mol_x a b i l * H k i) + (PropsForce.one k m * Gr l - PropsForce.one l m * Gr k) = 0).
      { refine (eq_trans _ Y). f_equal.
        - apply rsum_ext. intros i Hi.
          rewrite (rsum_ext c _ (fun u => mol_x a b i k * (PropsForce.one l u * H u i) + - (mol_x a b i l * (PropsForce.one k u * H u i)))).
          + rewrite rsum_plus, rsum_opp, !rsum_scal_l, !PropsForce.rsum_one by auto. ring.
          + intros u Hu. change (hess_entry n g (sl1 eA b) (u :: i :: b)%list (m :: j :: b)%list) with (H u i).
            rewrite (rsum_ext c _ (fun v => PropsForce.one l u * (PropsForce.one k v * mol_x a b i v) + - (PropsForce.one k u * (PropsForce.one l v * mol_x a b i v)))) by (intros; unfold O'; ring).
            rewrite rsum_plus, rsum_opp, !rsum_scal_l, !PropsForce.rsum_one by auto. ring.
        - rewrite (rsum_ext c _ (fun u => PropsForce.one k m * (PropsForce.one l u * Gr u) + - (PropsForce.one l m * (PropsForce.one k u * Gr u)))).
          + rewrite rsum_plus, rsum_opp, !rsum_scal_l, !PropsForce.rsum_one by auto. ring.
          + intros u Hu. change (O' u m * Gr u = PropsForce.one k m * (PropsForce.one l u * Gr u) + - (PropsForce.one l m * (PropsForce.one k u * Gr u))). unfold O'. ring. }
      change (rsum n (fun i => mol_x a b i k * H l i - mol_x a b i l * H k i) = (if Nat.eqb l m then Gr k else 0) - (if Nat.eqb k m then Gr l else 0)).
      unfold PropsForce.one in YH. destruct (Nat.eqb l m), (Nat.eqb k m); lra. }
  destruct (TRA 0%nat 0%nat 0%nat Hcc Hn Hcc) as (eA & E & Sh & _). exists eA. split; [exact E|]. split; [exact Sh|]. intros H G. split.
  - intros k j l Hk Hj Hl. destruct (TRA k j l Hk Hj Hl) as (eA' & E' & _ & Y). assert (Q : Ok eA' = Ok eA) by (rewrite <- E; symmetry; exact E'). injection Q as ->. exact Y.
  - intros k l j m Hk Hl Hj Hmc. destruct (Nat.eq_dec k l) as [->|N].
    + rewrite (rsum_0 n) by (intros; ring). destruct (Nat.eqb l m); ring.
    + destruct (ROT k l j m Hk Hl N Hj Hmc) as (eA' & E' & _ & Y). assert (Q : Ok eA' = Ok eA) by (rewrite <- E; symmetry; exact E'). injection Q as ->. exact Y.
Qed.
End P.
Print Assumptions C71_hessian_along_rigid_motions.
Print Assumptions C71_sum_rules.

(** ** Example: water and carbon monoxide in one batch *)
From Verif Require Import PropsC6 Inst InstW SpecBits InstAny.
Open Scope R_scope.
Section Ex.
Context {eps mx : R} (He : 0 <= eps < 1) (Hm : 1 <= mx).
Notation NR := (RN eps mx).
Notation K2 := (Grad2 eps mx (list nat)).
Notation NA := (LN K2).
Notation XR := (Xex eps mx).
Notation XA := (XadN K2).
Notation x0 := (line (eps := eps) (mx := mx) 3 [2%nat] 2).
Notation TR r := (Tread (eps := eps) (mx := mx) r).
Lemma ex_hess_call : hess_call XR XA (Wany (N := NR) XR) (Wany (N := NA) XA) (Pany (N := NR) XR "d4") (Pany (N := NA) XA "d4")
  (gcall (N := NR) two_mols x0) (gcall (N := NA) two_mols (as_leaves2 x0)) D4M no_kw no_kw 3 3 [2%nat] 1 0.
Proof.
  pose proof (fun r => read_all (eps := eps) (mx := mx) r) as L.
  assert (S0 : forall r, ext_ad (TR r) 1 0 XR XA) by (intros r; apply (XadN_carries (L r)); lra).
  assert (S1 : forall r path, moves2 (eps := eps) (mx := mx) r path x0 3 3 [2%nat] -> same_calc (TR r) XR XA (Wany (N := NR) XR) (Wany (N := NA) XA) (Pany (N := NR) XR "d4") (Pany (N := NA) XA "d4")
    (fun s => gcall (N := NR) two_mols (two path s)) (gcall (N := NA) two_mols (as_leaves2 x0)) D4M no_kw no_kw 3 3 [2%nat] 1 0
    (fun s => cn_of (eps := eps) (mx := mx) (two path s)) (PropsADN.cnA_of (T := TR r) XA (as_leaves2 x0))
    (fun s => Some (q_of (eps := eps) (mx := mx) (two path s))) (Some (PropsADN.qA_of (T := TR r) XA (as_leaves2 x0))) (fun s => e_of (eps := eps) (mx := mx) (two path s))).
  { intros r path [MA MS MD]. apply (PropsADN.ex_same (T := TR r) (L r) XA (S0 r) (XadN_tables K2) (two path) (as_leaves2 x0)); auto. intros s. apply MS. }
  assert (S2 : forall r path, moves2 (eps := eps) (mx := mx) r path x0 3 3 [2%nat] -> forall b, valid [2%nat] b -> smooth_mol (TR r) XR (Pany (N := NR) XR "d4")
    (fun s => gcall (N := NR) two_mols (two path s)) D4M no_kw 3 3 1 0
    (fun s => cn_of (eps := eps) (mx := mx) (two path s)) (PropsADN.cnA_of (T := TR r) XA (as_leaves2 x0))
    (fun s => Some (q_of (eps := eps) (mx := mx) (two path s))) (Some (PropsADN.qA_of (T := TR r) XA (as_leaves2 x0))) b).
  { intros r path [MA MS MD] b Hb. apply (PropsADN.ex_smooth He (T := TR r) (L r) XA (S0 r) (two path) (as_leaves2 x0)); auto.
    - intros s. apply MS.
    - intros ix. exact (f_equal (fun y => dat y ix) MA). }
  constructor.
  - split; [apply Xex_tables|apply XadN_tables].
  - split; [lra|]. split; [lra|]. unfold cut3. cbn. lra.
  - split; [apply Xex_dist|]. split; [apply Xex_div|apply Xex_sqrt].
  - exact S0.
  - intros r. constructor; [|constructor; [|constructor]].
    + split; [reflexivity|]. split; [reflexivity|]. exists Rational. split; reflexivity.
    + split; [reflexivity|]. split; [reflexivity|]. split; reflexivity.
  - intros r. split; [reflexivity|]. repeat split.
  - reflexivity.
  - reflexivity.
  - intros r k. unfold opt_fixed, getp, gcall, gparam. cbn [dget a_param].
    repeat (match goal with |- context [String.eqb ?u k] => destruct (String.eqb u k) end; [apply (r_lit (L r))|]). exact Logic.I.
  - intros r. exact Logic.I.
  - intros r. exact Logic.I.
  - reflexivity.
  - reflexivity.
  - intros x Sx. apply gcall_wf; auto using two_mols_range.
  - apply gcall_wf; auto using two_mols_range.
  - intros r path cn cnA b MV Ecn EcnA Hb i Hi Ri. cbn [Pany p_cn_fn p_cn_kw gcall a_numbers a_positions] in *.
    pose proof (sl_cn _ _ _ _ _ _ _ _ _ _ _ _ _ _ _ (S2 r path MV b Hb) i Hi Ri) as Y.
    pose proof (PropsADN.ex_cnA (T := TR r) XA (as_leaves2 x0) eq_refl) as E.
    assert (CA : Ok cnA = Ok (PropsADN.cnA_of (T := TR r) XA (as_leaves2 x0))) by (rewrite <- EcnA; exact E). injection CA as ->.
    refine (trk_ext (L r) _ _ _ _ Y). intros (s1 & s2 & []). unfold two. cbn [fst snd].
    pose proof (Ecn s1 s2) as E1. rewrite (ex_cn (path s1 s2) (m2_shape _ _ _ _ _ _ MV s1 s2)) in E1. now injection E1 as ->.
  - intros r path q qA b MV Eq EqA Hb i Hi Ri.
    assert (NC : needs_charges (Pany (N := NR) XR "d4")) by (eexists; split; [left; reflexivity|reflexivity]).
    assert (NCA : needs_charges (Pany (N := NA) XA "d4")) by (eexists; split; [left; reflexivity|reflexivity]).
    pose proof (sl_q _ _ _ _ _ _ _ _ _ _ _ _ _ _ _ (S2 r path MV b Hb) i Hi Ri) as Y.
    destruct (proj1 EqA NCA) as (u & -> & E).
    assert (CA : Ok u = Ok (PropsADN.qA_of (T := TR r) XA (as_leaves2 x0))) by (rewrite <- E; exact (PropsADN.ex_qA (T := TR r) XA (as_leaves2 x0) eq_refl)). injection CA as ->.
    refine (trk_ext (L r) _ _ _ _ Y). intros (s1 & s2 & []). unfold two. cbn [fst snd].
    destruct (proj1 (Eq s1 s2) NC) as (u & -> & E1). cbn in E1.
    pose proof (ex_q (eps := eps) (mx := mx) (path s1 s2) (m2_shape _ _ _ _ _ _ MV s1 s2)) as E'. unfold eeq_cut in E1. cbn in E1. cbn in E'.
    rewrite E' in E1. injection E1 as ->. reflexivity.
Qed.

Example C71_example :
  exists eA, run (N := NA) XA (Wany (N := NA) XA) (Pany (N := NA) XA "d4") (gcall (N := NA) two_mols (as_leaves2 x0)) = Ok eA /\ shp eA = [3; 2]%nat /\
    forall b (g : nat -> R), valid [2%nat] b ->
    let H k i l j := hess_entry 3 g (sl1 eA b) (k :: i :: b)%list (l :: j :: b)%list in
    let G k i : R := fst (grad_entry 3 g (sl1 eA b) (k :: i :: b)%list) in
    (forall k j l, (k < 3)%nat -> (j < 3)%nat -> (l < 3)%nat -> rsum 3 (fun i => H k i l j) = 0) /\
    (forall k l j m, (k < 3)%nat -> (l < 3)%nat -> (j < 3)%nat -> (m < 3)%nat ->
       rsum 3 (fun i => sl2 x0 b i k * H l i m j - sl2 x0 b i l * H k i m j)
         = (if Nat.eqb l m then G k j else 0) - (if Nat.eqb k m then G l j else 0)).
Proof.
  assert (T : forall b (g : nat -> R), valid [2%nat] b -> exists eA, run (N := NA) XA (Wany (N := NA) XA) (Pany (N := NA) XA "d4") (gcall (N := NA) two_mols (as_leaves2 x0)) = Ok eA /\ shp eA = [3; 2]%nat /\
    let H k i l j := hess_entry 3 g (sl1 eA b) (k :: i :: b)%list (l :: j :: b)%list in
    let G k i : R := fst (grad_entry 3 g (sl1 eA b) (k :: i :: b)%list) in
    (forall k j l, (k < 3)%nat -> (j < 3)%nat -> (l < 3)%nat -> rsum 3 (fun i => H k i l j) = 0) /\
    (forall k l j m, (k < 3)%nat -> (l < 3)%nat -> (j < 3)%nat -> (m < 3)%nat ->
       rsum 3 (fun i => sl2 x0 b i k * H l i m j - sl2 x0 b i l * H k i m j)
         = (if Nat.eqb l m then G k j else 0) - (if Nat.eqb k m then G l j else 0))).
  { intros b g Hb.
    apply (C71_sum_rules XR XA (Wany (N := NR) XR) (Wany (N := NA) XA) (Pany (N := NR) XR "d4") (Pany (N := NA) XA "d4")
      (gcall (N := NR) two_mols x0) (gcall (N := NA) two_mols (as_leaves2 x0)) D4M no_kw no_kw 3 3 [2%nat] 1 0 (cn_of (eps := eps) (mx := mx) x0) (Some (q_of (eps := eps) (mx := mx) x0)) b g); auto; try lia.
    - exact (PropsForce.cn_any_contract He None).
    - exact (PropsForce.eeq_any_contract He).
    - left. reflexivity.
    - exact ex_hess_call.
    - split; [|intros NC; elim NC; eexists; split; [left; reflexivity|reflexivity]].
      intros _. exists (q_of (eps := eps) (mx := mx) x0). split; [reflexivity|]. apply (ex_q x0 eq_refl).
    - now apply (PropsForce.ex_smooth_at He). }
  destruct (T [0%nat] (fun _ => 0)) as (eA & E & S & _); [cbn; auto|]. exists eA. split; [exact E|]. split; [exact S|].
  intros b g Hb. destruct (T b g Hb) as (eA' & E' & _ & Y). assert (Q : Ok eA' = Ok eA) by (rewrite <- E; symmetry; exact E'). injection Q as ->. exact Y.
Qed.
End Ex.
Print Assumptions C71_example.
