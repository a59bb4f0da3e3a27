(** * The computed forces add up to zero, and so do the torques. *)
From Coq Require Import Reals Lra Lia List Arith ZArith QArith Qreals Bool String FunctionalExtensionality.
From Verif Require Import Py Tensor Scalar RInst AdInst ModelExt ModelUtils ModelDamping ModelModels
  ModelTerms ModelDisp Spec SpecCall SpecR SpecMol SpecW SpecD4 SpecAD TensorLemmas Closed ClosedM
  ClosedTerms ClosedModels ClosedDamp ClosedDisp CallLemmas EnergyR Energy3R Sums PropsOutcome PropsDiff AdR PropsMol PropsAD.
Import ListNotations.
Open Scope R_scope.

(** ** Specification *)
Section S.
Context {eps mx : R}.
Notation NR := (RN eps mx).
Notation M := (Bwd (list nat)).
Notation NA := (AN M eps mx).

(** every coordinate is a leaf of its own; coordinate [k] of atom [i] of molecule [b] has the
    index [k :: i :: b] *)
Definition as_leaves (x : tensor R) : tensor (adn M) :=
  mkT (shp x) (fun ix => (dat x ix, fun g j => if list_eq_dec Nat.eq_dec ix j then g else 0)).
(** what [torch.autograd.grad(e[b].sum(), positions)] returns for coordinate [k] of atom [i] of
    molecule [b] *)
Definition gradient (e : tensor (adn M)) (n : nat) (b : list nat) (i k : nat) : R :=
  rsum n (fun m => snd (sl1 e b m) 1 (k :: i :: b)).

(** the geometry moves along a path, and the leaves carry the derivatives of the path at [t0] *)
Record moves (means : LT M -> R -> Prop) (t0 : R) (path : R -> tensor R) (x : tensor R) (n c : nat) (B : list nat) : Prop := mkMoves {
  mv_at : path t0 = x;
  mv_shape : forall s, shp (path s) = (c :: n :: B)%list;
  mv_der : forall b i k, valid B b -> (i < n)%nat -> (k < c)%nat ->
    tracks means t0 (fun s => sl2 (path s) b i k) (sl2 (as_leaves x) b i k) }.

(** [aA] is the call [a] with the coordinates as leaves, everything else constant; the external
    functions accept every geometry and carry derivatives along, however the derivatives are read
    ([means]) *)
Record grad_call (X : Ext (RS eps mx)) (XA : Ext (AS M eps mx)) (W : World NR) (WA : World NA) (p : Disp NR) (pA : Disp NA)
  (a : Args NR) (aA : Args NA) kind (kw : mkwargs NR) (kwA : mkwargs NA) (n c : nat) (B : list nat) (d0 ds : R) : Prop := mkGradCall {
  gc_tables : ext_tables X /\ ext_tables XA;
  gc_pos : 0 < d0 /\ 0 <= ds /\ 0 <= cut3 a;
  gc_contracts : dist_contract d0 X /\ div_contract X /\ sqrt_contract ds X;
  gc_ext : forall means, lin_sound (M := M) means -> ext_ad means d0 ds X XA;
  gc_terms : Forall2 (term_ad X XA) (p_terms p) (p_terms pA);
  gc_kw : forall means, lin_sound (M := M) means -> kw_ad means kw kwA;
  gc_numbers : a_numbers aA = a_numbers a;
  gc_positions : a_positions aA = as_leaves (a_positions a);
  gc_param : forall means k, lin_sound (M := M) means -> opt_fixed means (getp (a_param a) k) (getp (a_param aA) k);
  gc_r4r2 : forall means, lin_sound (M := M) means -> opt_fixed_t means (a_r4r2 a) (a_r4r2 aA);
  gc_rvdw : forall means, lin_sound (M := M) means -> opt_fixed_t means (a_rvdw a) (a_rvdw aA);
  gc_cut2 : dat (c_disp2 (a_cut a)) [] = fst (dat (c_disp2 (a_cut aA)) []);
  gc_cut3 : dat (c_disp3 (a_cut a)) [] = fst (dat (c_disp3 (a_cut aA)) []);
  gc_wf : forall x, shp x = (c :: n :: B)%list -> well_formed (N := NR) X W p (with_positions a x) kind kw n c B;
  gc_wfA : well_formed (N := NA) XA WA pA aA kind kwA n c B;
  gc_cn : forall means t0 path cn cnA b, lin_sound (M := M) means -> moves means t0 path (a_positions a) n c B ->
    (forall s, p_cn_fn p (p_cn_kw p) (a_numbers a) (path s) = Ok (cn s)) ->
    p_cn_fn pA (p_cn_kw pA) (a_numbers aA) (a_positions aA) = Ok cnA ->
    valid B b -> trk_atoms means t0 (a_numbers a) n b (fun t => sl1 (cn t) b) (sl1 cnA b);
  gc_q : forall means t0 path q qA b, lin_sound (M := M) means -> moves means t0 path (a_positions a) n c B ->
    (forall s, charges_are W p (with_positions a (path s)) (q s)) ->
    charges_are WA pA aA qA ->
    valid B b -> trk_atoms means t0 (a_numbers a) n b (fun t => opt_at (eps := eps) (mx := mx) (q t) b) (opt_atA qA b) }.
End S.

Section P.
Context {eps mx : R}.
Notation NR := (RN eps mx).
Notation M := (Bwd (list nat)).
Notation NA := (AN M eps mx).

Lemma rsum_zero n : rsum n (fun _ => 0) = 0.
Proof. induction n; cbn; [reflexivity|]. rewrite IHn. ring. Qed.
(** reading a gradient along the direction [w] in molecule [b] *)
Definition along (n c : nat) (b : list nat) (w : nat -> nat -> R) (u : LT M) (l : R) : Prop :=
  forall g, rsum n (fun i => rsum c (fun k => u g (k :: i :: b) * w i k)) = g * l.
Lemma along_sound n c b w : lin_sound (M := M) (along n c b w).
Proof.
  split; [|split].
  - intros g. cbn. rewrite (rsum_ext n _ (fun _ => 0)); [rewrite rsum_zero; ring|].
    intros i _. rewrite (rsum_ext c _ (fun _ => 0)) by (intros; ring). now rewrite rsum_zero.
  - intros u v l m Hu Hv g. cbn. rewrite Rmult_plus_distr_l, <- (Hu g), <- (Hv g), <- rsum_plus. apply rsum_ext.
    intros i _. rewrite <- rsum_plus. apply rsum_ext. intros k _. ring.
  - intros a u l Hu g. cbn. rewrite (Hu (g * a)). ring.
Qed.
Lemma along_leaf n c b w i k : (i < n)%nat -> (k < c)%nat ->
  along n c b w (fun g j => if list_eq_dec Nat.eq_dec (k :: i :: b) j then g else 0) (w i k).
Proof.
  intros Hi Hk g. rewrite (rsum_single n i); [rewrite (rsum_single c k)| |]; auto.
  - destruct (list_eq_dec Nat.eq_dec (k :: i :: b) (k :: i :: b)); [reflexivity|congruence].
  - intros k' _ N. destruct (list_eq_dec Nat.eq_dec (k :: i :: b) (k' :: i :: b)); [congruence|ring].
  - intros i' _ N. rewrite (rsum_ext c _ (fun _ => 0)); [now rewrite rsum_zero|].
    intros k' _. destruct (list_eq_dec Nat.eq_dec (k :: i :: b) (k' :: i' :: b)); [congruence|ring].
Qed.
Lemma along_other n c b w ix : (forall i k, ix <> (k :: i :: b)%list) ->
  along n c b w (fun g j => if list_eq_dec Nat.eq_dec ix j then g else 0) 0.
Proof.
  intros N g. rewrite (rsum_ext n _ (fun _ => 0)); [rewrite rsum_zero; ring|].
  intros i _. rewrite (rsum_ext c _ (fun _ => 0)); [now rewrite rsum_zero|].
  intros k _. destruct (list_eq_dec Nat.eq_dec ix (k :: i :: b)) as [E|]; [now apply N in E|ring].
Qed.

Lemma lim_sum n (f : nat -> R -> R) (l : nat -> R) t :
  (forall i, (i < n)%nat -> derivable_pt_lim (f i) t (l i)) -> derivable_pt_lim (fun s => rsum n (fun i => f i s)) t (rsum n l).
Proof.
  induction n as [|n IH]; intros H; cbn [rsum]; [apply derivable_pt_lim_const|].
  apply (derivable_pt_lim_plus (fun s => rsum n (fun i => f i s)) (f n)); [apply IH; intros; apply H; lia|apply H; lia].
Qed.
Lemma rsum_choice n (P : nat -> R -> Prop) : (forall i, (i < n)%nat -> exists x, P i x) -> exists f, forall i, (i < n)%nat -> P i (f i).
Proof.
  induction n as [|n IH]; intros H; [exists (fun _ => 0); intros; lia|].
  destruct IH as (f & F); [intros; apply H; lia|]. destruct (H n (Nat.lt_succ_diag_r n)) as (x & Px).
  exists (fun i => if Nat.eqb i n then x else f i). intros i Hi. destruct (Nat.eqb_spec i n) as [->|]; [exact Px|]. apply F. lia.
Qed.

(** ** Along every differentiable family of rigid motions of molecule [b] the computed gradient has
    no component *)
Theorem C68_gradient_along_rigid_motions :
  forall (X : Ext (RS eps mx)) (XA : Ext (AS M eps mx)) W WA p pA a aA kind kw kwA n c B d0 ds cn q b
         (path : R -> tensor R) O v w,
  1 <= mx -> cn_contract (p_cn_fn p (p_cn_kw p)) -> eeq_contract W -> own_wf kind kw ->
  grad_call X XA W WA p pA a aA kind kw kwA n c B d0 ds -> valid B b ->
  p_cn_fn p (p_cn_kw p) (a_numbers a) (a_positions a) = Ok cn -> charges_are W p a q ->
  smooth_at X p kind kw a (sl1 cn b) (opt_at (eps := eps) (mx := mx) q b) d0 ds n c b ->
  path 0 = a_positions a -> (forall s, shp (path s) = (c :: n :: B)%list) ->
  (forall s b, valid B b -> orthogonal c (O s b)) ->
  (forall s b i k, valid B b -> (i < n)%nat -> (k < c)%nat ->
     sl2 (path s) b i k = rigid c (O s b) (v s b) (sl2 (a_positions a) b i) k) ->
  (forall i k, (i < n)%nat -> (k < c)%nat -> derivable_pt_lim (fun s => sl2 (path s) b i k) 0 (w i k)) ->
  (forall s b' i k, valid B b' -> b' <> b -> (i < n)%nat -> (k < c)%nat -> sl2 (path s) b' i k = sl2 (a_positions a) b' i k) ->
  exists eA, run (N := NA) XA WA pA aA = Ok eA /\ shp eA = (n :: B)%list /\
    rsum n (fun i => rsum c (fun k => gradient eA n b i k * w i k)) = 0.
Proof.
  intros X XA W WA p pA a aA kind kw kwA n c B d0 ds cn q b path O v w Hm HCN HQ HW
    [HT HP HC HE Htm Hkw Hnum Hpos Hpar Hr4 Hrv Hc2 Hc3 WF WFA Gcn Gq] Hb Ecn Eq Sm H0 Hsh HO Hrig Hder Hother.
  set (mn := along n c b w). pose proof (along_sound n c b w) as HS. fold mn in HS.
  assert (Ea : with_positions a (path 0) = a) by (rewrite H0; destruct a; reflexivity).
  (* the results along the path *)
  pose (cnf := fun s => match p_cn_fn p (p_cn_kw p) (a_numbers a) (path s) with Ok u => u | Raise _ => cn end).
  assert (Ecnf : forall s, p_cn_fn p (p_cn_kw p) (a_numbers a) (path s) = Ok (cnf s)).
  { intros s. unfold cnf. destruct (wf_cn _ _ _ _ _ _ _ _ _ (WF (path s) (Hsh s))) as (u & E & _). cbn in E. now rewrite E. }
  assert (FUL : forall s, exists qo e, charges_are W p (with_positions a (path s)) qo /\ run (N := NR) X W p (with_positions a (path s)) = Ok e).
  { intros s. pose proof (WF (path s) (Hsh s)) as WFs.
    destruct (terms_funs (N := NR) _ _ _ (wf_terms _ _ _ _ _ _ _ _ _ WFs)) as (Fs & HF).
    destruct (run_closed_full (N := NR) X W p _ kind kw n c B Fs (proj1 HT) WFs HF)
      as (m & cn' & qo & r4 & rv & _ & _ & _ & _ & _ & _ & E & _ & _ & _ & (e & Er & _)).
    exists qo, e. split; [now apply charges_are_g|exact Er]. }
  pose (qf := fun s => match charges W p (a_numbers a) (path s) (a_charge a) (a_cut a) (a_q a) with Ok o => o | Raise _ => None end).
  assert (Eqf : forall s, charges_are W p (with_positions a (path s)) (qf s)).
  { intros s. unfold qf. pose proof (WF (path s) (Hsh s)) as WFs.
    destruct (terms_funs (N := NR) _ _ _ (wf_terms _ _ _ _ _ _ _ _ _ WFs)) as (Fs & HF).
    destruct (run_closed_full (N := NR) X W p _ kind kw n c B Fs (proj1 HT) WFs HF)
      as (m & cn' & qo & r4 & rv & _ & _ & _ & _ & _ & _ & E & _).
    pose proof E as E'. cbn [with_positions a_numbers a_positions a_charge a_q] in E'.
    replace (a_cut (with_positions a (path s))) with (a_cut a) in E' by reflexivity. rewrite E'.
    apply charges_are_g. exact E. }
  pose (Ef := fun s => match run (N := NR) X W p (with_positions a (path s)) with Ok e => e | Raise _ => cn end).
  assert (EEf : forall s, run (N := NR) X W p (with_positions a (path s)) = Ok (Ef s)).
  { intros s. unfold Ef. destruct (FUL s) as (_ & e & _ & E). now rewrite E. }
  assert (C0 : cnf 0 = cn).
  { pose proof (Ecnf 0) as E. rewrite H0, Ecn in E. congruence. }
  assert (Q0 : qf 0 = q).
  { pose proof (Eqf 0) as E. rewrite Ea in E. exact (charges_unique_g _ _ _ _ _ E Eq). }
  (* the leaves *)
  assert (MV : moves mn 0 path (a_positions a) n c B).
  { split; auto. intros b' i k Hb' Hi Hk. unfold as_leaves. unfold sl2 at 2. cbn [dat]. split; cbn [fst snd].
    - now rewrite H0.
    - destruct (list_eq_dec Nat.eq_dec b' b) as [->|N].
      + exists (w i k). split; [now apply Hder|]. now apply along_leaf.
      + exists 0. split.
        * apply (lim_loc (fun _ => sl2 (a_positions a) b' i k) _ 0 1 0); [lra| |apply derivable_pt_lim_const].
          intros s _. symmetry. now apply Hother.
        * apply along_other. intros i' k' E. injection E as _ _ E. now apply N. }
  destruct (wf_cn _ _ _ _ _ _ _ _ _ WFA) as (cnA & EcnA & _).
  assert (EqA : exists qA, charges_are WA pA aA qA).
  { destruct (terms_funs (N := NA) _ _ _ (wf_terms _ _ _ _ _ _ _ _ _ WFA)) as (Fs & HF).
    destruct (run_closed_full (N := NA) XA WA pA _ kind kwA n c B Fs (proj2 HT) WFA HF)
      as (m & cn' & qo & r4 & rv & _ & _ & _ & _ & _ & _ & E & _). exists qo. now apply charges_are_g. }
  destruct EqA as (qA & EqA).
  assert (SC : same_calc mn X XA W WA p pA (fun s => with_positions a (path s)) aA kind kw kwA n c B d0 ds 0 cnf cnA qf qA Ef).
  { constructor; auto.
    - constructor.
      + intros s. cbn. now rewrite Hnum.
      + intros b' i k Hb' Hi Hk. cbn [with_positions a_positions]. rewrite Hpos. now apply (mv_der _ _ _ _ _ _ _ MV).
      + intros k. cbn [with_positions a_param]. pose proof (Hpar mn k HS) as Y. unfold opt_fixed, opt_trk in *.
        destruct (getp (a_param aA) k) as [d|], (getp (a_param a) k) as [x|]; try contradiction; auto.
        exists (fun _ => x). split; auto. destruct Y as (Y1 & Y2). split; [exact Y1|]. exists 0. split; [apply derivable_pt_lim_const|exact Y2].
      + pose proof (Hr4 mn HS) as Y. unfold opt_fixed_t, opt_trk_t in *. cbn [with_positions a_r4r2].
        destruct (a_r4r2 aA) as [d|], (a_r4r2 a) as [x|]; try contradiction; auto.
        exists (fun _ => x). split; auto. intros ix _. destruct (Y ix) as (Y1 & Y2). split; [exact Y1|]. exists 0. split; [apply derivable_pt_lim_const|exact Y2].
      + pose proof (Hrv mn HS) as Y. unfold opt_fixed_t, opt_trk_t in *. cbn [with_positions a_rvdw].
        destruct (a_rvdw aA) as [d|], (a_rvdw a) as [x|]; try contradiction; auto.
        exists (fun _ => x). split; auto. intros ix _. destruct (Y ix) as (Y1 & Y2). split; [exact Y1|]. exists 0. split; [apply derivable_pt_lim_const|exact Y2].
      + intros s. exact Hc2.
      + intros s. exact Hc3.
    - exists 1. split; [lra|]. intros s _. split; [apply WF; auto|]. split; [apply Ecnf|]. split; [apply Eqf|apply EEf]. }
  destruct (C64_derivative_carried mn _ _ _ _ _ _ _ _ _ _ _ _ _ _ _ _ _ _ _ _ _ _ HS Hm SC) as (eA & Er & Sh & T).
  exists eA. split; [exact Er|]. split; [exact Sh|].
  assert (SMo : smooth_mol mn X p (fun s => with_positions a (path s)) kind kw n c d0 ds 0 cnf cnA qf qA b).
  { constructor.
    - cbn [with_positions a_numbers]. apply (Gcn mn 0 path cnf cnA b HS MV Ecnf EcnA Hb).
    - cbn [with_positions a_numbers]. apply (Gq mn 0 path qf qA b HS MV Eqf EqA Hb).
    - cbv beta. rewrite Ea, C0, Q0. exact Sm. }
  destruct (rsum_choice n (fun m l => derivable_pt_lim (fun t => sl1 (Ef t) b m) 0 l /\ mn (snd (sl1 eA b m)) l)) as (l & L).
  { intros m Hmn. destruct (T b m Hb Hmn SMo) as (_ & l & D & Y). eauto. }
  assert (D1 : derivable_pt_lim (fun t => rsum n (fun m => sl1 (Ef t) b m)) 0 (rsum n l)) by (apply lim_sum; intros; now apply L).
  destruct (C47_no_net_force X W p a kind kw n c B O v path b) as (_ & D2); auto.
  { apply HT. } { destruct HC as ((gd & G & _) & _). exists gd. exact G. }
  assert (D3 : derivable_pt_lim (fun t => rsum n (fun m => sl1 (Ef t) b m)) 0 0).
  { apply (lim_loc (fun t => total_energy (run (N := NR) X W p (with_positions a (path t))) n b) _ 0 1 0); [lra| |apply D2].
    intros s _. unfold total_energy. rewrite EEf. reflexivity. }
  rewrite <- (uniqueness_limite _ _ _ _ D1 D3) at 1.
  rewrite (rsum_ext n l (fun m => rsum n (fun i => rsum c (fun k => snd (sl1 eA b m) 1 (k :: i :: b) * w i k)))).
  2:{ intros m Hmn. destruct (L m Hmn) as (_ & Y). rewrite (Y 1). ring. }
  rewrite (rsum_swap n n). apply rsum_ext. intros i Hi. rewrite (rsum_swap n c). apply rsum_ext. intros k Hk.
  unfold gradient. rewrite rsum_scal_r. reflexivity.
Qed.

(** ** Translations and rotations of one molecule *)
(** [f u] applied to the coordinates of every atom of molecule [b]; everything else stays *)
Definition moved (x : tensor R) (c : nat) (b : list nat) (f : (nat -> R) -> nat -> R) : tensor R :=
  mkT (shp x) (fun ix => match ix with
    | k :: i :: b' => if (if list_eq_dec Nat.eq_dec b' b then k <? c else false)%nat then f (sl2 x b i) k else dat x ix
    | _ => dat x ix end).
Definition one (u v : nat) : R := if Nat.eqb u v then 1 else 0.
(** rotation by the angle [t] in the plane of the axes [k] and [l] *)
Definition turn (k l : nat) (t : R) (u v : nat) : R :=
  if Nat.eqb u k then cos t * one k v - sin t * one l v
  else if Nat.eqb u l then sin t * one k v + cos t * one l v
  else one u v.

Lemma rsum_one c u f : (u < c)%nat -> rsum c (fun v => one u v * f v) = f u.
Proof.
  intros Hu. rewrite (rsum_single c u); auto; unfold one.
  - rewrite Nat.eqb_refl. ring.
  - intros v _ N. destruct (Nat.eqb_spec u v); [congruence|ring].
Qed.
Lemma one_sym u v : one u v = one v u.
Proof. unfold one. now rewrite Nat.eqb_sym. Qed.
Lemma one_orthogonal c : orthogonal c one.
Proof.
  intros k l Hk Hl. rewrite (rsum_ext c _ (fun m => one k m * one m l)) by (intros; now rewrite (one_sym k)).
  rewrite (rsum_one c k (fun m => one m l) Hk). unfold one. reflexivity.
Qed.
Lemma turn_orthogonal c k l t : (k < c)%nat -> (l < c)%nat -> k <> l -> orthogonal c (turn k l t).
Proof.
  intros Hk Hl N u v Hu Hv.
  rewrite (rsum_ext c _ (fun m => one u m * one m v
     + one k m * (turn k l t k u * turn k l t k v - one k u * one k v)
     + one l m * (turn k l t l u * turn k l t l v - one l u * one l v))).
  - rewrite !rsum_plus. rewrite (rsum_one c u (fun m => one m v)), (rsum_one c k (fun _ => _)), (rsum_one c l (fun _ => _)) by auto.
    unfold turn. rewrite !Nat.eqb_refl. destruct (Nat.eqb_spec l k); [congruence|].
    pose proof (sin2_cos2 t) as T. unfold Rsqr in T. assert (C2 : cos t * cos t = 1 - sin t * sin t) by lra.
    change (if Nat.eqb u v then 1 else 0) with (one u v).
    replace (_ + _ + _) with (one u v + (cos t * cos t + sin t * sin t - 1) * (one k u * one k v + one l u * one l v)) by ring.
    rewrite C2. ring.
  - intros m Hmc. rewrite (one_sym u m).
    assert (K : forall x y, x <> y -> one x y = 0) by (intros x y Nx; unfold one; destruct (Nat.eqb_spec x y); congruence).
    assert (K1 : forall x, one x x = 1) by (intros x; unfold one; now rewrite Nat.eqb_refl).
    destruct (Nat.eq_dec m k) as [->|Nk]; [rewrite K1, (K l k) by congruence; ring|].
    destruct (Nat.eq_dec m l) as [->|Nl]; [rewrite K1, (K k l) by congruence; ring|].
    rewrite (K k m), (K l m) by congruence. unfold turn.
    destruct (Nat.eqb_spec m k); [congruence|]. destruct (Nat.eqb_spec m l); [congruence|]. ring.
Qed.

Lemma lim_cos0 : derivable_pt_lim cos 0 0.
Proof. replace 0 with (- sin 0) at 2 by (rewrite sin_0; ring). apply derivable_pt_lim_cos. Qed.
Lemma lim_sin0 : derivable_pt_lim sin 0 1.
Proof. rewrite <- cos_0. apply derivable_pt_lim_sin. Qed.

(** ** The forces add up to zero, and so do the torques about the origin *)
Theorem C68_no_net_force_no_net_torque :
  forall (X : Ext (RS eps mx)) (XA : Ext (AS M eps mx)) W WA p pA a aA kind kw kwA n c B d0 ds cn q b,
  1 <= mx -> cn_contract (p_cn_fn p (p_cn_kw p)) -> eeq_contract W -> own_wf kind kw ->
  grad_call X XA W WA p pA a aA kind kw kwA n c B d0 ds -> valid B b ->
  p_cn_fn p (p_cn_kw p) (a_numbers a) (a_positions a) = Ok cn -> charges_are W p a q ->
  smooth_at X p kind kw a (sl1 cn b) (opt_at (eps := eps) (mx := mx) q b) d0 ds n c b ->
  exists eA, run (N := NA) XA WA pA aA = Ok eA /\ shp eA = (n :: B)%list /\
    (forall k, (k < c)%nat -> rsum n (fun i => gradient eA n b i k) = 0) /\
    (forall k l, (k < c)%nat -> (l < c)%nat ->
       rsum n (fun i => mol_x a b i k * gradient eA n b i l - mol_x a b i l * gradient eA n b i k) = 0).
Proof.
  intros X XA W WA p pA a aA kind kw kwA n c B d0 ds cn q b Hm HCN HQ HW G Hb Ecn Eq Sm.
  assert (Hsh : shp (a_positions a) = (c :: n :: B)%list).
  { pose proof (wf_positions _ _ _ _ _ _ _ _ _ (gc_wfA _ _ _ _ _ _ _ _ _ _ _ _ _ _ _ _ G)) as Y. now rewrite (gc_positions _ _ _ _ _ _ _ _ _ _ _ _ _ _ _ _ G) in Y. }
  assert (CORE : forall (O : R -> nat -> nat -> R) (v : R -> nat -> R) w,
    (forall s, orthogonal c (O s)) ->
    (forall x k, (k < c)%nat -> rigid c (O 0) (v 0) x k = x k) ->
    (forall i k, (i < n)%nat -> (k < c)%nat -> derivable_pt_lim (fun s => rigid c (O s) (v s) (mol_x a b i) k) 0 (w i k)) ->
    exists eA, run (N := NA) XA WA pA aA = Ok eA /\ shp eA = (n :: B)%list /\
      rsum n (fun i => rsum c (fun k => gradient eA n b i k * w i k)) = 0).
  { intros O v w HO H0 Hd.
    apply (C68_gradient_along_rigid_motions X XA W WA p pA a aA kind kw kwA n c B d0 ds cn q b
       (fun s => moved (a_positions a) c b (rigid c (O s) (v s)))
       (fun s b' => if list_eq_dec Nat.eq_dec b' b then O s else one) (fun s b' => if list_eq_dec Nat.eq_dec b' b then v s else fun _ => 0) w); auto.
    - destruct (a_positions a) as [sh d] eqn:E. unfold moved. cbn [shp dat]. refine (f_equal (mkT sh) _). apply functional_extensionality. intros ix.
      destruct ix as [|k [|i b']]; auto. destruct (list_eq_dec Nat.eq_dec b' b) as [->|]; auto.
      destruct (Nat.ltb_spec k c) as [L|]; auto. rewrite H0 by auto. reflexivity.
    - intros s b' _. destruct (list_eq_dec Nat.eq_dec b' b); [apply HO|apply one_orthogonal].
    - intros s b' i k Hb' Hi Hk. unfold moved, sl2 at 1. cbn [dat]. destruct (list_eq_dec Nat.eq_dec b' b) as [->|N].
      + apply Nat.ltb_lt in Hk. now rewrite Hk.
      + unfold rigid. rewrite rsum_one by auto. symmetry. apply Rplus_0_r.
    - intros i k Hi Hk. apply (lim_loc (fun s => rigid c (O s) (v s) (mol_x a b i) k) _ 0 1 (w i k)); [lra| |now apply Hd].
      intros s _. unfold moved, sl2. cbn [dat]. destruct (list_eq_dec Nat.eq_dec b b); [|congruence].
      apply Nat.ltb_lt in Hk. rewrite Hk. reflexivity.
    - intros s b' i k Hb' N Hi Hk. unfold moved, sl2. cbn [dat]. destruct (list_eq_dec Nat.eq_dec b' b); [congruence|reflexivity]. }
  assert (TR : forall k, (k < c)%nat -> exists eA, run (N := NA) XA WA pA aA = Ok eA /\ shp eA = (n :: B)%list /\
     rsum n (fun i => gradient eA n b i k) = 0).
  { intros k Hk. destruct (CORE (fun _ => one) (fun s l => s * one k l) (fun _ l => one k l)) as (eA & E & Sh & Y).
    - intros _. apply one_orthogonal.
    - intros x l Hl. unfold rigid. rewrite rsum_one by auto. ring.
    - intros i l Hi Hl. unfold rigid. rewrite rsum_one by auto.
      apply (lim_loc (fun s => one k l * id s + mol_x a b i l) _ 0 1 (one k l)); [lra|intros; unfold id; ring|].
      assert (Y : one k l = one k l * 1 + 0) by ring.
      refine (eq_ind_r (fun z => derivable_pt_lim (fun s => one k l * id s + mol_x a b i l) 0 z) _ Y).
      apply (derivable_pt_lim_plus (fun s => one k l * id s) (fun _ => mol_x a b i l)); [|apply derivable_pt_lim_const].
      apply (derivable_pt_lim_scal id), derivable_pt_lim_id.
    - exists eA. split; [exact E|]. split; [exact Sh|]. rewrite <- Y. apply rsum_ext. intros i Hi.
      rewrite (rsum_ext c _ (fun l => one k l * gradient eA n b i l)) by (intros; ring). now rewrite rsum_one. }
  assert (RO : forall k l, (k < c)%nat -> (l < c)%nat -> k <> l -> exists eA, run (N := NA) XA WA pA aA = Ok eA /\ shp eA = (n :: B)%list /\
     rsum n (fun i => mol_x a b i k * gradient eA n b i l - mol_x a b i l * gradient eA n b i k) = 0).
  { intros k l Hk Hl N. set (y := fun i u => one l u * mol_x a b i k - one k u * mol_x a b i l).
    assert (RT : forall s x u, (u < c)%nat -> rigid c (turn k l s) (fun _ => 0) x u
      = if Nat.eqb u k then cos s * x k - sin s * x l else if Nat.eqb u l then sin s * x k + cos s * x l else x u).
    { intros s x u Hu. unfold rigid, turn. destruct (Nat.eqb u k); [|destruct (Nat.eqb u l)].
      - rewrite (rsum_ext c _ (fun v => cos s * (one k v * x v) + - (sin s * (one l v * x v)))) by (intros; ring).
        rewrite rsum_plus, rsum_opp, !rsum_scal_l, !rsum_one by auto. ring.
      - rewrite (rsum_ext c _ (fun v => sin s * (one k v * x v) + cos s * (one l v * x v))) by (intros; ring).
        rewrite rsum_plus, !rsum_scal_l, !rsum_one by auto. ring.
      - rewrite rsum_one by auto. ring. }
    destruct (CORE (turn k l) (fun _ _ => 0) y) as (eA & E & Sh & Y).
    - intros s. now apply turn_orthogonal.
    - intros x u Hu. rewrite RT by auto. rewrite cos_0, sin_0. destruct (Nat.eqb_spec u k) as [->|]; [ring|destruct (Nat.eqb_spec u l) as [->|]; ring].
    - intros i u Hi Hu. unfold y.
      apply (lim_loc (fun s => if Nat.eqb u k then mol_x a b i k * cos s - mol_x a b i l * sin s
          else if Nat.eqb u l then mol_x a b i k * sin s + mol_x a b i l * cos s else mol_x a b i u) _ 0 1); [lra| |].
      { intros s _. rewrite RT by auto. destruct (Nat.eqb u k); [ring|destruct (Nat.eqb u l); ring]. }
      unfold one. rewrite (Nat.eqb_sym l u), (Nat.eqb_sym k u).
      destruct (Nat.eqb_spec u k) as [->|]; [|destruct (Nat.eqb_spec u l) as [->|]].
      + destruct (Nat.eqb_spec k l); [congruence|].
        replace (0 * _ - 1 * mol_x a b i l) with (mol_x a b i k * 0 - mol_x a b i l * 1) by ring.
        apply (derivable_pt_lim_minus (fun s => mol_x a b i k * cos s) (fun s => mol_x a b i l * sin s)).
        * apply (derivable_pt_lim_scal cos), lim_cos0.
        * apply (derivable_pt_lim_scal sin), lim_sin0.
      + replace (1 * mol_x a b i k - 0 * _) with (mol_x a b i k * 1 + mol_x a b i l * 0) by ring.
        apply (derivable_pt_lim_plus (fun s => mol_x a b i k * sin s) (fun s => mol_x a b i l * cos s)).
        * apply (derivable_pt_lim_scal sin), lim_sin0.
        * apply (derivable_pt_lim_scal cos), lim_cos0.
      + replace (0 * _ - 0 * _) with 0 by ring. apply derivable_pt_lim_const.
    - exists eA. split; [exact E|]. split; [exact Sh|]. rewrite <- Y. apply rsum_ext. intros i Hi. unfold y.
      rewrite (rsum_ext c _ (fun u => mol_x a b i k * (one l u * gradient eA n b i u) + - (mol_x a b i l * (one k u * gradient eA n b i u)))) by (intros; ring).
      rewrite rsum_plus, rsum_opp, !rsum_scal_l, !rsum_one by auto. ring. }
  assert (RUN : exists eA, run (N := NA) XA WA pA aA = Ok eA /\ shp eA = (n :: B)%list).
  { destruct (CORE (fun _ => one) (fun _ _ => 0) (fun _ _ => 0)) as (eA & E & Sh & _); [intros; apply one_orthogonal| | |eauto].
    - intros x l Hl. unfold rigid. rewrite rsum_one by auto. ring.
    - intros i l Hi Hl. unfold rigid. rewrite rsum_one by auto. apply derivable_pt_lim_const. }
  destruct RUN as (eA & E & Sh). exists eA. split; [exact E|]. split; [exact Sh|]. split.
  - intros k Hk. destruct (TR k Hk) as (eA' & E' & _ & Y). assert (eA' = eA) by congruence. now subst.
  - intros k l Hk Hl. destruct (Nat.eq_dec k l) as [->|N]; [apply rsum_0; intros; ring|].
    destruct (RO k l Hk Hl N) as (eA' & E' & _ & Y). assert (eA' = eA) by congruence. now subst.
Qed.
End P.
Print Assumptions C68_gradient_along_rigid_motions.
Print Assumptions C68_no_net_force_no_net_torque.

(** ** Example: water and carbon monoxide in one batch *)
From Verif Require Import PropsC6 Inst InstW SpecBits InstAny.
Open Scope R_scope.
Section Ex.
Context {eps mx : R} (He : 0 <= eps < 1) (Hm : 1 <= mx).
Notation NR := (RN eps mx).
Notation M := (Bwd (list nat)).
Notation NA := (AN M eps mx).
Notation XR := (Xex eps mx).
Notation XA := (Xad M eps mx).
Notation x0 := (line (eps := eps) (mx := mx) 3 [2%nat] 2).

Lemma cn_any_contract kw : cn_contract (eps := eps) (mx := mx) (cn_any (N := NR) XR kw).
Proof.
  intros c n1 n2 B1 B2 z1 x1 b1 z2 x2 b2 s t1 t2 S1 P1 V1 S2 P2 V2 ([EN EI ED] & ON) E1 E2 i Hi Ri.
  rewrite (cn_any_val (N := NR) _ _ _ _ _ _ _ _ b1 i S1 P1 E1), (cn_any_val (N := NR) _ _ _ _ _ _ _ _ b2 (s i) S2 P2 E2).
  refine (eq_trans (fsum_R eps mx _ _) (eq_trans _ (eq_sym (fsum_R eps mx _ _)))).
  assert (RA : forall numbers b i j, real_pair (sl1 numbers b) i j = true <->
     i <> j /\ real_atom numbers b i /\ real_atom numbers b j).
  { intros. unfold real_pair, real_atom. rewrite !andb_true_iff, !negb_true_iff, Nat.eqb_neq, !Z.eqb_neq. tauto. }
  apply (rsum_bij n1 n2 (real_pair (sl1 z1 b1) i) (real_pair (sl1 z2 b2) (s i)) s).
  - intros j Hj R. apply RA in R as (_ & _ & Rj). now apply EN.
  - intros j k Hj Hk R R' Es. apply RA in R as (_ & _ & Rj). apply RA in R' as (_ & _ & Rk). apply EI; auto.
  - intros k Hk R. apply RA in R as (Nk & _ & Rk). destruct (ON k Hk Rk) as (j & Hj & Rj & E).
    exists j. repeat split; auto. apply RA. repeat split; auto. congruence.
  - intros j Hj R. rewrite !pmask_real, R. apply RA in R as (Nij & _ & Rj).
    replace (real_pair (sl1 z2 b2) (s i) (s j)) with true.
    + cbn [x_dist Xex]. unfold euclid. rewrite ED; auto.
    + symmetry. apply RA. destruct (EN j Hj Rj) as [L E]. repeat split.
      * intros Es. apply Nij. apply EI; auto.
      * unfold real_atom. rewrite (proj2 (EN i Hi Ri)). exact Ri.
      * unfold real_atom. rewrite E. exact Rj.
  - intros j Hj R. rewrite pmask_real, R. apply Q2R_0.
  - intros j Hj R. rewrite pmask_real, R. apply Q2R_0.
Qed.
Lemma eeq_any_contract : eeq_contract (Wany (N := NR) XR).
Proof.
  intros c n1 n2 B1 B2 z1 x1 b1 z2 x2 b2 s q1 q2 co t1 t2 S1 P1 V1 S2 P2 V2 SM Q E1 E2 i Hi Ri.
  simpl in E1, E2. unfold eeq_any in E1, E2.
  destruct (cn_any_ok (N := NR) XR None z1 x1 c n1 B1 S1 P1) as (c1 & C1 & SC1).
  destruct (cn_any_ok (N := NR) XR None z2 x2 c n2 B2 S2 P2) as (c2 & C2 & SC2).
  rewrite C1 in E1. rewrite C2 in E2. simpl in E1, E2. injection E1 as <-. injection E2 as <-.
  unfold sl1 at 1 2. cbn [dat]. unfold total_charge, mol_charge in *. rewrite Q. f_equal.
  exact (cn_any_contract None c n1 n2 B1 B2 z1 x1 b1 z2 x2 b2 s c1 c2 S1 P1 V1 S2 P2 V2 SM C1 C2 i Hi Ri).
Qed.

Lemma ex_grad_call : grad_call XR XA (Wany (N := NR) XR) (Wany (N := NA) XA) (Pany (N := NR) XR "d4") (Pany (N := NA) XA "d4")
  (gcall (N := NR) two_mols x0) (gcall (N := NA) two_mols (as_leaves x0)) D4M no_kw no_kw 3 3 [2%nat] 1 0.
Proof.
  assert (S0 : forall mn, lin_sound mn -> ext_ad mn 1 0 XR XA).
  { intros mn HS. apply Xad_carries; auto; lra. }
  constructor.
  - split; [apply Xex_tables|apply Xad_tables].
  - split; [lra|]. split; [lra|]. unfold cut3. cbn. lra.
  - split; [apply Xex_dist|]. split; [apply Xex_div|apply Xex_sqrt].
  - exact S0.
  - constructor; [|constructor; [|constructor]].
    + split; [reflexivity|]. split; [reflexivity|]. exists Rational. split; reflexivity.
    + split; [reflexivity|]. split; [reflexivity|]. split; reflexivity.
  - intros mn HS. split; [reflexivity|]. repeat split.
  - reflexivity.
  - reflexivity.
  - intros mn k HS. unfold opt_fixed, getp, gcall, gparam. cbn [dget a_param].
    repeat (match goal with |- context [String.eqb ?u k] => destruct (String.eqb u k) end; [split; [reflexivity|apply HS]|]). exact Logic.I.
  - intros mn HS. exact Logic.I.
  - intros mn HS. exact Logic.I.
  - reflexivity.
  - reflexivity.
  - intros x Sx. apply gcall_wf; auto using two_mols_range.
  - apply gcall_wf; auto using two_mols_range.
  - intros mn t0 path cn cnA b HS [MA MS MD] Ecn EcnA Hb i Hi _. cbn [Pany p_cn_fn p_cn_kw gcall a_numbers a_positions] in *.
    pose proof (ex_cn_trk He mn HS XA (S0 mn HS) path (as_leaves x0) t0 MS eq_refl) as Y.
    assert (C : forall s, cn s = cn_of (eps := eps) (mx := mx) (path s)).
    { intros s. pose proof (Ecn s) as E. rewrite (ex_cn (path s) (MS s)) in E. congruence. }
    assert (CA : cnA = cnA_of XA (as_leaves x0)).
    { pose proof (ex_cnA XA (as_leaves x0) eq_refl) as E. rewrite E in EcnA. congruence. }
    subst cnA. apply (tracks_ext mn (fun s => sl1 (cn_of (eps := eps) (mx := mx) (path s)) b i)); [intros s; now rewrite C|].
    apply Y; auto. now rewrite MA.
  - intros mn t0 path q qA b HS [MA MS MD] Eq EqA Hb i Hi Ri.
    assert (NC : needs_charges (Pany (N := NR) XR "d4")) by (eexists; split; [left; reflexivity|reflexivity]).
    assert (NCA : needs_charges (Pany (N := NA) XA "d4")) by (eexists; split; [left; reflexivity|reflexivity]).
    assert (C : forall s, q s = Some (q_of (eps := eps) (mx := mx) (path s))).
    { intros s. destruct (proj1 (Eq s) NC) as (u & -> & E). cbn in E. f_equal.
      pose proof (ex_q (eps := eps) (mx := mx) (path s) (MS s)) as E'. unfold eeq_cut in E. cbn in E. cbn in E'. congruence. }
    destruct (proj1 EqA NCA) as (u & -> & E). cbn [opt_atA].
    assert (CA : u = qA_of XA (as_leaves x0)).
    { assert (E' : Ok u = Ok (qA_of XA (as_leaves x0))) by (rewrite <- E; exact (ex_qA (eps := eps) (mx := mx) XA (as_leaves x0) eq_refl)). congruence. }
    subst u. apply (tracks_ext mn (fun s => opt_at (eps := eps) (mx := mx) (Some (q_of (eps := eps) (mx := mx) (path s))) b i)); [intros s; now rewrite C|].
    destruct (ex_smooth He mn HS XA (S0 mn HS) path (as_leaves x0) t0 MS eq_refl) with (b := b) as [_ Y _]; auto; [now rewrite MA|].
    exact (Y i Hi Ri).
Qed.

Lemma ex_smooth_at b : valid [2%nat] b ->
  smooth_at XR (Pany (N := NR) XR "d4") D4M no_kw (gcall (N := NR) two_mols x0) (sl1 (cn_of (eps := eps) (mx := mx) x0) b)
    (opt_at (eps := eps) (mx := mx) (Some (q_of (eps := eps) (mx := mx) x0)) b) 1 0 3 3 b.
Proof.
  intros Hb.
  apply (sl_at _ _ _ _ _ _ _ _ _ _ _ _ _ _ _ _ (ex_smooth He (M := Fwd) eq fwd_sound (Xad _ eps mx)
    (Xad_carries (M := Fwd) eq eps mx 1 0 fwd_sound ltac:(lra) ltac:(lra)) (fun _ => x0) (mkT [3; 3; 2]%nat (fun ix => acon (dat x0 ix))) 0
    (fun _ => eq_refl) eq_refl (fun _ => eq_refl) (fun b i k _ _ _ => conj eq_refl (ex_intro _ 0 (conj (derivable_pt_lim_const _ _) eq_refl))) b Hb)).
Qed.

Example C68_example :
  exists eA, run (N := NA) XA (Wany (N := NA) XA) (Pany (N := NA) XA "d4") (gcall (N := NA) two_mols (as_leaves x0)) = Ok eA /\ shp eA = [3; 2]%nat /\
    forall b, valid [2%nat] b ->
      (forall k, (k < 3)%nat -> rsum 3 (fun i => gradient eA 3 b i k) = 0) /\
      (forall k l, (k < 3)%nat -> (l < 3)%nat ->
         rsum 3 (fun i => sl2 x0 b i k * gradient eA 3 b i l - sl2 x0 b i l * gradient eA 3 b i k) = 0).
Proof.
  assert (T : forall b, valid [2%nat] b -> exists eA, run (N := NA) XA (Wany (N := NA) XA) (Pany (N := NA) XA "d4") (gcall (N := NA) two_mols (as_leaves x0)) = Ok eA /\ shp eA = [3; 2]%nat /\
      (forall k, (k < 3)%nat -> rsum 3 (fun i => gradient eA 3 b i k) = 0) /\
      (forall k l, (k < 3)%nat -> (l < 3)%nat ->
         rsum 3 (fun i => sl2 x0 b i k * gradient eA 3 b i l - sl2 x0 b i l * gradient eA 3 b i k) = 0)).
  { intros b Hb.
    apply (C68_no_net_force_no_net_torque XR XA (Wany (N := NR) XR) (Wany (N := NA) XA) (Pany (N := NR) XR "d4") (Pany (N := NA) XA "d4")
      (gcall (N := NR) two_mols x0) (gcall (N := NA) two_mols (as_leaves x0)) D4M no_kw no_kw 3 3 [2%nat] 1 0 (cn_of (eps := eps) (mx := mx) x0) (Some (q_of (eps := eps) (mx := mx) x0)) b); auto.
    - apply cn_any_contract.
    - apply eeq_any_contract.
    - left. reflexivity.
    - apply ex_grad_call.
    - split; [|intros NC; elim NC; eexists; split; [left; reflexivity|reflexivity]].
      intros _. exists (q_of (eps := eps) (mx := mx) x0). split; [reflexivity|]. apply (ex_q x0 eq_refl).
    - now apply ex_smooth_at. }
  destruct (T [0%nat]) as (eA & E & S & _); [cbn; auto|]. exists eA. split; [exact E|]. split; [exact S|].
  intros b Hb. destruct (T b Hb) as (eA' & E' & _ & Y). assert (eA' = eA) by congruence. now subst.
Qed.
End Ex.
