(** * C72: derivatives of the results of [get_properties] and of the methods of the models *)
From Coq Require Import Reals Lra Lia List Arith ZArith QArith Qreals Bool String.
From Verif Require Import Py Tensor Scalar RInst AdInst ModelExt ModelUtils ModelDamping ModelModels
  ModelTerms ModelDisp Spec SpecCall SpecR SpecMol SpecW SpecD4 SpecProps TensorLemmas Closed ClosedM ClosedTerms ClosedModels
  ClosedDamp ClosedDisp CallLemmas Usable PropsOutcome PropsDiff PropsD4 EnergyR PropsAD SpecADN AdN AdG AdNW AdNT PropsADN.
From Verif Require SpecAD.
Import ListNotations.
Open Scope R_scope.

(** ** Specification *)
Section S.
Context {eps mx : R} (T : Tracking).
Notation P := (TP T).
Notation t := (Tp0 T).
Notation NR := (RN eps mx).
Notation NA := (LN T).

(** The same call of [get_properties] near [t], without derivatives, and at [t], with derivatives.
    The coordinates and the total charge may depend on the parameters; [cn] and [q] are the
    coordination numbers and charges of the external functions, [c6] and [alpha] the results. *)
Record same_props (X : Ext (RS eps mx)) (XA : Ext T) (W : World NR) (WA : World NA) (numbers : tensor Z)
  (pos : P -> tensor R) (posA : tensor T) (charge : P -> option (tensor R)) (chargeA : option (tensor T))
  (cutoff : option (Cutoff (sc NR))) (cutoffA : option (Cutoff (sc NA))) (n : nat) (B : list nat) (d0 ds : R)
  (cn q : P -> tensor R) (cnA qA : tensor T) (c6 alpha : P -> tensor R) : Prop := mkSameProps {
  sp_tables : ext_tables X /\ ext_tables XA;
  sp_ext : ext_ad T d0 ds X XA;
  sp_near : Tnear T (fun s =>
     properties_of W numbers (pos s) (charge s) cutoff n B (cn s) (q s) /\
     get_properties (N := NR) X W numbers (pos s) (charge s) cutoff = Ok (cn s, q s, c6 s, alpha s));
  sp_cn : w_cn_d4 WA None numbers posA = Ok cnA /\ shp cnA = (n :: B)%list;
  sp_q : w_eeq WA numbers posA (match chargeA with Some c => c | None => scal (flit (s := T) 0) end)
      (match cutoffA with Some c => c_cn_eeq c | None => scal (flit (s := T) 25) end) = Ok qA /\ shp qA = (n :: B)%list }.

(** In molecule [b], coordination numbers and charges of the real atoms carry their derivatives along,
    and the charge scaling is branch-free there. *)
Record smooth_props (X : Ext (RS eps mx)) (numbers : tensor Z) (n : nat) (cn q : P -> tensor R) (cnA qA : tensor T) (b : list nat) : Prop := mkSmoothProps {
  so_cn : trk_atoms T numbers n b (fun s => sl1 (cn s) b) (sl1 cnA b);
  so_q : trk_atoms T numbers n b (fun s => sl1 (q s) b) (sl1 qA b);
  so_charge : forall i, (i < n)%nat -> real_atom numbers b i ->
     (exists q0, (forall s, sl1 (q s) b i = q0) /\ fixedT (T := T) q0 (sl1 qA b i)) \/
     smooth_charge X (Z.to_nat (sl1 numbers b i)) (sl1 (q t) b i) }.

(** the same model, built with and without derivatives *)
Record same_model (X : Ext (RS eps mx)) (XA : Ext T) kind cls (kw : mkwargs NR) (kwA : mkwargs NA) (numbers : tensor Z)
  (n : nat) (B : list nat) (d0 ds : R) (m : Model NR) (mA : Model NA) : Prop := mkSameModel {
  sd_tables : ext_tables X /\ ext_tables XA;
  sd_ext : ext_ad T d0 ds X XA;
  sd_kind : kind = D4M \/ kind = D4SM;
  sd_numbers : shp numbers = (n :: B)%list;
  sd_elements : elements_ok (kw_ref kw) numbers;
  sd_kw : kw_ad T kw kwA;
  sd_kw_ok : kw_ok kind kw n B /\ kw_ok kind kwA n B;
  sd_new : new_model (N := NR) X kind cls numbers kw = Ok m;
  sd_newA : new_model (N := NA) XA kind cls numbers kwA = Ok mA }.
(** the weight of reference [r] of atom [i] in the presence of atom [j], in the returned tensor *)
Definition wt_at {A} (kind : mkind) (gw : tensor A) (b : list nat) (i j r : nat) : A :=
  match kind with D4M => sl2 gw b i r | _ => sl3 gw b j i r end.
End S.

(** ** The closed form of [get_properties], for any numbers *)
Section Gen.
Context {N : Num} (X : Ext (sc N)).
Notation K := (sc N).
Lemma properties_closed (W : World N) numbers positions charge cutoff n B (cn q : tensor K) :
  ext_tables X -> shp numbers = (n :: B)%list -> elements_ok "eeq" numbers ->
  w_cn_d4 W None numbers positions = Ok cn -> shp cn = (n :: B)%list ->
  w_eeq W numbers positions (default charge (scal f0)) (c_cn_eeq (default cutoff default_cutoff)) = Ok q -> shp q = (n :: B)%list ->
  exists m c6 alpha, new_model X D4M (class_name D4M) numbers no_kw = Ok m /\ is_model (N := N) X m D4M no_kw numbers n B /\
    get_properties (N := N) X W numbers positions charge cutoff = Ok (cn, q, c6, alpha) /\
    shp c6 = (n :: n :: B)%list /\ shp alpha = (n :: B)%list /\
    forall b i j, valid B b -> (i < n)%nat -> (j < n)%nat ->
      sl2 c6 b i j = c6m (N := N) X m (Some cn) (Some q) b i j /\
      sl1 alpha b i = wpm (N := N) X m (Some cn) (Some q) n b 0 i.
Proof.
  intros HX Hn Hel Ecn Scn Eq Sq.
  assert (HK : kw_ok (N := N) D4M no_kw n B) by (split; [reflexivity|exact Logic.I]).
  destruct (new_model_ok (N := N) X D4M (class_name D4M) numbers no_kw n B HX (or_introl eq_refl) Hn HK Hel) as (m & Em & Hm).
  destruct (weight_references_ev (N := N) X m n B (Some cn) (Some q) (proj1 Hm) Scn Sq) as (gw & Ew & Hw).
  destruct (get_atomic_c6_ev (N := N) X m n B (Some cn) (Some q) gw (proj1 Hm) Hw) as (c6 & E6 & S6 & V6).
  pose proof Hm as ((_ & Hkn & Hnm & Hr & _) & Hkd & _).
  assert (D4s : is_d4s m = false) by (unfold is_d4s; now rewrite Hkd). rewrite D4s in Hw.
  destruct (get_polarizabilities_ev (K := K) X (m_numbers m) n B (m_ga m) (m_gc m) (m_ref m) gw _ HX Hkn Hnm Hr Hw)
    as (alpha & Ea & Sa & Va).
  exists m, c6, alpha. split; [exact Em|]. split; [exact Hm|]. split.
  { unfold get_properties. rewrite Ecn. cbn [bind]. rewrite Eq. cbn [bind]. rewrite Em. cbn [bind]. rewrite Ew. cbn [bind].
    rewrite E6. cbn [bind]. unfold model_polarizabilities. rewrite Ea. reflexivity. }
  split; [exact S6|]. split; [exact Sa|]. intros b i j Hb Hi Hj. split.
  - unfold sl2. rewrite V6 by (repeat split; auto). reflexivity.
  - unfold sl1. rewrite Va by (repeat split; auto). reflexivity.
Qed.
End Gen.

Lemma charge_R {eps mx} (o : option (tensor (sc (RN eps mx)))) :
  default o (scal f0) = match o with Some c => c | None => scal (0 : sc (RN eps mx)) end.
Proof. destruct o; [reflexivity|]. change (@scal R (Q2R 0) = scal 0). now rewrite Q2R_0. Qed.
Lemma cutoff_R {eps mx} (o : option (Cutoff (sc (RN eps mx)))) :
  c_cn_eeq (default o default_cutoff) = match o with Some c => c_cn_eeq c | None => scal (25 : sc (RN eps mx)) end.
Proof. destruct o; [reflexivity|]. change (@scal R (Q2R 25) = scal 25). f_equal. unfold Q2R. simpl. lra. Qed.

(** ** The theorems *)
Section P.
Context {eps mx : R} {T : Tracking}.
Notation t := (Tp0 T).
Notation P := (TP T).
Notation KR := (RS eps mx).
Notation KA := (sl_sc (TK T)).
Notation NR := (RN eps mx).
Notation NA := (LN T).

Lemma charge_cases (X : Ext KR) numbers n cn (q : P -> tensor R) cnA (qA : tensor KA) b : smooth_props T X numbers n cn q cnA qA b ->
  forall i, (i < n)%nat -> real_atom numbers b i ->
  (exists q0, (forall s, cnq (N := NR) (Some (q s)) (i :: b) = q0) /\ fixedT (T := T) q0 (cnq (N := NA) (Some qA) (i :: b))) \/
  (Ttrk T (fun s => cnq (N := NR) (Some (q s)) (i :: b)) (cnq (N := NA) (Some qA) (i :: b)) /\
   smooth_charge X (Z.to_nat (sl1 numbers b i)) (cnq (N := NR) (Some (q t)) (i :: b))).
Proof.
  intros [_ Hq Hs] i Hi R. destruct (Hs i Hi R) as [F|S]; [left; exact F|right]. split; [exact (Hq i Hi R)|exact S].
Qed.

Theorem C72_properties_carried : forall (X : Ext KR) (XA : Ext KA) W WA numbers pos posA charge chargeA cutoff cutoffA n B d0 ds cn q cnA qA c6 alpha,
  Laws (eps := eps) (mx := mx) T -> 1 <= mx ->
  same_props T X XA W WA numbers pos posA charge chargeA cutoff cutoffA n B d0 ds cn q cnA qA c6 alpha ->
  exists c6A alphaA, get_properties (N := NA) XA WA numbers posA chargeA cutoffA = Ok (cnA, qA, c6A, alphaA) /\
    shp c6A = (n :: n :: B)%list /\ shp alphaA = (n :: B)%list /\
    forall b i j, valid B b -> (i < n)%nat -> (j < n)%nat -> smooth_props T X numbers n cn q cnA qA b ->
      Ttrk T (fun s => sl2 (c6 s) b i j) (sl2 c6A b i j) /\
      Ttrk T (fun s => sl1 (alpha s) b i) (sl1 alphaA b i).
Proof.
  intros X XA W WA numbers pos posA charge chargeA cutoff cutoffA n B d0 ds cn q cnA qA c6 alpha L Hm
    [(HX & HXA) HE HN (Ecn & Scn) (Eq & Sq)].
  destruct (w_pt T L _ HN) as (PO & _).
  assert (HEl : elements_ok "eeq" numbers).
  { left. rewrite (pr_numbers _ _ _ _ _ _ _ _ _ PO). split; [reflexivity|]. intros [|i b] V; [destruct V|].
    destruct V as (V1 & V2). exact (pr_elements _ _ _ _ _ _ _ _ _ PO b i V2 V1). }
  pose proof (pr_numbers _ _ _ _ _ _ _ _ _ PO) as Hn.
  destruct (properties_closed (N := NA) XA WA numbers posA chargeA cutoffA n B cnA qA HXA Hn HEl Ecn Scn) as
    (mA & c6A & alA & EmA & HMA & Er & S6 & Sa & VA).
  { refine (eq_trans _ Eq). destruct chargeA, cutoffA; reflexivity. }
  { exact Sq. }
  exists c6A, alA. split; [exact Er|]. split; [exact S6|]. split; [exact Sa|]. intros b i j Hb Hi Hj Sm.
  assert (HK : kw_ok (N := NR) D4M no_kw n B) by (split; [reflexivity|exact Logic.I]).
  destruct (new_model_ok (N := NR) X D4M (class_name D4M) numbers no_kw n B HX (or_introl eq_refl) Hn HK HEl) as (m & Em & HM).
  assert (VR : Tnear T (fun s => @eq R (c6m (N := NR) X m (Some (cn s)) (Some (q s)) b i j) (sl2 (c6 s) b i j) /\
                 @eq R (wpm (N := NR) X m (Some (cn s)) (Some (q s)) n b 0 i) (sl1 (alpha s) b i))).
  { refine (w_mono T L _ _ _ HN). intros s ([P1 P2 P3 P4 P5 P6] & E).
    destruct (properties_closed (N := NR) X W numbers (pos s) (charge s) cutoff n B (cn s) (q s) HX Hn HEl P3 P4) as
      (m' & c6' & al' & Em' & _ & Er' & _ & _ & V).
    { exact (eq_trans (f_equal2 (w_eeq W numbers (pos s)) (charge_R (charge s)) (cutoff_R cutoff)) P5). }
    { exact P6. }
    rewrite Em in Em'. assert (m' = m) by congruence. subst m'.
    assert (Q : Ok (cn s, q s, c6' , al') = Ok (cn s, q s, c6 s, alpha s)) by (rewrite <- E; symmetry; exact Er').
    injection Q as -> ->. destruct (V b i j Hb Hi Hj) as (V1 & V2). split; symmetry; assumption. }
  destruct (VA b i j Hb Hi Hj) as (V6 & Va). rewrite V6, Va.
  assert (Hkw : kw_ad T (eps := eps) (mx := mx) no_kw no_kw) by (split; [reflexivity|repeat split]).
  pose proof (charge_cases X numbers n cn q cnA qA b Sm) as Hq.
  split.
  - apply (w_loc T L (fun s => c6m (N := NR) X m (Some (cn s)) (Some (q s)) b i j)).
    { refine (w_mono T L _ _ _ VR). intros s (H & _). exact H. }
    apply (r_c6m L X XA HE Hm D4M no_kw no_kw numbers n B m mA HM HMA Hkw (or_introl eq_refl) b Hb cn cnA (fun s => Some (q s)) (Some qA)); auto.
    exact (so_cn _ _ _ _ _ _ _ _ _ Sm).
  - apply (w_loc T L (fun s => wpm (N := NR) X m (Some (cn s)) (Some (q s)) n b 0 i)).
    { refine (w_mono T L _ _ _ VR). intros s (_ & H). exact H. }
    apply (r_wpm L X XA HE Hm D4M no_kw no_kw numbers n B m mA HM HMA Hkw (or_introl eq_refl) b Hb cn cnA (fun s => Some (q s)) (Some qA)); auto.
    exact (so_cn _ _ _ _ _ _ _ _ _ Sm).
Qed.

(** The weights and C6 coefficients a D4 or D4S model computes from coordination numbers and charges. *)
Theorem C72_weights_carried : forall (X : Ext KR) (XA : Ext KA) kind cls kw kwA numbers n B d0 ds m mA cn q (cnA qA : tensor KA) gw c6,
  Laws (eps := eps) (mx := mx) T -> 1 <= mx ->
  same_model T X XA kind cls kw kwA numbers n B d0 ds m mA -> shp cnA = (n :: B)%list -> shp qA = (n :: B)%list ->
  Tnear T (fun s => shp (cn s) = (n :: B)%list /\ shp (q s) = (n :: B)%list /\
    weight_references (N := NR) X m (Some (cn s)) (Some (q s)) = Ok (gw s) /\ get_atomic_c6 (N := NR) m (gw s) = Ok (c6 s)) ->
  exists gwA c6A, weight_references (N := NA) XA mA (Some cnA) (Some qA) = Ok gwA /\ get_atomic_c6 (N := NA) mA gwA = Ok c6A /\
    forall b i j, valid B b -> (i < n)%nat -> (j < n)%nat -> smooth_props T X numbers n cn q cnA qA b ->
      (forall r, (r < 7)%nat -> Ttrk T (fun s => wt_at kind (gw s) b i j r) (wt_at kind gwA b i j r)) /\
      Ttrk T (fun s => sl2 (c6 s) b i j) (sl2 c6A b i j).
Proof.
  intros X XA kind cls kw kwA numbers n B d0 ds m mA cn q cnA qA gw c6 L Hm [(HX & HXA) HE HK Hn Hel Hkw (K1 & K2) Em EmA] Scn Sq HN.
  destruct (new_model_ok (N := NR) X kind cls numbers kw n B HX HK Hn K1 Hel) as (m' & Em' & HM).
  rewrite Em in Em'. assert (m' = m) by congruence. subst m'. clear Em'.
  assert (HelA : elements_ok (default (k_ref kwA) "eeq"%string) numbers) by (rewrite (proj1 Hkw); exact Hel).
  destruct (new_model_ok (N := NA) XA kind cls numbers kwA n B HXA HK Hn K2 HelA) as (m' & Em' & HMA).
  assert (Q : Ok m' = Ok mA) by (rewrite <- Em'; exact EmA). injection Q as ->. clear Em'.
  destruct (weight_references_ev (N := NA) XA mA n B (Some cnA) (Some qA) (proj1 HMA) Scn Sq) as (gwA & EwA & HwA).
  destruct (get_atomic_c6_ev (N := NA) XA mA n B (Some cnA) (Some qA) gwA (proj1 HMA) HwA) as (c6A & E6A & S6A & V6A).
  exists gwA, c6A. split; [exact EwA|]. split; [exact E6A|]. intros b i j Hb Hi Hj Sm.
  assert (KD : m_kind m = kind) by apply HM. assert (KDA : m_kind mA = kind) by apply HMA.
  assert (EV : Tnear T (fun s =>
    (forall r, (r < 7)%nat -> @eq R (wt_of (N := NR) X m (Some (cn s)) (Some (q s)) b i j r) (wt_at kind (gw s) b i j r)) /\
    @eq R (c6m (N := NR) X m (Some (cn s)) (Some (q s)) b i j) (sl2 (c6 s) b i j))).
  { refine (w_mono T L _ _ _ HN). intros s (S1 & S2 & E1 & E2).
    destruct (weight_references_ev (N := NR) X m n B (Some (cn s)) (Some (q s)) (proj1 HM) S1 S2) as (w & Ew & Hw).
    assert (Q : Ok w = Ok (gw s)) by (rewrite <- Ew; exact E1). injection Q as ->.
    destruct (get_atomic_c6_ev (N := NR) X m n B (Some (cn s)) (Some (q s)) _ (proj1 HM) Hw) as (c & Ec & Sc & Vc).
    assert (Q : Ok c = Ok (c6 s)) by (rewrite <- Ec; exact E2). injection Q as ->. split.
    - intros r Hr. unfold wt_at, is_d4s in *. rewrite KD in Hw. destruct HK; subst kind; destruct Hw as (_ & Vw); unfold sl2, sl3; rewrite Vw by (repeat split; auto); cbn [ix2 ix3 hd tl]; [|reflexivity].
      unfold wt_of, wf_of, is_d4s. rewrite KD. reflexivity.
    - unfold sl2. rewrite Vc by (repeat split; auto). reflexivity. }
  pose proof (charge_cases X numbers n cn q cnA qA b Sm) as Hq. pose proof (so_cn _ _ _ _ _ _ _ _ _ Sm) as Hc.
  split.
  - intros r Hr. apply (w_loc T L (fun s => wt_of (N := NR) X m (Some (cn s)) (Some (q s)) b i j r)).
    { refine (w_mono T L _ _ _ EV). intros s (H & _). exact (H r Hr). }
    assert (VA : wt_at kind gwA b i j r = wt_of (N := NA) XA mA (Some cnA) (Some qA) b i j r).
    { unfold wt_at, is_d4s in *. rewrite KDA in HwA. destruct HK; subst kind; destruct HwA as (_ & Vw); unfold sl2, sl3; rewrite Vw by (repeat split; auto); cbn [ix2 ix3 hd tl]; [|reflexivity].
      unfold wt_of, wf_of, is_d4s. rewrite KDA. reflexivity. }
    rewrite VA.
    apply (r_wt L X XA HE Hm kind kw kwA numbers n B m mA HM HMA Hkw HK b Hb cn cnA (fun s => Some (q s)) (Some qA)); auto.
  - apply (w_loc T L (fun s => c6m (N := NR) X m (Some (cn s)) (Some (q s)) b i j)).
    { refine (w_mono T L _ _ _ EV). intros s (_ & H). exact H. }
    assert (VA : sl2 c6A b i j = c6m (N := NA) XA mA (Some cnA) (Some qA) b i j).
    { unfold sl2. rewrite V6A by (repeat split; auto). reflexivity. }
    rewrite VA.
    apply (r_c6m L X XA HE Hm kind kw kwA numbers n B m mA HM HMA Hkw HK b Hb cn cnA (fun s => Some (q s)) (Some qA)); auto.
Qed.
End P.

(** ** Second derivatives by two backward passes *)
(** gradient of one result [d] for leaf [j1], and gradient of that gradient for leaf [j2] *)
Definition grad_of {eps mx J} (d : Grad2 eps mx J) (j1 : J) : Grad1 eps mx J := grad_entry 1 (fun _ => 1) (fun _ => d) j1.
Definition hess_of {eps mx J} (d : Grad2 eps mx J) (j1 j2 : J) : R := hess_entry 1 (fun _ => 1) (fun _ => d) j1 j2.
Section Hessian.
Context {eps mx : R} {J : Type}.
Notation K2 := (Grad2 eps mx J).
Notation Tn j1 j2 x1 x2 := (Tb2 eps mx (J := J) j1 j2 x1 x2).
Lemma der_ext f g x l l' : (forall s, f s = g s) -> l = l' -> derivable_pt_lim f x l -> derivable_pt_lim g x l'.
Proof. intros H <-. now apply derivable_pt_lim_ext. Qed.
Lemma two_passes (d : K2) (f : R -> R -> R) j1 j2 x1 x2 : Ttrk (Tn j1 j2 x1 x2) (two f) d ->
  derivable_pt_lim (fun s1 => f s1 x2) x1 (fst (grad_of d j1)) /\ second_derivative f x1 x2 (hess_of d j1 j2).
Proof.
  intros H. destruct (hessian_of 1 (fun _ => 1) (fun _ => d) (fun _ => f) j1 j2 x1 x2 (fun i _ => H)) as (H1 & D & (r & Hr & H2) & H3).
  cbn [rsum] in *. split.
  - revert H1. apply der_ext; [intros; ring|reflexivity].
  - exists D. split; [|exact H3]. exists r. split; [exact Hr|]. intros s2 Hs. generalize (H2 s2 Hs). apply der_ext; [intros; ring|reflexivity].
Qed.

Theorem C72_hessian : forall (X : Ext (RS eps mx)) (XA : Ext K2) (W : World (RN eps mx)) (WA : World (LN K2)) numbers
    (pos : J -> J -> R -> R -> tensor R) (posA : tensor K2) (charge : J -> J -> R -> R -> option (tensor R)) (chargeA : option (tensor K2))
    (cutoff : option (Cutoff (sc (RN eps mx)))) (cutoffA : option (Cutoff (sc (LN K2)))) n B d0 ds
    (x1 x2 : J -> J -> R) (cn q : J -> J -> R -> R -> tensor R) (cnA qA : tensor K2) (c6 alpha : J -> J -> R -> R -> tensor R) (j0 : J),
  1 <= mx ->
  (forall j1 j2, same_props (Tn j1 j2 (x1 j1 j2) (x2 j1 j2)) X XA W WA numbers (two (pos j1 j2)) posA (two (charge j1 j2)) chargeA cutoff cutoffA n B d0 ds
     (two (cn j1 j2)) (two (q j1 j2)) cnA qA (two (c6 j1 j2)) (two (alpha j1 j2))) ->
  exists c6A alphaA, get_properties (N := LN K2) XA WA numbers posA chargeA cutoffA = Ok (cnA, qA, c6A, alphaA) /\
    shp c6A = (n :: n :: B)%list /\ shp alphaA = (n :: B)%list /\
    forall b i j j1 j2, valid B b -> (i < n)%nat -> (j < n)%nat ->
      let u1 := x1 j1 j2 in let u2 := x2 j1 j2 in
      smooth_props (Tn j1 j2 u1 u2) X numbers n (two (cn j1 j2)) (two (q j1 j2)) cnA qA b ->
      derivable_pt_lim (fun s1 => sl2 (c6 j1 j2 s1 u2) b i j) u1 (fst (grad_of (sl2 c6A b i j) j1)) /\
      second_derivative (fun s1 s2 => sl2 (c6 j1 j2 s1 s2) b i j) u1 u2 (hess_of (sl2 c6A b i j) j1 j2) /\
      derivable_pt_lim (fun s1 => sl1 (alpha j1 j2 s1 u2) b i) u1 (fst (grad_of (sl1 alphaA b i) j1)) /\
      second_derivative (fun s1 s2 => sl1 (alpha j1 j2 s1 s2) b i) u1 u2 (hess_of (sl1 alphaA b i) j1 j2).
Proof.
  intros X XA W WA numbers pos posA charge chargeA cutoff cutoffA n B d0 ds x1 x2 cn q cnA qA c6 alpha j0 Hm H.
  pose proof (fun j1 j2 => C72_properties_carried (T := Tn j1 j2 (x1 j1 j2) (x2 j1 j2)) _ _ _ _ _ _ _ _ _ _ _ _ _ _ _ _ _ _ _ _ _
     (Tb2_laws j1 j2 (x1 j1 j2) (x2 j1 j2)) Hm (H j1 j2)) as C.
  destruct (C j0 j0) as (c6A & alA & Er & S6 & Sa & _). exists c6A, alA. split; [exact Er|]. split; [exact S6|]. split; [exact Sa|].
  intros b i j j1 j2 Hb Hi Hj u1 u2 Sm. destruct (C j1 j2) as (c6A' & alA' & Er' & _ & _ & Tr).
  assert (Q : Ok (cnA, qA, c6A', alA') = Ok (cnA, qA, c6A, alA)) by exact (eq_trans (eq_sym Er') Er). injection Q as -> ->.
  destruct (Tr b i j Hb Hi Hj Sm) as (T6 & Ta).
  destruct (two_passes (sl2 c6A b i j) (fun s1 s2 => sl2 (c6 j1 j2 s1 s2) b i j) j1 j2 u1 u2 T6) as (A1 & A2).
  destruct (two_passes (sl1 alA b i) (fun s1 s2 => sl1 (alpha j1 j2 s1 s2) b i) j1 j2 u1 u2 Ta) as (A3 & A4). auto.
Qed.

(** ** Derivatives of any order by nested forward passes *)
Theorem C72_forward_orders : forall (k : nat) (x : Rk k), let T := Tf eps mx k x in
  forall (X : Ext (RS eps mx)) (XA : Ext T) W WA numbers (pos : Rk k -> tensor R) posA charge chargeA cutoff cutoffA n B d0 ds
    (cn q : Rk k -> tensor R) cnA qA (c6 alpha : Rk k -> tensor R),
  1 <= mx ->
  same_props T X XA W WA numbers (fun s => pos (par k x s)) posA (fun s => charge (par k x s)) chargeA cutoff cutoffA n B d0 ds
     (fun s => cn (par k x s)) (fun s => q (par k x s)) cnA qA (fun s => c6 (par k x s)) (fun s => alpha (par k x s)) ->
  exists c6A alphaA, get_properties (N := LN T) XA WA numbers posA chargeA cutoffA = Ok (cnA, qA, c6A, alphaA) /\
    shp c6A = (n :: n :: B)%list /\ shp alphaA = (n :: B)%list /\
    forall b i j, valid B b -> (i < n)%nat -> (j < n)%nat ->
      smooth_props T X numbers n (fun s => cn (par k x s)) (fun s => q (par k x s)) cnA qA b ->
      mixed k (fun s => sl2 (c6 s) b i j) x (top k x (sl2 c6A b i j)) /\
      mixed k (fun s => sl1 (alpha s) b i) x (top k x (sl1 alphaA b i)).
Proof.
  intros k x T X XA W WA numbers pos posA charge chargeA cutoff cutoffA n B d0 ds cn q cnA qA c6 alpha Hm H.
  destruct (C72_properties_carried _ _ _ _ _ _ _ _ _ _ _ _ _ _ _ _ _ _ _ _ _ (Tf_laws k x) Hm H) as (c6A & alA & Er & S6 & Sa & Tr).
  exists c6A, alA. split; [exact Er|]. split; [exact S6|]. split; [exact Sa|]. intros b i j Hb Hi Hj Sm.
  destruct (Tr b i j Hb Hi Hj Sm) as (T6 & Ta). split.
  - apply (mixed_ext k x (fun s => sl2 (c6 (par (eps := eps) (mx := mx) k x (rap k x s))) b i j)); [intros s; now rewrite par_rap|]. exact (Tf_mixed k x _ _ T6).
  - apply (mixed_ext k x (fun s => sl1 (alpha (par (eps := eps) (mx := mx) k x (rap k x s))) b i)); [intros s; now rewrite par_rap|]. exact (Tf_mixed k x _ _ Ta).
Qed.
End Hessian.

(** ** Example: water and carbon monoxide, all 18 coordinates as leaves *)
From Verif Require Import PropsC6 Inst InstW SpecBits InstAny PropsProperties.
Open Scope R_scope.
Lemma eeq_any_shape {N : Num} (X : Ext (sc N)) x ch cu q cn : eeq_any X two_mols x ch cu = Ok q -> cn_any X None two_mols x = Ok cn -> shp q = shp cn.
Proof. intros H E. unfold eeq_any in H. rewrite E in H. injection H as <-. reflexivity. Qed.
Section Ex.
Context {eps mx : R} (He : 0 <= eps < 1) (Hm : 1 <= mx).
Notation NR := (RN eps mx).
Notation XR := (Xex eps mx).
Notation WR := (Wany (N := NR) XR).
Notation J := (list nat).
Notation K2 := (Grad2 eps mx J).
Notation cn_of := (cn_of (eps := eps) (mx := mx)).
Notation q_of := (q_of (eps := eps) (mx := mx)).
Notation XA := (XadN K2).
Notation WA := (Wany (N := LN K2) XA).
Notation leaves := (leaves2 (eps := eps) (mx := mx)).
Notation moved := (moved (eps := eps) (mx := mx)).

Lemma ex_props x : shp x = [3; 3; 2]%nat -> properties_of WR two_mols x None None 3 [2%nat] (cn_of x) (q_of x).
Proof.
  intros Hx. pose proof (ex_cn (eps := eps) (mx := mx) x Hx) as Ec. pose proof (ex_q (eps := eps) (mx := mx) x Hx) as Eq.
  assert (S : shp (cn_of x) = [3; 2]%nat).
  { destruct (cn_any_ok (N := NR) XR None two_mols x 3 3 [2%nat] eq_refl Hx) as (u & E & S).
    assert (Q : Ok u = Ok (cn_of x)) by exact (eq_trans (eq_sym E) Ec). injection Q as ->. exact S. }
  constructor.
  - reflexivity.
  - intros b i Hb Hi. apply (two_mols_range (i :: b)). split; auto.
  - exact Ec.
  - exact S.
  - refine (eq_trans _ Eq). change (eeq_any (N := NR) XR two_mols x (@scal R 0) (@scal R 25) = eeq_any (N := NR) XR two_mols x (@scal R (Q2R 0)) (@scal R (Q2R 25))).
    rewrite Q2R_0. replace (Q2R 25) with 25 by (unfold Q2R; simpl; lra). reflexivity.
  - unfold PropsAD.q_of, eeq_any. rewrite Ec. exact S.
Qed.
(** what [get_properties] returns at the coordinates [x] *)
Definition props_at (x : tensor R) : tensor R * tensor R :=
  match get_properties (N := NR) XR WR two_mols x None None with Ok (_, _, c6, alpha) => (c6, alpha) | Raise _ => (x, x) end.
Lemma ex_props_run x : shp x = [3; 3; 2]%nat ->
  get_properties (N := NR) XR WR two_mols x None None = Ok (cn_of x, q_of x, fst (props_at x), snd (props_at x)).
Proof.
  intros Hx. destruct (C61_formula XR WR two_mols x None None 3 [2%nat] (cn_of x) (q_of x) (Xex_tables eps mx) Hm (ex_props x Hx)) as (c6 & al & E & _).
  unfold props_at. rewrite E. reflexivity.
Qed.

Example C72_example : exists cnA qA c6A alphaA,
  get_properties (N := LN K2) XA WA two_mols leaves None None = Ok (cnA, qA, c6A, alphaA) /\
  forall b i j j1 j2, valid [2%nat] b -> (i < 3)%nat -> (j < 3)%nat ->
    let c6 s1 s2 := sl2 (fst (props_at (moved j1 j2 s1 s2))) b i j in
    let al s1 s2 := sl1 (snd (props_at (moved j1 j2 s1 s2))) b i in
    derivable_pt_lim (fun s1 => c6 s1 0) 0 (fst (grad_of (sl2 c6A b i j) j1)) /\
    second_derivative c6 0 0 (hess_of (sl2 c6A b i j) j1 j2) /\
    derivable_pt_lim (fun s1 => al s1 0) 0 (fst (grad_of (sl1 alphaA b i) j1)) /\
    second_derivative al 0 0 (hess_of (sl1 alphaA b i) j1 j2).
Proof.
  set (cnA := PropsADN.cnA_of (T := Tb2 eps mx [] [] 0 0) XA leaves). set (qA := PropsADN.qA_of (T := Tb2 eps mx [] [] 0 0) XA leaves).
  assert (Z : forall j1 j2 ix, dat (moved j1 j2 0 0) ix = dat (line (eps := eps) (mx := mx) 3 [2%nat] 2) ix).
  { intros j1 j2 ix. unfold PropsADN.moved. cbn [dat]. destruct (list_eq_dec Nat.eq_dec ix j1), (list_eq_dec Nat.eq_dec ix j2); ring. }
  assert (XC : forall j1 j2, ext_ad (Tb2 eps mx j1 j2 0 0) 1 0 XR XA).
  { intros j1 j2. apply (XadN_carries (Tb2_laws j1 j2 0 0)); lra. }
  assert (EA : cn_any (N := LN K2) XA None two_mols leaves = Ok cnA).
  { exact (PropsADN.ex_cnA (T := Tb2 eps mx [] [] 0 0) XA leaves eq_refl). }
  assert (SA : shp cnA = [3; 2]%nat).
  { destruct (cn_any_ok (N := LN K2) XA None two_mols leaves 3 3 [2%nat] eq_refl eq_refl) as (u & E & S).
    assert (Q : Ok u = Ok cnA) by exact (eq_trans (eq_sym E) EA). injection Q as ->. exact S. }
  destruct (C72_hessian (J := J) XR XA WR WA two_mols moved leaves (fun _ _ _ _ => None) None None None 3 [2%nat] 1 0 (fun _ _ => 0) (fun _ _ => 0)
     (fun j1 j2 s1 s2 => cn_of (moved j1 j2 s1 s2)) (fun j1 j2 s1 s2 => q_of (moved j1 j2 s1 s2)) cnA qA
     (fun j1 j2 s1 s2 => fst (props_at (moved j1 j2 s1 s2))) (fun j1 j2 s1 s2 => snd (props_at (moved j1 j2 s1 s2))) [] Hm) as (c6A & alA & E & _ & _ & H).
  - intros j1 j2. constructor.
    + split; [apply Xex_tables|apply XadN_tables].
    + apply XC.
    + apply (near_all (Tb2_laws j1 j2 0 0)). intros s. split; [now apply ex_props|now apply ex_props_run].
    + split; [exact EA|exact SA].
    + split; [exact (PropsADN.ex_qA (T := Tb2 eps mx [] [] 0 0) XA leaves eq_refl)|].
      exact (eq_trans (eeq_any_shape (N := LN K2) XA leaves _ _ _ _ (PropsADN.ex_qA (T := Tb2 eps mx [] [] 0 0) XA leaves eq_refl) EA) SA).
  - exists cnA, qA, c6A, alA. split; [exact E|]. intros b i j j1 j2 Hb Hi Hj c6 al. apply (H b i j j1 j2 Hb Hi Hj).
    destruct (ex_smooth He (T := Tb2 eps mx j1 j2 0 0) (Tb2_laws j1 j2 0 0) XA (XC j1 j2) (two (moved j1 j2)) leaves (fun _ => eq_refl) eq_refl (fun ix => Z j1 j2 ix)
      (fun b i k _ _ _ => leaves2_trk j1 j2 (k :: i :: b)) b Hb) as [S1 S2 S3].
    constructor; [exact S1|exact S2|]. intros l Hl Rl. right. refine (SpecAD.sm_charges _ _ _ _ _ _ _ _ _ _ _ _ S3 _ l Hl Rl).
    eexists. split; [left; reflexivity|reflexivity].
Qed.

(** the weights and C6 coefficients of the D4S model, for any two of the coordinates *)
Example C72_weights_example : forall j1 j2 : J, exists m mA (cnA qA gwA c6A : tensor K2) (gw c6 : R -> R -> tensor R),
  cn_any (N := LN K2) XA None two_mols leaves = Ok cnA /\ eeq_any (N := LN K2) XA two_mols leaves (scal (flit (s := K2) 0)) (scal (flit (s := K2) 25)) = Ok qA /\
  weight_references (N := LN K2) XA mA (Some cnA) (Some qA) = Ok gwA /\ get_atomic_c6 (N := LN K2) mA gwA = Ok c6A /\
  new_model (N := NR) XR D4SM "D4SModel" two_mols no_kw = Ok m /\ new_model (N := LN K2) XA D4SM "D4SModel" two_mols no_kw = Ok mA /\
  (forall s1 s2, weight_references (N := NR) XR m (Some (cn_of (moved j1 j2 s1 s2))) (Some (q_of (moved j1 j2 s1 s2))) = Ok (gw s1 s2) /\
     get_atomic_c6 (N := NR) m (gw s1 s2) = Ok (c6 s1 s2)) /\
  forall b i j, valid [2%nat] b -> (i < 3)%nat -> (j < 3)%nat ->
    (forall r, (r < 7)%nat -> second_derivative (fun s1 s2 => wt_at D4SM (gw s1 s2) b i j r) 0 0 (hess_of (wt_at D4SM gwA b i j r) j1 j2)) /\
    second_derivative (fun s1 s2 => sl2 (c6 s1 s2) b i j) 0 0 (hess_of (sl2 c6A b i j) j1 j2).
Proof.
  intros j1 j2.
  set (cnA := PropsADN.cnA_of (T := Tb2 eps mx [] [] 0 0) XA leaves). set (qA := PropsADN.qA_of (T := Tb2 eps mx [] [] 0 0) XA leaves).
  assert (Z : forall ix, dat (moved j1 j2 0 0) ix = dat (line (eps := eps) (mx := mx) 3 [2%nat] 2) ix).
  { intros ix. unfold PropsADN.moved. cbn [dat]. destruct (list_eq_dec Nat.eq_dec ix j1), (list_eq_dec Nat.eq_dec ix j2); ring. }
  assert (XC : ext_ad (Tb2 eps mx j1 j2 0 0) 1 0 XR XA) by (apply (XadN_carries (Tb2_laws j1 j2 0 0)); lra).
  assert (EA : cn_any (N := LN K2) XA None two_mols leaves = Ok cnA).
  { exact (PropsADN.ex_cnA (T := Tb2 eps mx [] [] 0 0) XA leaves eq_refl). }
  assert (SA : shp cnA = [3; 2]%nat).
  { destruct (cn_any_ok (N := LN K2) XA None two_mols leaves 3 3 [2%nat] eq_refl eq_refl) as (u & E & S).
    assert (Q : Ok u = Ok cnA) by exact (eq_trans (eq_sym E) EA). injection Q as ->. exact S. }
  assert (SQ : shp qA = [3; 2]%nat).
  { exact (eq_trans (eeq_any_shape (N := LN K2) XA leaves _ _ _ _ (PropsADN.ex_qA (T := Tb2 eps mx [] [] 0 0) XA leaves eq_refl) EA) SA). }
  assert (HEl : elements_ok "eeq" two_mols) by (left; split; [reflexivity|apply two_mols_range]).
  assert (K1 : kw_ok (N := NR) D4SM no_kw 3 [2%nat]) by (split; [reflexivity|exact Logic.I]).
  assert (K2' : kw_ok (N := LN K2) D4SM no_kw 3 [2%nat]) by (split; [reflexivity|exact Logic.I]).
  destruct (new_model_ok (N := NR) XR D4SM "D4SModel" two_mols no_kw 3 [2%nat] (Xex_tables eps mx) (or_intror eq_refl) eq_refl K1 HEl) as (m & Em & HM).
  destruct (new_model_ok (N := LN K2) XA D4SM "D4SModel" two_mols no_kw 3 [2%nat] (XadN_tables K2) (or_intror eq_refl) eq_refl K2' HEl) as (mA & EmA & _).
  set (gw := fun s1 s2 => match weight_references (N := NR) XR m (Some (cn_of (moved j1 j2 s1 s2))) (Some (q_of (moved j1 j2 s1 s2))) with Ok w => w | Raise _ => moved j1 j2 s1 s2 end).
  set (c6 := fun s1 s2 => match get_atomic_c6 (N := NR) m (gw s1 s2) with Ok w => w | Raise _ => moved j1 j2 s1 s2 end).
  assert (RUN : forall s1 s2, shp (cn_of (moved j1 j2 s1 s2)) = [3; 2]%nat /\ shp (q_of (moved j1 j2 s1 s2)) = [3; 2]%nat /\
     weight_references (N := NR) XR m (Some (cn_of (moved j1 j2 s1 s2))) (Some (q_of (moved j1 j2 s1 s2))) = Ok (gw s1 s2) /\
     get_atomic_c6 (N := NR) m (gw s1 s2) = Ok (c6 s1 s2)).
  { intros s1 s2. destruct (ex_props (moved j1 j2 s1 s2) eq_refl) as [_ _ _ S1 _ S2]. split; [exact S1|]. split; [exact S2|].
    destruct (weight_references_ev (N := NR) XR m 3 [2%nat] (Some (cn_of (moved j1 j2 s1 s2))) (Some (q_of (moved j1 j2 s1 s2))) (proj1 HM) S1 S2) as (w & Ew & Hw).
    destruct (get_atomic_c6_ev (N := NR) XR m 3 [2%nat] _ _ _ (proj1 HM) Hw) as (u & Eu & _).
    assert (G : gw s1 s2 = w) by (unfold gw; rewrite Ew; reflexivity). rewrite G. split; [exact Ew|]. unfold c6. rewrite G, Eu. reflexivity. }
  destruct (C72_weights_carried (T := Tb2 eps mx j1 j2 0 0) XR XA D4SM "D4SModel" no_kw no_kw two_mols 3 [2%nat] 1 0 m mA
    (two (fun s1 s2 => cn_of (moved j1 j2 s1 s2))) (two (fun s1 s2 => q_of (moved j1 j2 s1 s2))) cnA qA (two gw) (two c6) (Tb2_laws j1 j2 0 0) Hm) as (gwA & c6A & RA & RB & H); auto.
  - constructor; auto.
    + split; [apply Xex_tables|apply XadN_tables].
    + split; [reflexivity|repeat split].
  - apply (near_all (Tb2_laws j1 j2 0 0)). intros s. apply RUN.
  - exists m, mA, cnA, qA, gwA, c6A, gw, c6. split; [exact EA|]. split; [exact (PropsADN.ex_qA (T := Tb2 eps mx [] [] 0 0) XA leaves eq_refl)|].
    split; [exact RA|]. split; [exact RB|]. split; [exact Em|]. split; [exact EmA|]. split; [intros; split; apply RUN|].
    intros b i j Hb Hi Hj.
    destruct (ex_smooth He (T := Tb2 eps mx j1 j2 0 0) (Tb2_laws j1 j2 0 0) XA XC (two (moved j1 j2)) leaves (fun _ => eq_refl) eq_refl Z
      (fun b i k _ _ _ => leaves2_trk j1 j2 (k :: i :: b)) b Hb) as [S1 S2 S3].
    destruct (H b i j Hb Hi Hj) as (H1 & H2).
    { constructor; [exact S1|exact S2|]. intros l Hl Rl. right. refine (SpecAD.sm_charges _ _ _ _ _ _ _ _ _ _ _ _ S3 _ l Hl Rl).
      eexists. split; [left; reflexivity|reflexivity]. }
    split; [intros r Hr; apply (two_passes (wt_at D4SM gwA b i j r) (fun s1 s2 => wt_at D4SM (gw s1 s2) b i j r)), H1, Hr|].
    apply (two_passes (sl2 c6A b i j) (fun s1 s2 => sl2 (c6 s1 s2) b i j)), H2.
Qed.
End Ex.
Print Assumptions C72_properties_carried.
Print Assumptions C72_weights_carried.
Print Assumptions C72_hessian.
Print Assumptions C72_forward_orders.
Print Assumptions C72_example.
Print Assumptions C72_weights_example.
