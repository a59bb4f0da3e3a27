(** * Signs in IEEE arithmetic: C6 coefficients, polarizabilities, two-body energies. *)
From Coq Require Import Reals List Arith ZArith QArith Bool String Lia Lra.
From Flocq Require Import Core.Core IEEE754.BinarySingleNaN.
From Verif Require Import Py Tensor Scalar ModelExt ModelUtils ModelDamping ModelModels
  ModelTerms ModelDisp SpecCall TensorLemmas Closed ClosedM ClosedTerms ClosedModels ClosedDamp
  ClosedDisp CallLemmas IeeeInst IeeeP SpecIeee IeeeLib InstIeee PropsPadIeee PropsOutcome Usable InstW InstAny.
Import ListNotations.
Open Scope nat_scope.

(** ** Specification *)
Section S.
Context {prec emax : Z}.
Notation F := (binary_float prec emax).

(** +0, a positive number, +infinity, or NaN *)
Definition nonneg (x : F) : Prop := Bsign x = false.

(** what is required of [exp] and [pow]: no negative results from such arguments *)
Definition libm_sign (L : Libm prec emax) : Prop :=
  (forall x, nonneg (l_exp L x)) /\
  (forall x y, nonneg x -> nonneg (l_pow L x y)) /\
  (forall x k, nonneg x -> nonneg (l_pown L x k)).
End S.

Section T.
Context {prec emax : Z} {Hp : Prec_gt_0 prec} {He : Prec_lt_emax prec emax}.
Context {L : Libm prec emax} {L64 : Libm 53 1024}.
Notation N := (IN prec emax L L64).
Notation F := (binary_float prec emax).
Context (X : Ext (sc N)).

(** what is required of the functions and tables of [tad_mctc]: distances, quotients of nonnegative
    numbers and van-der-Waals radii are not negative *)
Definition ext_sign : Prop :=
  (forall c x y, nonneg (x_dist X c x y : F)) /\
  (forall x y : F, nonneg x -> nonneg y -> nonneg (x_div X x y : F)) /\
  (forall i, nonneg (dat (x_vdw X) i : F)).

(** the scaling and damping parameters of the call are not negative *)
Definition params_nonneg (param : Param (sc N)) : Prop :=
  forall k (x : F), In k ["s6"; "s8"; "s10"; "a1"; "a2"; "rs6"; "rs8"; "bet"]%string ->
    getp param k = Some x -> nonneg x.

(** radii given explicitly are not negative *)
Definition radii_nonneg (a : Args N) : Prop :=
  (forall t, a_r4r2 a = Some t -> forall i, nonneg (dat t i : F)) /\
  (forall t, a_rvdw a = Some t -> forall i, nonneg (dat t i : F)).

(** the terms are two-body terms with a damping function of the package, and three-body terms
    that are switched off by a scaling parameter of zero *)
Definition only_two_body (p : Disp N) (param : Param (sc N)) : Prop :=
  forall t, In t (p_terms p) ->
    (t_class t = TwoBodyTerm /\ exists cls, t_damping t = damping_of X cls) \/
    (t_class t <> TwoBodyTerm /\ is_zero (getd param "s9" dS9 : F)).
End T.

(** ** Proofs *)
Section A.
Context {prec emax : Z} {Hp : Prec_gt_0 prec} {He : Prec_lt_emax prec emax}.
Notation F := (binary_float prec emax).

Lemma nn_add (x y : F) : nonneg x -> nonneg y -> nonneg (Bplus mode_NE x y).
Proof. intros A B. exact (proj1 (plus_nonneg x y A B)). Qed.

Lemma mul_sign (x y : F) : is_nan (Bmult mode_NE x y) = false ->
  Bsign (Bmult mode_NE x y) = xorb (Bsign x) (Bsign y).
Proof.
  intros Hn. pose proof (Bmult_correct prec emax Hp He mode_NE x y) as C.
  destruct (Rlt_bool _ _) in C.
  - destruct C as (_ & _ & C). auto.
  - apply B2SF_inf_inv in C. now rewrite C.
Qed.
Lemma nn_mul (x y : F) : nonneg x -> nonneg y -> nonneg (Bmult mode_NE x y).
Proof.
  unfold nonneg. intros A B. destruct (is_nan (Bmult mode_NE x y)) eqn:E.
  - now destruct (Bmult mode_NE x y).
  - now rewrite mul_sign, A, B.
Qed.

Lemma nn_div (x y : F) : nonneg x -> nonneg y -> nonneg (Bdiv mode_NE x y).
Proof.
  unfold nonneg. intros A B. destruct (Req_dec (B2R y) 0) as [Z|Nz].
  - destruct y as [s|s| |s m e H].
    + destruct x as [t|t| |t m' e' H']; simpl in *; try reflexivity; now subst.
    + destruct x as [t|t| |t m' e' H']; simpl in *; try reflexivity; now subst.
    + now destruct x.
    + exfalso. simpl in B. subst s. simpl in Z.
      assert (0 < F2R (Float radix2 (Z.pos m) e))%R by now apply F2R_gt_0. lra.
  - pose proof (Bdiv_correct prec emax Hp He mode_NE x y Nz) as C.
    destruct (Rlt_bool _ _) in C.
    + destruct C as (_ & _ & C). destruct (is_nan (Bdiv mode_NE x y)) eqn:E.
      * now destruct (Bdiv mode_NE x y).
      * now rewrite C, A, B.
    + apply B2SF_inf_inv in C. now rewrite C, A, B.
Qed.

Lemma nn_sqrt (x : F) : nonneg x -> nonneg (Bsqrt mode_NE x).
Proof.
  unfold nonneg. intros A. pose proof (Bsqrt_correct prec emax Hp He mode_NE x) as (_ & _ & C).
  destruct (is_nan (Bsqrt mode_NE x)) eqn:E; [now destruct (Bsqrt mode_NE x)|now rewrite C].
Qed.

Lemma bratio_sign s m d : Bsign (bratio prec emax s m d) = s.
Proof.
  unfold bratio.
  pose proof (proj2 (Bdiv_correct_aux prec emax Hp He mode_NE s m 0 false d 0)) as C.
  generalize (proj1 (Bdiv_correct_aux prec emax Hp He mode_NE s m 0 false d 0)). intros V.
  rewrite Bsign_SF2B. destruct (Rlt_bool _ _) in C.
  - destruct C as (_ & _ & ->). now destruct s.
  - rewrite C. now destruct s.
Qed.
Lemma nn_lit q : (0 <= Qnum q)%Z -> nonneg (blit prec emax q).
Proof.
  intros H. unfold blit, nonneg. destruct (Qnum q); [reflexivity|apply bratio_sign|lia].
Qed.

Lemma nn_lt0 (x : F) : Bltb (blit prec emax 0) x = true -> nonneg x.
Proof.
  unfold nonneg. change (blit prec emax 0) with (@B754_zero prec emax false).
  destruct x as [[|]|[|]| |[|] m e H]; try discriminate; try reflexivity.
Qed.

(** ** not positive: NaN, -infinity, or a number that is at most zero *)
Definition np (x : F) : Prop := Bltb (B754_zero false) x = false.

Lemma np_cases (x : F) : np x <-> is_nan x = true \/ x = B754_infinity true \/ (is_finite x = true /\ (B2R x <= 0)%R).
Proof.
  unfold np. destruct x as [s|s| |s m e H].
  - split; [right; right; simpl; split; auto; lra|reflexivity].
  - destruct s; split; auto; try discriminate. intros [H|[H|(H & _)]]; discriminate.
  - split; auto.
  - rewrite Bltb_correct by reflexivity. change (B2R (B754_zero false)) with 0%R.
    destruct (Rlt_bool_spec 0 (B2R (B754_finite s m e H))) as [G|G].
    + split; [discriminate|]. intros [A|[A|(_ & A)]]; try discriminate. lra.
    + split; auto.
Qed.

Lemma np_sign (x : F) : is_nan x = true \/ Bsign x = true -> np x.
Proof. unfold np. destruct x as [[|]|[|]| |[|] m e H]; simpl; intros [A|A]; try discriminate; reflexivity. Qed.

Lemma np_add (x y : F) : np x -> np y -> np (Bplus mode_NE x y).
Proof.
  intros A B. apply np_cases in A, B.
  destruct A as [A|[-> |(Fx & A)]].
  { destruct x; try discriminate. destruct y; reflexivity. }
  { destruct B as [B|[-> |(Fy & B)]].
    - destruct y; try discriminate. reflexivity.
    - reflexivity.
    - destruct y as [s|s| |s m e H]; try discriminate; reflexivity. }
  destruct B as [B|[-> |(Fy & B)]].
  { destruct y; try discriminate. destruct x; reflexivity. }
  { destruct x as [s|s| |s m e H]; try discriminate; reflexivity. }
  pose proof (Bplus_correct prec emax Hp He mode_NE x y Fx Fy) as C.
  destruct (Rlt_bool_spec (Rabs (round radix2 (SpecFloat.fexp prec emax) (round_mode mode_NE) (B2R x + B2R y)))
              (bpow radix2 emax)) as [G|G] in C.
  - destruct C as (E & Fz & _). apply np_cases. right; right. split; [exact Fz|]. rewrite E.
    rewrite <- (rnd_0 (prec := prec) (emax := emax)). apply (rnd_mono (Hp := Hp)). lra.
  - destruct C as (E & S). apply B2SF_inf_inv in E. rewrite E. destruct (Bsign x) eqn:Sx; [reflexivity|].
    exfalso. pose proof (sign_nonneg x Sx). pose proof (sign_nonneg y (eq_sym S)).
    replace (B2R x + B2R y)%R with 0%R in G by lra. rewrite rnd_0, Rabs_R0 in G.
    pose proof (bpow_gt_0 radix2 emax). lra.
Qed.

Lemma np_zn (x : F) : zero_or_nan x -> np x.
Proof. intros [[-> | ->] | ->]; reflexivity. Qed.

Lemma np_half (x : F) : nonneg x -> np (Bmult mode_NE (blit prec emax (- (1 # 2))) x).
Proof.
  intros A. apply np_sign. destruct (is_nan _) eqn:E; [now left|right].
  rewrite mul_sign by exact E. rewrite A. change (blit prec emax (- (1 # 2))) with (bratio prec emax true 1 2).
  now rewrite bratio_sign.
Qed.

Lemma np_fold (l : list F) : (forall x, In x l -> np x) -> forall e, np e -> np (fold_left (Bplus mode_NE) l e).
Proof.
  induction l as [|x l IH]; intros H e E; [exact E|]. simpl. apply IH; [intros; apply H; now right|].
  apply np_add; auto. apply H. now left.
Qed.
End A.

Section C.
Context {p1 e1 p2 e2 : Z} {Hp : Prec_gt_0 p2} {He : Prec_lt_emax p2 e2}.
Lemma nn_conv (x : binary_float p1 e1) : nonneg x -> nonneg (bconv p2 e2 x).
Proof.
  unfold nonneg. destruct x as [s|s| |s m e H]; simpl; auto. intros ->.
  pose proof (binary_normalize_correct p2 e2 Hp He mode_NE (cond_Zopp false (Zpos m)) e false) as C.
  cbv zeta in C. destruct (Rlt_bool _ _) in C.
  - destruct C as (_ & _ & C). rewrite C.
    destruct (Rcompare_spec (F2R (Float radix2 (cond_Zopp false (Z.pos m)) e)) 0) as [G|G|G]; auto.
    exfalso. assert (0 < F2R (Float radix2 (cond_Zopp false (Z.pos m)) e))%R by now apply F2R_gt_0. lra.
  - apply B2SF_inf_inv in C. rewrite C.
    apply Rlt_bool_false. apply Rlt_le. now apply F2R_gt_0.
Qed.
End C.

Section P.
Context {prec emax : Z} {Hp : Prec_gt_0 prec} {He : Prec_lt_emax prec emax}.
Context {L : Libm prec emax} {L64 : Libm 53 1024}.
Notation N := (IN prec emax L L64).
Notation KI := (IS prec emax L).
Notation F := (binary_float prec emax).
Notation D := (binary_float 53 1024).

Lemma nn_sum n (f : nat -> F) : (forall j, j < n -> nonneg (f j)) -> nonneg (fsum (K := KI) n f).
Proof.
  intros H. apply (fsum_closed (K := KI) (fun x => nonneg x)); [reflexivity|intros x y; apply nn_add|exact H].
Qed.
Lemma nn_sum64 n (f : nat -> D) : (forall j, j < n -> nonneg (f j)) -> nonneg (fsum (K := db N) n f).
Proof.
  intros H. apply (fsum_closed (K := db N) (fun x => nonneg x)); [reflexivity|intros x y; apply nn_add|exact H].
Qed.

Lemma tab_nonneg (t : list Z) : forallb (Z.leb 0) t = true -> forall z, (0 <= nth z t 0)%Z.
Proof.
  intros H z. destruct (le_lt_dec (List.length t) z) as [G|G]; [rewrite nth_overflow by auto; lia|].
  rewrite forallb_forall in H. apply Z.leb_le, H, nth_In, G.
Qed.
Lemma trap_tab : forallb (Z.leb 0) DataPair.trapzd_weights_tab = true.
Proof. vm_compute. reflexivity. Qed.
Lemma nn_trap w : nonneg (trap_w (K := KI) w : F).
Proof. apply nn_lit. apply (tab_nonneg _ trap_tab). Qed.
Lemma r4_tab : forallb (Z.leb 0) DataPair.r4_over_r2_tab = true.
Proof. vm_compute. reflexivity. Qed.
Lemma nn_r4r2 z : nonneg (dat (R4R2 (K := KI)) [z] : F).
Proof.
  apply nn_sqrt, nn_mul; [now apply nn_lit|]. apply nn_mul.
  - apply nn_lit. apply (tab_nonneg _ r4_tab).
  - apply nn_sqrt, nn_lit. simpl. lia.
Qed.
Lemma nn_thopi : nonneg (thopi (K := KI) : F).
Proof. apply nn_div; now apply nn_lit. Qed.

Context (X : Ext KI).
Context (HL : libm_sign L) (H64 : libm_sign L64).

Lemma nn_aref ga gc ref z r w : nonneg (aref (K := KI) X ga gc ref z r w : F).
Proof.
  unfold aref. destruct (flt _ _) eqn:E; [|reflexivity]. apply nn_lt0. exact E.
Qed.
Lemma nn_rc6v ga gc ref z1 z2 x y : nonneg (rc6v (K := KI) X ga gc ref z1 z2 x y : F).
Proof.
  unfold rc6v. apply nn_mul; [apply nn_thopi|]. apply nn_sum. intros w _.
  apply nn_mul; [apply nn_mul|]; [apply nn_trap|apply nn_aref..].
Qed.
Lemma nn_ztv ga gc ref z q r : nonneg (ztv (N := N) X ga gc ref z q r : F).
Proof.
  unfold ztv. destruct (present _ _); [|reflexivity]. unfold zeta_s. destruct (flt _ _); apply HL.
Qed.
Lemma nn_fold64 (g : nat -> D) l e : (forall i, nonneg (g i)) -> nonneg e ->
  nonneg (fold_left (fun acc i => fadd (s := db N) acc (g i)) l e : D).
Proof. intros H. revert e. induction l as [|i l IH]; intros e E; [exact E|]. simpl. apply IH. now apply nn_add. Qed.
Lemma nn_expw4 z cn wf r : nonneg (expw4 (N := N) z cn wf r : D).
Proof.
  unfold expw4. destruct (present z r); [|reflexivity].
  assert (T : nonneg (tmp4 (N := N) z cn r : D)) by apply H64.
  destruct (Z.eqb 3 _); [|destruct (Z.eqb 1 _); [|exact T]];
    (apply nn_fold64; [intros i; apply H64; exact T|reflexivity]).
Qed.
Lemma nn_expw4s z cn wf r : nonneg (expw4s (N := N) z cn wf r : D).
Proof.
  unfold expw4s. destruct (present z r) eqn:E; [|reflexivity].
  assert (T : nonneg (tmp4s (N := N) z cn wf r : D)) by (unfold tmp4s; rewrite E; apply H64).
  destruct (Z.eqb 3 _); [|destruct (Z.eqb 1 _); [|exact T]];
    (apply nn_fold64; [intros i; apply H64; exact T|reflexivity]).
Qed.
Lemma nn_gwv z (e : nat -> D) r : (forall r, nonneg (e r)) -> nonneg (gwv (N := N) z e r : F).
Proof.
  intros H. unfold gwv. destruct (exceptional _ _).
  - destruct (feq _ _); now apply nn_lit.
  - apply nn_conv. apply nn_div; [apply H|]. unfold normv. destruct (present z r).
    + now apply nn_sum64.
    + now apply nn_lit.
Qed.
Lemma nn_wt m cn q b i j r : nonneg (wt_of (N := N) X m cn q b i j r : F).
Proof.
  unfold wt_of. destruct (is_d4s m); apply nn_mul; try apply nn_ztv; apply nn_gwv;
    intros; [apply nn_expw4s|apply nn_expw4].
Qed.
Lemma nn_c6m m cn q b i j : nonneg (c6m (N := N) X m cn q b i j : F).
Proof.
  unfold c6m, c6_of. apply nn_sum. intros y _. apply nn_mul; [|apply nn_wt].
  apply nn_sum. intros x _. apply nn_mul; [apply nn_rc6v|apply nn_wt].
Qed.
Lemma nn_wpol ga gc ref z (wi : nat -> F) w : (forall x, nonneg (wi x)) ->
  nonneg (wpol (N := N) X ga gc ref z wi w : F).
Proof. intros H. apply nn_sum. intros x _. apply nn_mul; [apply H|apply nn_aref]. Qed.

(** the damping functions *)
Lemma elementwise_unique (d : Damping KI) param o only g g' :
  elementwise d param o only g -> elementwise d param o only g' -> forall x y, g x y = g' x y.
Proof.
  intros H H' x y. destruct (H (scal x) (scal y) [] eq_refl eq_refl) as (t & E & _ & V).
  destruct (H' (scal x) (scal y) [] eq_refl eq_refl) as (t' & E' & _ & V').
  rewrite E in E'. injection E' as <-. exact (eq_trans (eq_sym (V [] I)) (V' [] I)).
Qed.
Lemma elementwise_not_raises (d : Damping KI) param o g e : elementwise d param o false g ->
  (forall dist radii, damping_call d dist radii o false param = Raise e) -> False.
Proof.
  intros H R. destruct (H (scal (flit (s := KI) 0)) (scal (flit (s := KI) 0)) [] eq_refl eq_refl) as (t & E & _).
  rewrite R in E. revert E. clear. discriminate.
Qed.

Lemma two_body_outcome cls param (Fn : tfun KI) kind cd : good_param param ->
  term_ok (N := N) param kind (mkTerm (N := N) TwoBodyTerm (damping_of X cls) cd) Fn ->
  outcome cls (binds param) = None.
Proof.
  intros G H. cbn [term_ok t_class t_damping] in H. destruct H as (_ & H6 & H8 & H10).
  destruct (outcome cls (binds param)) as [e|] eqn:E; auto. exfalso.
  destruct (outcome_refuses X cls param e G E) as [R|[(_ & R)|(_ & _ & B & R)]].
  - exact (elementwise_not_raises _ _ _ _ _ H6 R).
  - exact (elementwise_not_raises _ _ _ _ _ H8 R).
  - apply binds_not_none in B. exact (elementwise_not_raises _ _ _ _ _ (H10 B) R).
Qed.

Context (HE : ext_sign (L := L) (L64 := L64) X).

Definition keeps (g : F -> F -> F) : Prop := forall d r, nonneg d -> nonneg r -> nonneg (g d r).

Lemma keeps_eq (g g' : F -> F -> F) : (forall x y, g x y = g' x y) -> keeps g' -> keeps g.
Proof. intros E K d r A B. rewrite E. now apply K. Qed.
Lemma keeps_0 : keeps (fun _ _ => flit (s := KI) 0).
Proof. intros d r _ _. reflexivity. Qed.
Lemma keeps_rat (a1 a2 : F) o : nonneg a1 -> nonneg a2 -> keeps (rat_g (K := KI) a1 a2 o).
Proof.
  intros A1 A2 d r Hd Hr. unfold rat_g. apply nn_div; [now apply nn_lit|].
  apply nn_add; [now apply HL|]. apply HL. apply nn_add; [|exact A2]. apply nn_mul; [exact A1|]. now apply nn_sqrt.
Qed.
Lemma keeps_zero (rs alp : F) o : nonneg rs -> keeps (zero_g (K := KI) X rs alp o false).
Proof.
  intros A d r Hd Hr. unfold zero_g. apply HE; [|now apply HL]. unfold zero_fac.
  apply nn_div; [now apply nn_lit|]. apply nn_add; [now apply nn_lit|]. apply nn_mul; [now apply nn_lit|].
  apply HL. apply nn_mul; [exact A|]. now apply HE.
Qed.
Lemma keeps_mzero (rs alp bet : F) o : nonneg rs -> nonneg bet -> keeps (mzero_g (K := KI) X rs alp bet o).
Proof.
  intros A B d r Hd Hr. unfold mzero_g. apply HE; [|now apply HL].
  apply nn_div; [now apply nn_lit|]. apply nn_add; [now apply nn_lit|]. apply nn_mul; [now apply nn_lit|].
  apply HL. apply nn_add; [apply nn_div; auto; now apply nn_mul|now apply nn_mul].
Qed.
Lemma keeps_op (a1 a2 bet : F) o : nonneg a1 -> nonneg a2 -> keeps (op_g (K := KI) a1 a2 bet o).
Proof.
  intros A1 A2 d r Hd Hr. unfold op_g. cbv zeta. apply nn_div; [now apply HL|].
  apply nn_add; apply nn_mul; try (now apply HL). apply HL.
  apply nn_add; [|exact A2]. apply nn_mul; [exact A1|]. now apply nn_sqrt.
Qed.

Lemma outcome_none cls (hs : string -> bool) : outcome cls hs = None ->
  match cls with
  | Rational => hs "a1" = true /\ hs "a2" = true
  | Zero => hs "rs6" = true /\ (hs "rs8" = false -> hs "s8" = false) /\ hs "s10" = false
  | MZero => (hs "rs6" = true /\ hs "bet" = true) /\ (hs "rs8" = false -> hs "s8" = false) /\ hs "s10" = false
  | OptimisedPower => (hs "a1" = true /\ hs "a2" = true /\ hs "bet" = true) /\ hs "s10" = false
  end%string.
Proof.
  destruct cls; cbn [outcome forallb]; repeat match goal with |- context [hs ?k] => destruct (hs k) end;
    cbn; intros H; try discriminate; auto.
Qed.

Lemma two_body_keeps cls param (Fn : tfun KI) kind cd : good_param param ->
  params_nonneg (L := L) (L64 := L64) param ->
  term_ok (N := N) param kind (mkTerm (N := N) TwoBodyTerm (damping_of X cls) cd) Fn ->
  keeps (f6 Fn) /\ keeps (f8 Fn) /\ (getp param "s10" <> None -> keeps (f10 Fn)).
Proof.
  intros G PN T. pose proof (two_body_outcome cls param Fn kind cd G T) as H.
  cbn [term_ok t_class t_damping] in T. destruct T as (_ & T6 & T8 & T10).
  assert (PK : forall k x, getp param k = Some x -> In k ["s6"; "s8"; "s10"; "a1"; "a2"; "rs6"; "rs8"; "bet"]%string -> nonneg (x : F))
    by (intros k x Hx Hk; exact (PN k x Hk Hx)).
  apply outcome_none in H.
  assert (Off : (binds param "rs8" = false -> binds param "s8" = false) -> getp param "rs8" = None -> active param 8 = false).
  { intros A E8. unfold active, has. rewrite E8. assert (B : binds param "s8" = false) by (apply A; unfold binds; now rewrite E8).
    apply binds_none in B. now rewrite B. }
  assert (Off10 : binds param "s10" = false -> getp param "s10" <> None -> False) by (intros A B; now apply binds_none in A).
  assert (In0 : forall d o g, active param o = false -> elementwise d param o false g -> keeps g).
  { intros d o g A Hg. apply (keeps_eq _ _ (elementwise_unique _ _ _ _ _ _ Hg (inactive_elementwise d param o false G A))). apply keeps_0. }
  destruct cls; cbn [damping_of] in *.
  - destruct H as (E1 & E2).
    destruct (binds_some _ _ E1) as (a1 & E1'). destruct (binds_some _ _ E2) as (a2 & E2').
    assert (K : forall o, keeps (rat_g (K := KI) a1 a2 o)).
    { intros o. apply keeps_rat; [apply (PK "a1"%string)|apply (PK "a2"%string)]; auto; simpl; tauto. }
    assert (Q : forall o g, elementwise RationalDamping param o false g -> keeps g).
    { intros o g Hg. destruct (active param o) eqn:A; [|eapply In0; eauto].
      apply (keeps_eq _ _ (elementwise_unique _ _ _ _ _ _ Hg (rational_elementwise param o false a1 a2 G E1' E2' A))). apply K. }
    split; [|split]; eauto.
  - destruct H as (E1 & E8 & E10). destruct (binds_some _ _ E1) as (rs6 & E1').
    split; [|split; [|intros B; destruct (Off10 E10 B)]].
    + apply (keeps_eq _ _ (elementwise_unique _ _ _ _ _ _ T6 (zero6_elementwise X param false rs6 G E1'))).
      apply keeps_zero. apply (PK "rs6"%string); auto; simpl; tauto.
    + destruct (getp param "rs8") as [rs8|] eqn:E8'; [|eapply In0; eauto].
      apply (keeps_eq _ _ (elementwise_unique _ _ _ _ _ _ T8 (zero8_elementwise X param false rs8 G E8'))).
      apply keeps_zero. apply (PK "rs8"%string); auto; simpl; tauto.
  - destruct H as ((E1 & Eb) & E8 & E10).
    destruct (binds_some _ _ E1) as (rs6 & E1'). destruct (binds_some _ _ Eb) as (bet & Eb').
    assert (NB : nonneg (bet : F)) by (apply (PK "bet"%string); auto; simpl; tauto).
    split; [|split; [|intros B; destruct (Off10 E10 B)]].
    + apply (keeps_eq _ _ (elementwise_unique _ _ _ _ _ _ T6 (mzero6_elementwise X param false rs6 bet G E1' Eb'))).
      apply keeps_mzero; auto. apply (PK "rs6"%string); auto; simpl; tauto.
    + destruct (getp param "rs8") as [rs8|] eqn:E8'; [|eapply In0; eauto].
      apply (keeps_eq _ _ (elementwise_unique _ _ _ _ _ _ T8 (mzero8_elementwise X param false rs8 bet G E8' Eb'))).
      apply keeps_mzero; auto. apply (PK "rs8"%string); auto; simpl; tauto.
  - destruct H as ((E1 & E2 & Eb) & E10).
    destruct (binds_some _ _ E1) as (a1 & E1'). destruct (binds_some _ _ E2) as (a2 & E2').
    destruct (binds_some _ _ Eb) as (bet & Eb').
    assert (K : forall o, keeps (op_g (K := KI) a1 a2 bet o)).
    { intros o. apply keeps_op; [apply (PK "a1"%string)|apply (PK "a2"%string)]; auto; simpl; tauto. }
    assert (Q : forall o g, (o = 6 \/ o = 8)%nat -> elementwise OptimisedPowerDamping param o false g -> keeps g).
    { intros o g Ho Hg. destruct (active param o) eqn:A; [|eapply In0; eauto].
      apply (keeps_eq _ _ (elementwise_unique _ _ _ _ _ _ Hg (op_elementwise param false o a1 a2 bet G Ho A E1' E2' Eb'))). apply K. }
    split; [|split; [|intros B; destruct (Off10 E10 B)]]; [eapply (Q 6); eauto|eapply (Q 8); eauto].
Qed.

Lemma nn_getd param k q : params_nonneg (L := L) (L64 := L64) param -> (0 <= Qnum q)%Z ->
  In k ["s6"; "s8"; "s10"; "a1"; "a2"; "rs6"; "rs8"; "bet"]%string -> nonneg (getd (K := KI) param k q : F).
Proof.
  intros PN Hq Hk. unfold getd.
  change (nonneg (default (getp (K := sc N) param k) (blit prec emax q : sc N) : F)).
  destruct (getp (K := sc N) param k) as [x|] eqn:E; cbn [default]; [|now apply nn_lit].
  exact (PN k x Hk E).
Qed.

Section E.
Context (n c : nat) (num : nat -> Z) (pos : nat -> nat -> F) (c6 rad : nat -> nat -> F) (r : nat -> F) (cut : F).
Context (H6 : forall i j, nonneg (c6 i j)).
Context (Hr : forall i, i < n -> nonneg (r i)).

Lemma nn_tfac g i j : keeps g -> nonneg (rad i j) -> nonneg (tfac (K := KI) X g c num pos rad cut i j : F).
Proof.
  intros Kg R. unfold tfac. destruct (pmask num i j) eqn:E; [|reflexivity]. cbn [andb].
  destruct (fle _ _); [|reflexivity]. apply Kg; [|exact R]. unfold pdist. rewrite E. apply HE.
Qed.
Lemma nn_qq i j : i < n -> j < n -> nonneg (qq (K := KI) r i j : F).
Proof. intros. apply nn_mul; [apply nn_mul|]; [now apply nn_lit|auto..]. Qed.
Lemma nn_c8 i j : i < n -> j < n -> nonneg (c8v (K := KI) c6 r i j : F).
Proof. intros. apply nn_mul; [apply H6|now apply nn_qq]. Qed.
Lemma nn_c10 i j : i < n -> j < n -> nonneg (c10v (K := KI) c6 r i j : F).
Proof.
  intros. unfold c10v. apply nn_div; [|now apply nn_lit]. apply nn_mul; [|now apply nn_lit].
  apply nn_mul; [apply H6|]. apply HL. now apply nn_qq.
Qed.

Lemma np_e2 g6 g8 (s6 s8 : F) (s10 : option (F * (F -> F -> F))) i : i < n ->
  (forall j, j < n -> nonneg (rad i j)) ->
  keeps g6 -> keeps g8 -> nonneg s6 -> nonneg s8 ->
  match s10 with Some (x, g) => nonneg x /\ keeps g | None => True end ->
  np (e2_atom (K := KI) X n c num pos c6 rad r cut g6 g8 s6 s8 s10 i : F).
Proof.
  intros Hi R K6 K8 S6 S8 S10. unfold e2_atom. apply np_half.
  assert (S : forall g (f : nat -> nat -> F), keeps g -> (forall j, j < n -> nonneg (f i j)) ->
     nonneg (fsum (K := KI) n (fun j => fmul (s := KI) (f i j) (tfac (K := KI) X g c num pos rad cut i j)) : F)).
  { intros g f Kg Hf. apply nn_sum. intros j Hj. apply nn_mul; [auto|apply nn_tfac; auto]. }
  assert (Q : nonneg (fadd (s := KI)
     (fmul (s := KI) s6 (fsum (K := KI) n (fun j => fmul (s := KI) (c6 i j) (tfac (K := KI) X g6 c num pos rad cut i j))))
     (fmul (s := KI) s8 (fsum (K := KI) n (fun j => fmul (s := KI) (c8v (K := KI) c6 r i j) (tfac (K := KI) X g8 c num pos rad cut i j)))) : F)).
  { apply nn_add; apply nn_mul; auto; apply S; auto. intros. now apply nn_c8. }
  destruct s10 as [[s10 g10]|]; [|exact Q]. apply nn_add; [exact Q|]. destruct S10.
  apply nn_mul; auto. apply S; auto. intros. now apply nn_c10.
Qed.

Lemma np_e3 c9 rad3 g (s9 : F) i : is_zero s9 ->
  np (e3_atom (K := KI) X n c num pos c9 rad3 cut g s9 i : F).
Proof.
  intros Z. apply np_zn. unfold e3_atom. apply zn_div, zn_sum. intros j Hj. apply zn_sum. intros k Hk.
  unfold e3_triple. apply zn_mul_l, zn_mul_r. now left.
Qed.
End E.

Context (W : World N).

(** Every precision, every geometry, NaN, infinities and overflow included: with non-negative
    parameters, the energy of an atom never compares greater than zero. *)
Theorem C63_energy_never_positive : forall (p : Disp N) (a : Args N) kind kw n c B,
  ext_tables X -> well_formed (N := N) X W p a kind kw n c B ->
  only_two_body (L := L) (L64 := L64) X p (a_param a) -> params_nonneg (L := L) (L64 := L64) (a_param a) -> radii_nonneg (L := L) (L64 := L64) a ->
  exists e, run (N := N) X W p a = Ok e /\ shp e = n :: B /\
    forall b i, valid B b -> i < n -> Bltb (B754_zero false) (sl1 e b i : F) = false.
Proof.
  intros p a kind kw n c B HX WF HT PN (R4 & RV).
  destruct (terms_funs (a_param a) kind (p_terms p) (wf_terms _ _ _ _ _ _ _ _ _ WF)) as (Fs & HF).
  destruct (run_closed (N := N) X W p a kind kw n c B Fs HX WF HF)
    as (m & cn & q & r4 & rv & _ & _ & _ & _ & _ & V4 & VV & (e & E & S & D)).
  exists e. split; [exact E|]. split; [exact S|]. intros b i V Hi. rewrite D by auto.
  assert (G : good_param (a_param a)) by apply WF.
  assert (N4 : forall i, i < n -> nonneg (sl1 r4 b i : F)).
  { intros j Hj. rewrite V4 by auto. unfold r4v. destruct (a_r4r2 a) as [t|]; [apply (R4 t eq_refl)|apply nn_r4r2]. }
  assert (NV : forall i j, i < n -> j < n -> nonneg (sl2 rv b i j : F)).
  { intros j k Hj Hk. rewrite VV by auto. unfold rvv. destruct (a_rvdw a) as [t|]; [apply (RV t eq_refl)|apply HE]. }
  unfold sumK. apply np_fold; [|reflexivity].
  intros x Hx. unfold atom_terms in Hx. apply in_map_iff in Hx as ([t Ft] & <- & Hin). cbn [fst snd].
  assert (Ht : In t (p_terms p) /\ term_ok (N := N) (a_param a) kind t Ft).
  { revert Hin. clear - HF. induction HF as [|u Fu us Fus Hu HF IH]; cbn [combine]; [intros []|].
    intros [Q|Q]; [injection Q as <- <-; split; [now left|exact Hu]|]. destruct (IH Q). split; [now right|assumption]. }
  destruct Ht as (Ht & HFt). destruct (HT t Ht) as [(EC & cls & ED)|(EC & Z)].
  - destruct t as [tc td tq]. cbn [t_class t_damping] in EC, ED. subst tc td.
    destruct (two_body_keeps cls (a_param a) Ft kind tq G PN HFt) as (K6 & K8 & K10).
    unfold term_val. cbn [t_class t_damping t_cdep]. apply np_e2; auto.
    + intros. apply nn_c6m.
    + intros j Hj. unfold rad_of. destruct (d_radius_type _ =? "rvdw")%string; [auto|apply (nn_qq n); auto].
    + apply nn_getd; auto; [discriminate|simpl; tauto].
    + apply nn_getd; auto; [discriminate|simpl; tauto].
    + unfold s10_of. destruct (getp (a_param a) "s10") as [x|] eqn:E10; [|exact I].
      split; [apply (PN "s10"%string x); auto; simpl; tauto|apply K10; discriminate].
  - unfold term_val. destruct (t_class t); [congruence| | |]; apply np_e3; exact Z.
Qed.

(** The C6 coefficients a model (D4 or D4S) returns for its weights are never negative. *)
Theorem C63_c6_never_negative :
  forall kind (kw : mkwargs N) numbers n B (m : Model N) (cn q : option (tensor (sc N))) gw,
  built (L := L) (L64 := L64) X kind kw numbers n B m -> opt_shape cn (n :: B) -> opt_shape q (n :: B) ->
  weight_references (N := N) X m cn q = Ok gw ->
  exists c6, get_atomic_c6 (N := N) m gw = Ok c6 /\ shp c6 = n :: n :: B /\
    forall b i j, valid B b -> i < n -> j < n -> nonneg (sl2 c6 b i j : F).
Proof.
  intros kind kw numbers n B m cn q gw (HX & Hk & Hn & Hkw & Hel & (cls & Em)) Hcn Hq Ew.
  destruct (new_model_ok (N := N) X kind cls numbers kw n B HX Hk Hn Hkw Hel) as (m' & Em' & Hm).
  rewrite Em in Em'. injection Em' as <-.
  destruct (weight_references_ev (N := N) X m n B cn q (proj1 Hm) Hcn Hq) as (w & Ew' & Hw).
  rewrite Ew in Ew'. injection Ew' as <-.
  destruct (get_atomic_c6_ev (N := N) X m n B cn q gw (proj1 Hm) Hw) as (c6 & E6 & S6 & V6).
  exists c6. split; [exact E6|]. split; [exact S6|]. intros b i j V Hi Hj.
  unfold sl2. rewrite V6 by (repeat split; auto). apply nn_c6m.
Qed.

(** [get_properties]: the C6 coefficients and polarizabilities it returns are never negative,
    whatever the coordination numbers [cn] and charges [q] are. *)
Theorem C63_properties_never_negative :
  forall numbers positions charge cutoff n B (cn q : tensor (sc N)),
  ext_tables X -> shp numbers = n :: B ->
  (forall ix, valid (n :: B) ix -> (0 <= dat numbers ix <= 103)%Z) ->
  w_cn_d4 W None numbers positions = Ok cn -> shp cn = n :: B ->
  w_eeq W numbers positions (match charge with Some c => c | None => scal (B754_zero false : sc N) end)
    (match cutoff with Some c => c_cn_eeq c | None => scal (blit prec emax 25 : sc N) end) = Ok q -> shp q = n :: B ->
  exists c6 alpha, get_properties (N := N) X W numbers positions charge cutoff = Ok (cn, q, c6, alpha) /\
    shp c6 = n :: n :: B /\ shp alpha = n :: B /\
    forall b i j, valid B b -> i < n -> j < n -> nonneg (sl2 c6 b i j : F) /\ nonneg (sl1 alpha b i : F).
Proof.
  intros numbers positions charge cutoff n B cn q HX Hn Hz Ecn Scn Eq Sq. unfold get_properties.
  rewrite Ecn. cbn [bind].
  replace (w_eeq W numbers positions (default charge (scal f0)) (c_cn_eeq (default cutoff default_cutoff)))
    with (Ok q) by (rewrite <- Eq; destruct charge, cutoff; reflexivity). cbn [bind].
  assert (HK : kw_ok (N := N) D4M no_kw n B) by (split; [reflexivity|exact I]).
  assert (Hel : elements_ok (default (k_ref (no_kw (N := N))) "eeq"%string) numbers).
  { left. rewrite Hn. split; [reflexivity|exact Hz]. }
  destruct (new_model_ok (N := N) X D4M (class_name D4M) numbers no_kw n B HX (or_introl eq_refl) Hn HK Hel)
    as (m & -> & Hm). cbn [bind].
  destruct (weight_references_ev (N := N) X m n B (Some cn) (Some q) (proj1 Hm) Scn Sq) as (gw & -> & Hw).
  cbn [bind].
  destruct (get_atomic_c6_ev (N := N) X m n B (Some cn) (Some q) gw (proj1 Hm) Hw) as (c6 & -> & S6 & V6).
  cbn [bind].
  pose proof Hm as ((_ & Hkn & Hnm & Hr & _) & Hkd & _).
  assert (D4s : is_d4s m = false) by (unfold is_d4s; now rewrite Hkd). rewrite D4s in Hw.
  destruct (get_polarizabilities_ev (K := KI) X (m_numbers m) n B (m_ga m) (m_gc m) (m_ref m) gw _ HX Hkn Hnm Hr Hw)
    as (alpha & Ea & Sa & Va).
  exists c6, alpha. unfold model_polarizabilities. split.
  { change (sc N) with KI. rewrite Ea. reflexivity. }
  split; [exact S6|]. split; [exact Sa|]. intros b i j V Hi Hj. split.
  - unfold sl2. rewrite V6 by (repeat split; auto). apply nn_c6m.
  - unfold sl1. rewrite Va by (repeat split; auto). cbn [ix1]. apply nn_sum. intros r _.
    apply nn_mul; [apply nn_wt|apply nn_aref].
Qed.
End P.
Print Assumptions C63_energy_never_positive.
Print Assumptions C63_c6_never_negative.
Print Assumptions C63_properties_never_negative.

(** ** Examples: single precision, water and (padded) carbon monoxide, D4 with the three-body term
    switched off; the coordinates of the padding atom are NaN *)
Local Existing Instance Hp64.
Local Existing Instance He64.
Local Existing Instance Hp32.
Local Existing Instance He32.

Lemma Lcr_sign {prec emax : Z} {Hp : Prec_gt_0 prec} {He : Prec_lt_emax prec emax} : libm_sign (Lcr (prec := prec) (emax := emax)).
Proof. split; [|split]; intros; [apply exp_cr_nonneg|apply pow_cr_nonneg|now apply pown_cr_nonneg]. Qed.

Lemma Xl_sign : ext_sign (L := Lcr) (L64 := Lcr) Xl.
Proof.
  split; [|split].
  - intros [|c] x y; [reflexivity|]. cbn [x_dist Xl Xf]. unfold nonneg.
    destruct (Bminus mode_NE (x 0) (y 0)) as [s|s| |s m e H]; reflexivity.
  - intros x y Hx Hy. now apply nn_div.
  - intros i. now apply (nn_lit (prec := 24) (emax := 128) 1).
Qed.

Definition sparam : Param (sc N32) :=
  [("s6", lit_p 1); ("s8", lit_p (96 # 100)); ("a1", lit_p (39 # 100)); ("a2", lit_p (48 # 10)); ("s9", lit_p 0)]%string.
Lemma sparam_good : good_param sparam.
Proof.
  intros k v H. simpl in H.
  repeat (destruct H as [H|H]; [injection H as <- <-; split; [simpl; tauto|intros _; eexists; apply isnum_lit]|]).
  destruct H.
Qed.
Definition scall : Args N32 := set_param (gmols (N := N32) (B754_nan : sc N32)) sparam.

Lemma scall_wf : well_formed (N := N32) Xl (Wany Xl) (Pany Xl "d4") scall D4M no_kw 3 3 [2].
Proof.
  pose proof (gcall_wf (N := N32) Xl two_mols (gline (N := N32) 3 [2] (B754_nan : sc N32)) 3 3 [2] "d4" D4M
    (or_introl (conj eq_refl eq_refl)) eq_refl eq_refl two_mols_range) as [].
  constructor; try assumption.
  - apply sparam_good.
  - intros t [<-|[<-|[]]].
    + apply usable_rational; [apply sparam_good|discriminate|discriminate].
    + apply usable_atm; discriminate.
Qed.

Example C63_example : exists e,
  run (N := N32) Xl (Wany Xl) (Pany Xl "d4") scall = Ok e /\ shp e = [3; 2] /\
  forall b i, valid [2] b -> i < 3 -> Bltb (B754_zero false) (sl1 e b i : f32) = false.
Proof.
  apply (C63_energy_never_positive Xl Lcr_sign Lcr_sign Xl_sign (Wany Xl) (Pany Xl "d4") scall D4M no_kw 3 3 [2]).
  - exact Xf_tables.
  - exact scall_wf.
  - intros t [<-|[<-|[]]]; [left|right].
    + split; [reflexivity|]. now exists Rational.
    + split; [discriminate|]. now left.
  - assert (P : forall q (x : f32), Some (blit 24 128 q) = Some x -> (0 <= Qnum q)%Z -> nonneg x).
    { intros q x E Hq. injection E as <-. now apply nn_lit. }
    intros k x Hk Hx. simpl in Hk.
    destruct Hk as [<-|[<-|[<-|[<-|[<-|[<-|[<-|[<-|[]]]]]]]]].
    + apply (P 1%Q x Hx). discriminate.
    + apply (P (96 # 100) x Hx). discriminate.
    + discriminate Hx.
    + apply (P (39 # 100) x Hx). discriminate.
    + apply (P (48 # 10) x Hx). discriminate.
    + discriminate Hx.
    + discriminate Hx.
    + discriminate Hx.
  - split; intros t Ht; discriminate Ht.
Qed.

Example C63_properties_example : exists cn q c6 alpha : tensor (sc N32),
  get_properties (N := N32) Xl (Wany Xl) two_mols (gline (N := N32) 3 [2] (B754_nan : sc N32)) None None = Ok (cn, q, c6, alpha) /\
  forall b i j, valid [2] b -> i < 3 -> j < 3 -> nonneg (sl2 c6 b i j : f32) /\ nonneg (sl1 alpha b i : f32).
Proof.
  destruct (cn_any_ok (N := N32) Xl None two_mols (gline (N := N32) 3 [2] (B754_nan : sc N32)) 3 3 [2] eq_refl eq_refl)
    as (cn & Ec & Sc).
  assert (Q : forall ch co, exists q, w_eeq (Wany Xl) two_mols (gline (N := N32) 3 [2] (B754_nan : sc N32)) ch co = Ok q /\ shp q = [3; 2]).
  { intros ch co. cbn [w_eeq Wany]. unfold eeq_any. rewrite Ec. simpl. eexists. split; [reflexivity|]. exact Sc. }
  destruct (Q (scal (B754_zero false : sc N32)) (scal (blit 24 128 25 : sc N32))) as (q & Eq & Sq).
  destruct (C63_properties_never_negative Xl Lcr_sign Lcr_sign (Wany Xl) two_mols _ None None 3 [2] cn q
    Xf_tables eq_refl two_mols_range Ec Sc Eq Sq) as (c6 & al & E & _ & _ & H).
  exists cn, q, c6, al. split; [exact E|exact H].
Qed.
