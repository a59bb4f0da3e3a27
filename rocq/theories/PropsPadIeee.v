(** * Padding atoms in IEEE arithmetic. *)
From Coq Require Import Reals List Arith ZArith QArith Bool String Lia Lra.
From Flocq Require Import Core.Core IEEE754.BinarySingleNaN.
From Verif Require Import Py Tensor Scalar ModelExt ModelUtils ModelDamping ModelModels
  ModelTerms ModelDisp SpecCall TensorLemmas Closed ClosedM ClosedTerms ClosedModels ClosedDamp
  ClosedDisp CallLemmas IeeeInst IeeeP IeeeLib InstIeee.
Import ListNotations.
Open Scope nat_scope.

(** ** Specification *)
Section S.
Context {prec emax : Z}.
Notation F := (binary_float prec emax).

(** +0 or -0 *)
Definition is_zero (x : F) : Prop := x = B754_zero false \/ x = B754_zero true.
(** +0, -0 or NaN *)
Definition zero_or_nan (x : F) : Prop := is_zero x \/ x = B754_nan.
End S.

(** ** Proofs *)
Section P.
Context {prec emax : Z} {Hp : Prec_gt_0 prec} {He : Prec_lt_emax prec emax}.
Context {L : Libm prec emax} {L64 : Libm 53 1024}.
Notation N := (IN prec emax L L64).
Notation KI := (IS prec emax L).
Notation F := (binary_float prec emax).

Lemma zn_mul_l (x y : F) : zero_or_nan x -> zero_or_nan (Bmult mode_NE x y).
Proof.
  intros [[-> | ->] | ->]; destruct y as [s|s| |s m e G]; simpl;
    try (right; reflexivity); left; destruct s; simpl; (now left) || (now right).
Qed.
Lemma zn_mul_r (x y : F) : zero_or_nan y -> zero_or_nan (Bmult mode_NE x y).
Proof.
  intros [[-> | ->] | ->]; destruct x as [s|s| |s m e G]; simpl;
    try (right; reflexivity); left; destruct s; simpl; (now left) || (now right).
Qed.
Lemma zn_add (x y : F) : zero_or_nan x -> zero_or_nan y -> zero_or_nan (Bplus mode_NE x y).
Proof.
  intros [[-> | ->] | ->] [[-> | ->] | ->]; simpl; try (right; reflexivity); left; (now left) || (now right).
Qed.
Lemma zn_div (x y : F) : zero_or_nan x -> zero_or_nan (Bdiv mode_NE x y).
Proof.
  intros [[-> | ->] | ->]; destruct y as [s|s| |s m e G]; simpl;
    try (right; reflexivity); left; destruct s; simpl; (now left) || (now right).
Qed.
Lemma zn_lit0 : zero_or_nan (blit prec emax 0).
Proof. left. now left. Qed.
Lemma zn_sum n (f : nat -> F) : (forall j, j < n -> zero_or_nan (f j)) -> zero_or_nan (fsum (K := KI) n f).
Proof.
  intros H. apply (fsum_closed (K := KI) zero_or_nan); [exact zn_lit0|exact zn_add|exact H].
Qed.

Lemma z_mul_l (x y : F) : is_zero x -> is_finite y = true -> is_zero (Bmult mode_NE x y).
Proof.
  intros [-> | ->] H; destruct y as [s|s| |s m e G]; try discriminate; simpl; destruct s; (now left) || (now right).
Qed.
Lemma z_mul_r (x y : F) : is_zero y -> is_finite x = true -> is_zero (Bmult mode_NE x y).
Proof.
  intros [-> | ->] H; destruct x as [s|s| |s m e G]; try discriminate; simpl; destruct s; (now left) || (now right).
Qed.
Lemma z_add (x y : F) : is_zero x -> is_zero y -> is_zero (Bplus mode_NE x y).
Proof. intros [-> | ->] [-> | ->]; simpl; (now left) || (now right). Qed.
Lemma z_div (x y : F) : is_zero x -> (y = B754_infinity false \/ is_finite_strict y = true) -> is_zero (Bdiv mode_NE x y).
Proof.
  intros [-> | ->] [-> | H]; try (simpl; (now left) || (now right));
    destruct y as [s|s| |s m e G]; try discriminate; simpl; destruct s; (now left) || (now right).
Qed.
Lemma z_lit0 : is_zero (blit prec emax 0).
Proof. now left. Qed.
Lemma z_fin (x : F) : is_zero x -> is_finite x = true.
Proof. intros [-> | ->]; reflexivity. Qed.
Lemma z_sum n (f : nat -> F) : (forall j, j < n -> is_zero (f j)) -> is_zero (fsum (K := KI) n f).
Proof.
  intros H. apply (fsum_closed (K := KI) is_zero); [exact z_lit0|exact z_add|exact H].
Qed.

Lemma bratio_finite s m d : (Zpos m <= Zpos d)%Z -> is_finite (bratio prec emax s m d) = true.
Proof.
  intros H. unfold bratio.
  pose proof (proj2 (Bdiv_correct_aux prec emax Hp He mode_NE s m 0 false d 0)) as C.
  generalize (proj1 (Bdiv_correct_aux prec emax Hp He mode_NE s m 0 false d 0)). intros V.
  rewrite is_finite_SF2B. rewrite Rlt_bool_true in C; [apply C|].
  apply Rle_lt_trans with 1%R; [|apply (bpow_emax_gt1 (Hp := Hp) (He := He))].
  assert (P : (0 < IZR (Zpos d))%R) by (apply IZR_lt; lia).
  assert (Q : (0 < IZR (Zpos m))%R) by (apply IZR_lt; lia).
  assert (A : (IZR (Zpos m) / IZR (Zpos d) <= 1)%R).
  { apply Rmult_le_reg_r with (IZR (Zpos d)); [auto|]. unfold Rdiv. rewrite Rmult_assoc, Rinv_l, Rmult_1_r, Rmult_1_l by lra.
    now apply IZR_le. }
  assert (A0 : (0 <= IZR (Zpos m) / IZR (Zpos d))%R).
  { apply Rlt_le, Rdiv_lt_0_compat; auto. }
  unfold F2R. cbn [Fnum Fexp bpow]. rewrite !Rmult_1_r. cbn [cond_Zopp].
  apply Rabs_le. destruct s; cbn [cond_Zopp].
  - rewrite opp_IZR, Ropp_div, rnd_opp. split.
    + apply Ropp_le_contravar. rewrite <- (rnd_1 (Hp := Hp) (He := He)). now apply (rnd_mono (Hp := Hp)).
    + apply Rle_trans with 0%R; [|lra]. rewrite <- Ropp_0. apply Ropp_le_contravar.
      rewrite <- (rnd_0 (prec := prec) (emax := emax)). now apply (rnd_mono (Hp := Hp)).
  - split.
    + apply Rle_trans with 0%R; [lra|]. rewrite <- (rnd_0 (prec := prec) (emax := emax)). now apply (rnd_mono (Hp := Hp)).
    + rewrite <- (rnd_1 (Hp := Hp) (He := He)). now apply (rnd_mono (Hp := Hp)).
Qed.

Lemma lit_pos_div m d : (1 <= IZR (Zpos m) / IZR (Zpos d))%R ->
  bratio prec emax false m d = B754_infinity false \/ is_finite_strict (bratio prec emax false m d) = true.
Proof.
  intros H. destruct (bratio_at_least m d 1 H ltac:(lra) rnd_1) as [E|(Fi & E)]; [now left|right].
  destruct (bratio prec emax false m d) as [s|s| |s k e G]; simpl in *; auto; try discriminate. lra.
Qed.

Context (X : Ext KI).

Section E.
Variables (n c : nat) (num : nat -> Z) (pos : nat -> nat -> F) (i : nat).
Hypothesis Hi : num i = 0%Z.

Lemma pad_pmask j : pmask num i j = false.
Proof. unfold pmask, is_real. now rewrite Hi. Qed.
Lemma pad_tmask j k : tmask num i j k = false.
Proof. unfold tmask, is_real. now rewrite Hi. Qed.
Lemma pad_tfac g rad cut j : tfac (K := KI) X g c num pos rad cut i j = blit prec emax 0.
Proof. unfold tfac. now rewrite pad_pmask. Qed.

Lemma pad_e2_zn c6 rad r cut g6 g8 s6 s8 s10 :
  zero_or_nan (e2_atom (K := KI) X n c num pos c6 rad r cut g6 g8 s6 s8 s10 i : F).
Proof.
  unfold e2_atom. apply zn_mul_r.
  assert (S : forall g f, zero_or_nan (fsum (K := KI) n (fun j => fmul (s := KI) (f i j) (tfac (K := KI) X g c num pos rad cut i j)) : F)).
  { intros g f. apply zn_sum. intros j Hj. apply zn_mul_r. rewrite pad_tfac. apply zn_lit0. }
  assert (Q : zero_or_nan (fadd (s := KI)
     (fmul (s := KI) s6 (fsum (K := KI) n (fun j => fmul (s := KI) (c6 i j) (tfac (K := KI) X g6 c num pos rad cut i j))))
     (fmul (s := KI) s8 (fsum (K := KI) n (fun j => fmul (s := KI) (c8v (K := KI) c6 r i j) (tfac (K := KI) X g8 c num pos rad cut i j)))) : F)).
  { apply zn_add; apply zn_mul_r; apply S. }
  destruct s10 as [[s10 g10]|]; [|exact Q]. apply zn_add; [exact Q|]. apply zn_mul_r. apply S.
Qed.

Lemma pad_e2_z c6 rad r cut g6 g8 (s6 s8 : F) (s10 : option (F * (F -> F -> F))) :
  is_finite s6 = true -> is_finite s8 = true ->
  (forall j, j < n -> is_finite (c6 i j : F) = true /\ is_finite (c8v (K := KI) c6 r i j : F) = true) ->
  match s10 with None => True | Some (x, _) => is_finite x = true /\
     forall j, j < n -> is_finite (c10v (K := KI) c6 r i j : F) = true end ->
  is_zero (e2_atom (K := KI) X n c num pos c6 rad r cut g6 g8 s6 s8 s10 i : F).
Proof.
  intros F6 F8 FC F10. unfold e2_atom. 
  assert (S : forall g f, (forall j, j < n -> is_finite (f i j : F) = true) ->
     is_zero (fsum (K := KI) n (fun j => fmul (s := KI) (f i j) (tfac (K := KI) X g c num pos rad cut i j)) : F)).
  { intros g f H. apply z_sum. intros j Hj. apply z_mul_r; [rewrite pad_tfac; apply z_lit0|auto]. }
  assert (Q : is_zero (fadd (s := KI)
     (fmul (s := KI) s6 (fsum (K := KI) n (fun j => fmul (s := KI) (c6 i j) (tfac (K := KI) X g6 c num pos rad cut i j))))
     (fmul (s := KI) s8 (fsum (K := KI) n (fun j => fmul (s := KI) (c8v (K := KI) c6 r i j) (tfac (K := KI) X g8 c num pos rad cut i j)))) : F)).
  { apply z_add; apply z_mul_r; auto; apply S; intros; now apply FC. }
  assert (H2 : is_finite (blit prec emax (- (1 # 2))) = true).
  { apply (bratio_finite true 1 2). lia. }
  destruct s10 as [[s10 g10]|]; apply z_mul_r; auto.
  apply z_add; [exact Q|]. destruct F10. apply z_mul_r; auto.
Qed.

Lemma pad_e3_zn c9 rad cut g s9 :
  zero_or_nan (e3_atom (K := KI) X n c num pos c9 rad cut g s9 i : F).
Proof.
  unfold e3_atom. apply zn_div. apply zn_sum. intros j Hj. apply zn_sum. intros k Hk.
  unfold e3_triple. apply zn_mul_l, zn_mul_l, zn_mul_l. unfold angp. rewrite pad_tmask. apply zn_lit0.
Qed.

Lemma pad_e3_z c9 rad cut g s9 : is_finite (s9 : F) = true ->
  (forall j k, j < n -> k < n -> is_finite (c9 i j k : F) = true) ->
  is_zero (e3_atom (K := KI) X n c num pos c9 rad cut g s9 i : F).
Proof.
  intros F9 FC. unfold e3_atom. apply z_div.
  - apply z_sum. intros j Hj. apply z_sum. intros k Hk. unfold e3_triple.
    apply z_mul_l; [|auto]. apply z_mul_l; [|auto]. unfold angp, fdp. rewrite pad_tmask. cbn [andb].
    apply z_mul_l; [apply z_lit0|reflexivity].
  - apply (lit_pos_div 6 1). lra.
Qed.
End E.

Lemma zn_fold (l : list F) : (forall x, In x l -> zero_or_nan x) -> forall e, zero_or_nan e ->
  zero_or_nan (fold_left (Bplus mode_NE) l e).
Proof.
  induction l as [|x l IH]; intros H e E; [exact E|]. simpl. apply IH; [intros; apply H; now right|].
  apply zn_add; auto. apply H. now left.
Qed.

Context (W : World N).

(** Whatever the inputs (NaN, infinities and overflow included): a padding atom never gets a nonzero
    energy; the result is a zero, or NaN. *)
Theorem C52_padding_never_nonzero : forall (p : Disp N) (a : Args N) kind kw n c B,
  ext_tables X -> well_formed (N := N) X W p a kind kw n c B ->
  exists e, run (N := N) X W p a = Ok e /\ shp e = n :: B /\
    forall b i, valid B b -> i < n -> sl1 (a_numbers a) b i = 0%Z -> zero_or_nan (sl1 e b i : F).
Proof.
  intros p a kind kw n c B HX WF.
  destruct (terms_funs (a_param a) kind (p_terms p) (wf_terms _ _ _ _ _ _ _ _ _ WF)) as (Fs & HF).
  destruct (run_closed (N := N) X W p a kind kw n c B Fs HX WF HF)
    as (m & cn & q & r4 & rv & _ & _ & _ & _ & _ & _ & _ & (e & E & S & D)).
  exists e. split; [exact E|]. split; [exact S|]. intros b i V Hi Hz. rewrite D by auto.
  unfold sumK. apply zn_fold; [|exact zn_lit0].
  intros x Hx. unfold atom_terms in Hx. apply in_map_iff in Hx as ([t Ft] & <- & _). cbn [fst snd].
  unfold term_val. destruct (t_class t); [apply pad_e2_zn|apply pad_e3_zn..]; exact Hz.
Qed.

(** Finite coefficients: the energy of a padding atom is exactly +0 or -0, whatever its coordinates
    are (NaN included). *)
Theorem C52_two_body_padding_zero :
  forall (numbers : tensor Z) (positions c6 r4r2 : tensor KI) (param : Param KI) (rvdw : option (tensor KI))
    (d : Damping KI) (cutoff : option (tensor KI)) n c B g6 g8 g10,
  shp numbers = n :: B -> shp positions = c :: n :: B -> shp c6 = n :: n :: B -> shp r4r2 = n :: B ->
  radius_ok d rvdw (n :: n :: B) -> opt_shape cutoff [] -> good_param param ->
  elementwise d param 6 false g6 -> elementwise d param 8 false g8 ->
  (getp param "s10" <> None -> elementwise d param 10 false g10) ->
  is_finite (getd param "s6" dS6 : F) = true -> is_finite (getd param "s8" dS8 : F) = true ->
  (forall s10 : F, getp param "s10" = Some s10 -> is_finite s10 = true) ->
  (forall b i j, valid B b -> i < n -> j < n -> sl1 numbers b i = 0%Z ->
     let c8 := c8v (K := KI) (sl2 c6 b) (sl1 r4r2 b) i j in
     let c10 := c10v (K := KI) (sl2 c6 b) (sl1 r4r2 b) i j in
     is_finite (sl2 c6 b i j : F) = true /\ is_finite (c8 : F) = true /\
     (getp param "s10" <> None -> is_finite (c10 : F) = true)) ->
  exists e, dispersion2 X numbers positions param c6 r4r2 rvdw d cutoff false = Ok e /\ shp e = n :: B /\
    forall b i, valid B b -> i < n -> sl1 numbers b i = 0%Z -> is_zero (sl1 e b i : F).
Proof.
  intros numbers positions c6 r4r2 param rvdw d cutoff n c B g6 g8 g10 Hn Hpo Hc Hr Hrad Hcut G H6 H8 H10
    F6 F8 F10 FC.
  set (s10 := match getp param "s10" with Some x => Some (x, g10) | None => None end).
  set (cut := dat (default cutoff (scal (flit (s := KI) D4_DISP2_CUTOFF))) []).
  assert (EV : ev (dispersion2 X numbers positions param c6 r4r2 rvdw d cutoff false) (n :: B)
     (ix1 (fun i b => e2_atom X n c (sl1 numbers b) (sl2 positions b) (sl2 c6 b)
        (rad_of d (sl1 r4r2 b) (rvdat rvdw b)) (sl1 r4r2 b) cut g6 g8
        (getd param "s6" dS6) (getd param "s8" dS8) s10 i))).
  { apply (dispersion2_ev X numbers positions param c6 r4r2 rvdw d cutoff n c B g6 g8
             (getd param "s6" dS6) (getd param "s8" dS8) cut s10 Hn Hpo Hc Hr Hrad H6 H8) with (as_matrix := false).
    - apply (pget_isnum param "s6" dS6 G). discriminate.
    - apply (pget_isnum param "s8" dS8 G). discriminate.
    - apply ten_scalar. destruct cutoff; [exact Hcut|reflexivity].
    - unfold s10. destruct (getp param "s10") eqn:E.
      + split; [|apply H10; discriminate].
        destruct (good_isnum _ "s10" _ G ltac:(discriminate) E) as (q & D & Q). eauto.
      + apply (good_none _ "s10" G); auto. discriminate. }
  destruct EV as (e & E & S & D). exists e. split; [exact E|]. split; [exact S|].
  intros b i V Hi Hz. unfold sl1 at 1. rewrite D by (split; auto). cbn [ix1].
  apply pad_e2_z; auto.
  - intros j Hj. destruct (FC b i j V Hi Hj Hz) as (A & A' & _). auto.
  - unfold s10. destruct (getp param "s10") as [x|] eqn:E10; [|exact I]. split; [apply F10; reflexivity|].
    intros j Hj. apply (FC b i j V Hi Hj Hz). discriminate.
Qed.

Theorem C52_three_body_padding_zero :
  forall (numbers : tensor Z) (positions c9 radii cutoff : tensor KI) (d : Damping KI) (s9p alpp : pval KI) n c B g9 (s9 alp : KI),
  shp numbers = n :: B -> shp positions = c :: n :: B ->
  shp c9 = n :: n :: n :: B -> shp radii = n :: n :: B -> shp cutoff = [] ->
  isnum s9p s9 -> isnum alpp alp ->
  (forall t, shp t = [] -> dat t [] = fdiv (s := KI) alp (flit (s := KI) 3) ->
     elementwise d [("alp"%string, PT t)] 9 true g9) ->
  is_finite (s9 : F) = true ->
  (forall b i j k, valid B b -> i < n -> j < n -> k < n -> sl1 numbers b i = 0%Z ->
     is_finite (sl3 c9 b i j k : F) = true) ->
  exists e, get_atm_dispersion X numbers positions c9 radii cutoff d s9p alpp = Ok e /\ shp e = n :: B /\
    forall b i, valid B b -> i < n -> sl1 numbers b i = 0%Z -> is_zero (sl1 e b i : F).
Proof.
  intros numbers positions c9 radii cutoff d s9p alpp n c B g9 s9 alp Hn Hpo Hc Hr Hcut H9 Ha Hg F9 FC.
  destruct (get_atm_dispersion_ev X numbers positions c9 radii cutoff d s9p alpp n c B g9 s9 alp
    (dat cutoff []) Hn Hpo Hc Hr H9 Ha (ten_scalar _ Hcut) Hg) as (e & E & S & D).
  exists e. split; [exact E|]. split; [exact S|].
  intros b i V Hi Hz. unfold sl1 at 1. rewrite D by (split; auto). cbn [ix1].
  apply pad_e3_z; auto.
Qed.
End P.
Print Assumptions C52_padding_never_nonzero.
Print Assumptions C52_two_body_padding_zero.
Print Assumptions C52_three_body_padding_zero.
