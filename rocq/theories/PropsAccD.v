(** * C81: rounding errors of [Disp.calculate]: the sum over the terms *)
From Coq Require Import Reals Lra Lia ZArith QArith Qreals List Arith Bool String.
From Flocq Require Import Core.Core IEEE754.BinarySingleNaN Plus_error.
From Verif Require Import CallLemmas Py Tensor Scalar RInst ModelExt ModelUtils ModelDamping ModelModels ModelTerms ModelDisp Spec SpecR SpecCall TensorLemmas ClosedDisp
  IeeeInst IeeeP IeeeB IeeeA PropsAcc.
Import ListNotations.
Open Scope R_scope.

Section T.
Context {prec emax : Z} {Hp : Prec_gt_0 prec} {He : Prec_lt_emax prec emax}.
Context {L : Libm prec emax} {L64 : Libm 53 1024}.
Notation N := (IN prec emax L L64).
Notation F := (binary_float prec emax).
Notation T := (tensor (sc N)).
Notation p2 := (bpow radix2).
Notation gw := (growth (prec := prec)).
Context (X : Ext (sc N)) (W : World N).

(** exact energies of the atoms and sizes, at least their absolute values, for each term *)
Record contribution := mkContr { c_energy : list nat -> nat -> R; c_size : list nat -> nat -> R }.
(** a term returns numbers within the fraction [d] of the sizes *)
Definition term_accurate (a : Args N) (m : Model N) (cn : T) (q : option T) (r4r2 rvdw : T) (n : nat) (B : list nat) (d : R)
  (t : DispTerm N) (x : contribution) : Prop :=
  exists u, term_calculate X t (a_numbers a) (a_positions a) (a_param a) cn m q r4r2 rvdw (a_cut a) = Ok u /\ shp u = n :: B /\
    forall b i, valid B b -> (i < n)%nat -> is_finite (sl1 u b i : F) = true /\ Rabs (c_energy x b i) <= c_size x b i /\
      Rabs (B2R (sl1 u b i : F) - c_energy x b i) <= d * c_size x b i.
(** sums over the terms *)
Definition total (f : contribution -> list nat -> nat -> R) (xs : list contribution) (b : list nat) (i : nat) : R :=
  fold_right Rplus 0 (map (fun x => f x b i) xs).

Lemma same_length {A B} (P : A -> B -> Prop) l l' : Forall2 P l l' -> List.length l = List.length l'.
Proof. induction 1; simpl; auto. Qed.
Lemma plus_err (x y : F) : is_finite x = true -> is_finite y = true -> Rabs (B2R x + B2R y) < p2 (emax - 1) ->
  is_finite (Bplus mode_NE x y) = true /\ Rabs (B2R (Bplus mode_NE x y) - (B2R x + B2R y)) <= p2 (- prec) * Rabs (B2R x + B2R y).
Proof.
  intros Fx Fy Hb.
  destruct (FLT_plus_error_N_ex radix2 (3 - emax - prec) prec (fun x => negb (Z.even x)) (B2R x) (B2R y)
    (generic_format_B2R prec emax x) (generic_format_B2R prec emax y)) as (eps & A & E).
  set (v := B2R x + B2R y) in *.
  assert (U : Rabs eps <= p2 (- prec)).
  { apply Rle_trans with (1 := A). rewrite (u_ro_u (prec := prec)). pose proof (bpow_gt_0 radix2 (- prec)) as P.
    apply Rmult_le_reg_r with (1 + p2 (- prec)); [lra|]. unfold Rdiv. rewrite Rmult_assoc, Rinv_l by lra. nra. }
  assert (D : Rabs (v * (1 + eps) - v) <= p2 (- prec) * Rabs v).
  { replace (v * (1 + eps) - v) with (eps * v) by ring. rewrite Rabs_mult. apply Rmult_le_compat_r; [apply Rabs_pos|exact U]. }
  change (round radix2 (FLT_exp (3 - emax - prec) prec) (Znearest (fun x => negb (Z.even x))) v) with (round radix2 (SpecFloat.fexp prec emax) (round_mode mode_NE) v) in E.
  assert (Le : p2 (- prec) <= 1) by (change 1 with (p2 0); apply bpow_le; pose proof (prec_gt_0 prec); lia).
  pose proof (Bplus_correct _ _ Hp He mode_NE x y Fx Fy) as Q. fold v in Q. rewrite Rlt_bool_true in Q.
  - destruct Q as (E1 & F1 & _). split; [exact F1|]. rewrite E1, E. exact D.
  - rewrite E. replace (v * (1 + eps)) with ((v * (1 + eps) - v) + v) by ring. apply Rle_lt_trans with (1 := Rabs_triang _ _).
    assert (p2 (- prec) * Rabs v <= 1 * Rabs v) by (apply Rmult_le_compat_r; [apply Rabs_pos|exact Le]).
    assert (Q2 : p2 emax = 2 * p2 (emax - 1)) by (replace emax with (1 + (emax - 1))%Z at 1 by ring; rewrite bpow_plus; reflexivity). lra.
Qed.

Lemma fold_acc D (fs : list F) (es ss : list R) : 0 <= D ->
  List.length fs = List.length es -> List.length fs = List.length ss ->
  (forall k, (k < List.length fs)%nat -> is_finite (nth k fs (B754_zero false)) = true /\ Rabs (nth k es 0) <= nth k ss 0 /\ Rabs (B2R (nth k fs (B754_zero false)) - nth k es 0) <= D * nth k ss 0) ->
  forall k0 (x : F) e s, is_finite x = true -> Rabs e <= s -> Rabs (B2R x - e) <= (gw k0 * (1 + D) - 1) * s ->
  gw (k0 + List.length fs) * (1 + D) * (s + fold_right Rplus 0 ss) < p2 (emax - 1) ->
  let r := fold_left (fun a g => fadd (s := sc N) a g) fs x in
  is_finite (r : F) = true /\ Rabs (e + fold_right Rplus 0 es) <= s + fold_right Rplus 0 ss /\
  Rabs (B2R (r : F) - (e + fold_right Rplus 0 es)) <= (gw (k0 + List.length fs) * (1 + D) - 1) * (s + fold_right Rplus 0 ss).
Proof.
  intros HD. revert es ss. induction fs as [|f fs IH]; intros [|e1 es] [|s1 ss] L1 L2 H k0 x e s Fx Le Ex Hb; try discriminate.
  - simpl in *. rewrite !Rplus_0_r, Nat.add_0_r in *. auto.
  - cbn [fold_left List.length fold_right] in *. destruct (H 0%nat ltac:(lia)) as (Ff & Lf & Ef). cbn [nth] in Ff, Lf, Ef.
    pose proof (wk_ge1 (prec := prec) k0) as G1. change (1 <= gw k0) in G1.
    assert (Ss : 0 <= fold_right Rplus 0 ss).
    { assert (forall k, (k < List.length ss)%nat -> 0 <= nth k ss 0).
      { intros k Hk. destruct (H (S k) ltac:(lia)) as (_ & Q & _). cbn [nth] in Q. pose proof (Rabs_pos (nth k es 0)). lra. }
      clear - H0. induction ss as [|y ss IH]; simpl; [lra|]. pose proof (H0 0%nat ltac:(simpl; lia)). simpl in H.
      assert (0 <= fold_right Rplus 0 ss) by (apply IH; intros k Hk; apply (H0 (S k)); simpl; lia). lra. }
    pose proof (Rabs_pos e) as Pe. pose proof (Rabs_pos e1) as Pe1.
    assert (GD : 1 <= gw k0 * (1 + D)) by nra.
    assert (E1 : Rabs (B2R x + B2R f - (e + e1)) <= (gw k0 * (1 + D) - 1) * (s + s1)).
    { replace (B2R x + B2R f - (e + e1)) with ((B2R x - e) + (B2R f - e1)) by ring. apply Rle_trans with (1 := Rabs_triang _ _).
      assert (D * s1 <= (gw k0 * (1 + D) - 1) * s1) by (apply Rmult_le_compat_r; [lra|nra]). lra. }
    assert (A1 : Rabs (e + e1) <= s + s1) by (apply Rle_trans with (1 := Rabs_triang _ _); lra).
    assert (V1 : Rabs (B2R x + B2R f) <= gw k0 * (1 + D) * (s + s1)).
    { replace (B2R x + B2R f) with ((B2R x + B2R f - (e + e1)) + (e + e1)) by ring. apply Rle_trans with (1 := Rabs_triang _ _). lra. }
    assert (Gk : gw k0 <= gw (k0 + S (List.length fs))) by (apply (wk_le (prec := prec)); lia).
    assert (V2 : Rabs (B2R x + B2R f) < p2 (emax - 1)).
    { apply Rle_lt_trans with (1 := V1). apply Rle_lt_trans with (2 := Hb). apply Rmult_le_compat; try lra.
      apply Rmult_le_compat_r; lra. }
    destruct (plus_err x f Fx Ff V2) as (F1 & P1).
    assert (Gs : gw (S k0) = gw k0 * (1 + p2 (- prec))) by (unfold growth; simpl; ring).
    pose proof (bpow_gt_0 radix2 (- prec)) as Pu.
    assert (E2 : Rabs (B2R (Bplus mode_NE x f) - (e + e1)) <= (gw (S k0) * (1 + D) - 1) * (s + s1)).
    { replace (B2R (Bplus mode_NE x f) - (e + e1)) with ((B2R (Bplus mode_NE x f) - (B2R x + B2R f)) + (B2R x + B2R f - (e + e1))) by ring.
      apply Rle_trans with (1 := Rabs_triang _ _). rewrite Gs.
      assert (p2 (- prec) * Rabs (B2R x + B2R f) <= p2 (- prec) * (gw k0 * (1 + D) * (s + s1))) by (apply Rmult_le_compat_l; lra). lra. }
    destruct (IH es ss ltac:(lia) ltac:(lia) ltac:(intros k Hk; apply (H (S k)); lia) (S k0) (Bplus mode_NE x f) (e + e1) (s + s1) F1 A1 E2) as (Q1 & Q2 & Q3).
    { replace (S k0 + List.length fs)%nat with (k0 + S (List.length fs))%nat by lia. rewrite Rplus_assoc. exact Hb. }
    replace (S k0 + List.length fs)%nat with (k0 + S (List.length fs))%nat in Q3 by lia. rewrite <- !Rplus_assoc. auto.
Qed.

(** The energies returned by a calculation with any terms, in any number, built into the package or not: the
    sum over the terms adds one rounding error per term, relative to the sum of the sizes. *)
Theorem C81_sum_of_terms (p : Disp N) (a : Args N) (m : Model N) (cn : T) (q : option T) (r4r2 rvdw : T) n c B (xs : list contribution) (D : R) :
  shp (a_numbers a) = n :: B -> shp (a_positions a) = c :: n :: B -> opt_shape (a_rcov a) (n :: B) ->
  get_model X p (a_numbers a) = Ok m ->
  match a_r4r2 a with None => get_r4r2 (a_numbers a) | Some r => Ok r end = Ok r4r2 -> shp r4r2 = n :: B ->
  match a_rvdw a with None => get_rvdw X (a_numbers a) | Some r => Ok r end = Ok rvdw -> shp rvdw = n :: n :: B ->
  p_cn_fn p (p_cn_kw p) (a_numbers a) (a_positions a) = Ok cn ->
  charges W p (a_numbers a) (a_positions a) (a_charge a) (a_cut a) (a_q a) = Ok q -> opt_shape q (n :: B) -> (a_q a <> None -> needs_charges p) ->
  0 <= D -> Forall2 (term_accurate a m cn q r4r2 rvdw n B D) (p_terms p) xs ->
  let k := List.length (p_terms p) in
  (forall b i, valid B b -> (i < n)%nat -> gw k * (1 + D) * total c_size xs b i < p2 (emax - 1)) ->
  exists t, run X W p a = Ok t /\ shp t = n :: B /\
    forall b i, valid B b -> (i < n)%nat ->
      is_finite (sl1 t b i : F) = true /\ Rabs (total c_energy xs b i) <= total c_size xs b i /\
      Rabs (B2R (sl1 t b i : F) - total c_energy xs b i) <= (gw k * (1 + D) - 1) * total c_size xs b i.
Proof.
  intros Hn Hx Hrc Em E4 S4 Ev Sv Ecn Eq Sq Hq HD HT k Hb.
  assert (R : run X W p a = sum_terms (mkT (n :: B) (fun _ => f0)) (p_terms p)
    (fun t => term_calculate X t (a_numbers a) (a_positions a) (a_param a) cn m q r4r2 rvdw (a_cut a))).
  { assert (CS : forall s, check_shape s s = Ok tt) by (intros s; unfold check_shape; now rewrite shape_eqb_refl).
    unfold run, calculate. rewrite Hx, Hn. cbn [tl]. rewrite CS. cbn [bind]. rewrite Em. cbn [bind].
    assert (RC : match a_rcov a with None => Ok tt | Some rc => check_shape (n :: B) (shp rc) end = Ok tt).
    { destruct (a_rcov a); auto. cbn [opt_shape] in Hrc. rewrite Hrc. apply CS. }
    rewrite RC. cbn [bind]. rewrite E4. cbn [bind]. rewrite S4, CS. cbn [bind]. rewrite Ev. cbn [bind]. rewrite Sv. cbn [tl]. rewrite CS. cbn [bind].
    rewrite Ecn. cbn [bind]. fold (a_cut a). unfold charges in Eq. destruct (a_q a) as [qa|] eqn:EQ.
    - assert (NC : existsb (@t_cdep N) (p_terms p) = true) by (apply needs_charges_b, Hq; discriminate).
      rewrite NC. cbn [negb raise_if bind]. injection Eq as <-. cbn [opt_shape] in Sq. rewrite Sq, CS. reflexivity.
    - cbn [raise_if bind]. destruct (existsb (@t_cdep N) (p_terms p)).
      + rewrite Eq. cbn [bind]. destruct q as [qa|]; [|reflexivity]. cbn [opt_shape] in Sq. rewrite Sq, CS. reflexivity.
      + injection Eq as <-. reflexivity. }
  set (calc := fun t => term_calculate X t (a_numbers a) (a_positions a) (a_param a) cn m q r4r2 rvdw (a_cut a)) in *.
  assert (FS : exists fs, Forall2 (fun t g => ev (calc t) (n :: B) g) (p_terms p) fs /\
    Forall2 (fun (g : list nat -> sc N) x => forall b i, valid B b -> (i < n)%nat -> is_finite (g (i :: b) : F) = true /\ Rabs (c_energy x b i) <= c_size x b i /\
      Rabs (B2R (g (i :: b) : F) - c_energy x b i) <= D * c_size x b i) fs xs).
  { clear - HT. induction HT as [|t x ts xs Ht HT IH]; [exists []; split; constructor|].
    destruct IH as (fs & H1 & H2). destruct Ht as (u & Eu & Su & Hu). exists (dat u :: fs). split; constructor; auto.
    exists u. split; [exact Eu|]. split; [exact Su|]. intros ix _. reflexivity. }
  destruct FS as (fs & H1 & H2). pose proof (same_length _ _ _ H1) as L1. pose proof (same_length _ _ _ H2) as L2. fold k in L1.
  destruct (sum_terms_ev calc (n :: B) (p_terms p) fs (mkT (n :: B) (fun _ => f0)) (fun _ => f0)) as (t & Et & St & Vt); auto.
  { split; auto. }
  exists t. split; [rewrite R; exact Et|]. split; [exact St|]. intros b i Hvb Hi.
  unfold sl1. rewrite Vt by (split; auto).
  assert (EF : fold_left (fun x g => fadd x (g (i :: b))) fs (f0 : sc N) = fold_left (fun x g => fadd (s := sc N) x g) (map (fun g => g (i :: b)) fs) f0).
  { generalize (f0 : sc N). clear. induction fs as [|g fs IH]; intros x; simpl; auto. }
  rewrite EF.
  destruct (fold_acc D (map (fun g => g (i :: b)) fs) (map (fun x => c_energy x b i) xs) (map (fun x => c_size x b i) xs) HD) with (k0 := 0%nat) (x := (f0 : sc N) : F) (e := 0) (s := 0) as (Q1 & Q2 & Q3).
  - rewrite !map_length. exact L2.
  - rewrite !map_length. exact L2.
  - rewrite map_length. clear - H2 Hvb Hi. induction H2 as [|g x fs xs Hg H2 IH]; intros k Hk; simpl in Hk; [lia|].
    destruct k as [|k]; simpl; [now apply Hg|apply IH, (proj2 (Nat.succ_lt_mono _ _)); exact Hk].
  - reflexivity.
  - rewrite Rabs_R0. lra.
  - simpl. rewrite Rminus_0_r, Rabs_R0. lra.
  - rewrite map_length, <- L1, Rplus_0_l. simpl plus. now apply Hb.
  - rewrite map_length, <- L1 in Q3. simpl plus in Q3. rewrite !Rplus_0_l in *. unfold total. auto.
Qed.
End T.
Print Assumptions C81_sum_of_terms.
