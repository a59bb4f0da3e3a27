(** * Concrete models and calls in any arithmetic: examples for the bit-for-bit theorems. *)
From Coq Require Import Reals List Arith ZArith QArith Bool String Lia Lra.
From Flocq Require Import Core.Core IEEE754.BinarySingleNaN.
From Verif Require Import Py Tensor Scalar ModelExt ModelUtils ModelDamping ModelModels
  ModelTerms ModelDisp SpecCall TensorLemmas Closed ClosedM ClosedTerms ClosedModels ClosedDamp
  ClosedDisp CallLemmas SpecBits PropsBits Usable InstW IeeeInst IeeeP SpecIeee IeeeLib InstIeee PropsPadIeee.
Import ListNotations.
Open Scope nat_scope.

Section A.
Context {N : Num} (X : Ext (sc N)).
Notation K := (sc N).

(** coordination number: sum over the other real atoms of 1/(1+r) *)
Definition cn_any : CNFunc N :=
  fun _ numbers positions =>
    match shp positions with
    | c :: n :: B => if shape_eqb (shp numbers) (n :: B) then
        Ok (mkT (n :: B) (fun ix => match ix with
          | i :: b => fsum n (fun j => if pmask (sl1 numbers b) i j
              then fdiv (flit 1) (fadd (flit 1) (x_dist X c (sl2 positions b i) (sl2 positions b j)))
              else flit 0)
          | [] => flit 0 end))
        else Raise RuntimeError
    | _ => Raise RuntimeError
    end.

(** charges: the total charge plus the coordination number *)
Definition eeq_any (numbers : tensor Z) (positions charge cutoff : tensor K) : res (tensor K) :=
  rmap (fun cn : tensor K => mkT (shp cn) (fun ix => match ix with
          | i :: b => fadd (total_charge charge b) (dat cn (i :: b))
          | [] => flit 0 end)) (cn_any None numbers positions).

Definition Wany : World N := mkWorld cn_any cn_any (fun x _ => x) eeq_any.

Lemma cn_any_ok kw numbers (positions : tensor K) c n B :
  shp numbers = n :: B -> shp positions = c :: n :: B ->
  exists t, cn_any kw numbers positions = Ok t /\ shp t = n :: B.
Proof.
  intros H1 H2. unfold cn_any. rewrite H1, H2, shape_eqb_refl. eexists. split; reflexivity.
Qed.
Lemma cn_any_val kw numbers (positions : tensor K) c n B t b i :
  shp numbers = n :: B -> shp positions = c :: n :: B -> cn_any kw numbers positions = Ok t ->
  sl1 t b i = fsum n (fun j => if pmask (sl1 numbers b) i j
    then fdiv (flit 1) (fadd (flit 1) (x_dist X c (sl2 positions b i) (sl2 positions b j))) else flit 0).
Proof.
  intros H1 H2. unfold cn_any. rewrite H1, H2, shape_eqb_refl. intros E. injection E as <-. reflexivity.
Qed.

Lemma cn_any_local kw : dist_local X -> cn_local (cn_any kw).
Proof.
  intros HD n c B1 B2 z1 x1 b1 z2 x2 b2 t1 t2 S1 P1 V1 S2 P2 V2 (Hz & Hx) E1 E2 i Hi.
  rewrite (cn_any_val _ _ _ _ _ _ _ _ _ S1 P1 E1), (cn_any_val _ _ _ _ _ _ _ _ _ S2 P2 E2).
  apply fsum_ext. intros j Hj. rewrite (pmask_eq (sl1 z1 b1) (sl1 z2 b2) n) by auto.
  destruct (pmask (sl1 z2 b2) i j) eqn:E; [|reflexivity]. f_equal. f_equal.
  unfold pmask in E. apply andb_true_iff in E as (E & _). apply andb_true_iff in E as (Ei & Ej).
  apply HD; intros k Hk; apply Hx; auto; apply is_real_true; rewrite Hz; auto.
Qed.

Lemma eeq_any_local : dist_local X -> eeq_local Wany.
Proof.
  intros HD n c B1 B2 z1 x1 b1 z2 x2 b2 q1 q2 co t1 t2 S1 P1 V1 S2 P2 V2 SA Q E1 E2 i Hi.
  simpl in E1, E2. unfold eeq_any in E1, E2.
  destruct (cn_any_ok None z1 x1 c n B1 S1 P1) as (c1 & C1 & SC1).
  destruct (cn_any_ok None z2 x2 c n B2 S2 P2) as (c2 & C2 & SC2).
  rewrite C1 in E1. rewrite C2 in E2. simpl in E1, E2. injection E1 as <-. injection E2 as <-.
  unfold sl1 at 1 2. cbn [dat]. rewrite Q. f_equal.
  exact (cn_any_local None HD n c B1 B2 z1 x1 b1 z2 x2 b2 c1 c2 S1 P1 V1 S2 P2 V2 SA C1 C2 i Hi).
Qed.

Definition Pany (key : string) : Disp N := mkDisp (terms_d4 X) cn_any None key None no_kw.
Definition gparam : Param K :=
  [("s6", lit_p 1); ("s8", lit_p (96 # 100)); ("a1", lit_p (39 # 100)); ("a2", lit_p (48 # 10)); ("s9", lit_p 1)]%string.
Lemma gparam_good : good_param gparam.
Proof.
  intros k v H. simpl in H.
  repeat (destruct H as [H|H]; [injection H as <- <-; split; [simpl; tauto|intros _; eexists; apply isnum_lit]|]).
  destruct H.
Qed.
Definition gcall (numbers : tensor Z) (positions : tensor K) : Args N :=
  mkCall numbers positions (scal (flit 0)) gparam None None None None None.

Lemma gcall_wf numbers positions c n B key kind :
  key = "d4"%string /\ kind = D4M \/ key = "d4s"%string /\ kind = D4SM ->
  shp numbers = n :: B -> shp positions = c :: n :: B ->
  (forall ix, valid (n :: B) ix -> (0 <= dat numbers ix <= 103)%Z) ->
  well_formed X Wany (Pany key) (gcall numbers positions) kind no_kw n c B.
Proof.
  intros HK S P Z.
  constructor; cbn [gcall a_numbers a_positions a_q a_rcov a_r4r2 a_rvdw a_cutoff a_param
    a_charge opt_shape Pany p_cn_fn p_cn_kw p_terms]; auto; try congruence; try reflexivity; try exact I.
  - left. split; [reflexivity|]. split; [reflexivity|]. destruct HK as [(-> & ->)|(-> & ->)]; [left|right]; split; reflexivity.
  - split; reflexivity.
  - left. rewrite S. split; [reflexivity|]. exact Z.
  - apply gparam_good.
  - intros t [<-|[<-|[]]].
    + apply usable_rational; [apply gparam_good|discriminate|discriminate].
    + apply usable_atm; discriminate.
  - eapply cn_any_ok; eauto.
  - intros _ _. simpl. unfold eeq_any. destruct (cn_any_ok None numbers positions c n B S P) as (cn & -> & Sc).
    simpl. eexists. split; [reflexivity|]. exact Sc.
Qed.

(** ** C51: the batch of water and (padded) carbon monoxide, and water alone *)
Definition gline (n : nat) (B : list nat) (pad : K) : tensor K :=
  mkT (3 :: n :: B) (fun ix => match ix with
    | [k; 2; 1] => pad          (* the padding atom of the second molecule *)
    | k :: i :: _ => if Nat.eqb k 0 then flit (inject_Z (2 * Z.of_nat i)) else flit 0
    | _ => flit 0 end).
Definition gmols (pad : K) : Args N := gcall two_mols (gline 3 [2] pad).

Example C51_example key kind pad b :
  key = "d4"%string /\ kind = D4M \/ key = "d4s"%string /\ kind = D4SM ->
  ext_tables X -> dist_local X -> valid [2] b ->
  exists eb e, run X Wany (Pany key) (gmols pad) = Ok eb /\ run X Wany (Pany key) (alone b (gmols pad)) = Ok e /\
    shp eb = [3; 2] /\ shp e = [3] /\ forall i, i < 3 -> dat e [i] = dat eb (i :: b).
Proof.
  intros HK HX HD V.
  assert (S2 : shp (a_positions (alone b (gmols pad))) = [3; 3]) by reflexivity.
  assert (S1 : shp (a_numbers (alone b (gmols pad))) = [3]) by reflexivity.
  apply (C51_molecule_alone X Wany (Pany key) (gmols pad) kind no_kw 3 3 [2] b); auto.
  - now apply cn_any_local.
  - now apply eeq_any_local.
  - now right.
  - apply gcall_wf; auto using two_mols_range.
  - apply (cn_any_ok None _ _ 3 3 []); auto.
  - cbn [w_eeq Wany]. unfold eeq_any. destruct (cn_any_ok None _ _ 3 3 [] S1 S2) as (cn & -> & Sc).
    simpl. eexists. split; [reflexivity|]. exact Sc.
Qed.

Example C51_padding_example key kind pad pad' :
  key = "d4"%string /\ kind = D4M \/ key = "d4s"%string /\ kind = D4SM ->
  ext_tables X -> dist_local X ->
  exists e1 e2, run X Wany (Pany key) (gmols pad) = Ok e1 /\ run X Wany (Pany key) (gmols pad') = Ok e2 /\
    shp e1 = [3; 2] /\ shp e2 = [3; 2] /\ forall b i, valid [2] b -> i < 3 -> sl1 e1 b i = sl1 e2 b i.
Proof.
  intros HK HX HD.
  apply (C51_padding_coordinates X Wany (Pany key) (gmols pad) (gline 3 [2] pad') kind no_kw 3 3 [2]); auto.
  - now apply cn_any_local.
  - now apply eeq_any_local.
  - now right.
  - apply gcall_wf; auto using two_mols_range.
  - apply gcall_wf; auto using two_mols_range.
  - intros [|x [|]] i k V Hi Hk Hz; simpl in V; try tauto. cbn [gmols gcall a_numbers a_positions] in *.
    unfold sl1, sl2 in *. cbn [gline two_mols dat] in *.
    destruct i as [|[|[|i]]]; try lia; try reflexivity. destruct x as [|[|x]]; try lia; try reflexivity. now elim Hz.
Qed.
End A.

(** In single precision the padding atom may sit at NaN. *)
Local Existing Instance Hp64.
Local Existing Instance He64.
Local Existing Instance Hp32.
Local Existing Instance He32.

Definition Xf : Ext (sc N32) :=
  mkExt (sc N32) (fun _ x y => Babs (Bminus mode_NE (x O) (y O)) : sc N32) (Bdiv mode_NE) (Bsqrt mode_NE)
    (x_zeff X32) (x_gam X32) (x_vdw X32).
Lemma Xf_tables : ext_tables Xf.
Proof. exact X32_tables. Qed.
(** a distance that looks at the coordinates of the two points only *)
Definition Xl : Ext (sc N32) :=
  mkExt (sc N32) (fun c x y => match c with O => B754_zero false | _ => x_dist Xf c x y end)
    (Bdiv mode_NE) (Bsqrt mode_NE) (x_zeff X32) (x_gam X32) (x_vdw X32).
Lemma Xl_local : dist_local Xl.
Proof. intros [|c] x x' y y' Hx Hy; [reflexivity|]. simpl. rewrite (Hx 0), (Hy 0) by lia. reflexivity. Qed.

Example C51_nan_example : exists e1 e2,
  run (N := N32) Xl (Wany Xl) (Pany Xl "d4") (gmols (B754_nan : sc N32)) = Ok e1 /\
  run (N := N32) Xl (Wany Xl) (Pany Xl "d4") (gmols (B754_zero false : sc N32)) = Ok e2 /\
  shp e1 = [3; 2] /\ shp e2 = [3; 2] /\ forall b i, valid [2] b -> i < 3 -> sl1 e1 b i = sl1 e2 b i.
Proof.
  apply (C51_padding_example (N := N32) Xl "d4"%string D4M); [left; split; reflexivity|exact Xf_tables|exact Xl_local].
Qed.

(** ** C52 *)
Example C52_example :
  well_formed (N := N32) Xl (Wany Xl) (Pany Xl "d4") (gmols (B754_nan : sc N32)) D4M no_kw 3 3 [2] /\
  sl1 (a_numbers (gmols (B754_nan : sc N32))) [1] 2 = 0%Z.
Proof.
  split; [|reflexivity]. apply gcall_wf; auto using two_mols_range.
Qed.
Example C52_two_body_example :
  exists e, dispersion2 Xl two_mols (gline (N := N32) 3 [2] (B754_nan : sc N32)) (gparam (N := N32))
    (mkT [3; 3; 2] (fun _ => blit 24 128 10)) (mkT [3; 2] (fun _ => blit 24 128 2)) None RationalDamping None false = Ok e /\
    shp e = [3; 2] /\ forall b i, valid [2] b -> i < 3 -> sl1 two_mols b i = 0%Z -> is_zero (sl1 e b i : f32).
Proof.
  destruct (usable_rational (N := N32) (gparam (N := N32)) D4M false gparam_good) as ([g6 g8 g10 g9] & _ & H6 & H8 & H10);
    try discriminate.
  refine (C52_two_body_padding_zero Xl two_mols (gline (N := N32) 3 [2] (B754_nan : sc N32))
    (mkT [3; 3; 2] (fun _ => blit 24 128 10)) (mkT [3; 2] (fun _ => blit 24 128 2)) (gparam (N := N32)) None RationalDamping None
    3 3 [2] g6 g8 g10 eq_refl eq_refl eq_refl eq_refl (or_introl eq_refl) I (gparam_good (N := N32)) H6 H8 H10 _ _ _ _).
  - vm_compute. reflexivity.
  - vm_compute. reflexivity.
  - intros s10 E. discriminate E.
  - intros b i j V Hi Hj Hz. cbv zeta. split; [vm_compute; reflexivity|]. split; [vm_compute; reflexivity|].
    intros E. now elim E.
Qed.
(** Without finite coefficients NaN does occur: an infinite C6 coefficient makes the energy of a
    padding atom NaN. *)
Lemma C52_padding_zero_always_refuted :
  exists c6 : tensor (sc N32), shp c6 = [2; 2] /\
  exists e, dispersion2 Xl (mkT [2] (fun ix => match ix with [0] => 6%Z | _ => 0%Z end))
    (gline (N := N32) 2 [] (B754_zero false : sc N32)) (gparam (N := N32))
    c6 (mkT [2] (fun _ => blit 24 128 2)) None RationalDamping None false = Ok e /\
    sl1 e [] 1 = B754_nan.
Proof.
  exists (mkT [2; 2] (fun _ => B754_infinity false)). split; [reflexivity|].
  destruct (usable_rational (N := N32) (gparam (N := N32)) D4M false gparam_good) as ([g6 g8 g10 g9] & _ & H6 & H8 & H10);
    try discriminate. cbn [t_damping f6 f8 f10 f9] in *.
  destruct (dispersion2_ev Xl (mkT [2] (fun ix => match ix with [0] => 6%Z | _ => 0%Z end))
    (gline (N := N32) 2 [] (B754_zero false : sc N32)) (gparam (N := N32)) (mkT [2; 2] (fun _ => B754_infinity false))
    (mkT [2] (fun _ => blit 24 128 2)) None RationalDamping None 2 3 [] g6 g8 (flit 1) (flit (96 # 100))
    (flit 60) None eq_refl eq_refl eq_refl eq_refl (or_introl eq_refl) H6 H8 (isnum_lit _) (isnum_lit _)
    (ten_scalar (scal (flit (s := sc N32) 60)) eq_refl) eq_refl false) as (e & E & S & D).
  exists e. split; [exact E|]. unfold sl1. rewrite D by (simpl; lia). cbn [ix1].
  unfold e2_atom. cbn [fsum].
  unfold tfac.
  repeat match goal with |- context [pmask ?z 1 ?j] => change (pmask z 1 j) with false end. cbn [andb].
  vm_compute. reflexivity.
Qed.
Print Assumptions C52_padding_zero_always_refuted.

Example C52_three_body_example :
  exists e, get_atm_dispersion Xl two_mols (gline (N := N32) 3 [2] (B754_nan : sc N32))
    (mkT [3; 3; 3; 2] (fun _ => blit 24 128 10)) (mkT [3; 3; 2] (fun _ => blit 24 128 2))
    (scal (blit 24 128 40)) (ZeroDamping Xl) (lit_p 1) (lit_p dALP) = Ok e /\
    shp e = [3; 2] /\ forall b i, valid [2] b -> i < 3 -> sl1 two_mols b i = 0%Z -> is_zero (sl1 e b i : f32).
Proof.
  destruct (usable_atm (N := N32) Xl (gparam (N := N32)) D4M D4ATMApprox false) as ([g6 g8 g10 g9] & H9 & _);
    try discriminate. cbn [t_damping f9] in H9.
  refine (C52_three_body_padding_zero Xl two_mols (gline (N := N32) 3 [2] (B754_nan : sc N32)) (mkT [3; 3; 3; 2] (fun _ => blit 24 128 10)) (mkT [3; 3; 2] (fun _ => blit 24 128 2))
    (scal (blit 24 128 40)) (ZeroDamping Xl) (lit_p 1) (lit_p dALP) 3 3 [2] g9 (blit 24 128 1) (blit 24 128 dALP)
    eq_refl eq_refl eq_refl eq_refl eq_refl (isnum_lit _) (isnum_lit _) _ _ _).
  - exact H9.
  - vm_compute. reflexivity.
  - intros b i j k V Hi Hj Hk Hz. vm_compute. reflexivity.
Qed.
