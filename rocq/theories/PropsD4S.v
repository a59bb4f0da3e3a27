(** * D4S: weighted polarizabilities (C34), molecular polarizabilities (C35) *)
From Coq Require Import Reals Lra Lia List Arith ZArith QArith Qreals Bool String.
From Verif Require Import Py Tensor Scalar RInst ModelExt ModelUtils ModelDamping ModelModels ModelTerms
  SpecCall SpecR DataPair TensorLemmas EinsumLemmas Closed ClosedM ClosedModels ClosedTerms CallLemmas
  PropsTables SpecW WeightsR WeightsP PropsWeights.
Import ListNotations.
Open Scope R_scope.

Lemma bdim_none a b : a <> b -> a <> 1%nat -> b <> 1%nat -> bdim a b = None.
Proof.
  intros H1 H2 H3. unfold bdim. destruct (Nat.eqb_spec a b); [contradiction|].
  destruct (Nat.eqb_spec a 1); [contradiction|]. destruct (Nat.eqb_spec b 1); [contradiction|]. reflexivity.
Qed.

(** number of real atoms of molecule [b] *)
Definition real_count (numbers : tensor Z) (n : nat) (b : list nat) : R :=
  rsum n (fun i => if (sl1 numbers b i =? 0)%Z then 0 else 1).

Section S.
Context {eps mx : R}.
Notation N := (RN eps mx).
Notation T := (tensor (sc N)).
Context (X : Ext (sc N)).

Lemma count_real_R numbers n B : shp numbers = n :: B ->
  shp (count_real (N := N) numbers) = 1%nat :: B /\
  forall b x, dat (count_real (N := N) numbers) (x :: b) = real_count numbers n b.
Proof.
  intros Hs. unfold count_real, reduce_last_keep, tmap, real_atoms. destruct numbers as [s0 d]. cbn [shp dat] in *. subst s0. cbn [shp dat].
  split; [reflexivity|]. intros b x. cbn [tl].
  match goal with |- flit (inject_Z (Z.of_nat ?l)) = _ => change (Q2R (inject_Z (Z.of_nat l)) = real_count (mkT (n :: B) d) n b) end.
  rewrite Q2R_inj, <- INR_IZR_INZ. unfold real_count, sl1. cbn [dat].
  assert (G : forall m, INR (list_sum (map (fun i => if negb (d (i :: b) =? 0)%Z then 1%nat else 0%nat) (seq 0 m))) =
     rsum m (fun i => if (d (i :: b) =? 0)%Z then 0 else 1)).
  { induction m as [|m IH]; [reflexivity|]. rewrite seq_S, map_app, list_sum_app, plus_INR, IH.
    cbn [rsum map list_sum fold_right Nat.add]. rewrite Nat.add_0_r. destruct (d (m :: b) =? 0)%Z; reflexivity. }
  rewrite <- G. reflexivity.
Qed.

Lemma tdiv_ok (t u : T) ss su s : shp t = ss -> shp u = su -> bshape ss su = Some s ->
  exists p, tdiv (Ok t) (Ok u) = Ok p /\ shp p = s /\ forall i, dat p i = dat t (bidx ss i) / dat u (bidx su i).
Proof.
  intros <- <- E. unfold tdiv, lift2, tmap2. cbn [bind]. rewrite E. eexists. split; [reflexivity|]. split; [reflexivity|].
  intros i. reflexivity.
Qed.
Lemma tdiv_raise (t u : T) ss su : shp t = ss -> shp u = su -> bshape ss su = None ->
  tdiv (Ok t) (Ok u) = Raise RuntimeError.
Proof. intros <- <- E. unfold tdiv, lift2, tmap2. cbn [bind]. now rewrite E. Qed.

(** ** C34 *)
Lemma d4s_sum kw numbers n B m (gw : T) : constructed X D4SM kw numbers n B m ->
  shp gw = 7%nat :: n :: n :: B ->
  exists s, get_weighted_pols X m gw = tdiv (Ok s) (Ok (count_real numbers)) /\ shp s = 23%nat :: n :: B /\
    forall b j w, an_atom n B b j -> (w < 23)%nat ->
      sl2 s b j w = rsum n (fun i => pol_atom X kw (elem numbers b i) (sl3 gw b j i) w).
Proof.
  intros HC Hs. destruct (constructed_is X _ _ _ _ _ _ HC) as ((_ & EK & EN & _) & _).
  destruct (alpha_run X _ _ _ _ _ _ HC) as (al & Ea & Hsa & Hva).
  unfold get_weighted_pols. rewrite EK, Ea, EN. cbn [bind].
  destruct (ein_wpol_d4s (K := RS eps mx) gw al n n 7 23 B _ _ (ten_eq gw _ Hs) (ten_eq al _ Hsa)) as (s & E & Hsp & Hd).
  exists s. split; [exact (f_equal (fun x => tdiv x (Ok (count_real (N := N) numbers))) E)|]. split; [exact Hsp|]. intros b j w (Hb & Hj) Hw.
  unfold sl2. rewrite Hd by (repeat apply valid_cons; auto). cbn [ix2 hd tl].
  etransitivity; [apply fsum_R|]. etransitivity.
  { apply rsum_ext. intros x Hx. apply fsum_R. }
  cbv beta. rewrite rsum_swap. apply rsum_ext. intros i Hi. apply rsum_ext. intros r Hr.
  rewrite <- (Hva b i r w) by (auto; split; auto). reflexivity.
Qed.

(** [get_weighted_pols] of a D4S model, single molecule: the value for atom [j] is the sum over
    ALL atoms [i] of the polarizabilities of [i] (in the presence of [j]), divided by the number of atoms *)
Theorem C34_d4s_weighted_pols kw numbers n m (gw : T) :
  constructed X D4SM kw numbers n [] m -> shp gw = [7%nat; n; n] ->
  exists p, get_weighted_pols X m gw = Ok p /\ shp p = [23%nat; n] /\
    forall j w, (j < n)%nat -> (w < 23)%nat ->
      sl2 p [] j w = rsum n (fun i => pol_atom X kw (elem numbers [] i) (sl3 gw [] j i) w) / real_count numbers n [].
Proof.
  intros HC Hs. destruct (d4s_sum kw numbers n [] m gw HC Hs) as (s & E & Hss & Hv).
  destruct HC as (_ & _ & Hn & _). destruct (count_real_R numbers n [] Hn) as (Hc & Hcv).
  destruct (tdiv_ok s _ _ _ [23%nat; n] Hss Hc) as (p & Ep & Hp & Hd).
  { cbn [bshape]. now rewrite bdim_1_r. }
  exists p. rewrite E. split; [exact Ep|split; [exact Hp|]].
  - intros j w Hj Hw. unfold sl2 at 1. rewrite Hd.
    rewrite !bidx_cons by auto. rewrite bidx_1, !bidx_nil.
    rewrite Hcv. change (dat s [w; j]) with (sl2 s [] j w).
    rewrite Hv by (auto; split; simpl; auto). reflexivity.
Qed.

(** so with weighting factors that do not depend on the partner all atoms get the same
    polarizability, whereas D4 gives each atom its own *)
Theorem C34_atoms_not_distinguished kw numbers n m (gw p : T) i j w :
  constructed X D4SM kw numbers n [] m -> shp gw = [7%nat; n; n] ->
  (forall k l i r, (k < n)%nat -> (l < n)%nat -> (i < n)%nat -> (r < 7)%nat -> sl3 gw [] k i r = sl3 gw [] l i r) ->
  get_weighted_pols X m gw = Ok p -> (i < n)%nat -> (j < n)%nat -> (w < 23)%nat ->
  sl2 p [] i w = sl2 p [] j w.
Proof.
  intros HC Hs HU E Hi Hj Hw. destruct (C34_d4s_weighted_pols kw numbers n m gw HC Hs) as (p' & E' & _ & Hv).
  rewrite E in E'. injection E' as <-. rewrite !Hv by auto. f_equal. apply rsum_ext. intros k Hk.
  unfold pol_atom. apply rsum_ext. intros r Hr. f_equal. now apply HU.
Qed.

(** batched: an exception, unless the number of atoms or the batch size is 1 or they coincide *)
Theorem C34_batched_raises kw numbers n c B m (gw : T) :
  constructed X D4SM kw numbers n (c :: B) m -> shp gw = 7%nat :: n :: n :: c :: B ->
  n <> c -> n <> 1%nat -> c <> 1%nat ->
  get_weighted_pols X m gw = Raise RuntimeError.
Proof.
  intros HC Hs H1 H2 H3. destruct (d4s_sum kw numbers n (c :: B) m gw HC Hs) as (s & E & Hss & _).
  destruct HC as (_ & _ & Hn & _). destruct (count_real_R numbers n (c :: B) Hn) as (Hc & _).
  rewrite E. eapply tdiv_raise; [exact Hss|exact Hc|]. cbn [bshape].
  rewrite bdim_1_r, bdim_none by auto. reflexivity.
Qed.

(** if the batch size coincides with the number of atoms, the value for atom [j] of molecule [b] is
    silently divided by the number of atoms of molecule [j] *)
Theorem C34_square_batch kw numbers n m (gw : T) :
  constructed X D4SM kw numbers n [n] m -> shp gw = [7%nat; n; n; n] ->
  exists p, get_weighted_pols X m gw = Ok p /\ shp p = [23%nat; n; n] /\
    forall b j w, (b < n)%nat -> (j < n)%nat -> (w < 23)%nat ->
      sl2 p [b] j w = rsum n (fun i => pol_atom X kw (elem numbers [b] i) (sl3 gw [b] j i) w) / real_count numbers n [j].
Proof.
  intros HC Hs. destruct (d4s_sum kw numbers n [n] m gw HC Hs) as (s & E & Hss & Hv).
  destruct HC as (_ & _ & Hn & _). destruct (count_real_R numbers n [n] Hn) as (Hc & Hcv).
  destruct (tdiv_ok s _ _ _ [23%nat; n; n] Hss Hc) as (p & Ep & Hp & Hd).
  { cbn [bshape]. now rewrite bdim_1_r, bdim_refl. }
  exists p. rewrite E. split; [exact Ep|split; [exact Hp|]].
  - intros b j w Hb Hj Hw. unfold sl2 at 1. rewrite Hd.
    rewrite bidx_1, !bidx_cons by auto. rewrite !bidx_nil.
    rewrite Hcv. change (dat s [w; j; b]) with (sl2 s [b] j w).
    rewrite Hv by (auto; split; simpl; auto). reflexivity.
Qed.

(** ** C35 for D4S *)
Lemma pol0_run kw numbers n B m : constructed X D4SM kw numbers n B m ->
  exists a0, (forall gw, model_polarizabilities X m gw = einsumK [(Ell "nr", gw); (Ell "nr", a0)] (Ell "n")) /\
    shp a0 = 7%nat :: n :: B /\
    forall b i r, an_atom n B b i -> (r < 7)%nat -> sl2 a0 b i r = pol_ref X kw (elem numbers b i) r 0.
Proof.
  intros HC. destruct (alpha_run X _ _ _ _ _ _ HC) as (al & Ea & Hsa & Hva).
  destruct (ev_select0 (Ok al) 23 (7 :: n :: B)%nat (dat al)) as (a0 & E0 & Hs0 & Hd0).
  { exists al. split; [reflexivity|]. now apply ten_eq. }
  { lia. }
  exists a0. split; [|split].
  - intros gw. unfold model_polarizabilities, get_polarizabilities. unfold model_alpha in Ea. rewrite Ea, E0. reflexivity.
  - exact Hs0.
  - intros b i r (Hb & Hi) Hr. unfold sl2. rewrite Hd0 by (repeat apply valid_cons; auto).
    rewrite <- (Hva b i r 0%nat) by (auto; try split; auto; lia). reflexivity.
Qed.

(** molecular polarizabilities of D4S weights, single molecule: not one value per atom but a matrix;
    row [j] holds the polarizabilities of all atoms in the presence of [j] *)
Theorem C35_d4s_polarizabilities kw numbers n m (gw : T) :
  constructed X D4SM kw numbers n [] m -> shp gw = [7%nat; n; n] ->
  exists p, model_polarizabilities X m gw = Ok p /\ shp p = [n; n] /\
    forall i j, (i < n)%nat -> (j < n)%nat ->
      sl2 p [] j i = pol_atom X kw (elem numbers [] i) (sl3 gw [] j i) 0.
Proof.
  intros HC Hs. destruct (pol0_run kw numbers n [] m HC) as (a0 & E & Hs0 & Hv). rewrite E.
  destruct (ein_nr_lead (K := RS eps mx) gw a0 n n 7 _ _ (ten_eq gw _ Hs) (ten_eq a0 _ Hs0)) as (p & Ep & Hp & Hd).
  exists p. split; [exact Ep|]. split; [exact Hp|]. intros i j Hi Hj.
  unfold sl2 at 1. rewrite Hd by (repeat apply valid_cons; auto; exact I). cbn [ix2 hd tl].
  etransitivity; [apply fsum_R|]. apply rsum_ext. intros r Hr.
  rewrite <- (Hv [] i r) by (auto; split; simpl; auto). reflexivity.
Qed.

(** batched: an exception, with the same exceptions to the rule *)
Theorem C35_d4s_batched_raises kw numbers n c B m (gw : T) :
  constructed X D4SM kw numbers n (c :: B) m -> shp gw = 7%nat :: n :: n :: c :: B ->
  n <> c -> n <> 1%nat -> c <> 1%nat ->
  model_polarizabilities X m gw = Raise RuntimeError.
Proof.
  intros HC Hs H1 H2 H3. destruct (pol0_run kw numbers n (c :: B) m HC) as (a0 & E & Hs0 & Hv). rewrite E.
  apply (ein_nr_raises (K := RS eps mx) gw a0 n n 7 (c :: B)); auto.
  cbn [bshape]. rewrite bdim_none by auto. reflexivity.
Qed.

End S.
Print Assumptions C34_d4s_weighted_pols.
Print Assumptions C34_atoms_not_distinguished.
Print Assumptions C34_batched_raises.
Print Assumptions C34_square_batch.
Print Assumptions C35_d4s_polarizabilities.
Print Assumptions C35_d4s_batched_raises.
