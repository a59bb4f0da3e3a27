(** * Evaluation lemmas for tensor programs (proof layer).

    [ev m s f]: the expression [m] evaluates without exception to a tensor of
    shape [s] whose entry at every valid index [i] is [f i]. *)
From Coq Require Import List Arith ZArith Bool Lia String Ascii Permutation.
From Verif Require Import Py Tensor Scalar.
Import ListNotations.

Definition ten {A} (t : tensor A) (s : list nat) (f : list nat -> A) : Prop :=
  shp t = s /\ forall i, valid s i -> dat t i = f i.

Definition ev {A} (m : res (tensor A)) (s : list nat) (f : list nat -> A) : Prop :=
  exists t, m = Ok t /\ ten t s f.

(** Functions of the innermost one, two, three, ... indices and the batch index. *)
Definition ix1 {A} (g : nat -> list nat -> A) (i : list nat) : A :=
  g (hd 0 i) (tl i).
Definition ix2 {A} (g : nat -> nat -> list nat -> A) (i : list nat) : A :=
  g (hd 0 i) (hd 0 (tl i)) (tl (tl i)).
Definition ix3 {A} (g : nat -> nat -> nat -> list nat -> A) (i : list nat) : A :=
  g (hd 0 i) (hd 0 (tl i)) (hd 0 (tl (tl i))) (tl (tl (tl i))).
Definition ix4 {A} (g : nat -> nat -> nat -> nat -> list nat -> A) (i : list nat) : A :=
  g (hd 0 i) (hd 0 (tl i)) (hd 0 (tl (tl i))) (hd 0 (tl (tl (tl i)))) (tl (tl (tl (tl i)))).

(** ** Broadcasting *)
Lemma bdim_refl a : bdim a a = Some a.
Proof. unfold bdim. now rewrite Nat.eqb_refl. Qed.
Lemma bdim_1_l a : bdim 1 a = Some a.
Proof. unfold bdim. destruct (Nat.eqb_spec 1 a); subst; auto. Qed.
Lemma bdim_1_r a : bdim a 1 = Some a.
Proof.
  unfold bdim. destruct (Nat.eqb_spec a 1); subst; auto. Qed.

Lemma bshape_refl s : bshape s s = Some s.
Proof. induction s; simpl; auto. now rewrite bdim_refl, IHs. Qed.
Lemma bshape_nil_l s : bshape [] s = Some s.
Proof. reflexivity. Qed.
Lemma bshape_nil_r s : bshape s [] = Some s.
Proof. destruct s; reflexivity. Qed.
Lemma bshape_cons a b c s1 s2 s :
  bdim a b = Some c -> bshape s1 s2 = Some s ->
  bshape (a :: s1) (b :: s2) = Some (c :: s).
Proof. simpl. now intros -> ->. Qed.

Lemma bidx_nil i : bidx [] i = [].
Proof. reflexivity. Qed.
Lemma bidx_1 s x i : bidx (1 :: s) (x :: i) = 0 :: bidx s i.
Proof. reflexivity. Qed.
Lemma bidx_cons n s x i : x < n -> bidx (n :: s) (x :: i) = x :: bidx s i.
Proof.
  intros. simpl. destruct (Nat.eqb_spec n 1); auto. f_equal. lia. Qed.
Lemma bidx_valid s : forall i, valid s i -> bidx s i = i.
Proof.
  induction s as [|n s IH]; destruct i as [|x i]; cbn [valid]; intros H; try easy.
  destruct H. rewrite bidx_cons by auto. f_equal; auto.
Qed.

Lemma valid_cons n s x i : x < n -> valid s i -> valid (n :: s) (x :: i).
Proof. split; auto. Qed.

Lemma valid_inv n s i : valid (n :: s) i -> exists x i', i = x :: i' /\ x < n /\ valid s i'.
Proof. destruct i; simpl; intros []. eauto. Qed.

Lemma valid_length s : forall i, valid s i -> List.length i = List.length s.
Proof. induction s; destruct i; simpl; intuition; f_equal; auto. Qed.

Lemma valid_app s1 s2 : forall i, valid (s1 ++ s2) i <->
  exists a b, i = a ++ b /\ valid s1 a /\ valid s2 b.
Proof.
  induction s1 as [|n s1 IH]; simpl; intros i.
  - split. { intros. exists [], i. simpl; auto. }
    intros ([|] & b & -> & H & H'); simpl in *; auto; contradiction.
  - destruct i as [|x i]; split.
    + intros [].
    + intros ([|] & b & E & H & H'); simpl in *; try contradiction; discriminate.
    + intros [Hx H]. apply IH in H as (a & b & -> & Ha & Hb).
      exists (x :: a), b. simpl; auto.
    + intros ([|y a] & b & E & H & H'); simpl in *; try contradiction.
      injection E as -> ->. destruct H. split; auto. apply IH. eauto.
Qed.

(** ** Basic evaluation rules *)
Section Rules.
Context {A B C : Type}.

Lemma ten_intro (t : tensor A) : ten t (shp t) (dat t).
Proof. split; auto. Qed.

Lemma ev_t (t : tensor A) s f : ten t s f -> ev (Ok t) s f.
Proof. intros; exists t; auto. Qed.

Lemma ev_t2r (t : tensor A) s f : ten t s f -> ev (t2r t) s f.
Proof. intros; exists t; auto. Qed.

Lemma ev_scal (x : A) : ev (Ok (scal x)) [] (fun _ => x).
Proof. exists (scal x). repeat split; auto. Qed.

Lemma ev_conv (m : res (tensor A)) s f g :
  ev m s f -> (forall i, valid s i -> f i = g i) -> ev m s g.
Proof.
  intros (t & E & Hs & Hd) H. exists t. split; auto. split; auto.
  intros. rewrite Hd; auto.
Qed.

Lemma ev_bind (m : res (tensor A)) (k : tensor A -> res (tensor B)) s f s' f' :
  ev m s f -> (forall t, ten t s f -> ev (k t) s' f') -> ev (bind m k) s' f'.
Proof. intros (t & -> & H) Hk. simpl. auto. Qed.

Lemma ev_lift1 (op : A -> B) m s f :
  ev m s f -> ev (lift1 op m) s (fun i => op (f i)).
Proof.
  intros (t & -> & Hs & Hd). exists (tmap op t). split; auto. split; auto.
  simpl. intros. now rewrite Hd.
Qed.

(** the index of an operand is valid when the index of the result is *)
Lemma bidx_ok s1 : forall s2 s i, bshape s1 s2 = Some s -> valid s i -> valid s1 (bidx s1 i).
Proof.
  induction s1 as [|a s1 IH]; intros s2 s i E H; [exact I|].
  destruct s2 as [|b s2].
  - simpl in E. injection E as <-. rewrite bidx_valid; auto.
  - simpl in E. destruct (bdim a b) eqn:Eb; [|discriminate].
    destruct (bshape s1 s2) eqn:Es; [|discriminate]. injection E as <-.
    destruct i as [|x i]; [destruct H|]. destruct H as [Hx Hi]. simpl. split; [|eapply IH; eauto].
    unfold bdim in Eb. destruct (Nat.eqb_spec a b).
    { injection Eb as <-. destruct (Nat.eqb_spec a 1); lia. }
    destruct (Nat.eqb_spec a 1). lia.
    destruct (b =? 1); [injection Eb as <-; auto|discriminate].
Qed.

Lemma bshape_comm s1 : forall s2, bshape s1 s2 = bshape s2 s1.
Proof.
  induction s1 as [|a s1 IH]; destruct s2 as [|b s2]; simpl; auto.
  rewrite IH.
  replace (bdim a b) with (bdim b a); auto.
  unfold bdim. destruct (Nat.eqb_spec b a), (Nat.eqb_spec a b); subst; try congruence.
  destruct (Nat.eqb_spec b 1), (Nat.eqb_spec a 1); subst; congruence.
Qed.

Lemma ev_lift2 (op : A -> B -> C) m n s1 f1 s2 f2 s :
  ev m s1 f1 -> ev n s2 f2 -> bshape s1 s2 = Some s ->
  ev (lift2 op m n) s (fun i => op (f1 (bidx s1 i)) (f2 (bidx s2 i))).
Proof.
  intros (t & -> & Hs & Hd) (u & -> & Hs' & Hd') E. unfold lift2, tmap2; simpl.
  rewrite Hs, Hs', E. eexists; split; [reflexivity|]. split; [reflexivity|].
  intros i Hi. simpl. rewrite Hd, Hd'; auto.
  - rewrite bshape_comm in E. eapply bidx_ok; eauto.
  - eapply bidx_ok; eauto.
Qed.

End Rules.

Lemma ev_where {A} c a b s1 s2 s3 s12 s f1 f2 f3 :
  ev c s1 f1 -> ev a s2 f2 -> ev b s3 f3 ->
  bshape s1 s2 = Some s12 -> bshape s12 s3 = Some s ->
  @ev A (twhere c a b) s
    (fun i => if f1 (bidx s1 (bidx s12 i)) then f2 (bidx s2 (bidx s12 i)) else f3 (bidx s3 i)).
Proof.
  intros. unfold twhere. eapply ev_conv.
  - eapply ev_lift2; [eapply ev_lift2|..]; eauto.
  - reflexivity.
Qed.

Lemma unsq_shape1 {A} (t : tensor A) s f :
  ten t s f -> ev (unsq 1 t) (1 :: s) (fun i => f (tl i)).
Proof.
  intros [Hs Hd]. unfold unsq. simpl. eexists; split; [reflexivity|]. split.
  - simpl. now rewrite Hs.
  - intros [|x i] H; [destruct H|]. simpl in *. apply Hd. tauto.
Qed.

Lemma ev_unsq1 {A} (m : res (tensor A)) s f :
  ev m s f -> ev (unsqueeze 1 m) (1 :: s) (fun i => f (tl i)).
Proof. intros (t & -> & H). now apply unsq_shape1. Qed.

Lemma ev_unsq2 {A} (m : res (tensor A)) n s f :
  ev m (n :: s) f ->
  ev (unsqueeze 2 m) (n :: 1 :: s) (fun i => f (hd 0 i :: tl (tl i))).
Proof.
  intros (t & -> & Hs & Hd). unfold unsqueeze, unsq. simpl. rewrite Hs. simpl.
  eexists; split; [reflexivity|]. split; [reflexivity|].
  intros [|x [|y i]] H; simpl in H; try tauto. simpl. apply Hd. simpl; tauto.
Qed.

Lemma ev_unsq3 {A} (m : res (tensor A)) n k s f :
  ev m (n :: k :: s) f ->
  ev (unsqueeze 3 m) (n :: k :: 1 :: s)
     (fun i => f (hd 0 i :: hd 0 (tl i) :: tl (tl (tl i)))).
Proof.
  intros (t & -> & Hs & Hd). unfold unsqueeze, unsq. simpl. rewrite Hs. simpl.
  eexists; split; [reflexivity|]. split; [reflexivity|].
  intros [|x [|y [|z i]]] H; simpl in H; try tauto. simpl. apply Hd. simpl; tauto.
Qed.

Lemma shape_eqb_refl s : shape_eqb s s = true.
Proof. induction s; simpl; auto. now rewrite Nat.eqb_refl. Qed.

Lemma shape_eqb_eq s : forall s', shape_eqb s s' = true <-> s = s'.
Proof.
  induction s; destruct s'; simpl; split; intros; try easy.
  - apply andb_true_iff in H as [H1 H2]. apply Nat.eqb_eq in H1. apply IHs in H2. congruence.
  - injection H as -> ->. rewrite Nat.eqb_refl. now apply IHs.
Qed.

Lemma ev_expand {A} (m : res (tensor A)) s s' f :
  ev m s f -> bshape s s' = Some s' ->
  ev (expand s' m) s' (fun i => f (bidx s i)).
Proof.
  intros (t & -> & Hs & Hd) E. unfold expand. simpl. rewrite Hs, E, shape_eqb_refl.
  eexists; split; [reflexivity|]. split; [reflexivity|].
  simpl. intros. apply Hd. eapply bidx_ok; eauto.
Qed.

Lemma ev_select0 {A} (m : res (tensor A)) n s f :
  ev m (n :: s) f -> 0 < n -> ev (select_last0 m) s (fun i => f (0 :: i)).
Proof.
  intros (t & -> & Hs & Hd) H. unfold select_last0. simpl. rewrite Hs.
  apply Nat.ltb_lt in H as H'. rewrite H'. eexists; split; [reflexivity|].
  split; [reflexivity|]. simpl. intros. apply Hd. simpl; auto.
Qed.

(** ** Reductions *)
Section Red.
Context {K : Scalar}.

Lemma plan_leaves n k : In k (leaves (proj1_sig (fplan (s := K) n))) <-> k < n.
Proof.
  destruct (fplan n) as (t & P). cbn [proj1_sig]. split; intros H.
  - apply (Permutation_in k P), in_seq in H. lia.
  - apply (Permutation_in k (Permutation_sym P)), in_seq. lia.
Qed.
Lemma fsum_ext n (f g : nat -> K) :
  (forall x, x < n -> f x = g x) -> fsum n f = fsum n g.
Proof.
  intros H. unfold fsum. assert (HT := fun k => proj1 (plan_leaves n k)). revert HT.
  generalize (proj1_sig (fplan (s := K) n)). intros t. induction t as [|k|a IHa b IHb]; cbn [leaves feval]; intros HT.
  - reflexivity.
  - apply H, HT. now left.
  - rewrite IHa, IHb; auto; intros k Hk; apply HT, in_or_app; auto.
Qed.
(** what holds of zero and is kept by addition holds of sums, whatever their order *)
Lemma fsum_closed (P : K -> Prop) n (f : nat -> K) : P f0 -> (forall x y, P x -> P y -> P (fadd x y)) ->
  (forall k, k < n -> P (f k)) -> P (fsum n f).
Proof.
  intros H0 HA H. unfold fsum. assert (HT := fun k => proj1 (plan_leaves n k)). revert HT.
  generalize (proj1_sig (fplan (s := K) n)). intros t. induction t as [|k|a IHa b IHb]; cbn [leaves feval]; intros HT.
  - exact H0.
  - apply H, HT. now left.
  - apply HA; [apply IHa|apply IHb]; intros k Hk; apply HT, in_or_app; auto.
Qed.

Lemma fmaxn_ext n (f g : nat -> K) :
  (forall x, x < n -> f x = g x) -> 0 < n -> fmaxn n f = fmaxn n g.
Proof.
  induction n; intros H Hn. lia. destruct n.
  - simpl. apply H. lia.
  - change (fmax2 (fmaxn (S n) f) (f (S n)) = fmax2 (fmaxn (S n) g) (g (S n))).
    rewrite IHn, H; auto. lia.
Qed.

Lemma ev_sum1 (m : res (tensor K)) n s f :
  ev m (n :: s) f -> ev (tsum1 m) s (fun i => fsum n (fun x => f (x :: i))).
Proof.
  intros (t & -> & Hs & Hd). unfold tsum1, reduce_last. simpl. rewrite Hs.
  eexists; split; [reflexivity|]. split; [reflexivity|]. simpl. intros.
  apply fsum_ext. intros. apply Hd. simpl; auto.
Qed.

Lemma ev_sum1k (m : res (tensor K)) n s f :
  ev m (n :: s) f -> ev (tsum1k m) (1 :: s) (fun i => fsum n (fun x => f (x :: tl i))).
Proof.
  intros (t & -> & Hs & Hd). unfold tsum1k, reduce_last_keep. simpl. rewrite Hs.
  eexists; split; [reflexivity|]. split; [reflexivity|]. simpl. intros [|y i] H; [destruct H|].
  apply fsum_ext. intros. apply Hd. simpl in *; tauto.
Qed.

Lemma ev_max1k (m : res (tensor K)) n s f :
  ev m (n :: s) f -> 0 < n ->
  ev (tmax1k m) (1 :: s) (fun i => fmaxn n (fun x => f (x :: tl i))).
Proof.
  intros (t & -> & Hs & Hd) Hn. unfold tmax1k, reduce_last_keep. simpl. rewrite Hs.
  eexists; split; [reflexivity|]. split; [reflexivity|]. simpl. intros [|y i] H; [destruct H|].
  apply fmaxn_ext; auto. intros. apply Hd. simpl in *; tauto.
Qed.
End Red.

(** ** Gather *)
Lemma all_idx_in s : forall i, In i (all_idx s) <-> valid s i.
Proof.
  induction s as [|n s IH]; simpl; intros i.
  - split. { intros [<-|[]]. exact I. } destruct i; simpl; auto.
  - rewrite in_flat_map. split.
    + intros (x & Hx & Hi). apply in_map_iff in Hi as (i' & <- & Hi').
      apply in_seq in Hx. split. lia. now apply IH.
    + destruct i as [|x i]; [tauto|]. intros [Hx Hi]. exists x. split.
      * apply in_seq. lia.
      * apply in_map. now apply IH.
Qed.

Lemma wrap_index_nonneg n z :
  (0 <= z < Z.of_nat n)%Z -> wrap_index n z = Some (Z.to_nat z).
Proof.
  intros [H1 H2]. unfold wrap_index.
  apply Z.leb_le in H1 as E1. apply Z.ltb_lt in H2 as E2. now rewrite E1, E2.
Qed.

Definition in_range (n : nat) (ix : tensor Z) : Prop :=
  forall i, valid (shp ix) i -> (0 <= dat ix i < Z.of_nat n)%Z.

Lemma in_range_forallb n ix : in_range n ix ->
  forallb (fun i => index_ok n (dat ix i)) (all_idx (shp ix)) = true.
Proof.
  intros H. apply forallb_forall. intros i Hi. apply all_idx_in in Hi.
  unfold index_ok. now rewrite wrap_index_nonneg by auto.
Qed.

Lemma gather1 {A} (T : tensor A) n ix :
  shp T = [n] -> in_range n ix ->
  ev (gather T ix) (shp ix) (fun i => dat T [Z.to_nat (dat ix i)]).
Proof.
  intros HT H. unfold gather. rewrite HT. simpl List.last. simpl removelast.
  rewrite in_range_forallb by auto.
  eexists; split; [reflexivity|]. split; [reflexivity|]. simpl. intros i Hi.
  unfold wrapped. rewrite wrap_index_nonneg by auto. reflexivity.
Qed.

Lemma gather2d {A} (T : tensor A) r n ix :
  shp T = [r; n] -> in_range n ix ->
  ev (gather T ix) (r :: shp ix) (fun i => dat T [hd 0 i; Z.to_nat (dat ix (tl i))]).
Proof.
  intros HT H. unfold gather. rewrite HT. simpl List.last. simpl removelast.
  rewrite in_range_forallb by auto.
  eexists; split; [reflexivity|]. split; [reflexivity|].
  intros [|x i] Hi; [destruct Hi|]. simpl in *. destruct Hi.
  unfold wrapped. rewrite wrap_index_nonneg by auto. reflexivity.
Qed.

Lemma gather3d {A} (T : tensor A) w r n ix :
  shp T = [w; r; n] -> in_range n ix ->
  ev (gather T ix) (w :: r :: shp ix)
     (fun i => dat T [hd 0 i; hd 0 (tl i); Z.to_nat (dat ix (tl (tl i)))]).
Proof.
  intros HT H. unfold gather. rewrite HT. simpl List.last. simpl removelast.
  rewrite in_range_forallb by auto.
  eexists; split; [reflexivity|]. split; [reflexivity|].
  intros [|x [|y i]] Hi; simpl in Hi; try tauto. simpl.
  unfold wrapped. rewrite wrap_index_nonneg by (apply H; tauto). reflexivity.
Qed.

Lemma gather_out_of_range {A} (T : tensor A) rest n ix i :
  shp T = rest ++ [n] -> valid (shp ix) i -> index_ok n (dat ix i) = false ->
  gather T ix = Raise IndexError.
Proof.
  intros HT Hi Hn. unfold gather.
  destruct (shp T) as [|s0 s'] eqn:E. { destruct rest; discriminate. }
  rewrite HT, removelast_last, last_last.
  destruct (forallb _ _) eqn:F; auto.
  rewrite forallb_forall in F. apply all_idx_in in Hi. apply F in Hi. congruence.
Qed.

Lemma ev_gather2 {A} (T : tensor A) n1 n2 m1 m2 s1 f1 s2 f2 s :
  shp T = [n2; n1] -> ev m1 s1 f1 -> ev m2 s2 f2 -> bshape s1 s2 = Some s ->
  (forall i, valid s i -> (0 <= f1 (bidx s1 i) < Z.of_nat n1)%Z) ->
  (forall i, valid s i -> (0 <= f2 (bidx s2 i) < Z.of_nat n2)%Z) ->
  ev (gather2 T m1 m2) s
     (fun i => dat T [Z.to_nat (f2 (bidx s2 i)); Z.to_nat (f1 (bidx s1 i))]).
Proof.
  intros HT H1 H2 E R1 R2. unfold gather2.
  destruct (ev_lift2 (fun a b : Z => (a, b)) _ _ _ _ _ _ _ H1 H2 E) as (p & -> & Hs & Hd).
  simpl. rewrite HT.
  replace (forallb _ _) with true.
  - eexists; split; [reflexivity|]. split; [simpl; auto|]. simpl. intros i Hi.
    rewrite Hd by auto. simpl. unfold wrapped. now rewrite !wrap_index_nonneg by auto.
  - symmetry. apply forallb_forall. intros i Hi. apply all_idx_in in Hi. rewrite Hs in Hi.
    rewrite Hd by auto. simpl. unfold index_ok. now rewrite !wrap_index_nonneg by auto.
Qed.

(** ** Tactics *)
Ltac bshape_solve :=
  first [ apply bshape_nil_l | apply bshape_nil_r | apply bshape_refl
        | eapply bshape_cons;
          [ first [apply bdim_refl | apply bdim_1_l | apply bdim_1_r] | bshape_solve ] ].

(** destruct an index along its shape *)
Ltac vdes :=
  repeat match goal with
  | H : valid (_ :: _) ?i |- _ =>
      let x := fresh "x" in let i' := fresh "i" in let Hx := fresh "Hx" in
      let Hi := fresh "Hi" in
      apply valid_inv in H as (x & i' & -> & Hx & Hi)
  | H : valid [] ?i |- _ => destruct i; [clear H | destruct H]
  end.

Ltac bsimp :=
  cbn [dat hd tl];
  repeat first
    [ rewrite bidx_nil
    | rewrite bidx_1
    | match goal with H : ?x < ?n |- context [bidx (?n :: ?s) (?x :: ?i)] =>
        rewrite (bidx_cons n s x i H) end
    | match goal with H : valid ?s ?i |- context [bidx ?s ?i] =>
        rewrite (bidx_valid s i H) end
    | rewrite bidx_cons by lia ];
  unfold ix1, ix2, ix3, ix4; cbn [dat hd tl].

Ltac vsimp :=
  let i := fresh "i" in let Hi := fresh "Hi" in
  intros i Hi; vdes; unfold ix1, ix2, ix3, ix4; cbn [dat hd tl]; bsimp.

Ltac ev_go :=
  lazymatch goal with
  | |- ev (tadd _ _) _ _ => eapply (ev_lift2 fadd); [ev_go|ev_go|bshape_solve]
  | |- ev (tsub _ _) _ _ => eapply (ev_lift2 fsub); [ev_go|ev_go|bshape_solve]
  | |- ev (tmul _ _) _ _ => eapply (ev_lift2 fmul); [ev_go|ev_go|bshape_solve]
  | |- ev (tdiv _ _) _ _ => eapply (ev_lift2 fdiv); [ev_go|ev_go|bshape_solve]
  | |- ev (tpow _ _) _ _ => eapply (ev_lift2 fpow); [ev_go|ev_go|bshape_solve]
  | |- ev (tle _ _) _ _ => eapply (ev_lift2 fle); [ev_go|ev_go|bshape_solve]
  | |- ev (tlt _ _) _ _ => eapply (ev_lift2 flt); [ev_go|ev_go|bshape_solve]
  | |- ev (teq _ _) _ _ => eapply (ev_lift2 feq); [ev_go|ev_go|bshape_solve]
  | |- ev (tand _ _) _ _ => eapply (ev_lift2 andb); [ev_go|ev_go|bshape_solve]
  | |- ev (lift2 _ _ _) _ _ => eapply ev_lift2; [ev_go|ev_go|bshape_solve]
  | |- ev (topp _) _ _ => eapply (ev_lift1 fopp); ev_go
  | |- ev (texp _) _ _ => eapply (ev_lift1 fexp); ev_go
  | |- ev (tsqrt _) _ _ => eapply (ev_lift1 fsqrt); ev_go
  | |- ev (tabs _) _ _ => eapply (ev_lift1 fabs); ev_go
  | |- ev (tpown _ ?n) _ _ => eapply (ev_lift1 (fun x => fpown x n)); ev_go
  | |- ev (lift1 _ _) _ _ => eapply ev_lift1; ev_go
  | |- ev (twhere _ _ _) _ _ => eapply ev_where; [ev_go|ev_go|ev_go|bshape_solve|bshape_solve]
  | |- ev (unsqueeze 1 _) _ _ => eapply ev_unsq1; ev_go
  | |- ev (unsqueeze 2 _) _ _ => eapply ev_unsq2; ev_go
  | |- ev (unsqueeze 3 _) _ _ => eapply ev_unsq3; ev_go
  | |- ev (expand _ _) _ _ => eapply ev_expand; [ev_go|bshape_solve]
  | |- ev (tsum1 _) _ _ => eapply ev_sum1; ev_go
  | |- ev (tsum1k _) _ _ => eapply ev_sum1k; ev_go
  | |- ev (tlit _) _ _ => apply ev_scal
  | |- ev (t2r (scal _)) _ _ => apply ev_scal
  | |- ev (Ok (scal _)) _ _ => apply ev_scal
  | |- ev (t2r _) _ _ => apply ev_t2r; eassumption
  | |- ev (Ok _) _ _ => apply ev_t; eassumption
  | |- _ => eassumption
  end.

(** evaluate an expression and replace the computed form by a given one *)
Ltac ev_to := eapply ev_conv; [ev_go | vsimp].
(** evaluate a [x <- m ;; k] with a given closed form for [x] *)
Tactic Notation "ev_let" uconstr(s) uconstr(f) "as" ident(t) ident(H) :=
  eapply (ev_bind _ _ s f); [ | intros t H ].

(** ** Programs that return something else than a tensor *)
Definition runs {A} (m : res A) (P : A -> Prop) : Prop := exists a, m = Ok a /\ P a.

Lemma runs_ok {A} (a : A) (P : A -> Prop) : P a -> runs (Ok a) P.
Proof. exists a; auto. Qed.

Lemma runs_bind {A B} (m : res A) (k : A -> res B) (P : A -> Prop) (Q : B -> Prop) :
  runs m P -> (forall a, P a -> runs (k a) Q) -> runs (bind m k) Q.
Proof. intros (a & -> & H) Hk. simpl. auto. Qed.

Lemma runs_ev_bind {A B} (m : res (tensor A)) (k : tensor A -> res B) s f (Q : B -> Prop) :
  ev m s f -> (forall t, ten t s f -> runs (k t) Q) -> runs (bind m k) Q.
Proof. intros (a & -> & H) Hk. simpl. auto. Qed.

Definition tens {A} (l : list (tensor A)) (specs : list (list nat * (list nat -> A))) : Prop :=
  Forall2 (fun t sf => ten t (fst sf) (snd sf)) l specs.

Lemma ten_eq {A} (t : tensor A) s : shp t = s -> ten t s (dat t).
Proof. split; auto. Qed.

Lemma ten_conv {A} (t : tensor A) s f g :
  ten t s f -> (forall i, valid s i -> f i = g i) -> ten t s g.
Proof. intros [H1 H2] H. split; auto. intros. rewrite H2; auto. Qed.
