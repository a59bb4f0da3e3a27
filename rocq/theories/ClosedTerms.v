(** * The two- and three-body tensor programs evaluate to the closed forms. *)
From Coq Require Import List Arith ZArith QArith Bool String Lia.
From Verif Require Import Py Tensor Scalar ModelExt ModelUtils ModelDamping ModelModels
  ModelTerms TensorLemmas EinsumLemmas Closed ClosedM.
Import ListNotations.
Open Scope nat_scope.

Section T.
Context {K : Scalar} (X : Ext K).

Lemma ev_real_pairs (numbers : tensor Z) n B :
  shp numbers = n :: B ->
  ev (real_pairs numbers) (n :: n :: B) (ix2 (fun j i b => pmask (sl1 numbers b) i j)).
Proof.
  intros E. unfold real_pairs. rewrite E. eexists; split; [reflexivity|].
  split; [reflexivity|]. vsimp. reflexivity.
Qed.

Lemma ev_real_triples (numbers : tensor Z) n B :
  shp numbers = n :: B ->
  ev (real_triples numbers) (n :: n :: n :: B)
     (ix3 (fun k j i b => tmask (sl1 numbers b) i j k)).
Proof.
  intros E. unfold real_triples. rewrite E. eexists; split; [reflexivity|].
  split; [reflexivity|]. vsimp. reflexivity.
Qed.

Lemma ev_cdist (x : tensor K) c n B :
  shp x = c :: n :: B ->
  ev (cdist X x x) (n :: n :: B)
     (ix2 (fun j i b => x_dist X c (sl2 x b i) (sl2 x b j))).
Proof.
  intros E. unfold cdist. rewrite E, Nat.eqb_refl, bshape_refl.
  eexists; split; [reflexivity|]. split; [reflexivity|].
  intros i Hi. vdes. cbn [dat]. rewrite bidx_valid by assumption. reflexivity.
Qed.

Lemma isnum_ev (p : pval K) x : isnum p x -> ev (num p) [] (fun _ => x).
Proof.
  intros (t & -> & Hs & Hd). exists t. split; [reflexivity|]. split; auto.
  intros [|? ?] H; [auto|destruct H].
Qed.

Lemma elementwise_ev (d : Damping K) param order only g dist radii s fd fr :
  elementwise d param order only g -> ten dist s fd -> ten radii s fr ->
  ev (damping_call d dist radii order only param) s (fun i => g (fd i) (fr i)).
Proof.
  intros H [Hs Hd] [Hs' Hd']. destruct (H dist radii s Hs Hs') as (t & Et & Es & Ed).
  exists t. split; auto. split; auto. intros i Hi. rewrite Ed, Hd, Hd'; auto.
Qed.

(** the radii used for a damping function *)
Definition rad_of (d : Damping K) (r : nat -> K) (rv : nat -> nat -> K) : nat -> nat -> K :=
  if (d_radius_type d =? "rvdw")%string then rv else qq r.

Definition radius_ok (d : Damping K) (rvdw : option (tensor K)) (s : list nat) : Prop :=
  (d_radius_type d = "r4r2")%string \/
  (d_radius_type d = "rvdw" /\ exists v, rvdw = Some v /\ shp v = s)%string.

Definition rvdat (rvdw : option (tensor K)) (b : list nat) : nat -> nat -> K :=
  match rvdw with Some v => sl2 v b | None => fun _ _ => flit 0 end.

Section Two.
Variables (numbers : tensor Z) (positions : tensor K) (param : Param K) (c6 r4r2 : tensor K)
  (rvdw : option (tensor K)) (d : Damping K) (cutoff : option (tensor K)).
Variables (n c : nat) (B : list nat) (g6 g8 : K -> K -> K) (s6 s8 cut : K)
  (s10 : option (K * (K -> K -> K))).
Hypothesis Hn : shp numbers = n :: B.
Hypothesis Hp : shp positions = c :: n :: B.
Hypothesis Hc : shp c6 = n :: n :: B.
Hypothesis Hr : shp r4r2 = n :: B.
Hypothesis Hrad : radius_ok d rvdw (n :: n :: B).
Hypothesis Hg6 : elementwise d param 6 false g6.
Hypothesis Hg8 : elementwise d param 8 false g8.
Hypothesis Hs6 : isnum (pget param "s6" dS6) s6.
Hypothesis Hs8 : isnum (pget param "s8" dS8) s8.
Hypothesis Hcut : ten (default cutoff (scal (flit D4_DISP2_CUTOFF))) [] (fun _ => cut).
Hypothesis Hs10 : match s10 with
                  | None => dget param "s10" = None
                  | Some (x, g10) => (exists p, dget param "s10" = Some p /\ isnum p x)
                                     /\ elementwise d param 10 false g10
                  end.

Let numb b := sl1 numbers b.
Let posb b := sl2 positions b.
Let rb b := sl1 r4r2 b.
Let c6b b := sl2 c6 b.
Let radb b := rad_of d (rb b) (rvdat rvdw b).

Lemma tfac_ev g order mask distances radii :
  elementwise d param order false g ->
  ten mask (n :: n :: B) (ix2 (fun j i b => pmask (numb b) i j)) ->
  ten distances (n :: n :: B) (ix2 (fun j i b => pdist X c (numb b) (posb b) i j)) ->
  ten radii (n :: n :: B) (ix2 (fun j i b => radb b i j)) ->
  ev (twhere (tand mask (tle distances (default cutoff (scal (flit D4_DISP2_CUTOFF)))))
             (damping_call d distances radii order false param) (tlit 0))
     (n :: n :: B) (ix2 (fun j i b => tfac X g c (numb b) (posb b) (radb b) cut i j)).
Proof.
  intros Hg H1 H2 H3.
  eapply ev_conv.
  - eapply ev_where; [ev_go | eapply elementwise_ev; eauto | ev_go | bshape_solve | bshape_solve].
  - vsimp. reflexivity.
Qed.

Lemma dispersion2_ev (as_matrix : bool) :
  ev (dispersion2 X numbers positions param c6 r4r2 rvdw d cutoff as_matrix)
     (if as_matrix then n :: n :: B else n :: B)
     (if as_matrix
      then ix2 (fun j i b => e2_mat X c (numb b) (posb b) (c6b b) (radb b) (rb b) cut
                                    g6 g8 s6 s8 s10 i j)
      else ix1 (fun i b => e2_atom X n c (numb b) (posb b) (c6b b) (radb b) (rb b) cut
                                   g6 g8 s6 s8 s10 i)).
Proof.
  apply ten_eq in Hc as Tc. apply ten_eq in Hr as Tr.
  apply isnum_ev in Hs6 as E6. apply isnum_ev in Hs8 as E8.
  unfold dispersion2.
  eapply ev_bind; [apply ev_real_pairs; eauto|]. intros mask Hm.
  eapply (ev_bind _ _ (n :: n :: B) (ix2 (fun j i b => pdist X c (numb b) (posb b) i j))).
  { eapply ev_conv.
    - eapply ev_where; [ev_go | eapply ev_cdist; eauto | ev_go | bshape_solve | bshape_solve].
    - vsimp. reflexivity. }
  intros distances Hd.
  eapply (ev_bind _ _ (n :: n :: B) (ix2 (fun j i b => qq (rb b) i j))).
  { ev_to. reflexivity. }
  intros q Hq.
  eapply (ev_bind _ _ (n :: n :: B) (ix2 (fun j i b => c8v (c6b b) (rb b) i j))).
  { ev_to. reflexivity. }
  intros c8 Hc8.
  eapply (ev_bind _ _ (n :: n :: B) (ix2 (fun j i b => radb b i j))).
  { unfold radb, rad_of. destruct Hrad as [Er | (Er & v & -> & Hv)]; rewrite Er; simpl.
    - apply ev_t. exact Hq.
    - apply ev_t. split; auto. intros i Hi. vdes. reflexivity. }
  intros radii HR.
  eapply ev_bind; [eapply tfac_ev; eauto|]. intros t6 Ht6.
  eapply ev_bind; [eapply tfac_ev; eauto|]. intros t8 Ht8.
  destruct as_matrix.
  - eapply (ev_bind _ _ (n :: n :: B)). { ev_go. } intros e6 He6.
    eapply (ev_bind _ _ (n :: n :: B)). { ev_go. } intros e8 He8.
    eapply (ev_bind _ _ (n :: n :: B)
              (ix2 (fun j i b =>
                 fadd (fmul s6 (fmul (c6b b i j) (tfac X g6 c (numb b) (posb b) (radb b) cut i j)))
                      (fmul s8 (fmul (c8v (c6b b) (rb b) i j)
                                     (tfac X g8 c (numb b) (posb b) (radb b) cut i j)))))).
    { ev_to. reflexivity. }
    intros ed Hed.
    eapply (ev_bind _ _ (n :: n :: B)
              (ix2 (fun j i b => e2_mat_pos X c (numb b) (posb b) (c6b b) (radb b) (rb b) cut
                                    g6 g8 s6 s8 s10 i j))).
    { destruct s10 as [[x g10]|].
      - destruct Hs10 as ((p & -> & Hx) & Hg10). apply isnum_ev in Hx.
        eapply (ev_bind _ _ (n :: n :: B) (ix2 (fun j i b => c10v (c6b b) (rb b) i j))).
        { ev_to. reflexivity. }
        intros c10 Hc10.
        eapply ev_bind; [eapply tfac_ev; eauto|]. intros t10 Ht10.
        eapply (ev_bind _ _ (n :: n :: B)). { ev_go. } intros e10 He10.
        unfold iadd. change (bind (t2r ed) ?k) with (k ed). cbv beta.
        eapply (ev_bind _ _ (n :: n :: B)). { ev_go. }
        intros r Hr'. destruct Hr' as [Hr1 Hr2]. destruct Hed as [Hed1 _].
        rewrite Hr1, Hed1, shape_eqb_refl. apply ev_t. split; auto.
        intros i Hi. rewrite Hr2 by auto. revert i Hi. vsimp. reflexivity.
      - rewrite Hs10. apply ev_t. exact Hed. }
    intros ed2 Hed2. ev_to. reflexivity.
  - eapply (ev_bind _ _ (n :: B)). { ev_go. } intros e6 He6.
    eapply (ev_bind _ _ (n :: B)). { ev_go. } intros e8 He8.
    eapply (ev_bind _ _ (n :: B)
              (ix1 (fun i b =>
                 fadd (fmul s6 (fsum n (fun j => fmul (c6b b i j)
                                  (tfac X g6 c (numb b) (posb b) (radb b) cut i j))))
                      (fmul s8 (fsum n (fun j => fmul (c8v (c6b b) (rb b) i j)
                                     (tfac X g8 c (numb b) (posb b) (radb b) cut i j))))))).
    { ev_to. f_equal; f_equal; apply fsum_ext; intros; bsimp; reflexivity. }
    intros ed Hed.
    eapply (ev_bind _ _ (n :: B)
      (ix1 (fun i b =>
         let e := fadd (fmul s6 (fsum n (fun j => fmul (c6b b i j)
                                  (tfac X g6 c (numb b) (posb b) (radb b) cut i j))))
                      (fmul s8 (fsum n (fun j => fmul (c8v (c6b b) (rb b) i j)
                                     (tfac X g8 c (numb b) (posb b) (radb b) cut i j)))) in
         match s10 with
         | None => e
         | Some (x, g10) =>
            fadd e (fmul x (fsum n (fun j => fmul (c10v (c6b b) (rb b) i j)
                                     (tfac X g10 c (numb b) (posb b) (radb b) cut i j))))
         end))).
    { destruct s10 as [[x g10]|].
      - destruct Hs10 as ((p & -> & Hx) & Hg10). apply isnum_ev in Hx.
        eapply (ev_bind _ _ (n :: n :: B) (ix2 (fun j i b => c10v (c6b b) (rb b) i j))).
        { ev_to. reflexivity. }
        intros c10 Hc10.
        eapply ev_bind; [eapply tfac_ev; eauto|]. intros t10 Ht10.
        eapply (ev_bind _ _ (n :: B)). { ev_go. } intros e10 He10.
        unfold iadd. change (bind (t2r ed) ?k) with (k ed). cbv beta.
        eapply (ev_bind _ _ (n :: B)). { ev_go. }
        intros r Hr'. destruct Hr' as [Hr1 Hr2]. destruct Hed as [Hed1 _].
        rewrite Hr1, Hed1, shape_eqb_refl. apply ev_t. split; auto.
        intros i Hi. rewrite Hr2 by auto. revert i Hi. vsimp.
        f_equal. f_equal. apply fsum_ext; intros; bsimp. reflexivity.
      - rewrite Hs10. apply ev_t. exact Hed. }
    intros ed2 Hed2. ev_to. unfold e2_atom. reflexivity.
Qed.
End Two.

Section Three.
Variables (numbers : tensor Z) (positions c9 radii cutoff : tensor K) (d : Damping K)
  (s9p alpp : pval K).
Variables (n c : nat) (B : list nat) (g9 : K -> K -> K) (s9 alp cut : K).
Hypothesis Hn : shp numbers = n :: B.
Hypothesis Hp : shp positions = c :: n :: B.
Hypothesis Hc : shp c9 = n :: n :: n :: B.
Hypothesis Hr : shp radii = n :: n :: B.
Hypothesis Hs9 : isnum s9p s9.
Hypothesis Halp : isnum alpp alp.
Hypothesis Hcut : ten cutoff [] (fun _ => cut).
Hypothesis Hg9 : forall t, shp t = [] -> dat t [] = fdiv alp (flit 3) ->
  elementwise d [("alp"%string, PT t)] 9 true g9.

Let numb b := sl1 numbers b.
Let posb b := sl2 positions b.
Let radb b := sl2 radii b.
Let d2 b := pd2 X c (numb b) (posb b).

Lemma get_atm_dispersion_ev :
  ev (get_atm_dispersion X numbers positions c9 radii cutoff d s9p alpp)
     (n :: B)
     (ix1 (fun i b => e3_atom X n c (numb b) (posb b) (sl3 c9 b) (radb b) cut g9 s9 i)).
Proof.
  apply ten_eq in Hc as Tc. apply ten_eq in Hr as Tr.
  apply isnum_ev in Hs9 as E9. apply isnum_ev in Halp as Ea.
  unfold get_atm_dispersion.
  eapply ev_bind; [exact E9|]. intros ts9 Hts9.
  eapply ev_bind; [exact Ea|]. intros talp Htalp.
  eapply (ev_bind _ _ [] (fun _ => fmul cut cut)). { ev_to. reflexivity. } intros cut2 Hcut2.
  eapply ev_bind; [eapply ev_real_pairs; eauto|]. intros mp Hmp.
  eapply ev_bind; [eapply ev_real_triples; eauto|]. intros mt Hmt.
  eapply (ev_bind _ _ (1 :: n :: n :: B) (ix3 (fun k j i b => radb b i j))).
  { ev_to. reflexivity. } intros r0ij Hr0ij.
  eapply (ev_bind _ _ (n :: 1 :: n :: B) (ix3 (fun k j i b => radb b i k))).
  { ev_to. reflexivity. } intros r0ik Hr0ik.
  eapply (ev_bind _ _ (n :: n :: 1 :: B) (ix3 (fun k j i b => radb b j k))).
  { ev_to. reflexivity. } intros r0jk Hr0jk.
  eapply (ev_bind _ _ (n :: n :: n :: B) (ix3 (fun k j i b => r0p (radb b) i j k))).
  { ev_to. reflexivity. } intros r0 Hr0.
  eapply (ev_bind _ _ (n :: n :: B) (ix2 (fun j i b => d2 b i j))).
  { eapply ev_conv.
    - eapply (ev_lift2 fpow); [|ev_go|bshape_solve].
      eapply ev_where; [ev_go | eapply ev_cdist; eauto | ev_go | bshape_solve | bshape_solve].
    - vsimp. reflexivity. }
  intros dist Hd.
  eapply (ev_bind _ _ (1 :: n :: n :: B) (ix3 (fun k j i b => d2 b i j))).
  { ev_to. reflexivity. } intros r2ij Hr2ij.
  eapply (ev_bind _ _ (n :: 1 :: n :: B) (ix3 (fun k j i b => d2 b i k))).
  { ev_to. reflexivity. } intros r2ik Hr2ik.
  eapply (ev_bind _ _ (n :: n :: 1 :: B) (ix3 (fun k j i b => d2 b j k))).
  { ev_to. reflexivity. } intros r2jk Hr2jk.
  eapply (ev_bind _ _ (n :: n :: n :: B) (ix3 (fun k j i b => r2p X c (numb b) (posb b) i j k))).
  { ev_to. reflexivity. } intros r2 Hr2.
  eapply (ev_bind _ _ (n :: n :: n :: B)
            (ix3 (fun k j i b => fsqrt (r2p X c (numb b) (posb b) i j k)))).
  { ev_to. reflexivity. } intros r1 Hr1.
  eapply (ev_bind _ _ (n :: n :: n :: B) (ix3 (fun k j i b => r3p X c (numb b) (posb b) i j k))).
  { ev_to. reflexivity. } intros r3 Hr3.
  eapply (ev_bind _ _ (n :: n :: n :: B) (ix3 (fun k j i b => r5p X c (numb b) (posb b) i j k))).
  { ev_to. reflexivity. } intros r5 Hr5.
  eapply (ev_bind _ _ (n :: n :: n :: B)
            (ix3 (fun k j i b => if tmask (numb b) i j k
                                 then fsqrt (r2p X c (numb b) (posb b) i j k) else flit 1))).
  { ev_to. reflexivity. } intros r1' Hr1'.
  eapply (ev_bind _ _ [] (fun _ => fdiv alp (flit 3))). { ev_to. reflexivity. }
  intros alp3 [Ha1 Ha2].
  assert (Hg := Hg9 alp3 Ha1 (Ha2 [] I)).
  eapply (ev_bind _ _ (n :: n :: n :: B)
            (ix3 (fun k j i b => fdp X c (numb b) (posb b) (radb b) g9 i j k))).
  { eapply ev_conv.
    - eapply ev_where; [ev_go | eapply elementwise_ev; [exact Hg|eauto|eauto] | ev_go
                       | bshape_solve | bshape_solve].
    - vsimp. unfold fdp, numb.
      match goal with |- context [tmask ?a ?b ?c ?d] => destruct (tmask a b c d) end;
      reflexivity. }
  intros fd Hfd.
  eapply (ev_bind _ _ (n :: n :: n :: B) (ix3 (fun k j i b => sp X c (numb b) (posb b) i j k))).
  { ev_to. reflexivity. } intros s Hs.
  eapply (ev_bind _ _ (n :: n :: n :: B)
            (ix3 (fun k j i b => angp X c (numb b) (posb b) cut i j k))).
  { ev_to. reflexivity. } intros ang Hang.
  eapply (ev_bind _ _ (n :: n :: n :: B)
            (ix3 (fun k j i b => e3_triple X c (numb b) (posb b) (sl3 c9 b) (radb b) cut g9 s9 i j k))).
  { ev_to. reflexivity. } intros en Hen.
  ev_to. reflexivity.
Qed.
End Three.

Lemma radii_bj_ev param (r4r2 : tensor K) n B a1 a2 :
  shp r4r2 = n :: B -> isnum (pget param "a1" dA1) a1 -> isnum (pget param "a2" dA2) a2 ->
  ev (radii_bj X param r4r2) (n :: n :: B)
     (ix2 (fun j i b => radbj X a1 a2 (sl1 r4r2 b) i j)).
Proof.
  intros Hr H1 H2. apply ten_eq in Hr. apply isnum_ev in H1. apply isnum_ev in H2.
  unfold radii_bj, ssqrt. ev_to. reflexivity.
Qed.

Lemma radii_vdw_ev (param : Param K) (rvdw : tensor K) s rs9 :
  shp rvdw = s -> isnum (pget param "rs9" dRS9) rs9 ->
  ev (radii_vdw param rvdw) s (fun i => fmul rs9 (dat rvdw i)).
Proof.
  intros Hr H1. apply ten_eq in Hr. apply isnum_ev in H1.
  unfold radii_vdw. eapply ev_conv; [ev_go|].
  intros i Hi. cbv beta. rewrite bidx_valid; auto.
Qed.

Lemma c9_approx_ev (c6 : tensor K) n B f :
  ten c6 (n :: n :: B) f ->
  ev (c9_approx X c6) (n :: n :: n :: B)
     (ix3 (fun k j i b => c9a X (fun i j => f (j :: i :: b)) i j k)).
Proof.
  intros H. unfold c9_approx, ssqrt. ev_to. reflexivity.
Qed.

Lemma c9_exact_ev (aiw : tensor K) n B f :
  ten aiw (23 :: n :: B) f ->
  ev (c9_exact aiw) (n :: n :: n :: B)
     (ix3 (fun k j i b => fmul thopi (fsum 23 (fun w =>
        fmul (fmul (fmul (f (w :: i :: b)) (f (w :: j :: b))) (f (w :: k :: b)))
             (trap_w_atm w))))).
Proof.
  intros H. unfold c9_exact.
  eapply (ev_bind _ _ (23 :: 1 :: 1 :: n :: B)). { ev_go. } intros a1 Ha1.
  eapply (ev_bind _ _ (23 :: 1 :: n :: 1 :: B)). { ev_go. } intros a2 Ha2.
  eapply (ev_bind _ _ (23 :: n :: 1 :: 1 :: B)). { ev_go. } intros a3 Ha3.
  eapply (ev_bind _ _ (23 :: n :: n :: n :: B)
     (ix4 (fun w k j i b => fmul (fmul (f (w :: i :: b)) (f (w :: j :: b))) (f (w :: k :: b))))).
  { ev_to. reflexivity. }
  intros p Hp. unfold trapzd_atm.
  eapply ev_conv.
  - eapply (ev_lift2 fmul); [apply ev_scal| |bshape_solve].
    eapply ein_trapzd_atm; [eassumption | apply ten_eq; reflexivity].
  - vsimp. reflexivity.
Qed.

End T.
