(** * The model tensor programs evaluate to the closed forms (proof layer). *)
From Coq Require Import List Arith ZArith QArith Bool String Lia.
From Verif Require Import Py Tensor Scalar ModelExt ModelUtils ModelDamping ModelModels
  DataRef DataAlpha TensorLemmas EinsumLemmas Closed ClosedM.
Import ListNotations.
Open Scope nat_scope.
Open Scope string_scope.

(** ** Facts about the integer tables used for indexing *)
Lemma refsys_bound : forall z r, z < 104 -> r < 7 ->
  (0 <= dat refsys [r; z] < 18)%Z.
Proof.
  assert (H : forallb (fun z => forallb (fun r =>
            (0 <=? dat refsys [r; z])%Z && (dat refsys [r; z] <? 18)%Z) (seq 0 7)) (seq 0 104)
            = true) by (vm_compute; reflexivity).
  intros z r Hz Hr. rewrite forallb_forall in H.
  assert (Iz : In z (seq 0 104)) by (apply in_seq; lia).
  specialize (H z Iz). rewrite forallb_forall in H.
  assert (Ir : In r (seq 0 7)) by (apply in_seq; lia).
  specialize (H r Ir). apply andb_true_iff in H as [H1 H2].
  apply Z.leb_le in H1. apply Z.ltb_lt in H2. auto.
Qed.

(** limits on the atomic numbers *)
Definition ref_limit (ref : string) : nat := if ref =? "eeq" then 104 else 87.
Definition ref_known (ref : string) : bool := (ref =? "eeq") || (ref =? "gfn2").

Lemma in_range_le n m ix : n <= m -> in_range n ix -> in_range m ix.
Proof. intros L H i Hi. specialize (H i Hi). lia. Qed.

Lemma gather1' {A} (T : tensor A) n ix s f :
  shp T = [n] -> ten ix s f -> (forall i, valid s i -> (0 <= f i < Z.of_nat n)%Z) ->
  ev (gather T ix) s (fun i => t1 T (f i)).
Proof.
  intros HT [Hs Hd] H. subst s. eapply ev_conv.
  - eapply gather1; eauto. intros i Hi. rewrite Hd; auto.
  - intros i Hi. unfold t1. now rewrite Hd.
Qed.

Lemma gather2' {A} (T : tensor A) r n ix s f :
  shp T = [r; n] -> ten ix s f -> (forall i, valid s i -> (0 <= f i < Z.of_nat n)%Z) ->
  ev (gather T ix) (r :: s) (ix1 (fun x i => t2 T (f i) x)).
Proof.
  intros HT [Hs Hd] H. subst s. eapply ev_conv.
  - eapply gather2d; eauto. intros i Hi. rewrite Hd; auto.
  - intros i Hi. vdes. unfold ix1, t2. simpl. now rewrite Hd.
Qed.

Lemma gather3' {A} (T : tensor A) w r n ix s f :
  shp T = [w; r; n] -> ten ix s f -> (forall i, valid s i -> (0 <= f i < Z.of_nat n)%Z) ->
  ev (gather T ix) (w :: r :: s) (ix2 (fun y x i => dat T [y; x; Z.to_nat (f i)])).
Proof.
  intros HT [Hs Hd] H. subst s. eapply ev_conv.
  - eapply gather3d; eauto. intros i Hi. rewrite Hd; auto.
  - intros i Hi. vdes. unfold ix2. simpl. now rewrite Hd.
Qed.

Section A.
Context {K : Scalar} (X : Ext K).

Lemma zeta_ev (ga : K) mg mr mq sg sr sq s s1 fg fr fq :
  ev mg sg fg -> ev mr sr fr -> ev mq sq fq ->
  bshape sr sq = Some s1 -> bshape sg s1 = Some s -> bshape sq s = Some s ->
  (forall i, valid s i -> bidx sr (bidx s1 i) = bidx sr i) ->
  (forall i, valid s i -> bidx sq (bidx s1 i) = bidx sq i) ->
  ev (zeta ga mg mr mq) s
     (fun i => zeta_s ga (fg (bidx sg i)) (fr (bidx sr i)) (fq (bidx sq i))).
Proof.
  intros Hg Hr Hq E1 E2 E3 C1 C2. unfold zeta.
  eapply ev_bind; [exact Hg|]. intros tg Tg.
  eapply ev_bind; [exact Hr|]. intros tr Tr.
  eapply ev_bind; [exact Hq|]. intros tq Tq.
  eapply (ev_bind _ _ [] (fun _ => feps)). { apply ev_scal. } intros te Te.
  eapply (ev_bind _ _ [] (fun _ => ga)). { apply ev_scal. } intros tga Tga.
  eapply (ev_bind _ _ s (fun i => zscale (fg (bidx sg i)) (fr (bidx sr i)) (fq (bidx sq i)))).
  { eapply ev_conv.
    - eapply (ev_lift1 fexp). eapply (ev_lift2 fmul); [ev_go| |exact E2].
      eapply (ev_lift2 fsub); [ev_go| |apply bshape_nil_l].
      eapply (ev_lift2 fdiv); [ev_go| |exact E1].
      eapply (ev_lift2 fsub); [ev_go|ev_go|apply bshape_nil_r].
    - intros i Hi. cbv beta. unfold zscale.
      assert (V1 : valid s1 (bidx s1 i)).
      { rewrite bshape_comm in E2. eapply bidx_ok; eauto. }
      rewrite !(bidx_valid s1 (bidx s1 i) V1).
      rewrite C1, C2 by auto. rewrite (bidx_valid sq (bidx sq i)); auto.
      eapply bidx_ok; eauto. }
  intros tsc Tsc.
  assert (E4 : bshape s s = Some s) by apply bshape_refl.
  eapply ev_conv.
  - eapply ev_where; [eapply (ev_lift2 flt); [ev_go|ev_go|apply bshape_nil_l] | |
      eapply (ev_lift1 fexp); ev_go | exact E3 | apply bshape_nil_r].
    eapply (ev_lift1 fexp). eapply (ev_lift2 fmul); [ev_go| |apply bshape_nil_l].
    eapply (ev_lift2 fsub); [ev_go|ev_go|apply bshape_nil_l].
  - intros i Hi. cbv beta. unfold zeta_s.
    repeat rewrite (bidx_valid s i Hi).
    rewrite (bidx_valid sq (bidx sq i)); auto. eapply bidx_ok; eauto.
Qed.

Lemma dzeta_ev (ga : K) mg mr mq sg sr sq s s1 sgs fg fr fq :
  ev mg sg fg -> ev mr sr fr -> ev mq sq fq ->
  bshape sr sq = Some s1 -> bshape sg s1 = Some s -> bshape sq s = Some s ->
  bshape s s1 = Some s -> bshape sg s = Some sgs -> sgs = s ->
  (forall i, valid s i -> bidx sr (bidx s1 i) = bidx sr i) ->
  (forall i, valid s i -> bidx sq (bidx s1 i) = bidx sq i) ->
  ev (dzeta X ga mg mr mq) s
     (fun i => dzeta_s X ga (fg (bidx sg i)) (fr (bidx sr i)) (fq (bidx sq i))).
Proof.
  intros Hg Hr Hq E1 E2 E3 E5 E6 -> C1 C2. unfold dzeta.
  eapply ev_bind; [exact Hg|]. intros tg Tg.
  eapply ev_bind; [exact Hr|]. intros tr Tr.
  eapply ev_bind; [exact Hq|]. intros tq Tq.
  eapply (ev_bind _ _ [] (fun _ => feps)). { apply ev_scal. } intros te Te.
  eapply (ev_bind _ _ [] (fun _ => ga)). { apply ev_scal. } intros tga Tga.
  assert (VQ : forall i, valid s i -> valid sq (bidx sq i)) by (intros; eapply bidx_ok; eauto).
  assert (V1 : forall i, valid s i -> valid s1 (bidx s1 i)).
  { intros. rewrite bshape_comm in E2. eapply bidx_ok; eauto. }
  assert (VG : forall i, valid s i -> valid sg (bidx sg i)) by (intros; eapply bidx_ok; eauto).
  eapply (ev_bind _ _ s (fun i => zscale (fg (bidx sg i)) (fr (bidx sr i)) (fq (bidx sq i)))).
  { eapply ev_conv.
    - eapply (ev_lift1 fexp). eapply (ev_lift2 fmul); [ev_go| |exact E2].
      eapply (ev_lift2 fsub); [ev_go| |apply bshape_nil_l].
      eapply (ev_lift2 fdiv); [ev_go| |exact E1].
      eapply (ev_lift2 fsub); [ev_go|ev_go|apply bshape_nil_r].
    - intros i Hi. cbv beta. unfold zscale.
      rewrite !(bidx_valid s1 (bidx s1 i)) by auto.
      rewrite C1, C2 by auto. rewrite (bidx_valid sq (bidx sq i)); auto. }
  intros tsc Tsc.
  eapply (ev_bind _ _ s (fun i => fexp (fmul ga (fsub (flit 1)
     (zscale (fg (bidx sg i)) (fr (bidx sr i)) (fq (bidx sq i))))))).
  { eapply ev_conv.
    - eapply (ev_lift1 fexp). eapply (ev_lift2 fmul); [ev_go| |apply bshape_nil_l].
      eapply (ev_lift2 fsub); [ev_go|ev_go|apply bshape_nil_l].
    - intros i Hi. cbv beta. now rewrite !(bidx_valid s i Hi). }
  intros tz Tz.
  eapply ev_conv.
  - eapply ev_where; [eapply (ev_lift2 flt); [ev_go|ev_go|apply bshape_nil_l] | |
      ev_go | exact E3 | apply bshape_nil_r].
    eapply (ev_lift2 fmul); [ | unfold sdivide; eapply ev_lift2; [ev_go|ev_go|exact E1] | exact E5].
    eapply (ev_lift2 fmul); [ | ev_go | apply bshape_refl].
    eapply (ev_lift2 fmul); [ | ev_go | exact E6].
    eapply (ev_lift2 fmul); [ev_go | ev_go | apply bshape_nil_l].
  - intros i Hi. cbv beta. unfold dzeta_s.
    repeat rewrite (bidx_valid s i Hi).
    rewrite !(bidx_valid sq (bidx sq i)) by auto.
    rewrite !(bidx_valid sg (bidx sg i)) by auto. rewrite C1, C2 by auto. reflexivity.
Qed.

Lemma ref_known_cases ref : ref_known ref = true -> ref = "eeq" \/ ref = "gfn2".
Proof.
  unfold ref_known. intros H. apply orb_true_iff in H as [H|H];
  apply String.eqb_eq in H; auto.
Qed.

Lemma ref_limit_le ref : ref_limit ref <= 104.
Proof. unfold ref_limit. destruct (ref =? "eeq"); lia. Qed.

Lemma gather_refh ref numbers s :
  ref_known ref = true -> shp numbers = s -> in_range (ref_limit ref) numbers ->
  ev (if ref =? "eeq" then gather eeq_clsh numbers
      else if ref =? "gfn2" then gather gfn2_refh numbers else Raise ValueError)
     (7 :: s) (ix1 (fun r i => t2 (@tab_h K ref) (dat numbers i) r)).
Proof.
  intros Hk Hs Hr. apply ref_known_cases in Hk as [-> | ->].
  - exact (gather2' (@eeq_clsh K) 7 104 numbers s _ eq_refl (ten_eq _ _ Hs)
             (fun i Hi => Hr i (eq_ind_r (fun s => valid s i) Hi Hs))).
  - exact (gather2' (@gfn2_refh K) 7 87 numbers s _ eq_refl (ten_eq _ _ Hs)
             (fun i Hi => Hr i (eq_ind_r (fun s => valid s i) Hi Hs))).
Qed.

Lemma gather_refq {N : Num} ref numbers s :
  ref_known ref = true -> shp numbers = s -> in_range (ref_limit ref) numbers ->
  ev (@get_refq N ref numbers)
     (7 :: s) (ix1 (fun r i => t2 (@tab_q (sc N) ref) (dat numbers i) r)).
Proof.
  intros Hk Hs Hr. apply ref_known_cases in Hk as [-> | ->].
  - exact (gather2' (@eeq_clsq (sc N)) 7 104 numbers s _ eq_refl (ten_eq _ _ Hs)
             (fun i Hi => Hr i (eq_ind_r (fun s => valid s i) Hi Hs))).
  - exact (gather2' (@gfn2_refq (sc N)) 7 87 numbers s _ eq_refl (ten_eq _ _ Hs)
             (fun i Hi => Hr i (eq_ind_r (fun s => valid s i) Hi Hs))).
Qed.

Lemma get_alpha_ev numbers s ga gc ref :
  ext_tables X -> ref_known ref = true -> shp numbers = s -> in_range (ref_limit ref) numbers ->
  ev (get_alpha X numbers ga gc ref) (23 :: 7 :: s)
     (ix2 (fun w r i => aref X ga gc ref (dat numbers i) r w)).
Proof.
  intros (nz & ng & nv & Ez & Eg & _ & Lz & Lg & _) Hk Hs Hr.
  assert (Hr104 : forall i, valid s i -> (0 <= dat numbers i < Z.of_nat 104)%Z).
  { intros i Hi. rewrite <- Hs in Hi. apply Hr in Hi. pose proof (ref_limit_le ref). lia. }
  pose proof (ten_eq numbers s Hs) as Tn.
  unfold get_alpha.
  eapply ev_bind; [eapply gather2'; [reflexivity|exact Tn|exact Hr104]|]. intros rs Trs.
  eapply ev_bind; [eapply gather2'; [reflexivity|exact Tn|exact Hr104]|]. intros ra Tra.
  eapply ev_bind; [eapply gather3'; [reflexivity|exact Tn|exact Hr104]|]. intros al Tal.
  eapply ev_bind; [eapply gather2'; [reflexivity|exact Tn|exact Hr104]|]. intros rc Trc.
  eapply ev_bind; [eapply gather_refh; eauto|]. intros rh Trh.
  assert (Hs18 : forall i, valid (7 :: s) i ->
            (0 <= ix1 (fun r i => t2 refsys (dat numbers i) r) i < 18)%Z).
  { intros i Hi. vdes. unfold ix1, t2. simpl. apply refsys_bound; auto.
    match goal with H : valid s ?i |- _ => specialize (Hr104 i H) end. lia. }
  eapply (ev_bind _ _ (7 :: s)
           (ix1 (fun r i => Z.ltb 0 (t2 refsys (dat numbers i) r)))).
  { ev_to. reflexivity. } intros mk Tmk.
  eapply (ev_bind _ _ (7 :: s)
            (fun i => t1 (x_zeff X) (ix1 (fun r i => t2 refsys (dat numbers i) r) i))).
  { eapply gather1'; eauto. intros i Hi. specialize (Hs18 i Hi). lia. } intros zf Tzf.
  eapply (ev_bind _ _ (7 :: s)
            (fun i => fmul (t1 (x_gam X) (ix1 (fun r i => t2 refsys (dat numbers i) r) i)) gc)).
  { eapply ev_conv.
    - eapply (ev_lift2 fmul); [eapply gather1'; [exact Eg|exact Trs|]|ev_go|bshape_solve].
      intros i Hi. specialize (Hs18 i Hi). lia.
    - vsimp. reflexivity. } intros gm Tgm.
  eapply (ev_bind _ _ (7 :: s) (ix1 (fun r i => zsec X ga gc ref (dat numbers i) r))).
  { eapply ev_conv.
    - eapply (ev_where _ _ _ _ (7 :: s)); [ev_go| |ev_go|bshape_solve|bshape_solve].
      eapply zeta_ev; [ev_go|ev_go|ev_go|bshape_solve|bshape_solve|bshape_solve|..].
      + intros i Hi. now repeat rewrite (bidx_valid _ i Hi).
      + intros i Hi. now repeat rewrite (bidx_valid _ i Hi).
    - vsimp. reflexivity. } intros zt Tzt.
  assert (Ess : ev (gather (@secscale K) rs) (1 :: 7 :: s)
     (ix2 (fun w r i => t2 secscale (t2 refsys (dat numbers i) r) w))).
  { eapply ev_conv; [eapply gather2'; [reflexivity|exact Trs|]|].
    - intros i Hi. specialize (Hs18 i Hi). lia.
    - vsimp. reflexivity. }
  assert (Esa : ev (gather (@secalpha K) rs) (23 :: 7 :: s)
     (ix2 (fun w r i => t2 secalpha (t2 refsys (dat numbers i) r) w))).
  { eapply ev_conv; [eapply gather2'; [reflexivity|exact Trs|]|].
    - intros i Hi. specialize (Hs18 i Hi). lia.
    - vsimp. reflexivity. }
  eapply (ev_bind _ _ (23 :: 7 :: s)
           (ix2 (fun w r i => let sy := t2 refsys (dat numbers i) r in
                  fmul (fmul (t2 secscale sy 0) (t2 secalpha sy w))
                       (zsec X ga gc ref (dat numbers i) r)))).
  { ev_to. reflexivity. } intros aw Taw.
  eapply (ev_bind _ _ (23 :: 7 :: s)
           (ix2 (fun w r i => let sy := t2 refsys (dat numbers i) r in
                  fsub (dat refalpha [w; r; Z.to_nat (dat numbers i)])
                       (fmul (t2 refscount (dat numbers i) r)
                  (fmul (fmul (t2 secscale sy 0) (t2 secalpha sy w))
                       (zsec X ga gc ref (dat numbers i) r)))))).
  { ev_to. reflexivity. } intros h Th.
  eapply (ev_bind _ _ (23 :: 7 :: s)
           (ix2 (fun w r i => aref0 X ga gc ref (dat numbers i) r w))).
  { ev_to. reflexivity. } intros a Ta.
  ev_to. reflexivity.
Qed.

Lemma trapzd_ev (al : tensor K) n r B f :
  ten al (23 :: r :: n :: B) f ->
  ev (trapzd al None) (r :: r :: n :: n :: B)
     (ix4 (fun y x j i b => fmul thopi (fsum 23 (fun w =>
        fmul (fmul (trap_w w) (f (w :: x :: i :: b))) (f (w :: y :: j :: b)))))).
Proof.
  intros H. unfold trapzd. eapply ev_conv.
  - eapply (ev_lift2 fmul); [apply ev_scal| |bshape_solve].
    eapply ein_trapzd; [apply ten_eq; reflexivity | exact H | exact H].
  - vsimp. reflexivity.
Qed.

Lemma get_refc6_ev numbers n B ga gc ref :
  ext_tables X -> ref_known ref = true -> shp numbers = n :: B ->
  in_range (ref_limit ref) numbers ->
  ev (get_refc6 X numbers ga gc ref) (7 :: 7 :: n :: n :: B)
     (ix4 (fun y x j i b => rc6v X ga gc ref (sl1 numbers b i) (sl1 numbers b j) x y)).
Proof.
  intros. unfold get_refc6. eapply ev_bind; [eapply get_alpha_ev; eauto|].
  intros al Tal. eapply ev_conv; [eapply trapzd_ev; exact Tal|].
  vsimp. reflexivity.
Qed.

Lemma get_polarizabilities_ev numbers n B ga gc ref weights f :
  ext_tables X -> ref_known ref = true -> shp numbers = n :: B ->
  in_range (ref_limit ref) numbers -> ten weights (7 :: n :: B) f ->
  ev (get_polarizabilities X numbers ga gc ref weights) (n :: B)
     (ix1 (fun i b => fsum 7 (fun r =>
        fmul (f (r :: i :: b)) (aref X ga gc ref (sl1 numbers b i) r 0)))).
Proof.
  intros. unfold get_polarizabilities.
  eapply ev_bind; [eapply ev_select0; [eapply get_alpha_ev; eauto|lia]|].
  intros a0 Ta0. eapply ev_conv; [eapply ein_nr; eauto|].
  vsimp. reflexivity.
Qed.
End A.

Section W.
Context {N : Num} (X : Ext (sc N)).
Notation K := (sc N).

Lemma wnorm_ev mask (expw : tensor (db N)) s fm fe :
  ten mask (7 :: s) fm -> ten expw (7 :: s) fe ->
  ev (wnorm mask expw) (7 :: s)
     (ix1 (fun r i => if fm (r :: i) then fsum 7 (fun x => fe (x :: i)) else flit (1 # 10 ^ 300))).
Proof.
  intros Hm He. unfold wnorm. ev_to. reflexivity.
Qed.

Lemma wrescue_ev (refcn : tensor (db N)) (gw : tensor K) s fc fg :
  ten refcn (7 :: s) fc -> ten gw (7 :: s) fg ->
  ev (wrescue refcn gw) (7 :: s)
     (ix1 (fun r i => if exceptional fmaxfin (fg (r :: i))
                      then if feq (fc (r :: i)) (fmaxn 7 (fun x => fc (x :: i)))
                           then flit 1 else flit 0
                      else fg (r :: i))).
Proof.
  intros Hc Hg. unfold wrescue.
  eapply (ev_bind _ _ (1 :: s) (ix1 (fun _ i => fmaxn 7 (fun x => fc (x :: i))))).
  { eapply ev_conv; [eapply ev_max1k; [ev_go|lia]|]. vsimp. reflexivity. }
  intros mx Tmx. unfold is_exceptional. ev_to. reflexivity.
Qed.

Lemma refc_pow_ev tmp wf n s ft wfv :
  ten tmp s ft -> ten wf [] (fun _ => wfv) -> 0 < n ->
  ev (d4_refc_pow tmp wf n) s (fun i => pow4 (N := N) (ft i) wfv n).
Proof.
  intros Ht Hw Hn. unfold d4_refc_pow, pow4. destruct n as [|n]; [lia|]. simpl seq.
  assert (P : forall i, ev (tpow tmp (lift1 up (tmul (tlit (inject_Z (Z.of_nat i))) wf))) s
                (fun x => pw4 (N := N) (ft x) wfv i)).
  { intros k. eapply ev_conv; [ev_go|].
    intros i Hi. cbv beta. rewrite (bidx_valid s i Hi). reflexivity. }
  assert (G : forall l (m : res (tensor (db N))) f, ev m s f ->
    ev (fold_left (fun acc i => tadd acc (tpow tmp (lift1 up (tmul (tlit (inject_Z (Z.of_nat i))) wf))))
          l m) s (fun x => fold_left (fun acc i => fadd acc (pw4 (N := N) (ft x) wfv i)) l (f x))).
  { induction l as [|k l IH]; intros m f Hm; cbn [fold_left]; auto.
    apply (IH _ (fun x => fadd (f x) (pw4 (N:=N) (ft x) wfv k))).
    eapply ev_conv.
    - eapply (ev_lift2 fadd); [exact Hm|apply P|apply bshape_refl].
    - intros i Hi. cbv beta. now rewrite !(bidx_valid s i Hi). }
  cbn [fold_left]. apply (G _ _ (fun x => fadd (flit 0) (pw4 (N:=N) (ft x) wfv 1))).
  eapply ev_conv.
  - eapply (ev_lift2 fadd); [ev_go|apply P|apply bshape_nil_l].
  - intros i Hi. cbv beta. now rewrite !(bidx_valid s i Hi).
Qed.

Lemma dpow_ev dcn tmp wf n s fd ft wfv :
  ten dcn s fd -> ten tmp s ft -> ten wf [] (fun _ => wfv) -> 0 < n ->
  ev (d4_dpow dcn tmp wf n) s (fun i => dpow4 (N := N) (fd i) (ft i) wfv n).
Proof.
  intros Hd Ht Hw Hn. unfold d4_dpow, dpow4. destruct n as [|n]; [lia|]. simpl seq.
  assert (P : forall i, ev (tmul (tmul (lift1 up (tmul (tlit (inject_Z (2 * Z.of_nat i))) wf)) dcn)
                 (tpow tmp (lift1 up (tmul (tlit (inject_Z (Z.of_nat i))) wf)))) s
                (fun x => dpw4 (N := N) (fd x) (ft x) wfv i)).
  { intros k. eapply ev_conv.
    - eapply (ev_lift2 fmul); [ev_go|ev_go|apply bshape_refl].
    - intros i Hi. cbv beta. repeat rewrite (bidx_valid s i Hi). reflexivity. }
  assert (G : forall l (m : res (tensor (db N))) f, ev m s f ->
    ev (fold_left (fun acc i => tadd acc (tmul (tmul (lift1 up (tmul (tlit (inject_Z (2 * Z.of_nat i))) wf)) dcn)
                 (tpow tmp (lift1 up (tmul (tlit (inject_Z (Z.of_nat i))) wf)))))
          l m) s (fun x => fold_left (fun acc i => fadd acc (dpw4 (N := N) (fd x) (ft x) wfv i)) l (f x))).
  { induction l as [|k l IH]; intros m f Hm; cbn [fold_left]; auto.
    apply (IH _ (fun x => fadd (f x) (dpw4 (N:=N) (fd x) (ft x) wfv k))).
    eapply ev_conv.
    - eapply (ev_lift2 fadd); [exact Hm|apply P|apply bshape_refl].
    - intros i Hi. cbv beta. now rewrite !(bidx_valid s i Hi). }
  cbn [fold_left]. apply (G _ _ (fun x => fadd (flit 0) (dpw4 (N:=N) (fd x) (ft x) wfv 1))).
  eapply ev_conv.
  - eapply (ev_lift2 fadd); [ev_go|apply P|apply bshape_nil_l].
  - intros i Hi. cbv beta. now rewrite !(bidx_valid s i Hi).
Qed.

Lemma d4s_pow_ev (tmp : tensor (db N)) n s ft :
  ten tmp s ft -> 0 < n ->
  ev (d4s_refc_pow tmp n) s (fun i => pow4s (N := N) (ft i) n).
Proof.
  intros Ht Hn. unfold d4s_refc_pow, pow4s. destruct n as [|n]; [lia|]. simpl seq.
  assert (G : forall l (m : res (tensor (db N))) f, ev m s f ->
    ev (fold_left (fun acc i => tadd acc (tpown tmp i)) l m) s
       (fun x => fold_left (fun acc i => fadd acc (fpown (ft x) i)) l (f x))).
  { induction l as [|k l IH]; intros m f Hm; cbn [fold_left]; auto.
    apply (IH _ (fun x => fadd (f x) (fpown (ft x) k))).
    eapply ev_conv.
    - eapply (ev_lift2 fadd); [exact Hm|ev_go|apply bshape_refl].
    - intros i Hi. cbv beta. now rewrite !(bidx_valid s i Hi). }
  cbn [fold_left]. apply (G _ _ (fun x => fadd (flit 0) (fpown (ft x) 1))).
  eapply ev_conv.
  - eapply (ev_lift2 fadd); [ev_go|ev_go|apply bshape_nil_l].
  - intros i Hi. cbv beta. now rewrite !(bidx_valid s i Hi).
Qed.

Definition cnq_ok (o : option (tensor K)) (s : list nat) : Prop :=
  match o with Some t => shp t = s | None => True end.
Definition cnq (o : option (tensor K)) (i : list nat) : K :=
  match o with Some t => dat t i | None => flit 0 end.

Lemma cnq_ten o numbers s : cnq_ok o s -> shp numbers = s ->
  ten (default o (zeros_of numbers)) s (cnq o).
Proof.
  intros H Hs. destruct o; simpl in *; split; auto.
Qed.

Lemma d4_weights_run numbers s ga gc wf wfv ref cn q dq dcn :
  ext_tables X -> ref_known ref = true -> shp numbers = s ->
  in_range (ref_limit ref) numbers -> ten wf [] (fun _ => wfv) ->
  cnq_ok cn s -> cnq_ok q s ->
  let z i := dat numbers i in
  runs (d4_weight_references X numbers ga gc wf ref cn q dq dcn)
    (fun l => tens l
       ((7 :: s, ix1 (fun r i => w4 X ga gc ref wfv (z i) (cnq cn i) (cnq q i) r)) ::
        (if dcn then
           [(7 :: s, ix1 (fun r i => fmul (ztv X ga gc ref (z i) (cnq q i) r)
                                          (dgwv4 (z i) (cnq cn i) wfv r)))] else []) ++
        (if dq then
           [(7 :: s, ix1 (fun r i => fmul (dztv X ga gc ref (z i) (cnq q i) r)
                                          (gwv (z i) (expw4 (z i) (cnq cn i) wfv) r)))] else []))).
Proof.
  intros (nz & ng & nv & Ez & Eg & _ & Lz & Lg & _) Hk Hs Hr Hwf Hcn Hq z.
  assert (Hr104 : forall i, valid s i -> (0 <= dat numbers i < Z.of_nat 104)%Z).
  { intros i Hi. rewrite <- Hs in Hi. apply Hr in Hi. pose proof (ref_limit_le ref). lia. }
  pose proof (ten_eq numbers s Hs) as Tn.
  pose proof (cnq_ten cn numbers s Hcn Hs) as Tcn.
  pose proof (cnq_ten q numbers s Hq Hs) as Tq.
  unfold d4_weight_references. cbv zeta.
  eapply runs_ev_bind; [eapply gather_refq; eauto|]. intros rq Trq.
  eapply runs_ev_bind; [eapply gather2'; [reflexivity|exact Tn|exact Hr104]|]. intros rc Trc.
  eapply (runs_ev_bind _ _ (7 :: s) (ix1 (fun r i => present (z i) r))).
  { ev_to. reflexivity. } intros mk Tmk.
  eapply runs_ev_bind; [eapply gather2'; [reflexivity|exact Tn|exact Hr104]|]. intros rcn Trcn.
  eapply (runs_ev_bind _ _ (7 :: s) (ix1 (fun r i => dcnv (N:=N) (z i) (cnq cn i) r))).
  { ev_to. reflexivity. } intros dc Tdc.
  eapply (runs_ev_bind _ _ (7 :: s) (ix1 (fun r i => tmp4 (N:=N) (z i) (cnq cn i) r))).
  { ev_to. reflexivity. } intros tm Ttm.
  assert (P1 := refc_pow_ev tm wf 1 _ _ _ Ttm Hwf ltac:(lia)).
  assert (P3 := refc_pow_ev tm wf 3 _ _ _ Ttm Hwf ltac:(lia)).
  eapply (runs_ev_bind _ _ (7 :: s)
    (ix1 (fun r i => if Z.eqb 1 (nref (z i) r) then pow4 (tmp4 (N:=N) (z i) (cnq cn i) r) wfv 1
                     else tmp4 (z i) (cnq cn i) r))).
  { ev_to. reflexivity. } intros p1 Tp1.
  eapply (runs_ev_bind _ _ (7 :: s)
    (ix1 (fun r i => if Z.eqb 3 (nref (z i) r) then pow4 (tmp4 (N:=N) (z i) (cnq cn i) r) wfv 3
                     else if Z.eqb 1 (nref (z i) r) then pow4 (tmp4 (N:=N) (z i) (cnq cn i) r) wfv 1
                     else tmp4 (z i) (cnq cn i) r))).
  { ev_to. reflexivity. } intros p3 Tp3.
  eapply (runs_ev_bind _ _ (7 :: s) (ix1 (fun r i => expw4 (N:=N) (z i) (cnq cn i) wfv r))).
  { ev_to. reflexivity. } intros ew Tew.
  eapply (runs_ev_bind _ _ (7 :: s)
            (ix1 (fun r i => normv (N:=N) (z i) (expw4 (z i) (cnq cn i) wfv) r))).
  { eapply ev_conv; [eapply wnorm_ev; eauto|]. vsimp. reflexivity. } intros nm Tnm.
  eapply (runs_ev_bind _ _ (7 :: s)
            (ix1 (fun r i => gwt (N:=N) (z i) (expw4 (z i) (cnq cn i) wfv) r))).
  { ev_to. reflexivity. } intros gt Tgt.
  eapply (runs_ev_bind _ _ (7 :: s)
            (ix1 (fun r i => gwv (N:=N) (z i) (expw4 (z i) (cnq cn i) wfv) r))).
  { eapply ev_conv; [eapply wrescue_ev; eauto|]. vsimp. reflexivity. } intros gw Tgw.
  assert (Ezf : ev (gather (x_zeff X) numbers) s (fun i => t1 (x_zeff X) (z i))).
  { eapply gather1'; [eassumption|exact Tn|]. intros i Hi. specialize (Hr104 i Hi). unfold z in *. lia. }
  assert (Egm : ev (gather (x_gam X) numbers) s (fun i => t1 (x_gam X) (z i))).
  { eapply gather1'; [eassumption|exact Tn|]. intros i Hi. specialize (Hr104 i Hi). unfold z in *. lia. }
  eapply (runs_ev_bind _ _ (1 :: s) (ix1 (fun _ i => t1 (x_zeff X) (z i)))).
  { ev_to. reflexivity. } intros zf Tzf.
  eapply (runs_ev_bind _ _ (1 :: s) (ix1 (fun _ i => fmul (t1 (x_gam X) (z i)) gc))).
  { ev_to. reflexivity. } intros gm Tgm.
  eapply (runs_ev_bind _ _ (1 :: s) (ix1 (fun _ i => cnq q i))).
  { ev_to. reflexivity. } intros qq Tqq.
  assert (B1 : bshape (7 :: s) (1 :: s) = Some (7 :: s)) by bshape_solve.
  assert (B2 : bshape (1 :: s) (7 :: s) = Some (7 :: s)) by bshape_solve.
  assert (B3 : bshape (7 :: s) (7 :: s) = Some (7 :: s)) by bshape_solve.
  eapply (runs_ev_bind _ _ (7 :: s) (ix1 (fun r i => ztv X ga gc ref (z i) (cnq q i) r))).
  { eapply ev_conv.
    - eapply (ev_where _ _ _ _ (7 :: s)); [ev_go| |ev_go|bshape_solve|bshape_solve].
      eapply zeta_ev; [ev_go|ev_go|ev_go|exact B1|exact B2|exact B2|..].
      + intros i Hi. now repeat rewrite (bidx_valid _ i Hi).
      + intros i Hi. now repeat rewrite (bidx_valid _ i Hi).
    - vsimp. reflexivity. } intros zt Tzt.
  eapply (runs_ev_bind _ _ (7 :: s)
     (ix1 (fun r i => w4 X ga gc ref wfv (z i) (cnq cn i) (cnq q i) r))).
  { ev_to. reflexivity. } intros o0 To0.
  eapply (runs_bind _ _ (fun l => tens l
     (if dcn then
           [(7 :: s, ix1 (fun r i => fmul (ztv X ga gc ref (z i) (cnq q i) r)
                                          (dgwv4 (z i) (cnq cn i) wfv r)))] else []))).
  { destruct dcn; [|apply runs_ok; constructor].
    assert (D1 := dpow_ev dc tm wf 1 _ _ _ _ Tdc Ttm Hwf ltac:(lia)).
    assert (D3 := dpow_ev dc tm wf 3 _ _ _ _ Tdc Ttm Hwf ltac:(lia)).
    eapply (runs_ev_bind _ _ (7 :: s)
      (ix1 (fun r i => if Z.eqb 1 (nref (z i) r)
         then dpow4 (dcnv (N:=N) (z i) (cnq cn i) r) (tmp4 (N:=N) (z i) (cnq cn i) r) wfv 1
         else flit 0))).
    { ev_to. reflexivity. } intros w1 Tw1.
    eapply (runs_ev_bind _ _ (7 :: s)
      (ix1 (fun r i => if Z.eqb 3 (nref (z i) r)
         then dpow4 (dcnv (N:=N) (z i) (cnq cn i) r) (tmp4 (N:=N) (z i) (cnq cn i) r) wfv 3
         else flit 0))).
    { ev_to. reflexivity. } intros w3 Tw3.
    eapply (runs_ev_bind _ _ (7 :: s) (ix1 (fun r i => dexpw4 (N:=N) (z i) (cnq cn i) wfv r))).
    { ev_to. reflexivity. } intros de Tde.
    eapply (runs_ev_bind _ _ (1 :: s)
       (ix1 (fun _ i => fsum 7 (dexpw4 (N:=N) (z i) (cnq cn i) wfv)))).
    { ev_to. apply fsum_ext. intros. reflexivity. } intros dn Tdn.
    eapply (runs_ev_bind _ _ (7 :: s) (ix1 (fun r i => dgwt4 (N:=N) (z i) (cnq cn i) wfv r))).
    { ev_to. reflexivity. } intros dg Tdg.
    eapply (runs_ev_bind _ _ (7 :: s) (ix1 (fun r i => dgwv4 (N:=N) (z i) (cnq cn i) wfv r))).
    { unfold is_exceptional. ev_to. reflexivity. } intros dgv Tdgv.
    eapply (runs_ev_bind _ _ (7 :: s) (ix1 (fun r i => fmul (ztv X ga gc ref (z i) (cnq q i) r)
                                          (dgwv4 (N:=N) (z i) (cnq cn i) wfv r)))).
    { ev_to. reflexivity. } intros o1 To1.
    apply runs_ok. constructor; [exact To1|constructor]. }
  intros l1 Hl1.
  eapply (runs_bind _ _ (fun l => tens l
     (if dq then
           [(7 :: s, ix1 (fun r i => fmul (dztv X ga gc ref (z i) (cnq q i) r)
                                          (gwv (z i) (expw4 (z i) (cnq cn i) wfv) r)))] else []))).
  { destruct dq; [|apply runs_ok; constructor].
    eapply (runs_ev_bind _ _ (7 :: s) (ix1 (fun r i => dztv X ga gc ref (z i) (cnq q i) r))).
    { eapply ev_conv.
      - eapply (ev_where _ _ _ _ (7 :: s)); [ev_go| |ev_go|bshape_solve|bshape_solve].
        eapply dzeta_ev; [ev_go|ev_go|ev_go|exact B1|exact B2|exact B2|exact B3|exact B2
                         |reflexivity|..].
        + intros i Hi. now repeat rewrite (bidx_valid _ i Hi).
        + intros i Hi. now repeat rewrite (bidx_valid _ i Hi).
      - vsimp. reflexivity. } intros dz Tdz.
    eapply (runs_ev_bind _ _ (7 :: s) (ix1 (fun r i => fmul (dztv X ga gc ref (z i) (cnq q i) r)
                                          (gwv (z i) (expw4 (N:=N) (z i) (cnq cn i) wfv) r)))).
    { ev_to. reflexivity. } intros o2 To2.
    apply runs_ok. constructor; [exact To2|constructor]. }
  intros l2 Hl2. apply runs_ok. constructor; [exact To0|].
  apply Forall2_app; auto.
Qed.

(** *** D4S *)
Lemma ein_gauss_db (t u : tensor (db N)) (v : tensor K) n m r B ft fu fv :
  ten t (r :: n :: m :: B) ft -> ten u (r :: n :: m :: B) fu -> ten v (m :: n :: B) fv ->
  ev (einsumK [(Ell "mnr", t); (Ell "mnr", u); (Ell "nm", tmap up v)] (Ell "mnr"))
     (r :: n :: m :: B)
     (ix3 (fun x i j b => fmul (fmul (ft (x :: i :: j :: b)) (fu (x :: i :: j :: b)))
                               (up (fv (j :: i :: b))))).
Proof.
  intros H1 H2 [H3 H4]. eapply (ein_gauss (K := db N) _ _ _ _ _ _ _ _ _ (fun i => up (fv i))); eauto.
  split; [exact H3|]. intros i Hi. simpl. now rewrite H4.
Qed.

Lemma d4s_weights_run numbers n B ga gc wf wfv ref cn q dq :
  ext_tables X -> ref_known ref = true -> shp numbers = n :: B ->
  in_range (ref_limit ref) numbers -> ten wf (n :: n :: B) wfv ->
  cnq_ok cn (n :: B) -> cnq_ok q (n :: B) ->
  let z i := dat numbers i in
  runs (d4s_weight_references X numbers ga gc wf ref cn q dq false)
    (fun l => tens l
       ((7 :: n :: n :: B,
         ix3 (fun r i j b => w4s X ga gc ref (wfv (j :: i :: b)) (z (i :: b)) (cnq cn (i :: b))
                                 (cnq q (i :: b)) r)) ::
        (if dq then
           [(7 :: n :: n :: B,
             ix3 (fun r i j b => fmul (dztv X ga gc ref (z (i :: b)) (cnq q (i :: b)) r)
                    (gwv (z (i :: b)) (expw4s (z (i :: b)) (cnq cn (i :: b)) (wfv (j :: i :: b))) r)))]
         else []))).
Proof.
  intros (nz & ng & nv & Ez & Eg & _ & Lz & Lg & _) Hk Hs Hr Hwf Hcn Hq z.
  assert (Hr104 : forall i, valid (n :: B) i -> (0 <= dat numbers i < Z.of_nat 104)%Z).
  { intros i Hi. rewrite <- Hs in Hi. apply Hr in Hi. pose proof (ref_limit_le ref). lia. }
  pose proof (ten_eq numbers _ Hs) as Tn.
  pose proof (cnq_ten cn numbers _ Hcn Hs) as Tcn.
  pose proof (cnq_ten q numbers _ Hq Hs) as Tq.
  unfold d4s_weight_references. cbv zeta.
  eapply runs_ev_bind; [eapply gather_refq; eauto|]. intros rq Trq.
  eapply runs_ev_bind; [eapply gather2'; [reflexivity|exact Tn|exact Hr104]|]. intros rc0 Trc0.
  rewrite (proj1 Trc0). cbn [bind].
  set (xs := 7 :: n :: n :: B).
  assert (XE : xs = 7 :: n :: n :: B) by reflexivity. clearbody xs.
  assert (BX : bshape (7 :: n :: 1 :: B) xs = Some xs) by (rewrite XE; bshape_solve).
  eapply (runs_ev_bind _ _ xs (ix3 (fun r i j b => nref (z (i :: b)) r))).
  { eapply ev_conv; [eapply ev_expand; [eapply ev_unsq3; ev_go|exact BX]|].
    rewrite XE. vsimp. reflexivity. } rewrite XE. intros rc Trc.
  eapply (runs_ev_bind _ _ (7 :: n :: n :: B) (ix3 (fun r i j b => present (z (i :: b)) r))).
  { ev_to. reflexivity. } intros mk Tmk.
  eapply runs_ev_bind; [eapply gather2'; [reflexivity|exact Tn|exact Hr104]|]. intros rcn0 Trcn0.
  rewrite XE in BX.
  eapply (runs_ev_bind _ _ (7 :: n :: n :: B) (ix3 (fun r i j b => cnref (N:=N) (z (i :: b)) r))).
  { eapply ev_conv; [eapply ev_expand; [eapply ev_unsq3; ev_go|exact BX]|].
    vsimp. reflexivity. } intros rcn Trcn.
  eapply (runs_ev_bind _ _ (7 :: n :: n :: B)
      (ix3 (fun r i j b => dcnv (N:=N) (z (i :: b)) (cnq cn (i :: b)) r))).
  { ev_to. reflexivity. } intros dc Tdc.
  eapply (runs_ev_bind _ _ (7 :: n :: n :: B)
      (ix3 (fun r i j b => fopp (dcnv (N:=N) (z (i :: b)) (cnq cn (i :: b)) r)))).
  { ev_to. reflexivity. } intros ndc Tndc.
  eapply runs_ev_bind; [eapply ein_gauss_db; eauto|]. intros ar Tar.
  eapply (runs_ev_bind _ _ (7 :: n :: n :: B)
      (ix3 (fun r i j b => tmp4s (N:=N) (z (i :: b)) (cnq cn (i :: b)) (wfv (j :: i :: b)) r))).
  { ev_to. reflexivity. } intros tm Ttm.
  assert (P1 := d4s_pow_ev tm 1 _ _ Ttm ltac:(lia)).
  assert (P3 := d4s_pow_ev tm 3 _ _ Ttm ltac:(lia)).
  eapply (runs_ev_bind _ _ (7 :: n :: n :: B)
    (ix3 (fun r i j b =>
       let t := tmp4s (N:=N) (z (i :: b)) (cnq cn (i :: b)) (wfv (j :: i :: b)) r in
       if Z.eqb 1 (nref (z (i :: b)) r) then pow4s t 1 else t))).
  { ev_to. reflexivity. } intros p1 Tp1.
  eapply (runs_ev_bind _ _ (7 :: n :: n :: B)
    (ix3 (fun r i j b =>
       let t := tmp4s (N:=N) (z (i :: b)) (cnq cn (i :: b)) (wfv (j :: i :: b)) r in
       if Z.eqb 3 (nref (z (i :: b)) r) then pow4s t 3
       else if Z.eqb 1 (nref (z (i :: b)) r) then pow4s t 1 else t))).
  { ev_to. reflexivity. } intros p3 Tp3.
  eapply (runs_ev_bind _ _ (7 :: n :: n :: B)
    (ix3 (fun r i j b => expw4s (N:=N) (z (i :: b)) (cnq cn (i :: b)) (wfv (j :: i :: b)) r))).
  { ev_to. reflexivity. } intros ew Tew.
  eapply (runs_ev_bind _ _ (7 :: n :: n :: B)
            (ix3 (fun r i j b => normv (N:=N) (z (i :: b))
               (expw4s (z (i :: b)) (cnq cn (i :: b)) (wfv (j :: i :: b))) r))).
  { eapply ev_conv; [eapply wnorm_ev; eauto|]. vsimp. reflexivity. } intros nm Tnm.
  eapply (runs_ev_bind _ _ (7 :: n :: n :: B)
            (ix3 (fun r i j b => gwt (N:=N) (z (i :: b))
               (expw4s (z (i :: b)) (cnq cn (i :: b)) (wfv (j :: i :: b))) r))).
  { ev_to. reflexivity. } intros gt Tgt.
  eapply (runs_ev_bind _ _ (7 :: n :: n :: B)
            (ix3 (fun r i j b => gwv (N:=N) (z (i :: b))
               (expw4s (z (i :: b)) (cnq cn (i :: b)) (wfv (j :: i :: b))) r))).
  { eapply ev_conv; [eapply wrescue_ev; eauto|]. vsimp. reflexivity. } intros gw Tgw.
  assert (Ezf : ev (gather (x_zeff X) numbers) (n :: B) (fun i => t1 (x_zeff X) (z i))).
  { eapply gather1'; [eassumption|exact Tn|]. intros i Hi. specialize (Hr104 i Hi). unfold z in *. lia. }
  assert (Egm : ev (gather (x_gam X) numbers) (n :: B) (fun i => t1 (x_gam X) (z i))).
  { eapply gather1'; [eassumption|exact Tn|]. intros i Hi. specialize (Hr104 i Hi). unfold z in *. lia. }
  eapply (runs_ev_bind _ _ (1 :: n :: B) (ix1 (fun _ i => t1 (x_zeff X) (z i)))).
  { ev_to. reflexivity. } intros zf Tzf.
  eapply (runs_ev_bind _ _ (1 :: n :: B) (ix1 (fun _ i => fmul (t1 (x_gam X) (z i)) gc))).
  { ev_to. reflexivity. } intros gm Tgm.
  eapply (runs_ev_bind _ _ (1 :: n :: B) (ix1 (fun _ i => cnq q i))).
  { ev_to. reflexivity. } intros qq Tqq.
  assert (B1 : bshape (7 :: n :: B) (1 :: n :: B) = Some (7 :: n :: B)) by bshape_solve.
  assert (B2 : bshape (1 :: n :: B) (7 :: n :: B) = Some (7 :: n :: B)) by bshape_solve.
  assert (B3 : bshape (7 :: n :: B) (7 :: n :: B) = Some (7 :: n :: B)) by bshape_solve.
  eapply (runs_ev_bind _ _ (7 :: n :: B) (ix1 (fun r i =>
     zeta_s ga (fmul (t1 (x_gam X) (z i)) gc)
        (fadd (t2 (tab_q ref) (z i) r) (t1 (x_zeff X) (z i)))
        (fadd (cnq q i) (t1 (x_zeff X) (z i)))))).
  { eapply ev_conv.
    - eapply zeta_ev; [ev_go|ev_go|ev_go|exact B1|exact B2|exact B2|..].
      + intros i Hi. now repeat rewrite (bidx_valid _ i Hi).
      + intros i Hi. now repeat rewrite (bidx_valid _ i Hi).
    - vsimp. reflexivity. } intros zt0 Tzt0.
  eapply (runs_ev_bind _ _ (7 :: n :: n :: B)
     (ix3 (fun r i j b => ztv X ga gc ref (z (i :: b)) (cnq q (i :: b)) r))).
  { ev_to. reflexivity. } intros zt Tzt.
  eapply (runs_ev_bind _ _ (7 :: n :: n :: B)
     (ix3 (fun r i j b => w4s X ga gc ref (wfv (j :: i :: b)) (z (i :: b)) (cnq cn (i :: b))
                                 (cnq q (i :: b)) r))).
  { ev_to. reflexivity. } intros o0 To0.
  destruct dq.
  2:{ apply runs_ok. constructor; [exact To0|constructor]. }
  eapply (runs_ev_bind _ _ (7 :: n :: B) (ix1 (fun r i =>
     dzeta_s X ga (fmul (t1 (x_gam X) (z i)) gc)
        (fadd (t2 (tab_q ref) (z i) r) (t1 (x_zeff X) (z i)))
        (fadd (cnq q i) (t1 (x_zeff X) (z i)))))).
  { eapply ev_conv.
    - eapply dzeta_ev; [ev_go|ev_go|ev_go|exact B1|exact B2|exact B2|exact B3|exact B2
                         |reflexivity|..].
      + intros i Hi. now repeat rewrite (bidx_valid _ i Hi).
      + intros i Hi. now repeat rewrite (bidx_valid _ i Hi).
    - vsimp. reflexivity. } intros dz0 Tdz0.
  eapply (runs_ev_bind _ _ (7 :: n :: n :: B)
     (ix3 (fun r i j b => dztv X ga gc ref (z (i :: b)) (cnq q (i :: b)) r))).
  { ev_to. reflexivity. } intros dz Tdz.
  eapply (runs_ev_bind _ _ (7 :: n :: n :: B)
      (ix3 (fun r i j b => fmul (dztv X ga gc ref (z (i :: b)) (cnq q (i :: b)) r)
                    (gwv (z (i :: b)) (expw4s (N:=N) (z (i :: b)) (cnq cn (i :: b)) (wfv (j :: i :: b))) r)))).
  { ev_to. reflexivity. } intros o1 To1.
  apply runs_ok. constructor; [exact To0|constructor; [exact To1|constructor]].
Qed.

(** ** Model instances *)

(** number of weights per reference system: the D4 weights have shape
    [(..., nat, 7)], the D4S weights [(..., nat, nat, 7)]. *)
Definition is_d4s (m : Model N) : bool :=
  match m_kind m with D4SM | D4SDebugM => true | _ => false end.

(** a well-formed D4 or D4S model for [n] atoms and batch shape [B] *)
Definition model_ok (m : Model N) (n : nat) (B : list nat) : Prop :=
  ext_tables X /\ ref_known (m_ref m) = true /\ shp (m_numbers m) = n :: B /\
  in_range (ref_limit (m_ref m)) (m_numbers m) /\
  ten (m_rc6 m) (7 :: 7 :: n :: n :: B)
    (ix4 (fun y x j i b => rc6v X (m_ga m) (m_gc m) (m_ref m)
                             (sl1 (m_numbers m) b i) (sl1 (m_numbers m) b j) x y)) /\
  match m_kind m, m_wf m with
  | D4M, Some wf => shp wf = []
  | (D4SM | D4SDebugM), Some wf => shp wf = n :: n :: B
  | _, _ => False
  end.

(** weighting exponent used for atom [i] in the presence of atom [j] *)
Definition wf_of (m : Model N) (b : list nat) (i j : nat) : K :=
  match m_wf m with
  | Some wf => if is_d4s m then sl2 wf b i j else dat wf []
  | None => flit 0
  end.

(** weight of reference [r] of atom [i] in the presence of atom [j] *)
Definition wt_of (m : Model N) (cn q : option (tensor K)) (b : list nat) (i j r : nat) : K :=
  let z := sl1 (m_numbers m) b i in
  let cn := cnq cn (i :: b) in let q := cnq q (i :: b) in
  if is_d4s m then w4s X (m_ga m) (m_gc m) (m_ref m) (wf_of m b i j) z cn q r
  else w4 X (m_ga m) (m_gc m) (m_ref m) (wf_of m b i j) z cn q r.

Lemma weight_references_ev m n B cn q :
  model_ok m n B -> cnq_ok cn (n :: B) -> cnq_ok q (n :: B) ->
  ev (weight_references X m cn q)
     (if is_d4s m then 7 :: n :: n :: B else 7 :: n :: B)
     (if is_d4s m then ix3 (fun r i j b => wt_of m cn q b i j r)
      else ix2 (fun r i b => wt_of m cn q b i i r)).
Proof.
  intros (HX & Hk & Hs & Hr & _ & Hwf) Hcn Hq.
  unfold weight_references, weight_references_gen, wt_of, wf_of, is_d4s.
  destruct (m_kind m) eqn:EK; destruct (m_wf m) as [wf|] eqn:EW; try contradiction.
  - destruct (d4_weights_run (m_numbers m) (n :: B) (m_ga m) (m_gc m) wf (dat wf []) (m_ref m)
                cn q false false) as (l & -> & Hl); auto.
    { split; auto. intros [|? ?] Hi; [reflexivity|destruct Hi]. }
    simpl in Hl. inversion Hl as [|w ? l' ? Hw Hl']; subst. inversion Hl'; subst.
    simpl. apply ev_t. simpl in Hw. eapply ten_conv; [exact Hw|]. vsimp. reflexivity.
  - destruct (d4s_weights_run (m_numbers m) n B (m_ga m) (m_gc m) wf (dat wf) (m_ref m)
                cn q false) as (l & -> & Hl); auto.
    { split; auto. }
    simpl in Hl. inversion Hl as [|w ? l' ? Hw Hl']; subst. inversion Hl'; subst.
    simpl. apply ev_t. simpl in Hw. eapply ten_conv; [exact Hw|]. vsimp. reflexivity.
  - destruct (d4s_weights_run (m_numbers m) n B (m_ga m) (m_gc m) wf (dat wf) (m_ref m)
                cn q false) as (l & -> & Hl); auto.
    { split; auto. }
    simpl in Hl. inversion Hl as [|w ? l' ? Hw Hl']; subst. inversion Hl'; subst.
    simpl. apply ev_t. simpl in Hw. eapply ten_conv; [exact Hw|]. vsimp. reflexivity.
Qed.

Lemma c6_of_ext ga gc ref zi zj wi wi' wj wj' :
  (forall r, r < 7 -> wi r = wi' r) -> (forall r, r < 7 -> wj r = wj' r) ->
  c6_of X ga gc ref zi zj wi wj = c6_of X ga gc ref zi zj wi' wj'.
Proof.
  intros Hi Hj. unfold c6_of. apply fsum_ext. intros y Hy. f_equal; [|now apply Hj].
  apply fsum_ext. intros x Hx. f_equal. now apply Hi.
Qed.

(** [C6] of an atom pair *)
Definition c6m (m : Model N) (cn q : option (tensor K)) (b : list nat) (i j : nat) : K :=
  c6_of X (m_ga m) (m_gc m) (m_ref m) (sl1 (m_numbers m) b i) (sl1 (m_numbers m) b j)
        (wt_of m cn q b i j) (wt_of m cn q b j i).

Lemma wt_of_d4 m cn q b i j j' r : is_d4s m = false -> wt_of m cn q b i j r = wt_of m cn q b i j' r.
Proof. intros E. unfold wt_of, wf_of. now rewrite E. Qed.

Lemma fsum2_ext n m (f g : nat -> nat -> K) :
  (forall x y, x < n -> y < m -> f x y = g x y) ->
  fsum n (fun x => fsum m (f x)) = fsum n (fun x => fsum m (g x)).
Proof. intros H. apply fsum_ext. intros. apply fsum_ext. auto. Qed.

Lemma get_atomic_c6_ev m n B cn q gw :
  model_ok m n B ->
  ten gw (if is_d4s m then 7 :: n :: n :: B else 7 :: n :: B)
     (if is_d4s m then ix3 (fun r i j b => wt_of m cn q b i j r)
      else ix2 (fun r i b => wt_of m cn q b i i r)) ->
  ev (get_atomic_c6 m gw) (n :: n :: B) (ix2 (fun j i b => c6m m cn q b i j)).
Proof.
  intros (HX & Hk & Hs & Hr & Hrc & Hwf) Hg. unfold get_atomic_c6, c6m, c6_of.
  unfold is_d4s in *.
  destruct (m_kind m) eqn:EK; destruct (m_wf m) as [wf|] eqn:EW; try contradiction.
  - eapply ev_conv; [eapply ein_c6_d4; eauto|]. vsimp.
    unfold ix4, ix2. cbn [hd tl]. apply fsum_ext. intros. f_equal; [apply fsum_ext; intros; f_equal|];
    apply wt_of_d4; unfold is_d4s; now rewrite EK.
  - eapply ev_conv; [eapply ein_c6_d4s; eauto|]. vsimp.
    reflexivity.
  - eapply ev_conv; [eapply ein_c6_d4s; eauto|]. vsimp.
    reflexivity.
Qed.

(** weighted polarizability of atom [i]; for D4S what the code computes *)
Definition wpm (m : Model N) (cn q : option (tensor K)) (n : nat) (b : list nat) (w i : nat) : K :=
  wpol X (m_ga m) (m_gc m) (m_ref m) (sl1 (m_numbers m) b i) (wt_of m cn q b i i) w.

Lemma get_weighted_pols_d4_ev m n B cn q gw :
  model_ok m n B -> m_kind m = D4M ->
  ten gw (7 :: n :: B) (ix2 (fun r i b => wt_of m cn q b i i r)) ->
  ev (get_weighted_pols X m gw) (23 :: n :: B) (ix2 (fun w i b => wpm m cn q n b w i)).
Proof.
  intros (HX & Hk & Hs & Hr & Hrc & Hwf) EK Hg. unfold get_weighted_pols, wpm, wpol.
  rewrite EK. unfold model_alpha.
  eapply ev_bind; [eapply get_alpha_ev; eauto|]. intros al Tal.
  eapply ev_conv; [eapply ein_wpol; eauto|]. vsimp. apply fsum_ext. intros. reflexivity.
Qed.

Lemma new_model_run kind cls numbers kw n B m :
  new_model X kind cls numbers kw = Ok m ->
  ext_tables X -> k_rc6 kw = None ->
  ref_known (default (k_ref kw) "eeq") = true -> shp numbers = n :: B ->
  in_range (ref_limit (default (k_ref kw) "eeq")) numbers ->
  m_kind m = kind /\ m_cls m = cls /\ m_numbers m = numbers /\
  m_ga m = default (k_ga kw) (flit GA_DEFAULT) /\ m_gc m = default (k_gc kw) (flit GC_DEFAULT) /\
  m_ref m = default (k_ref kw) "eeq" /\
  ten (m_rc6 m) (7 :: 7 :: n :: n :: B)
    (ix4 (fun y x j i b => rc6v X (m_ga m) (m_gc m) (m_ref m)
                             (sl1 (m_numbers m) b i) (sl1 (m_numbers m) b j) x y)) /\
  match k_wf kw with Some w => m_wf m = Some w | None => get_wf kind numbers = Ok (m_wf m) end.
Proof.
  intros H HX Hrc Hk Hs Hr. unfold new_model in H. rewrite Hrc in H.
  destruct (get_refc6_ev X numbers n B (default (k_ga kw) (flit GA_DEFAULT))
     (default (k_gc kw) (flit GC_DEFAULT)) _ HX Hk Hs Hr) as (t & Et & Ht).
  destruct (k_wf kw) as [w|] eqn:EW.
  - cbn [bind] in H. rewrite Et in H. cbn [bind] in H. injection H as <-. simpl. repeat split; auto; apply Ht.
  - destruct (get_wf kind numbers) as [o|] eqn:E; [|discriminate]. cbn [bind] in H.
    rewrite Et in H. cbn [bind] in H. injection H as <-. simpl. repeat split; auto; apply Ht.
Qed.

End W.
