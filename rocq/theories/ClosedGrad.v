(** * The energy with [torch.where] as an operation: closed form (proof layer).

    The closed forms of Closed.v, ClosedM.v, ClosedModels.v, ClosedTerms.v, ClosedDisp.v and
    CallLemmas.v for the program of ModelGrad.v, generic in the number type and in the two
    selection operations. *)
From Coq Require Import List Arith ZArith QArith Bool String Lia.
From Verif Require Import Py Tensor Scalar ModelExt ModelUtils ModelDamping ModelModels
  ModelTerms ModelDisp ModelGrad DataRef DataAlpha SpecCall SpecGrad TensorLemmas EinsumLemmas Closed ClosedM
  ClosedTerms ClosedModels ClosedDamp ClosedDisp CallLemmas.
Import ListNotations.
Open Scope nat_scope.
Open Scope string_scope.

Lemma ev_gwhere {A} w c a b s1 s2 s3 s12 s f1 f2 f3 :
  ev c s1 f1 -> ev a s2 f2 -> ev b s3 f3 ->
  bshape s1 s2 = Some s12 -> bshape s12 s3 = Some s ->
  @ev A (gwhere w c a b) s
    (fun i => w (f1 (bidx s1 (bidx s12 i))) (f2 (bidx s2 (bidx s12 i))) (f3 (bidx s3 i))).
Proof.
  intros. unfold gwhere. eapply ev_conv.
  - eapply ev_lift2; [eapply ev_lift2|..]; eauto.
  - reflexivity.
Qed.

Ltac ev_go :=
  lazymatch goal with
  | |- ev (tadd _ _) _ _ => eapply (ev_lift2 fadd); [ev_go|ev_go|bshape_solve]
  | |- ev (tsub _ _) _ _ => eapply (ev_lift2 fsub); [ev_go|ev_go|bshape_solve]
  | |- ev (tmul _ _) _ _ => eapply (ev_lift2 fmul); [ev_go|ev_go|bshape_solve]
  | |- ev (tdiv _ _) _ _ => eapply (ev_lift2 fdiv); [ev_go|ev_go|bshape_solve]
  | |- ev (tpow _ _) _ _ => eapply (ev_lift2 fpow); [ev_go|ev_go|bshape_solve]
  | |- ev (tle _ _) _ _ => eapply (ev_lift2 fle); [ev_go|ev_go|bshape_solve]
  | |- ev (tlt _ _) _ _ => eapply (ev_lift2 flt); [ev_go|ev_go|bshape_solve]
  | |- ev (teq _ _) _ _ => eapply (ev_lift2 feq); [ev_go|ev_go|bshape_solve]
  | |- ev (tand _ _) _ _ => eapply (ev_lift2 andb); [ev_go|ev_go|bshape_solve]
  | |- ev (lift2 _ _ _) _ _ => eapply ev_lift2; [ev_go|ev_go|bshape_solve]
  | |- ev (topp _) _ _ => eapply (ev_lift1 fopp); ev_go
  | |- ev (texp _) _ _ => eapply (ev_lift1 fexp); ev_go
  | |- ev (tsqrt _) _ _ => eapply (ev_lift1 fsqrt); ev_go
  | |- ev (tabs _) _ _ => eapply (ev_lift1 fabs); ev_go
  | |- ev (tpown _ ?n) _ _ => eapply (ev_lift1 (fun x => fpown x n)); ev_go
  | |- ev (lift1 _ _) _ _ => eapply ev_lift1; ev_go
  | |- ev (gwhere _ _ _ _) _ _ => eapply ev_gwhere; [ev_go|ev_go|ev_go|bshape_solve|bshape_solve]
  | |- ev (unsqueeze 1 _) _ _ => eapply ev_unsq1; ev_go
  | |- ev (unsqueeze 2 _) _ _ => eapply ev_unsq2; ev_go
  | |- ev (unsqueeze 3 _) _ _ => eapply ev_unsq3; ev_go
  | |- ev (expand _ _) _ _ => eapply ev_expand; [ev_go|bshape_solve]
  | |- ev (tsum1 _) _ _ => eapply ev_sum1; ev_go
  | |- ev (tsum1k _) _ _ => eapply ev_sum1k; ev_go
  | |- ev (tlit _) _ _ => apply ev_scal
  | |- ev (t2r (scal _)) _ _ => apply ev_scal
  | |- ev (Ok (scal _)) _ _ => apply ev_scal
  | |- ev (t2r _) _ _ => apply ev_t2r; eassumption
  | |- ev (Ok _) _ _ => apply ev_t; eassumption
  | |- _ => eassumption
  end.


Ltac ev_to := eapply ev_conv; [ev_go | vsimp].

Local Opaque WFPAIR R4R2 WF_DEFAULT GA_DEFAULT GC_DEFAULT.

Section G.
Context {N : Num} (X : Ext (sc N)) (wk : bool -> sc N -> sc N -> sc N) (wd : bool -> db N -> db N -> db N).
Notation K := (sc N).

Definition pdist_g (c : nat) (num : nat -> Z) (pos : nat -> nat -> K) (i j : nat) : K :=
  wk (pmask num i j) (x_dist X c (pos i) (pos j)) feps.

Definition tfac_g (g : K -> K -> K) (c : nat) (num : nat -> Z) (pos : nat -> nat -> K)
  (rad : nat -> nat -> K) (cut : K) (i j : nat) : K :=
  wk (pmask num i j && fle (pdist_g c num pos i j) cut)
     (g (pdist_g c num pos i j) (rad i j)) (flit 0).

Section E2.
Context (n c : nat) (num : nat -> Z) (pos : nat -> nat -> K) (c6 rad : nat -> nat -> K)
  (r : nat -> K) (cut : K) (g6 g8 : K -> K -> K) (s6 s8 : K) (s10 : option (K * (K -> K -> K))).

Definition e2_atom_g (i : nat) : K :=
  let e := fadd (fmul s6 (fsum n (fun j => fmul (c6 i j) (tfac_g g6 c num pos rad cut i j))))
                (fmul s8 (fsum n (fun j => fmul (c8v c6 r i j) (tfac_g g8 c num pos rad cut i j)))) in
  fmul (flit (- (1 # 2)))
    match s10 with
    | None => e
    | Some (s10, g10) =>
        fadd e (fmul s10 (fsum n (fun j => fmul (c10v c6 r i j)
                                               (tfac_g g10 c num pos rad cut i j))))
    end.

End E2.

Definition pd2_g c num pos i j : K := fpow (pdist_g c num pos i j) (flit 2).

Section E3.
Context (n c : nat) (num : nat -> Z) (pos : nat -> nat -> K) (c9 : nat -> nat -> nat -> K)
  (rad : nat -> nat -> K) (cut : K) (g9 : K -> K -> K) (s9 : K).

Let d2 := pd2_g c num pos.
Definition r2p_g i j k : K := fmul (fmul (d2 i j) (d2 i k)) (d2 j k).

Definition r3p_g i j k : K :=
  wk (tmask num i j k) (fmul (fsqrt (r2p_g i j k)) (r2p_g i j k)) feps.

Definition r5p_g i j k : K := wk (tmask num i j k) (fmul (r2p_g i j k) (r3p_g i j k)) feps.

Definition r1p_g i j k : K := wk (tmask num i j k) (fsqrt (r2p_g i j k)) (flit 1).
Definition fdp_g i j k : K :=
  wk (tmask num i j k) (g9 (r0p rad i j k) (r1p_g i j k)) (flit 0).

Definition sp_g i j k : K :=
  wk (tmask num i j k)
    (fmul (fmul (fsub (fadd (d2 i j) (d2 j k)) (d2 i k))
               (fadd (fsub (d2 i j) (d2 j k)) (d2 i k)))
         (fadd (fadd (fopp (d2 i j)) (d2 j k)) (d2 i k)))
    (flit 0).

Definition angp_g i j k : K :=
  wk (tmask num i j k && fle (d2 i j) (fmul cut cut) && fle (d2 j k) (fmul cut cut)
     && fle (d2 j k) (fmul cut cut))
  (fadd (fdiv (fmul (flit (375 # 1000)) (sp_g i j k)) (r5p_g i j k))
            (fdiv (flit 1) (r3p_g i j k)))
  (flit 0).

Definition e3_triple_g i j k : K :=
  fmul (fmul (fmul (angp_g i j k) (fdp_g i j k)) s9) (c9 i j k).

Definition e3_atom_g (i : nat) : K :=
  fdiv (fsum n (fun j => fsum n (fun k => e3_triple_g i j k))) (flit 6).

End E3.

Definition zeta_s_g (ga gam qref qmod : K) : K :=
  wk (flt (flit 0) qmod) (fexp (fmul ga (fsub (flit 1) (zscale gam qref qmod)))) (fexp ga).

Definition zsec_g (ga gc : K) (ref : string) (z : Z) (r : nat) : K :=
  let s := t2 refsys z r in
  wk (Z.ltb 0 s)
  (zeta_s_g ga (fmul (t1 (x_gam X) s) gc) (t1 (x_zeff X) s)
                 (fadd (t2 (tab_h ref) z r) (t1 (x_zeff X) s)))
  (flit 0).

Definition aref0_g (ga gc : K) (ref : string) (z : Z) (r w : nat) : K :=
  let s := t2 refsys z r in
  fmul (t2 refascale z r)
    (fsub (dat refalpha [w; r; Z.to_nat z])
          (fmul (t2 refscount z r)
                (fmul (fmul (t2 secscale s 0) (t2 secalpha s w)) (zsec_g ga gc ref z r)))).

Definition aref_g (ga gc : K) (ref : string) (z : Z) (r w : nat) : K :=
  wk (flt (flit 0) (aref0_g ga gc ref z r w)) (aref0_g ga gc ref z r w) (flit 0).

Definition rc6v_g (ga gc : K) (ref : string) (z1 z2 : Z) (x y : nat) : K :=
  fmul thopi (fsum 23 (fun w =>
    fmul (fmul (trap_w w) (aref_g ga gc ref z1 x w)) (aref_g ga gc ref z2 y w))).

Definition pow1_g z cn wf r : db N :=
  wd (Z.eqb 1 (nref z r)) (pow4 (tmp4 (N:=N) z cn r) wf 1) (tmp4 z cn r).
Definition pow3_g z cn wf r : db N :=
  wd (Z.eqb 3 (nref z r)) (pow4 (tmp4 (N:=N) z cn r) wf 3) (pow1_g z cn wf r).
Definition expw4_g z cn wf r : db N := wd (present z r) (pow3_g z cn wf r) (flit 0).
Definition tmp4s_g z cn (wf : K) r : db N :=
  wd (present z r) (fexp (fmul (fmul (fopp (dcnv z cn r)) (dcnv z cn r)) (up wf))) (flit 0).
Definition pow1s_g z cn wf r : db N :=
  wd (Z.eqb 1 (nref z r)) (pow4s (tmp4s_g z cn wf r) 1) (tmp4s_g z cn wf r).
Definition pow3s_g z cn wf r : db N :=
  wd (Z.eqb 3 (nref z r)) (pow4s (tmp4s_g z cn wf r) 3) (pow1s_g z cn wf r).
Definition expw4s_g z cn wf r : db N := wd (present z r) (pow3s_g z cn wf r) (flit 0).

Definition normv_g (z : Z) (e : nat -> db N) (r : nat) : db N :=
  wd (present z r) (fsum 7 e) (flit (1 # 10 ^ 300)).

Definition gwt_g (z : Z) (e : nat -> db N) (r : nat) : K := down (fdiv (e r) (normv_g z e r)).

Definition gwv_g (z : Z) (e : nat -> db N) (r : nat) : K :=
  wk (exceptional fmaxfin (gwt_g z e r))
     (wk (feq (cnref (N:=N) z r) (maxcn z)) (flit 1) (flit 0))
     (gwt_g z e r).

Definition ztv_g (ga gc : K) (ref : string) (z : Z) (q : K) (r : nat) : K :=
  wk (present z r)
  (zeta_s_g ga (fmul (t1 (x_gam X) z) gc) (fadd (t2 (tab_q ref) z r) (t1 (x_zeff X) z))
              (fadd q (t1 (x_zeff X) z)))
  (flit 0).

Definition w4_g ga gc ref wf z cn q r : K :=
  fmul (ztv_g ga gc ref z q r) (gwv_g z (expw4_g z cn wf) r).

Definition w4s_g ga gc ref wf z cn q r : K :=
  fmul (ztv_g ga gc ref z q r) (gwv_g z (expw4s_g z cn wf) r).

Definition c6_of_g (ga gc : K) (ref : string) (zi zj : Z) (wi wj : nat -> K) : K :=
  fsum 7 (fun y => fmul (fsum 7 (fun x =>
    fmul (rc6v_g ga gc ref zi zj x y) (wi x))) (wj y)).

Definition wpol_g (ga gc : K) (ref : string) (z : Z) (wi : nat -> K) (w : nat) : K :=
  fsum 7 (fun x => fmul (wi x) (aref_g ga gc ref z x w)).

Lemma zeta_g_ev (ga : K) mg mr mq sg sr sq s s1 fg fr fq :
  ev mg sg fg -> ev mr sr fr -> ev mq sq fq ->
  bshape sr sq = Some s1 -> bshape sg s1 = Some s -> bshape sq s = Some s ->
  (forall i, valid s i -> bidx sr (bidx s1 i) = bidx sr i) ->
  (forall i, valid s i -> bidx sq (bidx s1 i) = bidx sq i) ->
  ev (zeta_g wk ga mg mr mq) s
     (fun i => zeta_s_g ga (fg (bidx sg i)) (fr (bidx sr i)) (fq (bidx sq i))).
Proof.
  intros Hg Hr Hq E1 E2 E3 C1 C2. unfold zeta_g.
  eapply ev_bind; [exact Hg|]. intros tg Tg.
  eapply ev_bind; [exact Hr|]. intros tr Tr.
  eapply ev_bind; [exact Hq|]. intros tq Tq.
  eapply (ev_bind _ _ [] (fun _ => feps)). { apply ev_scal. } intros te Te.
  eapply (ev_bind _ _ [] (fun _ => ga)). { apply ev_scal. } intros tga Tga.
  eapply (ev_bind _ _ s (fun i => zscale (fg (bidx sg i)) (fr (bidx sr i)) (fq (bidx sq i)))).
  { eapply ev_conv.
    - eapply (ev_lift1 fexp). eapply (ev_lift2 fmul); [ev_go| |exact E2].
      eapply (ev_lift2 fsub); [ev_go| |apply bshape_nil_l].
      eapply (ev_lift2 fdiv); [ev_go| |exact E1].
      eapply (ev_lift2 fsub); [ev_go|ev_go|apply bshape_nil_r].
    - intros i Hi. cbv beta. unfold zscale.
      assert (V1 : valid s1 (bidx s1 i)).
      { rewrite bshape_comm in E2. eapply bidx_ok; eauto. }
      rewrite !(bidx_valid s1 (bidx s1 i) V1).
      rewrite C1, C2 by auto. rewrite (bidx_valid sq (bidx sq i)); auto.
      eapply bidx_ok; eauto. }
  intros tsc Tsc.
  assert (E4 : bshape s s = Some s) by apply bshape_refl.
  eapply ev_conv.
  - eapply ev_gwhere; [eapply (ev_lift2 flt); [ev_go|ev_go|apply bshape_nil_l] | |
      eapply (ev_lift1 fexp); ev_go | exact E3 | apply bshape_nil_r].
    eapply (ev_lift1 fexp). eapply (ev_lift2 fmul); [ev_go| |apply bshape_nil_l].
    eapply (ev_lift2 fsub); [ev_go|ev_go|apply bshape_nil_l].
  - intros i Hi. cbv beta. unfold zeta_s_g.
    repeat rewrite (bidx_valid s i Hi).
    rewrite (bidx_valid sq (bidx sq i)); auto. eapply bidx_ok; eauto.
Qed.

Lemma get_alpha_g_ev numbers s ga gc ref :
  ext_tables X -> ref_known ref = true -> shp numbers = s -> in_range (ref_limit ref) numbers ->
  ev (get_alpha_g X wk numbers ga gc ref) (23 :: 7 :: s)
     (ix2 (fun w r i => aref_g ga gc ref (dat numbers i) r w)).
Proof.
  intros (nz & ng & nv & Ez & Eg & _ & Lz & Lg & _) Hk Hs Hr.
  assert (Hr104 : forall i, valid s i -> (0 <= dat numbers i < Z.of_nat 104)%Z).
  { intros i Hi. rewrite <- Hs in Hi. apply Hr in Hi. pose proof (ref_limit_le ref). lia. }
  pose proof (ten_eq numbers s Hs) as Tn.
  unfold get_alpha_g.
  eapply ev_bind; [eapply gather2'; [reflexivity|exact Tn|exact Hr104]|]. intros rs Trs.
  eapply ev_bind; [eapply gather2'; [reflexivity|exact Tn|exact Hr104]|]. intros ra Tra.
  eapply ev_bind; [eapply gather3'; [reflexivity|exact Tn|exact Hr104]|]. intros al Tal.
  eapply ev_bind; [eapply gather2'; [reflexivity|exact Tn|exact Hr104]|]. intros rc Trc.
  eapply ev_bind; [eapply gather_refh; eauto|]. intros rh Trh.
  assert (Hs18 : forall i, valid (7 :: s) i ->
            (0 <= ix1 (fun r i => t2 refsys (dat numbers i) r) i < 18)%Z).
  { intros i Hi. vdes. unfold ix1, t2. simpl. apply refsys_bound; auto.
    match goal with H : valid s ?i |- _ => specialize (Hr104 i H) end. lia. }
  eapply (ev_bind _ _ (7 :: s)
           (ix1 (fun r i => Z.ltb 0 (t2 refsys (dat numbers i) r)))).
  { ev_to. reflexivity. } intros mk Tmk.
  eapply (ev_bind _ _ (7 :: s)
            (fun i => t1 (x_zeff X) (ix1 (fun r i => t2 refsys (dat numbers i) r) i))).
  { eapply gather1'; eauto. intros i Hi. specialize (Hs18 i Hi). lia. } intros zf Tzf.
  eapply (ev_bind _ _ (7 :: s)
            (fun i => fmul (t1 (x_gam X) (ix1 (fun r i => t2 refsys (dat numbers i) r) i)) gc)).
  { eapply ev_conv.
    - eapply (ev_lift2 fmul); [eapply gather1'; [exact Eg|exact Trs|]|ev_go|bshape_solve].
      intros i Hi. specialize (Hs18 i Hi). lia.
    - vsimp. reflexivity. } intros gm Tgm.
  eapply (ev_bind _ _ (7 :: s) (ix1 (fun r i => zsec_g ga gc ref (dat numbers i) r))).
  { eapply ev_conv.
    - eapply (ev_gwhere _ _ _ _ _ (7 :: s)); [ev_go| |ev_go|bshape_solve|bshape_solve].
      eapply zeta_g_ev; [ev_go|ev_go|ev_go|bshape_solve|bshape_solve|bshape_solve|..].
      + intros i Hi. now repeat rewrite (bidx_valid _ i Hi).
      + intros i Hi. now repeat rewrite (bidx_valid _ i Hi).
    - vsimp. reflexivity. } intros zt Tzt.
  assert (Ess : ev (gather (@secscale K) rs) (1 :: 7 :: s)
     (ix2 (fun w r i => t2 secscale (t2 refsys (dat numbers i) r) w))).
  { eapply ev_conv; [eapply gather2'; [reflexivity|exact Trs|]|].
    - intros i Hi. specialize (Hs18 i Hi). lia.
    - vsimp. reflexivity. }
  assert (Esa : ev (gather (@secalpha K) rs) (23 :: 7 :: s)
     (ix2 (fun w r i => t2 secalpha (t2 refsys (dat numbers i) r) w))).
  { eapply ev_conv; [eapply gather2'; [reflexivity|exact Trs|]|].
    - intros i Hi. specialize (Hs18 i Hi). lia.
    - vsimp. reflexivity. }
  eapply (ev_bind _ _ (23 :: 7 :: s)
           (ix2 (fun w r i => let sy := t2 refsys (dat numbers i) r in
                  fmul (fmul (t2 secscale sy 0) (t2 secalpha sy w))
                       (zsec_g ga gc ref (dat numbers i) r)))).
  { ev_to. reflexivity. } intros aw Taw.
  eapply (ev_bind _ _ (23 :: 7 :: s)
           (ix2 (fun w r i => let sy := t2 refsys (dat numbers i) r in
                  fsub (dat refalpha [w; r; Z.to_nat (dat numbers i)])
                       (fmul (t2 refscount (dat numbers i) r)
                  (fmul (fmul (t2 secscale sy 0) (t2 secalpha sy w))
                       (zsec_g ga gc ref (dat numbers i) r)))))).
  { ev_to. reflexivity. } intros h Th.
  eapply (ev_bind _ _ (23 :: 7 :: s)
           (ix2 (fun w r i => aref0_g ga gc ref (dat numbers i) r w))).
  { ev_to. reflexivity. } intros a Ta.
  ev_to. reflexivity.
Qed.

Lemma get_refc6_g_ev numbers n B ga gc ref :
  ext_tables X -> ref_known ref = true -> shp numbers = n :: B ->
  in_range (ref_limit ref) numbers ->
  ev (get_refc6_g X wk numbers ga gc ref) (7 :: 7 :: n :: n :: B)
     (ix4 (fun y x j i b => rc6v_g ga gc ref (sl1 numbers b i) (sl1 numbers b j) x y)).
Proof.
  intros. unfold get_refc6_g. eapply ev_bind; [eapply get_alpha_g_ev; eauto|].
  intros al Tal. eapply ev_conv; [eapply trapzd_ev; exact Tal|].
  vsimp. reflexivity.
Qed.

Lemma wnorm_g_ev mask (expw : tensor (db N)) s fm fe :
  ten mask (7 :: s) fm -> ten expw (7 :: s) fe ->
  ev (wnorm_g wd mask expw) (7 :: s)
     (ix1 (fun r i => wd (fm (r :: i)) (fsum 7 (fun x => fe (x :: i))) (flit (1 # 10 ^ 300)))).
Proof.
  intros Hm He. unfold wnorm_g. ev_to. reflexivity.
Qed.

Lemma wrescue_g_ev (refcn : tensor (db N)) (gw : tensor K) s fc fg :
  ten refcn (7 :: s) fc -> ten gw (7 :: s) fg ->
  ev (wrescue_g wk refcn gw) (7 :: s)
     (ix1 (fun r i => wk (exceptional fmaxfin (fg (r :: i)))
                      (wk (feq (fc (r :: i)) (fmaxn 7 (fun x => fc (x :: i)))) (flit 1) (flit 0))
                      (fg (r :: i)))).
Proof.
  intros Hc Hg. unfold wrescue_g.
  eapply (ev_bind _ _ (1 :: s) (ix1 (fun _ i => fmaxn 7 (fun x => fc (x :: i))))).
  { eapply ev_conv; [eapply ev_max1k; [ev_go|lia]|]. vsimp. reflexivity. }
  intros mx Tmx. unfold is_exceptional. ev_to. reflexivity.
Qed.

Lemma d4_weights_run_g numbers s ga gc wf wfv ref cn q :
  ext_tables X -> ref_known ref = true -> shp numbers = s ->
  in_range (ref_limit ref) numbers -> ten wf [] (fun _ => wfv) ->
  cnq_ok cn s -> cnq_ok q s ->
  let z i := dat numbers i in
  runs (d4_weight_references_g X wk wd numbers ga gc wf ref cn q false false)
    (fun l => tens l
       [(7 :: s, ix1 (fun r i => w4_g ga gc ref wfv (z i) (cnq cn i) (cnq q i) r))]).
Proof.
  intros (nz & ng & nv & Ez & Eg & _ & Lz & Lg & _) Hk Hs Hr Hwf Hcn Hq z.
  assert (Hr104 : forall i, valid s i -> (0 <= dat numbers i < Z.of_nat 104)%Z).
  { intros i Hi. rewrite <- Hs in Hi. apply Hr in Hi. pose proof (ref_limit_le ref). lia. }
  pose proof (ten_eq numbers s Hs) as Tn.
  pose proof (cnq_ten cn numbers s Hcn Hs) as Tcn.
  pose proof (cnq_ten q numbers s Hq Hs) as Tq.
  unfold d4_weight_references_g. cbv zeta.
  eapply runs_ev_bind; [eapply gather_refq; eauto|]. intros rq Trq.
  eapply runs_ev_bind; [eapply gather2'; [reflexivity|exact Tn|exact Hr104]|]. intros rc Trc.
  eapply (runs_ev_bind _ _ (7 :: s) (ix1 (fun r i => present (z i) r))).
  { ev_to. reflexivity. } intros mk Tmk.
  eapply runs_ev_bind; [eapply gather2'; [reflexivity|exact Tn|exact Hr104]|]. intros rcn Trcn.
  eapply (runs_ev_bind _ _ (7 :: s) (ix1 (fun r i => dcnv (N:=N) (z i) (cnq cn i) r))).
  { ev_to. reflexivity. } intros dc Tdc.
  eapply (runs_ev_bind _ _ (7 :: s) (ix1 (fun r i => tmp4 (N:=N) (z i) (cnq cn i) r))).
  { ev_to. reflexivity. } intros tm Ttm.
  assert (P1 := refc_pow_ev tm wf 1 _ _ _ Ttm Hwf ltac:(lia)).
  assert (P3 := refc_pow_ev tm wf 3 _ _ _ Ttm Hwf ltac:(lia)).
  eapply (runs_ev_bind _ _ (7 :: s) (ix1 (fun r i => pow1_g (z i) (cnq cn i) wfv r))).
  { ev_to. reflexivity. } intros p1 Tp1.
  eapply (runs_ev_bind _ _ (7 :: s) (ix1 (fun r i => pow3_g (z i) (cnq cn i) wfv r))).
  { ev_to. reflexivity. } intros p3 Tp3.
  eapply (runs_ev_bind _ _ (7 :: s) (ix1 (fun r i => expw4_g (z i) (cnq cn i) wfv r))).
  { ev_to. reflexivity. } intros ew Tew.
  eapply (runs_ev_bind _ _ (7 :: s)
            (ix1 (fun r i => normv_g (z i) (expw4_g (z i) (cnq cn i) wfv) r))).
  { eapply ev_conv; [eapply wnorm_g_ev; eauto|]. vsimp. reflexivity. } intros nm Tnm.
  eapply (runs_ev_bind _ _ (7 :: s)
            (ix1 (fun r i => gwt_g (z i) (expw4_g (z i) (cnq cn i) wfv) r))).
  { ev_to. reflexivity. } intros gt Tgt.
  eapply (runs_ev_bind _ _ (7 :: s)
            (ix1 (fun r i => gwv_g (z i) (expw4_g (z i) (cnq cn i) wfv) r))).
  { eapply ev_conv; [eapply wrescue_g_ev; eauto|]. vsimp. reflexivity. } intros gw Tgw.
  assert (Ezf : ev (gather (x_zeff X) numbers) s (fun i => t1 (x_zeff X) (z i))).
  { eapply gather1'; [eassumption|exact Tn|]. intros i Hi. specialize (Hr104 i Hi). unfold z in *. lia. }
  assert (Egm : ev (gather (x_gam X) numbers) s (fun i => t1 (x_gam X) (z i))).
  { eapply gather1'; [eassumption|exact Tn|]. intros i Hi. specialize (Hr104 i Hi). unfold z in *. lia. }
  eapply (runs_ev_bind _ _ (1 :: s) (ix1 (fun _ i => t1 (x_zeff X) (z i)))).
  { ev_to. reflexivity. } intros zf Tzf.
  eapply (runs_ev_bind _ _ (1 :: s) (ix1 (fun _ i => fmul (t1 (x_gam X) (z i)) gc))).
  { ev_to. reflexivity. } intros gm Tgm.
  eapply (runs_ev_bind _ _ (1 :: s) (ix1 (fun _ i => cnq q i))).
  { ev_to. reflexivity. } intros qq Tqq.
  assert (B1 : bshape (7 :: s) (1 :: s) = Some (7 :: s)) by bshape_solve.
  assert (B2 : bshape (1 :: s) (7 :: s) = Some (7 :: s)) by bshape_solve.
  assert (B3 : bshape (7 :: s) (7 :: s) = Some (7 :: s)) by bshape_solve.
  eapply (runs_ev_bind _ _ (7 :: s) (ix1 (fun r i => ztv_g ga gc ref (z i) (cnq q i) r))).
  { eapply ev_conv.
    - eapply (ev_gwhere _ _ _ _ _ (7 :: s)); [ev_go| |ev_go|bshape_solve|bshape_solve].
      eapply zeta_g_ev; [ev_go|ev_go|ev_go|exact B1|exact B2|exact B2|..].
      + intros i Hi. now repeat rewrite (bidx_valid _ i Hi).
      + intros i Hi. now repeat rewrite (bidx_valid _ i Hi).
    - vsimp. reflexivity. } intros zt Tzt.
  eapply (runs_ev_bind _ _ (7 :: s)
     (ix1 (fun r i => w4_g ga gc ref wfv (z i) (cnq cn i) (cnq q i) r))).
  { ev_to. reflexivity. } intros o0 To0.
  cbn [bind app]. apply runs_ok. constructor; [exact To0|constructor].
Qed.

Lemma d4s_weights_run_g numbers n B ga gc wf wfv ref cn q :
  ext_tables X -> ref_known ref = true -> shp numbers = n :: B ->
  in_range (ref_limit ref) numbers -> ten wf (n :: n :: B) wfv ->
  cnq_ok cn (n :: B) -> cnq_ok q (n :: B) ->
  let z i := dat numbers i in
  runs (d4s_weight_references_g X wk wd numbers ga gc wf ref cn q false false)
    (fun l => tens l
       ((7 :: n :: n :: B,
         ix3 (fun r i j b => w4s_g ga gc ref (wfv (j :: i :: b)) (z (i :: b)) (cnq cn (i :: b))
                                 (cnq q (i :: b)) r)) :: [])).
Proof.
  intros (nz & ng & nv & Ez & Eg & _ & Lz & Lg & _) Hk Hs Hr Hwf Hcn Hq z.
  assert (Hr104 : forall i, valid (n :: B) i -> (0 <= dat numbers i < Z.of_nat 104)%Z).
  { intros i Hi. rewrite <- Hs in Hi. apply Hr in Hi. pose proof (ref_limit_le ref). lia. }
  pose proof (ten_eq numbers _ Hs) as Tn.
  pose proof (cnq_ten cn numbers _ Hcn Hs) as Tcn.
  pose proof (cnq_ten q numbers _ Hq Hs) as Tq.
  unfold d4s_weight_references_g. cbv zeta.
  eapply runs_ev_bind; [eapply gather_refq; eauto|]. intros rq Trq.
  eapply runs_ev_bind; [eapply gather2'; [reflexivity|exact Tn|exact Hr104]|]. intros rc0 Trc0.
  rewrite (proj1 Trc0). cbn [bind].
  set (xs := 7 :: n :: n :: B).
  assert (XE : xs = 7 :: n :: n :: B) by reflexivity. clearbody xs.
  assert (BX : bshape (7 :: n :: 1 :: B) xs = Some xs) by (rewrite XE; bshape_solve).
  eapply (runs_ev_bind _ _ xs (ix3 (fun r i j b => nref (z (i :: b)) r))).
  { eapply ev_conv; [eapply ev_expand; [eapply ev_unsq3; ev_go|exact BX]|].
    rewrite XE. vsimp. reflexivity. } rewrite XE. intros rc Trc.
  eapply (runs_ev_bind _ _ (7 :: n :: n :: B) (ix3 (fun r i j b => present (z (i :: b)) r))).
  { ev_to. reflexivity. } intros mk Tmk.
  eapply runs_ev_bind; [eapply gather2'; [reflexivity|exact Tn|exact Hr104]|]. intros rcn0 Trcn0.
  rewrite XE in BX.
  eapply (runs_ev_bind _ _ (7 :: n :: n :: B) (ix3 (fun r i j b => cnref (N:=N) (z (i :: b)) r))).
  { eapply ev_conv; [eapply ev_expand; [eapply ev_unsq3; ev_go|exact BX]|].
    vsimp. reflexivity. } intros rcn Trcn.
  eapply (runs_ev_bind _ _ (7 :: n :: n :: B)
      (ix3 (fun r i j b => dcnv (N:=N) (z (i :: b)) (cnq cn (i :: b)) r))).
  { ev_to. reflexivity. } intros dc Tdc.
  eapply (runs_ev_bind _ _ (7 :: n :: n :: B)
      (ix3 (fun r i j b => fopp (dcnv (N:=N) (z (i :: b)) (cnq cn (i :: b)) r)))).
  { ev_to. reflexivity. } intros ndc Tndc.
  eapply runs_ev_bind; [eapply ein_gauss_db; eauto|]. intros ar Tar.
  eapply (runs_ev_bind _ _ (7 :: n :: n :: B)
      (ix3 (fun r i j b => tmp4s_g (z (i :: b)) (cnq cn (i :: b)) (wfv (j :: i :: b)) r))).
  { ev_to. reflexivity. } intros tm Ttm.
  assert (P1 := d4s_pow_ev tm 1 _ _ Ttm ltac:(lia)).
  assert (P3 := d4s_pow_ev tm 3 _ _ Ttm ltac:(lia)).
  eapply (runs_ev_bind _ _ (7 :: n :: n :: B)
    (ix3 (fun r i j b => pow1s_g (z (i :: b)) (cnq cn (i :: b)) (wfv (j :: i :: b)) r))).
  { ev_to. reflexivity. } intros p1 Tp1.
  eapply (runs_ev_bind _ _ (7 :: n :: n :: B)
    (ix3 (fun r i j b => pow3s_g (z (i :: b)) (cnq cn (i :: b)) (wfv (j :: i :: b)) r))).
  { ev_to. reflexivity. } intros p3 Tp3.
  eapply (runs_ev_bind _ _ (7 :: n :: n :: B)
    (ix3 (fun r i j b => expw4s_g (z (i :: b)) (cnq cn (i :: b)) (wfv (j :: i :: b)) r))).
  { ev_to. reflexivity. } intros ew Tew.
  eapply (runs_ev_bind _ _ (7 :: n :: n :: B)
            (ix3 (fun r i j b => normv_g (z (i :: b))
               (expw4s_g (z (i :: b)) (cnq cn (i :: b)) (wfv (j :: i :: b))) r))).
  { eapply ev_conv; [eapply wnorm_g_ev; eauto|]. vsimp. reflexivity. } intros nm Tnm.
  eapply (runs_ev_bind _ _ (7 :: n :: n :: B)
            (ix3 (fun r i j b => gwt_g (z (i :: b))
               (expw4s_g (z (i :: b)) (cnq cn (i :: b)) (wfv (j :: i :: b))) r))).
  { ev_to. reflexivity. } intros gt Tgt.
  eapply (runs_ev_bind _ _ (7 :: n :: n :: B)
            (ix3 (fun r i j b => gwv_g (z (i :: b))
               (expw4s_g (z (i :: b)) (cnq cn (i :: b)) (wfv (j :: i :: b))) r))).
  { eapply ev_conv; [eapply wrescue_g_ev; eauto|]. vsimp. reflexivity. } intros gw Tgw.
  assert (Ezf : ev (gather (x_zeff X) numbers) (n :: B) (fun i => t1 (x_zeff X) (z i))).
  { eapply gather1'; [eassumption|exact Tn|]. intros i Hi. specialize (Hr104 i Hi). unfold z in *. lia. }
  assert (Egm : ev (gather (x_gam X) numbers) (n :: B) (fun i => t1 (x_gam X) (z i))).
  { eapply gather1'; [eassumption|exact Tn|]. intros i Hi. specialize (Hr104 i Hi). unfold z in *. lia. }
  eapply (runs_ev_bind _ _ (1 :: n :: B) (ix1 (fun _ i => t1 (x_zeff X) (z i)))).
  { ev_to. reflexivity. } intros zf Tzf.
  eapply (runs_ev_bind _ _ (1 :: n :: B) (ix1 (fun _ i => fmul (t1 (x_gam X) (z i)) gc))).
  { ev_to. reflexivity. } intros gm Tgm.
  eapply (runs_ev_bind _ _ (1 :: n :: B) (ix1 (fun _ i => cnq q i))).
  { ev_to. reflexivity. } intros qq Tqq.
  assert (B1 : bshape (7 :: n :: B) (1 :: n :: B) = Some (7 :: n :: B)) by bshape_solve.
  assert (B2 : bshape (1 :: n :: B) (7 :: n :: B) = Some (7 :: n :: B)) by bshape_solve.
  assert (B3 : bshape (7 :: n :: B) (7 :: n :: B) = Some (7 :: n :: B)) by bshape_solve.
  eapply (runs_ev_bind _ _ (7 :: n :: B) (ix1 (fun r i =>
     zeta_s_g ga (fmul (t1 (x_gam X) (z i)) gc)
        (fadd (t2 (tab_q ref) (z i) r) (t1 (x_zeff X) (z i)))
        (fadd (cnq q i) (t1 (x_zeff X) (z i)))))).
  { eapply ev_conv.
    - eapply zeta_g_ev; [ev_go|ev_go|ev_go|exact B1|exact B2|exact B2|..].
      + intros i Hi. now repeat rewrite (bidx_valid _ i Hi).
      + intros i Hi. now repeat rewrite (bidx_valid _ i Hi).
    - vsimp. reflexivity. } intros zt0 Tzt0.
  eapply (runs_ev_bind _ _ (7 :: n :: n :: B)
     (ix3 (fun r i j b => ztv_g ga gc ref (z (i :: b)) (cnq q (i :: b)) r))).
  { ev_to. reflexivity. } intros zt Tzt.
  eapply (runs_ev_bind _ _ (7 :: n :: n :: B)
     (ix3 (fun r i j b => w4s_g ga gc ref (wfv (j :: i :: b)) (z (i :: b)) (cnq cn (i :: b))
                                 (cnq q (i :: b)) r))).
  { ev_to. reflexivity. } intros o0 To0.
  apply runs_ok. constructor; [exact To0|constructor].
Qed.

Definition model_ok_g (m : Model N) (n : nat) (B : list nat) : Prop :=
  ext_tables X /\ ref_known (m_ref m) = true /\ shp (m_numbers m) = n :: B /\
  in_range (ref_limit (m_ref m)) (m_numbers m) /\
  ten (m_rc6 m) (7 :: 7 :: n :: n :: B)
    (ix4 (fun y x j i b => rc6v_g (m_ga m) (m_gc m) (m_ref m)
                             (sl1 (m_numbers m) b i) (sl1 (m_numbers m) b j) x y)) /\
  match m_kind m, m_wf m with
  | D4M, Some wf => shp wf = []
  | (D4SM | D4SDebugM), Some wf => shp wf = n :: n :: B
  | _, _ => False
  end.

Definition wt_of_g (m : Model N) (cn q : option (tensor K)) (b : list nat) (i j r : nat) : K :=
  let z := sl1 (m_numbers m) b i in
  let cn := cnq cn (i :: b) in let q := cnq q (i :: b) in
  if is_d4s m then w4s_g (m_ga m) (m_gc m) (m_ref m) (wf_of m b i j) z cn q r
  else w4_g (m_ga m) (m_gc m) (m_ref m) (wf_of m b i j) z cn q r.

Lemma weight_references_g_ev m n B cn q :
  model_ok_g m n B -> cnq_ok cn (n :: B) -> cnq_ok q (n :: B) ->
  ev (weight_references_g X wk wd m cn q)
     (if is_d4s m then 7 :: n :: n :: B else 7 :: n :: B)
     (if is_d4s m then ix3 (fun r i j b => wt_of_g m cn q b i j r)
      else ix2 (fun r i b => wt_of_g m cn q b i i r)).
Proof.
  intros (HX & Hk & Hs & Hr & _ & Hwf) Hcn Hq.
  unfold weight_references_g, weight_references_gen_g, wt_of_g, wf_of, is_d4s.
  destruct (m_kind m) eqn:EK; destruct (m_wf m) as [wf|] eqn:EW; try contradiction.
  - destruct (d4_weights_run_g (m_numbers m) (n :: B) (m_ga m) (m_gc m) wf (dat wf []) (m_ref m)
                cn q) as (l & -> & Hl); auto.
    { split; auto. intros [|? ?] Hi; [reflexivity|destruct Hi]. }
    simpl in Hl. inversion Hl as [|w ? l' ? Hw Hl']; subst. inversion Hl'; subst.
    simpl. apply ev_t. simpl in Hw. eapply ten_conv; [exact Hw|]. vsimp. reflexivity.
  - destruct (d4s_weights_run_g (m_numbers m) n B (m_ga m) (m_gc m) wf (dat wf) (m_ref m)
                cn q) as (l & -> & Hl); auto.
    { split; auto. }
    simpl in Hl. inversion Hl as [|w ? l' ? Hw Hl']; subst. inversion Hl'; subst.
    simpl. apply ev_t. simpl in Hw. eapply ten_conv; [exact Hw|]. vsimp. reflexivity.
  - destruct (d4s_weights_run_g (m_numbers m) n B (m_ga m) (m_gc m) wf (dat wf) (m_ref m)
                cn q) as (l & -> & Hl); auto.
    { split; auto. }
    simpl in Hl. inversion Hl as [|w ? l' ? Hw Hl']; subst. inversion Hl'; subst.
    simpl. apply ev_t. simpl in Hw. eapply ten_conv; [exact Hw|]. vsimp. reflexivity.
Qed.

Definition c6m_g (m : Model N) (cn q : option (tensor K)) (b : list nat) (i j : nat) : K :=
  c6_of_g (m_ga m) (m_gc m) (m_ref m) (sl1 (m_numbers m) b i) (sl1 (m_numbers m) b j)
        (wt_of_g m cn q b i j) (wt_of_g m cn q b j i).

Lemma wt_of_d4_g m cn q b i j j' r : is_d4s m = false -> wt_of_g m cn q b i j r = wt_of_g m cn q b i j' r.
Proof. intros E. unfold wt_of_g, wf_of. now rewrite E. Qed.

Lemma get_atomic_c6_g_ev m n B cn q gw :
  model_ok_g m n B ->
  ten gw (if is_d4s m then 7 :: n :: n :: B else 7 :: n :: B)
     (if is_d4s m then ix3 (fun r i j b => wt_of_g m cn q b i j r)
      else ix2 (fun r i b => wt_of_g m cn q b i i r)) ->
  ev (get_atomic_c6 m gw) (n :: n :: B) (ix2 (fun j i b => c6m_g m cn q b i j)).
Proof.
  intros (HX & Hk & Hs & Hr & Hrc & Hwf) Hg. unfold get_atomic_c6, c6m_g, c6_of_g.
  unfold is_d4s in *.
  destruct (m_kind m) eqn:EK; destruct (m_wf m) as [wf|] eqn:EW; try contradiction.
  - eapply ev_conv; [eapply ein_c6_d4; eauto|]. vsimp.
    unfold ix4, ix2. cbn [hd tl]. apply fsum_ext. intros. f_equal; [apply fsum_ext; intros; f_equal|];
    apply wt_of_d4_g; unfold is_d4s; now rewrite EK.
  - eapply ev_conv; [eapply ein_c6_d4s; eauto|]. vsimp.
    reflexivity.
  - eapply ev_conv; [eapply ein_c6_d4s; eauto|]. vsimp.
    reflexivity.
Qed.

Definition wpm_g (m : Model N) (cn q : option (tensor K)) (n : nat) (b : list nat) (w i : nat) : K :=
  wpol_g (m_ga m) (m_gc m) (m_ref m) (sl1 (m_numbers m) b i) (wt_of_g m cn q b i i) w.

Lemma get_weighted_pols_d4_g_ev m n B cn q gw :
  model_ok_g m n B -> m_kind m = D4M ->
  ten gw (7 :: n :: B) (ix2 (fun r i b => wt_of_g m cn q b i i r)) ->
  ev (get_weighted_pols_g X wk m gw) (23 :: n :: B) (ix2 (fun w i b => wpm_g m cn q n b w i)).
Proof.
  intros (HX & Hk & Hs & Hr & Hrc & Hwf) EK Hg. unfold get_weighted_pols_g, wpm_g, wpol_g.
  rewrite EK. unfold model_alpha_g.
  eapply ev_bind; [eapply get_alpha_g_ev; eauto|]. intros al Tal.
  eapply ev_conv; [eapply ein_wpol; eauto|]. vsimp. apply fsum_ext. intros. reflexivity.
Qed.

Section Two.
Context (numbers : tensor Z) (positions : tensor K) (param : Param K) (c6 r4r2 : tensor K)
  (rvdw : option (tensor K)) (d : Damping K) (cutoff : option (tensor K)).
Context (n c : nat) (B : list nat) (g6 g8 : K -> K -> K) (s6 s8 cut : K)
  (s10 : option (K * (K -> K -> K))).
Context (Hn : shp numbers = n :: B).
Context (Hp : shp positions = c :: n :: B).
Context (Hc : shp c6 = n :: n :: B).
Context (Hr : shp r4r2 = n :: B).
Context (Hrad : radius_ok d rvdw (n :: n :: B)).
Context (Hg6 : elementwise d param 6 false g6).
Context (Hg8 : elementwise d param 8 false g8).
Context (Hs6 : isnum (pget param "s6" dS6) s6).
Context (Hs8 : isnum (pget param "s8" dS8) s8).
Context (Hcut : ten (default cutoff (scal (flit D4_DISP2_CUTOFF))) [] (fun _ => cut)).
Context (Hs10 : match s10 with
                  | None => dget param "s10" = None
                  | Some (x, g10) => (exists p, dget param "s10" = Some p /\ isnum p x)
                                     /\ elementwise d param 10 false g10
                  end).

Let numb b := sl1 numbers b.
Let posb b := sl2 positions b.
Let rb b := sl1 r4r2 b.
Let c6b b := sl2 c6 b.
Let radb b := rad_of d (rb b) (rvdat rvdw b).


Lemma tfac_g_ev g order mask distances radii :
  elementwise d param order false g ->
  ten mask (n :: n :: B) (ix2 (fun j i b => pmask (numb b) i j)) ->
  ten distances (n :: n :: B) (ix2 (fun j i b => pdist_g c (numb b) (posb b) i j)) ->
  ten radii (n :: n :: B) (ix2 (fun j i b => radb b i j)) ->
  ev (gwhere wk (tand mask (tle distances (default cutoff (scal (flit D4_DISP2_CUTOFF)))))
             (damping_call d distances radii order false param) (tlit 0))
     (n :: n :: B) (ix2 (fun j i b => tfac_g g c (numb b) (posb b) (radb b) cut i j)).
Proof.
  intros Hg H1 H2 H3.
  eapply ev_conv.
  - eapply ev_gwhere; [ev_go | eapply elementwise_ev; eauto | ev_go | bshape_solve | bshape_solve].
  - vsimp. reflexivity.
Qed.

Lemma dispersion2_g_ev :
  ev (dispersion2_g X wk numbers positions param c6 r4r2 rvdw d cutoff false)
     (n :: B)
     (ix1 (fun i b => e2_atom_g n c (numb b) (posb b) (c6b b) (radb b) (rb b) cut
                                   g6 g8 s6 s8 s10 i)).
Proof.
  apply ten_eq in Hc as Tc. apply ten_eq in Hr as Tr.
  apply isnum_ev in Hs6 as E6. apply isnum_ev in Hs8 as E8.
  unfold dispersion2_g.
  eapply ev_bind; [apply ev_real_pairs; eauto|]. intros mask Hm.
  eapply (ev_bind _ _ (n :: n :: B) (ix2 (fun j i b => pdist_g c (numb b) (posb b) i j))).
  { eapply ev_conv.
    - eapply ev_gwhere; [ev_go | eapply ev_cdist; eauto | ev_go | bshape_solve | bshape_solve].
    - vsimp. reflexivity. }
  intros distances Hd.
  eapply (ev_bind _ _ (n :: n :: B) (ix2 (fun j i b => qq (rb b) i j))).
  { ev_to. reflexivity. }
  intros q Hq.
  eapply (ev_bind _ _ (n :: n :: B) (ix2 (fun j i b => c8v (c6b b) (rb b) i j))).
  { ev_to. reflexivity. }
  intros c8 Hc8.
  eapply (ev_bind _ _ (n :: n :: B) (ix2 (fun j i b => radb b i j))).
  { unfold radb, rad_of. destruct Hrad as [Er | (Er & v & -> & Hv)]; rewrite Er; simpl.
    - apply ev_t. exact Hq.
    - apply ev_t. split; auto. intros i Hi. vdes. reflexivity. }
  intros radii HR.
  eapply ev_bind; [eapply tfac_g_ev; eauto|]. intros t6 Ht6.
  eapply ev_bind; [eapply tfac_g_ev; eauto|]. intros t8 Ht8.
  eapply (ev_bind _ _ (n :: B)). { ev_go. } intros e6 He6.
    eapply (ev_bind _ _ (n :: B)). { ev_go. } intros e8 He8.
    eapply (ev_bind _ _ (n :: B)
              (ix1 (fun i b =>
                 fadd (fmul s6 (fsum n (fun j => fmul (c6b b i j)
                                  (tfac_g g6 c (numb b) (posb b) (radb b) cut i j))))
                      (fmul s8 (fsum n (fun j => fmul (c8v (c6b b) (rb b) i j)
                                     (tfac_g g8 c (numb b) (posb b) (radb b) cut i j))))))).
    { ev_to. f_equal; f_equal; apply fsum_ext; intros; bsimp; reflexivity. }
    intros ed Hed.
    eapply (ev_bind _ _ (n :: B)
      (ix1 (fun i b =>
         let e := fadd (fmul s6 (fsum n (fun j => fmul (c6b b i j)
                                  (tfac_g g6 c (numb b) (posb b) (radb b) cut i j))))
                      (fmul s8 (fsum n (fun j => fmul (c8v (c6b b) (rb b) i j)
                                     (tfac_g g8 c (numb b) (posb b) (radb b) cut i j)))) in
         match s10 with
         | None => e
         | Some (x, g10) =>
            fadd e (fmul x (fsum n (fun j => fmul (c10v (c6b b) (rb b) i j)
                                     (tfac_g g10 c (numb b) (posb b) (radb b) cut i j))))
         end))).
    { destruct s10 as [[x g10]|].
      - destruct Hs10 as ((p & -> & Hx) & Hg10). apply isnum_ev in Hx.
        eapply (ev_bind _ _ (n :: n :: B) (ix2 (fun j i b => c10v (c6b b) (rb b) i j))).
        { ev_to. reflexivity. }
        intros c10 Hc10.
        eapply ev_bind; [eapply tfac_g_ev; eauto|]. intros t10 Ht10.
        eapply (ev_bind _ _ (n :: B)). { ev_go. } intros e10 He10.
        unfold iadd. change (bind (t2r ed) ?k) with (k ed). cbv beta.
        eapply (ev_bind _ _ (n :: B)). { ev_go. }
        intros r Hr'. destruct Hr' as [Hr1 Hr2]. destruct Hed as [Hed1 _].
        rewrite Hr1, Hed1, shape_eqb_refl. apply ev_t. split; auto.
        intros i Hi. rewrite Hr2 by auto. revert i Hi. vsimp.
        f_equal. f_equal. apply fsum_ext; intros; bsimp. reflexivity.
      - rewrite Hs10. apply ev_t. exact Hed. }
    intros ed2 Hed2. ev_to. unfold e2_atom_g. reflexivity.
Qed.

End Two.

Section Three.
Context (numbers : tensor Z) (positions c9 radii cutoff : tensor K) (d : Damping K)
  (s9p alpp : pval K).
Context (n c : nat) (B : list nat) (g9 : K -> K -> K) (s9 alp cut : K).
Context (Hn : shp numbers = n :: B).
Context (Hp : shp positions = c :: n :: B).
Context (Hc : shp c9 = n :: n :: n :: B).
Context (Hr : shp radii = n :: n :: B).
Context (Hs9 : isnum s9p s9).
Context (Halp : isnum alpp alp).
Context (Hcut : ten cutoff [] (fun _ => cut)).
Context (Hg9 : forall t, shp t = [] -> dat t [] = fdiv alp (flit 3) ->
  elementwise d [("alp"%string, PT t)] 9 true g9).

Let numb b := sl1 numbers b.
Let posb b := sl2 positions b.
Let radb b := sl2 radii b.
Let d2 b := pd2_g c (numb b) (posb b).


Lemma get_atm_dispersion_g_ev :
  ev (get_atm_dispersion_g X wk numbers positions c9 radii cutoff d s9p alpp)
     (n :: B)
     (ix1 (fun i b => e3_atom_g n c (numb b) (posb b) (sl3 c9 b) (radb b) cut g9 s9 i)).
Proof.
  apply ten_eq in Hc as Tc. apply ten_eq in Hr as Tr.
  apply isnum_ev in Hs9 as E9. apply isnum_ev in Halp as Ea.
  unfold get_atm_dispersion_g.
  eapply ev_bind; [exact E9|]. intros ts9 Hts9.
  eapply ev_bind; [exact Ea|]. intros talp Htalp.
  eapply (ev_bind _ _ [] (fun _ => fmul cut cut)). { ev_to. reflexivity. } intros cut2 Hcut2.
  eapply ev_bind; [eapply ev_real_pairs; eauto|]. intros mp Hmp.
  eapply ev_bind; [eapply ev_real_triples; eauto|]. intros mt Hmt.
  eapply (ev_bind _ _ (1 :: n :: n :: B) (ix3 (fun k j i b => radb b i j))).
  { ev_to. reflexivity. } intros r0ij Hr0ij.
  eapply (ev_bind _ _ (n :: 1 :: n :: B) (ix3 (fun k j i b => radb b i k))).
  { ev_to. reflexivity. } intros r0ik Hr0ik.
  eapply (ev_bind _ _ (n :: n :: 1 :: B) (ix3 (fun k j i b => radb b j k))).
  { ev_to. reflexivity. } intros r0jk Hr0jk.
  eapply (ev_bind _ _ (n :: n :: n :: B) (ix3 (fun k j i b => r0p (radb b) i j k))).
  { ev_to. reflexivity. } intros r0 Hr0.
  eapply (ev_bind _ _ (n :: n :: B) (ix2 (fun j i b => d2 b i j))).
  { eapply ev_conv.
    - eapply (ev_lift2 fpow); [|ev_go|bshape_solve].
      eapply ev_gwhere; [ev_go | eapply ev_cdist; eauto | ev_go | bshape_solve | bshape_solve].
    - vsimp. reflexivity. }
  intros dist Hd.
  eapply (ev_bind _ _ (1 :: n :: n :: B) (ix3 (fun k j i b => d2 b i j))).
  { ev_to. reflexivity. } intros r2ij Hr2ij.
  eapply (ev_bind _ _ (n :: 1 :: n :: B) (ix3 (fun k j i b => d2 b i k))).
  { ev_to. reflexivity. } intros r2ik Hr2ik.
  eapply (ev_bind _ _ (n :: n :: 1 :: B) (ix3 (fun k j i b => d2 b j k))).
  { ev_to. reflexivity. } intros r2jk Hr2jk.
  eapply (ev_bind _ _ (n :: n :: n :: B) (ix3 (fun k j i b => r2p_g c (numb b) (posb b) i j k))).
  { ev_to. reflexivity. } intros r2 Hr2.
  eapply (ev_bind _ _ (n :: n :: n :: B)
            (ix3 (fun k j i b => fsqrt (r2p_g c (numb b) (posb b) i j k)))).
  { ev_to. reflexivity. } intros r1 Hr1.
  eapply (ev_bind _ _ (n :: n :: n :: B) (ix3 (fun k j i b => r3p_g c (numb b) (posb b) i j k))).
  { ev_to. reflexivity. } intros r3 Hr3.
  eapply (ev_bind _ _ (n :: n :: n :: B) (ix3 (fun k j i b => r5p_g c (numb b) (posb b) i j k))).
  { ev_to. reflexivity. } intros r5 Hr5.
  eapply (ev_bind _ _ (n :: n :: n :: B)
            (ix3 (fun k j i b => r1p_g c (numb b) (posb b) i j k))).
  { ev_to. reflexivity. } intros r1' Hr1'.
  eapply (ev_bind _ _ [] (fun _ => fdiv alp (flit 3))). { ev_to. reflexivity. }
  intros alp3 [Ha1 Ha2].
  assert (Hg := Hg9 alp3 Ha1 (Ha2 [] I)).
  eapply (ev_bind _ _ (n :: n :: n :: B)
            (ix3 (fun k j i b => fdp_g c (numb b) (posb b) (radb b) g9 i j k))).
  { eapply ev_conv.
    - eapply ev_gwhere; [ev_go | eapply elementwise_ev; [exact Hg|eauto|eauto] | ev_go
                       | bshape_solve | bshape_solve].
    - vsimp. reflexivity. }
  intros fd Hfd.
  eapply (ev_bind _ _ (n :: n :: n :: B) (ix3 (fun k j i b => sp_g c (numb b) (posb b) i j k))).
  { ev_to. reflexivity. } intros s Hs.
  eapply (ev_bind _ _ (n :: n :: n :: B)
            (ix3 (fun k j i b => angp_g c (numb b) (posb b) cut i j k))).
  { ev_to. reflexivity. } intros ang Hang.
  eapply (ev_bind _ _ (n :: n :: n :: B)
            (ix3 (fun k j i b => e3_triple_g c (numb b) (posb b) (sl3 c9 b) (radb b) cut g9 s9 i j k))).
  { ev_to. reflexivity. } intros en Hen.
  ev_to. reflexivity.
Qed.

End Three.

Definition c9x_g (m : Model N) cn q n b i j k : K :=
  fmul thopi (fsum 23 (fun w =>
    fmul (fmul (fmul (wpm_g m cn q n b w i) (wpm_g m cn q n b w j)) (wpm_g m cn q n b w k))
         (trap_w_atm w))).

Definition c9_of_g (cls : tclass) (m : Model N) cn q n b i j k : K :=
  match cls with
  | D4ATMExact => c9x_g m cn q n b i j k
  | _ => c9a X (c6m_g m cn q b) i j k
  end.

Definition term_val_g (t : DispTerm N) (F : tfun K) (param : Param K) (m : Model N)
  (n c : nat) (num : nat -> Z) (pos : nat -> nat -> K) (cn : tensor K) (q : option (tensor K))
  (r : nat -> K) (rv : nat -> nat -> K) (cut2 cut3 : K) (b : list nat) (i : nat) : K :=
  let q := if t_cdep t then q else None in
  match t_class t with
  | TwoBodyTerm =>
      e2_atom_g n c num pos (c6m_g m (Some cn) q b) (rad_of (t_damping t) r rv) r cut2
              (f6 F) (f8 F) (getd param "s6" dS6) (getd param "s8" dS8) (s10_of param F) i
  | cls =>
      e3_atom_g n c num pos (c9_of_g cls m (Some cn) q n b) (rad3_of X cls param r rv) cut3
              (f9 F) (getd param "s9" dS9) i
  end.

Section T.
Context (numbers : tensor Z) (positions : tensor K) (param : Param K) (cn : tensor K)
  (m : Model N) (q : option (tensor K)) (r4r2 rvdw : tensor K) (cutoff : Cutoff K).
Context (n c : nat) (B : list nat) (cut2 cut3 : K).
Context (Hm : model_ok_g m n B).
Context (Hn : shp numbers = n :: B).
Context (Hp : shp positions = c :: n :: B).
Context (Hcn : shp cn = n :: B).
Context (Hq : cnq_ok q (n :: B)).
Context (Hr : shp r4r2 = n :: B).
Context (Hv : shp rvdw = n :: n :: B).
Context (Hc2 : ten (c_disp2 cutoff) [] (fun _ => cut2)).
Context (Hc3 : ten (c_disp3 cutoff) [] (fun _ => cut3)).
Context (G : good_param param).

Let tv t F := fun i b => term_val_g t F param m n c (sl1 numbers b) (sl2 positions b) cn q
                           (sl1 r4r2 b) (sl2 rvdw b) cut2 cut3 b i.


Lemma e3_atom_ext_n_g num pos c9 c9' rad rad' cut g s9 i : i < n ->
  (forall i j k, i < n -> j < n -> k < n -> c9 i j k = c9' i j k) ->
  (forall i j, i < n -> j < n -> rad i j = rad' i j) ->
  e3_atom_g n c num pos c9 rad cut g s9 i = e3_atom_g n c num pos c9' rad' cut g s9 i.
Proof.
  intros Hi H1 H2. unfold e3_atom_g. f_equal. apply fsum2_ext. intros. unfold e3_triple_g, fdp_g, r0p.
  now rewrite H1, !H2.
Qed.

Lemma e2_atom_ext_n_g num pos c6 c6' rad rad' r cut g6 g8 s6 s8 s10 i : i < n ->
  (forall i j, i < n -> j < n -> c6 i j = c6' i j) ->
  (forall i j, i < n -> j < n -> rad i j = rad' i j) ->
  e2_atom_g n c num pos c6 rad r cut g6 g8 s6 s8 s10 i
  = e2_atom_g n c num pos c6' rad' r cut g6 g8 s6 s8 s10 i.
Proof.
  intros Hi H1 H2. unfold e2_atom_g. f_equal.
  assert (E : forall (a a' : nat -> nat -> K) g, (forall j, j < n -> a i j = a' i j) ->
    fsum n (fun j => fmul (a i j) (tfac_g g c num pos rad cut i j))
    = fsum n (fun j => fmul (a' i j) (tfac_g g c num pos rad' cut i j))).
  { intros a a' g Ha. apply fsum_ext. intros j Hj. rewrite Ha by auto.
    unfold tfac_g. now rewrite H2 by auto. }
  rewrite (E c6 c6'), (E (c8v c6 r) (c8v c6' r)); auto.
  2:{ intros. unfold c8v. now rewrite H1. }
  destruct s10 as [[x g]|]; auto. rewrite (E (c10v c6 r) (c10v c6' r)); auto.
  intros. unfold c10v. now rewrite H1.
Qed.

Lemma term_calculate_g_ev t F : term_ok param (m_kind m) t F ->
  ev (term_calculate_g X wk wd t numbers positions param cn m q r4r2 rvdw cutoff) (n :: B) (ix1 (tv t F)).
Proof.
  intros Ht. unfold term_calculate_g. set (q' := if t_cdep t then q else None).
  assert (Hq' : cnq_ok q' (n :: B)) by (unfold q'; destruct (t_cdep t); simpl; auto).
  assert (EW := weight_references_g_ev m n B (Some cn) q' Hm Hcn Hq').
  assert (AB : abstract_model m = false).
  { destruct Hm as (_ & _ & _ & _ & _ & Hk). unfold abstract_model.
    destruct (m_kind m); auto; destruct (m_wf m); contradiction. }
  unfold tv, term_val_g. fold q'. unfold term_ok in Ht. destruct (t_class t) eqn:EC.
  - destruct Ht as (Hrt & H6 & H8 & H10).
    eapply ev_bind; [exact EW|]. intros w Hw.
    eapply ev_bind; [eapply get_atomic_c6_g_ev; eauto|]. intros c6 Hc6.
    eapply ev_conv.
    + apply (dispersion2_g_ev numbers positions param c6 r4r2 (Some rvdw) (t_damping t)
               (Some (c_disp2 cutoff)) n c B (f6 F) (f8 F) (getd param "s6" dS6)
               (getd param "s8" dS8) cut2 (s10_of param F)); auto.
      * apply Hc6.
      * destruct Hrt as [E|E]; [left|right]; auto. split; auto. eauto.
      * apply (pget_isnum param "s6" dS6 G). discriminate.
      * apply (pget_isnum param "s8" dS8 G). discriminate.
      * unfold s10_of. destruct (getp param "s10") eqn:E.
        { split; [|apply H10; discriminate].
          destruct (good_isnum _ "s10" _ G ltac:(discriminate) E) as (p & D & P). eauto. }
        { apply (good_none _ "s10" G); auto. discriminate. }
    + vsimp. apply e2_atom_ext_n_g; auto.
      intros. unfold sl2. rewrite (proj2 Hc6) by (repeat apply valid_cons; auto). reflexivity.
  - destruct Ht as (H9 & Hex). rewrite AB. cbn [raise_if bind].
    eapply ev_bind; [exact EW|]. intros w Hw.
    eapply ev_bind. { eapply ev_bind; [eapply get_atomic_c6_g_ev; eauto|]. intros c6 Hc6.
      eapply c9_approx_ev; eauto. }
    intros c9 Hc9.
    eapply ev_bind. { eapply radii_bj_ev; [exact Hr| |].
      apply (pget_isnum param "a1" dA1 G); discriminate.
      apply (pget_isnum param "a2" dA2 G); discriminate. }
    intros rd Hrd.
    eapply ev_conv.
    + eapply (get_atm_dispersion_g_ev numbers positions c9 rd (c_disp3 cutoff) (t_damping t) _ _
                n c B (f9 F) (getd param "s9" dS9) (getd param "alp" dALP) cut3); auto.
      * apply Hc9.
      * apply Hrd.
      * apply (pget_isnum param "s9" dS9 G). discriminate.
      * apply (pget_isnum param "alp" dALP G). discriminate.
    + vsimp. apply e3_atom_ext_n_g; auto.
      * intros. unfold sl3. rewrite (proj2 Hc9) by (repeat apply valid_cons; auto). reflexivity.
      * intros. unfold sl2. rewrite (proj2 Hrd) by (repeat apply valid_cons; auto). reflexivity.
  - destruct Ht as (H9 & Hex). specialize (Hex eq_refl). rewrite AB. cbn [raise_if bind].
    eapply ev_bind; [exact EW|]. intros w Hw.
    eapply ev_bind. { unfold is_d4s in Hw. rewrite Hex in Hw.
      eapply ev_bind; [eapply get_weighted_pols_d4_g_ev; eauto|]. intros a Ha.
      eapply c9_exact_ev; eauto. }
    intros c9 Hc9.
    eapply ev_bind. { eapply radii_bj_ev; [exact Hr| |].
      apply (pget_isnum param "a1" dA1 G); discriminate.
      apply (pget_isnum param "a2" dA2 G); discriminate. }
    intros rd Hrd.
    eapply ev_conv.
    + eapply (get_atm_dispersion_g_ev numbers positions c9 rd (c_disp3 cutoff) (t_damping t) _ _
                n c B (f9 F) (getd param "s9" dS9) (getd param "alp" dALP) cut3); auto.
      * apply Hc9.
      * apply Hrd.
      * apply (pget_isnum param "s9" dS9 G). discriminate.
      * apply (pget_isnum param "alp" dALP G). discriminate.
    + vsimp. apply e3_atom_ext_n_g; auto.
      * intros. unfold sl3. rewrite (proj2 Hc9) by (repeat apply valid_cons; auto). reflexivity.
      * intros. unfold sl2. rewrite (proj2 Hrd) by (repeat apply valid_cons; auto). reflexivity.
  - destruct Ht as (H9 & Hex). rewrite AB. cbn [raise_if bind].
    eapply ev_bind; [exact EW|]. intros w Hw.
    eapply ev_bind. { eapply ev_bind; [eapply get_atomic_c6_g_ev; eauto|]. intros c6 Hc6.
      eapply c9_approx_ev; eauto. }
    intros c9 Hc9.
    eapply ev_bind. { eapply radii_vdw_ev; [exact Hv|].
      apply (pget_isnum param "rs9" dRS9 G); discriminate. }
    intros rd Hrd.
    eapply ev_conv.
    + eapply (get_atm_dispersion_g_ev numbers positions c9 rd (c_disp3 cutoff) (t_damping t) _ _
                n c B (f9 F) (getd param "s9" dS9) (getd param "alp" dALP) cut3); auto.
      * apply Hc9.
      * apply Hrd.
      * apply (pget_isnum param "s9" dS9 G). discriminate.
      * apply (pget_isnum param "alp" dALP G). discriminate.
    + vsimp. apply e3_atom_ext_n_g; auto.
      * intros. unfold sl3. rewrite (proj2 Hc9) by (repeat apply valid_cons; auto). reflexivity.
      * intros. unfold sl2. rewrite (proj2 Hrd) by (repeat apply valid_cons; auto). reflexivity.
Qed.

End T.

Lemma calculate_g_ev W p numbers positions charge param cutoff q rcov r4r2 rvdw
  m n c B cn qo r4 rv cut2 cut3 Fs :
  let cutoff' := default cutoff default_cutoff in
  shp numbers = n :: B -> shp positions = c :: n :: B ->
  get_model_g X wk p numbers = Ok m -> model_ok_g m n B ->
  (match rcov with Some rc => shp rc = n :: B | None => True end) ->
  match r4r2 with None => get_r4r2 numbers | Some r => Ok r end = Ok r4 -> shp r4 = n :: B ->
  match rvdw with None => get_rvdw X numbers | Some r => Ok r end = Ok rv -> shp rv = n :: n :: B ->
  p_cn_fn p (p_cn_kw p) numbers positions = Ok cn -> shp cn = n :: B ->
  (q <> None -> existsb (@t_cdep N) (p_terms p) = true) ->
  charges W p numbers positions charge cutoff' q = Ok qo -> cnq_ok qo (n :: B) ->
  ten (c_disp2 cutoff') [] (fun _ => cut2) -> ten (c_disp3 cutoff') [] (fun _ => cut3) ->
  good_param param -> Forall2 (term_ok param (m_kind m)) (p_terms p) Fs ->
  ev (calculate_g X wk wd W p numbers positions charge param cutoff q rcov r4r2 rvdw) (n :: B)
    (ix1 (fun i b => fold_left (fun a g => fadd a g)
       (map (fun tF => term_val_g (fst tF) (snd tF) param m n c (sl1 numbers b) (sl2 positions b)
                         cn qo (sl1 r4 b) (sl2 rv b) cut2 cut3 b i)
            (combine (p_terms p) Fs)) f0)).
Proof.
  intros cutoff' Hn Hp Hgm Hm Hrc Er4 Hr4 Erv Hrv Ecn Hcn Hcd Eq Hqo Hc2 Hc3 G HF.
  unfold calculate_g. fold cutoff'. rewrite Hn, Hp.
  assert (CS : forall s, check_shape s s = Ok tt) by (intros; unfold check_shape; rewrite shape_eqb_refl; reflexivity).
  cbn [tl]. rewrite CS. cbn [bind]. rewrite Hgm. cbn [bind].
  replace (match rcov with Some rc => check_shape (n :: B) (shp rc) | None => Ok tt end) with (Ok tt)
    by (destruct rcov; [rewrite Hrc, CS|]; auto).
  cbn [bind]. rewrite Er4. cbn [bind]. rewrite Hr4, CS. cbn [bind]. rewrite Erv. cbn [bind].
  rewrite Hrv. cbn [tl]. rewrite CS. cbn [bind]. rewrite Ecn. cbn [bind].
  replace (raise_if _ RuntimeError) with (Ok tt).
  2:{ destruct q; [rewrite Hcd by discriminate|]; reflexivity. }
  cbn [bind]. unfold charges in Eq. rewrite Eq. cbn [bind].
  replace (match qo with Some q0 => check_shape (n :: B) (shp q0) | None => Ok tt end) with (Ok tt)
    by (destruct qo; [simpl in Hqo; rewrite Hqo, CS|]; auto).
  cbn [bind].
  eapply ev_conv.
  - eapply (sum_terms_ev _ (n :: B) _
      (map (fun tF => ix1 (fun i b => term_val_g (fst tF) (snd tF) param m n c (sl1 numbers b)
                 (sl2 positions b) cn qo (sl1 r4 b) (sl2 rv b) cut2 cut3 b i))
           (combine (p_terms p) Fs)) _ (fun _ => f0)).
    + split; [reflexivity|]. reflexivity.
    + clear Hcd Eq. induction HF; simpl; constructor; auto.
      eapply term_calculate_g_ev; eauto.
  - vsimp. generalize (f0 (K := K)).
    induction (combine (p_terms p) Fs) as [|tF l IH]; simpl; auto.
Qed.

Definition is_model_g (m : Model N) (kind : mkind) (kw : mkwargs N) (numbers : tensor Z)
  (n : nat) (B : list nat) : Prop :=
  model_ok_g m n B /\ m_kind m = kind /\ m_numbers m = numbers /\
  m_ga m = default (k_ga kw) (flit GA_DEFAULT) /\ m_gc m = default (k_gc kw) (flit GC_DEFAULT) /\
  m_ref m = default (k_ref kw) "eeq" /\
  forall b i j, valid B b -> i < n -> j < n -> wf_of m b i j = wfv kind kw (sl1 numbers b) b i j.

Lemma new_model_ok_g kind cls numbers kw n B :
  ext_tables X -> (kind = D4M \/ kind = D4SM) -> shp numbers = n :: B ->
  kw_ok kind kw n B -> elements_ok (default (k_ref kw) "eeq") numbers ->
  exists m, new_model_g X wk kind cls numbers kw = Ok m /\ is_model_g m kind kw numbers n B.
Proof.
  intros HX Hk Hn (Hrc & Hwf) He. apply elements_in_range in He as (Hkn & Hr).
  destruct (get_wf_ev (N:=N) kind numbers n B Hk Hn (in_range_119 _ _ Hr)) as (w & Ew & Hw).
  destruct (get_refc6_g_ev numbers n B (default (k_ga kw) (flit GA_DEFAULT))
     (default (k_gc kw) (flit GC_DEFAULT)) _ HX Hkn Hn Hr) as (t & Et & Ht).
  unfold new_model_g. rewrite Hrc.
  destruct (k_wf kw) as [u|] eqn:EW.
  - cbn [bind]. rewrite Et. cbn [bind]. eexists. split; [reflexivity|].
    unfold is_model_g, model_ok_g, wf_of, wfv, is_d4s. cbn [m_numbers m_kind m_wf m_ref m_rc6 m_ga m_gc].
    rewrite EW. refine (conj (conj HX (conj Hkn (conj Hn (conj Hr (conj Ht _))))) _).
    + destruct Hk as [->| ->]; exact Hwf.
    + repeat (split; [reflexivity|]). intros. destruct Hk as [->| ->]; reflexivity.
  - rewrite Ew. cbn [bind]. rewrite Et. cbn [bind]. eexists. split; [reflexivity|].
    unfold is_model_g, model_ok_g, wf_of, wfv, is_d4s. cbn [m_numbers m_kind m_wf m_ref m_rc6 m_ga m_gc].
    rewrite EW. refine (conj (conj HX (conj Hkn (conj Hn (conj Hr (conj Ht _))))) _).
    + destruct Hk as [->| ->]; apply Hw.
    + repeat (split; [reflexivity|]). intros b i j Hb Hi Hj. destruct Hk as [->| ->].
      * apply (proj2 Hw). constructor.
      * unfold sl2. rewrite (proj2 Hw) by (repeat split; auto). reflexivity.
Qed.

Lemma model_from_ok_g p numbers kind kw n B :
  ext_tables X -> p_inst p = None -> model_from X p numbers kind kw -> shp numbers = n :: B ->
  kw_ok kind kw n B -> elements_ok (default (k_ref kw) "eeq") numbers ->
  exists m, get_model_g X wk p numbers = Ok m /\ is_model_g m kind kw numbers n B.
Proof.
  intros HX PI Hm Hn Hkw He. unfold get_model_g. destruct Hm as [(-> & Ek & Hm)|(m & cls & E & _)].
  - rewrite Ek. destruct Hm as [(-> & ->)|(-> & ->)]; simpl; apply new_model_ok_g; auto.
  - congruence.
Qed.

Definition atom_terms_g (p : Disp N) (Fs : list (tfun K)) (a : Args N) (m : Model N) (cn : tensor K)
  (qo : option (tensor K)) (r4 rv : tensor K) (n c : nat) (b : list nat) (i : nat) : list K :=
  map (fun tF => term_val_g (fst tF) (snd tF) (a_param a) m n c (sl1 (a_numbers a) b)
                   (sl2 (a_positions a) b) cn qo (sl1 r4 b) (sl2 rv b)
                   (dat (c_disp2 (a_cut a)) []) (dat (c_disp3 (a_cut a)) []) b i)
      (combine (p_terms p) Fs).

Lemma run_closed_full_g W p a kind kw n c B Fs :
  ext_tables X -> p_inst p = None -> well_formed X W p a kind kw n c B ->
  Forall2 (term_ok (a_param a) kind) (p_terms p) Fs ->
  exists m cn qo r4 rv,
    get_model_g X wk p (a_numbers a) = Ok m /\
    match a_r4r2 a with None => get_r4r2 (a_numbers a) | Some r => Ok r end = Ok r4 /\
    match a_rvdw a with None => get_rvdw X (a_numbers a) | Some r => Ok r end = Ok rv /\
    is_model_g m kind kw (a_numbers a) n B /\
    p_cn_fn p (p_cn_kw p) (a_numbers a) (a_positions a) = Ok cn /\ shp cn = n :: B /\
    charges W p (a_numbers a) (a_positions a) (a_charge a) (a_cut a) (a_q a) = Ok qo /\
    cnq_ok qo (n :: B) /\
    (forall b i, valid B b -> i < n -> sl1 r4 b i = r4v a b i) /\
    (forall b i j, valid B b -> i < n -> j < n -> sl2 rv b i j = rvv X a b i j) /\
    returns1 (run_g X wk wd W p a) n B (fun b i => sumK (atom_terms_g p Fs a m cn qo r4 rv n c b i)).
Proof.
  intros HX PI H HF. destruct H.
  destruct (model_from_ok_g p (a_numbers a) kind kw n B HX PI wf_model wf_numbers wf_kw wf_elements)
    as (m & Em & Hm).
  destruct wf_cn as (cn & Ecn & Hcn).
  assert (HQ : exists qo, charges W p (a_numbers a) (a_positions a) (a_charge a) (a_cut a) (a_q a) = Ok qo
                 /\ cnq_ok qo (n :: B)).
  { unfold charges. destruct (a_q a) as [q|] eqn:Eq.
    - exists (Some q). split; auto.
    - destruct (existsb (@t_cdep N) (p_terms p)) eqn:E.
      + destruct wf_eeq as (q & -> & Hq); auto. { now apply needs_charges_b. }
        exists (Some q). split; auto.
      + exists None. split; simpl; auto. }
  destruct HQ as (qo & Eqo & Hqo).
  apply elements_in_range in wf_elements as (Hkn & Hr).
  assert (R4 : exists r4, match a_r4r2 a with None => get_r4r2 (a_numbers a) | Some r => Ok r end = Ok r4
            /\ shp r4 = n :: B /\ forall b i, valid B b -> i < n -> sl1 r4 b i = r4v a b i).
  { unfold r4v. destruct (a_r4r2 a) as [t|] eqn:E.
    - exists t. auto.
    - destruct (gather1 (@R4R2 K) 119 (a_numbers a) R4R2_shp (in_range_119 _ _ Hr)) as (t & Et & St & Dt).
      exists t. split; [exact Et|]. rewrite wf_numbers in *. split; auto. intros. unfold sl1.
      rewrite Dt by (split; auto). reflexivity. }
  destruct R4 as (r4 & Er4 & Hr4 & Vr4).
  assert (RV : exists rv, match a_rvdw a with None => get_rvdw X (a_numbers a) | Some r => Ok r end = Ok rv
            /\ shp rv = n :: n :: B /\ forall b i j, valid B b -> i < n -> j < n -> sl2 rv b i j = rvv X a b i j).
  { unfold rvv. destruct (a_rvdw a) as [t|] eqn:E.
    - exists t. auto.
    - destruct HX as (nz & ng & nv & _ & _ & Sv & _ & _ & Lv).
      assert (Hr' : in_range nv (a_numbers a)).
      { eapply in_range_le; [|exact Hr]. unfold ref_limit. destruct (_ =? _); lia. }
      destruct (gather_pair (x_vdw X) nv (a_numbers a) n B Sv wf_numbers Hr') as (t & Et & St & Dt).
      exists t. split; [exact Et|]. split; auto. intros. unfold sl2.
      rewrite Dt by (repeat split; auto). reflexivity. }
  destruct RV as (rv & Erv & Hrv & Vrv).
  exists m, cn, qo, r4, rv. repeat (split; [assumption|]).
  destruct (calculate_g_ev W p (a_numbers a) (a_positions a) (a_charge a) (a_param a) (a_cutoff a)
    (a_q a) (a_rcov a) (a_r4r2 a) (a_rvdw a) m n c B cn qo r4 rv
    (dat (c_disp2 (a_cut a)) []) (dat (c_disp3 (a_cut a)) []) Fs) as (t & Et & St & Dt); auto.
  - apply Hm.
  - intros Q. apply needs_charges_b. auto.
  - now apply ten_scalar.
  - now apply ten_scalar.
  - destruct Hm as (_ & -> & _). auto.
  - exists t. split; [exact Et|]. split; auto. intros b i Hb Hi. unfold sl1.
    rewrite Dt by (split; auto). reflexivity.
Qed.

End G.
