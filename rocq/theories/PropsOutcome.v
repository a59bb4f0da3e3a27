(** * C49: which parameter dictionaries a calculation accepts *)
From Coq Require Import List Arith ZArith QArith Bool String Lia.
From Verif Require Import Py Tensor Scalar ModelExt ModelUtils ModelDamping ModelModels ModelTerms
  ModelDisp SpecCall Spec TensorLemmas Closed ClosedTerms ClosedModels ClosedDamp ClosedDisp CallLemmas
  Usable PropsCall PropsParams.
Import ListNotations.
Open Scope string_scope.

(** ** Specification *)
(** The damping functions of the package for the two-body term. *)
Inductive dclass : Type := Rational | Zero | MZero | OptimisedPower.

Definition damping_of {K : Scalar} (X : Ext K) (c : dclass) : Damping K :=
  match c with
  | Rational => RationalDamping
  | Zero => ZeroDamping X
  | MZero => MZeroDamping X
  | OptimisedPower => OptimisedPowerDamping
  end.

(** What a calculation does with a dictionary that binds exactly the names of which [has] is true,
    to numbers: [None] if it returns an energy, else the exception. *)
Definition outcome (c : dclass) (has : string -> bool) : option exn :=
  let needs ks := negb (forallb has ks) in
  match c with
  | Rational => if needs ["a1"; "a2"] then Some TypeError else None
  | Zero => if needs ["rs6"] then Some TypeError
            else if has "s8" && negb (has "rs8") then Some TypeError
            else if has "s10" then Some ValueError else None
  | MZero => if needs ["rs6"; "bet"] then Some TypeError
             else if has "s8" && negb (has "rs8") then Some TypeError
             else if has "s10" then Some ValueError else None
  | OptimisedPower => if needs ["a1"; "a2"; "bet"] then Some TypeError
                      else if has "s10" then Some ValueError else None
  end.

(** the names bound to numbers *)
Definition binds {K : Scalar} (param : Param K) (k : string) : bool :=
  match getp param k with Some _ => true | None => false end.

(** ** Proofs *)
Section P.
Context {K : Scalar} (X : Ext K).

Definition refuses (d : Damping K) (param : Param K) (e : exn) : Prop :=
  let raises o := forall dist radii, damping_call d dist radii o false param = Raise e in
  let returns o := exists g, elementwise d param o false g in
  raises 6%nat \/ (returns 6%nat /\ raises 8%nat) \/
  (returns 6%nat /\ returns 8%nat /\ binds param "s10" = true /\ raises 10%nat).

Lemma good_num (param : Param K) k q : good_param param -> k <> "doi" ->
  exists x, isnum (pget param k q) x.
Proof.
  intros G Hk. unfold pget. destruct (dget param k) as [v|] eqn:E; cbn [default].
  - assert (Hin : In (k, v) param).
    { clear G. induction param as [|[k' v'] r IH]; [discriminate|]. cbn [dget] in E.
      destruct (String.eqb_spec k' k) as [->|]; [injection E as ->; now left|right; auto]. }
    destruct (G _ _ Hin) as (_ & H). auto.
  - exists (flit q). now exists (scal (flit q)).
Qed.

Lemma dispersion2_refuses numbers positions param c6 r4r2 rvdw (d : Damping K) cutoff n c B e :
  shp numbers = n :: B -> shp positions = c :: n :: B -> shp c6 = n :: n :: B -> shp r4r2 = n :: B ->
  radius_ok d rvdw (n :: n :: B) -> shp (default cutoff (scal (flit D4_DISP2_CUTOFF))) = [] ->
  good_param param -> refuses d param e ->
  dispersion2 X numbers positions param c6 r4r2 rvdw d cutoff false = Raise e.
Proof.
  intros Hn Hp Hc Hr Hrad Hcut HG HE.
  apply ten_eq in Hc as Tc. apply ten_eq in Hr as Tr.
  unfold dispersion2.
  destruct (ev_real_pairs numbers n B Hn) as (mask & -> & Hm). cbn [bind].
  assert (ED : ev (twhere mask (cdist X positions positions) (scal feps)) (n :: n :: B)
                  (ix2 (fun j i b => pdist X c (sl1 numbers b) (sl2 positions b) i j))).
  { eapply ev_conv.
    - eapply ev_where; [ev_go | eapply ev_cdist; eauto | ev_go | bshape_solve | bshape_solve].
    - vsimp. reflexivity. }
  destruct ED as (dist & -> & Hd). cbn [bind].
  assert (EQ : ev (tmul (tmul (tlit 3) (unsqueeze 1 r4r2)) (unsqueeze 2 r4r2)) (n :: n :: B)
                  (ix2 (fun j i b => qq (sl1 r4r2 b) i j))). { ev_to. reflexivity. }
  destruct EQ as (q & -> & Hq). cbn [bind].
  assert (E8 : ev (tmul c6 q) (n :: n :: B) (ix2 (fun j i b => c8v (sl2 c6 b) (sl1 r4r2 b) i j))).
  { ev_to. reflexivity. }
  destruct E8 as (c8 & -> & Hc8). cbn [bind].
  assert (ER : exists radii, (if d_radius_type d =? "rvdw"
                 then match rvdw with Some r => Ok r | None => Raise ValueError end
                 else if d_radius_type d =? "r4r2" then Ok q else Raise ValueError) = Ok radii /\
               ten radii (n :: n :: B) (ix2 (fun j i b => rad_of d (sl1 r4r2 b) (rvdat rvdw b) i j))).
  { unfold rad_of. destruct Hrad as [Er | (Er & v & -> & Hv)]; rewrite Er; simpl.
    - exists q. split; [reflexivity|]. exact Hq.
    - exists v. split; [reflexivity|]. split; auto. intros i Hi. vdes. reflexivity. }
  destruct ER as (radii & -> & HR). cbn [bind].
  apply ten_scalar in Hcut.
  assert (EM : ev (tand mask (tle dist (default cutoff (scal (flit D4_DISP2_CUTOFF))))) (n :: n :: B)
     (ix2 (fun j i b => pmask (sl1 numbers b) i j && fle (pdist X c (sl1 numbers b) (sl2 positions b) i j)
            (dat (default cutoff (scal (flit D4_DISP2_CUTOFF))) [])))).
  { ev_to. reflexivity. }
  assert (RZ : forall o, (forall dist radii, damping_call d dist radii o false param = Raise e) ->
    twhere (tand mask (tle dist (default cutoff (scal (flit D4_DISP2_CUTOFF)))))
           (damping_call d dist radii o false param) (tlit 0) = Raise e).
  { intros o Ho. destruct EM as (mk & EM & _). unfold twhere. unfold lift2 at 1 2. rewrite EM, Ho. reflexivity. }
  assert (RT : forall o g, elementwise d param o false g ->
    exists t, twhere (tand mask (tle dist (default cutoff (scal (flit D4_DISP2_CUTOFF)))))
           (damping_call d dist radii o false param) (tlit 0) = Ok t /\
      ten t (n :: n :: B) (ix2 (fun j i b => tfac X g c (sl1 numbers b) (sl2 positions b)
         (rad_of d (sl1 r4r2 b) (rvdat rvdw b)) (dat (default cutoff (scal (flit D4_DISP2_CUTOFF))) []) i j))).
  { intros o g Hg. apply (tfac_ev X numbers positions param r4r2 rvdw d cutoff n c B
      (dat (default cutoff (scal (flit D4_DISP2_CUTOFF))) []) Hcut g o); auto. }
  destruct HE as [H6|[((g6 & H6) & H8)|((g6 & H6) & (g8 & H8) & S10 & H10)]].
  - rewrite RZ by auto. reflexivity.
  - destruct (RT 6%nat g6 H6) as (t6 & -> & _). cbn [bind]. rewrite RZ by auto. reflexivity.
  - destruct (RT 6%nat g6 H6) as (t6 & -> & Ht6). cbn [bind].
    destruct (RT 8%nat g8 H8) as (t8 & -> & Ht8). cbn [bind].
    destruct (good_num param "s6" dS6 HG ltac:(discriminate)) as (x6 & N6). apply isnum_ev in N6.
    destruct (good_num param "s8" dS8 HG ltac:(discriminate)) as (x8 & N8). apply isnum_ev in N8.
    assert (A6 : ev (tsum1 (tmul c6 t6)) (n :: B) (ix1 (fun i b => fsum n (fun j => fmul (dat c6 (j :: i :: b)) (dat t6 (j :: i :: b)))))).
    { assert (T6 := ten_eq t6 _ (proj1 Ht6)). ev_to. apply fsum_ext. intros; bsimp; reflexivity. }
    destruct A6 as (e6 & -> & He6). cbn [bind].
    assert (A8 : ev (tsum1 (tmul c8 t8)) (n :: B) (ix1 (fun i b => fsum n (fun j => fmul (dat c8 (j :: i :: b)) (dat t8 (j :: i :: b)))))).
    { assert (T8 := ten_eq t8 _ (proj1 Ht8)). assert (T8' := ten_eq c8 _ (proj1 Hc8)). ev_to. apply fsum_ext. intros; bsimp; reflexivity. }
    destruct A8 as (e8 & -> & He8). cbn [bind].
    assert (AE : exists t, tadd (tmul (num (pget param "s6" dS6)) e6) (tmul (num (pget param "s8" dS8)) e8) = Ok t).
    { assert (AE : ev (tadd (tmul (num (pget param "s6" dS6)) e6) (tmul (num (pget param "s8" dS8)) e8)) (n :: B)
         (fun i => fadd (fmul x6 (dat e6 i)) (fmul x8 (dat e8 i)))).
      { assert (U6 := ten_eq e6 _ (proj1 He6)). assert (U8 := ten_eq e8 _ (proj1 He8)). ev_to. reflexivity. }
      destruct AE as (t & AE & _). eauto. }
    destruct AE as (ed & ->). cbn [bind].
    unfold binds, getp in S10. destruct (dget param "s10") as [s10|]; [|discriminate].
    assert (AC : exists t, tdiv (tmul (tmul c6 (tpown q 2)) (tlit 49)) (tlit 40) = Ok t).
    { assert (AC : ev (tdiv (tmul (tmul c6 (tpown q 2)) (tlit 49)) (tlit 40)) (n :: n :: B)
         (ix2 (fun j i b => c10v (sl2 c6 b) (sl1 r4r2 b) i j))).
      { ev_to. reflexivity. }
      destruct AC as (t & AC & _). eauto. }
    destruct AC as (c10 & ->). cbn [bind]. rewrite RZ by auto. reflexivity.
Qed.

Lemma good_known (param : Param K) : good_param param -> known_param param.
Proof. intros G k v Hin. exact (proj1 (G k v Hin)). Qed.

Lemma good_missing (param : Param K) k : good_param param -> k <> "doi" -> ~ defaulted k ->
  (missing param k <-> binds param k = false).
Proof.
  intros G Hd Hk. unfold missing, binds. destruct (getp param k) as [x|] eqn:E.
  - destruct (good_isnum _ _ _ G Hd E) as (p & E' & (t & -> & _)). rewrite E'. split; [|discriminate].
    intros [[? _]|?]; discriminate.
  - rewrite (good_none _ _ G Hd E). split; auto.
Qed.

Lemma good_not_missing (param : Param K) k : good_param param -> k <> "doi" -> defaulted k -> ~ missing param k.
Proof.
  intros G Hd Hk [[_ H]|H]; [contradiction|].
  destruct (getp param k) as [x|] eqn:E.
  - destruct (good_isnum _ _ _ G Hd E) as (p & E' & (t & -> & _)). congruence.
  - rewrite (good_none _ _ G Hd E) in H. discriminate.
Qed.

Ltac nd := let H := fresh in intros H; unfold defaulted in H; simpl in H; intuition discriminate.

Lemma not_off6 (param : Param K) : good_param param -> ~ switched_off param 6.
Proof.
  intros G [(_ & H & _)|[(E & _)|[(E & _)|(E & _)]]]; try discriminate.
  revert H. apply good_not_missing; auto; [discriminate|unfold defaulted; simpl; tauto].
Qed.
Lemma not_off8 (param : Param K) : good_param param -> binds param "s8" = true -> ~ switched_off param 8.
Proof.
  intros G B [(E & _)|[(_ & H & _)|[(E & _)|(E & _)]]]; try discriminate.
  apply good_missing in H; auto; [congruence|discriminate|nd].
Qed.

(** a missing parameter of the function *)
Lemma lacking_raises (d : Damping K) (param : Param K) o k :
  good_param param -> ~ switched_off param o -> In k (d_required d o) ->
  In k ["a1"; "a2"; "rs6"; "rs8"; "bet"] -> binds param k = false ->
  forall dist radii, damping_call d dist radii o false param = Raise TypeError.
Proof.
  intros G NS Hr Hk B dist radii.
  assert (D : k <> "doi" /\ ~ defaulted k /\ In k known_names).
  { simpl in Hk. repeat (destruct Hk as [<-|Hk]; [split; [discriminate|split; [nd|simpl; tauto]]|]). destruct Hk. }
  eapply required_raises; eauto; try tauto.
  - now apply good_known.
  - apply good_missing; tauto.
Qed.

Lemma order10_raises (cls : dclass) (param : Param K) : cls <> Rational ->
  good_param param -> binds param "s10" = true ->
  (cls = MZero -> binds param "bet" = true) ->
  (cls = OptimisedPower -> binds param "bet" = true /\ binds param "a1" = true /\ binds param "a2" = true) ->
  forall dist radii, damping_call (damping_of X cls) dist radii 10 false param = Raise ValueError.
Proof.
  intros NR G S Hm Ho dist radii.
  destruct (call_unfold (damping_of X cls) dist radii 10 false param (good_known _ G)) as (a & _ & Q & _ & C).
  rewrite C.
  2:{ intros [(E & _)|[(E & _)|[(E & _)|(_ & H)]]]; try discriminate.
      apply good_missing in H; auto; [congruence|discriminate|nd]. }
  assert (P : forall k, In k ["a1"; "a2"; "bet"] -> binds param k = true -> is_none (arg a k) = false).
  { intros k Hk B. destruct (is_none (arg a k)) eqn:E; auto.
    assert (D : k <> "doi" /\ ~ defaulted k /\ In k known_names).
    { simpl in Hk. repeat (destruct Hk as [<-|Hk]; [split; [discriminate|split; [nd|simpl; tauto]]|]). destruct Hk. }
    apply Q in E; try tauto. apply good_missing in E; try tauto. congruence. }
  assert (A : is_none (g_alp a) = false).
  { destruct (is_none (g_alp a)) eqn:E; auto. apply (Q "alp") in E; [|simpl; tauto|discriminate].
    exfalso. revert E. apply good_not_missing; auto; [discriminate|unfold defaulted; simpl; tauto]. }
  destruct cls; try contradiction; cbn [damping_of]; unfold checked_f; cbn [d_required d_f ZeroDamping MZeroDamping OptimisedPowerDamping existsb].
  - unfold zero_f, assert_some. rewrite A. reflexivity.
  - unfold mzero_f, assert_some. rewrite A.
    assert (Eb : is_none (g_bet a) = false) by (apply (P "bet"); [simpl; tauto|auto]). rewrite Eb. reflexivity.
  - destruct (Ho eq_refl) as (H1 & H2 & H3). unfold op_f, assert_some.
    assert (Eb : is_none (g_bet a) = false) by (apply (P "bet"); [simpl; tauto|auto]).
    assert (E1 : is_none (g_a1 a) = false) by (apply (P "a1"); [simpl; tauto|auto]).
    assert (E2 : is_none (g_a2 a) = false) by (apply (P "a2"); [simpl; tauto|auto]).
    rewrite Eb, E1, E2. reflexivity.
Qed.

Lemma binds_some (param : Param K) k : binds param k = true -> exists x, getp param k = Some x.
Proof. unfold binds. destruct (getp param k); [eauto|discriminate]. Qed.
Lemma binds_not_none (param : Param K) k : binds param k = true <-> getp param k <> None.
Proof. unfold binds. destruct (getp param k); split; congruence. Qed.
Lemma binds_none (param : Param K) k : binds param k = false <-> getp param k = None.
Proof. unfold binds. destruct (getp param k); split; congruence. Qed.

Lemma outcome_refuses cls (param : Param K) e : good_param param ->
  outcome cls (binds param) = Some e -> refuses (damping_of X cls) param e.
Proof.
  intros G H. unfold refuses.
  assert (N6 := not_off6 param G).
  destruct cls; cbn [outcome forallb damping_of] in *.
  - destruct (binds param "a1") eqn:E1; [destruct (binds param "a2") eqn:E2|]; cbn in H; try discriminate;
    injection H as <-; left; [apply (lacking_raises _ _ _ "a2")|apply (lacking_raises _ _ _ "a1")]; auto; simpl; tauto.
  - destruct (binds param "rs6") eqn:E1; cbn in H.
    2:{ injection H as <-. left. apply (lacking_raises _ _ _ "rs6"); auto; simpl; tauto. }
    right. destruct (binds_some _ _ E1) as (rs6 & E1').
    destruct (binds param "s8") eqn:E2; [destruct (binds param "rs8") eqn:E3|]; cbn in H.
    + right. destruct (binds param "s10") eqn:E4; [|discriminate]. injection H as <-.
      destruct (binds_some _ _ E3) as (rs8 & E3').
      split; [eexists; apply zero6_elementwise; eauto|]. split; [eexists; apply zero8_elementwise; eauto|].
      split; auto. apply (order10_raises Zero); auto; discriminate.
    + injection H as <-. left. split; [eexists; apply zero6_elementwise; eauto|].
      apply (lacking_raises _ _ _ "rs8"); auto; [now apply not_off8| |]; simpl; tauto.
    + right. destruct (binds param "s10") eqn:E4; [|discriminate]. injection H as <-.
      split; [eexists; apply zero6_elementwise; eauto|]. split; [|split; [auto|apply (order10_raises Zero); auto; discriminate]].
      destruct (getp param "rs8") as [rs8|] eqn:E3; [eexists; apply zero8_elementwise; eauto|].
      eexists. apply inactive_elementwise; auto. unfold active, has. apply binds_none in E2. now rewrite E2, E3.
  - destruct (binds param "rs6") eqn:E1; [destruct (binds param "bet") eqn:Eb|]; cbn in H.
    2:{ injection H as <-. left. apply (lacking_raises _ _ _ "bet"); auto; simpl; tauto. }
    2:{ injection H as <-. left. apply (lacking_raises _ _ _ "rs6"); auto; simpl; tauto. }
    right. destruct (binds_some _ _ E1) as (rs6 & E1'). destruct (binds_some _ _ Eb) as (bet & Eb').
    destruct (binds param "s8") eqn:E2; [destruct (binds param "rs8") eqn:E3|]; cbn in H.
    + right. destruct (binds param "s10") eqn:E4; [|discriminate]. injection H as <-.
      destruct (binds_some _ _ E3) as (rs8 & E3').
      split; [eexists; apply mzero6_elementwise; eauto|]. split; [eexists; apply mzero8_elementwise; eauto|].
      split; auto. apply (order10_raises MZero); auto; discriminate.
    + injection H as <-. left. split; [eexists; apply mzero6_elementwise; eauto|].
      apply (lacking_raises _ _ _ "rs8"); auto; [now apply not_off8| |]; simpl; tauto.
    + right. destruct (binds param "s10") eqn:E4; [|discriminate]. injection H as <-.
      split; [eexists; apply mzero6_elementwise; eauto|]. split; [|split; [auto|apply (order10_raises MZero); auto; discriminate]].
      destruct (getp param "rs8") as [rs8|] eqn:E3; [eexists; apply mzero8_elementwise; eauto|].
      eexists. apply inactive_elementwise; auto. unfold active, has. apply binds_none in E2. now rewrite E2, E3.
  - destruct (binds param "a1") eqn:E1; [destruct (binds param "a2") eqn:E2; [destruct (binds param "bet") eqn:Eb|]|]; cbn in H.
    2:{ injection H as <-. left. apply (lacking_raises _ _ _ "bet"); auto; simpl; tauto. }
    2:{ injection H as <-. left. apply (lacking_raises _ _ _ "a2"); auto; simpl; tauto. }
    2:{ injection H as <-. left. apply (lacking_raises _ _ _ "a1"); auto; simpl; tauto. }
    destruct (binds param "s10") eqn:E4; [|discriminate]. injection H as <-. right; right.
    destruct (binds_some _ _ E1) as (a1 & E1'). destruct (binds_some _ _ E2) as (a2 & E2').
    destruct (binds_some _ _ Eb) as (bet & Eb').
    split; [eexists; eapply op_elementwise; eauto|]. split; [|split; [auto|apply (order10_raises OptimisedPower); auto; discriminate]].
    destruct (active param 8) eqn:A; eexists; [eapply op_elementwise; eauto|apply inactive_elementwise; auto].
Qed.
End P.

Section W.
Context {N : Num} (X : Ext (sc N)) (W : World N).
Notation K := (sc N).

Lemma outcome_usable cls (param : Param K) kind cd : good_param param ->
  outcome cls (binds param) = None -> usable param kind (mkTerm TwoBodyTerm (damping_of X cls) cd).
Proof.
  intros G H. destruct cls; cbn [outcome forallb damping_of] in *.
  - destruct (binds param "a1") eqn:E1; [destruct (binds param "a2") eqn:E2|]; cbn in H; try discriminate.
    apply usable_rational; auto; now apply binds_not_none.
  - destruct (binds param "rs6") eqn:E1; cbn in H; try discriminate.
    destruct (binds param "s10") eqn:E4; [destruct (binds param "s8" && negb (binds param "rs8")); discriminate|].
    apply usable_zero; auto; [now apply binds_not_none| |now apply binds_none].
    intros H8. apply binds_not_none in H8. apply binds_not_none. rewrite H8 in H. now destruct (binds param "rs8").
  - destruct (binds param "rs6") eqn:E1; [destruct (binds param "bet") eqn:Eb|]; cbn in H; try discriminate.
    destruct (binds param "s10") eqn:E4; [destruct (binds param "s8" && negb (binds param "rs8")); discriminate|].
    apply usable_mzero; auto; [now apply binds_not_none|now apply binds_not_none| |now apply binds_none].
    intros H8. apply binds_not_none in H8. apply binds_not_none. rewrite H8 in H. now destruct (binds param "rs8").
  - destruct (binds param "a1") eqn:E1; [destruct (binds param "a2") eqn:E2; [destruct (binds param "bet") eqn:Eb|]|]; cbn in H; try discriminate.
    destruct (binds param "s10") eqn:E4; try discriminate.
    apply usable_op; auto; try (now apply binds_not_none). now apply binds_none.
Qed.

(** Every dictionary that binds known names to numbers, in a calculation with a two-body term of
    any damping function of the package, followed by any three-body terms: the calculation returns
    an energy of the right shape, or raises the exception that [outcome] says. *)
Theorem C49_outcome :
  forall (p : Disp N) a kind kw n c B cls cd ts param,
  ext_tables X -> well_formed X W p a kind kw n c B ->
  p_terms p = mkTerm TwoBodyTerm (damping_of X cls) cd :: ts ->
  Forall (fun t => t_class t <> TwoBodyTerm /\ t_damping t = ZeroDamping X) ts ->
  good_param param ->
  match outcome cls (binds param) with
  | None => exists e, run X W p (set_param a param) = Ok e /\ shp e = shp (a_numbers a)
  | Some e => run X W p (set_param a param) = Raise e
  end.
Proof.
  intros p a kind kw n c B cls cd ts param HX WF ET Hts G.
  destruct (outcome cls (binds param)) as [e|] eqn:EO.
  - destruct (run_steps X W p a kind kw n c B HX WF) as (m & cn & qo & r4 & rv & Hm & Scn & Sq & S4 & SV & R).
    rewrite R, ET. cbn [sum_terms]. unfold tadd, lift2. cbn [t2r bind].
    unfold term_calculate. cbn [t_class t_damping t_cdep].
    assert (Sq' : cnq_ok (if cd then qo else None) (n :: B)) by (destruct cd; simpl; auto).
    destruct (weight_references_ev X m n B (Some cn) (if cd then qo else None) (proj1 Hm) Scn Sq') as (w & -> & Hw).
    cbn [bind].
    destruct (get_atomic_c6_ev X m n B (Some cn) _ w (proj1 Hm) Hw) as (c6 & -> & Hc6). cbn [bind].
    rewrite (dispersion2_refuses X (a_numbers a) (a_positions a) param c6 r4 (Some rv) (damping_of X cls)
       (Some (c_disp2 (a_cut a))) n c B e); auto.
    + apply WF.
    + apply WF.
    + apply Hc6.
    + destruct cls; [left|right|right|left]; cbn; eauto.
    + apply WF.
    + now apply outcome_refuses.
  - assert (WF' : well_formed X W p (set_param a param) kind kw n c B).
    { pose proof (wf_terms _ _ _ _ _ _ _ _ _ WF) as U0. destruct WF. constructor; auto.
      intros t Ht. pose proof (U0 t Ht) as (F & HF). rewrite ET in Ht. simpl a_param. destruct Ht as [<-|Ht].
      - now apply outcome_usable.
      - rewrite Forall_forall in Hts. destruct (Hts t Ht) as (H1 & H2).
        destruct t as [tc td tq]. cbn [t_class t_damping] in *. subst td. apply usable_atm; auto.
        intros ->. unfold term_ok in HF. cbn [t_class] in HF. now apply HF. }
    apply (C15_well_formed_call_returns X W p _ kind kw n c B HX WF').
Qed.
End W.
Print Assumptions C49_outcome.
