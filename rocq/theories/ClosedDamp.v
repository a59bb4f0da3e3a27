(** * The shipped damping functions act elementwise (proof layer). *)
From Coq Require Import List Arith ZArith QArith Bool String Lia.
From Verif Require Import Py Tensor Scalar ModelExt ModelUtils ModelDamping ModelTerms
  TensorLemmas Closed ClosedTerms Spec.
Import ListNotations.
Open Scope nat_scope.
Open Scope string_scope.

Lemma dget_in {V} (d : dict V) k v : dget d k = Some v -> In (k, v) d.
Proof.
  induction d as [|[k' v'] d IH]; simpl; [discriminate|].
  destruct (String.eqb_spec k' k); intros H.
  - injection H as <-. subst. auto.
  - auto.
Qed.

Section D.
Context {K : Scalar} (X : Ext K).

Lemma elementwise_intro (d : Damping K) param o only g :
  (forall dist radii s, ten dist s (dat dist) -> ten radii s (dat radii) ->
     ev (damping_call d dist radii o only param) s (fun i => g (dat dist i) (dat radii i))) ->
  elementwise d param o only g.
Proof.
  intros H dist radii s H1 H2.
  destruct (H dist radii s (ten_eq _ _ H1) (ten_eq _ _ H2)) as (t & E & Hs & Hd).
  exists t. auto.
Qed.

Lemma good_key param k v : good_param (K := K) param -> dget param k = Some v ->
  str_in k call_keys = true /\ (k <> "doi" -> exists x, isnum v x).
Proof.
  intros G E. apply dget_in in E. destruct (G _ _ E) as [H1 H2]. split; auto.
  unfold str_in. apply existsb_exists. exists k. split; auto. apply String.eqb_refl.
Qed.

Lemma good_isnum param k x : good_param (K := K) param -> k <> "doi" -> getp param k = Some x ->
  exists p, dget param k = Some p /\ isnum p x.
Proof.
  intros G Hk E. unfold getp in E. destruct (dget param k) as [p|] eqn:D; [|discriminate].
  destruct (good_key _ _ _ G D) as [_ H]. destruct (H Hk) as (y & t & -> & Hs & Hd).
  injection E as <-. exists (PT t). split; auto. exists t. auto.
Qed.

Lemma good_none param k : good_param (K := K) param -> k <> "doi" -> getp param k = None ->
  dget param k = None.
Proof.
  intros G Hk E. unfold getp in E. destruct (dget param k) as [p|] eqn:D; [|auto].
  destruct (good_key _ _ _ G D) as [_ H]. destruct (H Hk) as (y & t & -> & _). discriminate.
Qed.

Lemma isnum_lit q : isnum (lit_p (K := K) q) (flit q).
Proof. exists (scal (flit q)). auto. Qed.

Lemma pget_isnum param k q : good_param (K := K) param -> k <> "doi" ->
  isnum (pget param k q) (getd param k q).
Proof.
  intros G Hk. unfold pget, getd. destruct (getp param k) as [x|] eqn:E.
  - destruct (good_isnum _ _ _ G Hk E) as (p & -> & H). exact H.
  - rewrite (good_none _ _ G Hk E). apply isnum_lit.
Qed.

Lemma bind_call_good param : good_param (K := K) param ->
  bind_call param =
    let get k d := default (dget param k) d in
    Ok (mkArgs (get "a1" PNone) (get "a2" PNone)
               (get "s6" (lit_p dS6)) (get "rs6" PNone)
               (get "s8" PNone) (get "rs8" PNone)
               (get "s9" (lit_p dS9)) (get "rs9" (lit_p dRS9))
               (get "s10" PNone) (get "alp" (lit_p dALP)) (get "bet" PNone)).
Proof.
  intros G. unfold bind_call.
  replace (forallb _ param) with true; auto.
  symmetry. apply forallb_forall. intros [k v] H. destruct (G k v H) as [H1 _].
  simpl fst. unfold str_in. apply existsb_exists. exists k. split; auto. apply String.eqb_refl.
Qed.

Lemma isnum_not_none (p : pval K) x : isnum p x -> is_none p = false.
Proof. intros (t & -> & _). reflexivity. Qed.

Lemma default_isnum_not_none param k q : good_param (K := K) param -> k <> "doi" ->
  is_none (default (dget param k) (lit_p q)) = false.
Proof. intros G Hk. eapply isnum_not_none. apply (pget_isnum param k q G Hk). Qed.

Definition has (param : Param K) (k : string) : bool :=
  match getp param k with Some _ => true | None => false end.

Lemma is_none_has param k : good_param (K := K) param -> k <> "doi" ->
  is_none (default (dget param k) PNone) = negb (has param k).
Proof.
  intros G Hk. unfold has. destruct (getp param k) as [x|] eqn:E.
  - destruct (good_isnum _ _ _ G Hk E) as (p & -> & H). eapply isnum_not_none; eauto.
  - now rewrite (good_none _ _ G Hk E).
Qed.

(** The early exits of [Damping.__call__] *)
Definition active (param : Param K) (o : nat) : bool :=
  match o with
  | 8 => has param "s8" || has param "rs8"
  | 10 => has param "s10"
  | _ => true
  end.

Lemma damping_call_good (d : Damping K) dist radii o only param :
  good_param param ->
  damping_call d dist radii o only param =
  if active param o then
    a <- bind_call param ;; checked_f d dist radii o a only
  else Ok (zeros_like dist).
Proof.
  intros G. unfold damping_call. rewrite (bind_call_good param G). cbn [bind].
  unfold damping_call_args. cbn [g_s6 g_rs6 g_s8 g_rs8 g_s9 g_rs9 g_s10].
  rewrite (default_isnum_not_none param "s6" dS6 G) by discriminate.
  rewrite (default_isnum_not_none param "s9" dS9 G) by discriminate.
  rewrite !(is_none_has param) by (auto; discriminate).
  cbn [andb]. rewrite !andb_false_r.
  unfold active.
  destruct (Nat.eqb_spec o 8) as [->|N8].
  { destruct (has param "s8"), (has param "rs8"); reflexivity. }
  destruct (Nat.eqb_spec o 10) as [->|N10].
  { destruct (has param "s10"); reflexivity. }
  cbn [andb].
  do 11 (destruct o as [|o]; try congruence); reflexivity.
Qed.

Lemma inactive_elementwise (d : Damping K) param o only :
  good_param param -> active param o = false ->
  elementwise d param o only (fun _ _ => flit 0).
Proof.
  intros G A. apply elementwise_intro. intros. rewrite damping_call_good, A by auto.
  apply ev_t. destruct H. split; [exact H|reflexivity].
Qed.

(** ** the four shipped functions *)
Definition rat_g (a1 a2 : K) (o : nat) (d r : K) : K :=
  fdiv (flit 1) (fadd (fpown d o) (fpown (fadd (fmul a1 (fsqrt r)) a2) o)).
Definition zero_fac (rs alp : K) (d r : K) : K :=
  fdiv (flit 1) (fadd (flit 1) (fmul (flit 6) (fpow (fmul rs (x_div X d r)) alp))).
Definition zero_g (rs alp : K) (o : nat) (only : bool) (d r : K) : K :=
  if only then zero_fac rs alp d r else x_div X (zero_fac rs alp d r) (fpown d o).
Definition mzero_g (rs alp bet : K) (o : nat) (d r : K) : K :=
  x_div X (fdiv (flit 1) (fadd (flit 1) (fmul (flit 6)
     (fpow (fadd (fdiv d (fmul rs r)) (fmul bet r)) (fopp alp))))) (fpown d o).
Definition op_g (a1 a2 bet : K) (o : nat) (d r : K) : K :=
  let R := fadd (fmul a1 (fsqrt r)) a2 in
  fdiv (fpow d bet) (fadd (fmul (fpow d bet) (fpown d o)) (fmul (fpow R bet) (fpown d o))).

Ltac same_shape := intros ?i ?Hi; cbv beta;
  repeat match goal with H : valid ?s ?i |- context [bidx ?s ?i] =>
    rewrite (bidx_valid s i H) end.

Lemma isnum_some param k p x : dget param k = Some p -> isnum p x ->
  @ev K (num (default (dget param k) PNone)) [] (fun _ => x).
Proof. intros -> H. now apply isnum_ev. Qed.

Lemma pget_ev param k q : good_param (K := K) param -> k <> "doi" ->
  ev (num (default (dget param k) (lit_p q))) [] (fun _ => getd param k q).
Proof. intros G Hk. apply isnum_ev. exact (pget_isnum param k q G Hk). Qed.

Ltac getnum G k E P :=
  let p := fresh "p" in let D := fresh "D" in
  destruct (good_isnum _ k _ G ltac:(discriminate) E) as (p & D & P).

Lemma rational_elementwise param o only a1 a2 :
  good_param param -> getp param "a1" = Some a1 -> getp param "a2" = Some a2 ->
  active param o = true -> elementwise RationalDamping param o only (rat_g a1 a2 o).
Proof.
  intros G E1 E2 A. apply elementwise_intro. intros dist radii s Hd Hr.
  rewrite damping_call_good, A, (bind_call_good param G) by auto. cbn [bind].
  getnum G "a1" E1 P1. getnum G "a2" E2 P2.
  apply isnum_ev in P1 as V1. apply isnum_ev in P2 as V2.
  apply isnum_not_none in P1, P2.
  unfold checked_f. cbn [d_required RationalDamping d_f].
  replace (existsb _ _) with false.
  2:{ assert (L : (match o with 6 | 8 | 10 => ["a1"; "a2"] | _ => [] end) = ["a1"; "a2"]
                  \/ (match o with 6 | 8 | 10 => ["a1"; "a2"] | _ => [] end) = [])
        by (destruct o as [|[|[|[|[|[|[|[|[|[|[|o]]]]]]]]]]]; auto).
      symmetry. destruct L as [-> | ->]; [|reflexivity].
      cbn; rewrite D, D0; simpl; now rewrite P1, P2. }
  unfold rational_f. cbn [g_a1 g_a2]. rewrite D, D0. simpl default.
  unfold assert_some. rewrite P1, P2. cbn [raise_if bind].
  eapply (ev_bind _ _ s). { ev_go. } intros ra Hra.
  eapply ev_conv; [ev_go|]. same_shape. reflexivity.
Qed.

Lemma zero6_elementwise param only rs6 :
  good_param param -> getp param "rs6" = Some rs6 ->
  elementwise (ZeroDamping X) param 6 only (zero_g rs6 (getd param "alp" dALP) 6 only).
Proof.
  intros G E1. apply elementwise_intro. intros dist radii s Hd Hr.
  rewrite damping_call_good, (bind_call_good param G) by auto. cbn [bind active].
  getnum G "rs6" E1 P1. apply isnum_ev in P1 as V1. apply isnum_not_none in P1.
  assert (VA := pget_ev param "alp" dALP G ltac:(discriminate)).
  assert (NA := default_isnum_not_none param "alp" dALP G ltac:(discriminate)).
  unfold checked_f. cbn [d_required ZeroDamping d_f].
  cbn [existsb]. cbn -[default dget lit_p]. rewrite D. cbn [default]. rewrite P1, NA. cbn [orb].
  unfold zero_f. cbn [g_alp g_rs6]. rewrite ?D. cbn [default]. unfold assert_some.
  rewrite P1, NA. cbn [raise_if bind fst snd]. unfold sdivide.
  eapply ev_bind; [exact VA|]. intros al Hal.
  eapply (ev_bind _ _ s). { ev_go. } intros tn Htn.
  eapply (ev_bind _ _ s). { ev_go. } intros fn Hfn.
  destruct only.
  - apply ev_t. eapply ten_conv; [exact Hfn|]. same_shape. reflexivity.
  - eapply ev_conv; [ev_go|]. same_shape. reflexivity.
Qed.

Lemma zero8_elementwise param only rs8 :
  good_param param -> getp param "rs8" = Some rs8 ->
  elementwise (ZeroDamping X) param 8 only
    (zero_g rs8 (fadd (getd param "alp" dALP) (flit 2)) 8 only).
Proof.
  intros G E1. apply elementwise_intro. intros dist radii s Hd Hr.
  rewrite damping_call_good, (bind_call_good param G) by auto. cbn [bind active].
  unfold has at 2. rewrite E1, orb_true_r.
  getnum G "rs8" E1 P1. apply isnum_ev in P1 as V1. apply isnum_not_none in P1.
  assert (VA := pget_ev param "alp" dALP G ltac:(discriminate)).
  assert (NA := default_isnum_not_none param "alp" dALP G ltac:(discriminate)).
  unfold checked_f. cbn [d_required ZeroDamping d_f].
  cbn [existsb]. cbn -[default dget lit_p]. rewrite D. cbn [default]. rewrite P1, NA. cbn [orb].
  unfold zero_f. cbn [g_alp g_rs8]. rewrite ?D. cbn [default]. unfold assert_some.
  rewrite P1, NA. cbn [raise_if bind fst snd]. unfold sdivide.
  eapply (ev_bind _ _ []); [ev_go|]. intros al Hal.
  eapply (ev_bind _ _ s). { ev_go. } intros tn Htn.
  eapply (ev_bind _ _ s). { ev_go. } intros fn Hfn.
  destruct only.
  - apply ev_t. eapply ten_conv; [exact Hfn|]. same_shape. reflexivity.
  - eapply ev_conv; [ev_go|]. same_shape. reflexivity.
Qed.

Lemma zero9_elementwise param only :
  good_param param ->
  elementwise (ZeroDamping X) param 9 only
    (zero_g (getd param "rs9" dRS9) (getd param "alp" dALP) 9 only).
Proof.
  intros G. apply elementwise_intro. intros dist radii s Hd Hr.
  rewrite damping_call_good, (bind_call_good param G) by auto. cbn [bind active].
  assert (V1 := pget_ev param "rs9" dRS9 G ltac:(discriminate)).
  assert (P1 := default_isnum_not_none param "rs9" dRS9 G ltac:(discriminate)).
  assert (VA := pget_ev param "alp" dALP G ltac:(discriminate)).
  assert (NA := default_isnum_not_none param "alp" dALP G ltac:(discriminate)).
  unfold checked_f. cbn [d_required ZeroDamping d_f].
  cbn [existsb]. cbn -[default dget lit_p]. rewrite P1, NA. cbn [orb].
  unfold zero_f. cbn [g_alp g_rs9]. unfold assert_some.
  rewrite P1, NA. cbn [raise_if bind fst snd]. unfold sdivide.
  eapply ev_bind; [exact VA|]. intros al Hal.
  eapply (ev_bind _ _ s). { ev_go. } intros tn Htn.
  eapply (ev_bind _ _ s). { ev_go. } intros fn Hfn.
  destruct only.
  - apply ev_t. eapply ten_conv; [exact Hfn|]. same_shape. reflexivity.
  - eapply ev_conv; [ev_go|]. same_shape. reflexivity.
Qed.

Lemma mzero6_elementwise param only rs6 bet :
  good_param param -> getp param "rs6" = Some rs6 -> getp param "bet" = Some bet ->
  elementwise (MZeroDamping X) param 6 only (mzero_g rs6 (getd param "alp" dALP) bet 6).
Proof.
  intros G E1 E2. apply elementwise_intro. intros dist radii s Hd Hr.
  rewrite damping_call_good, (bind_call_good param G) by auto. cbn [bind active].
  getnum G "rs6" E1 P1. apply isnum_ev in P1 as V1. apply isnum_not_none in P1.
  getnum G "bet" E2 P2. apply isnum_ev in P2 as V2. apply isnum_not_none in P2.
  assert (VA := pget_ev param "alp" dALP G ltac:(discriminate)).
  assert (NA := default_isnum_not_none param "alp" dALP G ltac:(discriminate)).
  unfold checked_f. cbn [d_required MZeroDamping d_f].
  cbn [existsb]. cbn -[default dget lit_p]. rewrite D, D0. cbn [default]. rewrite P1, P2, NA. cbn [orb].
  unfold mzero_f. cbn [g_alp g_rs6 g_bet]. rewrite ?D, ?D0. cbn [default]. unfold assert_some.
  rewrite P1, P2, NA. cbn [raise_if bind fst snd]. unfold sdivide.
  eapply ev_bind; [exact VA|]. intros al Hal.
  eapply (ev_bind _ _ s). { ev_go. } intros tn Htn.
  eapply (ev_bind _ _ s). { ev_go. } intros fn Hfn.
  eapply ev_conv; [ev_go|]. same_shape. reflexivity.
Qed.

Lemma mzero8_elementwise param only rs8 bet :
  good_param param -> getp param "rs8" = Some rs8 -> getp param "bet" = Some bet ->
  elementwise (MZeroDamping X) param 8 only
    (mzero_g rs8 (fadd (getd param "alp" dALP) (flit 2)) bet 8).
Proof.
  intros G E1 E2. apply elementwise_intro. intros dist radii s Hd Hr.
  rewrite damping_call_good, (bind_call_good param G) by auto. cbn [bind active].
  unfold has at 2. rewrite E1, orb_true_r.
  getnum G "rs8" E1 P1. apply isnum_ev in P1 as V1. apply isnum_not_none in P1.
  getnum G "bet" E2 P2. apply isnum_ev in P2 as V2. apply isnum_not_none in P2.
  assert (VA := pget_ev param "alp" dALP G ltac:(discriminate)).
  assert (NA := default_isnum_not_none param "alp" dALP G ltac:(discriminate)).
  unfold checked_f. cbn [d_required MZeroDamping d_f].
  cbn [existsb]. cbn -[default dget lit_p]. rewrite D, D0. cbn [default]. rewrite P1, P2, NA. cbn [orb].
  unfold mzero_f. cbn [g_alp g_rs8 g_bet]. rewrite ?D, ?D0. cbn [default]. unfold assert_some.
  rewrite P1, P2, NA. cbn [raise_if bind fst snd]. unfold sdivide.
  eapply (ev_bind _ _ []); [ev_go|]. intros al Hal.
  eapply (ev_bind _ _ s). { ev_go. } intros tn Htn.
  eapply (ev_bind _ _ s). { ev_go. } intros fn Hfn.
  eapply ev_conv; [ev_go|]. same_shape. reflexivity.
Qed.

Lemma op_elementwise param only o a1 a2 bet :
  good_param param -> (o = 6 \/ o = 8) -> active param o = true ->
  getp param "a1" = Some a1 -> getp param "a2" = Some a2 -> getp param "bet" = Some bet ->
  elementwise OptimisedPowerDamping param o only (op_g a1 a2 bet o).
Proof.
  intros G Ho A E1 E2 E3. apply elementwise_intro. intros dist radii s Hd Hr.
  rewrite damping_call_good, A, (bind_call_good param G) by auto. cbn [bind].
  getnum G "a1" E1 P1. getnum G "a2" E2 P2. getnum G "bet" E3 P3.
  apply isnum_ev in P1 as V1. apply isnum_ev in P2 as V2. apply isnum_ev in P3 as V3.
  apply isnum_not_none in P1, P2, P3.
  unfold checked_f. cbn [d_required OptimisedPowerDamping d_f].
  replace (existsb _ _) with false.
  2:{ symmetry. destruct Ho as [-> | ->];
      cbn; rewrite D, D0, D1; simpl; now rewrite P1, P2, P3. }
  unfold op_f. cbn [g_a1 g_a2 g_bet]. rewrite D, D0, D1. cbn [default].
  unfold assert_some. rewrite P1, P2, P3. cbn [raise_if bind].
  replace (negb _) with false by (destruct Ho as [-> | ->]; reflexivity). cbn [raise_if bind].
  eapply (ev_bind _ _ s). { ev_go. } intros ra Hra.
  eapply (ev_bind _ _ s). { ev_go. } intros ab Hab.
  eapply (ev_bind _ _ s). { ev_go. } intros rb Hrb.
  eapply ev_conv; [ev_go|]. same_shape. reflexivity.
Qed.

(** the ATM call: only [alp] is passed *)
Lemma atm_param_good t : shp t = [] -> good_param (K := K) [("alp", PT t)].
Proof.
  intros Ht k v [E|[]]. injection E as <- <-. split; [simpl; tauto|].
  intros _. exists (dat t []), t. auto.
Qed.

Lemma atm_elementwise t alp : shp t = [] -> dat t [] = alp ->
  elementwise (ZeroDamping X) [("alp", PT t)] 9 true (zero_fac (flit 1) alp).
Proof.
  intros H1 <-. exact (zero9_elementwise [("alp", PT t)] true (atm_param_good t H1)).
Qed.

End D.
