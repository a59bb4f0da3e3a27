(** * C56, the limit: registering a term while another thread calculates *)
From Coq Require Import List Arith ZArith QArith Bool String Reals Lia Lra.
From Verif Require Import Py Tensor Scalar RInst ModelExt ModelUtils ModelDamping ModelModels
  ModelTerms ModelDisp ModelStore ModelConc Spec SpecCall SpecR SpecD4 SpecBounds SpecStore SpecConc StoreP StoreC ConcP
  Inst InstW Usable PropsStore PropsConc PropsD4 PropsBounds.
Import ListNotations.
Open Scope string_scope.

Section P.
Context {N : Num} (X : Ext (sc N)) (W : World N).
Notation K := (sc N).
Notation store := (store N).
Notation P := (P N).

(** own steps of one thread *)
Inductive steps {A} : store -> P A -> store -> P A -> Prop :=
| steps_refl s p : steps s p s p
| steps_step s u n s' p' : steps (u s) (n s) s' p' -> steps s (Step u n) s' p'.
Lemma steps_trans {A} s (p : P A) s1 p1 s2 p2 : steps s p s1 p1 -> steps s1 p1 s2 p2 -> steps s p s2 p2.
Proof. intros H. induction H; auto. intros. constructor. auto. Qed.
Lemma steps_after {A B} s (m : P A) s' m' (k : res A -> P B) : steps s m s' m' -> steps s (after_any m k) s' (after_any m' k).
Proof. intros H. induction H; [constructor|]. rewrite after_step. now constructor. Qed.
Lemma steps_calm {A} f own (r : res A) s p : calm f own r s p -> exists s', sim s s' /\ steps s p s' (Done r).
Proof.
  intros H. cut (forall s1, env f own s s1 -> exists s', sim s1 s' /\ steps s1 p s' (Done r)).
  { intros G. apply G. apply env_refl. }
  induction H as [s|s u n H1 H2 IH]; intros s1 E.
  - exists s1. split; [apply sim_refl|constructor].
  - pose proof (H1 s1 E) as Sm. pose proof (IH s1 E (u s1)) as G.
    destruct (G (env_sim f own s1 (u s1) Sm)) as (s' & Hs & Hp).
    exists s'. split; [now apply sim_trans with (u s1)|now constructor].
Qed.

Lemma set_nth_twice {A} (l : list A) : forall k x y, (k < List.length l)%nat ->
  ModelStore.set_nth (ModelStore.set_nth l k x) k y = ModelStore.set_nth l k y.
Proof.
  unfold ModelStore.set_nth. induction l as [|z l IH]; intros [|k] x y H; cbn [List.length] in H; try lia; [reflexivity|].
  cbn [firstn app skipn]. f_equal. apply IH. lia.
Qed.
Lemma steps_pool {A} k s (p : P A) s' p' : steps s p s' p' -> forall ps, nth_error ps k = Some p ->
  exists n, interleave (repeat k n) (mkPool s ps) = mkPool s' (ModelStore.set_nth ps k p').
Proof.
  intros H. induction H as [s p|s u n s' p' H IH]; intros ps Hk.
  - exists 0%nat. cbn [repeat interleave fold_left]. now rewrite set_nth_same.
  - destruct (IH (ModelStore.set_nth ps k (n s))) as (m & Hm).
    + rewrite set_nth_nth by now apply nth_some_lt with (Step u n). now rewrite Nat.eqb_refl.
    + exists (S m). cbn [repeat interleave fold_left]. unfold tick at 2. cbn [progs shared]. rewrite Hk. unfold interleave in Hm. rewrite Hm.
      now rewrite set_nth_twice by now apply nth_some_lt with (Step u n).
Qed.

Definition uncharged (v : DispTerm N) : DispTerm N := mkTerm (t_class v) (t_damping v) false.

Lemma checks_only i s o a e : nth_error (s_disps s) i = Some o -> o_terms o = [] -> a_q a = None ->
  run X W (with_terms (o_conf o) []) a = Ok e ->
  exists cn model r4r2 rvdw,
    steps s (calc X W i a) s (for_terms i (mkT (shp (a_numbers a)) (fun _ => f0)) (fun energy t =>
       bindP (term_calculate_th X t (a_numbers a) (a_positions a) (a_param a) cn model None r4r2 rvdw (default (a_cutoff a) default_cutoff)) (fun e =>
       bindP (done (tadd (Ok energy) (Ok e))) (fun energy' => done (Ok (energy', false)))))) /\
    forall v, run X W (with_terms (o_conf o) [uncharged v]) a =
      sum_terms (mkT (shp (a_numbers a)) (fun _ => f0)) [v] (fun v => term_calculate X v (a_numbers a) (a_positions a) (a_param a) cn model None r4r2 rvdw (default (a_cutoff a) default_cutoff)).
Proof.
  intros Ei Eo Eq. unfold run, calculate, calc, calculate_th. rewrite Eq. cbn [with_terms p_terms existsb p_cn_fn p_cn_kw].
  intros E.
  repeat match type of E with bind ?r _ = Ok _ => let y := fresh "y" in let Ey := fresh "Ey" in
     destruct r as [y|] eqn:Ey; [|discriminate E]; cbn [bind] in E end.
  match goal with H : p_cn_fn _ _ _ _ = Ok ?y |- _ => exists y end.
  exists y0, y2, y4. change (get_model X (with_terms (o_conf o) []) (a_numbers a)) with (get_model X (o_conf o) (a_numbers a)) in Ey0.
  split.
  - unfold get, act. unfold bindP at 1. rewrite after_step. constructor. cbn [fst snd deref]. unfold deref. rewrite Ei. cbn [fst snd].
    rewrite after_done. unfold done. rewrite bind_done, Ey0, bind_done, bind_done, bind_done, Ey3, bind_done, bind_done, Ey5, bind_done, Ey6, bind_done.
    unfold for_terms at 1. rewrite iter_unfold. unfold bindP at 1. rewrite after_step. constructor. rewrite Ei, Eo. cbn [nth_error].
    rewrite after_done, bind_done, bind_done, bind_done. constructor.
  - intros v. change (get_model X (with_terms (o_conf o) [uncharged v]) (a_numbers a)) with (get_model X (o_conf o) (a_numbers a)).
    rewrite Ey0. cbn [bind]. rewrite Ey3. cbn [bind]. rewrite Ey5. cbn [bind uncharged t_cdep orb]. cbn [sum_terms].
    assert (T : forall t, term_calculate X (uncharged t) (a_numbers a) (a_positions a) (a_param a) y6 y0 None y2 y4 (default (a_cutoff a) default_cutoff)
       = term_calculate X t (a_numbers a) (a_positions a) (a_param a) y6 y0 None y2 y4 (default (a_cutoff a) default_cutoff)).
    { intros t. unfold term_calculate, uncharged. cbn [t_class t_damping t_cdep]. destruct (t_cdep t); reflexivity. }
    fold (uncharged v). now rewrite T.
Qed.

(** A term is registered by another thread after [calculate] has looked whether a term needs
    charges, and before it adds up the terms: the energy is that of the term without charges, with
    charges given to no term, although the term depends on charges. *)
Theorem C56_register_during_calculate : forall history i t p v a e,
  let s := after X W history in
  the_disp s i = Some p -> p_terms p = [] -> the_term s t = Some v -> a_q a = None -> run X W p a = Ok e ->
  exists schedule, results (concurrently X W history [[Do (Calculate i a)]; [Do (Register i t)]] schedule) 0
    = Some [rmap Some (run X W (with_terms p [uncharged v]) a)].
Proof.
  intros history i t p v a e s Hp Ep Ht Hq Hr. unfold the_disp in Hp.
  destruct (nth_error (s_disps s) i) as [o|] eqn:Ei; [|discriminate].
  destruct (all (map (the_term s) (o_terms o))) as [vs|] eqn:Ea; [|discriminate]. injection Hp as <-.
  cbn [with_terms p_terms] in Ep. subst vs.
  assert (Eo : o_terms o = []). { destruct (o_terms o); [reflexivity|]. cbn [map] in Ea. apply all_cons in Ea as (? & ? & _ & _ & ?). discriminate. }
  destruct (checks_only i s o a e Ei Eo Hq Hr) as (cn & model & r4r2 & rvdw & H1 & H2).
  change (with_terms (with_terms (o_conf o) []) [uncharged v]) with (with_terms (o_conf o) [uncharged v]). rewrite H2. clear H2.
  match type of H1 with steps _ _ _ ?q => set (rest := q) in * end.
  set (k0 := fun r => bindP (thread X W []) (fun rs => Done (Ok (r :: rs)))).
  set (kv := fun r : res (tensor K) => match r with Ok x => Done (Ok (Some x)) | Raise e0 => Done (Raise e0) end : P (option (tensor K))).
  assert (S1 : steps s (thread X W [Do (Calculate i a)]) s (after_any (after_any rest kv) k0)).
  { change (thread X W [Do (Calculate i a)]) with (after_any (after_any (calc X W i a) kv) k0). now apply steps_after, steps_after. }
  set (ps := [thread X W [Do (Calculate i a)]; thread X W [Do (Register i t)]]).
  destruct (steps_pool 0 _ _ _ _ S1 ps eq_refl) as (n1 & E1).
  set (p1 := thread X W [Do (Register i t)]) in *.
  assert (E2 : exists p1', steps s p1 (fst (register_obj i t s)) p1').
  { unfold p1. cbn [thread program]. unfold no_value, value, register_th, act. unfold bindP. rewrite !after_step.
    eexists. constructor. constructor. }
  destruct E2 as (p1' & S2). set (s1 := fst (register_obj i t s)) in *.
  set (ps1 := ModelStore.set_nth ps 0 (after_any (after_any rest kv) k0)) in *.
  destruct (steps_pool 1 _ _ _ _ S2 ps1 eq_refl) as (n2 & E2).
  assert (Es1 : s1 = mkStore (s_damp s) (s_terms s) (ModelStore.set_nth (s_disps s) i (mkDispObj [t] (o_conf o)))).
  { unfold s1, register_obj, bindM, deref. rewrite Ei. cbn [fst snd]. unfold set_terms. cbn [fst]. now rewrite Eo. }
  assert (Li : (i < List.length (s_disps s))%nat) by now apply nth_some_lt with o.
  assert (Ei1 : nth_error (s_disps s1) i = Some (mkDispObj [t] (o_conf o))).
  { rewrite Es1. cbn [s_disps]. rewrite set_nth_nth by auto. now rewrite Nat.eqb_refl. }
  assert (Ht1 : the_term s1 t = Some v) by (rewrite Es1; exact Ht).
  assert (Et1 : all (map (the_term s1) [t]) = Some [v]) by (cbn [map]; rewrite Ht1; reflexivity).
  match goal with |- context [sum_terms ?z [v] ?c] => set (zero := z) in *; set (cal := c) in *; set (r := sum_terms zero [v] cal) in * end.
  assert (C : calm (List.length (s_disps s1)) [] r s1 rest).
  { unfold r. rewrite <- (sum_loop s1 [t] [v] cal Et1 zero). unfold rest.
    apply (for_calm (List.length (s_disps s1)) [] s1 i (mkDispObj [t] (o_conf o))); [left; now apply nth_some_lt with (mkDispObj [t] (o_conf o))|exact Ei1| |apply env_refl].
    intros e0 t0 [<-|[]]. rewrite Ht1. apply calmly_bind; [apply term_calm; exact Ht1|]. intros y _. apply calmly_bind_done. intros e' _. apply calmly_done. }
  destruct (steps_calm _ _ _ _ _ C) as (s2 & _ & S3).
  assert (S4 : steps s1 (after_any (after_any rest kv) k0) s2 (Done (Ok [rmap Some r]))).
  { replace (Done (Ok [rmap Some r])) with (after_any (after_any (Done r) kv) k0); [now apply steps_after, steps_after|].
    rewrite after_done. assert (Ekv : kv r = Done (rmap Some r)) by (unfold kv; destruct r; reflexivity). rewrite Ekv, after_done.
    unfold k0. cbn [thread]. now rewrite bind_done. }
  destruct (steps_pool 0 _ _ _ _ S4 (ModelStore.set_nth ps1 1 p1') eq_refl) as (n3 & E3).
  exists (repeat 0%nat n1 ++ repeat 1%nat n2 ++ repeat 0%nat n3)%list. unfold concurrently. cbn [map]. fold s p1 ps.
  unfold interleave in *. rewrite !fold_left_app, E1, E2, E3. reflexivity.
Qed.
End P.
Print Assumptions C56_register_during_calculate.

(** So a call may have a result that it has neither before nor after the registration. *)
Section R.
Context {mx : R} (Hm : (1 <= mx)%R).
Notation N := (RN 0 mx).
Notation X := (Xex 0 mx : Ext (sc N)).
(** no charge model *)
Definition no_eeq : World N := mkWorld cn_ex cn_ex (fun x _ => x) (fun _ _ _ _ => Raise RuntimeError).
Notation W := no_eeq.
(** [d = Disp(model="d4")], [t = TwoBodyTerm()] *)
Definition bare : list (event N) := [NewDisp [] (MKey "d4") no_kw None None; NewTerm default_two_body].
Definition bare_disp (ts : list (DispTerm N)) : Disp N := mkDisp ts cn_ex None "d4" None no_kw.

Lemma bare_wf v : v = [] \/ v = [mkTerm TwoBodyTerm RationalDamping false] ->
  well_formed X W (bare_disp v) mol_call D4M no_kw 3 3 [2%nat].
Proof.
  intros Hv. destruct (mol_wf 0 mx) as ([] & _). constructor; auto.
  - intros Hq. now elim Hq.
  - intros t Ht. destruct Hv as [->| ->]; [destruct Ht|]. destruct Ht as [<-|[]].
    apply usable_rational; [apply pbe_like_good|discriminate|discriminate].
  - intros _ (t & Ht & Et). destruct Hv as [->| ->]; [destruct Ht|]. destruct Ht as [<-|[]]. discriminate.
Qed.

Lemma bare_before : exists e, run X W (bare_disp []) mol_call = Ok e /\ sl1 e [0%nat] 0 = 0%R.
Proof.
  destruct (C53_energy_formula X W (bare_disp []) mol_call D4M no_kw 3 3 [2%nat] (/ 2)%R 0%R) as (cn & q & _ & _ & H).
  - exact (Xex_tables 0 mx).
  - exact Hm.
  - lra.
  - apply Xex_dist.
  - apply Xex_div.
  - apply Xex_sqrt.
  - apply bare_wf. now left.
  - intros t [].
  - intros t [].
  - apply sep_mols.
  - unfold cut3. cbn. unfold Q2R; cbn. lra.
  - destruct H as (e & Ee & _ & He); [intros b t _ []|]. exists e. split; [exact Ee|]. rewrite He; [reflexivity|cbn; lia|lia].
Qed.
Lemma bare_race : exists e, run X W (bare_disp [mkTerm TwoBodyTerm RationalDamping false]) mol_call = Ok e /\ (sl1 e [0%nat] 0 < 0)%R.
Proof.
  destruct (C57_two_body_negative X W (bare_disp [mkTerm TwoBodyTerm RationalDamping false]) mol_call D4M no_kw 3 3 [2%nat] (/ 2)%R 0%R) as (e & Ee & _ & He).
  - exact (Xex_tables 0 mx).
  - exact Hm.
  - lra.
  - apply Xex_dist.
  - apply Xex_div.
  - apply Xex_sqrt.
  - apply bare_wf. now right.
  - intros t [<-|[]]. split; reflexivity.
  - discriminate.
  - discriminate.
  - apply sep_mols.
  - unfold cut3. cbn. unfold Q2R; cbn. lra.
  - apply call_attractive.
  - exists e. split; [exact Ee|].
    apply He; [cbn; lia|lia|discriminate|cbn; lra|]. exists 1%nat. split; [lia|]. split; [discriminate|].
    split; [split; cbn; [lia|discriminate]|]. split; [split; cbn; [lia|discriminate]|].
    unfold mol_x. cbn [mol_call call a_positions]. unfold euclid. rewrite line_sqd.
    replace (((INR 0 - INR 1) * 2) ^ 2)%R with (2 ^ 2)%R by (cbn; ring). rewrite sqrt_pow2 by lra. unfold cut2. cbn. lra.
Qed.
Lemma bare_after e : run X W (bare_disp [mkTerm TwoBodyTerm RationalDamping true]) mol_call <> Ok e.
Proof.
  unfold run, calculate. intros E.
  repeat match type of E with bind ?r _ = Ok _ => let y := fresh "y" in let Ey := fresh "Ey" in
     destruct r as [y|] eqn:Ey; [|discriminate E]; cbn [bind] in E end.
  match goal with H : (match a_q mol_call with _ => _ end) = Ok _ |- _ => cbn in H; discriminate H end.
Qed.
End R.

(** "Every call has a result that it has before or after the registration" *)
Theorem C56_registering_threads_refuted :
  ~ (forall (N : Num) (X : Ext (sc N)) (W : World N) history i t a schedule rs,
       results (concurrently X W history [[Do (Calculate i a)]; [Do (Register i t)]] schedule) 0 = Some rs ->
       rs = [result X W (after X W history) (Calculate i a)] \/
       rs = [result X W (after X W (history ++ [Register i t])%list) (Calculate i a)]).
Proof.
  intros H. assert (Hm : (1 <= 1)%R) by lra.
  destruct (bare_before Hm) as (e0 & E0 & Z0). destruct (bare_race Hm) as (e1 & E1 & Z1).
  destruct (C56_register_during_calculate (N := RN 0 1) (Xex 0 1) no_eeq bare 0 0 (bare_disp []) (mkTerm TwoBodyTerm RationalDamping true) mol_call e0) as (schedule & Hr);
    try reflexivity; [exact E0|].
  change (with_terms (bare_disp []) [uncharged (mkTerm TwoBodyTerm RationalDamping true)])
    with (bare_disp (mx := 1) [mkTerm TwoBodyTerm RationalDamping false]) in Hr. rewrite E1 in Hr.
  apply H in Hr.
  rewrite (C43_calculate_after_any_history (N := RN 0 1) (Xex 0 1) no_eeq bare 0 (bare_disp []) mol_call eq_refl) in Hr.
  rewrite (C43_calculate_after_any_history (N := RN 0 1) (Xex 0 1) no_eeq (bare ++ [Register 0 0])%list 0
             (bare_disp [mkTerm TwoBodyTerm RationalDamping true]) mol_call eq_refl) in Hr.
  pose proof (bare_after (mx := 1)) as E2. rewrite E0 in Hr.
  destruct (run (N := RN 0 1) (Xex 0 1) no_eeq (bare_disp [mkTerm TwoBodyTerm RationalDamping true]) mol_call) as [e2|x]; [now elim (E2 e2)|].
  cbn [rmap] in Hr. destruct Hr as [E|E]; [|discriminate]. injection E as E. rewrite E in Z1. lra.
Qed.
Print Assumptions C56_registering_threads_refuted.

Example C56_race_example :
  the_disp (after (N := RN 0 1) (Xex 0 1) no_eeq bare) 0 = Some (bare_disp []) /\
  the_term (after (N := RN 0 1) (Xex 0 1) no_eeq bare) 0 = Some (mkTerm TwoBodyTerm RationalDamping true) /\
  exists e, run (N := RN 0 1) (Xex 0 1) no_eeq (bare_disp []) mol_call = Ok e.
Proof.
  split; [reflexivity|]. split; [reflexivity|]. destruct (bare_before (mx := 1)) as (e & E & _); [lra|]. now exists e.
Qed.
