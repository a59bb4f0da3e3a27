(** * C59: precision and device of the results

    The statements are about [ModelDtype.v]: which dtype and device every tensor of a
    calculation has.  [dflt] is [torch.get_default_dtype()]. *)
From Coq Require Import List Arith Bool String.
From Verif Require Import Py ModelTerms ModelDtype SpecDtype DtypeP.
Import ListNotations.
Open Scope string_scope.

Section C59.
Context (dflt : dtype) (Hf : is_float dflt = true).

Lemma fold_same p l : is_float p = true ->
  fold_left (fun a t => promote a (term_dtype t p p p p)) l p = p.
Proof.
  intros Hp. induction l as [|t l IH]; [reflexivity|]. cbn [fold_left].
  replace (promote p (term_dtype t p p p p)) with p; [exact IH|].
  unfold term_dtype. destruct p; try discriminate Hp;
    destruct (tt_class t), (radius_rvdw (tt_damping t)); reflexivity.
Qed.

Lemma fold_mixed p d l : is_float p = true -> is_float d = true -> l <> [] ->
  fold_left (fun a t => promote a (term_dtype t p d d d)) l p = promote p d.
Proof.
  intros Hp Hd Hl.
  assert (G : forall l e, e = promote p d ->
     fold_left (fun a t => promote a (term_dtype t p d d d)) l e = promote p d).
  { clear l Hl. induction l as [|t l IH]; intros e ->; [reflexivity|]. cbn [fold_left].
    apply IH. unfold term_dtype. destruct p, d; try discriminate;
    destruct (tt_class t), (radius_rvdw (tt_damping t)); reflexivity. }
  destruct l as [|t l]; [congruence|]. cbn [fold_left]. apply G.
  unfold term_dtype. destruct p, d; try discriminate;
    destruct (tt_class t), (radius_rvdw (tt_damping t)); reflexivity.
Qed.

Lemma opt_arg p v o : o = None \/ o = Some (with_dims p v) -> is_float p = true ->
  exists o', o = option_map (fun a => with_dims a v) o' /\ arg_on v o' /\
    (o' = None \/ o' = Some p) /\ (o' <> None -> o <> None).
Proof.
  intros [->| ->] Hp.
  - exists None. split; [reflexivity|]. split; [exact I|]. split; [now left|]. congruence.
  - exists (Some p). split; [reflexivity|]. split; [exact Hp|]. split; [now right|]. discriminate.
Qed.

(** Everything in one precision on one device: the energies have this precision and
    are on this device, for every list of terms, every damping function, parameters and
    cutoffs given as Python numbers or as tensors of another precision, or on the CPU. *)
Theorem C59_energy_type : forall p v D P cut q r4r2 rvdw,
  is_float p = true ->
  py_dd D = mkDD p v ->
  (exists k, py_model D = MKey k) \/
  (exists k m, py_model D = MInst m /\
     new_model_ty dflt k (mkDD p v) (with_dims Int64 v) None None = Ok m) ->
  Forall (term_on v) (py_terms D) ->
  params_on v P -> cutoff_on v cut ->
  q = None \/ q = Some (with_dims p v) ->
  r4r2 = None \/ r4r2 = Some (with_dims p v) ->
  rvdw = None \/ rvdw = Some (with_dims p v) ->
  (q <> None -> existsb tt_cdep (py_terms D) = true) ->
  yields (calculate_ty dflt D (with_dims Int64 v) (with_dims p v) P cut q r4r2 rvdw)
         (with_dims p v).
Proof.
  intros p v D P cut q r4 rw Hp Edd Em Ht HP Hc Hq H4 Hw Hqc.
  destruct (opt_arg p v q Hq Hp) as (q' & -> & Aq & Cq & Nq).
  destruct (opt_arg p v r4 H4 Hp) as (r4' & -> & A4 & C4 & _).
  destruct (opt_arg p v rw Hw Hp) as (rw' & -> & Aw & Cw & _).
  assert (Em' : (exists k, py_model D = MKey k) \/
                (exists m, py_model D = MInst m /\ model_on v p m)).
  { destruct Em as [E|(k & m & E & Hm)]; [now left|right]. exists m. split; [exact E|].
    destruct (new_model_D dflt v k p Hp) as (m' & Hm' & On). congruence. }
  assert (Eq : default q' p = p) by (destruct Cq as [->| ->]; reflexivity).
  assert (E4 : default r4' p = p) by (destruct C4 as [->| ->]; reflexivity).
  assert (Ew : default rw' p = p) by (destruct Cw as [->| ->]; reflexivity).
  assert (K : exists k, py_model D = MKey k \/
                (exists m, py_model D = MInst m /\ model_on v p m)).
  { destruct Em' as [[k E]|E]; [exists k|exists TD4]; auto. }
  destruct K as [k K].
  pose proof (calc_D dflt v Hf D k P cut q' r4' rw' p p Edd K Ht HP Hc Hp Hp Aq A4 Aw) as G.
  cbn zeta in G. rewrite Eq, E4, Ew, (fold_same p (py_terms D) Hp) in G.
  apply G.
  - intros H. apply Hqc, Nq, H.
  - intros _. now destruct p.
Qed.

(** [dftd4] never fails for reasons of dtype or device when atoms, positions and the
    optional arguments agree, and with the two parameters of rational damping it does not
    fail at all: the energies have the dtype of the positions. *)
Theorem C59_dftd4 : forall p v P k cut q r4r2 rvdw,
  is_float p = true -> params_on v P -> cutoff_on v cut ->
  dmem P "a1" = true -> dmem P "a2" = true ->
  q = None \/ q = Some (with_dims p v) ->
  r4r2 = None \/ r4r2 = Some (with_dims p v) ->
  rvdw = None \/ rvdw = Some (with_dims p v) ->
  dftd4_ty dflt (with_dims Int64 v) (with_dims p v) P (MKey k) r4r2 rvdw q cut Rational
  = Ok (with_dims p v).
Proof.
  intros p v P k cut q r4 rw Hp HP Hc Ha1 Ha2 Hq H4 Hw.
  unfold dftd4_ty, calculate_ty. cbn [with_dims ty_dtype ty_dev py_dd py_model py_terms].
  fold (with_dims p v).
  unfold get_model_ty. cbn [py_model py_dd].
  destruct (new_model_D dflt v k p Hp) as (m & -> & Hm). cbn [bind].
  replace (match r4 with Some r => Ok r | None => egather (table_of (mkDD p v)) (with_dims Int64 v) end)
    with (Ok (with_dims p v))
    by (destruct H4 as [->| ->]; [now rewrite table_D, gather_D|reflexivity]).
  replace (match rw with Some r => Ok r | None => egather (table_of (mkDD p v)) (with_dims Int64 v) end)
    with (Ok (with_dims p v))
    by (destruct Hw as [->| ->]; [now rewrite table_D, gather_D|reflexivity]).
  cbn [bind]. rewrite atomwise_D. cbn [bind rmap existsb tt_cdep orb].
  replace (raise_if (match q with Some _ => negb true | None => false end) RuntimeError)
    with (Ok tt) by (destruct Hq as [->| ->]; reflexivity).
  cbn [bind].
  replace (match q with Some q0 => Ok (Some q0) | None => Ok (Some (with_dims p v)) end)
    with (Ok (Some (with_dims p v))) by (destruct Hq as [->| ->]; reflexivity).
  cbn [bind]. rewrite table_D.
  set (cu := default cut (default_cutoff_ty (mkDD p v))).
  assert (Hcu : small v (cu_disp2 cu) /\ small v (cu_disp3 cu)).
  { unfold cu. destruct cut; cbn; auto. }
  destruct Hcu as [Hc2 Hc3]. clearbody cu.
  cbn [sum_terms_ty lift2 tval_res bind].
  set (two := mkTTerm _ Rational _ _). set (three := mkTTerm _ Zero _ _).
  assert (Hdflt : small v (scalar_of (tensorlike dflt None None))) by (cbn; auto).
  (* two-body term *)
  assert (E2 : term_calculate_ty dflt two (with_dims Int64 v) (with_dims p v) P (with_dims p v) m
                 (Some (with_dims p v)) (with_dims p v) (with_dims p v) (cu_disp2 cu) (cu_disp3 cu)
               = Ok (with_dims p v)).
  { unfold term_calculate_ty. cbn [two tt_cdep tt_class tt_damping].
    change (Some (with_dims p v)) with (option_map (fun a => with_dims a v) (Some p)).
    rewrite (weights_seen dflt v Hf m p p Hm Hp Hp (Some p) Hp).
    rewrite (promote_idem p). cbn [bind]. rewrite (c6_D v p m Hm). cbn [bind].
    destruct (dispersion2_S dflt v P HP Rational p p p p (cu_disp2 cu) Hp Hp Hp Hp Hc2)
      as [->|(o & e & Ho & He & _)].
    - cbn [radius_rvdw]. now rewrite !promote_idem.
    - exfalso. cbn [radius_rvdw] in He.
      destruct (rational_ok dflt v P HP p p o Hp Hp Ho Ha1 Ha2) as (b & Hb). congruence. }
  rewrite E2. cbn [bind]. rewrite ebin_DD, promote_idem. cbn [bind].
  assert (E3 : term_calculate_ty dflt three (with_dims Int64 v) (with_dims p v) P (with_dims p v) m
                 (Some (with_dims p v)) (with_dims p v) (with_dims p v) (cu_disp2 cu) (cu_disp3 cu)
               = Ok (with_dims p v)).
  { unfold term_calculate_ty. cbn [three tt_cdep tt_class tt_damping].
    change (@None tval) with (option_map (fun a => with_dims a v) None).
    rewrite (weights_seen dflt v Hf m p p Hm Hp Hp None I).
    cbn [bind]. rewrite (c6_D v p m Hm). cbn [bind lift2 tval_res].
    repeat (rewrite ebin_DD, promote_idem; cbn [bind lift2 tval_res]).
    unfold ssqrt_ty, lift1. cbn [bind]. rewrite efun_D by exact Hp. cbn [bind].
    rewrite (radii_D dflt v three P p p HP Hdflt Hp Hp) by discriminate.
    cbn [bind three tt_class tt_dd].
    rewrite atm_zero; auto.
    - now rewrite !promote_idem.
    - apply get_small; auto.
    - apply get_small; auto. }
  rewrite E3. cbn [bind]. now rewrite ebin_DD, promote_idem.
Qed.

(** [get_properties]: all four results have dtype and device of the positions. *)
Theorem C59_get_properties : forall p v, is_float p = true ->
  get_properties_ty dflt (with_dims Int64 v) (with_dims p v)
  = Ok (with_dims p v, with_dims p v, with_dims p v, with_dims p v).
Proof.
  intros p v Hp. unfold get_properties_ty. cbn [with_dims ty_dtype ty_dev]. fold (with_dims p v).
  rewrite atomwise_D. cbn [bind].
  destruct (new_model_D dflt v TD4 p Hp) as (m & -> & Hm). cbn [bind].
  change (Some (with_dims p v)) with (option_map (fun a => with_dims a v) (Some p)).
  rewrite (weights_seen dflt v Hf m p p Hm Hp Hp (Some p) Hp), promote_idem. cbn [bind].
  rewrite (c6_D v p m Hm). cbn [bind]. unfold get_polarizabilities_ty.
  destruct Hm as (-> & -> & _). rewrite (alpha_D dflt v p Hp). cbn [bind].
  now rewrite contract_DD.
Qed.

(** A [Disp] object created in precision [d] (default: [dflt]) and positions in precision [p]:
    without charge dependent terms, or when [d] is at least the precision of the charges,
    the energies come in the higher of the two precisions.  Otherwise the call raises. *)
Theorem C59_mixed_precision : forall p d v D k P cut q,
  is_float p = true -> is_float d = true ->
  py_dd D = mkDD d v -> py_model D = MKey k -> py_terms D <> [] ->
  Forall (term_on v) (py_terms D) ->
  params_on v P -> cutoff_on v cut ->
  q = None \/ (q = Some (with_dims p v) /\ existsb tt_cdep (py_terms D) = true) ->
  let run := calculate_ty dflt D (with_dims Int64 v) (with_dims p v) P cut q None None in
  (existsb tt_cdep (py_terms D) = true /\ d = Float32 /\ p = Float64 -> exists e, run = Raise e) /\
  (~ (existsb tt_cdep (py_terms D) = true /\ d = Float32 /\ p = Float64) ->
     yields run (with_dims (if dtype_eqb d Float64 then Float64 else p) v)).
Proof.
  intros p d v D k P cut q Hp Hd Edd Em Hne Ht HP Hc Hq run.
  assert (Hq' : exists q', q = option_map (fun a => with_dims a v) q' /\ arg_on v q' /\
            default q' p = p /\ (q' <> None -> existsb tt_cdep (py_terms D) = true)).
  { destruct Hq as [->|[-> Hq]].
    - exists None. split; [reflexivity|]. split; [exact I|]. split; [reflexivity|]. congruence.
    - exists (Some p). cbn. auto. }
  destruct Hq' as (q' & -> & Aq & Eq & Hqc). subst run. split.
  - intros (Hcd & -> & ->).
    pose proof (calc_ne dflt v Hf D k P cut q' None None Float64 Float32 Edd (or_introl Em) Ht HP Hc
                  eq_refl eq_refl Aq I I) as G.
    cbn zeta in G. rewrite Eq in G. apply G; [exact Hcd|discriminate].
  - intros Hno.
    pose proof (calc_D dflt v Hf D k P cut q' None None p d Edd (or_introl Em) Ht HP Hc
                  Hp Hd Aq I I Hqc) as G.
    cbn zeta in G. rewrite Eq in G. cbn [default] in G.
    rewrite (fold_mixed p d (py_terms D) Hp Hd Hne) in G.
    replace (if dtype_eqb d Float64 then Float64 else p) with (promote p d)
      by (destruct p, d; try discriminate; reflexivity).
    apply G. intros Hcd. destruct p, d; try discriminate; try reflexivity.
    exfalso. apply Hno. auto.
Qed.

(** ** Devices *)

Lemma raise_bind {A B} (m : res A) (k : A -> res B) :
  (forall x, m = Ok x -> exists e, k x = Raise e) -> exists e, bind m k = Raise e.
Proof. destruct m as [x|e]; cbn; eauto. Qed.

Lemma gather_dev a w i r : egather (VT (mkTy a w true)) i = Ok r -> r = VT (mkTy a w true).
Proof.
  cbn. destruct i as [t|]; [|discriminate].
  destruct (dtype_eqb _ _); [|discriminate]. destruct (_ || _)%bool; [|discriminate]. congruence.
Qed.

Lemma other_device a b v w : v <> w ->
  ebin dflt (VT (mkTy a v true)) (VT (mkTy b w true)) = Raise RuntimeError.
Proof.
  intros Hvw. unfold ebin, same_device. cbn.
  destruct v as [|n], w as [|m]; cbn; try congruence.
  - now rewrite andb_false_r.
  - rewrite Nat.eqb_refl. cbn.
    replace (Nat.eqb m n) with false; [reflexivity|].
    symmetry. apply Nat.eqb_neq. congruence.
Qed.

(** A calculation that succeeds has used one device: a [Disp] object, atomic numbers or
    positions on another device are never accepted silently. *)
Theorem C59_one_device : forall d w u v p D k P cut q r4r2 rvdw r,
  py_dd D = mkDD d w -> py_model D = MKey k -> py_terms D <> [] ->
  calculate_ty dflt D (with_dims Int64 u) (with_dims p v) P cut q r4r2 rvdw = Ok r ->
  u = v /\ v = w.
Proof.
  intros d w u v p D k P cut q r4 rw r Edd Em Hne H.
  assert (Huv : u = v).
  { destruct (device_eqb u v) eqn:E; [now apply device_eqb_eq|exfalso].
    revert H. unfold calculate_ty. cbn [with_dims ty_dtype ty_dev].
    destruct (get_model_ty _ _ _) as [m|]; [|discriminate]. cbn [bind].
    destruct (match r4 with Some _ => _ | None => _ end); [|discriminate]. cbn [bind].
    destruct (match rw with Some _ => _ | None => _ end); [|discriminate]. cbn [bind].
    cbn. rewrite E. discriminate. }
  subst u. split; [reflexivity|].
  destruct (device_eqb v w) eqn:E; [now apply device_eqb_eq|exfalso].
  assert (Hvw : v <> w) by (intros ->; now rewrite device_eqb_refl in E). clear E.
  enough (exists e, calculate_ty dflt D (with_dims Int64 v) (with_dims p v) P cut q r4 rw = Raise e)
    as [e He] by congruence.
  clear H. unfold calculate_ty. cbn [with_dims ty_dtype ty_dev].
  fold (with_dims Int64 v) (with_dims p v).
  apply raise_bind. intros m Hm. apply raise_bind. intros r4' _. apply raise_bind. intros rw' _.
  rewrite atomwise_D. cbn [bind]. apply raise_bind. intros _ _. apply raise_bind. intros q' _.
  assert (Hdd : my_dd m = mkDD d w).
  { unfold get_model_ty in Hm. rewrite Em, Edd in Hm. unfold new_model_ty in Hm.
    destruct (get_wf_ty k (mkDD d w) (with_dims Int64 v)); [|discriminate]. cbn [bind] in Hm.
    destruct (lift1 _ _); [|discriminate]. cbn [bind] in Hm. injection Hm as <-. reflexivity. }
  destruct (py_terms D) as [|t l]; [congruence|]. cbn [sum_terms_ty].
  apply raise_bind. intros x Hx. exfalso. revert Hx. cbn [lift2 tval_res bind].
  unfold term_calculate_ty, weight_references_ty. rewrite Hdd. cbn [dd_dev].
  destruct (egather (table_of _) _) as [g|]; [|discriminate]. cbn [bind].
  destruct (egather (int_table _) _) as [g'|]; [|discriminate]. cbn [bind].
  destruct (lift2 ecmp g' _) as [g''|]; [|discriminate]. cbn [bind].
  unfold gauss_ty. rewrite Hdd. cbn [dd_dev].
  destruct (egather (int_table _) _) as [h|]; [|discriminate]. cbn [bind].
  destruct (lift2 ecmp h _) as [h'|]; [|discriminate]. cbn [bind].
  destruct (egather (table_of (mkDD Float64 w)) _) as [h''|] eqn:Eg; [|discriminate]. cbn [bind].
  apply gather_dev in Eg as ->.
  rewrite cast_D. cbn [lift2 tval_res bind].
  unfold with_dims. rewrite other_device by exact Hvw. discriminate.
Qed.

End C59.

(** ** Examples *)

(** Parameters of a rational damping as Python numbers and single precision CPU tensors. *)
Definition some_params : PTy :=
  [("a1", VPy true); ("a2", VT (mkTy Float32 Cpu false)); ("s8", VPy true);
   ("s10", VT (mkTy Float64 Cpu false))].

Lemma some_params_on v : params_on v some_params.
Proof.
  intros k x. unfold some_params. cbn [dget].
  repeat match goal with |- context [String.eqb ?a k] => destruct (String.eqb a k) end;
    intros H; inversion H; cbn; auto.
Qed.

(** Double precision positions on a GPU, parameters partly on the CPU. *)
Example C59_dftd4_example :
  dftd4_ty Float32 (with_dims Int64 (Cuda 1)) (with_dims Float64 (Cuda 1)) some_params (MKey TD4S)
    None None None None Rational = Ok (with_dims Float64 (Cuda 1)).
Proof. apply C59_dftd4; cbn; auto. apply some_params_on. Qed.

(** The terms of [DispD4], created by the constructor of [Disp] without [device], [dtype]. *)
Definition terms_d4_ty (dflt : dtype) : list TTerm :=
  [mkTTerm TwoBodyTerm Rational true (tensorlike dflt None None);
   mkTTerm D4ATMApprox Zero false (tensorlike dflt None None)].

Example C59_energy_type_example :
  yields (calculate_ty Float32 (mkDispTy (mkDD Float64 (Cuda 0)) (MKey TD4) (terms_d4_ty Float32))
            (with_dims Int64 (Cuda 0)) (with_dims Float64 (Cuda 0)) some_params None
            (Some (with_dims Float64 (Cuda 0))) None None)
         (with_dims Float64 (Cuda 0)).
Proof.
  apply C59_energy_type; cbn; eauto using some_params_on.
  repeat constructor; cbn; auto.
Qed.

(** "The energies have the dtype of the positions" is false for objects created in another
    precision: a double precision object returns double precision energies for single precision
    positions, and a single precision object (the default) raises for double precision
    positions. *)
Theorem C59_positions_dtype_refuted :
  calculate_ty Float32 (mkDispTy (mkDD Float64 Cpu) (MKey TD4) (terms_d4_ty Float32))
    (with_dims Int64 Cpu) (with_dims Float32 Cpu) some_params None None None None
    = Ok (with_dims Float64 Cpu) /\
  calculate_ty Float32 (mkDispTy (tensorlike Float32 None None) (MKey TD4) (terms_d4_ty Float32))
    (with_dims Int64 Cpu) (with_dims Float64 Cpu) some_params None None None None
    = Raise RuntimeError.
Proof. split; vm_compute; reflexivity. Qed.

(** An object on the CPU does not accept a molecule on a GPU. *)
Example C59_one_device_example :
  calculate_ty Float32 (mkDispTy (tensorlike Float32 None None) (MKey TD4) (terms_d4_ty Float32))
    (with_dims Int64 (Cuda 0)) (with_dims Float32 (Cuda 0)) some_params None None None None
    = Raise RuntimeError.
Proof. vm_compute. reflexivity. Qed.

Print Assumptions C59_energy_type.
Print Assumptions C59_dftd4.
Print Assumptions C59_get_properties.
Print Assumptions C59_mixed_precision.
Print Assumptions C59_one_device.
Print Assumptions C59_positions_dtype_refuted.
