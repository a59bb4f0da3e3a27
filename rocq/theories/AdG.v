(** * Derivatives of any order: operations of nested numbers (proof layer) *)
From Coq Require Import Reals Lra Lia List Arith ZArith QArith Qreals Bool.
From Verif Require Import Py Tensor TensorLemmas Scalar RInst AdInst AdN DiffR SpecADN.
From Verif Require SpecAD AdR.
Import ListNotations.
Open Scope R_scope.

(** ** Laws *)
Section Laws.
Context {eps mx : R} (T : Tracking).
Notation trk := (Ttrk T).
Notation KR := (RS eps mx).
Notation t := (Tp0 T).
(** [d] carries some function *)
Definition Tsome (d : T) : Prop := exists f, trk f d.
Record Laws : Prop := mkLaws {
  w_mono : forall Q Q' : TP T -> Prop, (forall p, Q p -> Q' p) -> Tnear T Q -> Tnear T Q';
  w_and : forall Q Q' : TP T -> Prop, Tnear T Q -> Tnear T Q' -> Tnear T (fun p => Q p /\ Q' p);
  w_all : Tnear T (fun _ => True);
  w_pt : forall Q, Tnear T Q -> Q t;
  w_loc : forall f g d, Tnear T (fun p => f p = g p) -> trk f d -> trk g d;
  w_point : Tord T = 0%nat -> forall f g d, f t = g t -> trk f d -> trk g d;
  w_val : forall f d, trk f d -> Tval T d = f t;
  w_above : forall f d a, trk f d -> a < f t -> Tnear T (fun p => a < f p);
  w_below : forall f d a, trk f d -> f t < a -> Tnear T (fun p => f p < a);
  w_lt : forall d e, flt (s := T) d e = rltb (Tval T d) (Tval T e);
  w_le : forall d e, fle (s := T) d e = rleb (Tval T d) (Tval T e);
  w_eq : forall d e, feq (s := T) d e = reqb (Tval T d) (Tval T e);
  w_nan : forall d, fisnan (s := T) d = false;
  w_vmul : forall d e, Tval T (fmul (s := T) d e) = Tval T d * Tval T e;
  w_lit : forall q, trk (fun _ => Q2R q) (flit (s := T) q);
  w_eps : trk (fun _ => eps) (feps (s := T));
  w_max : trk (fun _ => mx) (fmaxfin (s := T));
  w_add : forall f g d e, trk f d -> trk g e -> trk (fun p => f p + g p) (fadd (s := T) d e);
  w_sub : forall f g d e, trk f d -> trk g e -> trk (fun p => f p - g p) (fsub (s := T) d e);
  w_mul : forall f g d e, trk f d -> trk g e -> trk (fun p => f p * g p) (fmul (s := T) d e);
  w_opp : forall f d, trk f d -> trk (fun p => - f p) (fopp (s := T) d);
  w_exp : forall f d, trk f d -> trk (fun p => exp (f p)) (fexp (s := T) d);
  w_pown : forall f d n, trk f d -> trk (fun p => f p ^ n) (fpown (s := T) d n);
  w_div : forall f g d e, trk f d -> trk g e -> g t <> 0 -> trk (fun p => f p / g p) (fdiv (s := T) d e);
  w_sqrt : forall f d, trk f d -> 0 < f t -> trk (fun p => sqrt (f p)) (fsqrt (s := T) d);
  w_abs : forall f d, trk f d -> 0 < f t -> trk (fun p => Rabs (f p)) (fabs (s := T) d);
  w_ln : forall f d, trk f d -> 0 < f t -> trk (fun p => ln (f p)) (fln (s := T) d);
  w_pow : forall f g d e, trk f d -> trk g e -> 0 < f t -> (forall j, (S j < Tord T)%nat -> g t <> INR j) ->
    trk (fun p => rpow (f p) (g p)) (fpow (s := T) d e);
  w_powc : forall f y d e, trk f d -> trk (fun _ => y) e -> 0 < f t -> trk (fun p => rpow (f p) y) (fpow (s := T) d e);
  (* constants, without conditions *)
  v_div : forall x y d e, trk (fun _ => x) d -> trk (fun _ => y) e -> trk (fun _ => x / y) (fdiv (s := T) d e);
  v_sqrt : forall x d, trk (fun _ => x) d -> trk (fun _ => sqrt x) (fsqrt (s := T) d);
  (* regular numbers *)
  g_trk : forall f d, trk f d -> Tproper T d;
  g_mul : forall d e, trk (fun _ => 0) d -> Tproper T e -> trk (fun _ => 0) (fmul (s := T) d e);
  g_abs : forall d, Tproper T d -> Tproper T (fabs (s := T) d);
  g_sqrt : forall d, Tproper T d -> Tproper T (fsqrt (s := T) d) }.

(** what is needed in addition to build another level *)
Record Deep : Prop := mkDeep {
  v_abs : forall x d, trk (fun _ => x) d -> trk (fun _ => Rabs x) (fabs (s := T) d);
  v_ln : forall x d, trk (fun _ => x) d -> trk (fun _ => ln x) (fln (s := T) d);
  v_pow : forall x y d e, trk (fun _ => x) d -> trk (fun _ => y) e -> trk (fun _ => rpow x y) (fpow (s := T) d e);
  (* some function, without conditions *)
  u_div : forall d e, Tsome d -> Tsome e -> Tsome (fdiv (s := T) d e);
  u_sqrt : forall d, Tsome d -> Tsome (fsqrt (s := T) d);
  u_abs : forall d, Tsome d -> Tsome (fabs (s := T) d);
  u_ln : forall d, Tsome d -> Tsome (fln (s := T) d);
  u_pow : forall d e, Tsome d -> Tsome e -> Tsome (fpow (s := T) d e) }.

Record MeansLaws (M : LinK T) (means : KT M -> (TP T -> R) -> Prop) : Prop := mkMeansLaws {
  n_loc : forall u D E, Tnear T (fun p => D p = E p) -> means u D -> means u E;
  n_0 : means kz (fun _ => 0);
  n_p : forall u v D E, means u D -> means v E -> means (kp u v) (fun p => D p + E p);
  n_s : forall a A u D, trk A a -> means u D -> means (ks a u) (fun p => A p * D p) }.
End Laws.

Lemma T0_laws eps mx : Laws (eps := eps) (mx := mx) (T0 eps mx).
Proof.
  constructor; cbn; intros; subst; auto; try (now eexists (fun _ => _)); ring.
Qed.
Lemma T0_deep eps mx : Deep (T0 eps mx).
Proof.
  constructor; unfold Tsome; cbn; intros; subst; auto; try (now eexists (fun _ => _)).
Qed.

(** ** One level more *)
Section Next.
Context {eps mx : R} {T : Tracking} (L : Laws (eps := eps) (mx := mx) T).
Notation trk := (Ttrk T).
Notation near := (Tnear T).

Lemma near_all (Q : TP T -> Prop) : (forall p, Q p) -> near Q.
Proof. intros H. apply (w_mono T L (fun _ => True)); [auto|apply (w_all T L)]. Qed.
Lemma trk_ext f g d : (forall p, f p = g p) -> trk f d -> trk g d.
Proof. intros E. apply (w_loc T L). now apply near_all. Qed.
Lemma con_eq x y d : trk (fun _ => x) d -> x = y -> trk (fun _ => y) d.
Proof. now intros H <-. Qed.

Lemma fwd_laws : MeansLaws T (FwdK T) (mfwd T).
Proof.
  constructor; unfold mfwd; cbn.
  - intros u D E. apply (w_loc T L).
  - apply (con_eq (Q2R 0)); [apply (w_lit T L)|apply Q2R_0].
  - intros. now apply (w_add T L).
  - intros. now apply (w_mul T L).
Qed.
Lemma bwd_laws {I} (j : I) : MeansLaws T (BwdK T I) (mbwd T j).
Proof.
  constructor; unfold mbwd; cbn.
  - intros u D E HN H g gA Hg. apply (w_loc T L (fun p => g p * D p)); [|now apply H].
    apply (w_mono T L (fun p => D p = E p)); [|exact HN]. intros p Ep. now rewrite Ep.
  - intros g gA Hg. apply (trk_ext (fun _ => Q2R 0)); [intros; rewrite Q2R_0; ring|apply (w_lit T L)].
  - intros u v D E Hu Hv g gA Hg. apply (trk_ext (fun p => g p * D p + g p * E p)); [intros; ring|].
    apply (w_add T L); auto.
  - intros a A u D Ha Hu g gA Hg. apply (trk_ext (fun p => g p * A p * D p)); [intros; ring|].
    apply (Hu (fun p => g p * A p)). now apply (w_mul T L).
Qed.

Context (M : LinK T) (means : KT M -> (TP T -> R) -> Prop) (LM : MeansLaws T M means) (s0 : R).
Notation T' := (Tnext T M means s0).
Notation trk' := (Ttrk T').

Lemma means_ext u D E : (forall p, D p = E p) -> means u D -> means u E.
Proof. intros H. apply (n_loc T M means LM). now apply near_all. Qed.

Lemma next_con x d : trk' (fun _ => x) d <-> trk (fun _ => x) (fst d) /\ means (snd d) (fun _ => 0).
Proof.
  cbn. split.
  - intros (H & D & HN & HM). split; [exact H|]. apply (n_loc T M means LM _ D); [|exact HM].
    apply (w_mono T L (fun p => derivable_pt_lim (fun _ => x) s0 (D p))); [|exact HN]. intros p Hp.
    apply (uniqueness_limite (fun _ => x) s0); [exact Hp|apply derivable_pt_lim_const].
  - intros (H & HM). split; [exact H|]. exists (fun _ => 0). split; [|exact HM]. apply near_all. intros p. apply derivable_pt_lim_const.
Qed.
Lemma next_proper d : Tsome T' d <-> Tsome T (fst d) /\ exists D, means (snd d) D.
Proof.
  split.
  - intros (f & H & D & HN & HM). split; [eexists; exact H|eauto].
  - intros ((F & HF) & D & HM). exists (fun sp => F (snd sp) + (fst sp - s0) * D (snd sp)). cbn. split.
    + apply (trk_ext F); [intros; ring|exact HF].
    + exists D. split; [|exact HM]. apply near_all. intros p. cbn.
      assert (E : D p = 0 + (1 * D p + (s0 - s0) * 0)) by ring. refine (eq_ind_r (derivable_pt_lim _ s0) _ E).
      apply (derivable_pt_lim_plus (fun _ => F p) (fun s => (s - s0) * D p)); [apply derivable_pt_lim_const|].
      apply (derivable_pt_lim_mult (fun s => s - s0) (fun _ => D p)); [|apply derivable_pt_lim_const].
      replace 1 with (1 - 0) by ring. apply (derivable_pt_lim_minus id (fun _ => s0)); [apply derivable_pt_lim_id|apply derivable_pt_lim_const].
Qed.

(** operations *)
Lemma next_un (F dF : R -> R) (o do : T -> T) f d : trk' f d ->
  trk (fun p => F (f (s0, p))) (o (fst d)) -> trk (fun p => dF (f (s0, p))) (do (fst d)) ->
  near (fun p => derivable_pt_lim F (f (s0, p)) (dF (f (s0, p)))) -> trk' (fun sp => F (f sp)) (nun T M o do d).
Proof.
  intros (H & D & HN & HM) H1 H2 HD. split; [exact H1|]. exists (fun p => dF (f (s0, p)) * D p). split.
  - apply (w_mono T L (fun p => derivable_pt_lim (fun s => f (s, p)) s0 (D p) /\ derivable_pt_lim F (f (s0, p)) (dF (f (s0, p))))); [|now apply (w_and T L)].
    intros p (Hp & Hq). now apply (derivable_pt_lim_comp (fun s => f (s, p)) F).
  - cbn [nun snd]. now apply (n_s T M means LM _ (fun p => dF (f (s0, p)))).
Qed.
Lemma next_bin (F d1 d2 : R -> R -> R) (o o1 o2 : T -> T -> T) f g d e : trk' f d -> trk' g e ->
  trk (fun p => F (f (s0, p)) (g (s0, p))) (o (fst d) (fst e)) ->
  trk (fun p => d1 (f (s0, p)) (g (s0, p))) (o1 (fst d) (fst e)) ->
  trk (fun p => d2 (f (s0, p)) (g (s0, p))) (o2 (fst d) (fst e)) ->
  near (fun p => forall l m, derivable_pt_lim (fun s => f (s, p)) s0 l -> derivable_pt_lim (fun s => g (s, p)) s0 m ->
     derivable_pt_lim (fun s => F (f (s, p)) (g (s, p))) s0 (d1 (f (s0, p)) (g (s0, p)) * l + d2 (f (s0, p)) (g (s0, p)) * m)) ->
  trk' (fun sp => F (f sp) (g sp)) (nbin T M o o1 o2 d e).
Proof.
  intros (H & D & HN & HM) (H' & E & HN' & HM') H0 H1 H2 HD. split; [exact H0|].
  exists (fun p => d1 (f (s0, p)) (g (s0, p)) * D p + d2 (f (s0, p)) (g (s0, p)) * E p). split.
  - refine (w_mono T L _ _ _ (w_and T L _ _ (w_and T L _ _ HN HN') HD)). intros p ((Hp & Hq) & Hr). now apply Hr.
  - cbn [nbin snd]. apply (n_p T M means LM); [now apply (n_s T M means LM _ (fun p => d1 (f (s0, p)) (g (s0, p))))|].
    now apply (n_s T M means LM _ (fun p => d2 (f (s0, p)) (g (s0, p)))).
Qed.
Lemma con_un (o do : T -> T) x y d : trk' (fun _ => x) d -> trk (fun _ => y) (o (fst d)) -> Tsome T (do (fst d)) ->
  trk' (fun _ => y) (nun T M o do d).
Proof.
  intros H H1 (A & HA). apply next_con in H. apply next_con. split; [exact H1|]. cbn [nun snd].
  apply (means_ext _ (fun p => A p * 0)); [intros; ring|]. apply (n_s T M means LM); [exact HA|apply H].
Qed.
Lemma con_bin (o o1 o2 : T -> T -> T) x y z d e : trk' (fun _ => x) d -> trk' (fun _ => y) e -> trk (fun _ => z) (o (fst d) (fst e)) ->
  Tsome T (o1 (fst d) (fst e)) -> Tsome T (o2 (fst d) (fst e)) -> trk' (fun _ => z) (nbin T M o o1 o2 d e).
Proof.
  intros H H' H1 (A & HA) (A' & HA'). apply next_con in H. apply next_con in H'. apply next_con. split; [exact H1|]. cbn [nbin snd].
  apply (means_ext _ (fun p => A p * 0 + A' p * 0)); [intros; ring|].
  apply (n_p T M means LM); (apply (n_s T M means LM); [assumption|]); [apply H|apply H'].
Qed.
Context (LD : Deep T).
Lemma pr_un (o do : T -> T) d : Tsome T' d -> Tsome T (o (fst d)) -> Tsome T (do (fst d)) -> Tsome T' (nun T M o do d).
Proof.
  intros H H1 (A & HA). apply next_proper in H. apply next_proper. split; [exact H1|]. destruct H as (_ & D & HD).
  eexists. cbn [nun snd]. apply (n_s T M means LM); eassumption.
Qed.
Lemma pr_bin (o o1 o2 : T -> T -> T) d e : Tsome T' d -> Tsome T' e -> Tsome T (o (fst d) (fst e)) ->
  Tsome T (o1 (fst d) (fst e)) -> Tsome T (o2 (fst d) (fst e)) -> Tsome T' (nbin T M o o1 o2 d e).
Proof.
  intros H H' H1 (A & HA) (A' & HA'). apply next_proper in H. apply next_proper in H'. apply next_proper. split; [exact H1|].
  destruct H as (_ & D & HD), H' as (_ & E & HE).
  eexists. cbn [nbin snd]. apply (n_p T M means LM); (apply (n_s T M means LM); eassumption).
Qed.

(** basics of one level below *)
Lemma pr_lit q : Tsome T (flit (s := T) q).
Proof. eexists. apply (w_lit T L). Qed.
Lemma pr_mul d e : Tsome T d -> Tsome T e -> Tsome T (fmul (s := T) d e).
Proof. intros (f & H) (g & H'). eexists. apply (w_mul T L); eassumption. Qed.
Lemma pr_sub d e : Tsome T d -> Tsome T e -> Tsome T (fsub (s := T) d e).
Proof. intros (f & H) (g & H'). eexists. apply (w_sub T L); eassumption. Qed.
Lemma pr_opp d : Tsome T d -> Tsome T (fopp (s := T) d).
Proof. intros (f & H). eexists. apply (w_opp T L); eassumption. Qed.
Lemma pr_sgn d : Tsome T (nsgn T d).
Proof. unfold nsgn. destruct (flt _ _); [apply pr_lit|]. destruct (flt _ _); apply pr_lit. Qed.
Lemma pr_pow1 d e : Tsome T d -> Tsome T e -> Tsome T (npow1 T d e).
Proof.
  intros H H'. unfold npow1. destruct (feq _ _); [apply pr_lit|]. apply pr_mul; auto. apply (u_pow T LD); auto. apply pr_sub; auto using pr_lit.
Qed.
Lemma pr_pow2 d e : Tsome T d -> Tsome T e -> Tsome T (npow2 T d e).
Proof.
  intros H H'. unfold npow2. destruct (_ && _); [apply pr_lit|]. apply pr_mul; auto; [now apply (u_pow T LD)|now apply (u_ln T LD)].
Qed.
Lemma pr_trk f d : trk f d -> Tsome T d. Proof. intros. now exists f. Qed.
Lemma pr_fst f d : trk' f d -> Tsome T (fst d). Proof. intros (H & _). eexists; exact H. Qed.
Lemma lit1 : trk (fun _ => 1) (flit (s := T) 1).
Proof. apply (con_eq (Q2R 1)); [apply (w_lit T L)|unfold Q2R; cbn; lra]. Qed.
Lemma litm1 : trk (fun _ => -1) (flit (s := T) (-1)).
Proof. apply (con_eq (Q2R (-1))); [apply (w_lit T L)|unfold Q2R; cbn; lra]. Qed.
Lemma near_lim (f d : TP T -> Prop) : near d -> (forall p, d p -> f p) -> near f.
Proof. intros H H'. now apply (w_mono T L d). Qed.

Lemma near_ne f d : trk f d -> f (Tp0 T) <> 0 -> near (fun p => f p <> 0).
Proof.
  intros H N. destruct (Rtotal_order (f (Tp0 T)) 0) as [P|[P|P]]; [|contradiction|].
  - apply (near_lim _ _ (w_below T L f d 0 H P)). intros p. lra.
  - apply (near_lim _ _ (w_above T L f d 0 H P)). intros p. lra.
Qed.
Lemma near_pos f d : trk f d -> 0 < f (Tp0 T) -> near (fun p => 0 < f p).
Proof. intros H P. apply (w_above T L f d 0 H P). Qed.
Lemma trk_pow1 f g d e : trk f d -> trk g e -> 0 < f (Tp0 T) -> (forall j, (S j < S (Tord T))%nat -> g (Tp0 T) <> INR j) ->
  trk (fun p => dpow1 (f p) (g p)) (npow1 T d e).
Proof.
  intros Hf Hg Pf H. unfold npow1. rewrite (w_eq T L), (w_val T L _ _ Hg), (w_val T L _ _ (w_lit T L 0)), Q2R_0.
  destruct (reqb (g (Tp0 T)) 0) eqn:E.
  - apply reqb_true in E. assert (Z0 : Tord T = 0%nat).
    { destruct (Tord T) eqn:O; [reflexivity|exfalso]. apply (H 0%nat); [lia|exact E]. }
    apply (w_point T L Z0 (fun _ => Q2R 0)); [|apply (w_lit T L)]. unfold dpow1. rewrite Q2R_0, E. now destruct (Req_EM_T 0 0).
  - apply reqb_false in E. apply (w_loc T L (fun p => g p * rpow (f p) (g p - 1))).
    + apply (near_lim _ _ (near_ne g e Hg E)). intros p Hp. unfold dpow1. now destruct (Req_EM_T (g p) 0).
    + apply (w_mul T L); [exact Hg|]. apply (w_pow T L f (fun p => g p - 1)); auto.
      * apply (w_sub T L g (fun _ => 1)); auto using lit1.
      * intros j Hj C. apply (H (S j)); [lia|]. rewrite S_INR. lra.
Qed.
Lemma trk_pow2 f g d e : trk f d -> trk g e -> 0 < f (Tp0 T) -> (forall j, (S j < S (Tord T))%nat -> g (Tp0 T) <> INR j) ->
  trk (fun p => dpow2 (f p) (g p)) (npow2 T d e).
Proof.
  intros Hf Hg Pf H. unfold npow2. rewrite (w_eq T L), (w_val T L _ _ Hf), (w_val T L _ _ (w_lit T L 0)), Q2R_0.
  assert (E : reqb (f (Tp0 T)) 0 = false) by (apply reqb_false; lra). rewrite E. cbn [andb].
  apply (w_loc T L (fun p => rpow (f p) (g p) * ln (f p))).
  - apply (near_lim _ _ (near_pos f d Hf Pf)). intros p Hp. unfold dpow2. destruct (Req_EM_T (f p) 0); [lra|reflexivity].
  - apply (w_mul T L); [|now apply (w_ln T L)]. apply (w_pow T L); auto.
Qed.
(** constant exponent *)
Lemma trk_pow1c f y d e : trk f d -> trk (fun _ => y) e -> 0 < f (Tp0 T) -> trk (fun p => dpow1 (f p) y) (npow1 T d e).
Proof.
  intros Hf Hg Pf. unfold npow1. rewrite (w_eq T L), (w_val T L _ _ Hg), (w_val T L _ _ (w_lit T L 0)), Q2R_0. unfold dpow1.
  destruct (reqb y 0) eqn:E.
  - apply reqb_true in E. destruct (Req_EM_T y 0); [|contradiction]. apply (con_eq (Q2R 0)); [apply (w_lit T L)|apply Q2R_0].
  - apply reqb_false in E. destruct (Req_EM_T y 0); [contradiction|].
    apply (w_mul T L (fun _ => y)); [exact Hg|]. apply (w_powc T L); auto. apply (w_sub T L (fun _ => y) (fun _ => 1)); auto using lit1.
Qed.
Lemma trk_pow2c f y d e : trk f d -> trk (fun _ => y) e -> 0 < f (Tp0 T) -> trk (fun p => dpow2 (f p) y) (npow2 T d e).
Proof.
  intros Hf Hg Pf. unfold npow2. rewrite (w_eq T L), (w_val T L _ _ Hf), (w_val T L _ _ (w_lit T L 0)), Q2R_0.
  assert (E : reqb (f (Tp0 T)) 0 = false) by (apply reqb_false; lra). rewrite E. cbn [andb].
  apply (w_loc T L (fun p => rpow (f p) y * ln (f p))).
  - apply (near_lim _ _ (near_pos f d Hf Pf)). intros p Hp. unfold dpow2. destruct (Req_EM_T (f p) 0); [lra|reflexivity].
  - apply (w_mul T L); [|now apply (w_ln T L)]. apply (w_powc T L); auto.
Qed.
Lemma pow_lim (f g : R -> R) t l m : derivable_pt_lim f t l -> derivable_pt_lim g t m -> 0 < f t ->
  derivable_pt_lim (fun s => rpow (f s) (g s)) t (dpow1 (f t) (g t) * l + dpow2 (f t) (g t) * m).
Proof.
  intros Df Dg Pf.
  destruct (AdR.t_pow (M := Fwd) eq AdR.fwd_sound (eps := 0) (mx := 0) t f g (f t, l) (g t, m)) as (_ & k & Dk & Ek); auto.
  - split; [reflexivity|]. exists l. auto.
  - split; [reflexivity|]. exists m. auto.
  - cbn in Ek. subst k. exact Dk.
Qed.
(* the value and the derivative near the point *)
Lemma next_fst f d : trk' f d -> trk (fun p => f (s0, p)) (fst d). Proof. now intros (H & _). Qed.

Lemma next_ext f g d : (forall p, f p = g p) -> trk' f d -> trk' g d.
Proof.
  intros E (H & D & HD & HM). split; [apply (trk_ext (fun p => f (s0, p))); [intros; apply E|exact H]|]. exists D. split; [|exact HM].
  apply (w_mono T L (fun p => derivable_pt_lim (fun s => f (s, p)) s0 (D p))); [|exact HD]. intros p. apply derivable_pt_lim_ext. intros. apply E.
Qed.
Lemma next_mul f g d e : trk' f d -> trk' g e -> trk' (fun p => f p * g p) (fmul (s := T') d e).
Proof.
  intros Hf Hg. apply (next_bin Rmult (fun _ y => y) (fun x _ => x)); auto; try (now apply next_fst).
  + apply (w_mul T L (fun p => f (s0, p)) (fun p => g (s0, p))); now apply next_fst.
  + apply near_all. intros p l m Hl Hm. replace (g (s0, p) * l + f (s0, p) * m) with (l * g (s0, p) + f (s0, p) * m) by ring.
    now apply (derivable_pt_lim_mult (fun s => f (s, p)) (fun s => g (s, p))).
Qed.
Lemma next_deep : Deep T'.
Proof.
  constructor.
  - intros x d Hx. pose proof (proj1 (proj1 (next_con _ _) Hx)) as Hx0.
    apply (con_un _ _ x); auto; [now apply (v_abs T LD)|apply pr_sgn].
  - intros x d Hx. pose proof (proj1 (proj1 (next_con _ _) Hx)) as Hx0.
    apply (con_un _ _ x); auto; [now apply (v_ln T LD)|]. apply (u_div T LD); [apply pr_lit|]. eapply pr_trk; eassumption.
  - intros x y d e Hx Hy. pose proof (proj1 (proj1 (next_con _ _) Hx)) as Hx0. pose proof (proj1 (proj1 (next_con _ _) Hy)) as Hy0.
    apply (con_bin _ _ _ x y); auto.
    + now apply (v_pow T LD).
    + apply pr_pow1; eapply pr_trk; eassumption.
    + apply pr_pow2; eapply pr_trk; eassumption.
  - intros d e Hd He. pose proof (proj1 (proj1 (next_proper _) Hd)). pose proof (proj1 (proj1 (next_proper _) He)).
    apply pr_bin; auto; [now apply (u_div T LD)|apply (u_div T LD); auto using pr_lit|]. apply pr_opp. apply (u_div T LD); auto. now apply (u_div T LD).
  - intros d Hd. pose proof (proj1 (proj1 (next_proper _) Hd)). apply pr_un; auto; [now apply (u_sqrt T LD)|].
    apply (u_div T LD); auto using pr_lit. apply pr_mul; auto using pr_lit. now apply (u_sqrt T LD).
  - intros d Hd. pose proof (proj1 (proj1 (next_proper _) Hd)). apply pr_un; auto; [now apply (u_abs T LD)|apply pr_sgn].
  - intros d Hd. pose proof (proj1 (proj1 (next_proper _) Hd)). apply pr_un; auto; [now apply (u_ln T LD)|]. apply (u_div T LD); auto using pr_lit.
  - intros d e Hd He. pose proof (proj1 (proj1 (next_proper _) Hd)). pose proof (proj1 (proj1 (next_proper _) He)).
    apply pr_bin; auto; [now apply (u_pow T LD)|now apply pr_pow1|now apply pr_pow2].
Qed.
Lemma next_laws : Laws (eps := eps) (mx := mx) T'.
Proof.
  constructor.
  - intros Q Q' H. cbn. apply (w_mono T L). intros p (r & Hr & Hs). exists r. split; auto.
  - intros Q Q' H H'. cbn in *. refine (w_mono T L _ _ _ (w_and T L _ _ H H')).
    intros p ((r & Hr & Hs) & (r' & Hr' & Hs')). exists (Rmin r r'). split; [now apply Rmin_pos|]. intros s Hx.
    pose proof (Rmin_l r r'). pose proof (Rmin_r r r'). split; [apply Hs|apply Hs']; lra.
  - cbn. apply near_all. intros p. exists 1. split; [lra|auto].
  - intros Q H. cbn in H. apply (w_pt T L) in H. destruct H as (r & Hr & Hs). cbn. apply Hs. rewrite Rminus_eq_0, Rabs_R0. exact Hr.
  - intros f g d HN (H & D & HD & HM). cbn in HN. split.
    + apply (w_loc T L (fun p => f (s0, p))); [|exact H]. refine (w_mono T L _ _ _ HN). intros p (r & Hr & Hs). apply Hs.
      rewrite Rminus_eq_0, Rabs_R0. exact Hr.
    + exists D. split; [|exact HM]. refine (w_mono T L _ _ _ (w_and T L _ _ HN HD)). intros p ((r & Hr & Hs) & Hp).
      apply (AdR.lim_loc (fun s => f (s, p)) _ s0 r _ Hr); auto.
  - discriminate.
  - intros f d (H & _). cbn. now rewrite (w_val T L _ _ H).
  - intros f d a (H & D & HD & _) Ha. cbn in *. pose proof (w_above T L _ _ a H Ha) as HA.
    refine (w_mono T L _ _ _ (w_and T L _ _ HA HD)). intros p (Pa & Pd). cbv beta in *.
    destruct (dif_above (fun s => f (s, p)) a s0 (ex_intro _ _ Pd) Pa) as (r & Hr & B). exists r. auto.
  - intros f d a (H & D & HD & _) Ha. cbn in *. pose proof (w_below T L _ _ a H Ha) as HA.
    refine (w_mono T L _ _ _ (w_and T L _ _ HA HD)). intros p (Pa & Pd). cbv beta in *.
    destruct (dif_below (fun s => f (s, p)) a s0 (ex_intro _ _ Pd) Pa) as (r & Hr & B). exists r. auto.
  - intros d e. apply (w_lt T L).
  - intros d e. apply (w_le T L).
  - intros d e. apply (w_eq T L).
  - intros d. apply (w_nan T L).
  - intros d e. apply (w_vmul T L).
  - intros q. apply next_con. split; [apply (w_lit T L)|apply (n_0 T M means LM)].
  - apply next_con. split; [apply (w_eps T L)|apply (n_0 T M means LM)].
  - apply next_con. split; [apply (w_max T L)|apply (n_0 T M means LM)].
  - intros f g d e Hf Hg. apply (next_bin Rplus (fun _ _ => 1) (fun _ _ => 1)); auto using lit1.
    + apply (w_add T L (fun p => f (s0, p)) (fun p => g (s0, p))); now apply next_fst.
    + apply near_all. intros p l m Hl Hm. replace (1 * l + 1 * m) with (l + m) by ring.
      now apply (derivable_pt_lim_plus (fun s => f (s, p)) (fun s => g (s, p))).
  - intros f g d e Hf Hg. apply (next_bin Rminus (fun _ _ => 1) (fun _ _ => -1)); auto using lit1, litm1.
    + apply (w_sub T L (fun p => f (s0, p)) (fun p => g (s0, p))); now apply next_fst.
    + apply near_all. intros p l m Hl Hm. replace (1 * l + -1 * m) with (l - m) by ring.
      now apply (derivable_pt_lim_minus (fun s => f (s, p)) (fun s => g (s, p))).
  - exact next_mul.
  - intros f d Hf. apply (next_un Ropp (fun _ => -1)); auto using litm1.
    + apply (w_opp T L (fun p => f (s0, p))). now apply next_fst.
    + apply near_all. intros p. apply (derivable_pt_lim_opp id). apply derivable_pt_lim_id.
  - intros f d Hf. apply (next_un exp exp); auto; try (apply (w_exp T L (fun p => f (s0, p))); now apply next_fst).
    apply near_all. intros p. apply derivable_pt_lim_exp.
  - intros f d n Hf. apply (next_un (fun x => x ^ n) (fun x => INR n * x ^ (Nat.pred n)) (fun x => fpown (s := T) x n)); auto.
    + apply (w_pown T L (fun p => f (s0, p))). now apply next_fst.
    + unfold npown. apply (w_mul T L (fun _ => INR n)).
      * apply (con_eq (Q2R (Z.of_nat n # 1))); [apply (w_lit T L)|]. unfold Q2R. cbn. rewrite INR_IZR_INZ. lra.
      * apply (w_pown T L (fun p => f (s0, p))). now apply next_fst.
    + apply near_all. intros p. apply derivable_pt_lim_pow.
  - intros f g d e Hf Hg N. pose proof (next_fst _ _ Hf) as Hf0. pose proof (next_fst _ _ Hg) as Hg0. cbn in N.
    apply (next_bin Rdiv (fun _ y => 1 / y) (fun x y => - (x / y / y))); auto.
    + apply (w_div T L (fun p => f (s0, p)) (fun p => g (s0, p))); auto.
    + apply (w_div T L (fun _ => 1) (fun p => g (s0, p))); auto using lit1.
    + apply (w_opp T L). apply (w_div T L (fun p => f (s0, p) / g (s0, p)) (fun p => g (s0, p))); auto.
      apply (w_div T L (fun p => f (s0, p)) (fun p => g (s0, p))); auto.
    + apply (near_lim _ _ (near_ne _ _ Hg0 N)). intros p Hp l m Hl Hm. cbv beta in Hp.
      replace (1 / g (s0, p) * l + - (f (s0, p) / g (s0, p) / g (s0, p)) * m) with ((l * g (s0, p) - m * f (s0, p)) / Rsqr (g (s0, p)))
        by (unfold Rsqr; field; exact Hp).
      now apply (derivable_pt_lim_div (fun s => f (s, p)) (fun s => g (s, p))).
  - intros f d Hf P. pose proof (next_fst _ _ Hf) as Hf0. cbn in P.
    assert (H1 : trk (fun p => sqrt (f (s0, p))) (fsqrt (s := T) (fst d))) by (apply (w_sqrt T L (fun p => f (s0, p))); auto).
    apply (next_un sqrt (fun x => 1 / (2 * sqrt x))); auto.
    + apply (w_div T L (fun _ => 1) (fun p => 2 * sqrt (f (s0, p)))); auto using lit1.
      * apply (w_mul T L (fun _ => 2)); auto. apply (con_eq (Q2R 2)); [apply (w_lit T L)|unfold Q2R; cbn; lra].
      * pose proof (sqrt_lt_R0 _ P). lra.
    + apply (near_lim _ _ (near_pos _ _ Hf0 P)). intros p Hp. unfold Rdiv. rewrite Rmult_1_l. now apply derivable_pt_lim_sqrt.
  - intros f d Hf P. pose proof (next_fst _ _ Hf) as Hf0. cbn in P.
    apply (next_un Rabs rsgn); auto.
    + apply (w_abs T L (fun p => f (s0, p))); auto.
    + unfold nsgn. rewrite (w_lt T L), (w_val T L _ _ (w_lit T L 0)), (w_val T L _ _ Hf0), Q2R_0.
      rewrite (proj2 (rltb_true 0 _) P). apply (w_loc T L (fun _ => 1)); [|apply lit1].
      apply (near_lim _ _ (near_pos _ _ Hf0 P)). intros p Hp. unfold rsgn. now destruct (Rlt_dec 0 (f (s0, p))).
    + apply (near_lim _ _ (near_pos _ _ Hf0 P)). intros p Hp. unfold rsgn. destruct (Rlt_dec 0 (f (s0, p))); [|contradiction]. now apply Rabs_derive_1.
  - intros f d Hf P. pose proof (next_fst _ _ Hf) as Hf0. cbn in P.
    apply (next_un ln (fun x => 1 / x)); auto.
    + apply (w_ln T L (fun p => f (s0, p))); auto.
    + apply (w_div T L (fun _ => 1) (fun p => f (s0, p))); auto using lit1. apply Rgt_not_eq. exact P.
    + apply (near_lim _ _ (near_pos _ _ Hf0 P)). intros p Hp. unfold Rdiv. rewrite Rmult_1_l. now apply derivable_pt_lim_ln.
  - intros f g d e Hf Hg P HO. pose proof (next_fst _ _ Hf) as Hf0. pose proof (next_fst _ _ Hg) as Hg0. cbn in P, HO.
    apply (next_bin rpow dpow1 dpow2); auto.
    + apply (w_pow T L (fun p => f (s0, p)) (fun p => g (s0, p))); auto.
    + apply (trk_pow1 (fun p => f (s0, p)) (fun p => g (s0, p))); auto.
    + apply (trk_pow2 (fun p => f (s0, p)) (fun p => g (s0, p))); auto.
    + apply (near_lim _ _ (near_pos _ _ Hf0 P)). intros p Hp l m Hl Hm. now apply (pow_lim (fun s => f (s, p)) (fun s => g (s, p))).
  - intros f y d e Hf Hg P. pose proof (next_fst _ _ Hf) as Hf0. pose proof (next_fst _ _ Hg) as Hg0. cbn in P.
    apply (next_bin rpow dpow1 dpow2 _ _ _ f (fun _ => y)); auto.
    + apply (w_powc T L (fun p => f (s0, p)) y); auto.
    + apply (trk_pow1c (fun p => f (s0, p)) y); auto.
    + apply (trk_pow2c (fun p => f (s0, p)) y); auto.
    + apply (near_lim _ _ (near_pos _ _ Hf0 P)). intros p Hp l m Hl Hm. now apply (pow_lim (fun s => f (s, p)) (fun _ => y)).
  - intros x y d e Hx Hy. pose proof (proj1 (proj1 (next_con _ _) Hx)) as Hx0. pose proof (proj1 (proj1 (next_con _ _) Hy)) as Hy0.
    apply (con_bin _ _ _ x y); auto.
    + now apply (v_div T L).
    + apply (u_div T LD); [apply pr_lit|]. eapply pr_trk; eassumption.
    + apply pr_opp. apply (u_div T LD); [apply (u_div T LD)|]; eapply pr_trk; eassumption.
  - intros x d Hx. pose proof (proj1 (proj1 (next_con _ _) Hx)) as Hx0.
    apply (con_un _ _ x); auto; [now apply (v_sqrt T L)|].
    apply (u_div T LD); [apply pr_lit|]. apply pr_mul; [apply pr_lit|]. apply (u_sqrt T LD). eapply pr_trk; eassumption.
  - intros f d H. exists f. exact H.
  - intros d e H (g & Hg). apply (next_ext (fun p => 0 * g p)); [intros; ring|]. exact (next_mul (fun _ => 0) g d e H Hg).
  - exact (u_abs T' next_deep).
  - exact (u_sqrt T' next_deep).
Qed.
End Next.

(** ** Operations side by side with those of the reals *)
Section R.
Context {eps mx : R} {T : Tracking} (L : Laws (eps := eps) (mx := mx) T).
Notation KR := (RS eps mx).
Notation trk := (Ttrk T).
Notation t := (Tp0 T).
Implicit Types f g h : TP T -> R.
Implicit Types d e : T.

Notation fx := (fixedT (T := T)).
Lemma fixed_tracks x d : fx x d -> trk (fun _ => x) d. Proof. auto. Qed.
Lemma tracks_proper f d : trk f d -> Tproper T d. Proof. apply (g_trk T L). Qed.
Lemma tracks_val f d : trk f d -> Tval T d = f t. Proof. apply (w_val T L). Qed.
Lemma tracks_ext f g d : (forall p, f p = g p) -> trk f d -> trk g d. Proof. apply (trk_ext L). Qed.

Lemma r_add f g d e : trk f d -> trk g e -> trk (fun x => fadd (s := KR) (f x) (g x)) (fadd (s := T) d e).
Proof. apply (w_add T L). Qed.
Lemma r_sub f g d e : trk f d -> trk g e -> trk (fun x => fsub (s := KR) (f x) (g x)) (fsub (s := T) d e).
Proof. apply (w_sub T L). Qed.
Lemma r_mul f g d e : trk f d -> trk g e -> trk (fun x => fmul (s := KR) (f x) (g x)) (fmul (s := T) d e).
Proof. apply (w_mul T L). Qed.
Lemma r_div f g d e : trk f d -> trk g e -> g t <> 0 -> trk (fun x => fdiv (s := KR) (f x) (g x)) (fdiv (s := T) d e).
Proof. apply (w_div T L). Qed.
Lemma r_opp f d : trk f d -> trk (fun x => fopp (s := KR) (f x)) (fopp (s := T) d).
Proof. apply (w_opp T L). Qed.
Lemma r_exp f d : trk f d -> trk (fun x => fexp (s := KR) (f x)) (fexp (s := T) d).
Proof. apply (w_exp T L). Qed.
Lemma r_sqrt f d : trk f d -> 0 < f t -> trk (fun x => fsqrt (s := KR) (f x)) (fsqrt (s := T) d).
Proof. apply (w_sqrt T L). Qed.
Lemma r_abs f d : trk f d -> 0 < f t -> trk (fun x => fabs (s := KR) (f x)) (fabs (s := T) d).
Proof. apply (w_abs T L). Qed.
Lemma r_pown f d n : trk f d -> trk (fun x => fpown (s := KR) (f x) n) (fpown (s := T) d n).
Proof. apply (w_pown T L). Qed.
Lemma r_powc f y d e : trk f d -> fx y e -> 0 < f t -> trk (fun x => fpow (s := KR) (f x) y) (fpow (s := T) d e).
Proof. apply (w_powc T L). Qed.
Lemma r_pow f g d e : trk f d -> trk g e -> 0 < f t -> expo g e -> trk (fun x => fpow (s := KR) (f x) (g x)) (fpow (s := T) d e).
Proof.
  intros Hf Hg P [(y & Ey & Hy)|H]; [|now apply (w_pow T L)].
  apply (tracks_ext (fun x => fpow (s := KR) (f x) y)); [intros p; now rewrite Ey|]. now apply r_powc.
Qed.
Lemma r_lit q : trk (fun _ => flit (s := KR) q) (flit (s := T) q).
Proof. apply (w_lit T L). Qed.
Lemma r_eps : trk (fun _ => feps (s := KR)) (feps (s := T)).
Proof. apply (w_eps T L). Qed.
Lemma r_sum n (f : nat -> TP T -> R) (d : nat -> T) : (forall i, (i < n)%nat -> trk (f i) (d i)) ->
  trk (fun x => fsum (K := KR) n (fun i => f i x)) (fsum (K := T) n d).
Proof.
  intros H. apply (tracks_ext (fun x => feval (K := KR) (proj1_sig (fplan (s := T) n)) (fun i => f i x))).
  { intros x. rewrite fsum_R. apply feval_R. }
  unfold fsum. assert (HT := fun k => proj1 (plan_leaves (K := T) n k)). revert HT.
  generalize (proj1_sig (fplan (s := T) n)). intros p. induction p as [|k|a IHa b IHb]; cbn [leaves feval]; intros HT.
  - apply r_lit.
  - apply H, HT. now left.
  - apply (r_add (fun x => feval (K := KR) a (fun i => f i x)) (fun x => feval (K := KR) b (fun i => f i x)));
      [apply IHa|apply IHb]; intros k Hk; apply HT, in_or_app; auto.
Qed.
(** a factor that vanishes identically *)
Lemma t_mul_0 f d e : trk (fun _ => 0) d -> Tproper T e -> trk (fun x => 0 * f x) (fmul (s := T) d e).
Proof.
  intros H Hg. apply (tracks_ext (fun _ => 0)); [intros; ring|]. now apply (g_mul T L).
Qed.
(** branches on a comparison with a fixed number *)
Lemma t_lt f g h d (dg dh : T) a e : trk f d -> Tval T e = a -> f t <> a -> trk g dg -> trk h dh ->
  trk (fun x => if rltb a (f x) then g x else h x) (if flt (s := T) e d then dg else dh).
Proof.
  intros Hf E N Hg Hh. rewrite (w_lt T L), E, (tracks_val _ _ Hf).
  destruct (Rlt_or_le a (f t)) as [Q|Q].
  - rewrite (proj2 (rltb_true a (f t)) Q). apply (w_loc T L g); [|exact Hg].
    apply (near_lim L _ _ (w_above T L f d a Hf Q)). intros p Hp. now rewrite (proj2 (rltb_true a (f p)) Hp).
  - assert (Q' : f t < a) by lra. rewrite (proj2 (rltb_false a (f t)) Q). apply (w_loc T L h); [|exact Hh].
    apply (near_lim L _ _ (w_below T L f d a Hf Q')). intros p Hp. now rewrite (proj2 (rltb_false a (f p)) (Rlt_le _ _ Hp)).
Qed.
Lemma t_le f g h d (dg dh : T) a e : trk f d -> Tval T e = a -> f t <> a -> trk g dg -> trk h dh ->
  trk (fun x => if rleb (f x) a then g x else h x) (if fle (s := T) d e then dg else dh).
Proof.
  intros Hf E N Hg Hh. rewrite (w_le T L), E, (tracks_val _ _ Hf).
  destruct (Rlt_or_le a (f t)) as [Q|Q].
  - rewrite (proj2 (rleb_false (f t) a) Q). apply (w_loc T L h); [|exact Hh].
    apply (near_lim L _ _ (w_above T L f d a Hf Q)). intros p Hp. now rewrite (proj2 (rleb_false (f p) a) Hp).
  - assert (Q' : f t < a) by lra. rewrite (proj2 (rleb_true (f t) a) Q). apply (w_loc T L g); [|exact Hg].
    apply (near_lim L _ _ (w_below T L f d a Hf Q')). intros p Hp. now rewrite (proj2 (rleb_true (f p) a) (Rlt_le _ _ Hp)).
Qed.

Lemma y_lit q : fx (flit (s := KR) q) (flit (s := T) q).
Proof. apply (w_lit T L). Qed.
Lemma y_add x y d e : fx x d -> fx y e -> fx (fadd (s := KR) x y) (fadd (s := T) d e).
Proof. apply (w_add T L (fun _ => x) (fun _ => y)). Qed.
Lemma y_sub x y d e : fx x d -> fx y e -> fx (fsub (s := KR) x y) (fsub (s := T) d e).
Proof. apply (w_sub T L (fun _ => x) (fun _ => y)). Qed.
Lemma y_mul x y d e : fx x d -> fx y e -> fx (fmul (s := KR) x y) (fmul (s := T) d e).
Proof. apply (w_mul T L (fun _ => x) (fun _ => y)). Qed.
Lemma y_div x y d e : fx x d -> fx y e -> fx (fdiv (s := KR) x y) (fdiv (s := T) d e).
Proof. apply (v_div T L). Qed.
Lemma y_exp x d : fx x d -> fx (fexp (s := KR) x) (fexp (s := T) d).
Proof. apply (w_exp T L (fun _ => x)). Qed.
Lemma y_sqrt x d : fx x d -> fx (fsqrt (s := KR) x) (fsqrt (s := T) d).
Proof. apply (v_sqrt T L). Qed.
Lemma y_sum n (f : nat -> R) (d : nat -> T) : (forall i, (i < n)%nat -> fx (f i) (d i)) ->
  fx (fsum (K := KR) n f) (fsum (K := T) n d).
Proof.
  intros H. rewrite fsum_R, <- (feval_R eps mx n (fplan (s := T) n)).
  unfold fsum. assert (HT := fun k => proj1 (plan_leaves (K := T) n k)). revert HT.
  generalize (proj1_sig (fplan (s := T) n)). intros p. induction p as [|k|a IHa b IHb]; cbn [leaves feval]; intros HT.
  - apply y_lit.
  - apply H, HT. now left.
  - apply y_add; [apply IHa|apply IHb]; intros k Hk; apply HT, in_or_app; auto.
Qed.
Lemma y_val x d : fx x d -> Tval T d = x.
Proof. intros H. exact (w_val T L _ _ H). Qed.
Lemma y_lt x y d e : fx x d -> fx y e -> flt (s := T) d e = flt (s := KR) x y.
Proof. intros H H'. rewrite (w_lt T L), (y_val _ _ H), (y_val _ _ H'). reflexivity. Qed.
End R.
