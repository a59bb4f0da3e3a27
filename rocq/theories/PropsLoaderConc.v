(** * C60: [get_params] in several threads *)
From Coq Require Import List Arith String QArith Bool Lia.
From Verif Require Import Py DataToml ModelLoader ModelLoaderConc SpecLoader SpecLoaderConc
  LoaderP LoaderConcP LoaderConcQ PropsLoader.
Import ListNotations.
Open Scope string_scope.
Open Scope nat_scope.

(** Whatever the threads do, and however their steps are interleaved: when a call finishes it gives
    a dictionary that nobody had before, with the content of the entry of the file, or
    [KeyError] if there is no entry. *)
Theorem C60_lookup_any_schedule :
  forall (F : meth -> option tfile) files (actions : list action) k m functional variant keep_doi r,
  (forall m f, F m = Some f -> file_ok f) -> (forall m, files m = option_map (tree m) (F m)) ->
  nth_error (begun actions) k = Some (meth_value m, functional, variant, keep_doi) ->
  let before := execution files actions in
  let now := execution files (actions ++ [Go k]) in
  outcome before k = None -> outcome now k = Some r ->
  match F m with
  | Some f =>
      (forall b, entry f functional variant b -> exists l, r = Ok l /\ ~ In l (y_held before) /\
          content (py_heap (c_py (y_state now))) l = Some (scalars (without_doi keep_doi b))) /\
      ((forall b, ~ entry f functional variant b) -> r = Raise KeyError)
  | None => r = Raise FileNotFoundError
  end.
Proof.
  intros F files l k m name variant keep r HF Hf Hb before now H1 H2. subst now.
  rewrite execution_app in *. cbn [fold_left] in *. fold before in H2 |- *.
  pose proof (inv_execution F files Hf HF l) as I. fold before in I.
  unfold outcome in *. destruct (nth_error (y_calls before) k) as [[r0|u n]|] eqn:Ek; [discriminate| |].
  2:{ exfalso. destruct I as (_ & _ & Len & _). apply nth_error_None in Ek.
      assert (k < List.length (begun l)) by (apply nth_error_Some; congruence). lia. }
  destruct (go_step F l before k u n _ I Ek Hb) as (P & _ & _ & _ & Hc).
  cbn [happens] in *. rewrite Ek in *. cbn [y_calls y_state] in *.
  rewrite set_nth_nth in H2 by (apply nth_error_Some; congruence). rewrite Nat.eqb_refl in H2.
  destruct (n (y_state before)) as [r1|u1 n1] eqn:En; [|discriminate]. injection H2 as ->.
  destruct (Hc r m name variant keep eq_refl eq_refl) as (_ & H). exact H.
Qed.

(** No call waits for another one: there is a number of steps, depending on the files only, after
    which a call has finished, whatever the other threads do (or if they do nothing). *)
Theorem C60_always_finishes :
  forall files, exists n, forall actions later k,
  k < List.length (begun actions) -> n <= given k later ->
  outcome (execution files (actions ++ later)) k <> None.
Proof.
  intros files. exists (enough files). intros l l' k Hk Hg. rewrite execution_app.
  assert (Len : List.length (y_calls (execution files l)) = List.length (begun l)).
  { clear. induction l as [|a l IH] using rev_ind; [reflexivity|]. rewrite execution_app, begun_app, app_length, <- IH. cbn [fold_left].
    destruct a as [e|k].
    - destruct e; cbn [happens y_calls]; rewrite ?app_length; reflexivity || (cbn; lia).
    - cbn [happens]. destruct (nth_error (y_calls (execution files l)) k) as [[r|u n]|] eqn:Ek; cbn; try lia.
      rewrite set_nth_length by (apply nth_error_Some; congruence). lia. }
  destruct (nth_error (y_calls (execution files l)) k) as [p|] eqn:Ek.
  2:{ apply nth_error_None in Ek. lia. }
  destruct (finishes files l' _ k p (enough files) Ek) as (r & E); auto.
  { apply (calls_within files l). eapply nth_error_In; eauto. }
  unfold outcome. rewrite E. discriminate.
Qed.

(** A file is read at most as often as there were calls running at the same time; in particular at
    most once when the calls do not overlap. *)
Theorem C60_times_read :
  forall (F : meth -> option tfile) files actions m n,
  (forall m, files m = option_map (tree m) (F m)) ->
  (forall earlier rest, actions = (earlier ++ rest)%list -> running (execution files earlier) <= n) ->
  times_read (execution files actions) m <= n.
Proof.
  intros F files l m n Hf H. apply (reads_bound files m); auto.
  intros m' t E. rewrite Hf in E. destruct (F m') as [f|]; [|discriminate]. injection E as <-. eexists. reflexivity.
Qed.

(** "Read <method>.toml exactly once" (docstring of [_load]) does not hold for threads: both calls
    find the cache empty. *)
Definition two_calls : list action :=
  [User (Call "d4" (Some "pbe") None false); User (Call "d4" (Some "pbe0") None false); Go 0; Go 1; Go 0; Go 1].
Theorem C60_read_once_refuted :
  ~ (forall actions m, times_read (execution shipped actions) m <= 1).
Proof. intros H. specialize (H two_calls d4). vm_compute in H. lia. Qed.

(** A call that is not interrupted does what the sequential model (C40-C42) says, from any state. *)
Theorem C60_alone : forall files method functional variant keep_doi s,
  let '(s', r) := uninterrupted (get_params_th files method functional variant keep_doi) s in
  (c_py s', r) = get_params files (c_py s) method functional variant keep_doi.
Proof. exact un_call. Qed.

(** ** Instances *)
(** two calls that overlap; the first one is faster, and the dictionary that it returned is changed
    while the second one is running *)
Definition disturbed (n : nat) : list action :=
  (User (Call "d4" (Some "pbe") None false) :: User (Call "d4" (Some "pbe") None true) ::
  flat_map (fun _ => [Go 0; Go 0; User (Clear 0); User (SetItem 0 "a1" (UHeld 0)); Go 1]) (seq 0 n))%list.
(** a small file *)
Definition small : tfile := mkFile ["bj"] [("bj", [("s8", TNum 1)])]
  [("pbe", [("bj", [("a1", TNum (2 # 5)); ("doi", TStr "x")])])].
Definition smalls (m : meth) : option tfile := match m with d4 => Some small | _ => None end.
Definition small_files (m : meth) : option toml := option_map (tree m) (smalls m).

Example C60_nonvacuous :
  (forall m f, smalls m = Some f -> file_ok f) /\ (forall m, small_files m = option_map (tree m) (smalls m)) /\
  nth_error (begun (disturbed 22)) 1 = Some (meth_value d4, Some "pbe", None, true) /\
  entry small (Some "pbe") None [("a1", TNum (2 # 5)); ("doi", TStr "x")] /\
  outcome (execution small_files (disturbed 22)) 1 = None /\
  (exists l, outcome (execution small_files (disturbed 22)) 0 = Some (Ok l) /\
     content (py_heap (c_py (y_state (execution small_files (disturbed 22))))) l = Some [("a1", HR l)]) /\
  (exists l, outcome (execution small_files (disturbed 22 ++ [Go 1])) 1 = Some (Ok l)) /\
  times_read (execution small_files (disturbed 22)) d4 = 2.
Proof.
  split; [|split; [|split; [|split; [|split; [|split; [|split]]]]]]; try reflexivity.
  - intros m f E. destruct m; try discriminate. injection E as <-. apply lower_names_ok. reflexivity.
  - eapply entry_default_variant; try reflexivity. discriminate.
  - eexists. split; vm_compute; reflexivity.
  - eexists. vm_compute. reflexivity.
Qed.
(** with the files of the package *)
Example C60_package :
  (forall m f, package m = Some f -> file_ok f) /\ (forall m, shipped m = option_map (tree m) (package m)) /\
  nth_error (begun two_calls) 1 = Some (meth_value d4, Some "pbe0", None, false) /\
  outcome (execution shipped two_calls) 1 = None /\
  (forall earlier rest, two_calls = (earlier ++ rest)%list -> running (execution shipped earlier) <= 2).
Proof.
  split; [exact package_ok|]. split; [exact package_shipped|]. split; [reflexivity|].
  split; [vm_compute; reflexivity|]. unfold two_calls. intros earlier rest E.
  do 7 (destruct earlier as [|? earlier]; [vm_compute; lia|]; try (injection E as <- E)); discriminate E.
Qed.

Print Assumptions C60_lookup_any_schedule.
Print Assumptions C60_always_finishes.
Print Assumptions C60_times_read.
Print Assumptions C60_read_once_refuted.
Print Assumptions C60_alone.
