(** * Concrete cases meeting the hypotheses of the theorems in PropsSelect and PropsParams *)
From Coq Require Import Reals Lra Lia List Arith ZArith QArith Qreals Bool String.
From Verif Require Import Py Tensor Scalar RInst ModelExt ModelUtils ModelDamping ModelModels
  ModelTerms ModelDisp SpecCall SpecR SpecMol TensorLemmas Closed ClosedModels ClosedDisp CallLemmas
  Inst Usable InstW PropsSelect PropsParams.
Import ListNotations.
Open Scope string_scope.

Section E.
Context (eps mx : R).
Notation N := (RN eps mx).

(** "D4S" is accepted; "d4x" is not *)
Example C18_example :
  In "D4S" model_names /\ ~ In "d4x" model_names.
Proof. split; simpl; intuition discriminate. Qed.

(** the two-molecule batch, with model "D3" *)
Example C18_d3_example :
  run (N := N) (Xex eps mx) (Wex eps mx)
    (mkDisp (p_terms (Pex eps mx)) (p_cn_fn (Pex eps mx)) (p_cn_kw (Pex eps mx)) "D3" None no_kw) mol_call
  = Raise TypeError.
Proof.
  rewrite (C18_d3_has_no_energy (N := N) (Xex eps mx) (Wex eps mx) (Pex eps mx) mol_call D4M no_kw 3 3 [2%nat]
    (mkTerm TwoBodyTerm RationalDamping true) (tl (terms_d4 (N := N) (Xex eps mx))) "D3"); try reflexivity.
  - apply Xex_tables.
  - apply mol_wf.
Qed.

Example C37_example :
  ref_known (default (k_ref (mkKw (N := N) None None None (Some "hirshfeld") None)) "eeq") = false.
Proof. reflexivity. Qed.

Definition no_a1 : Param (sc N) := [pnum (eps := eps) (mx := mx) "a2" 5].
Definition misspelt : Param (sc N) := [pnum (eps := eps) (mx := mx) "a1" 1; pnum "a2" 5; pnum "S8" 1].

Example C24_example :
  run (N := N) (Xex eps mx) (Wex eps mx) (Pex eps mx) (set_param mol_call no_a1) = Raise TypeError /\
  run (N := N) (Xex eps mx) (Wex eps mx) (Pex eps mx) (set_param mol_call misspelt) = Raise TypeError.
Proof.
  split.
  - eapply (C24_d4_needs_a1_a2 (N := N) (Xex eps mx) (Wex eps mx) (Pex eps mx) mol_call D4M no_kw 3 3 [2%nat]);
      [apply Xex_tables|apply mol_wf|reflexivity|reflexivity| | |].
    + intros k v [E|[]]. injection E as <- _. simpl. tauto.
    + left. left. split; [reflexivity|]. unfold defaulted. simpl. intuition discriminate.
    + intros [(_ & [(_ & H)|H] & _)|[(H & _)|[(H & _)|(H & _)]]]; try discriminate.
      apply H. unfold defaulted. simpl. tauto.
  - eapply (C24_unknown_name_in_call (N := N) (Xex eps mx) (Wex eps mx) (Pex eps mx) mol_call D4M no_kw 3 3 [2%nat]);
      [apply Xex_tables|apply mol_wf|reflexivity|reflexivity|right; right; left; reflexivity|].
    simpl. intuition discriminate.
Qed.

(** zero damping without rs8 but with s8 *)
Example C24_zero_example dist radii :
  damping_call (ZeroDamping (Xex eps mx)) dist radii 8 false [pnum "s8" 1; pnum "rs6" 1] = Raise TypeError.
Proof.
  refine (proj1 (proj2 (C24_missing_parameter_raises (Xex eps mx) dist radii 8 false _ "rs8" _ _ _)) _).
  - intros k v [E|[E|[]]]; injection E as <- _; simpl; tauto.
  - intros [(H & _)|[(_ & [(H & _)|H] & _)|[(H & _)|(H & _)]]]; discriminate.
  - left. split; [reflexivity|]. unfold defaulted. simpl. intuition discriminate.
  - do 2 right. left. auto.
Qed.

(** zero damping at order 10 *)
Example C24_unimplemented_example dist radii :
  damping_call (ZeroDamping (Xex eps mx)) dist radii 10 false
    (map (fun k => pnum k 1) ["a1"; "a2"; "s6"; "rs6"; "s8"; "rs8"; "s9"; "rs9"; "s10"; "alp"; "bet"]) = Raise ValueError.
Proof.
  refine (proj1 (C24_unimplemented_order (Xex eps mx) dist radii 10 false _ _ _ _) _).
  - intros k v H. apply in_map_iff in H as (k' & E & H). injection E as <- _. simpl in *. tauto.
  - intros [(H & _)|[(H & _)|[(H & _)|(_ & [(H & _)|H])]]]; discriminate.
  - intros k Hk. unfold known_names in Hk. simpl in Hk.
    repeat (destruct Hk as [<-|Hk]; [first [right; reflexivity | left; intros [(H & _)|H]; discriminate]|]).
    destruct Hk.
  - simpl. intuition discriminate.
Qed.

(** rutherfordium (104) and, for gfn2 charges, francium (87) *)
Definition rf : tensor Z := mkT [2%nat] (fun ix => match ix with [1%nat] => 104%Z | _ => 1%Z end).
Definition fr : tensor Z := mkT [2%nat] (fun ix => match ix with [1%nat] => 87%Z | _ => 1%Z end).
Example C39_example :
  new_model (N := N) (Xex eps mx) D4M "D4Model" rf no_kw = Raise IndexError /\
  new_model (N := N) (Xex eps mx) D4SM "D4SModel" fr (mkKw (N := N) None None None (Some "gfn2") None)
    = Raise IndexError.
Proof.
  split.
  - apply (C39_too_heavy_elements (N := N) (Xex eps mx) D4M _ rf no_kw [1%nat]); auto.
    + simpl. lia.
    + left. simpl. split; [reflexivity|lia].
    + simpl. eauto.
  - apply (C39_too_heavy_elements (N := N) (Xex eps mx) D4SM _ fr (mkKw (N := N) None None None (Some "gfn2") None) [1%nat]); auto.
    + simpl. lia.
    + right. simpl. split; [reflexivity|lia].
    + simpl. eauto.
Qed.
Example C39_call_example :
  run (N := N) (Xex eps mx) (Wex eps mx) (Pex eps mx) (call rf (line 2 [] 2)) = Raise IndexError.
Proof.
  apply (C39_too_heavy_call (N := N) (Xex eps mx) (Wex eps mx) (Pex eps mx) (call rf (line 2 [] 2)) [1%nat]);
    try reflexivity.
  - left. reflexivity.
  - simpl. eauto.
  - simpl. lia.
  - left. simpl. split; [reflexivity|lia].
Qed.
End E.
