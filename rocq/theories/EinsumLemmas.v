(** * Closed forms of the einsum patterns used by the code (proof layer). *)
From Coq Require Import List Arith ZArith Bool Lia String Ascii.
From Verif Require Import Py Tensor Scalar TensorLemmas.
Import ListNotations.
Open Scope string_scope.

Section E.
Context {K : Scalar}.
Implicit Types t u v : tensor K.

Ltac ein :=
  unfold einsumK, einsum;
  repeat match goal with H : ten _ _ _ |- _ => destruct H as [? ?] end;
  cbn -[bdim bshape fsum bidx Nat.eqb];
  repeat match goal with H : shp _ = _ |- _ => rewrite H end;
  cbn -[bdim bshape fsum bidx Nat.eqb];
  repeat (rewrite ?bdim_refl, ?bshape_refl, ?bshape_nil_l, ?bshape_nil_r;
          cbn -[bdim bshape fsum bidx Nat.eqb]);
  eexists; split; [reflexivity|]; split; [reflexivity|].

Ltac ein_fin :=
  intros i Hi; vdes; cbn -[bdim bshape fsum bidx Nat.eqb];
  repeat (apply fsum_ext; intros);
  unfold prod_ops, op_val, op_index; cbn -[bdim bshape fsum bidx Nat.eqb];
  repeat match goal with H : shp _ = _ |- _ => rewrite H end;
  cbn -[bdim bshape fsum bidx Nat.eqb]; bsimp; cbn [app];
  repeat match goal with H : forall i, valid _ i -> dat ?t i = _ |- context [dat ?t ?j] =>
    rewrite (H j) by (repeat apply valid_cons; auto; exact I) end; try reflexivity.

(** ["...ijab,...ia,...jb->...ij"], from left to right *)
Lemma ein_c6_d4_1 t u n r B ft fu :
  ten t (r :: r :: n :: n :: B) ft -> ten u (r :: n :: B) fu ->
  ev (einsumK [(Ell "ijab", t); (Ell "ia", u)] (Ell "ijb"))
     (r :: n :: n :: B)
     (ix3 (fun y j i b => fsum r (fun x => fmul (ft (y :: x :: j :: i :: b)) (fu (x :: i :: b))))).
Proof. intros. ein. ein_fin. Qed.
Lemma ein_c6_d4_2 t u n r B ft fu :
  ten t (r :: n :: n :: B) ft -> ten u (r :: n :: B) fu ->
  ev (einsumK [(Ell "ijb", t); (Ell "jb", u)] (Ell "ij"))
     (n :: n :: B)
     (ix2 (fun j i b => fsum r (fun y => fmul (ft (y :: j :: i :: b)) (fu (y :: j :: b))))).
Proof. intros. ein. ein_fin. Qed.
Lemma ein_c6_d4 t u v n r B ft fu fv :
  ten t (r :: r :: n :: n :: B) ft -> ten u (r :: n :: B) fu -> ten v (r :: n :: B) fv ->
  ev (bind (einsumK [(Ell "ijab", t); (Ell "ia", u)] (Ell "ijb")) (fun x =>
      einsumK [(Ell "ijb", x); (Ell "jb", v)] (Ell "ij")))
     (n :: n :: B)
     (ix2 (fun j i b => fsum r (fun y => fmul (fsum r (fun x =>
        fmul (ft (y :: x :: j :: i :: b)) (fu (x :: i :: b)))) (fv (y :: j :: b))))).
Proof.
  intros. eapply ev_bind; [eapply ein_c6_d4_1; eauto|]. intros x Hx.
  eapply ev_conv; [eapply ein_c6_d4_2; eauto|]. vsimp. reflexivity.
Qed.

(** ["...ijab,...jia,...ijb->...ij"], from left to right *)
Lemma ein_c6_d4s_1 t u n r B ft fu :
  ten t (r :: r :: n :: n :: B) ft -> ten u (r :: n :: n :: B) fu ->
  ev (einsumK [(Ell "ijab", t); (Ell "jia", u)] (Ell "ijb"))
     (r :: n :: n :: B)
     (ix3 (fun y j i b => fsum r (fun x => fmul (ft (y :: x :: j :: i :: b)) (fu (x :: i :: j :: b))))).
Proof. intros. ein. ein_fin. Qed.
Lemma ein_c6_d4s_2 t u n r B ft fu :
  ten t (r :: n :: n :: B) ft -> ten u (r :: n :: n :: B) fu ->
  ev (einsumK [(Ell "ijb", t); (Ell "ijb", u)] (Ell "ij"))
     (n :: n :: B)
     (ix2 (fun j i b => fsum r (fun y => fmul (ft (y :: j :: i :: b)) (fu (y :: j :: i :: b))))).
Proof. intros. ein. ein_fin. Qed.
Lemma ein_c6_d4s t u v n r B ft fu fv :
  ten t (r :: r :: n :: n :: B) ft -> ten u (r :: n :: n :: B) fu -> ten v (r :: n :: n :: B) fv ->
  ev (bind (einsumK [(Ell "ijab", t); (Ell "jia", u)] (Ell "ijb")) (fun x =>
      einsumK [(Ell "ijb", x); (Ell "ijb", v)] (Ell "ij")))
     (n :: n :: B)
     (ix2 (fun j i b => fsum r (fun y => fmul (fsum r (fun x =>
        fmul (ft (y :: x :: j :: i :: b)) (fu (x :: i :: j :: b)))) (fv (y :: j :: i :: b))))).
Proof.
  intros. eapply ev_bind; [eapply ein_c6_d4s_1; eauto|]. intros x Hx.
  eapply ev_conv; [eapply ein_c6_d4s_2; eauto|]. vsimp. reflexivity.
Qed.

(** ["w,...iaw,...jbw->...ijab"] *)
Lemma ein_trapzd t u v n m r k w B ft fu fv :
  ten t [w] ft -> ten u (w :: r :: n :: B) fu -> ten v (w :: k :: m :: B) fv ->
  ev (einsumK [(NoEll "w", t); (Ell "iaw", u); (Ell "jbw", v)] (Ell "ijab"))
     (k :: r :: m :: n :: B)
     (ix4 (fun y x j i b => fsum w (fun z =>
        fmul (fmul (ft [z]) (fu (z :: x :: i :: b))) (fv (z :: y :: j :: b))))).
Proof. intros. ein. ein_fin. Qed.

(** ["w,...iw,...jw->...ij"] *)
Lemma ein_trapzd_noref t u v n m w B ft fu fv :
  ten t [w] ft -> ten u (w :: n :: B) fu -> ten v (w :: m :: B) fv ->
  ev (einsumK [(NoEll "w", t); (Ell "iw", u); (Ell "jw", v)] (Ell "ij"))
     (m :: n :: B)
     (ix2 (fun j i b => fsum w (fun z =>
        fmul (fmul (ft [z]) (fu (z :: i :: b))) (fv (z :: j :: b))))).
Proof. intros. ein. ein_fin. Qed.

(** ["...ijkw,w->...ijk"] *)
Lemma ein_trapzd_atm t u n m k w B ft fu :
  ten t (w :: k :: m :: n :: B) ft -> ten u [w] fu ->
  ev (einsumK [(Ell "ijkw", t); (NoEll "w", u)] (Ell "ijk"))
     (k :: m :: n :: B)
     (fun i => fsum w (fun z => fmul (ft (z :: i)) (fu [z]))).
Proof. intros. ein. ein_fin. Qed.

(** ["...nr,...nr->...n"] *)
Lemma ein_nr t u n r B ft fu :
  ten t (r :: n :: B) ft -> ten u (r :: n :: B) fu ->
  ev (einsumK [(Ell "nr", t); (Ell "nr", u)] (Ell "n"))
     (n :: B)
     (fun i => fsum r (fun x => fmul (ft (x :: i)) (fu (x :: i)))).
Proof. intros. ein. ein_fin. Qed.

(** the same with an extra leading dimension in the first operand *)
Lemma ein_nr_lead t u n m r ft fu :
  ten t [r; n; m] ft -> ten u [r; n] fu ->
  ev (einsumK [(Ell "nr", t); (Ell "nr", u)] (Ell "n"))
     [n; m]
     (ix2 (fun i j _ => fsum r (fun x => fmul (ft [x; i; j]) (fu [x; i])))).
Proof. intros. ein. ein_fin. Qed.
Lemma ein_nr_raises t u n m r B :
  shp t = r :: n :: m :: B -> shp u = r :: n :: B -> bshape (m :: B) B = None ->
  einsumK [(Ell "nr", t); (Ell "nr", u)] (Ell "n") = Raise RuntimeError.
Proof.
  intros H1 H2 H3. unfold einsumK, einsum. cbn -[bdim bshape fsum bidx Nat.eqb].
  rewrite H1, H2. cbn -[bdim bshape fsum bidx Nat.eqb].
  repeat (rewrite ?bdim_refl, ?bshape_nil_l; cbn -[bdim bshape fsum bidx Nat.eqb]).
  rewrite H3. reflexivity.
Qed.

(** ["...mnr,...mnr,...nm->...mnr"] *)
Lemma ein_gauss t u v n m r B ft fu fv :
  ten t (r :: n :: m :: B) ft -> ten u (r :: n :: m :: B) fu -> ten v (m :: n :: B) fv ->
  ev (einsumK [(Ell "mnr", t); (Ell "mnr", u); (Ell "nm", v)] (Ell "mnr"))
     (r :: n :: m :: B)
     (ix3 (fun x i j b => fmul (fmul (ft (x :: i :: j :: b)) (fu (x :: i :: j :: b)))
                               (fv (j :: i :: b)))).
Proof. intros. ein. ein_fin. Qed.

(** ["...nr,...nrw->...nw"] *)
Lemma ein_wpol t u n r w B ft fu :
  ten t (r :: n :: B) ft -> ten u (w :: r :: n :: B) fu ->
  ev (einsumK [(Ell "nr", t); (Ell "nrw", u)] (Ell "nw"))
     (w :: n :: B)
     (ix2 (fun z i b => fsum r (fun x => fmul (ft (x :: i :: b)) (fu (z :: x :: i :: b))))).
Proof. intros. ein. ein_fin. Qed.

(** ["...mnr,...nrw->...mw"] *)
Lemma ein_wpol_d4s t u n m r w B ft fu :
  ten t (r :: n :: m :: B) ft -> ten u (w :: r :: n :: B) fu ->
  ev (einsumK [(Ell "mnr", t); (Ell "nrw", u)] (Ell "mw"))
     (w :: m :: B)
     (ix2 (fun z j b => fsum r (fun x => fsum n (fun i =>
        fmul (ft (x :: i :: j :: b)) (fu (z :: x :: i :: b)))))).
Proof. intros. ein. ein_fin. Qed.

End E.
