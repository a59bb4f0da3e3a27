(** * Closed forms: what the tensor programs compute, one molecule at a time.

    These definitions are generic in the number type and keep the operation
    order of the code.  Proof layer: the theorems in Props*.v connect the tensor
    programs with independent specifications, not with these forms. *)
From Coq Require Import List Arith ZArith QArith Bool String.
From Verif Require Import Py Tensor Scalar ModelExt ModelUtils ModelDamping.
From Verif Require Export Spec.
Import ListNotations.
Open Scope nat_scope.

Definition pmask (num : nat -> Z) (i j : nat) : bool :=
  is_real (num i) && is_real (num j) && negb (Nat.eqb i j).

Definition tmask (num : nat -> Z) (i j k : nat) : bool :=
  is_real (num i) && is_real (num j) && is_real (num k)
  && negb (Nat.eqb i j) && negb (Nat.eqb i k) && negb (Nat.eqb j k).

Section Closed.
Context {K : Scalar} (X : Ext K).

Definition pdist (c : nat) (num : nat -> Z) (pos : nat -> nat -> K) (i j : nat) : K :=
  if pmask num i j then x_dist X c (pos i) (pos j) else feps.

Definition qq (r : nat -> K) (i j : nat) : K := fmul (fmul (flit 3) (r i)) (r j).

(** damped pair factor *)
Definition tfac (g : K -> K -> K) (c : nat) (num : nat -> Z) (pos : nat -> nat -> K)
  (rad : nat -> nat -> K) (cut : K) (i j : nat) : K :=
  if pmask num i j && fle (pdist c num pos i j) cut
  then g (pdist c num pos i j) (rad i j) else flit 0.

Definition c8v (c6 : nat -> nat -> K) (r : nat -> K) i j : K := fmul (c6 i j) (qq r i j).
Definition c10v (c6 : nat -> nat -> K) (r : nat -> K) i j : K :=
  fdiv (fmul (fmul (c6 i j) (fpown (qq r i j) 2)) (flit 49)) (flit 40).

Section E2.
Variables (n c : nat) (num : nat -> Z) (pos : nat -> nat -> K) (c6 rad : nat -> nat -> K)
  (r : nat -> K) (cut : K) (g6 g8 : K -> K -> K) (s6 s8 : K) (s10 : option (K * (K -> K -> K))).

Definition e2_mat_pos (i j : nat) : K :=
  let e := fadd (fmul s6 (fmul (c6 i j) (tfac g6 c num pos rad cut i j)))
                (fmul s8 (fmul (c8v c6 r i j) (tfac g8 c num pos rad cut i j))) in
  match s10 with
  | None => e
  | Some (s10, g10) =>
      fadd e (fmul s10 (fmul (c10v c6 r i j) (tfac g10 c num pos rad cut i j)))
  end.

Definition e2_mat (i j : nat) : K := fopp (e2_mat_pos i j).

Definition e2_atom (i : nat) : K :=
  let e := fadd (fmul s6 (fsum n (fun j => fmul (c6 i j) (tfac g6 c num pos rad cut i j))))
                (fmul s8 (fsum n (fun j => fmul (c8v c6 r i j) (tfac g8 c num pos rad cut i j)))) in
  fmul (flit (- (1 # 2)))
    match s10 with
    | None => e
    | Some (s10, g10) =>
        fadd e (fmul s10 (fsum n (fun j => fmul (c10v c6 r i j)
                                               (tfac g10 c num pos rad cut i j))))
    end.
End E2.

(** ** three-body *)
Definition pd2 c num pos i j : K := fpow (pdist c num pos i j) (flit 2).

Section E3.
Variables (n c : nat) (num : nat -> Z) (pos : nat -> nat -> K) (c9 : nat -> nat -> nat -> K)
  (rad : nat -> nat -> K) (cut : K) (g9 : K -> K -> K) (s9 : K).

Let d2 := pd2 c num pos.
Definition r2p i j k : K := fmul (fmul (d2 i j) (d2 i k)) (d2 j k).
Definition r0p i j k : K := fmul (fmul (rad i j) (rad i k)) (rad j k).
Definition r3p i j k : K :=
  if tmask num i j k then fmul (fsqrt (r2p i j k)) (r2p i j k) else feps.
Definition r5p i j k : K := if tmask num i j k then fmul (r2p i j k) (r3p i j k) else feps.
Definition fdp i j k : K :=
  if tmask num i j k then g9 (r0p i j k) (fsqrt (r2p i j k)) else flit 0.
Definition sp i j k : K :=
  if tmask num i j k then
    fmul (fmul (fsub (fadd (d2 i j) (d2 j k)) (d2 i k))
               (fadd (fsub (d2 i j) (d2 j k)) (d2 i k)))
         (fadd (fadd (fopp (d2 i j)) (d2 j k)) (d2 i k))
  else flit 0.
Definition angp i j k : K :=
  if tmask num i j k && fle (d2 i j) (fmul cut cut) && fle (d2 j k) (fmul cut cut)
     && fle (d2 j k) (fmul cut cut)
  then fadd (fdiv (fmul (flit (375 # 1000)) (sp i j k)) (r5p i j k))
            (fdiv (flit 1) (r3p i j k))
  else flit 0.
Definition e3_triple i j k : K :=
  fmul (fmul (fmul (angp i j k) (fdp i j k)) s9) (c9 i j k).
Definition e3_atom (i : nat) : K :=
  fdiv (fsum n (fun j => fsum n (fun k => e3_triple i j k))) (flit 6).
End E3.

Definition radbj (a1 a2 : K) (r : nat -> K) i j : K :=
  fadd (fmul a1 (x_sqrt X (qq r i j))) a2.

Definition c9a (c6 : nat -> nat -> K) i j k : K :=
  x_sqrt X (fabs (fmul (fmul (c6 i j) (c6 i k)) (c6 j k))).

End Closed.
