(** * Concrete external functions over the reals, used by the examples that show the
    hypotheses of the theorems can be met. *)
From Coq Require Import Reals Lra Lia List Arith ZArith QArith Qreals Bool String.
From Verif Require Import Py Tensor Scalar RInst ModelExt ModelUtils ModelDamping SpecR Spec.
Import ListNotations.
Open Scope R_scope.

(** Euclidean distance, division, square root; tables of ones. *)
Definition Xex (eps mx : R) : Ext (RS eps mx) :=
  mkExt (RS eps mx) (fun c x y => euclid c x y) Rdiv sqrt
        (mkT [104%nat] (fun _ => 1)) (mkT [104%nat] (fun _ => 1))
        (mkT [104%nat; 104%nat] (fun _ => 1)).

Lemma Xex_dist eps mx d0 : dist_contract d0 (Xex eps mx).
Proof. exists sqrt. repeat split; auto. intros. apply sqrt_pos. Qed.

Lemma Xex_div eps mx : div_contract (Xex eps mx).
Proof. intros a b _. reflexivity. Qed.

Lemma Xex_sqrt eps mx d0 : sqrt_contract d0 (Xex eps mx).
Proof. split; auto. intros; apply sqrt_pos. Qed.

Lemma Xex_tables eps mx : tables_contract (Xex eps mx).
Proof. exists 104%nat, 104%nat, 104%nat. repeat split; auto. Qed.

(** A regularised variant: distances and square roots never below 1/1000. *)
Definition Xreg (eps mx : R) : Ext (RS eps mx) :=
  mkExt (RS eps mx) (fun c x y => sqrt (Rmax (sqd c x y) (/ 1000000))) Rdiv
        (fun s => sqrt (Rmax s (/ 1000000)))
        (mkT [104%nat] (fun _ => 1)) (mkT [104%nat] (fun _ => 1))
        (mkT [104%nat; 104%nat] (fun _ => 1)).

Lemma Xreg_dist eps mx : dist_contract (/ 1000000) (Xreg eps mx).
Proof.
  exists (fun s => sqrt (Rmax s (/ 1000000))). repeat split; auto; intros.
  - apply sqrt_pos.
  - now rewrite Rmax_left by lra.
Qed.

Lemma Xreg_sqrt eps mx : sqrt_contract (/ 1000000) (Xreg eps mx).
Proof.
  split; intros; simpl; [|apply sqrt_pos]. now rewrite Rmax_left by lra.
Qed.

(** a tensor of constants *)
Definition const {A} (s : list nat) (x : A) : tensor A := mkT s (fun _ => x).

(** [n] atoms on a line, [a] apart, in every molecule of the batch *)
Definition line {eps mx} (n : nat) (B : list nat) (a : R) : tensor (RS eps mx) :=
  mkT (3 :: n :: B)%nat (fun ix => match ix with
                              | k :: i :: _ => if Nat.eqb k 0 then INR i * a else 0
                              | _ => 0
                              end).

Lemma line_sqd {eps mx} n B a b i j :
  sqd 3 (sl2 (@line eps mx n B a) b i) (sl2 (@line eps mx n B a) b j) = ((INR i - INR j) * a) ^ 2.
Proof. unfold sqd, sl2, line. simpl. ring. Qed.

(** parameters of a functional, as numbers *)
Definition rnum {eps mx} (x : R) : pval (RS eps mx) := PT (K := RS eps mx) (scal x).
Lemma rnum_isnum {eps mx} x : isnum (@rnum eps mx x) x.
Proof. exists (scal x). repeat split. Qed.
Definition pnum {eps mx} (k : string) (x : R) : string * pval (RS eps mx) := (k, rnum x).

Lemma pnum_good {eps mx} (l : list (string * R)) :
  (forall k x, In (k, x) l ->
     In k ["a1"; "a2"; "s6"; "rs6"; "s8"; "rs8"; "s9"; "rs9"; "s10"; "alp"; "bet"; "doi"]%string) ->
  good_param (map (fun kx => @pnum eps mx (fst kx) (snd kx)) l).
Proof.
  intros H k v Hin. apply in_map_iff in Hin as ([k' x] & E & Hin). injection E as <- <-.
  split; [eapply H; eauto|]. intros _. exists x, (scal x). repeat split.
Qed.

Definition pbe_like {eps mx} : Param (RS eps mx) :=
  [pnum "s6" 1; pnum "s8" (96 / 100); pnum "a1" (39 / 100); pnum "a2" (48 / 10); pnum "s9" 1].

Lemma pbe_like_good {eps mx} : good_param (@pbe_like eps mx).
Proof.
  apply (pnum_good [("s6", 1); ("s8", 96 / 100); ("a1", 39 / 100); ("a2", 48 / 10); ("s9", 1)]%string).
  simpl. intros k x H. repeat (destruct H as [H|H]; [injection H as <- _; tauto|]). destruct H.
Qed.

Lemma pbe_like_eff {eps mx} :
  eff_s6 (@pbe_like eps mx) = 1 /\ eff_s8 (@pbe_like eps mx) = 96 / 100 /\ eff_s10 (@pbe_like eps mx) = 0.
Proof. repeat split; reflexivity. Qed.
