(** * Properties of the two-body and three-body energy functions (exact arithmetic).

    C01, C02, C03, C04, C08, C09, C11, C12 (function level). *)
From Coq Require Import Reals Lra Lia Psatz List Arith ZArith QArith Qreals Bool String.
From Verif Require Import Py Tensor Scalar RInst ModelExt ModelUtils ModelDamping ModelModels
  ModelTerms TensorLemmas Spec SpecR Closed ClosedTerms ClosedDamp EnergyR Energy3R Inst Sums.
Import ListNotations.
Open Scope R_scope.

(** ** C01 *)
Theorem C01_two_body_closed_form :
  forall eps mx (X : Ext (RS eps mx)) d0 (numbers : tensor Z) (positions : tensor (RS eps mx))
         param (c6 r4r2 : tensor (RS eps mx)) rvdw cutoff n c B a1 a2,
  shp numbers = n :: B -> shp positions = c :: n :: B ->
  shp c6 = n :: n :: B -> shp r4r2 = n :: B -> scalar_opt cutoff ->
  good_param param -> getp param "a1" = Some a1 -> getp param "a2" = Some a2 ->
  0 < d0 -> dist_contract d0 X -> separated d0 numbers positions n c B ->
  (forall b i, valid B b -> (i < n)%nat -> 0 <= sl1 r4r2 b i) ->
  returns1 (dispersion2 X numbers positions param c6 r4r2 rvdw RationalDamping cutoff false) n B
    (fun b => two_body n c (sl1 numbers b) (sl2 positions b) (sl2 c6 b) (sl1 r4r2 b)
                a1 a2 (eff_s6 param) (eff_s8 param) (eff_s10 param) (eff_cut 60 cutoff)).
Proof.
  intros eps mx X d0 numbers positions param c6 r4r2 rvdw cutoff n c B a1 a2
    Hn Hp Hc Hr Hcut G E1 E2 _ HD HS _.
  exact (proj1 (disp2_rational X numbers positions param c6 r4r2 rvdw cutoff n c B
                  Hn Hp Hc Hr Hcut G a1 a2 d0 E1 E2 HD HS)).
Qed.
Print Assumptions C01_two_body_closed_form.

Lemma line_separated {eps mx} (z : tensor Z) n B a : 1 <= a ->
  separated (/ 2) z (@line eps mx n B a) n 3 B.
Proof.
  intros Ha b i j Hb Hi Hj Hr. rewrite line_sqd.
  assert (Hne : i <> j).
  { intros ->. rewrite real_pair_diag in Hr. discriminate. }
  assert (Habs : 1 <= Rabs (INR i - INR j)).
  { destruct (Nat.lt_ge_cases i j) as [L|L].
    - assert (H := le_INR (S i) j L). rewrite S_INR in H. rewrite Rabs_left1 by lra. lra.
    - assert (L' : (S j <= i)%nat) by lia.
      assert (H := le_INR (S j) i L'). rewrite S_INR in H. rewrite Rabs_right by lra. lra. }
  assert (H1 : 1 <= (INR i - INR j) ^ 2).
  { rewrite <- (Rsqr_pow2 (INR i - INR j)). rewrite (Rsqr_abs (INR i - INR j)). unfold Rsqr. nra. }
  rewrite Rpow_mult_distr. assert (1 <= a ^ 2) by nra. nra.
Qed.

(** a batch of two molecules of three atoms meets the hypotheses *)
Example C01_example :
  returns1 (dispersion2 (Xex 0 0) (const [3; 2]%nat 6%Z) (line 3 [2%nat] 2) pbe_like
              (const [3; 3; 2]%nat 20) (const [3; 2]%nat 3) None RationalDamping None false)
    3 [2%nat]
    (fun b => two_body 3 3 (fun _ => 6%Z) (sl2 (@line 0 0 3 [2%nat] 2) b) (fun _ _ => 20) (fun _ => 3)
                (39 / 100) (48 / 10) 1 (96 / 100) 0 60).
Proof.
  apply (C01_two_body_closed_form 0 0 (Xex 0 0) (/ 2) (const [3; 2]%nat 6%Z) (line 3 [2%nat] 2) pbe_like
              (const [3; 3; 2]%nat 20) (const [3; 2]%nat 3) None None 3 3 [2%nat] (39 / 100) (48 / 10));
  try reflexivity; try lra; auto using pbe_like_good, Xex_dist.
  - apply line_separated. lra.
  - intros. unfold sl1, const. simpl. lra.
Qed.

(** ** C02 *)
Theorem C02_atm_closed_form :
  forall eps mx (X : Ext (RS eps mx)) d0 (numbers : tensor Z)
         (positions c9 radii cutoff : tensor (RS eps mx)) s9p alpp n c B s9 alp,
  shp numbers = n :: B -> shp positions = c :: n :: B ->
  shp c9 = n :: n :: n :: B -> shp radii = n :: n :: B ->
  isnum s9p s9 -> isnum alpp alp -> shp cutoff = [] -> 0 <= dat cutoff [] ->
  0 < d0 -> dist_contract d0 X -> div_contract X -> separated d0 numbers positions n c B ->
  (forall b i j, valid B b -> (i < n)%nat -> (j < n)%nat ->
     real_pair (sl1 numbers b) i j = true -> 0 < sl2 radii b i j) ->
  returns1 (get_atm_dispersion X numbers positions c9 radii cutoff (ZeroDamping X) s9p alpp) n B
    (fun b i => 1 / 6 * rsum n (fun j => rsum n (fun k =>
       if real_triple (sl1 numbers b) i j k
          && rleb (euclid c (sl2 positions b i) (sl2 positions b j)) (dat cutoff [])
          && rleb (euclid c (sl2 positions b j) (sl2 positions b k)) (dat cutoff [])
       then triple_energy c (sl2 positions b i) (sl2 positions b j) (sl2 positions b k)
              (sl3 c9 b i j k) (sl2 radii b i j) (sl2 radii b i k) (sl2 radii b j k) s9 alp
       else 0))).
Proof.
  intros. eapply atm_R; eauto.
Qed.
Print Assumptions C02_atm_closed_form.

Example C02_example :
  returns1 (get_atm_dispersion (Xex 0 0) (const [3; 2]%nat 6%Z) (line 3 [2%nat] 2)
              (const [3; 3; 3; 2]%nat 100) (const [3; 3; 2]%nat 5) (scal 40) (ZeroDamping (Xex 0 0))
              (rnum 1) (rnum 16)) 3 [2%nat]
    (fun b i => 1 / 6 * rsum 3 (fun j => rsum 3 (fun k =>
       if real_triple (fun _ => 6%Z) i j k
          && rleb (euclid 3 (sl2 (@line 0 0 3 [2%nat] 2) b i) (sl2 (@line 0 0 3 [2%nat] 2) b j)) 40
          && rleb (euclid 3 (sl2 (@line 0 0 3 [2%nat] 2) b j) (sl2 (@line 0 0 3 [2%nat] 2) b k)) 40
       then triple_energy 3 (sl2 (@line 0 0 3 [2%nat] 2) b i) (sl2 (@line 0 0 3 [2%nat] 2) b j)
              (sl2 (@line 0 0 3 [2%nat] 2) b k) 100 5 5 5 1 16
       else 0))).
Proof.
  apply (C02_atm_closed_form 0 0 (Xex 0 0) (/ 2) (const [3; 2]%nat 6%Z) (line 3 [2%nat] 2)
              (const [3; 3; 3; 2]%nat 100) (const [3; 3; 2]%nat 5) (scal 40)
              (@rnum 0 0 1) (@rnum 0 0 16) 3 3 [2%nat] 1 16);
  try reflexivity; auto using Xex_dist, Xex_div; try lra.
  - apply rnum_isnum.
  - apply rnum_isnum.
  - simpl. lra.
  - apply line_separated. lra.
  - intros. unfold sl2, const. simpl. lra.
Qed.

(** ** C03 *)
Theorem C03_matrix_and_atom_energies_agree :
  forall eps mx (X : Ext (RS eps mx)) d0 (numbers : tensor Z) (positions : tensor (RS eps mx))
         param (c6 r4r2 : tensor (RS eps mx)) rvdw cutoff (d : Damping (RS eps mx)) n c B g6 g8 g10,
  shp numbers = n :: B -> shp positions = c :: n :: B ->
  shp c6 = n :: n :: B -> shp r4r2 = n :: B -> scalar_opt cutoff ->
  good_param param -> dist_contract d0 X ->
  (* any damping function that acts elementwise *)
  radius_ok d rvdw (n :: n :: B) ->
  elementwise d param 6 false g6 -> elementwise d param 8 false g8 ->
  (getp param "s10" <> None -> elementwise d param 10 false g10) ->
  exists M e,
    dispersion2 X numbers positions param c6 r4r2 rvdw d cutoff true = Ok M /\
    dispersion2 X numbers positions param c6 r4r2 rvdw d cutoff false = Ok e /\
    shp M = n :: n :: B /\ shp e = n :: B /\
    forall b, valid B b ->
      (forall i, (i < n)%nat -> sl1 e b i = 1 / 2 * rsum n (fun j => sl2 M b i j)) /\
      (forall i j, (i < n)%nat -> (j < n)%nat -> real_pair (sl1 numbers b) i j = false ->
         sl2 M b i j = 0) /\
      ((forall i j, (i < n)%nat -> (j < n)%nat -> sl2 c6 b i j = sl2 c6 b j i) ->
       (forall v, rvdw = Some v -> forall i j, (i < n)%nat -> (j < n)%nat -> sl2 v b i j = sl2 v b j i) ->
       (forall i j, (i < n)%nat -> (j < n)%nat -> sl2 M b i j = sl2 M b j i) /\
       rsum n (fun i => sl1 e b i) = pairs_sum n (fun i j => sl2 M b i j)).
Proof.
  intros eps mx X d0 numbers positions param c6 r4r2 rvdw cutoff d n c B g6 g8 g10
    Hn Hp Hc Hr Hcut G HD Hrad H6 H8 H10.
  destruct (disp2_any X numbers positions param c6 r4r2 rvdw cutoff n c B Hn Hp Hc Hr Hcut G
              d g6 g8 g10 Hrad H6 H8 H10) as [(e & Ee & Se & De) (M & EM & SM & DM)].
  exists M, e. repeat (split; [assumption|]). intros b Hb.
  set (P := pvb X numbers positions param c6 r4r2 rvdw cutoff c d g6 g8 g10 b) in *.
  assert (E1 : forall i, (i < n)%nat -> sl1 e b i = 1 / 2 * rsum n (fun j => sl2 M b i j)).
  { intros i Hi. rewrite De by auto.
    rewrite (rsum_ext n (fun j => sl2 M b i j) (fun j => - P i j))
      by (intros; rewrite DM by auto; reflexivity).
    rewrite rsum_opp. fold P. lra. }
  assert (E0 : forall i j, (i < n)%nat -> (j < n)%nat -> real_pair (sl1 numbers b) i j = false ->
         sl2 M b i j = 0).
  { intros i j Hi Hj E. rewrite DM by auto. unfold pvb, pv, pair_in. rewrite E. simpl. lra. }
  split; [exact E1|]. split; [exact E0|]. intros Sc Sv.
  assert (ES : forall i j, (i < n)%nat -> (j < n)%nat -> sl2 M b i j = sl2 M b j i).
  { intros i j Hi Hj. rewrite !DM by auto. f_equal.
    destruct HD as (gd & Hgd & _). unfold pvb, pv, pair_in, pairv. rewrite !Hgd.
    rewrite (sqd_sym c (sl2 positions b j)), (real_pair_sym _ j i), (Sc j i) by auto.
    assert (ER : rad_of d (sl1 r4r2 b) (rvdat rvdw b) j i = rad_of d (sl1 r4r2 b) (rvdat rvdw b) i j).
    { unfold rad_of. destruct (_ =? _)%string.
      - unfold rvdat. destruct rvdw; [|reflexivity]. apply (Sv t eq_refl); assumption.
      - unfold qq. rs. ring. }
    rewrite ER. destruct (_ && _); auto.
    replace (3 * sl1 r4r2 b j * sl1 r4r2 b i) with (3 * sl1 r4r2 b i * sl1 r4r2 b j) by ring.
    reflexivity. }
  split; [exact ES|].
  rewrite (rsum_ext n _ (fun i => 1 / 2 * rsum n (fun j => sl2 M b i j))) by auto.
  rewrite rsum_scal_l, (rsum_pairs n (fun i j => sl2 M b i j) ES); [lra|].
  intros i Hi. apply E0; auto. apply real_pair_diag.
Qed.
Print Assumptions C03_matrix_and_atom_energies_agree.

(** ... with the closed form of the matrix for rational damping *)
Theorem C03_matrix_closed_form :
  forall eps mx (X : Ext (RS eps mx)) d0 (numbers : tensor Z) (positions : tensor (RS eps mx))
         param (c6 r4r2 : tensor (RS eps mx)) rvdw cutoff n c B a1 a2,
  shp numbers = n :: B -> shp positions = c :: n :: B ->
  shp c6 = n :: n :: B -> shp r4r2 = n :: B -> scalar_opt cutoff ->
  good_param param -> getp param "a1" = Some a1 -> getp param "a2" = Some a2 ->
  0 < d0 -> dist_contract d0 X -> separated d0 numbers positions n c B ->
  (forall b i, valid B b -> (i < n)%nat -> 0 <= sl1 r4r2 b i) ->
  returns2 (dispersion2 X numbers positions param c6 r4r2 rvdw RationalDamping cutoff true) n B
    (fun b i j =>
       let r := euclid c (sl2 positions b i) (sl2 positions b j) in
       if real_pair (sl1 numbers b) i j && rleb r (eff_cut 60 cutoff)
       then - pair_energy a1 a2 (eff_s6 param) (eff_s8 param) (eff_s10 param) (sl2 c6 b i j)
                (sl1 r4r2 b i) (sl1 r4r2 b j) r
       else 0).
Proof.
  intros eps mx X d0 numbers positions param c6 r4r2 rvdw cutoff n c B a1 a2
    Hn Hp Hc Hr Hcut G E1 E2 _ HD HS _.
  destruct (proj2 (disp2_rational X numbers positions param c6 r4r2 rvdw cutoff n c B
                  Hn Hp Hc Hr Hcut G a1 a2 d0 E1 E2 HD HS)) as (t & Et & St & Dt).
  exists t. repeat split; auto. intros b i j Hb Hi Hj. rewrite Dt by auto. unfold upair. cbv zeta.
  destruct (_ && _); lra.
Qed.
Print Assumptions C03_matrix_closed_form.

Example C03_example :
  exists M e,
    dispersion2 (Xex 0 0) (const [3; 2]%nat 6%Z) (line 3 [2%nat] 2) pbe_like
              (const [3; 3; 2]%nat 20) (const [3; 2]%nat 3) None RationalDamping None true = Ok M /\
    dispersion2 (Xex 0 0) (const [3; 2]%nat 6%Z) (line 3 [2%nat] 2) pbe_like
              (const [3; 3; 2]%nat 20) (const [3; 2]%nat 3) None RationalDamping None false = Ok e /\
    rsum 3 (fun i => sl1 e [1%nat] i) = pairs_sum 3 (fun i j => sl2 M [1%nat] i j).
Proof.
  destruct (C03_matrix_and_atom_energies_agree 0 0 (Xex 0 0) 0 (const [3; 2]%nat 6%Z)
     (line 3 [2%nat] 2) pbe_like (const [3; 3; 2]%nat 20) (const [3; 2]%nat 3) None None
     RationalDamping 3 3 [2%nat] (rat_or_0 (@pbe_like 0 0) (39 / 100) (48 / 10) 6)
     (rat_or_0 (@pbe_like 0 0) (39 / 100) (48 / 10) 8) (rat_or_0 (@pbe_like 0 0) (39 / 100) (48 / 10) 10))
    as (M & e & EM & Ee & _ & _ & H);
  try reflexivity; auto using pbe_like_good, Xex_dist, rational_all.
  - left. reflexivity.
  - exists M, e. split; auto. split; auto. apply (H [1%nat]); auto; try discriminate.
    simpl. lia.
Qed.

(** ** C04 *)
Lemma triple_energy_swap12 c xi xj xk c9 a b d s9 alp :
  triple_energy c xi xj xk c9 a b d s9 alp = triple_energy c xj xi xk c9 a d b s9 alp.
Proof.
  unfold triple_energy. cbv zeta.
  rewrite (euclid_sym c xj xi).
  replace (euclid c xi xj * euclid c xj xk * euclid c xi xk)
    with (euclid c xi xj * euclid c xi xk * euclid c xj xk) by ring.
  replace (a * d * b) with (a * b * d) by ring.
  replace (cos_at c xk xj xi) with (cos_at c xk xi xj).
  2:{ unfold cos_at. rewrite (Rmult_comm (euclid c xk xj)). f_equal.
      unfold dot. apply rsum_ext. intros. ring. }
  replace (3 * cos_at c xj xi xk * cos_at c xi xj xk * cos_at c xk xi xj)
    with (3 * cos_at c xi xj xk * cos_at c xj xi xk * cos_at c xk xi xj) by ring.
  reflexivity.
Qed.

Lemma cos_at_sym c p x y : cos_at c p x y = cos_at c p y x.
Proof.
  unfold cos_at. rewrite (Rmult_comm (euclid c p x)). f_equal.
  unfold dot. apply rsum_ext. intros. ring.
Qed.

Lemma triple_energy_swap23 c xi xj xk c9 a b d s9 alp :
  triple_energy c xi xj xk c9 a b d s9 alp = triple_energy c xi xk xj c9 b a d s9 alp.
Proof.
  unfold triple_energy. cbv zeta.
  rewrite (euclid_sym c xk xj).
  replace (euclid c xi xk * euclid c xi xj * euclid c xj xk)
    with (euclid c xi xj * euclid c xi xk * euclid c xj xk) by ring.
  replace (b * a * d) with (a * b * d) by ring.
  rewrite (cos_at_sym c xi xk xj).
  replace (3 * cos_at c xi xj xk * cos_at c xk xi xj * cos_at c xj xi xk)
    with (3 * cos_at c xi xj xk * cos_at c xj xi xk * cos_at c xk xi xj) by ring.
  reflexivity.
Qed.

Lemma real_triple_swap12 z i j k : real_triple z i j k = real_triple z j i k.
Proof.
  unfold real_triple. rewrite (real_pair_sym z j i).
  destruct (real_pair z i j), (real_pair z i k), (real_pair z j k); reflexivity.
Qed.
Lemma real_triple_swap23 z i j k : real_triple z i j k = real_triple z i k j.
Proof.
  unfold real_triple. rewrite (real_pair_sym z k j).
  destruct (real_pair z i j), (real_pair z i k), (real_pair z j k); reflexivity.
Qed.

Theorem C04_atm_counts_each_triple_once :
  forall eps mx (X : Ext (RS eps mx)) d0 (numbers : tensor Z)
         (positions c9 radii cutoff : tensor (RS eps mx)) s9p alpp n c B s9 alp,
  shp numbers = n :: B -> shp positions = c :: n :: B ->
  shp c9 = n :: n :: n :: B -> shp radii = n :: n :: B ->
  isnum s9p s9 -> isnum alpp alp -> shp cutoff = [] -> 0 <= dat cutoff [] ->
  0 < d0 -> dist_contract d0 X -> div_contract X -> separated d0 numbers positions n c B ->
  (forall b i j, valid B b -> (i < n)%nat -> (j < n)%nat ->
     real_pair (sl1 numbers b) i j = true -> 0 < sl2 radii b i j) ->
  exists e,
    get_atm_dispersion X numbers positions c9 radii cutoff (ZeroDamping X) s9p alpp = Ok e /\
    forall b, valid B b ->
    (* symmetric C9 and radii, all real pairs within the cutoff *)
    (forall i j k, (i < n)%nat -> (j < n)%nat -> (k < n)%nat ->
       sl3 c9 b i j k = sl3 c9 b j i k /\ sl3 c9 b i j k = sl3 c9 b i k j) ->
    (forall i j, (i < n)%nat -> (j < n)%nat -> sl2 radii b i j = sl2 radii b j i) ->
    (forall i j, (i < n)%nat -> (j < n)%nat -> real_pair (sl1 numbers b) i j = true ->
       euclid c (sl2 positions b i) (sl2 positions b j) <= dat cutoff []) ->
    rsum n (fun i => sl1 e b i)
    = triples_sum n (fun i j k =>
        if real_triple (sl1 numbers b) i j k then
          triple_energy c (sl2 positions b i) (sl2 positions b j) (sl2 positions b k)
              (sl3 c9 b i j k) (sl2 radii b i j) (sl2 radii b i k) (sl2 radii b j k) s9 alp
        else 0).
Proof.
  intros eps mx X d0 numbers positions c9 radii cutoff s9p alpp n c B s9 alp
    Hn Hp Hc Hr Hs9 Halp Hcut Hcp Hd0 HD HV HS HR.
  destruct (atm_R X numbers positions c9 radii cutoff s9p alpp n c B s9 alp d0 Hn Hp Hc Hr Hs9
              Halp Hcut HD HV Hd0 Hcp HS HR) as (e & Ee & Se & De).
  exists e. split; auto. intros b Hb H9 Hrs Hall.
  set (T := fun i j k => if real_triple (sl1 numbers b) i j k then
          triple_energy c (sl2 positions b i) (sl2 positions b j) (sl2 positions b k)
              (sl3 c9 b i j k) (sl2 radii b i j) (sl2 radii b i k) (sl2 radii b j k) s9 alp
        else 0).
  rewrite (rsum_ext n _ (fun i => 1 / 6 * rsum n (fun j => rsum n (fun k => T i j k)))).
  - rewrite rsum_scal_l. change (1 / 6 * S3 n T = triples_sum n T).
    rewrite rsum_triples; [lra| | |].
    + intros i j k Hi Hj Hk. unfold T. rewrite (real_triple_swap12 _ j i k).
      destruct (real_triple _ i j k); auto.
      rewrite triple_energy_swap12, (Hrs j i), (proj1 (H9 i j k Hi Hj Hk)) by auto. reflexivity.
    + intros i j k Hi Hj Hk. unfold T. rewrite (real_triple_swap23 _ i k j).
      destruct (real_triple _ i j k); auto.
      rewrite triple_energy_swap23, (Hrs k j), (proj2 (H9 i j k Hi Hj Hk)) by auto. reflexivity.
    + intros i j k Hi Hj Hk H. unfold T, real_triple.
      destruct H as [->|[->| ->]]; rewrite real_pair_diag, ?andb_false_r; reflexivity.
  - intros i Hi. rewrite De by auto. f_equal. apply rsum_ext. intros j Hj. apply rsum_ext.
    intros k Hk. unfold T, triple_in. destruct (real_triple _ i j k) eqn:E; auto.
    destruct (real_triple_pairs _ _ _ _ E) as (P1 & P2 & P3).
    rewrite (proj2 (rleb_true _ _) (Hall i j Hi Hj P1)), (proj2 (rleb_true _ _) (Hall j k Hj Hk P3)).
    reflexivity.
Qed.
Print Assumptions C04_atm_counts_each_triple_once.

Example C04_example :
  exists e,
    get_atm_dispersion (Xex 0 0) (const [3; 2]%nat 6%Z) (line 3 [2%nat] 2)
              (const [3; 3; 3; 2]%nat 100) (const [3; 3; 2]%nat 5) (scal 40) (ZeroDamping (Xex 0 0))
              (rnum 1) (rnum 16) = Ok e /\
    rsum 3 (fun i => sl1 e [1%nat] i)
    = triples_sum 3 (fun i j k => if real_triple (fun _ => 6%Z) i j k then
          triple_energy 3 (sl2 (@line 0 0 3 [2%nat] 2) [1%nat] i) (sl2 (@line 0 0 3 [2%nat] 2) [1%nat] j)
              (sl2 (@line 0 0 3 [2%nat] 2) [1%nat] k) 100 5 5 5 1 16 else 0).
Proof.
  destruct (C04_atm_counts_each_triple_once 0 0 (Xex 0 0) (/ 2) (const [3; 2]%nat 6%Z)
              (line 3 [2%nat] 2) (const [3; 3; 3; 2]%nat 100) (const [3; 3; 2]%nat 5) (scal 40)
              (@rnum 0 0 1) (@rnum 0 0 16) 3 3 [2%nat] 1 16)
    as (e & Ee & H);
  try reflexivity; auto using Xex_dist, Xex_div; try lra.
  - apply rnum_isnum.
  - apply rnum_isnum.
  - simpl. lra.
  - apply line_separated. lra.
  - intros. unfold sl2, const. simpl. lra.
  - exists e. split; auto. apply (H [1%nat]); auto.
    + simpl. lia.
    + intros i j Hi Hj _. unfold euclid. rewrite line_sqd.
      rewrite <- Rsqr_pow2, sqrt_Rsqr_abs. simpl.
      apply Rabs_le. assert (0 <= INR i <= 2) by (split; [apply pos_INR|apply (le_INR i 2); lia]).
      assert (0 <= INR j <= 2) by (split; [apply pos_INR|apply (le_INR j 2); lia]). lra.
Qed.

(** ** C08 *)
Lemma pair_energy_pos a1 a2 s6 s8 s10 c6 Qi Qj r :
  0 <= a1 -> 0 < a2 -> 0 < s6 -> 0 <= s8 -> 0 <= s10 -> 0 < c6 -> 0 <= Qi -> 0 <= Qj -> 0 <= r ->
  0 < pair_energy a1 a2 s6 s8 s10 c6 Qi Qj r.
Proof.
  intros. unfold pair_energy. cbv zeta. set (R0 := a1 * sqrt (3 * Qi * Qj) + a2).
  assert (HR : 0 < R0).
  { assert (0 <= a1 * sqrt (3 * Qi * Qj)) by (apply Rmult_le_pos; auto using sqrt_pos).
    unfold R0; lra. }
  assert (D : forall o, 0 < r ^ o + R0 ^ o).
  { intros o. assert (0 <= r ^ o) by (apply pow_le; auto). assert (0 < R0 ^ o) by (apply pow_lt; auto).
    lra. }
  assert (0 < s6 * c6 / (r ^ 6 + R0 ^ 6)) by (apply Rdiv_lt_0_compat; auto; nra).
  assert (Q0 : 0 <= 3 * Qi * Qj) by (apply Rmult_le_pos; lra).
  assert (0 <= s8 * (3 * Qi * Qj * c6) / (r ^ 8 + R0 ^ 8)).
  { apply Rmult_le_pos; [|left; apply Rinv_0_lt_compat; auto].
    apply Rmult_le_pos; auto. apply Rmult_le_pos; lra. }
  assert (0 <= s10 * (49 / 40 * (3 * Qi * Qj) ^ 2 * c6) / (r ^ 10 + R0 ^ 10)).
  { apply Rmult_le_pos; [|left; apply Rinv_0_lt_compat; auto].
    apply Rmult_le_pos; auto. apply Rmult_le_pos; [|lra]. apply Rmult_le_pos; [lra|].
    apply pow_le; auto. }
  lra.
Qed.

(** A pair contributes iff it is a pair of different real atoms at most the cutoff apart. *)
Theorem C08_sharp_inclusive_cutoff :
  forall eps mx (X : Ext (RS eps mx)) d0 (numbers : tensor Z) (positions : tensor (RS eps mx))
         param (c6 r4r2 : tensor (RS eps mx)) rvdw cutoff n c B a1 a2,
  shp numbers = n :: B -> shp positions = c :: n :: B ->
  shp c6 = n :: n :: B -> shp r4r2 = n :: B -> scalar_opt cutoff ->
  good_param param -> getp param "a1" = Some a1 -> getp param "a2" = Some a2 ->
  0 < d0 -> dist_contract d0 X -> separated d0 numbers positions n c B ->
  (forall b i, valid B b -> (i < n)%nat -> 0 <= sl1 r4r2 b i) ->
  exists M,
    dispersion2 X numbers positions param c6 r4r2 rvdw RationalDamping cutoff true = Ok M /\
    forall b i j, valid B b -> (i < n)%nat -> (j < n)%nat ->
      let r := euclid c (sl2 positions b i) (sl2 positions b j) in
      (eff_cut 60 cutoff < r -> sl2 M b i j = 0) /\
      (0 <= a1 -> 0 < a2 -> 0 < eff_s6 param -> 0 <= eff_s8 param -> 0 <= eff_s10 param ->
       0 < sl2 c6 b i j -> real_pair (sl1 numbers b) i j = true ->
       (sl2 M b i j <> 0 <-> r <= eff_cut 60 cutoff)).
Proof.
  intros eps mx X d0 numbers positions param c6 r4r2 rvdw cutoff n c B a1 a2
    Hn Hp Hc Hr Hcut G E1 E2 _ HD HS HQ.
  destruct (proj2 (disp2_rational X numbers positions param c6 r4r2 rvdw cutoff n c B
                  Hn Hp Hc Hr Hcut G a1 a2 d0 E1 E2 HD HS)) as (t & Et & St & Dt).
  exists t. split; auto. intros b i j Hb Hi Hj r. rewrite Dt by auto. unfold upair. fold r.
  split.
  - intros L. rewrite (proj2 (rleb_false _ _) L), andb_false_r. lra.
  - intros. rewrite H5. simpl. destruct (rleb r (eff_cut 60 cutoff)) eqn:E.
    + apply rleb_true in E. split; auto. intros _.
      apply Rlt_not_eq, Ropp_lt_gt_0_contravar.
      apply pair_energy_pos; auto. unfold r. apply euclid_nonneg.
    + apply rleb_false in E. split; intros Q; [|lra]. exfalso. apply Q. lra.
Qed.
Print Assumptions C08_sharp_inclusive_cutoff.

(** Moving atoms without changing any distance within the cutoff changes nothing
    (any elementwise damping function). *)
Theorem C08_beyond_cutoff_moves_do_nothing :
  forall eps mx (X : Ext (RS eps mx)) d0 (numbers : tensor Z) (positions positions' : tensor (RS eps mx))
         param (c6 r4r2 : tensor (RS eps mx)) rvdw cutoff (d : Damping (RS eps mx)) n c B g6 g8 g10,
  shp numbers = n :: B -> shp positions = c :: n :: B -> shp positions' = c :: n :: B ->
  shp c6 = n :: n :: B -> shp r4r2 = n :: B -> scalar_opt cutoff ->
  good_param param -> radius_ok d rvdw (n :: n :: B) ->
  elementwise d param 6 false g6 -> elementwise d param 8 false g8 ->
  (getp param "s10" <> None -> elementwise d param 10 false g10) ->
  0 < d0 -> dist_contract d0 X -> separated d0 numbers positions n c B ->
  separated d0 numbers positions' n c B ->
  exists e e',
    dispersion2 X numbers positions param c6 r4r2 rvdw d cutoff false = Ok e /\
    dispersion2 X numbers positions' param c6 r4r2 rvdw d cutoff false = Ok e' /\
    forall b i, valid B b -> (i < n)%nat ->
      (forall j, (j < n)%nat -> real_pair (sl1 numbers b) i j = true ->
         let r := euclid c (sl2 positions b i) (sl2 positions b j) in
         let r' := euclid c (sl2 positions' b i) (sl2 positions' b j) in
         r = r' \/ (eff_cut 60 cutoff < r /\ eff_cut 60 cutoff < r')) ->
      sl1 e b i = sl1 e' b i.
Proof.
  intros eps mx X d0 numbers positions positions' param c6 r4r2 rvdw cutoff d n c B g6 g8 g10
    Hn Hp Hp' Hc Hr Hcut G Hrad H6 H8 H10 _ HD HS HS'.
  destruct (proj1 (disp2_any X numbers positions param c6 r4r2 rvdw cutoff n c B Hn Hp Hc Hr Hcut G
              d g6 g8 g10 Hrad H6 H8 H10)) as (e & Ee & Se & De).
  destruct (proj1 (disp2_any X numbers positions' param c6 r4r2 rvdw cutoff n c B Hn Hp' Hc Hr Hcut G
              d g6 g8 g10 Hrad H6 H8 H10)) as (e' & Ee' & Se' & De').
  exists e, e'. repeat (split; [assumption|]). intros b i Hb Hi H.
  rewrite De, De' by auto. f_equal. apply rsum_ext. intros j Hj. specialize (H j Hj).
  unfold pvb, pv, pair_in. destruct HD as (gd & G1 & _ & G3). rewrite !G1.
  destruct (real_pair _ i j) eqn:E; cbn [andb]; [|reflexivity].
  rewrite !G3 by auto. fold (euclid c (sl2 positions b i) (sl2 positions b j)).
  fold (euclid c (sl2 positions' b i) (sl2 positions' b j)).
  destruct (H eq_refl) as [-> | [L1 L2]]; auto.
  now rewrite (proj2 (rleb_false _ _) L1), (proj2 (rleb_false _ _) L2).
Qed.
Print Assumptions C08_beyond_cutoff_moves_do_nothing.

(** ** C09 *)

(** A triple is kept for atom [i] iff [r_ij] and [r_jk] are within the cutoff (this is
    part of C02).  The claim that a triple with any longer edge is dropped is false:
    three atoms on a line, 3 apart, with cutoff 4 (so r_02 = 6 is beyond it). *)
Theorem C09_long_edge_is_dropped_refuted :
  exists (X : Ext (RS 0 0)) numbers positions c9 radii cutoff e,
    shp numbers = [3%nat] /\ shp positions = [3; 3]%nat /\ shp c9 = [3; 3; 3]%nat /\
    shp radii = [3; 3]%nat /\ shp cutoff = [] /\
    dat cutoff [] < euclid 3 (sl2 positions [] 0%nat) (sl2 positions [] 2%nat) /\
    get_atm_dispersion X numbers positions c9 radii cutoff (ZeroDamping X)
      (rnum 1) (rnum 16) = Ok e /\
    sl1 e [] 0%nat <> 0.
Proof.
  set (P := @line 0 0 3 [] 3).
  assert (D : forall i j, euclid 3 (sl2 P [] i) (sl2 P [] j) = 3 * Rabs (INR i - INR j)).
  { intros. unfold euclid, P. rewrite line_sqd, <- Rsqr_pow2, sqrt_Rsqr_abs, Rabs_mult.
    rewrite (Rabs_right 3) by lra. ring. }
  assert (A02 : euclid 3 (sl2 P [] 0%nat) (sl2 P [] 2%nat) = 6).
  { rewrite D. simpl. rewrite Rabs_left by lra. lra. }
  assert (A01 : euclid 3 (sl2 P [] 0%nat) (sl2 P [] 1%nat) = 3).
  { rewrite D. simpl. rewrite Rabs_left by lra. lra. }
  assert (A12 : euclid 3 (sl2 P [] 1%nat) (sl2 P [] 2%nat) = 3).
  { rewrite D. simpl. rewrite Rabs_left by lra. lra. }
  assert (A20 := A02). rewrite euclid_sym in A20.
  assert (A10 := A01). rewrite euclid_sym in A10.
  assert (A21 := A12). rewrite euclid_sym in A21.
  destruct (atm_R (Xex 0 0) (const [3]%nat 6%Z) P (const [3; 3; 3]%nat 1) (const [3; 3]%nat 1)
              (scal 4) (@rnum 0 0 1) (@rnum 0 0 16) 3 3 [] 1 16 (/ 2))
    as (e & Ee & Se & De);
  try reflexivity; auto using Xex_dist, Xex_div; try lra.
  { apply rnum_isnum. }
  { apply rnum_isnum. }
  { simpl. lra. }
  { apply line_separated. lra. }
  { intros. unfold sl2, const. simpl. lra. }
  exists (Xex 0 0), (const [3]%nat 6%Z), P, (const [3; 3; 3]%nat 1), (const [3; 3]%nat 1), (scal 4), e.
  repeat (split; [try reflexivity|]).
  { change (4 < euclid 3 (sl2 P [] 0%nat) (sl2 P [] 2%nat)). rewrite A02. lra. }
  { exact Ee. }
  specialize (De [] 0%nat I ltac:(lia)). rewrite De.
  cbn [rsum]. unfold triple_in. rewrite A01, A02, A12, A21.
  unfold scal. cbn [dat].
  rewrite (proj2 (rleb_true 3 4)) by lra. rewrite (proj2 (rleb_false 6 4)) by lra.
  unfold real_triple, real_pair, sl1, const. cbn [dat Nat.eqb Z.eqb negb andb].
  unfold triple_energy, cos_at. rewrite !dot_law, <- !(euclid_sqr 3). rewrite A01, A02, A12, A10, A20, A21.
  unfold sl3, sl2, const. cbn [dat].
  set (p := Rpower _ _). assert (0 < p) by apply exp_pos.
  assert (0 < 1 / (1 + 6 * p)) by (apply Rdiv_lt_0_compat; lra).
  set (q := 1 / (1 + 6 * p)) in *.
  match goal with |- ?g <> 0 => replace g with (- (1 / 472392) * q) end.
  2:{ unfold q. field. lra. }
  apply Rlt_not_eq. lra.
Qed.
Print Assumptions C09_long_edge_is_dropped_refuted.

(** The calls of C01_example also meet the hypotheses of the C08 theorems. *)
Example C08_example :
  exists M,
    dispersion2 (Xex 0 0) (const [3; 2]%nat 6%Z) (line 3 [2%nat] 2) pbe_like
              (const [3; 3; 2]%nat 20) (const [3; 2]%nat 3) None RationalDamping (Some (scal 3)) true
      = Ok M /\
    sl2 M [1%nat] 0%nat 1%nat <> 0 /\ sl2 M [1%nat] 0%nat 2%nat = 0.
Proof.
  destruct (C08_sharp_inclusive_cutoff 0 0 (Xex 0 0) (/ 2) (const [3; 2]%nat 6%Z) (line 3 [2%nat] 2)
              pbe_like (const [3; 3; 2]%nat 20) (const [3; 2]%nat 3) None (Some (scal 3)) 3 3 [2%nat]
              (39 / 100) (48 / 10)) as (M & EM & H);
  try reflexivity; try lra; auto using pbe_like_good, Xex_dist.
  - apply line_separated. lra.
  - intros. unfold sl1, const. simpl. lra.
  - exists M. split; auto. split.
    + assert (L : (0 < 3)%nat /\ (1 < 3)%nat /\ valid [2%nat] [1%nat]) by (simpl; lia).
      destruct L as (L0 & L1 & L2).
      destruct (H [1%nat] 0%nat 1%nat L2 L0 L1) as [_ H1]. apply H1; clear H1;
      destruct (@pbe_like_eff 0 0) as (Q6 & Q8 & Q10); rewrite ?Q6, ?Q8, ?Q10; try lra; try reflexivity.
      * unfold sl2, const. simpl. lra.
      * unfold euclid. rewrite line_sqd. simpl.
        replace ((0 - 1) * 2 * ((0 - 1) * 2 * 1)) with (2 * 2) by ring.
        rewrite sqrt_square by lra. lra.
    + assert (L : (0 < 3)%nat /\ (2 < 3)%nat /\ valid [2%nat] [1%nat]) by (simpl; lia).
      destruct L as (L0 & L1 & L2).
      destruct (H [1%nat] 0%nat 2%nat L2 L0 L1) as [H1 _]. apply H1; clear H1.
      unfold euclid. rewrite line_sqd. simpl.
      replace ((0 - (1 + 1)) * 2 * ((0 - (1 + 1)) * 2 * 1)) with (4 * 4) by ring.
      rewrite sqrt_square by lra. lra.
Qed.

Example C08_move_example :
  exists e e',
    dispersion2 (Xex 0 0) (const [3]%nat 6%Z) (line 3 [] 200) pbe_like
              (const [3; 3]%nat 20) (const [3]%nat 3) None RationalDamping None false = Ok e /\
    dispersion2 (Xex 0 0) (const [3]%nat 6%Z) (line 3 [] 100) pbe_like
              (const [3; 3]%nat 20) (const [3]%nat 3) None RationalDamping None false = Ok e' /\
    sl1 e [] 0%nat = sl1 e' [] 0%nat.
Proof.
  destruct (C08_beyond_cutoff_moves_do_nothing 0 0 (Xex 0 0) (/ 2) (const [3]%nat 6%Z) (line 3 [] 200)
     (line 3 [] 100) pbe_like (const [3; 3]%nat 20) (const [3]%nat 3) None None
     RationalDamping 3 3 [] (rat_or_0 (@pbe_like 0 0) (39 / 100) (48 / 10) 6)
     (rat_or_0 (@pbe_like 0 0) (39 / 100) (48 / 10) 8) (rat_or_0 (@pbe_like 0 0) (39 / 100) (48 / 10) 10))
    as (e & e' & Ee & Ee' & H);
  try reflexivity; auto using pbe_like_good, Xex_dist, rational_all; try lra.
  - left. reflexivity.
  - apply line_separated. lra.
  - apply line_separated. lra.
  - exists e, e'. split; auto. split; auto. apply (H [] 0%nat); auto; try (simpl; lia).
    intros j Hj Hr. right. simpl eff_cut. unfold euclid. rewrite !line_sqd.
    rewrite <- !Rsqr_pow2, !sqrt_Rsqr_abs, !Rabs_mult.
    assert (1 <= Rabs (INR 0 - INR j)).
    { destruct j; [discriminate|]. rewrite S_INR. simpl INR. assert (P := pos_INR j).
      rewrite Rabs_left by lra. lra. }
    rewrite (Rabs_right 200), (Rabs_right 100) by lra. lra.
Qed.

(** ** C11 *)
Lemma pair_energy_bounds a1 a2 s6 s8 s10 c6 Qi Qj r :
  0 <= a1 -> 0 < a2 -> 0 <= s6 -> 0 <= s8 -> 0 <= s10 -> 0 <= c6 -> 0 <= Qi -> 0 <= Qj -> 0 <= r ->
  0 <= pair_energy a1 a2 s6 s8 s10 c6 Qi Qj r <= pair_energy a1 a2 s6 s8 s10 c6 Qi Qj 0.
Proof.
  intros. unfold pair_energy. cbv zeta. set (R0 := a1 * sqrt (3 * Qi * Qj) + a2).
  assert (HR : 0 < R0).
  { assert (0 <= a1 * sqrt (3 * Qi * Qj)) by (apply Rmult_le_pos; auto using sqrt_pos).
    unfold R0; lra. }
  assert (D : forall o A, (0 < o)%nat -> 0 <= A ->
     0 <= A / (r ^ o + R0 ^ o) <= A / (0 ^ o + R0 ^ o)).
  { intros o A Ho HA. assert (0 <= r ^ o) by (apply pow_le; auto).
    assert (0 < R0 ^ o) by (apply pow_lt; auto).
    rewrite (pow_i o) by lia. split.
    - apply Rmult_le_pos; auto. left. apply Rinv_0_lt_compat. lra.
    - apply Rmult_le_compat_l; auto. apply Rinv_le_contravar; lra. }
  assert (Q0 : 0 <= 3 * Qi * Qj) by (apply Rmult_le_pos; lra).
  assert (A6 : 0 <= s6 * c6) by (apply Rmult_le_pos; auto).
  assert (A8 : 0 <= s8 * (3 * Qi * Qj * c6)) by (repeat apply Rmult_le_pos; lra).
  assert (A10 : 0 <= s10 * (49 / 40 * (3 * Qi * Qj) ^ 2 * c6)).
  { apply Rmult_le_pos; auto. apply Rmult_le_pos; auto. apply Rmult_le_pos; [lra|].
    apply pow_le; auto. }
  destruct (D 6%nat _ ltac:(lia) A6), (D 8%nat _ ltac:(lia) A8), (D 10%nat _ ltac:(lia) A10). lra.
Qed.

(** No assumption on the geometry: atoms may coincide.  The lower bound does not depend
    on the positions. *)
Theorem C11_two_body_attractive_and_bounded :
  forall eps mx (X : Ext (RS eps mx)) d0 (numbers : tensor Z) (positions : tensor (RS eps mx))
         (param : Param (RS eps mx)) (c6 r4r2 : tensor (RS eps mx)) rvdw cutoff n c B (a1 a2 : R),
  shp numbers = n :: B -> shp positions = c :: n :: B ->
  shp c6 = n :: n :: B -> shp r4r2 = n :: B -> scalar_opt cutoff ->
  good_param param -> getp param "a1" = Some a1 -> getp param "a2" = Some a2 ->
  dist_contract d0 X ->
  0 <= a1 -> 0 < a2 -> 0 <= eff_s6 param -> 0 <= eff_s8 param -> 0 <= eff_s10 param ->
  (forall b i, valid B b -> (i < n)%nat -> 0 <= sl1 r4r2 b i) ->
  (forall b i j, valid B b -> (i < n)%nat -> (j < n)%nat -> 0 <= sl2 c6 b i j) ->
  exists e,
    dispersion2 X numbers positions param c6 r4r2 rvdw RationalDamping cutoff false = Ok e /\
    shp e = n :: B /\
    forall b i, valid B b -> (i < n)%nat ->
      - (1 / 2) * rsum n (fun j => pair_energy a1 a2 (eff_s6 param) (eff_s8 param) (eff_s10 param)
                            (sl2 c6 b i j) (sl1 r4r2 b i) (sl1 r4r2 b j) 0)
      <= sl1 e b i <= 0.
Proof.
  intros eps mx X d0 numbers positions param c6 r4r2 rvdw cutoff n c B a1 a2
    Hn Hp Hc Hr Hcut G E1 E2 HD P1 P2 P6 P8 P10 HQ H6.
  destruct HD as (gd & G1 & G2 & G3).
  destruct (proj1 (disp2_rational_gd X numbers positions param c6 r4r2 rvdw cutoff n c B
                  Hn Hp Hc Hr Hcut G a1 a2 E1 E2 gd G1)) as (t & Et & St & Dt).
  exists t. repeat (split; [assumption|]). intros b i Hb Hi. rewrite Dt by auto.
  match goal with |- - (1 / 2) * ?S0 <= - (1 / 2) * ?S1 <= 0 => assert (0 <= S1 <= S0) end.
  { assert (Q : forall j, (j < n)%nat -> 0 <= gd (sqd c (sl2 positions b i) (sl2 positions b j)))
      by (intros; apply G2, sqd_nonneg).
    split.
    - apply rsum_nonneg. intros j Hj. unfold rpair. cbv zeta. destruct (_ && _); [|lra].
      apply pair_energy_bounds; auto.
    - apply rsum_le. intros j Hj. unfold rpair. cbv zeta.
      destruct (pair_energy_bounds a1 a2 (eff_s6 param) (eff_s8 param) (eff_s10 param)
        (sl2 c6 b i j) (sl1 r4r2 b i) (sl1 r4r2 b j)
        (gd (sqd c (sl2 positions b i) (sl2 positions b j)))); auto.
      destruct (_ && _); auto. lra. }
  lra.
Qed.
Print Assumptions C11_two_body_attractive_and_bounded.

(** three coincident atoms *)
Example C11_example :
  exists e,
    dispersion2 (Xreg 0 0) (const [3]%nat 6%Z) (line 3 [] 0) pbe_like
              (const [3; 3]%nat 20) (const [3]%nat 3) None RationalDamping None false = Ok e /\
    sl1 e [] 0%nat <= 0.
Proof.
  destruct (C11_two_body_attractive_and_bounded 0 0 (Xreg 0 0) (/ 1000000) (const [3]%nat 6%Z)
              (line 3 [] 0) pbe_like (const [3; 3]%nat 20) (const [3]%nat 3) None None 3 3 []
              (39 / 100) (48 / 10)) as (e & Ee & _ & H);
  try reflexivity; try lra; auto using pbe_like_good, Xreg_dist;
  destruct (@pbe_like_eff 0 0) as (Q6 & Q8 & Q10); rewrite ?Q6, ?Q8, ?Q10; try lra.
  - intros. unfold sl1, const. simpl. lra.
  - intros. unfold sl2, const. simpl. lra.
  - exists e. split; auto. apply (H [] 0%nat); simpl; auto.
Qed.

(** ** C12 *)

(** The two-body energy is linear in s6, s8, s10 (entries put in front of any base
    parameter dictionary; a first entry hides later ones of the same name). *)
Theorem C12_two_body_linear :
  forall eps mx (X : Ext (RS eps mx)) (numbers : tensor Z) (positions : tensor (RS eps mx))
         (base : Param (RS eps mx)) (c6 r4r2 : tensor (RS eps mx)) rvdw cutoff n c B (a1 a2 : R),
  shp numbers = n :: B -> shp positions = c :: n :: B ->
  shp c6 = n :: n :: B -> shp r4r2 = n :: B -> scalar_opt cutoff ->
  good_param base -> getp base "a1" = Some a1 -> getp base "a2" = Some a2 ->
  exists e6 e8 e10 : list nat -> nat -> R, forall s6 s8 s10,
    returns1 (dispersion2 X numbers positions (pnum "s6" s6 :: pnum "s8" s8 :: pnum "s10" s10 :: base)
                c6 r4r2 rvdw RationalDamping cutoff false) n B
      (fun b i => s6 * e6 b i + s8 * e8 b i + s10 * e10 b i).
Proof.
  intros eps mx X numbers positions base c6 r4r2 rvdw cutoff n c B a1 a2 Hn Hp Hc Hr Hcut G E1 E2.
  set (g := fun o d r => 1 / (d ^ o + (a1 * sqrt r + a2) ^ o)).
  set (D := fun b i j => x_dist X c (sl2 positions b i) (sl2 positions b j)).
  set (pin := fun b i j => pair_in X c (sl1 numbers b) (sl2 positions b) (eff_cut 60 cutoff) i j).
  set (q := fun b i j => 3 * sl1 r4r2 b i * sl1 r4r2 b j).
  exists (fun b i => - (1 / 2) * rsum n (fun j => if pin b i j then
            sl2 c6 b i j * g 6%nat (D b i j) (q b i j) else 0)),
    (fun b i => - (1 / 2) * rsum n (fun j => if pin b i j then
            sl2 c6 b i j * q b i j * g 8%nat (D b i j) (q b i j) else 0)),
    (fun b i => - (1 / 2) * rsum n (fun j => if pin b i j then
            sl2 c6 b i j * q b i j ^ 2 * 49 / 40 * g 10%nat (D b i j) (q b i j) else 0)).
  intros s6 s8 s10. set (param := pnum "s6" s6 :: pnum "s8" s8 :: pnum "s10" s10 :: base).
  assert (G' : good_param param).
  { intros k v [E|[E|[E|H]]]; try (injection E as <- <-; split;
      [simpl; tauto|intros _; eexists; apply rnum_isnum]). apply G; auto. }
  assert (E1' : getp param "a1" = Some a1) by exact E1.
  assert (E2' : getp param "a2" = Some a2) by exact E2.
  assert (R : forall o, (o = 6 \/ o = 8 \/ o = 10)%nat -> elementwise RationalDamping param o false (g o)).
  { intros o Ho. eapply elementwise_ext; [|apply (rational_all param o false a1 a2); auto].
    intros x y. unfold rat_or_0, g. destruct Ho as [->|[->| ->]]; reflexivity. }
  destruct (proj1 (disp2_any X numbers positions param c6 r4r2 rvdw cutoff n c B Hn Hp Hc Hr Hcut G'
    RationalDamping (g 6%nat) (g 8%nat) (g 10%nat) (or_introl eq_refl) (R 6%nat ltac:(auto))
    (R 8%nat ltac:(auto)) (fun _ => R 10%nat ltac:(auto)))) as (t & Et & St & Dt).
  exists t. repeat (split; [assumption|]). intros b i Hb Hi. rewrite Dt by auto.
  match goal with |- _ = s6 * (_ * ?x) + s8 * (_ * ?y) + s10 * (_ * ?z) =>
    transitivity (- (1 / 2) * (s6 * x + s8 * y + s10 * z)); [|lra] end.
  f_equal. rewrite <- !rsum_scal_l, <- !rsum_plus. apply rsum_ext. intros j Hj.
  unfold pvb, pv. fold (pin b i j). destruct (pin b i j); [|lra].
  unfold pairv, s10g. change (getp param "s10") with (Some s10).
  change (getd param "s6" dS6) with s6. change (getd param "s8" dS8) with s8. cbv iota beta.
  change (rad_of RationalDamping (sl1 r4r2 b) (rvdat rvdw b) i j) with (qq (K := RS eps mx) (sl1 r4r2 b) i j).
  unfold qq. rs. rewrite Q2R_3. unfold D, q. ring.
Qed.
Print Assumptions C12_two_body_linear.

Theorem C12_three_body_linear :
  forall eps mx (X : Ext (RS eps mx)) (numbers : tensor Z)
         (positions c9 radii cutoff : tensor (RS eps mx)) alpp n c B alp,
  shp numbers = n :: B -> shp positions = c :: n :: B ->
  shp c9 = n :: n :: n :: B -> shp radii = n :: n :: B ->
  isnum alpp alp -> shp cutoff = [] ->
  exists e9 : list nat -> nat -> R, forall s9p s9, isnum s9p s9 ->
    returns1 (get_atm_dispersion X numbers positions c9 radii cutoff (ZeroDamping X) s9p alpp) n B
      (fun b i => s9 * e9 b i).
Proof.
  intros eps mx X numbers positions c9 radii cutoff alpp n c B alp Hn Hp Hc Hr Ha Hcut.
  exists (fun b i => e3_atom X n c (sl1 numbers b) (sl2 positions b) (sl3 c9 b) (sl2 radii b)
            (dat cutoff []) (zero_fac X (flit 1) (alp / 3)) 1 i).
  intros s9p s9 Hs9. apply ev_returns1. eapply ev_conv.
  - eapply (get_atm_dispersion_ev X numbers positions c9 radii cutoff (ZeroDamping X) s9p alpp
              n c B (zero_fac (K := RS eps mx) X (flit 1) (alp / 3)) s9 alp (dat cutoff [])); auto.
    + split; auto. intros ix Hix. destruct ix; [reflexivity|destruct Hix].
    + intros t Ht Ed. rs. rewrite Q2R_3 in Ed. apply (atm_elementwise X t (alp / 3) Ht Ed).
  - vsimp. unfold e3_atom. rs. rewrite !fsum_R. unfold Rdiv. rewrite <- Rmult_assoc. f_equal.
    rewrite <- rsum_scal_l. apply rsum_ext. intros j Hj. rewrite !fsum_R, <- rsum_scal_l.
    apply rsum_ext. intros k Hk. unfold e3_triple. rs. ring.
Qed.
Print Assumptions C12_three_body_linear.

Example C12_example :
  exists e6 e8 e10 : list nat -> nat -> R, forall s6 s8 s10,
    returns1 (dispersion2 (Xex 0 0) (const [3; 2]%nat 6%Z) (line 3 [2%nat] 2)
                (pnum "s6" s6 :: pnum "s8" s8 :: pnum "s10" s10 :: pbe_like)
                (const [3; 3; 2]%nat 20) (const [3; 2]%nat 3) None RationalDamping None false) 3 [2%nat]
      (fun b i => s6 * e6 b i + s8 * e8 b i + s10 * e10 b i).
Proof.
  apply (C12_two_body_linear 0 0 (Xex 0 0) (const [3; 2]%nat 6%Z) (line 3 [2%nat] 2) pbe_like
    (const [3; 3; 2]%nat 20) (const [3; 2]%nat 3) None None 3 3 [2%nat] (39 / 100) (48 / 10));
  try exact I; auto using pbe_like_good.
Qed.

Example C12_example_atm :
  exists e9 : list nat -> nat -> R, forall s9p s9, isnum s9p s9 ->
    returns1 (get_atm_dispersion (Xex 0 0) (const [3; 2]%nat 6%Z) (line 3 [2%nat] 2)
              (const [3; 3; 3; 2]%nat 100) (const [3; 3; 2]%nat 5) (scal 40) (ZeroDamping (Xex 0 0))
              s9p (rnum 16)) 3 [2%nat] (fun b i => s9 * e9 b i).
Proof.
  apply (C12_three_body_linear 0 0 (Xex 0 0) (const [3; 2]%nat 6%Z) (line 3 [2%nat] 2)
              (const [3; 3; 3; 2]%nat 100) (const [3; 3; 2]%nat 5) (scal 40) (rnum 16) 3 3 [2%nat] 16);
  auto using rnum_isnum.
Qed.
