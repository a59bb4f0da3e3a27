(** * src/tad_dftd4/utils.py, defaults.py, cutoff.py, data/*.py *)
From Coq Require Import List Arith ZArith QArith Bool String.
From Verif Require Import Py Tensor Scalar ModelExt.
From Verif Require Import DataRef DataAlpha DataPair.
Import ListNotations.
Open Scope py_scope.
Open Scope ten_scope.
Open Scope string_scope.

(** ** defaults.py:26-93 *)
(** defaults.py:26 *)
Definition D4_CN_CUTOFF : Q := 30.
(** defaults.py:29 *)
Definition D4_CN_EEQ_CUTOFF : Q := 25.
(** defaults.py:35 *)
Definition D4_DISP2_CUTOFF : Q := 60.
(** defaults.py:38 *)
Definition D4_DISP3_CUTOFF : Q := 40.
(** defaults.py:55 *)
Definition dA1 : Q := 4 # 10.
(** defaults.py:58 *)
Definition dA2 : Q := 5.
(** defaults.py:66 *)
Definition dS6 : Q := 1.
(** defaults.py:74 *)
Definition dS8 : Q := 1.
(** defaults.py:77 *)
Definition dS9 : Q := 1.
(** defaults.py:83 *)
Definition dRS9 : Q := 1.
(** defaults.py:90 *)
Definition dALP : Q := 16.
(** defaults.py:61 *)
Definition dRS6 : Q := 1.
(** defaults.py:69 *)
Definition dRS8 : Q := 1.
(** defaults.py:93 *)
Definition dBET : Q := 0.

(** 3.141592653589793238462643383279502884197 as written in utils.py:50,117,173 *)
Definition pi_lit : Q := 3141592653589793238462643383279502884197 # (10 ^ 39).

Section Utils.
Context {K : Scalar}.

(** utils.py:50 *)
Definition thopi : K := fdiv (flit 3) (flit pi_lit).

(** utils.py:52-80, 119-147, 175-203 (three separate copies in the source) *)
Definition trapzd_weights : tensor K :=
  table1 23 (fun z => lit_of trapzd_weights_tab_dec z) trapzd_weights_tab.
(** utils.py:119-147 *)
Definition trapzd_noref_weights : tensor K :=
  table1 23 (fun z => lit_of trapzd_noref_weights_tab_dec z) trapzd_noref_weights_tab.
(** utils.py:175-203 *)
Definition trapzd_atm_weights : tensor K :=
  table1 23 (fun z => lit_of trapzd_atm_weights_tab_dec z) trapzd_atm_weights_tab.

(** utils.py:33-95 [trapzd] *)
Definition trapzd (pol1 : tensor K) (pol2 : option (tensor K)) : res (tensor K) :=
  Ok (scal thopi) *t
  einsumK [(NoEll "w", trapzd_weights); (Ell "iaw", pol1); (Ell "jbw", default pol2 pol1)]
          (Ell "ijab").

(** utils.py:97-152 [trapzd_noref] *)
Definition trapzd_noref (pol1 : tensor K) (pol2 : option (tensor K)) : res (tensor K) :=
  Ok (scal thopi) *t
  einsumK [(NoEll "w", trapzd_noref_weights); (Ell "iw", pol1); (Ell "jw", default pol2 pol1)]
          (Ell "ij").

(** utils.py:155-205 [trapzd_atm] *)
Definition trapzd_atm (pol : tensor K) : res (tensor K) :=
  Ok (scal thopi) *t
  einsumK [(Ell "ijkw", pol); (NoEll "w", trapzd_atm_weights)] (Ell "ijk").

(** utils.py:208-224 [is_exceptional]; [mx] is [torch.finfo(dtype).max]. *)
Definition exceptional (mx : K) (x : K) : bool := fisnan x || flt mx x.
(** [is_exceptional] on a tensor (utils.py:208-224) *)
Definition is_exceptional (mx : K) (m : res (tensor K)) : res (tensor bool) :=
  lift1 (exceptional mx) m.

(** cutoff.py:36-90 [Cutoff] and its defaults (cutoff.py:73-76). *)
Record Cutoff : Type := mkCutoff {
  c_disp2 : tensor K; c_disp3 : tensor K; c_cn : tensor K; c_cn_eeq : tensor K }.

(** [Cutoff()] (cutoff.py:71-90) *)
Definition default_cutoff : Cutoff :=
  mkCutoff (scal (flit D4_DISP2_CUTOFF)) (scal (flit D4_DISP3_CUTOFF))
           (scal (flit D4_CN_CUTOFF)) (scal (flit D4_CN_EEQ_CUTOFF)).

(** data/r4r2.py:32-88 [R4R2]: sqrt(0.5 * (r4r2[z] * sqrt(z))) *)
Definition r4r2_val (z : nat) : K :=
  fsqrt (fmul (flit (1 # 2))
              (fmul (lit_of r4_over_r2_tab_dec (nth z r4_over_r2_tab 0%Z))
                    (fsqrt (flit (inject_Z (Z.of_nat z)))))).
(** [R4R2] as a table (data/r4r2.py:32-88) *)
Definition R4R2 : tensor K :=
  mkT [119%nat] (fun i => match i with [z] => r4r2_val z | _ => f0 end).

(** data/wfpair.py:32-3735 [WFPAIR]: flat list reshaped to (119, 119). *)
Definition WFPAIR : tensor K :=
  mkT [119%nat; 119%nat]
      (fun i => match i with
                | [j; k] => lit_of wfpair_tab_dec (nth (119 * k + j) wfpair_tab 0%Z)
                | _ => f0
                end).

(** ** reference/d4/params.py, charge_eeq.py, charge_gfn2.py *)
(** reference/d4/params.py:21440 *)
Definition refsys : tensor Z := table2 104 7 (fun z => z) refsys_tab.
(** reference/d4/params.py:21550 *)
Definition refc : tensor Z := table2 104 7 (fun z => z) refc_tab.
(** reference/d4/params.py:40 *)
Definition refcovcn : tensor K := table2 104 7 (fun z => lit_of refcovcn_tab_dec z) refcovcn_tab.
(** reference/d4/params.py:19556 *)
Definition refascale : tensor K := table2 104 7 (fun z => lit_of refascale_tab_dec z) refascale_tab.
(** reference/d4/params.py:20498 *)
Definition refscount : tensor K := table2 104 7 (fun z => lit_of refscount_tab_dec z) refscount_tab.
(** reference/d4/params.py:1142 *)
Definition refalpha : tensor K := table3 104 7 23 (fun z => lit_of refalpha_tab_dec z) refalpha_tab.
(** reference/d4/params.py:21659 *)
Definition secscale : tensor K := table2 18 1 (fun z => lit_of secscale_tab_dec z) secscale_tab.
(** reference/d4/params.py:21683 *)
Definition secalpha : tensor K := table2 18 23 (fun z => lit_of secalpha_tab_dec z) secalpha_tab.
(** reference/d4/charge_eeq.py:29 *)
Definition eeq_clsq : tensor K := table2 104 7 (fun z => lit_of clsq_tab_dec z) clsq_tab.
(** reference/d4/charge_eeq.py:971 *)
Definition eeq_clsh : tensor K := table2 104 7 (fun z => lit_of clsh_tab_dec z) clsh_tab.
(** reference/d4/charge_gfn2.py:29 *)
Definition gfn2_refq : tensor K := table2 87 7 (fun z => lit_of gfn2_refq_tab_dec z) gfn2_refq_tab.
(** reference/d4/charge_gfn2.py:819 *)
Definition gfn2_refh : tensor K := table2 87 7 (fun z => lit_of gfn2_refh_tab_dec z) gfn2_refh_tab.

End Utils.
Arguments Cutoff K : clear implicits.
