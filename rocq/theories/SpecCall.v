(** * Calls of [Disp.calculate]: what a well-formed call is (specification layer). *)
From Coq Require Import List Arith ZArith QArith Bool String.
From Verif Require Import Py Tensor Scalar ModelExt ModelUtils ModelDamping ModelModels
  ModelTerms ModelDisp.
From Verif Require Export Spec.
Import ListNotations.
Open Scope nat_scope.
Open Scope string_scope.

(** the scalar functions by which a damping function acts in a term *)
Record tfun (K : Scalar) : Type := mkTf {
  f6 : K -> K -> K; f8 : K -> K -> K; f10 : K -> K -> K; f9 : K -> K -> K }.
Arguments f6 {K}. Arguments f8 {K}. Arguments f10 {K}. Arguments f9 {K}.

Section C.
Context {N : Num} (X : Ext (sc N)).
Notation K := (sc N).

(** The damping function of the term acts elementwise, as the functions [F], with the
    given parameters; the exact C9 term needs a D4 model. *)
Definition term_ok (param : Param K) (kind : mkind) (t : DispTerm N) (F : tfun K) : Prop :=
  match t_class t with
  | TwoBodyTerm =>
      (d_radius_type (t_damping t) = "r4r2" \/ d_radius_type (t_damping t) = "rvdw") /\
      elementwise (t_damping t) param 6 false (f6 F) /\
      elementwise (t_damping t) param 8 false (f8 F) /\
      (getp param "s10" <> None -> elementwise (t_damping t) param 10 false (f10 F))
  | cls =>
      (forall u, shp u = [] -> dat u [] = fdiv (getd param "alp" dALP) (flit 3) ->
         elementwise (t_damping t) [("alp", PT u)] 9 true (f9 F)) /\
      (cls = D4ATMExact -> kind = D4M)
  end.

Definition usable (param : Param K) (kind : mkind) (t : DispTerm N) : Prop :=
  exists F, term_ok param kind t F.

(** The arguments of [calculate]. *)
Record Args : Type := mkCall {
  a_numbers : tensor Z; a_positions : tensor K; a_charge : tensor K; a_param : Param K;
  a_cutoff : option (Cutoff K); a_q : option (tensor K); a_rcov : option (tensor K);
  a_r4r2 : option (tensor K); a_rvdw : option (tensor K) }.

Definition run (W : World N) (p : Disp N) (a : Args) : res (tensor K) :=
  calculate X W p (a_numbers a) (a_positions a) (a_charge a) (a_param a) (a_cutoff a)
            (a_q a) (a_rcov a) (a_r4r2 a) (a_rvdw a).

Definition a_cut (a : Args) : Cutoff K := default (a_cutoff a) default_cutoff.

(** supported elements: 0 (padding) to 103 with EEQ, to 86 with GFN2 reference charges *)
Definition elements_ok (ref : string) (numbers : tensor Z) : Prop :=
  (ref = "eeq" /\ forall ix, valid (shp numbers) ix -> (0 <= dat numbers ix <= 103)%Z) \/
  (ref = "gfn2" /\ forall ix, valid (shp numbers) ix -> (0 <= dat numbers ix <= 86)%Z).

(** The model used by [p] for [numbers] is of class [kind] with keyword arguments [kw]:
    either chosen by name, or an instance constructed for [numbers]. *)
Definition model_from (p : Disp N) (numbers : tensor Z) (kind : mkind) (kw : mkwargs N) : Prop :=
  (p_inst p = None /\ p_kw p = kw /\
     ((casefold (p_key p) = "d4" /\ kind = D4M) \/ (casefold (p_key p) = "d4s" /\ kind = D4SM)))
  \/ (exists m cls, p_inst p = Some m /\ (kind = D4M \/ kind = D4SM) /\
        new_model X kind cls numbers kw = Ok m).

Definition kw_ok (kind : mkind) (kw : mkwargs N) (n : nat) (B : list nat) : Prop :=
  k_rc6 kw = None /\
  match k_wf kw with
  | None => True
  | Some w => match kind with D4M => shp w = [] | _ => shp w = n :: n :: B end
  end.

Definition opt_shape {A} (o : option (tensor A)) (s : list nat) : Prop :=
  match o with Some t => shp t = s | None => True end.

Definition needs_charges (p : Disp N) : Prop := exists t, In t (p_terms p) /\ t_cdep t = true.

(** A well-formed call for molecules of [n] atoms (padding included) in [c] dimensions,
    with batch dimensions [B].  The coordination number and charge models are called
    and return tensors of the shape of [numbers]. *)
Record well_formed (W : World N) (p : Disp N) (a : Args) (kind : mkind) (kw : mkwargs N)
  (n c : nat) (B : list nat) : Prop := mkWf {
  wf_numbers : shp (a_numbers a) = n :: B;
  wf_positions : shp (a_positions a) = c :: n :: B;
  wf_q : opt_shape (a_q a) (n :: B);
  wf_rcov : opt_shape (a_rcov a) (n :: B);
  wf_r4r2 : opt_shape (a_r4r2 a) (n :: B);
  wf_rvdw : opt_shape (a_rvdw a) (n :: n :: B);
  wf_q_used : a_q a <> None -> needs_charges p;
  wf_cut2 : shp (c_disp2 (a_cut a)) = [];
  wf_cut3 : shp (c_disp3 (a_cut a)) = [];
  wf_model : model_from p (a_numbers a) kind kw;
  wf_kw : kw_ok kind kw n B;
  wf_elements : elements_ok (default (k_ref kw) "eeq") (a_numbers a);
  wf_param : good_param (a_param a);
  wf_terms : forall t, In t (p_terms p) -> usable (a_param a) kind t;
  wf_cn : exists cn, p_cn_fn p (p_cn_kw p) (a_numbers a) (a_positions a) = Ok cn /\ shp cn = n :: B;
  wf_eeq : a_q a = None -> needs_charges p ->
    exists q, w_eeq W (a_numbers a) (a_positions a) (a_charge a) (c_cn_eeq (a_cut a)) = Ok q
              /\ shp q = n :: B }.

End C.
Arguments Args N : clear implicits.

(** ** One term alone *)
Section T.
Context {N : Num}.

(** the same [Disp] with other terms *)
Definition with_terms (p : Disp N) (ts : list (DispTerm N)) : Disp N :=
  mkDisp ts (p_cn_fn p) (p_cn_kw p) (p_key p) (p_inst p) (p_kw p).

(** the same call; partial charges are only passed when a term can use them
    (otherwise [calculate] refuses them) *)
Definition set_q (a : Args N) x := mkCall (a_numbers a) (a_positions a) (a_charge a) (a_param a)
  (a_cutoff a) x (a_rcov a) (a_r4r2 a) (a_rvdw a).
Definition q_if (cdep : bool) (a : Args N) : Args N :=
  set_q a (if cdep then a_q a else None).
Definition set_charge (a : Args N) x := mkCall (a_numbers a) (a_positions a) x (a_param a)
  (a_cutoff a) (a_q a) (a_rcov a) (a_r4r2 a) (a_rvdw a).
Definition set_param (a : Args N) x := mkCall (a_numbers a) (a_positions a) (a_charge a) x
  (a_cutoff a) (a_q a) (a_rcov a) (a_r4r2 a) (a_rvdw a).
End T.
