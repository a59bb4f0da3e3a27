(** * Specification of [get_params]: lookup in the contents of the TOML files; histories *)
From Coq Require Import List Arith String QArith Bool.
From Verif Require Import Py DataToml ModelLoader.
Import ListNotations.
Open Scope string_scope.

(** parameters of one damping variant; variants of one functional; a TOML file *)
Notation block := (list (string * tval)) (only parsing).
Record tfile : Type := mkFile {
  f_variants : list string;                         (* default: list of default variants *)
  f_defaults : list (string * block);               (* default.parameter *)
  f_functionals : list (string * list (string * block)) (* parameter *) }.

Definition tree (m : meth) (f : tfile) : toml :=
  file_toml (meth_value m) (f_variants f) (f_defaults f) (f_functionals f).

(** names of functionals in the file are in lower case, and there is a default variant *)
Definition file_ok (f : tfile) : Prop :=
  f_variants f <> [] /\ forall k, In k (map fst (f_functionals f)) -> casefold k = k.

(** [b] is the entry of the file for this functional and variant *)
Inductive entry (f : tfile) : option string -> option string -> block -> Prop :=
| entry_variant : forall name vs v b, name <> "default" ->
    dget (f_functionals f) name = Some vs -> dget vs v = Some b -> entry f (Some name) (Some v) b
| entry_default_variant : forall name vs v rest b, name <> "default" ->
    dget (f_functionals f) name = Some vs -> f_variants f = v :: rest -> dget vs v = Some b ->
    entry f (Some name) None b
| entry_default : forall name v b, name = None \/ name = Some "default" ->
    In v (f_variants f) -> dget (f_defaults f) v = Some b -> entry f name (Some v) b.

(** without the key [doi], unless it is to be kept *)
Definition without_doi (keep : bool) (b : block) : block :=
  if keep then b else filter (fun kv => negb (fst kv =? "doi")) b.

(** content of a dictionary object *)
Definition content (h : heap) (l : nat) : option (dict hval) := nth_error h l.
Definition scalars (b : block) : dict hval := map (fun kv => (fst kv, HV (snd kv))) b.

(** ** Histories: what a user can do between calls, with the dictionaries they hold references to
    (numbered in the order they were obtained) *)
Inductive uval : Type := UScalar (v : tval) | UList (l : list string) | UHeld (i : nat).
Inductive event : Type :=
| Call (method : string) (functional variant : option string) (keep_doi : bool)
| NewDict                                    (* d = {} *)
| SetItem (i : nat) (k : string) (x : uval)  (* d[k] = x *)
| DelItem (i : nat) (k : string)             (* del d[k] *)
| Clear (i : nat)                            (* d.clear() *)
| GetItem (i : nat) (k : string).            (* y = d[k] *)

Record session : Type := mkSession { s_py : pystate; s_held : list nat }.

Definition set_nth {A} (l : list A) (i : nat) (x : A) : list A := firstn i l ++ x :: skipn (S i) l.
Definition with_obj (s : session) (i : nat) (f : dict hval -> dict hval) : session :=
  match nth_error (s_held s) i with
  | None => s
  | Some l => match nth_error (py_heap (s_py s)) l with
              | None => s
              | Some d => mkSession (mkPy (set_nth (py_heap (s_py s)) l (f d)) (py_cache (s_py s))) (s_held s)
              end
  end.
Definition uval_val (s : session) (x : uval) : option hval :=
  match x with
  | UScalar v => Some (HV v)
  | UList l => Some (HL l)
  | UHeld j => option_map HR (nth_error (s_held s) j)
  end.

Section H.
Context (files : meth -> option toml).
Definition step (s : session) (e : event) : session :=
  match e with
  | Call method functional variant keep =>
      let '(p, r) := get_params files (s_py s) method functional variant keep in
      mkSession p (match r with Ok l => (s_held s ++ [l])%list | Raise _ => s_held s end)
  | NewDict => mkSession (mkPy (py_heap (s_py s) ++ [[]])%list (py_cache (s_py s)))
                 (s_held s ++ [List.length (py_heap (s_py s))])%list
  | SetItem i k x => match uval_val s x with
                     | Some v => with_obj s i (fun d => dset d k v)
                     | None => s end
  | DelItem i k => with_obj s i (fun d => dpop d k)
  | Clear i => with_obj s i (fun _ => [])
  | GetItem i k => match nth_error (s_held s) i with
                   | None => s
                   | Some l => match nth_error (py_heap (s_py s)) l with
                               | None => s
                               | Some d => match dget d k with
                                           | Some (HR l') => mkSession (s_py s) (s_held s ++ [l'])%list
                                           | _ => s end end end
  end.
(** a session begins with an empty heap and an empty cache *)
Definition start : session := mkSession (mkPy [] (fun _ => None)) [].
Definition after (history : list event) : session := fold_left step history start.
End H.
