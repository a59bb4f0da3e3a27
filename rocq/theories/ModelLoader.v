(** * src/tad_dftd4/damping/parameters/loader.py

    Dictionaries are mutable objects, so this file models a Python heap: an object is a dictionary
    at a location, and a value in a dictionary is a scalar, a list of strings or a reference to
    another dictionary. *)
From Coq Require Import List Arith String QArith Bool.
From Verif Require Import Py DataToml.
Import ListNotations.
Open Scope py_scope.
Open Scope string_scope.

(** Content of a TOML file. (d3.toml, d4.toml) *)
Inductive toml : Type :=
| TV (v : tval)
| TL (l : list string)
| TD (d : list (string * toml)).

(** Heap values.  Simplification: lists of strings are immutable (the loader only tests
    membership in the list of default variants and reads its first element; no list is ever
    returned). (loader.py:57-58, 89-133) *)
Inductive hval : Type :=
| HV (v : tval)
| HL (l : list string)
| HR (loc : nat).

(** Python: the dictionaries that exist, by reference *)
Definition heap := list (dict hval).

(** [toml.load] (loader.py:57-58): every table becomes a new dictionary. *)
Fixpoint store (t : toml) (h : heap) : heap * hval :=
  match t with
  | TV v => (h, HV v)
  | TL l => (h, HL l)
  | TD d =>
      let '(h', d') := (fix go d h :=
        match d with
        | [] => (h, [])
        | (k, t) :: d' => let '(h1, v) := store t h in
                          let '(h2, r) := go d' h1 in (h2, (k, v) :: r)
        end) d h in
      (app h' [d'], HR (List.length h'))
  end.

(** [DispersionMethod] (base.py:88-93) *)
Inductive meth : Type := d3 | d4 | d5.
(** values of [DispersionMethod] (damping/parameters/base.py:88-93) *)
Definition meth_value (m : meth) : string := match m with d3 => "d3" | d4 => "d4" | d5 => "d5" end.
(** [DispersionMethod(method)]: by value, [ValueError] otherwise. (loader.py:88; damping/parameters/base.py:88-93) *)
Definition meth_of (s : string) : res meth :=
  if s =? "d3" then Ok d3 else if s =? "d4" then Ok d4 else if s =? "d5" then Ok d5
  else Raise ValueError.

(** Interpreter state: the heap, and the cache of [_load] ([lru_cache], loader.py:48): the
    dictionary returned for each method so far.  Exceptions are not cached. *)
Record pystate : Type := mkPy { py_heap : heap; py_cache : meth -> option nat }.

(** [lru_cache] (loader.py:48): a new entry *)
Definition upd_cache (c : meth -> option nat) (m : meth) (l : nat) : meth -> option nat :=
  fun m' => match m, m' with
            | d3, d3 | d4, d4 | d5, d5 => Some l
            | _, _ => c m'
            end.

Section Loader.
(** The files next to loader.py: [None] if there is none for the method. *)
Context (files : meth -> option toml).

(** [_load] (loader.py:48-58) *)
Definition load (s : pystate) (m : meth) : pystate * res nat :=
  match py_cache s m with
  | Some l => (s, Ok l)
  | None =>
      match files m with
      | None => (s, Raise FileNotFoundError)
      | Some t =>
          let '(h, v) := store t (py_heap s) in
          match v with
          | HR l => (mkPy h (upd_cache (py_cache s) m l), Ok l)
          | _ => (mkPy h (py_cache s), Raise TypeError)   (* a TOML document is a table *)
          end
      end
  end.

(** [d[k]] for a dictionary; [TypeError] for another object (loader.py:92-127) *)
Definition item (h : heap) (v : hval) (k : string) : res hval :=
  match v with
  | HR l => match nth_error h l with Some d => dgetitem d k | None => Raise TypeError end
  | _ => Raise TypeError
  end.
(** [k in d] for a dictionary or a list of strings (loader.py:95,104,110,121) *)
Definition contains (h : heap) (v : hval) (k : option string) : res bool :=
  match v with
  | HR l => match nth_error h l with
            | Some d => Ok (match k with Some k => dmem d k | None => false end)
            | None => Raise TypeError end
  | HL l => Ok (match k with Some k => str_in k l | None => false end)
  | HV _ => Raise TypeError
  end.
(** [l[0]] for a list of strings (loader.py:118) *)
Definition first (v : hval) : res string :=
  match v with HL (x :: _) => Ok x | HL [] => Raise IndexError | _ => Raise TypeError end.
(** [dict(d)]: a copy (loader.py:129) *)
Definition copy (h : heap) (v : hval) : res (dict hval) :=
  match v with
  | HR l => match nth_error h l with Some d => Ok d | None => Raise TypeError end
  | _ => Raise TypeError
  end.

(** [get_params] (loader.py:61-133), after the call of [_load]; the result is the content of a
    new dictionary. *)
Definition get_params_in (h : heap) (table : hval) (m : meth) (functional variant : option string)
  (keep_doi : bool) : res (dict hval) :=
  section <-
    match functional with
    | None | Some "default" =>
        default_section <- item h table "default" ;;
        variant_section <- item h default_section (meth_value m) ;;
        b <- contains h variant_section variant ;;
        raise_if (negb b) KeyError ;;;
        item h default_section "parameter"
    | Some f =>
        func_section <- item h table "parameter" ;;
        b <- contains h func_section (Some f) ;;
        raise_if (negb b) KeyError ;;;
        disp <- item h func_section (casefold f) ;;
        b <- contains h disp (Some (meth_value m)) ;;
        raise_if (negb b) KeyError ;;;
        Ok disp
    end ;;
  variant <- match variant with
             | Some v => Ok v
             | None => d <- item h table "default" ;; l <- item h d (meth_value m) ;; first l
             end ;;
  variant_section <- item h section (meth_value m) ;;
  b <- contains h variant_section (Some variant) ;;
  raise_if (negb b) KeyError ;;;
  block <- item h variant_section variant ;;
  out <- copy h block ;;
  Ok (if negb keep_doi && dmem out "doi" then dpop out "doi" else out).

(** [get_params]: the reference to the new dictionary [Param(..)] (loader.py:61-133) *)
Definition get_params (s : pystate) (method : string) (functional variant : option string)
  (keep_doi : bool) : pystate * res nat :=
  match meth_of method with
  | Raise e => (s, Raise e)
  | Ok m =>
      let '(s1, t) := load s m in
      match t with
      | Raise e => (s1, Raise e)
      | Ok t =>
          match get_params_in (py_heap s1) (HR t) m functional variant keep_doi with
          | Raise e => (s1, Raise e)
          | Ok d => (mkPy (app (py_heap s1) [d]) (py_cache s1), Ok (List.length (py_heap s1)))
          end
      end
  end.
End Loader.

(** The shipped files: d3.toml and d4.toml, no d5.toml.  Entries never read by the loader
    ([reference], [citation]) are omitted. *)
Definition block_toml (b : list (string * tval)) : toml := TD (map (fun kv => (fst kv, TV (snd kv))) b).
(** a table of tables of d3.toml or d4.toml *)
Definition blocks_toml (b : list (string * list (string * tval))) : toml :=
  TD (map (fun kv => (fst kv, block_toml (snd kv))) b).
(** layout of d3.toml, d4.toml: sections [default] and [parameter] *)
Definition file_toml (m : string) (variants : list string) (defaults : list (string * list (string * tval)))
  (functionals : list (string * list (string * list (string * tval)))) : toml :=
  TD [("default", TD [(m, TL variants); ("parameter", TD [(m, blocks_toml defaults)])]);
      ("parameter", TD (map (fun kv => (fst kv, TD [(m, blocks_toml (snd kv))])) functionals))].
(** damping/parameters/d3.toml, d4.toml *)
Definition shipped (m : meth) : option toml :=
  match m with
  | d3 => Some (file_toml "d3" d3_default_variants d3_default_blocks d3_functionals)
  | d4 => Some (file_toml "d4" d4_default_variants d4_default_blocks d4_functionals)
  | d5 => None
  end.
