(** * get_params in several threads

    [get_params] (src/tad_dftd4/damping/parameters/loader.py) as a program of atomic steps.  A step
    is one access to something that other threads can see: the cache of [_load], the file, a
    dictionary.  Between two steps other threads may do anything.

    [lru_cache(maxsize=None)] (loader.py:48) holds no lock while the decorated function runs: it
    looks into the cache, calls the function if there is no entry, and then stores the result,
    replacing an entry that another thread has stored meanwhile. *)
From Coq Require Import List Arith String QArith Bool.
From Verif Require Import Py DataToml ModelLoader.
Import ListNotations.
Open Scope string_scope.

(** Interpreter state, and the files read so far (latest first) (loader.py:48-58) *)
Record cstate : Type := mkC { c_py : pystate; c_reads : list meth }.

(** The rest of a running call: it has returned or raised, or there is one more step (loader.py:48-133 as steps) *)
Inductive prog (A : Type) : Type :=
| PDone (r : res A)
| PStep (effect : cstate -> cstate) (next : cstate -> prog A).
Arguments PDone {A}. Arguments PStep {A}.

(** sequencing of the statements of loader.py:48-133 *)
Fixpoint pbind {A B} (p : prog A) (k : A -> prog B) : prog B :=
  match p with
  | PDone (Ok a) => k a
  | PDone (Raise e) => PDone (Raise e)
  | PStep u n => PStep u (fun s => pbind (n s) k)
  end.

Declare Scope prog_scope.
Notation "x <~ m ;; k" := (pbind m (fun x => k)) (at level 61, m at next level, right associativity) : prog_scope.
Open Scope prog_scope.

(** reading dictionaries (loader.py:91-127) *)
Definition peek {A} (f : heap -> res A) : prog A :=
  PStep (fun s => s) (fun s => PDone (f (py_heap (c_py s)))).
(** a new dictionary, with this content (loader.py:129-133) *)
Definition new_dict (d : dict hval) : prog nat :=
  PStep (fun s => mkC (mkPy (app (py_heap (c_py s)) [d]) (py_cache (c_py s))) (c_reads s))
        (fun s => PDone (Ok (List.length (py_heap (c_py s))))).
(** [if ..: raise ..] (loader.py:54-55, 95-99, 104-114, 121-125) *)
Definition guard (b : bool) (e : exn) : prog unit := PDone (raise_if (negb b) e).

(** [toml.load] (loader.py:57-58): one dictionary after the other.  Simplification: a dictionary is
    filled in the step that makes it; no other thread has a reference to it. *)
Fixpoint store_th (t : toml) : prog hval :=
  match t with
  | TV v => PDone (Ok (HV v))
  | TL l => PDone (Ok (HL l))
  | TD d =>
      d' <~ (fix go d := match d with
             | [] => PDone (Ok [])
             | (k, t) :: d' => v <~ store_th t ;; r <~ go d' ;; PDone (Ok ((k, v) :: r))
             end) d ;;
      l <~ new_dict d' ;;
      PDone (Ok (HR l))
  end.

Section L.
Context (files : meth -> option toml).

(** [_load] (loader.py:48-58) *)
Definition load_th (m : meth) : prog nat :=
  c <~ PStep (fun s => s) (fun s => PDone (Ok (py_cache (c_py s) m))) ;;
  match c with
  | Some l => PDone (Ok l)
  | None =>
      match files m with
      | None => PDone (Raise FileNotFoundError)
      | Some t =>
          _ <~ PStep (fun s => mkC (c_py s) (m :: c_reads s)) (fun _ => PDone (Ok tt)) ;;
          v <~ store_th t ;;
          match v with
          | HR l =>
              PStep (fun s => mkC (mkPy (py_heap (c_py s)) (upd_cache (py_cache (c_py s)) m l)) (c_reads s))
                    (fun _ => PDone (Ok l))
          | _ => PDone (Raise TypeError)
          end
      end
  end.

(** [get_params] (loader.py:61-133), after the call of [_load].  The result is the content of the
    new dictionary: [out] (loader.py:129-131) is seen by this thread only. *)
Definition get_params_in_th (table : hval) (m : meth) (functional variant : option string)
  (keep_doi : bool) : prog (dict hval) :=
  section <~
    match functional with
    | None | Some "default" =>
        default_section <~ peek (fun h => item h table "default") ;;
        variant_section <~ peek (fun h => item h default_section (meth_value m)) ;;
        b <~ peek (fun h => contains h variant_section variant) ;;
        _ <~ guard b KeyError ;;
        peek (fun h => item h default_section "parameter")
    | Some f =>
        func_section <~ peek (fun h => item h table "parameter") ;;
        b <~ peek (fun h => contains h func_section (Some f)) ;;
        _ <~ guard b KeyError ;;
        disp <~ peek (fun h => item h func_section (casefold f)) ;;
        b <~ peek (fun h => contains h disp (Some (meth_value m))) ;;
        _ <~ guard b KeyError ;;
        PDone (Ok disp)
    end ;;
  variant <~ match variant with
             | Some v => PDone (Ok v)
             | None => d <~ peek (fun h => item h table "default") ;;
                       l <~ peek (fun h => item h d (meth_value m)) ;;
                       PDone (first l)
             end ;;
  variant_section <~ peek (fun h => item h section (meth_value m)) ;;
  b <~ peek (fun h => contains h variant_section (Some variant)) ;;
  _ <~ guard b KeyError ;;
  block <~ peek (fun h => item h variant_section variant) ;;
  out <~ peek (fun h => copy h block) ;;
  PDone (Ok (if (negb keep_doi && dmem out "doi")%bool then dpop out "doi" else out)).

(** [get_params] (loader.py:61-133) *)
Definition get_params_th (method : string) (functional variant : option string)
  (keep_doi : bool) : prog nat :=
  match meth_of method with
  | Raise e => PDone (Raise e)
  | Ok m =>
      t <~ load_th m ;;
      d <~ get_params_in_th (HR t) m functional variant keep_doi ;;
      new_dict d
  end.
End L.
