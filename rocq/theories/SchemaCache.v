(** Model of loadSchema and its module-level cache (eulxml/xmlmap/core.py:71-96). *)
From Coq Require Import String List Arith NArith.
From Verif Require Import PyStr Classes.
Import ListNotations.

(** What loading and compiling a schema would do at the moment of a call: an XMLSchema object, IOError,
    XMLSchemaParseError, or something else (etree.parse raises XMLSyntaxError for a file that is not
    well-formed), each with lxml's message. *)
Inductive outcome := LoadOk (o : nat) | LoadIO (msg : str) | LoadSchema (msg : str) | LoadOther (msg : str).
(** What the caller gets *)
Inductive answer := AObj (o : nat) | AIOError (msg : str) | ASchemaError (msg : str) | AOtherError (msg : str).

Definition error_uri (uri : str) (base : option str) : str :=
  match base with None => uri | Some b => uri ++ u " (base URI " ++ b ++ u ")" end.

(** core.py:77-96; the Boolean says whether a load was attempted *)
Definition load_schema (cache : list (str * nat)) (uri : str) (base : option str) (out : outcome) : list (str * nat) * answer * bool :=
  match dget uri cache with
  | Some o => (cache, AObj o, false)
  | None =>
    match out with
    | LoadOk o => (dset uri o cache, AObj o, true)
    | LoadIO m => (cache, AIOError (u "Failed to load schema " ++ error_uri uri base ++ u " : " ++ m), true)
    | LoadSchema m => (cache, ASchemaError (u "Failed to parse schema " ++ error_uri uri base ++ u " -- " ++ m), true)
    | LoadOther m => (cache, AOtherError m, true)
    end
  end.

(** a sequence of calls, with what each load would do at that time; per call: the URI, the answer, and
    whether a load was attempted *)
Record call := mkCall { k_uri : str; k_base : option str; k_out : outcome }.
Fixpoint calls (cache : list (str * nat)) (cs : list call) : list (str * answer * bool) :=
  match cs with
  | [] => []
  | c :: r => let '(cache', a, t) := load_schema cache (k_uri c) (k_base c) (k_out c) in (k_uri c, a, t) :: calls cache' r
  end.
Definition session (cs : list call) : list (str * answer * bool) := calls [] cs.

(** The same function run by several threads, one statement at a time: the membership test, the load, the
    store, the final read. *)
Inductive tstate := TStart | TLoad | TStore (o : nat) | TRead | TDone (a : answer).
Record thread := mkThread { t_uri : str; t_state : tstate }.
Record sys := mkSys { s_cache : list (str * nat); s_threads : list thread; s_loaded : list (str * nat) (* ghost: all successful loads *) }.
Fixpoint put {A} (i : nat) (x : A) (l : list A) : list A :=
  match l, i with [], _ => [] | _ :: r, O => x :: r | y :: r, S j => y :: put j x r end.
(** thread [i] makes a step; [out] is what a load would do now *)
Definition tstep (s : sys) (i : nat) (out : outcome) : sys :=
  match nth_error (s_threads s) i with
  | None => s
  | Some t =>
    let to st := put i (mkThread (t_uri t) st) (s_threads s) in
    match t_state t with
    | TStart => match dget (t_uri t) (s_cache s) with
                | Some _ => mkSys (s_cache s) (to TRead) (s_loaded s)
                | None => mkSys (s_cache s) (to TLoad) (s_loaded s)
                end
    | TLoad => match out with
               | LoadOk o => mkSys (s_cache s) (to (TStore o)) ((t_uri t, o) :: s_loaded s)
               | LoadIO m => mkSys (s_cache s) (to (TDone (AIOError m))) (s_loaded s)
               | LoadSchema m => mkSys (s_cache s) (to (TDone (ASchemaError m))) (s_loaded s)
               | LoadOther m => mkSys (s_cache s) (to (TDone (AOtherError m))) (s_loaded s)
               end
    | TStore o => mkSys (dset (t_uri t) o (s_cache s)) (to TRead) (s_loaded s)
    | TRead => match dget (t_uri t) (s_cache s) with
               | Some o => mkSys (s_cache s) (to (TDone (AObj o))) (s_loaded s)
               | None => s    (* KeyError; proved unreachable *)
               end
    | TDone _ => s
    end
  end.
Definition trun (s : sys) (sched : list (nat * outcome)) : sys := fold_left (fun s io => tstep s (fst io) (snd io)) sched s.
Definition start (uris : list str) : sys := mkSys [] (map (fun x => mkThread x TStart) uris) [].
