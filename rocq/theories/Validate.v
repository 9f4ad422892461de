(** Model of schema validation of XmlObjects: xmlschema, is_valid, validation_errors, schema_valid and schema_validation_errors
    (eulxml/xmlmap/core.py:292-307, 489-542), with the schema cache (core.py:71-96).
    lxml's part: an XMLSchema object has one error log; [_clear_error_log] empties it, [validate] adds the errors of the document
    given to it (keeping or dropping the earlier ones, depending on the version: [keep]) and returns whether there were none, [error_log] returns a copy of it.  What the errors of a document are is
    the parameter [errs].  Schema files do not change during the session ([load] is what loading would do). *)
From Coq Require Import String List Arith NArith Bool.
From Verif Require Import PyStr Classes SchemaCache.
Import ListNotations.

Section Validate.
  Context {doc err : Type} (keep : bool) (errs : nat -> doc -> list err) (load : str -> outcome).

  (** the state of the process: the cache of loadSchema, and the error logs of the schema objects *)
  Record vstate := mkV { v_cache : list (str * nat); v_log : nat -> list err }.
  Definition v_init : vstate := mkV [] (fun _ => []).
  Definition set_log (o : nat) (l : list err) (s : vstate) : vstate :=
    mkV (v_cache s) (fun o' => if Nat.eqb o' o then l else v_log s o').

  (** an XmlObject: its class's XSD_SCHEMA and schema_validate, and its content at the time of the call *)
  Record vobj := mkObj { x_schema : option str; x_validate : bool; x_doc : doc }.

  Inductive vexn := VLoad (a : answer) | VNoSchema.
  Inductive vres (A : Type) := VRet (x : A) | VExc (e : vexn).
  Arguments VRet {A} _. Arguments VExc {A} _.

  (** core.py:292-307: None without XSD_SCHEMA *)
  Definition xmlschema (s : vstate) (x : vobj) : vstate * vres (option nat) :=
    match x_schema x with
    | None => (s, VRet None)
    | Some uri =>
      let '(c, a, _) := load_schema (v_cache s) uri None (load uri) in
      (mkV c (v_log s), match a with AObj o => VRet (Some o) | _ => VExc (VLoad a) end)
    end.

  (** core.py:514-529 *)
  Definition schema_valid (s : vstate) (x : vobj) : vstate * vres bool :=
    match xmlschema s x with
    | (s, VExc e) => (s, VExc e)
    | (s, VRet None) => (s, VExc VNoSchema)
    | (s, VRet (Some _)) =>
      match xmlschema s x with                                             (* self.xmlschema._clear_error_log() *)
      | (s, VRet (Some o)) =>
        let s := set_log o [] s in
        match xmlschema s x with                                           (* self.xmlschema.validate(self.node) *)
        | (s, VRet (Some o)) => (set_log o ((if keep then v_log s o else []) ++ errs o (x_doc x)) s, VRet (match errs o (x_doc x) with [] => true | _ => false end))
        | (s, VRet None) => (s, VExc VNoSchema)
        | (s, VExc e) => (s, VExc e)
        end
      | (s, VRet None) => (s, VExc VNoSchema)
      | (s, VExc e) => (s, VExc e)
      end
    end.

  (** core.py:531-542 *)
  Definition schema_validation_errors (s : vstate) (x : vobj) : vstate * vres (list err) :=
    match xmlschema s x with
    | (s, VExc e) => (s, VExc e)
    | (s, VRet None) => (s, VExc VNoSchema)
    | (s, VRet (Some _)) =>
      match xmlschema s x with
      | (s, VRet (Some o)) => (s, VRet (v_log s o))
      | (s, VRet None) => (s, VExc VNoSchema)
      | (s, VExc e) => (s, VExc e)
      end
    end.

  (** core.py:499-512; an XMLSchema object is true *)
  Definition validation_errors (s : vstate) (x : vobj) : vstate * vres (list err) :=
    match xmlschema s x with
    | (s, VExc e) => (s, VExc e)
    | (s, VRet None) => (s, VRet [])
    | (s, VRet (Some _)) =>
      if x_validate x then
        match schema_valid s x with
        | (s, VExc e) => (s, VExc e)
        | (s, VRet true) => (s, VRet [])
        | (s, VRet false) => schema_validation_errors s x
        end
      else (s, VRet [])
    end.

  (** core.py:489-497 *)
  Definition is_valid (s : vstate) (x : vobj) : vstate * vres bool :=
    match validation_errors s x with
    | (s, VExc e) => (s, VExc e)
    | (s, VRet l) => (s, VRet (match l with [] => true | _ => false end))
    end.

  (** any use of the API *)
  Inductive vop := OpErrors (x : vobj) | OpIsValid (x : vobj) | OpSchemaValid (x : vobj) | OpSchemaErrors (x : vobj).
  Definition vstep (s : vstate) (op : vop) : vstate :=
    match op with
    | OpErrors x => fst (validation_errors s x)
    | OpIsValid x => fst (is_valid s x)
    | OpSchemaValid x => fst (schema_valid s x)
    | OpSchemaErrors x => fst (schema_validation_errors s x)
    end.
  Definition vrun (h : list vop) : vstate := fold_left vstep h v_init.

  (** The statements of validation_errors for a class whose schema is loaded, as separate steps, for threads: clear the log,
      validate (adding to the log), read the log; a valid document needs no read. *)
  Inductive vthread := VT0 (x : doc) | VT1 (x : doc) | VT2 | VDone (l : list err).
  Definition vtstep (o : nat) (st : list err * list vthread) (i : nat) : list err * list vthread :=
    let (log, ts) := st in
    match nth_error ts i with
    | Some (VT0 x) => ([], put i (VT1 x) ts)
    | Some (VT1 x) => ((if keep then log else []) ++ errs o x, put i (match errs o x with [] => VDone [] | _ => VT2 end) ts)
    | Some VT2 => (log, put i (VDone log) ts)
    | _ => st
    end.
  Definition vtrun (o : nat) (docs : list doc) (sched : list nat) : list err * list vthread := fold_left (vtstep o) sched ([], map VT0 docs).
End Validate.
Arguments VRet {A} _. Arguments VExc {A} _.
