(** Model of XmlObjectFormType.__new__ (eulxml/forms/xmlobject.py:367-424): programs of form class statements that inherit from
    each other.  The form made from model, fields and exclude is FormFields.form_class.
    SIMPLIFICATIONS: XmlObjectForm itself is a class without Meta and fields; attributes other than Meta, fields and SubformFields play
    no part; a SubformField carries the form its form class makes. *)
From Coq Require Import String List Arith NArith Bool.
From Verif Require Import PyStr Classes FieldLists FormFields.
Import ListNotations.

(** class Meta: model, fields, exclude *)
Record fmeta := mkMeta { mt_model : option nat; mt_fields : larg; mt_exclude : larg }.
(** a Field in a class body: a Django field or a SubformField *)
Inductive decl := DField (f : ffield) | DSub (f : fform).
Record fcls := mkFC { fc_bases : list nat; fc_mro : list nat; fc_meta : option fmeta (* in its own body *); fc_own : list (str * decl);
  fc_declared : list (str * ffield) (* declared_fields *); fc_form : fform (* base_fields, subforms, formsets *) }.
Definition fworld := list fcls.
Inductive ferr := FMro | FBadBase | FForms (e : fexn).

(** forms/xmlobject.py:369-373: fields of the bases, then the own ones; SortedDict of the list: place of the first, value of the last *)
Definition declared_of (w : fworld) (b : nat) : list (str * decl) :=
  match nth_error w b with Some k => map (fun nf => (fst nf, DField (snd nf))) (fc_declared k) | None => [] end.
Definition tmp_fields (w : fworld) (bases : list nat) (own : list (str * decl)) : list (str * decl) :=
  dupdate [] (fold_left (fun fields b => declared_of w b ++ fields) (rev bases) own).
(** forms/xmlobject.py:378-390 *)
Definition plain_decls (l : list (str * decl)) : list (str * ffield) :=
  flat_map (fun nd => match snd nd with DField f => [(fst nd, f)] | DSub _ => [] end) l.
Definition sub_decls (l : list (str * decl)) : list (str * fform) :=
  flat_map (fun nd => match snd nd with DSub f => [(fst nd, f)] | DField _ => [] end) l.
(** getattr(new_class, 'Meta', None) (forms/xmlobject.py:395): the first class of the method resolution order with one *)
Fixpoint first_meta (w : fworld) (l : list nat) : option fmeta :=
  match l with
  | [] => None
  | c :: r => match nth_error w c with Some k => match fc_meta k with Some m => Some m | None => first_meta w r end | None => first_meta w r end
  end.
(** Python's C3 linearisation, as in Classes.v *)
Definition flinearise (w : fworld) (self : nat) (bases : list nat) : option (list nat) :=
  let ls := map (fun b => match nth_error w b with Some k => fc_mro k | None => [] end) bases ++ [bases] in
  option_map (cons self) (merge (total ls) ls).
(** forms/xmlobject.py:367-424 *)
Definition define_form (fuel : nat) (M : models) (w : fworld) (bases : list nat) (meta : option fmeta) (own : list (str * decl)) : fworld + ferr :=
  if negb (forallb (fun b => b <? length w) bases) then inr FBadBase else
  let tmp := tmp_fields w bases own in
  let declared := plain_decls tmp in
  let subforms := sub_decls tmp in
  match flinearise w (length w) bases with
  | None => inr FMro
  | Some mro =>
    let m := match meta with Some x => Some x | None => first_meta w (tl mro) end in
    let form := match m with
                | Some x => match mt_model x with
                            | Some c => form_class fuel M c (mt_fields x) (mt_exclude x) declared subforms
                            | None => FOk (FForm declared [] [])
                            end
                | None => FOk (FForm declared [] [])
                end in
    match form with
    | FErr e => inr (FForms e)
    | FOk F => inl (w ++ [mkFC bases mro meta own declared F])
    end
  end.

(** a program of class statements; one that raises defines nothing *)
Record fstmt := mkStmt { st_bases : list nat; st_meta : option fmeta; st_own : list (str * decl) }.
Definition run_form (fuel : nat) (M : models) (w : fworld) (s : fstmt) : fworld :=
  match define_form fuel M w (st_bases s) (st_meta s) (st_own s) with inl w' => w' | inr _ => w end.
Definition run_forms (fuel : nat) (M : models) (p : list fstmt) : fworld := fold_left (run_form fuel M) p [].
