(** Model of XmlObjectForm.update_instance and _update_subinstance (eulxml/forms/xmlobject.py:550-613).
    Instances are the value trees of FormData.v.  SIMPLIFICATIONS: assigning to one field changes no other
    field (for documents that is C11) and no assignment raises by itself (C10, C13 are about that). *)
From Coq Require Import String List Arith NArith Bool.
From Verif Require Import PyStr Classes FieldLists FormFields FormData.
Import ListNotations.

Section Update.
Context {V : Type} (is_blank : V -> bool) (none : V).   (* the empty string, None *)
Context (empty : obj V -> bool).                         (* XmlObject.is_empty, which classes override *)

(** the class attribute Meta.fields: absent, None, a list of names, or what xmlobjectform_factory put there *)
Inductive mfields := MAbsent | MNone | MNames (l : list str) | MParsed (t : pfl).
Definition meta_arg (m : mfields) : larg := match m with MAbsent | MNone => ANone | MNames l => ANames l | MParsed t => AParsed t end.

(** A form with its instance attribute [own], its cleaned_data (None: not bound, or not yet validated), its
    subforms and what its formsets do to the value of their field *)
Inductive bform := BForm (fields : mfields) (exclude : larg) (cleaned : option (list (str * V))) (own : obj V)
    (subforms : list (str * bform)) (formsets : list (str * (oval V -> oval V))).

Inductive uexn :=
| UType          (* TypeError: 'ParsedFieldList' (or 'NoneType') object is not iterable, :557 *)
| UNoField (n : str)   (* a subform or formset for something that is not such a field of the instance *)
| UNode (n : str).     (* a plain value assigned to a node field *)

(** setattr(self.instance, name, value).  A name that is no field becomes an ordinary Python attribute. *)
Definition set_field (n : str) (v : V) (o : obj V) : obj V * option uexn :=
  match o with
  | Obj fs => match dget n fs with
              | Some (VPlain _) => (Obj (dset n (VPlain v) fs), None)
              | Some _ => (o, Some (UNode n))
              | None => (o, None)
              end
  end.

(** forms/xmlobject.py:569-575 *)
Definition fields_in_order (m : mfields) (o : obj V) : option (list str) :=
  match o with
  | Obj fs => match m with
              | MAbsent => Some (map fst fs)
              | MNames l => Some (l ++ filter (fun n => str_mem n l) (map fst fs))
              | MNone | MParsed _ => None
              end
  end.
(** [opts.fields] and [opts.exclude] as conditions *)
Definition arg_true (a : larg) : bool := match a with ANone => false | ANames [] => false | _ => true end.
(** forms/xmlobject.py:580-583 *)
Definition skipped (m : mfields) (ex : larg) (n : str) : bool :=
  let opts := options_of (meta_arg m) ex in
  (arg_true (meta_arg m) && negb (included (o_fields opts) n)) || (arg_true ex && excluded (o_exclude opts) n).
Definition clean (v : V) : V := if is_blank v then none else v.
(** forms/xmlobject.py:577-590 *)
Fixpoint save_fields (m : mfields) (ex : larg) (cd : list (str * V)) (names : list str) (o : obj V) : obj V * option uexn :=
  match names with
  | [] => (o, None)
  | n :: r =>
    if skipped m ex n then save_fields m ex cd r o
    else match dget n cd with
         | None => save_fields m ex cd r o
         | Some v => match set_field n (clean v) o with
                     | (o1, None) => save_fields m ex cd r o1
                     | (o1, Some e) => (o1, Some e)
                     end
         end
  end.
Definition with_field (n : str) (v : oval V) (o : obj V) : obj V := match o with Obj fs => Obj (dset n v fs) end.
Definition field (n : str) (o : obj V) : option (oval V) := match o with Obj fs => dget n fs end.

Definition save_sets (sets : list (str * (oval V -> oval V))) (o : obj V) : obj V * option uexn :=
  fold_left (fun acc nf =>
    match acc with
    | (o, Some e) => (o, Some e)
    | (o, None) => match field (fst nf) o with Some v => (with_field (fst nf) (snd nf v) o, None) | None => (o, Some (UNoField (fst nf))) end
    end) sets (o, None).

(** forms/xmlobject.py:558-597 with _update_subinstance (:599-613).  [o] is self.instance; the instance of a
    subform is the node of the field if there is one (forms/xmlobject.py:505-527), its own otherwise. *)
Fixpoint update (F : bform) (o : obj V) {struct F} : obj V * option uexn :=
  match F with
  | BForm m ex cleaned _ subs sets =>
    match cleaned with
    | None => (o, None)
    | Some cd =>
      match fields_in_order m o with
      | None => (o, Some UType)
      | Some names =>
        match save_fields m ex cd names o with
        | (o1, Some e) => (o1, Some e)
        | (o1, None) =>
          let r := (fix go subs o :=
            match subs with
            | [] => (o, None)
            | (n, G) :: rest =>
              match field n o with
              | Some (VNode (Some p)) =>
                match update G p with
                | (p1, Some e) => (with_field n (VNode (Some p1)) o, Some e)
                | (p1, None) => go rest (with_field n (VNode (if empty p1 then None else Some p1)) o)
                end
              | Some (VNode None) =>
                match G with BForm _ _ _ own _ _ =>
                  match update G own with
                  | (p1, Some e) => (o, Some e)
                  | (p1, None) => go rest (if empty p1 then o else with_field n (VNode (Some p1)) o)
                  end
                end
              | _ => (o, Some (UNoField n))
              end
            end) subs o1 in
          match r with
          | (o2, Some e) => (o2, Some e)
          | (o2, None) => save_sets sets o2
          end
        end
      end
    end
  end.
(** Meta.fields of the subform class that is generated for a node field (forms/xmlobject.py:235-244, 760-764) *)
Definition generated_meta (fields : option pfl) (n : str) : mfields :=
  match sub_list fields n with Some t => MParsed t | None => MAbsent end.
End Update.
Arguments bform : clear implicits.
