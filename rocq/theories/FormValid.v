(** Model of XmlObjectForm.is_valid (eulxml/forms/xmlobject.py:615-655) together with update_instance and
    _update_subinstance (:550-613), on the value trees of FormData.v.  Unlike FormUpdate.v, the form is part of the state:
    a subform whose node update_instance has removed keeps its (now detached) object, and a failed schema validation leaves
    errors in the form.
    SIMPLIFICATIONS: those of FormUpdate.v; Django's own validation is the input ([h_ok]: bound and without errors;
    [h_cleaned]: what full_clean leaves in cleaned_data), as is the schema validity of an object ([h_check], C54); an object
    assigned to a node field that had none is copied (construction makes all the nodes, C52, so this needs a subform that gets
    its content later). *)
From Coq Require Import String List Arith NArith Bool.
From Verif Require Import PyStr Classes FieldLists FormFields FormData FormUpdate.
Import ListNotations.

Section Valid.
Context {V : Type} (is_blank : V -> bool) (none : V) (empty : obj V -> bool).

Record vhead := mkHead {
  h_fields : mfields; h_exclude : larg;
  h_ok : bool;                          (* Form.is_valid() of Django: bound, and no entry in self._errors *)
  h_cleaned : list (str * V);
  h_check : obj V -> bool               (* instance.is_valid() *)
}.
(** a formset: what its is_valid() does to the list and answers, and what its update_instance() does to the list *)
Record vset := mkVSet { vs_valid : oval V -> oval V * bool; vs_update : oval V -> oval V }.
(** a form: its subforms with the object each keeps if its node is removed *)
Inductive vform := VForm (h : vhead) (subs : list (str * (obj V * vform))) (sets : list (str * vset)).

(** the answer of is_valid *)
Inductive vout := VTrue | VFalse | VRaise (e : uexn).

Section Subs.
  Context (rec : vform -> obj V -> vform * obj V * option uexn).
  (** forms/xmlobject.py:592-594, 599-613 *)
  Fixpoint vupdate_subs (subs : list (str * (obj V * vform))) (o : obj V) : list (str * (obj V * vform)) * obj V * option uexn :=
    match subs with
    | [] => ([], o, None)
    | (n, (own, G)) :: rest =>
      match field n o with
      | Some (VNode (Some p)) =>
        match rec G p with
        | (G1, p1, Some e) => ((n, (own, G1)) :: rest, with_field n (VNode (Some p1)) o, Some e)
        | (G1, p1, None) =>
          let '(r, o2, x) := vupdate_subs rest (with_field n (VNode (if empty p1 then None else Some p1)) o) in
          ((n, (if empty p1 then p1 else own, G1)) :: r, o2, x)
        end
      | Some (VNode None) =>
        match rec G own with
        | (G1, p1, Some e) => ((n, (p1, G1)) :: rest, o, Some e)
        | (G1, p1, None) =>
          let '(r, o2, x) := vupdate_subs rest (if empty p1 then o else with_field n (VNode (Some p1)) o) in
          ((n, (p1, G1)) :: r, o2, x)
        end
      | _ => ((n, (own, G)) :: rest, o, Some (UNoField n))
      end
    end.
End Subs.
(** forms/xmlobject.py:550-597 once there is cleaned_data *)
Fixpoint vupdate (F : vform) (o : obj V) {struct F} : vform * obj V * option uexn :=
  match F with
  | VForm h subs sets =>
    match fields_in_order (h_fields h) o with
    | None => (F, o, Some UType)
    | Some names =>
      match save_fields is_blank none (h_fields h) (h_exclude h) (h_cleaned h) names o with
      | (o1, Some e) => (F, o1, Some e)
      | (o1, None) =>
        match vupdate_subs vupdate subs o1 with
        | (subs1, o2, Some e) => (VForm h subs1 sets, o2, Some e)
        | (subs1, o2, None) => let (o3, x) := save_sets (map (fun ns => (fst ns, vs_update (snd ns))) sets) o2 in (VForm h subs1 sets, o3, x)
        end
      end
    end
  end.

Section ValidSubs.
  Context (rec : vform -> obj V -> vform * obj V * vout).
  (** forms/xmlobject.py:631 [all(s.is_valid() for s in six.itervalues(self.subforms))] *)
  Fixpoint valid_subs (subs : list (str * (obj V * vform))) (o : obj V) : list (str * (obj V * vform)) * obj V * vout :=
    match subs with
    | [] => ([], o, VTrue)
    | (n, (own, G)) :: rest =>
      match field n o with
      | Some (VNode (Some p)) =>
        let '(G1, p1, x) := rec G p in
        let o1 := with_field n (VNode (Some p1)) o in
        match x with
        | VTrue => let '(r, o2, y) := valid_subs rest o1 in ((n, (own, G1)) :: r, o2, y)
        | _ => ((n, (own, G1)) :: rest, o1, x)
        end
      | Some (VNode None) =>
        let '(G1, p1, x) := rec G own in
        match x with
        | VTrue => let '(r, o2, y) := valid_subs rest o in ((n, (p1, G1)) :: r, o2, y)
        | _ => ((n, (p1, G1)) :: rest, o, x)
        end
      | _ => ((n, (own, G)) :: rest, o, VRaise (UNoField n))
      end
    end.
End ValidSubs.
(** forms/xmlobject.py:632 *)
Fixpoint valid_sets (sets : list (str * vset)) (o : obj V) : obj V * vout :=
  match sets with
  | [] => (o, VTrue)
  | (n, s) :: rest =>
    match field n o with
    | Some v => let (v1, b) := vs_valid s v in
                let o1 := with_field n v1 o in
                if b then valid_sets rest o1 else (o1, VFalse)
    | None => (o, VRaise (UNoField n))
    end
  end.
Definition with_errors (h : vhead) : vhead := mkHead (h_fields h) (h_exclude h) false (h_cleaned h) (h_check h).
(** forms/xmlobject.py:615-655 *)
Fixpoint is_valid (F : vform) (o : obj V) {struct F} : vform * obj V * vout :=
  match F with
  | VForm h subs sets =>
    if h_ok h then
      match valid_subs is_valid subs o with
      | (subs1, o1, VTrue) =>
        match valid_sets sets o1 with
        | (o2, VTrue) =>
          match vupdate (VForm h subs1 sets) o2 with
          | (F1, o3, Some e) => (F1, o3, VRaise e)
          | (VForm h1 subs2 sets1, o3, None) =>
            if h_check h1 o3 then (VForm h1 subs2 sets1, o3, VTrue)
            else (VForm (with_errors h1) subs2 sets1, o3, VFalse)
          end
        | (o2, x) => (VForm h subs1 sets, o2, x)
        end
      | (subs1, o1, x) => (VForm h subs1 sets, o1, x)
      end
    else (F, o, VFalse)
  end.

(** the same form for FormUpdate.v *)
Fixpoint plain (own : obj V) (F : vform) {struct F} : bform V :=
  match F with
  | VForm h subs sets =>
    BForm (h_fields h) (h_exclude h) (Some (h_cleaned h)) own
      (map (fun s => (fst s, plain (fst (snd s)) (snd (snd s)))) subs)
      (map (fun ns => (fst ns, vs_update (snd ns))) sets)
  end.
End Valid.
Arguments vform : clear implicits. Arguments vset : clear implicits. Arguments vhead : clear implicits.
