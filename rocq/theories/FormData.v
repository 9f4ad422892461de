(** Model of xmlobject_to_dict (eulxml/forms/xmlobject.py:317-354). *)
From Coq Require Import String List Arith NArith Bool.
From Verif Require Import PyStr Classes FieldLists.
Import ListNotations.

(** An XmlObject as the function sees it: the fields of [_fields] in order with what getattr returns.
    [V] is the type of plain values (anything that is not an XmlObject, including lists of such). *)
Section Data.
Context {V : Type}.
Inductive obj := Obj (fs : list (str * oval))
with oval :=
| VPlain (v : V)                  (* any field but NodeField and NodeListField *)
| VNode (o : option obj)          (* NodeField: None or an object *)
| VNodes (l : list obj).          (* NodeListField *)
(** the values of the resulting dictionary *)
Inductive dval := DPlain (v : V) | DNone | DObj (o : obj).

(** forms/xmlobject.py:329-332 *)
Definition combining (prefix : str) : str := match prefix with [] => [] | _ => prefix ++ [ch "-"] end.
(** forms/xmlobject.py:336-339: an empty list counts like None *)
Definition wanted (fields exclude : option (list str)) (n : str) : bool :=
  match fields with Some (f0 :: fs) => str_mem n (f0 :: fs) | _ => true end &&
  match exclude with Some (f0 :: fs) => negb (str_mem n (f0 :: fs)) | _ => true end.

(** forms/xmlobject.py:327-354.  Note that the last [if ... else] is about NodeListField only: the value of a
    NodeField is also stored under its own name. *)
Fixpoint to_dict (fields exclude : option (list str)) (prefix : str) (o : obj) {struct o} : list (str * dval) :=
  let pre := combining prefix in
  match o with
  | Obj fs =>
    (fix go fs data :=
       match fs with
       | [] => data
       | (n, v) :: r =>
         if wanted fields exclude n then
           go r (match v with
                 | VPlain x => dset (pre ++ n) (DPlain x) data
                 | VNode None => dset (pre ++ n) DNone data
                 | VNode (Some o') => dset (pre ++ n) (DObj o') (dupdate data (to_dict None None (pre ++ n) o'))
                 | VNodes l =>
                   (fix each i l data :=
                      match l with
                      | [] => data
                      | o' :: t => each (S i) t (dupdate data (to_dict None None (pre ++ n ++ [ch "-"] ++ str_of_N (N.of_nat i)) o'))
                      end) 0 l data
                 end)
         else go r data
       end) fs []
  end.
End Data.
Arguments obj : clear implicits. Arguments oval : clear implicits. Arguments dval : clear implicits.
