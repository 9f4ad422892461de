(** Model of what constructing an XmlObjectForm does to its instance (XmlObjectForm.__init__ and _init_subforms,
    eulxml/forms/xmlobject.py:468-548), on the value trees of FormUpdate.v.  For each subform, create_<name>()
    makes the node if there is none (C19); [own] of the subform stands for the blank object a new node gives.
    SIMPLIFICATION: formsets only read their lists here. *)
From Coq Require Import String List Arith NArith Bool.
From Verif Require Import PyStr Classes FieldLists FormFields FormData FormUpdate.
Import ListNotations.

Section Init.
Context {V : Type}.
(** forms/xmlobject.py:505-533; a subform for something that is not a node field raises AttributeError (create_...) *)
Fixpoint construct (F : bform V) (o : obj V) {struct F} : obj V * option uexn :=
  match F with
  | BForm _ _ _ _ subs _ =>
    (fix go subs o :=
       match subs with
       | [] => (o, None)
       | (n, G) :: rest =>
         match field n o with
         | Some (VNode old) =>
           let p := match old with Some p => p | None => match G with BForm _ _ _ own _ _ => own end end in
           match construct G p with
           | (p1, None) => go rest (with_field n (VNode (Some p1)) o)
           | (p1, Some e) => (with_field n (VNode (Some p1)) o, Some e)
           end
         | _ => (o, Some (UNoField n))
         end
       end) subs o
  end.
End Init.
