(** Model of the dotted field lists of forms: _parse_field_list, _collect_fields, ParsedFieldList
    (eulxml/forms/xmlobject.py:44-83). *)
From Coq Require Import String List Arith NArith Bool.
From Verif Require Import PyStr Classes.
Import ListNotations.

(** ParsedFieldList (forms/xmlobject.py:78-83) *)
Inductive pfl := PFL (fields : list str) (subfields : list (str * pfl)).
Definition p_fields (t : pfl) : list str := match t with PFL f _ => f end.
Definition p_subs (t : pfl) : list (str * pfl) := match t with PFL _ s => s end.

(** [subpart_lists[field].append(subparts)] on a defaultdict(list) *)
Fixpoint dappend {A} (k : str) (x : A) (d : list (str * list A)) : list (str * list A) :=
  match d with
  | [] => [(k, [x])]
  | (k', l) :: r => if str_eqb k' k then (k', l ++ [x]) :: r else (k', l) :: dappend k x r
  end.

(** forms/xmlobject.py:64-71, the body of the loop.  str.split never returns an empty list, so that
    parts[0] exists. *)
Definition collect1 (incl : bool) (acc : list str * list (str * list (list str))) (parts : list str) :=
  let (fields, subs) := acc in
  match parts with
  | [] => acc
  | [f] => (fields ++ [f], subs)
  | f :: sub => (if incl && negb (str_mem f fields) then fields ++ [f] else fields, dappend f sub subs)
  end.

(** forms/xmlobject.py:59-76.  The recursion is over the length of the longest name: [fuel] is that length
    (Python's own recursion limit is not modelled). *)
Fixpoint collect (fuel : nat) (incl : bool) (pls : list (list str)) : pfl :=
  match fuel with
  | O => PFL [] []
  | S g => let (fields, subs) := fold_left (collect1 incl) pls ([], []) in
           PFL fields (map (fun ks => (fst ks, collect g incl (snd ks))) subs)
  end.
Definition longest (pls : list (list str)) : nat := fold_right (fun p a => Nat.max (length p) a) 1 pls.

(** forms/xmlobject.py:44-57 *)
Definition parse_field_list (names : list str) (incl : bool) : pfl :=
  let pls := map (split_on (ch ".")) names in collect (longest pls) incl pls.
