(** Model of NodeListField lists: NodeList with a NodeMapper (eulxml/xmlmap/fields.py:741-775, 786-826,
    829-845), for an XPath of one child step.  What matters here is which element is which, so the
    children of the object's node are a list of [kid]s: the identity of the element (the lxml node an
    XmlObject wraps), whether the field's XPath selects it, and the text after it, which lxml moves along with
    the element.  SIMPLIFICATIONS: whether the XPath selects an element does not change while it moves, and
    an assigned node does not contain the object's own node (lxml would break the tree). *)
From Coq Require Import List Arith ZArith.
From Verif Require Import NodeList.
Import ListNotations.

Record kid := mkKid { kid_id : nat; kid_hit : bool; kid_tail : option str }.

Definition listed (ks : list kid) : list kid := filter kid_hit ks.

(** lxml's [parent.replace(old, new)]: [new] leaves its old place (if it is one of the children) with its
    tail and takes the place of [old], which goes away with its own tail *)
Definition replace_kid (old new : kid) (ks : list kid) : list kid :=
  flat_map (fun k => if kid_id k =? kid_id old then [new] else if kid_id k =? kid_id new then [] else [k]) ks.

(** [_create_xml_node] with an insert index (fields.py:318-331): a new element [f] after the last listed one,
    or at the end *)
Fixpoint last_hit (i : nat) (ks : list kid) : option nat :=
  match ks with
  | [] => None
  | k :: r => match last_hit (S i) r with Some j => Some j | None => if kid_hit k then Some i else None end
  end.
Definition create_kid (f : nat) (ks : list kid) : list kid :=
  match last_hit 0 ks with
  | Some p => insert_nth (p + 1) (mkKid f true None) ks
  | None => ks ++ [mkKid f true None]
  end.
(** [_create_xml_node] in [insert] (fields.py:818-821): before the [i]th listed element *)
Fixpoint create_before (f i : nat) (ks : list kid) : list kid :=
  match ks with
  | [] => []
  | k :: r =>
    if kid_hit k then match i with O => mkKid f true None :: ks | S i' => k :: create_before f i' r end
    else k :: create_before f i r
  end.

(** fields.py:741-763; [f] is the identity a newly created element gets *)
Definition nl_setitem (f : nat) (key : Z) (v : kid) (ks : list kid) : list kid * res unit :=
  let n := Z.of_nat (length (listed ks)) in
  if Z.eqb key n then
    let ks' := create_kid f ks in
    match nth_error (listed ks') (length (listed ks)) with
    | Some old => (replace_kid old v ks', Ret tt)
    | None => (ks', Exc XUnmodelled)
    end
  else if Z.ltb n key then (ks, Exc XIndex)
  else match py_nth key (listed ks) with
       | Some old => (replace_kid old v ks, Ret tt)
       | None => (ks, Exc XIndex)
       end.

(** fields.py:769-775 *)
Definition nl_delitem (key : Z) (ks : list kid) : list kid * res unit :=
  if Z.leb (Z.of_nat (length (listed ks))) key then (ks, Exc XIndex)
  else match py_nth key (listed ks) with
       | Some k => (filter (fun x => negb (kid_id x =? kid_id k)) ks, Ret tt)
       | None => (ks, Exc XIndex)
       end.
(** fields.py:786-788 *)
Definition nl_append (f : nat) (v : kid) (ks : list kid) : list kid * res unit :=
  nl_setitem f (Z.of_nat (length (listed ks))) v ks.
(** fields.py:814-826 *)
Definition nl_insert (f : nat) (key : Z) (v : kid) (ks : list kid) : list kid * res unit :=
  let n := length (listed ks) in
  if Z.eqb key (Z.of_nat n) then nl_append f v ks
  else if Z.ltb key (Z.of_nat n) then
    match py_idx key n with
    | Some i => nl_setitem (S f) key v (create_before f i ks)
    | None => (ks, Exc XIndex)
    end
  else (ks, Exc XIndex).

(** fields.py:837-842: the loop; [f] upwards are identities of elements that exist nowhere yet *)
Fixpoint nl_set_all (f i : nat) (vs : list kid) (ks : list kid) : list kid * res unit :=
  match vs with
  | [] => (ks, Ret tt)
  | v :: vs' =>
    match nl_setitem f (Z.of_nat i) v ks with
    | (ks1, Ret _) => nl_set_all (S f) (S i) vs' ks1
    | (ks1, Exc x) => (ks1, Exc x)
    end
  end.
Fixpoint nl_trim (n fuel : nat) (ks : list kid) : list kid * res unit :=
  if n <? length (listed ks) then
    match fuel with
    | O => (ks, Exc XUnmodelled)
    | S g => match nl_delitem (Z.of_nat (length (listed ks)) - 1) ks with
             | (ks1, Ret _) => nl_trim n g ks1
             | (ks1, Exc x) => (ks1, Exc x)
             end
    end
  else (ks, Ret tt).
Definition nl_set (f : nat) (vs : list kid) (ks : list kid) : list kid * res unit :=
  match nl_set_all f 0 vs ks with
  | (ks1, Ret _) => nl_trim (length vs) (length ks1) ks1
  | r => r
  end.

(** The same loop when the assigned value is the list field of another object, i.e. a live view of that
    object's children [src]: every [value[i]] looks at what is left there. *)
Fixpoint nl_set_view (f i n : nat) (src ks : list kid) : list kid * list kid * res unit :=
  match n with
  | O => (src, ks, Ret tt)
  | S n' =>
    match nth_error (listed src) i with
    | None => (src, ks, Exc XIndex)
    | Some v =>
      match nl_setitem f (Z.of_nat i) v ks with
      | (ks1, Ret _) => nl_set_view (S f) (S i) n' (filter (fun x => negb (kid_id x =? kid_id v)) src) ks1
      | (ks1, Exc x) => (src, ks1, Exc x)
      end
    end
  end.
Definition nl_assign_field (f : nat) (src ks : list kid) : list kid * list kid * res unit :=
  nl_set_view f 0 (length (listed src)) src ks.
