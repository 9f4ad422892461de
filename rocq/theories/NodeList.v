(** Model of NodeList and NodeListManager, eulxml/xmlmap/fields.py:661-846, for list fields whose
    mapper writes strings (StringListField, IntegerListField, SimpleBooleanListField, DateListField ...).
    NodeListField (whose items are replaced as nodes) is in NodeNodes.v. *)
From Coq Require Import String Arith ZArith.
From Verif Require Export Mappers.
From Verif Require Import XPathEval.

(** ** Python's [==] on mapped values.  SIMPLIFICATION: dates and datetimes compare structurally;
    XmlObjects compare as trees (see C37); other objects are not equal. *)
Definition opt_eqb {A} (f : A -> A -> bool) (a b : option A) : bool :=
  match a, b with Some x, Some y => f x y | None, None => true | _, _ => false end.
Fixpoint list_eqb {A} (f : A -> A -> bool) (a b : list A) : bool :=
  match a, b with [], [] => true | x :: a', y :: b' => f x y && list_eqb f a' b' | _, _ => false end.
Definition attr_eqb (a b : qname * str) : bool := qeqb (fst a) (fst b) && str_eqb (snd a) (snd b).
Fixpoint node_eqb (a b : node) : bool :=
  match a, b with
  | Misc s, Misc t => str_eqb s t
  | Elem q at1 t ks, Elem q' at2 t' ks' =>
    qeqb q q' && list_eqb attr_eqb at1 at2 && ostr_eqb t t' &&
    ((fix go (l l' : list (node * option str)) : bool :=
        match l, l' with
        | [], [] => true
        | (x, tx) :: r, (y, ty) :: r' => node_eqb x y && ostr_eqb tx ty && go r r'
        | _, _ => false
        end) ks ks')
  | _, _ => false
  end.
Definition date_eqb (a b : date) : bool := N.eqb (yr a) (yr b) && N.eqb (mo a) (mo b) && N.eqb (dy a) (dy b).
Definition time_eqb (a b : time) : bool :=
  N.eqb (hh a) (hh b) && N.eqb (mi a) (mi b) && N.eqb (ss a) (ss b) && N.eqb (us a) (us b).
Definition as_num (v : pyval) : option (option number) :=
  match v with
  | PInt z => Some (Some (num_of_Z z))
  | PBool b => Some (Some (num_of_Z (if b then 1 else 0)))
  | PFloat n => Some n
  | _ => None
  end.
Definition py_eq (a b : pyval) : bool :=
  match a, b with
  | PNone, PNone => true
  | PStr s, PStr t => str_eqb s t
  | PStr s, PRaw (InStr t) | PRaw (InStr s), PStr t | PRaw (InStr s), PRaw (InStr t) => str_eqb s t
  | PDate x, PDate y => date_eqb x y
  | PDateTime x t, PDateTime y t' => date_eqb x y && time_eqb t t'
  | PNode x, PNode y => node_eqb x y
  | _, _ => match as_num a, as_num b with Some x, Some y => num_eqb x y | _, _ => false end
  end.

(** ** reading *)
Definition item_in (i : item) : minput :=
  match i with IElem _ n => InElem n | IAttr _ _ s => InStr s | IText _ _ s => InStr s end.

Fixpoint mapR {A B} (f : A -> res B) (l : list A) : res (list B) :=
  match l with
  | [] => Ret []
  | x :: l' => match f x with
               | Exc e => Exc e
               | Ret y => match mapR f l' with Ret ys => Ret (y :: ys) | Exc e => Exc e end
               end
  end.

(** fields.py:690-695 *)
Definition matches (E : env) (e : expr) (d : node) : res (list item) :=
  match eval_at E e doc_root d with
  | Ret (XN l) => Ret l
  | Ret (XS _) => Exc XUnmodelled
  | Ret _ => Exc XType                                   (* len()/iteration of a float or bool *)
  | Exc x => Exc x
  end.

(** fields.py:703-706: [data]; also what iterating gives (fields.py:720-722) *)
Definition list_data (E : env) (e : expr) (m : mapper) (d : node) : res (list pyval) :=
  match matches E e d with Ret l => mapR (fun i => to_python m (Some (item_in i))) l | Exc x => Exc x end.

(** Python's [l[k]] *)
Definition py_idx (k : Z) (n : nat) : option nat :=
  if Z.leb 0 k then (if Z.ltb k (Z.of_nat n) then Some (Z.to_nat k) else None)
  else if Z.leb 0 (k + Z.of_nat n) then Some (Z.to_nat (k + Z.of_nat n)) else None.
Definition py_nth {A} (k : Z) (l : list A) : option A :=
  match py_idx k (length l) with Some i => nth_error l i | None => None end.

(** Python's list methods on [data] *)
Fixpoint count_eq (x : pyval) (l : list pyval) : nat :=
  match l with [] => 0 | y :: l' => (if py_eq y x then 1 else 0) + count_eq x l' end.
Fixpoint index_eq (x : pyval) (l : list pyval) : option nat :=
  match l with [] => None | y :: l' => if py_eq y x then Some 0 else option_map S (index_eq x l') end.
Definition pylist_eq (l l' : list pyval) : bool := list_eqb py_eq l l'.

Definition rmap {A B} (f : A -> B) (r : res A) : res B := match r with Ret x => Ret (f x) | Exc e => Exc e end.

(** fields.py:714-715, 717-718, 724-729, 782-784, 790-793 *)
Definition list_len (E : env) (e : expr) (m : mapper) (d : node) : res nat := rmap (@length pyval) (list_data E e m d).
Definition list_contains (E : env) (e : expr) (m : mapper) (x : pyval) (d : node) : res bool :=
  rmap (existsb (fun y => py_eq y x)) (list_data E e m d).
Definition list_eq (E : env) (e : expr) (m : mapper) (l : list pyval) (d : node) : res bool :=
  rmap (fun v => pylist_eq v l) (list_data E e m d).
Definition list_ne (E : env) (e : expr) (m : mapper) (l : list pyval) (d : node) : res bool :=
  rmap (fun v => negb (pylist_eq v l)) (list_data E e m d).
Definition list_count (E : env) (e : expr) (m : mapper) (x : pyval) (d : node) : res nat :=
  rmap (count_eq x) (list_data E e m d).
Definition list_index (E : env) (e : expr) (m : mapper) (x : pyval) (d : node) : res nat :=
  match list_data E e m d with
  | Ret l => match index_eq x l with Some i => Ret i | None => Exc XValue end
  | Exc err => Exc err
  end.
(** fields.py:737-739 *)
Definition list_getitem (E : env) (e : expr) (m : mapper) (k : Z) (d : node) : res pyval :=
  match matches E e d with
  | Ret l => match py_nth k l with Some i => to_python m (Some (item_in i)) | None => Exc XIndex end
  | Exc err => Exc err
  end.

(** ** writing *)
(** [item.getparent().index(item)]: an attribute or text is a str, which [index] and [remove] refuse;
    the XmlObject's own node has no parent in the model *)
Definition item_pos (i : item) : res (addr * nat) :=
  match i with
  | IElem a _ => match rev a with j :: r => Ret (rev r, j) | [] => Exc XAttr end
  | _ => Exc XType
  end.

Definition last_item (l : list item) : option item := match rev l with i :: _ => Some i | [] => None end.

(** fields.py:741-767 *)
Definition list_setitem (E : env) (e : expr) (m : mapper) (k : Z) (v : pyval) : M unit :=
  bind (reading (matches E e)) (fun l =>
  let n := Z.of_nat (length l) in
  bind (if Z.eqb k n then
          match last_item l with
          | Some i =>
            match item_pos i with
            | Ret (_, p) => build E Create e (Some doc_root) (Some (p + 1))
            | Exc x => raise x
            end
          | None => build E Create e (Some doc_root) None
          end
        else if Z.ltb n k then raise XIndex
        else match py_nth k l with Some i => ret (Some (ref_of i)) | None => raise XIndex end)
  (fun r => match to_xml m v with Exc x => raise x | Ret s => set_in_xml E r s (terminal_step e) end)).

(** fields.py:769-775 *)
Definition list_delitem (E : env) (e : expr) (k : Z) : M unit :=
  bind (reading (matches E e)) (fun l =>
  if Z.leb (Z.of_nat (length l)) k then raise XIndex
  else match py_nth k l with
    | Some i => match item_pos i with
                | Ret (a, j) => bind (remove_at a j) (fun _ => ret tt)
                | Exc x => raise x
                end
    | None => raise XIndex
    end).

(** fields.py:786-788 *)
Definition list_append (E : env) (e : expr) (m : mapper) (v : pyval) : M unit :=
  bind (reading (list_len E e m)) (fun n => list_setitem E e m (Z.of_nat n) v).

(** fields.py:795-798 *)
Definition list_remove (E : env) (e : expr) (m : mapper) (x : pyval) : M unit :=
  bind (reading (list_index E e m x)) (fun i => list_delitem E e (Z.of_nat i)).

(** fields.py:800-807 *)
Definition list_pop (E : env) (e : expr) (m : mapper) (k : option Z) : M pyval :=
  bind (match k with Some i => ret i | None => bind (reading (list_len E e m)) (fun n => ret (Z.of_nat n - 1)%Z) end) (fun i =>
  bind (reading (list_getitem E e m i)) (fun v =>
  bind (list_delitem E e i) (fun _ => ret v))).

(** fields.py:809-812 *)
Definition list_extend (E : env) (e : expr) (m : mapper) (vs : list pyval) : M unit :=
  iterM (list_append E e m) vs.

(** fields.py:814-826 *)
Definition list_insert (E : env) (e : expr) (m : mapper) (k : Z) (v : pyval) : M unit :=
  bind (reading (list_len E e m)) (fun n =>
  if Z.eqb k (Z.of_nat n) then list_append E e m v
  else
    bind (reading (matches E e)) (fun l =>
    if Z.ltb k (Z.of_nat (length l)) then
      match py_nth k l with
      | Some i =>
        match item_pos i with
        | Ret (_, p) => bind (build E Create e (Some doc_root) (Some p)) (fun _ => list_setitem E e m k v)
        | Exc x => raise x
        end
      | None => raise XIndex
      end
    else raise XIndex)).

(** ** NodeListManager, fields.py:829-846 *)
(** SIMPLIFICATION: the values are all read before the first removal, while the code's [for x in
    current_list] (fields.py:720-722) finds the nodes first and reads each value just before removing it.
    The values are the same when no match is inside another, which every theorem about deleting a list
    assumes; a removal inside a later match (possible only for '//' or positions) could change them. *)
Definition lmgr_delete (E : env) (e : expr) (m : mapper) : M unit :=
  bind (reading (list_data E e m)) (fun vs => iterM (list_remove E e m) vs).

Fixpoint set_all (E : env) (e : expr) (m : mapper) (i : nat) (vs : list pyval) : M unit :=
  match vs with
  | [] => ret tt
  | v :: vs' => bind (list_setitem E e m (Z.of_nat i) v) (fun _ => set_all E e m (S i) vs')
  end.
(** [while len(current_list) > len(value): current_list.pop()]; every pop shortens the list, so [fuel] =
    the length at the start is enough (proved: [ListSim.sim_trim]) *)
Fixpoint trim (E : env) (e : expr) (m : mapper) (n : nat) (fuel : nat) : M unit :=
  bind (reading (list_len E e m)) (fun len =>
  if Nat.ltb n len then
    match fuel with
    | O => raise XUnmodelled
    | S f => bind (list_pop E e m None) (fun _ => trim E e m n f)
    end
  else ret tt).
Definition lmgr_set (E : env) (e : expr) (m : mapper) (vs : list pyval) : M unit :=
  bind (set_all E e m 0 vs) (fun _ =>
  bind (reading (list_len E e m)) (fun len => trim E e m (length vs) len)).
