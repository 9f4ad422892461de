(** Specification side of the list properties: Python's own list operations. *)
From Coq Require Import List ZArith.
From Verif Require Export FieldSpec DocSpec NodeList.
From Verif Require Import XPathEval FieldSpec DocSpec.
Import ListNotations.

(** [l[k]]: negative indices count from the end *)
Definition at_index (k : Z) (n : nat) : option nat :=
  let j := (if k <? 0 then k + Z.of_nat n else k)%Z in
  if ((0 <=? j) && (j <? Z.of_nat n))%Z%bool then Some (Z.to_nat j) else None.

Definition replace_at (i : nat) (v : pyval) (l : list pyval) : list pyval := firstn i l ++ v :: skipn (S i) l.
Definition without (i : nat) (l : list pyval) : list pyval := firstn i l ++ skipn (S i) l.

(** position of the first element equal to [x] *)
Fixpoint find_eq (x : pyval) (l : list pyval) : option nat :=
  match l with
  | [] => None
  | y :: l' => if py_eq y x then Some 0 else match find_eq x l' with Some i => Some (S i) | None => None end
  end.

Inductive lop :=
| LSet (k : Z) (v : pyval)       (* l[k] = v; eulxml documents that k = len(l) appends *)
| LAppend (v : pyval)
| LExtend (vs : list pyval)
| LDel (k : Z)                   (* del l[k] *)
| LPop (k : option Z)
| LRemove (v : pyval).

(** new list and result; IndexError is [XIndex], ValueError is [XValue] *)
Definition py_op (o : lop) (l : list pyval) : list pyval * res (option pyval) :=
  match o with
  | LSet k v =>
    if (k =? Z.of_nat (length l))%Z then (l ++ [v], Ret None)
    else match at_index k (length l) with Some i => (replace_at i v l, Ret None) | None => (l, Exc XIndex) end
  | LAppend v => (l ++ [v], Ret None)
  | LExtend vs => (l ++ vs, Ret None)
  | LDel k => match at_index k (length l) with Some i => (without i l, Ret None) | None => (l, Exc XIndex) end
  | LPop k =>
    match at_index (match k with Some k => k | None => (-1)%Z end) (length l) with
    | Some i => (without i l, Ret (nth_error l i))
    | None => (l, Exc XIndex)
    end
  | LRemove x => match find_eq x l with Some i => (without i l, Ret None) | None => (l, Exc XValue) end
  end.

(** a history: final list and all results *)
Fixpoint py_ops (os : list lop) (l : list pyval) : list pyval * list (res (option pyval)) :=
  match os with
  | [] => (l, [])
  | o :: os' => let (l1, r) := py_op o l in let (l2, rs) := py_ops os' l1 in (l2, r :: rs)
  end.

(** the same history on the list field *)
Definition quiet {A} (m : M A) : M (option pyval) := bind m (fun _ => ret None).
Definition field_op (E : env) (e : expr) (m : mapper) (o : lop) : M (option pyval) :=
  match o with
  | LSet k v => quiet (list_setitem E e m k v)
  | LAppend v => quiet (list_append E e m v)
  | LExtend vs => quiet (list_extend E e m vs)
  | LDel k => quiet (list_delitem E e k)
  | LPop k => bind (list_pop E e m k) (fun v => ret (Some v))
  | LRemove x => quiet (list_remove E e m x)
  end.
Fixpoint field_ops (E : env) (e : expr) (m : mapper) (os : list lop) (d : node) : node * list (res (option pyval)) :=
  match os with
  | [] => (d, [])
  | o :: os' => let (d1, r) := field_op E e m o d in let (d2, rs) := field_ops E e m os' d1 in (d2, r :: rs)
  end.

(** Python's list.insert: the index is clamped *)
Definition py_insert (k : Z) (v : pyval) (l : list pyval) : list pyval :=
  let n := Z.of_nat (length l) in
  let j := (if k <? 0 then Z.max 0 (k + n) else Z.min k n)%Z in
  firstn (Z.to_nat j) l ++ v :: skipn (Z.to_nat j) l.

(** values a mapper writes as one XML string and reads back as they were *)
Definition storable (m : mapper) (v : pyval) : Prop :=
  exists s, to_xml m v = Ret (Some s) /\ xml_valid s = true /\
    forall q ats, to_python m (Some (InElem (Elem q ats (Some s) []))) = Ret v.
Definition op_values (o : lop) : list pyval :=
  match o with LSet _ v | LAppend v => [v] | LExtend vs => vs | _ => [] end.

(** ** What the statements require of a list field and a document *)
(** a supported path ending in a child element, whose elements can be created with any value *)
Definition list_field (E : env) (e : expr) : bool :=
  supported_path E e && is_KChild (lkind E e) && tame E xml_valid e && bare_end E e.
(** a path of one step *)
Definition one_step (e : expr) : bool := match e with EStep _ _ _ => true | _ => false end.
(** the document holds the values [vs]: the object's node is an element, the list reads as [vs], the
    listed elements have no child elements, and for a longer path the part before the last step has at
    most one match *)
Definition holds (E : env) (e : expr) (m : mapper) (d : node) (vs : list pyval) : Prop :=
  tag_of d <> None /\ list_data E e m d = Ret vs /\
  (forall a n, In (IElem a n) (selects E e d) -> kids_of n = []) /\
  match e with EBin l _ _ => length (selects E l d) <= 1 | _ => True end.

(** the children that a one-step list does not select, with the text after each *)
Definition picked (E : env) (e : expr) (d : node) (i : nat) : bool :=
  existsb (fun it => match it with IElem (j :: nil) _ => Nat.eqb i j | _ => false end) (selects E e d).
Definition others (E : env) (e : expr) (d : node) : list (node * option str) :=
  map snd (filter (fun x => negb (picked E e d (fst x))) (enum 0 (kids_of d))).
(** the object's node apart from the list *)
Definition own (d : node) := (tag_of d, attrs_of d, text_of d).

(** ... and for a longer path [l/r] of which [l] reaches one element: that element is still the one, it keeps everything but
    the children of the list, and the rest of the document is the same *)
Definition rest_kept (E : env) (l r : expr) (d d' : node) : Prop :=
  forall a n, selects E l d = [IElem a n] ->
  exists n', selects E l d' = [IElem a n'] /\ d' = upd_at a (fun _ => n') d /\ others E r n' = others E r n /\ own n' = own n.

(** values that are equal to themselves for Python: not NaN (and no raw items) *)
Definition comparable (v : pyval) : Prop := match v with PFloat None | PRaw _ => False | _ => True end.

(** ** whole histories (C57) *)
Inductive xop :=
| XOp (o : lop)
| XInsert (k : Z) (v : pyval)     (* l.insert(k, v) *)
| XAssign (us : list pyval)       (* obj.l = us *)
| XDelete.                        (* del obj.l *)
(** what Python's list does; except that an insertion past the end is an
    IndexError (Python clamps the index) *)
Definition py_xop (o : xop) (l : list pyval) : list pyval * res (option pyval) :=
  match o with
  | XOp o => py_op o l
  | XInsert k v => if (k <=? Z.of_nat (length l))%Z then (py_insert k v l, Ret None) else (l, Exc XIndex)
  | XAssign us => (us, Ret None)
  | XDelete => ([], Ret None)
  end.
Fixpoint py_xops (os : list xop) (l : list pyval) : list pyval * list (res (option pyval)) :=
  match os with
  | [] => (l, [])
  | o :: os' => let (l1, r) := py_xop o l in let (l2, rs) := py_xops os' l1 in (l2, r :: rs)
  end.
Definition field_xop (E : env) (e : expr) (m : mapper) (o : xop) : M (option pyval) :=
  match o with
  | XOp o => field_op E e m o
  | XInsert k v => quiet (list_insert E e m k v)
  | XAssign us => quiet (lmgr_set E e m us)
  | XDelete => quiet (lmgr_delete E e m)
  end.
Fixpoint field_xops (E : env) (e : expr) (m : mapper) (os : list xop) (d : node) : node * list (res (option pyval)) :=
  match os with
  | [] => (d, [])
  | o :: os' => let (d1, r) := field_xop E e m o d in let (d2, rs) := field_xops E e m os' d1 in (d2, r :: rs)
  end.
Definition xop_values (o : xop) : list pyval :=
  match o with XOp o => op_values o | XInsert _ v => [v] | XAssign us => us | XDelete => [] end.
Definition nonneg_insert (o : xop) : Prop := match o with XInsert k _ => (0 <= k)%Z | _ => True end.
