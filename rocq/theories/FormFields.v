(** Model of form class creation: SubformAwareModelFormOptions, formfields_for_xmlobject, XmlObjectFormType
    (its use of them) and xmlobjectform_factory (eulxml/forms/xmlobject.py:85-314, 356-424, 751-794).
    Not modelled: widgets, help texts beyond being passed on, labels of subforms, max_num/extra/can_delete. *)
From Coq Require Import String List Arith NArith Bool.
From Verif Require Import PyStr Classes FieldLists.
Import ListNotations.

(** ** XmlObject classes as forms see them: [model._fields], each field with its type *)
Inductive mkind := KString | KInt | KDate | KBool | KNode (c : nat) | KNodeList (c : nat) | KStringList | KIntList | KOther.
Record mfield := mkM { m_kind : mkind; m_choices : option (list str); m_required : option bool;
  m_verbose : option str; m_help : option str; m_counter : nat }.
(** node_class of a field is a class number *)
Definition models := nat -> list (str * mfield).

(** ** generated form classes *)
Inductive fftype := TChoice (choices : list str) | TChar | TInt | TDate | TBool.
(** label: the verbose name, or made from the field name by fieldname_to_label (forms/xmlobject.py:37-41) *)
Inductive fflabel := LVerbose (s : str) | LFromName (n : str).
Record ffield := mkFF { ff_type : fftype; ff_required : option bool; ff_label : fflabel; ff_help : option str }.
Inductive fform := FForm (fields : list (str * ffield)) (subforms : list (str * fform)) (formsets : list (str * fset))
with fset := SNode (f : fform) | SStrings | SInts.
Definition g_fields (f : fform) := match f with FForm a _ _ => a end.
Definition g_subs (f : fform) := match f with FForm _ b _ => b end.
Definition g_sets (f : fform) := match f with FForm _ _ c => c end.

Inductive fexn :=
| EUnsupported (name : str)   (* Exception, forms/xmlobject.py:275-279 *)
| EDeclaredNone               (* TypeError: argument of type 'NoneType' is not iterable, :230 *)
| EIterate                    (* TypeError: 'ParsedFieldList' object is not iterable, :56 *)
| ERecursion.                 (* RecursionError *)
Inductive fres (A : Type) := FOk (x : A) | FErr (e : fexn).
Arguments FOk {A} _. Arguments FErr {A} _.

(** what one model field contributes to the form *)
Inductive contr := CField (f : ffield) | CSub (f : fform) | CSet (s : fset).

(** ParsedFieldList has no __bool__ or __len__: it is true *)
Definition included (fl : option pfl) (n : str) : bool := match fl with Some t => str_mem n (p_fields t) | None => true end.
Definition excluded (el : option pfl) (n : str) : bool := match el with Some t => str_mem n (p_fields t) | None => false end.
(** forms/xmlobject.py:237-238: [fieldlist.subfields[name] if fieldlist and name in fieldlist.subfields else None] *)
Definition sub_list (fl : option pfl) (n : str) : option pfl := match fl with Some t => dget n (p_subs t) | None => None end.

(** forms/xmlobject.py:186-279.  [build] makes the form class for a node class (xmlobjectform_factory). *)
Definition plain_field (n : str) (m : mfield) (t : fftype) (req : option bool) : contr :=
  CField (mkFF t req (match m_verbose m with Some v => LVerbose v | None => LFromName n end) (m_help m)).
Definition sub_form (build : nat -> option pfl -> option pfl -> fres fform) (declared : option (list (str * fform)))
    (fl el : option pfl) (n : str) (c : nat) : fres fform :=
  match declared with
  | None => FErr EDeclaredNone
  | Some ds => match dget n ds with
               | Some f => FOk f
               | None => build c (sub_list fl n) (sub_list el n)
               end
  end.
Definition contribute (build : nat -> option pfl -> option pfl -> fres fform) (declared : option (list (str * fform)))
    (fl el : option pfl) (n : str) (m : mfield) : fres contr :=
  match m_choices m with
  | Some (c0 :: cs) =>
    let choices := c0 :: cs in
    let blank := match m_required m with Some false => negb (str_mem [] choices) | _ => false end in
    FOk (plain_field n m (TChoice (if blank then [] :: choices else choices)) (m_required m))
  | _ =>
    match m_kind m with
    | KString => FOk (plain_field n m TChar (m_required m))
    | KInt => FOk (plain_field n m TInt (m_required m))
    | KDate => FOk (plain_field n m TDate (m_required m))
    | KBool => FOk (plain_field n m TBool (Some false))
    | KNode c => match sub_form build declared fl el n c with FOk f => FOk (CSub f) | FErr e => FErr e end
    | KNodeList c => match sub_form build declared fl el n c with FOk f => FOk (CSet (SNode f)) | FErr e => FErr e end
    | KStringList => FOk (CSet SStrings)
    | KIntList => FOk (CSet SInts)
    | KOther => FErr (EUnsupported n)
    end
  end.

(** the dictionaries built by the loop (forms/xmlobject.py:167-172) *)
Record facc := mkAcc { a_fields : list (str * ffield); a_subs : list (str * fform); a_sets : list (str * fset); a_order : list (nat * str) }.
(** [field_order[field.creation_counter] = name] *)
Fixpoint oset (k : nat) (n : str) (d : list (nat * str)) : list (nat * str) :=
  match d with [] => [(k, n)] | (k', n') :: r => if k' =? k then (k', n) :: r else (k', n') :: oset k n r end.
Definition store (a : facc) (n : str) (m : mfield) (c : contr) : facc :=
  let o := oset (m_counter m) n (a_order a) in
  match c with
  | CField f => mkAcc (dset n f (a_fields a)) (a_subs a) (a_sets a) o
  | CSub f => mkAcc (a_fields a) (dset n f (a_subs a)) (a_sets a) o
  | CSet s => mkAcc (a_fields a) (a_subs a) (dset n s (a_sets a)) o
  end.
(** forms/xmlobject.py:174-287 *)
Fixpoint loop (build : nat -> option pfl -> option pfl -> fres fform) (declared : option (list (str * fform)))
    (fl el : option pfl) (fs : list (str * mfield)) (a : facc) : fres facc :=
  match fs with
  | [] => FOk a
  | (n, m) :: r =>
    if negb (included fl n) then loop build declared fl el r a
    else if excluded el n then loop build declared fl el r a
    else match contribute build declared fl el n m with
         | FErr e => FErr e
         | FOk c => loop build declared fl el r (store a n m c)
         end
  end.

(** [sorted(field_order.keys())], with the names *)
Fixpoint insert_key (x : nat * str) (l : list (nat * str)) : list (nat * str) :=
  match l with [] => [x] | y :: r => if fst x <=? fst y then x :: l else y :: insert_key x r end.
Definition sort_keys (l : list (nat * str)) : list (nat * str) := fold_right insert_key [] l.
(** [SortedDict((name, d[name]) for name in names if name in d)] *)
Definition ordered {A} (names : list str) (d : list (str * A)) : list (str * A) :=
  dupdate [] (flat_map (fun n => match dget n d with Some v => [(n, v)] | None => [] end) names).
(** forms/xmlobject.py:289-314 *)
Definition finish (fl : option pfl) (a : facc) : fform :=
  let names := match fl with Some t => p_fields t | None => map snd (sort_keys (a_order a)) end in
  FForm (ordered names (a_fields a)) (ordered names (a_subs a)) (ordered names (a_sets a)).

(** formfields_for_xmlobject once the lists are known; a generated subform class has no declared subforms
    (xmlobjectform_factory, forms/xmlobject.py:751-794, makes a class whose Meta holds the sub-lists, which
    SubformAwareModelFormOptions takes as they are, :99-109).  [fuel]: the depth Python's stack allows. *)
Fixpoint form_for (fuel : nat) (M : models) (declared : option (list (str * fform))) (fl el : option pfl) (c : nat) : fres fform :=
  match fuel with
  | O => FErr ERecursion
  | S g => match loop (fun c' fl' el' => form_for g M (Some []) fl' el' c') declared fl el (M c) (mkAcc [] [] [] []) with
           | FErr e => FErr e
           | FOk a => FOk (finish fl a)
           end
  end.

(** ** arguments *)
Inductive larg := ANone | ANames (l : list str) | AParsed (t : pfl).
Record fopts := mkOpts { o_fields : option pfl; o_exclude : option pfl }.
(** SubformAwareModelFormOptions (forms/xmlobject.py:99-109) *)
Definition options_of (fields exclude : larg) : fopts :=
  mkOpts (match fields with ANone => None | ANames l => Some (parse_field_list l true) | AParsed t => Some t end)
         (match exclude with ANone => None | ANames l => Some (parse_field_list l false) | AParsed t => Some t end).
(** forms/xmlobject.py:147-159 *)
Definition formfields_for_xmlobject (fuel : nat) (M : models) (c : nat) (fields exclude : larg) (options : option fopts)
    (declared : option (list (str * fform))) : fres fform :=
  let ofl := match options with Some o => o_fields o | None => None end in
  let oel := match options with Some o => o_exclude o | None => None end in
  let fl := match fields with AParsed t => Some t | ANames l => Some (parse_field_list l true) | ANone => ofl end in
  let el := match fields with
            | AParsed _ => FOk oel
            | _ => match exclude with
                   | ANone => FOk oel
                   | ANames l => FOk (Some (parse_field_list l false))
                   | AParsed _ => FErr EIterate
                   end
            end in
  match el with FErr e => FErr e | FOk el => form_for fuel M declared fl el c end.
(** class creation with Meta.model, Meta.fields, Meta.exclude, declared fields and declared subforms
    (forms/xmlobject.py:367-424) *)
Definition form_class (fuel : nat) (M : models) (c : nat) (fields exclude : larg) (declared_fields : list (str * ffield))
    (declared_subforms : list (str * fform)) : fres fform :=
  match formfields_for_xmlobject fuel M c ANone ANone (Some (options_of fields exclude)) (Some declared_subforms) with
  | FErr e => FErr e
  | FOk f => FOk (FForm (dupdate (g_fields f) declared_fields) (g_subs f) (g_sets f))
  end.
