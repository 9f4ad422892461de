(** Model of class creation: XmlObjectType.__new__ (eulxml/xmlmap/core.py:134-235), _FieldDescriptor
    (core.py:116-131), Field/SchemaField objects (fields.py:41-87, 1156-1221), XsdType/XsdSchema
    (core.py:646-679), together with Python's own method resolution order, which decides what attribute
    access finds. *)
From Coq Require Import String List Arith NArith.
From Verif Require Import PyStr.
Import ListNotations.

(** ** Python dictionaries with string keys: insertion order, one entry per key *)
Section Dict.
  Context {A : Type}.
  Fixpoint dget (k : str) (d : list (str * A)) : option A :=
    match d with [] => None | (k', v) :: r => if str_eqb k' k then Some v else dget k r end.
  Fixpoint dset (k : str) (v : A) (d : list (str * A)) : list (str * A) :=
    match d with [] => [(k, v)] | (k', v') :: r => if str_eqb k' k then (k', v) :: r else (k', v') :: dset k v r end.
  (** [d.update(e)] *)
  Definition dupdate (d e : list (str * A)) : list (str * A) := fold_left (fun acc kv => dset (fst kv) (snd kv) acc) e d.
End Dict.

(** ** Field objects *)
Inductive fclass := FcString | FcSchema | FcNode | FcNodeList | FcOther.
(** [getattr(field, 'node_class', None)]: absent, a string, or a class (its index) *)
Inductive nclass := NcNone | NcName (s : str) | NcClass (c : nat).
Record field := mkField {
  f_class : fclass; f_xpath : str; f_required : option bool; f_verbose : option str; f_help : option str;
  f_choices : option (list str); f_schema_type : str; f_nclass : nclass; f_counter : nat }.

(** NodeField has create_for_node (fields.py:1114-1115); NodeListField has not (fields.py:1118-1142) *)
Definition has_create (f : field) : bool := match f_class f with FcNode => true | _ => false end.

(** ** Schemas: the elements with a name attribute, in document order, each with xs:restriction/@base and
    xs:restriction/xs:enumeration/@value (core.py:648-650) *)
Record xsd_type := mkXsd { x_name : str; x_base : option str; x_values : list str }.
Definition schema := list xsd_type.

Inductive cexn :=
| CNoType | CManyTypes     (* Exception, core.py:674-678 *)
| CBaseNone                (* TypeError: argument of type 'NoneType' is not iterable, core.py:655 *)
| CManyColons              (* ValueError: too many values to unpack, core.py:656 *)
| CBaseUnsupported         (* Exception, fields.py:1221 *)
| CNoSchemaFile            (* IOError etc. from load_xmlobject_from_file *)
| CNodeClass               (* ValueError, core.py:199-205 *)
| CMro                     (* TypeError: no consistent method resolution order *)
| CAssert                  (* AssertionError, core.py:225 *)
| CBadRef.                 (* the model was given an index that does not exist *)
Inductive cres (A : Type) := Good (x : A) | Bad (e : cexn).
Arguments Good {A} _. Arguments Bad {A} _.

(** core.py:667-679, called with a name *)
Definition get_type (s : schema) (name : str) : cres xsd_type :=
  match filter (fun x => str_eqb (x_name x) name) s with
  | [] => Bad CNoType
  | [x] => Good x
  | _ => Bad CManyTypes
  end.

(** str.split(':') *)
Fixpoint split_on (c : N) (s : str) : list str :=
  match s with
  | [] => [[]]
  | x :: r => if N.eqb x c then [] :: split_on c r
              else match split_on c r with w :: ws => (x :: w) :: ws | [] => [[x]] end
  end.

(** core.py:652-659 *)
Definition base_type (x : xsd_type) : cres str :=
  match x_base x with
  | None => Bad CBaseNone
  | Some b => match split_on (ch ":") b with
              | [_] => Good b
              | [_; t] => Good t
              | _ => Bad CManyColons
              end
  end.

(** list.remove: the first occurrence *)
Fixpoint remove_first (x : str) (l : list str) : list str :=
  match l with [] => [] | y :: r => if str_eqb y x then r else y :: remove_first x r end.

(** SchemaField.get_field (fields.py:1187-1221).  StringField(xpath, required=..., choices=...)
    (fields.py:853-873) gets no verbose_name and no help_text. *)
Definition get_field (sf : field) (s : schema) : cres field :=
  match get_type s (f_schema_type sf) with
  | Bad e => Bad e
  | Good t =>
    match base_type t with
    | Bad e => Bad e
    | Good b =>
      let choices :=
        match x_values t with
        | [] => None
        | vs => Some ([] :: (if str_mem [] vs then remove_first [] vs else vs))
        end in
      if str_eqb b (u "string") then
        Good (mkField FcString (f_xpath sf) (f_required sf) None None choices [] NcNone (f_counter sf))
      else Bad CBaseUnsupported
    end
  end.

(** ** Classes *)
(** an attribute of a class: a field (by reference; what the class holds is its _FieldDescriptor), a Field
    object left as it is (in a class XmlObjectType did not make), a create_<field> method, the XSD_SCHEMA
    string or None, or anything else *)
Inductive attr := AField (f : nat) | ARaw (f : nat) | ACreate (f : nat) | AXsd (uri : option str) | AOther.
Record cls := mkCls {
  c_name : str; c_bases : list nat; c_dict : list (str * attr);
  c_fields : option (list (str * nat));    (* _fields; None for a class not made by XmlObjectType *)
  c_mro : list nat }.

Record world := mkWorld { w_fields : list field; w_classes : list cls }.
Definition w0 : world := mkWorld [] [].

(** Python's C3 linearisation (typeobject.c mro_implementation) *)
Definition in_tails (x : nat) (ls : list (list nat)) : bool := existsb (fun l => existsb (Nat.eqb x) (tl l)) ls.
Fixpoint pick (cands ls : list (list nat)) : option nat :=
  match cands with
  | [] => None
  | [] :: r => pick r ls
  | (x :: _) :: r => if in_tails x ls then pick r ls else Some x
  end.
Definition drop_head (x : nat) (l : list nat) : list nat :=
  match l with y :: r => if Nat.eqb y x then r else l | [] => [] end.
Fixpoint merge (fuel : nat) (ls : list (list nat)) : option (list nat) :=
  if forallb (fun l => match l with [] => true | _ => false end) ls then Some []
  else match fuel with
       | O => None
       | S g => match pick ls ls with
                | None => None
                | Some x => option_map (cons x) (merge g (map (drop_head x) ls))
                end
       end.
Definition total (ls : list (list nat)) : nat := fold_right (fun l a => length l + a) 0 ls.
Definition mro_of (w : world) (bases : list nat) : list (list nat) :=
  map (fun b => match nth_error (w_classes w) b with Some c => c_mro c | None => [] end) bases.
Definition linearise (w : world) (self : nat) (bases : list nat) : option (list nat) :=
  let ls := mro_of w bases ++ [bases] in option_map (cons self) (merge (total ls) ls).

(** attribute lookup on a class (and, for the names here, on its instances): the first class of the method
    resolution order that has the name *)
Fixpoint first_in (w : world) (n : str) (l : list nat) : option attr :=
  match l with
  | [] => None
  | c :: r => match nth_error (w_classes w) c with
              | Some k => match dget n (c_dict k) with Some a => Some a | None => first_in w n r end
              | None => first_in w n r
              end
  end.
Definition lookup (w : world) (c : nat) (n : str) : option attr :=
  match nth_error (w_classes w) c with Some k => first_in w n (c_mro k) | None => None end.

(** ** XmlObjectType.__new__ *)
(** core.py:163-167: [fields.update] for every base in turn; base_xsd ends up being the last base's *)
Definition inherited_fields (w : world) (bases : list nat) : list (str * nat) :=
  fold_left (fun acc b => match nth_error (w_classes w) b with
                          | Some k => match c_fields k with Some fs => dupdate acc fs | None => acc end
                          | None => acc
                          end) bases [].
Definition base_xsd (w : world) (bases : list nat) : option str :=
  fold_left (fun _ b => match lookup w b (u "XSD_SCHEMA") with Some (AXsd (Some x)) => Some x | _ => None end) bases None.

Definition create_name (n : str) : str := u "create_" ++ n.

Record building := mkB { b_use : list (str * attr); b_fields : list (str * nat); b_rec : list nat; b_heap : list field }.

(** core.py:175-188: which schema a SchemaField looks at; [files] is what loading a schema file yields *)
Definition schema_for (files : str -> option schema) (attrs : list (str * attr)) (bxsd : option str) : cres (option schema) :=
  match dget (u "XSD_SCHEMA") attrs with
  | Some (AXsd (Some x)) => match files x with Some s => Good (Some s) | None => Bad CNoSchemaFile end
  | Some _ => Bad CNoSchemaFile
  | None => match bxsd with
            | Some x => match files x with Some s => Good (Some s) | None => Bad CNoSchemaFile end
            | None => Good None
            end
  end.

(** core.py:171-217, the body of the loop over defined_attrs *)
Definition add_attr (files : str -> option schema) (name : str) (attrs : list (str * attr)) (bxsd : option str)
    (b : building) (na : str * attr) : cres building :=
  let (n, a) := na in
  match a with
  | AField f0 =>
    match nth_error (b_heap b) f0 with
    | None => Bad CBadRef
    | Some fo0 =>
      let resolved : cres (nat * list field) :=
        match f_class fo0 with
        | FcSchema =>
          match schema_for files attrs bxsd with
          | Bad e => Bad e
          | Good None => Good (f0, b_heap b)
          | Good (Some s) => match get_field fo0 s with
                             | Bad e => Bad e
                             | Good nf => Good (length (b_heap b), b_heap b ++ [nf])
                             end
          end
        | _ => Good (f0, b_heap b)
        end in
      match resolved with
      | Bad e => Bad e
      | Good (f, heap) =>
        match nth_error heap f with
        | None => Bad CBadRef
        | Some fo =>
          let use1 := dset n (AField f) (b_use b) in
          let fields1 := dset n f (b_fields b) in
          let use2 := if has_create fo then dset (create_name n) (ACreate f) use1 else use1 in
          match f_nclass fo with
          | NcName s => if str_eqb s (u "self") || str_eqb s name then Good (mkB use2 fields1 (b_rec b ++ [f]) heap)
                        else Bad CNodeClass
          | _ => Good (mkB use2 fields1 (b_rec b) heap)
          end
        end
      end
    end
  | _ => Good (mkB (dset n a (b_use b)) (b_fields b) (b_rec b) (b_heap b))
  end.
Fixpoint add_attrs (files : str -> option schema) (name : str) (attrs : list (str * attr)) (bxsd : option str)
    (todo : list (str * attr)) (b : building) : cres building :=
  match todo with
  | [] => Good b
  | na :: r => match add_attr files name attrs bxsd b na with Good b' => add_attrs files name attrs bxsd r b' | Bad e => Bad e end
  end.

Definition set_nclass (f : field) (c : nat) : field :=
  mkField (f_class f) (f_xpath f) (f_required f) (f_verbose f) (f_help f) (f_choices f) (f_schema_type f) (NcClass c) (f_counter f).
Fixpoint update_nth {A} (i : nat) (g : A -> A) (l : list A) : list A :=
  match l, i with
  | [], _ => []
  | x :: r, O => g x :: r
  | x :: r, S j => x :: update_nth j g r
  end.

(** core.py:222-226: patch the self-referential fields *)
Fixpoint patch (name : str) (c : nat) (fs : list nat) (heap : list field) : cres (list field) :=
  match fs with
  | [] => Good heap
  | f :: r => match nth_error heap f with
              | None => Bad CBadRef
              | Some fo => match f_nclass fo with
                           | NcName s => if str_eqb s (u "self") || str_eqb s name then patch name c r (update_nth f (fun x => set_nclass x c) heap)
                                         else Bad CAssert
                           | _ => Bad CAssert
                           end
              end
  end.

(** A class statement: class [name]([bases]): [attrs].  A failing one leaves no class behind (fields patched
    or made before the failure stay, but nothing refers to them through a class). *)
Definition define (files : str -> option schema) (w : world) (name : str) (bases : list nat) (attrs : list (str * attr)) : cres world :=
  if negb (forallb (fun b => b <? length (w_classes w)) bases) then Bad CBadRef else
  match add_attrs files name attrs (base_xsd w bases) attrs (mkB [] (inherited_fields w bases) [] (w_fields w)) with
  | Bad e => Bad e
  | Good b =>
    let c := length (w_classes w) in
    match linearise w c bases with
    | None => Bad CMro
    | Some l =>
      match patch name c (b_rec b) (b_heap b) with
      | Bad e => Bad e
      | Good heap => Good (mkWorld heap (w_classes w ++ [mkCls name bases (dset (u "_fields") AOther (b_use b)) (Some (b_fields b)) l]))
      end
    end
  end.
(** a class statement none of whose bases is an XmlObject class (a mixin): plain Python, so a Field in it
    stays a plain attribute *)
Definition is_plain (w : world) (b : nat) : bool :=
  match nth_error (w_classes w) b with Some k => match c_fields k with None => true | Some _ => false end | None => false end.
Definition raw_attr (na : str * attr) : str * attr := match na with (n, AField f) => (n, ARaw f) | _ => na end.
Definition define_plain (w : world) (name : str) (bases : list nat) (attrs : list (str * attr)) : cres world :=
  if negb (forallb (is_plain w) bases) then Bad CBadRef else
  match linearise w (length (w_classes w)) bases with
  | None => Bad CMro
  | Some l => Good (mkWorld (w_fields w) (w_classes w ++ [mkCls name bases (map raw_attr attrs) None l]))
  end.
(** [Field(...)]: the counter counts field objects (fields.py:70-72) *)
Definition set_counter (f : field) (c : nat) : field :=
  mkField (f_class f) (f_xpath f) (f_required f) (f_verbose f) (f_help f) (f_choices f) (f_schema_type f) (f_nclass f) c.
Definition new_field (w : world) (f : field) : world :=
  mkWorld (w_fields w ++ [set_counter f (length (w_fields w))]) (w_classes w).

(** A program: field creations and class statements in any order; a statement that raises changes nothing
    (the exception is caught). *)
Inductive stmt :=
| SField (f : field)
| SClass (name : str) (bases : list nat) (attrs : list (str * attr))
| SPlain (name : str) (bases : list nat) (attrs : list (str * attr)).
Definition run1 (files : str -> option schema) (w : world) (s : stmt) : world :=
  match s with
  | SField f => new_field w f
  | SClass n bs attrs => match define files w n bs attrs with Good w' => w' | Bad _ => w end
  | SPlain n bs attrs => match define_plain w n bs attrs with Good w' => w' | Bad _ => w end
  end.
Definition run (files : str -> option schema) (p : list stmt) : world := fold_left (run1 files) p w0.
