(** Model of how a form makes its subforms and formsets: XmlObjectForm.__init__, _init_subforms, _init_formsets
    (eulxml/forms/xmlobject.py:469-551), BaseXmlObjectFormSet.__init__ and _construct_form (:797-812), ListFieldForm.__init__ (:884-888),
    BaseXmlObjectListFieldFormSet.__init__, initial_form_count, _construct_form (:904-921), the formset options
    (:94-97, 247-268, 376-390, 751-794, 865-875), on top of Django's BaseFormSet (Django 1.8 to 3.2: add_prefix, management form,
    initial_form_count, total_form_count, add_fields).
    SIMPLIFICATIONS: a submission always has a management form for every formset (Django raises or reports an error otherwise), given by
    its two counts; the schema is available (xmlschema, C36); [initial] data is C41; getattr on the instance does not fail. *)
From Coq Require Import String List Arith ZArith NArith Bool.
From Verif Require Import PyStr Classes FieldLists.
Import ListNotations.

(** ** options of formsets *)
(** what formset_factory gets (forms/xmlobject.py:251-253) *)
Record fopts := mkFO { fo_max : option Z; fo_extra : Z; fo_delete : bool; fo_order : bool }.
(** the attributes of one inner class Meta that concern formsets *)
Record mattrs := mkMA { ma_max : option (option Z); ma_extra : option Z; ma_delete : option bool; ma_order : option bool }.
(** a Meta class is given by its method resolution order; getattr finds the first *)
Fixpoint meta_attr {A} (get : mattrs -> option A) (mro : list mattrs) : option A :=
  match mro with [] => None | m :: r => match get m with Some x => Some x | None => meta_attr get r end end.
Definition or_default {A} (d : A) (o : option A) : A := match o with Some x => x | None => d end.
(** forms/xmlobject.py:94-97 *)
Definition meta_options (mro : list mattrs) : fopts :=
  mkFO (or_default None (meta_attr ma_max mro)) (or_default 1%Z (meta_attr ma_extra mro)) (or_default true (meta_attr ma_delete mro)) (or_default false (meta_attr ma_order mro)).
(** the arguments of xmlobjectform_factory (forms/xmlobject.py:751-753): [None] is Python's None *)
Record fargs := mkFA { fa_max : option Z; fa_extra : option Z; fa_delete : option bool; fa_order : option bool }.
Definition no_args : fargs := mkFA None None (Some true) (Some false).
(** forms/xmlobject.py:760-781: the Meta of the new class; [parent] is the Meta of the form class it extends, [] if that has none *)
Definition factory_meta (a : fargs) (parent : list mattrs) : list mattrs :=
  mkMA (option_map (@Some Z) (fa_max a)) (fa_extra a) (fa_delete a) (fa_order a) :: parent.
(** SubformField (forms/xmlobject.py:865-875): the class and the two options it takes *)
Record subformfield := mkSFF { sff_meta : list mattrs; sff_delete : bool; sff_order : bool }.
(** forms/xmlobject.py:376-381, 229-253: the options of the formset for a NodeListField: of the declared form class, or of the class
    that xmlobjectform_factory makes from the field *)
Definition nodelist_options (declared : option subformfield) : fopts :=
  match declared with Some sf => meta_options (sff_meta sf) | None => meta_options (factory_meta no_args []) end.

(** ** Django's formset_factory and BaseFormSet *)
Definition default_max_num : Z := 1000.
Definition max_num (o : fopts) : Z := or_default default_max_num (fo_max o).
Definition absolute_max (o : fopts) : Z := (max_num o + default_max_num)%Z.
(** counts of a management form: TOTAL_FORMS, INITIAL_FORMS *)
Definition counts : Type := (Z * Z)%type.
(** the submitted management forms by prefix; None: no data, the form is not bound *)
Definition submitted : Type := option (str -> counts).
(** total_form_count; [n] is initial_form_count when not bound.  min_num is 0. *)
Definition total_count (b : submitted) (o : fopts) (p : str) (n : Z) : Z :=
  match b with
  | Some m => Z.min (fst (m p)) (absolute_max o)
  | None =>
    let total := (Z.max n 0 + fo_extra o)%Z in
    if (n >? max_num o)%Z && (max_num o >=? 0)%Z then n
    else if (total >? max_num o)%Z && (max_num o >=? 0)%Z then max_num o
    else total
  end.
(** full_clean: more forms than absolute_max is an error of the formset *)
Definition too_many (b : submitted) (o : fopts) (p : str) : bool :=
  match b with Some m => (fst (m p) >? absolute_max o)%Z | None => false end.

(** ** form classes: names of the form fields, subforms (forms/xmlobject.py:403), formsets (:406) *)
Inductive fclass := FClass (fields : list str) (subs : list (str * fclass)) (sets : list (str * fsclass))
with fsclass := NodeSet (f : fclass) (o : fopts) | ValueSet.
(** the options of the formset of a list of values (forms/xmlobject.py:267) *)
Definition value_options : fopts := mkFO None 1 false false.

Section Init.
Context {V : Type}.
(** an object: [who] tells it from other objects, None if the form created it; its node fields that are there, its node lists, its lists
    of values *)
Inductive inst := Inst (who : option nat) (subs : list (str * inst)) (nodes : list (str * list inst)) (vals : list (str * list V)).
(** opts.model() (forms/xmlobject.py:480) and what create_<field> makes (:513) *)
Definition blank : inst := Inst None [] [] [].
(** forms/xmlobject.py:513-514 *)
Definition sub_of (o : inst) (n : str) : inst := match o with Inst _ subs _ _ => or_default blank (dget n subs) end.
(** forms/xmlobject.py:541 *)
Definition nodes_of (o : inst) (n : str) : list inst := match o with Inst _ _ nodes _ => or_default [] (dget n nodes) end.
Definition vals_of (o : inst) (n : str) : list V := match o with Inst _ _ _ vals => or_default [] (dget n vals) end.

Inductive form := Form (prefix : option str) (instance : inst) (inputs : list str) (subs : list (str * form)) (sets : list (str * formset))
with formset :=
| NodeForms (prefix : str) (initial total maxn : Z) (forms : list form)
| ValueForms (prefix : str) (initial total maxn : Z) (vals : list (option V)).   (* one form with the input [val] each *)

(** forms/xmlobject.py:518-521 *)
Definition sub_prefix (prefix : option str) (n : str) : str := match prefix with Some (c :: p) => (c :: p) ++ [ch "-"] ++ n | _ => n end.
(** forms/xmlobject.py:545-548 *)
Definition set_prefix (prefix : option str) (n : str) : str := match prefix with Some p => p ++ [ch "-"] ++ n | None => n end.
(** BaseFormSet.add_prefix *)
Definition form_prefix (p : str) (i : nat) : str := p ++ [ch "-"] ++ str_of_N (N.of_nat i).
(** BaseFormSet.add_fields: [form.fields[...] = ...] *)
Definition add_key (k : str) (l : list str) : list str := if str_mem k l then l else l ++ [k].
Definition formset_fields (o : fopts) (l : list str) : list str :=
  let l := if fo_order o then add_key (u "ORDER") l else l in if fo_delete o then add_key (u "DELETE") l else l.
(** BaseXmlObjectFormSet.initial_form_count is Django's: INITIAL_FORMS of the submission, else the length of [initial], which is the
    length of the list (forms/xmlobject.py:799-802) *)
Definition node_initial (b : submitted) (p : str) (n : nat) : Z := match b with Some m => snd (m p) | None => Z.of_nat n end.

(** forms/xmlobject.py:469-551.  [more o] adds the inputs of the formset the form is in. *)
Fixpoint make (c : fclass) (b : submitted) (more : list str -> list str) (prefix : option str) (o : inst) {struct c} : form :=
  match c with
  | FClass fields subs sets =>
    Form prefix o (more fields)
      ((fix go l := match l with [] => [] | (n, c') :: r => (n, make c' b (fun l => l) (Some (sub_prefix prefix n)) (sub_of o n)) :: go r end) subs)
      ((fix go l := match l with [] => [] | (n, s) :: r => (n, make_set s b (set_prefix prefix n) (nodes_of o n) (vals_of o n)) :: go r end) sets)
  end
with make_set (s : fsclass) (b : submitted) (p : str) (nodes : list inst) (vals : list V) {struct s} : formset :=
  match s with
  | NodeSet c op =>
    (* forms/xmlobject.py:797-812; Django makes one form for each i in range(total_form_count()) *)
    let total := total_count b op p (Z.of_nat (List.length nodes)) in
    NodeForms p (node_initial b p (List.length nodes)) total (max_num op)
      (map (fun i => make c b (formset_fields op) (Some (form_prefix p i)) (or_default blank (nth_error nodes i))) (seq 0 (Z.to_nat total)))
  | ValueSet =>
    (* forms/xmlobject.py:904-921: initial_form_count is the length of the list, bound or not *)
    let n := Z.of_nat (List.length vals) in
    let total := total_count b value_options p n in
    ValueForms p n total (max_num value_options) (map (fun i => nth_error vals i) (seq 0 (Z.to_nat total)))
  end.

(** ** the names of the inputs in the page *)
(** BaseForm.add_prefix *)
Definition add_prefix (prefix : option str) (x : str) : str := match prefix with Some (c :: p) => (c :: p) ++ [ch "-"] ++ x | _ => x end.
Definition management : list str := [u "TOTAL_FORMS"; u "INITIAL_FORMS"; u "MIN_NUM_FORMS"; u "MAX_NUM_FORMS"].
(** the management forms of the page: prefix, TOTAL_FORMS and INITIAL_FORMS, MAX_NUM_FORMS *)
Fixpoint pages (f : form) : list (str * counts * Z) :=
  match f with Form _ _ _ subs sets => flat_map (fun nf => pages (snd nf)) subs ++ flat_map (fun ns => set_pages (snd ns)) sets end
with set_pages (s : formset) : list (str * counts * Z) :=
  match s with
  | NodeForms p i t mx fs => (p, (t, i), mx) :: flat_map pages fs
  | ValueForms p i t mx _ => [(p, (t, i), mx)]
  end.
End Init.
Arguments inst : clear implicits. Arguments form : clear implicits. Arguments formset : clear implicits.
