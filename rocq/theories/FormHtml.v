(** Model of the HTML output of XmlObjectForm (eulxml/forms/xmlobject.py:656-748) and of the labels of subforms and
    formsets (:37-41, :225-270, :376-388, :413-414, :525-533, :680-685, :791, :869-870).
    SIMPLIFICATIONS: the HTML Django makes for the fields of one form (BaseForm._html_output) and for a management form are
    inputs; [capitalize] (str.capitalize) is a parameter, and blanks are those of ASCII. *)
From Coq Require Import String List Arith NArith Bool.
From Verif Require Import PyStr.
Import ListNotations.

(** as_table, as_p and as_ul *)
Inductive fmt := AsTable | AsP | AsUl.

(** ** labels *)
Section Html.
Context (capitalize : str -> str).
Definition is_blank_char (c : N) : bool := N.eqb c 32 || (N.leb 9 c && N.leb c 13) || (N.leb 28 c && N.leb c 31).
(** str.split() *)
Fixpoint words_from (cur : str) (s : str) : list str :=
  match s with
  | [] => match cur with [] => [] | _ => [rev cur] end
  | c :: r => if is_blank_char c then (match cur with [] => words_from [] r | _ => rev cur :: words_from [] r end) else words_from (c :: cur) r
  end.
Definition split_words (s : str) : list str := words_from [] s.
Fixpoint join_with (sep : str) (l : list str) : str :=
  match l with [] => [] | [x] => x | x :: r => x ++ sep ++ join_with sep r end.
(** string.capwords *)
Definition capwords (s : str) : str := join_with (u " ") (map capitalize (split_words s)).
(** forms/xmlobject.py:37-41 *)
Definition fieldname_to_label (s : str) : str := capwords (map (fun c => if N.eqb c 95 then 32%N else c) s).

(** how a NodeField or NodeListField gets its form class: the label of a declared SubformField, if it has one, and form_label of
    the form class it names *)
Inductive how := Generated | Declared (field_label class_label : option str).
(** forms/xmlobject.py:225 *)
Definition field_label (name : str) (verbose : option str) : str := match verbose with Some v => v | None => fieldname_to_label name end.
(** form_label of a form made from the form class (forms/xmlobject.py:240, 791, 464) *)
Definition class_label_of (name : str) (verbose : option str) (h : how) : option str :=
  match h with Generated => Some (field_label name verbose) | Declared _ c => c end.
(** subform_labels[name] (forms/xmlobject.py:227, 376-388, 413) *)
Definition subform_labels (name : str) (verbose : option str) (h : how) : str :=
  match h with
  | Generated => field_label name verbose
  | Declared (Some l) _ => l
  | Declared None (Some c) => c
  | Declared None None => field_label name verbose
  end.
(** form_label of the subform of a NodeField (forms/xmlobject.py:527-531) *)
Definition subform_label (name : str) (verbose : option str) (h : how) : option str :=
  match class_label_of name verbose h with Some l => Some l | None => Some (subform_labels name verbose h) end.

(** ** forms, with the section format each was last given (self._html_section) *)
Inductive hform := HForm (sec : option fmt) (own : fmt -> str) (label : option str) (subs : list (str * hform)) (sets : list (str * hset))
with hset := HSet (mgmt : str) (set_label : option str) (forms : list hitem)
(** a form of a formset: an XmlObjectForm, or a ListFieldForm (which has no form_label) *)
with hitem := IForm (f : hform) | IPlain (own : fmt -> str).

Inductive hexn := HIndex (* IndexError: formset.forms[0] *) | HAttr (* AttributeError: None has no replace *).
Inductive hres (A : Type) := HOk (x : A) | HErr (e : hexn).
Arguments HOk {A} _. Arguments HErr {A} _.

Definition label_of (F : hform) : option str := match F with HForm _ _ l _ _ => l end.
Definition item_label (i : hitem) : option str := match i with IForm f => label_of f | IPlain _ => None end.

(** the three templates (forms/xmlobject.py:724, 736, 747) *)
Definition sec_open (k : fmt) : str :=
  match k with
  | AsTable => u "<tbody><tr><th colspan=""2"" class=""section"">"
  | AsP => u "<div class=""subform""><p class=""label"">"
  | AsUl => u "<li class=""subform""><p class=""label"">"
  end.
Definition sec_mid (k : fmt) : str :=
  match k with
  | AsTable => u "</th></tr><tr><td colspan=""2""><table class=""subform"">" ++ [10%N]
  | AsP => u "</p>"
  | AsUl => u "</p><ul>"
  end.
Definition sec_close (k : fmt) : str :=
  match k with
  | AsTable => u "</table></td></tr></tbody>"
  | AsP => u "</div>"
  | AsUl => u "</ul></li>"
  end.
(** forms/xmlobject.py:707-713: the label and wrapper, if a section format is configured *)
Definition wrap (sec : option fmt) (name : option str) (content : str) : hres str :=
  match sec with
  | None => HOk content
  | Some k => match name with
              | None => HErr HAttr
              | Some n => HOk (sec_open k ++ fieldname_to_label n ++ sec_mid k ++ content ++ sec_close k)
              end
  end.

Section Loops.
  Context (rec : hform -> hform * hres str).
  (** forms/xmlobject.py:670-674; [rec] has been told the section format of this form (:702-705) *)
  Fixpoint out_subs (sec : option fmt) (subs : list (str * hform)) : list (str * hform) * hres (list str) :=
    match subs with
    | [] => ([], HOk [])
    | (n, G) :: rest =>
      match rec G with
      | (G1, HErr e) => ((n, G1) :: rest, HErr e)
      | (G1, HOk c) =>
        match wrap sec (label_of G) c with
        | HErr e => ((n, G1) :: rest, HErr e)
        | HOk part => match out_subs sec rest with
                      | (r, HOk parts) => ((n, G1) :: r, HOk (part :: parts))
                      | (r, HErr e) => ((n, G1) :: r, HErr e)
                      end
        end
      end
    end.
  (** forms/xmlobject.py:688-692 *)
  Fixpoint out_items (k : fmt) (l : list hitem) : list hitem * hres (list str) :=
    match l with
    | [] => ([], HOk [])
    | IPlain own :: rest =>
      match out_items k rest with (r, HOk parts) => (IPlain own :: r, HOk (own k :: parts)) | (r, HErr e) => (IPlain own :: r, HErr e) end
    | IForm G :: rest =>
      match rec G with
      | (G1, HErr e) => (IForm G1 :: rest, HErr e)
      | (G1, HOk c) => match out_items k rest with (r, HOk parts) => (IForm G1 :: r, HOk (c :: parts)) | (r, HErr e) => (IForm G1 :: r, HErr e) end
      end
    end.
  (** forms/xmlobject.py:676-694; the name of the formset's field if nothing has a label *)
  Fixpoint out_sets (sec : option fmt) (k : fmt) (sets : list (str * hset)) : list (str * hset) * hres (list str) :=
    match sets with
    | [] => ([], HOk [])
    | (n, HSet mgmt sl forms) :: rest =>
      match forms with
      | [] => (sets, HErr HIndex)
      | i0 :: _ =>
        let name := match item_label i0 with Some l => l | None => match sl with Some l => l | None => n end end in
        match out_items k forms with
        | (forms1, HErr e) => ((n, HSet mgmt sl forms1) :: rest, HErr e)
        | (forms1, HOk parts) =>
          match wrap sec (Some name) (join_with [10%N] parts) with
          | HErr e => ((n, HSet mgmt sl forms1) :: rest, HErr e)
          | HOk part => match out_sets sec k rest with
                        | (r, HOk ps) => ((n, HSet mgmt sl forms1) :: r, HOk (mgmt :: part :: ps))
                        | (r, HErr e) => ((n, HSet mgmt sl forms1) :: r, HErr e)
                        end
          end
        end
      end
    end.
End Loops.
(** forms/xmlobject.py:656-696, for a form whose _html_section is [sec]: a parent assigns its own before it calls this (:702) *)
Fixpoint html_output (k : fmt) (sec : option fmt) (F : hform) {struct F} : hform * hres str :=
  match F with
  | HForm _ own label subs sets =>
    match out_subs (html_output k sec) sec subs with
    | (subs1, HErr e) => (HForm sec own label subs1 sets, HErr e)
    | (subs1, HOk p1) =>
      match out_sets (html_output k sec) sec k sets with
      | (sets1, HErr e) => (HForm sec own label subs1 sets1, HErr e)
      | (sets1, HOk p2) => (HForm sec own label subs1 sets1, HOk (join_with [10%N] (own k :: p1 ++ p2)))
      end
    end
  end.
(** as_table, as_p, as_ul (forms/xmlobject.py:716-748) *)
Definition as_html (k : fmt) (F : hform) : hform * hres str := html_output k (Some k) F.
End Html.
Arguments HOk {A} _. Arguments HErr {A} _.
