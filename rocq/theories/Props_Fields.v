(** C10-C21: single-node fields (eulxml/xmlmap/fields.py).  Statements, one-line proofs from the lemma
    files, concrete cases, Print Assumptions.
    Vocabulary: [string_set E s v d] is [obj.f = v] for a StringField with XPath text [s] on an
    XmlObject whose node is [d], with namespaces and variables [E]; it gives the new document and the
    outcome.  [string_get], [field_create], [field_delete] likewise.  [supported_path] (FieldSpec.v) is
    the documented class: '/' separated child/attribute/text() steps with predicates [path],
    [path = value].  [selects] is the XPath result. *)
From Coq Require Import String Arith.
From Verif Require Import FieldUndo MapperProofs FieldRefuse.
From Verif Require Import XPathEval FieldSpec DocSpec.

Ltac conjs := cbv zeta; repeat match goal with |- _ /\ _ => split end.
Ltac with_parse H := unfold string_set, string_get, field_create, field_delete, with_xpath in *; rewrite ?H in *.

(** documents for the concrete cases *)
Open Scope string_scope.
Definition el (n : string) (a : list (string * string)) (t : string) (ks : list node) : node :=
  Elem (QN None (u n)) (map (fun x => (QN None (u (fst x)), u (snd x))) a)
       (match t with EmptyString => None | _ => Some (u t) end) (map (fun k => (k, None)) ks).
Definition E0 : env := mkEnv None [].
Definition xp (s : string) : expr := match parse (u s) with Ok e => e | _ => EInt 0 end.
Close Scope string_scope.

(** ** C10 set, then get *)
Theorem C10_set_then_get_partial : forall E s e v d d',
  parse s = Ok e -> supported_path E e = true -> tag_of d <> None -> not_tail (selects E e d) ->
  string_set E s (Some v) d = (d', Ret tt) -> string_get E s d' = Ret (Some v).
Proof. intros E s e v d d' H. with_parse H. apply set_get. Qed.

(** The assignment does succeed whenever the field is missing, the values are XML strings and the element
    written gets no child elements from its own predicates. *)
Theorem C10_assignment_succeeds_missing_partial : forall E s e v d,
  parse s = Ok e -> supported_path E e = true -> tag_of d <> None -> selects E e d = [] ->
  tame E xml_valid e = true -> bare_end E e = true -> xml_valid v = true -> lkind E e <> Some KText ->
  exists d', string_set E s (Some v) d = (d', Ret tt).
Proof. intros E s e v d H. with_parse H. apply set_total_missing. Qed.

Lemma xml_valid_iff v : xml_valid v = true <-> Forall xml_character v.
Proof.
  unfold xml_valid. rewrite forallb_forall, Forall_forall. unfold xml_char, xml_character, in_range.
  assert (H : forall c, (c =? 9)%N || (c =? 10)%N || (c =? 13)%N || (32 <=? c)%N && (c <=? 55295)%N || (57344 <=? c)%N && (c <=? 65533)%N
     || (65536 <=? c)%N && (c <=? 1114111)%N = true <->
     (c = 9 \/ c = 10 \/ c = 13 \/ 32 <= c <= 55295 \/ 57344 <= c <= 65533 \/ 65536 <= c <= 1114111)%N).
  { intros c. rewrite !orb_true_iff, !andb_true_iff, !N.eqb_eq, !N.leb_le. tauto. }
  split; intros X c Hc; apply H, X, Hc.
Qed.

Lemma set_in_xml_valid E r v st d d' : (forall x, r <> RVal x) -> set_in_xml E (Some r) (Some v) st d = (d', Ret tt) -> xml_valid v = true.
Proof.
  intros Hr H. unfold set_in_xml, set_text_at, set_attr_at in H.
  destruct (xml_valid v); [reflexivity|exfalso].
  destruct r; try (now apply (Hr v0)); repeat match type of H with context [match ?b with _ => _ end] => destruct b end; discriminate.
Qed.

(** When it is present, the assignment succeeds for exactly the values XML can hold. *)
Theorem C10_assignment_succeeds_existing_partial : forall E s e v d i rest,
  parse s = Ok e -> supported_path E e = true -> selects E e d = i :: rest ->
  (forall b n, i = IElem b n -> kids_of n = []) -> (forall b tl t, i <> IText b tl t) ->
  ((exists d', string_set E s (Some v) d = (d', Ret tt)) <-> Forall xml_character v).
Proof.
  intros E s e v d i rest H Hs Hsel Hk Ht. rewrite <- xml_valid_iff. with_parse H. split.
  - intros (d' & Hm). unfold mgr_set in Hm. unfold bind at 1 in Hm. unfold reading in Hm.
    pose proof Hs as Hs'. unfold supported_path in Hs'. apply andb_prop in Hs' as [Hs' _]. apply andb_prop in Hs' as [Hp Ho].
    rewrite (find_path _ _ _ _ Hp Ho), Hsel in Hm. cbn [hd_error option_map] in Hm. unfold bind, ret in Hm.
    eapply set_in_xml_valid; [|exact Hm]. intros x. destruct i; discriminate.
  - intros Hv. eapply set_total_existing; eauto.
Qed.

Open Scope string_scope.
(** Outside that class the value can be lost: text() reading the text after a child, and attributes
    called "text". *)
Theorem C10_tail_refuted :
  let d := Elem (QN None (u "r")) [] None [(el "b" [] "" [], Some (u "t"))] in
  exists d', string_set E0 (u "text()") (Some (u "v")) d = (d', Ret tt) /\
    string_get E0 (u "text()") d' = Ret (Some (u "t")).
Proof. eexists. split; (vm_compute; reflexivity). Qed.

Theorem C10_text_attribute_refuted :
  let d := el "r" [("text", "x")] "" [] in
  exists d', string_set E0 (u "@text") (Some (u "v")) d = (d', Ret tt) /\
    string_get E0 (u "@text") d' = Ret (Some (u "x")).
Proof. eexists. split; (vm_compute; reflexivity). Qed.

Definition mods_name := "m:name[@type='personal'][m:role/m:roleTerm='author']/m:namePart".
Definition Em : env := mkEnv (Some [(u "m", u "http://www.loc.gov/mods/v3")]) [].
Definition mroot : node := Elem (QN (Some (u "http://www.loc.gov/mods/v3")) (u "mods")) [] None
  [(Elem (QN (Some (u "http://www.loc.gov/mods/v3")) (u "name")) [] None [], Some (u "tail"))].
Example C10_case : let e := xp mods_name in let d' := fst (string_set Em (u mods_name) (Some (u "X")) mroot) in
  parse (u mods_name) = Ok e /\ supported_path Em e = true /\ selects Em e mroot = [] /\
  tame Em xml_valid e = true /\ bare_end Em e = true /\
  string_set Em (u mods_name) (Some (u "X")) mroot = (d', Ret tt) /\ string_get Em (u mods_name) d' = Ret (Some (u "X")).
Proof. cbv zeta. conjs; (vm_compute; reflexivity). Qed.
Example C10_case_existing : let d := el "r" [] "" [el "a" [("id", "1")] "x" []; el "a" [("id", "2")] "y" []] in
  let e := xp "a[@id='2']" in parse (u "a[@id='2']") = Ok e /\ supported_path E0 e = true /\ exists i rest d', selects E0 e d = i :: rest /\
    string_set E0 (u "a[@id='2']") (Some (u "3")) d = (d', Ret tt).
Proof. cbv zeta. conjs; [vm_compute; reflexivity|vm_compute; reflexivity|]. do 3 eexists. conjs; (vm_compute; reflexivity). Qed.
Close Scope string_scope.

(** ** C11 writing an existing field changes that node only *)
(** For every XPath (supported or not) whose first match is an element: only that element's text changes. *)
Theorem C11_set_element_frame : forall E s e v d d' b n rest,
  parse s = Ok e -> eval_at E e doc_root d = Ret (XN (IElem b n :: rest)) ->
  string_set E s (Some v) d = (d', Ret tt) ->
  same_except b d d' /\ exists m, get_at b d = Some m /\ kids_of m = [] /\ get_at b d' = Some (set_text (Some v) m).
Proof. intros E s e v d d' b n rest H. with_parse H. apply set_existing_elem. Qed.

(** For supported fields (elements, attributes, text()). *)
Theorem C11_set_frame_partial : forall E s e v d d',
  parse s = Ok e -> supported_path E e = true -> tag_of d <> None -> not_tail (selects E e d) -> selects E e d <> [] ->
  string_set E s (Some v) d = (d', Ret tt) ->
  exists b m, get_at b d = Some m /\ same_except b d d' /\
   match hd_error (selects E e d) with
   | Some (IElem c n) => c = b /\ n = m /\ get_at b d' = Some (set_text (Some v) m)
   | Some (IAttr c q _) => c = b /\ get_at b d' = Some (set_attr q v m)
   | Some (IText c _ _) => c = b /\ get_at b d' = Some (set_text (Some v) m)
   | None => False
   end.
Proof. intros E s e v d d' H. with_parse H. apply set_existing. Qed.

Open Scope string_scope.
(** Writing to an attribute called "text" changes the element's text instead. *)
Theorem C11_text_attribute_refuted :
  let d := el "r" [("text", "x")] "kept?" [] in
  string_set E0 (u "@text") (Some (u "v")) d = (el "r" [("text", "x")] "v" [], Ret tt).
Proof. vm_compute. reflexivity. Qed.

Example C11_case : let d := el "r" [] "" [el "a" [("id", "1")] "x" []; el "a" [("id", "2"); ("n", "0")] "y" []] in
  let e := xp "a[@id='2']/@n" in exists d', parse (u "a[@id='2']/@n") = Ok e /\ supported_path E0 e = true /\ not_tail (selects E0 e d) /\ selects E0 e d <> [] /\
    string_set E0 (u "a[@id='2']/@n") (Some (u "3")) d = (d', Ret tt) /\
    d' = el "r" [] "" [el "a" [("id", "1")] "x" []; el "a" [("id", "2"); ("n", "3")] "y" []].
Proof. cbv zeta. eexists. split; [vm_compute; reflexivity|]. split; [vm_compute; reflexivity|]. split; [vm_compute; exact I|]. split; [vm_compute; discriminate|]. split; (vm_compute; reflexivity). Qed.
Example C11_case_element : let d := el "r" [] "" [el "a" [] "x" []; el "a" [] "y" []] in
  let e := xp "a[2]" in exists b n rest d', parse (u "a[2]") = Ok e /\ eval_at E0 e doc_root d = Ret (XN (IElem b n :: rest)) /\
    string_set E0 (u "a[2]") (Some (u "v")) d = (d', Ret tt).
Proof. cbv zeta. do 4 eexists. conjs; (vm_compute; reflexivity). Qed.
Close Scope string_scope.

(** ** C12 creating only adds *)
Theorem C12_creation_only_adds : forall E s e v d d',
  parse s = Ok e -> supported_path E e = true -> tag_of d <> None -> selects E e d = [] ->
  string_set E s (Some v) d = (d', Ret tt) ->
  kept d d' /\ exists b, forall c n, get_at c d = Some n -> c <> b -> exists n', get_at c d' = Some n' /\ shell n' = shell n.
Proof. intros E s e v d d' H. with_parse H. apply set_missing. Qed.

Open Scope string_scope.
Example C12_case : let e := xp mods_name in let d' := fst (string_set Em (u mods_name) (Some (u "X")) mroot) in parse (u mods_name) = Ok e /\ supported_path Em e = true /\ selects Em e mroot = [] /\
  string_set Em (u mods_name) (Some (u "X")) mroot = (d', Ret tt) /\ length (kids_of d') = 2.
Proof. cbv zeta. conjs; (vm_compute; reflexivity). Qed.
Close Scope string_scope.

(** ** C13 a failing assignment changes nothing *)
Theorem C13_failed_set_existing : forall E s e v d d' x,
  parse s = Ok e -> (exists i rest, eval_at E e doc_root d = Ret (XN (i :: rest))) ->
  string_set E s (Some v) d = (d', Exc x) -> d' = d.
Proof. intros E s e v d d' x H. with_parse H. apply set_fail_existing. Qed.

Theorem C13_failed_set_missing_partial : forall E s e v d d' x,
  parse s = Ok e -> supported_path E e = true -> tag_of d <> None -> selects E e d = [] ->
  tame E xml_valid e = true -> bare_end E e = true -> xml_valid v = true ->
  string_set E s (Some v) d = (d', Exc x) -> d' = d.
Proof. intros E s e v d d' x H. with_parse H. intros. eapply set_fail_missing; eassumption. Qed.

(** An XPath text that does not parse, and an expression that is not a path, are refused unchanged. *)
Theorem C13_unparsable : forall E s v d, (forall e, parse s <> Ok e) -> string_set E s v d = (d, Exc XParse).
Proof. intros E s v d H. unfold string_set, with_xpath. destruct (parse s) as [e| | |] eqn:He; try reflexivity. now destruct (H e). Qed.

Open Scope string_scope.
(** The code creates first and checks later; so failures that are only noticed when the value is written
    leave new elements behind. *)
Theorem C13_refuted :
  (* a value XML cannot hold *)
  string_set E0 (u "a/b") (Some [0%N]) (el "r" [] "" []) = (el "r" [] "" [el "a" [] "" [el "b" [] "" []]], Exc XValue) /\
  (* a text field on an element whose predicate needs a child element *)
  string_set E0 (u "a[b='x']") (Some (u "v")) (el "r" [] "" []) = (el "r" [] "" [el "a" [] "" [el "b" [] "x" []]], Exc XNotText) /\
  (* assigning None: the leaf is removed, then a KeyError leaves the rest *)
  string_set E0 (u "a[b/@c='x']/leaf") None
      (el "r" [] "" [el "a" [] "" [el "b" [] "" []; el "b" [("c", "x")] "" []; el "leaf" [] "v" []]]) =
    (el "r" [] "" [el "a" [] "" [el "b" [] "" []; el "b" [("c", "x")] "" []]], Exc XKey).
Proof. conjs; (vm_compute; reflexivity). Qed.

Example C13_case_existing : let d := el "r" [] "" [el "a" [] "" [el "b" [] "x" []]] in
  (exists i rest, eval_at E0 (xp "a") doc_root d = Ret (XN (i :: rest))) /\
  exists d', string_set E0 (u "a") (Some (u "v")) d = (d', Exc XNotText).
Proof. split; do 2 eexists; vm_compute; reflexivity. Qed.
Example C13_case_missing : let d := el "r" [] "" [el "a" [] "" [el "b" [] "x" []]] in let e := xp "a/text()" in
  supported_path E0 e = true /\ selects E0 e d = [] /\ tame E0 xml_valid e = true /\ bare_end E0 e = true /\
  exists d', string_set E0 (u "a/text()") (Some (u "v")) d = (d', Exc XNotText).
Proof. conjs; try (vm_compute; reflexivity). eexists. vm_compute. reflexivity. Qed.
Close Scope string_scope.

(** ** C14 deleting removes the node the field reads *)
(** [first_parent E e d a] (FieldSpec.v): [a] is the element that the path without its last step finds first.  When the node
    read is below it, deleting the field removes the node, alone or with elements above it that are then empty (C15). *)
Theorem C14_delete_element_partial : forall E s e d d' r a i n rest,
  parse s = Ok e -> supported_path E e = true -> tag_of d <> None -> is_KChild (lkind E e) = true ->
  first_parent E e d a -> selects E e d = IElem (a ++ [i]) n :: rest -> field_delete E s d = (d', r) ->
  (exists c j rest', a ++ [i] = c ++ j :: rest' /\ d' = upd_at c (remove_kid j) d) /\
  (rest = [] -> string_get E s d' = Ret None).
Proof.
  intros E s e d d' r a i n rest H Hs Hd Hk Hu Hsel Hm. with_parse H.
  destruct (delete_elem _ _ _ _ _ _ _ _ _ Hs Hd Hk Hu Hsel Hm) as [H1 H2]. split; [exact H1|].
  intros Hr. unfold supported_path in Hs. apply andb_prop in Hs as [Hs _]. apply andb_prop in Hs as [Hp Ho]. now rewrite (get_string_path _ _ _ _ Hp Ho), (H2 Hr).
Qed.

Theorem C14_delete_attribute_partial : forall E s e d d' r b q v rest,
  parse s = Ok e -> supported_path E e = true -> tag_of d <> None -> first_parent E e d b ->
  selects E e d = IAttr b q v :: rest -> lkind E e = Some (KAttr q) -> field_delete E s d = (d', r) ->
  (d' = upd_at b (del_attr q) d \/ exists c j rest', b = c ++ j :: rest' /\ d' = upd_at c (remove_kid j) d) /\
  (rest = [] -> string_get E s d' = Ret None).
Proof.
  intros E s e d d' r b q v rest H Hs Hd Hu Hsel Hk Hm. with_parse H.
  destruct (delete_attr _ _ _ _ _ _ _ _ _ Hs Hd Hu Hsel Hk Hm) as [H1 H2]. split; [exact H1|].
  intros Hr. unfold supported_path in Hs. apply andb_prop in Hs as [Hs _]. apply andb_prop in Hs as [Hp Ho]. now rewrite (get_string_path _ _ _ _ Hp Ho), (H2 Hr).
Qed.
(** These conditions are exact: whenever the node read is below another element, the document stays as it is; deleting an
    attribute then raises KeyError. *)
Theorem C14_elsewhere_refuted : forall E s e d d' r a i n rest,
  parse s = Ok e -> supported_path E e = true -> tag_of d <> None -> is_KChild (lkind E e) = true ->
  selects E e d = IElem (a ++ [i]) n :: rest -> ~ first_parent E e d a -> field_delete E s d = (d', r) -> d' = d /\ r = Ret tt.
Proof. intros E s e d d' r a i n rest H. with_parse H. apply delete_elsewhere. Qed.
Theorem C14_attribute_elsewhere_refuted : forall E s e d d' r b q v rest,
  parse s = Ok e -> supported_path E e = true -> tag_of d <> None ->
  selects E e d = IAttr b q v :: rest -> lkind E e = Some (KAttr q) -> ~ first_parent E e d b -> field_delete E s d = (d', r) -> d' = d /\ r = Exc XKey.
Proof. intros E s e d d' r b q v rest H. with_parse H. apply delete_attr_elsewhere. Qed.

Open Scope string_scope.
(** With a second possible parent the code looks only below the first one. *)
Theorem C14_second_parent_refuted :
  (let d := el "r" [] "" [el "bar" [] "" []; el "bar" [] "" [el "baz" [] "v" []]] in
   string_get E0 (u "bar/baz") d = Ret (Some (u "v")) /\ field_delete E0 (u "bar/baz") d = (d, Ret tt)) /\
  (let d := el "r" [] "" [el "bar" [] "" []; el "bar" [("baz", "v")] "" []] in
   string_get E0 (u "bar/@baz") d = Ret (Some (u "v")) /\ field_delete E0 (u "bar/@baz") d = (d, Exc XKey)) /\
  (* a deleted text() field reads as '' *)
  (exists d', field_delete E0 (u "text()") (el "r" [] "v" []) = (d', Ret tt) /\ string_get E0 (u "text()") d' = Ret (Some [])).
Proof. conjs; try (vm_compute; reflexivity). eexists. split; (vm_compute; reflexivity). Qed.

Definition first_parentb (E : env) (e : expr) (d : node) : option addr :=
  match e with EBin l _ _ => match selects E l d with IElem a _ :: _ => Some a | _ => None end | _ => Some [] end.
Lemma first_parent_iff E e d a : first_parent E e d a <-> first_parentb E e d = Some a.
Proof.
  destruct e; cbn [first_parent first_parentb]; try (split; [now intros ->|now intros [= <-]]).
  destruct (selects E e1 d) as [|[b n|b q v|b i s] rest]; split; try discriminate; try (intros (m & r & [=])); try congruence. intros [= <-]. eauto.
Qed.
Definition d_names := el "r" [] "" [el "x" [] "" []; el "a" [("t", "1")] "" [el "b" [] "v" []]; el "y" [] "keep" []].
Example C14_case : let e := xp "a[@t='1']/b" in
  supported_path E0 e = true /\ is_KChild (lkind E0 e) = true /\ first_parent E0 e d_names [1] /\
  selects E0 e d_names = [IElem (app [1] [0]) (el "b" [] "v" [])] /\
  field_delete E0 (u "a[@t='1']/b") d_names = (el "r" [] "" [el "x" [] "" []; el "y" [] "keep" []], Ret tt).
Proof.
  split; [vm_compute; reflexivity|]. split; [vm_compute; reflexivity|]. split; [|split; (vm_compute; reflexivity)].
  apply first_parent_iff. vm_compute. reflexivity.
Qed.
(** two possible parents, the node read below the first *)
Definition d_two := el "r" [] "" [el "a" [] "" [el "b" [] "v" []; el "c" [] "" []]; el "a" [] "" [el "b" [] "w" []]].
Example C14_case_two_parents : let e := xp "a/b" in
  supported_path E0 e = true /\ is_KChild (lkind E0 e) = true /\ first_parent E0 e d_two [0] /\
  hd_error (selects E0 e d_two) = Some (IElem (app [0] [0]) (el "b" [] "v" [])) /\ List.length (selects E0 e d_two) = 2 /\
  field_delete E0 (u "a/b") d_two = (el "r" [] "" [el "a" [] "" [el "c" [] "" []]; el "a" [] "" [el "b" [] "w" []]], Ret tt).
Proof. split; [vm_compute; reflexivity|]. split; [vm_compute; reflexivity|]. split; [apply first_parent_iff; vm_compute; reflexivity|]. conjs; (vm_compute; reflexivity). Qed.
(** two possible parents, the node read below the second *)
Definition d_second := el "r" [] "" [el "a" [] "x" []; el "a" [] "" [el "b" [] "w" []]].
Example C14_case_elsewhere : let e := xp "a/b" in
  supported_path E0 e = true /\ is_KChild (lkind E0 e) = true /\ selects E0 e d_second = [IElem (app [1] [0]) (el "b" [] "w" [])] /\ ~ first_parent E0 e d_second [1].
Proof.
  split; [vm_compute; reflexivity|]. split; [vm_compute; reflexivity|]. split; [vm_compute; reflexivity|]. intros X. apply first_parent_iff in X. vm_compute in X. discriminate.
Qed.
Example C14_case_attribute : let e := xp "a/@t" in
  supported_path E0 e = true /\ lkind E0 e = Some (KAttr (QN None (u "t"))) /\ first_parent E0 e d_names [1] /\
  selects E0 e d_names = [IAttr [1] (QN None (u "t")) (u "1")].
Proof.
  split; [vm_compute; reflexivity|]. split; [vm_compute; reflexivity|]. split; [|vm_compute; reflexivity].
  apply first_parent_iff. vm_compute. reflexivity.
Qed.
Close Scope string_scope.

(** ** C15 deleting loses nothing else *)
(** One subtree [c ++ [j]] on the way to the matched node is removed; every ancestor that goes with it had
    only the one child and only attributes named in its step's predicates.  Everything outside that
    subtree (except the tail of its top, see below) is untouched: [upd_at c (remove_kid j)]. *)
Theorem C15_delete_element_frame_partial : forall E s e d d' r b n rest,
  parse s = Ok e -> supported_path E e = true -> tag_of d <> None -> is_KChild (lkind E e) = true -> attr_preds E e = true ->
  selects E e d = IElem b n :: rest -> field_delete E s d = (d', r) ->
  r = Ret tt /\ (d' = d \/ exists c j rest', b = c ++ j :: rest' /\ d' = upd_at c (remove_kid j) d /\
     forall k, length c < k -> k < length b -> spent E (steps_of e) b d k 1).
Proof. intros E s e d d' r b n rest H. with_parse H. apply delete_elem_frame. Qed.

Theorem C15_delete_attribute_frame_partial : forall E s e d d' r b q v rest,
  parse s = Ok e -> supported_path E e = true -> tag_of d <> None -> first_parent E e d b -> attr_preds E e = true ->
  selects E e d = IAttr b q v :: rest -> lkind E e = Some (KAttr q) -> field_delete E s d = (d', r) ->
  r = Ret tt /\ (d' = upd_at b (del_attr q) d \/ exists c j rest', b = c ++ j :: rest' /\ d' = upd_at c (remove_kid j) d /\
     forall k, length c < k -> k <= length b -> forall m st, get_at (firstn k b) d = Some m -> nth_error (steps_of e) (k - 1) = Some st ->
       length (kids_of m) = (if k =? length b then 0 else 1) /\
       forall x, In x (attrs_of m) -> (k = length b /\ fst x = q) \/ exists p, In p (preds_of st) /\ fkind E p = Some (KAttr (fst x))).
Proof. intros E s e d d' r b q v rest H. with_parse H. apply delete_attr_frame. Qed.

Open Scope string_scope.
(** But text counts as nothing: an emptied element is removed with its text, and text after a removed
    element goes too. *)
Theorem C15_text_lost_refuted :
  field_delete E0 (u "roleTerm/@type") (el "role" [] "" [el "roleTerm" [("type", "text")] "creator" []]) = (el "role" [] "" [], Ret tt) /\
  field_delete E0 (u "b") (Elem (QN None (u "r")) [] None [(el "b" [] "v" [], Some (u "tail"))]) = (el "r" [] "" [], Ret tt).
Proof. split; (vm_compute; reflexivity). Qed.

Example C15_case : let e := xp "a[@t='1']/b" in attr_preds E0 e = true /\ supported_path E0 e = true.
Proof. split; (vm_compute; reflexivity). Qed.
Example C15_case_attribute : let e := xp "a/@t" in attr_preds E0 e = true /\
  field_delete E0 (u "a/@t") d_names = (el "r" [] "" [el "x" [] "" []; el "a" [] "" [el "b" [] "v" []]; el "y" [] "keep" []], Ret tt).
Proof. split; (vm_compute; reflexivity). Qed.
Close Scope string_scope.

(** ** C16 assigning None is deleting *)
Theorem C16_none_is_delete_partial : forall E e m d,
  match m with MString _ | MInt | MFloat | MNode => True | MBool _ f => f = None | _ => False end ->
  typed_set E e m PNone d = mgr_delete E e d.
Proof. intros E e m d Hm. rewrite <- none_is_delete. destruct m; try contradiction; try reflexivity. cbn in Hm. now subst. Qed.

Theorem C16_unset_is_noop_partial : forall E e m d,
  match m with MString _ | MInt | MFloat | MNode => True | MBool _ f => f = None | _ => False end ->
  supported_path E e = true -> selects E e d = [] -> typed_set E e m PNone d = (d, Ret tt).
Proof. intros. rewrite C16_none_is_delete_partial by assumption. now apply delete_unset. Qed.

(** Date fields raise AttributeError instead, also when unset. *)
Theorem C16_date_none_refuted : forall E e d fmt fmt' norm,
  typed_set E e (MDate fmt) PNone d = (d, Exc XAttr) /\ typed_set E e (MDateTime fmt' norm) PNone d = (d, Exc XAttr).
Proof. split; reflexivity. Qed.

(** ** C17 reading *)
Theorem C17_get_is_readonly : forall E e m d, fst (mgr_get E e m false d) = d.
Proof. intros. now rewrite get_readonly. Qed.

Theorem C17_none_iff_nothing_partial : forall E e m d, supported_path E e = true ->
  match m with MString _ | MNode | MNull => True | _ => False end ->
  (snd (mgr_get E e m false d) = Ret PNone <-> selects E e d = []).
Proof.
  intros E e m d Hs Hm. rewrite get_readonly. cbn [snd]. split; intros H.
  - destruct (selects E e d) eqn:Es; [reflexivity|]. exfalso. apply (read_some E e m d Hs) in H; auto; [rewrite Es; discriminate|]. destruct m; try contradiction; exact I.
  - rewrite (read_none _ _ _ _ Hs H). destruct m; try contradiction; reflexivity.
Qed.

Theorem C17_count_partial : forall E e d, supported_path E e = true -> 0 < length (selects E e d) ->
  (Z.of_nat (length (selects E e d)) <= 2 ^ 53)%Z ->
  snd (mgr_get E (ECall None (u "count") [e]) MInt false d) = Ret (PInt (Z.of_nat (length (selects E e d)))).
Proof. intros. rewrite get_readonly. now apply count_read. Qed.

Open Scope string_scope.
(** A count of zero reads as None. *)
Theorem C17_zero_refuted : snd (mgr_get E0 (xp "count(a)") MInt false (el "r" [] "" [])) = Ret PNone.
Proof. vm_compute. reflexivity. Qed.
Example C17_case : let d := el "r" [] "" [el "a" [] "" []; el "a" [] "" []] in
  xp "count(a)" = ECall None (u "count") [xp "a"] /\ supported_path E0 (xp "a") = true /\ length (selects E0 (xp "a") d) = 2.
Proof. conjs; (vm_compute; reflexivity). Qed.
Close Scope string_scope.

(** ** C18 the last assignment wins; assignments are idempotent *)
Theorem C18_last_wins : forall E s e v1 v2 d d1 d2,
  parse s = Ok e -> supported_path E e = true -> tag_of d <> None -> not_tail (selects E e d) ->
  string_set E s (Some v1) d = (d1, Ret tt) ->
  (string_set E s (Some v2) d1 = (d2, Ret tt) <-> string_set E s (Some v2) d = (d2, Ret tt)).
Proof. intros E s e v1 v2 d d1 d2 H. with_parse H. apply set_set. Qed.

Theorem C18_idempotent : forall E s e v d d1,
  parse s = Ok e -> supported_path E e = true -> tag_of d <> None -> not_tail (selects E e d) ->
  string_set E s (Some v) d = (d1, Ret tt) -> string_set E s (Some v) d1 = (d1, Ret tt).
Proof. intros E s e v d d1 H. with_parse H. intros Hs Hd Hn Hm. now apply (set_set _ _ _ _ _ _ _ Hs Hd Hn Hm). Qed.

(** ** C19 create_<field>() *)
Theorem C19_create_partial : forall E s e d d' x,
  parse s = Ok e -> supported_path E e = true -> tag_of d <> None -> lkind E e <> Some KText ->
  field_create E s d = (d', Ret x) ->
  selects E e d' <> [] /\ x = option_map ref_of (hd_error (selects E e d')) /\ kept d d' /\
  (selects E e d <> [] -> d' = d) /\ field_create E s d' = (d', Ret x).
Proof. intros E s e d d' x H. with_parse H. apply create_spec_full. Qed.

Open Scope string_scope.
Theorem C19_text_refuted : field_create E0 (u "text()") (el "r" [] "" []) = (el "r" [] "" [], Ret (Some (RElem []))) /\
  string_get E0 (u "text()") (el "r" [] "" []) = Ret None.
Proof. split; (vm_compute; reflexivity). Qed.
Example C19_case : let e := xp mods_name in parse (u mods_name) = Ok e /\ supported_path Em e = true /\ lkind Em e <> Some KText /\
  exists d' x, field_create Em (u mods_name) mroot = (d', Ret x) /\ d' <> mroot.
Proof. cbv zeta. conjs; [vm_compute; reflexivity|vm_compute; reflexivity|vm_compute; discriminate|]. do 2 eexists. split; [vm_compute; reflexivity|discriminate]. Qed.
Close Scope string_scope.

(** ** C20 set, then delete, restores the document *)
Theorem C20_set_then_delete_partial : forall E s e v d d1,
  parse s = Ok e -> supported_path E e = true -> tag_of d <> None -> lkind E e <> Some KText -> eq_attr_preds E e = true ->
  (* no part of the path to the left of the last step exists already *)
  (forall l, In l (lefts e) -> last_step l <> None -> selects E l d = []) ->
  selects E e d = [] -> string_set E s (Some v) d = (d1, Ret tt) -> field_delete E s d1 = (d, Ret tt).
Proof.
  intros E s e v d d1 H. with_parse H. intros Hs Hd Hl He Hm. apply set_delete; auto.
  intros l b n rest Hin Hsel. unfold solid. destruct (last_step l) eqn:Hls; [|now left]. rewrite (Hm l Hin) in Hsel; [discriminate|]. congruence.
Qed.

(** the same when existing elements on the path hold something that no predicate of their step names *)
Theorem C20_set_then_delete_solid_partial : forall E s e v d d1,
  parse s = Ok e -> supported_path E e = true -> tag_of d <> None -> lkind E e <> Some KText -> eq_attr_preds E e = true ->
  (forall l b n rest, In l (lefts e) -> selects E l d = IElem b n :: rest -> solid E l n) ->
  selects E e d = [] -> string_set E s (Some v) d = (d1, Ret tt) -> field_delete E s d1 = (d, Ret tt).
Proof. intros E s e v d d1 H. with_parse H. apply set_delete. Qed.

Open Scope string_scope.
(** What a [@type] existence predicate created is not removed. *)
Theorem C20_existence_predicate_refuted :
  exists d1, string_set E0 (u "a[@type]/b") (Some (u "v")) (el "r" [] "" []) = (d1, Ret tt) /\
    fst (field_delete E0 (u "a[@type]/b") d1) = Elem (QN None (u "r")) [] None [(Elem (QN None (u "a")) [(QN None (u "type"), [])] None [], None)].
Proof. eexists. split; (vm_compute; reflexivity). Qed.
Example C20_case : let e := xp "a[@t='1']/b[@s='2']/@c" in let d := el "r" [] "" [el "x" [] "" []] in
  supported_path E0 e = true /\ lkind E0 e <> Some KText /\ eq_attr_preds E0 e = true /\ selects E0 e d = [] /\
  (forall l, In l (lefts e) -> last_step l <> None -> selects E0 l d = []) /\
  exists d1, string_set E0 (u "a[@t='1']/b[@s='2']/@c") (Some (u "v")) d = (d1, Ret tt).
Proof.
  split; [vm_compute; reflexivity|]. split; [vm_compute; discriminate|]. split; [vm_compute; reflexivity|]. split; [vm_compute; reflexivity|].
  split; [|eexists; vm_compute; reflexivity]. intros l Hl _. vm_compute in Hl. destruct Hl as [<-|[<-|[]]]; vm_compute; reflexivity.
Qed.
Close Scope string_scope.

(** ** C21 unsupported XPaths *)
Theorem C21_refused_partial : forall E s e v d,
  parse s = Ok e -> find_ast E e doc_root d = Ret None -> unbuildable e = true ->
  exists d' x, string_set E s (Some v) d = (d', Exc x).
Proof. intros E s e v d H. with_parse H. apply unbuildable_refused. Qed.

Theorem C21_refused_unchanged_partial : forall E s e v d,
  parse s = Ok e -> find_ast E e doc_root d = Ret None -> unbuildable e = true ->
  match e with EBin _ op _ => str_eqb op (u "/") = false | _ => True end ->
  exists x, string_set E s (Some v) d = (d, Exc x).
Proof. intros E s e v d H. with_parse H. apply unbuildable_unchanged. Qed.

Open Scope string_scope.
(** Positions, 'and', comparisons of '.' and other predicates that are not paths are accepted but not
    built: the value is written to an element the field does not select. *)
Theorem C21_silently_lost_refuted :
  (exists d', string_set E0 (u "bar[5]") (Some (u "v")) (el "r" [] "" []) = (d', Ret tt) /\ string_get E0 (u "bar[5]") d' = Ret None) /\
  (exists d', string_set E0 (u "bar[@a='x' and @b='y']") (Some (u "v")) (el "r" [] "" []) = (d', Ret tt) /\
     string_get E0 (u "bar[@a='x' and @b='y']") d' = Ret None).
Proof. split; eexists; split; (vm_compute; reflexivity). Qed.
Example C21_case : unbuildable (xp "a/node()") = true /\ unbuildable (xp "count(a)") = true /\ unbuildable (xp "a[b=c]") = true /\
  unbuildable (xp "a/following-sibling::b") = true /\ unbuildable (xp "a|b") = true /\ unbuildable (xp "a[@x='1']/b") = false /\
  find_ast E0 (xp "count(a)") doc_root (el "r" [] "" []) = Ret None.
Proof. conjs; (vm_compute; reflexivity). Qed.
Close Scope string_scope.

Print Assumptions C10_set_then_get_partial.
Print Assumptions C10_assignment_succeeds_missing_partial.
Print Assumptions C10_assignment_succeeds_existing_partial.
Print Assumptions C10_tail_refuted.
Print Assumptions C10_text_attribute_refuted.
Print Assumptions C11_set_element_frame.
Print Assumptions C11_set_frame_partial.
Print Assumptions C11_text_attribute_refuted.
Print Assumptions C12_creation_only_adds.
Print Assumptions C13_failed_set_existing.
Print Assumptions C13_failed_set_missing_partial.
Print Assumptions C13_unparsable.
Print Assumptions C13_refuted.
Print Assumptions C14_delete_element_partial.
Print Assumptions C14_delete_attribute_partial.
Print Assumptions C14_second_parent_refuted.
Print Assumptions C15_delete_element_frame_partial.
Print Assumptions C15_delete_attribute_frame_partial.
Print Assumptions C15_text_lost_refuted.
Print Assumptions C16_none_is_delete_partial.
Print Assumptions C16_unset_is_noop_partial.
Print Assumptions C16_date_none_refuted.
Print Assumptions C17_get_is_readonly.
Print Assumptions C17_none_iff_nothing_partial.
Print Assumptions C17_count_partial.
Print Assumptions C17_zero_refuted.
Print Assumptions C18_last_wins.
Print Assumptions C18_idempotent.
Print Assumptions C19_create_partial.
Print Assumptions C19_text_refuted.
Print Assumptions C20_set_then_delete_partial.
Print Assumptions C20_set_then_delete_solid_partial.
Print Assumptions C20_existence_predicate_refuted.
Print Assumptions C21_refused_partial.
Print Assumptions C21_refused_unchanged_partial.
Print Assumptions C21_silently_lost_refuted.
