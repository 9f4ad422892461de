(** C71-C73: the fields of the shipped maps (MODS, Dublin Core, PREMIS, TEI, EAD, CERP), taken from the table
    Shipped.v.  Each theorem ranges over the rows of the table, over every XPath context that binds the prefixes
    of the class as ROOT_NAMESPACES does (whatever else the document binds), over every document and every value. *)
From Coq Require Import String Arith ZArith Lia.
From Verif Require Export Shipped EnvAgree Props_Indep Props_ListHistory MapperProofs Props_Fields.
From Verif Require Import XPathEval FieldSpec DocSpec IndepSpec ListSpec.

Opaque u.

(** ** The API of a row *)
Definition row_mapper (r : row) : mapper := match r_kind r with Single m | Many m => m end.
Definition row_set (r : row) (E : env) (v : pyval) : M unit := with_xpath (r_xpath r) (fun e => typed_set E e (row_mapper r) v).
Definition row_get (r : row) (E : env) (d : node) : res pyval :=
  match parse (r_xpath r) with Ok e => field_get E e (row_mapper r) d | _ => Exc XParse end.
Definition is_text (r : row) : bool := str_eqb (r_xpath r) (u "text()").
Definition is_single (r : row) : bool := match r_kind r with Single _ => true | _ => false end.
Definition row_is (r : row) (cf : string * string) : bool := (String.eqb (r_class r) (fst cf) && String.eqb (r_field r) (snd cf))%bool.
Definition among (l : list (string * string)) (r : row) : bool := existsb (row_is r) l.

Local Open Scope string_scope.
(** the single fields whose XPath is not a plain path: a function call, a position, '//', '|' *)
Definition odd_single := [("DublinCoreElement", "name"); ("_EadBase", "match_count"); ("TeiDiv", "title");
  ("DescriptiveIdentification", "unitdate"); ("IndexEntry", "name")].
(** the list fields whose XPath is not one plain child step *)
Definition odd_list := [("DublinCore", "elements"); ("TeiEpigraph", "quote"); ("TeiDiv", "floatingText"); ("TeiFloatingText", "line_group");
  ("TeiFloatingText", "line"); ("TeiSection", "all_figures"); ("TeiHeader", "author_list"); ("TeiHeader", "editor_list");
  ("ControlledAccessHeadings", "terms"); ("Component", "c"); ("ArchivalDescription", "extent"); ("ProfileDescription", "languages");
  ("ProfileDescription", "language_codes")].
Local Close Scope string_scope.

(** ** The table, checked once by computation *)
Definition row_ok (r : row) : bool :=
  match parse (r_xpath r) with
  | Ok e =>
    names_declared (r_ns r) e &&
    (negb (is_single r) || among odd_single r ||
      (supported_path (just (r_ns r)) e && tame (just (r_ns r)) xml_valid e && bare_end (just (r_ns r)) e &&
       Bool.eqb (is_text r) (is_KText (lkind (just (r_ns r)) e)))) &&
    (is_single r || among odd_list r || (list_field (just (r_ns r)) e && one_step e))
  | _ => false
  end.
Lemma table_ok : forallb row_ok shipped = true.
Proof. vm_compute. reflexivity. Qed.
Lemma row_facts r : In r shipped -> row_ok r = true.
Proof. apply forallb_forall. exact table_ok. Qed.

(** ** C71: single fields *)
Theorem C71_xpaths_parse : forall r, In r shipped -> exists e, parse (r_xpath r) = Ok e /\ names_declared (r_ns r) e = true.
Proof.
  intros r H. apply row_facts in H. unfold row_ok in H. destruct (parse (r_xpath r)) as [e| | |]; try discriminate. exists e. split; [reflexivity|].
  apply andb_prop in H as [H _]. now apply andb_prop in H as [H _].
Qed.
Lemma single_facts r E : In r shipped -> is_single r = true -> among odd_single r = false -> binds E (r_ns r) ->
  exists e, parse (r_xpath r) = Ok e /\ supported_path E e = true /\ tame E xml_valid e = true /\ bare_end E e = true /\ (is_text r = true <-> lkind E e = Some KText).
Proof.
  intros H Hs Ha B. apply row_facts in H. unfold row_ok in H. destruct (parse (r_xpath r)) as [e| | |]; try discriminate. exists e. split; [reflexivity|].
  rewrite Hs, Ha in H. cbn [negb orb] in H. apply andb_prop in H as [H _]. apply andb_prop in H as [Hn H]. apply andb_prop in H as [H He]. apply andb_prop in H as [H Hb]. apply andb_prop in H as [Hp Ht].
  rewrite (supported_agree _ _ B _ Hn), (tame_agree _ _ B _ _ Hn), (bare_agree _ _ B _ Hn), (lkind_agree _ _ B _ Hn). split; [assumption|]. split; [assumption|]. split; [assumption|].
  apply Bool.eqb_prop in He. rewrite He. destruct (lkind (just (r_ns r)) e) as [[| |]|]; cbn; split; auto; discriminate.
Qed.

(** unless the field is text(), what it selects is never the text after a child element *)
Lemma not_text_not_tail E e d : supported_path E e = true -> lkind E e <> Some KText -> not_tail (selects E e d).
Proof.
  intros Hs Hl. unfold supported_path in Hs. apply andb_prop in Hs as [Hs _]. apply andb_prop in Hs as [Hpa Ho].
  unfold not_tail. destruct (selects E e d) as [|[a n|a q t|a tl t] rest] eqn:Es; auto. destruct tl; auto.
  assert (Hi : In (IText a true t) (selects E e d)) by (rewrite Es; now left).
  destruct (lkind E e) as [[q|q|]|] eqn:Hlk; auto.
  - rewrite (selects_elems _ _ _ _ Hpa Ho) in Hi by (left; now rewrite Hlk). unfold elems_at in Hi. apply in_flat_map in Hi as (b & _ & Hi). destruct (get_at b d); [|contradiction]. destruct Hi as [|[]]; discriminate.
  - unfold selects in Hi. rewrite (ev_route _ _ _ _ _ _ Hpa Ho Hlk eq_refl) in Hi. cbn [nodes_of] in Hi. apply in_flat_map in Hi as (b & _ & Hi). destruct (get_at b d); [|contradiction].
    cbn [term_items] in Hi. unfold attr_items in Hi. apply in_flat_map in Hi as ([q' w] & _ & Hi). cbn in Hi. destruct (qeqb q' q); [|contradiction]. destruct Hi as [|[]]; discriminate.
  - rewrite (selects_elems _ _ _ _ Hpa Ho) in Hi by (right; exact Hlk). unfold elems_at in Hi. apply in_flat_map in Hi as (b & _ & Hi). destruct (get_at b d); [|contradiction]. destruct Hi as [|[]]; discriminate.
Qed.
(** no text follows a child element of the object's element *)
Definition no_mixed (d : node) : Prop := forall k t, In (k, Some t) (kids_of d) -> False.
Lemma text_not_tail E e d : parse (u "text()") = Ok e -> no_mixed d -> not_tail (selects E e d).
Proof.
  intros Hp Hm. vm_compute in Hp. injection Hp as <-. unfold selects.
  assert (Hl : nodes_of (ev E (EStep None (NodeType [116; 101; 120; 116]%N None) []) (IElem [] d)) = text_items [] d) by reflexivity. rewrite Hl. clear Hl.
  destruct d as [q a t ks|]; cbn [text_items]; [|exact I]. destruct t as [t|]; [exact I|]. cbn [app].
  assert (G : forall i, flat_map (fun x : nat * (node * option str) => match snd (snd x) with Some s => [IText (app [] [fst x]) true s] | None => [] end) (enum i ks) = []).
  { cbn [kids_of] in Hm. clear -Hm. induction ks as [|[k [t|]] ks IH]; intros i; cbn; [reflexivity| |].
    - exfalso. apply (Hm k t). now left.
    - apply IH. intros k' t' H. apply (Hm k' t'). now right. }
  cbn [kids_of] in Hm. rewrite G. exact I.
Qed.

(** what an assigned value reads back as: strings as they are (or normalized), integers up to 2^53, booleans; a False
    whose marker is None is a deletion and not included here *)
Definition reads_back (m : mapper) (v w : pyval) : Prop :=
  match m with
  | MString false => exists s, v = PStr s /\ w = PStr s
  | MString true => exists s, v = PStr s /\ w = PStr (normalize_space s)
  | MInt => exists z, v = PInt z /\ w = PInt z /\ (Z.abs z <= 2 ^ 53)%Z
  | MBool t f => exists b, v = PBool b /\ w = PBool b /\ (b = true \/ f <> None)
  | _ => False
  end.
(** markers of a boolean field are different *)
Lemma markers_ok : forall r, In r shipped -> forall t f, row_mapper r = MBool t f -> f <> Some t.
Proof.
  assert (H : forallb (fun r => match row_mapper r with MBool t (Some f) => negb (str_eqb f t) | _ => true end) shipped = true) by (vm_compute; reflexivity).
  rewrite forallb_forall in H. intros r Hr t f Hm Hf. specialize (H r Hr). rewrite Hm, Hf in H. rewrite str_eqb_refl in H. discriminate.
Qed.
Lemma norm_not_attr : forall r E e, In r shipped -> is_single r = true -> among odd_single r = false -> binds E (r_ns r) -> row_mapper r = MString true -> parse (r_xpath r) = Ok e -> is_attr_field E e = false.
Proof.
  assert (H : forallb (fun r => match row_mapper r, parse (r_xpath r) with MString true, Ok e => negb (is_attr_field (just (r_ns r)) e) | _, _ => true end) shipped = true) by (vm_compute; reflexivity).
  rewrite forallb_forall in H. intros r E e Hr _ _ B Hm Hp. specialize (H r Hr). rewrite Hm, Hp in H. apply negb_true_iff in H. destruct (C71_xpaths_parse r Hr) as (e' & Hp' & Hn). rewrite Hp in Hp'. injection Hp' as <-.
  unfold is_attr_field in *. now rewrite (lkind_agree _ _ B _ Hn).
Qed.

(** An assignment that succeeds reads back, for 270 of the 275 single fields (those with nodes as values are C53's). *)
Theorem C71_set_then_get_partial : forall r E v w d d',
  In r shipped -> is_single r = true -> among odd_single r = false -> binds E (r_ns r) ->
  tag_of d <> None -> (is_text r = true -> no_mixed d) -> reads_back (row_mapper r) v w ->
  row_set r E v d = (d', Ret tt) -> row_get r E d' = Ret w.
Proof.
  intros r E v w d d' Hr Hs Ha B Hd Ht Hv Hm. destruct (single_facts r E Hr Hs Ha B) as (e & Hp & Hsp & _ & _ & Hte).
  assert (Hn : not_tail (selects E e d)).
  { destruct (is_text r) eqn:Eit.
    - apply str_eqb_eq in Eit. rewrite Eit in Hp. apply text_not_tail; auto.
    - apply not_text_not_tail; auto. intros H. apply Hte in H. discriminate. }
  unfold row_set, row_get, with_xpath in *. rewrite Hp in *. pose proof (markers_ok r Hr) as Hmk.
  assert (Hat := fun H => norm_not_attr r E e Hr Hs Ha B H Hp). destruct (row_mapper r) as [[|]| | |t f| | | |]; cbn [reads_back] in Hv; try contradiction.
  - destruct Hv as (s & -> & ->). destruct (typed_set_ok _ _ _ _ _ _ Hm) as (x & Hx & Hm'). cbn in Hx. injection Hx as <-.
    destruct (set_reads _ _ _ _ _ Hsp Hd Hn Hm') as (i & Hi & Hc). unfold field_get. rewrite (eval_path _ _ _ Hsp), Hi. rewrite (Hat eq_refl) in Hc. destruct Hc as (n & -> & _ & _ & Hsv). cbn. now rewrite Hsv.
  - destruct Hv as (s & -> & ->). eapply (typed_set_get E e _ (PStr s) s); [exact Hsp|exact Hd|exact Hn|reflexivity|reflexivity| |exact Hm]. intros n _ _ Hsv. cbn. now rewrite Hsv.
  - destruct Hv as (z & -> & -> & Hz). eapply int_roundtrip; eauto.
  - destruct Hv as (b & -> & -> & Hb). eapply bool_roundtrip; eauto. intros ->. destruct Hb; [discriminate|assumption].
Qed.

(** ... and it does succeed: on an object without that field, whatever else it holds ... *)
Theorem C71_assignment_succeeds_missing_partial : forall r E v s d,
  In r shipped -> is_single r = true -> among odd_single r = false -> is_text r = false -> binds E (r_ns r) ->
  tag_of d <> None -> (forall e, parse (r_xpath r) = Ok e -> selects E e d = []) ->
  to_xml (row_mapper r) v = Ret (Some s) -> xml_valid s = true ->
  exists d', row_set r E v d = (d', Ret tt).
Proof.
  intros r E v s d Hr Hs Ha Ht B Hd Hm Hx Hv. destruct (single_facts r E Hr Hs Ha B) as (e & Hp & Hsp & Htm & Hb & Hte).
  unfold row_set, with_xpath. rewrite Hp. unfold typed_set. rewrite Hx. apply set_total_missing; auto. intros H. apply Hte in H. congruence.
Qed.
(** ... and where the field is there and has no child elements *)
Theorem C71_assignment_succeeds_existing_partial : forall r E v s d,
  In r shipped -> is_single r = true -> among odd_single r = false -> is_text r = false -> binds E (r_ns r) ->
  (forall e, parse (r_xpath r) = Ok e -> selects E e d <> [] /\ forall b n, hd_error (selects E e d) = Some (IElem b n) -> kids_of n = []) ->
  to_xml (row_mapper r) v = Ret (Some s) -> xml_valid s = true ->
  exists d', row_set r E v d = (d', Ret tt).
Proof.
  intros r E v s d Hr Hs Ha Ht B Hm Hx Hv. destruct (single_facts r E Hr Hs Ha B) as (e & Hp & Hsp & Htm & Hb & Hte).
  unfold row_set, with_xpath. rewrite Hp. unfold typed_set. rewrite Hx. destruct (Hm e Hp) as [Hne Hk].
  destruct (selects E e d) as [|i rest] eqn:Es; [congruence|]. eapply set_total_existing; eauto.
  - intros b n ->. eapply Hk. reflexivity.
  - intros b tl t ->. 
    assert (Hnt : forall x, In x (selects E e d) -> match x with IText _ _ _ => False | _ => True end).
    { intros x Hxi. destruct x as [| |a tl' t']; auto. unfold supported_path in Hsp. apply andb_prop in Hsp as [Hsp _]. apply andb_prop in Hsp as [Hpa Ho].
      destruct (lkind E e) as [[q|q|]|] eqn:Hlk.
      - rewrite (selects_elems _ _ _ _ Hpa Ho) in Hxi by (left; now rewrite Hlk). unfold elems_at in Hxi. apply in_flat_map in Hxi as (b' & _ & Hi). destruct (get_at b' d); [|contradiction]. destruct Hi as [|[]]; discriminate.
      - unfold selects in Hxi. rewrite (ev_route _ _ _ _ _ _ Hpa Ho Hlk eq_refl) in Hxi. cbn [nodes_of] in Hxi. apply in_flat_map in Hxi as (b' & _ & Hi). destruct (get_at b' d); [|contradiction].
        cbn [term_items] in Hi. unfold attr_items in Hi. apply in_flat_map in Hi as ([q' w] & _ & Hi). cbn in Hi. destruct (qeqb q' q); [|contradiction]. destruct Hi as [|[]]; discriminate.
      - assert (false = true) by (rewrite <- Ht; now apply Hte). discriminate.
      - rewrite (selects_elems _ _ _ _ Hpa Ho) in Hxi by (right; exact Hlk). unfold elems_at in Hxi. apply in_flat_map in Hxi as (b' & _ & Hi). destruct (get_at b' d); [|contradiction]. destruct Hi as [|[]]; discriminate. }
    specialize (Hnt (IText b tl t)). rewrite Es in Hnt. apply Hnt. now left.
Qed.

(** ** C72: list fields of strings: every history of list operations acts as on a Python list *)
Theorem C72_string_lists_partial : forall r E e d vs os,
  In r shipped -> r_kind r = Many (MString false) -> among odd_list r = false -> binds E (r_ns r) -> parse (r_xpath r) = Ok e ->
  tag_of d <> None -> list_data E e (MString false) d = Ret (map PStr vs) -> (forall a n, In (IElem a n) (selects E e d) -> kids_of n = []) ->
  (forall o, In o os -> nonneg_insert o /\ forall v, In v (xop_values o) -> exists s, v = PStr s /\ xml_valid s = true) ->
  exists d', field_xops E e (MString false) os d = (d', snd (py_xops os (map PStr vs))) /\
    list_data E e (MString false) d' = Ret (fst (py_xops os (map PStr vs))) /\ others E e d' = others E e d /\ own d' = own d.
Proof.
  intros r E e d vs os Hr Hk Ha B Hp Hd Hl Hc Ho. apply row_facts in Hr. unfold row_ok, is_single in Hr. rewrite Hp, Hk, Ha in Hr. cbn [negb orb andb] in Hr.
  apply andb_prop in Hr as [Hn Hr]. apply andb_prop in Hn as [Hn _]. apply andb_prop in Hr as [Hf H1]. rewrite <- (list_field_agree _ _ B _ Hn) in Hf.
  destruct (C57_history E e (MString false) d (map PStr vs) os Hf H1) as (d' & Hx & Hh & Hot & Hown).
  - split; [exact Hd|]. split; [exact Hl|]. split; [exact Hc|]. destruct e; try exact I; discriminate.
  - intros v Hv. apply in_map_iff in Hv as (s & <- & _). exact I.
  - intros o Hoi. destruct (Ho o Hoi) as [G1 G2]. split; [exact G1|]. intros v Hv. destruct (G2 v Hv) as (s & -> & Hs). destruct C57_values as [G _]. exact (G s Hs).
  - exists d'. split; [exact Hx|]. split; [apply Hh|]. split; assumption.
Qed.
(** the extents and languages of EAD, whose lists have several steps: every history without insertions, as long as there is at most one
    element for the list to be in *)
Definition long_lists := [("ArchivalDescription", "extent"); ("ProfileDescription", "languages")]%string.
Theorem C72_long_lists_partial : forall r E e d vs os,
  In r shipped -> among long_lists r = true -> r_kind r = Many (MString false) -> binds E (r_ns r) -> parse (r_xpath r) = Ok e ->
  tag_of d <> None -> list_data E e (MString false) d = Ret (map PStr vs) -> (forall a n, In (IElem a n) (selects E e d) -> kids_of n = []) ->
  (forall l op r', e = EBin l op r' -> length (selects E l d) <= 1) ->
  (forall o, In o os -> no_insert o /\ forall v, In v (xop_values o) -> exists s, v = PStr s /\ xml_valid s = true) ->
  exists d', field_xops E e (MString false) os d = (d', snd (py_xops os (map PStr vs))) /\
    list_data E e (MString false) d' = Ret (fst (py_xops os (map PStr vs))).
Proof.
  assert (G : forallb (fun r => match r_kind r with Many (MString false) => negb (among long_lists r) || match parse (r_xpath r) with Ok e => names_declared (r_ns r) e && list_field (just (r_ns r)) e | _ => false end | _ => true end) shipped = true) by (vm_compute; reflexivity).
  rewrite forallb_forall in G. intros r E e d vs os Hr Hl Hk B Hp Hd Hdata Hc Hone Ho. specialize (G r Hr). rewrite Hl, Hk, Hp in G. cbn [negb orb] in G. apply andb_prop in G as [Hn Hf]. rewrite <- (list_field_agree _ _ B _ Hn) in Hf.
  destruct (C57_long_paths E e (MString false) d (map PStr vs) os Hf) as (d' & Hx & Hh).
  - split; [exact Hd|]. split; [exact Hdata|]. split; [exact Hc|]. destruct e; try exact I. eapply Hone. reflexivity.
  - intros v Hv. apply in_map_iff in Hv as (s & <- & _). exact I.
  - intros o Hoi. destruct (Ho o Hoi) as [G1 G2]. split; [exact G1|]. intros v Hv. destruct (G2 v Hv) as (s & -> & Hs). destruct C57_values as [G _]. exact (G s Hs).
  - exists d'. split; [exact Hx|apply Hh].
Qed.
(** all string lists of the shipped maps are of that form, with the listed exceptions *)
Theorem C72_string_list_mappers : forall r m, In r shipped -> r_kind r = Many m -> m = MString false \/ m = MNode.
Proof.
  assert (H : forallb (fun r => match r_kind r with Many (MString false) | Many MNode | Single _ => true | _ => false end) shipped = true) by (vm_compute; reflexivity).
  rewrite forallb_forall in H. intros r m Hr Hk. specialize (H r Hr). rewrite Hk in H. destruct m as [[|]| | | | | | |]; auto; discriminate.
Qed.

(** ** C73: two fields of one vocabulary that start at different children or attributes never disturb each other *)
Definition row_entry (r : row) : option skind := match parse (r_xpath r) with Ok e => first_kind (just (r_ns r)) e | _ => None end.
Definition plain_row (r : row) : bool := match parse (r_xpath r) with Ok e => supported_path (just (r_ns r)) e | _ => false end.
(** operation [o] is one of field [r]'s *)
Definition op_of (r : row) (o : fop) : Prop := parse (r_xpath r) = Ok (fop_path o).
Lemma row_enters r E k : In r shipped -> binds E (r_ns r) -> plain_row r = true -> row_entry r = Some k -> k <> KText ->
  exists e, parse (r_xpath r) = Ok e /\ enters E e k.
Proof.
  intros Hr B Hp Hk Hne. destruct (C71_xpaths_parse r Hr) as (e & He & Hn). unfold plain_row, row_entry in *. rewrite He in *. exists e. split; [reflexivity|].
  split; [now rewrite (supported_agree _ _ B _ Hn)|]. split; [now rewrite (first_kind_agree _ _ B _ Hn)|exact Hne].
Qed.
Theorem C73_fields_independent : forall r k E d os e,
  In r shipped -> plain_row r = true -> row_entry r = Some k -> k <> KText -> binds E (r_ns r) -> tag_of d <> None -> parse (r_xpath r) = Ok e ->
  (forall o, In o os -> exists r' k', In r' shipped /\ r_ns r' = r_ns r /\ plain_row r' = true /\ row_entry r' = Some k' /\ k' <> KText /\ k' <> k /\ op_of r' o) ->
  field_get E e (row_mapper r) (run_fops E os d) = field_get E e (row_mapper r) d /\
  list_data E e (row_mapper r) (run_fops E os d) = list_data E e (row_mapper r) d.
Proof.
  intros r k E d os e Hr Hp Hk Hne B Hd He Ho. destruct (row_enters r E k Hr B Hp Hk Hne) as (e' & He' & Hen). rewrite He in He'. injection He' as <-.
  apply (C56_independent E e k); auto. intros o Hoi. destruct (Ho o Hoi) as (r' & k' & Hr' & Hns & Hp' & Hk' & Hne' & Hd' & Hop).
  rewrite <- Hns in B. destruct (row_enters r' E k' Hr' B Hp' Hk' Hne') as (e' & He' & Hen'). unfold op_of in Hop. rewrite Hop in He'. injection He' as <-. exists k'. auto.
Qed.

(** ** TeiDiv.title, "tei:head[1]": the position makes no difference to what is read and written first *)
Lemma enum_far f (l : list item) : forall i, (1 <= i)%nat -> (forall x p, f x p = N.eqb 1 p) ->
  flat_map (fun x => if f (snd x) (N.of_nat (S (fst x))) then [snd x] else []) (enum i l) = [].
Proof.
  induction l as [|y l IH]; intros i Hi Hf; cbn [enum flat_map fst snd]; [reflexivity|]. rewrite Hf. destruct (N.eqb_spec 1 (N.of_nat (S i))); [lia|]. cbn [app]. apply IH; auto.
Qed.
Lemma filter_first f l : (forall x p, f x p = N.eqb 1 p) -> filter_pos f l = firstn 1 l.
Proof.
  intros Hf. unfold filter_pos. destruct l as [|x l]; [reflexivity|]. cbn [enum flat_map fst snd]. rewrite Hf. change (N.eqb 1 (N.of_nat 1)) with true. cbn [app firstn]. f_equal. exact (enum_far f l 1 (Nat.le_refl _) Hf).
Qed.
Lemma first_of E p nm d : eval_at E (EStep None (NameTest p nm) [EInt 1]) doc_root d =
  match eval_at E (EStep None (NameTest p nm) []) doc_root d with Ret (XN l) => Ret (XN (firstn 1 l)) | x => x end.
Proof.
  unfold eval_at, doc_root. cbn [get_at]. unfold xpath, XPathRead.readable. cbn [supported XPathRead.ty forallb child_axis orb XPathRead.axis_of XPathRead.is_some]. rewrite !andb_true_r. destruct (true && _)%bool; [|reflexivity]. cbn [ev fold_left].
  do 2 f_equal. apply filter_first. intros x q. cbn. unfold num_eqb, num_of_Z. destruct q; cbn; [reflexivity|now rewrite andb_true_r].
Qed.

Definition with_xpath_of (r : row) (s : str) : row := mkRow (r_file r) (r_line r) (r_class r) (r_field r) (r_kind r) (r_ns r) s.
Theorem C71_first_head : forall r E v d, In r shipped -> row_is r ("TeiDiv", "title")%string = true ->
  row_set r E (PStr v) d = row_set (with_xpath_of r (u "tei:head")) E (PStr v) d /\ row_get r E d = row_get (with_xpath_of r (u "tei:head")) E d.
Proof.
  assert (T : forallb (fun r => negb (row_is r ("TeiDiv", "title")%string) || (str_eqb (r_xpath r) (u "tei:head[1]") && match r_kind r with Single (MString false) => true | _ => false end))%bool shipped = true) by (vm_compute; reflexivity).
  rewrite forallb_forall in T. intros r E v d Hr Hi. specialize (T r Hr). rewrite Hi in T. cbn [negb orb] in T. apply andb_prop in T as [T1 T2]. apply str_eqb_eq in T1.
  unfold row_set, row_get, with_xpath, row_mapper. cbn [r_xpath r_kind with_xpath_of]. rewrite T1. destruct (r_kind r) as [m|]; [|discriminate]. destruct m as [[|]| | | | | | |]; try discriminate.
  assert (Hp : exists p nm, parse (u "tei:head[1]") = Ok (EStep None (NameTest p nm) [EInt 1]) /\ parse (u "tei:head") = Ok (EStep None (NameTest p nm) [])) by (do 2 eexists; split; vm_compute; reflexivity).
  destruct Hp as (p & nm & -> & ->). split.
  - unfold typed_set. cbn [to_xml py_str]. unfold mgr_set, bind, reading, find_ast. rewrite first_of.
    destruct (eval_at E (EStep None (NameTest p nm) []) doc_root d) as [[l| | |]|x]; try reflexivity. destruct l as [|i l]; reflexivity.
  - unfold field_get. rewrite first_of. destruct (eval_at E (EStep None (NameTest p nm) []) doc_root d) as [[l| | |]|x]; try reflexivity. destruct l as [|[] l]; reflexivity.
Qed.

(** ** Refuted: ArchivalDescription.process_info (eadmap.py) has the path from the document's root, so that the archdesc's own
    processinfo is never found *)
Local Open Scope string_scope.
Definition ead (s : string) := QN (Some (u "urn:isbn:1-931666-22-9")) (u s).
Theorem C71_process_info_refuted : let d := Elem (ead "archdesc") [] None [(Elem (ead "processinfo") [] (Some (u "P")) [], None); (Elem (ead "acqinfo") [] (Some (u "A")) [], None)] in
  forall r, In r shipped -> (row_is r ("ArchivalDescription", "process_info") = true -> row_get r (just ns_eadmap) d = Ret PNone) /\
    (row_is r ("ArchivalDescription", "acquisition_info") = true -> row_get r (just ns_eadmap) d <> Ret PNone).
Proof.
  cbv zeta.
  assert (T : forallb (fun r => (negb (row_is r ("ArchivalDescription", "process_info")) || match row_get r (just ns_eadmap) (Elem (ead "archdesc") [] None [(Elem (ead "processinfo") [] (Some (u "P")) [], None); (Elem (ead "acqinfo") [] (Some (u "A")) [], None)]) with Ret PNone => true | _ => false end) &&
    (negb (row_is r ("ArchivalDescription", "acquisition_info")) || match row_get r (just ns_eadmap) (Elem (ead "archdesc") [] None [(Elem (ead "processinfo") [] (Some (u "P")) [], None); (Elem (ead "acqinfo") [] (Some (u "A")) [], None)]) with Ret PNone => false | _ => true end))%bool shipped = true) by (vm_compute; reflexivity).
  rewrite forallb_forall in T. intros r Hr. specialize (T r Hr). apply andb_prop in T as [T1 T2]. split; intros H; rewrite H in *; cbn [negb orb] in *.
  - destruct (row_get _ _ _) as [[]|]; discriminate || reflexivity.
  - intros Hg. rewrite Hg in T2. discriminate.
Qed.

(** ** The hypotheses are met: numbers of rows, and a case each *)
Definition pick (c f : string) : row := match filter (fun r => row_is r (c, f)) shipped with r :: _ => r | [] => mkRow "" 0 "" "" (Single MNull) [] [] end.
Definition tei (s : string) := QN (Some (u "http://www.tei-c.org/ns/1.0")) (u s).
Definition E_tei : env := mkEnv (Some [(u "x", u "urn:x"); (u "xml", u "http://www.w3.org/XML/1998/namespace"); (u "tei", u "http://www.tei-c.org/ns/1.0")]) [(u "v", VarInt 1)].
Lemma binds_tei : binds E_tei ns_teimap.
Proof.
  intros p x. unfold ns_teimap. cbn [lookup]. destruct (str_eqb p (u "tei")) eqn:E1; [apply str_eqb_eq in E1; subst p; intros H; injection H as <-; vm_compute; reflexivity|].
  destruct (str_eqb p (u "xml")) eqn:E2; [apply str_eqb_eq in E2; subst p; intros H; injection H as <-; vm_compute; reflexivity|discriminate].
Qed.
Lemma pick_in c f : r_class (pick c f) <> "" -> In (pick c f) shipped.
Proof.
  unfold pick. generalize shipped. intros t. destruct (filter (fun r => row_is r (c, f)) t) as [|r l] eqn:E; [intros H; exfalso; apply H; reflexivity|]. intros _.
  assert (H : In r (filter (fun r => row_is r (c, f)) t)) by (rewrite E; now left). apply filter_In in H. exact (proj1 H).
Qed.
Example C71_case : (length shipped, length (filter is_single shipped), length (filter (fun r => is_single r && negb (among odd_single r))%bool shipped),
    length (filter (fun r => negb (is_single r)) shipped), length (filter (fun r => negb (is_single r) && negb (among odd_list r))%bool shipped)) = (398, 275, 270, 123, 110) /\
  let r := pick "Tei" "author" in let d := Elem (tei "TEI") [] None [(Elem (tei "text") [] None [], None)] in let v := PStr (u "Anon") in
  In r shipped /\ is_single r = true /\ among odd_single r = false /\ is_text r = false /\ binds E_tei (r_ns r) /\ reads_back (row_mapper r) v v /\
  (forall e, parse (r_xpath r) = Ok e -> selects E_tei e d = []) /\ to_xml (row_mapper r) v = Ret (Some (u "Anon")) /\ xml_valid (u "Anon") = true /\
  (let d' := fst (row_set r E_tei v d) in row_set r E_tei v d = (d', Ret tt) /\ row_get r E_tei d' = Ret v /\
    (forall e, parse (r_xpath r) = Ok e -> selects E_tei e d' <> [] /\ forall b n, hd_error (selects E_tei e d') = Some (IElem b n) -> kids_of n = []) /\
    snd (row_set r E_tei (PStr (u "B")) d') = Ret tt).
Proof.
  split; [vm_compute; reflexivity|]. cbv zeta. split; [apply pick_in; vm_compute; discriminate|]. split; [vm_compute; reflexivity|]. split; [vm_compute; reflexivity|]. split; [vm_compute; reflexivity|].
  split; [exact binds_tei|]. split; [eexists; split; reflexivity|]. split; [intros e H; vm_compute in H; injection H as <-; vm_compute; reflexivity|].
  split; [vm_compute; reflexivity|]. split; [vm_compute; reflexivity|]. split; [vm_compute; reflexivity|]. split; [vm_compute; reflexivity|]. split; [|vm_compute; reflexivity].
  intros e H. vm_compute in H. injection H as <-. split; [vm_compute; discriminate|]. intros b n Hb. vm_compute in Hb. injection Hb as <- <-. reflexivity.
Qed.
Definition E_dc : env := just ns_dc.
Definition dc (s : string) := QN (Some (u "http://purl.org/dc/elements/1.1/")) (u s).
Definition d_dc := Elem (QN (Some (u "http://www.openarchives.org/OAI/2.0/oai_dc/")) (u "dc")) [] None
  [(Elem (dc "title") [] (Some (u "T")) [], None); (Elem (dc "subject") [] (Some (u "s1")) [], Some (u " ")); (Elem (dc "subject") [] (Some (u "s2")) [], None)].
Example C72_case : let r := pick "DublinCore" "subject_list" in let e := xp "dc:subject" in
  let os := [XOp (LAppend (PStr (u "s3"))); XInsert 0 (PStr (u "s0")); XOp (LDel (-1)); XOp (LSet 1 (PStr (u "x")))] in
  In r shipped /\ r_kind r = Many (MString false) /\ among odd_list r = false /\ binds E_dc (r_ns r) /\ parse (r_xpath r) = Ok e /\
  list_data E_dc e (MString false) d_dc = Ret (map PStr [u "s1"; u "s2"]) /\ (forall a n, In (IElem a n) (selects E_dc e d_dc) -> kids_of n = []) /\
  (forall o, In o os -> nonneg_insert o /\ forall v, In v (xop_values o) -> exists s, v = PStr s /\ xml_valid s = true) /\
  list_data E_dc e (MString false) (fst (field_xops E_dc e (MString false) os d_dc)) = Ret (map PStr [u "s0"; u "x"; u "s2"]).
Proof.
  cbv zeta. split; [apply pick_in; vm_compute; discriminate|]. split; [vm_compute; reflexivity|]. split; [vm_compute; reflexivity|].
  split; [intros p x H; exact H|]. split; [vm_compute; reflexivity|]. split; [vm_compute; reflexivity|].
  split; [intros a n H; vm_compute in H; repeat destruct H as [H|H]; try contradiction; injection H as <- <-; reflexivity|].
  split; [|vm_compute; reflexivity].
  intros o Ho. cbn [In] in Ho. repeat destruct Ho as [<-|Ho]; try contradiction; (split; [vm_compute; auto; discriminate|]); intros v Hv; cbn in Hv; repeat destruct Hv as [<-|Hv]; try contradiction; eexists; (split; [reflexivity|vm_compute; reflexivity]).
Qed.
Definition d_ead := Elem (ead "archdesc") [] None [(Elem (ead "did") [] None [(Elem (ead "physdesc") [] None [(Elem (ead "extent") [] (Some (u "3 boxes")) [], None)], None)], None)].
Example C72_long_case : let r := pick "ArchivalDescription" "extent" in let e := xp "e:did/e:physdesc/e:extent" in let E := just ns_eadmap in
  let os := [XOp (LAppend (PStr (u "1 map"))); XOp (LDel 0); XAssign [PStr (u "a"); PStr (u "b")]] in
  In r shipped /\ among long_lists r = true /\ r_kind r = Many (MString false) /\ parse (r_xpath r) = Ok e /\
  list_data E e (MString false) d_ead = Ret (map PStr [u "3 boxes"]) /\ length (selects E (xp "e:did/e:physdesc") d_ead) = 1 /\
  list_data E e (MString false) (fst (field_xops E e (MString false) os d_ead)) = Ret (map PStr [u "a"; u "b"]).
Proof.
  cbv zeta. split; [apply pick_in; vm_compute; discriminate|]. repeat match goal with |- _ /\ _ => split end; vm_compute; reflexivity.
Qed.
Example C73_case : let r := pick "DublinCore" "title" in let r' := pick "DublinCore" "subject_list" in
  let o := FListAssign (xp "dc:subject") (MString false) [PStr (u "n")] in
  In r shipped /\ plain_row r = true /\ row_entry r = Some (KChild (dc "title")) /\ binds E_dc (r_ns r) /\
  (In r' shipped /\ r_ns r' = r_ns r /\ plain_row r' = true /\ row_entry r' = Some (KChild (dc "subject")) /\ KChild (dc "subject") <> KChild (dc "title") /\ op_of r' o) /\
  field_get E_dc (xp "dc:title") (MString false) (run_fops E_dc [o] d_dc) = Ret (PStr (u "T")) /\ list_data E_dc (xp "dc:subject") (MString false) (run_fops E_dc [o] d_dc) = Ret [PStr (u "n")].
Proof.
  cbv zeta. split; [apply pick_in; vm_compute; discriminate|]. split; [vm_compute; reflexivity|]. split; [vm_compute; reflexivity|]. split; [intros p x H; exact H|].
  split; [|split; vm_compute; reflexivity]. split; [apply pick_in; vm_compute; discriminate|]. split; [vm_compute; reflexivity|]. split; [vm_compute; reflexivity|]. split; [vm_compute; reflexivity|]. split; [vm_compute; discriminate|vm_compute; reflexivity].
Qed.
Local Close Scope string_scope.

Print Assumptions C71_xpaths_parse.
Print Assumptions C71_set_then_get_partial.
Print Assumptions C71_assignment_succeeds_missing_partial.
Print Assumptions C71_assignment_succeeds_existing_partial.
Print Assumptions C71_first_head.
Print Assumptions C71_process_info_refuted.
Print Assumptions C72_string_lists_partial.
Print Assumptions C72_long_lists_partial.
Print Assumptions C72_string_list_mappers.
Print Assumptions C73_fields_independent.
