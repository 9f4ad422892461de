(** C86: an object whose fields are its element's own attributes and text is a record with one more variable, for the text.
    The record and the program are in LeafSpec.v, RecordSpec.v and Record.v. *)
From Coq Require Import String Arith ZArith Lia.
From Verif Require Export LeafSpec Props_Record.
From Verif Require Import XPathEval FieldSpec DocSpec IndepSpec Props_Mappers MapperProofs.
Opaque u.

(** ** Specification: the class and the program *)
(** [aks]: attribute fields; [tf]: text fields *)
Definition leaf_class (E : env) (tbl : field_table) (aks : list str) (tf : text_fields) : Prop :=
  (forall k, In k aks -> tf k = None) /\
  (forall k e m, In k aks -> has_field tbl k e m -> own_attribute E e) /\
  (forall k p norm, tf k = Some (p, norm) -> lookup k tbl = Some (part_path p, MString norm) /\ (p = OwnText -> norm = false)).
(** the program uses these fields only; text fields are given strings XML can hold, or None *)
Definition leaf_sound (E : env) (tbl : field_table) (aks : list str) (tf : text_fields) (o : rop) : Prop :=
  match tf (rop_field o) with
  | None => sound_op E tbl aks o
  | Some _ => forall k v, o = RSet k v -> v = PNone \/ exists s, v = PStr s /\ xml_valid s = true
  end.

(** ** Proof *)
(** *** an attribute step sees and changes the attributes only *)
Lemma own_shape E e : own_attribute E e -> exists ax p nm, e = EStep ax (NameTest p nm) [] /\ attr_axis ax = true /\ child_axis ax = false /\ str_eqb nm (u "text") = false.
Proof.
  intros ((ax & t & ->) & q & H). unfold lkind in H. cbn [last_step] in H. destruct t as [p nm|nm l]; [|cbn [kind] in H; destruct l; [discriminate|]; match goal with H : context [if ?b then _ else _] |- _ => destruct b end; discriminate].
  cbn [kind] in H. destruct (str_eqb nm (u "*")); [discriminate|].
  assert (K : exists uri, (if child_axis ax then Some (KChild (QN uri nm)) else if attr_axis ax then (if str_eqb nm (u "text") then None else Some (KAttr (QN uri nm))) else None) = Some (KAttr q)).
  { destruct p as [[|c x]|]; [discriminate| |]; match goal with H : context [resolve ?a ?b] |- _ => destruct (resolve a b) as [uri|]; [|discriminate]; now exists uri end. }
  destruct K as [uri K]. destruct (child_axis ax) eqn:C; [discriminate|]. destruct (attr_axis ax) eqn:A; [|discriminate]. destruct (str_eqb nm (u "text")) eqn:T; [discriminate|]. exists ax, p, nm. auto.
Qed.
(** an attribute step sees the attributes only *)
Lemma attr_readable E ax p nm : attr_axis ax = true -> child_axis ax = false -> supported E (EStep ax (NameTest p nm) []) = false -> XPathRead.readable E (EStep ax (NameTest p nm) []) = false.
Proof.
  intros A C. unfold XPathRead.readable. cbn [supported XPathRead.ty forallb]. unfold XPathRead.axis_of. rewrite A, C. cbn [orb andb XPathRead.is_some]. now intros ->.
Qed.
Lemma own_eval E e g a t ks g' t' ks' : own_attribute E e -> eval_at E e doc_root (Elem g a t ks) = eval_at E e doc_root (Elem g' a t' ks').
Proof.
  intros H. destruct (own_shape E e H) as (ax & p & nm & -> & A & C & _). unfold eval_at, doc_root, get_at, xpath. destruct (supported _ _) eqn:Su; [|now rewrite (attr_readable _ _ _ _ A C Su)].
  cbn [ev fold_left step_items]. rewrite C, A. reflexivity.
Qed.
Lemma own_get E e m g a t ks g' t' ks' : own_attribute E e -> field_get E e m (Elem g a t ks) = field_get E e m (Elem g' a t' ks').
Proof. intros H. unfold field_get. now rewrite (own_eval E e g a t ks g' t' ks' H). Qed.
(** and changes the attributes only *)
Lemma own_delete E e g a t ks : own_attribute E e -> exists a', fst (mgr_delete E e (Elem g a t ks)) = Elem g a' t ks.
Proof.
  intros H. destruct (own_shape E e H) as (ax & p & nm & -> & A & C & _). unfold mgr_delete, bind, reading. destruct (find_ast _ _ _ _) as [[r|]|x]; [|exists a; reflexivity|exists a; reflexivity].
  cbn [remove_xml]. rewrite C, A. unfold remove_attr_node, doc_root. cbn [get_at attrs_of]. destruct (attr_get _ a); [|exists a; reflexivity]. eexists. reflexivity.
Qed.
Lemma own_set_in E s g a t ks q v : own_attribute E s -> exists a', fst (set_in_xml E (Some (RAttr [] q)) v (terminal_step s) (Elem g a t ks)) = Elem g a' t ks.
Proof.
  intros H. destruct (own_shape E s H) as (ax & p & nm & -> & A & C & T). unfold set_in_xml. cbn [terminal_step is_text_nodetest test_name]. rewrite T.
  unfold set_attr_at. destruct (negb _); [exists a; reflexivity|]. destruct v as [s|]; [|exists a; reflexivity]. destruct (xml_valid s); [eexists; reflexivity|exists a; reflexivity].
Qed.
Lemma own_find E e d r : own_attribute E e -> find_ast E e doc_root d = Ret (Some r) -> exists q, r = RAttr [] q.
Proof.
  intros H. destruct (own_shape E e H) as (ax & p & nm & -> & A & C & T). unfold find_ast, eval_at, doc_root. cbn [get_at]. unfold xpath. destruct (supported _ _) eqn:Su; [|rewrite (attr_readable _ _ _ _ A C Su); discriminate]. cbn [ev fold_left step_items]. rewrite C, A.
  induction (attrs_of d) as [|[q v] l IH]; cbn [flat_map]; [discriminate|]. destruct (test_q E p nm (fst (q, v))); [|exact IH]. cbn. intros [= <-]. eauto.
Qed.
Lemma own_set E e x g a t ks : own_attribute E e -> exists a', fst (mgr_set E e x (Elem g a t ks)) = Elem g a' t ks.
Proof.
  intros H. unfold mgr_set, bind, reading. destruct (find_ast E e doc_root (Elem g a t ks)) as [[r|]|y] eqn:F; [| |exists a; reflexivity].
  - destruct (own_find E e _ r H F) as [q ->]. destruct x as [v|]; [unfold ret; now apply own_set_in|].
    destruct (own_delete E e g a t ks H) as [a' D]. exists a'. unfold mgr_delete, bind, reading in D. rewrite F in D. exact D.
  - destruct x as [v|]; [|exists a; reflexivity]. pose proof H as H0. destruct (own_shape E e H) as (ax & p & nm & -> & A & C & T). cbn [build forallb]. rewrite C, A. unfold bind, create_attr, doc_root. destruct (negb _); [exists a; reflexivity|].
    cbn [upd_at set_attr]. destruct (XPathEval.resolve E (pfx p)); [|eexists; reflexivity]. cbn [iterM ret]. apply (own_set_in E _ g _ t ks _ (Some v) H0).
Qed.
(** one statement on an attribute field *)
Lemma own_rop E tbl o k e m g a t ks : rop_field o = k -> has_field tbl k e m -> own_attribute E e -> exists a', fst (run_rop E tbl o (Elem g a t ks)) = Elem g a' t ks.
Proof.
  intros Hk Hp H. destruct o as [k' v|k'|k']; cbn [rop_field] in Hk; subst k'; cbn [run_rop].
  - rewrite (set_has _ _ _ _ _ _ _ Hp). unfold typed_set. destruct (to_xml m v) as [x|y]; [|exists a; reflexivity]. destruct (own_set E e x g a t ks H) as [a' S]. exists a'. destruct (mgr_set E e x (Elem g a t ks)). exact S.
  - rewrite (del_has _ _ _ _ _ _ Hp). destruct (own_delete E e g a t ks H) as [a' S]. exists a'. destruct (mgr_delete E e (Elem g a t ks)). exact S.
  - exists a. reflexivity.
Qed.
(** the attribute fields do not see the text *)
Lemma own_settled E e g a t t' : own_attribute E e -> settled E e (Elem g a t []) -> settled E e (Elem g a t' []).
Proof.
  intros H [H1 H2]. assert (S : selects E e (Elem g a t' []) = selects E e (Elem g a t [])) by (destruct (own_shape E e H) as (ax & p & nm & -> & A & C & T); unfold selects; cbn [ev fold_left step_items]; rewrite C, A; reflexivity).
  destruct (own_shape E e H) as (ax & p & nm & -> & A & C & T). split.
  - intros l [<-|[]]. rewrite S. apply H1. now left.
  - intros b n Hi. rewrite S in Hi. eauto.
Qed.
Lemma text_record E tbl aks tf g a t t' : leaf_class E tbl aks tf -> record_of E tbl aks (Elem g a t []) -> record_of E tbl aks (Elem g a t' []).
Proof.
  intros (_ & L & _) (_ & R & F). split; [discriminate|]. split; [|exact F]. intros k Hk. destruct (R k Hk) as (e & m & A & B & C & D). exists e, m. split; [exact A|]. split; [exact B|]. split; [exact C|]. eapply own_settled; eauto.
Qed.
Lemma text_agrees E tbl aks tf g a t t' s : leaf_class E tbl aks tf -> record_of E tbl aks (Elem g a t []) -> agrees E tbl aks (Elem g a t []) s -> agrees E tbl aks (Elem g a t' []) s.
Proof.
  intros (_ & L & _) (_ & R & _) H k Hk. destruct (R k Hk) as (e & m & A & _). rewrite <- (H k Hk), !(get_has _ _ _ _ _ _ A). apply own_get. eauto.
Qed.

(** *** the text fields *)
Lemma parse_text : parse (u "text()") = Ok (EStep None (NodeType (u "text") None) []). Proof. vm_compute. reflexivity. Qed.
Lemma parse_dot : parse (u ".") = Ok (EAbbrev (u ".")). Proof. vm_compute. reflexivity. Qed.
Definition part_expr (p : part) : expr := match p with OwnText => EStep None (NodeType (u "text") None) [] | Whole => EAbbrev (u ".") end.
Lemma parse_part p : parse (part_path p) = Ok (part_expr p). Proof. destruct p; [exact parse_text|exact parse_dot]. Qed.
Lemma text_test : str_eqb (u "text") (u "text") = true. Proof. reflexivity. Qed.
Lemma eval_part E p g a t : eval_at E (part_expr p) doc_root (Elem g a t []) = Ret (XN match p with Whole => [IElem [] (Elem g a t [])] | OwnText => match t with Some s => [IText [] false s] | None => [] end end).
Proof. destruct p; [destruct t; reflexivity|reflexivity]. Qed.
Lemma set_part E p g a t v : xml_valid v = true -> mgr_set E (part_expr p) (Some v) (Elem g a t []) = (Elem g a (Some v) [], Ret tt).
Proof.
  intros V. unfold mgr_set, bind, reading, find_ast. rewrite eval_part. destruct p; [destruct t as [s|]|]; cbn [first_match ref_of]; unfold ret.
  - unfold set_in_xml, set_text_at. rewrite V. reflexivity.
  - change (build E Create (part_expr OwnText) (Some doc_root) None (Elem g a None [])) with (Elem g a None [], @Ret (option ref) (Some doc_root)). cbv beta iota. unfold set_in_xml, doc_root, set_text_at. cbn [get_at kids_of]. rewrite V. reflexivity.
  - unfold set_in_xml, set_text_at. cbn [get_at kids_of]. rewrite V. reflexivity.
Qed.
Lemma del_part E p g a t : mgr_delete E (part_expr p) (Elem g a t []) = (Elem g a (clear_part p t) [], Ret tt).
Proof. unfold mgr_delete, bind, reading, find_ast. rewrite eval_part. destruct p; [destruct t as [s|]|]; reflexivity. Qed.
Lemma none_part E p g a t : mgr_set E (part_expr p) None (Elem g a t []) = (Elem g a (clear_part p t) [], Ret tt).
Proof. unfold mgr_set, bind, reading, find_ast. rewrite eval_part. destruct p; [destruct t as [s|]|]; reflexivity. Qed.
Lemma get_part E p norm g a t : (p = OwnText -> norm = false) -> field_get E (part_expr p) (MString norm) (Elem g a t []) = Ret (read_part p norm t).
Proof.
  intros H. unfold field_get. rewrite eval_part. destruct p; [rewrite (H eq_refl); destruct t; reflexivity|]. cbn. unfold strval. destruct t as [s|]; cbn; rewrite ?app_nil_r; destruct norm; reflexivity.
Qed.
(** ** The theorem: every program of assignments, deletions and reads runs without an exception and sees what the Python side
    sees; afterwards the attribute fields hold their variables' values, the element's text is the text variable, and the
    element still has no child nodes and its own name. *)
Definition leaf_rel (E : env) (tbl : field_table) (aks : list str) (d : node) (st : leaf_state) : Prop :=
  is_leaf d (snd st) /\ record_of E tbl aks d /\ agrees E tbl aks d (fst st).
Lemma leaf_step E tbl aks tf o d st : leaf_class E tbl aks tf -> leaf_rel E tbl aks d st -> leaf_sound E tbl aks tf o ->
  let (d', r) := run_rop E tbl o d in let (st', w) := leaf_op tf (field_type tbl) o st in r = Ret w /\ leaf_rel E tbl aks d' st' /\ tag_of d' = tag_of d.
Proof.
  intros L ((g & a & ->) & R & A) Ho. unfold leaf_sound in Ho. unfold leaf_op. destruct st as [s t]. cbn [fst snd] in *. destruct (tf (rop_field o)) as [[p norm]|] eqn:Et.
  - destruct (proj2 (proj2 L) _ _ _ Et) as [Hl Hn]. assert (Hp : has_field tbl (rop_field o) (part_expr p) (MString norm)) by (exists (part_path p); split; [exact Hl|apply parse_part]).
    assert (K : forall t', leaf_rel E tbl aks (Elem g a t' []) (s, t')).
    { intros t'. split; [exists g, a; reflexivity|]. split; [eapply text_record; eauto|eapply text_agrees; eauto]. }
    destruct o as [k v|k|k]; cbn [run_rop rop_field] in *.
    + destruct (Ho k v eq_refl) as [-> |(x & -> & V)]; rewrite (set_has _ _ _ _ _ _ _ Hp); unfold typed_set; cbn [to_xml py_str].
      * rewrite none_part. auto.
      * rewrite set_part by exact V. auto.
    + rewrite (del_has _ _ _ _ _ _ Hp), del_part. auto.
    + rewrite (get_has _ _ _ _ _ _ Hp), get_part by exact Hn. auto.
  - pose proof (record_step E tbl aks o _ s R A Ho) as S. destruct Ho as [Hk _]. destruct (proj1 (proj2 R) _ Hk) as (e & m & Hp & _ & _).
    destruct (own_rop E tbl o (rop_field o) e m g a t [] eq_refl Hp (proj1 (proj2 L) _ _ _ Hk Hp)) as [a' Ha]. destruct (run_rop E tbl o (Elem g a t [])) as [d' r]. cbn [fst] in Ha. subst d'.
    destruct (rec_op (field_type tbl) o s) as [s' w]. destruct S as (-> & R' & A'). split; [reflexivity|]. split; [|reflexivity]. split; [exists g, a'; reflexivity|]. auto.
Qed.
Theorem C86_leaf : forall E tbl aks tf d s t os,
  leaf_class E tbl aks tf -> is_leaf d t -> record_of E tbl aks d -> agrees E tbl aks d s -> (forall o, In o os -> leaf_sound E tbl aks tf o) ->
  let (d', rs) := run_rops E tbl os d in let '((s', t'), ws) := leaf_ops tf (field_type tbl) os (s, t) in
  rs = map (fun w => Ret w) ws /\ (forall k, In k aks -> get_attribute E tbl k d' = Ret (s' k)) /\ is_leaf d' t' /\ tag_of d' = tag_of d.
Proof.
  intros E tbl aks tf d s t os L I R A Ho. assert (K : leaf_rel E tbl aks d (s, t)) by (split; [exact I|auto]). clear I R A. revert d K. generalize (s, t). clear s t.
  induction os as [|o os IH]; intros st d K; cbn [run_rops leaf_ops]; [destruct st as [s t], K as (K1 & K2 & K3); auto|].
  pose proof (leaf_step E tbl aks tf o d st L K (Ho o (or_introl eq_refl))) as S. destruct (run_rop E tbl o d) as [d1 r], (leaf_op tf (field_type tbl) o st) as [st1 w]. destruct S as (-> & K1 & T).
  specialize (IH (fun o' H => Ho o' (or_intror H)) st1 d1 K1). destruct (run_rops E tbl os d1) as [d2 rs], (leaf_ops tf (field_type tbl) os st1) as [[s2 t2] ws]. destruct IH as (-> & G1 & G2 & G3). rewrite G3. auto.
Qed.
(** a new object: no text, all attribute variables unset *)
Theorem C86_new_object : forall E root tbl aks tf os,
  leaf_class E tbl aks tf ->
  (forall k, In k aks -> exists e m, has_field tbl k e m /\ value_field m /\ sound_path E e) ->
  (forall k k' e e' m m', In k aks -> In k' aks -> k <> k' -> has_field tbl k e m -> has_field tbl k' e' m' -> fork E e e') ->
  (forall o, In o os -> leaf_sound E tbl aks tf o) ->
  let (d', rs) := run_rops E tbl os (new_root root) in let '((s', t'), ws) := leaf_ops tf (field_type tbl) os (fun k => unset (field_type tbl k), None) in
  rs = map (fun w => Ret w) ws /\ (forall k, In k aks -> get_attribute E tbl k d' = Ret (s' k)) /\ is_leaf d' t' /\ tag_of d' = Some root.
Proof.
  intros E root tbl aks tf os L Hf Hfk Ho.
  assert (HR : record_of E tbl aks (new_root root)).
  { split; [discriminate|]. split; [|exact Hfk]. intros k Hk. destruct (Hf k Hk) as (e & m & A & B & C). exists e, m. split; [exact A|]. split; [exact B|]. split; [exact C|]. now apply new_settled. }
  assert (HA : agrees E tbl aks (new_root root) (fun k => unset (field_type tbl k))).
  { intros k Hk. destruct (Hf k Hk) as (e & m & A & B & C). rewrite (get_has _ _ _ _ _ _ A), (has_type _ _ _ _ A). apply unset_read; [apply C|now apply new_settled|exact B]. }
  pose proof (C86_leaf E tbl aks tf (new_root root) _ None os L (ex_intro _ root (ex_intro _ [] eq_refl)) HR HA Ho) as G. exact G.
Qed.
(** ** the classes of the shipped maps *)
Definition text_part (r : row) : option (part * bool) :=
  match row_mapper r with
  | MString norm => if (str_eqb (r_xpath r) (u "text()") && negb norm)%bool then Some (OwnText, norm) else if str_eqb (r_xpath r) (u ".") then Some (Whole, norm) else None
  | _ => None
  end.
Definition is_text_row (r : row) : bool := match text_part r with Some _ => true | None => false end.
Definition attr_rows (l : list row) : list row := filter (fun r => negb (is_text_row r)) l.
(** the text fields of the class, by name *)
Definition rows_text (l : list row) : text_fields := fun k => match find (fun r => str_eqb (u (r_field r)) k) l with Some r => text_part r | None => None end.
Definition own_row (r : row) : bool :=
  match parse (r_xpath r) with Ok (EStep ax t [] as e) => match lkind (just (r_ns r)) e with Some (KAttr _) => true | _ => false end | _ => false end.
Definition leaf_rows (l : list row) : bool := (nodupb (map r_field l) && rows_good (attr_rows l) && forallb own_row (attr_rows l) && existsb is_text_row l)%bool.
Definition leaf_classes := Eval vm_compute in filter (fun c => leaf_rows (value_rows c)) classes.
Lemma leaf_classes_ok c : In c leaf_classes -> leaf_rows (value_rows c) = true.
Proof.
  assert (H : forallb (fun c => leaf_rows (value_rows c)) leaf_classes = true) by (vm_compute; reflexivity). rewrite forallb_forall in H. exact (H c).
Qed.
Lemma rows_text_row l r : nodupb (map r_field l) = true -> In r l -> rows_text l (u (r_field r)) = text_part r.
Proof.
  unfold rows_text. intros Hn Hr. pose proof (lookup_map (fun r => r) l r Hn Hr) as L. clear Hn Hr. induction l as [|x l IH]; [discriminate|]. cbn [map lookup find] in *.
  destruct (str_eqb (u (r_field r)) (u (r_field x))) eqn:Eq.
  - injection L as ->. now rewrite str_eqb_refl.
  - assert (E2 : str_eqb (u (r_field x)) (u (r_field r)) = false) by (apply not_true_iff_false; intros H; apply str_eqb_eq in H; rewrite H, str_eqb_refl in Eq; discriminate). rewrite E2. auto.
Qed.
Lemma rows_text_in l k x : rows_text l k = Some x -> exists r, In r l /\ u (r_field r) = k /\ text_part r = Some x.
Proof. unfold rows_text. destruct (find _ l) as [r|] eqn:F; [|discriminate]. apply find_some in F as [F1 F2]. apply str_eqb_eq in F2. eauto. Qed.
Lemma text_part_path r p norm : text_part r = Some (p, norm) -> r_xpath r = part_path p /\ row_mapper r = MString norm /\ (p = OwnText -> norm = false).
Proof.
  unfold text_part. destruct (row_mapper r) as [n| | | | | | |]; try discriminate. destruct (str_eqb (r_xpath r) (u "text()") && negb n)%bool eqn:E1.
  - intros [= <- <-]. apply andb_prop in E1 as [E1 E2]. apply str_eqb_eq in E1. apply negb_true_iff in E2. auto.
  - destruct (str_eqb (r_xpath r) (u ".")) eqn:E2; [|discriminate]. intros [= <- <-]. apply str_eqb_eq in E2. split; [exact E2|]. split; [reflexivity|]. discriminate.
Qed.

(** what may be assigned to a field of a class *)
Definition row_value (r : row) (v : pyval) : Prop :=
  if is_text_row r then v = PNone \/ exists s, v = PStr s /\ xml_valid s = true else keepable true (row_mapper r) v.
Lemma rows_leaf : forall l E root os,
  leaf_rows l = true -> (forall r, In r l -> In r shipped /\ is_single r = true /\ is_value (row_mapper r) = true) -> (forall r, In r l -> binds E (r_ns r)) ->
  (forall o, In o os -> exists r, In r l /\ rop_field o = u (r_field r) /\ forall v, o = RSet (u (r_field r)) v -> row_value r v) ->
  let tbl := rows_table l in
  let (d', rs) := run_rops E tbl os (new_root root) in let '((s', t'), ws) := leaf_ops (rows_text l) (field_type tbl) os (fun k => unset (field_type tbl k), None) in
  rs = map (fun w => Ret w) ws /\ (forall r, In r l -> is_text_row r = false -> get_attribute E tbl (u (r_field r)) d' = Ret (s' (u (r_field r)))) /\ is_leaf d' t' /\ tag_of d' = Some root.
Proof.
  intros l E root os Hl Hrow B Ho tbl. unfold leaf_rows in Hl. apply andb_prop in Hl as [Hl _]. apply andb_prop in Hl as [Hl Hown]. apply andb_prop in Hl as [Hnd Hc].
  unfold rows_good in Hc. apply andb_prop in Hc as [Hc Hfk]. apply andb_prop in Hc as [_ Hus].
  rewrite forallb_forall in Hus. rewrite forallb_forall in Hfk. rewrite forallb_forall in Hown.
  assert (Hin : forall r, In r (attr_rows l) <-> In r l /\ is_text_row r = false) by (intros r; unfold attr_rows; rewrite filter_In, negb_true_iff; tauto).
  assert (HF : forall r, In r (attr_rows l) -> exists e, has_field tbl (u (r_field r)) e (row_mapper r) /\ parse (r_xpath r) = Ok e /\ names_declared (r_ns r) e = true /\ sound_path E e /\ own_attribute E e).
  { intros r Hr. pose proof (proj1 (proj1 (Hin r) Hr)) as Hr0. destruct (Hrow r Hr0) as (Hsh & Hsi & Hva). pose proof (Hus r Hr) as U. unfold usable in U. apply andb_prop in U as [U U3]. apply andb_prop in U as [U1 U2]. apply negb_true_iff in U1, U3.
    destruct (single_facts r E Hsh Hsi U1 (B r Hr0)) as (e & Hp & Hsp & Htm & Hbe & Hte). destruct (C71_xpaths_parse r Hsh) as (e0 & He0 & Hnm). rewrite Hp in He0. injection He0 as <-.
    exists e. split; [exists (r_xpath r); split; [unfold tbl, rows_table; now apply (lookup_map (fun r => (r_xpath r, row_mapper r)))|exact Hp]|]. split; [exact Hp|]. split; [exact Hnm|].
    pose proof (Hown r Hr) as W. unfold own_row in W. rewrite Hp in W. destruct e as [| | | | | | |ax t [|q ps]| | |]; try discriminate W.
    assert (K : exists q, lkind E (EStep ax t []) = Some (KAttr q)). { rewrite (lkind_agree E (r_ns r) (B r Hr0) _ Hnm). revert W. destruct (lkind (just (r_ns r)) (EStep ax t [])) as [[q|q|]|]; intros W; try discriminate W. eauto. }
    destruct K as [q K]. split; [|split; [eauto|eauto]].
    split; [exact Hsp|]. split; [rewrite K; discriminate|]. split; [rewrite K; discriminate|]. split; [exact Htm|]. split; [exact Hbe|reflexivity]. }
  set (ks := map (fun r => u (r_field r)) (attr_rows l)).
  assert (L : leaf_class E tbl ks (rows_text l)).
  { split; [|split].
    - intros k Hk. apply in_map_iff in Hk as (r & <- & Hr). apply Hin in Hr as [Hr Ht]. rewrite (rows_text_row l r Hnd Hr). unfold is_text_row in Ht. now destruct (text_part r).
    - intros k e m Hk Hp. apply in_map_iff in Hk as (r & <- & Hr). destruct (HF r Hr) as (e1 & F1 & _ & _ & _ & F5). destruct (has_fun _ _ _ _ _ _ Hp F1) as [-> _]. exact F5.
    - intros k p norm Hk. apply rows_text_in in Hk as (r & Hr & <- & Ht). apply text_part_path in Ht as (T1 & T2 & T3). split; [|exact T3]. unfold tbl, rows_table. rewrite <- T1, <- T2. now apply (lookup_map (fun r => (r_xpath r, row_mapper r))). }
  pose proof (C86_new_object E root tbl ks (rows_text l) os L) as G.
  assert (G1 : forall k, In k ks -> exists e m, has_field tbl k e m /\ value_field m /\ sound_path E e).
  { intros k Hk. apply in_map_iff in Hk as (r & <- & Hr). destruct (HF r Hr) as (e & A & _ & _ & C & _). exists e, (row_mapper r). split; [exact A|]. split; [|exact C]. destruct (Hrow r (proj1 (proj1 (Hin r) Hr))) as (_ & _ & Hv). destruct (row_mapper r); try discriminate Hv; exact I. }
  assert (G2 : forall k k' e e' m m', In k ks -> In k' ks -> k <> k' -> has_field tbl k e m -> has_field tbl k' e' m' -> fork E e e').
  { intros k k' e e' m m' Hi Hi' Hne Hp Hp'. apply in_map_iff in Hi as (r & <- & Hr). apply in_map_iff in Hi' as (r' & <- & Hr').
    destruct (HF r Hr) as (e1 & F1 & F2 & F3 & _), (HF r' Hr') as (e2 & I1 & I2 & _). destruct (has_fun _ _ _ _ _ _ Hp F1) as [-> _]. destruct (has_fun _ _ _ _ _ _ Hp' I1) as [-> _].
    pose proof (Hfk r Hr) as Q. rewrite forallb_forall in Q. specialize (Q r' Hr'). apply orb_true_iff in Q as [Q|Q]; [apply String.eqb_eq in Q; congruence|].
    unfold row_forkb in Q. rewrite F2, I2 in Q. apply andb_prop in Q as [Hnb Q]. apply forkb_ok in Q. exact (fork_agree E (r_ns r) _ _ (B r (proj1 (proj1 (Hin r) Hr))) F3 Hnb Q). }
  assert (G3 : forall o, In o os -> leaf_sound E tbl ks (rows_text l) o).
  { intros o Hi. destruct (Ho o Hi) as (r & Hr & Hf & Hv). unfold leaf_sound. rewrite Hf, (rows_text_row l r Hnd Hr). unfold row_value, is_text_row in Hv. destruct (text_part r) as [pn|] eqn:Et.
    - intros k v ->. cbn [rop_field] in Hf. subst k. exact (Hv v eq_refl).
    - assert (Hr' : In r (attr_rows l)) by (apply Hin; unfold is_text_row; rewrite Et; auto).
      split; [rewrite Hf; unfold ks; apply in_map_iff; eauto|]. intros k v e m -> Hp. cbn [rop_field] in Hf. subst k. specialize (Hv v eq_refl).
      destruct (HF r Hr') as (e1 & F1 & _ & _ & _ & (_ & q & F5)). destruct (has_fun _ _ _ _ _ _ Hp F1) as [-> ->]. unfold is_attr_field. rewrite F5. exact Hv. }
  specialize (G G1 G2 G3). destruct (run_rops E tbl os (new_root root)) as [d' rs], (leaf_ops (rows_text l) (field_type tbl) os (fun k => unset (field_type tbl k), None)) as [[s' t'] ws]. destruct G as (A & C & D & F). split; [exact A|]. split; [|auto].
  intros r Hr Ht. apply C. unfold ks. apply in_map_iff. exists r. split; [reflexivity|]. now apply Hin.
Qed.
(** 15 classes of the shipped maps: every program that creates an object and then assigns, deletes and reads its fields *)
Theorem C86_shipped_classes : forall c E root os,
  In c leaf_classes -> (forall r, In r (value_rows c) -> binds E (r_ns r)) ->
  (forall o, In o os -> exists r, In r (value_rows c) /\ rop_field o = u (r_field r) /\ forall v, o = RSet (u (r_field r)) v -> row_value r v) ->
  let tbl := rows_table (value_rows c) in
  let (d', rs) := run_rops E tbl os (new_root root) in let '((s', t'), ws) := leaf_ops (rows_text (value_rows c)) (field_type tbl) os (fun k => unset (field_type tbl k), None) in
  rs = map (fun w => Ret w) ws /\ (forall r, In r (value_rows c) -> is_text_row r = false -> get_attribute E tbl (u (r_field r)) d' = Ret (s' (u (r_field r)))) /\ is_leaf d' t' /\ tag_of d' = Some root.
Proof.
  intros c E root os Hc. apply leaf_classes_ok in Hc. pose proof (value_rows_in c) as Hrow. revert Hc Hrow. generalize (value_rows c). intros l H1 Hrow B Ho. exact (rows_leaf l E root os H1 Hrow B Ho).
Qed.
Open Scope string_scope.
(** ** concrete cases *)
(** mods.Note: label, type and text *)
Definition note_prog : list rop := [RGet (u "text"); RSet (u "text") (PStr (u "first")); RSet (u "type") (PStr (u "source")); RDel (u "text"); RGet (u "text"); RGet (u "type"); RSet (u "text") (PStr (u "second")); RSet (u "type") PNone; RGet (u "type"); RGet (u "text")].
Example C86_note_case : In "Note" leaf_classes /\ (forall o, In o note_prog -> exists r, In r (value_rows "Note") /\ rop_field o = u (r_field r) /\ forall v, o = RSet (u (r_field r)) v -> row_value r v) /\
  snd (leaf_ops (rows_text (value_rows "Note")) (field_type (rows_table (value_rows "Note"))) note_prog (fun _ => PNone, None)) =
    [PNone; PNone; PNone; PNone; PStr []; PStr (u "source"); PNone; PNone; PNone; PStr (u "second")] /\
  fst (run_rops E0 (rows_table (value_rows "Note")) note_prog (new_root (QN None (u "note")))) = Elem (QN None (u "note")) [] (Some (u "second")) [].
Proof.
  split; [vm_compute; tauto|]. split; [|split; [vm_compute; reflexivity|vm_compute; reflexivity]].
  assert (R : exists rt ry, In rt (value_rows "Note") /\ In ry (value_rows "Note") /\ u (r_field rt) = u "text" /\ u (r_field ry) = u "type" /\ is_text_row rt = true /\ is_text_row ry = false /\ row_mapper ry = MString false).
  { assert (X1 : existsb (fun r => String.eqb (r_field r) "text" && is_text_row r)%bool (value_rows "Note") = true) by (vm_compute; reflexivity).
    assert (X2 : existsb (fun r => String.eqb (r_field r) "type" && negb (is_text_row r) && match row_mapper r with MString false => true | _ => false end)%bool (value_rows "Note") = true) by (vm_compute; reflexivity).
    apply existsb_exists in X1 as (rt & A1 & X1), X2 as (ry & A2 & X2). apply andb_prop in X1 as [X1 X1']. apply andb_prop in X2 as [X2 X2']. apply andb_prop in X2 as [X2 X2'']. apply String.eqb_eq in X1, X2. apply negb_true_iff in X2''.
    exists rt, ry. split; [exact A1|]. split; [exact A2|]. split; [now rewrite X1|]. split; [now rewrite X2|]. split; [exact X1'|]. split; [exact X2''|]. destruct (row_mapper ry) as [[|]| | | | | | |]; try discriminate X2'. reflexivity. }
  destruct R as (rt & ry & H1 & H2 & T1 & T2 & I1 & I2 & M).
  intros o Ho. cbn [note_prog In] in Ho.
  assert (HT : forall o, rop_field o = u "text" -> (forall k v, o = RSet k v -> v = PNone \/ exists s, v = PStr s /\ xml_valid s = true) -> exists r, In r (value_rows "Note") /\ rop_field o = u (r_field r) /\ forall v, o = RSet (u (r_field r)) v -> row_value r v).
  { intros o' F V. exists rt. split; [exact H1|]. split; [now rewrite T1|]. intros v E. unfold row_value. rewrite I1. eauto. }
  assert (HY : forall o, rop_field o = u "type" -> (forall k v, o = RSet k v -> v = PNone \/ exists s, v = PStr s /\ xml_valid s = true) -> exists r, In r (value_rows "Note") /\ rop_field o = u (r_field r) /\ forall v, o = RSet (u (r_field r)) v -> row_value r v).
  { intros o' F V. exists ry. split; [exact H2|]. split; [now rewrite T2|]. intros v E. unfold row_value. rewrite I2, M. destruct (V _ _ E) as [-> |(s & -> & X)]; [exact I|]. split; [exact X|]. discriminate. }
  repeat (destruct Ho as [<-|Ho]; [first [apply HT; [reflexivity|]|apply HY; [reflexivity|]]; intros k v [= _ <-]; clear -k; first [left; reflexivity|right; eexists; split; [reflexivity|vm_compute; reflexivity]]|]). destruct Ho.
Qed.
(** what a user may not expect: a deleted text() field reads the empty string, and a field with XPath [.] cannot be deleted *)
Example C86_delete_case :
  snd (leaf_ops (fun k => if str_eqb k (u "t") then Some (OwnText, false) else Some (Whole, true)) (fun _ => MString false)
     [RSet (u "t") (PStr (u " a  b ")); RDel (u "w"); RGet (u "w"); RDel (u "t"); RGet (u "t"); RGet (u "w")] (fun _ => PNone, None)) =
  [PNone; PNone; PStr (u "a b"); PNone; PStr []; PStr []].
Proof. vm_compute. reflexivity. Qed.
(** where the condition fails: an element with child elements cannot be given text through [.] *)
Example C86_children_differ : snd (run_rops E0 [(u "w", (u ".", MString false))] [RSet (u "w") (PStr (u "x"))] (el "r" [] "" [el "a" [] "" []])) = [Exc XNotText].
Proof. vm_compute. reflexivity. Qed.
Close Scope string_scope.
Print Assumptions C86_leaf.
Print Assumptions C86_new_object.
Print Assumptions C86_shipped_classes.
