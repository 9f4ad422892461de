(** PREMIS version (C49), TEI indentation and EAD titles (C50), EAD series (C55). *)
From Coq Require Import String List Arith NArith ZArith Bool Lia.
From Verif Require Import Vocab MapperProofs.
From Verif Require Import XPathEval.
Import ListNotations.
Opaque u.

(** ** Specification *)
Definition attr (n : string) (d : node) : option str := attr_get (QN None (u n)) (attrs_of d).
(** [d] is [d0] but for the value of the attribute [n] *)
Definition same_but_attr (n : string) (d0 d : node) : Prop :=
  exists q a a' t ks, d0 = Elem q a t ks /\ d = Elem q a' t ks /\ forall q', q' <> QN None (u n) -> attr_get q' a' = attr_get q' a.
Definition is_elem (d : node) : Prop := exists q a t ks, d = Elem q a t ks.
Definition called (n : string) (k : node) : Prop := exists a t ks, k = Elem (en n) a t ks.
Definition storable (s : str) : Prop := forall c, In c s -> xml_char c = true.

(** ** lemmas *)
Definition plain (n : string) : Prop := str_eqb (u n) (u "*") = false.
Definition ahits (n : string) (d : node) : list item := flat_map (fun x : qname * str => if qeqb (fst x) (QN None (u n)) then [IAttr [] (fst x) (snd x)] else []) (attrs_of d).
Lemma eval_atx E n d : plain n -> eval_at E (atx n) doc_root d = Ret (XN (ahits n d)).
Proof.
  intros H. unfold eval_at, doc_root. cbn [get_at]. unfold xpath. change (supported E (atx n)) with true. cbn iota. unfold atx. cbn [ev fold_left step_items]. change (child_axis (Some (u "@"))) with false. change (attr_axis (Some (u "@"))) with true. cbn iota.
  do 2 f_equal. unfold ahits. apply flat_map_ext. intros x. unfold test_q. rewrite H. reflexivity.
Qed.
Lemma ahits_spec n d : (ahits n d = [] /\ attr n d = None) \/ exists v r, ahits n d = IAttr [] (QN None (u n)) v :: r /\ attr n d = Some v.
Proof.
  unfold ahits, attr. induction (attrs_of d) as [|[q v] ats IH]; [left; split; reflexivity|]. cbn [flat_map attr_get fst snd]. rewrite (qeqb_sym (QN None (u n)) q).
  destruct (qeqb q (QN None (u n))) eqn:E; [apply qeqb_eq in E; subst q; right; exists v; eexists; split; reflexivity|exact IH].
Qed.
Lemma get_atx E n d : plain n -> get_string E (atx n) d = Ret (attr n d).
Proof. intros H. unfold get_string. rewrite eval_atx by assumption. destruct (ahits_spec n d) as [[-> ->]|(v & r & -> & ->)]; reflexivity. Qed.
Lemma find_atx E n d : plain n -> find_ast E (atx n) doc_root d = Ret (match attr n d with Some _ => Some (RAttr [] (QN None (u n))) | None => None end).
Proof. intros H. unfold find_ast. rewrite eval_atx by assumption. destruct (ahits_spec n d) as [[-> ->]|(v & r & -> & ->)]; reflexivity. Qed.
Lemma attr_set_set q v w l : attr_set q v (attr_set q w l) = attr_set q v l.
Proof. induction l as [|[q' v'] l IH]; cbn; [now rewrite qeqb_refl|]. destruct (qeqb q q') eqn:E; cbn; rewrite E; [reflexivity|now rewrite IH]. Qed.
Lemma attr_get_set q v l : attr_get q (attr_set q v l) = Some v.
Proof. induction l as [|[q' v'] l IH]; cbn; [now rewrite qeqb_refl|]. destruct (qeqb q q') eqn:E; cbn; rewrite E; auto. Qed.
Lemma attr_get_set_other q q' v l : q' <> q -> attr_get q' (attr_set q v l) = attr_get q' l.
Proof.
  intros H. induction l as [|[q0 v0] l IH]; cbn; [now apply qeqb_neq in H as ->|]. destruct (qeqb q q0) eqn:E; cbn; [|now rewrite IH].
  apply qeqb_eq in E. subst q0. now apply qeqb_neq in H as ->.
Qed.
Lemma set_version E v q a t ks : xml_valid v = true -> mgr_set E (atx "version") (Some v) (Elem q a t ks) = (Elem q (attr_set (QN None (u "version")) v a) t ks, Ret tt).
Proof.
  intros Hv. unfold mgr_set, bind, reading. rewrite find_atx by reflexivity. unfold attr. cbn [attrs_of].
  destruct (attr_get (QN None (u "version")) a) as [w|] eqn:Ew.
  - unfold ret, set_in_xml. change (is_text_nodetest (terminal_step (atx "version"))) with false. cbn iota. unfold set_attr_at, atx. cbn [terminal_step]. change (name_valid (u "version")) with true. cbn [negb]. rewrite Hv. reflexivity.
  - unfold atx at 1. cbn [build forallb]. change (child_axis (Some (u "@"))) with false. change (attr_axis (Some (u "@"))) with true. cbn iota.
    unfold bind, create_attr, doc_root. change (name_valid (u "version")) with true. cbn [negb resolve pfx iterM ret upd_at set_attr]. unfold set_in_xml. change (is_text_nodetest (terminal_step (atx "version"))) with false. cbn iota.
    unfold set_attr_at, atx. cbn [terminal_step]. change (name_valid (u "version")) with true. cbn [negb]. rewrite Hv. cbn [upd_at set_attr attr_name pfx]. now rewrite attr_set_set.
Qed.
Lemma set_same v a q t ks : same_but_attr "version" (Elem q a t ks) (Elem q (attr_set (QN None (u "version")) v a) t ks).
Proof. exists q, a, (attr_set (QN None (u "version")) v a), t, ks. split; [|split]; auto. intros q' H. now apply attr_get_set_other. Qed.
Lemma storable_valid s : storable s -> xml_valid s = true.
Proof. intros H. now apply forallb_forall. Qed.

(** ** C49 *)
(** a new object: version 2.1, and nothing else *)
Theorem C49_new : forall E, premis_init E None None = (Elem (QN (Some (u "info:lc/xmlns/premis-v2")) (u "premis")) [(QN None (u "version"), u "2.1")] None [], Ret tt).
Proof. intros E. unfold premis_init, premis_root. rewrite set_version by (vm_compute; reflexivity). reflexivity. Qed.
(** a version given by the user is stored, in new and in loaded objects, and nothing else changes *)
Theorem C49_given : forall E d v, is_elem d -> storable v -> exists d', premis_init E (Some d) (Some (Some v)) = (d', Ret tt) /\ attr "version" d' = Some v /\ same_but_attr "version" d d'.
Proof.
  intros E d v (q & a & t & ks & ->) Hv. eexists. split; [apply set_version; now apply storable_valid|]. split; [apply attr_get_set|apply set_same].
Qed.
Theorem C49_given_new : forall E v, storable v -> exists d, premis_init E None (Some (Some v)) = (d, Ret tt) /\ attr "version" d = Some v.
Proof. intros E v Hv. eexists. split; [apply set_version; now apply storable_valid|]. reflexivity. Qed.
(** loading keeps everything but the version *)
Theorem C49_load_partial : forall E d, is_elem d -> exists d', premis_init E (Some d) None = (d', Ret tt) /\ same_but_attr "version" d d' /\ (attr "version" d = Some (u "2.1") -> d' = d).
Proof.
  intros E d (q & a & t & ks & ->). eexists. split; [apply set_version; vm_compute; reflexivity|]. split; [apply set_same|]. unfold attr. cbn [attrs_of]. intros H. f_equal.
  induction a as [|[q' v'] a IH]; [discriminate|]. cbn in *. destruct (qeqb _ q'); [congruence|now rewrite IH].
Qed.
(** ... but the version of the document is overwritten, whatever it was *)
Theorem C49_load_refuted : forall E d, is_elem d -> exists d', premis_init E (Some d) None = (d', Ret tt) /\ attr "version" d' = Some (u "2.1").
Proof. intros E d (q & a & t & ks & ->). eexists. split; [apply set_version; vm_compute; reflexivity|]. apply attr_get_set. Qed.
Example C49_case : forall E, premis_init E (Some (Elem (QN (Some premis_ns) (u "premis")) [(QN None (u "version"), u "3.0")] None [])) None =
  (Elem (QN (Some premis_ns) (u "premis")) [(QN None (u "version"), u "2.1")] None [], Ret tt).
Proof. intros E. unfold premis_init. now rewrite set_version by (vm_compute; reflexivity). Qed.
Example C49_path : parse (u "@version") = Ok (atx "version") /\ parse (u "@rend") = Ok (atx "rend") /\ parse (u "e:unitdate") = Ok (ex "unitdate").
Proof. repeat match goal with |- _ /\ _ => split end; vm_compute; reflexivity. Qed.

(** ** C50: TeiLine.indent *)
Lemma cut_prefix_app p s : cut_prefix p (p ++ s) = Some s.
Proof. induction p as [|c p IH]; [now destruct s|]. cbn. now rewrite N.eqb_refl. Qed.
Lemma cut_prefix_spec p : forall s r, cut_prefix p s = Some r -> s = p ++ r.
Proof. induction p as [|c p IH]; intros s r H; [destruct s; cbn in H; injection H as <-; reflexivity|]. destruct s as [|c' s]; [discriminate|]. cbn in H. destruct (N.eqb_spec c c'); [|discriminate]. subst. cbn. f_equal. now apply IH. Qed.
Lemma str_of_Z_nonempty z : str_of_Z z <> [].
Proof. intros H. pose proof (py_int_str z) as G. rewrite H in G. discriminate. Qed.
Theorem C50_indent_number : forall E d z, attr "rend" d = Some (u "indent" ++ str_of_Z z) -> tei_indent E d = Ret (Some z).
Proof.
  intros E d z H. unfold tei_indent. rewrite get_atx, H by reflexivity. rewrite cut_prefix_app. pose proof (str_of_Z_nonempty z). pose proof (py_int_str z) as G. destruct (str_of_Z z); [contradiction|]. now rewrite G.
Qed.
Theorem C50_indent_none : forall E d, attr "rend" d = Some (u "indent") -> tei_indent E d = Ret (Some 0%Z).
Proof. intros E d H. unfold tei_indent. rewrite get_atx, H by reflexivity. rewrite <- (app_nil_r (u "indent")) at 2. now rewrite cut_prefix_app. Qed.
(** other values of @rend: no indentation *)
Theorem C50_indent_other : forall E d s, attr "rend" d = Some s -> (forall r, s <> u "indent" ++ r) -> tei_indent E d = Ret None.
Proof. intros E d s H Hs. unfold tei_indent. rewrite get_atx, H by reflexivity. destruct (cut_prefix (u "indent") s) eqn:Ec; [|reflexivity]. apply cut_prefix_spec in Ec. now apply Hs in Ec. Qed.
(** lines without @rend raise AttributeError, and so ValueError for anything after 'indent' that is not a number *)
Theorem C50_indent_refuted : forall E d, attr "rend" d = None -> tei_indent E d = Exc XAttr.
Proof. intros E d H. unfold tei_indent. now rewrite get_atx, H by reflexivity. Qed.
Theorem C50_indent_value_refuted : forall E d r, r <> [] -> py_int r = None -> attr "rend" d = Some (u "indent" ++ r) -> tei_indent E d = Exc XValue.
Proof. intros E d r Hr Hi H. unfold tei_indent. rewrite get_atx, H by reflexivity. rewrite cut_prefix_app. destruct r; [contradiction|]. now rewrite Hi. Qed.
Example C50_indent_case : tei_indent Ee (Elem (en "l") [(QN None (u "rend"), u "indent12")] None []) = Ret (Some 12%Z) /\ tei_indent Ee (Elem (en "l") [(QN None (u "rend"), u "indented")] None []) = Exc XValue.
Proof. split; vm_compute; reflexivity. Qed.

(** ** C50: UnitTitle.short *)
Definition is_date (k : node) : bool := match k with Elem q _ _ _ => qeqb q (en "unitdate") | Misc _ => false end.
Lemma is_date_called k : is_date k = true <-> called "unitdate" k.
Proof. unfold called. destruct k as [q a t ks|s]; cbn; [rewrite qeqb_eq|]; split; try discriminate; [intros ->; eauto|intros (? & ? & ? & [= -> _ _ _]); reflexivity|intros (? & ? & ? & [=])]. Qed.
Fixpoint first_date (i : nat) (ks : list (node * option str)) : option nat :=
  match ks with [] => None | k :: r => if is_date (fst k) then Some i else first_date (S i) r end.
Lemma find_unitdate d : find_ast Ee (ex "unitdate") doc_root d = Ret (match first_date 0 (kids_of d) with Some i => Some (RElem [i]) | None => None end).
Proof.
  unfold find_ast, eval_at, doc_root. cbn [get_at]. unfold xpath. change (supported Ee (ex "unitdate")) with true. cbn iota. unfold ex. cbn [ev fold_left step_items]. change (child_axis None) with true. cbn iota. f_equal. unfold kid_items.
  generalize 0 as i. induction (kids_of d) as [|k ks IH]; intros i; [reflexivity|]. cbn [enum flat_map fst snd first_date]. replace (test_node Ee (Some (u "e")) (u "unitdate") (fst k)) with (is_date (fst k)) by (destruct (fst k); reflexivity).
  destruct (is_date (fst k)); [reflexivity|apply IH].
Qed.
Lemma first_date_split ks : forall j i, first_date j ks = Some i -> exists pre k tl post, ks = pre ++ (k, tl) :: post /\ i = j + length pre /\ called "unitdate" k /\ Forall (fun x => ~ called "unitdate" (fst x)) pre.
Proof.
  induction ks as [|[k tl] ks IH]; intros j i H; [discriminate|]. cbn in H. destruct (is_date k) eqn:E.
  - injection H as <-. exists [], k, tl, ks. cbn. rewrite Nat.add_0_r. apply is_date_called in E. auto.
  - apply IH in H as (pre & k0 & tl0 & post & -> & -> & Hc & Hp). exists ((k, tl) :: pre), k0, tl0, post. cbn. split; [reflexivity|]. split; [lia|]. split; [assumption|]. constructor; [|assumption]. cbn. rewrite <- is_date_called. congruence.
Qed.
Lemma first_date_none ks : forall j, first_date j ks = None -> Forall (fun x => ~ called "unitdate" (fst x)) ks.
Proof. induction ks as [|[k tl] ks IH]; intros j H; constructor; cbn in *; destruct (is_date k) eqn:E; try discriminate; [rewrite <- is_date_called; congruence|eauto]. Qed.
Lemma remove_nth_app {A} (pre post : list A) x : remove_nth (length pre) (pre ++ x :: post) = pre ++ post.
Proof. unfold remove_nth. induction pre as [|y pre IH]; [reflexivity|]. cbn in *. now rewrite IH. Qed.
(** the original is not modified; without a unitdate among its children the object itself is returned; otherwise the first one
    and the text right after it are removed, and all else is kept *)
Theorem C50_short_partial : forall q a t ks, exists r, unit_short (Elem q a t ks) = (Elem q a t ks, Ret r) /\
  ((r = Itself /\ forall k tl, In (k, tl) ks -> ~ called "unitdate" k) \/
   exists pre k tl post, ks = pre ++ (k, tl) :: post /\ called "unitdate" k /\ (forall k' tl', In (k', tl') pre -> ~ called "unitdate" k') /\ r = Copy (Elem q a t (pre ++ post))).
Proof.
  intros q a t ks. unfold unit_short. rewrite find_unitdate. cbn [kids_of]. destruct (first_date 0 ks) as [i|] eqn:E.
  - apply first_date_split in E as (pre & k & tl & post & -> & -> & Hc & Hp). cbn [Nat.add]. unfold remove_at, last_index. cbn [last upd_at remove_kid set_kids]. rewrite remove_nth_app. eexists. split; [reflexivity|]. right.
    exists pre, k, tl, post. rewrite Forall_forall in Hp. repeat match goal with |- _ /\ _ => split end; auto. intros k' tl' H. exact (Hp _ H).
  - exists Itself. split; [reflexivity|]. left. split; [reflexivity|]. apply first_date_none in E. rewrite Forall_forall in E. intros k tl H. exact (E _ H).
Qed.
(** the title's text, if nothing follows the date *)
Theorem C50_short_text_partial : forall q a t pre k post, called "unitdate" k -> (forall k' tl', In (k', tl') pre -> ~ called "unitdate" k') ->
  exists c, unit_short (Elem q a t (pre ++ (k, None) :: post)) = (Elem q a t (pre ++ (k, None) :: post), Ret (Copy c)) /\
    exists x y, strval (Elem q a t (pre ++ (k, None) :: post)) = x ++ strval k ++ y /\ strval c = x ++ y.
Proof.
  intros q a t pre k post Hk Hp. destruct (C50_short_partial q a t (pre ++ (k, None) :: post)) as (r & Hr & H). rewrite Hr. destruct H as [[_ H]|(pre' & k' & tl' & post' & H1 & H2 & H3 & ->)].
  - exfalso. apply (H k None); auto. apply in_or_app. right. now left.
  - assert (pre' = pre /\ k' = k /\ tl' = None /\ post' = post) as (-> & -> & -> & ->).
    { clear Hr. revert pre' H1 H3. induction pre as [|[k0 tl0] pre IH]; intros [|[k1 tl1] pre'] H1 H3; cbn in H1.
      - injection H1 as <- <- <-. auto.
      - injection H1 as <- <- H1. exfalso. apply (H3 k None); auto. now left.
      - injection H1 as -> -> H1. exfalso. apply (Hp k' tl'); auto. now left.
      - injection H1 as -> -> H1. destruct (IH (fun a b h => Hp a b (or_intror h)) pre' H1 (fun a b h => H3 a b (or_intror h))) as (-> & -> & -> & ->). auto. }
    eexists. split; [reflexivity|]. cbn [strval]. exists (ostr t ++ flat_map (fun k => strval (fst k) ++ ostr (snd k)) pre), (flat_map (fun k => strval (fst k) ++ ostr (snd k)) post).
    rewrite !flat_map_app. cbn [flat_map fst snd ostr]. rewrite app_nil_r, <- !app_assoc. auto.
Qed.
(** text after the date is lost *)
Theorem C50_short_refuted : let ud := Elem (en "unitdate") [] (Some (u "1900")) [] in
  unit_short (Elem (en "unittitle") [] (Some (u "Diary, ")) [(ud, Some (u ", in Dutch"))]) =
  (Elem (en "unittitle") [] (Some (u "Diary, ")) [(ud, Some (u ", in Dutch"))], Ret (Copy (Elem (en "unittitle") [] (Some (u "Diary, ")) []))).
Proof. vm_compute. reflexivity. Qed.

(** ** C55 *)
(** [c] is the first child of [d] with one of these names *)
Definition first_component (ns : list string) (d c : node) : Prop :=
  exists pre tl post, kids_of d = pre ++ (c, tl) :: post /\ (exists n, In n ns /\ called n c) /\ forall k tl' n, In (k, tl') pre -> In n ns -> ~ called n k.
Lemma named_called ns k : named ns k = true <-> exists n, In n ns /\ called n k.
Proof.
  unfold named, called. destruct k as [q a t ks|s].
  - rewrite existsb_exists. split; intros (n & H1 & H2); exists n; split; auto; [apply qeqb_eq in H2; subst; eauto|]. destruct H2 as (? & ? & ? & [= -> _ _ _]). apply qeqb_refl.
  - split; [discriminate|]. intros (n & _ & ? & ? & ? & [=]).
Qed.
Lemma comps_first ns d : match comps ns d with [] => forall c, ~ first_component ns d c | c :: _ => forall c', first_component ns d c' <-> c' = c end.
Proof.
  unfold comps, first_component. generalize (kids_of d) as l. induction l as [|[k tl] l IH]; cbn [map filter fst].
  - intros c (pre & tl & post & H & _). destruct pre; discriminate.
  - destruct (named ns k) eqn:E.
    + intros c'. apply named_called in E. split.
      * intros ([|[k0 tl0] pre] & tl' & post & H & Hc & Hp); cbn in H; [congruence|]. injection H as <- <- H. destruct E as (n & Hn & Hk). exfalso. apply (Hp k tl n); auto. now left.
      * intros ->. exists [], tl, l. split; [reflexivity|]. split; [assumption|]. intros ? ? ? [].
    + assert (X : forall c, (exists pre tl0 post, (k, tl) :: l = pre ++ (c, tl0) :: post /\ (exists n, In n ns /\ called n c) /\ forall k tl' n, In (k, tl') pre -> In n ns -> ~ called n k) <->
        (exists pre tl0 post, l = pre ++ (c, tl0) :: post /\ (exists n, In n ns /\ called n c) /\ forall k tl' n, In (k, tl') pre -> In n ns -> ~ called n k)).
      { intros c. split.
        - intros ([|[k0 tl0] pre] & tl' & post & H & Hc & Hp); cbn in H.
          + injection H as -> -> ->. apply named_called in Hc. congruence.
          + injection H as <- <- H. exists pre, tl', post. split; [assumption|]. split; [assumption|]. intros ? ? ? Hi. apply (Hp _ _ _ (or_intror Hi)).
        - intros (pre & tl' & post & -> & Hc & Hp). exists ((k, tl) :: pre), tl', post. split; [reflexivity|]. split; [assumption|]. intros k1 tl1 n [[= <- <-]|Hi] Hn; [|now apply (Hp k1 tl1)]. intros Hk. assert (named ns k = true) by (apply named_called; eauto). congruence. }
      destruct (filter (named ns) (map fst l)) as [|c r]; [intros c; rewrite X; apply IH|intros c'; rewrite X; apply IH].
Qed.
Lemma is_level_spec l d : is_level l d = true <-> exists s, In s l /\ attr "level" d = Some (u s).
Proof.
  unfold is_level, level, attr. destruct (attr_get _ _) as [s|]; [|split; [discriminate|intros (? & _ & [=])]]. unfold str_mem. rewrite existsb_exists. split.
  - intros (x & Hx & Hs). apply str_eqb_eq in Hs. subst x. apply in_map_iff in Hx as (y & <- & Hy). eauto.
  - intros (y & Hy & [= ->]). exists (u y). split; [now apply in_map|]. now apply str_eqb_eq.
Qed.
Definition sub_levels : list string := ["c02"; "c03"; "c04"; "c05"; "c06"; "c07"; "c08"; "c09"; "c10"; "c11"; "c12"]%string.
Lemma comps_some ns d : (match comps ns d with [] => false | _ => true end) = true <-> exists c, first_component ns d c.
Proof. pose proof (comps_first ns d) as H. destruct (comps ns d) as [|c r]; split; try discriminate; auto; [intros [c Hc]; now apply H in Hc|]. intros _. exists c. now apply H. Qed.
Theorem C55_subseries : forall d, has_subseries d = true <-> exists c, first_component sub_levels d c /\
  (attr "level" c = Some (u "series") \/ attr "level" c = Some (u "subseries") \/ exists c', first_component sub_levels c c').
Proof.
  intros d. unfold has_subseries. change level_names with sub_levels. pose proof (comps_first sub_levels d) as H. destruct (comps sub_levels d) as [|c r].
  - split; [discriminate|]. intros (c & Hc & _). now apply H in Hc.
  - rewrite orb_true_iff, comps_some, is_level_spec. split.
    + intros G. exists c. split; [now apply H|]. destruct G as [(s & [<-|[<-|[]]] & G)|G]; auto.
    + intros (c' & Hc & G). apply H in Hc. subst c'. destruct G as [G|[G|G]]; auto; left; eexists; split; try exact G; cbn; auto.
Qed.
Theorem C55_series : forall d, has_series d = true <-> exists c, first_component ["c01"%string] d c /\
  (attr "level" c = Some (u "series") \/ exists c', first_component sub_levels c c').
Proof.
  intros d. unfold has_series. change level_names with sub_levels. pose proof (comps_first ["c01"%string] d) as H. destruct (comps ["c01"%string] d) as [|c r].
  - split; [discriminate|]. intros (c & Hc & _). now apply H in Hc.
  - rewrite orb_true_iff, comps_some, is_level_spec. split.
    + intros G. exists c. split; [now apply H|]. destruct G as [(s & [<-|[]] & G)|G]; auto.
    + intros (c' & Hc & G). apply H in Hc. subst c'. destruct G as [G|G]; auto; left; eexists; split; try exact G; cbn; auto.
Qed.
Definition ce (n l : string) (ks : list node) : node := Elem (en n) [(QN None (u "level"), u l)] None (map (fun k => (k, None)) ks).
Example C55_case : 
  has_series (ce "dsc" "" [ce "head" "" []; ce "c01" "series" []]) = true /\ has_series (ce "dsc" "" [ce "c01" "file" []; ce "c01" "series" []]) = false /\
  has_series (ce "dsc" "" [ce "c01" "file" [ce "c02" "file" []]]) = true /\ has_subseries (ce "c01" "series" [ce "c02" "subseries" []]) = true /\ has_subseries (ce "c01" "series" [ce "c02" "file" []]) = false.
Proof. repeat match goal with |- _ /\ _ => split end; vm_compute; reflexivity. Qed.
Print Assumptions C49_load_partial.
Print Assumptions C50_short_text_partial.
Print Assumptions C55_subseries.
