(** C75: building an object from keyword arguments. *)
From Coq Require Import String Arith ZArith Lia Permutation.
From Verif Require Export Construct Props_Share.
From Verif Require Import XPathEval FieldSpec DocSpec IndepSpec.

Opaque u.

(** ** Specification *)
(** the keyword names a field of the class whose XPath is in the supported class, enters the element by a child or an
    attribute and does not end in text() *)
Definition plain_field (E : env) (tbl : field_table) (k : str) (e : expr) (m : mapper) : Prop :=
  exists s, lookup k tbl = Some (s, m) /\ parse s = Ok e /\ (exists q, enters E e q) /\ lkind E e <> Some KText.
(** a value that the field's mapper turns into text and back (C22-C25): strings (normalized or not), integers up to
    2^53, booleans with two markers *)
Definition good_value (E : env) (e : expr) (m : mapper) (v w : pyval) : Prop :=
  reads_back m v w /\ (m = MString true -> is_attr_field E e = false) /\ (forall t f, m = MBool t f -> f <> Some t).
Definition forking (E : env) (tbl : field_table) (ks : list str) : Prop :=
  forall k k' e e' m m', In k ks -> In k' ks -> k <> k' -> plain_field E tbl k e m -> plain_field E tbl k' e' m' -> fork E e e'.

Lemma plain_fun E tbl k e m e' m' : plain_field E tbl k e m -> plain_field E tbl k e' m' -> e = e' /\ m = m'.
Proof. intros (s & H1 & H2 & _) (s' & H1' & H2' & _). rewrite H1 in H1'. injection H1' as <- <-. rewrite H2 in H2'. injection H2' as <-. auto. Qed.
Lemma set_plain E tbl k v e m d : plain_field E tbl k e m -> set_attribute E tbl (k, v) d = typed_set E e m v d.
Proof. intros (s & H1 & H2 & _). unfold set_attribute. cbn [fst snd]. rewrite H1. unfold with_xpath. now rewrite H2. Qed.
Lemma get_plain E tbl k e m d : plain_field E tbl k e m -> get_attribute E tbl k d = field_get E e m d.
Proof. intros (s & H1 & H2 & _). unfold get_attribute. now rewrite H1, H2. Qed.
Lemma plain_sup E tbl k e m : plain_field E tbl k e m -> supported_path E e = true.
Proof. intros (s & _ & _ & (q & H & _) & _). exact H. Qed.

(** what is assigned reads back *)
Lemma typed_back E e m v w d d' : supported_path E e = true -> lkind E e <> Some KText -> tag_of d <> None -> good_value E e m v w ->
  typed_set E e m v d = (d', Ret tt) -> field_get E e m d' = Ret w.
Proof.
  intros Hsp Hl Hd (Hv & Hat & Hmk) Hm. pose proof (not_text_not_tail E e d Hsp Hl) as Hn.
  destruct m as [[|]| | |t f| | | |]; cbn [reads_back] in Hv; try contradiction.
  - destruct Hv as (s & -> & ->). destruct (typed_set_ok _ _ _ _ _ _ Hm) as (x & Hx & Hm'). cbn in Hx. injection Hx as <-.
    destruct (set_reads _ _ _ _ _ Hsp Hd Hn Hm') as (i & Hi & Hc). unfold field_get. rewrite (eval_path _ _ _ Hsp), Hi. rewrite (Hat eq_refl) in Hc. destruct Hc as (n & -> & _ & _ & Hsv). cbn. now rewrite Hsv.
  - destruct Hv as (s & -> & ->). eapply (typed_set_get E e _ (PStr s) s); [exact Hsp|exact Hd|exact Hn|reflexivity|reflexivity| |exact Hm]. intros n _ _ Hsv. cbn. now rewrite Hsv.
  - destruct Hv as (z & -> & -> & Hz). eapply int_roundtrip; eauto.
  - destruct Hv as (b & -> & -> & Hb). eapply bool_roundtrip; eauto. intros ->. destruct Hb; [discriminate|assumption].
Qed.
Lemma typed_tag E e q m v d d' r : enters E e q -> tag_of d <> None -> typed_set E e m v d = (d', r) -> tag_of d = tag_of d'.
Proof. intros He Hd Hm. destruct (only_typed _ _ _ _ _ He _ _ _ Hd Hm) as [H _]. exact H. Qed.

(** the keyword arguments are assigned one after the other *)
Lemma run_kwargs E tbl kw : forall d d', (forall k v, In (k, v) kw -> exists e m, plain_field E tbl k e m) -> tag_of d <> None ->
  iterM (set_attribute E tbl) kw d = (d', Ret tt) ->
  exists os, d' = run_fops E os d /\ tag_of d' <> None /\ forall o, In o os -> exists k v e m, In (k, v) kw /\ plain_field E tbl k e m /\ o = FSet e m v.
Proof.
  induction kw as [|[k v] kw IH]; intros d d' Hf Hd Hm; cbn [iterM] in Hm.
  - injection Hm as <-. exists []. split; [reflexivity|]. split; [exact Hd|contradiction].
  - destruct (Hf k v (or_introl eq_refl)) as (e & m & Hp). unfold bind in Hm. rewrite (set_plain _ _ _ _ _ _ _ Hp) in Hm.
    destruct (typed_set E e m v d) as [d1 [[]|x]] eqn:E1; [|discriminate].
    assert (Hd1 : tag_of d1 <> None) by (destruct Hp as (s & _ & _ & (q & He) & _); rewrite <- (typed_tag _ _ _ _ _ _ _ _ He Hd E1); exact Hd).
    destruct (IH d1 d') as (os & Ho1 & Ho2 & Ho3); [intros; eapply Hf; right; eauto|exact Hd1|exact Hm|].
    exists (FSet e m v :: os). split; [|split; [exact Ho2|]].
    + unfold run_fops in *. cbn [fold_left run_fop]. rewrite E1. exact Ho1.
    + intros o [<-|Ho]; [exists k, v, e, m; split; [now left|auto]|]. destruct (Ho3 o Ho) as (k' & v' & e' & m' & A & B & C). exists k', v', e', m'. split; [now right|auto].
Qed.
Lemma iter_split {A B} (f : A -> M B) l1 x l2 d d' : iterM f (l1 ++ x :: l2) d = (d', Ret tt) ->
  exists d1 d2 y, iterM f l1 d = (d1, Ret tt) /\ f x d1 = (d2, Ret y) /\ iterM f l2 d2 = (d', Ret tt).
Proof.
  revert d. induction l1 as [|a l1 IH]; intros d H; cbn [app iterM] in H; unfold bind in H.
  - destruct (f x d) as [d2 [y|]] eqn:E1; [|discriminate]. exists d, d2, y. auto.
  - destruct (f a d) as [d0 [y|]] eqn:E1; [|discriminate]. destruct (IH _ H) as (d1 & d2 & y' & H1 & H2 & H3). exists d1, d2, y'. split; [|auto]. cbn [iterM]. unfold bind. now rewrite E1.
Qed.

(** ** every keyword reads back *)
Theorem C75_keywords_read_back_partial : forall E root tbl kw d',
  NoDup (map fst kw) -> (forall k v, In (k, v) kw -> exists e m, plain_field E tbl k e m) -> forking E tbl (map fst kw) ->
  construct E root tbl kw = (d', Ret tt) ->
  forall k v w e m, In (k, v) kw -> plain_field E tbl k e m -> good_value E e m v w -> get_attribute E tbl k d' = Ret w.
Proof.
  intros E root tbl kw d' Hnd Hf Hfk Hc k v w e m Hin Hp Hv. apply in_split in Hin as (l1 & l2 & ->).
  destruct (iter_split _ _ _ _ _ _ Hc) as (d1 & d2 & [] & H1 & H2 & H3).
  destruct (run_kwargs E tbl l1 (new_root root) d1) as (_ & _ & Hd1 & _); [intros; eapply Hf; apply in_or_app; left; eauto|discriminate|exact H1|].
  rewrite (set_plain _ _ _ _ _ _ _ Hp) in H2. pose proof (plain_sup _ _ _ _ _ Hp) as Hs. pose proof Hp as (s & _ & _ & (q & He) & Hl).
  pose proof (typed_back E e m v w d1 d2 Hs Hl Hd1 Hv H2) as Hg. assert (Hd2 : tag_of d2 <> None) by (rewrite <- (typed_tag _ _ _ _ _ _ _ _ He Hd1 H2); exact Hd1).
  destruct (run_kwargs E tbl l2 d2 d') as (os & -> & _ & Ho); [intros; eapply Hf; apply in_or_app; right; right; eauto|exact Hd2|exact H3|].
  rewrite (get_plain _ _ _ _ _ _ Hp). rewrite <- Hg. apply (C74_independent E e m d2 os Hs Hd2).
  intros o Hoi. destruct (Ho o Hoi) as (k' & v' & e' & m' & A & B & ->). cbn [fop_path]. split; [eapply plain_sup; eauto|].
  apply (Hfk k k' e e' m m'); auto.
  - rewrite map_app. apply in_or_app. right. now left.
  - rewrite map_app. apply in_or_app. right. right. apply in_map_iff. exists (k', v'). auto.
  - rewrite map_app in Hnd. cbn [map fst] in Hnd. apply NoDup_remove_2 in Hnd. intros ->. apply Hnd. apply in_or_app. right. apply in_map_iff. exists (k', v'). auto.
Qed.

(** ** in whatever order the keywords come *)
Theorem C75_order_partial : forall E root tbl kw kw' d d',
  NoDup (map fst kw) -> Permutation kw kw' -> (forall k v, In (k, v) kw -> exists e m w, plain_field E tbl k e m /\ good_value E e m v w) -> forking E tbl (map fst kw) ->
  construct E root tbl kw = (d, Ret tt) -> construct E root tbl kw' = (d', Ret tt) ->
  forall k, In k (map fst kw) -> get_attribute E tbl k d = get_attribute E tbl k d'.
Proof.
  intros E root tbl kw kw' d d' Hnd Hpm Hf Hfk Hc Hc' k Hk. apply in_map_iff in Hk as ([k0 v] & <- & Hin). cbn [fst].
  destruct (Hf k0 v Hin) as (e & m & w & Hp & Hv). transitivity (Ret w).
  - eapply C75_keywords_read_back_partial; eauto. intros k' v' H'. destruct (Hf k' v' H') as (e' & m' & w' & H1 & _). eauto.
  - symmetry. eapply (C75_keywords_read_back_partial E root tbl kw'); eauto.
    + eapply Permutation_NoDup; [|exact Hnd]. now apply Permutation_map.
    + intros k' v' H'. apply (Permutation_in _ (Permutation_sym Hpm)) in H'. destruct (Hf k' v' H') as (e' & m' & w' & H1 & _). eauto.
    + intros k1 k2 e1 e2 m1 m2 H1 H2. apply (Permutation_in _ (Permutation_map fst (Permutation_sym Hpm))) in H1, H2. now apply Hfk.
    + now apply (Permutation_in _ Hpm).
Qed.

(** ** a field not named stays empty *)
Lemma fresh_cores E e q root : enters E e q -> cores E e (new_root root) = [].
Proof.
  intros (Hs & Hf & Hq). destruct (sup_parts3 _ _ Hs) as (B1 & B2 & _). rewrite (see_path _ _ _ _ B1 B2). unfold first_kind in Hf. rewrite spine_steps in Hf.
  destruct (spine e) as [|s ss] eqn:Es; [discriminate|]. destruct (spine_mid _ _ _ B1 B2 [] s ss Es) as (_ & S2 & S3 & _). eapply see_empty; eauto.
Qed.
Lemma cores_nil E e d : cores E e d = [] <-> selects E e d = [].
Proof. unfold cores, selects. split; intros H; [now apply map_eq_nil in H|now rewrite H]. Qed.
Theorem C75_others_empty_partial : forall E root tbl kw d',
  (forall k v, In (k, v) kw -> exists e m, plain_field E tbl k e m) -> construct E root tbl kw = (d', Ret tt) ->
  forall e q m, enters E e q -> (forall k v e' m', In (k, v) kw -> plain_field E tbl k e' m' -> fork E e e') ->
  get_string E e d' = Ret None /\ list_data E e m d' = Ret [].
Proof.
  intros E root tbl kw d' Hf Hc e q m He Hfk. destruct (run_kwargs E tbl kw (new_root root) d' Hf) as (os & -> & _ & Ho); [discriminate|exact Hc|].
  assert (Hcs : cores E e (new_root root) = cores E e (run_fops E os (new_root root))).
  { apply fork_history; [apply He|discriminate|]. intros o Hoi. destruct (Ho o Hoi) as (k' & v' & e' & m' & A & B & ->). cbn [fop_path]. split; [eapply plain_sup; eauto|eauto]. }
  rewrite (get_string_same E e _ _ (proj1 He) Hcs). destruct (reads_same E e _ _ m (proj1 He) Hcs) as [_ ->].
  pose proof (fresh_cores E e q root He) as Hn. apply cores_nil in Hn. split.
  - unfold get_string. rewrite (eval_path _ _ _ (proj1 He)), Hn. reflexivity.
  - destruct (sup_parts3 _ _ (proj1 He)) as (B1 & B2 & _). unfold list_data, matches. rewrite (eval_path _ _ _ (proj1 He)), Hn. reflexivity.
Qed.

(** ** and the construction does succeed *)
Definition writable (E : env) (e : expr) (m : mapper) (v : pyval) : Prop :=
  tame E xml_valid e = true /\ bare_end E e = true /\ exists s, to_xml m v = Ret (Some s) /\ xml_valid s = true.
Lemma fork_sym E e e' : fork E e e' -> fork E e' e.
Proof. intros (P & s1 & r1 & s2 & r2 & k1 & k2 & A & B & C & D & F & G & H). exists P, s2, r2, s1, r1, k2, k1. repeat (split; [auto|]). auto. Qed.
Lemma kwargs_succeed E tbl kw : forall d, NoDup (map fst kw) -> (forall k v, In (k, v) kw -> exists e m, plain_field E tbl k e m /\ writable E e m v) -> forking E tbl (map fst kw) ->
  tag_of d <> None -> (forall k v e m, In (k, v) kw -> plain_field E tbl k e m -> selects E e d = []) -> exists d', iterM (set_attribute E tbl) kw d = (d', Ret tt).
Proof.
  induction kw as [|[k v] kw IH]; intros d Hnd Hf Hfk Hd He; cbn [iterM]; [eexists; reflexivity|].
  destruct (Hf k v (or_introl eq_refl)) as (e & m & Hp & Htm & Hbe & s & Hx & Hv). cbn [map fst] in Hnd. apply NoDup_cons_iff in Hnd as [Hni Hnd].
  pose proof Hp as (s0 & _ & _ & (q & Hen) & Hl). pose proof (plain_sup _ _ _ _ _ Hp) as Hs.
  destruct (set_total_missing E e s d Hs Hd (He k v e m (or_introl eq_refl) Hp) Htm Hbe Hv Hl) as [d1 Hm].
  assert (H1 : typed_set E e m v d = (d1, Ret tt)) by (unfold typed_set; rewrite Hx; exact Hm).
  unfold bind. rewrite (set_plain _ _ _ _ _ _ _ Hp), H1. apply IH; auto.
  - intros k1 v1 Hi. apply Hf. now right.
  - intros k1 k2 e1 e2 m1 m2 A B. apply Hfk; now right.
  - rewrite <- (typed_tag _ _ _ _ _ _ _ _ Hen Hd H1). exact Hd.
  - intros k1 v1 e1 m1 Hi Hp1. apply cores_nil. pose proof (He k1 v1 e1 m1 (or_intror Hi) Hp1) as Hn. apply cores_nil in Hn. rewrite <- Hn.
    destruct (fork_history E e1 d [FSet e m v]) as [_ G]; [eapply plain_sup; eauto|exact Hd| |].
    + intros o [<-|[]]. cbn [fop_path]. split; [exact Hs|]. apply (Hfk k1 k e1 e m1 m); auto; [right; apply in_map_iff; exists (k1, v1); auto|now left|].
      intros ->. apply Hni. apply in_map_iff. exists (k, v1). auto.
    + unfold run_fops in G. cbn [fold_left run_fop] in G. rewrite H1 in G. symmetry. exact G.
Qed.
Theorem C75_construction_succeeds_partial : forall E root tbl kw,
  NoDup (map fst kw) -> (forall k v, In (k, v) kw -> exists e m, plain_field E tbl k e m /\ writable E e m v) -> forking E tbl (map fst kw) ->
  exists d', construct E root tbl kw = (d', Ret tt).
Proof.
  intros E root tbl kw Hnd Hf Hfk. apply kwargs_succeed; auto; [discriminate|]. intros k v e m _ (s & _ & _ & (q & He) & _). apply cores_nil. eapply fresh_cores; eauto.
Qed.

(** ** the new object's element is the class's root element, also if an assignment fails; without keywords it is empty *)
Theorem C75_root : forall E root tbl kw d' r, (forall k v, In (k, v) kw -> exists e m, plain_field E tbl k e m) -> construct E root tbl kw = (d', r) ->
  tag_of d' = Some root /\ (kw = [] -> d' = Elem root [] None []).
Proof.
  intros E root tbl kw d' r Hf Hc. split; [|intros ->; now injection Hc as <- _]. unfold construct in Hc. change (Some root) with (tag_of (Elem root [] None [])). fold (new_root root) in *.
  assert (Hd : tag_of (new_root root) <> None) by discriminate. revert Hd Hc. generalize (new_root root). revert Hf. induction kw as [|[k v] kw IH]; intros Hf d Hd Hm; cbn [iterM] in Hm; [now injection Hm as <- _|].
  destruct (Hf k v (or_introl eq_refl)) as (e & m & Hp). unfold bind in Hm. rewrite (set_plain _ _ _ _ _ _ _ Hp) in Hm. destruct (typed_set E e m v d) as [d1 [[]|x]] eqn:E1; destruct Hp as (s & _ & _ & (q & He) & _); pose proof (typed_tag _ _ _ _ _ _ _ _ He Hd E1) as Ht.
  - rewrite Ht. apply IH; [intros; eapply Hf; right; eauto|now rewrite <- Ht|exact Hm].
  - injection Hm as <- _. now symmetry.
Qed.
(** ** a misspelt keyword is not an error and changes nothing in the XML *)
Theorem C75_unknown_keyword : forall E root tbl kw1 kw2 k v, lookup k tbl = None ->
  construct E root tbl (kw1 ++ (k, v) :: kw2) = construct E root tbl (kw1 ++ kw2).
Proof.
  intros E root tbl kw1 kw2 k v Hk. unfold construct. generalize (new_root root). induction kw1 as [|x kw1 IH]; intros d; cbn [app iterM].
  - unfold bind, set_attribute. cbn [fst]. rewrite Hk. reflexivity.
  - unfold bind. destruct (set_attribute E tbl x d) as [d1 [y|y]]; [apply IH|reflexivity].
Qed.

(** ** deciding whether two paths fork *)
Section All2.
Context {A : Type} (f : A -> A -> bool).
Fixpoint all2 (l l' : list A) : bool := match l, l' with [], [] => true | x :: l, y :: l' => (f x y && all2 l l')%bool | _, _ => false end.
End All2.
Definition ostr_eqb (a b : option str) : bool := match a, b with None, None => true | Some x, Some y => str_eqb x y | _, _ => false end.
Definition test_eqb (a b : nodetest) : bool :=
  match a, b with NameTest p n, NameTest p' n' => (ostr_eqb p p' && str_eqb n n')%bool | NodeType n o, NodeType n' o' => (str_eqb n n' && ostr_eqb o o')%bool | _, _ => false end.
Fixpoint expr_eqb (a b : expr) : bool :=
  match a, b with
  | ELit s, ELit s' => str_eqb s s'
  | EBin l op r, EBin l' op' r' => (expr_eqb l l' && str_eqb op op' && expr_eqb r r')%bool
  | EStep ax t ps, EStep ax' t' ps' => (ostr_eqb ax ax' && test_eqb t t' && all2 expr_eqb ps ps')%bool
  | _, _ => false
  end.
Lemma ostr_eqb_eq a b : ostr_eqb a b = true -> a = b.
Proof. destruct a, b; cbn; try discriminate; [intros H; f_equal; now apply str_eqb_eq|reflexivity]. Qed.
Lemma expr_eqb_eq a : forall b, expr_eqb a b = true -> a = b.
Proof.
  induction a as [s0| | | |l op r IHl IHr| | | |ax t ps H| | |] using expr_ind'; intros b; destruct b; cbn [expr_eqb]; try discriminate.
  - intros H. f_equal. now apply str_eqb_eq.
  - intros H. apply andb_prop in H as [H H3]. apply andb_prop in H as [H1 H2]. f_equal; auto. now apply str_eqb_eq.
  - intros G. apply andb_prop in G as [G G3]. apply andb_prop in G as [G1 G2]. f_equal.
    + now apply ostr_eqb_eq.
    + destruct t, node_test; cbn in G2; try discriminate; apply andb_prop in G2 as [A B]; f_equal; try (now apply ostr_eqb_eq); now apply str_eqb_eq.
    + revert predicates G3. induction H as [|x l Hx Hl IH]; intros [|y l'] G3; cbn in G3; try discriminate; [reflexivity|]. apply andb_prop in G3 as [A B]. f_equal; auto.
Qed.
Definition skind_eqb (a b : skind) : bool := match a, b with KChild q, KChild q' | KAttr q, KAttr q' => qeqb q q' | KText, KText => true | _, _ => false end.
Fixpoint forkb (E : env) (l l' : list expr) : bool :=
  match l, l' with
  | s :: r, s' :: r' =>
    match kind E s, kind E s' with
    | Some k, Some k' => (negb (skind_eqb k k' || skind_eqb k KText || skind_eqb k' KText) || (expr_eqb s s' && forkb E r r'))%bool
    | _, _ => false
    end
  | _, _ => false
  end.
Lemma skind_refl k : skind_eqb k k = true.
Proof. destruct k; cbn; auto; apply qeqb_refl. Qed.
Lemma forkb_ok E e e' : forkb E (steps_of e) (steps_of e') = true -> fork E e e'.
Proof.
  intros H. unfold fork. revert H. generalize (steps_of e'), (steps_of e). intros l' l. revert l'. induction l as [|s r IH]; intros [|s' r']; cbn [forkb]; try discriminate.
  destruct (kind E s) as [k|] eqn:Hk; [|discriminate]. destruct (kind E s') as [k'|] eqn:Hk'; [|discriminate]. intros H. apply orb_true_iff in H as [H|H].
  - apply negb_true_iff in H. apply orb_false_iff in H as [H H3]. apply orb_false_iff in H as [H1 H2]. exists [], s, r, s', r', k, k'. split; [reflexivity|]. split; [reflexivity|].
    split; [exact Hk|]. split; [exact Hk'|]. split; [intros ->; now rewrite skind_refl in H2|]. split; [intros ->; now rewrite skind_refl in H3|]. intros ->. now rewrite skind_refl in H1.
  - apply andb_prop in H as [H1 H2]. apply expr_eqb_eq in H1. subst s'. destruct (IH _ H2) as (P & s1 & r1 & s2 & r2 & k1 & k2 & -> & -> & R). exists (s :: P), s1, r1, s2, r2, k1, k2. auto.
Qed.

(** ** the classes of the shipped maps *)
Definition class_rows (c : string) : list row := filter (fun r => (String.eqb (r_class r) c && is_single r)%bool) shipped.
Lemma class_rows_in c r : In r (class_rows c) -> In r shipped /\ is_single r = true.
Proof. unfold class_rows. generalize shipped. intros l Hr. apply filter_In in Hr as [H1 H2]. apply andb_prop in H2 as [_ H2]. auto. Qed.
Definition row_forkb (r r' : row) : bool :=
  match parse (r_xpath r), parse (r_xpath r') with Ok e, Ok e' => (names_declared (r_ns r) e' && forkb (just (r_ns r)) (steps_of e) (steps_of e'))%bool | _, _ => false end.
Definition usable (r : row) : bool := (negb (among odd_single r) && match parse (r_xpath r) with Ok e => match first_kind (just (r_ns r)) e with Some KText | None => false | _ => true end | _ => false end && negb (is_text r))%bool.
Definition classes : list string := nodup string_dec (map r_class shipped).
Fixpoint nodupb (l : list string) : bool := match l with [] => true | x :: l => (negb (existsb (String.eqb x) l) && nodupb l)%bool end.
Definition rows_table (l : list row) : field_table := map (fun r => (u (r_field r), (r_xpath r, row_mapper r))) l.
Definition rows_good (l : list row) : bool :=
  (nodupb (map r_field l) && forallb usable l && forallb (fun r => forallb (fun r' => String.eqb (r_field r) (r_field r') || row_forkb r r')%bool l) l)%bool.
Definition forking_classes := Eval vm_compute in filter (fun c => rows_good (class_rows c)) classes.
Lemma forking_classes_ok c : In c forking_classes -> rows_good (class_rows c) = true.
Proof.
  assert (H : forallb (fun c => rows_good (class_rows c)) forking_classes = true) by (vm_compute; reflexivity). rewrite forallb_forall in H. exact (H c).
Qed.

Lemma u_inj : forall a b, u a = u b -> a = b.
Proof.
  Transparent u. intros a. induction a as [|x a IH]; intros [|y b] H; try discriminate; [reflexivity|]. unfold u in *. cbn [list_ascii_of_string map] in H. injection H as H1 H2.
  f_equal; [|now apply IH]. rewrite <- (Ascii.ascii_N_embedding x), <- (Ascii.ascii_N_embedding y). now rewrite H1.
Qed.
Opaque u.
Lemma lookup_map {A} (f : row -> A) (l : list row) r : nodupb (map r_field l) = true -> In r l -> lookup (u (r_field r)) (map (fun r => (u (r_field r), f r)) l) = Some (f r).
Proof.
  induction l as [|x l IH]; [contradiction|]. intros Hn Hi. cbn [map nodupb] in Hn. apply andb_prop in Hn as [H1 H2]. apply negb_true_iff in H1. cbn [map lookup].
  destruct (str_eqb (u (r_field r)) (u (r_field x))) eqn:E1.
  - apply str_eqb_eq in E1. apply u_inj in E1. f_equal. f_equal. destruct Hi as [->|Hi]; [reflexivity|]. exfalso. assert (existsb (String.eqb (r_field x)) (map r_field l) = true); [|congruence].
    apply existsb_exists. exists (r_field r). split; [now apply in_map|]. rewrite E1. apply String.eqb_refl.
  - destruct Hi as [->|Hi]; [rewrite str_eqb_refl in E1; discriminate|]. now apply IH.
Qed.
Lemma rows_construct : forall l E root kw,
  rows_good l = true -> (forall r, In r l -> In r shipped /\ is_single r = true) -> (forall r, In r l -> binds E (r_ns r)) -> NoDup (map fst kw) ->
  (forall k v, In (k, v) kw -> exists r w s, In r l /\ k = u (r_field r) /\ reads_back (row_mapper r) v w /\ to_xml (row_mapper r) v = Ret (Some s) /\ xml_valid s = true) ->
  exists d', construct E root (rows_table l) kw = (d', Ret tt) /\
    forall r v w, In r l -> In (u (r_field r), v) kw -> reads_back (row_mapper r) v w -> get_attribute E (rows_table l) (u (r_field r)) d' = Ret w.
Proof.
  intros l E root kw Hc Hrow B Hnd Hk. unfold rows_good in Hc. apply andb_prop in Hc as [Hc Hfk]. apply andb_prop in Hc as [Hn Hus].
  rewrite forallb_forall in Hus. rewrite forallb_forall in Hfk.
  assert (HF : forall r, In r l -> exists e, plain_field E (rows_table l) (u (r_field r)) e (row_mapper r) /\ parse (r_xpath r) = Ok e /\ tame E xml_valid e = true /\ bare_end E e = true).
  { intros r Hr. destruct (Hrow r Hr) as [Hsh Hsi]. pose proof (Hus r Hr) as U. unfold usable in U. apply andb_prop in U as [U U3]. apply andb_prop in U as [U1 U2]. apply negb_true_iff in U1, U3.
    destruct (single_facts r E Hsh Hsi U1 (B r Hr)) as (e & Hp & Hsp & Htm & Hbe & Hte). exists e. split; [|auto]. exists (r_xpath r). split; [|split; [exact Hp|split]].
    - unfold rows_table. now apply (lookup_map (fun r => (r_xpath r, row_mapper r))).
    - rewrite Hp in U2. destruct (first_kind (just (r_ns r)) e) as [k0|] eqn:Hk0; [|discriminate]. exists k0. split; [exact Hsp|]. destruct (C71_xpaths_parse r Hsh) as (e0 & He0 & Hnm). rewrite Hp in He0. injection He0 as <-.
      rewrite (first_kind_agree _ _ (B r Hr) _ Hnm), Hk0. split; [reflexivity|]. intros ->. discriminate.
    - intros H. apply Hte in H. congruence. }
  assert (HG : forall r e v w, In r l -> parse (r_xpath r) = Ok e -> reads_back (row_mapper r) v w -> good_value E e (row_mapper r) v w).
  { intros r e v w Hr Hp Hv. destruct (Hrow r Hr) as [Hsh Hsi]. pose proof (Hus r Hr) as U. unfold usable in U. apply andb_prop in U as [U _]. apply andb_prop in U as [U1 _]. apply negb_true_iff in U1.
    split; [exact Hv|]. split; [intros Hm; exact (norm_not_attr r E e Hsh Hsi U1 (B r Hr) Hm Hp)|exact (markers_ok r Hsh)]. }
  assert (HFK : forking E (rows_table l) (map fst kw)).
  { intros k k' e e' m m' Hi Hi' Hne Hp Hp'. apply in_map_iff in Hi as ([k0 v] & <- & Hi). apply in_map_iff in Hi' as ([k0' v'] & <- & Hi'). cbn [fst] in *.
    destruct (Hk _ _ Hi) as (r & _ & _ & Hr & -> & _). destruct (Hk _ _ Hi') as (r' & _ & _ & Hr' & -> & _).
    destruct (HF r Hr) as (e1 & F1 & F2 & _), (HF r' Hr') as (e2 & G1 & G2 & _). destruct (plain_fun _ _ _ _ _ _ _ Hp F1) as [-> _]. destruct (plain_fun _ _ _ _ _ _ _ Hp' G1) as [-> _].
    pose proof (Hfk r Hr) as Q. rewrite forallb_forall in Q. specialize (Q r' Hr'). apply orb_true_iff in Q as [Q|Q]; [apply String.eqb_eq in Q; congruence|].
    unfold row_forkb in Q. rewrite F2, G2 in Q. apply andb_prop in Q as [Hnb Q]. apply forkb_ok in Q. destruct (C71_xpaths_parse r (proj1 (Hrow r Hr))) as (a & Ha & Hna). rewrite F2 in Ha. injection Ha as <-.
    exact (fork_agree E (r_ns r) _ _ (B r Hr) Hna Hnb Q). }
  destruct (C75_construction_succeeds_partial E root (rows_table l) kw Hnd) as [d' Hd']; [|exact HFK|].
  - intros k v Hi. destruct (Hk k v Hi) as (r & w & s & Hr & -> & _ & Hx & Hv). destruct (HF r Hr) as (e & F1 & F2 & F3 & F4). exists e, (row_mapper r). split; [exact F1|]. split; [exact F3|]. split; [exact F4|]. eauto.
  - exists d'. split; [exact Hd'|]. intros r v w Hr Hi Hv. destruct (HF r Hr) as (e & F1 & F2 & _).
    eapply C75_keywords_read_back_partial; [exact Hnd| |exact HFK|exact Hd'|exact Hi|exact F1|exact (HG r e v w Hr F2 Hv)].
    intros k v0 Hi0. destruct (Hk k v0 Hi0) as (r0 & _ & _ & Hr0 & -> & _). destruct (HF r0 Hr0) as (e0 & G1 & _). eauto.
Qed.


(** for 54 of the 81 classes every set of keywords (those of string, integer and boolean fields), in any order, builds an
    object whose fields read back *)
Theorem C75_shipped_classes : forall c E root kw,
  In c forking_classes -> (forall r, In r (class_rows c) -> binds E (r_ns r)) -> NoDup (map fst kw) ->
  (forall k v, In (k, v) kw -> exists r w s, In r (class_rows c) /\ k = u (r_field r) /\ reads_back (row_mapper r) v w /\ to_xml (row_mapper r) v = Ret (Some s) /\ xml_valid s = true) ->
  exists d', construct E root (rows_table (class_rows c)) kw = (d', Ret tt) /\
    forall r v w, In r (class_rows c) -> In (u (r_field r), v) kw -> reads_back (row_mapper r) v w -> get_attribute E (rows_table (class_rows c)) (u (r_field r)) d' = Ret w.
Proof.
  intros c E root kw Hc B. apply forking_classes_ok in Hc.
  pose proof (class_rows_in c) as Hrow.
  revert Hc B Hrow. generalize (class_rows c). intros l Hc B Hrow. exact (rows_construct l E root kw Hc Hrow B).
Qed.

(** ** where paths overlap the order of the keywords decides *)
Local Open Scope string_scope.
Definition tbl_over : field_table := [(u "a", (u "n", MString false)); (u "b", (u "n[@t='1']", MString false))].
Theorem C75_overlap_order_refuted : exists d d',
  construct E0 (QN None (u "r")) tbl_over [(u "a", PStr (u "x")); (u "b", PStr (u "y"))] = (d, Ret tt) /\
  construct E0 (QN None (u "r")) tbl_over [(u "b", PStr (u "y")); (u "a", PStr (u "x"))] = (d', Ret tt) /\
  get_attribute E0 tbl_over (u "b") d = Ret (PStr (u "y")) /\ get_attribute E0 tbl_over (u "b") d' = Ret (PStr (u "x")).
Proof. do 2 eexists. conjs; vm_compute; reflexivity. Qed.

(** ** Cases *)
Definition tbl_case : field_table := [(u "id", (u "@id", MString false)); (u "kind", (u "w[@t='1']/kind", MString true)); (u "size", (u "w[@t='1']/size", MInt)); (u "ok", (u "ok", MBool (u "yes") (Some (u "no")))); (u "other", (u "w[@t='1']/@k", MString false))].
Definition kw_case := [(u "size", PInt 7); (u "ok", PBool false); (u "id", PStr (u "i")); (u "kind", PStr (u " a  b "))].
Lemma kw_plain k : In k [u "id"; u "kind"; u "size"; u "ok"; u "other"] -> exists e m, plain_field E0 tbl_case k e m.
Proof.
  intros H. cbn [In] in H. repeat destruct H as [<-|H]; try contradiction; do 3 eexists; (split; [vm_compute; reflexivity|]); (split; [vm_compute; reflexivity|]); (split; [eexists; split; [vm_compute; reflexivity|split; [vm_compute; reflexivity|discriminate]]|vm_compute; discriminate]).
Qed.
Lemma kw_forking : forking E0 tbl_case [u "id"; u "kind"; u "size"; u "ok"; u "other"].
Proof.
  assert (H : forallb (fun k => forallb (fun k' => str_eqb k k' || match lookup k tbl_case, lookup k' tbl_case with Some (s, _), Some (s', _) => match parse s, parse s' with Ok e, Ok e' => forkb E0 (steps_of e) (steps_of e') | _, _ => false end | _, _ => false end)%bool
    [u "id"; u "kind"; u "size"; u "ok"; u "other"]) [u "id"; u "kind"; u "size"; u "ok"; u "other"] = true) by (vm_compute; reflexivity).
  rewrite forallb_forall in H. intros k k' e e' m m' H1 H2 Hne (s & A1 & A2 & _) (s' & B1 & B2 & _). specialize (H k H1). rewrite forallb_forall in H. specialize (H k' H2).
  rewrite A1, B1, A2, B2 in H. apply orb_true_iff in H as [H|H]; [apply str_eqb_eq in H; contradiction|]. now apply forkb_ok.
Qed.
Example C75_case : NoDup (map fst kw_case) /\ (forall k v, In (k, v) kw_case -> exists e m w, plain_field E0 tbl_case k e m /\ writable E0 e m v /\ good_value E0 e m v w) /\ forking E0 tbl_case (map fst kw_case) /\
  exists d, construct E0 (QN None (u "r")) tbl_case kw_case = (d, Ret tt) /\
    map (fun k => get_attribute E0 tbl_case k d) [u "id"; u "kind"; u "size"; u "ok"; u "other"] = [Ret (PStr (u "i")); Ret (PStr (u "a b")); Ret (PInt 7); Ret (PBool false); Ret PNone].
Proof.
  split; [repeat (apply NoDup_cons; [vm_compute; intuition discriminate|]); apply NoDup_nil|]. split; [|split].
  - intros k v H. unfold kw_case in H. cbn [In] in H.
    repeat destruct H as [H|H]; try contradiction; injection H as <- <-; do 3 eexists;
      (split; [eexists; split; [vm_compute; reflexivity|split; [vm_compute; reflexivity|split; [eexists; split; [vm_compute; reflexivity|split; [vm_compute; reflexivity|discriminate]]|vm_compute; discriminate]]]|]);
      (split; [split; [vm_compute; reflexivity|split; [vm_compute; reflexivity|eexists; split; [vm_compute; reflexivity|vm_compute; reflexivity]]]|]);
      (split; [cbn [reads_back]; eexists; split; [reflexivity|first [split; [reflexivity|first [vm_compute; discriminate|right; discriminate]]|reflexivity]]|split; [intros; try discriminate; vm_compute; reflexivity|intros t f Ht; first [discriminate Ht|injection Ht as <- <-; vm_compute; discriminate]]]).
  - intros k k' e e' m m' H1 H2. apply kw_forking; vm_compute in H1, H2; vm_compute; intuition.
  - eexists. split; [vm_compute; reflexivity|vm_compute; reflexivity].
Qed.
Example C75_premis_case : let kw := [(u "id", PStr (u "42")); (u "type", PStr (u "ingestion")); (u "id_type", PStr (u "local")); (u "agent_id", PStr (u "me"))] in
  In "Event" forking_classes /\ (forall r, In r (class_rows "Event") -> binds (just ns_premis) (r_ns r)) /\ length (class_rows "Event") = 10 /\
  exists d, construct (just ns_premis) (QN (Some (u "info:lc/xmlns/premis-v2")) (u "event")) (rows_table (class_rows "Event")) kw = (d, Ret tt) /\
    map (fun k => get_attribute (just ns_premis) (rows_table (class_rows "Event")) k d) [u "id_type"; u "id"; u "agent_id"; u "agent_type"] = [Ret (PStr (u "local")); Ret (PStr (u "42")); Ret (PStr (u "me")); Ret PNone].
Proof.
  cbv zeta. split; [unfold forking_classes; cbn [In]; intuition|]. split.
  - intros r Hr p x. assert (H : r_ns r = ns_premis). { unfold class_rows in Hr. vm_compute in Hr. cbn [In] in Hr. repeat destruct Hr as [<-|Hr]; try contradiction; vm_compute; reflexivity. } now rewrite H.
  - split; [vm_compute; reflexivity|]. eexists. split; vm_compute; reflexivity.
Qed.
Local Close Scope string_scope.

Print Assumptions C75_keywords_read_back_partial.
Print Assumptions C75_order_partial.
Print Assumptions C75_others_empty_partial.
Print Assumptions C75_construction_succeeds_partial.
Print Assumptions C75_unknown_keyword.
Print Assumptions C75_root.
Print Assumptions C75_shipped_classes.
