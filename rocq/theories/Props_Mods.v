(** MODS emptiness tests: C48. *)
From Coq Require Import String List Arith NArith Bool Lia.
From Verif Require Import Mods.
From Verif Require Import XPathEval.
Import ListNotations.
Opaque u.

(** ** Specification *)
(** the element [d] holds no text, neither itself nor in anything inside it: its XPath string value is empty *)
Definition no_text (d : node) : Prop := strval d = [].
Definition blank (o : option str) : Prop := o = None \/ o = Some [].
Definition attr_unset (n : string) (d : node) : Prop := blank (attr_get (QN None (u n)) (attrs_of d)).
Definition called (n : string) (k : node) : Prop := exists a t ks, k = Elem (mn n) a t ks.
(** [d] has no text of its own, and only children with the given names *)
Definition only (ns : list string) (d : node) : Prop :=
  blank (text_of d) /\ forall k tl, In (k, tl) (kids_of d) -> blank tl /\ exists n, In n ns /\ called n k.
(** at most one child of each of these names *)
Definition single (ns : list string) (d : node) : Prop :=
  forall n i j k k' tl tl', In n ns -> nth_error (kids_of d) i = Some (k, tl) -> nth_error (kids_of d) j = Some (k', tl') -> called n k -> called n k' -> i = j.

(** ** lemmas *)
Definition plain (n : string) : Prop := str_eqb (u n) (u "*") = false.
Definition tagged (n : string) (k : node) : bool := match k with Elem q _ _ _ => qeqb q (mn n) | Misc _ => false end.
Lemma tagged_called n k : tagged n k = true <-> called n k.
Proof. unfold called. destruct k as [q a t ks|s]; cbn; [rewrite qeqb_eq|]; split; try discriminate; [intros ->; eauto|intros (? & ? & ? & [= -> _ _ _]); reflexivity|intros (? & ? & ? & [=])]. Qed.
Lemma test_tagged n k : plain n -> test_node Ed (Some (u "mods")) (u n) k = tagged n k.
Proof. intros H. destruct k as [q a t ks|s]; [|reflexivity]. cbn [test_node tagged]. unfold test_q. rewrite H. reflexivity. Qed.
Definition hits (n : string) (i : nat) (ks : list (node * option str)) : list item :=
  flat_map (fun x => if tagged n (fst (snd x)) then [IElem [fst x] (fst (snd x))] else []) (enum i ks).
Lemma eval_mx n d : plain n -> eval_at Ed (mx n) doc_root d = Ret (XN (hits n 0 (kids_of d))).
Proof.
  intros H. unfold eval_at, doc_root. cbn [get_at]. unfold xpath. change (supported Ed (mx n)) with true. cbn iota. unfold mx. cbn [ev fold_left step_items]. change (child_axis None) with true. cbn iota.
  unfold kid_items, hits. do 2 f_equal. generalize 0 as i. induction (kids_of d) as [|k ks IH]; intros i; [reflexivity|]. cbn [enum flat_map fst snd app]. rewrite (test_tagged n (fst k) H). now rewrite IH.
Qed.
Definition nodes (d : node) : list node := map fst (kids_of d).
Lemma hits_nodes n ks : forall i, flat_map (fun x => match x with IElem _ k => [k] | _ => [] end) (hits n i ks) = filter (tagged n) (map fst ks).
Proof. induction ks as [|k ks IH]; intros i; [reflexivity|]. unfold hits in *. cbn [enum flat_map map filter fst snd]. destruct (tagged n (fst k)); [|apply IH]. cbn [app flat_map]. now rewrite IH. Qed.
Lemma node_items_eq n d : plain n -> node_items (mx n) d = filter (tagged n) (nodes d).
Proof. intros H. unfold node_items, matches. rewrite eval_mx by assumption. apply hits_nodes. Qed.
Lemma hits_first n ks : forall i, match hits n i ks with [] => filter (tagged n) (map fst ks) = [] | x :: _ => exists k r, filter (tagged n) (map fst ks) = k :: r /\ item_str x = strval k end.
Proof.
  induction ks as [|k ks IH]; intros i; [reflexivity|]. unfold hits in *. cbn [enum flat_map map filter fst snd]. destruct (tagged n (fst k)); [|apply IH]. cbn [app]. eauto.
Qed.
Lemma str_field_eq n d : plain n -> str_field (mx n) d = match filter (tagged n) (nodes d) with k :: _ => match strval k with [] => false | _ => true end | [] => false end.
Proof.
  intros H. unfold str_field, get_string. rewrite eval_mx by assumption. pose proof (hits_first n (kids_of d) 0) as G. fold (nodes d) in G. destruct (hits n 0 (kids_of d)) as [|x l]; [now rewrite G|].
  destruct G as (k & r & -> & ->). unfold set_str. now destruct (strval k).
Qed.
Lemma attr_hits q ats (a : addr) : (forall x, In x ats -> True) -> match flat_map (fun x : qname * str => if qeqb (fst x) q then [IAttr a (fst x) (snd x)] else []) ats with [] => attr_get q ats = None | IAttr _ _ v :: _ => attr_get q ats = Some v | _ => False end.
Proof.
  intros _. induction ats as [|[q' v] ats IH]; [reflexivity|]. cbn [flat_map attr_get fst snd]. rewrite (qeqb_sym q q'). destruct (qeqb q' q); [reflexivity|exact IH].
Qed.
Lemma str_attr_eq n d : plain n -> str_field (ax n) d = set_str (attr_get (QN None (u n)) (attrs_of d)).
Proof.
  intros H. unfold str_field, get_string, eval_at, doc_root. cbn [get_at]. unfold xpath. change (supported Ed (ax n)) with true. cbn iota. unfold ax. cbn [ev fold_left step_items]. change (child_axis (Some (u "@"))) with false. change (attr_axis (Some (u "@"))) with true. cbn iota.
  assert (E : forall q : qname, test_q Ed None (u n) q = qeqb q (QN None (u n))) by (intros q; unfold test_q; rewrite H; reflexivity).
  assert (X : flat_map (fun x : qname * str => if test_q Ed None (u n) (fst x) then [IAttr [] (fst x) (snd x)] else []) (attrs_of d) = flat_map (fun x : qname * str => if qeqb (fst x) (QN None (u n)) then [IAttr [] (fst x) (snd x)] else []) (attrs_of d)).
  { apply flat_map_ext. intros x. now rewrite E. }
  pose proof (attr_hits (QN None (u n)) (attrs_of d) [] (fun _ _ => I)) as G. rewrite <- X in G. clear X.
  match type of G with match ?f with _ => _ end => generalize dependent f; intros l G; match goal with |- context [match ?g with [] => _ | _ => _ end] => change g with l || idtac end end.
  destruct l as [|[| |] l]; try contradiction; rewrite G; reflexivity.
Qed.
Lemma set_str_blank o : set_str o = false <-> blank o.
Proof. unfold blank. destruct o as [[|c s]|]; cbn; split; auto; try discriminate. intros [H|H]; discriminate. Qed.
Lemma blank_ostr o : blank o <-> ostr o = [].
Proof. unfold blank. destruct o as [s|]; cbn; split; auto; [intros [H|[= ->]]; [discriminate|reflexivity]|intros ->; auto]. Qed.
Lemma strval_kids d : (exists q a t ks, d = Elem q a t ks) -> strval d = ostr (text_of d) ++ flat_map (fun k => strval (fst k) ++ ostr (snd k)) (kids_of d).
Proof. intros (q & a & t & ks & ->). reflexivity. Qed.
Lemma flat_nil {A} (f : A -> str) l : flat_map f l = [] <-> forall x, In x l -> f x = [].
Proof. induction l as [|x l IH]; cbn; [split; auto; intros _ ? []|]. split; [intros H; apply app_eq_nil in H as [H1 H2]; intros y [<-|Hy]; [assumption|now apply IH]|]. intros H. rewrite (H x) by now left. apply IH. intros; apply H; now right. Qed.
Lemma no_text_iff d : no_text d <-> (match d with Elem _ _ _ _ => blank (text_of d) | Misc _ => True end) /\ forall k tl, In (k, tl) (kids_of d) -> no_text k /\ blank tl.
Proof.
  unfold no_text. destruct d as [q a t ks|s]; cbn [strval text_of kids_of]; [|split; [intros _; split; [exact I|intros ? ? []]|reflexivity]]. split.
  - intros H. apply app_eq_nil in H as [H1 H2]. split; [now apply blank_ostr|]. rewrite flat_nil in H2. intros k tl Hk. specialize (H2 _ Hk). cbn in H2. apply app_eq_nil in H2 as [H3 H4]. split; [assumption|now apply blank_ostr].
  - intros [H1 H2]. apply blank_ostr in H1. rewrite H1. cbn [app]. apply flat_nil. intros [k tl] Hk. destruct (H2 k tl Hk) as [H3 H4]. apply blank_ostr in H4. cbn [fst snd]. now rewrite H3, H4.
Qed.
(** a field that reads as unset, for a child that occurs once at most *)
Lemma In_split_nth {A} (x : A) l : In x l -> exists i, nth_error l i = Some x.
Proof. intros H. now apply In_nth_error. Qed.
Lemma field_unset ns n d k tl : plain n -> In n ns -> single ns d -> str_field (mx n) d = false -> In (k, tl) (kids_of d) -> called n k -> no_text k.
Proof.
  intros Hp Hn Hs Hf Hk Hc. rewrite str_field_eq in Hf by assumption.
  destruct (filter (tagged n) (nodes d)) as [|k0 r] eqn:E.
  - exfalso. assert (In k (filter (tagged n) (nodes d))). { apply filter_In. split; [apply (in_map fst) in Hk; exact Hk|now apply tagged_called]. } now rewrite E in H.
  - assert (H0 : In k0 (filter (tagged n) (nodes d))) by (rewrite E; now left). apply filter_In in H0 as [H0 H1]. unfold nodes in H0. apply in_map_iff in H0 as ([k1 tl1] & Hk1 & H0). cbn in Hk1. subst k1.
    apply tagged_called in H1. destruct (In_nth_error _ _ H0) as [i Hi]. destruct (In_nth_error _ _ Hk) as [j Hj]. pose proof (Hs n i j k0 k tl1 tl Hn Hi Hj H1 Hc). subst j. rewrite Hi in Hj. injection Hj as -> ->.
    unfold no_text. destruct (strval k); [reflexivity|discriminate].
Qed.
Lemma field_unset_rev n d : plain n -> (forall k tl, In (k, tl) (kids_of d) -> no_text k) -> str_field (mx n) d = false.
Proof.
  intros Hp H. rewrite str_field_eq by assumption. destruct (filter (tagged n) (nodes d)) as [|k0 r] eqn:E; [reflexivity|].
  assert (H0 : In k0 (filter (tagged n) (nodes d))) by (rewrite E; now left). apply filter_In in H0 as [H0 _]. unfold nodes in H0. apply in_map_iff in H0 as ([k1 tl1] & Hk1 & H0). cbn in Hk1. subst k1. now rewrite (H _ _ H0).
Qed.
Lemma fields_unset ns d : Forall plain ns -> only ns d -> single ns d -> (forallb (fun n => negb (str_field (mx n) d)) ns = true <-> no_text d).
Proof.
  intros Hp Ho Hs. destruct Ho as [Ht Hk]. split.
  - intros H. rewrite forallb_forall in H. apply no_text_iff. split; [destruct d; [exact Ht|exact I]|]. intros k tl Hin. destruct (Hk k tl Hin) as [Htl (n & Hn & Hc)]. split; [|assumption].
    apply (field_unset ns n d k tl); auto; [rewrite Forall_forall in Hp; auto|]. specialize (H n Hn). now destruct (str_field (mx n) d).
  - intros H. apply no_text_iff in H as [_ H]. apply forallb_forall. intros n Hn. rewrite (field_unset_rev n d); [reflexivity|rewrite Forall_forall in Hp; auto|]. intros k tl Hin. now apply (H k tl).
Qed.
Ltac plains := repeat (apply Forall_cons; [reflexivity|]); apply Forall_nil.

(** ** C48 *)
(** TitleInfo, PartDetail, PartExtent: for elements that hold nothing but these fields, each once at most, is_empty() is True exactly if there
    is no text in the element (and, for TitleInfo, no type) *)
Theorem C48_title_partial : forall d, let ns := ["title"; "subTitle"; "partNumber"; "partName"; "nonSort"]%string in
  only ns d -> single ns d -> (title_empty d = true <-> no_text d /\ attr_unset "type" d).
Proof.
  intros d ns Ho Hs. rewrite <- (fields_unset ns d) by (try assumption; unfold ns; plains). unfold title_empty, attr_unset. rewrite str_attr_eq by reflexivity. rewrite <- set_str_blank. unfold ns. cbn [forallb].
  destruct (str_field (mx "title") d), (str_field (mx "subTitle") d), (str_field (mx "partNumber") d), (str_field (mx "partName") d), (str_field (mx "nonSort") d), (set_str _); cbn; intuition discriminate.
Qed.
Theorem C48_detail_partial : forall d, only ["number"%string] d -> single ["number"%string] d -> (detail_empty d = true <-> no_text d).
Proof. intros d Ho Hs. rewrite <- (fields_unset ["number"%string] d) by (try assumption; plains). unfold detail_empty. cbn [forallb]. now rewrite andb_true_r. Qed.
Theorem C48_extent_partial : forall d, let ns := ["start"; "end"; "total"]%string in only ns d -> single ns d -> (extent_empty d = true <-> no_text d).
Proof.
  intros d ns Ho Hs. rewrite <- (fields_unset ns d) by (try assumption; unfold ns; plains). unfold extent_empty, ns. cbn [forallb].
  destruct (str_field (mx "start") d), (str_field (mx "end") d), (str_field (mx "total") d); cbn; intuition discriminate.
Qed.
Lemma called_inj n n' k : called n k -> called n' k -> u n = u n'.
Proof. intros (a & t & ks & ->) (a' & t' & ks' & [= H _ _ _]). exact H. Qed.
(** Part: any number of details, one extent at most *)
Theorem C48_part_partial : forall d, only ["detail"; "extent"]%string d -> single ["extent"%string] d ->
  (forall k tl, In (k, tl) (kids_of d) -> (called "detail" k -> only ["number"%string] k /\ single ["number"%string] k) /\
     (called "extent" k -> only ["start"; "end"; "total"]%string k /\ single ["start"; "end"; "total"]%string k)) ->
  (part_empty d = true <-> no_text d /\ attr_unset "type" d).
Proof.
  intros d [Ht Hk] Hs Hsub. unfold part_empty, attr_unset. rewrite str_attr_eq by reflexivity. rewrite <- set_str_blank. rewrite !andb_true_iff, negb_true_iff. unfold node_field. rewrite !node_items_eq by reflexivity. unfold all_empty. rewrite forallb_forall.
  rewrite and_comm. rewrite (and_comm (no_text d)). apply and_iff_compat_l. split.
  - intros [H1 H2]. apply no_text_iff. split; [destruct d; [exact Ht|exact I]|]. intros k tl Hin. destruct (Hk k tl Hin) as [Htl (n & Hn & Hc)]. split; [|assumption]. destruct (Hsub k tl Hin) as [S1 S2]. destruct Hn as [<-|[<-|[]]].
    + destruct (S1 Hc) as [G1 G2]. apply (C48_detail_partial k G1 G2). apply H1. apply filter_In. split; [exact (in_map fst _ _ Hin)|now apply tagged_called].
    + destruct (S2 Hc) as [G1 G2]. apply (C48_extent_partial k G1 G2). destruct (filter (tagged "extent") (nodes d)) as [|k0 r] eqn:E.
      * exfalso. assert (In k (filter (tagged "extent") (nodes d))). { apply filter_In. split; [exact (in_map fst _ _ Hin)|now apply tagged_called]. } now rewrite E in H.
      * cbn [hd_error] in H2. assert (H0 : In k0 (filter (tagged "extent") (nodes d))) by (rewrite E; now left). apply filter_In in H0 as [H0 H3]. unfold nodes in H0. apply in_map_iff in H0 as ([k1 tl1] & Hk1 & H0). cbn in Hk1. subst k1. apply tagged_called in H3.
        destruct (In_nth_error _ _ H0) as [i Hi]. destruct (In_nth_error _ _ Hin) as [j Hj]. pose proof (Hs "extent"%string i j k0 k tl1 tl (or_introl eq_refl) Hi Hj H3 Hc). subst j. rewrite Hi in Hj. now injection Hj as -> ->.
  - intros H. apply no_text_iff in H as [_ H]. split.
    + intros k Hin. apply filter_In in Hin as [Hin Hc]. apply tagged_called in Hc. unfold nodes in Hin. apply in_map_iff in Hin as ([k1 tl1] & Hk1 & Hin). cbn in Hk1. subst k1. destruct (Hsub _ _ Hin) as [S1 _]. destruct (S1 Hc) as [G1 G2]. apply (C48_detail_partial k G1 G2). now apply (H k tl1).
    + destruct (filter (tagged "extent") (nodes d)) as [|k0 r] eqn:E; cbn [hd_error]; [reflexivity|]. assert (H0 : In k0 (filter (tagged "extent") (nodes d))) by (rewrite E; now left). apply filter_In in H0 as [H0 Hc]. apply tagged_called in Hc. unfold nodes in H0. apply in_map_iff in H0 as ([k1 tl1] & Hk1 & H0). cbn in Hk1. subst k1.
      destruct (Hsub _ _ H0) as [_ S2]. destruct (S2 Hc) as [G1 G2]. apply (C48_extent_partial k0 G1 G2). now apply (H k0 tl1).
Qed.
(** dates without children *)
Theorem C48_date_partial : forall q a t, date_empty (Elem q a t []) = true <-> no_text (Elem q a t []).
Proof. intros q a t. unfold date_empty, no_text. cbn. rewrite app_nil_r, negb_true_iff, set_str_blank. apply blank_ostr. Qed.
(** OriginInfo, if it holds nothing but dateCreated and dateIssued (any number, without children) and one publisher at most *)
Theorem C48_origin_partial : forall d, only ["dateCreated"; "dateIssued"; "publisher"]%string d -> single ["publisher"%string] d ->
  (forall k tl, In (k, tl) (kids_of d) -> called "dateCreated" k \/ called "dateIssued" k -> kids_of k = []) ->
  (origin_empty d = true <-> no_text d).
Proof.
  intros d [Ht Hk] Hs Hd. unfold origin_empty. rewrite !andb_true_iff, negb_true_iff. rewrite !node_items_eq by reflexivity. unfold all_empty. rewrite !forallb_forall.
  assert (D : forall n k tl, n = "dateCreated"%string \/ n = "dateIssued"%string -> In (k, tl) (kids_of d) -> called n k -> (date_empty k = true <-> no_text k)).
  { intros n k tl Hn Hin Hc. assert (K : kids_of k = []) by (apply (Hd k tl Hin); destruct Hn as [-> | ->]; auto). destruct Hc as (a & t & ks & ->). cbn in K. subst ks. apply C48_date_partial. }
  split.
  - intros [[H1 H2] H3]. apply no_text_iff. split; [destruct d; [exact Ht|exact I]|]. intros k tl Hin. destruct (Hk k tl Hin) as [Htl (n & Hn & Hc)]. split; [|assumption]. destruct Hn as [<-|[<-|[<-|[]]]].
    + apply (D "dateCreated"%string k tl); auto. apply H1. apply filter_In. split; [exact (in_map fst _ _ Hin)|now apply tagged_called].
    + apply (D "dateIssued"%string k tl); auto. apply H2. apply filter_In. split; [exact (in_map fst _ _ Hin)|now apply tagged_called].
    + apply (field_unset ["publisher"%string] "publisher" d k tl); auto; [reflexivity|now left].
  - intros H. apply no_text_iff in H as [_ H].
    assert (G : forall n, n = "dateCreated"%string \/ n = "dateIssued"%string -> forall k, In k (filter (tagged n) (nodes d)) -> date_empty k = true).
    { intros n Hn k Hin. apply filter_In in Hin as [Hin Hc]. apply tagged_called in Hc. unfold nodes in Hin. apply in_map_iff in Hin as ([k1 tl1] & Hk1 & Hin). cbn in Hk1. subst k1. apply (D n k tl1 Hn Hin Hc). now apply (H k tl1). }
    split; [split; [exact (G "dateCreated"%string (or_introl eq_refl))|exact (G "dateIssued"%string (or_intror eq_refl))]|]. apply field_unset_rev; [reflexivity|]. intros k tl Hin. now apply (H k tl).
Qed.
(** TypedNote and plain objects: True only if there is nothing at all (but a type) *)
Theorem C48_note : forall d tl, note_empty d tl = true <->
  kids_of d = [] /\ blank (text_of d) /\ blank tl /\ forall q v, In (q, v) (attrs_of d) -> q = QN None (u "type").
Proof.
  intros d tl. unfold note_empty. rewrite !andb_true_iff, Nat.eqb_eq, length_zero_iff_nil, forallb_forall, !negb_true_iff, !set_str_blank.
  assert (X : (forall x, In x (attrs_of d) -> qeqb (fst x) (QN None (u "type")) = true) <-> (forall q v, In (q, v) (attrs_of d) -> q = QN None (u "type"))).
  { split; [intros H q v Hq; apply H in Hq; now apply qeqb_eq|intros H [q v] Hq; apply qeqb_eq; now apply (H q v)]. }
  rewrite X. tauto.
Qed.
Theorem C48_object : forall d tl, obj_empty d tl = true <-> kids_of d = [] /\ attrs_of d = [] /\ blank (text_of d) /\ blank tl.
Proof. intros d tl. unfold obj_empty. rewrite !andb_true_iff, !Nat.eqb_eq, !length_zero_iff_nil, !negb_true_iff, !set_str_blank. tauto. Qed.

(** *** where it fails *)
Definition me (n : string) (t : string) (ks : list node) : node := Elem (mn n) [] (match t with EmptyString => None | _ => Some (u t) end) (map (fun k => (k, None)) ks).
(** five of the seven date lists of OriginInfo are ignored *)
Theorem C48_origin_refuted : Forall (fun n => origin_empty (me "originInfo" "" [me n "1999" []]) = true) ["dateCaptured"; "dateValid"; "dateModified"; "copyrightDate"; "dateOther"]%string.
Proof. repeat (apply Forall_cons; [vm_compute; reflexivity|]). apply Forall_nil. Qed.
(** a date after a comment is not seen, although the date field reads it *)
Theorem C48_date_refuted : let d := Elem (mn "dateCreated") [] None [(Misc (u "c"), Some (u "1999"))] in date_empty d = true /\ get_string Ed (EStep None (NodeType (u "text") None) []) d = Ret (Some (u "1999")).
Proof. split; vm_compute; reflexivity. Qed.
(** the second title is not seen *)
Theorem C48_second_title_refuted : title_empty (me "titleInfo" "" [me "title" "" []; me "title" "T" []]) = true.
Proof. vm_compute. reflexivity. Qed.
(** white space after the element makes it non-empty *)
Theorem C48_tail_refuted : obj_empty (me "note" "" []) (Some (u " ")) = false /\ note_empty (me "note" "" []) (Some (u " ")) = false.
Proof. split; vm_compute; reflexivity. Qed.
Example C48_case : let d := me "part" "" [me "detail" "" [me "number" "" []]; me "detail" "" []; me "extent" "" [me "start" "" []; me "end" "5" []]] in
  part_empty d = false /\ part_empty (me "part" "" [me "detail" "" [me "number" "" []]; me "extent" "" [me "start" "" []]]) = true /\
  title_empty (me "titleInfo" "" [me "title" "" []; me "nonSort" "The" []]) = false /\
  origin_empty (me "originInfo" "" [me "dateCreated" "" []; me "publisher" "P" []]) = false /\ origin_empty (me "originInfo" "" [me "dateCreated" "" []]) = true.
Proof. cbv zeta. repeat match goal with |- _ /\ _ => split end; vm_compute; reflexivity. Qed.
Example C48_case_hyps : only ["number"%string] (me "detail" "" [me "number" "3" []]) /\ single ["number"%string] (me "detail" "" [me "number" "3" []]) /\ detail_empty (me "detail" "" [me "number" "3" []]) = false.
Proof.
  split; [|split; [|vm_compute; reflexivity]].
  - split; [now left|]. intros k tl [[= <- <-]|[]]. split; [now left|]. exists "number"%string. split; [now left|]. now exists [], (Some (u "3")), [].
  - intros n i j k k' tl tl' _ Hi Hj _ _. cbn in Hi, Hj. destruct i as [|[|i]], j as [|[|j]]; try reflexivity; discriminate.
Qed.
Example C48_paths : parse (u "mods:dateCreated") = Ok (mx "dateCreated") /\ parse (u "@type") = Ok (ax "type").
Proof. split; vm_compute; reflexivity. Qed.
Print Assumptions C48_title_partial.
Print Assumptions C48_part_partial.
Print Assumptions C48_origin_partial.
