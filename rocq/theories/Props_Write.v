(** C90: writing and deleting through any XPath that only looks down (C89's [readable]), also those eulxml cannot create nodes for:
    './/title', 'a|b', '(a|b)[1]', 'descendant::x' (xmlmap/fields.py:258-315, 398-480, 613-658). *)
From Coq Require Import String Arith ZArith NArith List Lia Bool.
From Verif Require Import FieldUndo MapperProofs FieldRefuse Props_Fields Props_Mappers NodeList ReadSpec EvalSpec EvalMeaning EvalOrder EvalMain EvalValues EvalFuns EvalAgree Shipped EnvAgree Props_Shipped EvalBlind Props_Eval.
From Verif Require Import XPathEval FieldSpec DocSpec XPathRead EvalSpec.
Import ListNotations.

(** the last step of an XPath; a union or a filter expression has none *)
Inductive ends_in : expr -> expr -> Prop :=
| ends_here ax t ps : ends_in (EStep ax t ps) (EStep ax t ps)
| ends_right l op r s : op = u "/" \/ op = u "//" -> ends_in r s -> ends_in (EBin l op r) s.

Lemma ends_step e s : ends_in e s <-> terminal_step e = Some s.
Proof.
  split.
  - induction 1 as [|l op r s [->| ->] _ IH]; [reflexivity|exact IH|exact IH].
  - induction e as [| | | |a op b IHa IHb|b ps IHb H| | |ax t ps H|ab|p n|p n args H] using expr_ind'; cbn [terminal_step]; try discriminate.
    + unfold str_mem. cbn [existsb]. destruct (str_eqb op (u "/")) eqn:O1; cbn [orb]; [apply str_eqb_eq in O1|destruct (str_eqb op (u "//")) eqn:O2; cbn [orb]; [apply str_eqb_eq in O2|discriminate]];
        intros H; constructor; auto.
    + intros [= <-]. constructor.
Qed.
Lemma first_list_of E e d i : readable E e = true -> node_set e = true -> attributes_distinct d -> first_of d (picks E e d) i ->
  exists l, eval_at E e doc_root d = Ret (XN (i :: l)) /\ document_order d (i :: l) /\ forall j, In j (i :: l) <-> picks E e d j.
Proof.
  intros R P D [Hi Hj]. destruct (path_nodes E e d D R P) as (l & El & _ & O & M). apply M in Hi. destruct (first_list d l i D O Hi) as [l' ->]; [intros j Gj; apply Hj; now apply M|]. eauto.
Qed.
Lemma valid_item d i r : route d i r -> match i with IElem a n => get_at a d = Some n | IAttr a q v => exists n, get_at a d = Some n /\ In (q, v) (attrs_of n) | IText a tl s => exists n, get_at a d = Some n end.
Proof.
  destruct 1 as [a n G|a n k q v G K|a n s G T|a k n x s G K]; eauto.
  - exists n. split; [exact G|]. eapply nth_error_In. exact K.
  - exists x. eapply get_snoc; eassumption.
Qed.
Lemma set_finds E s e v d i l : parse s = Ok e -> eval_at E e doc_root d = Ret (XN (i :: l)) -> string_set E s (Some v) d = set_in_xml E (Some (ref_of i)) (Some v) (terminal_step e) d.
Proof. intros Hp He. unfold string_set, with_xpath. rewrite Hp. unfold mgr_set, bind, reading, find_ast. rewrite He. reflexivity. Qed.

(** ** an element is found: its text is replaced and nothing else; refused, changing nothing, if it has children or the value is not XML *)
Theorem C90_element : forall E s e (v : str) d a n, parse s = Ok e -> readable E e = true -> node_set e = true -> attributes_distinct d -> first_of d (picks E e d) (IElem a n) ->
  (kids_of n = [] -> Forall xml_character v -> exists d', string_set E s (Some v) d = (d', Ret tt) /\ same_except a d d' /\ get_at a d' = Some (set_text (Some v) n)) /\
  (kids_of n <> [] -> string_set E s (Some v) d = (d, Exc XNotText)) /\
  (kids_of n = [] -> ~ Forall xml_character v -> string_set E s (Some v) d = (d, Exc XValue)).
Proof.
  intros E s e v d a n Hp R P D F. destruct (first_list_of E e d _ R P D F) as (l & El & O & _). assert (Hr : exists r, route d _ r) by (inversion O; eassumption). destruct Hr as [r Hr]. apply valid_item in Hr.
  rewrite (set_finds E s e v d _ l Hp El). cbn [ref_of set_in_xml]. rewrite Hr. split; [|split].
  - intros K V. rewrite K. unfold set_text_at. apply xml_valid_iff in V. rewrite V. eexists. split; [reflexivity|]. split; [|now apply get_upd_same].
    apply (same_except_upd a _ d n Hr). now destruct n.
  - intros K. destruct (kids_of n); [now destruct K|reflexivity].
  - intros K V. rewrite K. unfold set_text_at. destruct (xml_valid v) eqn:X; [|reflexivity]. destruct V. now apply xml_valid_iff.
Qed.

(** ** an attribute is found *)
Lemma kept_sub root P X i : kept_by root P X i -> X i. Proof. now intros [H _]. Qed.
Lemma folded_sub root E ps i : forall X : item -> Prop, fold_left (fun X p => kept_by root (fun i pos size => means root E p i pos size) X) ps X i -> X i.
Proof. induction ps as [|p ps IH]; intros X; cbn [fold_left]; [auto|]. intros H. exact (kept_sub _ _ _ _ (IH _ H)). Qed.
Lemma last_step_reached root E e ax t ps : ends_in e (EStep ax t ps) -> forall c pos size i, set_of (means root E e c pos size) i -> exists j, step_to E ax t j i.
Proof.
  intros H. remember (EStep ax t ps) as s eqn:Es. induction H as [ax' t' ps'|l op r s Hop _ IH]; intros c pos size i.
  - injection Es as -> -> ->. cbn [means set_of]. intros H. apply folded_sub in H. eauto.
  - destruct Hop as [->| ->]; cbn [means].
    + change (str_eqb (u "/") (u "/")) with true. cbn [set_of]. intros (j & _ & H). eapply IH; [exact Es|exact H].
    + change (str_eqb (u "//") (u "/")) with false. change (str_eqb (u "//") (u "//")) with true. cbn [set_of]. intros (j & h & _ & _ & H). eapply IH; [exact Es|exact H].
Qed.
Lemma attr_reached E ax t j a q v : step_to E ax t j (IAttr a q v) -> exists p n, t = NameTest p n /\ passes E p n q.
Proof.
  intros H. inversion H as [ax0 t0 c i Hax C W|ax0 p n c i Hax C W|t0 c W|t0 c i C W|t0 c i C W]; subst; try (destruct t as [p n|n [|]]; cbn [wanted] in W; [inversion W|destruct W|destruct W as [_ W]; inversion W]).
  inversion W; subst. eauto.
Qed.
Lemma passes_name E p n q : passes E p n q -> n <> u "*" -> p <> Some [] -> attr_name E p n = q.
Proof.
  intros [[-> _]|(_ & L & N)] S0 P0; [now destruct S0|]. unfold attr_name. destruct p as [[|c p]|]; [now destruct P0| |].
  - cbn [pfx]. cbn [in_namespace] in N. destruct N as (uri & Hu & N). apply prefix_ns in Hu. rewrite Hu. destruct q. cbn in *. now subst.
  - cbn [pfx]. cbn [in_namespace] in N. destruct q. cbn in *. now subst.
Qed.
Theorem C90_attribute : forall E s e (v : str) d a q w, parse s = Ok e -> readable E e = true -> node_set e = true -> attributes_distinct d -> first_of d (picks E e d) (IAttr a q w) ->
  (forall ax p n ps, ends_in e (EStep ax (NameTest p n) ps) -> p <> Some [] ->
     (n <> u "*" -> n <> u "text" -> Forall xml_character v -> exists d' m, string_set E s (Some v) d = (d', Ret tt) /\ same_except a d d' /\ get_at a d = Some m /\ get_at a d' = Some (set_attr q v m)) /\
     (n <> u "text" -> n = u "*" \/ ~ Forall xml_character v -> string_set E s (Some v) d = (d, Exc XValue))) /\
  ((forall st, ~ ends_in e st) -> string_set E s (Some v) d = (d, Exc XAttr)).
Proof.
  intros E s e v d a q w Hp R P D F. destruct (first_list_of E e d _ R P D F) as (l & El & O & _). assert (Hr : exists r, route d _ r) by (inversion O; eassumption). destruct Hr as [r Hr]. apply valid_item in Hr as (m & G & _).
  rewrite (set_finds E s e v d _ l Hp El). cbn [ref_of set_in_xml]. split.
  - intros ax p n ps He P0. destruct F as [F _]. unfold picks in F. destruct (last_step_reached d E e ax _ ps He _ _ _ _ F) as [j J]. apply attr_reached in J as (p' & n' & J & Pn). injection J as <- <-.
    apply ends_step in He. rewrite He. cbn [is_text_nodetest test_name]. split.
    + intros S0 T V. destruct (str_eqb n (u "text")) eqn:T'; [apply str_eqb_eq in T'; congruence|]. cbn [set_attr_at]. unfold name_valid. destruct (str_eqb n (u "*")) eqn:S'; [apply str_eqb_eq in S'; congruence|]. cbn [negb].
      apply xml_valid_iff in V. rewrite V. rewrite (passes_name E p n q Pn S0 P0). do 2 eexists. split; [reflexivity|]. split; [|split; [exact G|now apply get_upd_same]].
      apply (same_except_upd a _ d m G). now destruct m.
    + intros T V. destruct (str_eqb n (u "text")) eqn:T'; [apply str_eqb_eq in T'; congruence|]. cbn [set_attr_at]. unfold name_valid. destruct (str_eqb n (u "*")) eqn:S'; [reflexivity|]. cbn [negb].
      destruct (xml_valid v) eqn:X; [|reflexivity]. destruct V as [->|V]; [discriminate|]. destruct V. now apply xml_valid_iff.
  - intros H. destruct (terminal_step e) as [st|] eqn:T; [apply ends_step in T; now destruct (H st)|]. reflexivity.
Qed.

(** ** text is found: the text written is that of the element lxml gives as its parent *)
Theorem C90_text : forall E s e (v : str) d a tl w, parse s = Ok e -> readable E e = true -> node_set e = true -> attributes_distinct d -> first_of d (picks E e d) (IText a tl w) -> Forall xml_character v ->
  (forall ax ps, ends_in e (EStep ax (NodeType (u "text") None) ps) -> exists d' m, string_set E s (Some v) d = (d', Ret tt) /\ same_except a d d' /\ get_at a d = Some m /\ get_at a d' = Some (set_text (Some v) m)) /\
  ((forall st, ~ ends_in e st) -> string_set E s (Some v) d = (d, Exc XAttr)).
Proof.
  intros E s e v d a tl w Hp R P D F V. destruct (first_list_of E e d _ R P D F) as (l & El & O & _). assert (Hr : exists r, route d _ r) by (inversion O; eassumption). destruct Hr as [r Hr]. apply valid_item in Hr as (m & G).
  rewrite (set_finds E s e v d _ l Hp El). cbn [ref_of set_in_xml]. split.
  - intros ax ps He. apply ends_step in He. rewrite He. cbn [is_text_nodetest test_name]. change (str_eqb (u "text") (u "text")) with true. cbn iota. unfold set_text_at. apply xml_valid_iff in V. rewrite V.
    do 2 eexists. split; [reflexivity|]. split; [|split; [exact G|now apply get_upd_same]]. apply (same_except_upd a _ d m G). now destruct m.
  - intros H. destruct (terminal_step e) as [st|] eqn:T; [apply ends_step in T; now destruct (H st)|]. reflexivity.
Qed.

(** ** the field then reads what was written, if its XPath does not look at element text ([blind E None e]), or at the attribute written *)
Lemma alike_refl hid : (forall n, alike hid n n) /\ forall ks, alikes hid ks ks.
Proof.
  assert (A : forall n, alike hid n n).
  { induction n as [q ats t ks IH|s] using node_ind'; constructor.
    - clear. induction ats; constructor; auto. split; auto.
    - induction IH as [|[x tl] ks Hx _ IH]; constructor; auto. }
  split; [exact A|]. induction ks as [|[x tl] ks IH]; constructor; auto.
Qed.
Lemma alike_upd hid f a : forall d m, get_at a d = Some m -> alike hid m (f m) -> alike hid d (upd_at a f d).
Proof.
  induction a as [|i a IH]; intros d m G A; cbn [get_at upd_at] in *; [now injection G as ->|]. destruct d as [q ats t ks|s]; [|destruct i; discriminate]. cbn [kids_of set_kids] in *. constructor.
  - clear. induction ats; constructor; auto. split; auto.
  - revert i G. induction ks as [|[x tl] ks IHk]; intros i G; [destruct i; discriminate|]. destruct i as [|i]; cbn [nth_error upd_nth] in *.
    + constructor; [eapply IH; eassumption|apply (proj2 (alike_refl hid))].
    + constructor; [apply (proj1 (alike_refl hid))|]. apply IHk. exact G.
Qed.
Lemma alike_set_text hid v n : alike hid n (set_text v n).
Proof. destruct n as [q ats t ks|s]; constructor; [|apply (proj2 (alike_refl hid))]. clear. induction ats; constructor; auto. split; auto. Qed.
Lemma alike_set_attr q v n w : In (q, w) (attrs_of n) -> alike (Some q) n (set_attr q v n).
Proof.
  destruct n as [q' ats t ks|s]; [|intros []]. cbn [attrs_of set_attr]. intros I. constructor; [|apply (proj2 (alike_refl (Some q)))].
  induction ats as [|[q0 v0] ats IH]; [destruct I|]. cbn [attr_set]. destruct (qeqb q q0) eqn:Q.
  - apply qeqb_eq in Q. subst q0. constructor; [split; [reflexivity|intros H; now destruct H]|]. clear. induction ats; constructor; auto. split; auto.
  - constructor; [now split|]. apply IH. destruct I as [I|I]; [|exact I]. injection I as -> ->. rewrite qeqb_refl in Q. discriminate.
Qed.
Lemma alike_names hid : (forall n n', alike hid n n' -> map fst (attrs_of n') = map fst (attrs_of n)) /\
  forall ks ks', alikes hid ks ks' -> forall i, match nth_error ks' i, nth_error ks i with Some (x', _), Some (x, _) => alike hid x x' | None, None => True | _, _ => False end.
Proof.
  split.
  - intros n n' [q ats ats' t t' ks ks' H _|]; [|reflexivity]. cbn [attrs_of]. induction H as [|x y l l' [Hx _] _ IH]; [reflexivity|]. cbn [map]. now rewrite Hx, IH.
  - induction 1 as [|x x' t t' ks ks' Hx H IH]; intros [|i]; cbn [nth_error]; auto. exact (IH i).
Qed.
Lemma alike_at hid a : forall d d' n', alike hid d d' -> get_at a d' = Some n' -> exists n, get_at a d = Some n /\ alike hid n n'.
Proof.
  induction a as [|i a IH]; intros d d' n' A G; cbn [get_at] in *; [injection G as <-; eauto|]. destruct A as [q ats ats' t t' ks ks' _ H|]; [|destruct i; discriminate]. cbn [kids_of] in *.
  pose proof (proj2 (alike_names hid) _ _ H i) as N. destruct (nth_error ks' i) as [[x' tl']|]; [|discriminate]. destruct (nth_error ks i) as [[x tl]|]; [|destruct N]. cbn [fst] in *. eapply IH; eassumption.
Qed.
Lemma alike_distinct hid d d' : alike hid d d' -> attributes_distinct d -> attributes_distinct d'.
Proof. intros A D a n' G. destruct (alike_at hid a d d' n' A G) as (n & G' & A'). rewrite (proj1 (alike_names hid) _ _ A'). exact (D a n G'). Qed.

(** in documents that differ only in texts (and [hid] attributes) the first node found is at the same place *)
Lemma first_alike E hid e d d' : readable E e = true -> node_set e = true -> blind E hid e = true -> attributes_distinct d -> alike hid d d' -> forall i, first_of d (picks E e d) i ->
  exists i' r, first_of d' (picks E e d') i' /\ ialike hid i i' /\ route d i r /\ route d' i' r.
Proof.
  intros R P B D A i F. assert (D' : attributes_distinct d') by exact (alike_distinct hid d d' A D).
  assert (K : kalike hid (here d) (here d')) by (split; [reflexivity|now constructor]).
  pose proof (blind_steady E hid e R B (here d) (here d') 1 1 K) as V.
  pose proof (value_means E e d R D) as M. pose proof (value_means E e d' R D') as M'. destruct (node_set_ok E e d (IElem [] d) 1 1 P) as [X EX]. destruct (node_set_ok E e d' (IElem [] d') 1 1 P) as [X' EX'].
  unfold picks in *. rewrite EX in M, F. rewrite EX' in M' |- *. cbn [set_of] in *.
  destruct V as [l l' L|v NV].
  - destruct L as [|k k' l l' Kk L].
    + destruct F as [F _]. destruct (rep_empty d X M i F).
    + pose proof (proj1 (rep_first d D k l X M i) F) as ->. exists (snd k'), (fst k). split; [now apply (rep_first d' D' k' l' X' M')|]. destruct Kk as [Kf Ks]. split; [exact Ks|].
      destruct M as (_ & Vd & _). destruct M' as (_ & Vd' & _). apply Forall_inv in Vd, Vd'. split; [exact Vd|]. rewrite Kf. exact Vd'.
  - exfalso. destruct v as [l| |n|]; try contradiction; [now destruct (NV l)|destruct n as [[z [|]]|]; contradiction].
Qed.
Theorem C90_set_get : forall E s e (v : str) d d' a n, parse s = Ok e -> readable E e = true -> node_set e = true -> attributes_distinct d -> first_of d (picks E e d) (IElem a n) -> blind E None e = true -> tag_of n <> None ->
  string_set E s (Some v) d = (d', Ret tt) -> first_of d' (picks E e d') (IElem a (set_text (Some v) n)) /\ string_get E s d' = Ret (Some v).
Proof.
  intros E s e v d d' a n Hp R P D F B T Hs. destruct (first_list_of E e d _ R P D F) as (l & El & O & _). assert (Hr : exists r, route d _ r) by (inversion O; eassumption). destruct Hr as [r Hr]. apply valid_item in Hr.
  rewrite (set_finds E s e v d _ l Hp El) in Hs. cbn [ref_of set_in_xml] in Hs. rewrite Hr in Hs. destruct (kids_of n) eqn:Kn; [|discriminate]. unfold set_text_at in Hs. destruct (xml_valid v); [|discriminate]. injection Hs as <-.
  assert (A : alike None d (upd_at a (set_text (Some v)) d)) by (apply (alike_upd None _ a d n Hr); apply alike_set_text).
  pose proof (alike_distinct _ _ _ A D) as D'. destruct (first_alike E None e d _ R P B D A _ F) as (i' & r' & F' & I & _ & Rt). inversion I as [a0 n0 n' An|]; subst. apply valid_item in Rt. rewrite (get_upd_same a _ d n Hr) in Rt. injection Rt as <-.
  split; [exact F'|]. destruct (first_list_of E e _ _ R P D' F') as (l' & El' & _ & _). unfold string_get. rewrite Hp. unfold get_string. rewrite El'. cbn [item_str]. destruct n as [q ats t ks|]; [|now destruct T]. cbn [kids_of] in Kn. subst ks.
  cbn [set_text strval ostr flat_map]. now rewrite app_nil_r.
Qed.
Lemma attr_unique n q w w' : NoDup (map fst (attrs_of n)) -> In (q, w) (attrs_of n) -> In (q, w') (attrs_of n) -> w = w'.
Proof.
  induction (attrs_of n) as [|[q0 v0] l IH]; intros N0 I I'; [destruct I|]. cbn [map fst] in N0. inversion N0 as [|? ? N1 N2]; subst. destruct I as [I|I], I' as [I'|I'].
  - congruence.
  - injection I as -> ->. destruct N1. now apply (in_map fst) in I'.
  - injection I' as -> ->. destruct N1. now apply (in_map fst) in I.
  - now apply IH.
Qed.
Lemma attr_set_in q v l w : In (q, w) l -> In (q, v) (attr_set q v l).
Proof.
  induction l as [|[q0 v0] l IH]; [intros []|]. cbn [attr_set]. destruct (qeqb q q0) eqn:Q; [apply qeqb_eq in Q; subst; now left|]. intros [I|I]; [injection I as -> ->; rewrite qeqb_refl in Q; discriminate|]. right. now apply IH.
Qed.
Theorem C90_set_get_attribute : forall E s e (v : str) d d' a q w ax p n ps, parse s = Ok e -> readable E e = true -> node_set e = true -> attributes_distinct d -> first_of d (picks E e d) (IAttr a q w) ->
  ends_in e (EStep ax (NameTest p n) ps) -> p <> Some [] -> n <> u "text" -> blind E (Some q) e = true ->
  string_set E s (Some v) d = (d', Ret tt) -> first_of d' (picks E e d') (IAttr a q v) /\ string_get E s d' = Ret (Some v).
Proof.
  intros E s e v d d' a q w ax p n ps Hp R P D F He P0 T B Hs. destruct (first_list_of E e d _ R P D F) as (l & El & O & _). assert (Hr : exists r, route d _ r) by (inversion O; eassumption). destruct Hr as [r Hr]. apply valid_item in Hr as (m & G & Im).
  rewrite (set_finds E s e v d _ l Hp El) in Hs. cbn [ref_of set_in_xml] in Hs. pose proof (proj1 F) as Fp. unfold picks in Fp. destruct (last_step_reached d E e ax _ ps He _ _ _ _ Fp) as [j J]. apply attr_reached in J as (p' & n' & J & Pn). injection J as <- <-.
  apply ends_step in He. rewrite He in Hs. cbn [is_text_nodetest test_name] in Hs. destruct (str_eqb n (u "text")) eqn:T'; [apply str_eqb_eq in T'; congruence|]. cbn [set_attr_at] in Hs. unfold name_valid in Hs.
  destruct (str_eqb n (u "*")) eqn:S'; [discriminate|]. cbn [negb] in Hs. assert (S0 : n <> u "*") by (intros ->; discriminate). rewrite (passes_name E p n q Pn S0 P0) in Hs. destruct (xml_valid v); [|discriminate]. injection Hs as <-.
  assert (A : alike (Some q) d (upd_at a (set_attr q v) d)) by (apply (alike_upd _ _ a d m G); now apply (alike_set_attr q v m w)).
  pose proof (alike_distinct _ _ _ A D) as D'. destruct (first_alike E (Some q) e d _ R P B D A _ F) as (i' & r' & F' & I & _ & Rt). inversion I as [|a0 q0 v0 v' _]; subst. apply valid_item in Rt as (m' & G' & Im').
  rewrite (get_upd_same a _ d m G) in G'. injection G' as <-. assert (v' = v) as ->.
  { apply (attr_unique (set_attr q v m) q); [exact (D' a _ (get_upd_same a _ d m G))|exact Im'|]. destruct m; [|destruct Im]. cbn [set_attr attrs_of] in *. now apply (attr_set_in q v _ w). }
  split; [exact F'|]. destruct (first_list_of E e _ _ R P D' F') as (l' & El' & _ & _). unfold string_get. rewrite Hp. unfold get_string. now rewrite El'.
Qed.

(** ** nothing is found.  '//', '|' and filter expressions at the end, and the axes self, descendant and descendant-or-self, are refused *)
Inductive no_creation : expr -> Prop :=
| nc_deep l r : no_creation (EBin l (u "//") r)
| nc_union l r : no_creation (EBin l (u "|") r)
| nc_filter b ps : no_creation (EPred b ps)
| nc_axis ax p n ps : ax = u "self" \/ ax = u "descendant" \/ ax = u "descendant-or-self" -> no_creation (EStep (Some ax) (NameTest p n) ps).
Lemma not_found E e d : readable E e = true -> node_set e = true -> attributes_distinct d -> (forall i, ~ picks E e d i) -> find_ast E e doc_root d = Ret None.
Proof. intros R P D H. destruct (path_nodes E e d D R P) as (l & El & _ & _ & M). unfold find_ast. rewrite El. destruct l as [|i l]; [reflexivity|]. destruct (H i). apply M. now left. Qed.
Theorem C90_missing : forall E s e (v : str) d, parse s = Ok e -> readable E e = true -> node_set e = true -> attributes_distinct d -> (forall i, ~ picks E e d i) -> no_creation e ->
  string_set E s (Some v) d = (d, Exc XMissing) \/ string_set E s (Some v) d = (d, Exc XUnbound).
Proof.
  intros E s e v d Hp R P D H Nc. assert (G : string_set E s (Some v) d = bind (build E Create e (Some doc_root) None) (fun m => set_in_xml E m (Some v) (terminal_step e)) d).
  { unfold string_set, with_xpath. rewrite Hp. unfold mgr_set. unfold bind at 1, reading. now rewrite (not_found E e d R P D H). }
  rewrite G. destruct Nc as [l r|l r|b ps|ax p n ps Hax]; [left; reflexivity|left; reflexivity|left; reflexivity|]. unfold bind. cbn [build]. destruct (forallb constructible ps); [|left; reflexivity]. right.
  destruct Hax as [->|[->| ->]]; reflexivity.
Qed.

(** ** [l/name] with nothing found: the element is added to the first node [l] finds, as its last child *)
Lemma typed_nodes E e : is_nodes (ty E e) = true -> readable E e = true /\ node_set e = true.
Proof.
  unfold readable. destruct e as [| | | |a op b|e ps| |ax t ps|ab|p n|p n args]; cbn [ty node_set]; try discriminate.
  - unfold str_mem. cbn [existsb]. destruct (str_eqb op (u "/")).
    { destruct (is_nodes (ty E a) && is_nodes (ty E b))%bool; [split; reflexivity|discriminate]. }
    destruct (str_eqb op (u "//")).
    { destruct (is_nodes (ty E a) && is_nodes (ty E b) && match b with EStep _ _ _ => true | _ => false end)%bool; [split; reflexivity|discriminate]. }
    destruct (str_eqb op (u "|")).
    { destruct (is_nodes (ty E a) && is_nodes (ty E b))%bool; [split; reflexivity|discriminate]. }
    destruct (str_eqb op (u "=") || (str_eqb op (u "!=") || (str_eqb op (u "and") || (str_eqb op (u "or") || false))))%bool; [|discriminate]. destruct (is_some (ty E a) && is_some (ty E b))%bool; discriminate.
  - destruct (is_nodes (ty E e) && forallb (fun p => is_some (ty E p)) ps)%bool; [split; reflexivity|discriminate].
  - destruct (is_some (axis_of ax) && sup_test E t && forallb (fun p => is_some (ty E p)) ps)%bool; [split; reflexivity|discriminate].
  - destruct (str_eqb ab (u ".")); [split; reflexivity|discriminate].
  - destruct p; [discriminate|]. destruct (lookup n (vars E)) as [[]|]; discriminate.
  - destruct p; [discriminate|]. unfold call_type. destruct (map (ty E) args) as [|x [|y [|]]]; try discriminate.
    + repeat match goal with |- context [str_mem n ?s] => destruct (str_mem n s) end; discriminate.
    + repeat match goal with |- context [str_eqb n ?s] => destruct (str_eqb n s) end; repeat match goal with |- context [str_mem n ?s] => destruct (str_mem n s) end; destruct x as [[]|]; discriminate.
    + destruct (str_mem n [u "contains"; u "starts-with"] && is_strish x && is_strish y)%bool; discriminate.
Qed.
Lemma slash_parts E l r : readable E (EBin l (u "/") r) = true -> readable E l = true /\ node_set l = true /\ readable E r = true /\ node_set r = true.
Proof.
  unfold readable at 1. cbn [ty]. change (str_eqb (u "/") (u "/")) with true. cbn iota. destruct (is_nodes (ty E l)) eqn:L; [|discriminate]. destruct (is_nodes (ty E r)) eqn:Rr; [|discriminate]. intros _.
  destruct (typed_nodes E l L), (typed_nodes E r Rr). auto.
Qed.
Lemma found_first E l d i : readable E l = true -> node_set l = true -> attributes_distinct d -> first_of d (picks E l d) i -> reread l = Some l -> find_node E l (Some doc_root) d = Ret (Some (ref_of i)).
Proof. intros R P D F Rr. unfold find_node. rewrite Rr. unfold find_ast. destruct (first_list_of E l d i R P D F) as (l' & -> & _). reflexivity. Qed.
Lemma append_others K a : forall d m c n, get_at a d = Some m -> c <> a -> get_at c d = Some n -> exists n', get_at c (upd_at a (append_kid K) d) = Some n' /\ shell n' = shell n.
Proof.
  induction a as [|i a IH]; intros d m c n G Hc Gc; cbn [upd_at].
  - destruct c as [|j c]; [now destruct Hc|]. destruct d as [q ats t ks|]; [|destruct j; discriminate]. cbn [get_at kids_of append_kid set_kids] in *. destruct (nth_error ks j) as [k|] eqn:Kj; [|discriminate].
    rewrite nth_error_app1 by (apply nth_error_Some; congruence). rewrite Kj. eauto.
  - destruct d as [q ats t ks|]; [|destruct i; discriminate]. cbn [get_at kids_of set_kids] in *. destruct (nth_error ks i) as [[x tl]|] eqn:Ki; [|discriminate]. cbn [fst] in G. destruct c as [|j c].
    + cbn [get_at] in *. injection Gc as <-. eexists. split; [reflexivity|]. unfold shell. cbn [tag_of attrs_of text_of kids_of]. f_equal.
      clear. revert i. induction ks as [|k ks IH]; intros [|i]; cbn [upd_nth map]; [reflexivity|reflexivity|reflexivity|]. now rewrite IH.
    + cbn [get_at kids_of] in *. rewrite nth_upd_nth. destruct (Nat.eqb_spec i j) as [<-|Nij]; [|destruct (nth_error ks j); [eauto|discriminate]]. rewrite Ki in *. cbn [option_map fst] in *.
      apply (IH x m c n G); [congruence|exact Gc].
Qed.
Lemma child_ns_ok E p n : sup_test E (NameTest p n) = true -> p <> Some [] -> n <> u "*" -> exists uri, child_ns E p = Ret uri /\ passes E p n (QN uri n).
Proof.
  cbn [sup_test]. unfold resolve, child_ns. intros S0 P0 N0. destruct p as [[|c p]|]; [now destruct P0| |].
  - cbn [pfx]. unfold ns_of in S0. destruct (nss E) as [l|] eqn:En; [|discriminate]. destruct (lookup (c :: p) l) as [uri|] eqn:L; [|discriminate]. exists (Some uri). split; [reflexivity|]. right. split; [exact N0|]. split; [reflexivity|].
    exists uri. split; [exists l; split; [exact En|now apply lookup_bound]|reflexivity].
  - exists None. split; [now destruct (nss E)|]. right. split; [exact N0|]. split; reflexivity.
Qed.
Theorem C90_create_in_first : forall E s l ax p n (v : str) d a q ats t ks, let e := EBin l (u "/") (EStep ax (NameTest p n) []) in
  parse s = Ok e -> readable E e = true -> attributes_distinct d -> (forall i, ~ picks E e d i) -> ax = None \/ ax = Some (u "child") -> p <> Some [] -> n <> u "*" -> reread l = Some l -> Forall xml_character v ->
  first_of d (picks E l d) (IElem a (Elem q ats t ks)) ->
  exists d' q', string_set E s (Some v) d = (d', Ret tt) /\ passes E p n q' /\ get_at a d' = Some (Elem q ats t (ks ++ [(Elem q' [] (Some v) [], None)])) /\
    forall c m, c <> a -> get_at c d = Some m -> exists m', get_at c d' = Some m' /\ shell m' = shell m.
Proof.
  intros E s l ax p n v d a q ats t ks e Hp R D H Hax P0 N0 Rr V F. destruct (slash_parts E l _ R) as (Rl & Pl & Rs & Ps). apply child_axis_ok in Hax.
  destruct (first_list_of E l d _ Rl Pl D F) as (l' & _ & O & _). assert (Hr : exists r, route d _ r) by (inversion O; eassumption). destruct Hr as [r Hr]. apply valid_item in Hr.
  assert (St : sup_test E (NameTest p n) = true) by (unfold readable in Rs; cbn [ty forallb] in Rs; destruct (sup_test E (NameTest p n)); [reflexivity|rewrite andb_false_r in Rs; discriminate]).
  destruct (child_ns_ok E p n St P0 N0) as (uri & Cn & Pn). set (K := Elem (QN uri n) [] None []).
  assert (G1 : get_at (a ++ [List.length ks]) (upd_at a (insert_kid (List.length ks) K) d) = Some K).
  { eapply get_snoc; [exact (get_upd_same a _ d _ Hr)|]. cbn [insert_kid set_kids kids_of]. unfold insert_nth. rewrite firstn_all, skipn_all, nth_error_app2 by lia. now rewrite Nat.sub_diag. }
  exists (upd_at a (append_kid (Elem (QN uri n) [] (Some v) [])) d), (QN uri n). split; [|split; [exact Pn|split; [now rewrite (get_upd_same a _ d _ Hr)|]]].
  - unfold string_set, with_xpath. rewrite Hp. unfold mgr_set, bind at 1, reading. rewrite (not_found E e d R eq_refl D H). unfold e. cbn [build]. change (str_eqb (u "/") (u "/")) with true. cbn iota.
    unfold bind at 1 2, reading. rewrite (found_first E l d _ Rl Pl D F Rr). cbn [ref_of forallb]. unfold bind at 1, ret at 1. rewrite Hax. unfold bind at 1. unfold create_child. rewrite Cn. unfold name_valid. destruct (str_eqb n (u "*")) eqn:Sn; [apply str_eqb_eq in Sn; now destruct N0|]. cbn [negb].
    rewrite Hr. cbn [kids_of iterM]. unfold bind, ret. cbn [set_in_xml]. fold K. rewrite G1. unfold K at 1. cbn [kids_of]. unfold set_text_at. apply xml_valid_iff in V. rewrite V. f_equal.
    rewrite (upd_at_app a), upd_upd_same. apply (upd_at_ext a _ _ d _ Hr). cbn [insert_kid append_kid set_kids upd_at]. unfold insert_nth. rewrite firstn_all, skipn_all. f_equal.
    clear. induction ks as [|k ks IH]; [reflexivity|]. cbn [List.length app upd_nth]. now rewrite IH.
  - intros c m Hc Gc. exact (append_others _ a d _ c m Hr Hc Gc).
Qed.

(** ** deleting, or assigning None.  Through an XPath that ends with '//', '|', a filter expression or another axis nothing happens, so the field keeps its value *)
Theorem C90_delete_ignored : forall E s e d, parse s = Ok e -> readable E e = true -> node_set e = true -> attributes_distinct d -> no_creation e \/ e = EAbbrev (u ".") ->
  field_delete E s d = (d, Ret tt) /\ string_set E s None d = (d, Ret tt).
Proof.
  intros E s e d Hp R P D Nc. destruct (path_nodes E e d D R P) as (l & El & _). assert (Rm : remove_xml E e false doc_root d = (d, Ret false)).
  { destruct Nc as [[l0 r|l0 r|b ps|ax p n ps [->|[->| ->]]]| ->]; reflexivity. }
  unfold field_delete, string_set, with_xpath. rewrite Hp. unfold mgr_delete, mgr_set, bind, reading, find_ast. rewrite El. destruct l as [|i l]; cbn [first_match]; [split; reflexivity|]. rewrite Rm. split; reflexivity.
Qed.
(** through [l/child] the child is taken from the first node [l] finds: if that has none nothing happens, even when the field reads another's *)
Lemma eval_below E e a n d : readable E e = true -> get_at a d = Some n -> eval_at E e (RElem a) d = Ret (erase (fev E e (to_elem a, IElem a n) 1 1)).
Proof.
  intros Hs G. unfold eval_at, xpath. rewrite G, Hs. destruct (supported E e) eqn:Su; [|reflexivity]. destruct (ev_agrees E e Su) as (_ & _ & H & _). now rewrite (H (to_elem a, IElem a n) 1 1).
Qed.
Lemma find_below E e a n d : readable E e = true -> node_set e = true -> attributes_distinct d -> get_at a d = Some n -> reread e = Some e ->
  (forall i, first_of d (set_of (means d E e (IElem a n) 1 1)) i -> find_node E e (Some (RElem a)) d = Ret (Some (ref_of i))) /\
  ((forall i, ~ set_of (means d E e (IElem a n) 1 1) i) -> find_node E e (Some (RElem a)) d = Ret None).
Proof.
  intros R P D G Rr. unfold find_node. rewrite Rr. unfold find_ast. rewrite (eval_below E e a n d R G). unfold readable in R. apply is_some_ty in R as [t Ht].
  assert (V : route d (@snd pkey item (to_elem a, IElem a n)) (@fst pkey item (to_elem a, IElem a n))) by now constructor.
  pose proof (proj1 (fev_means d D E e t Ht (to_elem a, IElem a n) 1 1 V)) as M. cbn [snd] in M. destruct (node_set_ok E e d (IElem a n) 1 1 P) as [X EX]. rewrite EX in *. cbn [set_of].
  destruct (fev E e (to_elem a, IElem a n) 1 1) as [l| |x|]; try contradiction; [|destruct x as [[z [|]]|]; contradiction]. cbn [erase]. destruct l as [|k l].
  - split; [|reflexivity]. intros i [F _]. destruct (rep_empty d X M i F).
  - split; [|intros H; destruct (H (snd k)); now apply (rep_first d D k l X M)]. intros i F. apply (rep_first d D k l X M) in F. now subst.
Qed.
Lemma prune_nothing E l d : no_creation l \/ l = EAbbrev (u ".") -> remove_xml E l true doc_root d = (d, Ret false).
Proof. intros [[l0 r|l0 r|b ps|ax p n ps [->|[->| ->]]]| ->]; reflexivity. Qed.
Theorem C90_delete_child : forall E s l ax p n ps d a m, let r := EStep ax (NameTest p n) ps in let e := EBin l (u "/") r in let found := set_of (means d E r (IElem a m) 1 1) in
  parse s = Ok e -> readable E e = true -> attributes_distinct d -> ax = None \/ ax = Some (u "child") -> reread l = Some l -> reread r = Some r -> no_creation l \/ l = EAbbrev (u ".") ->
  first_of d (picks E l d) (IElem a m) ->
  (forall i x, first_of d found (IElem (a ++ [i]) x) -> field_delete E s d = (upd_at a (remove_kid i) d, Ret tt)) /\
  ((forall i, ~ found i) -> field_delete E s d = (d, Ret tt)).
Proof.
  intros E s l ax p n ps d a m r e found Hp R D Hax Rl Rr Nc F. destruct (slash_parts E l r R) as (R1 & P1 & R2 & P2). apply child_axis_ok in Hax.
  destruct (first_list_of E l d _ R1 P1 D F) as (l' & _ & O & _). assert (Hr : exists r, route d _ r) by (inversion O; eassumption). destruct Hr as [r0 Hr]. apply valid_item in Hr.
  destruct (find_below E r a m d R2 P2 D Hr Rr) as [F1 F2]. destruct (path_nodes E e d D R eq_refl) as (L & El & _ & _ & M). unfold field_delete, with_xpath. rewrite Hp.
  assert (Rm : remove_xml E e false doc_root d = bind (remove_xml E r false (RElem a)) (fun removed => if removed then bind (remove_xml E l true doc_root) (fun _ => ret removed) else ret removed) d).
  { unfold e. cbn [remove_xml]. change (str_eqb (u "/") (u "/")) with true. cbn iota. unfold bind at 1, reading. rewrite (found_first E l d _ R1 P1 D F Rl). reflexivity. }
  split.
  - intros i x Fi. assert (Pe : picks E e d (IElem (a ++ [i]) x)).
    { unfold picks, e. cbn [means]. change (str_eqb (u "/") (u "/")) with true. cbn [set_of]. exists (IElem a m). split; [exact (proj1 F)|exact (proj1 Fi)]. }
    unfold mgr_delete, bind at 1, reading, find_ast. rewrite El. destruct L as [|j L]; [now apply M in Pe|]. cbn [first_match]. unfold bind at 1. rewrite Rm. unfold bind at 1. unfold r at 1. cbn [remove_xml]. rewrite Hax. unfold bind at 1, reading.
    fold r. rewrite (F1 _ Fi). cbn [ref_of]. unfold remove_at, last_index. rewrite last_last. unfold bind at 1. rewrite (prune_nothing E l (upd_at a (remove_kid i) d) Nc). reflexivity.
  - intros Nf. unfold mgr_delete, bind at 1, reading, find_ast. rewrite El. destruct L as [|j L]; [reflexivity|]. cbn [first_match]. unfold bind at 1. rewrite Rm. unfold bind at 1. unfold r at 1. cbn [remove_xml]. rewrite Hax. unfold bind at 1, reading.
    fold r. rewrite (F2 Nf). reflexivity.
Qed.

(** through [l/@name] the attribute of the first node [l] finds is removed; KeyError if it has none, even when the field reads another's *)
Lemma attr_get_in q v l : In (q, v) l -> attr_get q l <> None.
Proof. induction l as [|[q0 v0] l IH]; [intros []|]. cbn [attr_get]. destruct (qeqb q q0) eqn:Q; [discriminate|]. intros [I|I]; [injection I as -> ->; rewrite qeqb_refl in Q; discriminate|now apply IH]. Qed.
Lemma attr_get_out q l : (forall v, ~ In (q, v) l) -> attr_get q l = None.
Proof. induction l as [|[q0 v0] l IH]; intros H; [reflexivity|]. cbn [attr_get]. destruct (qeqb q q0) eqn:Q; [apply qeqb_eq in Q; subst; destruct (H v0); now left|]. apply IH. intros v I. apply (H v). now right. Qed.
Theorem C90_delete_attribute : forall E s l ax p n d a m q, let e := EBin l (u "/") (EStep ax (NameTest p n) []) in
  parse s = Ok e -> readable E e = true -> attributes_distinct d -> ax = Some (u "@") \/ ax = Some (u "attribute") -> p <> Some [] -> n <> u "*" -> passes E p n q -> reread l = Some l -> no_creation l \/ l = EAbbrev (u ".") ->
  first_of d (picks E l d) (IElem a m) ->
  (forall v, In (q, v) (attrs_of m) -> field_delete E s d = (upd_at a (del_attr q) d, Ret tt)) /\
  ((forall v, ~ In (q, v) (attrs_of m)) -> (exists i, picks E e d i) -> field_delete E s d = (d, Exc XKey)) /\
  ((forall i, ~ picks E e d i) -> field_delete E s d = (d, Ret tt)).
Proof.
  intros E s l ax p n d a m q e Hp R D Hax P0 N0 Pn Rl Nc F. destruct (slash_parts E l _ R) as (R1 & P1 & R2 & P2).
  destruct (first_list_of E l d _ R1 P1 D F) as (l' & _ & O & _). assert (Hr : exists r, route d _ r) by (inversion O; eassumption). destruct Hr as [r0 Hr]. apply valid_item in Hr.
  assert (Ca : child_axis ax = false /\ attr_axis ax = true) by (destruct Hax as [->| ->]; split; reflexivity). destruct Ca as [Ca Aa].
  destruct (path_nodes E e d D R eq_refl) as (L & El & _ & _ & M). unfold field_delete, with_xpath. rewrite Hp. unfold mgr_delete, bind at 1 3 5, reading, find_ast. rewrite El.
  assert (Rm : remove_xml E e false doc_root d = bind (remove_attr_node E p n (RElem a)) (fun removed => if removed then bind (remove_xml E l true doc_root) (fun _ => ret removed) else ret removed) d).
  { unfold e. cbn [remove_xml]. rewrite Ca, Aa. change (str_eqb (u "/") (u "/")) with true. cbn iota. unfold bind at 1, reading. rewrite (found_first E l d _ R1 P1 D F Rl). reflexivity. }
  assert (At : remove_attr_node E p n (RElem a) d = match attr_get q (attrs_of m) with Some _ => (upd_at a (del_attr q) d, Ret true) | None => (d, Exc XKey) end).
  { unfold remove_attr_node. rewrite Hr, (passes_name E p n q Pn N0 P0). reflexivity. }
  assert (Pe : forall v, In (q, v) (attrs_of m) -> picks E e d (IAttr a q v)).
  { intros v I. unfold picks, e. cbn [means]. change (str_eqb (u "/") (u "/")) with true. cbn [set_of fold_left]. exists (IElem a m). split; [exact (proj1 F)|].
    destruct m as [q' ats t ks|]; [|destruct I]. apply to_attribute; [exact Hax|now constructor|now constructor]. }
  split; [|split].
  - intros v I. destruct L as [|j L]; [destruct (proj2 (M _) (Pe v I))|]. cbn [first_match]. unfold bind at 1. rewrite Rm. unfold bind at 1. rewrite At. pose proof (attr_get_in q v _ I) as Ne. destruct (attr_get q (attrs_of m)); [|now destruct Ne].
    unfold bind at 1. rewrite (prune_nothing E l (upd_at a (del_attr q) d) Nc). reflexivity.
  - intros No [i Hi]. destruct L as [|j L]; [destruct (proj2 (M _) Hi)|]. cbn [first_match]. unfold bind at 1. rewrite Rm. unfold bind at 1. rewrite At, (attr_get_out q _ No). reflexivity.
  - intros H. destruct L as [|j L]; [reflexivity|]. destruct (H j). apply M. now left.
Qed.

(** ** in the shipped classes: [del obj.unitdate] (eadmap.py:208) and [del obj.name] of an EAD index entry (eadmap.py:347) do nothing *)
Definition deaf : list str := [u ".//e:unitdate"; u "e:corpname|e:famname|e:function|e:genreform|e:geogname|e:name|e:namegrp|e:occupation|e:persname|e:title|e:subject"].
Lemma deaf_shipped : forallb (fun x => existsb (fun r => str_eqb (r_xpath r) x && match r_kind r with Single MNode => true | _ => false end)%bool rows_eadmap) deaf = true.
Proof. vm_compute. reflexivity. Qed.
Definition ends_deaf (e : expr) : bool := match e with EBin _ op _ => str_mem op [u "//"; u "|"] | _ => false end.
Lemma ends_deaf_ok e : ends_deaf e = true -> no_creation e.
Proof. destruct e; try discriminate. cbn [ends_deaf]. unfold str_mem. cbn [existsb]. destruct (str_eqb op (u "//")) eqn:O1; [apply str_eqb_eq in O1; subst; constructor|]. destruct (str_eqb op (u "|")) eqn:O2; [apply str_eqb_eq in O2; subst; constructor|discriminate]. Qed.
Lemma deaf_fine : forallb (fun x => match parse x with Ok e => readable (just ns_eadmap) e && node_set e && names_declared ns_eadmap e && ends_deaf e | _ => false end)%bool deaf = true.
Proof. vm_compute. reflexivity. Qed.
Theorem C90_shipped_delete : forall E d s, In s deaf -> binds E ns_eadmap -> attributes_distinct d -> field_delete E s d = (d, Ret tt) /\ string_set E s None d = (d, Ret tt).
Proof.
  intros E d s Hs B D. pose proof deaf_fine as F. rewrite forallb_forall in F. specialize (F s Hs). cbv beta in F. destruct (parse s) as [e| | |] eqn:Hp; try discriminate.
  apply andb_prop in F as [F F4]. apply andb_prop in F as [F F3]. apply andb_prop in F as [F1 F2].
  apply (C90_delete_ignored E s e d Hp); auto. - unfold readable in *. now rewrite (ty_agree _ _ B e F3). - left. now apply ends_deaf_ok.
Qed.

(** ** concrete cases *)
Open Scope string_scope.
Definition desk : node := el "r" [] "" [el "a" [("k", "1")] "" [el "t" [] "x" []]; el "b" [] "" [el "t" [("id", "7")] "y" []; el "w" [] "z" []]; el "b" [] "" [el "w" [("id", "8")] "" []]].
Definition can (s : string) : Prop := parse (u s) = Ok (xp s) /\ readable E0 (xp s) = true /\ node_set (xp s) = true /\ attributes_distinct desk.
Ltac can := split; [vm_compute; reflexivity|split; [vm_compute; reflexivity|split; [vm_compute; reflexivity|apply dist_ok; vm_compute; reflexivity]]].
(** the node evaluated first is the first one *)
Lemma head_first E e d i l : readable E e = true -> node_set e = true -> attributes_distinct d -> eval_at E e doc_root d = Ret (XN (i :: l)) -> first_of d (picks E e d) i.
Proof.
  intros R P D He. destruct (path_nodes E e d D R P) as (l' & El & _ & O & M). rewrite He in El. injection El as <-. split; [apply M; now left|]. intros j Hj. apply M in Hj as [->|Hj]; [now left|]. right.
  inversion O as [|? ? _ F _]; subst. rewrite Forall_forall in F. now apply F.
Qed.
Lemma none_picked E e d : readable E e = true -> node_set e = true -> attributes_distinct d -> eval_at E e doc_root d = Ret (XN []) -> forall i, ~ picks E e d i.
Proof. intros R P D He i Hi. destruct (path_nodes E e d D R P) as (l' & El & _ & O & M). rewrite He in El. injection El as <-. now apply M in Hi. Qed.
(** the first t anywhere: [a/t] *)
Example C90_element_case : can ".//t" /\ first_of desk (picks E0 (xp ".//t") desk) (IElem [0; 0] (el "t" [] "x" [])) /\ blind E0 None (xp ".//t") = true /\
  exists d', string_set E0 (u ".//t") (Some (u "new")) desk = (d', Ret tt) /\ string_get E0 (u ".//t") d' = Ret (Some (u "new")) /\ string_get E0 (u ".//t[@id]") d' = Ret (Some (u "y")).
Proof. assert (C : can ".//t") by can. split; [exact C|]. destruct C as (_ & R & P & D). split; [eapply head_first; [exact R|exact P|exact D|vm_compute; reflexivity]|]. split; [vm_compute; reflexivity|]. eexists. repeat split; vm_compute; reflexivity. Qed.
(** an attribute, found through '//' *)
Example C90_attribute_case : can ".//*/@id" /\ first_of desk (picks E0 (xp ".//*/@id") desk) (IAttr [1; 0] (QN None (u "id")) (u "7")) /\ blind E0 (Some (QN None (u "id"))) (xp ".//*/@id") = true /\
  ends_in (xp ".//*/@id") (EStep (Some (u "@")) (NameTest None (u "id")) []) /\
  exists d', string_set E0 (u ".//*/@id") (Some (u "9")) desk = (d', Ret tt) /\ string_get E0 (u ".//*/@id") d' = Ret (Some (u "9")) /\ string_get E0 (u ".//w/@id") d' = Ret (Some (u "8")).
Proof.
  assert (C : can ".//*/@id") by can. split; [exact C|]. destruct C as (_ & R & P & D). split; [eapply head_first; [exact R|exact P|exact D|vm_compute; reflexivity]|]. split; [vm_compute; reflexivity|].
  split; [apply ends_step; vm_compute; reflexivity|]. eexists. repeat split; vm_compute; reflexivity.
Qed.
(** text inside the first b's first w, and text through a union *)
Example C90_text_case : can "b/w/text()" /\ first_of desk (picks E0 (xp "b/w/text()") desk) (IText [1; 1] false (u "z")) /\ can "a|b/w/text()" /\ (forall st, ~ ends_in (xp "a|b/w/text()") st) /\
  ends_in (xp "b/w/text()") (EStep None (NodeType (u "text") None) []).
Proof.
  assert (C : can "b/w/text()") by can. split; [exact C|]. destruct C as (_ & R & P & D). split; [eapply head_first; [exact R|exact P|exact D|vm_compute; reflexivity]|]. split; [can|].
  split; [intros st H; apply ends_step in H; vm_compute in H; discriminate|apply ends_step; vm_compute; reflexivity].
Qed.
(** nothing found: refused, or added to the first b *)
Example C90_missing_case : can ".//q" /\ no_creation (xp ".//q") /\ (forall i, ~ picks E0 (xp ".//q") desk i) /\ can ".//b/q" /\ (forall i, ~ picks E0 (xp ".//b/q") desk i) /\ reread (xp ".//b") = Some (xp ".//b") /\
  xp ".//b/q" = EBin (xp ".//b") (u "/") (EStep None (NameTest None (u "q")) []) /\
  exists d', string_set E0 (u ".//b/q") (Some (u "v")) desk = (d', Ret tt) /\ get_at [1; 2] d' = Some (el "q" [] "v" []).
Proof.
  assert (C : can ".//q") by can. assert (C' : can ".//b/q") by can. split; [exact C|]. destruct C as (_ & R & P & D). split; [apply ends_deaf_ok; vm_compute; reflexivity|]. split; [apply none_picked; auto; vm_compute; reflexivity|].
  split; [exact C'|]. destruct C' as (_ & R' & P' & _). split; [apply none_picked; auto; vm_compute; reflexivity|]. split; [vm_compute; reflexivity|]. split; [vm_compute; reflexivity|]. eexists. split; vm_compute; reflexivity.
Qed.
(** deleting [.//t] does nothing; [.//b/w] takes the first b's w; the attribute id is the second w's, so deleting [.//w/@id] fails; [.//t/q] *)
Example C90_delete_case : field_delete E0 (u ".//t") desk = (desk, Ret tt) /\ string_get E0 (u ".//t") desk = Ret (Some (u "x")) /\
  field_delete E0 (u ".//b/w") desk = (upd_at [1] (remove_kid 1) desk, Ret tt) /\ first_of desk (picks E0 (xp ".//b") desk) (IElem [1] (el "b" [] "" [el "t" [("id", "7")] "y" []; el "w" [] "z" []])) /\
  no_creation (xp ".//b") /\ reread (xp "w") = Some (xp "w") /\
  string_get E0 (u ".//w/@id") desk = Ret (Some (u "8")) /\ field_delete E0 (u ".//w/@id") desk = (desk, Exc XKey) /\ field_delete E0 (u "(a|b)/@k") desk = (upd_at [0] (del_attr (QN None (u "k"))) desk, Ret tt).
Proof.
  split; [vm_compute; reflexivity|]. split; [vm_compute; reflexivity|]. split; [vm_compute; reflexivity|]. split; [eapply head_first; [vm_compute; reflexivity|vm_compute; reflexivity|apply dist_ok; vm_compute; reflexivity|vm_compute; reflexivity]|].
  split; [apply ends_deaf_ok; vm_compute; reflexivity|]. repeat split; vm_compute; reflexivity.
Qed.
(** an XPath that looks at the text it writes does not find it again *)
Theorem C90_looks_at_text : can ".//t[. = 'x']" /\ exists d', string_set E0 (u ".//t[. = 'x']") (Some (u "new")) desk = (d', Ret tt) /\ string_get E0 (u ".//t[. = 'x']") d' = Ret None.
Proof. split; [can|]. eexists. split; vm_compute; reflexivity. Qed.
Close Scope string_scope.
Print Assumptions C90_element.
Print Assumptions C90_attribute.
Print Assumptions C90_text.
Print Assumptions C90_set_get.
Print Assumptions C90_set_get_attribute.
Print Assumptions C90_missing.
Print Assumptions C90_create_in_first.
Print Assumptions C90_delete_ignored.
Print Assumptions C90_delete_child.
Print Assumptions C90_delete_attribute.
Print Assumptions C90_shipped_delete.
Print Assumptions C90_looks_at_text.
