(** C90, creation of an attribute through 'l/@name' (xmlmap/fields.py:258-427): assigning to a field that finds nothing sets the attribute on the first element [l] finds. *)
From Coq Require Import String Arith ZArith NArith List Lia Bool.
From Verif Require Import FieldUndo FieldUndoEq MapperProofs FieldRefuse Props_Fields Props_Mappers NodeList ListSpec ListOps ListFacts ListSim ReadSpec EvalSpec EvalMeaning EvalOrder EvalMain EvalValues EvalFuns EvalAgree Shipped EnvAgree Props_Shipped EvalBlind Props_Eval Props_Write Props_WriteList EvalRemove Props_RemoveList Props_AttrList.
From Verif Require Import XPathEval FieldSpec DocSpec ListSpec XPathRead EvalSpec.
Import ListNotations.

(** XPaths made of element steps without predicates, '.', '/', '//' and '|' *)
Fixpoint bare (e : expr) : bool :=
  match e with
  | EAbbrev _ => true
  | EStep ax (NameTest _ _) [] => negb (attr_axis ax)
  | EBin l op r => bare l && bare r && (str_mem op [u "|"] || (str_mem op [u "/"; u "//"] && match r with EStep _ _ _ => true | _ => false end))
  | _ => false
  end%bool.

(** two documents with the same elements in the same places select the same places *)
Section Same.
Context (E : env).
Definition same_tags (d1 d2 : node) : Prop := forall b, option_map tag_of (get_at b d1) = option_map tag_of (get_at b d2).
Definition twin (d1 d2 : node) (i j : item) : Prop := exists b n n', i = IElem b n /\ j = IElem b n' /\ get_at b d1 = Some n /\ get_at b d2 = Some n'.
Lemma twin_at d1 d2 b n : same_tags d1 d2 -> get_at b d1 = Some n -> exists n', get_at b d2 = Some n' /\ tag_of n = tag_of n' /\ twin d1 d2 (IElem b n) (IElem b n').
Proof. intros S G. pose proof (S b) as H. rewrite G in H. destruct (get_at b d2) as [n'|] eqn:G'; [|discriminate]. injection H as H. exists n'. split; [reflexivity|]. split; [exact H|]. now exists b, n, n'. Qed.
Lemma twin_child d1 d2 c c' b n : same_tags d1 d2 -> twin d1 d2 c c' -> child c (IElem b n) -> exists i', child c' i' /\ twin d1 d2 (IElem b n) i'.
Proof.
  intros S (a & m & m' & -> & -> & G & G') H. inversion H as [a0 q ats t ks k x tl Hk| |]; subst. assert (Gk : get_at (a ++ [k]) d1 = Some n) by (eapply get_snoc; [exact G|exact Hk]).
  destruct (twin_at d1 d2 _ _ S Gk) as (n' & Gk' & _ & Tw). exists (IElem (a ++ [k]) n'). split; [|exact Tw]. rewrite get_app, G' in Gk'. destruct m' as [q' ats' t' ks'|]; [|destruct k; discriminate]. cbn [get_at kids_of] in Gk'.
  destruct (nth_error ks' k) as [[x' tl']|] eqn:Hk'; [|discriminate]. cbn [fst] in Gk'. injection Gk' as ->. now apply (child_node a q' ats' t' ks' k n' tl').
Qed.
Lemma twin_inside d1 d2 c c' i : same_tags d1 d2 -> inside c i -> forall b n, i = IElem b n -> twin d1 d2 c c' -> exists i', inside c' i' /\ twin d1 d2 i i'.
Proof.
  intros S H. revert c'. induction H as [c i H|c j i H Hi IH]; intros c' b n -> T.
  - destruct (twin_child d1 d2 c c' b n S T H) as (i' & H1 & H2). exists i'. split; [now constructor|exact H2].
  - assert (Ej : exists bj nj, j = IElem bj nj) by (inversion H; subst; [eauto| |]; inversion Hi; subst; match goal with X : child (IText _ _ _) _ |- _ => inversion X end). destruct Ej as (bj & nj & ->).
    destruct (twin_child d1 d2 c c' bj nj S T H) as (j' & H1 & H2). destruct (IH j' b n eq_refl H2) as (i' & H3 & H4). exists i'. split; [now apply (deeper c' j' i')|exact H4].
Qed.
Lemma twin_wanted d1 d2 p n i i' : same_tags d1 d2 -> twin d1 d2 i i' -> is_element E p n i -> is_element E p n i'.
Proof.
  intros S (b & m & m' & -> & -> & G & G') H. inversion H as [? q ats t ks Pn]; subst. pose proof (S b) as T. rewrite G, G' in T. cbn [option_map] in T. destruct m' as [q' ? ? ?|]; [|discriminate T]. injection T as <-. now constructor.
Qed.
Lemma elem_item p n i : is_element E p n i -> exists b m, i = IElem b m.
Proof. intros H. inversion H; subst. eauto. Qed.
Lemma twin_step d1 d2 ax p n c c' i : same_tags d1 d2 -> twin d1 d2 c c' -> attr_axis ax = false -> step_to E ax (NameTest p n) c i -> exists i', step_to E ax (NameTest p n) c' i' /\ twin d1 d2 i i'.
Proof.
  intros S T A H. inversion H as [ax0 t0 c0 i0 Hax Hc Hw|ax0 p0 n0 c0 i0 Hax|t0 c0 Hw|t0 c0 i0 Hi Hw|t0 c0 i0 Hi Hw]; subst; cbn [wanted] in *.
  - destruct (elem_item _ _ _ Hw) as (b & m & ->). destruct (twin_child d1 d2 c c' b m S T Hc) as (i' & H1 & H2). exists i'. split; [apply to_child; auto; cbn [wanted]; now apply (twin_wanted d1 d2 p n _ i' S H2)|exact H2].
  - apply attr_axis_ok in Hax. congruence.
  - exists c'. split; [apply to_self; cbn [wanted]; now apply (twin_wanted d1 d2 p n _ c' S T)|exact T].
  - destruct (elem_item _ _ _ Hw) as (b & m & ->). destruct (twin_inside d1 d2 c c' _ S Hi b m eq_refl T) as (i' & H1 & H2). exists i'. split; [apply to_inside; [exact H1|]; cbn [wanted]; now apply (twin_wanted d1 d2 p n _ i' S H2)|exact H2].
  - destruct Hi as [->|Hi]; [exists c'; split; [apply to_inside_or_self; [now left|]; cbn [wanted]; now apply (twin_wanted d1 d2 p n _ c' S T)|exact T]|].
    destruct (elem_item _ _ _ Hw) as (b & m & ->). destruct (twin_inside d1 d2 c c' _ S Hi b m eq_refl T) as (i' & H1 & H2). exists i'. split; [apply to_inside_or_self; [now right|]; cbn [wanted]; now apply (twin_wanted d1 d2 p n _ i' S H2)|exact H2].
Qed.
Lemma step_from_elem ax p n c i : attr_axis ax = false -> step_to E ax (NameTest p n) c i -> exists b m, c = IElem b m.
Proof.
  assert (Hc : forall c i, child c i -> exists b m, c = IElem b m) by (intros ? ? X; inversion X; eauto). assert (Hi : forall c i, inside c i -> exists b m, c = IElem b m) by (intros ? ? X; inversion X; subst; eauto).
  intros A H. inversion H as [ax0 t0 c0 i0 Hax Hch Hw|ax0 p0 n0 c0 i0 Hax|t0 c0 Hw|t0 c0 i0 Hn Hw|t0 c0 i0 Hn Hw]; subst; cbn [wanted] in *; eauto.
  - apply attr_axis_ok in Hax. congruence.
  - now apply elem_item in Hw.
  - destruct Hn as [->|Hn]; [now apply elem_item in Hw|eauto].
Qed.
Lemma twin_bare d1 d2 : same_tags d1 d2 -> forall l, bare l = true -> forall c c' pos size i, twin d1 d2 c c' -> set_of (means d1 E l c pos size) i -> exists i', set_of (means d2 E l c' pos size) i' /\ twin d1 d2 i i'.
Proof.
  intros S. induction l as [s|k| | |a op b IHa IHb|b ps IHb H| | |ax t ps H|ab|p k|p k args H] using expr_ind'; cbn [bare]; intros B c c' pos size i T Hi; try discriminate.
  - apply andb_prop in B as [B B3]. apply andb_prop in B as [B1 B2]. apply orb_prop in B3 as [B3|B3].
    + cbn [str_mem existsb] in B3. rewrite orb_false_r in B3. apply str_eqb_eq in B3 as ->. cbn [means] in *. change (str_eqb (u "|") (u "/")) with false in *. change (str_eqb (u "|") (u "//")) with false in *. change (str_eqb (u "|") (u "|")) with true in *. cbn [set_of] in *.
      destruct Hi as [Hi|Hi]; [destruct (IHa B1 c c' pos size i T Hi) as (i' & H1 & H2)|destruct (IHb B2 c c' pos size i T Hi) as (i' & H1 & H2)]; exists i'; auto.
    + apply andb_prop in B3 as [B3 B4]. destruct b as [| | | | | | |ax t ps| | |]; try discriminate B4. assert (Nb : exists p n, t = NameTest p n /\ ps = [] /\ attr_axis ax = false).
      { cbn [bare] in B2. destruct t as [p n|]; [|discriminate]. destruct ps; [|discriminate]. exists p, n. repeat split. now apply negb_true_iff in B2. }
      destruct Nb as (p & n & -> & -> & A). cbn [str_mem existsb] in B3. rewrite orb_false_r in B3. apply orb_prop in B3 as [B3|B3]; apply str_eqb_eq in B3 as ->; cbn [means] in *.
      * change (str_eqb (u "/") (u "/")) with true in *. cbn [set_of fold_left] in *. destruct Hi as (j & Hj & Hi). destruct (IHa B1 c c' pos size j T Hj) as (j' & H1 & H2). destruct (twin_step d1 d2 ax p n j j' i S H2 A Hi) as (i' & H3 & H4). exists i'. split; [now exists j'|exact H4].
      * change (str_eqb (u "//") (u "/")) with false in *. change (str_eqb (u "//") (u "//")) with true in *. cbn [set_of fold_left] in *. destruct Hi as (j & h & Hj & Hh & Hi). destruct (IHa B1 c c' pos size j T Hj) as (j' & H1 & H2). destruct (step_from_elem ax p n h i A Hi) as (bh & mh & ->).
        assert (Ht : exists h', (j' = h' \/ inside j' h') /\ twin d1 d2 (IElem bh mh) h').
        { destruct Hh as [->|Hh]; [exists j'; auto|]. destruct (twin_inside d1 d2 j j' _ S Hh bh mh eq_refl H2) as (h' & H3 & H4). exists h'; auto. }
        destruct Ht as (h' & Hh' & Th). destruct (twin_step d1 d2 ax p n _ h' i S Th A Hi) as (i' & H3 & H4). exists i'. split; [now exists j', h'|exact H4].
  - destruct t as [p n|]; [|discriminate]. destruct ps; [|discriminate]. apply negb_true_iff in B. cbn [means set_of fold_left] in *. exact (twin_step d1 d2 ax p n c c' i S T B Hi).
  - cbn [means] in *. destruct (str_eqb ab (u ".")); [|destruct Hi]. cbn [set_of] in *. subst i. now exists c'.
Qed.
End Same.

Lemma nodup_snoc {A} (l : list A) x : NoDup l -> ~ In x l -> NoDup (l ++ [x]).
Proof. intros N0 I. apply NoDup_rev in N0. rewrite <- (rev_involutive (l ++ [x])). apply NoDup_rev. rewrite rev_app_distr. cbn [rev app]. constructor; [now rewrite <- in_rev|exact N0]. Qed.
Lemma attr_name_ok E p n : sup_test E (NameTest p n) = true -> p <> Some [] -> n <> u "*" -> resolve E (pfx p) <> None /\ passes E p n (attr_name E p n).
Proof.
  cbn [sup_test]. unfold attr_name. intros S0 P0 N0. destruct p as [[|c p]|]; [now destruct P0| |].
  - cbn [pfx] in *. unfold resolve in *. destruct (ns_of E (c :: p)) as [uri|] eqn:L; [|discriminate]. split; [discriminate|]. right. split; [exact N0|]. split; [reflexivity|]. exists uri. split; [now apply prefix_ns|reflexivity].
  - cbn [pfx] in *. split; [discriminate|]. right. split; [exact N0|]. split; reflexivity.
Qed.
Lemma create_attribute E l ax p n (v : str) d a q0 ats t ks : let e := EBin l (u "/") (EStep ax (NameTest p n) []) in
  readable E e = true -> attributes_distinct d -> (forall i, ~ picks E e d i) -> ax = Some (u "@") \/ ax = Some (u "attribute") -> p <> Some [] -> n <> u "*" -> n <> u "text" -> reread l = Some l -> Forall xml_character v ->
  first_of d (picks E l d) (IElem a (Elem q0 ats t ks)) ->
  exists d' q, mgr_set E e (Some v) d = (d', Ret tt) /\ passes E p n q /\ same_except a d d' /\ get_at a d' = Some (Elem q0 (ats ++ [(q, v)]) t ks) /\ attributes_distinct d' /\
    (bare l = true -> picks E e d' (IAttr a q v) /\ forall j, picks E e d' j -> j = IAttr a q v).
Proof.
  intros e R D H Hax P0 N0 T0 Rr V F. destruct (slash_parts E l _ R) as (Rl & Pl & Rs & Ps).
  destruct (first_list_of E l d _ Rl Pl D F) as (l' & _ & O & _). assert (Hr : exists r, route d _ r) by (inversion O; eassumption). destruct Hr as [r Hr]. apply valid_item in Hr.
  assert (St : sup_test E (NameTest p n) = true) by (unfold readable in Rs; cbn [ty forallb] in Rs; destruct (sup_test E (NameTest p n)); [reflexivity|rewrite andb_false_r in Rs; discriminate]).
  destruct (attr_name_ok E p n St P0 N0) as [Rn Pn]. set (q := attr_name E p n) in *.
  assert (No : attr_get q ats = None).
  { apply attr_get_none. intros [q' w] I Eq. cbn [fst] in Eq. subst q'. apply (H (IAttr a q w)). apply means_slash. exists (IElem a (Elem q0 ats t ks)). split; [exact (proj1 F)|]. cbn [means set_of fold_left]. apply to_attribute; [exact Hax|now constructor|now constructor]. }
  pose (d' := upd_at a (set_attr q v) d). assert (G' : get_at a d' = Some (Elem q0 (ats ++ [(q, v)]) t ks)).
  { unfold d'. rewrite (get_upd_same a _ d _ Hr). cbn [set_attr]. now rewrite (attr_set_new q v ats No). }
  assert (Se : same_except a d d') by (unfold d'; apply (same_except_upd a _ d _ Hr); reflexivity).
  assert (Sh : forall c n1 n2, c <> a -> get_at c d = Some n1 -> get_at c d' = Some n2 -> tag_of n1 = tag_of n2 /\ attrs_of n1 = attrs_of n2).
  { intros c n1 n2 Hc G1 G2. pose proof (Se c Hc) as Hs. rewrite G1, G2 in Hs. cbn [option_map] in Hs. unfold shell in Hs. injection Hs as S1 S2 S3 S4. now split. }
  assert (D' : attributes_distinct d').
  { intros c m Gm. destruct (list_eq_dec Nat.eq_dec c a) as [->|Nc].
    - rewrite G' in Gm. injection Gm as <-. cbn [attrs_of]. rewrite map_app. cbn [map fst]. pose proof (D a _ Hr) as Da. cbn [attrs_of] in Da. apply nodup_snoc; [exact Da|]. intros Hx. apply in_map_iff in Hx as ([q' w] & Eq & Hx). cbn [fst] in Eq. subst q'.
      pose proof (attr_get_in q w ats Hx) as Ne. now rewrite No in Ne.
    - pose proof (Se c Nc) as Hs. rewrite Gm in Hs. destruct (get_at c d) as [m0|] eqn:G0; [|discriminate]. destruct (Sh c m0 m Nc G0 Gm) as [_ <-]. exact (D c m0 G0). }
  exists d', q. split; [|split; [exact Pn|split; [exact Se|split; [exact G'|split; [exact D'|]]]]].
  - unfold mgr_set, bind at 1, reading. rewrite (not_found E e d R eq_refl D H). unfold e. cbn [build]. change (str_eqb (u "/") (u "/")) with true. cbn iota.
    unfold bind at 1 2, reading. rewrite (found_first E l d _ Rl Pl D F Rr). cbn [ref_of forallb]. unfold bind at 1, ret at 1. assert (Ca : child_axis ax = false /\ attr_axis ax = true) by (destruct Hax as [->| ->]; split; reflexivity). destruct Ca as [Ca Aa]. rewrite Ca, Aa.
    unfold bind at 1. unfold create_attr. unfold name_valid. destruct (str_eqb n (u "*")) eqn:Sn; [apply str_eqb_eq in Sn; now destruct N0|]. cbn [negb]. fold q. destruct (resolve E (pfx p)) as [uri|]; [|now destruct Rn]. cbn [iterM]. unfold bind, ret.
    cbn [set_in_xml terminal_step]. change (str_mem (u "/") [u "/"; u "//"]) with true. cbn iota. cbn [is_text_nodetest test_name]. destruct (str_eqb n (u "text")) eqn:T'; [apply str_eqb_eq in T'; congruence|]. cbn [set_attr_at]. unfold name_valid. rewrite Sn. cbn [negb].
    apply xml_valid_iff in V. rewrite V. fold q. f_equal. unfold d'. rewrite upd_upd_same. apply (upd_at_ext a _ _ d _ Hr). cbn [set_attr]. now rewrite attr_set_set.
  - intros B. assert (S1 : same_tags d d').
    { intros c. destruct (list_eq_dec Nat.eq_dec c a) as [->|Nc]; [now rewrite Hr, G'|]. pose proof (Se c Nc) as Hs. destruct (get_at c d) as [m0|] eqn:G0, (get_at c d') as [m1|] eqn:G1; try discriminate Hs; [|reflexivity]. cbn [option_map]. f_equal. exact (proj1 (Sh c m0 m1 Nc G0 G1)). }
    assert (S2 : same_tags d' d) by (intros c; symmetry; apply S1).
    { split.
      - apply means_slash. assert (T1 : twin d d' (IElem [] d) (IElem [] d')) by (exists [], d, d'; repeat split). destruct (twin_bare E d d' S1 l B _ _ 1 1 _ T1 (proj1 F)) as (i' & Hi & (b & m & m' & Eb & -> & _ & Gm)). injection Eb as <- <-. rewrite G' in Gm. injection Gm as <-.
        eexists. split; [exact Hi|]. cbn [means set_of fold_left]. apply to_attribute; [exact Hax| |now constructor]. constructor. apply in_or_app. right. now left.
      - intros j Hj. apply means_slash in Hj as (x & Hx & Hj). cbn [means set_of fold_left] in Hj. inversion Hj as [ax0 t0 c0 i0 Hax' _ _|ax0 p0 n0 c0 i0 _ Ha Hw| | |]; subst; try (destruct Hax as [Hax|Hax]; discriminate Hax); [destruct Hax as [->| ->]; destruct Hax' as [Hax'|Hax']; discriminate Hax'|].
        inversion Ha as [c q1 ats1 t1 ks1 q2 w I]; subst. inversion Hw as [b q' w' Pn']; subst. pose proof (passes_name E p n q2 Pn' N0 P0) as Eq. fold q in Eq. subst q2.
        assert (T1 : twin d' d (IElem [] d') (IElem [] d)) by (exists [], d', d; repeat split). destruct (twin_bare E d' d S2 l B _ _ 1 1 _ T1 Hx) as (i' & Hi & (b & m & m' & Eb & -> & Gm' & Gm)). injection Eb as <- <-. destruct (list_eq_dec Nat.eq_dec c a) as [->|Nc].
        + f_equal. rewrite G' in Gm'. injection Gm' as <- <- <- <-. apply (attr_unique _ q w v (D' a _ G') I). cbn [attrs_of]. apply in_or_app. right. now left.
        + exfalso. destruct (Sh c m' _ Nc Gm Gm') as [Tg At]. destruct m' as [q3 ats3 t3 ks3|]; [|discriminate Tg]. cbn [attrs_of] in At. subst ats3. apply (H (IAttr c q w)). apply means_slash. exists (IElem c (Elem q3 ats1 t3 ks3)). split; [exact Hi|]. cbn [means set_of fold_left]. apply to_attribute; [exact Hax|now constructor|now constructor]. }
Qed.
Theorem C90_create_attribute : forall E s l ax p n (v : str) d a q0 ats t ks, let e := EBin l (u "/") (EStep ax (NameTest p n) []) in
  parse s = Ok e -> readable E e = true -> attributes_distinct d -> (forall i, ~ picks E e d i) -> ax = Some (u "@") \/ ax = Some (u "attribute") -> p <> Some [] -> n <> u "*" -> n <> u "text" -> reread l = Some l -> Forall xml_character v ->
  first_of d (picks E l d) (IElem a (Elem q0 ats t ks)) ->
  exists d' q, string_set E s (Some v) d = (d', Ret tt) /\ passes E p n q /\ same_except a d d' /\ get_at a d' = Some (Elem q0 (ats ++ [(q, v)]) t ks) /\ attributes_distinct d' /\
    (bare l = true -> first_of d' (picks E e d') (IAttr a q v) /\ string_get E s d' = Ret (Some v)).
Proof.
  intros E s l ax p n v d a q0 ats t ks e Hp R D H Hax P0 N0 T0 Rr V F. destruct (create_attribute E l ax p n v d a q0 ats t ks R D H Hax P0 N0 T0 Rr V F) as (d' & q & Hset & Pn & Se & G' & D' & Fb). exists d', q. split; [unfold string_set, with_xpath; now rewrite Hp|]. split; [exact Pn|]. split; [exact Se|]. split; [exact G'|]. split; [exact D'|].
  intros B. destruct (Fb B) as [F1 F2]. assert (Fi : first_of d' (picks E e d') (IAttr a q v)) by (split; [exact F1|intros j Hj; left; now apply F2]). split; [exact Fi|]. destruct (first_list_of E e _ _ R eq_refl D' Fi) as (l1 & El' & _ & _). unfold string_get. rewrite Hp. unfold get_string. now rewrite El'.
Qed.

Lemma twin_first E d d' l a x x' : same_tags d d' -> bare l = true -> get_at a d = Some x -> get_at a d' = Some x' -> first_of d (picks E l d) (IElem a x) -> first_of d' (picks E l d') (IElem a x').
Proof.
  intros S1 B G G' [H1 H2]. assert (S2 : same_tags d' d) by (intros c; symmetry; apply S1). split.
  - assert (T1 : twin d d' (IElem [] d) (IElem [] d')) by (exists [], d, d'; repeat split). destruct (twin_bare E d d' S1 l B _ _ 1 1 _ T1 H1) as (i' & Hi & (b & m & m' & Eb & -> & _ & Gm)). injection Eb as <- <-. rewrite G' in Gm. injection Gm as <-. exact Hi.
  - intros j Hj. assert (T1 : twin d' d (IElem [] d') (IElem [] d)) by (exists [], d', d; repeat split). destruct (twin_bare E d' d S2 l B _ _ 1 1 _ T1 Hj) as (i' & Hi & (b & m & m' & -> & -> & Gm' & Gm)).
    destruct (H2 _ Hi) as [Eb|(r & r' & R1 & R2 & Be)]; [injection Eb as -> _; left; rewrite G' in Gm'; now injection Gm' as <-|]. right. inversion R1; subst. inversion R2; subst. exists (to_elem a), (to_elem b). split; [now constructor|]. split; [now constructor|exact Be].
Qed.
(** deleting the field again puts the document back as it was *)
Theorem C90_create_delete_attribute : forall E s l ax p n (v : str) d d' a q0 ats t ks, let e := EBin l (u "/") (EStep ax (NameTest p n) []) in
  parse s = Ok e -> readable E e = true -> attributes_distinct d -> (forall i, ~ picks E e d i) -> ax = Some (u "@") \/ ax = Some (u "attribute") -> p <> Some [] -> n <> u "*" -> n <> u "text" -> reread l = Some l -> Forall xml_character v ->
  first_of d (picks E l d) (IElem a (Elem q0 ats t ks)) -> bare l = true -> no_creation l \/ l = EAbbrev (u ".") ->
  string_set E s (Some v) d = (d', Ret tt) -> field_delete E s d' = (d, Ret tt).
Proof.
  intros E s l ax p n v d d' a q0 ats t ks e Hp R D H Hax P0 N0 T0 Rr V F B Nc Hs. destruct (C90_create_attribute E s l ax p n v d a q0 ats t ks Hp R D H Hax P0 N0 T0 Rr V F) as (d1 & q & Hs1 & Pn & Se & G' & D' & Fb).
  rewrite Hs in Hs1. injection Hs1 as <-. destruct (slash_parts E l _ R) as (Rl & Pl & _ & _). destruct (first_list_of E l d _ Rl Pl D F) as (l' & _ & O & _). assert (Hr : exists r, route d _ r) by (inversion O; eassumption). destruct Hr as [r Hr]. apply valid_item in Hr.
  assert (S1 : same_tags d d').
  { intros c. destruct (list_eq_dec Nat.eq_dec c a) as [->|Nca]; [now rewrite Hr, G'|]. pose proof (Se c Nca) as Hsh. destruct (get_at c d) as [m0|] eqn:G0, (get_at c d') as [m1|] eqn:G1; try discriminate Hsh; [|reflexivity]. cbn [option_map] in *. unfold shell in Hsh. injection Hsh as X1 _ _ _. now rewrite X1. }
  pose proof (twin_first E d d' l a _ _ S1 B Hr G' F) as F'. destruct (C90_delete_attribute E s l ax p n d' a _ q Hp R D' Hax P0 N0 Pn Rr Nc F') as (Hd & _ & _).
  rewrite (Hd v) by (cbn [attrs_of]; apply in_or_app; right; now left). f_equal. apply same_shells_same. intros c. destruct (list_eq_dec Nat.eq_dec c a) as [->|Nca].
  - rewrite (get_upd_same a _ d' _ G'), Hr. cbn [del_attr option_map]. do 2 f_equal. unfold shell. cbn [tag_of attrs_of text_of kids_of]. f_equal.
    assert (No : attr_get q ats = None).
    { apply attr_get_none. intros [q' w] I Eq. cbn [fst] in Eq. subst q'. pose proof (D' a _ G') as N1. cbn [attrs_of] in N1. rewrite map_app in N1. cbn [map fst] in N1. apply NoDup_remove_2 in N1. apply N1. rewrite app_nil_r. apply in_map_iff. now exists (q, w). }
    rewrite <- (attr_set_new q v ats No). now apply attr_del_set_new.
  - rewrite <- (Se c Nca). apply (same_except_upd a _ d' _ G'); [reflexivity|exact Nca].
Qed.

(** C91: a list of attributes that has items cannot be appended to (TypeError, nothing changes); an empty one takes one value, on the first element [l] finds *)
Theorem C91_append_attribute : forall E e m (v : pyval) q vs d, readable E e = true -> node_set e = true -> attribute_path E e q -> attributes_distinct d -> list_data E e m d = Ret vs -> vs <> [] -> list_append E e m v d = (d, Exc XType).
Proof.
  intros E e m v q vs d R P Ap D Hd Ne. destruct (listing_exists E e d R P D) as [l L]. pose proof (reads_len E e m d vs l R P D Hd L) as Ll. destruct (listing_matches E e d l R P D L) as [M _].
  unfold list_append, bind at 1, reading, list_len. rewrite Hd. cbn [rmap]. unfold list_setitem. unfold bind at 1, reading. rewrite M, Ll, Z.eqb_refl. unfold last_item. destruct (rev l) as [|i r] eqn:Er.
  - destruct vs; [now destruct Ne|]. apply (f_equal (@List.length item)) in Er. rewrite rev_length, <- Ll in Er. discriminate Er.
  - assert (Pi : picks E e d i) by (apply (proj2 L); apply in_rev; rewrite Er; now left). destruct (attribute_items E e q d i Ap Pi) as (b & w & ->). reflexivity.
Qed.
Theorem C91_append_first_attribute : forall E l ax p n m (v : pyval) d a q0 ats t ks, let e := EBin l (u "/") (EStep ax (NameTest p n) []) in
  readable E e = true -> attributes_distinct d -> (forall i, ~ picks E e d i) -> ax = Some (u "@") \/ ax = Some (u "attribute") -> p <> Some [] -> n <> u "*" -> n <> u "text" -> reread l = Some l -> storable_attr m v ->
  first_of d (picks E l d) (IElem a (Elem q0 ats t ks)) -> bare l = true ->
  exists d' q s, list_append E e m v d = (d', Ret tt) /\ passes E p n q /\ to_xml m v = Ret (Some s) /\ same_except a d d' /\ get_at a d' = Some (Elem q0 (ats ++ [(q, s)]) t ks) /\ list_data E e m d' = Ret [v].
Proof.
  intros E l ax p n m v d a q0 ats t ks e R D H Hax P0 N0 T0 Rr (s & Hs & Vs & Hg) F B. pose proof Vs as V. apply xml_valid_iff in V.
  assert (Hl : listing E e d []) by (split; [constructor|intros i; split; [intros []|intros Hi; exact (H i Hi)]]). destruct (listing_matches E e d [] R eq_refl D Hl) as [M _].
  destruct (create_attribute E l ax p n s d a q0 ats t ks R D H Hax P0 N0 T0 Rr V F) as (d' & q & Hset & Pn & Se & G' & D' & Fb). specialize (Fb B). fold e in Hset, Fb.
  exists d', q, s. split; [|split; [exact Pn|split; [exact Hs|split; [exact Se|split; [exact G'|]]]]].
  - unfold list_append, bind at 1, reading, list_len, list_data. rewrite M. cbn [mapR rmap List.length]. unfold list_setitem. unfold bind at 1, reading. rewrite M. cbn [List.length last_item rev]. rewrite Z.eqb_refl. unfold mgr_set, bind at 1, reading in Hset. rewrite (not_found E e d R eq_refl D H) in Hset.
    unfold bind in *. destruct (build E Create e (Some doc_root) None d) as [d1 [r|y]]; [|discriminate]. now rewrite Hs.
  - destruct Fb as [F1 F2]. assert (L' : listing E e d' [IAttr a q s]).
    { destruct (listing_exists E e d' R eq_refl D') as [L' [O' M']]. destruct (path_nodes E e d' D' R eq_refl) as (l2 & _ & Nd & O2 & M2). split.
      - constructor; [|constructor|constructor]. exists (to_elem a ++ [(0, List.length ats)]). econstructor; [exact G'|]. cbn [attrs_of]. rewrite nth_error_app2, Nat.sub_diag by lia. reflexivity.
      - intros i. split; [intros [<-|[]]; exact F1|]. intros Hi. left. symmetry. now apply F2. }
    destruct (listing_matches E e d' _ R eq_refl D' L') as [M' _]. unfold list_data. rewrite M'. cbn [mapR item_in]. now rewrite Hg.
Qed.

(** ** concrete case: [.//b/@id] and nothing has an id *)
Open Scope string_scope.
Definition tray : node := el "r" [] "" [el "a" [] "" []; el "s" [] "" [el "b" [("lang", "en")] "" [el "t" [] "x" []]]; el "b" [] "" []].
Example C90_create_attribute_case : readable E0 (xp ".//b/@id") = true /\ bare (xp ".//b") = true /\ string_get E0 (u ".//b/@id") tray = Ret None /\
  exists d', string_set E0 (u ".//b/@id") (Some (u "7")) tray = (d', Ret tt) /\ string_get E0 (u ".//b/@id") d' = Ret (Some (u "7")) /\
    get_at [1; 0]%nat d' = Some (el "b" [("lang", "en"); ("id", "7")] "" [el "t" [] "x" []]) /\ get_at [2]%nat d' = Some (el "b" [] "" []).
Proof. split; [vm_compute; reflexivity|]. split; [vm_compute; reflexivity|]. split; [vm_compute; reflexivity|]. eexists. split; [vm_compute; reflexivity|]. split; [vm_compute; reflexivity|]. split; vm_compute; reflexivity. Qed.
Example C90_create_delete_attribute_case : no_creation (xp ".//b") /\ exists d', string_set E0 (u ".//b/@id") (Some (u "7")) tray = (d', Ret tt) /\ field_delete E0 (u ".//b/@id") d' = (tray, Ret tt).
Proof. split; [apply ends_deaf_ok; vm_compute; reflexivity|]. eexists. split; vm_compute; reflexivity. Qed.
Example C91_append_attribute_case : (exists d', list_append E0 (xp ".//b/@id") (MString false) (PStr (u "7")) tray = (d', Ret tt) /\ list_data E0 (xp ".//b/@id") (MString false) d' = Ret (strs ["7"]) /\ list_append E0 (xp ".//b/@id") (MString false) (PStr (u "8")) d' = (d', Exc XType)).
Proof. eexists. split; [vm_compute; reflexivity|]. split; vm_compute; reflexivity. Qed.
Lemma tray_distinct : attributes_distinct tray.
Proof. apply dist_ok. vm_compute. reflexivity. Qed.
(** the hypotheses of C90_create_attribute hold there *)
Example C90_create_attribute_fits : exists l, parse (u ".//b/@id") = Ok (EBin l (u "/") (EStep (Some (u "@")) (NameTest None (u "id")) [])) /\ readable E0 (xp ".//b/@id") = true /\ attributes_distinct tray /\ (forall i, ~ picks E0 (xp ".//b/@id") tray i) /\ reread l = Some l /\ bare l = true /\
  first_of tray (picks E0 l tray) (IElem [1; 0]%nat (el "b" [("lang", "en")] "" [el "t" [] "x" []])).
Proof.
  exists (xp ".//b"). assert (R : readable E0 (xp ".//b/@id") = true) by (vm_compute; reflexivity). assert (Rl : readable E0 (xp ".//b") = true) by (vm_compute; reflexivity). pose proof tray_distinct as D.
  split; [vm_compute; reflexivity|]. split; [exact R|]. split; [exact D|]. split.
  - assert (L : listing E0 (xp ".//b/@id") tray []) by (apply listing_eval; [exact R|reflexivity|exact D|vm_compute; reflexivity]). intros i Hi. now apply (proj2 L) in Hi.
  - split; [vm_compute; reflexivity|]. split; [vm_compute; reflexivity|].
    assert (L : listing E0 (xp ".//b") tray [IElem [1; 0]%nat (el "b" [("lang", "en")] "" [el "t" [] "x" []]); IElem [2]%nat (el "b" [] "" [])]) by (apply listing_eval; [exact Rl|reflexivity|exact D|vm_compute; reflexivity]).
    destruct L as [O M]. split; [apply M; now left|]. intros j Hj. apply M in Hj as [<-|Hj]; [now left|]. right. inversion O as [|? ? _ Fo _]; subst. rewrite Forall_forall in Fo. now apply Fo.
Qed.
Close Scope string_scope.
Print Assumptions C90_create_attribute.
Print Assumptions C90_create_delete_attribute.
Print Assumptions C91_append_attribute.
Print Assumptions C91_append_first_attribute.
