(** C89: what an XPath selects, and so what fields read (xmlmap/fields.py:267-288, 703-706 and lxml's [xpath]).
    [eval_at E e doc_root d] is [obj.node.xpath(e, namespaces=..., **variables)]; what XPaths mean is in EvalSpec.v.
    [readable E e]: a well-typed XPath, all its prefixes and variables defined, that only looks down from the object's node: steps on the axes
    child, attribute, self, descendant and descendant-or-self with name tests and text(), '.', '/', '//', '|', predicates, filter
    expressions, '=', '!=', and, or, literals, integers, variables, and the functions count, not, boolean, true, false, position, last,
    string, string-length, normalize-space, local-name, contains and starts-with. *)
From Coq Require Import String Arith ZArith NArith List Lia Bool Sorted FinFun.
From Verif Require Import FieldUndo MapperProofs FieldRefuse Props_Fields Props_Mappers NodeList ReadSpec EvalSpec EvalMeaning EvalOrder EvalMain EvalValues EvalFuns EvalAgree.
From Verif Require Import Shipped EnvAgree Props_Shipped.
From Verif Require Import XPathEval FieldSpec DocSpec XPathRead EvalSpec.
Import ListNotations.

(** an XPath that gives nodes: a step, '.', a path, a union, a filter expression *)
Definition node_set (e : expr) : bool :=
  match e with
  | EStep _ _ _ | EPred _ _ => true
  | EAbbrev a => str_eqb a (u ".")
  | EBin _ op _ => str_mem op [u "/"; u "//"; u "|"]
  | _ => false
  end.
(** the node [e] selects in document [d] *)
Definition picks (E : env) (e : expr) (d : node) (i : item) : Prop := set_of (means d E e (IElem [] d) 1 1) i.

Definition here (d : node) : knode := ([], IElem [] d).
Lemma root_route d : route d (snd (here d)) (fst (here d)).
Proof. change (route d (IElem [] d) (to_elem [])). now constructor. Qed.
Lemma eval_ev E e d : readable E e = true -> eval_at E e doc_root d = Ret (erase (fev E e (here d) 1 1)).
Proof.
  intros Hs. unfold eval_at, doc_root, xpath. cbn [get_at map]. rewrite Hs. destruct (supported E e) eqn:Su; [|reflexivity].
  destruct (ev_agrees E e Su) as (_ & _ & H & _). now rewrite (H (here d) 1 1).
Qed.
Lemma value_means E e d : readable E e = true -> attributes_distinct d -> kmeans d (fev E e (here d) 1 1) (means d E e (IElem [] d) 1 1).
Proof. intros Hs D. unfold readable in Hs. apply is_some_ty in Hs as [t Ht]. exact (proj1 (fev_means d D E e t Ht (here d) 1 1 (root_route d))). Qed.
Lemma node_set_ok E e d k pos size : node_set e = true -> exists X, means d E e k pos size = Nodes X.
Proof.
  destruct e as [| | | |a op b| | |ax t ps|ab| |]; try discriminate; cbn [node_set means]; eauto; [|intros ->; eauto]. unfold str_mem. cbn [existsb].
  destruct (str_eqb op (u "/")); [eauto|]. destruct (str_eqb op (u "//")); [eauto|]. destruct (str_eqb op (u "|")); [eauto|discriminate].
Qed.
Lemma sorted_order d l : Forall (fun k => route d (@snd pkey item k) (@fst pkey item k)) l -> sorted l -> document_order d (map snd l).
Proof.
  intros V. unfold sorted. induction V as [|k l Vk V IH]; cbn [map]; intros H; [constructor|]. apply StronglySorted_inv in H as [H1 H2]. constructor; [eauto| |now apply IH].
  apply Forall_forall. intros i Hi. apply in_map_iff in Hi as (j & <- & Hj). rewrite Forall_forall in V, H2. exists (fst k), (fst j). split; [exact Vk|]. split; [exact (V _ Hj)|]. apply H2. now apply in_map.
Qed.
Lemma path_nodes E e d : attributes_distinct d -> readable E e = true -> node_set e = true ->
  exists l, eval_at E e doc_root d = Ret (XN l) /\ NoDup l /\ document_order d l /\ forall i, In i l <-> picks E e d i.
Proof.
  intros D Hs Hp. pose proof (value_means E e d Hs D) as M. rewrite (eval_ev _ _ _ Hs). unfold picks. destruct (node_set_ok E e d (IElem [] d) 1 1 Hp) as [X ->] in M |- *.
  destruct (fev E e (here d) 1 1) as [l|s|n|b]; try contradiction; [|destruct n as [[z [|k]]|]; contradiction]. exists (map snd l). split; [reflexivity|]. split; [exact (rep_nodup d D _ _ M)|].
  destruct M as (S0 & V & M). split; [now apply sorted_order|exact M].
Qed.

(** ** the answer means what the XPath means *)
Theorem C89_xpath : forall E e d, readable E e = true -> attributes_distinct d ->
  exists v, eval_at E e doc_root d = Ret v /\ has_meaning v (means d E e (IElem [] d) 1 1).
Proof. intros E e d Hs D. exists (erase (fev E e (here d) 1 1)). split; [now apply eval_ev|]. apply (kmeans_meaning d D). now apply value_means. Qed.
(** this covers the XPaths eulxml can create nodes for, where the two evaluators of the model agree *)
Theorem C89_agree : forall E e, supported E e = true -> readable E e = true /\ (is_path e = true -> node_set e = true) /\ forall k pos size, erase (fev E e k pos size) = ev E e (snd k).
Proof.
  intros E e Hs. destruct (ev_agrees E e Hs) as ((t & T) & _ & H & _). unfold readable. rewrite T. split; [reflexivity|]. split; [|exact H].
  destruct e as [| | | |a op b| | |ax t' ps|ab| |]; try discriminate; try reflexivity; cbn [is_path node_set]; [|auto]. unfold str_mem. cbn [existsb]. now intros ->.
Qed.

(** ** paths: every node selected, once, in document order *)
Theorem C89_nodes : forall E e d, readable E e = true -> node_set e = true -> attributes_distinct d ->
  exists l, eval_at E e doc_root d = Ret (XN l) /\ NoDup l /\ document_order d l /\ forall i, In i l <-> picks E e d i.
Proof. intros E e d Hs Hp D. exact (path_nodes E e d D Hs Hp). Qed.

(** there is only one such list *)
Lemma precedes_asym d i j : attributes_distinct d -> precedes d i j -> precedes d j i -> False.
Proof.
  intros D (r & r' & R1 & R2 & B) (s & s' & S1 & S2 & B'). rewrite (route_unique _ _ _ _ D S1 R2), (route_unique _ _ _ _ D S2 R1) in B'. exact (before_asym _ _ B B').
Qed.
Theorem C89_order_unique : forall d l l', attributes_distinct d -> document_order d l -> document_order d l' -> (forall i, In i l <-> In i l') -> l = l'.
Proof.
  intros d l l' D H. revert l'. induction H as [|i l _ F H IH]; intros l' H' S0.
  - destruct l' as [|j l']; [reflexivity|]. destruct (proj2 (S0 j)). now left.
  - inversion H' as [|j l2 _ F' H2]; subst; [destruct (proj1 (S0 i)); now left|].
    assert (i = j) as <-.
    { destruct (proj1 (S0 i) (or_introl eq_refl)) as [->|Hi]; [reflexivity|]. destruct (proj2 (S0 j) (or_introl eq_refl)) as [->|Hj]; [reflexivity|].
      rewrite Forall_forall in F, F'. destruct (precedes_asym d i j D (F _ Hj) (F' _ Hi)). }
    f_equal. apply IH; [exact H2|]. intros k. assert (Hn : forall m, Forall (precedes d i) m -> ~ In i m).
    { intros m Fm Hm. rewrite Forall_forall in Fm. exact (precedes_asym d i i D (Fm _ Hm) (Fm _ Hm)). }
    split; intros Hk.
    + destruct (proj1 (S0 k) (or_intror Hk)) as [->|G]; [now destruct (Hn l F)|exact G].
    + destruct (proj2 (S0 k) (or_intror Hk)) as [->|G]; [now destruct (Hn l2 F')|exact G].
Qed.

(** ** single fields read the first node selected, None if there is none *)
Lemma first_list d l i : attributes_distinct d -> document_order d l -> In i l -> (forall j, In j l -> j = i \/ precedes d i j) -> exists l', l = i :: l'.
Proof.
  intros D O Hi H. destruct O as [|j l _ F O]; [destruct Hi|]. destruct Hi as [->|Hi]; [eauto|]. destruct (H j (or_introl eq_refl)) as [->|P]; [eauto|].
  rewrite Forall_forall in F. destruct (precedes_asym d i j D P (F _ Hi)).
Qed.
Theorem C89_field : forall E e d, readable E e = true -> node_set e = true -> attributes_distinct d ->
  (forall i s, picks E e d i -> (forall j, picks E e d j -> j = i \/ precedes d i j) -> string_value i s -> field_get E e (MString false) d = Ret (PStr s)) /\
  (field_get E e (MString false) d = Ret PNone <-> forall i, ~ picks E e d i) /\
  ((exists j, picks E e d j) -> exists i, picks E e d i /\ forall j, picks E e d j -> j = i \/ precedes d i j).
Proof.
  intros E e d Hs Hp D. destruct (path_nodes E e d D Hs Hp) as (l & El & N0 & O & M). unfold field_get. rewrite El. split; [|split].
  - intros i s Hi Hj Hv. apply M in Hi. destruct (first_list d l i D O Hi) as [l' ->]; [intros j Gj; apply Hj; now apply M|].
    apply string_value_item in Hv. subst s. now destruct i.
  - split.
    + destruct l as [|[]]; try discriminate. intros _ i Hi. now apply M in Hi.
    + intros H. destruct l as [|i l]; [reflexivity|]. destruct (H i). apply M. now left.
  - intros [j Hj]. apply M in Hj. destruct O as [|i l _ F _]; [destruct Hj|]. exists i. split; [apply M; now left|]. intros k Hk. apply M in Hk as [->|Hk]; [now left|]. right.
    rewrite Forall_forall in F. now apply F.
Qed.
(** the other kinds of field, too, read only that node: as their mapper reads an element, or the text of an attribute or text node (C88) *)
Theorem C89_typed : forall E e m d, readable E e = true -> node_set e = true -> attributes_distinct d ->
  (forall i, first_of d (picks E e d) i -> field_get E e m d = to_python m (Some (match i with IElem _ n => InElem n | IAttr _ _ s | IText _ _ s => InStr s end))) /\
  ((forall i, ~ picks E e d i) -> field_get E e m d = to_python m None).
Proof.
  intros E e m d Hs Hp D. destruct (path_nodes E e d D Hs Hp) as (l & El & N0 & O & M). unfold field_get. rewrite El. split.
  - intros i [Hi Hj]. apply M in Hi. destruct (first_list d l i D O Hi) as [l' ->]; [intros j Gj; apply Hj; now apply M|]. now destruct i.
  - intros H. destruct l as [|i l]; [reflexivity|]. destruct (H i). apply M. now left.
Qed.
(** an XPath that gives a string: its value, None if it is empty *)
Theorem C89_string : forall E e d is, readable E e = true -> attributes_distinct d -> means d E e (IElem [] d) 1 1 = Text is ->
  exists s, (forall s', is s' <-> s' = s) /\ field_get E e (MString false) d = Ret (match s with [] => PNone | _ => PStr s end).
Proof.
  intros E e d is Hs D T. destruct (C89_xpath E e d Hs D) as (v & Ev & M). rewrite T in M. destruct v as [l|s|[[z [|k]]|]|b]; try contradiction. exists s. split; [exact M|].
  unfold field_get. rewrite Ev. now destruct s.
Qed.

(** ** list fields have one item for every node selected, in document order *)
Theorem C89_list : forall E e d, readable E e = true -> node_set e = true -> attributes_distinct d ->
  exists l texts, (forall i, In i l <-> picks E e d i) /\ document_order d l /\ Forall2 string_value l texts /\
    list_data E e (MString false) d = Ret (map PStr texts) /\ list_len E e (MString false) d = Ret (List.length l).
Proof.
  intros E e d Hs Hp D. destruct (path_nodes E e d D Hs Hp) as (l & El & N0 & O & M). exists l, (map item_str l). split; [exact M|]. split; [exact O|].
  assert (L : list_data E e (MString false) d = Ret (map PStr (map item_str l))).
  { unfold list_data, matches. rewrite El. clear. induction l as [|i l IH]; [reflexivity|]. cbn [mapR map]. rewrite IH. now destruct i. }
  split; [|split; [exact L|]].
  - clear. induction l as [|i l IH]; cbn [map]; constructor; [now apply string_value_item|exact IH].
  - unfold list_len. rewrite L. cbn [rmap]. now rewrite !map_length.
Qed.

(** ** count(): an integer field reads how many nodes there are, but None instead of 0 *)
Theorem C89_count : forall E p d n, readable E p = true -> node_set p = true -> attributes_distinct d -> how_many (picks E p d) n -> (Z.of_nat n <= 2 ^ 53)%Z ->
  field_get E (ECall None (u "count") [p]) MInt d = Ret (match n with O => PNone | _ => PInt (Z.of_nat n) end).
Proof.
  intros E p d n Hs Hp D Hn B. unfold readable in Hs. apply is_some_ty in Hs as [t T]. destruct (fev_means d D E p t T (here d) 1 1 (root_route d)) as [K Ht]. unfold picks in Hn.
  change (snd (here d)) with (IElem [] d) in K. destruct (node_set_ok E p d (IElem [] d) 1 1 Hp) as [X EX]. rewrite EX in K, Hn. cbn [set_of] in Hn.
  destruct (fev E p (here d) 1 1) as [l|s|nn|b] eqn:F; try contradiction; [|destruct nn as [[z [|k]]|]; contradiction].
  destruct t; try contradiction. rewrite (how_many_unique _ _ _ Hn (rep_many d D _ _ K)) in B |- *.
  assert (R : readable E (ECall None (u "count") [p]) = true) by (unfold readable; cbn [ty map]; rewrite T; reflexivity).
  unfold field_get. rewrite (eval_ev _ _ _ R). cbn [fev map]. rewrite F.
  change (call (u "count") (KN [here d]) 1 1 [KN l]) with (KNum (Some (num_of_Z (Z.of_nat (List.length l))))). unfold num_of_Z. cbn [erase first_input]. destruct (List.length l) as [|m]; [reflexivity|].
  destruct (Z.eqb_spec (Z.of_nat (S m)) 0) as [Z0|_]; [lia|]. cbn [to_python]. rewrite int_result_exact by lia. reflexivity.
Qed.
(** ... and a list field raises TypeError, as for any XPath that gives a number or a boolean *)
Theorem C89_no_list : forall E e d m, readable E e = true -> attributes_distinct d ->
  match means d E e (IElem [] d) 1 1 with Num _ | Bool _ => list_data E e m d = Exc XType /\ list_len E e m d = Exc XType | _ => True end.
Proof.
  intros E e d m Hs D. destruct (C89_xpath E e d Hs D) as (v & Ev & M). unfold list_len, list_data, matches. rewrite Ev.
  destruct v as [l|s|[[z [|k]]|]|b], (means d E e (IElem [] d) 1 1); try contradiction; auto.
Qed.

(** ** positions count from 1: name[k] is the k-th child with that name *)
Lemma children_keys d i j x y : get_at [i] d = Some x -> get_at [j] d = Some y -> attributes_distinct d -> precedes d (IElem [i] x) (IElem [j] y) <-> i < j.
Proof.
  intros Gi Gj D. assert (Ri : route d (IElem [i] x) [(2 * i + 2, 0)]) by (change [(2 * i + 2, 0)] with (to_elem [i]); now constructor).
  assert (Rj : route d (IElem [j] y) [(2 * j + 2, 0)]) by (change [(2 * j + 2, 0)] with (to_elem [j]); now constructor). split.
  - intros (r & r' & R & R' & B). rewrite (route_unique _ _ _ _ D R Ri), (route_unique _ _ _ _ D R' Rj) in B. inversion B as [|? ? ? ? L|? ? ? B']; subst; [unfold place_lt in L; cbn in L; lia|inversion B'].
  - intros H. exists [(2 * i + 2, 0)], [(2 * j + 2, 0)]. split; [exact Ri|]. split; [exact Rj|]. apply before_here. left. cbn. lia.
Qed.
Lemma count_before (hit : node -> bool) ks i : List.length (filter (fun j => match nth_error ks j with Some (y, _) => hit y | None => false end) (seq 0 i)) =
  List.length (filter hit (map fst (firstn i (ks : list (node * option str))))).
Proof.
  revert ks. induction i as [|i IH]; intros ks; [reflexivity|]. destruct ks as [|[y tl] ks].
  - cbn [firstn map filter]. generalize (seq 0 (S i)). intros l. induction l as [|j l IHl]; [reflexivity|]. cbn [filter]. now destruct j.
  - cbn [firstn map fst]. change (seq 0 (S i)) with (0 :: seq 1 i). rewrite <- (seq_shift i 0). cbn [filter nth_error].
    assert (G : List.length (filter (fun j => match nth_error ((y, tl) :: ks) j with Some (y0, _) => hit y0 | None => false end) (map S (seq 0 i))) =
      List.length (filter hit (map fst (firstn i ks)))).
    { rewrite <- IH. generalize (seq 0 i). intros l. induction l as [|j l IHl]; [reflexivity|]. cbn [map filter nth_error]. destruct (nth_error ks j) as [[z zl]|]; [destruct (hit z); cbn [List.length]; now rewrite IHl|exact IHl]. }
    destruct (hit y); cbn [List.length]; now rewrite G.
Qed.
Lemma filter_more (hit : node -> bool) (ks : list (node * option str)) i j x tl : i < j -> nth_error ks i = Some (x, tl) -> hit x = true ->
  List.length (filter hit (map fst (firstn i ks))) < List.length (filter hit (map fst (firstn j ks))).
Proof.
  revert ks j. induction i as [|i IH]; intros ks j L H Hx; destruct ks as [|[y yl] ks]; try discriminate; (destruct j as [|j]; [lia|]); cbn [firstn map fst filter].
  - injection H as <- <-. rewrite Hx. cbn [List.length]. lia.
  - cbn [nth_error] in H. assert (L' : i < j) by lia. pose proof (IH ks j L' H Hx). destruct (hit y); cbn [List.length]; lia.
Qed.
Lemma readable_bare E ax t ps : readable E (EStep ax t ps) = true -> readable E (EStep ax t []) = true.
Proof. unfold readable. cbn [ty forallb]. rewrite andb_true_r. destruct (is_some (axis_of ax) && sup_test E t)%bool; [reflexivity|discriminate]. Qed.
Theorem C89_nth_child : forall E p n k d i x tl s (hit : node -> bool), attributes_distinct d -> readable E (EStep None (NameTest p n) [EInt (N.of_nat k)]) = true ->
  (forall y, hit y = true <-> exists q ats t ks, y = Elem q ats t ks /\ passes E p n q) ->
  nth_error (kids_of d) i = Some (x, tl) -> hit x = true -> List.length (filter hit (map fst (firstn i (kids_of d)))) + 1 = k -> text_inside x s ->
  field_get E (EStep None (NameTest p n) [EInt (N.of_nat k)]) (MString false) d = Ret (PStr s).
Proof.
  intros E p n k d i x tl s hit D Hs Hh Hx Hxh Hk Hv. destruct (C89_field E _ d Hs eq_refl D) as (F & _ & _).
  set (X := step_to E None (NameTest p n) (IElem [] d)).
  assert (T : forall it, X it <-> exists j y tl', it = IElem [j] y /\ nth_error (kids_of d) j = Some (y, tl') /\ hit y = true).
  { intros it. split.
    - intros H. inversion H as [ax t c i0 Hax C W| ax p0 n0 c i0 Hax C W| | |]; subst; [|destruct Hax; discriminate]. destruct W as [a q ats t ks P]. inversion C as [a0 q0 ats0 t0 ks0 j y tl' K| |]; subst.
      exists j, (Elem q ats t ks), tl'. split; [reflexivity|]. split; [exact K|]. apply Hh. eauto 6.
    - intros (j & y & tl' & -> & Hy & Hit). apply Hh in Hit as (q & ats & t & ks & -> & P). destruct d as [q0 a0 t0 ks0|]; [|destruct j; discriminate]. cbn [kids_of] in Hy. apply to_child; [now left| |now constructor].
      change [j] with ([] ++ [j]). econstructor. exact Hy. }
  assert (G : forall j y tl', nth_error (kids_of d) j = Some (y, tl') -> get_at [j] d = Some y) by (intros j y tl' H; cbn [get_at]; now rewrite H).
  assert (P : forall j y tl', nth_error (kids_of d) j = Some (y, tl') -> hit y = true -> position d X (IElem [j] y) (List.length (filter hit (map fst (firstn j (kids_of d)))) + 1)).
  { intros j y tl' Hy Hit. exists (List.length (filter hit (map fst (firstn j (kids_of d))))). split; [|lia].
    set (idx := filter (fun h => match nth_error (kids_of d) h with Some (z, _) => hit z | None => false end) (seq 0 j)).
    exists (map (fun h => IElem [h] (match nth_error (kids_of d) h with Some (z, _) => z | None => d end)) idx). split; [|split].
    - apply Injective_map_NoDup; [|apply NoDup_filter, seq_NoDup]. intros a b Eab. now injection Eab.
    - intros it. rewrite in_map_iff. split.
      + intros (h & <- & Hh'). apply filter_In in Hh' as [Hs' Hz]. apply in_seq in Hs'. destruct (nth_error (kids_of d) h) as [[z zl]|] eqn:Ez; [|discriminate]. split; [apply T; exists h, z, zl; auto|].
        apply children_keys; [exact (G _ _ _ Ez)|exact (G _ _ _ Hy)|exact D|lia].
      + intros [Hit' Pr]. apply T in Hit' as (h & z & zl & -> & Ez & Hz). apply children_keys in Pr; [|exact (G _ _ _ Ez)|exact (G _ _ _ Hy)|exact D]. exists h. rewrite Ez. split; [reflexivity|].
        apply filter_In. split; [apply in_seq; lia|]. now rewrite Ez.
    - rewrite map_length. subst idx. now rewrite (count_before hit (kids_of d) j). }
  assert (U : forall it a b, position d X it a -> position d X it b -> a = b) by (intros it a b (na & Ha & ->) (nb & Hb & ->); f_equal; exact (how_many_unique _ _ _ Ha Hb)).
  assert (Q : forall it, picks E (EStep None (NameTest p n) [EInt (N.of_nat k)]) d it <-> it = IElem [i] x).
  { intros it. unfold picks. cbn [means set_of fold_left]. fold X. unfold kept_by. cbn [true_at]. rewrite nat_N_Z. split.
    - intros (Hit & pos & size & Pj & _ & Ek). apply Nat2Z.inj in Ek. subst pos. apply T in Hit as (j & y & tl' & -> & Hy & Hit). pose proof (U _ _ _ Pj (P _ _ _ Hy Hit)) as Ej.
      assert (j = i) as ->; [|congruence]. destruct (Nat.lt_trichotomy j i) as [L|[L|L]]; [|exact L|]; exfalso.
      + pose proof (filter_more hit (kids_of d) j i y tl' L Hy Hit). lia.
      + pose proof (filter_more hit (kids_of d) i j x tl L Hx Hxh). lia.
    - intros ->. split; [apply T; eauto 6|]. destruct (C89_nodes E (EStep None (NameTest p n) []) d) as (l & _ & Nl & _ & Ml); [exact (readable_bare _ _ _ _ Hs)|reflexivity|exact D|].
      exists k, (List.length l). split; [rewrite <- Hk; exact (P _ _ _ Hx Hxh)|]. split; [exists l; split; [exact Nl|]; split; [exact Ml|reflexivity]|reflexivity]. }
  apply (F (IElem [i] x)); [now apply Q| |now constructor]. intros j Hj. left. now apply Q.
Qed.

(** ** .//name: the elements with that name inside the object's node, at any depth *)
Definition anywhere (p : option str) (n : str) : expr := EBin (EAbbrev (u ".")) (u "//") (EStep None (NameTest p n) []).
Theorem C89_anywhere : forall E p n d i, picks E (anywhere p n) d i <-> inside (IElem [] d) i /\ is_element E p n i.
Proof.
  intros E p n d i. unfold picks, anywhere. cbn [means str_eqb]. change (str_eqb (u "//") (u "/")) with false. change (str_eqb (u "//") (u "//")) with true. cbn [set_of fold_left]. split.
  - intros (j & h & <- & Hh & S0). inversion S0 as [ax t c i0 Hax C W|ax p0 n0 c i0 Hax C W| | |]; subst; [|destruct Hax; discriminate]. split; [|exact W].
    destruct Hh as [<-|Hh]; [now apply directly|]. clear -Hh C. induction Hh as [c j H|c j h H H' IH]; [eapply deeper; [exact H|now apply directly]|eapply deeper; [exact H|now apply IH]].
  - intros [H W]. assert (G : exists h, (IElem [] d = h \/ inside (IElem [] d) h) /\ child h i).
    { clear W. induction H as [c i H|c j i H H' (h & Hh & C)]; [exists c; auto|]. exists h. split; [|exact C]. right. destruct Hh as [<-|Hh]; [now apply directly|now apply (deeper c j)]. }
    destruct G as (h & Hh & C). exists (IElem [] d), h. split; [reflexivity|]. split; [exact Hh|]. apply to_child; [now left|exact C|exact W].
Qed.
(** ** every field of the shipped classes *)
Lemma ty_agree l E : binds E l -> forall e, names_declared l e = true -> ty E e = ty (just l) e.
Proof.
  intros B e. induction e as [s|n| | |a op b IHa IHb|b ps IHb H| | |ax t ps H|ab|p n|p n args H] using expr_ind'; intros Hn; try reflexivity; cbn [names_declared] in Hn; try discriminate.
  - apply andb_prop in Hn as [Ha Hb]. cbn [ty]. now rewrite (IHa Ha), (IHb Hb).
  - apply andb_prop in Hn as [Hb Hp]. cbn [ty]. rewrite (IHb Hb). match goal with |- context [forallb ?f ps] => match goal with |- context [forallb ?g ps] => lazymatch f with g => fail | _ => idtac end; assert (forallb f ps = forallb g ps) as ->; [|reflexivity] end end. apply (forallb_agree (names_declared l)); [|exact Hp]. intros x Hx Hd. rewrite Forall_forall in H. now rewrite (H _ Hx Hd).
  - assert (Ht : sup_test E t = sup_test (just l) t /\ forallb (names_declared l) ps = true).
    { destruct t as [p n|nt arg]; [|split; [reflexivity|exact Hn]]. apply andb_prop in Hn as [H1 H2]. split; [|exact H2]. cbn [sup_test]. now rewrite (resolve_agree E l B _ H1). }
    destruct Ht as [Ht Hp]. cbn [ty]. rewrite Ht. match goal with |- context [forallb ?f ps] => match goal with |- context [forallb ?g ps] => lazymatch f with g => fail | _ => idtac end; assert (forallb f ps = forallb g ps) as ->; [|reflexivity] end end. apply (forallb_agree (names_declared l)); [|exact Hp]. intros x Hx Hd. rewrite Forall_forall in H. now rewrite (H _ Hx Hd).
  - cbn [ty]. destruct p; [reflexivity|]. f_equal. apply map_ext_in. intros x Hx. rewrite Forall_forall in H. apply (H _ Hx). rewrite forallb_forall in Hn. now apply Hn.
Qed.
Lemma shipped_readable : forallb (fun r => match parse (r_xpath r) with Ok e => readable (just (r_ns r)) e | _ => false end) shipped = true.
Proof. vm_compute. reflexivity. Qed.
Theorem C89_shipped : forall r E d, In r shipped -> binds E (r_ns r) -> attributes_distinct d ->
  exists e v, parse (r_xpath r) = Ok e /\ readable E e = true /\ eval_at E e doc_root d = Ret v /\ has_meaning v (means d E e (IElem [] d) 1 1).
Proof.
  intros r E d Hr B D. destruct (C71_xpaths_parse r Hr) as (e & He & Hn). pose proof shipped_readable as S0. rewrite forallb_forall in S0. specialize (S0 r Hr). cbv beta in S0. rewrite He in S0.
  assert (R : readable E e = true) by (unfold readable in *; now rewrite (ty_agree _ _ B e Hn)). destruct (C89_xpath E e d R D) as (v & Ev & M). exists e, v. auto.
Qed.

(** ** concrete cases *)
Fixpoint fresh_names (l : list qname) : bool := match l with [] => true | q :: l' => negb (existsb (qeqb q) l') && fresh_names l' end.
Lemma fresh_ok l : fresh_names l = true -> NoDup l.
Proof.
  induction l as [|q l IH]; cbn [fresh_names]; intros H; constructor; apply andb_prop in H as [H1 H2]; [|now apply IH].
  intros Hq. apply negb_true_iff in H1. rewrite <- not_true_iff_false in H1. apply H1. apply existsb_exists. exists q. split; [exact Hq|apply qeqb_refl].
Qed.
Fixpoint dist_b (n : node) : bool := match n with Elem _ a _ ks => fresh_names (map fst a) && forallb (fun k => dist_b (fst k)) ks | Misc _ => true end.
Lemma dist_ok d : dist_b d = true -> attributes_distinct d.
Proof.
  intros H a. revert d H. induction a as [|i a IH]; intros d H n G; cbn [get_at] in G.
  - injection G as <-. destruct d; [|constructor]. cbn [dist_b] in H. apply andb_prop in H as [H _]. now apply fresh_ok.
  - destruct (nth_error (kids_of d) i) as [k|] eqn:K; [|discriminate]. destruct d as [q ats t ks|]; [|destruct i; discriminate]. cbn [dist_b kids_of] in *.
    apply andb_prop in H as [_ H]. rewrite forallb_forall in H. exact (IH _ (H _ (nth_error_In _ _ K)) _ G).
Qed.
Open Scope string_scope.
Definition shop : node := el "shop" [("id", "s"); ("lang", "en")] "" [
  el "x" [("a", "1")] "one" [el "y" [] " 3.0 " []]; Misc (u "no"); el "x" [("a", "2")] "two" []; el "z" [] "" [el "x" [] "deep" []]; el "x" [("a", "1")] "three" [el "y" [] "30e-1" []; el "y" [] "4" []]].
Close Scope string_scope.
Definition reads (s : string) (l : list string) : Prop := readable E0 (xp s) = true /\ node_set (xp s) = true /\
  list_data E0 (xp s) (MString false) shop = Ret (map (fun x => PStr (u x)) l).
Open Scope string_scope.
Example C89_case : attributes_distinct shop /\ reads "x" ["one 3.0 "; "two"; "three30e-14"] /\ reads "x[@a='1']/y" [" 3.0 "; "30e-1"; "4"] /\ reads "x[@a=1][2]/y[2]" ["4"] /\
  reads "x[y=3]" ["one 3.0 "; "three30e-14"] /\ reads "x[2]/text()" ["two"] /\ reads "x[y]/@a" ["1"; "1"] /\ reads "@*[2]" ["en"] /\ reads "x[count(y)=2]/@a" ["1"] /\
  reads "x[y=4 or @a=2]/text()" ["two"; "three"] /\ reads "./z/*[. = 'deep']" ["deep"] /\ reads "x[4]" [] /\
  reads ".//x" ["one 3.0 "; "two"; "deep"; "three30e-14"] /\ reads ".//x[1]" ["one 3.0 "; "deep"] /\ reads "(.//x)[3]" ["deep"] /\ reads "x[last()]/y[position() != 1]" ["4"] /\
  reads "z/x|x[not(y)]|@id|x[2]" ["s"; "two"; "deep"] /\ reads "descendant::y[contains(., 'e-1')]" ["30e-1"] /\ reads "*[starts-with(local-name(), 'z')]" ["deep"] /\
  reads "x[normalize-space(y) = '3.0']/@a" ["1"] /\ reads "x[string-length(text()) != 3]/text()" ["three"] /\ reads "./self::shop/@id" ["s"].
Proof. split; [apply dist_ok; vm_compute; reflexivity|]. unfold reads. repeat match goal with |- _ /\ _ => split end; vm_compute; reflexivity. Qed.
Close Scope string_scope.
(** the third x, by its position *)
Example C89_nth_case : field_get E0 (xp "x[3]") (MString false) shop = Ret (PStr (u "three30e-14")).
Proof.
  change (xp "x[3]") with (EStep None (NameTest None (u "x")) [EInt (N.of_nat 3)]).
  apply C89_nth_child with (i := 4) (x := fst (nth 4 (kids_of shop) (Misc [], None))) (tl := None) (hit := fun y => match y with Elem q _ _ _ => qeqb q (QN None (u "x")) | Misc _ => false end).
  - apply dist_ok. vm_compute. reflexivity.
  - vm_compute. reflexivity.
  - intros y. split.
    + destruct y as [q ats t ks|]; [|discriminate]. intros H. apply qeqb_eq in H. subst q. exists (QN None (u "x")), ats, t, ks. split; [reflexivity|]. right. split; [vm_compute; discriminate|]. split; reflexivity.
    + intros (q & ats & t & ks & -> & [[H _]|(_ & H1 & H2)]); [vm_compute in H; discriminate|]. apply qeqb_eq. destruct q. cbn in *. now subst.
  - vm_compute. reflexivity.
  - vm_compute. reflexivity.
  - vm_compute. reflexivity.
  - change (u "three30e-14") with (strval (fst (nth 4 (kids_of shop) (Misc [], None)))). apply strval_inside.
Qed.
(** every x, at any depth *)
Example C89_string_case : field_get E0 (xp "local-name(.)") (MString false) shop = Ret (PStr (u "shop")) /\ field_get E0 (xp "normalize-space(.//y)") (MString false) shop = Ret (PStr (u "3.0")) /\
  field_get E0 (xp "string(w)") (MString false) shop = Ret PNone /\ field_get E0 (xp "count(.//x)") MInt shop = Ret (PInt 4) /\ xp ".//x" = anywhere None (u "x").
Proof. repeat match goal with |- _ /\ _ => split end; vm_compute; reflexivity. Qed.
(** count(), and the places of nodes *)
Example C89_count_case : field_get E0 (xp "count(x)") MInt shop = Ret (PInt 3) /\ field_get E0 (xp "count(w)") MInt shop = Ret PNone /\ list_data E0 (xp "count(x)") MInt shop = Exc XType /\
  precedes shop (IAttr [] (QN None (u "lang")) (u "en")) (IElem [3; 0] (el "x" [] "deep" [])).
Proof.
  split; [vm_compute; reflexivity|]. split; [vm_compute; reflexivity|]. split; [vm_compute; reflexivity|]. exists ([] ++ [(0, 1)]), (to_elem [3; 0]). split; [|split].
  - change (@nil place) with (to_elem []). apply route_attr with (n := shop); reflexivity.
  - constructor. reflexivity.
  - constructor. left. cbn. lia.
Qed.

Print Assumptions C89_xpath.
Print Assumptions C89_agree.
Print Assumptions C89_nodes.
Print Assumptions C89_order_unique.
Print Assumptions C89_field.
Print Assumptions C89_typed.
Print Assumptions C89_string.
Print Assumptions C89_list.
Print Assumptions C89_count.
Print Assumptions C89_no_list.
Print Assumptions C89_nth_child.
Print Assumptions C89_anywhere.
Print Assumptions C89_shipped.
