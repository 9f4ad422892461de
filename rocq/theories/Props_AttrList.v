(** C91, for lists of attributes ('.//@id', 'a/b/@lang'; xmlmap/fields.py:661-846): values are written in place, nothing else can be done. *)
From Coq Require Import String Arith ZArith NArith List Lia Bool.
From Verif Require Import FieldUndo MapperProofs FieldRefuse Props_Fields Props_Mappers NodeList ListSpec ListOps ListFacts ListSim ReadSpec EvalSpec EvalMeaning EvalOrder EvalMain EvalValues EvalFuns EvalAgree Shipped EnvAgree Props_Shipped EvalBlind Props_Eval Props_Write Props_WriteList EvalRemove Props_RemoveList.
From Verif Require Import XPathEval FieldSpec DocSpec ListSpec XPathRead EvalSpec.
Import ListNotations.

(** an XPath whose last step is an attribute, called [q] *)
Definition attribute_path (E : env) (e : expr) (q : qname) : Prop :=
  exists ax p n ps, ends_in e (EStep ax (NameTest p n) ps) /\ (ax = Some (u "@") \/ ax = Some (u "attribute")) /\ p <> Some [] /\ n <> u "*" /\ n <> u "text" /\ passes E p n q.
(** a value the mapper writes to an attribute and reads back *)
Definition storable_attr (m : mapper) (v : pyval) : Prop := exists s, to_xml m v = Ret (Some s) /\ xml_valid s = true /\ to_python m (Some (InStr s)) = Ret v.

Lemma attribute_items E e q d i : attribute_path E e q -> picks E e d i -> exists b w, i = IAttr b q w.
Proof.
  intros (ax & p & n & ps & He & Ax & P0 & S0 & T & Pn) Hi. destruct (last_step_reached d E e ax _ ps He _ _ _ _ Hi) as [j J].
  inversion J as [ax0 t0 c0 i0 Hax Hc Hw|ax0 p0 n0 c0 i0 Hax Ha Hw| | |]; subst; try (destruct Ax as [Ax|Ax]; discriminate Ax).
  - destruct Ax as [->| ->]; destruct Hax as [Hax|Hax]; discriminate Hax.
  - inversion Hw as [b q' w Pn']; subst. exists b, w. f_equal. pose proof (passes_name E p n q Pn S0 P0) as H1. pose proof (passes_name E p n q' Pn' S0 P0) as H2. congruence.
Qed.
Lemma attr_get E e d l b q w : listing E e d l -> In (IAttr b q w) l -> exists x, get_at b d = Some x /\ In (q, w) (attrs_of x).
Proof. intros [O _] H. destruct (order_route d l O _ H) as [r Hr]. now apply valid_item in Hr. Qed.

Theorem C91_set_get_attribute : forall E e m k (v : pyval) q vs d i, readable E e = true -> node_set e = true -> attribute_path E e q -> blind E (Some q) e = true -> storable_attr m v ->
  attributes_distinct d -> list_data E e m d = Ret vs -> at_index k (List.length vs) = Some i ->
  exists d', list_setitem E e m k v d = (d', Ret tt) /\ attributes_distinct d' /\ list_data E e m d' = Ret (replace_at i v vs).
Proof.
  intros E e m k v q vs d i R P Ap B (s & Hs & Vs & Hg) D Hd Hk. destruct (listing_exists E e d R P D) as [l L]. rewrite (reads_len E e m d vs l R P D Hd L) in Hk. pose proof (at_index_lt _ _ _ Hk) as Li. destruct (listing_matches E e d l R P D L) as [M Nd].
  destruct (nth_error l i) as [it|] eqn:Hi; [|apply nth_error_None in Hi; lia]. assert (Pi : picks E e d it) by (apply (proj2 L); eapply nth_error_In; exact Hi). destruct (attribute_items E e q d it Ap Pi) as (a & w & ->).
  pose proof Ap as (ax & p & n & ps & He & Ax & P0 & S0 & T & Pn). destruct (C91_setitem_attribute E e m k v s d l i a q w ax p n ps R P D L Hk Hi Hs (proj1 (xml_valid_iff s) Vs) He P0 S0 T) as (d' & x & Hset & Se & G & Ga).
  destruct (attr_get E e d l a q w L (nth_error_In _ _ Hi)) as (x0 & G0 & Iw). rewrite G in G0. injection G0 as <-.
  assert (A : alike (Some q) d d').
  { assert (d' = upd_at a (set_attr q s) d) as ->; [|apply (alike_upd _ _ a d x G); now apply (alike_set_attr q s x w)].
    apply same_shells_same. intros c. destruct (list_eq_dec Nat.eq_dec c a) as [->|Nc]; [rewrite (get_upd_same a _ d _ G); now rewrite Ga|]. rewrite (Se c Nc). symmetry. apply (same_except_upd a (set_attr q s) d x G); [now destruct x|exact Nc]. }
  destruct (listing_alike E (Some q) e d d' l R P B D A L) as (l' & L' & F2). pose proof (alike_distinct _ _ _ A D) as D'. destruct (listing_matches E e d' l' R P D' L') as [M' _]. exists d'. split; [exact Hset|]. split; [exact D'|].
  pose proof (forall2_len _ _ _ F2) as Hlen. unfold list_data in *. rewrite M in Hd. rewrite M'. pose proof (mapR_length _ _ _ Hd) as Lvs. apply mapR_all; [rewrite replace_length by lia; lia|]. intros j y Hj. rewrite replace_nth by lia.
  destruct (forall2_nth _ _ _ F2 j y Hj) as (z & Hz & Iz). assert (Pz : picks E e d z) by (apply (proj2 L); eapply nth_error_In; exact Hz). destruct (attribute_items E e q d z Ap Pz) as (b & wz & ->). inversion Iz as [|b0 q0 v0 v' _]; subst.
  destruct (attr_get E e d l b q wz L (nth_error_In _ _ Hz)) as (xb & Gb & Ib). destruct (attr_get E e d' l' b q v' L' (nth_error_In _ _ Hj)) as (xb' & Gb' & Ib'). destruct (Nat.eqb_spec i j) as [<-|Nj].
  - rewrite Hi in Hz. injection Hz as <- <-. rewrite Ga in Gb'. injection Gb' as <-. exists v. split; [reflexivity|]. cbn [item_in]. assert (v' = s) as ->; [|exact Hg].
    apply (attr_unique (set_attr q s x) q); [exact (D' a _ Ga)|exact Ib'|]. destruct x; [|destruct Iw]. cbn [set_attr attrs_of] in *. now apply (attr_set_in q s _ w).
  - assert (Nb : b <> a).
    { intros ->. apply Nj. rewrite NoDup_nth_error in Nd. apply Nd; [lia|]. rewrite Hi, Hz. rewrite G in Gb. injection Gb as <-. now rewrite (attr_unique x q w wz (D a x G) Iw Ib). }
    pose proof (Se b Nb) as Sb. rewrite Gb', Gb in Sb. cbn [option_map] in Sb. unfold shell in Sb. injection Sb as S1 S2 S3 S4. rewrite S2 in Ib'. assert (v' = wz) as -> by exact (attr_unique xb q v' wz (D b xb Gb) Ib' Ib). exact (mapR_nth _ _ _ _ _ Hd Hz).
Qed.
Lemma set_attrs E e m q : readable E e = true -> node_set e = true -> attribute_path E e q -> blind E (Some q) e = true -> forall us (ws vs : list pyval) d, attributes_distinct d -> list_data E e m d = Ret (ws ++ vs) -> Forall (storable_attr m) us -> List.length us <= List.length vs ->
  exists d', set_all E e m (List.length ws) us d = (d', Ret tt) /\ attributes_distinct d' /\ list_data E e m d' = Ret (ws ++ us ++ skipn (List.length us) vs).
Proof.
  intros R P Ap B us. induction us as [|v us IH]; intros ws vs d D Hr St Hl; [exists d; split; [reflexivity|split; [exact D|exact Hr]]|]. destruct vs as [|w vs]; [cbn in Hl; lia|]. inversion St as [|? ? S1 S2]; subst.
  assert (Hk : at_index (Z.of_nat (List.length ws)) (List.length (ws ++ w :: vs)) = Some (List.length ws)) by (apply at_index_nat; rewrite app_length; cbn [List.length]; lia).
  destruct (C91_set_get_attribute E e m _ v q _ d _ R P Ap B S1 D Hr Hk) as (d1 & H1 & D1 & R1). assert (Er : replace_at (List.length ws) v (ws ++ w :: vs) = (ws ++ [v]) ++ vs).
  { unfold replace_at. rewrite firstn_app, Nat.sub_diag, firstn_all. cbn [firstn]. rewrite app_nil_r. rewrite skipn_app. rewrite skipn_all2 by lia. replace (S (List.length ws) - List.length ws) with 1 by lia. cbn [skipn app]. now rewrite <- app_assoc. }
  rewrite Er in R1. cbn [List.length] in Hl. destruct (IH (ws ++ [v]) vs d1 D1 R1 S2) as (d2 & H2 & D2 & R2); [lia|]. exists d2. split; [|split; [exact D2|]].
  - cbn [set_all]. unfold bind at 1. rewrite H1. rewrite app_length in H2. cbn [List.length] in H2. rewrite Nat.add_1_r in H2. exact H2.
  - cbn [List.length skipn]. rewrite <- app_assoc in R2. exact R2.
Qed.
(** assigning as many values as there are attributes writes them all, in order *)
Theorem C91_assign_attributes : forall E e m q us vs d, readable E e = true -> node_set e = true -> attribute_path E e q -> blind E (Some q) e = true -> attributes_distinct d ->
  list_data E e m d = Ret vs -> Forall (storable_attr m) us -> List.length us = List.length vs ->
  exists d', lmgr_set E e m us d = (d', Ret tt) /\ attributes_distinct d' /\ list_data E e m d' = Ret us.
Proof.
  intros E e m q us vs d R P Ap B D Hr St Hl. destruct (set_attrs E e m q R P Ap B us [] vs d D Hr St) as (d' & H1 & D1 & R1); [lia|]. cbn [app List.length] in H1, R1. rewrite Hl, skipn_all, app_nil_r in R1. exists d'. split; [|now split].
  unfold lmgr_set. unfold bind at 1. rewrite H1. unfold bind, reading, list_len. rewrite R1. cbn [rmap]. destruct us as [|v us]; cbn [trim List.length]; unfold bind, reading, list_len; rewrite R1; cbn [rmap List.length]; now rewrite Nat.ltb_irrefl.
Qed.
(** assigning fewer writes those, then fails with TypeError at the first attribute to be removed, and every other value stays *)
Theorem C91_assign_fewer_attributes : forall E e m q us vs d, readable E e = true -> node_set e = true -> attribute_path E e q -> blind E (Some q) e = true -> attributes_distinct d ->
  list_data E e m d = Ret vs -> Forall (storable_attr m) us -> List.length us < List.length vs ->
  exists d', lmgr_set E e m us d = (d', Exc XType) /\ attributes_distinct d' /\ list_data E e m d' = Ret (us ++ skipn (List.length us) vs).
Proof.
  intros E e m q us vs d R P Ap B D Hr St Hl. destruct (set_attrs E e m q R P Ap B us [] vs d D Hr St) as (d' & H1 & D1 & R1); [lia|]. cbn [app List.length] in H1, R1. exists d'. split; [|now split].
  destruct (listing_exists E e d' R P D1) as [l L]. pose proof (reads_len E e m d' _ l R P D1 R1 L) as Ll. rewrite app_length, skipn_length in Ll.
  destruct (nth_error l (List.length l - 1)) as [x|] eqn:Hx; [|apply nth_error_None in Hx; lia]. assert (Px : picks E e d' x) by (apply (proj2 L); eapply nth_error_In; exact Hx). destruct (attribute_items E e q d' x Ap Px) as (b & w & ->).
  pose (N := List.length us + (List.length vs - List.length us)). assert (LN : List.length (us ++ skipn (List.length us) vs) = N) by (unfold N; now rewrite app_length, skipn_length).
  assert (Zk : (Z.of_nat N - 1)%Z = Z.of_nat (List.length l - 1)) by (unfold N; lia).
  assert (Hk : at_index (Z.of_nat N - 1) (List.length l) = Some (List.length l - 1)) by (rewrite Zk; apply at_index_nat; lia).
  assert (Hdel : list_delitem E e (Z.of_nat N - 1) d' = (d', Exc XType)) by (eapply (C91_delitem E e _ d' l R P D1 L); [exact Hk|exact Hx|intros ? ? X; discriminate X]).
  assert (Hget : exists v, list_getitem E e m (Z.of_nat N - 1) d' = Ret v).
  { unfold list_getitem. destruct (listing_matches E e d' l R P D1 L) as [M _]. rewrite M. rewrite at_index_py in Hk. unfold py_nth. rewrite Hk, Hx. unfold list_data in R1. rewrite M in R1. pose proof (mapR_length _ _ _ R1) as Lm.
    destruct (mapR_nth _ _ _ _ _ R1 Hx) as (v & _ & Hv). now exists v. }
  destruct Hget as [v Hget]. unfold lmgr_set. unfold bind at 1. rewrite H1. unfold bind at 1, reading, list_len. rewrite R1. cbn [rmap]. rewrite LN. assert (NS : N = S (N - 1)) by (unfold N; lia). rewrite NS.
  cbn [trim]. unfold bind at 1, reading, list_len. rewrite R1. cbn [rmap]. rewrite LN. destruct (Nat.ltb_spec (List.length us) N); [|unfold N in *; lia].
  unfold list_pop. unfold bind, reading, list_len, ret. rewrite R1. cbn [rmap]. rewrite LN, Hget, Hdel. reflexivity.
Qed.

(** ** concrete case: every [id] of the document, in two places *)
Open Scope string_scope.
Lemma sto_attr (s : str) : xml_valid s = true -> storable_attr (MString false) (PStr s).
Proof. intros V. exists s. split; [reflexivity|]. split; [exact V|reflexivity]. Qed.
Example C91_attributes_case : can ".//@id" /\ attribute_path E0 (xp ".//@id") (QN None (u "id")) /\ blind E0 (Some (QN None (u "id"))) (xp ".//@id") = true /\ list_data E0 (xp ".//@id") (MString false) desk = Ret (strs ["7"; "8"]) /\
  (exists d', lmgr_set E0 (xp ".//@id") (MString false) (strs ["8"; "9"]) desk = (d', Ret tt) /\ list_data E0 (xp ".//@id") (MString false) d' = Ret (strs ["8"; "9"])) /\
  (exists d', lmgr_set E0 (xp ".//@id") (MString false) (strs ["1"]) desk = (d', Exc XType) /\ list_data E0 (xp ".//@id") (MString false) d' = Ret (strs ["1"; "8"])).
Proof.
  assert (C : can ".//@id") by can. split; [exact C|]. destruct C as (_ & R & P & D). assert (Ap : attribute_path E0 (xp ".//@id") (QN None (u "id"))).
  { exists (Some (u "@")), None, (u "id"), []. split; [apply ends_step; vm_compute; reflexivity|]. split; [now left|]. split; [discriminate|]. split; [discriminate|]. split; [discriminate|]. right. split; [discriminate|]. split; reflexivity. }
  assert (B : blind E0 (Some (QN None (u "id"))) (xp ".//@id") = true) by (vm_compute; reflexivity). assert (Hd : list_data E0 (xp ".//@id") (MString false) desk = Ret (strs ["7"; "8"])) by (vm_compute; reflexivity).
  split; [exact Ap|]. split; [exact B|]. split; [exact Hd|]. split.
  - destruct (C91_assign_attributes E0 _ (MString false) _ (strs ["8"; "9"]) _ desk R P Ap B D Hd) as (d' & H & _ & H2); [constructor; [apply sto_attr; vm_compute; reflexivity|]; constructor; [apply sto_attr; vm_compute; reflexivity|]; constructor|reflexivity|]. exists d'. split; [exact H|exact H2].
  - destruct (C91_assign_fewer_attributes E0 _ (MString false) _ (strs ["1"]) _ desk R P Ap B D Hd) as (d' & H & _ & H2); [constructor; [apply sto_attr; vm_compute; reflexivity|]; constructor|cbn; lia|]. exists d'. split; [exact H|exact H2].
Qed.
Close Scope string_scope.
Print Assumptions C91_set_get_attribute.
Print Assumptions C91_assign_attributes.
Print Assumptions C91_assign_fewer_attributes.
