(** C91: list fields through any XPath that only looks down (C89's [readable]), also those eulxml cannot create nodes for: './/title', 'a|b', './/@id'
    (xmlmap/fields.py:661-846). *)
From Coq Require Import String Arith ZArith NArith List Lia Bool.
From Verif Require Import FieldUndo MapperProofs FieldRefuse Props_Fields Props_Mappers NodeList ListSpec ListOps ListSim ReadSpec EvalSpec EvalMeaning EvalOrder EvalMain EvalValues EvalFuns EvalAgree Shipped EnvAgree Props_Shipped EvalBlind Props_Eval Props_Write.
From Verif Require Import XPathEval FieldSpec DocSpec XPathRead EvalSpec.
Import ListNotations.

(** the nodes of a list field: all that its XPath selects, in document order (there is only one such list: C89_order_unique) *)
Definition listing (E : env) (e : expr) (d : node) (l : list item) : Prop := document_order d l /\ forall i, In i l <-> picks E e d i.
Lemma listing_matches E e d l : readable E e = true -> node_set e = true -> attributes_distinct d -> listing E e d l -> matches E e d = Ret l /\ NoDup l.
Proof.
  intros R P D [O M]. destruct (path_nodes E e d D R P) as (l' & El & Nd & O' & M'). assert (l' = l) as <- by (apply (C89_order_unique d); auto; intros i; now rewrite M', M).
  unfold matches. now rewrite El.
Qed.
Lemma listing_exists E e d : readable E e = true -> node_set e = true -> attributes_distinct d -> exists l, listing E e d l.
Proof. intros R P D. destruct (path_nodes E e d D R P) as (l & _ & _ & O & M). exists l. now split. Qed.
Lemma order_route d l : document_order d l -> forall i, In i l -> exists r, route d i r.
Proof. induction 1 as [|j l Hr _ _ IH]; intros i; [intros []|]. intros [<-|Hi]; auto. Qed.
Lemma listing_get E e d l a n : listing E e d l -> In (IElem a n) l -> get_at a d = Some n.
Proof. intros [O _] I. destruct (order_route d l O _ I) as [r Hr]. now apply valid_item in Hr. Qed.

(** ** [l[k] = v]: the text of that element is replaced, and nothing else *)
Theorem C91_setitem : forall E e m k (v : pyval) (s : str) d l i a n, readable E e = true -> node_set e = true -> attributes_distinct d -> listing E e d l ->
  at_index k (List.length l) = Some i -> nth_error l i = Some (IElem a n) -> to_xml m v = Ret (Some s) ->
  (kids_of n = [] -> Forall xml_character s -> exists d', list_setitem E e m k v d = (d', Ret tt) /\ same_except a d d' /\ get_at a d' = Some (set_text (Some s) n)) /\
  (kids_of n <> [] -> list_setitem E e m k v d = (d, Exc XNotText)) /\
  (kids_of n = [] -> ~ Forall xml_character s -> list_setitem E e m k v d = (d, Exc XValue)).
Proof.
  intros E e m k v s d l i a n R P D L Hk Hi Hs. destruct (listing_matches E e d l R P D L) as [M _]. pose proof (listing_get E e d l a n L (nth_error_In _ _ Hi)) as G.
  assert (S0 : list_setitem E e m k v d = set_in_xml E (Some (RElem a)) (Some s) (terminal_step e) d).
  { unfold list_setitem. unfold bind at 1, reading. rewrite M. rewrite at_index_py in Hk. pose proof Hk as Hk'. unfold py_idx in Hk'. unfold py_nth. rewrite Hk, Hi.
    destruct (Z.eqb_spec k (Z.of_nat (List.length l))) as [X|X].
    - exfalso. destruct (Z.leb_spec 0 k); [|lia]. destruct (Z.ltb_spec k (Z.of_nat (List.length l))); [lia|discriminate].
    - destruct (Z.ltb_spec (Z.of_nat (List.length l)) k) as [Y|Y].
      + exfalso. destruct (Z.leb_spec 0 k); [|lia]. destruct (Z.ltb_spec k (Z.of_nat (List.length l))); [lia|discriminate].
      + unfold bind, ret. now rewrite Hs. }
  rewrite S0. cbn [set_in_xml]. rewrite G. split; [|split].
  - intros K V. rewrite K. unfold set_text_at. apply xml_valid_iff in V. rewrite V. eexists. split; [reflexivity|]. split; [|now apply get_upd_same].
    apply (same_except_upd a _ d n G). now destruct n.
  - intros K. destruct (kids_of n); [now destruct K|reflexivity].
  - intros K V. rewrite K. unfold set_text_at. destruct (xml_valid s) eqn:X; [|reflexivity]. destruct V. now apply xml_valid_iff.
Qed.
(** an index outside the list *)
Theorem C91_setitem_range : forall E e m k (v : pyval) d l, readable E e = true -> node_set e = true -> attributes_distinct d -> listing E e d l ->
  at_index k (List.length l) = None -> k <> Z.of_nat (List.length l) -> list_setitem E e m k v d = (d, Exc XIndex).
Proof.
  intros E e m k v d l R P D L Hk Nk. destruct (listing_matches E e d l R P D L) as [M _]. unfold list_setitem. unfold bind at 1, reading. rewrite M. rewrite at_index_py in Hk. unfold py_nth. rewrite Hk.
  destruct (Z.eqb_spec k (Z.of_nat (List.length l))) as [X|X]; [contradiction|]. destruct (Z.ltb _ k); reflexivity.
Qed.

Definition place_of (i : item) : addr := match i with IElem b _ => b | IAttr b _ _ => b | IText b _ _ => b end.
(** ** the list then reads as before but for that item, if the XPath does not look at element text *)
Definition leaf (i : item) : Prop := exists a q ats t, i = IElem a (Elem q ats t []).
Lemma listing_alike E hid e d d' l : readable E e = true -> node_set e = true -> blind E hid e = true -> attributes_distinct d -> alike hid d d' -> listing E e d l ->
  exists l', listing E e d' l' /\ Forall2 (ialike hid) l l'.
Proof.
  intros R P B D A L. assert (D' : attributes_distinct d') by exact (alike_distinct hid d d' A D). assert (K : kalike hid (here d) (here d')) by (split; [reflexivity|now constructor]).
  pose proof (blind_steady E hid e R B (here d) (here d') 1 1 K) as V. destruct (listing_matches E e d l R P D L) as [M _]. destruct (listing_exists E e d' R P D') as [l' L']. destruct (listing_matches E e d' l' R P D' L') as [M' _].
  exists l'. split; [exact L'|]. unfold matches in M, M'. rewrite (eval_ev _ _ _ R) in M. rewrite (eval_ev _ _ _ R) in M'. destruct V as [kl kl' H|v NV].
  - cbn [erase] in M, M'. injection M as <-. injection M' as <-. clear -H. induction H as [|k k' kl kl' [_ Hk] _ IH]; cbn [map]; constructor; auto.
  - destruct v as [x| | |]; try discriminate. now destruct (NV x).
Qed.
Lemma mapR_all {A B} (f : A -> res B) l : forall ys, List.length ys = List.length l -> (forall j x, nth_error l j = Some x -> exists y, nth_error ys j = Some y /\ f x = Ret y) -> mapR f l = Ret ys.
Proof.
  induction l as [|x l IH]; intros [|y ys] Hl H; try discriminate; [reflexivity|]. cbn [mapR]. destruct (H 0 x eq_refl) as (y' & Hy & Hx). injection Hy as <-. rewrite Hx, (IH ys); [reflexivity|now injection Hl|].
  intros j x' Hj. exact (H (S j) x' Hj).
Qed.
Lemma replace_length i v l : i < List.length l -> List.length (replace_at i v l) = List.length l.
Proof. intros H. unfold replace_at. rewrite app_length. cbn [List.length]. rewrite firstn_length, skipn_length. lia. Qed.
Lemma replace_nth i v l j : i < List.length l -> nth_error (replace_at i v l) j = if Nat.eqb i j then Some v else nth_error l j.
Proof.
  intros H. unfold replace_at. destruct (Nat.eqb_spec i j) as [<-|X].
  - rewrite nth_error_app2; rewrite firstn_length, Nat.min_l by lia; [|lia]. now rewrite Nat.sub_diag.
  - destruct (Nat.lt_ge_cases j i).
    + rewrite nth_error_app1 by (rewrite firstn_length; lia). rewrite <- (firstn_skipn i l) at 2. rewrite nth_error_app1 by (rewrite firstn_length; lia). reflexivity.
    + rewrite nth_error_app2; rewrite firstn_length, Nat.min_l by lia; [|lia]. replace (j - i) with (S (j - S i)) by lia. cbn [nth_error].
      rewrite <- (firstn_skipn (S i) l) at 2. rewrite nth_error_app2; rewrite firstn_length, Nat.min_l by lia; [reflexivity|lia].
Qed.
Lemma forall2_len {A B} (Q : A -> B -> Prop) l l' : Forall2 Q l l' -> List.length l = List.length l'.
Proof. induction 1; cbn [List.length]; congruence. Qed.
Lemma forall2_nth {A B} (Q : A -> B -> Prop) l l' : Forall2 Q l l' -> forall j y, nth_error l' j = Some y -> exists x, nth_error l j = Some x /\ Q x y.
Proof. induction 1 as [|x y l l' H _ IH]; intros [|j] z Hz; try discriminate; [injection Hz as <-; exists x; now split|]. exact (IH j z Hz). Qed.
Theorem C91_set_get : forall E e m k (v : pyval) d d' l vs i, readable E e = true -> node_set e = true -> attributes_distinct d -> listing E e d l -> Forall leaf l -> blind E None e = true ->
  storable m v -> at_index k (List.length l) = Some i -> list_data E e m d = Ret vs -> list_setitem E e m k v d = (d', Ret tt) ->
  list_data E e m d' = Ret (replace_at i v vs) /\ attributes_distinct d' /\ exists l', listing E e d' l' /\ Forall leaf l' /\ map place_of l' = map place_of l.
Proof.
  intros E e m k v d d' l vs i R P D L Lf B (s & Hs & Vs & Hg) Hk Hd Hset. pose proof (at_index_lt _ _ _ Hk) as Li. destruct (listing_matches E e d l R P D L) as [M Nd].
  destruct (nth_error l i) as [it|] eqn:Hi; [|apply nth_error_None in Hi; lia]. pose proof (proj1 (Forall_forall _ _) Lf it (nth_error_In _ _ Hi)) as (a & q & ats & t & ->).
  destruct (C91_setitem E e m k v s d l i a _ R P D L Hk Hi Hs) as (C & _ & _). destruct (C eq_refl (proj1 (xml_valid_iff s) Vs)) as (d1 & Hset1 & Se & Ga). rewrite Hset1 in Hset. injection Hset as ->.
  pose proof (listing_get E e d l a _ L (nth_error_In _ _ Hi)) as G.
  assert (A : alike None d d').
  { assert (d' = upd_at a (set_text (Some s)) d) as ->; [|apply (alike_upd None _ a d _ G); apply alike_set_text].
    apply same_shells_same. intros c. destruct (list_eq_dec Nat.eq_dec c a) as [->|Nc].
    - rewrite (get_upd_same a _ d _ G). now rewrite Ga.
    - rewrite (Se c Nc). symmetry. exact (same_except_upd a (set_text (Some s)) d _ G eq_refl c Nc). }
  destruct (listing_alike E None e d d' l R P B D A L) as (l' & L' & F2). pose proof (alike_distinct _ _ _ A D) as D'. destruct (listing_matches E e d' l' R P D' L') as [M' _].
  pose proof (forall2_len _ _ _ F2) as Hlen. unfold list_data in Hd. rewrite M in Hd. pose proof (mapR_length _ _ _ Hd) as Lvs.
  assert (At : forall j y, nth_error l' j = Some y -> exists b x, nth_error l j = Some (IElem b x) /\ (j = i /\ y = IElem a (Elem q ats (Some s) []) \/ j <> i /\ y = IElem b x)).
  { intros j y Hj. destruct (forall2_nth _ _ _ F2 j y Hj) as (x & Hx & Ix). pose proof (proj1 (Forall_forall _ _) Lf x (nth_error_In _ _ Hx)) as (b & q1 & ats1 & t1 & ->). exists b, (Elem q1 ats1 t1 []). split; [exact Hx|].
    inversion Ix as [b0 n0 n' An|]; subst. pose proof (listing_get E e d' l' b n' L' (nth_error_In _ _ Hj)) as Gb'. pose proof (listing_get E e d l b _ L (nth_error_In _ _ Hx)) as Gb.
    destruct (Nat.eq_dec j i) as [->|Nj].
    - left. split; [reflexivity|]. rewrite Hi in Hx. injection Hx as <- <- <- <-. rewrite Ga in Gb'. injection Gb' as <-. reflexivity.
    - right. split; [exact Nj|]. assert (Nb : b <> a).
      { intros ->. apply Nj. rewrite NoDup_nth_error in Nd. apply Nd; [apply nth_error_Some; congruence|]. rewrite Hx, Hi. rewrite G in Gb. injection Gb as -> -> ->. reflexivity. }
      pose proof (Se b Nb) as Sb. rewrite Gb', Gb in Sb. cbn [option_map] in Sb. unfold shell in Sb. injection Sb as S1 S2 S3 S4. destruct n' as [q2 ats2 t2 ks2|]; [|discriminate]. cbn in *. destruct ks2; [|discriminate]. congruence. }
  split; [|split; [exact D'|]].
  - unfold list_data. rewrite M'. apply mapR_all; [rewrite replace_length by lia; lia|]. intros j y Hj. rewrite replace_nth by lia. destruct (At j y Hj) as (b & x & Hx & [[-> ->]|[Nj ->]]).
    + rewrite Nat.eqb_refl. exists v. split; [reflexivity|]. cbn [item_in]. apply Hg.
    + destruct (Nat.eqb_spec i j) as [->|_]; [now destruct Nj|]. exact (mapR_nth _ _ _ _ _ Hd Hx).
  - exists l'. split; [exact L'|]. split; [|clear -F2; induction F2 as [|x y l l' H _ IH]; [reflexivity|]; cbn [map]; rewrite IH; f_equal; now destruct H]. apply Forall_forall. intros y Hy. apply In_nth_error in Hy as [j Hj]. destruct (At j y Hj) as (b & x & Hx & [[-> ->]|[Nj ->]]).
    + now exists a, q, ats, (Some s).
    + exact (proj1 (Forall_forall _ _) Lf _ (nth_error_In _ _ Hx)).
Qed.

(** ** attributes: [l[k] = v] of './/@id' writes that attribute *)
Theorem C91_setitem_attribute : forall E e m k (v : pyval) (s : str) d l i a q w ax p n ps, readable E e = true -> node_set e = true -> attributes_distinct d -> listing E e d l ->
  at_index k (List.length l) = Some i -> nth_error l i = Some (IAttr a q w) -> to_xml m v = Ret (Some s) -> Forall xml_character s ->
  ends_in e (EStep ax (NameTest p n) ps) -> p <> Some [] -> n <> u "*" -> n <> u "text" ->
  exists d' x, list_setitem E e m k v d = (d', Ret tt) /\ same_except a d d' /\ get_at a d = Some x /\ get_at a d' = Some (set_attr q s x).
Proof.
  intros E e m k v s d l i a q w ax p n ps R P D L Hk Hi Hs V He P0 S0 T. destruct (listing_matches E e d l R P D L) as [M _]. pose proof L as [O Pk]. pose proof (nth_error_In _ _ Hi) as Ii. destruct (order_route d l O _ Ii) as [r Hr]. apply valid_item in Hr as (x & G & _).
  assert (Hset : list_setitem E e m k v d = set_in_xml E (Some (RAttr a q)) (Some s) (terminal_step e) d).
  { unfold list_setitem. unfold bind at 1, reading. rewrite M. rewrite at_index_py in Hk. pose proof Hk as Hk'. unfold py_idx in Hk'. unfold py_nth. rewrite Hk, Hi.
    destruct (Z.eqb_spec k (Z.of_nat (List.length l))) as [X|X].
    - exfalso. destruct (Z.leb_spec 0 k); [|lia]. destruct (Z.ltb_spec k (Z.of_nat (List.length l))); [lia|discriminate].
    - destruct (Z.ltb_spec (Z.of_nat (List.length l)) k) as [Y|Y].
      + exfalso. destruct (Z.leb_spec 0 k); [|lia]. destruct (Z.ltb_spec k (Z.of_nat (List.length l))); [lia|discriminate].
      + unfold bind, ret. now rewrite Hs. }
  apply Pk in Ii. unfold picks in Ii. destruct (last_step_reached d E e ax _ ps He _ _ _ _ Ii) as [j J]. apply attr_reached in J as (p' & n' & J & Pn). injection J as <- <-.
  rewrite Hset. apply ends_step in He. rewrite He. cbn [set_in_xml is_text_nodetest test_name]. destruct (str_eqb n (u "text")) eqn:T'; [apply str_eqb_eq in T'; congruence|]. cbn [set_attr_at]. unfold name_valid.
  destruct (str_eqb n (u "*")) eqn:S'; [apply str_eqb_eq in S'; congruence|]. cbn [negb]. apply xml_valid_iff in V. rewrite V, (passes_name E p n q Pn S0 P0). do 2 eexists. split; [reflexivity|]. split; [|split; [exact G|now apply get_upd_same]].
  apply (same_except_upd a _ d x G). now destruct x.
Qed.

(** ** [del l[k]] removes that element from its parent, with the text after it; attributes and text cannot be removed *)
Theorem C91_delitem : forall E e k d l, readable E e = true -> node_set e = true -> attributes_distinct d -> listing E e d l ->
  (forall i a j n, at_index k (List.length l) = Some i -> nth_error l i = Some (IElem (a ++ [j]) n) -> list_delitem E e k d = (upd_at a (remove_kid j) d, Ret tt)) /\
  (forall i x, at_index k (List.length l) = Some i -> nth_error l i = Some x -> (forall a n, x <> IElem a n) -> list_delitem E e k d = (d, Exc XType)) /\
  (at_index k (List.length l) = None -> list_delitem E e k d = (d, Exc XIndex)).
Proof.
  intros E e k d l R P D L. destruct (listing_matches E e d l R P D L) as [M _].
  assert (S0 : forall i x, at_index k (List.length l) = Some i -> nth_error l i = Some x -> list_delitem E e k d = match item_pos x with Ret (a, j) => (upd_at a (remove_kid j) d, Ret tt) | Exc y => (d, Exc y) end).
  { intros i x Hk Hi. unfold list_delitem. unfold bind at 1, reading. rewrite M. rewrite at_index_py in Hk. pose proof Hk as Hk'. unfold py_idx in Hk'. unfold py_nth. rewrite Hk, Hi.
    destruct (Z.leb_spec (Z.of_nat (List.length l)) k) as [X|X].
    - exfalso. destruct (Z.leb_spec 0 k); [|lia]. destruct (Z.ltb_spec k (Z.of_nat (List.length l))); [lia|discriminate].
    - destruct (item_pos x) as [[a j]|y]; reflexivity. }
  split; [|split].
  - intros i a j n Hk Hi. rewrite (S0 i _ Hk Hi). cbn [item_pos]. rewrite rev_app_distr. cbn [rev app]. now rewrite rev_involutive.
  - intros i x Hk Hi Hx. rewrite (S0 i _ Hk Hi). destruct x as [a n| |]; [now destruct (Hx a n)|reflexivity|reflexivity].
  - intros Hk. unfold list_delitem. unfold bind at 1, reading. rewrite M. rewrite at_index_py in Hk. unfold py_nth. rewrite Hk. destruct (Z.leb _ k); reflexivity.
Qed.

(** ** nothing can be added through '//', '|', a filter expression or the axes self, descendant and descendant-or-self: refused, changing nothing *)
Lemma no_build E e ctx k d : no_creation e -> exists x, build E Create e ctx k d = (d, Exc x).
Proof.
  intros [l r|l r|b ps|ax p n ps Hax]; [eexists; reflexivity|eexists; reflexivity|eexists; reflexivity|]. cbn [build]. destruct (forallb constructible ps); [|eexists; reflexivity].
  destruct Hax as [->|[->| ->]]; eexists; reflexivity.
Qed.
Lemma no_build_bind {A} E e ctx k d (f : option ref -> M A) : no_creation e -> exists x, bind (build E Create e ctx k) f d = (d, Exc x).
Proof. intros N0. destruct (no_build E e ctx k d N0) as [x Hx]. exists x. unfold bind. now rewrite Hx. Qed.
Theorem C91_no_append : forall E e m (v : pyval) d, no_creation e -> exists x, list_append E e m v d = (d, Exc x).
Proof.
  intros E e m v d Nc. unfold list_append, bind, reading. unfold list_len. destruct (list_data E e m d) as [vs|x] eqn:Hd; cbn [rmap]; [|eexists; reflexivity].
  unfold list_setitem, bind at 1, reading. unfold list_data in Hd. destruct (matches E e d) as [l|x]; [|discriminate]. rewrite (mapR_length _ _ _ Hd), Z.eqb_refl. unfold bind at 1. destruct (last_item l) as [i|].
  - destruct (item_pos i) as [[a p]|x]; [|eexists; reflexivity]. destruct (no_build E e (Some doc_root) (Some (p + 1)) d Nc) as [x Hx]. rewrite Hx. eexists. reflexivity.
  - destruct (no_build E e (Some doc_root) None d Nc) as [x Hx]. rewrite Hx. eexists. reflexivity.
Qed.
Theorem C91_no_insert : forall E e m k (v : pyval) d, no_creation e -> exists x, list_insert E e m k v d = (d, Exc x).
Proof.
  intros E e m k v d Nc. unfold list_insert. unfold bind at 1, reading. destruct (list_len E e m d) as [n|x]; [|eexists; reflexivity]. destruct (Z.eqb k (Z.of_nat n)); [apply C91_no_append; exact Nc|].
  unfold bind at 1. destruct (matches E e d) as [l|x]; [|eexists; reflexivity]. destruct (Z.ltb k (Z.of_nat (List.length l))); [|eexists; reflexivity]. destruct (py_nth k l) as [i|]; [|eexists; reflexivity].
  destruct (item_pos i) as [[a p]|x]; [|eexists; reflexivity]. apply no_build_bind. exact Nc.
Qed.

(** ** [obj.list = us] with as many values: the list then reads exactly those; with more values, and nowhere to put them: the first ones are written and the rest refused *)
Definition reads_list (E : env) (e : expr) (m : mapper) (d : node) (vs : list pyval) : Prop :=
  attributes_distinct d /\ list_data E e m d = Ret vs /\ exists l, listing E e d l /\ Forall leaf l.
Lemma reads_len E e m d vs l : readable E e = true -> node_set e = true -> attributes_distinct d -> list_data E e m d = Ret vs -> listing E e d l -> List.length vs = List.length l.
Proof. intros R P D H L. destruct (listing_matches E e d l R P D L) as [M _]. unfold list_data in H. rewrite M in H. exact (mapR_length _ _ _ H). Qed.
Lemma set_one E e m k v d vs i : readable E e = true -> node_set e = true -> blind E None e = true -> reads_list E e m d vs -> storable m v -> at_index k (List.length vs) = Some i ->
  exists d', list_setitem E e m k v d = (d', Ret tt) /\ reads_list E e m d' (replace_at i v vs).
Proof.
  intros R P B (D & Hd & l & L & Lf) St Hk. rewrite (reads_len E e m d vs l R P D Hd L) in Hk. pose proof (at_index_lt _ _ _ Hk) as Li.
  destruct (nth_error l i) as [it|] eqn:Hi; [|apply nth_error_None in Hi; lia]. pose proof (proj1 (Forall_forall _ _) Lf it (nth_error_In _ _ Hi)) as (a & q & ats & t & ->). pose proof St as (s & Hs & Vs & _).
  destruct (C91_setitem E e m k v s d l i a _ R P D L Hk Hi Hs) as (C & _ & _). destruct (C eq_refl (proj1 (xml_valid_iff s) Vs)) as (d' & Hset & _). exists d'. split; [exact Hset|].
  destruct (C91_set_get E e m k v d d' l vs i R P D L Lf B St Hk Hd Hset) as (Hd' & D' & l' & L' & Lf' & _). split; [exact D'|]. split; [exact Hd'|]. now exists l'.
Qed.
Lemma set_many E e m : readable E e = true -> node_set e = true -> blind E None e = true -> forall us (ws vs : list pyval) d, reads_list E e m d (ws ++ vs) -> Forall (storable m) us -> List.length us <= List.length vs ->
  exists d', set_all E e m (List.length ws) us d = (d', Ret tt) /\ reads_list E e m d' (ws ++ us ++ skipn (List.length us) vs).
Proof.
  intros R P B us. induction us as [|v us IH]; intros ws vs d Hr St Hl; [exists d; split; [reflexivity|exact Hr]|]. destruct vs as [|w vs]; [cbn in Hl; lia|]. inversion St as [|? ? S1 S2]; subst.
  assert (Hk : at_index (Z.of_nat (List.length ws)) (List.length (ws ++ w :: vs)) = Some (List.length ws)) by (apply at_index_nat; rewrite app_length; cbn [List.length]; lia).
  destruct (set_one E e m _ v d _ _ R P B Hr S1 Hk) as (d1 & H1 & R1). assert (Er : replace_at (List.length ws) v (ws ++ w :: vs) = (ws ++ [v]) ++ vs).
  { unfold replace_at. rewrite firstn_app, Nat.sub_diag, firstn_all. cbn [firstn]. rewrite app_nil_r. rewrite skipn_app. rewrite skipn_all2 by lia. replace (S (List.length ws) - List.length ws) with 1 by lia. cbn [skipn app]. now rewrite <- app_assoc. }
  rewrite Er in R1. cbn [List.length] in Hl. destruct (IH (ws ++ [v]) vs d1 R1 S2) as (d2 & H2 & R2); [lia|]. exists d2. split.
  - cbn [set_all]. unfold bind at 1. rewrite H1. rewrite app_length in H2. cbn [List.length] in H2. rewrite Nat.add_1_r in H2. exact H2.
  - cbn [List.length skipn]. rewrite <- app_assoc in R2. exact R2.
Qed.
Theorem C91_assign : forall E e m us vs d, readable E e = true -> node_set e = true -> blind E None e = true -> reads_list E e m d vs -> Forall (storable m) us -> List.length us = List.length vs ->
  exists d', lmgr_set E e m us d = (d', Ret tt) /\ reads_list E e m d' us.
Proof.
  intros E e m us vs d R P B Hr St Hl. destruct (set_many E e m R P B us [] vs d Hr St) as (d' & H1 & R1); [lia|]. cbn [app List.length] in H1, R1. rewrite Hl, skipn_all, app_nil_r in R1. exists d'. split; [|exact R1].
  unfold lmgr_set. unfold bind at 1. rewrite H1. destruct R1 as (_ & Hd & _). unfold bind, reading, list_len. rewrite Hd. cbn [rmap]. destruct us as [|v us]; cbn [trim List.length]; unfold bind, reading, list_len; rewrite Hd; cbn [rmap List.length]; now rewrite Nat.ltb_irrefl.
Qed.
Theorem C91_assign_longer : forall E e m us vs w ws d, readable E e = true -> node_set e = true -> blind E None e = true -> no_creation e -> reads_list E e m d vs -> Forall (storable m) us -> List.length us = List.length vs ->
  exists d' x, lmgr_set E e m (us ++ w :: ws) d = (d', Exc x) /\ reads_list E e m d' us.
Proof.
  intros E e m us vs w ws d R P B Nc Hr St Hl. destruct (set_many E e m R P B us [] vs d Hr St) as (d' & H1 & R1); [lia|]. cbn [app List.length] in H1, R1. rewrite Hl, skipn_all, app_nil_r in R1. exists d'.
  assert (Sa : forall us i d0 d1, set_all E e m i us d0 = (d1, Ret tt) -> set_all E e m i (us ++ w :: ws) d0 = set_all E e m (i + List.length us) (w :: ws) d1).
  { clear. induction us as [|v us IH]; intros i d0 d1 H; cbn [app List.length]; [cbn [set_all] in H; injection H as <-; now rewrite Nat.add_0_r|]. cbn [set_all] in H. unfold bind at 1 in H. destruct (list_setitem E e m (Z.of_nat i) v d0) as [d2 [[]|x]] eqn:Hs; [|discriminate].
    change (set_all E e m i (v :: (us ++ w :: ws)) d0) with (bind (list_setitem E e m (Z.of_nat i) v) (fun _ => set_all E e m (S i) (us ++ w :: ws)) d0). unfold bind at 1. rewrite Hs, (IH (S i) d2 d1 H). now rewrite Nat.add_succ_comm. }
  assert (Ap : exists x, set_all E e m (List.length us) (w :: ws) d' = (d', Exc x)).
  { destruct (C91_no_append E e m w d' Nc) as [x Hx]. exists x. cbn [set_all]. unfold bind at 1. unfold list_append, bind at 1, reading, list_len in Hx. destruct R1 as (_ & Hd & _). rewrite Hd in Hx. cbn [rmap] in Hx. now rewrite Hx. }
  destruct Ap as [x Hx]. exists x. split; [|exact R1]. unfold lmgr_set. unfold bind at 1. rewrite (Sa us 0 d d' H1). rewrite Nat.add_0_l. now rewrite Hx.
Qed.

(** ** concrete cases *)
Open Scope string_scope.
Lemma listing_eval E e d l : readable E e = true -> node_set e = true -> attributes_distinct d -> matches E e d = Ret l -> listing E e d l.
Proof. intros R P D M. destruct (listing_exists E e d R P D) as [l' L]. destruct (listing_matches E e d l' R P D L) as [M' _]. rewrite M in M'. now injection M' as ->. Qed.
Definition strs (l : list string) : list pyval := map (fun x => PStr (u x)) l.
Lemma sto (s : str) : xml_valid s = true -> storable (MString false) (PStr s).
Proof. intros V. exists s. split; [reflexivity|]. split; [exact V|]. intros q ats. cbn. now rewrite app_nil_r. Qed.
(** the item found anywhere is written where it stands; beyond the list: IndexError *)
Example C91_setitem_case : can ".//t" /\ listing E0 (xp ".//t") desk [IElem [0; 0]%nat (el "t" [] "x" []); IElem [1; 0]%nat (el "t" [("id", "7")] "y" [])] /\ at_index (-1) 2 = Some 1%nat /\
  (exists d', list_setitem E0 (xp ".//t") (MString false) (-1) (PStr (u "q")) desk = (d', Ret tt) /\ same_except [1; 0]%nat desk d' /\ list_data E0 (xp ".//t") (MString false) d' = Ret (strs ["x"; "q"])) /\
  list_setitem E0 (xp ".//t") (MString false) 7 (PStr (u "q")) desk = (desk, Exc XIndex).
Proof.
  assert (C : can ".//t") by can. split; [exact C|]. destruct C as (_ & R & P & D). assert (L : listing E0 (xp ".//t") desk [IElem [0; 0]%nat (el "t" [] "x" []); IElem [1; 0]%nat (el "t" [("id", "7")] "y" [])]) by (apply listing_eval; [exact R|exact P|exact D|vm_compute; reflexivity]).
  split; [exact L|]. split; [reflexivity|]. split.
  - destruct (C91_setitem E0 (xp ".//t") (MString false) (-1) (PStr (u "q")) (u "q") desk _ 1%nat _ _ R P D L eq_refl eq_refl eq_refl) as (A & _). destruct A as (d' & H & S1 & _); [reflexivity|apply xml_valid_iff; vm_compute; reflexivity|]. exists d'. split; [exact H|]. split; [exact S1|].
    assert (X : d' = fst (list_setitem E0 (xp ".//t") (MString false) (-1) (PStr (u "q")) desk)) by now rewrite H. rewrite X. vm_compute. reflexivity.
  - now apply (C91_setitem_range E0 (xp ".//t") (MString false) 7 (PStr (u "q")) desk _ R P D L).
Qed.
(** attributes anywhere: [.//@id] *)
Example C91_attribute_case : can ".//@id" /\ ends_in (xp ".//@id") (EStep (Some (u "@")) (NameTest None (u "id")) []) /\ list_data E0 (xp ".//@id") (MString false) desk = Ret (strs ["7"; "8"]) /\
  (exists d', list_setitem E0 (xp ".//@id") (MString false) 1 (PStr (u "9")) desk = (d', Ret tt) /\ list_data E0 (xp ".//@id") (MString false) d' = Ret (strs ["7"; "9"])) /\ list_delitem E0 (xp ".//@id") 0 desk = (desk, Exc XType).
Proof. assert (C : can ".//@id") by can. split; [exact C|]. split; [apply ends_step; vm_compute; reflexivity|]. split; [vm_compute; reflexivity|]. split; [eexists; split; vm_compute; reflexivity|vm_compute; reflexivity]. Qed.
(** refusals: no item can be made for such an XPath *)
Example C91_refused_case : no_creation (xp ".//t") /\ no_creation (xp "a/t|b/w") /\ list_append E0 (xp ".//t") (MString false) (PStr (u "q")) desk = (desk, Exc XMissing) /\ list_data E0 (xp ".//t") (MString false) desk = Ret (strs ["x"; "y"]).
Proof. split; [apply ends_deaf_ok; vm_compute; reflexivity|]. split; [apply ends_deaf_ok; vm_compute; reflexivity|]. split; vm_compute; reflexivity. Qed.
(** assigning as many values, and one more *)
Example C91_assign_case : (exists d', lmgr_set E0 (xp ".//t") (MString false) (strs ["p"; "q"]) desk = (d', Ret tt) /\ list_data E0 (xp ".//t") (MString false) d' = Ret (strs ["p"; "q"])) /\
  (exists d', lmgr_set E0 (xp ".//t") (MString false) (strs ["p"; "q"; "r"]) desk = (d', Exc XMissing) /\ list_data E0 (xp ".//t") (MString false) d' = Ret (strs ["p"; "q"])) /\ blind E0 None (xp ".//t") = true /\ storable (MString false) (PStr (u "p")).
Proof. split; [eexists; split; vm_compute; reflexivity|]. split; [eexists; split; vm_compute; reflexivity|]. split; [vm_compute; reflexivity|apply sto; vm_compute; reflexivity]. Qed.
Close Scope string_scope.
Print Assumptions C91_setitem.
Print Assumptions C91_setitem_range.
Print Assumptions C91_set_get.
Print Assumptions C91_setitem_attribute.
Print Assumptions C91_delitem.
Print Assumptions C91_no_append.
Print Assumptions C91_no_insert.
Print Assumptions C91_assign.
Print Assumptions C91_assign_longer.
