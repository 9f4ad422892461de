(** C92: a list field with any XPath of steps, '/', '//' and '|' (predicates looking only at attributes) is a Python list that cannot grow
    (xmlmap/fields.py:661-846).  Also where eulxml cannot create nodes: './/title', 'a|b/c', './/date[@type = "x"]'. *)
From Coq Require Import String Arith ZArith NArith List Lia Bool.
From Verif Require Import FieldUndo MapperProofs FieldRefuse Props_Fields Props_Mappers NodeList ListSpec ListOps ListFacts ListSim ReadSpec EvalSpec EvalMeaning EvalOrder EvalMain EvalValues EvalFuns EvalAgree Shipped EnvAgree Props_Shipped EvalBlind Props_Eval Props_Write Props_WriteList EvalRemove.
From Verif Require Import XPathEval FieldSpec DocSpec ListSpec XPathRead EvalSpec.
Import ListNotations.

(** an element, not the object's own *)
Definition below (i : item) : Prop := exists a k n, i = IElem (a ++ [k]) n.
(** none of the nodes is inside another *)
Definition apart (l : list item) : Prop := forall b n r n', In (IElem b n) l -> In (IElem (b ++ r) n') l -> r = [].
(** an element without child elements, not the object's own *)
Definition inner (i : item) : Prop := exists a k q ats t, i = IElem (a ++ [k]) (Elem q ats t []).
Lemma inner_leaf l : Forall inner l -> Forall leaf l.
Proof. intros H. eapply Forall_impl; [|exact H]. intros i (a & k & q & ats & t & ->). now exists (a ++ [k]), q, ats, t. Qed.

Lemma lifts_parts d a j x z : lifts d a j x z -> exists c n' n, x = IElem c n' /\ z = IElem (un a j c) n /\ get_at c (upd_at a (remove_kid j) d) = Some n' /\ get_at (un a j c) d = Some n.
Proof. intros [c n' n H G]. now exists c, n', n. Qed.
Lemma lifts_one d a j x y z : lifts d a j x z -> lifts d a j y z -> x = y.
Proof. intros H1 H2. apply lifts_parts in H1 as (c & n' & n & -> & -> & H & _). apply lifts_parts in H2 as (c2 & n2' & n2 & -> & E1 & H' & _). injection E1 as E1 _. apply un_inj in E1. subst c2. congruence. Qed.
Lemma in_firstn' {A} (x : A) i l : In x (firstn i l) -> In x l.
Proof. intros H. rewrite <- (firstn_skipn i l). apply in_or_app. now left. Qed.
Lemma in_skipn' {A} (x : A) i l : In x (skipn i l) -> In x l.
Proof. intros H. rewrite <- (firstn_skipn i l). apply in_or_app. now right. Qed.
Lemma in_remove {A} (x : A) i l : In x (remove_nth i l) -> In x l.
Proof. unfold remove_nth. intros H. apply in_app_or in H as [H|H]; [eapply in_firstn'|eapply in_skipn']; exact H. Qed.
Lemma remove_in {A} (x : A) l : NoDup l -> forall i y, nth_error l i = Some y -> (In x (remove_nth i l) <-> In x l /\ x <> y).
Proof.
  induction 1 as [|z l Nz Nd IH]; intros i y Hi; [destruct i; discriminate|]. destruct i as [|i].
  - injection Hi as ->. change (remove_nth 0 (y :: l)) with l. cbn [In]. split; [intros H; split; [now right|intros ->; contradiction]|]. intros [[->|H] Ne]; [now destruct Ne|exact H].
  - change (remove_nth (S i) (z :: l)) with (z :: remove_nth i l). cbn [nth_error] in Hi. cbn [In]. rewrite (IH i y Hi). split.
    + intros [->|[H Ne]]; [|tauto]. split; [now left|]. intros ->. apply Nz. eapply nth_error_In. exact Hi.
    + tauto.
Qed.
Lemma order_remove d l : document_order d l -> forall i, document_order d (remove_nth i l).
Proof.
  induction 1 as [|x l Hr F O IH]; intros i; [unfold remove_nth; rewrite firstn_nil, skipn_nil; constructor|]. destruct i as [|i]; [exact O|]. change (remove_nth (S i) (x :: l)) with (x :: remove_nth i l). constructor; [exact Hr| |apply IH].
  apply Forall_forall. intros k Hk. rewrite Forall_forall in F. apply F. unfold remove_nth in Hk. apply in_app_or in Hk as [Hk|Hk]; [eapply in_firstn'|eapply in_skipn']; exact Hk.
Qed.

(** ** the nodes selected after one of them has been removed: the others *)
Lemma inner_apart E e d l : listing E e d l -> Forall inner l -> Forall below l /\ apart l.
Proof.
  intros L I0. split; [eapply Forall_impl; [|exact I0]; intros i (a & k & q & ats & t & ->); now exists a, k, (Elem q ats t [])|]. intros b n r n' H H'. pose proof (listing_get E e d l _ _ L H) as G. pose proof (listing_get E e d l _ _ L H') as G'. rewrite get_app, G in G'.
  pose proof (proj1 (Forall_forall _ _) I0 _ H) as (a & k & q & ats & t & E0). injection E0 as -> ->. destruct r as [|x r]; [reflexivity|]. cbn [get_at kids_of] in G'. destruct x; discriminate.
Qed.
Lemma removed_listing E e d a j l i n : attributes_distinct d -> readable E e = true -> node_set e = true -> plain e = true -> listing E e d l -> Forall below l -> apart l -> nth_error l i = Some (IElem (a ++ [j]) n) ->
  exists l', listing E e (upd_at a (remove_kid j) d) l' /\ Forall2 (lifts d a j) l' (remove_nth i l).
Proof.
  intros D R P Pl L In0 Ap Hi. set (d' := upd_at a (remove_kid j) d). destruct (listing_matches E e d l R P D L) as [_ Nd]. pose proof L as [O M]. assert (D' : attributes_distinct d') by exact (removed_distinct d a j D).
  assert (Lr : lifts d a j (IElem [] d') (IElem [] d)) by (change (IElem [] d) with (IElem (un a j []) d); constructor; reflexivity).
  pose proof (listing_get E e d l _ _ L (nth_error_In _ _ Hi)) as G.
  assert (St : forall x, In x (remove_nth i l) -> stays a j x).
  { intros x Hx [r Hr]. apply (remove_in x l Nd i _ Hi) in Hx as [Hx Ne]. pose proof (proj1 (Forall_forall _ _) In0 _ Hx) as (a0 & k0 & n0 & ->). pose proof (listing_get E e d l _ _ L Hx) as Gx. cbn [place_of] in Hr. rewrite Hr in *.
    change (a ++ j :: r) with (a ++ [j] ++ r) in *. rewrite app_assoc in *. pose proof (Ap _ _ _ _ (nth_error_In _ _ Hi) Hx) as ->. rewrite app_nil_r in *. apply Ne. congruence. }
  assert (B : exists l', Forall2 (lifts d a j) l' (remove_nth i l) /\ forall x, In x l' -> picks E e d' x).
  { assert (Pk : forall x, In x (remove_nth i l) -> picks E e d x) by (intros x Hx; apply M; eapply in_remove; exact Hx). revert St Pk. generalize (remove_nth i l). induction l0 as [|x l0 IH]; intros St Pk; [exists []; split; [constructor|intros x []]|].
    destruct IH as (l' & F & Hp); [intros y Hy; apply St; now right|intros y Hy; apply Pk; now right|]. destruct (sim_down E d a j D e Pl R _ _ 1 1 x Lr (Pk x (or_introl eq_refl)) (St x (or_introl eq_refl))) as (x' & Lx & Hx).
    exists (x' :: l'). split; [now constructor|]. intros y [<-|Hy]; [exact Hx|now apply Hp]. }
  destruct B as (l' & F & Hp). exists l'. split; [|exact F]. split.
  - assert (Or : document_order d (remove_nth i l)) by now apply order_remove. revert F Or. generalize (remove_nth i l). clear. intros l0 F Or. induction F as [|x' x l' l Lx F IH]; [constructor|]. inversion Or as [|? ? _ Fp Or']; subst. constructor; [|clear IH|now apply IH].
    + apply lifts_parts in Lx as (c & n' & n & -> & _ & H & _). exists (to_elem c). now constructor.
    + apply Forall_forall. intros y' Hy. assert (Hy2 : exists y, In y l /\ lifts d a j y' y).
      { clear -F Hy. revert F Hy. generalize l as l0. clear. intros l0 F Hy. induction F as [|z' z l' l Lz _ IH]; [destruct Hy|]. destruct Hy as [->|Hy]; [exists z; split; [now left|exact Lz]|]. destruct (IH Hy) as (y & H1 & H2). exists y. split; [now right|exact H2]. }
      destruct Hy2 as (y & Hy2 & Ly). rewrite Forall_forall in Fp. destruct (Fp y Hy2) as (r & r' & R1 & R2 & Bf). apply lifts_parts in Lx as (c & n' & n & -> & -> & H & _). apply lifts_parts in Ly as (c2 & n2' & n2 & -> & -> & H2 & _).
      inversion R1; subst. inversion R2; subst. exists (to_elem c), (to_elem c2). split; [now constructor|]. split; [now constructor|]. eapply un_before. exact Bf.
  - intros x'. split; [apply Hp|]. intros Hx. destruct (sim_up E d a j D e Pl R _ _ 1 1 x' Lr Hx) as (x & Lx & Hx2). apply M in Hx2. assert (Hr : In x (remove_nth i l)).
    { apply (remove_in x l Nd i _ Hi). split; [exact Hx2|]. intros ->. apply lifts_parts in Lx as (c & n' & n0 & -> & E1 & _). injection E1 as E1 _. apply (un_kept j c a). rewrite <- E1. now exists []. }
    revert F Hr. generalize (remove_nth i l). clear -Lx. intros l0 F Hr. induction F as [|z' z l' l Lz _ IH]; [destruct Hr|]. destruct Hr as [->|Hr]; [left; eapply lifts_one; eassumption|right; now apply IH].
Qed.

(** ** the list field holds the values [vs], all in elements of their own *)
Definition reads_inner (E : env) (e : expr) (m : mapper) (d : node) (vs : list pyval) : Prop :=
  attributes_distinct d /\ list_data E e m d = Ret vs /\ exists l, listing E e d l /\ Forall inner l.
Lemma inner_reads E e m d vs : reads_inner E e m d vs -> reads_list E e m d vs.
Proof. intros (D & H & l & L & I0). split; [exact D|]. split; [exact H|]. exists l. split; [exact L|now apply inner_leaf]. Qed.
(** ... or in elements none of which is inside another *)
Definition reads_apart (E : env) (e : expr) (m : mapper) (d : node) (vs : list pyval) : Prop :=
  attributes_distinct d /\ list_data E e m d = Ret vs /\ exists l, listing E e d l /\ Forall below l /\ apart l.
Lemma del_one E e m k d vs l i : readable E e = true -> node_set e = true -> plain e = true -> attributes_distinct d -> list_data E e m d = Ret vs -> listing E e d l -> Forall below l -> apart l -> at_index k (List.length vs) = Some i ->
  exists d' l', list_delitem E e k d = (d', Ret tt) /\ attributes_distinct d' /\ list_data E e m d' = Ret (without i vs) /\ listing E e d' l' /\ Forall below l' /\ apart l' /\ Forall2 (fun x' x => item_in x' = item_in x) l' (remove_nth i l).
Proof.
  intros R P Pl D Hd L I0 Ap Hk. rewrite (reads_len E e m d vs l R P D Hd L) in Hk. pose proof (at_index_lt _ _ _ Hk) as Li.
  destruct (nth_error l i) as [it|] eqn:Hi; [|apply nth_error_None in Hi; lia]. pose proof (proj1 (Forall_forall _ _) I0 it (nth_error_In _ _ Hi)) as (a & j & n & ->).
  destruct (C91_delitem E e k d l R P D L) as (C & _ & _). exists (upd_at a (remove_kid j) d). destruct (removed_listing E e d a j l i _ D R P Pl L I0 Ap Hi) as (l' & L' & F). exists l'. split; [exact (C i a j _ Hk Hi)|].
  pose proof (removed_distinct d a j D) as D'. destruct (listing_matches E e d l R P D L) as [M Nd]. destruct (listing_matches E e _ l' R P D' L') as [M' _]. split; [exact D'|].
  assert (Same : Forall2 (fun x' x => item_in x' = item_in x) l' (remove_nth i l)).
  { assert (Ir : forall x, In x (remove_nth i l) -> forall b n0 r, x = IElem b n0 -> b ++ r <> a).
    { intros x Hx b n0 r -> Hr. apply (remove_in _ l Nd i _ Hi) in Hx as [Hx Ne]. subst a. pose proof (nth_error_In _ _ Hi) as Hin. rewrite <- app_assoc in Hin. pose proof (Ap _ _ _ _ Hx Hin) as Er. destruct r; discriminate. }
    clear -F Ir. revert F Ir. generalize (remove_nth i l). clear. intros l0 F Ir.
    induction F as [|x' x l' l Lx F IH]; [constructor|]. constructor; [|apply IH; intros y Hy; apply Ir; now right]. apply lifts_parts in Lx as (c & n' & n & -> & -> & H & G).
    rewrite un_same in H by (intros r; eapply (Ir _ (or_introl eq_refl)); reflexivity). cbn [item_in]. congruence. }
  split; [|split; [exact L'|split; [|split]]].
  - unfold list_data in *. rewrite M in Hd. rewrite M'. change (without i vs) with (remove_nth i vs). pose proof (mapR_remove _ i _ _ Hd) as Hr. rewrite <- Hr. clear -Same. induction Same as [|x' x l' l0 Hx _ IH]; [reflexivity|]. cbn [mapR]. now rewrite Hx, IH.
  - assert (Ir : forall x, In x (remove_nth i l) -> below x) by (intros x Hx; rewrite Forall_forall in I0; apply I0; eapply in_remove; exact Hx). revert F Ir. generalize (remove_nth i l). clear. intros l0 F Ir.
    induction F as [|x' x l' l Lx F IH]; [constructor|]. constructor; [|apply IH; intros y Hy; apply Ir; now right]. destruct (Ir x (or_introl eq_refl)) as (b & k & n1 & Ex). apply lifts_parts in Lx as (c & n' & n & -> & -> & H & G). injection Ex as Ec _.
    destruct (rev c) as [|k0 r] eqn:Er.
    + assert (c = []) as -> by (rewrite <- (rev_involutive c), Er; reflexivity). cbn [un] in Ec. destruct b; discriminate.
    + assert (c = rev r ++ [k0]) as -> by (rewrite <- (rev_involutive c), Er; reflexivity). now exists (rev r), k0, n'.
  - assert (Back : forall x', In x' l' -> exists x, In x l /\ lifts d a j x' x).
    { assert (Ir : forall x, In x (remove_nth i l) -> In x l) by (intros x; apply in_remove). revert F Ir. generalize (remove_nth i l). clear. intros l0 F Ir x' Hx. induction F as [|z' z l' l0 Lz _ IH]; [destruct Hx|]. destruct Hx as [->|Hx]; [exists z; split; [apply Ir; now left|exact Lz]|].
      apply IH; [intros y Hy; apply Ir; now right|exact Hx]. }
    intros b m1 r m2 H1 H2. destruct (Back _ H1) as (x1 & X1 & L1). destruct (Back _ H2) as (x2 & X2 & L2). apply lifts_parts in L1 as (c1 & n1' & n1 & E1 & -> & _). apply lifts_parts in L2 as (c2 & n2' & n2 & E2 & -> & _).
    injection E1 as -> _. injection E2 as <- _. destruct (un_app j a r c1) as (r' & Er & Hl). rewrite Er in X2. pose proof (Ap _ _ _ _ X1 X2) as ->. destruct r; [reflexivity|discriminate].
  - exact Same.
Qed.
(** [del l[k]] takes that item out of the list and no other: also items with child elements (NodeListField), if none is inside another *)
Theorem C92_delitem_nodes : forall E e m k d vs i, readable E e = true -> node_set e = true -> plain e = true -> reads_apart E e m d vs -> at_index k (List.length vs) = Some i ->
  exists d', list_delitem E e k d = (d', Ret tt) /\ reads_apart E e m d' (without i vs).
Proof.
  intros E e m k d vs i R P Pl (D & Hd & l & L & I0 & Ap) Hk. destruct (del_one E e m k d vs l i R P Pl D Hd L I0 Ap Hk) as (d' & l' & H1 & D' & Hd' & L' & I' & Ap' & _). exists d'. split; [exact H1|]. split; [exact D'|]. split; [exact Hd'|]. now exists l'.
Qed.
Theorem C92_delitem : forall E e m k d vs i, readable E e = true -> node_set e = true -> plain e = true -> reads_inner E e m d vs -> at_index k (List.length vs) = Some i ->
  exists d', list_delitem E e k d = (d', Ret tt) /\ reads_inner E e m d' (without i vs).
Proof.
  intros E e m k d vs i R P Pl (D & Hd & l & L & I0) Hk. destruct (inner_apart E e d l L I0) as [Bl Ap]. destruct (del_one E e m k d vs l i R P Pl D Hd L Bl Ap Hk) as (d' & l' & H1 & D' & Hd' & L' & I' & _ & F). exists d'. split; [exact H1|]. split; [exact D'|]. split; [exact Hd'|].
  exists l'. split; [exact L'|]. assert (Ir : forall x, In x (remove_nth i l) -> inner x) by (intros x Hx; rewrite Forall_forall in I0; apply I0; eapply in_remove; exact Hx). clear -F Ir I'. revert F Ir I'. generalize (remove_nth i l). clear. intros l0 F Ir I'.
  induction F as [|x' x l' l Lx F IH]; [constructor|]. inversion I' as [|? ? B1 B2]; subst. constructor; [|apply IH; [intros y Hy; apply Ir; now right|exact B2]]. destruct (Ir x (or_introl eq_refl)) as (b & k & q & ats & t & ->). destruct B1 as (b' & k' & n' & ->).
  cbn [item_in] in Lx. injection Lx as ->. now exists b', k', q, ats, t.
Qed.
Lemma set_inner E e m k v d vs i : readable E e = true -> node_set e = true -> blind E None e = true -> reads_inner E e m d vs -> storable m v -> at_index k (List.length vs) = Some i ->
  exists d', list_setitem E e m k v d = (d', Ret tt) /\ reads_inner E e m d' (replace_at i v vs).
Proof.
  intros R P B Hr St Hk. destruct (set_one E e m k v d vs i R P B (inner_reads _ _ _ _ _ Hr) St Hk) as (d' & Hs & _). exists d'. split; [exact Hs|]. destruct Hr as (D & Hd & l & L & I0).
  pose proof (reads_len E e m d vs l R P D Hd L) as Hlen. rewrite Hlen in Hk. destruct (C91_set_get E e m k v d d' l vs i R P D L (inner_leaf _ I0) B St Hk Hd Hs) as (Hd' & D' & l' & L' & Lf & Pl).
  split; [exact D'|]. split; [exact Hd'|]. exists l'. split; [exact L'|]. apply Forall_forall. intros x Hx. pose proof (proj1 (Forall_forall _ _) Lf x Hx) as (b & q & ats & t & ->). assert (Hb : In b (map place_of l)) by (rewrite <- Pl; exact (in_map place_of _ _ Hx)).
  apply in_map_iff in Hb as (y & Hy & Iy). pose proof (proj1 (Forall_forall _ _) I0 y Iy) as (a & k0 & q0 & ats0 & t0 & ->). cbn [place_of] in Hy. subst b. now exists a, k0, q, ats, t.
Qed.
Lemma get_item E e m k d vs : readable E e = true -> node_set e = true -> attributes_distinct d -> list_data E e m d = Ret vs ->
  list_getitem E e m k d = match at_index k (List.length vs) with Some i => match nth_error vs i with Some v => Ret v | None => Exc XIndex end | None => Exc XIndex end.
Proof.
  intros R P D Hd. destruct (listing_exists E e d R P D) as [l L]. pose proof (reads_len E e m d vs l R P D Hd L) as Hlen. destruct (listing_matches E e d l R P D L) as [M _]. unfold list_getitem. rewrite M. unfold py_nth. rewrite <- at_index_py, <- Hlen. destruct (at_index k (List.length vs)) as [i|] eqn:Hi; [|reflexivity].
  pose proof (at_index_lt _ _ _ Hi) as Li. destruct (nth_error l i) as [x|] eqn:Hx; [|apply nth_error_None in Hx; lia]. unfold list_data in Hd. rewrite M in Hd. destruct (mapR_nth _ _ _ _ _ Hd Hx) as (y & -> & Hy). exact Hy.
Qed.
Lemma del_out E e m k d vs : readable E e = true -> node_set e = true -> attributes_distinct d -> list_data E e m d = Ret vs -> at_index k (List.length vs) = None -> list_delitem E e k d = (d, Exc XIndex).
Proof. intros R P D Hd Hk. destruct (listing_exists E e d R P D) as [l L]. rewrite (reads_len E e m d vs l R P D Hd L) in Hk. now apply (C91_delitem E e k d l R P D L). Qed.
Lemma len_inner E e m d vs : reads_inner E e m d vs -> list_len E e m d = Ret (List.length vs).
Proof. intros (_ & Hd & _). unfold list_len. now rewrite Hd. Qed.

(** ** removing: [del l[k]], [l.pop(k)], [l.remove(x)] *)
Definition taking_out (o : lop) : bool := match o with LDel _ | LPop _ | LRemove _ => true | _ => false end.
Lemma take_out (Inv : list pyval -> node -> Prop) E e m d vs o : readable E e = true -> node_set e = true -> attributes_distinct d -> list_data E e m d = Ret vs -> Inv vs d ->
  (forall k i, at_index k (List.length vs) = Some i -> exists d', list_delitem E e k d = (d', Ret tt) /\ Inv (without i vs) d') -> taking_out o = true ->
  exists d', field_op E e m o d = (d', snd (py_op o vs)) /\ Inv (fst (py_op o vs)) d'.
Proof.
  intros R P D Hd Hi Del To. assert (Hl : list_len E e m d = Ret (List.length vs)) by (unfold list_len; now rewrite Hd). destruct o as [k v|v|us|k|k|x]; try discriminate; cbn [py_op field_op].
  - destruct (at_index k (List.length vs)) as [i|] eqn:Hk; cbn [fst snd].
    + destruct (Del k i Hk) as (d' & Hs & Hr'). exists d'. split; [|exact Hr']. unfold quiet, bind. now rewrite Hs.
    + exists d. split; [|exact Hi]. unfold quiet, bind. now rewrite (del_out E e m k d vs R P D Hd Hk).
  - set (k0 := match k with Some k => k | None => (-1)%Z end) in *. assert (Hp : exists k1, at_index k1 (List.length vs) = at_index k0 (List.length vs) /\ list_pop E e m k d = bind (reading (list_getitem E e m k1)) (fun v => bind (list_delitem E e k1) (fun _ => ret v)) d).
    { destruct k as [k|]; [now exists k|]. exists (Z.of_nat (List.length vs) - 1)%Z. split; [|unfold list_pop, bind at 1 2, reading; rewrite Hl; reflexivity].
      unfold k0, at_index. cbv zeta. destruct (List.length vs) as [|n]; [reflexivity|]. destruct (Z.ltb_spec (Z.of_nat (S n) - 1) 0); [lia|]. change (-1 <? 0)%Z with true. cbn iota. replace (-1 + Z.of_nat (S n))%Z with (Z.of_nat (S n) - 1)%Z by lia. reflexivity. }
    destruct Hp as (k1 & Hk1 & Hp). destruct (at_index k0 (List.length vs)) as [i|] eqn:Hk; cbn [fst snd].
    + destruct (Del k1 i Hk1) as (d' & Hs & Hr'). exists d'. split; [|exact Hr']. unfold bind at 1. rewrite Hp. unfold bind at 1, reading. rewrite (get_item E e m k1 d vs R P D Hd), Hk1. pose proof (at_index_lt _ _ _ Hk) as Li.
      destruct (nth_error vs i) as [v|] eqn:Hv; [|apply nth_error_None in Hv; lia]. unfold bind. now rewrite Hs.
    + exists d. split; [|exact Hi]. unfold bind at 1. rewrite Hp. unfold bind at 1, reading. now rewrite (get_item E e m k1 d vs R P D Hd), Hk1.
  - assert (Hx : list_index E e m x d = match find_eq x vs with Some i => Ret i | None => Exc XValue end) by (unfold list_index; now rewrite Hd, index_find).
    destruct (find_eq x vs) as [i|] eqn:Hf; cbn [fst snd].
    + destruct (Del (Z.of_nat i) i (at_index_nat i _ (find_lt x vs i Hf))) as (d' & Hs & Hr'). exists d'. split; [|exact Hr']. unfold quiet, list_remove, bind, reading. now rewrite Hx, Hs.
    + exists d. split; [|exact Hi]. unfold quiet, list_remove, bind, reading. now rewrite Hx.
Qed.
Theorem C92_take_out : forall E e m d vs o, readable E e = true -> node_set e = true -> plain e = true -> reads_apart E e m d vs -> taking_out o = true ->
  exists d', field_op E e m o d = (d', snd (py_op o vs)) /\ reads_apart E e m d' (fst (py_op o vs)).
Proof.
  intros E e m d vs o R P Pl Hr To. pose proof Hr as (D & Hd & _). apply (take_out (fun vs d => reads_apart E e m d vs) E e m d vs o R P D Hd Hr); [|exact To]. intros k i Hk. now apply C92_delitem_nodes.
Qed.

(** ** every operation that does not make the list longer does what Python's list does *)
Theorem C92_operation : forall E e m d vs o, readable E e = true -> node_set e = true -> plain e = true -> blind E None e = true -> reads_inner E e m d vs -> (forall v, In v (op_values o) -> storable m v) ->
  List.length (fst (py_op o vs)) <= List.length vs ->
  exists d', field_op E e m o d = (d', snd (py_op o vs)) /\ reads_inner E e m d' (fst (py_op o vs)).
Proof.
  intros E e m d vs o R P Pl B Hr St Hle. destruct o as [k v|v|us|k|k|x]; cbn [py_op field_op] in *.
  - destruct (Z.eqb_spec k (Z.of_nat (List.length vs))) as [X|X]; [cbn [fst] in Hle; rewrite app_length in Hle; cbn [List.length] in Hle; lia|]. destruct (at_index k (List.length vs)) as [i|] eqn:Hk; cbn [fst snd].
    + destruct (set_inner E e m k v d vs i R P B Hr (St v (or_introl eq_refl)) Hk) as (d' & Hs & Hr'). exists d'. split; [|exact Hr']. unfold quiet, bind. now rewrite Hs.
    + exists d. split; [|exact Hr]. destruct Hr as (D & Hd & l & L & _). rewrite (reads_len E e m d vs l R P D Hd L) in *. unfold quiet, bind. now rewrite (C91_setitem_range E e m k v d l R P D L Hk X).
  - cbn [fst] in Hle. rewrite app_length in Hle. cbn [List.length] in Hle. lia.
  - cbn [fst snd] in *. rewrite app_length in Hle. destruct us as [|u0 us]; [|cbn [List.length] in Hle; lia]. exists d. rewrite app_nil_r. split; [reflexivity|exact Hr].
  - pose proof Hr as (D & Hd & _). apply (take_out (fun vs d => reads_inner E e m d vs) E e m d vs (LDel k) R P D Hd Hr); [|reflexivity]. intros k1 i Hk. now apply C92_delitem.
  - pose proof Hr as (D & Hd & _). apply (take_out (fun vs d => reads_inner E e m d vs) E e m d vs (LPop k) R P D Hd Hr); [|reflexivity]. intros k1 i Hk. now apply C92_delitem.
  - pose proof Hr as (D & Hd & _). apply (take_out (fun vs d => reads_inner E e m d vs) E e m d vs (LRemove x) R P D Hd Hr); [|reflexivity]. intros k1 i Hk. now apply C92_delitem.
Qed.
(** ** and one that would make it longer is refused, changing nothing, if the XPath cannot create *)
Theorem C92_growth : forall E e m d vs o, no_creation e -> readable E e = true -> node_set e = true -> reads_inner E e m d vs -> List.length vs < List.length (fst (py_op o vs)) -> exists x, field_op E e m o d = (d, Exc x).
Proof.
  intros E e m d vs o Nc R P Hr Hle. assert (Ap : forall v, exists x, list_append E e m v d = (d, Exc x)) by (intros v; now apply C91_no_append).
  destruct o as [k v|v|us|k|k|x]; cbn [py_op field_op] in *.
  - destruct (Z.eqb_spec k (Z.of_nat (List.length vs))) as [X|X].
    + destruct (Ap v) as [x Hx]. exists x. unfold list_append, bind at 1, reading in Hx. rewrite (len_inner E e m d vs Hr), <- X in Hx. unfold quiet, bind. now rewrite Hx.
    + destruct (at_index k (List.length vs)) as [i|] eqn:Hk; cbn [fst] in Hle; [|lia]. rewrite replace_length in Hle by exact (at_index_lt _ _ _ Hk). lia.
  - destruct (Ap v) as [x Hx]. exists x. unfold quiet, bind. now rewrite Hx.
  - cbn [fst] in Hle. rewrite app_length in Hle. destruct us as [|v us]; [cbn [List.length] in Hle; lia|]. destruct (Ap v) as [x Hx]. exists x. unfold quiet, list_extend. cbn [iterM]. unfold bind. now rewrite Hx.
  - destruct (at_index k (List.length vs)) as [i|]; cbn [fst] in Hle; [|lia]. unfold without in Hle. rewrite app_length, firstn_length, skipn_length in Hle. lia.
  - destruct (at_index _ (List.length vs)) as [i|]; cbn [fst] in Hle; [|lia]. unfold without in Hle. rewrite app_length, firstn_length, skipn_length in Hle. lia.
  - destruct (find_eq x vs) as [i|]; cbn [fst] in Hle; [|lia]. unfold without in Hle. rewrite app_length, firstn_length, skipn_length in Hle. lia.
Qed.

(** ** histories: a Python list that refuses to grow.  [None]: some exception *)
Definition fixed_op (o : lop) (l : list pyval) : list pyval * option (res (option pyval)) :=
  let (l2, r) := py_op o l in if Nat.leb (List.length l2) (List.length l) then (l2, Some r) else (l, None).
Fixpoint fixed_ops (os : list lop) (l : list pyval) : list pyval * list (option (res (option pyval))) :=
  match os with
  | [] => (l, [])
  | o :: os' => let (l1, r) := fixed_op o l in let (l2, rs) := fixed_ops os' l1 in (l2, r :: rs)
  end.
Definition outcome (r : res (option pyval)) (s : option (res (option pyval))) : Prop := match s with Some r' => r = r' | None => exists x, r = Exc x end.
Theorem C92_history : forall E e m os d vs, no_creation e -> readable E e = true -> node_set e = true -> plain e = true -> blind E None e = true -> reads_inner E e m d vs ->
  (forall o v, In o os -> In v (op_values o) -> storable m v) ->
  let (d', rs) := field_ops E e m os d in let (vs', ss) := fixed_ops os vs in reads_inner E e m d' vs' /\ Forall2 outcome rs ss.
Proof.
  intros E e m os. induction os as [|o os IH]; intros d vs Nc R P Pl B Hr St; cbn [field_ops fixed_ops]; [split; [exact Hr|constructor]|]. unfold fixed_op at 1.
  assert (S1 : exists d1 r, field_op E e m o d = (d1, r) /\ let (l2, r') := py_op o vs in if Nat.leb (List.length l2) (List.length vs) then r = r' /\ reads_inner E e m d1 l2 else d1 = d /\ exists x, r = Exc x).
  { destruct (Nat.le_gt_cases (List.length (fst (py_op o vs))) (List.length vs)) as [Le|Gt].
    - destruct (C92_operation E e m d vs o R P Pl B Hr (fun v Hv => St o v (or_introl eq_refl) Hv) Le) as (d1 & H1 & R1). exists d1, (snd (py_op o vs)). split; [exact H1|]. destruct (py_op o vs) as [l2 r']. cbn [fst snd] in *. apply Nat.leb_le in Le. rewrite Le. now split.
    - destruct (C92_growth E e m d vs o Nc R P Hr Gt) as [x Hx]. exists d, (Exc x). split; [exact Hx|]. destruct (py_op o vs) as [l2 r']. cbn [fst snd] in *. apply Nat.leb_gt in Gt. rewrite Gt. split; [reflexivity|now exists x]. }
  destruct S1 as (d1 & r & H1 & S1). rewrite H1. destruct (py_op o vs) as [l2 r']. assert (St' : forall o0 v, In o0 os -> In v (op_values o0) -> storable m v) by (intros o0 v Ho; apply St; now right).
  destruct (Nat.leb (List.length l2) (List.length vs)).
  - destruct S1 as [-> R1]. specialize (IH d1 l2 Nc R P Pl B R1 St'). destruct (field_ops E e m os d1) as [d2 rs]. destruct (fixed_ops os l2) as [vs' ss]. destruct IH as [IH1 IH2]. split; [exact IH1|]. constructor; [reflexivity|exact IH2].
  - destruct S1 as [-> Hx]. specialize (IH d vs Nc R P Pl B Hr St'). destruct (field_ops E e m os d) as [d2 rs]. destruct (fixed_ops os vs) as [vs' ss]. destruct IH as [IH1 IH2]. split; [exact IH1|]. constructor; [exact Hx|exact IH2].
Qed.

(** ** [obj.list = us] with at most as many values as there are: the list then reads [us]; [del obj.list] empties it *)
Lemma set_many_inner E e m : readable E e = true -> node_set e = true -> blind E None e = true -> forall us (ws vs : list pyval) d, reads_inner E e m d (ws ++ vs) -> Forall (storable m) us -> List.length us <= List.length vs ->
  exists d', set_all E e m (List.length ws) us d = (d', Ret tt) /\ reads_inner E e m d' (ws ++ us ++ skipn (List.length us) vs).
Proof.
  intros R P B us. induction us as [|v us IH]; intros ws vs d Hr St Hl; [exists d; split; [reflexivity|exact Hr]|]. destruct vs as [|w vs]; [cbn in Hl; lia|]. inversion St as [|? ? S1 S2]; subst.
  assert (Hk : at_index (Z.of_nat (List.length ws)) (List.length (ws ++ w :: vs)) = Some (List.length ws)) by (apply at_index_nat; rewrite app_length; cbn [List.length]; lia).
  destruct (set_inner E e m _ v d _ _ R P B Hr S1 Hk) as (d1 & H1 & R1). assert (Er : replace_at (List.length ws) v (ws ++ w :: vs) = (ws ++ [v]) ++ vs).
  { unfold replace_at. rewrite firstn_app, Nat.sub_diag, firstn_all. cbn [firstn]. rewrite app_nil_r. rewrite skipn_app. rewrite skipn_all2 by lia. replace (S (List.length ws) - List.length ws) with 1 by lia. cbn [skipn app]. now rewrite <- app_assoc. }
  rewrite Er in R1. cbn [List.length] in Hl. destruct (IH (ws ++ [v]) vs d1 R1 S2) as (d2 & H2 & R2); [lia|]. exists d2. split.
  - cbn [set_all]. unfold bind at 1. rewrite H1. rewrite app_length in H2. cbn [List.length] in H2. rewrite Nat.add_1_r in H2. exact H2.
  - cbn [List.length skipn]. rewrite <- app_assoc in R2. exact R2.
Qed.
Lemma pop_inner E e m d vs v : readable E e = true -> node_set e = true -> plain e = true -> blind E None e = true -> reads_inner E e m d (vs ++ [v]) -> exists d', list_pop E e m None d = (d', Ret v) /\ reads_inner E e m d' vs.
Proof.
  intros R P Pl B Hr. assert (Hk : at_index (-1) (List.length (vs ++ [v])) = Some (List.length vs)).
  { rewrite app_length. cbn [List.length]. unfold at_index. cbv zeta. change (-1 <? 0)%Z with true. cbn iota. destruct (Z.leb_spec 0 (-1 + Z.of_nat (List.length vs + 1))); [|lia]. destruct (Z.ltb_spec (-1 + Z.of_nat (List.length vs + 1)) (Z.of_nat (List.length vs + 1))); [|lia]. cbn [andb]. f_equal. lia. }
  assert (Hw : without (List.length vs) (vs ++ [v]) = vs) by (unfold without; rewrite firstn_app, Nat.sub_diag, firstn_all; rewrite skipn_all2 by (rewrite app_length; cbn [List.length]; lia); cbn [firstn]; now rewrite !app_nil_r).
  destruct (C92_operation E e m d (vs ++ [v]) (LPop None) R P Pl B Hr) as (d' & H1 & R1); [intros x []|cbn [py_op]; rewrite Hk; cbn [fst]; rewrite Hw, app_length; lia|]. cbn [py_op] in *. rewrite Hk in *. cbn [fst snd field_op] in *. rewrite Hw in R1.
  exists d'. split; [|exact R1]. unfold bind in H1. destruct (list_pop E e m None d) as [d1 [y|x]]; [|discriminate]. unfold ret in H1. rewrite nth_error_app2, Nat.sub_diag in H1 by lia. cbn [nth_error] in H1. injection H1 as H1 H2. now subst.
Qed.
Lemma trim_inner E e m n : readable E e = true -> node_set e = true -> plain e = true -> blind E None e = true -> forall fuel vs d, reads_inner E e m d vs -> n <= List.length vs -> List.length vs <= fuel + n ->
  exists d', trim E e m n fuel d = (d', Ret tt) /\ reads_inner E e m d' (firstn n vs).
Proof.
  intros R P Pl B. induction fuel as [|f IH]; intros vs d Hr Hn Hf; cbn [trim]; unfold bind at 1, reading; rewrite (len_inner E e m d vs Hr); destruct (Nat.ltb_spec n (List.length vs)); try lia.
  - exists d. split; [reflexivity|]. now rewrite firstn_all2 by lia.
  - destruct (exists_last (l := vs)) as (vs0 & v & ->); [intros ->; cbn [List.length] in *; lia|]. destruct (pop_inner E e m d vs0 v R P Pl B Hr) as (d1 & H1 & R1). rewrite app_length in *. cbn [List.length] in *.
    destruct (IH vs0 d1 R1) as (d2 & H2 & R2); [lia|lia|]. exists d2. split; [unfold bind; now rewrite H1|]. rewrite firstn_app. replace (n - List.length vs0) with 0 by lia. cbn [firstn]. now rewrite app_nil_r.
  - exists d. split; [reflexivity|]. now rewrite firstn_all2 by lia.
Qed.
Theorem C92_assign : forall E e m us vs d, readable E e = true -> node_set e = true -> plain e = true -> blind E None e = true -> reads_inner E e m d vs -> Forall (storable m) us -> List.length us <= List.length vs ->
  exists d', lmgr_set E e m us d = (d', Ret tt) /\ reads_inner E e m d' us.
Proof.
  intros E e m us vs d R P Pl B Hr St Hl. destruct (set_many_inner E e m R P B us [] vs d Hr St Hl) as (d1 & H1 & R1). cbn [app List.length] in H1, R1.
  destruct (trim_inner E e m (List.length us) R P Pl B (List.length (us ++ skipn (List.length us) vs)) _ d1 R1) as (d2 & H2 & R2); [rewrite app_length; lia|lia|]. exists d2. split.
  - unfold lmgr_set. unfold bind at 1. rewrite H1. unfold bind, reading. now rewrite (len_inner E e m d1 _ R1).
  - rewrite firstn_app, Nat.sub_diag, firstn_all in R2. cbn [firstn] in R2. now rewrite app_nil_r in R2.
Qed.
Theorem C92_delete : forall E e m vs d, readable E e = true -> node_set e = true -> plain e = true -> blind E None e = true -> reads_inner E e m d vs -> Forall comparable vs ->
  exists d', lmgr_delete E e m d = (d', Ret tt) /\ reads_inner E e m d' [].
Proof.
  intros E e m vs d R P Pl B Hr Cm. unfold lmgr_delete. unfold bind at 1, reading. pose proof Hr as (_ & Hd & _). rewrite Hd. clear Hd. revert d Hr. induction vs as [|v vs IH]; intros d Hr; cbn [iterM]; [exists d; split; [reflexivity|exact Hr]|].
  inversion Cm as [|? ? C1 C2]; subst. assert (Hf : find_eq v (v :: vs) = Some 0) by (cbn [find_eq]; now rewrite (py_eq_refl v C1)).
  destruct (C92_operation E e m d (v :: vs) (LRemove v) R P Pl B Hr) as (d1 & H1 & R1); [intros x []|cbn [py_op]; rewrite Hf; cbn; lia|]. cbn [py_op] in *. rewrite Hf in *. cbn [fst snd field_op] in *. change (without 0 (v :: vs)) with vs in R1.
  destruct (IH C2 d1 R1) as (d2 & H2 & R2). exists d2. split; [|exact R2]. unfold quiet, bind in H1. unfold bind at 1. destruct (list_remove E e m v d) as [d0 [[]|x]]; [|discriminate]. unfold ret in H1. injection H1 as ->. exact H2.
Qed.

(** ** the shipped classes: every list field but one (of attributes) *)
Definition attr_list : str := u "e:langusage/e:language/@langcode".
Definition many (r : row) : bool := match r_kind r with Many _ => true | _ => false end.
Lemma shipped_lists : forallb (fun r => negb (many r) || str_eqb (r_xpath r) attr_list || match parse (r_xpath r) with Ok e => node_set e && plain e && blind (just (r_ns r)) None e | _ => false end)%bool shipped = true.
Proof. vm_compute. reflexivity. Qed.
Lemma shipped_count : List.length (filter many shipped) = 123 /\ List.length (filter (fun r => str_eqb (r_xpath r) attr_list) shipped) = 1.
Proof. vm_compute. now split. Qed.
Lemma seen_agree l E hid : binds E l -> hid = None -> forall e, seen E hid e = seen (just l) hid e.
Proof.
  intros B -> e. induction e as [s|n| | |a op b IHa IHb|b ps IHb H| | |ax t ps H|ab|p n|p n args H] using expr_ind'; reflexivity.
Qed.
Lemma blind_agree l E : binds E l -> forall e, blind E None e = blind (just l) None e.
Proof.
  intros B e. induction e as [s|n| | |a op b IHa IHb|b ps IHb H| | |ax t ps H|ab|p n|p n args H] using expr_ind'; reflexivity.
Qed.
Lemma shipped_fine r E : In r shipped -> many r = true -> r_xpath r <> attr_list -> binds E (r_ns r) -> exists e, parse (r_xpath r) = Ok e /\ readable E e = true /\ node_set e = true /\ plain e = true /\ blind E None e = true.
Proof.
  intros Hr Mr Na B. destruct (C71_xpaths_parse r Hr) as (e & He & Hn). exists e. split; [exact He|]. pose proof shipped_lists as S1. rewrite forallb_forall in S1. specialize (S1 r Hr). cbv beta in S1. rewrite He, Mr in S1.
  assert (Nb : str_eqb (r_xpath r) attr_list = false) by (destruct (str_eqb (r_xpath r) attr_list) eqn:X; [apply str_eqb_eq in X; contradiction|reflexivity]). rewrite Nb in S1. cbn [negb orb] in S1. apply andb_prop in S1 as [S1 Hb]. apply andb_prop in S1 as [Hs Hp].
  pose proof shipped_readable as S0. rewrite forallb_forall in S0. specialize (S0 r Hr). cbv beta in S0. rewrite He in S0. unfold readable in *. rewrite (ty_agree _ _ B e Hn). rewrite (blind_agree _ _ B e). auto.
Qed.
Theorem C92_shipped : forall r m E d vs o, In r shipped -> r_kind r = Many m -> r_xpath r <> attr_list -> binds E (r_ns r) -> exists e, parse (r_xpath r) = Ok e /\
  (reads_apart E e m d vs -> taking_out o = true -> exists d', field_op E e m o d = (d', snd (py_op o vs)) /\ reads_apart E e m d' (fst (py_op o vs))) /\
  (reads_inner E e m d vs -> (forall v, In v (op_values o) -> storable m v) -> List.length (fst (py_op o vs)) <= List.length vs -> exists d', field_op E e m o d = (d', snd (py_op o vs)) /\ reads_inner E e m d' (fst (py_op o vs))).
Proof.
  intros r m E d vs o Hr Hm Na B. assert (Mr : many r = true) by (unfold many; now rewrite Hm). destruct (shipped_fine r E Hr Mr Na B) as (e & He & R & P & Pl & Bl). exists e. split; [exact He|]. split; intros; [now apply C92_take_out|now apply C92_operation].
Qed.

(** ** concrete cases *)
Open Scope string_scope.
(** [desk.t], the t elements anywhere *)
Example C92_reads_case : can ".//t" /\ plain (xp ".//t") = true /\ blind E0 None (xp ".//t") = true /\ no_creation (xp ".//t") /\ reads_inner E0 (xp ".//t") (MString false) desk (strs ["x"; "y"]).
Proof.
  assert (C : can ".//t") by can. split; [exact C|]. destruct C as (_ & R & P & D). split; [vm_compute; reflexivity|]. split; [vm_compute; reflexivity|]. split; [apply ends_deaf_ok; vm_compute; reflexivity|]. split; [exact D|]. split; [vm_compute; reflexivity|].
  eexists. split; [apply listing_eval; [exact R|exact P|exact D|vm_compute; reflexivity]|]. constructor; [|constructor; [|constructor]]; [exists [0]%nat, 0%nat|exists [1]%nat, 0%nat]; do 3 eexists; reflexivity.
Qed.
Example C92_history_case : let os := [LSet 1 (PStr (u "q")); LAppend (PStr (u "z")); LPop (Some 0%Z); LRemove (PStr (u "no")); LDel (-1)] in
  fixed_ops os (strs ["x"; "y"]) = ([], [Some (Ret None); None; Some (Ret (Some (PStr (u "x")))); Some (Exc XValue); Some (Ret None)]) /\
  snd (field_ops E0 (xp ".//t") (MString false) os desk) = [Ret None; Exc XMissing; Ret (Some (PStr (u "x"))); Exc XValue; Ret None] /\
  fst (field_ops E0 (xp ".//t") (MString false) os desk) = el "r" [] "" [el "a" [("k", "1")] "" []; el "b" [] "" [el "w" [] "z" []]; el "b" [] "" [el "w" [("id", "8")] "" []]].
Proof. repeat match goal with |- _ /\ _ => split | |- let _ := _ in _ => intro end; vm_compute; reflexivity. Qed.
Example C92_assign_case : exists d', lmgr_set E0 (xp ".//b/*|a/t") (MString false) (strs ["1"; "2"]) desk = (d', Ret tt) /\ plain (xp ".//b/*|a/t") = true /\ list_data E0 (xp ".//b/*|a/t") (MString false) desk = Ret (strs ["x"; "y"; "z"; ""]) /\
  list_data E0 (xp ".//b/*|a/t") (MString false) d' = Ret (strs ["1"; "2"]) /\ storable (MString false) (PStr (u "1")).
Proof. eexists. split; [vm_compute; reflexivity|]. split; [vm_compute; reflexivity|]. split; [vm_compute; reflexivity|]. split; [vm_compute; reflexivity|apply sto; vm_compute; reflexivity]. Qed.
(** elements with children, none inside another *)
Example C92_nodes_case : plain (xp ".//b[w]") = false /\ plain (xp ".//*[@id = '7' or not(@k)]") = true /\ can "a|b" /\ plain (xp "a|b") = true /\ exists vs, reads_apart E0 (xp "a|b") MNode desk vs /\ List.length vs = 3.
Proof.
  split; [vm_compute; reflexivity|]. split; [vm_compute; reflexivity|]. assert (C : can "a|b") by can. split; [exact C|]. destruct C as (_ & R & P & D). split; [vm_compute; reflexivity|]. eexists. split; [split; [exact D|split; [vm_compute; reflexivity|]]|reflexivity].
  eexists. split; [apply listing_eval; [exact R|exact P|exact D|vm_compute; reflexivity]|]. split.
  - constructor; [|constructor; [|constructor; [|constructor]]]; [exists [], 0%nat|exists [], 1%nat|exists [], 2%nat]; eexists; reflexivity.
  - intros b n r n' H H'. cbn [In] in H, H'. destruct H as [H|[H|[H|[]]]], H' as [H'|[H'|[H'|[]]]]; injection H as <- _; injection H' as H' _; cbn [app] in H'; congruence.
Qed.
(** ** what the hypotheses are for *)
(** a position: taking out the first item lets another one in *)
Theorem C92_positions : let d := el "r" [] "" [el "b" [] "" [el "t" [] "x" []; el "t" [] "y" []]] in plain (xp ".//t[1]") = false /\ list_data E0 (xp ".//t[1]") (MString false) d = Ret (strs ["x"]) /\
  exists d', list_delitem E0 (xp ".//t[1]") 0 d = (d', Ret tt) /\ list_data E0 (xp ".//t[1]") (MString false) d' = Ret (strs ["y"]).
Proof. intros d. split; [vm_compute; reflexivity|]. split; [vm_compute; reflexivity|]. eexists. split; vm_compute; reflexivity. Qed.
(** an item inside another one: taking out the outer one takes both *)
Theorem C92_nested : let d := el "r" [] "" [el "t" [] "x" [el "t" [] "y" []]] in plain (xp ".//t") = true /\ list_data E0 (xp ".//t") (MString false) d = Ret (strs ["xy"; "y"]) /\
  exists d', list_delitem E0 (xp ".//t") 0 d = (d', Ret tt) /\ list_data E0 (xp ".//t") (MString false) d' = Ret [].
Proof. intros d. split; [vm_compute; reflexivity|]. split; [vm_compute; reflexivity|]. eexists. split; vm_compute; reflexivity. Qed.
Close Scope string_scope.
Print Assumptions C92_delitem_nodes.
Print Assumptions C92_delitem.
Print Assumptions C92_take_out.
Print Assumptions C92_operation.
Print Assumptions C92_growth.
Print Assumptions C92_history.
Print Assumptions C92_assign.
Print Assumptions C92_delete.
Print Assumptions C92_shipped.
Print Assumptions C92_positions.
Print Assumptions C92_nested.
