(** C93: list fields 'l/name' grow: their values are appended to the first node found by [l], any XPath of steps, '/', '//' and '|' (predicates looking only at
    attributes), and the field stays a Python list (xmlmap/fields.py:661-846, 300-345).  './/person[@id = "7"]/phone', 'a//b/c'. *)
From Coq Require Import String Arith ZArith NArith List Lia Bool.
From Verif Require Import FieldUndo MapperProofs FieldRefuse Props_Fields Props_Mappers NodeList ListSpec ListOps ListFacts ListSim ReadSpec EvalSpec EvalMeaning EvalOrder EvalMain EvalValues EvalFuns EvalAgree Shipped EnvAgree Props_Shipped Props_Construct EvalBlind Props_Eval Props_Write Props_WriteList EvalRemove Props_RemoveList.
From Verif Require Import XPathEval FieldSpec DocSpec ListSpec XPathRead EvalSpec.
Import ListNotations.

Lemma un_self j : forall a, un a j a = a.
Proof. induction a as [|x a IH]; [reflexivity|]. cbn [un]. now rewrite Nat.eqb_refl, IH. Qed.
Lemma un_kid j k : forall a, un a j (a ++ [k]) = a ++ [if k <? j then k else S k].
Proof. induction a as [|x a IH]; [reflexivity|]. cbn [app un]. now rewrite Nat.eqb_refl, IH. Qed.
Lemma gone_dec a j : forall b, gone a j b \/ ~ gone a j b.
Proof.
  induction a as [|x a IH]; intros [|y b].
  - right. intros [r H]. discriminate.
  - destruct (Nat.eq_dec y j) as [->|N]; [left; now exists b|right; intros [r H]; injection H as H _; contradiction].
  - right. intros [r H]. discriminate.
  - destruct (Nat.eq_dec y x) as [->|N]; [|right; intros [r H]; injection H as H _; contradiction]. destruct (IH b) as [[r ->]|H]; [left; now exists r|right; intros [r Hr]; apply H; injection Hr as ->; now exists r].
Qed.
Lemma before_kids a k k2 : before (to_elem (a ++ [k])) (to_elem (a ++ [k2])) -> k < k2.
Proof. induction a as [|x a IH]; intros H; apply before_elem in H; cbn [app] in H; [destruct H as [H|[_ H]]; [exact H|apply before_elem in H; contradiction]|]. destruct H as [H|[_ H]]; [lia|now apply IH]. Qed.
Lemma order_pair d l : document_order d l -> forall h h2 x y, h < h2 -> nth_error l h = Some x -> nth_error l h2 = Some y -> precedes d x y.
Proof.
  induction 1 as [|z l Hr F _ IH]; intros h h2 x y Lt Hx Hy; [destruct h; discriminate|]. destruct h as [|h], h2 as [|h2]; cbn [nth_error] in *; try lia.
  - injection Hx as ->. rewrite Forall_forall in F. apply F. eapply nth_error_In. exact Hy.
  - apply (IH h h2 x y); auto; lia.
Qed.
Lemma precedes_elems d a n b m : precedes d (IElem a n) (IElem b m) -> before (to_elem a) (to_elem b).
Proof. intros (r & r' & R1 & R2 & B). inversion R1; subst. now inversion R2; subst. Qed.

(** ** an element without children added at the end of the node at [a] *)
Section Add.
Context (E : env) (d : node) (a : addr) (q : qname) (ats : list (qname * str)) (t : option str) (ks : list (node * option str)) (K : node).
Context (G : get_at a d = Some (Elem q ats t ks)) (D : attributes_distinct d) (KK : kids_of K = []) (KA : attrs_of K = []).
Let P := List.length ks.
Let d' := upd_at a (append_kid K) d.
Lemma added_back : upd_at a (remove_kid P) d' = d.
Proof.
  unfold d'. rewrite upd_upd_same. apply (upd_at_id a _ d _ G). cbn [append_kid remove_kid set_kids]. f_equal. unfold remove_nth, P. rewrite firstn_app, Nat.sub_diag, firstn_all. cbn [firstn]. rewrite app_nil_r. rewrite skipn_all2 by (rewrite app_length; cbn [List.length]; lia). now rewrite app_nil_r.
Qed.
Lemma added_get : get_at a d' = Some (Elem q ats t (ks ++ [(K, None)])).
Proof. unfold d'. now rewrite (get_upd_same a _ d _ G). Qed.
Lemma added_new : get_at (a ++ [P]) d' = Some K.
Proof. eapply get_snoc; [exact added_get|]. cbn [kids_of]. unfold P. rewrite nth_error_app2, Nat.sub_diag by lia. reflexivity. Qed.
Lemma added_gone b n : gone a P b -> get_at b d' = Some n -> b = a ++ [P] /\ n = K.
Proof.
  intros [r ->] H. change (a ++ P :: r) with (a ++ [P] ++ r) in *. rewrite app_assoc in *. rewrite get_app, added_new in H. destruct r as [|x r]; [cbn in H; injection H as <-; now rewrite app_nil_r|]. destruct K as [kq ka kt kk|s]; cbn [get_at kids_of] in *; [rewrite KK in H|]; destruct x; discriminate.
Qed.
Lemma added_distinct : attributes_distinct d'.
Proof.
  intros c n H. destruct (gone_dec a P c) as [Hg|Hg]; [destruct (added_gone c n Hg H) as [_ ->]; rewrite KA; constructor|]. destruct (un_reach P c a Hg) as [c0 <-]. pose proof (un_get P a c0 d') as U. rewrite added_back, H in U. destruct (get_at c0 d) as [n0|] eqn:H0; [|destruct U]. destruct U as (_ & Ea & _). rewrite <- Ea. exact (D _ _ H0).
Qed.
Lemma root_lifts : lifts d' a P (IElem [] d) (IElem [] d').
Proof. change (IElem [] d') with (IElem (un a P []) d'). constructor; [rewrite added_back|]; reflexivity. Qed.
(** an element already there: a child of [a] is where it was *)
Lemma added_kid k n : get_at (a ++ [k]) d = Some n -> k < P.
Proof. intros H. rewrite get_app, G in H. cbn [get_at kids_of] in H. unfold P. apply nth_error_Some. destruct (nth_error ks k); [discriminate|discriminate H]. Qed.
Lemma lifts_kid k n y : lifts d' a P (IElem (a ++ [k]) n) y -> y = IElem (a ++ [k]) n.
Proof.
  intros H. apply lifts_parts in H as (c & n' & n0 & Ex & -> & H1 & H2). injection Ex as <- <-. rewrite added_back in H1. pose proof (added_kid k _ H1) as Lk. rewrite un_kid in *. apply Nat.ltb_lt in Lk. rewrite Lk in *. f_equal.
  pose proof (un_same P a (a ++ [k]) d') as U. rewrite un_kid, Lk, added_back in U. rewrite U in H1; [congruence|]. intros r Hr. apply (f_equal (@List.length nat)) in Hr. rewrite !app_length in Hr. cbn [List.length] in Hr. lia.
Qed.
Lemma lifts_home n y : lifts d' a P (IElem a n) y -> exists n', y = IElem a n'.
Proof. intros H. apply lifts_parts in H as (c & n' & n0 & Ex & -> & _). injection Ex as <- <-. rewrite un_self. now exists n0. Qed.

(** what [l] finds first stays the first *)
Lemma added_first l x : readable E l = true -> node_set l = true -> plain l = true -> first_of d (picks E l d) (IElem a x) -> first_of d' (picks E l d') (IElem a (Elem q ats t (ks ++ [(K, None)]))).
Proof.
  intros R N Pl [Hx Hf]. pose proof added_distinct as D'. destruct (sim_up E d' a P D' l Pl R (IElem [] d) (IElem [] d') 1 1 (IElem a x) root_lifts) as (y & Ly & Hy); [rewrite added_back; exact Hx|]. destruct (lifts_home _ _ Ly) as [n' ->].
  assert (n' = Elem q ats t (ks ++ [(K, None)])) as -> by (apply lifts_parts in Ly as (c & m' & m & Ec & Em & _ & H2); injection Ec as <- <-; injection Em as _ Em; rewrite un_self, added_get in H2; congruence).
  destruct (path_nodes E l d' D' R N) as (ls & _ & _ & O & M). assert (Hin : In (IElem a (Elem q ats t (ks ++ [(K, None)]))) ls) by now apply M. destruct ls as [|f ls]; [destruct Hin|].
  assert (Ff : f = IElem a (Elem q ats t (ks ++ [(K, None)]))).
  { destruct Hin as [Hin|Hin]; [exact Hin|]. exfalso. inversion O as [|? ? Hr F _]; subst. rewrite Forall_forall in F. specialize (F _ Hin). destruct F as (r & r' & R1 & R2 & B). inversion R2; subst.
    assert (Pf : picks E l d' f) by (apply M; now left). destruct (gone_dec a P (place_of f)) as [Hg|Hg].
    - destruct Hg as [r2 Hg]. assert (Bf : before (to_elem a) r).
      { inversion R1; subst; cbn [place_of] in Hg; unfold to_elem in *; rewrite ?Hg, ?map_app; cbn [map]; rewrite <- ?app_assoc; cbn [app]; try apply before_prefix.
        match goal with H : ?b ++ [?k] = _ |- _ => assert (Eb : b = a ++ removelast (P :: r2)) by (rewrite <- (removelast_last b k), H; apply removelast_app; discriminate); rewrite Eb end.
        rewrite map_app, <- app_assoc. destruct (map _ (removelast (P :: r2))); cbn [app]; apply before_prefix. }
      exact (before_asym _ _ B Bf).
    - destruct (sim_down E d' a P D' l Pl R (IElem [] d) (IElem [] d') 1 1 f root_lifts Pf Hg) as (f0 & Lf & Hf0). rewrite added_back in Hf0. apply lifts_parts in Lf as (c & m' & m & -> & -> & Hc1 & Hc2). rewrite added_back in Hc1. inversion R1; subst.
      destruct (Hf _ Hf0) as [Ef|Pre]; [injection Ef as -> _; rewrite un_self in B; exact (before_irr _ B)|]. apply precedes_elems in Pre. rewrite <- (un_self P a) in B at 2. apply un_before in B. exact (before_asym _ _ B Pre). }
  subst f. split; [exact Hy|]. intros j Hj. apply M in Hj as [<-|Hj]; [now left|]. right. inversion O as [|? ? _ F _]; subst. rewrite Forall_forall in F. now apply F.
Qed.

(** an element without child elements, child of the node at [a] *)
Definition under (i : item) : Prop := exists k kq kats kt, i = IElem (a ++ [k]) (Elem kq kats kt []).
Lemma added_there k n : get_at (a ++ [k]) d = Some n -> get_at (a ++ [k]) d' = Some n /\ lifts d' a P (IElem (a ++ [k]) n) (IElem (a ++ [k]) n).
Proof.
  intros H. pose proof (added_kid k n H) as Lk. assert (H1 : exists n', get_at (un a P (a ++ [k])) d' = Some n') by (apply (lift_up d' a P (a ++ [k]) n); rewrite added_back; exact H). destruct H1 as [n' H1].
  assert (L1 : lifts d' a P (IElem (a ++ [k]) n) (IElem (un a P (a ++ [k])) n')) by (constructor; [rewrite added_back; exact H|exact H1]). pose proof (lifts_kid k n _ L1) as Ek. rewrite Ek in L1. injection Ek as E1 ->. rewrite E1 in H1. now split.
Qed.
Lemma order_snoc rt l x : document_order rt l -> (exists r, route rt x r) -> Forall (fun y => precedes rt y x) l -> document_order rt (l ++ [x]).
Proof.
  induction 1 as [|y l Hr F O IH]; intros Hx Fx; cbn [app]; [constructor; [exact Hx|constructor|constructor]|]. inversion Fx as [|? ? F1 F2]; subst. constructor; [exact Hr| |now apply IH]. apply Forall_app. split; [exact F|constructor; [exact F1|constructor]].
Qed.
Lemma added_listing l ax p n L : let e := EBin l (u "/") (EStep ax (NameTest p n) []) in readable E e = true -> node_set e = true -> plain e = true -> plain l = true -> ax = None \/ ax = Some (u "child") -> is_element E p n (IElem (a ++ [P]) K) ->
  first_of d (picks E l d) (IElem a (Elem q ats t ks)) -> listing E e d L -> Forall under L -> listing E e d' (L ++ [IElem (a ++ [P]) K]).
Proof.
  intros e R N Pl Pll Ax IsE F [O M] U. pose proof added_distinct as D'. destruct (slash_parts E l _ R) as (Rl & Nl & Rs & Ns).
  assert (Lx : forall x, In x L -> exists k n0, x = IElem (a ++ [k]) n0 /\ get_at (a ++ [k]) d = Some n0).
  { intros x Hx. pose proof (proj1 (Forall_forall _ _) U x Hx) as (k & kq & kats & kt & ->). exists k, (Elem kq kats kt []). split; [reflexivity|]. exact (listing_get E e d L _ _ (conj O M) Hx). }
  split.
  - apply order_snoc.
    + clear M U. induction O as [|x l0 Hr Fo O IH]; [constructor|]. destruct (Lx x (or_introl eq_refl)) as (k & n0 & -> & Gk). destruct (added_there k n0 Gk) as [Gk' _]. constructor; [exists (to_elem (a ++ [k])); now constructor| |apply IH; intros y Hy; apply Lx; now right].
      apply Forall_forall. intros y Hy. destruct (Lx y (or_intror Hy)) as (k2 & n2 & -> & Gk2). destruct (added_there k2 n2 Gk2) as [Gk2' _]. rewrite Forall_forall in Fo. pose proof (precedes_elems _ _ _ _ _ (Fo _ Hy)) as B. exists (to_elem (a ++ [k])), (to_elem (a ++ [k2])). split; [now constructor|]. split; [now constructor|exact B].
    + exists (to_elem (a ++ [P])). constructor. exact added_new.
    + apply Forall_forall. intros y Hy. destruct (Lx y Hy) as (k & n0 & -> & Gk). destruct (added_there k n0 Gk) as [Gk' _]. exists (to_elem (a ++ [k])), (to_elem (a ++ [P])). split; [now constructor|]. split; [constructor; exact added_new|]. unfold to_elem. rewrite !map_app. cbn [map]. apply before_ext. left. cbn [fst]. pose proof (added_kid k n0 Gk). lia.
  - intros y. split.
    + intros Hy. apply in_app_or in Hy as [Hy|[<-|[]]].
      * destruct (Lx y Hy) as (k & n0 & -> & Gk). apply M in Hy. destruct (sim_up E d' a P D' e Pl R (IElem [] d) (IElem [] d') 1 1 (IElem (a ++ [k]) n0) root_lifts) as (z & Lz & Hz); [rewrite added_back; exact Hy|]. rewrite (lifts_kid k n0 z Lz) in Hz. exact Hz.
      * destruct (added_first l _ Rl Nl Pll F) as [Hl _]. apply means_slash. eexists. split; [exact Hl|]. cbn [means set_of fold_left]. apply to_child; [exact Ax| |exact IsE]. apply (child_node a q ats t _ P K None). unfold P. rewrite nth_error_app2, Nat.sub_diag by lia. reflexivity.
    + intros Hy. assert (Ey : exists b m, y = IElem b m).
      { pose proof Hy as Hy'. apply means_slash in Hy' as (z & _ & Hz). cbn [means set_of fold_left] in Hz. inversion Hz; subst; try (destruct Ax as [Ax|Ax]; discriminate Ax); try (match goal with H : wanted _ _ _ |- _ => cbn [wanted] in H; inversion H; subst; eauto end); destruct Ax as [Ax|Ax]; subst; match goal with H : _ \/ _ |- _ => destruct H; discriminate end. }
      destruct Ey as (b & m & ->). destruct (listing_exists E e d' R N D') as [L' [O' M']]. pose proof Hy as Hin. apply M' in Hin. pose proof (listing_get E e d' L' b m (conj O' M') Hin) as Gb. apply in_or_app. destruct (gone_dec a P b) as [Hg|Hg].
      * right. left. destruct (added_gone b m Hg Gb) as [-> ->]. reflexivity.
      * left. destruct (sim_down E d' a P D' e Pl R (IElem [] d) (IElem [] d') 1 1 (IElem b m) root_lifts Hy Hg) as (x & Lf & Hx). rewrite added_back in Hx. apply M in Hx. destruct (Lx x Hx) as (k & n0 & -> & _). now rewrite (lifts_kid k n0 _ Lf).
Qed.
End Add.

(** ** the invariant: the list holds [vs], in childless elements that are children of the first node found by [l], at [a] *)
Definition slash_name (l : expr) (ax p : option str) (n : str) : expr := EBin l (u "/") (EStep ax (NameTest p n) []).
Definition grows (E : env) (l : expr) (ax p : option str) (n : str) (m : mapper) (a : addr) (vs : list pyval) (d : node) : Prop :=
  attributes_distinct d /\ list_data E (slash_name l ax p n) m d = Ret vs /\ (exists L, listing E (slash_name l ax p n) d L /\ Forall (under a) L) /\
  exists q ats t ks, first_of d (picks E l d) (IElem a (Elem q ats t ks)).
(** XPaths 'l/name' eulxml can create the last step of *)
Definition growing (E : env) (l : expr) (ax p : option str) (n : str) : Prop :=
  readable E (slash_name l ax p n) = true /\ plain (slash_name l ax p n) = true /\ plain l = true /\ blind E None (slash_name l ax p n) = true /\ (ax = None \/ ax = Some (u "child")) /\ p <> Some [] /\ n <> u "*" /\ reread l = Some l.

Lemma under_inner a L : Forall (under a) L -> Forall inner L.
Proof. intros H. eapply Forall_impl; [|exact H]. intros i (k & q & ats & t & ->). now exists a, k, q, ats, t. Qed.
Lemma first_get E l d a x : readable E l = true -> node_set l = true -> attributes_distinct d -> first_of d (picks E l d) (IElem a x) -> get_at a d = Some x.
Proof. intros R N D F. destruct (first_list_of E l d _ R N D F) as (l' & _ & O & _). inversion O as [|? ? [r Hr] _ _]; subst. now apply valid_item in Hr. Qed.

Lemma set_end' E l ax p n m a (v : pyval) vs d : growing E l ax p n -> grows E l ax p n m a vs d -> storable m v ->
  exists kq s, passes E p n kq /\ to_xml m v = Ret (Some s) /\ list_setitem E (slash_name l ax p n) m (Z.of_nat (List.length vs)) v d = (upd_at a (append_kid (Elem kq [] (Some s) [])) d, Ret tt) /\ grows E l ax p n m a (vs ++ [v]) (upd_at a (append_kid (Elem kq [] (Some s) [])) d).
Proof.
  intros (R & Pl & Pll & B & Ax & P0 & N0 & Rr) (D & Hd & (L & HL & U) & q & ats & t & ks & F) (s & Hs & Vs & Hg). set (e := slash_name l ax p n) in *. destruct (slash_parts E l _ R) as (Rl & Nl & Rs & Ns).
  pose proof (first_get E l d a _ Rl Nl D F) as G. destruct (listing_matches E e d L R eq_refl D HL) as [M _].
  assert (St : sup_test E (NameTest p n) = true) by (unfold readable in Rs; cbn [ty forallb] in Rs; destruct (sup_test E (NameTest p n)); [reflexivity|rewrite andb_false_r in Rs; discriminate]).
  destruct (child_ns_ok E p n St P0 N0) as (uri & Cn & Pn). set (K := Elem (QN uri n) [] (Some s) []). set (K0 := Elem (QN uri n) [] None []).
  assert (G1 : get_at (a ++ [List.length ks]) (upd_at a (insert_kid (List.length ks) K0) d) = Some K0).
  { eapply get_snoc; [exact (get_upd_same a _ d _ G)|]. cbn [insert_kid set_kids kids_of]. unfold insert_nth. rewrite firstn_all, skipn_all, nth_error_app2 by lia. now rewrite Nat.sub_diag. }
  assert (Bd : forall ins, build E Create e (Some doc_root) ins d = (upd_at a (insert_kid (List.length ks) K0) d, Ret (Some (RElem (a ++ [List.length ks]))))).
  { intros ins. unfold e, slash_name. cbn [build]. change (str_eqb (u "/") (u "/")) with true. cbn iota. unfold bind at 1, reading. rewrite (found_first E l d _ Rl Nl D F Rr). cbn [ref_of forallb]. unfold bind at 1, ret at 1. rewrite (proj2 (child_axis_ok ax) Ax). unfold bind at 1.
    unfold create_child. rewrite Cn. unfold name_valid. destruct (str_eqb n (u "*")) eqn:Sn; [apply str_eqb_eq in Sn; now destruct N0|]. cbn [negb]. rewrite G. cbn [kids_of iterM]. reflexivity. }
  exists (QN uri n), s. split; [exact Pn|]. split; [exact Hs|]. fold K. split.
  - unfold list_setitem. unfold bind at 1, reading. rewrite M. rewrite (reads_len E e m d vs L R eq_refl D Hd HL), Z.eqb_refl. unfold bind.
    assert (W : (match last_item L with Some i => match item_pos i with Ret (_, p1) => build E Create e (Some doc_root) (Some (p1 + 1)) | Exc x => raise x end | None => build E Create e (Some doc_root) None end) d = (upd_at a (insert_kid (List.length ks) K0) d, Ret (Some (RElem (a ++ [List.length ks]))))).
    { destruct (snoc_inv L) as [->|(L0 & x & ->)]; [cbn [last_item rev]; apply Bd|]. rewrite last_item_snoc. apply Forall_app in U as [_ U]. inversion U as [|? ? (k & kq & kats & kt & ->) _]; subst. rewrite item_pos_snoc. apply Bd. }
    rewrite W, Hs. cbn [set_in_xml]. rewrite G1. unfold K0 at 1. cbn [kids_of]. unfold set_text_at. rewrite Vs. f_equal. rewrite (upd_at_app a), upd_upd_same. apply (upd_at_ext a _ _ d _ G). cbn [insert_kid append_kid set_kids upd_at]. unfold insert_nth. rewrite firstn_all, skipn_all. f_equal.
    unfold K. clear. induction ks as [|k ks IH]; [reflexivity|]. cbn [List.length app upd_nth]. now rewrite IH.
  - assert (KK : kids_of K = []) by reflexivity. assert (KA : attrs_of K = []) by reflexivity. assert (Is : is_element E p n (IElem (a ++ [List.length ks]) K)) by (unfold K; now constructor).
    pose proof (added_listing E d a q ats t ks K G D KK KA l ax p n L R eq_refl Pl Pll Ax Is F HL U) as HL'. pose proof (added_distinct d a q ats t ks K G D KK KA) as D'. split; [exact D'|]. split; [|split].
    + destruct (listing_matches E e _ _ R eq_refl D' HL') as [M' _]. unfold list_data in *. rewrite M in Hd. fold e. rewrite M'. apply mapR_app; [exact Hd|]. cbn [mapR item_in]. unfold K. now rewrite Hg.
    + eexists. split; [exact HL'|]. apply Forall_app. split; [exact U|]. constructor; [|constructor]. now exists (List.length ks), (QN uri n), [], (Some s).
    + exists q, ats, t, (ks ++ [(K, None)]). exact (added_first E d a q ats t ks K G D KK KA l _ Rl Nl Pll F).
Qed.
Lemma set_end E l ax p n m a (v : pyval) vs d : growing E l ax p n -> grows E l ax p n m a vs d -> storable m v ->
  exists d', list_setitem E (slash_name l ax p n) m (Z.of_nat (List.length vs)) v d = (d', Ret tt) /\ grows E l ax p n m a (vs ++ [v]) d'.
Proof. intros Gr Hg St. destruct (set_end' E l ax p n m a v vs d Gr Hg St) as (kq & s & _ & _ & H & Hg'). now exists (upd_at a (append_kid (Elem kq [] (Some s) [])) d). Qed.
Lemma set_within E l ax p n m a (v : pyval) vs d k i : growing E l ax p n -> grows E l ax p n m a vs d -> storable m v -> at_index k (List.length vs) = Some i ->
  exists d', list_setitem E (slash_name l ax p n) m k v d = (d', Ret tt) /\ grows E l ax p n m a (replace_at i v vs) d'.
Proof.
  intros (R & Pl & Pll & B & Ax & P0 & N0 & Rr) (D & Hd & (L & HL & U) & q & ats & t & ks & F) St Hk. set (e := slash_name l ax p n) in *. destruct (slash_parts E l _ R) as (Rl & Nl & Rs & Ns).
  assert (Hr : reads_inner E e m d vs) by (split; [exact D|split; [exact Hd|exists L; split; [exact HL|now apply (under_inner a)]]]). destruct (set_inner E e m k v d vs i R eq_refl B Hr St Hk) as (d' & Hs & _). exists d'. split; [exact Hs|].
  pose proof (inner_leaf _ (under_inner a L U)) as Lf. rewrite (reads_len E e m d vs L R eq_refl D Hd HL) in Hk. destruct (C91_set_get E e m k v d d' L vs i R eq_refl D HL Lf B St Hk Hd Hs) as (Hd' & D' & L' & HL' & Lf' & Pp).
  split; [exact D'|]. split; [exact Hd'|]. split.
  - exists L'. split; [exact HL'|]. apply Forall_forall. intros x Hx. pose proof (proj1 (Forall_forall _ _) Lf' x Hx) as (b & bq & bats & bt & ->). assert (Hb : In b (map place_of L)) by (rewrite <- Pp; exact (in_map place_of _ _ Hx)).
    apply in_map_iff in Hb as (y & Hy & Iy). pose proof (proj1 (Forall_forall _ _) U y Iy) as (k0 & q0 & ats0 & t0 & ->). cbn [place_of] in Hy. subst b. now exists k0, bq, bats, bt.
  - assert (A : alike None d d').
    { destruct St as (s & Hsx & Vs & _). pose proof (at_index_lt _ _ _ Hk) as Li. destruct (nth_error L i) as [it|] eqn:Hi; [|apply nth_error_None in Hi; lia]. pose proof (proj1 (Forall_forall _ _) Lf it (nth_error_In _ _ Hi)) as (b & bq & bats & bt & ->).
      destruct (C91_setitem E e m k v s d L i b _ R eq_refl D HL Hk Hi Hsx) as (C & _ & _). destruct (C eq_refl (proj1 (xml_valid_iff s) Vs)) as (d1 & Hset1 & Se & Ga). rewrite Hset1 in Hs. injection Hs as ->. pose proof (listing_get E e d L b _ HL (nth_error_In _ _ Hi)) as G.
      assert (d' = upd_at b (set_text (Some s)) d) as ->; [|apply (alike_upd None _ b d _ G); apply alike_set_text].
      apply same_shells_same. intros c. destruct (list_eq_dec Nat.eq_dec c b) as [->|Nc]; [rewrite (get_upd_same b _ d _ G); now rewrite Ga|]. rewrite (Se c Nc). symmetry. exact (same_except_upd b (set_text (Some s)) d _ G eq_refl c Nc). }
    assert (Bl : blind E None l = true) by (unfold e, slash_name in B; cbn [blind] in B; apply andb_prop in B as [B _]; now apply andb_prop in B as [B _]).
    destruct (first_list_of E l d _ Rl Nl D F) as (ls & _ & O & Mp). destruct (listing_alike E None l d d' _ Rl Nl Bl D A (conj O Mp)) as (ls' & HLl & F2). inversion F2 as [|? f ? fs Hf F2']; subst.
    assert (Ff : exists n', f = IElem a n' /\ alike None (Elem q ats t ks) n') by (inversion Hf; subst; eauto). destruct Ff as (n' & -> & An). assert (Fn : exists q' ats' t' ks', n' = Elem q' ats' t' ks') by (inversion An; subst; eauto). destruct Fn as (q' & ats' & t' & ks' & ->).
    exists q', ats', t', ks'. destruct (listing_matches E l d' _ Rl Nl D' HLl) as [Ml _]. apply (head_first E l d' _ fs Rl Nl D'). unfold matches in Ml. destruct (eval_at E l doc_root d') as [[| | |]|]; try discriminate Ml. injection Ml as ->. reflexivity.
Qed.
(** what [l] finds first stays the first when a child of it is removed *)
Lemma removed_first E l d a j q ats t ks : attributes_distinct d -> readable E l = true -> node_set l = true -> plain l = true -> first_of d (picks E l d) (IElem a (Elem q ats t ks)) ->
  first_of (upd_at a (remove_kid j) d) (picks E l (upd_at a (remove_kid j) d)) (IElem a (Elem q ats t (remove_nth j ks))).
Proof.
  intros D R N Pl [Hx Hf]. pose proof (first_get E l d a _ R N D (conj Hx Hf)) as G. set (d' := upd_at a (remove_kid j) d). pose proof (removed_distinct d a j D) as D'. fold d' in D'.
  assert (Lr : lifts d a j (IElem [] d') (IElem [] d)) by (change (IElem [] d) with (IElem (un a j []) d); constructor; reflexivity).
  assert (G' : get_at a d' = Some (Elem q ats t (remove_nth j ks))) by (unfold d'; now rewrite (get_upd_same a _ d _ G)).
  assert (Sa : stays a j (IElem a (Elem q ats t ks))) by (intros [r Hr]; cbn [place_of] in Hr; apply (f_equal (@List.length nat)) in Hr; rewrite app_length in Hr; cbn [List.length] in Hr; lia).
  destruct (sim_down E d a j D l Pl R _ _ 1 1 _ Lr Hx Sa) as (y & Ly & Hy). fold d' in Hy. apply lifts_parts in Ly as (c & m' & m0 & -> & Em & H1 & _). injection Em as Ea _. rewrite <- (un_self j a) in Ea at 1. apply un_inj in Ea. subst c. fold d' in H1. rewrite G' in H1. injection H1 as <-.
  destruct (path_nodes E l d' D' R N) as (ls & _ & _ & O & M). assert (Hin : In (IElem a (Elem q ats t (remove_nth j ks))) ls) by now apply M. destruct ls as [|f ls]; [destruct Hin|].
  assert (Ff : f = IElem a (Elem q ats t (remove_nth j ks))).
  { destruct Hin as [Hin|Hin]; [exact Hin|]. exfalso. inversion O as [|? ? Hr F _]; subst. rewrite Forall_forall in F. specialize (F _ Hin). assert (Pf : picks E l d' f) by (apply M; now left).
    destruct (sim_up E d a j D l Pl R _ _ 1 1 f Lr Pf) as (z & Lz & Hz). apply lifts_parts in Lz as (c & m' & m & -> & -> & _). apply precedes_elems in F. destruct (Hf _ Hz) as [Ez|Pre].
    - injection Ez as Ez _. rewrite <- (un_self j a) in Ez at 2. apply un_inj in Ez. subst c. exact (before_irr _ F).
    - apply precedes_elems in Pre. rewrite <- (un_self j a) in Pre at 1. apply un_before in Pre. exact (before_asym _ _ F Pre). }
  subst f. split; [exact Hy|]. intros i Hi. apply M in Hi as [<-|Hi]; [now left|]. right. inversion O as [|? ? _ F _]; subst. rewrite Forall_forall in F. now apply F.
Qed.
Lemma del_within E l ax p n m a vs d k i : growing E l ax p n -> grows E l ax p n m a vs d -> at_index k (List.length vs) = Some i ->
  exists d', list_delitem E (slash_name l ax p n) k d = (d', Ret tt) /\ grows E l ax p n m a (without i vs) d'.
Proof.
  intros (R & Pl & Pll & B & Ax & P0 & N0 & Rr) (D & Hd & (L & HL & U) & q & ats & t & ks & F) Hk. set (e := slash_name l ax p n) in *. destruct (slash_parts E l _ R) as (Rl & Nl & Rs & Ns).
  destruct (inner_apart E e d L HL (under_inner a L U)) as [Bl Ap]. pose proof Hk as Hk'. rewrite (reads_len E e m d vs L R eq_refl D Hd HL) in Hk'. pose proof (at_index_lt _ _ _ Hk') as Li.
  destruct (nth_error L i) as [it|] eqn:Hi; [|apply nth_error_None in Hi; lia]. pose proof (proj1 (Forall_forall _ _) U it (nth_error_In _ _ Hi)) as (j & kq & kats & kt & ->).
  destruct (removed_listing E e d a j L i _ D R eq_refl Pl HL Bl Ap Hi) as (L' & HL' & F2). destruct (del_one E e m k d vs L i R eq_refl Pl D Hd HL Bl Ap Hk) as (d' & L2 & Hs & D' & Hd' & _). destruct (C91_delitem E e k d L R eq_refl D HL) as (C & _ & _).
  rewrite (C i a j _ Hk' Hi) in Hs. injection Hs as <-. exists (upd_at a (remove_kid j) d). split; [exact (C i a j _ Hk' Hi)|]. split; [exact D'|]. split; [exact Hd'|]. split.
  - exists L'. split; [exact HL'|]. assert (Ir : forall x, In x (remove_nth i L) -> under a x) by (intros x Hx; rewrite Forall_forall in U; apply U; eapply Props_RemoveList.in_remove; exact Hx). revert F2 Ir. generalize (remove_nth i L). clear. intros l0 F2 Ir.
    induction F2 as [|x' x l' l Lx F2 IH]; [constructor|]. constructor; [|apply IH; intros y Hy; apply Ir; now right]. destruct (Ir x (or_introl eq_refl)) as (k & kq & kats & kt & Ex). apply lifts_parts in Lx as (c & n' & n0 & -> & -> & H1 & H2). injection Ex as Ec En.
    assert (Hk : exists k0, un a j (a ++ [k0]) = un a j a ++ [k]) by (apply un_parent; rewrite un_self, <- Ec; apply un_kept). destruct Hk as [k0 Hk0]. rewrite un_self, <- Ec in Hk0. apply un_inj in Hk0. subst c.
    rewrite un_same in H1; [|intros r Hr; rewrite Ec in Hr; apply (f_equal (@List.length nat)) in Hr; rewrite !app_length in Hr; cbn [List.length] in Hr; lia]. assert (n' = n0) as -> by congruence. subst n0. now exists k0, kq, kats, kt.
  - exists q, ats, t, (remove_nth j ks). exact (removed_first E l d a j q ats t ks D Rl Nl Pll F).
Qed.

Lemma grows_data E l ax p n m a vs d : grows E l ax p n m a vs d -> list_data E (slash_name l ax p n) m d = Ret vs.
Proof. now intros (_ & H & _). Qed.
Lemma grows_len E l ax p n m a vs d : grows E l ax p n m a vs d -> list_len E (slash_name l ax p n) m d = Ret (List.length vs).
Proof. intros H. unfold list_len. now rewrite (grows_data _ _ _ _ _ _ _ _ _ H). Qed.

(** ** [l.append(v)], [l[len(l)] = v]: the list is one longer *)
Theorem C93_append : forall E l ax p n m a vs (v : pyval) d, growing E l ax p n -> grows E l ax p n m a vs d -> storable m v ->
  exists d', list_append E (slash_name l ax p n) m v d = (d', Ret tt) /\ grows E l ax p n m a (vs ++ [v]) d'.
Proof.
  intros E l ax p n m a vs v d Gr Hg St. destruct (set_end E l ax p n m a v vs d Gr Hg St) as (d' & H & Hg'). exists d'. split; [|exact Hg']. unfold list_append, bind at 1, reading. now rewrite (grows_len _ _ _ _ _ _ _ _ _ Hg).
Qed.
(** ** every operation does what it does to a Python list *)
Theorem C93_operation : forall E l ax p n m a vs o d, growing E l ax p n -> grows E l ax p n m a vs d -> (forall v, In v (op_values o) -> storable m v) ->
  exists d', field_op E (slash_name l ax p n) m o d = (d', snd (py_op o vs)) /\ grows E l ax p n m a (fst (py_op o vs)) d'.
Proof.
  intros E l ax p n m a vs o d Gr Hg St. pose proof Gr as (R & _). pose proof Hg as (D & Hd & (L & HL & _) & _). set (e := slash_name l ax p n) in *.
  assert (Out : taking_out o = true -> exists d', field_op E e m o d = (d', snd (py_op o vs)) /\ grows E l ax p n m a (fst (py_op o vs)) d').
  { intros To. apply (take_out (fun vs d => grows E l ax p n m a vs d) E e m d vs o R eq_refl D Hd Hg); [|exact To]. intros k i Hk. now apply del_within. }
  destruct o as [k v|v|us|k|k|x]; try (apply Out; reflexivity); clear Out; cbn [py_op field_op].
  - destruct (Z.eqb_spec k (Z.of_nat (List.length vs))) as [->|X]; cbn [fst snd].
    + destruct (set_end E l ax p n m a v vs d Gr Hg (St v (or_introl eq_refl))) as (d' & H & Hg'). exists d'. split; [|exact Hg']. unfold quiet, bind. fold e in H. now rewrite H.
    + destruct (at_index k (List.length vs)) as [i|] eqn:Hk; cbn [fst snd].
      * destruct (set_within E l ax p n m a v vs d k i Gr Hg (St v (or_introl eq_refl)) Hk) as (d' & H & Hg'). exists d'. split; [|exact Hg']. unfold quiet, bind. fold e in H. now rewrite H.
      * exists d. split; [|exact Hg]. rewrite (reads_len E e m d vs L R eq_refl D Hd HL) in *. unfold quiet, bind. now rewrite (C91_setitem_range E e m k v d L R eq_refl D HL Hk X).
  - destruct (C93_append E l ax p n m a vs v d Gr Hg (St v (or_introl eq_refl))) as (d' & H & Hg'). exists d'. split; [|exact Hg']. unfold quiet, bind. fold e in H. now rewrite H.
  - cbn [fst snd op_values] in *. assert (Ex : exists d', list_extend E e m us d = (d', Ret tt) /\ grows E l ax p n m a (vs ++ us) d').
    { clear D Hd L HL. revert vs d Hg. induction us as [|v us IH]; intros vs d Hg; [exists d; split; [reflexivity|now rewrite app_nil_r]|]. destruct (C93_append E l ax p n m a vs v d Gr Hg (St v (or_introl eq_refl))) as (d1 & H1 & Hg1).
      destruct (IH (fun x Hx => St x (or_intror Hx)) _ _ Hg1) as (d2 & H2 & Hg2). exists d2. rewrite <- app_assoc in Hg2. split; [|exact Hg2]. unfold list_extend. cbn [iterM]. unfold bind at 1. fold e in H1. rewrite H1. exact H2. }
    destruct Ex as (d' & H & Hg'). exists d'. split; [|exact Hg']. unfold quiet, bind. now rewrite H.
Qed.
(** ** every history of operations *)
Theorem C93_history : forall E l ax p n m a os vs d, growing E l ax p n -> grows E l ax p n m a vs d -> (forall o v, In o os -> In v (op_values o) -> storable m v) ->
  exists d', field_ops E (slash_name l ax p n) m os d = (d', snd (py_ops os vs)) /\ grows E l ax p n m a (fst (py_ops os vs)) d'.
Proof.
  intros E l ax p n m a os. induction os as [|o os IH]; intros vs d Gr Hg St; cbn [field_ops py_ops]; [exists d; now split|].
  destruct (C93_operation E l ax p n m a vs o d Gr Hg (fun v Hv => St o v (or_introl eq_refl) Hv)) as (d1 & H1 & Hg1). rewrite H1. destruct (py_op o vs) as [vs1 r]. cbn [fst snd] in *.
  destruct (IH vs1 d1 Gr Hg1 (fun o' v Ho Hv => St o' v (or_intror Ho) Hv)) as (d2 & H2 & Hg2). rewrite H2. destruct (py_ops os vs1) as [vs2 rs]. cbn [fst snd] in *. now exists d2.
Qed.
(** ** [l.insert(len(l), v)]; [insert] anywhere else appends an empty element and overwrites the value there: C32_insert_refuted *)
Theorem C93_insert_end : forall E l ax p n m a vs (v : pyval) d, growing E l ax p n -> grows E l ax p n m a vs d -> storable m v ->
  exists d', list_insert E (slash_name l ax p n) m (Z.of_nat (List.length vs)) v d = (d', Ret tt) /\ grows E l ax p n m a (vs ++ [v]) d'.
Proof.
  intros E l ax p n m a vs v d Gr Hg St. destruct (C93_append E l ax p n m a vs v d Gr Hg St) as (d' & H & Hg'). exists d'. split; [|exact Hg']. unfold list_insert, bind at 1, reading. now rewrite (grows_len _ _ _ _ _ _ _ _ _ Hg), Z.eqb_refl.
Qed.

(** ** [obj.list = us], whatever the lengths; [del obj.list] *)
Lemma set_all_grows E l ax p n m a : growing E l ax p n -> forall us pre old d, grows E l ax p n m a (pre ++ old) d -> Forall (storable m) us ->
  exists d', set_all E (slash_name l ax p n) m (List.length pre) us d = (d', Ret tt) /\ grows E l ax p n m a (pre ++ us ++ skipn (List.length us) old) d'.
Proof.
  intros Gr us. induction us as [|v us IH]; intros pre old d Hg St; [exists d; split; [reflexivity|exact Hg]|]. inversion St as [|? ? S1 S2]; subst. cbn [set_all]. destruct old as [|x old].
  - rewrite app_nil_r in Hg. destruct (set_end E l ax p n m a v pre d Gr Hg S1) as (d1 & H1 & Hg1). destruct (IH (pre ++ [v]) [] d1) as (d2 & H2 & Hg2); [now rewrite app_nil_r|exact S2|]. exists d2. unfold bind at 1. rewrite H1. rewrite app_length, Nat.add_1_r in H2. split; [exact H2|]. cbn [List.length skipn]. rewrite <- app_assoc in Hg2. destruct (List.length us); exact Hg2.
  - assert (Hk : at_index (Z.of_nat (List.length pre)) (List.length (pre ++ x :: old)) = Some (List.length pre)) by (apply at_index_nat; rewrite app_length; cbn [List.length]; lia).
    destruct (set_within E l ax p n m a v _ d _ _ Gr Hg S1 Hk) as (d1 & H1 & Hg1). rewrite (replace_app_mid _ v pre x old eq_refl) in Hg1. destruct (IH (pre ++ [v]) old d1) as (d2 & H2 & Hg2); [now rewrite <- app_assoc|exact S2|]. exists d2. unfold bind at 1. rewrite H1. rewrite app_length, Nat.add_1_r in H2. split; [exact H2|]. cbn [List.length skipn]. now rewrite <- app_assoc in Hg2.
Qed.
Lemma pop_grows E l ax p n m a vs v d : growing E l ax p n -> grows E l ax p n m a (vs ++ [v]) d -> exists d', list_pop E (slash_name l ax p n) m None d = (d', Ret v) /\ grows E l ax p n m a vs d'.
Proof.
  intros Gr Hg. assert (Hk : at_index (-1) (List.length (vs ++ [v])) = Some (List.length vs)).
  { rewrite app_length. cbn [List.length]. unfold at_index. cbv zeta. change (-1 <? 0)%Z with true. cbn iota. destruct (Z.leb_spec 0 (-1 + Z.of_nat (List.length vs + 1))); [|lia]. destruct (Z.ltb_spec (-1 + Z.of_nat (List.length vs + 1)) (Z.of_nat (List.length vs + 1))); [|lia]. cbn [andb]. f_equal. lia. }
  assert (Hw : without (List.length vs) (vs ++ [v]) = vs) by (unfold without; rewrite firstn_app, Nat.sub_diag, firstn_all; rewrite skipn_all2 by (rewrite app_length; cbn [List.length]; lia); cbn [firstn]; now rewrite !app_nil_r).
  destruct (C93_operation E l ax p n m a (vs ++ [v]) (LPop None) d Gr Hg) as (d' & H1 & R1); [intros x []|]. cbn [py_op] in *. rewrite Hk in *. cbn [fst snd field_op] in *. rewrite Hw in R1.
  exists d'. split; [|exact R1]. unfold bind in H1. destruct (list_pop E (slash_name l ax p n) m None d) as [d1 [y|x]]; [|discriminate]. unfold ret in H1. rewrite nth_error_app2, Nat.sub_diag in H1 by lia. cbn [nth_error] in H1. injection H1 as H1 H2. now subst.
Qed.
Lemma trim_grows E l ax p n m a k : growing E l ax p n -> forall fuel vs d, grows E l ax p n m a vs d -> k <= List.length vs -> List.length vs <= fuel + k ->
  exists d', trim E (slash_name l ax p n) m k fuel d = (d', Ret tt) /\ grows E l ax p n m a (firstn k vs) d'.
Proof.
  intros Gr. induction fuel as [|f IH]; intros vs d Hr Hn Hf; cbn [trim]; unfold bind at 1, reading; rewrite (grows_len _ _ _ _ _ _ _ _ _ Hr); destruct (Nat.ltb_spec k (List.length vs)); try lia.
  - exists d. split; [reflexivity|]. now rewrite firstn_all2 by lia.
  - destruct (snoc_inv vs) as [->|(vs0 & v & ->)]; [cbn [List.length] in *; lia|]. destruct (pop_grows E l ax p n m a vs0 v d Gr Hr) as (d1 & H1 & R1). rewrite app_length in *. cbn [List.length] in *.
    destruct (IH vs0 d1 R1) as (d2 & H2 & R2); [lia|lia|]. exists d2. split; [unfold bind; now rewrite H1|]. rewrite firstn_app. replace (k - List.length vs0) with 0 by lia. cbn [firstn]. now rewrite app_nil_r.
  - exists d. split; [reflexivity|]. now rewrite firstn_all2 by lia.
Qed.
Theorem C93_assign : forall E l ax p n m a us vs d, growing E l ax p n -> grows E l ax p n m a vs d -> Forall (storable m) us ->
  exists d', lmgr_set E (slash_name l ax p n) m us d = (d', Ret tt) /\ grows E l ax p n m a us d'.
Proof.
  intros E l ax p n m a us vs d Gr Hg St. destruct (set_all_grows E l ax p n m a Gr us [] vs d Hg St) as (d1 & H1 & R1). cbn [app List.length] in H1, R1.
  destruct (trim_grows E l ax p n m a (List.length us) Gr (List.length (us ++ skipn (List.length us) vs)) _ d1 R1) as (d2 & H2 & R2); [rewrite app_length; lia|lia|]. exists d2. split.
  - unfold lmgr_set. unfold bind at 1. rewrite H1. unfold bind, reading. now rewrite (grows_len _ _ _ _ _ _ _ _ _ R1).
  - rewrite firstn_app, Nat.sub_diag, firstn_all in R2. cbn [firstn] in R2. now rewrite app_nil_r in R2.
Qed.
Theorem C93_delete : forall E l ax p n m a vs d, growing E l ax p n -> grows E l ax p n m a vs d -> Forall comparable vs ->
  exists d', lmgr_delete E (slash_name l ax p n) m d = (d', Ret tt) /\ grows E l ax p n m a [] d'.
Proof.
  intros E l ax p n m a vs d Gr Hr Cm. unfold lmgr_delete. unfold bind at 1, reading. rewrite (grows_data _ _ _ _ _ _ _ _ _ Hr). revert d Hr. induction vs as [|v vs IH]; intros d Hr; cbn [iterM]; [exists d; split; [reflexivity|exact Hr]|].
  inversion Cm as [|? ? C1 C2]; subst. assert (Hf : find_eq v (v :: vs) = Some 0) by (cbn [find_eq]; now rewrite (py_eq_refl v C1)).
  destruct (C93_operation E l ax p n m a (v :: vs) (LRemove v) d Gr Hr) as (d1 & H1 & R1); [intros x []|]. cbn [py_op] in *. rewrite Hf in *. cbn [fst snd field_op] in *. change (without 0 (v :: vs)) with vs in R1.
  destruct (IH C2 d1 R1) as (d2 & H2 & R2). exists d2. split; [|exact R2]. unfold quiet, bind in H1. unfold bind at 1. destruct (list_remove E (slash_name l ax p n) m v d) as [d0 [[]|x]]; [|discriminate]. unfold ret in H1. injection H1 as ->. exact H2.
Qed.

(** where: a last child of the first node found by [l]; everything else is as before *)
Theorem C93_append_where : forall E l ax p n m a vs (v : pyval) d q ats t ks, growing E l ax p n -> grows E l ax p n m a vs d -> storable m v -> get_at a d = Some (Elem q ats t ks) ->
  exists d' kq s, list_append E (slash_name l ax p n) m v d = (d', Ret tt) /\ passes E p n kq /\ to_xml m v = Ret (Some s) /\ get_at a d' = Some (Elem q ats t (ks ++ [(Elem kq [] (Some s) [], None)])) /\
    forall c x, c <> a -> get_at c d = Some x -> exists x', get_at c d' = Some x' /\ shell x' = shell x.
Proof.
  intros E l ax p n m a vs v d q ats t ks Gr Hg St G. destruct (set_end' E l ax p n m a v vs d Gr Hg St) as (kq & s & Pk & Hs & H & Hg'). exists (upd_at a (append_kid (Elem kq [] (Some s) [])) d), kq, s. split; [unfold list_append, bind at 1, reading; now rewrite (grows_len _ _ _ _ _ _ _ _ _ Hg)|].
  split; [exact Pk|]. split; [exact Hs|]. split; [now rewrite (get_upd_same a _ d _ G)|]. intros c x Hc Gc. exact (append_others _ a d _ c x G Hc Gc).
Qed.

(** ** a single field 'l/name' that finds nothing: assigning a value creates the element, and the field then reads that value *)
Theorem C93_create : forall E s l ax p n (v : str) d a x, parse s = Ok (slash_name l ax p n) -> growing E l ax p n -> attributes_distinct d -> (forall i, ~ picks E (slash_name l ax p n) d i) -> first_of d (picks E l d) (IElem a x) -> tag_of x <> None -> Forall xml_character v ->
  exists d', string_set E s (Some v) d = (d', Ret tt) /\ string_get E s d' = Ret (Some v) /\ grows E l ax p n (MString false) a [PStr v] d'.
Proof.
  intros E s l ax p n v d a x Hp Gr D H F T V. destruct x as [q ats t ks|]; [|now destruct T]. pose proof Gr as (R & Pl & Pll & B & Ax & P0 & N0 & Rr). destruct (slash_parts E l _ R) as (Rl & Nl & Rs & Ns). pose proof (first_get E l d a _ Rl Nl D F) as G.
  assert (Hl : listing E (slash_name l ax p n) d []) by (split; [constructor|intros i; split; [intros []|intros Hi; exact (H i Hi)]]). apply xml_valid_iff in V.
  assert (Hg : grows E l ax p n (MString false) a [] d).
  { split; [exact D|]. split; [|split; [exists []; split; [exact Hl|constructor]|now exists q, ats, t, ks]]. destruct (listing_matches E _ d [] R eq_refl D Hl) as [M _]. unfold list_data. now rewrite M. }
  destruct (set_end' E l ax p n (MString false) a (PStr v) [] d Gr Hg (sto v V)) as (kq & s0 & _ & Hs & Hset & Hg'). injection Hs as <-. cbn [app] in Hg'. exists (upd_at a (append_kid (Elem kq [] (Some v) [])) d). split; [|split; [|exact Hg']].
  - destruct (listing_matches E _ d [] R eq_refl D Hl) as [M _]. unfold string_set, with_xpath. rewrite Hp. unfold mgr_set, bind at 1, reading. rewrite (not_found E _ d R eq_refl D H).
    unfold list_setitem in Hset. unfold bind at 1, reading in Hset. rewrite M in Hset. cbn [List.length last_item rev] in Hset. rewrite Z.eqb_refl in Hset. unfold bind in *. destruct (build E Create (slash_name l ax p n) (Some doc_root) None d) as [d1 [r|y]]; [|discriminate]. exact Hset.
  - destruct Hg' as (D' & Hd & (L & HL & U) & _). pose proof (reads_len E _ _ _ _ L R eq_refl D' Hd HL) as Hlen. destruct L as [|i [|]]; try discriminate Hlen. inversion U as [|? ? (k & q1 & ats1 & t1 & ->) _]; subst. destruct (listing_matches E _ _ _ R eq_refl D' HL) as [M' _].
    unfold list_data in Hd. rewrite M' in Hd. unfold matches in M'. unfold string_get. rewrite Hp. unfold get_string. destruct (eval_at E (slash_name l ax p n) doc_root (upd_at a (append_kid (Elem kq [] (Some v) [])) d)) as [[| | |]|]; try discriminate M'. injection M' as ->. cbn in Hd. injection Hd as Hd. cbn [item_str strval flat_map]. now rewrite Hd.
Qed.

Fixpoint same_expr (a b : expr) : bool :=
  match a, b with
  | ELit s, ELit s' => str_eqb s s'
  | EAbbrev s, EAbbrev s' => str_eqb s s'
  | EBin l op r, EBin l' op' r' => (same_expr l l' && str_eqb op op' && same_expr r r')%bool
  | EStep ax t ps, EStep ax' t' ps' => (ostr_eqb ax ax' && test_eqb t t' && all2 same_expr ps ps')%bool
  | _, _ => false
  end.
Lemma same_expr_eq a : forall b, same_expr a b = true -> a = b.
Proof.
  induction a as [s0| | | |l op r IHl IHr| | | |ax t ps H|ab| |] using expr_ind'; intros b; destruct b; cbn [same_expr]; try discriminate.
  - intros H. f_equal. now apply str_eqb_eq.
  - intros H. apply andb_prop in H as [H H3]. apply andb_prop in H as [H1 H2]. f_equal; auto. now apply str_eqb_eq.
  - intros G. apply andb_prop in G as [G G3]. apply andb_prop in G as [G1 G2]. f_equal.
    + now apply ostr_eqb_eq.
    + destruct t, node_test; cbn in G2; try discriminate; apply andb_prop in G2 as [A B]; f_equal; try (now apply ostr_eqb_eq); now apply str_eqb_eq.
    + revert predicates G3. induction H as [|x l Hx Hl IH]; intros [|y l'] G3; cbn in G3; try discriminate; [reflexivity|]. apply andb_prop in G3 as [A B]. f_equal; auto.
  - intros H. f_equal. now apply str_eqb_eq.
Qed.
(** ** the shipped classes: 5 list fields and 43 single ones are such 'l/name' *)
Definition grower (E : env) (e : expr) : bool :=
  match e with
  | EBin l op (EStep ax (NameTest p n) []) => str_eqb op (u "/") && readable E e && plain e && plain l && blind E None e && child_axis ax && match p with Some [] => false | _ => true end && negb (str_eqb n (u "*")) && match reread l with Some l' => same_expr l' l | None => false end
  | _ => false
  end%bool.
Lemma grower_name E l ax p n : grower E (slash_name l ax p n) = true -> growing E l ax p n.
Proof.
  unfold grower, slash_name. intros H. repeat apply andb_prop in H as [H ?Hc]. unfold growing, slash_name. repeat split; auto.
  - now apply child_axis_ok.
  - intros ->. discriminate.
  - intros ->. discriminate.
  - destruct (reread l) as [l'|]; [|discriminate]. f_equal. now apply same_expr_eq.
Qed.
Lemma grower_growing E e : grower E e = true -> exists l ax p n, e = slash_name l ax p n /\ growing E l ax p n.
Proof.
  intros H. assert (He : exists l ax p n, e = slash_name l ax p n).
  { unfold grower in H. destruct e as [| | | |l op r|b ps| |ax t ps|ab|p n|p n args]; try discriminate. destruct r as [| | | | | | |ax t ps| | |]; try discriminate. destruct t as [p n|]; try discriminate. destruct ps; [|discriminate].
    repeat apply andb_prop in H as [H ?Hc]. apply str_eqb_eq in H. subst op. now exists l, ax, p, n. }
  destruct He as (l & ax & p & n & ->). exists l, ax, p, n. split; [reflexivity|now apply grower_name].
Qed.
Definition shipped_grower (r : row) : bool := match parse (r_xpath r) with Ok e => grower (just (r_ns r)) e | _ => false end.
Lemma shipped_growers : List.length (filter (fun r => many r && shipped_grower r)%bool shipped) = 5 /\ List.length (filter (fun r => negb (many r) && shipped_grower r)%bool shipped) = 43.
Proof. vm_compute. now split. Qed.
Lemma grower_agree l0 E e : binds E l0 -> names_declared l0 e = true -> grower E e = grower (just l0) e.
Proof.
  intros B Hn. unfold grower. destruct e as [| | | |l op r|b ps| |ax t ps|ab|p n|p n args]; try reflexivity. destruct r as [| | | | | | |ax t ps| | |]; try reflexivity. destruct t as [p n|]; try reflexivity. destruct ps; [|reflexivity]. unfold readable. now rewrite (ty_agree _ _ B _ Hn), (blind_agree _ _ B).
Qed.
Theorem C93_shipped : forall r E, In r shipped -> shipped_grower r = true -> binds E (r_ns r) -> exists l ax p n, parse (r_xpath r) = Ok (slash_name l ax p n) /\ growing E l ax p n.
Proof.
  intros r E Hr Sg B. destruct (C71_xpaths_parse r Hr) as (e & He & Hn). unfold shipped_grower in Sg. rewrite He in Sg. rewrite <- (grower_agree _ E e B Hn) in Sg. destruct (grower_growing E e Sg) as (l & ax & p & n & -> & Gr). now exists l, ax, p, n.
Qed.

(** ** concrete cases *)
Open Scope string_scope.
(** the phones of person 7, wherever it is *)
Definition book : node := el "r" [] "" [el "b" [] "" [el "person" [("id", "3")] "" [el "phone" [] "x" []]]; el "c" [] "" [el "person" [("id", "7")] "" [el "phone" [] "1" []; el "name" [] "n" []]]].
Definition of7 : expr := xp ".//person[@id = '7']".
Lemma phones : xp ".//person[@id = '7']/phone" = slash_name of7 None None (u "phone").
Proof. vm_compute. reflexivity. Qed.
Example C93_growing_case : growing E0 of7 None None (u "phone").
Proof.
  apply grower_name. rewrite <- phones. vm_compute. reflexivity.
Qed.
Example C93_grows_case : grows E0 of7 None None (u "phone") (MString false) [1; 0]%nat (strs ["1"]) book.
Proof.
  pose proof C93_growing_case as (R & _). assert (D : attributes_distinct book) by (apply dist_ok; vm_compute; reflexivity). destruct (slash_parts E0 of7 _ R) as (Rl & Nl & _).
  assert (M : matches E0 (slash_name of7 None None (u "phone")) book = Ret [IElem [1; 0; 0]%nat (el "phone" [] "1" [])]) by (rewrite <- phones; vm_compute; reflexivity). split; [exact D|]. split; [unfold list_data; rewrite M; vm_compute; reflexivity|]. split.
  - eexists. split; [apply listing_eval; [exact R|reflexivity|exact D|exact M]|]. constructor; [|constructor]. exists 0%nat. do 3 eexists. reflexivity.
  - exists (QN None (u "person")), [(QN None (u "id"), u "7")], None, [(el "phone" [] "1" [], None); (el "name" [] "n" [], None)]. apply (head_first E0 of7 book _ [] Rl Nl D). vm_compute. reflexivity.
Qed.
Example C93_history_case : let os := [LAppend (PStr (u "2")); LExtend (strs ["3"; "4"]); LRemove (PStr (u "1")); LSet 3 (PStr (u "5")); LPop None; LDel 9] in
  py_ops os (strs ["1"]) = (strs ["2"; "3"; "4"], [Ret None; Ret None; Ret None; Ret None; Ret (Some (PStr (u "5"))); Exc XIndex]) /\
  field_ops E0 (xp ".//person[@id = '7']/phone") (MString false) os book =
    (el "r" [] "" [el "b" [] "" [el "person" [("id", "3")] "" [el "phone" [] "x" []]]; el "c" [] "" [el "person" [("id", "7")] "" [el "name" [] "n" []; el "phone" [] "2" []; el "phone" [] "3" []; el "phone" [] "4" []]]],
     [Ret None; Ret None; Ret None; Ret None; Ret (Some (PStr (u "5"))); Exc XIndex]).
Proof. intros os. split; vm_compute; reflexivity. Qed.
Example C93_create_case : exists d', string_set E0 (u ".//person[@id = '7']/mail") (Some (u "q")) book = (d', Ret tt) /\ string_get E0 (u ".//person[@id = '7']/mail") d' = Ret (Some (u "q")) /\ string_get E0 (u ".//person[@id = '7']/mail") book = Ret None.
Proof. eexists. split; [vm_compute; reflexivity|]. split; vm_compute; reflexivity. Qed.
(** ** what the hypotheses are for *)
(** values under a later node: the first one found by [l] gets the new value, before them *)
Theorem C93_elsewhere : let d := el "r" [] "" [el "b" [] "" []; el "b" [] "" [el "t" [] "x" []]] in list_data E0 (xp ".//b/t") (MString false) d = Ret (strs ["x"]) /\
  exists d', list_append E0 (xp ".//b/t") (MString false) (PStr (u "y")) d = (d', Ret tt) /\ list_data E0 (xp ".//b/t") (MString false) d' = Ret (strs ["y"; "x"]).
Proof. intros d. split; [vm_compute; reflexivity|]. eexists. split; vm_compute; reflexivity. Qed.
(** [l] asks for children: the new child changes what it finds *)
Theorem C93_predicate : let d := el "r" [] "" [el "b" [] "" []] in list_data E0 (xp ".//b[not(t)]/t") (MString false) d = Ret [] /\
  exists d', list_append E0 (xp ".//b[not(t)]/t") (MString false) (PStr (u "y")) d = (d', Ret tt) /\ list_data E0 (xp ".//b[not(t)]/t") (MString false) d' = Ret [].
Proof. intros d. split; [vm_compute; reflexivity|]. eexists. split; vm_compute; reflexivity. Qed.
Close Scope string_scope.
Print Assumptions C93_append.
Print Assumptions C93_operation.
Print Assumptions C93_history.
Print Assumptions C93_insert_end.
Print Assumptions C93_assign.
Print Assumptions C93_delete.
Print Assumptions C93_append_where.
Print Assumptions C93_create.
Print Assumptions C93_shipped.
Print Assumptions C93_elsewhere.
Print Assumptions C93_predicate.
