(** Fields of one object do not disturb one another: every operation of a field changes only what the
    first step of its XPath can see. *)
From Coq Require Import String Arith ZArith Lia.
From Verif Require Export FieldPrune ListFacts IndepSpec.
From Verif Require Import XPathEval FieldSpec DocSpec.

Opaque u.

(** ** [sim] is an equivalence *)
Lemma sim_refl D d : sim D d d.
Proof. split; [reflexivity|]. destruct D; auto. Qed.
Lemma sim_trans D d1 d2 d3 : sim D d1 d2 -> sim D d2 d3 -> sim D d1 d3.
Proof. intros [T1 H1] [T2 H2]. split; [congruence|]. destruct D; destruct H1, H2; split; congruence. Qed.

(** computations that change only what a step of kind [D] sees *)
Definition only {A} (D : skind) (m : M A) : Prop := forall d d' r, tag_of d <> None -> m d = (d', r) -> sim D d d'.
Lemma only_ret {A} D (x : A) : only D (ret x).
Proof. intros d d' r _ [= <- _]. apply sim_refl. Qed.
Lemma only_raise {A} D e : only D (@raise A e).
Proof. intros d d' r _ [= <- _]. apply sim_refl. Qed.
Lemma only_reading {A} D (f : node -> res A) : only D (reading f).
Proof. intros d d' r _ [= <- _]. apply sim_refl. Qed.
Lemma only_bind {A B} D (m : M A) (f : A -> M B) : only D m -> (forall x, only D (f x)) -> only D (bind m f).
Proof.
  intros Hm Hf d d' r Hd H. unfold bind in H. destruct (m d) as [d1 [x|e]] eqn:E; pose proof (Hm _ _ _ Hd E) as S1.
  - eapply sim_trans; [exact S1|]. eapply Hf; [|exact H]. destruct S1 as [<- _]. exact Hd.
  - injection H as <- _. exact S1.
Qed.
Lemma only_iter {A B} D (f : A -> M B) l : (forall x, only D (f x)) -> only D (iterM f l).
Proof. intros Hf. induction l; cbn [iterM]; [apply only_ret|apply only_bind; auto]. Qed.

(** ** addresses at or below a child called [q] *)
Definition below (q : qname) (d : node) (a : addr) : Prop :=
  exists i b k, a = i :: b /\ nth_error (kids_of d) i = Some k /\ tag_of (fst k) = Some q.
Definition bref (q : qname) (d : node) (r : ref) : Prop :=
  match r with RElem a | RAttr a _ | RText a _ => below q d a | RVal _ => True end.
(** such changes keep all these addresses *)
Definition stable (q : qname) (d d' : node) : Prop := sim (KChild q) d d' /\ forall a, below q d a -> below q d' a.
Lemma stable_refl q d : stable q d d.
Proof. split; [apply sim_refl|auto]. Qed.
Lemma stable_trans q d1 d2 d3 : stable q d1 d2 -> stable q d2 d3 -> stable q d1 d3.
Proof. intros [S1 B1] [S2 B2]. split; [eapply sim_trans; eauto|auto]. Qed.
Lemma below_app q d a b : below q d a -> below q d (a ++ b).
Proof. intros (i & c & k & -> & H). exists i, (c ++ b), k. auto. Qed.

Lemma stable_upd q d a f : below q d a -> (forall m, tag_of (f m) = tag_of m) -> stable q d (upd_at a f d).
Proof.
  intros (i & b & k & -> & Hi & Ht) Hf.
  assert (Hn : tag_of (upd_at b f (fst k)) = Some q) by (rewrite tag_upd_at; auto).
  split; [split; [|split]|].
  - symmetry. apply tag_upd_at. discriminate.
  - symmetry. apply attrs_upd_cons.
  - rewrite kids_upd_cons. symmetry. apply filter_upd_nth. intros x Hx. rewrite Hi in Hx. injection Hx as <-. cbn [fst].
    unfold has_tag. rewrite Hn, Ht, qeqb_refl. auto.
  - intros a (j & c & k' & -> & Hj & Ht'). destruct (Nat.eq_dec i j) as [<-|N].
    + exists i, c, (upd_at b f (fst k), snd k). split; [reflexivity|]. split; [|exact Hn]. rewrite kids_upd_cons, nth_upd_nth, Nat.eqb_refl, Hi. reflexivity.
    + exists j, c, k'. split; [reflexivity|]. split; [|exact Ht']. rewrite kids_upd_cons, nth_upd_nth. destruct (Nat.eqb_spec i j); [congruence|exact Hj].
Qed.
Lemma tag_set_kids f n : tag_of (set_kids f n) = tag_of n.
Proof. destruct n; reflexivity. Qed.
Lemma tag_del_attr q n : tag_of (del_attr q n) = tag_of n.
Proof. destruct n; reflexivity. Qed.

(** ** writing at or below such a child *)
Lemma set_text_below q a v d d' r : below q d a -> set_text_at a v d = (d', r) -> stable q d d'.
Proof.
  intros H Hm. unfold set_text_at in Hm. destruct v as [s|]; [destruct (xml_valid s)|]; injection Hm as <- _; try apply stable_refl; apply stable_upd; auto; intros; apply tag_set_text.
Qed.
Lemma set_attr_below E q a st v d d' r : below q d a -> set_attr_at E a st v d = (d', r) -> stable q d d'.
Proof.
  intros H Hm. unfold set_attr_at in Hm. destruct st as [s0|]; [|injection Hm as <- _; apply stable_refl].
  destruct s0; try (injection Hm as <- _; apply stable_refl).
  destruct node_test as [p nm|nm o]; (destruct (negb (name_valid nm)); [injection Hm as <- _; apply stable_refl|]); (destruct v as [s|]; [destruct (xml_valid s)|]);
    injection Hm as <- _; try apply stable_refl; apply stable_upd; auto; intros; apply tag_set_attr.
Qed.
Lemma set_below E q x v st d d' r : (forall y, x = Some y -> bref q d y) -> set_in_xml E x v st d = (d', r) -> stable q d d'.
Proof.
  intros Hx Hm. destruct x as [[a|a qa|a tl|w]|]; cbn [set_in_xml] in Hm.
  - specialize (Hx _ eq_refl). cbn in Hx. destruct (get_at a d) as [n|]; [|injection Hm as <- _; apply stable_refl]. destruct (kids_of n); [|injection Hm as <- _; apply stable_refl].
    eapply set_text_below; eauto.
  - specialize (Hx _ eq_refl). cbn in Hx. destruct (is_text_nodetest st); [eapply set_text_below|eapply set_attr_below]; eauto.
  - specialize (Hx _ eq_refl). cbn in Hx. destruct (is_text_nodetest st); [eapply set_text_below|eapply set_attr_below]; eauto.
  - destruct w; injection Hm as <- _; apply stable_refl.
  - injection Hm as <- _. apply stable_refl.
Qed.

(** ** constructing below such a child *)
Lemma create_child_below E q p nm x d d' r : (forall y, x = Some y -> bref q d y) -> create_child E p nm x None d = (d', r) ->
  stable q d d' /\ forall y, r = Ret (Some y) -> bref q d' y.
Proof.
  intros Hx Hm. unfold create_child in Hm. assert (R : forall e, (d, @Exc (option ref) e) = (d', r) -> stable q d d' /\ forall y, r = Ret (Some y) -> bref q d' y).
  { intros e [= <- <-]. split; [apply stable_refl|discriminate]. }
  destruct (child_ns E p) as [uri|e0]; [|exact (R _ Hm)]. destruct (negb (name_valid nm)); [exact (R _ Hm)|].
  destruct x as [[a|a qa|a tl|w]|]; try exact (R _ Hm). specialize (Hx _ eq_refl). cbn in Hx.
  destruct (get_at a d) as [n|]; [|exact (R _ Hm)]. injection Hm as <- <-.
  assert (S : stable q d (upd_at a (insert_kid (length (kids_of n)) (Elem (QN uri nm) [] None [])) d)) by (apply stable_upd; auto; intros; apply tag_set_kids).
  split; [exact S|]. intros y [= <-]. cbn [bref]. apply below_app. now apply S.
Qed.
Lemma create_attr_below E q p nm x d d' r : (forall y, x = Some y -> bref q d y) -> create_attr E p nm x d = (d', r) ->
  stable q d d' /\ forall y, r = Ret (Some y) -> bref q d' y.
Proof.
  intros Hx Hm. unfold create_attr in Hm. destruct x as [[a|a qa|a tl|w]|]; try (injection Hm as <- <-; split; [apply stable_refl|discriminate]).
  specialize (Hx _ eq_refl). cbn in Hx. destruct (negb (name_valid nm)); [injection Hm as <- <-; split; [apply stable_refl|discriminate]|]. injection Hm as <- <-.
  assert (S : stable q d (upd_at a (set_attr (attr_name E p nm) []) d)) by (apply stable_upd; auto; intros; apply tag_set_attr).
  split; [exact S|]. intros y Hy. destruct (resolve E (pfx p)); [|discriminate]. injection Hy as <-. now apply S.
Qed.

Definition P_below (E : env) (e : expr) : Prop := forall q m x d d' r, m = Construct \/ is_estep e = true ->
  (forall y, x = Some y -> bref q d y) -> build E m e x None d = (d', r) -> stable q d d' /\ forall y, r = Ret (Some y) -> bref q d' y.
Lemma iter_below E q x ps : Forall (P_below E) ps -> forall d d' r, (forall y, x = Some y -> bref q d y) ->
  iterM (fun p => build E Construct p x None) ps d = (d', r) -> stable q d d'.
Proof.
  induction 1 as [|p ps Hp _ IH]; intros d d' r Hx Hm; cbn [iterM] in Hm; [injection Hm as <- _; apply stable_refl|].
  unfold bind in Hm. destruct (build E Construct p x None d) as [d1 [y|e]] eqn:E1; destruct (Hp q Construct x d d1 _ (or_introl eq_refl) Hx E1) as [S1 _].
  - eapply stable_trans; [exact S1|]. eapply IH; [|exact Hm]. intros y' Hy'. specialize (Hx _ Hy'). destruct y'; cbn in *; try apply S1; auto.
  - injection Hm as <- _. exact S1.
Qed.
Lemma bref_stable q d d' x : stable q d d' -> bref q d x -> bref q d' x.
Proof. intros [_ S] H. destruct x; cbn in *; auto. Qed.

Lemma step_below E ax t ps : Forall (P_below E) ps -> forall q m x d d' r, (forall y, x = Some y -> bref q d y) ->
  build E m (EStep ax t ps) x None d = (d', r) -> stable q d d' /\ forall y, r = Ret (Some y) -> bref q d' y.
Proof.
  intros HP q m x d d' r Hx Hm. destruct t as [p nm|nm o]; cbn [build] in Hm.
  - destruct (forallb constructible ps); [|injection Hm as <- <-; split; [apply stable_refl|discriminate]].
    set (c := if child_axis ax then create_child E p nm x None else if attr_axis ax then create_attr E p nm x else raise XUnbound) in Hm.
    assert (Hc : forall d1 r1, c d = (d1, r1) -> stable q d d1 /\ forall y, r1 = Ret (Some y) -> bref q d1 y).
    { intros d1 r1 H1. unfold c in H1. destruct (child_axis ax); [eapply create_child_below; eauto|]. destruct (attr_axis ax); [eapply create_attr_below; eauto|].
      injection H1 as <- <-. split; [apply stable_refl|discriminate]. }
    unfold bind at 1 in Hm. destruct (c d) as [d1 [new|e]] eqn:E1; destruct (Hc _ _ eq_refl) as [S1 B1]; [|injection Hm as <- <-; split; [exact S1|discriminate]].
    unfold bind, ret in Hm. destruct (iterM (fun q0 => build E Construct q0 new None) ps d1) as [d2 [[]|e]] eqn:E2.
    + injection Hm as <- <-. assert (Hn : forall y, new = Some y -> bref q d1 y) by (intros y ->; now apply B1).
      pose proof (iter_below E q new ps HP d1 d2 _ Hn E2) as S2. split; [eapply stable_trans; eauto|]. intros y [= ->]. eapply bref_stable; eauto.
    + injection Hm as <- <-. assert (Hn : forall y, new = Some y -> bref q d1 y) by (intros y ->; now apply B1).
      pose proof (iter_below E q new ps HP d1 d2 _ Hn E2) as S2. split; [eapply stable_trans; eauto|discriminate].
  - destruct (str_eqb nm (u "text")); injection Hm as <- <-; (split; [apply stable_refl|]); [|discriminate]. intros y [= ->]. auto.
Qed.
Lemma build_below E e : P_below E e.
Proof.
  induction e using expr_ind'; intros q m x d d' r Hme Hx Hm.
  all: try (destruct Hme as [->|Hme]; [|discriminate]; cbn [build] in Hm; injection Hm as <- <-; split; [apply stable_refl|discriminate]).
  - destruct Hme as [->|Hme]; [|discriminate]. cbn [build] in Hm. destruct (str_eqb op (u "/")).
    + unfold bind in Hm. destruct (build E Construct e1 x None d) as [d1 [leaf|er]] eqn:E1; destruct (IHe1 q Construct x d d1 _ (or_introl eq_refl) Hx E1) as [S1 B1]; [|injection Hm as <- <-; split; [exact S1|discriminate]].
      destruct (IHe2 q Construct leaf d1 d' r (or_introl eq_refl)) as [S2 B2]; [intros y ->; now apply B1|exact Hm|]. split; [eapply stable_trans; eauto|exact B2].
    + destruct (str_eqb op (u "=")); [|injection Hm as <- <-; split; [apply stable_refl|discriminate]].
      unfold bind in Hm. destruct (build E Construct e1 x None d) as [d1 [leaf|er]] eqn:E1; destruct (IHe1 q Construct x d d1 _ (or_introl eq_refl) Hx E1) as [S1 B1]; [|injection Hm as <- <-; split; [exact S1|discriminate]].
      destruct (pred_value E e2) as [v|er]; [|injection Hm as <- <-; split; [exact S1|discriminate]].
      assert (Hl : forall y, leaf = Some y -> bref q d1 y) by (intros y ->; now apply B1).
      destruct (set_in_xml E leaf (Some v) (terminal_step e1) d1) as [d2 [[]|er]] eqn:E2; pose proof (set_below _ _ _ _ _ _ _ _ Hl E2) as S2; injection Hm as <- <-.
      * split; [eapply stable_trans; eauto|]. intros y [= ->]. eapply bref_stable; eauto.
      * split; [eapply stable_trans; eauto|discriminate].
  - eapply step_below; eauto.
Qed.

(** ** paths that start with a child step *)

Lemma sel_below E s ss q d b : kind E s = Some (KChild q) -> In b (sel E (s :: ss) d) -> below q d b.
Proof.
  intros Hk Hb. destruct (In_sel_cons _ _ _ _ _ Hb) as (i & k & b' & -> & Hi & Hm & _). exists i, b', k. split; [reflexivity|]. split; [exact Hi|]. eapply mstep_tag; eauto.
Qed.
Lemma first_kind_spine E e k : first_kind E e = Some k -> exists s ss, spine e = s :: ss /\ kind E s = Some k.
Proof. unfold first_kind. rewrite spine_steps. destruct (spine e) as [|s ss]; [discriminate|]. eauto. Qed.
Lemma abbrev_or_first E dot l r : joins E l r = true -> ok E dot l = true -> l = EAbbrev (u ".") \/ exists q, first_kind E l = Some (KChild q).
Proof.
  intros Hj Ho. pose proof (joins_path _ _ _ _ Hj Ho) as Hp. pose proof (joins_left _ _ _ _ Hj Ho) as Hl.
  pose proof (spine_ok _ _ _ Hp Ho Hl) as Hs. unfold first_kind. rewrite spine_steps. destruct (spine l) as [|s ss] eqn:Es.
  - left. destruct l; cbn [spine] in Es; try discriminate; [destruct (spine l1); discriminate|]. cbn [is_path] in Hp. apply str_eqb_eq in Hp. now subst.
  - right. destruct Hs as (_ & Hq & _). exact Hq.
Qed.
Lemma first_kind_slash E l op r : first_kind E (EBin l op r) = match spine l with [] => kind E r | _ => first_kind E l end.
Proof. unfold first_kind. rewrite (spine_steps (EBin l op r)), (spine_steps l). cbn [spine]. destruct (spine l); reflexivity. Qed.

(** a new child of the object's own element *)
Lemma insert_root q i K d : tag_of d <> None -> i <= length (kids_of d) -> tag_of K = Some q ->
  sim (KChild q) d (insert_kid i K d) /\ below q (insert_kid i K d) [i].
Proof.
  intros Hd Hi HK. destruct d as [qd ats t ks|]; [|contradiction]. unfold insert_kid. cbn [set_kids kids_of] in *. split.
  - split; [reflexivity|]. split; [reflexivity|]. cbn [kids_of]. unfold insert_nth. rewrite <- (firstn_skipn i ks) at 1. rewrite !filter_app. cbn [filter fst].
    unfold has_tag at 4. rewrite HK, qeqb_refl. reflexivity.
  - exists i, [], (K, None). split; [reflexivity|]. split; [|exact HK]. cbn [kids_of]. now apply nth_insert.
Qed.

Lemma step_root E ax t ps q m ins d d' r : kind E (EStep ax t ps) = Some (KChild q) -> tag_of d <> None ->
  build E m (EStep ax t ps) (Some doc_root) ins d = (d', r) -> sim (KChild q) d d' /\ forall y, r = Ret (Some y) -> bref q d' y.
Proof.
  intros Hk Hd Hm. destruct (kind_child _ _ _ _ _ Hk) as (p & nm & -> & Hax & _). destruct (child_ns_kind _ _ _ _ _ _ Hk) as (Hns & Hv & Hl).
  cbn [build] in Hm. destruct (forallb constructible ps); [|injection Hm as <- <-; split; [apply sim_refl|discriminate]]. rewrite Hax in Hm.
  unfold bind at 1 in Hm. unfold create_child in Hm. rewrite Hns, Hv in Hm. cbn [negb doc_root get_at upd_at app] in Hm.
  set (i := match ins with Some i => Nat.min i (length (kids_of d)) | None => length (kids_of d) end) in Hm.
  set (K := Elem (QN (q_ns q) nm) [] None []) in Hm. assert (HK : tag_of K = Some q) by (cbn; subst nm; destruct q; reflexivity).
  assert (Hi : i <= length (kids_of d)) by (unfold i; destruct ins; lia).
  destruct (insert_root q i K d Hd Hi HK) as [S1 B1]. unfold bind, ret in Hm.
  destruct (iterM (fun p0 => build E Construct p0 (Some (RElem [i])) None) ps (insert_kid i K d)) as [d2 [[]|e]] eqn:E2.
  all: assert (S2 : stable q (insert_kid i K d) d2) by (eapply iter_below; [apply Forall_forall; intros; apply build_below| |exact E2]; intros y [= <-]; exact B1).
  all: injection Hm as <- <-; (split; [eapply sim_trans; [exact S1|apply S2]|]); try discriminate. intros y [= <-]. now apply S2.
Qed.

Lemma head_below E l q d r : first_kind E l = Some (KChild q) -> head_ref [] (sel E (spine l) d) = Some r -> bref q d r.
Proof.
  intros Hf H. destruct (first_kind_spine _ _ _ Hf) as (s & ss & Es & Hk). rewrite Es in H.
  destruct (sel E (s :: ss) d) as [|b bs] eqn:Eb; [discriminate|]. injection H as <-. cbn. eapply sel_below; [exact Hk|]. rewrite Eb. now left.
Qed.
Lemma find_left E dot l r d : joins E l r = true -> ok E dot l = true -> rereadable l = true ->
  find_node E l (Some doc_root) d = Ret (head_ref [] (sel E (spine l) d)).
Proof.
  intros Hj Ho Hr. exact (find_elems E dot l [] d d (joins_path _ _ _ _ Hj Ho) Ho (joins_left _ _ _ _ Hj Ho) Hr eq_refl).
Qed.

Lemma build_root E dot e : is_path e = true -> ok E dot e = true -> rereadable e = true -> forall q, first_kind E e = Some (KChild q) ->
  forall ins d d' r, tag_of d <> None -> build E Create e (Some doc_root) ins d = (d', r) -> sim (KChild q) d d' /\ forall y, r = Ret (Some y) -> bref q d' y.
Proof.
  induction e; cbn [is_path]; intros Hp; try discriminate; intros Ho Hr q Hf ins d d' r Hd Hm.
  - apply str_eqb_eq in Hp. subst op. destruct (ok_slash _ _ _ _ Ho) as (H1 & (ax & t & ps & ->) & H3 & H4). destruct (rereadable_bin _ _ _ Hr) as [Hr1 Hr2].
    cbn [build] in Hm. rewrite str_eqb_refl in Hm. unfold bind at 1, reading in Hm. rewrite (find_left _ _ _ _ _ H4 H1 Hr1) in Hm.
    rewrite first_kind_slash in Hf. destruct (abbrev_or_first _ _ _ _ H4 H1) as [->|[q' Hq']].
    + cbn [spine sel head_ref app] in *. exact (step_root E ax t ps q Create None d d' r Hf Hd Hm).
    + assert (q' = q) as -> by (destruct (first_kind_spine _ _ _ Hq') as (s & ss & Es & _); rewrite Es in Hf; congruence).
      unfold bind at 1 in Hm.
      assert (G : forall d1 x, sim (KChild q) d d1 -> (forall y, x = Some y -> bref q d1 y) -> build E Create (EStep ax t ps) x None d1 = (d', r) ->
        sim (KChild q) d d' /\ forall y, r = Ret (Some y) -> bref q d' y).
      { intros d1 x S1 B1 Hb. destruct (step_below E ax t ps (proj2 (Forall_forall _ _) (fun p _ => build_below E p)) q Create x d1 d' r B1 Hb) as [S2 B2].
        split; [eapply sim_trans; [exact S1|apply S2]|exact B2]. }
      destruct (head_ref [] (sel E (spine e1) d)) as [lr|] eqn:Eh.
      * unfold ret in Hm. eapply (G d); [apply sim_refl| |exact Hm]. intros y [= <-]. eapply head_below; eauto.
      * destruct (build E Create e1 (Some doc_root) None d) as [d1 [x|er]] eqn:E1.
        all: destruct (IHe1 (joins_path _ _ _ _ H4 H1) H1 Hr1 q Hq' None d d1 _ Hd E1) as [S1 B1].
        -- eapply G; [exact S1| |exact Hm]. intros y ->. now apply B1.
        -- injection Hm as <- <-. split; [exact S1|discriminate].
  - unfold first_kind in Hf. cbn [steps_of] in Hf. exact (step_root _ _ _ _ _ _ _ _ _ _ Hf Hd Hm).
Qed.

(** what such a path selects lies below *)
Lemma text_item_addr a n i : In i (text_items a n) -> exists b tl s, i = IText (a ++ b) tl s.
Proof.
  destruct n as [q ats t ks|]; [|contradiction]. cbn [text_items]. intros H. apply in_app_or in H as [H|H].
  - destruct t as [s|]; [|contradiction]. destruct H as [<-|[]]. exists [], false, s. now rewrite app_nil_r.
  - apply in_flat_map in H as ([j [kn [kt|]]] & _ & H); cbn in H; [|contradiction]. destruct H as [<-|[]]. exists [j], true, kt. reflexivity.
Qed.
Lemma term_item_addr k a n i : In i (term_items k a n) -> exists b, (exists q s, i = IAttr (a ++ b) q s) \/ exists tl s, i = IText (a ++ b) tl s.
Proof.
  destruct k as [q|q|]; cbn [term_items]; [contradiction| |].
  - unfold attr_items. intros H. apply in_flat_map in H as ([q' w] & _ & H). cbn in H. destruct (qeqb q' q); [|contradiction]. destruct H as [<-|[]].
    exists []. left. exists q', w. now rewrite app_nil_r.
  - intros H. destruct (text_item_addr _ _ _ H) as (b & tl & s & ->). exists b. right. eauto.
Qed.
Lemma selects_below E dot e q d i : is_path e = true -> ok E dot e = true -> first_kind E e = Some (KChild q) -> In i (selects E e d) -> bref q d (ref_of i).
Proof.
  intros Hp Ho Hf Hi. destruct (first_kind_spine _ _ _ Hf) as (s & ss & Es & Hk).
  assert (Hcase : (is_KChild (lkind E e) = true \/ lkind E e = None) \/ exists k, lkind E e = Some k /\ is_KChild (Some k) = false).
  { destruct (lkind E e) as [[q'|q'|]|]; auto; right; eauto. }
  destruct Hcase as [Hl|(k & Hlk & Hc)].
  - rewrite (selects_elems _ _ _ _ Hp Ho Hl), Es in Hi. unfold elems_at in Hi. apply in_flat_map in Hi as (b & Hb & Hi).
    destruct (get_at b d); [|contradiction]. destruct Hi as [<-|[]]. cbn. eapply sel_below; eauto.
  - unfold selects in Hi. rewrite (ev_route _ _ _ _ _ _ Hp Ho Hlk Hc) in Hi. cbn [nodes_of app] in Hi. apply in_flat_map in Hi as (b & Hb & Hi).
    destruct (get_at b d) as [m|]; [|contradiction].
    assert (Hbb : below q d b).
    { destruct e; cbn [is_path] in Hp; try discriminate.
      - apply str_eqb_eq in Hp. subst op. destruct (ok_slash _ _ _ _ Ho) as (H1 & (ax & t & ps & ->) & H3 & H4). rewrite (lkind_slash E e1 _ _ _ _ eq_refl) in Hlk.
        rewrite first_kind_slash in Hf. cbn [route] in Hb. destruct (spine e1) as [|s1 s2] eqn:E1; [rewrite Hlk in Hf; injection Hf as ->; discriminate|].
        destruct (first_kind_spine _ _ _ Hf) as (s' & ss' & Es' & Hk'). rewrite E1 in Es'. injection Es' as -> ->. eapply sel_below; eauto.
      - unfold lkind in Hlk. cbn [last_step] in Hlk. unfold first_kind in Hf. cbn [steps_of] in Hf. rewrite Hlk in Hf. injection Hf as ->. discriminate. }
    destruct (term_item_addr _ _ _ _ Hi) as (b' & [(qa & w & ->)|(tl & w & ->)]); cbn; now apply below_app.
Qed.

(** removing *)
Lemma rm_step_below E ax t ps ie a q d d' r : ok E false (EStep ax t ps) = true -> rereadable (EStep ax t ps) = true -> get_at a d <> None -> below q d a ->
  remove_xml E (EStep ax t ps) ie (RElem a) d = (d', r) -> stable q d d'.
Proof.
  intros Ho Hr Hg Hb Hm. destruct (get_at a d) as [n|] eqn:Eg; [|congruence]. destruct (kind E (EStep ax t ps)) as [[q'|q'|]|] eqn:Hk.
  - pose proof (rm_child_step _ _ _ _ _ _ _ _ _ _ _ Ho Hk Hr Eg Hm) as R. destruct (sel E [EStep ax t ps] n) as [|b l].
    + destruct R as [-> _]. apply stable_refl.
    + destruct R as (i & k & _ & _ & _ & [(-> & _)|(-> & _)]); [apply stable_refl|]. apply stable_upd; auto. intros; apply tag_set_kids.
  - rewrite (rm_attr _ _ _ _ _ _ _ _ _ Ho Hk Eg) in Hm. destruct (attr_get q' (attrs_of n)); injection Hm as <- _; [|apply stable_refl]. apply stable_upd; auto. intros; apply tag_del_attr.
  - destruct (kind_text _ _ _ _ Hk) as [-> _]. cbn [remove_xml] in Hm. rewrite str_eqb_refl in Hm. unfold bind in Hm.
    destruct (set_text_at a (Some []) d) as [d1 [[]|er]] eqn:E1; injection Hm as <- _; eapply set_text_below; eauto.
  - cbn [ok] in Ho. rewrite Hk in Ho. discriminate.
Qed.
Lemma rm_step_root E ax t ps ie q d d' r : ok E false (EStep ax t ps) = true -> rereadable (EStep ax t ps) = true -> kind E (EStep ax t ps) = Some (KChild q) ->
  remove_xml E (EStep ax t ps) ie doc_root d = (d', r) -> sim (KChild q) d d'.
Proof.
  intros Ho Hr Hk Hm. pose proof (rm_child_step E ax t ps q ie [] d d d' r Ho Hk Hr eq_refl Hm) as R. destruct (sel E [EStep ax t ps] d) as [|b l].
  - destruct R as [-> _]. apply sim_refl.
  - destruct R as (i & k & _ & Hi & Hms & [(-> & _)|(-> & _)]); [apply sim_refl|]. cbn [upd_at]. eapply sim_remove; [exact Hi|]. unfold has_tag. rewrite (mstep_tag _ _ _ _ Hk Hms). apply qeqb_refl.
Qed.
Lemma rm_root E dot e : is_path e = true -> ok E dot e = true -> rereadable e = true -> forall q, first_kind E e = Some (KChild q) ->
  forall ie d d' r, remove_xml E e ie doc_root d = (d', r) -> sim (KChild q) d d'.
Proof.
  induction e; cbn [is_path]; intros Hp; try discriminate; intros Ho Hr q Hf ie d d' r Hm.
  - apply str_eqb_eq in Hp. subst op. destruct (ok_slash _ _ _ _ Ho) as (H1 & (ax & t & ps & ->) & H3 & H4). destruct (rereadable_bin _ _ _ Hr) as [Hr1 Hr2].
    rewrite rm_slash in Hm. unfold bind at 1, reading in Hm. rewrite (find_left _ _ _ _ _ H4 H1 Hr1) in Hm.
    rewrite first_kind_slash in Hf. destruct (abbrev_or_first _ _ _ _ H4 H1) as [->|[q' Hq']].
    + cbn [spine sel head_ref app] in *. unfold bind in Hm. destruct (remove_xml E (EStep ax t ps) ie (RElem []) d) as [d1 [b|er]] eqn:E1; pose proof (rm_step_root _ _ _ _ _ _ _ _ _ H3 Hr2 Hf E1) as S1.
      * destruct b; cbn in Hm; injection Hm as <- _; exact S1.
      * injection Hm as <- _. exact S1.
    + assert (q' = q) as -> by (destruct (first_kind_spine _ _ _ Hq') as (s & ss & Es & _); rewrite Es in Hf; congruence).
      destruct (sel E (spine e1) d) as [|b bs] eqn:Eb; cbn [head_ref] in Hm; [injection Hm as <- _; apply sim_refl|]. cbn [app] in Hm.
      assert (Hb : below q d b) by (apply (head_below E e1 q d (RElem b) Hq'); now rewrite Eb).
      assert (Hg : get_at b d <> None) by (destruct (In_sel_get E (spine e1) d b) as [n Hn]; [rewrite Eb; now left|congruence]).
      unfold bind in Hm. destruct (remove_xml E (EStep ax t ps) ie (RElem b) d) as [d1 [x|er]] eqn:E1; pose proof (rm_step_below _ _ _ _ _ _ _ _ _ _ H3 Hr2 Hg Hb E1) as [S1 _].
      * destruct x; [|injection Hm as <- _; exact S1].
        destruct (remove_xml E e1 true doc_root d1) as [d2 [x|er]] eqn:E2; pose proof (IHe1 (joins_path _ _ _ _ H4 H1) H1 Hr1 q Hq' _ _ _ _ E2) as S2; injection Hm as <- _; eapply sim_trans; eauto.
      * injection Hm as <- _. exact S1.
  - unfold first_kind in Hf. cbn [steps_of] in Hf. eapply rm_step_root; eauto.
Qed.

(** ** attributes of the object's own element *)
Lemma first_attr E dot e q : is_path e = true -> ok E dot e = true -> first_kind E e = Some (KAttr q) ->
  exists ax t ps, kind E (EStep ax t ps) = Some (KAttr q) /\ ok E false (EStep ax t ps) = true /\ (e = EStep ax t ps \/ e = EBin (EAbbrev (u ".")) (u "/") (EStep ax t ps)).
Proof.
  intros Hp Ho Hf. destruct e; cbn [is_path] in Hp; try discriminate.
  - apply str_eqb_eq in Hp. subst op. destruct (ok_slash _ _ _ _ Ho) as (H1 & (ax & t & ps & ->) & H3 & H4).
    rewrite first_kind_slash in Hf. destruct (abbrev_or_first _ _ _ _ H4 H1) as [->|[q' Hq']].
    + cbn [spine] in Hf. exists ax, t, ps. auto.
    + exfalso. destruct (first_kind_spine _ _ _ Hq') as (s & ss & Es & _). rewrite Es in Hf. congruence.
  - unfold first_kind in Hf. cbn [steps_of] in Hf. exists axis, node_test, predicates. auto.
Qed.
Definition aref (q : qname) (r : ref) : Prop := r = RAttr [] q.
Lemma attr_selects E dot e q d i : is_path e = true -> ok E dot e = true -> first_kind E e = Some (KAttr q) -> In i (selects E e d) -> aref q (ref_of i).
Proof.
  intros Hp Ho Hf Hi. destruct (first_attr _ _ _ _ Hp Ho Hf) as (ax & t & ps & Hk & Ho' & He).
  assert (Hlk : lkind E e = Some (KAttr q)) by (destruct He as [->| ->]; [exact Hk|rewrite (lkind_slash E _ _ _ _ _ eq_refl); exact Hk]).
  unfold selects in Hi. rewrite (ev_route _ _ _ _ _ _ Hp Ho Hlk eq_refl) in Hi.
  assert (Hrt : route e = []) by (destruct He as [->| ->]; reflexivity). rewrite Hrt in Hi. cbn [sel flat_map get_at nodes_of app term_items] in Hi. rewrite app_nil_r in Hi.
  unfold attr_items in Hi. apply in_flat_map in Hi as ([q' w] & _ & Hi). cbn in Hi. destruct (qeqb q' q) eqn:Eq; [|contradiction]. apply qeqb_eq in Eq. subst q'. destruct Hi as [<-|[]]. reflexivity.
Qed.
Lemma attr_terminal E dot e q : is_path e = true -> ok E dot e = true -> first_kind E e = Some (KAttr q) -> exists ax t ps, terminal_step e = Some (EStep ax t ps) /\ kind E (EStep ax t ps) = Some (KAttr q).
Proof.
  intros Hp Ho Hf. destruct (first_attr _ _ _ _ Hp Ho Hf) as (ax & t & ps & Hk & _ & [->| ->]); exists ax, t, ps; split; auto.
Qed.
Lemma attr_set_root E st q v x d d' r : (exists ax t ps, st = Some (EStep ax t ps) /\ kind E (EStep ax t ps) = Some (KAttr q)) -> (forall y, x = Some y -> aref q y) ->
  set_in_xml E x v st d = (d', r) -> sim (KAttr q) d d'.
Proof.
  intros (ax & t & ps & -> & Hk) Hx Hm. destruct x as [y|]; [|injection Hm as <- _; apply sim_refl]. rewrite (Hx y eq_refl) in Hm.
  pose proof attr_name_kind as An. destruct (kind_attr _ _ _ _ _ Hk) as (p & nm & -> & _ & _ & Hst & Htx & _). apply An in Hk.
  unfold set_in_xml, is_text_nodetest, test_name in Hm. rewrite Htx in Hm. unfold set_attr_at, name_valid in Hm. rewrite Hst in Hm. cbn [negb] in Hm. rewrite Hk in Hm.
  destruct v as [s|]; [destruct (xml_valid s)|]; injection Hm as <- _; try apply sim_refl. apply sim_set_attr.
Qed.
Lemma attr_build_root E dot e q : is_path e = true -> ok E dot e = true -> rereadable e = true -> first_kind E e = Some (KAttr q) ->
  forall ins d d' r, build E Create e (Some doc_root) ins d = (d', r) -> sim (KAttr q) d d' /\ forall y, r = Ret (Some y) -> aref q y.
Proof.
  intros Hp Ho Hr Hf. destruct (first_attr _ _ _ _ Hp Ho Hf) as (ax & t & ps & Hk & Hos & He).
  assert (G : forall ins d d' r, build E Create (EStep ax t ps) (Some doc_root) ins d = (d', r) -> sim (KAttr q) d d' /\ forall y, r = Ret (Some y) -> aref q y).
  { intros ins d d' r Hm. pose proof Hk as Hk2. destruct (kind_attr _ _ _ _ _ Hk) as (p & nm & -> & Hc & Ha & Hs & _ & Hpf & Hrs & Hn). apply attr_name_kind in Hk2.
    cbn [ok] in Hos. rewrite Hk in Hos. destruct ps; [|discriminate]. cbn [build forallb] in Hm. rewrite Hc, Ha in Hm. unfold bind at 1, create_attr, name_valid, doc_root in Hm. rewrite Hs in Hm. cbn [negb] in Hm.
    rewrite Hpf, Hrs, Hk2 in Hm. cbn [iterM upd_at] in Hm. unfold bind, ret in Hm. injection Hm as <- <-. split; [apply sim_set_attr|]. intros y [= <-]. reflexivity. }
  intros ins d d' r Hm. destruct He as [->| ->]; [eapply G; eauto|]. cbn [build] in Hm. rewrite str_eqb_refl in Hm. destruct (rereadable_bin _ _ _ Hr) as [Hr1 _].
  destruct (ok_slash _ _ _ _ Ho) as (H1 & _ & _ & H4). unfold bind at 1, reading in Hm. rewrite (find_left _ _ _ _ _ H4 H1 Hr1) in Hm. cbn [spine sel head_ref app] in Hm. unfold bind, ret in Hm. eapply G; eauto.
Qed.
Lemma attr_rm_root E dot e q : is_path e = true -> ok E dot e = true -> rereadable e = true -> first_kind E e = Some (KAttr q) ->
  forall ie d d' r, remove_xml E e ie doc_root d = (d', r) -> sim (KAttr q) d d'.
Proof.
  intros Hp Ho Hr Hf. destruct (first_attr _ _ _ _ Hp Ho Hf) as (ax & t & ps & Hk & Hos & He).
  assert (G : forall ie d d' r, remove_xml E (EStep ax t ps) ie (RElem []) d = (d', r) -> sim (KAttr q) d d').
  { intros ie d d' r Hm. rewrite (rm_attr E ax t ps q ie [] d d Hos Hk eq_refl) in Hm. destruct (attr_get q (attrs_of d)); injection Hm as <- _; [apply sim_del_attr|apply sim_refl]. }
  intros ie d d' r Hm. destruct He as [->| ->]; [eapply G; eauto|]. rewrite rm_slash in Hm. destruct (rereadable_bin _ _ _ Hr) as [Hr1 _].
  destruct (ok_slash _ _ _ _ Ho) as (H1 & _ & _ & H4). unfold bind at 1, reading in Hm. rewrite (find_left _ _ _ _ _ H4 H1 Hr1) in Hm. cbn [spine sel head_ref app] in Hm. unfold bind in Hm.
  destruct (remove_xml E (EStep ax t ps) ie (RElem []) d) as [d1 [b|er]] eqn:E1; pose proof (G _ _ _ _ E1) as S1.
  - destruct b; cbn in Hm; injection Hm as <- _; exact S1.
  - injection Hm as <- _. exact S1.
Qed.

(** ** the operations of a field *)
(** [D]: what the field's first step sees; a child name or an attribute *)
Definition owns (E : env) (e : expr) (D : skind) : Prop := supported_path E e = true /\ first_kind E e = Some D /\ D <> KText.

Lemma owns_parts E e D : owns E e D -> is_path e = true /\ ok E true e = true /\ rereadable e = true.
Proof. intros (H & _). unfold supported_path in H. apply andb_prop in H as [H ?]. apply andb_prop in H as [? ?]. auto. Qed.

(** the node given to set_in_xml is the one of a match or a created one *)
Definition oref (D : skind) (d : node) (r : ref) : Prop := match D with KChild q => bref q d r | KAttr q => aref q r | KText => False end.
Lemma owns_selects E e D d i : owns E e D -> In i (selects E e d) -> oref D d (ref_of i).
Proof.
  intros H Hi. destruct (owns_parts _ _ _ H) as (Hp & Ho & Hr). destruct H as (_ & Hf & HD). destruct D; [eapply selects_below|eapply attr_selects|contradiction]; eauto.
Qed.
Lemma owns_build E e D ins d d' r : owns E e D -> tag_of d <> None -> build E Create e (Some doc_root) ins d = (d', r) -> sim D d d' /\ forall y, r = Ret (Some y) -> oref D d' y.
Proof.
  intros H Hd Hm. destruct (owns_parts _ _ _ H) as (Hp & Ho & Hr). destruct H as (_ & Hf & HD). destruct D; [eapply build_root|eapply attr_build_root|contradiction]; eauto.
Qed.
Lemma owns_set E e D x v d d' r : owns E e D -> (forall y, x = Some y -> oref D d y) -> set_in_xml E x v (terminal_step e) d = (d', r) -> sim D d d'.
Proof.
  intros H Hx Hm. destruct (owns_parts _ _ _ H) as (Hp & Ho & Hr). destruct H as (_ & Hf & HD). destruct D; [|eapply attr_set_root; eauto; eapply attr_terminal; eauto|contradiction].
  eapply set_below; eauto.
Qed.
Lemma owns_remove E e D ie d d' r : owns E e D -> remove_xml E e ie doc_root d = (d', r) -> sim D d d'.
Proof.
  intros H Hm. destruct (owns_parts _ _ _ H) as (Hp & Ho & Hr). destruct H as (_ & Hf & HD). destruct D; [eapply rm_root|eapply attr_rm_root|contradiction]; eauto.
Qed.
Lemma owns_find E e D d : owns E e D -> find_ast E e doc_root d = Ret (option_map ref_of (hd_error (selects E e d))).
Proof. intros H. destruct (owns_parts _ _ _ H) as (Hp & Ho & _). eapply find_path; eauto. Qed.
Lemma hd_In {A} (l : list A) x : hd_error l = Some x -> In x l.
Proof. destruct l; [discriminate|]. intros [= <-]. now left. Qed.

Lemma only_set E e D v : owns E e D -> only D (mgr_set E e v).
Proof.
  intros H d d' r Hd Hm. unfold mgr_set in Hm. unfold bind at 1, reading in Hm. rewrite (owns_find _ _ _ _ H) in Hm. destruct v as [v|].
  - destruct (hd_error (selects E e d)) as [i|] eqn:Ei; cbn [option_map] in Hm; unfold bind in Hm.
    + eapply owns_set; [exact H| |exact Hm]. intros y [= <-]. eapply owns_selects; eauto. now apply hd_In.
    + destruct (build E Create e (Some doc_root) None d) as [d1 [x|er]] eqn:E1; destruct (owns_build _ _ _ _ _ _ _ H Hd E1) as [S1 B1].
      * eapply sim_trans; [exact S1|]. eapply owns_set; [exact H| |exact Hm]. intros y ->. now apply B1.
      * injection Hm as <- _. exact S1.
  - destruct (hd_error (selects E e d)) as [i|]; cbn [option_map] in Hm; [|injection Hm as <- _; apply sim_refl].
    unfold bind in Hm. destruct (remove_xml E e false doc_root d) as [d1 [x|er]] eqn:E1; injection Hm as <- _; eapply owns_remove; eauto.
Qed.
Lemma only_delete E e D : owns E e D -> only D (mgr_delete E e).
Proof.
  intros H d d' r Hd Hm. unfold mgr_delete in Hm. unfold bind at 1, reading in Hm. rewrite (owns_find _ _ _ _ H) in Hm.
  destruct (hd_error (selects E e d)) as [i|]; cbn [option_map] in Hm; [|injection Hm as <- _; apply sim_refl].
  unfold bind in Hm. destruct (remove_xml E e false doc_root d) as [d1 [x|er]] eqn:E1; injection Hm as <- _; eapply owns_remove; eauto.
Qed.
Lemma only_create E e D : owns E e D -> only D (mgr_create E e).
Proof.
  intros H d d' r Hd Hm. unfold mgr_create in Hm. unfold bind at 1, reading in Hm. rewrite (owns_find _ _ _ _ H) in Hm.
  destruct (hd_error (selects E e d)) as [i|]; cbn [option_map] in Hm; [injection Hm as <- _; apply sim_refl|]. eapply owns_build; eauto.
Qed.
Lemma only_typed E e D m v : owns E e D -> only D (typed_set E e m v).
Proof. intros H. unfold typed_set. destruct (to_xml m v); [now apply only_set|apply only_raise]. Qed.

(** *** list fields *)
Lemma owns_matches E e D d : owns E e D -> matches E e d = Ret (selects E e d).
Proof.
  intros H. destruct (owns_parts _ _ _ H) as (Hp & Ho & _). unfold matches, eval_at, selects, doc_root, xpath. cbn [get_at]. rewrite (ok_supported _ _ _ Ho).
  assert (Hx : exists its, ev E e (IElem [] d) = XN its).
  { destruct e; cbn [is_path] in Hp; try discriminate; cbn [ev]; eauto. rewrite Hp. eauto. }
  destruct Hx as [its ->]. reflexivity.
Qed.
Lemma py_nth_In {A} k (l : list A) x : py_nth k l = Some x -> In x l.
Proof. unfold py_nth. destruct (py_idx k (length l)); [|discriminate]. apply nth_error_In. Qed.
Lemma only_setitem E e D m k v : owns E e D -> only D (list_setitem E e m k v).
Proof.
  intros H d d' r Hd Hm. unfold list_setitem in Hm. unfold bind at 1, reading in Hm. rewrite (owns_matches _ _ _ _ H) in Hm. cbv zeta in Hm.
  set (mk := if Z.eqb k _ then _ else _) in Hm.
  assert (G : forall d1 r1, mk d = (d1, r1) -> sim D d d1 /\ forall y, r1 = Ret (Some y) -> oref D d1 y).
  { intros d1 r1 H1. unfold mk in H1. destruct (Z.eqb k _).
    - destruct (last_item (selects E e d)) as [i|]; [|eapply owns_build; eauto]. destruct (item_pos i) as [[a p]|er]; [eapply owns_build; eauto|]. injection H1 as <- <-. split; [apply sim_refl|discriminate].
    - destruct (Z.ltb _ k); [injection H1 as <- <-; split; [apply sim_refl|discriminate]|]. destruct (py_nth k (selects E e d)) as [i|] eqn:Ei; injection H1 as <- <-; (split; [apply sim_refl|]); [|discriminate].
      intros y [= <-]. eapply owns_selects; eauto. eapply py_nth_In; eauto. }
  clearbody mk. unfold bind in Hm. destruct (mk d) as [d1 [x|er]] eqn:E1; destruct (G _ _ eq_refl) as [S1 B1]; [|injection Hm as <- _; exact S1].
  destruct (to_xml m v) as [s|er]; [|injection Hm as <- _; exact S1]. eapply sim_trans; [exact S1|]. eapply owns_set; [exact H| |exact Hm]. intros y ->. now apply B1.
Qed.
Lemma item_pos_inv i a j : item_pos i = Ret (a, j) -> exists n, i = IElem (a ++ [j]) n.
Proof.
  destruct i as [b n| |]; cbn; try discriminate. destruct (rev b) as [|x r] eqn:Er; [discriminate|]. intros [= <- <-]. exists n. f_equal. rewrite <- (rev_involutive b), Er. reflexivity.
Qed.
Lemma only_delitem E e D k : owns E e D -> only D (list_delitem E e k).
Proof.
  intros H d d' r Hd Hm. unfold list_delitem in Hm. unfold bind at 1, reading in Hm. rewrite (owns_matches _ _ _ _ H) in Hm.
  destruct (Z.leb _ k); [injection Hm as <- _; apply sim_refl|]. destruct (py_nth k (selects E e d)) as [i|] eqn:Ei; [|injection Hm as <- _; apply sim_refl].
  destruct (item_pos i) as [[a j]|er] eqn:Ep; [|injection Hm as <- _; apply sim_refl]. unfold bind, remove_at, ret in Hm. injection Hm as <- _.
  destruct (item_pos_inv _ _ _ Ep) as [n ->]. apply py_nth_In in Ei. pose proof (owns_selects _ _ _ _ _ H Ei) as Hr. cbn [ref_of] in Hr. destruct D as [q|q|]; cbn in Hr; [|discriminate|contradiction].
  destruct a as [|i0 a]; cbn [app] in Hr.
  - cbn [upd_at]. destruct Hr as (i1 & b & kk & Heq & Hi & Ht). injection Heq as <- <-. eapply sim_remove; [exact Hi|]. unfold has_tag. rewrite Ht. apply qeqb_refl.
  - apply stable_upd; [|intros; apply tag_set_kids]. destruct Hr as (i1 & b & kk & Heq & Hi & Ht). injection Heq as <- _. exists i0, a, kk. auto.
Qed.
Lemma only_append E e D m v : owns E e D -> only D (list_append E e m v).
Proof. intros H. apply only_bind; [apply only_reading|]. intros n. now apply only_setitem. Qed.
Lemma only_remove E e D m v : owns E e D -> only D (list_remove E e m v).
Proof. intros H. apply only_bind; [apply only_reading|]. intros n. now apply only_delitem. Qed.
Lemma only_pop E e D m k : owns E e D -> only D (list_pop E e m k).
Proof.
  intros H. apply only_bind; [destruct k; [apply only_ret|apply only_bind; [apply only_reading|intros; apply only_ret]]|]. intros i. apply only_bind; [apply only_reading|]. intros v.
  apply only_bind; [now apply only_delitem|intros; apply only_ret].
Qed.
Lemma only_op E e D m o : owns E e D -> only D (field_op E e m o).
Proof.
  intros H. assert (Q : forall A (c : M A), only D c -> only D (quiet c)) by (intros A c Hc; apply only_bind; [exact Hc|intros; apply only_ret]).
  destruct o; cbn [field_op]; [apply Q; now apply only_setitem|apply Q; now apply only_append|apply Q, only_iter; intros; now apply only_append|apply Q; now apply only_delitem| |apply Q; now apply only_remove].
  apply only_bind; [now apply only_pop|intros; apply only_ret].
Qed.
Lemma only_insert E e D m k v : owns E e D -> only D (list_insert E e m k v).
Proof.
  intros H. apply only_bind; [apply only_reading|]. intros n. destruct (Z.eqb k _); [now apply only_append|]. apply only_bind; [apply only_reading|]. intros l.
  destruct (Z.ltb k _); [|apply only_raise]. destruct (py_nth k l) as [i|]; [|apply only_raise]. destruct (item_pos i) as [[a p]|er]; [|apply only_raise].
  apply only_bind; [|intros; now apply only_setitem]. intros d d' r Hd Hm. eapply owns_build; eauto.
Qed.
Lemma only_set_all E e D m vs : owns E e D -> forall i, only D (set_all E e m i vs).
Proof. intros H. induction vs as [|v vs IH]; intros i; cbn [set_all]; [apply only_ret|]. apply only_bind; [now apply only_setitem|intros; apply IH]. Qed.
Lemma only_trim E e D m n : owns E e D -> forall fuel, only D (trim E e m n fuel).
Proof.
  intros H. induction fuel as [|f IH]; cbn [trim]; (apply only_bind; [apply only_reading|]); intros len; destruct (Nat.ltb n len); try apply only_raise; try apply only_ret.
  apply only_bind; [now apply only_pop|intros; apply IH].
Qed.
Lemma only_lset E e D m vs : owns E e D -> only D (lmgr_set E e m vs).
Proof. intros H. apply only_bind; [now apply only_set_all|]. intros _. apply only_bind; [apply only_reading|]. intros len. now apply only_trim. Qed.
Lemma only_ldelete E e D m : owns E e D -> only D (lmgr_delete E e m).
Proof. intros H. apply only_bind; [apply only_reading|]. intros vs. apply only_iter. intros. now apply only_remove. Qed.

(** ** what another field reads *)
Lemma cores_first E D d d' : sim D d d' -> forall e dot k, is_path e = true -> ok E dot e = true -> first_kind E e = Some k -> k <> D -> k <> KText -> D <> KText -> cores E e d = cores E e d'.
Proof.
  intros HS. induction e; cbn [is_path]; intros dot k Hp; try discriminate; intros Ho Hf Hne Hkt HD.
  - apply str_eqb_eq in Hp. subst op. destruct (ok_slash _ _ _ _ Ho) as (H1 & (ax & t & ps & ->) & H3 & H4). rewrite first_kind_slash in Hf. rewrite !cores_slash.
    destruct (abbrev_or_first _ _ _ _ H4 H1) as [->|[q' Hq']].
    + cbn [spine] in Hf. change (cores E (EAbbrev (u ".")) d) with [IElem [] d]. change (cores E (EAbbrev (u ".")) d') with [IElem [] d']. cbn [flat_map]. rewrite !app_nil_r.
      change (cores E (EStep ax t ps) d = cores E (EStep ax t ps) d'). eapply cores_sim; eauto.
    + rewrite (IHe1 dot k); auto; [eapply joins_path; eauto|]. destruct (first_kind_spine _ _ _ Hq') as (s & ss & Es & _). now rewrite Es in Hf.
  - eapply cores_sim; eauto.
Qed.

Lemma item_in_core i : item_in (core i) = item_in i.
Proof. destruct i; reflexivity. Qed.

Lemma path_nodes E e c : is_path e = true -> exists its, ev E e c = XN its.
Proof. destruct e; cbn [is_path]; intros Hp; try discriminate; cbn [ev]; eauto. rewrite Hp. eauto. Qed.
Lemma first_input_cores its : first_input (XN its) = option_map item_in (hd_error (map core its)).
Proof. destruct its as [|[a n|a q s|a tl s] its]; reflexivity. Qed.
Lemma mapR_core {B} (f : minput -> res B) its its' : map core its = map core its' -> mapR (fun i => f (item_in i)) its = mapR (fun i => f (item_in i)) its'.
Proof.
  assert (G : forall l, mapR (fun i => f (item_in i)) l = mapR (fun i => f (item_in i)) (map core l)).
  { induction l as [|i l IH]; cbn [mapR map]; [reflexivity|]. rewrite item_in_core, IH. reflexivity. }
  intros H. now rewrite (G its), (G its'), H.
Qed.
Theorem reads_same E e d d' m : supported_path E e = true -> cores E e d = cores E e d' ->
  field_get E e m d' = field_get E e m d /\ list_data E e m d' = list_data E e m d.
Proof.
  intros Hs Hc. unfold supported_path in Hs. apply andb_prop in Hs as [Hs _]. apply andb_prop in Hs as [Hp Ho].
  unfold field_get, list_data, matches, eval_at, doc_root, xpath. cbn [get_at]. rewrite (ok_supported _ _ _ Ho).
  unfold cores in Hc. destruct (path_nodes E e (IElem [] d) Hp) as [its Hi], (path_nodes E e (IElem [] d') Hp) as [its' Hi']. rewrite Hi, Hi' in *. cbn [nodes_of] in Hc. split.
  - now rewrite !first_input_cores, Hc.
  - apply mapR_core with (f := fun i => to_python m (Some i)). congruence.
Qed.
