(** C53: assigning an XmlObject to a NodeField.  [nodefield_set E s x d] is [obj.f = x] for a NodeField with XPath text [s] on
    an object with node [d], [x] being the node of an object outside of the document: it gives the new document, what
    is left of [x], and the outcome.  [nodefield_set_inside E s a d] is the same for the object whose node is at [a] in the document. *)
From Coq Require Import String Arith Lia.
From Verif Require Import FieldUndo NodeAssign.
From Verif Require Import XPathEval FieldSpec DocSpec.
Opaque u.
Ltac conjs := cbv zeta; repeat match goal with |- _ /\ _ => split end.

(** ** Specification *)
(** the content of [x] under the name of [n] *)
Definition content_of (x : node) (m : node) : Prop := attrs_of m = attrs_of x /\ text_of m = text_of x /\ kids_of m = kids_of x.
(** [c] is the node at [b], or is inside of it *)
Definition inside (b c : addr) : Prop := exists r, c = b ++ r.
(** outside of [b] the documents agree *)
Definition same_outside (b : addr) (d d' : node) : Prop :=
  forall c, ~ inside b c -> option_map shell (get_at c d') = option_map shell (get_at c d).
(** the text after the node at [b] *)
Fixpoint tail_after (b : addr) (d : node) : option str :=
  match b with
  | [] => None
  | [i] => match nth_error (kids_of d) i with Some k => snd k | None => None end
  | i :: b' => match nth_error (kids_of d) i with Some k => tail_after b' (fst k) | None => None end
  end.
(** attribute names are distinct, as in every XML element *)
Definition wf_attrs (x : node) : Prop := NoDup (map fst (attrs_of x)).

(** ** lemmas *)
Lemma copy_attrs_app l : forall acc, NoDup (map fst (acc ++ l)) -> copy_attrs l acc = acc ++ l.
Proof.
  induction l as [|[q v] l IH]; intros acc H; cbn [copy_attrs fold_left]; [now rewrite app_nil_r|].
  assert (Hq : attr_get q acc = None).
  { rewrite map_app in H. apply NoDup_remove_2 in H. assert (Hn : ~ In q (map fst acc)) by (intros Hin; apply H; apply in_or_app; now left).
    clear - Hn. induction acc as [|[p w] acc IH]; cbn in *; [reflexivity|]. destruct (qeqb q p) eqn:Eq; [apply qeqb_eq in Eq; subst; exfalso; auto|auto]. }
  cbn [fst snd]. rewrite (attr_set_new _ _ _ Hq). unfold copy_attrs in IH. rewrite IH; now rewrite <- app_assoc.
Qed.
Lemma graft_content x n : wf_attrs x -> tag_of n <> None -> content_of x (graft x n) /\ tag_of (graft x n) = tag_of n.
Proof. intros H Hn. destruct n as [q a t k|s]; [|contradiction]. cbn. unfold content_of. cbn. rewrite copy_attrs_app by exact H. auto. Qed.
Lemma drop_tail_none b : forall d, tail_after b d = None -> drop_tail b d = d.
Proof.
  induction b as [|i b IH]; intros d H; [reflexivity|]. cbn [drop_tail tail_after] in *. destruct d as [q a t ks|s]; [|now destruct b].
  cbn [kids_of] in H. assert (G : forall f, (forall k, nth_error ks i = Some k -> f k = k) -> upd_nth i f ks = ks).
  { clear. revert i. induction ks as [|k ks IH]; intros [|i] f H; cbn; try reflexivity; [rewrite (H k eq_refl)|rewrite IH]; auto. }
  destruct b as [|j b]; cbn [set_kids]; f_equal; apply G; intros k Hk; rewrite Hk in H; [destruct k as [kn kt]; cbn in *; now subst|].
  rewrite (IH _ H). now destruct k.
Qed.
Lemma tail_after_upd b f : forall d, tail_after b (upd_at b f d) = tail_after b d.
Proof.
  induction b as [|i b IH]; intros d; [reflexivity|]. cbn [tail_after]. rewrite kids_upd_cons, nth_upd_nth, Nat.eqb_refl. destruct b as [|j b].
  - destruct (nth_error (kids_of d) i) as [k|]; reflexivity.
  - destruct (nth_error (kids_of d) i) as [k|]; [|reflexivity]. cbn [option_map]. apply IH.
Qed.
Lemma upd_outside b f : forall d, same_outside b d (upd_at b f d).
Proof.
  induction b as [|i b IH]; intros d c Hc; [exfalso; apply Hc; now exists c|]. destruct c as [|j c].
  - cbn [get_at option_map]. f_equal. destruct d as [q a t ks|s]; [|reflexivity]. unfold shell. cbn. f_equal. now apply shell_upd_nth.
  - cbn [get_at]. rewrite kids_upd_cons, nth_upd_nth. destruct (Nat.eqb_spec i j) as [->|N]; [|reflexivity].
    destruct (nth_error (kids_of d) j) as [k|]; [|reflexivity]. cbn [option_map]. apply IH. intros [r ->]. apply Hc. now exists r.
Qed.
Lemma get_drop_tail b : forall d m, get_at b d = Some m -> get_at b (drop_tail b d) = Some m.
Proof.
  induction b as [|i b IH]; intros d m H; [exact H|]. cbn [drop_tail]. cbn [get_at] in *. destruct d as [q a t ks|s]; [|destruct i; discriminate]. cbn [kids_of] in H.
  destruct (nth_error ks i) as [k|] eqn:Ek; [|discriminate]. destruct b as [|j b]; cbn [set_kids kids_of]; rewrite nth_upd_nth, Nat.eqb_refl, Ek; cbn [option_map fst]; [exact H|].
  now apply IH.
Qed.
Lemma prefix_spec b : forall c, at_or_below b c = true <-> inside b c.
Proof.
  induction b as [|i b IH]; intros [|j c]; cbn; split; try discriminate; auto.
  - now exists [].
  - now exists (j :: c).
  - intros [r H]. discriminate.
  - intros H. apply andb_prop in H as [H1 H2]. apply Nat.eqb_eq in H1 as ->. apply IH in H2 as [r ->]. now exists r.
  - intros [r [= <- ->]]. rewrite Nat.eqb_refl. apply IH. now exists r.
Qed.
Lemma inside_antisym b c : inside b c -> inside c b -> c = b.
Proof. intros [r ->] [r' H]. rewrite <- app_assoc in H. rewrite <- (app_nil_r b) in H at 1. apply app_inv_head in H. destruct r; [now rewrite app_nil_r|discriminate]. Qed.
Lemma get_upd_disjoint b f : forall c d, ~ inside b c -> ~ inside c b -> get_at c (upd_at b f d) = get_at c d.
Proof.
  induction b as [|i b IH]; intros c d H1 H2; [exfalso; apply H1; now exists c|]. destruct c as [|j c]; [exfalso; apply H2; now exists (i :: b)|].
  cbn [get_at]. rewrite kids_upd_cons, nth_upd_nth. destruct (Nat.eqb_spec i j) as [->|N]; [|reflexivity]. destruct (nth_error (kids_of d) j) as [k|]; [|reflexivity].
  cbn [option_map fst]. apply IH; intros [r ->]; [apply H1|apply H2]; now exists r.
Qed.

(** *** creating elements adds no text between elements *)
Definition some1 (o : option str) : nat := match o with Some _ => 1 | None => 0 end.
Fixpoint tails (n : node) : nat :=
  match n with Elem _ _ _ ks => list_sum (map (fun k => some1 (snd k) + tails (fst k)) ks) | Misc _ => 0 end.
Lemma tails_upd b f : forall d, (forall m, get_at b d = Some m -> tails (f m) = tails m) -> tails (upd_at b f d) = tails d.
Proof.
  induction b as [|i b IH]; intros d H; [now apply H|]. destruct d as [q a t ks|s]; [|reflexivity]. cbn [upd_at set_kids tails].
  assert (G : forall k, nth_error ks i = Some k -> tails (upd_at b f (fst k)) = tails (fst k)).
  { intros k Hk. apply IH. intros m Hm. apply H. cbn. now rewrite Hk. }
  clear H IH. revert i G. induction ks as [|k ks IHk]; intros [|i] G; cbn; try reflexivity; [rewrite (G k eq_refl); reflexivity|f_equal; apply IHk; exact G].
Qed.
Lemma list_sum_mid {A} (g : A -> nat) x l : forall i, list_sum (map g (insert_nth i x l)) = g x + list_sum (map g l).
Proof.
  unfold insert_nth. induction l as [|y l IH]; intros [|i]; cbn; try lia. specialize (IH i). unfold list_sum in *. rewrite IH. lia.
Qed.
Definition keeps {A} (m : M A) : Prop := forall d d' x, m d = (d', x) -> tails d' = tails d.
Lemma keeps_ret {A} (x : A) : keeps (ret x).
Proof. intros d d' y [= <- _]. reflexivity. Qed.
Lemma keeps_raise {A} e : keeps (@raise A e).
Proof. intros d d' y [= <- _]. reflexivity. Qed.
Lemma keeps_reading {A} (f : node -> res A) : keeps (reading f).
Proof. intros d d' y [= <- _]. reflexivity. Qed.
Lemma keeps_bind {A B} (m : M A) (f : A -> M B) : keeps m -> (forall x, keeps (f x)) -> keeps (bind m f).
Proof. intros Hm Hf d d' x H. unfold bind in H. destruct (m d) as [d1 [y|e]] eqn:E; [rewrite (Hf _ _ _ _ H); eauto|injection H as <- _; eauto]. Qed.
Lemma keeps_iter {A B} (f : A -> M B) l : Forall (fun x => keeps (f x)) l -> keeps (iterM f l).
Proof. induction 1; cbn [iterM]; [apply keeps_ret|apply keeps_bind; auto]. Qed.
Lemma keeps_upd {A} b f (r : res A) : (forall m, tails (f m) = tails m) -> keeps (fun d => (upd_at b f d, r)).
Proof. intros H d d' x [= <- _]. apply tails_upd. auto. Qed.
Lemma tails_set_text v m : v <> None \/ True -> tails (set_text v m) = tails m.
Proof. destruct m; reflexivity. Qed.
Lemma tails_set_attr q v m : tails (set_attr q v m) = tails m.
Proof. destruct m; reflexivity. Qed.
Lemma tails_insert i q nm m : tails (insert_kid i (Elem (QN q nm) [] None []) m) = tails m.
Proof. destruct m as [q' a t ks|s]; [|reflexivity]. unfold insert_kid. cbn [set_kids tails]. now rewrite list_sum_mid. Qed.
Lemma keeps_create_child E p nm ctx ins : keeps (create_child E p nm ctx ins).
Proof.
  unfold create_child. destruct (child_ns E p) as [uri|]; [|apply keeps_raise]. destruct (negb (name_valid nm)); [apply keeps_raise|].
  destruct ctx as [[a| | |]|]; try apply keeps_raise. intros d d' x H. destruct (get_at a d); injection H as <- _; [|reflexivity]. apply tails_upd. intros; apply tails_insert.
Qed.
Lemma keeps_create_attr E p nm ctx : keeps (create_attr E p nm ctx).
Proof. unfold create_attr. destruct ctx as [[a| | |]|]; try apply keeps_raise. destruct (negb (name_valid nm)); [apply keeps_raise|]. apply keeps_upd. apply tails_set_attr. Qed.
Lemma keeps_text a v : keeps (set_text_at a v).
Proof. unfold set_text_at. destruct v as [s|]; [destruct (xml_valid s); [|apply keeps_raise]|]; apply keeps_upd; intros; apply tails_set_text; auto. Qed.
Lemma keeps_set E r v st : keeps (set_in_xml E r v st).
Proof.
  assert (G : forall a, keeps (if is_text_nodetest st then set_text_at a v else set_attr_at E a st v)).
  { intros a. destruct (is_text_nodetest st); [apply keeps_text|]. unfold set_attr_at. destruct st as [s0|]; [|apply keeps_raise]. destruct s0; try apply keeps_raise.
    match goal with |- context [match ?t with NameTest _ _ => _ | NodeType _ _ => _ end] => destruct t as [p nm|nm ?] end.
    all: destruct (negb (name_valid nm)); [apply keeps_raise|]; destruct v as [s|]; [|apply keeps_raise]; destruct (xml_valid s); [|apply keeps_raise]; apply keeps_upd; apply tails_set_attr. }
  destruct r as [[a|a q|a tl|w]|]; cbn [set_in_xml]; auto; [| |apply keeps_ret].
  - intros d d' x H. destruct (get_at a d) as [n|]; [|injection H as <- _; reflexivity]. destruct (kids_of n); [|injection H as <- _; reflexivity]. eapply keeps_text; exact H.
  - destruct w; try apply keeps_ret; apply keeps_raise.
Qed.
Lemma keeps_build E e : forall m ctx ins, keeps (build E m e ctx ins).
Proof.
  induction e using expr_ind'; intros m ctx ins.
  all: try (destruct m; first [apply keeps_raise|apply keeps_ret]).
  - destruct m; cbn [build].
    + destruct (str_eqb op (u "/")); [|apply keeps_raise]. apply keeps_bind; [apply keeps_reading|]. intros ln. apply keeps_bind; [destruct ln; [apply keeps_ret|auto]|auto].
    + destruct (str_eqb op (u "/")); [apply keeps_bind; auto|]. destruct (str_eqb op (u "=")); [|apply keeps_ret]. apply keeps_bind; [auto|]. intros leaf.
      destruct (pred_value E e2); [|apply keeps_raise]. apply keeps_bind; [apply keeps_set|intros; apply keeps_ret].
  - destruct t as [p nm|nm o]; cbn [build].
    + destruct (forallb constructible ps); [|apply keeps_raise]. apply keeps_bind.
      * destruct (child_axis a); [apply keeps_create_child|]. destruct (attr_axis a); [apply keeps_create_attr|apply keeps_raise].
      * intros new. apply keeps_bind; [|intros; apply keeps_ret]. apply keeps_iter. eapply Forall_impl; [|exact H]. intros q Hq. apply Hq.
    + destruct (str_eqb nm (u "text")); [apply keeps_ret|apply keeps_raise].
Qed.

Lemma tails_append b K : forall d n, get_at b d = Some n -> tag_of n <> None -> tails (upd_at b (append_kid K) d) = tails d + tails K.
Proof.
  induction b as [|i b IH]; intros d n Hg Ht.
  - cbn in Hg. injection Hg as ->. destruct n as [q a t ks|s]; [|contradiction]. unfold append_kid. cbn [upd_at set_kids tails]. rewrite map_app, list_sum_app. cbn. lia.
  - cbn [get_at] in Hg. destruct d as [q a t ks|s]; [|destruct i; discriminate]. cbn [kids_of] in Hg. destruct (nth_error ks i) as [k|] eqn:Ek; [|discriminate]. specialize (IH _ _ Hg Ht).
    cbn [upd_at set_kids tails]. clear Hg. revert i Ek. induction ks as [|k0 ks IHk]; intros [|i] Ek; try discriminate; cbn in *; [injection Ek as ->; rewrite IH; unfold list_sum; lia|]. specialize (IHk i Ek). unfold list_sum in *. lia.
Qed.
Lemma tails_zero b : forall d, tails d = 0 -> tail_after b d = None.
Proof.
  induction b as [|i b IH]; intros d H; [reflexivity|]. cbn [tail_after]. destruct d as [q a t ks|s]; [|destruct b, i; reflexivity]. cbn [kids_of]. destruct (nth_error ks i) as [k|] eqn:Ek; [|now destruct b].
  assert (G : some1 (snd k) + tails (fst k) = 0).
  { cbn [tails] in H. clear IH. revert i Ek H. induction ks as [|k0 ks IHk]; intros [|i] Ek H; try discriminate; cbn in *; [injection Ek as ->; lia|]. eapply IHk; [exact Ek|]. unfold list_sum. lia. }
  destruct b; [destruct k as [kn [kt|]]; [discriminate|reflexivity]|]. apply IH. lia.
Qed.
Lemma tail_after_app b0 : forall n0 d i b1, get_at b0 d = Some n0 -> tail_after (b0 ++ i :: b1) d = tail_after (i :: b1) n0.
Proof.
  induction b0 as [|j b0 IH]; intros n0 d i b1 H; [cbn in H; injection H as ->; reflexivity|].
  cbn [get_at] in H. destruct (nth_error (kids_of d) j) as [k|] eqn:Ek; [|discriminate]. rewrite <- (IH _ _ i b1 H). cbn [app]. destruct b0 as [|j' b0]; cbn [app tail_after]; rewrite Ek; reflexivity.
Qed.

(** *** which node is written *)
Lemma create_existing E e d i : (exists rest, eval_at E e doc_root d = Ret (XN (i :: rest))) -> mgr_create E e d = (d, Ret (Some (ref_of i))).
Proof. intros [rest H]. unfold mgr_create, bind, reading, find_ast. rewrite H. reflexivity. Qed.
Lemma sel_graft E ss x : forall s n b, steps_ok E (ss ++ [s]) -> preds_of s = [] -> In b (sel E (ss ++ [s]) n) -> sel E (ss ++ [s]) (upd_at b (graft x) n) = sel E (ss ++ [s]) n.
Proof.
  assert (Ht : forall m, tag_of (graft x m) = tag_of m) by (intros []; reflexivity).
  induction ss as [|s0 ss IH]; intros s n b Ho Hp Hb.
  - cbn [app] in *. destruct (In_sel_cons _ _ _ _ _ Hb) as (i & k & b' & -> & Hi & Hm & Hb'). cbn in Hb'. destruct Hb' as [<-|[]].
    cbn [sel]. rewrite kids_upd_cons, enum_upd_nth, flat_map_map. apply flat_map_ext_in. intros [j y] Hj. cbn [fst snd]. destruct (Nat.eqb_spec j (0 + i)); [|reflexivity].
    cbn [fst snd upd_at]. replace (mstep E s (graft x (fst y))) with (mstep E s (fst y)); [reflexivity|]. unfold mstep. rewrite Hp. destruct (kind E s) as [[q| |]|]; try reflexivity. cbn [forallb]. now rewrite (has_tag_tag q _ _ (Ht (fst y))).
  - cbn [app] in *. destruct (In_sel_cons _ _ _ _ _ Hb) as (i & k & b' & -> & Hi & Hm & Hb'). destruct Ho as (H1 & (q & Hq) & H3 & H4).
    assert (Hs : mstep E s0 (upd_at b' (graft x) (fst k)) = mstep E s0 (fst k)).
    { symmetry. destruct (ss ++ [s]) as [|s2 ss2] eqn:Ess; [destruct ss; discriminate|]. destruct H3 as (k2 & Hk2 & Ha). destruct H4 as (_ & (q2 & Hq2) & _). rewrite Hq2 in Hk2. injection Hk2 as <-.
      eapply mstep_sim; [|exact H1|exact Ha]. eapply sim_upd; try eassumption. auto. }
    assert (Hss : sel E (ss ++ [s]) (upd_at b' (graft x) (fst k)) = sel E (ss ++ [s]) (fst k)) by (apply IH; auto).
    cbn [sel]. rewrite kids_upd_cons, enum_upd_nth, flat_map_map. apply flat_map_ext_in. intros [j y] Hj.
    apply In_enum in Hj as [_ Hj]. rewrite Nat.sub_0_r in Hj. cbn [fst snd]. rewrite Nat.add_0_l. destruct (Nat.eqb_spec j i) as [->|]; [|reflexivity].
    rewrite Hi in Hj. injection Hj as <-. cbn [fst snd]. now rewrite Hs, Hss.
Qed.
Lemma spine_end E dot e : is_path e = true -> ok E dot e = true -> is_KChild (lkind E e) = true \/ lkind E e = None -> end_preds e = [] ->
  spine e = [] \/ exists ss s, spine e = ss ++ [s] /\ preds_of s = [].
Proof.
  intros Hp Ho Hl He. destruct e; cbn [is_path] in Hp; try discriminate.
  - apply str_eqb_eq in Hp. subst op. destruct (ok_slash _ _ _ _ Ho) as (H1 & (ax & t & ps & ->) & H3 & H4). right. exists (spine e1), (EStep ax t ps). split; [reflexivity|].
    unfold end_preds in He. cbn [last_step] in He. rewrite str_eqb_refl in He. exact He.
  - right. eexists [], _. split; [reflexivity|]. exact He.
  - now left.
Qed.

(** ** C53 *)
(** the field matches an element (any XPath): that element gets the content, keeps its name, and nothing else changes,
    provided that no text follows it *)
Theorem C53_existing_partial : forall E s e x d b n rest d' x',
  parse s = Ok e -> eval_at E e doc_root d = Ret (XN (IElem b n :: rest)) -> wf_attrs x ->
  nodefield_set E s x d = ((d', x'), Ret tt) ->
  exists m m', get_at b d = Some m /\ get_at b d' = Some m' /\ tag_of m' = tag_of m /\ content_of x m' /\
    (tail_after b d = None -> same_outside b d d').
Proof.
  intros E s e x d b n rest d' x' Hp He Hx H. unfold nodefield_set in H. rewrite Hp in H. unfold node_set in H. rewrite (create_existing E e d (IElem b n) (ex_intro _ rest He)) in H.
  cbn [ref_of put_node] in H. destruct (get_at b d) as [m|] eqn:Hg; [|discriminate]. destruct m as [q a t ks|]; [|discriminate]. injection H as <- <-.
  exists (Elem q a t ks), (graft x (Elem q a t ks)). destruct (graft_content x (Elem q a t ks) Hx) as [Hc Ht]; [discriminate|].
  split; [reflexivity|]. split; [apply get_drop_tail; now apply get_upd_same|]. split; [exact Ht|]. split; [exact Hc|].
  intros Hn. rewrite drop_tail_none by now rewrite tail_after_upd. apply upd_outside.
Qed.
(** ... and it does succeed *)
Theorem C53_existing_succeeds : forall E s e x d b q a t ks rest,
  parse s = Ok e -> eval_at E e doc_root d = Ret (XN (IElem b (Elem q a t ks) :: rest)) -> get_at b d = Some (Elem q a t ks) ->
  exists d' x', nodefield_set E s x d = ((d', x'), Ret tt).
Proof.
  intros E s e x d b q a t ks rest Hp He Hg. unfold nodefield_set. rewrite Hp. unfold node_set. rewrite (create_existing E e d _ (ex_intro _ rest He)). cbn [ref_of put_node]. rewrite Hg. eauto.
Qed.
Lemma created_tail E e d d1 y b0 n0 K b1 m : build E Create e (Some doc_root) None d = (d1, Ret y) -> created E e d d1 y b0 n0 K b1 m ->
  tail_after (b0 ++ length (kids_of n0) :: b1) d1 = None.
Proof.
  intros Hb (C1 & C2 & C3 & C4 & C5 & C6 & _). pose proof (keeps_build _ _ _ _ _ _ _ _ Hb) as Ht. rewrite C6, (tails_append _ _ _ _ C1 C2) in Ht.
  rewrite C6. rewrite (tail_after_app _ (append_kid K n0)) by now apply get_upd_same. destruct n0 as [q a t ks|]; [|contradiction]. cbn [append_kid set_kids kids_of tail_after].
  rewrite nth_error_app_len. destruct b1; [reflexivity|]. cbn [fst]. apply tails_zero. lia.
Qed.
(** the field is missing: a new element gets the content; everything that was there stays as it was *)
Theorem C53_missing_partial : forall E s e x d d' x',
  parse s = Ok e -> supported_path E e = true -> is_KChild (lkind E e) = true -> tag_of d <> None -> wf_attrs x -> selects E e d = [] ->
  nodefield_set E s x d = ((d', x'), Ret tt) ->
  kept d d' /\ (exists p, forall c n, get_at c d = Some n -> c <> p -> exists n', get_at c d' = Some n' /\ shell n' = shell n) /\
  exists b m', get_at b d = None /\ get_at b d' = Some m' /\ content_of x m'.
Proof.
  intros E s e x d d' x' Hps Hs Hk Hd Hx Hnil H. unfold nodefield_set in H. rewrite Hps in H. unfold node_set in H.
  unfold supported_path in Hs. apply andb_prop in Hs as [Hs Hr]. apply andb_prop in Hs as [Hp Ho].
  assert (Hm : mgr_create E e d = build E Create e (Some doc_root) None d).
  { unfold mgr_create, bind, reading. rewrite (find_path _ _ _ _ Hp Ho), Hnil. reflexivity. }
  rewrite Hm in H. destruct (build E Create e (Some doc_root) None d) as [d1 [y|y]] eqn:Hb; [|discriminate].
  assert (Es : sel E (spine e) d = []).
  { rewrite (selects_elems _ _ _ _ Hp Ho (or_introl Hk)) in Hnil. destruct (sel E (spine e) d) as [|b l] eqn:Es; [reflexivity|]. unfold elems_at in Hnil. cbn [flat_map] in Hnil.
    destruct (In_sel_get E (spine e) d b) as [m Hg]; [rewrite Es; now left|]. rewrite Hg in Hnil. discriminate. }
  destruct (create_spec _ _ _ Hp Ho (or_introl Hk) Hr _ _ _ Hd Es Hb) as (b0 & n0 & K & b1 & m & C). pose proof (created_tail _ _ _ _ _ _ _ _ _ _ Hb C) as Htl.
  destruct C as (C1 & C2 & C3 & C4 & C5 & C6 & C7 & C8 & C9). subst y. cbn [put_node] in H.
  set (b := b0 ++ length (kids_of n0) :: b1) in *.
  assert (Hg : get_at b d1 = Some m) by (rewrite C6; unfold b; rewrite get_at_app, (get_upd_same _ _ _ _ C1), get_append; auto).
  rewrite Hg in H. destruct m as [q a t ks|]; [|discriminate]. injection H as <- _. rewrite drop_tail_none by now rewrite tail_after_upd.
  assert (Eq : upd_at b (graft x) d1 = upd_at b0 (append_kid (upd_at b1 (graft x) K)) d) by (rewrite C6; unfold b; now apply same_append_upd).
  split; [|split].
  - rewrite Eq. eapply kept_upd; [exact C1|apply kept_append].
  - exists b0. rewrite Eq. intros c n. apply old_shells_append.
  - exists b, (graft x (Elem q a t ks)). split; [|split].
    + unfold b. rewrite get_at_app, C1. cbn [get_at]. now rewrite (proj2 (nth_error_None (kids_of n0) (length (kids_of n0))) (le_n _)).
    + now apply get_upd_same.
    + now apply graft_content.
Qed.
Theorem C53_missing_succeeds_partial : forall E s e x d,
  parse s = Ok e -> supported_path E e = true -> is_KChild (lkind E e) = true -> tag_of d <> None -> tame E xml_valid e = true -> selects E e d = [] ->
  exists d' x', nodefield_set E s x d = ((d', x'), Ret tt).
Proof.
  intros E s e x d Hps Hs Hk Hd Ht Hnil. unfold nodefield_set. rewrite Hps. unfold node_set.
  unfold supported_path in Hs. apply andb_prop in Hs as [Hs Hr]. apply andb_prop in Hs as [Hp Ho].
  assert (Es : sel E (spine e) d = []).
  { rewrite (selects_elems _ _ _ _ Hp Ho (or_introl Hk)) in Hnil. destruct (sel E (spine e) d) as [|b l] eqn:Es; [reflexivity|]. unfold elems_at in Hnil. cbn [flat_map] in Hnil.
    destruct (In_sel_get E (spine e) d b) as [m Hg]; [rewrite Es; now left|]. rewrite Hg in Hnil. discriminate. }
  assert (Hm : mgr_create E e d = build E Create e (Some doc_root) None d) by (unfold mgr_create, bind, reading; rewrite (find_path _ _ _ _ Hp Ho), Hnil; reflexivity).
  rewrite Hm. destruct (create_total _ _ _ Hp Ho (or_introl Hk) Hr Ht _ Hd Es) as (d1 & y & Hb). rewrite Hb.
  destruct (create_spec _ _ _ Hp Ho (or_introl Hk) Hr _ _ _ Hd Es Hb) as (b0 & n0 & K & b1 & m & C1 & C2 & C3 & C4 & C5 & C6 & C7 & _). subst y. cbn [put_node].
  assert (Hg : get_at (b0 ++ length (kids_of n0) :: b1) d1 = Some m) by (rewrite C6, get_at_app, (get_upd_same _ _ _ _ C1), get_append; auto). rewrite Hg. destruct m; [eauto|contradiction].
Qed.
(** the field reads the new content afterwards, if its last step has no predicates *)
Theorem C53_reads_back_partial : forall E s e x d d' x',
  parse s = Ok e -> supported_path E e = true -> is_KChild (lkind E e) = true -> end_preds e = [] -> tag_of d <> None -> wf_attrs x ->
  (forall b n, hd_error (selects E e d) = Some (IElem b n) -> tail_after b d = None) ->
  nodefield_set E s x d = ((d', x'), Ret tt) ->
  exists b m', hd_error (selects E e d') = Some (IElem b m') /\ content_of x m'.
Proof.
  intros E s e x d d' x' Hps Hs Hk He Hd Hx Htl H. unfold nodefield_set in H. rewrite Hps in H. unfold node_set in H.
  unfold supported_path in Hs. apply andb_prop in Hs as [Hs Hr]. apply andb_prop in Hs as [Hp Ho].
  pose proof (spine_ok _ _ _ Hp Ho (or_introl Hk)) as Hso.
  assert (G : forall d1 b m, sel E (spine e) d1 = b :: tl (sel E (spine e) d1) -> get_at b d1 = Some m -> tail_after b d1 = None -> put_node (Some (RElem b)) x d1 = ((d', x'), Ret tt) ->
     exists b m', hd_error (selects E e d') = Some (IElem b m') /\ content_of x m').
  { intros d1 b m Hsel Hg Hn Hput. cbn [put_node] in Hput. rewrite Hg in Hput. destruct m as [q a t ks|]; [|discriminate]. injection Hput as <- _. rewrite drop_tail_none by now rewrite tail_after_upd.
    exists b, (graft x (Elem q a t ks)). split; [|now apply graft_content]. rewrite (selects_elems _ _ _ _ Hp Ho (or_introl Hk)), hd_elems.
    replace (sel E (spine e) (upd_at b (graft x) d1)) with (sel E (spine e) d1); [rewrite Hsel, (get_upd_same _ _ _ _ Hg); reflexivity|]. symmetry.
    destruct (spine_end _ _ _ Hp Ho (or_introl Hk) He) as [E0|(ss & s0 & E0 & Hs0)]; rewrite E0 in *; [reflexivity|]. apply sel_graft; auto. rewrite Hsel. now left. }
  rewrite (selects_elems _ _ _ _ Hp Ho (or_introl Hk)), hd_elems in Htl.
  destruct (sel E (spine e) d) as [|b l] eqn:Es.
  - assert (Hnil : selects E e d = []) by (rewrite (selects_elems _ _ _ _ Hp Ho (or_introl Hk)), Es; reflexivity).
    assert (Hm : mgr_create E e d = build E Create e (Some doc_root) None d) by (unfold mgr_create, bind, reading; rewrite (find_path _ _ _ _ Hp Ho), Hnil; reflexivity).
    rewrite Hm in H. destruct (build E Create e (Some doc_root) None d) as [d1 [y|y]] eqn:Hb; [|discriminate].
    destruct (create_spec _ _ _ Hp Ho (or_introl Hk) Hr _ _ _ Hd Es Hb) as (b0 & n0 & K & b1 & m & C). pose proof (created_tail _ _ _ _ _ _ _ _ _ _ Hb C) as Ht2.
    destruct C as (C1 & C2 & C3 & C4 & C5 & C6 & C7 & C8 & C9). subst y. eapply G; [|  |exact Ht2|exact H]; [rewrite C9; reflexivity|].
    rewrite C6, get_at_app, (get_upd_same _ _ _ _ C1), get_append; eauto.
  - destruct (In_sel_get E (spine e) d b) as [m Hg]; [rewrite Es; now left|].
    assert (Hm : mgr_create E e d = (d, Ret (Some (RElem b)))).
    { unfold mgr_create, bind, reading. rewrite (find_path _ _ _ _ Hp Ho), (selects_elems _ _ _ _ Hp Ho (or_introl Hk)), hd_elems, Es, Hg. reflexivity. }
    rewrite Hm in H. eapply G; [rewrite Es; reflexivity|exact Hg| |exact H]. apply (Htl b m). now rewrite Hg.
Qed.
(** of the object assigned, name, attributes and text stay: it is unchanged if it had no children *)
Theorem C53_source_partial : forall E s x d d' x' r, nodefield_set E s x d = ((d', x'), r) ->
  tag_of x' = tag_of x /\ attrs_of x' = attrs_of x /\ text_of x' = text_of x /\ (kids_of x' = kids_of x \/ kids_of x' = []).
Proof.
  intros E s x d d' x' r H. assert (G : x' = x \/ x' = set_kids (fun _ => []) x).
  { unfold nodefield_set in H. destruct (parse s) as [e| | |]; try (injection H as <- <- _; now left). unfold node_set in H. destruct (mgr_create E e d) as [d1 [y|y]]; [|injection H as <- <- _; now left].
    unfold put_node in H. destruct y as [[b|b q|b tl|w]|]; try (injection H as <- <- _; now left).
    - destruct (get_at b d1) as [[|]|]; injection H as <- <- _; auto.
    - destruct w; injection H as <- <- _; now left. }
  destruct G as [->| ->]; [auto|]. destruct x; cbn; auto.
Qed.
(** an object inside the same document, neither containing the field's element nor contained in it: its children are moved
    to the field, everything else stays *)
Theorem C53_same_document_partial : forall E s e a d b n rest d' x,
  parse s = Ok e -> eval_at E e doc_root d = Ret (XN (IElem b n :: rest)) -> get_at a d = Some x -> tag_of x <> None -> wf_attrs x -> ~ inside b a -> ~ inside a b ->
  nodefield_set_inside E s a d = (d', Ret tt) ->
  exists m m' x', get_at b d = Some m /\ get_at b d' = Some m' /\ tag_of m' = tag_of m /\ content_of x m' /\
    get_at a d' = Some x' /\ tag_of x' = tag_of x /\ attrs_of x' = attrs_of x /\ text_of x' = text_of x /\ kids_of x' = [] /\
    (tail_after b d = None -> forall c, ~ inside a c -> ~ inside b c -> option_map shell (get_at c d') = option_map shell (get_at c d)).
Proof.
  intros E s e a d b n rest d' x Hp He Ha Htx Hx N1 N2 H. unfold nodefield_set_inside in H. rewrite Hp in H. unfold node_set_inside in H. rewrite (create_existing E e d (IElem b n) (ex_intro _ rest He)) in H.
  cbn [ref_of put_inside] in H. destruct (get_at b d) as [m|] eqn:Hg; [|discriminate]. destruct m as [q am t ks|]; [|discriminate]. rewrite Ha in H.
  destruct (at_or_below b a) eqn:E1; [apply prefix_spec in E1; contradiction|]. destruct (at_or_below a b) eqn:E2; [apply prefix_spec in E2; contradiction|]. injection H as <-.
  assert (Hd : get_at a (drop_tail b (upd_at b (graft x) d)) = Some x).
  { transitivity (get_at a (upd_at b (graft x) d)); [|now rewrite get_upd_disjoint]. clear - N1 N2. generalize (upd_at b (graft x) d). clear d. revert a N1 N2.
    induction b as [|i b IH]; intros a N1 N2 d; [reflexivity|]. destruct a as [|j a]; [exfalso; apply N2; now exists (i :: b)|]. destruct d as [q a0 t ks|s0]; [|now destruct b].
    destruct b as [|i' b]; cbn [drop_tail set_kids get_at kids_of]; rewrite nth_upd_nth; (destruct (Nat.eqb_spec i j) as [->|N]; [|reflexivity]); (destruct (nth_error ks j) as [k|]; [|reflexivity]); cbn [option_map fst].
    - reflexivity.
    - apply IH; intros [r E0]; [apply N1|apply N2]; exists r; cbn; now rewrite E0. }
  exists (Elem q am t ks), (graft x (Elem q am t ks)), (set_kids (fun _ => []) x). destruct (graft_content x (Elem q am t ks) Hx) as [Hc Ht]; [discriminate|].
  split; [reflexivity|]. split; [|split; [exact Ht|split; [exact Hc|]]].
  - rewrite get_upd_disjoint by auto. apply get_drop_tail. now apply get_upd_same.
  - split; [now apply get_upd_same|]. destruct x as [qx ax tx kx|]; [|contradiction]. cbn. split; [reflexivity|]. split; [reflexivity|]. split; [reflexivity|]. split; [reflexivity|].
    intros Hn c Na Nb. rewrite upd_outside by exact Na. rewrite drop_tail_none by now rewrite tail_after_upd. now apply upd_outside.
Qed.
(** an object inside the field's element: it takes the place of the content it was part of *)
Theorem C53_from_inside_partial : forall E s e a d b n rest d' x,
  parse s = Ok e -> eval_at E e doc_root d = Ret (XN (IElem b n :: rest)) -> get_at a d = Some x -> wf_attrs x -> inside b a -> a <> b ->
  nodefield_set_inside E s a d = (d', Ret tt) ->
  exists m m', get_at b d = Some m /\ get_at b d' = Some m' /\ tag_of m' = tag_of m /\ content_of x m' /\ (tail_after b d = None -> same_outside b d d').
Proof.
  intros E s e a d b n rest d' x Hp He Ha Hx N1 N2 H. unfold nodefield_set_inside in H. rewrite Hp in H. unfold node_set_inside in H. rewrite (create_existing E e d (IElem b n) (ex_intro _ rest He)) in H.
  cbn [ref_of put_inside] in H. destruct (get_at b d) as [m|] eqn:Hg; [|discriminate]. destruct m as [q am t ks|]; [|discriminate]. rewrite Ha in H.
  rewrite (proj2 (prefix_spec b a) N1) in H. destruct (at_or_below a b) eqn:E2; [apply prefix_spec in E2; exfalso; apply N2; now apply inside_antisym|]. injection H as <-.
  exists (Elem q am t ks), (graft x (Elem q am t ks)). destruct (graft_content x (Elem q am t ks) Hx) as [Hc Ht]; [discriminate|].
  split; [reflexivity|]. split; [apply get_drop_tail; now apply get_upd_same|]. split; [exact Ht|]. split; [exact Hc|].
  intros Hn. rewrite drop_tail_none by now rewrite tail_after_upd. apply upd_outside.
Qed.
(** *** where it fails *)
(** [obj.f = obj.f] always erases the element: attributes, text and children *)
Theorem C53_self_refuted : forall E s e d b n rest d',
  parse s = Ok e -> eval_at E e doc_root d = Ret (XN (IElem b n :: rest)) ->
  nodefield_set_inside E s b d = (d', Ret tt) -> exists q, get_at b d' = Some (Elem q [] None []).
Proof.
  intros E s e d b n rest d' Hp He H. unfold nodefield_set_inside in H. rewrite Hp in H. unfold node_set_inside in H. rewrite (create_existing E e d (IElem b n) (ex_intro _ rest He)) in H.
  cbn [ref_of put_inside] in H. destruct (get_at b d) as [m|] eqn:Hg; [|discriminate]. destruct m as [q am t ks|]; [|discriminate].
  assert (Hi : at_or_below b b = true) by (apply prefix_spec; exists []; now rewrite app_nil_r). rewrite Hi in H. injection H as <-. exists q. apply get_drop_tail. now apply (get_upd_same _ (fun _ => Elem q [] None []) _ _ Hg).
Qed.
Open Scope string_scope.
Definition el (n : string) (a : list (string * string)) (t : string) (ks : list node) : node :=
  Elem (QN None (u n)) (map (fun x => (QN None (u (fst x)), u (snd x))) a) (match t with EmptyString => None | _ => Some (u t) end) (map (fun k => (k, None)) ks).
Definition E0 : env := mkEnv None [].
Definition Em : env := mkEnv (Some [(u "m", u "ns")]) [].
Definition xp (s : string) : expr := match parse (u s) with Ok e => e | _ => EInt 0 end.
(** a NodeField object's own content goes when the object is assigned elsewhere *)
Theorem C53_source_refuted : nodefield_set E0 (u "a") (el "x" [("k", "1")] "t" [el "b" [] "v" []]) (el "r" [] "" []) =
  ((el "r" [] "" [el "a" [("k", "1")] "t" [el "b" [] "v" []]], el "x" [("k", "1")] "t" []), Ret tt).
Proof. vm_compute. reflexivity. Qed.
Theorem C53_self_case_refuted : let d := el "r" [] "" [el "a" [("k", "1")] "t" [el "b" [] "v" []]] in
  nodefield_set_inside E0 (u "a") [0] d = (el "r" [] "" [el "a" [] "" []], Ret tt).
Proof. vm_compute. reflexivity. Qed.
(** the text after the element is lost *)
Theorem C53_tail_refuted : nodefield_set E0 (u "a") (el "x" [] "new" []) (Elem (QN None (u "r")) [] None [(el "a" [] "old" [], Some (u " and more"))]) =
  ((el "r" [] "" [el "a" [] "new" []], el "x" [] "new" []), Ret tt).
Proof. vm_compute. reflexivity. Qed.
(** a failed assignment leaves the elements behind that were created before it failed *)
Theorem C53_failed_refuted : nodefield_set E0 (app (u "a[b='") (app [1%N] (u "']/c"))) (el "x" [] "t" []) (el "r" [] "" []) =
  ((el "r" [] "" [el "a" [] "" [el "b" [] "" []]], el "x" [] "t" []), Exc XValue).
Proof. vm_compute. reflexivity. Qed.
(** ... also when the value is an element of the same document *)
Theorem C53_failed_inside_refuted : nodefield_set_inside E0 (app (u "a[b='") (app [1%N] (u "']/c"))) [0] (el "r" [] "" [el "x" [] "t" []]) =
  (el "r" [] "" [el "x" [] "t" []; el "a" [] "" [el "b" [] "" []]], Exc XValue).
Proof. vm_compute. reflexivity. Qed.
(** a field whose XPath has a predicate no longer finds what was assigned to it *)
Theorem C53_predicate_refuted : let s := u "name[@type='personal']" in
  exists d', nodefield_set E0 s (el "name" [] "Joe" []) (el "r" [] "" []) = ((d', el "name" [] "Joe" []), Ret tt) /\
    d' = el "r" [] "" [el "name" [] "Joe" []] /\ selects E0 (xp "name[@type='personal']") d' = [].
Proof. eexists. conjs; (vm_compute; reflexivity). Qed.
(** concrete cases *)
Definition src1 := el "x" [("k", "1"); ("l", "2")] "t" [el "b" [] "v" []; el "b" [] "w" []].
Definition doc1 := el "r" [] "" [el "p" [("id", "1")] "" [el "a" [("z", "0")] "old" [el "q" [] "" []]]; el "o" [] "kept" []].
Example C53_existing_case : let e := xp "p[@id='1']/a" in let d' := fst (fst (nodefield_set E0 (u "p[@id='1']/a") src1 doc1)) in
  parse (u "p[@id='1']/a") = Ok e /\ supported_path E0 e = true /\ is_KChild (lkind E0 e) = true /\ end_preds e = [] /\
  nodefield_set E0 (u "p[@id='1']/a") src1 doc1 = ((d', el "x" [("k", "1"); ("l", "2")] "t" []), Ret tt) /\
  d' = el "r" [] "" [el "p" [("id", "1")] "" [el "a" [("k", "1"); ("l", "2")] "t" [el "b" [] "v" []; el "b" [] "w" []]]; el "o" [] "kept" []] /\
  (exists n rest, eval_at E0 e doc_root doc1 = Ret (XN (IElem [0; 0] n :: rest))) /\ tail_after [0; 0] doc1 = None.
Proof. conjs; try (vm_compute; reflexivity). do 2 eexists. vm_compute; reflexivity. Qed.
Example C53_missing_case : let e := xp "p[@id='2']/m:a" in let d' := fst (fst (nodefield_set Em (u "p[@id='2']/m:a") src1 doc1)) in
  parse (u "p[@id='2']/m:a") = Ok e /\ supported_path Em e = true /\ is_KChild (lkind Em e) = true /\ end_preds e = [] /\ selects Em e doc1 = [] /\ tame Em xml_valid e = true /\
  nodefield_set Em (u "p[@id='2']/m:a") src1 doc1 = ((d', el "x" [("k", "1"); ("l", "2")] "t" []), Ret tt) /\ length (kids_of d') = 3.
Proof. conjs; (vm_compute; reflexivity). Qed.
Example C53_inside_case : let d' := fst (nodefield_set_inside E0 (u "o") [0] doc1) in
  nodefield_set_inside E0 (u "o") [0] doc1 = (d', Ret tt) /\ d' = el "r" [] "" [el "p" [("id", "1")] "" []; el "o" [("id", "1")] "" [el "a" [("z", "0")] "old" [el "q" [] "" []]]] /\
  nodefield_set_inside E0 (u "p") [0; 0] doc1 = (el "r" [] "" [el "p" [("z", "0")] "old" [el "q" [] "" []]; el "o" [] "kept" []], Ret tt).
Proof. conjs; (vm_compute; reflexivity). Qed.
Close Scope string_scope.
Lemma C53_wf_case : wf_attrs src1 /\ tag_of doc1 <> None.
Proof. split; [|discriminate]. unfold wf_attrs. vm_compute. constructor; [intros [H|[]]; discriminate|]. constructor; [intros []|constructor]. Qed.
Print Assumptions C53_existing_partial.
Print Assumptions C53_missing_partial.
Print Assumptions C53_reads_back_partial.
Print Assumptions C53_same_document_partial.
Print Assumptions C53_failed_refuted.
Print Assumptions C53_failed_inside_refuted.
