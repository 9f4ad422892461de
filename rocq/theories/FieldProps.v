(** Frame, creation, atomicity, idempotence and create_<field> (C11, C12, C13, C18, C19). *)
From Coq Require Import String Arith Lia.
From Verif Require Export FieldSetGet.
From Verif Require Import XPathEval FieldSpec DocSpec.

Opaque u.

(** ** documents *)
Lemma shell_upd_nth i (f : node * option str -> node * option str) ks : (forall k, snd (f k) = snd k) ->
  map snd (upd_nth i f ks) = map snd ks.
Proof. intros H. revert i. induction ks as [|k ks IH]; intros [|i]; cbn; try reflexivity; now rewrite ?H, ?IH. Qed.

Lemma same_except_upd b f d m : get_at b d = Some m -> kids_of (f m) = kids_of m -> same_except b d (upd_at b f d).
Proof.
  intros Hg Hk c. revert d c Hg. induction b as [|i b IH]; intros d c Hg Hne.
  - cbn in *. injection Hg as ->. destruct c as [|j c]; [contradiction|]. cbn. now rewrite Hk.
  - cbn [get_at] in Hg. destruct (nth_error (kids_of d) i) as [k|] eqn:Ek; [|discriminate].
    destruct c as [|j c].
    + cbn [get_at option_map]. f_equal. destruct d as [q a t ks|s]; [|destruct i; discriminate]. unfold shell. cbn. f_equal.
      now apply shell_upd_nth.
    + cbn [get_at]. rewrite kids_upd_cons, nth_upd_nth. destruct (Nat.eqb_spec i j) as [->|N]; [|reflexivity].
      rewrite Ek. cbn [option_map fst]. apply IH; auto. congruence.
Qed.

Lemma kept_refl d : kept d d.
Proof. intros c n Hg. exists n. repeat split; auto. intros i k ->. reflexivity. Qed.

Lemma kept_trans d d1 d2 : kept d d1 -> kept d1 d2 -> kept d d2.
Proof.
  intros H1 H2 c n Hg. destruct (H1 c n Hg) as (n1 & G1 & T1 & A1 & X1 & K1). destruct (H2 c n1 G1) as (n2 & G2 & T2 & A2 & X2 & K2).
  exists n2. split; [assumption|]. split; [congruence|]. split; [auto|]. split; [auto|].
  intros i k Hi. specialize (K1 i k Hi). destruct (nth_error (kids_of n1) i) as [k1|] eqn:E1; [|discriminate]. cbn in K1. rewrite (K2 i k1 E1). exact K1.
Qed.

Lemma kept_upd b f d m : get_at b d = Some m -> kept m (f m) -> kept d (upd_at b f d).
Proof.
  intros Hg Hk. revert d Hg. induction b as [|i b IH]; intros d Hg.
  - cbn in *. injection Hg as ->. exact Hk.
  - cbn [get_at] in Hg. destruct (nth_error (kids_of d) i) as [k|] eqn:Ek; [|discriminate]. specialize (IH _ Hg).
    intros [|j c] n Hn.
    + cbn in Hn. injection Hn as <-. exists (upd_at (i :: b) f d). split; [reflexivity|]. destruct d as [q a t ks|s]; [|destruct i; discriminate].
      cbn. repeat split; auto. intros j kj Hj. rewrite nth_upd_nth. cbn in Hj. rewrite Hj. destruct (Nat.eqb i j); reflexivity.
    + cbn [get_at] in *. rewrite kids_upd_cons, nth_upd_nth. destruct (Nat.eqb_spec i j) as [->|N].
      * rewrite Ek in *. cbn [option_map fst]. apply IH. exact Hn.
      * exact (kept_refl d (j :: c) n Hn).
Qed.

Lemma kept_append K n : kept n (append_kid K n).
Proof.
  intros [|i c] m Hm.
  - cbn in Hm. injection Hm as <-. exists (append_kid K n). split; [reflexivity|]. rewrite tag_append, attrs_append.
    split; [reflexivity|]. split; [auto|]. split; [destruct n; auto|]. intros i k Hi. destruct n as [q a t ks|s]; [|destruct i; discriminate].
    cbn in *. rewrite nth_error_app1; [now rewrite Hi|]. apply nth_error_Some. congruence.
  - cbn [get_at] in Hm. destruct n as [q a t ks|s]; [|destruct i; discriminate]. cbn [kids_of] in Hm.
    destruct (nth_error ks i) as [k|] eqn:Ei; [|discriminate].
    assert (Hg : get_at (i :: c) (append_kid K (Elem q a t ks)) = Some m).
    { cbn. rewrite nth_error_app1; [now rewrite Ei|]. apply nth_error_Some. congruence. }
    exists m. split; [exact Hg|]. repeat split; auto. intros j kj ->. reflexivity.
Qed.

Lemma kept_kids n n' : tag_of n' = tag_of n -> kids_of n' = kids_of n ->
  (forall q v, attr_get q (attrs_of n) = Some v -> attr_get q (attrs_of n') = Some v) ->
  (forall s, text_of n = Some s -> text_of n' = Some s) -> kept n n'.
Proof.
  intros Ht Hk Ha Hx [|i c] m Hm.
  - cbn in Hm. injection Hm as <-. exists n'. repeat split; auto. intros i k Hi. now rewrite Hk, Hi.
  - cbn [get_at] in *. rewrite Hk. exact (kept_refl n (i :: c) m Hm).
Qed.

Lemma same_append_upd b0 n0 K f b1 d : get_at b0 d = Some n0 -> tag_of n0 <> None ->
  upd_at (b0 ++ length (kids_of n0) :: b1) f (upd_at b0 (append_kid K) d) = upd_at b0 (append_kid (upd_at b1 f K)) d.
Proof. intros Hg Ht. rewrite (upd_at_twice _ _ _ _ _ _ Hg), upd_append by assumption. symmetry. now apply upd_at_const. Qed.

(** all old nodes other than [b] have the same shell *)
Lemma old_shells_append b K d : forall c n, get_at c d = Some n -> c <> b ->
  exists n', get_at c (upd_at b (append_kid K) d) = Some n' /\ shell n' = shell n.
Proof.
  revert d. induction b as [|i b IH]; intros d c n Hc Hne.
  - destruct c as [|j c]; [contradiction|]. cbn [upd_at get_at] in *. destruct d as [q a t ks|s]; [|destruct j; discriminate]. cbn [kids_of append_kid set_kids] in *.
    destruct (nth_error ks j) as [k|] eqn:Ej; [|discriminate]. rewrite nth_error_app1 by (apply nth_error_Some; congruence). rewrite Ej. eauto.
  - destruct c as [|j c].
    + cbn in Hc. injection Hc as <-. exists (upd_at (i :: b) (append_kid K) d). split; [reflexivity|]. destruct d as [q a t ks|s]; [|reflexivity].
      unfold shell. cbn. f_equal. now apply shell_upd_nth.
    + cbn [get_at] in *. rewrite kids_upd_cons, nth_upd_nth. destruct (Nat.eqb_spec i j) as [->|N]; [|eauto].
      destruct (nth_error (kids_of d) j) as [k|] eqn:Ej; [|discriminate]. cbn [option_map fst]. apply IH; auto. congruence.
Qed.

(** ** C11 *)
(** first match an element: any XPath *)
Theorem set_existing_elem E e v d d' b n rest : eval_at E e doc_root d = Ret (XN (IElem b n :: rest)) ->
  mgr_set E e (Some v) d = (d', Ret tt) ->
  same_except b d d' /\ exists m, get_at b d = Some m /\ kids_of m = [] /\ get_at b d' = Some (set_text (Some v) m).
Proof.
  intros He Hm. unfold mgr_set in Hm. unfold bind, reading, find_ast in Hm. rewrite He in Hm. cbn [first_match ref_of] in Hm.
  unfold ret in Hm. destruct (get_at b d) as [m|] eqn:Hg.
  2:{ cbn [set_in_xml] in Hm. rewrite Hg in Hm. discriminate. }
  destruct (set_elem_in _ _ _ _ _ _ _ _ Hg Hm) as (E1 & -> & _). split.
  - eapply same_except_upd; [exact Hg|]. now rewrite kids_set_text.
  - exists m. split; [reflexivity|]. split; [assumption|]. now apply get_upd_same.
Qed.

Lemma kids_writes k v m : kids_of (writes k v m) = kids_of m.
Proof. destruct k; cbn [writes]; auto using kids_set_text, kids_set_attr. Qed.

Lemma hd_selects_place E e d d1 b m : is_path e = true -> ok E true e = true -> place E e d d1 b m -> selects E e d <> [] -> d1 = d.
Proof.
  intros Hp Ho HP Hne. destruct HP; try reflexivity; exfalso; apply Hne.
  - rewrite (selects_elems _ _ _ _ Hp Ho H). now rewrite H0.
  - unfold selects. rewrite (ev_route _ _ _ _ _ _ Hp Ho H H0). cbn. now rewrite H1.
Qed.

(** what the first match is, at the place written *)
Lemma place_hd E e d d1 b m v : is_path e = true -> ok E true e = true -> place E e d d1 b m ->
  get_at b d1 = Some m /\ tag_of m <> None /\
  exists i, hd_error (selects E e (upd_at b (writes (wkind E e) v) d1)) = Some i /\ item_str i = v /\
    ref_of i = match lkind E e with Some (KAttr q) => RAttr b q | Some KText => RText b false | _ => RElem b end /\
    (is_KChild (lkind E e) = true \/ lkind E e = None -> kids_of m = []).
Proof.
  intros Hp Ho HP.
  assert (Helem : forall l, (is_KChild (lkind E e) = true \/ lkind E e = None) -> sel E (spine e) d1 = b :: l -> get_at b d1 = Some m -> tag_of m <> None -> kids_of m = [] ->
     exists i, hd_error (selects E e (upd_at b (writes (wkind E e) v) d1)) = Some i /\ item_str i = v /\
    ref_of i = match lkind E e with Some (KAttr q) => RAttr b q | Some KText => RText b false | _ => RElem b end /\
    (is_KChild (lkind E e) = true \/ lkind E e = None -> kids_of m = [])).
  { intros l Hl Hs Hg Ht Hk. exists (IElem b (set_text (Some v) m)). rewrite (wkind_child _ _ Hl). cbn [writes].
    rewrite (selects_elems _ _ _ _ Hp Ho Hl), hd_elems. pose proof (spine_ok _ _ _ Hp Ho Hl) as Hso.
    rewrite (sel_upd E KText); auto; [|now apply steps_avoid_text|rewrite Hs; now left|intros; apply sim_set_text].
    rewrite Hs, (get_upd_same _ _ _ _ Hg). split; [reflexivity|]. split; [|split; [|auto]].
    - cbn [item_str]. rewrite strval_leaf; [now rewrite text_set_text|now rewrite kids_set_text|now rewrite tag_set_text].
    - destruct Hl as [Hl|Hl]; destruct (lkind E e) as [[q|q|]|]; try discriminate; reflexivity. }
  assert (Hterm : forall k l1 l2, lkind E e = Some k -> is_KChild (Some k) = false -> sel E (route e) d1 = l1 ++ b :: l2 ->
     (forall c n, In c l1 -> get_at c d1 = Some n -> term_items k c n = []) -> get_at b d1 = Some m -> tag_of m <> None ->
     exists i, hd_error (selects E e (upd_at b (writes (wkind E e) v) d1)) = Some i /\ item_str i = v /\
    ref_of i = match lkind E e with Some (KAttr q) => RAttr b q | Some KText => RText b false | _ => RElem b end /\
    (is_KChild (lkind E e) = true \/ lkind E e = None -> kids_of m = [])).
  { intros k l1 l2 Hk Hc Hs Hl1 Hg Ht. replace (wkind E e) with k by (unfold wkind; rewrite Hk; destruct k; [discriminate|reflexivity|reflexivity]).
    rewrite (term_upd _ _ _ _ _ _ _ _ _ _ Hp Ho Hk Hc Hs Hl1 Hg (writes_sim k v m Hc)). rewrite Hk.
    destruct k as [q|q|]; [discriminate| |]; cbn [writes term_items].
    - destruct (attr_items_set q v b m Ht) as [r ->]. exists (IAttr b q v). repeat split; auto. intros [H|H]; discriminate.
    - destruct (text_items_set v b m Ht) as [r ->]. exists (IText b false v). repeat split; auto. intros [H|H]; discriminate. }
  destruct HP as [b l m Hl Hsel Hg Hk Ht|k l1 b l2 m Hk Hc Hsel Hl1 Hg Ht _ _ _|b0 n0 K b1 m Hl Hsel C Hkm|k b0 n0 K b1 m Hk Hc Hsel Hg Ht Hgm Htm Hno Htx _ Hsel'].
  - split; [assumption|]. split; [assumption|]. eapply Helem; eassumption.
  - split; [assumption|]. split; [assumption|]. eapply Hterm; eassumption.
  - destruct C as (C1 & C2 & C3 & C4 & C5 & C6 & C7 & C8 & C9).
    assert (Hg : get_at (b0 ++ length (kids_of n0) :: b1) (upd_at b0 (append_kid K) d) = Some m).
    { rewrite get_at_app, (get_upd_same _ _ _ _ C1), get_append; assumption. }
    split; [assumption|]. split; [assumption|]. eapply Helem; eauto.
  - assert (Hg' : get_at (b0 ++ length (kids_of n0) :: b1) (upd_at b0 (append_kid K) d) = Some m).
    { rewrite get_at_app, (get_upd_same _ _ _ _ Hg), get_append; assumption. }
    split; [assumption|]. split; [assumption|]. eapply (Hterm k [] []); eauto. contradiction.
Qed.

(** supported fields: which node is written, and that it is the one that was read before *)
Theorem set_existing E e v d d' : supported_path E e = true -> tag_of d <> None -> not_tail (selects E e d) ->
  selects E e d <> [] -> mgr_set E e (Some v) d = (d', Ret tt) ->
  exists b m, get_at b d = Some m /\ same_except b d d' /\
   match hd_error (selects E e d) with
   | Some (IElem c n) => c = b /\ n = m /\ get_at b d' = Some (set_text (Some v) m)
   | Some (IAttr c q _) => c = b /\ get_at b d' = Some (set_attr q v m)
   | Some (IText c _ _) => c = b /\ get_at b d' = Some (set_text (Some v) m)
   | None => False
   end.
Proof.
  intros Hs Hd Hnt Hne Hm. destruct (set_char _ _ _ _ _ Hs Hd Hnt Hm) as (d1 & b & m & HP & Hd' & _ & _).
  unfold supported_path in Hs. apply andb_prop in Hs as [Hs _]. apply andb_prop in Hs as [Hp Ho].
  pose proof (hd_selects_place _ _ _ _ _ _ Hp Ho HP Hne) as ->.
  destruct (place_hd _ _ _ _ _ _ v Hp Ho HP) as (Hg & Ht & i & Hi & _).
  exists b, m. split; [assumption|]. subst d'. split; [eapply same_except_upd; [exact Hg|apply kids_writes]|].
  remember d as dd eqn:Edd in HP at 2. 
  destruct HP as [b l m Hl Hsel Hg' Hk Ht'|k l1 b l2 m Hk Hc Hsel Hl1 Hg' Ht' _ _ Hnn|b0 n0 K b1 m Hl Hsel C Hkm|k b0 n0 K b1 m Hk Hc Hsel Hg' Ht' Hgm Htm Hno Htx _ Hsel'].
  - rewrite (selects_elems _ _ _ _ Hp Ho Hl), hd_elems, Hsel, Hg. cbn. split; [reflexivity|]. split; [reflexivity|].
    rewrite (wkind_child _ _ Hl). now apply get_upd_same.
  - specialize (Hnn Hne).
    assert (Hev : selects E e d = flat_map (fun b => match get_at b d with Some m => term_items k b m | None => [] end) (sel E (route e) d)).
    { unfold selects. now rewrite (ev_route _ _ _ _ _ _ Hp Ho Hk Hc). }
    assert (Hw : wkind E e = k) by (unfold wkind; rewrite Hk; destruct k; [discriminate|reflexivity|reflexivity]). rewrite Hw.
    destruct (selects E e d) as [|i0 r0] eqn:Esel; [contradiction|]. cbn [hd_error]. 
    assert (Hhd : hd_error (i0 :: r0) = hd_error (term_items k b m)).
    { rewrite Hev, Hsel, hd_join; [rewrite Hg; destruct (term_items k b m); [contradiction|reflexivity]|].
      intros c Hcin. destruct (get_at c d) as [n|] eqn:Ec; [|reflexivity]. eapply Hl1; eassumption. }
    cbn [hd_error] in Hhd. rewrite (get_upd_same _ _ _ _ Hg).
    destruct (term_items k b m) as [|j r] eqn:Ej; [contradiction|]. injection Hhd as ->.
    destruct k as [q|q|]; [discriminate| |].
    + cbn [term_items] in Ej. unfold attr_items in Ej. assert (Hin : In j (j :: r)) by now left. rewrite <- Ej in Hin.
      apply in_flat_map in Hin as ([q' w] & _ & Hin). cbn in Hin. destruct (qeqb q' q) eqn:Eq; [|contradiction]. apply qeqb_eq in Eq. subst q'.
      destruct Hin as [<-|[]]. split; reflexivity.
    + cbn [term_items] in Ej. destruct m as [qm ats tx ks|]; [|contradiction]. cbn [text_items] in Ej.
      destruct tx as [sx|]; cbn [app] in Ej; [injection Ej as <- _; split; reflexivity|]. exfalso.
      assert (Hin : In j (j :: r)) by now left. rewrite <- Ej in Hin. apply in_flat_map in Hin as ([x [kn kt]] & _ & Hin). cbn in Hin.
      destruct kt; [|contradiction]. destruct Hin as [<-|[]]. exact Hnt.
  - exfalso. apply Hne. rewrite (selects_elems _ _ _ _ Hp Ho Hl). now rewrite Hsel.
  - exfalso. apply Hne. unfold selects. rewrite (ev_route _ _ _ _ _ _ Hp Ho Hk Hc). cbn. now rewrite Hsel.
Qed.

(** ** C12 *)
Theorem set_missing E e v d d' : supported_path E e = true -> tag_of d <> None -> selects E e d = [] ->
  mgr_set E e (Some v) d = (d', Ret tt) ->
  kept d d' /\ exists b, forall c n, get_at c d = Some n -> c <> b -> exists n', get_at c d' = Some n' /\ shell n' = shell n.
Proof.
  intros Hs Hd Hnil Hm. assert (Hnt : not_tail (selects E e d)) by now rewrite Hnil.
  destruct (set_char _ _ _ _ _ Hs Hd Hnt Hm) as (d1 & b & m & HP & -> & _ & _).
  unfold supported_path in Hs. apply andb_prop in Hs as [Hs _]. apply andb_prop in Hs as [Hp Ho].
  destruct HP as [b l m Hl Hsel Hg Hk Ht|k l1 b l2 m Hk Hc Hsel Hl1 Hg Ht Hl1n Hkt _|b0 n0 K b1 m Hl Hsel C Hkm|k b0 n0 K b1 m Hk Hc Hsel Hg Ht Hgm Htm Hno Htx _ Hsel'].
  - exfalso. rewrite (selects_elems _ _ _ _ Hp Ho Hl), Hsel in Hnil. unfold elems_at in Hnil. cbn [flat_map] in Hnil. rewrite Hg in Hnil. discriminate.
  - assert (Hw : wkind E e = k) by (unfold wkind; rewrite Hk; destruct k; [discriminate|reflexivity|reflexivity]). rewrite Hw.
    assert (Hterm : term_items k b m = []).
    { specialize (Hl1n Hnil). unfold selects in Hnil. rewrite (ev_route _ _ _ _ _ _ Hp Ho Hk Hc) in Hnil. cbn [nodes_of] in Hnil. rewrite Hsel, Hl1n in Hnil.
      cbn [app flat_map] in Hnil. rewrite Hg in Hnil. now apply app_eq_nil in Hnil as [H _]. }
    split.
    + eapply kept_upd; [exact Hg|]. apply kept_kids.
      * destruct k; cbn [writes]; auto using tag_set_text, tag_set_attr.
      * apply kids_writes.
      * destruct k as [q|q|]; [discriminate| |]; cbn [writes]; intros q' w Hq; [|now rewrite attrs_set_text].
        rewrite (attrs_set_attr _ _ _ Ht), attr_get_set. destruct (qeqb q' q) eqn:Eq; [|assumption]. exfalso. apply qeqb_eq in Eq. subst q'.
        cbn [term_items] in Hterm. unfold attr_items in Hterm. clear -Hq Hterm. induction (attrs_of m) as [|[p x] l IH]; cbn in *; [discriminate|].
        rewrite (qeqb_sym p q) in Hterm. destruct (qeqb q p); [discriminate|auto].
      * destruct k as [q|q|]; [discriminate| |]; cbn [writes]; intros s Hx; [destruct m; assumption|].
        exfalso. cbn [term_items] in Hterm. destruct m as [qm ats tx ks|]; [|contradiction]. cbn in Hx. subst tx. discriminate.
    + exists b. intros c n Hcg Hne. pose proof (same_except_upd b (writes k v) d m Hg (kids_writes k v m) c Hne) as Hsh. rewrite Hcg in Hsh. cbn in Hsh.
      destruct (get_at c (upd_at b (writes k v) d)) as [n'|]; [|discriminate]. cbn in Hsh. injection Hsh as Hsh1 Hsh2 Hsh3 Hsh4. exists n'. split; [reflexivity|].
      unfold shell. congruence.
  - destruct C as (C1 & C2 & C3 & C4 & C5 & C6 & C7 & C8 & C9). rewrite (same_append_upd _ _ _ _ _ _ C1 C2). split.
    + eapply kept_upd; [exact C1|apply kept_append].
    + exists b0. apply old_shells_append.
  - rewrite (same_append_upd _ _ _ _ _ _ Hg Ht). split.
    + eapply kept_upd; [exact Hg|apply kept_append].
    + exists b0. apply old_shells_append.
Qed.

(** ** C18 *)
Theorem set_set E e v1 v2 d d1 d2 : supported_path E e = true -> tag_of d <> None -> not_tail (selects E e d) ->
  mgr_set E e (Some v1) d = (d1, Ret tt) -> (mgr_set E e (Some v2) d1 = (d2, Ret tt) <-> mgr_set E e (Some v2) d = (d2, Ret tt)).
Proof.
  intros Hs Hd Hnt Hm. destruct (set_char _ _ _ _ _ Hs Hd Hnt Hm) as (d0 & b & m & HP & -> & _ & HW).
  pose proof Hs as Hs'. unfold supported_path in Hs'. apply andb_prop in Hs' as [Hs' _]. apply andb_prop in Hs' as [Hp Ho].
  destruct (place_hd _ _ _ _ _ _ v1 Hp Ho HP) as (Hg & Ht & i & Hi & _ & Hri & Hkm).
  assert (Hset : mgr_set E e (Some v2) (upd_at b (writes (wkind E e) v1) d0) = set_in_xml E (Some (ref_of i)) (Some v2) (terminal_step e) (upd_at b (writes (wkind E e) v1) d0)).
  { unfold mgr_set, bind, reading. rewrite (find_path _ _ _ _ Hp Ho), Hi. reflexivity. }
  assert (Hg1 : get_at b (upd_at b (writes (wkind E e) v1) d0) = Some (writes (wkind E e) v1 m)) by now apply get_upd_same.
  assert (Hgo : mgr_set E e (Some v2) (upd_at b (writes (wkind E e) v1) d0) =
                if xml_valid v2 then (upd_at b (writes (wkind E e) v2) d0, Ret tt) else (upd_at b (writes (wkind E e) v1) d0, Exc XValue)).
  { rewrite Hset, Hri. unfold wkind in *. destruct (lkind E e) as [[q|q|]|] eqn:Hk.
    - cbn [set_in_xml]. rewrite Hg1, kids_writes, Hkm by now left. unfold set_text_at. destruct (xml_valid v2); [|reflexivity].
      rewrite upd_upd_same. f_equal. eapply upd_at_ext; [exact Hg|]. destruct m; reflexivity.
    - destruct (lkind_last _ _ _ Hk) as (s & Hls & Hks). rewrite (terminal_last _ _ _ _ Hp Ho Hls).
      destruct (kind_estep _ _ _ Hks) as (ax & t & ps & ->). destruct (xml_valid v2) eqn:Ev.
      + rewrite (set_attr_out _ _ _ _ _ _ _ _ Hks Ev), upd_upd_same. f_equal. eapply upd_at_ext; [exact Hg|]. destruct m; [|contradiction]. cbn. now rewrite attr_set_set.
      + destruct (kind_attr _ _ _ _ _ Hks) as (p & nm & -> & _ & _ & Hst & Htx & _).
        unfold set_in_xml, is_text_nodetest, test_name. rewrite Htx. unfold set_attr_at, name_valid. rewrite Hst. cbn [negb]. now rewrite Ev.
    - destruct (lkind_last _ _ _ Hk) as (s & Hls & Hks). rewrite (terminal_last _ _ _ _ Hp Ho Hls).
      cbn [set_in_xml]. rewrite (is_text_kind _ _ Hks). unfold set_text_at. destruct (xml_valid v2); [|reflexivity].
      rewrite upd_upd_same. f_equal. eapply upd_at_ext; [exact Hg|]. destruct m; reflexivity.
    - cbn [set_in_xml]. rewrite Hg1, kids_writes, Hkm by now right. unfold set_text_at. destruct (xml_valid v2); [|reflexivity].
      rewrite upd_upd_same. f_equal. eapply upd_at_ext; [exact Hg|]. destruct m; reflexivity. }
  rewrite Hgo. split.
  - destruct (xml_valid v2) eqn:Ev; [|discriminate]. intros [= <-]. now apply HW.
  - intros H2. destruct (set_char _ _ _ _ _ Hs Hd Hnt H2) as (d3 & b3 & m3 & _ & _ & Hv & _). rewrite Hv. rewrite (HW _ Hv) in H2. exact H2.
Qed.

(** ** C13, existing nodes: any XPath, any value *)
Theorem set_fail_existing E e v d d' x : (exists i rest, eval_at E e doc_root d = Ret (XN (i :: rest))) ->
  mgr_set E e (Some v) d = (d', Exc x) -> d' = d.
Proof.
  intros (i & rest & He) Hm. unfold mgr_set, bind, reading, find_ast in Hm. rewrite He in Hm. cbn [first_match] in Hm. unfold ret in Hm.
  destruct i as [b n|b q w|b tl s]; cbn [ref_of set_in_xml] in Hm.
  - destruct (get_at b d) as [m|]; [|now injection Hm]. destruct (kids_of m); [|now injection Hm]. unfold set_text_at in Hm.
    destruct (xml_valid v); [discriminate|now injection Hm].
  - destruct (is_text_nodetest _); [unfold set_text_at in Hm; destruct (xml_valid v); [discriminate|now injection Hm]|].
    unfold set_attr_at in Hm. destruct (terminal_step e) as [[]|]; try now injection Hm.
    destruct node_test; (destruct (negb _); [now injection Hm|]; destruct (xml_valid v); [discriminate|now injection Hm]).
  - destruct (is_text_nodetest _); [unfold set_text_at in Hm; destruct (xml_valid v); [discriminate|now injection Hm]|].
    unfold set_attr_at in Hm. destruct (terminal_step e) as [[]|]; try now injection Hm.
    destruct node_test; (destruct (negb _); [now injection Hm|]; destruct (xml_valid v); [discriminate|now injection Hm]).
Qed.
