(** What a successful assignment does to the document, and what is read back (C10-C13, C18). *)
From Coq Require Import String Arith.
From Verif Require Export FieldSet.
From Verif Require Import XPathEval FieldSpec.

Opaque u.

Lemma hd_split {A B} (F : A -> list B) l i : hd_error (flat_map F l) = Some i ->
  exists l1 b l2 r, l = l1 ++ b :: l2 /\ (forall x, In x l1 -> F x = []) /\ F b = i :: r.
Proof.
  induction l as [|x l IH]; cbn; [discriminate|]. destruct (F x) as [|y r] eqn:Ex; cbn; intros H.
  - destruct (IH H) as (l1 & b & l2 & r & -> & H1 & H2). exists (x :: l1), b, l2, r. split; [reflexivity|]. split; [|assumption].
    intros z [<-|Hz]; auto.
  - injection H as <-. exists [], x, l, r. cbn. intuition.
Qed.

Lemma hd_join {A B} (F : A -> list B) l1 b l2 : (forall x, In x l1 -> F x = []) ->
  hd_error (flat_map F (l1 ++ b :: l2)) = match F b with [] => hd_error (flat_map F l2) | i :: _ => Some i end.
Proof.
  intros H. induction l1 as [|x l1 IH]; cbn.
  - destruct (F b); reflexivity.
  - rewrite (H x) by now left. cbn. apply IH. intros; apply H; now right.
Qed.

(** reading, for paths *)
Lemma get_string_path E dot e d : is_path e = true -> ok E dot e = true ->
  get_string E e d = Ret (option_map item_str (hd_error (selects E e d))).
Proof.
  intros Hp Ho. unfold get_string, eval_at, selects, doc_root, xpath. cbn [get_at]. rewrite (ok_supported _ _ _ Ho).
  destruct (ev_is_nodes E dot e (IElem [] d) Hp Ho) as [its ->]. cbn [nodes_of]. destruct its; reflexivity.
Qed.

Lemma find_path E dot e d : is_path e = true -> ok E dot e = true ->
  find_ast E e doc_root d = Ret (option_map ref_of (hd_error (selects E e d))).
Proof.
  intros Hp Ho. unfold find_ast, eval_at, selects, doc_root, xpath. cbn [get_at]. rewrite (ok_supported _ _ _ Ho).
  destruct (ev_is_nodes E dot e (IElem [] d) Hp Ho) as [its ->]. cbn [nodes_of]. destruct its; reflexivity.
Qed.

(** *** the element at the end of a child path *)
Lemma selects_elems E dot e d : is_path e = true -> ok E dot e = true -> is_KChild (lkind E e) = true \/ lkind E e = None ->
  selects E e d = elems_at [] d (sel E (spine e) d).
Proof. intros Hp Ho Hl. unfold selects. now rewrite (ev_elems _ _ _ Hp Ho Hl). Qed.

Lemma hd_elems E ss d : hd_error (elems_at [] d (sel E ss d)) =
  match sel E ss d with [] => None | b :: _ => option_map (IElem b) (get_at b d) end.
Proof.
  destruct (sel E ss d) as [|b l] eqn:Es; [reflexivity|]. unfold elems_at. cbn [flat_map].
  destruct (In_sel_get E ss d b) as [m Hm]; [rewrite Es; now left|]. rewrite Hm. reflexivity.
Qed.

Lemma set_text_get E dot e d b l m v : is_path e = true -> ok E dot e = true -> is_KChild (lkind E e) = true \/ lkind E e = None ->
  sel E (spine e) d = b :: l -> get_at b d = Some m -> tag_of m <> None -> kids_of m = [] ->
  get_string E e (upd_at b (set_text (Some v)) d) = Ret (Some v).
Proof.
  intros Hp Ho Hl Hs Hg Ht Hk. rewrite (get_string_path _ _ _ _ Hp Ho), (selects_elems _ _ _ _ Hp Ho Hl), hd_elems.
  pose proof (spine_ok _ _ _ Hp Ho Hl) as Hso.
  rewrite (sel_upd E KText); auto; [|now apply steps_avoid_text|rewrite Hs; now left|intros; apply sim_set_text].
  rewrite Hs, (get_upd_same _ _ _ _ Hg). cbn [option_map item_str]. do 2 f_equal.
  rewrite strval_leaf; [now rewrite text_set_text|now rewrite kids_set_text|now rewrite tag_set_text].
Qed.

(** *** attribute or text() below a child path *)
Lemma route_length E e d b c : In b (sel E (route e) d) -> In c (sel E (route e) d) -> length b = length c.
Proof. intros Hb Hc. now rewrite (sel_length _ _ _ _ Hb), (sel_length _ _ _ _ Hc). Qed.

Lemma term_upd E dot e k d l1 b l2 m f : is_path e = true -> ok E dot e = true -> lkind E e = Some k -> is_KChild (Some k) = false ->
  sel E (route e) d = l1 ++ b :: l2 -> (forall c n, In c l1 -> get_at c d = Some n -> term_items k c n = []) ->
  get_at b d = Some m -> sim k m (f m) ->
  hd_error (selects E e (upd_at b f d)) = match term_items k b (f m) with i :: _ => Some i
    | [] => hd_error (flat_map (fun c => match get_at c d with Some n => term_items k c n | None => [] end) l2) end.
Proof.
  intros Hp Ho Hk Hc Hs Hl1 Hg Hsim. unfold selects. rewrite (ev_route _ _ _ _ _ _ Hp Ho Hk Hc). cbn [nodes_of app].
  destruct (route_ok _ _ _ _ Hp Ho Hk) as [Hso Hla].
  pose proof (sel_NoDup E (route e) d) as Hnd.
  assert (Hb : In b (sel E (route e) d)) by (rewrite Hs; apply in_or_app; right; now left).
  rewrite (sel_upd E k); auto; [|intros m' Hm'; rewrite Hg in Hm'; now injection Hm' as <-].
  assert (Hoth : forall c, In c l1 \/ In c l2 -> get_at c (upd_at b f d) = get_at c d).
  { intros c Hcin. apply get_upd_other.
    - apply (route_length E e d); auto. rewrite Hs. apply in_or_app. destruct Hcin; [now left|right; now right].
    - intros <-. rewrite Hs in Hnd. apply NoDup_remove_2 in Hnd. apply Hnd. apply in_or_app. exact Hcin. }
  rewrite Hs, hd_join.
  - rewrite (get_upd_same _ _ _ _ Hg). destruct (term_items k b (f m)) as [|i r]; [|reflexivity]. f_equal.
    apply flat_map_ext_in. intros c Hcin. now rewrite Hoth by now right.
  - intros c Hcin. rewrite Hoth by now left. destruct (get_at c d) as [n|] eqn:En; [|reflexivity]. eapply Hl1; eassumption.
Qed.

Lemma attr_items_set q v a n : tag_of n <> None -> exists r, attr_items q a (set_attr q v n) = IAttr a q v :: r.
Proof.
  intros Hn. unfold attr_items. rewrite (attrs_set_attr _ _ _ Hn). induction (attrs_of n) as [|[p w] l IH]; cbn.
  - rewrite qeqb_refl. eexists. reflexivity.
  - destruct (qeqb q p) eqn:Eq; cbn.
    + apply qeqb_eq in Eq. subst p. rewrite qeqb_refl. eexists. reflexivity.
    + rewrite (qeqb_sym p q), Eq. exact IH.
Qed.

Lemma text_items_set v a n : tag_of n <> None -> exists r, text_items a (set_text (Some v) n) = IText a false v :: r.
Proof. destruct n; [|contradiction]. cbn. eauto. Qed.

Definition writes (k : skind) (v : str) : node -> node :=
  match k with KAttr q => set_attr q v | _ => set_text (Some v) end.

Lemma writes_sim k v n : is_KChild (Some k) = false -> sim k n (writes k v n).
Proof. destruct k as [q|q|]; [discriminate| |]; intros _; cbn [writes]; [apply sim_set_attr|apply sim_set_text]. Qed.

Lemma writes_hd k v a n : is_KChild (Some k) = false -> tag_of n <> None ->
  exists i r, term_items k a (writes k v n) = i :: r /\ item_str i = v.
Proof.
  destruct k as [q|q|]; [discriminate| |]; intros _ Hn; cbn [writes term_items].
  - destruct (attr_items_set q v a n Hn) as [r ->]. eauto.
  - destruct (text_items_set v a n Hn) as [r ->]. eauto.
Qed.

Lemma term_set_get E dot e k d l1 b l2 m v : is_path e = true -> ok E dot e = true -> lkind E e = Some k -> is_KChild (Some k) = false ->
  sel E (route e) d = l1 ++ b :: l2 -> (forall c n, In c l1 -> get_at c d = Some n -> term_items k c n = []) ->
  get_at b d = Some m -> tag_of m <> None ->
  get_string E e (upd_at b (writes k v) d) = Ret (Some v).
Proof.
  intros Hp Ho Hk Hc Hs Hl1 Hg Ht. rewrite (get_string_path _ _ _ _ Hp Ho).
  rewrite (term_upd _ _ _ _ _ _ _ _ _ _ Hp Ho Hk Hc Hs Hl1 Hg (writes_sim k v m Hc)).
  destruct (writes_hd k v b m Hc Ht) as (i & r & -> & Hi). cbn. now rewrite Hi.
Qed.

(** *** what mgr_set does *)
(** the place that is written: an address, and the document after missing elements were added *)
Inductive place (E : env) (e : expr) (d : node) : node -> addr -> node -> Prop :=
| at_elem b l m : (is_KChild (lkind E e) = true \/ lkind E e = None) -> sel E (spine e) d = b :: l -> get_at b d = Some m ->
    kids_of m = [] -> tag_of m <> None -> place E e d d b m
| at_term k l1 b l2 m : lkind E e = Some k -> is_KChild (Some k) = false -> sel E (route e) d = l1 ++ b :: l2 ->
    (forall c n, In c l1 -> get_at c d = Some n -> term_items k c n = []) -> get_at b d = Some m -> tag_of m <> None ->
    (selects E e d = [] -> l1 = []) -> (k = KText -> selects E e d = [] -> kids_of m = []) ->
    (selects E e d <> [] -> term_items k b m <> []) -> place E e d d b m
| new_elem b0 n0 K b1 m : (is_KChild (lkind E e) = true \/ lkind E e = None) -> sel E (spine e) d = [] ->
    created E e d (upd_at b0 (append_kid K) d) (Some (RElem (b0 ++ length (kids_of n0) :: b1))) b0 n0 K b1 m -> kids_of m = [] ->
    place E e d (upd_at b0 (append_kid K) d) (b0 ++ length (kids_of n0) :: b1) m
| new_term k b0 n0 K b1 m : lkind E e = Some k -> is_KChild (Some k) = false -> sel E (route e) d = [] ->
    get_at b0 d = Some n0 -> tag_of n0 <> None -> get_at b1 K = Some m -> tag_of m <> None -> (forall a, term_items k a m = []) ->
    text_of m = None -> (k = KText -> kids_of m = []) ->
    sel E (route e) (upd_at b0 (append_kid K) d) = [b0 ++ length (kids_of n0) :: b1] ->
    place E e d (upd_at b0 (append_kid K) d) (b0 ++ length (kids_of n0) :: b1) m.

Definition wkind (E : env) (e : expr) : skind := match lkind E e with Some (KAttr q) => KAttr q | _ => KText end.



Lemma last_step_ok E dot e s : is_path e = true -> ok E dot e = true -> last_step e = Some s -> ok E dot s = true \/ ok E false s = true.
Proof.
  intros Hp Ho Hs. destruct e; cbn [is_path] in Hp; try discriminate.
  - apply str_eqb_eq in Hp. subst op. destruct (ok_slash _ _ _ _ Ho) as (H1 & (ax & t & ps & ->) & H3 & H4).
    rewrite (last_preds_slash e1 _ ax t ps eq_refl) in Hs. injection Hs as <-. auto.
  - cbn in Hs. injection Hs as <-. auto.
Qed.

Lemma ok_step_dot E dot ax t ps : ok E dot (EStep ax t ps) = ok E false (EStep ax t ps).
Proof. reflexivity. Qed.

Lemma terminal_last E dot e s : is_path e = true -> ok E dot e = true -> last_step e = Some s -> terminal_step e = Some s.
Proof.
  intros Hp Ho Hs. destruct e; cbn [is_path] in Hp; try discriminate.
  - apply str_eqb_eq in Hp. subst op. destruct (ok_slash _ _ _ _ Ho) as (H1 & (ax & t & ps & ->) & H3 & H4).
    rewrite (last_preds_slash e1 _ ax t ps eq_refl) in Hs. injection Hs as <-. exact (terminal_slash e1 _ ax t ps eq_refl).
  - cbn in Hs. now injection Hs as <-.
Qed.

Lemma is_text_kind E s : kind E s = Some KText -> is_text_nodetest (Some s) = true.
Proof. intros Hk. destruct (kind_estep _ _ _ Hk) as (ax & t & ps & ->). destruct (kind_text _ _ _ _ Hk) as [-> _]. reflexivity. Qed.

Lemma lkind_last E e k : lkind E e = Some k -> exists s, last_step e = Some s /\ kind E s = Some k.
Proof. unfold lkind. destruct (last_step e); [eauto|discriminate]. Qed.

Lemma wkind_child E e : is_KChild (lkind E e) = true \/ lkind E e = None -> wkind E e = KText.
Proof. unfold wkind. intros [H|H]; destruct (lkind E e) as [[q|q|]|]; try discriminate; reflexivity. Qed.

Lemma set_elem_out E a st w d m : get_at a d = Some m -> kids_of m = [] -> xml_valid w = true ->
  set_in_xml E (Some (RElem a)) (Some w) st d = (upd_at a (set_text (Some w)) d, Ret tt).
Proof. intros Hg Hk Hv. cbn [set_in_xml]. rewrite Hg, Hk. unfold set_text_at. now rewrite Hv. Qed.

Lemma set_attr_out E a q ax t ps w d : kind E (EStep ax t ps) = Some (KAttr q) -> xml_valid w = true ->
  set_in_xml E (Some (RAttr a q)) (Some w) (Some (EStep ax t ps)) d = (upd_at a (set_attr q w) d, Ret tt).
Proof.
  intros Hk Hv. pose proof (attr_name_kind) as An. destruct (kind_attr _ _ _ _ _ Hk) as (p & nm & -> & _ & _ & Hst & Htx & _).
  apply An in Hk. unfold set_in_xml, is_text_nodetest, test_name. rewrite Htx. unfold set_attr_at, name_valid. rewrite Hst.
  cbn [negb]. rewrite Hv. now rewrite Hk.
Qed.

Theorem set_char E e v d d' : supported_path E e = true -> tag_of d <> None -> not_tail (selects E e d) ->
  mgr_set E e (Some v) d = (d', Ret tt) ->
  exists d1 b m, place E e d d1 b m /\ d' = upd_at b (writes (wkind E e) v) d1 /\ xml_valid v = true /\
    forall w, xml_valid w = true -> mgr_set E e (Some w) d = (upd_at b (writes (wkind E e) w) d1, Ret tt).
Proof.
  unfold supported_path. intros Hsp Hd Hnt Hm. apply andb_prop in Hsp as [Hsp Hr]. apply andb_prop in Hsp as [Hp Ho].
  unfold mgr_set in Hm. apply bind_ret in Hm as (d0 & r & Hf & Hm). unfold reading in Hf. rewrite (find_path _ _ _ _ Hp Ho) in Hf.
  injection Hf as <- <-. apply bind_ret in Hm as (d1 & r & Hb & Hm).
  assert (HW : forall w, mgr_set E e (Some w) d = set_in_xml E r (Some w) (terminal_step e) d1).
  { intros w. unfold mgr_set. unfold bind at 1. unfold reading. rewrite (find_path _ _ _ _ Hp Ho). unfold bind. now rewrite Hb. }
  assert (Hcase : (is_KChild (lkind E e) = true \/ lkind E e = None) \/ exists k, lkind E e = Some k /\ is_KChild (Some k) = false).
  { destruct (lkind E e) as [[q|q|]|]; auto; right; eauto. }
  destruct Hcase as [Hl|(k & Hk & Hc)].
  - (* elements *)
    rewrite (selects_elems _ _ _ _ Hp Ho Hl), hd_elems in Hb. rewrite (wkind_child _ _ Hl). cbn [writes].
    pose proof (spine_ok _ _ _ Hp Ho Hl) as Hso.
    destruct (sel E (spine e) d) as [|b l] eqn:Es; cbn [option_map] in Hb.
    + destruct (create_spec _ _ _ Hp Ho Hl Hr _ _ _ Hd Es Hb) as (b0 & n0 & K & b1 & m & C).
      pose proof C as (C1 & C2 & C3 & C4 & C5 & C6 & C7 & C8 & C9). subst r d1.
      assert (Hg : get_at (b0 ++ length (kids_of n0) :: b1) (upd_at b0 (append_kid K) d) = Some m).
      { rewrite get_at_app, (get_upd_same _ _ _ _ C1), get_append; assumption. }
      destruct (set_elem_in _ _ _ _ _ _ _ _ Hg Hm) as (E1 & E2 & E3).
      exists (upd_at b0 (append_kid K) d), (b0 ++ length (kids_of n0) :: b1), m. split; [now apply new_elem|]. split; [assumption|]. split; [assumption|].
      intros w Hw. rewrite HW. now apply (set_elem_out _ _ _ _ _ _ Hg).
    + destruct (In_sel_get E (spine e) d b) as [m Hg]; [rewrite Es; now left|]. rewrite Hg in Hb. cbn [option_map ref_of] in Hb.
      injection Hb as <- <-. destruct (set_elem_in _ _ _ _ _ _ _ _ Hg Hm) as (E1 & E2 & E3).
      exists d, b, m. split; [|split; [assumption|split; [assumption|intros w Hw; rewrite HW; now apply (set_elem_out _ _ _ _ _ _ Hg)]]].
      eapply at_elem; eauto. eapply sel_tag; try eassumption; rewrite Es; now left.
  - (* attribute or text *)
    assert (Hw : wkind E e = k) by (unfold wkind; rewrite Hk; destruct k; [discriminate|reflexivity|reflexivity]). rewrite Hw.
    destruct (lkind_last _ _ _ Hk) as (s & Hls & Hks). rewrite (terminal_last _ _ _ _ Hp Ho Hls) in Hm, HW.
    destruct (route_ok _ _ _ _ Hp Ho Hk) as [Hso Hla].
    assert (Hos : ok E false s = true).
    { destruct (kind_estep _ _ _ Hks) as (ax & t & ps & ->). destruct (last_step_ok _ _ _ _ Hp Ho Hls) as [H|H]; exact H. }
    assert (Hev : selects E e d = flat_map (fun b => match get_at b d with Some m => term_items k b m | None => [] end) (sel E (route e) d)).
    { unfold selects. now rewrite (ev_route _ _ _ _ _ _ Hp Ho Hk Hc). }
    destruct (hd_error (selects E e d)) as [i|] eqn:Ei; cbn [option_map] in Hb.
    + injection Hb as <- <-. rewrite Hev in Ei. apply hd_split in Ei as (l1 & b & l2 & rr & Es & Hl1 & Hib).
      destruct (get_at b d) as [m|] eqn:Hg; [|discriminate].
      assert (Ht : tag_of m <> None) by (eapply sel_tag; try eassumption; rewrite Es; apply in_or_app; right; now left).
      assert (Hit : (k = KText -> ref_of i = RText b false) /\ (forall q, k = KAttr q -> ref_of i = RAttr b q)).
      { rewrite Hev, Es in Hnt. rewrite flat_map_app in Hnt.
        replace (flat_map _ l1) with (@nil item) in Hnt.
        2:{ symmetry. clear -Hl1. induction l1 as [|x l IH]; [reflexivity|]. cbn. rewrite (Hl1 x) by now left. apply IH. intros; apply Hl1; now right. }
        cbn [flat_map app] in Hnt. rewrite Hg, Hib in Hnt. cbn [app] in Hnt. split.
        - intros ->. cbn [term_items] in Hib. destruct m as [qm ats tx ks|]; [|contradiction]. cbn [text_items] in Hib.
          destruct tx as [sx|]; cbn [app] in Hib; [injection Hib as <- _; reflexivity|]. exfalso.
          assert (Hin : In i (i :: rr)) by now left. rewrite <- Hib in Hin. apply in_flat_map in Hin as ([j [kn kt]] & _ & Hin). cbn in Hin.
          destruct kt; [|contradiction]. destruct Hin as [<-|[]]. exact Hnt.
        - intros q ->. cbn [term_items] in Hib. assert (Hin : In i (i :: rr)) by now left. rewrite <- Hib in Hin. unfold attr_items in Hin.
          apply in_flat_map in Hin as ([q' w] & _ & Hin). cbn in Hin. destruct (qeqb q' q) eqn:Eq; [|contradiction]. apply qeqb_eq in Eq. subst q'.
          destruct Hin as [<-|[]]. reflexivity. }
      assert (Hne : selects E e d <> []).
      { rewrite Hev, Es, flat_map_app. cbn [flat_map]. rewrite Hg, Hib. destruct (flat_map _ l1); discriminate. }
      assert (HP : place E e d d b m).
      { eapply (at_term E e d k l1 b l2 m); auto; try contradiction.
        - intros c n Hcin Hcg. specialize (Hl1 c Hcin). now rewrite Hcg in Hl1.
        - intros _. rewrite Hib. discriminate. }
      exists d, b, m. split; [exact HP|]. destruct k as [q|q|]; [discriminate| |].
      * destruct (kind_estep _ _ _ Hks) as (ax & t & ps & ->). rewrite (proj2 Hit q eq_refl) in Hm, HW.
        destruct (set_attr_in _ _ _ _ _ _ _ _ _ _ Hks Hm) as [-> Hv]. split; [reflexivity|]. split; [assumption|].
        intros w Hwv. rewrite HW. now apply set_attr_out.
      * rewrite (proj1 Hit eq_refl) in Hm, HW. cbn [set_in_xml] in Hm. rewrite (is_text_kind _ _ Hks) in Hm. unfold set_text_at in Hm.
        destruct (xml_valid v); [|discriminate]. injection Hm as <-. split; [reflexivity|]. split; [reflexivity|].
        intros w Hwv. rewrite HW. cbn [set_in_xml]. rewrite (is_text_kind _ _ Hks). unfold set_text_at. now rewrite Hwv.
    + assert (Hnil : selects E e d = []) by (destruct (selects E e d); [reflexivity|discriminate]).
      destruct (parent_ready _ _ _ _ Hp Ho Hk Hc Hr _ _ _ Hd Hb) as (d2 & b & m & s' & P1 & P2 & P3 & P4 & P5 & P6).
      rewrite Hls in P1. injection P1 as <-. destruct (kind_estep _ _ _ Hks) as (ax & t & ps & ->).
      assert (Hw2 : exists dd, d1 = dd /\ d' = upd_at b (writes k v) d2 /\ xml_valid v = true /\ (k = KText -> kids_of m = []) /\
        forall w, xml_valid w = true -> mgr_set E e (Some w) d = (upd_at b (writes k w) d2, Ret tt)).
      { destruct k as [q|q|]; [discriminate| |].
        - destruct (attr_build _ _ _ _ _ _ _ Hos Hks _ _ _ _ P2) as [-> ->].
          destruct (set_attr_in _ _ _ _ _ _ _ _ _ _ Hks Hm) as [-> Hv]. exists (upd_at b (set_attr q []) d2). split; [reflexivity|]. split; [|split; [assumption|split; [discriminate|]]].
          2:{ intros w Hwv. rewrite HW, (set_attr_out _ _ _ _ _ _ _ _ Hks Hwv), upd_upd_same. f_equal. cbn [writes]. eapply upd_at_ext; [exact P3|].
              destruct m as [qm ats tx ks|]; [|contradiction]. cbn. now rewrite attr_set_set. }
          rewrite upd_upd_same. cbn [writes]. eapply upd_at_ext; [exact P3|]. destruct m as [qm ats tx ks|]; [|contradiction]. cbn. now rewrite attr_set_set.
        - destruct (kind_text _ _ _ _ Hks) as [-> _]. cbn [build] in P2. rewrite str_eqb_refl in P2. injection P2 as <- <-.
          destruct (set_elem_in _ _ _ _ _ _ _ _ P3 Hm) as (E1 & E2 & E3). exists d2. split; [reflexivity|]. split; [assumption|]. split; [assumption|]. split; [auto|].
          intros w Hwv. rewrite HW. now apply (set_elem_out _ _ _ _ _ _ P3). }
      destruct Hw2 as (dd & -> & Hd' & Hv & Hkt & HWW).
      exists d2, b, m. split; [|auto]. destruct P6 as [[-> Hhd]|(Q1 & Q2 & Q3 & b0 & n0 & K & b1 & Q4 & Q5 & Q6 & Q7 & Q8 & Q9)].
      * destruct (sel E (route e) d) as [|b' l] eqn:Es; [discriminate|]. injection Hhd as ->.
        eapply (at_term E e d k [] b l m); auto; try contradiction; intros _; congruence.
      * subst d2 b. eapply new_term; eauto.
Qed.

Theorem set_get E e v d d' : supported_path E e = true -> tag_of d <> None -> not_tail (selects E e d) ->
  mgr_set E e (Some v) d = (d', Ret tt) -> get_string E e d' = Ret (Some v).
Proof.
  intros Hs Hd Hn Hm. destruct (set_char _ _ _ _ _ Hs Hd Hn Hm) as (d1 & b & m & HP & -> & _ & _).
  unfold supported_path in Hs. apply andb_prop in Hs as [Hs _]. apply andb_prop in Hs as [Hp Ho].
  destruct HP as [b l m Hl Hsel Hg Hk Ht|k l1 b l2 m Hk Hc Hsel Hl1 Hg Ht _ _ _|b0 n0 K b1 m Hl Hsel C Hkm|k b0 n0 K b1 m Hk Hc Hsel Hg Ht Hgm Htm Hno Htx _ Hsel'].
  - rewrite (wkind_child _ _ Hl). eapply set_text_get; eassumption.
  - replace (wkind E e) with k by (unfold wkind; rewrite Hk; destruct k; [discriminate|reflexivity|reflexivity]). eapply term_set_get; eassumption.
  - destruct C as (C1 & C2 & C3 & C4 & C5 & C6 & C7 & C8 & C9). rewrite (wkind_child _ _ Hl). eapply set_text_get; eauto.
    rewrite get_at_app, (get_upd_same _ _ _ _ C1), get_append; assumption.
  - replace (wkind E e) with k by (unfold wkind; rewrite Hk; destruct k; [discriminate|reflexivity|reflexivity]).
    eapply (term_set_get E true e k _ [] _ []); eauto; try contradiction.
    rewrite get_at_app, (get_upd_same _ _ _ _ Hg), get_append; assumption.
Qed.
