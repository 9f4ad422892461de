(** Proofs for C84: when the leading parts of a path match at most one element each, assigning and deleting keep it that way. *)
From Coq Require Import String Arith Lia.
From Verif Require Export FieldShare FieldUndoEq FieldProps FieldTotal RecordSpec.
From Verif Require Import XPathEval FieldSpec DocSpec.

Opaque u.

(** every leading part of the steps matches at most once *)
Definition lone (E : env) (ss : list expr) (d : node) : Prop := forall Q R, ss = Q ++ R -> length (sel E Q d) <= 1.
Lemma lone_app E P R d : lone E (P ++ R) d -> lone E P d.
Proof. intros H Q R' ->. apply (H Q (R' ++ R)). now rewrite app_assoc. Qed.
Lemma lone_snoc E P s d : lone E P d -> length (sel E (P ++ [s]) d) <= 1 -> lone E (P ++ [s]) d.
Proof.
  intros H1 H2 Q R Heq. destruct R as [|x R] using rev_ind; [rewrite app_nil_r in Heq; now subst Q|]. clear IHR.
  rewrite app_assoc in Heq. apply app_inj_tail in Heq as [-> _]. eapply H1. reflexivity.
Qed.

(** a change at a match leaves the matches of every leading part where they are *)
Lemma steps_ok_pre E P R : steps_ok E (P ++ R) -> steps_ok E P.
Proof. destruct R as [|s R]; [now rewrite app_nil_r|]. intros H. now destruct (steps_ok_mid _ _ _ _ H). Qed.
Lemma sel_pre_upd E D Q R d b f : steps_ok E (Q ++ R) -> last_avoids E (Q ++ R) D -> In b (sel E (Q ++ R) d) ->
  (forall m, get_at b d = Some m -> sim D m (f m)) -> (forall m, tag_of (f m) = tag_of m) -> sel E Q (upd_at b f d) = sel E Q d.
Proof.
  intros Ho Hl Hb Hf Ht. destruct R as [|s R].
  - rewrite app_nil_r in *. eapply sel_upd; eauto.
  - rewrite sel_app in Hb. apply in_flat_map in Hb as (b0 & Hb0 & Hb). destruct (get_at b0 d) as [n|] eqn:Hg; [|contradiction]. apply in_map_iff in Hb as (c & <- & Hc).
    destruct (steps_ok_mid _ _ _ _ Ho) as (HQ & Hos & (q & Hq & Hla) & _). rewrite upd_at_app. eapply (sel_upd E (KChild q)); [exact HQ|exact Hla|exact Hb0|].
    intros m Hm. rewrite Hg in Hm. injection Hm as <-. apply (stable_upd q n c f); [|exact Ht]. eapply sel_below; eauto.
Qed.

Lemma In_sel_pre E Q R d b : In b (sel E (Q ++ R) d) -> exists b0 c n, b = b0 ++ c /\ In b0 (sel E Q d) /\ get_at b0 d = Some n /\ In c (sel E R n).
Proof.
  intros Hb. rewrite sel_app in Hb. apply in_flat_map in Hb as (b0 & Hb0 & Hb). destruct (get_at b0 d) as [n|] eqn:Hg; [|contradiction]. apply in_map_iff in Hb as (c & <- & Hc). eauto 8.
Qed.
Lemma see_nil_sel E P s d : steps_ok E P -> ok E false s = true -> is_estep s = true -> (exists q, kind E s = Some (KChild q)) -> see E (P ++ [s]) d = [] -> sel E (P ++ [s]) d = [].
Proof.
  intros HP Ho He (q & Hq) H. destruct (sel E (P ++ [s]) d) as [|b l] eqn:Eb; [reflexivity|]. exfalso.
  assert (Hb : In b (sel E (P ++ [s]) d)) by (rewrite Eb; now left). destruct (In_sel_pre _ _ _ _ _ Hb) as (b0 & c & n & -> & Hb0 & Hg & Hc).
  rewrite see_sel in H by exact HP. destruct (sel_single _ _ _ _ Hc) as (i & k & -> & Hi & Hm).
  assert (G : see E [s] n <> []).
  { rewrite (see_child _ _ _ _ _ Ho Hq). intros G. apply nth_error_In in Hi. assert (Hx : In (IElem [] (fst k)) (flat_map (fun k0 => if mstep E s (fst k0) then see E [] (fst k0) else []) (kids_of n))) by (apply in_flat_map; exists k; split; [exact Hi|rewrite Hm; now left]).
    rewrite G in Hx. contradiction. }
  destruct (see E [s] n) as [|x y] eqn:Ex; [congruence|]. assert (Hx : In x (flat_map (fun b => match get_at b d with Some m => see E [s] m | None => [] end) (sel E P d))) by (apply in_flat_map; exists b0; split; [exact Hb0|rewrite Hg, Ex; now left]).
  rewrite H in Hx. contradiction.
Qed.

(** creating a child below the one match *)
Lemma step_lone E m P ax t ps q b n d d' x : steps_ok E P -> ok E false (EStep ax t ps) = true -> kind E (EStep ax t ps) = Some (KChild q) -> last_avoids E P (KChild q) ->
  lone E P d -> sel E P d = [b] -> get_at b d = Some n -> tag_of n <> None -> sel E (P ++ [EStep ax t ps]) d = [] ->
  build E m (EStep ax t ps) (Some (RElem b)) None d = (d', Ret x) -> lone E (P ++ [EStep ax t ps]) d'.
Proof.
  intros HP Ho Hk Hla Hl Hs Hg Hn Hnone Hm. set (s := EStep ax t ps) in *.
  assert (Hb : In b (sel E P d)) by (rewrite Hs; now left).
  destruct (build E m s (Some doc_root) None n) as [n' r'] eqn:Hr. pose proof (build_local E s m b (Some doc_root) None d n n' r' (or_intror eq_refl) Hg Hr) as HL.
  cbn [option_map shr doc_root] in HL. rewrite app_nil_r, Hm in HL. injection HL as -> Hrr.
  assert (Hav : avoids E ps KText = true) by exact (preds_avoid_text _ _ _ _ _ _ Ho Hk).
  destruct (step_any E m ax t ps q n n' r' KText Ho Hk Hn Hav Hr) as [[-> Hno]|(K & -> & HKt & _ & _)].
  - destruct r' as [z|]; [now destruct (Hno z)|discriminate].
  - assert (Hpre : forall Q R, P = Q ++ R -> sel E Q (upd_at b (fun _ => append_kid K n) d) = sel E Q d).
    { intros Q R ->. transitivity (sel E Q (upd_at b (append_kid K) d)).
      - f_equal. eapply upd_at_ext; [exact Hg|reflexivity].
      - apply (sel_pre_upd E (KChild q) Q R d b (append_kid K)); auto; [intros m0 _; now apply sim_append|intros m0; apply tag_append]. }
    apply lone_snoc.
    + intros Q R Heq. rewrite (Hpre Q R Heq). exact (Hl Q R Heq).
    + rewrite sel_app, (Hpre P [] (eq_sym (app_nil_r _))), Hs. cbn [flat_map]. rewrite (get_upd_same _ _ _ _ Hg), app_nil_r, map_length, (sel_append E s [] K n Hn), app_length.
      assert (Hz : sel E [s] n = []).
      { rewrite sel_app, Hs in Hnone. cbn [flat_map] in Hnone. rewrite Hg, app_nil_r in Hnone. now apply map_eq_nil in Hnone. }
      rewrite Hz. destruct (mstep E s K); cbn; lia.
Qed.

(** building a missing path of elements *)
Lemma build_lone E dot l : is_path l = true -> ok E dot l = true -> is_KChild (lkind E l) = true \/ lkind E l = None -> rereadable l = true ->
  forall d d' x, tag_of d <> None -> lone E (spine l) d -> sel E (spine l) d = [] -> build E Create l (Some doc_root) None d = (d', Ret x) -> lone E (spine l) d'.
Proof.
  induction l; cbn [is_path]; intros Hp; try discriminate; intros Ho Hl Hr d d' x Hd Hlo Hs Hm.
  - apply str_eqb_eq in Hp. subst op. destruct (ok_slash _ _ _ _ Ho) as (H1 & (ax & t & ps & ->) & H3 & H4). destruct (rereadable_bin _ _ _ Hr) as [Hr1 Hr2].
    rewrite (lkind_slash E l1 _ _ _ _ eq_refl) in Hl. destruct (kind E (EStep ax t ps)) as [[q|q|]|] eqn:Hk; try (destruct Hl; discriminate). 2:{ cbn [ok] in H3. rewrite Hk in H3. discriminate. }
    pose proof (joins_path _ _ _ _ H4 H1) as Hpl. pose proof (joins_left _ _ _ _ H4 H1) as Hjl. pose proof (spine_ok _ _ _ Hpl H1 Hjl) as Hso. pose proof (spine_last _ _ _ _ _ H1 H4 Hk) as Hla.
    cbn [build] in Hm. rewrite str_eqb_refl in Hm. unfold bind at 1, reading in Hm. rewrite (find_left _ _ _ _ _ H4 H1 Hr1) in Hm. cbn [spine] in *.
    unfold bind at 1 in Hm. destruct (sel E (spine l1) d) as [|b bs] eqn:Eb; cbn [head_ref] in Hm.
    + assert (Hne1 : spine l1 <> []) by (intros Hz; rewrite Hz in Eb; discriminate).
      destruct (build E Create l1 (Some doc_root) None d) as [d1 [y|er]] eqn:E1; [|discriminate].
      pose proof (IHl1 Hpl H1 Hjl Hr1 d d1 y Hd (lone_app _ _ _ _ Hlo) Eb E1) as Hlo1.
      destruct (create_spec E dot l1 Hpl H1 Hjl Hr1 d d1 y Hd Eb E1) as (b0 & n0 & K & b1 & m & C1 & C2 & C3 & C4 & C5 & C6 & C7 & C8 & C9).
      rewrite C7 in Hm. set (B := b0 ++ length (kids_of n0) :: b1) in *.
      assert (Hg : get_at B d1 = Some m) by (unfold B; rewrite C6, get_at_app, (get_upd_same _ _ _ _ C1), get_append; assumption).
      eapply (step_lone E Create (spine l1) ax t ps q B m d1); eauto.
      assert (A1 : ok E false (EStep ax t ps) = true /\ is_estep (EStep ax t ps) = true /\ kind E (EStep ax t ps) = Some (KChild q) /\ KChild q <> KText) by (repeat split; auto; discriminate).
      apply see_nil_sel; eauto.
      destruct (build_lead E (spine l1) [EStep ax t ps] (EStep ax t ps) [] (KChild q) Hso eq_refl A1 Hla dot l1 Hpl H1 Hr1 Hne1 d d1 (Ret y) Hd (ex_intro _ [] (eq_sym (app_nil_r _))) E1) as [[_ HK] _].
      rewrite <- HK. rewrite see_sel, Eb by exact Hso. reflexivity.
    + assert (Hbs : bs = []). { pose proof (Hlo (spine l1) [EStep ax t ps] eq_refl) as L. rewrite Eb in L. cbn in L. destruct bs; [reflexivity|cbn in L; lia]. } subst bs.
      unfold ret in Hm. cbn [app] in Hm. destruct (In_sel_get E (spine l1) d b) as [n Hg]; [rewrite Eb; now left|].
      eapply (step_lone E Create (spine l1) ax t ps q b n d); eauto; [now apply lone_app in Hlo|]. eapply sel_tag; [exact Hso|exact Hd|rewrite Eb; now left|exact Hg].
  - cbn [spine] in *. destruct (kind E (EStep axis node_test predicates)) as [[q|q|]|] eqn:Hk; try (destruct Hl as [Hl|Hl]; unfold lkind in Hl; cbn [last_step] in Hl; rewrite Hk in Hl; discriminate).
    2:{ cbn [ok] in Ho. rewrite Hk in Ho. discriminate. }
    eapply (step_lone E Create [] axis node_test predicates q [] d d); eauto; try exact I. intros Q R HQ. symmetry in HQ. apply app_eq_nil in HQ as [-> _]. cbn. lia.
Qed.

(** ** the leading parts of a path, as expressions *)
Lemma lefts_parts E dot e : is_path e = true -> ok E dot e = true -> rereadable e = true -> forall l, In l (lefts e) ->
  is_path l = true /\ ok E dot l = true /\ rereadable l = true /\ (is_KChild (lkind E l) = true \/ lkind E l = None) /\ exists s R, spine e = spine l ++ s :: R.
Proof.
  induction e; cbn [is_path]; intros Hp; try discriminate; intros Ho Hr l Hl; cbn [lefts] in Hl; try contradiction.
  apply str_eqb_eq in Hp. subst op. destruct (ok_slash _ _ _ _ Ho) as (H1 & (ax & t & ps & ->) & H3 & H4). destruct (rereadable_bin _ _ _ Hr) as [Hr1 Hr2].
  pose proof (joins_path _ _ _ _ H4 H1) as Hpl. pose proof (joins_left _ _ _ _ H4 H1) as Hjl. cbn [spine]. destruct Hl as [<-|Hl].
  - repeat (split; [assumption|]). exists (EStep ax t ps), []. reflexivity.
  - destruct (IHe1 Hpl H1 Hr1 l Hl) as (A & B & C & D & s & R & F). repeat (split; [assumption|]). exists s, (R ++ [EStep ax t ps]). now rewrite F, <- app_assoc.
Qed.
Lemma lefts_all E dot e : is_path e = true -> ok E dot e = true -> forall Q s R, spine e = Q ++ s :: R -> Q = [] \/ exists l, In l (lefts e) /\ spine l = Q.
Proof.
  induction e; cbn [is_path]; intros Hp; try discriminate; intros Ho Q s R Hs; cbn [spine] in Hs.
  - apply str_eqb_eq in Hp. subst op. destruct (ok_slash _ _ _ _ Ho) as (H1 & (ax & t & ps & ->) & H3 & H4). pose proof (joins_path _ _ _ _ H4 H1) as Hpl. cbn [lefts].
    destruct R as [|x R] using rev_ind.
    + apply app_inj_tail in Hs as [<- _]. right. exists e1. split; [now left|reflexivity].
    + clear IHR. rewrite app_comm_cons, app_assoc in Hs. apply app_inj_tail in Hs as [Hs _]. destruct (IHe1 Hpl H1 Q s R Hs) as [->|(l & A & B)]; [now left|]. right. exists l. split; [now right|exact B].
  - destruct Q as [|y Q]; [now left|]. destruct Q; discriminate.
  - destruct Q; discriminate.
Qed.
Lemma elems_len d l : (forall b, In b l -> get_at b d <> None) -> length (elems_at [] d l) = length l.
Proof.
  induction l as [|b l IH]; intros H; cbn; [reflexivity|]. destruct (get_at b d) eqn:Hg; [|exfalso; now apply (H b (or_introl eq_refl))]. cbn. f_equal. apply IH. intros; apply H; now right.
Qed.
Lemma selects_len E dot l d : is_path l = true -> ok E dot l = true -> is_KChild (lkind E l) = true \/ lkind E l = None -> length (selects E l d) = length (sel E (spine l) d).
Proof. intros Hp Ho Hl. rewrite (selects_elems _ _ _ _ Hp Ho Hl). apply elems_len. intros b Hb. destruct (In_sel_get _ _ _ _ Hb) as [m ->]. discriminate. Qed.

(** the elements before the last step *)
Lemma route_spine e s : is_path e = true -> last_step e = Some s -> spine e = route e ++ [s].
Proof.
  destruct e; cbn [is_path]; intros Hp Hs; try discriminate.
  - cbn [last_step] in Hs. destruct e2; try discriminate. destruct (str_eqb op (u "/")); [|discriminate]. injection Hs as <-. reflexivity.
  - cbn in Hs. injection Hs as <-. reflexivity.
Qed.
Lemma settled_route E e s d : supported_path E e = true -> last_step e = Some s -> settled E e d -> lone E (route e) d.
Proof.
  intros Hs Hl [H _] Q R HQ. unfold supported_path in Hs. apply andb_prop in Hs as [Hs Hr]. apply andb_prop in Hs as [Hp Ho].
  pose proof (route_spine _ _ Hp Hl) as Hsp. rewrite HQ, <- app_assoc in Hsp. assert (Hx : exists x R', spine e = Q ++ x :: R') by (destruct R as [|x R]; [exists s, []|exists x, (R ++ [s])]; exact Hsp).
  destruct Hx as (x & R' & Hx). destruct (lefts_all _ _ _ Hp Ho Q x R' Hx) as [->|(l & Hin & <-)]; [cbn; lia|].
  destruct (lefts_parts _ _ _ Hp Ho Hr l Hin) as (A & B & _ & D & _). rewrite <- (selects_len _ _ _ _ A B D). apply H. now right.
Qed.
Lemma route_settled E e s d : supported_path E e = true -> last_step e = Some s -> lone E (route e) d -> length (selects E e d) <= 1 -> (forall b n, In (IElem b n) (selects E e d) -> kids_of n = []) -> settled E e d.
Proof.
  intros Hs Hl Hlo H1 H2. unfold supported_path in Hs. apply andb_prop in Hs as [Hs Hr]. apply andb_prop in Hs as [Hp Ho].
  split; [|exact H2]. intros l [<-|Hin]; [exact H1|]. destruct (lefts_parts _ _ _ Hp Ho Hr l Hin) as (A & B & _ & D & x & R & F). rewrite (selects_len _ _ _ _ A B D).
  rewrite (route_spine _ _ Hp Hl) in F. destruct R as [|y R] using rev_ind.
  - apply app_inj_tail in F as [F _]. apply (Hlo (spine l) []). now rewrite app_nil_r.
  - clear IHR. rewrite app_comm_cons, app_assoc in F. apply app_inj_tail in F as [F _]. exact (Hlo _ _ F).
Qed.

Lemma last_text E dot e q : is_path e = true -> ok E dot e = true -> lkind E e = Some (KChild q) -> steps_ok E (spine e) /\ last_avoids E (spine e) KText.
Proof.
  intros Hp Ho Hk. assert (Hl : is_KChild (lkind E e) = true) by now rewrite Hk. split; [exact (spine_ok _ _ _ Hp Ho (or_introl Hl))|].
  destruct (lkind_last _ _ _ Hk) as (s & Hs & Hks). rewrite (route_spine _ _ Hp Hs). apply last_avoids_snoc. destruct (kind_estep _ _ _ Hks) as (ax & t & ps & ->). cbn [preds_of].
  destruct (last_step_ok _ _ _ _ Hp Ho Hs) as [Hx|Hx]; exact (preds_avoid_text _ _ _ _ _ _ Hx Hks).
Qed.
(** writing the text of the element *)
Lemma write_elem E dot e q d b m v : is_path e = true -> ok E dot e = true -> lkind E e = Some (KChild q) -> lone E (spine e) d -> sel E (spine e) d = [b] -> get_at b d = Some m -> kids_of m = [] ->
  let d' := upd_at b (set_text (Some v)) d in
  lone E (spine e) d' /\ (forall b n, In (IElem b n) (selects E e d') -> kids_of n = []).
Proof.
  intros Hp Ho Hk Hlo Hs Hg Hm d'. destruct (last_text _ _ _ _ Hp Ho Hk) as [Hso Hla]. assert (Hb : In b (sel E (spine e) d)) by (rewrite Hs; now left).
  assert (Hpre : forall Q R, spine e = Q ++ R -> sel E Q d' = sel E Q d).
  { intros Q R HQ. rewrite HQ in Hso, Hla, Hb. apply (sel_pre_upd E KText Q R d b (set_text (Some v)) Hso Hla Hb); [intros n _; apply sim_set_text|intros n; apply tag_set_text]. }
  split.
  - intros Q R HQ. rewrite (Hpre Q R HQ). exact (Hlo Q R HQ).
  - intros b' n Hin. assert (Hl : is_KChild (lkind E e) = true) by now rewrite Hk. rewrite (selects_elems _ _ _ _ Hp Ho (or_introl Hl)), (Hpre (spine e) [] (eq_sym (app_nil_r _))), Hs in Hin.
    cbn in Hin. unfold d' in Hin. rewrite (get_upd_same _ _ _ _ Hg) in Hin. destruct Hin as [[= <- <-]|[]]. now rewrite kids_set_text.
Qed.
(** writing the attribute *)
Lemma attr_items_len q v a n : tag_of n <> None -> length (attr_items q a n) <= 1 -> length (attr_items q a (set_attr q v n)) <= 1.
Proof.
  intros Hn. unfold attr_items. rewrite (attrs_set_attr _ _ _ Hn). induction (attrs_of n) as [|[p w] l IH]; cbn.
  - intros _. rewrite qeqb_refl. cbn. lia.
  - destruct (qeqb q p) eqn:Eq; cbn.
    + apply qeqb_eq in Eq. subst p. rewrite qeqb_refl. cbn. auto.
    + rewrite (qeqb_sym p q), Eq. exact IH.
Qed.
Lemma attr_route E dot e q : is_path e = true -> ok E dot e = true -> lkind E e = Some (KAttr q) -> steps_ok E (route e) /\ last_avoids E (route e) (KAttr q).
Proof.
  intros Hp Ho Hk. destruct (lkind_last _ _ _ Hk) as (s & Hs & Hks). destruct (spine_mid _ _ _ Hp Ho _ _ _ (route_spine _ _ Hp Hs)) as (A & _ & _ & (k & B & C) & _).
  rewrite Hks in B. injection B as <-. auto.
Qed.
Lemma write_attr E dot e q d b m v : is_path e = true -> ok E dot e = true -> lkind E e = Some (KAttr q) -> lone E (route e) d -> sel E (route e) d = [b] -> get_at b d = Some m -> tag_of m <> None ->
  length (attr_items q [] m) <= 1 -> let d' := upd_at b (set_attr q v) d in
  lone E (route e) d' /\ length (selects E e d') <= 1.
Proof.
  intros Hp Ho Hk Hlo Hs Hg Hm Hat d'. destruct (attr_route _ _ _ _ Hp Ho Hk) as [Hso Hla]. assert (Hb : In b (sel E (route e) d)) by (rewrite Hs; now left).
  assert (Hpre : forall Q R, route e = Q ++ R -> sel E Q d' = sel E Q d).
  { intros Q R HQ. rewrite HQ in Hso, Hla, Hb. apply (sel_pre_upd E (KAttr q) Q R d b (set_attr q v) Hso Hla Hb); [intros n _; apply sim_set_attr|intros n; apply tag_set_attr]. }
  split.
  - intros Q R HQ. rewrite (Hpre Q R HQ). exact (Hlo Q R HQ).
  - unfold selects. rewrite (ev_route _ _ _ _ _ _ Hp Ho Hk eq_refl), (Hpre (route e) [] (eq_sym (app_nil_r _))), Hs. cbn [nodes_of flat_map]. unfold d'. rewrite (get_upd_same _ _ _ _ Hg), app_nil_r. cbn [term_items app].
    assert (Ha : forall a n, length (attr_items q a n) = length (attr_items q [] n)).
    { intros a n. unfold attr_items. induction (attrs_of n) as [|x l IH]; [reflexivity|]. cbn. rewrite !app_length, IH. destruct (qeqb (fst x) q); reflexivity. }
    rewrite Ha. now apply attr_items_len.
Qed.

Lemma attr_none E dot e q d b m : is_path e = true -> ok E dot e = true -> lkind E e = Some (KAttr q) -> sel E (route e) d = [b] -> get_at b d = Some m -> selects E e d = [] -> length (attr_items q [] m) <= 1.
Proof.
  intros Hp Ho Hk Hs Hg Hn. unfold selects in Hn. rewrite (ev_route _ _ _ _ _ _ Hp Ho Hk eq_refl), Hs in Hn. cbn [nodes_of flat_map] in Hn. rewrite Hg, app_nil_r in Hn. cbn [term_items] in Hn.
  assert (Ha : forall a n, length (attr_items q a n) = length (attr_items q [] n)).
  { intros a n. unfold attr_items. induction (attrs_of n) as [|x l IH]; [reflexivity|]. cbn. rewrite !app_length, IH. destruct (qeqb (fst x) q); reflexivity. }
  rewrite <- (Ha b). cbn [app] in Hn. rewrite Hn. cbn. lia.
Qed.
(** the element that receives a missing attribute *)
Lemma attr_parent E dot e q d d1 r : is_path e = true -> ok E dot e = true -> rereadable e = true -> lkind E e = Some (KAttr q) -> tag_of d <> None -> lone E (route e) d -> selects E e d = [] ->
  build E Create e (Some doc_root) None d = (d1, Ret r) ->
  exists d2 b m, lone E (route e) d2 /\ sel E (route e) d2 = [b] /\ get_at b d2 = Some m /\ tag_of m <> None /\ length (attr_items q [] m) <= 1 /\ d1 = upd_at b (set_attr q []) d2 /\ r = Some (RAttr b q).
Proof.
  destruct e; cbn [is_path]; intros Hp; try discriminate; intros Ho Hr Hk Hd Hlo Hn Hm.
  - pose proof Ho as Ho0. assert (Hp0 : is_path (EBin e1 op e2) = true) by exact Hp. apply str_eqb_eq in Hp. subst op. destruct (ok_slash _ _ _ _ Ho) as (H1 & (ax & t & ps & ->) & H3 & H4). destruct (rereadable_bin _ _ _ Hr) as [Hr1 Hr2].
    pose proof Hk as Hk0. rewrite (lkind_slash E e1 _ _ _ _ eq_refl) in Hk.
    pose proof (joins_path _ _ _ _ H4 H1) as Hpl. pose proof (joins_left _ _ _ _ H4 H1) as Hjl. pose proof (spine_ok _ _ _ Hpl H1 Hjl) as Hso. pose proof (spine_last _ _ _ _ _ H1 H4 Hk) as Hla.
    cbn [build] in Hm. rewrite str_eqb_refl in Hm. unfold bind at 1, reading in Hm. rewrite (find_left _ _ _ _ _ H4 H1 Hr1) in Hm. cbn [route] in *.
    unfold bind at 1 in Hm. destruct (sel E (spine e1) d) as [|b bs] eqn:Eb; cbn [head_ref] in Hm.
    + assert (Hne1 : spine e1 <> []) by (intros Hz; rewrite Hz in Eb; discriminate).
      destruct (build E Create e1 (Some doc_root) None d) as [d2 [y|er]] eqn:E1; [|discriminate].
      pose proof (build_lone _ _ _ Hpl H1 Hjl Hr1 d d2 y Hd Hlo Eb E1) as Hlo1.
      destruct (create_spec E dot e1 Hpl H1 Hjl Hr1 d d2 y Hd Eb E1) as (b0 & n0 & K & b1 & m & C1 & C2 & C3 & C4 & C5 & C6 & C7 & C8 & C9).
      rewrite C7 in Hm. set (B := b0 ++ length (kids_of n0) :: b1) in *.
      assert (Hg : get_at B d2 = Some m) by (unfold B; rewrite C6, get_at_app, (get_upd_same _ _ _ _ C1), get_append; assumption).
      destruct (attr_build E Create _ _ _ _ None H3 Hk _ _ _ _ Hm) as [-> ->].
      exists d2, B, m. repeat (split; [assumption|]). split; [|auto].
      assert (A1 : ok E false (EStep ax t ps) = true /\ is_estep (EStep ax t ps) = true /\ kind E (EStep ax t ps) = Some (KAttr q) /\ KAttr q <> KText) by (repeat split; auto; discriminate).
      destruct (build_lead E (spine e1) [EStep ax t ps] (EStep ax t ps) [] (KAttr q) Hso eq_refl A1 Hla dot e1 Hpl H1 Hr1 Hne1 d d2 (Ret y) Hd (ex_intro _ [] (eq_sym (app_nil_r _))) E1) as [[_ HK] _].
      eapply (attr_none E dot (EBin e1 (u "/") (EStep ax t ps)) q d2 B m); eauto.
      assert (Hc : cores E (EBin e1 (u "/") (EStep ax t ps)) d2 = []).
      { rewrite (see_path _ _ _ _ Hp0 Ho0). cbn [spine]. rewrite <- HK. rewrite see_sel, Eb by exact Hso. reflexivity. }
      unfold cores in Hc. now apply map_eq_nil in Hc.
    + assert (Hbs : bs = []). { pose proof (Hlo (spine e1) [] (eq_sym (app_nil_r _))) as L. rewrite Eb in L. cbn in L. destruct bs; [reflexivity|cbn in L; lia]. } subst bs.
      unfold ret in Hm. cbn [app] in Hm. destruct (In_sel_get E (spine e1) d b) as [n Hg]; [rewrite Eb; now left|].
      destruct (attr_build E Create _ _ _ _ None H3 Hk _ _ _ _ Hm) as [-> ->]. exists d, b, n. split; [exact Hlo|]. split; [exact Eb|]. split; [exact Hg|].
      split; [eapply sel_tag; [exact Hso|exact Hd|rewrite Eb; now left|exact Hg]|]. split; [|auto]. eapply (attr_none E dot (EBin e1 (u "/") (EStep ax t ps)) q d b n); eauto.
  - change (kind E (EStep axis node_test predicates) = Some (KAttr q)) in Hk. assert (Ho' : ok E false (EStep axis node_test predicates) = true) by exact Ho.
    destruct (attr_build E Create _ _ _ _ None Ho' Hk _ _ _ _ Hm) as [-> ->]. exists d, [], d. cbn [route]. split; [exact Hlo|]. split; [reflexivity|]. split; [reflexivity|]. split; [exact Hd|]. split; [|auto].
    eapply (attr_none E dot (EStep axis node_test predicates) q d [] d); eauto. 
Qed.

(** ** assigning *)
Theorem settled_set E e v d d' : supported_path E e = true -> lkind E e <> Some KText -> lkind E e <> None -> tag_of d <> None -> settled E e d -> mgr_set E e (Some v) d = (d', Ret tt) -> settled E e d'.
Proof.
  intros Hs Hkt Hkn Hd Hse Hm.
  pose proof Hs as Hs0. unfold supported_path in Hs. apply andb_prop in Hs as [Hs Hr]. apply andb_prop in Hs as [Hp Ho].
  unfold mgr_set in Hm. apply bind_ret in Hm as (d0 & r & Hf & Hm). unfold reading in Hf. rewrite (find_path _ _ _ _ Hp Ho) in Hf.
  injection Hf as <- <-. apply bind_ret in Hm as (d1 & r & Hb & Hm).
  destruct (lkind E e) as [[q|q|]|] eqn:Hk; [| |contradiction|contradiction].
  - assert (Hl : is_KChild (lkind E e) = true) by now rewrite Hk. destruct (lkind_last _ _ _ Hk) as (s & Hls & Hks).
    assert (Hlo : lone E (spine e) d).
    { pose proof (settled_route _ _ _ _ Hs0 Hls Hse) as H1. rewrite (route_spine _ _ Hp Hls). apply lone_snoc; [exact H1|]. rewrite <- (route_spine _ _ Hp Hls), <- (selects_len _ _ _ _ Hp Ho (or_introl Hl)). apply Hse. now left. }
    assert (G : exists b m, r = Some (RElem b) /\ lone E (spine e) d1 /\ sel E (spine e) d1 = [b] /\ get_at b d1 = Some m).
    { rewrite (selects_elems _ _ _ _ Hp Ho (or_introl Hl)), hd_elems in Hb. destruct (sel E (spine e) d) as [|b l] eqn:Es; cbn [option_map] in Hb.
      - pose proof (build_lone _ _ _ Hp Ho (or_introl Hl) Hr d d1 r Hd Hlo Es Hb) as Hlo1. destruct (create_spec _ _ _ Hp Ho (or_introl Hl) Hr _ _ _ Hd Es Hb) as (b0 & n0 & K & b1 & m & C1 & C2 & C3 & C4 & C5 & C6 & C7 & C8 & C9).
        exists (b0 ++ length (kids_of n0) :: b1), m. split; [exact C7|]. split; [exact Hlo1|]. split; [exact C9|]. rewrite C6, get_at_app, (get_upd_same _ _ _ _ C1), get_append; assumption.
      - destruct (In_sel_get E (spine e) d b) as [m Hg]; [rewrite Es; now left|]. rewrite Hg in Hb. cbn [option_map ref_of] in Hb. injection Hb as <- <-. exists b, m. split; [reflexivity|]. split; [exact Hlo|]. split; [|exact Hg].
        pose proof (Hlo (spine e) [] (eq_sym (app_nil_r _))) as L. rewrite Es in L. cbn in L. destruct l; [exact Es|cbn in L; lia]. }
    destruct G as (b & m & -> & Hlo1 & Hsel & Hg). destruct (set_elem_in _ _ _ _ _ _ _ _ Hg Hm) as (E1 & -> & E3).
    destruct (write_elem E true e q d1 b m v Hp Ho Hk Hlo1 Hsel Hg E1) as [W1 W2]. eapply route_settled; [exact Hs0|exact Hls| | |exact W2].
    + rewrite (route_spine _ _ Hp Hls) in W1. now apply lone_app in W1.
    + rewrite (selects_len _ _ _ _ Hp Ho (or_introl Hl)). apply (W1 (spine e) []). now rewrite app_nil_r.
  - destruct (lkind_last _ _ _ Hk) as (s & Hls & Hks). pose proof (settled_route _ _ _ _ Hs0 Hls Hse) as Hlo. rewrite (terminal_last _ _ _ _ Hp Ho Hls) in Hm. destruct (kind_estep _ _ _ Hks) as (ax & t & ps & ->).
    destruct (attr_route _ _ _ _ Hp Ho Hk) as [Hso Hla].
    assert (Hnoel : forall d0 b n, ~ In (IElem b n) (selects E e d0)).
    { intros d0 b n Hin. unfold selects in Hin. rewrite (ev_route _ _ _ _ _ _ Hp Ho Hk eq_refl) in Hin. cbn [nodes_of] in Hin. apply in_flat_map in Hin as (c & _ & Hin). destruct (get_at c d0); [|contradiction].
      cbn [term_items] in Hin. unfold attr_items in Hin. apply in_flat_map in Hin as (y & _ & Hin). destruct (qeqb _ _); [destruct Hin as [Hin|[]]; discriminate|contradiction]. }
    assert (G : exists b m, r = Some (RAttr b q) /\ lone E (route e) d1 /\ sel E (route e) d1 = [b] /\ get_at b d1 = Some m /\ tag_of m <> None /\ length (attr_items q [] m) <= 1).
    { destruct (selects E e d) as [|i rest] eqn:Es; cbn [hd_error option_map] in Hb.
      - destruct (attr_parent _ _ _ _ _ _ _ Hp Ho Hr Hk Hd Hlo Es Hb) as (d2 & b & m & A1 & A2 & A3 & A4 & A5 & -> & ->).
        exists b, (set_attr q [] m). split; [reflexivity|]. destruct (write_attr E true e q d2 b m [] Hp Ho Hk A1 A2 A3 A4 A5) as [W1 W2]. split; [exact W1|].
        split; [|split; [now rewrite (get_upd_same _ _ _ _ A3)|split; [now rewrite tag_set_attr|now apply attr_items_len]]].
        rewrite <- A2. eapply (sel_upd E (KAttr q)); eauto; [rewrite A2; now left|intros; apply sim_set_attr].
      - injection Hb as <- <-. pose proof Es as Es0. unfold selects in Es. rewrite (ev_route _ _ _ _ _ _ Hp Ho Hk eq_refl) in Es. cbn [nodes_of] in Es.
        pose proof (Hlo (route e) [] (eq_sym (app_nil_r _))) as L. destruct (sel E (route e) d) as [|b [|b' l]] eqn:Er; [discriminate| |cbn in L; lia]. cbn [flat_map] in Es. rewrite app_nil_r in Es.
        destruct (get_at b d) as [m|] eqn:Hg; [|discriminate]. cbn [term_items app] in Es. exists b, m.
        assert (Hi : In i (attr_items q b m)) by (rewrite Es; now left). unfold attr_items in Hi. apply in_flat_map in Hi as ([q' w] & _ & Hi). cbn in Hi. destruct (qeqb q' q) eqn:Eq; [|contradiction]. apply qeqb_eq in Eq. subst q'. destruct Hi as [<-|[]].
        split; [reflexivity|]. split; [exact Hlo|]. split; [try exact Er; reflexivity|]. split; [exact Hg|]. split; [eapply sel_tag; [exact Hso|exact Hd|rewrite Er; now left|exact Hg]|].
        assert (Hl1 : length (selects E e d) <= 1) by (apply Hse; now left). rewrite Es0, <- Es in Hl1.
        assert (Ha : forall a n, length (attr_items q a n) = length (attr_items q [] n)).
        { intros a n. unfold attr_items. induction (attrs_of n) as [|x l IH]; [reflexivity|]. cbn. rewrite !app_length, IH. destruct (qeqb (fst x) q); reflexivity. }
        now rewrite <- (Ha b). }
    destruct G as (b & m & -> & Hlo1 & Hsel & Hg & Ht & Hat). destruct (set_attr_in _ _ _ _ _ _ _ _ _ _ Hks Hm) as [-> Hv].
    destruct (write_attr E true e q d1 b m v Hp Ho Hk Hlo1 Hsel Hg Ht Hat) as [W1 W2]. eapply route_settled; [exact Hs0|exact Hls|exact W1|exact W2|]. intros b' n Hin. now apply Hnoel in Hin.
Qed.

(** ** deleting *)
(** removing the one match of a leading part *)
Lemma cut_lone E P c j rest d : steps_ok E P -> lone E P d -> In (c ++ j :: rest) (sel E P d) -> lone E P (upd_at c (remove_kid j) d).
Proof.
  intros Ho Hlo Hb. assert (Hsplit : exists Q s R n, P = Q ++ s :: R /\ In c (sel E Q d) /\ get_at c d = Some n /\ In [j] (sel E [s] n)).
  { pose proof (sel_length _ _ _ _ Hb) as Hlen. rewrite app_length in Hlen. cbn in Hlen.
    assert (HP : exists Q s R, P = Q ++ s :: R /\ length Q = length c).
    { exists (firstn (length c) P). destruct (skipn (length c) P) as [|s R] eqn:Es.
      - exfalso. assert (length (skipn (length c) P) = 0) by now rewrite Es. rewrite skipn_length in H. lia.
      - exists s, R. split; [rewrite <- Es; symmetry; apply firstn_skipn|]. rewrite firstn_length. lia. }
    destruct HP as (Q & s & R & -> & HQ). destruct (In_sel_pre _ _ _ _ _ Hb) as (b0 & c' & n & Heq & H1 & H2 & H3).
    assert (Hl0 : length b0 = length c) by (rewrite (sel_length _ _ _ _ H1); exact HQ).
    assert (b0 = c /\ c' = j :: rest) as [-> ->].
    { clear -Heq Hl0. revert b0 Heq Hl0. induction c as [|x c IH]; intros [|y b0] Heq Hl0; cbn in *; try discriminate; [auto|]. injection Heq as <- Heq. injection Hl0 as Hl0. destruct (IH b0 Heq Hl0) as [-> ->]. auto. }
    exists Q, s, R, n. split; [reflexivity|]. split; [exact H1|]. split; [exact H2|]. destruct (In_sel_cons _ _ _ _ _ H3) as (i & k & b' & [= <- <-] & Hi & Hm & _).
    cbn [sel]. apply in_flat_map. exists (j, k). split; [apply In_enum; split; [lia|now rewrite Nat.sub_0_r]|]. cbn [fst snd]. rewrite Hm. now left. }
  destruct Hsplit as (Q & s & R & n & -> & Hc & Hg & Hj). destruct (steps_ok_mid _ _ _ _ Ho) as (HQ & Hos & (q & Hq & Hla) & _).
  destruct (sel_single _ _ _ _ Hj) as (i & k & [= <-] & Hi & Hm).
  assert (Hsim : sim (KChild q) n (remove_kid j n)) by (eapply sim_remove; [exact Hi|]; unfold has_tag; rewrite (mstep_tag _ _ _ _ Hq Hm); apply qeqb_refl).
  assert (Hpre : forall Q1 R1, Q = Q1 ++ R1 -> sel E Q1 (upd_at c (remove_kid j) d) = sel E Q1 d).
  { intros Q1 R1 ->. apply (sel_pre_upd E (KChild q) Q1 R1 d c (remove_kid j)); auto; [intros m Hm0; rewrite Hg in Hm0; now injection Hm0 as <-|intros m; destruct m; reflexivity]. }
  (* the only match of Q is c, the only child of it that matches is the removed one *)
  assert (HQ1 : sel E Q d = [c]).
  { pose proof (Hlo Q (s :: R) eq_refl) as L. destruct (sel E Q d) as [|x [|y l]]; [contradiction| |cbn in L; lia]. destruct Hc as [->|[]]. reflexivity. }
  assert (Hgone : sel E [s] (remove_kid j n) = []).
  { assert (L : length (sel E [s] n) <= 1).
    { pose proof (Hlo (Q ++ [s]) R) as L. rewrite <- app_assoc in L. specialize (L eq_refl). rewrite sel_app, HQ1 in L. cbn [flat_map] in L. rewrite Hg, app_nil_r, map_length in L. exact L. }
    destruct n as [qn an tn ks|]; [|destruct j; discriminate]. cbn [kids_of] in Hi. destruct (nth_error_split _ _ Hi) as (l1 & l2 & -> & Hlen).
    assert (Hrk : kids_of (remove_kid j (Elem qn an tn (l1 ++ k :: l2))) = l1 ++ l2) by (unfold remove_kid; cbn [set_kids kids_of]; rewrite <- Hlen; apply remove_nth_mid).
    cbn [sel] in *. rewrite Hrk. cbn [kids_of] in L.
    assert (Hcnt : forall ks i0, length (flat_map (fun x => if mstep E s (fst (snd x)) then map (cons (fst x)) [[]] else []) (enum i0 ks)) = length (filter (fun y : node * option str => mstep E s (fst y)) ks)).
    { clear. induction ks as [|y ks IH]; intros i0; cbn; [reflexivity|]. rewrite app_length, IH. destruct (mstep E s (fst y)); reflexivity. }
    rewrite Hcnt, filter_app in L. cbn [filter] in L. rewrite Hm, app_length in L. cbn [length] in L.
    apply length_zero_iff_nil. rewrite Hcnt, filter_app, app_length. lia. }
  intros Q2 R2 Heq. destruct (le_lt_dec (length Q2) (length Q)) as [Hle|Hlt].
  - assert (HQ2 : exists R1, Q = Q2 ++ R1).
    { clear -Heq Hle. revert Q Heq Hle. induction Q2 as [|x Q2 IH]; intros Q Heq Hle; [exists Q; reflexivity|]. destruct Q as [|y Q]; [cbn in Hle; lia|]. cbn in Heq. injection Heq as <- Heq. destruct (IH Q Heq) as [R1 ->]; [cbn in Hle; lia|]. exists R1. reflexivity. }
    destruct HQ2 as [R1 HQ2]. rewrite (Hpre _ _ HQ2). apply (Hlo Q2 (R1 ++ s :: R)). now rewrite HQ2, <- app_assoc.
  - assert (HQ2 : exists R1, Q2 = Q ++ s :: R1).
    { clear -Heq Hlt. revert Q2 Heq Hlt. induction Q as [|x Q IH]; intros Q2 Heq Hlt; destruct Q2 as [|y Q2]; try (cbn in Hlt; lia); cbn in Heq; injection Heq as <- Heq; [exists Q2; reflexivity|]. destruct (IH Q2 Heq) as [R1 ->]; [cbn in Hlt; lia|]. exists R1. reflexivity. }
    destruct HQ2 as [R1 ->]. change (s :: R1) with ([s] ++ R1). rewrite app_assoc, sel_app.
    assert (Hz : sel E (Q ++ [s]) (upd_at c (remove_kid j) d) = []).
    { rewrite sel_app, (Hpre Q [] (eq_sym (app_nil_r _))), HQ1. cbn [flat_map]. rewrite (get_upd_same _ _ _ _ Hg), Hgone. reflexivity. }
    rewrite Hz. cbn. lia.
Qed.

(** the match of a settled field lies below the first match of the path before its last step *)
Lemma settled_parent E e d c i : supported_path E e = true -> settled E e d -> In i (selects E e d) ->
  (exists a j n, i = IElem (a ++ [j]) n /\ c = a) \/ (exists q v, i = IAttr c q v) -> lkind E e <> None -> first_parent E e d c.
Proof.
  intros Hs Hse Hin Hi Hkn. pose proof Hs as Hs0. unfold supported_path in Hs. apply andb_prop in Hs as [Hs Hr]. apply andb_prop in Hs as [Hp Ho].
  destruct (last_step e) as [s|] eqn:Hls; [|unfold lkind in Hkn; now rewrite Hls in Hkn]. pose proof (settled_route _ _ _ _ Hs0 Hls Hse) as Hlo.
  assert (Hc : In c (sel E (route e) d)).
  { destruct (lkind E e) as [[q|q|]|] eqn:Hk; [| | |contradiction].
    - assert (Hl : is_KChild (lkind E e) = true) by now rewrite Hk. rewrite (selects_elems _ _ _ _ Hp Ho (or_introl Hl)) in Hin. unfold elems_at in Hin. apply in_flat_map in Hin as (b & Hb & Hin). destruct (get_at b d) as [m|]; [|contradiction].
      destruct Hin as [<-|[]]. destruct Hi as [(a & j & n & [= Hb2 _] & ->)|(q' & v & Hi)]; [|discriminate]. cbn [app] in Hb2. subst b.
      rewrite (route_spine _ _ Hp Hls) in Hb. destruct (In_sel_pre _ _ _ _ _ Hb) as (b0 & c' & m' & Heq & H1 & _ & H3). destruct (sel_single _ _ _ _ H3) as (i' & k & -> & _). apply app_inj_tail in Heq as [-> _]. exact H1.
    - unfold selects in Hin. rewrite (ev_route _ _ _ _ _ _ Hp Ho Hk eq_refl) in Hin. cbn [nodes_of] in Hin. apply in_flat_map in Hin as (b & Hb & Hin). destruct (get_at b d) as [m|]; [|contradiction].
      cbn [term_items app] in Hin. unfold attr_items in Hin. apply in_flat_map in Hin as (y & _ & Hin). destruct (qeqb _ _); [|contradiction]. destruct Hin as [<-|[]]. destruct Hi as [(a & j & n & Hi & _)|(q' & v & [= -> _ _])]; [discriminate|exact Hb].
    - unfold selects in Hin. rewrite (ev_route _ _ _ _ _ _ Hp Ho Hk eq_refl) in Hin. cbn [nodes_of] in Hin. apply in_flat_map in Hin as (b & Hb & Hin). destruct (get_at b d) as [m|]; [|contradiction].
      cbn [term_items] in Hin. apply text_item_addr in Hin as (b' & tl & t & ->). destruct Hi as [(a & j & n & Hi & _)|(q' & v & Hi)]; discriminate. }
  destruct e; cbn [is_path] in Hp; try discriminate; cbn [route] in *.
  - apply str_eqb_eq in Hp. subst op. destruct (ok_slash _ _ _ _ Ho) as (H1 & (ax & t & ps & ->) & H3 & H4). pose proof (joins_path _ _ _ _ H4 H1) as Hpl. pose proof (joins_left _ _ _ _ H4 H1) as Hjl.
    apply (first_parent_sel E true e1 _ _ d c Hpl H1 Hjl). pose proof (Hlo (spine e1) [] (eq_sym (app_nil_r _))) as L. destruct (sel E (spine e1) d) as [|x [|y l]]; [contradiction| |cbn in L; lia]. destruct Hc as [->|[]]. eauto.
  - destruct Hc as [<-|[]]. reflexivity.
Qed.

(** ** deleting leaves the field unset and the path unrepeated *)
Theorem settled_delete E e d d' r : supported_path E e = true -> lkind E e <> Some KText -> lkind E e <> None -> tag_of d <> None -> settled E e d -> mgr_delete E e d = (d', r) ->
  settled E e d' /\ selects E e d' = [].
Proof.
  intros Hs Hkt Hkn Hd Hse Hm. pose proof Hs as Hs0. unfold supported_path in Hs. apply andb_prop in Hs as [Hs Hr]. apply andb_prop in Hs as [Hp Ho].
  destruct (selects E e d) as [|i rest] eqn:Es.
  { unfold mgr_delete, bind, reading, find_ast in Hm. rewrite (eval_path _ _ _ Hs0), Es in Hm. cbn in Hm. injection Hm as <- _. auto. }
  assert (Hrest : rest = []). { destruct Hse as [L _]. specialize (L e (or_introl eq_refl)). rewrite Es in L. destruct rest; [reflexivity|cbn in L; lia]. } subst rest.
  assert (Hin : In i (selects E e d)) by (rewrite Es; now left).
  destruct (lkind E e) as [[q|q|]|] eqn:Hk; [| |contradiction|contradiction]; destruct (lkind_last _ _ _ Hk) as (s & Hls & Hks).
  - assert (Hl : is_KChild (lkind E e) = true) by now rewrite Hk.
    assert (Hi : exists a j n, i = IElem (a ++ [j]) n /\ In (a ++ [j]) (sel E (spine e) d)).
    { rewrite (selects_elems _ _ _ _ Hp Ho (or_introl Hl)) in Hin. unfold elems_at in Hin. apply in_flat_map in Hin as (b & Hb & Hin). destruct (get_at b d) as [m|]; [|contradiction]. destruct Hin as [<-|[]]. cbn [app].
      pose proof Hb as Hb0. rewrite (route_spine _ _ Hp Hls) in Hb. destruct (In_sel_pre _ _ _ _ _ Hb) as (b0 & c' & m' & -> & _ & _ & H3). destruct (sel_single _ _ _ _ H3) as (j & k & -> & _). eauto 6. }
    destruct Hi as (a & j & n & -> & Hb). assert (Hfp : first_parent E e d a) by (eapply (settled_parent E e d a); eauto; [left; eauto|rewrite Hk; discriminate]).
    destruct (delete_elem E e d d' r a j n [] Hs0 Hd Hl Hfp Es Hm) as [(c & jj & re & Heq & ->) Hnil]. specialize (Hnil eq_refl). split; [|exact Hnil].
    pose proof (spine_ok _ _ _ Hp Ho (or_introl Hl)) as Hso.
    assert (Hlo : lone E (spine e) d).
    { pose proof (settled_route _ _ _ _ Hs0 Hls Hse) as H1. rewrite (route_spine _ _ Hp Hls). apply lone_snoc; [exact H1|]. rewrite <- (route_spine _ _ Hp Hls), <- (selects_len _ _ _ _ Hp Ho (or_introl Hl)). apply Hse. now left. }
    rewrite Heq in Hb. pose proof (cut_lone E (spine e) c jj re d Hso Hlo Hb) as W. eapply route_settled; [exact Hs0|exact Hls| |rewrite Hnil; cbn; lia|rewrite Hnil; contradiction].
    rewrite (route_spine _ _ Hp Hls) in W. now apply lone_app in W.
  - assert (Hi : exists b v, i = IAttr b q v /\ In b (sel E (route e) d)).
    { unfold selects in Hin. rewrite (ev_route _ _ _ _ _ _ Hp Ho Hk eq_refl) in Hin. cbn [nodes_of] in Hin. apply in_flat_map in Hin as (b & Hb & Hin). destruct (get_at b d) as [m|]; [|contradiction].
      cbn [term_items app] in Hin. unfold attr_items in Hin. apply in_flat_map in Hin as (y & _ & Hin). destruct (qeqb _ _) eqn:Eq; [|contradiction]. apply qeqb_eq in Eq. destruct Hin as [<-|[]]. rewrite Eq. eauto. }
    destruct Hi as (b & v & -> & Hb). assert (Hfp : first_parent E e d b) by (eapply (settled_parent E e d b); eauto; rewrite Hk; discriminate).
    destruct (attr_route _ _ _ _ Hp Ho Hk) as [Hso Hla]. pose proof (settled_route _ _ _ _ Hs0 Hls Hse) as Hlo.
    destruct (delete_attr E e d d' r b q v [] Hs0 Hd Hfp Es Hk Hm) as [Hd' Hnil]. specialize (Hnil eq_refl). split; [|exact Hnil].
    eapply route_settled; [exact Hs0|exact Hls| |rewrite Hnil; cbn; lia|rewrite Hnil; contradiction].
    destruct Hd' as [->|(c & j & re & -> & ->)].
    + intros Q R HQ. rewrite (sel_pre_upd E (KAttr q) Q R d b (del_attr q)); [exact (Hlo Q R HQ)|now rewrite <- HQ|now rewrite <- HQ|now rewrite <- HQ|intros m _; apply sim_del_attr|intros m; apply tag_del_attr].
    + now apply cut_lone with re.
Qed.
(** ** and it does not fail *)
Theorem settled_delete_total E e d : supported_path E e = true -> lkind E e <> Some KText -> lkind E e <> None -> own_attrs E e = true -> settled E e d -> exists d', mgr_delete E e d = (d', Ret tt).
Proof.
  intros Hs Hkt Hkn Hw Hse. pose proof Hs as Hs0. unfold supported_path in Hs. apply andb_prop in Hs as [Hs Hr]. apply andb_prop in Hs as [Hp Ho].
  unfold mgr_delete, bind at 1, reading, find_ast. rewrite (eval_path _ _ _ Hs0). destruct (selects E e d) as [|i rest] eqn:Es; [exists d; reflexivity|]. cbn [first_match].
  assert (Hin : In i (selects E e d)) by (rewrite Es; now left).
  assert (G : exists d' t, remove_xml E e false doc_root d = (d', Ret t)).
  { destruct (is_KAttr (lkind E e)) eqn:Hka; [|eapply (proj1 (all_rm_ok E e)); eauto].
    destruct (lkind E e) as [[|q|]|] eqn:Hk; try discriminate.
    assert (Hi : exists b m, In b (sel E (route e) d) /\ get_at b d = Some m /\ attr_get q (attrs_of m) <> None).
    { unfold selects in Hin. rewrite (ev_route _ _ _ _ _ _ Hp Ho Hk eq_refl) in Hin. cbn [nodes_of] in Hin. apply in_flat_map in Hin as (b & Hb & Hin). destruct (get_at b d) as [m|] eqn:Hg; [|contradiction]. exists b, m. split; [exact Hb|]. split; [exact Hg|].
      cbn [term_items app] in Hin. rewrite (attr_get_items q b). destruct (attr_items q b m) as [|x y] eqn:Ex; [contradiction|]. assert (Hx : In x (attr_items q b m)) by (rewrite Ex; now left). unfold attr_items in Hx. apply in_flat_map in Hx as ([q' w'] & _ & Hx). cbn in Hx. destruct (qeqb q' q); [|contradiction]. destruct Hx as [<-|[]]. discriminate. }
    destruct Hi as (b & m & Hb & Hg & Hat). destruct (lkind_last _ _ _ Hk) as (s & Hls & Hks). pose proof (settled_route _ _ _ _ Hs0 Hls Hse) as Hlo.
    destruct e; cbn [is_path] in Hp; try discriminate; cbn [route] in *.
    - apply str_eqb_eq in Hp. subst op. destruct (ok_slash _ _ _ _ Ho) as (H1 & (ax & t & ps & ->) & H3 & H4). destruct (rereadable_bin _ _ _ Hr) as [Hr1 Hr2].
      pose proof (joins_path _ _ _ _ H4 H1) as Hpl. pose proof (joins_left _ _ _ _ H4 H1) as Hjl. rewrite (last_preds_slash e1 _ ax t ps eq_refl) in Hls. injection Hls as <-.
      rewrite rm_slash. unfold bind at 1, reading. unfold doc_root. rewrite (find_elems _ _ _ [] d d Hpl H1 Hjl Hr1 eq_refl).
      pose proof (Hlo (spine e1) [] (eq_sym (app_nil_r _))) as L. destruct (sel E (spine e1) d) as [|x [|y l]] eqn:Eb; [contradiction| |cbn in L; lia]. destruct Hb as [->|[]]. cbn [head_ref app].
      unfold bind at 1. rewrite (rm_attr E ax t ps q false b d m H3 Hks Hg). destruct (attr_get q (attrs_of m)); [|contradiction].
      cbn [own_attrs] in Hw. apply andb_prop in Hw as [Hw _]. apply andb_prop in Hw as [Hw1 Hw2].
      destruct (proj1 (all_rm_ok E e1) true Hpl H1 Hr1 Hw1) with (ie := true) (d := upd_at b (del_attr q) d) as (d2 & t2 & Hx).
      { destruct Hjl as [Hjl|Hjl]; [|now rewrite Hjl]. destruct (lkind E e1) as [[| |]|]; try discriminate; reflexivity. }
      unfold bind. unfold doc_root in Hx. rewrite Hx. eexists _, _. reflexivity.
    - destruct Hb as [<-|[]]. cbn in Hg. injection Hg as <-. unfold doc_root. rewrite (rm_attr E axis node_test predicates q false [] d d Ho Hk eq_refl). destruct (attr_get q (attrs_of d)); [|contradiction]. eauto. }
  destruct G as (d' & t & G). unfold bind. rewrite G. exists d'. reflexivity.
Qed.
