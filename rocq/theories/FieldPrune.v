(** What deletion takes away besides the node itself (C15), and undoing a creation (C20). *)
From Coq Require Import String Arith Lia.
From Verif Require Export FieldDelete.
From Verif Require Import XPathEval FieldSpec DocSpec.

Opaque u.

Lemma path_first_attr E dot e q : is_path e = true -> ok E dot e = true -> fkind E e = Some (KAttr q) -> is_estep e = true /\ kind E e = Some (KAttr q).
Proof.
  induction e; cbn [is_path]; intros Hp; try discriminate; intros Ho Hf.
  - exfalso. apply str_eqb_eq in Hp. subst op. destruct (ok_slash _ _ _ _ Ho) as (H1 & _ & H3 & H4).
    destruct (IHe1 (joins_path _ _ _ _ H4 H1) H1 Hf) as [A B]. destruct (joins_left _ _ _ _ H4 H1) as [H|H]; rewrite (lkind_estep _ _ A), B in H; discriminate.
  - split; [reflexivity|exact Hf].
Qed.

Lemma attr_pred_form E p q : ok E false p = true -> fkind E p = Some (KAttr q) ->
  (is_estep p = true /\ kind E p = Some (KAttr q)) \/
  (exists ax t r, p = EBin (EStep ax t []) (u "=") r /\ kind E (EStep ax t []) = Some (KAttr q) /\ rvalue_ok E r = true /\ ok E false (EStep ax t []) = true).
Proof.
  intros Ho Hf. destruct (pred_path _ _ Ho) as (P1 & P2 & P3 & _). rewrite <- P3 in Hf.
  destruct (path_first_attr _ _ _ _ P1 P2 Hf) as [A B]. destruct (pred_cases _ _ Ho) as [[Hp He]|(l & r & ->)].
  - rewrite He in *. now left.
  - right. cbn [path_of] in *. rewrite str_eqb_refl in *. destruct (ok_eq _ _ _ Ho) as (_ & _ & H3). destruct l; try discriminate.
    pose proof P2 as P2'. cbn [ok] in P2. rewrite B in P2. destruct predicates; [|discriminate]. exists axis, node_test, r. auto.
Qed.

Lemma pred_true_hold E l r n : rereadable (EBin l (u "=") r) = true -> ok E false (EBin l (u "=") r) = true ->
  pred_true E (EBin l (u "=") r) n = Ret (hold E (EBin l (u "=") r) n).
Proof.
  intros Hr Ho. unfold pred_true. rewrite (reread_ok _ Hr). cbn [eval_at get_at]. unfold xpath. rewrite (ok_supported _ _ _ Ho).
  unfold hold. cbn [ev]. replace (str_eqb (u "=") (u "/")) with false by reflexivity. rewrite str_eqb_refl. cbn [to_bool].
  destruct (xeq _ _); reflexivity.
Qed.

(** one attribute predicate: either nothing happens, or the attribute it names goes *)
Lemma clean1_attr E p q K : ok E false p = true -> rereadable p = true -> fkind E p = Some (KAttr q) ->
  exists b, clean1 E p K = (K, Ret b) \/ (clean1 E p K = (del_attr q K, Ret b) /\ exists l r, p = EBin l (u "=") r).
Proof.
  intros Ho Hr Hf. destruct (attr_pred_form _ _ _ Ho Hf) as [[A B]|(ax & t & r & -> & B & C & D)].
  - destruct p; try discriminate. exists false. now left.
  - unfold clean1. rewrite str_eqb_refl. destruct (constructible _ && true)%bool; [|exists false; now left].
    unfold bind, reading. rewrite pred_true_hold by assumption. destruct (hold _ _ K) eqn:Hh; [|exists false; now left].
    rewrite (rm_attr E ax t [] q true [] K K D B eq_refl). rewrite (attr_get_items q []). 
    rewrite hold_eq in Hh; auto. unfold cores in Hh. rewrite (ev_attr_step _ _ _ _ _ _ D B) in Hh. cbn [nodes_of] in Hh.
    destruct (attr_items q [] K) as [|i l] eqn:Ei; [discriminate|]. assert (Hin : In i (attr_items q [] K)) by (rewrite Ei; now left).
    unfold attr_items in Hin. apply in_flat_map in Hin as ([q' w] & _ & Hin). cbn in Hin. destruct (qeqb q' q); [|contradiction]. destruct Hin as [<-|[]].
    exists true. right. cbn [upd_at]. eauto.
Qed.

Lemma In_attr_del q x l : In x l -> In x (attr_del q l) \/ fst x = q.
Proof.
  induction l as [|[p w] l IH]; cbn; [contradiction|]. intros [<-|Hx].
  - destruct (qeqb q p) eqn:Eq; [right; cbn; apply qeqb_eq in Eq; congruence|left; now left].
  - destruct (qeqb q p); [now left|]. destruct (IH Hx); [left; now right|now right].
Qed.

(** predicates on attributes: never fails, children stay, only named attributes go *)
Lemma clean_attrs E ps : (forall p, In p ps -> ok E false p = true /\ rereadable p = true) -> attr_only E ps = true -> forall K,
  exists K', iterM (clean1 E) ps K = (K', Ret tt) /\ kids_of K' = kids_of K /\
    (forall x, In x (attrs_of K) -> In x (attrs_of K') \/ exists p, In p ps /\ (exists l r, p = EBin l (u "=") r) /\ fkind E p = Some (KAttr (fst x))).
Proof.
  induction ps as [|p ps IH]; intros Hps Ha K.
  - exists K. cbn. auto.
  - cbn [attr_only forallb] in Ha. apply andb_prop in Ha as [Ha1 Ha2]. destruct (fkind E p) as [[|q|]|] eqn:Hf; try discriminate.
    destruct (Hps p (or_introl eq_refl)) as [Ho Hr]. destruct (clean1_attr E p q K Ho Hr Hf) as [b [Hc|[Hc Hpe]]].
    + destruct (IH (fun p' H => Hps p' (or_intror H)) Ha2 K) as (K' & H1 & H2 & H3). exists K'. cbn [iterM]. unfold bind. rewrite Hc. split; [exact H1|]. split; [exact H2|].
      intros x Hx. destruct (H3 x Hx) as [|(p' & A & B)]; [now left|right]. exists p'. split; [now right|exact B].
    + destruct (IH (fun p' H => Hps p' (or_intror H)) Ha2 (del_attr q K)) as (K' & H1 & H2 & H3). exists K'. cbn [iterM]. unfold bind. rewrite Hc. split; [exact H1|].
      split; [rewrite H2; destruct K; reflexivity|].
      intros x Hx. destruct (In_attr_del q x _ Hx) as [Hx'|Hx'].
      * destruct (H3 x) as [|(p' & A & B)]; [destruct K; exact Hx'|now left|right]. exists p'. split; [now right|exact B].
      * right. exists p. split; [now left|]. split; [exact Hpe|]. now rewrite Hx'.
Qed.

(** ** the removed ancestors had nothing else in them *)
Lemma clean_step E ax t ps q : ok E false (EStep ax t ps) = true -> kind E (EStep ax t ps) = Some (KChild q) -> rereadable (EStep ax t ps) = true -> attr_only E ps = true ->
  forall K, exists K', iterM (clean1 E) ps K = (K', Ret tt) /\ kids_of K' = kids_of K /\ (attrs_of K' = [] -> named_attrs E (EStep ax t ps) K) /\
    (forall x, In x (attrs_of K) -> (forall p, In p ps -> fkind E p <> Some (KAttr (fst x))) -> attrs_of K' <> []).
Proof.
  intros Ho Hk Hr Ha K. destruct (clean_attrs E ps) with (K := K) as (K' & H1 & H2 & H3); auto.
  { intros p Hp. split; [|eapply rereadable_pred; eassumption]. now destruct (ok_step_preds _ _ _ _ _ _ _ Ho Hk Hp). }
  exists K'. split; [exact H1|]. split; [exact H2|]. split.
  - intros H0 x Hx. destruct (H3 x Hx) as [Hx'|(p & A & _ & B)]; [rewrite H0 in Hx'; contradiction|]. exists p. auto.
  - intros x Hx Hn H0. destruct (H3 x Hx) as [Hx'|(p & A & _ & B)]; [rewrite H0 in Hx'; contradiction|]. exact (Hn p A B).
Qed.

Lemma kids_len_upd b f m : (b = [] -> length (kids_of (f m)) = length (kids_of m)) -> length (kids_of (upd_at b f m)) = length (kids_of m).
Proof. destruct b as [|i b]; intros H; [now apply H|]. rewrite kids_upd_cons. apply upd_nth_length. Qed.
Lemma attrs_upd b f m : (b = [] -> attrs_of (f m) = attrs_of m) -> attrs_of (upd_at b f m) = attrs_of m.
Proof. destruct b as [|i b]; intros H; [now apply H|]. apply attrs_upd_cons. Qed.

Lemma kids_remove_len i n k : nth_error (kids_of n) i = Some k -> S (length (kids_of (remove_kid i n))) = length (kids_of n).
Proof.
  destruct n as [q a t ks|]; [|destruct i; discriminate]. cbn. unfold remove_nth. intros Hi. rewrite app_length, firstn_length, skipn_length.
  assert (i < length ks) by (apply nth_error_Some; congruence). lia.
Qed.

Lemma rm_frame E dot l : is_path l = true -> ok E dot l = true -> is_KChild (lkind E l) = true \/ lkind E l = None -> rereadable l = true ->
  forallb (fun s => attr_only E (preds_of s)) (spine l) = true ->
  forall d d' r b rest, tag_of d <> None -> sel E (spine l) d = b :: rest -> remove_xml E l true doc_root d = (d', r) ->
  (exists t, r = Ret t) /\
  (d' = d \/ exists c j rest', b = c ++ j :: rest' /\ d' = upd_at c (remove_kid j) d /\
     forall k, length c < k -> k <= length b -> spent E (spine l) b d k (if k =? length b then 0 else 1)).
Proof.
  induction l; cbn [is_path]; intros Hp; try discriminate; intros Ho Hl Hr Hao d d' r b rest Hd Hs Hm.
  - apply str_eqb_eq in Hp. subst op. destruct (ok_slash _ _ _ _ Ho) as (H1 & (ax & t & ps & ->) & H3 & H4).
    rewrite (lkind_slash E l1 _ _ _ _ eq_refl) in Hl.
    destruct (kind E (EStep ax t ps)) as [[q|q|]|] eqn:Hk; try (destruct Hl; discriminate).
    2:{ cbn [ok] in H3. rewrite Hk in H3. discriminate. }
    destruct (rereadable_bin _ _ _ Hr) as [Hr1 Hr2].
    pose proof (joins_path _ _ _ _ H4 H1) as Hpl. pose proof (joins_left _ _ _ _ H4 H1) as Hjl.
    pose proof (spine_ok _ _ _ Hpl H1 Hjl) as Hso. pose proof (spine_last _ _ _ _ _ H1 H4 Hk) as Hla.
    cbn [spine] in Hao. rewrite forallb_app in Hao. apply andb_prop in Hao as [Hao1 Hao2]. cbn [forallb preds_of] in Hao2. rewrite andb_true_r in Hao2.
    rewrite rm_slash in Hm. unfold bind at 1, reading in Hm. unfold doc_root in Hm. rewrite (find_elems _ _ _ [] d d Hpl H1 Hjl Hr1 eq_refl) in Hm.
    cbn [spine] in Hs |- *. destruct (head_of_sel_app _ _ _ _ _ _ Hs) as (b' & l' & Es). rewrite Es in Hm. cbn [head_ref app] in Hm.
    destruct (In_sel_get E (spine l1) d b') as [n Hg]; [rewrite Es; now left|].
    assert (Hlen : length b' = length (spine l1)) by (apply (sel_length E _ d); rewrite Es; now left).
    unfold bind at 1 in Hm. destruct (remove_xml E (EStep ax t ps) true (RElem b') d) as [d1 r1] eqn:Hm1.
    pose proof (rm_child_step _ _ _ _ _ _ _ _ _ _ _ H3 Hk Hr2 Hg Hm1) as R.
    destruct (sel E [EStep ax t ps] n) as [|bi li] eqn:Esi.
    + destruct R as [-> ->]. injection Hm as <- <-. eauto.
    + destruct R as (i & k & -> & Hi & Hms & R). destruct (head_app _ _ _ _ _ _ _ _ _ Es Hg Esi) as [rr Hrr]. rewrite Hrr in Hs. injection Hs as <- <-.
      destruct (clean_step E ax t ps q H3 Hk Hr2 Hao2 (fst k)) as (K0 & C1 & C2 & C3 & C4).
      destruct R as [(-> & Hne & _ & _ & Hx)|(-> & -> & Hcl)].
      * destruct r1 as [[|]|x]; [congruence| |].
        -- injection Hm as <- <-. eauto.
        -- exfalso. destruct (Hx x eq_refl) as [K' HK']. congruence.
      * destruct (Hcl eq_refl) as (K' & D1 & D2 & D3). rewrite C1 in D1. injection D1 as <-.
        unfold bind in Hm. destruct (remove_xml E l1 true doc_root (upd_at b' (remove_kid i) d)) as [d2 r2] eqn:Hm2.
        assert (Hsame : sel E (spine l1) (upd_at b' (remove_kid i) d) = b' :: l').
        { rewrite (sel_upd E (KChild q)); auto; [rewrite Es; now left|]. intros m Hgm. rewrite Hg in Hgm. injection Hgm as <-.
          eapply sim_remove; [exact Hi|]. unfold mstep in Hms. rewrite Hk in Hms. now apply andb_prop in Hms as [Hms _]. }
        assert (Hd1 : tag_of (upd_at b' (remove_kid i) d) <> None).
        { rewrite tag_upd_at; [assumption|]. intros _. destruct d; reflexivity. }
        assert (Hlast : spent E (spine l1 ++ [EStep ax t ps]) (b' ++ [i]) d (length (b' ++ [i])) 0).
        { intros m s Hgm Hns. rewrite firstn_all, get_at_app, Hg in Hgm. cbn in Hgm. rewrite Hi in Hgm. injection Hgm as <-.
          rewrite app_length in Hns. cbn in Hns. rewrite Nat.add_sub, Hlen, nth_error_app_len in Hns. injection Hns as <-.
          split; [now rewrite <- C2, D2|now apply C3]. }
        unfold doc_root in Hm2. rewrite Hm2 in Hm. destruct (IHl1 Hpl H1 Hjl Hr1 Hao1 _ _ _ _ _ Hd1 Hsame Hm2) as [(t2 & ->) IH]. injection Hm as <- <-. split; [eauto|].
        right. destruct IH as [->|(c & j & re & Hb' & -> & Hsp)].
        -- exists b', i, []. split; [reflexivity|]. split; [reflexivity|]. intros kk K1 K2. rewrite app_length in K2. cbn in K2.
           assert (kk = length (b' ++ [i])) by (rewrite app_length; cbn; lia). subst kk. rewrite Nat.eqb_refl. exact Hlast.
        -- exists c, j, (re ++ [i]). split; [rewrite Hb', <- app_assoc; reflexivity|]. split.
           { destruct (get_at c d) as [mc|] eqn:Hgc; [|rewrite Hb', get_at_app, Hgc in Hg; discriminate]. rewrite Hb'. now rewrite (remove_upd_below _ _ _ _ _ _ Hgc). }
           intros kk K1 K2. destruct (Nat.eqb_spec kk (length (b' ++ [i]))) as [->|N]; [exact Hlast|].
           assert (K3 : kk <= length b') by (rewrite app_length in K2, N; cbn in *; lia).
           intros m s Hgm Hns. rewrite firstn_app in Hgm. replace (kk - length b') with 0 in Hgm by lia. cbn [firstn] in Hgm. rewrite app_nil_r in Hgm.
           rewrite nth_error_app1 in Hns by (rewrite <- Hlen; lia).
           specialize (Hsp kk K1 K3).
           assert (Hg1 : get_at (firstn kk b') (upd_at b' (remove_kid i) d) = Some (upd_at (skipn kk b') (remove_kid i) m)).
           { rewrite <- (firstn_skipn kk b') at 2. rewrite upd_at_app. now rewrite (get_upd_same _ _ _ _ Hgm). }
           destruct (Hsp _ _ Hg1 Hns) as [S1 S2]. 
           destruct (Nat.eqb_spec kk (length b')) as [N2|N2].
           ++ rewrite N2 in *. rewrite firstn_all in Hgm. rewrite Hg in Hgm. injection Hgm as <-. rewrite skipn_all in S1, S2. cbn [upd_at] in S1, S2.
              pose proof (kids_remove_len _ _ _ Hi). split; [lia|]. intros x Hx. apply S2. destruct n; exact Hx.
           ++ assert (Hsk : skipn kk b' <> []) by (intros H0; apply (f_equal (@length _)) in H0; rewrite skipn_length in H0; cbn in H0; lia).
              rewrite kids_len_upd in S1 by contradiction. split; [exact S1|]. intros x Hx. apply S2. rewrite attrs_upd; [exact Hx|contradiction].
  - unfold lkind in Hl. cbn [last_step] in Hl.
    destruct (kind E (EStep axis node_test predicates)) as [[q|q|]|] eqn:Hk; try (destruct Hl; discriminate).
    2:{ cbn [ok] in Ho. rewrite Hk in Ho. discriminate. }
    pose proof (rm_child_step _ _ _ _ _ _ [] d d _ _ Ho Hk Hr eq_refl Hm) as R. cbn [spine] in Hs. rewrite Hs in R.
    cbn [spine forallb preds_of] in Hao. rewrite andb_true_r in Hao.
    destruct R as (i & k & -> & Hi & Hms & R). destruct (clean_step E axis node_test predicates q Ho Hk Hr Hao (fst k)) as (K0 & C1 & C2 & C3 & C4).
    destruct R as [(-> & Hne & _ & _ & Hx)|(-> & -> & Hcl)].
    + destruct r as [t|x]; [eauto|]. exfalso. destruct (Hx x eq_refl) as [K' HK']. congruence.
    + split; [eauto|]. destruct (Hcl eq_refl) as (K' & D1 & D2 & D3). rewrite C1 in D1. injection D1 as <-.
      right. exists [], i, []. split; [reflexivity|]. split; [reflexivity|]. cbn [length app]. intros kk K1 K2. assert (kk = 1) by lia. subst kk. cbn [Nat.eqb].
      intros m s Hgm Hns. cbn in Hgm. rewrite Hi in Hgm. injection Hgm as <-. cbn in Hns. injection Hns as <-. split; [now rewrite <- C2, D2|now apply C3].
  - cbn in Hm. injection Hm as <- <-. split; eauto.
Qed.

(** ** C15 *)
Lemma hd_child E ss s d b' l' n i l b rest : sel E ss d = b' :: l' -> get_at b' d = Some n -> sel E [s] n = [i] :: l -> sel E (ss ++ [s]) d = b :: rest -> b = b' ++ [i].
Proof. intros H1 H2 H3 H4. destruct (head_app _ _ _ _ _ _ _ _ _ H1 H2 H3) as [r Hr]. congruence. Qed.

Theorem delete_elem_frame E e d d' r b n rest : supported_path E e = true -> tag_of d <> None -> is_KChild (lkind E e) = true -> attr_preds E e = true ->
  selects E e d = IElem b n :: rest -> mgr_delete E e d = (d', r) ->
  r = Ret tt /\ (d' = d \/ exists c j rest', b = c ++ j :: rest' /\ d' = upd_at c (remove_kid j) d /\
     forall k, length c < k -> k < length b -> spent E (steps_of e) b d k 1).
Proof.
  unfold supported_path. intros Hsp Hd Hl Hao Hsel Hm. apply andb_prop in Hsp as [Hsp Hr]. apply andb_prop in Hsp as [Hp Ho].
  pose proof (or_introl Hl : is_KChild (lkind E e) = true \/ lkind E e = None) as Hl'.
  assert (Hrm : exists r', remove_xml E e false doc_root d = (d', r') /\ ((exists t, r' = Ret t) -> r = Ret tt)).
  { unfold mgr_delete, bind, reading in Hm. rewrite (find_path _ _ _ _ Hp Ho), Hsel in Hm. cbn [hd_error option_map] in Hm.
    destruct (remove_xml E e false doc_root d) as [d2 [x|x]]; injection Hm as <- <-; eexists; (split; [reflexivity|]); [reflexivity|]. intros [t Ht]. discriminate. }
  destruct Hrm as (r' & Hrm & Hrr). clear Hm.
  rewrite (selects_elems _ _ _ _ Hp Ho Hl') in Hsel. apply elems_at_hd in Hsel as (l' & Hs & Hgb & Hrest).
  2:{ intros x Hx. destruct (In_sel_get _ _ _ _ Hx) as [m ->]. discriminate. }
  unfold attr_preds in Hao. rewrite spine_steps in *.
  assert (G : (exists t, r' = Ret t) /\ (d' = d \/ exists c j rest', b = c ++ j :: rest' /\ d' = upd_at c (remove_kid j) d /\
     forall k, length c < k -> k < length b -> spent E (spine e) b d k 1)).
  2:{ destruct G as [G1 G2]. split; auto. }
  destruct e; cbn [is_path] in Hp; try discriminate.
  - apply str_eqb_eq in Hp. subst op. destruct (ok_slash _ _ _ _ Ho) as (H1 & (ax & t & ps & ->) & H3 & H4).
    rewrite (lkind_slash E e1 _ _ _ _ eq_refl) in Hl.
    destruct (kind E (EStep ax t ps)) as [[q|q|]|] eqn:Hk; try discriminate.
    destruct (rereadable_bin _ _ _ Hr) as [Hr1 Hr2].
    pose proof (joins_path _ _ _ _ H4 H1) as Hpl. pose proof (joins_left _ _ _ _ H4 H1) as Hjl.
    pose proof (spine_ok _ _ _ Hpl H1 Hjl) as Hso. pose proof (spine_last _ _ _ _ _ H1 H4 Hk) as Hla.
    cbn [spine] in Hao. rewrite forallb_app in Hao. apply andb_prop in Hao as [Hao1 Hao2].
    rewrite rm_slash in Hrm. unfold bind at 1, reading in Hrm. unfold doc_root in Hrm. rewrite (find_elems _ _ _ [] d d Hpl H1 Hjl Hr1 eq_refl) in Hrm.
    cbn [spine] in Hs |- *. destruct (head_of_sel_app _ _ _ _ _ _ Hs) as (b' & ll & Es). rewrite Es in Hrm. cbn [head_ref app] in Hrm.
    destruct (In_sel_get E (spine e1) d b') as [m Hg]; [rewrite Es; now left|].
    assert (Hlen : length b' = length (spine e1)) by (apply (sel_length E _ d); rewrite Es; now left).
    unfold bind at 1 in Hrm. destruct (remove_xml E (EStep ax t ps) false (RElem b') d) as [d1 r1] eqn:Hm1.
    pose proof (rm_child_step _ _ _ _ _ _ _ _ _ _ _ H3 Hk Hr2 Hg Hm1) as R.
    destruct (sel E [EStep ax t ps] m) as [|bi li] eqn:Esi.
    { destruct R as [-> ->]. injection Hrm as <- <-. eauto. }
    destruct R as (i & k & -> & Hi & Hms & R). pose proof (hd_child _ _ _ _ _ _ _ _ _ _ _ Es Hg Esi Hs) as ->.
    destruct R as [(_ & _ & HF & _)|(-> & -> & _)]; [discriminate|].
    unfold bind in Hrm. destruct (remove_xml E e1 true (RElem []) (upd_at b' (remove_kid i) d)) as [d2 r2] eqn:Hm2.
    assert (Hsame : sel E (spine e1) (upd_at b' (remove_kid i) d) = b' :: ll).
    { rewrite (sel_upd E (KChild q)); auto; [rewrite Es; now left|]. intros m' Hgm. rewrite Hg in Hgm. injection Hgm as <-.
      eapply sim_remove; [exact Hi|]. unfold mstep in Hms. rewrite Hk in Hms. now apply andb_prop in Hms as [Hms _]. }
    assert (Hd1 : tag_of (upd_at b' (remove_kid i) d) <> None) by (rewrite tag_upd_at; [assumption|]; intros _; destruct d; reflexivity).
    destruct (rm_frame E true e1 Hpl H1 Hjl Hr1 Hao1 _ _ _ _ _ Hd1 Hsame Hm2) as [(t2 & ->) IH]. injection Hrm as <- <-. split; [eauto|]. right.
    destruct IH as [->|(c & j & re & Hb' & -> & Hsp)].
    + exists b', i, []. split; [reflexivity|]. split; [reflexivity|]. intros kk K1 K2. rewrite app_length in K2. cbn in K2. lia.
    + exists c, j, (re ++ [i]). split; [rewrite Hb', <- app_assoc; reflexivity|]. split.
      { destruct (get_at c d) as [mc|] eqn:Hgc; [|rewrite Hb', get_at_app, Hgc in Hg; discriminate]. rewrite Hb'. now rewrite (remove_upd_below _ _ _ _ _ _ Hgc). }
      intros kk K1 K2. rewrite app_length in K2. cbn in K2. assert (K3 : kk <= length b') by lia.
      intros m1 s Hgm Hns. rewrite firstn_app in Hgm. replace (kk - length b') with 0 in Hgm by lia. cbn [firstn] in Hgm. rewrite app_nil_r in Hgm.
      rewrite nth_error_app1 in Hns by (rewrite <- Hlen; lia).
      specialize (Hsp kk K1 K3).
      assert (Hg1 : get_at (firstn kk b') (upd_at b' (remove_kid i) d) = Some (upd_at (skipn kk b') (remove_kid i) m1)).
      { rewrite <- (firstn_skipn kk b') at 2. rewrite upd_at_app. now rewrite (get_upd_same _ _ _ _ Hgm). }
      destruct (Hsp _ _ Hg1 Hns) as [S1 S2].
      destruct (Nat.eqb_spec kk (length b')) as [N2|N2].
      * rewrite N2 in *. rewrite firstn_all in Hgm. rewrite Hg in Hgm. injection Hgm as <-. rewrite skipn_all in S1, S2. cbn [upd_at] in S1, S2.
        pose proof (kids_remove_len _ _ _ Hi). split; [lia|]. intros x Hx. apply S2. destruct m; exact Hx.
      * assert (Hsk : skipn kk b' <> []) by (intros H0; apply (f_equal (@length _)) in H0; rewrite skipn_length in H0; cbn in H0; lia).
        rewrite kids_len_upd in S1 by contradiction. split; [exact S1|]. intros x Hx. apply S2. rewrite attrs_upd; [exact Hx|contradiction].
  - unfold lkind in Hl. cbn [last_step] in Hl.
    destruct (kind E (EStep axis node_test predicates)) as [[q|q|]|] eqn:Hk; try discriminate.
    pose proof (rm_child_step _ _ _ _ _ _ [] d d _ _ Ho Hk Hr eq_refl Hrm) as R. cbn [spine] in Hs. rewrite Hs in R.
    destruct R as (i & k & -> & Hi & Hms & [(_ & _ & HF & _)|(-> & -> & _)]); [discriminate|]. split; [eauto|]. right. exists [], i, []. split; [reflexivity|]. split; [reflexivity|].
    cbn [length]. intros; lia.
Qed.

(** the attribute's own element, if it goes too, had no children and no other attributes *)
Theorem delete_attr_frame E e d d' r b q v rest : supported_path E e = true -> tag_of d <> None -> first_parent E e d b -> attr_preds E e = true ->
  selects E e d = IAttr b q v :: rest -> lkind E e = Some (KAttr q) -> mgr_delete E e d = (d', r) ->
  r = Ret tt /\ (d' = upd_at b (del_attr q) d \/ exists c j rest', b = c ++ j :: rest' /\ d' = upd_at c (remove_kid j) d /\
     forall k, length c < k -> k <= length b -> forall m s, get_at (firstn k b) d = Some m -> nth_error (steps_of e) (k - 1) = Some s ->
       length (kids_of m) = (if k =? length b then 0 else 1) /\
       forall x, In x (attrs_of m) -> (k = length b /\ fst x = q) \/ exists p, In p (preds_of s) /\ fkind E p = Some (KAttr (fst x))).
Proof.
  unfold supported_path. intros Hsp Hd Hu Hao Hsel Hlk Hm. apply andb_prop in Hsp as [Hsp Hr]. apply andb_prop in Hsp as [Hp Ho].
  assert (Hrm : exists r', remove_xml E e false doc_root d = (d', r') /\ ((exists t, r' = Ret t) -> r = Ret tt)).
  { unfold mgr_delete, bind, reading in Hm. rewrite (find_path _ _ _ _ Hp Ho), Hsel in Hm. cbn [hd_error option_map] in Hm.
    destruct (remove_xml E e false doc_root d) as [d2 [x|x]]; injection Hm as <- <-; eexists; (split; [reflexivity|]); [reflexivity|]. intros [t Ht]. discriminate. }
  destruct Hrm as (r' & Hrm & Hrr). clear Hm.
  unfold selects in Hsel. rewrite (ev_route _ _ _ _ _ _ Hp Ho Hlk eq_refl) in Hsel. cbn [nodes_of app] in Hsel.
  unfold attr_preds in Hao. rewrite spine_steps in *.
  destruct e; cbn [is_path] in Hp; try discriminate.
  - apply str_eqb_eq in Hp. subst op. destruct (ok_slash _ _ _ _ Ho) as (H1 & (ax & t & ps & ->) & H3 & H4).
    rewrite (lkind_slash E e1 _ _ _ _ eq_refl) in Hlk. cbn [route] in Hsel.
    destruct (rereadable_bin _ _ _ Hr) as [Hr1 Hr2].
    pose proof (joins_path _ _ _ _ H4 H1) as Hpl. pose proof (joins_left _ _ _ _ H4 H1) as Hjl.
    pose proof (spine_ok _ _ _ Hpl H1 Hjl) as Hso. pose proof (spine_last _ _ _ _ _ H1 H4 Hlk) as Hla.
    cbn [spine] in Hao |- *. rewrite forallb_app in Hao. apply andb_prop in Hao as [Hao1 Hao2].
    apply (first_parent_sel E true e1 _ _ d b Hpl H1 Hjl) in Hu as [ll Es].
    destruct (In_sel_get E (spine e1) d b) as [m Hg]; [rewrite Es; now left|]. rewrite Es in Hsel. cbn [flat_map] in Hsel. rewrite Hg in Hsel. cbn [term_items] in Hsel.
    set (rest2 := flat_map (fun b => match get_at b d with Some m => attr_items q b m | None => [] end) ll) in Hsel.
    assert (Hat : exists r1, attr_items q b m = IAttr b q v :: r1).
    { destruct (attr_items q b m) as [|x1 r1] eqn:Ea; [exfalso|injection Hsel as -> Hsel; exists r1; reflexivity].
      assert (Hin : In (IAttr b q v) rest2) by (rewrite <- (app_nil_l rest2), Hsel; now left). unfold rest2 in Hin. apply in_flat_map in Hin as (b2 & Hb2 & Hin). destruct (get_at b2 d) as [m2|]; [|contradiction].
      unfold attr_items in Hin. apply in_flat_map in Hin as ([q' w] & _ & Hin). cbn in Hin. destruct (qeqb q' q); [|contradiction]. destruct Hin as [[= -> _ _]|[]].
      pose proof (sel_NoDup E (spine e1) d) as Nd. rewrite Es in Nd. inversion Nd; contradiction. }
    destruct Hat as (r1 & Hat). clear Hsel.
    assert (Hlen : length b = length (spine e1)) by (apply (sel_length E _ d); rewrite Es; now left).
    rewrite rm_slash in Hrm. unfold bind at 1, reading in Hrm. unfold doc_root in Hrm. rewrite (find_elems _ _ _ [] d d Hpl H1 Hjl Hr1 eq_refl) in Hrm.
    rewrite Es in Hrm. cbn [head_ref app] in Hrm. unfold bind at 1 in Hrm. rewrite (rm_attr _ _ _ _ _ _ _ _ _ H3 Hlk Hg), (attr_get_items q b), Hat in Hrm.
    unfold bind in Hrm. destruct (remove_xml E e1 true (RElem []) (upd_at b (del_attr q) d)) as [d2 r2] eqn:Hm2.
    assert (Hsame : sel E (spine e1) (upd_at b (del_attr q) d) = b :: ll).
    { rewrite (sel_upd E (KAttr q)); auto; [rewrite Es; now left|]. intros. apply sim_del_attr. }
    assert (Hd1 : tag_of (upd_at b (del_attr q) d) <> None) by (rewrite tag_upd_at; [assumption|]; intros _; destruct d; reflexivity).
    destruct (rm_frame E true e1 Hpl H1 Hjl Hr1 Hao1 _ _ _ _ _ Hd1 Hsame Hm2) as [(t2 & ->) IH]. injection Hrm as <- <-. split; [eauto|].
    destruct IH as [->|(c & j & re & Hb' & -> & Hsp)]; [now left|right].
    exists c, j, re. split; [exact Hb'|]. split.
    { destruct (get_at c d) as [mc|] eqn:Hgc; [|rewrite Hb', get_at_app, Hgc in Hg; discriminate]. rewrite Hb'. now rewrite (remove_upd_below _ _ _ _ _ _ Hgc). }
    intros kk K1 K2 m1 s Hgm Hns. rewrite nth_error_app1 in Hns by (rewrite <- Hlen; lia).
    specialize (Hsp kk K1 K2).
    assert (Hg1 : get_at (firstn kk b) (upd_at b (del_attr q) d) = Some (upd_at (skipn kk b) (del_attr q) m1)).
    { rewrite <- (firstn_skipn kk b) at 2. rewrite upd_at_app. now rewrite (get_upd_same _ _ _ _ Hgm). }
    destruct (Hsp _ _ Hg1 Hns) as [S1 S2]. rewrite kids_len_upd in S1 by (intros _; destruct m1; reflexivity). split; [exact S1|].
    intros x Hx. destruct (Nat.eq_dec kk (length b)) as [N2|N2].
    + subst kk. rewrite skipn_all in S2. cbn [upd_at] in S2. destruct (In_attr_del q x _ Hx) as [Hx'|Hx']; [|now left]. right. apply S2. destruct m1; exact Hx'.
    + assert (Hsk : skipn kk b <> []) by (intros H0; apply (f_equal (@length _)) in H0; rewrite skipn_length in H0; cbn in H0; lia).
      right. apply S2. rewrite attrs_upd; [exact Hx|contradiction].
  - unfold lkind in Hlk. cbn [last_step] in Hlk. cbn [route sel flat_map get_at] in Hsel. rewrite app_nil_r in Hsel. cbn [term_items] in Hsel.
    assert (b = []).
    { assert (Hin : In (IAttr b q v) (attr_items q [] d)) by (rewrite Hsel; now left). unfold attr_items in Hin. apply in_flat_map in Hin as ([q' w] & _ & Hin). cbn in Hin.
      destruct (qeqb q' q); [|contradiction]. destruct Hin as [[= -> _ _]|[]]. reflexivity. }
    subst b. unfold doc_root in Hrm. rewrite (rm_attr E axis node_test predicates q false [] d d Ho Hlk eq_refl), (attr_get_items q []), Hsel in Hrm. injection Hrm as <- <-.
    split; [eauto|now left].
Qed.
