(** When assignments cannot fail, and create_<field> (C13, C19). *)
From Coq Require Import String Arith Lia.
From Verif Require Export FieldProps.
From Verif Require Import XPathEval FieldSpec DocSpec.

Opaque u.

Lemma slash_ne_eq : str_eqb (u "/") (u "=") = false. Proof. reflexivity. Qed.

Lemma ok_constructible E p : ok E false p = true -> lkind E (path_of p) <> Some KText -> constructible p = true.
Proof.
  induction p as [| | | |p1 op p2 IHp1 IHp2| | | |ax t ps H| | |] using expr_ind'; intros Ho Hl; try (cbn in Ho; discriminate).
  - cbn [constructible]. destruct (str_eqb op (u "/")) eqn:E1.
    + apply str_eqb_eq in E1. subst op. destruct (ok_slash _ _ _ _ Ho) as (O1 & (ax & t & ps & ->) & O3 & O4).
      cbn [path_of] in Hl. rewrite slash_ne_eq in Hl. rewrite (lkind_slash E p1 _ _ _ _ eq_refl) in Hl.
      rewrite IHp2 by (auto; exact Hl). rewrite IHp1; auto. intros HT.
      pose proof (joins_path _ _ _ _ O4 O1) as Hpl. pose proof (joins_left _ _ _ _ O4 O1) as Hjl.
      replace (path_of p1) with p1 in HT.
      * rewrite HT in Hjl. destruct Hjl; discriminate.
      * destruct p1; try reflexivity. cbn [is_path] in Hpl. cbn [path_of]. apply str_eqb_eq in Hpl. subst op. reflexivity.
    + destruct (str_eqb op (u "=")) eqn:E2; [|reflexivity]. cbn [path_of] in Hl. rewrite E2 in Hl. apply str_eqb_eq in E2. subst op.
      destruct (ok_eq _ _ _ Ho) as (Hp & H1 & Hr). rewrite IHp1; auto.
      * cbn [andb]. destruct p2; cbn in Hr; try discriminate; reflexivity.
      * replace (path_of p1) with p1; [assumption|]. destruct p1; try reflexivity. cbn [is_path] in Hp. cbn [path_of]. apply str_eqb_eq in Hp. subst op. reflexivity.
  - cbn [path_of] in Hl. unfold lkind in Hl. cbn [last_step] in Hl. cbn [constructible].
    pose proof Ho as Ho'. cbn [ok] in Ho'.
    destruct (kind E (EStep ax t ps)) as [[q|q|]|] eqn:Hk; try discriminate; [| |congruence].
    + destruct (kind_supported _ _ _ _ _ Hk) as [-> _]. destruct (kind_child _ _ _ _ _ Hk) as (p & nm & -> & _). cbn [andb].
      apply forallb_forall. intros x Hx. rewrite Forall_forall in H. destruct (ok_step_preds _ _ _ _ _ _ _ Ho Hk Hx) as (H1 & H2 & _). now apply H.
    + destruct (kind_supported _ _ _ _ _ Hk) as [-> _]. destruct (kind_attr _ _ _ _ _ Hk) as (p & nm & -> & _). destruct ps; [reflexivity|discriminate].
Qed.

Lemma xml_char_digit c : asc_digit c = true -> xml_char c = true.
Proof.
  unfold asc_digit, xml_char, in_range. intros H. apply andb_prop in H as [H1 H2]. apply N.leb_le in H1. apply N.leb_le in H2.
  rewrite !orb_true_iff, !andb_true_iff, !N.leb_le. left. left. right. lia.
Qed.
Lemma valid_N n : xml_valid (str_of_N n) = true.
Proof.
  unfold xml_valid. apply forallb_forall. intros c Hc. apply xml_char_digit. pose proof (str_of_N_digits n) as H. rewrite forallb_forall in H. auto.
Qed.
Lemma valid_Z z : xml_valid (str_of_Z z) = true.
Proof. unfold str_of_Z. destruct (Z.ltb z 0); [|apply valid_N]. cbn [xml_valid forallb]. rewrite andb_true_iff. split; [reflexivity|apply valid_N]. Qed.

Lemma pred_value_valid E r : rvalue_ok E r = true -> value_valid E xml_valid r = true -> exists v, pred_value E r = Ret v /\ xml_valid v = true.
Proof.
  destruct r; cbn; try discriminate; intros H1 H2; eauto using valid_N.
  destruct prefix; [discriminate|]. destruct (lookup localname (vars E)) as [[s|z]|]; try discriminate; eauto using valid_Z.
Qed.

Lemma leafy_attr_only E ps m : leafy E ps m -> attr_only E ps = true -> tag_of m <> None -> kids_of m = [].
Proof.
  intros (L1 & _) Ha _. destruct (kids_of m) as [|k ks] eqn:Ek; [reflexivity|]. exfalso.
  destruct (L1 k (or_introl eq_refl)) as (q & p & Hp & _ & Hf). unfold attr_only in Ha. rewrite forallb_forall in Ha. apply Ha in Hp. rewrite Hf in Hp. discriminate.
Qed.

Definition T_pred (E : env) (p : expr) : Prop :=
  ok E false p = true -> lkind E (path_of p) <> Some KText -> tame E xml_valid p = true -> forall a d n, get_at a d = Some n -> tag_of n <> None ->
  exists d' x, build E Construct p (Some (RElem a)) None d = (d', Ret x).

Lemma iter_total E ax t q all : ok E false (EStep ax t all) = true -> kind E (EStep ax t all) = Some (KChild q) ->
  forall ps, (forall p, In p ps -> In p all /\ T_pred E p /\ tame E xml_valid p = true) -> forall a d K, get_at a d = Some K -> tag_of K <> None ->
  exists d', iterM (fun p => build E Construct p (Some (RElem a)) None) ps d = (d', Ret tt).
Proof.
  intros Ho Hk. induction ps as [|p ps IH]; intros Hall a d K Hg Ht; [exists d; reflexivity|].
  destruct (Hall p (or_introl eq_refl)) as (Hin & HT & Htm). destruct (ok_step_preds _ _ _ _ _ _ _ Ho Hk Hin) as (H1 & H2 & _).
  destruct (HT H1 H2 Htm a d K Hg Ht) as (d1 & x1 & Hb). cbn [iterM]. unfold bind. rewrite Hb.
  destruct (proj2 (construct_ok E p) H1 H2 _ _ _ _ _ Hg Ht Hb) as (n' & -> & _ & Hgr).
  apply (IH (fun p' Hp' => Hall p' (or_intror Hp')) a _ n').
  - now rewrite (get_upd_same _ _ _ _ Hg).
  - destruct Hgr as [(q1 & K1 & _ & _ & ->)|(q1 & v1 & _ & ->)]; [now rewrite tag_append|now rewrite tag_set_attr].
Qed.

Lemma step_total E m ax t ps q : ok E false (EStep ax t ps) = true -> kind E (EStep ax t ps) = Some (KChild q) -> Forall (T_pred E) ps ->
  tame E xml_valid (EStep ax t ps) = true -> forall a d n ins, get_at a d = Some n -> tag_of n <> None ->
  exists d' x, build E m (EStep ax t ps) (Some (RElem a)) ins d = (d', Ret x).
Proof.
  intros Ho Hk HT Htm a d n ins Hg Hn. destruct (kind_child _ _ _ _ _ Hk) as (p & nm & -> & Hax & _). destruct (child_ns_kind _ _ _ _ _ _ Hk) as (Hns & Hv & Hl).
  cbn [build]. replace (forallb constructible ps) with true.
  2:{ symmetry. apply forallb_forall. intros x Hx. destruct (ok_step_preds _ _ _ _ _ _ _ Ho Hk Hx) as (H1 & H2 & _). now apply (ok_constructible E). }
  rewrite Hax. unfold create_child. rewrite Hns, Hv. cbn [negb]. unfold bind at 1. rewrite Hg.
  set (i := match ins with Some i => Nat.min i (length (kids_of n)) | None => length (kids_of n) end).
  assert (Hi : i <= length (kids_of n)) by (unfold i; destruct ins; lia).
  edestruct (iter_total E ax (NameTest p nm) q ps Ho Hk ps) as (d2 & Hit).
  - intros p0 Hp0. split; [assumption|]. rewrite Forall_forall in HT. split; [auto|]. cbn [tame] in Htm. rewrite forallb_forall in Htm. auto.
  - instantiate (1 := Elem (QN (q_ns q) nm) [] None []).
    instantiate (1 := upd_at a (insert_kid i (Elem (QN (q_ns q) nm) [] None [])) d). instantiate (1 := a ++ [i]).
    rewrite get_at_app, (get_upd_same _ _ _ _ Hg). destruct n as [qn an tn kn|]; [|contradiction]. cbn in *. now rewrite nth_insert.
  - discriminate.
  - unfold bind. rewrite Hit. eexists _, _. reflexivity.
Qed.

Lemma attr_total E m ax t ps q : ok E false (EStep ax t ps) = true -> kind E (EStep ax t ps) = Some (KAttr q) ->
  forall a d ins, exists d', build E m (EStep ax t ps) (Some (RElem a)) ins d = (d', Ret (Some (RAttr a q))).
Proof.
  intros Ho Hk a d ins. cbn [ok] in Ho. rewrite Hk in Ho. destruct ps; [|discriminate].
  pose proof Hk as Hk2. destruct (kind_attr _ _ _ _ _ Hk) as (p & nm & -> & Hc & Ha & Hs & _ & Hp & Hr & Hn).
  apply attr_name_kind in Hk2. cbn [build forallb]. rewrite Hc, Ha. unfold create_attr, name_valid. rewrite Hs. cbn [negb].
  unfold bind. rewrite Hp, Hr, Hk2. cbn. eexists. reflexivity.
Qed.

Theorem construct_total E p : T_pred E p.
Proof.
  induction p as [| | | |p1 op p2 IHp1 IHp2| | | |ax t ps H| | |] using expr_ind'; intros Ho; try (cbn in Ho; discriminate); intros Hl Htm a d n Hg Hn.
  - destruct (str_eqb op (u "/")) eqn:E1.
    + apply str_eqb_eq in E1. subst op. destruct (ok_slash _ _ _ _ Ho) as (O1 & (ax & t & ps & ->) & O3 & O4).
      cbn [path_of] in Hl. rewrite slash_ne_eq in Hl. rewrite (lkind_slash E p1 _ _ _ _ eq_refl) in Hl.
      cbn [tame] in Htm. rewrite slash_ne_eq in Htm. apply andb_prop in Htm as [T1 T2].
      pose proof (joins_path _ _ _ _ O4 O1) as Hpl. pose proof (joins_left _ _ _ _ O4 O1) as Hjl.
      assert (Hpp : path_of p1 = p1) by (destruct p1; try reflexivity; cbn [is_path] in Hpl; cbn [path_of]; apply str_eqb_eq in Hpl; subst op; reflexivity).
      destruct (IHp1 O1) with (a := a) (d := d) (n := n) as (d1 & x1 & Hb1); auto.
      { rewrite Hpp. intros HT. rewrite HT in Hjl. destruct Hjl; discriminate. }
      pose proof (proj1 (construct_ok E p1) Hpl O1 _ _ _ _ _ Hg Hn Hb1) as R1.
      destruct (lkind E p1) as [[ql|ql|]|] eqn:Hkl; try (destruct Hjl; discriminate).
      2:{ destruct (ok_spine_child _ _ _ Hpl O1) as [Hd _]. rewrite (Hd Hkl) in O1. cbn in O1. discriminate. }
      destruct R1 as (K & b1 & m & q & Hf & HtK & -> & -> & Hin & Hgm & Htm' & Hlf).
      assert (Hg1 : get_at (a ++ length (kids_of n) :: b1) (upd_at a (append_kid K) d) = Some m).
      { rewrite get_at_app, (get_upd_same _ _ _ _ Hg), get_append; assumption. }
      destruct (IHp2 O3 Hl T2 _ _ _ Hg1 Htm') as (d2 & x2 & Hb2).
      exists d2, x2. cbn [build]. rewrite str_eqb_refl. unfold bind at 1. now rewrite Hb1.
    + destruct (str_eqb op (u "=")) eqn:E2; [|cbn [ok] in Ho; rewrite E1, E2 in Ho; discriminate].
      cbn [path_of] in Hl. rewrite E2 in Hl. cbn [tame] in Htm. rewrite E2 in Htm. apply andb_prop in Htm as [Htm T3]. apply andb_prop in Htm as [T1 T2].
      apply str_eqb_eq in E2. subst op. destruct (ok_eq _ _ _ Ho) as (Hp & H1 & Hr).
      assert (Hpp : path_of p1 = p1) by (destruct p1; try reflexivity; cbn [is_path] in Hp; cbn [path_of]; apply str_eqb_eq in Hp; subst op; reflexivity).
      destruct (IHp1 H1) with (a := a) (d := d) (n := n) as (d1 & x1 & Hb1); auto; [now rewrite Hpp|].
      pose proof (proj1 (construct_ok E p1) Hp H1 _ _ _ _ _ Hg Hn Hb1) as R1.
      destruct (pred_value_valid E p2 Hr T2) as (v & Hv & Hvv).
      assert (Hset : exists d2, set_in_xml E x1 (Some v) (terminal_step p1) d1 = (d2, Ret tt)).
      { destruct (lkind E p1) as [[ql|ql|]|] eqn:Hkl.
        - destruct R1 as (K & b1 & m & q & Hf & HtK & -> & -> & Hin & Hgm & Htm' & Hlf).
          assert (Hg1 : get_at (a ++ length (kids_of n) :: b1) (upd_at a (append_kid K) d) = Some m).
          { rewrite get_at_app, (get_upd_same _ _ _ _ Hg), get_append; assumption. }
          eexists. eapply set_elem_out; [exact Hg1| |exact Hvv]. eapply leafy_attr_only; eassumption.
        - destruct (lkind_last _ _ _ Hkl) as (s & Hls & Hks). rewrite (terminal_last _ _ _ _ Hp H1 Hls).
          destruct (kind_estep _ _ _ Hks) as (ax & t & ps & ->).
          destruct R1 as [(_ & -> & ->)|(l & r & K & b1 & m & q & _ & _ & _ & -> & -> & _)]; eexists; eapply set_attr_out; eauto.
        - congruence.
        - destruct (ok_spine_child _ _ _ Hp H1) as [Hd _]. rewrite (Hd Hkl) in H1. cbn in H1. discriminate. }
      destruct Hset as (d2 & Hset). exists d2, x1. cbn [build]. replace (str_eqb (u "=") (u "/")) with false by reflexivity. rewrite str_eqb_refl.
      unfold bind at 1. rewrite Hb1, Hv. unfold bind. now rewrite Hset.
  - cbn [path_of] in Hl. unfold lkind in Hl. cbn [last_step] in Hl.
    pose proof Ho as Ho'. cbn [ok] in Ho'. destruct (kind E (EStep ax t ps)) as [[q|q|]|] eqn:Hk; try discriminate; [| |congruence].
    + exact (step_total E Construct ax t ps q Ho Hk H Htm a d n None Hg Hn).
    + destruct (attr_total E Construct ax t ps q Ho Hk a d None) as (d' & Hb). eauto.
Qed.

Lemma preds_total E ps : Forall (T_pred E) ps.
Proof. apply Forall_forall. intros p _. apply construct_total. Qed.

(** the element path is created *)
Lemma create_total E dot l : is_path l = true -> ok E dot l = true -> is_KChild (lkind E l) = true \/ lkind E l = None -> rereadable l = true ->
  tame E xml_valid l = true -> forall d, tag_of d <> None -> sel E (spine l) d = [] -> exists d' x, build E Create l (Some doc_root) None d = (d', Ret x).
Proof.
  induction l; cbn [is_path]; intros Hp; try discriminate; intros Ho Hl Hr Htm d Hd Hnone.
  - apply str_eqb_eq in Hp. subst op. destruct (ok_slash _ _ _ _ Ho) as (H1 & (ax & t & ps & ->) & H3 & H4).
    rewrite (lkind_slash E l1 _ _ _ _ eq_refl) in Hl.
    destruct (kind E (EStep ax t ps)) as [[q|q|]|] eqn:Hk; try (destruct Hl; discriminate).
    2:{ cbn [ok] in H3. rewrite Hk in H3. discriminate. }
    cbn [tame] in Htm. rewrite slash_ne_eq in Htm. apply andb_prop in Htm as [T1 T2].
    destruct (rereadable_bin _ _ _ Hr) as [Hr1 _].
    pose proof (joins_path _ _ _ _ H4 H1) as Hpl. pose proof (joins_left _ _ _ _ H4 H1) as Hjl.
    pose proof (spine_ok _ _ _ Hpl H1 Hjl) as Hso.
    assert (Hst : forall a d1 n, get_at a d1 = Some n -> tag_of n <> None -> exists d' x, build E Create (EStep ax t ps) (Some (RElem a)) None d1 = (d', Ret x)).
    { intros a d1 n Hg Hn. exact (step_total E Create ax t ps q H3 Hk (preds_total E ps) T2 a d1 n None Hg Hn). }
    enough (exists d1 ln a n, bind (reading (find_node E l1 (Some doc_root)))
          (fun ln => match ln with Some _ => ret ln | None => build E Create l1 (Some doc_root) None end) d = (d1, Ret ln) /\ ln = Some (RElem a) /\ get_at a d1 = Some n /\ tag_of n <> None)
      as (d1 & ln & a & n & Hln & -> & Hg & Hn).
    { destruct (Hst a d1 n Hg Hn) as (d' & x & Hb). exists d', x. remember (EStep ax t ps) as st. cbn [build]. rewrite str_eqb_refl.
      unfold bind in *. unfold reading in *. destruct (find_node E l1 (Some doc_root) d) as [fr|]; [|discriminate]. rewrite Hln. exact Hb. }
    unfold doc_root in *. unfold bind, reading. rewrite (find_elems _ _ _ [] d d Hpl H1 Hjl Hr1 eq_refl).
    destruct (sel E (spine l1) d) as [|b0 rest] eqn:Es; cbn [head_ref].
    + destruct (IHl1 Hpl H1 Hjl Hr1 T1 d Hd Es) as (d1 & x & Hb). rewrite Hb.
      destruct (create_spec E dot l1 Hpl H1 Hjl Hr1 d d1 x Hd Es Hb) as (b0 & n0 & K & b1 & m & C1 & C2 & C3 & C4 & C5 & C6 & C7 & C8 & C9).
      exists d1, x, (b0 ++ length (kids_of n0) :: b1), m. repeat split; auto. rewrite C6, get_at_app, (get_upd_same _ _ _ _ C1), get_append; assumption.
    + destruct (In_sel_get E (spine l1) d b0) as [n0 Hg]; [rewrite Es; now left|].
      exists d, (Some (RElem b0)), b0, n0. repeat split; auto. eapply sel_tag; try eassumption; rewrite Es; now left.
  - unfold lkind in Hl. cbn [last_step] in Hl.
    destruct (kind E (EStep axis node_test predicates)) as [[q|q|]|] eqn:Hk; try (destruct Hl; discriminate).
    2:{ cbn [ok] in Ho. rewrite Hk in Ho. discriminate. }
    exact (step_total E Create axis node_test predicates q Ho Hk (preds_total E predicates) Htm [] d d None eq_refl Hd).
Qed.

(** the parent of an attribute or text() is found or created *)
Lemma parent_total E dot l : is_path l = true -> ok E dot l = true -> is_KChild (lkind E l) = true \/ lkind E l = None -> rereadable l = true ->
  tame E xml_valid l = true -> forall d, tag_of d <> None -> exists d1 b m,
  bind (reading (find_node E l (Some doc_root))) (fun ln => match ln with Some _ => ret ln | None => build E Create l (Some doc_root) None end) d = (d1, Ret (Some (RElem b))) /\
  get_at b d1 = Some m /\ tag_of m <> None /\ (d1 = d \/ leafy E (last_preds l) m).
Proof.
  intros Hp Ho Hl Hr Htm d Hd. unfold bind, reading, doc_root. rewrite (find_elems _ _ _ [] d d Hp Ho Hl Hr eq_refl).
  pose proof (spine_ok _ _ _ Hp Ho Hl) as Hso.
  destruct (sel E (spine l) d) as [|b0 rest] eqn:Es; cbn [head_ref].
  - destruct (create_total E dot l Hp Ho Hl Hr Htm d Hd Es) as (d1 & x & Hb). unfold doc_root in Hb. rewrite Hb.
    destruct (create_spec E dot l Hp Ho Hl Hr d d1 x Hd Es Hb) as (b0 & n0 & K & b1 & m & C1 & C2 & C3 & C4 & C5 & C6 & C7 & C8 & C9).
    subst x. exists d1, (b0 ++ length (kids_of n0) :: b1), m. repeat match goal with |- _ /\ _ => split end; auto.
    rewrite C6, get_at_app, (get_upd_same _ _ _ _ C1), get_append; assumption.
  - destruct (In_sel_get E (spine l) d b0) as [n0 Hg]; [rewrite Es; now left|].
    exists d, b0, n0. repeat split; auto. eapply sel_tag; try eassumption; rewrite Es; now left.
Qed.

(** C13, missing nodes *)
Theorem set_fail_missing E e v d d' x : supported_path E e = true -> tag_of d <> None -> selects E e d = [] ->
  tame E xml_valid e = true -> bare_end E e = true -> xml_valid v = true -> mgr_set E e (Some v) d = (d', Exc x) -> d' = d /\ lkind E e = Some KText.
Proof.
  unfold supported_path. intros Hsp Hd Hnil Htm Hbe Hv Hm. apply andb_prop in Hsp as [Hsp Hr]. apply andb_prop in Hsp as [Hp Ho].
  unfold mgr_set in Hm. unfold bind at 1 in Hm. unfold reading in Hm. rewrite (find_path _ _ _ _ Hp Ho), Hnil in Hm. cbn [hd_error option_map] in Hm.
  assert (Hcase : (is_KChild (lkind E e) = true \/ lkind E e = None) \/ exists k, lkind E e = Some k /\ is_KChild (Some k) = false).
  { destruct (lkind E e) as [[q|q|]|]; auto; right; eauto. }
  destruct Hcase as [Hl|(k & Hk & Hc)].
  - exfalso.
    assert (Es : sel E (spine e) d = []).
    { rewrite (selects_elems _ _ _ _ Hp Ho Hl) in Hnil. destruct (sel E (spine e) d) as [|b l] eqn:Es; [reflexivity|]. unfold elems_at in Hnil. cbn [flat_map] in Hnil.
      destruct (In_sel_get E (spine e) d b) as [m Hg]; [rewrite Es; now left|]. rewrite Hg in Hnil. discriminate. }
    destruct (create_total E true e Hp Ho Hl Hr Htm d Hd Es) as (d1 & r & Hb). unfold bind in Hm. rewrite Hb in Hm.
    destruct (create_spec _ _ _ Hp Ho Hl Hr _ _ _ Hd Es Hb) as (b0 & n0 & K & b1 & m & C1 & C2 & C3 & C4 & C5 & C6 & C7 & C8 & C9).
    subst r d1. rewrite (set_elem_out E _ _ v _ m) in Hm; [discriminate| | |assumption].
    + rewrite get_at_app, (get_upd_same _ _ _ _ C1), get_append; assumption.
    + apply (leafy_attr_only E (last_preds e)); auto. destruct e; cbn [is_path] in Hp; try discriminate.
      * apply str_eqb_eq in Hp. subst op. destruct (ok_slash _ _ _ _ Ho) as (H1 & (ax & t & ps & ->) & H3 & H4).
        unfold last_preds. rewrite (last_preds_slash e1 _ ax t ps eq_refl). cbn [bare_end preds_of] in Hbe. now apply andb_prop in Hbe as [Hbe _].
      * exact Hbe.
  - destruct (lkind_last _ _ _ Hk) as (s & Hls & Hks). rewrite (terminal_last _ _ _ _ Hp Ho Hls) in Hm.
    assert (Hfin : forall b d1 m, (d1 = d \/ leafy E (end_preds (match e with EBin l _ _ => l | _ => e end)) m /\ is_estep e = false) -> get_at b d1 = Some m -> tag_of m <> None ->
       bind (build E Create s (Some (RElem b)) None) (fun m => set_in_xml E m (Some v) (Some s)) d1 = (d', Exc x) -> d' = d /\ lkind E e = Some KText).
    { intros b d1 m Hlf Hg Ht Hb. destruct (kind_estep _ _ _ Hks) as (ax & t & ps & ->).
      assert (Hos : ok E false (EStep ax t ps) = true) by (destruct (last_step_ok _ _ _ _ Hp Ho Hls) as [H|H]; exact H).
      destruct k as [q|q|]; [discriminate| |].
      - exfalso. destruct (attr_total E Create ax t ps q Hos Hks b d1 None) as (d2 & Hb2). unfold bind in Hb. rewrite Hb2 in Hb.
        rewrite (set_attr_out _ _ _ _ _ _ _ _ Hks Hv) in Hb. discriminate.
      - destruct (kind_text _ _ _ _ Hks) as [-> _]. unfold bind in Hb. cbn [build] in Hb. rewrite str_eqb_refl in Hb. unfold ret in Hb. cbn [set_in_xml] in Hb. rewrite Hg in Hb.
        destruct Hlf as [->|[Hlf He]].
        + destruct (kids_of m); [|split; [now injection Hb|exact Hk]]. unfold set_text_at in Hb. now rewrite Hv in Hb.
        + exfalso. destruct e; try discriminate. cbn [is_path] in Hp. apply str_eqb_eq in Hp. subst op.
          destruct (ok_slash _ _ _ _ Ho) as (H1 & (ax2 & t2 & ps2 & ->) & H3 & H4).
          rewrite (last_preds_slash e1 _ ax2 t2 ps2 eq_refl) in Hls. injection Hls as -> -> ->. cbn [bare_end] in Hbe. rewrite Hks in Hbe. apply andb_prop in Hbe as [_ Hbe]. cbn in Hbe.
          rewrite (leafy_attr_only _ _ _ Hlf Hbe Ht) in Hb. unfold set_text_at in Hb. now rewrite Hv in Hb. }
    destruct e; cbn [is_path] in Hp; try discriminate.
    + apply str_eqb_eq in Hp. subst op. destruct (ok_slash _ _ _ _ Ho) as (H1 & (ax & t & ps & ->) & H3 & H4).
      rewrite (last_preds_slash e1 _ ax t ps eq_refl) in Hls. injection Hls as <-.
      cbn [tame] in Htm. rewrite slash_ne_eq in Htm. apply andb_prop in Htm as [T1 T2].
      destruct (rereadable_bin _ _ _ Hr) as [Hr1 _].
      pose proof (joins_path _ _ _ _ H4 H1) as Hpl. pose proof (joins_left _ _ _ _ H4 H1) as Hjl.
      destruct (parent_total E true e1 Hpl H1 Hjl Hr1 T1 d Hd) as (d1 & b & m & Hln & Hg & Ht & Hlf).
      apply (Hfin b d1 m); auto.
      * destruct Hlf as [->|Hlf]; [now left|right; split; [exact Hlf|reflexivity]].
      * rewrite <- Hm. remember (EStep ax t ps) as st. cbn [build]. rewrite str_eqb_refl. unfold bind in *. unfold reading in *.
        destruct (find_node E e1 (Some doc_root) d) as [fr|]; [|discriminate]. now rewrite Hln.
    + cbn in Hls. injection Hls as <-. apply (Hfin [] d d); auto.
Qed.

Theorem set_total_missing E e v d : supported_path E e = true -> tag_of d <> None -> selects E e d = [] ->
  tame E xml_valid e = true -> bare_end E e = true -> xml_valid v = true -> lkind E e <> Some KText -> exists d', mgr_set E e (Some v) d = (d', Ret tt).
Proof.
  intros. destruct (mgr_set E e (Some v) d) as [d' [[]|x]] eqn:Hm; [eauto|]. exfalso.
  destruct (set_fail_missing E e v d d' x) as [_ HK]; auto.
Qed.

(** an existing attribute, or element without children, can always be set *)
Theorem set_total_existing E e v d i rest : supported_path E e = true -> selects E e d = i :: rest -> xml_valid v = true ->
  (forall b n, i = IElem b n -> kids_of n = []) -> (forall b tl s, i <> IText b tl s) -> exists d', mgr_set E e (Some v) d = (d', Ret tt).
Proof.
  unfold supported_path. intros Hsp Hsel Hv Hk Hnt. apply andb_prop in Hsp as [Hsp Hr]. apply andb_prop in Hsp as [Hp Ho].
  unfold mgr_set. unfold bind at 1. unfold reading. rewrite (find_path _ _ _ _ Hp Ho), Hsel. cbn [hd_error option_map].
  unfold bind, ret. destruct (lkind E e) as [k|] eqn:Hl.
  - destruct (lkind_last _ _ _ Hl) as (s & Hls & Hks). rewrite (terminal_last _ _ _ _ Hp Ho Hls).
    destruct (kind_estep _ _ _ Hks) as (ax & t & ps & ->). destruct i as [b n|b q w|b tl s]; cbn [ref_of].
    + assert (Hl' : is_KChild (lkind E e) = true \/ lkind E e = None).
      { rewrite Hl. left. destruct k; [reflexivity| |]; unfold selects in Hsel; rewrite (ev_route _ _ _ _ _ _ Hp Ho Hl eq_refl) in Hsel; cbn [nodes_of] in Hsel; exfalso;
        (assert (Hin : In (IElem b n) (IElem b n :: rest)) by (now left)); rewrite <- Hsel in Hin; apply in_flat_map in Hin as (c & _ & Hin); destruct (get_at c d); try contradiction; cbn [term_items] in Hin.
        - unfold attr_items in Hin. apply in_flat_map in Hin as (y & _ & Hin). destruct (qeqb _ _); [destruct Hin as [Hin|[]]; discriminate|contradiction].
        - unfold text_items in Hin. destruct n0; [|contradiction]. apply in_app_or in Hin as [Hin|Hin]; [destruct txt; [destruct Hin as [Hin|[]]; discriminate|contradiction]|].
          apply in_flat_map in Hin as (y & _ & Hin). destruct (snd (snd y)); [destruct Hin as [Hin|[]]; discriminate|contradiction]. }
      rewrite (selects_elems _ _ _ _ Hp Ho Hl') in Hsel. unfold elems_at in Hsel.
      assert (Hg : get_at b d = Some n).
      { assert (Hin : In (IElem b n) (IElem b n :: rest)) by now left. rewrite <- Hsel in Hin. apply in_flat_map in Hin as (y & _ & Hin). destruct (get_at y d) eqn:Hy; [|contradiction].
        destruct Hin as [[= <- <-]|[]]. exact Hy. }
      rewrite (set_elem_out E _ _ v _ n); [eauto|exact Hg|eauto|exact Hv].
    + destruct k as [q'|q'|].
      * exfalso. assert (Hl' : is_KChild (lkind E e) = true \/ lkind E e = None) by (rewrite Hl; now left).
        rewrite (selects_elems _ _ _ _ Hp Ho Hl') in Hsel. assert (Hin : In (IAttr b q w) (IAttr b q w :: rest)) by now left. rewrite <- Hsel in Hin.
        unfold elems_at in Hin. apply in_flat_map in Hin as (y & _ & Hin). destruct (get_at y d); [|contradiction]. destruct Hin as [Hin|[]]; discriminate.
      * assert (Hqq : q = q').
        { unfold selects in Hsel; rewrite (ev_route _ _ _ _ _ _ Hp Ho Hl eq_refl) in Hsel; cbn [nodes_of] in Hsel.
          assert (Hin : In (IAttr b q w) (IAttr b q w :: rest)) by now left. rewrite <- Hsel in Hin; apply in_flat_map in Hin as (c & _ & Hin); destruct (get_at c d); try contradiction.
          cbn [term_items] in Hin. unfold attr_items in Hin. apply in_flat_map in Hin as (y & _ & Hin). destruct (qeqb _ _) eqn:Eq; [|contradiction]. apply qeqb_eq in Eq.
          destruct Hin as [Hin|[]]. injection Hin as _ <- _. exact Eq. }
        subst q'. rewrite (set_attr_out _ _ _ _ _ _ _ _ Hks Hv). eauto.
      * exfalso. unfold selects in Hsel; rewrite (ev_route _ _ _ _ _ _ Hp Ho Hl eq_refl) in Hsel; cbn [nodes_of] in Hsel.
        assert (Hin : In (IAttr b q w) (IAttr b q w :: rest)) by now left. rewrite <- Hsel in Hin; apply in_flat_map in Hin as (c & _ & Hin); destruct (get_at c d); try contradiction; cbn [term_items] in Hin.
        unfold text_items in Hin. destruct n; [|contradiction]. apply in_app_or in Hin as [Hin|Hin]; [destruct txt; [destruct Hin as [Hin|[]]; discriminate|contradiction]|].
        apply in_flat_map in Hin as (y & _ & Hin). destruct (snd (snd y)); [destruct Hin as [Hin|[]]; discriminate|contradiction].
    + exfalso. eapply Hnt. reflexivity.
  - assert (Hl' : is_KChild (lkind E e) = true \/ lkind E e = None) by (rewrite Hl; now right).
    rewrite (selects_elems _ _ _ _ Hp Ho Hl') in Hsel. unfold elems_at in Hsel.
    assert (Hin : In i (i :: rest)) by now left. rewrite <- Hsel in Hin. apply in_flat_map in Hin as (y & _ & Hin). destruct (get_at y d) eqn:Hy; [|contradiction].
    destruct Hin as [<-|[]]. cbn [ref_of app] in *. rewrite (set_elem_out E _ _ v _ n); [eauto|exact Hy|eauto|exact Hv].
Qed.

(** ** C19 *)
Theorem create_spec_full E e d d' x : supported_path E e = true -> tag_of d <> None -> lkind E e <> Some KText ->
  mgr_create E e d = (d', Ret x) ->
  selects E e d' <> [] /\ x = option_map ref_of (hd_error (selects E e d')) /\ kept d d' /\ (selects E e d <> [] -> d' = d) /\ mgr_create E e d' = (d', Ret x).
Proof.
  unfold supported_path. intros Hsp Hd Hnt Hm. apply andb_prop in Hsp as [Hsp Hr]. apply andb_prop in Hsp as [Hp Ho].
  assert (Hgo : forall dd i, hd_error (selects E e dd) = Some i -> mgr_create E e dd = (dd, Ret (Some (ref_of i)))).
  { intros dd i Hi. unfold mgr_create, bind, reading. rewrite (find_path _ _ _ _ Hp Ho), Hi. reflexivity. }
  destruct (hd_error (selects E e d)) as [i|] eqn:Ei.
  { rewrite (Hgo d i Ei) in Hm. injection Hm as <- <-. rewrite Ei. split; [intros H0; rewrite H0 in Ei; discriminate|]. split; [reflexivity|]. split; [apply kept_refl|]. split; [auto|]. now apply Hgo. }
  assert (Hnil : selects E e d = []) by (destruct (selects E e d); [reflexivity|discriminate]).
  assert (Hb : build E Create e (Some doc_root) None d = (d', Ret x)).
  { unfold mgr_create, bind, reading in Hm. now rewrite (find_path _ _ _ _ Hp Ho), Ei in Hm. }
  enough (exists i, hd_error (selects E e d') = Some i /\ x = Some (ref_of i) /\ kept d d') as (i & Hi & -> & Hkp).
  { rewrite Hi. split; [intros H0; rewrite H0 in Hi; discriminate|]. split; [reflexivity|]. split; [assumption|]. split; [contradiction|]. now apply Hgo. }
  assert (Hcase : (is_KChild (lkind E e) = true \/ lkind E e = None) \/ exists q, lkind E e = Some (KAttr q)).
  { destruct (lkind E e) as [[q|q|]|]; [left; now left|right; eauto|congruence|left; now right]. }
  destruct Hcase as [Hl|(q & Hk)].
  - assert (Es : sel E (spine e) d = []).
    { rewrite (selects_elems _ _ _ _ Hp Ho Hl) in Hnil. destruct (sel E (spine e) d) as [|b l] eqn:Es; [reflexivity|]. unfold elems_at in Hnil. cbn [flat_map] in Hnil.
      destruct (In_sel_get E (spine e) d b) as [m Hg]; [rewrite Es; now left|]. rewrite Hg in Hnil. discriminate. }
    destruct (create_spec _ _ _ Hp Ho Hl Hr _ _ _ Hd Es Hb) as (b0 & n0 & K & b1 & m & C1 & C2 & C3 & C4 & C5 & C6 & C7 & C8 & C9).
    exists (IElem (b0 ++ length (kids_of n0) :: b1) m). split; [|split; [exact C7|]].
    + rewrite (selects_elems _ _ _ _ Hp Ho Hl), hd_elems, C9. rewrite C6, get_at_app, (get_upd_same _ _ _ _ C1), get_append by assumption. now rewrite C4.
    + rewrite C6. eapply kept_upd; [exact C1|apply kept_append].
  - destruct (parent_ready _ _ _ _ Hp Ho Hk eq_refl Hr _ _ _ Hd Hb) as (d2 & b & m & s & P1 & P2 & P3 & P4 & P5 & P6).
    destruct (lkind_last _ _ _ Hk) as (s' & Hls & Hks). rewrite Hls in P1. injection P1 as ->. destruct (kind_estep _ _ _ Hks) as (ax & t & ps & ->).
    assert (Hos : ok E false (EStep ax t ps) = true) by (destruct (last_step_ok _ _ _ _ Hp Ho Hls) as [H|H]; exact H).
    destruct (attr_build _ _ _ _ _ _ _ Hos Hks _ _ _ _ P2) as [-> ->].
    exists (IAttr b q []). split; [|split; [reflexivity|]].
    + destruct (attr_items_set q [] b m P4) as [r Hr2].
      destruct P6 as [[-> Hhd]|(Q1 & Q2 & Q3 & b0 & n0 & K & b1 & Q4 & Q5 & Q6 & Q7 & Q8 & Q9)].
      * destruct (sel E (route e) d) as [|b' l] eqn:Es; [discriminate|]. injection Hhd as ->.
        rewrite (term_upd E true e (KAttr q) d [] b l m (set_attr q []) Hp Ho Hk eq_refl Es); [cbn [term_items]; now rewrite Hr2|contradiction|assumption|apply sim_set_attr].
      * rewrite (term_upd E true e (KAttr q) d2 [] b [] m (set_attr q []) Hp Ho Hk eq_refl Q2); [cbn [term_items]; now rewrite Hr2|contradiction|assumption|apply sim_set_attr].
    + apply (kept_trans d d2).
      * destruct P6 as [[-> Hhd]|(Q1 & Q2 & Q3 & b0 & n0 & K & b1 & Q4 & Q5 & Q6 & Q7 & Q8 & Q9)]; [apply kept_refl|].
        rewrite Q6. eapply kept_upd; [exact Q4|apply kept_append].
      * eapply kept_upd; [exact P3|]. apply kept_kids; [apply tag_set_attr|apply kids_set_attr| |intros s0 Hs0; destruct m; exact Hs0].
        intros q' w Hq. rewrite (attrs_set_attr _ _ _ P4), attr_get_set. destruct (qeqb q' q) eqn:Eq; [|assumption]. exfalso. apply qeqb_eq in Eq. subst q'.
        assert (Hterm : term_items (KAttr q) b m = []).
        { destruct P6 as [[-> Hhd]|(_ & _ & Q3 & _)]; [|apply Q3]. unfold selects in Hnil. rewrite (ev_route _ _ _ _ _ _ Hp Ho Hk eq_refl) in Hnil. cbn [nodes_of] in Hnil.
          destruct (sel E (route e) d) as [|b' l]; [discriminate|]. injection Hhd as ->. cbn [flat_map app] in Hnil. rewrite P3 in Hnil. now apply app_eq_nil in Hnil as [H _]. }
        cbn [term_items] in Hterm. unfold attr_items in Hterm. clear -Hq Hterm. induction (attrs_of m) as [|[p x] l IH]; cbn in *; [discriminate|].
        rewrite (qeqb_sym p q) in Hterm. destruct (qeqb q p); [discriminate|auto].
Qed.
