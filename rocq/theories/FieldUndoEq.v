(** Setting a missing field and deleting it again, for predicates that compare any supported path with a value (C20). *)
From Coq Require Import String Arith Lia Permutation.
From Verif Require Export FieldChain.
From Verif Require Import XPathEval FieldSpec DocSpec.

Opaque u.

(** ** Construct mode makes chains *)
Definition C_path (E : env) (e : expr) : Prop :=
  is_path e = true -> ok E false e = true -> value_preds e = true -> forall a d n d' x, get_at a d = Some n -> tag_of n <> None ->
  build E Construct e (Some (RElem a)) None d = (d', Ret x) ->
  match lkind E e with
  | Some (KChild _) => exists K b, mpath E e K b /\ d' = upd_at a (append_kid K) d /\ x = Some (RElem (a ++ length (kids_of n) :: b))
  | Some (KAttr qa) =>
      (is_estep e = true /\ d' = upd_at a (set_attr qa []) d /\ x = Some (RAttr a qa)) \/
      (exists l r K b, e = EBin l (u "/") r /\ mpath E l K b /\ d' = upd_at a (append_kid (upd_at b (set_attr qa []) K)) d /\ x = Some (RAttr (a ++ length (kids_of n) :: b) qa))
  | _ => True
  end.
(** attributes and children to be added *)
Definition addition (at_ : list (qname * str)) (ks : list (node * option str)) (n : node) : node :=
  match n with Elem q a t k => Elem q (a ++ at_) t (k ++ ks) | Misc s => Misc s end.
Definition C_pred (E : env) (p : expr) : Prop :=
  match p with EBin _ op _ => str_eqb op (u "=") | _ => false end = true -> value_preds p = true -> ok E false p = true -> lkind E (path_of p) <> Some KText ->
  forall a d n d' x, get_at a d = Some n -> tag_of n <> None -> (forall q, fkind E p = Some (KAttr q) -> attr_get q (attrs_of n) = None) ->
  build E Construct p (Some (RElem a)) None d = (d', Ret x) ->
  exists at_ ks, d' = upd_at a (addition at_ ks) d /\ made E [p] at_ ks.

Lemma made_app E ps1 a1 k1 : made E ps1 a1 k1 -> forall ps2 a2 k2, made E ps2 a2 k2 -> made E (ps1 ++ ps2) (a1 ++ a2) (k1 ++ k2).
Proof.
  induction 1 as [|ax t r q v ps at_ ks Hk Hv Hm IH|l r K b m ps at_ ks Hch Hg Hv Hm IH|l ax t r K b m q v ps at_ ks Hch Hg Hk Hv Hm IH]; intros ps2 a2 k2 H2; cbn [app].
  - exact H2.
  - apply made_attr; auto.
  - eapply made_child; eauto.
  - eapply made_below; eauto.
Qed.

Lemma append_addition K n : append_kid K n = addition [] [(K, None)] n.
Proof. destruct n; cbn; [now rewrite app_nil_r|reflexivity]. Qed.
Lemma attr_set_new q v l : attr_get q l = None -> attr_set q v l = l ++ [(q, v)].
Proof. induction l as [|[p w] l IH]; cbn; [reflexivity|]. destruct (qeqb q p); [discriminate|]. intros H. now rewrite IH. Qed.
Lemma set_attr_addition q v n : attr_get q (attrs_of n) = None -> set_attr q v n = addition [(q, v)] [] n.
Proof. destruct n; cbn; [|reflexivity]. intros H. now rewrite attr_set_new, app_nil_r. Qed.

Lemma attr_get_none q l : (forall x, In x l -> fst x <> q) -> attr_get q l = None.
Proof.
  induction l as [|[p w] l IH]; cbn; [reflexivity|]. intros H. destruct (qeqb q p) eqn:Eq; [apply qeqb_eq in Eq; subst; destruct (H (p, w) (or_introl eq_refl)); reflexivity|].
  apply IH. intros x Hx. apply H. now right.
Qed.

(** the predicates of a step, one after the other *)
Lemma iter_made E ax t q all : ok E false (EStep ax t all) = true -> kind E (EStep ax t all) = Some (KChild q) -> value_preds (EStep ax t all) = true -> Forall (C_pred E) all ->
  forall ps done, done ++ ps = all -> forall a d at_ txt ks d' y,
  get_at a d = Some (Elem q at_ txt ks) -> made E done at_ ks -> iterM (fun p => build E Construct p (Some (RElem a)) None) ps d = (d', Ret y) ->
  exists at' ks', d' = upd_at a (fun _ => Elem q at' txt ks') d /\ made E all at' ks'.
Proof.
  intros Hok Hk Hv Hall. induction ps as [|p ps IH]; intros done Hd a d at_ txt ks d' y Hg Hm Hi.
  - rewrite app_nil_r in Hd. subst done. cbn in Hi. injection Hi as <- <-. exists at_, ks. split; [|exact Hm]. symmetry. eapply upd_at_id; [exact Hg|reflexivity].
  - apply iterM_cons in Hi as (d1 & z & Hp & Hi).
    assert (Hin : In p all) by (rewrite <- Hd; apply in_or_app; right; now left).
    pose proof Hall as HP. rewrite Forall_forall in HP. specialize (HP p Hin). destruct (ok_step_preds _ _ _ _ _ _ _ Hok Hk Hin) as (O1 & O2 & O3).
    cbn [value_preds] in Hv. rewrite forallb_forall in Hv. pose proof (Hv p Hin) as Hvp. apply andb_prop in Hvp as [V1 V2].
    destruct (HP V1 V2 O1 O2 a d _ d1 z Hg ltac:(discriminate)) as (at2 & ks2 & -> & Hm2); [|exact Hp|].
    { intros q1 Hf. cbn [attrs_of]. apply attr_get_none. intros x Hx He. destruct (proj2 (proj2 (proj2 (chain_names E)) _ _ _ Hm) x Hx) as (p' & P1 & P2). rewrite He in P2.
      pose proof Hok as Hdis. cbn [ok] in Hdis. rewrite Hk in Hdis. apply andb_prop in Hdis as [_ Hdis]. rewrite <- Hd in Hdis. clear - Hdis P1 P2 Hf.
      induction done as [|x done IHd]; [contradiction|]. cbn [app flat_map] in Hdis. destruct P1 as [->|P1].
      + unfold direct_attr at 1 in Hdis. rewrite P2 in Hdis. cbn [app distinct] in Hdis. apply andb_prop in Hdis as [Hx _]. apply negb_true_iff in Hx.
        assert (Hx' : existsb (skind_eqb (KAttr q1)) (flat_map (direct_attr E) (done ++ p :: ps)) = true).
        { apply existsb_exists. exists (KAttr q1). split; [|apply skind_eqb_refl]. apply in_flat_map. exists p. split; [apply in_or_app; right; now left|]. unfold direct_attr. rewrite Hf. now left. }
        congruence.
      + apply IHd; auto. clear - Hdis. revert Hdis. unfold direct_attr at 1. destruct (fkind E x) as [[| |]|]; cbn [app]; auto. cbn [distinct]. intros H. now apply andb_prop in H. }
    destruct (IH (done ++ [p]) ltac:(now rewrite <- app_assoc) a (upd_at a (addition at2 ks2) d) (at_ ++ at2) txt (ks ++ ks2) d' y) as (at' & ks' & -> & Hm').
    + now rewrite (get_upd_same _ _ _ _ Hg).
    + now apply made_app.
    + exact Hi.
    + exists at', ks'. split; [now rewrite upd_upd_same|exact Hm'].
Qed.

Lemma step_bare E m ax t ps q : ok E false (EStep ax t ps) = true -> kind E (EStep ax t ps) = Some (KChild q) -> value_preds (EStep ax t ps) = true -> Forall (C_pred E) ps ->
  forall a d n d' x, get_at a d = Some n -> tag_of n <> None -> build E m (EStep ax t ps) (Some (RElem a)) None d = (d', Ret x) ->
  exists K, mstep1 E (EStep ax t ps) K /\ d' = upd_at a (append_kid K) d /\ x = Some (RElem (a ++ [length (kids_of n)])).
Proof.
  intros Hok Hk Hv HP a d n d' x Hg Hn Hb.
  destruct (kind_child _ _ _ _ _ Hk) as (p & nm & -> & Hax & _). destruct (child_ns_kind _ _ _ _ _ _ Hk) as (Hns & Hvn & Hl).
  cbn [build] in Hb. destruct (forallb constructible ps); [|discriminate]. rewrite Hax in Hb.
  apply bind_ret in Hb as (d1 & r1 & Hc & Hb). unfold create_child in Hc. rewrite Hns, Hvn in Hc. cbn [negb] in Hc. rewrite Hg in Hc.
  injection Hc as <- <-. apply bind_ret in Hb as (d2 & y & Hit & Hb). injection Hb as <- <-.
  set (i := length (kids_of n)) in *. replace (QN (q_ns q) nm) with q in Hit by (subst nm; destruct q; reflexivity).
  assert (Hg1 : get_at (a ++ [i]) (upd_at a (insert_kid i (Elem q [] None [])) d) = Some (Elem q [] None [])).
  { rewrite get_at_app, (get_upd_same _ _ _ _ Hg). destruct n as [q' ats t ks|s]; [|contradiction]. cbn [get_at insert_kid set_kids kids_of] in *.
    unfold i. now rewrite nth_insert. }
  destruct (iter_made E ax _ q ps Hok Hk Hv HP ps [] eq_refl (a ++ [i]) _ [] None [] d2 y Hg1 (made_nil E) Hit) as (at' & ks' & -> & Hm).
  exists (Elem q at' None ks'). split; [now constructor|]. split; [|reflexivity].
  rewrite (upd_at_twice _ _ _ _ _ _ Hg). symmetry. eapply upd_at_ext; [exact Hg|]. unfold i. rewrite insert_at_end. symmetry. apply (upd_append (Elem q [] None []) n [] (fun _ => Elem q at' None ks') Hn).
Qed.

Theorem construct_chain E e : C_path E e /\ C_pred E e.
Proof.
  induction e as [| | | |e1 op e2 IH1 IH2| | | |ax t ps H| | |] using expr_ind'; try (split; [intros ?; discriminate|intros ?; discriminate]).
  - destruct IH1 as [R1 _]. destruct IH2 as [R2 _]. split.
    + intros Hp Ho Hv a d n d' x Hg Hn Hb. cbn [is_path] in Hp. apply str_eqb_eq in Hp. subst op.
      destruct (ok_slash _ _ _ _ Ho) as (O1 & (ax & t & ps & ->) & O3 & O4). cbn [build] in Hb. rewrite str_eqb_refl in Hb.
      cbn [value_preds] in Hv. apply andb_prop in Hv as [V1 V2].
      apply bind_ret in Hb as (d1 & x1 & Hb1 & Hb2). rewrite (lkind_slash E e1 _ _ _ _ eq_refl).
      pose proof (joins_path _ _ _ _ O4 O1) as Hpl. pose proof (joins_left _ _ _ _ O4 O1) as Hjl.
      specialize (R1 Hpl O1 V1 a d n d1 x1 Hg Hn Hb1).
      destruct (lkind E e1) as [[ql|ql|]|] eqn:Hkl; try (destruct Hjl; discriminate).
      2:{ destruct (ok_spine_child _ _ _ Hpl O1) as [Hd _]. rewrite (Hd Hkl) in O1. cbn in O1. discriminate. }
      destruct R1 as (K & b & Hch & -> & ->). destruct (chain_leaf E _ _ _ Hch) as (m & s & Hgm & _ & _ & Htm).
      assert (Hg1 : get_at (a ++ length (kids_of n) :: b) (upd_at a (append_kid K) d) = Some m).
      { rewrite get_at_app, (get_upd_same _ _ _ _ Hg), get_append; assumption. }
      destruct (kind E (EStep ax t ps)) as [[qr|qr|]|] eqn:Hkr; [| |exact I|exact I].
      * assert (Hlk : lkind E (EStep ax t ps) = Some (KChild qr)) by exact Hkr.
        specialize (R2 eq_refl O3 V2 _ _ _ _ _ Hg1 Htm Hb2). rewrite Hlk in R2. destruct R2 as (K2 & b2 & Hch2 & -> & ->).
        inversion Hch2 as [? ? ? ? HB|]; subst. exists (upd_at b (append_kid K2) K), (b ++ [length (kids_of m)]). split; [now constructor|].
        split; [rewrite (upd_at_twice _ _ _ _ _ _ Hg), upd_append by assumption; symmetry; now apply upd_at_const|]. do 2 f_equal. now rewrite <- app_assoc.
      * destruct (attr_build E Construct ax t ps qr None O3 Hkr _ _ _ _ Hb2) as [-> ->]. right. exists e1, (EStep ax t ps), K, b. split; [reflexivity|]. split; [exact Hch|]. split; [|reflexivity].
        rewrite (upd_at_twice _ _ _ _ _ _ Hg), upd_append by assumption. symmetry. now apply upd_at_const.
    + intros Hop Hv Ho Hlt a d n d' x Hg Hn Hno Hb. apply str_eqb_eq in Hop. subst op. cbn [value_preds] in Hv. apply andb_prop in Hv as [V1 V2].
      destruct (ok_eq _ _ _ Ho) as (O1 & O2 & O3). cbn [path_of] in Hlt. rewrite str_eqb_refl in Hlt.
      cbn [build] in Hb. replace (str_eqb (u "=") (u "/")) with false in Hb by reflexivity. rewrite str_eqb_refl in Hb.
      apply bind_ret in Hb as (d1 & x1 & Hb1 & Hb2). specialize (R1 O1 O2 V1 _ _ _ _ _ Hg Hn Hb1).
      destruct (pred_value E e2) as [v|ex] eqn:Hpv; [|discriminate]. apply bind_ret in Hb2 as (d2 & y & Hs & Hb2). injection Hb2 as <- <-.
      pose proof (pred_value_holds _ _ _ O3 Hpv) as Hvc.
      destruct (lkind E e1) as [[ql|ql|]|] eqn:Hkl; [| |congruence|].
      * destruct R1 as (K & b & Hch & -> & ->). destruct (chain_leaf E _ _ _ Hch) as (m & s & Hgm & _ & _ & Htm).
        assert (Hg1 : get_at (a ++ length (kids_of n) :: b) (upd_at a (append_kid K) d) = Some m).
        { rewrite get_at_app, (get_upd_same _ _ _ _ Hg), get_append; assumption. }
        destruct (set_elem_in _ _ _ _ _ _ _ _ Hg1 Hs) as (Hk0 & -> & _).
        exists [], [(upd_at b (set_text (Some v)) K, None)]. split.
        -- rewrite (upd_at_twice _ _ _ _ _ _ Hg), upd_append by assumption. symmetry. rewrite (upd_at_const a (addition [] _) d n Hg), <- append_addition. reflexivity.
        -- eapply made_child; [apply chain_text; exact Hch|apply get_upd_same; exact Hgm| |constructor].
           rewrite strval_leaf; [|now rewrite kids_set_text|now rewrite tag_set_text]. rewrite text_set_text by assumption. exact Hvc.
      * destruct R1 as [(Hes & -> & ->)|(l0 & r0 & K & b & -> & Hch & -> & ->)].
        -- destruct e1; try discriminate. cbn [terminal_step] in Hs.
           assert (Hkl' : kind E (EStep axis node_test predicates) = Some (KAttr ql)) by exact Hkl.
           destruct (set_attr_in _ _ _ _ _ _ _ _ _ _ Hkl' Hs) as [-> _].
           pose proof O2 as O2'. cbn [ok] in O2'. rewrite Hkl' in O2'. destruct predicates; [|discriminate].
           exists [(ql, v)], []. split; [|apply made_attr; [exact Hkl'|exact Hvc|constructor]].
           rewrite upd_upd_same. eapply upd_at_ext; [exact Hg|]. rewrite <- set_attr_addition by (apply Hno; exact Hkl').
           destruct n; [|contradiction]. cbn. now rewrite attr_set_set.
        -- destruct (ok_slash _ _ _ _ O2) as (Q1 & (ax & t & ps & ->) & Q3 & Q4). rewrite (terminal_slash l0 _ _ _ _ eq_refl) in Hs.
           rewrite (lkind_slash E l0 _ _ _ _ eq_refl) in Hkl. destruct (set_attr_in _ _ _ _ _ _ _ _ _ _ Hkl Hs) as [-> _].
           pose proof Q3 as Q3'. cbn [ok] in Q3'. rewrite Hkl in Q3'. destruct ps; [|discriminate].
           destruct (chain_leaf E _ _ _ Hch) as (m & s & Hgm & _ & _ & Htm).
           exists [], [(upd_at b (set_attr ql v) K, None)]. split; [|eapply made_below; [exact Hch|exact Hgm|exact Hkl|exact Hvc|constructor]].
           rewrite (upd_at_twice _ _ _ _ _ _ Hg), upd_append by assumption. symmetry. rewrite (upd_at_const a (addition [] _) d n Hg), <- append_addition.
           eapply upd_at_ext; [exact Hg|]. f_equal. symmetry. rewrite upd_upd_same. eapply upd_at_ext; [exact Hgm|]. destruct m; [|contradiction]. cbn. now rewrite attr_set_set.
      * destruct (ok_spine_child _ _ _ O1 O2) as [Hd _]. rewrite (Hd Hkl) in O2. cbn in O2. discriminate.
  - assert (HPs : Forall (C_pred E) ps) by (eapply Forall_impl; [|exact H]; intros p [_ Hp]; exact Hp).
    split; [|intros Hx; discriminate].
    intros Hp Ho Hv a0 d n d' x Hg Hn Hb. destruct (lkind E (EStep ax t ps)) as [[q|q|]|] eqn:Hk; [| |exact I|exact I].
    + destruct (step_bare E Construct ax t ps q Ho Hk Hv HPs _ _ _ _ _ Hg Hn Hb) as (K & HK & -> & ->). exists K, []. split; [now constructor|]. auto.
    + left. destruct (attr_build _ _ _ _ _ _ _ Ho Hk _ _ _ _ Hb) as [-> ->]. auto.
Qed.

(** an element built for a step is empty apart from what its predicates made *)
Lemma built_clean_eq E m ax t ps q : ok E false (EStep ax t ps) = true -> kind E (EStep ax t ps) = Some (KChild q) -> rereadable (EStep ax t ps) = true ->
  value_preds (EStep ax t ps) = true -> forall a d n d' x, get_at a d = Some n -> tag_of n <> None ->
  build E m (EStep ax t ps) (Some (RElem a)) None d = (d', Ret x) ->
  exists K, tag_of K = Some q /\ mstep E (EStep ax t ps) K = true /\ d' = upd_at a (append_kid K) d /\ x = Some (RElem (a ++ [length (kids_of n)])) /\
    exists K', iterM (clean1 E) ps K = (K', Ret tt) /\ kids_of K' = [] /\ attrs_of K' = [].
Proof.
  intros Hok Hk Hr Hv a d n d' x Hg Hn Hb.
  assert (HP : Forall (C_pred E) ps) by (apply Forall_forall; intros p _; apply construct_chain).
  destruct (step_bare E m ax t ps q Hok Hk Hv HP a d n d' x Hg Hn Hb) as (K & HK & H1 & H2). exists K.
  destruct (bare_tag E _ _ HK) as (q' & Hq' & Ht). rewrite Hk in Hq'. injection Hq' as <-. split; [exact Ht|]. split; [exact (proj1 (proj2 (chain_found E)) _ _ HK Hok)|].
  split; [exact H1|]. split; [exact H2|]. exact (proj1 (proj2 (chain_removed E)) _ _ HK Hok Hr).
Qed.

(** ** removal of elements never fails on such a path *)
Definition is_KAttr (k : option skind) : bool := match k with Some (KAttr _) => true | _ => false end.
Definition rm_ok (E : env) (e : expr) : Prop := forall dot, is_path e = true -> ok E dot e = true -> rereadable e = true -> own_attrs E e = true -> is_KAttr (lkind E e) = false ->
  forall ie d, exists d' t, remove_xml E e ie doc_root d = (d', Ret t).
Definition pred_rm_ok (E : env) (p : expr) : Prop := match p with EBin l _ _ => rm_ok E l | _ => True end.

Lemma hold_attr E ax t r q K : ok E false (EBin (EStep ax t []) (u "=") r) = true -> kind E (EStep ax t []) = Some (KAttr q) -> hold E (EBin (EStep ax t []) (u "=") r) K = true ->
  exists v, attr_get q (attrs_of K) = Some v.
Proof.
  intros Ho Hk Hh. destruct (ok_eq _ _ _ Ho) as (H1 & H2 & H3). rewrite hold_eq in Hh by assumption. unfold cores in Hh. rewrite (ev_attr_step _ _ _ _ _ _ H2 Hk) in Hh. cbn [nodes_of] in Hh.
  rewrite (attr_get_items q []). destruct (attr_items q [] K) as [|i l] eqn:Ei; [discriminate|]. assert (Hin : In i (attr_items q [] K)) by (rewrite Ei; now left).
  unfold attr_items in Hin. apply in_flat_map in Hin as ([q' w] & _ & Hin). cbn in Hin. destruct (qeqb q' q); [|contradiction]. destruct Hin as [<-|[]]. eauto.
Qed.

Lemma clean1_ok E p K : ok E false p = true -> rereadable p = true -> own_attrs E p = true -> pred_rm_ok E p -> exists K' b, clean1 E p K = (K', Ret b).
Proof.
  intros Ho Hr Hw Hp. assert (Triv : exists K' b, ret false K = (K', Ret b)) by (exists K, false; reflexivity).
  destruct p; cbn [clean1]; try exact Triv. destruct (constructible _ && str_eqb op (u "="))%bool eqn:Hq; [|exact Triv].
  apply andb_prop in Hq as [_ Hq]. apply str_eqb_eq in Hq. subst op. unfold bind, reading. rewrite pred_true_hold by assumption.
  destruct (hold _ _ K) eqn:Hh; [|exact Triv]. destruct (ok_eq _ _ _ Ho) as (H1 & H2 & H3). destruct (rereadable_bin _ _ _ Hr) as [Hr1 _].
  cbn [own_attrs] in Hw. apply andb_prop in Hw as [Hw Hw3]. apply andb_prop in Hw as [Hw1 _]. rewrite str_eqb_refl in Hw3. cbn [andb] in Hw3.
  destruct (is_KAttr (lkind E p1)) eqn:Hka.
  - unfold is_KAttr in Hka. destruct p1; try discriminate.
    + cbn [is_estep negb andb] in Hw3. destruct (lkind E (EBin p1_1 op p1_2)) as [[|q|]|]; discriminate.
    + destruct (lkind E (EStep axis node_test predicates)) as [[|q|]|] eqn:Hk; try discriminate. change (kind E (EStep axis node_test predicates) = Some (KAttr q)) in Hk.
      pose proof H2 as H2'. cbn [ok] in H2'. rewrite Hk in H2'. destruct predicates; [|discriminate].
      rewrite (rm_attr E axis node_test [] q true [] K K H2 Hk eq_refl). destruct (hold_attr E _ _ _ _ _ Ho Hk Hh) as [v ->]. eauto.
  - pose proof (Hp false H1 H2 Hr1 Hw1 Hka true K) as Hx. destruct p1; try exact Triv; exact Hx.
Qed.
Lemma clean_ok E ps : (forall p, In p ps -> ok E false p = true /\ rereadable p = true /\ own_attrs E p = true /\ pred_rm_ok E p) -> forall K, exists K', iterM (clean1 E) ps K = (K', Ret tt).
Proof.
  induction ps as [|p ps IH]; intros Hps K; [exists K; reflexivity|]. cbn [iterM]. unfold bind at 1. destruct (Hps p (or_introl eq_refl)) as (A & B & C & D).
  destruct (clean1_ok E p K A B C D) as (K1 & b & ->). apply IH. intros p' Hp'. apply Hps. now right.
Qed.
Lemma step_rm_ok E ax t ps ie a d n : ok E false (EStep ax t ps) = true -> rereadable (EStep ax t ps) = true -> own_attrs E (EStep ax t ps) = true -> is_KAttr (kind E (EStep ax t ps)) = false ->
  (forall p, In p ps -> pred_rm_ok E p) -> get_at a d = Some n -> exists d' t', remove_xml E (EStep ax t ps) ie (RElem a) d = (d', Ret t').
Proof.
  intros Ho Hr Hw Hna Hps Hg. destruct (kind E (EStep ax t ps)) as [[q|q|]|] eqn:Hk; [|discriminate| |].
  - destruct (remove_xml E (EStep ax t ps) ie (RElem a) d) as [d' r] eqn:Hm. exists d'. pose proof (rm_child_step _ _ _ _ _ _ _ _ _ _ _ Ho Hk Hr Hg Hm) as R.
    destruct (sel E [EStep ax t ps] n); [destruct R as [_ ->]; eauto|]. destruct R as (i & k & _ & _ & _ & [(_ & _ & _ & _ & Hx)|(_ & -> & _)]); [|eauto].
    destruct r as [b|x]; [eauto|]. destruct (Hx x eq_refl) as (K' & HK). destruct (clean_ok E ps) with (K := fst k) as (K2 & HK2); [|congruence].
    intros p Hp. destruct (ok_step_preds _ _ _ _ _ _ _ Ho Hk Hp) as (O1 & _). split; [exact O1|]. split; [eapply rereadable_pred; eassumption|].
    cbn [own_attrs] in Hw. rewrite forallb_forall in Hw. split; auto.
  - destruct (kind_text _ _ _ _ Hk) as [-> _]. cbn [remove_xml]. rewrite str_eqb_refl. unfold bind, set_text_at. cbn. unfold ret. eauto.
  - cbn [ok] in Ho. rewrite Hk in Ho. discriminate.
Qed.
Lemma all_rm_ok E e : rm_ok E e /\ pred_rm_ok E e /\ match e with EStep _ _ ps => forall p, In p ps -> pred_rm_ok E p | _ => True end.
Proof.
  induction e as [| | | |l op rr IHa IHb| | | |ax t ps H| | |] using expr_ind'; (split; [|split]); try exact I; try (intros dot Hp; discriminate).
  - intros dot Hp Ho Hr Hw Hna ie d. cbn in Hp. apply str_eqb_eq in Hp. subst op. destruct (ok_slash _ _ _ _ Ho) as (H1 & (ax & t & ps & ->) & H3 & H4).
    destruct IHb as (_ & _ & Hps). destruct (rereadable_bin _ _ _ Hr) as [Hr1 Hr2]. rewrite (lkind_slash E l _ _ _ _ eq_refl) in Hna.
    cbn [own_attrs] in Hw. apply andb_prop in Hw as [Hw _]. apply andb_prop in Hw as [Hw1 Hw2].
    pose proof (joins_path _ _ _ _ H4 H1) as Hpl. pose proof (joins_left _ _ _ _ H4 H1) as Hjl.
    rewrite rm_slash. unfold bind at 1, reading. unfold doc_root. rewrite (find_elems _ _ _ [] d d Hpl H1 Hjl Hr1 eq_refl).
    destruct (sel E (spine l) d) as [|b' l'] eqn:Es; cbn [head_ref app]; [exists d, false; reflexivity|].
    destruct (In_sel_get E (spine l) d b') as [n Hg]; [rewrite Es; now left|]. unfold bind at 1.
    destruct (step_rm_ok E ax t ps ie b' d n H3 Hr2 Hw2 Hna Hps Hg) as (d1 & [|] & ->); [|exists d1, false; reflexivity].
    unfold bind. destruct (proj1 IHa dot Hpl H1 Hr1 Hw1) with (ie := true) (d := d1) as (d2 & t2 & Hx).
    { destruct Hjl as [Hjl|Hjl]; [|now rewrite Hjl]. destruct (lkind E l) as [[| |]|]; try discriminate; reflexivity. }
    unfold doc_root in Hx. rewrite Hx. exists d2, true. reflexivity.
  - exact (proj1 IHa).
  - intros dot Hp Ho Hr Hw Hna ie d. assert (Hps : forall p, In p ps -> pred_rm_ok E p) by (intros p Hp'; rewrite Forall_forall in H; exact (proj1 (proj2 (H p Hp')))).
    exact (step_rm_ok E ax t ps ie [] d d Ho Hr Hw Hna Hps eq_refl).
  - intros p Hp. rewrite Forall_forall in H. exact (proj1 (proj2 (H p Hp))).
  - intros dot Hp Ho Hr Hw Hna ie d. exists d, false. reflexivity.
Qed.

(** ** an element that holds more than its predicates name stays *)
Lemma rm_more E dot l : is_path l = true -> ok E dot l = true -> is_KChild (lkind E l) = true \/ lkind E l = None -> rereadable l = true ->
  forall d b rest n, sel E (spine l) d = b :: rest -> get_at b d = Some n -> holds_more E l n -> remove_xml E l true doc_root d = (d, Ret false).
Proof.
  assert (HS : forall ax t ps q a d m i k l', ok E false (EStep ax t ps) = true -> kind E (EStep ax t ps) = Some (KChild q) -> rereadable (EStep ax t ps) = true -> own_attrs E (EStep ax t ps) = true ->
    get_at a d = Some m -> sel E [EStep ax t ps] m = [i] :: l' -> nth_error (kids_of m) i = Some k -> ~ part_of (contents (fst k)) (named_by E ps) ->
    remove_xml E (EStep ax t ps) true (RElem a) d = (d, Ret false)).
  { intros ax t ps q a d m i k l' Ho Hk Hr Hw Hg Hs Hi Hsol. destruct (step_rm_ok E ax t ps true a d m Ho Hr Hw) as (d2 & t2 & Hrm); [now rewrite Hk| |exact Hg|].
    { exact (proj2 (proj2 (all_rm_ok E (EStep ax t ps)))). }
    pose proof (rm_child_step _ _ _ _ _ _ _ _ _ _ _ Ho Hk Hr Hg Hrm) as R. rewrite Hs in R. destruct R as (i' & k' & Hi0 & Hi' & Hms & R). injection Hi0 as <-.
    rewrite Hi in Hi'. injection Hi' as <-. rewrite Hrm. destruct R as [(-> & Hne & _)|(-> & _ & Hcl)]; [destruct t2; [congruence|reflexivity]|].
    exfalso. destruct (Hcl eq_refl) as (K2 & D1 & D2 & D3). apply Hsol. assert (Htk : tag_of (fst k) <> None) by (rewrite (mstep_tag _ _ _ _ Hk Hms); discriminate).
    destruct (clean_lost E ps) with (K := fst k) (K' := K2) (r := Ret tt : res unit) as (_ & X & P & S); auto.
    { intros p Hp. destruct (ok_step_preds E false ax t ps q p Ho Hk Hp) as (O1 & _). split; [exact O1|]. split; [exact (rereadable_pred _ _ _ _ Hr Hp)|]. exact (proj1 (proj2 (all_lossless E p))). }
    rewrite (empty_contents _ D2 D3) in P. cbn [app] in P. eapply part_perm; [symmetry; exact P|exact S]. }
  intros Hp Ho Hl Hr d b rest n Hs Hg Hsol. destruct l; cbn [is_path] in Hp; try discriminate.
  - apply str_eqb_eq in Hp. subst op. destruct (ok_slash _ _ _ _ Ho) as (H1 & (ax & t & ps & ->) & H3 & H4).
    rewrite (lkind_slash E l1 _ _ _ _ eq_refl) in Hl.
    destruct (kind E (EStep ax t ps)) as [[q|q|]|] eqn:Hk; try (destruct Hl; discriminate).
    2:{ cbn [ok] in H3. rewrite Hk in H3. discriminate. }
    destruct (rereadable_bin _ _ _ Hr) as [Hr1 Hr2]. pose proof (joins_path _ _ _ _ H4 H1) as Hpl. pose proof (joins_left _ _ _ _ H4 H1) as Hjl.
    rewrite rm_slash. unfold bind at 1, reading. unfold doc_root. rewrite (find_elems _ _ _ [] d d Hpl H1 Hjl Hr1 eq_refl). cbn [spine] in Hs.
    destruct (head_of_sel_app _ _ _ _ _ _ Hs) as (b' & ll & Es). rewrite Es. cbn [head_ref app].
    destruct (In_sel_get E (spine l1) d b') as [m Hgm]; [rewrite Es; now left|]. unfold bind.
    destruct (sel E [EStep ax t ps] m) as [|bi li] eqn:Esi.
    + destruct (remove_xml E (EStep ax t ps) true (RElem b') d) as [d1 r1] eqn:Hm1.
      pose proof (rm_child_step _ _ _ _ _ _ _ _ _ _ _ H3 Hk Hr2 Hgm Hm1) as R. rewrite Esi in R. destruct R as [-> ->]. reflexivity.
    + destruct (sel_single E (EStep ax t ps) m bi) as (i & k & -> & Hi & Hms); [rewrite Esi; now left|].
      pose proof (hd_child _ _ _ _ _ _ _ _ _ _ _ Es Hgm Esi Hs) as ->.
      rewrite get_at_app, Hgm in Hg. cbn in Hg. rewrite Hi in Hg. injection Hg as <-.
      destruct Hsol as [H|[Hw H]]; [cbn in H; rewrite str_eqb_refl in H; discriminate|]. unfold end_preds in H. rewrite (last_preds_slash l1 _ ax t ps eq_refl) in H.
      cbn [own_attrs] in Hw. apply andb_prop in Hw as [Hw _]. apply andb_prop in Hw as [_ Hw].
      rewrite (HS ax t ps q b' d m i k li H3 Hk Hr2 Hw Hgm Esi Hi H). reflexivity.
  - unfold lkind in Hl. cbn [last_step] in Hl. destruct (kind E (EStep axis node_test predicates)) as [[q|q|]|] eqn:Hk; try (destruct Hl; discriminate).
    2:{ cbn [ok] in Ho. rewrite Hk in Ho. discriminate. }
    cbn [spine] in Hs. destruct (sel_single E (EStep axis node_test predicates) d b) as (i & k & -> & Hi & Hms); [rewrite Hs; now left|].
    cbn in Hg. rewrite Hi in Hg. injection Hg as <-.
    destruct Hsol as [H|[Hw H]]; [discriminate|]. exact (HS axis node_test predicates q [] d d i k rest Ho Hk Hr Hw eq_refl Hs Hi H).
  - reflexivity.
Qed.

(** ** C20 *)
Definition more_lefts (E : env) (e : expr) (d : node) : Prop := forall l b n rest, In l (lefts e) -> selects E l d = IElem b n :: rest -> holds_more E l n.

Lemma more_left E dot l r d b n : ok E dot (EBin l (u "/") r) = true -> more_lefts E (EBin l (u "/") r) d ->
  hd_error (sel E (spine l) d) = Some b -> get_at b d = Some n -> holds_more E l n.
Proof.
  intros Ho Hs Hh Hg. destruct (ok_slash _ _ _ _ Ho) as (H1 & _ & _ & H4). pose proof (joins_path _ _ _ _ H4 H1) as Hpl. pose proof (joins_left _ _ _ _ H4 H1) as Hjl.
  destruct (sel E (spine l) d) as [|b' ll] eqn:Es; [discriminate|]. injection Hh as ->.
  apply (Hs l b n (elems_at [] d ll)); [now left|]. rewrite (selects_elems _ _ _ _ Hpl H1 Hjl), Es. cbn. now rewrite Hg.
Qed.

Lemma undo_eq E dot l : is_path l = true -> ok E dot l = true -> is_KChild (lkind E l) = true \/ lkind E l = None -> rereadable l = true ->
  value_preds l = true ->
  forall d d1 x, tag_of d <> None -> sel E (spine l) d = [] -> more_lefts E l d -> build E Create l (Some doc_root) None d = (d1, Ret x) ->
  remove_xml E l true doc_root d1 = (d, Ret true) /\
  forall w a, x = Some (RElem a) -> remove_xml E l false doc_root (upd_at a (set_text w) d1) = (d, Ret true).
Proof.
  induction l; cbn [is_path]; intros Hp; try discriminate; intros Ho Hl Hr Heq d d' x Hd Hnone Hsl Hb.
  - apply str_eqb_eq in Hp. subst op. destruct (ok_slash _ _ _ _ Ho) as (H1 & (ax & t & ps & ->) & H3 & H4).
    rewrite (lkind_slash E l1 _ _ _ _ eq_refl) in Hl.
    destruct (kind E (EStep ax t ps)) as [[q|q|]|] eqn:Hk; try (destruct Hl; discriminate).
    2:{ cbn [ok] in H3. rewrite Hk in H3. discriminate. }
    destruct (rereadable_bin _ _ _ Hr) as [Hr1 Hr2].
    pose proof (joins_path _ _ _ _ H4 H1) as Hpl. pose proof (joins_left _ _ _ _ H4 H1) as Hjl.
    pose proof (spine_ok _ _ _ Hpl H1 Hjl) as Hso. pose proof (spine_last _ _ _ _ _ H1 H4 Hk) as Hla.
    cbn [spine] in Hnone. cbn [value_preds] in Heq. apply andb_prop in Heq as [He1 He2].
    destruct (build_slash _ _ _ _ _ _ Ho Hr1 _ _ _ Hd Hb) as (dl & b & n & B1 & B2 & B3 & B4).
    destruct (built_clean_eq E Create ax t ps q H3 Hk Hr2 He2 b dl n d' x B2 B3 B1) as (K & K1 & K2 & K3 & K4 & K6).
    assert (Hdl : tag_of dl <> None).
    { destruct B4 as [[-> _]|(Q1 & Q2 & Q3 & Q4)]; [exact Hd|].
      destruct (create_spec E dot l1 Hpl H1 Hjl Hr1 d dl _ Hd Q1 Q2) as (b0 & n0 & K0 & b1 & m & C1 & C2 & C3 & C4 & C5 & C6 & _). rewrite C6.
      rewrite tag_upd_at; [exact Hd|]. intros _. apply tag_append. }
    assert (Hsn : sel E [EStep ax t ps] n = []).
    { destruct B4 as [[-> Q]|(Q1 & Q2 & Q3 & Q4)].
      - eapply sel_nil_child; [exact Hnone| |exact B2]. destruct (sel E (spine l1) d); [discriminate|]. injection Q as ->. now left.
      - apply (leafy_none E (last_preds l1) n _ q Q4 Hk).
        destruct (joins_preds _ _ _ _ H4 Hk) as [->|[Ha|(aa & ->)]]; [cbn in Q1; discriminate|exact Ha|cbn in Q1; discriminate]. }
    assert (Hhd : hd_error (sel E (spine l1) dl) = Some b).
    { destruct B4 as [[-> Q]|(Q1 & Q2 & Q3 & Q4)]; [exact Q|]. now rewrite Q3. }
    assert (Hrest : exists t0, remove_xml E l1 true doc_root dl = (d, Ret t0)).
    { destruct B4 as [[-> Q]|(Q1 & Q2 & Q3 & Q4)].
      - exists false. destruct (sel E (spine l1) d) as [|b' ll] eqn:Es; [discriminate|]. injection Q as ->.
        apply (rm_more E dot l1 Hpl H1 Hjl Hr1 d b ll n Es B2). eapply (more_left E dot l1 (EStep ax t ps) d b n); eauto. now rewrite Es.
      - exists true. apply (IHl1 Hpl H1 Hjl Hr1 He1 d dl (Some (RElem b)) Hd Q1); [|exact Q2]. intros l0 b0 n0 re Hin. apply Hsl. now right. }
    assert (Hgo : forall ie K', tag_of K' = Some q -> mstep E (EStep ax t ps) K' = true ->
      (ie = true -> exists K0, iterM (clean1 E) ps K' = (K0, Ret tt) /\ kids_of K0 = [] /\ attrs_of K0 = []) ->
      remove_xml E (EBin l1 (u "/") (EStep ax t ps)) ie doc_root (upd_at b (append_kid K') dl) = (d, Ret true)).
    { intros ie K' HtK HmK HcK. rewrite rm_slash. unfold bind at 1, reading. unfold doc_root.
      rewrite (find_elems _ _ _ [] (upd_at b (append_kid K') dl) (upd_at b (append_kid K') dl) Hpl H1 Hjl Hr1 eq_refl).
      rewrite (sel_upd E (KChild q)); auto.
      2:{ destruct (sel E (spine l1) dl); [discriminate|]. injection Hhd as ->. now left. }
      2:{ intros. now apply sim_append. }
      destruct (sel E (spine l1) dl) as [|b' ll]; [discriminate|]. injection Hhd as ->. cbn [head_ref app].
      unfold bind at 1. rewrite (rm_added E ax t ps q ie b dl n K' H3 Hk Hr2 B2 B3 HmK Hsn HcK).
      destruct Hrest as [t0 Hrest]. unfold bind. unfold doc_root in Hrest. rewrite Hrest. reflexivity. }
    split.
    + rewrite K3. apply Hgo; auto.
    + intros w a Hx. rewrite K4 in Hx. injection Hx as <-. rewrite K3.
      replace (upd_at (b ++ [length (kids_of n)]) (set_text w) (upd_at b (append_kid K) dl)) with (upd_at b (append_kid (set_text w K)) dl).
      2:{ rewrite (upd_at_twice _ _ _ _ _ _ B2). rewrite upd_append by exact B3. cbn [upd_at]. now apply upd_at_const. }
      apply Hgo; [now rewrite tag_set_text| |discriminate].
      rewrite <- K2. symmetry. apply (mstep_sim E KText); [apply sim_set_text|exact H3|]. cbn [preds_of]. eapply preds_avoid_text; eassumption.
  - unfold lkind in Hl. cbn [last_step] in Hl. destruct (kind E (EStep axis node_test predicates)) as [[q|q|]|] eqn:Hk; try (destruct Hl; discriminate).
    2:{ cbn [ok] in Ho. rewrite Hk in Ho. discriminate. }
    cbn [spine] in Hnone.
    destruct (built_clean_eq E Create axis node_test predicates q Ho Hk Hr Heq [] d d d' x eq_refl Hd Hb) as (K & K1 & K2 & K3 & K4 & K6).
    split.
    + rewrite K3. apply (rm_added E axis node_test predicates q true [] d d K Ho Hk Hr eq_refl Hd K2 Hnone). intros _. exact K6.
    + intros w a Hx. rewrite K4 in Hx. injection Hx as <-. rewrite K3.
      replace (upd_at [length (kids_of d)] (set_text w) (upd_at [] (append_kid K) d)) with (upd_at [] (append_kid (set_text w K)) d).
      2:{ cbn [upd_at]. symmetry. apply (upd_append K d [] (set_text w) Hd). }
      apply (rm_added E axis node_test predicates q false [] d d (set_text w K) Ho Hk Hr eq_refl Hd); [|exact Hnone|discriminate].
      rewrite <- K2. symmetry. apply (mstep_sim E KText); [apply sim_set_text|exact Ho|]. cbn [preds_of]. eapply preds_avoid_text; eassumption.
Qed.

Theorem set_delete_eq E e v d d1 : supported_path E e = true -> tag_of d <> None -> lkind E e <> Some KText -> value_preds e = true -> more_lefts E e d ->
  selects E e d = [] -> mgr_set E e (Some v) d = (d1, Ret tt) -> mgr_delete E e d1 = (d, Ret tt).
Proof.
  intros Hsup Hd Hkt Heq Hsl Hnone Hm.
  assert (Hget : get_string E e d1 = Ret (Some v)) by (eapply set_get; try eassumption; rewrite Hnone; exact I).
  pose proof Hsup as Hsp. unfold supported_path in Hsp. apply andb_prop in Hsp as [Hsp Hr]. apply andb_prop in Hsp as [Hp Ho].
  assert (Hfind : exists r, find_ast E e doc_root d1 = Ret (Some r)).
  { rewrite (find_path _ _ _ _ Hp Ho). rewrite (get_string_path _ _ _ _ Hp Ho) in Hget. destruct (hd_error (selects E e d1)); [cbn; eauto|discriminate]. }
  assert (Hgo : forall t, remove_xml E e false doc_root d1 = (d, Ret t) -> mgr_delete E e d1 = (d, Ret tt)).
  { intros t Ht. unfold mgr_delete, bind, reading. destruct Hfind as [rr ->]. rewrite Ht. reflexivity. }
  unfold mgr_set in Hm. apply bind_ret in Hm as (d0 & r & Hf & Hm). unfold reading in Hf. rewrite (find_path _ _ _ _ Hp Ho), Hnone in Hf.
  injection Hf as <- <-. cbn [hd_error option_map] in Hm. apply bind_ret in Hm as (dc & r & Hb & Hm).
  assert (Hcase : (is_KChild (lkind E e) = true \/ lkind E e = None) \/ exists q, lkind E e = Some (KAttr q)).
  { destruct (lkind E e) as [[q|q|]|]; auto; try congruence. right. eauto. }
  destruct Hcase as [Hl|(q & Hk)].
  - assert (Hs0 : sel E (spine e) d = []).
    { rewrite (selects_elems _ _ _ _ Hp Ho Hl) in Hnone. destruct (sel E (spine e) d) as [|b l] eqn:Es; [reflexivity|]. cbn in Hnone.
      destruct (In_sel_get E (spine e) d b) as [m Hg]; [rewrite Es; now left|]. rewrite Hg in Hnone. discriminate. }
    destruct (undo_eq E true e Hp Ho Hl Hr Heq d dc r Hd Hs0 Hsl Hb) as [_ U].
    destruct (create_spec E true e Hp Ho Hl Hr d dc r Hd Hs0 Hb) as (b0 & n0 & K & b1 & m & C1 & C2 & C3 & C4 & C5 & C6 & C7 & C8 & C9). subst r.
    assert (Hg : get_at (b0 ++ length (kids_of n0) :: b1) dc = Some m) by (rewrite C6, get_at_app, (get_upd_same _ _ _ _ C1), get_append; assumption).
    destruct (set_elem_in _ _ _ _ _ _ _ _ Hg Hm) as (E1 & E2 & E3). subst d1. apply (Hgo true). now apply U.
  - destruct (lkind_last _ _ _ Hk) as (s & Hls & Hks). rewrite (terminal_last _ _ _ _ Hp Ho Hls) in Hm.
    assert (Hos : ok E false s = true).
    { destruct (kind_estep _ _ _ Hks) as (ax & t & ps & ->). destruct (last_step_ok _ _ _ _ Hp Ho Hls) as [H|H]; exact H. }
    destruct (kind_estep _ _ _ Hks) as (ax & t & ps & ->).
    unfold selects in Hnone. rewrite (ev_route _ _ _ _ _ _ Hp Ho Hk eq_refl) in Hnone. cbn [nodes_of app term_items] in Hnone.
    destruct e; cbn [is_path] in Hp; try discriminate.
    + apply str_eqb_eq in Hp. subst op. destruct (ok_slash _ _ _ _ Ho) as (H1 & (ax' & t' & ps' & ->) & H3 & H4).
      rewrite (last_preds_slash e1 _ ax' t' ps' eq_refl) in Hls. injection Hls as -> -> ->. cbn [route] in Hnone.
      destruct (rereadable_bin _ _ _ Hr) as [Hr1 Hr2].
      pose proof (joins_path _ _ _ _ H4 H1) as Hpl. pose proof (joins_left _ _ _ _ H4 H1) as Hjl.
      pose proof (spine_ok _ _ _ Hpl H1 Hjl) as Hso. pose proof (spine_last _ _ _ _ _ H1 H4 Hks) as Hla.
      cbn [value_preds] in Heq. apply andb_prop in Heq as [He1 _].
      destruct (build_slash _ _ _ _ _ _ Ho Hr1 _ _ _ Hd Hb) as (dl & b & n & B1 & B2 & B3 & B4).
      destruct (attr_build _ _ _ _ _ _ _ Hos Hks _ _ _ _ B1) as [-> ->].
      destruct (set_attr_in _ _ _ _ _ _ _ _ _ _ Hks Hm) as [-> Hv].
      assert (Hd1 : upd_at b (set_attr q v) (upd_at b (set_attr q []) dl) = upd_at b (set_attr q v) dl).
      { rewrite upd_upd_same. eapply upd_at_ext; [exact B2|]. destruct n as [qm ats tx ks|]; [|contradiction]. cbn. now rewrite attr_set_set. }
      rewrite Hd1 in Hfind, Hgo |- *.
      assert (Hno : attr_get q (attrs_of n) = None).
      { destruct B4 as [[-> Q]|(Q1 & Q2 & Q3 & Q4)].
        - destruct (sel E (spine e1) d) as [|b' ll] eqn:Es; [discriminate|]. injection Q as ->. cbn [flat_map] in Hnone. rewrite B2 in Hnone.
          apply app_eq_nil in Hnone as [Hnone _]. eapply attr_items_nil; exact Hnone.
        - destruct (attr_get q (attrs_of n)) as [w|] eqn:Ew; [exfalso|reflexivity]. destruct Q4 as (_ & L2 & _).
          assert (Hin : In (q, w) (attrs_of n)).
          { clear - Ew. induction (attrs_of n) as [|[p x] l IH]; cbn in *; [discriminate|]. destruct (qeqb q p) eqn:Eq; [apply qeqb_eq in Eq; injection Ew as ->; subst; now left|right; auto]. }
          destruct (L2 _ Hin) as (p & P1 & P2). cbn in P2.
          destruct (joins_preds _ _ _ _ H4 Hks) as [->|[Ha|(aa & ->)]]; [cbn in Q1; discriminate| |cbn in Q1; discriminate].
          destruct (avoids_In _ _ _ _ Ha P1) as (k' & Hf' & Hne). congruence. }
      assert (Hhd : hd_error (sel E (spine e1) dl) = Some b).
      { destruct B4 as [[-> Q]|(Q1 & Q2 & Q3 & Q4)]; [exact Q|]. now rewrite Q3. }
      assert (Hdl : tag_of dl <> None).
      { destruct B4 as [[-> _]|(Q1 & Q2 & Q3 & Q4)]; [exact Hd|].
        destruct (create_spec E true e1 Hpl H1 Hjl Hr1 d dl _ Hd Q1 Q2) as (b0 & n0 & K0 & b1 & m & C1 & C2 & C3 & C4 & C5 & C6 & _). rewrite C6.
        rewrite tag_upd_at; [exact Hd|]. intros _. apply tag_append. }
      assert (Hrest : exists t0, remove_xml E e1 true doc_root dl = (d, Ret t0)).
      { destruct B4 as [[-> Q]|(Q1 & Q2 & Q3 & Q4)].
        - exists false. destruct (sel E (spine e1) d) as [|b' ll] eqn:Es; [discriminate|]. injection Q as ->.
          apply (rm_more E true e1 Hpl H1 Hjl Hr1 d b ll n Es B2). eapply (more_left E true e1 _ d b n); eauto. now rewrite Es.
        - exists true. destruct (undo_eq E true e1 Hpl H1 Hjl Hr1 He1 d dl (Some (RElem b)) Hd Q1) as [U _]; auto.
          intros l0 b0 n0 re Hin. apply Hsl. now right. }
      apply (Hgo true). rewrite rm_slash. unfold bind at 1, reading. unfold doc_root.
      rewrite (find_elems _ _ _ [] (upd_at b (set_attr q v) dl) (upd_at b (set_attr q v) dl) Hpl H1 Hjl Hr1 eq_refl).
      rewrite (sel_upd E (KAttr q)); auto.
      2:{ destruct (sel E (spine e1) dl); [discriminate|]. injection Hhd as ->. now left. }
      2:{ intros. apply sim_set_attr. }
      destruct (sel E (spine e1) dl) as [|b' ll]; [discriminate|]. injection Hhd as ->. cbn [head_ref app].
      unfold bind at 1. rewrite (rm_attr _ _ _ _ _ _ _ _ _ H3 Hks (get_upd_same _ _ _ _ B2)).
      rewrite attrs_set_attr by exact B3. rewrite attr_get_set, qeqb_refl.
      replace (upd_at b (del_attr q) (upd_at b (set_attr q v) dl)) with dl.
      2:{ symmetry. rewrite upd_upd_same. eapply upd_at_id; [exact B2|]. now apply del_set_new. }
      destruct Hrest as [t0 Hrest]. unfold bind. unfold doc_root in Hrest. rewrite Hrest. reflexivity.
    + cbn [last_step] in Hls. injection Hls as -> -> ->. cbn [route sel flat_map get_at] in Hnone. rewrite app_nil_r in Hnone. apply attr_items_nil in Hnone.
      unfold doc_root in Hb. destruct (attr_build _ _ _ _ _ _ _ Hos Hks _ _ _ _ Hb) as [-> ->].
      destruct (set_attr_in _ _ _ _ _ _ _ _ _ _ Hks Hm) as [-> Hv]. cbn [upd_at] in *.
      assert (Hd1 : set_attr q v (set_attr q [] d) = set_attr q v d) by (destruct d; [cbn; now rewrite attr_set_set|reflexivity]).
      rewrite Hd1 in *. apply (Hgo true). unfold doc_root.
      rewrite (rm_attr E ax t ps q false [] _ (set_attr q v d) Hos Hks eq_refl). rewrite attrs_set_attr by exact Hd. rewrite attr_get_set, qeqb_refl.
      cbn [upd_at]. now rewrite del_set_new.
Qed.
