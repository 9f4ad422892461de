(** What the predicates of a step build, and that deletion takes all of it away again (C20). *)
From Coq Require Import String Arith Lia Permutation.
From Verif Require Export FieldUndo FieldLost UndoSpec.
From Verif Require Import XPathEval FieldSpec DocSpec.

Opaque u.

(** ** the elements made for a path [l] ([mpath]: outermost element, address of the last one in it), for a step ([mstep1]) and for
    a list of predicates ([made]: the attributes and the children) *)
Section Chain.
Context (E : env).
Inductive mpath : expr -> node -> addr -> Prop :=
| ch_step ax t ps M : mstep1 (EStep ax t ps) M -> mpath (EStep ax t ps) M []
| ch_slash l ax t ps K b m M : mpath l K b -> get_at b K = Some m -> mstep1 (EStep ax t ps) M ->
    mpath (EBin l (u "/") (EStep ax t ps)) (upd_at b (append_kid M) K) (b ++ [length (kids_of m)])
with mstep1 : expr -> node -> Prop :=
| bare_i ax t ps q at_ txt ks : kind E (EStep ax t ps) = Some (KChild q) -> made ps at_ ks -> mstep1 (EStep ax t ps) (Elem q at_ txt ks)
with made : list expr -> list (qname * str) -> list (node * option str) -> Prop :=
| made_nil : made [] [] []
| made_attr ax t r q v ps at_ ks : kind E (EStep ax t []) = Some (KAttr q) -> vcmp (rvalue E r) v = true -> made ps at_ ks ->
    made (EBin (EStep ax t []) (u "=") r :: ps) ((q, v) :: at_) ks
| made_child l r K b m ps at_ ks : mpath l K b -> get_at b K = Some m -> vcmp (rvalue E r) (strval m) = true -> made ps at_ ks ->
    made (EBin l (u "=") r :: ps) at_ ((K, None) :: ks)
| made_below l ax t r K b m q v ps at_ ks : mpath l K b -> get_at b K = Some m -> kind E (EStep ax t []) = Some (KAttr q) -> vcmp (rvalue E r) v = true -> made ps at_ ks ->
    made (EBin (EBin l (u "/") (EStep ax t [])) (u "=") r :: ps) at_ ((upd_at b (set_attr q v) K, None) :: ks).

Scheme chain_m := Induction for mpath Sort Prop
with bare_m := Induction for mstep1 Sort Prop
with made_m := Induction for made Sort Prop.
Combined Scheme chain_mut from chain_m, bare_m, made_m.

Lemma bare_tag s M : mstep1 s M -> exists q, kind E s = Some (KChild q) /\ tag_of M = Some q.
Proof. intros [ax t ps q at_ txt ks Hk _]. exists q. auto. Qed.
Lemma bare_text s M v : mstep1 s M -> mstep1 s (set_text v M).
Proof. intros [ax t ps q at_ txt ks Hk Hm]. cbn. now constructor. Qed.

Lemma chain_leaf l K b : mpath l K b -> exists m s, get_at b K = Some m /\ last_step l = Some s /\ mstep1 s m /\ tag_of m <> None.
Proof.
  induction 1 as [ax t ps M HM|l0 ax t ps K0 b0 m M Hch IH Hg HM].
  - exists M, (EStep ax t ps). destruct (bare_tag _ _ HM) as (q & _ & Ht). cbn. split; [reflexivity|]. split; [reflexivity|]. split; [exact HM|congruence].
  - exists M, (EStep ax t ps). rewrite (last_preds_slash l0 _ ax t ps eq_refl). destruct IH as (m' & s & Hg' & _ & _ & Ht). rewrite Hg in Hg'. injection Hg' as <-.
    split; [|split; [reflexivity|split; [exact HM|destruct (bare_tag _ _ HM) as (q & _ & ->); discriminate]]].
    rewrite get_at_app, (get_upd_same _ _ _ _ Hg). now rewrite get_append.
Qed.

Lemma chain_text l K b v : mpath l K b -> mpath l (upd_at b (set_text v) K) b.
Proof.
  intros H. destruct H as [ax t ps M HM|l0 ax t ps K0 b0 m M Hch Hg HM].
  - cbn [upd_at]. constructor. now apply bare_text.
  - destruct (chain_leaf _ _ _ Hch) as (m' & s & Hg' & _ & _ & Ht). rewrite Hg in Hg'. injection Hg' as <-.
    replace (upd_at (b0 ++ [length (kids_of m)]) (set_text v) (upd_at b0 (append_kid M) K0)) with (upd_at b0 (append_kid (set_text v M)) K0).
    + constructor; auto. now apply bare_text.
    + rewrite upd_at_app, upd_upd_same. eapply upd_at_ext; [exact Hg|]. symmetry. apply (upd_append M m [] (set_text v) Ht).
Qed.

(** what predicates make is named after their first steps *)
Lemma chain_names :
  (forall l K b, mpath l K b -> exists q, fkind E l = Some (KChild q) /\ tag_of K = Some q) /\
  (forall s M, mstep1 s M -> exists q, kind E s = Some (KChild q) /\ tag_of M = Some q /\
     (forall k, In k (kids_of M) -> exists q p, In p (preds_of s) /\ tag_of (fst k) = Some q /\ fkind E p = Some (KChild q)) /\
     (forall x, In x (attrs_of M) -> exists p, In p (preds_of s) /\ fkind E p = Some (KAttr (fst x)))) /\
  (forall ps at_ ks, made ps at_ ks -> (forall k, In k ks -> exists q p, In p ps /\ tag_of (fst k) = Some q /\ fkind E p = Some (KChild q)) /\
     (forall x, In x at_ -> exists p, In p ps /\ fkind E p = Some (KAttr (fst x)))).
Proof.
  apply chain_mut.
  - intros ax t ps M HM (q & H1 & H2 & _). exists q. auto.
  - intros l ax t ps K b m M Hch (q & H1 & H2) Hg HM _. exists q. split; [exact H1|]. rewrite tag_upd_at; [exact H2|]. intros _. apply tag_append.
  - intros ax t ps q at_ txt ks Hk Hm [H1 H2]. exists q. cbn. auto.
  - split; intros x [].
  - intros ax t r q v ps at_ ks Hk Hv Hm [H1 H2]. split.
    + intros k Hkk. destruct (H1 k Hkk) as (q' & p & A & B). exists q', p. split; [now right|exact B].
    + intros x [<-|Hx]; [|destruct (H2 x Hx) as (p & A & B); exists p; split; [now right|exact B]].
      eexists. split; [now left|]. exact Hk.
  - intros l r K b m ps at_ ks Hch (q & Q1 & Q2) Hg Hv Hm [H1 H2]. split.
    + intros k [<-|Hkk]; [|destruct (H1 k Hkk) as (q' & p & A & B); exists q', p; split; [now right|exact B]].
      exists q. eexists. split; [now left|]. split; [exact Q2|exact Q1].
    + intros x Hx. destruct (H2 x Hx) as (p & A & B). exists p. split; [now right|exact B].
  - intros l ax t r K b m qa v ps at_ ks Hch (q & Q1 & Q2) Hg Hk Hv Hm [H1 H2]. split.
    + intros k [<-|Hkk]; [|destruct (H1 k Hkk) as (q' & p & A & B); exists q', p; split; [now right|exact B]].
      exists q. eexists. split; [now left|]. split; [cbn [fst]; rewrite tag_upd_at; [exact Q2|intros _; apply tag_set_attr]|exact Q1].
    + intros x Hx. destruct (H2 x Hx) as (p & A & B). exists p. split; [now right|exact B].
Qed.

Lemma bare_none s M r q : mstep1 s M -> kind E r = Some (KChild q) -> avoids E (preds_of s) (KChild q) = true -> sel E [r] M = [].
Proof.
  intros HM Hk Ha. destruct (proj1 (proj2 chain_names) s M HM) as (_ & _ & _ & L1 & L2). apply (leafy_none E (preds_of s) (set_text None (Elem (QN None []) (attrs_of M) None (map (fun k => (fst k, None)) (kids_of M)))) r q) in Ha; [|..|exact Hk].
  2:{ split; [|split; [|split]]; cbn.
      - intros k Hkk. apply in_map_iff in Hkk as (k0 & <- & Hkk). exact (L1 k0 Hkk).
      - exact L2.
      - reflexivity.
      - intros k Hkk. apply in_map_iff in Hkk as (k0 & <- & _). reflexivity. }
  cbn [set_text sel kids_of] in Ha. rewrite enum_map, flat_map_map in Ha. cbn [fst snd] in Ha. exact Ha.
Qed.
Lemma bare_no_attr s M q : mstep1 s M -> avoids E (preds_of s) (KAttr q) = true -> attr_get q (attrs_of M) = None.
Proof.
  intros HM Ha. destruct (proj1 (proj2 chain_names) s M HM) as (_ & _ & _ & _ & L2). destruct (attr_get q (attrs_of M)) as [w|] eqn:Ew; [exfalso|reflexivity].
  assert (Hin : In (q, w) (attrs_of M)).
  { clear - Ew. induction (attrs_of M) as [|[p x] l IH]; cbn in *; [discriminate|]. destruct (qeqb q p) eqn:Eq; [apply qeqb_eq in Eq; injection Ew as ->; subst; now left|right; auto]. }
  destruct (L2 _ Hin) as (p & P1 & P2). destruct (avoids_In _ _ _ _ Ha P1) as (k' & Hf' & Hne). cbn in P2. congruence.
Qed.

(** ** one child of a node, before and after a change inside it *)
Lemma swap_kid n i b f K tl : nth_error (kids_of n) i = Some (upd_at b f K, tl) ->
  exists n0, nth_error (kids_of n0) i = Some (K, tl) /\ n = upd_at (i :: b) f n0 /\ remove_kid i n0 = remove_kid i n /\ tag_of n0 = tag_of n /\ tag_of n <> None.
Proof.
  destruct n as [q at_ t ks|s]; [|destruct i; discriminate]. cbn [kids_of]. intros Hi. exists (Elem q at_ t (upd_nth i (fun k => (K, snd k)) ks)).
  cbn [kids_of tag_of]. split; [rewrite nth_upd_nth, Nat.eqb_refl, Hi; reflexivity|]. split; [|split; [|split; [reflexivity|discriminate]]].
  - cbn. f_equal. clear - Hi. revert i Hi. induction ks as [|k ks IH]; intros [|i] Hi; cbn in *; try discriminate; f_equal; auto. injection Hi as ->. reflexivity.
  - cbn. f_equal. apply remove_upd_nth.
Qed.

Lemma sel_hd_app ss s n b rest m i l : sel E ss n = b :: rest -> get_at b n = Some m -> sel E [s] m = [i] :: l -> exists r, sel E (ss ++ [s]) n = (b ++ [i]) :: r.
Proof. apply head_app. Qed.

(** chains are found, first of all when they come first *)
Definition found (l : expr) (K : node) (b : addr) : Prop := forall n i tl, nth_error (kids_of n) i = Some (K, tl) ->
  In (i :: b) (sel E (spine l) n) /\ (i = 0 -> exists rest, sel E (spine l) n = (0 :: b) :: rest).

Lemma chain_child l K b : mpath l K b -> ok E false l = true -> is_path l = true /\ is_KChild (lkind E l) = true.
Proof.
  intros Hc Ho. destruct Hc as [ax t ps M HM|l0 ax t ps K0 b0 m M Hch Hg HM].
  - split; [reflexivity|]. destruct (bare_tag _ _ HM) as (q & Hk & _). unfold lkind. cbn [last_step]. now rewrite Hk.
  - split; [cbn; apply str_eqb_refl|]. rewrite (lkind_slash E l0 _ _ _ _ eq_refl). destruct (bare_tag _ _ HM) as (q & -> & _). reflexivity.
Qed.

Lemma chain_found :
  (forall l K b, mpath l K b -> ok E false l = true -> found l K b) /\
  (forall s M, mstep1 s M -> ok E false s = true -> mstep E s M = true) /\
  (forall ps at_ ks, made ps at_ ks -> (forall p, In p ps -> ok E false p = true) -> forall n, tag_of n <> None ->
     (forall x, In x at_ -> In x (attrs_of n)) -> (forall k, In k ks -> In k (kids_of n)) -> forall p, In p ps -> hold E p n = true).
Proof.
  apply chain_mut.
  - intros ax t ps M HM IH Ho n i tl Hi. specialize (IH Ho). cbn [spine]. split.
    + cbn [sel]. apply in_flat_map. exists (i, (M, tl)). split; [apply In_enum; split; [lia|]; now rewrite Nat.sub_0_r|]. cbn [fst snd]. rewrite IH. now left.
    + intros ->. destruct (kids_of n) as [|k ks] eqn:Ek; [discriminate|]. cbn in Hi. injection Hi as ->. cbn [sel]. rewrite Ek. cbn [enum flat_map fst snd]. rewrite IH. cbn [map app]. eauto.
  - intros l ax t ps K b m M Hch IH Hg HM IHM Ho n i tl Hi. destruct (ok_slash _ _ _ _ Ho) as (H1 & _ & H3 & H4).
    destruct (bare_tag _ _ HM) as (q & Hk & HtM). specialize (IHM H3). specialize (IH H1).
    destruct (chain_leaf _ _ _ Hch) as (m' & s & Hg' & Hls & Hbs & Htm). rewrite Hg in Hg'. injection Hg' as <-.
    destruct (swap_kid n i b _ K tl Hi) as (n0 & Hi0 & -> & _ & _ & _). destruct (IH n0 i tl Hi0) as [F1 F2].
    pose proof (joins_path _ _ _ _ H4 H1) as Hpl. pose proof (joins_left _ _ _ _ H4 H1) as Hjl.
    pose proof (spine_ok _ _ _ Hpl H1 Hjl) as Hso. pose proof (spine_last _ _ _ _ _ H1 H4 Hk) as Hla.
    assert (Hgm : get_at (i :: b) n0 = Some m) by (cbn; now rewrite Hi0).
    assert (Hsel : sel E (spine l) (upd_at (i :: b) (append_kid M) n0) = sel E (spine l) n0).
    { apply (sel_upd E (KChild q)); auto. intros. now apply sim_append. }
    assert (Hnew : sel E [EStep ax t ps] (append_kid M m) = [[length (kids_of m)]]).
    { rewrite (sel_append E _ [] M m Htm), IHM. rewrite (bare_none s m _ q Hbs Hk); [reflexivity|].
      destruct (joins_preds _ _ _ _ H4 Hk) as [->|[Ha|(aa & ->)]]; [inversion Hch| |inversion Hch]. unfold last_preds in Ha. now rewrite Hls in Ha. }
    cbn [spine]. split.
    + rewrite sel_app, Hsel. apply in_flat_map. exists (i :: b). split; [exact F1|]. rewrite (get_upd_same _ _ _ _ Hgm), Hnew. now left.
    + intros ->. destruct (F2 eq_refl) as [rest Hr]. rewrite sel_app, Hsel, Hr. cbn [flat_map]. rewrite (get_upd_same _ _ _ _ Hgm), Hnew. cbn [map app]. eauto.
  - intros ax t ps q at_ txt ks Hk Hm IH Ho. unfold mstep. rewrite Hk. cbn [preds_of]. unfold has_tag. cbn [tag_of]. rewrite qeqb_refl. cbn [andb].
    apply forallb_forall. intros p Hp. apply IH; auto; [|discriminate]. intros p' Hp'. now destruct (ok_step_preds _ _ _ _ _ _ _ Ho Hk Hp').
  - intros _ n _ _ _ p [].
  - intros ax t r q v ps at_ ks Hk Hv Hm IH Ho n Hn Hat Hks p [<-|Hp].
    + destruct (ok_eq _ _ _ (Ho _ (or_introl eq_refl))) as (O1 & O2 & O3). rewrite hold_eq by assumption. apply existsb_exists. exists (IAttr [] q v). split; [|exact Hv].
      rewrite (cores_attr _ _ _ _ _ O2 Hk). apply in_flat_map. exists (q, v). cbn [fst snd]. rewrite qeqb_refl. split; [apply Hat; now left|now left].
    + apply IH; auto; intros; [apply Ho; now right|apply Hat; now right].
  - intros l r K b m ps at_ ks Hch IHc Hg Hv Hm IH Ho n Hn Hat Hks p [<-|Hp].
    + destruct (ok_eq _ _ _ (Ho _ (or_introl eq_refl))) as (O1 & O2 & O3). rewrite hold_eq by assumption. apply existsb_exists. exists (IElem [] m). split; [|exact Hv].
      destruct (In_nth_error _ _ (Hks (K, None) (or_introl eq_refl))) as [i Hi]. destruct (IHc O2 n i None Hi) as [F _].
      destruct (chain_child _ _ _ Hch O2) as [_ Hl]. eapply (core_in_sel E false l n (i :: b) m); auto. cbn. now rewrite Hi.
    + apply IH; auto; intros; [apply Ho; now right|apply Hks; now right].
  - intros l ax t r K b m q v ps at_ ks Hch IHc Hg Hk Hv Hm IH Ho n Hn Hat Hks p [<-|Hp].
    + destruct (ok_eq _ _ _ (Ho _ (or_introl eq_refl))) as (O1 & O2 & O3). rewrite hold_eq by assumption. apply existsb_exists. exists (IAttr [] q v). split; [|exact Hv].
      destruct (ok_slash _ _ _ _ O2) as (Q1 & _ & Q3 & Q4).
      destruct (In_nth_error _ _ (Hks _ (or_introl eq_refl))) as [i Hi]. destruct (swap_kid n i b _ K None Hi) as (n0 & Hi0 & -> & _ & _ & _).
      destruct (IHc Q1 n0 i None Hi0) as [F _]. destruct (chain_leaf _ _ _ Hch) as (m' & s & Hg' & Hls & Hbs & Htm). rewrite Hg in Hg'. injection Hg' as <-.
      assert (Hgm : get_at (i :: b) n0 = Some m) by (cbn; now rewrite Hi0).
      eapply (attr_in_cores E false l _ q _ (i :: b) (set_attr q v m)); eauto.
      * rewrite (sel_upd E (KAttr q)); [exact F| |eapply spine_last; eassumption|exact F|intros; apply sim_set_attr].
        eapply spine_ok; [eapply joins_path; eassumption|eassumption|eapply joins_left; eassumption].
      * now apply get_upd_same.
      * rewrite attrs_set_attr, attr_get_set, qeqb_refl by assumption. reflexivity.
    + apply IH; auto; intros; [apply Ho; now right|apply Hks; now right].
Qed.

(** ** and removed *)
Lemma kid_at i (b : addr) n k : nth_error (kids_of n) i = Some k -> get_at (i :: b) n = get_at b (fst k).
Proof. intros H. cbn [get_at]. now rewrite H. Qed.

Lemma chain_removed :
  (forall l K b, mpath l K b -> ok E false l = true -> rereadable l = true -> forall n tl, nth_error (kids_of n) 0 = Some (K, tl) -> tag_of n <> None ->
     remove_xml E l true (RElem []) n = (remove_kid 0 n, Ret true)) /\
  (forall s M, mstep1 s M -> ok E false s = true -> rereadable s = true -> exists M', iterM (clean1 E) (preds_of s) M = (M', Ret tt) /\ kids_of M' = [] /\ attrs_of M' = []) /\
  (forall ps at_ ks, made ps at_ ks -> (forall p, In p ps -> ok E false p = true /\ lkind E (path_of p) <> Some KText /\ rereadable p = true) -> forall q txt,
     iterM (clean1 E) ps (Elem q at_ txt ks) = (Elem q [] txt [], Ret tt)).
Proof.
  apply chain_mut.
  - intros ax t ps M HM IH Ho Hr n tl Hi Hn. specialize (IH Ho Hr). destruct (bare_tag _ _ HM) as (q & Hk & _).
    destruct (proj1 chain_found _ _ _ (ch_step ax t ps M HM) Ho n 0 tl Hi) as [_ F]. destruct (F eq_refl) as [rest Hs]. cbn [spine] in Hs.
    destruct (remove_xml E (EStep ax t ps) true (RElem []) n) as [d2 r2] eqn:Hrm.
    pose proof (rm_child_step _ _ _ _ _ _ [] _ _ _ _ Ho Hk Hr eq_refl Hrm) as R. rewrite Hs in R. destruct R as (i & k & [= <-] & Hi' & _ & R).
    rewrite Hi in Hi'. injection Hi' as <-. cbn [fst preds_of] in *. destruct IH as (M' & C1 & C2 & C3). destruct R as [(-> & Hne & _ & Hf & Hx)|(-> & -> & _)]; [|reflexivity].
    exfalso. destruct r2 as [[|]|x]; [congruence| |].
    + destruct (Hf eq_refl) as (K2 & D1 & D2). rewrite C1 in D1. injection D1 as <-. rewrite C2, C3 in D2. destruct D2; contradiction.
    + destruct (Hx x eq_refl) as (K2 & D1). congruence.
  - intros l ax t ps K b m M Hch IH Hg HM IHM Ho Hr n tl Hi Hn. destruct (ok_slash _ _ _ _ Ho) as (H1 & _ & H3 & H4). destruct (rereadable_bin _ _ _ Hr) as [Hr1 Hr2].
    destruct (bare_tag _ _ HM) as (q & Hk & HtM). pose proof (proj1 (proj2 chain_found) _ _ HM H3) as Hms.
    destruct (chain_leaf _ _ _ Hch) as (m' & s & Hg' & Hls & Hbs & Htm). rewrite Hg in Hg'. injection Hg' as <-.
    pose proof (joins_path _ _ _ _ H4 H1) as Hpl. pose proof (joins_left _ _ _ _ H4 H1) as Hjl.
    pose proof (spine_ok _ _ _ Hpl H1 Hjl) as Hso. pose proof (spine_last _ _ _ _ _ H1 H4 Hk) as Hla.
    destruct (swap_kid n 0 b _ K tl Hi) as (n0 & Hi0 & -> & Hrk & Htn & _). destruct (proj1 chain_found _ _ _ Hch H1 n0 0 tl Hi0) as [F1 F2].
    destruct (F2 eq_refl) as [rest Hs]. assert (Hgm : get_at (0 :: b) n0 = Some m) by (rewrite (kid_at _ _ _ _ Hi0); exact Hg).
    rewrite rm_slash. unfold bind at 1, reading. rewrite (find_elems _ _ _ [] (upd_at (0 :: b) (append_kid M) n0) (upd_at (0 :: b) (append_kid M) n0) Hpl H1 Hjl Hr1 eq_refl).
    rewrite (sel_upd E (KChild q)); auto; [|intros; now apply sim_append]. rewrite Hs. cbn [head_ref app].
    unfold bind at 1. rewrite (rm_added E ax t ps q true (0 :: b) n0 m M H3 Hk Hr2 Hgm Htm Hms); [| |intros _; exact (IHM H3 Hr2)].
    2:{ apply (bare_none s m _ q Hbs Hk). destruct (joins_preds _ _ _ _ H4 Hk) as [->|[Ha|(aa & ->)]]; [inversion Hch| |inversion Hch]. unfold last_preds in Ha. now rewrite Hls in Ha. }
    unfold bind. rewrite (IH H1 Hr1 n0 tl Hi0) by (rewrite Htn; exact Hn). cbv beta iota. unfold ret. now rewrite Hrk.
  - intros ax t ps q at_ txt ks Hk Hm IH Ho Hr. cbn [preds_of]. eexists. split; [apply IH|split; reflexivity]. intros p Hp. destruct (ok_step_preds _ _ _ _ _ _ _ Ho Hk Hp) as (O1 & O2 & _).
    split; [exact O1|]. split; [exact O2|]. eapply rereadable_pred; eassumption.
  - reflexivity.
  - intros ax t r q v ps at_ ks Hk Hv Hm IH Ho q0 txt. destruct (Ho _ (or_introl eq_refl)) as (O1 & O2 & O3). cbn [iterM]. unfold bind at 1.
    assert (Hh : hold E (EBin (EStep ax t []) (u "=") r) (Elem q0 ((q, v) :: at_) txt ks) = true).
    { apply (proj2 (proj2 chain_found) [EBin (EStep ax t []) (u "=") r] [(q, v)] []); [apply made_attr; [exact Hk|exact Hv|constructor]|intros p [<-|[]]; exact O1|discriminate|intros x [<-|[]]; now left|intros k []|now left]. }
    assert (D : ok E false (EStep ax t []) = true) by (now destruct (ok_eq _ _ _ O1) as (_ & D & _)).
    assert (Hc : clean1 E (EBin (EStep ax t []) (u "=") r) (Elem q0 ((q, v) :: at_) txt ks) = (Elem q0 at_ txt ks, Ret true)).
    { unfold clean1. rewrite str_eqb_refl, (ok_constructible _ _ O1 O2). cbn [andb]. unfold bind, reading. rewrite pred_true_hold by assumption. rewrite Hh.
      rewrite (rm_attr E ax t [] q true [] _ _ D Hk eq_refl). cbn [attrs_of attr_get]. rewrite qeqb_refl. cbn [upd_at del_attr attr_del]. now rewrite qeqb_refl. }
    rewrite Hc. apply IH. intros p Hp. apply Ho. now right.
  - intros l r K b m ps at_ ks Hch IHc Hg Hv Hm IH Ho q0 txt. destruct (Ho _ (or_introl eq_refl)) as (O1 & O2 & O3). cbn [iterM]. unfold bind at 1.
    destruct (ok_eq _ _ _ O1) as (_ & D & _). destruct (rereadable_bin _ _ _ O3) as [Hr1 _].
    assert (Hh : hold E (EBin l (u "=") r) (Elem q0 at_ txt ((K, None) :: ks)) = true).
    { apply (proj2 (proj2 chain_found) [EBin l (u "=") r] [] [(K, None)]); [eapply made_child; [exact Hch|exact Hg|exact Hv|constructor]|intros p [<-|[]]; exact O1|discriminate|intros x []|intros k [<-|[]]; now left|now left]. }
    assert (Hc : clean1 E (EBin l (u "=") r) (Elem q0 at_ txt ((K, None) :: ks)) = (Elem q0 at_ txt ks, Ret true)).
    { unfold clean1. rewrite str_eqb_refl, (ok_constructible _ _ O1 O2). cbn [andb]. unfold bind, reading. rewrite pred_true_hold by assumption. rewrite Hh.
      pose proof (IHc D Hr1 (Elem q0 at_ txt ((K, None) :: ks)) None eq_refl ltac:(discriminate)) as Hrm. destruct Hch; exact Hrm. }
    rewrite Hc. apply IH. intros p Hp. apply Ho. now right.
  - intros l ax t r K b m q v ps at_ ks Hch IHc Hg Hk Hv Hm IH Ho q0 txt. destruct (Ho _ (or_introl eq_refl)) as (O1 & O2 & O3). cbn [iterM]. unfold bind at 1.
    destruct (ok_eq _ _ _ O1) as (_ & D & _). destruct (rereadable_bin _ _ _ O3) as [Hr0 _]. destruct (rereadable_bin _ _ _ Hr0) as [Hr1 _]. destruct (ok_slash _ _ _ _ D) as (H1 & _ & H3 & H4).
    set (n := Elem q0 at_ txt ((upd_at b (set_attr q v) K, None) :: ks)).
    assert (Hh : hold E (EBin (EBin l (u "/") (EStep ax t [])) (u "=") r) n = true).
    { apply (proj2 (proj2 chain_found) [EBin (EBin l (u "/") (EStep ax t [])) (u "=") r] [] [(upd_at b (set_attr q v) K, None)]); [eapply made_below; [exact Hch|exact Hg|exact Hk|exact Hv|constructor]|intros p [<-|[]]; exact O1|discriminate|intros x []|intros k [<-|[]]; now left|now left]. }
    destruct (chain_leaf _ _ _ Hch) as (m' & s & Hg' & Hls & Hbs & Htm). rewrite Hg in Hg'. injection Hg' as <-.
    pose proof (joins_path _ _ _ _ H4 H1) as Hpl. pose proof (joins_left _ _ _ _ H4 H1) as Hjl.
    pose proof (spine_ok _ _ _ Hpl H1 Hjl) as Hso. pose proof (spine_last _ _ _ _ _ H1 H4 Hk) as Hla.
    destruct (swap_kid n 0 b _ K None eq_refl) as (n0 & Hi0 & Hn & Hrk & Htn & _). destruct (proj1 chain_found _ _ _ Hch H1 n0 0 None Hi0) as [F1 F2].
    destruct (F2 eq_refl) as [rest Hs]. assert (Hgm : get_at (0 :: b) n0 = Some m) by (rewrite (kid_at _ _ _ _ Hi0); exact Hg).
    assert (Hno : attr_get q (attrs_of m) = None).
    { apply (bare_no_attr s m q Hbs). destruct (joins_preds _ _ _ _ H4 Hk) as [->|[Ha|(aa & ->)]]; [inversion Hch| |inversion Hch]. unfold last_preds in Ha. now rewrite Hls in Ha. }
    assert (Hc : clean1 E (EBin (EBin l (u "/") (EStep ax t [])) (u "=") r) n = (Elem q0 at_ txt ks, Ret true)).
    { unfold clean1. rewrite str_eqb_refl, (ok_constructible _ _ O1 O2). cbn [andb]. unfold bind at 1, reading. rewrite pred_true_hold by assumption. rewrite Hh.
      rewrite rm_slash. unfold bind at 1, reading. rewrite Hn. rewrite (find_elems _ _ _ [] (upd_at (0 :: b) (set_attr q v) n0) (upd_at (0 :: b) (set_attr q v) n0) Hpl H1 Hjl Hr1 eq_refl).
      rewrite (sel_upd E (KAttr q)); auto; [|intros; apply sim_set_attr]. rewrite Hs. cbn [head_ref app].
      unfold bind at 1. rewrite (rm_attr _ _ _ _ _ _ _ _ _ H3 Hk (get_upd_same _ _ _ _ Hgm)). rewrite attrs_set_attr, attr_get_set, qeqb_refl by exact Htm.
      replace (upd_at (0 :: b) (del_attr q) (upd_at (0 :: b) (set_attr q v) n0)) with n0.
      2:{ symmetry. rewrite upd_upd_same. eapply upd_at_id; [exact Hgm|]. now apply del_set_new. }
      unfold bind. rewrite (IHc H1 Hr1 n0 None Hi0) by (rewrite Htn; discriminate). cbv beta iota. unfold ret. rewrite Hrk. reflexivity. }
    rewrite Hc. apply IH. intros p Hp. apply Ho. now right.
Qed.
End Chain.
