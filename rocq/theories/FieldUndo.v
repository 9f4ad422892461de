(** Setting a missing field and deleting it again (C20). *)
From Coq Require Import String Arith Lia.
From Verif Require Export FieldPrune.
From Verif Require Import XPathEval FieldSpec DocSpec.

Opaque u.

(** predicates of the form [@a = value] *)
Definition eq_attr_pred (E : env) (p : expr) : bool :=
  match p with EBin l op _ => str_eqb op (u "=") && match fkind E l with Some (KAttr _) => true | _ => false end | _ => false end.

Lemma eq_attr_only E ps : forallb (eq_attr_pred E) ps = true -> attr_only E ps = true.
Proof.
  intros H. unfold attr_only. rewrite forallb_forall in *. intros p Hp. apply H in Hp. unfold eq_attr_pred in Hp. destruct p; try discriminate.
  apply andb_prop in Hp as [_ Hp]. exact Hp.
Qed.

Lemma nodup_attr_set q v l : NoDup (map fst l) -> NoDup (map fst (attr_set q v l)).
Proof.
  assert (G : forall l, map fst (attr_set q v l) = map fst l \/ (map fst (attr_set q v l) = map fst l ++ [q] /\ ~ In q (map fst l))).
  { clear. induction l as [|[p w] l IH]; cbn; [right; auto|]. destruct (qeqb q p) eqn:Eq; cbn; [now left|]. apply qeqb_neq in Eq.
    destruct IH as [->|[-> H]]; [now left|right]. split; [reflexivity|]. intros [H'|H']; [congruence|contradiction]. }
  intros H. destruct (G l) as [->|[-> Hn]]; [exact H|]. apply NoDup_app'; [exact H|repeat constructor; auto|]. intros x Hx [<-|[]]. contradiction.
Qed.

Lemma In_attr_del_nodup q x l : NoDup (map fst l) -> In x (attr_del q l) -> In x l /\ fst x <> q.
Proof.
  induction l as [|[p w] l IH]; cbn; [contradiction|]. intros Hn. inversion Hn as [|? ? H1 H2]; subst. destruct (qeqb q p) eqn:Eq.
  - apply qeqb_eq in Eq. subst p. intros Hx. split; [now right|]. intros <-. apply H1. now apply in_map.
  - intros [<-|Hx]; [split; [now left|]; cbn; apply qeqb_neq in Eq; congruence|]. destruct (IH H2 Hx). auto.
Qed.
Lemma nodup_attr_del q l : NoDup (map fst l) -> NoDup (map fst (attr_del q l)).
Proof.
  induction l as [|[p w] l IH]; cbn; [auto|]. intros Hn. inversion Hn as [|? ? H1 H2]; subst. destruct (qeqb q p); [exact H2|]. cbn. constructor; auto.
  intros Hx. apply H1. clear - Hx. apply in_map_iff in Hx as ([p' w'] & <- & Hx). cbn. apply in_map_iff. exists (p', w'). split; [reflexivity|].
  clear - Hx. induction l as [|[a b] l IH]; cbn in *; [contradiction|]. destruct (qeqb q a); [now right|]. destruct Hx as [Hx|Hx]; [now left|right; auto].
Qed.

Lemma iter_nodup E ax t q all : ok E false (EStep ax t all) = true -> kind E (EStep ax t all) = Some (KChild q) -> forall ps, incl ps all -> forall a d K d' y,
  get_at a d = Some K -> tag_of K <> None -> NoDup (map fst (attrs_of K)) -> iterM (fun p => build E Construct p (Some (RElem a)) None) ps d = (d', Ret y) ->
  exists K', d' = upd_at a (fun _ => K') d /\ NoDup (map fst (attrs_of K')).
Proof.
  intros Hok Hk. induction ps as [|p ps IH]; intros Hin a d K d' y Hg Ht Hn Hi.
  - cbn in Hi. injection Hi as <- _. exists K. split; [|exact Hn]. symmetry. eapply upd_at_id; [exact Hg|reflexivity].
  - apply iterM_cons in Hi as (d1 & z & Hp & Hi). assert (Hpa : In p all) by (apply Hin; now left).
    destruct (ok_step_preds _ _ _ _ _ _ _ Hok Hk Hpa) as (O1 & O2 & O3). destruct (construct_ok E p) as [_ HP].
    destruct (HP O1 O2 a d K d1 z Hg Ht Hp) as (K1 & -> & _ & Hgr).
    assert (H1 : tag_of K1 <> None /\ NoDup (map fst (attrs_of K1))).
    { destruct Hgr as [(q1 & K2 & _ & _ & ->)|(q1 & v & _ & ->)]; [rewrite tag_append, attrs_append; auto|]. rewrite tag_set_attr, attrs_set_attr by exact Ht.
      split; [exact Ht|now apply nodup_attr_set]. }
    destruct (IH (fun p' H => Hin p' (or_intror H)) a _ K1 d' y (get_upd_same a (fun _ => K1) d K Hg) (proj1 H1) (proj2 H1) Hi) as (K' & -> & A).
    exists K'. split; [now rewrite upd_upd_same|exact A].
Qed.

Lemma step_nodup E m ax t ps q : ok E false (EStep ax t ps) = true -> kind E (EStep ax t ps) = Some (KChild q) -> forall a d n d' x, get_at a d = Some n -> tag_of n <> None ->
  build E m (EStep ax t ps) (Some (RElem a)) None d = (d', Ret x) -> forall K, get_at (a ++ [length (kids_of n)]) d' = Some K -> NoDup (map fst (attrs_of K)).
Proof.
  intros Hok Hk a d n d' x Hg Hn Hb K HK.
  destruct (kind_child _ _ _ _ _ Hk) as (p & nm & -> & Hax & _). destruct (child_ns_kind _ _ _ _ _ _ Hk) as (Hns & Hv & Hl).
  cbn [build] in Hb. destruct (forallb constructible ps); [|discriminate]. rewrite Hax in Hb.
  apply bind_ret in Hb as (d1 & r1 & Hc & Hb). unfold create_child in Hc. rewrite Hns, Hv in Hc. cbn [negb] in Hc. rewrite Hg in Hc.
  injection Hc as <- <-. apply bind_ret in Hb as (d2 & y & Hit & Hb). injection Hb as <- _.
  set (K0 := Elem (QN (q_ns q) nm) [] None []) in *. set (i := length (kids_of n)) in *.
  assert (Hg1 : get_at (a ++ [i]) (upd_at a (insert_kid i K0) d) = Some K0).
  { rewrite get_at_app, (get_upd_same _ _ _ _ Hg). destruct n as [q' ats t ks|s]; [|contradiction]. cbn [get_at insert_kid set_kids kids_of] in *.
    now rewrite nth_insert. }
  destruct (iter_nodup E ax _ q ps Hok Hk ps (incl_refl _) (a ++ [i]) _ K0 d2 y Hg1) as (K' & -> & A); [discriminate|constructor|exact Hit|].
  rewrite (get_upd_same _ _ _ _ Hg1) in HK. congruence.
Qed.

Lemma distinct_tail k l : distinct (k :: l) = true -> existsb (skind_eqb k) l = false /\ distinct l = true.
Proof. cbn [distinct]. intros H. apply andb_prop in H as [H1 H2]. apply negb_true_iff in H1. auto. Qed.

Lemma clean_eq E ax t q all : ok E false (EStep ax t all) = true -> kind E (EStep ax t all) = Some (KChild q) -> rereadable (EStep ax t all) = true ->
  forall ps, incl ps all -> distinct (flat_map (direct_attr E) ps) = true -> forallb (eq_attr_pred E) ps = true ->
  forall K, NoDup (map fst (attrs_of K)) -> forallb (fun p => hold E p K) ps = true ->
  exists K', iterM (clean1 E) ps K = (K', Ret tt) /\ kids_of K' = kids_of K /\
    forall x, In x (attrs_of K') -> In x (attrs_of K) /\ forall p, In p ps -> fkind E p <> Some (KAttr (fst x)).
Proof.
  intros Hok Hk Hr. induction ps as [|p ps IH]; intros Hin Hdi Heq K Hn Hh.
  - exists K. cbn. split; [reflexivity|]. split; [reflexivity|]. intros x Hx. split; [exact Hx|contradiction].
  - cbn [forallb] in Heq, Hh. apply andb_prop in Heq as [He1 He2]. apply andb_prop in Hh as [Hh1 Hh2].
    assert (Hpa : In p all) by (apply Hin; now left). destruct (ok_step_preds _ _ _ _ _ _ _ Hok Hk Hpa) as (O1 & O2 & O3).
    pose proof (rereadable_pred _ _ _ _ Hr Hpa) as Hrp.
    assert (Hf : exists qa, fkind E p = Some (KAttr qa)).
    { unfold eq_attr_pred in He1. destruct p; try discriminate. apply andb_prop in He1 as [_ He1]. unfold fkind in *. cbn [lead_step] in *.
      destruct (kind E (lead_step p1)) as [[|qa|]|]; try discriminate. eauto. }
    destruct Hf as [qa Hf]. destruct (attr_pred_form _ _ _ O1 Hf) as [[A _]|(ax' & t' & r & -> & B & C & D)]; [destruct p; discriminate|].
    assert (Hc : clean1 E (EBin (EStep ax' t' []) (u "=") r) K = (del_attr qa K, Ret true)).
    { unfold clean1. rewrite str_eqb_refl, (ok_constructible _ _ O1 O2). cbn [andb]. unfold bind, reading. rewrite pred_true_hold by assumption. rewrite Hh1.
      rewrite (rm_attr E ax' t' [] qa true [] K K D B eq_refl), (attr_get_items qa []).
      rewrite hold_eq in Hh1; auto. unfold cores in Hh1. rewrite (ev_attr_step _ _ _ _ _ _ D B) in Hh1. cbn [nodes_of] in Hh1.
      destruct (attr_items qa [] K) as [|i l] eqn:Ei; [discriminate|]. assert (Hi : In i (attr_items qa [] K)) by (rewrite Ei; now left).
      unfold attr_items in Hi. apply in_flat_map in Hi as ([q' w] & _ & Hi). cbn in Hi. destruct (qeqb q' qa); [|contradiction]. destruct Hi as [<-|[]]. reflexivity. }
    cbn [flat_map] in Hdi. unfold direct_attr at 1 in Hdi. rewrite Hf in Hdi. cbn [app] in Hdi. apply distinct_tail in Hdi as [Hd1 Hd2].
    assert (Hother : forall p', In p' ps -> fkind E p' <> Some (KAttr qa)).
    { intros p' Hp' Hf'. apply Bool.not_true_iff_false in Hd1. apply Hd1. apply existsb_exists. exists (KAttr qa). split; [|apply skind_eqb_refl].
      apply in_flat_map. exists p'. split; [exact Hp'|]. unfold direct_attr. rewrite Hf'. now left. }
    assert (Hn1 : NoDup (map fst (attrs_of (del_attr qa K)))) by (destruct K; [apply nodup_attr_del|]; exact Hn).
    assert (Hh3 : forallb (fun p => hold E p (del_attr qa K)) ps = true).
    { rewrite forallb_forall in *. intros p' Hp'. rewrite <- (Hh2 p' Hp'). symmetry. eapply hold_sim; [apply sim_del_attr|exact Hok|exact Hk|apply Hin; now right|]. now apply Hother. }
    destruct (IH (fun p' H => Hin p' (or_intror H)) Hd2 He2 (del_attr qa K) Hn1 Hh3) as (K' & I1 & I2 & I3).
    exists K'. cbn [iterM]. unfold bind. rewrite Hc. split; [exact I1|]. split; [rewrite I2; destruct K; reflexivity|].
    intros x Hx. destruct (I3 x Hx) as [J1 J2]. assert (J3 : In x (attrs_of K) /\ fst x <> qa) by (destruct K; [|contradiction]; now apply In_attr_del_nodup).
    split; [apply J3|]. intros p' [<-|Hp']; [rewrite Hf; intros [= H0]; destruct J3; congruence|auto].
Qed.

(** an element built for a step with such predicates is empty apart from them *)
Lemma built_clean E m ax t ps q : ok E false (EStep ax t ps) = true -> kind E (EStep ax t ps) = Some (KChild q) -> rereadable (EStep ax t ps) = true ->
  forallb (eq_attr_pred E) ps = true -> forall a d n d' x, get_at a d = Some n -> tag_of n <> None ->
  build E m (EStep ax t ps) (Some (RElem a)) None d = (d', Ret x) ->
  exists K, tag_of K = Some q /\ mstep E (EStep ax t ps) K = true /\ d' = upd_at a (append_kid K) d /\ x = Some (RElem (a ++ [length (kids_of n)])) /\ leafy E ps K /\
    exists K', iterM (clean1 E) ps K = (K', Ret tt) /\ kids_of K' = [] /\ attrs_of K' = [].
Proof.
  intros Hok Hk Hr Heq a d n d' x Hg Hn Hb.
  destruct (step_build E m ax t ps q None Hok Hk (preds_ok E ps) _ _ _ _ _ Hg Hn Hb) as (K & T1 & T2 & T3 & T4 & T5).
  cbn [ins_index] in T4, T5. rewrite (upd_at_ext _ _ (append_kid K) _ _ Hg (insert_at_end K n)) in T4.
  exists K. split; [exact T1|]. split; [exact T2|]. split; [exact T4|]. split; [exact T5|]. split; [exact T3|].
  assert (HgK : get_at (a ++ [length (kids_of n)]) d' = Some K).
  { rewrite T4, get_at_app, (get_upd_same _ _ _ _ Hg). now rewrite get_append. }
  pose proof (step_nodup E m ax t ps q Hok Hk a d n d' x Hg Hn Hb K HgK) as Hnd.
  assert (Hh : forallb (fun p => hold E p K) ps = true).
  { unfold mstep in T2. rewrite Hk in T2. apply andb_prop in T2 as [_ T2]. exact T2. }
  assert (Hdi : distinct (flat_map (direct_attr E) ps) = true).
  { pose proof Hok as Hok'. cbn [ok] in Hok'. rewrite Hk in Hok'. now apply andb_prop in Hok' as [_ Hok']. }
  destruct (clean_eq E ax t q ps Hok Hk Hr ps (incl_refl _) Hdi Heq K Hnd Hh) as (K' & C1 & C2 & C3).
  exists K'. split; [exact C1|]. split.
  - rewrite C2. apply (leafy_attr_only E ps K T3); [now apply eq_attr_only|congruence].
  - destruct (attrs_of K') as [|y l] eqn:Ea; [reflexivity|]. exfalso. destruct (C3 y (or_introl eq_refl)) as [J1 J2].
    destruct T3 as (_ & L2 & _). destruct (L2 y J1) as (p & P1 & P2). exact (J2 p P1 P2).
Qed.

(** removing the one child that was added *)
Lemma rm_added E ax t ps q ie b d n K : ok E false (EStep ax t ps) = true -> kind E (EStep ax t ps) = Some (KChild q) -> rereadable (EStep ax t ps) = true ->
  get_at b d = Some n -> tag_of n <> None -> mstep E (EStep ax t ps) K = true -> sel E [EStep ax t ps] n = [] ->
  (ie = true -> exists K', iterM (clean1 E) ps K = (K', Ret tt) /\ kids_of K' = [] /\ attrs_of K' = []) ->
  remove_xml E (EStep ax t ps) ie (RElem b) (upd_at b (append_kid K) d) = (d, Ret true).
Proof.
  intros Ho Hk Hr Hg Hn Hm Hs Hcl. destruct (remove_xml E (EStep ax t ps) ie (RElem b) (upd_at b (append_kid K) d)) as [d2 r2] eqn:Hrm.
  pose proof (rm_child_step _ _ _ _ _ _ _ _ _ _ _ Ho Hk Hr (get_upd_same _ _ _ _ Hg) Hrm) as R.
  rewrite (sel_append E _ [] K n Hn), Hs, Hm in R. cbn [sel map app] in R. destruct R as (i & k & Hi0 & Hi & _ & R).
  injection Hi0 as <-. rewrite kids_append, nth_error_app_len in Hi by exact Hn. injection Hi as <-. cbn [fst] in R.
  destruct R as [(-> & Hne & -> & Hf & Hx)|(-> & -> & _)].
  - exfalso. destruct (Hcl eq_refl) as (K' & C1 & C2 & C3). destruct r2 as [[|]|x]; [congruence| |].
    + destruct (Hf eq_refl) as (K2 & D1 & D2). rewrite C1 in D1. injection D1 as <-. rewrite C2, C3 in D2. destruct D2; contradiction.
    + destruct (Hx x eq_refl) as (K2 & D1). congruence.
  - f_equal. rewrite upd_upd_same. eapply upd_at_id; [exact Hg|]. now apply remove_append.
Qed.

(** the left part of a path is found or created *)
Lemma build_slash E dot l ax t ps : ok E dot (EBin l (u "/") (EStep ax t ps)) = true -> rereadable l = true ->
  forall d d' x, tag_of d <> None -> build E Create (EBin l (u "/") (EStep ax t ps)) (Some doc_root) None d = (d', Ret x) ->
  exists dl b n, build E Create (EStep ax t ps) (Some (RElem b)) None dl = (d', Ret x) /\ get_at b dl = Some n /\ tag_of n <> None /\
    ((dl = d /\ hd_error (sel E (spine l) d) = Some b) \/
     (sel E (spine l) d = [] /\ build E Create l (Some doc_root) None d = (dl, Ret (Some (RElem b))) /\ sel E (spine l) dl = [b] /\ leafy E (last_preds l) n)).
Proof.
  intros Ho Hr1 d d' x Hd Hb. destruct (ok_slash _ _ _ _ Ho) as (H1 & _ & H3 & H4).
  pose proof (joins_path _ _ _ _ H4 H1) as Hpl. pose proof (joins_left _ _ _ _ H4 H1) as Hjl. pose proof (spine_ok _ _ _ Hpl H1 Hjl) as Hso.
  change (build E Create (EBin l (u "/") (EStep ax t ps)) (Some doc_root) None d) with
      (if str_eqb (u "/") (u "/") then
        bind (reading (find_node E l (Some doc_root)))
          (fun ln => bind (match ln with Some _ => ret ln | None => build E Create l (Some doc_root) None end)
             (fun ln => build E Create (EStep ax t ps) ln None)) d
       else raise XMissing d) in Hb.
  rewrite str_eqb_refl in Hb. apply bind_ret in Hb as (d0 & fr & Hf & Hb). unfold reading in Hf.
  unfold doc_root in Hf. rewrite (find_elems _ _ _ [] d d Hpl H1 Hjl Hr1 eq_refl) in Hf. injection Hf as <- <-.
  apply bind_ret in Hb as (d1 & ln & Hln & Hb). exists d1.
  destruct (sel E (spine l) d) as [|b0 rest] eqn:Es; cbn [head_ref] in Hln.
  - destruct (create_spec E dot l Hpl H1 Hjl Hr1 d d1 ln Hd Es Hln) as (b0 & n0 & K & b1 & m & C1 & C2 & C3 & C4 & C5 & C6 & C7 & C8 & C9). subst ln.
    exists (b0 ++ length (kids_of n0) :: b1), m. split; [exact Hb|]. split; [rewrite C6, get_at_app, (get_upd_same _ _ _ _ C1), get_append; assumption|]. split; [exact C5|].
    right. auto.
  - injection Hln as <- <-. cbn [app] in Hb. destruct (In_sel_get E (spine l) d b0) as [n0 Hg]; [rewrite Es; now left|].
    exists b0, n0. split; [exact Hb|]. split; [exact Hg|]. split; [eapply sel_tag; try eassumption; rewrite Es; now left|]. left. auto.
Qed.


Lemma rm_solid E dot l : is_path l = true -> ok E dot l = true -> is_KChild (lkind E l) = true \/ lkind E l = None -> rereadable l = true ->
  forallb (fun s => forallb (eq_attr_pred E) (preds_of s)) (spine l) = true ->
  forall d b rest n, sel E (spine l) d = b :: rest -> get_at b d = Some n -> solid E l n -> remove_xml E l true doc_root d = (d, Ret false).
Proof.
  assert (HS : forall ax t ps q a d m i k l', ok E false (EStep ax t ps) = true -> kind E (EStep ax t ps) = Some (KChild q) -> rereadable (EStep ax t ps) = true ->
    forallb (eq_attr_pred E) ps = true -> get_at a d = Some m -> sel E [EStep ax t ps] m = [i] :: l' -> nth_error (kids_of m) i = Some k ->
    (kids_of (fst k) <> [] \/ exists x, In x (attrs_of (fst k)) /\ forall p, In p ps -> fkind E p <> Some (KAttr (fst x))) ->
    remove_xml E (EStep ax t ps) true (RElem a) d = (d, Ret false)).
  { intros ax t ps q a d m i k l' Ho Hk Hr Heq Hg Hs Hi Hsol. destruct (remove_xml E (EStep ax t ps) true (RElem a) d) as [d2 r2] eqn:Hrm.
    pose proof (rm_child_step _ _ _ _ _ _ _ _ _ _ _ Ho Hk Hr Hg Hrm) as R. rewrite Hs in R. destruct R as (i' & k' & Hi0 & Hi' & _ & R). injection Hi0 as <-.
    rewrite Hi in Hi'. injection Hi' as <-. destruct (clean_step E ax t ps q Ho Hk Hr (eq_attr_only _ _ Heq) (fst k)) as (K' & C1 & C2 & C3 & C4).
    destruct R as [(-> & Hne & _ & Hf & Hx)|(-> & -> & Hcl)].
    - destruct r2 as [[|]|x]; [congruence|reflexivity|]. destruct (Hx x eq_refl) as (K2 & D1). congruence.
    - exfalso. destruct (Hcl eq_refl) as (K2 & D1 & D2 & D3). rewrite C1 in D1. injection D1 as <-. destruct Hsol as [H|(x & X1 & X2)]; [congruence|].
      exact (C4 x X1 X2 D3). }
  intros Hp Ho Hl Hr Heq d b rest n Hs Hg Hsol. destruct l; cbn [is_path] in Hp; try discriminate.
  - apply str_eqb_eq in Hp. subst op. destruct (ok_slash _ _ _ _ Ho) as (H1 & (ax & t & ps & ->) & H3 & H4).
    rewrite (lkind_slash E l1 _ _ _ _ eq_refl) in Hl.
    destruct (kind E (EStep ax t ps)) as [[q|q|]|] eqn:Hk; try (destruct Hl; discriminate).
    2:{ cbn [ok] in H3. rewrite Hk in H3. discriminate. }
    destruct (rereadable_bin _ _ _ Hr) as [Hr1 Hr2]. pose proof (joins_path _ _ _ _ H4 H1) as Hpl. pose proof (joins_left _ _ _ _ H4 H1) as Hjl.
    rewrite rm_slash. unfold bind at 1, reading. unfold doc_root. rewrite (find_elems _ _ _ [] d d Hpl H1 Hjl Hr1 eq_refl).
    cbn [spine] in Hs, Heq. rewrite forallb_app in Heq. apply andb_prop in Heq as [_ Heq]. cbn [forallb preds_of] in Heq. rewrite andb_true_r in Heq.
    destruct (head_of_sel_app _ _ _ _ _ _ Hs) as (b' & ll & Es). rewrite Es. cbn [head_ref app].
    destruct (In_sel_get E (spine l1) d b') as [m Hgm]; [rewrite Es; now left|]. unfold bind.
    destruct (sel E [EStep ax t ps] m) as [|bi li] eqn:Esi.
    + destruct (remove_xml E (EStep ax t ps) true (RElem b') d) as [d1 r1] eqn:Hm1.
      pose proof (rm_child_step _ _ _ _ _ _ _ _ _ _ _ H3 Hk Hr2 Hgm Hm1) as R. rewrite Esi in R. destruct R as [-> ->]. reflexivity.
    + destruct (sel_single E (EStep ax t ps) m bi) as (i & k & -> & Hi & Hms); [rewrite Esi; now left|].
      pose proof (hd_child _ _ _ _ _ _ _ _ _ _ _ Es Hgm Esi Hs) as ->.
      rewrite get_at_app, Hgm in Hg. cbn in Hg. rewrite Hi in Hg. injection Hg as <-.
      rewrite (HS ax t ps q b' d m i k li H3 Hk Hr2 Heq Hgm Esi Hi); [reflexivity|].
      destruct Hsol as [H|[H|H]]; [cbn in H; rewrite str_eqb_refl in H; discriminate|now left|right].
      unfold end_preds in H. rewrite (last_preds_slash l1 _ ax t ps eq_refl) in H. exact H.
  - unfold lkind in Hl. cbn [last_step] in Hl. destruct (kind E (EStep axis node_test predicates)) as [[q|q|]|] eqn:Hk; try (destruct Hl; discriminate).
    2:{ cbn [ok] in Ho. rewrite Hk in Ho. discriminate. }
    cbn [spine forallb preds_of] in Hs, Heq. rewrite andb_true_r in Heq.
    destruct (sel_single E (EStep axis node_test predicates) d b) as (i & k & -> & Hi & Hms); [rewrite Hs; now left|].
    cbn in Hg. rewrite Hi in Hg. injection Hg as <-.
    apply (HS axis node_test predicates q [] d d i k rest Ho Hk Hr Heq eq_refl Hs Hi).
    destruct Hsol as [H|[H|H]]; [discriminate|now left|now right].
  - reflexivity.
Qed.


Lemma solid_left E dot l r d b n : ok E dot (EBin l (u "/") r) = true -> solid_lefts E (EBin l (u "/") r) d ->
  hd_error (sel E (spine l) d) = Some b -> get_at b d = Some n -> solid E l n.
Proof.
  intros Ho Hs Hh Hg. destruct (ok_slash _ _ _ _ Ho) as (H1 & _ & _ & H4). pose proof (joins_path _ _ _ _ H4 H1) as Hpl. pose proof (joins_left _ _ _ _ H4 H1) as Hjl.
  destruct (sel E (spine l) d) as [|b' ll] eqn:Es; [discriminate|]. injection Hh as ->.
  apply (Hs l b n (elems_at [] d ll)); [now left|]. rewrite (selects_elems _ _ _ _ Hpl H1 Hjl), Es. cbn. now rewrite Hg.
Qed.

Lemma sel_nil_child E ss s d b n : sel E (ss ++ [s]) d = [] -> In b (sel E ss d) -> get_at b d = Some n -> sel E [s] n = [].
Proof.
  intros Hn Hb Hg. rewrite sel_app in Hn. destruct (sel E [s] n) as [|c l] eqn:Ec; [reflexivity|]. exfalso.
  assert (Hx : In (b ++ c) (flat_map (fun b => match get_at b d with Some m => map (app b) (sel E [s] m) | None => [] end) (sel E ss d))).
  { apply in_flat_map. exists b. split; [assumption|]. rewrite Hg, Ec. now left. }
  rewrite Hn in Hx. contradiction.
Qed.

Lemma undo E dot l : is_path l = true -> ok E dot l = true -> is_KChild (lkind E l) = true \/ lkind E l = None -> rereadable l = true ->
  forallb (fun s => forallb (eq_attr_pred E) (preds_of s)) (spine l) = true ->
  forall d d1 x, tag_of d <> None -> sel E (spine l) d = [] -> solid_lefts E l d -> build E Create l (Some doc_root) None d = (d1, Ret x) ->
  remove_xml E l true doc_root d1 = (d, Ret true) /\
  forall w a, x = Some (RElem a) -> remove_xml E l false doc_root (upd_at a (set_text w) d1) = (d, Ret true).
Proof.
  induction l; cbn [is_path]; intros Hp; try discriminate; intros Ho Hl Hr Heq d d' x Hd Hnone Hsl Hb.
  - apply str_eqb_eq in Hp. subst op. destruct (ok_slash _ _ _ _ Ho) as (H1 & (ax & t & ps & ->) & H3 & H4).
    rewrite (lkind_slash E l1 _ _ _ _ eq_refl) in Hl.
    destruct (kind E (EStep ax t ps)) as [[q|q|]|] eqn:Hk; try (destruct Hl; discriminate).
    2:{ cbn [ok] in H3. rewrite Hk in H3. discriminate. }
    destruct (rereadable_bin _ _ _ Hr) as [Hr1 Hr2].
    pose proof (joins_path _ _ _ _ H4 H1) as Hpl. pose proof (joins_left _ _ _ _ H4 H1) as Hjl.
    pose proof (spine_ok _ _ _ Hpl H1 Hjl) as Hso. pose proof (spine_last _ _ _ _ _ H1 H4 Hk) as Hla.
    cbn [spine] in Heq, Hnone. rewrite forallb_app in Heq. apply andb_prop in Heq as [He1 He2]. cbn [forallb preds_of] in He2. rewrite andb_true_r in He2.
    destruct (build_slash _ _ _ _ _ _ Ho Hr1 _ _ _ Hd Hb) as (dl & b & n & B1 & B2 & B3 & B4).
    destruct (built_clean E Create ax t ps q H3 Hk Hr2 He2 b dl n d' x B2 B3 B1) as (K & K1 & K2 & K3 & K4 & K5 & K6).
    assert (Hdl : tag_of dl <> None).
    { destruct B4 as [[-> _]|(Q1 & Q2 & Q3 & Q4)]; [exact Hd|].
      destruct (create_spec E dot l1 Hpl H1 Hjl Hr1 d dl _ Hd Q1 Q2) as (b0 & n0 & K0 & b1 & m & C1 & C2 & C3 & C4 & C5 & C6 & _). rewrite C6.
      rewrite tag_upd_at; [exact Hd|]. intros _. apply tag_append. }
    assert (Hsn : sel E [EStep ax t ps] n = []).
    { destruct B4 as [[-> Q]|(Q1 & Q2 & Q3 & Q4)].
      - eapply sel_nil_child; [exact Hnone| |exact B2]. destruct (sel E (spine l1) d); [discriminate|]. injection Q as ->. now left.
      - apply (leafy_none E (last_preds l1) n _ q Q4 Hk).
        destruct (joins_preds _ _ _ _ H4 Hk) as [->|[Ha|(aa & ->)]]; [cbn in Q1; discriminate|exact Ha|cbn in Q1; discriminate]. }
    assert (Hhd : hd_error (sel E (spine l1) dl) = Some b).
    { destruct B4 as [[-> Q]|(Q1 & Q2 & Q3 & Q4)]; [exact Q|]. now rewrite Q3. }
    assert (Hrest : exists t0, remove_xml E l1 true doc_root dl = (d, Ret t0)).
    { destruct B4 as [[-> Q]|(Q1 & Q2 & Q3 & Q4)].
      - exists false. destruct (sel E (spine l1) d) as [|b' ll] eqn:Es; [discriminate|]. injection Q as ->.
        apply (rm_solid E dot l1 Hpl H1 Hjl Hr1 He1 d b ll n Es B2). eapply (solid_left E dot l1 (EStep ax t ps) d b n); eauto. now rewrite Es.
      - exists true. apply (IHl1 Hpl H1 Hjl Hr1 He1 d dl (Some (RElem b)) Hd Q1); [|exact Q2]. intros l0 b0 n0 re Hin. apply Hsl. now right. }
    assert (Hgo : forall ie K', tag_of K' = Some q -> mstep E (EStep ax t ps) K' = true ->
      (ie = true -> exists K0, iterM (clean1 E) ps K' = (K0, Ret tt) /\ kids_of K0 = [] /\ attrs_of K0 = []) ->
      remove_xml E (EBin l1 (u "/") (EStep ax t ps)) ie doc_root (upd_at b (append_kid K') dl) = (d, Ret true)).
    { intros ie K' HtK HmK HcK. rewrite rm_slash. unfold bind at 1, reading. unfold doc_root.
      rewrite (find_elems _ _ _ [] (upd_at b (append_kid K') dl) (upd_at b (append_kid K') dl) Hpl H1 Hjl Hr1 eq_refl).
      rewrite (sel_upd E (KChild q)); auto.
      2:{ destruct (sel E (spine l1) dl); [discriminate|]. injection Hhd as ->. now left. }
      2:{ intros. now apply sim_append. }
      destruct (sel E (spine l1) dl) as [|b' ll]; [discriminate|]. injection Hhd as ->. cbn [head_ref app].
      unfold bind at 1. rewrite (rm_added E ax t ps q ie b dl n K' H3 Hk Hr2 B2 B3 HmK Hsn HcK).
      destruct Hrest as [t0 Hrest]. unfold bind. unfold doc_root in Hrest. rewrite Hrest. reflexivity. }
    split.
    + rewrite K3. apply Hgo; auto.
    + intros w a Hx. rewrite K4 in Hx. injection Hx as <-. rewrite K3.
      replace (upd_at (b ++ [length (kids_of n)]) (set_text w) (upd_at b (append_kid K) dl)) with (upd_at b (append_kid (set_text w K)) dl).
      2:{ rewrite (upd_at_twice _ _ _ _ _ _ B2). rewrite upd_append by exact B3. cbn [upd_at]. now apply upd_at_const. }
      apply Hgo; [now rewrite tag_set_text| |discriminate].
      rewrite <- K2. symmetry. apply (mstep_sim E KText); [apply sim_set_text|exact H3|]. cbn [preds_of]. eapply preds_avoid_text; eassumption.
  - unfold lkind in Hl. cbn [last_step] in Hl. destruct (kind E (EStep axis node_test predicates)) as [[q|q|]|] eqn:Hk; try (destruct Hl; discriminate).
    2:{ cbn [ok] in Ho. rewrite Hk in Ho. discriminate. }
    cbn [spine forallb preds_of] in Hnone, Heq. rewrite andb_true_r in Heq.
    destruct (built_clean E Create axis node_test predicates q Ho Hk Hr Heq [] d d d' x eq_refl Hd Hb) as (K & K1 & K2 & K3 & K4 & K5 & K6).
    split.
    + rewrite K3. apply (rm_added E axis node_test predicates q true [] d d K Ho Hk Hr eq_refl Hd K2 Hnone). intros _. exact K6.
    + intros w a Hx. rewrite K4 in Hx. injection Hx as <-. rewrite K3.
      replace (upd_at [length (kids_of d)] (set_text w) (upd_at [] (append_kid K) d)) with (upd_at [] (append_kid (set_text w K)) d).
      2:{ cbn [upd_at]. symmetry. apply (upd_append K d [] (set_text w) Hd). }
      apply (rm_added E axis node_test predicates q false [] d d (set_text w K) Ho Hk Hr eq_refl Hd); [|exact Hnone|discriminate].
      rewrite <- K2. symmetry. apply (mstep_sim E KText); [apply sim_set_text|exact Ho|]. cbn [preds_of]. eapply preds_avoid_text; eassumption.
Qed.

(** ** C20 *)
Lemma attr_items_nil q a n : attr_items q a n = [] -> attr_get q (attrs_of n) = None.
Proof.
  unfold attr_items. induction (attrs_of n) as [|[p w] l IH]; cbn; [reflexivity|]. rewrite (qeqb_sym p q). destruct (qeqb q p); [discriminate|exact IH].
Qed.

Lemma del_set_new q v n : tag_of n <> None -> attr_get q (attrs_of n) = None -> del_attr q (set_attr q v n) = n.
Proof. destruct n; [|contradiction]. cbn. intros _ H. f_equal. now apply attr_del_set_new. Qed.

Lemma bind_ret_intro {A B} (m : M A) (f : A -> M B) d d1 x : m d = (d1, Ret x) -> bind m f d = f x d1.
Proof. intros H. unfold bind. now rewrite H. Qed.

Theorem set_delete E e v d d1 : supported_path E e = true -> tag_of d <> None -> lkind E e <> Some KText -> eq_attr_preds E e = true -> solid_lefts E e d ->
  selects E e d = [] -> mgr_set E e (Some v) d = (d1, Ret tt) -> mgr_delete E e d1 = (d, Ret tt).
Proof.
  intros Hsup Hd Hkt Heq Hsl Hnone Hm.
  assert (Hget : get_string E e d1 = Ret (Some v)) by (eapply set_get; try eassumption; rewrite Hnone; exact I).
  pose proof Hsup as Hsp. unfold supported_path in Hsp. apply andb_prop in Hsp as [Hsp Hr]. apply andb_prop in Hsp as [Hp Ho].
  assert (Hfind : exists r, find_ast E e doc_root d1 = Ret (Some r)).
  { rewrite (find_path _ _ _ _ Hp Ho). rewrite (get_string_path _ _ _ _ Hp Ho) in Hget. destruct (hd_error (selects E e d1)); [cbn; eauto|discriminate]. }
  assert (Hgo : forall t, remove_xml E e false doc_root d1 = (d, Ret t) -> mgr_delete E e d1 = (d, Ret tt)).
  { intros t Ht. unfold mgr_delete, bind, reading. destruct Hfind as [rr ->]. rewrite Ht. reflexivity. }
  unfold eq_attr_preds in Heq. rewrite spine_steps in Heq. change (forallb (fun s => forallb (eq_attr_pred E) (preds_of s)) (spine e) = true) in Heq.
  unfold mgr_set in Hm. apply bind_ret in Hm as (d0 & r & Hf & Hm). unfold reading in Hf. rewrite (find_path _ _ _ _ Hp Ho), Hnone in Hf.
  injection Hf as <- <-. cbn [hd_error option_map] in Hm. apply bind_ret in Hm as (dc & r & Hb & Hm).
  assert (Hcase : (is_KChild (lkind E e) = true \/ lkind E e = None) \/ exists q, lkind E e = Some (KAttr q)).
  { destruct (lkind E e) as [[q|q|]|]; auto; try congruence. right. eauto. }
  destruct Hcase as [Hl|(q & Hk)].
  - assert (Hs0 : sel E (spine e) d = []).
    { rewrite (selects_elems _ _ _ _ Hp Ho Hl) in Hnone. destruct (sel E (spine e) d) as [|b l] eqn:Es; [reflexivity|]. cbn in Hnone.
      destruct (In_sel_get E (spine e) d b) as [m Hg]; [rewrite Es; now left|]. rewrite Hg in Hnone. discriminate. }
    destruct (undo E true e Hp Ho Hl Hr Heq d dc r Hd Hs0 Hsl Hb) as [_ U].
    destruct (create_spec E true e Hp Ho Hl Hr d dc r Hd Hs0 Hb) as (b0 & n0 & K & b1 & m & C1 & C2 & C3 & C4 & C5 & C6 & C7 & C8 & C9). subst r.
    assert (Hg : get_at (b0 ++ length (kids_of n0) :: b1) dc = Some m) by (rewrite C6, get_at_app, (get_upd_same _ _ _ _ C1), get_append; assumption).
    destruct (set_elem_in _ _ _ _ _ _ _ _ Hg Hm) as (E1 & E2 & E3). subst d1. apply (Hgo true). now apply U.
  - destruct (lkind_last _ _ _ Hk) as (s & Hls & Hks). rewrite (terminal_last _ _ _ _ Hp Ho Hls) in Hm.
    assert (Hos : ok E false s = true).
    { destruct (kind_estep _ _ _ Hks) as (ax & t & ps & ->). destruct (last_step_ok _ _ _ _ Hp Ho Hls) as [H|H]; exact H. }
    destruct (kind_estep _ _ _ Hks) as (ax & t & ps & ->).
    unfold selects in Hnone. rewrite (ev_route _ _ _ _ _ _ Hp Ho Hk eq_refl) in Hnone. cbn [nodes_of app term_items] in Hnone.
    destruct e; cbn [is_path] in Hp; try discriminate.
    + apply str_eqb_eq in Hp. subst op. destruct (ok_slash _ _ _ _ Ho) as (H1 & (ax' & t' & ps' & ->) & H3 & H4).
      rewrite (last_preds_slash e1 _ ax' t' ps' eq_refl) in Hls. injection Hls as -> -> ->. cbn [route] in Hnone.
      destruct (rereadable_bin _ _ _ Hr) as [Hr1 Hr2].
      pose proof (joins_path _ _ _ _ H4 H1) as Hpl. pose proof (joins_left _ _ _ _ H4 H1) as Hjl.
      pose proof (spine_ok _ _ _ Hpl H1 Hjl) as Hso. pose proof (spine_last _ _ _ _ _ H1 H4 Hks) as Hla.
      cbn [spine] in Heq. rewrite forallb_app in Heq. apply andb_prop in Heq as [He1 _].
      destruct (build_slash _ _ _ _ _ _ Ho Hr1 _ _ _ Hd Hb) as (dl & b & n & B1 & B2 & B3 & B4).
      destruct (attr_build _ _ _ _ _ _ _ Hos Hks _ _ _ _ B1) as [-> ->].
      destruct (set_attr_in _ _ _ _ _ _ _ _ _ _ Hks Hm) as [-> Hv].
      assert (Hd1 : upd_at b (set_attr q v) (upd_at b (set_attr q []) dl) = upd_at b (set_attr q v) dl).
      { rewrite upd_upd_same. eapply upd_at_ext; [exact B2|]. destruct n as [qm ats tx ks|]; [|contradiction]. cbn. now rewrite attr_set_set. }
      rewrite Hd1 in Hfind, Hgo |- *.
      assert (Hno : attr_get q (attrs_of n) = None).
      { destruct B4 as [[-> Q]|(Q1 & Q2 & Q3 & Q4)].
        - destruct (sel E (spine e1) d) as [|b' ll] eqn:Es; [discriminate|]. injection Q as ->. cbn [flat_map] in Hnone. rewrite B2 in Hnone.
          apply app_eq_nil in Hnone as [Hnone _]. eapply attr_items_nil; exact Hnone.
        - destruct (attr_get q (attrs_of n)) as [w|] eqn:Ew; [exfalso|reflexivity]. destruct Q4 as (_ & L2 & _).
          assert (Hin : In (q, w) (attrs_of n)).
          { clear - Ew. induction (attrs_of n) as [|[p x] l IH]; cbn in *; [discriminate|]. destruct (qeqb q p) eqn:Eq; [apply qeqb_eq in Eq; injection Ew as ->; subst; now left|right; auto]. }
          destruct (L2 _ Hin) as (p & P1 & P2). cbn in P2.
          destruct (joins_preds _ _ _ _ H4 Hks) as [->|[Ha|(aa & ->)]]; [cbn in Q1; discriminate| |cbn in Q1; discriminate].
          destruct (avoids_In _ _ _ _ Ha P1) as (k' & Hf' & Hne). congruence. }
      assert (Hhd : hd_error (sel E (spine e1) dl) = Some b).
      { destruct B4 as [[-> Q]|(Q1 & Q2 & Q3 & Q4)]; [exact Q|]. now rewrite Q3. }
      assert (Hdl : tag_of dl <> None).
      { destruct B4 as [[-> _]|(Q1 & Q2 & Q3 & Q4)]; [exact Hd|].
        destruct (create_spec E true e1 Hpl H1 Hjl Hr1 d dl _ Hd Q1 Q2) as (b0 & n0 & K0 & b1 & m & C1 & C2 & C3 & C4 & C5 & C6 & _). rewrite C6.
        rewrite tag_upd_at; [exact Hd|]. intros _. apply tag_append. }
      assert (Hrest : exists t0, remove_xml E e1 true doc_root dl = (d, Ret t0)).
      { destruct B4 as [[-> Q]|(Q1 & Q2 & Q3 & Q4)].
        - exists false. destruct (sel E (spine e1) d) as [|b' ll] eqn:Es; [discriminate|]. injection Q as ->.
          apply (rm_solid E true e1 Hpl H1 Hjl Hr1 He1 d b ll n Es B2). eapply (solid_left E true e1 _ d b n); eauto. now rewrite Es.
        - exists true. destruct (undo E true e1 Hpl H1 Hjl Hr1 He1 d dl (Some (RElem b)) Hd Q1) as [U _]; auto.
          intros l0 b0 n0 re Hin. apply Hsl. now right. }
      apply (Hgo true). rewrite rm_slash. unfold bind at 1, reading. unfold doc_root.
      rewrite (find_elems _ _ _ [] (upd_at b (set_attr q v) dl) (upd_at b (set_attr q v) dl) Hpl H1 Hjl Hr1 eq_refl).
      rewrite (sel_upd E (KAttr q)); auto.
      2:{ destruct (sel E (spine e1) dl); [discriminate|]. injection Hhd as ->. now left. }
      2:{ intros. apply sim_set_attr. }
      destruct (sel E (spine e1) dl) as [|b' ll]; [discriminate|]. injection Hhd as ->. cbn [head_ref app].
      unfold bind at 1. rewrite (rm_attr _ _ _ _ _ _ _ _ _ H3 Hks (get_upd_same _ _ _ _ B2)).
      rewrite attrs_set_attr by exact B3. rewrite attr_get_set, qeqb_refl.
      replace (upd_at b (del_attr q) (upd_at b (set_attr q v) dl)) with dl.
      2:{ symmetry. rewrite upd_upd_same. eapply upd_at_id; [exact B2|]. now apply del_set_new. }
      destruct Hrest as [t0 Hrest]. unfold bind. unfold doc_root in Hrest. rewrite Hrest. reflexivity.
    + cbn [last_step] in Hls. injection Hls as -> -> ->. cbn [route sel flat_map get_at] in Hnone. rewrite app_nil_r in Hnone. apply attr_items_nil in Hnone.
      unfold doc_root in Hb. destruct (attr_build _ _ _ _ _ _ _ Hos Hks _ _ _ _ Hb) as [-> ->].
      destruct (set_attr_in _ _ _ _ _ _ _ _ _ _ Hks Hm) as [-> Hv]. cbn [upd_at] in *.
      assert (Hd1 : set_attr q v (set_attr q [] d) = set_attr q v d) by (destruct d; [cbn; now rewrite attr_set_set|reflexivity]).
      rewrite Hd1 in *. apply (Hgo true). unfold doc_root.
      rewrite (rm_attr E ax t ps q false [] _ (set_attr q v d) Hos Hks eq_refl). rewrite attrs_set_attr by exact Hd. rewrite attr_get_set, qeqb_refl.
      cbn [upd_at]. now rewrite del_set_new.
Qed.
