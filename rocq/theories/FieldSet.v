(** Setting a field of the supported class and reading it back. *)
From Coq Require Import String Arith.
From Verif Require Export FieldConstruct.
From Verif Require Import XPathEval FieldSpec.

Opaque u.

Lemma preds_ok E ps : Forall (P_pred E) ps.
Proof. apply Forall_forall. intros p _. apply construct_ok. Qed.

Lemma sel_tag E ss : forall d b m, steps_ok E ss -> tag_of d <> None -> In b (sel E ss d) -> get_at b d = Some m -> tag_of m <> None.
Proof.
  induction ss as [|s ss IH]; intros d b m Hs Hd Hb Hg.
  - cbn in Hb. destruct Hb as [<-|[]]. cbn in Hg. congruence.
  - destruct (In_sel_cons _ _ _ _ _ Hb) as (i & k & b' & -> & Hi & Hm & Hb'). cbn in Hg. rewrite Hi in Hg.
    destruct Hs as (_ & (q & Hq) & _ & Hs). apply (IH (fst k) b' m); auto. rewrite (mstep_tag _ _ _ _ Hq Hm). discriminate.
Qed.

(** creating [r] below the first match of [ss] gives exactly one match of [ss/r] *)
Lemma sel_create E ss r q K b0 n0 d : steps_ok E ss -> last_avoids E ss (KChild q) -> tag_of K = Some q -> mstep E r K = true ->
  In b0 (sel E ss d) -> get_at b0 d = Some n0 -> tag_of n0 <> None -> sel E (ss ++ [r]) d = [] ->
  sel E (ss ++ [r]) (upd_at b0 (append_kid K) d) = [b0 ++ [length (kids_of n0)]].
Proof.
  intros Hs Hl HK Hm Hb Hg Ht Hnone. rewrite sel_app. rewrite (sel_upd E (KChild q)); auto; [|intros; now apply sim_append].
  rewrite sel_app in Hnone.
  assert (Hz : forall b m, In b (sel E ss d) -> get_at b d = Some m -> sel E [r] m = []).
  { intros b m Hbi Hbg. destruct (sel E [r] m) as [|c l] eqn:Ec; [reflexivity|]. exfalso.
    assert (Hx : In (b ++ c) (flat_map (fun b => match get_at b d with Some m => map (app b) (sel E [r] m) | None => [] end) (sel E ss d))).
    { apply in_flat_map. exists b. split; [assumption|]. rewrite Hbg, Ec. now left. }
    rewrite Hnone in Hx. contradiction. }
  pose proof (sel_NoDup E ss d) as Hnd. apply in_split in Hb as (l1 & l2 & Heq). rewrite Heq in *.
  assert (Hlen : forall b, In b (l1 ++ b0 :: l2) -> length b = length ss) by (intros b Hbi; apply (sel_length E ss d); now rewrite Heq).
  rewrite flat_map_app. cbn [flat_map]. rewrite (get_upd_same _ _ _ _ Hg). rewrite (sel_append E r [] K n0 Ht), Hm.
  rewrite (Hz b0 n0) by (try assumption; apply in_or_app; right; now left).
  assert (Hother : forall l, (forall b, In b l -> In b (l1 ++ b0 :: l2) /\ b <> b0) ->
    flat_map (fun b => match get_at b (upd_at b0 (append_kid K) d) with Some m => map (app b) (sel E [r] m) | None => [] end) l = []).
  { induction l as [|b l IH]; intros Hb; [reflexivity|]. cbn [flat_map]. rewrite IH by (intros; apply Hb; now right). rewrite app_nil_r.
    destruct (Hb b (or_introl eq_refl)) as [B1 B2]. rewrite get_upd_other; [|rewrite !Hlen; auto; apply in_or_app; right; now left|congruence].
    destruct (get_at b d) as [m|] eqn:Em; [|reflexivity]. now rewrite (Hz b m). }
  rewrite Hother, Hother; [reflexivity| |].
  - intros b Hbi. split; [apply in_or_app; right; now right|]. intros ->. apply NoDup_remove_2 in Hnd. apply Hnd. apply in_or_app. now right.
  - intros b Hbi. split; [apply in_or_app; now left|]. intros ->. apply NoDup_remove_2 in Hnd. apply Hnd. apply in_or_app. now left.
Qed.

Lemma leafy_none E ps m s q : leafy E ps m -> kind E s = Some (KChild q) -> avoids E ps (KChild q) = true -> sel E [s] m = [].
Proof.
  intros (L1 & _) Hk Ha. cbn [sel]. assert (G : forall l i, (forall k, In k l -> In k (kids_of m)) ->
    flat_map (fun x : nat * (node * option str) => if mstep E s (fst (snd x)) then map (cons (fst x)) [[]] else []) (enum i l) = []).
  { induction l as [|k l IH]; intros i Hi; [reflexivity|]. cbn [enum flat_map fst snd]. rewrite IH by (intros; apply Hi; now right).
    destruct (mstep E s (fst k)) eqn:Em; [|reflexivity]. exfalso. pose proof (mstep_tag _ _ _ _ Hk Em) as Ht.
    destruct (L1 k (Hi k (or_introl eq_refl))) as (q' & p & Hp & Ht' & Hf). rewrite Ht in Ht'. injection Ht' as <-.
    destruct (avoids_In _ _ _ _ Ha Hp) as (k' & Hf' & Hne). congruence. }
  apply G. auto.
Qed.

(** the outcome of creating a missing element path: one new child below the first match of the longest
    existing prefix *)
Definition created (E : env) (l : expr) (d d' : node) (x : option ref) (b0 : addr) (n0 K : node) (b1 : addr) (m : node) : Prop :=
  get_at b0 d = Some n0 /\ tag_of n0 <> None /\ tag_of K <> None /\ get_at b1 K = Some m /\ tag_of m <> None /\
  d' = upd_at b0 (append_kid K) d /\ x = Some (RElem (b0 ++ length (kids_of n0) :: b1)) /\
  leafy E (last_preds l) m /\ sel E (spine l) d' = [b0 ++ length (kids_of n0) :: b1].

Lemma joins_preds E l r k : joins E l r = true -> kind E r = Some k -> l = EAbbrev (u ".") \/ avoids E (last_preds l) k = true \/ exists a, l = EAbbrev a.
Proof.
  intros Hj Hk. unfold joins in Hj. destruct l; try (cbn in Hj; discriminate); [| |right; right; eauto].
  - right. left. unfold last_preds. destruct (last_step (EBin l1 op l2)); [|discriminate]. rewrite Hk in Hj. now apply andb_prop in Hj.
  - right. left. unfold last_preds. destruct (last_step _); [|discriminate]. rewrite Hk in Hj. now apply andb_prop in Hj.
Qed.

Lemma create_spec E dot l : is_path l = true -> ok E dot l = true -> is_KChild (lkind E l) = true \/ lkind E l = None -> rereadable l = true ->
  forall d d' x, tag_of d <> None -> sel E (spine l) d = [] -> build E Create l (Some doc_root) None d = (d', Ret x) ->
  exists b0 n0 K b1 m, created E l d d' x b0 n0 K b1 m.
Proof.
  induction l; cbn [is_path]; intros Hp; try discriminate; intros Ho Hl Hr d d' x Hd Hnone Hb.
  - apply str_eqb_eq in Hp. subst op. destruct (ok_slash _ _ _ _ Ho) as (H1 & (ax & t & ps & ->) & H3 & H4).
    rewrite (lkind_slash E l1 _ _ _ _ eq_refl) in Hl.
    destruct (kind E (EStep ax t ps)) as [[q|q|]|] eqn:Hk; try (destruct Hl; discriminate).
    2:{ cbn [ok] in H3. rewrite Hk in H3. discriminate. }
    destruct (rereadable_bin _ _ _ Hr) as [Hr1 _].
    pose proof (joins_path _ _ _ _ H4 H1) as Hpl. pose proof (joins_left _ _ _ _ H4 H1) as Hjl.
    pose proof (spine_ok _ _ _ Hpl H1 Hjl) as Hso. pose proof (spine_last _ _ _ _ _ H1 H4 Hk) as Hla.
    change (build E Create (EBin l1 (u "/") (EStep ax t ps)) (Some doc_root) None d) with
      (if str_eqb (u "/") (u "/") then
        bind (reading (find_node E l1 (Some doc_root)))
          (fun ln => bind (match ln with Some _ => ret ln | None => build E Create l1 (Some doc_root) None end)
             (fun ln => build E Create (EStep ax t ps) ln None)) d
       else raise XMissing d) in Hb.
    rewrite str_eqb_refl in Hb. apply bind_ret in Hb as (d0 & fr & Hf & Hb). unfold reading in Hf.
    unfold doc_root in Hf. rewrite (find_elems _ _ _ [] d d Hpl H1 Hjl Hr1 eq_refl) in Hf. injection Hf as <- <-.
    apply bind_ret in Hb as (d1 & ln & Hln & Hb). cbn [spine] in Hnone.
    destruct (sel E (spine l1) d) as [|b0 rest] eqn:Es; cbn [head_ref] in Hln.
    + (* left part created too *)
      destruct (IHl1 Hpl H1 Hjl Hr1 d d1 ln Hd Es Hln) as (b0 & n0 & K & b1 & m & C1 & C2 & C3 & C4 & C5 & C6 & C7 & C8 & C9).
      subst ln d1.
      assert (Hg : get_at (b0 ++ length (kids_of n0) :: b1) (upd_at b0 (append_kid K) d) = Some m).
      { rewrite get_at_app, (get_upd_same _ _ _ _ C1), get_append; assumption. }
      destruct (step_build E Create ax t ps q None H3 Hk (preds_ok E ps) _ _ _ _ _ Hg C5 Hb) as (K2 & T1 & T2 & T3 & T4 & T5).
      cbn [ins_index] in T4, T5. rewrite (upd_at_ext _ _ (append_kid K2) _ _ Hg (insert_at_end K2 m)) in T4.
      exists b0, n0, (upd_at b1 (append_kid K2) K), (b1 ++ [length (kids_of m)]), K2.
      assert (HE : d' = upd_at b0 (append_kid (upd_at b1 (append_kid K2) K)) d).
      { rewrite T4, (upd_at_twice _ _ _ _ _ _ C1), upd_append by assumption. symmetry. now apply upd_at_const. }
      assert (HL : leafy E (last_preds (EBin l1 (u "/") (EStep ax t ps))) K2) by (unfold last_preds; rewrite (last_preds_slash l1 _ ax t ps eq_refl); exact T3).
      unfold created. repeat match goal with |- _ /\ _ => split end; auto.
      * rewrite tag_upd_at; [assumption|]. intros _. apply tag_append.
      * rewrite get_at_app, (get_upd_same _ _ _ _ C4). apply get_append. assumption.
      * congruence.
      * rewrite T5. do 2 f_equal. now rewrite <- app_assoc.
      * cbn [spine]. rewrite T4. rewrite (sel_create E (spine l1) (EStep ax t ps) q K2 _ m); auto.
        -- now rewrite <- app_assoc.
        -- rewrite C9. now left.
        -- rewrite sel_app, C9. cbn [flat_map]. rewrite Hg. rewrite (leafy_none E (last_preds l1) m _ q C8 Hk); [reflexivity|].
           destruct (joins_preds _ _ _ _ H4 Hk) as [->|[Ha|(aa & ->)]]; [cbn in Es; discriminate|exact Ha|cbn in Es; discriminate].
    + (* left part found *)
      injection Hln as <- <-. cbn [app] in Hb.
      destruct (In_sel_get E (spine l1) d b0) as [n0 Hg]; [rewrite Es; now left|].
      assert (Ht : tag_of n0 <> None) by (eapply sel_tag; try eassumption; rewrite Es; now left).
      destruct (step_build E Create ax t ps q None H3 Hk (preds_ok E ps) _ _ _ _ _ Hg Ht Hb) as (K2 & T1 & T2 & T3 & T4 & T5).
      cbn [ins_index] in T4, T5. rewrite (upd_at_ext _ _ (append_kid K2) _ _ Hg (insert_at_end K2 n0)) in T4.
      assert (HL : leafy E (last_preds (EBin l1 (u "/") (EStep ax t ps))) K2) by (unfold last_preds; rewrite (last_preds_slash l1 _ ax t ps eq_refl); exact T3).
      exists b0, n0, K2, [], K2. unfold created. repeat match goal with |- _ /\ _ => split end; auto; try congruence.
      * cbn [spine]. rewrite T4. apply (sel_create E (spine l1) (EStep ax t ps) q K2 _ n0); auto. rewrite Es. now left.
  - (* single step *)
    unfold lkind in Hl. cbn [last_step] in Hl.
    destruct (kind E (EStep axis node_test predicates)) as [[q|q|]|] eqn:Hk; try (destruct Hl; discriminate).
    2:{ cbn [ok] in Ho. rewrite Hk in Ho. discriminate. }
    destruct (step_build E Create axis node_test predicates q None Ho Hk (preds_ok E predicates) [] d d d' x eq_refl Hd Hb) as (K2 & T1 & T2 & T3 & T4 & T5).
    cbn [ins_index] in T4, T5. rewrite (upd_at_ext [] _ (append_kid K2) d d eq_refl (insert_at_end K2 d)) in T4.
    exists [], d, K2, [], K2. unfold created. repeat split; auto; try congruence; try apply T3.
    cbn [spine] in *. rewrite T4. apply (sel_create E [] (EStep axis node_test predicates) q K2 [] d); auto; cbn; auto.
Qed.

(** ** fields ending in an attribute or text() *)
Definition route (e : expr) : list expr := match e with EBin l _ _ => spine l | _ => [] end.

Lemma ev_route E dot e k a n : is_path e = true -> ok E dot e = true -> lkind E e = Some k -> is_KChild (Some k) = false ->
  ev E e (IElem a n) = XN (flat_map (fun b => match get_at b n with Some m => term_items k (a ++ b) m | None => [] end) (sel E (route e) n)).
Proof.
  intros Hp Ho Hk Hc. destruct e; cbn [is_path] in Hp; try discriminate.
  - apply str_eqb_eq in Hp. subst op. destruct (ok_slash _ _ _ _ Ho) as (H1 & (ax & t & ps & ->) & H3 & H4).
    rewrite (lkind_slash E e1 _ _ _ _ eq_refl) in Hk. exact (ev_term _ _ _ _ _ _ _ Ho Hk Hc).
  - unfold lkind in Hk. cbn [last_step] in Hk. cbn [route sel flat_map get_at]. rewrite app_nil_r, app_nil_r.
    destruct k as [q|q|]; [discriminate| |].
    + exact (ev_attr_step _ _ _ _ _ _ Ho Hk).
    + exact (ev_text_step _ _ _ _ _ Ho Hk).
Qed.

Lemma route_ok E dot e k : is_path e = true -> ok E dot e = true -> lkind E e = Some k ->
  steps_ok E (route e) /\ last_avoids E (route e) k.
Proof.
  intros Hp Ho Hk. destruct e; cbn [is_path] in Hp; try discriminate; cbn [route]; try (split; exact I).
  apply str_eqb_eq in Hp. subst op. destruct (ok_slash _ _ _ _ Ho) as (H1 & (ax & t & ps & ->) & H3 & H4).
  rewrite (lkind_slash E e1 _ _ _ _ eq_refl) in Hk. split.
  - eapply spine_ok; [eapply joins_path; eassumption|eassumption|eapply joins_left; eassumption].
  - eapply spine_last; eassumption.
Qed.

(** the parent element, found or created *)
Lemma parent_ready E dot e k : is_path e = true -> ok E dot e = true -> lkind E e = Some k -> is_KChild (Some k) = false -> rereadable e = true ->
  forall d d' x, tag_of d <> None -> build E Create e (Some doc_root) None d = (d', Ret x) ->
  exists d1 b m s, last_step e = Some s /\ build E Create s (Some (RElem b)) None d1 = (d', Ret x) /\ get_at b d1 = Some m /\ tag_of m <> None /\ In b (sel E (route e) d1) /\
    ((d1 = d /\ hd_error (sel E (route e) d) = Some b) \/
     (sel E (route e) d = [] /\ sel E (route e) d1 = [b] /\ (forall a, term_items k a m = []) /\
      exists b0 n0 K b1, get_at b0 d = Some n0 /\ tag_of n0 <> None /\ d1 = upd_at b0 (append_kid K) d /\ b = b0 ++ length (kids_of n0) :: b1 /\ get_at b1 K = Some m /\ text_of m = None)).
Proof.
  intros Hp Ho Hk Hc Hr d d' x Hd Hb. destruct e; cbn [is_path] in Hp; try discriminate.
  - apply str_eqb_eq in Hp. subst op. destruct (ok_slash _ _ _ _ Ho) as (H1 & (ax & t & ps & ->) & H3 & H4).
    rewrite (lkind_slash E e1 _ _ _ _ eq_refl) in Hk. cbn [route].
    destruct (rereadable_bin _ _ _ Hr) as [Hr1 _].
    pose proof (joins_path _ _ _ _ H4 H1) as Hpl. pose proof (joins_left _ _ _ _ H4 H1) as Hjl.
    pose proof (spine_ok _ _ _ Hpl H1 Hjl) as Hso.
    change (build E Create (EBin e1 (u "/") (EStep ax t ps)) (Some doc_root) None d) with
      (if str_eqb (u "/") (u "/") then
        bind (reading (find_node E e1 (Some doc_root)))
          (fun ln => bind (match ln with Some _ => ret ln | None => build E Create e1 (Some doc_root) None end)
             (fun ln => build E Create (EStep ax t ps) ln None)) d
       else raise XMissing d) in Hb.
    rewrite str_eqb_refl in Hb. apply bind_ret in Hb as (d0 & fr & Hf & Hb). unfold reading in Hf.
    unfold doc_root in Hf. rewrite (find_elems _ _ _ [] d d Hpl H1 Hjl Hr1 eq_refl) in Hf. injection Hf as <- <-.
    apply bind_ret in Hb as (d1 & ln & Hln & Hb). exists d1.
    destruct (sel E (spine e1) d) as [|b0 rest] eqn:Es; cbn [head_ref] in Hln.
    + destruct (create_spec E dot e1 Hpl H1 Hjl Hr1 d d1 ln Hd Es Hln) as (b0 & n0 & K & b1 & m & C1 & C2 & C3 & C4 & C5 & C6 & C7 & C8 & C9).
      exists (b0 ++ length (kids_of n0) :: b1), m, (EStep ax t ps). subst ln.
      repeat split; auto.
      * rewrite C6, get_at_app, (get_upd_same _ _ _ _ C1), get_append; assumption.
      * rewrite C9. now left.
      * right. split; [reflexivity|]. split; [assumption|]. split; [|exists b0, n0, K, b1; repeat split; auto; apply C8].
        intros a. destruct k as [q|q|]; [discriminate| |].
        -- cbn [term_items]. unfold attr_items. destruct C8 as (_ & L2 & _).
           assert (Ha : avoids E (last_preds e1) (KAttr q) = true).
           { destruct (joins_preds _ _ _ _ H4 Hk) as [->|[Ha|(aa & ->)]]; [cbn in Es; discriminate|exact Ha|cbn in Es; discriminate]. }
           assert (G : forall l, (forall x0, In x0 l -> In x0 (attrs_of m)) -> flat_map (fun x0 : qname * str => if qeqb (fst x0) q then [IAttr a (fst x0) (snd x0)] else []) l = []).
           { induction l as [|y l IH]; intros Hi; [reflexivity|]. cbn [flat_map]. rewrite IH by (intros; apply Hi; now right).
             destruct (qeqb (fst y) q) eqn:Eq; [|reflexivity]. exfalso. apply qeqb_eq in Eq.
             destruct (L2 y (Hi y (or_introl eq_refl))) as (p & Hpin & Hf). destruct (avoids_In _ _ _ _ Ha Hpin) as (k' & Hf' & Hne). congruence. }
           apply G. auto.
        -- cbn [term_items]. destruct m as [qm ats tx ks|sm]; [|contradiction]. cbn [text_items]. destruct C8 as (_ & _ & L3 & L4). cbn in L3, L4. subst tx. cbn [app].
           assert (G : forall l i, (forall x0, In x0 l -> In x0 ks) -> flat_map (fun x0 : nat * (node * option str) =>
              match snd (snd x0) with Some s => [IText (a ++ [fst x0]) true s] | None => [] end) (enum i l) = []).
           { induction l as [|y l IH]; intros i Hi; [reflexivity|]. cbn [enum flat_map fst snd]. rewrite IH by (intros; apply Hi; now right).
             rewrite (L4 y) by (apply Hi; now left). reflexivity. }
           apply G. auto.
    + injection Hln as <- <-. cbn [app] in Hb.
      destruct (In_sel_get E (spine e1) d b0) as [n0 Hg]; [rewrite Es; now left|].
      exists b0, n0, (EStep ax t ps). repeat split; auto.
      * eapply sel_tag; try eassumption; rewrite Es; now left.
      * rewrite Es. now left.
  - exists d, [], d, (EStep axis node_test predicates). repeat split; auto.
    + cbn. now left.
Qed.
