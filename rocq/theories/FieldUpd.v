(** Updating a document in one place: which selections are not affected. *)
From Coq Require Import String Arith.
From Verif Require Export FieldSem.

(** ** [n] and [n'] differ only in what a step of kind [D] can see *)
Definition sim (D : skind) (n n' : node) : Prop :=
  tag_of n = tag_of n' /\
  match D with
  | KChild q => attrs_of n = attrs_of n' /\
      filter (fun k => negb (has_tag q (fst k))) (kids_of n) = filter (fun k => negb (has_tag q (fst k))) (kids_of n')
  | KAttr q => kids_of n = kids_of n' /\
      filter (fun x => negb (qeqb (fst x) q)) (attrs_of n) = filter (fun x => negb (qeqb (fst x) q)) (attrs_of n')
  | KText => attrs_of n = attrs_of n' /\ kids_of n = kids_of n'
  end.

Lemma skind_eqb_eq a b : skind_eqb a b = true <-> a = b.
Proof. destruct a, b; cbn; rewrite ?qeqb_eq; split; try congruence; try (intros [=]; congruence). Qed.
Lemma skind_eqb_refl a : skind_eqb a a = true.
Proof. now apply skind_eqb_eq. Qed.

Definition core (i : item) : item :=
  match i with IElem _ n => IElem [] n | IAttr _ q v => IAttr [] q v | IText _ t s => IText [] t s end.
Definition cores (E : env) (e : expr) (n : node) : list item := map core (nodes_of (ev E e (IElem [] n))).

Lemma core_shift a i : core (shift a i) = core i.
Proof. destruct i; reflexivity. Qed.
Lemma map_core_shift a l : map core (map (shift a) l) = map core l.
Proof. rewrite map_map. apply map_ext. intros; apply core_shift. Qed.
Lemma item_str_core i : item_str (core i) = item_str i.
Proof. destruct i; reflexivity. Qed.

Definition cores_of_item (E : env) (e : expr) (i : item) : list item := map core (nodes_of (ev E e i)).
Lemma cores_of_core E e i : cores_of_item E e (core i) = cores_of_item E e i.
Proof.
  unfold cores_of_item.
  assert (H : exists a, i = shift a (core i)).
  { destruct i as [a n|a q v|a t s]; exists a; cbn; now rewrite app_nil_r. }
  destruct H as [a H]. rewrite H at 2. rewrite ev_shift, nodes_of_shift, map_core_shift. reflexivity.
Qed.

Lemma cores_slash E l r n : cores E (EBin l (u "/") r) n = flat_map (cores_of_item E r) (cores E l n).
Proof.
  unfold cores. cbn [ev]. rewrite str_eqb_refl. cbn [nodes_of]. rewrite map_flat_map, flat_map_map.
  apply flat_map_ext_in. intros i _. now rewrite cores_of_core.
Qed.

Lemma map_enum_snd {A} i (l : list A) : map snd (enum i l) = l.
Proof. revert i. induction l; intros i; cbn; congruence. Qed.

Lemma flat_map_enum {A B} (f : A -> list B) i l : flat_map (fun x => f (snd x)) (enum i l) = flat_map f l.
Proof. rewrite <- (flat_map_map snd f). now rewrite map_enum_snd. Qed.

Lemma cores_child E s q n dot : ok E dot s = true -> kind E s = Some (KChild q) ->
  cores E s n = flat_map (fun k => if mstep E s (fst k) then [IElem [] (fst k)] else []) (kids_of n).
Proof.
  intros Ho Hk. unfold cores. rewrite (ev_child _ _ _ _ _ _ Ho Hk). cbn [nodes_of sel]. unfold elems_at.
  rewrite flat_map_flat_map, map_flat_map. symmetry. rewrite <- (flat_map_enum (fun k : node * option str => if mstep E s (fst k) then [IElem [] (fst k)] else []) 0). symmetry. apply flat_map_ext_in. intros [i k] Hi.
  apply In_enum in Hi as [_ Hi]. rewrite Nat.sub_0_r in Hi. cbn [fst snd]. destruct (mstep E s (fst k)); [|reflexivity].
  cbn. now rewrite Hi.
Qed.

Lemma cores_attr E s q n dot : ok E dot s = true -> kind E s = Some (KAttr q) ->
  cores E s n = flat_map (fun x => if qeqb (fst x) q then [IAttr [] (fst x) (snd x)] else []) (attrs_of n).
Proof.
  intros Ho Hk. unfold cores. rewrite (ev_attr_step _ _ _ _ _ _ Ho Hk). cbn [nodes_of]. unfold attr_items.
  rewrite map_flat_map. apply flat_map_ext_in. intros x _. destruct (qeqb (fst x) q); reflexivity.
Qed.

Lemma cores_text E s n dot : ok E dot s = true -> kind E s = Some KText -> cores E s n = map core (text_items [] n).
Proof. intros Ho Hk. unfold cores. now rewrite (ev_text_step _ _ _ _ _ Ho Hk). Qed.

Lemma flat_map_filter {A B} (f : A -> list B) g l : (forall x, g x = false -> f x = []) -> flat_map f l = flat_map f (filter g l).
Proof.
  intros H. induction l as [|x l IH]; cbn; [reflexivity|]. destruct (g x) eqn:E; cbn; rewrite IH; [reflexivity|].
  now rewrite (H _ E).
Qed.

(** predicates and paths that do not start with [D] do not see the difference *)
Lemma cores_sim E D n n' : sim D n n' -> D <> KText -> forall e dot, is_path e = true -> ok E dot e = true ->
  (exists k, fkind E e = Some k /\ k <> D /\ k <> KText) -> cores E e n = cores E e n'.
Proof.
  intros Hs HD. induction e; cbn [is_path]; intros dot Hp; try discriminate; intros Ho (k & Hk & Hne & Hkt).
  - apply str_eqb_eq in Hp. subst op. destruct (ok_slash _ _ _ _ Ho) as (H1 & _ & H3 & H4).
    rewrite !cores_slash. rewrite (IHe1 dot); [reflexivity|eapply joins_path; eassumption|assumption|].
    exists k. auto.
  - change (kind E (EStep axis node_test predicates) = Some k) in Hk. destruct Hs as [Ht Hs].
    destruct k as [q|q|]; [| |congruence].
    + rewrite !(cores_child _ _ _ _ _ Ho Hk). destruct D as [q'|q'|]; [| |congruence].
      * destruct Hs as [_ Hs].
        assert (G : forall x : node * option str, negb (has_tag q' (fst x)) = false ->
           (if mstep E (EStep axis node_test predicates) (fst x) then [IElem [] (fst x)] else []) = []).
        { intros x Hx. unfold mstep. rewrite Hk. unfold has_tag in *. destruct (tag_of (fst x)) as [t|]; [|reflexivity].
          apply negb_false_iff in Hx. apply qeqb_eq in Hx. subst t.
          replace (qeqb q' q) with false; [reflexivity|]. symmetry. apply qeqb_neq. congruence. }
        rewrite (flat_map_filter _ _ (kids_of n) G), (flat_map_filter _ _ (kids_of n') G). now rewrite Hs.
      * destruct Hs as [Hs _]. now rewrite Hs.
    + rewrite !(cores_attr _ _ _ _ _ Ho Hk). destruct D as [q'|q'|]; [| |congruence].
      * destruct Hs as [Hs _]. now rewrite Hs.
      * destruct Hs as [_ Hs].
        assert (G : forall x : qname * str, negb (qeqb (fst x) q') = false -> (if qeqb (fst x) q then [IAttr [] (fst x) (snd x)] else []) = []).
        { intros x Hx. apply negb_false_iff in Hx. apply qeqb_eq in Hx. rewrite Hx.
          replace (qeqb q' q) with false; [reflexivity|]. symmetry. apply qeqb_neq. congruence. }
        rewrite (flat_map_filter _ _ (attrs_of n) G), (flat_map_filter _ _ (attrs_of n') G). now rewrite Hs.
  - unfold fkind in Hk. cbn in Hk. discriminate.
Qed.

(** the text-only difference is invisible to any path that starts with a child or attribute step *)
Lemma cores_simT E n n' : sim KText n n' -> forall e dot, is_path e = true -> ok E dot e = true ->
  (exists k, fkind E e = Some k /\ k <> KText) -> cores E e n = cores E e n'.
Proof.
  intros (Ht & Ha & Hk'). induction e; cbn [is_path]; intros dot Hp; try discriminate; intros Ho (k & Hk & Hkt).
  - apply str_eqb_eq in Hp. subst op. destruct (ok_slash _ _ _ _ Ho) as (H1 & _ & H3 & H4).
    rewrite !cores_slash. rewrite (IHe1 dot); [reflexivity|eapply joins_path; eassumption|assumption|].
    exists k. auto.
  - change (kind E (EStep axis node_test predicates) = Some k) in Hk. destruct k as [q|q|]; [| |congruence].
    + rewrite !(cores_child _ _ _ _ _ Ho Hk). now rewrite Hk'.
    + rewrite !(cores_attr _ _ _ _ _ Ho Hk). now rewrite Ha.
  - unfold fkind in Hk. cbn in Hk. discriminate.
Qed.

Lemma xeq_cores_aux E l n v : (match v with XN _ => False | _ => True end) -> (exists its, ev E l (IElem [] n) = XN its) ->
  xeq (ev E l (IElem [] n)) v = xeq (XN (cores E l n)) v.
Proof.
  unfold cores. intros Hv [its ->]. cbn [nodes_of].
  assert (H : forall f : str -> bool, existsb (fun i => f (item_str i)) its = existsb (fun i => f (item_str i)) (map core its)).
  { intros f. rewrite existsb_map. apply existsb_ext'. intros i. now rewrite item_str_core. }
  destruct v; cbn [xeq].
  - contradiction.
  - apply (H (fun x => str_eqb x s)).
  - apply (H (fun x => num_eqb (xnumber x) n0)).
  - destruct its; reflexivity.
Qed.

Lemma ev_is_nodes E dot e c : is_path e = true -> ok E dot e = true -> exists its, ev E e c = XN its.
Proof.
  destruct e; cbn [is_path]; try discriminate; intros H _; cbn [ev]; eauto. rewrite H. eauto.
Qed.

Definition path_of (p : expr) : expr :=
  match p with EBin l op _ => if str_eqb op (u "=") then l else p | _ => p end.

(** parts of a predicate *)
Lemma pred_path E p : ok E false p = true -> is_path (path_of p) = true /\ ok E false (path_of p) = true /\
  fkind E (path_of p) = fkind E p /\ lead_step (path_of p) = lead_step p.
Proof.
  intros H. destruct p; cbn [path_of]; try (cbn in H; discriminate).
  - destruct (str_eqb op (u "=")) eqn:Eq.
    + apply str_eqb_eq in Eq. subst op. cbn [ok] in H. replace (str_eqb (u "=") (u "/")) with false in H by reflexivity.
      rewrite str_eqb_refl in H. apply andb_prop in H as [H H4]. apply andb_prop in H as [H H3]. apply andb_prop in H as [H1 H2].
      auto.
    + destruct (str_eqb op (u "/")) eqn:Es; [cbn [is_path]; rewrite Es; auto|]. cbn [ok] in H. rewrite Es, Eq in H. discriminate.
  - auto.
Qed.

Lemma hold_cores E p n n' : ok E false p = true -> cores E (path_of p) n = cores E (path_of p) n' -> hold E p n = hold E p n'.
Proof.
  intros Ho Hc. destruct (pred_path _ _ Ho) as (Hp & Hok & _). unfold hold.
  assert (Hb : forall e, is_path e = true -> ok E false e = true -> cores E e n = cores E e n' ->
     to_bool (ev E e (IElem [] n)) = to_bool (ev E e (IElem [] n'))).
  { intros e He1 He2 Hce. destruct (ev_is_nodes E false e (IElem [] n) He1 He2) as [i1 E1].
    destruct (ev_is_nodes E false e (IElem [] n') He1 He2) as [i2 E2]. unfold cores in Hce. rewrite E1, E2 in *. cbn in *.
    destruct i1, i2; try discriminate; reflexivity. }
  destruct p; try (cbn in Ho; discriminate).
  - cbn [path_of] in *. destruct (str_eqb op (u "=")) eqn:Eq.
    + apply str_eqb_eq in Eq. subst op. cbn [ev]. replace (str_eqb (u "=") (u "/")) with false by reflexivity.
      rewrite str_eqb_refl. cbn [to_bool].
      cbn [ok] in Ho. replace (str_eqb (u "=") (u "/")) with false in Ho by reflexivity.
      rewrite str_eqb_refl in Ho. apply andb_prop in Ho as [_ Hr].
      assert (Hv : ev E p2 (IElem [] n) = ev E p2 (IElem [] n') /\ match ev E p2 (IElem [] n') with XN _ => False | _ => True end).
      { destruct p2; cbn in Hr; try discriminate; cbn; auto. destruct prefix; [discriminate|]. unfold var_value.
        destruct (lookup localname (vars E)) as [[|]|]; auto. discriminate. }
      destruct Hv as [Hv1 Hv2]. rewrite Hv1.
      rewrite (xeq_cores_aux E p1 n _ Hv2 (ev_is_nodes _ _ _ _ Hp Hok)), (xeq_cores_aux E p1 n' _ Hv2 (ev_is_nodes _ _ _ _ Hp Hok)).
      now rewrite Hc.
    + apply Hb; auto.
  - apply Hb; auto.
Qed.

Lemma avoids_In E ps D p : avoids E ps D = true -> In p ps -> exists k, fkind E p = Some k /\ k <> D.
Proof.
  unfold avoids. rewrite forallb_forall. intros H Hp. apply H in Hp. destruct (fkind E p) as [k|]; [|discriminate].
  exists k. split; [reflexivity|]. intros ->. rewrite skind_eqb_refl in Hp. discriminate.
Qed.

(** no predicate of the supported class starts with text() *)
Lemma lkind_estep E s : is_estep s = true -> lkind E s = kind E s.
Proof. destruct s; try discriminate. reflexivity. Qed.

Lemma path_first_text E dot e : is_path e = true -> ok E dot e = true -> fkind E e = Some KText -> lkind E e = Some KText.
Proof.
  induction e; cbn [is_path]; intros Hp; try discriminate; intros Ho Hf.
  - apply str_eqb_eq in Hp. subst op. destruct (ok_slash _ _ _ _ Ho) as (H1 & _ & H3 & H4).
    specialize (IHe1 (joins_path _ _ _ _ H4 H1) H1 Hf). destruct (joins_left _ _ _ _ H4 H1) as [H|H]; rewrite IHe1 in H; discriminate.
  - exact Hf.
Qed.

Lemma ok_step_preds E dot ax t ps q p : ok E dot (EStep ax t ps) = true -> kind E (EStep ax t ps) = Some (KChild q) -> In p ps ->
  ok E false p = true /\ lkind E (path_of p) <> Some KText /\ fkind E p <> Some KText.
Proof.
  cbn [ok]. intros H Hk Hp. rewrite Hk in H. apply andb_prop in H as [H _]. rewrite forallb_forall in H. apply H in Hp as Hq.
  apply andb_prop in Hq as [H1 H2]. split; [assumption|].
  assert (H3 : lkind E (path_of p) <> Some KText).
  { intros Hl. destruct p; cbn [path_of] in Hl; try (rewrite Hl in H2; discriminate).
    destruct (str_eqb op (u "=")); rewrite Hl in H2; discriminate. }
  split; [assumption|]. intros Hf. apply H3. destruct (pred_path _ _ H1) as (P1 & P2 & P3 & _).
  eapply path_first_text; try eassumption. now rewrite P3.
Qed.

Lemma fkind_some E dot ax t ps q p : ok E dot (EStep ax t ps) = true -> kind E (EStep ax t ps) = Some (KChild q) -> In p ps ->
  exists k, fkind E p = Some k.
Proof.
  intros Ho Hk Hp. destruct (ok_step_preds _ _ _ _ _ _ _ Ho Hk Hp) as (H1 & _). destruct (pred_path _ _ H1) as (P1 & P2 & P3 & _).
  rewrite <- P3. clear - P1 P2. revert P1 P2. generalize (path_of p). clear p. intros e. induction e; cbn [is_path]; intros Hp; try discriminate; intros Ho.
  - apply str_eqb_eq in Hp. subst op. destruct (ok_slash _ _ _ _ Ho) as (H1 & _ & H3 & H4).
    apply (IHe1 (joins_path _ _ _ _ H4 H1) H1).
  - unfold fkind. cbn [lead_step]. cbn [ok] in Ho. destruct (kind E _); [eauto|discriminate].
Qed.

Lemma hold_sim E D n n' dot ax t ps q p : sim D n n' -> ok E dot (EStep ax t ps) = true ->
  kind E (EStep ax t ps) = Some (KChild q) -> In p ps -> fkind E p <> Some D -> hold E p n = hold E p n'.
Proof.
  intros Hs Ho Hk Hp Hf. destruct (ok_step_preds _ _ _ _ _ _ _ Ho Hk Hp) as (H1 & _ & H3).
  destruct (fkind_some _ _ _ _ _ _ _ Ho Hk Hp) as [k Hfk]. destruct (pred_path _ _ H1) as (P1 & P2 & P3 & _).
  apply hold_cores; [assumption|]. destruct D as [q'|q'|].
  - eapply cores_sim; try eassumption; [discriminate|]. exists k. rewrite P3. repeat split; congruence.
  - eapply cores_sim; try eassumption; [discriminate|]. exists k. rewrite P3. repeat split; congruence.
  - eapply cores_simT; try eassumption. exists k. rewrite P3. split; congruence.
Qed.

Lemma forallb_ext_in {A} (f g : A -> bool) l : (forall x, In x l -> f x = g x) -> forallb f l = forallb g l.
Proof. intros H. induction l as [|x l IH]; cbn; [reflexivity|]. rewrite H by now left. f_equal. apply IH. intros; apply H; now right. Qed.

Lemma mstep_sim E D n n' s : sim D n n' -> ok E false s = true -> avoids E (preds_of s) D = true -> mstep E s n = mstep E s n'.
Proof.
  intros Hs Ho Ha. unfold mstep. destruct (kind E s) as [[q|q|]|] eqn:Hk; try reflexivity.
  destruct (kind_estep _ _ _ Hk) as (ax & t & ps & ->). cbn [preds_of] in *. f_equal.
  - unfold has_tag. destruct Hs as [Ht _]. now rewrite Ht.
  - apply forallb_ext_in. intros p Hp. eapply hold_sim; try eassumption.
    destruct (avoids_In _ _ _ _ Ha Hp) as (k & Hf & Hne). congruence.
Qed.

(** ** chains of child steps *)
Fixpoint last_avoids (E : env) (ss : list expr) (k : skind) : Prop :=
  match ss with
  | [] => True
  | s :: ss' => match ss' with [] => avoids E (preds_of s) k = true | _ => last_avoids E ss' k end
  end.

Fixpoint steps_ok (E : env) (ss : list expr) : Prop :=
  match ss with
  | [] => True
  | s :: ss' => ok E false s = true /\ (exists q, kind E s = Some (KChild q)) /\
      match ss' with [] => True | s2 :: _ => exists k, kind E s2 = Some k /\ avoids E (preds_of s) k = true end /\
      steps_ok E ss'
  end.

Lemma steps_ok_app E ss r k : steps_ok E ss -> ok E false r = true -> kind E r = Some (KChild k) ->
  last_avoids E ss (KChild k) -> steps_ok E (ss ++ [r]).
Proof.
  induction ss as [|s ss IH]; cbn [app steps_ok]; intros H Hr Hk Hl.
  - repeat split; eauto.
  - destruct H as (H1 & H2 & H3 & H4). repeat split; auto.
    + destruct ss as [|s2 ss]; cbn; [eauto|exact H3].
    + apply IH; auto. destruct ss; [exact I|exact Hl].
Qed.

Lemma last_avoids_snoc E ss s k : last_avoids E (ss ++ [s]) k <-> avoids E (preds_of s) k = true.
Proof.
  induction ss as [|x ss IH]; cbn [app last_avoids]; [reflexivity|]. destruct (ss ++ [s]) eqn:Ess; [destruct ss; discriminate|].
  exact IH.
Qed.

Lemma spine_last E dot l r k : ok E dot l = true -> joins E l r = true -> kind E r = Some k -> last_avoids E (spine l) k.
Proof.
  intros Ho Hj Hk. destruct l; cbn [joins last_step] in Hj; try discriminate.
  - destruct l2; try discriminate. destruct (str_eqb op (u "/")); [|discriminate]. rewrite Hk in Hj. apply andb_prop in Hj as [_ Hj].
    cbn [spine]. now apply last_avoids_snoc.
  - rewrite Hk in Hj. apply andb_prop in Hj as [_ Hj]. exact Hj.
  - exact I.
Qed.

Lemma ok_false_estep E dot ax t ps : ok E dot (EStep ax t ps) = ok E false (EStep ax t ps).
Proof. reflexivity. Qed.

Lemma spine_ok E dot e : is_path e = true -> ok E dot e = true -> is_KChild (lkind E e) = true \/ lkind E e = None -> steps_ok E (spine e).
Proof.
  induction e; cbn [is_path]; intros Hp; try discriminate; intros Ho Hl.
  - apply str_eqb_eq in Hp. subst op. destruct (ok_slash _ _ _ _ Ho) as (H1 & (ax & t & ps & ->) & H3 & H4).
    rewrite (lkind_slash E e1 _ _ _ _ eq_refl) in Hl. cbn [spine].
    destruct (kind E (EStep ax t ps)) as [[q|q|]|] eqn:Hk; try (destruct Hl; discriminate).
    + eapply steps_ok_app; try eassumption.
      * apply IHe1; auto; [eapply joins_path; eassumption|eapply joins_left; eassumption].
      * eapply spine_last; eassumption.
    + cbn [ok] in H3. rewrite Hk in H3. discriminate.
  - cbn [spine steps_ok]. unfold lkind in Hl. cbn [last_step] in Hl. repeat split.
    + exact Ho.
    + destruct (kind E _) as [[q|q|]|] eqn:Hk; try (destruct Hl; discriminate); eauto. cbn [ok] in Ho. rewrite Hk in Ho. discriminate.
  - exact I.
Qed.

(** ** the main frame lemma: changing, below one selected element, only what [D] sees *)
Lemma has_tag_tag q n n' : tag_of n = tag_of n' -> has_tag q n = has_tag q n'.
Proof. unfold has_tag. now intros ->. Qed.

Lemma tag_upd_at b f n : (b = [] -> tag_of (f n) = tag_of n) -> tag_of (upd_at b f n) = tag_of n.
Proof. destruct b; cbn; [auto|]. intros _. destruct n; reflexivity. Qed.

Lemma kids_set_kids f n : (forall s, n = Misc s -> f [] = []) -> kids_of (set_kids f n) = f (kids_of n).
Proof. destruct n; cbn; [reflexivity|]. intros H. symmetry. now apply (H content). Qed.

Lemma kids_upd_cons i b f n : kids_of (upd_at (i :: b) f n) = upd_nth i (fun k => (upd_at b f (fst k), snd k)) (kids_of n).
Proof. destruct n; reflexivity. Qed.
Lemma attrs_upd_cons i b f n : attrs_of (upd_at (i :: b) f n) = attrs_of n.
Proof. destruct n; reflexivity. Qed.
Lemma text_upd_cons i b f n : text_of (upd_at (i :: b) f n) = text_of n.
Proof. destruct n; reflexivity. Qed.

Lemma filter_upd_nth {A} (g : A -> bool) f i l : (forall x, nth_error l i = Some x -> g x = false /\ g (f x) = false) ->
  filter g (upd_nth i f l) = filter g l.
Proof.
  revert i. induction l as [|x l IH]; intros [|i] H; cbn; try reflexivity.
  - destruct (H x eq_refl) as [-> ->]. reflexivity.
  - rewrite IH; [reflexivity|]. intros y Hy. apply H. exact Hy.
Qed.

Lemma enum_upd_nth {A} f i (l : list A) k : enum k (upd_nth i f l) = map (fun x => if Nat.eqb (fst x) (k + i) then (fst x, f (snd x)) else x) (enum k l).
Proof.
  revert i k. induction l as [|x l IH]; intros [|i] k; cbn; try reflexivity.
  - rewrite Nat.add_0_r, Nat.eqb_refl. f_equal. symmetry. erewrite map_ext_in; [apply map_id|]. intros [j y] Hj.
    apply In_enum in Hj as [Hj _]. cbn. destruct (Nat.eqb_spec j k); [lia|reflexivity].
  - destruct (Nat.eqb_spec k (k + S i)); [lia|]. f_equal. rewrite IH. now replace (S k + i) with (k + S i) by lia.
Qed.

Lemma In_sel_cons E s ss n b : In b (sel E (s :: ss) n) ->
  exists i k b', b = i :: b' /\ nth_error (kids_of n) i = Some k /\ mstep E s (fst k) = true /\ In b' (sel E ss (fst k)).
Proof.
  cbn [sel]. intros H. apply in_flat_map in H as [[i k] [Hi Hb]]. cbn [fst snd] in Hb.
  destruct (mstep E s (fst k)) eqn:Em; [|contradiction]. apply in_map_iff in Hb as (b' & <- & Hb').
  apply In_enum in Hi as [_ Hi]. rewrite Nat.sub_0_r in Hi. exists i, k, b'. auto.
Qed.

Lemma mstep_tag E s q n : kind E s = Some (KChild q) -> mstep E s n = true -> tag_of n = Some q.
Proof.
  unfold mstep. intros ->. unfold has_tag. destruct (tag_of n); [|discriminate]. intros H. apply andb_prop in H as [H _].
  apply qeqb_eq in H. now subst.
Qed.

Lemma sim_upd E s2 ss q b f n : kind E s2 = Some (KChild q) -> In b (sel E (s2 :: ss) n) ->
  (forall m, get_at b n = Some m -> tag_of (f m) = tag_of m) -> sim (KChild q) n (upd_at b f n).
Proof.
  intros Hk Hb Hf. destruct (In_sel_cons _ _ _ _ _ Hb) as (i & k & b' & -> & Hi & Hm & Hb').
  split; [|split].
  - symmetry. apply tag_upd_at. discriminate.
  - symmetry. apply attrs_upd_cons.
  - rewrite kids_upd_cons. symmetry. apply filter_upd_nth. intros x Hx. rewrite Hi in Hx. injection Hx as <-. cbn [fst].
    pose proof (mstep_tag _ _ _ _ Hk Hm) as Ht. unfold has_tag. rewrite tag_upd_at.
    + rewrite Ht, qeqb_refl. auto.
    + intros ->. apply Hf. cbn. rewrite Hi. reflexivity.
Qed.

Lemma sel_upd E D : forall ss n b f, steps_ok E ss -> last_avoids E ss D -> In b (sel E ss n) ->
  (forall m, get_at b n = Some m -> sim D m (f m)) -> sel E ss (upd_at b f n) = sel E ss n.
Proof.
  induction ss as [|s ss IH]; intros n b f Ho Hl Hb Hf; [reflexivity|].
  destruct (In_sel_cons _ _ _ _ _ Hb) as (i & k & b' & -> & Hi & Hm & Hb').
  destruct Ho as (H1 & (q & Hq) & H3 & H4).
  assert (Hf' : forall m, get_at b' (fst k) = Some m -> sim D m (f m)).
  { intros m Hg. apply Hf. cbn. now rewrite Hi. }
  assert (Hs : mstep E s (upd_at b' f (fst k)) = mstep E s (fst k)).
  { symmetry. destruct ss as [|s2 ss].
    - cbn in Hb'. destruct Hb' as [<-|[]]. eapply mstep_sim; [|exact H1|exact Hl]. cbn. now apply Hf'.
    - destruct H3 as (k2 & Hk2 & Ha). destruct H4 as (_ & (q2 & Hq2) & _). rewrite Hq2 in Hk2. injection Hk2 as <-.
      eapply mstep_sim; [|exact H1|exact Ha]. eapply sim_upd; try eassumption.
      intros m Hg. apply Hf' in Hg. destruct Hg as [Hg _]. now symmetry. }
  assert (Hss : sel E ss (upd_at b' f (fst k)) = sel E ss (fst k)).
  { apply IH; auto. destruct ss; [exact I|exact Hl]. }
  cbn [sel]. rewrite kids_upd_cons, enum_upd_nth, flat_map_map. apply flat_map_ext_in. intros [j x] Hj.
  apply In_enum in Hj as [_ Hj]. rewrite Nat.sub_0_r in Hj. cbn [fst snd]. rewrite Nat.add_0_l. destruct (Nat.eqb_spec j i) as [->|]; [|reflexivity].
  rewrite Hi in Hj. injection Hj as <-. cbn [fst snd]. now rewrite Hs, Hss.
Qed.
