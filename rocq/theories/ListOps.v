(** The list operations as operations on the list of matched elements. *)
From Coq Require Import String Arith ZArith Lia.
From Verif Require Export FieldTotal ListProofs.
From Verif Require Import XPathEval FieldSpec DocSpec.

Opaque u.

Definition child_list (E : env) (e : expr) : Prop := supported_path E e = true /\ is_KChild (lkind E e) = true.

Lemma child_list_ok E e : child_list E e -> is_path e = true /\ ok E true e = true /\ rereadable e = true /\
  (is_KChild (lkind E e) = true \/ lkind E e = None) /\ steps_ok E (spine e).
Proof.
  intros [Hs Hk]. unfold supported_path in Hs. apply andb_prop in Hs as [Hs Hr]. apply andb_prop in Hs as [Hp Ho].
  repeat split; auto. eapply spine_ok; eauto.
Qed.

Lemma matches_elems E e d : child_list E e -> matches E e d = Ret (elems_at [] d (sel E (spine e) d)).
Proof.
  intros H. destruct (child_list_ok _ _ H) as (Hp & Ho & Hr & Hl & _). unfold matches. rewrite (eval_path _ _ _ (proj1 H)).
  now rewrite (selects_elems E true e d Hp Ho Hl).
Qed.

Lemma elems_at_map d : forall l, (forall b, In b l -> get_at b d <> None) ->
  map item_in (elems_at [] d l) = map (fun b => match get_at b d with Some n => InElem n | None => InBool false end) l /\
  length (elems_at [] d l) = length l /\
  forall k, nth_error (elems_at [] d l) k = match nth_error l k with Some b => match get_at b d with Some n => Some (IElem b n) | None => None end | None => None end.
Proof.
  induction l as [|b l IH]; intros H; [repeat split; auto; intros [|k]; reflexivity|].
  destruct IH as (I1 & I2 & I3); [intros; apply H; now right|]. unfold elems_at in *. cbn [flat_map].
  destruct (get_at b d) as [n|] eqn:Eb; [|exfalso; apply (H b); [now left|assumption]].
  cbn [app map length item_in flat_map] in *. rewrite I1, I2, Eb. repeat split; auto. intros [|k]; cbn [nth_error]; [now rewrite Eb|apply I3].
Qed.

Lemma sel_get_some E ss d b : In b (sel E ss d) -> get_at b d <> None.
Proof. intros H. destruct (In_sel_get _ _ _ _ H) as [m ->]. discriminate. Qed.

Definition val (m : mapper) (n : node) : res pyval := to_python m (Some (InElem n)).

Lemma mapR_map {A B C} (f : B -> res C) (g : A -> B) l : mapR f (map g l) = mapR (fun x => f (g x)) l.
Proof. induction l as [|x l IH]; cbn; [reflexivity|]. now rewrite IH. Qed.
Lemma mapR_ext {A B} (f g : A -> res B) l : (forall x, In x l -> f x = g x) -> mapR f l = mapR g l.
Proof. induction l as [|x l IH]; intros H; cbn; [reflexivity|]. rewrite (H x) by now left. rewrite IH; auto. intros; apply H; now right. Qed.

Lemma list_data_snodes E e m d : child_list E e -> list_data E e m d = mapR (val m) (snodes E (spine e) d).
Proof.
  intros H. unfold list_data. rewrite (matches_elems _ _ _ H).
  rewrite <- (mapR_map (fun i => to_python m (Some i)) item_in).
  destruct (elems_at_map d (sel E (spine e) d)) as (-> & _); [apply sel_get_some|].
  rewrite mapR_map. pose proof (sel_snodes E (spine e) d) as G.
  rewrite <- (mapR_map (fun o : option node => to_python m (Some match o with Some n => InElem n | None => InBool false end)) (fun b => get_at b d)).
  rewrite G, mapR_map. reflexivity.
Qed.

Lemma matches_length E e d l : child_list E e -> matches E e d = Ret l -> length l = length (snodes E (spine e) d).
Proof.
  intros H Hm. rewrite (matches_elems _ _ _ H) in Hm. injection Hm as <-.
  destruct (elems_at_map d (sel E (spine e) d)) as (_ & -> & _); [apply sel_get_some|]. apply sel_snodes_length.
Qed.

Lemma matches_nth E e d l k n : child_list E e -> matches E e d = Ret l -> nth_error (snodes E (spine e) d) k = Some n ->
  exists b, nth_error (sel E (spine e) d) k = Some b /\ get_at b d = Some n /\ nth_error l k = Some (IElem b n).
Proof.
  intros H Hm Hn. rewrite (matches_elems _ _ _ H) in Hm. injection Hm as <-. destruct (snodes_sel_nth _ _ _ _ _ Hn) as (b & Hb & Hg).
  exists b. repeat split; auto. destruct (elems_at_map d (sel E (spine e) d)) as (_ & _ & ->); [apply sel_get_some|]. now rewrite Hb, Hg.
Qed.

(** ** mapR and the list functions *)
Lemma mapR_length {A B} (f : A -> res B) l : forall ys, mapR f l = Ret ys -> length ys = length l.
Proof.
  induction l as [|x l IH]; intros ys H; cbn in H; [now injection H as <-|]. destruct (f x); [|discriminate].
  destruct (mapR f l) as [zs|]; [|discriminate]. injection H as <-. cbn. f_equal. now apply IH.
Qed.
Lemma mapR_nth {A B} (f : A -> res B) l : forall ys k x, mapR f l = Ret ys -> nth_error l k = Some x -> exists y, nth_error ys k = Some y /\ f x = Ret y.
Proof.
  induction l as [|x l IH]; intros ys k x0 H Hk; [destruct k; discriminate|]. cbn in H. destruct (f x) as [y|] eqn:Ef; [|discriminate].
  destruct (mapR f l) as [zs|] eqn:Em; [|discriminate]. injection H as <-. destruct k; cbn in *; [injection Hk as <-; eauto|]. apply (IH zs); auto.
Qed.
Lemma mapR_app {A B} (f : A -> res B) l l' ys ys' : mapR f l = Ret ys -> mapR f l' = Ret ys' -> mapR f (l ++ l') = Ret (ys ++ ys').
Proof.
  revert ys. induction l as [|x l IH]; intros ys H H'; cbn in *; [now injection H as <-|]. destruct (f x); [|discriminate].
  destruct (mapR f l) as [zs|]; [|discriminate]. injection H as <-. now rewrite (IH zs).
Qed.
Lemma mapR_firstn {A B} (f : A -> res B) i l : forall ys, mapR f l = Ret ys -> mapR f (firstn i l) = Ret (firstn i ys).
Proof.
  revert l. induction i as [|i IH]; intros [|x l] ys H; cbn in *; try reflexivity; [now injection H as <-|].
  destruct (f x); [|discriminate]. destruct (mapR f l) as [zs|] eqn:E; [|discriminate]. injection H as <-. now rewrite (IH l zs).
Qed.
Lemma mapR_skipn {A B} (f : A -> res B) i l : forall ys, mapR f l = Ret ys -> mapR f (skipn i l) = Ret (skipn i ys).
Proof.
  revert l. induction i as [|i IH]; intros [|x l] ys H; cbn in *; auto; try (now injection H as <-).
  destruct (f x); [|discriminate]. destruct (mapR f l) as [zs|] eqn:E; [|discriminate]. injection H as <-. now rewrite (IH l zs).
Qed.
Lemma mapR_remove {A B} (f : A -> res B) i l ys : mapR f l = Ret ys -> mapR f (remove_nth i l) = Ret (remove_nth i ys).
Proof. intros H. unfold remove_nth. apply mapR_app; [now apply mapR_firstn|now apply mapR_skipn]. Qed.
Lemma mapR_cons {A B} (f : A -> res B) x l y ys : f x = Ret y -> mapR f l = Ret ys -> mapR f (x :: l) = Ret (y :: ys).
Proof. intros H1 H2. cbn. now rewrite H1, H2. Qed.
Lemma mapR_insert {A B} (f : A -> res B) i x y l ys : mapR f l = Ret ys -> f x = Ret y -> mapR f (insert_nth i x l) = Ret (insert_nth i y ys).
Proof. intros H Hx. unfold insert_nth. apply mapR_app; [now apply mapR_firstn|]. apply mapR_cons; [assumption|now apply mapR_skipn]. Qed.
Lemma upd_nth_split {A} (f : A -> A) : forall i l x, nth_error l i = Some x -> upd_nth i f l = firstn i l ++ f x :: skipn (S i) l.
Proof. induction i as [|i IH]; intros [|y l] x H; cbn in *; try discriminate; [now injection H as ->|]. f_equal. now apply IH. Qed.
Lemma mapR_upd {A B} (f : A -> res B) g i l ys x y : mapR f l = Ret ys -> nth_error l i = Some x -> f (g x) = Ret y ->
  mapR f (upd_nth i g l) = Ret (firstn i ys ++ y :: skipn (S i) ys).
Proof.
  intros H Hx Hy. rewrite (upd_nth_split g i l x Hx). apply mapR_app; [now apply mapR_firstn|]. apply mapR_cons; [assumption|now apply mapR_skipn].
Qed.

Lemma at_index_py k n : at_index k n = py_idx k n.
Proof.
  unfold at_index, py_idx. destruct (Z.ltb_spec k 0) as [L|L], (Z.leb_spec 0 k) as [G|G]; try lia.
  - destruct (Z.leb_spec 0 (k + Z.of_nat n)), (Z.ltb_spec (k + Z.of_nat n) (Z.of_nat n)); cbn; try reflexivity; lia.
  - destruct (Z.leb_spec 0 k), (Z.ltb_spec k (Z.of_nat n)); cbn; try reflexivity; lia.
Qed.
Lemma at_index_lt k n i : at_index k n = Some i -> i < n.
Proof.
  unfold at_index. cbv zeta. set (j := (if k <? 0 then k + Z.of_nat n else k)%Z). intros H.
  destruct (Z.leb_spec 0 j), (Z.ltb_spec j (Z.of_nat n)); cbn in H; try discriminate. injection H as <-. lia.
Qed.
Lemma at_index_nat i n : i < n -> at_index (Z.of_nat i) n = Some i.
Proof.
  intros H. unfold at_index. destruct (Z.ltb_spec (Z.of_nat i) 0); [lia|]. destruct (Z.leb_spec 0 (Z.of_nat i)); [|lia].
  destruct (Z.ltb_spec (Z.of_nat i) (Z.of_nat n)); [|lia]. cbn. now rewrite Nat2Z.id.
Qed.

(** ** one operation at a time *)
Lemma terminal_child E e : child_list E e -> exists q ax t ps, terminal_step e = Some (EStep ax t ps) /\ kind E (EStep ax t ps) = Some (KChild q) /\ last_step e = Some (EStep ax t ps).
Proof.
  intros H. destruct (child_list_ok _ _ H) as (Hp & Ho & _). destruct H as [_ H]. destruct (lkind E e) as [[q| |]|] eqn:Hk; try discriminate.
  destruct (lkind_last _ _ _ Hk) as (s & Hs & Hks). destruct (kind_estep _ _ _ Hks) as (ax & t & ps & ->).
  exists q, ax, t, ps. split; [now apply (terminal_last E true)|]. auto.
Qed.

Lemma avoid_text_spine E e : child_list E e -> last_avoids E (spine e) KText.
Proof. intros H. apply steps_avoid_text. now destruct (child_list_ok _ _ H) as (_ & _ & _ & _ & ?). Qed.

Lemma val_text m v s n : to_xml m v = Ret (Some s) -> (forall q ats, to_python m (Some (InElem (Elem q ats (Some s) []))) = Ret v) ->
  tag_of n <> None -> kids_of n = [] -> val m (set_text (Some s) n) = Ret v.
Proof. intros _ H Ht Hk. destruct n as [q a t ks|]; [|contradiction]. cbn in Hk. subst ks. apply H. Qed.

Lemma snodes_tag E ss d k n : steps_ok E ss -> tag_of d <> None -> nth_error (snodes E ss d) k = Some n -> tag_of n <> None.
Proof.
  intros Hs Hd H. destruct (snodes_sel_nth _ _ _ _ _ H) as (b & Hb & Hg). eapply sel_tag; eauto. eapply nth_error_In; eauto.
Qed.

(** writing a string into the [k]th matched element *)
Lemma set_nth E e d k b n s st : child_list E e -> nth_error (sel E (spine e) d) k = Some b -> get_at b d = Some n -> kids_of n = [] -> xml_valid s = true ->
  exists d', set_in_xml E (Some (RElem b)) (Some s) st d = (d', Ret tt) /\ d' = upd_at b (set_text (Some s)) d /\
    snodes E (spine e) d' = upd_nth k (set_text (Some s)) (snodes E (spine e) d) /\ sel E (spine e) d' = sel E (spine e) d.
Proof.
  intros H Hb Hg Hk Hv. exists (upd_at b (set_text (Some s)) d).
  destruct (child_list_ok _ _ H) as (_ & _ & _ & _ & Hs).
  repeat split.
  - now apply set_elem_out with (m := n).
  - apply (snodes_upd E KText); auto using avoid_text_spine. intros; apply sim_set_text.
  - apply (sel_upd E KText); auto using avoid_text_spine; [eapply nth_error_In; eauto|]. intros; apply sim_set_text.
Qed.
