(** Proofs about NodeListField lists. *)
From Coq Require Import List Arith ZArith Lia.
From Verif Require Import NodeList NodeNodes.
Import ListNotations.

Definition unlisted (ks : list kid) : list kid := filter (fun k => negb (kid_hit k)) ks.
Definition ids (ks : list kid) : list nat := map kid_id ks.
Definition drop_id (j : nat) (ks : list kid) : list kid := filter (fun k => negb (kid_id k =? j)) ks.
(** [v] may be stored: the XPath selects it, and if it is one of the children already, it is that child *)
Definition agrees (v : kid) (ks : list kid) : Prop := kid_hit v = true /\ forall k, In k ks -> kid_id k = kid_id v -> k = v.

Lemma ids_inj ks k k' : NoDup (ids ks) -> In k ks -> In k' ks -> kid_id k = kid_id k' -> k = k'.
Proof.
  induction ks as [|x ks IH]; cbn; intros Hn H1 H2 He; [contradiction|]. inversion Hn as [|? ? Hx Hn']; subst.
  destruct H1 as [->|H1], H2 as [->|H2]; auto.
  - exfalso. apply Hx. rewrite He. now apply in_map.
  - exfalso. apply Hx. rewrite <- He. now apply in_map.
Qed.

Lemma filter_NoDup_ids P ks : NoDup (ids ks) -> NoDup (ids (filter P ks)).
Proof.
  induction ks as [|x ks IH]; cbn; intros Hn; [constructor|]. inversion Hn as [|? ? Hx Hn']; subst. destruct (P x); cbn; [|auto].
  constructor; auto. intros H. apply Hx. unfold ids in *. apply in_map_iff in H as (y & <- & Hy). apply filter_In in Hy as [Hy _]. now apply in_map.
Qed.

Lemma drop_id_none j ks : ~ In j (ids ks) -> drop_id j ks = ks.
Proof.
  unfold drop_id. induction ks as [|x ks IH]; cbn; intros H; [reflexivity|]. destruct (Nat.eqb_spec (kid_id x) j) as [He|N]; [exfalso; auto|]. cbn. rewrite IH; auto.
Qed.

(** replace, element by element *)
Lemma replace_without old v ks : ~ In (kid_id old) (ids ks) -> replace_kid old v ks = drop_id (kid_id v) ks.
Proof.
  unfold replace_kid, drop_id. induction ks as [|x ks IH]; cbn; intros H; [reflexivity|]. destruct (Nat.eqb_spec (kid_id x) (kid_id old)) as [Hx|_]; [exfalso; auto|].
  rewrite IH by auto. now destruct (kid_id x =? kid_id v).
Qed.
Lemma replace_app old v a b : replace_kid old v (a ++ b) = replace_kid old v a ++ replace_kid old v b.
Proof. apply flat_map_app. Qed.

Lemma replace_mid old v a b : NoDup (ids (a ++ old :: b)) -> replace_kid old v (a ++ old :: b) = drop_id (kid_id v) a ++ v :: drop_id (kid_id v) b.
Proof.
  intros Hn. unfold ids in Hn. rewrite map_app in Hn. cbn in Hn. apply NoDup_remove_2 in Hn.
  rewrite replace_app, (replace_without old v a) by (intros H; apply Hn, in_or_app; now left). cbn. rewrite Nat.eqb_refl. cbn.
  fold (replace_kid old v b). rewrite (replace_without old v b) by (intros H; apply Hn, in_or_app; now right). reflexivity.
Qed.

Lemma listed_replace old v ks : NoDup (ids ks) -> In old ks -> kid_hit old = true -> agrees v ks ->
  listed (replace_kid old v ks) = replace_kid old v (listed ks) /\ unlisted (replace_kid old v ks) = unlisted ks /\
  NoDup (ids (replace_kid old v ks)) /\ (forall k, In k (replace_kid old v ks) -> k = v \/ In k ks).
Proof.
  intros Hn Hin Hho [Hv Ha]. apply in_split in Hin as (a & b & ->). rewrite (replace_mid old v a b Hn).
  assert (Hd : forall l, incl l (a ++ old :: b) -> listed (drop_id (kid_id v) l) = drop_id (kid_id v) (listed l) /\ unlisted (drop_id (kid_id v) l) = unlisted l).
  { induction l as [|x l IH]; intros Hl; [split; reflexivity|]. destruct IH as [I1 I2]; [intros y Hy; apply Hl; now right|].
    unfold listed, unlisted, drop_id in *. cbn. destruct (Nat.eqb_spec (kid_id x) (kid_id v)) as [He|He].
    - assert (x = v) as -> by (apply Ha; [apply Hl; now left|assumption]). rewrite Hv. cbn. rewrite Nat.eqb_refl. cbn. auto.
    - cbn. destruct (kid_hit x); cbn.
      + destruct (Nat.eqb_spec (kid_id x) (kid_id v)); [contradiction|]. cbn. split; [now rewrite I1|exact I2].
      + split; [exact I1|now rewrite I2]. }
  destruct (Hd a) as [A1 A2]; [intros y Hy; apply in_or_app; now left|]. destruct (Hd b) as [B1 B2]; [intros y Hy; apply in_or_app; right; now right|].
  split; [|split; [|split]].
  - unfold listed in *. rewrite !filter_app. cbn. rewrite Hv, Hho. rewrite replace_mid; [now rewrite A1, B1|].
    pose proof (filter_NoDup_ids kid_hit _ Hn) as G. rewrite filter_app in G. cbn in G. now rewrite Hho in G.
  - unfold unlisted in *. rewrite !filter_app. cbn. rewrite Hv, Hho. cbn. now rewrite A2, B2.
  - assert (G : NoDup (ids (drop_id (kid_id v) (a ++ b)))).
    { apply filter_NoDup_ids. unfold ids in *. rewrite map_app in *. cbn in Hn. now apply NoDup_remove_1 in Hn. }
    unfold drop_id in *. rewrite filter_app in G. unfold ids in *. rewrite map_app in *. cbn. apply NoDup_Add with (a := kid_id v) (l := map kid_id (filter (fun k => negb (kid_id k =? kid_id v)) a) ++ map kid_id (filter (fun k => negb (kid_id k =? kid_id v)) b)).
    + apply Add_app.
    + split; [exact G|]. rewrite <- map_app, <- filter_app. intros H. apply in_map_iff in H as (y & Hy & Hf). apply filter_In in Hf as [_ Hf]. rewrite Hy, Nat.eqb_refl in Hf. discriminate.
  - intros k Hk. apply in_app_or in Hk as [Hk|[<-|Hk]]; [|now left|]; right; apply filter_In in Hk as [Hk _]; apply in_or_app; [now left|right; now right].
Qed.

(** creating *)
Lemma last_hit_none ks : forall i, last_hit i ks = None <-> listed ks = [].
Proof.
  induction ks as [|k ks IH]; intros i; cbn; [tauto|]. destruct (last_hit (S i) ks) as [j|] eqn:El.
  - split; [discriminate|]. intros H. destruct (kid_hit k); [discriminate|]. apply (IH (S i)) in H. congruence.
  - apply (IH (S i)) in El. unfold listed in El. destruct (kid_hit k); split; try discriminate; auto.
Qed.
Lemma last_hit_some ks : forall i j, last_hit i ks = Some j -> exists a k b, ks = a ++ k :: b /\ j = i + length a /\ kid_hit k = true /\ listed b = [].
Proof.
  induction ks as [|k ks IH]; intros i j H; cbn in H; [discriminate|]. destruct (last_hit (S i) ks) as [j'|] eqn:El.
  - injection H as <-. destruct (IH _ _ El) as (a & k' & b & -> & -> & H1 & H2). exists (k :: a), k', b. cbn [length app]. split; [reflexivity|]. split; [lia|]. auto.
  - destruct (kid_hit k) eqn:Hk; [|discriminate]. injection H as <-. exists [], k, ks. cbn. repeat split; auto. apply (last_hit_none ks (S i)). exact El.
Qed.
Lemma create_kid_spec f ks : exists a b, ks = a ++ b /\ create_kid f ks = a ++ mkKid f true None :: b /\ listed b = [].
Proof.
  unfold create_kid. destruct (last_hit 0 ks) as [p|] eqn:El.
  - destruct (last_hit_some _ _ _ El) as (a & k & b & -> & -> & _ & Hb). exists (a ++ [k]), b. rewrite <- app_assoc. cbn. split; [reflexivity|]. split; [|assumption].
    unfold insert_nth. rewrite Nat.add_1_r. replace (S (length a)) with (length (a ++ [k])) by (rewrite app_length; cbn; lia).
    change (a ++ k :: b) with (a ++ [k] ++ b). rewrite app_assoc, firstn_app, firstn_all, Nat.sub_diag, skipn_app, skipn_all, Nat.sub_diag. cbn. now rewrite app_nil_r.
  - apply last_hit_none in El. exists ks, []. rewrite app_nil_r. auto.
Qed.

(** one item assignment at position [length pre] *)
Lemma set_step f v ks pre rest : NoDup (ids ks) -> agrees v ks -> listed ks = pre ++ rest -> ~ In (kid_id v) (ids pre) -> ~ In f (ids ks) -> f <> kid_id v ->
  exists ks', nl_setitem f (Z.of_nat (length pre)) v ks = (ks', Ret tt) /\ listed ks' = pre ++ v :: drop_id (kid_id v) (tl rest) /\
    unlisted ks' = unlisted ks /\ NoDup (ids ks') /\ (forall k, In k ks' -> k = v \/ In k ks).
Proof.
  intros Hn Ha Hl Hpre Hf Hfv. unfold nl_setitem. rewrite Hl, app_length. destruct rest as [|old rest].
  - rewrite Nat.add_0_r, Z.eqb_refl. rewrite app_nil_r in Hl. cbn [length].
    destruct (create_kid_spec f ks) as (a & b & -> & Hc & Hb). rewrite Hc. set (K := mkKid f true None).
    assert (Hlc : listed (a ++ K :: b) = pre ++ [K]).
    { unfold listed in *. rewrite filter_app in *. cbn. rewrite Hb in *. rewrite app_nil_r in Hl. now rewrite Hl. }
    rewrite Hlc, nth_error_app2, Nat.sub_diag by lia. cbn [nth_error].
    assert (HnK : NoDup (ids (a ++ K :: b))).
    { unfold ids in *. rewrite map_app in *. cbn. apply NoDup_Add with (a := f) (l := map kid_id a ++ map kid_id b); [apply Add_app|]. auto. }
    destruct (listed_replace K v (a ++ K :: b) HnK) as (L1 & L2 & L3 & L4).
    { apply in_or_app. right. now left. }
    { reflexivity. }
    { destruct Ha as [Hv Ha]. split; [assumption|]. intros k Hk He. apply in_app_or in Hk as [Hk|[<-|Hk]].
      - apply Ha; [|assumption]. apply in_or_app. now left.
      - cbn in He. contradiction.
      - apply Ha; [|assumption]. apply in_or_app. now right. }
    eexists. split; [reflexivity|]. split; [|split; [|split; [assumption|]]].
    + rewrite L1, Hlc, replace_mid; [|rewrite <- Hlc; now apply filter_NoDup_ids]. rewrite drop_id_none by assumption. reflexivity.
    + rewrite L2. unfold unlisted. rewrite !filter_app. reflexivity.
    + intros k Hk. assert (Hd : ~ In K (replace_kid K v (a ++ K :: b))).
      { rewrite (replace_mid K v a b HnK). intros H. unfold ids in HnK. rewrite map_app in HnK. cbn in HnK. apply NoDup_remove_2 in HnK.
        apply in_app_or in H as [H|[H|H]].
        - apply filter_In in H as [H _]. apply HnK, in_or_app. left. change f with (kid_id K). now apply in_map.
        - apply Hfv. rewrite H. reflexivity.
        - apply filter_In in H as [H _]. apply HnK, in_or_app. right. change f with (kid_id K). now apply in_map. }
      destruct (L4 k Hk) as [->|H]; [now left|]. right. apply in_app_or in H as [H|[<-|H]]; [apply in_or_app; now left|contradiction|apply in_or_app; now right].
  - cbn [length]. destruct (Z.eqb_spec (Z.of_nat (length pre)) (Z.of_nat (length pre + S (length rest)))); [lia|].
    destruct (Z.ltb_spec (Z.of_nat (length pre + S (length rest))) (Z.of_nat (length pre))); [lia|].
    assert (Hnth : py_nth (Z.of_nat (length pre)) (pre ++ old :: rest) = Some old).
    { unfold py_nth, py_idx. rewrite app_length. cbn [length]. destruct (Z.leb_spec 0 (Z.of_nat (length pre))); [|lia].
      destruct (Z.ltb_spec (Z.of_nat (length pre)) (Z.of_nat (length pre + S (length rest)))); [|lia]. rewrite Nat2Z.id, nth_error_app2, Nat.sub_diag by lia. reflexivity. }
    rewrite Hnth.
    assert (Hold : In old ks /\ kid_hit old = true).
    { assert (G : In old (listed ks)) by (rewrite Hl; apply in_or_app; right; now left). unfold listed in G. now apply filter_In in G. }
    destruct Hold as [Ho1 Ho2]. destruct (listed_replace old v ks Hn Ho1 Ho2 Ha) as (L1 & L2 & L3 & L4).
    eexists. split; [reflexivity|]. split; [|auto]. rewrite L1, Hl, replace_mid; [|rewrite <- Hl; now apply filter_NoDup_ids].
    rewrite drop_id_none by assumption. reflexivity.
Qed.

Lemma set_all_spec : forall vs f ks pre rest, NoDup (ids ks) -> NoDup (ids (pre ++ vs)) -> (forall v, In v vs -> agrees v ks) -> listed ks = pre ++ rest ->
  (forall g, f <= g -> ~ In g (ids ks) /\ ~ In g (ids vs)) ->
  exists ks' rest', nl_set_all f (length pre) vs ks = (ks', Ret tt) /\ listed ks' = pre ++ vs ++ rest' /\ unlisted ks' = unlisted ks /\ NoDup (ids ks').
Proof.
  induction vs as [|v vs IH]; intros f ks pre rest Hn Hnv Ha Hl Hf.
  - exists ks, rest. cbn. auto.
  - destruct (set_step f v ks pre rest Hn (Ha v (or_introl eq_refl)) Hl) as (ks1 & H1 & H2 & H3 & H4 & H5).
    { unfold ids in Hnv. rewrite map_app in Hnv. cbn in Hnv. apply NoDup_remove_2 in Hnv. intros H. apply Hnv, in_or_app. now left. }
    { apply Hf. lia. }
    { intros He. apply (proj2 (Hf f (Nat.le_refl _))). now left. }
    destruct (IH (S f) ks1 (pre ++ [v]) (drop_id (kid_id v) (tl rest))) as (ks2 & rest2 & G1 & G2 & G3 & G4); auto.
    + now rewrite <- app_assoc.
    + intros w Hw. destruct (Ha w (or_intror Hw)) as [Hh Hc]. split; [assumption|]. intros k Hk He. destruct (H5 k Hk) as [->|Hk']; [|auto].
      exfalso. unfold ids in Hnv. rewrite map_app in Hnv. cbn in Hnv. apply NoDup_remove_2 in Hnv. apply Hnv, in_or_app. right. rewrite He. now apply in_map.
    + now rewrite <- app_assoc.
    + intros g Hg. split.
      * intros H. unfold ids in H. apply in_map_iff in H as (k & <- & Hk). destruct (H5 k Hk) as [->|Hk'].
        -- apply (proj2 (Hf (kid_id v) ltac:(lia))). now left.
        -- apply (proj1 (Hf (kid_id k) ltac:(lia))). now apply in_map.
      * intros H. apply (proj2 (Hf g ltac:(lia))). now right.
    + exists ks2, rest2. cbn [nl_set_all]. rewrite H1. rewrite app_length, Nat.add_1_r in G1. rewrite <- app_assoc in G2. rewrite G3. auto.
Qed.

Lemma unlisted_drop k ks : NoDup (ids ks) -> In k ks -> kid_hit k = true -> unlisted (drop_id (kid_id k) ks) = unlisted ks.
Proof.
  intros Hn Hk Hh. unfold unlisted, drop_id. enough (G : forall l, incl l ks -> filter (fun k0 => negb (kid_hit k0)) (filter (fun x => negb (kid_id x =? kid_id k)) l) = filter (fun k0 => negb (kid_hit k0)) l) by (apply G, incl_refl).
  induction l as [|x l IH]; intros Hl; cbn; [reflexivity|]. rewrite <- IH by (intros y Hy; apply Hl; now right).
  destruct (Nat.eqb_spec (kid_id x) (kid_id k)) as [He|He]; cbn.
  - assert (x = k) as -> by (apply (ids_inj ks); auto; apply Hl; now left). now rewrite Hh.
  - reflexivity.
Qed.

Lemma listed_drop j ks : listed (drop_id j ks) = drop_id j (listed ks).
Proof.
  induction ks as [|x ks IH]; cbn; [reflexivity|]. unfold listed, drop_id in *. destruct (kid_id x =? j) eqn:Ex; cbn; destruct (kid_hit x); cbn; rewrite ?Ex; cbn; now rewrite IH.
Qed.

Lemma del_last ks pre k : NoDup (ids ks) -> listed ks = pre ++ [k] ->
  exists ks', nl_delitem (Z.of_nat (length (listed ks)) - 1) ks = (ks', Ret tt) /\ listed ks' = pre /\ unlisted ks' = unlisted ks /\ NoDup (ids ks') /\ length ks' <= length ks.
Proof.
  intros Hn Hl. unfold nl_delitem. rewrite Hl, app_length. cbn [length].
  destruct (Z.leb_spec (Z.of_nat (length pre + 1)) (Z.of_nat (length pre + 1) - 1)); [lia|].
  assert (Hnth : py_nth (Z.of_nat (length pre + 1) - 1) (pre ++ [k]) = Some k).
  { unfold py_nth, py_idx. rewrite app_length. cbn [length]. destruct (Z.leb_spec 0 (Z.of_nat (length pre + 1) - 1)); [|lia].
    destruct (Z.ltb_spec (Z.of_nat (length pre + 1) - 1) (Z.of_nat (length pre + 1))); [|lia]. replace (Z.to_nat (Z.of_nat (length pre + 1) - 1)) with (length pre) by lia.
    rewrite nth_error_app2, Nat.sub_diag by lia. reflexivity. }
  rewrite Hnth. fold (drop_id (kid_id k) ks). exists (drop_id (kid_id k) ks). split; [reflexivity|].
  assert (Hk : In k ks /\ kid_hit k = true).
  { assert (G : In k (listed ks)) by (rewrite Hl; apply in_or_app; right; now left). now apply filter_In in G. }
  split; [|split; [|split]].
  - rewrite listed_drop, Hl. unfold drop_id. rewrite filter_app. cbn. rewrite Nat.eqb_refl. cbn. rewrite app_nil_r. apply drop_id_none.
    pose proof (filter_NoDup_ids kid_hit _ Hn) as G. fold (listed ks) in G. rewrite Hl in G. unfold ids in *. rewrite map_app in G. cbn in G. apply NoDup_remove_2 in G. now rewrite app_nil_r in G.
  - now apply unlisted_drop.
  - now apply filter_NoDup_ids.
  - unfold drop_id. clear. induction ks as [|x ks IH]; cbn; [lia|]. destruct (negb (kid_id x =? kid_id k)); cbn; lia.
Qed.

Lemma trim_spec vs : forall fuel ks rest, NoDup (ids ks) -> listed ks = vs ++ rest -> length rest <= fuel ->
  exists ks', nl_trim (length vs) fuel ks = (ks', Ret tt) /\ listed ks' = vs /\ unlisted ks' = unlisted ks /\ NoDup (ids ks').
Proof.
  induction fuel as [|g IH]; intros ks rest Hn Hl Hf.
  - destruct rest; [|cbn in Hf; lia]. rewrite app_nil_r in Hl. exists ks. unfold nl_trim. rewrite Hl, Nat.ltb_irrefl. auto.
  - destruct (rev rest) as [|k r] eqn:Er.
    + assert (rest = []) as -> by (rewrite <- (rev_involutive rest), Er; reflexivity). rewrite app_nil_r in Hl. exists ks. cbn [nl_trim]. rewrite Hl, Nat.ltb_irrefl. auto.
    + assert (rest = rev r ++ [k]) as -> by (rewrite <- (rev_involutive rest), Er; reflexivity). rewrite app_assoc in Hl.
      destruct (del_last ks _ k Hn Hl) as (ks1 & H1 & H2 & H3 & H4 & _). rewrite app_length in Hf. cbn in Hf.
      destruct (IH ks1 (rev r) H4 H2) as (ks2 & G1 & G2 & G3 & G4); [lia|]. exists ks2. cbn [nl_trim].
      destruct (Nat.ltb_spec (length vs) (length (listed ks))) as [_|Hge]; [|rewrite Hl, !app_length in Hge; cbn in Hge; lia].
      rewrite H1. rewrite G3. auto.
Qed.

Theorem nl_set_spec f vs ks : NoDup (ids ks) -> NoDup (ids vs) -> (forall v, In v vs -> agrees v ks) -> (forall g, f <= g -> ~ In g (ids ks) /\ ~ In g (ids vs)) ->
  exists ks', nl_set f vs ks = (ks', Ret tt) /\ listed ks' = vs /\ unlisted ks' = unlisted ks /\ NoDup (ids ks').
Proof.
  intros Hn Hv Ha Hf. destruct (set_all_spec vs f ks [] (listed ks) Hn Hv Ha eq_refl Hf) as (ks1 & rest & H1 & H2 & H3 & H4).
  cbn [app length] in *. destruct (trim_spec vs (length ks1) ks1 rest H4 H2) as (ks2 & G1 & G2 & G3 & G4).
  { pose proof (f_equal (@length _) H2) as G. rewrite app_length in G.
    assert (length (listed ks1) <= length ks1) by (unfold listed; clear; induction ks1 as [|x l IH]; cbn; [lia|]; destruct (kid_hit x); cbn; lia). lia. }
  exists ks2. unfold nl_set. rewrite H1. rewrite G3. auto.
Qed.

(** one item replaced; the assigned node may be anywhere *)
Theorem nl_setitem_spec f v ks i old : NoDup (ids ks) -> agrees v ks -> nth_error (listed ks) i = Some old ->
  exists ks', nl_setitem f (Z.of_nat i) v ks = (ks', Ret tt) /\ listed ks' = replace_kid old v (listed ks) /\ unlisted ks' = unlisted ks.
Proof.
  intros Hn Ha Hi. assert (Hold : In old ks /\ kid_hit old = true) by (apply nth_error_In in Hi; now apply filter_In in Hi).
  destruct Hold as [Ho1 Ho2]. destruct (listed_replace old v ks Hn Ho1 Ho2 Ha) as (L1 & L2 & _).
  assert (Hlt : i < length (listed ks)) by (apply nth_error_Some; congruence).
  unfold nl_setitem. destruct (Z.eqb_spec (Z.of_nat i) (Z.of_nat (length (listed ks)))); [lia|]. destruct (Z.ltb_spec (Z.of_nat (length (listed ks))) (Z.of_nat i)); [lia|].
  unfold py_nth, py_idx. destruct (Z.leb_spec 0 (Z.of_nat i)); [|lia]. destruct (Z.ltb_spec (Z.of_nat i) (Z.of_nat (length (listed ks)))); [|lia]. rewrite Nat2Z.id, Hi. eauto.
Qed.
Theorem nl_append_spec f v ks : NoDup (ids ks) -> agrees v ks -> ~ In f (ids ks) -> f <> kid_id v -> ~ In (kid_id v) (ids (listed ks)) ->
  exists ks', nl_append f v ks = (ks', Ret tt) /\ listed ks' = listed ks ++ [v] /\ unlisted ks' = unlisted ks.
Proof.
  intros Hn Ha Hf Hfv Hv. destruct (set_step f v ks (listed ks) [] Hn Ha (eq_sym (app_nil_r _)) Hv Hf Hfv) as (ks' & H1 & H2 & H3 & _). exists ks'. auto.
Qed.

(** insert before the [i]th listed node *)
Lemma create_before_spec f : forall ks i, i < length (listed ks) ->
  exists a b, ks = a ++ b /\ create_before f i ks = a ++ mkKid f true None :: b /\ listed a = firstn i (listed ks) /\ listed b = skipn i (listed ks).
Proof.
  induction ks as [|k ks IH]; intros i Hi; [cbn in Hi; lia|]. unfold listed in *. cbn [create_before filter] in *. destruct (kid_hit k) eqn:Hk.
  - destruct i as [|i].
    + exists [], (k :: ks). cbn. rewrite Hk. auto.
    + destruct (IH i) as (a & b & -> & H1 & H2 & H3); [cbn in Hi; lia|]. exists (k :: a), b. rewrite H1. cbn. rewrite Hk, H2, H3. auto.
  - destruct (IH i Hi) as (a & b & -> & H1 & H2 & H3). exists (k :: a), b. rewrite H1. cbn. rewrite Hk, H2, H3. auto.
Qed.
Theorem nl_insert_spec f v ks i : NoDup (ids ks) -> agrees v ks -> ~ In f (ids ks) -> ~ In (S f) (ids ks) -> f <> kid_id v -> S f <> kid_id v ->
  i <= length (listed ks) -> ~ In (kid_id v) (ids (firstn i (listed ks))) ->
  exists ks', nl_insert f (Z.of_nat i) v ks = (ks', Ret tt) /\ listed ks' = firstn i (listed ks) ++ v :: drop_id (kid_id v) (skipn i (listed ks)) /\ unlisted ks' = unlisted ks.
Proof.
  intros Hn Ha Hf Hf2 Hfv Hfv2 Hi Hv. unfold nl_insert. destruct (Z.eqb_spec (Z.of_nat i) (Z.of_nat (length (listed ks)))) as [He|He].
  - assert (i = length (listed ks)) as -> by lia. rewrite firstn_all in *. rewrite skipn_all. apply nl_append_spec; auto.
  - destruct (Z.ltb_spec (Z.of_nat i) (Z.of_nat (length (listed ks)))); [|lia]. unfold py_idx. destruct (Z.leb_spec 0 (Z.of_nat i)); [|lia].
    destruct (Z.ltb_spec (Z.of_nat i) (Z.of_nat (length (listed ks)))); [|lia]. rewrite Nat2Z.id.
    destruct (create_before_spec f ks i) as (a & b & Heq & Hc & HA & HB); [lia|]. rewrite Hc. set (K := mkKid f true None).
    assert (HnK : NoDup (ids (a ++ K :: b))).
    { subst ks. unfold ids in *. rewrite map_app in *. cbn. apply NoDup_Add with (a := f) (l := map kid_id a ++ map kid_id b); [apply Add_app|]. auto. }
    assert (HlK : listed (a ++ K :: b) = firstn i (listed ks) ++ K :: skipn i (listed ks)).
    { unfold listed in *. rewrite filter_app. cbn. now rewrite HA, HB. }
    destruct (set_step (S f) v (a ++ K :: b) (firstn i (listed ks)) (K :: skipn i (listed ks)) HnK) as (ks' & G1 & G2 & G3 & _); auto.
    + destruct Ha as [Hh Ha]. split; [assumption|]. intros k Hk He'. apply in_app_or in Hk as [Hk|[<-|Hk]].
      * apply Ha; [|assumption]. subst ks. apply in_or_app. now left.
      * cbn in He'. contradiction.
      * apply Ha; [|assumption]. subst ks. apply in_or_app. now right.
    + subst ks. unfold ids in *. rewrite map_app in *. cbn. intros H'. apply in_app_or in H' as [H'|[H'|H']]; [apply Hf2, in_or_app; now left|lia|apply Hf2, in_or_app; now right].
    + rewrite firstn_length, Nat.min_l in G1 by lia. exists ks'. split; [exact G1|]. split; [exact G2|]. rewrite G3. rewrite Heq. unfold unlisted. rewrite !filter_app. reflexivity.
Qed.

(** del at any position, pop *)
Theorem nl_delitem_spec ks i k : NoDup (ids ks) -> nth_error (listed ks) i = Some k ->
  exists ks', nl_delitem (Z.of_nat i) ks = (ks', Ret tt) /\ listed ks' = firstn i (listed ks) ++ skipn (S i) (listed ks) /\ unlisted ks' = unlisted ks.
Proof.
  intros Hn Hi. assert (Hlt : i < length (listed ks)) by (apply nth_error_Some; congruence). unfold nl_delitem.
  destruct (Z.leb_spec (Z.of_nat (length (listed ks))) (Z.of_nat i)); [lia|].
  unfold py_nth, py_idx. destruct (Z.leb_spec 0 (Z.of_nat i)); [|lia]. destruct (Z.ltb_spec (Z.of_nat i) (Z.of_nat (length (listed ks)))); [|lia]. rewrite Nat2Z.id, Hi.
  fold (drop_id (kid_id k) ks). exists (drop_id (kid_id k) ks). split; [reflexivity|].
  assert (Hk : In k ks /\ kid_hit k = true) by (apply nth_error_In in Hi; now apply filter_In in Hi). split; [|now apply unlisted_drop].
  rewrite listed_drop. pose proof (filter_NoDup_ids kid_hit _ Hn) as G. fold (listed ks) in G. revert G Hi. generalize (listed ks) as l. clear.
  intros l. revert i. induction l as [|x l IH]; intros i G Hi; [destruct i; discriminate|]. inversion G as [|? ? Gx G']; subst. destruct i as [|i].
  - injection Hi as ->. cbn. rewrite Nat.eqb_refl. cbn. fold (drop_id (kid_id k) l). now apply drop_id_none.
  - cbn in Hi. specialize (IH i G' Hi). unfold drop_id in *. cbn [filter firstn skipn app]. destruct (Nat.eqb_spec (kid_id x) (kid_id k)) as [He|_].
    + exfalso. apply Gx. rewrite He. apply in_map. now apply nth_error_In in Hi.
    + cbn. now rewrite IH.
Qed.
