(** Property theorems about NodeListField lists (C33).  The children of the object's node are [ks]; the field
    lists those its XPath selects ([kid_hit]); [kid_id] says which element is which. *)
From Coq Require Import List Arith ZArith Lia.
From Verif Require Import NodeList NodeNodes NodeNodesProofs.
Import ListNotations.

(** the children are distinct elements, and so are the assigned ones, which the XPath selects; an assigned
    element that is among the children is that child; [f], [f+1], ... belong to elements not made yet *)
Definition children_ok (f : nat) (ks vs : list kid) : Prop :=
  NoDup (map kid_id ks) /\ NoDup (map kid_id vs) /\
  (forall v, In v vs -> kid_hit v = true) /\ (forall k v, In k ks -> In v vs -> kid_id k = kid_id v -> k = v) /\
  (forall k, In k (ks ++ vs) -> kid_id k < f).

Lemma children_agree f ks vs : children_ok f ks vs ->
  NoDup (ids ks) /\ NoDup (ids vs) /\ (forall v, In v vs -> agrees v ks) /\ (forall g, f <= g -> ~ In g (ids ks) /\ ~ In g (ids vs)).
Proof.
  intros (H1 & H2 & H3 & H4 & H5). split; [exact H1|]. split; [exact H2|]. split.
  - intros v Hv. split; [auto|]. intros k Hk He. now apply H4.
  - intros g Hg. split; intros H; unfold ids in H; apply in_map_iff in H as (k & <- & Hk); assert (kid_id k < f) by (apply H5, in_or_app; auto); lia.
Qed.

(** ** C33 *)
Theorem C33_assign_nodes : forall f vs ks, children_ok f ks vs ->
  exists ks', nl_set f vs ks = (ks', Ret tt) /\
    filter kid_hit ks' = vs /\
    filter (fun k => negb (kid_hit k)) ks' = filter (fun k => negb (kid_hit k)) ks /\
    NoDup (map kid_id ks').
Proof. intros f vs ks H. apply children_agree in H as (H1 & H2 & H3 & H4). apply nl_set_spec; auto. Qed.

Theorem C33_append_node : forall f v ks, children_ok f ks [v] -> ~ In v ks ->
  exists ks', nl_append f v ks = (ks', Ret tt) /\ filter kid_hit ks' = filter kid_hit ks ++ [v] /\
    filter (fun k => negb (kid_hit k)) ks' = filter (fun k => negb (kid_hit k)) ks.
Proof.
  intros f v ks H Hv. pose proof H as (_ & _ & _ & H5 & _). apply children_agree in H as (H1 & H2 & H3 & H4). apply nl_append_spec; auto.
  - apply H3. now left.
  - apply H4. lia.
  - intros ->. apply (proj2 (H4 (kid_id v) (Nat.le_refl _))). now left.
  - intros H. unfold ids in H. apply in_map_iff in H as (k & He & Hk). apply filter_In in Hk as [Hk _]. apply Hv. rewrite <- (H5 k v Hk (or_introl eq_refl) He). exact Hk.
Qed.

Theorem C33_insert_node : forall f v ks i, children_ok f ks [v] -> ~ In v ks -> i <= length (filter kid_hit ks) ->
  exists ks', nl_insert f (Z.of_nat i) v ks = (ks', Ret tt) /\
    filter kid_hit ks' = firstn i (filter kid_hit ks) ++ v :: skipn i (filter kid_hit ks) /\
    filter (fun k => negb (kid_hit k)) ks' = filter (fun k => negb (kid_hit k)) ks.
Proof.
  intros f v ks i H Hv Hi. pose proof H as (_ & _ & _ & H5 & _). apply children_agree in H as (H1 & H2 & H3 & H4).
  assert (G : forall l, incl l ks -> ~ In (kid_id v) (ids l)).
  { intros l Hl H. unfold ids in H. apply in_map_iff in H as (k & He & Hk). apply Hl in Hk. apply Hv. rewrite <- (H5 k v Hk (or_introl eq_refl) He). exact Hk. }
  assert (GL : incl (listed ks) ks) by (intros k Hk; now apply filter_In in Hk).
  destruct (nl_insert_spec f v ks i) as (ks' & G1 & G2 & G3); auto.
  - apply H3. now left.
  - apply H4. lia.
  - apply H4. lia.
  - intros ->. apply (proj2 (H4 (kid_id v) (Nat.le_refl _))). now left.
  - intros He. apply (proj2 (H4 (kid_id v) ltac:(lia))). now left.
  - apply G. intros k Hk. apply GL. rewrite <- (firstn_skipn i (listed ks)). apply in_or_app. now left.
  - exists ks'. split; [exact G1|]. split; [|exact G3]. unfold listed in *. rewrite G2. rewrite drop_id_none; [reflexivity|].
    apply G. intros k Hk. apply GL. rewrite <- (firstn_skipn i (filter kid_hit ks)). apply in_or_app. now right.
Qed.

Theorem C33_replace_node : forall f v ks i old, children_ok f ks [v] -> ~ In v ks -> nth_error (filter kid_hit ks) i = Some old ->
  exists ks', nl_setitem f (Z.of_nat i) v ks = (ks', Ret tt) /\
    filter kid_hit ks' = firstn i (filter kid_hit ks) ++ v :: skipn (S i) (filter kid_hit ks) /\
    filter (fun k => negb (kid_hit k)) ks' = filter (fun k => negb (kid_hit k)) ks.
Proof.
  intros f v ks i old H Hv Hi. pose proof H as (_ & _ & _ & H5 & _). apply children_agree in H as (H1 & H2 & H3 & H4).
  assert (G : forall l, incl l ks -> ~ In (kid_id v) (ids l)).
  { intros l Hl H. unfold ids in H. apply in_map_iff in H as (k & He & Hk). apply Hl in Hk. apply Hv. rewrite <- (H5 k v Hk (or_introl eq_refl) He). exact Hk. }
  destruct (nth_error_split _ _ Hi) as (a & b & Hab & Hla). fold (listed ks) in Hab. subst i.
  assert (GL : incl (listed ks) ks) by (intros k Hk; now apply filter_In in Hk).
  destruct (set_step f v ks a (old :: b)) as (ks' & G1 & G2 & G3 & _); auto.
  - apply H3. now left.
  - apply G. intros k Hk. apply GL. rewrite Hab. apply in_or_app. now left.
  - apply H4. lia.
  - intros ->. apply (proj2 (H4 (kid_id v) (Nat.le_refl _))). now left.
  - exists ks'. split; [exact G1|]. split; [|exact G3]. unfold listed in *. rewrite G2, Hab. cbn [tl].
    rewrite firstn_app, firstn_all, Nat.sub_diag. cbn [firstn]. rewrite app_nil_r. f_equal. f_equal.
    rewrite drop_id_none; [|apply G; intros k Hk; apply GL; unfold listed; rewrite Hab; apply in_or_app; right; now right].
    replace (S (length a)) with (length (a ++ [old])) by (rewrite app_length; cbn; lia). change (a ++ old :: b) with (a ++ [old] ++ b). rewrite app_assoc.
    rewrite skipn_app, skipn_all, Nat.sub_diag. reflexivity.
Qed.

Theorem C33_delete_node : forall ks i k, NoDup (map kid_id ks) -> nth_error (filter kid_hit ks) i = Some k ->
  exists ks', nl_delitem (Z.of_nat i) ks = (ks', Ret tt) /\
    filter kid_hit ks' = firstn i (filter kid_hit ks) ++ skipn (S i) (filter kid_hit ks) /\
    filter (fun k => negb (kid_hit k)) ks' = filter (fun k => negb (kid_hit k)) ks.
Proof. intros. eapply nl_delitem_spec; eauto. Qed.

(** positions outside the list are refused and nothing changes *)
Theorem C33_out_of_range : forall f v ks k, let n := Z.of_nat (length (filter kid_hit ks)) in
  ((k < - n \/ n < k)%Z -> nl_setitem f k v ks = (ks, Exc XIndex)) /\
  ((k < - n \/ n < k)%Z -> nl_insert f k v ks = (ks, Exc XIndex)) /\
  ((k < - n \/ n <= k)%Z -> nl_delitem k ks = (ks, Exc XIndex)).
Proof.
  intros f v ks k n. assert (P : (k < - n)%Z -> py_nth k (listed ks) = None /\ py_idx k (length (listed ks)) = None).
  { intros H. unfold py_nth. assert (E : py_idx k (length (listed ks)) = None); [|now rewrite E].
    unfold py_idx. unfold listed. fold n. destruct (Z.leb_spec 0 k); [lia|]. destruct (Z.leb_spec 0 (k + n)); [lia|reflexivity]. }
  unfold nl_setitem, nl_insert, nl_delitem. fold (listed ks) in n. fold n.
  split; [|split]; intros H.
  - destruct (Z.eqb_spec k n); [lia|]. destruct (Z.ltb_spec n k); [reflexivity|]. now rewrite (proj1 (P ltac:(lia))).
  - destruct (Z.eqb_spec k n); [lia|]. destruct (Z.ltb_spec k n); [|reflexivity]. now rewrite (proj2 (P ltac:(lia))).
  - destruct (Z.leb_spec n k); [reflexivity|]. now rewrite (proj1 (P ltac:(lia))).
Qed.

(** Without distinctness the claim fails: [obj.nodes = [b, b]] leaves one node, [obj.nodes = [b, b, c]] raises
    IndexError half way. *)
Definition k_ (i : nat) := mkKid i true None.
Theorem C33_duplicates_refuted :
  exists ks', nl_set 10 [k_ 1; k_ 1] [k_ 0; k_ 1] = (ks', Ret tt) /\ filter kid_hit ks' = [k_ 1].
Proof. eexists. split; vm_compute; reflexivity. Qed.
Theorem C33_duplicates_error_refuted : exists ks', nl_set 10 [k_ 1; k_ 1; k_ 2] [] = (ks', Exc XIndex) /\ filter kid_hit ks' = [k_ 1].
Proof. eexists. split; vm_compute; reflexivity. Qed.
(** Assigning the list field of another object, a live view: every second node is skipped, then IndexError. *)
Theorem C33_view_refuted : nl_assign_field 10 [k_ 1; k_ 2; k_ 3; k_ 4] [] = ([k_ 2; k_ 4], [k_ 1; k_ 3], Exc XIndex).
Proof. vm_compute. reflexivity. Qed.

(** reversing two of three nodes and taking in a new one, an unlisted child in between *)
Example C33_case : let ks := [k_ 0; mkKid 5 false None; mkKid 1 true (Some []); k_ 2] in
  children_ok 10 ks [k_ 2; k_ 7; mkKid 1 true (Some []); k_ 0] /\
  nl_set 10 [k_ 2; k_ 7; mkKid 1 true (Some []); k_ 0] ks = ([k_ 2; mkKid 5 false None; k_ 7; mkKid 1 true (Some []); k_ 0], Ret tt).
Proof.
  cbn zeta. split; [|vm_compute; reflexivity]. split; [cbn; repeat constructor; cbn; lia|]. split; [cbn; repeat constructor; cbn; lia|].
  split; [intros v [<-|[<-|[<-|[<-|[]]]]]; reflexivity|]. split.
  - intros k v [<-|[<-|[<-|[<-|[]]]]] [<-|[<-|[<-|[<-|[]]]]]; cbn; intros H; try discriminate H; reflexivity.
  - intros k H. cbn in H. repeat (destruct H as [<-|H]; [cbn; lia|]). contradiction.
Qed.
Example C33_case_new : children_ok 10 [k_ 0; k_ 1] [k_ 7] /\ ~ In (k_ 7) [k_ 0; k_ 1] /\ nth_error (filter kid_hit [k_ 0; k_ 1]) 1 = Some (k_ 1) /\
  nl_insert 10 1 (k_ 7) [k_ 0; k_ 1] = ([k_ 0; k_ 7; k_ 1], Ret tt).
Proof.
  split; [|split; [|split; [reflexivity|vm_compute; reflexivity]]].
  - split; [cbn; repeat constructor; cbn; lia|]. split; [cbn; repeat constructor; cbn; lia|]. split; [intros v [<-|[]]; reflexivity|]. split.
    + intros k v [<-|[<-|[]]] [<-|[]]; cbn; intros H; discriminate H.
    + intros k H. cbn in H. repeat (destruct H as [<-|H]; [cbn; lia|]). contradiction.
  - intros [H|[H|[]]]; discriminate H.
Qed.
