(** C75 for every kind of value, through C84 and C86: [Cls(k1=v1, ...)] is a new object whose fields hold the keywords' values. *)
From Coq Require Import String Arith ZArith Lia.
From Verif Require Export Props_Leaf.
From Verif Require Import XPathEval FieldSpec DocSpec IndepSpec.
Opaque u.

(** the keyword arguments as assignments, in their order *)
Definition as_sets (kw : list (str * pyval)) : list rop := map (fun kv => RSet (fst kv) (snd kv)) kw.
Lemma construct_sets E tbl kw : forall d d' rs, run_rops E tbl (as_sets kw) d = (d', rs) -> (exists ws, rs = map (fun w => Ret w) ws) -> iterM (set_attribute E tbl) kw d = (d', Ret tt).
Proof.
  induction kw as [|[k v] kw IH]; intros d d' rs H W; cbn [as_sets map run_rops] in H; [injection H as <- _; reflexivity|]. cbn [iterM]. unfold bind. cbn [run_rop fst snd] in H.
  destruct (set_attribute E tbl (k, v) d) as [d1 r] eqn:S. fold (as_sets kw) in H. destruct (run_rops E tbl (as_sets kw) d1) as [d2 rs2] eqn:R. injection H as <- <-.
  destruct W as [[|w ws] W]; [discriminate|]. cbn [map] in W. injection W as W1 W2. destruct r as [[]|x]; [|discriminate]. apply (IH d1 d2 rs2 R). eauto.
Qed.
Lemma rec_sets ty kw : forall s, NoDup (map fst kw) -> (forall k v, In (k, v) kw -> fst (rec_ops ty (as_sets kw) s) k = stored_value (ty k) v) /\ (forall k, ~ In k (map fst kw) -> fst (rec_ops ty (as_sets kw) s) k = s k).
Proof.
  induction kw as [|[k0 v0] kw IH]; intros s Hnd; [split; [contradiction|reflexivity]|]. cbn [map fst] in Hnd. inversion Hnd as [|? ? Hn Hnd']; subst. cbn [as_sets map rec_ops rec_op fst snd].
  destruct (IH (rec_put s k0 (stored_value (ty k0) v0)) Hnd') as [I1 I2]. fold (as_sets kw). destruct (rec_ops ty (as_sets kw) (rec_put s k0 (stored_value (ty k0) v0))) as [s2 ws]. cbn [fst] in *. split.
  - intros k v [[= -> ->]|H]; [|auto]. rewrite (I2 k Hn). unfold rec_put. now rewrite str_eqb_refl.
  - intros k Hk. rewrite I2 by (intros H; apply Hk; now right). unfold rec_put. destruct (str_eqb k k0) eqn:E; [|reflexivity]. apply str_eqb_eq in E. destruct Hk. now left.
Qed.

(** what an attribute of the new object reads: the value given for it, or unset *)
Definition given (tbl : field_table) (kw : list (str * pyval)) (k : str) (w : pyval) : Prop :=
  (exists v, In (k, v) kw /\ w = stored_value (field_type tbl k) v) \/ (~ In k (map fst kw) /\ w = unset (field_type tbl k)).
Lemma rec_given tbl kw s k : NoDup (map fst kw) -> s = (fun k => unset (field_type tbl k)) -> given tbl kw k (fst (rec_ops (field_type tbl) (as_sets kw) s) k).
Proof.
  intros Hnd ->. destruct (rec_sets (field_type tbl) kw (fun k => unset (field_type tbl k)) Hnd) as [A B]. destruct (in_dec (list_eq_dec N.eq_dec) k (map fst kw)) as [H|H]; [left|right; auto].
  apply in_map_iff in H as ([k' v] & <- & H). exists v. auto.
Qed.

(** Any class of fields that part ways, any keywords with values the fields can keep (strings, integers, booleans, dates,
    points in time, None): the object is built and every field reads what was given, or unset. *)
Theorem C75_all_values : forall E root tbl ks kw,
  (forall k, In k ks -> exists e m, has_field tbl k e m /\ value_field m /\ sound_path E e) ->
  (forall k k' e e' m m', In k ks -> In k' ks -> k <> k' -> has_field tbl k e m -> has_field tbl k' e' m' -> fork E e e') ->
  NoDup (map fst kw) -> (forall k v, In (k, v) kw -> In k ks /\ forall e m, has_field tbl k e m -> keepable (is_attr_field E e) m v) ->
  exists d', construct E root tbl kw = (d', Ret tt) /\ forall k, In k ks -> exists w, given tbl kw k w /\ get_attribute E tbl k d' = Ret w.
Proof.
  intros E root tbl ks kw Hf Hfk Hnd Hkw. pose proof (C84_new_object E root tbl ks (as_sets kw) Hf Hfk) as G. pose proof (rec_given tbl kw (fun k => unset (field_type tbl k))) as V.
  assert (Ho : forall o, In o (as_sets kw) -> sound_op E tbl ks o).
  { intros o Hi. apply in_map_iff in Hi as ([k v] & <- & Hi). destruct (Hkw k v Hi) as [H1 H2]. split; [exact H1|]. intros k' v' e m [= <- <-]. apply H2. }
  specialize (G Ho). destruct (run_rops E tbl (as_sets kw) (new_root root)) as [d' rs] eqn:R, (rec_ops (field_type tbl) (as_sets kw) (fun k => unset (field_type tbl k))) as [s' ws]. destruct G as [-> G]. exists d'. split.
  - unfold construct. eapply construct_sets; eauto.
  - intros k Hk. exists (s' k). split; [exact (V k Hnd eq_refl)|auto].
Qed.
(** the classes of C84 *)
Theorem C75_shipped_values : forall c E root kw,
  In c record_classes -> (forall r, In r (value_rows c) -> binds E (r_ns r)) -> NoDup (map fst kw) ->
  (forall k v, In (k, v) kw -> exists r, In r (value_rows c) /\ k = u (r_field r) /\ keepable false (row_mapper r) v) ->
  let tbl := rows_table (value_rows c) in
  exists d', construct E root tbl kw = (d', Ret tt) /\ forall r, In r (value_rows c) -> exists w, given tbl kw (u (r_field r)) w /\ get_attribute E tbl (u (r_field r)) d' = Ret w.
Proof.
  intros c E root kw Hc B Hnd Hkw tbl. pose proof (C84_shipped_classes c E root (as_sets kw) Hc B) as G. fold tbl in G. cbv zeta in G. pose proof (rec_given tbl kw (fun k => unset (field_type tbl k))) as V.
  assert (Ho : forall o, In o (as_sets kw) -> exists r, In r (value_rows c) /\ rop_field o = u (r_field r) /\ forall v, o = RSet (u (r_field r)) v -> keepable false (row_mapper r) v).
  { intros o Hi. apply in_map_iff in Hi as ([k v] & <- & Hi). destruct (Hkw k v Hi) as (r & H1 & H2 & H3). exists r. split; [exact H1|]. split; [exact H2|]. intros v' [= _ <-]. exact H3. }
  specialize (G Ho). clear Ho Hkw. destruct (run_rops E tbl (as_sets kw) (new_root root)) as [d' rs] eqn:R, (rec_ops (field_type tbl) (as_sets kw) (fun k => unset (field_type tbl k))) as [s' ws]. destruct G as [-> G]. exists d'. split.
  - unfold construct. eapply construct_sets; eauto.
  - intros r Hr. exists (s' (u (r_field r))). split; [exact (V _ Hnd eq_refl)|auto].
Qed.

(** ** leaf classes *)
(** the text the new element gets: the last string among the keywords for text fields, or none (None as keyword: the empty string if a
    string came before it and the field is [text()]) *)
Fixpoint last_text (tf : text_fields) (kw : list (str * pyval)) (t : option str) : option str :=
  match kw with
  | [] => t
  | (k, v) :: kw => last_text tf kw match tf k, v with None, _ => t | Some _, PStr s => Some s | Some (p, _), _ => clear_part p t end
  end.
Lemma leaf_sets tf ty kw : forall s t, NoDup (map fst kw) -> let '((s', t'), _) := leaf_ops tf ty (as_sets kw) (s, t) in
  t' = last_text tf kw t /\ (forall k v, In (k, v) kw -> tf k = None -> s' k = stored_value (ty k) v) /\ (forall k, ~ In k (map fst kw) -> s' k = s k).
Proof.
  induction kw as [|[k0 v0] kw IH]; intros s t Hnd; [cbn; split; [reflexivity|]; split; [contradiction|reflexivity]|]. cbn [map fst] in Hnd. inversion Hnd as [|? ? Hn Hnd']; subst. cbn [as_sets map leaf_ops last_text fst snd].
  fold (as_sets kw). unfold leaf_op. cbn [rop_field fst snd rec_op]. destruct (tf k0) as [[p norm]|] eqn:T.
  - assert (X : forall t1, let '((s', t'), _) := leaf_ops tf ty (as_sets kw) (s, t1) in t' = last_text tf kw t1 /\ (forall k v, (k0, v0) = (k, v) \/ In (k, v) kw -> tf k = None -> s' k = stored_value (ty k) v) /\ (forall k, ~ (k0 = k \/ In k (map fst kw)) -> s' k = s k)).
    { intros t1. specialize (IH s t1 Hnd'). destruct (leaf_ops tf ty (as_sets kw) (s, t1)) as [[s' t'] ws]. destruct IH as (I1 & I2 & I3). split; [exact I1|]. split; [|intros k Hk; apply I3; tauto]. intros k v [[= -> ->]|H] Hk; [congruence|auto]. }
    destruct v0; match goal with |- context [leaf_ops tf ty (as_sets kw) (s, ?t1)] => specialize (X t1); destruct (leaf_ops tf ty (as_sets kw) (s, t1)) as [[s' t'] ws]; exact X end.
  - specialize (IH (rec_put s k0 (stored_value (ty k0) v0)) t Hnd'). destruct (leaf_ops tf ty (as_sets kw) (rec_put s k0 (stored_value (ty k0) v0), t)) as [[s' t'] ws]. destruct IH as (I1 & I2 & I3). split; [exact I1|]. split.
    + intros k v [[= -> ->]|H] Hk; [|auto]. rewrite (I3 k Hn). unfold rec_put. now rewrite str_eqb_refl.
    + intros k Hk. cbn [In] in Hk. rewrite I3 by tauto. unfold rec_put. destruct (str_eqb k k0) eqn:E; [|reflexivity]. apply str_eqb_eq in E. destruct Hk. now left.
Qed.
(** the leaf classes of C86: attributes as given or unset, and the text *)
Theorem C75_shipped_leaf : forall c E root kw,
  In c leaf_classes -> (forall r, In r (value_rows c) -> binds E (r_ns r)) -> NoDup (map fst kw) ->
  (forall k v, In (k, v) kw -> exists r, In r (value_rows c) /\ k = u (r_field r) /\ row_value r v) ->
  let tbl := rows_table (value_rows c) in
  exists d', construct E root tbl kw = (d', Ret tt) /\ is_leaf d' (last_text (rows_text (value_rows c)) kw None) /\ tag_of d' = Some root /\
    forall r, In r (value_rows c) -> is_text_row r = false -> exists w, given tbl kw (u (r_field r)) w /\ get_attribute E tbl (u (r_field r)) d' = Ret w.
Proof.
  intros c E root kw Hc B Hnd Hkw tbl. pose proof (C86_shipped_classes c E root (as_sets kw) Hc B) as G. fold tbl in G. cbv zeta in G.
  pose proof (leaf_sets (rows_text (value_rows c)) (field_type tbl) kw (fun k => unset (field_type tbl k)) None Hnd) as V.
  assert (TF : forall r, In r (value_rows c) -> is_text_row r = false -> rows_text (value_rows c) (u (r_field r)) = None).
  { apply leaf_classes_ok in Hc. revert Hc. generalize (value_rows c). intros l Hl r Hr Ht. unfold leaf_rows in Hl. apply andb_prop in Hl as [Hl _]. apply andb_prop in Hl as [Hl _]. apply andb_prop in Hl as [Hl _]. rewrite (rows_text_row l r Hl Hr). unfold is_text_row in Ht. now destruct (text_part r). }
  assert (Ho : forall o, In o (as_sets kw) -> exists r, In r (value_rows c) /\ rop_field o = u (r_field r) /\ forall v, o = RSet (u (r_field r)) v -> row_value r v).
  { intros o Hi. apply in_map_iff in Hi as ([k v] & <- & Hi). destruct (Hkw k v Hi) as (r & H1 & H2 & H3). exists r. split; [exact H1|]. split; [exact H2|]. intros v' [= _ <-]. exact H3. }
  specialize (G Ho). clear Ho Hkw. revert G V TF. generalize (rows_text (value_rows c)). intros tf G V TF.
  destruct (run_rops E tbl (as_sets kw) (new_root root)) as [d' rs] eqn:R, (leaf_ops tf (field_type tbl) (as_sets kw) (fun k => unset (field_type tbl k), None)) as [[s' t'] ws] eqn:LO. destruct G as (-> & G1 & G2 & G3). match type of V with (let (_, _) := ?x in _) => assert (D : x = ((s', t'), ws)) by exact LO; rewrite D in V end. destruct V as (-> & V1 & V2). exists d'. split.
  - unfold construct. eapply construct_sets; eauto.
  - split; [exact G2|]. split; [exact G3|]. intros r Hr Ht. exists (s' (u (r_field r))). split; [|auto].
    destruct (in_dec (list_eq_dec N.eq_dec) (u (r_field r)) (map fst kw)) as [H|H]; [left|right; auto]. apply in_map_iff in H as ([k' v] & Hk & H). cbn [fst] in Hk. subst k'. exists v. split; [exact H|]. apply V1; auto.
Qed.
Open Scope string_scope.
(** mods.Note(label=..., text=...) *)
Example C75_leaf_case : let kw := [(u "label", PStr (u "l")); (u "text", PStr (u "t"))] in NoDup (map fst kw) /\
  construct E0 (QN None (u "note")) (rows_table (value_rows "Note")) kw = (Elem (QN None (u "note")) [(QN None (u "displayLabel"), u "l")] (Some (u "t")) [], Ret tt) /\
  last_text (rows_text (value_rows "Note")) kw None = Some (u "t").
Proof. cbv zeta. cbn [map fst]. split; [apply NoDup_cons; [intros H; cbn [In] in H; destruct H as [H|H]; [vm_compute in H; discriminate H|exact H]|apply NoDup_cons; [intros H; exact H|apply NoDup_nil]]|]. split; vm_compute; reflexivity. Qed.
(** a class with a date, built with keywords *)
Definition tbl_dated : field_table := [(u "id", (u "@id", MString false)); (u "day", (u "day", MDate iso_date)); (u "n", (u "w/n", MInt))].
Example C75_date_case : construct E0 (QN None (u "r")) tbl_dated [(u "day", PDate (mkDate 2016 4 1)); (u "n", PNone); (u "id", PStr (u "i"))] =
    (el "r" [("id", "i")] "" [el "day" [] "2016-04-01" []], Ret tt) /\
  keepable false (MDate iso_date) (PDate (mkDate 2016 4 1)) /\ keepable false MInt PNone /\
  fork E0 (xp "@id") (xp "day") /\ fork E0 (xp "day") (xp "w/n") /\ sound_path E0 (xp "w/n").
Proof.
  split; [vm_compute; reflexivity|]. split; [|split; [exact I|]].
  - cbn [keepable]. split; [apply Props_Mappers.date_spec; vm_compute; reflexivity|]. split; [vm_compute; discriminate|]. repeat match goal with |- _ /\ _ => split end; vm_compute; reflexivity.
  - split; [|split].
    + apply forkb_ok. vm_compute. reflexivity.
    + apply forkb_ok. vm_compute. reflexivity.
    + repeat match goal with |- sound_path _ _ => unfold sound_path | |- _ /\ _ => split end; vm_compute; congruence.
Qed.
Close Scope string_scope.
Print Assumptions C75_all_values.
Print Assumptions C75_shipped_values.
Print Assumptions C75_shipped_leaf.
