(** C57: a list field over one child step behaves as a Python list through any history that mixes all its
    operations, and disturbs nothing else.  Python's side is [py_xop] (ListSpec.v). *)
From Coq Require Import String Arith ZArith Lia.
From Verif Require Export ListFacts Props_Lists.
From Verif Require Import XPathEval FieldSpec DocSpec ListSpec.

From Verif Require Props_Mappers.

Opaque u.

Lemma in_firstn {A} (x : A) i l : In x (firstn i l) -> In x l.
Proof. intros H. rewrite <- (firstn_skipn i l). apply in_or_app. now left. Qed.
Lemma in_skipn {A} (x : A) i l : In x (skipn i l) -> In x l.
Proof. intros H. rewrite <- (firstn_skipn i l). apply in_or_app. now right. Qed.
Lemma in_without x i l : In x (without i l) -> In x l.
Proof. unfold without. intros H. apply in_app_or in H as [H|H]; [eapply in_firstn|eapply in_skipn]; eauto. Qed.
Lemma py_xop_values o l v : In v (fst (py_xop o l)) -> In v l \/ In v (xop_values o).
Proof.
  destruct o as [o|k w|us|]; cbn [py_xop xop_values]; [destruct o as [k w|w|us|k|k|w]; cbn [py_op op_values]| | |].
  - destruct (Z.eqb k _); cbn [fst]; [intros H; apply in_app_or in H as [H|H]; auto|]. destruct (at_index k (length l)); cbn [fst]; auto. unfold replace_at.
    intros H. apply in_app_or in H as [H|[H|H]]; [left; eapply in_firstn; eauto|right; now left|left; eapply in_skipn; eauto].
  - intros H. apply in_app_or in H. auto.
  - intros H. apply in_app_or in H. auto.
  - destruct (at_index k (length l)); cbn [fst]; auto. intros H. left. eapply in_without; eauto.
  - destruct (at_index _ (length l)); cbn [fst]; auto. intros H. left. eapply in_without; eauto.
  - destruct (find_eq w l); cbn [fst]; auto. intros H. left. eapply in_without; eauto.
  - destruct (Z.leb k _); cbn [fst]; auto. unfold py_insert. intros H. apply in_app_or in H as [H|[H|H]]; [left; eapply in_firstn; eauto|right; now left|left; eapply in_skipn; eauto].
  - auto.
  - intros [].
Qed.

Lemma quiet_ret {A} (m : M A) d d' x : m d = (d', Ret x) -> quiet m d = (d', Ret None).
Proof. intros H. unfold quiet, bind. now rewrite H. Qed.
Lemma quiet_exc {A} (m : M A) d d' x : m d = (d', Exc x) -> quiet m d = (d', Exc x).
Proof. intros H. unfold quiet, bind. now rewrite H. Qed.

Lemma sim_xop E e m (R : frameT) d vs o : step1 e -> growable E e -> LI E e m R d vs -> (forall v, In v vs -> comparable v) ->
  (forall v, In v (xop_values o) -> storable m v) -> nonneg_insert o ->
  exists d', field_xop E e m o d = (d', snd (py_xop o vs)) /\ LI E e m R d' (fst (py_xop o vs)).
Proof.
  intros H1 Hg HL Hc Hv Hn. destruct o as [o|k v|us|]; cbn [field_xop py_xop xop_values nonneg_insert] in *.
  - now apply sim_op.
  - destruct (Z.leb_spec k (Z.of_nat (length vs))); cbn [fst snd].
    + destruct (sim_insert E e m R d vs k v H1 Hg HL (Hv v (or_introl eq_refl)) (conj Hn H)) as (d' & Hi & HL'). exists d'. split; [eapply quiet_ret; eauto|exact HL'].
    + exists d. split; [|exact HL]. apply quiet_exc. eapply insert_out; [apply Hg|exact HL|]. now right.
  - destruct (sim_lmgr_set E e m R us d vs Hg HL Hv) as (d' & Hs & HL'). exists d'. split; [eapply quiet_ret; eauto|exact HL'].
  - destruct (sim_lmgr_delete E e m R d vs (proj1 Hg) HL) as (d' & Hs & HL'); [intros v Hv'; now apply py_eq_refl, Hc|]. exists d'. split; [eapply quiet_ret; eauto|exact HL'].
Qed.
Lemma sim_xops E e m (R : frameT) : step1 e -> growable E e -> forall os d vs, LI E e m R d vs -> (forall v, In v vs -> comparable v) ->
  (forall o, In o os -> nonneg_insert o /\ forall v, In v (xop_values o) -> storable m v /\ comparable v) ->
  exists d', field_xops E e m os d = (d', snd (py_xops os vs)) /\ LI E e m R d' (fst (py_xops os vs)).
Proof.
  intros H1 Hg. induction os as [|o os IH]; intros d vs HL Hc Ho; cbn [field_xops py_xops]; [eauto|].
  destruct (Ho o (or_introl eq_refl)) as [Hn Hv]. destruct (sim_xop E e m R d vs o H1 Hg HL Hc (fun v H => proj1 (Hv v H)) Hn) as (d1 & S1 & HL1). rewrite S1.
  pose proof (py_xop_values o vs) as Hin. destruct (py_xop o vs) as [l1 r1]. cbn [fst snd] in *.
  destruct (IH d1 l1 HL1) as (d2 & S2 & HL2); [intros v H; destruct (Hin v H); [now apply Hc|now apply Hv]|intros; apply Ho; now right|].
  rewrite S2. destruct (py_xops os l1) as [l2 rs]. cbn [fst snd] in *. eauto.
Qed.

(** paths of several steps: every history without insertions, as long as the part before the last step has at most one match (part
    of [holds], and kept) *)
Definition no_insert (o : xop) : Prop := match o with XInsert _ _ => False | _ => True end.
Lemma sim_long E e m (R : frameT) d vs o : growable E e -> LI E e m R d vs -> (forall v, In v vs -> comparable v) ->
  (forall v, In v (xop_values o) -> storable m v) -> no_insert o ->
  exists d', field_xop E e m o d = (d', snd (py_xop o vs)) /\ LI E e m R d' (fst (py_xop o vs)).
Proof.
  intros Hg HL Hc Hv Hn. destruct o as [o|k v|us|]; cbn [field_xop py_xop xop_values no_insert] in *.
  - now apply sim_op.
  - contradiction.
  - destruct (sim_lmgr_set E e m R us d vs Hg HL Hv) as (d' & Hs & HL'). exists d'. split; [eapply quiet_ret; eauto|exact HL'].
  - destruct (sim_lmgr_delete E e m R d vs (proj1 Hg) HL) as (d' & Hs & HL'); [intros v Hv'; now apply py_eq_refl, Hc|]. exists d'. split; [eapply quiet_ret; eauto|exact HL'].
Qed.
Theorem C57_long_paths : forall E e m d vs os,
  list_field E e = true -> holds E e m d vs -> (forall v, In v vs -> comparable v) ->
  (forall o, In o os -> no_insert o /\ forall v, In v (xop_values o) -> storable m v /\ comparable v) ->
  exists d', field_xops E e m os d = (d', snd (py_xops os vs)) /\ holds E e m d' (fst (py_xops os vs)) /\
    (forall l op r, e = EBin l op r -> rest_kept E l r d d').
Proof.
  intros E e m d vs os Hf Hh Hc Ho. pose proof (list_field_growable _ _ Hf) as Hg. pose proof (proj1 (holds_LI _ _ _ _ _ (proj1 Hg)) Hh) as HL.
  assert (G : exists d', field_xops E e m os d = (d', snd (py_xops os vs)) /\ LI E e m (frame E e d) d' (fst (py_xops os vs))).
  { clear Hh. revert HL. generalize (frame E e d). intros R HL. revert d vs Hc HL. induction os as [|o os IH]; intros d vs Hc HL; cbn [field_xops py_xops]; [eauto|].
    destruct (Ho o (or_introl eq_refl)) as [Hn Hv]. destruct (sim_long E e m R d vs o Hg HL Hc (fun v H => proj1 (Hv v H)) Hn) as (d1 & S1 & HL1). rewrite S1.
    pose proof (py_xop_values o vs) as Hin. destruct (py_xop o vs) as [l1 r1]. cbn [fst snd] in *.
    destruct (IH (fun o' H => Ho o' (or_intror H)) d1 l1) as (d2 & S2 & HL2); [intros v H; destruct (Hin v H); [now apply Hc|now apply Hv]|exact HL1|].
    rewrite S2. destruct (py_xops os l1) as [l2 rs]. cbn [fst snd] in *. eauto. }
  destruct G as (d' & S & HL'). exists d'. split; [exact S|]. split; [eapply LI_holds; [apply Hg|exact HL']|].
  intros l op r ->. eapply LI_rest; [apply Hg|exact HL'].
Qed.

(** [holds E e m d vs]: the field reads as the Python list [vs], and its elements have no children *)
Theorem C57_history : forall E e m d vs os,
  list_field E e = true -> one_step e = true -> holds E e m d vs -> (forall v, In v vs -> comparable v) ->
  (forall o, In o os -> nonneg_insert o /\ forall v, In v (xop_values o) -> storable m v /\ comparable v) ->
  exists d', field_xops E e m os d = (d', snd (py_xops os vs)) /\
    holds E e m d' (fst (py_xops os vs)) /\ others E e d' = others E e d /\ own d' = own d.
Proof.
  intros E e m d vs os Hf H1 Hh Hc Ho. pose proof (list_field_growable _ _ Hf) as Hg. pose proof (proj1 (holds_LI _ _ _ _ _ (proj1 Hg)) Hh) as HL.
  destruct (sim_xops E e m _ (is_one_step _ H1) Hg os d vs HL Hc Ho) as (d' & S & HL'). exists d'. split; [exact S|]. split; [eapply LI_holds; [apply Hg|exact HL']|].
  eapply LI_others; [exact H1|apply Hg|exact HL'].
Qed.

Lemma pad_valid w : forall n, xml_valid (pad w n) = true.
Proof.
  induction w as [|w IH]; intros n; cbn [pad]; [reflexivity|]. unfold xml_valid in *. rewrite forallb_app, IH. cbn [forallb andb].
  assert (H : (n mod 10 < 10)%N) by (apply N.mod_lt; discriminate). generalize dependent (n mod 10)%N. intros k H. unfold xml_char, in_range.
  replace (N.leb 32 (48 + k)) with true by (symmetry; apply N.leb_le; lia). replace (N.leb (48 + k) 55295) with true by (symmetry; apply N.leb_le; lia).
  cbn [andb]. rewrite ?orb_true_r. reflexivity.
Qed.
Lemma storable_datetime dt tm : date_ok dt = true -> time_ok tm = true -> storable (MDateTime None false) (PDateTime dt tm).
Proof.
  intros Hd Ht. exists (isoformat dt tm). split; [reflexivity|]. split.
  - unfold isoformat. pose proof pad_valid as P. unfold xml_valid in *. rewrite !forallb_app, !P. destruct (N.eqb (us tm) 0); [reflexivity|]. rewrite forallb_app, P. reflexivity.
  - intros q ats. apply (datetime_read dt tm []); auto using tz_none.
Qed.
Lemma storable_date fmt dt : date_ok dt = true -> (1000 <= yr dt)%N -> records FY fmt = true -> records Fm fmt = true -> records Fd fmt = true ->
  (forall c, In (FC c) fmt -> xml_char c = true) -> storable (MDate fmt) (PDate dt).
Proof.
  intros Hd Hy H1 H2 H3 Hc. destruct (date_format_roundtrip fmt dt Hd Hy H1 H2 H3) as [t Ht]. exists (strftime fmt dt (mkTime 0 0 0 0)). split; [reflexivity|]. split.
  - assert (Hy' : (1000 <= yr dt <= 9999)%N).
    { split; [assumption|]. unfold date_ok in Hd. repeat rewrite andb_true_iff in Hd. destruct Hd as (((((_ & Hd) & _) & _) & _) & _). now apply N.leb_le in Hd. }
    rewrite strftime_pad by now left. clear - Hc. induction fmt as [|x fmt IH]; [reflexivity|]. cbn [flat_map]. unfold xml_valid in *. rewrite forallb_app, IH by (intros; apply Hc; now right).
    rewrite andb_true_r. destruct x; cbn [dir_pad strftime1]; try apply pad_valid. cbn [forallb]. rewrite Hc by now left. reflexivity.
  - intros q ats. cbn [to_python text_of]. rewrite Ht. reflexivity.
Qed.

(** strings of XML characters, integers up to 2^53, booleans with two markers, datetimes in the default
    format and dates from the year 1000 on are such values *)
Theorem C57_values :
  (forall s, xml_valid s = true -> storable (MString false) (PStr s) /\ comparable (PStr s)) /\
  (forall z, (Z.abs z <= 2 ^ 53)%Z -> storable MInt (PInt z) /\ comparable (PInt z)) /\
  (forall t f b, xml_valid t = true -> xml_valid f = true -> f <> t -> storable (MBool t (Some f)) (PBool b) /\ comparable (PBool b)) /\
  (forall dt tm, Props_Mappers.real_date dt -> Props_Mappers.real_time tm -> storable (MDateTime None false) (PDateTime dt tm) /\ comparable (PDateTime dt tm)) /\
  (forall fmt dt, Props_Mappers.real_date dt -> (1000 <= yr dt)%N -> records FY fmt = true -> records Fm fmt = true -> records Fd fmt = true ->
     (forall c, In (FC c) fmt -> xml_char c = true) -> storable (MDate fmt) (PDate dt) /\ comparable (PDate dt)).
Proof.
  split; [|split; [|split; [|split]]]; intros; (split; [|exact I]); [now apply storable_string|now apply storable_int|now apply storable_bool|apply storable_datetime; [now apply Props_Mappers.date_spec|now apply Props_Mappers.time_spec]|apply storable_date; auto; now apply Props_Mappers.date_spec].
Qed.

Open Scope string_scope.
Definition S1 (s : string) : pyval := PStr (u s).
Definition ops57 := [XOp (LAppend (S1 "9")); XInsert 0 (S1 "0"); XInsert 9 (S1 "no"); XOp (LSet 2 (S1 "two")); XOp (LPop None); XOp (LRemove (S1 "no")); XAssign (Props_Lists.ss ["a"; "b"; "c"; "d"]); XOp (LDel (-1)); XInsert 3 (S1 "e"); XOp (LExtend (Props_Lists.ss ["f"]))].
Example C57_case : exists d', field_xops E0 (xp "a") (MString false) ops57 d_list = (d', snd (py_xops ops57 (Props_Lists.ss ["1"; "2"; "1"]))) /\
  fst (py_xops ops57 (Props_Lists.ss ["1"; "2"; "1"])) = Props_Lists.ss ["a"; "b"; "c"; "e"; "f"] /\
  snd (py_xops ops57 (Props_Lists.ss ["1"; "2"; "1"])) = [Ret None; Ret None; Exc XIndex; Ret None; Ret (Some (S1 "9")); Exc XValue; Ret None; Ret None; Ret None; Ret None] /\
  list_data E0 (xp "a") (MString false) d' = Ret (Props_Lists.ss ["a"; "b"; "c"; "e"; "f"]) /\ others E0 (xp "a") d' = others E0 (xp "a") d_list /\ length (others E0 (xp "a") d') = 2.
Proof. eexists. split; [vm_compute; reflexivity|]. conjs; vm_compute; reflexivity. Qed.
Example C57_hyps : list_field E0 (xp "a") = true /\ one_step (xp "a") = true /\ holds E0 (xp "a") (MString false) d_list (Props_Lists.ss ["1"; "2"; "1"]) /\
  (forall o, In o ops57 -> nonneg_insert o /\ forall v, In v (xop_values o) -> storable (MString false) v /\ comparable v).
Proof.
  split; [vm_compute; reflexivity|]. split; [vm_compute; reflexivity|]. split; [holds_tac|].
  assert (G : forall s, xml_valid (u s) = true -> storable (MString false) (S1 s) /\ comparable (S1 s)) by (intros; now apply C57_values).
  intros o Ho. unfold ops57 in Ho. cbn [In] in Ho. repeat destruct Ho as [<-|Ho]; try contradiction; (split; [cbn; try exact I; discriminate|]); intros v Hv; cbn in Hv;
    repeat destruct Hv as [<-|Hv]; try contradiction; apply G; vm_compute; reflexivity.
Qed.
Definition d_long := el "r" [] "" [el "x" [] "" [el "a" [] "no" []]; el "p" [] "t" [el "a" [] "1" []; el "b" [] "keep" []; el "a" [] "2" []]].
Definition ops_long := [XOp (LAppend (S1 "3")); XOp (LSet 0 (S1 "one")); XAssign (Props_Lists.ss ["a"; "b"; "c"]); XOp (LPop None); XDelete; XOp (LExtend (Props_Lists.ss ["f"; "g"]))].
Example C57_case_long : list_field E0 (xp "p/a") = true /\ holds E0 (xp "p/a") (MString false) d_long (Props_Lists.ss ["1"; "2"]) /\
  selects E0 (xp "p") d_long = [IElem [1] (el "p" [] "t" [el "a" [] "1" []; el "b" [] "keep" []; el "a" [] "2" []])] /\
  (forall o, In o ops_long -> no_insert o /\ forall v, In v (xop_values o) -> storable (MString false) v /\ comparable v) /\
  (exists d', field_xops E0 (xp "p/a") (MString false) ops_long d_long = (d', snd (py_xops ops_long (Props_Lists.ss ["1"; "2"]))) /\
    list_data E0 (xp "p/a") (MString false) d' = Ret (Props_Lists.ss ["f"; "g"]) /\ get_at [0] d' = get_at [0] d_long).
Proof.
  split; [vm_compute; reflexivity|]. split.
  { split; [discriminate|]. split; [vm_compute; reflexivity|]. split; [|vm_compute; repeat constructor].
    intros a n Hn. vm_compute in Hn. repeat destruct Hn as [[= <- <-]|Hn]; try contradiction; reflexivity. }
  split; [vm_compute; reflexivity|]. split.
  - assert (G : forall s, xml_valid (u s) = true -> storable (MString false) (S1 s) /\ comparable (S1 s)) by (intros; now apply C57_values).
    intros o Ho. unfold ops_long in Ho. cbn [In] in Ho. repeat destruct Ho as [<-|Ho]; try contradiction; (split; [exact I|]); intros v Hv; cbn in Hv;
      repeat destruct Hv as [<-|Hv]; try contradiction; apply G; vm_compute; reflexivity.
  - eexists. split; [vm_compute; reflexivity|]. split; vm_compute; reflexivity.
Qed.
Close Scope string_scope.

Print Assumptions C57_history.
Print Assumptions C57_long_paths.
