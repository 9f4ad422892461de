(** C84: an object is a record of its fields.
    The record, its variables and the program are in RecordSpec.v / Record.v. *)
From Coq Require Import String Arith ZArith Lia.
From Verif Require Export RecordSpec FieldRecord.
From Verif Require Import XPathEval FieldSpec DocSpec IndepSpec Props_Mappers MapperProofs.
From Verif Require Props_MailDate.

Opaque u.

(** ** Specification: what may be assigned to a field *)
(** [att]: the field's XPath ends in an attribute.  Strings of XML characters; integers up to 2^53; booleans; days and
    points in time that exist; None for strings and integers *)
Definition keepable (att : bool) (m : mapper) (v : pyval) : Prop :=
  match m, v with
  | MString norm, PStr s => xml_valid s = true /\ (norm = true -> att = false)
  | MString _, PNone | MInt, PNone => True
  | MInt, PInt z => (Z.abs z <= 2 ^ 53)%Z
  | MBool t f, PBool _ => xml_valid t = true /\ f <> Some t /\ forall x, f = Some x -> xml_valid x = true
  | MDateTime None norm, PDateTime d t => real_date d /\ real_time t /\ (att = true \/ norm = false)
  | MDate fmt, PDate d => real_date d /\ (1000 <= yr d)%N /\ records FY fmt = true /\ records Fm fmt = true /\ records Fd fmt = true /\
      xml_valid (strftime fmt d (mkTime 0 0 0 0)) = true
  | _, _ => False
  end.
(** string, integer, boolean, date and datetime fields *)
Definition value_field (m : mapper) : Prop := match m with MString _ | MInt | MBool _ _ | MDateTime _ _ | MDate _ => True | _ => False end.
Definition has_field (tbl : field_table) (k : str) (e : expr) (m : mapper) : Prop := exists x, lookup k tbl = Some (x, m) /\ parse x = Ok e.

(** the program uses the fields [ks] and assigns values that can be kept *)
Definition sound_op (E : env) (tbl : field_table) (ks : list str) (o : rop) : Prop :=
  In (rop_field o) ks /\ forall k v e m, o = RSet k v -> has_field tbl k e m -> keepable (is_attr_field E e) m v.
(** the fields [ks] of the class, and an element they apply to *)
Definition record_of (E : env) (tbl : field_table) (ks : list str) (d : node) : Prop :=
  tag_of d <> None /\
  (forall k, In k ks -> exists e m, has_field tbl k e m /\ value_field m /\ sound_path E e /\ settled E e d) /\
  (forall k k' e e' m m', In k ks -> In k' ks -> k <> k' -> has_field tbl k e m -> has_field tbl k' e' m' -> fork E e e').

(** ** Proof *)
Lemma has_fun tbl k e m e' m' : has_field tbl k e m -> has_field tbl k e' m' -> e = e' /\ m = m'.
Proof. intros (s & H1 & H2) (s' & H1' & H2'). rewrite H1 in H1'. injection H1' as <- <-. rewrite H2 in H2'. injection H2' as <-. auto. Qed.
Lemma has_type tbl k e m : has_field tbl k e m -> field_type tbl k = m.
Proof. intros (s & H & _). unfold field_type. now rewrite H. Qed.
Lemma set_has E tbl k v e m d : has_field tbl k e m -> set_attribute E tbl (k, v) d = typed_set E e m v d.
Proof. intros (s & H1 & H2). unfold set_attribute. cbn [fst snd]. rewrite H1. unfold with_xpath. now rewrite H2. Qed.
Lemma get_has E tbl k e m d : has_field tbl k e m -> get_attribute E tbl k d = field_get E e m d.
Proof. intros (s & H1 & H2). unfold get_attribute. now rewrite H1, H2. Qed.
Lemma del_has E tbl k e m d : has_field tbl k e m -> del_attribute E tbl k d = mgr_delete E e d.
Proof. intros (s & H1 & H2). unfold del_attribute. rewrite H1. unfold with_xpath. now rewrite H2. Qed.

(** every value that can be kept is written as text of XML characters, or deletes the field *)
Lemma keepable_xml att m v : keepable att m v -> to_xml m v = Ret None \/ exists s, to_xml m v = Ret (Some s) /\ xml_valid s = true.
Proof.
  destruct m as [norm| | |t f|[fmt|] norm|fmt| |]; destruct v; cbn [keepable]; intros H; try contradiction; cbn [to_xml py_str py_truth]; auto.
  - right. eexists. split; [reflexivity|apply H].
  - right. eexists. split; [reflexivity|apply valid_Z].
  - destruct H as (H1 & H2 & H3). destruct b; [right; exists t; auto|]. destruct f as [f|]; [right; exists f; auto|now left].
  - right. eexists. split; [reflexivity|]. apply Props_MailDate.iso_valid.
  - right. eexists. split; [reflexivity|]. apply H.
Qed.
(** and reads back as the record says *)
Lemma keepable_read E e m v d d' : sound_path E e -> tag_of d <> None -> keepable (is_attr_field E e) m v -> typed_set E e m v d = (d', Ret tt) ->
  (to_xml m v = Ret None -> selects E e d' = []) -> field_get E e m d' = Ret (stored_value m v).
Proof.
  intros (Hs & Ht & Hn & _) Hd Hk Hm Hdel. pose proof (not_text_not_tail E e d Hs Ht) as Hnt.
  destruct m as [norm| | |t f|[fmt|] norm|fmt| |]; destruct v; cbn [keepable] in Hk; try contradiction.
  - rewrite (unset_read E e (MString norm) d' Hs (Hdel eq_refl) I). destruct norm; reflexivity.
  - destruct Hk as [Hv Ha]. refine (typed_back E e _ _ _ d d' Hs Ht Hd _ Hm). split; [|split].
    + destruct norm; cbn [reads_back stored_value]; eauto.
    + intros Hx. injection Hx as ->. auto.
    + discriminate.
  - rewrite (unset_read E e MInt d' Hs (Hdel eq_refl) I). reflexivity.
  - refine (typed_back E e _ _ _ d d' Hs Ht Hd _ Hm). split; [cbn; eauto|]. split; discriminate.
  - destruct Hk as (H1 & H2 & H3). destruct b; [|destruct f as [f|]].
    + refine (typed_back E e _ _ _ d d' Hs Ht Hd _ Hm). split; [cbn; eauto|]. split; [discriminate|]. intros t0 f0 Hx. injection Hx as <- <-. exact H2.
    + refine (typed_back E e _ _ _ d d' Hs Ht Hd _ Hm). split; [cbn; exists false; split; [reflexivity|]; split; [reflexivity|]; right; discriminate|]. split; [discriminate|]. intros t0 f0 Hx. injection Hx as <- <-. exact H2.
    + rewrite (unset_read E e (MBool t None) d' Hs (Hdel eq_refl) I). reflexivity.
  - destruct Hk as (H1 & H2 & H3). exact (C24_datetime_roundtrip E e norm d0 t d d' Hs Hd Hnt H1 H2 H3 Hm).
  - destruct Hk as (H1 & H2 & H3 & H4 & H5 & _). exact (C24_date_roundtrip_partial E e fmt d0 d d' Hs Hd Hnt H1 H2 H3 H4 H5 Hm).
Qed.

(** the document and the store agree *)
Definition agrees (E : env) (tbl : field_table) (ks : list str) (d : node) (s : variables) : Prop := forall k, In k ks -> get_attribute E tbl k d = Ret (s k).

Lemma other_fields E tbl ks d s o k e m w : record_of E tbl ks d -> agrees E tbl ks d s -> In k ks -> has_field tbl k e m -> fop_path o = e ->
  tag_of (run_fop E o d) <> None -> settled E e (run_fop E o d) -> field_get E e m (run_fop E o d) = Ret w ->
  record_of E tbl ks (run_fop E o d) /\ agrees E tbl ks (run_fop E o d) (rec_put s k w).
Proof.
  intros (Hd & Hf & Hfk) Ha Hk Hp Ho Hd' Hse Hg. split.
  - split; [exact Hd'|]. split; [|exact Hfk]. intros k' Hk'. destruct (Hf k' Hk') as (e' & m' & A & B & C & D). exists e', m'. split; [exact A|]. split; [exact B|]. split; [exact C|].
    destruct (Hf k Hk) as (e1 & m1 & A1 & _ & C1 & _). destruct (has_fun _ _ _ _ _ _ Hp A1) as [<- <-].
    destruct (list_eq_dec N.eq_dec k' k) as [->|Hne]; [destruct (has_fun _ _ _ _ _ _ Hp A) as [<- <-]; exact Hse|].
    apply settled_other; [apply C|rewrite Ho; apply C1|rewrite Ho; exact (Hfk _ _ _ _ _ _ Hk' Hk Hne A A1)|exact Hd|exact D|now rewrite Ho].
  - intros k' Hk'. unfold rec_put. destruct (str_eqb k' k) eqn:Ek.
    + apply str_eqb_eq in Ek. subst k'. rewrite (get_has _ _ _ _ _ _ Hp). exact Hg.
    + destruct (Hf k' Hk') as (e' & m' & A & B & C & D). rewrite <- (Ha k' Hk'), !(get_has _ _ _ _ _ _ A).
      destruct (Hf k Hk) as (e1 & m1 & A1 & _ & C1 & _). destruct (has_fun _ _ _ _ _ _ Hp A1) as [<- <-].
      assert (Hne : k' <> k) by (intros ->; rewrite str_eqb_refl in Ek; discriminate).
      destruct (C74_independent E e' m' d [o] (proj1 C) Hd) as [G _]; [|exact G]. intros o0 [<-|[]]. rewrite Ho. split; [apply C1|]. exact (Hfk _ _ _ _ _ _ Hk' Hk Hne A A1).
Qed.

Lemma record_step E tbl ks o d s : record_of E tbl ks d -> agrees E tbl ks d s -> sound_op E tbl ks o ->
  let (d', r) := run_rop E tbl o d in let (s', w) := rec_op (field_type tbl) o s in r = Ret w /\ record_of E tbl ks d' /\ agrees E tbl ks d' s'.
Proof.
  intros HR Ha [Hk Hv]. pose proof HR as (Hd & Hf & Hfk). destruct o as [k v|k|k]; cbn [run_rop rec_op rop_field] in *.
  - destruct (Hf k Hk) as (e & m & A & B & C & D). specialize (Hv k v e m eq_refl A). rewrite (set_has _ _ _ _ _ _ _ A), (has_type _ _ _ _ A).
    destruct (typed_put E e m v d C Hd D (keepable_xml _ _ _ Hv)) as (d' & M & S & T & U). rewrite M. split; [reflexivity|].
    pose proof (keepable_read E e m v d d' C Hd Hv M U) as G.
    pose proof (other_fields E tbl ks d s (FSet e m v) k e m (stored_value m v) HR Ha Hk A eq_refl) as O. cbn [run_fop] in O. rewrite M in O. cbn [fst] in O. auto.
  - destruct (Hf k Hk) as (e & m & A & B & C & D). rewrite (del_has _ _ _ _ _ _ A), (has_type _ _ _ _ A).
    destruct (delete_put E e d C Hd D) as (d' & M & S & T & U). rewrite M. split; [reflexivity|]. pose proof (unset_read E e m d' (proj1 C) U B) as G.
    pose proof (other_fields E tbl ks d s (FDelete e) k e m (unset m) HR Ha Hk A eq_refl) as O. cbn [run_fop] in O. rewrite M in O. cbn [fst] in O. auto.
  - split; [exact (Ha k Hk)|]. auto.
Qed.

(** ** The theorem: every program of assignments, deletions and reads of fields whose paths part ways runs without an
    exception and sees exactly what it would see on a record with one variable per field; at the end every field holds
    its variable's value. *)
Theorem C84_record : forall E tbl ks d s os,
  record_of E tbl ks d -> agrees E tbl ks d s -> (forall o, In o os -> sound_op E tbl ks o) ->
  let (d', rs) := run_rops E tbl os d in let (s', ws) := rec_ops (field_type tbl) os s in
  rs = map (fun w => Ret w) ws /\ (forall k, In k ks -> get_attribute E tbl k d' = Ret (s' k)) /\ record_of E tbl ks d'.
Proof.
  intros E tbl ks d s os. revert d s. induction os as [|o os IH]; intros d s HR Ha Ho; cbn [run_rops rec_ops]; [auto|].
  pose proof (record_step E tbl ks o d s HR Ha (Ho o (or_introl eq_refl))) as S. destruct (run_rop E tbl o d) as [d1 r], (rec_op (field_type tbl) o s) as [s1 w]. destruct S as (-> & R1 & A1).
  specialize (IH d1 s1 R1 A1 (fun o' H => Ho o' (or_intror H))). destruct (run_rops E tbl os d1) as [d2 rs], (rec_ops (field_type tbl) os s1) as [s2 ws]. destruct IH as (-> & G & R2). auto.
Qed.

(** a new object: all variables unset *)
Lemma lefts_new E e root : supported_path E e = true -> lkind E e <> Some KText -> lkind E e <> None -> forall l, In l (lefts e) -> length (selects E l (new_root root)) <= 1.
Proof.
  intros Hs Ht Hn l Hl. destruct (sup_parts3 _ _ Hs) as (B1 & B2 & B3). destruct (lefts_parts _ _ _ B1 B2 B3 l Hl) as (A & B & C & D & _).
  destruct D as [D|D].
  - assert (He : exists q, enters E l q).
    { apply lkind_enters; [unfold supported_path; now rewrite A, B, C| |]; destruct (lkind E l) as [[| |]|]; try discriminate. }
    destruct He as [q He]. pose proof (fresh_cores E l q root He) as Hc. apply cores_nil in Hc. rewrite Hc. cbn. lia.
  - rewrite (selects_len _ _ _ _ A B (or_intror D)). destruct (spine l) as [|x0 ss0] eqn:Hsp0; [cbn; lia|]. exfalso. assert (Hsp : exists ss x, spine l = ss ++ [x]) by (destruct (@exists_last _ (spine l)) as (ss & x & Hx); [rewrite Hsp0; discriminate|eauto]). destruct Hsp as (ss & x & Hsp). clear x0 ss0 Hsp0.
    destruct (spine_mid _ _ _ A B ss x [] Hsp) as (_ & _ & Hx & (kk & Hk & _) & _). destruct x; cbn [is_estep] in Hx; try discriminate.
    destruct l; cbn [is_path] in A; try discriminate; cbn [spine] in Hsp.
    + apply app_inj_tail in Hsp as [_ ->]. apply str_eqb_eq in A. subst op. unfold lkind in D. cbn [last_step] in D. rewrite str_eqb_refl in D. congruence.
    + apply (app_inj_tail []) in Hsp as [_ Hsp]. unfold lkind in D. cbn [last_step] in D. congruence.
    + destruct ss; discriminate.
Qed.
Lemma new_settled E e root : sound_path E e -> settled E e (new_root root) /\ selects E e (new_root root) = [].
Proof.
  intros (Hs & Ht & Hn & _). destruct (lkind_enters E e Hs Ht Hn) as [q He]. pose proof (fresh_cores E e q root He) as Hc. apply cores_nil in Hc. split; [|exact Hc].
  split; [|rewrite Hc; contradiction]. intros l [<-|Hl]; [rewrite Hc; cbn; lia|]. now apply (lefts_new E e root).
Qed.
Theorem C84_new_object : forall E root tbl ks os,
  (forall k, In k ks -> exists e m, has_field tbl k e m /\ value_field m /\ sound_path E e) ->
  (forall k k' e e' m m', In k ks -> In k' ks -> k <> k' -> has_field tbl k e m -> has_field tbl k' e' m' -> fork E e e') ->
  (forall o, In o os -> sound_op E tbl ks o) ->
  let (d', rs) := run_rops E tbl os (new_root root) in let (s', ws) := rec_ops (field_type tbl) os (fun k => unset (field_type tbl k)) in
  rs = map (fun w => Ret w) ws /\ (forall k, In k ks -> get_attribute E tbl k d' = Ret (s' k)).
Proof.
  intros E root tbl ks os Hf Hfk Ho.
  assert (HR : record_of E tbl ks (new_root root)).
  { split; [discriminate|]. split; [|exact Hfk]. intros k Hk. destruct (Hf k Hk) as (e & m & A & B & C). exists e, m. split; [exact A|]. split; [exact B|]. split; [exact C|]. now apply new_settled. }
  assert (HA : agrees E tbl ks (new_root root) (fun k => unset (field_type tbl k))).
  { intros k Hk. destruct (Hf k Hk) as (e & m & A & B & C). rewrite (get_has _ _ _ _ _ _ A), (has_type _ _ _ _ A). apply unset_read; [apply C|now apply new_settled|exact B]. }
  pose proof (C84_record E tbl ks (new_root root) _ os HR HA Ho) as G. destruct (run_rops E tbl os (new_root root)) as [d' rs], (rec_ops (field_type tbl) os (fun k => unset (field_type tbl k))) as [s' ws]. destruct G as (A & B & _). auto.
Qed.

(** ** the classes of the shipped maps *)
Lemma own_agree E l (B : binds E l) e : names_declared l e = true -> own_attrs E e = own_attrs (just l) e.
Proof.
  induction e as [| | | |a op b IHa IHb| | | |ax t ps H| | |] using expr_ind'; intros Hn; try reflexivity.
  - cbn [names_declared] in Hn. apply andb_prop in Hn as [Ha Hb]. cbn [own_attrs]. rewrite (IHa Ha), (IHb Hb), (lkind_agree E l B a Ha). reflexivity.
  - cbn [own_attrs]. pose proof (preds_declared l _ Hn) as Hp. cbn [preds_of] in Hp. eapply forallb_agree; [|exact Hp]. intros x Hx Hd. rewrite Forall_forall in H. auto.
Qed.
Definition is_value (m : mapper) : bool := match m with MString _ | MInt | MBool _ _ | MDateTime _ _ | MDate _ => true | _ => false end.
(** the single string, integer, boolean and date fields of a class *)
Definition value_rows (c : string) : list row := filter (fun r => is_value (row_mapper r)) (class_rows c).
Definition owned (r : row) : bool := match parse (r_xpath r) with Ok e => (own_attrs (just (r_ns r)) e && match lkind (just (r_ns r)) e with Some (KChild _) | Some (KAttr _) => true | _ => false end)%bool | _ => false end.
Definition record_classes := Eval vm_compute in filter (fun c => rows_good (value_rows c) && forallb owned (value_rows c))%bool classes.
Lemma record_classes_ok c : In c record_classes -> rows_good (value_rows c) = true /\ forallb owned (value_rows c) = true.
Proof.
  assert (H : forallb (fun c => rows_good (value_rows c) && forallb owned (value_rows c))%bool record_classes = true) by (vm_compute; reflexivity).
  rewrite forallb_forall in H. intros Hc. apply H in Hc. now apply andb_prop in Hc.
Qed.
Lemma value_rows_in c r : In r (value_rows c) -> In r shipped /\ is_single r = true /\ is_value (row_mapper r) = true.
Proof. unfold value_rows. intros H. apply filter_In in H as [H1 H2]. apply class_rows_in in H1 as [H1 H3]. auto. Qed.

Lemma rows_record : forall l E root os,
  rows_good l = true -> forallb owned l = true -> (forall r, In r l -> In r shipped /\ is_single r = true /\ is_value (row_mapper r) = true) -> (forall r, In r l -> binds E (r_ns r)) ->
  (forall o, In o os -> exists r, In r l /\ rop_field o = u (r_field r) /\ forall v, o = RSet (u (r_field r)) v -> keepable false (row_mapper r) v) ->
  let tbl := rows_table l in
  let (d', rs) := run_rops E tbl os (new_root root) in let (s', ws) := rec_ops (field_type tbl) os (fun k => unset (field_type tbl k)) in
  rs = map (fun w => Ret w) ws /\ (forall r, In r l -> get_attribute E tbl (u (r_field r)) d' = Ret (s' (u (r_field r)))).
Proof.
  intros l E root os Hc Hown Hrow B Ho tbl. unfold rows_good in Hc. apply andb_prop in Hc as [Hc Hfk]. apply andb_prop in Hc as [Hn Hus].
  rewrite forallb_forall in Hus. rewrite forallb_forall in Hfk. rewrite forallb_forall in Hown.
  assert (HF : forall r, In r l -> exists e, has_field tbl (u (r_field r)) e (row_mapper r) /\ parse (r_xpath r) = Ok e /\ names_declared (r_ns r) e = true /\ sound_path E e).
  { intros r Hr. destruct (Hrow r Hr) as (Hsh & Hsi & Hva). pose proof (Hus r Hr) as U. unfold usable in U. apply andb_prop in U as [U U3]. apply andb_prop in U as [U1 U2]. apply negb_true_iff in U1, U3.
    destruct (single_facts r E Hsh Hsi U1 (B r Hr)) as (e & Hp & Hsp & Htm & Hbe & Hte). destruct (C71_xpaths_parse r Hsh) as (e0 & He0 & Hnm). rewrite Hp in He0. injection He0 as <-.
    exists e. split; [exists (r_xpath r); split; [unfold tbl, rows_table; now apply (lookup_map (fun r => (r_xpath r, row_mapper r)))|exact Hp]|]. split; [exact Hp|]. split; [exact Hnm|].
    pose proof (Hown r Hr) as W. unfold owned in W. rewrite Hp in W. apply andb_prop in W as [W1 W2]. rewrite <- (own_agree E (r_ns r) (B r Hr) e Hnm) in W1. rewrite <- (lkind_agree E (r_ns r) (B r Hr) e Hnm) in W2.
    split; [exact Hsp|]. split; [intros Hx; rewrite Hx in W2; discriminate|]. split; [intros Hx; rewrite Hx in W2; discriminate|]. split; [exact Htm|]. split; [exact Hbe|exact W1]. }
  set (ks := map (fun r => u (r_field r)) l).
  pose proof (C84_new_object E root tbl ks os) as G.
  assert (G1 : forall k, In k ks -> exists e m, has_field tbl k e m /\ value_field m /\ sound_path E e).
  { intros k Hk. apply in_map_iff in Hk as (r & <- & Hr). destruct (HF r Hr) as (e & A & _ & _ & C). exists e, (row_mapper r). split; [exact A|]. split; [|exact C]. destruct (Hrow r Hr) as (_ & _ & Hv). destruct (row_mapper r); try discriminate Hv; exact I. }
  assert (G2 : forall k k' e e' m m', In k ks -> In k' ks -> k <> k' -> has_field tbl k e m -> has_field tbl k' e' m' -> fork E e e').
  { intros k k' e e' m m' Hi Hi' Hne Hp Hp'. apply in_map_iff in Hi as (r & <- & Hr). apply in_map_iff in Hi' as (r' & <- & Hr').
    destruct (HF r Hr) as (e1 & F1 & F2 & F3 & _), (HF r' Hr') as (e2 & I1 & I2 & _). destruct (has_fun _ _ _ _ _ _ Hp F1) as [-> _]. destruct (has_fun _ _ _ _ _ _ Hp' I1) as [-> _].
    pose proof (Hfk r Hr) as Q. rewrite forallb_forall in Q. specialize (Q r' Hr'). apply orb_true_iff in Q as [Q|Q]; [apply String.eqb_eq in Q; congruence|].
    unfold row_forkb in Q. rewrite F2, I2 in Q. apply andb_prop in Q as [Hnb Q]. apply forkb_ok in Q. exact (fork_agree E (r_ns r) _ _ (B r Hr) F3 Hnb Q). }
  assert (G3 : forall o, In o os -> sound_op E tbl ks o).
  { intros o Hi. destruct (Ho o Hi) as (r & Hr & Hf & Hv). split; [rewrite Hf; unfold ks; apply in_map_iff; eauto|]. intros k v e m -> Hp. cbn [rop_field] in Hf. subst k. specialize (Hv v eq_refl).
    destruct (HF r Hr) as (e1 & F1 & F2 & _). destruct (has_fun _ _ _ _ _ _ Hp F1) as [-> ->]. destruct (Hrow r Hr) as (Hsh & Hsi & _). pose proof (Hus r Hr) as U. unfold usable in U. apply andb_prop in U as [U _]. apply andb_prop in U as [U1 _]. apply negb_true_iff in U1.
    pose proof (fun H => norm_not_attr r E e1 Hsh Hsi U1 (B r Hr) H F2) as Hna. revert Hv Hna. generalize (row_mapper r). intros mm Hv Hna. destruct mm as [norm| | | |[|] norm| | |]; destruct v; cbn [keepable] in *; try contradiction; auto.
    - destruct Hv as [Hv _]. split; [exact Hv|]. intros ->. auto.
    - destruct Hv as (V1 & V2 & [V3|V3]); [discriminate|]. auto. }
  specialize (G G1 G2 G3). destruct (run_rops E tbl os (new_root root)) as [d' rs], (rec_ops (field_type tbl) os (fun k => unset (field_type tbl k))) as [s' ws]. destruct G as [A C]. split; [exact A|].
  intros r Hr. apply C. unfold ks. apply in_map_iff. eauto.
Qed.

(** 61 of the 81 classes of the shipped maps: every program that creates an object and then assigns, deletes and reads its
    single string, integer, boolean and date fields in any order sees a record with one variable per field.  (The
    other 20 have a text() field or fields whose paths do not part ways.) *)
Theorem C84_shipped_classes : forall c E root os,
  In c record_classes -> (forall r, In r (value_rows c) -> binds E (r_ns r)) ->
  (forall o, In o os -> exists r, In r (value_rows c) /\ rop_field o = u (r_field r) /\ forall v, o = RSet (u (r_field r)) v -> keepable false (row_mapper r) v) ->
  let tbl := rows_table (value_rows c) in
  let (d', rs) := run_rops E tbl os (new_root root) in let (s', ws) := rec_ops (field_type tbl) os (fun k => unset (field_type tbl k)) in
  rs = map (fun w => Ret w) ws /\ (forall r, In r (value_rows c) -> get_attribute E tbl (u (r_field r)) d' = Ret (s' (u (r_field r)))).
Proof.
  intros c E root os Hc. apply record_classes_ok in Hc as [H1 H2]. pose proof (value_rows_in c) as Hrow. revert H1 H2 Hrow. generalize (value_rows c). intros l H1 H2 Hrow B Ho. exact (rows_record l E root os H1 H2 Hrow B Ho).
Qed.

Open Scope string_scope.
(** ** where the conditions fail *)
(** paths that do not part ways: deleting the element takes its attribute with it *)
Definition tbl_nested : field_table := [(u "a", (u "x", MString false)); (u "b", (u "x/@k", MString false))].
Example C84_nested_differs : let os := [RSet (u "b") (PStr (u "v")); RSet (u "a") (PStr (u "t")); RDel (u "a"); RGet (u "b")] in
  snd (run_rops E0 tbl_nested os (el "r" [] "" [])) = [Ret PNone; Ret PNone; Ret PNone; Ret PNone] /\
  snd (rec_ops (field_type tbl_nested) os (fun k => unset (field_type tbl_nested k))) = [PNone; PNone; PNone; PStr (u "v")].
Proof. split; vm_compute; reflexivity. Qed.
(** repetition along the path: after the deletion the second element shows *)
Definition tbl_two : field_table := [(u "a", (u "x", MString false))].
Example C84_repeated_differs : let d := el "r" [] "" [el "x" [] "1" []; el "x" [] "2" []] in let os := [RDel (u "a"); RGet (u "a")] in
  snd (run_rops E0 tbl_two os d) = [Ret PNone; Ret (PStr (u "2"))] /\ ~ settled E0 (xp "x") d.
Proof. cbv zeta. split; [vm_compute; reflexivity|]. intros [H _]. specialize (H (xp "x") (or_introl eq_refl)). vm_compute in H. lia. Qed.

(** ** a case *)
Definition tbl_rec : field_table := [(u "id", (u "@id", MString false)); (u "kind", (u "w[@t='1']/kind", MString true)); (u "size", (u "w[@t='1']/size", MInt)); (u "ok", (u "ok", MBool (u "yes") None)); (u "day", (u "w[@t='1']/@k", MDate iso_date))].
Definition ks_rec := [u "id"; u "kind"; u "size"; u "ok"; u "day"].
Definition doc_rec := el "r" [("id", "i")] "" [el "w" [("t", "1"); ("z", "q")] "" [el "size" [] "3" []]; el "other" [] "o" []].
Definition os_rec := [RGet (u "size"); RSet (u "kind") (PStr (u " a  b ")); RSet (u "day") (PDate (mkDate 2024 2 29)); RDel (u "size"); RDel (u "size"); RGet (u "kind"); RSet (u "ok") (PBool true);
  RGet (u "size"); RSet (u "kind") PNone; RGet (u "day"); RDel (u "day"); RGet (u "kind"); RSet (u "size") (PInt (-7)); RGet (u "ok"); RSet (u "ok") (PBool false); RGet (u "ok"); RGet (u "size"); RGet (u "id")].
Definition sound_b (E : env) (e : expr) : bool :=
  (supported_path E e && match lkind E e with Some (KChild _) | Some (KAttr _) => true | _ => false end && tame E xml_valid e && bare_end E e && own_attrs E e)%bool.
Lemma sound_b_ok E e : sound_b E e = true -> sound_path E e.
Proof.
  unfold sound_b. intros H. apply andb_prop in H as [H H5]. apply andb_prop in H as [H H4]. apply andb_prop in H as [H H3]. apply andb_prop in H as [H1 H2].
  split; [exact H1|]. split; [intros Hx; rewrite Hx in H2; discriminate|]. split; [intros Hx; rewrite Hx in H2; discriminate|]. auto.
Qed.
Definition settled_b (E : env) (e : expr) (d : node) : bool :=
  (forallb (fun l => Nat.leb (List.length (selects E l d)) 1) (e :: lefts e) && forallb (fun i => match i with IElem _ n => match kids_of n with [] => true | _ => false end | _ => true end) (selects E e d))%bool.
Lemma settled_b_ok E e d : settled_b E e d = true -> settled E e d.
Proof.
  unfold settled_b. intros H. apply andb_prop in H as [H1 H2]. rewrite forallb_forall in H1, H2. split.
  - intros l Hl. apply Nat.leb_le. exact (H1 l Hl).
  - intros b n Hi. specialize (H2 _ Hi). cbn in H2. destruct (kids_of n); [reflexivity|discriminate].
Qed.
Definition path_of (tbl : field_table) (k : str) : expr := match lookup k tbl with Some (x, _) => match parse x with Ok e => e | _ => EAbbrev [] end | None => EAbbrev [] end.
Lemma has_is tbl k e m : has_field tbl k e m -> e = path_of tbl k /\ m = field_type tbl k.
Proof. intros (x & H & P). unfold path_of, field_type. rewrite H, P. auto. Qed.
Lemma day_case : keepable (is_attr_field E0 (path_of tbl_rec (u "day"))) (field_type tbl_rec (u "day")) (PDate (mkDate 2024 2 29)).
Proof.
  assert (T : field_type tbl_rec (u "day") = MDate iso_date) by (vm_compute; reflexivity). rewrite T. cbn [keepable]. split; [apply date_spec; vm_compute; reflexivity|].
  vm_compute. repeat split; solve [reflexivity|discriminate].
Qed.
Lemma ok_case b : keepable (is_attr_field E0 (path_of tbl_rec (u "ok"))) (field_type tbl_rec (u "ok")) (PBool b).
Proof.
  assert (T : field_type tbl_rec (u "ok") = MBool (u "yes") None) by (vm_compute; reflexivity). rewrite T. cbn [keepable]. split; [vm_compute; reflexivity|]. split; [discriminate|]. intros x H. discriminate.
Qed.
Example C84_case : record_of E0 tbl_rec ks_rec doc_rec /\ (forall o, In o os_rec -> sound_op E0 tbl_rec ks_rec o) /\
  snd (run_rops E0 tbl_rec os_rec doc_rec) = [Ret (PInt 3); Ret PNone; Ret PNone; Ret PNone; Ret PNone; Ret (PStr (u "a b")); Ret PNone; Ret PNone; Ret PNone; Ret (PDate (mkDate 2024 2 29)); Ret PNone; Ret PNone; Ret PNone; Ret (PBool true); Ret PNone; Ret (PBool false); Ret (PInt (-7)); Ret (PStr (u "i"))].
Proof.
  split; [|split; [|vm_compute; reflexivity]].
  - split; [discriminate|]. split.
    + assert (H : forallb (fun k => match lookup k tbl_rec with Some (x, m) => match parse x with Ok e => sound_b E0 e && settled_b E0 e doc_rec && is_value m | _ => false end | None => false end)%bool ks_rec = true) by (vm_compute; reflexivity).
      rewrite forallb_forall in H. intros k Hk. specialize (H k Hk). destruct (lookup k tbl_rec) as [[x m]|] eqn:Hl; [|discriminate]. destruct (parse x) as [e| | |] eqn:Hp; try discriminate.
      apply andb_prop in H as [H H3]. apply andb_prop in H as [H1 H2]. exists e, m. split; [exists x; auto|]. split; [destruct m; try discriminate H3; exact I|]. split; [now apply sound_b_ok|now apply settled_b_ok].
    + assert (H : forallb (fun k => forallb (fun k' => str_eqb k k' || forkb E0 (steps_of (path_of tbl_rec k)) (steps_of (path_of tbl_rec k'))) ks_rec)%bool ks_rec = true) by (vm_compute; reflexivity).
      intros k k' e e' m m' Hk Hk' Hne Hf Hf'. rewrite forallb_forall in H. specialize (H k Hk). rewrite forallb_forall in H. specialize (H k' Hk'). apply orb_prop in H as [H|H]; [apply str_eqb_eq in H; contradiction|].
      apply has_is in Hf as [-> _]. apply has_is in Hf' as [-> _]. now apply forkb_ok.
  - intros o Ho. assert (Hin : In (rop_field o) ks_rec) by (cbn [os_rec In] in Ho; repeat (destruct Ho as [<-|Ho]; [cbn; tauto|]); contradiction).
    split; [exact Hin|]. intros k v e m He Hf. apply has_is in Hf as [-> ->].
    cbn [os_rec In] in Ho. repeat (destruct Ho as [<-|Ho]; [first [discriminate He | injection He as <- <-; lazymatch goal with |- keepable _ _ (PDate _) => exact day_case | |- keepable _ _ (PBool _) => apply ok_case | _ => vm_compute; repeat split; solve [reflexivity | discriminate | intros; discriminate | lia] end]|]); contradiction.
Qed.
Print Assumptions C84_record.
Print Assumptions C84_new_object.
Print Assumptions C84_shipped_classes.
