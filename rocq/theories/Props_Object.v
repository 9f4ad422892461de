(** C85: an object behaves as a plain Python object: variables for its single fields, Python lists for its list fields.
    The program is in Record.v / Object.v, the plain object in RecordSpec.v / ObjectSpec.v. *)
From Coq Require Import String Arith ZArith Lia.
From Verif Require Export ObjectSpec Props_Record.
From Verif Require Import XPathEval FieldSpec DocSpec IndepSpec ListSpec ListSim Props_ListHistory.

Opaque u.

(** ** Specification *)
(** the list fields: one child step, with predicates the list can write (C57) *)
Definition list_of (E : env) (ltbl : field_table) (k : str) (e : expr) (m : mapper) : Prop :=
  has_field ltbl k e m /\ list_field E e = true /\ one_step e = true.
(** variables [ks], lists [ls] and an element they apply to: all paths part ways *)
Definition object_of (E : env) (tbl ltbl : field_table) (ks ls : list str) (d : node) (st : variables * lists) : Prop :=
  record_of E tbl ks d /\ agrees E tbl ks d (fst st) /\
  (forall k, In k ls -> exists e m, list_of E ltbl k e m /\ holds E e m d (snd st k) /\ forall v, In v (snd st k) -> comparable v) /\
  (forall k k' e e' m m', In k ls -> In k' ls -> k <> k' -> has_field ltbl k e m -> has_field ltbl k' e' m' -> fork E e e') /\
  (forall k k' e e' m m', In k ks -> In k' ls -> has_field tbl k e m -> has_field ltbl k' e' m' -> fork E e e').
(** statements on these fields with values that can be kept; insertions at positions >= 0 (C28) *)
Definition sound_gop (E : env) (tbl ltbl : field_table) (ks ls : list str) (o : gop) : Prop :=
  match o with
  | GVar o => sound_op E tbl ks o
  | GList k o => In k ls /\ nonneg_insert o /\ forall e m v, has_field ltbl k e m -> In v (xop_values o) -> storable m v /\ comparable v
  | GRead k => In k ls
  end.

(** ** Proof *)
Definition fop_of (e : expr) (m : mapper) (o : xop) : fop :=
  match o with XOp o => FListOp e m o | XInsert k v => FListInsert e m k v | XAssign us => FListAssign e m us | XDelete => FListDelete e m end.
Lemma fop_of_path e m o : fop_path (fop_of e m o) = e.
Proof. destruct o; reflexivity. Qed.
Lemma fst_quiet {A} (x : M A) d : fst (quiet x d) = fst (x d).
Proof. unfold quiet, bind. destruct (x d) as [d' [a|ex]]; reflexivity. Qed.
Lemma fop_of_run E e m o d : run_fop E (fop_of e m o) d = fst (field_xop E e m o d).
Proof. destruct o; cbn [fop_of run_fop field_xop]; rewrite ?fst_quiet; reflexivity. Qed.

Lemma settled_other_one E e o d : supported_path E e = true -> supported_path E (fop_path o) = true -> one_step (fop_path o) = true -> fork E e (fop_path o) -> tag_of d <> None ->
  settled E e d -> settled E e (run_fop E o d).
Proof.
  intros H1 H2 Ho1 Hf Hd Hse. destruct (fork_one E e o d H1 H2 Hf Hd) as [_ Hc]. set (d' := run_fop E o d) in *.
  destruct (sup_parts3 _ _ H1) as (B1 & B2 & B3). destruct Hse as [Hs1 Hs2]. split.
  - intros l [<-|Hl].
    + rewrite <- cores_len, <- Hc, cores_len. apply Hs1. now left.
    + destruct (lefts_parts _ _ _ B1 B2 B3 l Hl) as (A & B & C & D & s & R & F). destruct Hf as (P & s1 & r1 & s2 & r2 & k1 & k2 & Hp1 & Hp2 & Hk).
      assert (P = []) as ->. { destruct (fop_path o); try discriminate. cbn [steps_of] in Hp2. destruct P as [|x P]; [reflexivity|]. destruct P; discriminate. }
      cbn [app] in Hp1. rewrite spine_steps in Hp1. rewrite F in Hp1. destruct (spine l) as [|x Q] eqn:Hsl; [rewrite (selects_len _ _ _ _ A B D), Hsl; cbn; lia|]. cbn [app] in Hp1. injection Hp1 as -> Hp1.
      assert (Hsup : supported_path E l = true) by (unfold supported_path; now rewrite A, B, C).
      assert (Hfl : fork E l (fop_path o)) by (exists [], s1, Q, s2, r2, k1, k2; rewrite spine_steps; auto).
      destruct (fork_one E l o d Hsup H2 Hfl Hd) as [_ Hcl]. fold d' in Hcl. rewrite <- cores_len, <- Hcl, cores_len. apply Hs1. now right.
  - intros b n Hb. apply cores_kids in Hb. rewrite <- Hc in Hb. apply kids_cores in Hb as [b' Hb]. eauto.
Qed.
Lemma list_sup E e : list_field E e = true -> supported_path E e = true.
Proof. unfold list_field. intros Hf. apply andb_prop in Hf as [Hf _]. apply andb_prop in Hf as [Hf _]. apply andb_prop in Hf as [Hf _]. exact Hf. Qed.
(** another operation leaves a one-step list as it is *)
Lemma holds_other E e m o d vs : list_field E e = true -> one_step e = true -> supported_path E (fop_path o) = true -> fork E e (fop_path o) ->
  holds E e m d vs -> holds E e m (run_fop E o d) vs.
Proof.
  intros Hf H1 H2 Hfk (Hd & Hl & Hc & _). pose proof (list_sup _ _ Hf) as Hs.
  destruct (fork_one E e o d Hs H2 Hfk Hd) as [T C]. destruct (reads_same E e d (run_fop E o d) m Hs C) as [_ G]. split; [now rewrite <- T|]. split; [congruence|]. split.
  - intros b n Hb. apply cores_kids in Hb. rewrite <- C in Hb. apply kids_cores in Hb as [b' Hb]. eauto.
  - destruct e; try exact I. discriminate.
Qed.

Lemma object_step E tbl ltbl ks ls o d st : object_of E tbl ltbl ks ls d st -> sound_gop E tbl ltbl ks ls o ->
  let (d', r) := run_gop E tbl ltbl o d in let (st', w) := py_gop tbl o st in r = w /\ object_of E tbl ltbl ks ls d' st'.
Proof.
  intros (HR & HA & HL & HLL & HKL) Ho. destruct o as [o|k o|k]; cbn [run_gop py_gop sound_gop] in *.
  - pose proof (record_step E tbl ks o d (fst st) HR HA Ho) as S.
    assert (F : exists fo, fst (run_rop E tbl o d) = d \/ (fst (run_rop E tbl o d) = run_fop E fo d /\ exists k e m, In k ks /\ has_field tbl k e m /\ fop_path fo = e)).
    { destruct HR as (_ & Hf & _). destruct Ho as [Hk _]. destruct o as [k v|k|k]; cbn [rop_field] in Hk; destruct (Hf k Hk) as (e & m & A & _).
      - exists (FSet e m v). right. split; [|exists k, e, m; auto]. cbn [run_rop run_fop]. rewrite (set_has _ _ _ _ _ _ _ A). destruct (typed_set E e m v d); reflexivity.
      - exists (FDelete e). right. split; [|exists k, e, m; auto]. cbn [run_rop run_fop]. rewrite (del_has _ _ _ _ _ _ A). destruct (mgr_delete E e d); reflexivity.
      - exists (FDelete e). left. reflexivity. }
    destruct (run_rop E tbl o d) as [d' r]. destruct (rec_op (field_type tbl) o (fst st)) as [s' w]. destruct S as (-> & R' & A'). split; [reflexivity|]. cbn [fst] in F.
    split; [exact R'|]. split; [exact A'|]. split; [|split; [exact HLL|exact HKL]]. cbn [snd].
    destruct F as [fo [->|(-> & k & e & m & Hk & Hp & Hfo)]]; [exact HL|]. intros k' Hk'. destruct (HL k' Hk') as (e' & m' & (A1 & A2 & A3) & A4 & A5). exists e', m'. split; [repeat (split; [assumption|]); assumption|]. split; [|exact A5].
    destruct HR as (_ & Hf & _). destruct (Hf k Hk) as (e1 & m1 & B1 & _ & B3 & _). destruct (has_fun _ _ _ _ _ _ Hp B1) as [<- <-].
    apply holds_other; auto; rewrite Hfo; [apply B3|]. apply fork_sym. exact (HKL _ _ _ _ _ _ Hk Hk' Hp A1).
  - destruct Ho as (Hk & Hnn & Hv). destruct (HL k Hk) as (e & m & (A1 & A2 & A3) & A4 & A5). pose proof A1 as (x & Hx & Hp). rewrite Hx. unfold with_xpath. rewrite Hp.
    destruct (C57_history E e m d (snd st k) [o] A2 A3 A4 A5) as (d' & S & H' & _).
    { intros o' [<-|[]]. split; [exact Hnn|]. intros v Hin. exact (Hv e m v A1 Hin). }
    cbn [field_xops py_xops] in S, H'. pose proof (py_xop_values o (snd st k)) as Hin. pose proof (fop_of_run E e m o d) as Hrun.
    destruct (field_xop E e m o d) as [d1 r1]. destruct (py_xop o (snd st k)) as [vs' r]. cbn [fst snd] in *. injection S as <- ->. split; [reflexivity|].
    rewrite <- Hrun in *. pose proof (proj1 H') as Hd'. pose proof HR as (Hd & Hf & Hfk). pose proof (list_sup _ _ A2) as Hsup.
    assert (Hsup' : supported_path E (fop_path (fop_of e m o)) = true) by now rewrite fop_of_path.
    split; [|split; [|split; [|split; [exact HLL|exact HKL]]]].
    + split; [exact Hd'|]. split; [|exact Hfk]. intros k' Hk'. destruct (Hf k' Hk') as (e' & m' & B1 & B2 & B3 & B4). exists e', m'. repeat (split; [assumption|]).
      apply settled_other_one; auto; [apply B3|now rewrite fop_of_path|rewrite fop_of_path; exact (HKL _ _ _ _ _ _ Hk' Hk B1 A1)].
    + intros k' Hk'. cbn [fst]. rewrite <- (HA k' Hk'). destruct (Hf k' Hk') as (e' & m' & B1 & B2 & B3 & B4). rewrite !(get_has _ _ _ _ _ _ B1).
      destruct (C74_independent E e' m' d [fop_of e m o] (proj1 B3) Hd) as [G _]; [|exact G]. intros o0 [<-|[]]. split; [exact Hsup'|]. rewrite fop_of_path. exact (HKL _ _ _ _ _ _ Hk' Hk B1 A1).
    + cbn [snd]. intros k' Hk'. unfold put_list. destruct (str_eqb k' k) eqn:Ek.
      * apply str_eqb_eq in Ek. subst k'. exists e, m. split; [repeat (split; [assumption|]); assumption|]. split; [exact H'|].
        intros v Hi. destruct (Hin v Hi) as [Hi'|Hi']; [now apply A5|]. now apply (Hv e m v A1).
      * assert (Hne : k' <> k) by (intros ->; rewrite str_eqb_refl in Ek; discriminate). destruct (HL k' Hk') as (e' & m' & (B1 & B2 & B3) & B4 & B5). exists e', m'. split; [repeat (split; [assumption|]); assumption|]. split; [|exact B5].
        apply holds_other; auto. rewrite fop_of_path. exact (HLL _ _ _ _ _ _ Hk' Hk Hne B1 A1).
  - destruct (HL k Ho) as (e & m & ((x & Hx & Hp) & A2 & A3) & A4 & A5). rewrite Hx, Hp. destruct A4 as (A4 & -> & A6). split; [reflexivity|].
    split; [exact HR|]. split; [exact HA|]. split; [exact HL|]. split; [exact HLL|exact HKL].
Qed.

(** ** The theorem: every program of statements on single and list fields whose paths part ways gives, statement by
    statement, the results (and the IndexErrors and ValueErrors) of the same program on variables and Python lists. *)
Theorem C85_object : forall E tbl ltbl ks ls d st os,
  object_of E tbl ltbl ks ls d st -> (forall o, In o os -> sound_gop E tbl ltbl ks ls o) ->
  snd (run_gops E tbl ltbl os d) = snd (py_gops tbl os st) /\
  object_of E tbl ltbl ks ls (fst (run_gops E tbl ltbl os d)) (fst (py_gops tbl os st)).
Proof.
  intros E tbl ltbl ks ls d st os. revert d st. induction os as [|o os IH]; intros d st HO Ho; cbn [run_gops py_gops]; [auto|].
  pose proof (object_step E tbl ltbl ks ls o d st HO (Ho o (or_introl eq_refl))) as S. destruct (run_gop E tbl ltbl o d) as [d1 r], (py_gop tbl o st) as [st1 w]. destruct S as (-> & O1).
  specialize (IH d1 st1 O1 (fun o' H => Ho o' (or_intror H))). destruct (run_gops E tbl ltbl os d1) as [d2 rs], (py_gops tbl os st1) as [st2 ws]. cbn [fst snd] in *. destruct IH as (-> & O2). auto.
Qed.

(** ** a new object: variables unset, lists empty *)
Definition fresh_state (tbl : field_table) : variables * lists := (fun k => unset (field_type tbl k), fun _ => []).
Lemma new_list E e m root : list_field E e = true -> one_step e = true -> holds E e m (new_root root) [].
Proof.
  intros Hf H1. pose proof (list_sup _ _ Hf) as Hs. unfold list_field in Hf. apply andb_prop in Hf as [Hf _]. apply andb_prop in Hf as [Hf _]. apply andb_prop in Hf as [_ Hk].
  assert (He : exists q, enters E e q) by (apply lkind_enters; [exact Hs| |]; destruct (lkind E e) as [[| |]|]; discriminate).
  destruct He as [q He]. pose proof (fresh_cores E e q root He) as Hc. apply cores_nil in Hc. split; [discriminate|]. split; [|split].
  - unfold list_data, matches. rewrite (eval_path _ _ _ Hs), Hc. reflexivity.
  - rewrite Hc. contradiction.
  - destruct e; try exact I. discriminate.
Qed.
Theorem C85_new_object : forall E root tbl ltbl ks ls os,
  (forall k, In k ks -> exists e m, has_field tbl k e m /\ value_field m /\ sound_path E e) ->
  (forall k, In k ls -> exists e m, list_of E ltbl k e m) ->
  (forall k k' e e' m m', In k ks -> In k' ks -> k <> k' -> has_field tbl k e m -> has_field tbl k' e' m' -> fork E e e') ->
  (forall k k' e e' m m', In k ls -> In k' ls -> k <> k' -> has_field ltbl k e m -> has_field ltbl k' e' m' -> fork E e e') ->
  (forall k k' e e' m m', In k ks -> In k' ls -> has_field tbl k e m -> has_field ltbl k' e' m' -> fork E e e') ->
  (forall o, In o os -> sound_gop E tbl ltbl ks ls o) ->
  snd (run_gops E tbl ltbl os (new_root root)) = snd (py_gops tbl os (fresh_state tbl)).
Proof.
  intros E root tbl ltbl ks ls os Hf Hl H1 H2 H3 Ho. apply (C85_object E tbl ltbl ks ls); [|exact Ho]. split; [|split; [|split; [|split; [exact H2|exact H3]]]].
  - split; [discriminate|]. split; [|exact H1]. intros k Hk. destruct (Hf k Hk) as (e & m & A & B & C). exists e, m. repeat (split; [assumption|]). apply (proj1 (new_settled E e root C)).
  - intros k Hk. destruct (Hf k Hk) as (e & m & A & B & C). rewrite (get_has _ _ _ _ _ _ A). cbn [fst fresh_state]. rewrite (has_type _ _ _ _ A). apply unset_read; [apply C|now apply new_settled|exact B].
  - intros k Hk. destruct (Hl k Hk) as (e & m & A). exists e, m. split; [exact A|]. destruct A as (_ & A2 & A3). split; [now apply new_list|contradiction].
Qed.

(** ** the classes of the shipped maps *)
(** the string lists of a class *)
Definition list_rows (c : string) : list row := filter (fun r => (String.eqb (r_class r) c && match r_kind r with Many (MString false) => negb (among odd_list r) | _ => false end)%bool) shipped.
Definition listed (r : row) : bool := match parse (r_xpath r) with Ok e => (list_field (just (r_ns r)) e && one_step e)%bool | _ => false end.
Definition object_classes := Eval vm_compute in filter (fun c => rows_good (value_rows c ++ list_rows c) && (forallb owned (value_rows c) && forallb listed (list_rows c)))%bool classes.
Lemma object_classes_ok c : In c object_classes -> rows_good (value_rows c ++ list_rows c) = true /\ forallb owned (value_rows c) = true /\ forallb listed (list_rows c) = true.
Proof.
  assert (H : forallb (fun c => rows_good (value_rows c ++ list_rows c) && (forallb owned (value_rows c) && forallb listed (list_rows c)))%bool object_classes = true) by (vm_compute; reflexivity).
  rewrite forallb_forall in H. intros Hc. apply H in Hc. apply andb_prop in Hc as [H1 H2]. apply andb_prop in H2. auto.
Qed.
Lemma list_rows_in c r : In r (list_rows c) -> In r shipped /\ r_kind r = Many (MString false).
Proof.
  unfold list_rows. generalize shipped. intros l H. apply filter_In in H as [H1 H2]. apply andb_prop in H2 as [_ H2]. split; [exact H1|]. destruct (r_kind r) as [m|m]; [discriminate|]. destruct m as [[|]| | | | | | |]; try discriminate. reflexivity.
Qed.
Lemma nodupb_app a b : nodupb (a ++ b) = true -> nodupb a = true /\ nodupb b = true.
Proof.
  induction a as [|x a IH]; cbn [app nodupb]; [auto|]. intros H. apply andb_prop in H as [H1 H2]. destruct (IH H2) as [A B]. split; [|exact B]. rewrite A, andb_true_r. rewrite existsb_app in H1. destruct (existsb (String.eqb x) a); [discriminate|reflexivity].
Qed.
Lemma nodupb_disj a b x : nodupb (a ++ b) = true -> In x a -> In x b -> False.
Proof.
  induction a as [|y a IH]; cbn [app nodupb]; [contradiction|]. intros H Ha Hb. apply andb_prop in H as [H1 H2]. destruct Ha as [->|Ha]; [|eauto].
  apply negb_true_iff in H1. rewrite existsb_app in H1. apply orb_false_iff in H1 as [_ H1]. assert (existsb (String.eqb x) b = true); [|congruence]. apply existsb_exists. exists x. split; [exact Hb|apply String.eqb_refl].
Qed.

(** what a program on these rows may do *)
Definition row_op (lv ll : list row) (o : gop) : Prop :=
  match o with
  | GVar o => exists r, In r lv /\ rop_field o = u (r_field r) /\ forall v, o = RSet (u (r_field r)) v -> keepable false (row_mapper r) v
  | GList k o => exists r, In r ll /\ k = u (r_field r) /\ nonneg_insert o /\ forall v, In v (xop_values o) -> exists s, v = PStr s /\ xml_valid s = true
  | GRead k => exists r, In r ll /\ k = u (r_field r)
  end.
Lemma rows_object : forall lv ll E root os,
  rows_good (lv ++ ll) = true -> forallb owned lv = true -> forallb listed ll = true ->
  (forall r, In r lv -> In r shipped /\ is_single r = true /\ is_value (row_mapper r) = true) -> (forall r, In r ll -> In r shipped /\ r_kind r = Many (MString false)) ->
  (forall r, In r (lv ++ ll) -> binds E (r_ns r)) -> (forall o, In o os -> row_op lv ll o) ->
  snd (run_gops E (rows_table lv) (rows_table ll) os (new_root root)) = snd (py_gops (rows_table lv) os (fresh_state (rows_table lv))).
Proof.
  intros lv ll E root os Hc Hown Hlis Hv Hl B Ho. unfold rows_good in Hc. apply andb_prop in Hc as [Hc Hfk]. apply andb_prop in Hc as [Hn Hus].
  rewrite map_app in Hn. destruct (nodupb_app _ _ Hn) as [Hnv Hnl]. rewrite forallb_forall in Hus. rewrite forallb_forall in Hfk. rewrite forallb_forall in Hown. rewrite forallb_forall in Hlis.
  assert (Bv : forall r, In r lv -> binds E (r_ns r)) by (intros; apply B, in_or_app; auto). assert (Bl : forall r, In r ll -> binds E (r_ns r)) by (intros; apply B, in_or_app; auto).
  assert (HF : forall r, In r lv -> exists e, has_field (rows_table lv) (u (r_field r)) e (row_mapper r) /\ parse (r_xpath r) = Ok e /\ sound_path E e).
  { intros r Hr. destruct (Hv r Hr) as (Hsh & Hsi & Hva). pose proof (Hus r (in_or_app _ _ _ (or_introl Hr))) as U. unfold usable in U. apply andb_prop in U as [U U3]. apply andb_prop in U as [U1 U2]. apply negb_true_iff in U1, U3.
    destruct (single_facts r E Hsh Hsi U1 (Bv r Hr)) as (e & Hp & Hsp & Htm & Hbe & Hte). destruct (C71_xpaths_parse r Hsh) as (e0 & He0 & Hnm). rewrite Hp in He0. injection He0 as <-.
    exists e. split; [exists (r_xpath r); split; [unfold rows_table; now apply (lookup_map (fun r => (r_xpath r, row_mapper r)))|exact Hp]|]. split; [exact Hp|].
    pose proof (Hown r Hr) as W. unfold owned in W. rewrite Hp in W. apply andb_prop in W as [W1 W2]. rewrite <- (own_agree E (r_ns r) (Bv r Hr) e Hnm) in W1. rewrite <- (lkind_agree E (r_ns r) (Bv r Hr) e Hnm) in W2.
    split; [exact Hsp|]. split; [intros Hx; rewrite Hx in W2; discriminate|]. split; [intros Hx; rewrite Hx in W2; discriminate|]. split; [exact Htm|]. split; [exact Hbe|exact W1]. }
  assert (HG : forall r, In r ll -> exists e, has_field (rows_table ll) (u (r_field r)) e (MString false) /\ parse (r_xpath r) = Ok e /\ list_field E e = true /\ one_step e = true).
  { intros r Hr. destruct (Hl r Hr) as (Hsh & Hki). destruct (C71_xpaths_parse r Hsh) as (e & Hp & Hnm). assert (Hm : row_mapper r = MString false) by (unfold row_mapper; now rewrite Hki).
    exists e. split; [exists (r_xpath r); split; [|exact Hp]; rewrite <- Hm; unfold rows_table; now apply (lookup_map (fun r => (r_xpath r, row_mapper r)))|]. split; [exact Hp|].
    pose proof (Hlis r Hr) as W. unfold listed in W. rewrite Hp in W. apply andb_prop in W as [W1 W2]. rewrite <- (list_field_agree E (r_ns r) (Bl r Hr) e Hnm) in W1. auto. }
  assert (HK : forall r r' e e', In r (lv ++ ll) -> In r' (lv ++ ll) -> r_field r <> r_field r' -> parse (r_xpath r) = Ok e -> parse (r_xpath r') = Ok e' -> fork E e e').
  { intros r r' e e' Hr Hr' Hne Hp Hp'. pose proof (Hfk r Hr) as Q. rewrite forallb_forall in Q. specialize (Q r' Hr'). apply orb_true_iff in Q as [Q|Q]; [apply String.eqb_eq in Q; contradiction|].
    assert (Hsh : In r shipped) by (apply in_app_or in Hr as [Hr|Hr]; [apply (Hv r Hr)|apply (Hl r Hr)]). destruct (C71_xpaths_parse r Hsh) as (e0 & Hp0 & Hnm). rewrite Hp in Hp0. injection Hp0 as <-.
    unfold row_forkb in Q. rewrite Hp, Hp' in Q. apply andb_prop in Q as [Hnb Q]. apply forkb_ok in Q. exact (fork_agree E (r_ns r) _ _ (B r Hr) Hnm Hnb Q). }
  apply (C85_new_object E root (rows_table lv) (rows_table ll) (map (fun r => u (r_field r)) lv) (map (fun r => u (r_field r)) ll)).
  - intros k Hk. apply in_map_iff in Hk as (r & <- & Hr). destruct (HF r Hr) as (e & A & _ & C). exists e, (row_mapper r). split; [exact A|]. split; [|exact C]. destruct (Hv r Hr) as (_ & _ & V). destruct (row_mapper r); try discriminate V; exact I.
  - intros k Hk. apply in_map_iff in Hk as (r & <- & Hr). destruct (HG r Hr) as (e & A & _ & C). exists e, (MString false). split; assumption.
  - intros k k' e e' m m' Hi Hi' Hne Hp Hp'. apply in_map_iff in Hi as (r & <- & Hr). apply in_map_iff in Hi' as (r' & <- & Hr'). destruct (HF r Hr) as (e1 & F1 & F2 & _), (HF r' Hr') as (e2 & I1 & I2 & _).
    destruct (has_fun _ _ _ _ _ _ Hp F1) as [-> _]. destruct (has_fun _ _ _ _ _ _ Hp' I1) as [-> _]. apply (HK r r'); auto; [apply in_or_app; auto|apply in_or_app; auto|congruence].
  - intros k k' e e' m m' Hi Hi' Hne Hp Hp'. apply in_map_iff in Hi as (r & <- & Hr). apply in_map_iff in Hi' as (r' & <- & Hr'). destruct (HG r Hr) as (e1 & F1 & F2 & _), (HG r' Hr') as (e2 & I1 & I2 & _).
    destruct (has_fun _ _ _ _ _ _ Hp F1) as [-> _]. destruct (has_fun _ _ _ _ _ _ Hp' I1) as [-> _]. apply (HK r r'); auto; [apply in_or_app; auto|apply in_or_app; auto|congruence].
  - intros k k' e e' m m' Hi Hi' Hp Hp'. apply in_map_iff in Hi as (r & <- & Hr). apply in_map_iff in Hi' as (r' & <- & Hr'). destruct (HF r Hr) as (e1 & F1 & F2 & _), (HG r' Hr') as (e2 & I1 & I2 & _).
    destruct (has_fun _ _ _ _ _ _ Hp F1) as [-> _]. destruct (has_fun _ _ _ _ _ _ Hp' I1) as [-> _]. apply (HK r r'); auto; [apply in_or_app; auto|apply in_or_app; auto|].
    intros Hx. eapply nodupb_disj; [exact Hn|apply in_map; exact Hr|rewrite Hx; apply in_map; exact Hr'].
  - intros o Hi. specialize (Ho o Hi). destruct o as [o|k o|k]; cbn [row_op sound_gop] in *.
    + destruct Ho as (r & Hr & Hf & Hvv). split; [rewrite Hf; apply in_map_iff; eauto|]. intros k v e m -> Hp. cbn [rop_field] in Hf. subst k. specialize (Hvv v eq_refl).
      destruct (HF r Hr) as (e1 & F1 & F2 & _). destruct (has_fun _ _ _ _ _ _ Hp F1) as [-> ->]. destruct (Hv r Hr) as (Hsh & Hsi & _). pose proof (Hus r (in_or_app _ _ _ (or_introl Hr))) as U. unfold usable in U. apply andb_prop in U as [U _]. apply andb_prop in U as [U1 _]. apply negb_true_iff in U1.
      pose proof (fun H => norm_not_attr r E e1 Hsh Hsi U1 (Bv r Hr) H F2) as Hna. revert Hvv Hna. generalize (row_mapper r). intros mm Hvv Hna. destruct mm as [norm| | | |[|] norm| | |]; destruct v; cbn [keepable] in *; try contradiction; auto.
      * destruct Hvv as [Hvv _]. split; [exact Hvv|]. intros ->. auto.
      * destruct Hvv as (V1 & V2 & [V3|V3]); [discriminate|]. auto.
    + destruct Ho as (r & Hr & -> & Hnn & Hval). split; [apply in_map_iff; eauto|]. split; [exact Hnn|]. intros e m v Hp Hiv. destruct (HG r Hr) as (e1 & F1 & _). destruct (has_fun _ _ _ _ _ _ Hp F1) as [-> ->].
      destruct (Hval v Hiv) as (s & -> & Hs). split; [now apply storable_string|exact I].
    + destruct Ho as (r & Hr & ->). apply in_map_iff; eauto.
Qed.

(** 60 of the 81 classes: every program that creates an object and then works on its single string, integer, boolean and
    date fields and on its string lists gives the results of the same program on a plain Python object *)
Theorem C85_shipped_classes : forall c E root os,
  In c object_classes -> (forall r, In r (value_rows c ++ list_rows c) -> binds E (r_ns r)) -> (forall o, In o os -> row_op (value_rows c) (list_rows c) o) ->
  let tbl := rows_table (value_rows c) in let ltbl := rows_table (list_rows c) in
  snd (run_gops E tbl ltbl os (new_root root)) = snd (py_gops tbl os (fresh_state tbl)).
Proof.
  intros c E root os Hc. apply object_classes_ok in Hc as (H1 & H2 & H3).
  pose proof (value_rows_in c) as Hrow. pose proof (list_rows_in c) as Hlist. revert H1 H2 H3 Hrow Hlist. generalize (value_rows c), (list_rows c). intros lv ll H1 H2 H3 Hrow Hlist B Ho. exact (rows_object lv ll E root os H1 H2 H3 Hrow Hlist B Ho).
Qed.

Open Scope string_scope.
(** ** a case: doc_rec's fields and a list *)
Definition ltbl_case : field_table := [(u "tags", (u "tag[@s='u']", MString false)); (u "nums", (u "n", MInt))].
Definition doc_obj := el "r" [("id", "i")] "" [el "w" [("t", "1"); ("z", "q")] "" [el "size" [] "3" []]; el "tag" [("s", "u")] "x" []; el "tag" [] "other" []; el "n" [] "5" []].
Definition state_obj : variables * lists := (fun k => if str_eqb k (u "id") then PStr (u "i") else if str_eqb k (u "size") then PInt 3 else unset (field_type tbl_rec k), fun k => if str_eqb k (u "tags") then [PStr (u "x")] else [PInt 5]).
Definition os_obj := [GVar (RSet (u "kind") (PStr (u "k"))); GList (u "tags") (XOp (LAppend (PStr (u "y")))); GVar (RDel (u "size")); GList (u "nums") (XAssign [PInt 1; PInt 2; PInt 3]); GRead (u "tags");
  GVar (RGet (u "kind")); GList (u "nums") (XOp (LPop (Some 0%Z))); GList (u "tags") (XOp (LDel 7)); GVar (RDel (u "kind")); GList (u "tags") (XInsert 0 (PStr (u "z"))); GRead (u "nums"); GRead (u "tags"); GList (u "nums") XDelete; GRead (u "nums"); GVar (RGet (u "id"))].
Example C85_case : object_of E0 tbl_rec ltbl_case ks_rec [u "tags"; u "nums"] doc_obj state_obj /\
  snd (run_gops E0 tbl_rec ltbl_case os_obj doc_obj) = snd (py_gops tbl_rec os_obj state_obj) /\
  snd (run_gops E0 tbl_rec ltbl_case os_obj doc_obj) = [Ret (GV PNone); Ret (GO None); Ret (GV PNone); Ret (GO None); Ret (GL (Props_Lists.ss ["x"; "y"])); Ret (GV (PStr (u "k"))); Ret (GO (Some (PInt 1))); Exc XIndex; Ret (GV PNone); Ret (GO None); Ret (GL [PInt 2; PInt 3]); Ret (GL (Props_Lists.ss ["z"; "x"; "y"])); Ret (GO None); Ret (GL []); Ret (GV (PStr (u "i")))].
Proof.
  split; [|split; vm_compute; reflexivity].
  assert (FK : forall (t t' : field_table) (ks ks' : list str), forallb (fun k => forallb (fun k' => str_eqb k k' || forkb E0 (steps_of (Props_Record.path_of t k)) (steps_of (Props_Record.path_of t' k'))) ks')%bool ks = true ->
    forall k k' e e' m m', In k ks -> In k' ks' -> k <> k' -> has_field t k e m -> has_field t' k' e' m' -> fork E0 e e').
  { intros t t' ks ks' H k k' e e' m m' Hk Hk' Hne Hf Hf'. rewrite forallb_forall in H. specialize (H k Hk). rewrite forallb_forall in H. specialize (H k' Hk'). apply orb_prop in H as [H|H]; [apply str_eqb_eq in H; contradiction|].
    apply has_is in Hf as [-> _]. apply has_is in Hf' as [-> _]. now apply forkb_ok. }
  split; [|split; [|split; [|split]]].
  - split; [discriminate|]. split; [|apply FK; vm_compute; reflexivity].
    assert (H : forallb (fun k => match lookup k tbl_rec with Some (x, m) => match parse x with Ok e => sound_b E0 e && settled_b E0 e doc_obj && is_value m | _ => false end | None => false end)%bool ks_rec = true) by (vm_compute; reflexivity).
    rewrite forallb_forall in H. intros k Hk. specialize (H k Hk). destruct (lookup k tbl_rec) as [[x m]|] eqn:Hl; [|discriminate]. destruct (parse x) as [e| | |] eqn:Hp; try discriminate.
    apply andb_prop in H as [H H3]. apply andb_prop in H as [H1 H2]. exists e, m. split; [exists x; auto|]. split; [destruct m; try discriminate H3; exact I|]. split; [now apply sound_b_ok|now apply settled_b_ok].
  - intros k Hk. cbn [ks_rec In] in Hk. repeat (destruct Hk as [<-|Hk]; [vm_compute; reflexivity|]). contradiction.
  - intros k [<-|[<-|[]]].
    + exists (xp "tag[@s='u']"), (MString false). split; [split; [exists (u "tag[@s='u']"); split; vm_compute; reflexivity|split; vm_compute; reflexivity]|]. split; [holds_tac|]. intros v [<-|[]]. exact I.
    + exists (xp "n"), MInt. split; [split; [exists (u "n"); split; vm_compute; reflexivity|split; vm_compute; reflexivity]|]. split; [holds_tac|]. intros v [<-|[]]. exact I.
  - apply FK. vm_compute. reflexivity.
  - intros k k' e e' m m' Hk Hk'. refine (FK tbl_rec ltbl_case ks_rec [u "tags"; u "nums"] _ k k' e e' m m' Hk Hk' _); [vm_compute; reflexivity|]. intros ->. cbn [ks_rec In] in Hk. destruct Hk' as [<-|[<-|[]]]; repeat (destruct Hk as [Hk|Hk]; [vm_compute in Hk; discriminate|]); contradiction.
Qed.
Print Assumptions C85_object.
Print Assumptions C85_new_object.
Print Assumptions C85_shipped_classes.
