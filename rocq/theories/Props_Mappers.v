(** C22-C25: typed fields.  [typed_set E e m v d] is [obj.f = v] and [field_get E e m d] is [obj.f] for a
    single-node field with mapper [m] and (parsed) XPath [e] on document [d]. *)
From Coq Require Import String Arith Lia.
From Verif Require Import FieldUndo MapperProofs FieldRefuse Props_Fields.
From Verif Require Import XPathEval FieldSpec DocSpec.

(** ** C22 IntegerField *)
Theorem C22_integer_roundtrip_partial : forall E e z d d',
  supported_path E e = true -> tag_of d <> None -> not_tail (selects E e d) ->
  is_attr_field E e = true \/ (Z.abs z <= 2 ^ 53)%Z ->
  typed_set E e MInt (PInt z) d = (d', Ret tt) -> field_get E e MInt d' = Ret (PInt z).
Proof. exact int_roundtrip. Qed.

Open Scope string_scope.
(** Element-valued fields read through number(): 2^53 + 1 comes back as 2^53. *)
Theorem C22_large_integer_refuted :
  exists d', typed_set E0 (xp "a") MInt (PInt 9007199254740993) (el "r" [] "" []) = (d', Ret tt) /\
    field_get E0 (xp "a") MInt d' = Ret (PInt 9007199254740992).
Proof. eexists. split; (vm_compute; reflexivity). Qed.

Example C22_case : supported_path E0 (xp "a/@n") = true /\ is_attr_field E0 (xp "a/@n") = true /\ is_attr_field E0 (xp "a") = false /\
  exists d', typed_set E0 (xp "a/@n") MInt (PInt (-9007199254740993)) (el "r" [] "" []) = (d', Ret tt) /\
    field_get E0 (xp "a/@n") MInt d' = Ret (PInt (-9007199254740993)).
Proof. conjs; try (vm_compute; reflexivity). eexists. split; (vm_compute; reflexivity). Qed.
(** True and False are written as Python spells them and are no integers any more: the field
    reads as None. *)
Theorem C22_boolean_value_refuted : forall E e b d d',
  supported_path E e = true -> tag_of d <> None -> not_tail (selects E e d) ->
  typed_set E e MInt (PBool b) d = (d', Ret tt) ->
  field_get E e MInt d' = Ret PNone /\
  field_get E e (MString false) d' = Ret (PStr (u (if b then "True" else "False")%string)).
Proof.
  intros E e b d d' Hs Hd Hn Hm. destruct (typed_set_ok _ _ _ _ _ _ Hm) as (x & Hx & Hm').
  assert (Hx' : x = Some (u (if b then "True" else "False")%string)) by (cbn in Hx; destruct b; injection Hx as <-; reflexivity).
  subst x. destruct (set_reads _ _ _ _ _ Hs Hd Hn Hm') as (i & Hi & Hr).
  unfold field_get. rewrite (eval_path _ _ _ Hs), Hi. destruct (is_attr_field E e).
  - subst i. destruct b; split; reflexivity.
  - destruct Hr as (n & -> & _ & _ & Hv). cbn [to_python read_str]. rewrite Hv. destruct b; split; reflexivity.
Qed.
Example C22_case_boolean : exists d', typed_set E0 (xp "a") MInt (PBool true) (el "r" [] "" []) = (d', Ret tt).
Proof. eexists. vm_compute; reflexivity. Qed.

Close Scope string_scope.

(** ** C23 SimpleBooleanField *)
Theorem C23_boolean_roundtrip_partial : forall E e t f b d d',
  supported_path E e = true -> tag_of d <> None -> not_tail (selects E e d) ->
  f <> Some t -> (b = false -> f <> None) ->
  typed_set E e (MBool t f) (PBool b) d = (d', Ret tt) -> field_get E e (MBool t f) d' = Ret (PBool b).
Proof. exact bool_roundtrip. Qed.

(** Any value may be assigned: what counts is whether Python takes it for true (fields.py:170-176). *)
Inductive counts_as : pyval -> bool -> Prop :=
| ca_none : counts_as PNone false
| ca_bool b : counts_as (PBool b) b
| ca_zero : counts_as (PInt 0) false
| ca_int z : z <> 0%Z -> counts_as (PInt z) true
| ca_empty : counts_as (PStr []) false
| ca_str c s : counts_as (PStr (c :: s)) true
| ca_fzero k : counts_as (PFloat (Some (0%Z, k))) false
| ca_float z k : z <> 0%Z -> counts_as (PFloat (Some (z, k))) true
| ca_nan : counts_as (PFloat None) true
| ca_date d : counts_as (PDate d) true
| ca_datetime d t : counts_as (PDateTime d t) true.
Lemma counts_truth v b : counts_as v b -> py_truth v = b.
Proof. intros []; try reflexivity; cbn; now rewrite (proj2 (Z.eqb_neq _ _)). Qed.
Theorem C23_any_value_partial : forall E e t f v b d d',
  supported_path E e = true -> tag_of d <> None -> not_tail (selects E e d) ->
  f <> Some t -> (b = false -> f <> None) -> counts_as v b ->
  typed_set E e (MBool t f) v d = (d', Ret tt) -> field_get E e (MBool t f) d' = Ret (PBool b).
Proof.
  intros E e t f v b d d' Hs Hd Hn Hf Hb Hc Hm. apply (bool_roundtrip E e t f b d d' Hs Hd Hn Hf Hb).
  revert Hm. unfold typed_set. cbn [to_xml]. now rewrite (counts_truth _ _ Hc).
Qed.
(** ... and a value that counts as false deletes a field declared with [false=None], as False does. *)
Theorem C23_any_false : forall E e t f v d, counts_as v false -> typed_set E e (MBool t f) v d = typed_set E e (MBool t f) (PBool false) d.
Proof. intros E e t f v d Hc. unfold typed_set. cbn [to_xml]. now rewrite (counts_truth _ _ Hc). Qed.

(** With [false=None], writing False deletes the field, and a missing field reads False. *)
Theorem C23_false_deletes_partial : forall E e t d d' a i n,
  supported_path E e = true -> tag_of d <> None -> is_KChild (lkind E e) = true ->
  selects E e d = [] \/ (selects E e d = [IElem (a ++ [i]) n] /\ first_parent E e d a) ->
  typed_set E e (MBool t None) (PBool false) d = (d', Ret tt) -> field_get E e (MBool t None) d' = Ret (PBool false).
Proof.
  intros E e t d d' a i n Hs Hd Hk Hsel Hm. change (mgr_set E e None d = (d', Ret tt)) in Hm. rewrite none_is_delete in Hm.
  apply (read_none E e (MBool t None)); [assumption|]. destruct Hsel as [Hsel|[Hsel Hu]].
  - rewrite (delete_unset _ _ _ Hs Hsel) in Hm. injection Hm as <-. exact Hsel.
  - now apply (delete_elem _ _ _ _ _ _ _ _ _ Hs Hd Hk Hu Hsel Hm).
Qed.

(** Any other content raises, and raises only then. *)
Theorem C23_other_content : forall t f i s, read_str false i = Ret s ->
  (to_python (MBool t f) (Some i) = Exc XBool <-> s <> t /\ f <> Some s).
Proof.
  intros t f i s Hi. cbn. rewrite Hi. destruct (str_eqb s t) eqn:E1.
  - apply str_eqb_eq in E1. split; [discriminate|intros [H _]; contradiction].
  - assert (s <> t) by (intros ->; rewrite str_eqb_refl in E1; discriminate). destruct f as [fs|].
    + destruct (str_eqb s fs) eqn:E2; [apply str_eqb_eq in E2; subst; split; [discriminate|intros [_ H']; congruence]|].
      split; auto. intros _. split; [assumption|]. intros [= ->]. rewrite str_eqb_refl in E2. discriminate.
    + split; auto. intros _. split; [assumption|discriminate].
Qed.

Open Scope string_scope.
Theorem C23_equal_markers_refuted :
  exists d', typed_set E0 (xp "a") (MBool (u "1") (Some (u "1"))) (PBool false) (el "r" [] "" []) = (d', Ret tt) /\
    field_get E0 (xp "a") (MBool (u "1") (Some (u "1"))) d' = Ret (PBool true).
Proof. eexists. split; (vm_compute; reflexivity). Qed.
Example C23_case : supported_path E0 (xp "a/@n") = true /\ Some (u "no") <> Some (u "yes") /\
  exists d', typed_set E0 (xp "a/@n") (MBool (u "yes") (Some (u "no"))) (PBool false) (el "r" [] "" []) = (d', Ret tt).
Proof. conjs; try (vm_compute; reflexivity); [discriminate|]. eexists. vm_compute; reflexivity. Qed.
Example C23_case_delete : let d := el "r" [] "" [el "a" [] "yes" []] in
  supported_path E0 (xp "a") = true /\ is_KChild (lkind E0 (xp "a")) = true /\ first_parent E0 (xp "a") d [] /\
  selects E0 (xp "a") d = [IElem (app [] [0]) (el "a" [] "yes" [])] /\
  typed_set E0 (xp "a") (MBool (u "yes") None) (PBool false) d = (el "r" [] "" [], Ret tt).
Proof. conjs; vm_compute; reflexivity. Qed.
Close Scope string_scope.

(** ** C24 DateTimeField and DateField *)
(** specification: the days of the Gregorian calendar, years 1 to 9999, and the times of a day *)
Definition leap_year (y : N) : Prop := (y mod 4 = 0 /\ (y mod 100 = 0 -> y mod 400 = 0))%N.
Inductive month_length (y : N) : N -> N -> Prop :=
| ml31 m : In m [1; 3; 5; 7; 8; 10; 12]%N -> month_length y m 31
| ml30 m : In m [4; 6; 9; 11]%N -> month_length y m 30
| ml29 : leap_year y -> month_length y 2 29
| ml28 : ~ leap_year y -> month_length y 2 28.
Definition real_date (d : date) : Prop := (1 <= yr d <= 9999 /\ exists n, month_length (yr d) (mo d) n /\ 1 <= dy d <= n)%N.
Definition real_time (t : time) : Prop := (hh t <= 23 /\ mi t <= 59 /\ ss t <= 59 /\ us t <= 999999)%N.
Lemma leap_spec y : leap y = true <-> leap_year y.
Proof.
  unfold leap, leap_year. rewrite andb_true_iff, orb_true_iff, negb_true_iff, !N.eqb_eq, N.eqb_neq. split; intros [H1 H2]; (split; [exact H1|]).
  - intros H3. destruct H2 as [H2|H2]; [contradiction|exact H2].
  - destruct (N.eq_dec (y mod 100) 0) as [E|E]; [right; exact (H2 E)|now left].
Qed.
Lemma month_spec y m n : (1 <= m <= 12)%N -> (month_length y m n <-> n = month_days y m).
Proof.
  intros Hm. pose proof (leap_spec y) as L. split.
  - intros [k I|k I|Y|Y]; [cbn [In] in I; repeat (destruct I as [<-|I]; [reflexivity|]); destruct I..| |].
    + apply L in Y. unfold month_days. now rewrite Y.
    + unfold month_days. destruct (leap y); [destruct Y; now apply L|reflexivity].
  - intros ->. assert (C : In m [1; 2; 3; 4; 5; 6; 7; 8; 9; 10; 11; 12]%N).
    { cbn. destruct m as [|m]; [lia|]. do 4 (destruct m as [m|m|]; try lia); intuition. }
    cbn [In] in C. repeat destruct C as [<-|C]; [..|contradiction]; try (apply ml31; cbn; tauto); try (apply ml30; cbn; tauto).
    unfold month_days. cbn [N.eqb Pos.eqb]. destruct (leap y); [apply ml29; now apply L|apply ml28; intros Y; apply L in Y; discriminate].
Qed.
Lemma date_spec d : date_ok d = true <-> real_date d.
Proof.
  unfold date_ok, real_date. rewrite !andb_true_iff, !N.leb_le. split.
  - intros (((((H1 & H2) & H3) & H4) & H5) & H6). split; [now split|]. exists (month_days (yr d) (mo d)). split; [now apply month_spec|now split].
  - intros ((H1 & H2) & n & M & H5 & H6). assert (R : (1 <= mo d <= 12)%N).
    { clear -M. destruct M as [k M|k M|M|M]; try lia; cbn [In] in M; lia. }
    apply (month_spec _ _ _ R) in M. subst n. tauto.
Qed.
Lemma time_spec t : time_ok t = true <-> real_time t.
Proof. unfold time_ok, real_time. rewrite !andb_true_iff, !N.ltb_lt. lia. Qed.
(** naive datetimes, any year 1-9999, with or without microseconds, default (ISO) format *)
Theorem C24_datetime_roundtrip : forall E e norm dt tm d d',
  supported_path E e = true -> tag_of d <> None -> not_tail (selects E e d) ->
  real_date dt -> real_time tm -> is_attr_field E e = true \/ norm = false ->
  typed_set E e (MDateTime None norm) (PDateTime dt tm) d = (d', Ret tt) ->
  field_get E e (MDateTime None norm) d' = Ret (PDateTime dt tm).
Proof.
  intros E e norm dt tm d d' Hs Hd Hn Hdt Htm Hc Hm. apply date_spec in Hdt. apply time_spec in Htm. destruct (typed_set_ok _ _ _ _ _ _ Hm) as (x & Hx & Hm'). cbn in Hx. injection Hx as <-.
  destruct (set_reads _ _ _ _ _ Hs Hd Hn Hm') as (i & Hi & Hr). unfold field_get. rewrite (eval_path _ _ _ Hs), Hi.
  apply (datetime_read dt tm []); auto using tz_none. rewrite app_nil_r. destruct (is_attr_field E e).
  - now subst i.
  - destruct Hr as (n & -> & _ & _ & Hv). destruct Hc as [Hc|Hc]; [discriminate|]. subst norm. cbn. now rewrite Hv.
Qed.

(** Z and numeric offsets after the time are ignored on reading. *)
Theorem C24_offset_ignored : forall dt tm z i norm,
  real_date dt -> real_time tm -> tz_suffix z -> read_str norm i = Ret (isoformat dt tm ++ z) ->
  to_python (MDateTime None norm) (Some i) = Ret (PDateTime dt tm).
Proof. intros dt tm z i norm Hd Ht. apply date_spec in Hd. apply time_spec in Ht. intros. now apply (datetime_read dt tm z). Qed.

(** a text in a date format that names no day of the calendar, or no time of day, is refused: ValueError *)
Lemma dmatch_range x d t s : (yr d <= 9999)%N -> (1 <= mo d <= 12)%N -> (1 <= dy d <= 31)%N -> real_time t -> hd_error (dmatch x (dir_pad x d t ++ s)) = Some (dir_val x d t, s).
Proof.
  intros Hy Hm Hd Ht. apply time_spec in Ht.
  destruct x; try exact (dmatch_pad _ (mkDate 2000 1 1) t s eq_refl Ht).
  - now apply year_match.
  - refine (dmatch_pad Fm (mkDate 2000 (mo d) 1) t s _ Ht). apply date_spec. split; [cbn; lia|]. exists (month_days 2000 (mo d)). split; [now apply month_spec|]. cbn [dy]. split; [lia|]. unfold month_days. destruct (N.eqb _ _); [destruct (leap _); lia|destruct (_ || _)%bool; lia].
  - refine (dmatch_pad Fd (mkDate 2000 1 (dy d)) t s _ Ht). apply date_spec. split; [cbn; lia|]. exists 31%N. split; [apply ml31; now left|exact Hd].
Qed.
Lemma fmatch_range f d t x s : (yr d <= 9999)%N -> (1 <= mo d <= 12)%N -> (1 <= dy d <= 31)%N -> real_time t ->
  hd_error (fmatch f x (flat_map (fun y => dir_pad y d t) f ++ s)) = Some (puts f d t x, s).
Proof.
  intros Hy Hm Hd Ht. revert x. induction f as [|y f IH]; intros x; [reflexivity|].
  cbn [flat_map fmatch]. rewrite <- app_assoc. pose proof (dmatch_range y d t (flat_map (fun y => dir_pad y d t) f ++ s) Hy Hm Hd Ht) as G.
  destruct (dmatch y _) as [|z l]; [discriminate|]. injection G as ->. cbn [flat_map fst snd].
  specialize (IH (put y (dir_val y d t) x)). destruct (fmatch f _ _) as [|w l']; [discriminate|]. cbn [app]. injection IH as ->. reflexivity.
Qed.
Theorem C24_no_such_day : forall fmt d, (1000 <= yr d <= 9999)%N -> (1 <= mo d <= 12)%N -> (1 <= dy d <= 31)%N -> ~ real_date d ->
  records FY fmt = true -> records Fm fmt = true -> records Fd fmt = true ->
  to_python (MDate fmt) (Some (InStr (strftime fmt d (mkTime 0 0 0 0)))) = Exc XValue.
Proof.
  intros fmt d Hy Hm Hd Hn R1 R2 R3. cbn [to_python]. unfold strptime. rewrite strftime_pad by now left.
  assert (Ht : real_time (mkTime 0 0 0 0)) by (unfold real_time; cbn; lia).
  pose proof (fmatch_range fmt d (mkTime 0 0 0 0) (mkDate 1900 1 1, mkTime 0 0 0 0) [] ltac:(lia) Hm Hd Ht) as G. rewrite app_nil_r, puts_recorded, R1, R2, R3 in G.
  destruct (fmatch fmt _ _) as [|x l]; [discriminate|]. injection G as ->. destruct d as [y m dd]. cbn [yr mo dy] in *.
  destruct (date_ok (mkDate y m dd)) eqn:D; [destruct Hn; now apply date_spec|reflexivity].
Qed.
(** dates from the year 1000 on, with any format that records year, month and day *)
Theorem C24_date_roundtrip_partial : forall E e fmt dt d d',
  supported_path E e = true -> tag_of d <> None -> not_tail (selects E e d) ->
  real_date dt -> (1000 <= yr dt)%N -> records FY fmt = true -> records Fm fmt = true -> records Fd fmt = true ->
  typed_set E e (MDate fmt) (PDate dt) d = (d', Ret tt) -> field_get E e (MDate fmt) d' = Ret (PDate dt).
Proof.
  intros E e fmt dt d d' Hs Hd Hn Hdt Hy H1 H2 H3 Hm. apply date_spec in Hdt. destruct (date_format_roundtrip fmt dt Hdt Hy H1 H2 H3) as [t Ht].
  eapply typed_set_get; try eassumption; [reflexivity| |]; cbn; [|intros n _ -> _]; now rewrite Ht.
Qed.

(** datetimes with a custom format: what the format does not record takes strptime's defaults *)
Theorem C24_custom_format_partial : forall E e fmt dt tm d d',
  supported_path E e = true -> tag_of d <> None -> not_tail (selects E e d) ->
  real_date dt -> real_time tm -> (1000 <= yr dt)%N ->
  real_date (fst (recorded fmt dt tm)) -> real_time (snd (recorded fmt dt tm)) ->
  strip_tz (strftime fmt dt tm) = Ret (strftime fmt dt tm) ->
  typed_set E e (MDateTime (Some fmt) false) (PDateTime dt tm) d = (d', Ret tt) ->
  field_get E e (MDateTime (Some fmt) false) d' = Ret (PDateTime (fst (recorded fmt dt tm)) (snd (recorded fmt dt tm))).
Proof.
  intros E e fmt dt tm d d' Hs Hd Hn Hdt Htm Hy Hrd Hrt Hz Hm. apply date_spec in Hdt, Hrd. apply time_spec in Htm, Hrt.
  assert (Hy' : (1000 <= yr dt <= 9999)%N).
  { split; [assumption|]. unfold date_ok in Hdt. repeat rewrite andb_true_iff in Hdt. destruct Hdt as (((((_ & H) & _) & _) & _) & _). now apply N.leb_le in H. }
  assert (Hp : parse_dt (Some fmt) (strftime fmt dt tm) = Ret (recorded fmt dt tm)).
  { cbn [parse_dt]. rewrite strftime_pad by now left. now apply strptime_pad. }
  eapply typed_set_get; try eassumption; [reflexivity| |]; cbn [to_python read_str]; [|intros n _ _ ->]; rewrite Hz, Hp; destruct (recorded fmt dt tm); reflexivity.
Qed.

Open Scope string_scope.
(** Years before 1000 are written without leading zeros and cannot be read; nor can DateTimeField read a
    plain date it wrote itself. *)
Theorem C24_refuted :
  (exists d', typed_set E0 (xp "a") (MDate iso_date) (PDate (mkDate 999 1 1)) (el "r" [] "" []) = (d', Ret tt) /\
     field_get E0 (xp "a") (MDate iso_date) d' = Exc XValue) /\
  (exists d', typed_set E0 (xp "a") (MDateTime (Some iso_date) false) (PDateTime (mkDate 2024 1 31) (mkTime 0 0 0 0)) (el "r" [] "" []) = (d', Ret tt) /\
     field_get E0 (xp "a") (MDateTime (Some iso_date) false) d' = Exc XValue) /\
  (* stored text shorter than six characters *)
  to_python (MDateTime None false) (Some (InStr (u "2024"))) = Exc XIndex.
Proof. conjs; try (vm_compute; reflexivity); eexists; split; (vm_compute; reflexivity). Qed.

Example C24_case : supported_path E0 (xp "a/@n") = true /\ real_date (mkDate 2024 2 29) /\ real_date (mkDate 2000 2 29) /\ ~ real_date (mkDate 1900 2 29) /\ real_time (mkTime 23 59 59 1) /\
  isoformat (mkDate 2024 2 29) (mkTime 23 59 59 1) = u "2024-02-29T23:59:59.000001" /\ tz_suffix (u "-05:00") /\
  (exists d', typed_set E0 (xp "a") (MDateTime None false) (PDateTime (mkDate 7 2 28) (mkTime 23 59 59 1)) (el "r" [] "" []) = (d', Ret tt)) /\
  (exists d', typed_set E0 (xp "a") (MDate [Fd; FC 46; Fm; FC 46; FY]) (PDate (mkDate 2024 2 29)) (el "r" [] "" []) = (d', Ret tt)).
Proof.
  conjs; try (vm_compute; reflexivity); try (eexists; vm_compute; reflexivity); try (apply date_spec; vm_compute; reflexivity); try (apply time_spec; vm_compute; reflexivity).
  { intros K. apply date_spec in K. vm_compute in K. discriminate. }
  apply (tz_off 45 48 53 48 48); [now right|]. repeat constructor.
Qed.
Example C24_case_custom : let f := app iso_date [FC 32; FH; FC 58; FM] in let dt := mkDate 2024 2 29 in let tm := mkTime 1 2 3 4 in
  real_date (fst (recorded f dt tm)) /\ real_time (snd (recorded f dt tm)) /\ strip_tz (strftime f dt tm) = Ret (strftime f dt tm).
Proof. conjs; [apply date_spec; vm_compute; reflexivity|apply time_spec; vm_compute; reflexivity|vm_compute; reflexivity]. Qed.
Close Scope string_scope.

(** ** C25 normalize *)
(** [spaced s ws] (MapperProofs.v): [s] consists of the words [ws] with white space around and between.
    Every string is so for exactly one list of words, and normalising gives these words joined by one space. *)
Theorem C25_normalize_words : forall s, exists ws, spaced s ws /\ Forall word ws /\ normalize_space s = join_sp ws /\
  spaced (normalize_space s) ws /\ forall ws', spaced s ws' -> ws' = ws.
Proof.
  intros s. destruct (spaced_total s) as [ws H]. exists ws. split; [assumption|]. pose proof (spaced_words _ _ H) as Hw. split; [assumption|].
  pose proof (normalize_spec _ _ H) as Hn. split; [assumption|]. rewrite Hn. split; [now apply spaced_join|].
  intros ws' H'. rewrite <- (norm_words_spaced _ _ H'). now apply norm_words_spaced.
Qed.

Theorem C25_normalize_idempotent : forall s, normalize_space (normalize_space s) = normalize_space s.
Proof. exact normalize_idem. Qed.

(** no leading, trailing or doubled white space; the only white space is the space *)
Theorem C25_no_runs : forall s, let r := normalize_space s in
  (forall a b, r <> 32%N :: a /\ r <> b ++ [32%N]) /\ (forall a x y b, r = a ++ x :: y :: b -> is_xws x = true -> is_xws y = false) /\
  (forall x, In x r -> is_xws x = true -> x = 32%N).
Proof. exact normalize_no_runs. Qed.

(** an element-valued StringField(normalize=True) *)
Theorem C25_field_partial : forall E e d b n rest, supported_path E e = true -> selects E e d = IElem b n :: rest ->
  field_get E e (MString true) d = Ret (PStr (normalize_space (strval n))).
Proof. intros E e d b n rest Hs Hsel. unfold field_get. rewrite (eval_path _ _ _ Hs), Hsel. reflexivity. Qed.

Open Scope string_scope.
(** normalize=True has no effect on attributes and text() *)
Theorem C25_attribute_refuted :
  field_get E0 (xp "@a") (MString true) (el "r" [("a", "  x  y ")] "" []) = Ret (PStr (u "  x  y ")).
Proof. vm_compute. reflexivity. Qed.
Example C25_case : supported_path E0 (xp "a") = true /\
  field_get E0 (xp "a") (MString true) (el "r" [] "" [el "a" [] "  x  y " [el "b" [] "z" []]]) = Ret (PStr (u "x y z")).
Proof. conjs; vm_compute; reflexivity. Qed.
Close Scope string_scope.

Print Assumptions C22_integer_roundtrip_partial.
Print Assumptions C22_large_integer_refuted.
Print Assumptions C23_boolean_roundtrip_partial.
Print Assumptions C23_false_deletes_partial.
Print Assumptions C23_other_content.
Print Assumptions C23_equal_markers_refuted.
Print Assumptions C24_datetime_roundtrip.
Print Assumptions C24_offset_ignored.
Print Assumptions C24_date_roundtrip_partial.
Print Assumptions C24_custom_format_partial.
Print Assumptions C24_no_such_day.
Print Assumptions C24_refuted.
Print Assumptions C25_normalize_words.
Print Assumptions C25_normalize_idempotent.
Print Assumptions C25_no_runs.
Print Assumptions C25_field_partial.
Print Assumptions C25_attribute_refuted.
