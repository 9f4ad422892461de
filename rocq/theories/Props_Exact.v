(** C88: what typed single fields read, for every text (xmlmap/fields.py:89-234).  [field_get E e m d] is [obj.f] for a field
    with mapper [m] and parsed XPath [e] on document [d]; which texts are integers, numbers, dates and times is in ReadSpec.v. *)
From Coq Require Import String Arith ZArith NArith List Lia Bool.
From Verif Require Import FieldUndo MapperProofs FieldRefuse Props_Fields Props_Mappers ReadSpec ReadNum ReadDate.
From Verif Require Import XPathEval FieldSpec DocSpec.
Import ListNotations.

(** the first node the XPath selects is an attribute or a text node with this string, or an element with this string value *)
Inductive first_is (E : env) (e : expr) (d : node) : bool -> str -> Prop :=
| fi_attr a q s l : selects E e d = IAttr a q s :: l -> first_is E e d false s
| fi_text a tl s l : selects E e d = IText a tl s :: l -> first_is E e d false s
| fi_elem a n l : selects E e d = IElem a n :: l -> first_is E e d true (strval n).
(** ... an element whose own first text is this *)
Definition first_has_text (E : env) (e : expr) (d : node) (s : option str) : Prop := exists a n l, selects E e d = IElem a n :: l /\ text_of n = s.

Lemma fi_false E e d s m : supported_path E e = true -> first_is E e d false s -> field_get E e m d = to_python m (Some (InStr s)).
Proof. intros Hs H. unfold field_get. rewrite (eval_path _ _ _ Hs). inversion H as [a q s' l G|a tl s' l G|]; subst; now rewrite G. Qed.
Lemma fi_true E e d s m : supported_path E e = true -> first_is E e d true s -> exists n, strval n = s /\ field_get E e m d = to_python m (Some (InElem n)).
Proof. intros Hs H. unfold field_get. rewrite (eval_path _ _ _ Hs). inversion H as [| |a n l G]; subst. rewrite G. exists n. now split. Qed.
Lemma fi_str E e d k s : supported_path E e = true -> first_is E e d k s -> exists i, read_str false i = Ret s /\ forall m, field_get E e m d = to_python m (Some i).
Proof.
  intros Hs H. destruct k.
  - unfold field_get. rewrite (eval_path _ _ _ Hs). inversion H as [| |a n l G]; subst. rewrite G. exists (InElem n). now split.
  - exists (InStr s). split; [reflexivity|]. intros m. now apply fi_false.
Qed.

(** ** StringField: the string itself *)
Theorem C88_string : forall E e d k s, supported_path E e = true -> first_is E e d k s -> field_get E e (MString false) d = Ret (PStr s).
Proof. intros E e d k s Hs H. destruct (fi_str _ _ _ _ _ Hs H) as (i & Hi & G). rewrite G. cbn [to_python]. now rewrite Hi. Qed.

(** ** IntegerField *)
(** attributes and text nodes: Python's int(), None for anything else *)
Theorem C88_integer_string : forall E e d s, supported_path E e = true -> first_is E e d false s ->
  (forall z, field_get E e MInt d = Ret (PInt z) <-> python_int s z) /\
  (field_get E e MInt d = Ret PNone <-> forall z, ~ python_int s z) /\
  (exists v, field_get E e MInt d = Ret v).
Proof.
  intros E e d s Hs H. rewrite (fi_false _ _ _ _ _ Hs H). cbn [to_python]. split; [|split].
  - intros z. rewrite <- py_int_spec. destruct (py_int s); split; intros K; inversion K; reflexivity.
  - destruct (py_int s) as [z|] eqn:P.
    + split; [discriminate|]. intros K. apply py_int_spec in P. now destruct (K z).
    + split; [|reflexivity]. intros _ z K. apply py_int_spec in K. congruence.
  - eauto.
Qed.
(** no text is two integers *)
Theorem C88_integer_unique : forall s z z', python_int s z -> python_int s z' -> z = z'.
Proof. intros s z z' H H'. apply py_int_spec in H, H'. congruence. Qed.
(** elements: libxml2's number(), truncated; None for anything that is no number.
    Partial: exact up to 2^53 (larger numbers are read in binary64, and OverflowError is raised at infinity) *)
Theorem C88_integer_element_partial : forall E e d s, supported_path E e = true -> first_is E e d true s ->
  (forall n x, libxml_number s n x -> (Z.abs (towards_zero n x) <= 2 ^ 53)%Z -> field_get E e MInt d = Ret (PInt (towards_zero n x))) /\
  (field_get E e MInt d = Ret PNone <-> forall n x, ~ libxml_number s n x).
Proof.
  intros E e d s Hs H. destruct (fi_true _ _ _ _ MInt Hs H) as (nd & Hn & ->). cbn [to_python]. rewrite Hn. split.
  - intros n x L B. destruct (xnumber_complete _ _ _ L) as (m & k & -> & Q). apply equals_tz in Q. rewrite <- Q in B |- *. now rewrite (int_of_tz _ _ B).
  - destruct (xnumber s) as [y|] eqn:X.
    + split; [destruct (int_result y); discriminate|]. intros K. destruct (xnumber_sound _ _ X) as (n & x & L). now destruct (K n x).
    + split; [|reflexivity]. intros _ n x L. apply xnumber_complete in L as (m & k & L & _). congruence.
Qed.

(** ** FloatField *)
Theorem C88_float_string_partial : forall E e d s, supported_path E e = true -> first_is E e d false s ->
  (forall n x, python_float s n x -> exists m k, field_get E e MFloat d = Ret (PFloat (Some (m, k))) /\ equals m k n x) /\
  (forall m k, field_get E e MFloat d = Ret (PFloat (Some (m, k))) -> exists n x, python_float s n x).
Proof.
  intros E e d s Hs H. rewrite (fi_false _ _ _ _ _ Hs H). cbn [to_python]. split.
  - intros n x P. destruct (py_float_complete _ _ _ P) as (m & k & -> & Q). eauto.
  - intros m k. destruct (py_float s) as [[y| |]|] eqn:P; try discriminate. intros _. exact (py_float_sound _ _ P).
Qed.
Theorem C88_float_element : forall E e d s, supported_path E e = true -> first_is E e d true s ->
  (forall n x, libxml_number s n x -> exists m k, field_get E e MFloat d = Ret (PFloat (Some (m, k))) /\ equals m k n x) /\
  ((forall n x, ~ libxml_number s n x) -> field_get E e MFloat d = Ret (PFloat None)).
Proof.
  intros E e d s Hs H. destruct (fi_true _ _ _ _ MFloat Hs H) as (nd & Hn & ->). cbn [to_python]. rewrite Hn. split.
  - intros n x L. destruct (xnumber_complete _ _ _ L) as (m & k & -> & Q). eauto.
  - intros K. destruct (xnumber s) as [y|] eqn:X; [|reflexivity]. destruct (xnumber_sound _ _ X) as (n & x & L). now destruct (K n x).
Qed.

(** ** SimpleBooleanField: True for its true text, False for its false text, and an exception for everything else *)
Theorem C88_boolean : forall E e d k s t f, supported_path E e = true -> first_is E e d k s -> f <> Some t ->
  (field_get E e (MBool t f) d = Ret (PBool true) <-> s = t) /\
  (field_get E e (MBool t f) d = Ret (PBool false) <-> f = Some s) /\
  (field_get E e (MBool t f) d = Exc XBool <-> s <> t /\ f <> Some s).
Proof.
  intros E e d k s t f Hs H Hf. destruct (fi_str _ _ _ _ _ Hs H) as (i & Hi & G). rewrite G. pose proof (C23_other_content t f i s Hi) as O. split; [|split; [|exact O]].
  - cbn [to_python]. rewrite Hi. destruct (str_eqb s t) eqn:Q; [apply str_eqb_eq in Q; now split|].
    split; [|intros ->; rewrite str_eqb_refl in Q; discriminate]. destruct f as [fs|]; [destruct (str_eqb s fs)|]; discriminate.
  - cbn [to_python]. rewrite Hi. destruct (str_eqb s t) eqn:Q.
    + apply str_eqb_eq in Q. subst s. split; [discriminate|]. intros ->. now destruct Hf.
    + destruct f as [fs|]; [|split; discriminate]. destruct (str_eqb s fs) eqn:Q2.
      * apply str_eqb_eq in Q2. subst. now split.
      * split; [discriminate|]. intros [= ->]. rewrite str_eqb_refl in Q2. discriminate.
Qed.

(** ** DateField (default format): a text that names a day of the calendar, ValueError for every other text *)
Lemma date_of s : (forall dt, (exists t, strptime iso_date s = Ret (dt, t)) <-> date_text s (yr dt) (mo dt) (dy dt) /\ real_date dt) /\
  ((forall dt, ~ (date_text s (yr dt) (mo dt) (dy dt) /\ real_date dt)) <-> strptime iso_date s = Exc XValue).
Proof.
  assert (A : forall dt, (exists t, strptime iso_date s = Ret (dt, t)) <-> date_text s (yr dt) (mo dt) (dy dt) /\ real_date dt).
  { intros dt. split; [intros (t & H); apply iso_date_exact in H; tauto|]. intros H. exists (mkTime 0 0 0 0). apply iso_date_exact. tauto. }
  split; [exact A|]. split.
  - intros K. destruct (strptime_other iso_date s) as [(d & t & H)|H]; [|exact H]. exfalso. apply (K d). apply A. eauto.
  - intros H dt K. apply A in K as (t & K). congruence.
Qed.
Theorem C88_date : forall E e d s, supported_path E e = true -> first_is E e d false s \/ first_has_text E e d (Some s) ->
  (forall dt, field_get E e (MDate iso_date) d = Ret (PDate dt) <-> date_text s (yr dt) (mo dt) (dy dt) /\ real_date dt) /\
  (field_get E e (MDate iso_date) d = Exc XValue <-> forall dt, ~ (date_text s (yr dt) (mo dt) (dy dt) /\ real_date dt)).
Proof.
  intros E e d s Hs H. assert (G : field_get E e (MDate iso_date) d = match strptime iso_date s with Ret (d, _) => Ret (PDate d) | Exc x => Exc x end).
  { destruct H as [H|(a & n & l & H & T)]; [rewrite (fi_false _ _ _ _ _ Hs H); reflexivity|]. unfold field_get. rewrite (eval_path _ _ _ Hs), H. cbn [first_input to_python]. now rewrite T. }
  rewrite G. destruct (date_of s) as [A B]. split.
  - intros dt. rewrite <- A. destruct (strptime iso_date s) as [[x y]|]; split.
    + intros [= ->]. eauto.
    + now intros (t & [= -> _]).
    + discriminate.
    + intros (t & K). discriminate.
  - rewrite B. destruct (strptime_other iso_date s) as [(x & y & ->)| ->]; [split; discriminate|]. now split.
Qed.

(** ** DateTimeField (default format): a text that names a day and a time of day, with any zone, which is ignored; otherwise
    ValueError, or IndexError if fewer than six characters are left without a final Z *)
Theorem C88_datetime : forall E e d k s, supported_path E e = true -> first_is E e d k s ->
  (forall dt tm, field_get E e (MDateTime None false) d = Ret (PDateTime dt tm) <->
     datetime_text s (yr dt) (mo dt) (dy dt) (hh tm) (mi tm) (Mappers.ss tm) (us tm) /\ real_date dt /\ real_time tm) /\
  (field_get E e (MDateTime None false) d = Exc XIndex <-> (exists r, s = r ++ [90%N] /\ length r < 6) \/ (length s < 6 /\ forall r, s <> r ++ [90%N])) /\
  ((exists dt tm, field_get E e (MDateTime None false) d = Ret (PDateTime dt tm)) \/
   field_get E e (MDateTime None false) d = Exc XValue \/ field_get E e (MDateTime None false) d = Exc XIndex).
Proof.
  intros E e d k s Hs H. destruct (fi_str _ _ _ _ _ Hs H) as (i & Hi & G). rewrite G. cbn [to_python]. rewrite Hi. set (r := match strip_tz s with Ret s => parse_dt None s | Exc x => Exc x end).
  assert (R : match strip_tz s with Ret s0 => match parse_dt None s0 with Ret (d0, t) => Ret (PDateTime d0 t) | Exc x => Exc x end | Exc x => Exc x end =
              match r with Ret (d0, t) => Ret (PDateTime d0 t) | Exc x => Exc x end) by (subst r; destruct (strip_tz s); reflexivity).
  rewrite R. clear R. pose proof (datetime_exact s) as X. pose proof (datetime_index s) as Y. pose proof (datetime_other s) as Z0. cbv zeta in Z0. fold r in X, Y, Z0. clearbody r. split; [|split].
  - intros dt tm. rewrite <- X. destruct r as [[a b]|]; split; intros K; inversion K; reflexivity.
  - rewrite <- Y. destruct r as [[a b]|]; split; intros K; inversion K; reflexivity.
  - destruct Z0 as [(a & b & ->)|[->| ->]]; eauto.
Qed.

(** nothing selected: None, and False for a boolean without a false text *)
Theorem C88_nothing : forall E e m d, supported_path E e = true -> selects E e d = [] ->
  field_get E e m d = Ret (match m with MBool _ None => PBool false | _ => PNone end).
Proof. exact read_none. Qed.

(** ** where the type of the node changes the reading *)
Open Scope string_scope.
Definition att (s : string) := el "r" [("n", s)] "" [].
Definition elt (s : string) := el "r" [] "" [el "a" [] s []].
Theorem C88_attribute_or_element_refuted :
  (forall s z, In (s, z) [("+5", 5); ("1_000", 1000)]%Z ->
     field_get E0 (xp "@n") MInt (att s) = Ret (PInt z) /\ field_get E0 (xp "a") MInt (elt s) = Ret PNone) /\
  (forall s z, In (s, z) [("1.9", 1); ("-1.9", -1); (" 1e3 ", 1000); ("-", 0); ("2.5e", 2)]%Z ->
     field_get E0 (xp "@n") MInt (att s) = Ret PNone /\ field_get E0 (xp "a") MInt (elt s) = Ret (PInt z)).
Proof.
  split; intros s z H; cbn [In] in H; repeat (destruct H as [[= <- <-]|H]); try (split; vm_compute; reflexivity); destruct H.
Qed.
(** an element whose number is infinite in binary64 is neither an integer nor None: OverflowError; and a float attribute that is no
    number reads None where an element reads NaN *)
Theorem C88_overflow_refuted :
  field_get E0 (xp "@n") MInt (att "1e400") = Ret PNone /\ field_get E0 (xp "a") MInt (elt "1e400") = Exc XOverflow /\
  field_get E0 (xp "a") MInt (elt "-9e999") = Exc XOverflow /\
  field_get E0 (xp "@n") MFloat (att "x") = Ret PNone /\ field_get E0 (xp "a") MFloat (elt "x") = Ret (PFloat None).
Proof. conjs; vm_compute; reflexivity. Qed.
(** DateTimeField takes a text that is shorter than a zone for an indexing error, and DateField an element without text for a type
    error, where other unreadable texts are ValueErrors *)
Theorem C88_errors_refuted :
  field_get E0 (xp "a") (MDateTime None false) (elt "2020") = Exc XIndex /\ field_get E0 (xp "a") (MDateTime None false) (elt "2020-1") = Exc XValue /\
  field_get E0 (xp "a") (MDate iso_date) (elt "2020") = Exc XValue /\ field_get E0 (xp "a") (MDate iso_date) (elt "") = Exc XType.
Proof. conjs; vm_compute; reflexivity. Qed.

(** ** cases *)
Example C88_integer_case : supported_path E0 (xp "@n") = true /\ first_is E0 (xp "@n") (att " -1_0 ") false (u " -1_0 ") /\ python_int (u " -1_0 ") (-10) /\
  field_get E0 (xp "@n") MInt (att " -1_0 ") = Ret (PInt (-10)).
Proof.
  split; [vm_compute; reflexivity|]. split; [apply (fi_attr _ _ _ [] (QN None (u "n")) _ []); vm_compute; reflexivity|]. split; [|vm_compute; reflexivity].
  apply py_int_spec. vm_compute. reflexivity.
Qed.
Example C88_number_case : libxml_number (u " -12.50e1") (-1250) (-1) /\ towards_zero (-1250) (-1) = (-125)%Z /\
  field_get E0 (xp "a") MInt (elt " -12.50e1") = Ret (PInt (-125)).
Proof.
  split; [|split; vm_compute; reflexivity].
  exists [32%N], [45%N], (-1)%Z, (u "12" ++ 46%N :: u "50")%list, (u "12" ++ u "50")%list, 2, (101%N :: [] ++ u "1")%list, 1%Z, [].
  split; [vm_compute; reflexivity|]. split; [constructor; [left; reflexivity|constructor]|]. split; [constructor|]. split; [constructor|].
  split; [left; apply (pointed (u "12") (u "50")); [left; discriminate|apply digits_ok; reflexivity..]|].
  split; [apply (some_exponent 101 [] 1 (u "1")); [now left|constructor|apply digits_ok; reflexivity]|]. split; [vm_compute; reflexivity|]. split; [reflexivity|]. lia.
Qed.
Example C88_datetime_case : datetime_text (u "2020-2-29t7:05:09.5+01:00") 2020 2 29 7 5 9 500000 /\
  field_get E0 (xp "a") (MDateTime None false) (elt "2020-2-29t7:05:09.5+01:00") = Ret (PDateTime (mkDate 2020 2 29) (mkTime 7 5 9 500000)).
Proof.
  split; [|vm_compute; reflexivity].
  refine (proj1 (proj1 (datetime_exact (u "2020-2-29t7:05:09.5+01:00") (mkDate 2020 2 29) (mkTime 7 5 9 500000)) _)). vm_compute. reflexivity.
Qed.
Example C88_date_case : date_text (u "2020-2- 9") 2020 2 9 /\ real_date (mkDate 2020 2 9) /\ field_get E0 (xp "a") (MDate iso_date) (elt "2020-2- 9") = Ret (PDate (mkDate 2020 2 9)).
Proof.
  assert (X : strptime iso_date (u "2020-2- 9") = Ret (mkDate 2020 2 9, mkTime 0 0 0 0)) by (vm_compute; reflexivity).
  apply iso_date_exact in X as (_ & X & Y). split; [exact X|]. split; [exact Y|vm_compute; reflexivity].
Qed.
Close Scope string_scope.

Print Assumptions C88_string.
Print Assumptions C88_integer_string.
Print Assumptions C88_integer_unique.
Print Assumptions C88_integer_element_partial.
Print Assumptions C88_float_string_partial.
Print Assumptions C88_float_element.
Print Assumptions C88_boolean.
Print Assumptions C88_date.
Print Assumptions C88_datetime.
Print Assumptions C88_nothing.
Print Assumptions C88_attribute_or_element_refuted.
Print Assumptions C88_overflow_refuted.
Print Assumptions C88_errors_refuted.
