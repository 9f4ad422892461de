(** C81: what str(obj) shows. *)
From Coq Require Import String Arith Lia.
From Verif Require Import FieldUndo MapperProofs FieldRefuse Props_Fields Display Props_XmlText XmlText.
From Verif Require Import XPathEval FieldSpec DocSpec.
Opaque u.

(** ** Specification *)
(** the pieces of text in an element, in document order; comments and attributes are not text *)
Inductive texts : node -> list str -> Prop :=
| TxMisc s : texts (Misc s) []
| TxElem q ats txt kids ls : texts_kids kids ls -> texts (Elem q ats txt kids) (match txt with Some t => t :: ls | None => ls end)
with texts_kids : list (node * option str) -> list str -> Prop :=
| TkNil : texts_kids [] []
| TkCons k t r ls ls' : texts k ls -> texts_kids r ls' -> texts_kids ((k, t) :: r) (ls ++ (match t with Some s => s :: ls' | None => ls' end)).
(** [shown_words s ws]: what stands between the white space of s *)
Definition shown_words (s : str) (ws : list str) : Prop := MapperProofs.spaced s ws.
Definition letters (s : str) : str := filter (fun c => negb (is_xws c)) s.

(** ** facts *)
Scheme texts_i := Induction for texts Sort Prop with texts_kids_i := Induction for texts_kids Sort Prop.
Combined Scheme texts_mut from texts_i, texts_kids_i.
Lemma texts_strval : (forall n ls, texts n ls -> strval n = List.concat ls) /\
  (forall kids ls, texts_kids kids ls -> flat_map (fun k => strval (fst k) ++ ostr (snd k)) kids = List.concat ls).
Proof.
  apply texts_mut; intros; cbn [strval flat_map fst snd]; try reflexivity.
  - rewrite H. now destruct txt.
  - rewrite H, H0, concat_app, <- app_assoc. now destruct t.
Qed.
Lemma texts_total n : exists ls, texts n ls.
Proof.
  induction n as [q ats txt kids IH|s] using node_ind'; [|exists []; constructor].
  assert (H : exists ls, texts_kids kids ls).
  { induction IH as [|[k t] r [ls Hk] _ [ls' Hr]]; [exists []; constructor|]. eexists. econstructor; eassumption. }
  destruct H as [ls H]. eexists. constructor. exact H.
Qed.
Lemma default_elem n : tag_of n <> None -> default_str (WNode n) = normalize_space (strval n).
Proof. destruct n; [reflexivity|]. intros H. now destruct H. Qed.
Lemma drop_strval n : strval (drop_empty n) = strval n.
Proof.
  induction n as [q ats txt kids IH|s] using node_ind'; [|reflexivity]. cbn [drop_empty strval]. rewrite drop_print. f_equal.
  induction IH as [|[k t] r Hk _ IH]; [reflexivity|]. cbn [map flat_map fst snd] in *. now rewrite Hk, drop_print, IH.
Qed.
Lemma letters_app a b : letters (a ++ b) = letters a ++ letters b. Proof. apply filter_app. Qed.
Lemma letters_blank w : blank w -> letters w = [].
Proof. induction 1 as [|c w Hc _ IH]; [reflexivity|]. cbn. destruct Hc as [-> |[-> | ->]]; exact IH. Qed.
Lemma letters_norm s : letters (normalize_space s) = letters s.
Proof.
  destruct (spaced_total s) as [ws H]. rewrite (normalize_spec _ _ H).
  assert (W : forall a, all_ws a -> letters a = []).
  { induction a as [|c a IH]; intros Ha; [reflexivity|]. cbn. rewrite (Ha c (or_introl eq_refl)). apply IH. intros x Hx. apply Ha. now right. }
  assert (J : letters (join_sp ws) = List.concat ws /\ letters s = List.concat ws); [|destruct J as [-> ->]; reflexivity].
  assert (WW : forall w, word w -> letters w = w).
  { intros w [_ Hw]. unfold letters. induction w as [|c w IH]; [reflexivity|]. cbn. rewrite (Hw c (or_introl eq_refl)). cbn. f_equal. apply IH. intros x Hx. apply Hw. now right. }
  split.
  - pose proof (spaced_words _ _ H) as F. clear H. induction F as [|w ws Hw F IH]; [reflexivity|]. destruct ws as [|w' ws]; [cbn; rewrite app_nil_r; now apply WW|].
    change (join_sp (w :: w' :: ws)) with (w ++ 32%N :: join_sp (w' :: ws)). rewrite letters_app, (WW _ Hw). cbn [List.concat]. f_equal. exact IH.
  - induction H as [s Hs|a w b ws Ha Hw Hb H IH]; [now apply W|]. rewrite !letters_app, (W _ Ha), (WW _ Hw), IH. reflexivity.
Qed.
Lemma spaced_letters n : forall n', Props_XmlText.spaced n n' -> letters (strval n') = letters (strval n).
Proof.
  induction n as [q ats txt kids IH|s] using node_ind'; intros n' H; inversion H as [|? ? ? txt' ? kids' F D]; subst; [|reflexivity]. cbn [strval]. rewrite !letters_app.
  destruct D as [[-> D]|(-> & _ & D & B)].
  - rewrite drop_print. f_equal. clear H. revert D. induction F as [|[k t] [k' t'] r r' Hk F IHF]; intros D; [reflexivity|]. cbn [map fst snd flat_map] in *. injection D as -> D.
    inversion IH; subst. rewrite !letters_app, drop_print. f_equal; [f_equal; now apply H1|]. now apply IHF.
  - inversion B as [|? ? [w [-> Hw]] B']; subst. cbn [ostr]. rewrite (letters_blank _ Hw). change (letters []) with (@nil N). cbn [app]. clear H B Hw. revert D B'. induction F as [|[k t] [k' t'] r r' Hk F IHF]; intros D B'; [reflexivity|].
    inversion IH; subst. inversion D; subst. inversion B' as [|? ? [w' [E Hw]] B'']; subst. cbn [fst snd flat_map map] in *. subst. rewrite !letters_app. cbn [ostr].
    rewrite (letters_blank _ Hw), !app_nil_r. f_equal; [|now apply IHF]. now apply H1.
Qed.

(** ** C81 *)
(** an object on an element shows the words of its text, one blank between them *)
Theorem C81_words : forall n ls, tag_of n <> None -> texts n ls ->
  exists ws, shown_words (List.concat ls) ws /\ (forall ws', shown_words (List.concat ls) ws' -> ws' = ws) /\
    default_str (WNode n) = join_sp ws /\ shown_words (default_str (WNode n)) ws.
Proof.
  intros n ls Ht H. rewrite (default_elem n Ht), (proj1 texts_strval n ls H). destruct (spaced_total (List.concat ls)) as [ws W]. exists ws. split; [exact W|].
  split; [|rewrite (normalize_spec _ _ W); split; [reflexivity|apply spaced_join; exact (spaced_words _ _ W)]].
  intros ws' W'. rewrite <- (norm_words_spaced _ _ W'). exact (norm_words_spaced _ _ W).
Qed.
(** nothing but the text counts: not the names, the attributes, the comments, nor how the text is split *)
Theorem C81_text_alone : forall n n' ls ls', tag_of n <> None -> tag_of n' <> None -> texts n ls -> texts n' ls' -> List.concat ls = List.concat ls' ->
  default_str (WNode n) = default_str (WNode n').
Proof. intros n n' ls ls' Ht Ht' H H' E. rewrite !default_elem by assumption. now rewrite (proj1 texts_strval _ _ H), (proj1 texts_strval _ _ H'), E. Qed.
(** an object on a text or attribute node shows it unchanged *)
Theorem C81_text_node : forall s, default_str (WString s) = s.
Proof. reflexivity. Qed.
(** saving and loading does not change what is shown *)
Theorem C81_saved : forall P d, decls_ok P -> tree_ok P d -> tag_of d <> None ->
  exists d', load (serialize_document P false d) = Some (P, d') /\ default_str (WNode d') = default_str (WNode d).
Proof.
  intros P d HP Hd Ht. exists (drop_empty d). split; [apply (C79_reload_document P d HP Hd)|].
  - destruct d; [exact I|now destruct Ht].
  - destruct d as [q ats txt kids|]; [|now destruct Ht]. pose proof (drop_strval (Elem q ats txt kids)) as D. cbn [drop_empty] in D |- *. cbn [default_str]. now rewrite D.
Qed.
(** pretty printing can add blanks between words, no more *)
Theorem C81_saved_pretty : forall P d, decls_ok P -> tree_ok P d -> tag_of d <> None ->
  exists d', load (serialize_document P true d) = Some (P, d') /\ letters (default_str (WNode d')) = letters (default_str (WNode d)).
Proof.
  intros P d HP Hd Ht. assert (He : is_elem d) by (destruct d; [exact I|now destruct Ht]).
  destruct (C79_pretty P d HP Hd He) as [(d' & L & S) _]. exists d'. split; [exact L|]. assert (Ht' : tag_of d' <> None) by (inversion S; subst; [now destruct Ht|discriminate]).
  rewrite !default_elem by assumption. rewrite !letters_norm. now apply spaced_letters.
Qed.
(** after a text is assigned to an element without children, the object shows that text *)
Transparent u.
Lemma set_text_leaf E v q ats txt d' : string_set E (u "text()") (Some v) (Elem q ats txt []) = (d', Ret tt) -> d' = Elem q ats (Some v) [].
Proof. intros H. destruct txt as [t|]; lazy -[xml_valid] in H; destruct (xml_valid v); now inversion H. Qed.
Lemma set_dot_leaf E v q ats txt d' : string_set E (u ".") (Some v) (Elem q ats txt []) = (d', Ret tt) -> d' = Elem q ats (Some v) [].
Proof. intros H. lazy -[xml_valid] in H. destruct (xml_valid v); now inversion H. Qed.
Lemma read_dot E m d : read_field E (u ".") m d = to_python m (Some (InElem d)).
Proof. reflexivity. Qed.
Definition text_pieces (txt : option str) (kids : list (node * option str)) : list str :=
  match txt with Some t => [t] | None => [] end ++ flat_map (fun k => match snd k with Some t => [t] | None => [] end) kids.
Lemma read_text E q ats txt kids : read_field E (u "text()") (MString false) (Elem q ats txt kids) =
  Ret match text_pieces txt kids with t :: _ => PStr t | [] => PNone end.
Proof.
  unfold read_field. change (parse (u "text()")) with (Ok (xp "text()")). unfold field_get. rewrite (eval_path E (xp "text()") (Elem q ats txt kids)) by reflexivity.
  unfold text_pieces. destruct txt as [t|]; [reflexivity|]. lazy -[flat_map to_python]. match goal with |- context [(fix F (A : Type) (a : nat) (l : list A) {struct l} := _) _ ?k kids] => generalize k end.
  intros i. revert i. induction kids as [|[k [t|]] r IH]; intros i; [reflexivity|reflexivity|]. exact (IH (S i)).
Qed.
Opaque u.
Theorem C81_assigned : forall E v q ats txt d', string_set E (u "text()") (Some v) (Elem q ats txt []) = (d', Ret tt) \/ string_set E (u ".") (Some v) (Elem q ats txt []) = (d', Ret tt) ->
  default_str (WNode d') = normalize_space v.
Proof. intros E v q ats txt d' [H|H]; [apply set_text_leaf in H|apply set_dot_leaf in H]; subst; cbn; now rewrite app_nil_r. Qed.

(** ** the classes with a __str__ of their own *)
(** the text of the first child element with the name, as a StringField reads it *)
Inductive first_text (q : qname) : list (node * option str) -> option str -> Prop :=
| FtNone : first_text q [] None
| FtHere ats txt ks t r : first_text q ((Elem q ats txt ks, t) :: r) (Some (strval (Elem q ats txt ks)))
| FtOther k t r o : tag_of k <> Some q -> first_text q r o -> first_text q ((k, t) :: r) o.
Definition cerp_name (l : string) : qname := QN (Some (u "http://www.archives.ncdcr.gov/mail-account")) (u l).
Definition E_cerp : env := mkEnv (Some ns_cerp) [].
Definition named (q : qname) (x : nat * (node * option str)) : list item :=
  if match fst (snd x) with Elem q0 _ _ _ => qeqb q0 q | Misc _ => false end then [IElem [fst x] (fst (snd x))] else [].
Lemma first_named q kids o : first_text q kids o -> forall i,
  to_python (MString false) (first_input (XN (flat_map (named q) (enum i kids)))) = Ret match o with Some s => PStr s | None => PNone end.
Proof.
  induction 1 as [|ats txt ks t r|k t r o Hk H IH]; intros i; [reflexivity| |].
  - cbn [enum flat_map]. unfold named at 1. cbn [fst snd]. rewrite qeqb_refl. reflexivity.
  - cbn [enum flat_map]. unfold named at 1. cbn [fst snd]. destruct k as [q0 a0 t0 k0|]; [|exact (IH (S i))]. destruct (qeqb q0 q) eqn:Q; [|exact (IH (S i))]. apply qeqb_eq in Q. subst. now destruct Hk.
Qed.
Transparent u.
Lemma read_name q ats txt kids o : first_text (cerp_name "Name") kids o -> read_field E_cerp (u "xm:Name") (MString false) (Elem q ats txt kids) = Ret match o with Some s => PStr s | None => PNone end.
Proof.
  intros H. rewrite <- (first_named _ _ _ H 0). unfold read_field. change (parse (u "xm:Name")) with (Ok (EStep None (NameTest (Some (u "xm")) (u "Name")) [])). cbv beta iota. unfold field_get. rewrite eval_path by reflexivity. reflexivity.
Qed.
Lemma read_value q ats txt kids o : first_text (cerp_name "Value") kids o -> read_field E_cerp (u "xm:Value") (MString false) (Elem q ats txt kids) = Ret match o with Some s => PStr s | None => PNone end.
Proof.
  intros H. rewrite <- (first_named _ _ _ H 0). unfold read_field. change (parse (u "xm:Value")) with (Ok (EStep None (NameTest (Some (u "xm")) (u "Value")) [])). cbv beta iota. unfold field_get. rewrite eval_path by reflexivity. reflexivity.
Qed.
Opaque u.
Local Open Scope string_scope.
(** every field that a __str__ returns is declared in the class (or its base) with this XPath and mapper *)
Definition declares (file class : string) (x : str) (m : mapper) : Prop :=
  exists r, In r shipped /\ r_file r = file /\ r_class r = class /\ r_xpath r = x /\ r_kind r = Single m.
Definition base (c : string) : string := if existsb (String.eqb c) ["DateCreated"; "DateIssued"; "DateCaptured"; "DateValid"; "DateModified"; "CopyrightDate"; "DateOther"] then "Date" else c.
Theorem C81_declared : forall file class w, In (file, class, w) str_methods ->
  match w with
  | Whole => False
  | Field x m => declares file (base class) x m
  | Pair _ x y => declares file class x (MString false) /\ declares file class y (MString false)
  end.
Proof.
  assert (H : forall file class x m, existsb (fun r => (String.eqb (r_file r) file && String.eqb (r_class r) class && str_eqb (r_xpath r) x &&
      match r_kind r, m with Single (MString a), MString b => Bool.eqb a b | Single MNode, MNode => true | _, _ => false end)%bool) shipped = true -> declares file class x m).
  { intros file class x m H. apply existsb_exists in H as (r & I & H). apply andb_prop in H as [H K]. apply andb_prop in H as [H X]. apply andb_prop in H as [F C]. apply String.eqb_eq in F, C. apply str_eqb_eq in X.
    exists r. repeat match goal with |- _ /\ _ => split end; try assumption. clear -K. destruct (r_kind r) as [[]|]; destruct m; try discriminate; try reflexivity. apply Bool.eqb_prop in K. now subst. }
  intros file class w I. cbn [str_methods map app In] in I. repeat (destruct I as [[= <- <- <-]|I]; [cbv beta iota; try split; apply H; vm_compute; reflexivity|]). destruct I.
Qed.
(** MODS dates: the first piece of text directly in the element; TypeError if there is none *)
Definition date_classes : list string := ["Date"; "DateCreated"; "DateIssued"; "DateCaptured"; "DateValid"; "DateModified"; "CopyrightDate"; "DateOther"].
Theorem C81_date : forall c q ats txt kids, In c date_classes ->
  shipped_str "mods.py" c (Elem q ats txt kids) = match text_pieces txt kids with t :: _ => Ret t | [] => Exc XType end.
Proof.
  intros c q ats txt kids H. assert (M : str_method "mods.py" c str_methods = Field (u "text()") (MString false)).
  { cbn [date_classes In] in H. repeat (destruct H as [<-|H]; [reflexivity|]). destruct H. }
  unfold shipped_str. rewrite M. unfold obj_str. rewrite read_text. now destruct (text_pieces txt kids).
Qed.
(** EAD headings show their words, containers and dates their whole text *)
Theorem C81_heading : forall n, tag_of n <> None -> shipped_str "eadmap.py" "Heading" n = Ret (default_str (WNode n)).
Proof. intros n H. rewrite (default_elem n H). unfold shipped_str. change (str_method "eadmap.py" "Heading" str_methods) with (Field (u ".") (MString true)). unfold obj_str. now rewrite read_dot. Qed.
Theorem C81_container : forall c n ls, c = "Container" \/ c = "DateField" -> texts n ls -> shipped_str "eadmap.py" c n = Ret (List.concat ls).
Proof.
  intros c n ls H T. assert (M : str_method "eadmap.py" c str_methods = Field (u ".") (MString false)) by (destruct H as [-> | ->]; reflexivity).
  unfold shipped_str. rewrite M. unfold obj_str. rewrite read_dot. cbn. now rewrite (proj1 texts_strval _ _ T).
Qed.
(** CERP parameters and headers: name and value, 'None' for what is not there *)
Definition or_none (o : option str) : str := match o with Some s => s | None => u "None" end.
Theorem C81_pair : forall q ats txt kids n v, first_text (cerp_name "Name") kids n -> first_text (cerp_name "Value") kids v ->
  shipped_str "cerp.py" "Parameter" (Elem q ats txt kids) = Ret (or_none n ++ u "=" ++ or_none v)%list /\
  shipped_str "cerp.py" "Header" (Elem q ats txt kids) = Ret (or_none n ++ u ": " ++ or_none v)%list.
Proof.
  intros q ats txt kids n v Hn Hv. pose proof (read_name q ats txt kids n Hn) as N1. pose proof (read_value q ats txt kids v Hv) as V1.
  split; unfold shipped_str; [change (str_method "cerp.py" "Parameter" str_methods) with (Pair (u "=") (u "xm:Name") (u "xm:Value"))|change (str_method "cerp.py" "Header" str_methods) with (Pair (u ": ") (u "xm:Name") (u "xm:Value"))];
  change (mkEnv (Some (file_ns "cerp.py")) []) with E_cerp; unfold obj_str; rewrite N1, V1; destruct n, v; reflexivity.
Qed.
Theorem C81_hash : forall q ats txt kids v, first_text (cerp_name "Value") kids v ->
  shipped_str "cerp.py" "Hash" (Elem q ats txt kids) = match v with Some s => Ret s | None => Exc XType end.
Proof.
  intros q ats txt kids v Hv. pose proof (read_value q ats txt kids v Hv) as V1. unfold shipped_str. change (str_method "cerp.py" "Hash" str_methods) with (Field (u "xm:Value") (MString false)).
  change (mkEnv (Some (file_ns "cerp.py")) []) with E_cerp. unfold obj_str. rewrite V1. now destruct v.
Qed.
(** every other class shows its words, and never fails *)
Theorem C81_others : forall file class n, (forall w, ~ In (file, class, w) str_methods) -> shipped_str file class n = Ret (default_str (WNode n)).
Proof.
  intros file class n H. unfold shipped_str. replace (str_method file class str_methods) with Whole; [reflexivity|]. symmetry. revert H. generalize str_methods. induction l as [|[[f c] w] r IH]; intros H; [reflexivity|]. cbn.
  destruct (String.eqb_spec file f) as [->|]; [destruct (String.eqb_spec class c) as [->|]|]; [exfalso; apply (H w); now left| |]; apply IH; intros w' I; apply (H w'); now right.
Qed.

(** ** where it fails *)
(** str() of an EAD reference always raises TypeError: its value is an XmlObject, not a string *)
Theorem C81_reference_refuted : forall n, shipped_str "eadmap.py" "Reference" n = Exc XType.
Proof. intros n. unfold shipped_str. change (str_method "eadmap.py" "Reference" str_methods) with (Field (u ".") MNode). unfold obj_str. now rewrite read_dot. Qed.
(** a MODS name shows its parts run together: __unicode__, which would join them by blanks, is not called *)
Definition mods_q (l : string) : qname := QN (Some (u "http://www.loc.gov/mods/v3")) (u l).
Theorem C81_name_refuted :
  shipped_str "mods.py" "Name" (Elem (mods_q "name") [] None [(Elem (mods_q "namePart") [] (Some (u "Ann")) [], None); (Elem (mods_q "namePart") [] (Some (u "Lee")) [], None)]) = Ret (u "AnnLee").
Proof. vm_compute. reflexivity. Qed.
(** pretty printing can separate words that were shown as one *)
Theorem C81_pretty_refuted : let d := el "a" [] "" [el "b" [] "x" []; el "c" [] "y" []] in default_str (WNode d) = u "xy" /\
  exists d', load (serialize_document [] true d) = Some ([], d') /\ default_str (WNode d') = u "x y".
Proof. cbv zeta. split; [vm_compute; reflexivity|]. eexists. split; vm_compute; reflexivity. Qed.
(** two parameters with different names and values that read the same *)
Definition param (n v : string) : node := Elem (cerp_name "Parameter") [] None [(Elem (cerp_name "Name") [] (Some (u n)) [], None); (Elem (cerp_name "Value") [] (Some (u v)) [], None)].
Theorem C81_parameter_refuted : shipped_str "cerp.py" "Parameter" (param "a=b" "c") = shipped_str "cerp.py" "Parameter" (param "a" "b=c") /\
  shipped_str "cerp.py" "Parameter" (param "a" "None") = shipped_str "cerp.py" "Parameter" (Elem (cerp_name "Parameter") [] None [(Elem (cerp_name "Name") [] (Some (u "a")) [], None)]).
Proof. split; vm_compute; reflexivity. Qed.

(** ** cases *)
Example C81_case : let d := Elem (QN None (u "p")) [(QN None (u "id"), u "x")] (Some (u " one ")) [(Misc (u "no"), Some (u "two ")); (el "b" [] "th" [], Some (u "ree"))] in
  tag_of d <> None /\ texts d [u " one "; u "two "; u "th"; u "ree"] /\ default_str (WNode d) = u "one two three".
Proof.
  cbv zeta. split; [discriminate|]. split; [|vm_compute; reflexivity].
  apply (TxElem _ _ (Some (u " one ")) _ [u "two "; u "th"; u "ree"]). apply (TkCons (Misc (u "no")) (Some (u "two ")) _ [] [u "th"; u "ree"]); [constructor|].
  apply (TkCons (el "b" [] "th" []) (Some (u "ree")) [] [u "th"] []); [|constructor]. exact (TxElem _ _ (Some (u "th")) [] [] TkNil).
Qed.
Example C81_assigned_case : exists d', string_set E0 (u "text()") (Some (u "  a  b ")) (el "r" [] "old" []) = (d', Ret tt) /\ default_str (WNode d') = u "a b".
Proof. eexists. split; vm_compute; reflexivity. Qed.
Example C81_pair_case : first_text (cerp_name "Name") (kids_of (param "n" "v")) (Some (u "n")) /\ first_text (cerp_name "Value") (kids_of (param "n" "v")) (Some (u "v")) /\
  shipped_str "cerp.py" "Header" (param "n" "v") = Ret (u "n: v") /\ shipped_str "mods.py" "DateIssued" (el "d" [] "" []) = Exc XType.
Proof.
  split; [|split; [|split; vm_compute; reflexivity]].
  - exact (FtHere (cerp_name "Name") [] (Some (u "n")) [] None _).
  - apply FtOther; [discriminate|]. exact (FtHere (cerp_name "Value") [] (Some (u "v")) [] None []).
Qed.
Print Assumptions C81_saved_pretty.
Print Assumptions C81_pair.
