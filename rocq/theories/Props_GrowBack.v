(** C93: an element created through 'l/name' (xmlmap/fields.py:276-427) is removed again by deleting the field (fields.py:430-577), and the document is as it was. *)
From Coq Require Import String Arith ZArith NArith List Lia Bool.
From Verif Require Import FieldUndo FieldUndoEq MapperProofs FieldRefuse Props_Fields Props_Mappers NodeList ListSpec ListOps ListFacts ListSim ReadSpec EvalSpec EvalMeaning EvalOrder EvalMain EvalValues EvalFuns EvalAgree Shipped EnvAgree Props_Shipped EvalBlind Props_Eval Props_Write Props_WriteList EvalRemove Props_RemoveList Props_AttrList Props_CreateAttr Props_Grow.
From Verif Require Import XPathEval FieldSpec DocSpec ListSpec XPathRead EvalSpec.
Import ListNotations.

Lemma created_where E s l ax p n (v : str) d a q ats t ks : parse s = Ok (slash_name l ax p n) -> growing E l ax p n -> attributes_distinct d -> (forall i, ~ picks E (slash_name l ax p n) d i) -> first_of d (picks E l d) (IElem a (Elem q ats t ks)) -> Forall xml_character v ->
  exists kq, passes E p n kq /\ string_set E s (Some v) d = (upd_at a (append_kid (Elem kq [] (Some v) [])) d, Ret tt).
Proof.
  intros Hp Gr D H F V. pose proof Gr as (R & Pl & Pll & B & Ax & P0 & N0 & Rr). 
  assert (Hl : listing E (slash_name l ax p n) d []) by (split; [constructor|intros i; split; [intros []|intros Hi; exact (H i Hi)]]). apply xml_valid_iff in V.
  assert (Hg : grows E l ax p n (MString false) a [] d).
  { split; [exact D|]. split; [|split; [exists []; split; [exact Hl|constructor]|now exists q, ats, t, ks]]. destruct (listing_matches E _ d [] R eq_refl D Hl) as [M _]. unfold list_data. now rewrite M. }
  destruct (set_end' E l ax p n (MString false) a (PStr v) [] d Gr Hg (sto v V)) as (kq & s0 & Pk & Hs & Hset & _). injection Hs as <-. exists kq. split; [exact Pk|].
  destruct (listing_matches E _ d [] R eq_refl D Hl) as [M _]. unfold string_set, with_xpath. rewrite Hp. unfold mgr_set, bind at 1, reading. rewrite (not_found E _ d R eq_refl D H).
  unfold list_setitem in Hset. unfold bind at 1, reading in Hset. rewrite M in Hset. cbn [List.length last_item rev] in Hset. rewrite Z.eqb_refl in Hset. unfold bind in *. destruct (build E Create (slash_name l ax p n) (Some doc_root) None d) as [d1 [r|y]]; [|discriminate]. exact Hset.
Qed.
Theorem C93_create_delete : forall E s l ax p n (v : str) d d' a x, parse s = Ok (slash_name l ax p n) -> growing E l ax p n -> reread (EStep ax (NameTest p n) []) = Some (EStep ax (NameTest p n) []) -> no_creation l \/ l = EAbbrev (u ".") ->
  attributes_distinct d -> (forall i, ~ picks E (slash_name l ax p n) d i) -> first_of d (picks E l d) (IElem a x) -> tag_of x <> None -> Forall xml_character v ->
  string_set E s (Some v) d = (d', Ret tt) -> field_delete E s d' = (d, Ret tt) /\ string_set E s None d' = (d, Ret tt).
Proof.
  intros E s l ax p n v d d' a x Hp Gr Rs0 Nc D H F T V Hs. destruct x as [q ats t ks|]; [|now destruct T]. destruct (created_where E s l ax p n v d a q ats t ks Hp Gr D H F V) as (kq & Pk & Hs1). rewrite Hs in Hs1. injection Hs1 as ->.
  pose proof Gr as (R & Pl & Pll & B & Ax & P0 & N0 & Rr). destruct (slash_parts E l _ R) as (Rl & Nl & Rs & Ns). pose proof (first_get E l d a _ Rl Nl D F) as G. set (K := Elem kq [] (Some v) []) in *. set (d' := upd_at a (append_kid K) d) in *.
  assert (KA : attrs_of K = []) by reflexivity. assert (KK : kids_of K = []) by reflexivity.
  pose proof (added_distinct d a q ats t ks K G D KK KA) as D'. fold d' in D'.
  pose proof (added_first E d a q ats t ks K G D KK KA l _ Rl Nl Pll F) as F'. fold d' in F'.
  set (m' := Elem q ats t (ks ++ [(K, None)])) in *.
  assert (Only : forall i, set_of (means d' E (EStep ax (NameTest p n) []) (IElem a m') 1 1) i <-> i = IElem (a ++ [List.length ks]) K).
  { intros i. cbn [means set_of fold_left]. split.
    - intros Hi. inversion Hi as [ax0 t0 c0 i0 Hax Hc Hw|ax0 p0 n0 c0 i0 Hax Ha Hw|t0 c0 Hw|t0 c0 i0 Hn Hw|t0 c0 i0 Hn Hw]; subst; try (destruct Ax as [Ax|Ax]; discriminate Ax); [|destruct Ax as [->| ->]; destruct Hax as [Hax|Hax]; discriminate Hax].
      cbn [wanted] in Hw. unfold m' in Hc. inversion Hc as [a1 q1 ats1 t1 ks1 k x tl Hk| |]; subst; [|inversion Hw|inversion Hw]. destruct (Nat.lt_ge_cases k (List.length ks)) as [Lk|Lk].
      + exfalso. rewrite nth_error_app1 in Hk by exact Lk. apply (H (IElem (a ++ [k]) x)). apply means_slash. exists (IElem a (Elem q ats t ks)). split; [exact (proj1 F)|]. cbn [means set_of fold_left]. apply to_child; [exact Ax|now apply (child_node a q ats t ks k x tl)|exact Hw].
      + rewrite nth_error_app2 in Hk by exact Lk. destruct (k - List.length ks) as [|z] eqn:Ek; [|destruct z; discriminate Hk]. cbn in Hk. injection Hk as <- <-. now replace k with (List.length ks) by lia.
    - intros ->. apply to_child; [exact Ax| |constructor; exact Pk]. apply (child_node a q ats t _ (List.length ks) K None). rewrite nth_error_app2, Nat.sub_diag by lia. reflexivity. }
  assert (Fd : first_of d' (set_of (means d' E (EStep ax (NameTest p n) []) (IElem a m') 1 1)) (IElem (a ++ [List.length ks]) K)) by (split; [now apply Only|intros j Hj; left; now apply Only]).
  assert (Del : field_delete E s d' = (d, Ret tt)).
  { rewrite (proj1 (C90_delete_child E s l ax p n [] d' a m' Hp R D' Ax Rr Rs0 Nc F') (List.length ks) K Fd). f_equal. exact (added_back d a q ats t ks K G). }
  split; [exact Del|].
  revert Del. unfold field_delete, string_set, with_xpath. rewrite Hp. unfold mgr_delete, mgr_set. auto.
Qed.

(** ** the shipped classes: the fields 'l/@name' that C90_create_attribute is about, with [l] free of predicates *)
Definition attr_grower (E : env) (e : expr) : bool :=
  match e with
  | EBin l op (EStep ax (NameTest p n) []) => str_eqb op (u "/") && readable E e && bare l && attr_axis ax && match p with Some [] => false | _ => true end && negb (str_eqb n (u "*")) && negb (str_eqb n (u "text")) && match reread l with Some l' => same_expr l' l | None => false end
  | _ => false
  end%bool.
Definition attr_growing (E : env) (l : expr) (ax p : option str) (n : str) : Prop :=
  readable E (slash_name l ax p n) = true /\ bare l = true /\ (ax = Some (u "@") \/ ax = Some (u "attribute")) /\ p <> Some [] /\ n <> u "*" /\ n <> u "text" /\ reread l = Some l.
Lemma attr_grower_name E l ax p n : attr_grower E (slash_name l ax p n) = true -> attr_growing E l ax p n.
Proof.
  unfold attr_grower, slash_name. intros H. repeat apply andb_prop in H as [H ?Hc]. unfold attr_growing, slash_name. repeat split; auto.
  - now apply attr_axis_ok.
  - intros ->. discriminate.
  - intros ->. discriminate.
  - intros ->. discriminate.
  - destruct (reread l) as [l'|]; [|discriminate]. f_equal. now apply same_expr_eq.
Qed.
Lemma attr_grower_growing E e : attr_grower E e = true -> exists l ax p n, e = slash_name l ax p n /\ attr_growing E l ax p n.
Proof.
  intros H. assert (He : exists l ax p n, e = slash_name l ax p n).
  { unfold attr_grower in H. destruct e as [| | | |l op r|b ps| |ax t ps|ab|p n|p n args]; try discriminate. destruct r as [| | | | | | |ax t ps| | |]; try discriminate. destruct t as [p n|]; try discriminate. destruct ps; [|discriminate].
    repeat apply andb_prop in H as [H ?Hc]. apply str_eqb_eq in H. subst op. now exists l, ax, p, n. }
  destruct He as (l & ax & p & n & ->). exists l, ax, p, n. split; [reflexivity|now apply attr_grower_name].
Qed.
Definition shipped_attr_grower (r : row) : bool := match parse (r_xpath r) with Ok e => attr_grower (just (r_ns r)) e | _ => false end.
Lemma shipped_attr_growers : List.length (filter shipped_attr_grower shipped) = 5.
Proof. vm_compute. reflexivity. Qed.
Lemma attr_grower_agree l0 E e : binds E l0 -> names_declared l0 e = true -> attr_grower E e = attr_grower (just l0) e.
Proof.
  intros B Hn. unfold attr_grower. destruct e as [| | | |l op r|b ps| |ax t ps|ab|p n|p n args]; try reflexivity. destruct r as [| | | | | | |ax t ps| | |]; try reflexivity. destruct t as [p n|]; try reflexivity. destruct ps; [|reflexivity]. unfold readable. now rewrite (ty_agree _ _ B _ Hn).
Qed.
(** roleTerm/@type and roleTerm/@authority (MODS), graphic/@url (TEI), langusage/language/@langcode (EAD), MessageId/@Supplied (CERP) *)
Theorem C90_shipped_attributes : forall r E, In r shipped -> shipped_attr_grower r = true -> binds E (r_ns r) ->
  exists l p n, (exists ax, parse (r_xpath r) = Ok (slash_name l ax p n)) /\
    forall (v : str) d a q0 ats t ks, attributes_distinct d -> string_get E (r_xpath r) d = Ret None -> first_of d (picks E l d) (IElem a (Elem q0 ats t ks)) -> Forall xml_character v ->
    exists d' q, string_set E (r_xpath r) (Some v) d = (d', Ret tt) /\ passes E p n q /\ same_except a d d' /\ get_at a d' = Some (Elem q0 (ats ++ [(q, v)]) t ks) /\ string_get E (r_xpath r) d' = Ret (Some v).
Proof.
  intros r E Hr Sg B. destruct (C71_xpaths_parse r Hr) as (e & He & Hn). unfold shipped_attr_grower in Sg. rewrite He in Sg. rewrite <- (attr_grower_agree _ E e B Hn) in Sg. destruct (attr_grower_growing E e Sg) as (l & ax & p & n & -> & (R & Ba & Ax & P0 & N0 & T0 & Rr)). exists l, p, n. split; [now exists ax|].
  intros v d a q0 ats t ks D Hg F V. assert (No : forall i, ~ picks E (slash_name l ax p n) d i).
  { destruct (path_nodes E (slash_name l ax p n) d D R eq_refl) as (L & El & _ & _ & M). unfold string_get in Hg. rewrite He in Hg. unfold get_string in Hg. rewrite El in Hg. destruct L as [|i0 L]; [|discriminate Hg]. intros i Hi. now apply M in Hi. }
  destruct (C90_create_attribute E (r_xpath r) l ax p n v d a q0 ats t ks He R D No Ax P0 N0 T0 Rr V F) as (d' & q & H1 & H2 & H3 & H4 & _ & H5). exists d', q. split; [exact H1|]. split; [exact H2|]. split; [exact H3|]. split; [exact H4|]. now apply H5.
Qed.

(** ** concrete case: [.//b/t], created under the first [b], and deleted again *)
Open Scope string_scope.
Definition ns_uri (r : row) : option str := XPathEval.ns_of (just (r_ns r)) (u "mods").
Definition shelf : node := el "r" [] "" [el "a" [] "" []; el "s" [] "" [el "b" [("lang", "en")] "w" [el "c" [] "x" []]]; el "b" [] "" []].
Example C93_create_delete_case : parse (u ".//b/t") = Ok (slash_name (xp ".//b") None None (u "t")) /\ growing E0 (xp ".//b") None None (u "t") /\ reread (EStep None (NameTest None (u "t")) []) = Some (EStep None (NameTest None (u "t")) []) /\ no_creation (xp ".//b") /\ attributes_distinct shelf /\
  (forall i, ~ picks E0 (slash_name (xp ".//b") None None (u "t")) shelf i) /\ first_of shelf (picks E0 (xp ".//b") shelf) (IElem [1; 0]%nat (el "b" [("lang", "en")] "w" [el "c" [] "x" []])) /\
  exists d', string_set E0 (u ".//b/t") (Some (u "v")) shelf = (d', Ret tt) /\ d' <> shelf /\ string_get E0 (u ".//b/t") d' = Ret (Some (u "v")) /\ field_delete E0 (u ".//b/t") d' = (shelf, Ret tt).
Proof.
  assert (Gr : growing E0 (xp ".//b") None None (u "t")) by (apply grower_name; vm_compute; reflexivity). assert (D : attributes_distinct shelf) by (apply dist_ok; vm_compute; reflexivity). pose proof (proj1 Gr) as R. assert (Rl : readable E0 (xp ".//b") = true) by (vm_compute; reflexivity).
  split; [vm_compute; reflexivity|]. split; [exact Gr|]. split; [vm_compute; reflexivity|]. split; [apply ends_deaf_ok; vm_compute; reflexivity|]. split; [exact D|]. split; [|split].
  - assert (L : listing E0 (slash_name (xp ".//b") None None (u "t")) shelf []) by (apply listing_eval; [exact R|reflexivity|exact D|vm_compute; reflexivity]). intros i Hi. now apply (proj2 L) in Hi.
  - assert (L : listing E0 (xp ".//b") shelf [IElem [1; 0]%nat (el "b" [("lang", "en")] "w" [el "c" [] "x" []]); IElem [2]%nat (el "b" [] "" [])]) by (apply listing_eval; [exact Rl|reflexivity|exact D|vm_compute; reflexivity]).
    destruct L as [O M]. split; [apply M; now left|]. intros j Hj. apply M in Hj as [<-|Hj]; [now left|]. right. inversion O as [|? ? _ Fo _]; subst. rewrite Forall_forall in Fo. now apply Fo.
  - eexists. split; [vm_compute; reflexivity|]. split; [|split; vm_compute; reflexivity]. intros X. apply (f_equal (fun d => get_at [1; 0; 1]%nat d)) in X. vm_compute in X. discriminate X.
Qed.
(** a MODS role term without type: the attribute is set on it *)
Example C90_shipped_attributes_case : exists r, In r shipped /\ shipped_attr_grower r = true /\ r_xpath r = u "mods:roleTerm/@type" /\
  let d := Elem (QN None (u "role")) [] None [(Elem (QN (ns_uri r) (u "roleTerm")) [(QN None (u "authority"), u "marc")] (Some (u "author")) [], None)] in
  string_get (just (r_ns r)) (r_xpath r) d = Ret None /\ exists d', string_set (just (r_ns r)) (r_xpath r) (Some (u "text")) d = (d', Ret tt) /\ string_get (just (r_ns r)) (r_xpath r) d' = Ret (Some (u "text")).
Proof.
  assert (H : exists r, find (fun r => str_eqb (r_xpath r) (u "mods:roleTerm/@type")) shipped = Some r) by (eexists; vm_compute; reflexivity). destruct H as [r H]. exists r. split; [exact (proj1 (find_some _ _ H))|]. vm_compute in H. injection H as <-.
  split; [vm_compute; reflexivity|]. split; [vm_compute; reflexivity|]. split; [vm_compute; reflexivity|]. eexists. split; vm_compute; reflexivity.
Qed.
Close Scope string_scope.
Print Assumptions C93_create_delete.
Print Assumptions C90_shipped_attributes.
