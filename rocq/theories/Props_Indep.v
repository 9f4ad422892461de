(** C56: the fields of one object do not disturb one another.
    [run_fops] (IndepSpec.v) runs any history of operations on other fields, single or list, succeeding or
    failing; [enters E e k]: the XPath is in the supported class and its first step selects children of
    one name, or one attribute, of the object's own element. *)
From Coq Require Import String Arith ZArith.
From Verif Require Export FieldIndep Props_Lists.
From Verif Require Import XPathEval FieldSpec DocSpec IndepSpec.

Opaque u.

Lemma one_sim E o k d : elsewhere E k o -> tag_of d <> None -> exists D, D <> k /\ D <> KText /\ sim D d (run_fop E o d).
Proof.
  intros (D & Ho & HD) Hd. exists D. split; [exact HD|]. split; [apply Ho|]. change (owns E (fop_path o) D) in Ho.
  destruct o as [e m v|e|e|e m o|e m kk v|e m vs|e m]; cbn [fop_path run_fop] in *.
  - destruct (typed_set E e m v d) as [d' r] eqn:R. exact (only_typed _ _ _ _ _ Ho _ _ _ Hd R).
  - destruct (mgr_create E e d) as [d' r] eqn:R. exact (only_create _ _ _ Ho _ _ _ Hd R).
  - destruct (mgr_delete E e d) as [d' r] eqn:R. exact (only_delete _ _ _ Ho _ _ _ Hd R).
  - destruct (field_op E e m o d) as [d' r] eqn:R. exact (only_op _ _ _ _ _ Ho _ _ _ Hd R).
  - destruct (list_insert E e m kk v d) as [d' r] eqn:R. exact (only_insert _ _ _ _ _ _ Ho _ _ _ Hd R).
  - destruct (lmgr_set E e m vs d) as [d' r] eqn:R. exact (only_lset _ _ _ _ _ Ho _ _ _ Hd R).
  - destruct (lmgr_delete E e m d) as [d' r] eqn:R. exact (only_ldelete _ _ _ _ Ho _ _ _ Hd R).
Qed.

Lemma history_cores E e k d os : enters E e k -> tag_of d <> None -> (forall o, In o os -> elsewhere E k o) -> cores E e d = cores E e (run_fops E os d).
Proof.
  intros (Hs & Hf & Hk) Hd Hos. revert d Hd. unfold run_fops.
  induction os as [|o os IH]; intros d Hd; cbn [fold_left]; [reflexivity|].
  destruct (one_sim E o k d (Hos o (or_introl eq_refl)) Hd) as (D & H1 & H2 & HS).
  rewrite <- IH; [|intros; apply Hos; now right|destruct HS as [<- _]; exact Hd].
  unfold supported_path in Hs. apply andb_prop in Hs as [Hs _]. apply andb_prop in Hs as [Hp Ho].
  eapply cores_first; [exact HS|exact Hp|exact Ho|exact Hf| | |]; auto.
Qed.
Lemma get_string_same E e d d' : supported_path E e = true -> cores E e d = cores E e d' -> get_string E e d' = get_string E e d.
Proof.
  intros Hs Hc. unfold supported_path in Hs. apply andb_prop in Hs as [Hs _]. apply andb_prop in Hs as [Hp Ho].
  unfold get_string, eval_at, doc_root, xpath. cbn [get_at]. rewrite (ok_supported _ _ _ Ho).
  unfold cores in Hc. destruct (path_nodes E e (IElem [] d) Hp) as [its Hi], (path_nodes E e (IElem [] d') Hp) as [its' Hi']. rewrite Hi, Hi' in *. cbn [nodes_of] in Hc.
  destruct its as [|i its], its' as [|i' its']; try discriminate; [reflexivity|]. cbn [map] in Hc. injection Hc as Hc _.
  assert (G : forall j, item_str (core j) = item_str j) by (intros []; reflexivity). now rewrite <- (G i), <- (G i'), Hc.
Qed.

(** ** Any history of operations on other fields leaves what a field reads, single or list, unchanged *)
Theorem C56_independent : forall E e k m d os,
  enters E e k -> tag_of d <> None -> (forall o, In o os -> elsewhere E k o) ->
  field_get E e m (run_fops E os d) = field_get E e m d /\ list_data E e m (run_fops E os d) = list_data E e m d.
Proof. intros E e k m d os He Hd Hos. apply reads_same; [apply He|]. eapply history_cores; eauto. Qed.

(** ** so a value assigned stays until the field itself is touched again *)
Theorem C56_value_stays : forall E s e k v d d' os,
  parse s = Ok e -> enters E e k -> lkind E e <> Some KText -> tag_of d <> None ->
  string_set E s (Some v) d = (d', Ret tt) -> (forall o, In o os -> elsewhere E k o) ->
  string_get E s (run_fops E os d') = Ret (Some v).
Proof.
  intros E s e k v d d' os Hp He Hl Hd Hm Hos.
  assert (Hg : string_get E s d' = Ret (Some v)).
  { unfold string_get, string_set, with_xpath in *. rewrite Hp in *. eapply set_get; [apply He|exact Hd| |exact Hm].
    destruct (owns_parts E e k He) as (Hpa & Ho & _). unfold not_tail. destruct (selects E e d) as [|[a n|a q t|a tl t] rest] eqn:Es; auto. destruct tl; auto.
    assert (Hi : In (IText a true t) (selects E e d)) by (rewrite Es; now left). exfalso. apply Hl.
    destruct (lkind E e) as [[q|q|]|] eqn:Hlk; auto.
    - rewrite (selects_elems _ _ _ _ Hpa Ho) in Hi by (left; now rewrite Hlk). unfold elems_at in Hi. apply in_flat_map in Hi as (b & _ & Hi). destruct (get_at b d); [|contradiction]. destruct Hi as [|[]]; discriminate.
    - unfold selects in Hi. rewrite (ev_route _ _ _ _ _ _ Hpa Ho Hlk eq_refl) in Hi. cbn [nodes_of] in Hi. apply in_flat_map in Hi as (b & _ & Hi). destruct (get_at b d); [|contradiction].
      cbn [term_items] in Hi. unfold attr_items in Hi. apply in_flat_map in Hi as ([q' w] & _ & Hi). cbn in Hi. destruct (qeqb q' q); [|contradiction]. destruct Hi as [|[]]; discriminate.
    - rewrite (selects_elems _ _ _ _ Hpa Ho) in Hi by (right; exact Hlk). unfold elems_at in Hi. apply in_flat_map in Hi as (b & _ & Hi). destruct (get_at b d); [|contradiction]. destruct Hi as [|[]]; discriminate. }
  assert (Hd' : tag_of d' <> None).
  { unfold string_set, with_xpath in Hm. rewrite Hp in Hm. destruct (only_set E e k (Some v) He _ _ _ Hd Hm) as [<- _]. exact Hd. }
  unfold string_get in *. rewrite Hp in *. rewrite <- Hg. apply get_string_same; [apply He|]. eapply history_cores; eauto.
Qed.

(** ** text() fields do interfere: lxml gives the text after a child the child as its parent, so assigning
    the text writes the child's own content *)
Open Scope string_scope.
Theorem C56_text_interferes : let d := Elem (QN None (u "r")) [] None [(el "b" [] "B" [], Some (u "after"))] in
  string_get E0 (u "b") d = Ret (Some (u "B")) /\ string_get E0 (u "text()") d = Ret (Some (u "after")) /\
  exists d', string_set E0 (u "text()") (Some (u "new")) d = (d', Ret tt) /\ string_get E0 (u "b") d' = Ret (Some (u "new")).
Proof. cbv zeta. split; [vm_compute; reflexivity|]. split; [vm_compute; reflexivity|]. eexists. split; vm_compute; reflexivity. Qed.
(** and so do two fields that enter by the same child: deleting one can remove what the other reads *)
Theorem C56_same_child_interferes : let d := el "r" [] "" [el "n" [("k", "1")] "N" []] in
  string_get E0 (u "n/@k") d = Ret (Some (u "1")) /\
  exists d', field_delete E0 (u "n") d = (d', Ret tt) /\ string_get E0 (u "n/@k") d' = Ret None.
Proof. cbv zeta. split; [vm_compute; reflexivity|]. eexists. split; vm_compute; reflexivity. Qed.

Definition d_ind := el "mods" [("ID", "x")] "" [el "title" [] "T" [el "sub" [] "s" []]; el "note" [] "1" []; el "name" [("type", "p")] "" [el "part" [] "N" []]; el "note" [] "2" []].
Definition ops_ind := [FSet (xp "name[@type='q']/part") (MString false) (PStr (u "new")); FSet (xp "@ID") (MString false) PNone; FDelete (xp "title/sub");
  FSet (xp "title") (MString false) (PStr (u "new")); FCreate (xp "./extra/deep[@a='1']"); FListOp (xp "item") MInt (LAppend (PInt 3)); FListInsert (xp "name") (MString false) 0 (PStr (u "z"));
  FListDelete (xp "title") (MString false)].
Example C56_case : enters E0 (xp "note") (KChild (QN None (u "note"))) /\ (forall o, In o ops_ind -> elsewhere E0 (KChild (QN None (u "note"))) o) /\
  list_data E0 (xp "note") (MString false) (run_fops E0 ops_ind d_ind) = Ret (Props_Lists.ss ["1"; "2"]) /\
  string_get E0 (u "name[@type='q']/part") (run_fops E0 ops_ind d_ind) = Ret (Some (u "new")) /\ string_get E0 (u "title") (run_fops E0 ops_ind d_ind) = Ret None.
Proof.
  split; [split; [vm_compute; reflexivity|split; [vm_compute; reflexivity|discriminate]]|]. split.
  - intros o Ho. unfold ops_ind in Ho. cbn [In] in Ho. repeat destruct Ho as [<-|Ho]; try contradiction;
      (eexists; split; [split; [vm_compute; reflexivity|split; [vm_compute; reflexivity|discriminate]]|vm_compute; discriminate]).
  - conjs; vm_compute; reflexivity.
Qed.
Close Scope string_scope.

Print Assumptions C56_independent.
Print Assumptions C56_value_stays.
