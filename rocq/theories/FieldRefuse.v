(** Unsupported XPaths (C21), reading (C17), assigning None (C16). *)
From Coq Require Import String Arith Lia.
From Verif Require Export MapperProofs FieldUndo.
From Verif Require Import XPathEval FieldSpec DocSpec.

Opaque u.

(** expressions whose last part cannot be constructed: functions, unions, '//', absolute paths, '.', '..',
    node tests other than names and text(), and steps with a predicate containing a step on another axis,
    a node test, or '=' with something else than a literal, number or variable on the right *)
Fixpoint plain_pred (p : expr) : bool :=
  match p with
  | EStep ax (NameTest _ _) ps => (child_axis ax || attr_axis ax) && forallb plain_pred ps
  | EStep _ (NodeType _ _) _ => false
  | EBin l op r =>
    if str_eqb op (u "/") then plain_pred l && plain_pred r
    else if str_eqb op (u "=") then plain_pred l && match r with ELit _ | EInt _ | EVar _ _ => true | _ => false end
    else true
  | _ => true
  end.
Fixpoint unbuildable (e : expr) : bool :=
  match e with
  | EStep ax (NameTest _ _) ps => negb (child_axis ax || attr_axis ax) || negb (forallb plain_pred ps)
  | EStep _ (NodeType nm _) _ => negb (str_eqb nm (u "text"))
  | EBin l op r => if str_eqb op (u "/") then unbuildable r else true
  | _ => true
  end.

Lemma plain_constructible p : plain_pred p = constructible p.
Proof.
  induction p as [| | | |p1 op p2 IHp1 IHp2| | | |ax t ps H| | |] using expr_ind'; try reflexivity.
  - cbn [plain_pred constructible]. rewrite IHp1, IHp2. destruct (str_eqb op (u "/")); [reflexivity|]. destruct (str_eqb op (u "=")); reflexivity.

  - cbn [plain_pred constructible]. destruct t as [p nm|nm a].
    + rewrite andb_true_r. f_equal. induction H as [|x ps Hx _ IH]; [reflexivity|]. cbn. now rewrite Hx, IH.
    + now rewrite andb_false_r.
Qed.

Lemma plain_preds ps : forallb constructible ps = forallb plain_pred ps.
Proof. induction ps as [|p ps IH]; [reflexivity|]. cbn. now rewrite plain_constructible, IH. Qed.

Lemma unbuildable_raises E e : unbuildable e = true -> forall ctx ins d, exists d' x, build E Create e ctx ins d = (d', Exc x).
Proof.
  induction e; intros H ctx ins d; cbn [unbuildable] in H; try (cbn [build]; unfold raise; eauto; fail).
  - destruct (str_eqb op (u "/")) eqn:Eo; [|cbn [build]; rewrite Eo; unfold raise; eauto].
    cbn [build]. rewrite Eo. unfold bind, reading. destruct (find_node E e1 ctx d) as [[r|]|x]; [| |eauto].
    + unfold ret. now apply IHe2.
    + destruct (build E Create e1 ctx None d) as [d1 [r|x]]; [now apply IHe2|eauto].
  - destruct node_test as [p nm|nm a]; cbn [build].
    + rewrite plain_preds. destruct (forallb plain_pred predicates); [|unfold raise; eauto].
      rewrite orb_false_r in H. apply negb_true_iff in H. apply orb_false_iff in H as [-> ->]. unfold bind, raise. eauto.
    + apply negb_true_iff in H. rewrite H. unfold raise. eauto.
Qed.

Theorem unbuildable_refused E e v d : find_ast E e doc_root d = Ret None -> unbuildable e = true ->
  exists d' x, mgr_set E e (Some v) d = (d', Exc x).
Proof.
  intros Hf Hu. unfold mgr_set, bind, reading. rewrite Hf. destruct (unbuildable_raises E e Hu (Some doc_root) None d) as (d' & x & ->). eauto.
Qed.

(** a single step, or anything that is not a '/' path, is refused before anything is created *)
Theorem unbuildable_unchanged E e v d : find_ast E e doc_root d = Ret None -> unbuildable e = true ->
  match e with EBin _ op _ => str_eqb op (u "/") = false | _ => True end ->
  exists x, mgr_set E e (Some v) d = (d, Exc x).
Proof.
  intros Hf Hu Hs. unfold mgr_set, bind, reading. rewrite Hf.
  destruct e; cbn [unbuildable build] in *; try (unfold raise; eauto; fail).
  - rewrite Hs. unfold raise. eauto.
  - destruct node_test as [p nm|nm a].
    + rewrite plain_preds. destruct (forallb plain_pred predicates); [|unfold raise; eauto].
      rewrite orb_false_r in Hu. apply negb_true_iff in Hu. apply orb_false_iff in Hu as [-> ->]. unfold bind, raise. eauto.
    + apply negb_true_iff in Hu. rewrite Hu. unfold raise. eauto.
Qed.

(** ** reading *)
Definition never_None_on_match (m : mapper) : Prop :=
  match m with MString _ | MNode | MNull | MBool _ _ | MDateTime _ _ | MDate _ => True | MInt | MFloat => False end.

Lemma read_none E e m d : supported_path E e = true -> selects E e d = [] ->
  field_get E e m d = Ret (match m with MBool _ None => PBool false | _ => PNone end).
Proof. intros Hs Hn. unfold field_get. rewrite (eval_path _ _ _ Hs), Hn. now destruct m. Qed.

Lemma read_some E e m d : supported_path E e = true -> selects E e d <> [] -> never_None_on_match m -> field_get E e m d <> Ret PNone.
Proof.
  intros Hs Hn Hm H. unfold field_get in H. rewrite (eval_path _ _ _ Hs) in H.
  destruct (selects E e d) as [|i l]; [contradiction|].
  assert (Hi : exists j, first_input (XN (i :: l)) = Some j) by (destruct i; cbn; eauto). destruct Hi as [j Hj]. rewrite Hj in H.
  destruct m; cbn [to_python] in H; try contradiction.
  - destruct (read_str _ _); discriminate.
  - destruct (read_str _ _) as [s|]; [|discriminate]. destruct (str_eqb s true_); [discriminate|]. destruct false_ as [f|]; [|discriminate]. destruct (str_eqb s f); discriminate.
  - destruct (read_str _ _) as [s|]; [|discriminate]. destruct (strip_tz s); [|discriminate]. destruct (parse_dt fmt x) as [[]|]; discriminate.
  - destruct j; try discriminate; [destruct (text_of n) as [s|]; [|discriminate]|]; destruct (strptime fmt s) as [[]|]; discriminate.
  - destruct j; discriminate.
  - discriminate.
Qed.

(** number-valued fields: count() of a path *)
Theorem count_read E e d : supported_path E e = true -> 0 < length (selects E e d) -> (Z.of_nat (length (selects E e d)) <= 2 ^ 53)%Z ->
  field_get E (ECall None (u "count") [e]) MInt d = Ret (PInt (Z.of_nat (length (selects E e d)))).
Proof.
  intros Hs Hn Hb. pose proof Hs as Hs'. unfold supported_path in Hs'. apply andb_prop in Hs' as [H _]. apply andb_prop in H as [Hp Ho].
  unfold field_get, eval_at, doc_root, xpath. cbn [get_at supported]. rewrite str_eqb_refl, Hp, (ok_supported _ _ _ Ho). cbn [andb ev]. fold (selects E e d).
  unfold num_of_Z. cbn [first_input]. replace (Z.of_nat (length (selects E e d)) =? 0)%Z with false by (symmetry; apply Z.eqb_neq; lia).
  cbn [to_python]. now rewrite int_result_exact by lia.
Qed.

Lemma delete_unset E e d : supported_path E e = true -> selects E e d = [] -> mgr_delete E e d = (d, Ret tt).
Proof.
  intros Hs Hn. unfold supported_path in Hs. apply andb_prop in Hs as [Hs _]. apply andb_prop in Hs as [Hp Ho].
  unfold mgr_delete, bind, reading. rewrite (find_path _ _ _ _ Hp Ho), Hn. reflexivity.
Qed.
