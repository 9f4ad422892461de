(** List fields: C26-C32.  The specification of Python's lists is in ListSpec.v. *)
From Coq Require Import String Arith ZArith Lia.
From Verif Require Export ListFacts Props_Fields.
From Verif Require Import XPathEval FieldSpec DocSpec.

Opaque u.

(** ** C26 reading *)
Theorem C26_list_reads : forall E e m d vs, list_data E e m d = Ret vs ->
  list_len E e m d = Ret (length vs) /\
  (forall k, list_getitem E e m k d = match at_index k (length vs) with
     | Some i => match nth_error vs i with Some v => Ret v | None => Exc XIndex end
     | None => Exc XIndex end) /\
  (forall x, exists b, list_contains E e m x d = Ret b /\ (b = true <-> exists y, In y vs /\ py_eq y x = true)) /\
  (forall x, list_count E e m x d = Ret (length (filter (fun y => py_eq y x) vs))) /\
  (forall x i, list_index E e m x d = Ret i <->
     (exists y, nth_error vs i = Some y /\ py_eq y x = true) /\ forall j y, j < i -> nth_error vs j = Some y -> py_eq y x = false) /\
  (forall x, list_index E e m x d = Exc XValue <-> forall y, In y vs -> py_eq y x = false) /\
  (forall l, exists b, list_eq E e m l d = Ret b /\ list_ne E e m l d = Ret (negb b) /\
     (b = true <-> length vs = length l /\ forall i x y, nth_error vs i = Some x -> nth_error l i = Some y -> py_eq x y = true)).
Proof.
  intros E e m d vs H. unfold list_len, list_contains, list_count, list_index, list_eq, list_ne. rewrite H. cbn [rmap].
  split; [reflexivity|]. split; [intros k; now apply getitem_data|]. split; [|split; [|split; [|split]]].
  - intros x. eexists. split; [reflexivity|]. exact (existsb_exists _ _).
  - intros x. f_equal. clear H. induction vs as [|y vs IH]; cbn; [reflexivity|]. rewrite IH. now destruct (py_eq y x).
  - intros x i. rewrite index_find, <- ListFacts.find_first. destruct (find_eq x vs); split; congruence.
  - intros x. rewrite index_find, <- ListFacts.find_none. destruct (find_eq x vs); split; congruence.
  - intros l. eexists. split; [reflexivity|]. split; [reflexivity|]. clear H. unfold pylist_eq. revert l.
    induction vs as [|v vs IH]; intros [|w l]; cbn [list_eqb].
    + split; [intros _; split; [reflexivity|]; intros [|i] ? ? Hx; discriminate|reflexivity].
    + split; [discriminate|intros [? _]; discriminate].
    + split; [discriminate|intros [? _]; discriminate].
    + rewrite andb_true_iff, IH. split.
      * intros (H1 & H2 & H3). split; [cbn; congruence|]. intros [|i] x y Hx Hy; cbn in Hx, Hy; [congruence|eauto].
      * intros (H1 & H2). split; [exact (H2 0 v w eq_refl eq_refl)|]. split; [cbn in H1; congruence|]. intros i x y. exact (H2 (S i) x y).
Qed.

(** the comparison the list methods use is equality of the values *)
Theorem C26_equality :
  (forall s t, py_eq (PStr s) (PStr t) = true <-> s = t) /\ (forall a b, py_eq (PInt a) (PInt b) = true <-> a = b) /\
  (forall a b, py_eq (PBool a) (PBool b) = true <-> a = b) /\ (forall a b, py_eq (PDate a) (PDate b) = true <-> a = b) /\
  (forall a t b t', py_eq (PDateTime a t) (PDateTime b t') = true <-> a = b /\ t = t') /\
  (forall s z, py_eq (PStr s) (PInt z) = false) /\ (forall v, py_eq PNone v = true <-> v = PNone).
Proof.
  assert (D : forall a b, date_eqb a b = true <-> a = b).
  { intros [y m d] [y' m' d']. unfold date_eqb. cbn. rewrite !andb_true_iff, !N.eqb_eq. split; [intros [[-> ->] ->]; reflexivity|now intros [= -> -> ->]]. }
  split; [intros s t; cbn; destruct (str_eqb_spec s t); split; congruence|].
  split; [intros a b; cbn; rewrite andb_true_r; apply Z.eqb_eq|].
  split; [intros [] []; vm_compute; split; congruence|].
  split; [exact D|].
  split.
  { intros a [h m s z] b [h' m' s' z']. cbn [py_eq]. rewrite andb_true_iff, D. unfold time_eqb. cbn. rewrite !andb_true_iff, !N.eqb_eq.
    split; [intros (-> & [[-> ->] ->] & ->); now split|]. now intros (-> & [= -> -> -> ->]). }
  split; [reflexivity|]. intros [| | | | | | | |]; cbn; split; congruence.
Qed.

(** ... also between values of different types: objects are equal when their elements are, True is 1, and a string, a date or
    an object equals nothing of another type (but the string that an untyped field reads) *)
Lemma attrs_eqb_iff a : forall b, list_eqb attr_eqb a b = true <-> a = b.
Proof.
  induction a as [|[q v] a IH]; intros [|[p w] b]; cbn; try (split; congruence). unfold attr_eqb at 1. cbn [fst snd]. rewrite !andb_true_iff, IH, str_eqb_eq, qeqb_eq.
  split; [intros [[-> ->] ->]; reflexivity|now intros [= -> -> ->]].
Qed.
Lemma node_eqb_iff a : forall b, node_eqb a b = true <-> a = b.
Proof.
  induction a as [q at1 t ks IH|s] using node_ind'; intros [q' at2 t' ks'|s']; cbn [node_eqb]; try (split; congruence).
  2:{ rewrite str_eqb_eq. split; congruence. }
  rewrite !andb_true_iff, qeqb_eq, attrs_eqb_iff, ostr_eqb_eq.
  match goal with |- context [?f ks ks'] => assert (G : f ks ks' = true <-> ks = ks') end.
  { revert ks'. induction ks as [|[x tx] ks IHk]; intros [|[y ty] ks']; try (split; congruence).
    inversion IH as [|? ? Hx Hks]; subst. cbn [fst] in Hx. rewrite !andb_true_iff, Hx, ostr_eqb_eq, (IHk Hks). split; [intros [[-> ->] ->]; reflexivity|now intros [= -> -> ->]]. }
  rewrite G. split; [intros [[[-> ->] ->] ->]; reflexivity|now intros [= -> -> -> ->]].
Qed.
Theorem C26_equality_mixed :
  (forall x y, py_eq (PNode x) (PNode y) = true <-> x = y) /\
  (forall z b, py_eq (PInt z) (PBool b) = true <-> z = if b then 1%Z else 0%Z) /\ (forall z b, py_eq (PBool b) (PInt z) = true <-> z = if b then 1%Z else 0%Z) /\
  (forall s v, py_eq (PStr s) v = true <-> v = PStr s \/ v = PRaw (InStr s)) /\ (forall a v, py_eq (PDate a) v = true <-> v = PDate a) /\
  (forall x v, py_eq (PNode x) v = true <-> v = PNode x).
Proof.
  assert (D : forall a b, date_eqb a b = true <-> a = b).
  { intros [y m d] [y' m' d']. unfold date_eqb. cbn. rewrite !andb_true_iff, !N.eqb_eq. split; [intros [[-> ->] ->]; reflexivity|now intros [= -> -> ->]]. }
  split; [exact node_eqb_iff|]. split; [intros z b; cbn; rewrite andb_true_r, Z.eqb_eq; reflexivity|].
  split; [intros z b; cbn; rewrite andb_true_r, Z.eqb_eq; split; congruence|]. split; [|split].
  - intros s v. destruct v as [|t| | | | | | |[| | |]]; cbn; try (split; [discriminate|intros [?|?]; discriminate]); rewrite str_eqb_eq; (split; [intros ->; auto|intros [?|?]; congruence]).
  - intros a v. destruct v; cbn; try (split; congruence). rewrite D. split; congruence.
  - intros x v. destruct v; cbn [py_eq as_num]; try (split; congruence). rewrite node_eqb_iff. split; congruence.
Qed.

Open Scope string_scope.
Definition d_list := el "r" [] "" [el "a" [] "1" []; el "x" [] "keep" []; el "a" [] "2" []; el "a" [] "1" []; el "y" [] "" []].
Definition ss (l : list string) : list pyval := map (fun s => PStr (u s)) l.
Example C26_case : list_data E0 (xp "a") (MString false) d_list = Ret (ss ["1"; "2"; "1"]) /\
  list_getitem E0 (xp "a") (MString false) (-3) d_list = Ret (PStr (u "1")) /\ list_getitem E0 (xp "a") (MString false) 3 d_list = Exc XIndex /\
  list_count E0 (xp "a") (MString false) (PStr (u "1")) d_list = Ret 2.
Proof. conjs; (vm_compute; reflexivity). Qed.
Close Scope string_scope.

(** ** C27 histories of updates *)
Theorem C27_history_partial : forall E e m d vs os,
  list_field E e = true -> holds E e m d vs -> (forall o v, In o os -> In v (op_values o) -> storable m v) ->
  exists d', field_ops E e m os d = (d', snd (py_ops os vs)) /\ list_data E e m d' = Ret (fst (py_ops os vs)).
Proof.
  intros E e m d vs os Hf Hh Hv. apply list_field_growable in Hf. apply holds_LI in Hh; [|apply Hf].
  destruct (sim_ops E e m _ Hf os d vs Hh Hv) as (d' & H1 & H2). exists d'. split; [assumption|]. eapply data_LI; [apply Hf|eassumption].
Qed.

(** the values of the common mappers are storable *)
Theorem C27_storable_values_partial :
  (forall s, xml_valid s = true -> storable (MString false) (PStr s)) /\
  (forall z, (Z.abs z <= 2 ^ 53)%Z -> storable MInt (PInt z)) /\
  (forall t f b, xml_valid t = true -> xml_valid f = true -> f <> t -> storable (MBool t (Some f)) (PBool b)).
Proof. split; [exact storable_string|]. split; [exact storable_int|exact storable_bool]. Qed.

Open Scope string_scope.
(** An append whose value cannot be written raises, but leaves an empty element behind. *)
Theorem C27_failed_append_refuted :
  list_append E0 (xp "a") (MString false) (PStr [1%N]) d_list =
    (el "r" [] "" [el "a" [] "1" []; el "x" [] "keep" []; el "a" [] "2" []; el "a" [] "1" []; el "a" [] "" []; el "y" [] "" []], Exc XValue).
Proof. vm_compute. reflexivity. Qed.
(** Lists of attributes can be assigned to, but not appended to, deleted from or popped. *)
Theorem C27_attribute_list_refuted : let d := el "r" [] "" [el "a" [("n", "1")] "" []; el "a" [("n", "2")] "" []] in
  list_data E0 (xp "a/@n") (MString false) d = Ret (ss ["1"; "2"]) /\
  list_append E0 (xp "a/@n") (MString false) (PStr (u "3")) d = (d, Exc XType) /\
  list_delitem E0 (xp "a/@n") 0 d = (d, Exc XType) /\ list_pop E0 (xp "a/@n") (MString false) None d = (d, Exc XType).
Proof. conjs; (vm_compute; reflexivity). Qed.

Definition os_case : list lop :=
  [LSet 1 (PStr (u "two")); LAppend (PStr (u "3")); LSet (-1) (PStr (u "last")); LDel (-4); LPop None; LSet 7 (PStr (u "no")); LRemove (PStr (u "1"));
   LRemove (PStr (u "1")); LExtend (ss ["p"; "q"]); LSet 3 (PStr (u "r")); LPop (Some 0%Z); LDel 5].
Lemma holds_simple E e m d vs : child_list E e -> one_step e = true -> tag_of d <> None -> list_data E e m d = Ret vs ->
  forallb (fun it => match it with IElem _ n => match kids_of n with [] => true | _ => false end | _ => true end) (selects E e d) = true -> holds E e m d vs.
Proof.
  intros Hc Ho Ht Hd Hk. split; [assumption|]. split; [assumption|]. split.
  - intros a n Hn. rewrite forallb_forall in Hk. apply Hk in Hn. now destruct (kids_of n).
  - destruct e; try discriminate. exact I.
Qed.
Ltac holds_tac := apply holds_simple; [split; (vm_compute; reflexivity)|vm_compute; reflexivity|vm_compute; discriminate|vm_compute; reflexivity|vm_compute; reflexivity].

Example C27_case : list_field E0 (xp "a") = true /\ holds E0 (xp "a") (MString false) d_list (ss ["1"; "2"; "1"]) /\
  (forall o v, In o os_case -> In v (op_values o) -> storable (MString false) v) /\
  py_ops os_case (ss ["1"; "2"; "1"]) = (ss ["p"; "q"; "r"],
    [Ret None; Ret None; Ret None; Ret None; Ret (Some (PStr (u "last"))); Exc XIndex; Ret None; Exc XValue; Ret None; Ret None; Ret (Some (PStr (u "two"))); Exc XIndex]).
Proof.
  conjs; [vm_compute; reflexivity|holds_tac| |vm_compute; reflexivity].
  intros o v Ho Hv. assert (G : forall s, xml_valid (u s) = true -> storable (MString false) (PStr (u s))) by (intros; now apply storable_string).
  assert (Hin : In v (flat_map op_values os_case)) by (apply in_flat_map; eauto). clear Ho Hv. unfold os_case in Hin. cbn [flat_map op_values app ss map In] in Hin.
  repeat (destruct Hin as [<-|Hin]; [apply G; vm_compute; reflexivity|]). contradiction.
Qed.
Close Scope string_scope.

(** ** C28 insert *)
Theorem C28_insert_partial : forall E e m d vs k v,
  list_field E e = true -> one_step e = true -> holds E e m d vs -> storable m v -> (0 <= k <= Z.of_nat (length vs))%Z ->
  exists d', list_insert E e m k v d = (d', Ret tt) /\ list_data E e m d' = Ret (py_insert k v vs).
Proof.
  intros E e m d vs k v Hf Hs Hh Hv Hk. apply list_field_growable in Hf. apply holds_LI in Hh; [|apply Hf].
  destruct (sim_insert E e m _ d vs k v (is_one_step _ Hs) Hf Hh Hv Hk) as (d' & H1 & H2). exists d'. split; [assumption|]. eapply data_LI; [apply Hf|eassumption].
Qed.

(** indices outside -len..len, where Python would clamp, raise without changing anything *)
Theorem C28_out_of_range : forall E e m d vs k v,
  list_field E e = true -> holds E e m d vs -> (k < - Z.of_nat (length vs) \/ Z.of_nat (length vs) < k)%Z ->
  list_insert E e m k v d = (d, Exc XIndex).
Proof.
  intros E e m d vs k v Hf Hh Hk. apply list_field_growable in Hf. apply holds_LI in Hh; [|apply Hf]. eapply insert_out; eauto. apply Hf.
Qed.

(** Negative indices do something else: for every list and every index -len..-1 the element at the index is
    overwritten with the new value and an element with the mapper's reading of an empty element (e.g. '')
    is inserted before it. *)
Theorem C28_negative_refuted : forall E e m d vs k i v v0,
  list_field E e = true -> one_step e = true -> holds E e m d vs -> storable m v ->
  (forall q ats, to_python m (Some (InElem (Elem q ats None []))) = Ret v0) -> (k < 0)%Z -> at_index k (length vs) = Some i ->
  exists d', list_insert E e m k v d = (d', Ret tt) /\ list_data E e m d' = Ret (firstn i vs ++ [v0; v] ++ skipn (S i) vs).
Proof.
  intros E e m d vs k i v v0 Hf Hs Hh Hv Hv0 Hk Hi. apply list_field_growable in Hf. apply holds_LI in Hh; [|apply Hf].
  destruct (insert_negative E e m _ d vs k i v v0 (is_one_step _ Hs) Hf Hh Hv Hv0 Hk Hi) as (d' & H1 & H2). exists d'. split; [assumption|]. eapply data_LI; [apply Hf|eassumption].
Qed.

Open Scope string_scope.
Example C28_case : list_field E0 (xp "a") = true /\ one_step (xp "a") = true /\ holds E0 (xp "a") (MString false) d_list (ss ["1"; "2"; "1"]) /\
  storable (MString false) (PStr (u "n")) /\
  list_insert E0 (xp "a") (MString false) 1 (PStr (u "n")) d_list =
   (el "r" [] "" [el "a" [] "1" []; el "x" [] "keep" []; el "a" [] "n" []; el "a" [] "2" []; el "a" [] "1" []; el "y" [] "" []], Ret tt) /\
  (forall q ats, to_python (MString false) (Some (InElem (Elem q ats None []))) = Ret (PStr [])) /\ at_index (-1) 3 = Some 2 /\
  py_insert (-1) (PStr (u "n")) (ss ["1"; "2"; "1"]) = ss ["1"; "2"; "n"; "1"].
Proof.
  conjs; try (vm_compute; reflexivity); [holds_tac|apply storable_string; vm_compute; reflexivity].
Qed.
Close Scope string_scope.

(** ** C29 whole-list assignment *)
Theorem C29_assign_list_partial : forall E e m d vs us,
  list_field E e = true -> holds E e m d vs -> (forall v, In v us -> storable m v) ->
  exists d', lmgr_set E e m us d = (d', Ret tt) /\ list_data E e m d' = Ret us.
Proof.
  intros E e m d vs us Hf Hh Hv. apply list_field_growable in Hf. apply holds_LI in Hh; [|apply Hf].
  destruct (sim_lmgr_set E e m _ us d vs Hf Hh Hv) as (d' & H1 & H2). exists d'. split; [assumption|]. eapply data_LI; [apply Hf|eassumption].
Qed.

(** ** C30 deleting the list *)
Theorem C30_delete_list_partial : forall E e m d vs,
  list_field E e = true -> holds E e m d vs -> (forall v, In v vs -> comparable v) ->
  exists d', lmgr_delete E e m d = (d', Ret tt) /\ list_data E e m d' = Ret [] /\
    (one_step e = true -> others E e d' = others E e d /\ own d' = own d).
Proof.
  intros E e m d vs Hf Hh Hv. apply list_field_growable in Hf. apply holds_LI in Hh; [|apply Hf].
  destruct (sim_lmgr_delete E e m _ d vs (proj1 Hf) Hh (fun v Hin => py_eq_refl v (Hv v Hin))) as (d' & H1 & H2). exists d'. split; [assumption|].
  split; [eapply data_LI; [apply Hf|eassumption]|]. intros Hs. eapply LI_others; eauto. apply Hf.
Qed.

(** ** C31 the rest of the document *)
Theorem C31_history_frame_partial : forall E e m d vs os d' rs,
  list_field E e = true -> one_step e = true -> holds E e m d vs -> (forall o v, In o os -> In v (op_values o) -> storable m v) ->
  field_ops E e m os d = (d', rs) -> others E e d' = others E e d /\ own d' = own d.
Proof.
  intros E e m d vs os d' rs Hf Hs Hh Hv Ho. apply list_field_growable in Hf. apply holds_LI in Hh; [|apply Hf].
  destruct (sim_ops E e m _ Hf os d vs Hh Hv) as (d1 & H1 & H2). rewrite Ho in H1. injection H1 as <- _. eapply LI_others; eauto. apply Hf.
Qed.
Theorem C31_assign_frame_partial : forall E e m d vs us d',
  list_field E e = true -> one_step e = true -> holds E e m d vs -> (forall v, In v us -> storable m v) ->
  lmgr_set E e m us d = (d', Ret tt) -> others E e d' = others E e d /\ own d' = own d.
Proof.
  intros E e m d vs us d' Hf Hs Hh Hv Ho. apply list_field_growable in Hf. apply holds_LI in Hh; [|apply Hf].
  destruct (sim_lmgr_set E e m _ us d vs Hf Hh Hv) as (d1 & H1 & H2). rewrite Ho in H1. injection H1 as <-. eapply LI_others; eauto. apply Hf.
Qed.
Theorem C31_insert_frame_partial : forall E e m d vs k v d',
  list_field E e = true -> one_step e = true -> holds E e m d vs -> storable m v -> (0 <= k <= Z.of_nat (length vs))%Z ->
  list_insert E e m k v d = (d', Ret tt) -> others E e d' = others E e d /\ own d' = own d.
Proof.
  intros E e m d vs k v d' Hf Hs Hh Hv Hk Ho. apply list_field_growable in Hf. apply holds_LI in Hh; [|apply Hf].
  destruct (sim_insert E e m _ d vs k v (is_one_step _ Hs) Hf Hh Hv Hk) as (d1 & H1 & H2). rewrite Ho in H1. injection H1 as <-. eapply LI_others; eauto. apply Hf.
Qed.

(** Longer paths: the same below the one element that the path before the last step reaches. *)
Theorem C31_long_history_frame_partial : forall E l op r m d vs os d' rs,
  list_field E (EBin l op r) = true -> holds E (EBin l op r) m d vs -> (forall o v, In o os -> In v (op_values o) -> storable m v) ->
  field_ops E (EBin l op r) m os d = (d', rs) -> rest_kept E l r d d'.
Proof.
  intros E l op r m d vs os d' rs Hf Hh Hv Ho. apply list_field_growable in Hf. apply holds_LI in Hh; [|apply Hf].
  destruct (sim_ops E _ m _ Hf os d vs Hh Hv) as (d1 & H1 & H2). rewrite Ho in H1. injection H1 as <- _. eapply LI_rest; [apply Hf|exact H2].
Qed.
Theorem C31_long_assign_frame_partial : forall E l op r m d vs us d',
  list_field E (EBin l op r) = true -> holds E (EBin l op r) m d vs -> (forall v, In v us -> storable m v) ->
  lmgr_set E (EBin l op r) m us d = (d', Ret tt) -> rest_kept E l r d d'.
Proof.
  intros E l op r m d vs us d' Hf Hh Hv Ho. apply list_field_growable in Hf. apply holds_LI in Hh; [|apply Hf].
  destruct (sim_lmgr_set E _ m _ us d vs Hf Hh Hv) as (d1 & H1 & H2). rewrite Ho in H1. injection H1 as <-. eapply LI_rest; [apply Hf|exact H2].
Qed.
Theorem C31_long_delete_frame_partial : forall E l op r m d vs d',
  list_field E (EBin l op r) = true -> holds E (EBin l op r) m d vs -> (forall v, In v vs -> comparable v) ->
  lmgr_delete E (EBin l op r) m d = (d', Ret tt) -> rest_kept E l r d d'.
Proof.
  intros E l op r m d vs d' Hf Hh Hv Ho. apply list_field_growable in Hf. apply holds_LI in Hh; [|apply Hf].
  destruct (sim_lmgr_delete E _ m _ d vs (proj1 Hf) Hh) as (d1 & H1 & H2); [intros v Hv'; now apply py_eq_refl, Hv|]. rewrite Ho in H1. injection H1 as <-. eapply LI_rest; [apply Hf|exact H2].
Qed.

(** item assignment on a path of any length changes the text of the one element *)
Theorem C31_set_item : forall E e m d k i a n v d',
  supported_path E e = true -> is_KChild (lkind E e) = true -> at_index k (length (selects E e d)) = Some i -> nth_error (selects E e d) i = Some (IElem a n) ->
  list_setitem E e m k v d = (d', Ret tt) -> exists s, to_xml m v = Ret s /\ same_except a d d' /\ get_at a d' = Some (set_text s n).
Proof.
  intros E e m d k i a n v d' Hs Hk Hi Hn H. assert (Hc : child_list E e) by (now split). pose proof (at_index_lt _ _ _ Hi) as Hlt.
  unfold list_setitem in H. unfold bind at 1 in H. unfold reading in H. rewrite (matches_selects _ _ _ Hc) in H.
  destruct (Z.eqb_spec k (Z.of_nat (length (selects E e d)))) as [->|Hne].
  { exfalso. unfold at_index in Hi. destruct (Z.ltb_spec (Z.of_nat (length (selects E e d))) 0); [lia|]. rewrite Z.ltb_irrefl, andb_false_r in Hi. discriminate. }
  destruct (Z.ltb (Z.of_nat (length (selects E e d))) k); [discriminate|]. unfold py_nth in H. rewrite <- at_index_py, Hi, Hn in H. cbn [ref_of] in H. unfold bind, ret in H.
  destruct (to_xml m v) as [s|x]; [|discriminate]. exists s. split; [reflexivity|].
  destruct (nth_selects _ _ _ _ _ _ Hc Hn) as [_ Hg]. enough (d' = upd_at a (set_text s) d) as -> by (split; [apply (same_except_upd _ _ _ n Hg), kids_set_text|now rewrite (get_upd_same _ _ _ _ Hg)]).
  cbn [set_in_xml] in H. rewrite Hg in H. destruct (kids_of n); [|discriminate]. unfold set_text_at in H. destruct s as [s|]; [destruct (xml_valid s); [|discriminate]|]; now injection H as <-.
Qed.
(** del removes the one element, with the text after it *)
Theorem C31_del_item : forall E e d k i n c j,
  supported_path E e = true -> is_KChild (lkind E e) = true -> at_index k (length (selects E e d)) = Some i -> nth_error (selects E e d) i = Some (IElem (c ++ [j]) n) ->
  list_delitem E e k d = (upd_at c (remove_kid j) d, Ret tt).
Proof.
  intros E e d k i n c j Hs Hk Hi Hn. assert (Hc : child_list E e) by (now split).
  unfold list_delitem. unfold bind at 1. unfold reading. rewrite (matches_selects _ _ _ Hc). pose proof (at_index_lt _ _ _ Hi) as Hlt.
  destruct (Z.leb_spec (Z.of_nat (length (selects E e d))) k).
  { exfalso. unfold at_index in Hi. destruct (Z.ltb_spec k 0); [lia|]. destruct (Z.leb_spec 0 k), (Z.ltb_spec k (Z.of_nat (length (selects E e d)))); cbn in Hi; try discriminate; lia. }
  unfold py_nth. rewrite <- at_index_py, Hi, Hn, item_pos_snoc. reflexivity.
Qed.

(** an appended element comes right after the last one of the list (with the text after that one kept
    in place), or last of all in an empty list *)
Theorem C31_append_position_partial : forall E e m d vs v d',
  list_field E e = true -> one_step e = true -> holds E e m d vs -> storable m v -> list_append E e m v d = (d', Ret tt) ->
  exists K, val m K = Ret v /\
  (selects E e d = [] -> kids_of d' = kids_of d ++ [(K, None)]) /\
  (forall its j n, selects E e d = its ++ [IElem [j] n] -> kids_of d' = firstn (S j) (kids_of d) ++ (K, None) :: skipn (S j) (kids_of d)).
Proof.
  intros E e m d vs v d' Hf Hs Hh Hv Ha. apply list_field_growable in Hf. apply holds_LI in Hh; [|apply Hf]. destruct Hf as (Hc & Htm & Hbe).
  unfold list_append, bind, reading, list_len in Ha. rewrite (data_LI _ _ _ _ _ _ Hc Hh) in Ha. cbn [rmap] in Ha.
  pose proof (matches_selects E e d Hc) as Hm. pose proof (li_length _ _ _ _ _ _ _ Hc Hh Hm) as Hlen.
  unfold list_setitem, bind at 1, reading in Ha. rewrite Hm, Hlen, Z.eqb_refl in Ha.
  destruct (last_ins_some _ _ _ _ Hc Hm) as (ins & Hins).
  destruct (step_insert E e d ins (is_one_step _ Hs) Hc Htm Hbe (li_tag _ _ _ _ _ _ Hh)) as (K & B1 & B2 & B3 & B3' & B4 & B5 & B6 & B7).
  set (i := ins_index ins d) in *. destruct Hv as (s & Hxs & Hval & Hr).
  assert (Hd' : d' = upd_at [i] (set_text (Some s)) (insert_kid i K d)).
  { unfold last_ins in Hins. unfold bind in Ha. destruct (last_item (selects E e d)) as [it|].
    - destruct (item_pos it) as [[c p]|]; [|discriminate]. injection Hins as <-. rewrite B1, Hxs in Ha.
      rewrite (set_elem_out E [i] _ s _ K B7 B3 Hval) in Ha. now injection Ha as <-.
    - injection Hins as <-. rewrite B1, Hxs in Ha. rewrite (set_elem_out E [i] _ s _ K B7 B3 Hval) in Ha. now injection Ha as <-. }
  exists (set_text (Some s) K). split; [now apply (val_text m v s)|].
  assert (Hi : i <= length (kids_of d)) by (unfold i, ins_index; destruct ins; lia).
  assert (Hk : kids_of d' = firstn i (kids_of d) ++ (set_text (Some s) K, None) :: skipn i (kids_of d)).
  { subst d'. pose proof (li_tag _ _ _ _ _ _ Hh) as Htd. destruct d as [q a t ks|]; [|contradiction]. cbn [upd_at insert_kid set_kids kids_of] in *.
    rewrite upd_insert by assumption. reflexivity. }
  split.
  - intros He. rewrite He in Hins. cbn in Hins. injection Hins as <-. rewrite Hk. unfold i. cbn [ins_index]. now rewrite firstn_all, skipn_all.
  - intros its j n He. rewrite He in Hins. unfold last_ins in Hins. rewrite last_item_snoc in Hins. cbn in Hins. injection Hins as <-.
    rewrite Hk. unfold i. cbn [ins_index].
    assert (Hj : nth_error (sel E (spine e) d) (length its) = Some [j]).
    { apply (nth_selects E e d (length its) [j] n Hc). rewrite He, nth_error_app2, Nat.sub_diag by lia. reflexivity. }
    destruct e; try discriminate. cbn [spine] in Hj. destruct (sel1_pos _ _ _ _ _ Hj) as (p & x & Heq & Hp & _). injection Heq as <-. pose proof (nth_lt _ _ _ Hp).
    rewrite Nat.add_1_r, Nat.min_l by lia. reflexivity.
Qed.

Open Scope string_scope.
(** Text after a deleted item is lost with it; None assigned to an item reads '' afterwards. *)
Theorem C31_tail_lost_refuted :
  list_delitem E0 (xp "b") 0 (Elem (QN None (u "r")) [] None [(el "b" [] "v" [], Some (u "tail"))]) = (el "r" [] "" [], Ret tt).
Proof. vm_compute. reflexivity. Qed.
Theorem C31_none_item_refuted : exists d', list_setitem E0 (xp "a") (MString false) 1 PNone d_list = (d', Ret tt) /\
  list_data E0 (xp "a") (MString false) d' = Ret (ss ["1"; ""; "1"]).
Proof. eexists. split; (vm_compute; reflexivity). Qed.

Example C31_case : list_field E0 (xp "a[@t='1']") = true /\ one_step (xp "a[@t='1']") = true /\
  (let d := el "r" [] "" [el "a" [] "no" []; el "a" [("t", "1")] "x" []; el "b" [] "" []] in
   holds E0 (xp "a[@t='1']") (MString false) d (ss ["x"]) /\
   others E0 (xp "a[@t='1']") d = [(el "a" [] "no" [], None); (el "b" [] "" [], None)] /\
   list_append E0 (xp "a[@t='1']") (MString false) (PStr (u "y")) d =
     (el "r" [] "" [el "a" [] "no" []; el "a" [("t", "1")] "x" []; el "a" [("t", "1")] "y" []; el "b" [] "" []], Ret tt)).
Proof. conjs; try (vm_compute; reflexivity). holds_tac. Qed.
Example C31_case_item : let d := el "r" [] "" [el "p" [] "" [el "a" [] "1" []]; el "p" [] "" [el "a" [] "2" []; el "a" [] "3" []]] in
  supported_path E0 (xp "p/a") = true /\ is_KChild (lkind E0 (xp "p/a")) = true /\
  at_index (-1) (length (selects E0 (xp "p/a") d)) = Some 2 /\ nth_error (selects E0 (xp "p/a") d) 2 = Some (IElem (app [1] [1]) (el "a" [] "3" [])) /\
  exists d', list_setitem E0 (xp "p/a") MInt (-1) (PInt 9) d = (d', Ret tt).
Proof. conjs; try (vm_compute; reflexivity). eexists. vm_compute; reflexivity. Qed.

Example C29_case : list_field E0 (xp "a") = true /\ holds E0 (xp "a") (MString false) d_list (ss ["1"; "2"; "1"]) /\
  exists d', lmgr_set E0 (xp "a") (MString false) (ss ["z"]) d_list = (d', Ret tt) /\
   d' = el "r" [] "" [el "a" [] "z" []; el "x" [] "keep" []; el "y" [] "" []].
Proof. conjs; try (vm_compute; reflexivity); [holds_tac|]. eexists. split; (vm_compute; reflexivity). Qed.
Example C30_case : holds E0 (xp "a") (MString false) d_list (ss ["1"; "2"; "1"]) /\ (forall v, In v (ss ["1"; "2"; "1"]) -> comparable v) /\
  lmgr_delete E0 (xp "a") (MString false) d_list = (el "r" [] "" [el "x" [] "keep" []; el "y" [] "" []], Ret tt).
Proof. split; [holds_tac|]. split; [|vm_compute; reflexivity]. intros v [<-|[<-|[<-|[]]]]; exact I. Qed.
(** A float list with an unreadable value cannot be deleted (nan != nan): ValueError. *)
Theorem C30_nan_refuted : let d := el "r" [] "" [el "a" [] "x" []] in
  list_data E0 (xp "a") MFloat d = Ret [PFloat None] /\ lmgr_delete E0 (xp "a") MFloat d = (d, Exc XValue).
Proof. conjs; (vm_compute; reflexivity). Qed.

(** ** C32 longer paths: C27, C29 and C30 hold for them when there is at most one parent, and for a
    missing parent the first append makes one.  With several parents append goes to the first one, and
    insert overwrites. *)
Close Scope string_scope.
Theorem C32_append_one_parent_partial : forall E l r m d vs v,
  let e := EBin l (u "/") r in
  list_field E e = true -> holds E e m d vs -> length (selects E l d) <= 1 -> storable m v ->
  exists d', list_append E e m v d = (d', Ret tt) /\ list_data E e m d' = Ret (vs ++ [v]) /\ length (selects E l d') <= 1.
Proof.
  intros E l r m d vs v e Hf Hh _ Hv. apply list_field_growable in Hf. apply holds_LI in Hh; [|apply Hf].
  destruct (sim_append_op E e m _ d vs v Hf Hh Hv) as (d' & H1 & H2). exists d'. split; [assumption|]. apply LI_holds in H2; [|apply Hf]. split; apply H2.
Qed.
Open Scope string_scope.
Definition d_parents := el "r" [] "" [el "p" [] "" [el "a" [] "42" []]; el "p" [] "" [el "a" [] "13" []]].
Theorem C32_append_refuted : exists d', list_append E0 (xp "p/a") MInt (PInt 99) d_parents = (d', Ret tt) /\
  list_data E0 (xp "p/a") MInt d_parents = Ret [PInt 42; PInt 13] /\ list_data E0 (xp "p/a") MInt d' = Ret [PInt 42; PInt 99; PInt 13].
Proof. eexists. conjs; (vm_compute; reflexivity). Qed.
Theorem C32_assign_refuted : exists d', lmgr_set E0 (xp "p/a") MInt [PInt 1; PInt 2; PInt 3] d_parents = (d', Ret tt) /\
  list_data E0 (xp "p/a") MInt d' <> Ret [PInt 1; PInt 2; PInt 3].
Proof. eexists. split; [vm_compute; reflexivity|vm_compute; discriminate]. Qed.
Theorem C32_insert_refuted : let d := el "r" [] "" [el "p" [] "" [el "a" [] "1" []; el "a" [] "2" []]] in
  exists d', list_insert E0 (xp "p/a") MInt 0 (PInt 99) d = (d', Ret tt) /\ list_data E0 (xp "p/a") MInt d = Ret [PInt 1; PInt 2] /\
   list_data E0 (xp "p/a") MInt d' = Ret [PInt 99; PInt 2; PNone].
Proof. eexists. conjs; (vm_compute; reflexivity). Qed.
Example C32_case : let e := xp "p/a" in list_field E0 e = true /\ e = EBin (xp "p") (u "/") (xp "a") /\
  holds E0 e MInt (el "r" [] "" []) [] /\ length (selects E0 (xp "p") (el "r" [] "" [])) = 0 /\
  exists d', list_append E0 e MInt (PInt 7) (el "r" [] "" []) = (d', Ret tt) /\ d' = el "r" [] "" [el "p" [] "" [el "a" [] "7" []]].
Proof.
  conjs; try (vm_compute; reflexivity).
  - split; [vm_compute; discriminate|]. split; [vm_compute; reflexivity|]. split; [intros a n Hn; vm_compute in Hn; contradiction|]. vm_compute. auto.
  - eexists. split; (vm_compute; reflexivity).
Qed.
Close Scope string_scope.
