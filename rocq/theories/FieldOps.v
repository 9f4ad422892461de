(** Every operation of a field is made of four primitive changes; a relation between documents that holds
    for these holds for every operation, whatever its outcome. *)
From Coq Require Import String Arith ZArith Lia.
From Verif Require Export FieldShare.
From Verif Require Import XPathEval FieldSpec DocSpec IndepSpec.

Opaque u.

Section Ops.
Variables (E : env) (e : expr) (R : node -> node -> Prop) (O : node -> ref -> Prop).
Hypothesis R_refl : forall d, R d d.
Hypothesis R_trans : forall a b c, R a b -> R b c -> R a c.
Hypothesis R_tag : forall a b, R a b -> tag_of a = tag_of b.
Hypothesis H_sup : supported_path E e = true.
Hypothesis H_sel : forall d i, In i (selects E e d) -> O d (ref_of i).
Hypothesis H_build : forall ins d d' r, tag_of d <> None -> build E Create e (Some doc_root) ins d = (d', r) -> R d d' /\ forall y, r = Ret (Some y) -> O d' y.
Hypothesis H_set : forall x v d d' r, (forall y, x = Some y -> O d y) -> set_in_xml E x v (terminal_step e) d = (d', r) -> R d d'.
Hypothesis H_rm : forall d d' r, tag_of d <> None -> remove_xml E e false doc_root d = (d', r) -> R d d'.
Hypothesis H_item : forall d a j n, In (IElem (a ++ [j]) n) (selects E e d) -> R d (upd_at a (remove_kid j) d).

Definition does {A} (m : M A) : Prop := forall d d' r, tag_of d <> None -> m d = (d', r) -> R d d'.
Lemma does_ret {A} (x : A) : does (ret x).
Proof. intros d d' r _ [= <- _]. apply R_refl. Qed.
Lemma does_raise {A} x : does (@raise A x).
Proof. intros d d' r _ [= <- _]. apply R_refl. Qed.
Lemma does_reading {A} (f : node -> res A) : does (reading f).
Proof. intros d d' r _ [= <- _]. apply R_refl. Qed.
Lemma does_bind {A B} (m : M A) (f : A -> M B) : does m -> (forall x, does (f x)) -> does (bind m f).
Proof.
  intros Hm Hf d d' r Hd H. unfold bind in H. destruct (m d) as [d1 [x|x]] eqn:E1; pose proof (Hm _ _ _ Hd E1) as S1.
  - eapply R_trans; [exact S1|]. eapply Hf; [|exact H]. rewrite <- (R_tag _ _ S1). exact Hd.
  - injection H as <- _. exact S1.
Qed.
Lemma does_iter {A B} (f : A -> M B) l : (forall x, does (f x)) -> does (iterM f l).
Proof. intros Hf. induction l; cbn [iterM]; [apply does_ret|apply does_bind; auto]. Qed.

Lemma sup_parts : is_path e = true /\ ok E true e = true /\ rereadable e = true.
Proof. pose proof H_sup as H. unfold supported_path in H. apply andb_prop in H as [H ?]. apply andb_prop in H as [? ?]. auto. Qed.
Lemma sup_find d : find_ast E e doc_root d = Ret (option_map ref_of (hd_error (selects E e d))).
Proof. destruct sup_parts as (Hp & Ho & _). eapply find_path; eauto. Qed.
Lemma sup_matches d : matches E e d = Ret (selects E e d).
Proof.
  destruct sup_parts as (Hp & Ho & _). unfold matches, eval_at, selects, doc_root, xpath. cbn [get_at]. rewrite (ok_supported _ _ _ Ho).
  destruct (path_nodes E e (IElem [] d) Hp) as [its ->]. reflexivity.
Qed.

Lemma does_set v : does (mgr_set E e v).
Proof.
  intros d d' r Hd Hm. unfold mgr_set in Hm. unfold bind at 1, reading in Hm. rewrite sup_find in Hm. destruct v as [v|].
  - destruct (hd_error (selects E e d)) as [i|] eqn:Ei; cbn [option_map] in Hm; unfold bind in Hm.
    + eapply H_set; [|exact Hm]. intros y [= <-]. apply H_sel. now apply hd_In.
    + destruct (build E Create e (Some doc_root) None d) as [d1 [x|er]] eqn:E1; destruct (H_build _ _ _ _ Hd E1) as [S1 B1].
      * eapply R_trans; [exact S1|]. eapply H_set; [|exact Hm]. intros y ->. now apply B1.
      * injection Hm as <- _. exact S1.
  - destruct (hd_error (selects E e d)) as [i|]; cbn [option_map] in Hm; [|injection Hm as <- _; apply R_refl].
    unfold bind in Hm. destruct (remove_xml E e false doc_root d) as [d1 [x|er]] eqn:E1; injection Hm as <- _; eapply H_rm; eauto.
Qed.
Lemma does_delete : does (mgr_delete E e).
Proof.
  intros d d' r Hd Hm. unfold mgr_delete in Hm. unfold bind at 1, reading in Hm. rewrite sup_find in Hm.
  destruct (hd_error (selects E e d)) as [i|]; cbn [option_map] in Hm; [|injection Hm as <- _; apply R_refl].
  unfold bind in Hm. destruct (remove_xml E e false doc_root d) as [d1 [x|er]] eqn:E1; injection Hm as <- _; eapply H_rm; eauto.
Qed.
Lemma does_create : does (mgr_create E e).
Proof.
  intros d d' r Hd Hm. unfold mgr_create in Hm. unfold bind at 1, reading in Hm. rewrite sup_find in Hm.
  destruct (hd_error (selects E e d)) as [i|]; cbn [option_map] in Hm; [injection Hm as <- _; apply R_refl|]. eapply H_build; eauto.
Qed.
Lemma does_typed m v : does (typed_set E e m v).
Proof. unfold typed_set. destruct (to_xml m v); [apply does_set|apply does_raise]. Qed.
Lemma does_setitem m k v : does (list_setitem E e m k v).
Proof.
  intros d d' r Hd Hm. unfold list_setitem in Hm. unfold bind at 1, reading in Hm. rewrite sup_matches in Hm. cbv zeta in Hm.
  set (mk := if Z.eqb k _ then _ else _) in Hm.
  assert (G : forall d1 r1, mk d = (d1, r1) -> R d d1 /\ forall y, r1 = Ret (Some y) -> O d1 y).
  { intros d1 r1 H1. unfold mk in H1. destruct (Z.eqb k _).
    - destruct (last_item (selects E e d)) as [i|]; [|eapply H_build; eauto]. destruct (item_pos i) as [[a p]|er]; [eapply H_build; eauto|]. injection H1 as <- <-. split; [apply R_refl|discriminate].
    - destruct (Z.ltb _ k); [injection H1 as <- <-; split; [apply R_refl|discriminate]|]. destruct (py_nth k (selects E e d)) as [i|] eqn:Ei; injection H1 as <- <-; (split; [apply R_refl|]); [|discriminate].
      intros y [= <-]. apply H_sel. eapply py_nth_In; eauto. }
  clearbody mk. unfold bind in Hm. destruct (mk d) as [d1 [x|er]] eqn:E1; destruct (G _ _ eq_refl) as [S1 B1]; [|injection Hm as <- _; exact S1].
  destruct (to_xml m v) as [s|er]; [|injection Hm as <- _; exact S1]. eapply R_trans; [exact S1|]. eapply H_set; [|exact Hm]. intros y ->. now apply B1.
Qed.
Lemma does_delitem k : does (list_delitem E e k).
Proof.
  intros d d' r Hd Hm. unfold list_delitem in Hm. unfold bind at 1, reading in Hm. rewrite sup_matches in Hm.
  destruct (Z.leb _ k); [injection Hm as <- _; apply R_refl|]. destruct (py_nth k (selects E e d)) as [i|] eqn:Ei; [|injection Hm as <- _; apply R_refl].
  destruct (item_pos i) as [[a j]|er] eqn:Ep; [|injection Hm as <- _; apply R_refl]. unfold bind, remove_at, ret in Hm. injection Hm as <- _.
  destruct (item_pos_inv _ _ _ Ep) as [n ->]. apply py_nth_In in Ei. eapply H_item; eauto.
Qed.
Lemma does_append m v : does (list_append E e m v).
Proof. apply does_bind; [apply does_reading|]. intros n. apply does_setitem. Qed.
Lemma does_remove m v : does (list_remove E e m v).
Proof. apply does_bind; [apply does_reading|]. intros n. apply does_delitem. Qed.
Lemma does_pop m k : does (list_pop E e m k).
Proof.
  apply does_bind; [destruct k; [apply does_ret|apply does_bind; [apply does_reading|intros; apply does_ret]]|]. intros i. apply does_bind; [apply does_reading|]. intros v.
  apply does_bind; [apply does_delitem|intros; apply does_ret].
Qed.
Lemma does_op m o : does (field_op E e m o).
Proof.
  assert (Q : forall A (c : M A), does c -> does (quiet c)) by (intros A c Hc; apply does_bind; [exact Hc|intros; apply does_ret]).
  destruct o; cbn [field_op]; [apply Q, does_setitem|apply Q, does_append|apply Q, does_iter; intros; apply does_append|apply Q, does_delitem| |apply Q, does_remove].
  apply does_bind; [apply does_pop|intros; apply does_ret].
Qed.
Lemma does_insert m k v : does (list_insert E e m k v).
Proof.
  apply does_bind; [apply does_reading|]. intros n. destruct (Z.eqb k _); [apply does_append|]. apply does_bind; [apply does_reading|]. intros l.
  destruct (Z.ltb k _); [|apply does_raise]. destruct (py_nth k l) as [i|]; [|apply does_raise]. destruct (item_pos i) as [[a p]|er]; [|apply does_raise].
  apply does_bind; [|intros; apply does_setitem]. intros d d' r Hd Hm. eapply H_build; eauto.
Qed.
Lemma does_set_all m vs : forall i, does (set_all E e m i vs).
Proof. induction vs as [|v vs IH]; intros i; cbn [set_all]; [apply does_ret|]. apply does_bind; [apply does_setitem|intros; apply IH]. Qed.
Lemma does_trim m n : forall fuel, does (trim E e m n fuel).
Proof.
  induction fuel as [|f IH]; cbn [trim]; (apply does_bind; [apply does_reading|]); intros len; destruct (Nat.ltb n len); try apply does_raise; try apply does_ret.
  apply does_bind; [apply does_pop|intros; apply IH].
Qed.
Lemma does_lset m vs : does (lmgr_set E e m vs).
Proof. apply does_bind; [apply does_set_all|]. intros _. apply does_bind; [apply does_reading|]. intros len. apply does_trim. Qed.
Lemma does_ldelete m : does (lmgr_delete E e m).
Proof. apply does_bind; [apply does_reading|]. intros vs. apply does_iter. intros. apply does_remove. Qed.

Lemma does_fop o d : fop_path o = e -> tag_of d <> None -> R d (run_fop E o d).
Proof.
  intros Ho Hd. destruct o as [e0 m v|e0|e0|e0 m o|e0 m kk v|e0 m vs|e0 m]; cbn [fop_path run_fop] in *; subst e0.
  - destruct (typed_set E e m v d) as [d' r] eqn:Hr. exact (does_typed m v _ _ _ Hd Hr).
  - destruct (mgr_create E e d) as [d' r] eqn:Hr. exact (does_create _ _ _ Hd Hr).
  - destruct (mgr_delete E e d) as [d' r] eqn:Hr. exact (does_delete _ _ _ Hd Hr).
  - destruct (field_op E e m o d) as [d' r] eqn:Hr. exact (does_op m o _ _ _ Hd Hr).
  - destruct (list_insert E e m kk v d) as [d' r] eqn:Hr. exact (does_insert m kk v _ _ _ Hd Hr).
  - destruct (lmgr_set E e m vs d) as [d' r] eqn:Hr. exact (does_lset m vs _ _ _ Hd Hr).
  - destruct (lmgr_delete E e m d) as [d' r] eqn:Hr. exact (does_ldelete m _ _ _ Hd Hr).
Qed.
End Ops.
