(** Proof that the evaluator of XPathEval.v computes the meanings of EvalSpec.v: steps, predicates and document order. *)
From Coq Require Import String Arith ZArith NArith List Lia Bool Sorted Permutation.
From Verif Require Import FieldUndo MapperProofs XPathEval FieldSpec ReadSpec EvalSpec EvalMeaning XPathRead.
Import ListNotations.

(** ** names *)
Lemma lookup_bound {A} k (l : list (str * A)) v : lookup k l = Some v <-> bound k l v.
Proof.
  induction l as [|[k' v'] l IH]; cbn [lookup].
  - split; [discriminate|]. intros (l1 & l2 & H & _). destruct l1; discriminate.
  - destruct (str_eqb k k') eqn:Q.
    + apply str_eqb_eq in Q. subst k'. split.
      * intros [= <-]. exists [], l. split; [reflexivity|]. intros v0 [].
      * intros (l1 & l2 & H & N0). destruct l1 as [|y l1]; [cbn in H; congruence|]. injection H as Hy _. subst y. destruct (N0 v'). now left.
    + assert (k <> k') as Hk. { intros ->. rewrite str_eqb_refl in Q. discriminate. } rewrite IH. split.
      * intros (l1 & l2 & -> & N0). exists ((k', v') :: l1), l2. split; [reflexivity|]. intros v0 [G|G]; [congruence|exact (N0 _ G)].
      * intros (l1 & l2 & H & N0). destruct l1 as [|y l1]; [cbn in H; congruence|]. injection H as Hy Hl. subst y. exists l1, l2. split; [exact Hl|].
        intros v0 G. apply (N0 v0). now right.
Qed.
Lemma prefix_ns E p uri : ns_of E p = Some uri <-> prefix_uri E p uri.
Proof.
  unfold ns_of, prefix_uri. destruct (nss E) as [l|]; [|split; [discriminate|intros (l & H & _); discriminate]].
  rewrite lookup_bound. split; [eauto|intros (l' & [= <-] & H); exact H].
Qed.
Lemma in_ns E p q : in_namespace E p q <-> exists uri, resolve E p = Some uri /\ q_ns q = uri.
Proof.
  unfold in_namespace, resolve. destruct p as [x|]; [|split; [eauto|intros (uri & [= <-] & H); exact H]].
  split.
  - intros (uri & H & G). apply prefix_ns in H. rewrite H. eauto.
  - destruct (ns_of E x) as [uri|] eqn:H; intros (o & K & G); [|discriminate]. injection K as <-. exists uri. split; [now apply prefix_ns|exact G].
Qed.
Lemma test_passes E p n q : test_q E p n q = true <-> passes E p n q.
Proof.
  unfold test_q, passes. rewrite in_ns. destruct (str_eqb n (u "*")) eqn:Q.
  - apply str_eqb_eq in Q. destruct p as [x|]; [|split; [intros _; left; split; [exact Q|now left]|reflexivity]]. split.
    + destruct (resolve E (Some x)) as [uri|]; [|discriminate]. intros H. apply ostr_eqb_eq in H. left. split; [exact Q|right]. eauto.
    + intros [(_ & [H|(uri & -> & H)])|(H & _)]; [discriminate| |now destruct H]. now apply ostr_eqb_eq.
  - assert (n <> u "*") as Hn. { intros ->. rewrite str_eqb_refl in Q. discriminate. } split.
    + destruct (resolve E p) as [uri|]; [|discriminate]. intros H. apply qeqb_eq in H. subst q. right. split; [exact Hn|]. split; [reflexivity|]. exists uri. now split.
    + intros [(H & _)|(_ & <- & uri & -> & <-)]; [now destruct Hn|]. destruct q. apply qeqb_refl.
Qed.
Lemma child_axis_ok ax : child_axis ax = true <-> ax = None \/ ax = Some (u "child").
Proof. destruct ax as [a|]; cbn [child_axis]; [rewrite str_eqb_eq|tauto]. split; [intros ->; now right|intros [H|H]; congruence]. Qed.
Lemma attr_axis_ok ax : attr_axis ax = true <-> ax = Some (u "@") \/ ax = Some (u "attribute").
Proof.
  destruct ax as [a|]; cbn [attr_axis]; [rewrite orb_true_iff, !str_eqb_eq|split; [discriminate|intros [H|H]; discriminate]].
  split; intros [H|H]; [left|right|left|right]; congruence.
Qed.
Lemma axes_differ ax : child_axis ax = true -> attr_axis ax = false.
Proof. intros H. apply child_axis_ok in H as [->| ->]; reflexivity. Qed.


(** ** places in order *)
Lemma pair_cmp_ok x y : match pair_cmp x y with Lt => place_lt x y | Eq => x = y | Gt => place_lt y x end.
Proof.
  destruct x as [a b], y as [c d]. unfold pair_cmp, place_lt. cbn [fst snd]. destruct (Nat.compare_spec a c) as [->|H|H]; [|lia|lia].
  destruct (Nat.compare_spec b d) as [->|H|H]; [reflexivity|lia|lia].
Qed.
Lemma key_cmp_ok r : forall s, match key_cmp r s with Lt => before r s | Eq => r = s | Gt => before s r end.
Proof.
  induction r as [|x r IH]; intros [|y s]; cbn [key_cmp]; try constructor. pose proof (pair_cmp_ok x y) as P. destruct (pair_cmp x y); [|now apply before_here|now apply before_here].
  subst y. specialize (IH s). destruct (key_cmp r s); [now subst|now apply before_deeper|now apply before_deeper].
Qed.
Lemma before_asym r r' : before r r' -> before r' r -> False.
Proof. intros H. induction H as [x r|x y r r' L|x r r' H IH]; intros G; inversion G; subst; auto; unfold place_lt in *; lia. Qed.
Lemma before_irr r : before r r -> False.
Proof. intros H. exact (before_asym _ _ H H). Qed.
Lemma before_trans r s t : before r s -> before s t -> before r t.
Proof.
  intros H. revert t. induction H as [x r|x y r r' L|x r r' H IH]; intros t G; inversion G; subst; first [apply before_inside|apply before_deeper; now apply IH|apply before_here; unfold place_lt in *; lia].
Qed.
Lemma before_app p r s : before r s -> before (p ++ r) (p ++ s).
Proof. intros H. induction p as [|x p IH]; [exact H|now apply before_deeper]. Qed.
Lemma before_prefix r x s : before r (r ++ x :: s).
Proof. induction r as [|y r IH]; cbn; [constructor|now apply before_deeper]. Qed.
Lemma before_ext r x y s t : place_lt x y -> before (r ++ x :: s) (r ++ y :: t).
Proof. intros H. apply before_app. now apply before_here. Qed.

Definition sorted (l : list knode) : Prop := StronglySorted before (map fst l).
Lemma kinsert_sorted x l : sorted l -> sorted (kinsert x l) /\ (forall y, In y (kinsert x l) -> y = x \/ In y l).
Proof.
  unfold sorted. induction l as [|y l IH]; cbn [map kinsert]; intros H.
  - split; [repeat constructor|]. intros y [<-|[]]; auto.
  - apply StronglySorted_inv in H as [H1 H2]. destruct (IH H1) as [I1 I2]. pose proof (key_cmp_ok (fst x) (fst y)) as C. destruct (key_cmp (fst x) (fst y)).
    + split; [now constructor|]. intros z Hz. now right.
    + split; [|intros z [<-|Hz]; auto]. cbn [map]. constructor; [now constructor|]. constructor; [exact C|]. eapply Forall_impl; [|exact H2]. intros r Hr. exact (before_trans _ _ _ C Hr).
    + split.
      * cbn [map]. constructor; [exact I1|]. apply Forall_forall. intros r Hr. apply in_map_iff in Hr as (z & <- & Hz). apply I2 in Hz as [->|Hz]; [exact C|].
        rewrite Forall_forall in H2. apply H2. now apply in_map.
      * intros z [<-|Hz]; [right; now left|]. apply I2 in Hz as [->|Hz]; [now left|right; now right].
Qed.
Lemma kinsert_keeps x l : (forall y, In y l -> In y (kinsert x l)) /\ exists y, In y (kinsert x l) /\ fst y = fst x.
Proof.
  induction l as [|y l [IH1 (z & Hz & Ez)]]; cbn [kinsert]; [split; [intros y []|exists x; split; [now left|reflexivity]]|].
  pose proof (key_cmp_ok (fst x) (fst y)) as C. destruct (key_cmp (fst x) (fst y)).
  - split; [auto|]. exists y. split; [now left|now symmetry].
  - split; [intros w Hw; now right|]. exists x. split; [now left|reflexivity].
  - split; [intros w [<-|Hw]; [now left|right; auto]|]. exists z. split; [now right|exact Ez].
Qed.
Lemma ksort_sorted l : sorted (ksort l).
Proof. induction l as [|x l IH]; [constructor|]. now apply kinsert_sorted. Qed.
Lemma ksort_incl l x : In x (ksort l) -> In x l.
Proof. induction l as [|y l IH]; cbn [ksort fold_right]; [auto|]. intros H. apply kinsert_sorted in H as [->|H]; [now left|right; auto|apply ksort_sorted]. Qed.
Lemma ksort_keeps l x : In x l -> exists y, In y (ksort l) /\ fst y = fst x.
Proof.
  induction l as [|y l IH]; cbn [ksort fold_right]; [intros []|]. fold (ksort l). intros [->|H]; [exact (proj2 (kinsert_keeps x (ksort l)))|].
  destruct (IH H) as (z & Hz & Ez). exists z. split; [|exact Ez]. now apply (proj1 (kinsert_keeps y (ksort l))).
Qed.
Lemma ksort_id l : sorted l -> ksort l = l.
Proof.
  unfold sorted. induction l as [|x l IH]; [reflexivity|]. cbn [map ksort fold_right]. intros H. apply StronglySorted_inv in H as [H1 H2]. fold (ksort l). rewrite (IH H1).
  destruct l as [|y l]; [reflexivity|]. cbn [kinsert]. apply Forall_inv in H2. pose proof (key_cmp_ok (fst x) (fst y)) as C. destruct (key_cmp (fst x) (fst y)); [|reflexivity|].
  - rewrite C in H2. now apply before_irr in H2.
  - now destruct (before_asym _ _ H2 C).
Qed.
Lemma sorted_app l1 l2 : sorted l1 -> sorted l2 -> (forall x y, In x l1 -> In y l2 -> before (@fst pkey item x) (@fst pkey item y)) -> sorted (l1 ++ l2).
Proof.
  unfold sorted. intros H1 H2 H. induction l1 as [|x l1 IH]; [exact H2|]. cbn [app map] in *. apply StronglySorted_inv in H1 as [S1 F]. constructor.
  - apply IH; [exact S1|]. intros; apply H; [now right|assumption].
  - rewrite map_app. apply Forall_app. split; [exact F|]. apply Forall_forall. intros r Hr. apply in_map_iff in Hr as (y & <- & Hy). apply H; [now left|exact Hy].
Qed.
Lemma sorted_filter f l : sorted l -> sorted (filter f l).
Proof.
  unfold sorted. induction l as [|x l IH]; cbn [map filter]; [auto|]. intros H. apply StronglySorted_inv in H as [H1 H2]. destruct (f x); [|now apply IH]. cbn [map]. constructor; [now apply IH|].
  apply Forall_forall. intros r Hr. apply in_map_iff in Hr as (y & <- & Hy). apply filter_In in Hy as [Hy _]. rewrite Forall_forall in H2. apply H2. now apply in_map.
Qed.

(** ** routes *)
Lemma nth_unique {A B} (l : list (A * B)) k k' x v v' : NoDup (map fst l) -> nth_error l k = Some (x, v) -> nth_error l k' = Some (x, v') -> k = k'.
Proof.
  intros N0 H H'. rewrite NoDup_nth_error in N0. apply N0.
  - rewrite map_length. apply nth_error_Some. congruence.
  - now rewrite (map_nth_error fst _ _ H), (map_nth_error fst _ _ H').
Qed.
Lemma route_unique root i r r' : attributes_distinct root -> route root i r -> route root i r' -> r = r'.
Proof.
  intros D H H'. destruct H as [a n G|a n k q v G K|a n s G K|a k n x s G K].
  - inversion H'. reflexivity.
  - inversion H' as [|a0 n0 k0 q0 v0 G0 K0| |]; subst. rewrite G in G0. injection G0 as <-. now rewrite (nth_unique _ _ _ _ _ _ (D _ _ G) K K0).
  - inversion H'. reflexivity.
  - inversion H' as [| | |a0 k0 n0 x0 s0 G0 K0 E0]; subst. apply app_inj_tail in E0 as [-> ->]. reflexivity.
Qed.
Lemma to_elem_inj a : forall b, to_elem a = to_elem b -> a = b.
Proof. unfold to_elem. induction a as [|i a IH]; intros [|j b] H; try discriminate; [reflexivity|]. cbn [map] in H. injection H as H1 H2. f_equal; [lia|now apply IH]. Qed.
Lemma to_elem_snoc a b x : to_elem a = to_elem b ++ [x] -> exists k, x = (2 * k + 2, 0) /\ a = b ++ [k].
Proof.
  intros H. destruct (exists_last (l := a)) as (a' & k & ->). { intros ->. destruct (to_elem b); discriminate. }
  unfold to_elem in H. rewrite map_app in H. cbn [map] in H. apply app_inj_tail in H as [H <-]. exists k. split; [reflexivity|]. f_equal. now apply to_elem_inj.
Qed.
Lemma route_inj root i j r : route root i r -> route root j r -> i = j.
Proof.
  intros H H'. destruct H as [a n G|a n k q v G K|a n s G K|a k n x s G K]; inversion H' as [b m G' E1 E2|b m k' q' v' G' K' E1 E2|b m s' G' K' E1 E2|b k' m x' s' G' K' E1 E2];
    try (symmetry in E2; apply to_elem_snoc in E2 as (z & E2 & _); injection E2 as E2; lia); try (apply to_elem_snoc in E2 as (z & E2 & _); injection E2 as E2; lia);
    try (apply app_inj_tail in E2 as [E2 E3]; apply to_elem_inj in E2; subst; injection E3 as E3; try lia; try subst; try congruence).
  - apply to_elem_inj in E2. congruence.
  - apply app_inj_tail in E2 as [E2 _]. apply to_elem_inj in E2. subst. congruence.
  - assert (k' = k) by lia. congruence.
Qed.
