(** The two evaluators agree: on the fragment of XPathEval.v, the one of XPathRead.v gives the same answers.
    (Positions and places do not matter there, and nothing has to be sorted.) *)
From Coq Require Import String Arith ZArith NArith List Lia Bool Sorted Permutation.
From Verif Require Import FieldUndo MapperProofs XPathEval FieldSpec ReadSpec EvalSpec EvalMeaning XPathRead EvalOrder EvalMain EvalValues EvalFuns.
Import ListNotations.

(** ** places in different branches *)
Definition apart (r s : pkey) : Prop := exists p x y r' s', r = p ++ x :: r' /\ s = p ++ y :: s' /\ place_lt x y.
Definition extends (r s : pkey) : Prop := exists t, s = r ++ t.
Definition branched (l : list knode) : Prop := StronglySorted apart (map fst l).
Lemma apart_before r s : apart r s -> before r s.
Proof. intros (p & x & y & r' & s' & -> & -> & H). now apply before_ext. Qed.
Lemma branched_sorted l : branched l -> sorted l.
Proof.
  unfold branched, sorted. generalize (map fst l). induction 1 as [|r m _ IH H]; constructor; [exact IH|]. eapply Forall_impl; [|exact H]. apply apart_before.
Qed.
Lemma apart_ext r s r' s' : apart r s -> extends r r' -> extends s s' -> apart r' s'.
Proof. intros (p & x & y & a & b & -> & -> & H) (t & ->) (t' & ->). exists p, x, y, (a ++ t), (b ++ t'). rewrite <- !app_assoc. now repeat split. Qed.
Lemma extends_trans r s t : extends r s -> extends s t -> extends r t.
Proof. intros (a & ->) (b & ->). exists (a ++ b). now rewrite app_assoc. Qed.
Lemma branched_app l1 l2 : branched l1 -> branched l2 -> (forall x y, In x l1 -> In y l2 -> apart (@fst pkey item x) (@fst pkey item y)) -> branched (l1 ++ l2).
Proof.
  unfold branched. intros H1 H2 H. induction l1 as [|x l1 IH]; [exact H2|]. cbn [app map] in *. apply StronglySorted_inv in H1 as [S1 F]. constructor.
  - apply IH; [exact S1|]. intros; apply H; [now right|assumption].
  - rewrite map_app. apply Forall_app. split; [exact F|]. apply Forall_forall. intros r Hr. apply in_map_iff in Hr as (y & <- & Hy). apply H; [now left|exact Hy].
Qed.
Lemma branched_flat (f : knode -> list knode) l : branched l -> (forall j, In j l -> branched (f j) /\ Forall (fun k => extends (fst j) (fst k)) (f j)) -> branched (flat_map f l).
Proof.
  induction l as [|x l IH]; intros B H; cbn [flat_map]; [constructor|]. unfold branched in B. cbn [map] in B. apply StronglySorted_inv in B as [B F]. apply branched_app.
  - apply H. now left.
  - apply IH; [exact B|]. intros j Hj. apply H. now right.
  - intros y z Hy Hz. apply in_flat_map in Hz as (j & Hj & Hz). rewrite Forall_forall in F. apply (apart_ext (fst x) (fst j)).
    + apply F. now apply in_map.
    + destruct (H x (or_introl eq_refl)) as [_ G]. rewrite Forall_forall in G. now apply G.
    + destruct (H j (or_intror Hj)) as [_ G]. rewrite Forall_forall in G. now apply G.
Qed.
Lemma sublist_branched (g : nat -> knode -> bool) l : branched l -> forall i, branched (flat_map (fun x => if g (fst x) (snd x) then [snd x] else []) (enum i l)).
Proof.
  unfold branched. induction l as [|x l IH]; intros H i; cbn [enum flat_map fst snd map] in *; [constructor|].
  apply StronglySorted_inv in H as [H1 H2]. specialize (IH H1 (S i)). destruct (g i x); [|exact IH]. cbn [app map]. constructor; [exact IH|]. apply Forall_forall. intros r Hr.
  apply in_map_iff in Hr as (y & <- & Hy). apply in_flat_map in Hy as ([j z] & Hj & Hy). apply enum_In in Hj as [_ Hj]. cbn [fst snd] in Hy. destruct (g j z); [|destruct Hy]. destruct Hy as [<-|[]].
  rewrite Forall_forall in H2. apply H2. apply in_map. exact (nth_error_In _ _ Hj).
Qed.
Lemma kfilter_branched f l : branched l -> branched (kfilter f l).
Proof. intros H. exact (sublist_branched (fun i x => f x (S i) (List.length l)) l H 0). Qed.
Lemma filter_branched f l : branched l -> branched (filter f l).
Proof.
  unfold branched. induction l as [|x l IH]; cbn [map filter]; [auto|]. intros H. apply StronglySorted_inv in H as [H1 H2]. destruct (f x); [|now apply IH]. cbn [map]. constructor; [now apply IH|].
  apply Forall_forall. intros r Hr. apply in_map_iff in Hr as (y & <- & Hy). apply filter_In in Hy as [Hy _]. rewrite Forall_forall in H2. apply H2. now apply in_map.
Qed.
(** one place further *)
Definition one_more (r : pkey) (k : knode) : Prop := exists x, fst k = r ++ [x].
Lemma one_more_branched r l : Forall (one_more r) l -> sorted l -> branched l.
Proof.
  intros F. unfold sorted, branched. induction F as [|k l (x & Hx) F IH]; cbn [map]; intros H; [constructor|]. apply StronglySorted_inv in H as [H1 H2]. constructor; [now apply IH|].
  apply Forall_forall. intros s Hs. rewrite Forall_forall in H2. pose proof (H2 _ Hs) as B. apply in_map_iff in Hs as (j & <- & Hj). rewrite Forall_forall in F. destruct (F _ Hj) as (y & Hy).
  unfold pkey in *. rewrite Hx, Hy in *. exists r, x, y, [], []. repeat split. clear -B. induction r as [|z r IH]; cbn [app] in B.
  - inversion B; subst; [assumption|]. inversion H0.
  - apply IH. inversion B; subst; [unfold place_lt in *; lia|assumption].
Qed.
Lemma children_one r a n : Forall (one_more r) (kchildren r a n).
Proof.
  destruct n as [q ats t ks|s]; [|constructor]. cbn [kchildren]. apply Forall_app. split; [destruct t; repeat constructor; now exists (1, 0)|]. apply Forall_forall. intros k Hk.
  apply in_flat_map in Hk as ([i [x tl]] & _ & [<-|Hk]); [now exists (2 * i + 2, 0)|]. cbn [fst snd] in Hk. destruct tl; [|destruct Hk]. destruct Hk as [<-|[]]. now exists (2 * i + 3, 0).
Qed.
Lemma attrs_one r a n : Forall (one_more r) (kattrs r a n).
Proof. unfold kattrs. apply Forall_forall. intros k Hk. apply in_map_iff in Hk as (x & <- & _). now exists (0, fst x). Qed.
Lemma attrs_sorted r a n : sorted (kattrs r a n).
Proof.
  unfold kattrs, sorted. rewrite map_map. cbn [fst]. assert (H : forall (l : list (qname * str)) i, StronglySorted before (map (fun x => r ++ [(0, fst x)]) (enum i l)) /\ Forall (fun x => i <= fst x) (enum i l)).
  { induction l as [|x l IH]; intros i; cbn [enum map]; [split; constructor|]. destruct (IH (S i)) as [I1 I2]. split.
    - constructor; [exact I1|]. apply Forall_map. eapply Forall_impl; [|exact I2]. cbv beta. intros y Hy. apply before_ext. right. cbn [fst snd] in *. lia.
    - constructor; [cbn; lia|]. eapply Forall_impl; [|exact I2]. cbv beta. intros; lia. }
  apply H.
Qed.

(** ** steps *)
Lemma map_flat {A B C} (f : B -> C) (g : A -> list B) l : map f (flat_map g l) = flat_map (fun x => map f (g x)) l.
Proof. induction l as [|x l IH]; cbn; [reflexivity|]. now rewrite map_app, IH. Qed.
Lemma flat_map_same {A B} (f g : A -> list B) l : (forall x, f x = g x) -> flat_map f l = flat_map g l.
Proof. intros H. induction l as [|x l IH]; cbn; [reflexivity|]. now rewrite H, IH. Qed.
Lemma filter_flat {A B} (f : B -> bool) (g : A -> list B) l : filter f (flat_map g l) = flat_map (fun x => filter f (g x)) l.
Proof. induction l as [|x l IH]; cbn; [reflexivity|]. now rewrite filter_app, IH. Qed.
Lemma filter_one {A} (f : A -> bool) l : filter f l = flat_map (fun x => if f x then [x] else []) l.
Proof. induction l as [|x l IH]; cbn; [reflexivity|]. destruct (f x); cbn; now rewrite IH. Qed.
Lemma enum_flat {A B} (f : A -> list B) l : forall n, flat_map (fun x => f (snd x)) (enum n l) = flat_map f l.
Proof. induction l as [|x l IH]; intros n; cbn; [reflexivity|]. now rewrite IH. Qed.
Definition sup_axis (ax : option str) : bool := (child_axis ax || attr_axis ax)%bool.
Lemma kstep_items E ax t k : sup_axis ax = true -> map snd (kstep E ax t k) = step_items E ax t (snd k).
Proof.
  unfold sup_axis, kstep, axis_of. intros Ha. destruct k as [r [a n|a q v|a tl s]]; cbn [fst snd]; [|destruct (child_axis ax); [reflexivity|]; destruct (attr_axis ax); [reflexivity|discriminate]..].
  destruct (child_axis ax) eqn:C; [|destruct (attr_axis ax) eqn:A; [|discriminate]]; cbn [kaxis fst snd step_items].
  - destruct n as [q ats tx ks|s]; [|destruct t; rewrite C; reflexivity]. cbn [kchildren]. rewrite filter_app, map_app, filter_flat, map_flat. destruct t as [p nm|nt arg]; cbn [step_items kids_of text_items]; rewrite C.
    + replace (map snd (filter _ (own_text r a tx))) with (@nil item) by (now destruct tx). cbn [app]. unfold kid_items. apply flat_map_same. intros [i [x tl]]. cbn [fst snd filter ktest test_node].
      replace (filter _ (own_tail r a i tl)) with (@nil knode) by (now destruct tl). destruct x as [q' a' t' k'|c]; cbn [test_node]; [|reflexivity]. now destruct (test_q E p nm q').
    + f_equal; [now destruct tx|]. apply flat_map_same. intros [i [x tl]]. cbn [fst snd filter ktest]. destruct x; now destruct tl.
  - destruct t as [p nm|nt arg]; rewrite C, ?A.
    + unfold kattrs. rewrite filter_one, flat_map_concat_map, map_map, <- flat_map_concat_map, map_flat. rewrite <- (enum_flat (fun x => if test_q E p nm (fst x) then [IAttr a (fst x) (snd x)] else []) (attrs_of n) 0).
      apply flat_map_same. intros [i [q v]]. cbn [fst snd ktest]. now destruct (test_q E p nm q).
    + unfold kattrs. generalize (enum 0 (attrs_of n)). intros l. induction l as [|x l IH]; [reflexivity|exact IH].
Qed.
Lemma kstep_one E ax t k : sup_axis ax = true -> Forall (one_more (fst k)) (kstep E ax t k) /\ branched (kstep E ax t k).
Proof.
  unfold sup_axis, kstep, axis_of. intros Ha. destruct k as [r [a n|a q v|a tl s]]; cbn [fst snd]; [|destruct (child_axis ax); [split; constructor|]; destruct (attr_axis ax); [split; constructor|discriminate]..].
  assert (G : forall l f, Forall (one_more r) l -> sorted l -> Forall (one_more r) (filter f l) /\ branched (filter f l)).
  { intros l f F S0. split; [|apply filter_branched; now apply (one_more_branched r)]. apply Forall_forall. intros k Hk. apply filter_In in Hk as [Hk _]. rewrite Forall_forall in F. now apply F. }
  destruct (child_axis ax) eqn:C; [|destruct (attr_axis ax) eqn:A; [|discriminate]]; cbn [kaxis fst snd].
  - apply G; [apply children_one|apply children_sorted].
  - apply G; [apply attrs_one|apply attrs_sorted].
Qed.
Lemma kfilter_items f g l : (forall k pos size, f k pos size = g (snd k) (N.of_nat pos)) -> map snd (kfilter f l) = filter_pos g (map snd l).
Proof.
  intros H. unfold kfilter, filter_pos. generalize (List.length l). intros n. generalize 0. induction l as [|k l IH]; intros i; cbn [enum flat_map map fst snd]; [reflexivity|].
  rewrite map_app, IH, H. f_equal. now destruct (g _ _).
Qed.

(** ** expressions *)
Lemma nodes_erase v : nodes_of (erase v) = map snd (knodes v).
Proof. now destruct v. Qed.
Definition agrees (E : env) (e : expr) : Prop := supported E e = true ->
  (exists t, ty E e = Some t) /\ (is_path e = true -> ty E e = Some TNodes) /\
  (forall k pos size, erase (fev E e k pos size) = ev E e (snd k)) /\
  (is_path e = true -> forall k pos size, branched (knodes (fev E e k pos size)) /\ Forall (fun j => extends (fst k) (fst j)) (knodes (fev E e k pos size))).
Lemma preds_agree E ps : Forall (agrees E) ps -> forallb (supported E) ps = true -> forall l,
  map snd (fold_left (fun l p => kfilter (fun j pos size => truth (erase (fev E p j pos size)) (N.of_nat pos)) l) ps l) =
  fold_left (fun items p => filter_pos (fun i pos => truth (ev E p i) pos) items) ps (map snd l).
Proof.
  induction 1 as [|p ps Hp _ IH]; intros Hs l; cbn [fold_left]; [reflexivity|]. cbn [forallb] in Hs. apply andb_true_iff in Hs as [H1 H2]. rewrite IH by exact H2.
  f_equal. apply kfilter_items. intros k pos size. destruct (Hp H1) as (_ & _ & H & _). now rewrite H.
Qed.
Lemma preds_sub E ps : forall l, (branched l -> branched (fold_left (fun l p => kfilter (fun j pos size => truth (erase (fev E p j pos size)) (N.of_nat pos)) l) ps l)) /\
  (forall k, In k (fold_left (fun l p => kfilter (fun j pos size => truth (erase (fev E p j pos size)) (N.of_nat pos)) l) ps l) -> In k l).
Proof.
  induction ps as [|p ps IH]; intros l; cbn [fold_left]; [auto|]. destruct (IH (kfilter (fun j pos size => truth (erase (fev E p j pos size)) (N.of_nat pos)) l)) as [I1 I2]. split.
  - intros B. apply I1. now apply kfilter_branched.
  - intros k Hk. apply I2 in Hk. apply kfilter_In in Hk as (m & Hm & _). exact (nth_error_In _ _ Hm).
Qed.
Lemma preds_ty E ps : Forall (agrees E) ps -> forallb (supported E) ps = true -> forallb (fun p => is_some (ty E p)) ps = true.
Proof.
  induction 1 as [|p ps Hp _ IH]; [reflexivity|]. cbn [forallb]. rewrite !andb_true_iff. intros [H1 H2]. split; [|now apply IH]. destruct (Hp H1) as ((t & ->) & _). reflexivity.
Qed.
Theorem ev_agrees E e : agrees E e.
Proof.
  induction e as [s|n| | |a op b IHa IHb|b ps IHb H| | |ax t ps H|ab|p n|p n args H] using expr_ind'; intros Hs; cbn [supported] in Hs; try discriminate.
  - split; [eexists; reflexivity|]. split; [discriminate|]. split; [reflexivity|discriminate].
  - split; [eexists; reflexivity|]. split; [discriminate|]. split; [reflexivity|discriminate].
  - apply andb_true_iff in Hs as [Hs Ho]. apply andb_true_iff in Hs as [Ha Hb]. destruct (IHa Ha) as ((ta & Ta) & Pa & Ea & Ba). destruct (IHb Hb) as ((tb & Tb) & Pb & Eb & Bb).
    cbn [ty is_path fev ev]. destruct (str_eqb op (u "/")) eqn:O1.
    + apply andb_true_iff in Ho as [Qa Qb]. rewrite (Pa Qa), (Pb Qb). cbn [is_nodes andb].
      assert (S0 : forall k pos size, branched (flat_map (fun j => knodes (fev E b j 1 1)) (knodes (fev E a k pos size)))).
      { intros k pos size. apply branched_flat; [exact (proj1 (Ba Qa k pos size))|]. intros j _. exact (Bb Qb j 1 1). }
      split; [eexists; reflexivity|]. split; [reflexivity|]. split.
      * intros k pos size. rewrite ksort_id by (apply branched_sorted, S0). cbn [erase]. f_equal. rewrite map_flat, <- (Ea k pos size), nodes_erase.
        generalize (knodes (fev E a k pos size)). intros l. induction l as [|j l IH]; [reflexivity|]. cbn [flat_map map]. rewrite IH. f_equal. now rewrite <- (Eb j 1 1), nodes_erase.
      * intros _ k pos size. cbn [knodes]. rewrite ksort_id by (apply branched_sorted, S0). split; [apply S0|]. apply Forall_forall. intros j Hj. apply in_flat_map in Hj as (h & Hh & Hj).
        destruct (Ba Qa k pos size) as [_ F1]. destruct (Bb Qb h 1 1) as [_ F2]. rewrite Forall_forall in F1, F2. exact (extends_trans _ _ _ (F1 _ Hh) (F2 _ Hj)).
    + unfold str_mem in *. cbn [existsb] in *. rewrite Ta, Tb. cbn [is_some andb].
      destruct (str_eqb op (u "=")) eqn:O2; [apply str_eqb_eq in O2; subst op; cbn; split; [eexists; reflexivity|]; split; [discriminate|]; split; [intros k pos size; now rewrite Ea, Eb|discriminate]|].
      destruct (str_eqb op (u "and")) eqn:O3; [apply str_eqb_eq in O3; subst op; cbn; split; [eexists; reflexivity|]; split; [discriminate|]; split; [intros k pos size; now rewrite Ea, Eb|discriminate]|].
      destruct (str_eqb op (u "or")) eqn:O4; [|discriminate]. apply str_eqb_eq in O4. subst op. cbn. split; [eexists; reflexivity|]. split; [discriminate|]. split; [intros k pos size; now rewrite Ea, Eb|discriminate].
  - apply andb_true_iff in Hs as [Hs Hp]. apply andb_true_iff in Hs as [Ha Ht]. cbn [ty is_path fev ev]. rewrite Ht, (preds_ty E ps H Hp).
    assert (Hx : is_some (axis_of ax) = true) by (unfold axis_of; destruct (child_axis ax); [reflexivity|]; destruct (attr_axis ax); [reflexivity|discriminate]). rewrite Hx. cbn [andb].
    split; [eexists; reflexivity|]. split; [reflexivity|]. split.
    + intros k pos size. cbn [erase]. f_equal. now rewrite (preds_agree E ps H Hp), kstep_items.
    + intros _ k pos size. cbn [knodes]. destruct (kstep_one E ax t k Ha) as [F B]. destruct (preds_sub E ps (kstep E ax t k)) as [S1 S2]. split; [now apply S1|]. apply Forall_forall. intros j Hj.
      apply S2 in Hj. rewrite Forall_forall in F. destruct (F _ Hj) as (x & Hx'). exists [x]. exact Hx'.
  - cbn [ty is_path fev ev]. rewrite Hs. split; [eexists; reflexivity|]. split; [reflexivity|]. split; [reflexivity|]. intros _ k pos size. cbn [knodes]. split; [repeat constructor|]. constructor; [|constructor]. exists []. now rewrite app_nil_r.
  - destruct p; [discriminate|]. cbn [ty is_path fev ev]. unfold str_var, var_value. destruct (lookup n (vars E)) as [[s|z]|]; [| |discriminate]; (split; [eexists; reflexivity|]; split; [discriminate|]; split; [reflexivity|discriminate]).
  - destruct p; [discriminate|]. destruct args as [|x [|]]; try discriminate. apply andb_true_iff in Hs as [Hs Hx]. apply andb_true_iff in Hs as [Hn Hp]. apply str_eqb_eq in Hn. subst n. apply Forall_inv in H.
    destruct (H Hx) as (_ & Px & Ex & _). cbn [ty map is_path fev ev]. rewrite (Px Hp). split; [eexists; reflexivity|]. split; [discriminate|]. split; [|discriminate]. intros k pos size.
    change (call (u "count") (KN [k]) pos size [fev E x k pos size]) with (nat_num (List.length (knodes (fev E x k pos size)))). unfold nat_num. cbn [erase]. rewrite <- (Ex k pos size), nodes_erase, map_length. reflexivity.
Qed.
