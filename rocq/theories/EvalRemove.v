(** For C92: what an XPath selects after a child has been removed.  The XPaths: steps with name tests, joined by '/', '//' and '|', whose
    predicates look only at the attributes of the node. *)
From Coq Require Import String Arith List Lia Bool.
From Verif Require Import FieldUndo NodeList EvalSpec EvalMeaning EvalOrder EvalMain EvalValues EvalFuns EvalAgree EvalBlind Props_Eval Props_Write Props_WriteList.
From Verif Require Import XPathEval DocSpec XPathRead EvalSpec.
Import ListNotations.

(** ** where a node was, before the [j]-th child of the node at [a] was removed *)
Fixpoint un (a : addr) (j : nat) (c : addr) {struct c} : addr :=
  match c with
  | [] => []
  | k :: c' => match a with
               | [] => (if k <? j then k else S k) :: c'
               | x :: a' => if k =? x then k :: un a' j c' else k :: c'
               end
  end.
Definition gone (a : addr) (j : nat) (b : addr) : Prop := exists r, b = a ++ j :: r.

Lemma un_snoc j : forall c a k, exists k', un a j (c ++ [k]) = un a j c ++ [k'].
Proof.
  induction c as [|x c IH]; intros a k; cbn [app un].
  - destruct a as [|y a]; [eexists; reflexivity|]. destruct (k =? y); exists k; reflexivity.
  - destruct a as [|y a]; [exists k; reflexivity|]. destruct (x =? y); [|exists k; reflexivity]. destruct (IH a k) as [k' ->]. exists k'. reflexivity.
Qed.
Lemma un_reach j : forall b a, ~ gone a j b -> exists c, un a j c = b.
Proof.
  induction b as [|x b IH]; intros a H; [exists []; reflexivity|]. destruct a as [|y a].
  - destruct (Nat.lt_trichotomy x j) as [L|[->|L]].
    + exists (x :: b). cbn [un]. apply Nat.ltb_lt in L. now rewrite L.
    + destruct H. now exists b.
    + exists ((x - 1) :: b). cbn [un]. destruct (Nat.ltb_spec (x - 1) j); [lia|]. f_equal. lia.
  - destruct (Nat.eqb_spec x y) as [->|N].
    + destruct (IH a) as [c Hc]; [intros [r ->]; apply H; now exists r|]. exists (y :: c). cbn [un]. now rewrite Nat.eqb_refl, Hc.
    + exists (x :: b). cbn [un]. destruct (Nat.eqb_spec x y); [contradiction|reflexivity].
Qed.
Lemma un_kept j : forall c a, ~ gone a j (un a j c).
Proof.
  induction c as [|x c IH]; intros a [r H]; [destruct a; discriminate|]. destruct a as [|y a]; cbn [un] in H.
  - cbn [app] in H. injection H as H _. destruct (Nat.ltb_spec x j); lia.
  - destruct (Nat.eqb_spec x y) as [->|N]; cbn [app] in H; [|now injection H as ->]. injection H as H. apply (IH a). now exists r.
Qed.
Lemma un_inj j : forall c c2 a, un a j c = un a j c2 -> c = c2.
Proof.
  induction c as [|x c IH]; intros [|y c2] a H; cbn [un] in H; try reflexivity; destruct a as [|z a]; try discriminate.
  - destruct (y =? z); discriminate.
  - destruct (x =? z); discriminate.
  - injection H as H ->. f_equal. destruct (Nat.ltb_spec x j), (Nat.ltb_spec y j); lia.
  - destruct (Nat.eqb_spec x z) as [->|N], (Nat.eqb_spec y z) as [->|N']; try congruence. injection H as H2. f_equal. exact (IH _ _ H2).
Qed.
Lemma un_parent j a c k' : ~ gone a j (un a j c ++ [k']) -> exists k, un a j (c ++ [k]) = un a j c ++ [k'].
Proof.
  intros H. destruct (un_reach j _ a H) as [b Hb]. destruct (rev b) as [|k r] eqn:Er.
  - assert (b = []) as -> by (rewrite <- (rev_involutive b), Er; reflexivity). cbn [un] in Hb. destruct (un a j c); discriminate.
  - assert (b = rev r ++ [k]) as -> by (rewrite <- (rev_involutive b), Er; reflexivity). exists k. destruct (un_snoc j (rev r) a k) as [k2 H2]. pose proof Hb as Hb0. rewrite H2 in Hb. apply app_inj_tail in Hb as [Hc _]. apply un_inj in Hc. subst c. exact Hb0.
Qed.

(** ** the nodes themselves: the same, but for children removed *)
Definition near (n' n : node) : Prop := tag_of n' = tag_of n /\ attrs_of n' = attrs_of n /\ text_of n' = text_of n /\ (kids_of n = [] -> kids_of n' = []).
Lemma near_refl n : near n n. Proof. now repeat split. Qed.
Lemma nth_remove {A} (l : list A) : forall i k, nth_error (remove_nth i l) k = nth_error l (if k <? i then k else S k).
Proof.
  unfold remove_nth. induction l as [|x l IH]; intros i k.
  - rewrite firstn_nil, skipn_nil. cbn [app]. destruct (k <? i), k; reflexivity.
  - destruct i as [|i]; [reflexivity|]. destruct k as [|k]; [reflexivity|]. cbn [firstn skipn app nth_error]. change (skipn (S i) (x :: l)) with (skipn i l). specialize (IH i k). cbn [skipn] in IH. change (S k <? S i) with (k <? i).
    rewrite IH. destruct (k <? i); reflexivity.
Qed.
Lemma un_get j : forall a c d, match get_at c (upd_at a (remove_kid j) d), get_at (un a j c) d with Some n', Some n => near n' n | None, None => True | _, _ => False end.
Proof.
  induction a as [|x a IH]; intros c d; destruct c as [|k c]; cbn [un get_at upd_at].
  - unfold remove_kid. destruct d as [q ats t ks|s]; [|apply near_refl]. cbn [set_kids]. repeat split; try reflexivity. cbn [kids_of]. intros ->. unfold remove_nth. destruct j; reflexivity.
  - assert (K : kids_of (remove_kid j d) = remove_nth j (kids_of d)) by (destruct d; [reflexivity|cbn; destruct j; reflexivity]). rewrite K, nth_remove. destruct (nth_error (kids_of d) _) as [y|]; [|exact I]. destruct (get_at c (fst y)); [apply near_refl|exact I].
  - destruct d as [q ats t ks|s]; [|apply near_refl]. cbn [set_kids]. repeat split; try reflexivity. cbn [kids_of]. intros ->. reflexivity.
  - assert (K : kids_of (set_kids (upd_nth x (fun k0 => (upd_at a (remove_kid j) (fst k0), snd k0))) d) = upd_nth x (fun k0 => (upd_at a (remove_kid j) (fst k0), snd k0)) (kids_of d)) by (destruct d; reflexivity).
    rewrite K, nth_upd_nth, (Nat.eqb_sym k x). destruct (Nat.eqb_spec x k) as [->|N]; cbn [get_at].
    + destruct (nth_error (kids_of d) k) as [y|]; [|exact I]. cbn [option_map fst]. apply IH.
    + destruct (nth_error (kids_of d) k) as [y|]; [|exact I]. destruct (get_at c (fst y)); [apply near_refl|exact I].
Qed.

(** the same altogether if the removed one was not inside *)
Lemma un_same j : forall a c d, (forall r, un a j c ++ r <> a) -> get_at c (upd_at a (remove_kid j) d) = get_at (un a j c) d.
Proof.
  induction a as [|x a IH]; intros c d H; destruct c as [|k c]; cbn [un get_at upd_at] in *.
  - now destruct (H []).
  - assert (K : kids_of (remove_kid j d) = remove_nth j (kids_of d)) by (destruct d; [reflexivity|cbn; destruct j; reflexivity]). now rewrite K, nth_remove.
  - now destruct (H (x :: a)).
  - assert (K : kids_of (set_kids (upd_nth x (fun k0 => (upd_at a (remove_kid j) (fst k0), snd k0))) d) = upd_nth x (fun k0 => (upd_at a (remove_kid j) (fst k0), snd k0)) (kids_of d)) by (destruct d; reflexivity).
    rewrite K, nth_upd_nth, (Nat.eqb_sym k x) in *. destruct (Nat.eqb_spec x k) as [->|N]; cbn [get_at].
    + destruct (nth_error (kids_of d) k) as [y|]; [|reflexivity]. cbn [option_map fst]. apply IH. intros r Hr. apply (H r). cbn [app]. now rewrite Hr.
    + reflexivity.
Qed.
Lemma un_app j a r : forall c, exists r', un a j (c ++ r) = un a j c ++ r' /\ List.length r' = List.length r.
Proof.
  induction r as [|k r IH] using rev_ind; intros c; [exists []; rewrite !app_nil_r; now split|]. rewrite app_assoc. destruct (un_snoc j (c ++ r) a k) as [k' ->]. destruct (IH c) as (r' & -> & Hl). exists (r' ++ [k']). rewrite app_assoc. split; [reflexivity|]. rewrite !app_length, Hl. reflexivity.
Qed.

(** ** and their order *)
Lemma before_elem : forall b b2, before (to_elem b) (to_elem b2) <-> match b, b2 with [], _ :: _ => True | x :: r, y :: r2 => x < y \/ x = y /\ before (to_elem r) (to_elem r2) | _, [] => False end.
Proof.
  unfold to_elem. intros [|x r] [|y r2]; cbn [map].
  - split; [intros H; inversion H|intros []].
  - split; [intros _; exact I|intros _; apply before_inside].
  - split; [intros H; inversion H|intros []].
  - split.
    + intros H. inversion H as [|? ? ? ? L|? ? ? B]; subst; [left; destruct L as [L|[_ L]]; cbn [fst snd] in L; lia|]. right. split; [lia|exact B].
    + intros [H|[-> B]]; [apply before_here; left; cbn [fst]; lia|apply before_deeper; exact B].
Qed.
Lemma un_before j : forall c c2 a, before (to_elem (un a j c)) (to_elem (un a j c2)) -> before (to_elem c) (to_elem c2).
Proof.
  induction c as [|x c IH]; intros [|y c2] a H; apply before_elem in H; apply before_elem; cbn [un] in H; revert H.
  - intros [].
  - intros _. exact I.
  - destruct a as [|z a]; [auto|]. destruct (x =? z); auto.
  - destruct a as [|z a].
    + destruct (Nat.ltb_spec x j), (Nat.ltb_spec y j); intros [L|[L B]]; try (left; lia); right; (split; [lia|exact B]).
    + destruct (Nat.eqb_spec x z) as [->|N], (Nat.eqb_spec y z) as [->|N']; intros [L|[L B]]; try (left; lia); right; try (split; [lia|exact B]). split; [reflexivity|]. eapply IH. exact B.
Qed.

(** ** the XPaths *)
(** predicates that look only at the attributes of the node *)
Fixpoint own_attrs (p : expr) : bool :=
  match p with
  | EStep ax (NameTest _ _) [] => attr_axis ax
  | EBin l op r =>
    if str_mem op [u "="; u "!="] then match l, r with EStep ax (NameTest _ _) [], ELit _ => attr_axis ax | _, _ => false end
    else str_mem op [u "and"; u "or"] && own_attrs l && own_attrs r
  | ECall None n [x] => str_eqb n (u "not") && own_attrs x
  | _ => false
  end%bool.
Definition is_dot (e : expr) : bool := match e with EAbbrev x => str_eqb x (u ".") | _ => false end.
Fixpoint plain (e : expr) : bool :=
  match e with
  | EStep ax (NameTest _ _) ps => negb (attr_axis ax) && forallb own_attrs ps
  | EBin l op r => if str_mem op [u "/"; u "//"] then (plain l || is_dot l) && plain r else str_eqb op (u "|") && plain l && plain r
  | _ => false
  end%bool.

Definition is_elem (i : item) : Prop := match i with IElem _ _ => True | _ => False end.
Lemma child_up root c n b x : child (IElem c n) (IElem b x) -> get_at c root = Some n -> exists k, b = c ++ [k] /\ get_at b root = Some x.
Proof. intros H G. inversion H as [a0 q ats t ks k x0 tl Hk| |]; subst. exists k. split; [reflexivity|]. eapply get_snoc; [exact G|exact Hk]. Qed.
Lemma get_app b : forall c (root : node), get_at (b ++ c) root = match get_at b root with Some n => get_at c n | None => None end.
Proof. induction b as [|k b IH]; intros c root; cbn [app get_at]; [reflexivity|]. destruct (nth_error (kids_of root) k); [apply IH|reflexivity]. Qed.
Lemma child_down root c n k x : get_at c root = Some n -> get_at (c ++ [k]) root = Some x -> child (IElem c n) (IElem (c ++ [k]) x).
Proof.
  intros G H. rewrite get_app, G in H. cbn [get_at] in H. destruct (nth_error (kids_of n) k) as [[y tl]|] eqn:K; [|discriminate]. cbn [fst] in H. injection H as ->. destruct n as [q ats t ks|s]; [|destruct k; discriminate].
  econstructor. exact K.
Qed.
Lemma child_source c i : child c i -> is_elem c. Proof. now destruct 1. Qed.
Lemma child_below c i : child c i -> exists r, place_of i = place_of c ++ r.
Proof. destruct 1; cbn [place_of]; [now exists [k]|exists []; now rewrite app_nil_r|now exists [k]]. Qed.
Lemma inside_below c i : inside c i -> exists r, place_of i = place_of c ++ r.
Proof. induction 1 as [c i H|c x i H _ [r IH]]; [now apply child_below|]. apply child_below in H as [r0 H]. exists (r0 ++ r). rewrite IH, H. now rewrite app_assoc. Qed.
Lemma inside_source c i : inside c i -> is_elem c. Proof. destruct 1 as [c i H|c x i H _]; exact (child_source _ _ H). Qed.
Lemma step_below E ax t c i : step_to E ax t c i -> exists r, place_of i = place_of c ++ r.
Proof.
  destruct 1 as [ax t c i _ H _|ax p n c i _ H _|t c _|t c i H _|t c i [->|H] _].
  - now apply child_below.
  - destruct H. exists []. cbn. now rewrite app_nil_r.
  - exists []. now rewrite app_nil_r.
  - now apply inside_below.
  - exists []. now rewrite app_nil_r.
  - now apply inside_below.
Qed.

Lemma step_set_sub root E ax t ps c pos size i : set_of (means root E (EStep ax t ps) c pos size) i -> step_to E ax t c i.
Proof. cbn [means set_of]. apply folded_sub. Qed.
Definition slashes (op : str) : Prop := op = u "/" \/ op = u "//".
Lemma plain_bin l op r : plain (EBin l op r) = true -> (slashes op /\ (plain l = true \/ l = EAbbrev (u ".")) /\ plain r = true) \/ (op = u "|" /\ plain l = true /\ plain r = true).
Proof.
  cbn [plain]. unfold str_mem. cbn [existsb]. destruct (str_eqb op (u "/")) eqn:O1; cbn [orb]; [|destruct (str_eqb op (u "//")) eqn:O2; cbn [orb]].
  3: { intros H. apply andb_prop in H as [H H2]. apply andb_prop in H as [H0 H1]. apply str_eqb_eq in H0. right. now repeat split. }
  1: apply str_eqb_eq in O1. 2: apply str_eqb_eq in O2.
  all: intros H; apply andb_prop in H as [H H2]; left; split; [unfold slashes; auto|]; split; [|exact H2]; apply orb_prop in H as [H|H]; [now left|right]; destruct l; try discriminate; cbn [is_dot] in H; apply str_eqb_eq in H; now subst.
Qed.
Lemma means_slash root E l r c pos size i : set_of (means root E (EBin l (u "/") r) c pos size) i <-> exists x, set_of (means root E l c pos size) x /\ set_of (means root E r x 1 1) i.
Proof. reflexivity. Qed.
Lemma means_deep root E l r c pos size i : set_of (means root E (EBin l (u "//") r) c pos size) i <-> exists x h, set_of (means root E l c pos size) x /\ (x = h \/ inside x h) /\ set_of (means root E r h 1 1) i.
Proof. reflexivity. Qed.
Lemma means_union root E l r c pos size i : set_of (means root E (EBin l (u "|") r) c pos size) i <-> set_of (means root E l c pos size) i \/ set_of (means root E r c pos size) i.
Proof. reflexivity. Qed.
Lemma means_dot root E c pos size i : set_of (means root E (EAbbrev (u ".")) c pos size) i <-> c = i.
Proof. reflexivity. Qed.
Lemma plain_below root E e : plain e = true -> forall c pos size i, set_of (means root E e c pos size) i -> exists r, place_of i = place_of c ++ r.
Proof.
  induction e as [| | | |l op r IHl IHr|b ps IHb H| | |ax t ps H|ab|p n|p n args H] using expr_ind'; try discriminate; intros P c pos size i Hi.
  - assert (L : plain l = true \/ l = EAbbrev (u ".") -> forall x, set_of (means root E l c pos size) x -> exists q, place_of x = place_of c ++ q).
    { intros [Pl| ->] x Hx; [eapply IHl; eassumption|]. apply means_dot in Hx. subst. exists []. now rewrite app_nil_r. }
    apply plain_bin in P as [([->| ->] & Pl & Pr)|(-> & Pl & Pr)].
    + apply means_slash in Hi as (x & Hx & Hi). destruct (L Pl x Hx) as [q1 E1]. destruct (IHr Pr _ _ _ _ Hi) as [q2 E2]. exists (q1 ++ q2). rewrite E2, E1. now rewrite app_assoc.
    + apply means_deep in Hi as (x & h & Hx & Hh & Hi). destruct (L Pl x Hx) as [q1 E1]. destruct (IHr Pr _ _ _ _ Hi) as [q2 E2]. destruct Hh as [->|Hh].
      * exists (q1 ++ q2). rewrite E2, E1. now rewrite app_assoc.
      * apply inside_below in Hh as [q3 E3]. exists (q1 ++ q3 ++ q2). rewrite E2, E3, E1. now rewrite !app_assoc.
    + apply means_union in Hi as [Hi|Hi]; [eapply IHl|eapply IHr]; eassumption.
  - apply step_set_sub in Hi. eapply step_below. exact Hi.
Qed.
(** nothing is selected from an attribute or a text *)
Lemma step_dead E ax p n c i : step_to E ax (NameTest p n) c i -> ~ is_elem c -> False.
Proof.
  intros H Nc. inversion H as [ax0 t0 c0 i0 _ C W|ax0 p0 n0 c0 i0 _ C W|t0 c0 W|t0 c0 i0 C W|t0 c0 i0 [C|C] W]; subst.
  - exact (Nc (child_source _ _ C)).
  - destruct C. apply Nc. exact I.
  - cbn [wanted] in W. destruct W. apply Nc. exact I.
  - exact (Nc (inside_source _ _ C)).
  - cbn [wanted] in W. destruct W. apply Nc. exact I.
  - exact (Nc (inside_source _ _ C)).
Qed.
Lemma plain_dead root E e : plain e = true -> forall c pos size i, set_of (means root E e c pos size) i -> is_elem c.
Proof.
  induction e as [| | | |l op r IHl IHr|b ps IHb H| | |ax t ps H|ab|p n|p n args H] using expr_ind'; try discriminate; intros P c pos size i Hi.
  - apply plain_bin in P as [([->| ->] & Pl & Pr)|(-> & Pl & Pr)].
    + apply means_slash in Hi as (x & Hx & Hi). destruct Pl as [Pl| ->]; [eapply IHl; eassumption|]. apply means_dot in Hx. subst. eapply IHr; eassumption.
    + apply means_deep in Hi as (x & h & Hx & Hh & Hi). destruct Pl as [Pl| ->]; [eapply IHl; eassumption|]. apply means_dot in Hx. subst. destruct Hh as [->|Hh]; [eapply IHr; eassumption|exact (inside_source _ _ Hh)].
    + apply means_union in Hi as [Hi|Hi]; [eapply IHl|eapply IHr]; eassumption.
  - cbn [plain] in P. destruct t as [p n|]; [|discriminate]. apply step_set_sub in Hi. destruct c as [b x| |]; [exact I| |]; exfalso; (eapply step_dead; [exact Hi|intros []]).
Qed.

(** ** predicates that do not ask for a position just select *)
Definition ordered (root : node) (X : item -> Prop) : Prop := exists l, document_order root l /\ forall i, In i l <-> X i.
Lemma order_nodup root l : attributes_distinct root -> document_order root l -> NoDup l.
Proof. intros D. induction 1 as [|i l _ F _ IH]; constructor; [|exact IH]. intros H. rewrite Forall_forall in F. exact (precedes_asym root i i D (F _ H) (F _ H)). Qed.
Lemma ordered_place root X i : attributes_distinct root -> ordered root X -> X i -> exists pos size, position root X i pos /\ how_many X size.
Proof.
  intros D (l & O & M) Hi. apply M in Hi. assert (Hs : how_many X (List.length l)) by (exists l; split; [now apply order_nodup with (root := root)|]; now split).
  assert (B : exists l1, document_order root l1 /\ forall k, In k l1 <-> In k l /\ precedes root k i).
  { clear M Hs. induction O as [|x l Hr F O IH]; [destruct Hi|]. destruct Hi as [->|Hi].
    - exists []. split; [constructor|]. intros k. split; [intros []|]. intros [[->|Hk] Hp]; [exact (precedes_asym root k k D Hp Hp)|]. rewrite Forall_forall in F. exact (precedes_asym root i k D (F _ Hk) Hp).
    - destruct (IH Hi) as (l1 & O1 & M1). exists (x :: l1). split.
      + constructor; [exact Hr| |exact O1]. apply Forall_forall. intros k Hk. apply M1 in Hk as [Hk _]. rewrite Forall_forall in F. now apply F.
      + intros k. cbn [In]. rewrite M1. split; [intros [->|[Hk Hp]]; [|tauto]|tauto]. split; [now left|]. rewrite Forall_forall in F. now apply F. }
  destruct B as (l1 & O1 & M1). exists (S (List.length l1)), (List.length l). split; [|exact Hs]. exists (List.length l1). split; [|reflexivity]. exists l1. split; [now apply order_nodup with (root := root)|]. split; [|reflexivity].
  intros k. rewrite M1, M. reflexivity.
Qed.
Lemma kept_just root P X (Q : item -> Prop) i : attributes_distinct root -> ordered root X -> (forall k pos size, true_at (P k pos size) pos <-> Q k) -> (kept_by root P X i <-> X i /\ Q i).
Proof.
  intros D O H. unfold kept_by. split.
  - intros (Hi & pos & size & _ & _ & T). split; [exact Hi|]. now apply (H i pos size).
  - intros (Hi & Hq). split; [exact Hi|]. destruct (ordered_place root X i D O Hi) as (pos & size & Hp & Hz). exists pos, size. repeat split; auto. now apply H.
Qed.
Lemma ordered_filter root X (Q : item -> Prop) : ordered root X -> (forall i r, X i -> route root i r -> Q i \/ ~ Q i) -> ordered root (fun i => X i /\ Q i).
Proof.
  intros (l & O & M) Dc. assert (B : exists l1, document_order root l1 /\ forall k, In k l1 <-> In k l /\ Q k).
  { assert (Dc' : forall i r, In i l -> route root i r -> Q i \/ ~ Q i) by (intros i r Hi; apply Dc; now apply M). clear M Dc. induction O as [|x l Hr F O IH]; [exists []; split; [constructor|]; intros k; cbn [In]; tauto|].
    destruct IH as (l1 & O1 & M1); [intros i r Hi; apply Dc'; now right|]. destruct Hr as [r Hr]. destruct (Dc' x r (or_introl eq_refl) Hr) as [Qx|Qx].
    - exists (x :: l1). split.
      + constructor; [now exists r| |exact O1]. apply Forall_forall. intros k Hk. apply M1 in Hk as [Hk _]. rewrite Forall_forall in F. now apply F.
      + intros k. cbn [In]. rewrite M1. split; [intros [->|[Hk Hp]]; tauto|tauto].
    - exists l1. split; [exact O1|]. intros k. cbn [In]. rewrite M1. split; [tauto|]. intros [[->|Hk] Hq]; [contradiction|tauto]. }
  destruct B as (l1 & O1 & M1). exists l1. split; [exact O1|]. intros i. rewrite M1, M. reflexivity.
Qed.
Definition boolish (v : meaning) : Prop := match v with Nodes _ | Bool _ => True | _ => False end.
Lemma own_kind root E p : own_attrs p = true -> forall i pos size, boolish (means root E p i pos size).
Proof.
  induction p as [| | | |l op r IHl IHr|b ps IHb H| | |ax t ps H|ab|p n|p n args H] using expr_ind'; try discriminate; intros P i pos size.
  - cbn [own_attrs] in P. unfold str_mem in P. cbn [existsb] in P. destruct (str_eqb op (u "=")) eqn:O1; [apply str_eqb_eq in O1; subst; exact I|]. destruct (str_eqb op (u "!=")) eqn:O2; [apply str_eqb_eq in O2; subst; exact I|]. cbn [orb] in P.
    destruct (str_eqb op (u "and")) eqn:O3; [apply str_eqb_eq in O3; subst; exact I|]. destruct (str_eqb op (u "or")) eqn:O4; [apply str_eqb_eq in O4; subst; exact I|discriminate].
  - exact I.
  - destruct p; [discriminate|]. cbn [own_attrs] in P. destruct args as [|x [|]]; try discriminate. apply andb_prop in P as [P _]. apply str_eqb_eq in P. subst. exact I.
Qed.
(** what such a predicate says depends on the attributes only *)
Definition same_attributes (i i' : item) : Prop := match i, i' with IElem _ n, IElem _ n' => tag_of n = tag_of n' /\ attrs_of n = attrs_of n' | _, _ => False end.
Lemma same_attr_step E ax p n i i' : attr_axis ax = true -> same_attributes i i' -> forall s, (exists x, step_to E ax (NameTest p n) i x /\ string_value x s) -> exists x, step_to E ax (NameTest p n) i' x /\ string_value x s.
Proof.
  intros Ha S0 s (x & Hx & Hv). destruct i as [b m| |], i' as [b' m'| |]; try contradiction. destruct S0 as [St Sa]. inversion Hx as [ax0 t0 c0 i0 Hax C W|ax0 p0 n0 c0 i0 Hax C W|t0 c0 W|t0 c0 i0 C W|t0 c0 i0 C W]; subst; try (destruct Hax as [->| ->]; discriminate); try discriminate.
  inversion C as [a0 q ats t ks q' v I0]; subst. destruct m' as [q2 ats2 t2 ks2|]; [|discriminate]. cbn [attrs_of] in Sa. subst ats2. exists (IAttr b' q' v). split.
  - apply to_attribute; [exact Hax|now constructor|]. inversion W. now constructor.
  - inversion Hv. constructor.
Qed.
Lemma same_attributes_sym i i' : same_attributes i i' -> same_attributes i' i.
Proof. destruct i, i'; cbn; try tauto. intros [-> ->]. auto. Qed.
Lemma step_value E ax p n i x : attr_axis ax = true -> step_to E ax (NameTest p n) i x -> exists s, string_value x s.
Proof. intros Ha Hx. inversion Hx as [ax0 t0 c0 i0 Hax C W|ax0 p0 n0 c0 i0 Hax C W|t0 c0 W|t0 c0 i0 C W|t0 c0 i0 C W]; subst; try (destruct Hax as [->| ->]; discriminate); try discriminate. destruct C. eexists. constructor. Qed.
Lemma own_same root root' E p : own_attrs p = true -> forall i i' pos size pos' size', same_attributes i i' -> true_of (means root E p i pos size) -> true_of (means root' E p i' pos' size').
Proof.
  assert (W : forall p, own_attrs p = true -> forall root root' i i' pos size pos' size', same_attributes i i' -> true_of (means root E p i pos size) -> true_of (means root' E p i' pos' size')).
  2: intros; eapply W; eassumption.
  clear. induction p as [| | | |l op r IHl IHr|b ps IHb H| | |ax t ps H|ab|p n|p n args H] using expr_ind'; try discriminate; intros P root root' i i' pos size pos' size' S0 T.
  - cbn [own_attrs] in P. unfold str_mem in P. cbn [existsb] in P. destruct (str_eqb op (u "=")) eqn:O1; cbn [orb] in P; [|destruct (str_eqb op (u "!=")) eqn:O2; cbn [orb] in P].
    + apply str_eqb_eq in O1. subst op. destruct l as [| | | | | | |ax t ps|ab| |]; try discriminate. destruct t as [p n|]; [|discriminate]. destruct ps; [|discriminate]. destruct r as [s| | | | | | | | | |]; try discriminate.
      change (exists x s0, step_to E ax (NameTest p n) i x /\ string_value x s0 /\ s = s0) in T. change (exists x s0, step_to E ax (NameTest p n) i' x /\ string_value x s0 /\ s = s0).
      destruct T as (x & s0 & Hx & Hv & ->). destruct (same_attr_step E ax p n i i' P S0 s0 (ex_intro _ x (conj Hx Hv))) as (y & Hy & Hw). now exists y, s0.
    + apply str_eqb_eq in O2. subst op. destruct l as [| | | | | | |ax t ps|ab| |]; try discriminate. destruct t as [p n|]; [|discriminate]. destruct ps; [|discriminate]. destruct r as [s| | | | | | | | | |]; try discriminate.
      change (exists x s0 s1, step_to E ax (NameTest p n) i x /\ string_value x s0 /\ s = s1 /\ s0 <> s1) in T. change (exists x s0 s1, step_to E ax (NameTest p n) i' x /\ string_value x s0 /\ s = s1 /\ s0 <> s1).
      destruct T as (x & s0 & s1 & Hx & Hv & <- & Ns). destruct (same_attr_step E ax p n i i' P S0 s0 (ex_intro _ x (conj Hx Hv))) as (y & Hy & Hw). now exists y, s0, s.
    + apply andb_prop in P as [P P2]. apply andb_prop in P as [P0 P1]. destruct (str_eqb op (u "and")) eqn:O3; cbn [orb] in P0.
      * apply str_eqb_eq in O3. subst op. change (true_of (means root E l i pos size) /\ true_of (means root E r i pos size)) in T. change (true_of (means root' E l i' pos' size') /\ true_of (means root' E r i' pos' size')).
        destruct T as [T1 T2]. split; [eapply IHl|eapply IHr]; eassumption.
      * destruct (str_eqb op (u "or")) eqn:O4; [|discriminate]. apply str_eqb_eq in O4. subst op. change (true_of (means root E l i pos size) \/ true_of (means root E r i pos size)) in T. change (true_of (means root' E l i' pos' size') \/ true_of (means root' E r i' pos' size')).
        destruct T as [T|T]; [left; eapply IHl|right; eapply IHr]; eassumption.
  - cbn [own_attrs] in P. destruct t as [p n|]; [|discriminate]. destruct ps; [|discriminate]. change (exists x, step_to E ax (NameTest p n) i x) in T. change (exists x, step_to E ax (NameTest p n) i' x). destruct T as [x Hx].
    destruct (step_value E ax p n i x P Hx) as [s Hs]. destruct (same_attr_step E ax p n i i' P S0 s (ex_intro _ x (conj Hx Hs))) as (y & Hy & _). now exists y.
  - destruct p; [discriminate|]. cbn [own_attrs] in P. destruct args as [|x [|]]; try discriminate. apply andb_prop in P as [P P1]. apply str_eqb_eq in P. subst. change (~ true_of (means root E x i pos size)) in T. change (~ true_of (means root' E x i' pos' size')).
    intros T'. apply T. apply Forall_inv in H. eapply H; [exact P1|exact (same_attributes_sym _ _ S0)|exact T'].
Qed.

Lemma own_decided root E p i r : attributes_distinct root -> readable E p = true -> own_attrs p = true -> route root i r -> true_of (means root E p i 1 1) \/ ~ true_of (means root E p i 1 1).
Proof.
  intros D R P Hr. unfold readable in R. apply is_some_ty in R as [t Ht]. pose proof (proj1 (fev_means root D E p t Ht (r, i) 1 1 Hr)) as M. pose proof (own_kind root E p P i 1 1) as K. cbn [snd] in M.
  destruct (means root E p i 1 1) as [X|is|is|Q|]; cbn [boolish true_of] in *; try contradiction.
  - destruct (fev E p (r, i) 1 1) as [l| |[[z [|]]|]|]; try contradiction. destruct l as [|k l]; [right; intros [x Hx]; exact (rep_empty root X M x Hx)|]. left. exists (snd k). apply M. now left.
  - destruct (fev E p (r, i) 1 1) as [l| |[[z [|]]|]|b]; try contradiction. cbn [kmeans] in M. destruct b; [left; now apply M|right; intros H; now apply M in H].
Qed.
Lemma own_here root E p i : own_attrs p = true -> (exists b n, i = IElem b n) -> forall pos size, true_at (means root E p i pos size) pos <-> true_of (means root E p i 1 1).
Proof.
  intros P (b & n & ->) pos size. assert (T : true_at (means root E p (IElem b n) pos size) pos = true_of (means root E p (IElem b n) pos size)) by (pose proof (own_kind root E p P (IElem b n) pos size) as K; destruct (means root E p (IElem b n) pos size); [reflexivity|reflexivity|destruct K|reflexivity|reflexivity]).
  rewrite T. split; (eapply own_same; [exact P|now split]).
Qed.
Lemma kept_ext root P X X' i : (forall k, X k <-> X' k) -> kept_by root P X i <-> kept_by root P X' i.
Proof.
  assert (W : forall X X' i, (forall k, X k <-> X' k) -> kept_by root P X i -> kept_by root P X' i).
  { clear. intros X X' i H (Hi & pos & size & (n & (l & Nd & Ml & Hn) & Hp) & (l2 & Nd2 & Ml2 & Hn2) & T). split; [now apply H|]. exists pos, size. split; [|split; [|exact T]].
    - exists n. split; [|exact Hp]. exists l. split; [exact Nd|]. split; [|exact Hn]. intros k. rewrite Ml, H. reflexivity.
    - exists l2. split; [exact Nd2|]. split; [|exact Hn2]. intros k. rewrite Ml2, H. reflexivity. }
  intros H. split; apply W; intros k; [apply H|now rewrite H].
Qed.
Lemma preds_ext root E ps : forall X X' i, (forall k, X k <-> X' k) -> fold_left (fun X p => kept_by root (fun i pos size => means root E p i pos size) X) ps X i <-> fold_left (fun X p => kept_by root (fun i pos size => means root E p i pos size) X) ps X' i.
Proof. induction ps as [|p ps IH]; intros X X' i H; cbn [fold_left]; [apply H|]. apply IH. intros k. now apply kept_ext. Qed.
Lemma preds_just root E : attributes_distinct root -> forall ps X i, forallb own_attrs ps = true -> forallb (fun p => is_some (ty E p)) ps = true -> ordered root X -> (forall k, X k -> ps <> [] -> exists b n, k = IElem b n) ->
  (fold_left (fun X p => kept_by root (fun i pos size => means root E p i pos size) X) ps X i <-> X i /\ forall p, In p ps -> true_of (means root E p i 1 1)).
Proof.
  intros D. induction ps as [|p ps IH]; intros X i Ho Ht O El; cbn [fold_left]; [split; [intros H; split; [exact H|intros p []]|tauto]|]. cbn [forallb] in Ho, Ht. apply andb_prop in Ho as [Hp Ho]. apply andb_prop in Ht as [Tp Ht].
  assert (El' : forall k, X k -> exists b n, k = IElem b n) by (intros k Hk; apply El; [exact Hk|discriminate]).
  assert (K : forall k, kept_by root (fun i pos size => means root E p i pos size) X k <-> X k /\ true_of (means root E p k 1 1)).
  { intros k. unfold kept_by. split.
    - intros (Hk & pos & size & _ & _ & T). split; [exact Hk|]. now apply (own_here root E p k Hp (El' k Hk) pos size).
    - intros (Hk & T). split; [exact Hk|]. destruct (ordered_place root X k D O Hk) as (pos & size & Hp' & Hz). exists pos, size. repeat split; auto. now apply own_here; [|apply El'|]. }
  rewrite (preds_ext root E ps _ (fun k => X k /\ true_of (means root E p k 1 1)) i K). rewrite (IH (fun k => X k /\ true_of (means root E p k 1 1)) i Ho Ht).
  - split.
    + intros [[H1 H2] H3]. split; [exact H1|]. intros p' [<-|Hp']; [exact H2|now apply H3].
    + intros [H1 H2]. split; [split; [exact H1|apply H2; now left]|]. intros p' Hp'. apply H2. now right.
  - apply ordered_filter; [exact O|]. intros k r Hk Hr. exact (own_decided root E p k r D Tp Hp Hr).
  - intros k [Hk _] _. now apply El'.
Qed.

(** ** a step, before and after *)
Lemma step_elem E ax p n c i : attr_axis ax = false -> step_to E ax (NameTest p n) c i -> is_element E p n i.
Proof. intros Ha H. inversion H as [ax0 t0 c0 i0 _ C W|ax0 p0 n0 c0 i0 Hax C W|t0 c0 W|t0 c0 i0 C W|t0 c0 i0 C W]; subst; try exact W. destruct Hax as [->| ->]; discriminate. Qed.
Lemma step_just root E ax p n ps b x pos size i : attributes_distinct root -> readable E (EStep ax (NameTest p n) ps) = true -> plain (EStep ax (NameTest p n) ps) = true -> get_at b root = Some x ->
  (set_of (means root E (EStep ax (NameTest p n) ps) (IElem b x) pos size) i <-> step_to E ax (NameTest p n) (IElem b x) i /\ forall q, In q ps -> true_of (means root E q i 1 1)).
Proof.
  intros D R P G. cbn [plain] in P. apply andb_prop in P as [Pa Po]. apply negb_true_iff in Pa. unfold readable in R. cbn [ty] in R. destruct (is_some (axis_of ax) && sup_test E (NameTest p n) && forallb (fun p => is_some (ty E p)) ps)%bool eqn:T; [|discriminate].
  apply andb_prop in T as [T Tp]. change (set_of (means root E (EStep ax (NameTest p n) ps) (IElem b x) pos size) i) with (fold_left (fun X p => kept_by root (fun i pos size => means root E p i pos size) X) ps (step_to E ax (NameTest p n) (IElem b x)) i).
  apply preds_just; auto.
  - assert (T0 : ty E (EStep ax (NameTest p n) []) = Some TNodes) by (cbn [ty forallb]; rewrite T; reflexivity). pose proof (proj1 (fev_means root D E _ _ T0 (to_elem b, IElem b x) 1 1 (route_elem root b x G))) as M. cbn [snd] in M.
    cbn [means fold_left] in M. destruct (fev E (EStep ax (NameTest p n) []) (to_elem b, IElem b x) 1 1) as [l| |[[z [|]]|]|]; try contradiction. destruct M as (S0 & V & M). exists (map snd l). split; [now apply sorted_order|exact M].
  - intros k Hk _. apply step_elem in Hk; [|exact Pa]. destruct Hk. eauto.
Qed.

Section Sim.
Context (E : env) (d : node) (a : addr) (j : nat).
Let d' := upd_at a (remove_kid j) d.
Context (D : attributes_distinct d).
Definition stays (i : item) : Prop := ~ gone a j (place_of i).
Inductive lifts : item -> item -> Prop :=
| lift_elem c n' n : get_at c d' = Some n' -> get_at (un a j c) d = Some n -> lifts (IElem c n') (IElem (un a j c) n).
Lemma near_at c n' n : get_at c d' = Some n' -> get_at (un a j c) d = Some n -> near n' n.
Proof. intros H G. pose proof (un_get j a c d) as U. fold d' in U. now rewrite H, G in U. Qed.
Lemma lift_up c n' : get_at c d' = Some n' -> exists n, get_at (un a j c) d = Some n.
Proof. intros H. pose proof (un_get j a c d) as U. fold d' in U. rewrite H in U. destruct (get_at (un a j c) d) as [n|]; [now exists n|destruct U]. Qed.
Lemma lift_down c n : get_at (un a j c) d = Some n -> exists n', get_at c d' = Some n'.
Proof. intros H. pose proof (un_get j a c d) as U. fold d' in U. rewrite H in U. destruct (get_at c d') as [n'|]; [now exists n'|destruct U]. Qed.
Lemma removed_distinct : attributes_distinct d'.
Proof. intros c n' H. destruct (lift_up c n' H) as [n Hn]. destruct (near_at c n' n H Hn) as (_ & Ea & _). rewrite Ea. exact (D _ _ Hn). Qed.
Lemma lifts_attributes i' i : lifts i' i -> same_attributes i' i.
Proof. intros [c n' n H G]. destruct (near_at c n' n H G) as (T & A & _). now split. Qed.
Lemma lifts_element i' i p n : lifts i' i -> is_element E p n i' <-> is_element E p n i.
Proof.
  intros [c n' m H G]. destruct (near_at c n' m H G) as (T & _). split; intros W; inversion W; subst.
  - destruct m as [q2 ats2 t2 ks2|]; [|discriminate]. cbn in T. injection T as <-. now constructor.
  - destruct n' as [q2 ats2 t2 ks2|]; [|discriminate]. cbn in T. injection T as ->. now constructor.
Qed.
Lemma child_to i' i x' : lifts i' i -> child i' x' -> is_elem x' -> exists x, lifts x' x /\ child i x.
Proof.
  intros [c n' n H G] C Ex. destruct x' as [b x'| |]; try contradiction. destruct (child_up d' c n' b x' C H) as (k & -> & Gx). destruct (lift_up _ _ Gx) as [x Hx]. exists (IElem (un a j (c ++ [k])) x). split; [now constructor|].
  destruct (un_snoc j c a k) as [k' Ek]. rewrite Ek in *. apply (child_down d); auto.
Qed.
Lemma child_from i' i x : lifts i' i -> child i x -> is_elem x -> stays x -> exists x', lifts x' x /\ child i' x'.
Proof.
  intros [c n' n H G] C Ex St. destruct x as [b x| |]; try contradiction. destruct (child_up d _ n b x C G) as (k & -> & Gx). destruct (un_parent j a c k St) as [k0 Ek]. rewrite <- Ek in Gx. destruct (lift_down _ _ Gx) as [x' Hx]. exists (IElem (c ++ [k0]) x'). split.
  - rewrite <- Ek. now constructor.
  - apply (child_down d'); auto.
Qed.
Lemma gone_below b r : gone a j b -> gone a j (b ++ r).
Proof. intros [s ->]. exists (s ++ r). now rewrite <- app_assoc. Qed.
Lemma inside_to i' x' : inside i' x' -> is_elem x' -> forall i, lifts i' i -> exists x, lifts x' x /\ inside i x.
Proof.
  induction 1 as [c x C|c y x C I0 IH]; intros Ex i L.
  - destruct (child_to _ _ _ L C Ex) as (z & Lz & Cz). exists z. split; [exact Lz|now constructor].
  - destruct (child_to _ _ _ L C (inside_source _ _ I0)) as (z & Lz & Cz). destruct (IH Ex z Lz) as (w & Lw & Iw). exists w. split; [exact Lw|]. now apply deeper with z.
Qed.
Lemma inside_from i x : inside i x -> is_elem x -> stays x -> forall i', lifts i' i -> exists x', lifts x' x /\ inside i' x'.
Proof.
  induction 1 as [c x C|c y x C I0 IH]; intros Ex St i' L.
  - destruct (child_from _ _ _ L C Ex St) as (z & Lz & Cz). exists z. split; [exact Lz|now constructor].
  - assert (Sy : stays y) by (intros Gy; apply St; destruct (inside_below _ _ I0) as [r ->]; now apply gone_below).
    destruct (child_from _ _ _ L C (inside_source _ _ I0) Sy) as (z & Lz & Cz). destruct (IH Ex St z Lz) as (w & Lw & Iw). exists w. split; [exact Lw|]. now apply deeper with z.
Qed.
Lemma element_is p n i : is_element E p n i -> is_elem i. Proof. now destruct 1. Qed.
Lemma step_up ax p n i' i x' : attr_axis ax = false -> lifts i' i -> step_to E ax (NameTest p n) i' x' -> exists x, lifts x' x /\ step_to E ax (NameTest p n) i x.
Proof.
  intros Ha L H. pose proof (step_elem E ax p n i' x' Ha H) as Wx. inversion H as [ax0 t0 c0 i0 Hax C W|ax0 p0 n0 c0 i0 Hax C W|t0 c0 W|t0 c0 i0 C W|t0 c0 i0 C W]; subst.
  - destruct (child_to _ _ _ L C (element_is _ _ _ W)) as (z & Lz & Cz). exists z. split; [exact Lz|]. apply to_child; auto. now apply (lifts_element _ _ p n Lz).
  - destruct Hax as [->| ->]; discriminate.
  - exists i. split; [exact L|]. apply to_self. now apply (lifts_element _ _ p n L).
  - destruct (inside_to _ _ C (element_is _ _ _ W) i L) as (z & Lz & Cz). exists z. split; [exact Lz|]. apply to_inside; auto. now apply (lifts_element _ _ p n Lz).
  - destruct C as [->|C].
    + exists i. split; [exact L|]. apply to_inside_or_self; auto. now apply (lifts_element _ _ p n L).
    + destruct (inside_to _ _ C (element_is _ _ _ W) i L) as (z & Lz & Cz). exists z. split; [exact Lz|]. apply to_inside_or_self; auto. now apply (lifts_element _ _ p n Lz).
Qed.
Lemma step_down ax p n i' i x : attr_axis ax = false -> lifts i' i -> step_to E ax (NameTest p n) i x -> stays x -> exists x', lifts x' x /\ step_to E ax (NameTest p n) i' x'.
Proof.
  intros Ha L H St. pose proof (step_elem E ax p n i x Ha H) as Wx. inversion H as [ax0 t0 c0 i0 Hax C W|ax0 p0 n0 c0 i0 Hax C W|t0 c0 W|t0 c0 i0 C W|t0 c0 i0 C W]; subst.
  - destruct (child_from _ _ _ L C (element_is _ _ _ W) St) as (z & Lz & Cz). exists z. split; [exact Lz|]. apply to_child; auto. now apply (lifts_element _ _ p n Lz).
  - destruct Hax as [->| ->]; discriminate.
  - exists i'. split; [exact L|]. apply to_self. now apply (lifts_element _ _ p n L).
  - destruct (inside_from _ _ C (element_is _ _ _ W) St i' L) as (z & Lz & Cz). exists z. split; [exact Lz|]. apply to_inside; auto. now apply (lifts_element _ _ p n Lz).
  - destruct C as [->|C].
    + exists i'. split; [exact L|]. apply to_inside_or_self; auto. now apply (lifts_element _ _ p n L).
    + destruct (inside_from _ _ C (element_is _ _ _ W) St i' L) as (z & Lz & Cz). exists z. split; [exact Lz|]. apply to_inside_or_self; auto. now apply (lifts_element _ _ p n Lz).
Qed.

(** ** a whole XPath *)
Lemma bin_typed l op r : readable E (EBin l op r) = true -> slashes op \/ op = u "|" -> (readable E l = true /\ readable E r = true).
Proof.
  unfold readable at 1. intros R O. assert (N0 : (is_nodes (ty E l) && is_nodes (ty E r))%bool = true).
  { destruct O as [[->| ->]| ->]; cbn [ty] in R.
    - change (str_eqb (u "/") (u "/")) with true in R. cbn iota in R. now destruct (is_nodes (ty E l) && is_nodes (ty E r))%bool.
    - change (str_eqb (u "//") (u "/")) with false in R. change (str_eqb (u "//") (u "//")) with true in R. cbn iota in R. now destruct (is_nodes (ty E l) && is_nodes (ty E r))%bool.
    - change (str_eqb (u "|") (u "/")) with false in R. change (str_eqb (u "|") (u "//")) with false in R. change (str_eqb (u "|") (u "|")) with true in R. cbn iota in R. now destruct (is_nodes (ty E l) && is_nodes (ty E r))%bool. }
  apply andb_prop in N0 as [N1 N2]. split; [apply (typed_nodes E l N1)|apply (typed_nodes E r N2)].
Qed.
Lemma sim_up e : plain e = true -> readable E e = true -> forall i' i pos size x', lifts i' i -> set_of (means d' E e i' pos size) x' -> exists x, lifts x' x /\ set_of (means d E e i pos size) x.
Proof.
  induction e as [| | | |l op r IHl IHr|b ps IHb H| | |ax t ps H|ab|p n|p n args H] using expr_ind'; try discriminate; intros P R i' i pos size x' L Hx.
  - assert (Hl : plain l = true \/ l = EAbbrev (u ".") -> readable E l = true -> forall y', set_of (means d' E l i' pos size) y' -> exists y, lifts y' y /\ set_of (means d E l i pos size) y).
    { intros [Pl| ->] Rl y' Hy; [eapply IHl; eassumption|]. apply means_dot in Hy. subst y'. exists i. now split. }
    apply plain_bin in P as [(O & Pl & Pr)|(-> & Pl & Pr)].
    + destruct (bin_typed l op r R (or_introl O)) as [Rl Rr]. destruct O as [->| ->].
      * apply means_slash in Hx as (y' & Hy & Hx). destruct (Hl Pl Rl y' Hy) as (y & Ly & Hy'). destruct (IHr Pr Rr _ _ 1 1 _ Ly Hx) as (x & Lx & Hx'). exists x. split; [exact Lx|]. apply means_slash. now exists y.
      * apply means_deep in Hx as (y' & h' & Hy & Hh & Hx). destruct (Hl Pl Rl y' Hy) as (y & Ly & Hy'). pose proof (plain_dead d' E r Pr _ _ _ _ Hx) as Eh. destruct Hh as [->|Hh].
        -- destruct (IHr Pr Rr _ _ 1 1 _ Ly Hx) as (x & Lx & Hx'). exists x. split; [exact Lx|]. apply means_deep. exists y, y. auto.
        -- destruct (inside_to _ _ Hh Eh y Ly) as (h & Lh & Ih). destruct (IHr Pr Rr _ _ 1 1 _ Lh Hx) as (x & Lx & Hx'). exists x. split; [exact Lx|]. apply means_deep. exists y, h. auto.
    + destruct (bin_typed l _ r R (or_intror eq_refl)) as [Rl Rr]. apply means_union in Hx as [Hx|Hx].
      * destruct (IHl Pl Rl _ _ _ _ _ L Hx) as (x & Lx & Hx'). exists x. split; [exact Lx|]. apply means_union. now left.
      * destruct (IHr Pr Rr _ _ _ _ _ L Hx) as (x & Lx & Hx'). exists x. split; [exact Lx|]. apply means_union. now right.
  - pose proof P as P0. cbn [plain] in P0. destruct t as [p n|]; [|discriminate]. apply andb_prop in P0 as [Pa Po]. apply negb_true_iff in Pa. pose proof L as L0. destruct L as [c n' m G' G]. apply (step_just d' E ax p n ps c n' pos size x' removed_distinct R P G') in Hx as [Hx Hp].
    destruct (step_up ax p n _ _ x' Pa L0 Hx) as (x & Lx & Hx'). exists x. split; [exact Lx|]. apply (step_just d E ax p n ps _ m pos size x D R P G). split; [exact Hx'|]. intros q Hq. rewrite forallb_forall in Po.
    apply (own_same d' d E q (Po q Hq) x' x 1 1 1 1); [now apply lifts_attributes|now apply Hp].
Qed.
Lemma sim_down e : plain e = true -> readable E e = true -> forall i' i pos size x, lifts i' i -> set_of (means d E e i pos size) x -> stays x -> exists x', lifts x' x /\ set_of (means d' E e i' pos size) x'.
Proof.
  induction e as [| | | |l op r IHl IHr|b ps IHb H| | |ax t ps H|ab|p n|p n args H] using expr_ind'; try discriminate; intros P R i' i pos size x L Hx St.
  - assert (Hl : plain l = true \/ l = EAbbrev (u ".") -> readable E l = true -> forall y, stays y -> set_of (means d E l i pos size) y -> exists y', lifts y' y /\ set_of (means d' E l i' pos size) y').
    { intros [Pl| ->] Rl y Sy Hy; [eapply IHl; eassumption|]. apply means_dot in Hy. subst y. exists i'. now split. }
    assert (Hs : forall y, (exists q, place_of x = place_of y ++ q) -> stays y) by (intros y [q Hq] Gy; apply St; rewrite Hq; now apply gone_below).
    apply plain_bin in P as [(O & Pl & Pr)|(-> & Pl & Pr)].
    + destruct (bin_typed l op r R (or_introl O)) as [Rl Rr]. destruct O as [->| ->].
      * apply means_slash in Hx as (y & Hy & Hx). destruct (Hl Pl Rl y (Hs y (plain_below d E r Pr _ _ _ _ Hx)) Hy) as (y' & Ly & Hy'). destruct (IHr Pr Rr _ _ 1 1 _ Ly Hx St) as (x' & Lx & Hx'). exists x'. split; [exact Lx|]. apply means_slash. now exists y'.
      * apply means_deep in Hx as (y & h & Hy & Hh & Hx). pose proof (plain_dead d E r Pr _ _ _ _ Hx) as Eh. pose proof (plain_below d E r Pr _ _ _ _ Hx) as [q Hq]. assert (Sh : stays h) by (apply Hs; now exists q).
        destruct Hh as [->|Hh].
        -- destruct (Hl Pl Rl h Sh Hy) as (y' & Ly & Hy'). destruct (IHr Pr Rr _ _ 1 1 _ Ly Hx St) as (x' & Lx & Hx'). exists x'. split; [exact Lx|]. apply means_deep. exists y', y'. auto.
        -- assert (Sy : stays y) by (apply Hs; destruct (inside_below _ _ Hh) as [q2 H2]; exists (q2 ++ q); rewrite Hq, H2; now rewrite app_assoc).
           destruct (Hl Pl Rl y Sy Hy) as (y' & Ly & Hy'). destruct (inside_from _ _ Hh Eh Sh y' Ly) as (h' & Lh & Ih). destruct (IHr Pr Rr _ _ 1 1 _ Lh Hx St) as (x' & Lx & Hx'). exists x'. split; [exact Lx|]. apply means_deep. exists y', h'. auto.
    + destruct (bin_typed l _ r R (or_intror eq_refl)) as [Rl Rr]. apply means_union in Hx as [Hx|Hx].
      * destruct (IHl Pl Rl _ _ _ _ _ L Hx St) as (x' & Lx & Hx'). exists x'. split; [exact Lx|]. apply means_union. now left.
      * destruct (IHr Pr Rr _ _ _ _ _ L Hx St) as (x' & Lx & Hx'). exists x'. split; [exact Lx|]. apply means_union. now right.
  - pose proof P as P0. cbn [plain] in P0. destruct t as [p n|]; [|discriminate]. apply andb_prop in P0 as [Pa Po]. apply negb_true_iff in Pa. pose proof L as L0. destruct L as [c n' m G' G]. apply (step_just d E ax p n ps _ m pos size x D R P G) in Hx as [Hx Hp].
    destruct (step_down ax p n _ _ x Pa L0 Hx St) as (x' & Lx & Hx'). exists x'. split; [exact Lx|]. apply (step_just d' E ax p n ps c n' pos size x' removed_distinct R P G'). split; [exact Hx'|]. intros q Hq. rewrite forallb_forall in Po.
    apply (own_same d d' E q (Po q Hq) x x' 1 1 1 1); [apply same_attributes_sym; now apply lifts_attributes|now apply Hp].
Qed.
End Sim.
