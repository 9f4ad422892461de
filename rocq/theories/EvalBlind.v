(** For C90: XPaths that do not look at element text.  Two documents with the same elements, attributes and attribute values (but for
    the attributes named [hid]) give such an XPath the same places. *)
From Coq Require Import String Arith List Lia Bool.
From Verif Require Import FieldUndo NodeList EvalSpec EvalMeaning EvalOrder EvalMain EvalValues EvalFuns EvalAgree.
From Verif Require Import XPathEval XPathRead EvalSpec.
Import ListNotations.

(** ** the XPaths.  [seen]: its string value may be asked for, being that of attributes not called [hid], or not of nodes at all *)
Definition name_test (t : nodetest) : bool := match t with NameTest _ _ => true | _ => false end.
Section Blind.
Context (E : env) (hid : option qname).
Fixpoint seen (e : expr) : bool :=
  match e with
  | EStep ax (NameTest p n) _ => attr_axis ax && negb (str_eqb n (u "*")) &&
      match hid with None => true | Some q => negb (test_q E p n q) end
  | EStep _ _ _ | EAbbrev _ => false
  | EPred b _ => seen b
  | EBin l op r => if str_mem op [u "/"; u "//"] then seen r else if str_eqb op (u "|") then seen l && seen r else true
  | _ => true
  end%bool.
Fixpoint blind (e : expr) : bool :=
  match e with
  | ELit _ | EInt _ | EVar _ _ | EAbbrev _ => true
  | EStep _ t ps => name_test t && forallb blind ps
  | EPred b ps => blind b && forallb blind ps
  | EBin l op r => blind l && blind r && (negb (str_mem op [u "="; u "!="]) || (seen l && seen r))
  | ECall _ n args => forallb blind args &&
      (str_mem n [u "position"; u "last"; u "true"; u "false"; u "count"; u "not"; u "boolean"; u "local-name"] ||
       (forallb seen args && match args with [] => false | _ => true end))
  | _ => false
  end%bool.

(** ** documents that differ in texts, and in the values of the attributes called [hid] *)
Definition same_attr (x y : qname * str) : Prop := fst x = fst y /\ (hid <> Some (fst x) -> snd x = snd y).
Inductive alike : node -> node -> Prop :=
| alike_elem q ats ats' t t' ks ks' : Forall2 same_attr ats ats' -> alikes ks ks' -> alike (Elem q ats t ks) (Elem q ats' t' ks')
| alike_misc s s' : alike (Misc s) (Misc s')
with alikes : list (node * option str) -> list (node * option str) -> Prop :=
| alikes_nil : alikes [] []
| alikes_cons x x' t t' ks ks' : alike x x' -> alikes ks ks' -> alikes ((x, t) :: ks) ((x', t') :: ks').
Scheme alike_ind2 := Minimality for alike Sort Prop with alikes_ind2 := Minimality for alikes Sort Prop.
Combined Scheme alike_both from alike_ind2, alikes_ind2.

Inductive ialike : item -> item -> Prop :=
| ia_elem a n n' : alike n n' -> ialike (IElem a n) (IElem a n')
| ia_attr a q v v' : (hid <> Some q -> v = v') -> ialike (IAttr a q v) (IAttr a q v').
Definition kalike (k k' : knode) : Prop := @fst pkey item k = @fst pkey item k' /\ ialike (@snd pkey item k) (@snd pkey item k').
Notation lalike := (Forall2 kalike).
Inductive valike : kv -> kv -> Prop :=
| va_nodes l l' : lalike l l' -> valike (KN l) (KN l')
| va_same v : (forall l, v <> KN l) -> valike v v.

Definition el_of (k : knode) : bool := match @snd pkey item k with IElem _ _ => true | _ => false end.
Definition no_text (k : knode) : bool := match @snd pkey item k with IText _ _ _ => false | _ => true end.

(** ** lists *)
Lemma lalike_insert x x' l l' : kalike x x' -> lalike l l' -> lalike (kinsert x l) (kinsert x' l').
Proof.
  intros Hx. induction 1 as [|y y' l l' Hy H IH]; cbn [kinsert]; [repeat constructor; apply Hx|].
  rewrite <- (proj1 Hx), <- (proj1 Hy). destruct (key_cmp (fst x) (fst y)); repeat constructor; auto; try apply Hx; try apply Hy.
Qed.
Lemma lalike_sort l l' : lalike l l' -> lalike (ksort l) (ksort l').
Proof. induction 1; cbn [ksort fold_right]; [constructor|]. now apply lalike_insert. Qed.
Lemma lalike_length l l' : lalike l l' -> List.length l = List.length l'.
Proof. induction 1; cbn; auto. Qed.
Lemma lalike_flat (f f' : knode -> list knode) l l' : lalike l l' -> (forall k k', In k l -> kalike k k' -> lalike (f k) (f' k')) -> lalike (flat_map f l) (flat_map f' l').
Proof.
  induction 1 as [|k k' l l' Hk H IH]; intros G; cbn [flat_map]; [constructor|]. apply Forall2_app; [apply G; [now left|exact Hk]|]. apply IH. intros j j' Hj. apply G. now right.
Qed.
Lemma lalike_filter f f' l l' : lalike l l' -> (forall k k', kalike k k' -> f k = f' k') -> lalike (filter f l) (filter f' l').
Proof. induction 1 as [|k k' l l' Hk H IH]; intros G; cbn [filter]; [constructor|]. rewrite (G _ _ Hk). destruct (f' k'); auto. Qed.
Lemma lalike_kfilter f f' l l' : lalike l l' -> (forall k k' pos size, kalike k k' -> f k pos size = f' k' pos size) -> lalike (kfilter f l) (kfilter f' l').
Proof.
  intros H G. unfold kfilter. rewrite <- (lalike_length _ _ H). generalize (List.length l). intros n. generalize 0. induction H as [|k k' l l' Hk H IH]; intros i; cbn [enum flat_map]; [constructor|].
  cbn [fst snd]. rewrite (G _ _ (S i) n Hk). destruct (f' k' (S i) n); cbn [app]; auto.
Qed.
Lemma flat_notext (f : knode -> list knode) l : (forall k, no_text k = false -> f k = []) -> flat_map f l = flat_map f (filter no_text l).
Proof. intros H. induction l as [|k l IH]; [reflexivity|]. cbn [flat_map filter]. destruct (no_text k) eqn:K; cbn [flat_map]; rewrite IH; [reflexivity|]. now rewrite (H k K). Qed.
Lemma filter_filter {A} (f g : A -> bool) l : (forall x, f x = true -> g x = true) -> filter f l = filter f (filter g l).
Proof. intros H. induction l as [|x l IH]; [reflexivity|]. cbn [filter]. destruct (g x) eqn:G; cbn [filter]; destruct (f x) eqn:F; rewrite IH; auto. rewrite (H _ F) in G. discriminate. Qed.

(** ** axes *)
Lemma own_text_none r a t : filter no_text (own_text r a t) = [].
Proof. now destruct t. Qed.
Lemma own_tail_none r a i t : filter no_text (own_tail r a i t) = [].
Proof. now destruct t. Qed.
Lemma below_alike : (forall n n', alike n n' -> forall r a, lalike (filter no_text (kbelow r a n)) (filter no_text (kbelow r a n'))) /\
  (forall ks ks', alikes ks ks' -> forall r a i, lalike (filter no_text (kgo r a i ks)) (filter no_text (kgo r a i ks'))).
Proof.
  apply alike_both.
  - intros q ats ats' t t' ks ks' _ _ H r a. rewrite !kbelow_elem, !filter_app, !own_text_none. apply H.
  - constructor.
  - constructor.
  - intros x x' t t' ks ks' Hx H1 _ H2 r a i. cbn [kgo]. rewrite <- !app_comm_cons. cbn [filter]. unfold no_text at 1 3. cbn [snd]. rewrite !filter_app, !own_tail_none. cbn [app].
    constructor; [split; [reflexivity|now constructor]|]. apply Forall2_app; auto.
Qed.
Lemma children_alike r a n n' : alike n n' -> lalike (filter no_text (kchildren r a n)) (filter no_text (kchildren r a n')).
Proof.
  destruct 1 as [q ats ats' t t' ks ks' _ H|]; [|constructor]. cbn [kchildren]. rewrite !filter_app, !own_text_none. cbn [app].
  generalize 0. induction H as [|x x' u0 u1 ks ks' Hx H IH]; intros i; cbn [enum flat_map]; [constructor|]. cbn [fst snd]. rewrite !filter_app. cbn [filter]. unfold no_text at 1 4. cbn [snd]. rewrite !own_tail_none.
  cbn [app]. constructor; [split; [reflexivity|now constructor]|apply IH].
Qed.
Lemma attrs_alike r a n n' : alike n n' -> lalike (kattrs r a n) (kattrs r a n').
Proof.
  destruct 1 as [q ats ats' t t' ks ks' H _|]; [|constructor]. unfold kattrs. cbn [attrs_of]. set (F := fun x : nat * (qname * str) => _). enough (G : forall i, lalike (map F (enum i ats)) (map F (enum i ats'))) by apply G. induction H as [|x x' ats ats' [Hx Hv] H IH]; intros i; cbn [enum map]; [constructor|].
  constructor; [|apply IH]. split; [reflexivity|]. unfold F. cbn [fst snd]. rewrite <- Hx. constructor. exact Hv.
Qed.
Lemma below_of_alike k k' : kalike k k' -> lalike (filter no_text (kbelow_of k)) (filter no_text (kbelow_of k')).
Proof. destruct k as [r i], k' as [r' i']. intros [R H]. cbn [fst snd] in R, H. subst r'. unfold kbelow_of. cbn [fst snd]. destruct H; [|constructor]. now apply below_alike. Qed.
Lemma alike_text k k' : kalike k k' -> no_text k = true.
Proof. intros [_ H]. unfold no_text. now destruct H. Qed.
Lemma axis_alike x k k' : kalike k k' -> lalike (filter no_text (kaxis x k)) (filter no_text (kaxis x k')).
Proof.
  intros H. pose proof (alike_text _ _ H) as T. assert (T' : no_text k' = true) by (destruct H as [_ H]; unfold no_text; now destruct H). pose proof (below_of_alike _ _ H) as B.
  destruct k as [r i], k' as [r' i']. destruct H as [R H]. cbn [fst snd] in R, H. subst r'.
  assert (N : forall r a n, filter no_text (kattrs r a n) = kattrs r a n).
  { intros r0 a n. unfold kattrs. set (F := fun x : nat * (qname * str) => _). enough (G : forall i, filter no_text (map F (enum i (attrs_of n))) = map F (enum i (attrs_of n))) by apply G. induction (attrs_of n) as [|y l IH]; intros m; [reflexivity|]. cbn [enum map filter]. unfold no_text at 1. cbn [snd]. now rewrite IH. }
  destruct x; unfold kaxis; cbn [snd fst].
  - destruct H; [now apply children_alike|constructor].
  - destruct H; [rewrite !N; now apply attrs_alike|constructor].
  - cbn [filter]. rewrite T, T'. constructor; [|constructor]. now split.
  - exact B.
  - cbn [filter]. rewrite T, T'. constructor; [|exact B]. now split.
Qed.
Lemma test_notext x t k : name_test t = true -> ktest E x t (@snd pkey item k) = true -> no_text k = true.
Proof. destruct t; [|discriminate]. intros _. unfold ktest, no_text. destruct (snd k); [reflexivity|reflexivity|]. now destruct x. Qed.
Lemma test_alike x t k k' : kalike k k' -> ktest E x t (@snd pkey item k) = ktest E x t (@snd pkey item k').
Proof. intros [_ H]. destruct H as [a n n' H|]; [|reflexivity]. destruct H; reflexivity. Qed.
Lemma step_alike ax t k k' : name_test t = true -> kalike k k' -> lalike (kstep E ax t k) (kstep E ax t k').
Proof.
  intros T H. unfold kstep. destruct (axis_of ax) as [x|]; [|constructor]. rewrite (filter_filter (fun j => ktest E x t (snd j)) no_text (kaxis x k)), (filter_filter (fun j => ktest E x t (snd j)) no_text (kaxis x k')).
  - apply lalike_filter; [now apply axis_alike|]. intros. now apply test_alike.
  - intros j. now apply test_notext.
  - intros j. now apply test_notext.
Qed.
Lemma step_text ax t k pos size ps : name_test t = true -> no_text k = false -> knodes (fev E (EStep ax t ps) k pos size) = [].
Proof.
  intros T K. cbn [fev knodes]. replace (kstep E ax t k) with (@nil knode).
  - induction ps; [reflexivity|]. exact IHps.
  - symmetry. unfold kstep. destruct (axis_of ax) as [x|]; [|reflexivity]. unfold no_text in K. destruct k as [r [| |a tl s]]; try discriminate. destruct t; [|discriminate].
    destruct x; cbn; try reflexivity.
Qed.

(** ** values *)
Definition plain_attr (k : knode) : Prop := exists a q v, @snd pkey item k = IAttr a q v /\ hid <> Some q.
Lemma alike_plain k k' : kalike k k' -> plain_attr k -> k' = k.
Proof. destruct k as [r i], k' as [r' i']. intros [R H] (a & q & v & I & Q). cbn [fst snd] in *. subst. inversion H as [|a0 q0 v0 v0' Hv]; subst. now rewrite (Hv Q). Qed.
Lemma lalike_plain l l' : lalike l l' -> Forall plain_attr l -> l' = l.
Proof. induction 1 as [|k k' l l' Hk H IH]; intros F; [reflexivity|]. inversion F as [|? ? F1 F2]; subst. rewrite (alike_plain _ _ Hk F1). f_equal. now apply IH. Qed.

Lemma kfilter_incl f l (P : knode -> Prop) : Forall P l -> Forall P (kfilter f l).
Proof. intros H. apply Forall_forall. intros k Hk. apply kfilter_In in Hk as (m & Hm & _). rewrite Forall_forall in H. apply H. eapply nth_error_In. exact Hm. Qed.
Lemma preds_incl ps (P : knode -> Prop) : forall l, Forall P l -> Forall P (fold_left (fun l p => kfilter (fun j pos size => truth (erase (fev E p j pos size)) (N.of_nat pos)) l) ps l).
Proof. induction ps as [|p ps IH]; intros l H; cbn [fold_left]; [exact H|]. apply IH. now apply kfilter_incl. Qed.
Lemma flat_incl (f : knode -> list knode) l (P : knode -> Prop) : (forall k, Forall P (f k)) -> Forall P (flat_map f l).
Proof. intros H. induction l; cbn [flat_map]; [constructor|]. apply Forall_app. split; auto. Qed.
Lemma sort_incl l (P : knode -> Prop) : Forall P l -> Forall P (ksort l).
Proof. intros H. apply Forall_forall. intros k Hk. apply ksort_incl in Hk. rewrite Forall_forall in H. auto. Qed.
Lemma attr_axis_of ax : attr_axis ax = true -> axis_of ax = Some AAttr.
Proof. intros H. unfold axis_of. rewrite H. destruct (child_axis ax) eqn:C; [|reflexivity]. apply axes_differ in C. congruence. Qed.
Lemma test_name_star p n q : str_eqb n (u "*") = false -> match hid with None => true | Some q => negb (test_q E p n q) end = true -> test_q E p n q = true -> hid <> Some q.
Proof. intros _ H T -> . rewrite T in H. discriminate. Qed.
Lemma seen_plain e : seen e = true -> forall k pos size, Forall plain_attr (knodes (fev E e k pos size)).
Proof.
  induction e as [s|n| | |a op b IHa IHb|b ps IHb H| | |ax t ps H|ab|p n|p n args H] using expr_ind'; cbn [seen]; intros Hs k pos size; try discriminate; try (constructor; fail).
  - cbn [fev]. unfold str_mem in Hs. cbn [existsb] in Hs.
    destruct (str_eqb op (u "/")) eqn:O1; cbn [orb] in Hs.
    { cbn [knodes]. apply sort_incl, flat_incl. auto. }
    destruct (str_eqb op (u "//")) eqn:O2; cbn [orb] in Hs.
    { cbn [knodes]. apply sort_incl, flat_incl. intros j. apply flat_incl. auto. }
    destruct (str_eqb op (u "|")) eqn:O3.
    { apply andb_prop in Hs as [H1 H2]. cbn [knodes]. apply sort_incl, Forall_app. split; auto. }
    destruct (str_eqb op (u "=")); [constructor|]. destruct (str_eqb op (u "!=")); [constructor|]. destruct (str_eqb op (u "and")); constructor.
  - cbn [fev knodes]. apply preds_incl. auto.
  - destruct t as [p n|]; [|discriminate]. apply andb_prop in Hs as [Hs H3]. apply andb_prop in Hs as [H1 H2]. cbn [fev knodes]. apply preds_incl. unfold kstep. rewrite (attr_axis_of _ H1).
    apply Forall_forall. intros j Hj. apply filter_In in Hj as [_ Hj]. apply negb_true_iff in H2. unfold plain_attr. destruct (snd j) as [a m|a q v|a tl s]; unfold ktest in Hj; try discriminate; try (destruct m; discriminate).
    exists a, q, v. split; [reflexivity|]. exact (test_name_star p n q H2 H3 Hj).
  - cbn [fev]. unfold str_var. destruct (lookup n (vars E)) as [[]|]; constructor.
  - cbn [fev]. unfold call. destruct (map (fun a => fev E a k pos size) args) as [|v [|w [|]]]; try constructor;
      repeat match goal with |- context [str_eqb n ?x] => destruct (str_eqb n x) end; constructor.
Qed.
Lemma valike_truth v v' pos : valike v v' -> truth (erase v) pos = truth (erase v') pos /\ to_bool (erase v) = to_bool (erase v').
Proof. destruct 1 as [l l' H|]; [|split; reflexivity]. destruct H; split; reflexivity. Qed.
Lemma valike_nodes v v' : valike v v' -> lalike (knodes v) (knodes v').
Proof. destruct 1 as [l l' H|v H]; [exact H|]. destruct v; try constructor. destruct (H l eq_refl). Qed.
Lemma valike_seen v v' : valike v v' -> Forall plain_attr (knodes v) -> v' = v.
Proof. destruct 1 as [l l' H|]; [|reflexivity]. cbn [knodes]. intros F. now rewrite (lalike_plain _ _ H F). Qed.
Lemma valike_local v v' : valike v v' -> local_name v = local_name v'.
Proof.
  destruct 1 as [l l' H|]; [|reflexivity]. destruct H as [|[r i] [r' i'] l l' [_ H] _]; [reflexivity|]. cbn [fst snd] in H. unfold local_name. destruct H as [a n n' []|]; reflexivity.
Qed.
Lemma kb_same b : valike (KB b) (KB b). Proof. constructor. discriminate. Qed.
Lemma ks_same b : valike (KS b) (KS b). Proof. constructor. discriminate. Qed.
Lemma kn_same b : valike (KNum b) (KNum b). Proof. constructor. discriminate. Qed.

Definition steady (e : expr) : Prop := readable E e = true -> blind e = true -> forall k k' pos size, kalike k k' -> valike (fev E e k pos size) (fev E e k' pos size).
Lemma preds_alike ps : Forall steady ps -> forallb (fun p => is_some (ty E p)) ps = true -> forallb blind ps = true -> forall l l', lalike l l' ->
  lalike (fold_left (fun l p => kfilter (fun j pos size => truth (erase (fev E p j pos size)) (N.of_nat pos)) l) ps l)
         (fold_left (fun l p => kfilter (fun j pos size => truth (erase (fev E p j pos size)) (N.of_nat pos)) l) ps l').
Proof.
  induction 1 as [|p ps Hp _ IH]; cbn [forallb fold_left]; [auto|]. intros T B l l' H. apply andb_prop in T as [T1 T2]. apply andb_prop in B as [B1 B2]. apply IH; auto.
  apply lalike_kfilter; [exact H|]. intros j j' pos size Hj. exact (proj1 (valike_truth _ _ _ (Hp T1 B1 j j' pos size Hj))).
Qed.
Theorem blind_steady e : steady e.
Proof.
  induction e as [s|n| | |a op b IHa IHb|b ps IHb H| | |ax t ps H|ab|p n|p n args H] using expr_ind'; intros R B k k' pos size K; try discriminate; unfold readable in R.
  - apply ks_same.
  - apply kn_same.
  - cbn [ty] in R. cbn [blind] in B. apply andb_prop in B as [B S0]. apply andb_prop in B as [B1 B2]. cbn [fev].
    destruct (str_eqb op (u "/")) eqn:O1.
    { destruct (is_nodes (ty E a)) eqn:T1; [|discriminate]. destruct (is_nodes (ty E b)) eqn:T2; [|discriminate]. constructor. apply lalike_sort, lalike_flat.
      - apply valike_nodes, IHa; auto. unfold readable. now destruct (ty E a).
      - intros j j' _ J. apply valike_nodes, IHb; auto. unfold readable. now destruct (ty E b). }
    destruct (str_eqb op (u "//")) eqn:O2.
    { destruct (is_nodes (ty E a)) eqn:T1; [|discriminate]. destruct (is_nodes (ty E b)) eqn:T2; [|discriminate]. destruct b as [| | | | | | |ax t ps| | |]; try discriminate.
      cbn [blind] in B2. apply andb_prop in B2 as [B2 B3]. constructor. apply lalike_sort, lalike_flat.
      - apply valike_nodes, IHa; auto. unfold readable. now destruct (ty E a).
      - intros j j' _ J. rewrite (flat_notext _ (j :: kbelow_of j)), (flat_notext _ (j' :: kbelow_of j')); try (intros; now apply step_text). apply lalike_flat.
        + cbn [filter]. rewrite (alike_text _ _ J). replace (no_text j') with true by (destruct J as [_ J]; unfold no_text; now destruct J). constructor; [exact J|now apply below_of_alike].
        + intros h h' _ J'. apply valike_nodes, IHb; auto; [unfold readable; now destruct (ty E (EStep ax t ps))|cbn [blind]; now rewrite B2, B3]. }
    destruct (str_eqb op (u "|")) eqn:O3.
    { destruct (is_nodes (ty E a)) eqn:T1; [|discriminate]. destruct (is_nodes (ty E b)) eqn:T2; [|discriminate]. constructor. apply lalike_sort, Forall2_app.
      - apply valike_nodes, IHa; auto. unfold readable. now destruct (ty E a).
      - apply valike_nodes, IHb; auto. unfold readable. now destruct (ty E b). }
    destruct (str_mem op [u "="; u "!="; u "and"; u "or"]) eqn:O; [|discriminate]. destruct (is_some (ty E a)) eqn:T1; [|discriminate]. destruct (is_some (ty E b)) eqn:T2; [|discriminate].
    pose proof (IHa T1 B1 k k' pos size K) as V1. pose proof (IHb T2 B2 k k' pos size K) as V2. unfold str_mem in S0. cbn [existsb] in S0.
    destruct (str_eqb op (u "=")) eqn:O4.
    { cbn in S0. apply andb_prop in S0 as [S1 S2]. rewrite (valike_seen _ _ V1), (valike_seen _ _ V2) by now apply seen_plain. apply kb_same. }
    destruct (str_eqb op (u "!=")) eqn:O5.
    { cbn in S0. apply andb_prop in S0 as [S1 S2]. rewrite (valike_seen _ _ V1), (valike_seen _ _ V2) by now apply seen_plain. apply kb_same. }
    rewrite (proj2 (valike_truth _ _ 0%N V1)), (proj2 (valike_truth _ _ 0%N V2)). destruct (str_eqb op (u "and")); apply kb_same.
  - cbn [ty] in R. cbn [blind] in B. apply andb_prop in B as [B1 B2]. destruct (is_nodes (ty E b)) eqn:T1; [|discriminate]. destruct (forallb (fun p => is_some (ty E p)) ps) eqn:T2; [|discriminate].
    cbn [fev]. constructor. apply preds_alike; auto. apply valike_nodes, IHb; auto. unfold readable. now destruct (ty E b).
  - cbn [ty] in R. cbn [blind] in B. apply andb_prop in B as [B1 B2]. destruct (is_some (axis_of ax)) eqn:T1; [|discriminate]. destruct (sup_test E t); [|discriminate]. destruct (forallb (fun p => is_some (ty E p)) ps) eqn:T2; [|discriminate].
    cbn [fev]. constructor. apply preds_alike; auto. now apply step_alike.
  - cbn [fev]. constructor. constructor; [exact K|constructor].
  - cbn [fev]. unfold str_var. destruct (lookup n (vars E)) as [[]|]; [apply ks_same|apply kn_same|constructor; constructor].
  - destruct p; [discriminate|]. cbn [ty] in R. cbn [blind] in B. apply andb_prop in B as [B1 B2]. cbn [fev].
    assert (V : Forall2 valike (map (fun a => fev E a k pos size) args) (map (fun a => fev E a k' pos size) args) \/ 2 < List.length args).
    { destruct (Nat.le_gt_cases (List.length args) 2) as [L|L]; [left|now right].
      assert (A : forallb (fun a => is_some (ty E a)) args = true).
      { destruct args as [|x [|y [|]]]; cbn [map forallb] in *; [reflexivity| |..]; [| |cbn in L; lia]; unfold call_type in R.
        - destruct (ty E x); [reflexivity|]. exfalso. revert R. repeat match goal with |- context [str_eqb n ?s] => destruct (str_eqb n s) end; repeat match goal with |- context [str_mem n ?s] => destruct (str_mem n s) end; discriminate.
        - destruct (ty E x); [|rewrite andb_false_r in R; discriminate]. destruct (ty E y); [reflexivity|]. rewrite andb_false_r in R. discriminate. }
      clear R B2 L. induction H as [|x args Hx _ IH]; cbn [map]; [constructor|]. cbn [forallb] in A, B1. apply andb_prop in A as [A1 A2]. apply andb_prop in B1 as [B1 B2]. constructor; auto. }
    assert (Q : forallb seen args = true -> map (fun a => fev E a k' pos size) args = map (fun a => fev E a k pos size) args \/ 2 < List.length args).
    { destruct V as [V|V]; [left|now right]. revert V H0. clear. intros V. induction args as [|x args IH]; cbn [map forallb]; [reflexivity|]. intros S0. apply andb_prop in S0 as [S1 S2]. cbn [map] in V. inversion V; subst.
      f_equal; [|now apply IH]. apply valike_seen; [assumption|now apply seen_plain]. }
    destruct args as [|x [|y [|]]]; [| | |].
    + destruct (str_mem n [u "position"; u "last"; u "true"; u "false"; u "count"; u "not"; u "boolean"; u "local-name"]) eqn:M; [|discriminate]. cbn [map call].
      unfold call_type in R. cbn [map] in R. unfold str_mem in M, R. cbn [existsb] in M, R. unfold nat_num.
      destruct (str_eqb n (u "position")); [apply kn_same|]. destruct (str_eqb n (u "last")); [apply kn_same|]. destruct (str_eqb n (u "true")); [apply kb_same|]. destruct (str_eqb n (u "false")); [apply kb_same|].
      destruct (str_eqb n (u "string")) eqn:N1. { apply str_eqb_eq in N1. subst n. discriminate. }
      destruct (str_eqb n (u "string-length")) eqn:N2. { apply str_eqb_eq in N2. subst n. discriminate. }
      destruct (str_eqb n (u "normalize-space")) eqn:N3. { apply str_eqb_eq in N3. subst n. discriminate. }
      rewrite (valike_local (KN [k]) (KN [k'])); [apply ks_same|]. constructor. constructor; [exact K|constructor].
    + cbn [map call] in *. destruct V as [V|V]; [|cbn in V; lia]. inversion V as [|v v' ? ? V1 _]; subst. clear V.
      assert (NL : List.length (knodes (fev E x k pos size)) = List.length (knodes (fev E x k' pos size))) by (apply lalike_length, valike_nodes, V1).
      destruct (str_eqb n (u "count")) eqn:C1; [unfold nat_num; rewrite NL; apply kn_same|]. destruct (str_eqb n (u "not")) eqn:C2; [rewrite (proj2 (valike_truth _ _ 0%N V1)); apply kb_same|].
      destruct (str_eqb n (u "boolean")) eqn:C3; [rewrite (proj2 (valike_truth _ _ 0%N V1)); apply kb_same|].
      destruct (str_eqb n (u "local-name")) eqn:LN.
      { apply str_eqb_eq in LN. subst n. cbn. rewrite (valike_local _ _ V1). apply ks_same. }
      assert (S0 : forallb seen [x] = true).
      { apply orb_prop in B2 as [B2|B2]; [|now apply andb_prop in B2]. exfalso. unfold str_mem in B2. cbn [existsb] in B2. rewrite C1, C2, C3, LN in B2.
        destruct (str_eqb n (u "position")) eqn:P1; [apply str_eqb_eq in P1; subst n; discriminate|]. destruct (str_eqb n (u "last")) eqn:P2; [apply str_eqb_eq in P2; subst n; discriminate|].
        destruct (str_eqb n (u "true")) eqn:P3; [apply str_eqb_eq in P3; subst n; discriminate|]. destruct (str_eqb n (u "false")) eqn:P4; [apply str_eqb_eq in P4; subst n; discriminate|]. discriminate. }
      specialize (Q S0). destruct Q as [Q1|Q1]; [|cbn in Q1; lia]. injection Q1 as Q1. rewrite Q1. unfold nat_num. destruct (str_eqb n (u "string")); [apply ks_same|]. destruct (str_eqb n (u "string-length")); [apply kn_same|].
      destruct (str_eqb n (u "normalize-space")); apply ks_same.
    + assert (S0 : forallb seen [x; y] = true).
      { apply orb_prop in B2 as [B2|B2]; [|now apply andb_prop in B2]. exfalso. unfold call_type in R. cbn [map] in R. destruct (str_mem n [u "contains"; u "starts-with"]) eqn:M; [|discriminate].
        unfold str_mem in M. cbn [existsb] in M. destruct (str_eqb n (u "contains")) eqn:M1; [apply str_eqb_eq in M1; subst n; discriminate|].
        destruct (str_eqb n (u "starts-with")) eqn:M2; [apply str_eqb_eq in M2; subst n; discriminate|discriminate]. }
      specialize (Q S0). destruct Q as [Q1|Q1]; [|cbn in Q1; lia]. rewrite Q1. cbn [map call]. destruct (str_eqb n (u "contains")); apply kb_same.
    + cbn [map call]. constructor. constructor.
Qed.
End Blind.
