(** Proof that the evaluator of XPathRead.v computes the meanings of EvalSpec.v: axes, predicates, values. *)
From Coq Require Import String Arith ZArith NArith List Lia Bool Sorted Permutation.
From Verif Require Import FieldUndo MapperProofs XPathEval FieldSpec ReadSpec EvalSpec EvalMeaning XPathRead EvalOrder.
Import ListNotations.

Section In_doc.
Variable root : node.
Hypothesis D : attributes_distinct root.
Notation valid k := (route root (@snd pkey item k) (@fst pkey item k)).

(** a list of places and nodes that is a set of nodes, in document order *)
Definition represents (l : list knode) (X : item -> Prop) : Prop :=
  sorted l /\ Forall (fun k => valid k) l /\ forall i, In i (map snd l) <-> X i.

Lemma sorted_nodup_fst l : sorted l -> NoDup (map fst l).
Proof.
  unfold sorted. generalize (map fst l). induction 1 as [|r m _ IH F]; constructor; [|exact IH]. intros H. rewrite Forall_forall in F. exact (before_irr _ (F _ H)).
Qed.
Lemma rep_nodup l X : represents l X -> NoDup (map snd l).
Proof.
  intros (S0 & V & _). apply sorted_nodup_fst in S0. induction l as [|k l IH]; cbn [map] in *; constructor; apply Forall_inv in V as Vk; apply Forall_inv_tail in V; inversion S0 as [|? ? N1 N2]; subst; [|now apply IH].
  intros H. apply in_map_iff in H as (j & E & Hj). apply N1. rewrite Forall_forall in V. pose proof (V _ Hj) as Vj. cbv beta in Vj, Vk.
  assert (R : fst k = fst j) by (apply (route_unique root (snd k)); [exact D|exact Vk|rewrite <- E; exact Vj]). rewrite R. now apply in_map.
Qed.
Lemma rep_in l X k : represents l X -> valid k -> In k l <-> X (snd k).
Proof.
  intros (_ & V & M) Vk. rewrite <- M. split; [apply in_map|]. intros H. apply in_map_iff in H as (j & E & Hj). rewrite Forall_forall in V. specialize (V _ Hj). cbv beta in V.
  assert (R : fst j = fst k) by (apply (route_unique root (snd k)); [exact D|rewrite <- E; exact V|exact Vk]). destruct j, k. cbn in *. now subst.
Qed.
Lemma rep_ext l X Y : represents l X -> (forall i, X i <-> Y i) -> represents l Y.
Proof. intros (A & B & C) H. split; [exact A|]. split; [exact B|]. intros i. now rewrite C. Qed.
Lemma rep_nil (X : item -> Prop) : (forall i, ~ X i) -> represents [] X.
Proof. intros H. split; [constructor|]. split; [constructor|]. intros i. split; [intros []|apply H]. Qed.
Lemma rep_filter f l X (P : item -> Prop) : represents l X -> (forall i, f i = true <-> P i) -> represents (filter (fun k => f (snd k)) l) (fun i => X i /\ P i).
Proof.
  intros (A & B & C) H. split; [now apply sorted_filter|]. split.
  - apply Forall_forall. intros k Hk. apply filter_In in Hk as [Hk _]. rewrite Forall_forall in B. now apply B.
  - intros i. rewrite <- C, in_map_iff. split.
    + intros (k & <- & Hk). apply filter_In in Hk as [Hk F]. split; [now apply in_map|now apply H].
    + intros [Hi Pi]. apply in_map_iff in Hi as (k & <- & Hk). exists k. split; [reflexivity|]. apply filter_In. split; [exact Hk|now apply H].
Qed.
(** sorting a list of valid nodes *)
Lemma rep_sort l X : Forall (fun k => valid k) l -> (forall i, In i (map snd l) <-> X i) -> represents (ksort l) X.
Proof.
  intros V M. split; [apply ksort_sorted|]. split.
  - apply Forall_forall. intros k Hk. apply ksort_incl in Hk. rewrite Forall_forall in V. now apply V.
  - intros i. rewrite <- M, !in_map_iff. split; intros (k & <- & Hk).
    + exists k. split; [reflexivity|now apply ksort_incl].
    + destruct (ksort_keeps l k Hk) as (j & Hj & E). exists j. split; [|exact Hj]. rewrite Forall_forall in V. pose proof (V _ Hk) as V1. pose proof (V _ (ksort_incl _ _ Hj)) as V2.
      cbv beta in V1, V2. apply (route_inj root _ _ (fst k)); [rewrite <- E; exact V2|exact V1].
Qed.

(** ** axes *)
Lemma get_snoc a : forall k rt n x tl, get_at a rt = Some n -> nth_error (kids_of n) k = Some (x, tl) -> get_at (a ++ [k]) rt = Some x.
Proof.
  induction a as [|i a IH]; intros k rt n x tl H K; cbn [get_at app] in *.
  - injection H as ->. now rewrite K.
  - destruct (nth_error (kids_of rt) i) as [y|]; [|discriminate]. exact (IH _ _ _ _ _ H K).
Qed.
Lemma to_elem_snoc' a k : to_elem (a ++ [k]) = kid_key (to_elem a) k.
Proof. unfold to_elem, kid_key. now rewrite map_app. Qed.
Lemma enum_In {A} (l : list A) : forall n k x, In (k, x) (enum n l) <-> n <= k /\ nth_error l (k - n) = Some x.
Proof.
  induction l as [|y l IH]; intros n k x; cbn [enum In].
  - split; [intros []|]. intros [_ H]. destruct (k - n); discriminate.
  - rewrite IH. split.
    + intros [[= <- <-]|[H1 H2]]; [split; [lia|now rewrite Nat.sub_diag]|]. split; [lia|]. replace (k - n) with (S (k - S n)) by lia. exact H2.
    + intros [H1 H2]. destruct (Nat.eq_dec k n) as [->|Hk]; [rewrite Nat.sub_diag in H2; cbn in H2; left; congruence|].
      right. split; [lia|]. replace (k - n) with (S (k - S n)) in H2 by lia. exact H2.
Qed.
(** the part of an element from its [m]-th child on *)
Definition part (r : pkey) (m : nat) (k : knode) : Prop := exists x s, @fst pkey item k = r ++ x :: s /\ 2 * m + 2 <= fst x.
Lemma part_S r m k : part r (S m) k -> part r m k.
Proof. intros (x & s & E & L). exists x, s. split; [exact E|lia]. Qed.
Lemma text_before r a t m k j : In k (own_text r a t) -> part r m j -> before (@fst pkey item k) (@fst pkey item j).
Proof. destruct t; [|intros []]. intros [<-|[]] (x & s' & -> & L). cbn [fst]. apply before_ext. left. cbn [fst]. lia. Qed.
Lemma own_text_sorted r a t : sorted (own_text r a t).
Proof. destruct t; [|constructor]. repeat constructor. Qed.
Lemma own_tail_sorted r a i t : sorted (own_tail r a i t).
Proof. destruct t; [|constructor]. repeat constructor. Qed.
Lemma tail_before r a i t k j : In k (own_tail r a i t) -> part r (S i) j -> before (@fst pkey item k) (@fst pkey item j).
Proof. destruct t; [|intros []]. intros [<-|[]] (x & s' & -> & L). cbn [fst]. apply before_ext. left. cbn [fst]. lia. Qed.
Lemma tail_part r a i t k : In k (own_tail r a i t) -> part r i k.
Proof. destruct t; [|intros []]. intros [<-|[]]. exists (2 * i + 3, 0), []. split; [reflexivity|cbn; lia]. Qed.

Definition kgo (r : pkey) (a : addr) : nat -> list (node * option str) -> list knode :=
  fix go (i : nat) (l : list (node * option str)) : list knode :=
    match l with
    | [] => []
    | (x, tl) :: l' => ((kid_key r i, IElem (a ++ [i]) x) :: kbelow (kid_key r i) (a ++ [i]) x) ++ own_tail r a i tl ++ go (S i) l'
    end.
Lemma kbelow_elem r a q ats t ks : kbelow r a (Elem q ats t ks) = own_text r a t ++ kgo r a 0 ks.
Proof. reflexivity. Qed.
Definition below_ok (n : node) : Prop := forall r a, sorted (kbelow r a n) /\ Forall (fun k => exists x s, @fst pkey item k = r ++ x :: s) (kbelow r a n).
Lemma kgo_sorted r a ks : Forall (fun k => below_ok (fst k)) ks -> forall i, sorted (kgo r a i ks) /\ Forall (part r i) (kgo r a i ks).
Proof.
  induction 1 as [|[x tl] ks Hx _ IH]; intros i; cbn [kgo]; [split; constructor|]. fold (kgo r a). cbn [fst] in Hx. destruct (Hx (kid_key r i) (a ++ [i])) as [B1 B2]. destruct (IH (S i)) as [I1 I2].
  rewrite Forall_forall in B2, I2.
  assert (P1 : forall k, In k ((kid_key r i, IElem (a ++ [i]) x) :: kbelow (kid_key r i) (a ++ [i]) x) -> exists s, @fst pkey item k = r ++ (2 * i + 2, 0) :: s).
  { intros k [<-|Hk]; [exists []; reflexivity|]. destruct (B2 _ Hk) as (y & s & ->). exists (y :: s). unfold kid_key. now rewrite <- app_assoc. }
  split.
  - apply sorted_app; [|apply sorted_app; [apply own_tail_sorted|exact I1|intros k j Hk Hj; exact (tail_before _ _ _ _ _ _ Hk (I2 _ Hj))]|].
    + unfold sorted in *. cbn [map fst]. constructor; [exact B1|]. apply Forall_forall. intros s Hs. apply in_map_iff in Hs as (k & <- & Hk). destruct (B2 _ Hk) as (y & s & ->). apply before_prefix.
    + intros k j Hk Hj. destruct (P1 _ Hk) as (s & ->). apply in_app_or in Hj as [Hj|Hj].
      * destruct tl; [|destruct Hj]. destruct Hj as [<-|[]]. cbn [fst]. apply before_ext. left. cbn; lia.
      * destruct (I2 _ Hj) as (y & s' & -> & L). apply before_ext. left. cbn [fst]. lia.
  - apply Forall_forall. intros k Hk. apply in_app_or in Hk as [Hk|Hk]; [destruct (P1 _ Hk) as (s & E); exists (2 * i + 2, 0), s; split; [exact E|cbn; lia]|].
    apply in_app_or in Hk as [Hk|Hk]; [exact (tail_part _ _ _ _ _ Hk)|]. apply part_S. now apply I2.
Qed.
Lemma below_sorted n : below_ok n.
Proof.
  induction n as [q ats t ks IH|s] using node_ind'; intros r a; [|split; constructor]. rewrite kbelow_elem. destruct (kgo_sorted r a ks IH 0) as [G1 G2]. rewrite Forall_forall in G2. split.
  - apply sorted_app; [apply own_text_sorted|exact G1|]. intros k j Hk Hj. exact (text_before _ _ _ _ _ _ Hk (G2 _ Hj)).
  - apply Forall_forall. intros k Hk. apply in_app_or in Hk as [Hk|Hk].
    + destruct t; [|destruct Hk]. destruct Hk as [<-|[]]. exists (1, 0), []. reflexivity.
    + destruct (G2 _ Hk) as (x & s & E & _). exists x, s. exact E.
Qed.
(** children *)
Lemma kgo_children r a ks : forall i k, In k (flat_map (fun x => (kid_key r (fst x), IElem (a ++ [fst x]) (fst (snd x))) :: own_tail r a (fst x) (snd (snd x))) (enum i ks)) -> In k (kgo r a i ks).
Proof.
  induction ks as [|[x tl] ks IH]; intros i k; cbn [enum flat_map kgo fst snd]; [intros []|]. fold (kgo r a). intros [H|H].
  - left. exact H.
  - apply in_app_or in H. apply in_or_app. right. apply in_or_app. destruct H as [H|H]; [now left|right; now apply IH].
Qed.
Lemma children_sorted r a n : sorted (kchildren r a n).
Proof.
  destruct n as [q ats t ks|s]; [|constructor]. cbn [kchildren].
  assert (G : forall i, sorted (flat_map (fun x => (kid_key r (fst x), IElem (a ++ [fst x]) (fst (snd x))) :: own_tail r a (fst x) (snd (snd x))) (enum i ks)) /\
    Forall (part r i) (flat_map (fun x => (kid_key r (fst x), IElem (a ++ [fst x]) (fst (snd x))) :: own_tail r a (fst x) (snd (snd x))) (enum i ks))).
  { induction ks as [|[x tl] ks IH]; intros i; cbn [enum flat_map fst snd]; [split; constructor|]. destruct (IH (S i)) as [I1 I2]. rewrite Forall_forall in I2. split.
    - change ((kid_key r i, IElem (a ++ [i]) x) :: own_tail r a i tl) with ([(kid_key r i, IElem (a ++ [i]) x)] ++ own_tail r a i tl). rewrite <- app_assoc.
      apply sorted_app; [repeat constructor|apply sorted_app; [apply own_tail_sorted|exact I1|intros k j Hk Hj; exact (tail_before _ _ _ _ _ _ Hk (I2 _ Hj))]|].
      intros k j [<-|[]] Hj. unfold kid_key. cbn [fst]. apply in_app_or in Hj as [Hj|Hj].
      + destruct tl; [|destruct Hj]. destruct Hj as [<-|[]]. cbn [fst]. apply before_ext. left. cbn; lia.
      + destruct (I2 _ Hj) as (y & s & -> & L). apply before_ext. left. cbn [fst]. lia.
    - apply Forall_forall. intros k [<-|Hk]; [exists (2 * i + 2, 0), []; split; [reflexivity|cbn; lia]|]. apply in_app_or in Hk as [Hk|Hk]; [exact (tail_part _ _ _ _ _ Hk)|]. apply part_S. now apply I2. }
  destruct (G 0) as [G1 G2]. rewrite Forall_forall in G2. apply sorted_app; [apply own_text_sorted|exact G1|]. intros k j Hk Hj. exact (text_before _ _ _ _ _ _ Hk (G2 _ Hj)).
Qed.
Lemma children_ok a n : get_at a root = Some n -> represents (kchildren (to_elem a) a n) (child (IElem a n)).
Proof.
  intros G. split; [apply children_sorted|].
  assert (M : forall k, In k (kchildren (to_elem a) a n) -> valid k /\ child (IElem a n) (snd k)).
  { intros k H. destruct n as [q ats t ks|s]; [|destruct H]. cbn [kchildren] in H. apply in_app_or in H as [H|H].
    - destruct t as [s|]; [|destruct H]. destruct H as [<-|[]]. cbn [fst snd]. split; [econstructor; [exact G|reflexivity]|constructor].
    - apply in_flat_map in H as ([i [x tl]] & Hi & H). apply enum_In in Hi as [_ Hi]. rewrite Nat.sub_0_r in Hi. cbn [fst snd] in H. destruct H as [<-|H].
      + cbn [fst snd]. split; [|econstructor; exact Hi]. rewrite <- to_elem_snoc'. constructor. exact (get_snoc a i root _ x tl G Hi).
      + destruct tl as [s|]; [|destruct H]. destruct H as [<-|[]]. cbn [fst snd]. split; [|econstructor; exact Hi]. econstructor; [exact G|exact Hi]. }
  split; [apply Forall_forall; intros k Hk; now apply M|]. intros i. split.
  - intros H. apply in_map_iff in H as (k & <- & Hk). now apply M.
  - intros H. inversion H as [a0 q ats t ks k x tl K|a0 q ats s ks|a0 q ats t ks k x s K]; subst; cbn [kchildren].
    + apply in_map_iff. exists (kid_key (to_elem a) k, IElem (a ++ [k]) x). split; [reflexivity|]. apply in_or_app. right. apply in_flat_map. exists (k, (x, tl)). split; [|now left].
      apply enum_In. rewrite Nat.sub_0_r. split; [lia|exact K].
    + now left.
    + apply in_map_iff. exists (tail_key (to_elem a) k, IText (a ++ [k]) true s). split; [reflexivity|]. apply in_or_app. right. apply in_flat_map. exists (k, (x, Some s)). split; [|right; now left].
      apply enum_In. rewrite Nat.sub_0_r. split; [lia|exact K].
Qed.
(** everything inside *)
Lemma inside_child c i : inside c i -> exists j, child c j /\ (i = j \/ inside j i).
Proof. intros H. destruct H as [c i H|c j i H H']; [exists i; auto|exists j; auto]. Qed.
Lemma text_no_child a tl s i : ~ child (IText a tl s) i.
Proof. intros H. inversion H. Qed.
Lemma misc_no_child a s i : ~ child (IElem a (Misc s)) i.
Proof. intros H. inversion H. Qed.
Lemma below_ok2 n : forall a, get_at a root = Some n -> Forall (fun k => valid k) (kbelow (to_elem a) a n) /\ forall i, In i (map snd (kbelow (to_elem a) a n)) <-> inside (IElem a n) i.
Proof.
  induction n as [q ats t ks IH|s] using node_ind'; intros a G.
  - rewrite kbelow_elem.
    assert (K : forall m, (forall j, nth_error ks (m + j) = nth_error (skipn m ks) j) -> Forall (fun k => valid k) (kgo (to_elem a) a m (skipn m ks)) /\
      forall i, In i (map snd (kgo (to_elem a) a m (skipn m ks))) <-> exists j x tl, m <= j /\ nth_error ks j = Some (x, tl) /\ (i = IElem (a ++ [j]) x \/ inside (IElem (a ++ [j]) x) i \/ exists s, tl = Some s /\ i = IText (a ++ [j]) true s)).
    { intros m _. remember (skipn m ks) as l eqn:El. revert m El. induction l as [|[x tl] l IHl]; intros m El; cbn [kgo].
      - split; [constructor|]. intros i. split; [intros []|]. intros (j & x & tl & L & N0 & _). exfalso. assert (H : nth_error (skipn m ks) (j - m) = Some (x, tl)).
        { rewrite <- N0. clear -L. revert j L ks. induction m as [|m IHm]; intros j L ks; [cbn; f_equal; lia|]. destruct ks as [|y ks]; [now destruct (j - S m), j|]. destruct j as [|j]; [lia|]. cbn [skipn nth_error]. rewrite <- (IHm j ltac:(lia)). f_equal. }
        rewrite <- El in H. now destruct (j - m).
      - fold (kgo (to_elem a) a). assert (Em : nth_error ks m = Some (x, tl) /\ skipn (S m) ks = l).
        { clear -El. revert ks El. induction m as [|m IHm]; intros ks El; [cbn in El; subst ks; split; reflexivity|]. destruct ks as [|y ks]; [discriminate|]. cbn [skipn] in El. destruct (IHm _ El) as [A B]. split; [exact A|]. exact B. }
        destruct Em as [Em Es]. destruct (IHl (S m) (eq_sym Es)) as [V2 M2].
        rewrite Forall_forall in IH. pose proof (IH _ (nth_error_In _ _ Em)) as IHx. cbn [fst] in IHx. pose proof (get_snoc a m root _ x tl G Em) as Gx. destruct (IHx _ Gx) as [V1 M1].
        rewrite to_elem_snoc' in V1, M1. split.
        + apply Forall_app. split; [constructor; [rewrite <- to_elem_snoc'; now constructor|exact V1]|]. apply Forall_app. split; [|exact V2]. destruct tl as [s|]; constructor; [|constructor].
          cbn [fst snd]. econstructor; [exact G|exact Em].
        + intros i. rewrite !map_app, !in_app_iff. cbn [map snd In]. rewrite M1, M2. split.
          * intros [[<-|H]|[H|(j & y & tl' & L & N0 & H)]].
            -- exists m, x, tl. split; [lia|]. split; [exact Em|]. now left.
            -- exists m, x, tl. split; [lia|]. split; [exact Em|]. right. now left.
            -- destruct tl as [s|]; [|destruct H]. destruct H as [<-|[]]. exists m, x, (Some s). split; [lia|]. split; [exact Em|]. right. right. eauto.
            -- exists j, y, tl'. split; [lia|]. now split.
          * intros (j & y & tl' & L & N0 & H). destruct (Nat.eq_dec j m) as [->|Hj].
            -- rewrite Em in N0. injection N0 as <- <-. destruct H as [->|[H|(s & -> & ->)]]; [left; now left|left; now right|right; left; now left].
            -- right. right. exists j, y, tl'. split; [lia|]. now split. }
    destruct (K 0 (fun j => eq_refl)) as [V M]. cbn [skipn] in V, M. split.
    + apply Forall_app. split; [|exact V]. destruct t as [s|]; constructor; [|constructor]. cbn [fst snd]. econstructor; [exact G|reflexivity].
    + intros i. rewrite map_app, in_app_iff, M. split.
      * intros [H|(j & x & tl & _ & N0 & [->|[H|(s & -> & ->)]])].
        -- destruct t as [s|]; [|destruct H]. destruct H as [<-|[]]. constructor. constructor.
        -- apply directly. econstructor. exact N0.
        -- eapply deeper; [econstructor; exact N0|exact H].
        -- apply directly. econstructor. exact N0.
      * intros H. apply inside_child in H as (j & C & H). inversion C as [a0 q0 ats0 t0 ks0 k x tl N0|a0 q0 ats0 s ks0|a0 q0 ats0 t0 ks0 k x s N0]; subst.
        -- right. exists k, x, tl. split; [lia|]. split; [exact N0|]. destruct H as [->|H]; auto.
        -- destruct H as [->|H]; [left; now left|]. apply inside_child in H as (j & C' & _). now apply text_no_child in C'.
        -- destruct H as [->|H]; [right; exists k, x, (Some s); split; [lia|]; split; [exact N0|]; eauto|]. apply inside_child in H as (j & C' & _). now apply text_no_child in C'.
  - split; [constructor|]. intros i. split; [intros []|]. intros H. apply inside_child in H as (j & C & _). now apply misc_no_child in C.
Qed.
Lemma below_rep k : valid k -> represents (kbelow_of k) (inside (snd k)).
Proof.
  intros V. unfold kbelow_of. destruct k as [r [a n|a q v|a tl s]]; cbn [fst snd] in *.
  - inversion V as [a0 n0 G E1 E2| | |]; subst. destruct (below_ok2 n a G) as [A B]. split; [apply below_sorted|]. split; [exact A|exact B].
  - apply rep_nil. intros i H. apply inside_child in H as (j & C & _). inversion C.
  - apply rep_nil. intros i H. apply inside_child in H as (j & C & _). now apply text_no_child in C.
Qed.
Lemma below_self_rep k : valid k -> represents (k :: kbelow_of k) (fun i => snd k = i \/ inside (snd k) i).
Proof.
  intros V. destruct (below_rep k V) as (A & B & C). split; [|split].
  - unfold sorted in *. cbn [map]. constructor; [exact A|]. unfold kbelow_of. destruct (snd k) as [a n|a q v|a tl s]; try constructor.
    destruct (below_sorted n (fst k) a) as [_ F]. apply Forall_forall. intros r Hr. apply in_map_iff in Hr as (j & <- & Hj). rewrite Forall_forall in F. destruct (F _ Hj) as (x & s & ->). apply before_prefix.
  - now constructor.
  - intros i. cbn [map In]. now rewrite C.
Qed.
Lemma attrs_rep a n : get_at a root = Some n -> represents (kattrs (to_elem a) a n) (attribute (IElem a n)).
Proof.
  intros G. unfold kattrs. split; [|split].
  - unfold sorted. rewrite map_map. cbn [fst]. assert (H : forall (l : list (qname * str)) i, StronglySorted before (map (fun x => to_elem a ++ [(0, fst x)]) (enum i l)) /\ Forall (fun x => i <= fst x) (enum i l)).
    { induction l as [|x l IH]; intros i; cbn [enum map]; [split; constructor|]. destruct (IH (S i)) as [I1 I2]. split.
      - constructor; [exact I1|]. apply Forall_map. eapply Forall_impl; [|exact I2]. cbv beta. intros y Hy. apply before_ext. right. cbn [fst snd] in *. lia.
      - constructor; [cbn; lia|]. eapply Forall_impl; [|exact I2]. cbv beta. intros; lia. }
    apply H.
  - apply Forall_forall. intros k Hk. apply in_map_iff in Hk as ([i [q v]] & <- & Hi). apply enum_In in Hi as [_ Hi]. rewrite Nat.sub_0_r in Hi. cbn [fst snd]. econstructor; [exact G|exact Hi].
  - intros i. rewrite map_map. cbn [snd]. rewrite in_map_iff. split.
    + intros ([j [q v]] & <- & Hj). apply enum_In in Hj as [_ Hj]. rewrite Nat.sub_0_r in Hj. cbn [fst snd]. destruct n; [|destruct j; discriminate]. constructor. exact (nth_error_In _ _ Hj).
    + intros H. inversion H as [a0 q ats t ks q' v Hin]; subst. apply In_nth_error in Hin as [j Hj]. exists (j, (q', v)). split; [reflexivity|]. apply enum_In. rewrite Nat.sub_0_r. split; [lia|exact Hj].
Qed.
End In_doc.
