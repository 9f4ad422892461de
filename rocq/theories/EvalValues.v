(** Proof that the evaluator of XPathRead.v computes the meanings of EvalSpec.v: predicates, values, functions, expressions. *)
From Coq Require Import String Arith ZArith NArith List Lia Bool Sorted Permutation.
From Verif Require Import FieldUndo MapperProofs XPathEval FieldSpec ReadSpec EvalSpec EvalMeaning XPathRead EvalOrder EvalMain.
Import ListNotations.

Section In_doc.
Variable root : node.
Hypothesis D : attributes_distinct root.
Notation valid k := (route root (@snd pkey item k) (@fst pkey item k)).
Notation represents := (represents root).

(** ** counting *)
Lemma how_many_unique X n m : how_many X n -> how_many X m -> n = m.
Proof.
  intros (l & N0 & M & ->) (l' & N1 & M' & ->). apply Permutation_length. apply NoDup_Permutation; [exact N0|exact N1|]. intros i. now rewrite M, M'.
Qed.
Lemma how_many_ext X Y n : (forall i, X i <-> Y i) -> how_many X n -> how_many Y n.
Proof. intros H (l & N0 & M & ->). exists l. split; [exact N0|]. split; [|reflexivity]. intros i. now rewrite M. Qed.
Lemma rep_many l X : represents l X -> how_many X (List.length l).
Proof. intros R. exists (map snd l). split; [exact (rep_nodup root D _ _ R)|]. split; [apply R|now rewrite map_length]. Qed.
Lemma precedes_keys j k : valid j -> valid k -> precedes root (snd j) (snd k) <-> before (@fst pkey item j) (@fst pkey item k).
Proof.
  intros Vj Vk. split; [|intros H; exists (fst j), (fst k); auto]. intros (r & r' & R & R' & B). now rewrite (route_unique _ _ _ _ D Vj R), (route_unique _ _ _ _ D Vk R').
Qed.
Lemma nodup_left {A} (l l' : list A) : NoDup (l ++ l') -> NoDup l.
Proof.
  induction l as [|x l IH]; [constructor|]. cbn [app]. intros H. inversion H as [|? ? H1 H2]; subst. constructor; [|now apply IH]. intros Hx. apply H1. apply in_or_app. now left.
Qed.
Lemma rep_position l X m k : represents l X -> nth_error l m = Some k -> forall pos, position root X (snd k) pos <-> pos = S m.
Proof.
  intros R H. pose proof R as (S0 & V & M). pose proof V as V'. rewrite Forall_forall in V'. pose proof (V' _ (nth_error_In _ _ H)) as Vk.
  apply nth_error_split in H as (l1 & l2 & -> & <-).
  assert (Hm : how_many (fun j => X j /\ precedes root j (snd k)) (List.length l1)).
  { exists (map snd l1). split.
    - pose proof (rep_nodup root D _ _ R) as N0. rewrite map_app in N0. exact (nodup_left _ _ N0).
    - split; [|now rewrite map_length]. unfold sorted in S0. rewrite map_app in S0. cbn [map] in S0. intros i. split.
      + intros H. apply in_map_iff in H as (j & <- & Hj). split; [apply M; apply in_map; apply in_or_app; now left|].
        apply precedes_keys; [apply V'; apply in_or_app; now left|exact Vk|]. clear -S0 Hj. induction l1 as [|x l1 IH]; [destruct Hj|]. cbn [map app] in S0. apply StronglySorted_inv in S0 as [S1 F].
        destruct Hj as [->|Hj]; [|now apply IH]. rewrite Forall_forall in F. apply F. apply in_or_app. right. now left.
      + intros [Hi P]. apply M in Hi. apply in_map_iff in Hi as (j & <- & Hj). pose proof (V' _ Hj) as Vj. apply precedes_keys in P; [|exact Vj|exact Vk]. apply in_map.
        apply in_app_or in Hj as [Hj|[<-|Hj]]; [exact Hj|now apply before_irr in P|]. exfalso. assert (B : before (fst k) (fst j)); [|exact (before_asym _ _ P B)].
        clear -S0 Hj. induction l1 as [|x l1 IH]; cbn [map app] in S0; apply StronglySorted_inv in S0 as [S1 F]; [|now apply IH]. rewrite Forall_forall in F. apply F. now apply in_map. }
  intros pos. split.
  - intros (n & Hn & ->). f_equal. exact (how_many_unique _ _ _ Hn Hm).
  - intros ->. now exists (List.length l1).
Qed.

(** ** predicates *)
Lemma kfilter_In f l k : In k (kfilter f l) <-> exists m, nth_error l m = Some k /\ f k (S m) (List.length l) = true.
Proof.
  unfold kfilter. rewrite in_flat_map. split.
  - intros ([m j] & Hm & H). apply enum_In in Hm as [_ Hm]. rewrite Nat.sub_0_r in Hm. cbn [fst snd] in H. destruct (f j (S m) (List.length l)) eqn:F; [|destruct H]. destruct H as [<-|[]]. eauto.
  - intros (m & Hm & F). exists (m, k). split; [apply enum_In; rewrite Nat.sub_0_r; split; [lia|exact Hm]|]. cbn [fst snd]. rewrite F. now left.
Qed.
Lemma kfilter_sorted f l : sorted l -> sorted (kfilter f l).
Proof.
  unfold kfilter. generalize (List.length l). intros n. generalize 0. unfold sorted. induction l as [|x l IH]; intros i H; cbn [enum flat_map fst snd map] in *; [constructor|].
  apply StronglySorted_inv in H as [H1 H2]. specialize (IH (S i) H1). destruct (f x (S i) n); [|exact IH]. cbn [app map]. constructor; [exact IH|]. apply Forall_forall. intros r Hr.
  apply in_map_iff in Hr as (y & <- & Hy). apply in_flat_map in Hy as ([j z] & Hj & Hy). apply enum_In in Hj as [_ Hj]. cbn [fst snd] in Hy. destruct (f z (S j) n); [|destruct Hy]. destruct Hy as [<-|[]].
  rewrite Forall_forall in H2. apply H2. apply in_map. exact (nth_error_In _ _ Hj).
Qed.
Lemma rep_kept f (P : item -> nat -> nat -> meaning) l X : represents l X ->
  (forall k pos size, valid k -> f k pos size = true <-> true_at (P (snd k) pos size) pos) -> represents (kfilter f l) (kept_by root P X).
Proof.
  intros R H. pose proof R as (S0 & V & M). split; [now apply kfilter_sorted|]. rewrite Forall_forall in V. split.
  - apply Forall_forall. intros k Hk. apply kfilter_In in Hk as (m & Hm & _). apply V. exact (nth_error_In _ _ Hm).
  - intros i. rewrite in_map_iff. split.
    + intros (k & <- & Hk). apply kfilter_In in Hk as (m & Hm & F). pose proof (nth_error_In _ _ Hm) as Hin. split; [apply M; now apply in_map|]. exists (S m), (List.length l).
      split; [now apply (rep_position l X m k R Hm)|]. split; [exact (rep_many _ _ R)|]. apply H; [now apply V|exact F].
    + intros [Hi (pos & size & Hp & Hs & T)]. apply M in Hi. apply in_map_iff in Hi as (k & <- & Hk). exists k. split; [reflexivity|]. apply kfilter_In. apply In_nth_error in Hk as [m Hm].
      exists m. split; [exact Hm|]. apply (rep_position l X m k R Hm) in Hp. subst pos. rewrite (how_many_unique _ _ _ Hs (rep_many _ _ R)) in T. apply H; [|exact T]. apply V. exact (nth_error_In _ _ Hm).
Qed.

(** ** values *)
Definition kmeans (v : kv) (m : meaning) : Prop :=
  match v, m with
  | KN l, Nodes X => represents l X
  | KS s, Text is => forall s', is s' <-> s' = s
  | KNum (Some (z, O)), Num is => forall z', is z' <-> z' = z
  | KB b, Bool P => b = true <-> P
  | _, _ => False
  end.
Definition has_type (t : vtype) (v : kv) : Prop :=
  match t, v with TNodes, KN _ | TStr, KS _ | TNum, KNum _ | TBool, KB _ => True | _, _ => False end.
Lemma kmeans_meaning v m : kmeans v m -> has_meaning (erase v) m.
Proof.
  destruct v as [l|s|[[z [|k]]|]|b], m as [X|is|is|P|]; cbn; auto; try contradiction. intros R. split; [exact (rep_nodup root D _ _ R)|apply R].
Qed.
Lemma km_true v m : kmeans v m -> to_bool (erase v) = true <-> true_of m.
Proof.
  destruct v as [l|s|[[z [|k]]|]|b], m as [X|is|is|P|]; cbn [kmeans erase to_bool true_of]; try contradiction; intros H.
  - destruct H as (_ & _ & M). destruct l as [|k l]; cbn [map] in *; split; try discriminate; auto; intros.
    + destruct H as [i Hi]. now apply M in Hi.
    + exists (snd k). apply M. now left.
  - split.
    + intros G. exists s. split; [now apply H|]. now intros ->.
    + intros (s' & Hs & N0). apply H in Hs. subst s'. now destruct s.
  - rewrite negb_true_iff, Z.eqb_neq. split; [intros G; exists z; split; [now apply H|exact G]|]. intros (z' & Hz & G). apply H in Hz. now subst.
  - exact H.
Qed.
Lemma km_at v m pos : kmeans v m -> truth (erase v) (N.of_nat pos) = true <-> true_at m pos.
Proof.
  intros K. destruct v as [l|s|[[z [|k]]|]|b], m as [X|is|is|P|]; try contradiction; try exact (km_true _ _ K). cbn [kmeans erase truth true_at] in *.
  unfold num_of_Z. cbn [num_eqb]. rewrite andb_true_iff, Z.eqb_eq, nat_N_Z. rewrite K. cbn. split; [intros [-> _]; reflexivity|intros ->; now split].
Qed.
Lemma rep_exists l X (f : item -> bool) (P : item -> Prop) : represents l X -> (forall i, f i = true <-> P i) -> existsb f (map snd l) = true <-> exists i, X i /\ P i.
Proof.
  intros (_ & _ & M) H. rewrite existsb_exists. split; intros (i & A & B); exists i; (split; [now apply M|now apply H]).
Qed.
Lemma eqb_iff b c (P Q : Prop) : (b = true <-> P) -> (c = true <-> Q) -> Bool.eqb b c = true <-> (P <-> Q).
Proof. intros H G. destruct b, c; cbn; rewrite <- H, <- G; intuition congruence. Qed.
Lemma number_text_sym s z : num_eqb (xnumber s) (Some (z, 0)) = true <-> stands_for s z.
Proof. exact (number_text s z). Qed.
Lemma num_eqb_Z z z' : num_eqb (Some (z, 0)) (Some (z', 0)) = true <-> z = z'.
Proof. cbn. rewrite andb_true_iff, Z.eqb_eq. intuition. Qed.
Lemma km_eq v w m n : kmeans v m -> kmeans w n -> xeq (erase v) (erase w) = true <-> equal_values m n.
Proof.
  intros K L.
  assert (BL : forall b, (xeq (XB b) (erase w) = Bool.eqb b (to_bool (erase w)))) by (intros b; now destruct w).
  assert (BR : forall b, (xeq (erase v) (XB b) = Bool.eqb b (to_bool (erase v)))) by (intros b; destruct v; try reflexivity; destruct b, b0; reflexivity).
  destruct v as [l|s|[[z [|k]]|]|b], m as [X|is|is|P|]; try contradiction; destruct w as [l'|s'|[[z' [|k']]|]|b'], n as [Y|is'|is'|P'|]; try contradiction; cbn [kmeans] in K, L;
    cbn [erase equal_values];
    lazymatch goal with
    | |- xeq (XB _) (XB _) = true <-> _ => cbn [xeq to_bool]; now apply eqb_iff
    | |- xeq (XB _) _ = true <-> _ => change (xeq (XB b) ?x) with (Bool.eqb b (to_bool x)); apply eqb_iff; [exact K|]
    | |- xeq ?x (XB _) = true <-> _ => change (xeq x (XB b')) with (Bool.eqb b' (to_bool x)); apply eqb_iff; [exact L|]
    | |- _ => cbn [xeq]
    end.
  - rewrite (rep_exists _ _ _ (fun i => exists j s, Y j /\ string_value i s /\ string_value j s) K).
    + split; [intros (i & A & j & s & B); exists i, j, s; tauto|intros (i & j & s & A & B); exists i; split; [exact A|exists j, s; tauto]].
    + intros i. rewrite (rep_exists _ _ _ (fun j => exists s, string_value i s /\ string_value j s) L).
      * split; [intros (j & A & s & B); exists j, s; tauto|intros (j & s & A & B); exists j; split; [exact A|exists s; tauto]].
      * intros j. rewrite str_eqb_eq. split; [intros Q; exists (item_str i); split; apply string_value_item; [reflexivity|exact Q]|].
        intros (s & A & B). apply string_value_item in A, B. congruence.
  - rewrite (rep_exists _ _ _ (fun i => string_value i s') K) by (intros i; rewrite string_value_item, str_eqb_eq; split; congruence).
    split; [intros (i & A & B); exists i, s'; split; [exact A|]; split; [exact B|now apply L]|intros (i & s & A & B & C); apply L in C; subst s; eauto].
  - rewrite (rep_exists _ _ _ (fun i => exists s, string_value i s /\ stands_for s z') K).
    + split; [intros (i & A & s & B & C); exists i, s, z'; repeat split; auto; now apply L|intros (i & s & z & A & B & C & F); apply L in C; subst z; exists i; split; [exact A|eauto]].
    + intros i. rewrite number_text_sym. split; [intros H; exists (item_str i); split; [now apply string_value_item|exact H]|intros (s & A & B); apply string_value_item in A; now subst].
  - exact (km_true (KN l) (Nodes X) K).
  - rewrite (rep_exists _ _ _ (fun i => string_value i s) L) by (intros i; rewrite string_value_item, str_eqb_eq; split; congruence).
    split; [intros (i & A & B); exists i, s; split; [exact A|]; split; [exact B|now apply K]|intros (i & s0 & A & B & C); apply K in C; subst s0; eauto].
  - rewrite str_eqb_eq. split; [intros ->; exists s'; split; [now apply K|now apply L]|intros (x & A & B); apply K in A; apply L in B; congruence].
  - rewrite number_text_sym. split; [intros H; exists s, z'; split; [now apply K|]; split; [now apply L|exact H]|intros (x & y & A & B & C); apply K in A; apply L in B; now subst].
  - exact (km_true (KS s) (Text is) K).
  - rewrite (rep_exists _ _ _ (fun i => exists s, string_value i s /\ stands_for s z) L).
    + split; [intros (i & A & s & B & C); exists i, s, z; repeat split; auto; now apply K|intros (i & s & y & A & B & C & F); apply K in C; subst y; exists i; split; [exact A|eauto]].
    + intros i. rewrite number_text_sym. split; [intros H; exists (item_str i); split; [now apply string_value_item|exact H]|intros (s & A & B); apply string_value_item in A; now subst].
  - rewrite number_text_sym. split; [intros H; exists s', z; split; [now apply L|]; split; [now apply K|exact H]|intros (x & y & A & B & C); apply L in A; apply K in B; now subst].
  - rewrite num_eqb_Z. split; [intros ->; exists z'; split; [now apply K|now apply L]|intros (x & A & B); apply K in A; apply L in B; congruence].
  - exact (km_true (KNum (Some (z, 0))) (Num is) K).
  - exact (km_true (KN l') (Nodes Y) L).
  - exact (km_true (KS s') (Text is') L).
  - exact (km_true (KNum (Some (z', 0))) (Num is') L).
Qed.
Lemma not_iff b (P : Prop) : (b = true <-> P) -> negb b = true <-> ~ P.
Proof. intros H. rewrite negb_true_iff, <- H. destruct b; split; congruence. Qed.
Lemma km_ne v w m n : kmeans v m -> kmeans w n -> xne (erase v) (erase w) = true <-> different_values m n.
Proof.
  intros K L.
  destruct v as [l|s|[[z [|k]]|]|b], m as [X|is|is|P|]; try contradiction; destruct w as [l'|s'|[[z' [|k']]|]|b'], n as [Y|is'|is'|P'|]; try contradiction; cbn [kmeans] in K, L;
    cbn [erase different_values];
    lazymatch goal with
    | |- xne (XB _) (XB _) = true <-> _ => cbn [xne to_bool]; apply not_iff; now apply eqb_iff
    | |- xne (XB _) _ = true <-> _ => change (xne (XB b) ?x) with (negb (Bool.eqb b (to_bool x))); apply not_iff, eqb_iff; [exact K|]
    | |- xne ?x (XB _) = true <-> _ => change (xne x (XB b')) with (negb (Bool.eqb b' (to_bool x))); apply not_iff, eqb_iff; [exact L|]
    | |- _ => cbn [xne]
    end.
  - rewrite (rep_exists _ _ _ (fun i => exists j s s', Y j /\ string_value i s /\ string_value j s' /\ s <> s') K).
    + split; [intros (i & A & j & s & s' & B); exists i, j, s, s'; tauto|intros (i & j & s & s' & A & B); exists i; split; [exact A|exists j, s, s'; tauto]].
    + intros i. rewrite (rep_exists _ _ _ (fun j => exists s s', string_value i s /\ string_value j s' /\ s <> s') L).
      * split; [intros (j & A & s & s' & B); exists j, s, s'; tauto|intros (j & s & s' & A & B); exists j; split; [exact A|exists s, s'; tauto]].
      * intros j. rewrite (not_iff _ (item_str i = item_str j)) by apply str_eqb_eq. split; [intros Q; exists (item_str i), (item_str j); repeat split; [now apply string_value_item|now apply string_value_item|exact Q]|].
        intros (s & s' & A & B & C). apply string_value_item in A, B. congruence.
  - rewrite (rep_exists _ _ _ (fun i => exists s, string_value i s /\ s <> s') K).
    + split; [intros (i & A & s & B & C); exists i, s, s'; repeat split; auto; now apply L|intros (i & s & t & A & B & C & F); apply L in C; subst t; exists i; split; [exact A|eauto]].
    + intros i. rewrite (not_iff _ (item_str i = s')) by apply str_eqb_eq. split; [intros H; exists (item_str i); split; [now apply string_value_item|exact H]|intros (s & A & B); apply string_value_item in A; now subst].
  - rewrite (rep_exists _ _ _ (fun i => exists s, string_value i s /\ ~ stands_for s z') K).
    + split; [intros (i & A & s & B & C); exists i, s, z'; repeat split; auto; now apply L|intros (i & s & z & A & B & C & F); apply L in C; subst z; exists i; split; [exact A|eauto]].
    + intros i. rewrite (not_iff _ _ (number_text_sym _ _)). split; [intros H; exists (item_str i); split; [now apply string_value_item|exact H]|intros (s & A & B); apply string_value_item in A; now subst].
  - exact (km_true (KN l) (Nodes X) K).
  - rewrite (rep_exists _ _ _ (fun i => exists s', string_value i s' /\ s' <> s) L).
    + split; [intros (i & A & s' & B & C); exists i, s', s; repeat split; auto; now apply K|intros (i & s' & t & A & B & C & F); apply K in C; subst t; exists i; split; [exact A|eauto]].
    + intros i. rewrite (not_iff _ (item_str i = s)) by apply str_eqb_eq. split; [intros H; exists (item_str i); split; [now apply string_value_item|exact H]|intros (s' & A & B); apply string_value_item in A; now subst].
  - rewrite (not_iff _ (s = s')) by apply str_eqb_eq. split; [intros H; exists s, s'; split; [now apply K|]; split; [now apply L|exact H]|intros (x & y & A & B & C); apply K in A; apply L in B; congruence].
  - rewrite (not_iff _ _ (number_text_sym _ _)). split; [intros H; exists s, z'; split; [now apply K|]; split; [now apply L|exact H]|intros (x & y & A & B & C); apply K in A; apply L in B; now subst].
  - exact (km_true (KS s) (Text is) K).
  - rewrite (rep_exists _ _ _ (fun i => exists s, string_value i s /\ ~ stands_for s z) L).
    + split; [intros (i & A & s & B & C); exists i, s, z; repeat split; auto; now apply K|intros (i & s & y & A & B & C & F); apply K in C; subst y; exists i; split; [exact A|eauto]].
    + intros i. rewrite (not_iff _ _ (number_text_sym _ _)). split; [intros H; exists (item_str i); split; [now apply string_value_item|exact H]|intros (s & A & B); apply string_value_item in A; now subst].
  - rewrite (not_iff _ _ (number_text_sym _ _)). split; [intros H; exists s', z; split; [now apply L|]; split; [now apply K|exact H]|intros (x & y & A & B & C); apply L in A; apply K in B; now subst].
  - rewrite (not_iff _ _ (num_eqb_Z z z')). split; [intros H; exists z, z'; split; [now apply K|]; split; [now apply L|exact H]|intros (x & y & A & B & C); apply K in A; apply L in B; congruence].
  - exact (km_true (KNum (Some (z, 0))) (Num is) K).
  - exact (km_true (KN l') (Nodes Y) L).
  - exact (km_true (KS s') (Text is') L).
  - exact (km_true (KNum (Some (z', 0))) (Num is') L).
Qed.
End In_doc.
