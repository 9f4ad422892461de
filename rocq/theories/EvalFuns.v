(** Proof that the evaluator of XPathRead.v computes the meanings of EvalSpec.v: functions, expressions. *)
From Coq Require Import String Arith ZArith NArith List Lia Bool Sorted Permutation.
From Verif Require Import FieldUndo MapperProofs XPathEval FieldSpec ReadSpec EvalSpec EvalMeaning XPathRead EvalOrder EvalMain EvalValues.
Import ListNotations.

(** ** texts *)
Lemma blank_ws c : xml_blank c <-> is_xws c = true.
Proof. unfold xml_blank, is_xws. rewrite !orb_true_iff, !N.eqb_eq. tauto. Qed.
Lemma words_spaced s ws : words s ws <-> MapperProofs.spaced s ws.
Proof.
  assert (B : forall a, blank_text a <-> all_ws a).
  { intros a. unfold blank_text, all_ws. rewrite Forall_forall. split; intros H c Hc; apply blank_ws, H, Hc. }
  assert (W : forall w, a_word w <-> word w).
  { intros w. unfold a_word, word. rewrite Forall_forall. split; intros [A H]; (split; [exact A|]); intros c Hc; specialize (H c Hc); [|rewrite blank_ws; congruence].
    rewrite blank_ws in H. now destruct (is_xws c). }
  split; intros H.
  - induction H as [s H|a w b ws Ha Hw Hb _ IH]; constructor; try assumption; try (now apply B); try (now apply W). destruct b; [exact I|now apply blank_ws].
  - induction H as [s H|a w b ws Ha Hw Hb _ IH]; constructor; try assumption; try (now apply B); try (now apply W). destruct b; [exact I|now apply blank_ws].
Qed.
Lemma words_ok s ws : words s ws <-> ws = norm_words s [].
Proof.
  rewrite words_spaced. split; [intros H; now rewrite (norm_words_spaced _ _ H)|]. intros ->. apply (spaced_norm s []). intros ? [].
Qed.
Lemma spaces_join ws : with_spaces ws = join_sp ws.
Proof. induction ws as [|w [|w' ws] IH]; [reflexivity|reflexivity|]. change (w ++ 32%N :: with_spaces (w' :: ws) = w ++ 32%N :: join_sp (w' :: ws)). now rewrite IH. Qed.
Lemma starts_ok t : forall s, starts t s = true <-> exists b, s = t ++ b.
Proof.
  induction t as [|x t IH]; intros s; cbn [starts app]; [split; [eauto|reflexivity]|]. destruct s as [|y s]; [split; [discriminate|intros (b & H); discriminate]|].
  rewrite andb_true_iff, N.eqb_eq, IH. split; [intros (-> & b & ->); eauto|intros (b & [= -> ->]); eauto].
Qed.
Lemma contains_ok t : forall s, contains t s = true <-> exists a b, s = a ++ t ++ b.
Proof.
  induction s as [|y s IH]; cbn [contains]; rewrite orb_true_iff, starts_ok.
  - split; [intros [(b & H)|H]; [exists [], b; exact H|discriminate]|]. intros (a & b & H). destruct a; [left; exists b; exact H|discriminate].
  - rewrite IH. split.
    + intros [(b & H)|(a & b & ->)]; [exists [], b; exact H|exists (y :: a), b; reflexivity].
    + intros ([|x a] & b & H); [left; exists b; exact H|]. injection H as -> ->. right. eauto.
Qed.

Section In_doc.
Variable root : node.
Hypothesis D : attributes_distinct root.
Notation valid k := (route root (@snd pkey item k) (@fst pkey item k)).
Notation represents := (represents root).
Notation kmeans := (kmeans root).

Lemma rep_first k l X : represents (k :: l) X -> forall i, first_of root X i <-> i = snd k.
Proof.
  intros R. pose proof R as (S0 & V & M). rewrite Forall_forall in V. unfold sorted in S0. cbn [map] in S0. apply StronglySorted_inv in S0 as [S0 F]. rewrite Forall_forall in F.
  assert (H : first_of root X (snd k)).
  { split; [apply M; now left|]. intros j Hj. apply M in Hj. apply in_map_iff in Hj as (h & <- & [<-|Hh]); [now left|]. right. apply (precedes_keys root D); [apply V; now left|apply V; now right|].
    apply F. now apply in_map. }
  intros i. split; [|now intros ->]. intros [Hi Fi]. destruct H as [Hk Fk]. destruct (Fi _ Hk) as [E|P]; [now symmetry|]. destruct (Fk _ Hi) as [E|P']; [exact E|]. exfalso.
  destruct P as (r & r' & R1 & R2 & B), P' as (s & s' & S1 & S2 & B'). rewrite (route_unique _ _ _ _ D S1 R2), (route_unique _ _ _ _ D S2 R1) in B'. exact (before_asym _ _ B B').
Qed.
Lemma rep_empty X : represents [] X -> forall i, ~ X i.
Proof. intros (_ & _ & M) i H. now apply M in H. Qed.
Lemma km_string v m : kmeans v m -> has_type TNodes v \/ has_type TStr v -> forall s, as_string root m s <-> s = kstring v.
Proof.
  intros K T. destruct v as [l|s|n|b], m as [X|is|is|P|]; try contradiction; try (now destruct T); try (destruct n as [[z [|q]]|]; contradiction); try exact K. cbn [as_string] in *. intros s.
  destruct l as [|[r i] l]; cbn [kstring].
  - split; [intros [(i & [H _] & _)|[_ H]]; [now apply (rep_empty X K) in H|exact H]|]. intros ->. right. split; [exact (rep_empty X K)|reflexivity].
  - split.
    + intros [(j & H & S)|[H _]]; [apply (rep_first _ _ _ K) in H; subst j; now apply string_value_item in S|]. destruct (H i). apply (proj2 (proj2 K)). now left.
    + intros ->. left. exists i. split; [now apply (rep_first _ _ _ K)|now apply string_value_item].
Qed.
Definition item_local (i : item) : str := match i with IElem _ (Elem q _ _ _) | IAttr _ q _ => q_local q | _ => [] end.
Lemma local_item i s : has_local_name i s <-> s = item_local i.
Proof. split; [intros H; destruct H; reflexivity|]. intros ->. destruct i as [a [q ats t ks|c]|a q v|a tl t]; cbn; constructor. Qed.
Lemma km_local v m : kmeans v m -> has_type TNodes v -> forall s, local_name_of root m s <-> s = local_name v.
Proof.
  intros K T. destruct v as [l|s|n|b], m as [X|is|is|P|]; try contradiction. unfold local_name_of. cbn [set_of]. intros s. destruct l as [|[r i] l].
  - split; [intros [(i & [H _] & _)|[_ H]]; [now apply (rep_empty X K) in H|exact H]|]. intros ->. right. split; [exact (rep_empty X K)|reflexivity].
  - match goal with |- _ <-> s = ?x => replace x with (item_local i) by (destruct i as [a [q ats t ks|c]|a q v|a tl t]; reflexivity) end. split.
    + intros [(j & H & S)|[H _]]; [apply (rep_first _ _ _ K) in H; subst j; now apply local_item in S|]. destruct (H i). apply (proj2 (proj2 K)). now left.
    + intros ->. left. exists i. split; [now apply (rep_first _ _ _ K)|now apply local_item].
Qed.
Lemma km_length v m : kmeans v m -> has_type TNodes v \/ has_type TStr v -> kmeans (nat_num (List.length (kstring v))) (length_of root m).
Proof. intros K T z. split; [intros (s & A & ->); apply (km_string _ _ K T) in A; now subst|]. intros ->. exists (kstring v). split; [now apply (km_string _ _ K T)|reflexivity]. Qed.
Lemma km_spaces v m : kmeans v m -> has_type TNodes v \/ has_type TStr v -> kmeans (KS (normalize_space (kstring v))) (spaces_of root m).
Proof.
  intros K T s'. split.
  - intros (s & ws & A & B & ->). apply (km_string _ _ K T) in A. apply words_ok in B. subst. apply spaces_join.
  - intros ->. exists (kstring v), (norm_words (kstring v) []). split; [now apply (km_string _ _ K T)|]. split; [now apply words_ok|]. now rewrite spaces_join.
Qed.
Lemma self_rep k : valid k -> represents [k] (eq (snd k)).
Proof. intros V. split; [repeat constructor|]. split; [now constructor|]. intros i. cbn. tauto. Qed.

(** ** functions *)
Lemma call0_ok n k pos size t : valid k -> call_type n [] = Some t -> kmeans (call n (KN [k]) pos size []) (apply0 root n (Nodes (eq (snd k))) pos size) /\ has_type t (call n (KN [k]) pos size []).
Proof.
  intros V. pose proof (self_rep k V) as R. assert (K : kmeans (KN [k]) (Nodes (eq (snd k)))) by exact R. assert (T : has_type TNodes (KN [k]) \/ has_type TStr (KN [k])) by now left.
  cbn [call_type call]. unfold apply0, str_mem. cbn [existsb].
  destruct (str_eqb n (u "position")); [intros [= <-]; split; [intros z; split; intros ->; reflexivity|exact I]|].
  destruct (str_eqb n (u "last")); [intros [= <-]; split; [intros z; split; intros ->; reflexivity|exact I]|].
  destruct (str_eqb n (u "string-length")) eqn:E1.
  { apply str_eqb_eq in E1. subst n. intros [= <-]. split; [exact (km_length _ _ K T)|exact I]. }
  destruct (str_eqb n (u "true")); [intros [= <-]; split; [cbn; tauto|exact I]|].
  destruct (str_eqb n (u "false")); [intros [= <-]; split; [cbn; split; [discriminate|intros []]|exact I]|].
  destruct (str_eqb n (u "string")); [intros [= <-]; split; [exact (km_string _ _ K T)|exact I]|].
  destruct (str_eqb n (u "normalize-space")); [intros [= <-]; split; [exact (km_spaces _ _ K T)|exact I]|].
  destruct (str_eqb n (u "local-name")); [|discriminate]. intros [= <-]. split; [exact (km_local (KN [k]) _ K I)|exact I].
Qed.
Lemma strish_type t v : is_strish (Some t) = true -> has_type t v -> has_type TNodes v \/ has_type TStr v.
Proof. destruct t; try discriminate; auto. Qed.
Lemma call1_ok n c pos size v m t t' : kmeans v m -> has_type t v -> call_type n [Some t] = Some t' -> kmeans (call n c pos size [v]) (apply1 root n m) /\ has_type t' (call n c pos size [v]).
Proof.
  intros K T. cbn [call_type call]. unfold apply1, str_mem. cbn [existsb].
  destruct (str_eqb n (u "count")).
  { destruct t; try discriminate. intros [= <-]. split; [|exact I]. destruct v as [l|s|nn|b], m as [X|is|is|P|]; try contradiction. cbn [knodes set_of]. intros z. split.
    - intros (q & H & ->). now rewrite (how_many_unique _ _ _ H (rep_many root D _ _ K)).
    - intros ->. exists (List.length l). split; [exact (rep_many root D _ _ K)|reflexivity]. }
  destruct (str_eqb n (u "not")); [intros [= <-]; split; [apply not_iff; exact (km_true root _ _ K)|exact I]|].
  destruct (str_eqb n (u "boolean")); [intros [= <-]; split; [exact (km_true root _ _ K)|exact I]|]. cbn [orb].
  destruct (str_eqb n (u "string")); [destruct (is_strish (Some t)) eqn:S0; [|discriminate]; intros [= <-]; split; [exact (km_string _ _ K (strish_type _ _ S0 T))|exact I]|].
  destruct (str_eqb n (u "string-length")) eqn:E1.
  { apply str_eqb_eq in E1. subst n. cbn [orb]. destruct (is_strish (Some t)) eqn:S0; [|discriminate]. intros [= <-]. split; [exact (km_length _ _ K (strish_type _ _ S0 T))|exact I]. }
  destruct (str_eqb n (u "normalize-space")); [cbn [orb]; destruct (is_strish (Some t)) eqn:S0; [|discriminate]; intros [= <-]; split; [exact (km_spaces _ _ K (strish_type _ _ S0 T))|exact I]|].
  cbn [orb]. destruct (str_eqb n (u "local-name")); [|discriminate]. destruct t; try discriminate. intros [= <-]. split; [exact (km_local _ _ K T)|exact I].
Qed.
Lemma call2_ok n c pos size v m t w o s t' : kmeans v m -> has_type t v -> kmeans w o -> has_type s w -> call_type n [Some t; Some s] = Some t' ->
  kmeans (call n c pos size [v; w]) (apply2 root n m o) /\ has_type t' (call n c pos size [v; w]).
Proof.
  intros K T K' T'. cbn [call_type call]. unfold apply2, str_mem. cbn [existsb]. destruct (is_strish (Some t)) eqn:S0; [|now rewrite !andb_false_r].
  destruct (is_strish (Some s)) eqn:S1; [|now rewrite !andb_false_r]. rewrite !andb_true_r.
  pose proof (km_string _ _ K (strish_type _ _ S0 T)) as A. pose proof (km_string _ _ K' (strish_type _ _ S1 T')) as B.
  destruct (str_eqb n (u "contains")); cbn [orb].
  - intros [= <-]. split; [|exact I]. cbn [EvalValues.kmeans]. rewrite contains_ok. split; [intros H; exists (kstring v), (kstring w); split; [now apply A|]; split; [now apply B|exact H]|].
    intros (x & y & Hx & Hy & H). apply A in Hx. apply B in Hy. now subst.
  - destruct (str_eqb n (u "starts-with")); [|discriminate]. intros [= <-]. split; [|exact I]. cbn [EvalValues.kmeans]. rewrite starts_ok.
    split; [intros H; exists (kstring v), (kstring w); split; [now apply A|]; split; [now apply B|exact H]|]. intros (x & y & Hx & Hy & H). apply A in Hx. apply B in Hy. now subst.
Qed.

(** ** steps *)
Lemma ktest_elem E p n i x : x <> AAttr -> ktest E x (NameTest p n) i = true <-> is_element E p n i.
Proof.
  intros Hx. split.
  - destruct i as [a [q ats t ks|c]|a q v|a tl s]; destruct x; try discriminate; try (now destruct Hx); cbn [ktest]; intros H; constructor; now apply test_passes.
  - intros H. destruct H as [a q ats t ks H]. apply test_passes in H. destruct x; try exact H. now destruct Hx.
Qed.
Lemma ktest_text E nt arg i x : ktest E x (NodeType nt arg) i = true <-> is_text i.
Proof. split; [destruct i as [a [q ats t ks|c]|a q v|a tl s]; destruct x; try discriminate; constructor|]. intros H. destruct H. now destruct x. Qed.
Lemma ktest_wanted E t i x : sup_test E t = true -> x <> AAttr -> ktest E x t i = true <-> wanted E t i.
Proof.
  intros Ht Hx. destruct t as [p n|nt [arg|]]; [now apply ktest_elem|discriminate|]. cbn [sup_test wanted] in *. apply str_eqb_eq in Ht. rewrite ktest_text. tauto.
Qed.
Lemma ktest_attr E p n i : ktest E AAttr (NameTest p n) i = true <-> is_attribute E p n i.
Proof.
  split; [destruct i as [a [q ats t ks|c]|a q v|a tl s]; try discriminate; intros H; constructor; now apply test_passes|]. intros H. destruct H as [a q v H]. now apply test_passes in H.
Qed.
Lemma axis_rep x k : valid k -> represents (kaxis x k) (fun i => match x with AChild => child (snd k) i | AAttr => attribute (snd k) i | ASelf => snd k = i | ADesc => inside (snd k) i | ADescSelf => snd k = i \/ inside (snd k) i end).
Proof.
  intros V. destruct x.
  - destruct k as [r [a n|a q v|a tl s]]; cbn [kaxis fst snd] in *.
    + inversion V as [a0 n0 G E1 E2| | |]; subst. now apply children_ok.
    + apply rep_nil. intros i H. inversion H.
    + apply rep_nil. intros i H. inversion H.
  - destruct k as [r [a n|a q v|a tl s]]; cbn [kaxis fst snd] in *.
    + inversion V as [a0 n0 G E1 E2| | |]; subst. now apply attrs_rep.
    + apply rep_nil. intros i H. inversion H.
    + apply rep_nil. intros i H. inversion H.
  - cbn [kaxis]. now apply self_rep.
  - cbn [kaxis]. now apply below_rep.
  - cbn [kaxis]. now apply below_self_rep.
Qed.
Lemma kstep_rep E ax t k : sup_test E t = true -> valid k -> axis_of ax <> None -> represents (kstep E ax t k) (step_to E ax t (snd k)).
Proof.
  intros Ht V Ha. unfold kstep. destruct (axis_of ax) as [x|] eqn:Ax; [|now destruct Ha]. clear Ha. pose proof (axis_rep x k V) as R. unfold axis_of in Ax.
  destruct (child_axis ax) eqn:C; [|destruct (attr_axis ax) eqn:A].
  - injection Ax as <-. apply child_axis_ok in C. eapply rep_ext; [apply (rep_filter root (ktest E AChild t) _ _ (wanted E t) R); intros i; now apply ktest_wanted|]. intros i. split.
    + intros [H W]. now apply to_child.
    + intros H. inversion H; subst; try (destruct C; discriminate); auto. destruct C as [->| ->], H0 as [H0|H0]; discriminate.
  - injection Ax as <-. apply attr_axis_ok in A. destruct t as [p n|nt arg].
    + eapply rep_ext; [apply (rep_filter root (ktest E AAttr (NameTest p n)) _ _ (is_attribute E p n) R); intros i; apply ktest_attr|]. intros i. split.
      * intros [H W]. now apply to_attribute.
      * intros H. inversion H; subst; try (destruct A; discriminate); auto. destruct A as [->| ->], H0 as [H0|H0]; discriminate.
    + eapply rep_ext; [apply (rep_filter root (ktest E AAttr (NodeType nt arg)) _ _ is_text R); intros i; apply ktest_text|]. intros i. split.
      * intros [H W]. destruct H; inversion W.
      * intros H. exfalso. inversion H; subst; try (destruct A; discriminate). destruct A as [->| ->], H0 as [H0|H0]; discriminate.
  - destruct ax as [s|]; [|discriminate]. destruct (str_eqb s (u "self")) eqn:E1; [apply str_eqb_eq in E1; subst s; injection Ax as <-|].
    { eapply rep_ext; [apply (rep_filter root (ktest E ASelf t) _ _ (wanted E t) R); intros i; now apply ktest_wanted|]. intros i. split.
      - intros [<- W]. now apply to_self.
      - intros H. inversion H; subst; auto; try (destruct H0; discriminate). }
    destruct (str_eqb s (u "descendant")) eqn:E2; [apply str_eqb_eq in E2; subst s; injection Ax as <-|].
    { eapply rep_ext; [apply (rep_filter root (ktest E ADesc t) _ _ (wanted E t) R); intros i; now apply ktest_wanted|]. intros i. split.
      - intros [H W]. now apply to_inside.
      - intros H. inversion H; subst; auto; try (destruct H0; discriminate). }
    destruct (str_eqb s (u "descendant-or-self")) eqn:E3; [|discriminate]. apply str_eqb_eq in E3. subst s. injection Ax as <-.
    eapply rep_ext; [apply (rep_filter root (ktest E ADescSelf t) _ _ (wanted E t) R); intros i; now apply ktest_wanted|]. intros i. split.
    + intros [H W]. now apply to_inside_or_self.
    + intros H. inversion H; subst; auto; try (destruct H0; discriminate).
Qed.

(** ** expressions *)
Lemma map_some E args ts : Forall2 (fun a t => ty E a = Some t) args ts -> map (ty E) args = map Some ts.
Proof. induction 1 as [|a t args ts H _ IH]; [reflexivity|]. cbn [map]. now rewrite H, IH. Qed.
Lemma is_some_ty o : is_some o = true -> exists t : vtype, o = Some t.
Proof. destruct o; [eauto|discriminate]. Qed.
Definition good (E : env) (e : expr) : Prop :=
  forall t, ty E e = Some t -> forall k pos size, valid k -> kmeans (fev E e k pos size) (means root E e (snd k) pos size) /\ has_type t (fev E e k pos size).
Lemma preds_rep E ps : Forall (good E) ps -> forallb (fun p => is_some (ty E p)) ps = true -> forall l X, represents l X ->
  represents (fold_left (fun l p => kfilter (fun j pos size => truth (erase (fev E p j pos size)) (N.of_nat pos)) l) ps l)
    (fold_left (fun X p => kept_by root (fun i pos size => means root E p i pos size) X) ps X).
Proof.
  induction 1 as [|p ps Hp _ IH]; intros Hs l X R; cbn [fold_left]; [exact R|]. cbn [forallb] in Hs. apply andb_true_iff in Hs as [H1 H2]. apply IH; [exact H2|]. apply is_some_ty in H1 as [t H1].
  apply (rep_kept root D); [exact R|]. intros k pos size V. apply (km_at root). exact (proj1 (Hp t H1 k pos size V)).
Qed.
Lemma good_nodes E e k pos size : good E e -> is_nodes (ty E e) = true -> valid k -> exists l X, fev E e k pos size = KN l /\ means root E e (snd k) pos size = Nodes X /\ represents l X.
Proof.
  intros G T V. destruct (ty E e) as [[]|] eqn:Te; try discriminate. destruct (G _ Te k pos size V) as [K H]. destruct (fev E e k pos size) as [l|s|n|b]; try contradiction.
  destruct (means root E e (snd k) pos size) as [X|is|is|P|]; try contradiction. exists l, X. repeat split; apply K.
Qed.
Lemma rep_flat l X (f : knode -> list knode) (F : item -> item -> Prop) : represents l X -> (forall k, valid k -> In k l -> represents (f k) (F (snd k))) ->
  represents (ksort (flat_map f l)) (fun i => exists j, X j /\ F j i).
Proof.
  intros (_ & V & M) H. rewrite Forall_forall in V. apply (rep_sort root).
  - apply Forall_forall. intros k Hk. apply in_flat_map in Hk as (j & Hj & Hk). destruct (H j (V _ Hj) Hj) as (_ & Vj & _). rewrite Forall_forall in Vj. now apply Vj.
  - intros i. rewrite in_map_iff. split.
    + intros (k & <- & Hk). apply in_flat_map in Hk as (j & Hj & Hk). exists (snd j). split; [apply M; now apply in_map|]. apply (H j (V _ Hj) Hj). now apply in_map.
    + intros (j & Hj & Hi). apply M in Hj. apply in_map_iff in Hj as (k & <- & Hk). apply (H k (V _ Hk) Hk) in Hi. apply in_map_iff in Hi as (h & <- & Hh). exists h. split; [reflexivity|].
      apply in_flat_map. eauto.
Qed.
Theorem fev_means E e : good E e.
Proof.
  induction e as [s|n| | |a op b IHa IHb|b ps IHb H| | |ax t ps H|ab|p n|p n args H] using expr_ind'; intros tt T k pos size V; cbn [ty] in T; try discriminate.
  - injection T as <-. cbn [fev means]. split; [|exact I]. intros s'. split; intros ->; reflexivity.
  - injection T as <-. cbn [fev means]. split; [|exact I]. intros s'. split; intros ->; reflexivity.
  - cbn [fev means]. destruct (str_eqb op (u "/")) eqn:O1.
    { destruct (is_nodes (ty E a) && is_nodes (ty E b))%bool eqn:N0; [|discriminate]. injection T as <-. apply andb_true_iff in N0 as [Na Nb]. split; [|exact I].
      destruct (good_nodes E a k pos size IHa Na V) as (l & X & -> & -> & R). cbn [knodes set_of EvalValues.kmeans].
      apply (rep_flat l X (fun j => knodes (fev E b j 1 1)) (fun j i => set_of (means root E b j 1 1) i) R). intros j Vj _. destruct (good_nodes E b j 1 1 IHb Nb Vj) as (l' & X' & -> & -> & R'). exact R'. }
    destruct (str_eqb op (u "//")) eqn:O2.
    { destruct (is_nodes (ty E a) && is_nodes (ty E b) && _)%bool eqn:N0; [|discriminate]. injection T as <-. apply andb_true_iff in N0 as [N0 _]. apply andb_true_iff in N0 as [Na Nb]. split; [|exact I].
      destruct (good_nodes E a k pos size IHa Na V) as (l & X & -> & -> & R). cbn [knodes set_of EvalValues.kmeans]. pose proof R as (_ & Vl & M). rewrite Forall_forall in Vl.
      assert (Q : forall j h, valid j -> In h (j :: kbelow_of j) -> valid h) by (intros j h Vj Hh; destruct (below_self_rep root j Vj) as (_ & Vh & _); rewrite Forall_forall in Vh; exact (Vh _ Hh)).
      assert (Q2 : forall h, valid h -> represents (knodes (fev E b h 1 1)) (set_of (means root E b (snd h) 1 1))).
      { intros h Vh. destruct (good_nodes E b h 1 1 IHb Nb Vh) as (l' & X' & -> & -> & R'). exact R'. }
      apply (rep_sort root).
      - apply Forall_forall. intros g Hg. apply in_flat_map in Hg as (j & Hj & Hg). apply in_flat_map in Hg as (h & Hh & Hg). destruct (Q2 h (Q _ _ (Vl _ Hj) Hh)) as (_ & Vg & _). rewrite Forall_forall in Vg. now apply Vg.
      - intros i. rewrite in_map_iff. split.
        + intros (g & <- & Hg). apply in_flat_map in Hg as (j & Hj & Hg). apply in_flat_map in Hg as (h & Hh & Hg). exists (snd j), (snd h). split; [apply M; now apply in_map|]. split.
          * apply (proj2 (proj2 (below_self_rep root j (Vl _ Hj)))). now apply in_map.
          * apply (Q2 h (Q _ _ (Vl _ Hj) Hh)). now apply in_map.
        + intros (x & y & Hx & Hy & Hi). apply M in Hx. apply in_map_iff in Hx as (j & <- & Hj). apply (proj2 (proj2 (below_self_rep root j (Vl _ Hj)))) in Hy. apply in_map_iff in Hy as (h & <- & Hh).
          apply (Q2 h (Q _ _ (Vl _ Hj) Hh)) in Hi. apply in_map_iff in Hi as (g & <- & Hg). exists g. split; [reflexivity|]. apply in_flat_map. exists j. split; [exact Hj|]. apply in_flat_map. eauto. }
    destruct (str_eqb op (u "|")) eqn:O3.
    { destruct (is_nodes (ty E a) && is_nodes (ty E b))%bool eqn:N0; [|discriminate]. injection T as <-. apply andb_true_iff in N0 as [Na Nb]. split; [|exact I].
      destruct (good_nodes E a k pos size IHa Na V) as (l & X & -> & -> & (_ & Vl & M)). destruct (good_nodes E b k pos size IHb Nb V) as (l' & X' & -> & -> & (_ & Vl' & M')). cbn [knodes set_of EvalValues.kmeans].
      apply (rep_sort root); [apply Forall_app; now split|]. intros i. now rewrite map_app, in_app_iff, M, M'. }
    unfold str_mem in T. cbn [existsb] in T. destruct (is_some (ty E a) && is_some (ty E b))%bool eqn:N0; [|destruct (_ || _)%bool in T; discriminate].
    apply andb_true_iff in N0 as [Na Nb]. apply is_some_ty in Na as [ta Na]. apply is_some_ty in Nb as [tb Nb]. destruct (IHa ta Na k pos size V) as [Ka _]. destruct (IHb tb Nb k pos size V) as [Kb _].
    destruct (str_eqb op (u "=")); [injection T as <-; split; [exact (km_eq root _ _ _ _ Ka Kb)|exact I]|].
    destruct (str_eqb op (u "!=")); [injection T as <-; split; [exact (km_ne root _ _ _ _ Ka Kb)|exact I]|].
    pose proof (km_true root _ _ Ka) as Ta. pose proof (km_true root _ _ Kb) as Tb.
    destruct (str_eqb op (u "and")); [injection T as <-; split; [cbn [EvalValues.kmeans]; now rewrite andb_true_iff, Ta, Tb|exact I]|].
    destruct (str_eqb op (u "or")); [|discriminate]. injection T as <-. split; [cbn [EvalValues.kmeans]; now rewrite orb_true_iff, Ta, Tb|exact I].
  - destruct (is_nodes (ty E b) && _)%bool eqn:N0; [|discriminate]. injection T as <-. apply andb_true_iff in N0 as [Nb Np]. split; [|exact I]. cbn [fev means EvalValues.kmeans].
    destruct (good_nodes E b k pos size IHb Nb V) as (l & X & -> & -> & R). now apply preds_rep.
  - destruct (is_some (axis_of ax) && _ && _)%bool eqn:N0; [|discriminate]. injection T as <-. apply andb_true_iff in N0 as [N0 Np]. apply andb_true_iff in N0 as [Na Nt]. split; [|exact I].
    cbn [fev means EvalValues.kmeans]. apply preds_rep; [exact H|exact Np|]. apply kstep_rep; [exact Nt|exact V|]. now destruct (axis_of ax).
  - cbn [fev means]. destruct (str_eqb ab (u ".")); [|discriminate]. injection T as <-. split; [|exact I]. cbn [EvalValues.kmeans]. now apply self_rep.
  - destruct p; [discriminate|]. cbn [fev means]. unfold str_var, variable. destruct (lookup n (vars E)) as [[s|z]|]; [| |discriminate]; injection T as <-; (split; [intros x; split; intros ->; reflexivity|exact I]).
  - destruct p; [discriminate|]. cbn [fev means]. destruct args as [|x [|y [|]]].
    + now apply call0_ok.
    + cbn [map] in T |- *. apply Forall_inv in H. destruct (ty E x) as [tx|] eqn:Tx.
      * destruct (H tx Tx k pos size V) as [K Th]. exact (call1_ok _ _ _ _ _ _ _ _ K Th T).
      * exfalso. revert T. cbn [call_type is_nodes is_some is_strish]. repeat (destruct (str_eqb n _) || destruct (str_mem n _)); discriminate.
    + cbn [map] in T |- *. apply Forall_inv in H as Hx. apply Forall_inv_tail in H. apply Forall_inv in H. destruct (ty E x) as [tx|] eqn:Tx; [|cbn in T; rewrite andb_false_r in T; discriminate].
      destruct (ty E y) as [t2|] eqn:Ty; [|cbn in T; rewrite andb_false_r in T; discriminate].
      destruct (Hx tx Tx k pos size V) as [K Th]. destruct (H t2 Ty k pos size V) as [K2 Th2]. exact (call2_ok _ _ _ _ _ _ _ _ _ _ _ K Th K2 Th2 T).
    + cbn [map call_type] in T. discriminate.
Qed.
End In_doc.
