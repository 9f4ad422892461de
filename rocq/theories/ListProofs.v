(** List fields: how the matched elements change under the list operations. *)
From Coq Require Import String Arith ZArith Lia.
From Verif Require Export FieldPrune MapperProofs ListSpec.
From Verif Require Import XPathEval FieldSpec DocSpec.

Opaque u.

(** the matched elements in document order *)
Fixpoint snodes (E : env) (ss : list expr) (n : node) : list node :=
  match ss with
  | [] => [n]
  | s :: ss' => flat_map (fun k => if mstep E s (fst k) then snodes E ss' (fst k) else []) (kids_of n)
  end.

Lemma enum_app {A} (l1 l2 : list A) : forall i, enum i (l1 ++ l2) = enum i l1 ++ enum (i + length l1) l2.
Proof.
  induction l1 as [|x l1 IH]; intros i; cbn; [now rewrite Nat.add_0_r|]. rewrite IH. do 3 f_equal. lia.
Qed.

Lemma sel_snodes E ss : forall n, map (fun b => get_at b n) (sel E ss n) = map Some (snodes E ss n).
Proof.
  induction ss as [|s ss IH]; intros n; [reflexivity|]. cbn [sel snodes].
  rewrite !map_flat_map. rewrite <- (flat_map_enum (fun k => map Some (if mstep E s (fst k) then snodes E ss (fst k) else [])) 0 (kids_of n)).
  apply flat_map_ext_in. intros [i k] Hi. apply In_enum in Hi as [_ Hi]. rewrite Nat.sub_0_r in Hi. cbn [fst snd].
  destruct (mstep E s (fst k)); [|reflexivity]. rewrite map_map. rewrite <- IH. apply map_ext. intros b. cbn. now rewrite Hi.
Qed.

Lemma sel_snodes_length E ss n : length (sel E ss n) = length (snodes E ss n).
Proof. pose proof (f_equal (@length _) (sel_snodes E ss n)) as H. now rewrite !map_length in H. Qed.

Lemma sel_snodes_nth E ss n k b : nth_error (sel E ss n) k = Some b -> exists m, nth_error (snodes E ss n) k = Some m /\ get_at b n = Some m.
Proof.
  intros H. pose proof (f_equal (fun l => nth_error l k) (sel_snodes E ss n)) as G. cbn in G. rewrite !nth_error_map, H in G. cbn in G.
  destruct (nth_error (snodes E ss n) k) as [m|]; [|discriminate]. cbn in G. injection G as G. eauto.
Qed.
Lemma snodes_sel_nth E ss n k m : nth_error (snodes E ss n) k = Some m -> exists b, nth_error (sel E ss n) k = Some b /\ get_at b n = Some m.
Proof.
  intros H. pose proof (f_equal (fun l => nth_error l k) (sel_snodes E ss n)) as G. cbn in G. rewrite !nth_error_map, H in G. cbn in G.
  destruct (nth_error (sel E ss n) k) as [b|]; [|discriminate]. cbn in G. injection G as G. eauto.
Qed.

Lemma snodes_app E ss ts : forall n, snodes E (ss ++ ts) n = flat_map (snodes E ts) (snodes E ss n).
Proof.
  induction ss as [|s ss IH]; intros n; cbn [snodes app]; [cbn; now rewrite app_nil_r|].
  rewrite flat_map_flat_map. apply flat_map_ext_in. intros k _. destruct (mstep E s (fst k)); [apply IH|reflexivity].
Qed.

Lemma snodes_single E s n : snodes E [s] n = map fst (filter (fun k => mstep E s (fst k)) (kids_of n)).
Proof.
  cbn [snodes]. induction (kids_of n) as [|k ks IH]; cbn; [reflexivity|]. rewrite IH. now destruct (mstep E s (fst k)).
Qed.

(** ** list lemmas *)
Lemma nth_error_ext {A} : forall (l l' : list A), (forall i, nth_error l i = nth_error l' i) -> l = l'.
Proof.
  induction l as [|x l IH]; intros [|y l'] H; auto; try (specialize (H 0); discriminate).
  f_equal; [specialize (H 0); cbn in H; congruence|]. apply IH. intros i. apply (H (S i)).
Qed.

Lemma nth_lt {A} (l : list A) k x : nth_error l k = Some x -> k < length l.
Proof. intros H. apply nth_error_Some. congruence. Qed.
Lemma nth_map_inv {A B} (f : A -> B) l k y : nth_error (map f l) k = Some y -> exists x, nth_error l k = Some x /\ y = f x.
Proof. rewrite nth_error_map. destruct (nth_error l k) as [x|]; cbn; [|discriminate]. intros [= <-]. eauto. Qed.

Lemma nth_flat_map {A B} (f : A -> list B) : forall l k y, nth_error (flat_map f l) k = Some y ->
  exists l1 x l2 k', l = l1 ++ x :: l2 /\ nth_error (f x) k' = Some y /\ k = length (flat_map f l1) + k'.
Proof.
  induction l as [|x l IH]; intros k y H; [destruct k; discriminate|]. cbn in H.
  destruct (Nat.lt_ge_cases k (length (f x))) as [L|L].
  - rewrite nth_error_app1 in H by assumption. exists [], x, l, k. auto.
  - rewrite nth_error_app2 in H by assumption. destruct (IH _ _ H) as (l1 & x' & l2 & k' & -> & H1 & H2).
    exists (x :: l1), x', l2, k'. cbn. rewrite app_length. repeat split; auto. lia.
Qed.

Lemma enum_split {A} (l : list A) : forall i e1 j x e2, enum i l = e1 ++ (j, x) :: e2 ->
  exists l1 l2, l = l1 ++ x :: l2 /\ j = i + length l1 /\ e1 = enum i l1 /\ e2 = enum (S j) l2.
Proof.
  induction l as [|y l IH]; intros i e1 j x e2 H; [destruct e1; discriminate|]. cbn in H. destruct e1 as [|a e1]; cbn in H.
  - injection H as -> -> <-. exists [], l. cbn. repeat split; auto.
  - injection H as <- H. destruct (IH _ _ _ _ _ H) as (l1 & l2 & -> & -> & -> & ->). exists (y :: l1), l2. cbn. repeat split; auto; try lia.
Qed.

Lemma remove_nth_app {A} (a b c : list A) k : k < length b -> remove_nth (length a + k) (a ++ b ++ c) = a ++ remove_nth k b ++ c.
Proof.
  intros H. unfold remove_nth. rewrite firstn_app_2, <- app_assoc. f_equal.
  rewrite (firstn_app k b c). replace (k - length b) with 0 by lia. cbn [firstn]. rewrite app_nil_r, <- app_assoc. f_equal.
  rewrite skipn_app, (skipn_all2 a) by lia. replace (S (length a + k) - length a) with (S k) by lia.
  rewrite skipn_app. replace (S k - length b) with 0 by lia. reflexivity.
Qed.

Lemma remove_nth_mid {A} (l1 l2 : list A) x : remove_nth (length l1) (l1 ++ x :: l2) = l1 ++ l2.
Proof.
  unfold remove_nth. rewrite firstn_app, firstn_all, Nat.sub_diag. cbn [firstn]. rewrite app_nil_r. f_equal.
  rewrite skipn_app, skipn_all2 by lia. replace (S (length l1) - length l1) with 1 by lia. reflexivity.
Qed.
Lemma upd_nth_mid {A} f (l1 l2 : list A) x : upd_nth (length l1) f (l1 ++ x :: l2) = l1 ++ f x :: l2.
Proof. induction l1 as [|y l1 IH]; cbn; [reflexivity|]. now rewrite IH. Qed.

(** ** updating a matched element *)
Lemma snodes_upd E D ss n k b f : steps_ok E ss -> last_avoids E ss D -> nth_error (sel E ss n) k = Some b ->
  (forall m, get_at b n = Some m -> sim D m (f m)) -> snodes E ss (upd_at b f n) = upd_nth k f (snodes E ss n).
Proof.
  intros Ho Hl Hk Hf. pose proof (nth_error_In _ _ Hk) as Hin. pose proof (sel_upd E D ss n b f Ho Hl Hin Hf) as Hs.
  pose proof (sel_snodes E ss (upd_at b f n)) as H1. rewrite Hs in H1. apply nth_error_ext. intros i.
  pose proof (f_equal (fun l => nth_error l i) H1) as G. cbn in G. rewrite !nth_error_map in G. rewrite nth_upd_nth.
  destruct (Nat.eqb_spec k i) as [<-|N].
  - rewrite Hk in G. cbn in G. destruct (sel_snodes_nth _ _ _ _ _ Hk) as (m & Hm & Hg). rewrite (get_upd_same _ _ _ _ Hg) in G. rewrite Hm. cbn.
    destruct (nth_error (snodes E ss (upd_at b f n)) k); [|discriminate]. cbn in G. congruence.
  - destruct (nth_error (sel E ss n) i) as [c|] eqn:Ec.
    + cbn in G. rewrite get_upd_other in G.
      * destruct (sel_snodes_nth _ _ _ _ _ Ec) as (m & Hm & Hg). rewrite Hg in G. rewrite Hm.
        destruct (nth_error (snodes E ss (upd_at b f n)) i); [|discriminate]. cbn in G. congruence.
      * rewrite (sel_length _ _ _ _ Hin), (sel_length _ _ _ _ (nth_error_In _ _ Ec)). reflexivity.
      * intros ->. apply N. pose proof (sel_NoDup E ss n) as Hnd. rewrite NoDup_nth_error in Hnd. apply Hnd.
        -- apply nth_error_Some. congruence.
        -- congruence.
    + cbn in G. destruct (nth_error (snodes E ss (upd_at b f n)) i); [discriminate|].
      destruct (nth_error (snodes E ss n) i) eqn:En; [|reflexivity]. destruct (snodes_sel_nth _ _ _ _ _ En) as (c & Hc & _). congruence.
Qed.

(** ** removing a matched element *)
Lemma tag_remove j n : tag_of (remove_kid j n) = tag_of n.
Proof. now destruct n. Qed.

Lemma sim_upd_below E s2 ss q c j n : kind E s2 = Some (KChild q) -> In (c ++ [j]) (sel E (s2 :: ss) n) ->
  sim (KChild q) n (upd_at c (remove_kid j) n).
Proof.
  intros Hk Hb. destruct (In_sel_cons _ _ _ _ _ Hb) as (i & k & b' & Heq & Hi & Hm & Hb').
  pose proof (mstep_tag _ _ _ _ Hk Hm) as Ht. destruct c as [|i0 c]; cbn in Heq; injection Heq as -> Heq.
  - cbn [upd_at]. apply (sim_remove q i n k Hi). unfold has_tag. now rewrite Ht, qeqb_refl.
  - split; [|split].
    + symmetry. apply tag_upd_at. discriminate.
    + symmetry. apply attrs_upd_cons.
    + rewrite kids_upd_cons. symmetry. apply filter_upd_nth. intros x Hx. rewrite Hi in Hx. injection Hx as <-. cbn [fst].
      unfold has_tag. rewrite tag_upd_at by (intros _; apply tag_remove). rewrite Ht, qeqb_refl. auto.
Qed.

Lemma snodes_remove E : forall ss n k c j, steps_ok E ss -> nth_error (sel E ss n) k = Some (c ++ [j]) ->
  snodes E ss (upd_at c (remove_kid j) n) = remove_nth k (snodes E ss n).
Proof.
  induction ss as [|s ss IH]; intros n k c j Ho Hk.
  - cbn in Hk. destruct k as [|[|k]]; cbn in Hk; try discriminate. injection Hk as Hk. destruct c; discriminate.
  - cbn [sel] in Hk. destruct (nth_flat_map _ _ _ _ Hk) as (e1 & [i x] & e2 & k' & He & Hx & ->). cbn [fst snd] in Hx.
    destruct (mstep E s (fst x)) eqn:Hm; [|destruct k'; discriminate].
    apply nth_map_inv in Hx as (b' & Hb' & Hx).
    destruct (enum_split _ _ _ _ _ _ He) as (l1 & l2 & Hl & Hi & -> & _). cbn in Hi. subst i.
    match goal with |- _ = remove_nth (length ?F + _) _ => assert (Hlen : length F = length (flat_map (fun k => if mstep E s (fst k) then snodes E ss (fst k) else []) l1)) end.
    { clear. rewrite <- (flat_map_enum (fun k => if mstep E s (fst k) then snodes E ss (fst k) else []) 0 l1).
      induction (enum 0 l1) as [|y ys IHy]; cbn; [reflexivity|]. rewrite !app_length, IHy. f_equal.
      destruct (mstep E s (fst (snd y))); [rewrite map_length; apply sel_snodes_length|reflexivity]. }
    rewrite Hlen. cbn [snodes]. rewrite Hl, flat_map_app. cbn [flat_map]. rewrite Hm.
    rewrite remove_nth_app by (rewrite <- sel_snodes_length; exact (nth_lt _ _ _ Hb')).
    destruct Ho as (H1 & (q & Hq) & H3 & H4).
    destruct c as [|i c]; cbn in Hx; injection Hx as Hi Hx.
    + subst b' j. destruct ss as [|s2 ss].
      2:{ apply nth_error_In in Hb'. destruct (In_sel_cons _ _ _ _ _ Hb') as (? & ? & ? & ? & _). discriminate. }
      cbn in Hb'. destruct k' as [|[|k']]; cbn in Hb'; try discriminate. cbn [snodes remove_nth firstn skipn app upd_at].
      destruct n as [qn an tn kn|]; [|cbn in Hl; now destruct l1]. cbn in Hl. subst kn. cbn. rewrite remove_nth_mid, flat_map_app. reflexivity.
    + subst i b'. rewrite kids_upd_cons, Hl, upd_nth_mid, flat_map_app. cbn [flat_map fst].
      replace (mstep E s (upd_at c (remove_kid j) (fst x))) with true; [|symmetry; rewrite <- Hm; symmetry].
      { now rewrite (IH (fst x) k' c j H4 Hb'). }
      destruct ss as [|s2 ss].
      * apply nth_error_In in Hb'. cbn in Hb'. destruct Hb' as [Hb'|[]]. destruct c; discriminate.
      * destruct H3 as (k2 & Hk2 & Ha). destruct H4 as (_ & (q2 & Hq2) & _). rewrite Hq2 in Hk2. injection Hk2 as <-.
        eapply mstep_sim; [|exact H1|exact Ha]. eapply sim_upd_below; [exact Hq2|]. eapply nth_error_In. exact Hb'.
Qed.

(** ** inserting a new element, single step *)
Lemma filter_insert {A} (P : A -> bool) p x l : P x = true ->
  filter P (insert_nth p x l) = insert_nth (length (filter P (firstn p l))) x (filter P l).
Proof.
  intros Hx. unfold insert_nth. rewrite filter_app. cbn. rewrite Hx.
  assert (filter P l = filter P (firstn p l) ++ filter P (skipn p l)) as -> by (rewrite <- filter_app, firstn_skipn; reflexivity).
  rewrite firstn_app, firstn_all, Nat.sub_diag. cbn. rewrite app_nil_r. f_equal. f_equal.
  rewrite skipn_app, skipn_all, Nat.sub_diag. reflexivity.
Qed.

Lemma map_insert {A B} (f : A -> B) i x l : map f (insert_nth i x l) = insert_nth i (f x) (map f l).
Proof. unfold insert_nth. rewrite map_app, firstn_map, skipn_map. reflexivity. Qed.

(** positions of the matches among the children *)
Lemma sel1_pos E s n k b : nth_error (sel E [s] n) k = Some b ->
  exists p x, b = [p] /\ nth_error (kids_of n) p = Some x /\ mstep E s (fst x) = true /\ length (filter (fun y => mstep E s (fst y)) (firstn p (kids_of n))) = k.
Proof.
  intros H. cbn [sel] in H. destruct (nth_flat_map _ _ _ _ H) as (e1 & [i x] & e2 & k' & He & Hx & ->). cbn [fst snd] in Hx.
  destruct (mstep E s (fst x)) eqn:Hm; [|destruct k'; discriminate]. destruct k' as [|[|k']]; cbn in Hx; try discriminate. injection Hx as <-.
  destruct (enum_split _ _ _ _ _ _ He) as (l1 & l2 & Hl & Hi & -> & _). cbn in Hi. subst i. exists (length l1), x. split; [reflexivity|].
  rewrite Hl. rewrite nth_error_app2, Nat.sub_diag by lia. split; [reflexivity|]. split; [assumption|].
  rewrite firstn_app, firstn_all, Nat.sub_diag. cbn [firstn]. rewrite app_nil_r, Nat.add_0_r.
  assert (G : forall l : list (node * option str), filter (fun y => mstep E s (fst y)) l = flat_map (fun k => if mstep E s (fst k) then [k] else []) l).
  { induction l as [|y l IHl]; cbn; [reflexivity|]. rewrite IHl. now destruct (mstep E s (fst y)). }
  rewrite G, <- (flat_map_enum _ 0 l1). clear H He. induction (enum 0 l1) as [|y ys IHy]; cbn; [reflexivity|]. rewrite !app_length, IHy. f_equal. now destruct (mstep E s (fst (snd y))).
Qed.
