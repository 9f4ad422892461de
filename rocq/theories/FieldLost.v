(** What deletion takes away, for every supported path (C15). *)
From Coq Require Import String Arith Lia Permutation.
From Verif Require Export FieldPrune LostSpec.
From Verif Require Import XPathEval FieldSpec DocSpec.

Opaque u.

Lemma part_refl {A} (l : list A) : part_of l l. Proof. exists []. now rewrite app_nil_r. Qed.
Lemma part_nil {A} (l : list A) : part_of [] l. Proof. exists l. reflexivity. Qed.
Lemma part_perm {A} (l l' m : list A) : Permutation l l' -> part_of l m -> part_of l' m.
Proof. intros H [r Hr]. exists r. now rewrite <- H. Qed.
Lemma part_app {A} (a b c d : list A) : part_of a b -> part_of c d -> part_of (a ++ c) (b ++ d).
Proof. intros [r Hr] [r' Hr']. exists (r ++ r'). rewrite Hr, Hr'. rewrite <- !app_assoc. apply Permutation_app_head. rewrite !app_assoc. apply Permutation_app_tail. apply Permutation_app_comm. Qed.
Lemma part_map {A B} (f : A -> B) a b : part_of a b -> part_of (map f a) (map f b).
Proof. intros [r Hr]. exists (map f r). rewrite Hr. now rewrite map_app. Qed.
Lemma part_l {A} (a b c : list A) : part_of a b -> part_of a (b ++ c).
Proof. intros H. rewrite <- (app_nil_r a). apply part_app; [exact H|apply part_nil]. Qed.
Lemma part_cons {A} (x : A) a b : part_of a b -> part_of (x :: a) (x :: b).
Proof. intros [r Hr]. exists r. cbn. now rewrite Hr. Qed.

(** ** removals below an address *)
Fixpoint trail (a : addr) (n : node) : list named :=
  match a with
  | [] => []
  | i :: r => match nth_error (kids_of n) i with Some k => child_name (fst k) :: trail r (fst k) | None => [] end
  end.
Definition inside (k : node * option str) : list (list named) := [child_name (fst k)] :: map (cons (child_name (fst k))) (contents (fst k)).
Lemma contents_elem q ats t kids : contents (Elem q ats t kids) = map (fun a => [NAttr (fst a)]) ats ++ flat_map inside kids.
Proof. reflexivity. Qed.
Lemma child_name_tag n m : tag_of n = tag_of m -> child_name n = child_name m.
Proof. destruct n, m; cbn; congruence. Qed.
Lemma contents_upd a f : forall d n X, get_at a d = Some n -> tag_of (f n) = tag_of n -> Permutation (contents n) (contents (f n) ++ X) ->
  Permutation (contents d) (contents (upd_at a f d) ++ map (app (trail a d)) X).
Proof.
  induction a as [|i a IH]; intros d n X Hg Ht HP; cbn [get_at upd_at trail] in *.
  - injection Hg as ->. now rewrite map_id.
  - destruct d as [q ats t kids|s]; [|destruct i; discriminate]. cbn [kids_of] in *. destruct (nth_error kids i) as [k|] eqn:Hi; [|discriminate].
    cbn [set_kids]. rewrite !contents_elem, <- app_assoc. apply Permutation_app_head.
    specialize (IH _ _ _ Hg Ht HP).
    assert (Hc : child_name (upd_at a f (fst k)) = child_name (fst k)).
    { apply child_name_tag. apply tag_upd_at. intros ->. cbn in Hg. now injection Hg as ->. }
    clear -Hi IH Hc. revert i Hi. induction kids as [|k0 kids IHk]; intros [|i] Hi; cbn in Hi; try discriminate.
    + injection Hi as ->. cbn [upd_nth flat_map]. unfold inside at 1 3. cbn [fst snd]. rewrite Hc. cbn [app]. constructor. rewrite (Permutation_map (cons (child_name (fst k))) IH), map_app, map_map.
      rewrite <- !app_assoc. apply Permutation_app_head. change (map (fun x => child_name (fst k) :: trail a (fst k) ++ x) X) with (map (app (child_name (fst k) :: trail a (fst k))) X). apply Permutation_app_comm.
    + cbn [upd_nth flat_map]. rewrite <- app_assoc. apply Permutation_app_head. now apply IHk.
Qed.
Lemma contents_remove i n k : nth_error (kids_of n) i = Some k -> Permutation (contents n) (contents (remove_kid i n) ++ inside k).
Proof.
  destruct n as [q ats t kids|s]; [|destruct i; discriminate]. cbn [kids_of]. intros Hi. unfold remove_kid. cbn [set_kids]. rewrite !contents_elem, <- app_assoc. apply Permutation_app_head.
  apply nth_error_split in Hi as (l1 & l2 & -> & <-). unfold remove_nth. rewrite firstn_app, firstn_all, Nat.sub_diag. cbn [firstn]. rewrite app_nil_r.
  replace (skipn (S (length l1)) (l1 ++ k :: l2)) with l2 by (rewrite skipn_app, skipn_all2 by lia; replace (S (length l1) - length l1) with 1 by lia; reflexivity).
  rewrite !flat_map_app. cbn [flat_map]. rewrite <- !app_assoc. apply Permutation_app_head. apply Permutation_app_comm.
Qed.
Lemma contents_del_attr q n v : attr_get q (attrs_of n) = Some v -> Permutation (contents n) (contents (del_attr q n) ++ [[NAttr q]]).
Proof.
  destruct n as [q0 ats t kids|s]; [|discriminate]. cbn [attrs_of del_attr]. intros H. rewrite !contents_elem.
  assert (G : Permutation (map (fun a : qname * str => [NAttr (fst a)]) ats) ([NAttr q] :: map (fun a => [NAttr (fst a)]) (attr_del q ats))).
  { induction ats as [|[p w] l IH]; cbn in *; [discriminate|]. destruct (qeqb q p) eqn:Eq; [apply qeqb_eq in Eq; now subst|]. cbn [map fst]. rewrite (IH H). constructor. }
  rewrite G. cbn [app]. apply Permutation_cons_append.
Qed.
Lemma contents_set_text v n : contents (set_text v n) = contents n.
Proof. now destruct n. Qed.
Lemma empty_contents n : kids_of n = [] -> attrs_of n = [] -> contents n = [].
Proof. destruct n as [q ats t kids|s]; [|reflexivity]. cbn [kids_of attrs_of]. now intros -> ->. Qed.
Lemma trail_sel E ss : forall d b, (forall s, In s ss -> is_KChild (kind E s) = true) -> In b (sel E ss d) -> trail b d = flat_map (step_name E) ss.
Proof.
  induction ss as [|s ss IH]; intros d b Hk Hb.
  - cbn in Hb. destruct Hb as [<-|[]]. reflexivity.
  - destruct (In_sel_cons _ _ _ _ _ Hb) as (i & k & b' & -> & Hi & Hm & Hb'). cbn [trail flat_map]. rewrite Hi. rewrite (IH _ _ (fun x Hx => Hk x (or_intror Hx)) Hb').
    unfold mstep in Hm. specialize (Hk s (or_introl eq_refl)). unfold step_name at 2. destruct (kind E s) as [[q|q|]|]; try discriminate. cbn [app]. f_equal. apply andb_prop in Hm as [Hm _].
    unfold has_tag in Hm. destruct (fst k) as [q' ? ? ?|]; [|discriminate]. cbn. apply qeqb_eq in Hm. now subst.
Qed.
Lemma way_spine E e : is_path e = true -> (forall l op r, e = EBin l op r -> is_estep r = true) -> forall dot, ok E dot e = true -> way E e = flat_map (step_name E) (spine e).
Proof.
  induction e; cbn [is_path]; intros Hp Hs dot Ho; try discriminate.
  - apply str_eqb_eq in Hp. subst op. destruct (ok_slash _ _ _ _ Ho) as (H1 & (ax & t & ps & ->) & H3 & H4). cbn [way spine]. rewrite flat_map_app. cbn [flat_map]. rewrite app_nil_r.
    rewrite (IHe1 (joins_path _ _ _ _ H4 H1)) with (dot := dot); auto. intros l op r ->. pose proof (joins_path _ _ _ _ H4 H1) as Hp1. cbn in Hp1. apply str_eqb_eq in Hp1. subst op. destruct (ok_slash _ _ _ _ H1) as (_ & (? & ? & ? & ->) & _). reflexivity.
  - cbn [way spine flat_map]. now rewrite app_nil_r.
  - reflexivity.
Qed.
Lemma ok_path_step E dot e l op r : is_path e = true -> ok E dot e = true -> e = EBin l op r -> is_estep r = true.
Proof. intros Hp Ho ->. cbn in Hp. apply str_eqb_eq in Hp. subst op. destruct (ok_slash _ _ _ _ Ho) as (_ & (? & ? & ? & ->) & _). reflexivity. Qed.
Lemma steps_kinds E ss : steps_ok E ss -> forall s, In s ss -> is_KChild (kind E s) = true.
Proof. induction ss as [|x ss IH]; intros H s Hs; [destruct Hs|]. destruct H as (_ & [q Hq] & _ & H). destruct Hs as [<-|Hs]; [now rewrite Hq|auto]. Qed.

(** what one removal guarantees *)
Definition lossless (E : env) (e : expr) : Prop := forall dot, is_path e = true -> ok E dot e = true -> rereadable e = true ->
  forall d d' r, tag_of d <> None -> remove_xml E e true doc_root d = (d', r) ->
  tag_of d' = tag_of d /\ exists X, Permutation (contents d) (contents d' ++ X) /\ part_of X (mentioned E e).
Definition pred_lossless (E : env) (p : expr) : Prop := match p with EBin l _ _ => lossless E l | _ => True end.
Definition pred_mentions (E : env) (p : expr) : list (list named) := match p with EBin l op _ => if str_eqb op (u "=") then mentioned E l else [] | _ => [] end.

Lemma clean1_lost E p K K' r : ok E false p = true -> rereadable p = true -> pred_lossless E p -> tag_of K <> None -> clean1 E p K = (K', r) ->
  tag_of K' = tag_of K /\ exists X, Permutation (contents K) (contents K' ++ X) /\ part_of X (pred_mentions E p).
Proof.
  intros Ho Hr Hl Ht Hc. assert (Triv : K' = K -> tag_of K' = tag_of K /\ exists X, Permutation (contents K) (contents K' ++ X) /\ part_of X (pred_mentions E p)).
  { intros ->. split; [reflexivity|]. exists []. rewrite app_nil_r. split; [reflexivity|apply part_nil]. }
  destruct p; cbn [clean1] in Hc; try (injection Hc as <- _; now apply Triv). cbn [pred_mentions pred_lossless] in *.
  destruct (constructible _ && str_eqb op (u "="))%bool eqn:Hq; [|injection Hc as <- _; now apply Triv]. apply andb_prop in Hq as [_ Hq]. rewrite Hq in *. apply str_eqb_eq in Hq. subst op.
  unfold bind at 1, reading in Hc. destruct (pred_true E _ K) as [[|]|x]; [|injection Hc as <- _; now apply Triv..].
  destruct (ok_eq _ _ _ Ho) as (H1 & H2 & H3). destruct (rereadable_bin _ _ _ Hr) as [Hr1 _].
  assert (Hm : remove_xml E p1 true (RElem []) K = (K', r) -> tag_of K' = tag_of K /\ exists X, Permutation (contents K) (contents K' ++ X) /\ part_of X (mentioned E p1)).
  { intros Hm. exact (Hl false H1 H2 Hr1 _ _ _ Ht Hm). }
  destruct p1; try (injection Hc as <- _; now apply Triv); now apply Hm.
Qed.
Lemma clean_lost E ps : (forall p, In p ps -> ok E false p = true /\ rereadable p = true /\ pred_lossless E p) -> forall K K' r, tag_of K <> None -> iterM (clean1 E) ps K = (K', r) ->
  tag_of K' = tag_of K /\ exists X, Permutation (contents K) (contents K' ++ X) /\ part_of X (flat_map (pred_mentions E) ps).
Proof.
  induction ps as [|p ps IH]; intros Hps K K' r Ht Hi.
  - cbn in Hi. injection Hi as <- _. split; [reflexivity|]. exists []. rewrite app_nil_r. split; [reflexivity|apply part_nil].
  - cbn [iterM] in Hi. unfold bind at 1 in Hi. destruct (clean1 E p K) as [K1 r1] eqn:Hc. destruct (Hps p (or_introl eq_refl)) as (Ho & Hr & Hl).
    destruct (clean1_lost E p K K1 r1 Ho Hr Hl Ht Hc) as (T1 & X1 & P1 & S1). destruct r1 as [b|x].
    + destruct (IH (fun p' H => Hps p' (or_intror H)) K1 K' r) as (T2 & X2 & P2 & S2); [congruence|exact Hi|]. split; [congruence|]. exists (X1 ++ X2). split.
      * rewrite P1, P2, <- app_assoc. apply Permutation_app_head. apply Permutation_app_comm.
      * cbn [flat_map]. now apply part_app.
    + injection Hi as <- _. split; [exact T1|]. exists X1. split; [exact P1|]. cbn [flat_map]. now apply part_l.
Qed.

(** one step at an address *)
Lemma step_lost E ax t ps ie a d n d' r : ok E false (EStep ax t ps) = true -> rereadable (EStep ax t ps) = true -> (forall p, In p ps -> pred_lossless E p) ->
  get_at a d = Some n -> tag_of n <> None -> remove_xml E (EStep ax t ps) ie (RElem a) d = (d', r) ->
  tag_of d' = tag_of d /\ exists X, Permutation (contents d) (contents d' ++ map (app (trail a d)) X) /\
   (part_of X (mentioned E (EStep ax t ps)) \/
    exists q i k rest, ie = false /\ kind E (EStep ax t ps) = Some (KChild q) /\ sel E [EStep ax t ps] n = [i] :: rest /\ nth_error (kids_of n) i = Some k /\ d' = upd_at a (remove_kid i) d /\ X = [NElem q] :: map (cons (NElem q)) (contents (fst k))).
Proof.
  intros Ho Hr Hps Hg Ht Hm.
  assert (Triv : d' = d -> tag_of d' = tag_of d /\ exists X, Permutation (contents d) (contents d' ++ map (app (trail a d)) X) /\
   (part_of X (mentioned E (EStep ax t ps)) \/
    exists q i k rest, ie = false /\ kind E (EStep ax t ps) = Some (KChild q) /\ sel E [EStep ax t ps] n = [i] :: rest /\ nth_error (kids_of n) i = Some k /\ d' = upd_at a (remove_kid i) d /\ X = [NElem q] :: map (cons (NElem q)) (contents (fst k)))).
  { intros ->. split; [reflexivity|]. exists []. cbn [map]. rewrite app_nil_r. split; [reflexivity|]. left. apply part_nil. }
  destruct (kind E (EStep ax t ps)) as [[q|q|]|] eqn:Hk.
  - pose proof (rm_child_step _ _ _ _ _ _ _ _ _ _ _ Ho Hk Hr Hg Hm) as R. destruct (sel E [EStep ax t ps] n) as [|b l] eqn:Es; [destruct R as [-> _]; now apply Triv|].
    destruct R as (i & k & -> & Hi & Hms & [(-> & _)|(-> & -> & Hie)]); [now apply Triv|].
    assert (Hkt : child_name (fst k) = NElem q). { unfold mstep in Hms. rewrite Hk in Hms. apply andb_prop in Hms as [Hms _]. unfold has_tag in Hms. destruct (fst k); [|discriminate]. apply qeqb_eq in Hms. cbn. congruence. }
    split; [apply tag_upd_at; intros _; destruct d; reflexivity|]. exists (inside k). split.
    { apply contents_upd with (n := n); [exact Hg|destruct n; reflexivity|]. now apply contents_remove. }
    unfold inside. rewrite Hkt. destruct ie.
    + left. destruct (Hie eq_refl) as (K' & Hc & Hk0 & Ha0). assert (Htk : tag_of (fst k) <> None) by (destruct (fst k); discriminate).
      destruct (clean_lost E ps) with (K := fst k) (K' := K') (r := Ret tt : res unit) as (_ & X & P & S); auto.
      { intros p Hp. destruct (ok_step_preds E false ax t ps q p Ho Hk Hp) as (O1 & _). split; [exact O1|]. split; [exact (rereadable_pred _ _ _ _ Hr Hp)|auto]. }
      rewrite (empty_contents _ Hk0 Ha0) in P. cbn [app] in P. cbn [mentioned]. unfold step_name. rewrite Hk. cbn [map app]. apply part_cons.
      eapply part_perm; [apply Permutation_map; symmetry; exact P|]. apply (part_map (cons (NElem q))) in S. exact S.
    + right. exists q, i, k, l. auto 10.
  - rewrite (rm_attr _ _ _ _ _ _ _ _ _ Ho Hk Hg) in Hm. destruct (attr_get q (attrs_of n)) as [v|] eqn:Ea; [|injection Hm as <- _; now apply Triv]. injection Hm as <- _.
    split; [apply tag_upd_at; intros _; destruct d; reflexivity|]. exists [[NAttr q]]. split.
    + apply contents_upd with (n := n); [exact Hg|destruct n; reflexivity|]. eapply contents_del_attr; eauto.
    + left. cbn [mentioned]. unfold step_name. rewrite Hk. cbn [map app]. exact (part_l [[NAttr q]] [[NAttr q]] _ (part_refl _)).
  - destruct (kind_text _ _ _ _ Hk) as [-> _]. cbn [remove_xml] in Hm. rewrite str_eqb_refl in Hm. unfold bind, set_text_at in Hm. cbn in Hm. injection Hm as <- _.
    split; [apply tag_upd_at; intros _; destruct d; reflexivity|]. exists []. split; [|left; apply part_nil].
    apply contents_upd with (n := n); [exact Hg|destruct n; [reflexivity|contradiction]|]. now rewrite contents_set_text, app_nil_r.
  - cbn [ok] in Ho. rewrite Hk in Ho. discriminate.
Qed.

(** a whole path, from the object's own node; [leaf]: the names in the element that the last step removes *)
Lemma slash_lost E dot l ax t ps ie d d' r : ok E dot (EBin l (u "/") (EStep ax t ps)) = true -> rereadable (EBin l (u "/") (EStep ax t ps)) = true ->
  lossless E l -> (forall p, In p ps -> pred_lossless E p) -> tag_of d <> None -> remove_xml E (EBin l (u "/") (EStep ax t ps)) ie doc_root d = (d', r) ->
  tag_of d' = tag_of d /\ exists X Y, Permutation (contents d) (contents d' ++ Y ++ map (app (way E l)) X) /\ part_of Y (mentioned E l) /\
   (part_of X (mentioned E (EStep ax t ps)) \/
    exists b' l' n q i k rest, ie = false /\ sel E (spine l) d = b' :: l' /\ get_at b' d = Some n /\ kind E (EStep ax t ps) = Some (KChild q) /\ sel E [EStep ax t ps] n = [i] :: rest /\ nth_error (kids_of n) i = Some k /\ X = [NElem q] :: map (cons (NElem q)) (contents (fst k))).
Proof.
  intros Ho Hr Hl Hps Hd Hm. destruct (ok_slash _ _ _ _ Ho) as (H1 & _ & H3 & H4). destruct (rereadable_bin _ _ _ Hr) as [Hr1 Hr2].
  pose proof (joins_path _ _ _ _ H4 H1) as Hpl. pose proof (joins_left _ _ _ _ H4 H1) as Hjl. pose proof (spine_ok _ _ _ Hpl H1 Hjl) as Hso.
  rewrite rm_slash in Hm. unfold bind at 1, reading in Hm. unfold doc_root in Hm. rewrite (find_elems _ _ _ [] d d Hpl H1 Hjl Hr1 eq_refl) in Hm.
  assert (Triv : d' = d -> tag_of d' = tag_of d /\ exists X Y, Permutation (contents d) (contents d' ++ Y ++ map (app (way E l)) X) /\ part_of Y (mentioned E l) /\
   (part_of X (mentioned E (EStep ax t ps)) \/
    exists b' l' n q i k rest, ie = false /\ sel E (spine l) d = b' :: l' /\ get_at b' d = Some n /\ kind E (EStep ax t ps) = Some (KChild q) /\ sel E [EStep ax t ps] n = [i] :: rest /\ nth_error (kids_of n) i = Some k /\ X = [NElem q] :: map (cons (NElem q)) (contents (fst k)))).
  { intros ->. split; [reflexivity|]. exists [], []. cbn [map app]. rewrite app_nil_r. split; [reflexivity|]. split; [apply part_nil|left; apply part_nil]. }
  destruct (sel E (spine l) d) as [|b' l'] eqn:Es; cbn [head_ref app] in Hm; [injection Hm as <- _; now apply Triv|].
  destruct (In_sel_get E (spine l) d b') as [n Hg]; [rewrite Es; now left|].
  assert (Hn : tag_of n <> None).
  { destruct b' as [|i0 b0] eqn:Eb; [cbn in Hg; injection Hg as <-; exact Hd|].
    assert (Hin : In b' (sel E (spine l) d)) by (rewrite Es, Eb; now left). clear -Hin Hg Hso Eb. subst b'. pose proof (steps_kinds E _ Hso) as Hk. revert Hk Hin. generalize (spine l) as ss. revert d Hg. generalize i0 as i. induction b0 as [|j b IH]; intros i d Hg ss Hk Hin.
    - destruct ss as [|s ss]; [destruct Hin as [Hin|[]]; discriminate|]. destruct (In_sel_cons _ _ _ _ _ Hin) as (i' & k & b'' & [= <- <-] & Hi & Hms & _). cbn in Hg. rewrite Hi in Hg. injection Hg as <-.
      unfold mstep in Hms. destruct (kind E s) as [[q|q|]|]; try discriminate. apply andb_prop in Hms as [Hms _]. unfold has_tag in Hms. destruct (fst k); discriminate.
    - destruct ss as [|s ss]; [destruct Hin as [Hin|[]]; discriminate|]. destruct (In_sel_cons _ _ _ _ _ Hin) as (i' & k & b'' & [= <- <-] & Hi & Hms & Hb). cbn [get_at] in Hg. rewrite Hi in Hg. exact (IH j (fst k) Hg ss (fun x Hx => Hk x (or_intror Hx)) Hb). }
  unfold bind at 1 in Hm. destruct (remove_xml E (EStep ax t ps) ie (RElem b') d) as [d1 r1] eqn:Hm1.
  destruct (step_lost E ax t ps ie b' d n d1 r1 H3 Hr2 Hps Hg Hn Hm1) as (T1 & X & P1 & S1).
  assert (Hw : trail b' d = way E l).
  { rewrite (trail_sel E (spine l) d b' (steps_kinds E _ Hso)) by (rewrite Es; now left). symmetry. apply way_spine with (dot := dot); auto. intros l0 op r0 He. exact (ok_path_step E dot l l0 op r0 Hpl H1 He). }
  rewrite Hw in P1.
  assert (S1' : part_of X (mentioned E (EStep ax t ps)) \/
    exists b0 l0 n q i k rest, ie = false /\ b' :: l' = b0 :: l0 /\ get_at b0 d = Some n /\ kind E (EStep ax t ps) = Some (KChild q) /\ sel E [EStep ax t ps] n = [i] :: rest /\ nth_error (kids_of n) i = Some k /\ X = [NElem q] :: map (cons (NElem q)) (contents (fst k))).
  { destruct S1 as [S1|(q & i & k & rest & A & B & C & D & _ & F)]; [now left|right]. exists b', l', n, q, i, k, rest. auto 10. }
  destruct r1 as [[|]|x].
  - unfold bind in Hm. destruct (remove_xml E l true (RElem []) d1) as [d2 r2] eqn:Hm2. assert (d' = d2) by (destruct r2; now injection Hm as <- _). subst d2.
    destruct (Hl dot Hpl H1 Hr1 d1 d' r2) as (T2 & Y & P2 & S2); [congruence|exact Hm2|]. split; [congruence|]. exists X, Y. split; [|auto]. rewrite P1, P2. now rewrite <- app_assoc.
  - injection Hm as <- _. split; [exact T1|]. exists X, []. split; [exact P1|]. split; [apply part_nil|exact S1'].
  - injection Hm as <- _. split; [exact T1|]. exists X, []. split; [exact P1|]. split; [apply part_nil|exact S1'].
Qed.

Definition preds_lossless (E : env) (e : expr) : Prop := match e with EStep _ _ ps => forall p, In p ps -> pred_lossless E p | _ => True end.
Lemma all_lossless E e : lossless E e /\ pred_lossless E e /\ preds_lossless E e.
Proof.
  induction e as [| | | |l op rr IHa IHb| | | |ax t ps H| | |] using expr_ind'; (split; [|split]); try exact I; try (intros dot Hp; discriminate).
  - intros dot Hp Ho Hr d d' r Hd Hm. cbn in Hp. apply str_eqb_eq in Hp. subst op. destruct (ok_slash _ _ _ _ Ho) as (H1 & (ax & t & ps & ->) & H3 & H4).
    destruct IHb as (_ & _ & Hps). cbn in Hps.
    destruct (slash_lost E dot l ax t ps true d d' r Ho Hr (proj1 IHa) Hps Hd Hm) as (T & X & Y & P & SY & SX). split; [exact T|]. exists (Y ++ map (app (way E l)) X). split; [exact P|].
    cbn [mentioned]. rewrite str_eqb_refl. destruct SX as [SX|(b' & l' & n & q & i & k & rest & A & _)]; [|discriminate]. apply part_app; [exact SY|]. now apply part_map.
  - exact (proj1 IHa).
  - intros dot Hp Ho Hr d d' r Hd Hm. assert (Hps : forall p, In p ps -> pred_lossless E p) by (intros p Hp'; rewrite Forall_forall in H; exact (proj1 (proj2 (H p Hp')))).
    destruct (step_lost E ax t ps true [] d d d' r Ho Hr Hps eq_refl Hd Hm) as (T & X & P & SX). cbn [trail] in P. rewrite map_id in P. split; [exact T|]. exists X. split; [exact P|].
    destruct SX as [SX|(q & i & k & rest & A & _)]; [exact SX|discriminate].
  - intros p Hp. rewrite Forall_forall in H. exact (proj1 (proj2 (H p Hp))).
  - intros dot Hp Ho Hr d d' r Hd Hm. cbn in Hm. injection Hm as <- _. split; [reflexivity|]. exists []. rewrite app_nil_r. split; [reflexivity|apply part_nil].
Qed.

(** ** deletion of a field *)
Theorem delete_lost E e d d' r : supported_path E e = true -> tag_of d <> None -> mgr_delete E e d = (d', r) ->
  exists lost, Permutation (contents d) (contents d' ++ lost) /\ part_of lost (mentioned E e ++ inside_match E e d).
Proof.
  unfold supported_path. intros Hsp Hd Hm. apply andb_prop in Hsp as [Hsp Hr]. apply andb_prop in Hsp as [Hp Ho].
  assert (Hrm : d' = d \/ exists r', remove_xml E e false doc_root d = (d', r')).
  { unfold mgr_delete, bind, reading in Hm. destruct (find_ast E e doc_root d) as [[x|]|x]; [|injection Hm as <- _; now left..].
    right. destruct (remove_xml E e false doc_root d) as [d2 [x'|x']]; injection Hm as <- _; eauto. }
  destruct Hrm as [->|[r' Hrm]]; [exists []; rewrite app_nil_r; split; [reflexivity|apply part_nil]|]. clear Hm r.
  destruct e; cbn [is_path] in Hp; try discriminate.
  - apply str_eqb_eq in Hp. subst op. destruct (ok_slash _ _ _ _ Ho) as (H1 & (ax & t & ps & ->) & H3 & H4).
    pose proof (joins_path _ _ _ _ H4 H1) as Hpl. pose proof (joins_left _ _ _ _ H4 H1) as Hjl.
    destruct (slash_lost E true e1 ax t ps false d d' r' Ho Hr (proj1 (all_lossless E e1)) (proj2 (proj2 (all_lossless E (EStep ax t ps)))) Hd Hrm) as (T & X & Y & P & SY & SX).
    exists (Y ++ map (app (way E e1)) X). split; [exact P|]. cbn [mentioned]. rewrite str_eqb_refl, <- app_assoc. apply part_app; [exact SY|].
    destruct SX as [SX|(b' & l' & n & q & i & k & rest & _ & A & B & C & D & F & ->)]; [apply part_l; now apply part_map|].
    assert (Hsel : exists rs, selects E (EBin e1 (u "/") (EStep ax t ps)) d = IElem (b' ++ [i]) (fst k) :: rs).
    { rewrite (selects_elems E true (EBin e1 (u "/") (EStep ax t ps)) d); [|cbn; apply str_eqb_refl|exact Ho|left; rewrite (lkind_slash E e1 _ _ _ _ eq_refl), C; reflexivity].
      cbn [spine]. destruct (head_app _ _ _ _ _ _ _ _ _ A B D) as [rs ->]. cbn [elems_at flat_map]. rewrite get_at_app, B. cbn [get_at]. rewrite F. cbn [app]. eauto. }
    destruct Hsel as [rs Hsel]. unfold inside_match. rewrite Hsel. cbn [way mentioned]. unfold step_name. rewrite C. cbn [map]. rewrite map_map.
    apply (part_perm ([way E e1 ++ [NElem q]] ++ map (fun x => (way E e1 ++ [NElem q]) ++ x) (contents (fst k)))).
    { cbn [app]. constructor. rewrite (map_ext (fun x => (way E e1 ++ [NElem q]) ++ x) (fun x => way E e1 ++ NElem q :: x)); [reflexivity|]. intros x. rewrite <- app_assoc. reflexivity. }
    apply part_app; [|apply part_refl]. cbn [app map]. apply part_cons. apply part_nil.
  - destruct (step_lost E axis node_test predicates false [] d d d' r' Ho Hr (proj2 (proj2 (all_lossless E (EStep axis node_test predicates)))) eq_refl Hd Hrm) as (T & X & P & SX). cbn [trail] in P. rewrite map_id in P.
    exists X. split; [exact P|]. destruct SX as [SX|(q & i & k & rest & _ & C & D & F & _ & ->)]; [now apply part_l|].
    assert (Hsel : exists rs, selects E (EStep axis node_test predicates) d = IElem [i] (fst k) :: rs).
    { rewrite (selects_elems E true (EStep axis node_test predicates) d); [|reflexivity|exact Ho|left; unfold lkind; cbn [last_step]; now rewrite C]. cbn [spine]. rewrite D. cbn [elems_at flat_map get_at]. rewrite F. cbn [app]. eauto. }
    destruct Hsel as [rs Hsel]. unfold inside_match. rewrite Hsel. cbn [way mentioned]. unfold step_name. rewrite C. cbn [map app]. apply part_cons. apply (part_perm ([] ++ map (cons (NElem q)) (contents (fst k)))); [reflexivity|]. apply part_app; [apply part_nil|apply part_refl].
  - cbn in Hrm. injection Hrm as <- _. exists []. rewrite app_nil_r. split; [reflexivity|apply part_nil].
Qed.

(** ** the shape of the change *)
Lemma prune_after E dot l f D b' l' n d d2 r2 : is_path l = true -> ok E dot l = true -> is_KChild (lkind E l) = true \/ lkind E l = None -> rereadable l = true ->
  steps_ok E (spine l) -> last_avoids E (spine l) D -> tag_of d <> None -> sel E (spine l) d = b' :: l' -> get_at b' d = Some n -> sim D n (f n) ->
  remove_xml E l true doc_root (upd_at b' f d) = (d2, r2) -> d2 = upd_at b' f d \/ pruned b' d d2.
Proof.
  intros Hpl H1 Hjl Hr1 Hso Hla Hd Es Hg Hs Hm2.
  assert (Hsame : sel E (spine l) (upd_at b' f d) = b' :: l').
  { rewrite (sel_upd E D); auto; [rewrite Es; now left|]. intros m Hgm. rewrite Hg in Hgm. now injection Hgm as <-. }
  assert (Hd1 : tag_of (upd_at b' f d) <> None).
  { rewrite tag_upd_at; [assumption|]. intros ->. cbn in Hg. injection Hg as ->. symmetry. exact (proj1 Hs). }
  destruct (rm_prune E dot l Hpl H1 Hjl Hr1 _ _ _ _ _ Hd1 Hsame Hm2) as [->|(c & j & re & -> & ->)]; [now left|right].
  exists c, j, re. split; [reflexivity|]. destruct (get_at c d) as [mc|] eqn:Hgc; [|rewrite get_at_app, Hgc in Hg; discriminate]. now rewrite (remove_upd_below _ _ _ _ _ _ Hgc).
Qed.
Lemma attr_items_hd q b n v : attr_get q (attrs_of n) = Some v -> exists rs, attr_items q b n = IAttr b q v :: rs.
Proof.
  unfold attr_items. induction (attrs_of n) as [|[p w] l IH]; cbn [attr_get flat_map fst snd]; [discriminate|]. rewrite (qeqb_sym p q). destruct (qeqb q p) eqn:Eq; [|exact IH].
  apply qeqb_eq in Eq. subst p. intros [= ->]. cbn [app]. eauto.
Qed.
Theorem delete_shape E e d d' r : supported_path E e = true -> tag_of d <> None -> mgr_delete E e d = (d', r) -> one_place E e d d'.
Proof.
  unfold supported_path. intros Hsp Hd Hm. apply andb_prop in Hsp as [Hsp Hr]. apply andb_prop in Hsp as [Hp Ho].
  assert (Hrm : d' = d \/ exists r', remove_xml E e false doc_root d = (d', r')).
  { unfold mgr_delete, bind, reading in Hm. destruct (find_ast E e doc_root d) as [[x|]|x]; [|injection Hm as <- _; now left..].
    right. destruct (remove_xml E e false doc_root d) as [d2 [x'|x']]; injection Hm as <- _; eauto. }
  destruct Hrm as [->|[r' Hrm]]; [now left|]. clear Hm r.
  destruct e; cbn [is_path] in Hp; try discriminate.
  - apply str_eqb_eq in Hp. subst op. destruct (ok_slash _ _ _ _ Ho) as (H1 & (ax & t & ps & ->) & H3 & H4). destruct (rereadable_bin _ _ _ Hr) as [Hr1 Hr2].
    pose proof (joins_path _ _ _ _ H4 H1) as Hpl. pose proof (joins_left _ _ _ _ H4 H1) as Hjl. pose proof (spine_ok _ _ _ Hpl H1 Hjl) as Hso.
    rewrite rm_slash in Hrm. unfold bind at 1, reading in Hrm. unfold doc_root in Hrm. rewrite (find_elems _ _ _ [] d d Hpl H1 Hjl Hr1 eq_refl) in Hrm.
    destruct (sel E (spine e1) d) as [|b' l'] eqn:Es; cbn [head_ref app] in Hrm; [injection Hrm as <- _; now left|].
    destruct (In_sel_get E (spine e1) d b') as [n Hg]; [rewrite Es; now left|].
    destruct (kind E (EStep ax t ps)) as [[q|q|]|] eqn:Hk.
    + pose proof (spine_last _ _ _ _ _ H1 H4 Hk) as Hla. unfold bind at 1 in Hrm. destruct (remove_xml E (EStep ax t ps) false (RElem b') d) as [d1 r1] eqn:Hm1.
      pose proof (rm_child_step _ _ _ _ _ _ _ _ _ _ _ H3 Hk Hr2 Hg Hm1) as R. destruct (sel E [EStep ax t ps] n) as [|bi li] eqn:Esi; [destruct R as [-> ->]; injection Hrm as <- _; now left|].
      destruct R as (i & k & -> & Hi & Hms & [(_ & _ & HF & _)|(-> & -> & _)]); [discriminate|].
      unfold bind in Hrm. destruct (remove_xml E e1 true (RElem []) (upd_at b' (remove_kid i) d)) as [d2 r2] eqn:Hm2. assert (d' = d2) by (destruct r2; now injection Hrm as <- _). subst d2.
      right. left. assert (Hsel : exists rs, selects E (EBin e1 (u "/") (EStep ax t ps)) d = IElem (b' ++ [i]) (fst k) :: rs).
      { rewrite (selects_elems E true (EBin e1 (u "/") (EStep ax t ps)) d); [|cbn; apply str_eqb_refl|exact Ho|left; rewrite (lkind_slash E e1 _ _ _ _ eq_refl), Hk; reflexivity].
        cbn [spine]. destruct (head_app _ _ _ _ _ _ _ _ _ Es Hg Esi) as [rs ->]. cbn [elems_at flat_map]. rewrite get_at_app, Hg. cbn [get_at]. rewrite Hi. cbn [app]. eauto. }
      destruct Hsel as [rs Hsel]. exists (b' ++ [i]), (fst k), rs. split; [exact Hsel|].
      destruct (prune_after E true e1 (remove_kid i) (KChild q) b' l' n d d' r2 Hpl H1 Hjl Hr1 Hso Hla Hd Es Hg) as [->|(c & j & re & -> & ->)]; auto.
      * eapply sim_remove; [exact Hi|]. unfold mstep in Hms. rewrite Hk in Hms. now apply andb_prop in Hms as [Hms _].
      * exists b', i, []. auto.
      * exists c, j, (re ++ [i]). split; [now rewrite <- app_assoc|reflexivity].
    + pose proof (spine_last _ _ _ _ _ H1 H4 Hk) as Hla. unfold bind at 1 in Hrm. rewrite (rm_attr _ _ _ _ _ _ _ _ _ H3 Hk Hg) in Hrm. destruct (attr_get q (attrs_of n)) as [v|] eqn:Ea; [|injection Hrm as <- _; now left].
      unfold bind in Hrm. destruct (remove_xml E e1 true (RElem []) (upd_at b' (del_attr q) d)) as [d2 r2] eqn:Hm2. assert (d' = d2) by (destruct r2; now injection Hrm as <- _). subst d2.
      right. right. left. assert (Hlk : lkind E (EBin e1 (u "/") (EStep ax t ps)) = Some (KAttr q)) by (rewrite (lkind_slash E e1 _ _ _ _ eq_refl); exact Hk).
      assert (Hsel : exists rs, selects E (EBin e1 (u "/") (EStep ax t ps)) d = IAttr b' q v :: rs).
      { unfold selects. rewrite (ev_route E true (EBin e1 (u "/") (EStep ax t ps)) _ _ _ (str_eqb_refl _) Ho Hlk eq_refl). cbn [nodes_of app route]. rewrite Es. cbn [flat_map]. rewrite Hg. cbn [term_items].
        destruct (attr_items_hd q b' n v Ea) as [rs ->]. cbn [app]. eauto. }
      destruct Hsel as [rs Hsel]. exists b', q, v, rs. split; [exact Hsel|].
      apply (prune_after E true e1 (del_attr q) (KAttr q) b' l' n d d' r2 Hpl H1 Hjl Hr1 Hso Hla Hd Es Hg (sim_del_attr _ _) Hm2).
    + pose proof (spine_last _ _ _ _ _ H1 H4 Hk) as Hla. destruct (kind_text _ _ _ _ Hk) as [-> _]. unfold bind at 1 in Hrm. cbn [remove_xml] in Hrm. rewrite str_eqb_refl in Hrm. unfold bind, set_text_at in Hrm. cbn [xml_valid forallb] in Hrm. cbv iota beta in Hrm. unfold ret in Hrm.
      destruct (remove_xml E e1 true (RElem []) (upd_at b' (set_text (Some [])) d)) as [d2 r2] eqn:Hm2. assert (d' = d2) by (destruct r2; now injection Hrm as <- _). subst d2.
      right. right. right. split; [rewrite (lkind_slash E e1 _ _ _ _ eq_refl); exact Hk|]. exists b'. split.
      * cbn [host]. rewrite (selects_elems _ _ _ _ Hpl H1 Hjl), Es. cbn [elems_at flat_map]. rewrite Hg. cbn [app]. eauto.
      * apply (prune_after E true e1 (set_text (Some [])) KText b' l' n d d' r2 Hpl H1 Hjl Hr1 Hso Hla Hd Es Hg (sim_set_text _ _) Hm2).
    + cbn [ok] in H3. rewrite Hk in H3. discriminate.
  - destruct (kind E (EStep axis node_test predicates)) as [[q|q|]|] eqn:Hk.
    + pose proof (rm_child_step _ _ _ _ _ _ [] d d _ _ Ho Hk Hr eq_refl Hrm) as R. destruct (sel E [EStep axis node_test predicates] d) as [|b l] eqn:Es; [left; apply R|].
      destruct R as (i & k & -> & Hi & Hms & [(-> & _)|(-> & _)]); [now left|]. right. left.
      rewrite (selects_elems E true (EStep axis node_test predicates) d); [|reflexivity|exact Ho|left; unfold lkind; cbn [last_step]; now rewrite Hk]. cbn [spine]. rewrite Es. cbn [elems_at flat_map get_at]. rewrite Hi. cbn [app].
      do 3 eexists. split; [reflexivity|]. exists [], i, []. auto.
    + unfold doc_root in Hrm. rewrite (rm_attr E axis node_test predicates q false [] d d Ho Hk eq_refl) in Hrm. destruct (attr_get q (attrs_of d)) as [v|] eqn:Ea; [|injection Hrm as <- _; now left]. injection Hrm as <- _.
      right. right. left. unfold selects. rewrite (ev_attr_step _ _ _ _ _ _ Ho Hk). cbn [nodes_of].
      destruct (attr_items_hd q [] d v Ea) as [rs ->]. do 4 eexists. split; [reflexivity|]. now left.
    + destruct (kind_text _ _ _ _ Hk) as [-> _]. cbn [remove_xml] in Hrm. rewrite str_eqb_refl in Hrm. unfold doc_root, bind, set_text_at in Hrm. cbn in Hrm. injection Hrm as <- _.
      right. right. right. split; [exact Hk|]. exists []. split; [reflexivity|]. left. reflexivity.
    + cbn [ok] in Ho. rewrite Hk in Ho. discriminate.
  - cbn in Hrm. injection Hrm as <- _. now left.
Qed.
