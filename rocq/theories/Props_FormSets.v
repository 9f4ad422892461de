(** Saving formsets of nodes: C51. *)
From Coq Require Import List Arith ZArith NArith Bool Lia Sorted Permutation.
From Verif Require Import PyStr NodeList NodeNodes NodeNodesProofs ObjEq FormSets.
Import ListNotations.

(** ** Specification *)
Definition fid (f : sform) : nat := kid_id (sf_kid f).
(** the boxes the user ticked *)
Definition removed (can_delete : bool) (f : sform) : bool := can_delete && sf_delete f.
(** Before anything is saved: the element of each initial form is the item of the list, in order; the other forms have
    elements of their own, that belong nowhere yet and that the XPath of the field will select; saving a form twice is
    saving it once; elements to come have new identities. *)
Definition submission (can_delete : bool) (fs : list sform) (s : fstate) : Prop :=
  map sf_kid (filter sf_initial fs) = filter kid_hit (fs_kids s) /\
  NoDup (map fid fs) /\ NoDup (map kid_id (fs_kids s)) /\
  (forall f, In f fs -> sf_initial f = false -> kid_hit (sf_kid f) = true /\ ~ In (fid f) (map kid_id (fs_kids s))) /\
  (forall f, In f fs -> sf_update f (sf_update f (fs_cont s (fid f))) = sf_update f (fs_cont s (fid f))) /\
  (forall k, In k (fs_kids s) -> kid_id k < fs_next s) /\ (forall f, In f fs -> fid f < fs_next s).
(** XML of the two elements is different, whether they have been saved yet or not *)
Definition apart (c : nat -> str) (f g : sform) : Prop :=
  forall x y, (x = c (fid f) \/ x = sf_update f (c (fid f))) -> (y = c (fid g) \/ y = sf_update g (c (fid g))) -> x <> y.

Inductive event := EValidate | EUpdate.
Definition step (can_delete can_order : bool) (fs : list sform) (s : fstate) (e : event) : fstate :=
  match e with EValidate => formset_validate can_delete fs s | EUpdate => formset_update can_delete can_order fs s end.
Definition run (can_delete can_order : bool) (fs : list sform) (s : fstate) (es : list event) : fstate := fold_left (step can_delete can_order fs) es s.

(** ** lemmas *)
Lemma filter_all {A} (p : A -> bool) l : (forall x, In x l -> p x = true) -> filter p l = l.
Proof. induction l as [|x l IH]; cbn; intros H; [reflexivity|]. rewrite (H x) by now left. now rewrite IH by auto. Qed.
Lemma same_eq c a b : same c a b = Nat.eqb (kid_id a) (kid_id b) || str_eqb (c (kid_id a)) (c (kid_id b)).
Proof. unfold same, obj_eq, node_eq, serialize. now destruct (Nat.eqb (kid_id a) (kid_id b)). Qed.
Lemma first_same_spec c k l : match first_same c k l with
  | Some i => exists x, nth_error l i = Some x /\ same c x k = true
  | None => forall x, In x l -> same c x k = false end.
Proof.
  induction l as [|x l IH]; cbn; [contradiction|]. destruct (same c x k) eqn:E; [exists x; auto|]. destruct (first_same c k l) as [i|]; cbn.
  - destruct IH as (y & H1 & H2). exists y. auto.
  - intros y [<-|H]; auto.
Qed.

Section Inv.
Context (fs : list sform) (c0 : nat -> str) (U : list kid).
Hypothesis Hids : NoDup (map fid fs).
Hypothesis Hidem : forall f, In f fs -> sf_update f (sf_update f (c0 (fid f))) = sf_update f (c0 (fid f)).
Hypothesis HU : forall f k, In f fs -> In k U -> kid_id k <> fid f.
Hypothesis Hhit : forall f, In f fs -> kid_hit (sf_kid f) = true.

Definition poss (f : sform) (x : str) : Prop := x = c0 (fid f) \/ x = sf_update f (c0 (fid f)).
Record inv (s : fstate) : Prop := {
  i_nd : NoDup (ids (fs_kids s));
  i_listed : incl (listed (fs_kids s)) (map sf_kid fs);
  i_un : unlisted (fs_kids s) = U;
  i_poss : forall f, In f fs -> poss f (fs_cont s (fid f));
  i_foreign : forall i, ~ In i (map fid fs) -> fs_cont s i = c0 i;
  i_next : forall k, In k (fs_kids s) -> kid_id k < fs_next s;
  i_nextf : forall f, In f fs -> fid f < fs_next s }.

Lemma form_inj f g : In f fs -> In g fs -> fid f = fid g -> f = g.
Proof.
  clear -Hids. revert Hids. induction fs as [|x l IH]; cbn; intros Hn Hf Hg He; [contradiction|]. inversion Hn as [|? ? Hx Hn']; subst.
  destruct Hf as [->|Hf], Hg as [->|Hg]; auto; exfalso; apply Hx; [rewrite He|rewrite <- He]; now apply in_map.
Qed.
Lemma listed_or ks k : In k ks -> In k (listed ks) \/ In k (unlisted ks).
Proof. intros H. unfold listed, unlisted. rewrite !filter_In. destruct (kid_hit k); auto. Qed.

Lemma drop_ok s f : inv s -> In f fs -> (forall g, In g fs -> g <> f -> apart c0 f g) ->
  inv (drop_instance (sf_kid f) s) /\ listed (fs_kids (drop_instance (sf_kid f) s)) = drop_id (fid f) (listed (fs_kids s)) /\ fs_cont (drop_instance (sf_kid f) s) = fs_cont s.
Proof.
  intros I Hf Ha. unfold drop_instance. pose proof (first_same_spec (fs_cont s) (sf_kid f) (listed (fs_kids s))) as S.
  destruct (first_same (fs_cont s) (sf_kid f) (listed (fs_kids s))) as [i|] eqn:E.
  - destruct S as (x & Hx & Hs). assert (x = sf_kid f) as ->.
    { pose proof (nth_error_In _ _ Hx) as Hin. apply (i_listed _ I) in Hin. apply in_map_iff in Hin as (g & <- & Hg). rewrite same_eq in Hs. apply orb_true_iff in Hs as [Hs|Hs].
      - apply Nat.eqb_eq in Hs. now rewrite (form_inj g f Hg Hf Hs).
      - apply str_eqb_eq in Hs. destruct (Nat.eq_dec (fid g) (fid f)) as [He|N]; [now rewrite (form_inj g f Hg Hf He)|]. exfalso. apply (Ha g Hg (fun Hfg => N (f_equal fid Hfg)) _ _ (i_poss _ I f Hf) (i_poss _ I g Hg)). symmetry. exact Hs. }
    unfold nl_delitem. assert (Hlt : i < length (listed (fs_kids s))) by (apply nth_error_Some; congruence).
    destruct (Z.leb_spec (Z.of_nat (length (listed (fs_kids s)))) (Z.of_nat i)); [lia|]. unfold py_nth, py_idx. destruct (Z.leb_spec 0 (Z.of_nat i)); [|lia]. destruct (Z.ltb_spec (Z.of_nat i) (Z.of_nat (length (listed (fs_kids s))))); [|lia]. rewrite Nat2Z.id, Hx. cbn [fst fs_kids fs_cont].
    fold (drop_id (kid_id (sf_kid f)) (fs_kids s)). assert (Hk : In (sf_kid f) (fs_kids s) /\ kid_hit (sf_kid f) = true) by (apply nth_error_In in Hx; now apply filter_In in Hx). destruct Hk as [Hk1 Hk2].
    split; [|split; [apply listed_drop|reflexivity]]. constructor; cbn [fs_kids fs_cont fs_next].
    + now apply filter_NoDup_ids, I.
    + rewrite listed_drop. intros k Hk. apply filter_In in Hk as [Hk _]. now apply (i_listed _ I).
    + rewrite unlisted_drop; auto using (i_nd _ I), (i_un _ I).
    + apply I.
    + apply I.
    + intros k Hk. apply filter_In in Hk as [Hk _]. now apply (i_next _ I).
    + apply I.
  - split; [assumption|]. split; [|reflexivity]. symmetry. apply drop_id_none. intros Hin. unfold ids in Hin. apply in_map_iff in Hin as (k & He & Hk).
    specialize (S k Hk). rewrite same_eq in S. apply orb_false_iff in S as [S _]. apply Nat.eqb_neq in S. now apply S.
Qed.
Lemma save_ok s f : inv s -> In f fs -> inv (save_form f s) /\ fs_kids (save_form f s) = fs_kids s /\ fs_next (save_form f s) = fs_next s /\
  fs_cont (save_form f s) (fid f) = sf_update f (c0 (fid f)) /\ (forall j, j <> fid f -> fs_cont (save_form f s) j = fs_cont s j).
Proof.
  intros I Hf. assert (E : sf_update f (fs_cont s (fid f)) = sf_update f (c0 (fid f))). { destruct (i_poss _ I f Hf) as [->| ->]; [reflexivity|now apply Hidem]. }
  assert (E1 : fs_cont (save_form f s) (fid f) = sf_update f (c0 (fid f))). { unfold save_form, set_cont. cbn. fold (fid f). now rewrite Nat.eqb_refl. }
  assert (E2 : forall j, j <> fid f -> fs_cont (save_form f s) j = fs_cont s j). { intros j Hj. unfold save_form, set_cont. cbn. fold (fid f). apply Nat.eqb_neq in Hj. now rewrite Hj. }
  split; [|repeat split; assumption]. constructor; try apply I.
  - intros g Hg. destruct (Nat.eq_dec (fid g) (fid f)) as [He|N]; [rewrite (form_inj g f Hg Hf He), E1; now right|rewrite E2 by assumption; now apply I].
  - intros i Hi. rewrite E2; [now apply I|]. intros ->. apply Hi. now apply in_map.
Qed.
Lemma append_spec n v ks : NoDup (ids ks) -> agrees v ks -> ~ In n (ids ks) -> n <> kid_id v ->
  let ks' := fst (nl_append n v ks) in listed ks' = drop_id (kid_id v) (listed ks) ++ [v] /\ unlisted ks' = unlisted ks /\ NoDup (ids ks') /\ (forall k, In k ks' -> k = v \/ In k ks).
Proof.
  intros Hn Ha Hf Hfv. unfold nl_append, nl_setitem. rewrite Z.eqb_refl. destruct (create_kid_spec n ks) as (a & b & -> & Hc & Hb). rewrite Hc. set (K := mkKid n true None).
  assert (Hlc : listed (a ++ K :: b) = listed (a ++ b) ++ [K]). { unfold listed in *. rewrite !filter_app. cbn. rewrite Hb. now rewrite app_nil_r. }
  rewrite Hlc, nth_error_app2, Nat.sub_diag by lia. cbn [nth_error fst].
  assert (HnK : NoDup (ids (a ++ K :: b))). { unfold ids in *. rewrite map_app in *. cbn. apply NoDup_Add with (a := n) (l := map kid_id a ++ map kid_id b); [apply Add_app|]. auto. }
  destruct (listed_replace K v (a ++ K :: b) HnK) as (L1 & L2 & L3 & L4).
  { apply in_or_app. right. now left. }
  { reflexivity. }
  { destruct Ha as [Hv Ha]. split; [assumption|]. intros k Hk He. apply in_app_or in Hk as [Hk|[<-|Hk]]; [apply Ha; [|assumption]; apply in_or_app; now left|cbn in He; contradiction|apply Ha; [|assumption]; apply in_or_app; now right]. }
  split; [|split; [|split; [assumption|]]].
  - rewrite L1, Hlc, replace_mid; [reflexivity|rewrite <- Hlc; now apply filter_NoDup_ids].
  - rewrite L2. unfold unlisted. rewrite !filter_app. reflexivity.
  - intros k Hk. destruct (L4 k Hk) as [->|H]; [now left|]. apply in_app_or in H as [H|[H|H]]; [right; apply in_or_app; now left| |right; apply in_or_app; now right]. subst k. left.
    rewrite (replace_mid K v a b HnK) in Hk. unfold ids in HnK. rewrite map_app in HnK. cbn in HnK. apply NoDup_remove_2 in HnK. apply in_app_or in Hk as [Hk|[Hk|Hk]]; [| |].
    + apply filter_In in Hk as [Hk _]. exfalso. apply HnK, in_or_app. left. change n with (kid_id K). now apply in_map.
    + now symmetry.
    + apply filter_In in Hk as [Hk _]. exfalso. apply HnK, in_or_app. right. change n with (kid_id K). now apply in_map.
Qed.
Lemma add_ok s f : inv s -> In f fs -> inv (add_instance (sf_kid f) s) /\ listed (fs_kids (add_instance (sf_kid f) s)) = drop_id (fid f) (listed (fs_kids s)) ++ [sf_kid f] /\
  fs_cont (add_instance (sf_kid f) s) = fs_cont s.
Proof.
  intros I Hf. unfold add_instance. cbn [fs_kids fs_cont].
  assert (Hag : agrees (sf_kid f) (fs_kids s)).
  { split; [now apply Hhit|]. intros k Hk He. destruct (listed_or _ _ Hk) as [Hl|Hl].
    - apply (i_listed _ I) in Hl. apply in_map_iff in Hl as (g & <- & Hg). now rewrite (form_inj g f Hg Hf He).
    - rewrite (i_un _ I) in Hl. exfalso. exact (HU f k Hf Hl He). }
  assert (Hfr : ~ In (fs_next s) (ids (fs_kids s))). { intros H. unfold ids in H. apply in_map_iff in H as (k & He & Hk). apply (i_next _ I) in Hk. lia. }
  assert (Hne : fs_next s <> kid_id (sf_kid f)). { pose proof (i_nextf _ I f Hf). unfold fid in *. lia. }
  destruct (append_spec (fs_next s) (sf_kid f) (fs_kids s) (i_nd _ I) Hag Hfr Hne) as (A1 & A2 & A3 & A4).
  split; [|split; [exact A1|reflexivity]]. constructor; cbn [fs_kids fs_cont fs_next].
  - exact A3.
  - rewrite A1. intros k Hk. apply in_app_or in Hk as [Hk|[<-|[]]]; [apply filter_In in Hk as [Hk _]; now apply (i_listed _ I)|now apply in_map].
  - now rewrite A2, (i_un _ I).
  - apply I.
  - apply I.
  - intros k Hk. destruct (A4 k Hk) as [->|H]; [pose proof (i_nextf _ I f Hf); unfold fid in *; lia|apply (i_next _ I) in H; lia].
  - intros g Hg. pose proof (i_nextf _ I g Hg). lia.
Qed.

(** the loops, as functions on the list of items *)
Definition without_forms (l : list sform) (L : list kid) : list kid := filter (fun k => negb (existsb (fun f => Nat.eqb (fid f) (kid_id k)) l)) L.
Lemma filter_filter {A} (p q : A -> bool) l : filter p (filter q l) = filter (fun x => q x && p x) l.
Proof. induction l as [|x l IH]; cbn; [reflexivity|]. destruct (q x); cbn; [destruct (p x); now rewrite IH|exact IH]. Qed.
Lemma without_cons f l L : without_forms l (drop_id (fid f) L) = without_forms (f :: l) L.
Proof. unfold without_forms, drop_id. rewrite filter_filter. apply filter_ext. intros k. cbn [existsb]. rewrite negb_orb, (Nat.eqb_sym (fid f)). reflexivity. Qed.
Lemma drops_ok : forall l s, inv s -> incl l fs -> (forall f g, In f l -> In g fs -> g <> f -> apart c0 f g) ->
  let s' := fold_left (fun s f => drop_instance (sf_kid f) s) l s in
  inv s' /\ listed (fs_kids s') = without_forms l (listed (fs_kids s)) /\ fs_cont s' = fs_cont s.
Proof.
  induction l as [|f l IH]; intros s I Hi Ha; cbn [fold_left].
  - split; [assumption|]. split; [|reflexivity]. unfold without_forms. cbn. now rewrite filter_all.
  - destruct (drop_ok s f I) as (I1 & L1 & C1); [apply Hi; now left|intros g Hg Hn; apply (Ha f g); auto; now left|].
    destruct (IH _ I1) as (I2 & L2 & C2); [intros x Hx; apply Hi; now right|intros; eapply Ha; eauto; now right|].
    split; [assumption|]. split; [now rewrite L2, L1, without_cons|congruence].
Qed.
Lemma saves_ok (p : sform -> bool) : forall l s, inv s -> incl l fs ->
  let s' := fold_left (fun s f => if p f then save_form f s else s) l s in
  inv s' /\ fs_kids s' = fs_kids s /\ (forall f, In f l -> p f = true -> fs_cont s' (fid f) = sf_update f (c0 (fid f))) /\
  (forall f, In f fs -> fs_cont s (fid f) = sf_update f (c0 (fid f)) -> fs_cont s' (fid f) = sf_update f (c0 (fid f))).
Proof.
  induction l as [|f l IH]; intros s I Hi; cbn [fold_left].
  - split; [assumption|]. split; [reflexivity|]. split; [intros f []|auto].
  - assert (Hf : In f fs) by (apply Hi; now left). assert (Hi' : incl l fs) by (intros x Hx; apply Hi; now right). destruct (p f) eqn:Ep.
    + destruct (save_ok s f I Hf) as (I1 & K1 & _ & C1 & C2). destruct (IH _ I1 Hi') as (I2 & K2 & D1 & D2). split; [assumption|]. split; [congruence|]. split.
      * intros g [<-|Hg] Hp; [|now apply D1]. now apply D2.
      * intros g Hg He. apply D2; [assumption|]. destruct (Nat.eq_dec (fid g) (fid f)) as [E|N]; [now rewrite (form_inj g f Hg Hf E)|now rewrite C2].
    + destruct (IH _ I Hi') as (I2 & K2 & D1 & D2). split; [assumption|]. split; [assumption|]. split; [|assumption]. intros g [<-|Hg] Hp; [congruence|]. now apply D1.
Qed.
Lemma drop_snoc f L k : fid f <> kid_id k -> drop_id (fid f) (L ++ [k]) = drop_id (fid f) L ++ [k].
Proof. intros H. unfold drop_id. rewrite filter_app. cbn. destruct (Nat.eqb_spec (kid_id k) (fid f)); [congruence|reflexivity]. Qed.
Lemma without_app l L M : without_forms l (L ++ M) = without_forms l L ++ without_forms l M.
Proof. apply filter_app. Qed.
Lemma without_none l L : (forall k f, In k L -> In f l -> fid f <> kid_id k) -> without_forms l L = L.
Proof.
  intros H. unfold without_forms. rewrite filter_all; [reflexivity|]. intros k Hk. rewrite negb_true_iff, <- not_true_iff_false, existsb_exists. intros (f & Hf & He). apply Nat.eqb_eq in He. eapply H; eauto.
Qed.
Lemma adds_list : forall l L, NoDup (map fid l) ->
  fold_left (fun L f => drop_id (fid f) L ++ [sf_kid f]) l L = without_forms l L ++ map sf_kid l.
Proof.
  induction l as [|f l IH]; intros L Hn; cbn [fold_left map].
  - unfold without_forms. cbn. rewrite filter_all by auto. now rewrite app_nil_r.
  - inversion Hn as [|? ? Hx Hn']; subst. rewrite IH by assumption. rewrite without_app, without_cons, (without_none l [sf_kid f]); [now rewrite <- app_assoc|].
    intros k g [<-|[]] Hg He. apply Hx. change (kid_id (sf_kid f)) with (fid f) in He. rewrite <- He. now apply in_map.
Qed.
Lemma adds_ok : forall l s, inv s -> incl l fs -> 
  let s' := fold_left (fun s f => if sf_changed f then add_instance (sf_kid f) (save_form f s) else s) l s in
  inv s' /\ listed (fs_kids s') = fold_left (fun L f => drop_id (fid f) L ++ [sf_kid f]) (filter sf_changed l) (listed (fs_kids s)) /\
  (forall f, In f l -> sf_changed f = true -> fs_cont s' (fid f) = sf_update f (c0 (fid f))) /\
  (forall f, In f fs -> fs_cont s (fid f) = sf_update f (c0 (fid f)) -> fs_cont s' (fid f) = sf_update f (c0 (fid f))).
Proof.
  induction l as [|f l IH]; intros s I Hi; cbn [fold_left filter].
  - split; [assumption|]. split; [reflexivity|]. split; [intros f []|auto].
  - assert (Hf : In f fs) by (apply Hi; now left). assert (Hi' : incl l fs) by (intros x Hx; apply Hi; now right). destruct (sf_changed f) eqn:Ep.
    + destruct (save_ok s f I Hf) as (I1 & K1 & _ & C1 & C2). destruct (add_ok _ f I1 Hf) as (I2 & L2 & C3). destruct (IH _ I2 Hi') as (I3 & L3 & D1 & D2). split; [assumption|]. split; [rewrite L3, L2, K1; reflexivity|]. split.
      * intros g [<-|Hg] Hp; [|now apply D1]. apply D2; [assumption|]. now rewrite C3.
      * intros g Hg He. apply D2; [assumption|]. rewrite C3. destruct (Nat.eq_dec (fid g) (fid f)) as [E|N]; [now rewrite (form_inj g f Hg Hf E)|now rewrite C2].
    + destruct (IH _ I Hi') as (I2 & K2 & D1 & D2). split; [assumption|]. split; [assumption|]. split; [|assumption]. intros g [<-|Hg] Hp; [congruence|]. now apply D1.
Qed.
Lemma orders_ok : forall l s, inv s -> incl l fs -> (forall f g, In f l -> In g fs -> g <> f -> apart c0 f g) ->
  let s' := fold_left (fun s f => add_instance (sf_kid f) (save_form f (drop_instance (sf_kid f) s))) l s in
  inv s' /\ listed (fs_kids s') = fold_left (fun L f => drop_id (fid f) L ++ [sf_kid f]) l (listed (fs_kids s)) /\
  (forall f, In f l -> fs_cont s' (fid f) = sf_update f (c0 (fid f))) /\
  (forall f, In f fs -> fs_cont s (fid f) = sf_update f (c0 (fid f)) -> fs_cont s' (fid f) = sf_update f (c0 (fid f))).
Proof.
  induction l as [|f l IH]; intros s I Hi Ha; cbn [fold_left].
  - split; [assumption|]. split; [reflexivity|]. split; [intros f []|auto].
  - assert (Hf : In f fs) by (apply Hi; now left). assert (Hi' : incl l fs) by (intros x Hx; apply Hi; now right).
    destruct (drop_ok s f I Hf) as (I0 & L0 & C0); [intros g Hg Hn; apply (Ha f g); auto; now left|].
    destruct (save_ok _ f I0 Hf) as (I1 & K1 & _ & C1 & C2). destruct (add_ok _ f I1 Hf) as (I2 & L2 & C3). destruct (IH _ I2 Hi') as (I3 & L3 & D1 & D2); [intros; eapply Ha; eauto; now right|]. split; [assumption|]. split.
    { rewrite L3, L2, K1, L0. f_equal. f_equal. unfold drop_id. rewrite filter_filter. apply filter_ext. intros k. apply andb_diag. }
    split.
      * intros g [<-|Hg]; [|now apply D1]. apply D2; [assumption|]. now rewrite C3.
      * intros g Hg He. apply D2; [assumption|]. rewrite C3. destruct (Nat.eq_dec (fid g) (fid f)) as [E|N]; [now rewrite (form_inj g f Hg Hf E)|rewrite C2 by assumption; now rewrite C0].
Qed.
End Inv.

(** ** unpacking the hypotheses *)
Lemma submission_inv cd fs s : submission cd fs s -> inv fs (fs_cont s) (unlisted (fs_kids s)) s /\ NoDup (map fid fs) /\
  (forall f, In f fs -> sf_update f (sf_update f (fs_cont s (fid f))) = sf_update f (fs_cont s (fid f))) /\
  (forall f k, In f fs -> In k (unlisted (fs_kids s)) -> kid_id k <> fid f) /\ (forall f, In f fs -> kid_hit (sf_kid f) = true).
Proof.
  intros (H1 & H2 & H3 & H4 & H5 & H6 & H7).
  assert (Hini : forall f, In f fs -> sf_initial f = true -> In (sf_kid f) (listed (fs_kids s))). { intros f Hf Hi. unfold listed. rewrite <- H1. apply in_map. apply filter_In. auto. }
  split; [|split; [assumption|split; [assumption|split]]].
  - constructor; auto.
    + unfold listed. rewrite <- H1. intros k Hk. apply in_map_iff in Hk as (f & <- & Hf). apply filter_In in Hf as [Hf _]. now apply in_map.
    + intros f Hf. now left.
  - intros f k Hf Hk He. unfold unlisted in Hk. apply filter_In in Hk as [Hk Hh]. destruct (sf_initial f) eqn:Ei.
    + specialize (Hini f Hf Ei). apply filter_In in Hini as [Hin Hhf]. rewrite (ids_inj _ k (sf_kid f) H3 Hk Hin He), Hhf in Hh. discriminate.
    + destruct (H4 f Hf Ei) as [_ N]. apply N. rewrite <- He. now apply in_map.
  - intros f Hf. destruct (sf_initial f) eqn:Ei; [|now apply H4]. specialize (Hini f Hf Ei). now apply filter_In in Hini.
Qed.
Lemma existsb_form fs l k : NoDup (map fid fs) -> incl l fs -> In k fs -> existsb (fun f => Nat.eqb (fid f) (fid k)) l = true <-> In k l.
Proof.
  intros Hn Hi Hk. rewrite existsb_exists. split; [intros (f & Hf & He)|intros H; exists k; split; [assumption|apply Nat.eqb_refl]]. apply Nat.eqb_eq in He.
  now rewrite <- (form_inj fs Hn f k (Hi _ Hf) Hk He).
Qed.
Lemma filter_map_kid (p : kid -> bool) l : filter p (map sf_kid l) = map sf_kid (filter (fun f => p (sf_kid f)) l).
Proof. induction l as [|x l IH]; cbn; [reflexivity|]. destruct (p (sf_kid x)); cbn; now rewrite IH. Qed.
Lemma without_map fs l m : NoDup (map fid fs) -> incl l fs -> incl m fs -> forall q, (forall f, In f m -> q f = true <-> ~ In f l) ->
  without_forms l (map sf_kid m) = map sf_kid (filter q m).
Proof.
  intros Hn Hl Hm q Hq. unfold without_forms. rewrite filter_map_kid. f_equal. apply filter_ext_in. intros f Hf. specialize (Hq f Hf). pose proof (existsb_form fs l f Hn Hl (Hm _ Hf)) as E. change (kid_id (sf_kid f)) with (fid f).
  destruct (existsb (fun f0 => Nat.eqb (fid f0) (fid f)) l), (q f); cbn; try reflexivity; [exfalso; apply Hq; [reflexivity|now apply E]|]. symmetry. apply Hq. intros H. apply E in H. discriminate.
Qed.
Lemma NoDup_filter_map {A B} (g : A -> B) (p : A -> bool) l : NoDup (map g l) -> NoDup (map g (filter p l)).
Proof.
  induction l as [|x l IH]; cbn; intros H; [constructor|]. inversion H as [|? ? Hx H']; subst. destruct (p x); cbn; [constructor|]; auto. intros Hin. apply Hx. apply in_map_iff in Hin as (y & <- & Hy). apply filter_In in Hy as [Hy _]. now apply in_map.
Qed.

(** ** C51: after any sequence of validations and updates with an update in it, the list holds the items not ticked for
    deletion, then the filled in new ones, in order; every form that was changed and not deleted has been saved, exactly
    once in effect; nothing else has changed.  PARTIAL: provided no form ticked for deletion has XML equal to another's,
    and no new form is both filled in and ticked (see below). *)
Theorem C51_history_partial : forall can_delete fs s es, submission can_delete fs s ->
  (forall f g, In f fs -> In g fs -> removed can_delete f = true -> g <> f -> apart (fs_cont s) f g) ->
  (forall f, In f fs -> removed can_delete f = true -> sf_changed f = true -> sf_initial f = true) -> In EUpdate es ->
  let s' := run can_delete false fs s es in
  filter kid_hit (fs_kids s') = map sf_kid (filter (fun f => sf_initial f && negb (removed can_delete f)) fs) ++ map sf_kid (filter (fun f => negb (sf_initial f) && sf_changed f) fs) /\
  filter (fun k => negb (kid_hit k)) (fs_kids s') = filter (fun k => negb (kid_hit k)) (fs_kids s) /\
  (forall f, In f fs -> sf_changed f = true -> removed can_delete f = false -> fs_cont s' (fid f) = sf_update f (fs_cont s (fid f))) /\
  (forall f, In f fs -> fs_cont s' (fid f) = fs_cont s (fid f) \/ fs_cont s' (fid f) = sf_update f (fs_cont s (fid f))) /\
  (forall i, ~ In i (map fid fs) -> fs_cont s' i = fs_cont s i).
Proof.
  intros cd fs s es HS Hap Hnx Hin s'. destruct (submission_inv _ _ _ HS) as (I0 & Hids & Hidem & HU & Hhit). pose proof HS as (HL0 & _).
  set (kept := filter (fun f => sf_initial f && negb (removed cd f)) fs). set (news := filter (fun f => negb (sf_initial f) && sf_changed f) fs).
  set (c0 := fs_cont s) in *. set (U := unlisted (fs_kids s)) in *.
  (* one update, from the list as it was or as it should be *)
  assert (Upd : forall t, inv fs c0 U t -> listed (fs_kids t) = map sf_kid (filter sf_initial fs) \/ listed (fs_kids t) = map sf_kid kept ++ map sf_kid news ->
    let t' := formset_update cd false fs t in inv fs c0 U t' /\ listed (fs_kids t') = map sf_kid kept ++ map sf_kid news /\
      (forall f, In f fs -> sf_changed f = true -> removed cd f = false -> fs_cont t' (fid f) = sf_update f (c0 (fid f)))).
  { intros t It HLt. unfold formset_update. set (D := deleted_forms cd fs).
    assert (HD : forall f, In f D <-> In f fs /\ removed cd f = true /\ (sf_initial f = true \/ sf_changed f = true)).
    { intros f. unfold D, deleted_forms, removed. destruct cd; cbn; [|split; [intros []|intros (_ & H & _); discriminate]]. rewrite filter_In, andb_true_iff, orb_true_iff. tauto. }
    assert (HDi : incl D fs) by (intros f Hf; now apply HD in Hf).
    destruct (drops_ok fs c0 U Hids D t It HDi) as (I1 & L1 & C1). { intros f g Hf Hg Hn. apply HD in Hf as (Hf & Hr & _). now apply Hap. }
    set (t1 := fold_left _ D t) in *.
    assert (HI : incl (filter sf_initial fs) fs) by (intros f Hf; now apply filter_In in Hf).
    destruct (saves_ok fs c0 U Hids Hidem sf_changed (filter sf_initial fs) t1 I1 HI) as (I2 & K2 & S1 & S2). set (t2 := fold_left _ (filter sf_initial fs) t1) in *.
    assert (HX : incl (filter (fun f => negb (sf_initial f)) fs) fs) by (intros f Hf; now apply filter_In in Hf).
    destruct (adds_ok fs c0 U Hids Hidem HU Hhit (filter (fun f => negb (sf_initial f)) fs) t2 I2 HX) as (I3 & L3 & A1 & A2). set (t3 := fold_left _ (filter (fun f => negb (sf_initial f)) fs) t2) in *.
    split; [assumption|]. split.
    - rewrite L3, K2, L1. rewrite filter_filter. change (filter (fun x => negb (sf_initial x) && sf_changed x) fs) with news.
      assert (HN : incl news fs) by (intros f Hf; now apply filter_In in Hf). assert (HK : incl kept fs) by (intros f Hf; now apply filter_In in Hf).
      rewrite adds_list by now apply NoDup_filter_map. f_equal.
      assert (E1 : without_forms D (map sf_kid (filter sf_initial fs)) = map sf_kid kept).
      { rewrite (without_map fs D _ Hids HDi HI (fun f => negb (removed cd f))). { rewrite filter_filter. reflexivity. }
        intros f Hf. apply filter_In in Hf as [Hf Hi]. rewrite negb_true_iff, HD. destruct (removed cd f); split; intuition congruence. }
      assert (E2 : without_forms D (map sf_kid kept ++ map sf_kid news) = map sf_kid kept ++ map sf_kid news).
      { rewrite without_app. f_equal; [rewrite (without_map fs D kept Hids HDi HK (fun f => true))|rewrite (without_map fs D news Hids HDi HN (fun f => true))]; try (now rewrite filter_all).
        - intros f Hf. split; [intros _|auto]. rewrite HD. apply filter_In in Hf as [_ Hf]. apply andb_true_iff in Hf as [_ Hf]. apply negb_true_iff in Hf. intuition congruence.
        - intros f Hf. split; [intros _|auto]. rewrite HD. apply filter_In in Hf as [Hf0 Hf]. apply andb_true_iff in Hf as [Hf Hc]. apply negb_true_iff in Hf. intros (_ & Hr & _). rewrite (Hnx f Hf0 Hr Hc) in Hf. discriminate. }
      assert (E3 : without_forms news (map sf_kid kept) = map sf_kid kept).
      { rewrite (without_map fs news kept Hids HN HK (fun f => true)); [now rewrite filter_all|]. intros f Hf. split; [intros _|auto]. intros Hn. apply filter_In in Hf as [_ Hf]. apply filter_In in Hn as [_ Hn]. apply andb_true_iff in Hf as [Hf _]. rewrite Hf in Hn. discriminate. }
      destruct HLt as [-> | ->]; [rewrite E1|rewrite E2, without_app]; rewrite ?E3; [reflexivity|].
      rewrite (without_map fs news news Hids HN HN (fun f => false)); [|intros f Hf; split; [discriminate|contradiction]]. clear. induction news; cbn; [now rewrite app_nil_r|exact IHnews].
    - intros f Hf Hc Hr. destruct (sf_initial f) eqn:Ei.
      + apply A2; [assumption|]. apply S1; [now apply filter_In|assumption].
      + apply A1; [apply filter_In; now rewrite Ei|assumption]. }
  assert (Val : forall t, inv fs c0 U t -> let t' := formset_validate cd fs t in inv fs c0 U t' /\ fs_kids t' = fs_kids t /\ (forall f, In f fs -> fs_cont t (fid f) = sf_update f (c0 (fid f)) -> fs_cont t' (fid f) = sf_update f (c0 (fid f)))).
  { intros t It. unfold formset_validate. pose proof (saves_ok fs c0 U Hids Hidem (fun f => negb (removed cd f)) fs t It (incl_refl _)) as (J1 & J2 & _ & J4).
    assert (EF : forall l u, fold_left (fun s f => if cd && sf_delete f then s else save_form f s) l u = fold_left (fun s f => if negb (removed cd f) then save_form f s else s) l u).
    { induction l as [|x l IH]; intros v; cbn; [reflexivity|]. rewrite IH. unfold removed. now destruct (cd && sf_delete x). }
    rewrite EF. auto. }
  assert (Fin : forall es t, inv fs c0 U t -> listed (fs_kids t) = map sf_kid kept ++ map sf_kid news -> (forall f, In f fs -> sf_changed f = true -> removed cd f = false -> fs_cont t (fid f) = sf_update f (c0 (fid f))) ->
    let t' := run cd false fs t es in inv fs c0 U t' /\ listed (fs_kids t') = map sf_kid kept ++ map sf_kid news /\ (forall f, In f fs -> sf_changed f = true -> removed cd f = false -> fs_cont t' (fid f) = sf_update f (c0 (fid f)))).
  { clear -Upd Val. induction es as [|[|] es IH]; intros t It Lt Ct; cbn [run fold_left step]; [auto| |].
    - destruct (Val t It) as (I1 & K1 & C1). apply IH; [assumption|now rewrite K1|]. intros f Hf Hc Hr. apply C1; auto.
    - destruct (Upd t It (or_intror Lt)) as (I1 & L1 & C1). apply IH; assumption. }
  assert (All : forall es t, In EUpdate es -> inv fs c0 U t -> listed (fs_kids t) = map sf_kid (filter sf_initial fs) ->
    let t' := run cd false fs t es in inv fs c0 U t' /\ listed (fs_kids t') = map sf_kid kept ++ map sf_kid news /\ (forall f, In f fs -> sf_changed f = true -> removed cd f = false -> fs_cont t' (fid f) = sf_update f (c0 (fid f)))).
  { clear -Upd Val Fin. induction es as [|[|] es IH]; intros t Hin It Lt; cbn [run fold_left step]; [contradiction| |].
    - destruct (Val t It) as (I1 & K1 & C1). apply IH; [destruct Hin; [discriminate|assumption]|assumption|now rewrite K1].
    - destruct (Upd t It (or_introl Lt)) as (I1 & L1 & C1). apply Fin; assumption. }
  destruct (All es s Hin I0 (eq_sym HL0)) as (IF & LF & CF). fold s' in IF, LF, CF. split; [exact LF|]. split; [exact (i_un _ _ _ _ IF)|]. split; [exact CF|]. split; [exact (i_poss _ _ _ _ IF)|exact (i_foreign _ _ _ _ IF)].
Qed.

(** ** formsets that can be ordered *)
(** [l] is [m] sorted by the ORDER inputs, blank ones last, keeping the order of equal ones *)
Definition comes_before (a b : sform) : Prop := match sf_order a, sf_order b with Some x, Some y => (x <= y)%N | Some _, None => True | None, Some _ => False | None, None => True end.
Definition order_is (o : option N) (f : sform) : bool := match o, sf_order f with Some x, Some y => N.eqb x y | None, None => true | _, _ => false end.
Definition sorted_by_order (l m : list sform) : Prop :=
  Permutation l m /\ StronglySorted comes_before l /\ forall o, filter (order_is o) l = filter (order_is o) m.

Lemma order_le_spec a b : order_le a b = true <-> comes_before a b.
Proof. unfold order_le, comes_before. destruct (sf_order a), (sf_order b); try tauto; try (split; [discriminate|contradiction]). apply N.leb_le. Qed.
Lemma comes_trans a b c : comes_before a b -> comes_before b c -> comes_before a c.
Proof. unfold comes_before. destruct (sf_order a), (sf_order b), (sf_order c); try tauto. lia. Qed.
Lemma comes_total a b : ~ comes_before a b -> comes_before b a.
Proof. unfold comes_before. destruct (sf_order a), (sf_order b); try tauto. lia. Qed.
Lemma insert_form_spec f l : StronglySorted comes_before l ->
  Permutation (insert_form f l) (f :: l) /\ StronglySorted comes_before (insert_form f l) /\ forall o, filter (order_is o) (insert_form f l) = filter (order_is o) (f :: l).
Proof.
  induction l as [|g r IH]; intros S.
  - split; [apply Permutation_refl|]. split; [repeat constructor|reflexivity].
  - cbn [insert_form]. destruct (order_le f g) eqn:E.
    + split; [apply Permutation_refl|]. split; [|reflexivity]. constructor; [assumption|]. apply order_le_spec in E. inversion S as [|? ? S1 S2]; subst. constructor; [assumption|]. rewrite Forall_forall in *. intros x Hx. eapply comes_trans; eauto.
    + inversion S as [|? ? S1 S2]; subst. destruct (IH S1) as (I1 & I2 & I3). assert (Hgf : comes_before g f). { apply comes_total. rewrite <- order_le_spec. congruence. }
      split; [|split].
      * eapply perm_trans; [apply perm_skip, I1|apply perm_swap].
      * constructor; [assumption|]. rewrite Forall_forall in *. intros x Hx. apply (Permutation_in _ I1) in Hx as [<-|Hx]; auto.
      * intros o. cbn [filter]. rewrite I3. cbn [filter]. destruct (order_is o g) eqn:Eg, (order_is o f) eqn:Ef; try reflexivity. exfalso.
        assert (comes_before f g); [|rewrite <- order_le_spec in H; congruence]. unfold order_is, comes_before in *. destruct o, (sf_order f), (sf_order g); try discriminate; auto. apply N.eqb_eq in Eg, Ef. subst. apply N.le_refl.
Qed.
Lemma ordered_sorted cd fs : sorted_by_order (ordered_forms cd fs) (filter (fun f => (sf_initial f || sf_changed f) && negb (removed cd f)) fs).
Proof.
  unfold ordered_forms. fold (removed cd). change (fun f => (sf_initial f || sf_changed f) && negb (cd && sf_delete f)) with (fun f => (sf_initial f || sf_changed f) && negb (removed cd f)).
  induction (filter _ fs) as [|f l (I1 & I2 & I3)]; cbn [fold_right]; [split; [apply Permutation_refl|split; [constructor|reflexivity]]|].
  destruct (insert_form_spec f _ I2) as (J1 & J2 & J3). split; [eapply perm_trans; [exact J1|now apply perm_skip]|]. split; [assumption|]. intros o. rewrite J3. cbn [filter]. now rewrite I3.
Qed.

Theorem C51_ordered_partial : forall can_delete fs s es, submission can_delete fs s ->
  (forall f g, In f fs -> In g fs -> g <> f -> apart (fs_cont s) f g) -> In EUpdate es ->
  let s' := run can_delete true fs s es in
  exists l, sorted_by_order l (filter (fun f => (sf_initial f || sf_changed f) && negb (removed can_delete f)) fs) /\
  filter kid_hit (fs_kids s') = map sf_kid l /\
  filter (fun k => negb (kid_hit k)) (fs_kids s') = filter (fun k => negb (kid_hit k)) (fs_kids s) /\
  (forall f, In f l -> fs_cont s' (fid f) = sf_update f (fs_cont s (fid f))) /\
  (forall f, In f fs -> fs_cont s' (fid f) = fs_cont s (fid f) \/ fs_cont s' (fid f) = sf_update f (fs_cont s (fid f))) /\
  (forall i, ~ In i (map fid fs) -> fs_cont s' i = fs_cont s i).
Proof.
  intros cd fs s es HS Hap Hin s'. destruct (submission_inv _ _ _ HS) as (I0 & Hids & Hidem & HU & Hhit). pose proof HS as (HL0 & _).
  set (c0 := fs_cont s) in *. set (U := unlisted (fs_kids s)) in *. set (O := ordered_forms cd fs). pose proof (ordered_sorted cd fs) as HO. fold O in HO.
  set (goal := filter (fun f => (sf_initial f || sf_changed f) && negb (removed cd f)) fs) in *.
  assert (HOin : forall f, In f O <-> In f fs /\ (sf_initial f = true \/ sf_changed f = true) /\ removed cd f = false).
  { intros f. destruct HO as (HP & _). split.
    - intros H. apply (Permutation_in _ HP) in H. apply filter_In in H as [H1 H2]. apply andb_true_iff in H2 as [H2 H3]. apply orb_true_iff in H2. apply negb_true_iff in H3. auto.
    - intros (H1 & H2 & H3). apply (Permutation_in _ (Permutation_sym HP)). apply filter_In. split; [assumption|]. apply orb_true_iff in H2. rewrite H2, H3. reflexivity. }
  assert (HOi : incl O fs) by (intros f Hf; now apply HOin in Hf).
  assert (HOn : NoDup (map fid O)). { destruct HO as (HP & _). apply (Permutation_NoDup (Permutation_map fid (Permutation_sym HP))). now apply NoDup_filter_map. }
  set (D := deleted_forms cd fs).
  assert (HD : forall f, In f D <-> In f fs /\ removed cd f = true /\ (sf_initial f = true \/ sf_changed f = true)).
  { intros f. unfold D, deleted_forms, removed. destruct cd; cbn; [|split; [intros []|intros (_ & H & _); discriminate]]. rewrite filter_In, andb_true_iff, orb_true_iff. tauto. }
  assert (HDi : incl D fs) by (intros f Hf; now apply HD in Hf).
  assert (HI : incl (filter sf_initial fs) fs) by (intros f Hf; now apply filter_In in Hf).
  assert (Upd : forall t, inv fs c0 U t -> listed (fs_kids t) = map sf_kid (filter sf_initial fs) \/ listed (fs_kids t) = map sf_kid O ->
    let t' := formset_update cd true fs t in inv fs c0 U t' /\ listed (fs_kids t') = map sf_kid O /\ (forall f, In f O -> fs_cont t' (fid f) = sf_update f (c0 (fid f)))).
  { intros t It HLt. unfold formset_update. fold D O.
    destruct (drops_ok fs c0 U Hids D t It HDi) as (I1 & L1 & C1). { intros f g Hf Hg Hn. apply Hap; auto. }
    set (t1 := fold_left _ D t) in *.
    destruct (orders_ok fs c0 U Hids Hidem HU Hhit O t1 I1 HOi) as (I2 & L2 & A1 & A2). { intros f g Hf Hg Hn. apply Hap; auto. }
    split; [assumption|]. split; [|assumption]. rewrite L2, L1, adds_list by assumption.
    assert (E : without_forms O (without_forms D (listed (fs_kids t))) = []).
    { destruct HLt as [-> | ->].
      - rewrite (without_map fs D _ Hids HDi HI (fun f => negb (removed cd f))).
        + rewrite filter_filter. rewrite (without_map fs O _ Hids HOi) with (q := fun f => false); [clear; induction (filter _ fs); [reflexivity|assumption]|intros f Hf; now apply filter_In in Hf|].
          intros f Hf. split; [discriminate|]. intros N. exfalso. apply N, HOin. apply filter_In in Hf as [Hf H]. apply andb_true_iff in H as [H1 H2]. apply negb_true_iff in H2. auto.
        + intros f Hf. apply filter_In in Hf as [Hf Hi]. rewrite negb_true_iff, HD. destruct (removed cd f); split; intuition congruence.
      - rewrite (without_map fs D O Hids HDi HOi (fun f => true)).
        + rewrite filter_all by auto. rewrite (without_map fs O O Hids HOi HOi (fun f => false)); [clear; induction O; [reflexivity|assumption]|]. intros f Hf. split; [discriminate|contradiction].
        + intros f Hf. split; [intros _|auto]. rewrite HD. apply HOin in Hf as (_ & _ & Hr). intuition congruence. }
    now rewrite E. }
  assert (Val : forall t, inv fs c0 U t -> let t' := formset_validate cd fs t in inv fs c0 U t' /\ fs_kids t' = fs_kids t /\ (forall f, In f fs -> fs_cont t (fid f) = sf_update f (c0 (fid f)) -> fs_cont t' (fid f) = sf_update f (c0 (fid f)))).
  { intros t It. unfold formset_validate. pose proof (saves_ok fs c0 U Hids Hidem (fun f => negb (removed cd f)) fs t It (incl_refl _)) as (J1 & J2 & _ & J4).
    assert (EF : forall l u, fold_left (fun s f => if cd && sf_delete f then s else save_form f s) l u = fold_left (fun s f => if negb (removed cd f) then save_form f s else s) l u).
    { induction l as [|x l IH]; intros v; cbn; [reflexivity|]. rewrite IH. unfold removed. now destruct (cd && sf_delete x). }
    rewrite EF. auto. }
  assert (Fin : forall es t, inv fs c0 U t -> listed (fs_kids t) = map sf_kid O -> (forall f, In f O -> fs_cont t (fid f) = sf_update f (c0 (fid f))) ->
    let t' := run cd true fs t es in inv fs c0 U t' /\ listed (fs_kids t') = map sf_kid O /\ (forall f, In f O -> fs_cont t' (fid f) = sf_update f (c0 (fid f)))).
  { clear -Upd Val HOi. induction es as [|[|] es IH]; intros t It Lt Ct; cbn [run fold_left step]; [auto| |].
    - destruct (Val t It) as (I1 & K1 & C1). apply IH; [assumption|now rewrite K1|]. intros f Hf. apply C1; auto.
    - destruct (Upd t It (or_intror Lt)) as (I1 & L1 & C1). apply IH; assumption. }
  assert (All : forall es t, In EUpdate es -> inv fs c0 U t -> listed (fs_kids t) = map sf_kid (filter sf_initial fs) ->
    let t' := run cd true fs t es in inv fs c0 U t' /\ listed (fs_kids t') = map sf_kid O /\ (forall f, In f O -> fs_cont t' (fid f) = sf_update f (c0 (fid f)))).
  { clear -Upd Val Fin. induction es as [|[|] es IH]; intros t Hin It Lt; cbn [run fold_left step]; [contradiction| |].
    - destruct (Val t It) as (I1 & K1 & C1). apply IH; [destruct Hin; [discriminate|assumption]|assumption|now rewrite K1].
    - destruct (Upd t It (or_introl Lt)) as (I1 & L1 & C1). apply Fin; assumption. }
  destruct (All es s Hin I0 (eq_sym HL0)) as (IF & LF & CF). fold s' in IF, LF, CF. exists O. split; [assumption|]. split; [exact LF|]. split; [exact (i_un _ _ _ _ IF)|]. split; [exact CF|]. split; [exact (i_poss _ _ _ _ IF)|exact (i_foreign _ _ _ _ IF)].
Qed.

(** ** Concrete cases and where it fails.  Items are elements 0, 1, ...; contents as given. *)
Definition it (i : nat) : kid := mkKid i true None.
Definition conts (l : list str) : nat -> str := fun i => nth i l [].
Definition keep (x : str) := x.
Definition write (y : str) (x : str) := y.
Definition values (s : fstate) : list str := map (fun k => fs_cont s (kid_id k)) (filter kid_hit (fs_kids s)).
Definition A : str := [65%N]. Definition B : str := [66%N]. Definition X : str := [88%N]. Definition Y : str := [89%N].
Definition usual := [EValidate; EUpdate; EUpdate].   (* form.is_valid() and form.update_instance() *)

Definition ex_state := mkFState [it 0; mkKid 7 false None; it 1; it 2] (conts [A; B; X]) 10.
Definition ex_forms := [mkSForm (it 0) true true false None (write Y); mkSForm (it 1) true true true None keep; mkSForm (it 2) true false false None keep; mkSForm (it 5) false true false None (write (app A B)); mkSForm (it 6) false false false None keep].
Example C51_case : submission true ex_forms ex_state /\
  (forall f g, In f ex_forms -> In g ex_forms -> removed true f = true -> g <> f -> apart (fs_cont ex_state) f g) /\
  (forall f, In f ex_forms -> removed true f = true -> sf_changed f = true -> sf_initial f = true) /\
  values (run true false ex_forms ex_state usual) = [Y; X; app A B].
Proof.
  split; [|split; [|split; [|vm_compute; reflexivity]]].
  - split; [reflexivity|]. split; [cbn; repeat (constructor; [cbn; intuition discriminate|]); constructor|]. split; [cbn; repeat (constructor; [cbn; intuition discriminate|]); constructor|].
    split; [|split; [|split]].
    + intros f Hf. cbn [ex_forms In] in Hf. repeat (destruct Hf as [<-|Hf]; [cbn; intros; split; [reflexivity || discriminate|intuition discriminate]|]). contradiction.
    + intros f Hf. cbn [ex_forms In] in Hf. repeat (destruct Hf as [<-|Hf]; [reflexivity|]). contradiction.
    + intros f Hf. cbn in Hf. repeat (destruct Hf as [<-|Hf]; [cbn; lia|]). contradiction.
    + intros f Hf. cbn [ex_forms In] in Hf. repeat (destruct Hf as [<-|Hf]; [cbn; lia|]). contradiction.
  - intros f g Hf Hg Hr Hn. cbn [ex_forms In] in Hf. destruct Hf as [<-|[<-|[<-|[<-|[<-|[]]]]]]; try discriminate. cbn [ex_forms In] in Hg. intros x y Hx Hy.
    destruct Hg as [<-|[<-|[<-|[<-|[<-|[]]]]]]; try (now contradiction Hn); vm_compute in Hx, Hy; intuition (subst; discriminate).
  - intros f Hf. cbn [ex_forms In] in Hf. repeat (destruct Hf as [<-|Hf]; [cbn; intros; congruence|]). contradiction.
Qed.
Definition ex_oforms := [mkSForm (it 0) true true false (Some 3%N) (write Y); mkSForm (it 1) true true true (Some 1%N) keep; mkSForm (it 2) true false false (Some 2%N) keep; mkSForm (it 5) false true false (Some 1%N) (write (app A B))].
Example C51_ordered_case : values (run true true ex_oforms ex_state usual) = [app A B; X; Y].
Proof. vm_compute. reflexivity. Qed.

(** of two items with the same XML the second is ticked for deletion: the usual calls delete both *)
Theorem C51_duplicates_refuted :
  let s := mkFState [it 0; it 1] (conts [A; A]) 10 in
  let forms := [mkSForm (it 0) true false false None keep; mkSForm (it 1) true true true None keep] in
  values s = [A; A] /\ values (run true false forms s [EUpdate]) = [A] /\ values (run true false forms s usual) = [].
Proof. vm_compute. auto. Qed.
(** an item is edited to read like another one that is deleted: it is lost *)
Theorem C51_edited_lost_refuted :
  let s := mkFState [it 0; it 1] (conts [A; B]) 10 in
  let forms := [mkSForm (it 0) true true false None (write B); mkSForm (it 1) true true true None keep] in
  values (run true false forms s usual) = [].
Proof. vm_compute. reflexivity. Qed.
(** exchanging two items with the same XML loses one *)
Theorem C51_reorder_refuted :
  let s := mkFState [it 0; it 1] (conts [A; A]) 10 in
  let forms := [mkSForm (it 0) true true false (Some 2%N) keep; mkSForm (it 1) true true false (Some 1%N) keep] in
  values (run true true forms s [EUpdate]) = [A].
Proof. vm_compute. reflexivity. Qed.
(** a new form that is filled in and ticked for deletion is added all the same *)
Theorem C51_new_deleted_refuted :
  let s := mkFState [it 0] (conts [A]) 10 in
  let forms := [mkSForm (it 0) true false false None keep; mkSForm (it 1) false true true None (write B)] in
  values (run true false forms s usual) = [A; B].
Proof. vm_compute. reflexivity. Qed.
Print Assumptions C51_history_partial.
Print Assumptions C51_ordered_partial.
