(** Proofs about FormFields.v *)
From Coq Require Import String List Arith NArith Bool Lia Permutation Sorted.
From Verif Require Import PyStr Classes ClassProofs FieldLists FieldListProofs FormFields.
Import ListNotations.
Opaque u.

(** ** dictionaries *)
Lemma dset_fresh {A} k (v : A) d : ~ In k (map fst d) -> dset k v d = d ++ [(k, v)].
Proof.
  induction d as [|[k' v'] d IH]; cbn; intros H; [reflexivity|]. destruct (str_eqb_spec k' k) as [->|N]; [exfalso; auto|]. now rewrite IH by tauto.
Qed.
Lemma dset_keys_eq {A} k (v : A) d : map fst (dset k v d) = map fst d ++ (if str_mem k (map fst d) then [] else [k]).
Proof.
  induction d as [|[k' v'] d IH]; cbn; [reflexivity|]. rewrite (str_eqb_sym k k'). destruct (str_eqb k' k); cbn; [now rewrite app_nil_r|]. now rewrite IH.
Qed.
Lemma dupdate_keys {A} (e : list (str * A)) : forall d, map fst (dupdate d e) = map fst d ++ firsts_from (map fst d) (map fst e).
Proof.
  induction e as [|[k v] e IH]; intros d; [cbn; now rewrite app_nil_r|]. change (dupdate d ((k, v) :: e)) with (dupdate (dset k v d) e). rewrite IH, dset_keys_eq. cbn [map fst firsts_from].
  destruct (str_mem k (map fst d)); [now rewrite app_nil_r|]. rewrite <- app_assoc. cbn. f_equal. f_equal. apply firsts_from_ext. intros y. rewrite in_app_iff. cbn. tauto.
Qed.
Lemma dupdate_consistent {A} (g : str -> option A) e : (forall n v, In (n, v) e -> g n = Some v) -> forall d n,
  dget n (dupdate d e) = if str_mem n (map fst e) then g n else dget n d.
Proof.
  induction e as [|[k v] e IH]; intros H d n; [reflexivity|]. change (dupdate d ((k, v) :: e)) with (dupdate (dset k v d) e). rewrite IH by (intros; apply H; now right). cbn [map fst str_mem existsb]. fold (str_mem n (map fst e)).
  rewrite dget_dset. rewrite (str_eqb_sym n k). destruct (str_eqb_spec k n) as [->|N]; cbn [orb]; [|reflexivity]. rewrite (H n v (or_introl eq_refl)). now destruct (str_mem n (map fst e)).
Qed.
Lemma firsts_from_filter p l : forall s, firsts_from s (filter p l) = filter p (firsts_from s l).
Proof.
  induction l as [|x l IH]; intros s; cbn; [reflexivity|]. destruct (p x) eqn:Ep; cbn; destruct (str_mem x s) eqn:Es; cbn; try apply IH.
  - rewrite Ep. f_equal. apply IH.
  - rewrite Ep. rewrite <- IH. clear -Ep. revert s. induction l as [|y l IH]; intros s; cbn; [reflexivity|]. destruct (p y) eqn:E; [|apply IH]. cbn. destruct (str_eqb_spec y x) as [->|N]; [congruence|].
    cbn. fold (str_mem y s). destruct (str_mem y s); [apply IH|]. f_equal. rewrite (firsts_from_ext _ (y :: x :: s) (x :: y :: s)); [apply IH|]. intros z. cbn. tauto.
Qed.

Definition has {A} (d : list (str * A)) (n : str) : bool := str_mem n (map fst d).
Lemma has_dget {A} (d : list (str * A)) n : has d n = match dget n d with Some _ => true | None => false end.
Proof.
  unfold has. destruct (dget n d) eqn:E.
  - apply str_mem_In. apply dget_In in E. now apply (in_map fst) in E.
  - apply dget_None in E. apply not_true_iff_false. now rewrite str_mem_In.
Qed.
Lemma ordered_pairs {A} names (d : list (str * A)) : map fst (flat_map (fun n => match dget n d with Some v => [(n, v)] | None => [] end) names) = filter (has d) names.
Proof.
  induction names as [|n names IH]; cbn; [reflexivity|]. rewrite map_app, IH, has_dget. now destruct (dget n d).
Qed.
Lemma ordered_keys {A} names (d : list (str * A)) : map fst (ordered names d) = filter (has d) (firsts names).
Proof. unfold ordered. rewrite dupdate_keys, ordered_pairs. cbn. apply firsts_from_filter. Qed.
Lemma ordered_get {A} names (d : list (str * A)) n : dget n (ordered names d) = if str_mem n names then dget n d else None.
Proof.
  unfold ordered. rewrite (dupdate_consistent (fun n => dget n d)).
  - rewrite ordered_pairs. cbn. destruct (str_mem n names) eqn:E.
    + apply str_mem_In in E. destruct (str_mem n (filter (has d) names)) eqn:E2; [reflexivity|]. apply not_true_iff_false in E2. rewrite str_mem_In, filter_In, has_dget in E2. destruct (dget n d); [exfalso; auto|reflexivity].
    + destruct (str_mem n (filter (has d) names)) eqn:E2; [|reflexivity]. apply str_mem_In, filter_In in E2 as [E2 _]. apply str_mem_In in E2. congruence.
  - intros m v H. apply in_flat_map in H as (k & _ & H). destruct (dget k d) eqn:E; [|contradiction]. destruct H as [[= <- <-]|[]]. assumption.
Qed.

(** ** the loop *)
Definition shown (fl el : option pfl) (n : str) : bool := included fl n && negb (excluded el n).
Definition sname (x : str * mfield * contr) : str := fst (fst x).
Definition sfield (x : str * mfield * contr) : mfield := snd (fst x).
Lemma loop_fold build declared fl el : forall fs a a', loop build declared fl el fs a = FOk a' ->
  exists L, map fst L = filter (fun nm => shown fl el (fst nm)) fs /\
    Forall (fun x => contribute build declared fl el (sname x) (sfield x) = FOk (snd x)) L /\
    a' = fold_left (fun a x => store a (sname x) (sfield x) (snd x)) L a.
Proof.
  induction fs as [|[n m] fs IH]; intros a a' H; cbn in H.
  - injection H as <-. exists []. auto.
  - unfold shown in *. cbn [filter fst]. destruct (included fl n); cbn [negb andb] in *; [|auto]. destruct (excluded el n); cbn [negb] in *; [auto|].
    destruct (contribute build declared fl el n m) as [c|] eqn:E; [|discriminate]. apply IH in H as (L & H1 & H2 & H3). exists ((n, m, c) :: L). cbn. rewrite H1. split; [reflexivity|]. split; [now constructor|assumption].
Qed.
Lemma loop_fails build declared fl el : forall fs a n m e, In (n, m) fs -> shown fl el n = true -> contribute build declared fl el n m = FErr e ->
  forall a', loop build declared fl el fs a <> FOk a'.
Proof.
  intros fs a n m e Hi Hs He a' H. apply loop_fold in H as (L & H1 & H2 & _). assert (G : In (n, m) (map fst L)) by (rewrite H1; apply filter_In; auto).
  apply in_map_iff in G as ([[n' m'] c] & G1 & G2). cbn in G1. injection G1 as -> ->. rewrite Forall_forall in H2. specialize (H2 _ G2). cbn in H2. congruence.
Qed.

Definition plains (L : list (str * mfield * contr)) : list (str * ffield) := flat_map (fun x => match snd x with CField f => [(sname x, f)] | _ => [] end) L.
Definition subs (L : list (str * mfield * contr)) : list (str * fform) := flat_map (fun x => match snd x with CSub f => [(sname x, f)] | _ => [] end) L.
Definition sets (L : list (str * mfield * contr)) : list (str * fset) := flat_map (fun x => match snd x with CSet f => [(sname x, f)] | _ => [] end) L.
Lemma oset_fresh k n d : ~ In k (map fst d) -> oset k n d = d ++ [(k, n)].
Proof.
  induction d as [|[k' v'] d IH]; cbn; intros H; [reflexivity|]. destruct (Nat.eqb_spec k' k) as [->|N]; [exfalso; auto|]. now rewrite IH by tauto.
Qed.
Lemma fold_dicts : forall L a, NoDup (map sname L) ->
  (forall x, In x (map sname L) -> ~ In x (map fst (a_fields a)) /\ ~ In x (map fst (a_subs a)) /\ ~ In x (map fst (a_sets a))) ->
  let r := fold_left (fun a x => store a (sname x) (sfield x) (snd x)) L a in
  a_fields r = a_fields a ++ plains L /\ a_subs r = a_subs a ++ subs L /\ a_sets r = a_sets a ++ sets L.
Proof.
  induction L as [|[[n m] c] L IH]; intros a Hn Hf; cbn [fold_left]; [cbn; rewrite !app_nil_r; auto|]. inversion Hn as [|? ? Hx Hn']; subst. cbn [sname fst snd] in Hx.
  destruct (Hf n (or_introl eq_refl)) as (F1 & F2 & F3). destruct (IH (store a n m c) Hn') as (I1 & I2 & I3).
  { intros x Hxl. assert (x <> n) by (intros ->; contradiction). destruct (Hf x (or_intror Hxl)) as (G1 & G2 & G3). unfold store. destruct c; cbn; rewrite ?dset_fresh by assumption; rewrite ?map_app, ?in_app_iff; cbn; intuition congruence. }
  cbn zeta in *. change (sname (n, m, c)) with n. change (sfield (n, m, c)) with m. change (snd (n, m, c)) with c. rewrite I1, I2, I3. unfold store. destruct c; cbn [a_fields a_subs a_sets plains subs sets flat_map snd sname fst]; rewrite ?dset_fresh by assumption; rewrite <- ?app_assoc; auto.
Qed.
Lemma store_order a n m c : a_order (store a n m c) = oset (m_counter m) n (a_order a). Proof. now destruct c. Qed.
Lemma fold_order : forall L a, NoDup (map (fun x => m_counter (sfield x)) L) ->
  (forall x, In x (map (fun x => m_counter (sfield x)) L) -> ~ In x (map fst (a_order a))) ->
  a_order (fold_left (fun a x => store a (sname x) (sfield x) (snd x)) L a) = a_order a ++ map (fun x => (m_counter (sfield x), sname x)) L.
Proof.
  induction L as [|[[n m] c] L IH]; intros a Hn Hf; cbn [fold_left]; [cbn; now rewrite app_nil_r|]. inversion Hn as [|? ? Hx Hn']; subst. rewrite IH; [|assumption|].
  - rewrite store_order, oset_fresh by (apply Hf; now left). rewrite <- app_assoc. reflexivity.
  - intros x Hxl. rewrite store_order, oset_fresh by (apply Hf; now left). rewrite map_app, in_app_iff. cbn in *. intros [H|[H|[]]]; [apply (Hf x); auto|]. subst x. contradiction.
Qed.

Lemma insert_key_perm x l : Permutation (insert_key x l) (x :: l).
Proof. induction l as [|y l IH]; cbn; [auto|]. destruct (fst x <=? fst y); [auto|]. rewrite IH. apply perm_swap. Qed.
Lemma sort_keys_perm l : Permutation (sort_keys l) l.
Proof. induction l as [|x l IH]; cbn; [auto|]. now rewrite insert_key_perm, IH. Qed.
Definition key_le (x y : nat * str) : Prop := fst x <= fst y.
Lemma insert_key_sorted x l : StronglySorted key_le l -> StronglySorted key_le (insert_key x l).
Proof.
  induction l as [|y l IH]; cbn; intros H; [constructor; constructor|]. inversion H; subst. destruct (Nat.leb_spec (fst x) (fst y)) as [G|G].
  - constructor; [assumption|]. constructor; [exact G|]. rewrite Forall_forall in *. intros z Hz. specialize (H3 z Hz). unfold key_le in *. lia.
  - constructor; [auto|]. rewrite Forall_forall in *. intros z Hz. apply (Permutation_in _ (insert_key_perm x l)) in Hz as [<-|Hz]; [unfold key_le; lia|auto].
Qed.
Lemma sort_keys_sorted l : StronglySorted key_le (sort_keys l).
Proof. induction l as [|x l IH]; cbn; [constructor|]. now apply insert_key_sorted. Qed.

(** ** kinds *)
Inductive slot := SlField | SlSub | SlSet.
Definition slot_of_contr (c : contr) : slot := match c with CField _ => SlField | CSub _ => SlSub | CSet _ => SlSet end.
Definition slot_of (m : mfield) : option slot :=
  match m_choices m with
  | Some (_ :: _) => Some SlField
  | _ => match m_kind m with
         | KString | KInt | KDate | KBool => Some SlField
         | KNode _ => Some SlSub
         | KNodeList _ | KStringList | KIntList => Some SlSet
         | KOther => None
         end
  end.
Lemma contribute_slot build declared fl el n m c : contribute build declared fl el n m = FOk c -> slot_of m = Some (slot_of_contr c).
Proof.
  unfold contribute, slot_of. destruct (m_choices m) as [[|]|]; [|intros [= <-]; reflexivity|]; destruct (m_kind m); try (intros [= <-]; reflexivity); try discriminate; destruct (sub_form _ _ _ _ _ _); intros [= <-]; reflexivity.
Qed.

Definition keys_in (s : slot) (f : fform) : list str :=
  match s with SlField => map fst (g_fields f) | SlSub => map fst (g_subs f) | SlSet => map fst (g_sets f) end.
Definition slot_eqb (a b : slot) : bool := match a, b with SlField, SlField | SlSub, SlSub | SlSet, SlSet => true | _, _ => false end.

(** ** one form *)
Section One.
  Context (g : nat) (M : models) (declared : option (list (str * fform))) (fl el : option pfl) (c : nat) (F : fform).
  Definition here := filter (fun nm => shown fl el (fst nm)) (M c).
  Hypothesis HF : form_for (S g) M declared fl el c = FOk F.
  Hypothesis Hn : NoDup (map fst (M c)).
  Hypothesis Hc : fl = None -> NoDup (map (fun nm => m_counter (snd nm)) here).
  Let build := fun c' fl' el' => form_for g M (Some []) fl' el' c'.

  Lemma here_nodup : NoDup (map fst here).
  Proof.
    unfold here. clear -Hn. induction (M c) as [|[n m] l IH]; cbn in *; [constructor|]. inversion Hn; subst. destruct (shown fl el n); cbn; [|auto]. constructor; [|auto].
    intros H. apply in_map_iff in H as ([n' m'] & <- & H). apply filter_In in H as [H _]. apply H1. now apply (in_map fst) in H.
  Qed.
  Lemma one : exists L, map fst L = here /\ Forall (fun x => contribute build declared fl el (sname x) (sfield x) = FOk (snd x)) L /\
    exists a, F = finish fl a /\ a_fields a = plains L /\ a_subs a = subs L /\ a_sets a = sets L /\
      (fl = None -> a_order a = map (fun x => (m_counter (sfield x), sname x)) L).
  Proof.
    pose proof HF as H. cbn in H. fold build in H. destruct (loop build declared fl el (M c) (mkAcc [] [] [] [])) as [a|] eqn:E; [|discriminate]. injection H as H.
    apply loop_fold in E as (L & L1 & L2 & L3). exists L. split; [exact L1|]. split; [exact L2|]. exists a. split; [auto|].
    assert (Hnd : NoDup (map sname L)) by (change sname with (fun x : str * mfield * contr => fst (fst x)); rewrite <- (map_map fst fst); rewrite L1; apply here_nodup).
    destruct (fold_dicts L (mkAcc [] [] [] []) Hnd) as (D1 & D2 & D3); [intros x _; cbn; tauto|]. cbn zeta in *. rewrite <- L3 in *. repeat (split; [assumption|]).
    intros Hfl. rewrite L3. rewrite fold_order; [reflexivity| |intros x _; cbn; tauto]. change (fun x => m_counter (sfield x)) with (fun x : str * mfield * contr => m_counter (snd (fst x))).
    rewrite <- (map_map fst (fun nm => m_counter (snd nm))). rewrite L1. now apply Hc.
  Qed.

  Definition dict_keys (s : slot) (L : list (str * mfield * contr)) : list str :=
    map sname (filter (fun x => slot_eqb (slot_of_contr (snd x)) s) L).
  Lemma plains_keys L : map fst (plains L) = dict_keys SlField L.
  Proof. unfold dict_keys, plains. induction L as [|x L IH]; cbn; [reflexivity|]. rewrite map_app, IH. now destruct (snd x). Qed.
  Lemma subs_keys L : map fst (subs L) = dict_keys SlSub L.
  Proof. unfold dict_keys, subs. induction L as [|x L IH]; cbn; [reflexivity|]. rewrite map_app, IH. now destruct (snd x). Qed.
  Lemma sets_keys L : map fst (sets L) = dict_keys SlSet L.
  Proof. unfold dict_keys, sets. induction L as [|x L IH]; cbn; [reflexivity|]. rewrite map_app, IH. now destruct (snd x). Qed.

  Definition kind_is (s : slot) (n : str) : bool :=
    match dget n (M c) with Some m => match slot_of m with Some s' => slot_eqb s' s | None => false end | None => false end.
  Lemma dict_keys_In s L : map fst L = here -> Forall (fun x => contribute build declared fl el (sname x) (sfield x) = FOk (snd x)) L ->
    forall n, In n (dict_keys s L) <-> kind_is s n = true /\ shown fl el n = true.
  Proof.
    intros H1 H2 n. unfold dict_keys, kind_is. rewrite in_map_iff. split.
    - intros ([[n' m] k] & <- & Hx). apply filter_In in Hx as [Hx Hs]. rewrite Forall_forall in H2. specialize (H2 _ Hx). cbn in H2, Hs |- *. apply contribute_slot in H2.
      apply (in_map fst) in Hx. rewrite H1 in Hx. unfold here in Hx. apply filter_In in Hx as [Hx Hsh]. cbn in Hx, Hsh. rewrite (In_dget _ _ _ Hn Hx), H2. auto.
    - intros [Hk Hs]. destruct (dget n (M c)) as [m|] eqn:E; [|discriminate]. apply dget_In in E. assert (Hi : In (n, m) here) by (unfold here; apply filter_In; auto).
      rewrite <- H1 in Hi. apply in_map_iff in Hi as ([[n' m'] k] & Hnm & Hi). cbn in Hnm. injection Hnm as -> ->. exists (n, m, k). split; [reflexivity|]. apply filter_In. split; [assumption|].
      rewrite Forall_forall in H2. specialize (H2 _ Hi). cbn in *. apply contribute_slot in H2. rewrite H2 in Hk. assumption.
  Qed.

  Definition order_names (L : list (str * mfield * contr)) : list str :=
    match fl with Some t => p_fields t | None => map snd (sort_keys (map (fun x => (m_counter (sfield x), sname x)) L)) end.
  Lemma keys_in_eq : exists L, map fst L = here /\ (forall s n, In n (dict_keys s L) <-> kind_is s n = true /\ shown fl el n = true) /\
    forall s, keys_in s F = filter (fun n => kind_is s n && shown fl el n) (firsts (order_names L)).
  Proof.
    destruct one as (L & L1 & L2 & a & -> & A1 & A2 & A3 & A4). exists L. split; [assumption|]. assert (K : forall s n, In n (dict_keys s L) <-> kind_is s n = true /\ shown fl el n = true) by (intros s; now apply dict_keys_In). split; [assumption|].
    assert (N : match fl with Some t => p_fields t | None => map snd (sort_keys (a_order a)) end = order_names L).
    { unfold order_names. destruct fl; [reflexivity|]. now rewrite A4. }
    assert (H : forall s l, filter (fun n => str_mem n (dict_keys s L)) l = filter (fun n => kind_is s n && shown fl el n) l).
    { intros s l. apply filter_ext. intros n. apply eq_true_iff_eq. rewrite str_mem_In, andb_true_iff. apply K. }
    intros s. unfold finish. rewrite N. destruct s; cbn [keys_in g_fields g_subs g_sets]; rewrite ordered_keys; rewrite <- H; apply filter_ext; intros n; unfold has; [rewrite A1, plains_keys|rewrite A2, subs_keys|rewrite A3, sets_keys]; reflexivity.
  Qed.

  Lemma sorted_names L : map fst L = here -> fl = None ->
    Permutation (order_names L) (map fst here) /\ NoDup (order_names L) /\
    StronglySorted lt (map (fun n => match dget n (M c) with Some m => m_counter m | None => 0 end) (order_names L)).
  Proof.
    intros H1 Hfl. unfold order_names. rewrite Hfl. set (K := map (fun x => (m_counter (sfield x), sname x)) L).
    assert (HK : map snd K = map fst here). { unfold K. rewrite map_map. rewrite <- H1, map_map. apply map_ext. reflexivity. }
    assert (HK1 : map fst K = map (fun nm => m_counter (snd nm)) here). { unfold K. rewrite map_map. rewrite <- H1, map_map. apply map_ext. reflexivity. }
    assert (P : Permutation (map snd (sort_keys K)) (map fst here)). { rewrite <- HK. apply Permutation_map, sort_keys_perm. }
    split; [exact P|]. split; [apply (Permutation_NoDup (Permutation_sym P)); apply here_nodup|].
    assert (Hkey : forall x, In x (sort_keys K) -> (match dget (snd x) (M c) with Some m => m_counter m | None => 0 end) = fst x).
    { intros x Hx. apply (Permutation_in _ (sort_keys_perm K)) in Hx. unfold K in Hx. apply in_map_iff in Hx as ([[n m] k] & <- & Hx). cbn. apply (in_map fst) in Hx. rewrite H1 in Hx. unfold here in Hx. apply filter_In in Hx as [Hx _]. cbn in Hx. now rewrite (In_dget _ _ _ Hn Hx). }
    rewrite map_map. rewrite (map_ext_in _ fst _ Hkey).
    assert (Hnd : NoDup (map fst (sort_keys K))). { apply (Permutation_NoDup (Permutation_sym (Permutation_map fst (sort_keys_perm K)))). rewrite HK1. auto. }
    pose proof (sort_keys_sorted K) as Hs. clear -Hs Hnd. induction (sort_keys K) as [|x l IH]; cbn in *; [constructor|]. inversion Hs; subst. inversion Hnd; subst. constructor; [auto|]. rewrite Forall_forall in *. intros z Hz. apply in_map_iff in Hz as (y & <- & Hy). specialize (H2 y Hy). unfold key_le in H2.
    assert (fst x <> fst y) by (intros E; apply H3; rewrite E; now apply in_map). lia.
  Qed.
  Lemma keys_all : forall s n, In n (keys_in s F) <-> kind_is s n = true /\ shown fl el n = true.
  Proof.
    destruct keys_in_eq as (L & L1 & L2 & L3). intros s n. rewrite L3, filter_In, firsts_In, andb_true_iff. split; [tauto|]. intros [H1 H2]. split; [|auto]. assert (Q : fl = None \/ exists t, fl = Some t) by (clear; destruct fl; eauto). destruct Q as [Q|[t Q]].
    - destruct (sorted_names L L1 Q) as [P _]. apply (Permutation_in _ (Permutation_sym P)). unfold kind_is in H1. destruct (dget n (M c)) eqn:E; [|discriminate]. apply dget_In in E. apply in_map_iff. exists (n, m). split; [reflexivity|]. unfold here. apply filter_In. auto.
    - unfold shown, included in H2. apply andb_true_iff in H2 as [H2 _]. unfold order_names. rewrite Q in *. now apply str_mem_In.
  Qed.

  (** the values *)
  Lemma get_plain n f : dget n (g_fields F) = Some f -> exists m, dget n (M c) = Some m /\ contribute build declared fl el n m = FOk (CField f).
  Proof.
    destruct one as (L & L1 & L2 & a & -> & A1 & A2 & A3 & A4). cbn. rewrite ordered_get. destruct (str_mem n _); [|discriminate]. rewrite A1. intros H. apply dget_In in H. unfold plains in H. apply in_flat_map in H as ([[n' m] k] & Hx & H). cbn in H. destruct k; try contradiction. destruct H as [[= -> ->]|[]].
    exists m. rewrite Forall_forall in L2. split; [|exact (L2 _ Hx)]. apply (in_map fst) in Hx. rewrite L1 in Hx. apply filter_In in Hx as [Hx _]. now apply In_dget.
  Qed.
  Lemma get_sub n f : dget n (g_subs F) = Some f -> exists m, dget n (M c) = Some m /\ contribute build declared fl el n m = FOk (CSub f).
  Proof.
    destruct one as (L & L1 & L2 & a & -> & A1 & A2 & A3 & A4). cbn. rewrite ordered_get. destruct (str_mem n _); [|discriminate]. rewrite A2. intros H. apply dget_In in H. unfold subs in H. apply in_flat_map in H as ([[n' m] k] & Hx & H). cbn in H. destruct k; try contradiction. destruct H as [[= -> ->]|[]].
    exists m. rewrite Forall_forall in L2. split; [|exact (L2 _ Hx)]. apply (in_map fst) in Hx. rewrite L1 in Hx. apply filter_In in Hx as [Hx _]. now apply In_dget.
  Qed.
  Lemma get_set n s : dget n (g_sets F) = Some s -> exists m, dget n (M c) = Some m /\ contribute build declared fl el n m = FOk (CSet s).
  Proof.
    destruct one as (L & L1 & L2 & a & -> & A1 & A2 & A3 & A4). cbn. rewrite ordered_get. destruct (str_mem n _); [|discriminate]. rewrite A3. intros H. apply dget_In in H. unfold sets in H. apply in_flat_map in H as ([[n' m] k] & Hx & H). cbn in H. destruct k; try contradiction. destruct H as [[= -> ->]|[]].
    exists m. rewrite Forall_forall in L2. split; [|exact (L2 _ Hx)]. apply (in_map fst) in Hx. rewrite L1 in Hx. apply filter_In in Hx as [Hx _]. now apply In_dget.
  Qed.
End One.
