(** Proofs about Classes.v: the field table against attribute lookup. *)
From Coq Require Import String List Arith Lia NArith.
From Verif Require Import PyStr Classes.
Import ListNotations.
Opaque u.

(** ** dictionaries *)
Section D.
  Context {A : Type}.
  Implicit Types d e : list (str * A).
  Lemma dget_dset k v n d : dget n (dset k v d) = if str_eqb k n then Some v else dget n d.
  Proof.
    induction d as [|[k' v'] d IH]; cbn; [reflexivity|]. destruct (str_eqb_spec k' k) as [->|N]; cbn.
    - destruct (str_eqb k n); reflexivity.
    - rewrite IH. destruct (str_eqb_spec k n) as [->|N2]; [|reflexivity]. apply str_eqb_neq in N. now rewrite N.
  Qed.
  Lemma dset_keys k v d : forall x, In x (map fst (dset k v d)) -> x = k \/ In x (map fst d).
  Proof.
    induction d as [|[k' v'] d IH]; cbn; intros x H; [destruct H as [<-|[]]; auto|]. destruct (str_eqb k' k); cbn in H.
    - destruct H; auto.
    - destruct H as [<-|H]; [auto|]. apply IH in H as [->|H]; auto.
  Qed.
  Lemma dset_nodup k v d : NoDup (map fst d) -> NoDup (map fst (dset k v d)).
  Proof.
    induction d as [|[k' v'] d IH]; cbn; intros H; [constructor; [intros []|constructor]|]. inversion H as [|? ? Hx H']; subst.
    destruct (str_eqb_spec k' k) as [->|N]; cbn; [now constructor|]. constructor; [|auto]. intros Hi. apply dset_keys in Hi as [->|Hi]; [now apply N|auto].
  Qed.
  Lemma dget_In n v d : dget n d = Some v -> In (n, v) d.
  Proof.
    induction d as [|[k' v'] d IH]; cbn; [discriminate|]. destruct (str_eqb_spec k' n) as [->|N]; [|auto]. intros [= ->]. now left.
  Qed.
  Lemma dget_None n d : dget n d = None -> ~ In n (map fst d).
  Proof.
    induction d as [|[k' v'] d IH]; cbn; [tauto|]. destruct (str_eqb_spec k' n) as [->|N]; [discriminate|]. intros H [H1|H1]; [now apply N|now apply IH].
  Qed.
  Lemma In_dget n v d : NoDup (map fst d) -> In (n, v) d -> dget n d = Some v.
  Proof.
    induction d as [|[k' v'] d IH]; cbn; [tauto|]. intros H [[= -> ->]|Hi]; [now rewrite str_eqb_refl|]. inversion H as [|? ? Hx H']; subst.
    destruct (str_eqb_spec k' n) as [->|N]; [|auto]. exfalso. apply Hx. now apply (in_map fst) in Hi.
  Qed.
  Lemma dget_none_notin n d : ~ In n (map fst d) -> dget n d = None.
  Proof. intros H. destruct (dget n d) eqn:E; [|reflexivity]. apply dget_In, (in_map fst) in E. contradiction. Qed.
  Lemma dget_dupdate n e : forall d, NoDup (map fst e) -> dget n (dupdate d e) = match dget n e with Some v => Some v | None => dget n d end.
  Proof.
    unfold dupdate. induction e as [|[k v] e IH]; intros d H; cbn; [reflexivity|]. inversion H as [|? ? Hx H']; subst. rewrite IH by assumption. cbn. rewrite dget_dset.
    destruct (str_eqb_spec k n) as [->|N]; [|reflexivity]. now rewrite (dget_none_notin _ _ Hx).
  Qed.
  Lemma dupdate_nodup e : forall d, NoDup (map fst d) -> NoDup (map fst (dupdate d e)).
  Proof. unfold dupdate. induction e as [|[k v] e IH]; intros d H; cbn; [assumption|]. apply IH. now apply dset_nodup. Qed.
End D.

(** ** C3 *)
Inductive Sub : list nat -> list nat -> Prop :=
| SubNil : forall m, Sub [] m
| SubTake : forall x l m, Sub l m -> Sub (x :: l) (x :: m)
| SubSkip : forall x l m, Sub l m -> Sub l (x :: m).

Lemma Sub_In l m x : Sub l m -> In x l -> In x m.
Proof. induction 1; cbn; intros H1; auto; [contradiction|]. destruct H1; auto. Qed.

Lemma pick_spec ls : forall cands x, pick cands ls = Some x -> in_tails x ls = false /\ exists l r, In l cands /\ l = x :: r.
Proof.
  induction cands as [|[|y l] cands IH]; intros x H; cbn in H; [discriminate| |].
  - destruct (IH _ H) as (H1 & l & r & H2 & H3). split; [assumption|]. exists l, r. split; [now right|assumption].
  - destruct (in_tails y ls) eqn:E.
    + destruct (IH _ H) as (H1 & l' & r & H2 & H3). split; [assumption|]. exists l', r. split; [now right|assumption].
    + injection H as <-. split; [assumption|]. exists (y :: l), l. split; [now left|reflexivity].
Qed.
Lemma in_tails_false x ls l : in_tails x ls = false -> In l ls -> ~ In x (tl l).
Proof.
  intros H Hl Hx. unfold in_tails in H. assert (existsb (fun l => existsb (Nat.eqb x) (tl l)) ls = true) by
    (apply existsb_exists; exists l; split; [assumption|]; apply existsb_exists; exists x; split; [assumption|apply Nat.eqb_refl]). congruence.
Qed.

Lemma merge_spec : forall fuel ls m, merge fuel ls = Some m ->
  NoDup m /\ (forall l, In l ls -> Sub l m) /\ (forall x, In x m -> exists l, In l ls /\ In x l).
Proof.
  induction fuel as [|g IH]; intros ls m H; cbn [merge] in H.
  - destruct (forallb _ ls) eqn:E; [|discriminate]. injection H as <-. split; [constructor|]. split; [|intros x []].
    intros l Hl. rewrite forallb_forall in E. specialize (E l Hl). destruct l; [constructor|discriminate].
  - destruct (forallb _ ls) eqn:E.
    { injection H as <-. split; [constructor|]. split; [|intros x []]. intros l Hl. rewrite forallb_forall in E. specialize (E l Hl). destruct l; [constructor|discriminate]. }
    destruct (pick ls ls) as [x|] eqn:Ep; [|discriminate]. destruct (merge g (map (drop_head x) ls)) as [m'|] eqn:Em; [|discriminate]. injection H as <-.
    destruct (pick_spec _ _ _ Ep) as (Ht & l0 & r0 & Hl0 & ->). destruct (IH _ _ Em) as (H1 & H2 & H3).
    assert (Hno : forall l, In l ls -> ~ In x (drop_head x l)).
    { intros l Hl. pose proof (in_tails_false _ _ _ Ht Hl) as G. destruct l as [|y l]; [intros []|]. cbn in *. destruct (Nat.eqb_spec y x) as [->|N]; [exact G|]. intros [He|Hi]; [now apply N|contradiction]. }
    split; [|split].
    + constructor; [|assumption]. intros Hx. destruct (H3 x Hx) as (l & Hl & Hxl). apply in_map_iff in Hl as (l1 & <- & Hl1). now apply (Hno l1).
    + intros l Hl. specialize (H2 (drop_head x l) (in_map _ _ _ Hl)). destruct l as [|y l]; [constructor|]. cbn in H2. destruct (Nat.eqb_spec y x) as [->|N]; [now constructor|now constructor].
    + intros y [<-|Hy].
      * exists (x :: r0). split; [assumption|now left].
      * destruct (H3 y Hy) as (l & Hl & Hyl). apply in_map_iff in Hl as (l1 & <- & Hl1). exists l1. split; [assumption|]. destruct l1 as [|z l1]; [contradiction|]. cbn in Hyl. destruct (z =? x); [now right|assumption].
Qed.

(** ** the inherited table *)
Definition table (k : cls) : list (str * nat) := match c_fields k with Some t => t | None => [] end.
Definition tables_ok (cs : list cls) : Prop := forall k, In k cs -> NoDup (map fst (table k)).

Lemma inherited_spec w bases n : tables_ok (w_classes w) ->
  NoDup (map fst (inherited_fields w bases)) /\
  (forall f, dget n (inherited_fields w bases) = Some f -> exists b k, In b bases /\ nth_error (w_classes w) b = Some k /\ dget n (table k) = Some f) /\
  (dget n (inherited_fields w bases) = None -> forall b k, In b bases -> nth_error (w_classes w) b = Some k -> dget n (table k) = None).
Proof.
  intros Ht. unfold inherited_fields.
  set (step := fun acc b => match nth_error (w_classes w) b with Some k => match c_fields k with Some fs => dupdate acc fs | None => acc end | None => acc end).
  enough (G : forall bs acc, NoDup (map fst acc) -> NoDup (map fst (fold_left step bs acc)) /\
    (forall f, dget n (fold_left step bs acc) = Some f -> dget n acc = Some f \/ exists b k, In b bs /\ nth_error (w_classes w) b = Some k /\ dget n (table k) = Some f) /\
    (dget n (fold_left step bs acc) = None -> dget n acc = None /\ forall b k, In b bs -> nth_error (w_classes w) b = Some k -> dget n (table k) = None)).
  { destruct (G bases [] (NoDup_nil _)) as (G1 & G2 & G3). split; [assumption|]. split.
    - intros f Hf. destruct (G2 f Hf) as [H|H]; [discriminate H|assumption].
    - intros Hf. apply G3, Hf. }
  induction bs as [|b bs IH]; intros acc Hacc; cbn [fold_left].
  - split; [assumption|]. split; [auto|]. intros H. split; [assumption|]. intros b k [].
  - assert (Hs : NoDup (map fst (step acc b)) /\ dget n (step acc b) = match nth_error (w_classes w) b with Some k => match dget n (table k) with Some v => Some v | None => dget n acc end | None => dget n acc end).
    { unfold step. destruct (nth_error (w_classes w) b) as [k|] eqn:Eb; [|auto]. pose proof (Ht k (nth_error_In _ _ Eb)) as Hk. unfold table in *. destruct (c_fields k) as [t|]; [|auto].
      split; [now apply dupdate_nodup|]. now rewrite dget_dupdate. }
    destruct Hs as [Hs1 Hs2]. destruct (IH (step acc b) Hs1) as (G1 & G2 & G3). split; [assumption|]. split.
    + intros f Hf. destruct (G2 f Hf) as [H|(b' & k & H1 & H2 & H3)].
      * rewrite Hs2 in H. destruct (nth_error (w_classes w) b) as [k|] eqn:Eb; [|auto]. destruct (dget n (table k)) eqn:Ek; [|auto]. right. exists b, k. split; [now left|]. split; [assumption|congruence].
      * right. exists b', k. split; [now right|auto].
    + intros Hf. destruct (G3 Hf) as [H1 H2]. rewrite Hs2 in H1. destruct (nth_error (w_classes w) b) as [k|] eqn:Eb.
      * destruct (dget n (table k)) eqn:Ek; [discriminate|]. split; [assumption|]. intros b' k' [<-|Hb] Hk; [congruence|eauto].
      * split; [assumption|]. intros b' k' [<-|Hb] Hk; [congruence|eauto].
Qed.

(** ** the loop over the attributes *)
Definition uses_ok (inh : list (str * nat)) (b : building) : Prop :=
  NoDup (map fst (b_fields b)) /\
  forall n, (forall f, dget n (b_use b) = Some (AField f) -> dget n (b_fields b) = Some f) /\ (dget n (b_use b) = None -> dget n (b_fields b) = dget n inh).

Lemma add_attr_ok files name attrs bxsd inh b na b' : uses_ok inh b -> add_attr files name attrs bxsd b na = Good b' -> uses_ok inh b'.
Proof.
  intros [Hn Hu] H. destruct na as [n a].
  assert (Hplain : (match a with AField _ => False | _ => True end) -> uses_ok inh (mkB (dset n a (b_use b)) (b_fields b) (b_rec b) (b_heap b))).
  { intros Ha. split; [exact Hn|]. intros m. cbn. rewrite dget_dset. destruct (str_eqb_spec n m) as [->|N]; [|apply Hu]. split; [intros f [= ->]; contradiction|discriminate]. }
  destruct a; cbn in H; try (injection H as <-; now apply Hplain). clear Hplain.
  destruct (nth_error (b_heap b) f) as [fo0|]; [|discriminate].
  match type of H with match ?R with _ => _ end = _ => destruct R as [[f1 heap]|] end; [|discriminate].
  destruct (nth_error heap f1) as [fo|]; [|discriminate].
  assert (G : forall rc, uses_ok inh (mkB (if has_create fo then dset (create_name n) (ACreate f1) (dset n (AField f1) (b_use b)) else dset n (AField f1) (b_use b)) (dset n f1 (b_fields b)) rc heap)).
  { intros rc. split; [cbn; now apply dset_nodup|]. intros m. cbn.
    assert (G0 : (forall f0, dget m (dset n (AField f1) (b_use b)) = Some (AField f0) -> dget m (dset n f1 (b_fields b)) = Some f0) /\
                 (dget m (dset n (AField f1) (b_use b)) = None -> dget m (dset n f1 (b_fields b)) = dget m inh)).
    { rewrite !dget_dset. destruct (str_eqb n m); [split; [congruence|discriminate]|apply Hu]. }
    destruct (has_create fo); [|exact G0]. destruct G0 as [G1 G2]. rewrite dget_dset. destruct (str_eqb (create_name n) m); [split; discriminate|auto]. }
  destruct (f_nclass fo); try (injection H as <-; apply G).
  destruct (str_eqb s (u "self") || str_eqb s name); [|discriminate]. injection H as <-. apply G.
Qed.
Lemma add_attrs_ok files name attrs bxsd inh : forall todo b b', uses_ok inh b -> add_attrs files name attrs bxsd todo b = Good b' -> uses_ok inh b'.
Proof.
  induction todo as [|na todo IH]; intros b b' Hb H; cbn in H; [now injection H as <-|].
  destruct (add_attr files name attrs bxsd b na) as [b1|] eqn:E; [|discriminate]. eapply IH; [|exact H]. eapply add_attr_ok; eauto.
Qed.

(** ** The invariant of every program *)
Definition class_ok (cs : list cls) (i : nat) (k : cls) : Prop :=
  NoDup (map fst (table k)) /\
  (exists m, c_mro k = i :: m /\ NoDup (c_mro k) /\ (forall x, In x m -> x < i) /\
    (forall b kb, In b (c_bases k) -> nth_error cs b = Some kb -> Sub (c_mro kb) m) /\
    (forall x, In x m -> exists b kb, In b (c_bases k) /\ nth_error cs b = Some kb /\ In x (c_mro kb))) /\
  (forall b, In b (c_bases k) -> b < i) /\
  (forall n, match dget n (c_dict k) with
             | Some (AField f) => dget n (table k) = Some f
             | Some _ => True
             | None => (forall f, dget n (table k) = Some f -> exists b kb, In b (c_bases k) /\ nth_error cs b = Some kb /\ dget n (table kb) = Some f) /\
                       (dget n (table k) = None -> forall b kb, In b (c_bases k) -> nth_error cs b = Some kb -> dget n (table kb) = None)
             end).
Definition world_ok (w : world) : Prop := forall i k, nth_error (w_classes w) i = Some k -> class_ok (w_classes w) i k.

Lemma nth_app_lt {A} (cs cs' : list A) i k : nth_error cs i = Some k -> nth_error (cs ++ cs') i = Some k.
Proof. intros H. rewrite nth_error_app1; [assumption|]. apply nth_error_Some. congruence. Qed.

Lemma class_ok_app cs k' i k : i <= length cs -> class_ok cs i k -> class_ok (cs ++ [k']) i k.
Proof.
  intros Hi (H0 & (m & H1 & H2 & H3 & H4 & H5) & H6 & H7).
  assert (Hb : forall b kb, In b (c_bases k) -> nth_error (cs ++ [k']) b = Some kb -> nth_error cs b = Some kb).
  { intros b kb Hb Hn. rewrite nth_error_app1 in Hn; [assumption|]. specialize (H6 b Hb). lia. }
  split; [assumption|]. split; [|split; [assumption|]].
  - exists m. split; [assumption|]. split; [assumption|]. split; [assumption|]. split; [eauto|].
    intros x Hx. destruct (H5 x Hx) as (b & kb & G1 & G2 & G3). exists b, kb. split; [assumption|]. split; [now apply nth_app_lt|assumption].
  - intros n. specialize (H7 n). destruct (dget n (c_dict k)) as [[]|]; auto. destruct H7 as [G1 G2]. split; [|eauto].
    intros f Hf. destruct (G1 f Hf) as (b & kb & Gb & Gn & Gt). exists b, kb. split; [assumption|]. split; [now apply nth_app_lt|assumption].
Qed.

Lemma world_ok_add w fs k : world_ok w -> class_ok (w_classes w) (length (w_classes w)) k -> world_ok (mkWorld fs (w_classes w ++ [k])).
Proof.
  intros Hw Hk i k' Hi. cbn in *. destruct (Nat.lt_ge_cases i (length (w_classes w))) as [Hlt|Hge].
  - rewrite nth_error_app1 in Hi by assumption. apply class_ok_app; [lia|]. now apply Hw.
  - rewrite nth_error_app2 in Hi by assumption. destruct (i - length (w_classes w)) as [|j] eqn:E; [|destruct j; discriminate]. injection Hi as <-.
    assert (i = length (w_classes w)) as -> by lia. apply class_ok_app; [lia|assumption].
Qed.

Lemma linearise_ok w bases l : world_ok w -> (forall b, In b bases -> b < length (w_classes w)) -> linearise w (length (w_classes w)) bases = Some l ->
  exists m, l = length (w_classes w) :: m /\ NoDup l /\ (forall x, In x m -> x < length (w_classes w)) /\
    (forall b kb, In b bases -> nth_error (w_classes w) b = Some kb -> Sub (c_mro kb) m) /\
    (forall x, In x m -> exists b kb, In b bases /\ nth_error (w_classes w) b = Some kb /\ In x (c_mro kb)).
Proof.
  intros Hw Hb H. unfold linearise in H. destruct (merge _ _) as [m|] eqn:Em; [|discriminate]. injection H as <-. destruct (merge_spec _ _ _ Em) as (H1 & H2 & H3).
  assert (H5 : forall x, In x m -> exists b kb, In b bases /\ nth_error (w_classes w) b = Some kb /\ In x (c_mro kb)).
  { intros x Hx. destruct (H3 x Hx) as (l & Hl & Hxl). apply in_app_or in Hl as [Hl|[<-|[]]].
    - unfold mro_of in Hl. apply in_map_iff in Hl as (b & <- & Hbb). destruct (nth_error (w_classes w) b) as [kb|] eqn:Eb; [|contradiction]. eauto.
    - destruct (nth_error (w_classes w) x) as [kb|] eqn:Eb; [|apply nth_error_None in Eb; specialize (Hb x Hxl); lia]. exists x, kb. split; [assumption|]. split; [assumption|].
      destruct (Hw x kb Eb) as (_ & (m' & -> & _) & _). now left. }
  assert (H4 : forall x, In x m -> x < length (w_classes w)).
  { intros x Hx. destruct (H5 x Hx) as (b & kb & G1 & G2 & G3). destruct (Hw b kb G2) as (_ & (m' & Hm & _ & Hlt & _) & _). rewrite Hm in G3. specialize (Hb b G1). destruct G3 as [<-|G3]; [assumption|]. specialize (Hlt x G3). lia. }
  exists m. split; [reflexivity|]. split; [|split; [assumption|split; [|assumption]]].
  - constructor; [|assumption]. intros Hx. specialize (H4 _ Hx). lia.
  - intros b kb Hbb Hk. apply H2. apply in_or_app. left. unfold mro_of. apply in_map_iff. exists b. split; [now rewrite Hk|assumption].
Qed.

Lemma world_tables w : world_ok w -> tables_ok (w_classes w).
Proof. intros Hw k Hk. apply In_nth_error in Hk as [i Hi]. apply (Hw i k Hi). Qed.

Lemma define_ok files w name bases attrs w' : world_ok w -> define files w name bases attrs = Good w' -> world_ok w'.
Proof.
  intros Hw H. unfold define in H. destruct (forallb _ bases) eqn:Eb; [|discriminate]. cbn [negb] in H.
  assert (Hb : forall b, In b bases -> b < length (w_classes w)) by (intros b Hb; rewrite forallb_forall in Eb; now apply Nat.ltb_lt, Eb).
  destruct (add_attrs _ _ _ _ _ _) as [b|] eqn:Ea; [|discriminate]. destruct (linearise _ _ _) as [l|] eqn:El; [|discriminate]. destruct (patch _ _ _ _) as [heap|]; [|discriminate]. injection H as <-.
  apply world_ok_add; [assumption|]. pose proof (world_tables w Hw) as Ht.
  assert (Hu : uses_ok (inherited_fields w bases) b).
  { eapply add_attrs_ok; [|exact Ea]. split; [cbn; apply (inherited_spec w bases [] Ht)|]. intros n. cbn. split; [discriminate|reflexivity]. }
  destruct Hu as [Hu1 Hu2]. split; [exact Hu1|]. split; [|split; [exact Hb|]].
  - destruct (linearise_ok w bases l Hw Hb El) as (m & -> & G1 & G2 & G3 & G4). exists m. auto.
  - intros n. cbn [c_dict c_bases table c_fields]. rewrite dget_dset. destruct (str_eqb (u "_fields") n); [exact I|]. specialize (Hu2 n) as [Hf Hn]. destruct (dget n (b_use b)) as [[]|]; auto.
    unfold table at 1. cbn [c_fields]. destruct (inherited_spec w bases n Ht) as (_ & G1 & G2). split.
    + intros f. rewrite (Hn eq_refl). apply G1.
    + unfold table at 1. cbn [c_fields]. rewrite (Hn eq_refl). apply G2.
Qed.

Lemma raw_dget n attrs : match dget n (map raw_attr attrs) with Some (AField _) => False | _ => True end.
Proof. induction attrs as [|[k a] attrs IH]; cbn; [exact I|]. destruct a; cbn; destruct (str_eqb k n); auto. Qed.

Lemma define_plain_ok w name bases attrs w' : world_ok w -> define_plain w name bases attrs = Good w' -> world_ok w'.
Proof.
  intros Hw H. unfold define_plain in H. destruct (forallb (is_plain w) bases) eqn:Eb; [|discriminate]. cbn [negb] in H.
  assert (Hp : forall b, In b bases -> exists k, nth_error (w_classes w) b = Some k /\ c_fields k = None).
  { intros b Hb. rewrite forallb_forall in Eb. specialize (Eb b Hb). unfold is_plain in Eb. destruct (nth_error (w_classes w) b) as [k|]; [|discriminate]. exists k. split; [reflexivity|]. destruct (c_fields k); [discriminate|reflexivity]. }
  assert (Hb : forall b, In b bases -> b < length (w_classes w)) by (intros b Hb; destruct (Hp b Hb) as (k & Hk & _); apply nth_error_Some; congruence).
  destruct (linearise _ _ _) as [l|] eqn:El; [|discriminate]. injection H as <-. apply world_ok_add; [assumption|].
  split; [constructor|]. split; [|split; [exact Hb|]].
  - destruct (linearise_ok w bases l Hw Hb El) as (m & -> & G1 & G2 & G3 & G4). exists m. auto.
  - intros n. cbn [c_dict c_bases]. pose proof (raw_dget n attrs) as G. destruct (dget n (map raw_attr attrs)) as [[]|]; auto; [contradiction|]. unfold table at 1 2. cbn [c_fields dget]. split; [discriminate|].
    intros _ b kb Hbb Hk. destruct (Hp b Hbb) as (k & Hk' & Hc). rewrite Hk in Hk'. injection Hk' as <-. unfold table. now rewrite Hc.
Qed.

Theorem run_ok files p : world_ok (run files p).
Proof.
  unfold run. enough (G : forall p w, world_ok w -> world_ok (fold_left (run1 files) p w)) by (apply G; intros i k H; destruct i; discriminate).
  clear p. induction p as [|s p IH]; intros w Hw; [assumption|]. cbn. apply IH. destruct s; cbn.
  - exact Hw.
  - destruct (define files w name bases attrs) as [w'|] eqn:E; [|assumption]. eapply define_ok; eauto.
  - destruct (define_plain w name bases attrs) as [w'|] eqn:E; [|assumption]. eapply define_plain_ok; eauto.
Qed.

(** ** lookup *)
(** the class at which the lookup stops *)
Lemma first_in_at w n : forall m a, first_in w n m = Some a -> exists m1 x k m2, m = m1 ++ x :: m2 /\ nth_error (w_classes w) x = Some k /\ dget n (c_dict k) = Some a /\ first_in w n m1 = None.
Proof.
  induction m as [|x m IH]; intros a H; cbn in H; [discriminate|]. destruct (nth_error (w_classes w) x) as [k|] eqn:Ex.
  - destruct (dget n (c_dict k)) as [a'|] eqn:Ed.
    + injection H as <-. exists [], x, k, m. auto.
    + destruct (IH _ H) as (m1 & y & k' & m2 & -> & G1 & G2 & G3). exists (x :: m1), y, k', m2. split; [reflexivity|]. split; [assumption|]. split; [assumption|]. cbn. now rewrite Ex, Ed.
  - destruct (IH _ H) as (m1 & y & k' & m2 & -> & G1 & G2 & G3). exists (x :: m1), y, k', m2. split; [reflexivity|]. split; [assumption|]. split; [assumption|]. cbn. now rewrite Ex.
Qed.
Lemma first_in_none w n m : first_in w n m = None <-> forall x k, In x m -> nth_error (w_classes w) x = Some k -> dget n (c_dict k) = None.
Proof.
  induction m as [|x m IH]; cbn; [split; [intros _ y k []|reflexivity]|]. destruct (nth_error (w_classes w) x) as [k|] eqn:Ex.
  - destruct (dget n (c_dict k)) eqn:Ed.
    + split; [discriminate|]. intros H. rewrite (H x k (or_introl eq_refl) Ex) in Ed. discriminate.
    + rewrite IH. split; [intros H y k' [<-|Hy] Hk; [congruence|eauto]|eauto].
  - rewrite IH. split; [intros H y k' [<-|Hy] Hk; [congruence|eauto]|eauto].
Qed.
Lemma first_in_keep w n l m : Sub l m -> NoDup m -> forall m1 x k m2 a, m = m1 ++ x :: m2 -> nth_error (w_classes w) x = Some k -> dget n (c_dict k) = Some a -> first_in w n m1 = None -> In x l ->
  first_in w n l = Some a.
Proof.
  induction 1 as [m|y l m HS IH|y l m HS IH]; intros Hn m1 x k m2 a Hm Hx Hd H1 Hi.
  - contradiction.
  - inversion Hn as [|? ? Hy Hn']; subst. destruct m1 as [|z m1].
    + injection Hm as -> ->. cbn. now rewrite Hx, Hd.
    + injection Hm as -> ->. cbn in H1 |- *. assert (Hil : In x l).
      { destruct Hi as [->|Hi]; [|assumption]. exfalso. apply Hy, in_or_app. right. now left. }
      destruct (nth_error (w_classes w) z) as [kz|] eqn:Ez.
      * destruct (dget n (c_dict kz)); [discriminate|]. eapply IH; eauto.
      * eapply IH; eauto.
  - inversion Hn as [|? ? Hy Hn']; subst. destruct m1 as [|z m1].
    + injection Hm as -> ->. exfalso. apply Hy. eapply Sub_In; eauto.
    + injection Hm as -> ->. cbn in H1. destruct (nth_error (w_classes w) z) as [kz|] eqn:Ez.
      * destruct (dget n (c_dict kz)); [discriminate|]. eapply IH; eauto.
      * eapply IH; eauto.
Qed.

(** ** The theorem *)
Theorem table_is_lookup w n : world_ok w -> forall i k, nth_error (w_classes w) i = Some k ->
  (forall a ka, In a (c_mro k) -> nth_error (w_classes w) a = Some ka -> match dget n (c_dict ka) with Some (AField _) | None => True | _ => False end) ->
  (forall a ka b1 b2 k1 k2 f1 f2, In a (c_mro k) -> nth_error (w_classes w) a = Some ka -> dget n (c_dict ka) = None -> In b1 (c_bases ka) -> In b2 (c_bases ka) ->
     nth_error (w_classes w) b1 = Some k1 -> nth_error (w_classes w) b2 = Some k2 -> dget n (table k1) = Some f1 -> dget n (table k2) = Some f2 -> f1 = f2) ->
  lookup w i n = option_map AField (dget n (table k)).
Proof.
  intros Hw i. induction i as [i IH] using lt_wf_ind. intros k Hi Hf Hc. unfold lookup. rewrite Hi.
  destruct (Hw i k Hi) as (_ & (m & Hm & Hnd & Hlt & Hsub & Hfrom) & Hbl & Hown). rewrite Hm. cbn [first_in]. rewrite Hi.
  specialize (Hown n). specialize (Hf) as Hfi. specialize (Hfi i k). rewrite Hm in Hfi. specialize (Hfi (or_introl eq_refl) Hi).
  destruct (dget n (c_dict k)) as [a|] eqn:Ed.
  { destruct a; try contradiction. now rewrite Hown. }
  destruct Hown as [Ho1 Ho2].
  assert (IHb : forall b kb, In b (c_bases k) -> nth_error (w_classes w) b = Some kb -> first_in w n (c_mro kb) = option_map AField (dget n (table kb))).
  { intros b kb Hb Hkb. assert (Hincl : forall a, In a (c_mro kb) -> In a (c_mro k)) by (intros a Ha; rewrite Hm; right; eapply Sub_In; eauto).
    assert (G : lookup w b n = option_map AField (dget n (table kb))).
    { apply (IH b (Hbl b Hb) kb Hkb); [intros a ka Ha; apply Hf; auto|]. intros a ka b1 b2 k1 k2 f1 f2 Ha. apply (Hc a ka b1 b2 k1 k2 f1 f2). auto. }
    unfold lookup in G. now rewrite Hkb in G. }
  assert (Hnm : NoDup m) by (rewrite Hm in Hnd; now inversion Hnd).
  destruct (first_in w n m) as [a|] eqn:Ef.
  - destruct (first_in_at _ _ _ _ Ef) as (m1 & x & kx & m2 & Hmm & Hx & Hdx & H1).
    assert (Hxm : In x m) by (rewrite Hmm; apply in_or_app; right; now left). destruct (Hfrom x Hxm) as (b & kb & Hb & Hkb & Hxb).
    pose proof (first_in_keep w n (c_mro kb) m (Hsub b kb Hb Hkb) Hnm m1 x kx m2 a Hmm Hx Hdx H1 Hxb) as G. rewrite (IHb b kb Hb Hkb) in G.
    destruct (dget n (table kb)) as [f|] eqn:Et; [|discriminate]. cbn in G. injection G as <-.
    destruct (dget n (table k)) as [f'|] eqn:Ek.
    + destruct (Ho1 f' eq_refl) as (b' & kb' & Hb' & Hkb' & Et'). cbn. f_equal. f_equal. eapply (Hc i k b b' kb kb'); eauto. rewrite Hm. now left.
    + rewrite (Ho2 eq_refl b kb Hb Hkb) in Et. discriminate.
  - rewrite first_in_none in Ef. destruct (dget n (table k)) as [f|] eqn:Ek; [|reflexivity]. exfalso. destruct (Ho1 f eq_refl) as (b & kb & Hb & Hkb & Et).
    pose proof (IHb b kb Hb Hkb) as G. rewrite Et in G. destruct (first_in_at _ _ _ _ G) as (m1 & x & kx & m2 & Hmm & Hx & Hdx & _).
    rewrite (Ef x kx) in Hdx; [discriminate| |assumption]. apply (Sub_In (c_mro kb)); [eauto|]. rewrite Hmm. apply in_or_app. right. now left.
Qed.

(** ** self references *)
Lemma nth_update {A} (g : A -> A) : forall l i j, nth_error (update_nth i g l) j = if i =? j then option_map g (nth_error l j) else nth_error l j.
Proof.
  induction l as [|x l IH]; intros i j; cbn.
  - destruct i, j; cbn; try reflexivity. destruct (i =? j); reflexivity.
  - destruct i, j; cbn; try reflexivity. apply IH.
Qed.
Lemma patch_spec name c : forall fs heap heap', patch name c fs heap = Good heap' -> forall f,
  nth_error heap' f = (if existsb (Nat.eqb f) fs then option_map (fun x => set_nclass x c) (nth_error heap f) else nth_error heap f).
Proof.
  induction fs as [|g fs IH]; intros heap heap' H f; cbn in H |- *; [now injection H as <-|].
  destruct (nth_error heap g) as [fo|] eqn:Eg; [|discriminate]. destruct (f_nclass fo); try discriminate. destruct (str_eqb s (u "self") || str_eqb s name); [|discriminate].
  rewrite (IH _ _ H f), nth_update. rewrite (Nat.eqb_sym f g). destruct (Nat.eqb_spec g f) as [->|N]; cbn [orb]; [|reflexivity].
  rewrite Eg. cbn. destruct (existsb _ fs); reflexivity.
Qed.

Definition is_name (name s : str) : bool := str_eqb s (u "self") || str_eqb s name.
Definition named (fo : field) : bool := match f_nclass fo with NcName _ => true | _ => false end.

Lemma get_field_plain sf s nf : get_field sf s = Good nf -> f_nclass nf = NcNone.
Proof.
  unfold get_field. destruct (get_type s (f_schema_type sf)); [|discriminate]. destruct (base_type x); [|discriminate]. destruct (str_eqb x0 (u "string")); [|discriminate]. now intros [= <-].
Qed.

Lemma add_attr_rec files name attrs bxsd b na b' : add_attr files name attrs bxsd b na = Good b' ->
  (forall f fo, nth_error (b_heap b) f = Some fo -> nth_error (b_heap b') f = Some fo) /\
  (forall f, In f (b_rec b') -> In f (b_rec b) \/ snd na = AField f) /\
  (forall f, In f (b_rec b) -> In f (b_rec b')) /\
  (forall f fo, snd na = AField f -> nth_error (b_heap b) f = Some fo -> f_class fo <> FcSchema ->
     match f_nclass fo with NcName s => is_name name s = true /\ In f (b_rec b') | _ => In f (b_rec b') -> In f (b_rec b) end).
Proof.
  intros H. destruct na as [n a]. destruct a; cbn in H.
  2,3,4,5: injection H as <-; cbn; split; [auto|]; split; [auto|]; split; [auto|]; discriminate.
  destruct (nth_error (b_heap b) f) as [fo0|] eqn:Ef; [|discriminate].
  match type of H with match ?R with _ => _ end = _ => destruct R as [[f1 heap]|] eqn:ER end; [|discriminate].
  destruct (nth_error heap f1) as [fo|] eqn:E1; [|discriminate].
  assert (Hcase : (f1 = f /\ heap = b_heap b) \/ (f_class fo0 = FcSchema /\ f_nclass fo = NcNone /\ exists nf, heap = b_heap b ++ [nf])).
  { destruct (f_class fo0); try (injection ER as <- <-; now left). destruct (schema_for files attrs bxsd) as [[s|]|]; [|injection ER as <- <-; now left|discriminate].
    destruct (get_field fo0 s) as [nf|] eqn:Eg; [|discriminate]. injection ER as <- <-. right. split; [reflexivity|]. split; [|eauto].
    rewrite nth_error_app2, Nat.sub_diag in E1 by lia. injection E1 as <-. now apply get_field_plain in Eg. }
  assert (Hkeep : forall g fg, nth_error (b_heap b) g = Some fg -> nth_error heap g = Some fg).
  { intros g fg Hg. destruct Hcase as [[_ ->]|(_ & _ & nf & ->)]; [assumption|now apply nth_app_lt]. }
  cbn [snd]. destruct Hcase as [[-> ->]|(Hs & Hn & nf & ->)].
  - rewrite Ef in E1. injection E1 as <-. destruct (f_nclass fo0) as [|s|c] eqn:En.
    + injection H as <-. cbn. split; [auto|]. split; [auto|]. split; [auto|]. intros g fo Hg Hfo Hc. injection Hg as <-. rewrite Ef in Hfo. injection Hfo as <-. now rewrite En.
    + fold (is_name name s) in H. destruct (is_name name s) eqn:Es; [|discriminate]. injection H as <-. cbn. split; [auto|]. split; [|split].
      * intros g Hg. apply in_app_or in Hg as [Hg|[<-|[]]]; auto.
      * intros g Hg. apply in_or_app. now left.
      * intros g fo Hg Hfo Hc. injection Hg as <-. rewrite Ef in Hfo. injection Hfo as <-. rewrite En. split; [assumption|]. apply in_or_app. right. now left.
    + injection H as <-. cbn. split; [auto|]. split; [auto|]. split; [auto|]. intros g fo Hg Hfo Hc. injection Hg as <-. rewrite Ef in Hfo. injection Hfo as <-. now rewrite En.
  - rewrite Hn in H. injection H as <-. cbn. split; [auto|]. split; [auto|]. split; [auto|]. intros g fo' Hg Hfo Hc. injection Hg as <-. rewrite Ef in Hfo. injection Hfo as <-. contradiction.
Qed.

Lemma add_attrs_rec files name attrs bxsd : forall todo b b', add_attrs files name attrs bxsd todo b = Good b' ->
  (forall f fo, nth_error (b_heap b) f = Some fo -> nth_error (b_heap b') f = Some fo) /\
  (forall f, In f (b_rec b') -> In f (b_rec b) \/ In (AField f) (map snd todo)) /\
  (forall f, In f (b_rec b) -> In f (b_rec b')) /\
  (forall f fo, In (AField f) (map snd todo) -> nth_error (b_heap b) f = Some fo -> f_class fo <> FcSchema ->
     match f_nclass fo with NcName s => is_name name s = true /\ In f (b_rec b') | _ => In f (b_rec b') -> In f (b_rec b) end).
Proof.
  induction todo as [|na todo IH]; intros b b' H; cbn in H.
  - injection H as <-. split; [auto|]. split; [auto|]. split; [auto|]. intros f fo [].
  - destruct (add_attr files name attrs bxsd b na) as [b1|] eqn:E; [|discriminate]. destruct (add_attr_rec _ _ _ _ _ _ _ E) as (A1 & A2 & A3 & A4). destruct (IH _ _ H) as (B1 & B2 & B3 & B4).
    split; [auto|]. split; [|split; [auto|]].
    + intros f Hf. cbn. destruct (B2 f Hf) as [G|G]; [|auto]. destruct (A2 f G); auto.
    + intros f fo Hin Hfo Hc. cbn in Hin. pose proof (A1 f fo Hfo) as Hfo1. pose proof (fun G => B4 f fo G Hfo1 Hc) as B4'. pose proof (fun G => A4 f fo G Hfo Hc) as A4'.
      destruct (in_dec Nat.eq_dec f (b_rec b')) as [Hd|Hd].
      * destruct (f_nclass fo) as [|s|c].
        -- intros _. destruct (B2 f Hd) as [G|G].
           ++ destruct (A2 f G) as [G'|G']; [assumption|]. now apply A4'.
           ++ specialize (B4' G Hd). destruct (A2 f B4') as [G'|G']; [assumption|]. now apply A4'.
        -- destruct Hin as [Hin|Hin]; [|now apply B4']. destruct (A4' Hin). split; auto.
        -- intros _. destruct (B2 f Hd) as [G|G].
           ++ destruct (A2 f G) as [G'|G']; [assumption|]. now apply A4'.
           ++ specialize (B4' G Hd). destruct (A2 f B4') as [G'|G']; [assumption|]. now apply A4'.
      * destruct (f_nclass fo) as [|s|c]; [intros G; contradiction| |intros G; contradiction]. destruct Hin as [Hin|Hin]; [|now apply B4']. destruct (A4' Hin) as [G1 G2]. split; auto.
Qed.

Theorem self_reference files w name bases attrs w' : define files w name bases attrs = Good w' -> forall f fo, nth_error (w_fields w) f = Some fo ->
  (In (AField f) (map snd attrs) -> f_class fo <> FcSchema ->
     match f_nclass fo with
     | NcName s => is_name name s = true /\ nth_error (w_fields w') f = Some (set_nclass fo (length (w_classes w)))
     | _ => nth_error (w_fields w') f = Some fo
     end) /\
  (~ In (AField f) (map snd attrs) -> nth_error (w_fields w') f = Some fo).
Proof.
  intros H f fo Hfo. unfold define in H. destruct (negb _); [discriminate|]. destruct (add_attrs _ _ _ _ _ _) as [b|] eqn:Ea; [|discriminate]. destruct (linearise _ _ _) as [l|]; [|discriminate].
  destruct (patch _ _ _ _) as [heap|] eqn:Ep; [|discriminate]. injection H as <-. cbn [w_fields]. pose proof (patch_spec _ _ _ _ _ Ep f) as G. destruct (add_attrs_rec _ _ _ _ _ _ _ Ea) as (A1 & A2 & _ & A4). cbn [b_heap b_rec] in *.
  rewrite (A1 f fo Hfo) in G.
  assert (Hex : existsb (Nat.eqb f) (b_rec b) = true <-> In f (b_rec b)).
  { rewrite existsb_exists. split; [intros (x & Hx & He); apply Nat.eqb_eq in He; now subst|intros Hx; exists f; split; [assumption|apply Nat.eqb_refl]]. }
  split.
  - intros Hin Hc. specialize (A4 f fo Hin Hfo Hc). destruct (f_nclass fo) as [|s|c].
    + destruct (existsb (Nat.eqb f) (b_rec b)) eqn:E; [|assumption]. destruct (A4 (proj1 Hex eq_refl)).
    + destruct A4 as [G1 G2]. split; [assumption|]. apply Hex in G2. now rewrite G2 in G.
    + destruct (existsb (Nat.eqb f) (b_rec b)) eqn:E; [|assumption]. destruct (A4 (proj1 Hex eq_refl)).
  - intros Hin. destruct (existsb (Nat.eqb f) (b_rec b)) eqn:E; [|assumption]. destruct (A2 f (proj1 Hex eq_refl)) as [[]|G']. contradiction.
Qed.
