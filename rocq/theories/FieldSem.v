(** Semantics of supported paths: [ev] in terms of a forward recursion over steps. *)
From Coq Require Import String Arith.
From Verif Require Export DocSpec Fields FieldSpec.

Opaque u.

(** ** evaluation is independent of where the context node is *)
Definition shift (a : addr) (i : item) : item :=
  match i with IElem b n => IElem (a ++ b) n | IAttr b q v => IAttr (a ++ b) q v | IText b t s => IText (a ++ b) t s end.
Definition shiftv (a : addr) (v : xv) : xv := match v with XN l => XN (map (shift a) l) | _ => v end.

Lemma item_str_shift a i : item_str (shift a i) = item_str i.
Proof. destruct i; reflexivity. Qed.

Lemma to_bool_shift a v : to_bool (shiftv a v) = to_bool v.
Proof. destruct v as [[|]| | |]; reflexivity. Qed.

Lemma existsb_map {A B} (f : B -> bool) (g : A -> B) l : existsb f (map g l) = existsb (fun x => f (g x)) l.
Proof. induction l; cbn; congruence. Qed.
Lemma existsb_ext' {A} (f g : A -> bool) l : (forall x, f x = g x) -> existsb f l = existsb g l.
Proof. intros H. induction l; cbn; rewrite ?H; congruence. Qed.

Lemma xeq_shift a b v w : xeq (shiftv a v) (shiftv b w) = xeq v w.
Proof.
  assert (H : forall (f : str -> bool) a l, existsb (fun i => f (item_str i)) (map (shift a) l) = existsb (fun i => f (item_str i)) l).
  { intros f a' l. rewrite existsb_map. apply existsb_ext'. intros i. now rewrite item_str_shift. }
  destruct v as [l| | |], w as [l'| | |]; cbn [shiftv xeq]; try reflexivity.
  - rewrite existsb_map. apply existsb_ext'. intros i. rewrite item_str_shift, existsb_map. apply existsb_ext'. intros j.
    now rewrite item_str_shift.
  - apply (H (fun x => str_eqb x s)).
  - apply (H (fun x => num_eqb (xnumber x) n)).
  - destruct l; reflexivity.
  - apply (H (fun x => str_eqb x s)).
  - apply (H (fun x => num_eqb (xnumber x) n)).
  - destruct l'; reflexivity.
Qed.

Lemma flat_map_ext_in {A B} (f g : A -> list B) l : (forall x, In x l -> f x = g x) -> flat_map f l = flat_map g l.
Proof. intros H. induction l as [|x l IH]; cbn; [reflexivity|]. rewrite H by now left. f_equal. apply IH. intros; apply H; now right. Qed.
Lemma map_flat_map {A B C} (g : B -> C) (f : A -> list B) l : map g (flat_map f l) = flat_map (fun x => map g (f x)) l.
Proof. induction l; cbn; [reflexivity|]. now rewrite map_app, IHl. Qed.
Lemma flat_map_map {A B C} (g : A -> B) (f : B -> list C) l : flat_map f (map g l) = flat_map (fun x => f (g x)) l.
Proof. induction l; cbn; congruence. Qed.
Lemma flat_map_flat_map {A B C} (g : A -> list B) (f : B -> list C) l : flat_map f (flat_map g l) = flat_map (fun x => flat_map f (g x)) l.
Proof. induction l; cbn; [reflexivity|]. now rewrite flat_map_app, IHl. Qed.

Lemma enum_map {A B} (f : A -> B) i l : enum i (map f l) = map (fun x => (fst x, f (snd x))) (enum i l).
Proof. revert i. induction l; intros i; cbn; [reflexivity|]. f_equal. apply IHl. Qed.

Lemma step_items_shift E ax t a c : step_items E ax t (shift a c) = map (shift a) (step_items E ax t c).
Proof.
  destruct c as [b n|b q v|b tl s]; [|reflexivity|reflexivity]. cbn [shift step_items].
  destruct t as [p nm|nm l].
  - destruct (child_axis ax).
    + unfold kid_items. rewrite map_flat_map. apply flat_map_ext_in. intros x _.
      destruct (test_node _ _ _ _); cbn; [|reflexivity]. now rewrite app_assoc.
    + destruct (attr_axis ax); [|reflexivity]. rewrite map_flat_map. apply flat_map_ext_in. intros x _.
      destruct (test_q _ _ _ _); reflexivity.
  - destruct (child_axis ax); [|reflexivity]. destruct n as [q ats tx ks|s]; [|reflexivity]. cbn [text_items].
    rewrite map_app. f_equal; [destruct tx; reflexivity|]. rewrite map_flat_map. apply flat_map_ext_in. intros x _.
    destruct (snd (snd x)); cbn; [|reflexivity]. now rewrite app_assoc.
Qed.

Lemma filter_pos_shift f g a l : (forall i pos, f (shift a i) pos = g i pos) ->
  filter_pos f (map (shift a) l) = map (shift a) (filter_pos g l).
Proof.
  intros H. unfold filter_pos. rewrite enum_map, flat_map_map, map_flat_map. apply flat_map_ext_in. intros x _. cbn.
  rewrite H. destruct (g _ _); reflexivity.
Qed.

Lemma fold_filter_shift (F G : expr -> item -> N -> bool) a ps :
  Forall (fun p => forall i pos, F p (shift a i) pos = G p i pos) ps -> forall l,
  fold_left (fun items p => filter_pos (F p) items) ps (map (shift a) l) =
  map (shift a) (fold_left (fun items p => filter_pos (G p) items) ps l).
Proof.
  induction 1 as [|p ps H _ IH]; intros l; cbn [fold_left]; [reflexivity|].
  now rewrite (filter_pos_shift _ _ _ _ H), IH.
Qed.

Lemma nodes_of_shift a v : nodes_of (shiftv a v) = map (shift a) (nodes_of v).
Proof. destruct v; reflexivity. Qed.

Lemma truth_shift a v pos : truth (shiftv a v) pos = truth v pos.
Proof. destruct v as [[|]| | |]; reflexivity. Qed.

Lemma ev_shift E e : forall a c, ev E e (shift a c) = shiftv a (ev E e c).
Proof.
  induction e using expr_ind'; intros b c; cbn [ev]; try reflexivity.
  - (* EBin *)
    destruct (str_eqb op (u "/")).
    + cbn [shiftv]. f_equal. rewrite IHe1, nodes_of_shift, flat_map_map, map_flat_map. apply flat_map_ext_in. intros x _.
      now rewrite IHe2, nodes_of_shift.
    + destruct (str_eqb op (u "=")); [cbn; now rewrite IHe1, IHe2, xeq_shift|].
      destruct (str_eqb op (u "and")); [cbn; now rewrite IHe1, IHe2, !to_bool_shift|].
      destruct (str_eqb op (u "or")); [cbn; now rewrite IHe1, IHe2, !to_bool_shift|reflexivity].
  - (* EStep *)
    cbn [shiftv]. f_equal. rewrite step_items_shift.
    apply (fold_filter_shift (fun p i pos => truth (ev E p i) pos) (fun p i pos => truth (ev E p i) pos)).
    eapply Forall_impl; [|exact H]. intros p Hp i pos. now rewrite Hp, truth_shift.
  - unfold var_value. destruct (lookup n (vars E)) as [[|]|]; reflexivity.
  - destruct args as [|x [|? ?]]; try reflexivity. inversion H; subst. rewrite H2, nodes_of_shift, map_length. reflexivity.
Qed.

Lemma ev_at E e a n : ev E e (IElem a n) = shiftv a (ev E e (IElem [] n)).
Proof. rewrite <- ev_shift. cbn. now rewrite app_nil_r. Qed.

(** ** semantic steps *)
Definition hold (E : env) (p : expr) (n : node) : bool := to_bool (ev E p (IElem [] n)).

Lemma hold_at E p a n : to_bool (ev E p (IElem a n)) = hold E p n.
Proof. unfold hold. now rewrite ev_at, to_bool_shift. Qed.


Definition has_tag (q : qname) (n : node) : bool := match tag_of n with Some q' => qeqb q' q | None => false end.

(** does a kid match a child step *)
Definition mstep (E : env) (s : expr) (n : node) : bool :=
  match kind E s with
  | Some (KChild q) => has_tag q n && forallb (fun p => hold E p n) (preds_of s)
  | _ => false
  end.

Fixpoint sel (E : env) (ss : list expr) (n : node) : list addr :=
  match ss with
  | [] => [[]]
  | s :: ss' =>
    flat_map (fun x => if mstep E s (fst (snd x)) then map (cons (fst x)) (sel E ss' (fst (snd x))) else [])
             (enum 0 (kids_of n))
  end.

(** steps of a path *)
Fixpoint spine (e : expr) : list expr :=
  match e with
  | EStep _ _ _ => [e]
  | EBin l _ r => spine l ++ [r]
  | _ => []
  end.

(** elements at a list of addresses *)
Definition elems_at (a : addr) (n : node) (l : list addr) : list item :=
  flat_map (fun b => match get_at b n with Some m => [IElem (a ++ b) m] | None => [] end) l.

Lemma In_enum {A} (l : list A) : forall i j x, In (j, x) (enum i l) <-> (i <= j /\ nth_error l (j - i) = Some x).
Proof.
  induction l as [|y l IH]; intros i j x; cbn.
  - split; [tauto|]. intros [_ H]. destruct (j - i); discriminate.
  - rewrite IH. split.
    + intros [[= <- <-]|[H1 H2]]; [rewrite Nat.sub_diag; cbn; auto|].
      split; [lia|]. replace (j - i) with (S (j - S i)) by lia. exact H2.
    + intros [H1 H2]. destruct (Nat.eq_dec i j) as [->|N]; [rewrite Nat.sub_diag in H2; cbn in H2; left; congruence|].
      right. split; [lia|]. replace (j - i) with (S (j - S i)) in H2 by lia. exact H2.
Qed.

Lemma In_sel_get E ss : forall n b, In b (sel E ss n) -> exists m, get_at b n = Some m.
Proof.
  induction ss as [|s ss IH]; intros n b H; cbn in H.
  - destruct H as [<-|[]]. exists n. reflexivity.
  - apply in_flat_map in H as [[i k] [Hi Hb]]. cbn in Hb. destruct (mstep E s (fst k)); [|contradiction].
    apply in_map_iff in Hb as [b' [<- Hb']]. apply IH in Hb' as [m Hm]. exists m. cbn.
    apply In_enum in Hi as [_ Hi]. rewrite Nat.sub_0_r in Hi. now rewrite Hi.
Qed.

Lemma sel_app E ss ts : forall n, sel E (ss ++ ts) n =
  flat_map (fun b => match get_at b n with Some m => map (app b) (sel E ts m) | None => [] end) (sel E ss n).
Proof.
  induction ss as [|s ss IH]; intros n; cbn [sel app].
  - cbn. rewrite app_nil_r. symmetry. apply map_id.
  - rewrite flat_map_flat_map. apply flat_map_ext_in. intros [i k] Hi. cbn [fst snd].
    apply In_enum in Hi as [_ Hi]. rewrite Nat.sub_0_r in Hi.
    destruct (mstep E s (fst k)); [|reflexivity]. rewrite IH, map_flat_map, flat_map_map. apply flat_map_ext_in.
    intros b _. cbn. rewrite Hi. destruct (get_at b (fst k)); [|reflexivity]. now rewrite map_map.
Qed.

(** predicates of the supported class are never numbers *)
Lemma ok_truth E dot p c pos : ok E dot p = true -> truth (ev E p c) pos = to_bool (ev E p c).
Proof.
  destruct p; cbn; try discriminate; intros H; try reflexivity.
  destruct (str_eqb op (u "/")); [reflexivity|]. destruct (str_eqb op (u "=")); [reflexivity|discriminate].
Qed.

Lemma filter_pos_filter f l : filter_pos (fun i _ => f i) l = filter f l.
Proof.
  unfold filter_pos. generalize 0. induction l as [|x l IH]; intros k; cbn; [reflexivity|].
  rewrite IH. destruct (f x); reflexivity.
Qed.
Lemma filter_pos_ext f g l : (forall i pos, f i pos = g i pos) -> filter_pos f l = filter_pos g l.
Proof. intros H. unfold filter_pos. apply flat_map_ext_in. intros x _. now rewrite H. Qed.

Lemma filter_filter {A} (f g : A -> bool) l : filter f (filter g l) = filter (fun x => g x && f x) l.
Proof. induction l as [|x l IH]; cbn; [reflexivity|]. destruct (g x); cbn; [destruct (f x)|]; now rewrite IH. Qed.

Lemma fold_filter E ps : forallb (ok E false) ps = true -> forall l,
  fold_left (fun items p => filter_pos (fun i pos => truth (ev E p i) pos) items) ps l =
  filter (fun i => forallb (fun p => to_bool (ev E p i)) ps) l.
Proof.
  induction ps as [|p ps IH]; intros H l; cbn [fold_left forallb] in *.
  - induction l; cbn; congruence.
  - apply andb_prop in H as [Hp H]. rewrite (IH H).
    rewrite (filter_pos_ext _ (fun i _ => to_bool (ev E p i))) by (intros; eapply ok_truth; eassumption).
    now rewrite filter_pos_filter, filter_filter.
Qed.

Lemma ok_preds E ax t ps dot : ok E dot (EStep ax t ps) = true -> forallb (ok E false) ps = true.
Proof.
  cbn [ok]. destruct (kind E _) as [[q|q|]|]; try discriminate; [|destruct ps; try discriminate; reflexivity..].
  intros H. apply andb_prop in H as [H _]. rewrite forallb_forall in *. intros p Hp. apply H in Hp.
  now apply andb_prop in Hp as [Hp _].
Qed.

Lemma test_q_plain E p nm q uri : str_eqb nm (u "*") = false -> resolve E p = Some uri -> test_q E p nm q = qeqb q (QN uri nm).
Proof. intros H1 H2. unfold test_q. now rewrite H1, H2. Qed.

(** how kinds are read off a step *)
Lemma kind_child E ax t ps q : kind E (EStep ax t ps) = Some (KChild q) ->
  exists p nm, t = NameTest p nm /\ child_axis ax = true /\ str_eqb nm (u "*") = false /\ pfx p = p /\
               resolve E p = Some (q_ns q) /\ nm = q_local q.
Proof.
  destruct t as [p nm|nm l]; cbn [kind].
  - destruct (str_eqb nm (u "*")) eqn:Es; [discriminate|].
    destruct p as [[|c p]|]; cbv iota.
    + discriminate.
    + destruct (resolve E _) as [uri|] eqn:Er; [|discriminate].
      destruct (child_axis ax); [|destruct (attr_axis ax); [destruct (str_eqb nm (u "text"))|]; discriminate].
      intros [= <-]. exists (Some (c :: p)), nm. auto 10.
    + destruct (resolve E None) as [uri|] eqn:Er; [|discriminate].
      destruct (child_axis ax); [|destruct (attr_axis ax); [destruct (str_eqb nm (u "text"))|]; discriminate].
      intros [= <-]. exists None, nm. auto 10.
  - destruct l; [discriminate|]. destruct (child_axis ax && str_eqb nm (u "text"))%bool; discriminate.
Qed.

Lemma kind_attr E ax t ps q : kind E (EStep ax t ps) = Some (KAttr q) ->
  exists p nm, t = NameTest p nm /\ child_axis ax = false /\ attr_axis ax = true /\ str_eqb nm (u "*") = false /\
               str_eqb nm (u "text") = false /\ pfx p = p /\ resolve E p = Some (q_ns q) /\ nm = q_local q.
Proof.
  destruct t as [p nm|nm l]; cbn [kind].
  - destruct (str_eqb nm (u "*")) eqn:Es; [discriminate|].
    destruct p as [[|c p]|]; cbv iota.
    + discriminate.
    + destruct (resolve E _) as [uri|] eqn:Er; [|discriminate].
      destruct (child_axis ax); [discriminate|]. destruct (attr_axis ax); [|discriminate].
      destruct (str_eqb nm (u "text")) eqn:Et; [discriminate|].
      intros [= <-]. exists (Some (c :: p)), nm. auto 12.
    + destruct (resolve E None) as [uri|] eqn:Er; [|discriminate].
      destruct (child_axis ax); [discriminate|]. destruct (attr_axis ax); [|discriminate].
      destruct (str_eqb nm (u "text")) eqn:Et; [discriminate|].
      intros [= <-]. exists None, nm. auto 12.
  - destruct l; [discriminate|]. destruct (child_axis ax && str_eqb nm (u "text"))%bool; discriminate.
Qed.

Lemma kind_text E ax t ps : kind E (EStep ax t ps) = Some KText ->
  t = NodeType (u "text") None /\ child_axis ax = true.
Proof.
  destruct t as [p nm|nm l]; cbn [kind].
  - destruct (str_eqb nm (u "*")); [discriminate|]. destruct p as [[|c p]|]; cbv iota; [discriminate| |].
    + destruct (resolve E _); [|discriminate]. destruct (child_axis ax); [discriminate|].
      destruct (attr_axis ax); [|discriminate]. destruct (str_eqb nm (u "text")); discriminate.
    + destruct (resolve E None); [|discriminate]. destruct (child_axis ax); [discriminate|].
      destruct (attr_axis ax); [|discriminate]. destruct (str_eqb nm (u "text")); discriminate.
  - destruct l; [discriminate|]. destruct (child_axis ax) eqn:Ec; cbn [andb]; [|discriminate].
    destruct (str_eqb nm (u "text")) eqn:En; [|discriminate]. apply str_eqb_eq in En. subst. auto.
Qed.

Lemma kind_estep E s k : kind E s = Some k -> exists ax t ps, s = EStep ax t ps.
Proof. destruct s; cbn; try discriminate. eauto. Qed.

(** a child step *)
Lemma ev_child E s q a n dot : ok E dot s = true -> kind E s = Some (KChild q) ->
  ev E s (IElem a n) = XN (elems_at a n (sel E [s] n)).
Proof.
  intros Ho Hk. destruct (kind_estep _ _ _ Hk) as (ax & t & ps & ->).
  pose proof (ok_preds _ _ _ _ _ Ho) as Hp. destruct (kind_child _ _ _ _ _ Hk) as (p & nm & -> & Hax & Hs & _ & Hr & ->).
  cbn [ev step_items]. rewrite Hax, (fold_filter _ _ Hp). f_equal. unfold elems_at, kid_items. cbn [sel].
  rewrite flat_map_flat_map.
  assert (G : forall l, (forall i k, In (i, k) l -> nth_error (kids_of n) i = Some k) ->
     filter (fun i => forallb (fun p0 => to_bool (ev E p0 i)) ps)
      (flat_map (fun x : nat * (node * option str) => if test_node E p (q_local q) (fst (snd x)) then [IElem (a ++ [fst x]) (fst (snd x))] else []) l) =
     flat_map (fun x : nat * (node * option str) => flat_map
        (fun b => match get_at b n with Some m => [IElem (a ++ b) m] | None => [] end)
        (if mstep E (EStep ax (NameTest p (q_local q)) ps) (fst (snd x)) then map (cons (fst x)) [[]] else [])) l).
  { induction l as [|[i k] l IH]; intros Hl; cbn [flat_map]; [reflexivity|].
    rewrite filter_app, IH by (intros; apply Hl; now right). f_equal. cbn [fst snd].
    unfold mstep. rewrite Hk. cbn [preds_of].
    assert (Ht : test_node E p (q_local q) (fst k) = has_tag q (fst k)).
    { unfold test_node, has_tag. destruct (fst k); cbn; [|reflexivity]. rewrite (test_q_plain _ _ _ _ _ Hs Hr).
      destruct q; reflexivity. }
    rewrite Ht. destruct (has_tag q (fst k)); [|reflexivity]. cbn [filter andb].
    assert (Hh : forallb (fun p0 => to_bool (ev E p0 (IElem (a ++ [i]) (fst k)))) ps = forallb (fun p0 => hold E p0 (fst k)) ps).
    { clear. induction ps; cbn; [reflexivity|]. now rewrite hold_at, IHps. }
    rewrite Hh. destruct (forallb (fun p0 => hold E p0 (fst k)) ps); [|reflexivity]. cbn. rewrite (Hl i k) by now left. reflexivity. }
  apply G. intros i k Hi. apply In_enum in Hi as [_ Hi]. now rewrite Nat.sub_0_r in Hi.
Qed.

Definition all_child (E : env) (ss : list expr) : Prop := Forall (fun s => exists q, kind E s = Some (KChild q)) ss.

Lemma ok_slash E dot l r : ok E dot (EBin l (u "/") r) = true ->
  ok E dot l = true /\ (exists ax t ps, r = EStep ax t ps) /\ ok E false r = true /\ joins E l r = true.
Proof.
  cbn [ok]. rewrite str_eqb_refl. intros H. apply andb_prop in H as [H H4]. apply andb_prop in H as [H H3].
  apply andb_prop in H as [H1 H2]. destruct r; try discriminate. eauto 10.
Qed.

(** the left part of a supported path selects elements through child steps *)
Lemma ok_path_ops E dot l op r : ok E dot (EBin l op r) = true -> is_path (EBin l op r) = true -> op = u "/".
Proof. cbn [is_path]. intros _ H. now apply str_eqb_eq in H. Qed.

Lemma joins_path E dot l r : joins E l r = true -> ok E dot l = true -> is_path l = true.
Proof.
  destruct l; cbn; try discriminate; auto.
  - destruct l2; cbn; try discriminate. destruct (str_eqb op (u "/")) eqn:Eo; [auto|discriminate].
  - intros _ H. now apply andb_prop in H as [_ H].
Qed.

(** kind of the last step *)
Lemma lkind_slash E l r ax t ps : r = EStep ax t ps -> lkind E (EBin l (u "/") r) = kind E r.
Proof. intros ->. unfold lkind. cbn. now rewrite str_eqb_refl. Qed.

Lemma ok_spine_child E dot e : is_path e = true -> ok E dot e = true ->
  (lkind E e = None -> e = EAbbrev (u ".")) /\
  (is_KChild (lkind E e) = true \/ lkind E e = None -> all_child E (spine e)).
Proof.
  induction e; cbn [is_path]; intros Hp Ho; try discriminate.
  - apply str_eqb_eq in Hp. subst op. destruct (ok_slash _ _ _ _ Ho) as (H1 & (ax & t & ps & ->) & H3 & H4).
    rewrite (lkind_slash E e1 _ ax t ps eq_refl). split.
    + intros Hk. cbn [ok] in H3. rewrite Hk in H3. discriminate.
    + intros Hk. cbn [spine]. unfold all_child. apply Forall_app. split.
      * apply IHe1; auto; [eapply joins_path; eassumption|].
        destruct e1; cbn [joins last_step] in H4; try discriminate; [| |now right].
        -- left. destruct e1_2; cbn [joins last_step] in H4; try discriminate. destruct (str_eqb op (u "/")) eqn:Eo; [|discriminate].
           apply str_eqb_eq in Eo. subst op. rewrite (lkind_slash E e1_1 _ _ _ _ eq_refl).
           destruct (kind E (EStep ax t ps)); [|discriminate]. now apply andb_prop in H4.
        -- left. unfold lkind. cbn [last_step]. destruct (kind E (EStep ax t ps)); [|discriminate]. now apply andb_prop in H4.
      * constructor; [|constructor]. destruct Hk as [Hk|Hk].
        -- destruct (kind E (EStep ax t ps)) as [[q|q|]|] eqn:Ek; try discriminate. eauto.
        -- cbn [ok] in H3. rewrite Hk in H3. discriminate.
  - unfold lkind. cbn [last_step]. split.
    + intros Hk. cbn [ok] in Ho. rewrite Hk in Ho. discriminate.
    + intros Hk. cbn [spine]. constructor; [|constructor]. destruct Hk as [Hk|Hk].
      * destruct (kind E _) as [[q|q|]|]; try discriminate. eauto.
      * cbn [ok] in Ho. rewrite Hk in Ho. discriminate.
  - split; [|intros _; constructor]. intros _. cbn [ok] in Ho. apply andb_prop in Ho as [_ Ho].
    apply str_eqb_eq in Ho. now subst.
Qed.

Lemma joins_left E dot l r : joins E l r = true -> ok E dot l = true -> is_KChild (lkind E l) = true \/ lkind E l = None.
Proof.
  intros H4 Ho. destruct l; cbn [joins last_step] in H4; try discriminate; [| |now right].
  - left. destruct l2; cbn [joins last_step] in H4; try discriminate. destruct (str_eqb op (u "/")) eqn:Eo; [|discriminate].
    apply str_eqb_eq in Eo. subst op. rewrite (lkind_slash E l1 _ _ _ _ eq_refl).
    destruct (kind E r); [|discriminate]. now apply andb_prop in H4.
  - left. unfold lkind. cbn [last_step]. destruct (kind E r); [|discriminate]. now apply andb_prop in H4.
Qed.

Lemma ev_elems E dot e : is_path e = true -> ok E dot e = true -> is_KChild (lkind E e) = true \/ lkind E e = None ->
  forall a n, ev E e (IElem a n) = XN (elems_at a n (sel E (spine e) n)).
Proof.
  induction e; cbn [is_path]; intros Hp; try discriminate; intros Ho Hl a n.
  - apply str_eqb_eq in Hp. subst op. destruct (ok_slash _ _ _ _ Ho) as (H1 & (ax & t & ps & ->) & H3 & H4).
    rewrite (lkind_slash E e1 _ _ _ _ eq_refl) in Hl.
    assert (Hq : exists q, kind E (EStep ax t ps) = Some (KChild q)).
    { destruct Hl as [Hl|Hl]; [destruct (kind E _) as [[q|q|]|]; try discriminate; eauto|].
      cbn [ok] in H3. rewrite Hl in H3. discriminate. }
    destruct Hq as [q Hq]. cbn [ev spine]. rewrite str_eqb_refl.
    rewrite (IHe1 (joins_path _ _ _ _ H4 H1) H1 (joins_left _ _ _ _ H4 H1)). cbn [nodes_of]. f_equal. rewrite sel_app.
    unfold elems_at. rewrite !flat_map_flat_map. apply flat_map_ext_in. intros b Hb.
    destruct (get_at b n) as [m|] eqn:Em; [|reflexivity]. cbn [flat_map]. rewrite app_nil_r.
    change (nodes_of (ev E (EStep ax t ps) (IElem (a ++ b) m)) = flat_map (fun b0 => match get_at b0 n with Some m0 => [IElem (a ++ b0) m0] | None => [] end)
      (map (app b) (sel E [EStep ax t ps] m))).
    rewrite (ev_child _ _ _ _ _ _ H3 Hq). cbn [nodes_of].
    rewrite flat_map_map. unfold elems_at. apply flat_map_ext_in. intros b0 _. rewrite get_at_app, Em.
    destruct (get_at b0 m); [|reflexivity]. now rewrite app_assoc.
  - unfold lkind in Hl. cbn [last_step] in Hl. cbn [spine].
    destruct Hl as [Hl|Hl].
    + destruct (kind E (EStep axis node_test predicates)) as [[q|q|]|] eqn:Hq; try discriminate.
      exact (ev_child _ _ _ _ _ _ Ho Hq).
    + cbn [ok] in Ho. rewrite Hl in Ho. discriminate.
  - cbn. rewrite app_nil_r. reflexivity.
Qed.

(** attribute- and text-terminated paths *)
Definition attr_items (q : qname) (a : addr) (n : node) : list item :=
  flat_map (fun x => if qeqb (fst x) q then [IAttr a (fst x) (snd x)] else []) (attrs_of n).

Lemma ev_attr_step E s q a n dot : ok E dot s = true -> kind E s = Some (KAttr q) -> ev E s (IElem a n) = XN (attr_items q a n).
Proof.
  intros Ho Hk. destruct (kind_estep _ _ _ Hk) as (ax & t & ps & ->). cbn [ok] in Ho. rewrite Hk in Ho. destruct ps; [|discriminate].
  destruct (kind_attr _ _ _ _ _ Hk) as (p & nm & -> & Hc & Ha & Hs & _ & _ & Hr & ->). cbn [ev step_items fold_left].
  rewrite Hc, Ha. f_equal. apply flat_map_ext_in. intros x _. rewrite (test_q_plain _ _ _ _ _ Hs Hr). destruct q; reflexivity.
Qed.

Lemma ev_text_step E s a n dot : ok E dot s = true -> kind E s = Some KText -> ev E s (IElem a n) = XN (text_items a n).
Proof.
  intros Ho Hk. destruct (kind_estep _ _ _ Hk) as (ax & t & ps & ->). cbn [ok] in Ho. rewrite Hk in Ho. destruct ps; [|discriminate].
  destruct (kind_text _ _ _ _ Hk) as (-> & Hc). cbn [ev step_items fold_left]. now rewrite Hc.
Qed.

(** items selected by one non-child terminal step below each element *)
Definition term_items (k : skind) (a : addr) (n : node) : list item :=
  match k with KAttr q => attr_items q a n | KText => text_items a n | KChild _ => [] end.

Lemma ev_term E dot l r k a n : ok E dot (EBin l (u "/") r) = true -> kind E r = Some k -> is_KChild (Some k) = false ->
  ev E (EBin l (u "/") r) (IElem a n) =
  XN (flat_map (fun b => match get_at b n with Some m => term_items k (a ++ b) m | None => [] end) (sel E (spine l) n)).
Proof.
  intros Ho Hk Hc. destruct (ok_slash _ _ _ _ Ho) as (H1 & (ax & t & ps & ->) & H3 & H4).
  cbn [ev]. rewrite str_eqb_refl.
  rewrite (ev_elems E dot l (joins_path _ _ _ _ H4 H1) H1 (joins_left _ _ _ _ H4 H1)). cbn [nodes_of]. f_equal. unfold elems_at.
  rewrite flat_map_flat_map. apply flat_map_ext_in. intros b _. destruct (get_at b n) as [m|]; [|reflexivity]. cbn [flat_map].
  rewrite app_nil_r. change (nodes_of (ev E (EStep ax t ps) (IElem (a ++ b) m)) = term_items k (a ++ b) m). destruct k as [q|q|]; [discriminate| |].
  - now rewrite (ev_attr_step _ _ _ _ _ _ H3 Hk).
  - now rewrite (ev_text_step _ _ _ _ _ H3 Hk).
Qed.
