(** Deleting a field (C14, C15, C20). *)
From Coq Require Import String Arith Lia.
From Verif Require Export FieldTotal.
From Verif Require Import XPathEval FieldSpec DocSpec.

Opaque u.

Lemma spine_steps e : steps_of e = spine e.
Proof. induction e; cbn; congruence. Qed.


(** ** removal of a kid *)
Lemma filter_remove_nth {A} (f : A -> bool) : forall l i x, nth_error l i = Some x -> f x = false -> filter f (remove_nth i l) = filter f l.
Proof.
  unfold remove_nth. induction l as [|y l IH]; intros [|i] x Hi Hx; cbn in *; try discriminate.
  - injection Hi as ->. now rewrite Hx.
  - rewrite (IH i x Hi Hx). reflexivity.
Qed.

Lemma sim_remove q i n k : nth_error (kids_of n) i = Some k -> has_tag q (fst k) = true -> sim (KChild q) n (remove_kid i n).
Proof.
  intros Hi Ht. destruct n as [qn a t ks|s]; [|destruct i; discriminate]. cbn in Hi. split; [reflexivity|]. split; [reflexivity|].
  cbn [kids_of remove_kid set_kids]. symmetry. apply (filter_remove_nth _ ks i k Hi). now rewrite Ht.
Qed.

Lemma filter_attr_del q l : filter (fun x => negb (qeqb (fst x) q)) (attr_del q l) = filter (fun x : qname * str => negb (qeqb (fst x) q)) l.
Proof.
  induction l as [|[p w] l IH]; cbn; [reflexivity|]. destruct (qeqb q p) eqn:Eq; cbn.
  - apply qeqb_eq in Eq. subst p. now rewrite qeqb_refl.
  - now rewrite IH.
Qed.
Lemma sim_del_attr q n : sim (KAttr q) n (del_attr q n).
Proof. destruct n; (split; [reflexivity|split; [reflexivity|]]); [|reflexivity]. cbn. symmetry. apply filter_attr_del. Qed.

Lemma remove_upd_nth {A} j (f : A -> A) l : remove_nth j (upd_nth j f l) = remove_nth j l.
Proof. unfold remove_nth. revert j. induction l as [|x l IH]; intros [|j]; cbn; try reflexivity. now rewrite IH. Qed.

Lemma remove_upd_below c j r f d m : get_at c d = Some m -> upd_at c (remove_kid j) (upd_at (c ++ j :: r) f d) = upd_at c (remove_kid j) d.
Proof.
  intros Hg. rewrite upd_at_app, upd_upd_same. eapply upd_at_ext; [exact Hg|]. destruct m as [q a t ks|s]; [|reflexivity].
  cbn. f_equal. apply remove_upd_nth.
Qed.

Lemma remove_nth_last {A} (l : list A) x : remove_nth (length l) (l ++ [x]) = l.
Proof. induction l as [|y l IH]; [reflexivity|]. change (y :: remove_nth (length l) (l ++ [x]) = y :: l). now rewrite IH. Qed.

Lemma remove_append K n : tag_of n <> None -> remove_kid (length (kids_of n)) (append_kid K n) = n.
Proof. destruct n as [q a t ks|s]; [|contradiction]. intros _. cbn. f_equal. apply remove_nth_last. Qed.

(** ** unfolding _remove_xml *)
Definition clean1 (E : env) (q : expr) : M bool :=
  match q with
  | EBin l op r =>
    if (constructible q && str_eqb op (u "="))%bool then
      bind (reading (pred_true E q)) (fun t =>
      if t then match l with
        | EStep _ _ _ | EBin _ _ _ => remove_xml E l true (RElem [])
        | _ => ret false
        end
      else ret false)
    else ret false
  | _ => ret false
  end.

Lemma rm_child E ax p nm ps ie a : child_axis ax = true ->
  remove_xml E (EStep ax (NameTest p nm) ps) ie (RElem a) =
  bind (reading (find_node E (EStep ax (NameTest p nm) ps) (Some (RElem a)))) (fun child =>
      match child with
      | Some (RElem b) => fun d =>
        if ie then
          match get_at b d with
          | None => (d, Exc XUnmodelled)
          | Some c =>
            match iterM (clean1 E) ps c with
            | (_, Exc x) => (d, Exc x)
            | (c', Ret _) =>
              match kids_of c', attrs_of c' with
              | [], [] => remove_at a (last_index b) d
              | _, _ => (d, Ret false)
              end
            end
          end
        else remove_at a (last_index b) d
      | _ => ret false
      end).
Proof. intros Hax. cbn [remove_xml]. rewrite Hax. reflexivity. Qed.

Lemma rm_slash E l r ie ctx : remove_xml E (EBin l (u "/") r) ie ctx =
      bind (reading (find_node E l (Some ctx))) (fun ln =>
      match ln with
      | Some lr =>
        bind (remove_xml E r ie lr) (fun removed =>
        if removed then bind (remove_xml E l true ctx) (fun _ => ret removed) else ret removed)
      | None => ret false
      end).
Proof. cbn [remove_xml]. rewrite str_eqb_refl. reflexivity. Qed.

Lemma last_index_snoc b i : last_index (b ++ [i]) = i.
Proof. unfold last_index. now rewrite last_last. Qed.

Lemma sel_single E s n b : In b (sel E [s] n) -> exists i k, b = [i] /\ nth_error (kids_of n) i = Some k /\ mstep E s (fst k) = true.
Proof.
  intros Hb. destruct (In_sel_cons _ _ _ _ _ Hb) as (i & k & b' & -> & Hi & Hm & Hb'). cbn in Hb'. destruct Hb' as [<-|[]]. eauto.
Qed.

(** removal of an element by a child step below [a] *)
Lemma rm_child_step E ax t ps q ie a d n d' r : ok E false (EStep ax t ps) = true -> kind E (EStep ax t ps) = Some (KChild q) -> rereadable (EStep ax t ps) = true ->
  get_at a d = Some n -> remove_xml E (EStep ax t ps) ie (RElem a) d = (d', r) ->
  match sel E [EStep ax t ps] n with
  | [] => d' = d /\ r = Ret false
  | b :: _ => exists i k, b = [i] /\ nth_error (kids_of n) i = Some k /\ mstep E (EStep ax t ps) (fst k) = true /\
     ((d' = d /\ r <> Ret true /\ ie = true /\ (r = Ret false -> exists K', iterM (clean1 E) ps (fst k) = (K', Ret tt) /\ (kids_of K' <> [] \/ attrs_of K' <> [])) /\
        (forall x, r = Exc x -> exists K', iterM (clean1 E) ps (fst k) = (K', Exc x))) \/
      (d' = upd_at a (remove_kid i) d /\ r = Ret true /\ (ie = true -> exists K', iterM (clean1 E) ps (fst k) = (K', Ret tt) /\ kids_of K' = [] /\ attrs_of K' = [])))
  end.
Proof.
  intros Ho Hk Hr Hg Hm. destruct (kind_child _ _ _ _ _ Hk) as (p & nm & -> & Hax & _).
  rewrite (rm_child _ _ _ _ _ _ _ Hax) in Hm. unfold bind, reading in Hm.
  rewrite (find_elems E false (EStep ax (NameTest p nm) ps) a n d eq_refl Ho) in Hm; auto.
  2:{ left. unfold lkind. cbn [last_step]. now rewrite Hk. }
  cbn [spine] in Hm. destruct (sel E [EStep ax (NameTest p nm) ps] n) as [|b l] eqn:Es; cbn [head_ref] in Hm.
  - injection Hm as <- <-. auto.
  - destruct (sel_single E (EStep ax (NameTest p nm) ps) n b) as (i & k & -> & Hi & Hms); [rewrite Es; now left|].
    exists i, k. split; [reflexivity|]. split; [assumption|]. split; [assumption|].
    assert (Hgk : get_at (a ++ [i]) d = Some (fst k)) by (rewrite get_at_app, Hg; cbn; now rewrite Hi).
    destruct ie.
    + rewrite Hgk in Hm. destruct (iterM (clean1 E) ps (fst k)) as [K' [[]|x]] eqn:Hc.
      * destruct (kids_of K') as [|k0 ks] eqn:Ek; [destruct (attrs_of K') as [|a0 ats] eqn:Ea|].
        -- unfold remove_at in Hm. rewrite last_index_snoc in Hm. injection Hm as <- <-. right. split; [reflexivity|]. split; [reflexivity|]. intros _. eauto.
        -- injection Hm as <- <-. left. split; [reflexivity|]. split; [discriminate|]. split; [reflexivity|]. split; [|discriminate]. intros _. exists K'. split; [reflexivity|]. rewrite Ea. right. discriminate.
        -- injection Hm as <- <-. left. split; [reflexivity|]. split; [discriminate|]. split; [reflexivity|]. split; [|discriminate]. intros _. exists K'. split; [reflexivity|]. rewrite Ek. left. discriminate.
      * injection Hm as <- <-. left. split; [reflexivity|]. split; [discriminate|]. split; [reflexivity|]. split; [discriminate|]. intros y [= <-]. eauto.
    + unfold remove_at in Hm. rewrite last_index_snoc in Hm. injection Hm as <- <-. right. split; [reflexivity|]. split; [reflexivity|]. discriminate.
Qed.

(** ** pruning: an element and possibly ancestors of it are taken out *)

Lemma head_of_sel_app E ss s d b l : sel E (ss ++ [s]) d = b :: l -> exists b' l', sel E ss d = b' :: l'.
Proof. rewrite sel_app. destruct (sel E ss d); [discriminate|eauto]. Qed.

Lemma head_app E ss s d b' l' n i l : sel E ss d = b' :: l' -> get_at b' d = Some n -> sel E [s] n = [i] :: l -> exists r, sel E (ss ++ [s]) d = (b' ++ [i]) :: r.
Proof. intros H1 H2 H3. rewrite sel_app, H1. cbn [flat_map]. rewrite H2, H3. cbn. eauto. Qed.

Lemma rm_prune E dot l : is_path l = true -> ok E dot l = true -> is_KChild (lkind E l) = true \/ lkind E l = None -> rereadable l = true ->
  forall d d' r b rest, tag_of d <> None -> sel E (spine l) d = b :: rest -> remove_xml E l true doc_root d = (d', r) -> d' = d \/ pruned b d d'.
Proof.
  induction l; cbn [is_path]; intros Hp; try discriminate; intros Ho Hl Hr d d' r b rest Hd Hs Hm.
  - apply str_eqb_eq in Hp. subst op. destruct (ok_slash _ _ _ _ Ho) as (H1 & (ax & t & ps & ->) & H3 & H4).
    rewrite (lkind_slash E l1 _ _ _ _ eq_refl) in Hl.
    destruct (kind E (EStep ax t ps)) as [[q|q|]|] eqn:Hk; try (destruct Hl; discriminate).
    2:{ cbn [ok] in H3. rewrite Hk in H3. discriminate. }
    destruct (rereadable_bin _ _ _ Hr) as [Hr1 Hr2].
    pose proof (joins_path _ _ _ _ H4 H1) as Hpl. pose proof (joins_left _ _ _ _ H4 H1) as Hjl.
    pose proof (spine_ok _ _ _ Hpl H1 Hjl) as Hso. pose proof (spine_last _ _ _ _ _ H1 H4 Hk) as Hla.
    rewrite rm_slash in Hm. unfold bind at 1, reading in Hm. unfold doc_root in Hm. rewrite (find_elems _ _ _ [] d d Hpl H1 Hjl Hr1 eq_refl) in Hm.
    cbn [spine] in Hs. destruct (head_of_sel_app _ _ _ _ _ _ Hs) as (b' & l' & Es). rewrite Es in Hm. cbn [head_ref app] in Hm.
    destruct (In_sel_get E (spine l1) d b') as [n Hg]; [rewrite Es; now left|].
    unfold bind at 1 in Hm. destruct (remove_xml E (EStep ax t ps) true (RElem b') d) as [d1 r1] eqn:Hm1.
    pose proof (rm_child_step _ _ _ _ _ _ _ _ _ _ _ H3 Hk Hr2 Hg Hm1) as R.
    destruct (sel E [EStep ax t ps] n) as [|bi li] eqn:Esi.
    + destruct R as [-> ->]. injection Hm as <- <-. now left.
    + destruct R as (i & k & -> & Hi & Hms & R). destruct (head_app _ _ _ _ _ _ _ _ _ Es Hg Esi) as [rr Hrr]. rewrite Hrr in Hs. injection Hs as <- <-.
      destruct R as [(-> & Hne & _)|(-> & -> & _)].
      * destruct r1 as [[|]|x]; [congruence| |]; injection Hm as <- <-; now left.
      * unfold bind in Hm. destruct (remove_xml E l1 true doc_root (upd_at b' (remove_kid i) d)) as [d2 r2] eqn:Hm2.
        assert (Hsame : sel E (spine l1) (upd_at b' (remove_kid i) d) = b' :: l').
        { rewrite (sel_upd E (KChild q)); auto; [rewrite Es; now left|]. intros m Hgm. rewrite Hg in Hgm. injection Hgm as <-.
          eapply sim_remove; [exact Hi|]. unfold mstep in Hms. rewrite Hk in Hms. now apply andb_prop in Hms as [Hms _]. }
        assert (Hd1 : tag_of (upd_at b' (remove_kid i) d) <> None).
        { rewrite tag_upd_at; [assumption|]. intros _. destruct n; reflexivity || (intros; destruct d; reflexivity). }
        unfold doc_root in Hm2. rewrite Hm2 in Hm. destruct (IHl1 Hpl H1 Hjl Hr1 _ _ _ _ _ Hd1 Hsame Hm2) as [->|(c & j & re & -> & ->)].
        -- right. exists b', i, []. split; [reflexivity|]. destruct r2; now injection Hm as <- _.
        -- right. exists c, j, (re ++ [i]). split; [now rewrite <- app_assoc|].
           destruct (get_at c d) as [mc|] eqn:Hgc.
           ++ rewrite (remove_upd_below _ _ _ _ _ _ Hgc) in Hm. destruct r2; now injection Hm as <- _.
           ++ rewrite get_at_app, Hgc in Hg. discriminate.
  - unfold lkind in Hl. cbn [last_step] in Hl.
    destruct (kind E (EStep axis node_test predicates)) as [[q|q|]|] eqn:Hk; try (destruct Hl; discriminate).
    2:{ cbn [ok] in Ho. rewrite Hk in Ho. discriminate. }
    pose proof (rm_child_step _ _ _ _ _ _ [] d d _ _ Ho Hk Hr eq_refl Hm) as R. cbn [spine] in Hs. rewrite Hs in R.
    destruct R as (i & k & -> & Hi & Hms & [(-> & _)|(-> & _)]); [now left|]. right. exists [], i, []. auto.
  - cbn in Hm. injection Hm as <- _. now left.
Qed.

(** ** what is left of the matches after a removal *)
Lemma sel1_filter E s : forall ks i, length (flat_map (fun x : nat * (node * option str) => if mstep E s (fst (snd x)) then map (cons (fst x)) [[]] else []) (enum i ks)) =
  length (filter (fun k : node * option str => mstep E s (fst k)) ks).
Proof.
  induction ks as [|k ks IH]; intros i; [reflexivity|]. cbn [enum flat_map filter fst snd]. destruct (mstep E s (fst k)); cbn; rewrite IH; reflexivity.
Qed.
Lemma sel1_length E s n : length (sel E [s] n) = length (filter (fun k => mstep E s (fst k)) (kids_of n)).
Proof. cbn [sel]. apply sel1_filter. Qed.

Lemma filter_remove_len {A} (f : A -> bool) : forall l i x, nth_error l i = Some x -> f x = true -> S (length (filter f (remove_nth i l))) = length (filter f l).
Proof.
  unfold remove_nth. induction l as [|y l IH]; intros [|i] x Hi Hx; cbn in *; try discriminate.
  - injection Hi as ->. now rewrite Hx.
  - specialize (IH i x Hi Hx). destruct (f y); cbn; lia.
Qed.

Lemma sel1_remove E s n i k : nth_error (kids_of n) i = Some k -> mstep E s (fst k) = true -> length (sel E [s] n) <= 1 -> sel E [s] (remove_kid i n) = [].
Proof.
  intros Hi Hm Hl. rewrite sel1_length in Hl. destruct n as [q a t ks|]; [|destruct i; discriminate]. cbn [kids_of] in *.
  apply length_zero_iff_nil. rewrite sel1_length. cbn [remove_kid set_kids kids_of].
  pose proof (filter_remove_len (fun k : node * option str => mstep E s (fst k)) ks i k Hi Hm). lia.
Qed.

(** the matches of [ss] at which [tm] holds *)
Definition here (tm : node -> bool) (d : node) (b : addr) : bool := match get_at b d with Some n => tm n | None => false end.
Fixpoint seln (E : env) (tm : node -> bool) (ss : list expr) (n : node) : list addr :=
  match ss with
  | [] => if tm n then [[]] else []
  | s :: ss' => flat_map (fun x => if mstep E s (fst (snd x)) then map (cons (fst x)) (seln E tm ss' (fst (snd x))) else []) (enum 0 (kids_of n))
  end.
Lemma filter_flat_map {A B} (f : B -> bool) (g : A -> list B) l : filter f (flat_map g l) = flat_map (fun x => filter f (g x)) l.
Proof. induction l as [|x l IH]; cbn; [reflexivity|]. now rewrite filter_app, IH. Qed.
Lemma filter_map_in {A B} (f : B -> bool) (g : A -> B) h l : (forall x, f (g x) = h x) -> filter f (map g l) = map g (filter h l).
Proof. intros H. induction l as [|x l IH]; cbn; [reflexivity|]. rewrite H. destruct (h x); cbn; now rewrite IH. Qed.
Lemma seln_filter E tm ss : forall n, seln E tm ss n = filter (here tm n) (sel E ss n).
Proof.
  induction ss as [|s ss IH]; intros n; [cbn; destruct (tm n); reflexivity|]. cbn [seln sel]. rewrite filter_flat_map.
  assert (G : forall l, (forall x, In x l -> nth_error (kids_of n) (fst x) = Some (snd x)) ->
    flat_map (fun x : nat * (node * option str) => if mstep E s (fst (snd x)) then map (cons (fst x)) (seln E tm ss (fst (snd x))) else []) l =
    flat_map (fun x : nat * (node * option str) => filter (here tm n) (if mstep E s (fst (snd x)) then map (cons (fst x)) (sel E ss (fst (snd x))) else [])) l).
  { induction l as [|x l IHl]; intros Hx; [reflexivity|]. cbn [flat_map]. rewrite IHl by (intros; apply Hx; now right). f_equal. destruct (mstep E s (fst (snd x))); [|reflexivity].
    rewrite IH. symmetry. apply filter_map_in. intros b. unfold here. cbn [get_at]. now rewrite (Hx x) by now left. }
  apply G. intros [i k] Hx. apply In_enum in Hx as [_ Hx]. now rewrite Nat.sub_0_r in Hx.
Qed.
Lemma seln_all E ss n : seln E (fun _ => true) ss n = sel E ss n.
Proof. revert n. induction ss as [|s ss IH]; intros n; [reflexivity|]. cbn [seln sel]. apply flat_map_ext. intros x. now rewrite IH. Qed.

(** removal at a prefix of the only match of [ss] *)
Definition via (E : env) (tm : node -> bool) (s : expr) (ss : list expr) (x : nat * (node * option str)) : list addr :=
  if mstep E s (fst (snd x)) then map (cons (fst x)) (seln E tm ss (fst (snd x))) else [].
Lemma via_remove E tm s ss : forall ks i0 i, (forall x, In x (enum i0 ks) -> fst x <> i0 + i -> via E tm s ss x = []) ->
  forall i1, flat_map (via E tm s ss) (enum i1 (remove_nth i ks)) = [].
Proof.
  unfold remove_nth. induction ks as [|k ks IH]; intros i0 i H i1; [destruct i; reflexivity|]. destruct i as [|i].
  - assert (G : forall l j0 j1, (forall x, In x (enum j0 l) -> via E tm s ss x = []) -> flat_map (via E tm s ss) (enum j1 l) = []).
    { induction l as [|y l IHl]; intros j0 j1 Hx; [reflexivity|]. cbn [enum flat_map]. rewrite (IHl (S j0)) by (intros; apply Hx; now right).
      specialize (Hx (j0, y) (or_introl eq_refl)). unfold via in *. cbn [fst snd] in *. destruct (mstep E s (fst y)); [|reflexivity].
      destruct (seln E tm ss (fst y)); [reflexivity|discriminate]. }
    cbn. apply (G ks (S i0)). intros x Hx. apply H; [now right|]. destruct x as [n x]. apply In_enum in Hx. cbn. lia.
  - change (firstn (S i) (k :: ks) ++ skipn (S (S i)) (k :: ks)) with (k :: (firstn i ks ++ skipn (S i) ks)). cbn [enum flat_map].
    rewrite (IH (S i0) i). 2:{ intros x Hx Hn. apply H; [now right|]. lia. }
    rewrite app_nil_r. assert (Hv : via E tm s ss (i0, k) = []) by (apply H; [now left|cbn; lia]). unfold via in *. cbn [fst snd] in *.
    destruct (mstep E s (fst k)); [|reflexivity]. destruct (seln E tm ss (fst k)); [reflexivity|discriminate].
Qed.
Lemma In_seln_cons E tm s ss n b : In b (seln E tm (s :: ss) n) -> exists i k b', b = i :: b' /\ nth_error (kids_of n) i = Some k /\ mstep E s (fst k) = true /\ In b' (seln E tm ss (fst k)).
Proof.
  cbn [seln]. intros H. apply in_flat_map in H as ([i k] & Hi & H). cbn [fst snd] in H. destruct (mstep E s (fst k)) eqn:Hm; [|contradiction].
  apply in_map_iff in H as (b' & <- & Hb). apply In_enum in Hi as [_ Hi]. rewrite Nat.sub_0_r in Hi. exists i, k, b'. auto.
Qed.
Lemma seln_prune E tm : forall ss d b d', seln E tm ss d = [b] -> pruned b d d' -> seln E tm ss d' = [].
Proof.
  induction ss as [|s ss IH]; intros d b d' Hs (c & j & rest & -> & ->).
  - cbn in Hs. destruct (tm d); [|discriminate]. injection Hs as Hs. destruct c; discriminate.
  - assert (Hin : In (c ++ j :: rest) (seln E tm (s :: ss) d)) by (rewrite Hs; now left).
    destruct (In_seln_cons _ _ _ _ _ _ Hin) as (i & k & b' & Hb & Hi & Hm & Hb').
    change (flat_map (via E tm s ss) (enum 0 (kids_of d)) = [c ++ j :: rest]) in Hs.
    assert (Hoth : forall x, In x (enum 0 (kids_of d)) -> fst x <> i -> via E tm s ss x = []).
    { intros x Hx Hn. destruct (via E tm s ss x) as [|y l] eqn:Ev; [reflexivity|exfalso]. assert (Hy : In y (flat_map (via E tm s ss) (enum 0 (kids_of d)))) by (apply in_flat_map; exists x; split; [exact Hx|rewrite Ev; now left]).
      rewrite Hs in Hy. destruct Hy as [<-|[]]. assert (Hy : In (c ++ j :: rest) (via E tm s ss x)) by (rewrite Ev; now left). unfold via in Hy. destruct (mstep E s (fst (snd x))); [|contradiction].
      apply in_map_iff in Hy as (y & Hy & _). rewrite Hb in Hy. injection Hy as Hy _. contradiction. }
    destruct c as [|i' c].
    + cbn in Hb. injection Hb as -> ->. cbn [upd_at]. destruct d as [q ats t ks|]; [|destruct i; discriminate]. cbn [remove_kid set_kids].
      change (flat_map (via E tm s ss) (enum 0 (remove_nth i ks)) = []). apply (via_remove E tm s ss ks 0 i). exact Hoth.
    + cbn in Hb. injection Hb as -> <-.
      assert (Hsub : seln E tm ss (fst k) = [c ++ j :: rest]).
      { assert (Hl : length (via E tm s ss (i, k)) <= 1).
        { assert (G : forall l, In (i, k) l -> length (via E tm s ss (i, k)) <= length (flat_map (via E tm s ss) l)).
          { induction l as [|y l IHl]; [contradiction|]. cbn [flat_map]. rewrite app_length. intros [->|Hy]; [lia|]. specialize (IHl Hy). lia. }
          specialize (G (enum 0 (kids_of d))). rewrite Hs in G. apply G. apply In_enum. split; [lia|now rewrite Nat.sub_0_r]. }
        unfold via in Hl. cbn [fst snd] in Hl. rewrite Hm, map_length in Hl. destruct (seln E tm ss (fst k)) as [|x [|y l]]; cbn in Hb', Hl; [contradiction| |lia]. destruct Hb' as [->|[]]. reflexivity. }
      assert (Hsub' : seln E tm ss (upd_at c (remove_kid j) (fst k)) = []) by (apply (IH (fst k) (c ++ j :: rest)); [exact Hsub|now exists c, j, rest]).
      change (flat_map (via E tm s ss) (enum 0 (kids_of (upd_at (i :: c) (remove_kid j) d))) = []).
      assert (G : forall l, (forall x, In x l -> via E tm s ss x = []) -> flat_map (via E tm s ss) l = []).
      { induction l as [|x l IHl]; intros Hx; [reflexivity|]. cbn [flat_map]. rewrite IHl by (intros; apply Hx; now right). rewrite (Hx x) by now left. reflexivity. }
      apply G. intros [i2 k2] Hx. apply In_enum in Hx as [_ Hi2]. rewrite Nat.sub_0_r, kids_upd_cons, nth_upd_nth in Hi2. destruct (Nat.eqb_spec i i2) as [<-|N].
      * rewrite Hi in Hi2. cbn [option_map] in Hi2. injection Hi2 as <-. unfold via. cbn [fst snd]. rewrite Hsub'. match goal with |- (if ?m then _ else _) = _ => destruct m; reflexivity end.
      * apply (Hoth (i2, k2)); [apply In_enum; split; [lia|now rewrite Nat.sub_0_r]|]. cbn. congruence.
Qed.

Lemma sel_prune E ss d b d' : sel E ss d = [b] -> pruned b d d' -> sel E ss d' = [].
Proof. rewrite <- !seln_all. apply seln_prune. Qed.

(** ** the leaf *)
Lemma elems_at_hd d l b n r : elems_at [] d l = IElem b n :: r -> (forall x, In x l -> get_at x d <> None) -> exists l', l = b :: l' /\ get_at b d = Some n /\ r = elems_at [] d l'.
Proof.
  destruct l as [|x l]; cbn; [discriminate|]. intros H Hx. destruct (get_at x d) as [m|] eqn:Em; [|exfalso; eapply Hx; [now left|assumption]].
  cbn in H. injection H as -> -> <-. eauto.
Qed.

(** the first match of the path without its last step, and the matches below it *)
Lemma first_parent_sel E dot l op st d a : is_path l = true -> ok E dot l = true -> is_KChild (lkind E l) = true \/ lkind E l = None ->
  first_parent E (EBin l op st) d a <-> exists r, sel E (spine l) d = a :: r.
Proof.
  intros Hp Ho Hl. cbn [first_parent]. rewrite (selects_elems _ _ _ _ Hp Ho Hl). split.
  - intros (n & rest & H). apply elems_at_hd in H as (l' & Hs & _); [eauto|]. intros x Hx. destruct (In_sel_get _ _ _ _ Hx) as [m ->]. discriminate.
  - intros (r & Hs). destruct (In_sel_get E (spine l) d a) as [m Hm]; [rewrite Hs; now left|]. rewrite Hs. cbn. rewrite Hm. cbn. eauto.
Qed.
Theorem delete_elem E e d d' r a i n rest : supported_path E e = true -> tag_of d <> None -> is_KChild (lkind E e) = true ->
  first_parent E e d a -> selects E e d = IElem (a ++ [i]) n :: rest -> mgr_delete E e d = (d', r) -> let b := a ++ [i] in
  pruned b d d' /\ (rest = [] -> selects E e d' = []).
Proof.
  unfold supported_path. intros Hsp Hd Hl Hu Hsel Hm. set (b := a ++ [i]) in *. apply andb_prop in Hsp as [Hsp Hr]. apply andb_prop in Hsp as [Hp Ho].
  pose proof (or_introl Hl : is_KChild (lkind E e) = true \/ lkind E e = None) as Hl'.
  assert (Hrm : exists r', remove_xml E e false doc_root d = (d', r')).
  { unfold mgr_delete, bind, reading in Hm. rewrite (find_path _ _ _ _ Hp Ho), Hsel in Hm. cbn [hd_error option_map] in Hm.
    destruct (remove_xml E e false doc_root d) as [d2 [x|x]]; injection Hm as <- _; eauto. }
  destruct Hrm as [r' Hrm]. clear Hm.
  fold b in Hsel. rewrite (selects_elems _ _ _ _ Hp Ho Hl') in Hsel. apply elems_at_hd in Hsel as (l' & Hs & Hgb & Hrest).
  2:{ intros x Hx. destruct (In_sel_get _ _ _ _ Hx) as [m ->]. discriminate. }
  assert (HP : pruned b d d').
  { destruct e; cbn [is_path] in Hp; try discriminate.
    - apply str_eqb_eq in Hp. subst op. destruct (ok_slash _ _ _ _ Ho) as (H1 & (ax & t & ps & ->) & H3 & H4).
      rewrite (lkind_slash E e1 _ _ _ _ eq_refl) in Hl.
      destruct (kind E (EStep ax t ps)) as [[q|q|]|] eqn:Hk; try discriminate.
      destruct (rereadable_bin _ _ _ Hr) as [Hr1 Hr2].
      pose proof (joins_path _ _ _ _ H4 H1) as Hpl. pose proof (joins_left _ _ _ _ H4 H1) as Hjl.
      pose proof (spine_ok _ _ _ Hpl H1 Hjl) as Hso. pose proof (spine_last _ _ _ _ _ H1 H4 Hk) as Hla.
      rewrite rm_slash in Hrm. unfold bind at 1, reading in Hrm. unfold doc_root in Hrm. rewrite (find_elems _ _ _ [] d d Hpl H1 Hjl Hr1 eq_refl) in Hrm.
      cbn [spine] in Hs. apply (first_parent_sel E true e1 _ _ d a Hpl H1 Hjl) in Hu as [ll Es].
      remember a as b' eqn:Eb in Es. rewrite Es in Hrm. cbn [head_ref app] in Hrm.
      destruct (In_sel_get E (spine e1) d b') as [m Hg]; [rewrite Es; now left|].
      unfold bind at 1 in Hrm. destruct (remove_xml E (EStep ax t ps) false (RElem b') d) as [d1 r1] eqn:Hm1.
      pose proof (rm_child_step _ _ _ _ _ _ _ _ _ _ _ H3 Hk Hr2 Hg Hm1) as R.
      assert (Hib : In [i] (sel E [EStep ax t ps] m)).
      { assert (Hin : In b (sel E (spine e1 ++ [EStep ax t ps]) d)) by (rewrite Hs; now left). rewrite sel_app in Hin. apply in_flat_map in Hin as (x & Hx & Hin).
        destruct (get_at x d) as [mx|] eqn:Gx; [|contradiction]. apply in_map_iff in Hin as (y & Hy & Hin). destruct (sel_single _ _ _ _ Hin) as (i' & k' & -> & _).
        subst b. apply app_inj_tail in Hy as [-> [= ->]]. rewrite <- Eb in Gx. rewrite Hg in Gx. injection Gx as <-. exact Hin. }
      destruct (sel E [EStep ax t ps] m) as [|bi li] eqn:Esi; [contradiction|].
      destruct R as (i1 & k & -> & Hi & Hms & R). destruct (head_app _ _ _ _ _ _ _ _ _ Es Hg Esi) as [rr Hrr]. rewrite Hrr in Hs. injection Hs as Hbi _.
      subst b. rewrite <- Eb in Hbi. apply app_inj_tail in Hbi as [_ ->]. clear Hib. rewrite <- Eb.
      destruct R as [(_ & _ & HF & _)|(-> & -> & _)]; [discriminate|].
      unfold bind in Hrm. destruct (remove_xml E e1 true doc_root (upd_at b' (remove_kid i) d)) as [d2 r2] eqn:Hm2.
      assert (Hsame : sel E (spine e1) (upd_at b' (remove_kid i) d) = b' :: ll).
      { rewrite (sel_upd E (KChild q)); auto; [rewrite Es; now left|]. intros m' Hgm. rewrite Hg in Hgm. injection Hgm as <-.
        eapply sim_remove; [exact Hi|]. unfold mstep in Hms. rewrite Hk in Hms. now apply andb_prop in Hms as [Hms _]. }
      assert (Hd1 : tag_of (upd_at b' (remove_kid i) d) <> None) by (rewrite tag_upd_at; [assumption|]; intros _; destruct d; reflexivity).
      unfold doc_root in Hm2. rewrite Hm2 in Hrm. destruct (rm_prune E true e1 Hpl H1 Hjl Hr1 _ _ _ _ _ Hd1 Hsame Hm2) as [->|(c & j & re & -> & ->)].
      + exists b', i, []. split; [reflexivity|]. destruct r2; now injection Hrm as <- _.
      + exists c, j, (re ++ [i]). split; [now rewrite <- app_assoc|].
        destruct (get_at c d) as [mc|] eqn:Hgc.
        * rewrite (remove_upd_below _ _ _ _ _ _ Hgc) in Hrm. destruct r2; now injection Hrm as <- _.
        * rewrite get_at_app, Hgc in Hg. discriminate.
    - unfold lkind in Hl. cbn [last_step] in Hl.
      destruct (kind E (EStep axis node_test predicates)) as [[q|q|]|] eqn:Hk; try discriminate.
      pose proof (rm_child_step _ _ _ _ _ _ [] d d _ _ Ho Hk Hr eq_refl Hrm) as R. cbn [spine] in Hs. rewrite Hs in R.
      destruct R as (i1 & k & Hb & Hi & Hms & [(_ & _ & HF & _)|(-> & _)]); [discriminate|]. exists [], i1, []. auto. }
  split; [exact HP|]. intros ->. rewrite (selects_elems _ _ _ _ Hp Ho Hl').
  assert (l' = []).
  { destruct l' as [|x l']; [reflexivity|]. exfalso. cbn in Hrest. destruct (In_sel_get E (spine e) d x) as [m Hx]; [rewrite Hs; right; now left|]. rewrite Hx in Hrest. discriminate. }
  subst l'. rewrite (sel_prune E (spine e) d b d' Hs HP). reflexivity.
Qed.

Lemma rm_attr E ax t ps q ie a d n : ok E false (EStep ax t ps) = true -> kind E (EStep ax t ps) = Some (KAttr q) -> get_at a d = Some n ->
  remove_xml E (EStep ax t ps) ie (RElem a) d =
  match attr_get q (attrs_of n) with Some _ => (upd_at a (del_attr q) d, Ret true) | None => (d, Exc XKey) end.
Proof.
  intros Ho Hk Hg. pose proof Hk as Hk2. destruct (kind_attr _ _ _ _ _ Hk) as (p & nm & -> & Hc & Ha & _). apply attr_name_kind in Hk2.
  cbn [remove_xml]. rewrite Hc, Ha. unfold remove_attr_node. now rewrite Hg, Hk2.
Qed.

Lemma attr_get_items q a n : attr_get q (attrs_of n) = match attr_items q a n with IAttr _ _ v :: _ => Some v | _ => None end.
Proof.
  unfold attr_items. induction (attrs_of n) as [|[p w] l IH]; cbn; [reflexivity|]. rewrite (qeqb_sym p q). destruct (qeqb q p); [reflexivity|exact IH].
Qed.

Lemma attr_items_del q a n i : attr_items q a n = [i] -> attr_items q a (del_attr q n) = [].
Proof.
  destruct n as [qn ats t ks|]; [|discriminate]. unfold attr_items. cbn. induction ats as [|[p w] l IH]; cbn; [reflexivity|].
  rewrite (qeqb_sym p q). destruct (qeqb q p) eqn:Eq; cbn.
  - intros [= _ H]. exact H.
  - rewrite (qeqb_sym p q), Eq. exact IH.
Qed.

Theorem delete_attr E e d d' r b q v rest : supported_path E e = true -> tag_of d <> None -> first_parent E e d b ->
  selects E e d = IAttr b q v :: rest -> lkind E e = Some (KAttr q) -> mgr_delete E e d = (d', r) ->
  (d' = upd_at b (del_attr q) d \/ pruned b d d') /\ (rest = [] -> selects E e d' = []).
Proof.
  unfold supported_path. intros Hsp Hd Hu Hsel Hlk Hm. apply andb_prop in Hsp as [Hsp Hr]. apply andb_prop in Hsp as [Hp Ho].
  assert (Hrm : exists r', remove_xml E e false doc_root d = (d', r')).
  { unfold mgr_delete, bind, reading in Hm. rewrite (find_path _ _ _ _ Hp Ho), Hsel in Hm. cbn [hd_error option_map] in Hm.
    destruct (remove_xml E e false doc_root d) as [d2 [x|x]]; injection Hm as <- _; eauto. }
  destruct Hrm as [r' Hrm]. clear Hm. pose proof Hsel as Hsel0.
  unfold selects in Hsel. rewrite (ev_route _ _ _ _ _ _ Hp Ho Hlk eq_refl) in Hsel. cbn [nodes_of app] in Hsel.
  destruct e; cbn [is_path] in Hp; try discriminate.
  - apply str_eqb_eq in Hp. subst op. destruct (ok_slash _ _ _ _ Ho) as (H1 & (ax & t & ps & ->) & H3 & H4).
    rewrite (lkind_slash E e1 _ _ _ _ eq_refl) in Hlk. cbn [route] in Hsel.
    destruct (rereadable_bin _ _ _ Hr) as [Hr1 Hr2].
    pose proof (joins_path _ _ _ _ H4 H1) as Hpl. pose proof (joins_left _ _ _ _ H4 H1) as Hjl.
    pose proof (spine_ok _ _ _ Hpl H1 Hjl) as Hso. pose proof (spine_last _ _ _ _ _ H1 H4 Hlk) as Hla.
    apply (first_parent_sel E true e1 _ _ d b Hpl H1 Hjl) in Hu as [ll Es].
    destruct (In_sel_get E (spine e1) d b) as [m Hg]; [rewrite Es; now left|]. rewrite Es in Hsel. cbn [flat_map] in Hsel. rewrite Hg in Hsel. cbn [term_items] in Hsel.
    set (rest2 := flat_map (fun b => match get_at b d with Some m => attr_items q b m | None => [] end) ll) in Hsel.
    assert (Hat : exists r1, attr_items q b m = IAttr b q v :: r1 /\ rest = r1 ++ rest2).
    { destruct (attr_items q b m) as [|x1 r1] eqn:Ea; [exfalso|injection Hsel as -> Hsel; exists r1; now split].
      assert (Hin : In (IAttr b q v) rest2) by (rewrite <- (app_nil_l rest2), Hsel; now left). unfold rest2 in Hin. apply in_flat_map in Hin as (b2 & Hb2 & Hin). destruct (get_at b2 d) as [m2|]; [|contradiction].
      unfold attr_items in Hin. apply in_flat_map in Hin as ([q' w] & _ & Hin). cbn in Hin. destruct (qeqb q' q); [|contradiction]. destruct Hin as [[= -> _ _]|[]].
      pose proof (sel_NoDup E (spine e1) d) as Nd. rewrite Es in Nd. inversion Nd; contradiction. }
    destruct Hat as (r1 & Hat & Hrest). clear Hsel.
    rewrite rm_slash in Hrm. unfold bind at 1, reading in Hrm. unfold doc_root in Hrm. rewrite (find_elems _ _ _ [] d d Hpl H1 Hjl Hr1 eq_refl) in Hrm.
    rewrite Es in Hrm. cbn [head_ref app] in Hrm. unfold bind at 1 in Hrm. rewrite (rm_attr _ _ _ _ _ _ _ _ _ H3 Hlk Hg), (attr_get_items q b), Hat in Hrm.
    unfold bind in Hrm. destruct (remove_xml E e1 true (RElem []) (upd_at b (del_attr q) d)) as [d2 r2] eqn:Hm2.
    assert (Hsame : sel E (spine e1) (upd_at b (del_attr q) d) = b :: ll).
    { rewrite (sel_upd E (KAttr q)); auto; [rewrite Es; now left|]. intros. apply sim_del_attr. }
    assert (Hd1 : tag_of (upd_at b (del_attr q) d) <> None) by (rewrite tag_upd_at; [assumption|]; intros _; destruct d; reflexivity).
    assert (Hd' : d' = d2) by (destruct r2; now injection Hrm as <- _). subst d2.
    assert (Hout : d' = upd_at b (del_attr q) d \/ pruned b d d').
    { destruct (rm_prune E true e1 Hpl H1 Hjl Hr1 _ _ _ _ _ Hd1 Hsame Hm2) as [->|(c & j & re & -> & ->)]; [now left|right].
      exists c, j, re. split; [reflexivity|]. destruct (get_at c d) as [mc|] eqn:Hgc; [|rewrite get_at_app, Hgc in Hg; discriminate].
      now rewrite (remove_upd_below _ _ _ _ _ _ Hgc). }
    split; [exact Hout|]. intros ->. unfold selects. rewrite (ev_term _ _ _ _ _ _ _ Ho Hlk eq_refl). cbn [nodes_of app].
    symmetry in Hrest. apply app_eq_nil in Hrest as [-> Hr0].
    destruct Hout as [->|HP].
    + rewrite Hsame. cbn [flat_map]. rewrite (get_upd_same _ _ _ _ Hg). cbn [term_items]. rewrite (attr_items_del _ _ _ _ Hat). cbn [app].
      transitivity rest2; [|exact Hr0]. unfold rest2. cbn [app]. pose proof (sel_NoDup E (spine e1) d) as Nd. rewrite Es in Nd. inversion Nd as [|? ? Hni _]; subst.
      assert (Hlen : forall x, In x ll -> length b = length x).
      { intros x Hx. rewrite (sel_length E (spine e1) d b), (sel_length E (spine e1) d x); [reflexivity|rewrite Es; now right|rewrite Es; now left]. }
      clear -Hni Hlen. induction ll as [|x ll IH]; [reflexivity|]. cbn [flat_map]. rewrite IH; [|intros Hx; apply Hni; now right|intros y Hy; apply Hlen; now right]. f_equal.
      rewrite get_upd_other; [reflexivity|apply Hlen; now left|]. intros ->. apply Hni. now left.
    + set (tm := fun n => match attr_items q [] n with [] => false | _ => true end).
      assert (Hno : forall x n, attr_items q x n = [] <-> tm n = false).
      { intros x n. unfold tm, attr_items. induction (attrs_of n) as [|y l IH]; [split; reflexivity|]. cbn. destruct (qeqb (fst y) q); cbn; [split; discriminate|exact IH]. }
      assert (Hsn : seln E tm (spine e1) d = [b]).
      { rewrite seln_filter, Es. cbn [filter]. unfold here at 1. rewrite Hg. destruct (tm m) eqn:Et; [|apply (Hno b) in Et; rewrite Et in Hat; discriminate]. f_equal.
        unfold rest2 in Hr0. clear -Hr0 Hno. induction ll as [|x ll IH]; [reflexivity|]. cbn [flat_map filter] in *. apply app_eq_nil in Hr0 as [H1 H2]. rewrite (IH H2). unfold here.
        destruct (get_at x d) as [n|]; [|reflexivity]. apply Hno in H1. now rewrite H1. }
      pose proof (seln_prune E tm _ _ _ _ Hsn HP) as Hz. rewrite seln_filter in Hz. clear -Hz Hno. induction (sel E (spine e1) d') as [|x l IH]; [reflexivity|].
      cbn [filter flat_map] in *. destruct (here tm d' x) eqn:Hh; [discriminate|]. rewrite (IH Hz), app_nil_r. unfold here in Hh. destruct (get_at x d') as [n|]; [|reflexivity]. cbn [term_items]. now apply Hno.
  - unfold lkind in Hlk. cbn [last_step] in Hlk. cbn [route sel flat_map get_at] in Hsel. rewrite app_nil_r in Hsel. cbn [term_items] in Hsel.
    assert (b = []).
    { assert (Hin : In (IAttr b q v) (attr_items q [] d)) by (rewrite Hsel; now left). unfold attr_items in Hin. apply in_flat_map in Hin as ([q' w] & _ & Hin). cbn in Hin.
      destruct (qeqb q' q); [|contradiction]. destruct Hin as [[= -> _ _]|[]]. reflexivity. }
    subst b. unfold doc_root in Hrm. rewrite (rm_attr E axis node_test predicates q false [] d d Ho Hlk eq_refl), (attr_get_items q []), Hsel in Hrm. injection Hrm as <- _.
    split; [now left|]. intros ->. unfold selects. rewrite (ev_attr_step _ _ _ _ _ _ Ho Hlk). cbn [nodes_of upd_at]. now rewrite (attr_items_del _ _ _ _ Hsel).
Qed.

(** ** when the node read is below another parent than the first one *)
Theorem delete_elsewhere E e d d' r a i n rest : supported_path E e = true -> tag_of d <> None -> is_KChild (lkind E e) = true ->
  selects E e d = IElem (a ++ [i]) n :: rest -> ~ first_parent E e d a -> mgr_delete E e d = (d', r) -> d' = d /\ r = Ret tt.
Proof.
  unfold supported_path. intros Hsp Hd Hl Hsel Hu Hm. apply andb_prop in Hsp as [Hsp Hr]. apply andb_prop in Hsp as [Hp Ho].
  pose proof (or_introl Hl : is_KChild (lkind E e) = true \/ lkind E e = None) as Hl'.
  unfold mgr_delete, bind, reading in Hm. rewrite (find_path _ _ _ _ Hp Ho), Hsel in Hm. cbn [hd_error option_map] in Hm.
  rewrite (selects_elems _ _ _ _ Hp Ho Hl') in Hsel. apply elems_at_hd in Hsel as (l' & Hs & Hgb & Hrest).
  2:{ intros x Hx. destruct (In_sel_get _ _ _ _ Hx) as [m ->]. discriminate. }
  destruct e; cbn [is_path] in Hp; try discriminate.
  - apply str_eqb_eq in Hp. subst op. destruct (ok_slash _ _ _ _ Ho) as (H1 & (ax & t & ps & ->) & H3 & H4).
    rewrite (lkind_slash E e1 _ _ _ _ eq_refl) in Hl. destruct (kind E (EStep ax t ps)) as [[q|q|]|] eqn:Hk; try discriminate.
    destruct (rereadable_bin _ _ _ Hr) as [Hr1 Hr2].
    pose proof (joins_path _ _ _ _ H4 H1) as Hpl. pose proof (joins_left _ _ _ _ H4 H1) as Hjl.
    rewrite rm_slash in Hm. unfold bind at 1, reading in Hm. unfold doc_root in Hm. rewrite (find_elems _ _ _ [] d d Hpl H1 Hjl Hr1 eq_refl) in Hm.
    cbn [spine] in Hs. destruct (head_of_sel_app _ _ _ _ _ _ Hs) as (b' & ll & Es). rewrite Es in Hm. cbn [head_ref app] in Hm.
    destruct (In_sel_get E (spine e1) d b') as [m Hg]; [rewrite Es; now left|].
    unfold bind in Hm. destruct (remove_xml E (EStep ax t ps) false (RElem b') d) as [d1 r1] eqn:Hm1.
    pose proof (rm_child_step _ _ _ _ _ _ _ _ _ _ _ H3 Hk Hr2 Hg Hm1) as R. destruct (sel E [EStep ax t ps] m) as [|bi li] eqn:Esi.
    + destruct R as [-> ->]. cbn in Hm. injection Hm as <- <-. now split.
    + exfalso. destruct R as (i1 & k & -> & _). destruct (head_app _ _ _ _ _ _ _ _ _ Es Hg Esi) as [rr Hrr]. rewrite Hrr in Hs. injection Hs as Hb _.
      apply app_inj_tail in Hb as [-> _]. apply Hu. apply (first_parent_sel E true e1 _ _ d a Hpl H1 Hjl). eauto.
  - exfalso. apply Hu. cbn [first_parent]. cbn [spine] in Hs. destruct (sel_single E (EStep axis node_test predicates) d (a ++ [i])) as (i1 & k & Hb & _); [rewrite Hs; now left|].
    change [i1] with ([] ++ [i1]) in Hb. now apply app_inj_tail in Hb as [-> _].
Qed.
Theorem delete_attr_elsewhere E e d d' r b q v rest : supported_path E e = true -> tag_of d <> None ->
  selects E e d = IAttr b q v :: rest -> lkind E e = Some (KAttr q) -> ~ first_parent E e d b -> mgr_delete E e d = (d', r) -> d' = d /\ r = Exc XKey.
Proof.
  unfold supported_path. intros Hsp Hd Hsel Hlk Hu Hm. apply andb_prop in Hsp as [Hsp Hr]. apply andb_prop in Hsp as [Hp Ho].
  unfold mgr_delete, bind, reading in Hm. rewrite (find_path _ _ _ _ Hp Ho), Hsel in Hm. cbn [hd_error option_map] in Hm.
  unfold selects in Hsel. rewrite (ev_route _ _ _ _ _ _ Hp Ho Hlk eq_refl) in Hsel. cbn [nodes_of app] in Hsel.
  assert (Ha : forall x m, In (IAttr b q v) (attr_items q x m) -> b = x).
  { intros x m Hin. unfold attr_items in Hin. apply in_flat_map in Hin as ([q' w] & _ & Hin). cbn in Hin. destruct (qeqb q' q); [|contradiction]. destruct Hin as [[= -> _ _]|[]]. reflexivity. }
  destruct e; cbn [is_path] in Hp; try discriminate.
  - apply str_eqb_eq in Hp. subst op. destruct (ok_slash _ _ _ _ Ho) as (H1 & (ax & t & ps & ->) & H3 & H4).
    rewrite (lkind_slash E e1 _ _ _ _ eq_refl) in Hlk. cbn [route] in Hsel. destruct (rereadable_bin _ _ _ Hr) as [Hr1 Hr2].
    pose proof (joins_path _ _ _ _ H4 H1) as Hpl. pose proof (joins_left _ _ _ _ H4 H1) as Hjl.
    destruct (sel E (spine e1) d) as [|b' ll] eqn:Es; [discriminate|]. destruct (In_sel_get E (spine e1) d b') as [m Hg]; [rewrite Es; now left|].
    rewrite rm_slash in Hm. unfold bind at 1, reading in Hm. unfold doc_root in Hm. rewrite (find_elems _ _ _ [] d d Hpl H1 Hjl Hr1 eq_refl) in Hm.
    rewrite Es in Hm. cbn [head_ref app] in Hm. unfold bind in Hm. rewrite (rm_attr _ _ _ _ _ _ _ _ _ H3 Hlk Hg), (attr_get_items q b') in Hm.
    cbn [flat_map] in Hsel. rewrite Hg in Hsel. cbn [term_items] in Hsel. destruct (attr_items q b' m) as [|x l] eqn:Ea.
    + injection Hm as <- <-. now split.
    + exfalso. injection Hsel as -> _. assert (b = b') as -> by (apply (Ha b' m); rewrite Ea; now left). apply Hu. apply (first_parent_sel E true e1 _ _ d b' Hpl H1 Hjl). eauto.
  - exfalso. apply Hu. cbn [first_parent]. cbn [route sel flat_map get_at] in Hsel. rewrite app_nil_r in Hsel. cbn [term_items] in Hsel. apply (Ha [] d). rewrite Hsel. now left.
Qed.
