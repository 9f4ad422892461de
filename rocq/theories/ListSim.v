(** Every list operation keeps a matched-element list in step with a Python list. *)
From Coq Require Import String Arith ZArith Lia.
From Verif Require Export ListOps.
From Verif Require Import XPathEval FieldSpec DocSpec.

Opaque u.

(** inverse of [sel1_pos] *)
Lemma pos_sel1 E s n p x : nth_error (kids_of n) p = Some x -> mstep E s (fst x) = true ->
  nth_error (sel E [s] n) (length (filter (fun y => mstep E s (fst y)) (firstn p (kids_of n)))) = Some [p].
Proof.
  cbn [sel]. generalize (kids_of n) as ks. intros ks Hp Hm.
  enough (G : forall ks i p, nth_error ks p = Some x ->
    nth_error (flat_map (fun y => if mstep E s (fst (snd y)) then map (cons (fst y)) [[]] else []) (enum i ks))
      (length (filter (fun y : node * option str => mstep E s (fst y)) (firstn p ks))) = Some [i + p]) by (apply (G ks 0 p Hp)).
  clear ks p Hp. induction ks as [|k ks IH]; intros i p Hp; [destruct p; discriminate|]. destruct p as [|p].
  - cbn in Hp. injection Hp as ->. cbn. rewrite Hm. cbn. now rewrite Nat.add_0_r.
  - cbn [nth_error] in Hp. cbn [enum flat_map firstn filter fst snd]. specialize (IH (S i) p Hp). rewrite Nat.add_succ_comm in IH.
    destruct (mstep E s (fst k)); cbn [length map app nth_error]; exact IH.
Qed.

(** creating an element at child index [i] for a one-step path *)
Lemma step_insert E e d ins : (exists ax t ps, e = EStep ax t ps) -> child_list E e -> tame E xml_valid e = true -> bare_end E e = true -> tag_of d <> None ->
  exists K, build E Create e (Some doc_root) ins d = (insert_kid (ins_index ins d) K d, Ret (Some (RElem [ins_index ins d]))) /\
    tag_of K <> None /\ kids_of K = [] /\ text_of K = None /\ mstep E e K = true /\
    let c := length (filter (fun y => mstep E e (fst y)) (firstn (ins_index ins d) (kids_of d))) in
    snodes E (spine e) (insert_kid (ins_index ins d) K d) = insert_nth c K (snodes E (spine e) d) /\
    nth_error (sel E (spine e) (insert_kid (ins_index ins d) K d)) c = Some [ins_index ins d] /\
    get_at [ins_index ins d] (insert_kid (ins_index ins d) K d) = Some K.
Proof.
  intros (ax & t & ps & ->) H Htm Hbe Hd. destruct (child_list_ok _ _ H) as (Hp & Ho & Hr & Hl & Hs). destruct H as [_ Hk].
  unfold lkind in Hk. cbn [last_step] in Hk. destruct (kind E (EStep ax t ps)) as [[q| |]|] eqn:Hkd; try discriminate.
  rewrite ok_false_estep in Ho.
  destruct (step_total E Create ax t ps q Ho Hkd (preds_total E ps) Htm [] d d ins eq_refl Hd) as (d' & x & Hb).
  destruct (step_build E Create ax t ps q ins Ho Hkd (preds_ok E ps) [] d d d' x eq_refl Hd Hb) as (K & T1 & T2 & T3 & -> & ->).
  exists K. cbn [upd_at app] in Hb |- *. set (i := ins_index ins d) in *.
  assert (Hi : i <= length (kids_of d)) by (unfold i, ins_index; destruct ins; lia).
  assert (HK : tag_of K <> None) by congruence.
  assert (Hkids : kids_of (insert_kid i K d) = insert_nth i (K, None) (kids_of d)) by (destruct d; [reflexivity|contradiction]).
  split; [exact Hb|]. split; [assumption|]. split; [apply (leafy_attr_only E ps K T3); [exact Hbe|assumption]|]. split; [apply T3|]. split; [assumption|].
  cbn [spine]. split; [|split].
  - rewrite !snodes_single, Hkids, (filter_insert _ i (K, None)) by exact T2. now rewrite map_insert.
  - assert (Hf : firstn i (kids_of d) = firstn i (kids_of (insert_kid i K d))).
    { rewrite Hkids. unfold insert_nth. rewrite firstn_app, firstn_firstn, Nat.min_id, firstn_length, Nat.min_l, Nat.sub_diag by lia. cbn. now rewrite app_nil_r. }
    rewrite Hf. apply (pos_sel1 E _ _ i (K, None)); [|assumption]. rewrite Hkids. now apply nth_insert.
  - cbn [get_at]. rewrite Hkids, nth_insert by assumption. reflexivity.
Qed.

Lemma filter_firstn_S {A} (P : A -> bool) p x l : nth_error l p = Some x -> P x = true -> length (filter P (firstn (S p) l)) = S (length (filter P (firstn p l))).
Proof.
  revert l. induction p as [|p IH]; intros [|y l] Hp Hx; try discriminate; cbn [nth_error] in Hp.
  - injection Hp as ->. cbn. now rewrite Hx.
  - specialize (IH l Hp Hx). cbn [firstn filter] in *. destruct (P y); cbn [length]; now rewrite IH.
Qed.

(** at most one element that the last step could start from *)
Definition parts1 (E : env) (e : expr) (d : node) : Prop :=
  match e with EBin l _ _ => length (sel E (spine l) d) <= 1 | _ => True end.

(** the document without the elements of the list (and the text after each): they are children of the object's node or, for a
    longer path, of the one element that the part before the last step reaches *)
Definition step1 (e : expr) : Prop := exists ax t ps, e = EStep ax t ps.
Definition unlisted (E : env) (r : expr) (n : node) : node := set_kids (filter (fun k : node * option str => negb (mstep E r (fst k)))) n.
Definition frameT : Type := option (addr * node).
Definition frame (E : env) (e : expr) (d : node) : frameT :=
  match e with
  | EBin l _ r => match sel E (spine l) d with [a] => Some (a, upd_at a (unlisted E r) d) | _ => None end
  | _ => Some ([], unlisted E e d)
  end.

Lemma unlisted_insert E e i K d : mstep E e K = true -> unlisted E e (insert_kid i K d) = unlisted E e d.
Proof.
  intros H. unfold unlisted. destruct d as [q a t ks|]; [|reflexivity]. cbn. f_equal. unfold insert_nth. rewrite filter_app. cbn. rewrite H. cbn.
  now rewrite <- filter_app, firstn_skipn.
Qed.
Lemma frame_insert E e i K d : step1 e -> mstep E e K = true -> frame E e (insert_kid i K d) = frame E e d.
Proof. intros (ax & t & ps & ->) H. unfold frame. now rewrite unlisted_insert. Qed.

Definition last_ins (l : list item) : option (option nat) :=
  match last_item l with
  | Some i => match item_pos i with Ret (_, p) => Some (Some (p + 1)) | Exc _ => None end
  | None => Some None
  end.

Lemma snoc_inv {A} (l : list A) : l = [] \/ exists l' x, l = l' ++ [x].
Proof. destruct (rev l) as [|x r] eqn:Er; [left; now rewrite <- (rev_involutive l), Er|]. right. exists (rev r), x. now rewrite <- (rev_involutive l), Er. Qed.

Lemma last_item_snoc l x : last_item (l ++ [x]) = Some x.
Proof. unfold last_item. now rewrite rev_app_distr. Qed.

Lemma item_pos_snoc c j n : item_pos (IElem (c ++ [j]) n) = Ret (c, j).
Proof. unfold item_pos. rewrite rev_app_distr. cbn. now rewrite rev_involutive. Qed.


Lemma sel_snoc_inv E ss r d b : In b (sel E (ss ++ [r]) d) ->
  exists c j n x, b = c ++ [j] /\ In c (sel E ss d) /\ get_at c d = Some n /\ nth_error (kids_of n) j = Some x /\ mstep E r (fst x) = true /\ In [j] (sel E [r] n).
Proof.
  rewrite sel_app. intros H. apply in_flat_map in H as (c & Hc & H). destruct (get_at c d) as [n|] eqn:Eg; [|contradiction].
  apply in_map_iff in H as (y & <- & Hy). destruct (In_sel_cons _ _ _ _ _ Hy) as (j & x & b' & -> & Hj & Hm & Hb'). cbn in Hb'.
  destruct Hb' as [<-|[]]. exists c, j, n, x. repeat split; auto.
Qed.

Lemma child_last E e d b : child_list E e -> In b (sel E (spine e) d) -> exists c j, b = c ++ [j].
Proof.
  intros H Hb. destruct (child_list_ok _ _ H) as (Hp & _). destruct H as [_ Hk]. destruct e; try discriminate Hp.
  - cbn [spine] in Hb. destruct (sel_snoc_inv _ _ _ _ _ Hb) as (c & j & _ & _ & -> & _). eauto.
  - cbn [spine] in Hb. destruct (sel_snoc_inv _ [] _ _ _ Hb) as (c & j & _ & _ & -> & _). eauto.
  - discriminate Hk.
Qed.

Lemma matches_snoc E e d l it : child_list E e -> matches E e d = Ret (l ++ [it]) ->
  exists c j n, it = IElem (c ++ [j]) n /\ nth_error (sel E (spine e) d) (length l) = Some (c ++ [j]) /\ get_at (c ++ [j]) d = Some n.
Proof.
  intros H Hm. pose proof (matches_length _ _ _ _ H Hm) as Hlen. rewrite app_length in Hlen. cbn in Hlen.
  destruct (nth_error (snodes E (spine e) d) (length l)) as [n|] eqn:En.
  2:{ apply nth_error_None in En. lia. }
  destruct (matches_nth _ _ _ _ _ _ H Hm En) as (b & Hb & Hg & Hi). rewrite nth_error_app2, Nat.sub_diag in Hi by lia. cbn in Hi. injection Hi as ->.
  destruct (child_last _ _ _ _ H (nth_error_In _ _ Hb)) as (c & j & ->). exists c, j, n. auto.
Qed.

Lemma last_ins_some E e d l : child_list E e -> matches E e d = Ret l -> exists ins, last_ins l = Some ins.
Proof.
  intros H Hm. destruct (snoc_inv l) as [->|(l' & it & ->)]; [exists None; reflexivity|].
  destruct (matches_snoc _ _ _ _ _ H Hm) as (c & j & n & -> & _). unfold last_ins. rewrite last_item_snoc, item_pos_snoc. eauto.
Qed.

(** appending below the only match of the left part *)
Lemma slash_append E l ax t ps ins d : let e := EBin l (u "/") (EStep ax t ps) in
  child_list E e -> tame E xml_valid e = true -> bare_end E e = true -> tag_of d <> None -> parts1 E e d ->
  exists d1 b K, build E Create e (Some doc_root) ins d = (d1, Ret (Some (RElem b))) /\
    snodes E (spine e) d1 = snodes E (spine e) d ++ [K] /\ nth_error (sel E (spine e) d1) (length (snodes E (spine e) d)) = Some b /\ get_at b d1 = Some K /\
    tag_of K <> None /\ kids_of K = [] /\ tag_of d1 <> None /\ parts1 E e d1 /\ (frame E e d <> None -> frame E e d1 = frame E e d).
Proof.
  intros e H Htm Hbe Hd H1. destruct (child_list_ok _ _ H) as (Hp & Ho & Hr & Hl & Hs). destruct H as [_ Hk0]. unfold e in *. clear e.
  destruct (ok_slash _ _ _ _ Ho) as (O1 & _ & O3 & O4).
  rewrite (lkind_slash E l _ _ _ _ eq_refl) in Hk0. destruct (kind E (EStep ax t ps)) as [[q| |]|] eqn:Hk; try discriminate.
  destruct (rereadable_bin _ _ _ Hr) as [Hr1 _].
  pose proof (joins_path _ _ _ _ O4 O1) as Hpl. pose proof (joins_left _ _ _ _ O4 O1) as Hjl.
  pose proof (spine_ok _ _ _ Hpl O1 Hjl) as Hso. pose proof (spine_last _ _ _ _ _ O1 O4 Hk) as Hla.
  cbn [tame] in Htm. rewrite slash_ne_eq in Htm. apply andb_prop in Htm as [T1 T2].
  unfold parts1 in *. cbn [spine].
  (* the left part, found or created *)
  assert (exists d0 b0 n0, bind (reading (find_node E l (Some doc_root)))
          (fun ln => match ln with Some _ => ret ln | None => build E Create l (Some doc_root) None end) d = (d0, Ret (Some (RElem b0))) /\
          sel E (spine l) d0 = [b0] /\ get_at b0 d0 = Some n0 /\ tag_of n0 <> None /\ tag_of d0 <> None /\
          snodes E (spine l ++ [EStep ax t ps]) d = snodes E [EStep ax t ps] n0 /\ (sel E (spine l) d <> [] -> d0 = d)) as (d0 & b0 & n0 & Hln & L1 & L2 & L3 & L4 & L5 & L6).
  { unfold doc_root in *. unfold bind, reading. rewrite (find_elems _ _ _ [] d d Hpl O1 Hjl Hr1 eq_refl).
    destruct (sel E (spine l) d) as [|b0 rest] eqn:Es; cbn [head_ref].
    - destruct (create_total E true l Hpl O1 Hjl Hr1 T1 d Hd Es) as (d0 & x & Hb). change (Some (RElem [])) with (Some doc_root). rewrite Hb.
      destruct (create_spec E true l Hpl O1 Hjl Hr1 d d0 x Hd Es Hb) as (b0 & n0 & K & b1 & m & C1 & C2 & C3 & C4 & C5 & C6 & C7 & C8 & C9).
      exists d0, (b0 ++ length (kids_of n0) :: b1), m. rewrite C7. split; [reflexivity|]. split; [exact C9|].
      split; [subst d0; rewrite get_at_app, (get_upd_same _ _ _ _ C1), get_append; assumption|]. split; [assumption|].
      split; [subst d0; rewrite tag_upd_at; [assumption|]; intros _; apply tag_append|].
      pose proof (sel_snodes_length E (spine l) d) as G. rewrite Es in G. rewrite snodes_app. destruct (snodes E (spine l) d); [|discriminate].
      assert (Hz : sel E [EStep ax t ps] m = []).
      { apply (leafy_none E (last_preds l) m _ q C8 Hk).
        destruct (joins_preds _ _ _ _ O4 Hk) as [->|[Ha|(aa & ->)]]; [cbn in Es; discriminate|exact Ha|cbn in Es; discriminate]. }
      pose proof (sel_snodes_length E [EStep ax t ps] m) as G2. rewrite Hz in G2. destruct (snodes E [EStep ax t ps] m); [|discriminate]. split; [reflexivity|]. intros G3. now destruct G3.
    - destruct rest as [|? ?]; [|cbn in H1; lia]. destruct (In_sel_get E (spine l) d b0) as [n0 Hg]; [rewrite Es; now left|].
      exists d, b0, n0. split; [reflexivity|]. split; [assumption|]. split; [assumption|].
      split; [eapply sel_tag; eauto; rewrite Es; now left|]. split; [assumption|].
      pose proof (sel_snodes E (spine l) d) as G. rewrite Es in G. cbn in G. rewrite Hg in G.
      rewrite snodes_app. destruct (snodes E (spine l) d) as [|y [|? ?]]; try discriminate. cbn in G. injection G as <-. cbn [flat_map]. split; [apply app_nil_r|]. reflexivity. }
  destruct (step_total E Create ax t ps q O3 Hk (preds_total E ps) T2 b0 d0 n0 None L2 L3) as (d1 & x & Hb).
  destruct (step_build E Create ax t ps q None O3 Hk (preds_ok E ps) b0 d0 n0 d1 x L2 L3 Hb) as (K & B1 & B2 & B3 & B4 & B5).
  cbn [ins_index] in B4, B5. rewrite (upd_at_ext _ _ (append_kid K) _ _ L2 (insert_at_end K n0)) in B4.
  exists d1, (b0 ++ [length (kids_of n0)]), K.
  assert (Hsel : sel E (spine l) d1 = [b0]).
  { rewrite B4, <- L1. apply (sel_upd E (KChild q)); auto; [rewrite L1; now left|]. intros; now apply sim_append. }
  assert (Hg1 : get_at b0 d1 = Some (append_kid K n0)) by (rewrite B4; now rewrite (get_upd_same _ _ _ _ L2)).
  assert (Hsn : snodes E (spine l) d1 = [append_kid K n0]).
  { pose proof (sel_snodes E (spine l) d1) as G. rewrite Hsel in G. cbn in G. rewrite Hg1 in G.
    destruct (snodes E (spine l) d1) as [|y [|? ?]]; try discriminate. cbn in G |- *. congruence. }
  assert (Hap : snodes E [EStep ax t ps] (append_kid K n0) = snodes E [EStep ax t ps] n0 ++ [K]).
  { rewrite !snodes_single, (kids_append K n0 L3), filter_app, map_app. cbn [filter fst]. now rewrite B2. }
  split; [|split; [|split; [|split; [|split; [|split; [|split; [|split]]]]]]].
  - remember (EStep ax t ps) as st. cbn [build]. rewrite str_eqb_refl.
    unfold bind in *. unfold reading in *. destruct (find_node E l (Some doc_root) d) as [fr|]; [|discriminate]. rewrite Hln. rewrite <- B5. exact Hb.
  - rewrite L5, snodes_app, Hsn. cbn [flat_map]. now rewrite app_nil_r.
  - rewrite sel_app, Hsel. cbn [flat_map]. rewrite Hg1, app_nil_r, (sel_append E (EStep ax t ps) [] K n0 L3), B2, map_app, nth_error_app2;
      rewrite map_length, L5, <- sel_snodes_length; [|lia]. rewrite Nat.sub_diag. reflexivity.
  - rewrite get_at_app, Hg1. exact (get_append K n0 [] L3).
  - congruence.
  - apply (leafy_attr_only E ps K B3); [now apply andb_prop in Hbe|congruence].
  - subst d1. rewrite tag_upd_at; [assumption|]. intros _. apply tag_append.
  - rewrite Hsel. cbn. lia.
  - unfold frame. rewrite Hsel. intros HF. destruct (sel E (spine l) d) as [|a [|? ?]] eqn:Es; try (now destruct HF). rewrite (L6 ltac:(discriminate)) in *.
    rewrite L1 in Es. injection Es as <-. rewrite B4, upd_upd_same. do 2 f_equal. apply (upd_at_ext _ _ _ _ _ L2).
    rewrite <- (insert_at_end K n0). now apply unlisted_insert.
Qed.

(** the build done by an append *)
Lemma append_build E e d l : child_list E e -> tame E xml_valid e = true -> bare_end E e = true -> tag_of d <> None -> parts1 E e d ->
  matches E e d = Ret l ->
  exists ins d1 b K, last_ins l = Some ins /\
    build E Create e (Some doc_root) ins d = (d1, Ret (Some (RElem b))) /\
    snodes E (spine e) d1 = snodes E (spine e) d ++ [K] /\ nth_error (sel E (spine e) d1) (length l) = Some b /\ get_at b d1 = Some K /\
    tag_of K <> None /\ kids_of K = [] /\ tag_of d1 <> None /\ parts1 E e d1 /\ (frame E e d <> None -> frame E e d1 = frame E e d).
Proof.
  intros H Htm Hbe Hd H1 Hm. destruct (child_list_ok _ _ H) as (Hp & Ho & Hr & Hl & Hs).
  pose proof (matches_length _ _ _ _ H Hm) as Hlen. destruct (last_ins_some _ _ _ _ H Hm) as (ins & Hins). exists ins. rewrite Hlen.
  destruct e; try discriminate Hp; [| |destruct H; discriminate].
  - cbn [is_path] in Hp. apply str_eqb_eq in Hp. subst op. destruct (ok_slash _ _ _ _ Ho) as (_ & (ax & t & ps & ->) & _).
    destruct (slash_append E e1 ax t ps ins d H Htm Hbe Hd H1) as (d1 & b & K & B). exists d1, b, K. split; [assumption|].
    destruct B as (B1 & B2 & B3 & B4 & B5 & B6 & B7 & B8 & B9). repeat match goal with |- _ /\ _ => split end; auto.
  - destruct (step_insert E _ d ins (ex_intro _ _ (ex_intro _ _ (ex_intro _ _ eq_refl))) H Htm Hbe Hd) as (K & B1 & B2 & B3 & _ & B4 & B5 & B6 & B7).
    set (i := ins_index ins d) in *. exists (insert_kid i K d), [i], K. split; [assumption|]. split; [exact B1|].
    match type of B5 with _ = insert_nth ?c _ _ => assert (Hc : c = length (snodes E (spine (EStep axis node_test predicates)) d)) end.
    { cbn [spine]. rewrite snodes_single, map_length. destruct (snoc_inv l) as [->|(l' & it & ->)].
      - cbn in Hins. injection Hins as <-. unfold i. cbn [ins_index]. now rewrite firstn_all.
      - destruct (matches_snoc _ _ _ _ _ H Hm) as (c & j & n & -> & Hj & _). unfold last_ins in Hins. rewrite last_item_snoc, item_pos_snoc in Hins. injection Hins as <-.
        cbn [spine] in Hj. destruct (sel1_pos _ _ _ _ _ Hj) as (p & x & Heq & Hpx & Hmx & Hcount).
        destruct c as [|? [|? ?]]; cbn in Heq; try discriminate. injection Heq as <-.
        unfold i. cbn [ins_index]. rewrite Nat.add_1_r. pose proof (nth_lt _ _ _ Hpx). rewrite Nat.min_l by lia.
        rewrite (filter_firstn_S _ j x) by assumption. rewrite Hcount. rewrite app_length in Hlen. cbn [length spine] in Hlen. rewrite snodes_single, map_length in Hlen. lia. }
    rewrite Hc in B5, B6. split; [rewrite B5; unfold insert_nth; now rewrite firstn_all, skipn_all|].
    split; [exact B6|]. split; [exact B7|]. split; [assumption|]. split; [assumption|]. split; [now destruct d|]. split; [exact I|]. intros _. apply frame_insert; [unfold step1; eauto|assumption].
Qed.

(** ** the simulation *)
Record LI (E : env) (e : expr) (m : mapper) (R : frameT) (d : node) (vs : list pyval) : Prop := {
  li_tag : tag_of d <> None;
  li_data : mapR (val m) (snodes E (spine e) d) = Ret vs;
  li_leaf : forall n, In n (snodes E (spine e) d) -> kids_of n = [];
  li_parts : parts1 E e d;
  li_frame : R <> None -> frame E e d = R }.

(** paths new elements can be made for *)
Definition growable (E : env) (e : expr) : Prop := child_list E e /\ tame E xml_valid e = true /\ bare_end E e = true.

Lemma snodes_left_upd E l ax t ps d b f : let e := EBin l (u "/") (EStep ax t ps) in child_list E e -> In b (sel E (spine e) d) ->
  (forall m, get_at b d = Some m -> tag_of (f m) = tag_of m) -> sel E (spine l) (upd_at b f d) = sel E (spine l) d.
Proof.
  intros e H Hb Hf. destruct (child_list_ok _ _ H) as (Hp & Ho & Hr & Hl & Hs). destruct H as [_ Hk0]. unfold e in *. clear e.
  destruct (ok_slash _ _ _ _ Ho) as (O1 & _ & O3 & O4).
  rewrite (lkind_slash E l _ _ _ _ eq_refl) in Hk0. destruct (kind E (EStep ax t ps)) as [[q| |]|] eqn:Hk; try discriminate.
  pose proof (joins_path _ _ _ _ O4 O1) as Hpl. pose proof (joins_left _ _ _ _ O4 O1) as Hjl.
  pose proof (spine_ok _ _ _ Hpl O1 Hjl) as Hso. pose proof (spine_last _ _ _ _ _ O1 O4 Hk) as Hla.
  cbn [spine] in Hb. destruct (sel_snoc_inv _ _ _ _ _ Hb) as (c & j & n & x & -> & Hc & Hg & Hj & Hm & Hin).
  rewrite upd_at_app. apply (sel_upd E (KChild q)); auto. intros m Hm'. rewrite Hg in Hm'. injection Hm' as <-.
  apply (sim_upd E (EStep ax t ps) [] q); auto. intros y Hy. apply Hf. now rewrite get_at_app, Hg.
Qed.

Lemma parts1_upd E e d b f : child_list E e -> In b (sel E (spine e) d) -> (forall m, get_at b d = Some m -> tag_of (f m) = tag_of m) ->
  parts1 E e d -> parts1 E e (upd_at b f d).
Proof.
  intros H Hb Hf H1. destruct (child_list_ok _ _ H) as (Hp & Ho & _). destruct e; try exact I. cbn [is_path] in Hp. apply str_eqb_eq in Hp. subst op.
  destruct (ok_slash _ _ _ _ Ho) as (_ & (ax & t & ps & ->) & _). unfold parts1 in *. now rewrite (snodes_left_upd E e1 ax t ps d b f H Hb Hf).
Qed.

Lemma left_remove E l ax t ps d c j : let e := EBin l (u "/") (EStep ax t ps) in child_list E e -> In (c ++ [j]) (sel E (spine e) d) ->
  sel E (spine l) (upd_at c (remove_kid j) d) = sel E (spine l) d.
Proof.
  intros e H Hb. destruct (child_list_ok _ _ H) as (Hp & Ho & _). unfold e in *. clear e.
  destruct (ok_slash _ _ _ _ Ho) as (O1 & _ & O3 & O4). destruct H as [_ Hk0].
  rewrite (lkind_slash E _ _ _ _ _ eq_refl) in Hk0. destruct (kind E (EStep ax t ps)) as [[q| |]|] eqn:Hk; try discriminate.
  pose proof (joins_path _ _ _ _ O4 O1) as Hpl. pose proof (joins_left _ _ _ _ O4 O1) as Hjl.
  pose proof (spine_ok _ _ _ Hpl O1 Hjl) as Hso. pose proof (spine_last _ _ _ _ _ O1 O4 Hk) as Hla.
  cbn [spine] in Hb. destruct (sel_snoc_inv _ _ _ _ _ Hb) as (c' & j' & n & x & Heq & Hc & Hg & Hj & Hm & Hin).
  apply app_inj_tail in Heq as [-> ->]. rewrite (sel_upd E (KChild q)); auto. intros m Hm'. rewrite Hg in Hm'. injection Hm' as <-.
  apply (sim_remove q j' n x Hj). unfold has_tag. now rewrite (mstep_tag _ _ _ _ Hk Hm), qeqb_refl.
Qed.
Lemma parts1_remove E e d c j : child_list E e -> In (c ++ [j]) (sel E (spine e) d) -> parts1 E e d -> parts1 E e (upd_at c (remove_kid j) d).
Proof.
  intros H Hb H1. destruct (child_list_ok _ _ H) as (Hp & Ho & _). destruct e; try exact I. cbn [is_path] in Hp. apply str_eqb_eq in Hp. subst op.
  destruct (ok_slash _ _ _ _ Ho) as (O1 & (ax & t & ps & ->) & O3 & O4). unfold parts1 in *. now rewrite (left_remove E e1 ax t ps d c j H Hb).
Qed.

Lemma in_upd_nth {A} (f : A -> A) : forall i l x, In x (upd_nth i f l) -> In x l \/ exists y, In y l /\ x = f y.
Proof.
  induction i as [|i IH]; intros [|y l] x H; cbn in *; try contradiction.
  - destruct H as [<-|H]; [right; eauto|auto].
  - destruct H as [<-|H]; [auto|]. destruct (IH _ _ H) as [G|(z & G & ->)]; [auto|]. right. eauto.
Qed.
Lemma in_remove_nth {A} i (l : list A) x : In x (remove_nth i l) -> In x l.
Proof.
  revert l. induction i as [|i IH]; intros [|y l] H; cbn in *; auto. destruct H as [<-|H]; [auto|]. right. now apply IH.
Qed.

Lemma unlisted_set E ax t ps n j x v : child_list E (EStep ax t ps) -> nth_error (kids_of n) j = Some x -> mstep E (EStep ax t ps) (fst x) = true ->
  unlisted E (EStep ax t ps) (upd_at [j] (set_text v) n) = unlisted E (EStep ax t ps) n.
Proof.
  intros H Hp Hm. pose proof (avoid_text_spine _ _ H) as Ha. destruct (child_list_ok _ _ H) as (_ & Ho & _). rewrite ok_false_estep in Ho.
  destruct n as [q a tx ks|]; [|destruct j; discriminate]. unfold unlisted. cbn [upd_at kids_of set_kids spine] in *. f_equal.
  apply filter_upd_nth. intros y Hy. rewrite Hp in Hy. injection Hy as <-. cbn [fst].
  assert (Hx : mstep E (EStep ax t ps) (fst x) = mstep E (EStep ax t ps) (set_text v (fst x))); [|rewrite <- Hx, Hm; auto].
  apply (mstep_sim E KText); [apply sim_set_text|assumption|exact Ha].
Qed.
Lemma unlisted_remove E r n j x : nth_error (kids_of n) j = Some x -> mstep E r (fst x) = true -> unlisted E r (remove_kid j n) = unlisted E r n.
Proof.
  intros Hp Hm. destruct n as [q a tx ks|]; [|destruct j; discriminate]. unfold unlisted. cbn [remove_kid kids_of set_kids] in *. f_equal.
  apply (filter_remove_nth _ ks j x Hp). now rewrite Hm.
Qed.
Lemma child_list_last E l ax t ps : child_list E (EBin l (u "/") (EStep ax t ps)) -> child_list E (EStep ax t ps).
Proof.
  intros H. destruct (child_list_ok _ _ H) as (_ & Ho & Hr & _). destruct (ok_slash _ _ _ _ Ho) as (O1 & _ & O3 & _). destruct (rereadable_bin _ _ _ Hr) as [_ Hr2].
  destruct H as [_ Hk]. rewrite (lkind_slash E _ _ _ _ _ eq_refl) in Hk. split; [|exact Hk]. unfold supported_path. cbn [is_path].
  rewrite ok_false_estep, O3, Hr2. reflexivity.
Qed.

(** what a change at the end of the list's path does to the frame *)
Lemma frame_upd E e d c j x f : child_list E e -> In (c ++ [j]) (sel E (spine e) d) ->
  (forall l ax t ps, e = EBin l (u "/") (EStep ax t ps) -> sel E (spine l) (upd_at c f d) = sel E (spine l) d) ->
  (forall n ax t ps, get_at c d = Some n -> nth_error (kids_of n) j = Some x -> child_list E (EStep ax t ps) -> mstep E (EStep ax t ps) (fst x) = true ->
     unlisted E (EStep ax t ps) (f n) = unlisted E (EStep ax t ps) n) ->
  (forall n, get_at c d = Some n -> nth_error (kids_of n) j = Some x) ->
  frame E e d <> None -> frame E e (upd_at c f d) = frame E e d.
Proof.
  intros H Hb Hsel Hst Hx HF. destruct (child_list_ok _ _ H) as (Hp & Ho & _). pose proof (child_list_last) as HL.
  destruct e; try discriminate Hp; [| |destruct H; discriminate].
  - cbn [is_path] in Hp. apply str_eqb_eq in Hp. subst op. destruct (ok_slash _ _ _ _ Ho) as (_ & (ax & t & ps & ->) & _).
    cbn [spine] in Hb. destruct (sel_snoc_inv _ _ _ _ _ Hb) as (c' & j' & n & y & Heq & Hc & Hg & Hj & Hm & Hin). apply app_inj_tail in Heq as [<- <-].
    pose proof (Hx n Hg) as Hx'. rewrite Hj in Hx'. injection Hx' as ->.
    unfold frame in *. rewrite (Hsel _ _ _ _ eq_refl). destruct (sel E (spine e1) d) as [|a [|? ?]]; try (now destruct HF). destruct Hc as [<-|[]].
    rewrite upd_upd_same. do 2 f_equal. apply (upd_at_ext _ _ _ _ _ Hg). apply Hst; auto. exact (HL _ _ _ _ _ H).
  - cbn [spine] in Hb. destruct (sel_snoc_inv E [] _ _ _ Hb) as (c' & j' & n & y & Heq & Hc & Hg & Hj & Hm & Hin). apply app_inj_tail in Heq as [<- <-].
    cbn in Hc. destruct Hc as [<-|[]]. cbn in Hg. injection Hg as ->.
    pose proof (Hx n eq_refl) as Hx'. rewrite Hj in Hx'. injection Hx' as ->. unfold frame. cbn [upd_at]. do 2 f_equal. now apply Hst.
Qed.
Lemma frame_set E e d b v : child_list E e -> In b (sel E (spine e) d) -> frame E e d <> None -> frame E e (upd_at b (set_text v) d) = frame E e d.
Proof.
  intros H Hb. destruct (child_last _ _ _ _ H Hb) as (c & j & ->). destruct (In_sel_get _ _ _ _ Hb) as [k Hg].
  rewrite get_at_app in Hg. destruct (get_at c d) as [n|] eqn:Hc; [|discriminate]. cbn [get_at] in Hg. destruct (nth_error (kids_of n) j) as [x|] eqn:Hj; [|discriminate].
  rewrite upd_at_app. apply (frame_upd E e d c j x); auto.
  - intros l ax t ps ->. rewrite <- upd_at_app. apply (snodes_left_upd E l ax t ps d _ _ H Hb). intros; apply tag_set_text.
  - intros n' ax t ps Hn Hx Hl Hm. now apply (unlisted_set E ax t ps n' j x).
  - intros n' Hn. congruence.
Qed.
Lemma frame_remove E e d c j : child_list E e -> In (c ++ [j]) (sel E (spine e) d) -> frame E e d <> None -> frame E e (upd_at c (remove_kid j) d) = frame E e d.
Proof.
  intros H Hb. destruct (In_sel_get _ _ _ _ Hb) as [k Hg].
  rewrite get_at_app in Hg. destruct (get_at c d) as [n|] eqn:Hc; [|discriminate]. cbn [get_at] in Hg. destruct (nth_error (kids_of n) j) as [x|] eqn:Hj; [|discriminate].
  apply (frame_upd E e d c j x); auto.
  - intros l ax t ps ->. now apply (left_remove E l ax t ps).
  - intros n' ax t ps Hn Hx Hl Hm. now apply (unlisted_remove E _ n' j x).
  - intros n' Hn. congruence.
Qed.

(** storing [v] in the matched element at [b] *)
Lemma store E e m (R : frameT) d b k n v vs st : child_list E e -> storable m v -> nth_error (sel E (spine e) d) k = Some b -> get_at b d = Some n -> kids_of n = [] -> tag_of n <> None ->
  tag_of d <> None -> parts1 E e d -> (R <> None -> frame E e d = R) -> (forall n, In n (snodes E (spine e) d) -> kids_of n = []) ->
  mapR (val m) (upd_nth k (set_text (match to_xml m v with Ret s => s | Exc _ => None end)) (snodes E (spine e) d)) = Ret vs ->
  exists d', (match to_xml m v with Exc x => raise x | Ret s => set_in_xml E (Some (RElem b)) s st end) d = (d', Ret tt) /\ LI E e m R d' vs.
Proof.
  intros H (s & Hs & Hv & Hr) Hb Hg Hkn Htn Hd H1 HF Hlf Hdata. rewrite Hs in Hdata |- *.
  destruct (set_nth E e d k b n s st H Hb Hg Hkn Hv) as (d' & Hset & Hd' & Hsn & Hsel). exists d'. split; [exact Hset|]. split.
  - subst d'. rewrite tag_upd_at; [assumption|]. intros ->. apply tag_set_text.
  - now rewrite Hsn.
  - rewrite Hsn. intros x Hx. apply in_upd_nth in Hx as [Hx|(y & Hy & ->)]; [auto|]. rewrite kids_set_text. auto.
  - subst d'. apply parts1_upd; auto; [eapply nth_error_In; eauto|]. intros; apply tag_set_text.
  - intros HR. specialize (HF HR). rewrite <- HF. subst d'. apply frame_set; auto; [eapply nth_error_In; eauto|congruence].
Qed.

Lemma li_length E e m (R : frameT) d vs l : child_list E e -> LI E e m R d vs -> matches E e d = Ret l -> length l = length vs.
Proof. intros H L Hm. rewrite (matches_length _ _ _ _ H Hm). symmetry. exact (mapR_length _ _ _ (li_data _ _ _ _ _ _ L)). Qed.

Lemma data_LI E e m (R : frameT) d vs : child_list E e -> LI E e m R d vs -> list_data E e m d = Ret vs.
Proof. intros H L. rewrite list_data_snodes by assumption. apply L. Qed.

Lemma li_matches E e d : child_list E e -> exists l, matches E e d = Ret l.
Proof. intros H. rewrite matches_elems by assumption. eauto. Qed.

Lemma sim_setitem E e m (R : frameT) d vs k i v : child_list E e -> LI E e m R d vs -> storable m v -> at_index k (length vs) = Some i -> k <> Z.of_nat (length vs) ->
  exists d', list_setitem E e m k v d = (d', Ret tt) /\ LI E e m R d' (replace_at i v vs).
Proof.
  intros H L Hst Hi Hne. destruct (li_matches E e d H) as [l Hm]. pose proof (li_length _ _ _ _ _ _ _ H L Hm) as Hlen.
  pose proof (at_index_lt _ _ _ Hi) as Hlt.
  destruct (nth_error (snodes E (spine e) d) i) as [n|] eqn:En.
  2:{ apply nth_error_None in En. rewrite <- (mapR_length _ _ _ (li_data _ _ _ _ _ _ L)) in En. lia. }
  destruct (matches_nth _ _ _ _ _ _ H Hm En) as (b & Hb & Hg & Hl).
  assert (Hn : tag_of n <> None) by (eapply snodes_tag; eauto; [now destruct (child_list_ok _ _ H) as (_ & _ & _ & _ & ?)|apply L]).
  assert (Hkn : kids_of n = []) by (apply L; eapply nth_error_In; eauto).
  destruct (store E e m R d b i n v (replace_at i v vs) (terminal_step e) H Hst Hb Hg Hkn Hn) as (d' & Hset & HL); try apply L.
  { destruct Hst as (s & Hs & Hv & Hr). rewrite Hs. unfold replace_at. apply (mapR_upd _ _ _ _ _ n); [apply L|assumption|]. now apply val_text. }
  exists d'. split; [|exact HL]. unfold list_setitem. unfold bind at 1. unfold reading. rewrite Hm, Hlen.
  destruct (Z.eqb_spec k (Z.of_nat (length vs))); [contradiction|].
  destruct (Z.ltb_spec (Z.of_nat (length vs)) k).
  { exfalso. unfold at_index in Hi. destruct (Z.ltb_spec k 0); [lia|]. destruct (Z.leb_spec 0 k), (Z.ltb_spec k (Z.of_nat (length vs))); cbn in Hi; try discriminate; lia. }
  unfold py_nth. rewrite Hlen, <- at_index_py, Hi, Hl. cbn [ref_of]. unfold bind, ret. exact Hset.
Qed.

Lemma sim_setitem_end E e m (R : frameT) d vs v : growable E e -> LI E e m R d vs -> storable m v ->
  exists d', list_setitem E e m (Z.of_nat (length vs)) v d = (d', Ret tt) /\ LI E e m R d' (vs ++ [v]).
Proof.
  intros (H & Htm & Hbe) L Hst. destruct (li_matches E e d H) as [l Hm]. pose proof (li_length _ _ _ _ _ _ _ H L Hm) as Hlen.
  destruct (append_build E e d l H Htm Hbe (li_tag _ _ _ _ _ _ L) (li_parts _ _ _ _ _ _ L) Hm) as (ins & d1 & b & K & Hins & Hb & Hsn & Hnth & Hg & HtK & HkK & Hd1 & H1 & HF).
  assert (Hsl : length (snodes E (spine e) d) = length l) by (symmetry; eapply matches_length; eauto).
  destruct (store E e m R d1 b (length l) K v (vs ++ [v]) (terminal_step e) H Hst Hnth Hg HkK HtK Hd1 H1) as (d' & Hset & HL).
  { intros HR. pose proof (li_frame _ _ _ _ _ _ L HR) as G. rewrite HF; congruence. }
  { intros n. rewrite Hsn. intros Hn. apply in_app_or in Hn as [Hn|[<-|[]]]; [now apply L|assumption]. }
  { rewrite Hsn, <- Hsl, upd_nth_app_len. apply mapR_app; [apply L|]. apply mapR_cons; [|reflexivity].
    destruct Hst as (s & Hs & Hv & Hr). rewrite Hs. now apply val_text. }
  exists d'. split; [|exact HL]. unfold list_setitem. unfold bind at 1. unfold reading. rewrite Hm, Hlen, Z.eqb_refl.
  unfold last_ins in Hins. unfold bind. destruct (last_item l) as [it|].
  - destruct (item_pos it) as [[c p]|]; [|discriminate]. injection Hins as <-. rewrite Hb. exact Hset.
  - injection Hins as <-. rewrite Hb. exact Hset.
Qed.

Lemma setitem_out E e m (R : frameT) d vs k v : child_list E e -> LI E e m R d vs -> at_index k (length vs) = None -> k <> Z.of_nat (length vs) ->
  list_setitem E e m k v d = (d, Exc XIndex).
Proof.
  intros H L Hi Hne. destruct (li_matches E e d H) as [l Hm]. pose proof (li_length _ _ _ _ _ _ _ H L Hm) as Hlen.
  unfold list_setitem. unfold bind at 1. unfold reading. rewrite Hm, Hlen. destruct (Z.eqb_spec k (Z.of_nat (length vs))); [contradiction|].
  destruct (Z.ltb (Z.of_nat (length vs)) k); [reflexivity|]. unfold py_nth. now rewrite Hlen, <- at_index_py, Hi.
Qed.

Lemma sim_append_op E e m (R : frameT) d vs v : growable E e -> LI E e m R d vs -> storable m v ->
  exists d', list_append E e m v d = (d', Ret tt) /\ LI E e m R d' (vs ++ [v]).
Proof.
  intros G L Hst. destruct (sim_setitem_end E e m R d vs v G L Hst) as (d' & Hd & HL). exists d'. split; [|assumption].
  unfold list_append, bind, reading, list_len. rewrite (data_LI _ _ _ _ _ _ (proj1 G) L). exact Hd.
Qed.

Lemma sim_extend E e m (R : frameT) : growable E e -> forall us d vs, LI E e m R d vs -> (forall v, In v us -> storable m v) ->
  exists d', list_extend E e m us d = (d', Ret tt) /\ LI E e m R d' (vs ++ us).
Proof.
  intros G. induction us as [|v us IH]; intros d vs L Hst.
  - exists d. rewrite app_nil_r. split; [reflexivity|assumption].
  - destruct (sim_append_op E e m R d vs v G L (Hst v (or_introl eq_refl))) as (d1 & H1 & L1).
    destruct (IH d1 _ L1 (fun w Hw => Hst w (or_intror Hw))) as (d2 & H2 & L2). exists d2. rewrite <- app_assoc in L2. split; [|exact L2].
    unfold list_extend in *. cbn [iterM]. unfold bind. rewrite H1. exact H2.
Qed.

Lemma sim_del E e m (R : frameT) d vs k i : child_list E e -> LI E e m R d vs -> at_index k (length vs) = Some i ->
  exists d', list_delitem E e k d = (d', Ret tt) /\ LI E e m R d' (without i vs).
Proof.
  intros H L Hi. destruct (li_matches E e d H) as [l Hm]. pose proof (li_length _ _ _ _ _ _ _ H L Hm) as Hlen.
  pose proof (at_index_lt _ _ _ Hi) as Hlt.
  destruct (nth_error (snodes E (spine e) d) i) as [n|] eqn:En.
  2:{ apply nth_error_None in En. rewrite <- (mapR_length _ _ _ (li_data _ _ _ _ _ _ L)) in En. lia. }
  destruct (matches_nth _ _ _ _ _ _ H Hm En) as (b & Hb & Hg & Hl).
  destruct (child_last _ _ _ _ H (nth_error_In _ _ Hb)) as (c & j & ->).
  destruct (child_list_ok _ _ H) as (_ & _ & _ & _ & Hs). pose proof (snodes_remove E _ d i c j Hs Hb) as Hsn.
  exists (upd_at c (remove_kid j) d). split.
  - unfold list_delitem. unfold bind at 1. unfold reading. rewrite Hm, Hlen.
    destruct (Z.leb_spec (Z.of_nat (length vs)) k).
    { exfalso. unfold at_index in Hi. destruct (Z.ltb_spec k 0); [lia|]. destruct (Z.leb_spec 0 k), (Z.ltb_spec k (Z.of_nat (length vs))); cbn in Hi; try discriminate; lia. }
    unfold py_nth. rewrite Hlen, <- at_index_py, Hi, Hl, item_pos_snoc. reflexivity.
  - split.
    + rewrite tag_upd_at; [apply L|]. intros _. apply tag_remove.
    + rewrite Hsn. unfold without. apply mapR_remove. apply L.
    + rewrite Hsn. intros x Hx. apply L. eapply in_remove_nth; eauto.
    + apply parts1_remove; auto; [eapply nth_error_In; eauto|apply L].
    + intros HR. pose proof (li_frame _ _ _ _ _ _ L HR) as G. rewrite frame_remove; auto; [eapply nth_error_In; eauto|congruence].
Qed.

Lemma del_out E e m (R : frameT) d vs k : child_list E e -> LI E e m R d vs -> at_index k (length vs) = None -> list_delitem E e k d = (d, Exc XIndex).
Proof.
  intros H L Hi. destruct (li_matches E e d H) as [l Hm]. pose proof (li_length _ _ _ _ _ _ _ H L Hm) as Hlen.
  unfold list_delitem. unfold bind at 1. unfold reading. rewrite Hm, Hlen. destruct (Z.leb (Z.of_nat (length vs)) k); [reflexivity|].
  unfold py_nth. now rewrite Hlen, <- at_index_py, Hi.
Qed.

Lemma getitem_LI E e m (R : frameT) d vs k : child_list E e -> LI E e m R d vs ->
  list_getitem E e m k d = match at_index k (length vs) with Some i => match nth_error vs i with Some v => Ret v | None => Exc XIndex end | None => Exc XIndex end.
Proof.
  intros H L. destruct (li_matches E e d H) as [l Hm]. pose proof (li_length _ _ _ _ _ _ _ H L Hm) as Hlen.
  unfold list_getitem. rewrite Hm. unfold py_nth. rewrite Hlen, <- at_index_py. destruct (at_index k (length vs)) as [i|] eqn:Hi; [|reflexivity].
  pose proof (at_index_lt _ _ _ Hi) as Hlt.
  destruct (nth_error (snodes E (spine e) d) i) as [n|] eqn:En.
  2:{ apply nth_error_None in En. rewrite <- (mapR_length _ _ _ (li_data _ _ _ _ _ _ L)) in En. lia. }
  destruct (matches_nth _ _ _ _ _ _ H Hm En) as (b & Hb & Hg & Hl). rewrite Hl. cbn [item_in].
  destruct (mapR_nth _ _ _ _ _ (li_data _ _ _ _ _ _ L) En) as (y & Hy & Hv). rewrite Hy. exact Hv.
Qed.

Lemma index_find x l : index_eq x l = find_eq x l.
Proof. induction l as [|y l IH]; cbn; [reflexivity|]. rewrite IH. destruct (py_eq y x); [reflexivity|]. now destruct (find_eq x l). Qed.
Lemma find_lt x : forall l i, find_eq x l = Some i -> i < length l.
Proof.
  induction l as [|y l IH]; intros i H; cbn in *; [discriminate|]. destruct (py_eq y x); [injection H as <-; lia|].
  destruct (find_eq x l) as [j|]; [|discriminate]. injection H as <-. specialize (IH j eq_refl). lia.
Qed.

Theorem sim_op E e m (R : frameT) d vs o : growable E e -> LI E e m R d vs -> (forall v, In v (op_values o) -> storable m v) ->
  exists d', field_op E e m o d = (d', snd (py_op o vs)) /\ LI E e m R d' (fst (py_op o vs)).
Proof.
  intros G L Hv. pose proof (proj1 G) as H. destruct o as [k v|v|us|k|k|x]; cbn [field_op py_op].
  - destruct (Z.eqb_spec k (Z.of_nat (length vs))) as [->|Hne].
    + destruct (sim_setitem_end E e m R d vs v G L) as (d' & Hd & L'); [apply Hv; now left|]. exists d'. split; [|exact L']. unfold quiet, bind. now rewrite Hd.
    + destruct (at_index k (length vs)) as [i|] eqn:Hi.
      * destruct (sim_setitem E e m R d vs k i v H L) as (d' & Hd & L'); auto; [apply Hv; now left|]. exists d'. split; [|exact L']. unfold quiet, bind. now rewrite Hd.
      * exists d. split; [|exact L]. unfold quiet, bind. now rewrite (setitem_out E e m R d vs k v H L Hi Hne).
  - destruct (sim_append_op E e m R d vs v G L) as (d' & Hd & L'); [apply Hv; now left|]. exists d'. split; [|exact L']. unfold quiet, bind. now rewrite Hd.
  - destruct (sim_extend E e m R G us d vs L Hv) as (d' & Hd & L'). exists d'. split; [|exact L']. unfold quiet, bind. now rewrite Hd.
  - destruct (at_index k (length vs)) as [i|] eqn:Hi.
    + destruct (sim_del E e m R d vs k i H L Hi) as (d' & Hd & L'). exists d'. split; [|exact L']. unfold quiet, bind. now rewrite Hd.
    + exists d. split; [|exact L]. unfold quiet, bind. now rewrite (del_out E e m R d vs k H L Hi).
  - set (k' := match k with Some k => k | None => (-1)%Z end).
    assert (Hk : exists k2, at_index k2 (length vs) = at_index k' (length vs) /\ list_pop E e m k d =
      bind (reading (list_getitem E e m k2)) (fun v => bind (list_delitem E e k2) (fun _ => ret v)) d).
    { unfold list_pop. destruct k as [k|]; [exists k; split; [reflexivity|]; reflexivity|].
      exists (Z.of_nat (length vs) - 1)%Z. split.
      - unfold k', at_index. destruct (Z.ltb_spec (Z.of_nat (length vs) - 1) 0).
        + replace (Z.of_nat (length vs)) with 0%Z by lia. reflexivity.
        + cbn [Z.ltb Z.compare]. now replace (-1 + Z.of_nat (length vs))%Z with (Z.of_nat (length vs) - 1)%Z by lia.
      - unfold bind at 1 2 3. unfold reading at 1. unfold list_len. rewrite (data_LI _ _ _ _ _ _ H L). reflexivity. }
    destruct Hk as (k2 & Hk2 & Hp). rewrite <- Hk2. unfold bind at 1. rewrite Hp. unfold bind, reading. rewrite (getitem_LI E e m R d vs k2 H L).
    destruct (at_index k2 (length vs)) as [i|] eqn:Hi.
    + destruct (nth_error vs i) as [v|] eqn:En; [|apply nth_error_None in En; pose proof (at_index_lt _ _ _ Hi); lia].
      destruct (sim_del E e m R d vs k2 i H L Hi) as (d' & Hd & L'). exists d'. rewrite Hd. split; [reflexivity|exact L'].
    + exists d. split; [reflexivity|exact L].
  - unfold quiet, list_remove, bind, reading, list_index. rewrite (data_LI _ _ _ _ _ _ H L), index_find.
    destruct (find_eq x vs) as [i|] eqn:Hi; [|exists d; split; [reflexivity|exact L]].
    destruct (sim_del E e m R d vs (Z.of_nat i) i H L) as (d' & Hd & L'); [apply at_index_nat; eapply find_lt; eauto|]. exists d'. rewrite Hd. split; [reflexivity|exact L'].
Qed.

Theorem sim_ops E e m (R : frameT) : growable E e -> forall os d vs, LI E e m R d vs -> (forall o v, In o os -> In v (op_values o) -> storable m v) ->
  exists d', field_ops E e m os d = (d', snd (py_ops os vs)) /\ LI E e m R d' (fst (py_ops os vs)).
Proof.
  intros G. induction os as [|o os IH]; intros d vs L Hv; [exists d; split; [reflexivity|exact L]|].
  destruct (sim_op E e m R d vs o G L (fun v => Hv o v (or_introl eq_refl))) as (d1 & H1 & L1). cbn [field_ops py_ops].
  rewrite H1. destruct (py_op o vs) as [vs1 r]. cbn [fst snd] in *.
  destruct (IH d1 vs1 L1 (fun o' v' Ho' => Hv o' v' (or_intror Ho'))) as (d2 & H2 & L2). exists d2. rewrite H2. destruct (py_ops os vs1) as [vs2 rs]. cbn [fst snd] in *. auto.
Qed.

(** ** whole-list assignment *)
Lemma skipn_skipn {A} a : forall b (l : list A), skipn a (skipn b l) = skipn (a + b) l.
Proof.
  induction b as [|b IH]; intros l; [now rewrite Nat.add_0_r|]. rewrite Nat.add_succ_r. destruct l as [|x l]; [now rewrite !skipn_nil|]. cbn [skipn]. apply IH.
Qed.

Lemma replace_app_mid i (v : pyval) pre x old : length pre = i -> replace_at i v (pre ++ x :: old) = pre ++ v :: old.
Proof.
  intros <-. unfold replace_at. rewrite firstn_app, firstn_all, Nat.sub_diag. cbn [firstn]. rewrite app_nil_r. f_equal. f_equal.
  rewrite skipn_app, skipn_all2 by lia. replace (S (length pre) - length pre) with 1 by lia. reflexivity.
Qed.

Lemma sim_set_all E e m (R : frameT) : growable E e -> forall us pre old d, LI E e m R d (pre ++ old) -> (forall v, In v us -> storable m v) ->
  exists d', set_all E e m (length pre) us d = (d', Ret tt) /\ LI E e m R d' (pre ++ us ++ skipn (length us) old).
Proof.
  intros G. induction us as [|v us IH]; intros pre old d L Hv; [exists d; split; [reflexivity|exact L]|].
  assert (exists d1, list_setitem E e m (Z.of_nat (length pre)) v d = (d1, Ret tt) /\ LI E e m R d1 ((pre ++ [v]) ++ skipn 1 old)) as (d1 & H1 & L1).
  { destruct old as [|x old].
    - rewrite app_nil_r in L. cbn [skipn]. rewrite app_nil_r. apply sim_setitem_end; auto. apply Hv. now left.
    - cbn [skipn]. rewrite <- app_assoc. cbn [app]. rewrite <- (replace_app_mid (length pre) v pre x old eq_refl).
      apply sim_setitem; auto; try apply G; [apply Hv; now left| |]; rewrite app_length; cbn [length]; [apply at_index_nat; lia|lia]. }
  destruct (IH (pre ++ [v]) (skipn 1 old) d1 L1 (fun w Hw => Hv w (or_intror Hw))) as (d2 & H2 & L2). exists d2. split.
  - cbn [set_all]. unfold bind. rewrite H1. rewrite app_length in H2. cbn [length] in H2. now rewrite Nat.add_1_r in H2.
  - rewrite skipn_skipn, Nat.add_1_r, <- app_assoc in L2. exact L2.
Qed.

Lemma sim_trim E e m (R : frameT) n : growable E e -> forall fuel d vs, LI E e m R d vs -> length vs <= n + fuel ->
  exists d', trim E e m n fuel d = (d', Ret tt) /\ LI E e m R d' (firstn n vs).
Proof.
  intros G. pose proof (proj1 G) as H. induction fuel as [|f IH]; intros d vs L Hf.
  - exists d. rewrite firstn_all2 by lia. split; [|exact L]. cbn [trim]. unfold bind, reading, list_len. rewrite (data_LI _ _ _ _ _ _ H L). cbn [rmap].
    destruct (Nat.ltb_spec n (length vs)); [lia|reflexivity].
  - cbn [trim]. unfold bind at 1. unfold reading at 1. unfold list_len at 1. rewrite (data_LI _ _ _ _ _ _ H L). cbn [rmap].
    destruct (Nat.ltb_spec n (length vs)) as [Hlt|Hge].
    + destruct (sim_op E e m R d vs (LPop None) G L) as (d1 & H1 & L1); [intros v []|]. cbn [field_op py_op] in H1, L1.
      assert (Hi : at_index (-1) (length vs) = Some (Nat.pred (length vs))).
      { unfold at_index. cbn [Z.ltb Z.compare]. destruct (Z.leb_spec 0 (-1 + Z.of_nat (length vs))), (Z.ltb_spec (-1 + Z.of_nat (length vs)) (Z.of_nat (length vs))); try lia. cbn [andb]. f_equal. lia. }
      rewrite Hi in H1, L1. cbn [fst snd] in H1, L1.
      assert (Hw : without (Nat.pred (length vs)) vs = firstn (Nat.pred (length vs)) vs).
      { unfold without. rewrite skipn_all2 by lia. apply app_nil_r. }
      rewrite Hw in L1. unfold bind in H1 |- *. destruct (list_pop E e m None d) as [d1' [v|x]]; [|destruct (nth_error vs (Nat.pred (length vs))); discriminate].
      assert (d1' = d1) as -> by (unfold ret in H1; congruence).
      destruct (IH d1 _ L1) as (d2 & H2 & L2); [rewrite firstn_length; lia|]. exists d2. split; [exact H2|]. rewrite firstn_firstn, Nat.min_l in L2 by lia. exact L2.
    + exists d. rewrite firstn_all2 by lia. split; [reflexivity|exact L].
Qed.

Theorem sim_lmgr_set E e m (R : frameT) us d vs : growable E e -> LI E e m R d vs -> (forall v, In v us -> storable m v) ->
  exists d', lmgr_set E e m us d = (d', Ret tt) /\ LI E e m R d' us.
Proof.
  intros G L Hv. destruct (sim_set_all E e m R G us [] vs d L Hv) as (d1 & H1 & L1). cbn [length app] in H1, L1.
  destruct (sim_trim E e m R (length us) G (length (us ++ skipn (length us) vs)) d1 _ L1) as (d2 & H2 & L2); [lia|].
  exists d2. split.
  - unfold lmgr_set. unfold bind at 1. rewrite H1. unfold bind, reading, list_len. rewrite (data_LI _ _ _ _ _ _ (proj1 G) L1). exact H2.
  - rewrite firstn_app, firstn_all, Nat.sub_diag in L2. cbn [firstn] in L2. now rewrite app_nil_r in L2.
Qed.

(** ** deleting the whole list *)
Theorem sim_lmgr_delete E e m (R : frameT) d vs : child_list E e -> LI E e m R d vs -> (forall v, In v vs -> py_eq v v = true) ->
  exists d', lmgr_delete E e m d = (d', Ret tt) /\ LI E e m R d' [].
Proof.
  intros H L Hr. unfold lmgr_delete, bind at 1, reading at 1. rewrite (data_LI _ _ _ _ _ _ H L).
  revert d L Hr. induction vs as [|v vs IH]; intros d L Hr; [exists d; split; [reflexivity|exact L]|].
  cbn [iterM]. unfold bind at 1. unfold list_remove at 1, bind, reading, list_index. rewrite (data_LI _ _ _ _ _ _ H L). cbn [index_eq].
  rewrite (Hr v (or_introl eq_refl)). destruct (sim_del E e m R d (v :: vs) (Z.of_nat 0) 0 H L eq_refl) as (d1 & H1 & L1). rewrite H1.
  cbn [without firstn skipn app] in L1. apply (IH d1 L1). intros w Hw. apply Hr. now right.
Qed.

(** ** insert, for one-step paths *)
Lemma at_index_nonneg k n i : at_index k n = Some i -> (0 <= k)%Z -> k = Z.of_nat i.
Proof.
  unfold at_index. intros H Hk. destruct (Z.ltb_spec k 0); [lia|]. destruct (Z.leb_spec 0 k), (Z.ltb_spec k (Z.of_nat n)); cbn in H; try discriminate. injection H as <-. lia.
Qed.

Lemma insert_start E e m (R : frameT) d vs k i : step1 e -> growable E e -> LI E e m R d vs -> at_index k (length vs) = Some i ->
  exists d1 b K, (forall v, list_insert E e m k v d = list_setitem E e m k v d1) /\
    snodes E (spine e) d1 = insert_nth i K (snodes E (spine e) d) /\ nth_error (sel E (spine e) d1) i = Some b /\ get_at b d1 = Some K /\
    tag_of K <> None /\ kids_of K = [] /\ text_of K = None /\ tag_of d1 <> None /\ (R <> None -> frame E e d1 = R).
Proof.
  intros Hs (H & Htm & Hbe) L Hi. destruct (li_matches E e d H) as [l Hm]. pose proof (li_length _ _ _ _ _ _ _ H L Hm) as Hlen.
  pose proof (at_index_lt _ _ _ Hi) as Hlt.
  destruct (nth_error (snodes E (spine e) d) i) as [n|] eqn:En.
  2:{ apply nth_error_None in En. rewrite <- (mapR_length _ _ _ (li_data _ _ _ _ _ _ L)) in En. lia. }
  destruct (matches_nth _ _ _ _ _ _ H Hm En) as (b & Hb & Hg & Hl).
  destruct (child_last _ _ _ _ H (nth_error_In _ _ Hb)) as (c & j & ->).
  destruct (step_insert E e d (Some j) Hs H Htm Hbe (li_tag _ _ _ _ _ _ L)) as (K & B1 & B2 & B3 & B3' & B4 & B5 & B6 & B7).
  pose proof Hs as (ax & t & ps & He). rewrite He in Hb. cbn [spine] in Hb. rewrite <- He in Hb.
  destruct (sel1_pos _ _ _ _ _ Hb) as (p & x & Heq & Hpx & Hmx & Hcount). destruct c as [|? [|? ?]]; cbn in Heq; try discriminate. injection Heq as <-.
  pose proof (nth_lt _ _ _ Hpx) as Hj.
  assert (Hin : ins_index (Some j) d = j) by (cbn [ins_index]; apply Nat.min_l; lia). rewrite Hin, Hcount in *.
  exists (insert_kid j K d), [j], K. split; [|repeat match goal with |- _ /\ _ => split end; auto].
  - intros v. unfold list_insert. unfold bind at 1. unfold reading at 1. unfold list_len. rewrite (data_LI _ _ _ _ _ _ H L). cbn [rmap].
    destruct (Z.eqb_spec k (Z.of_nat (length vs))) as [->|Hne].
    { exfalso. unfold at_index in Hi. destruct (Z.ltb_spec (Z.of_nat (length vs)) 0); [lia|]. rewrite Z.ltb_irrefl, andb_false_r in Hi. discriminate. }
    unfold bind at 1. unfold reading. rewrite Hm, Hlen. destruct (Z.ltb_spec k (Z.of_nat (length vs))).
    2:{ exfalso. unfold at_index in Hi. destruct (Z.ltb_spec k 0); [lia|]. destruct (Z.leb_spec 0 k), (Z.ltb_spec k (Z.of_nat (length vs))); cbn in Hi; try discriminate; lia. }
    unfold py_nth. rewrite Hlen, <- at_index_py, Hi, Hl, item_pos_snoc. unfold bind. rewrite B1. reflexivity.
  - pose proof (li_tag _ _ _ _ _ _ L) as Hd. destruct d; [discriminate|contradiction].
  - intros HR. rewrite frame_insert by assumption. now apply L.
Qed.

Lemma insert_in {A} i (x : A) l y : In y (insert_nth i x l) -> y = x \/ In y l.
Proof.
  unfold insert_nth. intros H. rewrite <- (firstn_skipn i l). apply in_app_or in H as [H|[<-|H]]; auto; right; apply in_or_app; auto.
Qed.

Theorem sim_insert E e m (R : frameT) d vs k v : step1 e -> growable E e -> LI E e m R d vs -> storable m v -> (0 <= k <= Z.of_nat (length vs))%Z ->
  exists d', list_insert E e m k v d = (d', Ret tt) /\ LI E e m R d' (py_insert k v vs).
Proof.
  intros Hs G L Hst Hk. pose proof (proj1 G) as H. destruct (Z.eq_dec k (Z.of_nat (length vs))) as [->|Hne].
  - destruct (sim_append_op E e m R d vs v G L Hst) as (d' & Hd & L'). exists d'. split.
    + unfold list_insert. unfold bind, reading, list_len. rewrite (data_LI _ _ _ _ _ _ H L). cbn [rmap]. rewrite Z.eqb_refl. exact Hd.
    + unfold py_insert. cbv zeta. destruct (Z.ltb_spec (Z.of_nat (length vs)) 0); [lia|]. rewrite Z.min_id, Nat2Z.id, firstn_all, skipn_all. exact L'.
  - set (i := Z.to_nat k). assert (Hki : k = Z.of_nat i) by lia.
    assert (Hi : at_index k (length vs) = Some i) by (rewrite Hki; apply at_index_nat; lia).
    destruct (insert_start E e m R d vs k i Hs G L Hi) as (d1 & b & K & Heq & Hsn & Hb & Hg & HtK & HkK & _ & Hd1 & HF). rewrite Heq.
    pose proof (mapR_length _ _ _ (li_data _ _ _ _ _ _ L)) as Hl0.
    destruct (li_matches E e d1 H) as [l1 Hm1]. pose proof (matches_length _ _ _ _ H Hm1) as Hlen1.
    rewrite Hsn in Hlen1. unfold insert_nth in Hlen1. rewrite app_length in Hlen1. cbn [length] in Hlen1. rewrite firstn_length, skipn_length in Hlen1.
    assert (HK : nth_error (snodes E (spine e) d1) i = Some K) by (rewrite Hsn; apply nth_insert; lia).
    destruct (matches_nth _ _ _ _ _ _ H Hm1 HK) as (b' & Hb' & Hg' & Hl'). rewrite Hb in Hb'. injection Hb' as <-.
    destruct (store E e m R d1 b i K v (py_insert k v vs) (terminal_step e) H Hst Hb Hg HkK HtK Hd1) as (d' & Hset & HL).
    + destruct Hs as (ax & t & ps & ->). exact I.
    + auto.
    + rewrite Hsn. intros n Hn. apply insert_in in Hn as [->|Hn]; [assumption|]. now apply L.
    + rewrite Hsn, upd_insert by lia. unfold py_insert. cbv zeta. destruct (Z.ltb_spec k 0); [lia|]. rewrite Z.min_l by lia. fold i. apply (mapR_insert _ i); [apply L|].
      destruct Hst as (s & Hs' & Hv & Hr). rewrite Hs'. now apply val_text.
    + exists d'. split; [|exact HL]. unfold list_setitem. unfold bind at 1. unfold reading. rewrite Hm1.
      destruct (Z.eqb_spec k (Z.of_nat (length l1))); [lia|]. destruct (Z.ltb_spec (Z.of_nat (length l1)) k); [lia|].
      unfold py_nth. rewrite <- at_index_py, Hki, at_index_nat by lia. rewrite Hl'. cbn [ref_of]. unfold bind, ret. exact Hset.
Qed.

(** outside -len..len nothing happens *)
Theorem insert_out E e m (R : frameT) d vs k v : child_list E e -> LI E e m R d vs -> (k < - Z.of_nat (length vs) \/ Z.of_nat (length vs) < k)%Z ->
  list_insert E e m k v d = (d, Exc XIndex).
Proof.
  intros H L Hk. destruct (li_matches E e d H) as [l Hm]. pose proof (li_length _ _ _ _ _ _ _ H L Hm) as Hlen.
  unfold list_insert. unfold bind at 1. unfold reading at 1. unfold list_len. rewrite (data_LI _ _ _ _ _ _ H L). cbn [rmap].
  destruct (Z.eqb_spec k (Z.of_nat (length vs))); [lia|]. unfold bind at 1. unfold reading. rewrite Hm, Hlen.
  destruct (Z.ltb_spec k (Z.of_nat (length vs))); [|reflexivity]. unfold py_nth. rewrite Hlen.
  replace (py_idx k (length vs)) with (@None nat); [reflexivity|]. unfold py_idx. destruct (Z.leb_spec 0 k); [lia|]. destruct (Z.leb_spec 0 (k + Z.of_nat (length vs))); [lia|reflexivity].
Qed.

(** what a negative index really does: an empty element is put in, and the element that was at [k] is
    overwritten *)
Theorem insert_negative E e m (R : frameT) d vs k i v v0 : step1 e -> growable E e -> LI E e m R d vs -> storable m v ->
  (forall q ats, to_python m (Some (InElem (Elem q ats None []))) = Ret v0) -> (k < 0)%Z -> at_index k (length vs) = Some i ->
  exists d', list_insert E e m k v d = (d', Ret tt) /\ LI E e m R d' (firstn i vs ++ v0 :: v :: skipn (S i) vs).
Proof.
  intros Hs G L Hst Hv0 Hk Hi. pose proof (proj1 G) as H. pose proof (at_index_lt _ _ _ Hi) as Hlt.
  destruct (insert_start E e m R d vs k i Hs G L Hi) as (d1 & b & K & Heq & Hsn & Hb & Hg & HtK & HkK & HxK & Hd1 & HF).
  assert (L1 : LI E e m R d1 (firstn i vs ++ v0 :: skipn i vs)).
  { split; auto.
    - rewrite Hsn. apply (mapR_insert _ i); [apply L|]. destruct K as [qK aK tK kK|]; [|contradiction]. cbn in HkK, HxK. subst. apply Hv0.
    - rewrite Hsn. intros n Hn. apply insert_in in Hn as [->|Hn]; [assumption|]. now apply L.
    - destruct Hs as (ax & t & ps & ->). exact I. }
  assert (Hl1 : length (firstn i vs ++ v0 :: skipn i vs) = S (length vs)).
  { rewrite app_length. cbn [length]. rewrite firstn_length, skipn_length. lia. }
  assert (Hi1 : at_index k (S (length vs)) = Some (S i)).
  { unfold at_index in *. destruct (Z.ltb_spec k 0); [|lia]. destruct (Z.leb_spec 0 (k + Z.of_nat (length vs))), (Z.ltb_spec (k + Z.of_nat (length vs)) (Z.of_nat (length vs))); cbn in Hi; try discriminate.
    injection Hi as <-. destruct (Z.leb_spec 0 (k + Z.of_nat (S (length vs)))), (Z.ltb_spec (k + Z.of_nat (S (length vs))) (Z.of_nat (S (length vs)))); try lia. cbn [andb]. f_equal. lia. }
  destruct (sim_setitem E e m R d1 _ k (S i) v H L1 Hst) as (d' & Hd & L'); [now rewrite Hl1|lia|]. exists d'. rewrite Heq. split; [exact Hd|].
  replace (firstn i vs ++ v0 :: v :: skipn (S i) vs) with (replace_at (S i) v (firstn i vs ++ v0 :: skipn i vs)); [exact L'|].
  unfold replace_at. assert (Hf : length (firstn i vs) = i) by (rewrite firstn_length; lia).
  rewrite firstn_app, skipn_app, Hf. replace (S i - i) with 1 by lia. replace (S (S i) - i) with 2 by lia. rewrite firstn_firstn, Nat.min_r by lia.
  rewrite (skipn_all2 (firstn i vs)) by lia. cbn [firstn skipn app]. rewrite <- app_assoc. cbn [app].
  change (match skipn i vs with [] => [] | _ :: l => l end) with (skipn 1 (skipn i vs)). rewrite skipn_skipn. reflexivity.
Qed.
