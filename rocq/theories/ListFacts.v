(** From the simulation to the statements: the hypotheses in terms of [selects], and what the matched
    elements look like from outside. *)
From Coq Require Import String Arith ZArith Lia.
From Verif Require Export ListSim.
From Verif Require Import XPathEval FieldSpec DocSpec ListSpec.

Opaque u.

Lemma list_field_growable E e : list_field E e = true -> growable E e.
Proof.
  unfold list_field. intros H. apply andb_prop in H as [H H4]. apply andb_prop in H as [H H3]. apply andb_prop in H as [H1 H2].
  repeat split; auto.
Qed.

Lemma child_selects E e d : child_list E e -> selects E e d = elems_at [] d (sel E (spine e) d).
Proof. intros H. destruct (child_list_ok _ _ H) as (Hp & Ho & Hr & Hl & _). exact (selects_elems E true e d Hp Ho Hl). Qed.

Lemma in_elems a n d l : In (IElem a n) (elems_at [] d l) <-> In a l /\ get_at a d = Some n.
Proof.
  unfold elems_at. rewrite in_flat_map. split.
  - intros (b & Hb & H). destruct (get_at b d) as [m|] eqn:Eb; [|contradiction]. destruct H as [H|[]]. injection H as <- <-. auto.
  - intros [Ha Hg]. exists a. rewrite Hg. split; [assumption|]. now left.
Qed.

Lemma snodes_In E ss d n : In n (snodes E ss d) <-> exists a, In a (sel E ss d) /\ get_at a d = Some n.
Proof.
  split.
  - intros H. apply In_nth_error in H as [k Hk]. destruct (snodes_sel_nth _ _ _ _ _ Hk) as (b & Hb & Hg). exists b. split; [eapply nth_error_In; eauto|assumption].
  - intros (a & Ha & Hg). apply In_nth_error in Ha as [k Hk]. destruct (sel_snodes_nth _ _ _ _ _ Hk) as (m & Hm & Hg'). rewrite Hg in Hg'. injection Hg' as <-. eapply nth_error_In; eauto.
Qed.

Lemma holds_LI E e m d vs : child_list E e -> holds E e m d vs <-> LI E e m (frame E e d) d vs.
Proof.
  intros H. destruct (child_list_ok _ _ H) as (Hp & Ho & Hr & Hl & Hs).
  assert (HP : parts1 E e d <-> match e with EBin l _ _ => length (selects E l d) <= 1 | _ => True end).
  { unfold parts1. destruct e; try tauto. cbn [is_path] in Hp. apply str_eqb_eq in Hp. subst op.
    destruct (ok_slash _ _ _ _ Ho) as (O1 & (ax & t & ps & ->) & O3 & O4).
    pose proof (joins_path _ _ _ _ O4 O1) as Hpl. pose proof (joins_left _ _ _ _ O4 O1) as Hjl.
    rewrite (selects_elems E true e1 d Hpl O1 Hjl).
    destruct (elems_at_map d (sel E (spine e1) d)) as (_ & -> & _); [apply sel_get_some|]. reflexivity. }
  split.
  - intros (H1 & H2 & H3 & H4). split; auto.
    + now rewrite <- list_data_snodes.
    + intros n Hn. apply snodes_In in Hn as (a & Ha & Hg). apply (H3 a). rewrite (child_selects _ _ _ H). now apply in_elems.
    + now apply HP.
  - intros [H1 H2 H3 H4 _]. repeat split; auto.
    + now rewrite list_data_snodes.
    + intros a n Hn. rewrite (child_selects _ _ _ H) in Hn. apply in_elems in Hn. apply H3. apply snodes_In. eauto.
    + now apply HP.
Qed.

Lemma LI_frame E e m R d vs : LI E e m R d vs -> LI E e m (frame E e d) d vs.
Proof. intros [H1 H2 H3 H4 H5]. now split. Qed.
Lemma LI_holds E e m R d vs : child_list E e -> LI E e m R d vs -> holds E e m d vs.
Proof. intros H L. apply holds_LI; [assumption|]. eapply LI_frame; eauto. Qed.

(** the frame *)
Lemma picked_mstep E e d i x : one_step e = true -> child_list E e -> nth_error (kids_of d) i = Some x -> picked E e d i = mstep E e (fst x).
Proof.
  intros Hs H Hi. unfold picked. rewrite (child_selects _ _ _ H). destruct e; try discriminate. cbn [spine] in *.
  apply Bool.eq_true_iff_eq. rewrite existsb_exists. split.
  - intros (it & Hit & Hj). destruct it as [[|j [|? ?]] n| |]; try discriminate. apply Nat.eqb_eq in Hj. subst j. apply in_elems in Hit as [Hit _].
    destruct (In_sel_cons _ _ _ _ _ Hit) as (p & y & b' & Heq & Hp & Hm & _). injection Heq as <- <-. rewrite Hi in Hp. injection Hp as <-. exact Hm.
  - intros Hm. exists (IElem [i] (fst x)). split; [|apply Nat.eqb_refl]. apply in_elems. split.
    + eapply nth_error_In. apply (pos_sel1 E _ d i x Hi Hm).
    + cbn. now rewrite Hi.
Qed.

Lemma others_frame E e d : one_step e = true -> child_list E e -> others E e d = filter (fun k => negb (mstep E e (fst k))) (kids_of d).
Proof.
  intros Hs H. unfold others.
  assert (G : forall ks i0, (forall i x, nth_error ks i = Some x -> picked E e d (i0 + i) = mstep E e (fst x)) ->
    map snd (filter (fun x => negb (picked E e d (fst x))) (enum i0 ks)) = filter (fun k : node * option str => negb (mstep E e (fst k))) ks).
  { induction ks as [|k ks IH]; intros i0 Hk; [reflexivity|]. cbn [enum filter]. pose proof (Hk 0 k eq_refl) as H0. rewrite Nat.add_0_r in H0. cbn [fst].
    rewrite H0. destruct (mstep E e (fst k)); cbn [negb map snd]; rewrite IH; auto; intros i x Hx; rewrite Nat.add_succ_comm; now apply Hk. }
  apply (G _ 0). intros i x Hx. now apply picked_mstep.
Qed.

Lemma is_one_step e : one_step e = true -> step1 e.
Proof. destruct e; try discriminate. unfold step1. eauto. Qed.

Lemma unlisted_eq E r d d0 : unlisted E r d = unlisted E r d0 ->
  filter (fun k : node * option str => negb (mstep E r (fst k))) (kids_of d) = filter (fun k : node * option str => negb (mstep E r (fst k))) (kids_of d0) /\ own d = own d0.
Proof.
  unfold unlisted, own. destruct d, d0; cbn; intros [=]; subst; auto.
Qed.
Lemma LI_others E e m d0 d vs : one_step e = true -> child_list E e -> LI E e m (frame E e d0) d vs -> others E e d = others E e d0 /\ own d = own d0.
Proof.
  intros Hs H L. destruct e; try discriminate. pose proof (li_frame _ _ _ _ _ _ L ltac:(discriminate)) as Hf. unfold frame in Hf. injection Hf as F.
  rewrite !others_frame by assumption. exact (unlisted_eq _ _ _ _ F).
Qed.

Lemma one_elem E l r d a n : child_list E (EBin l (u "/") r) -> selects E l d = [IElem a n] <-> sel E (spine l) d = [a] /\ get_at a d = Some n.
Proof.
  intros H. destruct (child_list_ok _ _ H) as (Hp & Ho & _). destruct (ok_slash _ _ _ _ Ho) as (O1 & (ax & t & ps & ->) & O3 & O4).
  pose proof (joins_path _ _ _ _ O4 O1) as Hpl. pose proof (joins_left _ _ _ _ O4 O1) as Hjl.
  rewrite (selects_elems E true l d Hpl O1 Hjl). pose proof (sel_get_some E (spine l) d) as G. split.
  - intros Hs. destruct (sel E (spine l) d) as [|b [|c rest]]; [discriminate| |].
    + cbn in Hs. destruct (get_at b d) as [x|] eqn:Eb; [|discriminate]. injection Hs as <- <-. auto.
    + pose proof (G b (or_introl eq_refl)) as Gb. pose proof (G c (or_intror (or_introl eq_refl))) as Gc. cbn in Hs.
      destruct (get_at b d); [|contradiction]. destruct (get_at c d); [|contradiction]. discriminate.
  - intros [-> Hg]. cbn. now rewrite Hg.
Qed.
Lemma LI_rest E l op r m d0 d vs : child_list E (EBin l op r) -> LI E (EBin l op r) m (frame E (EBin l op r) d0) d vs -> rest_kept E l r d0 d.
Proof.
  intros H L a n Hs. destruct (child_list_ok _ _ H) as (Hp & Ho & _). cbn [is_path] in Hp. apply str_eqb_eq in Hp. subst op.
  destruct (ok_slash _ _ _ _ Ho) as (_ & (ax & t & ps & ->) & _). pose proof (child_list_last _ _ _ _ _ H) as HL.
  apply (one_elem _ _ _ _ _ _ H) in Hs as [Hs Hg]. pose proof (li_frame _ _ _ _ _ _ L) as HF. unfold frame in HF. rewrite Hs in HF. specialize (HF ltac:(discriminate)).
  destruct (sel E (spine l) d) as [|b [|? ?]] eqn:Es; try discriminate. injection HF as -> HF.
  destruct (In_sel_get E (spine l) d a) as [n' Hn']; [rewrite Es; now left|]. exists n'. split; [apply (one_elem _ _ _ _ _ _ H); auto|].
  split.
  - assert (G : upd_at a (fun _ => n') (upd_at a (unlisted E (EStep ax t ps)) d) = upd_at a (fun _ => n') (upd_at a (unlisted E (EStep ax t ps)) d0)) by now rewrite HF.
    rewrite !upd_upd_same in G. rewrite <- G. symmetry. now apply (upd_at_id _ _ _ n').
  - rewrite !others_frame by (auto; reflexivity). apply unlisted_eq.
    pose proof (get_upd_same a (unlisted E (EStep ax t ps)) d n' Hn') as G1. pose proof (get_upd_same a (unlisted E (EStep ax t ps)) d0 n Hg) as G2.
    rewrite HF in G1. congruence.
Qed.

(** explicit results *)
Lemma nth_selects E e d i a n : child_list E e -> nth_error (selects E e d) i = Some (IElem a n) -> nth_error (sel E (spine e) d) i = Some a /\ get_at a d = Some n.
Proof.
  intros H Hi. rewrite (child_selects _ _ _ H) in Hi. destruct (elems_at_map d (sel E (spine e) d)) as (_ & _ & G); [apply sel_get_some|]. rewrite G in Hi.
  destruct (nth_error (sel E (spine e) d) i) as [b|]; [|discriminate]. destruct (get_at b d) as [m|] eqn:Eg; [|discriminate]. injection Hi as <- <-. auto.
Qed.

Lemma matches_selects E e d : child_list E e -> matches E e d = Ret (selects E e d).
Proof. intros H. rewrite (matches_elems _ _ _ H). now rewrite (child_selects _ _ _ H). Qed.

Lemma py_eq_refl v : comparable v -> py_eq v v = true.
Proof.
  assert (Hq : forall q, qeqb q q = true) by (intros; apply qeqb_refl).
  assert (Hn : forall n, node_eqb n n = true).
  { induction n as [q a t ks IH|s] using node_ind'; cbn [node_eqb]; [|apply str_eqb_refl].
    rewrite Hq. assert (list_eqb attr_eqb a a = true) as ->.
    { induction a as [|x a IHa]; cbn; [reflexivity|]. unfold attr_eqb at 1. now rewrite Hq, str_eqb_refl, IHa. }
    assert (Ho : forall o, ostr_eqb o o = true) by (intros [s|]; cbn; [apply str_eqb_refl|reflexivity]). rewrite Ho. cbn [andb].
    induction IH as [|[x tx] ks Hx _ IHk]; [reflexivity|]. cbn [fst] in Hx. now rewrite Hx, Ho, IHk. }
  destruct v as [|s|z|[[m k]|]|b|dt|dt tm|n|i]; cbn; intros Hc; try contradiction; auto using str_eqb_refl.
  - now rewrite Z.eqb_refl.
  - now rewrite Z.eqb_refl, Nat.eqb_refl.
  - now rewrite Z.eqb_refl.
  - unfold date_eqb. now rewrite !N.eqb_refl.
  - unfold date_eqb, time_eqb. now rewrite !N.eqb_refl.
Qed.

(** storable values *)
Lemma strval_leaf q ats s : strval (Elem q ats (Some s) []) = s.
Proof. cbn. now rewrite ?app_nil_r. Qed.

Lemma storable_string s : xml_valid s = true -> storable (MString false) (PStr s).
Proof. intros H. exists s. split; [reflexivity|]. split; [assumption|]. intros. cbn [to_python read_str]. now rewrite strval_leaf. Qed.
Lemma storable_int z : (Z.abs z <= 2 ^ 53)%Z -> storable MInt (PInt z).
Proof.
  intros H. exists (str_of_Z z). split; [reflexivity|]. split.
  - assert (G : forall n, xml_valid (str_of_N n) = true).
    { intros n. pose proof (str_of_N_digits n) as Hd. unfold xml_valid. rewrite forallb_forall in Hd |- *. intros c Hc. apply Hd in Hc.
      unfold asc_digit, in_range in Hc. apply andb_prop in Hc as [H1 H2]. apply N.leb_le in H1. apply N.leb_le in H2. unfold xml_char, in_range.
      replace (N.leb 32 c) with true by (symmetry; apply N.leb_le; lia). replace (N.leb c 55295) with true by (symmetry; apply N.leb_le; lia).
      cbn [andb]. rewrite ?orb_true_r. reflexivity. }
    unfold str_of_Z. destruct (Z.ltb z 0); [|apply G]. cbn [xml_valid forallb app]. rewrite G || (unfold xml_valid; rewrite forallb_app; fold (xml_valid (str_of_N (Z.to_N (- z)))); rewrite G). reflexivity.
  - intros. cbn [to_python]. now rewrite strval_leaf, xnumber_Z, int_result_exact.
Qed.
Lemma storable_bool t f b : xml_valid t = true -> xml_valid f = true -> f <> t -> storable (MBool t (Some f)) (PBool b).
Proof.
  intros Ht Hf Hne. exists (if b then t else f). split; [cbn; now destruct b|]. split; [now destruct b|]. intros q ats. cbn [to_python read_str]. rewrite strval_leaf.
  destruct b; [now rewrite str_eqb_refl|]. destruct (str_eqb f t) eqn:Ef; [apply str_eqb_eq in Ef; contradiction|]. now rewrite str_eqb_refl.
Qed.

(** *** reads *)
Lemma mapR_nth_inv {A B} (f : A -> res B) l : forall ys k y, mapR f l = Ret ys -> nth_error ys k = Some y -> exists x, nth_error l k = Some x /\ f x = Ret y.
Proof.
  induction l as [|x l IH]; intros ys k y H Hk; cbn in H; [injection H as <-; destruct k; discriminate|].
  destruct (f x) as [z|] eqn:Ef; [|discriminate]. destruct (mapR f l) as [zs|] eqn:Em; [|discriminate]. injection H as <-.
  destruct k; cbn in *; [injection Hk as <-; eauto|]. apply (IH zs); auto.
Qed.
Lemma getitem_data E e m d vs k : list_data E e m d = Ret vs ->
  list_getitem E e m k d = match at_index k (length vs) with Some i => match nth_error vs i with Some v => Ret v | None => Exc XIndex end | None => Exc XIndex end.
Proof.
  intros H. unfold list_data in H. unfold list_getitem. destruct (matches E e d) as [l|]; [|discriminate]. pose proof (mapR_length _ _ _ H) as Hl.
  unfold py_nth. rewrite <- Hl, <- at_index_py. destruct (at_index k (length vs)) as [i|] eqn:Hi; [|reflexivity]. pose proof (at_index_lt _ _ _ Hi).
  destruct (nth_error vs i) as [v|] eqn:En; [|apply nth_error_None in En; lia]. destruct (mapR_nth_inv _ _ _ _ _ H En) as (x & -> & Hx). exact Hx.
Qed.
Lemma find_first x l i : find_eq x l = Some i <-> (exists y, nth_error l i = Some y /\ py_eq y x = true) /\ forall j y, j < i -> nth_error l j = Some y -> py_eq y x = false.
Proof.
  revert i. induction l as [|z l IH]; intros i; cbn [find_eq].
  - split; [discriminate|]. intros [(y & Hy & _) _]. destruct i; discriminate.
  - destruct (py_eq z x) eqn:Ez.
    + split.
      * intros [= <-]. split; [exists z; auto|]. intros; lia.
      * intros [(y & Hy & Hyx) H]. destruct i as [|i]; [reflexivity|]. specialize (H 0 z (Nat.lt_0_succ _) eq_refl). congruence.
    + split.
      * destruct (find_eq x l) as [j|] eqn:Ej; [|discriminate]. intros [= <-]. destruct (proj1 (IH j) eq_refl) as [H1 H2]. split; [exact H1|].
        intros [|k] y Hk Hy; [cbn in Hy; congruence|]. apply (H2 k y); [lia|assumption].
      * intros [(y & Hy & Hyx) H]. destruct i as [|i]; [cbn in Hy; congruence|].
        destruct (IH i) as [_ G]. rewrite G; [reflexivity|]. split; [eauto|]. intros j w Hj Hw. apply (H (S j) w); [lia|assumption].
Qed.
Lemma find_none x l : find_eq x l = None <-> forall y, In y l -> py_eq y x = false.
Proof.
  induction l as [|z l IH]; cbn [find_eq]; [split; auto; intros _ y []|]. destruct (py_eq z x) eqn:Ez.
  - split; [discriminate|]. intros H. specialize (H z (or_introl eq_refl)). congruence.
  - destruct (find_eq x l); split; try discriminate.
    + intros H. destruct IH as [_ IH]. assert (Some n = None) by (apply IH; intros; apply H; now right). discriminate.
    + intros _ y [<-|Hy]; [assumption|]. now apply IH.
    + reflexivity.
Qed.
