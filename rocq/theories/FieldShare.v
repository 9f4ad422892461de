(** Two fields whose XPaths share their leading steps and then enter different children or attributes do
    not disturb each other. *)
From Coq Require Import String Arith ZArith Lia.
From Verif Require Export FieldLocal.
From Verif Require Import XPathEval FieldSpec DocSpec.

Opaque u.

(** ** what a list of steps sees from an element *)
Definition walk (E : env) (ss : list expr) (l : list item) : list item := fold_left (fun l s => flat_map (cores_of_item E s) l) ss l.
Definition see (E : env) (ss : list expr) (n : node) : list item := walk E ss [IElem [] n].

Lemma walk_flat E ss : forall l, walk E ss l = flat_map (fun i => walk E ss [i]) l.
Proof.
  induction ss as [|s ss IH]; intros l; unfold walk in *; cbn [fold_left].
  - induction l as [|x l IHl]; [reflexivity|]. cbn [flat_map app]. now f_equal.
  - rewrite IH, flat_map_flat_map. apply flat_map_ext_in. intros i _. rewrite (IH (flat_map _ [i])). cbn [flat_map]. now rewrite app_nil_r.
Qed.
Lemma see_cons E s ss n : see E (s :: ss) n = flat_map (fun i => walk E ss [i]) (cores E s n).
Proof. unfold see. change (walk E (s :: ss) [IElem [] n]) with (walk E ss (flat_map (cores_of_item E s) [IElem [] n])). cbn [flat_map]. rewrite app_nil_r. apply walk_flat. Qed.
Lemma see_path E dot e d : is_path e = true -> ok E dot e = true -> cores E e d = see E (spine e) d.
Proof.
  induction e; cbn [is_path]; intros Hp; try discriminate; intros Ho.
  - apply str_eqb_eq in Hp. subst op. destruct (ok_slash _ _ _ _ Ho) as (H1 & _ & _ & H4). rewrite cores_slash, (IHe1 (joins_path _ _ _ _ H4 H1) H1).
    cbn [spine]. unfold see, walk. now rewrite fold_left_app.
  - cbn [spine]. unfold see, walk. cbn [fold_left flat_map]. rewrite app_nil_r. reflexivity.
  - apply str_eqb_eq in Hp. subst. reflexivity.
Qed.
Lemma see_child E s ss q n : ok E false s = true -> kind E s = Some (KChild q) -> see E (s :: ss) n = flat_map (fun k => if mstep E s (fst k) then see E ss (fst k) else []) (kids_of n).
Proof.
  intros Ho Hk. rewrite see_cons, (cores_child _ _ _ _ _ Ho Hk), flat_map_flat_map. apply flat_map_ext_in. intros k _. destruct (mstep E s (fst k)); [|reflexivity].
  cbn [flat_map]. now rewrite app_nil_r.
Qed.
Lemma see_sel E P R : steps_ok E P -> forall d, see E (P ++ R) d = flat_map (fun b => match get_at b d with Some m => see E R m | None => [] end) (sel E P d).
Proof.
  induction P as [|s P IH]; intros Hs d; [cbn; now rewrite app_nil_r|]. destruct Hs as (Ho & (q & Hq) & _ & Hs). specialize (IH Hs).
  cbn [app sel]. rewrite (see_child _ _ _ _ _ Ho Hq), flat_map_flat_map. rewrite <- (flat_map_enum (fun k : node * option str => if mstep E s (fst k) then see E (P ++ R) (fst k) else []) 0).
  apply flat_map_ext_in. intros [i k] Hi. apply In_enum in Hi as [_ Hi]. rewrite Nat.sub_0_r in Hi. cbn [fst snd]. destruct (mstep E s (fst k)); [|reflexivity].
  rewrite IH, flat_map_map. apply flat_map_ext_in. intros b _. cbn [get_at]. now rewrite Hi.
Qed.
(** a step sees the same before and after changes elsewhere; nothing in a new element *)
Lemma see_others E s ss k n n' : ok E false s = true -> is_estep s = true -> kind E s = Some k -> k <> KText -> others k n n' -> see E (s :: ss) n = see E (s :: ss) n'.
Proof. intros Ho Hs Hk Hkt H. rewrite !see_cons. now rewrite (others_cores _ _ _ _ _ Ho Hs Hk Hkt H). Qed.
Lemma see_empty E s ss k n : ok E false s = true -> is_estep s = true -> kind E s = Some k -> k <> KText -> kids_of n = [] -> attrs_of n = [] -> see E (s :: ss) n = [].
Proof.
  intros Ho Hs Hk Hkt H1 H2. rewrite see_cons. destruct k as [q|q|]; [rewrite (cores_child _ _ _ _ _ Ho Hk), H1|rewrite (cores_attr _ _ _ _ _ Ho Hk), H2|contradiction]; reflexivity.
Qed.

Lemma steps_ok_mid E P s R : steps_ok E (P ++ s :: R) -> steps_ok E P /\ ok E false s = true /\ (exists q, kind E s = Some (KChild q) /\ last_avoids E P (KChild q)) /\
  match R with [] => True | s2 :: _ => exists k, kind E s2 = Some k /\ avoids E (preds_of s) k = true end.
Proof.
  induction P as [|x P IH]; cbn [app steps_ok].
  - intros (H1 & (q & H2) & H3 & H4). split; [exact I|]. split; [exact H1|]. split; [exists q; split; [exact H2|exact I]|exact H3].
  - intros (H1 & H2 & H3 & H4). destruct (IH H4) as (I1 & I2 & (q & I3 & I4) & I5). split; [|split; [exact I2|split; [exists q; split; [exact I3|]|exact I5]]].
    + split; [exact H1|]. split; [exact H2|]. split; [|exact I1]. destruct P as [|y P]; [exact I|exact H3].
    + destruct P as [|y P]; cbn [last_avoids app] in *; [|exact I4]. destruct H3 as (k & Hk & Ha). rewrite I3 in Hk. injection Hk as <-. exact Ha.
Qed.

(** the steps of a supported path *)
Lemma spine_mid E dot e : is_path e = true -> ok E dot e = true -> forall P s R, spine e = P ++ s :: R ->
  steps_ok E P /\ ok E false s = true /\ is_estep s = true /\ (exists k, kind E s = Some k /\ last_avoids E P k) /\ (R <> [] -> exists q, kind E s = Some (KChild q)) /\
  (forall x R', R = x :: R' -> ok E false x = true /\ is_estep x = true /\ exists k, kind E x = Some k /\ avoids E (preds_of s) k = true).
Proof.
  induction e; cbn [is_path]; intros Hp; try discriminate; intros Ho P s R Hs.
  - apply str_eqb_eq in Hp. subst op. destruct (ok_slash _ _ _ _ Ho) as (H1 & (ax & t & ps & ->) & H3 & H4). pose proof (joins_path _ _ _ _ H4 H1) as Hpl.
    pose proof (joins_left _ _ _ _ H4 H1) as Hjl. pose proof (spine_ok _ _ _ Hpl H1 Hjl) as Hso.
    destruct (kind E (EStep ax t ps)) as [k|] eqn:Hk; [|cbn [ok] in H3; rewrite Hk in H3; discriminate]. pose proof (spine_last _ _ _ _ _ H1 H4 Hk) as Hla.
    cbn [spine] in Hs. destruct R as [|x R] using rev_ind.
    + apply app_inj_tail in Hs as [<- <-]. split; [exact Hso|]. split; [exact H3|]. split; [reflexivity|]. split; [eauto|]. split; [congruence|discriminate].
    + clear IHR. rewrite app_comm_cons, app_assoc in Hs. apply app_inj_tail in Hs as [Hs <-]. destruct (IHe1 Hpl H1 P s R Hs) as (A1 & A2 & A3 & A4 & A5 & A6).
      split; [exact A1|]. split; [exact A2|]. split; [exact A3|]. split; [exact A4|]. rewrite Hs in Hso, Hla. split.
      * intros _. destruct (steps_ok_mid _ _ _ _ Hso) as (_ & _ & (q & Hq & _) & _). eauto.
      * intros y R' Hy. destruct R as [|z R].
        -- cbn [app] in Hy. injection Hy as <- <-. split; [exact H3|]. split; [reflexivity|]. exists k. split; [exact Hk|]. now apply last_avoids_snoc in Hla.
        -- injection Hy as <- _. eapply A6; reflexivity.
  - cbn [spine] in Hs. destruct P as [|x P]; [|destruct P; discriminate]. injection Hs as <- <-. split; [exact I|]. split; [exact Ho|]. split; [reflexivity|].
    split; [|split; [congruence|discriminate]]. destruct (kind E (EStep axis node_test predicates)) as [k|] eqn:Hk; [exists k; split; [reflexivity|exact I]|cbn [ok] in Ho; rewrite Hk in Ho; discriminate].
  - cbn [spine] in Hs. destruct P; discriminate.
Qed.

Section Share.
Variables (E : env) (P T : list expr) (s1 : expr) (r1 : list expr) (k1 : skind).
Hypothesis HP : steps_ok E P.
Hypothesis HT : T = s1 :: r1.
Hypothesis Hs1 : ok E false s1 = true /\ is_estep s1 = true /\ kind E s1 = Some k1 /\ k1 <> KText.
Hypothesis Hl1 : last_avoids E P k1.

Definition keeps (d d' : node) : Prop := tag_of d = tag_of d' /\ see E (P ++ T) d = see E (P ++ T) d'.
Lemma keeps_refl d : keeps d d.
Proof. split; reflexivity. Qed.
Lemma keeps_trans a b c : keeps a b -> keeps b c -> keeps a c.
Proof. intros [A1 A2] [B1 B2]. split; congruence. Qed.

(** a change at a match of some of the leading steps *)
Lemma keep_at P1 R D b d n f : P ++ T = P1 ++ R -> steps_ok E P1 -> last_avoids E P1 D -> In b (sel E P1 d) -> get_at b d = Some n -> sim D n (f n) -> see E R n = see E R (f n) ->
  keeps d (upd_at b f d) /\ sel E P1 (upd_at b f d) = sel E P1 d.
Proof.
  intros Heq Ho Hl Hb Hg HS Hsee. assert (Hsel : sel E P1 (upd_at b f d) = sel E P1 d).
  { apply (sel_upd E D); auto. intros m Hm. rewrite Hg in Hm. injection Hm as <-. exact HS. }
  split; [|exact Hsel]. split.
  - symmetry. apply tag_upd_at. intros ->. cbn in Hg. injection Hg as ->. destruct HS as [HS _]. congruence.
  - rewrite Heq, !see_sel by exact Ho. rewrite Hsel. apply flat_map_ext_in. intros b' Hb'. destruct (list_eq_dec Nat.eq_dec b b') as [<-|N].
    + rewrite Hg, (get_upd_same _ _ _ _ Hg). exact Hsee.
    + rewrite get_upd_other; [reflexivity| |exact N]. now rewrite (sel_length _ _ _ _ Hb), (sel_length _ _ _ _ Hb').
Qed.

(** what follows a leading step *)
Lemma next_kind P1 s P2 : P = P1 ++ s :: P2 -> exists x xs k, P2 ++ T = x :: xs /\ ok E false x = true /\ is_estep x = true /\ kind E x = Some k /\ k <> KText /\ avoids E (preds_of s) k = true.
Proof.
  intros HPe. pose proof HP as HP'. pose proof Hl1 as Hl'. rewrite HPe in HP', Hl'. destruct (steps_ok_mid _ _ _ _ HP') as (_ & _ & _ & Hn). destruct P2 as [|x P2].
  - rewrite HT. exists s1, r1, k1. destruct Hs1 as (A & B & C & D). repeat (split; [auto|]). now apply last_avoids_snoc in Hl'.
  - change (P1 ++ s :: x :: P2) with (P1 ++ [s] ++ x :: P2) in HP'. rewrite app_assoc in HP'. destruct (steps_ok_mid _ _ _ _ HP') as (_ & Hox & (q & Hq & _) & _).
    destruct Hn as (k & Hk & Ha). exists x, (P2 ++ T), k. split; [reflexivity|]. split; [exact Hox|]. destruct (kind_estep _ _ _ Hk) as (ax & t & ps & ->). split; [reflexivity|]. split; [exact Hk|].
    split; [|exact Ha]. rewrite Hq in Hk. injection Hk as <-. discriminate.
Qed.

(** creating one of the leading elements *)
Lemma step_a m P1 s P2 b d d' r : P = P1 ++ s :: P2 -> tag_of d <> None -> In b (sel E P1 d) -> build E m s (Some (RElem b)) None d = (d', r) ->
  keeps d d' /\ forall y, r = Ret (Some y) -> exists b', y = RElem b' /\ In b' (sel E (P1 ++ [s]) d').
Proof.
  intros HPe Hd Hb Hm. destruct (next_kind _ _ _ HPe) as (x & xs & k & Hx & Hox & Hex & Hkx & Hkt & Hav). pose proof HP as HP'. rewrite HPe in HP'.
  destruct (steps_ok_mid _ _ _ _ HP') as (HP1 & Hos & (q & Hq & Hla) & _). destruct (kind_estep _ _ _ Hq) as (ax & t & ps & ->).
  destruct (In_sel_get _ _ _ _ Hb) as [n Hg]. pose proof (sel_tag _ _ _ _ _ HP1 Hd Hb Hg) as Hn.
  destruct (build E m (EStep ax t ps) (Some doc_root) None n) as [n' r'] eqn:Hr. pose proof (build_local E (EStep ax t ps) m b (Some doc_root) None d n n' r' (or_intror eq_refl) Hg Hr) as HL.
  cbn [option_map shr doc_root] in HL. rewrite app_nil_r, Hm in HL. injection HL as -> ->.
  destruct (step_any _ _ _ _ _ _ _ _ _ _ Hos Hq Hn Hav Hr) as [[-> Hno]|(K & -> & HKt & HKo & HKr)].
  - rewrite upd_same_id by exact Hg. split; [apply keeps_refl|]. intros y Hy. destruct r' as [z|]; [now destruct (Hno z)|discriminate].
  - assert (Heq : P ++ T = P1 ++ EStep ax t ps :: x :: xs) by (rewrite HPe, <- app_assoc; cbn [app]; now rewrite Hx).
    assert (HK : see E (x :: xs) K = []) by (rewrite <- (see_others E x xs k _ _ Hox Hex Hkx Hkt HKo); now apply see_empty with k).
    destruct (keep_at P1 _ (KChild q) b d n (fun _ => append_kid K n) Heq HP1 Hla Hb Hg) as [Hk1 Hk2]; [now apply sim_append| |].
    { rewrite !(see_child _ _ _ _ _ Hos Hq), kids_append by exact Hn. rewrite flat_map_app. cbn [flat_map fst]. rewrite HK. destruct (mstep E (EStep ax t ps) K); now rewrite !app_nil_r. }
    split; [exact Hk1|]. intros y Hy. destruct r' as [z|]; [|discriminate]. destruct (HKr z eq_refl) as [-> Hms]. cbn [oshr option_map shr] in Hy. injection Hy as <-.
    exists (b ++ [length (kids_of n)]). split; [reflexivity|]. rewrite sel_app, Hk2. apply in_flat_map. exists b. split; [exact Hb|]. rewrite (get_upd_same _ _ _ _ Hg).
    apply in_map_iff. exists [length (kids_of n)]. split; [reflexivity|]. rewrite (sel_append E _ [] K n Hn), Hms. apply in_or_app. right. now left.
Qed.

(** removing one of them, once it is empty *)
Lemma clean_others ax t all q k : ok E false (EStep ax t all) = true -> kind E (EStep ax t all) = Some (KChild q) -> rereadable (EStep ax t all) = true -> avoids E all k = true -> forall ps, incl ps all ->
  forall K K' r, iterM (clean1 E) ps K = (K', r) -> others k K K'.
Proof.
  intros Ho Hk Hr Ha. induction ps as [|p ps IH]; intros Hin K K' r Hm; cbn [iterM] in Hm; [injection Hm as <- _; constructor|].
  assert (Hp : In p all) by (apply Hin; now left). destruct (ok_step_preds _ _ _ _ _ _ _ Ho Hk Hp) as (O1 & O2 & O3).
  destruct (avoids_In _ _ _ _ Ha Hp) as (k' & Hf & Hne). assert (Hkt : k' <> KText).
  { pose proof (preds_avoid_text _ _ _ _ _ _ Ho Hk) as At. destruct (avoids_In _ _ _ _ At Hp) as (k2 & Hf2 & Hn2). congruence. }
  pose proof (rereadable_pred _ _ _ _ Hr Hp) as Hrp. unfold bind in Hm.
  assert (G : forall K1 ra, clean1 E p K = (K1, ra) -> others k K K1).
  { intros K1 ra Hc. unfold clean1 in Hc. destruct p; try (injection Hc as <- _; constructor). destruct (constructible (EBin p1 op p2) && str_eqb op (u "="))%bool eqn:Ec; [|injection Hc as <- _; constructor].
    apply andb_prop in Ec as [_ Ec]. apply str_eqb_eq in Ec. subst op. destruct (ok_eq _ _ _ O1) as (Hpl & Hol & _). destruct (rereadable_bin _ _ _ Hrp) as [Hrl _].
    change (fkind E (EBin p1 (u "=") p2)) with (fkind E p1) in Hf. unfold bind, reading in Hc. destruct (pred_true E (EBin p1 (u "=") p2) K) as [[|]|]; [|injection Hc as <- _; constructor|injection Hc as <- _; constructor].
    assert (Hrm : forall K2 r2, remove_xml E p1 true (RElem []) K = (K2, r2) -> others k K K2).
    { intros K2 r2 H2. eapply oth_step; [exact Hne|exact Hkt| |constructor]. rewrite <- (fkind_first _ _ Hpl Hol) in Hf.
      destruct k' as [q'|q'|]; [eapply rm_root; eauto|eapply attr_rm_root; eauto|contradiction]. }
    destruct p1; try (eapply Hrm; exact Hc); injection Hc as <- _; constructor. }
  destruct (clean1 E p K) as [K1 [b|e]] eqn:E1; pose proof (G _ _ eq_refl) as G1.
  - eapply others_trans; [exact G1|]. eapply IH; [intros z Hz; apply Hin; now right|exact Hm].
  - injection Hm as <- _. exact G1.
Qed.
Lemma rm_a P1 s P2 b d d' r : P = P1 ++ s :: P2 -> rereadable s = true -> tag_of d <> None -> In b (sel E P1 d) -> remove_xml E s true (RElem b) d = (d', r) -> keeps d d'.
Proof.
  intros HPe Hrs Hd Hb Hm. destruct (next_kind _ _ _ HPe) as (x & xs & k & Hx & Hox & Hex & Hkx & Hkt & Hav). pose proof HP as HP'. rewrite HPe in HP'.
  destruct (steps_ok_mid _ _ _ _ HP') as (HP1 & Hos & (q & Hq & Hla) & _). destruct (kind_estep _ _ _ Hq) as (ax & t & ps & ->).
  destruct (In_sel_get _ _ _ _ Hb) as [n Hg]. pose proof (rm_child_step _ _ _ _ _ _ _ _ _ _ _ Hos Hq Hrs Hg Hm) as R. destruct (sel E [EStep ax t ps] n) as [|c l].
  - destruct R as [-> _]. apply keeps_refl.
  - destruct R as (i & kk & -> & Hi & Hms & [(-> & _)|(-> & _ & Hcl)]); [apply keeps_refl|]. destruct (Hcl eq_refl) as (K' & Hit & Hk0 & Ha0).
    assert (Heq : P ++ T = P1 ++ EStep ax t ps :: x :: xs) by (rewrite HPe, <- app_assoc; cbn [app]; now rewrite Hx).
    assert (HK : see E (x :: xs) (fst kk) = []).
    { rewrite (see_others E x xs k _ K' Hox Hex Hkx Hkt); [now apply see_empty with k|]. eapply (clean_others ax t ps q k Hos Hq Hrs Hav ps (incl_refl _)); exact Hit. }
    apply (keep_at P1 _ (KChild q) b d n (remove_kid i) Heq HP1 Hla Hb Hg).
    + eapply sim_remove; [exact Hi|]. unfold has_tag. rewrite (mstep_tag _ _ _ _ Hq Hms). apply qeqb_refl.
    + rewrite !(see_child _ _ _ _ _ Hos Hq). apply nth_error_split in Hi as (l1 & l2 & Hkids & Hlen).
      assert (Hrk : kids_of (remove_kid i n) = l1 ++ l2).
      { destruct n as [qn an tn ks|]; [|destruct l1; discriminate]. cbn [kids_of] in Hkids. subst ks. unfold remove_kid. cbn [set_kids kids_of]. rewrite <- Hlen. apply remove_nth_mid. }
      rewrite Hrk, Hkids, !flat_map_app. cbn [flat_map]. rewrite Hms, HK. reflexivity.
Qed.

(** ** the other path leaves by [s2], of another kind *)
Variables (s2 : expr) (D : skind).
Hypothesis Hs2 : ok E false s2 = true /\ is_estep s2 = true /\ kind E s2 = Some D /\ D <> KText.
Hypothesis Hl2 : last_avoids E P D.
Hypothesis Hdiff : D <> k1.

Lemma D_cases : (exists q, D = KChild q) \/ exists q, D = KAttr q.
Proof. destruct Hs2 as (_ & _ & _ & H). destruct D; eauto. contradiction. Qed.
(** a node reached by the other path: in a match of the leading steps, at what [s2] sees *)
Definition inside (d : node) (y : ref) : Prop := exists b n y', In b (sel E P d) /\ get_at b d = Some n /\ y = shr b y' /\ oref D n y'.

Lemma keep_fork b d n n' : In b (sel E P d) -> get_at b d = Some n -> sim D n n' -> keeps d (upd_at b (fun _ => n') d) /\ sel E P (upd_at b (fun _ => n') d) = sel E P d.
Proof.
  intros Hb Hg HS. apply (keep_at P T D b d n (fun _ => n') eq_refl HP Hl2 Hb Hg HS). rewrite HT. destruct Hs1 as (A1 & A2 & A3 & A4). destruct Hs2 as (_ & _ & _ & B4).
  apply (see_others E s1 r1 k1 n n' A1 A2 A3 A4). eapply oth_step; [exact Hdiff|exact B4|exact HS|constructor].
Qed.
Lemma fork_in b d n n' y : In b (sel E P d) -> get_at b d = Some n -> sim D n n' -> oref D n' y -> inside (upd_at b (fun _ => n') d) (shr b y).
Proof. intros Hb Hg HS Hy. exists b, n', y. destruct (keep_fork _ _ _ _ Hb Hg HS) as [_ ->]. split; [exact Hb|]. split; [now rewrite (get_upd_same _ _ _ _ Hg)|]. auto. Qed.
(** any local computation there *)
Lemma step_fork m b d d' r : tag_of d <> None -> In b (sel E P d) -> build E m s2 (Some (RElem b)) None d = (d', r) -> keeps d d' /\ forall y, r = Ret (Some y) -> inside d' y.
Proof.
  intros Hd Hb Hm. destruct Hs2 as (Ho & He & Hk & HD). destruct (kind_estep _ _ _ Hk) as (ax & t & ps & Hs). rewrite Hs in Ho, He, Hk, Hm. destruct (In_sel_get _ _ _ _ Hb) as [n Hg]. pose proof (sel_tag _ _ _ _ _ HP Hd Hb Hg) as Hn.
  destruct (build E m (EStep ax t ps) (Some doc_root) None n) as [n' r'] eqn:Hr. pose proof (build_local E (EStep ax t ps) m b (Some doc_root) None d n n' r' (or_intror eq_refl) Hg Hr) as HL.
  cbn [option_map shr doc_root] in HL. rewrite app_nil_r, Hm in HL. injection HL as -> ->.
  assert (G : sim D n n' /\ forall y, r' = Ret (Some y) -> oref D n' y) by (destruct D as [q|q|]; [eapply step_root; eauto|eapply attr_step_root; eauto|contradiction]).
  destruct G as [S1 B1]. split; [now apply keep_fork with n|]. intros y Hy. destruct r' as [[z|]|]; try discriminate. injection Hy as <-. apply (fork_in b d n n' z); auto.
Qed.
Lemma step_in q m ax t ps x d d' r : D = KChild q -> (forall y, x = Some y -> inside d y) -> build E m (EStep ax t ps) x None d = (d', r) -> keeps d d' /\ forall y, r = Ret (Some y) -> inside d' y.
Proof.
  intros HD Hx Hm. destruct x as [y0|].
  - destruct (Hx _ eq_refl) as (b & n & y' & Hb & Hg & -> & Hy'). destruct (build E m (EStep ax t ps) (Some y') None n) as [n' r'] eqn:Hr.
    pose proof (build_local E (EStep ax t ps) m b (Some y') None d n n' r' (or_intror eq_refl) Hg Hr) as HL. cbn [option_map] in HL. rewrite Hm in HL. injection HL as -> ->. rewrite HD in Hy'.
    destruct (step_below E ax t ps (proj2 (Forall_forall _ _) (fun p _ => build_below E p)) q m (Some y') n n' r') as [S1 B1]; [intros z [= <-]; exact Hy'|exact Hr|].
    assert (S1' : sim D n n') by (rewrite HD; apply S1). split; [now apply keep_fork with n|]. intros y Hy. destruct r' as [[z|]|]; try discriminate. injection Hy as <-. apply (fork_in b d n n' z); auto. rewrite HD. now apply B1.
  - destruct t as [p nm|nm o]; cbn [build] in Hm.
    + destruct (forallb constructible ps); [|injection Hm as <- <-; split; [apply keeps_refl|discriminate]].
      assert (G : exists er, (if child_axis ax then create_child E p nm None None else if attr_axis ax then create_attr E p nm None else raise XUnbound) d = (d, Exc er)).
      { unfold create_child, create_attr, raise. destruct (child_axis ax); [|destruct (attr_axis ax); eauto]. destruct (child_ns E p); [|eauto]. destruct (negb (name_valid nm)); eauto. }
      destruct G as [er G]. unfold bind at 1 in Hm. rewrite G in Hm. injection Hm as <- <-. split; [apply keeps_refl|discriminate].
    + destruct (str_eqb nm (u "text")); injection Hm as <- <-; (split; [apply keeps_refl|discriminate]).
Qed.
Lemma set_in st x v d d' r : ((exists q, D = KChild q) \/ exists q ax t ps, D = KAttr q /\ st = Some (EStep ax t ps) /\ kind E (EStep ax t ps) = Some (KAttr q)) ->
  (forall y, x = Some y -> inside d y) -> set_in_xml E x v st d = (d', r) -> keeps d d'.
Proof.
  intros Hst Hx Hm. destruct x as [y0|]; [|injection Hm as <- _; apply keeps_refl]. destruct (Hx _ eq_refl) as (b & n & y' & Hb & Hg & -> & Hy').
  destruct (set_in_xml E (Some y') v st n) as [n' r'] eqn:Hr. pose proof (set_local E b (Some y') v st d n n' r' Hg Hr) as HL. cbn [option_map] in HL. rewrite Hm in HL. injection HL as -> _.
  apply (keep_fork b d n n'); auto. destruct Hst as [[q HD]|(q & ax & t & ps & HD & -> & Hk)]; rewrite HD in *.
  - refine (proj1 (set_below E q (Some y') v st n n' r' _ Hr)). intros z [= <-]. exact Hy'.
  - refine (attr_set_root E _ q v (Some y') n n' r' _ _ Hr); [eauto 6|]. intros z [= <-]. exact Hy'.
Qed.

(** *** creation along the whole path *)
Definition lead (e : expr) : Prop := exists P2, P = spine e ++ P2.
Definition past (e : expr) : Prop := exists R, spine e = P ++ s2 :: R.

Lemma past_more e dot R : is_path e = true -> ok E dot e = true -> spine e = P ++ s2 :: R -> R <> [] -> exists q, D = KChild q.
Proof.
  intros Hp Ho Hs HR. destruct (spine_mid E dot e Hp Ho P s2 R Hs) as (_ & _ & _ & _ & H5 & _). destruct (H5 HR) as [q Hq]. destruct Hs2 as (_ & _ & Hk & _). exists q. congruence.
Qed.

Lemma build_lead dot e : is_path e = true -> ok E dot e = true -> rereadable e = true -> spine e <> [] -> forall d d' r, tag_of d <> None -> lead e ->
  build E Create e (Some doc_root) None d = (d', r) -> keeps d d' /\ forall y, r = Ret (Some y) -> exists b, y = RElem b /\ In b (sel E (spine e) d').
Proof.
  induction e; cbn [is_path]; intros Hp; try discriminate; intros Ho Hr Hne d d' r Hd (P2 & Hlead) Hm.
  - apply str_eqb_eq in Hp. subst op. destruct (ok_slash _ _ _ _ Ho) as (H1 & (ax & t & ps & ->) & H3 & H4). destruct (rereadable_bin _ _ _ Hr) as [Hr1 Hr2].
    cbn [build] in Hm. rewrite str_eqb_refl in Hm. unfold bind at 1, reading in Hm. rewrite (find_left _ _ _ _ _ H4 H1 Hr1) in Hm. cbn [spine] in Hlead. rewrite <- app_assoc in Hlead. cbn [app] in Hlead.
    unfold bind at 1 in Hm. destruct (sel E (spine e1) d) as [|b bs] eqn:Eb; cbn [head_ref] in Hm.
    + assert (Hne1 : spine e1 <> []) by (intros Hz; rewrite Hz in Eb; discriminate).
      destruct (build E Create e1 (Some doc_root) None d) as [d1 [x|er]] eqn:E1; destruct (IHe1 (joins_path _ _ _ _ H4 H1) H1 Hr1 Hne1 d d1 _ Hd (ex_intro _ _ Hlead) E1) as [S1 B1]; [|injection Hm as <- <-; split; [exact S1|discriminate]].
      assert (Hd1 : tag_of d1 <> None) by (destruct S1 as [<- _]; exact Hd). destruct x as [y|].
      * destruct (B1 _ eq_refl) as (b & -> & Hb). destruct (step_a Create (spine e1) (EStep ax t ps) P2 b d1 d' r Hlead Hd1 Hb Hm) as [S2 B2]. split; [eapply keeps_trans; eauto|exact B2].
      * exfalso. clear - E1 Hne1 H1 H4 Hr1 Eb Hd. destruct (create_spec E dot e1 (joins_path _ _ _ _ H4 H1) H1 (joins_left _ _ _ _ H4 H1) Hr1 d d1 None Hd Eb E1) as (b0 & n0 & K & b1 & m & C). unfold created in C.
        destruct C as (_ & _ & _ & _ & _ & _ & C & _). discriminate.
    + unfold ret in Hm. cbn [app] in Hm. apply (step_a Create (spine e1) (EStep ax t ps) P2 b d d' r Hlead Hd); [rewrite Eb; now left|exact Hm].
  - cbn [spine app] in *. apply (step_a Create [] (EStep axis node_test predicates) P2 [] d d' r Hlead Hd); [now left|exact Hm].
  - cbn [spine] in Hne. congruence.
Qed.

Lemma build_past dot e : is_path e = true -> ok E dot e = true -> rereadable e = true -> P <> [] -> forall ins d d' r, tag_of d <> None -> past e ->
  build E Create e (Some doc_root) ins d = (d', r) -> keeps d d' /\ forall y, r = Ret (Some y) -> inside d' y.
Proof.
  induction e; cbn [is_path]; intros Hp; try discriminate; intros Ho Hr HPn ins d d' r Hd (R & Hpast) Hm.
  - pose proof Hpast as Hpast0. pose proof Ho as Ho0. pose proof Hp as Hp0. apply str_eqb_eq in Hp. subst op. destruct (ok_slash _ _ _ _ Ho) as (H1 & (ax & t & ps & ->) & H3 & H4). destruct (rereadable_bin _ _ _ Hr) as [Hr1 Hr2].
    pose proof (joins_path _ _ _ _ H4 H1) as Hpl.
    cbn [build] in Hm. rewrite str_eqb_refl in Hm. unfold bind at 1, reading in Hm. rewrite (find_left _ _ _ _ _ H4 H1 Hr1) in Hm. cbn [spine] in Hpast.
    unfold bind at 1 in Hm. destruct R as [|x0 R] using rev_ind.
    + apply app_inj_tail in Hpast as [HPe Hse].
      assert (G : forall d1 b, tag_of d1 <> None -> In b (sel E P d1) -> build E Create (EStep ax t ps) (Some (RElem b)) None d1 = (d', r) -> keeps d d1 -> keeps d d' /\ forall y, r = Ret (Some y) -> inside d' y).
      { intros d1 b Hd1 Hb Hb2 Hk. rewrite Hse in Hb2. destruct (step_fork Create b d1 d' r Hd1 Hb Hb2) as [S2 B2]. split; [eapply keeps_trans; eauto|exact B2]. }
      destruct (sel E (spine e1) d) as [|b bs] eqn:Eb; cbn [head_ref] in Hm.
      * assert (Hne1 : spine e1 <> []) by congruence. assert (Hlead : lead e1) by (exists []; now rewrite app_nil_r).
        destruct (build E Create e1 (Some doc_root) None d) as [d1 [x|er]] eqn:E1; destruct (build_lead dot e1 Hpl H1 Hr1 Hne1 d d1 _ Hd Hlead E1) as [S1 B1]; [|injection Hm as <- <-; split; [exact S1|discriminate]].
        assert (Hd1 : tag_of d1 <> None) by (destruct S1 as [<- _]; exact Hd). destruct x as [y|].
        -- destruct (B1 _ eq_refl) as (b & -> & Hb). rewrite HPe in Hb. eapply G; eauto.
        -- exfalso. destruct (create_spec E dot e1 Hpl H1 (joins_left _ _ _ _ H4 H1) Hr1 d d1 None Hd Eb E1) as (b0 & n0 & K & b1 & m & C). unfold created in C. destruct C as (_ & _ & _ & _ & _ & _ & C & _). discriminate.
      * unfold ret in Hm. cbn [app] in Hm. apply (G d b Hd); [rewrite <- HPe, Eb; now left|exact Hm|apply keeps_refl].
    + clear IHR. rewrite app_comm_cons, app_assoc in Hpast. apply app_inj_tail in Hpast as [Hpl2 Hse].
      destruct (past_more (EBin e1 (u "/") (EStep ax t ps)) dot _ Hp0 Ho0 Hpast0) as [q HD]; [destruct R; discriminate|].
      assert (G : forall d1 x, keeps d d1 -> (forall y, x = Some y -> inside d1 y) -> build E Create (EStep ax t ps) x None d1 = (d', r) -> keeps d d' /\ forall y, r = Ret (Some y) -> inside d' y).
      { intros d1 x Hk Hx Hb. destruct (step_in q Create ax t ps x d1 d' r HD Hx Hb) as [S2 B2]. split; [eapply keeps_trans; eauto|exact B2]. }
      destruct (sel E (spine e1) d) as [|b bs] eqn:Eb; cbn [head_ref] in Hm.
      * destruct (build E Create e1 (Some doc_root) None d) as [d1 [x|er]] eqn:E1; destruct (IHe1 Hpl H1 Hr1 HPn None d d1 _ Hd (ex_intro _ _ Hpl2) E1) as [S1 B1]; [|injection Hm as <- <-; split; [exact S1|discriminate]].
        eapply G; [exact S1| |exact Hm]. intros y ->. now apply B1.
      * unfold ret in Hm. cbn [app] in Hm. eapply (G d (Some (RElem b))); [apply keeps_refl| |exact Hm]. intros y [= <-].
        assert (Hb : In b (sel E (spine e1) d)) by (rewrite Eb; now left). rewrite Hpl2, sel_app in Hb. apply in_flat_map in Hb as (b0 & Hb0 & Hb). destruct (get_at b0 d) as [n|] eqn:Hg; [|contradiction].
        apply in_map_iff in Hb as (c & <- & Hc). exists b0, n, (RElem c). split; [exact Hb0|]. split; [exact Hg|]. split; [reflexivity|]. rewrite HD. cbn. destruct Hs2 as (_ & _ & Hk2 & _). rewrite HD in Hk2. eapply sel_below; eauto.
  - cbn [spine] in Hpast. destruct P as [|p0 P0]; [contradiction|]. destruct P0; discriminate.
  - cbn [spine] in Hpast. destruct P as [|p0 P0]; discriminate.
Qed.

(** *** what the other path selects *)
Lemma sel_past R d b : In b (sel E (P ++ s2 :: R) d) -> (exists q, D = KChild q) -> exists b0 n c q, b = b0 ++ c /\ In b0 (sel E P d) /\ get_at b0 d = Some n /\ D = KChild q /\ below q n c.
Proof.
  intros Hb [q HD]. rewrite sel_app in Hb. apply in_flat_map in Hb as (b0 & Hb0 & Hb). destruct (get_at b0 d) as [n|] eqn:Hg; [|contradiction]. apply in_map_iff in Hb as (c & <- & Hc).
  destruct Hs2 as (_ & _ & Hk2 & _). rewrite HD in Hk2. exists b0, n, c, q. repeat (split; [auto|]). eapply sel_below; eauto.
Qed.
Lemma selects_past dot e d i : is_path e = true -> ok E dot e = true -> past e -> In i (selects E e d) -> inside d (ref_of i).
Proof.
  intros Hp Ho (R & HR) Hi.
  assert (Hcase : (is_KChild (lkind E e) = true \/ lkind E e = None) \/ exists k, lkind E e = Some k /\ is_KChild (Some k) = false).
  { destruct (lkind E e) as [[q'|q'|]|]; auto; right; eauto. }
  destruct Hcase as [Hl|(k & Hlk & Hc)].
  - pose proof (spine_ok _ _ _ Hp Ho Hl) as Hso. rewrite HR in Hso. destruct (steps_ok_mid _ _ _ _ Hso) as (_ & _ & (q & Hq & _) & _).
    assert (HD : exists q, D = KChild q) by (exists q; destruct Hs2 as (_ & _ & Hk2 & _); congruence).
    rewrite (selects_elems _ _ _ _ Hp Ho Hl), HR in Hi. unfold elems_at in Hi. apply in_flat_map in Hi as (b & Hb & Hi).
    destruct (get_at b d); [|contradiction]. destruct Hi as [<-|[]]. cbn [ref_of]. destruct (sel_past _ _ _ Hb HD) as (b0 & m & c & q' & -> & Hb0 & Hg & HD' & Hc). exists b0, m, (RElem c). rewrite HD'. auto.
  - unfold selects in Hi. rewrite (ev_route _ _ _ _ _ _ Hp Ho Hlk Hc) in Hi. cbn [nodes_of app] in Hi. apply in_flat_map in Hi as (b & Hb & Hi). destruct (get_at b d) as [m|] eqn:Hgm; [|contradiction].
    destruct R as [|x R] using rev_ind.
    + (* the path ends with s2 *)
      assert (Hrt : route e = P /\ k = D).
      { destruct Hs2 as (_ & _ & Hk2 & _). destruct e; cbn [is_path] in Hp; try discriminate.
        - apply str_eqb_eq in Hp. subst op. destruct (ok_slash _ _ _ _ Ho) as (H1 & (ax & t & ps & ->) & H3 & H4). rewrite (lkind_slash E e1 _ _ _ _ eq_refl) in Hlk. cbn [spine] in HR.
          apply app_inj_tail in HR as [HR1 HR2]. rewrite HR2 in Hlk. split; [exact HR1|congruence].
        - cbn [spine] in HR. destruct P as [|p0 P0]; [|destruct P0; discriminate]. injection HR as HR2. unfold lkind in Hlk. cbn [last_step] in Hlk. rewrite HR2 in Hlk. split; [reflexivity|congruence].
 }
      destruct Hrt as [Hrt ->]. rewrite Hrt in Hb. destruct Hs2 as (_ & _ & _ & HDt). destruct D as [q|q|] eqn:ED; [discriminate| |contradiction].
      cbn [term_items] in Hi. unfold attr_items in Hi. apply in_flat_map in Hi as ([q' w] & _ & Hi). cbn in Hi. destruct (qeqb q' q) eqn:Eq; [|contradiction]. apply qeqb_eq in Eq. subst q'. destruct Hi as [<-|[]].
      exists b, m, (RAttr [] q). split; [exact Hb|]. split; [exact Hgm|]. rewrite ED. cbn. rewrite app_nil_r. split; reflexivity.
    + clear IHR. destruct (past_more e dot (R ++ [x]) Hp Ho HR) as [q0 HD0]; [destruct R; discriminate|].
      assert (Hrt : route e = P ++ s2 :: R).
      { destruct e; cbn [is_path] in Hp; try discriminate.
        - cbn [spine] in HR. rewrite app_comm_cons, app_assoc in HR. apply app_inj_tail in HR as [HR1 HR2]. exact HR1.
        - cbn [spine] in HR. apply (f_equal (@length _)) in HR. rewrite !app_length in HR. cbn in HR. rewrite app_length in HR. cbn in HR. lia. }
      rewrite Hrt in Hb. destruct (sel_past _ _ _ Hb (ex_intro _ _ HD0)) as (b0 & n & c & q' & -> & Hb0 & Hg & HD' & Hc').
      destruct (term_item_addr _ _ _ _ Hi) as (b' & [(qa & w & ->)|(tl & w & ->)]); cbn [ref_of]; [exists b0, n, (RAttr (c ++ b') qa)|exists b0, n, (RText (c ++ b') tl)]; rewrite HD'; cbn [shr oref bref]; rewrite app_assoc;
        (split; [exact Hb0|]); (split; [exact Hg|]); (split; [reflexivity|]); now apply below_app.
Qed.

(** *** removal along the whole path *)
Lemma rm_lead dot e : is_path e = true -> ok E dot e = true -> rereadable e = true -> forall d d' r, tag_of d <> None -> lead e -> remove_xml E e true doc_root d = (d', r) -> keeps d d'.
Proof.
  induction e; cbn [is_path]; intros Hp; try discriminate; intros Ho Hr d d' r Hd (P2 & Hlead) Hm.
  - apply str_eqb_eq in Hp. subst op. destruct (ok_slash _ _ _ _ Ho) as (H1 & (ax & t & ps & ->) & H3 & H4). destruct (rereadable_bin _ _ _ Hr) as [Hr1 Hr2].
    rewrite rm_slash in Hm. unfold bind at 1, reading in Hm. rewrite (find_left _ _ _ _ _ H4 H1 Hr1) in Hm. cbn [spine] in Hlead. rewrite <- app_assoc in Hlead. cbn [app] in Hlead.
    destruct (sel E (spine e1) d) as [|b bs] eqn:Eb; cbn [head_ref] in Hm; [injection Hm as <- _; apply keeps_refl|]. cbn [app] in Hm.
    unfold bind in Hm. assert (Hb : In b (sel E (spine e1) d)) by (rewrite Eb; now left).
    destruct (remove_xml E (EStep ax t ps) true (RElem b) d) as [d1 [x|er]] eqn:E1; pose proof (rm_a (spine e1) (EStep ax t ps) P2 b d d1 _ Hlead Hr2 Hd Hb E1) as S1; [|injection Hm as <- _; exact S1].
    destruct x; [|injection Hm as <- _; exact S1]. assert (Hd1 : tag_of d1 <> None) by (destruct S1 as [<- _]; exact Hd).
    destruct (remove_xml E e1 true doc_root d1) as [d2 [x|er]] eqn:E2; pose proof (IHe1 (joins_path _ _ _ _ H4 H1) H1 Hr1 d1 d2 _ Hd1 (ex_intro _ _ Hlead) E2) as S2; injection Hm as <- _; eapply keeps_trans; eauto.
  - cbn [spine app] in *. apply (rm_a [] (EStep axis node_test predicates) P2 [] d d' r Hlead Hr Hd); [now left|exact Hm].
  - cbn [remove_xml] in Hm. injection Hm as <- _. apply keeps_refl.
Qed.
Lemma rm_fork ie b d d' r : rereadable s2 = true -> In b (sel E P d) -> remove_xml E s2 ie (RElem b) d = (d', r) -> keeps d d'.
Proof.
  intros Hr Hb Hm. destruct Hs2 as (Ho & He & Hk & HD). destruct (kind_estep _ _ _ Hk) as (ax & t & ps & Hs). rewrite Hs in Ho, He, Hk, Hm, Hr. destruct (In_sel_get _ _ _ _ Hb) as [n Hg].
  destruct D_cases as [[q ED]|[q ED]]; rewrite ED in Hk.
  - pose proof (rm_child_step _ _ _ _ _ _ _ _ _ _ _ Ho Hk Hr Hg Hm) as R. destruct (sel E [EStep ax t ps] n) as [|c l]; [destruct R as [-> _]; apply keeps_refl|].
    destruct R as (i & kk & -> & Hi & Hms & [(-> & _)|(-> & _ & _)]); [apply keeps_refl|]. rewrite (upd_at_const _ _ _ _ Hg). apply (keep_fork b d n); auto. rewrite ED.
    eapply sim_remove; [exact Hi|]. unfold has_tag. rewrite (mstep_tag _ _ _ _ Hk Hms). apply qeqb_refl.
  - rewrite (rm_attr _ _ _ _ _ _ _ _ _ Ho Hk Hg) in Hm. destruct (attr_get q (attrs_of n)); injection Hm as <- _; [|apply keeps_refl]. rewrite (upd_at_const _ _ _ _ Hg). apply (keep_fork b d n); auto. rewrite ED. apply sim_del_attr.
Qed.
Lemma rm_in ie ax t ps b0 n c q d d' r : ok E false (EStep ax t ps) = true -> rereadable (EStep ax t ps) = true -> In b0 (sel E P d) -> get_at b0 d = Some n -> D = KChild q -> below q n c -> get_at c n <> None ->
  remove_xml E (EStep ax t ps) ie (RElem (b0 ++ c)) d = (d', r) -> keeps d d'.
Proof.
  intros Ho Hr Hb Hg HD Hc Hgc Hm. destruct (get_at c n) as [m|] eqn:Hgm; [|congruence]. assert (Hg' : get_at (b0 ++ c) d = Some m) by (rewrite get_at_app, Hg; exact Hgm).
  assert (W : forall f, (forall x, tag_of (f x) = tag_of x) -> keeps d (upd_at (b0 ++ c) f d)).
  { intros f Hf. rewrite (upd_local _ _ _ _ _ Hg). apply (keep_fork b0 d n); auto. rewrite HD. now apply stable_upd. }
  destruct (kind E (EStep ax t ps)) as [[q'|q'|]|] eqn:Hk.
  - pose proof (rm_child_step _ _ _ _ _ _ _ _ _ _ _ Ho Hk Hr Hg' Hm) as R. destruct (sel E [EStep ax t ps] m) as [|b l]; [destruct R as [-> _]; apply keeps_refl|].
    destruct R as (i & k & _ & _ & _ & [(-> & _)|(-> & _)]); [apply keeps_refl|]. apply W. intros; apply tag_set_kids.
  - rewrite (rm_attr _ _ _ _ _ _ _ _ _ Ho Hk Hg') in Hm. destruct (attr_get q' (attrs_of m)); injection Hm as <- _; [|apply keeps_refl]. apply W. intros; apply tag_del_attr.
  - destruct (kind_text _ _ _ _ Hk) as [-> _]. cbn [remove_xml] in Hm. rewrite str_eqb_refl in Hm. unfold bind, set_text_at in Hm. cbn [xml_valid forallb] in Hm. injection Hm as <- _. apply W. intros; apply tag_set_text.
  - cbn [ok] in Ho. rewrite Hk in Ho. discriminate.
Qed.
Lemma rm_past dot e : is_path e = true -> ok E dot e = true -> rereadable e = true -> P <> [] -> forall ie d d' r, tag_of d <> None -> past e -> remove_xml E e ie doc_root d = (d', r) -> keeps d d'.
Proof.
  induction e; cbn [is_path]; intros Hp; try discriminate; intros Ho Hr HPn ie d d' r Hd (R & Hpast) Hm.
  - pose proof Hpast as Hpast0. pose proof Ho as Ho0. pose proof Hp as Hp0. apply str_eqb_eq in Hp. subst op. destruct (ok_slash _ _ _ _ Ho) as (H1 & (ax & t & ps & ->) & H3 & H4). destruct (rereadable_bin _ _ _ Hr) as [Hr1 Hr2].
    pose proof (joins_path _ _ _ _ H4 H1) as Hpl. rewrite rm_slash in Hm. unfold bind at 1, reading in Hm. rewrite (find_left _ _ _ _ _ H4 H1 Hr1) in Hm. cbn [spine] in Hpast.
    destruct (sel E (spine e1) d) as [|b bs] eqn:Eb; cbn [head_ref] in Hm; [injection Hm as <- _; apply keeps_refl|]. cbn [app] in Hm.
    unfold bind in Hm. assert (Hb : In b (sel E (spine e1) d)) by (rewrite Eb; now left).
    assert (G : forall d1 r1, remove_xml E (EStep ax t ps) ie (RElem b) d = (d1, r1) -> keeps d d1).
    { intros d1 rr H. destruct R as [|x0 R] using rev_ind.
      - apply app_inj_tail in Hpast as [HPe Hse]. rewrite HPe in Hb. rewrite Hse in H, Hr2. eapply rm_fork; eauto.
      - clear IHR. rewrite app_comm_cons, app_assoc in Hpast. apply app_inj_tail in Hpast as [Hpl2 Hse].
        destruct (past_more (EBin e1 (u "/") (EStep ax t ps)) dot _ Hp0 Ho0 Hpast0) as [q HD]; [destruct R; discriminate|].
        destruct (In_sel_get _ _ _ _ Hb) as [m Hgm]. rewrite Hpl2 in Hb. destruct (sel_past _ _ _ Hb (ex_intro _ _ HD)) as (b0 & n & c & q' & -> & Hb0 & Hg & HD' & Hc).
        eapply (rm_in ie ax t ps b0 n c q'); eauto. rewrite get_at_app, Hg in Hgm. congruence. }
    destruct (remove_xml E (EStep ax t ps) ie (RElem b) d) as [d1 [x|er]] eqn:E1; pose proof (G _ _ eq_refl) as S1; [|injection Hm as <- _; exact S1].
    destruct x; [|injection Hm as <- _; exact S1]. assert (Hd1 : tag_of d1 <> None) by (destruct S1 as [<- _]; exact Hd).
    destruct (remove_xml E e1 true doc_root d1) as [d2 rr] eqn:E2. assert (S2 : keeps d1 d2).
    { destruct R as [|x0 R] using rev_ind.
      - apply app_inj_tail in Hpast as [HPe Hse]. eapply rm_lead; eauto. exists []. now rewrite app_nil_r.
      - clear IHR. rewrite app_comm_cons, app_assoc in Hpast. apply app_inj_tail in Hpast as [Hpl2 Hse]. eapply (IHe1 Hpl H1 Hr1 HPn true); eauto. exists R. exact Hpl2. }
    destruct rr; injection Hm as <- _; eapply keeps_trans; eauto.
  - cbn [spine] in Hpast. destruct P as [|p0 P0]; [contradiction|]. destruct P0; discriminate.
  - cbn [spine] in Hpast. destruct P as [|p0 P0]; discriminate.
Qed.
(** removing a selected element *)
Lemma rm_item dot e d a j n : is_path e = true -> ok E dot e = true -> past e -> In (IElem (a ++ [j]) n) (selects E e d) -> keeps d (upd_at a (remove_kid j) d).
Proof.
  intros Hp Ho Hpast Hi. pose proof (selects_past dot e d _ Hp Ho Hpast Hi) as (b & m & y & Hb & Hg & Hy & Hor). cbn [ref_of] in Hy.
  destruct y as [c|c q|c t|w]; cbn [shr] in Hy; try discriminate. injection Hy as Hy. destruct D_cases as [[q ED]|[q ED]]; rewrite ED in Hor; cbn [oref bref] in Hor; [|discriminate].
  destruct Hor as (i1 & c' & kk & -> & Hi1 & Ht). destruct c' as [|x c'] using rev_ind.
  - apply app_inj_tail in Hy as [-> ->]. rewrite (upd_at_const _ _ _ _ Hg). apply (keep_fork b d m); auto. rewrite ED. eapply sim_remove; [exact Hi1|]. unfold has_tag. rewrite Ht. apply qeqb_refl.
  - clear IHc'. rewrite app_comm_cons, app_assoc in Hy. apply app_inj_tail in Hy as [-> ->]. rewrite (upd_local _ _ _ _ _ Hg). apply (keep_fork b d m); auto. rewrite ED. apply stable_upd; [|intros; apply tag_set_kids]. exists i1, c', kk. auto.
Qed.
End Share.

