(** Form class creation: C40.  Listing ([listed], [listed_below], [mentions]) is specified in Props_FieldLists.v. *)
From Coq Require Import String List Arith NArith Bool Lia Permutation Sorted.
From Verif Require Import PyStr Classes ClassProofs FieldLists FieldListProofs FormFields FormFieldProofs Props_FieldLists.
Import ListNotations.
Opaque u.

(** ** Specification *)
(** the node class reached from class [c] through the node fields (and node list fields) [path] *)
Fixpoint class_at (M : models) (c : nat) (path : list str) : option nat :=
  match path with
  | [] => Some c
  | n :: r => match dget n (M c) with
              | Some m => match m_choices m, m_kind m with
                          | (None | Some []), (KNode c' | KNodeList c') => class_at M c' r
                          | _, _ => None
                          end
              | None => None
              end
  end.
(** the (sub)form, or the form of the formset, at [path] *)
Fixpoint form_at (F : fform) (path : list str) : option fform :=
  match path with
  | [] => Some F
  | n :: r => match dget n (g_subs F), dget n (g_sets F) with
              | Some G, _ => form_at G r
              | None, Some (SNode G) => form_at G r
              | _, _ => None
              end
  end.
(** [n] should appear in the form at [path]: it is selected (nothing is listed for that form, or it or something below it
    is) and not excluded *)
Definition visible (fields exclude : option (list str)) (path : list str) (n : str) : Prop :=
  match fields with
  | None => True
  | Some names => (path <> [] /\ ~ listed_below names path) \/ listed names (path ++ [n]) \/ listed_below names (path ++ [n])
  end /\
  match exclude with None => True | Some names => ~ listed names (path ++ [n]) end.
Definition arg (l : option (list str)) : larg := match l with None => ANone | Some l => ANames l end.
(** a sane set of classes: each field once, no dots in names, and no field object used under two names of one class *)
Definition sane (M : models) : Prop :=
  forall c, NoDup (map fst (M c)) /\ Forall is_name (map fst (M c)) /\ NoDup (map (fun nm => m_counter (snd nm)) (M c)).

(** ** lemmas *)
Definition olevel (t : option pfl) (path : list str) : option pfl := match t with Some t => level t path | None => None end.
Definition prefixes_shown (fl el : option pfl) (path : list str) : Prop :=
  forall q n r, path = q ++ n :: r -> shown (olevel fl q) (olevel el q) n = true.
Lemma olevel_sub fl n q : olevel (sub_list fl n) q = olevel fl (n :: q).
Proof. destruct fl as [t|]; cbn; [|reflexivity]. destruct (dget n (p_subs t)); reflexivity. Qed.
Lemma prefixes_cons fl el n r : prefixes_shown fl el (n :: r) <-> shown fl el n = true /\ prefixes_shown (sub_list fl n) (sub_list el n) r.
Proof.
  unfold prefixes_shown. split.
  - intros H. split; [specialize (H [] n r eq_refl); cbn in H; now destruct fl, el|]. intros q m s ->. specialize (H (n :: q) m s eq_refl). now rewrite <- !olevel_sub in H.
  - intros [H1 H2] q m s E. destruct q as [|h q]; cbn in E; injection E as -> ->; [now destruct fl, el|]. rewrite <- !olevel_sub. now apply (H2 q m s).
Qed.
Lemma sane_here M fl el c : sane M -> NoDup (map (fun nm => m_counter (snd nm)) (here M fl el c)).
Proof.
  intros S. destruct (S c) as (_ & _ & H). unfold here. clear -H. induction (M c) as [|[n m] l IH]; cbn in *; [constructor|]. inversion H; subst. destruct (shown fl el n); cbn; [|auto]. constructor; [|auto].
  intros G. apply in_map_iff in G as (x & E & G). apply filter_In in G as [G _]. apply H2. rewrite <- E. apply in_map_iff. exists x. auto.
Qed.
Lemma form_at_form M : sane M -> forall path fuel fl el c F, form_for fuel M (Some []) fl el c = FOk F ->
  (forall G, form_at F path = Some G -> prefixes_shown fl el path /\ exists c' g, class_at M c path = Some c' /\ form_for (S g) M (Some []) (olevel fl path) (olevel el path) c' = FOk G) /\
  (prefixes_shown fl el path -> class_at M c path <> None -> form_at F path <> None).
Proof.
  intros HS. induction path as [|n r IH]; intros fuel fl el c F HF; (destruct fuel as [|g]; [discriminate|]).
  - split; [|discriminate]. intros G [= <-]. split; [intros q m s E; now destruct q|]. exists c, g. split; [reflexivity|]. now destruct fl, el.
  - assert (Hn : NoDup (map fst (M c))) by apply HS. assert (Hc : fl = None -> NoDup (map (fun nm => m_counter (snd nm)) (here M fl el c))) by (intros _; now apply sane_here).
    pose proof (keys_all g M (Some []) fl el c F HF Hn Hc) as K.
    assert (Hsub : forall G, dget n (g_subs F) = Some G -> shown fl el n = true /\ exists m c', dget n (M c) = Some m /\ (m_choices m = None \/ m_choices m = Some []) /\ m_kind m = KNode c' /\ form_for g M (Some []) (sub_list fl n) (sub_list el n) c' = FOk G).
    { intros G HG. assert (Hk := HG). apply dget_In, (in_map fst) in Hk. apply (K SlSub n) in Hk as [_ Hsh]. split; [assumption|]. apply (get_sub g M (Some []) fl el c F HF Hn Hc) in HG as (m & Hm & HG). exists m.
      unfold contribute, sub_form in HG. cbn [dget] in HG. destruct (m_choices m) as [[|]|]; try discriminate; (destruct (m_kind m) as [| | | |c'|c'| | |]; try discriminate; destruct (form_for g M _ _ _ _) eqn:Ef; try discriminate; injection HG as <-; exists c'; auto). }
    assert (Hset : forall G, dget n (g_sets F) = Some (SNode G) -> shown fl el n = true /\ exists m c', dget n (M c) = Some m /\ (m_choices m = None \/ m_choices m = Some []) /\ m_kind m = KNodeList c' /\ form_for g M (Some []) (sub_list fl n) (sub_list el n) c' = FOk G).
    { intros G HG. assert (Hk := HG). apply dget_In, (in_map fst) in Hk. apply (K SlSet n) in Hk as [_ Hsh]. split; [assumption|]. apply (get_set g M (Some []) fl el c F HF Hn Hc) in HG as (m & Hm & HG). exists m.
      unfold contribute, sub_form in HG. cbn [dget] in HG. destruct (m_choices m) as [[|]|]; try discriminate; (destruct (m_kind m) as [| | | |c'|c'| | |]; try discriminate; destruct (form_for g M _ _ _ _) eqn:Ef; try discriminate; injection HG as <-; exists c'; auto). }
    split.
    + intros G HG. cbn in HG. assert (exists G1 m c', form_at G1 r = Some G /\ shown fl el n = true /\ dget n (M c) = Some m /\ (m_choices m = None \/ m_choices m = Some []) /\ (m_kind m = KNode c' \/ m_kind m = KNodeList c') /\ form_for g M (Some []) (sub_list fl n) (sub_list el n) c' = FOk G1) as (G1 & m & c' & E1 & E2 & E3 & E4 & E5 & E6).
      { destruct (dget n (g_subs F)) as [G1|] eqn:E1.
        - destruct (Hsub _ eq_refl) as (? & m & c' & ? & ? & ? & ?). exists G1, m, c'. repeat (split; auto).
        - destruct (dget n (g_sets F)) as [[G1| |]|] eqn:E2; try discriminate. destruct (Hset _ eq_refl) as (? & m & c' & ? & ? & ? & ?). exists G1, m, c'. repeat (split; auto). }
      destruct (proj1 (IH g _ _ _ _ E6) G E1) as (P & c2 & g2 & C & Fo). split; [now apply prefixes_cons|]. exists c2, g2. rewrite <- !olevel_sub. split; [|assumption]. cbn. rewrite E3. destruct E4 as [-> | ->], E5 as [-> | ->]; assumption.
    + rewrite prefixes_cons. intros [P1 P2] C. cbn in C |- *. destruct (dget n (M c)) as [m|] eqn:Em; [|congruence].
      assert (exists c', (m_choices m = None \/ m_choices m = Some []) /\ (m_kind m = KNode c' \/ m_kind m = KNodeList c') /\ class_at M c' r <> None) as (c' & Hch & Hk & C').
      { destruct (m_choices m) as [[|]|]; try congruence; destruct (m_kind m); try congruence; eauto 6. }
      assert (Hslot : slot_of m = Some (match m_kind m with KNode _ => SlSub | _ => SlSet end)) by (unfold slot_of; destruct Hch as [-> | ->], Hk as [-> | ->]; reflexivity).
      assert (Hin : In n (keys_in (match m_kind m with KNode _ => SlSub | _ => SlSet end) F)).
      { apply K. split; [|assumption]. unfold kind_is. rewrite Em, Hslot. now destruct (m_kind m). }
      destruct Hk as [Hk|Hk]; rewrite Hk in *; cbn [keys_in] in Hin; apply in_map_iff in Hin as ([n' v] & En & Hin); cbn [fst] in En; subst n'.
      * destruct (dget n (g_subs F)) as [G1|] eqn:E1; [|apply dget_None in E1; exfalso; apply E1; now apply (in_map fst) in Hin]. destruct (Hsub _ eq_refl) as (_ & m2 & c2 & Hm2 & _ & Hk2 & HF2). try rewrite Em in Hm2. injection Hm2 as <-. rewrite Hk in Hk2. injection Hk2 as <-.
        now apply (proj2 (IH g _ _ _ _ HF2) P2).
      * destruct (dget n (g_subs F)) as [G1|] eqn:E1; [destruct (Hsub _ eq_refl) as (_ & m2 & c2 & Hm2 & _ & Hk2 & HF2); congruence|].
        destruct (dget n (g_sets F)) as [v'|] eqn:E2; [|apply dget_None in E2; exfalso; apply E2; now apply (in_map fst) in Hin].
        assert (exists G1, v' = SNode G1) as [G1 ->]. { destruct (get_set g M (Some []) fl el c F HF Hn Hc _ _ E2) as (m2 & Hm2 & Hco). try rewrite Em in Hm2. injection Hm2 as <-. unfold contribute in Hco. rewrite Hk in Hco. destruct Hch as [Hch|Hch]; rewrite Hch in Hco; destruct (sub_form _ _ _ _ _ _); try discriminate; injection Hco as <-; eauto. }
        destruct (Hset _ eq_refl) as (_ & m2 & c2 & Hm2 & _ & Hk2 & HF2). try rewrite Em in Hm2. injection Hm2 as <-. rewrite Hk in Hk2. injection Hk2 as <-.
        now apply (proj2 (IH g _ _ _ _ HF2) P2).
Qed.

Lemma included_spec fields path n : is_path path -> is_name n ->
  (included (olevel (match fields with Some l => Some (parse_field_list l true) | None => None end) path) n = true <->
   match fields with
   | None => True
   | Some names => (path <> [] /\ ~ listed_below names path) \/ listed names (path ++ [n]) \/ listed_below names (path ++ [n])
   end).
Proof.
  intros Hp Hn. destruct fields as [names|]; [|cbn; tauto]. cbn [olevel]. pose proof (C39_levels names true path Hp) as L. pose proof (C39_selected names true path n Hp) as S. rewrite fields_at_level in L, S.
  destruct (level (parse_field_list names true) path) as [t|]; cbn [option_map included] in *.
  - rewrite str_mem_In. assert (S' : In n (p_fields t) <-> listed names (path ++ [n]) \/ listed_below names (path ++ [n])).
    { split; [intros H; destruct (proj1 S) as [_ [G|[_ G]]]; eauto|]. intros H. destruct (proj2 S) as (fs & [= <-] & G); [|exact G]. split; [assumption|]. destruct H; auto. }
    rewrite S'. split; [auto|]. intros [[H1 H2]|H]; [|assumption]. destruct (proj1 L) as [G|G]; [eauto|contradiction|contradiction].
  - split; [|auto]. intros _. left. split; intros H; destruct (proj2 L) as [? G]; auto; discriminate.
Qed.
Lemma excluded_spec exclude path n : is_path path -> is_name n ->
  (excluded (olevel (match exclude with Some l => Some (parse_field_list l false) | None => None end) path) n = true <->
   match exclude with None => False | Some names => listed names (path ++ [n]) end).
Proof.
  intros Hp Hn. destruct exclude as [names|]; [|cbn; split; [discriminate|tauto]]. cbn [olevel]. pose proof (C39_selected names false path n Hp) as S. rewrite fields_at_level in S.
  destruct (level (parse_field_list names false) path) as [t|]; cbn [option_map excluded] in *.
  - rewrite str_mem_In. split; [intros H; destruct (proj1 S) as [_ [G|[G _]]]; [eauto|assumption|discriminate]|]. intros H. destruct (proj2 S) as (fs & [= <-] & G); auto.
  - split; [discriminate|]. intros H. destruct (proj2 S) as (fs & G & _); [auto|discriminate].
Qed.
Definition pfields (l : option (list str)) : option pfl := match l with Some l => Some (parse_field_list l true) | None => None end.
Definition pexclude (l : option (list str)) : option pfl := match l with Some l => Some (parse_field_list l false) | None => None end.
Lemma shown_visible fields exclude path n : is_path path -> is_name n ->
  (shown (olevel (pfields fields) path) (olevel (pexclude exclude) path) n = true <-> visible fields exclude path n).
Proof.
  intros Hp Hn. unfold shown, visible, pfields, pexclude. rewrite andb_true_iff, negb_true_iff, (included_spec fields path n Hp Hn), <- not_true_iff_false, (excluded_spec exclude path n Hp Hn). destruct exclude; tauto.
Qed.
Lemma prefixes_visible fields exclude path : is_path path ->
  (prefixes_shown (pfields fields) (pexclude exclude) path <-> forall q n r, path = q ++ n :: r -> visible fields exclude q n).
Proof.
  intros Hp. unfold prefixes_shown. split; intros H q n r E; specialize (H q n r E); assert (is_path q /\ is_name n) as [Hq Hn] by (rewrite E in Hp; apply Forall_app in Hp as [? Hp]; inversion Hp; auto); now apply (shown_visible fields exclude q n Hq Hn).
Qed.
Lemma class_form fuel M c fields exclude F : form_class fuel M c (arg fields) (arg exclude) [] [] = FOk F ->
  form_for fuel M (Some []) (pfields fields) (pexclude exclude) c = FOk F.
Proof.
  unfold form_class, formfields_for_xmlobject, options_of. cbn [o_fields o_exclude]. replace (match arg fields with ANone => None | ANames l => Some (parse_field_list l true) | AParsed t => Some t end) with (pfields fields) by now destruct fields.
  replace (match arg exclude with ANone => None | ANames l => Some (parse_field_list l false) | AParsed t => Some t end) with (pexclude exclude) by now destruct exclude.
  destruct (form_for fuel M (Some []) (pfields fields) (pexclude exclude) c) as [[]|]; [|discriminate]. intros [= <-]. reflexivity.
Qed.

(** ** C40: a form class shows exactly the visible fields, at every depth of subforms and formsets *)
Theorem C40_shown : forall fuel M c fields exclude F path n, sane M ->
  form_class fuel M c (arg fields) (arg exclude) [] [] = FOk F -> is_path path ->
  ((exists G s, form_at F path = Some G /\ In n (keys_in s G)) <->
   (exists c' m, class_at M c path = Some c' /\ dget n (M c') = Some m) /\
   (forall q k r, path ++ [n] = q ++ k :: r -> visible fields exclude q k)).
Proof.
  intros fuel M c fields exclude F path n HS HF Hp. apply class_form in HF. destruct (form_at_form M HS path _ _ _ _ _ HF) as [P1 P2].
  assert (Ext : forall c', class_at M c path = Some c' -> In n (map fst (M c')) ->
    ((forall q k r, path ++ [n] = q ++ k :: r -> visible fields exclude q k) <-> prefixes_shown (pfields fields) (pexclude exclude) path /\ shown (olevel (pfields fields) path) (olevel (pexclude exclude) path) n = true)).
  { intros c' _ Hin. assert (Hname : is_name n). { destruct (HS c') as (_ & Hd & _). rewrite Forall_forall in Hd. now apply Hd. }
    rewrite (prefixes_visible fields exclude path Hp), (shown_visible fields exclude path n Hp Hname). split.
    - intros H. split; [|apply (H path n []); reflexivity]. intros q k r ->. apply (H q k (r ++ [n])). now rewrite <- app_assoc.
    - intros [H1 H2] q k r E. destruct r as [|x r] using rev_ind.
      + apply app_inj_tail in E as [<- <-]. assumption.
      + clear IHr. rewrite app_comm_cons, app_assoc in E. apply app_inj_tail in E as [E _]. now apply (H1 q k r). }
  split.
  - intros (G & s & HG & Hk). destruct (P1 G HG) as (Hpre & c' & g & Hc & HG2). destruct (HS c') as (Hn & Hd & Hcnt).
    apply (keys_all g M (Some []) _ _ c' G HG2 Hn (fun _ => sane_here M _ _ c' HS)) in Hk as [Hk Hsh]. unfold kind_is in Hk. destruct (dget n (M c')) as [m|] eqn:Em; [|discriminate]. split; [eauto|].
    apply (Ext c' Hc); [apply dget_In in Em; now apply (in_map fst) in Em|auto].
  - intros [(c' & m & Hc & Hm) Hv]. apply (Ext c' Hc) in Hv as [Hpre Hsh]; [|apply dget_In in Hm; now apply (in_map fst) in Hm].
    destruct (form_at F path) as [G|] eqn:EG; [|exfalso; apply (P2 Hpre); congruence]. destruct (P1 G eq_refl) as (_ & c2 & g & Hc2 & HG2). rewrite Hc in Hc2. injection Hc2 as <-. destruct (HS c') as (Hn & Hd & Hcnt).
    pose proof (keys_all g M (Some []) _ _ c' G HG2 Hn (fun _ => sane_here M _ _ c' HS)) as K.
    assert (exists s, slot_of m = Some s) as [s Hs].
    { destruct (slot_of m) as [s|] eqn:Es; [eauto|]. exfalso. pose proof HG2 as HL. cbn [form_for] in HL. destruct (loop _ _ _ _ _ _) as [a|] eqn:El; [|discriminate]. apply dget_In in Hm. revert El.
      apply (loop_fails _ _ _ _ _ _ n m (EUnsupported n) Hm Hsh). unfold slot_of, contribute in *. destruct (m_choices m) as [[|]|]; try discriminate; destruct (m_kind m); try discriminate; reflexivity. }
    exists G, s. split; [reflexivity|]. apply K. split; [|assumption]. unfold kind_is. rewrite Hm, Hs. now destruct s.
Qed.

(** which of the three dictionaries it is in *)
Theorem C40_slots : forall fuel M c fields exclude F path G c' n m s, sane M ->
  form_class fuel M c (arg fields) (arg exclude) [] [] = FOk F -> form_at F path = Some G -> class_at M c path = Some c' -> dget n (M c') = Some m ->
  In n (keys_in s G) -> s = match m_choices m, m_kind m with
    | Some (_ :: _), _ => SlField
    | _, (KNodeList _ | KStringList | KIntList) => SlSet
    | _, KNode _ => SlSub
    | _, _ => SlField
    end.
Proof.
  intros fuel M c fields exclude F path G c' n m s HS HF HG Hc Hm Hk. apply class_form in HF. destruct (form_at_form M HS path _ _ _ _ _ HF) as [P1 _]. destruct (P1 G HG) as (_ & c2 & g & Hc2 & HG2). rewrite Hc in Hc2. injection Hc2 as <-. destruct (HS c') as (Hn & Hd & Hcnt).
  apply (keys_all g M (Some []) _ _ c' G HG2 Hn (fun _ => sane_here M _ _ c' HS)) in Hk as [Hk _]. unfold kind_is in Hk. rewrite Hm in Hk. unfold slot_of in Hk. destruct (m_choices m) as [[|]|]; destruct (m_kind m), s; try discriminate; reflexivity.
Qed.

(** ** order: that of the list if there is one for this form ... *)
Theorem C40_order_listed : forall fuel M c names exclude F path G s, sane M ->
  form_class fuel M c (ANames names) (arg exclude) [] [] = FOk F -> is_path path -> form_at F path = Some G -> path = [] \/ listed_below names path ->
  exists p, keys_in s G = filter p (firsts (mentions names path)).
Proof.
  intros fuel M c names exclude F path G s HS HF Hp HG Hl. change (ANames names) with (arg (Some names)) in HF. apply class_form in HF. destruct (form_at_form M HS path _ _ _ _ _ HF) as [P1 _]. destruct (P1 G HG) as (_ & c2 & g & Hc2 & HG2).
  destruct (HS c2) as (Hn & _ & _). destruct (keys_in_eq g M (Some []) _ _ c2 G HG2 Hn (fun _ => sane_here M _ _ c2 HS)) as (L & _ & _ & K). rewrite K. unfold order_names. cbn [pfields olevel] in *.
  apply (C39_levels names true path Hp) in Hl as [fs Hfs]. pose proof (C39_order_include _ _ _ Hfs) as O. rewrite fields_at_level in Hfs. destruct (level (parse_field_list names true) path) as [t|]; [|discriminate]. injection Hfs as Hfs. rewrite Hfs, O. eauto.
Qed.
(** ... and declaration order (creation_counter) otherwise *)
Definition counter_of (M : models) (c : nat) (n : str) : nat := match dget n (M c) with Some m => m_counter m | None => 0 end.
Lemma sorted_filter {A} (R : A -> A -> Prop) p l : StronglySorted R l -> StronglySorted R (filter p l).
Proof.
  induction 1 as [|x l H IH Hx]; cbn; [constructor|]. destruct (p x); [|assumption]. constructor; [assumption|]. rewrite Forall_forall in *. intros y Hy. apply filter_In in Hy as [Hy _]. auto.
Qed.
Lemma sorted_map {A B} (f : A -> B) (R : B -> B -> Prop) l : StronglySorted R (map f l) <-> StronglySorted (fun x y => R (f x) (f y)) l.
Proof.
  induction l as [|x l IH]; cbn; [split; constructor|]. split; intros H; inversion H; subst; constructor; try (now apply IH); rewrite Forall_forall in *; intros y Hy; [|apply in_map_iff in Hy as (z & <- & Hy)]; auto using in_map.
Qed.
Theorem C40_order_default : forall fuel M c fields exclude F path G c' s, sane M ->
  form_class fuel M c (arg fields) (arg exclude) [] [] = FOk F -> is_path path -> form_at F path = Some G -> class_at M c path = Some c' ->
  match fields with None => True | Some names => path <> [] /\ ~ listed_below names path end ->
  StronglySorted lt (map (counter_of M c') (keys_in s G)).
Proof.
  intros fuel M c fields exclude F path G c' s HS HF Hp HG Hc Hl. apply class_form in HF. destruct (form_at_form M HS path _ _ _ _ _ HF) as [P1 _]. destruct (P1 G HG) as (_ & c2 & g & Hc2 & HG2). rewrite Hc in Hc2. injection Hc2 as <-.
  assert (Hno : olevel (pfields fields) path = None).
  { destruct fields as [names|]; [|reflexivity]. cbn. destruct (level (parse_field_list names true) path) eqn:E; [|reflexivity]. exfalso. destruct Hl as [H1 H2]. destruct (proj1 (C39_levels names true path Hp)); [|auto|auto]. rewrite fields_at_level, E. cbn. eauto. }
  destruct (HS c') as (Hn & _ & _). destruct (keys_in_eq g M (Some []) _ _ c' G HG2 Hn (fun _ => sane_here M _ _ c' HS)) as (L & L1 & _ & K).
  destruct (sorted_names M _ _ c' Hn (fun _ => sane_here M _ _ c' HS) L L1 Hno) as (_ & Hnd & Hs). rewrite K. apply sorted_map, sorted_filter. apply (sorted_map (counter_of M c') lt) in Hs. rewrite Hno in *.
  assert (firsts (order_names None L) = order_names None L) as ->; [|exact Hs]. clear -Hnd. unfold firsts. assert (G : forall x, In x (order_names None L) -> ~ In x ([] : list str)) by (intros ? ? []). revert G. generalize (@nil str) as seen. induction (order_names None L) as [|x l IH]; intros seen G; cbn; [reflexivity|]. inversion Hnd; subst.
  destruct (str_mem x seen) eqn:E; [apply str_mem_In in E; exfalso; now apply (G x (or_introl eq_refl))|]. f_equal. apply IH; [assumption|]. intros y Hy [<-|Hy2]; [contradiction|]. apply (G y); [now right|assumption].
Qed.

(** ** what the form fields are like *)
Theorem C40_contents : forall fuel M c fields exclude F path G c' n f, sane M ->
  form_class fuel M c (arg fields) (arg exclude) [] [] = FOk F -> form_at F path = Some G -> class_at M c path = Some c' -> dget n (g_fields G) = Some f ->
  exists m, dget n (M c') = Some m /\ ff_help f = m_help m /\
    (forall v, m_verbose m = Some v -> ff_label f = LVerbose v) /\ (m_verbose m = None -> ff_label f = LFromName n) /\
    (* a choice field offers the choices of the model field, after a blank one if it is optional and has none *)
    (forall ch, ff_type f = TChoice ch -> exists cs, m_choices m = Some cs /\ cs <> [] /\ (ch = cs \/ ch = [] :: cs) /\
       (ch = [] :: cs <-> m_required m = Some false /\ ~ In [] cs)) /\
    (* a check box is never required; the others are as the model field says *)
    ff_required f = match ff_type f with TBool => Some false | _ => m_required m end /\
    match ff_type f with
    | TChoice _ => True
    | TChar => m_kind m = KString | TInt => m_kind m = KInt | TDate => m_kind m = KDate | TBool => m_kind m = KBool
    end.
Proof.
  intros fuel M c fields exclude F path G c' n f HS HF HG Hc Hf. apply class_form in HF. destruct (form_at_form M HS path _ _ _ _ _ HF) as [P1 _]. destruct (P1 G HG) as (_ & c2 & g & Hc2 & HG2). rewrite Hc in Hc2. injection Hc2 as <-. destruct (HS c') as (Hn & _ & _).
  destruct (get_plain g M (Some []) _ _ c' G HG2 Hn (fun _ => sane_here M _ _ c' HS) n f Hf) as (m & Hm & Hco). exists m. split; [assumption|]. unfold contribute, plain_field in Hco.
  destruct (m_choices m) as [[|c0 cs]|] eqn:Ech.
  - destruct (m_kind m) eqn:Ek; try discriminate; try (destruct (sub_form _ _ _ _ _ _); discriminate); injection Hco as <-; cbn; (split; [reflexivity|]); (split; [intros v ->; reflexivity|]); (split; [intros ->; reflexivity|]); (split; [discriminate|]); split; auto.
  - injection Hco as <-. cbn [ff_type ff_help ff_label ff_required]. split; [reflexivity|]. split; [intros v ->; reflexivity|]. split; [intros ->; reflexivity|]. split; [|split; auto].
    intros ch [= <-]. exists (c0 :: cs). split; [reflexivity|]. split; [discriminate|]. assert (Hne : c0 :: cs <> [] :: c0 :: cs) by (intros E; apply (f_equal (@length str)) in E; cbn in E; lia).
    destruct (m_required m) as [[|]|]; try (split; [now left|]; split; [intros E; contradiction|intros [E _]; discriminate]).
    match goal with |- context [negb ?b] => change b with (str_mem [] (c0 :: cs)) end. destruct (str_mem [] (c0 :: cs)) eqn:Es; cbn [negb].
    + apply str_mem_In in Es. split; [now left|]. split; [intros E; contradiction|intros [_ E]; contradiction].
    + split; [now right|]. split; [|reflexivity]. intros _. split; [reflexivity|]. rewrite <- str_mem_In. congruence.
  - destruct (m_kind m) eqn:Ek; try discriminate; try (destruct (sub_form _ _ _ _ _ _); discriminate); injection Hco as <-; cbn; (split; [reflexivity|]); (split; [intros v ->; reflexivity|]); (split; [intros ->; reflexivity|]); (split; [discriminate|]); split; auto.
Qed.

(** a declared form field replaces the generated one of that name or is added; declared ones are shown even if the list
    leaves the name out *)
Theorem C40_declared : forall fuel M c fields exclude ds F n, NoDup (map fst ds) ->
  form_class fuel M c fields exclude ds [] = FOk F ->
  exists F0, form_class fuel M c fields exclude [] [] = FOk F0 /\ g_subs F = g_subs F0 /\ g_sets F = g_sets F0 /\
    dget n (g_fields F) = match dget n ds with Some f => Some f | None => dget n (g_fields F0) end.
Proof.
  intros fuel M c fields exclude ds F n Hnd H. unfold form_class in *. destruct (formfields_for_xmlobject fuel M c ANone ANone _ _) as [f|]; [|discriminate]. injection H as <-. eexists. split; [reflexivity|]. cbn. split; [reflexivity|]. split; [reflexivity|]. now apply dget_dupdate.
Qed.

(** what the formsets are like *)
Theorem C40_formsets : forall fuel M c fields exclude F path G c' n s, sane M ->
  form_class fuel M c (arg fields) (arg exclude) [] [] = FOk F -> form_at F path = Some G -> class_at M c path = Some c' -> dget n (g_sets G) = Some s ->
  exists m, dget n (M c') = Some m /\
    match s with SStrings => m_kind m = KStringList | SInts => m_kind m = KIntList | SNode _ => exists k, m_kind m = KNodeList k end.
Proof.
  intros fuel M c fields exclude F path G c' n s HS HF HG Hc Hf. apply class_form in HF. destruct (form_at_form M HS path _ _ _ _ _ HF) as [P1 _]. destruct (P1 G HG) as (_ & c2 & g & Hc2 & HG2). rewrite Hc in Hc2. injection Hc2 as <-. destruct (HS c') as (Hn & _ & _).
  destruct (get_set g M (Some []) _ _ c' G HG2 Hn (fun _ => sane_here M _ _ c' HS) n s Hf) as (m & Hm & Hco). exists m. split; [assumption|]. unfold contribute, plain_field in Hco.
  destruct (m_choices m) as [[|c0 cs]|]; try discriminate; (destruct (m_kind m); try discriminate; try (destruct (sub_form _ _ _ _ _ _); try discriminate); injection Hco as <-; eauto).
Qed.

(** ** declared subforms *)
Lemma class_form2 fuel M c fields exclude dfs ds F : form_class fuel M c (arg fields) (arg exclude) dfs ds = FOk F ->
  exists F0, form_for fuel M (Some ds) (pfields fields) (pexclude exclude) c = FOk F0 /\ g_subs F = g_subs F0 /\ g_sets F = g_sets F0.
Proof.
  unfold form_class, formfields_for_xmlobject, options_of. cbn [o_fields o_exclude]. replace (match arg fields with ANone => None | ANames l => Some (parse_field_list l true) | AParsed t => Some t end) with (pfields fields) by now destruct fields.
  replace (match arg exclude with ANone => None | ANames l => Some (parse_field_list l false) | AParsed t => Some t end) with (pexclude exclude) by now destruct exclude.
  destruct (form_for fuel M (Some ds) (pfields fields) (pexclude exclude) c) as [F0|]; [|discriminate]. intros [= <-]. exists F0. auto.
Qed.
(** a declared subform is used for the node field (or node list field) of its name, if that field appears in the form at all;
    it changes nothing else *)
Theorem C40_declared_subforms : forall fuel M c fields exclude dfs ds F, sane M ->
  form_class fuel M c (arg fields) (arg exclude) dfs ds = FOk F ->
  (forall n, In n (map fst (g_subs F)) <-> exists m k, dget n (M c) = Some m /\ (m_choices m = None \/ m_choices m = Some []) /\ m_kind m = KNode k /\ visible fields exclude [] n) /\
  (forall n, In n (map fst (g_sets F)) <-> exists m, dget n (M c) = Some m /\ (m_choices m = None \/ m_choices m = Some []) /\ match m_kind m with KNodeList _ | KStringList | KIntList => True | _ => False end /\ visible fields exclude [] n) /\
  (forall n D G, dget n ds = Some D -> (dget n (g_subs F) = Some G \/ dget n (g_sets F) = Some (SNode G)) -> G = D) /\
  (forall F0, form_class fuel M c (arg fields) (arg exclude) dfs [] = FOk F0 -> g_fields F = g_fields F0 /\
     forall n, dget n ds = None -> dget n (g_subs F) = dget n (g_subs F0) /\ dget n (g_sets F) = dget n (g_sets F0)).
Proof.
  intros fuel M c fields exclude dfs ds F HS HF. pose proof HF as HF'. apply class_form2 in HF as (F1 & HF & E1 & E2). destruct fuel as [|g]; [discriminate|]. destruct (HS c) as (Hn & Hd & _).
  pose proof (fun _ : pfields fields = None => sane_here M (pfields fields) (pexclude exclude) c HS) as Hcn.
  assert (Hvis : forall n, In n (map fst (M c)) -> (shown (pfields fields) (pexclude exclude) n = true <-> visible fields exclude [] n)).
  { intros n Hi. rewrite Forall_forall in Hd. pose proof (shown_visible fields exclude [] n) as SV. assert (Q1 : olevel (pfields fields) [] = pfields fields) by now destruct (pfields fields). assert (Q2 : olevel (pexclude exclude) [] = pexclude exclude) by now destruct (pexclude exclude). rewrite Q1, Q2 in SV. apply SV; [constructor|now apply Hd]. }
  pose proof (keys_all g M (Some ds) _ _ c F1 HF Hn Hcn) as K. rewrite E1, E2. split; [|split; [|split]].
  - intros n. specialize (K SlSub n). cbn in K. rewrite K. unfold kind_is. split.
    + intros [H1 H2]. destruct (dget n (M c)) as [m|] eqn:Em; [|discriminate]. exists m. unfold slot_of in H1. assert (Hi : In n (map fst (M c))) by (apply dget_In in Em; now apply (in_map fst) in Em). apply Hvis in H2; [|assumption]. destruct (m_choices m) as [[|]|], (m_kind m) as [| | | |k|k| | |]; try discriminate; exists k; auto.
    + intros (m & k & Em & Hc & Hk & Hv). assert (Hi : In n (map fst (M c))) by (apply dget_In in Em; now apply (in_map fst) in Em). apply Hvis in Hv; [|assumption]. rewrite Em. unfold slot_of. rewrite Hk. now destruct Hc as [-> | ->].
  - intros n. specialize (K SlSet n). cbn in K. rewrite K. unfold kind_is. split.
    + intros [H1 H2]. destruct (dget n (M c)) as [m|] eqn:Em; [|discriminate]. exists m. unfold slot_of in H1. assert (Hi : In n (map fst (M c))) by (apply dget_In in Em; now apply (in_map fst) in Em). apply Hvis in H2; [|assumption]. destruct (m_choices m) as [[|]|], (m_kind m) as [| | | |k|k| | |]; try discriminate; auto.
    + intros (m & Em & Hc & Hk & Hv). assert (Hi : In n (map fst (M c))) by (apply dget_In in Em; now apply (in_map fst) in Em). apply Hvis in Hv; [|assumption]. rewrite Em. unfold slot_of. destruct Hc as [-> | ->], (m_kind m); try contradiction; auto.
  - intros n D G HD [HG|HG].
    + destruct (get_sub g M (Some ds) _ _ c F1 HF Hn Hcn n G HG) as (m & Hm & Hco). unfold contribute, sub_form in Hco. rewrite HD in Hco. destruct (m_choices m) as [[|]|]; try discriminate; destruct (m_kind m); try discriminate; now injection Hco.
    + destruct (get_set g M (Some ds) _ _ c F1 HF Hn Hcn n _ HG) as (m & Hm & Hco). unfold contribute, sub_form in Hco. rewrite HD in Hco. destruct (m_choices m) as [[|]|]; try discriminate; destruct (m_kind m); try discriminate; now injection Hco.
  - intros F0 HF0. pose proof HF0 as HF0'. apply class_form2 in HF0 as (F2 & HF0 & E3 & E4). rewrite E3, E4.
    pose proof (keys_all g M (Some []) _ _ c F2 HF0 Hn Hcn) as K0. split.
    + (* the form fields *)
      assert (Q : g_fields F1 = g_fields F2).
      { pose proof HF as A1. pose proof HF0 as A2. destruct (keys_in_eq g M (Some ds) _ _ c F1 HF Hn Hcn) as (L & L1 & L2 & L3). destruct (keys_in_eq g M (Some []) _ _ c F2 HF0 Hn Hcn) as (L' & L1' & L2' & L3').
        cbn [form_for] in A1, A2. destruct (loop _ _ _ _ _ _) as [a|] eqn:Ea in A1; [|discriminate]. destruct (loop _ _ _ _ _ _) as [a'|] eqn:Ea' in A2; [|discriminate]. injection A1 as <-. injection A2 as <-. cbn [finish g_fields].
        assert (Hsame : a_order a = a_order a' /\ a_fields a = a_fields a').
        { clear -Ea Ea'. assert (G : forall fs x x' a a', loop (fun c' fl' el' => form_for g M (Some []) fl' el' c') (Some ds) (pfields fields) (pexclude exclude) fs x = FOk a -> loop (fun c' fl' el' => form_for g M (Some []) fl' el' c') (Some []) (pfields fields) (pexclude exclude) fs x' = FOk a' -> a_order x = a_order x' -> a_fields x = a_fields x' -> a_order a = a_order a' /\ a_fields a = a_fields a'); [|exact (G _ _ _ _ _ Ea Ea' eq_refl eq_refl)].
          clear. induction fs as [|[n m] fs IH]; intros x x' a a' H H' Eo Ef; cbn [loop] in H, H'; [injection H as <-; injection H' as <-; auto|].
          destruct (negb (included _ _)); [exact (IH _ _ _ _ H H' Eo Ef)|]. destruct (excluded _ _); [exact (IH _ _ _ _ H H' Eo Ef)|].
          destruct (contribute _ (Some ds) _ _ _ _) as [k|] eqn:Ek; [|discriminate]. destruct (contribute _ (Some []) _ _ _ _) as [k'|] eqn:Ek'; [|discriminate].
          refine (IH _ _ _ _ H H' _ _); [rewrite !store_order; now rewrite Eo|]. pose proof (contribute_slot _ _ _ _ _ _ _ Ek) as S1. pose proof (contribute_slot _ _ _ _ _ _ _ Ek') as S2. rewrite S1 in S2. destruct k, k'; try discriminate; cbn; try assumption. rewrite Ef. f_equal.
          unfold contribute in Ek, Ek'. destruct (m_choices m) as [[|]|]; try congruence; destruct (m_kind m); try congruence; try (destruct (sub_form _ _ _ _ _ _); discriminate); discriminate. }
        destruct Hsame as [-> ->]. reflexivity. }
      clear -Q HF HF0 HF' HF0'. unfold form_class, formfields_for_xmlobject, options_of in HF', HF0'. cbn [o_fields o_exclude] in HF', HF0'.
      replace (match arg fields with ANone => None | ANames l => Some (parse_field_list l true) | AParsed t => Some t end) with (pfields fields) in HF', HF0' by now destruct fields.
      replace (match arg exclude with ANone => None | ANames l => Some (parse_field_list l false) | AParsed t => Some t end) with (pexclude exclude) in HF', HF0' by now destruct exclude.
      rewrite HF in HF'. rewrite HF0 in HF0'. injection HF' as <-. injection HF0' as <-. cbn. now rewrite Q.
    + intros n Hno. assert (D : forall s, In n (keys_in s F1) <-> In n (keys_in s F2)) by (intros s; now rewrite K, K0).
      assert (C : forall m x, contribute (fun c' fl' el' => form_for g M (Some []) fl' el' c') (Some ds) (pfields fields) (pexclude exclude) n m = x -> contribute (fun c' fl' el' => form_for g M (Some []) fl' el' c') (Some []) (pfields fields) (pexclude exclude) n m = x).
      { intros m x <-. unfold contribute, sub_form. now rewrite Hno. }
      split.
      * destruct (dget n (g_subs F1)) as [G|] eqn:EG, (dget n (g_subs F2)) as [G'|] eqn:EG'; [| | |reflexivity].
        -- destruct (get_sub g M (Some ds) _ _ c F1 HF Hn Hcn n _ EG) as (m & Hm & Hco). destruct (get_sub g M (Some []) _ _ c F2 HF0 Hn Hcn n _ EG') as (m' & Hm' & Hco'). apply C in Hco. congruence.
        -- exfalso. apply dget_In, (in_map fst) in EG. apply (D SlSub) in EG. cbn in EG. apply in_map_iff in EG as ([? v] & <- & EG). apply dget_None in EG'. apply EG'. now apply (in_map fst) in EG.
        -- exfalso. apply dget_In, (in_map fst) in EG'. apply (D SlSub) in EG'. cbn in EG'. apply dget_None in EG. now apply EG.
      * destruct (dget n (g_sets F1)) as [G|] eqn:EG, (dget n (g_sets F2)) as [G'|] eqn:EG'; [| | |reflexivity].
        -- destruct (get_set g M (Some ds) _ _ c F1 HF Hn Hcn n _ EG) as (m & Hm & Hco). destruct (get_set g M (Some []) _ _ c F2 HF0 Hn Hcn n _ EG') as (m' & Hm' & Hco'). apply C in Hco. congruence.
        -- exfalso. apply dget_In, (in_map fst) in EG. apply (D SlSet) in EG. cbn in EG. apply dget_None in EG'. now apply EG'.
        -- exfalso. apply dget_In, (in_map fst) in EG'. apply (D SlSet) in EG'. cbn in EG'. apply dget_None in EG. now apply EG.
Qed.

(** lists of names given to formfields_for_xmlobject itself count as those of Meta do, and replace them *)
Theorem C40_direct_lists : forall fuel M c fields exclude mfields mexclude ds, 
  formfields_for_xmlobject fuel M c (arg fields) (arg exclude) (Some (options_of (arg mfields) (arg mexclude))) (Some ds) =
  form_class fuel M c (arg (match fields with Some _ => fields | None => mfields end)) (arg (match exclude with Some _ => exclude | None => mexclude end)) [] ds.
Proof.
  intros. unfold form_class, formfields_for_xmlobject, options_of. cbn [o_fields o_exclude].
  destruct fields, exclude, mfields, mexclude; cbn [arg]; match goal with |- ?x = _ => destruct x as [[]|] end; reflexivity.
Qed.

Open Scope string_scope.
Definition mf (k : mkind) (i : nat) : mfield := mkM k None None None None i.
(** class 0: id, part (node, class 1), parts (list of class 1), tags;  class 1: x, y, sub (class 2);  class 2: z *)
Definition M0 : models := fun c =>
  match c with
  | 0 => [(u "id", mf KString 7); (u "part", mf (KNode 1) 3); (u "parts", mf (KNodeList 1) 5); (u "tags", mf KStringList 4); (u "mode", mkM KString (Some [u "a"; u "b"]) (Some false) (Some (u "The mode")) None 1)]
  | 1 => [(u "x", mf KInt 2); (u "y", mf KBool 8); (u "sub", mf (KNode 2) 9)]
  | 2 => [(u "z", mf KDate 6)]
  | _ => []
  end.
Lemma M0_sane : sane M0.
Proof.
  assert (G : forall s, existsb (N.eqb (ch ".")) s = false -> is_name s).
  { intros s H Hi. assert (K : existsb (N.eqb (ch ".")) s = true) by (apply existsb_exists; exists (ch "."); split; [assumption|apply N.eqb_refl]). congruence. }
  assert (N1 : forall l, firsts l = l -> NoDup l) by (intros l <-; apply firsts_NoDup).
  intros [|[|[|c]]]; (split; [apply N1; vm_compute; reflexivity|]); (split; [repeat constructor; apply G; vm_compute; reflexivity|]); repeat constructor; cbn; lia.
Qed.
Definition shape (r : fres fform) : option (list str * list str * list str) := match r with FOk f => Some (map fst (g_fields f), map fst (g_subs f), map fst (g_sets f)) | FErr _ => None end.
Definition shape_at (r : fres fform) (path : list string) : option (list str * list str * list str) :=
  match r with FOk f => match form_at f (map u path) with Some g => shape (FOk g) | None => None end | FErr _ => None end.
Definition lst (l : list string) : option (list str) := Some (map u l).
Example C40_case : sane M0 /\
  (let F := form_class 9 M0 0 (arg (lst ["parts.sub"; "tags"; "id"; "part.y"; "part.x"; "mode"])) (arg (lst ["id"; "part.x"])) [] [] in
  shape F = Some ([u "mode"], [u "part"], [u "parts"; u "tags"]) /\
  shape_at F ["part"] = Some ([u "y"], [], []) /\ shape_at F ["parts"] = Some ([], [u "sub"], []) /\ shape_at F ["parts"; "sub"] = Some ([u "z"], [], [])) /\
  shape (form_class 9 M0 0 ANone ANone [] []) = Some ([u "mode"; u "id"], [u "part"], [u "tags"; u "parts"]) /\
  shape_at (form_class 9 M0 0 (arg (lst ["part"])) (arg (lst ["part.sub.z"])) [] []) ["part"] = Some ([u "x"; u "y"], [u "sub"], []) /\
  shape_at (form_class 9 M0 0 (arg (lst ["part"])) (arg (lst ["part.sub.z"])) [] []) ["part"; "sub"] = Some ([], [], []).
Proof. split; [exact M0_sane|vm_compute; tauto]. Qed.

(** a declared subform for 'part', one for 'tags' (not a node field) and one for a field left out *)
Example C40_declared_subforms_case :
  let D := FForm [(u "mine", mkFF TChar None (LFromName (u "mine")) None)] [] [] in
  let F := form_class 9 M0 0 (arg (lst ["parts.sub"; "part.x"; "tags"])) ANone [] [(u "part", D); (u "tags", D); (u "gone", D)] in
  shape F = Some ([], [u "part"], [u "parts"; u "tags"]) /\ shape_at F ["part"] = Some ([u "mine"], [], []) /\ shape_at F ["parts"; "sub"] = Some ([u "z"], [], []).
Proof. vm_compute. tauto. Qed.

(** *** where it fails *)
(** one field object under two names: only the last name gets a form field *)
Theorem C40_alias_refuted : let M := fun _ => [(u "a", mf KString 0); (u "b", mf KString 0)] in
  shape (form_class 9 M 0 ANone ANone [] []) = Some ([u "b"], [], []).
Proof. vm_compute. reflexivity. Qed.
(** formfields_for_xmlobject ignores [exclude] when [fields] is already parsed, and cannot take a parsed [exclude] *)
Theorem C40_parsed_lists_refuted :
  shape (formfields_for_xmlobject 9 M0 0 (AParsed (parse_field_list (map u ["id"; "mode"]) true)) (ANames [u "id"]) None (Some [])) = Some ([u "id"; u "mode"], [], []) /\
  formfields_for_xmlobject 9 M0 0 ANone (AParsed (parse_field_list [u "id"] false)) None (Some []) = FErr EIterate.
Proof. split; vm_compute; reflexivity. Qed.
(** called directly as documented, without declared_subforms, it fails for every class with a node field *)
Theorem C40_no_declared_refuted : forall fuel M c n m k, M c = [(n, m)] -> m_choices m = None -> m_kind m = KNode k ->
  forall F, formfields_for_xmlobject fuel M c ANone ANone None None <> FOk F.
Proof. intros fuel M c n m k HM Hch Hk F. unfold formfields_for_xmlobject. destruct fuel as [|g]; cbn; [discriminate|]. rewrite HM. cbn. unfold contribute. rewrite Hch, Hk. discriminate. Qed.
(** a class with a node field of its own type has no form unless a list or declared subform cuts the recursion *)
Theorem C40_self_reference_refuted : forall fuel M c n m, In (n, m) (M c) -> m_choices m = None -> (m_kind m = KNode c \/ m_kind m = KNodeList c) ->
  forall F, form_class fuel M c ANone ANone [] [] <> FOk F.
Proof.
  intros fuel M c n m Hi Hch Hk F H. apply (class_form fuel M c None None) in H. cbn [pfields pexclude] in H. revert F H. induction fuel as [|g IH]; intros F H; cbn in H; [discriminate|].
  destruct (loop _ _ _ _ _ _) as [a|] eqn:El; [|discriminate]. apply loop_fold in El as (L & L1 & L2 & _).
  assert (Hin : In (n, m) (map fst L)) by (rewrite L1; apply filter_In; auto). apply in_map_iff in Hin as ([[n' m'] k] & E & Hin). cbn in E. injection E as -> ->. rewrite Forall_forall in L2. specialize (L2 _ Hin). cbn in L2. unfold contribute, sub_form in L2. rewrite Hch in L2.
  destruct Hk as [Hk|Hk]; rewrite Hk in L2; cbn in L2; destruct (form_for g M (Some []) None None c) as [G|] eqn:EG; try discriminate; exact (IH G eq_refl).
Qed.
Example C40_self_reference_case : let M := fun _ : nat => [(u "a", mf KString 0); (u "b", mf (KNode 0) 1)] in
  shape_at (form_class 9 M 0 (arg (lst ["b.b.a"; "a"])) ANone [] []) ["b"; "b"] = Some ([u "a"], [], []).
Proof. vm_compute. reflexivity. Qed.
Close Scope string_scope.

Print Assumptions C40_shown.
Print Assumptions C40_slots.
Print Assumptions C40_order_listed.
Print Assumptions C40_order_default.
Print Assumptions C40_contents.
Print Assumptions C40_declared.
Print Assumptions C40_no_declared_refuted.
Print Assumptions C40_self_reference_refuted.
Print Assumptions C40_formsets.
Print Assumptions C40_declared_subforms.
Print Assumptions C40_direct_lists.
