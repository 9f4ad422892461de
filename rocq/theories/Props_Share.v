(** C74: fields whose XPaths share leading steps and then part ways do not disturb one another.
    [fork] is in ForkSpec.v, [run_fops] (any history of operations, single or list fields, succeeding or
    failing) in IndepSpec.v. *)
From Coq Require Import String Arith ZArith Lia.
From Verif Require Export ForkSpec FieldOps Props_Indep Props_Shipped.
From Verif Require Import XPathEval FieldSpec DocSpec IndepSpec.

Opaque u.

Lemma sup_parts3 E e : supported_path E e = true -> is_path e = true /\ ok E true e = true /\ rereadable e = true.
Proof. unfold supported_path. intros H. apply andb_prop in H as [H ?]. apply andb_prop in H as [? ?]. auto. Qed.

Lemma terminal_last E dot e P s : is_path e = true -> ok E dot e = true -> spine e = P ++ [s] -> terminal_step e = Some s.
Proof.
  destruct e; cbn [is_path]; intros Hp; try discriminate; cbn [spine]; intros Ho H.
  - apply str_eqb_eq in Hp. subst op. destruct (ok_slash _ _ _ _ Ho) as (_ & (ax & t & ps & ->) & _). apply app_inj_tail in H as [_ <-]. reflexivity.
  - destruct P as [|x P]; [|destruct P; discriminate]. injection H as <-. reflexivity.
  - destruct P; discriminate.
Qed.

(** one operation of a field that forks off *)
Lemma fork_one E e1 o d : supported_path E e1 = true -> supported_path E (fop_path o) = true -> fork E e1 (fop_path o) -> tag_of d <> None ->
  tag_of d = tag_of (run_fop E o d) /\ cores E e1 d = cores E e1 (run_fop E o d).
Proof.
  intros H1 H2 (P & s1 & r1 & s2 & r2 & k1 & k2 & Hp1 & Hp2 & Hk1 & Hk2 & Hn1 & Hn2 & Hne) Hd.
  destruct P as [|p0 P0].
  - destruct (one_sim E o k1 d) as (D & A1 & A2 & HS).
    + exists k2. split; [|auto]. split; [exact H2|]. split; [|exact Hn2]. unfold first_kind. rewrite Hp2. exact Hk2.
    + exact Hd.
    + split; [apply HS|]. destruct (sup_parts3 _ _ H1) as (B1 & B2 & _). assert (Hf : first_kind E e1 = Some k1) by (unfold first_kind; rewrite Hp1; exact Hk1).
      exact (cores_first E D d _ HS e1 true k1 B1 B2 Hf (not_eq_sym A1) Hn1 A2).
  - remember (p0 :: P0) as P eqn:HPe. assert (HPn : P <> []) by (rewrite HPe; discriminate). clear HPe.
    rewrite spine_steps in Hp1, Hp2. destruct (sup_parts3 _ _ H1) as (B1 & B2 & B3), (sup_parts3 _ _ H2) as (C1 & C2 & C3).
    destruct (spine_mid _ _ _ B1 B2 _ _ _ Hp1) as (S1 & S2 & S3 & (k1' & S4 & S5) & _ & _). rewrite Hk1 in S4. injection S4 as <-.
    destruct (spine_mid _ _ _ C1 C2 _ _ _ Hp2) as (_ & T2 & T3 & (k2' & T4 & T5) & T6 & _). rewrite Hk2 in T4. injection T4 as <-.
    assert (A1 : ok E false s1 = true /\ is_estep s1 = true /\ kind E s1 = Some k1 /\ k1 <> KText) by auto.
    assert (A2 : ok E false s2 = true /\ is_estep s2 = true /\ kind E s2 = Some k2 /\ k2 <> KText) by auto.
    assert (Hne' : k2 <> k1) by auto.
    assert (Hpast : past P s2 (fop_path o)) by (exists r2; exact Hp2).
    assert (G : keeps E P (s1 :: r1) d (run_fop E o d)).
    { apply (does_fop E (fop_path o) (keeps E P (s1 :: r1)) (inside E P k2)); auto.
      - exact (keeps_refl E P (s1 :: r1)).
      - exact (keeps_trans E P (s1 :: r1)).
      - intros a b [Ht _]. exact Ht.
      - intros d0 i. exact (selects_past E P k1 S1 S5 s2 k2 A2 T5 Hne' true _ d0 i C1 C2 Hpast).
      - intros ins d0 d1 r Hd0. exact (build_past E P _ s1 r1 k1 S1 eq_refl A1 S5 s2 k2 A2 T5 Hne' true _ C1 C2 C3 HPn ins d0 d1 r Hd0 Hpast).
      - intros x v d0 d1 r Hx. refine (set_in E P _ s1 r1 k1 S1 eq_refl A1 s2 k2 A2 T5 Hne' _ x v d0 d1 r _ Hx). clear Hx A2 Hpast T5 Hne' Hne.
        destruct k2 as [q|q|]; [left; eauto| |contradiction]. right. destruct r2 as [|y r2]; [|destruct T6 as [q' T6]; congruence].
        destruct (kind_estep _ _ _ Hk2) as (ax & t & ps & ->). exists q, ax, t, ps. split; [reflexivity|]. split; [|exact Hk2]. eapply terminal_last; eauto.
      - intros d0 d1 r Hd0. exact (rm_past E P _ s1 r1 k1 S1 eq_refl A1 S5 s2 k2 A2 T5 Hne' true _ C1 C2 C3 HPn false d0 d1 r Hd0 Hpast).
      - intros d0 a j n. exact (rm_item E P _ s1 r1 k1 S1 eq_refl A1 S5 s2 k2 A2 T5 Hne' true _ d0 a j n C1 C2 Hpast). }
    destruct G as [G1 G2]. split; [exact G1|]. rewrite !(see_path _ _ _ _ B1 B2), Hp1. exact G2.
Qed.

Lemma fork_history E e d os : supported_path E e = true -> tag_of d <> None -> (forall o, In o os -> supported_path E (fop_path o) = true /\ fork E e (fop_path o)) ->
  tag_of d = tag_of (run_fops E os d) /\ cores E e d = cores E e (run_fops E os d).
Proof.
  intros Hs Hd Hos. revert d Hd. unfold run_fops. induction os as [|o os IH]; intros d Hd; cbn [fold_left]; [auto|].
  destruct (Hos o (or_introl eq_refl)) as [H1 H2]. destruct (fork_one E e o d Hs H1 H2 Hd) as [T C].
  destruct (IH (fun o' H => Hos o' (or_intror H)) (run_fop E o d)) as [T' C']; [rewrite <- T; exact Hd|]. split; [now rewrite T|now rewrite C].
Qed.

(** ** Any history of operations on forking fields leaves what a field reads, single or list, unchanged *)
Theorem C74_independent : forall E e m d os,
  supported_path E e = true -> tag_of d <> None -> (forall o, In o os -> supported_path E (fop_path o) = true /\ fork E e (fop_path o)) ->
  field_get E e m (run_fops E os d) = field_get E e m d /\ list_data E e m (run_fops E os d) = list_data E e m d.
Proof. intros E e m d os He Hd Hos. apply reads_same; [exact He|]. now apply fork_history. Qed.

Lemma fork_enters E e e2 : supported_path E e = true -> fork E e e2 -> exists k, enters E e k.
Proof.
  intros Hs (P & s1 & r1 & s2 & r2 & k1 & k2 & Hp1 & _ & Hk1 & _ & Hn1 & _). destruct (sup_parts3 _ _ Hs) as (B1 & B2 & _).
  destruct P as [|p P].
  - exists k1. split; [exact Hs|]. split; [unfold first_kind; now rewrite Hp1|exact Hn1].
  - rewrite spine_steps in Hp1. destruct (spine_mid _ _ _ B1 B2 _ _ _ Hp1) as ((_ & (q & Hq) & _) & _). exists (KChild q). split; [exact Hs|]. split; [|discriminate]. unfold first_kind. rewrite spine_steps, Hp1. exact Hq.
Qed.

(** ** so a value assigned stays until the field itself is touched again *)
Theorem C74_value_stays : forall E s e v d d' os,
  parse s = Ok e -> supported_path E e = true -> lkind E e <> Some KText -> tag_of d <> None ->
  string_set E s (Some v) d = (d', Ret tt) -> (forall o, In o os -> supported_path E (fop_path o) = true /\ fork E e (fop_path o)) ->
  string_get E s (run_fops E os d') = Ret (Some v).
Proof.
  intros E s e v d d' os Hp He Hl Hd Hm Hos. pose proof (not_text_not_tail E e d He Hl) as Hn.
  assert (Hg : string_get E s d' = Ret (Some v)) by (unfold string_get, string_set, with_xpath in *; rewrite Hp in *; eapply set_get; eauto).
  destruct os as [|o os]; [exact Hg|]. destruct (fork_enters E e _ He (proj2 (Hos o (or_introl eq_refl)))) as [k Hk].
  assert (Hd' : tag_of d' <> None).
  { unfold string_set, with_xpath in Hm. rewrite Hp in Hm. destruct (only_set E e k (Some v) Hk _ _ _ Hd Hm) as [<- _]. exact Hd. }
  unfold string_get in *. rewrite Hp in *. rewrite <- Hg. apply get_string_same; [exact He|]. now apply fork_history.
Qed.

(** ** the fields of the shipped maps that fork *)
Lemma declared_spine l e : names_declared l e = true -> forall s, In s (spine e) -> names_declared l s = true.
Proof.
  induction e as [| | | |a op b IHa IHb| | | |ax t ps H| | |] using expr_ind'; intros Hn st Hs; try contradiction.
  - cbn [names_declared spine] in *. apply andb_prop in Hn as [Ha Hb]. apply in_app_or in Hs as [Hs|[<-|[]]]; auto.
  - destruct Hs as [<-|[]]. exact Hn.
Qed.
Lemma fork_agree E l e1 e2 : binds E l -> names_declared l e1 = true -> names_declared l e2 = true -> fork (just l) e1 e2 -> fork E e1 e2.
Proof.
  intros B H1 H2 (P & s1 & r1 & s2 & r2 & k1 & k2 & Hp1 & Hp2 & Hk1 & Hk2 & R). exists P, s1, r1, s2, r2, k1, k2. split; [exact Hp1|]. split; [exact Hp2|].
  rewrite spine_steps in Hp1, Hp2. rewrite !(kind_agree E l B); [auto| |].
  - apply (declared_spine _ _ H2). rewrite Hp2. apply in_or_app. right. now left.
  - apply (declared_spine _ _ H1). rewrite Hp1. apply in_or_app. right. now left.
Qed.
Definition rows_fork (r r' : row) : Prop := exists e e', parse (r_xpath r) = Ok e /\ parse (r_xpath r') = Ok e' /\ fork (just (r_ns r)) e e'.
Theorem C74_shipped_fields_independent : forall r E d os e,
  In r shipped -> plain_row r = true -> binds E (r_ns r) -> tag_of d <> None -> parse (r_xpath r) = Ok e ->
  (forall o, In o os -> exists r', In r' shipped /\ r_ns r' = r_ns r /\ plain_row r' = true /\ rows_fork r r' /\ op_of r' o) ->
  field_get E e (row_mapper r) (run_fops E os d) = field_get E e (row_mapper r) d /\
  list_data E e (row_mapper r) (run_fops E os d) = list_data E e (row_mapper r) d.
Proof.
  intros r E d os e Hr Hp B Hd He Ho. destruct (C71_xpaths_parse r Hr) as (e' & He' & Hn). rewrite He in He'. injection He' as <-.
  assert (Hs : supported_path E e = true) by (unfold plain_row in Hp; rewrite He in Hp; now rewrite (supported_agree _ _ B _ Hn)).
  apply C74_independent; auto. intros o Hoi. destruct (Ho o Hoi) as (r' & Hr' & Hns & Hp' & (e1 & e2 & G1 & G2 & G3) & Hop).
  destruct (C71_xpaths_parse r' Hr') as (e3 & He3 & Hn3). unfold op_of in Hop. rewrite Hop in G2, He3. injection G2 as <-. injection He3 as <-. rewrite He in G1. injection G1 as <-.
  unfold plain_row in Hp'. rewrite Hop in Hp'. rewrite Hns in Hp', Hn3. split; [now rewrite (supported_agree _ _ B _ Hn3)|]. now apply (fork_agree E (r_ns r)).
Qed.

(** ** Cases: two sibling parts of one wrapper, in a document and in the PREMIS maps; and the limit: a field that
    continues another's path is not independent (C56_same_child_interferes) *)
Local Open Scope string_scope.
Ltac fork_tac P := exists P; do 6 eexists; split; [vm_compute; reflexivity|]; split; [vm_compute; reflexivity|]; split; [vm_compute; reflexivity|]; split; [vm_compute; reflexivity|]; split; [discriminate|]; split; discriminate.
Definition d_share := el "r" [] "" [el "n" [("t", "1")] "" [el "a" [] "A" []; el "b" [("k", "K")] "B" []]; el "n" [("t", "2")] "" [el "a" [] "A2" []]].
Definition ops_share := [FSet (xp "n[@t='1']/b") (MString false) (PStr (u "new")); FDelete (xp "n[@t='1']/b"); FCreate (xp "n[@t='1']/c/d"); FListOp (xp "n[@t='1']/@k") (MString false) (LAppend (PStr (u "z")));
  FSet (xp "n[@t='1']/a/@id") (MString false) (PStr (u "i")); FListDelete (xp "n[@t='1']/b") (MString false); FSet (xp "x") (MString false) (PStr (u "y"))].
Example C74_case : let e := xp "n[@t='1']/a/text2" in supported_path E0 e = true /\
  (forall o, In o ops_share -> supported_path E0 (fop_path o) = true /\ fork E0 e (fop_path o)) /\
  run_fops E0 ops_share d_share <> d_share /\
  string_get E0 (u "n[@t='1']/a/@id") (run_fops E0 ops_share d_share) = Ret (Some (u "i")) /\
  string_get E0 (u "n[@t='1']/a") (run_fops E0 ops_share d_share) = Ret (Some (u "A")).
Proof.
  cbv zeta. split; [vm_compute; reflexivity|]. split; [|split; [vm_compute; discriminate|split; vm_compute; reflexivity]].
  intros o Ho. unfold ops_share in Ho. cbn [In] in Ho. repeat destruct Ho as [<-|Ho]; try contradiction; (split; [vm_compute; reflexivity|]); cbn [fop_path].
  all: first [fork_tac (@nil expr)|fork_tac [xp "n[@t='1']"]|fork_tac [xp "n[@t='1']"; xp "a"]].
Qed.
Example C74_premis_case : let r := pick "Event" "id_type" in let r' := pick "Event" "id" in
  let E := just ns_premis in let o := FSet (xp "p:eventIdentifier/p:eventIdentifierValue") (MString false) (PStr (u "42")) in
  let d := Elem (QN (Some (u "info:lc/xmlns/premis-v2")) (u "event")) [] None [] in
  In r shipped /\ plain_row r = true /\ binds E (r_ns r) /\ In r' shipped /\ r_ns r' = r_ns r /\ plain_row r' = true /\ rows_fork r r' /\ op_of r' o /\
  exists d', row_set r E (PStr (u "local")) d = (d', Ret tt) /\ row_get r E (run_fops E [o] d') = Ret (PStr (u "local")) /\ row_get r' E (run_fops E [o] d') = Ret (PStr (u "42")).
Proof.
  cbv zeta. split; [apply pick_in; vm_compute; discriminate|]. split; [vm_compute; reflexivity|]. split; [intros p x H; exact H|]. split; [apply pick_in; vm_compute; discriminate|].
  split; [vm_compute; reflexivity|]. split; [vm_compute; reflexivity|]. split.
  { exists (xp "p:eventIdentifier/p:eventIdentifierType"), (xp "p:eventIdentifier/p:eventIdentifierValue"). split; [vm_compute; reflexivity|]. split; [vm_compute; reflexivity|]. fork_tac [xp "p:eventIdentifier"]. }
  split; [vm_compute; reflexivity|]. eexists. split; [vm_compute; reflexivity|]. split; vm_compute; reflexivity.
Qed.
Local Close Scope string_scope.

Print Assumptions C74_independent.
Print Assumptions C74_value_stays.
Print Assumptions C74_shipped_fields_independent.
