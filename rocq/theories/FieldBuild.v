(** What [build] does for supported paths and predicates. *)
From Coq Require Import String Arith FinFun.
From Verif Require Export FieldUpd XPathRoundTrip.
From Verif Require Import XPathEval FieldSpec.

Opaque u.

(** ** rereading *)
Lemma lex_safe_app a b : lex_safe (a ++ b) = true -> lex_safe a = true /\ lex_safe b = true.
Proof.
  induction a as [|x a IH]; intros H; [split; [reflexivity|exact H]|].
  destruct a as [|y a].
  - split; [reflexivity|]. cbn [app] in H. destruct b as [|z b]; [reflexivity|].
    change (safe_pair x z && lex_safe (z :: b) = true)%bool in H. now apply andb_prop in H.
  - change (safe_pair x y && lex_safe ((y :: a) ++ b) = true)%bool in H. apply andb_prop in H as [H1 H2].
    apply IH in H2 as [H2 H3]. split; [|exact H3].
    change (safe_pair x y && lex_safe (y :: a) = true)%bool. now rewrite H1, H2.
Qed.
Lemma lex_safe_cons x b : lex_safe (x :: b) = true -> lex_safe b = true.
Proof. intros H. now apply (lex_safe_app [x] b). Qed.

Lemma rereadable_bin l op r : rereadable (EBin l op r) = true -> rereadable l = true /\ rereadable r = true.
Proof.
  unfold rereadable. cbn [canon toks]. intros H. apply andb_prop in H as [H1 H2].
  apply andb_prop in H1 as [H1 _]. apply andb_prop in H1 as [Hl Hr].
  apply lex_safe_app in H2 as [H2 H3]. apply lex_safe_cons in H3. now rewrite Hl, Hr, H2, H3.
Qed.

Lemma rereadable_pred ax t ps p : rereadable (EStep ax t ps) = true -> In p ps -> rereadable p = true.
Proof.
  unfold rereadable. cbn [canon toks]. intros H Hp. apply andb_prop in H as [H1 H2].
  apply andb_prop in H1 as [_ H1]. rewrite forallb_forall in H1. rewrite (H1 _ Hp). cbn [andb].
  apply lex_safe_app in H2 as [_ H2]. apply lex_safe_app in H2 as [_ H2].
  induction ps as [|q ps IH]; [contradiction|]. cbn [flat_map] in H2. apply lex_safe_app in H2 as [H2 H3].
  destruct Hp as [->|Hp]; [|apply IH; auto; intros; apply H1; now right].
  apply lex_safe_cons in H2. now apply lex_safe_app in H2.
Qed.

Lemma reread_ok e : rereadable e = true -> reread e = Some e.
Proof.
  unfold rereadable, reread. intros H. apply andb_prop in H as [H1 H2]. now rewrite (roundtrip_ast e H1 H2).
Qed.

(** ** supported by the evaluator *)
Lemma kind_supported E ax t ps k : kind E (EStep ax t ps) = Some k -> (child_axis ax || attr_axis ax = true)%bool /\ sup_test E t = true.
Proof.
  destruct k as [q|q|]; intros Hk.
  - destruct (kind_child _ _ _ _ _ Hk) as (p & nm & -> & -> & _ & _ & Hr & _). cbn. now rewrite Hr.
  - destruct (kind_attr _ _ _ _ _ Hk) as (p & nm & -> & _ & -> & _ & _ & _ & Hr & _). cbn. rewrite Hr, orb_true_r. auto.
  - destruct (kind_text _ _ _ _ Hk) as (-> & ->). cbn [orb sup_test]. now rewrite str_eqb_refl.
Qed.

Lemma ok_supported E e : forall dot, ok E dot e = true -> supported E e = true.
Proof.
  induction e using expr_ind'; intros dot Ho; try discriminate.
  - cbn [supported]. cbn [ok] in Ho. destruct (str_eqb op (u "/")) eqn:Es.
    + apply str_eqb_eq in Es. subst op.
      assert (Ho' : ok E dot (EBin e1 (u "/") e2) = true) by (cbn [ok]; rewrite str_eqb_refl; exact Ho).
      destruct (ok_slash _ _ _ _ Ho') as (H1 & (ax & t & ps & ->) & H3 & H4).
      rewrite (IHe1 _ H1), (IHe2 _ H3). cbn [andb]. now rewrite (joins_path _ _ _ _ H4 H1).
    + destruct (str_eqb op (u "=")) eqn:Eq; [|discriminate]. apply str_eqb_eq in Eq. subst op.
      apply andb_prop in Ho as [Ho H4]. apply andb_prop in Ho as [_ H3]. rewrite (IHe1 _ H3).
      assert (H5 : supported E e2 = true) by (destruct e2; cbn in H4; try discriminate; try reflexivity;
        destruct prefix; [discriminate|exact H4]).
      rewrite H5. cbn [andb str_mem existsb]. now rewrite str_eqb_refl.
  - pose proof (ok_preds _ _ _ _ _ Ho) as Hp. cbn [ok] in Ho. cbn [supported].
    destruct (kind E (EStep a t ps)) as [k|] eqn:Hk; [|discriminate].
    destruct (kind_supported _ _ _ _ _ Hk) as [-> ->]. cbn [andb]. rewrite forallb_forall in *. intros p Hin.
    rewrite Forall_forall in H. eapply H; eauto.
  - cbn [ok] in Ho. apply andb_prop in Ho as [_ Ho]. exact Ho.
Qed.

(** ** finding elements *)
Definition head_ref (a : addr) (l : list addr) : option ref :=
  match l with [] => None | b :: _ => Some (RElem (a ++ b)) end.

Lemma first_elems E ss a n : first_match (XN (elems_at a n (sel E ss n))) = head_ref a (sel E ss n).
Proof.
  destruct (sel E ss n) as [|b l] eqn:Es; [reflexivity|]. cbn [elems_at flat_map head_ref].
  destruct (In_sel_get E ss n b) as [m Hm]; [rewrite Es; now left|]. rewrite Hm. reflexivity.
Qed.

Lemma find_ast_elems E dot e a n d : is_path e = true -> ok E dot e = true -> is_KChild (lkind E e) = true \/ lkind E e = None ->
  get_at a d = Some n -> find_ast E e (RElem a) d = Ret (head_ref a (sel E (spine e) n)).
Proof.
  intros Hp Ho Hl Hg. unfold find_ast, eval_at, xpath. rewrite Hg, (ok_supported _ _ _ Ho), (ev_elems _ _ _ Hp Ho Hl).
  now rewrite first_elems.
Qed.

Lemma find_elems E dot e a n d : is_path e = true -> ok E dot e = true -> is_KChild (lkind E e) = true \/ lkind E e = None ->
  rereadable e = true -> get_at a d = Some n -> find_node E e (Some (RElem a)) d = Ret (head_ref a (sel E (spine e) n)).
Proof.
  intros Hp Ho Hl Hr Hg. unfold find_node. rewrite (reread_ok _ Hr). eapply find_ast_elems; eassumption.
Qed.

(** ** appended kids *)
Lemma kids_append K n : tag_of n <> None -> kids_of (append_kid K n) = kids_of n ++ [(K, None)].
Proof. destruct n; [reflexivity|contradiction]. Qed.
Lemma attrs_append K n : attrs_of (append_kid K n) = attrs_of n.
Proof. destruct n; reflexivity. Qed.
Lemma tag_append K n : tag_of (append_kid K n) = tag_of n.
Proof. destruct n; reflexivity. Qed.
Lemma tag_set_attr q v n : tag_of (set_attr q v n) = tag_of n.
Proof. destruct n; reflexivity. Qed.
Lemma tag_set_text v n : tag_of (set_text v n) = tag_of n.
Proof. destruct n; reflexivity. Qed.
Lemma kids_set_attr q v n : kids_of (set_attr q v n) = kids_of n.
Proof. destruct n; reflexivity. Qed.
Lemma kids_set_text v n : kids_of (set_text v n) = kids_of n.
Proof. destruct n; reflexivity. Qed.
Lemma attrs_set_text v n : attrs_of (set_text v n) = attrs_of n.
Proof. destruct n; reflexivity. Qed.
Lemma attrs_set_attr q v n : tag_of n <> None -> attrs_of (set_attr q v n) = attr_set q v (attrs_of n).
Proof. destruct n; [reflexivity|contradiction]. Qed.

Lemma sim_append q K n : tag_of K = Some q -> sim (KChild q) n (append_kid K n).
Proof.
  intros Hq. split; [now rewrite tag_append|]. split; [now rewrite attrs_append|].
  destruct n as [q' ats t ks|s]; [|reflexivity]. cbn. rewrite filter_app. cbn. unfold has_tag at 3. rewrite Hq, qeqb_refl. cbn.
  now rewrite app_nil_r.
Qed.
Lemma filter_attr_set q v l : filter (fun x => negb (qeqb (fst x) q)) (attr_set q v l) = filter (fun x : qname * str => negb (qeqb (fst x) q)) l.
Proof.
  induction l as [|[p w] l IH]; cbn.
  - now rewrite qeqb_refl.
  - destruct (qeqb q p) eqn:Eq; cbn.
    + rewrite (qeqb_sym p q), Eq. reflexivity.
    + now rewrite IH.
Qed.
Lemma sim_set_attr q v n : sim (KAttr q) n (set_attr q v n).
Proof.
  split; [now rewrite tag_set_attr|]. split; [now rewrite kids_set_attr|]. destruct n; [|reflexivity]. cbn.
  now rewrite filter_attr_set.
Qed.
Lemma sim_set_text v n : sim KText n (set_text v n).
Proof. split; [now rewrite tag_set_text|]. split; [now rewrite attrs_set_text|now rewrite kids_set_text]. Qed.

(** predicates stay true when a child is appended *)
Lemma incl_flat_map' {A B} (f : A -> list B) l l' : incl l l' -> incl (flat_map f l) (flat_map f l').
Proof. intros H x Hx. apply in_flat_map in Hx as (y & Hy & Hx). apply in_flat_map. exists y. auto. Qed.

Lemma cores_append E K n e : tag_of n <> None -> forall dot, is_path e = true -> ok E dot e = true -> (exists k, fkind E e = Some k /\ k <> KText) ->
  incl (cores E e n) (cores E e (append_kid K n)).
Proof.
  intros Hn. induction e; cbn [is_path]; intros dot Hp; try discriminate; intros Ho (k & Hk & Hkt).
  - apply str_eqb_eq in Hp. subst op. destruct (ok_slash _ _ _ _ Ho) as (H1 & _ & H3 & H4).
    rewrite !cores_slash. apply incl_flat_map'. apply (IHe1 dot (joins_path _ _ _ _ H4 H1) H1). exists k. auto.
  - change (kind E (EStep axis node_test predicates) = Some k) in Hk. destruct k as [q|q|]; [| |congruence].
    + rewrite !(cores_child _ _ _ _ _ Ho Hk), (kids_append K n Hn), flat_map_app. apply incl_appl, incl_refl.
    + rewrite !(cores_attr _ _ _ _ _ Ho Hk), attrs_append. apply incl_refl.
  - unfold fkind in Hk. cbn in Hk. discriminate.
Qed.

Lemma existsb_incl {A} (f : A -> bool) l l' : incl l l' -> existsb f l = true -> existsb f l' = true.
Proof. intros H. rewrite !existsb_exists. intros (x & Hx & Hf). exists x. auto. Qed.

(** value written for a predicate satisfies it *)
Definition rvalue (E : env) (r : expr) : xv := ev E r (IElem [] (Misc [])).
Lemma rvalue_ev E r c : rvalue_ok E r = true -> ev E r c = rvalue E r.
Proof. unfold rvalue. destruct r; cbn; try discriminate; reflexivity. Qed.

(** a predicate holds iff its path selects something (with the right value) *)
Lemma hold_path E p n : is_path p = true -> ok E false p = true -> (hold E p n = true <-> cores E p n <> []).
Proof.
  intros Hp Ho. unfold hold, cores. destruct (ev_is_nodes E false p (IElem [] n) Hp Ho) as [its ->]. cbn.
  destruct its; cbn; split; congruence.
Qed.

Lemma rvalue_not_nodes E r : rvalue_ok E r = true -> match rvalue E r with XN _ => False | XB _ => False | _ => True end.
Proof.
  unfold rvalue. destruct r; cbn; try discriminate; auto. destruct prefix; [discriminate|]. unfold var_value.
  destruct (lookup localname (vars E)) as [[|]|]; auto. discriminate.
Qed.

Definition vcmp (v : xv) (s : str) : bool :=
  match v with XS x => str_eqb s x | XNum m => num_eqb (xnumber s) m | _ => false end.

Lemma hold_eq E l r n : is_path l = true -> ok E false l = true -> rvalue_ok E r = true ->
  hold E (EBin l (u "=") r) n = existsb (fun i => vcmp (rvalue E r) (item_str i)) (cores E l n).
Proof.
  intros Hp Ho Hr. unfold hold. cbn [ev]. replace (str_eqb (u "=") (u "/")) with false by reflexivity. rewrite str_eqb_refl. cbn [to_bool].
  rewrite (rvalue_ev _ _ _ Hr). pose proof (rvalue_not_nodes _ _ Hr) as Hv.
  rewrite xeq_cores_aux; [|destruct (rvalue E r); auto|eapply ev_is_nodes; eassumption].
  destruct (rvalue E r); try contradiction; reflexivity.
Qed.

Lemma ok_eq E l r : ok E false (EBin l (u "=") r) = true -> is_path l = true /\ ok E false l = true /\ rvalue_ok E r = true.
Proof.
  cbn [ok]. replace (str_eqb (u "=") (u "/")) with false by reflexivity. rewrite str_eqb_refl. intros H.
  apply andb_prop in H as [H H4]. apply andb_prop in H as [H H3]. apply andb_prop in H as [_ H2]. auto.
Qed.

(** case split on the form of a predicate *)
Lemma pred_cases E p : ok E false p = true ->
  (is_path p = true /\ path_of p = p) \/ (exists l r, p = EBin l (u "=") r).
Proof.
  intros Ho. destruct p; try (cbn in Ho; discriminate).
  - cbn [path_of is_path]. destruct (str_eqb op (u "=")) eqn:Eq.
    + right. apply str_eqb_eq in Eq. subst. eauto.
    + left. cbn [ok] in Ho. destruct (str_eqb op (u "/")); [auto|]. rewrite Eq in Ho. discriminate.
  - left. auto.
Qed.

Lemma hold_mono E p n n' : ok E false p = true -> incl (cores E (path_of p) n) (cores E (path_of p) n') -> hold E p n = true -> hold E p n' = true.
Proof.
  intros Ho Hi Hh. destruct (pred_cases _ _ Ho) as [[Hp He]|(l & r & ->)].
  - rewrite He in Hi. apply (hold_path E p n Hp Ho) in Hh. apply hold_path; auto. intros H0. rewrite H0 in Hi.
    destruct (cores E p n) as [|x t]; [contradiction|]. exact (Hi x (or_introl eq_refl)).
  - destruct (ok_eq _ _ _ Ho) as (H1 & H2 & H3). cbn [path_of] in Hi. rewrite str_eqb_refl in Hi.
    rewrite hold_eq in * by assumption. eapply existsb_incl; eassumption.
Qed.

Lemma hold_append E K n dot ax t ps q p : tag_of n <> None -> ok E dot (EStep ax t ps) = true ->
  kind E (EStep ax t ps) = Some (KChild q) -> In p ps -> hold E p n = true -> hold E p (append_kid K n) = true.
Proof.
  intros Hn Ho Hk Hp Hh. destruct (ok_step_preds _ _ _ _ _ _ _ Ho Hk Hp) as (H1 & _ & H3).
  destruct (fkind_some _ _ _ _ _ _ _ Ho Hk Hp) as [k Hfk]. destruct (pred_path _ _ H1) as (P1 & P2 & P3 & _).
  eapply hold_mono; try eassumption. eapply cores_append; try eassumption. exists k. rewrite P3. split; congruence.
Qed.

(** ** addresses *)
Lemma sel_length E ss : forall n b, In b (sel E ss n) -> length b = length ss.
Proof.
  induction ss as [|s ss IH]; intros n b Hb.
  - cbn in Hb. destruct Hb as [<-|[]]. reflexivity.
  - destruct (In_sel_cons _ _ _ _ _ Hb) as (i & k & b' & -> & _ & _ & Hb'). cbn. f_equal. eauto.
Qed.

Lemma NoDup_app' {A} (l l' : list A) : NoDup l -> NoDup l' -> (forall x, In x l -> In x l' -> False) -> NoDup (l ++ l').
Proof.
  induction 1 as [|x l Hx _ IH]; intros Hl' Hd; cbn; [assumption|]. constructor.
  - rewrite in_app_iff. intros [H|H]; [contradiction|]. eapply Hd; [now left|exact H].
  - apply IH; auto. intros y Hy. apply Hd. now right.
Qed.

Lemma sel_NoDup E ss : forall n, NoDup (sel E ss n).
Proof.
  induction ss as [|s ss IH]; intros n; cbn [sel]; [repeat constructor; auto|].
  assert (G : forall l i, NoDup (flat_map (fun x : nat * (node * option str) => if mstep E s (fst (snd x)) then map (cons (fst x)) (sel E ss (fst (snd x))) else []) (enum i l))
     /\ forall b, In b (flat_map (fun x : nat * (node * option str) => if mstep E s (fst (snd x)) then map (cons (fst x)) (sel E ss (fst (snd x))) else []) (enum i l)) -> i <= hd 0 b).
  { induction l as [|k l IHl]; intros i; cbn [enum flat_map]; [split; [constructor|contradiction]|].
    destruct (IHl (S i)) as [H1 H2]. cbn [fst snd] in *. split.
    - apply NoDup_app'; auto.
      + destruct (mstep E s (fst k)); [|constructor]. apply FinFun.Injective_map_NoDup; [|apply IH].
        intros x y [= ->]. reflexivity.
      + intros b Hb Hb'. apply H2 in Hb'. destruct (mstep E s (fst k)); [|contradiction].
        apply in_map_iff in Hb as (b' & <- & _). cbn in Hb'. lia.
    - intros b Hb. apply in_app_or in Hb as [Hb|Hb].
      + destruct (mstep E s (fst k)); [|contradiction]. apply in_map_iff in Hb as (b' & <- & _). cbn. lia.
      + apply H2 in Hb. lia. }
  apply G.
Qed.

Lemma get_upd_other b c f n : length b = length c -> b <> c -> get_at c (upd_at b f n) = get_at c n.
Proof.
  revert c n. induction b as [|i b IH]; intros [|j c] n Hl Hne; cbn in Hl; try discriminate; [contradiction|].
  cbn [get_at]. rewrite kids_upd_cons, nth_upd_nth. destruct (Nat.eqb_spec i j) as [->|N]; [|reflexivity].
  destruct (nth_error (kids_of n) j) as [k|]; [|reflexivity]. cbn. apply IH; [lia|congruence].
Qed.

Lemma nth_error_app_len {A} (l : list A) x : nth_error (l ++ [x]) (length l) = Some x.
Proof. rewrite nth_error_app2, Nat.sub_diag; [reflexivity|lia]. Qed.

Lemma get_append K n b : tag_of n <> None -> get_at (length (kids_of n) :: b) (append_kid K n) = get_at b K.
Proof. intros Hn. cbn [get_at]. now rewrite (kids_append K n Hn), nth_error_app_len. Qed.

Lemma upd_nth_app_len {A} (f : A -> A) l x : upd_nth (length l) f (l ++ [x]) = l ++ [f x].
Proof. induction l as [|y l IH]; cbn; [reflexivity|]. now rewrite IH. Qed.

Lemma upd_append K n b f : tag_of n <> None -> upd_at (length (kids_of n) :: b) f (append_kid K n) = append_kid (upd_at b f K) n.
Proof.
  intros Hn. destruct n as [q ats t ks|s]; [|contradiction]. cbn. f_equal. now rewrite upd_nth_app_len.
Qed.

Lemma sel_append E s ss K n : tag_of n <> None ->
  sel E (s :: ss) (append_kid K n) =
  sel E (s :: ss) n ++ (if mstep E s K then map (cons (length (kids_of n))) (sel E ss K) else []).
Proof.
  intros Hn. cbn [sel]. rewrite (kids_append K n Hn).
  assert (G : forall (l : list (node * option str)) i, enum i (l ++ [(K, None)]) = enum i l ++ [(i + length l, (K, None))]).
  { induction l as [|x l IH]; intros i; cbn; [now rewrite Nat.add_0_r|]. rewrite IH. do 4 f_equal. lia. }
  rewrite G, flat_map_app. f_equal. cbn. now rewrite app_nil_r.
Qed.

(** ** values written by predicates *)
Definition leafy (E : env) (ps : list expr) (K : node) : Prop :=
  (forall k, In k (kids_of K) -> exists q p, In p ps /\ tag_of (fst k) = Some q /\ fkind E p = Some (KChild q)) /\
  (forall x, In x (attrs_of K) -> exists p, In p ps /\ fkind E p = Some (KAttr (fst x))) /\
  text_of K = None /\ (forall k, In k (kids_of K) -> snd k = None).

(** attributes named by a supported step *)
Lemma attr_name_kind E ax p nm ps q : kind E (EStep ax (NameTest p nm) ps) = Some (KAttr q) -> attr_name E p nm = q.
Proof.
  intros Hk. destruct (kind_attr _ _ _ _ _ Hk) as (p' & nm' & [= <- <-] & _ & _ & _ & _ & Hp & Hr & Hn).
  unfold attr_name. rewrite Hp. destruct q as [ns l]. cbn in *. subst nm. destruct p as [x|]; cbn in Hr.
  - destruct (ns_of E x); [|discriminate]. congruence.
  - congruence.
Qed.

Lemma child_ns_kind E ax p nm ps q : kind E (EStep ax (NameTest p nm) ps) = Some (KChild q) -> child_ns E p = Ret (q_ns q) /\ name_valid nm = true /\ nm = q_local q.
Proof.
  intros Hk. destruct (kind_child _ _ _ _ _ Hk) as (p' & nm' & [= <- <-] & _ & Hs & Hp & Hr & Hn). subst nm.
  unfold name_valid. rewrite Hs. split; [|auto]. unfold child_ns. rewrite Hp.
  destruct p as [x|]; cbn in Hr.
  - unfold ns_of in Hr. destruct (nss E) as [l|]; [|discriminate]. destruct (lookup x l); [|discriminate]. congruence.
  - destruct (nss E); congruence.
Qed.
