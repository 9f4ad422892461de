(** Saving and loading: C79. *)
From Coq Require Import String List Arith NArith Bool Lia.
From Verif Require Import PyStr XmlTree Fields XPathEval ObjEq Mappers FieldUndo MapperProofs Props_Fields XmlText XmlTextProofs.
Import ListNotations.
Opaque u.

(** ** Specification *)
Definition blank_char (c : N) : Prop := c = 32%N \/ c = 9%N \/ c = 10%N.
Definition blank (s : str) : Prop := Forall blank_char s.
Definition oblank (t : option str) : Prop := match t with Some s => blank s | None => True end.
(** names: no white space, no markup characters, no colon *)
Definition simple_name (s : str) : Prop := s <> [] /\ Forall (fun c => xml_char c = true /\ ~ In c [32; 9; 10; 13; 33; 34; 38; 39; 47; 58; 60; 61; 62; 63]%N) s.
(** the declarations of a root element: each prefix once, not the reserved ones *)
Definition decls_ok (P : nsdecls) : Prop :=
  NoDup (map fst P) /\
  forall p uri, In (p, uri) P -> uri <> [] /\ xml_valid uri = true /\ match p with Some x => simple_name x /\ x <> u "xml" /\ x <> u "xmlns" | None => True end.
(** one node of a tree that lxml can hold, its namespaces being declared *)
Definition name_declared (P : nsdecls) (q : qname) : Prop :=
  simple_name (q_local q) /\ match q_ns q with None => ~ In None (map fst P) | Some uri => exists p, In (p, uri) (scope P) end.
Definition att_declared (P : nsdecls) (q : qname) : Prop :=
  simple_name (q_local q) /\ match q_ns q with None => q_local q <> u "xmlns" | Some uri => exists p, In (Some p, uri) (scope P) end.
Definition comment_text (s : str) : Prop := xml_valid s = true /\ ~ In 13%N s /\ forall a b, s ++ [45%N] <> a ++ [45; 45]%N ++ b.
Definition node_ok (P : nsdecls) (n : node) : Prop :=
  match n with
  | Misc s => comment_text s
  | Elem q ats txt kids => name_declared P q /\ (forall k v, In (k, v) ats -> att_declared P k /\ xml_valid v = true) /\
      xml_valid (ostr txt) = true /\ forall k t, In (k, t) kids -> xml_valid (ostr t) = true
  end.
Definition tree_ok (P : nsdecls) (n : node) : Prop := forall a m, get_at a n = Some m -> node_ok P m.
(** the same tree without empty text nodes *)
Definition no_empty (t : option str) : option str := match t with Some [] => None | _ => t end.
Fixpoint drop_empty (n : node) : node :=
  match n with
  | Misc s => Misc s
  | Elem q ats txt kids => Elem q ats (no_empty txt) (map (fun k => (drop_empty (fst k), no_empty (snd k))) kids)
  end.
Definition is_elem (n : node) : Prop := match n with Elem _ _ _ _ => True | Misc _ => False end.

(** ** lemmas *)
Lemma is_xws_spec c : is_xws c = true <-> c = 32%N \/ c = 9%N \/ c = 13%N \/ c = 10%N.
Proof. unfold is_xws. rewrite !orb_true_iff, !N.eqb_eq. tauto. Qed.
Lemma simple_sym c : xml_char c = true -> ~ In c [32; 9; 10; 13; 33; 34; 38; 39; 47; 58; 60; 61; 62; 63]%N -> name_sym c = true.
Proof.
  intros Hx Hn. unfold name_sym. rewrite Hx. assert (is_xws c = false) as ->.
  { apply not_true_iff_false. rewrite is_xws_spec. intros H. apply Hn. cbn. intuition congruence. }
  cbn [negb andb]. apply negb_true_iff, not_true_iff_false. intros H. apply existsb_exists in H as (x & Hx2 & E). apply N.eqb_eq in E as <-. apply Hn. cbn in *. intuition.
Qed.
Lemma simple_name_ok s : simple_name s -> name_ok s = true /\ ~ In 58%N s.
Proof.
  intros [H1 H2]. split.
  - destruct s as [|c s]; [congruence|]. unfold name_ok. rewrite forallb_forall. rewrite Forall_forall in H2. intros x Hx. destruct (H2 x Hx). now apply simple_sym.
  - intros Hi. rewrite Forall_forall in H2. destruct (H2 _ Hi) as [_ H]. apply H. cbn. tauto.
Qed.
Lemma name_ok_app a b : name_ok a = true -> forallb name_sym b = true -> name_ok (a ++ b) = true.
Proof. destruct a as [|c a]; [discriminate|]. unfold name_ok. cbn [app forallb]. rewrite forallb_app. intros H ->. apply andb_prop in H as [-> ->]. reflexivity. Qed.
Lemma tree_kid P q ats txt kids k t : tree_ok P (Elem q ats txt kids) -> In (k, t) kids -> tree_ok P k.
Proof.
  intros H Hi a m Hm. apply In_nth_error in Hi as [i Hi]. apply (H (i :: a)). cbn. now rewrite Hi.
Qed.
Lemma comment_ok_spec s : comment_text s -> comment_ok s = true.
Proof.
  intros (H1 & H2 & H3). induction s as [|c s IH]; [reflexivity|]. cbn in H1. apply andb_prop in H1 as [Hc H1]. cbn. rewrite Hc.
  destruct (N.eqb_spec c 13) as [->|N1]; [exfalso; apply H2; now left|]. cbn [negb andb]. rewrite IH; [|assumption|intros Hi; apply H2; now right|].
  - rewrite andb_true_r. apply negb_true_iff, not_true_iff_false. intros H. apply andb_prop in H as [E1 E2]. apply N.eqb_eq in E1 as ->. destruct s as [|d s]; [now apply (H3 [] [])|]. apply N.eqb_eq in E2 as ->. now apply (H3 [] (s ++ [45%N])).
  - intros a b E. apply (H3 (c :: a) b). cbn. now rewrite E.
Qed.
Lemma drop_no_empty t : drop t = no_empty t. Proof. reflexivity. Qed.

(** *** names *)
Lemma find_some_in {A} (f : A -> bool) l x : In x l -> f x = true -> exists y, find f l = Some y.
Proof. intros Hi Hf. destruct (find f l) eqn:E; [eauto|]. rewrite (find_none _ _ E _ Hi) in Hf. discriminate. Qed.
Lemma scope_fst P p uri : decls_ok P -> In (p, uri) (scope P) -> match p with Some x => simple_name x /\ x <> u "xmlns" | None => In (None, uri) P end.
Proof.
  intros [_ H] Hi. apply in_app_or in Hi as [Hi|[[= <- <-]|[]]].
  - destruct p as [x|]; [|assumption]. specialize (H _ _ Hi). cbn in H. tauto.
  - Transparent u. split; [split; [discriminate|]|discriminate]. repeat constructor; cbn; intros; intuition discriminate. Opaque u.
Qed.
Lemma scope_nodup P : decls_ok P -> NoDup (map fst (scope P)).
Proof.
  intros [H1 H2]. unfold scope. rewrite map_app. cbn. rewrite <- (rev_involutive (map fst P ++ [Some (u "xml")])). apply NoDup_rev. rewrite rev_app_distr. cbn. constructor; [|now apply NoDup_rev].
  rewrite <- in_rev. intros Hi. apply in_map_iff in Hi as ([p uri] & E & Hi). cbn in E. subst p. specialize (H2 _ _ Hi). cbn in H2. tauto.
Qed.
Lemma lookup_in sc p uri : NoDup (map fst sc) -> In (p, uri) sc -> lookup p sc = Some uri.
Proof.
  unfold lookup. induction sc as [|[p' v] sc IH]; intros Hn Hi; [destruct Hi|]. cbn in *. inversion Hn; subst. destruct Hi as [[= -> ->]|Hi].
  - assert (ostr_eqb p p = true) as -> by now apply ostr_eqb_eq. reflexivity.
  - destruct (ostr_eqb p' p) eqn:E; [|now apply IH]. apply ostr_eqb_eq in E as ->. exfalso. apply H1. now apply (in_map fst) in Hi.
Qed.
Lemma lookup_none P : ~ In None (map fst P) -> lookup None (scope P) = None.
Proof.
  intros H. unfold lookup. destruct (find _ _) as [[p uri]|] eqn:E; [|reflexivity]. apply find_some in E as [Hi E]. cbn in E. apply ostr_eqb_eq in E as ->. apply in_app_or in Hi as [Hi|[[= <- <-]|[]]]. exfalso. apply H. now apply (in_map fst) in Hi.
Qed.
Lemma span_colon a b : ~ In 58%N a -> span (fun c => negb (N.eqb c 58)) (a ++ 58%N :: b) = (a, 58%N :: b).
Proof. intros H. apply span_next; [|reflexivity]. apply forallb_forall. intros c Hc. apply negb_true_iff, N.eqb_neq. intros ->. contradiction. Qed.
Lemma span_nocolon a : ~ In 58%N a -> span (fun c => negb (N.eqb c 58)) a = (a, []).
Proof.
  intros H. pose proof (span_all (fun c => negb (N.eqb c 58)) a []) as S. rewrite app_nil_r in S. apply S; [|exact I]. apply forallb_forall. intros c Hc. apply negb_true_iff, N.eqb_neq. intros ->. contradiction.
Qed.
(** the written name: without prefix, or prefix, colon, local part *)
Lemma raw_name_cases att P q : decls_ok P -> (match q_ns q with None => True | Some uri => exists p, In (p, uri) (scope P) /\ usable att p = true end) ->
  (q_ns q = None /\ raw_name att P q = q_local q) \/
  (exists uri, q_ns q = Some uri /\ att = false /\ In (None, uri) (scope P) /\ raw_name att P q = q_local q) \/
  (exists uri p, q_ns q = Some uri /\ In (Some p, uri) (scope P) /\ raw_name att P q = p ++ 58%N :: q_local q).
Proof.
  intros HP H. unfold raw_name. destruct (q_ns q) as [uri|]; [right|now left]. destruct H as (p & Hi & Hu).
  destruct (find_some_in (fun d => usable att (fst d) && str_eqb (snd d) uri) (scope P) (p, uri) Hi) as [[p1 v] E]; [cbn; now rewrite Hu, str_eqb_refl|]. rewrite E. apply find_some in E as [Hi2 E]. cbn in E. apply andb_prop in E as [E1 E2]. apply str_eqb_eq in E2 as ->.
  destruct p1 as [p1|]; [right; exists uri, p1; auto|]. left. exists uri. split; [reflexivity|]. split; [|auto]. now destruct att.
Qed.
Lemma usable_in (att : bool) P q : (if att then att_declared P q else name_declared P q) -> match q_ns q with None => True | Some uri => exists p, In (p, uri) (scope P) /\ usable att p = true end.
Proof. unfold att_declared, name_declared. intros H. destruct att, (q_ns q); try exact I; destruct H as [_ [p H]]; [exists (Some p)|exists p]; split; auto. Qed.
Lemma res_raw (att : bool) P q : decls_ok P -> (if att then att_declared P q else name_declared P q) -> res_name att (scope P) (raw_name att P q) = Some q.
Proof.
  intros HP Hq. assert (Hs : simple_name (q_local q)) by (destruct att; apply Hq). apply simple_name_ok in Hs as [_ Hc]. destruct q as [ns l]. cbn in *. unfold res_name.
  destruct (raw_name_cases att P (QN ns l) HP (usable_in att P _ Hq)) as [[E ->]|[(uri & E & -> & Hi & ->)|(uri & p & E & Hi & ->)]]; cbn in *; subst ns.
  - rewrite (span_nocolon _ Hc). destruct att; [reflexivity|]. destruct Hq as [_ Hq]. cbn in Hq. now rewrite (lookup_none _ Hq).
  - rewrite (span_nocolon _ Hc). now rewrite (lookup_in _ _ _ (scope_nodup _ HP) Hi).
  - pose proof (scope_fst _ _ _ HP Hi) as [Hp _]. apply simple_name_ok in Hp as [_ Hp]. rewrite (span_colon _ _ Hp). now rewrite (lookup_in _ _ _ (scope_nodup _ HP) Hi).
Qed.
Lemma raw_name_ok (att : bool) P q : decls_ok P -> (if att then att_declared P q else name_declared P q) -> name_ok (raw_name att P q) = true.
Proof.
  intros HP Hq. assert (Hs : simple_name (q_local q)) by (destruct att; apply Hq). apply simple_name_ok in Hs as [Hs _].
  destruct (raw_name_cases att P q HP (usable_in att P _ Hq)) as [[E ->]|[(uri & E & -> & Hi & ->)|(uri & p & E & Hi & ->)]]; try assumption.
  pose proof (scope_fst _ _ _ HP Hi) as [Hp _]. apply simple_name_ok in Hp as [Hp _]. apply name_ok_app; [assumption|]. cbn [forallb]. rewrite (name_forall _ Hs). reflexivity.
Qed.
Lemma eat_spec p s r : eat p s = Some r -> s = p ++ r.
Proof. unfold eat. destruct (str_eqb (firstn (length p) s) p) eqn:E; [|discriminate]. apply str_eqb_eq in E. intros [= <-]. rewrite <- E at 1. symmetry. apply firstn_skipn. Qed.
Lemma raw_att_plain P q v : decls_ok P -> att_declared P q -> decl_of (raw_name true P q, v) = None.
Proof.
  intros HP Hq. unfold decl_of. cbn [fst snd]. assert (Hs : simple_name (q_local q)) by apply Hq. apply simple_name_ok in Hs as [_ Hc].
  assert (X : forall r, u "xmlns:" ++ r = u "xmlns" ++ 58%N :: r) by reflexivity. assert (NC : ~ In 58%N (u "xmlns")) by (vm_compute; intuition discriminate).
  destruct (raw_name_cases true P q HP (usable_in true P _ Hq)) as [[E ->]|[(uri & E & H & Hi & _)|(uri & p & E & Hi & ->)]]; [|discriminate|].
  - destruct Hq as [_ Hq]. rewrite E in Hq. destruct (str_eqb_spec (q_local q) (u "xmlns")); [contradiction|]. destruct (eat (u "xmlns:") (q_local q)) as [r|] eqn:Ee; [|reflexivity]. apply eat_spec in Ee. exfalso. apply Hc. rewrite Ee, X. apply in_or_app. right. now left.
  - pose proof (scope_fst _ _ _ HP Hi) as [Hp Hx]. apply simple_name_ok in Hp as [_ Hp].
    destruct (str_eqb_spec (p ++ 58%N :: q_local q) (u "xmlns")) as [E2|_]; [exfalso; apply NC; rewrite <- E2; apply in_or_app; right; now left|].
    destruct (eat (u "xmlns:") (p ++ 58%N :: q_local q)) as [r|] eqn:Ee; [|reflexivity]. apply eat_spec in Ee. rewrite X in Ee. apply (f_equal (span (fun c => negb (N.eqb c 58)))) in Ee. rewrite (span_colon _ _ Hp), (span_colon _ _ NC) in Ee. injection Ee as -> _. contradiction.
Qed.
Lemma decl_of_att d : decl_of (decl_att d) = Some d.
Proof.
  destruct d as [[p|] v]; unfold decl_of, decl_att; cbn [fst snd].
  - destruct (str_eqb_spec (u "xmlns:" ++ p) (u "xmlns")) as [E|_]; [apply (f_equal (@length N)) in E; rewrite app_length in E; change (length (u "xmlns:")) with 6 in E; change (length (u "xmlns")) with 5 in E; lia|]. now rewrite eat_ok.
  - now rewrite str_eqb_refl.
Qed.
Lemma decls_in_app a b : decls_in (a ++ b) = decls_in a ++ decls_in b. Proof. apply flat_map_app. Qed.
Lemma decls_in_decl P : decls_in (map decl_att P) = P.
Proof. induction P as [|d P IH]; [reflexivity|]. cbn [map]. unfold decls_in in *. cbn [flat_map]. rewrite decl_of_att. cbn [app]. now rewrite IH. Qed.
Lemma plain_in_decl P : plain_in (map decl_att P) = [].
Proof. induction P as [|d P IH]; [reflexivity|]. cbn [map]. unfold plain_in in *. cbn [filter]. now rewrite decl_of_att. Qed.
Definition ratts (P : nsdecls) (ats : list (qname * str)) : list (str * str) := map (fun a => (raw_name true P (fst a), snd a)) ats.
Lemma ratts_plain P ats : decls_ok P -> (forall k v, In (k, v) ats -> att_declared P k /\ xml_valid v = true) -> decls_in (ratts P ats) = [] /\ plain_in (ratts P ats) = ratts P ats.
Proof.
  intros HP. induction ats as [|[k v] ats IH]; intros H; [auto|]. destruct IH as [I1 I2]; [intros; apply H; now right|]. destruct (H k v (or_introl eq_refl)) as [Hk _]. unfold ratts, decls_in, plain_in in *. cbn [map flat_map filter fst snd]. rewrite (raw_att_plain _ _ _ HP Hk). cbn [app]. split; [exact I1|f_equal; exact I2].
Qed.
Lemma ratts_resolve P ats : decls_ok P -> (forall k v, In (k, v) ats -> att_declared P k /\ xml_valid v = true) ->
  all_some (map (fun a => option_map (fun q => (q, snd a)) (res_name true (scope P) (fst a))) (ratts P ats)) = Some ats.
Proof.
  intros HP. induction ats as [|[k v] ats IH]; intros H; [reflexivity|]. destruct (H k v (or_introl eq_refl)) as [Hk _]. cbn [ratts map fst snd]. rewrite (res_raw true P k HP Hk). cbn [option_map all_some]. fold (ratts P ats). rewrite IH; [reflexivity|]. intros; apply H; now right.
Qed.
(** *** trees *)
Lemma resolve_raw P : decls_ok P -> forall n, tree_ok P n -> resolve (scope P) (to_raw P n) = Some n.
Proof.
  intros HP. induction n as [q ats txt kids IH|s] using node_ind'; intros H; [|reflexivity]. destruct (H [] _ eq_refl) as (Hq & Ha & _). cbn [to_raw resolve]. fold (ratts P ats). destruct (ratts_plain P ats HP Ha) as [-> ->]. cbn [app].
  rewrite (res_raw false P q HP Hq), (ratts_resolve P ats HP Ha). rewrite map_map.
  assert (K : all_some (map (fun x => option_map (fun n => (n, snd (to_raw P (fst x), snd x))) (resolve (scope P) (fst (to_raw P (fst x), snd x)))) kids) = Some kids).
  { clear -IH H. assert (G : forall k t, In (k, t) kids -> resolve (scope P) (to_raw P k) = Some k). { intros k t Hi. rewrite Forall_forall in IH. apply (IH _ Hi). eapply tree_kid; eassumption. }
    clear -G. induction kids as [|[k t] kids IH]; [reflexivity|]. cbn [map fst snd]. rewrite (G k t (or_introl eq_refl)). cbn [option_map all_some]. cbn [fst snd] in IH. rewrite IH; [reflexivity|]. intros; eapply G; right; eassumption. }
  rewrite K. reflexivity.
Qed.
Lemma resolve_doc P q ats txt kids : decls_ok P -> tree_ok P (Elem q ats txt kids) ->
  exists nm rats rk, to_doc P (Elem q ats txt kids) = RElem nm rats txt rk /\ decls_in rats = P /\ resolve [(Some (u "xml"), xml_uri)] (RElem nm rats txt rk) = Some (Elem q ats txt kids).
Proof.
  intros HP H. unfold to_doc. cbn [to_raw]. fold (ratts P ats). eexists _, _, _. split; [reflexivity|]. destruct (H [] _ eq_refl) as (Hq & Ha & _). destruct (ratts_plain P ats HP Ha) as [D1 D2].
  rewrite decls_in_app, decls_in_decl, D1, app_nil_r. split; [reflexivity|]. cbn [resolve]. rewrite decls_in_app, decls_in_decl, D1, app_nil_r. unfold plain_in at 1. rewrite filter_app. fold (plain_in (map decl_att P)) (plain_in (ratts P ats)). rewrite plain_in_decl, D2. cbn [app].
  pose proof (resolve_raw P HP _ H) as R. cbn [to_raw resolve] in R. fold (ratts P ats) in R. rewrite D1, D2 in R. cbn [app] in R. exact R.
Qed.
Lemma ovalid_spec t : ovalid t = xml_valid (ostr t). Proof. now destruct t. Qed.
Lemma raw_ok_tree P : decls_ok P -> forall n, tree_ok P n -> raw_ok (to_raw P n) = true.
Proof.
  intros HP. induction n as [q ats txt kids IH|s] using node_ind'; intros H; [|exact (comment_ok_spec _ (H [] _ eq_refl))]. destruct (H [] _ eq_refl) as (Hq & Ha & Ht & Hk). cbn [to_raw raw_ok]. rewrite (raw_name_ok false P q HP Hq), ovalid_spec, Ht. cbn [andb]. rewrite andb_true_r.
  apply andb_true_intro. split; apply forallb_forall.
  - intros x Hx. apply in_map_iff in Hx as ([k v] & <- & Hx). cbn [fst snd]. destruct (Ha _ _ Hx) as [H1 H2]. now rewrite (raw_name_ok true P k HP H1), H2.
  - intros x Hx. apply in_map_iff in Hx as ([k t] & <- & Hx). cbn [fst snd]. rewrite ovalid_spec, (Hk _ _ Hx), andb_true_r. rewrite Forall_forall in IH. apply (IH _ Hx). eapply tree_kid; eassumption.
Qed.
Lemma decl_atts_ok P : decls_ok P -> forallb (fun a => name_ok (fst a) && xml_valid (snd a)) (map decl_att P) = true.
Proof.
  intros [_ H]. apply forallb_forall. intros x Hx. apply in_map_iff in Hx as ([p v] & <- & Hx). destruct (H _ _ Hx) as (_ & Hv & Hp). cbn [decl_att fst snd]. rewrite Hv, andb_true_r. destruct p as [p|]; [|reflexivity]. destruct Hp as [Hp _]. apply simple_name_ok in Hp as [Hp _]. apply name_ok_app; [reflexivity|now apply name_forall].
Qed.
Lemma raw_ok_doc P n : decls_ok P -> tree_ok P n -> raw_ok (to_doc P n) = true.
Proof.
  intros HP H. pose proof (raw_ok_tree P HP n H) as R. unfold to_doc. destruct (to_raw P n) as [nm ats txt kids|s]; [|exact R]. cbn [raw_ok] in *. rewrite forallb_app, (decl_atts_ok P HP). exact R.
Qed.
Lemma rnorm_raw P n : rnorm (to_raw P n) = to_raw P (drop_empty n).
Proof.
  induction n as [q ats txt kids IH|s] using node_ind'; [|reflexivity]. cbn [to_raw rnorm drop_empty]. f_equal. rewrite !map_map. apply map_ext_in. intros [k t] Hi. cbn [fst snd]. rewrite Forall_forall in IH. specialize (IH _ Hi). cbn [fst] in IH. now rewrite IH.
Qed.
Lemma rnorm_doc P n : rnorm (to_doc P n) = to_doc P (drop_empty n).
Proof. unfold to_doc. rewrite <- rnorm_raw. destruct (to_raw P n); reflexivity. Qed.
Lemma get_drop a : forall n m, get_at a (drop_empty n) = Some m -> exists m0, get_at a n = Some m0 /\ m = drop_empty m0.
Proof.
  induction a as [|i a IH]; intros n m H; [exists n; injection H as <-; auto|]. cbn [get_at] in H. destruct n as [q ats txt kids|s]; [|destruct i; discriminate H]. cbn [drop_empty kids_of] in H. rewrite nth_error_map in H. destruct (nth_error kids i) as [[k t]|] eqn:E; [|discriminate]. cbn in H. destruct (IH _ _ H) as (m0 & H1 & H2). exists m0. cbn. rewrite E. auto.
Qed.
Lemma tree_drop P n : tree_ok P n -> tree_ok P (drop_empty n).
Proof.
  intros H a m Hm. destruct (get_drop _ _ _ Hm) as (m0 & H0 & ->). specialize (H _ _ H0). destruct m0 as [q ats txt kids|s]; [|exact H]. cbn in *. destruct H as (H1 & H2 & H3 & H4). split; [assumption|]. split; [assumption|]. split; [now destruct txt as [[|]|]|].
  intros k t Hi. apply in_map_iff in Hi as ([k0 t0] & [= <- <-] & Hi). specialize (H4 _ _ Hi). cbn in *. now destruct t0 as [[|]|].
Qed.
(** *** reading *)
Lemma print_head nm ats txt kids rest : name_ok nm = true -> exists c b, name_sym c = true /\ print (RElem nm ats txt kids) ++ rest = 60%N :: c :: b.
Proof.
  intros Hn. destruct nm as [|c nm]; [discriminate|]. unfold name_ok in Hn. cbn [forallb] in Hn. apply andb_prop in Hn as [Hc _]. destruct (print_elem (c :: nm) ats txt kids) as [(_ & _ & ->)|(_ & ->)]; cbn [app]; exists c; eauto.
Qed.
Definition finish (nm : str) ats txt kids (rest : str) : option (nsdecls * node) :=
  match skip_ws rest with [] => match resolve [(Some (u "xml"), xml_uri)] (RElem nm ats txt kids) with Some n => Some (decls_in ats, n) | None => None end | _ => None end.
Definition pre (dc : bool) : str := if dc then xml_decl else [].
Lemma load_print r nm ats txt kids rest (dc : bool) : raw_ok r = true -> rnorm r = RElem nm ats txt kids -> no_cr rest = true ->
  load (pre dc ++ print r ++ rest) = finish nm ats txt kids rest.
Proof.
  intros Hok Hr Hcr. unfold load. assert (Hd : no_cr (pre dc) = true) by now destruct dc. rewrite line_ends_id by (rewrite !no_cr_app, Hd, (print_no_cr _ Hok); exact Hcr).
  assert (Hel : exists a b c d, r = RElem a b c d) by (destruct r; [eauto|discriminate]). assert (Hn : exists c b, name_sym c = true /\ print r ++ rest = 60%N :: c :: b).
  { destruct Hel as (a & b & c & d & ->). apply print_head. cbn [raw_ok] in Hok. apply andb_prop in Hok as [Hok _]. apply andb_prop in Hok as [Hok _]. now apply andb_prop in Hok as [Hok _]. }
  destruct Hn as (c & b & Hc & Eh).
  set (s2 := match eat (u "<?xml") (pre dc ++ print r ++ rest) with Some x => after_decl x | None => pre dc ++ print r ++ rest end).
  assert (E2 : skip_ws s2 = print r ++ rest /\ length (print r) <= length s2).
  { unfold s2. destruct dc.
    - cbn [pre]. assert (Q : forall x, eat (u "<?xml") (xml_decl ++ x) = Some (u " version='1.0' encoding='UTF-8'?>" ++ 10%N :: x)) by reflexivity. rewrite Q. assert (Q2 : forall x, after_decl (u " version='1.0' encoding='UTF-8'?>" ++ 10%N :: x) = 10%N :: x) by reflexivity. rewrite Q2. split; [|cbn; rewrite app_length; lia].
      rewrite Eh. reflexivity.
    - cbn [pre app]. replace (eat (u "<?xml") (print r ++ rest)) with (@None str); [split; [rewrite Eh; reflexivity|rewrite app_length; lia]|]. symmetry. destruct (eat _ _) as [x|] eqn:E; [|reflexivity]. apply eat_spec in E. rewrite Eh in E. Transparent u. cbn in E. Opaque u. injection E as -> _. discriminate. }
  destruct E2 as [E2 E3]. fold s2. rewrite E2. rewrite (p_elem_ok r Hok Hel rest); [|lia]. rewrite Hr. reflexivity.
Qed.
Lemma skip_blank s : skip_ws (flat_map text_char s) = [] <-> blank s.
Proof.
  split.
  - induction s as [|c s IH]; intros H; [constructor|]. cbn [flat_map] in H. destruct (text_char_cases c) as [[-> |[-> |[-> | ->]]]|(E & H1 & H2 & H3 & H4)]; try discriminate. rewrite E in H. cbn in H. destruct (is_xws c) eqn:Ec; [|discriminate]. constructor; [|exact (IH H)]. apply is_xws_spec in Ec. unfold blank_char. intuition.
  - induction 1 as [|c s Hc _ IH]; [reflexivity|]. cbn [flat_map]. destruct Hc as [-> |[-> | ->]]; exact IH.
Qed.
Lemma otext_blank t : skip_ws (otext t) = [] <-> oblank t.
Proof. destruct t as [s|]; [apply skip_blank|]. cbn. tauto. Qed.
Lemma load_doc P n rest dc : decls_ok P -> tree_ok P n -> is_elem n -> no_cr rest = true ->
  load (pre dc ++ print (to_doc P n) ++ rest) = if match skip_ws rest with [] => true | _ => false end then Some (P, drop_empty n) else None.
Proof.
  intros HP H He Hr. destruct n as [q ats txt kids|s]; [|destruct He]. pose proof (tree_drop P _ H) as H'. cbn [drop_empty] in H'. destruct (resolve_doc P _ _ _ _ HP H') as (nm & rats & rk & E1 & E2 & E3).
  rewrite (load_print (to_doc P (Elem q ats txt kids)) nm rats (no_empty txt) rk rest dc (raw_ok_doc _ _ HP H)); [|rewrite rnorm_doc; exact E1|assumption].
  unfold finish. destruct (skip_ws rest); [|reflexivity]. rewrite E3, E2. reflexivity.
Qed.
Lemma drop_print t : ostr (no_empty t) = ostr t. Proof. now destruct t as [[|]|]. Qed.
Lemma serialize_eq P d a n : get_at a d = Some n -> serialize P false d a = Some (print (to_doc P n) ++ otext (tail_at a d)).
Proof. intros H. unfold serialize. rewrite H. now rewrite app_nil_r. Qed.

(** ** loading what was saved *)
(** an object is saved and loaded: the same declarations and the same tree (an empty text node cannot be told from none), exactly
    if nothing but blanks follows the element *)
Theorem C79_reload : forall P d a n s, decls_ok P -> tree_ok P n -> is_elem n -> get_at a d = Some n -> serialize P false d a = Some s ->
  (oblank (tail_at a d) -> load s = Some (P, drop_empty n)) /\ (~ oblank (tail_at a d) -> load s = None).
Proof.
  intros P d a n s HP H He Hg Hs. rewrite (serialize_eq _ _ _ _ Hg) in Hs. injection Hs as <-. pose proof (load_doc P n (otext (tail_at a d)) false HP H He (otext_no_cr _)) as L. cbn [pre app] in L. rewrite L. clear L.
  pose proof (otext_blank (tail_at a d)) as B. destruct (skip_ws _) eqn:E; split; intros Hb; try reflexivity; [exfalso; apply Hb; now apply B|]. apply B in Hb. discriminate.
Qed.
(** a document *)
Theorem C79_reload_document : forall P d, decls_ok P -> tree_ok P d -> is_elem d -> load (serialize_document P false d) = Some (P, drop_empty d).
Proof.
  intros P d HP H He. unfold serialize_document. exact (load_doc P d [] true HP H He eq_refl).
Qed.
(** nothing lost at all if there are no empty text nodes: every field reads the same from the loaded object *)
Definition full (n : node) : Prop := forall a m, get_at a n = Some m -> match m with Elem _ _ txt kids => txt <> Some [] /\ forall k t, In (k, t) kids -> t <> Some [] | Misc _ => True end.
Lemma full_drop n : full n -> drop_empty n = n.
Proof.
  induction n as [q ats txt kids IH|s] using node_ind'; intros H; [|reflexivity]. destruct (H [] _ eq_refl) as [H1 H2]. cbn [drop_empty]. f_equal; [destruct txt as [[|]|]; [destruct (H1 eq_refl)| |]; reflexivity|].
  assert (G : forall k t, In (k, t) kids -> (drop_empty k, no_empty t) = (k, t)).
  { intros k t Hi. rewrite Forall_forall in IH. f_equal; [|specialize (H2 _ _ Hi); destruct t as [[|]|]; [destruct (H2 eq_refl)| |]; reflexivity]. apply (IH _ Hi). intros a m Hm. apply In_nth_error in Hi as [i Hi]. apply (H (i :: a)). cbn. now rewrite Hi. }
  clear -G. induction kids as [|[k t] kids IH]; [reflexivity|]. cbn [map fst snd]. rewrite (G k t (or_introl eq_refl)). f_equal. apply IH. intros; apply G; now right.
Qed.
Theorem C79_exact : forall P d, decls_ok P -> tree_ok P d -> is_elem d -> full d ->
  load (serialize_document P false d) = Some (P, d) /\ exists s, serialize P false d [] = Some s /\ load s = Some (P, d).
Proof.
  intros P d HP H He Hf. rewrite (C79_reload_document P d HP H He), (full_drop _ Hf). split; [reflexivity|]. destruct (serialize P false d []) as [s|] eqn:E; [|discriminate]. exists s. split; [reflexivity|].
  destruct (C79_reload P d [] d s HP H He eq_refl E) as [L _]. rewrite (L I), (full_drop _ Hf). reflexivity.
Qed.
(** saving the loaded document gives the same text again *)
Theorem C79_stable : forall P d s P' d', decls_ok P -> tree_ok P d -> is_elem d -> full d -> serialize P false d [] = Some s -> load s = Some (P', d') -> serialize P' false d' [] = Some s.
Proof.
  intros P d s P' d' HP H He Hf Hs Hl. destruct (C79_exact P d HP H He Hf) as (_ & s0 & Hs0 & Hl0). rewrite Hs in Hs0. injection Hs0 as <-. rewrite Hl in Hl0. now injection Hl0 as -> ->.
Qed.

(** ** pretty printing only puts white space into elements that hold no text *)
Inductive spaced : node -> node -> Prop :=
| SpMisc s : spaced (Misc s) (Misc s)
| SpElem q ats txt txt' kids kids' : Forall2 (fun k k' => spaced (fst k) (fst k')) kids kids' ->
    (txt' = no_empty txt /\ map snd kids' = map (fun k => no_empty (snd k)) kids) \/
    (txt = None /\ kids <> [] /\ Forall (fun k => snd k = None) kids /\ Forall (fun t => exists w, t = Some w /\ blank w) (txt' :: map snd kids')) ->
    spaced (Elem q ats txt kids) (Elem q ats txt' kids').
Lemma spaced_drop n : spaced n (drop_empty n).
Proof.
  induction n as [q ats txt kids IH|s] using node_ind'; [|constructor]. cbn. constructor.
  - induction IH as [|[k t] kids Hk _ IH2]; cbn; constructor; [exact Hk|exact IH2].
  - left. split; [reflexivity|]. rewrite map_map. reflexivity.
Qed.
(** [indent] on trees *)
Section NIndent.
Context (ind : node -> node) (d : nat).
Fixpoint nindent_kids (kids : list (node * option str)) : list (node * option str) :=
  match kids with [] => [] | k :: r => (ind (fst k), Some (nl (match r with [] => d | _ => S d end))) :: nindent_kids r end.
End NIndent.
Fixpoint nindent (d : nat) (n : node) : node :=
  match n with
  | Elem q ats None ((_ :: _) as kids) =>
    if forallb (fun k => match snd k with None => true | Some _ => false end) kids
    then Elem q ats (Some (nl (S d))) (nindent_kids (nindent (S d)) d kids) else n
  | _ => n
  end.
Lemma nl_blank d : blank (nl d).
Proof. unfold nl. constructor; [right; now right|]. induction (2 * d); cbn; constructor; [now left|assumption]. Qed.
Lemma nl_valid d : xml_valid (nl d) = true.
Proof. unfold nl. cbn. induction (d + (d + 0)); [reflexivity|]. cbn. exact IHn. Qed.
Lemma spaced_indent n : forall d, spaced n (drop_empty (nindent d n)).
Proof.
  induction n as [q ats txt kids IH|s] using node_ind'; intros d; [|constructor]. destruct txt as [t|]; [apply spaced_drop|]. destruct kids as [|k0 kids0] eqn:Ek; [apply (spaced_drop (Elem q ats None []))|]. rewrite <- Ek in *. assert (Hne : kids <> []) by (rewrite Ek; discriminate).
  replace (nindent d (Elem q ats None kids)) with (if forallb (fun k : node * option str => match snd k with None => true | Some _ => false end) kids then Elem q ats (Some (nl (S d))) (nindent_kids (nindent (S d)) d kids) else Elem q ats None kids) by (rewrite Ek; reflexivity).
  destruct (forallb _ kids) eqn:Ef; [|apply spaced_drop]. clear Ek k0 kids0. cbn [drop_empty]. constructor.
  - clear Ef Hne. induction kids as [|[k t] kids IH2]; cbn; constructor; [inversion IH; subst; cbn in *; auto|]. apply IH2. now inversion IH.
  - right. split; [reflexivity|]. split; [assumption|]. split.
    + apply Forall_forall. intros k Hk. rewrite forallb_forall in Ef. specialize (Ef _ Hk). now destruct (snd k).
    + constructor; [exists (nl (S d)); split; [reflexivity|apply nl_blank]|]. clear. induction kids as [|k kids IH]; cbn; constructor; [|exact IH]. eexists. split; [reflexivity|apply nl_blank].
Qed.
Lemma indent_raw P n : forall d, indent d (to_raw P n) = to_raw P (nindent d n).
Proof.
  induction n as [q ats txt kids IH|s] using node_ind'; intros d; [|reflexivity]. destruct txt as [t|]; [reflexivity|]. destruct kids as [|k0 kids0] eqn:Ek; [reflexivity|]. rewrite <- Ek in *.
  replace (nindent d (Elem q ats None kids)) with (if forallb (fun k : node * option str => match snd k with None => true | Some _ => false end) kids then Elem q ats (Some (nl (S d))) (nindent_kids (nindent (S d)) d kids) else Elem q ats None kids) by (rewrite Ek; reflexivity).
  replace (indent d (to_raw P (Elem q ats None kids))) with (if forallb (fun k : raw * option str => match snd k with None => true | Some _ => false end) (map (fun k => (to_raw P (fst k), snd k)) kids) then RElem (raw_name false P q) (ratts P ats) (Some (nl (S d))) (indent_kids (indent (S d)) d (map (fun k => (to_raw P (fst k), snd k)) kids)) else to_raw P (Elem q ats None kids)) by (rewrite Ek; reflexivity).
  assert (Ef : forallb (fun k : raw * option str => match snd k with None => true | Some _ => false end) (map (fun k => (to_raw P (fst k), snd k)) kids) = forallb (fun k : node * option str => match snd k with None => true | Some _ => false end) kids) by (clear; induction kids as [|k l IH]; [reflexivity|]; cbn; now rewrite IH).
  rewrite Ef. destruct (forallb _ kids); [|reflexivity]. cbn [to_raw]. f_equal. clear -IH. induction kids as [|[k t] kids IH2]; [reflexivity|]. cbn [map indent_kids nindent_kids fst snd]. inversion IH as [|? ? Hk Hr]; subst. cbn [fst] in Hk. rewrite Hk, (IH2 Hr). f_equal. f_equal. now destruct kids.
Qed.
Lemma indent_doc P n : indent 0 (to_doc P n) = to_doc P (nindent 0 n).
Proof.
  unfold to_doc. rewrite <- indent_raw. destruct (to_raw P n) as [nm ats txt kids|s]; [|reflexivity]. destruct txt as [t|]; [reflexivity|]. destruct kids as [|k kids]; [reflexivity|]. unfold indent at 1 2. fold indent. destruct (forallb _ _); reflexivity.
Qed.
Lemma nindent_ok P n : forall d, tree_ok P n -> tree_ok P (nindent d n).
Proof.
  induction n as [q ats txt kids IH|s] using node_ind'; intros d H; [|exact H]. destruct txt as [t|]; [exact H|]. destruct kids as [|k0 kids0] eqn:Ek; [exact H|]. rewrite <- Ek in *.
  replace (nindent d (Elem q ats None kids)) with (if forallb (fun k : node * option str => match snd k with None => true | Some _ => false end) kids then Elem q ats (Some (nl (S d))) (nindent_kids (nindent (S d)) d kids) else Elem q ats None kids) by (rewrite Ek; reflexivity).
  destruct (forallb _ kids); [|exact H]. assert (K : forall i k t, nth_error (nindent_kids (nindent (S d)) d kids) i = Some (k, t) -> exists k0 t0 e, nth_error kids i = Some (k0, t0) /\ k = nindent (S d) k0 /\ t = Some (nl e)).
  { clear. induction kids as [|[k0 t0] kids IH]; intros i k t Hi; [destruct i; discriminate|]. destruct i as [|i]; cbn [nindent_kids nth_error fst] in *.
    - injection Hi as <- <-. eauto 8.
    - destruct (IH i k t Hi) as (a & b & c & A & B & C). exists a, b, c. auto. }
  intros [|i a] m Hm; [injection Hm as <-|].
  - destruct (H [] _ eq_refl) as (H1 & H2 & _ & H4). cbn [node_ok]. split; [assumption|]. split; [assumption|]. split; [apply (nl_valid (S d))|]. intros k t Hi. apply In_nth_error in Hi as [i Hi]. destruct (K _ _ _ Hi) as (_ & _ & e & _ & _ & ->). apply (nl_valid e).
  - cbn in Hm. destruct (nth_error _ i) as [[k t]|] eqn:Ei; [|discriminate]. destruct (K _ _ _ Ei) as (k1 & t1 & e & A & -> & _). cbn [fst] in Hm. rewrite Forall_forall in IH. apply nth_error_In in A. exact (IH _ A (S d) (tree_kid _ _ _ _ _ _ _ H A) a m Hm).
Qed.
Theorem C79_pretty : forall P d, decls_ok P -> tree_ok P d -> is_elem d ->
  (exists d', load (serialize_document P true d) = Some (P, d') /\ spaced d d') /\
  exists s d', serialize P true d [] = Some s /\ load s = Some (P, d') /\ spaced d d'.
Proof.
  intros P d HP H He. assert (He' : is_elem (nindent 0 d)). { destruct d as [q ats [t|] [|k ks]|s]; try exact I; [|destruct He]. unfold nindent. fold nindent. destruct (forallb _ _); exact I. }
  split; [exists (drop_empty (nindent 0 d)); split; [|apply spaced_indent]|eexists _, (drop_empty (nindent 0 d)); split; [reflexivity|split; [|apply spaced_indent]]].
  - unfold serialize_document. rewrite indent_doc. exact (load_doc P (nindent 0 d) [10%N] true HP (nindent_ok P d 0 H) He' eq_refl).
  - cbn [tail_at otext app get_at]. rewrite indent_doc. exact (load_doc P (nindent 0 d) [10%N] false HP (nindent_ok P d 0 H) He' eq_refl).
Qed.

(** ** equality of objects (C37) is equality of content - and of the text that follows *)
Lemma decode_inj t t' : xml_valid (ostr t) = true -> xml_valid (ostr t') = true -> otext t = otext t' -> ostr t = ostr t'.
Proof.
  intros H H' E. assert (G : forall t, otext t = flat_map text_char (ostr t)) by (intros [|]; reflexivity). rewrite !G in E. apply (f_equal (decode false None)) in E. rewrite !decode_text in E by assumption. now injection E.
Qed.
Theorem C79_equality : forall P d a n d' a' n', decls_ok P -> tree_ok P n -> tree_ok P n' -> is_elem n -> is_elem n' -> get_at a d = Some n -> get_at a' d' = Some n' ->
  xml_valid (ostr (tail_at a d)) = true -> xml_valid (ostr (tail_at a' d')) = true ->
  (serialize P false d a = serialize P false d' a' -> drop_empty n = drop_empty n' /\ ostr (tail_at a d) = ostr (tail_at a' d')) /\
  (n = n' -> ostr (tail_at a d) = ostr (tail_at a' d') -> serialize P false d a = serialize P false d' a').
Proof.
  intros P d a n d' a' n' HP H H' He He' Hg Hg' Ht Ht'. rewrite (serialize_eq _ _ _ _ Hg), (serialize_eq _ _ _ _ Hg'). split.
  - intros [= E]. assert (Q : exists r, rnorm (to_doc P n) = rnorm (to_doc P n') /\ otext (tail_at a d) = otext (tail_at a' d') /\ r = 0).
    { exists 0. assert (X : forall m, is_elem m -> exists x y z w, to_doc P m = RElem x y z w) by (intros [q ats tx ks|s] Hm; [unfold to_doc; cbn; eauto 6|destruct Hm]).
      set (f := length (print (to_doc P n)) + length (print (to_doc P n'))).
      pose proof (p_elem_ok (to_doc P n) (raw_ok_doc _ _ HP H) (X _ He) (otext (tail_at a d)) f) as A. pose proof (p_elem_ok (to_doc P n') (raw_ok_doc _ _ HP H') (X _ He') (otext (tail_at a' d')) f) as B. rewrite E in A. rewrite A in B by (unfold f; lia). assert (B' : Some (rnorm (to_doc P n), otext (tail_at a d)) = Some (rnorm (to_doc P n'), otext (tail_at a' d'))) by (apply B; unfold f; lia). injection B' as -> ->. auto. }
    destruct Q as (_ & Q1 & Q2 & _). rewrite !rnorm_doc in Q1. split; [|now apply decode_inj].
    destruct (drop_empty n) as [q ats tx ks|s] eqn:D; [|destruct n; [discriminate|destruct He]]. destruct (drop_empty n') as [q' ats' tx' ks'|s'] eqn:D'; [|destruct n'; [discriminate|destruct He']].
    pose proof (tree_drop P n H) as T. pose proof (tree_drop P n' H') as T'. rewrite D in T. rewrite D' in T'. destruct (resolve_doc P _ _ _ _ HP T) as (nm & ra & rk & E1 & _ & E3). destruct (resolve_doc P _ _ _ _ HP T') as (nm' & ra' & rk' & E1' & _ & E3'). rewrite E1, E1' in Q1. rewrite Q1, E3' in E3. congruence.
  - intros -> E. assert (G : forall t, otext t = flat_map text_char (ostr t)) by (intros [|]; reflexivity). now rewrite !G, E.
Qed.

(** ** xsl_transform: the input of the stylesheet *)
Theorem C79_transform : forall P d a n, decls_ok P -> tree_ok P n -> is_elem n -> full n -> get_at a d = Some n -> oblank (tail_at a d) -> forall compiled, xslt_input compiled P d a = Some n.
Proof.
  intros P d a n HP H He Hf Hg Hb [|]; unfold xslt_input; [assumption|]. destruct a as [|i a]; [exact Hg|]. destruct (serialize P false d (i :: a)) as [s|] eqn:Es; [|unfold serialize in Es; rewrite Hg in Es; discriminate].
  destruct (C79_reload P d (i :: a) n s HP H He Hg Es) as [L _]. rewrite (L Hb). cbn. now rewrite (full_drop _ Hf).
Qed.

(** ** cases, and where it fails *)
Open Scope string_scope.
Definition mq (s : string) : qname := QN (Some (u "urn:m")) (u s).
Definition P0 : nsdecls := [(None, u "urn:m"); (Some (u "x"), u "urn:x")].
Definition d0 : node := Elem (mq "doc") [(QN None (u "id"), app (u "a<""&b") [10; 13; 9]%N); (QN (Some (u "urn:x")) (u "t"), u "v"); (QN (Some xml_uri) (u "lang"), u "en")] (Some (app (u "hi > & you") [13; 10]%N))
  [(Elem (QN (Some (u "urn:x")) (u "k")) [] None [], Some (u "tail")); (Misc (u " a - comment "), None);
   (Elem (mq "e") [] None [(Elem (mq "f") [] (Some (u "z")) [], None); (Elem (mq "f") [] None [], None)], None)].
Ltac simple_tac := split; [discriminate|repeat constructor; cbn; intros; intuition discriminate].
Lemma P0_ok : decls_ok P0.
Proof.
  Transparent u. split; [repeat constructor; cbn; intuition discriminate|]. intros p uri [[= <- <-]|[[= <- <-]|[]]]; (split; [discriminate|]); (split; [reflexivity|]); [exact I|]. split; [simple_tac|split; discriminate].
Qed.
Lemma d0_ok : tree_ok P0 d0 /\ full d0.
Proof.
  assert (M : forall l, simple_name l -> name_declared P0 (QN (Some (u "urn:m")) l)) by (intros s Hs; split; [exact Hs|]; exists None; now left).
  assert (X : forall l, simple_name l -> name_declared P0 (QN (Some (u "urn:x")) l)) by (intros s Hs; split; [exact Hs|]; exists (Some (u "x")); right; now left).
  split.
  - intros a m Hm. destruct a as [|[|[|[|i]]] a]; cbn in Hm; [injection Hm as <-| | | |destruct i; discriminate].
    + cbn. split; [apply M; simple_tac|]. split; [|split; [reflexivity|]].
      * intros k v [[= <- <-]|[[= <- <-]|[[= <- <-]|[]]]]; (split; [|reflexivity]); (split; [simple_tac|]); cbn; [discriminate|exists (u "x"); right; now left|exists (u "xml"); right; right; now left].
      * intros k t [[= <- <-]|[[= <- <-]|[[= <- <-]|[]]]]; reflexivity.
    + destruct a as [|i a]; [injection Hm as <-|destruct i; discriminate]. cbn. split; [apply X; simple_tac|]. split; [intros ? ? []|]. split; [reflexivity|intros ? ? []].
    + destruct a as [|i a]; [injection Hm as <-|destruct i; discriminate]. cbn. split; [reflexivity|]. split; [cbn; intuition discriminate|]. intros a b. do 16 (destruct a as [|? a]; [discriminate|]). cbn. intros E. discriminate.
    + destruct a as [|[|[|i]] a]; cbn in Hm; [injection Hm as <-| | |destruct i; discriminate].
      * cbn. split; [apply M; simple_tac|]. split; [intros ? ? []|]. split; [reflexivity|]. intros k t [[= <- <-]|[[= <- <-]|[]]]; reflexivity.
      * destruct a as [|i a]; [injection Hm as <-|destruct i; discriminate]. cbn. split; [apply M; simple_tac|]. split; [intros ? ? []|]. split; [reflexivity|intros ? ? []].
      * destruct a as [|i a]; [injection Hm as <-|destruct i; discriminate]. cbn. split; [apply M; simple_tac|]. split; [intros ? ? []|]. split; [reflexivity|intros ? ? []].
  - intros a m Hm. destruct a as [|[|[|[|i]]] a]; cbn in Hm; [injection Hm as <-| | | |destruct i; discriminate].
    + split; [discriminate|]. intros k t [[= <- <-]|[[= <- <-]|[[= <- <-]|[]]]]; discriminate.
    + destruct a as [|i a]; [injection Hm as <-|destruct i; discriminate]. split; [discriminate|intros ? ? []].
    + destruct a as [|i a]; [injection Hm as <-|destruct i; discriminate]. exact I.
    + destruct a as [|[|[|i]] a]; cbn in Hm; [injection Hm as <-| | |destruct i; discriminate].
      * split; [discriminate|]. intros k t [[= <- <-]|[[= <- <-]|[]]]; discriminate.
      * destruct a as [|i a]; [injection Hm as <-|destruct i; discriminate]. split; [discriminate|intros ? ? []].
      * destruct a as [|i a]; [injection Hm as <-|destruct i; discriminate]. split; [discriminate|intros ? ? []].
Qed.
Opaque u.
Example C79_case : decls_ok P0 /\ tree_ok P0 d0 /\ full d0 /\
  serialize P0 false d0 [2] = Some (u "<e xmlns=""urn:m"" xmlns:x=""urn:x""><f>z</f><f/></e>") /\
  serialize P0 true d0 [2] = Some (app (u "<e xmlns=""urn:m"" xmlns:x=""urn:x"">") (app (10%N :: u "  <f>z</f>") (app (10%N :: u "  <f/>") (app (10%N :: u "</e>") [10%N])))) /\
  load (serialize_document P0 false d0) = Some (P0, d0) /\ tail_at [2] d0 = None /\ tail_at [0] d0 = Some (u "tail").
Proof. split; [exact P0_ok|]. split; [apply d0_ok|]. split; [apply d0_ok|]. repeat match goal with |- _ /\ _ => split end; vm_compute; reflexivity. Qed.

(** an object within running text: serialize() says it serialises the current node only, but the text that follows comes along, and
    the result is no XML document; so xsl_transform of it with a stylesheet file or string fails too *)
Theorem C79_tail_refuted : exists s, serialize P0 false d0 [0] = Some s /\ load s = None /\ xslt_input false P0 d0 [0] = None /\ xslt_input true P0 d0 [0] <> None.
Proof. eexists. split; [reflexivity|]. repeat match goal with |- _ /\ _ => split end; vm_compute; try reflexivity; discriminate. Qed.
(** two objects with equal content are not equal if different text follows them *)
Theorem C79_equality_refuted : let d := Elem (mq "d") [] None [(Elem (mq "b") [] (Some (u "x")) [], Some (u " and ")); (Elem (mq "b") [] (Some (u "x")) [], None)] in
  get_at [0] d = get_at [1] d /\ serialize P0 false d [0] <> serialize P0 false d [1] /\
  obj_eq (fun i => match serialize P0 false d [i] with Some s => s | None => [] end) (WElem 0) (OpObj (WElem 1)) = EqVal false.
Proof. split; [reflexivity|]. split; [discriminate|vm_compute; reflexivity]. Qed.
(** the whole way: assign a field, save, load, read *)
Theorem C79_set_save_load : forall E s e v d d' P, parse s = Ok e -> supported_path E e = true -> tag_of d <> None -> not_tail (selects E e d) ->
  string_set E s (Some v) d = (d', Ret tt) -> decls_ok P -> tree_ok P d' -> is_elem d' -> full d' ->
  exists d2, load (serialize_document P false d') = Some (P, d2) /\ string_get E s d2 = Ret (Some v).
Proof.
  intros E s e v d d' P Hp Hs Ht Hn Hset HP Hok He Hf. exists d'. split; [apply (C79_exact P d' HP Hok He Hf)|]. exact (C10_set_then_get_partial E s e v d d' Hp Hs Ht Hn Hset).
Qed.
Example C79_set_case : let E := mkEnv (Some [(u "m", u "urn:m")]) [] in exists d', string_set E (u "m:e/m:f") (Some (u "new")) d0 = (d', Ret tt) /\ supported_path E (xp "m:e/m:f") = true /\ d' <> d0.
Proof. eexists. split; [vm_compute; reflexivity|]. split; [vm_compute; reflexivity|]. intros H. apply (f_equal (get_at [2; 0])) in H. vm_compute in H. injection H. discriminate. Qed.

(** '' assigned to a text() field reads '' before saving and None after loading *)
Theorem C79_blank_refuted : exists d', string_set E0 (u "text()") (Some []) (el "r" [] "x" []) = (d', Ret tt) /\ string_get E0 (u "text()") d' = Ret (Some []) /\
  exists d2, load (serialize_document [] false d') = Some ([], d2) /\ string_get E0 (u "text()") d2 = Ret None.
Proof. eexists. split; [vm_compute; reflexivity|]. split; [vm_compute; reflexivity|]. eexists. split; vm_compute; reflexivity. Qed.
(** ** texts that were not written by serialize *)
(** the same text with Unix line ends *)
Inductive unix : str -> str -> Prop :=
| unix_nil : unix [] []
| unix_crlf s s' : unix s s' -> unix (13 :: 10 :: s)%N (10 :: s')%N
| unix_cr s s' : unix s s' -> hd 0%N s <> 10%N -> unix (13 :: s)%N (10 :: s')%N
| unix_other c s s' : unix s s' -> c <> 13%N -> unix (c :: s) (c :: s').
Lemma line_ends_other c r : c <> 13%N -> line_ends (c :: r) = c :: line_ends r.
Proof.
  intros H. cbn [line_ends]. destruct (N.eq_dec c 13) as [->|_]; [congruence|]. destruct c as [|p]; [reflexivity|]. repeat (destruct p as [p|p|]; try reflexivity). congruence.
Qed.
Lemma line_ends_cr r : hd 0%N r <> 10%N -> line_ends (13%N :: r) = 10%N :: line_ends r.
Proof.
  intros H. cbn [line_ends]. destruct r as [|c r]; [reflexivity|]. cbn [hd] in H. destruct c as [|p]; [reflexivity|]. repeat (destruct p as [p|p|]; try reflexivity). congruence.
Qed.
Lemma unix_line_ends s s' : unix s s' -> line_ends s = s' /\ no_cr s' = true.
Proof.
  induction 1 as [|s s' _ [IH1 IH2]|s s' _ [IH1 IH2] Hh|c s s' _ [IH1 IH2] Hc].
  - auto.
  - cbn [line_ends]. rewrite IH1. auto.
  - rewrite line_ends_cr by assumption. rewrite IH1. auto.
  - rewrite line_ends_other by assumption. rewrite IH1, no_cr_cons, IH2. destruct (N.eqb_spec c 13); [contradiction|auto].
Qed.
(** which line ends a file uses makes no difference *)
Theorem C79_line_ends : forall s s', unix s s' -> load s = load s'.
Proof. intros s s' H. destruct (unix_line_ends s s' H) as [H1 H2]. unfold load. now rewrite H1, (line_ends_id s' H2). Qed.
(** a literal tab or line feed in an attribute value reads as a blank, anything else but markup as itself *)
Definition one_line (c : N) : N := if N.eqb c 9 || N.eqb c 10 then 32%N else c.
Lemma decode_plain v : xml_valid v = true -> Forall (fun c => ~ In c [13; 34; 38; 60]%N) v -> decode true None v = Some (map one_line v).
Proof.
  intros Hv H. induction H as [|c v Hc _ IH]; [reflexivity|]. cbn [decode]. unfold xml_valid in Hv. cbn [forallb] in Hv. apply andb_prop in Hv as [Hx Hv]. cbn in Hc.
  destruct (N.eqb_spec c 38) as [->|_]; [exfalso; intuition|]. destruct (N.eqb_spec c 60) as [->|_]; [exfalso; intuition|]. rewrite Hx. cbn [orb negb]. rewrite (IH Hv). cbn [option_map map]. f_equal. f_equal.
  unfold one_line, is_xws. cbn [andb]. destruct (N.eqb_spec c 9) as [->|]; [reflexivity|]. destruct (N.eqb_spec c 10) as [->|]; [reflexivity|]. destruct (N.eqb_spec c 13) as [->|]; [exfalso; intuition|]. destruct (N.eqb_spec c 32) as [->|]; reflexivity.
Qed.
Theorem C79_attribute_text : forall n a v, simple_name n -> simple_name a -> a <> u "xmlns" -> xml_valid v = true -> Forall (fun c => ~ In c [13; 34; 38; 60]%N) v ->
  load (60%N :: n ++ 32%N :: a ++ u "=""" ++ v ++ u """/>") = Some ([], Elem (QN None n) [(QN None a, map one_line v)] None []).
Proof.
  intros n a v Hn Ha Hx Hv Hc. destruct (simple_name_ok n Hn) as [Hn1 Hn2]. destruct (simple_name_ok a Ha) as [Ha1 Ha2].
  assert (Hcr : no_cr (60%N :: n ++ 32%N :: a ++ u "=""" ++ v ++ u """/>") = true).
  { rewrite no_cr_cons, no_cr_app, no_cr_cons, !no_cr_app, !(name_no_cr _ (name_forall _ Hn1)), !(name_no_cr _ (name_forall _ Ha1)). replace (no_cr v) with true; [reflexivity|]. symmetry. apply forallb_forall. intros c Hi. rewrite Forall_forall in Hc. specialize (Hc c Hi). destruct (N.eqb_spec c 13) as [->|]; [|reflexivity]. exfalso. apply Hc. now left. }
  unfold load. rewrite (line_ends_id _ Hcr). clear Hcr.
  assert (He : forall r, eat (u "<?xml") (60%N :: n ++ r) = None).
  { intros r. destruct (eat _ _) as [x|] eqn:E; [|reflexivity]. apply eat_spec in E. destruct n as [|c n0]; [discriminate|]. Transparent u. cbn in E. Opaque u. injection E as -> _. unfold name_ok in Hn1. cbn [forallb] in Hn1. discriminate. }
  rewrite He. cbv zeta. match goal with |- context [p_elem ?f (skip_ws (60%N :: ?x))] => change (skip_ws (60%N :: x)) with (60%N :: x); set (fuel := f) end.
  assert (Hf : exists g, fuel = S g) by (eexists; reflexivity). destruct Hf as [g ->]. cbn [p_elem].
  rewrite (span_next name_sym n 32%N _ (name_forall _ Hn1) eq_refl). destruct n as [|c0 n0]; [discriminate|]. set (n := c0 :: n0) in *.
  match goal with |- context [p_atts (S (length ?x)) _] => assert (Hg : exists g', S (length x) = S (S g')) by (eexists; reflexivity); destruct Hg as [g' ->] end.
  assert (Q : forall x, skip_ws (32%N :: x) = skip_ws x) by reflexivity.
  remember (S g') as g1 eqn:Eg1. cbn [p_atts]. rewrite Q, (skip_name a _ Ha1). destruct a as [|a0 a1]; [discriminate|]. cbn [app]. assert (Ha0 : name_sym a0 = true) by (apply name_forall in Ha1; cbn in Ha1; now apply andb_prop in Ha1 as [Ha1 _]).
  apply name_sym_spec in Ha0 as (_ & _ & _ & H47 & _ & H62 & _). destruct (N.eqb_spec a0 47); [contradiction|]. destruct (N.eqb_spec a0 62); [contradiction|]. cbn [orb].
  assert (U1 : forall x, (u "=""" ++ x)%list = (61 :: 34 :: x)%N) by reflexivity. assert (U2 : u """/>" = [34; 47; 62]%N) by reflexivity. rewrite U1, U2.
  match goal with |- context [span name_sym (a0 :: a1 ++ 61%N :: ?x)] => pose proof (span_next name_sym (a0 :: a1) 61%N x (name_forall _ Ha1) eq_refl) as Sp; cbn [app] in Sp; rewrite Sp; clear Sp end.
  match goal with |- context [skip_ws (61%N :: ?x)] => change (skip_ws (61%N :: x)) with (61%N :: x) end. cbv beta iota.
  match goal with |- context [skip_ws (34%N :: ?x)] => change (skip_ws (34%N :: x)) with (34%N :: x) end. cbv beta iota. change (N.eqb 34 34 || N.eqb 34 39) with true. cbv iota.
  rewrite (span_next (fun c => negb (N.eqb c 34)) v 34%N).
  2:{ apply forallb_forall. intros c Hi. rewrite Forall_forall in Hc. specialize (Hc c Hi). destruct (N.eqb_spec c 34) as [->|]; [|reflexivity]. exfalso. apply Hc. right. now left. } 2: reflexivity.
  rewrite (decode_plain v Hv Hc). subst g1. assert (P1 : p_atts (S g') [47; 62]%N = Some ([], [47; 62]%N)) by reflexivity. rewrite P1. unfold n. cbv iota beta. change (skip_ws []) with (@nil N). cbv iota.
  assert (Hd : decl_of (a0 :: a1, map one_line v) = None).
  { unfold decl_of. cbn [fst]. destruct (str_eqb (a0 :: a1) (u "xmlns")) eqn:Es; [apply str_eqb_eq in Es; contradiction|]. destruct (eat (u "xmlns:") (a0 :: a1)) as [x|] eqn:E; [|reflexivity]. apply eat_spec in E. exfalso. apply Ha2. rewrite E. apply in_or_app. left. vm_compute. tauto. }
  cbn [resolve]. unfold decls_in, plain_in. cbn [flat_map filter]. repeat match goal with |- context [decl_of ?x] => let D := fresh in assert (D : decl_of x = None) by exact Hd; rewrite D; clear D end. cbn [app map all_some option_map fst snd]. unfold res_name. fold n.
  repeat match goal with |- context [span ?f n] => let D := fresh in assert (D : span f n = (n, [])) by exact (span_nocolon n Hn2); rewrite D; clear D | |- context [span ?f (a0 :: a1)] => let D := fresh in assert (D : span f (a0 :: a1) = (a0 :: a1, [])) by exact (span_nocolon (a0 :: a1) Ha2); rewrite D; clear D end. reflexivity.
Qed.
Example C79_attribute_case : simple_name (u "e") /\ load (app (u "<e k=""a") (app [9; 10]%N (u "b""/>"))) = Some ([], Elem (QN None (u "e")) [(QN None (u "k"), u "a  b")] None []) /\ unix [60; 13; 10; 13]%N [60; 10; 10]%N.
Proof.
  split; [|split; [vm_compute; reflexivity|]].
  - split; [discriminate|]. change (u "e") with [101%N]. constructor; [|constructor]. split; [reflexivity|]. vm_compute. intuition discriminate.
  - constructor; [|discriminate]. constructor. constructor; [constructor|discriminate].
Qed.
Close Scope string_scope.

(** ** text that is no XML *)
(** two dashes within a comment that do not end it: refused, whatever follows *)
Lemma line_ends_app a b : ~ In 13%N a -> line_ends (a ++ b) = a ++ line_ends b.
Proof. induction a as [|c a IH]; intros H; [reflexivity|]. cbn [app]. rewrite line_ends_other, IH; [reflexivity| |]; intros X; apply H; [now right|now left]. Qed.
Lemma line_ends_head b : hd 62%N b <> 62%N -> hd 62%N (line_ends b) <> 62%N.
Proof.
  destruct b as [|c b]; [exact (fun H => H)|]. cbn [hd]. intros H. destruct (N.eqb_spec c 13) as [->|H13]; [|now rewrite line_ends_other by exact H13].
  destruct b as [|d b]; [discriminate|]. destruct (N.eqb_spec d 10) as [->|Hd]; [discriminate|]. now rewrite line_ends_cr by exact Hd.
Qed.
Lemma p_comment_bad a b : comment_ok a = true -> hd 62%N b <> 62%N -> p_comment (a ++ [45; 45]%N ++ b) = None.
Proof.
  induction a as [|c s IH]; intros H Hb.
  - cbn [app p_comment]. change (N.eqb 45 45) with true. cbn [andb]. destruct b as [|e b]; [reflexivity|]. cbn [hd] in Hb. destruct (N.eqb_spec e 62) as [->|]; [now destruct Hb|reflexivity].
  - cbn in H. apply andb_prop in H as [H Hr]. apply andb_prop in H as [H Hd]. apply andb_prop in H as [Hx _]. cbn [app p_comment]. rewrite negb_true_iff in Hd.
    assert (E : N.eqb c 45 && match s ++ [45; 45]%N ++ b with d :: _ => N.eqb d 45 | [] => false end = false) by (destruct s; cbn [app] in *; exact Hd).
    cbn [app] in *. rewrite E, Hx, (IH Hr Hb). reflexivity.
Qed.
Theorem C79_comment_refused : forall n a b, simple_name n -> comment_text a -> hd 62%N b <> 62%N ->
  load (60%N :: n ++ u "><!--" ++ a ++ u "--" ++ b) = None.
Proof.
  intros n a b Hn Ha Hb. destruct (simple_name_ok n Hn) as [Hn1 Hn2]. pose proof (comment_ok_spec _ Ha) as Ha1. destruct Ha as (_ & Ha2 & _).
  unfold load. assert (L : line_ends (60%N :: n ++ u "><!--" ++ a ++ u "--" ++ b) = 60%N :: n ++ u "><!--" ++ a ++ u "--" ++ line_ends b).
  { rewrite line_ends_other by discriminate. f_equal. rewrite line_ends_app; [f_equal|]. 2:{ pose proof (name_no_cr _ (name_forall _ Hn1)) as C. intros I. unfold no_cr in C. rewrite forallb_forall in C. now specialize (C _ I). }
    rewrite line_ends_app; [f_equal|vm_compute; intuition discriminate]. rewrite line_ends_app; [f_equal|exact Ha2]. }
  rewrite L. clear L. apply line_ends_head in Hb. generalize dependent (line_ends b). clear b. intros b Hb.
  assert (He : forall r, eat (u "<?xml") (60%N :: n ++ r) = None).
  { intros r. destruct (eat _ _) as [x|] eqn:E; [|reflexivity]. apply eat_spec in E. destruct n as [|c n0]; [discriminate|]. Transparent u. cbn in E. Opaque u. injection E as -> _. unfold name_ok in Hn1. cbn [forallb] in Hn1. discriminate. }
  rewrite He. cbv zeta. match goal with |- context [p_elem ?f (skip_ws (60%N :: ?x))] => change (skip_ws (60%N :: x)) with (60%N :: x); set (fuel := f) end.
  assert (Hf : exists g, fuel = S g) by (eexists; reflexivity). destruct Hf as [g ->]. cbn [p_elem].
  assert (U1 : forall x, (u "><!--" ++ x)%list = (62 :: 60 :: 33 :: 45 :: 45 :: x)%N) by reflexivity. assert (U2 : forall x, (u "--" ++ x)%list = ([45; 45] ++ x)%N) by reflexivity. rewrite U1, U2.
  rewrite (span_next name_sym n 62%N _ (name_forall _ Hn1) eq_refl). destruct n as [|c0 n0]; [discriminate|]. set (n := c0 :: n0) in *.
  match goal with |- context [p_atts (S ?k) (62%N :: ?x)] => assert (P1 : p_atts (S k) (62%N :: x) = Some ([], 62%N :: x)) by reflexivity; rewrite P1; clear P1 end.
  match goal with |- context [p_text (60%N :: ?x)] => assert (P1 : p_text (60%N :: x) = Some ([], 60%N :: x)) by reflexivity; rewrite P1; clear P1 end.
  assert (K : forall f, p_kids f (60 :: 33 :: 45 :: 45 :: a ++ [45; 45] ++ b)%N = None).
  { intros [|f]; [reflexivity|]. cbn [p_kids]. match goal with |- context [eat [60; 47]%N ?x] => change (eat [60; 47]%N x) with (@None str) end.
    match goal with |- context [eat [60; 33; 45; 45]%N ?x] => change (eat [60; 33; 45; 45]%N x) with (Some (a ++ [45; 45]%N ++ b)) end. cbv iota. match goal with |- context [p_comment ?x] => assert (D : p_comment x = None) by exact (p_comment_bad a b Ha1 Hb); rewrite D end. reflexivity. }
  unfold n. rewrite K. reflexivity.
Qed.
Example C79_comment_refused_case : simple_name (u "e") /\ comment_text (u " a ") /\ load (u "<e><!-- a -- b --></e>") = None /\ load (u "<e><!-- a - b --></e>") <> None.
Proof.
  split; [|split; [|split; [vm_compute; reflexivity|vm_compute; discriminate]]].
  - split; [discriminate|]. change (u "e") with [101%N]. constructor; [|constructor]. split; [reflexivity|]. vm_compute. intuition discriminate.
  - split; [reflexivity|]. split; [vm_compute; intuition discriminate|]. change (u " a ") with [32; 97; 32]%N. intros a b H. do 4 (destruct a as [|? a]; [discriminate|injection H as _ H; cbn [app] in H]). destruct a; discriminate.
Qed.
Print Assumptions C79_reload.
Print Assumptions C79_reload_document.
Print Assumptions C79_exact.
Print Assumptions C79_stable.
Print Assumptions C79_pretty.
Print Assumptions C79_equality.
Print Assumptions C79_transform.
Print Assumptions C79_set_save_load.
Print Assumptions C79_tail_refuted.
Print Assumptions C79_equality_refuted.
Print Assumptions C79_blank_refuted.

Print Assumptions C79_line_ends.
Print Assumptions C79_attribute_text.
Print Assumptions C79_comment_refused.
