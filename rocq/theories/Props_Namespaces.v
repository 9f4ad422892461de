(** Property theorems about the namespace context of XmlObjects (C35). *)
From Coq Require Import String List Arith Lia NArith Bool.
From Verif Require Import PyStr Namespaces NamespaceProofs.
Import ListNotations.
Opaque u.

(** ** C35 *)

(** [ops] is the whole program; the object in question is the one its [OInit root nsmap ctx] step makes.
    A ROOT_NAMESPACES dictionary has each prefix once and no empty prefix. *)
Definition proper (o : op) : Prop :=
  match o with
  | ODict d => forall p x, In (p, x) d -> truthy p = true
  | OInit root _ _ => NoDup (map fst root) /\ forall p x, In (p, x) root -> truthy p = true
  end.
Lemma proper_clean o : proper o -> clean_op o.
Proof.
  assert (G : forall d : nsdict, (forall p x, In (p, x) d -> truthy p = true) -> lxml_accepts d = true) by (intros d H; apply forallb_forall; intros [p x] Hx; now apply (H p x)).
  destruct o; cbn; [apply G|]. intros [H1 H2]. split; [now apply G|assumption].
Qed.
Lemma init_made before root nsmap ctx : (forall r, ctx = Some r -> r < length (h_dicts (run before))) ->
  exists o, nth_error (h_objs (run (before ++ [OInit root nsmap ctx]))) (length (h_objs (run before))) = Some o /\
    o_root o = root /\ o_nsmap o = nsmap /\ o_ref o = match ctx with Some r => r | None => length (h_dicts (run before)) end /\
    nth_error (h_dicts (run (before ++ [OInit root nsmap ctx]))) (o_ref o) =
      Some (nupdate (match ctx with Some r => nth r (h_dicts (run before)) [] | None => doc_namespaces nsmap end) root).
Proof.
  intros Hr. rewrite run_app. cbn [fold_left step]. destruct ctx as [r|]; cbn.
  - specialize (Hr r eq_refl). destruct (nth_error (h_dicts (run before)) r) as [d|] eqn:E; [|apply nth_error_None in E; lia]. cbn. rewrite nth_error_app2, Nat.sub_diag by lia.
    eexists. split; [reflexivity|]. cbn. split; [reflexivity|]. split; [reflexivity|]. split; [reflexivity|]. rewrite nth_set_nth, Nat.eqb_refl. apply Nat.ltb_lt in Hr. rewrite Hr. cbn [andb]. pose proof (nth_error_nth _ _ [] E) as G. do 2 f_equal. symmetry. exact G.
  - rewrite nth_error_app2, Nat.sub_diag by lia. eexists. split; [reflexivity|]. cbn. split; [reflexivity|]. split; [reflexivity|]. split; [reflexivity|]. now rewrite nth_error_app2, Nat.sub_diag by lia.
Qed.
Lemma objs_kept ops : forall h i o, nth_error (h_objs h) i = Some o -> nth_error (h_objs (fold_left step ops h)) i = Some o.
Proof.
  induction ops as [|x ops IH]; intros h i o H; [assumption|]. cbn. apply IH. destruct x as [d|r n [c|]]; cbn; auto.
  - destruct (nth_error (h_dicts h) c); cbn; auto. now apply nth_app_keep.
  - now apply nth_app_keep.
Qed.

(** A declared prefix resolves to the declared URI from then on, whatever is created before or after, as long
    as nobody who shares the dictionary later declares that prefix differently. *)
Theorem C35_declared_prefixes_partial : forall before root nsmap ctx after p x,
  (forall o, In o (before ++ OInit root nsmap ctx :: after) -> proper o) ->
  (forall r, ctx = Some r -> r < length (h_dicts (run before))) ->
  In (Some p, x) root ->
  (forall root' nsmap' r, In (OInit root' nsmap' (Some r)) after -> nget (Some p) root' = None \/ nget (Some p) root' = Some x) ->
  exists o, nth_error (h_objs (run (before ++ OInit root nsmap ctx :: after))) (length (h_objs (run before))) = Some o /\
    resolves (run (before ++ OInit root nsmap ctx :: after)) o p = Some x.
Proof.
  intros before root nsmap ctx after p x Hp Hr Hin Hag. assert (Hc : forall o, In o (before ++ OInit root nsmap ctx :: after) -> clean_op o) by (intros o Ho; apply proper_clean; auto).
  destruct (init_made before root nsmap ctx Hr) as (o & H1 & H2 & H3 & H4 & H5). change (OInit root nsmap ctx :: after) with ([OInit root nsmap ctx] ++ after) in *. rewrite app_assoc in *.
  set (b1 := before ++ [OInit root nsmap ctx]) in *. rewrite run_app. exists o. split; [now apply objs_kept|]. unfold resolves.
  assert (Hpr : proper (OInit root nsmap ctx)) by (apply Hp; unfold b1; rewrite !in_app_iff; cbn; auto).
  assert (Hg : nget (Some p) root = Some x).
  { destruct Hpr as [Hnd _]. clear -Hnd Hin. induction root as [|[k v] root IH]; [contradiction|]. cbn. inversion Hnd as [|? ? Hx Hn']; subst. destruct Hin as [[= -> ->]|Hin]; [now rewrite ostr_refl|].
    destruct (ostr_eqb k (Some p)) eqn:E; [|auto]. apply ostr_eqb_eq in E as ->. exfalso. apply Hx. now apply (in_map fst) in Hin. }
  destruct (fun A B C => steps_declared p x after (run b1) (o_ref o) _ A H5 B C) as (d' & G1 & G2 & G3).
  - intros a Ha. split; [apply Hc; apply in_or_app; now right|]. destruct a as [d|root' nsmap' [r|]]; cbn; auto. eapply Hag; eauto.
  - apply (all_accept b1 (mkHeap [] [])) with (r := o_ref o); [intros a Ha; apply Hc; apply in_or_app; now left|intros [|r'] d H; discriminate H|exact H5].
  - rewrite nget_nupdate by apply Hpr. now rewrite Hg.
  - now rewrite G1, G2.
Qed.

(** Without namespaces in the caller's context every other prefix in scope resolves as in the document, as
    long as the object's own context is not handed to another object. *)
Theorem C35_document_prefixes_partial : forall before root nsmap after (p x : str),
  (forall o, In o (before ++ OInit root nsmap None :: after) -> proper o) ->
  (forall root' nsmap' r, In (OInit root' nsmap' (Some r)) after -> r <> length (h_dicts (run before))) ->
  p <> [] -> nget (Some p) root = None -> nget (Some p) nsmap = Some x ->
  exists o, nth_error (h_objs (run (before ++ OInit root nsmap None :: after))) (length (h_objs (run before))) = Some o /\
    resolves (run (before ++ OInit root nsmap None :: after)) o p = Some x.
Proof.
  intros before root nsmap after p x Hp Hs Hne Hr Hx. assert (Hc : forall o, In o (before ++ OInit root nsmap None :: after) -> clean_op o) by (intros o Ho; apply proper_clean; auto).
  destruct (init_made before root nsmap None) as (o & H1 & H2 & H3 & H4 & H5); [discriminate|]. change (OInit root nsmap None :: after) with ([OInit root nsmap None] ++ after) in *. rewrite app_assoc in *.
  set (b1 := before ++ [OInit root nsmap None]) in *. rewrite run_app. exists o. split; [now apply objs_kept|]. unfold resolves.
  assert (Hpr : proper (OInit root nsmap None)) by (apply Hp; unfold b1; rewrite !in_app_iff; cbn; auto).
  rewrite (fun A => steps_unshared after (run b1) (o_ref o) _ A H5).
  - rewrite (all_accept b1 (mkHeap [] [])) with (r := o_ref o); [|intros a Ha; apply Hc; apply in_or_app; now left|intros [|r'] d H; discriminate H|exact H5].
    rewrite (nget_nupdate (Some p) root) by apply Hpr. rewrite Hr. rewrite nget_doc; [assumption|]. destruct p; [contradiction|reflexivity].
  - intros a Ha. split; [apply Hc; apply in_or_app; now right|]. destruct a as [d|root' nsmap' [r|]]; auto. rewrite H4. eapply Hs; eauto.
Qed.

(** A dictionary of the caller's is left alone by every object that is not given it. *)
Theorem C35_caller_dict_kept_partial : forall before d after,
  (forall o, In o (before ++ ODict d :: after) -> proper o) ->
  (forall root nsmap r, In (OInit root nsmap (Some r)) after -> r <> length (h_dicts (run before))) ->
  nth_error (h_dicts (run (before ++ ODict d :: after))) (length (h_dicts (run before))) = Some d.
Proof.
  intros before d after Hp Hs. change (ODict d :: after) with ([ODict d] ++ after) in *. rewrite app_assoc in *. rewrite run_app. apply steps_unshared.
  - intros a Ha. split; [apply proper_clean, Hp; apply in_or_app; now right|]. destruct a as [d'|root' nsmap' [r|]]; auto. eapply Hs; eauto.
  - rewrite run_app. cbn. now rewrite nth_error_app2, Nat.sub_diag by lia.
Qed.

Open Scope string_scope.
Definition ns (l : list (string * string)) : nsdict := map (fun kv => (Some (u (fst kv)), u (snd kv))) l.
(** the caller's dictionary gets the class's prefixes *)
Theorem C35_caller_modified_refuted : nth_error (h_dicts (run [ODict []; OInit (ns [("m", "urn:m")]) [] (Some 0)])) 0 = Some (ns [("m", "urn:m")]).
Proof. vm_compute. reflexivity. Qed.
(** a context with namespaces hides the document's own prefixes *)
Theorem C35_document_hidden_refuted : let h := run [ODict []; OInit [] (ns [("d", "urn:d")]) (Some 0)] in
  exists o, nth_error (h_objs h) 0 = Some o /\ resolves h o (u "d") = None.
Proof. eexists. split; vm_compute; reflexivity. Qed.
(** handing an object's context to an object of another class rebinds the first one's declared prefix *)
Theorem C35_rebound_refuted : let h := run [OInit (ns [("p", "urn:1")]) [] None; OInit (ns [("p", "urn:2")]) [] (Some 0)] in
  exists o, nth_error (h_objs h) 0 = Some o /\ In (Some (u "p"), u "urn:1") (o_root o) /\ resolves h o (u "p") = Some (u "urn:2").
Proof. eexists. split; [vm_compute; reflexivity|]. split; [now left|vm_compute; reflexivity]. Qed.
(** a default namespace in ROOT_NAMESPACES makes every XPath evaluation fail *)
Theorem C35_default_namespace_refuted : let h := run [OInit ((None, u "urn:0") :: ns [("p", "urn:1")]) [] None] in
  exists o, nth_error (h_objs h) 0 = Some o /\ In (Some (u "p"), u "urn:1") (o_root o) /\ resolves h o (u "p") = None.
Proof. eexists. split; [vm_compute; reflexivity|]. split; [right; now left|vm_compute; reflexivity]. Qed.

Example C35_case : let before := [ODict (ns [("q", "urn:q")])] in let root := ns [("m", "urn:m"); ("d", "urn:mine")] in let nsmap := (None, u "urn:default") :: ns [("d", "urn:d"); ("e", "urn:e")] in
  let after := [OInit (ns [("m", "urn:m")]) [] (Some 1); OInit (ns [("x", "urn:x")]) [] (Some 0)] in
  let h := run (before ++ OInit root nsmap None :: after) in
  (forall o, In o (before ++ OInit root nsmap None :: after) -> proper o) /\
  (forall root' nsmap' r, In (OInit root' nsmap' (Some r)) after -> nget (Some (u "m")) root' = None \/ nget (Some (u "m")) root' = Some (u "urn:m")) /\
  (exists o, nth_error (h_objs h) 0 = Some o /\ resolves h o (u "m") = Some (u "urn:m") /\ resolves h o (u "d") = Some (u "urn:mine") /\ resolves h o (u "e") = Some (u "urn:e")).
Proof.
  cbn zeta. split; [|split].
  - intros o Ho. cbn in Ho. repeat (destruct Ho as [<-|Ho]; [vm_compute; repeat split; repeat constructor; cbn; try (intuition discriminate); intros p x H; repeat (destruct H as [H|H]; [injection H as <- <-; reflexivity|]); contradiction|]). contradiction.
  - intros root' nsmap' r H. cbn in H. repeat (destruct H as [H|H]; [injection H as <- <- <-; vm_compute; auto|]). contradiction.
  - eexists. vm_compute. auto.
Qed.
Close Scope string_scope.

