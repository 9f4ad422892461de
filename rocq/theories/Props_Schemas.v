(** Property theorems about the schema cache (C36) and XmlObject equality (C37). *)
From Coq Require Import String List Arith Lia NArith Bool.
From Verif Require Import PyStr Classes ClassProofs SchemaCache SchemaCacheProofs ObjEq.
Import ListNotations.
Opaque u.

(** ** C36 *)

(** once a URI has been loaded, every later call returns that object without loading *)
Theorem C36_loaded_once : forall cs i j a aj ti tj uri, i < j ->
  nth_error (session cs) i = Some (uri, AObj a, ti) -> nth_error (session cs) j = Some (uri, aj, tj) -> aj = AObj a /\ tj = false.
Proof.
  intros cs i j a aj ti tj uri Hij Hi Hj. unfold session in *.
  enough (G : forall cs cache i, nth_error (calls cache cs) i = Some (uri, AObj a, ti) -> forall j, i < j -> nth_error (calls cache cs) j = Some (uri, aj, tj) -> aj = AObj a /\ tj = false) by (eapply G; eauto).
  clear. assert (Hc : forall cs cache j, dget uri cache = Some a -> nth_error (calls cache cs) j = Some (uri, aj, tj) -> aj = AObj a /\ tj = false).
  { induction cs as [|c cs IH]; intros cache j Hd Hj; [destruct j; discriminate|]. cbn in Hj. destruct (load_schema cache (k_uri c) (k_base c) (k_out c)) as [[cache1 an] t] eqn:E. destruct j as [|j]; cbn in Hj.
    - injection Hj as Hu -> ->. unfold load_schema in E. rewrite Hu, Hd in E. now injection E as <- <- <-.
    - apply (IH cache1 j); [|assumption]. unfold load_schema in E. destruct (dget (k_uri c) cache) eqn:Ec; [now injection E as <- <- <-|].
      destruct (k_out c); injection E as <- <- <-; auto. rewrite dget_dset. destruct (str_eqb_spec (k_uri c) uri); [congruence|assumption]. }
  induction cs as [|c cs IH]; intros cache i Hi j Hij Hj; [destruct i; discriminate|]. cbn in Hi, Hj. destruct (load_schema cache (k_uri c) (k_base c) (k_out c)) as [[cache1 an] t] eqn:E. destruct j as [|j]; [lia|]. cbn in Hj. destruct i as [|i]; cbn in Hi.
  - injection Hi as Hu -> ->. apply (Hc cs cache1 j); [|assumption]. unfold load_schema in E. rewrite Hu in E. destruct (dget uri cache) eqn:Ec; [injection E as <- -> <-; assumption|].
    destruct (k_out c); try discriminate. injection E as <- -> <-. now rewrite dget_dset, str_eqb_refl.
  - apply (IH cache1 i Hi j); [lia|assumption].
Qed.
(** a URI that has not been loaded successfully yet is loaded by this call, whose outcome decides the answer *)
Theorem C36_failures_retried : forall cs c rest, (forall a t, ~ In (k_uri c, AObj a, t) (session cs)) ->
  exists an, nth_error (session (cs ++ c :: rest)) (length cs) = Some (k_uri c, an, true) /\
    match k_out c with
    | LoadOk o => an = AObj o
    | LoadIO m => exists x y, an = AIOError (x ++ k_uri c ++ y)
    | LoadSchema m => exists x y, an = ASchemaError (x ++ k_uri c ++ y)
    | LoadOther m => an = AOtherError m
    end.
Proof.
  intros cs c rest Hno. unfold session in *. destruct (calls_app cs [] (c :: rest)) as (cache & H1 & _ & H3). rewrite H1.
  assert (Hlen : forall cs cache, length (calls cache cs) = length cs) by (clear; induction cs as [|c cs IH]; intros cache; cbn; [reflexivity|]; destruct (load_schema cache (k_uri c) (k_base c) (k_out c)) as [[c1 an] t]; cbn; now rewrite IH).
  rewrite nth_error_app2, Hlen, Nat.sub_diag by (rewrite Hlen; lia).
  assert (Hd : dget (k_uri c) cache = None).
  { rewrite H3. cbn [dget]. destruct (find _ (calls [] cs)) as [[[y an] t]|] eqn:Ef; [|reflexivity]. apply find_some in Ef as [Hin Heq]. destruct an; try reflexivity. apply str_eqb_eq in Heq as ->. now apply Hno in Hin. }
  cbn [calls]. unfold load_schema. rewrite Hd. unfold error_uri. destruct (k_out c) as [o|m|m|m]; cbn [nth_error].
  - exists (AObj o). auto.
  - eexists. split; [reflexivity|]. destruct (k_base c) as [b|].
    + exists (u "Failed to load schema "). eexists. repeat rewrite <- app_assoc. reflexivity.
    + exists (u "Failed to load schema "). eexists. reflexivity.
  - eexists. split; [reflexivity|]. destruct (k_base c) as [b|].
    + exists (u "Failed to parse schema "). eexists. repeat rewrite <- app_assoc. reflexivity.
    + exists (u "Failed to parse schema "). eexists. reflexivity.
  - eexists. auto.
Qed.
(** threads: under every schedule a thread gets an object that was loaded for its URI *)
Theorem C36_threads_sound : forall uris sched i t o,
  nth_error (s_threads (trun (start uris) sched)) i = Some t -> t_state t = TDone (AObj o) -> In (t_uri t, o) (s_loaded (trun (start uris) sched)).
Proof.
  intros uris sched i t o Hi Hs. destruct (trun_ok sched _ (start_ok uris)) as [_ H]. specialize (H i t Hi). now rewrite Hs in H.
Qed.
Open Scope string_scope.
(** a schema file that is not well-formed: lxml's own error, without the URI *)
Theorem C36_malformed_refuted : exists m, session [mkCall (u "f.xsd") None (LoadOther (u "Start tag expected"))] = [(u "f.xsd", AOtherError m, true)] /\ m = u "Start tag expected".
Proof. eexists. split; vm_compute; reflexivity. Qed.
(** two threads can both load the schema and get different objects *)
Theorem C36_threads_refuted : let s := trun (start [u "f"; u "f"]) [(0, LoadOk 1); (1, LoadOk 2); (0, LoadOk 1); (0, LoadOk 1); (0, LoadOk 1); (1, LoadOk 2); (1, LoadOk 2); (1, LoadOk 2)] in
  map t_state (s_threads s) = [TDone (AObj 1); TDone (AObj 2)] /\ length (s_loaded s) = 2.
Proof. vm_compute. auto. Qed.
Example C36_case : session [mkCall (u "f") None (LoadIO (u "gone")); mkCall (u "g") None (LoadOk 5); mkCall (u "f") None (LoadOk 1); mkCall (u "f") (Some (u "b")) (LoadOk 2); mkCall (u "g") None (LoadOk 6)] =
  [(u "f", AIOError (u "Failed to load schema f : gone"), true); (u "g", AObj 5, true); (u "f", AObj 1, true); (u "f", AObj 1, false); (u "g", AObj 5, false)].
Proof. vm_compute. reflexivity. Qed.
Close Scope string_scope.

(** ** C37 *)
Theorem C37_equivalence_partial : forall (ser : nat -> str),
  (forall a, obj_eq ser (WElem a) (OpObj (WElem a)) = EqVal true) /\
  (forall a b, obj_eq ser (WElem a) (OpObj (WElem b)) = obj_eq ser (WElem b) (OpObj (WElem a))) /\
  (forall a b c, obj_eq ser (WElem a) (OpObj (WElem b)) = EqVal true -> obj_eq ser (WElem b) (OpObj (WElem c)) = EqVal true -> obj_eq ser (WElem a) (OpObj (WElem c)) = EqVal true) /\
  (forall a b, obj_eq ser (WElem a) (OpObj (WElem b)) = EqVal true <-> ser a = ser b) /\
  (forall a b r, obj_ne ser a b = EqVal r <-> obj_eq ser a b = EqVal (negb r)).
Proof.
  intros ser. assert (G : forall a b, obj_eq ser (WElem a) (OpObj (WElem b)) = EqVal (str_eqb (ser a) (ser b))).
  { intros a b. cbn. destruct (Nat.eqb_spec a b) as [->|]; [now rewrite str_eqb_refl|reflexivity]. }
  assert (G2 : forall a b, obj_eq ser (WElem a) (OpObj (WElem b)) = EqVal true <-> ser a = ser b) by (intros a b; rewrite G, <- str_eqb_eq; split; congruence).
  split; [intros a; now apply G2|]. split; [intros a b; rewrite !G; now rewrite str_eqb_sym|]. split; [intros a b c; rewrite !G2; congruence|]. split; [assumption|].
  intros a b r. unfold obj_ne. destruct (obj_eq ser a b) as [x|]; [|split; discriminate]. split; intros [= H]; f_equal; destruct x, r; auto.
Qed.
(** text-node objects: comparing two different ones raises TypeError instead of answering *)
Theorem C37_text_refuted : forall ser s t, s <> t -> obj_eq ser (WText s) (OpObj (WText t)) = EqTypeError.
Proof. intros ser s t H. cbn. apply str_eqb_neq in H. now rewrite H. Qed.
Example C37_case : obj_eq (fun i => if i =? 2 then u "b"%string else u "a"%string) (WElem 0) (OpObj (WElem 1)) = EqVal true /\
  obj_eq (fun i => if i =? 2 then u "b"%string else u "a"%string) (WElem 0) (OpObj (WElem 2)) = EqVal false.
Proof. vm_compute. auto. Qed.
