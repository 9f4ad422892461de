(** Validation and its histories: C54. *)
From Coq Require Import String List Arith NArith Bool Lia.
From Verif Require Import PyStr Classes ClassProofs SchemaCache Validate.
Import ListNotations.
Opaque u.

Section Props.
  Context {doc err : Type} (keep : bool) (errs : nat -> doc -> list err) (load : str -> outcome).
  Notation vobj := (@vobj doc).
  Notation vop := (@vop doc).
  Notation vstate := (@vstate err).

  (** ** Specification: what the object alone says *)
  (** the schema object for the class, or why there is none *)
  Inductive schema := NoSchema | Broken | Loaded (o : nat).
  Definition schema_of (x : vobj) : schema :=
    match x_schema x with None => NoSchema | Some uri => match load uri with LoadOk o => Loaded o | _ => Broken end end.
  (** the errors of its current content *)
  Definition own_errors (x : vobj) : list err := match schema_of x with Loaded o => errs o (x_doc x) | _ => [] end.
  (** the answer does not depend on anything but the object *)
  Definition answers {A} (r : vres A) (x : vobj) (v : A) : Prop :=
    match schema_of x with Broken => exists a, r = VExc (VLoad a) | _ => r = VRet v end.

  (** ** lemmas *)
  Definition cache_ok (s : vstate) : Prop := forall uri o, dget uri (v_cache s) = Some o -> load uri = LoadOk o.
  Lemma xmlschema_ok s x : cache_ok s -> exists s', v_log s' = v_log s /\ cache_ok s' /\
    match schema_of x with
    | NoSchema => xmlschema load s x = (s', VRet None) /\ s' = s
    | Broken => exists a, xmlschema load s x = (s', VExc (VLoad a)) /\ s' = s
    | Loaded o => xmlschema load s x = (s', VRet (Some o)) /\ forall y : vobj, x_schema y = x_schema x -> forall s2 : vstate, v_cache s2 = v_cache s' -> xmlschema load s2 y = (s2, VRet (Some o))
    end.
  Proof.
    intros H. unfold xmlschema, schema_of. destruct (x_schema x) as [uri|] eqn:Ex; [|now exists s].
    unfold load_schema. destruct (dget uri (v_cache s)) as [o|] eqn:E.
    - pose proof (H _ _ E) as L. rewrite L. destruct s as [c lg]. exists (mkV c lg). cbn in *. repeat match goal with |- _ /\ _ => split end; auto.
      intros y Hy s2 Hs2. rewrite Hy. destruct s2 as [c2 lg2]. cbn in Hs2. subst c2. cbn. rewrite E. reflexivity.
    - destruct (load uri) as [o|m|m|m] eqn:L; destruct s as [c lg]; cbn in *; try (exists (mkV c lg); repeat match goal with |- _ /\ _ => split end; eauto; fail).
      exists (mkV (dset uri o c) lg). cbn. repeat match goal with |- _ /\ _ => split end; auto.
      + intros uri' o'. cbn. rewrite dget_dset. destruct (str_eqb_spec uri uri'); [intros [= <-]; congruence|apply H].
      + intros y Hy s2 Hs2. rewrite Hy. destruct s2 as [c2 lg2]. cbn in Hs2. subst c2. cbn. rewrite dget_dset, str_eqb_refl. reflexivity.
  Qed.
  Lemma cache_log s o l : cache_ok (set_log o l s) <-> cache_ok s.
  Proof. reflexivity. Qed.
  Lemma schema_valid_ok s x : cache_ok s -> exists s', cache_ok s' /\
    match schema_of x with
    | NoSchema => schema_valid keep errs load s x = (s', VExc VNoSchema) /\ v_log s' = v_log s
    | Broken => (exists a, schema_valid keep errs load s x = (s', VExc (VLoad a))) /\ v_log s' = v_log s
    | Loaded o => schema_valid keep errs load s x = (s', VRet (match errs o (x_doc x) with [] => true | _ => false end)) /\ v_log s' o = errs o (x_doc x) /\ (forall o', o' <> o -> v_log s' o' = v_log s o') /\
        forall s2 : vstate, v_cache s2 = v_cache s' -> xmlschema load s2 x = (s2, VRet (Some o))
    end.
  Proof.
    intros H. unfold schema_valid. destruct (xmlschema_ok s x H) as (s1 & L1 & C1 & G). destruct (schema_of x) as [| |o].
    - destruct G as [-> ->]. exists s. auto.
    - destruct G as (a & -> & ->). exists s. eauto.
    - destruct G as [-> G]. rewrite (G x eq_refl s1 eq_refl), (G x eq_refl (set_log o [] s1) eq_refl). eexists. split; [|split; [reflexivity|]]; [exact C1|]. cbn. rewrite !Nat.eqb_refl. cbn. destruct keep; cbn; (split; [reflexivity|]); split.
      1,3: intros o' Ho; apply Nat.eqb_neq in Ho; rewrite Ho; now rewrite L1.
      1,2: intros s2 Hs2; now apply (G x eq_refl).
  Qed.
  Lemma schema_errors_ok s x : cache_ok s -> exists s', cache_ok s' /\ v_log s' = v_log s /\
    match schema_of x with
    | NoSchema => schema_validation_errors load s x = (s', VExc VNoSchema)
    | Broken => exists a, schema_validation_errors load s x = (s', VExc (VLoad a))
    | Loaded o => schema_validation_errors load s x = (s', VRet (v_log s o))
    end.
  Proof.
    intros H. unfold schema_validation_errors. destruct (xmlschema_ok s x H) as (s1 & L1 & C1 & G). destruct (schema_of x) as [| |o].
    - destruct G as [-> ->]. exists s. auto.
    - destruct G as (a & -> & ->). exists s. eauto.
    - destruct G as [-> G]. rewrite (G x eq_refl s1 eq_refl). exists s1. rewrite L1. auto.
  Qed.
  Lemma validation_ok s x : cache_ok s -> exists s', cache_ok s' /\
    match schema_of x with
    | NoSchema => validation_errors keep errs load s x = (s', VRet []) /\ v_log s' = v_log s
    | Broken => (exists a, validation_errors keep errs load s x = (s', VExc (VLoad a))) /\ v_log s' = v_log s
    | Loaded o => validation_errors keep errs load s x = (s', VRet (if x_validate x then errs o (x_doc x) else [])) /\ (forall o', o' <> o -> v_log s' o' = v_log s o') /\ v_log s' o = (if x_validate x then errs o (x_doc x) else v_log s o)
    end.
  Proof.
    intros H. unfold validation_errors. destruct (xmlschema_ok s x H) as (s1 & L1 & C1 & G). destruct (schema_of x) as [| |o] eqn:E.
    - destruct G as [-> ->]. exists s. auto.
    - destruct G as (a & -> & ->). exists s. eauto.
    - destruct G as [-> G]. destruct (x_validate x); [|exists s1; rewrite L1; auto].
      destruct (schema_valid_ok s1 x C1) as (s2 & C2 & K). rewrite E in K. destruct K as (-> & K1 & K2 & K3). rewrite L1 in K2. destruct (errs o (x_doc x)) as [|e r] eqn:Ee.
      + exists s2. auto.
      + unfold schema_validation_errors. rewrite !(K3 s2 eq_refl). exists s2. rewrite K1. auto.
  Qed.
  Lemma vstep_ok op s : cache_ok s -> cache_ok (vstep keep errs load s op).
  Proof.
    intros H. destruct op as [x|x|x|x]; cbn [vstep].
    - destruct (validation_ok s x H) as (s' & C & K). destruct (schema_of x); [destruct K as [-> _]|destruct K as [(a & ->) _]|destruct K as [-> _]]; exact C.
    - unfold is_valid. destruct (validation_ok s x H) as (s' & C & K). destruct (schema_of x); [destruct K as [-> _]|destruct K as [(a & ->) _]|destruct K as [-> _]]; exact C.
    - destruct (schema_valid_ok s x H) as (s' & C & K). destruct (schema_of x); [destruct K as [-> _]|destruct K as [(a & ->) _]|destruct K as [-> _]]; exact C.
    - destruct (schema_errors_ok s x H) as (s' & C & _ & K). destruct (schema_of x); [rewrite K|destruct K as (a & ->)|rewrite K]; exact C.
  Qed.
  Lemma vrun_ok h : cache_ok (vrun keep errs load h).
  Proof.
    unfold vrun. assert (H : cache_ok v_init) by (intros uri o; discriminate). generalize dependent (@v_init err). induction h as [|op h IH]; intros s H; [exact H|]. cbn [fold_left]. apply IH. now apply vstep_ok.
  Qed.
  Lemma vrun_snoc h op : vrun keep errs load (h ++ [op]) = vstep keep errs load (vrun keep errs load h) op.
  Proof. unfold vrun. now rewrite fold_left_app. Qed.

  (** ** C54 *)
  (** whatever was done before, validation_errors() returns the errors of the object, none if it is not to be validated *)
  Theorem C54_errors : forall h x, answers (snd (validation_errors keep errs load (vrun keep errs load h) x)) x (if x_validate x then own_errors x else []).
  Proof.
    intros h x. unfold answers, own_errors. destruct (validation_ok (vrun keep errs load h) x (vrun_ok h)) as (s' & C & K). destruct (schema_of x); [destruct K as [-> _]|destruct K as [(a & ->) _]|destruct K as [-> _]]; cbn; eauto. now destruct (x_validate x).
  Qed.
  Theorem C54_is_valid : forall h x, schema_of x <> Broken -> exists b, snd (is_valid keep errs load (vrun keep errs load h) x) = VRet b /\ (b = true <-> x_validate x = false \/ own_errors x = []).
  Proof.
    intros h x Hb. unfold is_valid, own_errors. destruct (validation_ok (vrun keep errs load h) x (vrun_ok h)) as (s' & C & K). destruct (schema_of x) as [| |o]; [destruct K as [-> _]|contradiction|destruct K as [-> _]]; cbn; eexists; (split; [reflexivity|]).
    - split; auto.
    - destruct (x_validate x), (errs o (x_doc x)); split; auto; try discriminate; intros [H|H]; discriminate.
  Qed.
  Theorem C54_schema_valid : forall h x o, schema_of x = Loaded o -> exists b, snd (schema_valid keep errs load (vrun keep errs load h) x) = VRet b /\ (b = true <-> own_errors x = []).
  Proof.
    intros h x o Ho. unfold own_errors. destruct (schema_valid_ok (vrun keep errs load h) x (vrun_ok h)) as (s' & C & K). rewrite Ho in *. destruct K as [-> _]. cbn. eexists. split; [reflexivity|]. destruct (errs o (x_doc x)); split; auto; discriminate.
  Qed.
  (** schema_validation_errors() after the object's validation, as long as nothing is validated with the same schema in between *)
  Theorem C54_schema_errors_partial : forall h x o (mid : list vop), schema_of x = Loaded o -> x_validate x = true ->
    (forall op y, In op mid -> op = OpErrors y \/ op = OpIsValid y \/ op = OpSchemaValid y -> schema_of y <> Loaded o) ->
    snd (schema_validation_errors load (vrun keep errs load (h ++ [OpIsValid x] ++ mid)) x) = VRet (own_errors x).
  Proof.
    intros h x o mid Ho Hv Hm. assert (G : v_log (vrun keep errs load (h ++ [OpIsValid x] ++ mid)) o = own_errors x).
    { induction mid as [|op mid IH] using rev_ind.
      - rewrite app_nil_r, vrun_snoc. cbn [vstep]. unfold is_valid. destruct (validation_ok (vrun keep errs load h) x (vrun_ok h)) as (s' & C & K). unfold own_errors. rewrite Ho in *. destruct K as (-> & _ & K). cbn. now rewrite Hv in K.
      - rewrite !app_assoc, vrun_snoc, <- app_assoc. rewrite <- IH by (intros op' y Hin; apply (Hm op' y); apply in_or_app; auto). set (s := vrun keep errs load (h ++ [OpIsValid x] ++ mid)). assert (C : cache_ok s) by apply vrun_ok.
        assert (Hop : forall y, op = OpErrors y \/ op = OpIsValid y \/ op = OpSchemaValid y -> schema_of y <> Loaded o) by (intros y; apply (Hm op y); apply in_or_app; right; now left).
        destruct op as [y|y|y|y]; cbn [vstep].
        + destruct (validation_ok s y C) as (s' & _ & K). specialize (Hop y (or_introl eq_refl)). destruct (schema_of y) as [| |o']; [destruct K as [-> K]|destruct K as [(a & ->) K]|destruct K as (-> & K & _)]; cbn; rewrite ?K; auto; congruence.
        + unfold is_valid. destruct (validation_ok s y C) as (s' & _ & K). specialize (Hop y (or_intror (or_introl eq_refl))). destruct (schema_of y) as [| |o']; [destruct K as [-> K]|destruct K as [(a & ->) K]|destruct K as (-> & K & _)]; cbn; rewrite ?K; auto; congruence.
        + destruct (schema_valid_ok s y C) as (s' & _ & K). specialize (Hop y (or_intror (or_intror eq_refl))). destruct (schema_of y) as [| |o']; [destruct K as [-> K]|destruct K as [(a & ->) K]|destruct K as (-> & _ & K & _)]; cbn; rewrite ?K; auto; congruence.
        + destruct (schema_errors_ok s y C) as (s' & _ & K & K2). destruct (schema_of y); [rewrite K2|destruct K2 as (a & ->)|rewrite K2]; cbn; now rewrite K. }
    destruct (schema_errors_ok (vrun keep errs load (h ++ [OpIsValid x] ++ mid)) x (vrun_ok _)) as (s' & _ & _ & K). rewrite Ho in K. rewrite K. cbn [snd]. now rewrite G.
  Qed.
  (** validation_errors() called by several threads at once without interleaving of their statements (one schedule after the
      other) gives each its own errors: that is [C54_errors]; see below for the others *)
End Props.

(** *** where it fails *)
Section Refuted.
  Definition errs1 (o : nat) (d : nat) : list nat := if d =? 0 then [] else [d].
  Definition load1 (uri : str) : outcome := LoadOk 0.
  Definition ob (d : nat) : @vobj nat := mkObj (Some (u "s.xsd")) true d.
  (** another object of the class has been validated meanwhile: its errors are returned; before any validation: none *)
  Theorem C54_schema_errors_refuted : forall keep : bool,
    snd (schema_validation_errors load1 (vrun keep errs1 load1 [OpIsValid (ob 1); OpIsValid (ob 2)]) (ob 1)) = VRet [2] /\
    snd (schema_validation_errors load1 (vrun keep errs1 load1 [OpIsValid (ob 1); OpIsValid (ob 0)]) (ob 1)) = VRet [] /\
    snd (schema_validation_errors load1 (vrun keep errs1 load1 []) (ob 1)) = VRet [].
  Proof. intros keep. destruct keep; repeat match goal with |- _ /\ _ => split end; vm_compute; reflexivity. Qed.
  (** two threads: one gets the errors of both documents, or of the other one only *)
  Theorem C54_threads_refuted : (forall keep : bool, vtrun keep errs1 0 [1; 2] [0; 0; 1; 1; 0; 1] = ([2], [VDone [2]; VDone [2]])) /\
    vtrun true errs1 0 [1; 2] [0; 1; 0; 1; 0; 1] = ([1; 2], [VDone [1; 2]; VDone [1; 2]]) /\ vtrun false errs1 0 [1; 2] [0; 1; 0; 1; 0; 1] = ([2], [VDone [2]; VDone [2]]).
  Proof. split; [intros keep; destruct keep|split]; vm_compute; reflexivity. Qed.
  Example C54_case : forall keep : bool, let h := [OpSchemaErrors (ob 3); OpErrors (ob 2); OpErrors (mkObj None true 5); OpSchemaValid (ob 0)] in
    snd (validation_errors keep errs1 load1 (vrun keep errs1 load1 h) (ob 7)) = VRet [7] /\ snd (is_valid keep errs1 load1 (vrun keep errs1 load1 h) (ob 0)) = VRet true /\
    snd (schema_valid keep errs1 load1 (vrun keep errs1 load1 h) (mkObj None true 5)) = VExc VNoSchema /\
    snd (schema_validation_errors load1 (vrun keep errs1 load1 (h ++ [OpIsValid (ob 4)] ++ [OpErrors (mkObj None true 1); OpSchemaErrors (ob 1)])) (ob 4)) = VRet [4].
  Proof. intros keep. destruct keep; cbv zeta; repeat match goal with |- _ /\ _ => split end; vm_compute; reflexivity. Qed.
End Refuted.
Print Assumptions C54_errors.
Print Assumptions C54_schema_errors_partial.
