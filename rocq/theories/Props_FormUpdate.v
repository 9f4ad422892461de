(** Saving forms: C42. *)
From Coq Require Import String List Arith NArith Bool Lia.
From Verif Require Import PyStr Classes ClassProofs FieldLists FieldListProofs FormFields FormFieldProofs FormData FormUpdate Props_FieldLists.
Import ListNotations.
Opaque u.

Section Spec.
Context {V : Type} (is_blank : V -> bool) (none : V) (empty : obj V -> bool).
Notation update := (@update V is_blank none empty).
Notation bform := (bform V).
Notation uclean := (@clean V is_blank none).

(** ** Specification *)
(** the form is meant to save field [n] (of an instance with fields [fs]): Meta.fields absent or naming it, and not excluded *)
Definition saves (m : mfields) (ex : larg) (fs : list (str * oval V)) (n : str) : Prop :=
  match m with MAbsent => In n (map fst fs) | MNames l => In n l | _ => False end /\
  match ex with ANone => True | ANames l => ~ In n l | AParsed t => ~ In n (p_fields t) end.

(** ** lemmas *)
Lemma field_set n (v : V) (o o' : obj V) e k : set_field n v o = (o', e) -> e = None -> field k o' = match field k o with Some (VPlain x) => Some (VPlain (if str_eqb n k then v else x)) | w => w end.
Proof.
  intros H He. destruct o as [fs]. unfold set_field in H. destruct (dget n fs) as [[x| |]|] eqn:E; injection H as <- Hx; subst e; try discriminate; cbn.
  - rewrite dget_dset. destruct (str_eqb_spec n k) as [->|N]; [now rewrite E|]. now destruct (dget k fs) as [[]|].
  - destruct (str_eqb_spec n k) as [->|N]; [now rewrite E|]. now destruct (dget k fs) as [[]|].
Qed.
Lemma save_fields_spec m ex cd k : forall names (o o' : obj V), save_fields is_blank none m ex cd names o = (o', None) ->
  field k o' = match field k o with
    | Some (VPlain x) => Some (VPlain (if str_mem k names && negb (skipped m ex k) then match dget k cd with Some v => uclean v | None => x end else x))
    | w => w end.
Proof.
  induction names as [|n names IH]; intros o o' H; cbn [save_fields] in H.
  - injection H as <-. cbn. now destruct (field k o) as [[]|].
  - destruct (skipped m ex n) eqn:Es.
    { rewrite (IH _ _ H). destruct (field k o) as [[x| |]|]; try reflexivity. cbn [str_mem existsb]. fold (str_mem k names). destruct (str_eqb_spec k n) as [->|N]; [|reflexivity]. rewrite Es. cbn [negb]. now rewrite !andb_false_r. }
    destruct (dget n cd) as [v|] eqn:Ec.
    + destruct (set_field n (uclean v) o) as [o1 [e|]] eqn:E1; [discriminate|]. rewrite (IH _ _ H), (field_set _ _ _ _ _ k E1 eq_refl). destruct (field k o) as [[x| |]|]; try reflexivity. cbn [str_mem existsb]. fold (str_mem k names). rewrite (str_eqb_sym n k).
      destruct (str_eqb_spec k n) as [->|N]; [|reflexivity]. rewrite Es, Ec. cbn. now rewrite andb_true_r; destruct (str_mem n names).
    + rewrite (IH _ _ H). destruct (field k o) as [[x| |]|]; try reflexivity. cbn [str_mem existsb]. fold (str_mem k names). destruct (str_eqb_spec k n) as [->|N]; [|reflexivity]. rewrite Es, Ec. cbn. now rewrite andb_true_r; destruct (str_mem n names).
Qed.
Lemma set_field_keys n v (o o' : obj V) : set_field n v o = (o', None) -> forall k, (field k o' = None <-> field k o = None).
Proof. intros H k. rewrite (field_set _ _ _ _ _ k H eq_refl). destruct (field k o) as [[]|]; split; congruence. Qed.

Fixpoint save_subs (subs : list (str * bform)) (o : obj V) : obj V * option uexn :=
  match subs with
  | [] => (o, None)
  | (n, G) :: rest =>
    match field n o with
    | Some (VNode (Some p)) =>
      match update G p with
      | (p1, Some e) => (with_field n (VNode (Some p1)) o, Some e)
      | (p1, None) => save_subs rest (with_field n (VNode (if empty p1 then None else Some p1)) o)
      end
    | Some (VNode None) =>
      match G with BForm _ _ _ own _ _ =>
        match update G own with
        | (p1, Some e) => (o, Some e)
        | (p1, None) => save_subs rest (if empty p1 then o else with_field n (VNode (Some p1)) o)
        end
      end
    | _ => (o, Some (UNoField n))
    end
  end.
Lemma update_eq m ex cleaned own subs sets o : update (BForm m ex cleaned own subs sets) o =
  match cleaned with
  | None => (o, None)
  | Some cd =>
    match fields_in_order m o with
    | None => (o, Some UType)
    | Some names =>
      match save_fields is_blank none m ex cd names o with
      | (o1, Some e) => (o1, Some e)
      | (o1, None) => match save_subs subs o1 with (o2, Some e) => (o2, Some e) | (o2, None) => save_sets sets o2 end
      end
    end
  end.
Proof.
  cbn [FormUpdate.update]. destruct cleaned as [cd|]; [|reflexivity]. destruct (fields_in_order m o) as [names|]; [|reflexivity]. destruct (save_fields _ _ m ex cd names o) as [o1 [e|]]; [reflexivity|].
  assert (E : forall subs o, (fix go subs o :=
            match subs with
            | [] => (o, None)
            | (n, G) :: rest =>
              match field n o with
              | Some (VNode (Some p)) =>
                match update G p with
                | (p1, Some e) => (with_field n (VNode (Some p1)) o, Some e)
                | (p1, None) => go rest (with_field n (VNode (if empty p1 then None else Some p1)) o)
                end
              | Some (VNode None) =>
                match G with BForm _ _ _ own _ _ =>
                  match update G own with
                  | (p1, Some e) => (o, Some e)
                  | (p1, None) => go rest (if empty p1 then o else with_field n (VNode (Some p1)) o)
                  end
                end
              | _ => (o, Some (UNoField n))
              end
            end) subs o = save_subs subs o).
  { clear. induction subs as [|[n G] rest IH]; intros o; cbn [save_subs]; [reflexivity|]. destruct (field n o) as [[x|[p|]|l]|]; [reflexivity| | |reflexivity|reflexivity].
    - destruct (update G p) as [p1 [e|]]; [reflexivity|]. apply IH.
    - destruct G as [m ex cl own su se]. destruct (update _ own) as [p1 [e|]]; [reflexivity|]. apply IH. }
  rewrite E. reflexivity.
Qed.
Lemma field_with n v (o : obj V) k : field k (with_field n v o) = if str_eqb n k then Some v else field k o.
Proof. destruct o as [fs]. cbn. apply dget_dset. Qed.
Definition own_of (G : bform) : obj V := match G with BForm _ _ _ own _ _ => own end.
Lemma save_subs_spec : forall subs (o o' : obj V), NoDup (map fst subs) -> save_subs subs o = (o', None) -> forall k,
  match dget k subs with
  | None => field k o' = field k o
  | Some G => exists old p1, field k o = Some (VNode old) /\ update G (match old with Some p => p | None => own_of G end) = (p1, None) /\
                field k o' = Some (VNode (if empty p1 then None else Some p1))
  end.
Proof.
  induction subs as [|[n G] rest IH]; intros o o' Hnd H k; cbn [save_subs dget] in *; [now injection H as <-|]. inversion Hnd as [|? ? Hx Hnd']; subst. cbn [fst] in *.
  assert (Hn : dget n rest = None) by now apply dget_none_notin.
  destruct (field n o) as [[|[p|]|]|] eqn:Ef; try discriminate.
  - destruct (update G p) as [p1 [e|]] eqn:Eu; [discriminate|]. specialize (IH _ _ Hnd' H k). destruct (str_eqb_spec n k) as [->|N].
    + rewrite Hn in IH. rewrite field_with, str_eqb_refl in IH. exists (Some p), p1. auto.
    + rewrite field_with in IH. apply str_eqb_neq in N. rewrite N in IH. exact IH.
  - destruct G as [m ex cl own su se]. destruct (update (BForm m ex cl own su se) own) as [p1 [e|]] eqn:Eu; [discriminate|]. specialize (IH _ _ Hnd' H k). destruct (str_eqb_spec n k) as [->|N].
    + rewrite Hn in IH. exists None, p1. cbn [own_of]. split; [assumption|]. split; [assumption|]. rewrite IH. destruct (empty p1); [assumption|]. now rewrite field_with, str_eqb_refl.
    + assert (E : field k (if empty p1 then o else with_field n (VNode (Some p1)) o) = field k o). { destruct (empty p1); [reflexivity|]. rewrite field_with. apply str_eqb_neq in N. now rewrite N. }
      rewrite E in IH. exact IH.
Qed.
Lemma save_sets_spec : forall sets (o o' : obj V), NoDup (map fst sets) -> save_sets sets o = (o', None) -> forall k,
  field k o' = match dget k sets with Some f => option_map f (field k o) | None => field k o end.
Proof.
  unfold save_sets. induction sets as [|[n f] rest IH]; intros o o' Hnd H k; cbn [fold_left fst snd dget] in *; [now injection H as <-|]. inversion Hnd as [|? ? Hx Hnd']; subst. cbn [fst] in *.
  destruct (field n o) as [v|] eqn:Ef.
  - rewrite (IH _ _ Hnd' H k), field_with. destruct (str_eqb_spec n k) as [->|N]; [rewrite (dget_none_notin _ _ Hx), Ef; reflexivity|reflexivity].
  - exfalso. clear -H. induction rest as [|x rest IH]; cbn in H; [discriminate|auto].
Qed.

Lemma order_saves m ex fs names n : is_name n -> In n (map fst fs) -> fields_in_order m (Obj fs) = Some names ->
  (str_mem n names && negb (skipped m ex n) = true <-> saves m ex fs n).
Proof.
  intros Hn Hf Ho. rewrite andb_true_iff, str_mem_In, negb_true_iff. unfold skipped, saves.
  assert (Hex : arg_true ex && excluded (o_exclude (options_of (meta_arg m) ex)) n = false <-> match ex with ANone => True | ANames l => ~ In n l | AParsed t => ~ In n (p_fields t) end).
  { rewrite <- not_true_iff_false, andb_true_iff. destruct ex as [|l|t]; cbn [arg_true options_of o_exclude excluded]; [split; [auto|intros _ [H _]; discriminate]| |].
    - assert (G : In n (p_fields (parse_field_list l false)) <-> In n l).
      { pose proof (C39_selected l false [] n (Forall_nil _)) as S. cbn [fields_at app dotted] in S. unfold listed in S. cbn [dotted] in S. split; [intros H; destruct (proj1 S) as [_ [K|[K _]]]; [eauto|assumption|discriminate]|]. intros H. destruct (proj2 S) as (fs' & [= <-] & K); auto. }
      rewrite str_mem_In, G. destruct l; cbn; [tauto|intuition].
    - rewrite str_mem_In. tauto. }
  rewrite orb_false_iff, Hex. destruct m as [| |l|t]; cbn [fields_in_order] in Ho; try discriminate; injection Ho as <-.
  - cbn [meta_arg arg_true]. tauto.
  - assert (G : In n l -> included (Some (parse_field_list l true)) n = true).
    { intros H. cbn. apply str_mem_In. pose proof (C39_selected l true [] n (Forall_nil _)) as S. cbn [fields_at app] in S. destruct (proj2 S) as (fs' & [= <-] & K); [|assumption]. split; [assumption|]. left. exact H. }
    rewrite in_app_iff, filter_In, str_mem_In. cbn [meta_arg options_of o_fields]. split.
    + intros ([H|[_ H]] & H1 & H2); auto.
    + intros [H1 H2]. rewrite (G H1). cbn [negb]. rewrite andb_false_r. auto.
Qed.

(** ** C42: what update_instance changes, field by field, at one level: plain fields get the submitted value (blank as None) exactly
    if the form saves them and the data has them; node fields with a subform get what the subform makes of them, or go away if
    that is empty; fields with a formset get what the formset makes of them; everything else stays *)
Theorem C42_saved : forall m ex cd own subs sets fs o' n, NoDup (map fst subs) -> NoDup (map fst sets) ->
  (forall k, In k (map fst sets) -> ~ In k (map fst subs)) -> is_name n ->
  update (BForm m ex (Some cd) own subs sets) (Obj fs) = (o', None) -> ~ In n (map fst sets) ->
  match dget n fs with
  | None => field n o' = None
  | Some (VPlain x) =>
      (forall v, dget n cd = Some v -> saves m ex fs n -> field n o' = Some (VPlain (if is_blank v then none else v))) /\
      (dget n cd = None \/ ~ saves m ex fs n -> field n o' = Some (VPlain x))
  | Some (VNode old) =>
      match dget n subs with
      | None => field n o' = Some (VNode old)
      | Some G => exists p, update G (match old with Some p => p | None => own_of G end) = (p, None) /\
                    field n o' = Some (VNode (if empty p then None else Some p))
      end
  | Some (VNodes l) => field n o' = Some (VNodes l)
  end.
Proof.
  intros m ex cd own subs sets fs o' n Hs Ht Hd Hname H Hnt. rewrite update_eq in H. destruct (fields_in_order m (Obj fs)) as [names|] eqn:Eo; [|discriminate].
  destruct (save_fields _ _ m ex cd names (Obj fs)) as [o1 [e|]] eqn:E1; [discriminate|]. destruct (save_subs subs o1) as [o2 [e|]] eqn:E2; [discriminate|].
  pose proof (save_fields_spec m ex cd n _ _ _ E1) as F1. pose proof (save_subs_spec _ _ _ Hs E2 n) as F2. pose proof (save_sets_spec _ _ _ Ht H n) as F3. rewrite (dget_none_notin _ _ Hnt) in F3. rewrite F3.
  cbn [field] in F1. destruct (dget n fs) as [[x|old|l]|] eqn:Ef.
  - assert (Hin : In n (map fst fs)) by (apply dget_In in Ef; now apply (in_map fst) in Ef). pose proof (order_saves m ex fs names n Hname Hin Eo) as S.
    assert (F : field n o2 = field n o1). { destruct (dget n subs); [|assumption]. destruct F2 as (old & p1 & K & _). rewrite F1 in K. discriminate. }
    rewrite F, F1. split.
    + intros v Hv Hsv. apply S in Hsv. rewrite Hsv, Hv. reflexivity.
    + intros Hno. destruct (str_mem n names && negb (skipped m ex n)) eqn:Eb; [|reflexivity]. destruct Hno as [-> |Hno]; [reflexivity|]. exfalso. apply Hno. now apply S.
  - destruct (dget n subs) as [G|] eqn:Eg; [|congruence]. destruct F2 as (old' & p1 & K1 & K2 & K3). rewrite F1 in K1. injection K1 as <-. eauto.
  - destruct (dget n subs) as [G|] eqn:Eg; [|congruence]. destruct F2 as (old' & p1 & K1 & _). congruence.
  - destruct (dget n subs) as [G|] eqn:Eg; [|congruence]. destruct F2 as (old' & p1 & K1 & _). congruence.
Qed.
(** formsets see the field as it was and replace it *)
Theorem C42_formsets : forall m ex cd own subs sets fs o' n f, NoDup (map fst subs) -> NoDup (map fst sets) ->
  ~ In n (map fst subs) -> dget n cd = None -> update (BForm m ex (Some cd) own subs sets) (Obj fs) = (o', None) -> dget n sets = Some f ->
  field n o' = option_map f (dget n fs).
Proof.
  intros m ex cd own subs sets fs o' n f Hs Ht Hd Hc H Hf. rewrite update_eq in H. destruct (fields_in_order m (Obj fs)) as [names|] eqn:Eo; [|discriminate].
  destruct (save_fields _ _ m ex cd names (Obj fs)) as [o1 [e|]] eqn:E1; [discriminate|]. destruct (save_subs subs o1) as [o2 [e|]] eqn:E2; [discriminate|].
  pose proof (save_fields_spec m ex cd n _ _ _ E1) as F1. pose proof (save_subs_spec _ _ _ Hs E2 n) as F2. rewrite (save_sets_spec _ _ _ Ht H n), Hf. rewrite (dget_none_notin _ _ Hd) in F2. rewrite F2, F1. rewrite Hc. cbn [field]. destruct (dget n fs) as [[x| |]|]; try reflexivity. now destruct (_ && _).
Qed.
(** a form without cleaned data (not bound) changes nothing *)
Theorem C42_unbound : forall m ex own subs sets o, update (BForm m ex None own subs sets) o = (o, None).
Proof. reflexivity. Qed.

(** ** at any depth of subforms *)
Fixpoint subform_at (F : bform) (path : list str) : option bform :=
  match path with
  | [] => Some F
  | n :: r => match F with BForm _ _ (Some _) _ subs sets => match dget n subs, dget n sets with Some G, None => subform_at G r | _, _ => None end | _ => None end
  end.
Fixpoint object_at (o : obj V) (path : list str) : option (obj V) :=
  match path with
  | [] => Some o
  | n :: r => match field n o with Some (VNode (Some p)) => object_at p r | _ => None end
  end.
Inductive proper : bform -> Prop :=
| Proper : forall m ex cd own subs sets, NoDup (map fst subs) -> NoDup (map fst sets) -> (forall k, In k (map fst sets) -> ~ In k (map fst subs)) ->
    (forall n G, In (n, G) subs -> is_name n /\ proper G) -> proper (BForm m ex cd own subs sets).
Theorem C42_saved_deep : forall path F G o o' p p' m ex cd own subs sets fs n x, proper F ->
  update F o = (o', None) -> subform_at F path = Some G -> object_at o path = Some p -> object_at o' path = Some p' ->
  G = BForm m ex (Some cd) own subs sets -> p = Obj fs -> dget n fs = Some (VPlain x) -> is_name n -> ~ In n (map fst sets) ->
  (forall v, dget n cd = Some v -> saves m ex fs n -> field n p' = Some (VPlain (if is_blank v then none else v))) /\
  (dget n cd = None \/ ~ saves m ex fs n -> field n p' = Some (VPlain x)).
Proof.
  induction path as [|k path IH]; intros F G o o' p p' m ex cd own subs sets fs n x HP HU HF Hp Hp' HG Hfs Hx Hn Hns; cbn in HF, Hp, Hp'.
  - injection HF as <-. injection Hp as <-. injection Hp' as <-. subst F o. inversion HP as [? ? ? ? ? ? P1 P2 P3 P4]; subst. pose proof (C42_saved m ex cd own subs sets fs o' n P1 P2 P3 Hn HU Hns) as C. rewrite Hx in C. exact C.
  - destruct F as [m1 ex1 [cd1|] own1 subs1 sets1]; [|discriminate]. destruct (dget k subs1) as [G1|] eqn:Ek; [|discriminate]. destruct (dget k sets1) eqn:Es; [discriminate|]. destruct o as [fs1]. cbn [field] in Hp.
    destruct (dget k fs1) as [[|[q|]|]|] eqn:Eq; try discriminate. inversion HP as [? ? ? ? ? ? P1 P2 P3 P4]; subst. pose proof (dget_In _ _ _ Ek) as Hin. destruct (P4 _ _ Hin) as [Hk HPG].
    assert (Hks : ~ In k (map fst sets1)) by now apply dget_None. pose proof (C42_saved m1 ex1 cd1 own1 subs1 sets1 fs1 o' k P1 P2 P3 Hk HU Hks) as C. rewrite Eq, Ek in C. destruct C as (q1 & C1 & C2). rewrite C2 in Hp'. destruct (empty q1); [discriminate|].
    apply (IH G1 _ q q1 (Obj fs) p' m ex cd own subs sets fs n x HPG C1 HF Hp Hp' eq_refl eq_refl Hx Hn Hns).
Qed.

(** ** forms with dotted subform fields cannot be saved: the subform generated for a node field below which
    something is listed has a Meta.fields that update_instance cannot iterate over.  The fields of the parent have been
    written by then. *)
Theorem C42_dotted_refuted : forall names part m ex cd own subs sets cd1 own1 ex1 subs1 sets1 rest fs o',
  is_name part -> listed_below names [part] ->
  subs = (part, BForm (generated_meta (Some (parse_field_list names true)) part) ex1 (Some cd1) own1 subs1 sets1) :: rest ->
  m = MNames names -> update (BForm m ex (Some cd) own subs sets) (Obj fs) <> (o', None).
Proof.
  intros names part m ex cd own subs sets cd1 own1 ex1 subs1 sets1 rest fs o' Hn Hl -> -> H. rewrite update_eq in H. cbn [fields_in_order] in H.
  destruct (save_fields _ _ _ ex cd _ (Obj fs)) as [o1 [e|]]; [discriminate|].
  assert (E : exists t, generated_meta (Some (parse_field_list names true)) part = MParsed t).
  { unfold generated_meta. destruct (proj2 (C39_levels names true [part] (Forall_cons _ Hn (Forall_nil _)))) as [fs' Hfs]; [auto|]. cbn in Hfs |- *. destruct (dget part (p_subs (parse_field_list names true))); [eauto|discriminate]. }
  destruct E as [t Et]. rewrite Et in H. cbn [save_subs] in H. destruct (field part o1) as [[|[p|]|]|]; try discriminate; rewrite update_eq in H; destruct p as [pfs] + destruct own1 as [pfs]; cbn [fields_in_order] in H; discriminate.
Qed.
End Spec.

(** ** Concrete cases.  A record with title, note (excluded), id, a node part with label and rank, and a list of nodes. *)
Definition ex_empty (o : obj (option str)) : bool :=
  match o with Obj fs => forallb (fun nv => match snd nv with VPlain None => true | VNode None => true | VNodes [] => true | _ => false end) fs end.
Definition vblank (v : option str) : bool := match v with Some [] => true | _ => false end.
Definition ex_part : obj (option str) := Obj [(u "label", VPlain (Some (u "old"))); (u "rank", VPlain (Some (u "7")))].
Definition ex_rec : obj (option str) :=
  Obj [(u "title", VPlain (Some (u "A"))); (u "note", VPlain (Some (u "keep"))); (u "id", VPlain (Some (u "x1"))); (u "part", VNode (Some ex_part)); (u "item", VNodes [ex_part])].
Definition ex_subform : bform (option str) := BForm MAbsent ANone (Some [(u "label", Some (u "new"))]) ex_part [] [].
Definition ex_form : bform (option str) :=
  BForm MAbsent (ANames [u "note"]) (Some [(u "title", Some (u "B")); (u "note", Some (u "changed")); (u "id", Some [])]) ex_rec
    [(u "part", ex_subform)] [(u "item", fun v => match v with VNodes (_ :: r) => VNodes r | w => w end)].
Example C42_case : FormUpdate.update vblank None ex_empty ex_form ex_rec =
  (Obj [(u "title", VPlain (Some (u "B"))); (u "note", VPlain (Some (u "keep"))); (u "id", VPlain None);
        (u "part", VNode (Some (Obj [(u "label", VPlain (Some (u "new"))); (u "rank", VPlain (Some (u "7")))]))); (u "item", VNodes [])], None).
Proof. vm_compute. reflexivity. Qed.
Example C42_case_hyps : proper (V:=option str) ex_form /\ is_name (u "title") /\ saves MAbsent (ANames [u "note"]) (match ex_rec with Obj fs => fs end) (u "title")
  /\ ~ saves MAbsent (ANames [u "note"]) (match ex_rec with Obj fs => fs end) (u "note").
Proof.
  split.
  { constructor.
    - constructor; [intros []|constructor].
    - constructor; [intros []|constructor].
    - intros k [<-|[]] [H|[]]. revert H. vm_compute. discriminate.
    - intros n G [[= <- <-]|[]]. split; [vm_compute; intuition discriminate|]. constructor; try constructor; intros; contradiction. }
  split; [vm_compute; intuition discriminate|]. split.
  - split; [left; reflexivity|]. vm_compute. intuition discriminate.
  - intros [_ H]. apply H. left. reflexivity.
Qed.
(** a subform with nothing left goes away; one that has nothing to start with is created only if something was filled in *)
Definition ex_clear : bform (option str) := BForm MAbsent ANone (Some []) ex_rec [(u "part", BForm MAbsent ANone (Some [(u "label", Some []); (u "rank", Some [])]) ex_part [] [])] [].
Example C42_case_cleared : option_map (fun v => v) (field (u "part") (fst (FormUpdate.update vblank None ex_empty ex_clear ex_rec))) = Some (VNode None).
Proof. vm_compute. reflexivity. Qed.
(** Meta.fields = ['title', 'part.label'] *)
Definition ex_names := [u "title"; u "part.label"].
Definition ex_dotted : bform (option str) :=
  BForm (MNames ex_names) ANone (Some [(u "title", Some (u "B"))]) ex_rec
    [(u "part", BForm (generated_meta (Some (parse_field_list ex_names true)) (u "part")) ANone (Some [(u "label", Some (u "new"))]) ex_part [] [])] [].
Example C42_dotted_case : exists o', FormUpdate.update vblank None ex_empty ex_dotted ex_rec = (o', Some UType) /\ field (u "title") o' = Some (VPlain (Some (u "B"))).
Proof. eexists. split; vm_compute; reflexivity. Qed.
Print Assumptions C42_saved.
Print Assumptions C42_formsets.
Print Assumptions C42_saved_deep.
Print Assumptions C42_dotted_refuted.
