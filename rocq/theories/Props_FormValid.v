(** Validating forms: C76. *)
From Coq Require Import String List Arith NArith Bool Lia.
From Verif Require Import PyStr Classes ClassProofs FieldLists FieldListProofs FormFields FormFieldProofs FormData FormUpdate FormValid Props_FieldLists Props_FormUpdate.
Import ListNotations.
Opaque u.

(** ** dictionaries *)
Section DictFacts.
Context {A : Type}.
Lemma dset_id k (v : A) d : dget k d = Some v -> dset k v d = d.
Proof. induction d as [|[k' v'] r IH]; cbn; [discriminate|]. destruct (str_eqb k' k); [now intros [= ->]|]. intros H. now rewrite IH. Qed.
Lemma dset_twice k (v w : A) d : dset k v (dset k w d) = dset k v d.
Proof. induction d as [|[k' v'] r IH]; cbn; [now rewrite str_eqb_refl|]. destruct (str_eqb k' k) eqn:E; cbn; rewrite E; [reflexivity|]. now rewrite IH. Qed.
Lemma dset_comm k k' (v v' : A) d : k <> k' -> dget k d <> None -> dget k' d <> None -> dset k v (dset k' v' d) = dset k' v' (dset k v d).
Proof.
  intros N. induction d as [|[j x] r IH]; cbn; [congruence|]. intros H H'. destruct (str_eqb j k) eqn:E1, (str_eqb j k') eqn:E2; cbn; rewrite ?E1, ?E2; try reflexivity.
  - exfalso. destruct (str_eqb_spec j k), (str_eqb_spec j k'); congruence.
  - now rewrite IH.
Qed.
Lemma dset_keys k (v : A) d : dget k d <> None -> map fst (dset k v d) = map fst d.
Proof. induction d as [|[k' v'] r IH]; cbn; [congruence|]. destruct (str_eqb k' k); cbn; [reflexivity|]. intros H. now rewrite IH. Qed.
End DictFacts.

Section Spec.
Context {V : Type} (is_blank : V -> bool) (none : V) (empty : obj V -> bool).
Notation vupdate := (@vupdate V is_blank none empty).
Notation is_valid := (@is_valid V is_blank none empty).
Notation vform := (vform V).
Notation update := (@update V is_blank none empty).
Notation save_fields := (@save_fields V is_blank none).
Notation upd_subs := (vupdate_subs empty vupdate).
Notation val_subs := (valid_subs is_valid).
Notation upd_sets sets := (map (fun ns => (fst ns, vs_update (snd ns))) sets).

(** ** Specification *)
(** what a formset must do for the claims below: validating and saving it again changes nothing and gives the same answer, and
    validating it first makes no difference to what is saved *)
Definition steady (s : vset V) : Prop := forall v,
  vs_update s (fst (vs_valid s v)) = vs_update s v /\ vs_update s (vs_update s v) = vs_update s v /\
  vs_valid s (fst (vs_valid s v)) = vs_valid s v /\ vs_valid s (vs_update s v) = (vs_update s v, snd (vs_valid s v)).
(** names are used once in a form: for one subform, one formset or input fields, at every level; formsets are as above *)
Inductive tidy : vform -> Prop :=
| Tidy : forall h subs sets, NoDup (map fst subs) -> NoDup (map fst sets) -> (forall k, In k (map fst sets) -> ~ In k (map fst subs)) ->
    (forall k, In k (map fst sets) -> dget k (h_cleaned h) = None) -> (forall n s, In (n, s) sets -> steady s) ->
    (forall n own G, In (n, (own, G)) subs -> tidy G) -> tidy (VForm h subs sets).
(** the object update_instance would leave (C42), if it raises nothing *)
Definition saved (F : vform) (o o1 : obj V) : Prop := update (plain o F) o = (o1, None).
(** the object of the subform for field [n] *)
Definition sub_object (o own : obj V) (n : str) (p : obj V) : Prop :=
  field n o = Some (VNode (Some p)) \/ field n o = Some (VNode None) /\ p = own.
(** the submission is acceptable: at every level, Django's validation has no errors, the formsets are valid, and the object as
    update_instance leaves it is schema valid *)
Inductive acceptable : vform -> obj V -> Prop :=
| Acceptable : forall h subs sets o o1, h_ok h = true ->
    (forall n own G, In (n, (own, G)) subs -> exists p, sub_object o own n p /\ acceptable G p) ->
    (forall n s, In (n, s) sets -> exists v, field n o = Some v /\ snd (vs_valid s v) = true) ->
    saved (VForm h subs sets) o o1 -> h_check h o1 = true -> acceptable (VForm h subs sets) o.

(** ** lemmas *)
Section Ind.
  Context (P : vform -> Prop) (H : forall h subs sets, (forall n own G, In (n, (own, G)) subs -> P G) -> P (VForm h subs sets)).
  Fixpoint vform_ind2 (F : vform) : P F :=
    match F with
    | VForm h subs sets => H h subs sets
        ((fix go (l : list (str * (obj V * vform))) : forall n own G, In (n, (own, G)) l -> P G :=
            match l with
            | [] => fun n own G K => False_ind _ K
            | (n0, (own0, G0)) :: r => fun n own G K =>
                match K with
                | or_introl E => eq_ind G0 P (vform_ind2 G0) G (f_equal (fun x => snd (snd x)) E)
                | or_intror K' => go r n own G K'
                end
            end) subs)
    end.
End Ind.

Lemma vupdate_eq h subs sets o : vupdate (VForm h subs sets) o =
    match fields_in_order (h_fields h) o with
    | None => (VForm h subs sets, o, Some UType)
    | Some names =>
      match save_fields (h_fields h) (h_exclude h) (h_cleaned h) names o with
      | (o1, Some e) => (VForm h subs sets, o1, Some e)
      | (o1, None) =>
        match upd_subs subs o1 with
        | (subs1, o2, Some e) => (VForm h subs1 sets, o2, Some e)
        | (subs1, o2, None) => let (o3, x) := save_sets (upd_sets sets) o2 in (VForm h subs1 sets, o3, x)
        end
      end
    end.
Proof. reflexivity. Qed.
Lemma is_valid_eq h subs sets o : is_valid (VForm h subs sets) o =
    if h_ok h then
      match val_subs subs o with
      | (subs1, o1, VTrue) =>
        match valid_sets sets o1 with
        | (o2, VTrue) =>
          match vupdate (VForm h subs1 sets) o2 with
          | (F1, o3, Some e) => (F1, o3, VRaise e)
          | (VForm h1 subs2 sets1, o3, None) =>
            if h_check h1 o3 then (VForm h1 subs2 sets1, o3, VTrue)
            else (VForm (with_errors h1) subs2 sets1, o3, VFalse)
          end
        | (o2, x) => (VForm h subs1 sets, o2, x)
        end
      | (subs1, o1, x) => (VForm h subs1 sets, o1, x)
      end
    else (VForm h subs sets, o, VFalse).
Proof. reflexivity. Qed.

Lemma with_id n v (o : obj V) : field n o = Some v -> with_field n v o = o.
Proof. destruct o as [fs]. cbn. intros H. now rewrite dset_id. Qed.
Lemma with_twice n v w (o : obj V) : with_field n v (with_field n w o) = with_field n v o.
Proof. destruct o as [fs]. cbn. now rewrite dset_twice. Qed.
Lemma with_comm n k v w (o : obj V) : n <> k -> field n o <> None -> field k o <> None -> with_field n v (with_field k w o) = with_field k w (with_field n v o).
Proof. destruct o as [fs]. cbn. intros. now rewrite dset_comm. Qed.

(** the two models of update_instance agree *)
Lemma vupdate_plain : forall F o own, update (plain own F) o = (snd (fst (vupdate F o)), snd (vupdate F o)).
Proof.
  induction F as [h subs sets IH] using vform_ind2. intros o own. cbn [plain]. rewrite (update_eq is_blank none empty), vupdate_eq. destruct (fields_in_order (h_fields h) o) as [names|]; [|reflexivity].
  destruct (save_fields _ _ _ names o) as [o1 [e|]]; [reflexivity|].
  assert (S : forall l o0, incl l subs -> save_subs is_blank none empty (map (fun s => (fst s, plain (fst (snd s)) (snd (snd s)))) l) o0 = (snd (fst (upd_subs l o0)), snd (upd_subs l o0))).
  { induction l as [|[n [ow G]] l IHl]; intros o0 Hi; cbn [map save_subs vupdate_subs fst snd]; [reflexivity|].
    assert (HG : In (n, (ow, G)) subs) by (apply Hi; now left). assert (Hi' : incl l subs) by (intros x Hx; apply Hi; now right).
    destruct (field n o0) as [[|[p|]|]|]; try reflexivity.
    - rewrite (IH _ _ _ HG). destruct (vupdate G p) as [[G1 p1] [e|]]; cbn [fst snd]; [reflexivity|]. rewrite (IHl _ Hi'). now destruct (upd_subs l _) as [[r o2] x].
    - destruct (plain ow G) as [pm pex pcl pow psu pse] eqn:Epl. assert (Ep : pow = ow) by (destruct G; cbn in Epl; congruence). subst pow. rewrite <- Epl. rewrite (IH _ _ _ HG). destruct (vupdate G ow) as [[G1 p1] [e|]]; cbn [fst snd]; [reflexivity|]. rewrite (IHl _ Hi'). now destruct (upd_subs l _) as [[r o2] x]. }
  rewrite (S subs o1 (incl_refl _)). destruct (upd_subs subs o1) as [[s1 o2] [e|]]; cbn [fst snd]; [reflexivity|]. now destruct (save_sets _ o2).
Qed.
Lemma saved_vupdate F o o1 : saved F o o1 <-> exists F1, vupdate F o = (F1, o1, None).
Proof.
  unfold saved. rewrite vupdate_plain. destruct (vupdate F o) as [[F1 o2] x]. cbn [fst snd]. split; [intros [= -> ->]; eauto|]. intros [F2 [= <- -> ->]]. reflexivity.
Qed.

(** *** assignments to fields of an object *)
Definition keys (o : obj V) : list str := match o with Obj fs => map fst fs end.
Definition nonplain (v : oval V) : Prop := match v with VPlain _ => False | _ => True end.
Fixpoint apply_w (W : list (str * oval V)) (o : obj V) : obj V := match W with [] => o | (n, w) :: r => apply_w r (with_field n w o) end.
Lemma field_none_with n v (o : obj V) k : field n o <> None -> (field k (with_field n v o) = None <-> field k o = None).
Proof. intros H. rewrite field_with. destruct (str_eqb_spec n k) as [->|N]; [|tauto]. split; [discriminate|congruence]. Qed.
Lemma present_with n v (o : obj V) k : field k o <> None -> field k (with_field n v o) <> None.
Proof. intros H. rewrite field_with. now destruct (str_eqb n k). Qed.
Lemma keys_with n v (o : obj V) : field n o <> None -> keys (with_field n v o) = keys o.
Proof. destruct o as [fs]. cbn. apply dset_keys. Qed.
Lemma fio_keys m (o o' : obj V) : keys o = keys o' -> fields_in_order m o = fields_in_order m o'.
Proof. destruct o as [fs], o' as [fs']. cbn. now intros ->. Qed.
Lemma apply_other W : forall (o : obj V) k, ~ In k (map fst W) -> field k (apply_w W o) = field k o.
Proof.
  induction W as [|[n w] W IH]; intros o k H; cbn [apply_w map fst In] in *; [reflexivity|]. rewrite IH by tauto. rewrite field_with. destruct (str_eqb_spec n k) as [->|N]; [exfalso; tauto|reflexivity].
Qed.
Lemma apply_present W : forall (o : obj V) k, field k o <> None -> field k (apply_w W o) <> None.
Proof. induction W as [|[n w] W IH]; intros o k H; cbn [apply_w]; [assumption|]. apply IH. now apply present_with. Qed.
Lemma apply_with W : forall (o : obj V) n v, ~ In n (map fst W) -> field n o <> None -> (forall k, In k (map fst W) -> field k o <> None) ->
  with_field n v (apply_w W o) = apply_w W (with_field n v o).
Proof.
  induction W as [|[k w] W IH]; intros o n v Hn Hf HW; cbn [apply_w map fst In] in *; [reflexivity|]. rewrite IH.
  - rewrite with_comm; [reflexivity|intros ->; tauto|assumption|apply HW; now left].
  - tauto.
  - now apply present_with.
  - intros j Hj. apply present_with. apply HW. now right.
Qed.
Lemma apply_keys W : forall (o : obj V), (forall k, In k (map fst W) -> field k o <> None) -> keys (apply_w W o) = keys o.
Proof.
  induction W as [|[k w] W IH]; intros o HW; cbn [apply_w map fst In] in *; [reflexivity|]. rewrite IH; [apply keys_with; apply HW; now left|]. intros j Hj. apply present_with. apply HW. now right.
Qed.

(** *** saving plain fields *)
Lemma set_field_with k v n w (o : obj V) : k <> n -> field n o <> None ->
  set_field k v (with_field n w o) = (with_field n w (fst (set_field k v o)), snd (set_field k v o)) /\ field n (fst (set_field k v o)) = field n o.
Proof.
  destruct o as [fs]. cbn [with_field set_field field]. intros N H. rewrite dget_dset. destruct (str_eqb_spec n k) as [E|_]; [congruence|]. destruct (dget k fs) as [[x| |]|] eqn:E; cbn [fst snd field with_field]; try (split; reflexivity).
  split; [rewrite dset_comm; [reflexivity|assumption|congruence|assumption]|]. rewrite dget_dset. apply str_eqb_neq in N. now rewrite N.
Qed.
Lemma save_fields_with m ex cd n w : forall names (o : obj V) old, field n o = Some old -> dget n cd = None \/ nonplain old /\ nonplain w ->
  save_fields m ex cd names (with_field n w o) = (with_field n w (fst (save_fields m ex cd names o)), snd (save_fields m ex cd names o)) /\
  field n (fst (save_fields m ex cd names o)) = field n o.
Proof.
  induction names as [|k names IH]; intros o old Hf Hc; cbn [FormUpdate.save_fields]; [split; reflexivity|]. destruct (skipped m ex k); [exact (IH _ _ Hf Hc)|]. destruct (dget k cd) as [v|] eqn:Ek; [|exact (IH _ _ Hf Hc)].
  destruct (str_eqb_spec k n) as [->|N].
  - destruct Hc as [Hc|[H1 H2]]; [congruence|]. destruct o as [fs]. cbn [with_field field set_field] in *. rewrite dget_dset, str_eqb_refl, Hf. destruct old as [|oo|ll], w as [|ow|lw]; cbn in H1, H2; try contradiction; cbn [fst snd with_field field]; (split; [reflexivity|assumption]).
  - destruct (set_field_with k (clean is_blank none v) n w o N ltac:(congruence)) as [S1 S2]. rewrite S1. destruct (set_field k (clean is_blank none v) o) as [o1 [e|]]; cbn [fst snd] in *; [split; [reflexivity|assumption]|]. destruct (IH o1 old ltac:(congruence) Hc) as [I1 I2]. split; [assumption|congruence].
Qed.
Lemma save_fields_apply m ex cd names W : forall (o : obj V), (forall n w, In (n, w) W -> exists old, field n o = Some old /\ (dget n cd = None \/ nonplain old /\ nonplain w)) ->
  save_fields m ex cd names (apply_w W o) = (apply_w W (fst (save_fields m ex cd names o)), snd (save_fields m ex cd names o)).
Proof.
  induction W as [|[n w] W IH]; intros o H; cbn [apply_w].
  - now destruct (save_fields m ex cd names o).
  - destruct (H n w (or_introl eq_refl)) as (old & Hf & Hc). rewrite IH.
    + destruct (save_fields_with m ex cd n w names o old Hf Hc) as [S _]. rewrite S. reflexivity.
    + intros k x Hk. destruct (H k x (or_intror Hk)) as (old' & Hf' & Hc'). rewrite field_with. destruct (str_eqb_spec n k) as [->|N]; [|eauto]. exists w. split; [reflexivity|]. destruct Hc as [|[]]; [now left|]. destruct Hc' as [|[]]; [now left|]. now right.
Qed.
Lemma save_fields_keys m ex cd : forall names (o : obj V), keys (fst (save_fields m ex cd names o)) = keys o.
Proof.
  induction names as [|k names IH]; intros o; cbn [FormUpdate.save_fields]; [reflexivity|]. destruct (skipped m ex k); [apply IH|]. destruct (dget k cd) as [v|]; [|apply IH].
  assert (K : keys (fst (set_field k (clean is_blank none v) o)) = keys o). { destruct o as [fs]. cbn. destruct (dget k fs) as [[]|] eqn:E; cbn; try reflexivity. apply dset_keys. congruence. }
  destruct (set_field k _ o) as [o1 [e|]]; cbn [fst] in *; [assumption|]. now rewrite IH.
Qed.
Lemma save_fields_plain m ex cd n v : forall names (o o' : obj V), save_fields m ex cd names o = (o', None) -> In n names -> skipped m ex n = false -> dget n cd = Some v ->
  match field n o with Some (VPlain _) | None => True | _ => False end.
Proof.
  induction names as [|k names IH]; intros o o' H Hi Hs Hc; cbn [FormUpdate.save_fields In] in *; [contradiction|]. destruct (skipped m ex k) eqn:Ek.
  { destruct Hi as [->|Hi]; [congruence|]. exact (IH _ _ H Hi Hs Hc). }
  destruct (dget k cd) as [x|] eqn:Ed; [|destruct Hi as [->|Hi]; [congruence|exact (IH _ _ H Hi Hs Hc)]].
  destruct (set_field k (clean is_blank none x) o) as [o1 [e|]] eqn:E1; [discriminate|]. destruct (str_eqb_spec k n) as [->|N].
  - destruct o as [fs]. cbn in E1 |- *. destruct (dget n fs) as [[]|]; try discriminate; exact I.
  - destruct Hi as [E|Hi]; [congruence|]. pose proof (IH _ _ H Hi Hs Hc) as K. rewrite (field_set _ _ _ _ _ n E1 eq_refl) in K. now destruct (field n o) as [[]|].
Qed.
Lemma save_fields_noop m ex cd : forall names (o : obj V), (forall n v, In n names -> skipped m ex n = false -> dget n cd = Some v -> field n o = None \/ field n o = Some (VPlain (clean is_blank none v))) ->
  save_fields m ex cd names o = (o, None).
Proof.
  induction names as [|k names IH]; intros o H; cbn [FormUpdate.save_fields]; [reflexivity|]. assert (H' : save_fields m ex cd names o = (o, None)) by (apply IH; intros n v Hn; apply H; now right).
  destruct (skipped m ex k) eqn:Es; [assumption|]. destruct (dget k cd) as [v|] eqn:Ed; [|assumption].
  assert (S : set_field k (clean is_blank none v) o = (o, None)). { destruct (H k v (or_introl eq_refl) Es Ed) as [K|K]; destruct o as [fs]; cbn in K |- *; rewrite K; [reflexivity|]. now rewrite dset_id. }
  now rewrite S.
Qed.

(** *** saving subforms *)
Lemma upd_subs_with n w : forall l (o : obj V), ~ In n (map fst l) -> field n o <> None ->
  upd_subs l (with_field n w o) = (fst (fst (upd_subs l o)), with_field n w (snd (fst (upd_subs l o))), snd (upd_subs l o)).
Proof.
  induction l as [|[k [own G]] l IH]; intros o Hn Hf; cbn [vupdate_subs map fst In] in *; [reflexivity|]. assert (N : n <> k) by (intros ->; tauto). rewrite field_with. pose proof (proj2 (str_eqb_neq n k) N) as Nb. rewrite Nb.
  destruct (field k o) as [[x|[p|]|x]|] eqn:Ek; try reflexivity.
  - destruct (vupdate G p) as [[G1 p1] [e|]]; cbn [fst snd].
    + rewrite with_comm; [reflexivity|congruence|congruence|assumption].
    + rewrite with_comm by congruence. rewrite IH; [now destruct (upd_subs l _) as [[r o2] x]|tauto|now apply present_with].
  - destruct (vupdate G own) as [[G1 p1] [e|]]; cbn [fst snd]; [reflexivity|]. destruct (empty p1).
    + rewrite IH; [now destruct (upd_subs l _) as [[r o2] x]|tauto|assumption].
    + rewrite with_comm by congruence. rewrite IH; [now destruct (upd_subs l _) as [[r o2] x]|tauto|now apply present_with].
Qed.
Lemma upd_subs_apply W : forall l (o : obj V), (forall n, In n (map fst W) -> ~ In n (map fst l) /\ field n o <> None) ->
  upd_subs l (apply_w W o) = (fst (fst (upd_subs l o)), apply_w W (snd (fst (upd_subs l o))), snd (upd_subs l o)).
Proof.
  induction W as [|[n w] W IH]; intros l o H; cbn [apply_w map fst In] in *; [now destruct (upd_subs l o) as [[? ?] ?]|]. destruct (H n (or_introl eq_refl)) as [H1 H2]. rewrite IH.
  - rewrite (upd_subs_with n w l o H1 H2). reflexivity.
  - intros k Hk. destruct (H k (or_intror Hk)). split; [assumption|]. now apply present_with.
Qed.
Lemma upd_subs_other : forall l (o : obj V) k, ~ In k (map fst l) -> field k (snd (fst (upd_subs l o))) = field k o.
Proof.
  induction l as [|[n [own G]] l IH]; intros o k Hk; cbn [vupdate_subs map fst In] in *; [reflexivity|]. assert (N : str_eqb n k = false) by (apply str_eqb_neq; intros ->; tauto).
  destruct (field n o) as [[x|[p|]|x]|] eqn:En; try reflexivity.
  - destruct (vupdate G p) as [[G1 p1] [e|]]; cbn [fst snd]; [now rewrite field_with, N|].
    specialize (IH (with_field n (VNode (if empty p1 then None else Some p1)) o) k ltac:(tauto)). rewrite field_with, N in IH. now destruct (upd_subs l _) as [[r o2] x].
  - destruct (vupdate G own) as [[G1 p1] [e|]]; cbn [fst snd]; [reflexivity|]. destruct (empty p1).
    + specialize (IH o k ltac:(tauto)). now destruct (upd_subs l _) as [[r o2] x].
    + specialize (IH (with_field n (VNode (Some p1)) o) k ltac:(tauto)). rewrite field_with, N in IH. now destruct (upd_subs l _) as [[r o2] x].
Qed.
Lemma upd_subs_kind : forall l (o : obj V) k, match field k o with Some (VNode _) => exists x, field k (snd (fst (upd_subs l o))) = Some (VNode x) | v => field k (snd (fst (upd_subs l o))) = v end.
Proof.
  induction l as [|[n [own G]] l IH]; intros o k; cbn [vupdate_subs]. { cbn. destruct (field k o) as [[]|]; eauto. }
  destruct (field n o) as [[x|[p|]|x]|] eqn:En; cbn [fst snd]; try (destruct (field k o) as [[]|]; eauto; fail).
  - destruct (vupdate G p) as [[G1 p1] [e|]]; cbn [fst snd].
    + rewrite field_with. destruct (str_eqb_spec n k) as [->|N]; [rewrite En; eauto|]. destruct (field k o) as [[]|]; eauto.
    + specialize (IH (with_field n (VNode (if empty p1 then None else Some p1)) o) k). rewrite field_with in IH. destruct (upd_subs l _) as [[r o2] x]. cbn [fst snd] in *. destruct (str_eqb_spec n k) as [->|N]; [rewrite En|]; assumption.
  - destruct (vupdate G own) as [[G1 p1] [e|]]; cbn [fst snd]; [destruct (field k o) as [[]|]; eauto|]. destruct (empty p1).
    + specialize (IH o k). now destruct (upd_subs l _) as [[r o2] x].
    + specialize (IH (with_field n (VNode (Some p1)) o) k). rewrite field_with in IH. destruct (upd_subs l _) as [[r o2] x]. cbn [fst snd] in *. destruct (str_eqb_spec n k) as [->|N]; [rewrite En|]; assumption.
Qed.
Lemma upd_subs_keys : forall l (o : obj V), keys (snd (fst (upd_subs l o))) = keys o.
Proof.
  induction l as [|[n [own G]] l IH]; intros o; cbn [vupdate_subs]; [reflexivity|].
  destruct (field n o) as [[x|[p|]|x]|] eqn:En; cbn [fst snd]; try reflexivity.
  - destruct (vupdate G p) as [[G1 p1] [e|]]; cbn [fst snd]; [apply keys_with; congruence|]. specialize (IH (with_field n (VNode (if empty p1 then None else Some p1)) o)). rewrite keys_with in IH by congruence. now destruct (upd_subs l _) as [[r o2] x].
  - destruct (vupdate G own) as [[G1 p1] [e|]]; cbn [fst snd]; [reflexivity|]. destruct (empty p1).
    + specialize (IH o). now destruct (upd_subs l _) as [[r o2] x].
    + specialize (IH (with_field n (VNode (Some p1)) o)). rewrite keys_with in IH by congruence. now destruct (upd_subs l _) as [[r o2] x].
Qed.
Lemma upd_subs_names : forall l (o : obj V), map fst (fst (fst (upd_subs l o))) = map fst l.
Proof.
  induction l as [|[n [own G]] l IH]; intros o; cbn [vupdate_subs]; [reflexivity|].
  destruct (field n o) as [[x|[p|]|x]|]; cbn [fst snd map]; try reflexivity.
  - destruct (vupdate G p) as [[G1 p1] [e|]]; cbn [fst snd map]; [reflexivity|]. specialize (IH (with_field n (VNode (if empty p1 then None else Some p1)) o)). destruct (upd_subs l _) as [[r o2] x]. cbn in *. now rewrite IH.
  - destruct (vupdate G own) as [[G1 p1] [e|]]; cbn [fst snd map]; [reflexivity|]. specialize (IH (if empty p1 then o else with_field n (VNode (Some p1)) o)). destruct (upd_subs l _) as [[r o2] x]. cbn in *. now rewrite IH.
Qed.

(** *** saving formsets *)
Lemma save_sets_cons n f r (o : obj V) : save_sets ((n, f) :: r) o = match field n o with Some v => save_sets r (with_field n (f v) o) | None => (o, Some (UNoField n)) end.
Proof.
  unfold save_sets. cbn [fold_left fst snd]. destruct (field n o) as [v|]; [reflexivity|]. induction r as [|x r IH]; [reflexivity|exact IH].
Qed.
Lemma save_sets_with n w : forall l (o : obj V), ~ In n (map fst l) -> field n o <> None ->
  save_sets l (with_field n w o) = (with_field n w (fst (save_sets l o)), snd (save_sets l o)).
Proof.
  induction l as [|[k f] l IH]; intros o Hn Hf; [reflexivity|]. rewrite !save_sets_cons. cbn [map fst In] in Hn. assert (N : n <> k) by (intros ->; tauto). rewrite field_with. pose proof (proj2 (str_eqb_neq n k) N) as Nb. rewrite Nb.
  destruct (field k o) as [v|] eqn:Ek; [|reflexivity]. rewrite with_comm by congruence. apply IH; [tauto|now apply present_with].
Qed.
Lemma save_sets_other : forall l (o : obj V) k, ~ In k (map fst l) -> field k (fst (save_sets l o)) = field k o.
Proof.
  induction l as [|[n f] l IH]; intros o k Hk; [reflexivity|]. rewrite save_sets_cons. cbn [map fst In] in Hk. destruct (field n o) as [v|] eqn:En; [|reflexivity]. rewrite IH by tauto. rewrite field_with. destruct (str_eqb_spec n k) as [->|N]; [exfalso; tauto|reflexivity].
Qed.
Lemma save_sets_keys : forall l (o : obj V), keys (fst (save_sets l o)) = keys o.
Proof.
  induction l as [|[n f] l IH]; intros o; [reflexivity|]. rewrite save_sets_cons. destruct (field n o) as [v|] eqn:En; [|reflexivity]. rewrite IH. apply keys_with. congruence.
Qed.
Lemma upd_sets_names (l : list (str * vset V)) : map fst (upd_sets l) = map fst l.
Proof. rewrite map_map. reflexivity. Qed.
(** what was saved *)
Lemma save_sets_fixed : forall (l : list (str * vset V)) (o o1 : obj V), NoDup (map fst l) -> (forall n s, In (n, s) l -> steady s) -> save_sets (upd_sets l) o = (o1, None) ->
  (forall n s, In (n, s) l -> exists v, field n o = Some v /\ field n o1 = Some (vs_update s v)) /\
  (forall o', (forall n, In n (map fst l) -> field n o' = field n o1) -> save_sets (upd_sets l) o' = (o', None)).
Proof.
  induction l as [|[n s] l IH]; intros o o1 Hn Hs H.
  - split; [intros ? ? []|]. reflexivity.
  - cbn [map fst] in *. inversion Hn as [|? ? Hx Hn']; subst. rewrite save_sets_cons in H. cbn [snd] in H. destruct (field n o) as [v|] eqn:En; [|discriminate].
    destruct (IH _ _ Hn' (fun k t K => Hs k t (or_intror K)) H) as [I1 I2]. pose proof (save_sets_other (upd_sets l) (with_field n (vs_update s v) o) n) as O. rewrite upd_sets_names in O. specialize (O Hx). rewrite H in O. cbn [fst] in O. rewrite field_with, str_eqb_refl in O. split.
    + intros k t [[= <- <-]|K]; [eauto|]. destruct (I1 _ _ K) as (x & X1 & X2). assert (N : str_eqb n k = false). { apply str_eqb_neq. intros ->. apply Hx. now apply (in_map fst) in K. } rewrite field_with, N in X1. eauto.
    + intros o' Ho'. rewrite save_sets_cons. cbn [snd]. rewrite (Ho' n (or_introl eq_refl)), O. destruct (Hs n s (or_introl eq_refl) v) as (_ & S2 & _). rewrite S2. rewrite with_id by (rewrite (Ho' n (or_introl eq_refl)); exact O). apply I2. intros k Hk. apply Ho'. now right.
Qed.

(** *** saving twice *)
Definition again (G : vform) : Prop := forall p G1 p1, vupdate G p = (G1, p1, None) -> vupdate G1 p1 = (G1, p1, None).
Lemma upd_subs_again : forall l (o : obj V) l1 o1, NoDup (map fst l) -> (forall n own G, In (n, (own, G)) l -> again G) -> upd_subs l o = (l1, o1, None) ->
  forall o', (forall n, In n (map fst l) -> field n o' = field n o1) -> upd_subs l1 o' = (l1, o', None).
Proof.
  induction l as [|[n [own G]] l IH]; intros o l1 o1 Hn HG H o' Ho'; cbn [vupdate_subs map fst] in *.
  - injection H as <- <-. reflexivity.
  - inversion Hn as [|? ? Hx Hn']; subst. pose proof (HG n own G (or_introl eq_refl)) as AG. pose proof (fun k ow G K => HG k ow G (or_intror K)) as HG'. destruct (field n o) as [[x|[p|]|x]|] eqn:En; try discriminate.
    + destruct (vupdate G p) as [[G1 p1] [e|]] eqn:E1; [discriminate|]. apply AG in E1. destruct (upd_subs l (with_field n (VNode (if empty p1 then None else Some p1)) o)) as [[r o2] x] eqn:E2. injection H as <- <- ->.
      pose proof (upd_subs_other l (with_field n (VNode (if empty p1 then None else Some p1)) o) n Hx) as F. rewrite E2 in F. cbn [fst snd] in F. rewrite field_with, str_eqb_refl in F. assert (Fo : field n o' = Some (VNode (if empty p1 then None else Some p1))) by (rewrite Ho'; [assumption|now left]).
      assert (R : upd_subs r o' = (r, o', None)) by (exact (IH _ _ _ Hn' HG' E2 o' (fun k K => Ho' k (or_intror K)))).
      cbn [vupdate_subs]. rewrite Fo. destruct (empty p1) eqn:Ee; rewrite E1, Ee; [now rewrite R|]. rewrite with_id by assumption. now rewrite R.
    + destruct (vupdate G own) as [[G1 p1] [e|]] eqn:E1; [discriminate|]. apply AG in E1. destruct (upd_subs l (if empty p1 then o else with_field n (VNode (Some p1)) o)) as [[r o2] x] eqn:E2. injection H as <- <- ->.
      pose proof (upd_subs_other l (if empty p1 then o else with_field n (VNode (Some p1)) o) n Hx) as F. rewrite E2 in F. cbn [fst snd] in F.
      assert (R : upd_subs r o' = (r, o', None)) by (exact (IH _ _ _ Hn' HG' E2 o' (fun k K => Ho' k (or_intror K)))). specialize (Ho' n (or_introl eq_refl)).
      cbn [vupdate_subs]. rewrite Ho', F. destruct (empty p1) eqn:Ee; [rewrite En, E1, Ee, R; reflexivity|]. rewrite field_with, str_eqb_refl. rewrite E1, Ee. rewrite field_with, str_eqb_refl in F. rewrite with_id by congruence. now rewrite R.
Qed.
Lemma vupdate_again : forall F, tidy F -> again F.
Proof.
  induction F as [h subs sets IH] using vform_ind2. intros HT o F1 o1 H. inversion HT as [? ? ? T1 T2 T3 T4 T5 T6]; subst. rewrite vupdate_eq in H. destruct (fields_in_order (h_fields h) o) as [names|] eqn:Eo; [|discriminate].
  destruct (save_fields _ _ _ names o) as [oa [e|]] eqn:Ea; [discriminate|]. destruct (upd_subs subs oa) as [[subs1 ob] [e|]] eqn:Eb; [discriminate|]. destruct (save_sets (upd_sets sets) ob) as [oc x] eqn:Ec. injection H as <- <- ->.
  rewrite vupdate_eq.
  assert (K : keys oc = keys o).
  { pose proof (save_sets_keys (upd_sets sets) ob) as K1. rewrite Ec in K1. pose proof (upd_subs_keys subs oa) as K2. rewrite Eb in K2. pose proof (save_fields_keys (h_fields h) (h_exclude h) (h_cleaned h) names o) as K3. rewrite Ea in K3. cbn [fst snd] in *. congruence. }
  rewrite (fio_keys _ _ _ K), Eo.
  assert (S : save_fields (h_fields h) (h_exclude h) (h_cleaned h) names oc = (oc, None)).
  { apply save_fields_noop. intros n v Hn Hs Hc. pose proof (save_fields_plain _ _ _ n v _ _ _ Ea Hn Hs Hc) as P. pose proof (save_fields_spec is_blank none _ _ _ n _ _ _ Ea) as Q.
    assert (N : ~ In n (map fst (upd_sets sets))). { rewrite upd_sets_names. intros X. apply T4 in X. congruence. }
    pose proof (save_sets_other (upd_sets sets) ob n N) as F. rewrite Ec in F. cbn [fst] in F. rewrite F. pose proof (upd_subs_kind subs oa n) as U. rewrite Eb in U. cbn [fst snd] in U.
    destruct (field n o) as [[x| |]|]; try contradiction.
    - rewrite Q in U. rewrite U. right. rewrite Hc, Hs. apply str_mem_In in Hn. now rewrite Hn.
    - rewrite Q in U. now left. }
  rewrite S.
  assert (Fs : forall n, In n (map fst subs) -> field n oc = field n ob).
  { intros n Hn. pose proof (save_sets_other (upd_sets sets) ob n) as F. rewrite upd_sets_names, Ec in F. cbn [fst] in F. apply F. intros X. exact (T3 _ X Hn). }
  rewrite (upd_subs_again subs oa subs1 ob T1 (fun n own G K0 => IH n own G K0 (T6 n own G K0)) Eb oc Fs).
  destruct (save_sets_fixed sets ob oc T2 T5 Ec) as [_ I2]. rewrite (I2 oc (fun n _ => eq_refl)). reflexivity.
Qed.

(** *** validating saves what saving alone would *)
Definition saves_it (G : vform) : Prop := forall p G1 p1, is_valid G p = (G1, p1, VTrue) -> vupdate G p = (G1, p1, None).
Lemma val_subs_apply : forall l (o : obj V) l1 o1, NoDup (map fst l) -> (forall n own G, In (n, (own, G)) l -> again G /\ saves_it G) -> val_subs l o = (l1, o1, VTrue) ->
  exists W, o1 = apply_w W o /\ (forall n w, In (n, w) W -> In n (map fst l) /\ nonplain w /\ exists old, field n o = Some old /\ nonplain old) /\
    forall o', (forall n, In n (map fst l) -> field n o' = field n o) -> upd_subs l1 (apply_w W o') = upd_subs l o'.
Proof.
  induction l as [|[n [own G]] l IH]; intros o l1 o1 Hn HG H; cbn [valid_subs map fst] in *.
  - injection H as <- <-. exists []. split; [reflexivity|]. split; [intros ? ? []|]. reflexivity.
  - inversion Hn as [|? ? Hx Hn']; subst. destruct (HG n own G (or_introl eq_refl)) as [A1 A2]. pose proof (fun k ow G K => HG k ow G (or_intror K)) as HG'. destruct (field n o) as [[x|[p|]|x]|] eqn:En; try discriminate.
    + destruct (is_valid G p) as [[G1 p1] [| |]] eqn:E1; try discriminate. apply A2 in E1. pose proof (A1 _ _ _ E1) as E1'. destruct (val_subs l (with_field n (VNode (Some p1)) o)) as [[r o2] y] eqn:E2. injection H as <- <- ->.
      destruct (IH _ _ _ Hn' HG' E2) as (W & W1 & W2 & W3). exists ((n, VNode (Some p1)) :: W). split; [exact W1|].
      assert (HWn : ~ In n (map fst W)). { intros X. apply in_map_iff in X. destruct X as ([n' w] & X1 & X2). cbn in X1. subst n'. destruct (W2 _ _ X2) as [X3 _]. contradiction. }
      assert (HWp : forall k, In k (map fst W) -> In k (map fst l) /\ field k o <> None). { intros k X. apply in_map_iff in X. destruct X as ([n' w] & X1 & X2). cbn in X1. subst n'. destruct (W2 _ _ X2) as (X3 & _ & old & X4 & _). split; [assumption|]. intros X5. apply (field_none_with n (VNode (Some p1)) o k) in X5; [congruence|congruence]. }
      split.
      * intros k w [[= <- <-]|K]; [split; [now left|]; split; [exact I|]; exists (VNode (Some p)); split; [assumption|exact I]|]. destruct (W2 _ _ K) as (K1 & K2 & old & K3 & K4). split; [now right|]. split; [assumption|]. assert (N : str_eqb n k = false). { apply str_eqb_neq. intros ->. contradiction. } rewrite field_with, N in K3. eauto.
      * intros o' Ho'. cbn [apply_w vupdate_subs]. rewrite apply_other by assumption. rewrite field_with, str_eqb_refl. rewrite (Ho' n (or_introl eq_refl)), En, E1, E1'.
        assert (Ex : forall X, with_field n X (apply_w W (with_field n (VNode (Some p1)) o')) = apply_w W (with_field n X o')).
        { intros X. rewrite apply_with; [now rewrite with_twice|assumption|rewrite field_with, str_eqb_refl; discriminate|]. intros k K. apply present_with. destruct (HWp k K) as [K1 K2]. rewrite (Ho' k (or_intror K1)). assumption. }
        rewrite Ex. rewrite W3; [reflexivity|]. intros k K. rewrite !field_with. destruct (str_eqb_spec n k) as [->|N]; [contradiction|]. apply Ho'. now right.
    + destruct (is_valid G own) as [[G1 p1] [| |]] eqn:E1; try discriminate. apply A2 in E1. pose proof (A1 _ _ _ E1) as E1'. destruct (val_subs l o) as [[r o2] y] eqn:E2. injection H as <- <- ->.
      destruct (IH _ _ _ Hn' HG' E2) as (W & W1 & W2 & W3). exists W. split; [exact W1|].
      assert (HWn : ~ In n (map fst W)). { intros X. apply in_map_iff in X. destruct X as ([n' w] & X1 & X2). cbn in X1. subst n'. destruct (W2 _ _ X2) as [X3 _]. contradiction. }
      split.
      * intros k w K. destruct (W2 _ _ K) as (K1 & K2). split; [now right|assumption].
      * intros o' Ho'. cbn [vupdate_subs]. rewrite apply_other by assumption. rewrite (Ho' n (or_introl eq_refl)), En, E1, E1'. destruct (empty p1).
        -- rewrite W3; [reflexivity|]. intros k K. apply Ho'. now right.
        -- rewrite apply_with; [|assumption|rewrite (Ho' n (or_introl eq_refl)), En; discriminate|].
           ++ rewrite W3; [reflexivity|]. intros k K. rewrite field_with. destruct (str_eqb_spec n k) as [->|N]; [contradiction|]. apply Ho'. now right.
           ++ intros k K. apply in_map_iff in K. destruct K as ([n' w] & X1 & X2). cbn in X1. subst n'. destruct (W2 _ _ X2) as (X3 & _ & old & X4 & _). rewrite (Ho' k (or_intror X3)). congruence.
Qed.
Lemma val_sets_apply : forall (l : list (str * vset V)) (o o1 : obj V), NoDup (map fst l) -> (forall n s, In (n, s) l -> steady s) -> valid_sets l o = (o1, VTrue) ->
  exists W, o1 = apply_w W o /\ (forall n w, In (n, w) W -> In n (map fst l) /\ field n o <> None) /\
    forall o', (forall n, In n (map fst l) -> field n o' = field n o) -> save_sets (upd_sets l) (apply_w W o') = save_sets (upd_sets l) o'.
Proof.
  induction l as [|[n s] l IH]; intros o o1 Hn Hs H; cbn [valid_sets map fst] in *.
  - injection H as <-. exists []. split; [reflexivity|]. split; [intros ? ? []|]. reflexivity.
  - inversion Hn as [|? ? Hx Hn']; subst. destruct (field n o) as [v|] eqn:En; [|discriminate]. destruct (vs_valid s v) as [v1 b] eqn:Ev. destruct b; [|discriminate].
    destruct (IH _ _ Hn' (fun k t K => Hs k t (or_intror K)) H) as (W & W1 & W2 & W3). exists ((n, v1) :: W). split; [exact W1|].
    assert (HWn : ~ In n (map fst W)). { intros X. apply in_map_iff in X. destruct X as ([n' w] & X1 & X2). cbn in X1. subst n'. destruct (W2 _ _ X2) as [X3 _]. contradiction. }
    assert (HWp : forall k, In k (map fst W) -> In k (map fst l) /\ field k o <> None). { intros k X. apply in_map_iff in X. destruct X as ([n' w] & X1 & X2). cbn in X1. subst n'. destruct (W2 _ _ X2) as (X3 & X4). split; [assumption|]. intros X5. apply (field_none_with n v1 o k) in X5; [congruence|congruence]. }
    split.
    + intros k w [[= <- <-]|K]; [split; [now left|congruence]|]. assert (K' : In k (map fst W)) by now apply (in_map fst) in K. destruct (HWp _ K'). split; [now right|assumption].
    + intros o' Ho'. cbn [apply_w map fst snd]. rewrite !save_sets_cons. rewrite apply_other by assumption. rewrite field_with, str_eqb_refl. rewrite (Ho' n (or_introl eq_refl)), En.
      destruct (Hs n s (or_introl eq_refl) v) as (S1 & _). rewrite Ev in S1. cbn [fst] in S1. rewrite S1.
      rewrite apply_with; [|assumption|rewrite field_with, str_eqb_refl; discriminate|].
      * rewrite with_twice. apply W3. intros k K. rewrite !field_with. destruct (str_eqb_spec n k) as [->|N]; [contradiction|]. apply Ho'. now right.
      * intros k K. apply present_with. destruct (HWp k K) as [K1 K2]. rewrite (Ho' k (or_intror K1)). assumption.
Qed.
Lemma val_subs_names : forall l (o : obj V), map fst (fst (fst (val_subs l o))) = map fst l.
Proof.
  induction l as [|[n [own G]] l IH]; intros o; cbn [valid_subs]; [reflexivity|].
  destruct (field n o) as [[x|[p|]|x]|]; cbn [fst snd map]; try reflexivity.
  - destruct (is_valid G p) as [[G1 p1] [| |]]; cbn [fst snd map]; try reflexivity. specialize (IH (with_field n (VNode (Some p1)) o)). destruct (val_subs l _) as [[r o2] y]. cbn in *. now rewrite IH.
  - destruct (is_valid G own) as [[G1 p1] [| |]]; cbn [fst snd map]; try reflexivity. specialize (IH o). destruct (val_subs l o) as [[r o2] y]. cbn in *. now rewrite IH.
Qed.
(** the state in which update_instance is called gives the same result as the state at the start *)
Lemma prepared h subs sets (o : obj V) subs1 o1 o2 : tidy (VForm h subs sets) -> (forall n own G, In (n, (own, G)) subs -> again G /\ saves_it G) ->
  val_subs subs o = (subs1, o1, VTrue) -> valid_sets sets o1 = (o2, VTrue) ->
  forall F1 o3, vupdate (VForm h subs1 sets) o2 = (F1, o3, None) <-> vupdate (VForm h subs sets) o = (F1, o3, None).
Proof.
  intros HT HG H1 H2 F1 o3. inversion HT as [? ? ? T1 T2 T3 T4 T5 T6]; subst. destruct (val_subs_apply _ _ _ _ T1 HG H1) as (W & -> & W2 & W3). destruct (val_sets_apply _ _ _ T2 T5 H2) as (S & -> & S2 & S3).
  assert (Nm : map fst subs1 = map fst subs) by (rewrite <- (val_subs_names subs o), H1; reflexivity).
  assert (PW : forall k, In k (map fst W) -> In k (map fst subs) /\ exists old, field k o = Some old /\ nonplain old). { intros k X. apply in_map_iff in X. destruct X as ([n' w] & X1 & X2). cbn in X1. subst n'. destruct (W2 _ _ X2) as (X3 & _ & old & X4 & X5). eauto. }
  assert (PS : forall k, In k (map fst S) -> In k (map fst sets) /\ field k o <> None).
  { intros k X. apply in_map_iff in X. destruct X as ([n' w] & X1 & X2). cbn in X1. subst n'. destruct (S2 _ _ X2) as [X3 X4]. split; [assumption|]. rewrite apply_other in X4; [assumption|]. intros X5. destruct (PW _ X5) as [X6 _]. exact (T3 _ X3 X6). }
  rewrite !vupdate_eq. rewrite (fio_keys (h_fields h) (apply_w S (apply_w W o)) o).
  2:{ rewrite apply_keys; [apply apply_keys|]. - intros k K. destruct (PW k K) as (_ & old & K1 & _). congruence. - intros k K. apply apply_present. apply (PS k K). }
  destruct (fields_in_order (h_fields h) o) as [names|]; [|split; discriminate].
  rewrite save_fields_apply.
  2:{ intros n w K. destruct (S2 _ _ K) as [K1 K2]. destruct (field n (apply_w W o)) as [old|] eqn:E; [|congruence]. exists old. split; [reflexivity|]. left. now apply T4. }
  rewrite save_fields_apply.
  2:{ intros n w K. destruct (W2 _ _ K) as (K1 & K2 & old & K3 & K4). exists old. split; [assumption|]. now right. }
  cbn [fst snd]. pose proof (save_fields_spec is_blank none (h_fields h) (h_exclude h) (h_cleaned h)) as SP.
  destruct (save_fields _ _ _ names o) as [oa [e|]] eqn:Ea; cbn [fst snd]; [split; discriminate|].
  specialize (fun k => SP k names o oa Ea).
  assert (Pa : forall k, field k oa = None <-> field k o = None). { intros k. rewrite (SP k). destruct (field k o) as [[]|]; split; congruence. }
  assert (Fsub : forall k x, field k o = Some (VNode x) -> field k oa = Some (VNode x)). { intros k x K. now rewrite (SP k), K. }
  assert (Fset : forall k, In k (map fst sets) -> field k oa = field k o). { intros k K. rewrite (SP k), (T4 k K). destruct (field k o) as [[]|]; try reflexivity. now destruct (_ && _). }
  (* subforms: all of them exist and are node fields *)
  assert (Fall : forall k, In k (map fst subs) -> exists x, field k o = Some (VNode x)).
  { clear -H1 T1. remember (apply_w W o) as oo eqn:Eoo. clear Eoo. revert o subs1 H1. induction subs as [|[n [own G]] l IH]; intros o subs1 H1 k K; [contradiction|]. cbn [valid_subs map fst] in *. inversion T1 as [|? ? Hx T1']; subst. destruct K as [->|K].
    - destruct (field k o) as [[x|x|x]|]; try discriminate; eauto.
    - assert (N : str_eqb n k = false) by (apply str_eqb_neq; intros ->; contradiction). destruct (field n o) as [[x|[p|]|x]|]; try discriminate.
      + destruct (is_valid G p) as [[G1 p1] [| |]]; try discriminate. destruct (val_subs l (with_field n (VNode (Some p1)) o)) as [[r o2] y] eqn:E2. injection H1 as <- E3 ->. subst o2. destruct (IH T1' _ _ E2 k K) as [x X]. rewrite field_with, N in X. eauto.
      + destruct (is_valid G own) as [[G1 p1] [| |]]; try discriminate. destruct (val_subs l o) as [[r o2] y] eqn:E2. injection H1 as <- E3 ->. subst o2. exact (IH T1' _ _ E2 k K). }
  rewrite upd_subs_apply.
  2:{ intros n K. destruct (PS n K) as [K1 K2]. rewrite Nm. split; [exact (T3 _ K1)|]. apply apply_present. now rewrite Pa. }
  rewrite W3. 2:{ intros k K. destruct (Fall k K) as [x X]. rewrite X. now apply Fsub. }
  pose proof (fun k => upd_subs_other subs oa k) as UO.
  destruct (upd_subs subs oa) as [[s1 ob] [e|]] eqn:Eb; cbn [fst snd] in *; [split; discriminate|].
  rewrite S3; [reflexivity|]. intros k K. rewrite UO by exact (T3 _ K). rewrite (Fset k K). rewrite apply_other; [reflexivity|]. intros X. destruct (PW _ X) as [X6 _]. exact (T3 _ K X6).
Qed.
Lemma vupdate_head h subs sets (o : obj V) F1 o1 x : vupdate (VForm h subs sets) o = (F1, o1, x) -> exists subs1, F1 = VForm h subs1 sets.
Proof.
  rewrite vupdate_eq. destruct (fields_in_order _ o); [|intros [= <- <- <-]; eauto]. destruct (save_fields _ _ _ _ o) as [oa [e|]]; [intros [= <- <- <-]; eauto|]. destruct (upd_subs subs oa) as [[s1 ob] [e|]]; [intros [= <- <- <-]; eauto|]. destruct (save_sets _ ob). intros [= <- <- <-]. eauto.
Qed.
Lemma valid_saves : forall F, tidy F -> saves_it F.
Proof.
  induction F as [h subs sets IH] using vform_ind2. intros HT o F1 o1 H. assert (HG : forall n own G, In (n, (own, G)) subs -> again G /\ saves_it G). { inversion HT; subst. intros n own G K. split; [apply vupdate_again|apply (IH n own G K)]; eauto. }
  rewrite is_valid_eq in H. destruct (h_ok h); [|discriminate]. destruct (val_subs subs o) as [[subs1 oa] [| |]] eqn:E1; try discriminate. destruct (valid_sets sets oa) as [ob [| |]] eqn:E2; try discriminate.
  destruct (vupdate (VForm h subs1 sets) ob) as [[[h1 subs2 sets1] oc] [e|]] eqn:E3; [discriminate|]. destruct (h_check h1 oc); [|discriminate]. injection H as <- <-. now apply (prepared h subs sets o subs1 oa ob HT HG E1 E2).
Qed.

(** *** what acceptance means *)
Lemma val_subs_fields : forall l (o : obj V) l1 o1 x k, val_subs l o = (l1, o1, x) -> ~ In k (map fst l) -> field k o1 = field k o.
Proof.
  induction l as [|[n [own G]] l IH]; intros o l1 o1 x k H Hk; cbn [valid_subs map fst In] in *; [now injection H as <- <- <-|]. assert (N : str_eqb n k = false) by (apply str_eqb_neq; intros ->; tauto).
  destruct (field n o) as [[v|[p|]|v]|]; try (injection H as <- <- <-; reflexivity).
  - destruct (is_valid G p) as [[G1 p1] [| |]]; try (injection H as <- <- <-; rewrite field_with, N; reflexivity). destruct (val_subs l (with_field n (VNode (Some p1)) o)) as [[r o2] y] eqn:E2. injection H as <- <- <-. rewrite (IH _ _ _ _ k E2) by tauto. now rewrite field_with, N.
  - destruct (is_valid G own) as [[G1 p1] [| |]]; try (injection H as <- <- <-; reflexivity). destruct (val_subs l o) as [[r o2] y] eqn:E2. injection H as <- <- <-. apply (IH _ _ _ _ k E2). tauto.
Qed.
Lemma valid_sets_fields : forall (l : list (str * vset V)) (o o1 : obj V) x k, valid_sets l o = (o1, x) -> ~ In k (map fst l) -> field k o1 = field k o.
Proof.
  induction l as [|[n s] l IH]; intros o o1 x k H Hk; cbn [valid_sets map fst In] in *; [now injection H as <- <-|]. assert (N : str_eqb n k = false) by (apply str_eqb_neq; intros ->; tauto).
  destruct (field n o) as [v|]; [|now injection H as <- <-]. destruct (vs_valid s v) as [v1 [|]].
  - rewrite (IH _ _ _ k H) by tauto. now rewrite field_with, N.
  - injection H as <- <-. now rewrite field_with, N.
Qed.
Lemma val_subs_true : forall l (o : obj V), NoDup (map fst l) -> ((exists l1 o1, val_subs l o = (l1, o1, VTrue)) <->
  forall n own G, In (n, (own, G)) l -> exists p, sub_object o own n p /\ exists G1 p1, is_valid G p = (G1, p1, VTrue)).
Proof.
  induction l as [|[n [own G]] l IH]; intros o Hn; cbn [valid_subs map fst] in *.
  - split; [intros _ ? ? ? []|eauto].
  - inversion Hn as [|? ? Hx Hn']; subst. split.
    + intros (l1 & o1 & H) k ow K [[= <- <- <-]|HK].
      * destruct (field n o) as [[v|[p|]|v]|] eqn:En; try discriminate.
        -- destruct (is_valid G p) as [[G1 p1] [| |]] eqn:E1; try discriminate. exists p. split; [now left|eauto].
        -- destruct (is_valid G own) as [[G1 p1] [| |]] eqn:E1; try discriminate. exists own. split; [right; auto|eauto].
      * assert (N : str_eqb n k = false). { apply str_eqb_neq. intros ->. apply Hx. apply (in_map fst) in HK. exact HK. }
        destruct (field n o) as [[v|[p|]|v]|] eqn:En; try discriminate.
        -- destruct (is_valid G p) as [[G1 p1] [| |]] eqn:E1; try discriminate. destruct (val_subs l (with_field n (VNode (Some p1)) o)) as [[r o2] y] eqn:E2. injection H as <- <- ->. destruct (proj1 (IH _ Hn') ltac:(eauto) k ow K HK) as (q & Q1 & Q2). exists q. split; [|assumption]. unfold sub_object in *. now rewrite field_with, N in Q1.
        -- destruct (is_valid G own) as [[G1 p1] [| |]] eqn:E1; try discriminate. destruct (val_subs l o) as [[r o2] y] eqn:E2. injection H as <- <- ->. exact (proj1 (IH _ Hn') ltac:(eauto) k ow K HK).
    + intros H. destruct (H n own G (or_introl eq_refl)) as (p & Hp & G1 & p1 & E1). destruct Hp as [Hp|[Hp ->]]; rewrite Hp, E1.
      * destruct (proj2 (IH (with_field n (VNode (Some p1)) o) Hn')) as (r & o2 & E2).
        { intros k ow K HK. destruct (H k ow K (or_intror HK)) as (q & Q1 & Q2). exists q. split; [|assumption]. assert (N : str_eqb n k = false). { apply str_eqb_neq. intros ->. apply Hx. apply (in_map fst) in HK. exact HK. } unfold sub_object in *. now rewrite field_with, N. }
        rewrite E2. eauto.
      * destruct (proj2 (IH o Hn')) as (r & o2 & E2). { intros k ow K HK. exact (H k ow K (or_intror HK)). } rewrite E2. eauto.
Qed.
Lemma valid_sets_true : forall (l : list (str * vset V)) (o : obj V), NoDup (map fst l) -> ((exists o1, valid_sets l o = (o1, VTrue)) <->
  forall n s, In (n, s) l -> exists v, field n o = Some v /\ snd (vs_valid s v) = true).
Proof.
  induction l as [|[n s] l IH]; intros o Hn; cbn [valid_sets map fst] in *.
  - split; [intros _ ? ? []|eauto].
  - inversion Hn as [|? ? Hx Hn']; subst. split.
    + intros (o1 & H) k t. destruct (field n o) as [v|] eqn:En; [|discriminate]. destruct (vs_valid s v) as [v1 [|]] eqn:Ev; [|discriminate]. intros [[= <- <-]|HK].
      * exists v. now rewrite Ev.
      * destruct (proj1 (IH _ Hn') ltac:(eauto) k t HK) as (w & Q1 & Q2). assert (N : str_eqb n k = false). { apply str_eqb_neq. intros ->. apply Hx. apply (in_map fst) in HK. exact HK. } rewrite field_with, N in Q1. eauto.
    + intros H. destruct (H n s (or_introl eq_refl)) as (v & Hv & Hb). rewrite Hv. destruct (vs_valid s v) as [v1 b]. cbn in Hb. subst b. apply (IH (with_field n v1 o) Hn'). intros k t HK. destruct (H k t (or_intror HK)) as (w & Q1 & Q2). exists w. split; [|assumption]. assert (N : str_eqb n k = false). { apply str_eqb_neq. intros ->. apply Hx. apply (in_map fst) in HK. exact HK. } now rewrite field_with, N.
Qed.

(** ** C76: is_valid is True exactly for an acceptable submission, and the object is then as update_instance leaves it *)
Theorem C76_true_iff_acceptable : forall F (o : obj V), tidy F -> ((exists F1 o1, is_valid F o = (F1, o1, VTrue)) <-> acceptable F o).
Proof.
  induction F as [h subs sets IH] using vform_ind2. intros o HT. inversion HT as [? ? ? T1 T2 T3 T4 T5 T6]; subst.
  assert (HG : forall n own G, In (n, (own, G)) subs -> again G /\ saves_it G). { intros n own G K. split; [apply vupdate_again|apply valid_saves]; eauto. }
  assert (Fs : forall subs1 oa x, val_subs subs o = (subs1, oa, x) -> forall n, In n (map fst sets) -> field n oa = field n o). { intros subs1 oa x E n K. apply (val_subs_fields _ _ _ _ _ n E). exact (T3 _ K). }
  rewrite is_valid_eq. split.
  - intros (F1 & o1 & H). destruct (h_ok h) eqn:Eh; [|discriminate]. destruct (val_subs subs o) as [[subs1 oa] [| |]] eqn:E1; try discriminate. destruct (valid_sets sets oa) as [ob [| |]] eqn:E2; try discriminate.
    destruct (vupdate (VForm h subs1 sets) ob) as [[[h1 subs2 sets1] oc] [e|]] eqn:E3; [discriminate|]. destruct (h_check h1 oc) eqn:E4; [|discriminate]. injection H as <- <-. destruct (vupdate_head _ _ _ _ _ _ _ E3) as [s' [= -> -> ->]].
    apply (Acceptable h subs sets o oc Eh).
    + intros n own G K. destruct (proj1 (val_subs_true subs o T1) ltac:(eauto) n own G K) as (p & P1 & P2). exists p. split; [assumption|]. apply (IH n own G K p (T6 n own G K)). exact P2.
    + intros n s K. destruct (proj1 (valid_sets_true sets oa T2) ltac:(eauto) n s K) as (v & V1 & V2). exists v. split; [|assumption]. rewrite <- (Fs _ _ _ eq_refl n); [assumption|]. apply (in_map fst) in K. exact K.
    + apply saved_vupdate. eexists. apply (prepared h subs sets o subs1 oa ob HT HG E1 E2). exact E3.
    + assumption.
  - intros H. inversion H as [? ? ? ? o1 A1 A2 A3 A4 A5]; subst. rewrite A1. destruct (proj2 (val_subs_true subs o T1)) as (subs1 & oa & E1).
    { intros n own G K. destruct (A2 n own G K) as (p & P1 & P2). exists p. split; [assumption|]. apply (IH n own G K p (T6 n own G K)). exact P2. }
    rewrite E1. destruct (proj2 (valid_sets_true sets oa T2)) as (ob & E2).
    { intros n s K. destruct (A3 n s K) as (v & V1 & V2). exists v. split; [|assumption]. rewrite (Fs _ _ _ E1 n); [assumption|]. apply (in_map fst) in K. exact K. }
    rewrite E2. apply saved_vupdate in A4. destruct A4 as [F1 A4]. apply (prepared h subs sets o subs1 oa ob HT HG E1 E2) in A4. rewrite A4. destruct (vupdate_head _ _ _ _ _ _ _ A4) as [s' ->]. rewrite A5. eauto.
Qed.
Theorem C76_true_saved : forall F F1 (o o1 : obj V), tidy F -> is_valid F o = (F1, o1, VTrue) -> saved F o o1 /\ saved F1 o1 o1.
Proof.
  intros F F1 o o1 HT H. apply (valid_saves F HT) in H. split; apply saved_vupdate; [eauto|]. exists F1. exact (vupdate_again F HT _ _ _ H).
Qed.

(** ** asking again gives the same answer and changes nothing *)
Definition stable_answer (G : vform) : Prop := forall p G1 p1 x, is_valid G p = (G1, p1, x) -> x = VTrue \/ x = VFalse -> is_valid G1 p1 = (G1, p1, x).
Lemma val_subs_again : forall l (o : obj V) l1 o1 x, NoDup (map fst l) -> (forall n own G, In (n, (own, G)) l -> stable_answer G) -> val_subs l o = (l1, o1, x) -> x = VTrue \/ x = VFalse ->
  forall o', (forall n, In n (map fst l) -> field n o' = field n o1) -> val_subs l1 o' = (l1, o', x).
Proof.
  induction l as [|[n [own G]] l IH]; intros o l1 o1 x Hn HG H Hx' o' Ho'; cbn [valid_subs map fst] in *.
  - injection H as <- <- <-. reflexivity.
  - inversion Hn as [|? ? Hx Hn']; subst. pose proof (HG n own G (or_introl eq_refl)) as AG. pose proof (fun k ow G K => HG k ow G (or_intror K)) as HG'. destruct (field n o) as [[v|[p|]|v]|] eqn:En; try (injection H as <- <- <-; destruct Hx'; discriminate).
    + destruct (is_valid G p) as [[G1 p1] y] eqn:E1. destruct y.
      * pose proof (AG _ _ _ _ E1 (or_introl eq_refl)) as E1'. destruct (val_subs l (with_field n (VNode (Some p1)) o)) as [[r o2] y] eqn:E2. injection H as <- <- <-.
        pose proof (val_subs_fields _ _ _ _ _ n E2 Hx) as F. rewrite field_with, str_eqb_refl in F. assert (Fo : field n o' = Some (VNode (Some p1))) by (rewrite Ho'; [assumption|now left]).
        cbn [valid_subs]. rewrite Fo, E1'. rewrite with_id by assumption. rewrite (IH _ _ _ _ Hn' HG' E2 Hx' o' (fun k K => Ho' k (or_intror K))). reflexivity.
      * injection H as <- <- <-. pose proof (AG _ _ _ _ E1 (or_intror eq_refl)) as E1'. cbn [valid_subs]. rewrite (Ho' n (or_introl eq_refl)), field_with, str_eqb_refl, E1'. rewrite with_id; [reflexivity|]. rewrite (Ho' n (or_introl eq_refl)), field_with, str_eqb_refl. reflexivity.
      * injection H as <- <- <-. destruct Hx'; discriminate.
    + destruct (is_valid G own) as [[G1 p1] y] eqn:E1. destruct y.
      * pose proof (AG _ _ _ _ E1 (or_introl eq_refl)) as E1'. destruct (val_subs l o) as [[r o2] y] eqn:E2. injection H as <- <- <-.
        pose proof (val_subs_fields _ _ _ _ _ n E2 Hx) as F. assert (Fo : field n o' = Some (VNode None)) by (rewrite Ho'; [congruence|now left]).
        cbn [valid_subs]. rewrite Fo, E1'. rewrite (IH _ _ _ _ Hn' HG' E2 Hx' o' (fun k K => Ho' k (or_intror K))). reflexivity.
      * injection H as <- <- <-. pose proof (AG _ _ _ _ E1 (or_intror eq_refl)) as E1'. cbn [valid_subs]. rewrite (Ho' n (or_introl eq_refl)), En, E1'. reflexivity.
      * injection H as <- <- <-. destruct Hx'; discriminate.
Qed.
Lemma valid_sets_again : forall (l : list (str * vset V)) (o o1 : obj V) x, NoDup (map fst l) -> (forall n s, In (n, s) l -> steady s) -> valid_sets l o = (o1, x) -> x = VTrue \/ x = VFalse ->
  forall o', (forall n, In n (map fst l) -> field n o' = field n o1) -> valid_sets l o' = (o', x).
Proof.
  induction l as [|[n s] l IH]; intros o o1 x Hn Hs H Hx' o' Ho'; cbn [valid_sets map fst] in *.
  - injection H as <- <-. reflexivity.
  - inversion Hn as [|? ? Hx Hn']; subst. destruct (field n o) as [v|] eqn:En; [|injection H as <- <-; destruct Hx'; discriminate]. destruct (Hs n s (or_introl eq_refl) v) as (_ & _ & S3 & _). destruct (vs_valid s v) as [v1 [|]] eqn:Ev; cbn [fst] in S3.
    + pose proof (valid_sets_fields _ _ _ _ n H Hx) as F. rewrite field_with, str_eqb_refl in F. assert (Fo : field n o' = Some v1) by (rewrite Ho'; [assumption|now left]). rewrite Fo, S3. rewrite with_id by assumption. exact (IH _ _ _ Hn' (fun k t K => Hs k t (or_intror K)) H Hx' o' (fun k K => Ho' k (or_intror K))).
    + injection H as <- <-. assert (Fo : field n o' = Some v1) by (rewrite Ho'; [rewrite field_with, str_eqb_refl; reflexivity|now left]). rewrite Fo, S3. now rewrite with_id.
Qed.
(** after the subforms and formsets have been saved too *)
Lemma val_subs_saved : forall l (o : obj V) l1 oa ob l2 oc, NoDup (map fst l) -> (forall n own G, In (n, (own, G)) l -> stable_answer G /\ again G /\ saves_it G) ->
  val_subs l o = (l1, oa, VTrue) -> (forall n, In n (map fst l) -> field n ob = field n oa) -> upd_subs l1 ob = (l2, oc, None) ->
  forall o', (forall n, In n (map fst l) -> field n o' = field n oc) -> val_subs l2 o' = (l2, o', VTrue).
Proof.
  induction l as [|[n [own G]] l IH]; intros o l1 oa ob l2 oc Hn HG H Hb HU o' Ho'; cbn [valid_subs map fst] in *.
  - injection H as <- <-. cbn in HU. injection HU as <- <-. reflexivity.
  - inversion Hn as [|? ? Hx Hn']; subst. destruct (HG n own G (or_introl eq_refl)) as (A1 & A2 & A3). pose proof (fun k ow G K => HG k ow G (or_intror K)) as HG'. destruct (field n o) as [[v|[p|]|v]|] eqn:En; try discriminate.
    + destruct (is_valid G p) as [[G1 p1] [| |]] eqn:E1; try discriminate. pose proof (A1 _ _ _ _ E1 (or_introl eq_refl)) as V1. pose proof (A2 _ _ _ (A3 _ _ _ E1)) as U1. destruct (val_subs l (with_field n (VNode (Some p1)) o)) as [[r o2] y] eqn:E2. injection H as <- <- ->.
      pose proof (val_subs_fields _ _ _ _ _ n E2 Hx) as F. rewrite field_with, str_eqb_refl in F. cbn [vupdate_subs] in HU. rewrite (Hb n (or_introl eq_refl)), F, U1 in HU.
      assert (Hxr : ~ In n (map fst r)). { replace (map fst r) with (map fst l); [assumption|]. rewrite <- (val_subs_names l (with_field n (VNode (Some p1)) o)), E2. reflexivity. }
      pose proof (upd_subs_other r (with_field n (VNode (if empty p1 then None else Some p1)) ob) n Hxr) as F2. destruct (upd_subs r (with_field n (VNode (if empty p1 then None else Some p1)) ob)) as [[r2 o3] z] eqn:E3. injection HU as <- <- ->. cbn [fst snd] in F2. rewrite field_with, str_eqb_refl in F2.
      assert (R : val_subs r2 o' = (r2, o', VTrue)).
      { refine (IH _ _ _ _ _ _ Hn' HG' E2 _ E3 o' (fun k K => Ho' k (or_intror K))). intros k K. rewrite field_with. destruct (str_eqb_spec n k) as [->|N]; [contradiction|]. apply Hb. now right. }
      assert (Fo : field n o' = Some (VNode (if empty p1 then None else Some p1))) by (rewrite Ho'; [assumption|now left]). cbn [valid_subs]. rewrite Fo. destruct (empty p1) eqn:Ee; rewrite V1; [now rewrite R|]. rewrite with_id by assumption. now rewrite R.
    + destruct (is_valid G own) as [[G1 p1] [| |]] eqn:E1; try discriminate. pose proof (A1 _ _ _ _ E1 (or_introl eq_refl)) as V1. pose proof (A2 _ _ _ (A3 _ _ _ E1)) as U1. destruct (val_subs l o) as [[r o2] y] eqn:E2. injection H as <- <- ->.
      pose proof (val_subs_fields _ _ _ _ _ n E2 Hx) as F. cbn [vupdate_subs] in HU. rewrite (Hb n (or_introl eq_refl)), F, En, U1 in HU.
      assert (Hxr : ~ In n (map fst r)). { replace (map fst r) with (map fst l); [assumption|]. rewrite <- (val_subs_names l o), E2. reflexivity. }
      pose proof (upd_subs_other r (if empty p1 then ob else with_field n (VNode (Some p1)) ob) n Hxr) as F2. destruct (upd_subs r (if empty p1 then ob else with_field n (VNode (Some p1)) ob)) as [[r2 o3] z] eqn:E3. injection HU as <- <- ->. cbn [fst snd] in F2.
      assert (R : val_subs r2 o' = (r2, o', VTrue)).
      { refine (IH _ _ _ _ _ _ Hn' HG' E2 _ E3 o' (fun k K => Ho' k (or_intror K))). intros k K. destruct (empty p1); [apply Hb; now right|]. rewrite field_with. destruct (str_eqb_spec n k) as [->|N]; [contradiction|]. apply Hb. now right. }
      specialize (Ho' n (or_introl eq_refl)). rewrite F2 in Ho'. cbn [valid_subs]. destruct (empty p1) eqn:Ee.
      * rewrite Ho', (Hb n (or_introl eq_refl)), F, En, V1. now rewrite R.
      * rewrite field_with, str_eqb_refl in Ho'. rewrite Ho', V1. rewrite with_id by assumption. now rewrite R.
Qed.
Theorem C76_same_answer : forall F F1 (o o1 : obj V) x, tidy F -> is_valid F o = (F1, o1, x) -> x = VTrue \/ x = VFalse -> is_valid F1 o1 = (F1, o1, x).
Proof.
  assert (A : forall F, tidy F -> stable_answer F); [|intros F F1 o o1 x HT; exact (A F HT o F1 o1 x)].
  induction F as [h subs sets IH] using vform_ind2. intros HT o F1 o1 x H Hx. inversion HT as [? ? ? T1 T2 T3 T4 T5 T6]; subst.
  assert (HG : forall n own G, In (n, (own, G)) subs -> stable_answer G /\ again G /\ saves_it G). { intros n own G K. split; [apply (IH n own G K); eauto|]. split; [apply vupdate_again|apply valid_saves]; eauto. }
  rewrite is_valid_eq in H. destruct (h_ok h) eqn:Eh.
  2:{ injection H as <- <- <-. rewrite is_valid_eq, Eh. reflexivity. }
  destruct (val_subs subs o) as [[subs1 oa] y] eqn:E1. destruct y.
  2:{ injection H as <- <- <-. rewrite is_valid_eq, Eh. rewrite (val_subs_again _ _ _ _ _ T1 (fun n own G K => proj1 (HG n own G K)) E1 Hx oa (fun _ _ => eq_refl)). reflexivity. }
  2:{ injection H as <- <- <-. destruct Hx; discriminate. }
  destruct (valid_sets sets oa) as [ob y] eqn:E2.
  assert (Fb : forall n, In n (map fst subs) -> field n ob = field n oa). { intros n K. apply (valid_sets_fields _ _ _ _ n E2). intros X. exact (T3 _ X K). }
  destruct y.
  2:{ injection H as <- <- <-. rewrite is_valid_eq, Eh. rewrite (val_subs_again _ _ _ _ _ T1 (fun n own G K => proj1 (HG n own G K)) E1 (or_introl eq_refl) ob Fb). rewrite (valid_sets_again _ _ _ _ T2 T5 E2 Hx ob (fun _ _ => eq_refl)). reflexivity. }
  2:{ injection H as <- <- <-. destruct Hx; discriminate. }
  destruct (vupdate (VForm h subs1 sets) ob) as [[F2 oc] z] eqn:E3. destruct (vupdate_head _ _ _ _ _ _ _ E3) as [subs2 ->]. destruct z as [e|].
  { injection H as <- <- <-. destruct Hx; discriminate. }
  destruct (h_check h oc) eqn:Ec.
  2:{ injection H as <- <- <-. rewrite is_valid_eq. reflexivity. }
  injection H as <- <- <-. pose proof (vupdate_again (VForm h subs sets) HT o _ _ (proj1 (prepared h subs sets o subs1 oa ob HT (fun n own G K => proj2 (HG n own G K)) E1 E2 _ _) E3)) as Again.
  pose proof E3 as E3'. rewrite vupdate_eq in E3'. destruct (fields_in_order (h_fields h) ob) as [names|]; [|discriminate]. destruct (save_fields _ _ _ names ob) as [od [e|]] eqn:Ed; [discriminate|]. destruct (upd_subs subs1 od) as [[s2 oe] [e|]] eqn:Ee; [discriminate|]. destruct (save_sets (upd_sets sets) oe) as [og y] eqn:Eg. injection E3' as -> -> ->.
  assert (SPd := fun k => save_fields_spec is_blank none (h_fields h) (h_exclude h) (h_cleaned h) k names ob od Ed).
  assert (Nm : map fst subs1 = map fst subs) by (rewrite <- (val_subs_names subs o), E1; reflexivity).
  assert (Fall : forall k, In k (map fst subs) -> exists x, field k oa = Some (VNode x)).
  { intros k K. pose proof (fun k => upd_subs_kind subs1 od k) as UK. rewrite Ee in UK. cbn [fst snd] in UK. clear -is_blank none empty E1 T1 K. revert o subs1 E1. induction subs as [|[n [own G]] l IH]; intros o subs1 H1; [contradiction|]. cbn [valid_subs map fst] in *. inversion T1 as [|? ? Hx T1']; subst.
    destruct (field n o) as [[x|[p|]|x]|] eqn:En; try discriminate.
    - destruct (is_valid G p) as [[G1 p1] [| |]]; try discriminate. destruct (val_subs l (with_field n (VNode (Some p1)) o)) as [[r o2] y] eqn:E2. injection H1 as <- E3 ->. subst o2. destruct K as [->|K]; [|exact (IH T1' K _ _ E2)]. rewrite (val_subs_fields _ _ _ _ _ k E2 Hx), field_with, str_eqb_refl. eauto.
    - destruct (is_valid G own) as [[G1 p1] [| |]]; try discriminate. destruct (val_subs l o) as [[r o2] y] eqn:E2. injection H1 as <- E3 ->. subst o2. destruct K as [->|K]; [|exact (IH T1' K _ _ E2)]. rewrite (val_subs_fields _ _ _ _ _ k E2 Hx), En. eauto. }
  assert (Fod : forall n, In n (map fst subs) -> field n od = field n oa). { intros n K. destruct (Fall n K) as [x X]. rewrite (SPd n), (Fb n K), X. reflexivity. }
  assert (Foc : forall n, In n (map fst subs) -> field n oc = field n oe). { intros n K. pose proof (save_sets_other (upd_sets sets) oe n) as Fx. rewrite upd_sets_names, Eg in Fx. cbn [fst] in Fx. apply Fx. intros X. exact (T3 _ X K). }
  rewrite is_valid_eq, Eh. rewrite (val_subs_saved subs o subs1 oa od subs2 oe T1 HG E1 Fod Ee oc Foc).
  assert (Vs : valid_sets sets oc = (oc, VTrue)).
  { destruct (save_sets_fixed sets oe oc T2 T5 Eg) as [I1 _]. pose proof (proj1 (valid_sets_true sets oa T2) ltac:(eauto)) as Vt.
    assert (Each : forall n s, In (n, s) sets -> exists v, field n oc = Some v /\ vs_valid s v = (v, true)).
    { intros n s K. destruct (I1 n s K) as (v & X1 & X2). assert (Kn : In n (map fst sets)) by (apply (in_map fst) in K; exact K). destruct (Vt n s K) as (v0 & Y1 & Y2). exists (vs_update s v). split; [assumption|]. destruct (T5 n s K v) as (_ & _ & _ & S4). rewrite S4.
      (* v is what validation left *)
      assert (Ev : v = fst (vs_valid s v0)).
      { assert (Fv : field n oe = field n ob). { pose proof (upd_subs_other subs1 od n) as Ux. rewrite Ee in Ux. cbn [fst snd] in Ux. rewrite Ux by (rewrite Nm; exact (T3 _ Kn)). rewrite (SPd n), (T4 n Kn). destruct (field n ob) as [[]|]; try reflexivity. now destruct (_ && _). }
        rewrite X1 in Fv. clear -is_blank none empty Fv E2 T2 K Y1. revert oa E2 Y1. induction sets as [|[k t] l IHl]; intros oa E2 Y1; [contradiction|]. cbn [valid_sets map fst] in *. inversion T2 as [|? ? Hk T2']; subst. destruct K as [[= -> ->]|K].
        - rewrite Y1 in E2. destruct (vs_valid s v0) as [v1 [|]]; [|discriminate]. pose proof (valid_sets_fields _ _ _ _ n E2 Hk) as Z. rewrite field_with, str_eqb_refl in Z. cbn. congruence.
        - destruct (field k oa) as [w|] eqn:Ek; [|discriminate]. destruct (vs_valid t w) as [w1 [|]]; [|discriminate]. apply (IHl T2' K _ E2). rewrite field_with. assert (N : str_eqb k n = false). { apply str_eqb_neq. intros ->. apply Hk. apply (in_map fst) in K. exact K. } now rewrite N. }
      destruct (T5 n s K v0) as (_ & _ & S3 & _). rewrite Ev, S3. cbn [snd fst] in *. now rewrite Y2. }
    clear -is_blank none empty Each T2. induction sets as [|[k t] l IHl]; [reflexivity|]. cbn [valid_sets map fst] in *. inversion T2; subst. destruct (Each k t (or_introl eq_refl)) as (v & X1 & X2). rewrite X1, X2. rewrite with_id by assumption. apply IHl; [assumption|]. intros n s K. apply Each. now right. }
  rewrite Vs, Again, Ec. reflexivity.
Qed.

(** ** a form with errors of its own writes nothing, whatever its subforms are *)
Theorem C76_own_errors_write_nothing : forall h subs sets (o : obj V), h_ok h = false -> is_valid (VForm h subs sets) o = (VForm h subs sets, o, VFalse).
Proof. intros h subs sets o H. rewrite is_valid_eq, H. reflexivity. Qed.
(** ** if only the schema is against it, the answer is False and the object has been updated all the same *)
Theorem C76_schema_error_saved : forall h subs sets (o o1 : obj V), tidy (VForm h subs sets) ->
  acceptable (VForm (mkHead (h_fields h) (h_exclude h) (h_ok h) (h_cleaned h) (fun _ => true)) subs sets) o ->
  saved (VForm h subs sets) o o1 -> h_check h o1 = false -> exists F1, is_valid (VForm h subs sets) o = (F1, o1, VFalse).
Proof.
  intros h subs sets o o1 HT HA HS HC. inversion HA as [? ? ? ? o2 A1 A2 A3 A4 A5]; subst. inversion HT as [? ? ? T1 T2 T3 T4 T5 T6]; subst.
  assert (HG : forall n own G, In (n, (own, G)) subs -> again G /\ saves_it G). { intros n own G K. split; [apply vupdate_again|apply valid_saves]; eauto. }
  rewrite is_valid_eq. cbn [h_ok] in A1. rewrite A1. destruct (proj2 (val_subs_true subs o T1)) as (subs1 & oa & E1).
  { intros n own G K. destruct (A2 n own G K) as (p & P1 & P2). exists p. split; [assumption|]. apply C76_true_iff_acceptable; eauto. }
  rewrite E1. destruct (proj2 (valid_sets_true sets oa T2)) as (ob & E2).
  { intros n s K. destruct (A3 n s K) as (v & V1 & V2). exists v. split; [|assumption]. rewrite (val_subs_fields _ _ _ _ _ n E1); [assumption|]. apply T3. apply (in_map fst) in K. exact K. }
  rewrite E2. apply saved_vupdate in HS. destruct HS as [F1 HS]. apply (prepared h subs sets o subs1 oa ob HT HG E1 E2) in HS. rewrite HS. destruct (vupdate_head _ _ _ _ _ _ _ HS) as [s' ->]. rewrite HC. eauto.
Qed.
End Spec.

(** ** Concrete cases: a record with a title, two parts and a list of names *)
Definition v_part : obj (option str) := Obj [(u "label", VPlain None); (u "rank", VPlain None)].
Definition v_rec : obj (option str) :=
  Obj [(u "title", VPlain (Some (u "A"))); (u "one", VNode (Some v_part)); (u "two", VNode (Some v_part)); (u "name", VPlain (Some (u "x")))].
Definition v_head (ok : bool) (cd : list (str * option str)) : vhead (option str) := mkHead MAbsent ANone ok cd (fun _ => true).
(** a formset for a list of strings: always valid, replaces the list *)
Definition v_set : vset (option str) := mkVSet (fun v => (v, true)) (fun _ => VPlain (Some (u "y"))).
Definition v_form (ok1 ok2 : bool) : vform (option str) :=
  VForm (v_head true [(u "title", Some (u "B"))])
    [(u "one", (v_part, VForm (v_head ok1 [(u "label", Some (u "l")); (u "rank", Some (u "1"))]) [] []));
     (u "two", (v_part, VForm (v_head ok2 [(u "label", Some []); (u "rank", Some [])]) [] []))]
    [(u "name", v_set)].
Lemma v_tidy a b : tidy (v_form a b).
Proof.
  constructor.
  - constructor; [|constructor; [intros []|constructor]]. intros [H|[]]. revert H. vm_compute. discriminate.
  - constructor; [intros []|constructor].
  - intros k [<-|[]]. vm_compute. intuition discriminate.
  - intros k [<-|[]]. vm_compute. reflexivity.
  - intros n s [[= <- <-]|[]] v. cbn. auto.
  - intros n own G [[= <- <- <-]|[[= <- <- <-]|[]]]; (constructor; [constructor|constructor|intros ? []|intros ? []|intros ? ? []|intros ? ? ? []]).
Qed.
Definition v_valid F o := FormValid.is_valid vblank None ex_empty F o.
Definition v_saved : obj (option str) :=
  Obj [(u "title", VPlain (Some (u "B"))); (u "one", VNode (Some (Obj [(u "label", VPlain (Some (u "l"))); (u "rank", VPlain (Some (u "1")))])));
       (u "two", VNode None); (u "name", VPlain (Some (u "y")))].
Example C76_case : tidy (v_form true true) /\ snd (v_valid (v_form true true) v_rec) = VTrue /\ snd (fst (v_valid (v_form true true) v_rec)) = v_saved /\
  acceptable vblank None ex_empty (v_form true true) v_rec /\ v_valid (v_form true false) v_rec <> v_valid (v_form true true) v_rec.
Proof.
  split; [apply v_tidy|]. split; [vm_compute; reflexivity|]. split; [vm_compute; reflexivity|]. split.
  - apply C76_true_iff_acceptable; [apply v_tidy|]. eexists _, _. vm_compute. reflexivity.
  - vm_compute. discriminate.
Qed.
(** ** an invalid submission is not all or nothing: the answer is False because of the second part, and the first part has been written,
    while the record's own fields have not *)
Theorem C76_false_writes_refuted : tidy (v_form true false) /\ snd (v_valid (v_form true false) v_rec) = VFalse /\
  field (u "one") (snd (fst (v_valid (v_form true false) v_rec))) = Some (VNode (Some (Obj [(u "label", VPlain (Some (u "l"))); (u "rank", VPlain (Some (u "1")))]))) /\
  field (u "one") v_rec = Some (VNode (Some v_part)) /\
  field (u "title") (snd (fst (v_valid (v_form true false) v_rec))) = field (u "title") v_rec.
Proof. split; [apply v_tidy|]. repeat match goal with |- _ /\ _ => split end; vm_compute; reflexivity. Qed.
(** the schema is against the record: False, but it has been changed; asked again, False *)
Example C76_schema_case : let F := match v_form true true with VForm h s t => VForm (mkHead MAbsent ANone true (h_cleaned h) (fun _ => false)) s t end in
  tidy F /\ (exists F1, v_valid F v_rec = (F1, v_saved, VFalse) /\ v_valid F1 v_saved = (F1, v_saved, VFalse)).
Proof.
  cbv zeta. split; [|eexists; split; vm_compute; reflexivity]. pose proof (v_tidy true true) as H. inversion H; subst. now constructor.
Qed.
Print Assumptions C76_true_iff_acceptable.
Print Assumptions C76_true_saved.
Print Assumptions C76_same_answer.
Print Assumptions C76_schema_error_saved.
Print Assumptions C76_false_writes_refuted.
