(** Displaying forms, and saving them unchanged: C52. *)
From Coq Require Import String List Arith NArith Bool Lia.
From Verif Require Import PyStr Classes ClassProofs FieldLists FieldListProofs FormFields FormFieldProofs FormData FormUpdate FormInit Props_FieldLists Props_FormUpdate.
Import ListNotations.
Opaque u.

Section Spec.
Context {V : Type} (is_blank : V -> bool) (none : V) (empty : obj V -> bool).
Notation update := (@update V is_blank none empty).
Notation bform := (bform V).

(** ** lemmas *)
Fixpoint construct_subs (subs : list (str * bform)) (o : obj V) : obj V * option uexn :=
  match subs with
  | [] => (o, None)
  | (n, G) :: rest =>
    match field n o with
    | Some (VNode old) =>
      match construct G (match old with Some p => p | None => own_of G end) with
      | (p1, None) => construct_subs rest (with_field n (VNode (Some p1)) o)
      | (p1, Some e) => (with_field n (VNode (Some p1)) o, Some e)
      end
    | _ => (o, Some (UNoField n))
    end
  end.
Lemma construct_eq m ex cd own subs sets o : construct (BForm m ex cd own subs sets) o = construct_subs subs o.
Proof.
  cbn [construct]. revert o. induction subs as [|[n G] rest IH]; intros o; cbn [construct_subs]; [reflexivity|].
  destruct (field n o) as [[x|old|l]|]; [reflexivity| |reflexivity|reflexivity]. destruct G as [m1 ex1 cd1 own1 subs1 sets1]. cbn [own_of].
  destruct (construct (BForm m1 ex1 cd1 own1 subs1 sets1) (match old with Some p => p | None => own1 end)) as [p1 [e|]]; [reflexivity|]. apply IH.
Qed.
Definition subs_of (F : bform) := match F with BForm _ _ _ _ subs _ => subs end.
Lemma construct_spec : forall subs (o o' : obj V), NoDup (map fst subs) -> construct_subs subs o = (o', None) -> forall k,
  match dget k subs with
  | None => field k o' = field k o
  | Some G => exists old p1, field k o = Some (VNode old) /\ construct G (match old with Some p => p | None => own_of G end) = (p1, None) /\ field k o' = Some (VNode (Some p1))
  end.
Proof.
  induction subs as [|[n G] rest IH]; intros o o' Hnd H k; cbn [construct_subs dget] in *; [now injection H as <-|]. inversion Hnd as [|? ? Hx Hnd']; subst. cbn [fst] in *.
  destruct (field n o) as [[|old|]|] eqn:Ef; try discriminate. destruct (construct G _) as [p1 [e|]] eqn:Ec; [discriminate|]. specialize (IH _ _ Hnd' H k). destruct (str_eqb_spec n k) as [->|N].
  - rewrite (dget_none_notin _ _ Hx) in IH. rewrite field_with, str_eqb_refl in IH. exists old, p1. auto.
  - rewrite field_with in IH. apply str_eqb_neq in N. rewrite N in IH. exact IH.
Qed.

(** ** C52: constructing a form keeps every value, at any depth: where the object had a value, it still has it *)
(** the value of a plain field or node list at a path of node fields *)
Definition value_in (o : obj V) (path : list str) (n : str) : option (oval V) :=
  match object_at o path with
  | Some p => match field n p with Some (VNode _) => None | w => w end
  | None => None
  end.
Inductive distinct_subs : bform -> Prop :=
| Distinct : forall m ex cd own subs sets, NoDup (map fst subs) -> (forall n G, In (n, G) subs -> distinct_subs G) -> distinct_subs (BForm m ex cd own subs sets).
Theorem C52_displayed_partial : forall path F (o o' : obj V) n v, distinct_subs F -> construct F o = (o', None) ->
  value_in o path n = Some v -> value_in o' path n = Some v.
Proof.
  induction path as [|k path IH]; intros F o o' n v HD HC Hv; destruct F as [m ex cd own subs sets]; rewrite construct_eq in HC; inversion HD as [? ? ? ? ? ? D1 D2]; subst.
  - unfold value_in in *. cbn [object_at] in *. pose proof (construct_spec _ _ _ D1 HC n) as S. destruct (dget n subs) as [G|].
    + destruct S as (old & p1 & S1 & _). rewrite S1 in Hv. discriminate.
    + now rewrite S.
  - unfold value_in in *. cbn [object_at] in *. pose proof (construct_spec _ _ _ D1 HC k) as S. destruct (dget k subs) as [G|] eqn:Eg.
    + destruct S as (old & p1 & S1 & S2 & S3). rewrite S3. rewrite S1 in Hv. destruct old as [p|]; [|discriminate]. apply dget_In in Eg. exact (IH G p p1 n v (D2 _ _ Eg) S2 Hv).
    + now rewrite S.
Qed.

(** ** saving what was displayed *)
(** the data of the form is what the object holds: each value in the data is that of the field, a blank one standing for
    None; the formsets leave their lists as they are; nodes that are there are not empty, and the blank one of a subform
    without node is *)
Inductive unchanged : bform -> obj V -> Prop :=
| Unch : forall m ex cd own subs sets fs,
    (m = MAbsent \/ exists l, m = MNames l) ->
    (forall n v, dget n cd = Some v -> match dget n fs with Some (VPlain x) => (if is_blank v then none else v) = x | Some _ => False | None => True end) ->
    (forall n f, In (n, f) sets -> exists v, dget n fs = Some v /\ f v = v) ->
    (forall n G p, In (n, G) subs -> dget n fs = Some (VNode (Some p)) -> unchanged G p /\ empty p = false) ->
    (forall n G, In (n, G) subs -> dget n fs = Some (VNode None) -> unchanged G (own_of G) /\ empty (own_of G) = true) ->
    (forall n G, In (n, G) subs -> exists old, dget n fs = Some (VNode old)) ->
    unchanged (BForm m ex (Some cd) own subs sets) (Obj fs).
Inductive disjoint_sets : bform -> Prop :=
| Disj : forall m ex cd own subs sets, NoDup (map fst subs) -> (forall n, In n (map fst sets) -> ~ In n (map fst subs)) ->
   (forall n G, In (n, G) subs -> disjoint_sets G) -> disjoint_sets (BForm m ex cd own subs sets).

Lemma dset_same {A} k (v : A) d : dget k d = Some v -> dset k v d = d.
Proof.
  induction d as [|[k' v'] d IH]; cbn; [discriminate|]. destruct (str_eqb_spec k' k) as [->|N]; intros H.
  - injection H as ->. reflexivity.
  - now rewrite IH.
Qed.
Lemma dset_dset {A} k (v w : A) d : dset k v (dset k w d) = dset k v d.
Proof.
  induction d as [|[k' v'] d IH]; cbn; [now rewrite str_eqb_refl|]. destruct (str_eqb k' k) eqn:E; cbn; rewrite E; [reflexivity|now rewrite IH].
Qed.
Lemma with_field_same n v (o : obj V) : field n o = Some v -> with_field n v o = o.
Proof. destruct o as [fs]. cbn. intros H. now rewrite dset_same. Qed.
Lemma with_with n v w (o : obj V) : with_field n v (with_field n w o) = with_field n v o.
Proof. destruct o as [fs]. cbn. now rewrite dset_dset. Qed.
Lemma save_fields_same m ex cd : forall names (o : obj V),
  (forall n v, dget n cd = Some v -> match field n o with Some (VPlain x) => clean is_blank none v = x | Some _ => False | None => True end) ->
  save_fields is_blank none m ex cd names o = (o, None).
Proof.
  induction names as [|n names IH]; intros o H; cbn [save_fields]; [reflexivity|]. destruct (skipped m ex n); [now apply IH|]. destruct (dget n cd) as [v|] eqn:E; [|now apply IH].
  specialize (H n v E) as Hn. destruct o as [fs]. cbn [field] in Hn. unfold set_field. destruct (dget n fs) as [[x| |]|] eqn:Ef; try contradiction; [|now apply IH]. rewrite Hn, dset_same by assumption. now apply IH.
Qed.
(** a path of subforms of any depth is handled by induction on the form *)
Lemma bform_ind2 (P : bform -> Prop) : (forall m ex cd own subs sets, (forall n G, In (n, G) subs -> P G) -> P (BForm m ex cd own subs sets)) -> forall F, P F.
Proof.
  intros H. fix IH 1. intros [m ex cd own subs sets]. apply H. induction subs as [|[n0 G0] subs IHs]; intros n G Hin; [destruct Hin|]. destruct Hin as [Hin|Hin]; [|exact (IHs n G Hin)]. injection Hin as <- <-. apply IH.
Qed.
Lemma with_comm n k v w (o : obj V) x y : n <> k -> field n o = Some x -> field k o = Some y -> with_field n v (with_field k w o) = with_field k w (with_field n v o).
Proof.
  destruct o as [fs]. cbn [field with_field]. intros N Hn Hk. f_equal. revert Hn Hk. induction fs as [|[a b] fs IH]; cbn; [discriminate|]. destruct (str_eqb_spec a n) as [E1|N1]; destruct (str_eqb_spec a k) as [E2|N2]; cbn.
  - congruence.
  - subst a. intros _ _. rewrite str_eqb_refl. apply str_eqb_neq in N2. now rewrite N2.
  - subst a. intros _ _. rewrite str_eqb_refl. apply str_eqb_neq in N1. now rewrite N1.
  - apply str_eqb_neq in N1, N2. rewrite N1, N2. intros Hn Hk. now rewrite IH.
Qed.

Theorem C52_saved_unchanged : forall F (o : obj V), disjoint_sets F -> unchanged F o ->
  exists o1, construct F o = (o1, None) /\ update F o1 = (o, None).
Proof.
  induction F as [m ex cd own subs sets IH] using bform_ind2. intros o HD HU. inversion HD as [? ? ? ? ? ? D1 D2 D3]; subst. inversion HU as [? ? c1 ? ? ? fs Hm Hcd Hsets Hsome Hnone Hsub]; subst.
  rewrite construct_eq. 
  (* what construct does, and that saving the subforms undoes it *)
  assert (Sub : forall l o0, incl l subs -> NoDup (map fst l) -> (forall n G, In (n, G) l -> field n o0 = dget n fs) ->
    exists o1, construct_subs l o0 = (o1, None) /\ (forall k, ~ In k (map fst l) -> field k o1 = field k o0) /\
      save_subs is_blank none empty l o1 = (o0, None)).
  { induction l as [|[n G] l IHl]; intros o0 Hi Hn Hf; cbn [construct_subs save_subs].
    - exists o0. auto.
    - inversion Hn as [|? ? Hx Hn']; subst. cbn [fst map] in *. assert (HG : In (n, G) subs) by (apply Hi; now left). rewrite (Hf n G) by now left. destruct (Hsub _ _ HG) as [old Hold]. rewrite Hold.
      assert (Q : exists p1, construct G (match old with Some p => p | None => own_of G end) = (p1, None) /\ update G p1 = (match old with Some p => p | None => own_of G end, None) /\ empty (match old with Some p => p | None => own_of G end) = match old with Some _ => false | None => true end).
      { destruct old as [p|]; [destruct (Hsome n G p HG Hold) as [U1 U2]|destruct (Hnone n G HG Hold) as [U1 U2]]; (destruct (IH n G HG _ (D3 _ _ HG) U1) as (p1 & P1 & P2); exists p1; auto). }
      destruct Q as (p1 & Q1 & Q2 & Q3). rewrite Q1.
      destruct (IHl (with_field n (VNode (Some p1)) o0)) as (o1 & A1 & A2 & A3); [intros x Hxx; apply Hi; now right|assumption| |].
      { intros k K Hk. rewrite field_with. destruct (str_eqb_spec n k) as [->|N]; [exfalso; apply Hx; now apply (in_map fst) in Hk|]. apply (Hf k K). now right. }
      exists o1. split; [assumption|]. assert (Fn : field n o1 = Some (VNode (Some p1))). { rewrite A2 by assumption. now rewrite field_with, str_eqb_refl. }
      split.
      { intros k Hk. rewrite A2 by (intros Hc; apply Hk; now right). rewrite field_with. destruct (str_eqb_spec n k); [exfalso; apply Hk; now left|reflexivity]. }
      rewrite Fn, Q2, Q3.
      assert (Comm : forall l' (a b : obj V) w x, ~ In n (map fst l') -> field n a = Some x -> save_subs is_blank none empty l' a = (b, None) -> save_subs is_blank none empty l' (with_field n w a) = (with_field n w b, None) ).
      { clear. induction l' as [|[k K] l' IHl']; intros a b w x Hx Hx2 H; cbn [save_subs] in *; [now injection H as <-|]. cbn [map fst In] in Hx. rewrite field_with. assert (E : str_eqb n k = false) by (apply str_eqb_neq; intros ->; tauto). rewrite E. apply str_eqb_neq in E.
        destruct (field k a) as [[|[q|]|]|] eqn:Ek; try discriminate.
        - destruct (update K q) as [q1 [e|]]; [discriminate|]. rewrite (with_comm k n _ _ a _ _ (not_eq_sym E) Ek Hx2). apply (IHl' _ b w x); [tauto| |assumption]. rewrite field_with. destruct (str_eqb_spec k n); [congruence|assumption].
        - destruct K as [m1 ex1 cl1 own1 su1 se1]. destruct (update _ own1) as [q1 [e|]]; [discriminate|]. destruct (empty q1); [apply (IHl' _ b w x); tauto|]. rewrite (with_comm k n _ _ a _ _ (not_eq_sym E) Ek Hx2). apply (IHl' _ b w x); [tauto| |assumption]. rewrite field_with. destruct (str_eqb_spec k n); [congruence|assumption]. }
      assert (Hfn : field n o0 = Some (VNode old)) by (rewrite (Hf n G); [assumption|now left]).
      rewrite (Comm l o1 _ _ _ Hx Fn A3). rewrite with_with. f_equal. apply with_field_same. rewrite Hfn. now destruct old. }
  destruct (Sub subs (Obj fs) (incl_refl _) D1) as (o1 & C1 & C2 & C3); [reflexivity|]. exists o1. split; [assumption|]. rewrite update_eq.
  assert (Hf1 : exists names, fields_in_order m o1 = Some names). { destruct o1 as [fs1]. destruct Hm as [->|[l ->]]; cbn; eauto. }
  destruct Hf1 as [names ->]. rewrite save_fields_same.
  - rewrite C3. clear -Hsets. unfold save_sets. induction sets as [|[n f] sets IHs]; cbn [fold_left fst snd]; [reflexivity|]. destruct (Hsets n f (or_introl eq_refl)) as (v & H1 & H2). cbn [field]. rewrite H1, H2, with_field_same by assumption. apply IHs. intros; apply Hsets; now right.
  - intros n v Hv. specialize (Hcd n v Hv). destruct (in_dec (list_eq_dec N.eq_dec) n (map fst subs)) as [Hin|Hnin].
    + exfalso. apply in_map_iff in Hin as ([n' G] & <- & HG). destruct (Hsub _ _ HG) as [old Ho]. cbn [fst] in *. now rewrite Ho in Hcd.
    + rewrite C2 by assumption. exact Hcd.
Qed.
End Spec.

(** ** Concrete cases: a record with a part and, in it, a sub-part that is not there *)
Definition d_sub : obj (option str) := Obj [(u "z", VPlain None)].
Definition d_part : obj (option str) := Obj [(u "x", VPlain (Some (u "1"))); (u "sub", VNode None)].
Definition d_obj : obj (option str) := Obj [(u "id", VPlain (Some (u "a"))); (u "note", VPlain None); (u "part", VNode (Some d_part)); (u "list", VNodes [d_sub])].
Definition d_form : bform (option str) :=
  BForm MAbsent ANone (Some [(u "id", Some (u "a")); (u "note", Some [])]) d_obj
    [(u "part", BForm MAbsent ANone (Some [(u "x", Some (u "1"))]) (Obj [(u "x", VPlain None); (u "sub", VNode None)])
        [(u "sub", BForm MAbsent ANone (Some [(u "z", Some [])]) d_sub [] [])] [])] [(u "list", fun v => v)].
Example C52_case : disjoint_sets d_form /\ unchanged vblank None ex_empty d_form d_obj /\ construct d_form d_obj <> (d_obj, None).
Proof.
  split; [|split].
  - constructor; [constructor; [intros []|constructor]| |].
    + intros n [<-|[]] [H|[]]. revert H. vm_compute. discriminate.
    + intros n G [[= <- <-]|[]]. constructor; [constructor; [intros []|constructor]|intros ? []|]. intros n G [[= <- <-]|[]]. constructor; [constructor|intros ? []|intros ? ? []].
  - constructor; [now left| | | | |].
    + intros n v H. cbn [dget] in H. destruct (str_eqb_spec (u "id") n) as [<-|_]; [injection H as <-; vm_compute; reflexivity|]. destruct (str_eqb_spec (u "note") n) as [<-|_]; [injection H as <-; vm_compute; reflexivity|discriminate].
    + intros n f [[= <- <-]|[]]. eexists. split; [vm_compute; reflexivity|reflexivity].
    + intros n G p [[= <- <-]|[]] Hp. vm_compute in Hp. injection Hp as <-. split; [|vm_compute; reflexivity]. change (unchanged vblank None ex_empty (BForm MAbsent ANone (Some [(u "x", Some (u "1"))]) (Obj [(u "x", VPlain None); (u "sub", VNode None)]) [(u "sub", BForm MAbsent ANone (Some [(u "z", Some [])]) d_sub [] [])] []) d_part).
      constructor; [now left| | | | |].
      * intros n v H. cbn [dget] in H. destruct (str_eqb_spec (u "x") n) as [<-|_]; [injection H as <-; vm_compute; reflexivity|discriminate].
      * intros ? ? [].
      * intros n G p [[= <- <-]|[]] Hp. vm_compute in Hp. discriminate.
      * intros n G [[= <- <-]|[]] _. split; [|vm_compute; reflexivity]. constructor; [now left| |intros ? ? []|intros ? ? ? []|intros ? ? []|intros ? ? []].
        intros n v H. cbn [dget] in H. destruct (str_eqb_spec (u "z") n) as [<-|_]; [injection H as <-; vm_compute; reflexivity|discriminate].
      * intros n G [[= <- <-]|[]]. eexists. vm_compute. reflexivity.
    + intros n G [[= <- <-]|[]] Hp. vm_compute in Hp. discriminate.
    + intros n G [[= <- <-]|[]]. eexists. vm_compute. reflexivity.
  - vm_compute. discriminate.
Qed.
(** displaying a form creates the missing nodes, at every depth, and leaves them there *)
Theorem C52_display_creates_refuted : field (u "part") (fst (construct d_form d_obj)) =
  Some (VNode (Some (Obj [(u "x", VPlain (Some (u "1"))); (u "sub", VNode (Some d_sub))]))).
Proof. vm_compute. reflexivity. Qed.
(** saving an unchanged form removes a node that was there and is empty *)
Theorem C52_empty_node_refuted : let o := Obj [(u "sub", VNode (Some d_sub))] in
  let F := BForm MAbsent ANone (Some []) o [(u "sub", BForm MAbsent ANone (Some [(u "z", Some [])]) d_sub [] [])] [] in
  FormUpdate.update vblank None ex_empty F (fst (construct F o)) = (Obj [(u "sub", VNode None)], None).
Proof. vm_compute. reflexivity. Qed.
Print Assumptions C52_displayed_partial.
Print Assumptions C52_saved_unchanged.
