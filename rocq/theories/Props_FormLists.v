(** Saving list formsets: C43. *)
From Coq Require Import String List Arith ZArith Lia.
From Verif Require Export FormLists Props_Lists.
From Verif Require Import XPathEval FieldSpec DocSpec.
Import ListNotations.
Opaque u.

(** ** Specification: the inputs that are not blank, in order *)
Definition blank (v : option pyval) : bool := match v with None | Some PNone | Some (PStr []) => true | _ => false end.
Fixpoint entered (forms : list (option pyval)) : list pyval :=
  match forms with
  | [] => []
  | f :: r => if blank f then entered r else match f with Some v => v :: entered r | None => entered r end
  end.
(** what a CharField or IntegerField gives, other than the number zero *)
Definition simple_input (f : option pyval) : Prop :=
  match f with None | Some PNone | Some (PStr _) => True | Some (PInt z) => z <> 0%Z | _ => False end.

Lemma values_entered forms : (forall f, In f forms -> simple_input f) -> formset_values forms = entered forms.
Proof.
  induction forms as [|f r IH]; intros H; [reflexivity|]. assert (Hf := H f (or_introl eq_refl)). assert (IH' := IH (fun g Hg => H g (or_intror Hg))). unfold formset_values in *. cbn [map filter entered]. rewrite IH'.
  destruct f as [[|[|c s]|z| | | | | |]|]; cbn in *; try contradiction; try reflexivity. destruct (Z.eqb_spec z 0); [contradiction|reflexivity].
Qed.
Lemma update_LI E e m R forms d vs : growable E e -> LI E e m R d vs -> (forall v, In v (formset_values forms) -> storable m v) ->
  exists d', list_formset_update E e m forms d = (d', Ret tt) /\ LI E e m R d' (formset_values forms).
Proof.
  intros G L Hv. pose proof (proj1 G) as Hc. destruct (sim_trim E e m R 0 G (length vs) d vs L) as (d1 & H1 & L1); [cbn; lia|]. cbn [firstn] in L1.
  destruct (sim_extend E e m R G _ d1 [] L1 Hv) as (d2 & H2 & L2). exists d2. split; [|exact L2].
  unfold list_formset_update, bind, reading, list_len. rewrite (data_LI _ _ _ _ _ _ Hc L). cbn [rmap]. rewrite H1. exact H2.
Qed.

(** ** C43: afterwards the list is what was entered; doing it again changes nothing more to the list; nothing else in the
    document changes.  PARTIAL: for values the field can store (for strings and integers: C27_storable_values_partial) and
    list elements without element children, as for C27; not for lists with a zero in them (see below). *)
Theorem C43_saved_partial : forall E e m d vs forms,
  list_field E e = true -> holds E e m d vs -> (forall f, In f forms -> simple_input f) -> (forall v, In v (entered forms) -> storable m v) ->
  exists d', list_formset_update E e m forms d = (d', Ret tt) /\ list_data E e m d' = Ret (entered forms) /\ holds E e m d' (entered forms) /\
    (one_step e = true -> others E e d' = others E e d /\ own d' = own d).
Proof.
  intros E e m d vs forms Hf Hh Hi Hv. apply list_field_growable in Hf. pose proof (proj1 Hf) as Hc. apply holds_LI in Hh; [|assumption]. rewrite <- (values_entered forms Hi) in *.
  destruct (update_LI E e m _ forms d vs Hf Hh Hv) as (d' & H1 & L1). exists d'. split; [assumption|]. split; [eapply data_LI; eassumption|]. split; [eapply LI_holds; eassumption|].
  intros Hs. eapply LI_others; eassumption.
Qed.
(** any history of submissions: the last one wins *)
Fixpoint submissions (E : env) (e : expr) (m : mapper) (subs : list (list (option pyval))) (d : node) : node * res unit :=
  match subs with
  | [] => (d, Ret tt)
  | f :: r => match list_formset_update E e m f d with (d1, Ret _) => submissions E e m r d1 | (d1, Exc x) => (d1, Exc x) end
  end.
Theorem C43_history_partial : forall E e m subs forms d vs,
  list_field E e = true -> holds E e m d vs -> (forall fs f, In fs (subs ++ [forms]) -> In f fs -> simple_input f) ->
  (forall fs v, In fs (subs ++ [forms]) -> In v (entered fs) -> storable m v) ->
  exists d', submissions E e m (subs ++ [forms]) d = (d', Ret tt) /\ list_data E e m d' = Ret (entered forms).
Proof.
  intros E e m subs. induction subs as [|f0 subs IH]; intros forms d vs Hf Hh Hi Hv; cbn [app submissions] in *.
  - destruct (C43_saved_partial E e m d vs forms Hf Hh (fun f => Hi forms f (or_introl eq_refl)) (fun v => Hv forms v (or_introl eq_refl))) as (d' & H1 & H2 & _). rewrite H1. eauto.
  - destruct (C43_saved_partial E e m d vs f0 Hf Hh (fun f => Hi f0 f (or_introl eq_refl)) (fun v => Hv f0 v (or_introl eq_refl))) as (d1 & H1 & _ & H3 & _). rewrite H1.
    apply (IH forms d1 _ Hf H3); intros fs x Hin; [apply Hi|apply Hv]; now right.
Qed.

Open Scope string_scope.
(** *** where it fails *)
(** a zero entered in (or already in) an integer list disappears *)
Theorem C43_zero_refuted : let d := el "r" [] "" [el "n" [] "5" []; el "n" [] "0" []] in
  list_data E0 (xp "n") MInt d = Ret [PInt 5; PInt 0] /\
  exists d', list_formset_update E0 (xp "n") MInt [Some (PInt 5); Some (PInt 0); None] d = (d', Ret tt) /\ list_data E0 (xp "n") MInt d' = Ret [PInt 5].
Proof. split; [vm_compute; reflexivity|]. eexists. split; (vm_compute; reflexivity). Qed.
(** submitting the unchanged list drops the attributes of the elements and moves them behind their siblings *)
Theorem C43_unchanged_refuted :
  list_formset_update E0 (xp "a") (MString false) [Some (PStr (u "1")); Some (PStr (u "2"))] (el "r" [] "" [el "a" [("lang", "en")] "1" []; el "a" [] "2" []; el "b" [] "" []]) =
  (el "r" [] "" [el "b" [] "" []; el "a" [] "1" []; el "a" [] "2" []], Ret tt).
Proof. vm_compute. reflexivity. Qed.

Example C43_case : list_field E0 (xp "a") = true /\ holds E0 (xp "a") (MString false) d_list (ss ["1"; "2"; "1"]) /\
  entered [Some (PStr (u "p")); Some (PStr []); None; Some (PStr (u "q"))] = ss ["p"; "q"] /\
  (forall f, In f [Some (PStr (u "p")); Some (PStr []); None; Some (PStr (u "q"))] -> simple_input f) /\
  (forall v, In v (ss ["p"; "q"]) -> storable (MString false) v).
Proof.
  conjs; [vm_compute; reflexivity|holds_tac|vm_compute; reflexivity| |].
  - intros f Hf. cbn [In] in Hf. repeat (destruct Hf as [<-|Hf]; [exact I|]). contradiction.
  - intros v Hv. cbn [ss map In] in Hv. repeat (destruct Hv as [<-|Hv]; [apply storable_string; vm_compute; reflexivity|]). contradiction.
Qed.
Example C43_int_case : (forall f, In f [Some (PInt 7); None; Some (PInt (-2))] -> simple_input f) /\ (forall v, In v (entered [Some (PInt 7); None; Some (PInt (-2))]) -> storable MInt v).
Proof.
  split.
  - intros f Hf. cbn [In] in Hf. repeat (destruct Hf as [<-|Hf]; [cbn; lia|]). contradiction.
  - intros v Hv. cbn [entered blank In] in Hv. repeat (destruct Hv as [<-|Hv]; [apply storable_int; vm_compute; congruence|]). contradiction.
Qed.
Print Assumptions C43_saved_partial.
Print Assumptions C43_history_partial.
