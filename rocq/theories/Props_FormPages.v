(** Forms, subforms and formsets made for an object: C87. *)
From Coq Require Import String List Arith ZArith NArith Bool Lia.
From Verif Require Import PyStr Classes ClassProofs FieldLists FieldListProofs FormFieldProofs Props_FormData NodeList NodeNodes FormSets Props_FormSets FormPages.
Import ListNotations.
Opaque u.

Section Spec.
Context {V : Type}.
Implicit Types (o : inst V) (f g : form V).
(** ** Specification.  Places in an object and in a form are the same: subobjects / subforms by name, items of node lists / forms of a
    formset by name and position ([Into], [Item] of Props_FormData).  What is not there is a new object. *)
Fixpoint object_at (o : inst V) (path : list pstep) : inst V :=
  match path with
  | [] => o
  | Into n :: r => object_at (match o with Inst _ subs _ _ => match dget n subs with Some o' => o' | None => Inst None [] [] [] end end) r
  | Item n i :: r => object_at (match o with Inst _ _ nodes _ => match dget n nodes with
                                 | Some l => match nth_error l i with Some o' => o' | None => Inst None [] [] [] end
                                 | None => Inst None [] [] [] end end) r
  end.
Definition f_prefix (f : form V) := match f with Form p _ _ _ _ => p end.
Definition f_instance (f : form V) := match f with Form _ o _ _ _ => o end.
Definition f_inputs (f : form V) := match f with Form _ _ l _ _ => l end.
Definition f_subs (f : form V) := match f with Form _ _ _ l _ => l end.
Definition f_sets (f : form V) := match f with Form _ _ _ _ l => l end.
Fixpoint walk (f : form V) (path : list pstep) : option (form V) :=
  match path with
  | [] => Some f
  | Into n :: r => match dget n (f_subs f) with Some g => walk g r | None => None end
  | Item n i :: r => match dget n (f_sets f) with
                     | Some (NodeForms _ _ _ _ fs) => match nth_error fs i with Some g => walk g r | None => None end
                     | _ => None end
  end.
(** the inputs of the page: fields, the numbers of a management form, the input for one value of a list *)
Inductive last := LField (x : str) | LManage (n m : str) | LValue (n : str) (i : nat).
Definition set_pre (s : formset V) : str := match s with NodeForms p _ _ _ _ | ValueForms p _ _ _ _ => p end.
Definition here (f : form V) (l : last) : option str :=
  match l with
  | LField x => if str_mem x (f_inputs f) then Some (add_prefix (f_prefix f) x) else None
  | LManage n m => match dget n (f_sets f) with Some s => if str_mem m management then Some (set_pre s ++ [ch "-"] ++ m) else None | None => None end
  | LValue n i => match dget n (f_sets f) with
                  | Some (ValueForms p _ _ _ vals) => if Nat.ltb i (List.length vals) then Some (add_prefix (Some (form_prefix p i)) (u "val")) else None
                  | _ => None end
  end.
(** the name of the input, if the page has it *)
Definition input_name (f : form V) (path : list pstep) (l : last) : option str := match walk f path with Some g => here g l | None => None end.
(** as documented for Django: a-b-2-c, after the prefix of the whole form *)
Definition pre (prefix : option str) : str := match prefix with Some p => p ++ [ch "-"] | None => [] end.
Definition spelled (path : list pstep) (l : last) : str :=
  match l with
  | LField x => key path x
  | LManage n m => key path (n ++ [ch "-"] ++ m)
  | LValue n i => key path (n ++ [ch "-"] ++ str_of_N (N.of_nat i) ++ [ch "-"] ++ u "val")
  end.
(** names are Python identifiers (not empty, no hyphen); nothing is both a subform and a formset *)
Inductive sane : fclass -> Prop :=
| SaneC : forall fields subs sets, (forall x, In x fields -> is_ident x) ->
    (forall n c, dget n subs = Some c -> is_ident n /\ dget n sets = None /\ sane c) ->
    (forall n s, dget n sets = Some s -> is_ident n) ->
    (forall n c op, dget n sets = Some (NodeSet c op) -> sane c) -> sane (FClass fields subs sets).

(** ** lemmas *)
Lemma make_eq c b more prefix o : make c b more prefix o = match c with FClass fields subs sets =>
  Form prefix o (more fields) (map (fun nc => (fst nc, make (snd nc) b (fun l => l) (Some (sub_prefix prefix (fst nc))) (sub_of o (fst nc)))) subs)
    (map (fun ns => (fst ns, make_set (snd ns) b (set_prefix prefix (fst ns)) (nodes_of o (fst ns)) (vals_of o (fst ns)))) sets) end.
Proof.
  destruct c as [fields subs sets]. cbn [make]. f_equal.
  - induction subs as [|[n c] subs IH]; [reflexivity|]. cbn [map fst snd]. now rewrite IH.
  - induction sets as [|[n c] sets IH]; [reflexivity|]. cbn [map fst snd]. now rewrite IH.
Qed.
Lemma dget_map {A B} (h : str -> A -> B) n l : dget n (map (fun nc => (fst nc, h (fst nc) (snd nc))) l) = option_map (h n) (dget n l).
Proof. induction l as [|[k x] l IH]; [reflexivity|]. cbn. destruct (str_eqb k n) eqn:E; [apply str_eqb_eq in E; now subst|exact IH]. Qed.
Lemma nth_error_map_seq {A} (h : nat -> A) t i (g : A) : nth_error (map h (seq 0 t)) i = Some g -> i < t /\ g = h i.
Proof.
  intros H. assert (L : i < t). { rewrite <- (seq_length t 0), <- (map_length h). apply nth_error_Some. congruence. }
  split; [exact L|]. rewrite nth_error_map, (nth_error_nth' _ 0) in H by now rewrite seq_length. cbn in H. rewrite seq_nth in H by exact L. now injection H as <-.
Qed.
Definition okmore (more : list str -> list str) : Prop := forall l x, In x (more l) -> In x l \/ x = u "ORDER" \/ x = u "DELETE".
Lemma ok_id : okmore (fun l => l).
Proof. intros l x H. now left. Qed.
Lemma add_key_In k l x : In x (add_key k l) -> In x l \/ x = k.
Proof. unfold add_key. destruct (str_mem k l); [now left|]. rewrite in_app_iff. intros [H|[H|[]]]; auto. Qed.
Lemma ok_formset op : okmore (formset_fields op).
Proof.
  intros l x. unfold formset_fields. destruct (fo_delete op).
  - intros H. apply add_key_In in H as [H|H]; [|auto]. destruct (fo_order op); [apply add_key_In in H as [H|H]; auto|auto].
  - destruct (fo_order op); intros H; [apply add_key_In in H as [H|H]; auto|auto].
Qed.
Lemma sub_prefix_pre prefix n : prefix <> Some [] -> sub_prefix prefix n = pre prefix ++ n.
Proof. destruct prefix as [[|c p]|]; intros H; [congruence| |reflexivity]. cbn. now rewrite <- app_assoc. Qed.
Lemma set_prefix_pre prefix n : set_prefix prefix n = pre prefix ++ n.
Proof. destruct prefix as [p|]; [|reflexivity]. cbn. now rewrite <- app_assoc. Qed.
Lemma add_prefix_pre prefix n : prefix <> Some [] -> add_prefix prefix n = pre prefix ++ n.
Proof. exact (sub_prefix_pre prefix n). Qed.
Lemma not_nil_app (a n : str) : n <> [] -> Some (a ++ n) <> Some [].
Proof. intros H [= E]. apply app_eq_nil in E as [_ E]. auto. Qed.
Lemma str_of_N_ne a : str_of_N a <> [].
Proof. unfold str_of_N. intros H. apply map_eq_nil in H. pose proof (N_of_digits_of_N a) as D. rewrite H in D. destruct a; [|discriminate D]. vm_compute in H. discriminate. Qed.
(** the form at a place is the one made for the object at that place *)
Lemma walk_make b : forall path c more prefix o g, sane c -> okmore more -> prefix <> Some [] -> walk (make c b more prefix o) path = Some g ->
  exists c' more' prefix', g = make c' b more' prefix' (object_at o path) /\ sane c' /\ okmore more' /\ prefix' <> Some [] /\ pre prefix' = pre prefix ++ concat (map key_step path).
Proof.
  induction path as [|[n|n i] path IH]; intros c more prefix o g Hs Hm Hp H.
  - injection H as <-. exists c, more, prefix. cbn. rewrite app_nil_r. auto.
  - cbn [walk] in H. rewrite make_eq in H. inversion Hs as [fields subs sets S1 S2 S3 S4]; subst c. cbn [f_subs] in H.
    rewrite (dget_map (fun m c => make c b (fun l => l) (Some (sub_prefix prefix m)) (sub_of o m))) in H. destruct (dget n subs) as [c|] eqn:D; [|discriminate]. cbn [option_map] in H.
    destruct (S2 n c D) as ((N1 & N2) & _ & Sc). apply IH in H; [|exact Sc|exact ok_id|rewrite sub_prefix_pre by exact Hp; now apply not_nil_app].
    destruct H as (c' & more' & prefix' & -> & H2 & H3 & H4 & H5). exists c', more', prefix'. split; [destruct o; reflexivity|]. split; [exact H2|]. split; [exact H3|]. split; [exact H4|].
    rewrite H5. cbn [map concat key_step pre]. rewrite sub_prefix_pre by exact Hp. now rewrite <- !app_assoc.
  - cbn [walk] in H. rewrite make_eq in H. inversion Hs as [fields subs sets S1 S2 S3 S4]; subst c. cbn [f_sets] in H.
    rewrite (dget_map (fun m s => make_set s b (set_prefix prefix m) (nodes_of o m) (vals_of o m))) in H. destruct (dget n sets) as [[c op|]|] eqn:D; [|discriminate|discriminate]. cbn [option_map make_set] in H.
    match type of H with match nth_error ?l i with _ => _ end = _ => destruct (nth_error l i) as [g0|] eqn:En; [|discriminate] end. apply nth_error_map_seq in En as [_ ->].
    destruct (S3 n _ D) as (N1 & N2). apply IH in H; [|exact (S4 _ _ _ D)|apply ok_formset|unfold form_prefix; rewrite app_assoc; apply not_nil_app, str_of_N_ne].
    destruct H as (c' & more' & prefix' & -> & H2 & H3 & H4 & H5). exists c', more', prefix'. split.
    + destruct o as [w os on ov]. cbn [object_at nodes_of]. unfold or_default. destruct (dget n on) as [l|]; [reflexivity|]. now destruct i.
    + split; [exact H2|]. split; [exact H3|]. split; [exact H4|]. rewrite H5. cbn [map concat key_step pre]. unfold form_prefix. rewrite set_prefix_pre. now rewrite <- !app_assoc.
Qed.
Definition lcomps (l : last) : list str := match l with LField x => [x] | LManage n m => [n; m] | LValue n i => [n; str_of_N (N.of_nat i); u "val"] end.
Lemma here_make b c more prefix o l s : sane c -> okmore more -> prefix <> Some [] -> here (make c b more prefix o) l = Some s ->
  s = pre prefix ++ joinc dash (lcomps l) /\ good_comp (lcomps l).
Proof.
  intros Hs Hm Hp H. rewrite make_eq in H. inversion Hs as [fields subs sets S1 S2 S3 S4]; subst c. destruct l as [x|n m|n i]; cbn [here f_inputs f_prefix f_sets] in H.
  - destruct (str_mem x (more fields)) eqn:E; [|discriminate]. injection H as <-. rewrite add_prefix_pre by exact Hp. split; [reflexivity|]. split; [discriminate|]. constructor; [|constructor].
    apply str_mem_In, Hm in E as [E|[->| ->]]; [now apply S1| |]; unfold free; change dash with 45%N; vm_compute; intuition discriminate.
  - rewrite (dget_map (fun m s => make_set s b (set_prefix prefix m) (nodes_of o m) (vals_of o m))) in H. destruct (dget n sets) as [st|] eqn:D; [|discriminate]. cbn [option_map] in H. destruct (str_mem m management) eqn:E; [|discriminate]. injection H as <-.
    assert (P : set_pre (make_set st b (set_prefix prefix n) (nodes_of o n) (vals_of o n)) = set_prefix prefix n) by now destruct st. rewrite P, set_prefix_pre. rewrite <- app_assoc. split; [reflexivity|]. split; [discriminate|]. constructor; [apply (S3 n st D)|]. constructor; [|constructor].
    apply str_mem_In in E. cbn [In management] in E. destruct E as [<-|[<-|[<-|[<-|[]]]]]; unfold free; change dash with 45%N; vm_compute; intuition discriminate.
  - rewrite (dget_map (fun m s => make_set s b (set_prefix prefix m) (nodes_of o m) (vals_of o m))) in H. destruct (dget n sets) as [[|]|] eqn:D; [discriminate| |discriminate]. cbn [option_map make_set] in H.
    match type of H with (if ?x then _ else _) = _ => destruct x; [|discriminate] end. assert (X : add_prefix (Some (form_prefix (set_prefix prefix n) i)) (u "val") = s) by congruence. rewrite <- X. clear H X. rewrite add_prefix_pre by (unfold form_prefix; rewrite app_assoc; apply not_nil_app, str_of_N_ne).
    cbn [pre]. unfold form_prefix. rewrite set_prefix_pre. cbn [lcomps joinc]. split; [now rewrite <- !app_assoc|]. split; [discriminate|]. constructor; [apply (S3 n _ D)|]. constructor; [apply str_of_N_free|]. constructor; [|constructor]. unfold free; change dash with 45%N; vm_compute; intuition discriminate.
Qed.
Lemma spelled_eq path l : spelled path l = concat (map key_step path) ++ joinc dash (lcomps l).
Proof. destruct l; reflexivity. Qed.
Lemma good_path b : forall path c more prefix o g, sane c -> walk (make c b more prefix o) path = Some g -> Forall (free dash) (flat_map pcomp path).
Proof.
  induction path as [|[n|n i] path IH]; intros c more prefix o g Hs H; [constructor| |]; cbn [walk] in H; rewrite make_eq in H; inversion Hs as [fields subs sets S1 S2 S3 S4]; subst c; cbn [f_subs f_sets] in H.
  - rewrite (dget_map (fun m c => make c b (fun l => l) (Some (sub_prefix prefix m)) (sub_of o m))) in H. destruct (dget n subs) as [c|] eqn:D; [|discriminate]. cbn [option_map] in H. destruct (S2 n c D) as ((_ & N2) & _ & Sc). cbn. constructor; [exact N2|]. exact (IH _ _ _ _ _ Sc H).
  - rewrite (dget_map (fun m s => make_set s b (set_prefix prefix m) (nodes_of o m) (vals_of o m))) in H. destruct (dget n sets) as [[c op|]|] eqn:D; [|discriminate|discriminate]. cbn [option_map make_set] in H.
    match type of H with match nth_error ?l i with _ => _ end = _ => destruct (nth_error l i) as [g0|] eqn:En; [|discriminate] end. apply nth_error_map_seq in En as [_ ->]. cbn. constructor; [apply (S3 n _ D)|]. constructor; [apply str_of_N_free|]. exact (IH _ _ _ _ _ (S4 _ _ _ D) H).
Qed.
Lemma joinc_path path c : c <> [] -> joinc dash (flat_map pcomp path ++ c) = concat (map key_step path) ++ joinc dash c.
Proof.
  intros Hc. induction path as [|s path IH]; [reflexivity|]. cbn [map concat flat_map]. rewrite <- !app_assoc, <- IH. assert (Hne : flat_map pcomp path ++ c <> []) by (intros E; apply app_eq_nil in E as [_ E]; auto).
  destruct s; cbn [key_step pcomp app]; [rewrite joinc_cons by exact Hne; rewrite <- ?app_assoc; reflexivity|]. rewrite joinc_cons by discriminate. rewrite joinc_cons by exact Hne. rewrite <- ?app_assoc. cbn [app]. rewrite <- ?app_assoc. reflexivity.
Qed.
Lemma lcomps_ne l : lcomps l <> [].
Proof. now destruct l. Qed.
(** the components tell the place *)
Lemma comps_place b : forall p c more prefix o a q l s s', sane c ->
  input_name (make c b more prefix o) p a = Some s -> input_name (make c b more prefix o) q l = Some s' -> flat_map pcomp p ++ lcomps a = flat_map pcomp q ++ lcomps l -> p = q /\ a = l.
Proof.
  unfold input_name. induction p as [|[n|n i] p IH]; intros c more prefix o a q l s s' Hs H H' E; inversion Hs as [fields subs sets S1 S2 S3 S4]; subst c.
  - destruct q as [|[n|n i] q].
    + split; [reflexivity|]. cbn in E. destruct a, l; try discriminate E; injection E; intros; subst; try reflexivity. f_equal. now apply dec_inj.
    + exfalso. cbn [walk] in H, H'. rewrite make_eq in H, H'. cbn [f_subs] in H'. rewrite (dget_map (fun m c => make c b (fun l => l) (Some (sub_prefix prefix m)) (sub_of o m))) in H'. destruct (dget n subs) as [c|] eqn:D; [|discriminate]. destruct (S2 n c D) as (_ & D' & _).
      cbn [flat_map pcomp app] in E. assert (L : flat_map pcomp q ++ lcomps l <> []) by (intros X; apply app_eq_nil in X as [_ X]; now apply lcomps_ne in X).
      destruct a as [x|n' m|n' i]; cbn [lcomps] in E; injection E as -> E; [now rewrite <- E in L| |];
        cbn [here f_sets] in H; rewrite (dget_map (fun m s => make_set s b (set_prefix prefix m) (nodes_of o m) (vals_of o m))), D' in H; discriminate H.
    + exfalso. cbn [walk] in H, H'. rewrite make_eq in H, H'. cbn [f_sets] in H'. rewrite (dget_map (fun m s => make_set s b (set_prefix prefix m) (nodes_of o m) (vals_of o m))) in H'. destruct (dget n sets) as [[c op|]|] eqn:D; [|discriminate|discriminate].
      cbn [flat_map pcomp app] in E. assert (L : flat_map pcomp q ++ lcomps l <> []) by (intros X; apply app_eq_nil in X as [_ X]; now apply lcomps_ne in X).
      destruct a as [x|n' m|n' i']; cbn [lcomps] in E; [discriminate E| |].
      * injection E as -> _ E. now rewrite <- E in L.
      * injection E as -> _ E. cbn [here f_sets] in H; rewrite (dget_map (fun m s => make_set s b (set_prefix prefix m) (nodes_of o m) (vals_of o m))), D in H; discriminate H.
  - cbn [walk] in H. rewrite make_eq in H. cbn [f_subs] in H. rewrite (dget_map (fun m c => make c b (fun l => l) (Some (sub_prefix prefix m)) (sub_of o m))) in H. destruct (dget n subs) as [c|] eqn:D; [|discriminate]. destruct (S2 n c D) as (_ & D' & Sc). cbn [option_map] in H.
    cbn [flat_map pcomp app] in E. assert (L : flat_map pcomp p ++ lcomps a <> []) by (intros X; apply app_eq_nil in X as [_ X]; now apply lcomps_ne in X).
    destruct q as [|[n'|n' i'] q]; cbn [walk] in H'; rewrite make_eq in H'; cbn [flat_map pcomp app] in E.
    + exfalso. destruct l as [x|n' m|n' i]; cbn [lcomps] in E; injection E as <- E; [now rewrite E in L| |];
        cbn [here f_sets] in H'; rewrite (dget_map (fun m s => make_set s b (set_prefix prefix m) (nodes_of o m) (vals_of o m))), D' in H'; discriminate H'.
    + injection E as <- E. cbn [f_subs] in H'. rewrite (dget_map (fun m c => make c b (fun l => l) (Some (sub_prefix prefix m)) (sub_of o m))), D in H'. cbn [option_map] in H'. destruct (IH _ _ _ _ _ _ _ _ _ Sc H H' E) as [-> ->]. auto.
    + exfalso. injection E as <- E. cbn [f_sets] in H'. rewrite (dget_map (fun m s => make_set s b (set_prefix prefix m) (nodes_of o m) (vals_of o m))), D' in H'. discriminate.
  - cbn [walk] in H. rewrite make_eq in H. cbn [f_sets] in H. rewrite (dget_map (fun m s => make_set s b (set_prefix prefix m) (nodes_of o m) (vals_of o m))) in H. destruct (dget n sets) as [[c op|]|] eqn:D; [|discriminate|discriminate]. cbn [option_map make_set] in H.
    match type of H with match match nth_error ?l i with _ => _ end with _ => _ end = _ => destruct (nth_error l i) as [g0|] eqn:En; [|discriminate] end. pose proof En as En'. apply nth_error_map_seq in En as [_ ->].
    cbn [flat_map pcomp app] in E. assert (L : flat_map pcomp p ++ lcomps a <> []) by (intros X; apply app_eq_nil in X as [_ X]; now apply lcomps_ne in X).
    destruct q as [|[n'|n' i'] q]; cbn [walk] in H'; rewrite make_eq in H'; cbn [flat_map pcomp app] in E.
    + exfalso. destruct l as [x|n' m|n' i']; cbn [lcomps] in E; [discriminate E| |].
      * injection E as -> _ E. now rewrite E in L.
      * injection E as <- _ E. cbn [here f_sets] in H'; rewrite (dget_map (fun m s => make_set s b (set_prefix prefix m) (nodes_of o m) (vals_of o m))), D in H'; discriminate H'.
    + exfalso. injection E as <- E. cbn [f_subs] in H'. rewrite (dget_map (fun m c => make c b (fun l => l) (Some (sub_prefix prefix m)) (sub_of o m))) in H'. destruct (dget n subs) as [c'|] eqn:D'; [|discriminate]. destruct (S2 _ _ D') as (_ & D2 & _). congruence.
    + injection E as <- Ei E. apply dec_inj in Ei. subst i'. cbn [f_sets] in H'. rewrite (dget_map (fun m s => make_set s b (set_prefix prefix m) (nodes_of o m) (vals_of o m))), D in H'. cbn [option_map make_set] in H'. rewrite En' in H'. destruct (IH _ _ _ _ _ _ _ _ _ (S4 _ _ _ D) H H' E) as [-> ->]. auto.
Qed.

(** ** C87 *)
(** The form at a place is bound to the object at that place (a new one if there is none), submitted or not. *)
Theorem C87_bound_to : forall c b prefix o path g, sane c -> prefix <> Some [] -> walk (make c b (fun l => l) prefix o) path = Some g -> f_instance g = object_at o path.
Proof. intros c b prefix o path g Hs Hp H. apply walk_make in H as (c' & m' & p' & -> & _); [|exact Hs|exact ok_id|exact Hp]. now rewrite make_eq; destruct c'. Qed.
(** Inputs are named after their place. *)
Theorem C87_input_name : forall c b prefix o path l s, sane c -> prefix <> Some [] -> input_name (make c b (fun l => l) prefix o) path l = Some s ->
  s = pre prefix ++ spelled path l.
Proof.
  intros c b prefix o path l s Hs Hp H. unfold input_name in H. destruct (walk _ path) as [g|] eqn:W; [|discriminate]. apply walk_make in W as (c' & m' & p' & -> & H2 & H3 & H4 & H5); [|exact Hs|exact ok_id|exact Hp].
  apply here_make in H as [-> _]; [|assumption..]. rewrite H5, spelled_eq. now rewrite <- app_assoc.
Qed.
(** Two inputs of the page, however deep, never have the same name: what is typed into one cannot reach another. *)
Theorem C87_names_distinct : forall c b prefix o p a q l s, sane c -> prefix <> Some [] ->
  input_name (make c b (fun l => l) prefix o) p a = Some s -> input_name (make c b (fun l => l) prefix o) q l = Some s -> p = q /\ a = l.
Proof.
  intros c b prefix o p a q l s Hs Hp H1 H2.
  assert (G : forall p a, input_name (make c b (fun l => l) prefix o) p a = Some s -> s = pre prefix ++ joinc dash (flat_map pcomp p ++ lcomps a) /\ good_comp (flat_map pcomp p ++ lcomps a)).
  { clear - Hs Hp. intros p a H. split; [rewrite joinc_path by apply lcomps_ne; rewrite <- spelled_eq; eapply C87_input_name; eauto|]. unfold input_name in H. destruct (walk _ p) as [g|] eqn:W; [|discriminate]. split; [intros X; apply app_eq_nil in X as [_ X]; now apply lcomps_ne in X|]. apply Forall_app. split; [eapply good_path; eauto|].
    apply walk_make in W as (c' & m' & p' & -> & W2 & W3 & W4 & W5); [|exact Hs|exact ok_id|exact Hp]. eapply here_make; eauto. }
  destruct (G p a H1) as [E1 G1], (G q l H2) as [E2 G2]. rewrite E1 in E2. apply app_inv_head in E2. apply joinc_inj in E2; [|assumption..]. eapply comps_place; eauto.
Qed.

(** ** what is displayed *)
(** empty forms after the items: [extra], but no more than max_num (1000 by default) in all *)
Definition blanks (op : fopts) (n : nat) : nat :=
  let mx := match fo_max op with Some m => m | None => 1000%Z end in
  if (mx <? 0)%Z then Z.to_nat (fo_extra op) else Z.to_nat (Z.min (fo_extra op) (mx - Z.of_nat n)).
Lemma nth_prefix {A} (d : A) (l : list A) k : map (fun i => or_default d (nth_error l i)) (seq 0 (List.length l + k)) = l ++ repeat d k.
Proof.
  rewrite seq_app, map_app. f_equal.
  - induction l as [|x l IH]; [reflexivity|]. cbn [List.length seq map nth_error or_default]. f_equal. rewrite <- seq_shift, map_map. exact IH.
  - cbn [plus]. generalize (Nat.le_refl (List.length l)). generalize (List.length l) at 2 3. induction k as [|k IH]; intros n Hn; [reflexivity|]. cbn [seq map repeat]. f_equal; [|apply IH; lia]. replace (nth_error l n) with (@None A); [reflexivity|]. symmetry. now apply nth_error_None.
Qed.
Lemma nth_values {A} (l : list A) k : map (fun i => nth_error l i) (seq 0 (List.length l + k)) = map Some l ++ repeat None k.
Proof.
  rewrite seq_app, map_app. f_equal.
  - induction l as [|x l IH]; [reflexivity|]. cbn [List.length seq map nth_error]. f_equal. rewrite <- seq_shift, map_map. exact IH.
  - cbn [plus]. generalize (Nat.le_refl (List.length l)). generalize (List.length l) at 2 3. induction k as [|k IH]; intros n Hn; [reflexivity|]. cbn [seq map repeat]. f_equal; [|apply IH; lia]. now apply nth_error_None.
Qed.
Lemma shown op p n : (0 <= fo_extra op)%Z -> Z.to_nat (total_count None op p (Z.of_nat n)) = n + blanks op n.
Proof.
  intros H. unfold total_count, blanks, max_num, or_default, default_max_num. set (mx := match fo_max op with Some m => m | None => 1000%Z end). clearbody mx.
  rewrite !Z.gtb_ltb, Z.geb_leb. destruct (Z.ltb_spec mx (Z.of_nat n)), (Z.leb_spec 0 mx), (Z.ltb_spec mx (Z.max (Z.of_nat n) 0 + fo_extra op)), (Z.ltb_spec mx 0); cbn [andb]; lia.
Qed.
(** Every item has its form, in order, followed by the empty forms. *)
Theorem C87_displayed : forall c op p (nodes : list (inst V)) vals, (0 <= fo_extra op)%Z ->
  exists total fs, make_set (NodeSet c op) None p nodes vals = NodeForms p (Z.of_nat (List.length nodes)) total (max_num op) fs /\
    map f_instance fs = nodes ++ repeat (Inst None [] [] []) (blanks op (List.length nodes)) /\ total = Z.of_nat (List.length fs).
Proof.
  intros c op p nodes vals He. cbn [make_set node_initial]. eexists _, _. split; [reflexivity|]. rewrite (shown op p _ He). split.
  - rewrite map_map. rewrite <- nth_prefix. apply map_ext. intros i. now rewrite make_eq; destruct c.
  - rewrite map_length, seq_length, <- (shown op p _ He). rewrite Z2Nat.id; [reflexivity|]. unfold total_count, max_num, or_default, default_max_num. set (mx := match fo_max op with Some m => m | None => 1000%Z end). clearbody mx.
    rewrite !Z.gtb_ltb, Z.geb_leb. destruct (Z.ltb_spec mx (Z.of_nat (List.length nodes))), (Z.leb_spec 0 mx), (Z.ltb_spec mx (Z.max (Z.of_nat (List.length nodes)) 0 + fo_extra op)); cbn [andb]; lia.
Qed.
(** Every value of a list has its input, in order, followed by one empty one below 1000 values. *)
Theorem C87_values_displayed : forall p nodes (vals : list V),
  exists total, make_set ValueSet None p nodes vals = ValueForms p (Z.of_nat (List.length vals)) total 1000 (map Some vals ++ repeat None (if Nat.ltb (List.length vals) 1000 then 1 else 0)).
Proof.
  intros p nodes vals. cbn [make_set]. eexists. f_equal. rewrite (shown value_options p) by (cbn; lia). rewrite nth_values. do 2 f_equal.
  unfold blanks. cbn [fo_max fo_extra value_options]. cbn [Z.ltb Z.compare]. destruct (Nat.ltb_spec (List.length vals) 1000); lia.
Qed.

(** what the class and the object say that the page offers: [Some] class of the form at the place *)
Fixpoint offered (c : fclass) (o : inst V) (path : list pstep) : option fclass :=
  match path, c with
  | [], _ => Some c
  | Into n :: r, FClass _ subs _ => match dget n subs with Some c' => offered c' (object_at o [Into n]) r | None => None end
  | Item n i :: r, FClass _ _ sets =>
    match dget n sets, o with
    | Some (NodeSet c' op), Inst _ _ nodes _ =>
      let len := match dget n nodes with Some l => List.length l | None => 0 end in
      if (0 <=? fo_extra op)%Z && Nat.ltb i (len + blanks op len) then offered c' (object_at o [Item n i]) r else None
    | _, _ => None
    end
  end.
Lemma offered_walk : forall path c more prefix o c', (forall l x, In x l -> In x (more l)) -> offered c o path = Some c' ->
  exists more' prefix', (forall l x, In x l -> In x (more' l)) /\ walk (make c None more prefix o) path = Some (make c' None more' prefix' (object_at o path)) /\
    ((path = [] /\ more' = more) \/ (exists p n, path = p ++ [Into n] /\ more' = fun l => l) \/ (exists p n i op, path = p ++ [Item n i] /\ more' = formset_fields op)).
Proof.
  induction path as [|[n|n i] path IH]; intros c more prefix o c' Hm H; destruct c as [fields subs sets].
  - injection H as <-. exists more, prefix. split; [exact Hm|]. split; [reflexivity|auto].
  - cbn [offered] in H. destruct (dget n subs) as [c|] eqn:D; [|discriminate]. cbn [walk]. rewrite make_eq. cbn [f_subs]. rewrite (dget_map (fun m c => make c None (fun l => l) (Some (sub_prefix prefix m)) (sub_of o m))), D. cbn [option_map].
    apply (IH c (fun l => l) (Some (sub_prefix prefix n))) in H as (m' & p' & H1 & H2 & H3); [|auto]. exists m', p'. split; [exact H1|]. split; [destruct o; exact H2|]. right. destruct H3 as [[-> ->]|[(p & n' & -> & ->)|(p & n' & i & op & -> & ->)]]; [left; now exists [], n|left; now exists (Into n :: p), n'|right; now exists (Into n :: p), n', i, op].
  - cbn [offered] in H. destruct (dget n sets) as [[c op|]|] eqn:D; [|discriminate|discriminate]. destruct o as [w os on ov]. match type of H with (if ?x then _ else _) = _ => destruct x eqn:Eb; [|discriminate] end. apply andb_prop in Eb as [Eb1 Eb2]. apply Z.leb_le in Eb1. apply Nat.ltb_lt in Eb2.
    cbn [walk]. rewrite make_eq. cbn [f_sets]. rewrite (dget_map (fun m s => make_set s None (set_prefix prefix m) (nodes_of (Inst w os on ov) m) (vals_of (Inst w os on ov) m))), D. cbn [option_map].
    match goal with |- context [make_set (NodeSet c op) None ?p ?nodes ?vals] => change (make_set (NodeSet c op) None p nodes vals) with (NodeForms p (node_initial None p (List.length nodes)) (total_count None op p (Z.of_nat (List.length nodes))) (max_num op) (map (fun i => make c None (formset_fields op) (Some (form_prefix p i)) (or_default blank (nth_error nodes i))) (seq 0 (Z.to_nat (total_count None op p (Z.of_nat (List.length nodes))))))) end.
    rewrite (shown op _ _ Eb1). assert (L : List.length (nodes_of (Inst w os on ov) n) = match dget n on with Some l => List.length l | None => 0 end) by (cbn; unfold or_default; now destruct (dget n on)). rewrite L.
    rewrite nth_error_map, (nth_error_nth' _ 0) by now rewrite seq_length. rewrite seq_nth by exact Eb2. cbn [option_map plus].
    assert (O : object_at (Inst w os on ov) [Item n i] = or_default blank (nth_error (nodes_of (Inst w os on ov) n) i)) by (cbn [object_at nodes_of]; unfold or_default; destruct (dget n on) as [l|]; [reflexivity|now destruct i]).
    rewrite <- O. apply (IH c (formset_fields op) (Some (form_prefix (set_prefix prefix n) i))) in H as (m' & p' & H1 & H2 & H3).
    + exists m', p'. split; [exact H1|]. split; [exact H2|]. right. destruct H3 as [[-> ->]|[(p & n' & -> & ->)|(p & n' & i' & op' & -> & ->)]]; [right; now exists [], n, i, op|left; now exists (Item n i :: p), n'|right; now exists (Item n i :: p), n', i', op'].
    + intros l x Hx. assert (K : forall k l x, In x l -> In x (add_key k l)) by (intros k l0 x0 H0; unfold add_key; destruct (str_mem k l0); [exact H0|apply in_or_app; now left]). unfold formset_fields. destruct (fo_order op), (fo_delete op); auto.
Qed.
(** Nothing is left out: every form the class and the object ask for is there, with an input for each of its fields (and nothing but the two boxes of
    formset forms besides) and the management form of each of its formsets. *)
Theorem C87_complete : forall c prefix o path fields subs sets, sane c -> prefix <> Some [] -> offered c o path = Some (FClass fields subs sets) ->
  let f := make c None (fun l => l) prefix o in
  (forall x, In x fields -> input_name f path (LField x) = Some (pre prefix ++ key path x)) /\
  (forall x s, input_name f path (LField x) = Some s -> In x fields \/ ((x = u "DELETE" \/ x = u "ORDER") /\ exists p n i, path = p ++ [Item n i])) /\
  (forall n s m, dget n sets = Some s -> In m [u "TOTAL_FORMS"; u "INITIAL_FORMS"; u "MIN_NUM_FORMS"; u "MAX_NUM_FORMS"] -> input_name f path (LManage n m) = Some (pre prefix ++ key path (n ++ [ch "-"] ++ m))) /\
  (forall n i, dget n sets = Some ValueSet -> i < List.length (vals_of (object_at o path) n) + (if Nat.ltb (List.length (vals_of (object_at o path) n)) 1000 then 1 else 0) ->
    exists s, input_name f path (LValue n i) = Some s).
Proof.
  intros c prefix o path fields subs sets Hs Hp H f. subst f. destruct (offered_walk path c (fun l => l) prefix o _ (fun l x Hx => Hx) H) as (m' & p' & H1 & H2 & H3). split; [|split; [|split]].
  - intros x Hx. assert (E : exists s, input_name (make c None (fun l => l) prefix o) path (LField x) = Some s).
    { unfold input_name. rewrite H2, make_eq. cbn [here f_inputs]. rewrite (proj2 (str_mem_In _ _) (H1 _ _ Hx)). eauto. }
    destruct E as [s E]. rewrite E. f_equal. exact (C87_input_name _ _ _ _ _ _ _ Hs Hp E).
  - intros x s. unfold input_name. rewrite H2, make_eq. cbn [here f_inputs]. destruct (str_mem x (m' fields)) eqn:E; [|discriminate]. intros _. apply str_mem_In in E. destruct H3 as [[-> ->]|[(p & n & -> & ->)|(p & n & i & op & -> & ->)]]; [now left|now left|].
    destruct (ok_formset op _ _ E) as [X|[X|X]]; [now left|right; split; [now right|eauto]|right; split; [now left|eauto]].
  - intros n s m Hn Hm. assert (E : exists s, input_name (make c None (fun l => l) prefix o) path (LManage n m) = Some s).
    { unfold input_name. rewrite H2, make_eq. cbn [here f_sets]. rewrite (dget_map (fun m s => make_set s None (set_prefix p' m) (nodes_of (object_at o path) m) (vals_of (object_at o path) m))), Hn. cbn [option_map]. change (In m management) in Hm. rewrite (proj2 (str_mem_In _ _) Hm). eauto. }
    destruct E as [s' E]. rewrite E. f_equal. exact (C87_input_name _ _ _ _ _ _ _ Hs Hp E).
  - intros n i Hn Hi. unfold input_name. rewrite H2, make_eq. cbn [here f_sets]. rewrite (dget_map (fun m s => make_set s None (set_prefix p' m) (nodes_of (object_at o path) m) (vals_of (object_at o path) m))), Hn. cbn [option_map].
    destruct (C87_values_displayed (set_prefix p' n) (nodes_of (object_at o path) n) (vals_of (object_at o path) n)) as [t ->]. rewrite app_length, map_length, repeat_length. rewrite (proj2 (Nat.ltb_lt _ _) Hi). eauto.
Qed.

(** ** submission of what was displayed *)
Lemma make_resubmit : forall c more prefix o m,
  (forall p k mx, In (p, k, mx) (pages (make c None more prefix o)) -> m p = k /\ (fst k <= mx + 1000)%Z) -> make c (Some m) more prefix o = make c None more prefix o.
Proof.
  fix IH 1. intros [fields subs sets] more prefix o m. rewrite !make_eq. cbn [pages].
  intros H. f_equal.
  - assert (H' : forall p k mx, In (p, k, mx) (flat_map (fun nf : str * form V => pages (snd nf)) (map (fun nc => (fst nc, make (snd nc) None (fun l => l) (Some (sub_prefix prefix (fst nc))) (sub_of o (fst nc)))) subs)) -> m p = k /\ (fst k <= mx + 1000)%Z) by (intros; apply H, in_or_app; now left).
    clear H. induction subs as [|[n c] subs IHs]; [reflexivity|]. cbn [map fst snd flat_map] in H' |- *. f_equal.
    + f_equal. apply IH. intros p k mx Hi. apply H', in_or_app. now left.
    + apply IHs. intros p k mx Hi. apply H', in_or_app. now right.
  - assert (H' : forall p k mx, In (p, k, mx) (flat_map (fun ns : str * formset V => set_pages (snd ns)) (map (fun ns => (fst ns, make_set (snd ns) None (set_prefix prefix (fst ns)) (nodes_of o (fst ns)) (vals_of o (fst ns)))) sets)) -> m p = k /\ (fst k <= mx + 1000)%Z) by (intros; apply H, in_or_app; now right).
    clear H. induction sets as [|[n s] sets IHs]; [reflexivity|]. cbn [map fst snd flat_map] in H' |- *. f_equal.
    + f_equal. assert (Hs : forall p k mx, In (p, k, mx) (set_pages (make_set s None (set_prefix prefix n) (nodes_of o n) (vals_of o n))) -> m p = k /\ (fst k <= mx + 1000)%Z) by (intros; apply H', in_or_app; now left).
      clear H' IHs. generalize dependent (nodes_of o n). generalize dependent (vals_of o n). generalize dependent (set_prefix prefix n). intros p vals nodes Hs. destruct s as [c op|].
      * cbn [make_set set_pages] in Hs |- *. destruct (Hs p _ _ (or_introl eq_refl)) as [E1 E2]. cbn [fst] in E2. cbn [node_initial].
        assert (Et : total_count (Some m) op p (Z.of_nat (List.length nodes)) = total_count None op p (Z.of_nat (List.length nodes))). { cbn [total_count]. rewrite E1. cbn [fst]. unfold absolute_max, default_max_num. rewrite Z.min_l by exact E2. reflexivity. }
        rewrite Et. rewrite E1. cbn [snd node_initial]. f_equal. apply map_ext_in. intros i Hi. apply IH. intros p' k mx Hp'. apply Hs. right. apply in_flat_map. exists (make c None (formset_fields op) (Some (form_prefix p i)) (or_default blank (nth_error nodes i))). split; [|exact Hp']. apply in_map_iff. exists i. auto.
      * cbn [make_set set_pages] in Hs |- *. destruct (Hs p _ _ (or_introl eq_refl)) as [E1 E2]. cbn [fst] in E2.
        assert (Et : total_count (Some m) value_options p (Z.of_nat (List.length vals)) = total_count None value_options p (Z.of_nat (List.length vals))). { cbn [total_count]. rewrite E1. cbn [fst]. unfold absolute_max, default_max_num. rewrite Z.min_l by exact E2. reflexivity. }
        now rewrite Et.
    + apply IHs. intros p k mx Hi. apply H', in_or_app. now right.
Qed.
(** A submission that carries the numbers of the page, for an object that has not changed since, makes the very same forms for the same
    objects, unless a formset has more than max_num + 1000 forms. *)
Theorem C87_resubmitted : forall c prefix o m,
  (forall p k mx, In (p, k, mx) (pages (make c None (fun l => l) prefix o)) -> m p = k /\ (fst k <= mx + 1000)%Z) ->
  make c (Some m) (fun l => l) prefix o = make c None (fun l => l) prefix o.
Proof. intros. now apply make_resubmit. Qed.
(** With more, what was displayed cannot be submitted: Django reports an error. *)
Theorem C87_long_list_refuted : forall p nodes (vals : list V) i total mx fs m, 2000 < List.length vals ->
  make_set ValueSet None p nodes vals = ValueForms p i total mx fs -> m p = (total, i) -> too_many (Some m) value_options p = true.
Proof.
  intros p nodes vals i total mx fs m Hl H Hm. cbn [make_set] in H. cbn [too_many]. rewrite Hm. cbn [fst]. assert (T : total_count None value_options p (Z.of_nat (List.length vals)) = total) by congruence. rewrite <- T.
  unfold total_count, absolute_max, max_num, or_default, default_max_num. cbn [fo_max fo_extra value_options]. rewrite !Z.gtb_ltb. destruct (Z.ltb_spec 1000 (Z.of_nat (List.length vals))); [|lia]. cbn [andb Z.geb Z.compare]. apply Z.ltb_lt. lia.
Qed.
End Spec.

(** ** options *)
(** A formset for a declared form class takes each option from the nearest Meta that sets it, in its inheritance order. *)
Theorem C87_options : forall mro sf del ord, sff_meta sf = mro ->
  (forall pre m post x, mro = pre ++ m :: post -> ma_max m = Some x -> (forall y, In y pre -> ma_max y = None) -> fo_max (nodelist_options (Some sf)) = x) /\
  (forall pre m post x, mro = pre ++ m :: post -> ma_extra m = Some x -> (forall y, In y pre -> ma_extra y = None) -> fo_extra (nodelist_options (Some sf)) = x) /\
  (forall pre m post x, mro = pre ++ m :: post -> ma_delete m = Some x -> (forall y, In y pre -> ma_delete y = None) -> fo_delete (nodelist_options (Some sf)) = x) /\
  (forall pre m post x, mro = pre ++ m :: post -> ma_order m = Some x -> (forall y, In y pre -> ma_order y = None) -> fo_order (nodelist_options (Some sf)) = x) /\
  ((forall y, In y mro -> y = mkMA None None None None) -> nodelist_options (Some sf) = mkFO None 1 true false) /\
  nodelist_options (Some (mkSFF mro del ord)) = nodelist_options (Some sf).
Proof.
  intros mro sf del ord E.
  assert (G : forall (A : Type) (get : mattrs -> option A) pre m post x, mro = pre ++ m :: post -> get m = Some x -> (forall y, In y pre -> get y = None) -> meta_attr get mro = Some x).
  { intros A get pre m post x -> Hx Hp. clear E. induction pre as [|y pre IH]; cbn; [now rewrite Hx|]. rewrite (Hp y) by now left. apply IH. intros z Hz. apply Hp. now right. }
  unfold nodelist_options, meta_options. rewrite E. cbn [fo_max fo_extra fo_delete fo_order sff_meta].
  repeat match goal with |- _ /\ _ => split end; try (intros pre m post x H1 H2 H3; rewrite (G _ _ pre m post x H1 H2 H3); reflexivity); [|reflexivity].
  intros Hn. clear G E. assert (X : forall (A : Type) (get : mattrs -> option A), get (mkMA None None None None) = None -> meta_attr get mro = None).
  { intros A get Hg. induction mro as [|y r IH]; [reflexivity|]. cbn. rewrite (Hn y) by now left. rewrite Hg. apply IH. intros z Hz. apply Hn. now right. }
  now rewrite !X by reflexivity.
Qed.
(** xmlobjectform_factory: what is given counts, max_num and extra are otherwise those of the form class it extends *)
Theorem C87_factory : forall a parent, let o := meta_options (factory_meta a parent) in
  fo_max o = match fa_max a with Some m => Some m | None => fo_max (meta_options parent) end /\
  fo_extra o = match fa_extra a with Some x => x | None => fo_extra (meta_options parent) end /\
  (forall d, fa_delete a = Some d -> fo_delete o = d) /\ (forall d, fa_order a = Some d -> fo_order o = d) /\
  (fa_delete a = None -> fo_delete o = fo_delete (meta_options parent)) /\ (fa_order a = None -> fo_order o = fo_order (meta_options parent)).
Proof.
  intros [mx ex de od] parent o. subst o. unfold factory_meta, meta_options. cbn [fo_max fo_extra fo_delete fo_order meta_attr ma_max ma_extra ma_delete ma_order fa_max fa_extra fa_delete fa_order].
  repeat match goal with |- _ /\ _ => split end.
  - now destruct mx.
  - now destruct ex.
  - now intros d ->.
  - now intros d ->.
  - now intros ->.
  - now intros ->.
Qed.
(** but can_delete and can_order of the form class are lost unless given again *)
Theorem C87_factory_refuted : forall mx ex parent, let o := meta_options (factory_meta (mkFA mx ex (Some true) (Some false)) parent) in
  no_args = mkFA None None (Some true) (Some false) /\ fo_delete o = true /\ fo_order o = false.
Proof. intros. repeat split. Qed.
(** SubformField(can_delete=..., can_order=...) has no effect: every form of the formset has the box DELETE exactly if the class says so *)
Theorem C87_subformfield_refuted : forall mro del ord del' ord' (V : Type) c b p (nodes : list (inst V)) vals,
  make_set (NodeSet c (nodelist_options (Some (mkSFF mro del ord)))) b p nodes vals = make_set (NodeSet c (nodelist_options (Some (mkSFF mro del' ord')))) b p nodes vals.
Proof. reflexivity. Qed.
(** the boxes a form of a formset has *)
Theorem C87_boxes : forall V c op b p (nodes : list (inst V)) vals i t mx fs f, make_set (NodeSet c op) b p nodes vals = NodeForms p i t mx fs -> In f fs ->
  (fo_delete op = true -> In (u "DELETE") (f_inputs f)) /\ (fo_order op = true -> In (u "ORDER") (f_inputs f)) /\
  (forall x, match c with FClass fields _ _ => In x fields end -> In x (f_inputs f)) /\
  (forall x, In x (f_inputs f) -> match c with FClass fields _ _ => In x fields end \/ (fo_delete op = true /\ x = u "DELETE") \/ (fo_order op = true /\ x = u "ORDER")).
Proof.
  intros V c op b p nodes vals i t mx fs f H Hf. change (make_set (NodeSet c op) b p nodes vals) with (NodeForms p (node_initial b p (List.length nodes)) (total_count b op p (Z.of_nat (List.length nodes))) (max_num op) (map (fun i => make c b (formset_fields op) (Some (form_prefix p i)) (or_default blank (nth_error nodes i))) (seq 0 (Z.to_nat (total_count b op p (Z.of_nat (List.length nodes))))))) in H. match type of H with NodeForms _ _ _ _ ?l = _ => assert (E : l = fs) by congruence; rewrite <- E in Hf; clear E H end. apply in_map_iff in Hf as (j & <- & _). cbv beta. rewrite make_eq. destruct c as [fields subs sets]. cbn [f_inputs].
  assert (K : forall k l x, In x (add_key k l) <-> In x l \/ x = k).
  { intros k l x. unfold add_key. destruct (str_mem k l) eqn:E; [apply str_mem_In in E; split; [auto|intros [Hx| ->]; auto]|]. rewrite in_app_iff. cbn [In]. split; intros [Hx|Hx]; auto. destruct Hx as [Hx|[]]; auto. }
  unfold formset_fields. destruct (fo_order op), (fo_delete op); repeat match goal with |- _ /\ _ => split end; intros; rewrite ?K in *; intuition (auto; discriminate).
Qed.

(** ** saving after the list changed *)
(** the forms of a submission for the items [items]: form i is for item i, or for the new element [fresh i]; the first [k] are initial *)
Definition page_forms (items : list kid) (fresh : nat -> kid) (k total : nat) (typed : nat -> bool * bool * option N * (str -> str)) : list sform :=
  map (fun i => let '(ch, del, ord, upd) := typed i in mkSForm (match nth_error items i with Some x => x | None => fresh i end) (Nat.ltb i k) ch del ord upd) (seq 0 total).
(** The list is as long as when the page was made: the hypotheses of C51 are met. *)
Theorem C87_submission : forall can_delete s fresh total typed, List.length (listed (fs_kids s)) <= total ->
  NoDup (map kid_id (fs_kids s)) -> (forall i, kid_hit (fresh i) = true /\ ~ In (kid_id (fresh i)) (map kid_id (fs_kids s)) /\ kid_id (fresh i) < fs_next s) ->
  (forall i j, kid_id (fresh i) = kid_id (fresh j) -> i = j) ->
  (forall i x, let '(_, _, _, upd) := typed i in upd (upd x) = upd x) -> (forall x, In x (fs_kids s) -> kid_id x < fs_next s) ->
  submission can_delete (page_forms (listed (fs_kids s)) fresh (List.length (listed (fs_kids s))) total typed) s.
Proof.
  intros cd s fresh total typed Hl Hn Hf Hi Hu Hk. set (items := listed (fs_kids s)) in *. set (n := List.length items) in *.
  assert (Kid : forall i, sf_kid (let '(ch, del, ord, upd) := typed i in mkSForm (match nth_error items i with Some x => x | None => fresh i end) (Nat.ltb i n) ch del ord upd) = match nth_error items i with Some x => x | None => fresh i end) by (intros i; destruct (typed i) as [[[? ?] ?] ?]; reflexivity).
  assert (Ini : forall i, sf_initial (let '(ch, del, ord, upd) := typed i in mkSForm (match nth_error items i with Some x => x | None => fresh i end) (Nat.ltb i n) ch del ord upd) = Nat.ltb i n) by (intros i; destruct (typed i) as [[[? ?] ?] ?]; reflexivity).
  assert (Inn : forall i x, nth_error items i = Some x -> In x (fs_kids s)) by (intros i x Hx; apply nth_error_In in Hx; unfold items, listed in Hx; now apply filter_In in Hx as [Hx _]).
  assert (Nit : NoDup (map kid_id items)). { unfold items, listed. clear - Hn. induction (fs_kids s) as [|x l IH]; [constructor|]. cbn in Hn |- *. inversion Hn as [|? ? N1 N2]; subst. destruct (kid_hit x); [|auto]. cbn. constructor; [|auto]. intros H. apply N1. apply in_map_iff in H as (y & <- & Hy). apply filter_In in Hy as [Hy _]. now apply in_map. }
  unfold submission, page_forms. split.
  - transitivity (map (fun i => match nth_error items i with Some x => x | None => fresh i end) (seq 0 n)).
    + replace total with (n + (total - n)) by lia. rewrite seq_app, map_app, filter_app, map_app. cbn [plus].
      rewrite (filter_all sf_initial (map _ (seq 0 n))); [|intros f Hfi; apply in_map_iff in Hfi as (i & <- & Hi'); rewrite Ini; apply in_seq in Hi'; apply Nat.ltb_lt; lia].
      assert (Z : filter sf_initial (map (fun i => let '(ch, del, ord, upd) := typed i in mkSForm (match nth_error items i with Some x => x | None => fresh i end) (Nat.ltb i n) ch del ord upd) (seq n (total - n))) = []).
      { destruct (filter sf_initial _) as [|f l] eqn:E; [reflexivity|]. assert (In f (f :: l)) by now left. rewrite <- E in H. apply filter_In in H as [H1 H2]. apply in_map_iff in H1 as (i & <- & Hi'). rewrite Ini in H2. apply Nat.ltb_lt in H2. apply in_seq in Hi'. lia. }
      rewrite Z. cbn [map]. rewrite app_nil_r, map_map. apply map_ext. exact Kid.
    + change (filter kid_hit (fs_kids s)) with items. etransitivity; [|etransitivity; [exact (nth_prefix (fresh 0) items 0)|exact (app_nil_r items)]]. rewrite Nat.add_0_r. fold n. apply map_ext_in. intros i Hi'. apply in_seq in Hi'. destruct (nth_error items i) as [x|] eqn:E; [reflexivity|]. apply nth_error_None in E. fold n in E. lia.
  - split.
    + rewrite map_map. unfold fid. rewrite (map_ext _ _ (fun i => f_equal kid_id (Kid i))). 
      assert (Q : forall i j, kid_id (match nth_error items i with Some x => x | None => fresh i end) = kid_id (match nth_error items j with Some x => x | None => fresh j end) -> i = j).
      { intros i j. destruct (nth_error items i) as [x|] eqn:E1, (nth_error items j) as [y|] eqn:E2; intros E.
        - apply (proj1 (NoDup_nth_error _) Nit); [rewrite map_length; apply nth_error_Some; congruence|]. rewrite !nth_error_map, E1, E2. cbn. now rewrite E.
        - exfalso. destruct (Hf j) as (_ & F & _). apply F. rewrite <- E. apply in_map. eauto.
        - exfalso. destruct (Hf i) as (_ & F & _). apply F. rewrite E. apply in_map. eauto.
        - now apply Hi. }
      generalize (seq_NoDup total 0). generalize (seq 0 total). intros l Hnl. induction Hnl as [|i l Hi1 _ IH]; [constructor|]. cbn [map]. constructor; [|exact IH]. intros H. apply in_map_iff in H as (j & E & Hj). apply Q in E. subst j. auto.
    + split; [exact Hn|]. split; [|split; [|split; [exact Hk|]]].
      * intros f Hfi E. apply in_map_iff in Hfi as (i & <- & Hi'). unfold fid. rewrite Kid, Ini in *. apply Nat.ltb_ge in E. replace (nth_error items i) with (@None kid) by (symmetry; now apply nth_error_None). destruct (Hf i) as (H1 & H2 & _). auto.
      * intros f Hfi. apply in_map_iff in Hfi as (i & <- & Hi'). specialize (Hu i). destruct (typed i) as [[[? ?] ?] upd]. cbn [sf_update]. apply Hu.
      * intros f Hfi. apply in_map_iff in Hfi as (i & <- & Hi'). unfold fid. rewrite Kid. destruct (nth_error items i) as [x|] eqn:E; [eauto|]. now destruct (Hf i) as (_ & _ & H3).
Qed.
(** Someone added an item since: what is typed into the empty form replaces the content of that item. *)
Theorem C87_list_grew_refuted : forall s fresh k x upd, nth_error (listed (fs_kids s)) k = Some x ->
  let typed := fun i => if Nat.eqb i k then (true, false, None, upd) else (false, false, None, fun y : str => y) in
  let s' := formset_update true false (page_forms (listed (fs_kids s)) fresh k (S k) typed) s in
  fs_cont s' (kid_id x) = upd (fs_cont s (kid_id x)).
Proof.
  intros s fresh k x upd Hx typed s'. subst s'. unfold formset_update, deleted_forms.
  assert (F : page_forms (listed (fs_kids s)) fresh k (S k) typed = page_forms (listed (fs_kids s)) fresh k k typed ++ [mkSForm x false true false None upd]).
  { unfold page_forms. rewrite seq_S, map_app. cbn [map plus]. f_equal. unfold typed. rewrite Nat.eqb_refl, Hx. now rewrite Nat.ltb_irrefl. }
  assert (U : forall f, In f (page_forms (listed (fs_kids s)) fresh k k typed) -> sf_initial f = true /\ sf_changed f = false /\ sf_delete f = false).
  { intros f Hf. apply in_map_iff in Hf as (i & <- & Hi). apply in_seq in Hi. unfold typed. destruct (Nat.eqb_spec i k); [lia|]. cbn. repeat split. apply Nat.ltb_lt. lia. }
  rewrite F. clear F. revert U. generalize (page_forms (listed (fs_kids s)) fresh k k typed). intros fs U. rewrite !filter_app.
  assert (Z1 : filter (fun f => (sf_initial f || sf_changed f) && sf_delete f) fs = []) by (clear - U; induction fs as [|f fs IH]; [reflexivity|]; cbn; destruct (U f (or_introl eq_refl)) as (H1 & H2 & H3); rewrite H1, H2, H3; cbn; apply IH; intros g Hg; apply U; now right).
  assert (Z2 : filter (fun f => negb (sf_initial f)) fs = []) by (clear - U; induction fs as [|f fs IH]; [reflexivity|]; cbn; destruct (U f (or_introl eq_refl)) as (H1 & H2 & H3); rewrite H1; cbn; apply IH; intros g Hg; apply U; now right).
  rewrite Z1, Z2. cbn [filter sf_initial sf_changed sf_delete orb andb negb app fold_left].
  assert (Z3 : forall l st, (forall f, In f l -> sf_changed f = false) -> fold_left (fun s f => if sf_changed f then save_form f s else s) l st = st) by (clear; induction l as [|f l IH]; intros st H; [reflexivity|]; cbn; rewrite (H f) by (now left); apply IH; intros g Hg; apply H; now right).
  rewrite app_nil_r, Z3; [|intros f Hf; apply filter_In in Hf as [Hf _]; now apply U]. cbn [add_instance fs_cont save_form sf_kid sf_update]. unfold set_cont. now rewrite Nat.eqb_refl.
Qed.
(** An item was removed since: what is typed into the last initial form is saved nowhere. *)
Theorem C87_list_shrank_refuted : forall s fresh k upd, List.length (listed (fs_kids s)) <= k ->
  let typed := fun i => if Nat.eqb i k then (true, false, None, upd) else (false, false, None, fun y : str => y) in
  let s' := formset_update true false (page_forms (listed (fs_kids s)) fresh (S k) (S (S k)) typed) s in
  fs_kids s' = fs_kids s /\ (forall i, i <> kid_id (fresh k) -> fs_cont s' i = fs_cont s i).
Proof.
  intros s fresh k upd Hk typed s'. subst s'. unfold formset_update, deleted_forms.
  assert (D : forall f, In f (page_forms (listed (fs_kids s)) fresh (S k) (S (S k)) typed) -> sf_delete f = false /\ (sf_initial f = false -> sf_changed f = false) /\ (sf_changed f = true -> sf_kid f = fresh k)).
  { intros f Hf. apply in_map_iff in Hf as (i & <- & Hi). apply in_seq in Hi. unfold typed. destruct (Nat.eqb_spec i k) as [->|Ni]; cbn [sf_delete sf_initial sf_changed sf_kid].
    - split; [reflexivity|]. split; [|intros _; now rewrite (proj2 (nth_error_None _ _) Hk)]. intros H. apply Nat.ltb_ge in H. lia.
    - split; [reflexivity|]. split; [reflexivity|discriminate]. }
  revert D. generalize (page_forms (listed (fs_kids s)) fresh (S k) (S (S k)) typed). intros fs D.
  assert (Z1 : filter (fun f => (sf_initial f || sf_changed f) && sf_delete f) fs = []) by (clear - D; induction fs as [|f fs IH]; [reflexivity|]; cbn; destruct (D f (or_introl eq_refl)) as (H1 & _); rewrite H1, andb_false_r; apply IH; intros g Hg; apply D; now right).
  rewrite Z1. cbn [fold_left].
  assert (Z2 : forall l st, (forall f, In f l -> sf_changed f = false) -> fold_left (fun s f => if sf_changed f then add_instance (sf_kid f) (save_form f s) else s) l st = st) by (clear; induction l as [|f l IH]; intros st H; [reflexivity|]; cbn; rewrite (H f) by (now left); apply IH; intros g Hg; apply H; now right).
  rewrite Z2; [|intros f Hf; apply filter_In in Hf as [Hf Hi]; destruct (D f Hf) as (_ & H & _); apply H; now apply negb_true_iff].
  assert (Z3 : forall l st, (forall f, In f l -> In f fs) -> let st' := fold_left (fun s f => if sf_changed f then save_form f s else s) l st in fs_kids st' = fs_kids st /\ forall i, i <> kid_id (fresh k) -> fs_cont st' i = fs_cont st i).
  { clear - D. induction l as [|f l IH]; intros st H st'; [split; reflexivity|]. subst st'. cbn [fold_left]. destruct (IH (if sf_changed f then save_form f st else st) (fun g Hg => H g (or_intror Hg))) as [I1 I2]. cbv zeta in I1, I2. split.
    - etransitivity; [exact I1|]. now destruct (sf_changed f).
    - intros i Hi. rewrite (I2 i Hi). destruct (sf_changed f) eqn:C; [|reflexivity]. destruct (D f (H f (or_introl eq_refl))) as (_ & _ & Hc). cbn [save_form fs_cont]. rewrite (Hc C). unfold set_cont. apply Nat.eqb_neq in Hi. now rewrite Hi. }
  apply Z3. intros f Hf. now apply filter_In in Hf.
Qed.

(** ** concrete cases *)
Open Scope string_scope.
(** a title, a subobject with a list of values, a list of parts (at most three, one more empty form, delete boxes) *)
Definition cls_part : fclass := FClass [u "id"] [] [].
Definition cls_case : fclass := FClass [u "title"] [(u "sub", FClass [u "x"] [] [(u "tags", ValueSet)])] [(u "parts", NodeSet cls_part (mkFO (Some 3%Z) 1 true false))].
Definition obj_case : inst nat := Inst (Some 0) [(u "sub", Inst (Some 1) [] [] [(u "tags", [7; 8])])] [(u "parts", [Inst (Some 2) [] [] []; Inst (Some 3) [] [] []])] [].
Lemma cls_case_sane : sane cls_case.
Proof.
  assert (I : forall s, u s <> [] -> existsb (N.eqb (ch "-")) (u s) = false -> is_ident (u s)) by exact ident_u.
  assert (P : sane cls_part) by (constructor; [intros x [<-|[]]; apply I; vm_compute; (reflexivity || discriminate)|intros n c H; discriminate H|intros n c H; discriminate H|intros n c op H; discriminate H]).
  constructor.
  - intros x [<-|[]]; apply I; vm_compute; (reflexivity || discriminate).
  - intros n c H. cbn [dget] in H. destruct (str_eqb (u "sub") n) eqn:E; [|discriminate]. injection H as <-. apply str_eqb_eq in E. subst n. split; [apply I; vm_compute; (reflexivity || discriminate)|]. split; [vm_compute; reflexivity|]. constructor.
    + intros x [<-|[]]; apply I; vm_compute; (reflexivity || discriminate).
    + intros n c H. discriminate H.
    + intros n s H. cbn [dget] in H. destruct (str_eqb (u "tags") n) eqn:E; [|discriminate]. apply str_eqb_eq in E. subst n. apply I; vm_compute; (reflexivity || discriminate).
    + intros n c op H. cbn [dget] in H. destruct (str_eqb (u "tags") n); discriminate.
  - intros n s H. cbn [dget] in H. destruct (str_eqb (u "parts") n) eqn:E; [|discriminate]. apply str_eqb_eq in E. subst n. apply I; vm_compute; (reflexivity || discriminate).
  - intros n c op H. cbn [dget] in H. destruct (str_eqb (u "parts") n); [|discriminate]. injection H as <- <-. exact P.
Qed.
Example C87_case : let f := make cls_case None (fun l => l) (Some (u "p")) obj_case in sane cls_case /\
  (exists g, walk f [Item (u "parts") 1] = Some g /\ f_instance g = Inst (Some 3) [] [] [] /\ f_inputs g = [u "id"; u "DELETE"]) /\
  (exists g, walk f [Item (u "parts") 2] = Some g /\ f_instance g = Inst None [] [] []) /\ walk f [Item (u "parts") 3] = None /\
  input_name f [Item (u "parts") 1] (LField (u "DELETE")) = Some (u "p-parts-1-DELETE") /\
  input_name f [Into (u "sub")] (LValue (u "tags") 2) = Some (u "p-sub-tags-2-val") /\
  input_name f [Into (u "sub")] (LManage (u "tags") (u "TOTAL_FORMS")) = Some (u "p-sub-tags-TOTAL_FORMS") /\
  offered cls_case obj_case [Item (u "parts") 2] = Some cls_part /\
  pages f = [(u "p-sub-tags", (3%Z, 2%Z), 1000%Z); (u "p-parts", (3%Z, 2%Z), 3%Z)].
Proof.
  cbv zeta. split; [exact cls_case_sane|]. split; [eexists; split; [vm_compute; reflexivity|split; vm_compute; reflexivity]|]. split; [eexists; split; vm_compute; reflexivity|].
  repeat match goal with |- _ /\ _ => split end; vm_compute; reflexivity.
Qed.
(** its submission *)
Example C87_resubmit_case : let m := fun p => if str_eqb p (u "p-sub-tags") then (3%Z, 2%Z) else (3%Z, 2%Z) in
  make cls_case (Some m) (fun l => l) (Some (u "p")) obj_case = make cls_case None (fun l => l) (Some (u "p")) obj_case.
Proof. cbv zeta. vm_compute. reflexivity. Qed.
(** two items when the page was made, three now; the form after the items is filled in *)
Example C87_grew_case : let x i := mkKid i true None in let s := mkFState [x 1; x 2; x 3] (fun i => if Nat.eqb i 3 then u "theirs" else u "old") 9 in
  nth_error (listed (fs_kids s)) 2 = Some (x 3) /\
  fs_cont (formset_update true false (page_forms (listed (fs_kids s)) (fun i => x (10 + i)) 2 3 (fun i => if Nat.eqb i 2 then (true, false, None, fun _ => u "mine") else (false, false, None, fun y => y))) s) 3 = u "mine".
Proof. split; vm_compute; reflexivity. Qed.
(** a field called DELETE is the delete box *)
Example C87_delete_case : formset_fields (mkFO None 1 true false) [u "DELETE"; u "x"] = [u "DELETE"; u "x"].
Proof. vm_compute. reflexivity. Qed.
(** a negative number of extra forms hides items *)
Example C87_extra_case : Z.to_nat (total_count None (mkFO None (-1) true false) (u "p") 2) = 1.
Proof. vm_compute. reflexivity. Qed.
Close Scope string_scope.
Print Assumptions C87_bound_to.
Print Assumptions C87_input_name.
Print Assumptions C87_names_distinct.
Print Assumptions C87_displayed.
Print Assumptions C87_values_displayed.
Print Assumptions C87_complete.
Print Assumptions C87_resubmitted.
Print Assumptions C87_long_list_refuted.
Print Assumptions C87_options.
Print Assumptions C87_factory.
Print Assumptions C87_factory_refuted.
Print Assumptions C87_subformfield_refuted.
Print Assumptions C87_boxes.
Print Assumptions C87_submission.
Print Assumptions C87_list_grew_refuted.
Print Assumptions C87_list_shrank_refuted.
