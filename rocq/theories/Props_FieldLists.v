(** Dotted field lists of forms: C39. *)
From Coq Require Import String List Arith NArith Bool Lia.
From Verif Require Import PyStr Classes ClassProofs FieldLists FieldListProofs.
Import ListNotations.
Opaque u.

(** ** Specification.  A path is a sequence of names without dots; [dotted] writes it as Python code does. *)
Definition is_name (s : str) : Prop := ~ In (ch ".") s.
Definition is_path (p : list str) : Prop := Forall is_name p.
Fixpoint dotted (p : list str) : str := match p with [] => [] | [x] => x | x :: r => x ++ ch "." :: dotted r end.
(** the name itself is listed *)
Definition listed (names : list str) (p : list str) : Prop := In (dotted p) names.
(** something below it is listed *)
Definition listed_below (names : list str) (p : list str) : Prop := exists q, q <> [] /\ is_path q /\ listed names (p ++ q).
(** what a parsed list holds for the (sub)form at [path]: nothing, or a list of names *)
Fixpoint fields_at (t : pfl) (path : list str) : option (list str) :=
  match path with
  | [] => Some (p_fields t)
  | n :: r => match dget n (p_subs t) with Some t' => fields_at t' r | None => None end
  end.

Lemma dotted_joinc p : dotted p = joinc (ch ".") p.
Proof. induction p as [|x [|y p] IH]; [reflexivity|reflexivity|]. change (dotted (x :: y :: p)) with (x ++ ch "." :: dotted (y :: p)). now rewrite IH. Qed.
Lemma fields_at_level : forall path t, fields_at t path = option_map p_fields (level t path).
Proof. induction path as [|n r IH]; intros t; cbn; [reflexivity|]. destruct (dget n (p_subs t)); [apply IH|reflexivity]. Qed.
Lemma under_listed names path q : is_path path -> (In q (flat_map (under path) (map (split_on (ch ".")) names)) <-> q <> [] /\ is_path q /\ listed names (path ++ q)).
Proof.
  intros Hp. rewrite in_flat_map. split.
  - intros (p & Hp1 & Hp2). apply under_In in Hp2 as [Hq ->]. pose proof Hp1 as Hf. apply in_map_iff in Hf as (s & Hs & _). pose proof (split_free (ch ".") s) as Hfree. rewrite Hs in Hfree.
    split; [assumption|]. assert (Hfr := Hfree). apply Forall_app in Hfree as [_ Hfree]. split; [exact Hfree|]. unfold listed. rewrite dotted_joinc. apply In_split; [|exact Hfr|assumption]. intros H. apply app_eq_nil in H as [_ H]. contradiction.
  - intros (Hq & Hq2 & Hl). exists (path ++ q). split; [|apply under_In; auto]. apply In_split; [intros H; apply app_eq_nil in H as [_ H]; contradiction|apply Forall_app; auto|]. rewrite <- dotted_joinc. exact Hl.
Qed.

(** ** C39: at every depth, a level exists exactly for the paths with something listed below them (and for the form itself) ... *)
Theorem C39_levels : forall names incl path, is_path path ->
  (exists fs, fields_at (parse_field_list names incl) path = Some fs) <-> path = [] \/ listed_below names path.
Proof.
  intros names incl path Hp. rewrite fields_at_level. destruct (parse_level names incl path) as [(-> & f & _ & ->)|[(Hn & Hu & ->)|(Hn & Hu & f & _ & ->)]]; cbn.
  - split; [auto|eauto].
  - split; [intros [? H]; discriminate|]. intros [->|(q & H)]; [contradiction|]. apply under_listed in H; [|assumption]. rewrite Hu in H. contradiction.
  - split; [|eauto]. intros _. right. destruct (flat_map _ _) as [|q qs] eqn:E; [contradiction|]. exists q. apply under_listed; [assumption|]. rewrite E. now left.
Qed.
(** ... and the names selected there are the listed ones, and for inclusion lists also the parents of listed ones *)
Theorem C39_selected : forall names incl path y, is_path path ->
  (exists fs, fields_at (parse_field_list names incl) path = Some fs /\ In y fs) <->
  is_name y /\ (listed names (path ++ [y]) \/ (incl = true /\ listed_below names (path ++ [y]))).
Proof.
  intros names incl path y Hp. rewrite fields_at_level.
  assert (K : forall fuel, 1 <= fuel -> In y (p_fields (collect fuel incl (flat_map (under path) (map (split_on (ch ".")) names)))) <->
    is_name y /\ (listed names (path ++ [y]) \/ (incl = true /\ listed_below names (path ++ [y])))).
  { intros fuel Hf. set (L := flat_map (under path) (map (split_on (ch ".")) names)). assert (HL : forall q, In q L <-> q <> [] /\ is_path q /\ listed names (path ++ q)) by (intros q; now apply under_listed). clearbody L.
    destruct incl.
    - rewrite (proj2 (collect_fields_incl fuel L Hf)), in_flat_map. split.
      + intros (q & Hq & Hy). apply HL in Hq as (Hq1 & Hq2 & Hq3). destruct q as [|h r]; [contradiction|]. cbn in Hy. destruct Hy as [->|[]]. inversion Hq2; subst. split; [assumption|].
        destruct r as [|x r]; [auto|]. right. split; [reflexivity|]. exists (x :: r). split; [discriminate|]. split; [assumption|]. now rewrite <- app_assoc.
      + intros [Hy [Hl|(_ & q & Hq1 & Hq2 & Hq3)]].
        * exists [y]. split; [apply HL; split; [discriminate|split; [now constructor|assumption]]|now left].
        * exists (y :: q). split; [apply HL; split; [discriminate|split; [now constructor|now rewrite <- app_assoc in Hq3]]|now left].
    - rewrite collect_fields_excl by assumption. rewrite in_flat_map. split.
      + intros (q & Hq & Hy). apply HL in Hq as (Hq1 & Hq2 & Hq3). destruct q as [|h [|x r]]; cbn in Hy; [contradiction| |contradiction]. destruct Hy as [->|[]]. inversion Hq2; subst. auto.
      + intros [Hy [Hl|[Hx _]]]; [|discriminate]. exists [y]. split; [apply HL; split; [discriminate|split; [now constructor|assumption]]|now left]. }
  destruct (parse_level names incl path) as [(-> & f & Hf & ->)|[(Hn & Hu & ->)|(Hn & Hu & f & Hf & ->)]]; cbn [option_map].
  - rewrite <- (K f Hf). split; [intros (fs & [= <-] & H); exact H|intros H; eexists; split; [reflexivity|exact H]].
  - split; [intros (fs & H & _); discriminate|]. intros G. apply (K 1 (le_n 1)) in G. rewrite Hu in G. cbn in G. now destruct incl.
  - rewrite <- (K f Hf). split; [intros (fs & [= <-] & H); exact H|intros H; eexists; split; [reflexivity|exact H]].
Qed.

(** ** order.  [mentions path names]: for each listed name in turn, the component after [path]; [exact]: only if it is the last one *)
Fixpoint after (path p : list str) : list str :=
  match path, p with
  | [], _ => p
  | n :: r, h :: q => if str_eqb h n then after r q else []
  | _, [] => []
  end.
Definition mentions (names : list str) (path : list str) : list str :=
  flat_map (fun s => match after path (split_on (ch ".") s) with y :: _ => [y] | [] => [] end) names.
Definition exact_mentions (names : list str) (path : list str) : list str :=
  flat_map (fun s => match after path (split_on (ch ".") s) with [y] => [y] | _ => [] end) names.
Lemma after_strip path p : after path p = match strip path p with Some q => q | None => [] end.
Proof. revert p. induction path as [|n r IH]; intros [|h q]; cbn; try reflexivity. destruct (str_eqb h n); [apply IH|reflexivity]. Qed.
Lemma mentions_under names path : flat_map heads (flat_map (under path) (map (split_on (ch ".")) names)) = mentions names path.
Proof.
  unfold mentions. induction names as [|s names IH]; cbn [map flat_map]; [reflexivity|]. rewrite flat_map_app, IH. f_equal. rewrite after_strip. unfold under. destruct (strip path _) as [[|]|]; reflexivity.
Qed.
Lemma exact_under names path : flat_map leaves (flat_map (under path) (map (split_on (ch ".")) names)) = exact_mentions names path.
Proof.
  unfold exact_mentions. induction names as [|s names IH]; cbn [map flat_map]; [reflexivity|]. rewrite flat_map_app, IH. f_equal. rewrite after_strip. unfold under. destruct (strip path _) as [[|x [|y r]]|]; reflexivity.
Qed.
(** Exclusion lists hold the names exactly in the order (and as often as) listed. *)
Theorem C39_order_exclude : forall names path fs, fields_at (parse_field_list names false) path = Some fs -> fs = exact_mentions names path.
Proof.
  intros names path fs. rewrite fields_at_level, <- exact_under. destruct (parse_level names false path) as [(-> & f & Hf & ->)|[(Hn & Hu & ->)|(Hn & Hu & f & Hf & ->)]]; cbn [option_map]; [|discriminate|]; intros [= <-]; now apply collect_fields_excl.
Qed.
(** Inclusion lists hold them in the order of their first mention (first occurrences: [firsts]). *)
Theorem C39_order_include : forall names path fs, fields_at (parse_field_list names true) path = Some fs -> firsts fs = firsts (mentions names path).
Proof.
  intros names path fs. rewrite fields_at_level, <- mentions_under. destruct (parse_level names true path) as [(-> & f & Hf & ->)|[(Hn & Hu & ->)|(Hn & Hu & f & Hf & ->)]]; cbn [option_map]; [|discriminate|]; intros [= <-]; now apply collect_fields_incl.
Qed.
(** [firsts] keeps one of each, in the order of first occurrence *)
Theorem C39_firsts_spec : forall l, NoDup (firsts l) /\ (forall x, In x (firsts l) <-> In x l) /\
  forall l1 x l2, l = l1 ++ x :: l2 -> ~ In x l1 -> exists m, firsts l = firsts l1 ++ x :: m.
Proof.
  intros l. split; [apply firsts_NoDup|]. split; [intros x; apply firsts_In|]. intros l1 x l2 -> Hx. unfold firsts. rewrite firsts_from_app. cbn. rewrite app_nil_r.
  destruct (str_mem x l1) eqn:E; [apply str_mem_In in E; contradiction|]. eauto.
Qed.

Open Scope string_scope.
Definition names0 : list str := map u ["id"; "part.sub.x"; "title"; "part"; "part.sub.y"; "part.z"; "id"].
Example C39_case : is_path (map u ["part"; "sub"]) /\
  fields_at (parse_field_list names0 true) [] = Some (map u ["id"; "part"; "title"; "part"; "id"]) /\
  fields_at (parse_field_list names0 false) [] = Some (map u ["id"; "title"; "part"; "id"]) /\
  fields_at (parse_field_list names0 true) [u "part"] = Some (map u ["sub"; "z"]) /\
  fields_at (parse_field_list names0 false) [u "part"] = Some (map u ["z"]) /\
  fields_at (parse_field_list names0 true) (map u ["part"; "sub"]) = Some (map u ["x"; "y"]) /\
  fields_at (parse_field_list names0 true) (map u ["title"]) = None.
Proof.
  split; [|vm_compute; tauto]. assert (G : forall s, existsb (N.eqb (ch ".")) (u s) = false -> is_name (u s)).
  { intros s H Hi. assert (K : existsb (N.eqb (ch ".")) (u s) = true) by (apply existsb_exists; exists (ch "."); split; [assumption|apply N.eqb_refl]). congruence. }
  repeat constructor; apply G; vm_compute; reflexivity.
Qed.
Close Scope string_scope.

Print Assumptions C39_levels.
Print Assumptions C39_selected.
Print Assumptions C39_order_exclude.
Print Assumptions C39_order_include.
Print Assumptions C39_firsts_spec.
