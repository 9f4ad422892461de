(** C20: setting a missing field and deleting it again restores the document, for every supported path whose predicates compare
    a path with a value, at any depth. *)
From Coq Require Import String Arith Lia Permutation.
From Verif Require Export FieldUndoEq MapperProofs FieldRefuse Props_Fields.
From Verif Require Import XPathEval FieldSpec DocSpec.

Opaque u.

(** no part of the path to the left of the last step exists already *)
Theorem C20_set_then_delete_values_partial : forall E s e v d d1,
  parse s = Ok e -> supported_path E e = true -> tag_of d <> None -> lkind E e <> Some KText -> value_preds e = true ->
  (forall l, In l (lefts e) -> last_step l <> None -> selects E l d = []) ->
  selects E e d = [] -> string_set E s (Some v) d = (d1, Ret tt) -> field_delete E s d1 = (d, Ret tt).
Proof.
  intros E s e v d d1 H. with_parse H. intros Hs Hd Hl He Hm. apply set_delete_eq; auto.
  intros l b n rest Hin Hsel. unfold holds_more. destruct (last_step l) eqn:Hls; [|now left]. rewrite (Hm l Hin) in Hsel; [discriminate|]. congruence.
Qed.

(** the same when the existing elements on the path hold an element, attribute, comment or processing instruction beyond what the
    predicates of their step name *)
Theorem C20_set_then_delete_more_partial : forall E s e v d d1,
  parse s = Ok e -> supported_path E e = true -> tag_of d <> None -> lkind E e <> Some KText -> value_preds e = true ->
  (forall l b n rest, In l (lefts e) -> selects E l d = IElem b n :: rest -> holds_more E l n) ->
  selects E e d = [] -> string_set E s (Some v) d = (d1, Ret tt) -> field_delete E s d1 = (d, Ret tt).
Proof. intros E s e v d d1 H. with_parse H. apply set_delete_eq. Qed.

Open Scope string_scope.
(** An existing element whose predicate compares an attribute of a child: the first such child need not be the one that has the
    attribute, and the deletion ends in KeyError (after the field's own element is gone). *)
Theorem C20_key_error_refuted : let d := el "r" [] "" [el "a" [] "" [el "b" [] "" []; el "b" [("t", "x")] "" []]] in
  let s := u "a[b/@t='x']/c" in
  exists d1, string_set E0 s (Some (u "v")) d = (d1, Ret tt) /\ field_delete E0 s d1 = (d, Exc XKey).
Proof. cbv zeta. eexists. split; vm_compute; reflexivity. Qed.
(** An existing element that holds no more than its predicates name goes with the field. *)
Theorem C20_existing_lost_refuted : let d := el "r" [] "" [el "a" [] "" [el "b" [] "x" []]] in let s := u "a[b='x']/c" in
  exists d1, string_set E0 s (Some (u "v")) d = (d1, Ret tt) /\ field_delete E0 s d1 = (el "r" [] "" [], Ret tt).
Proof. cbv zeta. eexists. split; vm_compute; reflexivity. Qed.

Lemma part_len {A} (xs ys : list A) : part_of xs ys -> List.length xs <= List.length ys.
Proof. intros [r H]. apply Permutation_length in H. rewrite app_length in H. lia. Qed.

Definition undo_path := "a[b='x'][@t='y'][b/c[@k=1]/d='z']/e[f/@g='w']/h".
Example C20_values_case : let e := xp undo_path in let d := el "r" [] "" [el "x" [] "" []] in
  parse (u undo_path) = Ok e /\ supported_path E0 e = true /\ lkind E0 e <> Some KText /\ value_preds e = true /\ selects E0 e d = [] /\
  (forall l, In l (lefts e) -> last_step l <> None -> selects E0 l d = []) /\
  exists d1, string_set E0 (u undo_path) (Some (u "v")) d = (d1, Ret tt) /\ d1 <> d /\ field_delete E0 (u undo_path) d1 = (d, Ret tt).
Proof.
  split; [vm_compute; reflexivity|]. split; [vm_compute; reflexivity|]. split; [vm_compute; discriminate|]. split; [vm_compute; reflexivity|]. split; [vm_compute; reflexivity|].
  split; [|eexists; split; [vm_compute; reflexivity|split; [discriminate|vm_compute; reflexivity]]]. intros l Hl _. vm_compute in Hl. destruct Hl as [<-|[<-|[]]]; vm_compute; reflexivity.
Qed.
Example C20_more_case : let e := xp "a[b='x']/c" in let d := el "r" [] "" [el "a" [] "" [el "b" [] "x" []; el "b" [] "x" []]] in
  supported_path E0 e = true /\ lkind E0 e <> Some KText /\ value_preds e = true /\ selects E0 e d = [] /\
  (forall l b n rest, In l (lefts e) -> selects E0 l d = IElem b n :: rest -> holds_more E0 l n) /\
  exists d1, string_set E0 (u "a[b='x']/c") (Some (u "v")) d = (d1, Ret tt) /\ d1 <> d.
Proof.
  split; [vm_compute; reflexivity|]. split; [vm_compute; discriminate|]. split; [vm_compute; reflexivity|]. split; [vm_compute; reflexivity|].
  split; [|eexists; split; [vm_compute; reflexivity|discriminate]].
  intros l b n rest Hl Hsel. vm_compute in Hl. destruct Hl as [<-|[]]. vm_compute in Hsel. injection Hsel as <- <- <-. right. split; [vm_compute; reflexivity|].
  intros H. apply part_len in H. vm_compute in H. lia.
Qed.
Close Scope string_scope.

Print Assumptions C20_set_then_delete_values_partial.
Print Assumptions C20_set_then_delete_more_partial.
