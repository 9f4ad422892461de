(** What deleting a field takes away, for every supported XPath: C15. *)
From Coq Require Import String Arith Permutation.
From Verif Require Export FieldUndo MapperProofs FieldRefuse Props_Fields FieldLost.
From Verif Require Import XPathEval FieldSpec DocSpec LostSpec.
Import ListNotations.

(** The elements, attributes and comments that are gone are, counted with repetitions, among those that the XPath names with a step (one
    for every step of the path and of its [... = value] predicates) and those inside the first match.  Whether the call succeeds or not. *)
Theorem C15_loses_only_named : forall E s e d d' r, parse s = Ok e -> supported_path E e = true -> tag_of d <> None -> field_delete E s d = (d', r) ->
  exists lost, Permutation (contents d) (contents d' ++ lost) /\ part_of lost (mentioned E e ++ inside_match E e d).
Proof. intros E s e d d' r H. with_parse H. apply delete_lost. Qed.
(** And the document changes in one place: one subtree on the way to the match, one attribute, or one text. *)
Theorem C15_one_place : forall E s e d d' r, parse s = Ok e -> supported_path E e = true -> tag_of d <> None -> field_delete E s d = (d', r) -> one_place E e d d'.
Proof. intros E s e d d' r H. with_parse H. apply delete_shape. Qed.
(** so whatever has a name on its way that the XPath does not mention stays, as often as it was there *)
Lemma count_filter {A} (f : A -> bool) a b : Permutation a b -> length (filter f a) = length (filter f b).
Proof. induction 1; cbn; try reflexivity; repeat (destruct (f _); cbn); try congruence; lia. Qed.
Theorem C15_unnamed_kept : forall E s e d d' r (f : list named -> bool), parse s = Ok e -> supported_path E e = true -> tag_of d <> None -> field_delete E s d = (d', r) ->
  (forall w, In w (mentioned E e) \/ In w (inside_match E e d) -> f w = false) -> length (filter f (contents d')) = length (filter f (contents d)).
Proof.
  intros E s e d d' r f H Hs Hd Hm Hf. destruct (C15_loses_only_named E s e d d' r H Hs Hd Hm) as (lost & P & rest & Q). rewrite (count_filter f _ _ P), filter_app, app_length.
  replace (filter f lost) with (@nil (list named)); [cbn; lia|]. symmetry. assert (G : forall w, In w lost -> f w = false).
  { intros w Hw. apply Hf. apply in_app_or. eapply Permutation_in; [symmetry; exact Q|]. apply in_or_app. now left. }
  clear -G. induction lost as [|w l IH]; [reflexivity|]. cbn. rewrite (G w (or_introl eq_refl)). apply IH. intros x Hx. apply G. now right.
Qed.
(** and at most one element or attribute per step of the XPath goes, besides what is in the match *)
Theorem C15_at_most_one_per_step : forall E s e d d' r, parse s = Ok e -> supported_path E e = true -> tag_of d <> None -> field_delete E s d = (d', r) ->
  length (contents d) <= length (contents d') + length (mentioned E e) + length (inside_match E e d).
Proof.
  intros E s e d d' r H Hs Hd Hm. destruct (C15_loses_only_named E s e d d' r H Hs Hd Hm) as (lost & P & rest & Q).
  apply Permutation_length in P. apply Permutation_length in Q. rewrite !app_length in *. lia.
Qed.

Open Scope string_scope.
(** predicates on child elements: the element goes when nothing else is in it ... *)
Definition lost_e := xp "a[b/@k='x'][c='y']/d".
Definition lost_d (more : list node) := el "r" [] "" [el "a" [] "" (app [el "b" [("k", "x")] "" []; el "c" [] "y" []; el "d" [] "v" [el "z" [] "" []]] more)].
Example C15_case_elements : parse (u "a[b/@k='x'][c='y']/d") = Ok lost_e /\ supported_path E0 lost_e = true /\ length (mentioned E0 lost_e) = 5 /\ length (contents (lost_d [])) = 6 /\
  field_delete E0 (u "a[b/@k='x'][c='y']/d") (lost_d []) = (el "r" [] "" [], Ret tt) /\
  (* ... and stays when there is something else *)
  field_delete E0 (u "a[b/@k='x'][c='y']/d") (lost_d [el "c" [] "y" []]) = (el "r" [] "" [el "a" [] "" [el "b" [("k", "x")] "" []; el "c" [] "y" []; el "c" [] "y" []]], Ret tt).
Proof. conjs; vm_compute; reflexivity. Qed.
Close Scope string_scope.
Print Assumptions C15_loses_only_named.
Print Assumptions C15_one_place.
Print Assumptions C15_unnamed_kept.
Print Assumptions C15_at_most_one_per_step.
