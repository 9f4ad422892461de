(** C90, text made through 'l/text()' (xmlmap/fields.py:276-427): assigning to a field that finds nothing writes the text of the first element [l] finds, if that has no children. *)
From Coq Require Import String Arith ZArith NArith List Lia Bool.
From Verif Require Import FieldUndo FieldUndoEq MapperProofs FieldRefuse Props_Fields Props_Mappers NodeList ListSpec ListOps ListFacts ListSim ReadSpec EvalSpec EvalMeaning EvalOrder EvalMain EvalValues EvalFuns EvalAgree Shipped EnvAgree Props_Shipped EvalBlind Props_Eval Props_Write Props_WriteList EvalRemove Props_RemoveList Props_AttrList Props_CreateAttr.
From Verif Require Import XPathEval FieldSpec DocSpec ListSpec XPathRead EvalSpec.
Import ListNotations.

Lemma text_step E ax c i : ax = None \/ ax = Some (u "child") -> step_to E ax (NodeType (u "text") None) c i <-> child c i /\ is_text i.
Proof.
  intros Ax. split.
  - intros H. inversion H as [ax0 t0 c0 i0 Hax Hc Hw|ax0 p0 n0 c0 i0 Hax|t0 c0 Hw|t0 c0 i0 Hi Hw|t0 c0 i0 Hi Hw]; subst; try (destruct Ax as [Ax|Ax]; discriminate Ax). split; [exact Hc|exact (proj2 Hw)].
  - intros [H1 H2]. apply to_child; [exact Ax|exact H1|split; [reflexivity|exact H2]].
Qed.
Theorem C90_create_text : forall E s l ax (v : str) d a q ats t ks, let e := EBin l (u "/") (EStep ax (NodeType (u "text") None) []) in
  parse s = Ok e -> readable E e = true -> attributes_distinct d -> (forall i, ~ picks E e d i) -> ax = None \/ ax = Some (u "child") -> reread l = Some l ->
  first_of d (picks E l d) (IElem a (Elem q ats t ks)) ->
  (ks <> [] -> string_set E s (Some v) d = (d, Exc XNotText)) /\
  (ks = [] -> ~ Forall xml_character v -> string_set E s (Some v) d = (d, Exc XValue)) /\
  (ks = [] -> Forall xml_character v -> exists d', string_set E s (Some v) d = (d', Ret tt) /\ same_except a d d' /\ get_at a d' = Some (Elem q ats (Some v) []) /\
     (bare l = true -> v <> [] -> first_of d' (picks E e d') (IText a false v) /\ string_get E s d' = Ret (Some v))).
Proof.
  intros E s l ax v d a q ats t ks e Hp R D H Ax Rr F. destruct (slash_parts E l _ R) as (Rl & Pl & Rs & Ps).
  destruct (first_list_of E l d _ Rl Pl D F) as (l' & _ & O & _). assert (Hr : exists r, route d _ r) by (inversion O; eassumption). destruct Hr as [r Hr]. apply valid_item in Hr.
  assert (Set0 : string_set E s (Some v) d = match ks with [] => set_text_at a (Some v) d | _ => (d, Exc XNotText) end).
  { unfold string_set, with_xpath. rewrite Hp. unfold mgr_set, bind at 1, reading. rewrite (not_found E e d R eq_refl D H). unfold e. cbn [build]. change (str_eqb (u "/") (u "/")) with true. cbn iota.
    unfold bind at 1 2, reading. rewrite (found_first E l d _ Rl Pl D F Rr). cbn [ref_of]. change (str_eqb (u "text") (u "text")) with true. cbn iota. unfold bind, ret. cbn [set_in_xml]. rewrite Hr. reflexivity. }
  rewrite Set0. unfold set_text_at. split; [|split].
  - intros K. destruct ks; [now destruct K|reflexivity].
  - intros -> V. destruct (xml_valid v) eqn:Ev; [|reflexivity]. destruct V. now apply xml_valid_iff.
  - intros -> V. apply xml_valid_iff in V. rewrite V. pose (d' := upd_at a (set_text (Some v)) d). exists d'. assert (G' : get_at a d' = Some (Elem q ats (Some v) [])) by (unfold d'; now rewrite (get_upd_same a _ d _ Hr)).
    assert (Se : same_except a d d') by (unfold d'; apply (same_except_upd a _ d _ Hr); reflexivity). split; [reflexivity|]. split; [exact Se|]. split; [exact G'|]. intros B Vn.
    assert (Sh : forall c n1 n2, c <> a -> get_at c d = Some n1 -> get_at c d' = Some n2 -> shell n1 = shell n2) by (intros c n1 n2 Hc G1 G2; pose proof (Se c Hc) as Hs; rewrite G1, G2 in Hs; cbn [option_map] in Hs; congruence).
    assert (S1 : same_tags d d').
    { intros c. destruct (list_eq_dec Nat.eq_dec c a) as [->|Nc]; [now rewrite Hr, G'|]. pose proof (Se c Nc) as Hs. destruct (get_at c d) as [m0|] eqn:G0, (get_at c d') as [m1|] eqn:G1; try discriminate Hs; [|reflexivity]. cbn [option_map] in *. unfold shell in Hs. injection Hs as X1 _ _ _. now rewrite X1. }
    assert (S2 : same_tags d' d) by (intros c; symmetry; apply S1).
    assert (D' : attributes_distinct d').
    { intros c m Gm. destruct (list_eq_dec Nat.eq_dec c a) as [->|Nc]; [rewrite G' in Gm; injection Gm as <-; exact (D a _ Hr)|]. pose proof (Se c Nc) as Hs. rewrite Gm in Hs. destruct (get_at c d) as [m0|] eqn:G0; [|discriminate]. cbn [option_map] in Hs. unfold shell in Hs. injection Hs as _ X2 _ _. rewrite X2. exact (D c m0 G0). }
    assert (Fi : first_of d' (picks E e d') (IText a false v)).
    { split.
      - apply means_slash. exists (IElem a (Elem q ats (Some v) [])). split; [exact (proj1 (twin_first E d d' l a _ _ S1 B Hr G' F))|]. cbn [means set_of fold_left]. apply text_step; [exact Ax|]. split; constructor.
      - intros j Hj. left. apply means_slash in Hj as (x & Hx & Hj). cbn [means set_of fold_left] in Hj. apply text_step in Hj as [Hc Ht]; [|exact Ax].
        assert (T1 : twin d' d (IElem [] d') (IElem [] d)) by (exists [], d', d; repeat split). destruct (twin_bare E d' d S2 l B _ _ 1 1 _ T1 Hx) as (i' & Hi & (b & m' & m & -> & -> & Gm' & Gm)). destruct (list_eq_dec Nat.eq_dec b a) as [->|Nc].
        + rewrite G' in Gm'. injection Gm' as <-. inversion Hc as [? ? ? ? ? ? ? ? Hk| |? ? ? ? ? ? ? ? Hk]; subst; [inversion Ht|reflexivity|destruct k; discriminate Hk].
        + exfalso. pose proof (Sh b m m' Nc Gm Gm') as Hs. unfold shell in Hs. injection Hs as X1 X2 X3 X4. destruct m' as [q' ats' t' ks'|]; [|inversion Hc]. destruct m as [q2 ats2 t2 ks2|]; [|discriminate X1]. cbn in X1, X2, X3, X4. injection X1 as ->. subst ats2 t2.
          assert (Hc' : child (IElem b (Elem q' ats' t' ks2)) j).
          { inversion Hc as [? ? ? ? ? k x tl Hk|? ? ? s0 ?|? ? ? ? ? k x s0 Hk]; subst; [inversion Ht|constructor|]. assert (Hk2 : nth_error (map snd ks2) k = Some (Some s0)) by (rewrite X4, nth_error_map, Hk; reflexivity). rewrite nth_error_map in Hk2. destruct (nth_error ks2 k) as [[x2 tl2]|] eqn:Hk3; [|discriminate]. cbn in Hk2. injection Hk2 as ->. now apply (child_tail b q' ats' t' ks2 k x2 s0). }
          apply (H j). apply means_slash. eexists. split; [exact Hi|]. cbn [means set_of fold_left]. apply text_step; [exact Ax|]. now split. }
    split; [exact Fi|]. destruct (first_list_of E e _ _ R eq_refl D' Fi) as (l1 & El' & _ & _). unfold string_get. rewrite Hp. unfold get_string. now rewrite El'.
Qed.

(** ** concrete cases: [.//b/text()] where no [b] has text; [.//s/text()] is refused since [s] has a child *)
Open Scope string_scope.
Example C90_create_text_case : readable E0 (xp ".//b/text()") = true /\ bare (xp ".//b") = true /\ string_get E0 (u ".//e/text()") tray = Ret None /\
  let d := el "r" [] "" [el "s" [] "" [el "b" [] "" []]; el "b" [] "" []] in string_get E0 (u ".//b/text()") d = Ret None /\
  (exists d', string_set E0 (u ".//b/text()") (Some (u "hi")) d = (d', Ret tt) /\ string_get E0 (u ".//b/text()") d' = Ret (Some (u "hi")) /\ get_at [0; 0]%nat d' = Some (el "b" [] "hi" []) /\ get_at [1]%nat d' = Some (el "b" [] "" [])) /\
  string_set E0 (u ".//s/text()") (Some (u "hi")) d = (d, Exc XNotText).
Proof. split; [vm_compute; reflexivity|]. split; [vm_compute; reflexivity|]. split; [vm_compute; reflexivity|]. intros d. split; [vm_compute; reflexivity|]. split; [eexists; split; [vm_compute; reflexivity|]; split; [vm_compute; reflexivity|]; split; vm_compute; reflexivity|vm_compute; reflexivity]. Qed.
Example C90_create_text_fits : let d := el "r" [] "" [el "s" [] "" [el "b" [] "" []]; el "b" [] "" []] in parse (u ".//b/text()") = Ok (EBin (xp ".//b") (u "/") (EStep None (NodeType (u "text") None) [])) /\ attributes_distinct d /\ (forall i, ~ picks E0 (xp ".//b/text()") d i) /\ reread (xp ".//b") = Some (xp ".//b") /\
  first_of d (picks E0 (xp ".//b") d) (IElem [0; 0]%nat (el "b" [] "" [])).
Proof.
  intros d. assert (R : readable E0 (xp ".//b/text()") = true) by (vm_compute; reflexivity). assert (Rl : readable E0 (xp ".//b") = true) by (vm_compute; reflexivity). assert (D : attributes_distinct d) by (apply dist_ok; vm_compute; reflexivity).
  split; [vm_compute; reflexivity|]. split; [exact D|]. split; [|split; [vm_compute; reflexivity|]].
  - assert (L : listing E0 (xp ".//b/text()") d []) by (apply listing_eval; [exact R|reflexivity|exact D|vm_compute; reflexivity]). intros i Hi. now apply (proj2 L) in Hi.
  - assert (L : listing E0 (xp ".//b") d [IElem [0; 0]%nat (el "b" [] "" []); IElem [1]%nat (el "b" [] "" [])]) by (apply listing_eval; [exact Rl|reflexivity|exact D|vm_compute; reflexivity]).
    destruct L as [O M]. split; [apply M; now left|]. intros j Hj. apply M in Hj as [<-|Hj]; [now left|]. right. inversion O as [|? ? _ Fo _]; subst. rewrite Forall_forall in Fo. now apply Fo.
Qed.
Close Scope string_scope.
Print Assumptions C90_create_text.
