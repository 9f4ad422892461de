(** C58: an element or attribute field that is not set yet behaves as a variable: through any history of
    assignments (None deletes), deletions and reads, it holds the value last assigned, and whenever it is
    unset the document is exactly what it was at the start. *)
From Coq Require Import String Arith Lia.
From Verif Require Export FieldUndoEq MapperProofs FieldRefuse Props_Fields Props_Undo.
From Verif Require Import XPathEval FieldSpec DocSpec.

Opaque u.

(** the variable *)
Inductive vop := VSet (v : str) | VNone | VDel | VGet.
Definition var_op (o : vop) (x : option str) : option str := match o with VSet v => Some v | VNone | VDel => None | VGet => x end.
(** the value after each operation *)
Fixpoint var_ops (os : list vop) (x : option str) : list (option str) :=
  match os with [] => [] | o :: os' => let y := var_op o x in y :: var_ops os' y end.
(** the field: outcome of the operation and the value read after it *)
Definition field_vop (E : env) (s : str) (o : vop) (d : node) : node * res unit :=
  match o with
  | VSet v => string_set E s (Some v) d
  | VNone => string_set E s None d
  | VDel => field_delete E s d
  | VGet => (d, Ret tt)
  end.
Fixpoint field_vops (E : env) (s : str) (os : list vop) (d : node) : list (node * res unit * res (option str)) :=
  match os with
  | [] => []
  | o :: os' => let (d1, r) := field_vop E s o d in (d1, r, string_get E s d1) :: field_vops E s os' d1
  end.

(** the paths: supported ones that end in an element or attribute, whose predicates compare paths
    with XML strings; the elements on the way that exist hold something beyond what the predicates of
    their step name, or none exists *)
Definition variable_path (E : env) (e : expr) (d : node) : Prop :=
  supported_path E e = true /\ lkind E e <> Some KText /\ value_preds e = true /\ tame E xml_valid e = true /\ bare_end E e = true /\
  (forall l b n rest, In l (lefts e) -> selects E l d = IElem b n :: rest -> holds_more E l n).

Lemma missing_get E e d : supported_path E e = true -> selects E e d = [] -> get_string E e d = Ret None.
Proof. intros Hs H. unfold get_string. rewrite (eval_path _ _ _ Hs), H. reflexivity. Qed.

Theorem C58_variable : forall E s e d os,
  parse s = Ok e -> variable_path E e d -> tag_of d <> None -> selects E e d = [] -> (forall v, In (VSet v) os -> xml_valid v = true) ->
  Forall2 (fun x y => snd (fst x) = Ret tt /\ snd x = Ret y /\ (y = None -> fst (fst x) = d)) (field_vops E s os d) (var_ops os None).
Proof.
  intros E s e d os Hp (Hs & Hk & Hq & Ht & Hb & Hsol) Hd Hm Hv.
  assert (Hnt : not_tail (selects E e d)) by (rewrite Hm; exact I).
  assert (Hdel0 : field_delete E s d = (d, Ret tt)).
  { unfold field_delete, with_xpath. rewrite Hp. unfold mgr_delete, bind, reading, find_ast. rewrite (eval_path _ _ _ Hs), Hm. reflexivity. }
  assert (Hnone : forall d', string_set E s None d' = field_delete E s d') by (intros d'; unfold string_set, field_delete, with_xpath; now rewrite Hp).
  assert (Hg0 : string_get E s d = Ret None) by (unfold string_get; rewrite Hp; now apply missing_get).
  (* the invariant: unset and at the start, or just as after one assignment to the start *)
  assert (G : forall os cur x, (forall v, In (VSet v) os -> xml_valid v = true) ->
    (x = None /\ cur = d) \/ (exists w, x = Some w /\ string_set E s (Some w) d = (cur, Ret tt)) ->
    Forall2 (fun x y => snd (fst x) = Ret tt /\ snd x = Ret y /\ (y = None -> fst (fst x) = d)) (field_vops E s os cur) (var_ops os x)).
  { clear os Hv. induction os as [|o os IH]; intros cur x Hv Hi; cbn [field_vops var_ops]; [constructor|].
    assert (Hst : exists cur', field_vop E s o cur = (cur', Ret tt) /\
      ((var_op o x = None /\ cur' = d) \/ (exists w, var_op o x = Some w /\ string_set E s (Some w) d = (cur', Ret tt)))).
    { assert (Hdl : exists cur', field_delete E s cur = (cur', Ret tt) /\ cur' = d).
      { destruct Hi as [[-> ->]|(w & -> & Hw)]; [eauto|]. exists d. split; [|reflexivity]. eapply C20_set_then_delete_more_partial; eauto. }
      destruct o as [v| | |]; cbn [field_vop var_op].
      - destruct (C10_assignment_succeeds_missing_partial E s e v d Hp Hs Hd Hm Ht Hb (Hv v (or_introl eq_refl)) Hk) as [d1 H1].
        exists d1. split; [|right; eauto]. destruct Hi as [[-> ->]|(w & -> & Hw)]; [exact H1|]. eapply (C18_last_wins E s e w v d cur d1); eauto.
      - rewrite Hnone. destruct Hdl as (c' & H1 & H2). eauto.
      - destruct Hdl as (c' & H1 & H2). eauto.
      - exists cur. split; [reflexivity|exact Hi]. }
    destruct Hst as (cur' & Hf & Hi'). rewrite Hf. constructor; [|apply IH; [intros; apply Hv; now right|exact Hi']].
    cbn [fst snd]. split; [reflexivity|]. destruct Hi' as [[-> ->]|(w & -> & Hw)]; [auto|]. split; [|discriminate]. eapply C10_set_then_get_partial; eauto. }
  apply G; auto.
Qed.

Open Scope string_scope.
Example C58_case : let e := xp "a[@t='1']/b[s/k='2']/@c" in let d := el "r" [] "" [el "x" [] "" []; el "a" [("t", "1")] "" [el "k" [] "" []]] in
  parse (u "a[@t='1']/b[s/k='2']/@c") = Ok e /\ variable_path E0 e d /\ selects E0 e d = [] /\
  map snd (field_vops E0 (u "a[@t='1']/b[s/k='2']/@c") [VSet (u "v"); VGet; VSet (u "w"); VDel; VSet (u "x"); VNone] d) =
    [Ret (Some (u "v")); Ret (Some (u "v")); Ret (Some (u "w")); Ret None; Ret (Some (u "x")); Ret None].
Proof.
  cbv zeta. split; [vm_compute; reflexivity|]. split; [|split; vm_compute; reflexivity].
  split; [vm_compute; reflexivity|]. split; [vm_compute; discriminate|]. split; [vm_compute; reflexivity|]. split; [vm_compute; reflexivity|]. split; [vm_compute; reflexivity|].
  intros l b n rest Hl Hsel. vm_compute in Hl. destruct Hl as [<-|[<-|[]]]; vm_compute in Hsel; try discriminate. injection Hsel as <- <- <-. right. split; [vm_compute; reflexivity|]. intros H. apply part_len in H. vm_compute in H. lia.
Qed.
Close Scope string_scope.

Print Assumptions C58_variable.
