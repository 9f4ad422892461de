(** Proof of the round trip. *)
From Coq Require Import String Arith.
From Verif Require Import XPathSpec XPathParseProofs XPathParser XPathLexProofs XPathCanon.

(** [good X v ts t]: [t] derives [ts] from [X] and evaluates to [v] *)
Definition good (X : sym) (v : sval) (ts : list tok) (t : ptree) : Prop :=
  wf t /\ root t = X /\ prec_ok t /\ eval t = Some v /\ yield t = ts.

Inductive goods : list sym -> list sval -> list tok -> list ptree -> Prop :=
| goods_nil : goods [] [] [] []
| goods_cons X v ts t Xs vs tss kids :
    good X v ts t -> goods Xs vs tss kids -> goods (X :: Xs) (v :: vs) (ts ++ tss) (t :: kids).

Lemma goods_spec Xs vs tss kids : goods Xs vs tss kids ->
  map root kids = Xs /\ Forall wf kids /\ Forall prec_ok kids /\ sequence (map eval kids) = Some vs /\
  flat_map yield kids = tss.
Proof.
  induction 1 as [|X v ts t Xs vs tss kids (H1 & H2 & H3 & H4 & H5) _ (I1 & I2 & I3 & I4 & I5)].
  - repeat split; constructor.
  - cbn [map sequence flat_map]. rewrite H4, I4, H5, I5, H2, I1. repeat split; constructor; auto.
Qed.

Lemma good_leaf t v : good (T t) (SVal v) [mkTok t v] (Leaf (mkTok t v)).
Proof. repeat split; constructor. Qed.

Lemma goods_leaf t v Xs vs tss kids : goods Xs vs tss kids ->
  goods (T t :: Xs) (SVal v :: vs) (mkTok t v :: tss) (Leaf (mkTok t v) :: kids).
Proof. intros H. apply (goods_cons _ _ [mkTok t v]); [apply good_leaf|exact H]. Qed.

Lemma goods_one X v ts t : good X v ts t -> goods [X] [v] ts [t].
Proof. intros H. rewrite <- (app_nil_r ts). repeat constructor; apply H. Qed.

(** a node whose production is not an operator *)
Lemma mk p vs tss kids v X :
  Nat.ltb 0 p = true -> Nat.ltb p nprods = true -> binop p = None -> is_unary p = false ->
  goods (rhs (get_prod p)) vs tss kids -> act (get_prod p) vs = Some v ->
  X = NT (lhs (get_prod p)) ->
  good X v tss (Node p kids).
Proof.
  intros H1 H2 H3 H4 Hg Ha ->. apply goods_spec in Hg as (G1 & G2 & G3 & G4 & G5).
  apply Nat.ltb_lt in H1, H2.
  repeat split.
  - constructor; auto.
  - constructor; auto; intros; congruence.
  - cbn [eval]. now rewrite G4.
  - exact G5.
Qed.

Ltac mkt p := eapply (mk p); [reflexivity|reflexivity|reflexivity|reflexivity| | |reflexivity].

Definition gexpr (e : expr) (t : ptree) : Prop :=
  good (NT Expr) (SExpr e) (toks e) t /\ left_ops t = lops e /\ right_ops t = rops e.

(** brackets and lists *)
Definition has_expr (e : expr) : Prop := exists t, gexpr e t.

Lemma goods_pred e t : good (NT Expr) (SExpr e) (toks e) t ->
  good (NT Predicate) (SExpr e) (lbr :: toks e ++ [rbr]) (Node 50 [Leaf lbr; t; Leaf rbr]).
Proof.
  intros H. mkt 50. apply goods_leaf. eapply goods_cons; [exact H|]. apply goods_leaf. constructor. all: reflexivity.
Qed.

Lemma good_predlist ps : ps <> [] -> Forall has_expr ps ->
  exists t, good (NT PredicateList) (SPreds ps) (flat_map (fun p => lbr :: toks p ++ [rbr]) ps) t.
Proof.
  induction ps as [|p ps IH] using rev_ind; intros Hne HF; [congruence|].
  apply Forall_app in HF as [HF Hp]. inversion Hp as [|? ? [tp [Hg _]] _]; subst.
  rewrite flat_map_app. cbn [flat_map]. rewrite app_nil_r.
  destruct ps as [|p0 ps].
  - cbn [app flat_map]. eexists. mkt 48. apply goods_one. apply goods_pred. exact Hg. all: reflexivity.
  - destruct IH as [t Ht]; [discriminate|exact HF|].
    eexists. mkt 49. eapply goods_cons; [exact Ht|]. apply goods_one. apply goods_pred. exact Hg. all: reflexivity.
Qed.

Lemma good_arglist a args : Forall has_expr (a :: args) ->
  exists t, good (NT ArgumentList) (SPreds (a :: args))
    (toks a ++ flat_map (fun b => comma :: toks b) args) t.
Proof.
  induction args as [|p ps IH] using rev_ind; intros HF.
  - inversion HF as [|? ? [tp [Hg _]] _]; subst. cbn [flat_map]. rewrite app_nil_r.
    eexists. mkt 57. apply goods_one. exact Hg. all: reflexivity.
  - change (a :: ps ++ [p]) with ((a :: ps) ++ [p]) in HF |- *.
    apply Forall_app in HF as [HF Hp]. inversion Hp as [|? ? [tp [Hg _]] _]; subst.
    destruct IH as [t Ht]; [exact HF|].
    rewrite flat_map_app, app_assoc. cbn [flat_map]. rewrite app_nil_r.
    eexists. mkt 58. eapply goods_cons; [exact Ht|]. apply goods_leaf. apply goods_one. exact Hg. all: reflexivity.
Qed.

(** names *)
Lemma good_qname p n :
  exists t, good (NT QName) (SQName p n) (prefix_toks p ++ [tk NCNAME n]) t.
Proof.
  destruct p as [p|].
  - eexists. mkt 38. apply goods_leaf, goods_leaf, goods_leaf, goods_nil. all: reflexivity.
  - eexists. mkt 39. apply goods_leaf, goods_nil. all: reflexivity.
Qed.

Lemma good_funcqname p n :
  exists t, good (NT FuncQName) (SQName p n) (prefix_toks p ++ [tk FUNCNAME n]) t.
Proof.
  destruct p as [p|].
  - eexists. mkt 40. apply goods_leaf, goods_leaf, goods_leaf, goods_nil. all: reflexivity.
  - eexists. mkt 41. apply goods_leaf, goods_nil. all: reflexivity.
Qed.

Lemma good_test nt : test_ok nt = true ->
  exists t, good (NT NodeTestN) (STest nt) (test_toks nt) t.
Proof.
  destruct nt as [p n|n [l|]]; cbn [test_ok test_toks]; intros H; try discriminate.
  - destruct (str_eqb_spec n (u "*")) as [En|Hn].
    + subst n. destruct p as [p|].
      * eexists. mkt 32. apply goods_one. mkt 36. apply goods_leaf, goods_leaf, goods_leaf, goods_nil. all: reflexivity.
      * eexists. mkt 32. apply goods_one. mkt 35. apply goods_leaf, goods_nil. all: reflexivity.
    + destruct (good_qname p n) as [t Ht].
      eexists. mkt 32. apply goods_one. mkt 37. apply goods_one. exact Ht. all: reflexivity.
  - eexists. mkt 33. apply goods_leaf, goods_leaf, goods_leaf, goods_nil. all: reflexivity.
Qed.

Definition axis_toks (a : option str) : list tok :=
  match a with
  | None => []
  | Some x => if str_eqb x (u "@") then [tk ABBREV_AXIS_AT x] else [tk AXISNAME x; tk AXIS_SEP (u "::")]
  end.

Lemma good_axis x : exists t, good (NT AxisSpecifier) (SAxis x) (axis_toks (Some x)) t.
Proof.
  cbn [axis_toks]. destruct (str_eqb_spec x (u "@")) as [Ex|Hx].
  - subst x. eexists. mkt 31. apply goods_leaf, goods_nil. all: reflexivity.
  - eexists. mkt 30. apply goods_leaf, goods_leaf, goods_nil. all: reflexivity.
Qed.

Lemma good_step a nt ps : test_ok nt = true -> Forall has_expr ps ->
  exists t, good (NT Step) (SExpr (EStep a nt ps)) (toks (EStep a nt ps)) t.
Proof.
  intros Ht HF. cbn [toks]. change (match a with None => [] | Some x => _ end) with (axis_toks a).
  destruct (good_test nt Ht) as [tt Htt].
  destruct ps as [|p ps].
  - cbn [flat_map]. rewrite app_nil_r. destruct a as [a|].
    + destruct (good_axis a) as [ta Hta]. eexists. mkt 26.
      eapply goods_cons; [exact Hta|]. apply goods_one. exact Htt. all: reflexivity.
    + cbn [axis_toks app]. eexists. mkt 24. apply goods_one. exact Htt. all: reflexivity.
  - destruct (good_predlist (p :: ps)) as [tp Htp]; [discriminate|exact HF|].
    destruct a as [a|].
    + destruct (good_axis a) as [ta Hta]. eexists. mkt 27.
      eapply goods_cons; [exact Hta|]. eapply goods_cons; [exact Htt|]. apply goods_one. exact Htp. all: reflexivity.
    + cbn [axis_toks app]. eexists. mkt 25. eapply goods_cons; [exact Htt|]. apply goods_one. exact Htp. all: reflexivity.
Qed.

(** from one category to another *)
Lemma rel_expr e t : good (NT RelativeLocationPath) (SExpr e) (toks e) t -> lops e = [] -> rops e = [] -> has_expr e.
Proof.
  intros H H1 H2. exists (Node 14 [t]). split; [|split; [now rewrite H1|now rewrite H2]].
  mkt 14. apply goods_one. exact H. all: reflexivity.
Qed.
Lemma filter_expr e t : good (NT FilterExpr) (SExpr e) (toks e) t -> lops e = [] -> rops e = [] -> has_expr e.
Proof.
  intros H H1 H2. exists (Node 17 [t]). split; [|split; [now rewrite H1|now rewrite H2]].
  mkt 17. apply goods_one. exact H. all: reflexivity.
Qed.
Lemma step_rel e t : good (NT Step) (SExpr e) (toks e) t ->
  exists t', good (NT RelativeLocationPath) (SExpr e) (toks e) t'.
Proof. intros H. eexists. mkt 21. apply goods_one. exact H. all: reflexivity. Qed.

Lemma sep_cases op o : sep_term op = Some o ->
  (op = u "/" /\ o = PATH_SEP) \/ (op = u "//" /\ o = ABBREV_PATH_SEP).
Proof.
  unfold sep_term. destruct (str_eqb_spec op (u "/")) as [->|]; [intros [= <-]; auto|].
  destruct (str_eqb_spec op (u "//")) as [->|]; [intros [= <-]; auto|discriminate].
Qed.

Lemma sep_not_op op o : sep_term op = Some o -> op_term op = None.
Proof. intros H. apply sep_cases in H as [[-> _]|[-> _]]; reflexivity. Qed.

(** operator productions *)
Definition op_prod (o : term) : nat :=
  match o with
  | OR_OP => 1 | AND_OP => 2 | EQUAL_OP => 3 | REL_OP => 4 | PLUS_OP => 5 | MINUS_OP => 6
  | MULT_OP => 7 | DIV_OP => 8 | MOD_OP => 9 | _ => 10
  end.

Lemma op_cases op o : op_term op = Some o ->
  In o [OR_OP; AND_OP; EQUAL_OP; REL_OP; PLUS_OP; MINUS_OP; MULT_OP; DIV_OP; MOD_OP; UNION_OP].
Proof.
  unfold op_term. repeat match goal with |- context [if ?b then _ else _] => destruct b end;
  intros [= <-]; cbn; tauto.
Qed.

Lemma op_not_sep op o : op_term op = Some o -> sep_term op = None.
Proof.
  intros H. unfold sep_term.
  destruct (str_eqb_spec op (u "/")) as [->|]; [discriminate|].
  destruct (str_eqb_spec op (u "//")) as [->|]; [discriminate|reflexivity].
Qed.

Lemma mk_binary op o l r tl tr : op_term op = Some o -> gexpr l tl -> gexpr r tr ->
  forallb (N.leb (lvl o)) (rops l) = true -> forallb (N.ltb (lvl o)) (lops r) = true ->
  gexpr (EBin l op r) (Node (op_prod o) [tl; Leaf (tk o op); tr]).
Proof.
  intros Ho [(L1 & L2 & L3 & L4 & L5) [L6 L7]] [(R1 & R2 & R3 & R4 & R5) [R6 R7]] HL HR.
  pose proof (op_cases _ _ Ho) as Hin.
  assert (Hp : 0 < op_prod o < nprods /\ rhs (get_prod (op_prod o)) = [NT Expr; T o; NT Expr] /\
     lhs (get_prod (op_prod o)) = Expr /\ act (get_prod (op_prod o)) = a_binary /\
     binop (op_prod o) = Some o /\ is_unary (op_prod o) = false).
  { cbn [In] in Hin. repeat (destruct Hin as [<-|Hin]; [repeat split; vm_compute; lia || reflexivity|]).
    contradiction. }
  destruct Hp as (P1 & P2 & P3 & P4 & P5 & P6).
  split; [repeat split|split].
  - constructor; [exact P1| |repeat constructor; auto].
    cbn [map]. rewrite L2, R2, P2. reflexivity.
  - cbn [root]. now rewrite P3.
  - constructor; [repeat constructor; auto| |].
    + intros o' l' k' r' E1 E2. rewrite P5 in E1. injection E1 as <-. injection E2 as <- <- <-.
      rewrite L7, R6. split; apply Forall_forall; intros x Hx.
      * rewrite forallb_forall in HL. apply N.leb_le. now apply HL.
      * rewrite forallb_forall in HR. apply N.ltb_lt. now apply HR.
    + intros; congruence.
  - cbn [eval map sequence]. rewrite L4, R4. cbn [sequence]. rewrite P4. reflexivity.
  - cbn [yield flat_map toks]. rewrite L5, R5, app_nil_r. f_equal. cbn [app]. f_equal.
    unfold op_tok. now rewrite (op_not_sep _ _ Ho), Ho.
  - cbn [left_ops]. rewrite P5, L6. cbn [lops]. now rewrite Ho.
  - cbn [right_ops]. rewrite P5, R7. cbn [rops]. now rewrite Ho.
Qed.

Lemma mk_unary r tr : gexpr r tr -> forallb (N.ltb ulvl) (lops r) = true ->
  gexpr (EUnary (u "-") r) (Node 11 [Leaf (tk MINUS_OP (u "-")); tr]).
Proof.
  intros [(R1 & R2 & R3 & R4 & R5) [R6 R7]] HR.
  split; [repeat split|split].
  - constructor; [vm_compute; lia| |repeat constructor; auto].
    cbn [map]. rewrite R2. reflexivity.
  - constructor; [repeat constructor; auto| |].
    + intros o l k r' E1. vm_compute in E1. discriminate.
    + intros k r' _ E. injection E as <- <-. rewrite R6. apply Forall_forall. intros x Hx.
      rewrite forallb_forall in HR. apply N.ltb_lt. now apply HR.
  - cbn [eval map sequence]. rewrite R4. reflexivity.
  - cbn [yield flat_map toks]. rewrite R5, app_nil_r. reflexivity.
  - reflexivity.
  - cbn [right_ops]. change (binop 11) with (@None term). change (is_unary 11) with true.
    cbn [rops]. now rewrite R7.
Qed.

Lemma op_tok_sep op o : sep_term op = Some o -> op_tok op = tk o op.
Proof. intros H. unfold op_tok. now rewrite H. Qed.

Definition goal (e : expr) : Prop :=
  (is_step e = true -> exists t, good (NT Step) (SExpr e) (toks e) t) /\
  (is_rel e = true -> exists t, good (NT RelativeLocationPath) (SExpr e) (toks e) t) /\
  (is_filter e = true -> exists t, good (NT FilterExpr) (SExpr e) (toks e) t) /\
  has_expr e.

Lemma goal_filter e t : is_filter e = true ->
  good (NT FilterExpr) (SExpr e) (toks e) t -> lops e = [] -> rops e = [] -> goal e.
Proof.
  intros Hf H H1 H2. split; [|split; [|split]].
  - intros Hs. destruct e; discriminate.
  - intros Hs. destruct e; discriminate.
  - eauto.
  - eapply filter_expr; eauto.
Qed.

Lemma goal_step e t : is_step e = true -> good (NT Step) (SExpr e) (toks e) t -> goal e.
Proof.
  intros He H. destruct (step_rel _ _ H) as [t' H'].
  split; [eauto|split; [eauto|split]].
  - intros Hf. destruct e; discriminate.
  - eapply rel_expr; eauto; destruct e; try discriminate; reflexivity.
Qed.

Lemma Forall_canon ps : Forall (fun e => canon e = true -> goal e) ps -> forallb canon ps = true -> Forall has_expr ps.
Proof.
  intros H Hc. rewrite forallb_forall in Hc. rewrite Forall_forall in *. intros x Hx.
  destruct (H x Hx (Hc x Hx)) as (_ & _ & _ & G). exact G.
Qed.

(** a predicated expression: (base)[p1]...[pn] *)
Lemma good_predicated b ps : is_pred b = false -> has_expr b -> Forall has_expr ps -> ps <> [] ->
  exists t, good (NT FilterExpr) (SExpr (EPred b ps)) (toks (EPred b ps)) t.
Proof.
  intros Hb [tb [Hgb _]] HF Hne. cbn [toks].
  assert (Hg : good (NT FilterExpr) (SExpr b) (lpar :: toks b ++ [rpar]) (Node 46 [Leaf lpar; tb; Leaf rpar])).
  { mkt 46. apply goods_leaf. eapply goods_cons; [exact Hgb|]. apply goods_leaf, goods_nil. all: reflexivity. }
  replace (lpar :: toks b ++ rpar :: flat_map (fun p => lbr :: toks p ++ [rbr]) ps)
    with ((lpar :: toks b ++ [rpar]) ++ flat_map (fun p => lbr :: toks p ++ [rbr]) ps)
    by (cbn [app]; rewrite <- app_assoc; reflexivity).
  set (head := lpar :: toks b ++ [rpar]) in *. clearbody head.
  induction ps as [|p ps IH] using rev_ind; [congruence|].
  apply Forall_app in HF as [HF Hp]. inversion Hp as [|? ? [tp [Hgp _]] _]; subst.
  rewrite flat_map_app, app_assoc. cbn [flat_map]. rewrite app_nil_r.
  destruct ps as [|p0 ps].
  - cbn [app flat_map]. rewrite app_nil_r. eexists.
    eapply (mk 47); [reflexivity|reflexivity|reflexivity|reflexivity| | |reflexivity].
    + eapply goods_cons; [exact Hg|]. apply goods_one, goods_pred. exact Hgp.
    + change (act (get_prod 47) [SExpr b; SExpr p]) with (Some (SExpr (append_predicate b p))).
      destruct b; try discriminate; reflexivity.
  - destruct IH as [t Ht]; [exact HF|discriminate|].
    eexists.
    eapply (mk 47); [reflexivity|reflexivity|reflexivity|reflexivity| | |reflexivity].
    + eapply goods_cons; [exact Ht|]. apply goods_one, goods_pred. exact Hgp.
    + reflexivity.
Qed.

Lemma canon_good e : canon e = true -> goal e.
Proof.
  induction e as [s|n|f|op r IH|l op r IHl IHr|b ps IHb IHp|op|op r IH|a nt ps IHp|a|p n|p n args IHa]
    using expr_ind'; cbn [canon]; intros H.
  - eapply goal_filter; try reflexivity. mkt 43. apply goods_leaf, goods_nil. all: reflexivity.
  - eapply goal_filter; try reflexivity. mkt 44. apply goods_one. mkt 53. apply goods_leaf, goods_nil. all: reflexivity.
  - eapply goal_filter; try reflexivity. mkt 44. apply goods_one. mkt 52. apply goods_leaf, goods_nil. all: reflexivity.
  - apply andb_prop in H as [H H3]. apply andb_prop in H as [H1 H2]. apply str_eqb_eq in H1. subst op.
    destruct (IH H2) as (_ & _ & _ & [t Ht]).
    split; [discriminate|split; [discriminate|split; [discriminate|]]]. eexists. apply mk_unary; eauto.
  - apply andb_prop in H as [H H3]. apply andb_prop in H as [H1 H2].
    destruct (IHl H1) as (Ls & Lr & Lf & Le). destruct (IHr H2) as (Rs & Rr & Rf & Re).
    destruct (sep_term op) as [o|] eqn:Eo.
    + pose proof (sep_not_op _ _ Eo) as Hno.
      assert (El : lops (EBin l op r) = []) by (cbn; now rewrite Hno).
      assert (Er : rops (EBin l op r) = []) by (cbn; now rewrite Hno).
      destruct (is_rel l && is_step r)%bool eqn:C.
      * apply andb_prop in C as [C1 C2]. destruct (Lr C1) as [tl Hl]. destruct (Rs C2) as [tr Hr].
        assert (G : exists t, good (NT RelativeLocationPath) (SExpr (EBin l op r)) (toks (EBin l op r)) t).
        { cbn [toks]. rewrite (op_tok_sep _ _ Eo).
          apply sep_cases in Eo as [[-> ->]|[-> ->]]; eexists; [mkt 22|mkt 23];
            try (eapply goods_cons; [exact Hl|]; apply goods_leaf, goods_one; exact Hr); reflexivity. }
        destruct G as [t G]. split; [discriminate|split; [eauto|split; [discriminate|]]]. eapply rel_expr; eauto.
      * cbn [orb] in H3. apply andb_prop in H3 as [C1 C2].
        destruct (Lf C1) as [tl Hl]. destruct (Rr C2) as [tr Hr].
        assert (G : exists t, gexpr (EBin l op r) t).
        { unfold gexpr. rewrite El, Er. cbn [toks]. rewrite (op_tok_sep _ _ Eo).
          apply sep_cases in Eo as [[-> ->]|[-> ->]];
          [exists (Node 12 [tl; Leaf (tk PATH_SEP (u "/")); tr])
          |exists (Node 13 [tl; Leaf (tk ABBREV_PATH_SEP (u "//")); tr])];
          (split; [|split; reflexivity]); [mkt 12|mkt 13];
            try (eapply goods_cons; [exact Hl|]; apply goods_leaf, goods_one; exact Hr); reflexivity. }
        split; [discriminate|split; [|split; [discriminate|exact G]]].
        cbn [is_rel]. rewrite Eo. intros Hx. congruence.
    + destruct (op_term op) as [o|] eqn:Eop; [|discriminate].
      apply andb_prop in H3 as [P1 P2].
      destruct Le as [tl Hl]. destruct Re as [tr Hr].
      split; [discriminate|split; [|split; [discriminate|]]].
      * cbn [is_rel]. rewrite Eo. discriminate.
      * eexists. apply mk_binary; eauto.
  - apply andb_prop in H as [H H4]. apply andb_prop in H as [H H3]. apply andb_prop in H as [H1 H2].
    apply negb_true_iff in H2. destruct (IHb H1) as (_ & _ & _ & Hb).
    destruct (good_predicated b ps H2 Hb) as [t Ht].
    + eapply Forall_canon; eauto.
    + destruct ps; [discriminate|discriminate].
    + eapply goal_filter; eauto.
  - discriminate.
  - destruct (sep_term op) as [o|] eqn:Eo; [|discriminate]. apply andb_prop in H as [H1 H2].
    destruct (IH H2) as (_ & Hr & _ & _). destruct (Hr H1) as [t Ht].
    split; [discriminate|split; [discriminate|split; [discriminate|]]].
    apply sep_cases in Eo as [[-> ->]|[-> ->]].
    + exists (Node 15 [Node 19 [Leaf (tk PATH_SEP (u "/")); t]]). split; [|split; reflexivity].
      mkt 15. apply goods_one. mkt 19. cbn [toks]. rewrite (op_tok_sep _ PATH_SEP) by reflexivity.
      apply goods_leaf, goods_one. exact Ht. all: reflexivity.
    + exists (Node 16 [Node 20 [Leaf (tk ABBREV_PATH_SEP (u "//")); t]]). split; [|split; reflexivity].
      mkt 16. apply goods_one. mkt 20. cbn [toks]. rewrite (op_tok_sep _ ABBREV_PATH_SEP) by reflexivity.
      apply goods_leaf, goods_one. exact Ht. all: reflexivity.
  - apply andb_prop in H as [H H3]. apply andb_prop in H as [H1 H2].
    destruct (good_step a nt ps H2) as [t Ht]; [eapply Forall_canon; eauto|].
    eapply goal_step; eauto.
  - apply str_mem_In in H. cbn [In] in H. destruct H as [<-|[<-|[]]].
    + eapply goal_step; [reflexivity|]. mkt 28. apply goods_leaf, goods_nil. all: reflexivity.
    + eapply goal_step; [reflexivity|]. mkt 29. apply goods_leaf, goods_nil. all: reflexivity.
  - destruct (good_qname p n) as [t Ht]. eapply goal_filter; try reflexivity.
    mkt 42. apply goods_one. mkt 51. apply goods_leaf, goods_one. exact Ht. all: reflexivity.
  - apply andb_prop in H as [H H4].
    destruct (good_funcqname p n) as [t Ht].
    pose proof (Forall_canon _ IHa H4) as HF.
    assert (G : exists ta, good (NT FormalArguments) (SPreds args)
      (lpar :: match args with [] => [] | a :: rest => toks a ++ flat_map (fun b => comma :: toks b) rest end ++ [rpar]) ta).
    { destruct args as [|a args].
      - eexists. mkt 55. apply goods_leaf, goods_leaf, goods_nil. all: reflexivity.
      - destruct (good_arglist a args HF) as [tl Hl]. eexists. mkt 56.
        apply goods_leaf. eapply goods_cons; [exact Hl|]. apply goods_leaf, goods_nil. all: reflexivity. }
    destruct G as [ta Hta].
    eapply goal_filter; try reflexivity. mkt 45. apply goods_one. mkt 54. cbn [toks].
    match goal with |- goods _ _ (?a ++ ?b :: ?c) _ => change (a ++ b :: c) with (a ++ [b] ++ c) end.
    rewrite app_assoc.
    eapply goods_cons; [exact Ht|]. apply goods_one. exact Hta. all: reflexivity.
Qed.

(** ** The serialised text is the text of these tokens *)
Lemma flat_map_map_eq {A B} (f g : A -> list B) l : Forall (fun x => f x = g x) l -> flat_map f l = flat_map g l.
Proof. induction 1 as [|x l H _ IH]; [reflexivity|]. cbn. now rewrite H, IH. Qed.

Lemma flat_map_flat_map {A B C} (f : A -> list B) (g : B -> list C) l :
  flat_map g (flat_map f l) = flat_map (fun x => flat_map g (f x)) l.
Proof. induction l as [|x l IH]; [reflexivity|]. cbn. now rewrite flat_map_app, IH. Qed.

Definition frags (ts : list tok) : list str := flat_map tok_frag ts.

Lemma frags_app a b : frags (a ++ b) = frags a ++ frags b.
Proof. apply flat_map_app. Qed.

Lemma frags_cons k b : keyword_op (ttype k) = false -> frags (k :: b) = tok_text k :: frags b.
Proof. intros H. cbn. unfold tok_frag. now rewrite H. Qed.

Lemma ser_prefix_toks p : prefix_ok p = true -> ser_prefix p = frags (prefix_toks p).
Proof. destruct p as [[|c p]|]; intros H; try discriminate; reflexivity. Qed.

Lemma ser_preds ps : Forall (fun e => canon e = true -> ser e = frags (toks e)) ps -> forallb canon ps = true ->
  flat_map (fun p => [u "["] ++ ser p ++ [u "]"]) ps = frags (flat_map (fun p => lbr :: toks p ++ [rbr]) ps).
Proof.
  intros H Hc. unfold frags. rewrite flat_map_flat_map. apply flat_map_map_eq.
  rewrite forallb_forall in Hc. rewrite Forall_forall in *. intros x Hx.
  rewrite (H x Hx (Hc x Hx)). change (flat_map tok_frag (lbr :: toks x ++ [rbr])) with
    (u "[" :: frags (toks x ++ [rbr])). rewrite frags_app. reflexivity.
Qed.

Lemma op_frag op o : op_term op = Some o \/ sep_term op = Some o ->
  (if str_mem op KEYWORDS then [u " "; op; u " "] else [op]) = tok_frag (op_tok op).
Proof.
  intros [H|H].
  - unfold op_tok. rewrite (op_not_sep _ _ H), H. unfold op_term in H.
    repeat match type of H with
    | (if str_eqb ?a ?b then _ else _) = _ => destruct (str_eqb_spec a b) as [->|?]; [injection H as <-; reflexivity|]
    | (if str_mem ?a ?b then _ else _) = _ =>
        let E := fresh in destruct (str_mem a b) eqn:E;
        [apply str_mem_In in E; cbn [In] in E; injection H as <-;
         repeat (destruct E as [<-|E]; [reflexivity|]); contradiction|]
    end. discriminate.
  - apply sep_cases in H as [[-> ->]|[-> ->]]; reflexivity.
Qed.

Lemma ser_toks e : canon e = true -> ser e = frags (toks e).
Proof.
  induction e as [s|n|f|op r IH|l op r IHl IHr|b ps IHb IHp|op|op r IH|a nt ps IHp|a|p n|p n args IHa]
    using expr_ind'; cbn [canon]; intros H.
  - reflexivity.
  - reflexivity.
  - reflexivity.
  - apply andb_prop in H as [H _]. apply andb_prop in H as [_ H].
    cbn [ser toks]. rewrite frags_cons by reflexivity. rewrite (IH H). reflexivity.
  - apply andb_prop in H as [H H3]. apply andb_prop in H as [H1 H2].
    cbn [ser toks]. rewrite frags_app. rewrite (IHl H1), (IHr H2). f_equal.
    change (frags (op_tok op :: toks r)) with (tok_frag (op_tok op) ++ frags (toks r)). f_equal.
    destruct (sep_term op) as [o|] eqn:E1; [apply (op_frag op o); auto|].
    destruct (op_term op) as [o|] eqn:E2; [apply (op_frag op o); auto|discriminate].
  - apply andb_prop in H as [H H4]. apply andb_prop in H as [H _]. apply andb_prop in H as [H1 H2].
    cbn [ser toks]. rewrite frags_cons by reflexivity. cbn [app]. f_equal.
    rewrite frags_app, (IHb H1). f_equal. rewrite frags_cons by reflexivity. f_equal.
    now apply ser_preds.
  - discriminate.
  - destruct (sep_term op) as [o|] eqn:E1; [|discriminate]. apply andb_prop in H as [_ H].
    cbn [ser toks]. rewrite (IH H).
    apply sep_cases in E1 as [[-> ->]|[-> ->]]; reflexivity.
  - apply andb_prop in H as [H H3]. apply andb_prop in H as [H1 H2].
    cbn [ser toks]. rewrite !frags_app. f_equal; [|f_equal].
    + destruct a as [[|c x]|]; [discriminate| |reflexivity].
      destruct (str_eqb (c :: x) (u "@")) eqn:E; [apply str_eqb_eq in E; rewrite E|]; reflexivity.
    + destruct nt as [p n|n [l|]]; [| |reflexivity].
      * cbn [test_ok] in H2. apply andb_prop in H2 as [H2 _]. cbn [ser_nodetest test_toks].
        rewrite frags_app, (ser_prefix_toks _ H2). f_equal.
        destruct (str_eqb n (u "*")); reflexivity.
      * discriminate.
    + now apply ser_preds.
  - apply str_mem_In in H. cbn [In] in H. destruct H as [<-|[<-|[]]]; reflexivity.
  - apply andb_prop in H as [H1 H2]. cbn [ser toks]. rewrite frags_cons by reflexivity.
    rewrite frags_app, (ser_prefix_toks _ H1). reflexivity.
  - apply andb_prop in H as [H H4]. apply andb_prop in H as [H H3]. apply andb_prop in H as [H1 H2].
    cbn [ser toks]. rewrite frags_app, (ser_prefix_toks _ H1). f_equal.
    rewrite !frags_cons by reflexivity. cbn [app]. do 2 f_equal. rewrite frags_app. f_equal.
    destruct args as [|a args]; [reflexivity|].
    cbn [forallb] in H4. apply andb_prop in H4 as [Ha Hc].
    inversion IHa as [|? ? IHa1 IHa2]; subst.
    rewrite frags_app, (IHa1 Ha). f_equal.
    unfold frags at 1. rewrite flat_map_flat_map. apply flat_map_map_eq.
    rewrite forallb_forall in Hc. rewrite Forall_forall in *. intros x Hx.
    rewrite (IHa2 x Hx (Hc x Hx)). reflexivity.
Qed.

Lemma concat_flat_map {A B} (f : A -> list (list B)) l : concat (flat_map f l) = flat_map (fun x => concat (f x)) l.
Proof. induction l as [|x l IH]; [reflexivity|]. cbn. now rewrite concat_app, IH. Qed.

Lemma serialize_render e : canon e = true -> serialize e = render (toks e).
Proof. intros H. unfold serialize. rewrite (ser_toks e H). apply concat_flat_map. Qed.

Lemma op_tok_valid op o : op_term op = Some o \/ sep_term op = Some o -> tok_valid (op_tok op) = true.
Proof.
  intros [H|H].
  - unfold op_tok. rewrite (op_not_sep _ _ H), H. unfold op_term in H.
    repeat match type of H with
    | (if str_eqb ?a ?b then _ else _) = _ => destruct (str_eqb_spec a b) as [->|?]; [injection H as <-; reflexivity|]
    | (if str_mem ?a ?b then _ else _) = _ =>
        let E := fresh in destruct (str_mem a b) eqn:E;
        [apply str_mem_In in E; cbn [In] in E; injection H as <-;
         repeat (destruct E as [<-|E]; [reflexivity|]); contradiction|]
    end. discriminate.
  - apply sep_cases in H as [[-> ->]|[-> ->]]; reflexivity.
Qed.

Lemma node_types_name n : str_mem n NODE_TYPES = true -> name_ok n = true.
Proof.
  intros H. apply str_mem_In in H. cbn [NODE_TYPES In] in H.
  repeat (destruct H as [<-|H]; [vm_compute; reflexivity|]). contradiction.
Qed.

Lemma forallb_flat_map {A B} (f : A -> list B) (g : B -> bool) l :
  (forall x, In x l -> forallb g (f x) = true) -> forallb g (flat_map f l) = true.
Proof.
  induction l as [|x l IH]; intros H; [reflexivity|]. cbn. rewrite forallb_app, H, IH; auto.
  - intros y Hy. apply H. now right.
  - now left.
Qed.

Lemma valid_preds ps : Forall (fun e => canon e = true -> forallb tok_valid (toks e) = true) ps ->
  forallb canon ps = true ->
  forallb tok_valid (flat_map (fun p => lbr :: toks p ++ [rbr]) ps) = true.
Proof.
  intros H Hc. rewrite forallb_forall in Hc. rewrite Forall_forall in H.
  apply forallb_flat_map. intros x Hx. cbn [forallb]. rewrite forallb_app, (H x Hx (Hc x Hx)). reflexivity.
Qed.

Lemma valid_prefix p : prefix_ok p = true -> forallb tok_valid (prefix_toks p) = true.
Proof.
  destruct p as [p|]; [|reflexivity]. cbn [prefix_ok]. intros H.
  change (tok_valid (tk NCNAME p) && (tok_valid colon && true) = true)%bool.
  change (tok_valid (tk NCNAME p)) with (name_ok p). now rewrite H.
Qed.

Lemma toks_valid e : canon e = true -> forallb tok_valid (toks e) = true.
Proof.
  induction e as [s|n|f|op r IH|l op r IHl IHr|b ps IHb IHp|op|op r IH|a nt ps IHp|a|p n|p n args IHa]
    using expr_ind'; cbn [canon]; intros H.
  - change (lit_safe s && true = true)%bool. now rewrite H.
  - reflexivity.
  - change (float_ok f && true = true)%bool. now rewrite H.
  - apply andb_prop in H as [H _]. apply andb_prop in H as [H1 H]. apply str_eqb_eq in H1. subst op.
    cbn [toks forallb]. rewrite (IH H). reflexivity.
  - apply andb_prop in H as [H H3]. apply andb_prop in H as [H1 H2].
    cbn [toks]. rewrite forallb_app. cbn [forallb]. rewrite (IHl H1), (IHr H2).
    destruct (sep_term op) as [o|] eqn:E1; [rewrite (op_tok_valid op o); auto|].
    destruct (op_term op) as [o|] eqn:E2; [rewrite (op_tok_valid op o); auto|discriminate].
  - apply andb_prop in H as [H H4]. apply andb_prop in H as [H _]. apply andb_prop in H as [H1 H2].
    cbn [toks forallb]. rewrite forallb_app. cbn [forallb]. rewrite (IHb H1), valid_preds by assumption.
    reflexivity.
  - discriminate.
  - destruct (sep_term op) as [o|] eqn:E1; [|discriminate]. apply andb_prop in H as [_ H].
    cbn [toks forallb]. rewrite (op_tok_valid op o), (IH H); auto.
  - apply andb_prop in H as [H H3]. apply andb_prop in H as [H1 H2].
    cbn [toks]. rewrite !forallb_app, valid_preds by assumption. rewrite andb_true_r, andb_true_iff. split.
    + destruct a as [x|]; [|reflexivity].
      destruct (str_eqb_spec x (u "@")) as [E|E]; [subst x; reflexivity|].
      cbn [orb] in H1. change (name_ok x && (tok_valid (tk AXIS_SEP (u "::")) && true) = true)%bool.
      rewrite H1. reflexivity.
    + destruct nt as [p n|n [l|]]; cbn [test_ok test_toks] in *.
      * apply andb_prop in H2 as [H2 H4]. rewrite forallb_app, valid_prefix by assumption.
        destruct (str_eqb_spec n (u "*")) as [E|E]; [subst n; reflexivity|].
        cbn [orb] in H4. change (name_ok n && true = true)%bool. now rewrite H4.
      * discriminate.
      * change (name_ok n && str_mem n NODE_TYPES && (true && (true && true)) = true)%bool.
        now rewrite H2, node_types_name.
  - apply str_mem_In in H. cbn [In] in H. destruct H as [<-|[<-|[]]]; reflexivity.
  - apply andb_prop in H as [H1 H2]. cbn [toks forallb]. rewrite forallb_app, valid_prefix by assumption.
    change (true && (true && (name_ok n && true)) = true)%bool. now rewrite H2.
  - apply andb_prop in H as [H H4]. apply andb_prop in H as [H H3]. apply andb_prop in H as [H1 H2].
    cbn [toks]. rewrite forallb_app, valid_prefix by assumption. cbn [forallb andb].
    change (tok_valid (tk FUNCNAME n)) with (name_ok n && negb (str_mem n NODE_TYPES))%bool.
    rewrite H2, H3. change (tok_valid lpar) with true. cbn [andb]. rewrite forallb_app.
    cbn [forallb]. change (tok_valid rpar) with true. rewrite andb_true_r.
    destruct args as [|a args]; [reflexivity|].
    cbn [forallb] in H4. apply andb_prop in H4 as [Ha Hc].
    inversion IHa as [|? ? IHa1 IHa2]; subst. rewrite forallb_app, (IHa1 Ha). cbn [andb].
    apply forallb_flat_map. rewrite forallb_forall in Hc. rewrite Forall_forall in IHa2.
    intros x Hx. cbn [forallb]. now rewrite (IHa2 x Hx (Hc x Hx)).
Qed.

Lemma valid_no_end ts : forallb tok_valid ts = true -> no_end ts.
Proof.
  intros H. rewrite forallb_forall in H. unfold no_end. apply Forall_forall. intros k Hk E.
  specialize (H k Hk). unfold tok_valid in H. rewrite E in H. destruct (tval k); discriminate.
Qed.

(** the round trip *)
Lemma roundtrip_ast e : canon e = true -> lex_safe (toks e) = true -> parse (serialize e) = Ok e.
Proof.
  intros Hc Hs.
  destruct (canon_good e Hc) as (_ & _ & _ & t & (Hw & Hr & Hp & He & Hy) & _).
  pose proof (toks_valid e Hc) as Hv.
  rewrite (serialize_render e Hc). rewrite <- Hy in *.
  unfold parse, parse_with.
  pose proof (tokens_render_wf t Hw Hr Hv Hs) as Ht. unfold tokens in Ht. rewrite Ht.
  rewrite (parse_tokens_complete None (yield t) t).
  - cbn [fst]. now rewrite He.
  - now apply valid_no_end.
  - repeat split; auto.
Qed.
