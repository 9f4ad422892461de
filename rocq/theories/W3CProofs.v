(** Every expression of the W3C grammar is parsed, to the AST the W3C grammar gives it. *)
From Coq Require Import String Arith.
From Verif Require Import XPathSpec XPathParseProofs XPathParser XPathCanon XPathRoundTrip W3CGrammar.

Definition lev (n : N) (e : expr) (ts : list tok) : Prop :=
  exists t, good (NT Expr) (SExpr e) ts t /\
    Forall (fun x => (n <= x)%N /\ x <> 7%N) (left_ops t) /\ Forall (fun x => (n <= x)%N) (right_ops t).

Definition gx (X : nterm) (v : sval) (ts : list tok) : Prop := exists t, good (NT X) v ts t.

Definition preds_inv (l : list expr) (ts : list tok) : Prop :=
  exists parts, ts = concat parts /\ Forall2 (fun e p => gx Predicate (SExpr e) p) l parts.

Definition cfrag (x : str * list tok) : list tok := mkTok COMMA (VStr (fst x)) :: snd x.
Definition args_inv (l : list expr) (ts : list tok) : Prop :=
  exists e0 es a0 rest, l = e0 :: es /\ ts = a0 ++ flat_map cfrag rest /\ gx Expr (SExpr e0) a0 /\
    Forall2 (fun e x => gx Expr (SExpr e) (snd x)) es rest.

Definition winv (c : wcat) (ts : list tok) (v : wval) : Prop :=
  match c, v with
  | Level n, WExpr e => lev n e ts
  | LocationPath, WExpr e => exists t, good (NT Expr) (SExpr e) ts t /\ left_ops t = [] /\ right_ops t = []
  | RelPath, WExpr e => gx RelativeLocationPath (SExpr e) ts
  | WStep, WExpr e => gx Step (SExpr e) ts
  | NodeTest, WTest t => gx NodeTestN (STest t) ts
  | WNameTest, WTest t => gx NameTestN (STest t) ts
  | WQName, WName p n => gx QName (SQName p n) ts
  | WFuncName, WName p n => gx FuncQName (SQName p n) ts
  | Axis, WAxis a => gx AxisSpecifier (SAxis a) ts
  | FilterE, WExpr e => gx FilterExpr (SExpr e) ts
  | Predicates, WList l => preds_inv l ts
  | OnePredicate, WExpr e => gx Predicate (SExpr e) ts
  | Args, WList l => args_inv l ts
  | _, _ => False
  end.

Lemma preds_build l parts : l <> [] -> Forall2 (fun e p => gx Predicate (SExpr e) p) l parts ->
  gx PredicateList (SPreds l) (concat parts).
Proof.
  revert parts. induction l as [|e l IH] using rev_ind; intros parts Hne H; [congruence|].
  apply Forall2_app_inv_l in H as (p1 & p2 & H1 & H2 & ->).
  inversion H2 as [|? q ? ? [tq Hq] H3]; subst. inversion H3; subst.
  rewrite concat_app. cbn [concat]. rewrite app_nil_r.
  destruct l as [|e0 l].
  - inversion H1; subst. eexists. mkt 48. apply goods_one. exact Hq. all: reflexivity.
  - destruct (IH p1) as [t Ht]; [discriminate|exact H1|].
    eexists. mkt 49. eapply goods_cons; [exact Ht|]. apply goods_one. exact Hq. all: reflexivity.
Qed.

Lemma args_build e0 a0 : gx Expr (SExpr e0) a0 -> forall es rest,
  Forall2 (fun e (x : str * list tok) => gx Expr (SExpr e) (snd x)) es rest ->
  gx ArgumentList (SPreds (e0 :: es)) (a0 ++ flat_map cfrag rest).
Proof.
  intros [t0 H0]. induction es as [|e es IH] using rev_ind; intros rest H.
  - inversion H; subst. cbn [flat_map]. rewrite app_nil_r. eexists. mkt 57. apply goods_one. exact H0. all: reflexivity.
  - apply Forall2_app_inv_l in H as (p1 & p2 & H1 & H2 & ->).
    inversion H2 as [|? [c q] ? ? [tq Hq] H3]; subst. inversion H3; subst. cbn [snd] in Hq.
    destruct (IH p1 H1) as [t Ht].
    rewrite flat_map_app, app_assoc. cbn [flat_map]. rewrite app_nil_r. unfold cfrag at 2. cbn [fst snd].
    eexists. mkt 58. eapply goods_cons; [exact Ht|]. apply goods_leaf, goods_one. exact Hq. all: reflexivity.
Qed.

Lemma step_build t l n ps : gx NodeTestN (STest t) n -> preds_inv l ps ->
  gx Step (SExpr (EStep None t l)) (n ++ ps).
Proof.
  intros [tn Hn] (parts & -> & HF). destruct l as [|e l].
  - inversion HF; subst. cbn [concat]. rewrite app_nil_r. eexists. mkt 24. apply goods_one. exact Hn. all: reflexivity.
  - destruct (preds_build (e :: l) parts) as [tp Hp]; [discriminate|exact HF|].
    eexists. mkt 25. eapply goods_cons; [exact Hn|]. apply goods_one. exact Hp. all: reflexivity.
Qed.

Lemma step_axis_build a t l x n ps : gx AxisSpecifier (SAxis a) x -> gx NodeTestN (STest t) n -> preds_inv l ps ->
  gx Step (SExpr (EStep (Some a) t l)) (x ++ n ++ ps).
Proof.
  intros [tx Hx] [tn Hn] (parts & -> & HF). destruct l as [|e l].
  - inversion HF; subst. cbn [concat]. rewrite app_nil_r. eexists. mkt 26.
    eapply goods_cons; [exact Hx|]. apply goods_one. exact Hn. all: reflexivity.
  - destruct (preds_build (e :: l) parts) as [tp Hp]; [discriminate|exact HF|].
    eexists. mkt 27. eapply goods_cons; [exact Hx|]. eapply goods_cons; [exact Hn|]. apply goods_one. exact Hp.
    all: reflexivity.
Qed.

Lemma bin_build n o op l r el er : level_op n o = true -> lev n el l -> lev (n + 1) er r ->
  lev n (EBin el op er) (l ++ mkTok o (VStr op) :: r).
Proof.
  intros Ho (tl & (L1 & L2 & L3 & L4 & L5) & L6 & L7) (tr & (R1 & R2 & R3 & R4 & R5) & R6 & R7).
  assert (Hp : exists p, 0 < p < nprods /\ rhs (get_prod p) = [NT Expr; T o; NT Expr] /\
     lhs (get_prod p) = Expr /\ act (get_prod p) = a_binary /\ binop p = Some o /\ is_unary p = false /\ lvl o = n /\ n <> 7%N).
  { exists (op_prod o). destruct o; try discriminate Ho; cbn [level_op] in Ho; apply N.eqb_eq in Ho; subst n;
      (split; [vm_compute; lia|]); repeat split; try (vm_compute; reflexivity); discriminate. }
  destruct Hp as (p & P1 & P2 & P3 & P4 & P5 & P6 & P7 & P8).
  exists (Node p [tl; Leaf (mkTok o (VStr op)); tr]). split; [repeat split|split].
  - constructor; [exact P1| |repeat constructor; auto]. cbn [map]. now rewrite L2, R2, P2.
  - cbn [root]. now rewrite P3.
  - constructor; [repeat constructor; auto| |].
    + intros o' l' k' r' E1 E2. rewrite P5 in E1. injection E1 as <-. injection E2 as <- <- <-. rewrite P7.
      split; [exact L7|]. eapply Forall_impl; [|exact R6]. cbv beta. intros x [Hx _]. lia.
    + intros; congruence.
  - cbn [eval map sequence]. rewrite L4, R4. cbn [sequence]. rewrite P4. reflexivity.
  - cbn [yield flat_map]. now rewrite L5, R5, app_nil_r.
  - cbn [left_ops]. rewrite P5, P7. constructor; [split; [lia|exact P8]|exact L6].
  - cbn [right_ops]. rewrite P5, P7. constructor; [lia|]. eapply Forall_impl; [|exact R7]. cbv beta. intros; lia.
Qed.

Lemma neg_build op r e : lev 7 e r -> lev 7 (EUnary op e) (mkTok MINUS_OP (VStr op) :: r).
Proof.
  intros (tr & (R1 & R2 & R3 & R4 & R5) & R6 & R7).
  exists (Node 11 [Leaf (mkTok MINUS_OP (VStr op)); tr]). split; [repeat split|split].
  - constructor; [vm_compute; lia| |repeat constructor; auto]. cbn [map]. rewrite R2. reflexivity.
  - constructor; [repeat constructor; auto| |].
    + intros o l k r' E1. vm_compute in E1. discriminate.
    + intros k r' _ E. injection E as <- <-. eapply Forall_impl; [|exact R6]. cbv beta.
      change ulvl with 7%N. intros x [H1 H2]. lia.
  - cbn [eval map sequence]. rewrite R4. reflexivity.
  - cbn [yield flat_map]. now rewrite R5, app_nil_r.
  - cbn [left_ops]. change (binop 11) with (@None term). constructor.
  - cbn [right_ops]. change (binop 11) with (@None term). change (is_unary 11) with true. cbv iota.
    change ulvl with 7%N. constructor; [lia|exact R7].
Qed.

Lemma lev_atom e ts t n : good (NT Expr) (SExpr e) ts t -> left_ops t = [] -> right_ops t = [] -> lev n e ts.
Proof. intros H H1 H2. exists t. rewrite H1, H2. auto. Qed.

Lemma path_sep_cases t : path_sep t = true -> t = PATH_SEP \/ t = ABBREV_PATH_SEP.
Proof. destruct t; try discriminate; auto. Qed.

Ltac gx_all := repeat match goal with H : gx _ _ _ |- _ => destruct H as [? H] end.

Lemma w3c_inv c ts v : w3c c ts v -> winv c ts v.
Proof.
  induction 1; cbn [winv] in *.
  - destruct IHw3c as (t & Hg & H1 & H2). exists t. split; [exact Hg|].
    split; [eapply Forall_impl; [|exact H1]|eapply Forall_impl; [|exact H2]]; cbv beta; intros; lia.
  - now apply bin_build.
  - now apply neg_build.
  - destruct IHw3c as (t & Hg & H1 & H2). eapply lev_atom; eauto.
  - gx_all. eapply (lev_atom _ _ (Node 17 [_])); [mkt 17; [apply goods_one; exact IHw3c|]|..]; reflexivity.
  - gx_all. apply path_sep_cases in H as [->| ->].
    + eapply (lev_atom _ _ (Node 12 _)); [mkt 12; [eapply goods_cons; [exact IHw3c1|]; apply goods_leaf, goods_one; exact IHw3c2|]|..]; reflexivity.
    + eapply (lev_atom _ _ (Node 13 _)); [mkt 13; [eapply goods_cons; [exact IHw3c1|]; apply goods_leaf, goods_one; exact IHw3c2|]|..]; reflexivity.
  - gx_all. exists (Node 14 [x]). split; [mkt 14; [apply goods_one; exact IHw3c|]|split]; reflexivity.
  - exists (Node 15 [Node 18 [Leaf (mkTok PATH_SEP (VStr op))]]). split; [|split; reflexivity].
    mkt 15. apply goods_one. mkt 18. apply goods_leaf, goods_nil. all: reflexivity.
  - gx_all. apply path_sep_cases in H as [->| ->].
    + exists (Node 15 [Node 19 [Leaf (mkTok PATH_SEP (VStr op)); x]]). split; [|split; reflexivity].
      mkt 15. apply goods_one. mkt 19. apply goods_leaf, goods_one. exact IHw3c. all: reflexivity.
    + exists (Node 16 [Node 20 [Leaf (mkTok ABBREV_PATH_SEP (VStr op)); x]]). split; [|split; reflexivity].
      mkt 16. apply goods_one. mkt 20. apply goods_leaf, goods_one. exact IHw3c. all: reflexivity.
  - gx_all. eexists. mkt 21. apply goods_one. exact IHw3c. all: reflexivity.
  - gx_all. apply path_sep_cases in H as [->| ->]; eexists.
    + mkt 22. eapply goods_cons; [exact IHw3c1|]. apply goods_leaf, goods_one. exact IHw3c2. all: reflexivity.
    + mkt 23. eapply goods_cons; [exact IHw3c1|]. apply goods_leaf, goods_one. exact IHw3c2. all: reflexivity.
  - now apply step_build.
  - now apply step_axis_build.
  - eexists. mkt 28. apply goods_leaf, goods_nil. all: reflexivity.
  - eexists. mkt 29. apply goods_leaf, goods_nil. all: reflexivity.
  - eexists. mkt 30. apply goods_leaf, goods_leaf, goods_nil. all: reflexivity.
  - eexists. mkt 31. apply goods_leaf, goods_nil. all: reflexivity.
  - gx_all. eexists. mkt 32. apply goods_one. exact IHw3c. all: reflexivity.
  - eexists. mkt 33. apply goods_leaf, goods_leaf, goods_leaf, goods_nil. all: reflexivity.
  - eexists. mkt 34. apply goods_leaf, goods_leaf, goods_leaf, goods_leaf, goods_nil. all: reflexivity.
  - eexists. mkt 35. apply goods_leaf, goods_nil. all: reflexivity.
  - eexists. mkt 36. apply goods_leaf, goods_leaf, goods_leaf, goods_nil. all: reflexivity.
  - gx_all. eexists. mkt 37. apply goods_one. exact IHw3c. all: reflexivity.
  - eexists. mkt 39. apply goods_leaf, goods_nil. all: reflexivity.
  - eexists. mkt 38. apply goods_leaf, goods_leaf, goods_leaf, goods_nil. all: reflexivity.
  - eexists. mkt 41. apply goods_leaf, goods_nil. all: reflexivity.
  - eexists. mkt 40. apply goods_leaf, goods_leaf, goods_leaf, goods_nil. all: reflexivity.
  - exists []. split; [reflexivity|constructor].
  - destruct IHw3c2 as (parts & -> & HF). exists (p :: parts). split; [reflexivity|]. constructor; assumption.
  - destruct IHw3c as (t & Hg & _). eexists. mkt 50. apply goods_leaf. eapply goods_cons; [exact Hg|].
    apply goods_leaf, goods_nil. all: reflexivity.
  - gx_all. eexists. mkt 42. apply goods_one. mkt 51. apply goods_leaf, goods_one. exact IHw3c. all: reflexivity.
  - eexists. mkt 43. apply goods_leaf, goods_nil. all: reflexivity.
  - eexists. mkt 44. apply goods_one. mkt 53. apply goods_leaf, goods_nil. all: reflexivity.
  - eexists. mkt 44. apply goods_one. mkt 52. apply goods_leaf, goods_nil. all: reflexivity.
  - destruct IHw3c as (t & Hg & _). eexists. mkt 46. apply goods_leaf. eapply goods_cons; [exact Hg|].
    apply goods_leaf, goods_nil. all: reflexivity.
  - gx_all. eexists. mkt 47. eapply goods_cons; [exact IHw3c1|]. apply goods_one. exact IHw3c2.
    change (act (get_prod 47) [SExpr e; SExpr q]) with (Some (SExpr (append_predicate e q))).
    destruct e; try reflexivity. exfalso. eapply H0. reflexivity.
  - gx_all. eexists. mkt 47. eapply goods_cons; [exact IHw3c1|]. apply goods_one. exact IHw3c2. reflexivity.
  - gx_all. eexists. mkt 45. apply goods_one. mkt 54. eapply goods_cons; [exact IHw3c|]. apply goods_one.
    mkt 55. apply goods_leaf, goods_leaf, goods_nil. all: reflexivity.
  - gx_all. destruct IHw3c2 as (e0 & es & a0 & rest & -> & -> & H1 & H2).
    destruct (args_build e0 a0 H1 es rest H2) as [ta Ha].
    eexists. mkt 45. apply goods_one. mkt 54. eapply goods_cons; [exact IHw3c1|]. apply goods_one.
    mkt 56. apply goods_leaf. eapply goods_cons; [exact Ha|]. apply goods_leaf, goods_nil. all: reflexivity.
  - destruct IHw3c as (t & Hg & _). exists e, [], ts, []. cbn [flat_map]. rewrite app_nil_r.
    repeat split; [eexists; exact Hg|constructor].
  - destruct IHw3c1 as (t & Hg & _). destruct IHw3c2 as (e0 & es & a0 & rest' & -> & -> & H1 & H2).
    exists e, (e0 :: es), ts, ((c, a0) :: rest'). repeat split.
    + eexists; exact Hg.
    + constructor; assumption.
Qed.

(** the parser on tokens of a W3C expression *)
Lemma w3c_parse last ts e : no_end ts -> w3c (Level 1) ts (WExpr e) ->
  exists t, parse_tokens last ts EndEof = Parsed t None /\ ast_of t = Some e.
Proof.
  intros Hne H. apply w3c_inv in H. destruct H as (t & (Hw & Hr & Hp & He & Hy) & _ & _).
  exists t. split.
  - apply parse_tokens_complete; [exact Hne|]. repeat split; assumption.
  - unfold ast_of. now rewrite He.
Qed.

(** the parser on text *)
Lemma w3c_parse_text s ts e : tokens s = (ts, EndEof) -> no_end ts -> w3c (Level 1) ts (WExpr e) -> parse s = Ok e.
Proof.
  intros Hs Hne H. destruct (w3c_parse None ts e Hne H) as (t & Ht & Ha).
  unfold parse, parse_with. unfold tokens in Hs. rewrite Hs, Ht. cbn [fst].
  unfold ast_of in Ha. destruct (eval t) as [[]|]; try discriminate. congruence.
Qed.
