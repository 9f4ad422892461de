(** Converse of W3CProofs: what the parser accepts is an expression of the W3C grammar, with the AST
    that grammar gives it, unless a '|' is directly followed by a unary '-'. *)
From Coq Require Import String Arith.
From Verif Require Import XPathSpec XPathParseProofs XPathParser XPathCanon XPathLexProofs XPathRoundTrip XPathText XPathMisc W3CGrammar.

(** no token of type [a] directly before one of type [b] *)
Fixpoint no_pair (a b : term) (ts : list tok) : bool :=
  match ts with
  | k :: ((k' :: _) as rest) => negb (term_eqb (ttype k) a && term_eqb (ttype k') b) && no_pair a b rest
  | _ => true
  end.

Lemma no_pair_tail a b k ts : no_pair a b (k :: ts) = true -> no_pair a b ts = true.
Proof. destruct ts as [|k' ts]; [reflexivity|]. cbn [no_pair]. intros H. now apply andb_prop in H as [_ H]. Qed.

Lemma no_pair_app_r a b x y : no_pair a b (x ++ y) = true -> no_pair a b y = true.
Proof. induction x as [|k x IH]; intros H; [exact H|]. apply IH. now apply no_pair_tail in H. Qed.

Lemma no_pair_app_l a b x y : no_pair a b (x ++ y) = true -> no_pair a b x = true.
Proof.
  induction x as [|k x IH]; intros H; [reflexivity|].
  destruct x as [|k' x]; [reflexivity|]. cbn [app no_pair] in H |- *. apply andb_prop in H as [H1 H2].
  rewrite H1. cbn [andb]. apply IH. exact H2.
Qed.

Lemma no_pair_mid a b x k k' y : no_pair a b (x ++ k :: k' :: y) = true -> ttype k = a -> ttype k' <> b.
Proof.
  intros H E1 E2. apply no_pair_app_r in H. cbn [no_pair] in H. apply andb_prop in H as [H _].
  rewrite E1, E2, !term_eqb_refl in H. discriminate.
Qed.

Lemma preds_snoc ps l p e : w3c Predicates ps (WList l) -> w3c OnePredicate p (WExpr e) ->
  w3c Predicates (ps ++ p) (WList (l ++ [e])).
Proof.
  intros H Hp. remember Predicates as c. remember (WList l) as v. revert l Heqv.
  induction H; intros l' E; try discriminate; injection E as <-.
  - cbn. rewrite <- (app_nil_r p). apply w_preds_cons; [exact Hp|constructor].
  - rewrite <- app_assoc. cbn [app]. apply w_preds_cons; auto.
Qed.

Lemma args_snoc ts l c p e : w3c Args ts (WList l) -> w3c (Level 1) p (WExpr e) ->
  w3c Args (ts ++ tok_str COMMA c :: p) (WList (l ++ [e])).
Proof.
  intros H Hp. remember Args as k. remember (WList l) as v. revert l Heqv.
  induction H; intros l' E; try discriminate; injection E as <-.
  - cbn [app]. apply w_args_more; [assumption|]. now apply w_args_one.
  - rewrite <- app_assoc. cbn [app]. apply w_args_more; auto.
Qed.

Definition level_of (t : ptree) : N :=
  match t with
  | Leaf _ => 9
  | Node p _ => match binop p with Some o => lvl o | None => if is_unary p then 7 else 9 end
  end%N.

Lemma w_down n m ts e : (0 < m <= n)%N -> (n <= 9)%N -> w3c (Level n) ts (WExpr e) -> w3c (Level m) ts (WExpr e).
Proof.
  intros H1 H2. assert (Hd : exists d, n = (m + N.of_nat d)%N) by (exists (N.to_nat (n - m)); lia).
  destruct Hd as [d ->]. revert m H1 H2. induction d as [|d IH]; intros m H1 H2 H.
  - now rewrite N.add_0_r in H.
  - apply w_up; [lia|]. apply IH; [lia|lia|]. now replace (m + 1 + N.of_nat d)%N with (m + N.of_nat (S d))%N by lia.
Qed.

Definition sspec (t : ptree) (v : sval) : Prop :=
  match root t with
  | T _ => match t with Leaf k => v = SVal (tval k) | _ => False end
  | NT Expr => exists e, v = SExpr e /\ w3c (Level (level_of t)) (yield t) (WExpr e)
  | NT Step => exists e, v = SExpr e /\ w3c WStep (yield t) (WExpr e)
  | NT RelativeLocationPath => exists e, v = SExpr e /\ w3c RelPath (yield t) (WExpr e)
  | NT FilterExpr | NT Number | NT VariableReferenceN | NT FunctionCallN =>
      exists e, v = SExpr e /\ w3c FilterE (yield t) (WExpr e)
  | NT AbsoluteLocationPath | NT AbbreviatedAbsoluteLocationPath =>
      exists e, v = SExpr e /\ w3c LocationPath (yield t) (WExpr e)
  | NT Predicate => exists e, v = SExpr e /\ w3c OnePredicate (yield t) (WExpr e)
  | NT AxisSpecifier => exists a, v = SAxis a /\ w3c Axis (yield t) (WAxis a)
  | NT NodeTestN => exists n, v = STest n /\ w3c NodeTest (yield t) (WTest n)
  | NT NameTestN => exists n, v = STest n /\ w3c WNameTest (yield t) (WTest n)
  | NT QName => exists p n, v = SQName p n /\ w3c WQName (yield t) (WName p n)
  | NT FuncQName => exists p n, v = SQName p n /\ w3c WFuncName (yield t) (WName p n)
  | NT PredicateList => exists ps, v = SPreds ps /\ w3c Predicates (yield t) (WList ps)
  | NT ArgumentList => exists ps, v = SPreds ps /\ w3c Args (yield t) (WList ps)
  | NT FormalArguments => exists ps a b mid, v = SPreds ps /\ yield t = tok_str OPEN_PAREN a :: mid ++ [tok_str CLOSE_PAREN b] /\
       ((ps = [] /\ mid = []) \/ w3c Args mid (WList ps))
  | NT S' => False
  end.

Lemma level_pos t : (0 < level_of t <= 9)%N \/ (exists p k, t = Node p k /\ ~ 0 < p < nprods).
Proof.
  destruct t as [k|p kids]; [left; cbn; lia|].
  destruct (le_lt_dec p 0) as [H|H]; [right; exists p, kids; split; [reflexivity|lia]|].
  destruct (le_lt_dec nprods p) as [H'|H']; [right; exists p, kids; split; [reflexivity|lia]|].
  left. pose proof (in_real_prods p (conj H H')) as Hin. vm_compute in Hin.
  repeat (destruct Hin as [<-|Hin]; [vm_compute; split; [reflexivity|discriminate]|]). contradiction.
Qed.

Lemma level_expr t e : wf t -> w3c (Level (level_of t)) (yield t) (WExpr e) ->
  forall m, (0 < m <= level_of t)%N -> w3c (Level m) (yield t) (WExpr e).
Proof.
  intros Hw H m Hm. destruct (level_pos t) as [Hp|(p & k & -> & Hn)].
  - apply (w_down (level_of t)); [lia|lia|exact H].
  - inversion Hw; subst. contradiction.
Qed.

(** the operator levels allowed at the left of an operator, by the edge conditions *)
Lemma level_right t m : wf t -> root t = NT Expr -> (m < 9)%N -> Forall (fun x => (m <= x)%N) (right_ops t) -> (m <= level_of t)%N.
Proof.
  intros Hw Hr Hm H. destruct t as [k|p kids]; [cbn; lia|]. cbn [right_ops level_of] in *.
  destruct (binop p); [inversion H; subst; lia|]. destruct (is_unary p); [|lia].
  inversion H; subst. exact H2.
Qed.

Lemma level_left t m : wf t -> (m < 9)%N -> Forall (fun x => (m < x)%N) (left_ops t) ->
  (m < level_of t)%N \/ (level_of t = 7%N /\ exists p kids, t = Node p kids /\ is_unary p = true).
Proof.
  intros Hw Hm H. destruct t as [k|p kids]; [cbn; lia|]. cbn [left_ops level_of] in *.
  destruct (binop p); [inversion H; subst; lia|]. destruct (is_unary p) eqn:E; [|lia].
  right. split; [reflexivity|]. eauto.
Qed.

Lemma fin_str t v : fin_ok (mkTok t v) -> t <> INTEGER -> t <> FLOAT -> exists s, v = VStr s.
Proof. unfold fin_ok. cbn [ttype tval]. intros H H1 H2. destruct t; try exact H; try contradiction; congruence. Qed.

Lemma unary_yield p kids : wf (Node p kids) -> is_unary p = true -> exists k r, yield (Node p kids) = k :: r /\ ttype k = MINUS_OP.
Proof.
  intros Hw Hu. inversion Hw as [|p' kids' Hb Hr Hk]; subst.
  assert (Hr' : rhs (get_prod p) = [T MINUS_OP; NT Expr]).
  { unfold is_unary in Hu. destruct (rhs (get_prod p)) as [|[[]|] [|[|[]] []]]; try discriminate; reflexivity. }
  rewrite Hr' in Hr. destruct kids as [|a [|b [|]]]; cbn [map] in Hr; try discriminate.
  injection Hr as Ha _. destruct (root_T a _ Ha) as [v ->]. cbn. eauto.
Qed.

Lemma binary_sound p o l r v :
  binop p = Some o -> level_op (lvl o) o = true -> (lvl o < 9)%N -> (0 < lvl o)%N -> (lvl o = 8%N -> o = UNION_OP) -> lvl o <> 7%N ->
  lhs (get_prod p) = Expr -> act (get_prod p) = a_binary ->
  fin_ok (mkTok o v) -> o <> INTEGER -> o <> FLOAT -> prec_ok (Node p [l; Leaf (mkTok o v); r]) ->
  wf l -> wf r ->
  root l = NT Expr -> root r = NT Expr -> no_pair UNION_OP MINUS_OP (yield (Node p [l; Leaf (mkTok o v); r])) = true ->
  (exists vl, eval l = Some vl /\ sspec l vl) -> (exists vr, eval r = Some vr /\ sspec r vr) ->
  exists w, eval (Node p [l; Leaf (mkTok o v); r]) = Some w /\ sspec (Node p [l; Leaf (mkTok o v); r]) w.
Proof.
  intros Hb Hlo L9 L0 L8 L7 Hl Ha Hv N1 N2 Hp Wl Wr Rl Rr Hnp (vl & El & Sl) (vr & Er & Sr).
  unfold sspec in Sl, Sr. rewrite Rl in Sl. rewrite Rr in Sr.
  destruct Sl as (el & -> & Wel). destruct Sr as (er & -> & Wer).
  destruct (fin_str _ _ Hv N1 N2) as [s ->].
  exists (SExpr (EBin el s er)). split.
  - cbn [eval map sequence]. rewrite El, Er. cbn [sequence]. rewrite Ha. reflexivity.
  - unfold sspec. cbn [root]. rewrite Hl. exists (EBin el s er). split; [reflexivity|].
    inversion Hp as [|p' kids' _ Hprec _]; subst. destruct (Hprec o l _ r Hb eq_refl) as [P1 P2].
    cbn [level_of]. rewrite Hb. cbn [yield flat_map]. rewrite app_nil_r. apply w_bin; [exact Hlo| |].
    + apply level_expr; auto. split; [exact L0|]. now apply level_right.
    + apply level_expr; auto. destruct (level_left r (lvl o) Wr L9 P2) as [H|(H & p' & kids' & -> & Hu)]; [lia|].
      rewrite H. assert (lvl o <> 8%N); [|lia]. intros H8. apply L8 in H8. subst o.
      destruct (unary_yield p' kids' Wr Hu) as (k & rest & Hy & Hk).
      cbn [yield flat_map] in Hnp. rewrite app_nil_r in Hnp. cbn [yield] in Hy. rewrite Hy in Hnp.
      cbn [app] in Hnp. eapply no_pair_mid in Hnp; [|reflexivity]. congruence.
Qed.

Ltac use_ihs :=
  repeat match goal with
  | H : exists v, eval ?t = Some v /\ sspec ?t v, R : root ?t = NT _ |- _ =>
      let v := fresh "v" in let E := fresh "E" in let S := fresh "S" in
      destruct H as (v & E & S); unfold sspec in S; rewrite R in S
  end.

Ltac fix_str :=
  repeat match goal with
  | H : fin_ok (mkTok INTEGER ?v) |- _ => destruct H as [? H]; cbn [tval] in H; subst v
  | H : fin_ok (mkTok FLOAT ?v) |- _ => destruct H as [? H]; cbn [tval] in H; subst v
  | H : fin_ok (mkTok ?t ?v) |- _ => destruct (fin_str _ _ H ltac:(discriminate) ltac:(discriminate)) as [? ->]; clear H
  end.

Lemma sound_spec t : wf t -> prec_ok t -> Forall fin_ok (yield t) -> no_pair UNION_OP MINUS_OP (yield t) = true ->
  exists v, eval t = Some v /\ sspec t v.
Proof.
  induction t as [k|p kids IH] using ptree_ind'; intros Hw Hp Hv Ha.
  - exists (SVal (tval k)). split; reflexivity.
  - inversion Hw as [|p' kids' Hb Hr Hk]; subst.
    pose proof Hp as Hp0. inversion Hp as [|p' kids' Hpk Hp1 Hp2]; subst.
    assert (Hvk : Forall (fun k => Forall fin_ok (yield k)) kids).
    { apply Forall_forall. intros k Hkin. cbn [yield] in Hv. rewrite Forall_forall in Hv |- *.
      intros x Hx. apply Hv. apply in_flat_map. eauto. }
    assert (HIH : Forall (fun k => exists v, eval k = Some v /\ sspec k v) kids).
    { rewrite Forall_forall in *. intros k Hin. apply IH; auto.
      cbn [yield] in Ha. apply in_split in Hin as (l1 & l2 & ->). rewrite flat_map_app in Ha.
      apply no_pair_app_r in Ha. cbn [flat_map] in Ha. now apply no_pair_app_l in Ha. }
    clear IH.
    pose proof (in_real_prods p Hb) as Hin.
    vm_compute in Hin.
    repeat (destruct Hin as [<-|Hin]; [|]); try contradiction;
    match type of Hr with _ = rhs (get_prod ?p) => let r := eval vm_compute in (rhs (get_prod p)) in
      change (rhs (get_prod p)) with r in Hr end;
    repeat (destruct kids as [|? kids]; cbn [map] in Hr; try discriminate Hr);
    injection Hr; clear Hr; intros;
    repeat match goal with H : Forall _ (_ :: _) |- _ => inversion H; subst; clear H
         | H : Forall _ [] |- _ => clear H end;
    inv_root.
    all: cbn [yield] in *.
    all: repeat match goal with H : Forall _ (_ :: _) |- _ => inversion H; subst; clear H
         | H : Forall _ [] |- _ => clear H end.
    1-10: match goal with Hp0 : prec_ok (Node _ [_; Leaf (mkTok ?o ?v); _]) |- _ =>
            apply (binary_sound _ o); try assumption; try reflexivity; try discriminate end.
    { (* unary *)
      use_ihs. fix_str. unpack. eexists; split; [cbn [eval map sequence]; rw_eval; reflexivity|]. unfold sspec. cbn [root].
      change (lhs (get_prod 11)) with Expr. cbv iota. eexists; split; [reflexivity|].
      change (level_of _) with 7%N. cbn [flat_map yield]. rewrite app_nil_r. apply w_neg.
      specialize (Hp2 _ _ eq_refl eq_refl). apply level_expr; auto.
      match goal with |- (_ < _ <= level_of ?x)%N => destruct (level_left x 7 ltac:(assumption) ltac:(lia) Hp2) as [?|[? _]]; lia end. }
    all: clear Ha Hp Hp0 Hp1 Hp2 Hw Hb.
    all: use_ihs; fix_str.
    all: repeat match goal with H : exists v, eval (Leaf _) = Some v /\ _ |- _ => clear H end; unpack.
    all: eexists; (split; [cbn [eval map sequence]; rw_eval; reflexivity|]); unfold sspec; cbn [root];
      match goal with |- context [lhs (get_prod ?p)] => let r := eval vm_compute in (lhs (get_prod p)) in
         change (lhs (get_prod p)) with r end; cbv iota.
    all: cbn [yield flat_map]; rewrite ?app_nil_r; cbn [app].
    all: try change (level_of (Node _ _)) with 9%N.
    all: try (match goal with |- exists ps a b mid, _ => fail 1 | |- _ =>
           repeat match goal with |- exists _, _ => eexists end; (split; [reflexivity|]) end).
    all: assert (L1 : forall x e, wf x -> w3c (Level (level_of x)) (yield x) (WExpr e) -> w3c (Level 1) (yield x) (WExpr e))
      by (intros x' e' Wx Hx; apply level_expr; auto; destruct (level_pos x') as [?|(q & k' & -> & Hn)]; [lia|inversion Wx; contradiction]).
    all: try solve [econstructor; eauto; reflexivity].
    all: try solve [apply w_path_loc; econstructor; eauto].
    all: try assumption.
    all: try solve [constructor; auto].
    + rewrite <- (app_nil_r (yield p)). apply w_step; [assumption|constructor].
    + rewrite <- (app_nil_r (yield p0)). apply w_step_axis; [assumption|assumption|constructor].
    + destruct x0; cbn [append_predicate];
        try (apply w_filter_first; [assumption|intros; discriminate|assumption]); apply w_filter_more; assumption.
    + rewrite <- (app_nil_r (yield p)). apply w_preds_cons; [assumption|constructor].
    + now apply preds_snoc.
    + match goal with H : _ \/ _ |- _ => destruct H as [[-> ->]|HA] end;
      match goal with H : yield p0 = _ |- _ => rewrite H end; cbn [app]; [apply w_call0|apply w_call]; assumption.
    + exists [], x, x0, []. cbn. auto.
    + exists x1, x, x0, (yield p0). auto.
    + apply args_snoc; auto.
Qed.

(** what [parse] returns is derived by the W3C grammar *)
Lemma parse_w3c s ts e : tokens s = (ts, EndEof) -> no_pair UNION_OP MINUS_OP ts = true -> parse s = Ok e ->
  w3c (Level 1) ts (WExpr e).
Proof.
  intros Hs Hn Hp. destruct (parse_ok_derives s e Hp) as (ts' & t & H1 & H2 & H3).
  rewrite Hs in H1. injection H1 as <-. destruct H2 as (Hw & Hr & Hpr & Hy).
  destruct (sound_spec t Hw Hpr) as (v & Ev & Sv).
  - rewrite Hy. pose proof (tokens_from_ok None s) as Hf. unfold tokens in Hs. now rewrite Hs in Hf.
  - now rewrite Hy.
  - unfold sspec in Sv. rewrite Hr in Sv. destruct Sv as (e' & -> & Hw3).
    unfold ast_of in H3. rewrite Ev in H3. injection H3 as <-. rewrite <- Hy.
    apply level_expr; auto. destruct (level_pos t) as [?|(q & k' & -> & Hn')]; [lia|inversion Hw; contradiction].
Qed.
