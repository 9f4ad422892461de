(** Round trip of parsed text: derivations that use no grouping parentheses, no predicates on
    primary expressions, no lone '/' and no literal in a node type. *)
From Coq Require Import String Arith.
From Verif Require Import XPathSpec XPathParseProofs XPathParser XPathLexProofs XPathCanon XPathRoundTrip.

Fixpoint avoids (bad : list nat) (t : ptree) : bool :=
  match t with
  | Leaf _ => true
  | Node p kids => negb (existsb (Nat.eqb p) bad) && forallb (avoids bad) kids
  end.

(** '/' alone; nodetype(literal); ( Expr ); FilterExpr Predicate *)
Definition special : list nat := [18; 34; 46; 47].

Definition pred_toks (ps : list expr) := flat_map (fun p => lbr :: toks p ++ [rbr]) ps.
Definition args_toks (args : list expr) : list tok :=
  match args with [] => [] | a :: rest => toks a ++ flat_map (fun b => comma :: toks b) rest end.

Definition vspec (t : ptree) (v : sval) : Prop :=
  match root t with
  | T _ => match t with Leaf k => v = SVal (tval k) | _ => False end
  | NT Expr => exists e, v = SExpr e /\ canon e = true /\ toks e = yield t /\ lops e = left_ops t /\ rops e = right_ops t
  | NT Step => exists e, v = SExpr e /\ canon e = true /\ toks e = yield t /\ is_step e = true
  | NT RelativeLocationPath => exists e, v = SExpr e /\ canon e = true /\ toks e = yield t /\ is_rel e = true
  | NT FilterExpr => exists e, v = SExpr e /\ canon e = true /\ toks e = yield t /\ is_filter e = true
  | NT AbsoluteLocationPath | NT AbbreviatedAbsoluteLocationPath =>
      exists e, v = SExpr e /\ canon e = true /\ toks e = yield t /\ lops e = [] /\ rops e = []
  | NT Predicate => exists e, v = SExpr e /\ canon e = true /\ lbr :: toks e ++ [rbr] = yield t
  | NT Number | NT VariableReferenceN | NT FunctionCallN =>
      exists e, v = SExpr e /\ canon e = true /\ toks e = yield t /\ is_filter e = true
  | NT AxisSpecifier => exists a, v = SAxis a /\ axis_toks (Some a) = yield t /\ (str_eqb a (u "@") || name_ok a)%bool = true
  | NT NodeTestN | NT NameTestN => exists n, v = STest n /\ test_toks n = yield t /\ test_ok n = true
  | NT QName => exists p n, v = SQName p n /\ prefix_toks p ++ [tk NCNAME n] = yield t /\ prefix_ok p = true /\ name_ok n = true
  | NT FuncQName => exists p n, v = SQName p n /\ prefix_toks p ++ [tk FUNCNAME n] = yield t /\
       prefix_ok p = true /\ name_ok n = true /\ str_mem n NODE_TYPES = false
  | NT PredicateList => exists ps, v = SPreds ps /\ ps <> [] /\ forallb canon ps = true /\ pred_toks ps = yield t
  | NT ArgumentList => exists ps, v = SPreds ps /\ ps <> [] /\ forallb canon ps = true /\ args_toks ps = yield t
  | NT FormalArguments => exists ps, v = SPreds ps /\ forallb canon ps = true /\
       lpar :: args_toks ps ++ [rpar] = yield t
  | NT S' => False
  end.

Lemma root_T t a : root t = T a -> exists v, t = Leaf (mkTok a v).
Proof. destruct t as [[x v]|p kids]; cbn; [intros [= ->]; eauto|discriminate]. Qed.

Lemma canon_rel_ops e : is_rel e = true -> lops e = [] /\ rops e = [].
Proof.
  destruct e; try discriminate; auto. cbn. destruct (sep_term op) eqn:E; [|discriminate].
  rewrite (sep_not_op _ _ E). auto.
Qed.
Lemma canon_filter_ops e : is_filter e = true -> lops e = [] /\ rops e = [].
Proof. destruct e; try discriminate; auto. Qed.

Lemma pred_toks_app a b : pred_toks (a ++ b) = pred_toks a ++ pred_toks b.
Proof. apply flat_map_app. Qed.

Lemma args_toks_app a b : a <> [] -> args_toks (a ++ [b]) = args_toks a ++ comma :: toks b.
Proof.
  destruct a as [|x a]; [congruence|]. intros _. cbn [app args_toks].
  rewrite flat_map_app. cbn [flat_map]. now rewrite app_nil_r, app_assoc.
Qed.

Lemma forallb_one {A} (f : A -> bool) l x : forallb f (l ++ [x]) = (forallb f l && f x)%bool.
Proof. rewrite forallb_app. cbn. now rewrite andb_true_r. Qed.

(** texts of fixed tokens *)
Lemma fixed_val t v : tok_valid (mkTok t v) = true -> forall x, fixed_texts t = [x] -> keyword_op t = keyword_op t -> v = VStr x.
Proof.
  intros H x Hx _. destruct v as [s|n|f].
  - destruct t; try discriminate Hx; cbn [tok_valid ttype tval] in H; rewrite Hx in H;
      cbn [str_mem existsb] in H; rewrite orb_false_r in H; apply str_eqb_eq in H; now subst.
  - destruct t; discriminate.
  - destruct t; discriminate.
Qed.

Lemma op_valid t v : tok_valid (mkTok t v) = true ->
  In t [OR_OP; AND_OP; EQUAL_OP; REL_OP; PLUS_OP; MINUS_OP; MULT_OP; DIV_OP; MOD_OP; UNION_OP] ->
  exists s, v = VStr s /\ op_term s = Some t /\ op_tok s = mkTok t v.
Proof.
  intros H Hin. destruct v as [s|n|f].
  - exists s. split; [reflexivity|]. cbn [In] in Hin.
    assert (Hm : str_mem s (fixed_texts t) = true).
    { repeat (destruct Hin as [<-|Hin]; [exact H|]). contradiction. }
    apply str_mem_In in Hm.
    repeat (destruct Hin as [<-|Hin]; [cbn [fixed_texts In] in Hm;
      repeat (destruct Hm as [<-|Hm]; [split; reflexivity|]); contradiction|]). contradiction.
  - cbn [In] in Hin. repeat (destruct Hin as [<-|Hin]; [discriminate|]). contradiction.
  - cbn [In] in Hin. repeat (destruct Hin as [<-|Hin]; [discriminate|]). contradiction.
Qed.

Lemma binary_spec p o l r v :
  binop p = Some o -> is_unary p = false -> lhs (get_prod p) = Expr -> act (get_prod p) = a_binary ->
  In o [OR_OP; AND_OP; EQUAL_OP; REL_OP; PLUS_OP; MINUS_OP; MULT_OP; DIV_OP; MOD_OP; UNION_OP] ->
  tok_valid (mkTok o v) = true -> prec_ok (Node p [l; Leaf (mkTok o v); r]) ->
  root l = NT Expr -> root r = NT Expr ->
  (exists vl, eval l = Some vl /\ vspec l vl) -> (exists vr, eval r = Some vr /\ vspec r vr) ->
  exists w, eval (Node p [l; Leaf (mkTok o v); r]) = Some w /\ vspec (Node p [l; Leaf (mkTok o v); r]) w.
Proof.
  intros Hb Hu Hl Ha Hin Hv Hp Rl Rr (vl & El & Sl) (vr & Er & Sr).
  unfold vspec in Sl, Sr. rewrite Rl in Sl. rewrite Rr in Sr.
  destruct Sl as (el & -> & Cl & Tl & LL & RL). destruct Sr as (er & -> & Cr & Tr & LR & RR).
  destruct (op_valid _ _ Hv Hin) as (s & -> & Hop & Htok).
  exists (SExpr (EBin el s er)). split.
  - cbn [eval map sequence]. rewrite El, Er. cbn [sequence]. rewrite Ha. reflexivity.
  - unfold vspec. cbn [root]. rewrite Hl. exists (EBin el s er). split; [reflexivity|].
    inversion Hp as [|p' kids' _ Hprec _]; subst. destruct (Hprec o l _ r Hb eq_refl) as [P1 P2].
    rewrite <- RL in P1. rewrite <- LR in P2.
    split; [|split; [|split]].
    + cbn [canon]. rewrite Cl, Cr, (op_not_sep _ _ Hop), Hop. cbn [andb].
      apply andb_true_iff. split; apply forallb_forall; intros x Hx.
      * rewrite Forall_forall in P1. apply N.leb_le. now apply P1.
      * rewrite Forall_forall in P2. apply N.ltb_lt. now apply P2.
    + cbn [toks yield flat_map]. rewrite Tl, Tr, Htok, app_nil_r. reflexivity.
    + cbn [lops left_ops]. now rewrite Hop, Hb, LL.
    + cbn [rops right_ops]. now rewrite Hop, Hb, RR.
Qed.

Ltac inv_root :=
  repeat match goal with
  | H : root ?t = T ?a |- _ =>
      let v := fresh "v" in destruct (root_T t a H) as [v ->]; clear H
  end.

Ltac use_ih :=
  repeat match goal with
  | H : exists v, eval ?t = Some v /\ vspec ?t v, R : root ?t = NT _ |- _ =>
      let v := fresh "v" in let E := fresh "E" in let S := fresh "S" in
      destruct H as (v & E & S); unfold vspec in S; rewrite R in S
  end.

Lemma name_val t v : tok_valid (mkTok t v) = true -> name_class t = true ->
  exists s, v = VStr s /\ name_ok s = true /\
    (t = NODETYPE -> str_mem s NODE_TYPES = true) /\ (t = FUNCNAME -> str_mem s NODE_TYPES = false).
Proof.
  intros H Hn. destruct t; try discriminate Hn; (destruct v as [s| |]; [|discriminate H|discriminate H]);
  cbn [tok_valid ttype tval] in H; exists s; (split; [reflexivity|]).
  - repeat split; try discriminate; auto.
  - apply andb_prop in H as [H H']. repeat split; try discriminate; auto.
  - apply andb_prop in H as [H H']. apply negb_true_iff in H'. repeat split; try discriminate; auto.
  - repeat split; try discriminate; auto.
Qed.

Ltac fix_toks :=
  repeat match goal with
  | H : tok_valid (mkTok ?t ?v) = true |- _ =>
      first [ is_var v; let x := fresh in
              assert (x : v = VStr (hd [] (fixed_texts t))) by (apply (fixed_val t v H); reflexivity);
              cbn [fixed_texts hd] in x; subst v
            | is_var v; let s := fresh "s" in destruct (name_val t v H eq_refl) as (s & -> & ? & ? & ?) ];
      clear H
  end.

Ltac unpack :=
  repeat match goal with
  | H : exists _, _ |- _ => destruct H
  | H : _ /\ _ |- _ => destruct H
  end; subst.

Ltac rw_eval := repeat match goal with H : eval ?t = Some _ |- _ => rewrite H; clear H end.
Ltac rw_canon := repeat match goal with H : canon ?t = true |- _ => rewrite H end; cbn [andb].

Lemma name_not_at s : name_ok s = true -> str_eqb s (u "@") = false.
Proof. intros H. apply str_eqb_neq. intros ->. vm_compute in H. discriminate. Qed.
Lemma name_not_star s : name_ok s = true -> str_eqb s (u "*") = false.
Proof. intros H. apply str_eqb_neq. intros ->. vm_compute in H. discriminate. Qed.

Ltac rest :=
  match goal with Hp0 : prec_ok _, Hp1 : _, Hp2 : _ |- _ => idtac end;
  repeat match goal with H : forallb tok_valid (yield _) = true |- _ => clear H end;
  repeat match goal with H : forall o l k r, binop _ = _ -> _ |- _ => clear H end;
  repeat match goal with H : forall k r, is_unary _ = _ -> _ |- _ => clear H end;
  repeat match goal with H : prec_ok _ |- _ => clear H end;
  use_ih; fix_toks;
  repeat match goal with H : exists v, eval (Leaf _) = Some v /\ _ |- _ => clear H end;
  unpack;
  eexists; (split; [cbn [eval map sequence]; rw_eval; reflexivity|]); unfold vspec; cbn [root];
      match goal with |- context [lhs (get_prod ?p)] => let r := eval vm_compute in (lhs (get_prod p)) in
         change (lhs (get_prod p)) with r end; cbv iota;
  repeat match goal with |- exists _, _ => eexists end;
  split; [reflexivity|];
  cbn [toks yield flat_map];
  rewrite ?app_nil_r;
  repeat match goal with H : _ = yield _ |- _ => rewrite <- H; clear H end;
  cbn [app];
  repeat match goal with |- _ /\ _ => split end;
  try assumption; try reflexivity.

Lemma text_spec t : wf t -> prec_ok t -> forallb tok_valid (yield t) = true -> avoids special t = true ->
  exists v, eval t = Some v /\ vspec t v.
Proof.
  induction t as [k|p kids IH] using ptree_ind'; intros Hw Hp Hv Ha.
  - exists (SVal (tval k)). split; reflexivity.
  - inversion Hw as [|p' kids' Hb Hr Hk]; subst.
    pose proof Hp as Hp0. inversion Hp as [|p' kids' Hpk Hp1 Hp2]; subst.
    cbn [avoids] in Ha. apply andb_prop in Ha as [Ha1 Ha2].
    assert (HIH : Forall (fun k => exists v, eval k = Some v /\ vspec k v) kids).
    { cbn [yield] in Hv. rewrite Forall_forall in *. intros k Hin. apply IH; auto.
      - rewrite forallb_forall in Hv |- *. intros x Hx. apply Hv. apply in_flat_map. eauto.
      - rewrite forallb_forall in Ha2. auto. }
    clear IH.
    pose proof (in_real_prods p Hb) as Hin.
    assert (Hvk : Forall (fun k => forallb tok_valid (yield k) = true) kids).
    { apply Forall_forall. intros k Hkin. cbn [yield] in Hv. rewrite forallb_forall in Hv |- *.
      intros x Hx. apply Hv. apply in_flat_map. eauto. }
    clear Hv Hk Hpk Ha2 Hw.
    vm_compute in Hin.
    repeat (destruct Hin as [<-|Hin]; [|]); try contradiction; try discriminate Ha1;
    match type of Hr with _ = rhs (get_prod ?p) => let r := eval vm_compute in (rhs (get_prod p)) in
      change (rhs (get_prod p)) with r in Hr end;
    repeat (destruct kids as [|? kids]; cbn [map] in Hr; try discriminate Hr);
    injection Hr; clear Hr; intros;
    repeat match goal with H : Forall _ (_ :: _) |- _ => inversion H; subst; clear H
         | H : Forall _ [] |- _ => clear H end;
    inv_root.
    all: cbn [yield forallb] in *.
    all: repeat match goal with H : (_ && true)%bool = true |- _ => rewrite andb_true_r in H end.
    all: clear Hb Ha1 Hp.
    1-10: match goal with Hp0 : prec_ok (Node _ [_; Leaf (mkTok ?o ?v); _]) |- _ =>
            apply (binary_spec _ o); try assumption; try reflexivity; cbn; tauto end.
    { clear Hp1 Hp0. use_ih. fix_toks. unpack.
      eexists; split; [cbn [eval map sequence]; rw_eval; reflexivity|]. unfold vspec. cbn [root].
      change (lhs (get_prod 11)) with Expr. cbv iota.
      eexists; split; [reflexivity|]; split; [|split; [|split]].
      + cbn [canon]. rw_canon. cbn [str_eqb u]. rewrite str_eqb_refl. cbn [andb].
        apply forallb_forall. intros y Hy. apply N.ltb_lt.
        specialize (Hp2 _ _ eq_refl eq_refl). rewrite Forall_forall in Hp2. apply Hp2. congruence.
      + cbn [toks yield flat_map]. rewrite app_nil_r. cbn [app]. unfold tk. congruence.
      + reflexivity.
      + cbn [rops right_ops]. change (binop 11) with (@None term). change (is_unary 11) with true. cbv iota. congruence. }
    all: rest.
    all: try (match goal with |- lops ?x = _ => change (lops x = []) | |- rops ?x = _ => change (rops x = []) end;
              first [apply canon_rel_ops; assumption | apply canon_filter_ops; assumption]).
    all: try discriminate.
    all: try (match goal with |- ?a ++ [_] <> [] => destruct a; discriminate end).
    all: try (match goal with |- canon (EBin _ _ _) = true => cbn [canon]; rw_canon;
           repeat match goal with H : is_rel ?x = true |- _ => rewrite H end;
           repeat match goal with H : is_step ?x = true |- _ => rewrite H end;
           repeat match goal with H : is_filter ?x = true |- _ => rewrite H end;
           cbn [andb]; try reflexivity; apply orb_true_r end).
    all: try (match goal with |- canon (EAbs _ _) = true => cbn [canon]; rw_canon;
           repeat match goal with H : is_rel ?x = true |- _ => rewrite H end; reflexivity end).
    all: try (match goal with H : is_step ?x = true |- is_rel ?x = true => destruct x; try discriminate; reflexivity end).
    all: try (match goal with |- is_rel (EBin _ _ _) = true => cbn [is_rel];
           repeat match goal with H : is_rel ?x = true |- _ => rewrite H end;
           repeat match goal with H : is_step ?x = true |- _ => rewrite H end; reflexivity end).
    all: try (match goal with |- canon (EStep _ _ _) = true => cbn [canon forallb];
           repeat match goal with H : _ = true |- _ => rewrite H end; reflexivity end).
    all: try (match goal with H : name_ok ?s = true |- context [str_eqb ?s (u "@")] =>
           rewrite (name_not_at s H), H; reflexivity end).
    all: try (match goal with H : name_ok ?s = true |- axis_toks (Some ?s) = _ =>
           cbn [axis_toks]; rewrite (name_not_at s H); reflexivity end).
    all: try (match goal with |- test_ok _ = true => cbn [test_ok prefix_ok];
           repeat match goal with H : _ = true |- _ => rewrite H end; rewrite ?orb_true_r; auto end).
    all: try (match goal with H : name_ok ?n = true |- test_toks (NameTest _ ?n) = _ =>
           cbn [test_toks]; rewrite (name_not_star n H); reflexivity end).
    all: try (match goal with |- str_mem _ NODE_TYPES = false => auto end).
    all: try (match goal with H : tok_valid (mkTok _ ?v) = true |- _ => destruct v; try discriminate H;
           cbn [expr_of_tokval tval canon toks is_filter]; try exact H; reflexivity end).
    all: try (match goal with |- forallb canon [_] = true => cbn [forallb]; rw_canon; reflexivity end).
    all: try (match goal with |- forallb canon (_ ++ [_]) = true => rewrite forallb_one; rw_canon;
            match goal with H : forallb canon _ = true |- _ => rewrite H end; reflexivity end).
    all: try (match goal with |- pred_toks [_] = _ => cbn [pred_toks flat_map]; apply app_nil_r end).
    all: try (match goal with |- args_toks [_] = _ => cbn [args_toks flat_map]; apply app_nil_r end).
    all: try (match goal with |- pred_toks (_ ++ [_]) = _ => rewrite pred_toks_app; f_equal; cbn [pred_toks flat_map]; apply app_nil_r end).
    all: try (match goal with |- args_toks (_ ++ [_]) = _ => rewrite args_toks_app by assumption; reflexivity end).
    all: try (match goal with |- canon (EVar _ _) = true => cbn [canon];
           repeat match goal with H : _ = true |- _ => rewrite H end; reflexivity end).
    all: try (match goal with |- canon (ECall _ _ _) = true => cbn [canon];
           repeat match goal with H : _ = true |- _ => rewrite H end;
           repeat match goal with H : _ = false |- _ => rewrite H end; reflexivity end).
    rewrite <- app_assoc. reflexivity.
Qed.

(** ** Tokens that come from the lexer *)
Definition value_ok (k : tok) : bool :=
  match ttype k, tval k with
  | LITERAL, VStr s => lit_safe s
  | FLOAT, VFloat f => float_ok f
  | _, _ => true
  end.

Lemma ncname_rest_self f s a b : length s <= f -> ncname_rest f s = (a, b) ->
  forall f', length a <= f' -> ncname_rest f' a = (a, []).
Proof.
  revert s a b. induction f as [|f IH]; intros s a b Hf H f' Hf'; cbn [ncname_rest] in H.
  - injection H as <- <-. destruct f'; reflexivity.
  - destruct s as [|c s]; [injection H as <- <-; destruct f'; reflexivity|].
    destruct (name_char c) eqn:Hc.
    + destruct (ncname_rest f s) as [a' b'] eqn:E. injection H as <- <-.
      destruct f' as [|f']; [cbn in Hf'; lia|]. cbn [ncname_rest]. rewrite Hc.
      rewrite (IH s a' b'); [reflexivity|cbn in Hf; lia|exact E|cbn in Hf'; lia].
    + destruct (starts_with quirk (c :: s)) eqn:Q.
      * destruct (ncname_rest f (skipn 4 (c :: s))) as [a' b'] eqn:E.
        assert (Hab : quirk ++ a' = a /\ b' = b) by (split; congruence). destruct Hab as [<- ->].
        destruct f' as [|f']; [rewrite app_length in Hf'; cbn [length quirk] in Hf'; lia|].
        cbn [quirk app ncname_rest]. change (name_char 192) with false. cbv iota.
        change (starts_with [192%N; 45%N; 214%N; 93%N] (192%N :: 45%N :: 214%N :: 93%N :: a')) with true.
        change (skipn 4 (192%N :: 45%N :: 214%N :: 93%N :: a')) with a'.
        rewrite (IH (skipn 4 (c :: s)) a' b); [reflexivity| |exact E|].
        -- rewrite skipn_length. cbn [length] in *. lia.
        -- rewrite app_length in Hf'. cbn [length quirk] in Hf'. lia.
      * injection H as <- <-. destruct f'; reflexivity.
Qed.

Lemma match_ncname_self s a b : match_ncname s = Some (a, b) -> match_ncname a = Some (a, []).
Proof.
  destruct s as [|c s]; cbn [match_ncname]; [discriminate|].
  destruct (start_char c) eqn:Hc.
  - destruct (ncname_rest (length s) s) as [a' b'] eqn:E. intros [= <- <-].
    cbn [match_ncname]. rewrite Hc.
    rewrite (ncname_rest_self (length s) s a' b'); auto.
  - destruct (starts_with quirk (c :: s)) eqn:Q; [|discriminate].
    destruct (ncname_rest (length (c :: s)) (skipn 4 (c :: s))) as [a' b'] eqn:E. intros H.
    assert (Hab : quirk ++ a' = a /\ b' = b) by (split; congruence). destruct Hab as [<- ->].
    cbn [quirk app match_ncname]. change (start_char 192) with false. cbv iota.
    change (starts_with [192%N; 45%N; 214%N; 93%N] (192%N :: 45%N :: 214%N :: 93%N :: a')) with true.
    change (skipn 4 (192%N :: 45%N :: 214%N :: 93%N :: a')) with a'. cbv iota.
    rewrite (ncname_rest_self (length (c :: s)) (skipn 4 (c :: s)) a' b); [reflexivity| |exact E|].
    + rewrite skipn_length. lia.
    + cbn [length]. lia.
Qed.

Lemma raw_at_valid s k r : raw_at s = RTok k r -> value_ok k = true -> tok_valid k = true.
Proof.
  unfold raw_at. destruct s as [|c s]; [discriminate|].
  destruct (match_literal (c :: s)) as [[v r1]|] eqn:E1; [intros [= <- <-]; auto|].
  destruct (match_float (c :: s)) as [[v r1]|] eqn:E2; [intros [= <- <-]; auto|].
  destruct (match_integer (c :: s)) as [[v r1]|] eqn:E3; [intros [= <- <-]; auto|].
  destruct (match_ncname (c :: s)) as [[v r1]|] eqn:E4.
  - intros [= <- <-] _. cbn [tok_valid ttype tval]. unfold name_ok.
    pose proof (match_ncname_self _ _ _ E4) as Hs.
    destruct (match_ncname_app _ _ _ E4) as [Ha Hne].
    destruct v as [|d v]; [congruence|]. cbn [app] in Ha. injection Ha as <- Ha.
    rewrite Hs, str_eqb_refl, andb_true_r. apply negb_true_iff.
    unfold match_integer in E3. cbn [span] in E3.
    destruct (is_digit c) eqn:Ed; [|reflexivity].
    destruct (span is_digit s) as [x y]. discriminate.
  - destruct (match_op (c :: s)) as [[[t' v] r1]|] eqn:E5; [|discriminate].
    intros [= <- <-] _.
    revert E5. destruct s as [|e s2]; unfold match_op; cbv zeta; cbn [skipn]; intros H;
    repeat match type of H with
    | (if ?b then _ else _) = _ => destruct b eqn:?
    end; try discriminate; injection H as <- <- <-;
    repeat match goal with
    | H : (_ || _)%bool = true |- _ => apply orb_prop in H as [?|?]
    | H : (_ && _)%bool = true |- _ => apply andb_prop in H as [? ?]
    | H : N.eqb _ _ = true |- _ => apply N.eqb_eq in H; subst
    end; reflexivity.
Qed.

Lemma raw_stream_valid n s : forallb value_ok (fst (raw_stream n s)) = true ->
  forallb tok_valid (fst (raw_stream n s)) = true.
Proof.
  revert s. induction n as [|n IH]; intros s; cbn [raw_stream]; [reflexivity|].
  destruct (raw_token s) as [t rest| |] eqn:E; try reflexivity.
  specialize (IH rest). destruct (raw_stream n rest) as [ts e]. cbn [fst forallb] in *.
  intros H. apply andb_prop in H as [H1 H2]. rewrite (IH H2), andb_true_r.
  eapply raw_at_valid; [exact E|exact H1].
Qed.

Lemma operator_text n o : operator_name n = Some o -> str_mem n (fixed_texts o) = true /\ keyword_op o = true.
Proof.
  unfold operator_name.
  repeat match goal with |- context [str_eqb ?a ?b] => destruct (str_eqb_spec a b) as [->|?] end;
  intros [= <-]; split; reflexivity.
Qed.

Lemma value_ok_type t v : (t = NCNAME \/ t = STAR_OP -> True) -> forall ty,
  value_ok (mkTok ty v) = true -> ty <> LITERAL -> ty <> FLOAT -> t <> LITERAL -> t <> FLOAT -> value_ok (mkTok t v) = true.
Proof. intros _ ty _ _ _ H1 H2. destruct t; try reflexivity; congruence. Qed.

Lemma retype_props rs : forall last e ts e',
  retype last rs e = (ts, e') -> forallb tok_valid rs = true ->
  Forall raw_ok rs ->
  forallb tok_valid ts = true /\
  match ts with k :: _ => pre_ok last k = true | [] => True end /\
  chain (fun a b => pre_ok (Some (ttype a)) b = true) ts.
Proof.
  induction rs as [|r rs IH]; intros last e ts e' H Hv Hraw; cbn [retype] in H.
  - injection H as <- <-. repeat split.
  - cbn [forallb] in Hv. apply andb_prop in Hv as [Hr Hv].
    inversion Hraw as [|? ? Hr0 Hraw']; subst.
    assert (C : forall ty, tok_valid (mkTok ty (tval r)) = true -> pre_ok last (mkTok ty (tval r)) = true ->
      (let (ts, e') := retype (Some ty) rs e in (mkTok ty (tval r) :: ts, e')) = (ts, e') ->
      forallb tok_valid ts = true /\ match ts with k :: _ => pre_ok last k = true | [] => True end /\
      chain (fun a b => pre_ok (Some (ttype a)) b = true) ts).
    { intros ty T1 T2 HC. destruct (retype (Some ty) rs e) as [ts0 e0] eqn:E. injection HC as <- <-.
      destruct (IH _ _ _ _ E Hv Hraw') as (I1 & I2 & I3).
      cbn [forallb]. rewrite T1, I1. repeat split; [exact T2|].
      destruct ts0 as [|k ts0]; [exact I|]. split; [exact I2|exact I3]. }
    destruct r as [ty v]. cbn [ttype tval] in *.
    unfold raw_ok in Hr0. cbn [ttype tval] in Hr0.
    destruct ty; try contradiction; try (apply (C _ Hr); [reflexivity|exact H]).
    + (* STAR *) destruct (operand_before last) eqn:Eo.
      * apply (C MULT_OP); [|unfold pre_ok; cbn; exact Eo|exact H].
        destruct v; try discriminate Hr. exact Hr.
      * apply (C STAR_OP Hr); [unfold pre_ok; cbn [ttype]; now rewrite Eo|exact H].
    + (* NCNAME *) destruct Hr0 as [n ->].
      destruct (operand_before last) eqn:Eo.
      * cbn [name_of] in H. destruct (operator_name n) as [o|] eqn:En.
        -- destruct (operator_text _ _ En) as [O1 O2].
           apply (C o); [| |exact H].
           ++ destruct o; try discriminate O2; exact O1.
           ++ unfold pre_ok. cbn [ttype]. destruct o; try discriminate O2; exact Eo.
        -- apply (C NCNAME Hr); [|exact H]. unfold pre_ok. cbn [ttype tval name_of]. rewrite Eo, En. reflexivity.
      * destruct (peek_err rs e); [injection H as <- <-; repeat split|].
        assert (Hn : name_ok n = true) by exact Hr.
        apply (C (name_type (mkTok NCNAME (VStr n)) rs)); [| |exact H].
        -- unfold name_type. destruct rs as [|r2 rs]; [exact Hr|]. cbn [tval name_of].
           destruct (ttype r2); try exact Hr.
           destruct (str_mem n NODE_TYPES) eqn:Em; cbn [tok_valid ttype tval]; now rewrite Hn, Em.
        -- unfold name_type, pre_ok. destruct rs as [|r2 rs]; cbn [ttype]; rewrite ?Eo; [reflexivity|].
           destruct (ttype r2); cbn [ttype]; rewrite ?Eo; try reflexivity.
           destruct (str_mem _ _); now rewrite ?Eo.
Qed.

Lemma retype_value_ok rs : forall last e ts,
  retype last rs e = (ts, EndEof) -> forallb value_ok ts = true -> forallb value_ok rs = true.
Proof.
  induction rs as [|r rs IH]; intros last e ts H Hv; [reflexivity|]. cbn [retype] in H.
  assert (C : forall ty, (ty <> ttype r -> value_ok r = true) ->
    (let (ts, e') := retype (Some ty) rs e in (mkTok ty (tval r) :: ts, e')) = (ts, EndEof) ->
    forallb value_ok (r :: rs) = true).
  { intros ty Hty HC. destruct (retype (Some ty) rs e) as [ts0 e0] eqn:E. injection HC as <- ->.
    cbn [forallb] in *. apply andb_prop in Hv as [V1 V2]. rewrite (IH _ _ _ E V2), andb_true_r.
    destruct (term_eq_dec ty (ttype r)) as [->|Hne]; [|auto]. destruct r; exact V1. }
  destruct (ttype r) eqn:Er; try (apply (C _ (fun H => match H eq_refl with end)); exact H).
  - eapply C; [|exact H]. intros _. unfold value_ok. now rewrite Er.
  - destruct (operand_before last); [|destruct (peek_err rs e); [discriminate|]];
      (eapply C; [|exact H]); intros _; unfold value_ok; now rewrite Er.
Qed.

(** no name directly before '-' *)
Fixpoint no_name_minus (ts : list tok) : bool :=
  match ts with
  | a :: ((b :: _) as r) =>
    negb (match ttype a, ttype b with NCNAME, MINUS_OP => true | _, _ => false end) && no_name_minus r
  | _ => true
  end.

Lemma pre_safe ts : chain (fun a b => pre_ok (Some (ttype a)) b = true) ts -> no_name_minus ts = true ->
  lex_safe ts = true.
Proof.
  induction ts as [|a [|b ts] IH]; intros Hc Hn; try reflexivity.
  destruct Hc as [H1 H2]. cbn [no_name_minus] in Hn. apply andb_prop in Hn as [N1 N2].
  change (lex_safe (a :: b :: ts)) with (safe_pair a b && lex_safe (b :: ts))%bool.
  rewrite IH; auto. rewrite andb_true_r. unfold safe_pair, is_operator_name.
  apply negb_true_iff in N1. unfold pre_ok in H1.
  apply andb_true_iff. split; apply negb_true_iff.
  - destruct (ttype a), (ttype b); try reflexivity; try discriminate.
  - destruct (ttype a) eqn:Ea; try reflexivity; destruct (ttype b) eqn:Eb; try reflexivity;
      cbn [operand_before forcer negb orb] in H1; destruct (operator_name _); try discriminate; reflexivity.
Qed.

Lemma lexed_valid s ts : tokens s = (ts, EndEof) -> forallb value_ok ts = true ->
  forallb tok_valid ts = true /\ chain (fun a b => pre_ok (Some (ttype a)) b = true) ts.
Proof.
  unfold tokens. rewrite tokens_from_spec. intros H Hv.
  pose proof (retype_value_ok _ _ _ _ H Hv) as Hr.
  apply raw_stream_valid in Hr.
  destruct (retype_props _ _ _ _ _ H Hr (raws_ok s)) as (H1 & _ & H3). auto.
Qed.

Lemma roundtrip_text s ts t :
  tokens s = (ts, EndEof) -> derives ts t -> avoids special t = true ->
  forallb value_ok ts = true -> no_name_minus ts = true ->
  exists e, parse s = Ok e /\ parse (serialize e) = Ok e.
Proof.
  intros Hs Hd Ha Hv Hn. pose proof Hd as (Hw & Hr & Hp & Hy).
  destruct (lexed_valid _ _ Hs Hv) as [Hval Hpre].
  destruct (text_spec t Hw Hp) as (v & Ev & Sv); [now rewrite Hy|exact Ha|].
  unfold vspec in Sv. rewrite Hr in Sv. destruct Sv as (e & -> & Hc & Ht & _).
  exists e. split.
  - unfold parse, parse_with. unfold tokens in Hs. rewrite Hs.
    rewrite (parse_tokens_complete None ts t); [|now apply valid_no_end|exact Hd].
    cbn [fst]. now rewrite Ev.
  - apply roundtrip_ast; [exact Hc|]. rewrite Ht, Hy. now apply pre_safe.
Qed.
