(** Specification: the XPath 1.0 grammar as published by the W3C (sections 2, 3), layered by
    precedence, over the token types of the lexer, with the AST each expression stands for.
    Independent of parserules.py's productions, of the LALR tables and of the driver. *)
From Coq Require Import String.
From Verif Require Export XPathLex.

(** values of nonterminals *)
Inductive wval :=
| WExpr (e : expr)
| WTest (t : nodetest)
| WAxis (a : str)
| WName (prefix : option str) (n : str)
| WList (l : list expr).

(** Levels: 1 OrExpr [21], 2 AndExpr [22], 3 EqualityExpr [23], 4 RelationalExpr [24],
    5 AdditiveExpr [25], 6 MultiplicativeExpr [26], 7 UnaryExpr [27], 8 UnionExpr [18], 9 PathExpr [19]. *)
Inductive wcat :=
| Level (n : N)
| LocationPath | RelPath | WStep | NodeTest | WNameTest | WQName | WFuncName | Axis
| FilterE | Predicates | OnePredicate | Args.

(** operators of a level *)
Definition level_op (n : N) (t : term) : bool :=
  match t with
  | OR_OP => N.eqb n 1 | AND_OP => N.eqb n 2 | EQUAL_OP => N.eqb n 3 | REL_OP => N.eqb n 4
  | PLUS_OP | MINUS_OP => N.eqb n 5
  | MULT_OP | DIV_OP | MOD_OP => N.eqb n 6
  | UNION_OP => N.eqb n 8
  | _ => false
  end.

Definition path_sep (t : term) : bool :=
  match t with PATH_SEP | ABBREV_PATH_SEP => true | _ => false end.

Notation tok_str t s := (mkTok t (VStr s)).

Inductive w3c : wcat -> list tok -> wval -> Prop :=
(* a tighter level is allowed wherever a looser one is *)
| w_up n ts e : (0 < n < 9)%N -> w3c (Level (n + 1)) ts (WExpr e) -> w3c (Level n) ts (WExpr e)
(* binary operators: left operand of the same level, right operand of the next: left associative *)
| w_bin n t op l r el er :
    level_op n t = true -> w3c (Level n) l (WExpr el) -> w3c (Level (n + 1)) r (WExpr er) ->
    w3c (Level n) (l ++ tok_str t op :: r) (WExpr (EBin el op er))
| w_neg op r e : w3c (Level 7) r (WExpr e) -> w3c (Level 7) (tok_str MINUS_OP op :: r) (WExpr (EUnary op e))
(* [19] PathExpr *)
| w_path_loc ts e : w3c LocationPath ts (WExpr e) -> w3c (Level 9) ts (WExpr e)
| w_path_filter ts e : w3c FilterE ts (WExpr e) -> w3c (Level 9) ts (WExpr e)
| w_path_both t op f r ef er :
    path_sep t = true -> w3c FilterE f (WExpr ef) -> w3c RelPath r (WExpr er) ->
    w3c (Level 9) (f ++ tok_str t op :: r) (WExpr (EBin ef op er))
(* [1] LocationPath, [2] AbsoluteLocationPath, [10] *)
| w_loc_rel ts e : w3c RelPath ts (WExpr e) -> w3c LocationPath ts (WExpr e)
| w_loc_root op : w3c LocationPath [tok_str PATH_SEP op] (WExpr (EAbs op None))
| w_loc_abs t op r e : path_sep t = true -> w3c RelPath r (WExpr e) ->
    w3c LocationPath (tok_str t op :: r) (WExpr (EAbs op (Some e)))
(* [3] RelativeLocationPath, [11] *)
| w_rel_step ts e : w3c WStep ts (WExpr e) -> w3c RelPath ts (WExpr e)
| w_rel_more t op l s el es : path_sep t = true -> w3c RelPath l (WExpr el) -> w3c WStep s (WExpr es) ->
    w3c RelPath (l ++ tok_str t op :: s) (WExpr (EBin el op es))
(* [4] Step ::= AxisSpecifier NodeTest Predicate* | AbbreviatedStep *)
| w_step n t ps lt : w3c NodeTest n (WTest t) -> w3c Predicates ps (WList lt) ->
    w3c WStep (n ++ ps) (WExpr (EStep None t lt))
| w_step_axis a n ax t ps lt : w3c Axis a (WAxis ax) -> w3c NodeTest n (WTest t) -> w3c Predicates ps (WList lt) ->
    w3c WStep (a ++ n ++ ps) (WExpr (EStep (Some ax) t lt))
| w_self s : w3c WStep [tok_str ABBREV_STEP_SELF s] (WExpr (EAbbrev s))
| w_parent s : w3c WStep [tok_str ABBREV_STEP_PARENT s] (WExpr (EAbbrev s))
(* [5] AxisSpecifier, [13] *)
| w_axis n c : w3c Axis [tok_str AXISNAME n; tok_str AXIS_SEP c] (WAxis n)
| w_axis_at s : w3c Axis [tok_str ABBREV_AXIS_AT s] (WAxis (u "@"))
(* [7] NodeTest *)
| w_nametest ts t : w3c WNameTest ts (WTest t) -> w3c NodeTest ts (WTest t)
| w_nodetype n a b : w3c NodeTest [tok_str NODETYPE n; tok_str OPEN_PAREN a; tok_str CLOSE_PAREN b] (WTest (NodeType n None))
| w_nodetype_lit n a l b :
    w3c NodeTest [tok_str NODETYPE n; tok_str OPEN_PAREN a; tok_str LITERAL l; tok_str CLOSE_PAREN b]
      (WTest (NodeType n (Some l)))
(* [37] NameTest *)
| w_star s : w3c WNameTest [tok_str STAR_OP s] (WTest (NameTest None s))
| w_prefix_star p c s : w3c WNameTest [tok_str NCNAME p; tok_str COLON c; tok_str STAR_OP s] (WTest (NameTest (Some p) s))
| w_qname_test ts p n : w3c WQName ts (WName p n) -> w3c WNameTest ts (WTest (NameTest p n))
| w_qname n : w3c WQName [tok_str NCNAME n] (WName None n)
| w_qname_p p c n : w3c WQName [tok_str NCNAME p; tok_str COLON c; tok_str NCNAME n] (WName (Some p) n)
| w_fname n : w3c WFuncName [tok_str FUNCNAME n] (WName None n)
| w_fname_p p c n : w3c WFuncName [tok_str NCNAME p; tok_str COLON c; tok_str FUNCNAME n] (WName (Some p) n)
(* [8] Predicate* *)
| w_preds_nil : w3c Predicates [] (WList [])
| w_preds_cons p e ps l : w3c OnePredicate p (WExpr e) -> w3c Predicates ps (WList l) ->
    w3c Predicates (p ++ ps) (WList (e :: l))
| w_pred a ts e b : w3c (Level 1) ts (WExpr e) ->
    w3c OnePredicate (tok_str OPEN_BRACKET a :: ts ++ [tok_str CLOSE_BRACKET b]) (WExpr e)
(* [15] PrimaryExpr and [20] FilterExpr: the predicates of a primary expression are collected *)
| w_var d ts p n : w3c WQName ts (WName p n) -> w3c FilterE (tok_str DOLLAR d :: ts) (WExpr (EVar p n))
| w_lit s : w3c FilterE [tok_str LITERAL s] (WExpr (ELit s))
| w_int n : w3c FilterE [mkTok INTEGER (VInt n)] (WExpr (EInt n))
| w_float f : w3c FilterE [mkTok FLOAT (VFloat f)] (WExpr (EFloat f))
| w_group a ts e b : w3c (Level 1) ts (WExpr e) ->
    w3c FilterE (tok_str OPEN_PAREN a :: ts ++ [tok_str CLOSE_PAREN b]) (WExpr e)
| w_filter_first f e p q : w3c FilterE f (WExpr e) -> (forall b l, e <> EPred b l) -> w3c OnePredicate p (WExpr q) ->
    w3c FilterE (f ++ p) (WExpr (EPred e [q]))
| w_filter_more f b l p q : w3c FilterE f (WExpr (EPred b l)) -> w3c OnePredicate p (WExpr q) ->
    w3c FilterE (f ++ p) (WExpr (EPred b (l ++ [q])))
(* [16] FunctionCall, [17] Argument *)
| w_call0 f p n a b : w3c WFuncName f (WName p n) ->
    w3c FilterE (f ++ [tok_str OPEN_PAREN a; tok_str CLOSE_PAREN b]) (WExpr (ECall p n []))
| w_call f p n a ts l b : w3c WFuncName f (WName p n) -> w3c Args ts (WList l) ->
    w3c FilterE (f ++ tok_str OPEN_PAREN a :: ts ++ [tok_str CLOSE_PAREN b]) (WExpr (ECall p n l))
| w_args_one ts e : w3c (Level 1) ts (WExpr e) -> w3c Args ts (WList [e])
| w_args_more ts e c rest l : w3c (Level 1) ts (WExpr e) -> w3c Args rest (WList l) ->
    w3c Args (ts ++ tok_str COMMA c :: rest) (WList (e :: l)).
