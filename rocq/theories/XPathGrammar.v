(** Model of eulxml/xpath/parserules.py: the productions in PLY's order (functions sorted by line,
    alternatives in docstring order), their precedence, and the semantic actions. *)
From Coq Require Import String.
From Verif Require Export XPathLex.

(** Nonterminals of parserules.py. *)
Inductive nterm :=
| S' | Expr | RelativeLocationPath | AbsoluteLocationPath | AbbreviatedAbsoluteLocationPath | Step
| AxisSpecifier | NodeTestN | NameTestN | QName | FuncQName | FilterExpr | PredicateList | Predicate
| VariableReferenceN | Number | FunctionCallN | FormalArguments | ArgumentList.

Definition all_nterms : list nterm :=
  [ S'; Expr; RelativeLocationPath; AbsoluteLocationPath; AbbreviatedAbsoluteLocationPath; Step;
    AxisSpecifier; NodeTestN; NameTestN; QName; FuncQName; FilterExpr; PredicateList; Predicate;
    VariableReferenceN; Number; FunctionCallN; FormalArguments; ArgumentList ].

Definition nterm_id (n : nterm) : N :=
  match n with
  | S' => 0 | Expr => 1 | RelativeLocationPath => 2 | AbsoluteLocationPath => 3
  | AbbreviatedAbsoluteLocationPath => 4 | Step => 5 | AxisSpecifier => 6 | NodeTestN => 7
  | NameTestN => 8 | QName => 9 | FuncQName => 10 | FilterExpr => 11 | PredicateList => 12
  | Predicate => 13 | VariableReferenceN => 14 | Number => 15 | FunctionCallN => 16
  | FormalArguments => 17 | ArgumentList => 18
  end%N.

Definition nterm_eqb (a b : nterm) : bool := N.eqb (nterm_id a) (nterm_id b).

Lemma nterm_eqb_eq a b : nterm_eqb a b = true <-> a = b.
Proof. split; [destruct a, b; cbn; congruence|intros ->; apply N.eqb_refl]. Qed.

Lemma all_nterms_complete n : In n all_nterms.
Proof. destruct n; cbn; tauto. Qed.

Inductive sym := T (t : term) | NT (n : nterm).

Definition sym_eqb (a b : sym) : bool :=
  match a, b with
  | T x, T y => term_eqb x y
  | NT x, NT y => nterm_eqb x y
  | _, _ => false
  end.

Lemma sym_eqb_eq a b : sym_eqb a b = true <-> a = b.
Proof.
  destruct a, b; cbn; rewrite ?term_eqb_eq, ?nterm_eqb_eq; split; congruence.
Qed.

Lemma sym_eqb_refl a : sym_eqb a a = true.
Proof. now apply sym_eqb_eq. Qed.

Definition all_syms : list sym := map T all_terms ++ map NT all_nterms.

Lemma all_syms_complete s : In s all_syms.
Proof.
  unfold all_syms. rewrite in_app_iff, !in_map_iff.
  destruct s as [t|n]; [left; exists t|right; exists n]; split; trivial;
    [apply all_terms_complete|apply all_nterms_complete].
Qed.

(** Precedence table, parserules.py:27-36: level and "left?"; PLY numbers the rows from 1.
    Tokens not listed have ('right', 0). *)
Inductive assoc := ALeft | ARight.

Definition token_prec (t : term) : assoc * N :=
  match t with
  | OR_OP => (ALeft, 1) | AND_OP => (ALeft, 2) | EQUAL_OP => (ALeft, 3) | REL_OP => (ALeft, 4)
  | PLUS_OP | MINUS_OP => (ALeft, 5)
  | MULT_OP | DIV_OP | MOD_OP => (ALeft, 6)
  | UNION_OP => (ALeft, 8)
  | _ => (ARight, 0)
  end%N.

Definition UMINUS : assoc * N := (ARight, 7%N).

(** Semantic values ([p[i]]). *)
Inductive sval :=
| SVal (v : tokval)                         (* a token's value *)
| SExpr (e : expr)
| STest (t : nodetest)
| SPreds (l : list expr)                    (* list objects: predicate lists and argument lists *)
| SQName (p : option str) (n : str)
| SAxis (a : str).

(** The AST that a [str], [int] or [float] object is. *)
Definition expr_of_tokval (v : tokval) : expr :=
  match v with VStr s => ELit s | VInt n => EInt n | VFloat f => EFloat f end.

(** Semantic actions; [None] stands for a Python type error and is never reached on a derivation
    (proved in XPathParseProofs: [eval_wf]). *)
Definition action := list sval -> option sval.

(** p_expr_boolean, parserules.py:42-55; p_path_expr_binary :67-72; p_relative_location_path_binary
    :111-116: ast.BinaryExpression(p[1], p[2], p[3]) *)
Definition a_binary : action := fun vs =>
  match vs with
  | [SExpr l; SVal (VStr op); SExpr r] => Some (SExpr (EBin l op r))
  | _ => None
  end.

(** p_expr_unary, parserules.py:57-61 *)
Definition a_unary : action := fun vs =>
  match vs with
  | [SVal (VStr op); SExpr r] => Some (SExpr (EUnary op r))
  | _ => None
  end.

(** p[0] = p[1] *)
Definition a_copy : action := fun vs =>
  match vs with [v] => Some v | _ => None end.

(** p[0] = p[1] for a token: the str/int/float object is the expression *)
Definition a_copy_tok : action := fun vs =>
  match vs with [SVal v] => Some (SExpr (expr_of_tokval v)) | _ => None end.

(** p_absolute_location_path_rootonly :87-91 *)
Definition a_abs_root : action := fun vs =>
  match vs with [SVal (VStr op)] => Some (SExpr (EAbs op None)) | _ => None end.

(** p_absolute_location_path_subpath :93-97, p_abbreviated_absolute_location_path :99-103 *)
Definition a_abs : action := fun vs =>
  match vs with
  | [SVal (VStr op); SExpr r] => Some (SExpr (EAbs op (Some r)))
  | _ => None
  end.

(** p_step_nodetest :122-126 *)
Definition a_step : action := fun vs =>
  match vs with [STest t] => Some (SExpr (EStep None t [])) | _ => None end.

(** p_step_nodetest_predicates :128-132 *)
Definition a_step_preds : action := fun vs =>
  match vs with [STest t; SPreds ps] => Some (SExpr (EStep None t ps)) | _ => None end.

(** p_step_axis_nodetest :134-138 *)
Definition a_step_axis : action := fun vs =>
  match vs with [SAxis a; STest t] => Some (SExpr (EStep (Some a) t [])) | _ => None end.

(** p_step_axis_nodetest_predicates :140-144 *)
Definition a_step_axis_preds : action := fun vs =>
  match vs with
  | [SAxis a; STest t; SPreds ps] => Some (SExpr (EStep (Some a) t ps))
  | _ => None
  end.

(** p_step_abbrev :146-151 *)
Definition a_abbrev : action := fun vs =>
  match vs with [SVal (VStr s)] => Some (SExpr (EAbbrev s)) | _ => None end.

(** p_axis_specifier_full :157-161 *)
Definition a_axis : action := fun vs =>
  match vs with [SVal (VStr s); SVal _] => Some (SAxis s) | _ => None end.

(** p_axis_specifier_abbrev :163-167 *)
Definition a_axis_at : action := fun vs =>
  match vs with [SVal _] => Some (SAxis (u "@")) | _ => None end.

(** p_node_test_type_simple :179-186 *)
Definition a_nodetype : action := fun vs =>
  match vs with [SVal (VStr n); _; _] => Some (STest (NodeType n None)) | _ => None end.

(** p_node_test_type_literal :188-195 *)
Definition a_nodetype_lit : action := fun vs =>
  match vs with
  | [SVal (VStr n); _; SVal (VStr l); _] => Some (STest (NodeType n (Some l)))
  | _ => None
  end.

(** p_name_test_star :201-205 *)
Definition a_star : action := fun vs =>
  match vs with [SVal (VStr s)] => Some (STest (NameTest None s)) | _ => None end.

(** p_name_test_prefix_star :207-211 *)
Definition a_prefix_star : action := fun vs =>
  match vs with
  | [SVal (VStr p); _; SVal (VStr s)] => Some (STest (NameTest (Some p) s))
  | _ => None
  end.

(** p_name_test_qname :213-218 *)
Definition a_nametest_qname : action := fun vs =>
  match vs with [SQName p n] => Some (STest (NameTest p n)) | _ => None end.

(** p_qname_prefixed :225-229, p_funcqname_prefixed :237-241 *)
Definition a_qname_prefixed : action := fun vs =>
  match vs with
  | [SVal (VStr p); _; SVal (VStr n)] => Some (SQName (Some p) n)
  | _ => None
  end.

(** p_qname_unprefixed :231-235, p_funcqname_unprefixed :243-247 *)
Definition a_qname : action := fun vs =>
  match vs with [SVal (VStr n)] => Some (SQName None n) | _ => None end.

(** p_filter_expr_grouped :264-268 and p_predicate :296-300: p[0] = p[2] *)
Definition a_group : action := fun vs =>
  match vs with [_; v; _] => Some v | _ => None end.

(** p_filter_expr_predicate :270-277.  Only PredicatedExpression has append_predicate. *)
Definition append_predicate (e p : expr) : expr :=
  match e with
  | EPred b ps => EPred b (ps ++ [p])
  | _ => EPred e [p]
  end.

Definition a_filter_pred : action := fun vs =>
  match vs with
  | [SExpr f; SExpr p] => Some (SExpr (append_predicate f p))
  | _ => None
  end.

(** p_predicate_list_single :283-287, p_argument_list_single :348-352 *)
Definition a_single : action := fun vs =>
  match vs with [SExpr e] => Some (SPreds [e]) | _ => None end.

(** p_predicate_list_recursive :289-294 *)
Definition a_preds_app : action := fun vs =>
  match vs with [SPreds l; SExpr e] => Some (SPreds (l ++ [e])) | _ => None end.

(** p_variable_reference :306-310 *)
Definition a_var : action := fun vs =>
  match vs with [_; SQName p n] => Some (SExpr (EVar p n)) | _ => None end.

(** p_function_call :327-334 *)
Definition a_call : action := fun vs =>
  match vs with
  | [SQName p n; SPreds args] => Some (SExpr (ECall p n args))
  | _ => None
  end.

(** p_formal_arguments_empty :336-340 *)
Definition a_args_empty : action := fun vs =>
  match vs with [_; _] => Some (SPreds []) | _ => None end.

(** p_argument_list_recursive :354-359 *)
Definition a_args_app : action := fun vs =>
  match vs with [SPreds l; _; SExpr e] => Some (SPreds (l ++ [e])) | _ => None end.

Record prod := mkProd {
  lhs : nterm;
  rhs : list sym;
  pprec : option (assoc * N);   (* %prec override *)
  act : action
}.

Definition P l r a := mkProd l r None a.

(** The grammar.  Production 0 is PLY's augmented start rule. *)
Definition prods : list prod := [
  P S' [NT Expr] a_copy;
  P Expr [NT Expr; T OR_OP; NT Expr] a_binary;
  P Expr [NT Expr; T AND_OP; NT Expr] a_binary;
  P Expr [NT Expr; T EQUAL_OP; NT Expr] a_binary;
  P Expr [NT Expr; T REL_OP; NT Expr] a_binary;
  P Expr [NT Expr; T PLUS_OP; NT Expr] a_binary;
  P Expr [NT Expr; T MINUS_OP; NT Expr] a_binary;
  P Expr [NT Expr; T MULT_OP; NT Expr] a_binary;
  P Expr [NT Expr; T DIV_OP; NT Expr] a_binary;
  P Expr [NT Expr; T MOD_OP; NT Expr] a_binary;
  P Expr [NT Expr; T UNION_OP; NT Expr] a_binary;
  mkProd Expr [T MINUS_OP; NT Expr] (Some UMINUS) a_unary;
  P Expr [NT FilterExpr; T PATH_SEP; NT RelativeLocationPath] a_binary;
  P Expr [NT FilterExpr; T ABBREV_PATH_SEP; NT RelativeLocationPath] a_binary;
  P Expr [NT RelativeLocationPath] a_copy;
  P Expr [NT AbsoluteLocationPath] a_copy;
  P Expr [NT AbbreviatedAbsoluteLocationPath] a_copy;
  P Expr [NT FilterExpr] a_copy;
  P AbsoluteLocationPath [T PATH_SEP] a_abs_root;
  P AbsoluteLocationPath [T PATH_SEP; NT RelativeLocationPath] a_abs;
  P AbbreviatedAbsoluteLocationPath [T ABBREV_PATH_SEP; NT RelativeLocationPath] a_abs;
  P RelativeLocationPath [NT Step] a_copy;
  P RelativeLocationPath [NT RelativeLocationPath; T PATH_SEP; NT Step] a_binary;
  P RelativeLocationPath [NT RelativeLocationPath; T ABBREV_PATH_SEP; NT Step] a_binary;
  P Step [NT NodeTestN] a_step;
  P Step [NT NodeTestN; NT PredicateList] a_step_preds;
  P Step [NT AxisSpecifier; NT NodeTestN] a_step_axis;
  P Step [NT AxisSpecifier; NT NodeTestN; NT PredicateList] a_step_axis_preds;
  P Step [T ABBREV_STEP_SELF] a_abbrev;
  P Step [T ABBREV_STEP_PARENT] a_abbrev;
  P AxisSpecifier [T AXISNAME; T AXIS_SEP] a_axis;
  P AxisSpecifier [T ABBREV_AXIS_AT] a_axis_at;
  P NodeTestN [NT NameTestN] a_copy;
  P NodeTestN [T NODETYPE; T OPEN_PAREN; T CLOSE_PAREN] a_nodetype;
  P NodeTestN [T NODETYPE; T OPEN_PAREN; T LITERAL; T CLOSE_PAREN] a_nodetype_lit;
  P NameTestN [T STAR_OP] a_star;
  P NameTestN [T NCNAME; T COLON; T STAR_OP] a_prefix_star;
  P NameTestN [NT QName] a_nametest_qname;
  P QName [T NCNAME; T COLON; T NCNAME] a_qname_prefixed;
  P QName [T NCNAME] a_qname;
  P FuncQName [T NCNAME; T COLON; T FUNCNAME] a_qname_prefixed;
  P FuncQName [T FUNCNAME] a_qname;
  P FilterExpr [NT VariableReferenceN] a_copy;
  P FilterExpr [T LITERAL] a_copy_tok;
  P FilterExpr [NT Number] a_copy;
  P FilterExpr [NT FunctionCallN] a_copy;
  P FilterExpr [T OPEN_PAREN; NT Expr; T CLOSE_PAREN] a_group;
  P FilterExpr [NT FilterExpr; NT Predicate] a_filter_pred;
  P PredicateList [NT Predicate] a_single;
  P PredicateList [NT PredicateList; NT Predicate] a_preds_app;
  P Predicate [T OPEN_BRACKET; NT Expr; T CLOSE_BRACKET] a_group;
  P VariableReferenceN [T DOLLAR; NT QName] a_var;
  P Number [T FLOAT] a_copy_tok;
  P Number [T INTEGER] a_copy_tok;
  P FunctionCallN [NT FuncQName; NT FormalArguments] a_call;
  P FormalArguments [T OPEN_PAREN; T CLOSE_PAREN] a_args_empty;
  P FormalArguments [T OPEN_PAREN; NT ArgumentList; T CLOSE_PAREN] a_group;
  P ArgumentList [NT Expr] a_single;
  P ArgumentList [NT ArgumentList; T COMMA; NT Expr] a_args_app ].

(** PLY: a production's precedence is %prec's, else that of its rightmost terminal. *)
Fixpoint rightmost_terminal (l : list sym) : option term :=
  match l with
  | [] => None
  | T t :: l' => match rightmost_terminal l' with Some x => Some x | None => Some t end
  | NT _ :: l' => rightmost_terminal l'
  end.

Definition prod_prec (p : prod) : assoc * N :=
  match pprec p with
  | Some x => x
  | None => match rightmost_terminal (rhs p) with
            | Some t => token_prec t
            | None => (ARight, 0%N)
            end
  end.
