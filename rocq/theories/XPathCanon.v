(** Specification for the round trip parse . serialize: which ASTs have a notation without
    parentheses (the serialiser never writes grouping parentheses), and their tokens. *)
From Coq Require Import String.
From Verif Require Export XPathRender.

(** the tokens of operators *)
Definition sep_term (op : str) : option term :=
  if str_eqb op (u "/") then Some PATH_SEP
  else if str_eqb op (u "//") then Some ABBREV_PATH_SEP
  else None.

Definition op_term (op : str) : option term :=
  if str_eqb op (u "or") then Some OR_OP
  else if str_eqb op (u "and") then Some AND_OP
  else if str_mem op [u "="; u "!="] then Some EQUAL_OP
  else if str_mem op [u "<"; u "<="; u ">"; u ">="] then Some REL_OP
  else if str_eqb op (u "+") then Some PLUS_OP
  else if str_eqb op (u "-") then Some MINUS_OP
  else if str_eqb op (u "*") then Some MULT_OP
  else if str_eqb op (u "div") then Some DIV_OP
  else if str_eqb op (u "mod") then Some MOD_OP
  else if str_eqb op (u "|") then Some UNION_OP
  else None.

(** shapes: a step, a relative path (steps joined to the left), a primary or predicated expression *)
Definition is_step (e : expr) : bool :=
  match e with EStep _ _ _ | EAbbrev _ => true | _ => false end.

Fixpoint is_rel (e : expr) : bool :=
  match e with
  | EStep _ _ _ | EAbbrev _ => true
  | EBin l op r =>
    match sep_term op with Some _ => is_rel l && is_step r | None => false end
  | _ => false
  end.

Definition is_filter (e : expr) : bool :=
  match e with ELit _ | EInt _ | EFloat _ | EVar _ _ | ECall _ _ _ | EPred _ _ => true | _ => false end.

Definition is_pred (e : expr) : bool := match e with EPred _ _ => true | _ => false end.

(** levels of the operators visible at the left and right edge *)
Fixpoint lops (e : expr) : list N :=
  match e with
  | EBin l op r => match op_term op with Some o => lvl o :: lops l | None => [] end
  | _ => []
  end.
Fixpoint rops (e : expr) : list N :=
  match e with
  | EBin l op r => match op_term op with Some o => lvl o :: rops r | None => [] end
  | EUnary _ r => ulvl :: rops r
  | _ => []
  end.

Definition prefix_ok (p : option str) : bool :=
  match p with None => true | Some x => name_ok x end.

Definition test_ok (t : nodetest) : bool :=
  match t with
  | NameTest p n => prefix_ok p && (str_eqb n (u "*") || name_ok n)
  | NodeType n None => str_mem n NODE_TYPES
  | NodeType _ (Some _) => false                  (* the literal is serialised without quotes *)
  end.

(** ASTs of the grammar that need no grouping parentheses and whose names, numbers and literals
    can be written. *)
Fixpoint canon (e : expr) : bool :=
  match e with
  | ELit s => lit_safe s
  | EInt _ => true
  | EFloat f => float_ok f
  | EUnary op r => str_eqb op (u "-") && canon r && forallb (N.ltb ulvl) (lops r)
  | EBin l op r =>
    canon l && canon r &&
    match sep_term op with
    | Some _ => (is_rel l && is_step r) || (is_filter l && is_rel r)
    | None =>
      match op_term op with
      | Some o => forallb (N.leb (lvl o)) (rops l) && forallb (N.ltb (lvl o)) (lops r)
      | None => false
      end
    end
  | EPred b ps => canon b && negb (is_pred b) && negb (Nat.eqb (length ps) 0) && forallb canon ps
  | EAbs op (Some r) => match sep_term op with Some _ => is_rel r && canon r | None => false end
  | EAbs _ None => false                          (* "/" is serialised as "/None" *)
  | EStep a t ps =>
    match a with None => true | Some x => str_eqb x (u "@") || name_ok x end &&
    test_ok t && forallb canon ps
  | EAbbrev a => str_mem a [u "."; u ".."]
  | EVar p n => prefix_ok p && name_ok n
  | ECall p n args => prefix_ok p && name_ok n && negb (str_mem n NODE_TYPES) && forallb canon args
  end.

(** the tokens of such an AST's notation *)
Definition tk (t : term) (s : str) : tok := mkTok t (VStr s).
Definition lpar := tk OPEN_PAREN (u "(").
Definition rpar := tk CLOSE_PAREN (u ")").
Definition lbr := tk OPEN_BRACKET (u "[").
Definition rbr := tk CLOSE_BRACKET (u "]").
Definition colon := tk COLON (u ":").
Definition comma := tk COMMA (u ",").

Definition op_tok (op : str) : tok :=
  tk (match sep_term op with
      | Some t => t
      | None => match op_term op with Some t => t | None => T_END end
      end) op.

Definition prefix_toks (p : option str) : list tok :=
  match p with None => [] | Some x => [tk NCNAME x; colon] end.

Definition test_toks (t : nodetest) : list tok :=
  match t with
  | NameTest p n => prefix_toks p ++ [tk (if str_eqb n (u "*") then STAR_OP else NCNAME) n]
  | NodeType n None => [tk NODETYPE n; lpar; rpar]
  | NodeType n (Some l) => [tk NODETYPE n; lpar; tk LITERAL l; rpar]
  end.

Fixpoint toks (e : expr) : list tok :=
  match e with
  | ELit s => [tk LITERAL s]
  | EInt n => [mkTok INTEGER (VInt n)]
  | EFloat f => [mkTok FLOAT (VFloat f)]
  | EUnary op r => tk MINUS_OP op :: toks r
  | EBin l op r => toks l ++ op_tok op :: toks r
  | EPred b ps => lpar :: toks b ++ rpar :: flat_map (fun p => lbr :: toks p ++ [rbr]) ps
  | EAbs op (Some r) => op_tok op :: toks r
  | EAbs op None => [op_tok op]
  | EStep a t ps =>
    match a with
    | None => []
    | Some x => if str_eqb x (u "@") then [tk ABBREV_AXIS_AT x] else [tk AXISNAME x; tk AXIS_SEP (u "::")]
    end ++ test_toks t ++ flat_map (fun p => lbr :: toks p ++ [rbr]) ps
  | EAbbrev a => [tk (if str_eqb a (u ".") then ABBREV_STEP_SELF else ABBREV_STEP_PARENT) a]
  | EVar p n => tk DOLLAR (u "$") :: prefix_toks p ++ [tk NCNAME n]
  | ECall p n args =>
    prefix_toks p ++ tk FUNCNAME n :: lpar ::
    match args with
    | [] => []
    | a :: rest => toks a ++ flat_map (fun b => comma :: toks b) rest
    end ++ [rpar]
  end.
