(** Specification of XPath 1.0's lexical disambiguation (section 3.7), independent of the lexer's own tables:
    the keyword lists below are written out from the W3C text, not taken from lexrules.py / core.py. *)
From Coq Require Import String.
From Verif Require Import XPathSpec XPathLex.

(** the tokens after which section 3.7 says an operand comes: @ :: ( [ , or an Operator.  The W3C grammar reads
    QNames (p:n) and variable references ($n) as one token; ply sees p, ':', n and '$', n, and what follows
    the ':' or the '$' is part of a name, hence never an operator. *)
Definition operand_position (prev : option term) : bool :=
  match prev with
  | None => true
  | Some t =>
    match t with
    | ABBREV_AXIS_AT | AXIS_SEP | OPEN_PAREN | OPEN_BRACKET | COMMA
    | AND_OP | OR_OP | MOD_OP | DIV_OP | MULT_OP | PATH_SEP | ABBREV_PATH_SEP | UNION_OP | PLUS_OP
    | MINUS_OP | EQUAL_OP | REL_OP => true
    | COLON | DOLLAR => true
    | _ => false
    end
  end.

(** [38] NodeType, [33] OperatorName *)
Definition w3c_node_types : list str := [u "comment"; u "text"; u "processing-instruction"; u "node"].
Definition w3c_operator_names : list (str * term) :=
  [(u "and", AND_OP); (u "or", OR_OP); (u "mod", MOD_OP); (u "div", DIV_OP)].

(** the rule: [k] is read with [prev] before it and [next] after it *)
Definition disambiguated (prev : option term) (k : tok) (next : option term) : Prop :=
  match ttype k with
  | STAR_OP => operand_position prev = true
  | MULT_OP => operand_position prev = false
  | OR_OP | AND_OP | DIV_OP | MOD_OP =>
      operand_position prev = false /\ In (name_of (tval k), ttype k) w3c_operator_names
  | NODETYPE => operand_position prev = true /\ next = Some OPEN_PAREN /\ In (name_of (tval k)) w3c_node_types
  | FUNCNAME => operand_position prev = true /\ next = Some OPEN_PAREN /\ ~ In (name_of (tval k)) w3c_node_types
  | AXISNAME => operand_position prev = true /\ next = Some AXIS_SEP
  | NCNAME =>
      if operand_position prev then next <> Some OPEN_PAREN /\ next <> Some AXIS_SEP
      else forall o, ~ In (name_of (tval k), o) w3c_operator_names
  | _ => True
  end.

(** the type of the i-th token *)
Definition types_at (ts : list tok) (i : nat) : option term := option_map ttype (nth_error ts i).

(** [39] ExprWhitespace: the white space of XML, #x20 #x9 #xD #xA *)
Definition xpath_space (w : str) : Prop := forall c, In c w -> In c [32; 9; 13; 10]%N.

(** Python's [repr] of the characters of a str (C09), written as a relation: a character is written as itself when
    it is printable and no backslash; backslash, tab, newline and return have two-character escapes; any other
    character is written with its code in 2, 4 or 8 lower-case hexadecimal digits. *)
Definition hex_value (c : N) : option N :=
  if ((48 <=? c) && (c <=? 57))%N%bool then Some (c - 48)%N
  else if ((97 <=? c) && (c <=? 102))%N%bool then Some (c - 97 + 10)%N else None.
Inductive hex_values : str -> N -> Prop :=
| hv_nil : hex_values [] 0
| hv_snoc ds d z v : hex_values ds z -> hex_value d = Some v -> hex_values (ds ++ [d]) (z * 16 + v).
Inductive spelt : N -> str -> Prop :=
| sp_plain c : printable c = true -> c <> 92%N -> spelt c [c]
| sp_backslash : spelt 92 [92; 92]%N
| sp_tab : spelt 9 [92; 116]%N
| sp_newline : spelt 10 [92; 110]%N
| sp_return : spelt 13 [92; 114]%N
| sp_byte c h : printable c = false -> ~ In c [92; 9; 10; 13]%N -> (c < 256)%N ->
    hex_values h c -> List.length h = 2 -> spelt c ([92; 120]%N ++ h)
| sp_bmp c h : printable c = false -> ~ In c [92; 9; 10; 13]%N -> (256 <= c < 65536)%N ->
    hex_values h c -> List.length h = 4 -> spelt c ([92; 117]%N ++ h)
| sp_astral c h : printable c = false -> ~ In c [92; 9; 10; 13]%N -> (65536 <= c)%N ->
    hex_values h c -> List.length h = 8 -> spelt c ([92; 85]%N ++ h).
Inductive spells : str -> str -> Prop :=
| spells_nil : spells [] []
| spells_cons c w s t : spelt c w -> spells s t -> spells (c :: s) (w ++ t).
