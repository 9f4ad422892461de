(** Model of eulxml/xpath/lexrules.py (PLY token rules) and of the [LexerWrapper] of
    eulxml/xpath/core.py. *)
From Coq Require Import String.
From Verif Require Export XPathAst.

(** Token types: lexrules.py:32-60, plus PLY's end marker. *)
Inductive term :=
| PATH_SEP | ABBREV_PATH_SEP | ABBREV_STEP_SELF | ABBREV_STEP_PARENT | AXIS_SEP | ABBREV_AXIS_AT
| OPEN_PAREN | CLOSE_PAREN | OPEN_BRACKET | CLOSE_BRACKET | UNION_OP | EQUAL_OP | REL_OP | PLUS_OP
| MINUS_OP | MULT_OP | STAR_OP | COMMA | LITERAL | FLOAT | INTEGER | NCNAME | NODETYPE | FUNCNAME
| AXISNAME | COLON | DOLLAR | OR_OP | AND_OP | DIV_OP | MOD_OP | T_END.

Definition all_terms : list term :=
  [ PATH_SEP; ABBREV_PATH_SEP; ABBREV_STEP_SELF; ABBREV_STEP_PARENT; AXIS_SEP; ABBREV_AXIS_AT;
    OPEN_PAREN; CLOSE_PAREN; OPEN_BRACKET; CLOSE_BRACKET; UNION_OP; EQUAL_OP; REL_OP; PLUS_OP;
    MINUS_OP; MULT_OP; STAR_OP; COMMA; LITERAL; FLOAT; INTEGER; NCNAME; NODETYPE; FUNCNAME;
    AXISNAME; COLON; DOLLAR; OR_OP; AND_OP; DIV_OP; MOD_OP; T_END ].

Definition term_eq_dec (a b : term) : {a = b} + {a <> b}.
Proof. decide equality. Defined.

Definition term_id (t : term) : N :=
  match t with
  | PATH_SEP => 0 | ABBREV_PATH_SEP => 1 | ABBREV_STEP_SELF => 2 | ABBREV_STEP_PARENT => 3
  | AXIS_SEP => 4 | ABBREV_AXIS_AT => 5 | OPEN_PAREN => 6 | CLOSE_PAREN => 7 | OPEN_BRACKET => 8
  | CLOSE_BRACKET => 9 | UNION_OP => 10 | EQUAL_OP => 11 | REL_OP => 12 | PLUS_OP => 13
  | MINUS_OP => 14 | MULT_OP => 15 | STAR_OP => 16 | COMMA => 17 | LITERAL => 18 | FLOAT => 19
  | INTEGER => 20 | NCNAME => 21 | NODETYPE => 22 | FUNCNAME => 23 | AXISNAME => 24 | COLON => 25
  | DOLLAR => 26 | OR_OP => 27 | AND_OP => 28 | DIV_OP => 29 | MOD_OP => 30 | T_END => 31
  end%N.

Definition term_eqb (a b : term) : bool := N.eqb (term_id a) (term_id b).

Lemma term_eqb_eq a b : term_eqb a b = true <-> a = b.
Proof. split; [destruct a, b; cbn; congruence|intros ->; apply N.eqb_refl]. Qed.

Lemma term_eqb_refl a : term_eqb a a = true.
Proof. apply N.eqb_refl. Qed.

Lemma all_terms_complete t : In t all_terms.
Proof. destruct t; cbn; tauto. Qed.

(** Token values: the matched text, except for LITERAL (text without quotes), INTEGER and FLOAT. *)
Inductive tokval := VStr (s : str) | VInt (n : N) | VFloat (f : pyfloat).

Record tok := mkTok { ttype : term; tval : tokval }.

(** [\d]: Unicode decimal digits; value of a digit for [int]/[float]. *)
Definition digit_val (c : N) : option N :=
  match find (fun s => in_range s (s + 9) c) nd_starts with
  | Some s => Some (c - s)%N
  | None => None
  end.

Definition is_digit (c : N) : bool :=
  match digit_val c with Some _ => true | None => false end.

Definition digit_vals (s : str) : list N :=
  map (fun c => match digit_val c with Some d => d | None => 0%N end) s.

(** lexrules.py:100-104.  Single-character alternatives of Full_NameStartChar.  The alternative
    written [\xc0-\xd6]] lacks its opening bracket, so it matches the four characters
    U+00C0 '-' U+00D6 ']' instead of a range; see [ncname_unit]. *)
Definition name_start_ranges : list (N * N) :=
  [ (65, 90); (95, 95); (97, 122); (216, 246); (248, 767); (880, 893); (895, 8191); (8204, 8205);
    (8304, 8591); (11264, 12271); (12289, 55295); (63744, 64975); (65008, 65533);
    (65536, 983039) ]%N.

(** lexrules.py:106 *)
Definition name_extra_ranges : list (N * N) :=
  [ (45, 46); (48, 57); (183, 183); (768, 879); (8255, 8256) ]%N.

Definition start_char (c : N) : bool := in_ranges name_start_ranges c.
Definition name_char (c : N) : bool := start_char c || in_ranges name_extra_ranges c.

Definition quirk : str := [192; 45; 214; 93]%N.

(** NCNAME_REGEX: lexrules.py:119-124.  [ncname_rest] is the starred group: one character of a
    class, or the four-character alternative; no two alternatives can match at the same place, so
    the regex matcher never has to choose.  Returns (matched, rest). *)
Fixpoint ncname_rest (fuel : nat) (s : str) : str * str :=
  match fuel with
  | O => ([], s)
  | S f =>
    match s with
    | [] => ([], [])
    | c :: s' =>
      if name_char c then let (a, b) := ncname_rest f s' in (c :: a, b)
      else if starts_with quirk s
           then let (a, b) := ncname_rest f (skipn 4 s) in (quirk ++ a, b)
           else ([], s)
    end
  end.

Definition match_ncname (s : str) : option (str * str) :=
  match s with
  | [] => None
  | c :: s' =>
    if start_char c then let (a, b) := ncname_rest (length s') s' in Some (c :: a, b)
    else if starts_with quirk s
         then let (a, b) := ncname_rest (length s) (skipn 4 s) in Some (quirk ++ a, b)
         else None
  end.

(** t_LITERAL: lexrules.py:126-129. *)
Definition match_literal (s : str) : option (str * str) :=
  match s with
  | q :: s' =>
    if (N.eqb q q1 || N.eqb q q2)%bool then
      match span (fun c => negb (N.eqb c q)) s' with
      | (body, _ :: rest) => Some (body, rest)
      | (_, []) => None
      end
    else None
  | [] => None
  end.

(** t_FLOAT: lexrules.py:131-134, regex [\d+\.\d*|\.\d+]. *)
Definition match_float (s : str) : option (pyfloat * str) :=
  match span is_digit s with
  | ((_ :: _) as ip, c :: s') =>
    if N.eqb c 46 then
      let (fp, rest) := span is_digit s' in
      Some (float_of_digits (ip ++ [46%N] ++ fp) (digit_vals ip) (digit_vals fp), rest)
    else None
  | ([], c :: s') =>
    if N.eqb c 46 then
      match span is_digit s' with
      | ((_ :: _) as fp, rest) => Some (float_of_digits ([46%N] ++ fp) [] (digit_vals fp), rest)
      | _ => None
      end
    else None
  | _ => None
  end.

(** t_INTEGER: lexrules.py:136-139. *)
Definition match_integer (s : str) : option (N * str) :=
  match span is_digit s with
  | ((_ :: _) as ip, rest) => Some (N_of_digits (digit_vals ip), rest)
  | _ => None
  end.

(** Operators and punctuation, lexrules.py:62-80, in the order PLY tries string rules (longest
    regex first). *)
Definition match_op (s : str) : option (term * str * str) :=
  match s with
  | [] => None
  | c :: s1 =>
    let two (d : N) := match s1 with e :: _ => N.eqb e d | [] => false end in
    let rest2 := skipn 1 s1 in
    if (N.eqb c (ch "<") || N.eqb c (ch ">"))%bool then
      if two (ch "=") then Some (REL_OP, [c; ch "="], rest2) else Some (REL_OP, [c], s1)
    else if (N.eqb c (ch ".") && two (ch "."))%bool then Some (ABBREV_STEP_PARENT, u "..", rest2)
    else if (N.eqb c (ch "!") && two (ch "="))%bool then Some (EQUAL_OP, u "!=", rest2)
    else if N.eqb c (ch "=") then Some (EQUAL_OP, u "=", s1)
    else if (N.eqb c (ch "/") && two (ch "/"))%bool then Some (ABBREV_PATH_SEP, u "//", rest2)
    else if (N.eqb c (ch ":") && two (ch ":"))%bool then Some (AXIS_SEP, u "::", rest2)
    else if N.eqb c (ch ".") then Some (ABBREV_STEP_SELF, [c], s1)
    else if N.eqb c (ch "(") then Some (OPEN_PAREN, [c], s1)
    else if N.eqb c (ch ")") then Some (CLOSE_PAREN, [c], s1)
    else if N.eqb c (ch "[") then Some (OPEN_BRACKET, [c], s1)
    else if N.eqb c (ch "]") then Some (CLOSE_BRACKET, [c], s1)
    else if N.eqb c (ch "|") then Some (UNION_OP, [c], s1)
    else if N.eqb c (ch "+") then Some (PLUS_OP, [c], s1)
    else if N.eqb c (ch "$") then Some (DOLLAR, [c], s1)
    else if N.eqb c (ch "*") then Some (STAR_OP, [c], s1)
    else if N.eqb c (ch "/") then Some (PATH_SEP, [c], s1)
    else if N.eqb c (ch "@") then Some (ABBREV_AXIS_AT, [c], s1)
    else if N.eqb c (ch "-") then Some (MINUS_OP, [c], s1)
    else if N.eqb c (ch ",") then Some (COMMA, [c], s1)
    else if N.eqb c (ch ":") then Some (COLON, [c], s1)
    else None
  end.

(** t_ignore: lexrules.py:82. *)
Definition is_ignored (c : N) : bool :=
  (N.eqb c 32 || N.eqb c 9 || N.eqb c 13 || N.eqb c 10)%bool.

Inductive rawres := RTok (t : tok) (rest : str) | REof | RErr.

(** One token without the wrapper: ply.lex.Lexer.token with the master regex in PLY's order:
    function rules in definition order (LITERAL, FLOAT, INTEGER), then string rules by decreasing
    regex length (NCNAME first).  [RErr] is t_error's TypeError (lexrules.py:141-142). *)
Definition raw_at (s : str) : rawres :=
  match s with
  | [] => REof
  | _ =>
    match match_literal s with
    | Some (v, rest) => RTok (mkTok LITERAL (VStr v)) rest
    | None =>
      match match_float s with
      | Some (f, rest) => RTok (mkTok FLOAT (VFloat f)) rest
      | None =>
        match match_integer s with
        | Some (n, rest) => RTok (mkTok INTEGER (VInt n)) rest
        | None =>
          match match_ncname s with
          | Some (v, rest) => RTok (mkTok NCNAME (VStr v)) rest
          | None =>
            match match_op s with
            | Some (t, v, rest) => RTok (mkTok t (VStr v)) rest
            | None => RErr
            end
          end
        end
      end
    end
  end.

Definition raw_token (s : str) : rawres := raw_at (snd (span is_ignored s)).

(** OPERATOR_FORCERS: core.py:60-78. *)
Definition forcer (t : term) : bool :=
  match t with
  | ABBREV_AXIS_AT | AXIS_SEP | OPEN_PAREN | OPEN_BRACKET
  | AND_OP | OR_OP | MOD_OP | DIV_OP | MULT_OP
  | PATH_SEP | ABBREV_PATH_SEP | UNION_OP | PLUS_OP | MINUS_OP
  | EQUAL_OP | REL_OP | COLON => true
  | _ => false
  end.

(** NODE_TYPES: core.py:80. *)
Definition NODE_TYPES : list str :=
  [u "comment"; u "text"; u "processing-instruction"; u "node"].

(** operator_names: lexrules.py:25-30. *)
Definition operator_name (s : str) : option term :=
  if str_eqb s (u "or") then Some OR_OP
  else if str_eqb s (u "and") then Some AND_OP
  else if str_eqb s (u "div") then Some DIV_OP
  else if str_eqb s (u "mod") then Some MOD_OP
  else None.

(** [self.last is not None and self.last.type not in OPERATOR_FORCERS] *)
Definition operand_before (last : option term) : bool :=
  match last with Some t => negb (forcer t) | None => false end.

Inductive lexres := LTok (t : tok) (rest : str) | LEof | LErr | LFuel.

Definition name_of (v : tokval) : str := match v with VStr s => s | _ => [] end.

(** LexerWrapper.token and peek: core.py:83-116.  [last] is the lexer's [last] attribute (only its
    type is used); the caller updates it.  peek clones the lexer before [last] is updated, so the
    recursive call sees the same [last].  [fuel] bounds the recursion of peek. *)
Fixpoint wtoken (fuel : nat) (last : option term) (s : str) : lexres :=
  match raw_token s with
  | REof => LEof
  | RErr => LErr
  | RTok t rest =>
    match ttype t with
    | STAR_OP => LTok (mkTok (if operand_before last then MULT_OP else STAR_OP) (tval t)) rest
    | NCNAME =>
      if operand_before last then
        LTok (mkTok (match operator_name (name_of (tval t)) with Some o => o | None => NCNAME end)
                    (tval t)) rest
      else
        match fuel with
        | O => LFuel
        | S f =>
          match wtoken f last rest with
          | LFuel => LFuel
          | LErr => LErr
          | LEof => LTok t rest
          | LTok next _ =>
            match ttype next with
            | OPEN_PAREN =>
                LTok (mkTok (if str_mem (name_of (tval t)) NODE_TYPES then NODETYPE else FUNCNAME)
                            (tval t)) rest
            | AXIS_SEP => LTok (mkTok AXISNAME (tval t)) rest
            | _ => LTok t rest
            end
          end
        end
    | _ => LTok t rest
    end
  end.

(** How a token stream ends. *)
Inductive lexend := EndEof | EndErr | EndFuel.

(** The tokens the lexer delivers until end of input or t_error.  [self.last = tok]: core.py:111. *)
Fixpoint lex_all (fuel : nat) (last : option term) (s : str) : list tok * lexend :=
  match fuel with
  | O => ([], EndFuel)
  | S f =>
    match wtoken (length s) last s with
    | LFuel => ([], EndFuel)
    | LErr => ([], EndErr)
    | LEof => ([], EndEof)
    | LTok t rest => let (ts, e) := lex_all f (Some (ttype t)) rest in (t :: ts, e)
    end
  end.

(** All tokens of a string for a lexer whose [last] is [last]. *)
Definition tokens_from (last : option term) (s : str) : list tok * lexend :=
  lex_all (S (length s)) last s.

Definition tokens (s : str) : list tok * lexend := tokens_from None s.
