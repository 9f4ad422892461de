(** C01-C09: the XPath parser and serialiser (eulxml/xpath).  Only statements, one-line proofs from
    the lemma files, concrete cases that meet the hypotheses, and Print Assumptions. *)
From Coq Require Import String.
From Verif Require Import XPathSpec XPathParser XPathLexProofs XPathRender XPathCanon XPathRoundTrip XPathText LexSpec
  XPathMisc XPathLit W3CGrammar W3CProofs W3CSound.

(** ** C01 round trip *)
(** Every AST that can be written without grouping parentheses and whose adjacent tokens stay apart. *)
Theorem C01_roundtrip_ast_partial : forall e,
  canon e = true -> lex_safe (toks e) = true -> parse (serialize e) = Ok e.
Proof. exact roundtrip_ast. Qed.

(** Every accepted text without '( )' grouping, predicates on primaries, a lone '/', a literal inside
    processing-instruction(), an unsafe literal or float, or a name directly before '-'. *)
Theorem C01_roundtrip_text_partial : forall s ts t,
  tokens s = (ts, EndEof) -> derives ts t -> avoids special t = true ->
  forallb value_ok ts = true -> no_name_minus ts = true ->
  exists e, parse s = Ok e /\ parse (serialize e) = Ok e.
Proof. exact roundtrip_text. Qed.

(** The rest of the property is false of the code. *)
Definition ast (s : string) : expr := match parse (u s) with Ok e => e | _ => EInt 0 end.

Theorem C01_roundtrip_refuted :
  (parse (u "/") = Ok (ast "/") /\ serialize (ast "/") = u "/None") /\
  (parse (u "(a or b) and c") = Ok (ast "(a or b) and c") /\
     parse (serialize (ast "(a or b) and c")) <> Ok (ast "(a or b) and c")) /\
  (parse (u "a - b") = Ok (ast "a - b") /\ parse (serialize (ast "a - b")) <> Ok (ast "a - b")) /\
  (parse (u "processing-instruction('x y')") = Ok (ast "processing-instruction('x y')") /\
     parse (serialize (ast "processing-instruction('x y')")) = RaiseRuntimeError) /\
  (parse (u "(a|b)/c") = Ok (ast "(a|b)/c") /\ parse (serialize (ast "(a|b)/c")) <> Ok (ast "(a|b)/c")).
Proof. repeat split; vm_compute; first [reflexivity | discriminate]. Qed.

Example C01_case : let e := EBin (EStep (Some (u "@")) (NameTest (Some (u "x")) (u "id")) []) (u "=")
     (EBin (EVar None (u "v")) (u "+") (EUnary (u "-") (EStep None (NodeType (u "text") None) [EInt 3]))) in
  canon e = true /\ lex_safe (toks e) = true /\ serialize e = u "@x:id=$v+-text()[3]".
Proof. repeat split; vm_compute; reflexivity. Qed.

(** ** C02 precedence and associativity *)
(** Every expression of the W3C grammar (stratified by precedence, W3CGrammar.v) is parsed to the AST
    that grammar assigns to it. *)
Theorem C02_w3c_expressions_parse : forall s ts e,
  tokens s = (ts, EndEof) -> w3c (Level 1) ts (WExpr e) -> parse s = Ok e.
Proof. intros s ts e H. exact (w3c_parse_text s ts e H (lexed_no_end _ _ _ _ H)). Qed.

(** The same for the productions and precedence table of parserules.py. *)
Theorem C02_derivations_parse : forall s ts t e,
  tokens s = (ts, EndEof) -> derives ts t -> ast_of t = Some e -> parse s = Ok e.
Proof. exact derives_parse. Qed.

Theorem C02_derivation_unique : forall ts t1 t2, no_end ts -> derives ts t1 -> derives ts t2 -> t1 = t2.
Proof. exact derives_unique. Qed.

Lemma w_step1 x : w3c WStep [tok_str NCNAME (u x)] (WExpr (EStep None (NameTest None (u x)) [])).
Proof. apply (w_step [tok_str NCNAME (u x)] _ [] []); [apply w_nametest, w_qname_test, w_qname|constructor]. Qed.
Lemma w_name x n : (0 < n <= 9)%N -> w3c (Level n) [tok_str NCNAME (u x)] (WExpr (EStep None (NameTest None (u x)) [])).
Proof. intros H. apply (w_down 9); [lia|lia|]. apply w_path_loc, w_loc_rel, w_rel_step, w_step1. Qed.

Example C02_case : exists ts e, tokens (u "a + b * c - d") = (ts, EndEof) /\ w3c (Level 1) ts (WExpr e).
Proof.
  do 2 eexists. split; [vm_compute; reflexivity|].
  apply (w_down 5); [lia|lia|].
  apply (w_bin 5 MINUS_OP _ ([tok_str NCNAME (u "a")] ++ tok_str PLUS_OP (u "+") ::
           ([tok_str NCNAME (u "b")] ++ tok_str MULT_OP (u "*") :: [tok_str NCNAME (u "c")])));
    [reflexivity| |apply (w_name "d"); lia].
  apply (w_bin 5 PLUS_OP); [reflexivity|apply (w_name "a"); lia|].
  apply (w_bin 6 MULT_OP); [reflexivity|apply (w_name "b"); lia|apply (w_name "c"); lia].
Qed.

(** ** C03 only expressions of the grammar, all input consumed *)
Theorem C03_parse_iff : forall s e, parse s = Ok e <->
  exists ts t, tokens s = (ts, EndEof) /\ derives ts t /\ ast_of t = Some e.
Proof.
  intros s e. split; [apply parse_ok_derives|]. intros (ts & t & H1 & H2 & H3). exact (derives_parse s ts t e H1 H2 H3).
Qed.

(** against the W3C grammar: the one extension is unary minus as operand of '|' *)
Theorem C03_parse_w3c : forall s ts e,
  tokens s = (ts, EndEof) -> no_pair UNION_OP MINUS_OP ts = true -> parse s = Ok e -> w3c (Level 1) ts (WExpr e).
Proof. exact parse_w3c. Qed.

Theorem C03_rejects : forall s ts, tokens s = (ts, EndEof) -> (forall t, ~ derives ts t) -> parse s = RaiseRuntimeError.
Proof. exact parse_runtime. Qed.

Example C03_case : parse (u "a[b") = RaiseRuntimeError /\
  parse (u "a | -b") = Ok (EBin (EStep None (NameTest None (u "a")) []) (u "|") (EUnary (u "-") (EStep None (NameTest None (u "b")) []))).
Proof. split; vm_compute; reflexivity. Qed.

(** ** C04 termination *)
Theorem C04_parse_total : forall last s,
  (exists e, parse_with last s = (Ok e, None)) \/ (exists l, parse_with last s = (RaiseRuntimeError, l)) \/
  (exists l, snd (tokens_from last s) = EndErr /\ parse_with last s = (RaiseTypeError, l)).
Proof.
  intros last s. destruct (parse_with_cases last s) as [(ts & t & e & _ & _ & _ & H)|[H|H]]; eauto.
Qed.

(** number of parser steps: [run n] performs at most [n] steps and does not run out with a linear [n] *)
Theorem C04_linear_steps : forall last s,
  run (17 * length (fst (tokens_from last s)) + 50) (snd (tokens_from last s))
      (mkConfig [] (fst (tokens_from last s)) false last) <> OutOfFuel.
Proof.
  intros last s. pose proof (tokens_from_ok last s) as Hf. pose proof (tokens_from_end last s) as He.
  pose proof (parse_tokens_total last _ _ (fin_no_end _ Hf) He) as H. unfold parse_tokens, parse_fuel in H.
  destruct (run _ _ _); try discriminate. contradiction.
Qed.

Example C04_case : parse (u "a[") = RaiseRuntimeError /\ parse (u "a # b") = RaiseTypeError.
Proof. split; vm_compute; reflexivity. Qed.

(** ** C05 history *)
Theorem C05_history_of_successes_partial : forall h s, all_succeed None h = true ->
  fst (parse_with (parse_history None h) s) = parse s.
Proof. exact history_independent. Qed.

(** after any history, provided the expression does not start with a name or '*', or the last token
    read in the last (failed) call was one after which an operand is expected *)
Theorem C05_history_any_partial : forall h s,
  match fst (raws s) with r :: _ => ttype r <> STAR_OP /\ ttype r <> NCNAME | [] => True end \/
  operand_before (parse_history None h) = false ->
  fst (parse_with (parse_history None h) s) = parse s.
Proof. intros h s [H|H]; [now apply history_any_first|now apply history_operand]. Qed.

Theorem C05_history_refuted :
  fst (parse_with (parse_history None [u "a b"]) (u "*")) = RaiseRuntimeError /\
  parse (u "*") = Ok (EStep None (NameTest None (u "*")) []) /\
  fst (parse_with (parse_history None [u "a b"]) (u "text()")) = RaiseRuntimeError /\
  parse (u "text()") = Ok (EStep None (NodeType (u "text") None) []).
Proof. repeat split; vm_compute; reflexivity. Qed.

Example C05_case : all_succeed None [u "a/b"; u "count(*)"] = true /\
  operand_before (parse_history None [u "a["]) = false /\ parse (u "a[") = RaiseRuntimeError.
Proof. repeat split; vm_compute; reflexivity. Qed.

(** ** C06 lexical disambiguation *)
Theorem C06_disambiguation_partial : forall s ts, tokens s = (ts, EndEof) ->
  forall i k, nth_error ts i = Some k ->
  let prev := match i with O => None | S j => types_at ts j end in
  prev <> Some COMMA -> prev <> Some DOLLAR ->
  disambiguated prev k (types_at ts (S i)).
Proof. exact tokens_disamb. Qed.

(** ',' is missing from OPERATOR_FORCERS, and '$' too *)
Theorem C06_disambiguation_refuted :
  types_at (fst (tokens (u "f(a, *)"))) 3 = Some COMMA /\ types_at (fst (tokens (u "f(a, *)"))) 4 = Some MULT_OP /\
  parse (u "f(a, *)") = RaiseRuntimeError /\ parse (u "f(a, text())") = RaiseRuntimeError /\
  parse (u "$div") = RaiseRuntimeError.
Proof. repeat split; vm_compute; reflexivity. Qed.

Example C06_case : map ttype (fst (tokens (u "div * div(div::*)"))) =
  [NCNAME; MULT_OP; FUNCNAME; OPEN_PAREN; AXISNAME; AXIS_SEP; STAR_OP; CLOSE_PAREN].
Proof. vm_compute; reflexivity. Qed.

(** ** C07 names *)
Theorem C07_ncname_partial : forall s, is_ncname s = true -> existsb latin_gap s = false ->
  match s with c :: _ => is_digit c = false | [] => True end ->
  tokens s = ([mkTok NCNAME (VStr s)], EndEof).
Proof. exact ncname_one. Qed.

(** U+00C0 is a NameStartChar but is not lexed at all; U+FF10 (full-width zero) is a NameStartChar but
    Python's \d matches it, so a name starting with it is lexed as a number *)
Theorem C07_ncname_refuted :
  is_ncname [192; 97]%N = true /\ tokens [192; 97]%N = ([], EndErr) /\
  is_ncname [65296; 97]%N = true /\ map ttype (fst (tokens [65296; 97]%N)) = [INTEGER; NCNAME].
Proof. repeat split; vm_compute; reflexivity. Qed.

Example C07_case : is_ncname (u "rolle-Term_2.x" ++ [246; 945; 20013]%N) = true /\
  existsb latin_gap (u "rolle-Term_2.x" ++ [246; 945; 20013]%N) = false.
Proof. split; vm_compute; reflexivity. Qed.

(** ** C08 white space *)
Theorem C08_insert_whitespace : forall last a w b, boundary a b -> xpath_space w ->
  parse_with last (a ++ w ++ b) = parse_with last (a ++ b).
Proof. intros last a w b Hb Hw. apply ws_insert; [assumption|now apply space_is_ws]. Qed.

Theorem C08_replace_whitespace : forall last a w w' b, snd (raws a) = EndEof -> xpath_space w -> xpath_space w' ->
  w <> [] -> w' <> [] -> parse_with last (a ++ w ++ b) = parse_with last (a ++ w' ++ b).
Proof. intros last a w w' b Ha Hw Hw'. apply ws_replace; [assumption| |]; now apply space_is_ws. Qed.

Theorem C08_edges : forall last w s w', xpath_space w -> xpath_space w' -> snd (raws s) = EndEof ->
  parse_with last (w ++ s ++ w') = parse_with last s.
Proof. intros last w s w' Hw Hw'. apply ws_edges; now apply space_is_ws. Qed.

Example C08_case : boundary (u "a/b") (u "[1]") /\ xpath_space [32; 9; 13; 10]%N /\ ~ boundary (u "ab") (u "cd").
Proof.
  split; [repeat split; try (vm_compute; reflexivity)|]. split; [intros c Hc; exact Hc|]. intros [_ H]. vm_compute in H. discriminate.
Qed.

(** ** C09 string literals *)
(** exactly the printable strings without backslash and without both kinds of quote survive *)
Theorem C09_literal_iff : forall s, tokens (repr_str s) = ([mkTok LITERAL (VStr s)], EndEof) <->
  (forall c, In c s -> printable c = true /\ c <> 92%N) /\ (In 39%N s -> In 34%N s -> False).
Proof. intros s. rewrite literal_iff. exact (lit_safe_spec s). Qed.

(** the same for whole expressions: serialising a literal and parsing the text gives it back for exactly these strings *)
Theorem C09_literal_roundtrip_partial : forall s, parse (serialize (ELit s)) = Ok (ELit s) <->
  (forall c, In c s -> printable c = true /\ c <> 92%N) /\ ~ (In 39%N s /\ In 34%N s).
Proof.
  intros s. rewrite literal_roundtrip_iff, lit_safe_spec. split; intros [A B]; (split; [exact A|]); [intros [X Y]|intros X Y]; now apply B.
Qed.

(** what any other string becomes: without both kinds of quote, its spelling by Python's repr (LexSpec.v);
    with both, the text is refused or is no literal any more *)
Theorem C09_literal_becomes_partial : forall s, (forall c, In c s -> (c < 1114112)%N) -> ~ (In 39%N s /\ In 34%N s) ->
  exists t, parse (serialize (ELit s)) = Ok (ELit t) /\ spells s t.
Proof.
  intros s Hs H. eexists. split; [exact (literal_becomes s H)|].
  apply repr_body_spells; [apply repr_quote_cases|now apply not_both_quote|exact Hs].
Qed.

Theorem C09_both_quotes_refuted : forall s, In 39%N s -> In 34%N s -> forall t, parse (serialize (ELit s)) <> Ok (ELit t).
Proof. intros s H1 H2 t. now apply both_never. Qed.

Example C09_becomes_case : let s := [97; 9; 92; 173; 8203; 917504; 10; 13]%N in
  (forall c, In c s -> (c < 1114112)%N) /\ ~ (In 39%N s /\ In 34%N s) /\
  parse (serialize (ELit s)) = Ok (ELit (u "a\t\\\xad\u200b\U000e0000\n\r")).
Proof.
  cbv zeta. split; [|split].
  - intros c Hc. cbn in Hc. lia.
  - intros [H _]. cbn in H. lia.
  - vm_compute. reflexivity.
Qed.

Theorem C09_literal_refuted :
  parse (u "'a\b'") = Ok (ELit (u "a\b")) /\ serialize (ELit (u "a\b")) = u "'a\\b'" /\
  parse (serialize (ELit (u "a\b"))) = Ok (ELit (u "a\\b")).
Proof. repeat split; vm_compute; reflexivity. Qed.

Example C09_case : parse (u """it's""") = Ok (ELit (u "it's")) /\ parse (serialize (ELit (u "it's"))) = Ok (ELit (u "it's")).
Proof. split; vm_compute; reflexivity. Qed.

Print Assumptions C01_roundtrip_ast_partial.
Print Assumptions C01_roundtrip_text_partial.
Print Assumptions C01_roundtrip_refuted.
Print Assumptions C02_w3c_expressions_parse.
Print Assumptions C02_derivations_parse.
Print Assumptions C02_derivation_unique.
Print Assumptions C03_parse_iff.
Print Assumptions C03_parse_w3c.
Print Assumptions C03_rejects.
Print Assumptions C04_parse_total.
Print Assumptions C04_linear_steps.
Print Assumptions C05_history_of_successes_partial.
Print Assumptions C05_history_any_partial.
Print Assumptions C05_history_refuted.
Print Assumptions C06_disambiguation_partial.
Print Assumptions C06_disambiguation_refuted.
Print Assumptions C07_ncname_partial.
Print Assumptions C07_ncname_refuted.
Print Assumptions C08_insert_whitespace.
Print Assumptions C08_replace_whitespace.
Print Assumptions C08_edges.
Print Assumptions C09_literal_iff.
Print Assumptions C09_literal_roundtrip_partial.
Print Assumptions C09_literal_becomes_partial.
Print Assumptions C09_both_quotes_refuted.
Print Assumptions C09_literal_refuted.
