(** Lemmas behind C04-C09: totality of parse, history, disambiguation, names, white space, literals. *)
From Coq Require Import String Arith.
From Verif Require Import XPathSpec XPathParseProofs XPathParser XPathLexProofs XPathRender XPathCanon
  XPathRoundTrip XPathText LexSpec.

Lemma fin_no_end ts : Forall fin_ok ts -> no_end ts.
Proof.
  unfold no_end. intros H. eapply Forall_impl; [|exact H]. cbv beta. intros k Hk E.
  unfold fin_ok in Hk. rewrite E in Hk. exact Hk.
Qed.

Lemma fin_tok_ok ts : Forall fin_ok ts -> Forall tok_ok ts.
Proof.
  intros H. eapply Forall_impl; [|exact H]. cbv beta. intros k Hk.
  unfold fin_ok, tok_ok in *. destruct (ttype k); try exact Hk; contradiction.
Qed.

Lemma lexed_no_end last s ts e : tokens_from last s = (ts, e) -> no_end ts.
Proof. intros H. pose proof (tokens_from_ok last s) as Hf. rewrite H in Hf. now apply fin_no_end. Qed.

(** parse: every outcome, in terms of the grammar *)
Lemma parse_with_cases last s :
  (exists ts t e, tokens_from last s = (ts, EndEof) /\ derives ts t /\ ast_of t = Some e /\
     parse_with last s = (Ok e, None)) \/
  (exists l, parse_with last s = (RaiseRuntimeError, l)) \/
  (exists l, snd (tokens_from last s) = EndErr /\ parse_with last s = (RaiseTypeError, l)).
Proof.
  unfold parse_with. pose proof (tokens_from_ok last s) as Hf. pose proof (tokens_from_end last s) as He.
  destruct (tokens_from last s) as [ts e] eqn:Et. cbn [fst snd] in *.
  pose proof (parse_tokens_total last ts e (fin_no_end _ Hf) He) as H.
  destruct (parse_tokens last ts e) as [t l|l|l|].
  - destruct H as (Hd & -> & ->). left.
    destruct (ast_of_total ts t Hd (fin_tok_ok _ Hf)) as [x Hx].
    exists ts, t, x. repeat split; auto; try apply Hd.
    unfold ast_of in Hx. destruct (eval t) as [[]|]; try discriminate. congruence.
  - right; left. eauto.
  - right; right. eauto.
  - contradiction.
Qed.

Lemma parse_ok_derives s e : parse s = Ok e ->
  exists ts t, tokens s = (ts, EndEof) /\ derives ts t /\ ast_of t = Some e.
Proof.
  unfold parse, tokens. intros H.
  destruct (parse_with_cases None s) as [(ts & t & x & H1 & H2 & H3 & H4)|[[l Hl]|[l [_ Hl]]]].
  - rewrite H4 in H. cbn in H. injection H as <-. eauto.
  - rewrite Hl in H. discriminate.
  - rewrite Hl in H. discriminate.
Qed.

Lemma derives_parse s ts t e : tokens s = (ts, EndEof) -> derives ts t -> ast_of t = Some e -> parse s = Ok e.
Proof.
  intros Hs Hd Ha. unfold parse, parse_with, tokens in *. rewrite Hs.
  rewrite (parse_tokens_complete None ts t); [|eapply lexed_no_end; exact Hs|exact Hd].
  unfold ast_of in Ha. cbn [fst]. destruct (eval t) as [[]|]; try discriminate. congruence.
Qed.

(** parsed iff derivable, else RuntimeError (or TypeError if the text has an illegal character) *)
Lemma parse_runtime s ts : tokens s = (ts, EndEof) -> (forall t, ~ derives ts t) -> parse s = RaiseRuntimeError.
Proof.
  intros Hs Hn. unfold parse. destruct (parse_with_cases None s) as [(ts' & t & x & H1 & H2 & H3 & H4)|[[l Hl]|[l [Hx Hl]]]].
  - unfold tokens in Hs. rewrite Hs in H1. injection H1 as <-. exfalso. eapply Hn. exact H2.
  - now rewrite Hl.
  - unfold tokens in Hs. rewrite Hs in Hx. discriminate.
Qed.

(** ** History *)
Lemma parse_with_success last s e l : parse_with last s = (Ok e, l) -> l = None.
Proof.
  intros H. destruct (parse_with_cases last s) as [(ts & t & x & _ & _ & _ & H4)|[[l' Hl]|[l' [_ Hl]]]]; congruence.
Qed.

Fixpoint all_succeed (last : option term) (h : list str) : bool :=
  match h with
  | [] => true
  | s :: h' =>
    match parse_with last s with
    | (Ok _, l) => all_succeed l h'
    | _ => false
    end
  end.

Lemma history_success h : all_succeed None h = true -> parse_history None h = None.
Proof.
  induction h as [|s h IH]; intros H; [reflexivity|]. cbn [all_succeed parse_history] in *.
  destruct (parse_with None s) as [r l] eqn:E. destruct r; try discriminate.
  apply parse_with_success in E. subst l. cbn [snd]. now apply IH.
Qed.

(** the result does not depend on [last] if the tokens do not *)
Lemma run_last n e st i pk l1 l2 :
  match run n e (mkConfig st i pk l1), run n e (mkConfig st i pk l2) with
  | Parsed t _, Parsed t' _ => t = t'
  | SyntaxError _, SyntaxError _ => True
  | LexError _, LexError _ => True
  | OutOfFuel, OutOfFuel => True
  | _, _ => False
  end.
Proof.
  revert st i pk l1 l2. induction n as [|n IH]; intros st i pk l1 l2; cbn [run]; [exact I|].
  unfold step. cbn [stk inp peeked lastp].
  destruct (defaulted (top_state st)) as [p|].
  - destruct (reduce_by p st) as [st'|]; [apply IH|exact I].
  - destruct i as [|t i].
    + destruct e; try exact I.
      destruct (action_at (top_state st) T_END) as [[s|p|]|]; try exact I.
      * destruct (reduce_by p st) as [st'|]; [apply IH|exact I].
      * destruct st as [|[x t] st]; [exact I|reflexivity].
    + assert (Hx : forall X : Type, X -> X) by auto.
      destruct e;
      (destruct (action_at (top_state st) (ttype t)) as [[s|p|]|]; try exact I;
       [apply IH|destruct (reduce_by p st) as [st'|]; [apply IH|exact I]|destruct st as [|[x t'] st]; [exact I|reflexivity]]).
Qed.

Lemma parse_with_last l1 l2 s : tokens_from l1 s = tokens_from l2 s ->
  fst (parse_with l1 s) = fst (parse_with l2 s).
Proof.
  intros H. unfold parse_with. rewrite H. destruct (tokens_from l2 s) as [ts e].
  unfold parse_tokens. pose proof (run_last (parse_fuel ts) e [] ts false l1 l2) as R.
  destruct (run _ e (mkConfig [] ts false l1)), (run _ e (mkConfig [] ts false l2)); try contradiction; subst; reflexivity.
Qed.

Lemma history_independent h s : all_succeed None h = true ->
  fst (parse_with (parse_history None h) s) = parse s.
Proof. intros H. now rewrite (history_success h H). Qed.

(** after any history, an expression that does not start with '*' or a name is unaffected *)
Lemma retype_first last rs e :
  match rs with r :: _ => ttype r <> STAR_OP /\ ttype r <> NCNAME | [] => True end ->
  retype last rs e = retype None rs e.
Proof.
  destruct rs as [|r rs]; [reflexivity|]. intros [H1 H2]. cbn [retype].
  destruct (ttype r); try reflexivity; congruence.
Qed.

Lemma history_any_first h s :
  match fst (raws s) with r :: _ => ttype r <> STAR_OP /\ ttype r <> NCNAME | [] => True end ->
  fst (parse_with (parse_history None h) s) = parse s.
Proof.
  intros H. apply parse_with_last. rewrite !tokens_from_spec. now apply retype_first.
Qed.

(** ... nor after a history that left the lexer where an operand is expected *)
Lemma retype_same l1 l2 rs e : operand_before l1 = operand_before l2 -> retype l1 rs e = retype l2 rs e.
Proof. intros H. destruct rs as [|r rs]; [reflexivity|]. cbn [retype]. now rewrite H. Qed.

Lemma history_operand h s : operand_before (parse_history None h) = false ->
  fst (parse_with (parse_history None h) s) = parse s.
Proof. intros H. apply parse_with_last. rewrite !tokens_from_spec. now apply retype_same. Qed.

(** ** Lexical disambiguation *)
Lemma operator_name_spec n o : operator_name n = Some o <-> In (n, o) w3c_operator_names.
Proof.
  unfold operator_name. split.
  - repeat match goal with |- context [str_eqb ?a ?b] => destruct (str_eqb a b) eqn:? end; intros H; try discriminate; injection H as <-;
      match goal with H : str_eqb _ _ = true |- _ => apply str_eqb_eq in H; subst n end; cbn; auto.
  - cbn [In w3c_operator_names]. intros H. repeat destruct H as [H|H]; try contradiction; injection H as <- <-; reflexivity.
Qed.

Lemma raw_type_kept r ty : raw_ok r -> ttype r = ty -> ty <> STAR_OP -> ty <> NCNAME ->
  forall last rs e ts e', retype last (r :: rs) e = (ts, e') ->
  match ts with k :: _ => ttype k = ty | [] => False end.
Proof.
  intros Hr E H1 H2 last rs e ts e' H. cbn [retype] in H. subst ty.
  destruct (ttype r); try congruence;
    (match type of H with context [retype ?l ?r ?x] => destruct (retype l r x) as [a b] end;
     injection H as <- <-; reflexivity).
Qed.

Lemma retype_disamb rs : forall last e ts, retype last rs e = (ts, EndEof) -> Forall raw_ok rs ->
  forall i k, nth_error ts i = Some k ->
  let prev := match i with O => last | S j => types_at ts j end in
  prev <> Some COMMA -> prev <> Some DOLLAR ->
  disambiguated prev k (types_at ts (S i)).
Proof.
  assert (Hpos : forall p, p <> Some COMMA -> p <> Some DOLLAR -> operand_position p = negb (operand_before p)).
  { intros [t|] H1 H2; [|reflexivity]. destruct t; try reflexivity; congruence. }
  induction rs as [|r rs IH]; intros last e ts H Hraw i k Hk prev P1 P3; cbn [retype] in H.
  { injection H as <- _. destruct i; discriminate. }
  inversion Hraw as [|? ? Hr Hraw']; subst.
  assert (C : forall ty, (let (ts, e') := retype (Some ty) rs e in (mkTok ty (tval r) :: ts, e')) = (ts, EndEof) ->
     exists ts', ts = mkTok ty (tval r) :: ts' /\ retype (Some ty) rs e = (ts', EndEof)).
  { intros ty HC. destruct (retype (Some ty) rs e) as [ts' e'] eqn:E. injection HC as <- ->. eauto. }
  assert (Hnext : forall ty ts', retype (Some ty) rs e = (ts', EndEof) ->
     forall x, (x = OPEN_PAREN \/ x = AXIS_SEP) ->
     (types_at ts' 0 = Some x <-> match rs with r2 :: _ => ttype r2 = x | [] => False end)).
  { intros ty ts' HC x Hx. destruct rs as [|r2 rs].
    - cbn in HC. inversion HC; subst. cbn. split; [discriminate|contradiction].
    - inversion Hraw' as [|? ? Hr2 _]; subst.
      split.
      + intros Ht. cbn [retype] in HC. unfold raw_ok in Hr2.
        assert (Hh : forall ty2 ts2 e2, (let (a, b) := retype (Some ty2) rs e in (mkTok ty2 (tval r2) :: a, b)) = (ts2, e2) ->
           types_at ts2 0 = Some ty2).
        { intros ty2 ts2 e2. destruct (retype (Some ty2) rs e) as [a b]. intros HH. inversion HH; subst. reflexivity. }
        destruct (ttype r2) eqn:E2; try contradiction;
        try (apply Hh in HC; congruence).
        * apply Hh in HC. rewrite HC in Ht. destruct (operand_before (Some ty)); destruct Hx; subst; discriminate.
        * destruct (operand_before (Some ty)).
          -- apply Hh in HC. rewrite HC in Ht.
             destruct (operator_name (name_of (tval r2))) as [o|] eqn:Eo; [|destruct Hx; congruence].
             injection Ht as ->. apply operator_name_cases in Eo. intuition congruence.
          -- destruct (peek_err rs e); [discriminate|]. apply Hh in HC. rewrite HC in Ht.
             injection Ht as Ht. unfold name_type in Ht.
             destruct rs as [|r3 rs]; [destruct Hx; congruence|].
             destruct (ttype r3); try (destruct Hx; congruence).
             match type of Ht with context [str_mem ?a ?b] => destruct (str_mem a b) end; destruct Hx; congruence.
      + intros Ht.
        pose proof (raw_type_kept r2 x Hr2 Ht ltac:(destruct Hx; subst; discriminate)
          ltac:(destruct Hx; subst; discriminate) _ _ _ _ _ HC) as Hty.
        destruct ts' as [|k' ts']; [contradiction|]. cbn. now rewrite Hty. }
  (* the goal for later positions *)
  assert (Later : forall ty ts', ts = mkTok ty (tval r) :: ts' -> retype (Some ty) rs e = (ts', EndEof) ->
     i <> 0 -> disambiguated prev k (types_at ts (S i))).
  { intros ty ts' -> HC Hi. destruct i as [|i]; [congruence|]. cbn [nth_error] in Hk.
    specialize (IH (Some ty) e ts' HC Hraw' i k Hk). cbv zeta in IH.
    assert (Ep : prev = match i with O => Some ty | S j => types_at ts' j end) by (subst prev; destruct i; reflexivity).
    rewrite Ep in P1, P3 |- *. exact (IH P1 P3). }
  unfold raw_ok in Hr.
  destruct (ttype r) eqn:Er; try contradiction;
  try (apply C in H as (ts' & -> & HC); destruct (Nat.eq_dec i 0) as [->|Hi]; [|eapply Later; eauto];
       cbn [nth_error] in Hk; injection Hk as <-; exact I).
  - (* STAR *)
    apply C in H as (ts' & -> & HC). destruct (Nat.eq_dec i 0) as [->|Hi]; [|eapply Later; eauto].
    cbn [nth_error] in Hk. injection Hk as <-. subst prev. cbv beta iota in *. unfold disambiguated. cbn [ttype].
    destruct (operand_before last) eqn:Eo; rewrite Hpos, Eo by assumption; reflexivity.
  - (* NCNAME *)
    destruct (operand_before last) eqn:Eo.
    + apply C in H as (ts' & -> & HC). destruct (Nat.eq_dec i 0) as [->|Hi]; [|eapply Later; eauto].
      cbn [nth_error] in Hk. injection Hk as <-. subst prev. cbv beta iota in *. unfold disambiguated. cbn [ttype tval].
      destruct (operator_name (name_of (tval r))) as [o|] eqn:En.
      * rewrite Hpos, Eo by assumption. pose proof (proj1 (operator_name_spec _ _) En) as Hin. destruct (operator_name_cases _ _ En) as [->|[->|[->| ->]]]; auto.
      * rewrite Hpos, Eo by assumption. cbn [negb]. intros o Ho. apply operator_name_spec in Ho. congruence.
    + destruct (peek_err rs e); [discriminate|].
      apply C in H as (ts' & -> & HC). destruct (Nat.eq_dec i 0) as [->|Hi]; [|eapply Later; eauto].
      cbn [nth_error] in Hk. injection Hk as <-. subst prev. cbv beta iota in *.
      unfold disambiguated. cbn [ttype tval].
      assert (Hp : operand_position last = true) by (rewrite Hpos, Eo by assumption; reflexivity).
      assert (T1 : types_at (mkTok (name_type r rs) (tval r) :: ts') 1 = types_at ts' 0) by reflexivity.
      rewrite T1. pose proof (Hnext _ _ HC OPEN_PAREN (or_introl eq_refl)) as N1.
      pose proof (Hnext _ _ HC AXIS_SEP (or_intror eq_refl)) as N2.
      unfold name_type. destruct rs as [|r2 rs].
      * rewrite Hp. split; [rewrite N1|rewrite N2]; tauto.
      * destruct (ttype r2) eqn:E2;
        try (rewrite Hp; split; [rewrite N1|rewrite N2]; discriminate).
        -- split; [exact Hp|]. now apply N2.
        -- destruct (str_mem (name_of (tval r)) NODE_TYPES) eqn:Em.
           ++ split; [exact Hp|]. split; [now apply N1|]. now apply str_mem_In.
           ++ split; [exact Hp|]. split; [now apply N1|]. change w3c_node_types with NODE_TYPES. rewrite <- str_mem_In. congruence.
Qed.

Lemma tokens_disamb s ts : tokens s = (ts, EndEof) ->
  forall i k, nth_error ts i = Some k ->
  let prev := match i with O => None | S j => types_at ts j end in
  prev <> Some COMMA -> prev <> Some DOLLAR ->
  disambiguated prev k (types_at ts (S i)).
Proof.
  unfold tokens. rewrite tokens_from_spec. intros H. apply (retype_disamb _ _ _ _ H (raws_ok s)).
Qed.

(** ** NCNames *)
(** Namespaces in XML 1.0 (3rd ed.), NCName; NameStartChar and NameChar of XML 1.0 (5th ed.) without ':' *)
Definition xml_start_ranges : list (N * N) :=
  [ (65, 90); (95, 95); (97, 122); (192, 214); (216, 246); (248, 767); (880, 893); (895, 8191);
    (8204, 8205); (8304, 8591); (11264, 12271); (12289, 55295); (63744, 64975); (65008, 65533);
    (65536, 983039) ]%N.
Definition xml_name_ranges : list (N * N) :=
  xml_start_ranges ++ [ (45, 46); (48, 57); (183, 183); (768, 879); (8255, 8256) ]%N.
Definition is_ncname (s : str) : bool :=
  match s with
  | c :: r => in_ranges xml_start_ranges c && forallb (in_ranges xml_name_ranges) r
  | [] => false
  end.

(** U+00C0..U+00D6 *)
Definition latin_gap (c : N) : bool := in_range 192 214 c.

Lemma start_char_gap c : in_ranges xml_start_ranges c = true -> latin_gap c = false -> start_char c = true.
Proof.
  unfold in_ranges, start_char, xml_start_ranges, name_start_ranges, latin_gap, in_ranges.
  cbn [existsb fst snd]. intros H1 H2. rewrite H2 in H1. exact H1.
Qed.

Lemma name_char_gap c : in_ranges xml_name_ranges c = true -> latin_gap c = false -> name_char c = true.
Proof.
  unfold in_ranges, xml_name_ranges. rewrite existsb_app. intros H1 H2. unfold name_char.
  apply orb_prop in H1 as [H1|H1].
  - rewrite (start_char_gap c); auto.
  - unfold in_ranges, name_extra_ranges. rewrite H1. apply orb_true_r.
Qed.

Lemma ncname_rest_all f s : forallb name_char s = true -> length s <= f -> ncname_rest f s = (s, []).
Proof.
  revert s. induction f as [|f IH]; intros s H Hf; destruct s as [|c s]; try reflexivity; [cbn in Hf; lia|].
  cbn [forallb] in H. apply andb_prop in H as [H1 H2]. cbn [ncname_rest]. rewrite H1.
  rewrite IH; [reflexivity|exact H2|cbn in Hf; lia].
Qed.

Lemma ncname_one s : is_ncname s = true -> existsb latin_gap s = false ->
  match s with c :: _ => is_digit c = false | [] => True end ->
  tokens s = ([mkTok NCNAME (VStr s)], EndEof).
Proof.
  intros H Hg Hd. destruct s as [|c s]; [discriminate|]. cbn [is_ncname] in H. apply andb_prop in H as [H1 H2].
  cbn [existsb] in Hg. apply orb_false_iff in Hg as [G1 G2].
  assert (Hs : forallb name_char s = true).
  { apply forallb_forall. intros x Hx. apply name_char_gap.
    - rewrite forallb_forall in H2. auto.
    - destruct (latin_gap x) eqn:E; [|reflexivity].
      assert (existsb latin_gap s = true) by (apply existsb_exists; eauto). congruence. }
  assert (Hok : name_ok (c :: s) = true).
  { unfold name_ok. rewrite Hd. cbn [match_ncname]. rewrite (start_char_gap c H1 G1).
    rewrite ncname_rest_all by (auto; lia). cbn [negb andb]. apply str_eqb_refl. }
  pose proof (tokens_render None [mkTok NCNAME (VStr (c :: s))]) as T.
  assert (E : render [mkTok NCNAME (VStr (c :: s))] = c :: s).
  { unfold render, frag_text, tok_frag. cbn. now rewrite app_nil_r, app_nil_r. }
  rewrite E in T. apply T. cbn [lexable]. repeat split; auto.
Qed.

(** ** White space *)
Definition is_ws (w : str) : bool := forallb is_ignored w.

Lemma space_is_ws w : xpath_space w -> is_ws w = true.
Proof. intros H. apply forallb_forall. intros c Hc. apply H in Hc. cbn [In] in Hc. repeat destruct Hc as [<-|Hc]; try contradiction; reflexivity. Qed.

Lemma ws_facts c : is_ignored c = true ->
  is_digit c = false /\ name_char c = false /\ c <> 192%N /\ c <> 46%N /\ c <> 61%N /\ c <> 47%N /\ c <> 58%N.
Proof.
  unfold is_ignored. intros H. repeat (apply orb_prop in H as [H|H]); apply N.eqb_eq in H; subst c;
  repeat split; try reflexivity; discriminate.
Qed.

Lemma span_extend f s a b c x : span f s = (a, b) -> f c = false -> span f (s ++ c :: x) = (a, b ++ c :: x).
Proof.
  revert a b. induction s as [|d s IH]; intros a b H Hc; cbn [span app] in *.
  - injection H as <- <-. now rewrite Hc.
  - destruct (f d) eqn:Ed.
    + destruct (span f s) as [a' b'] eqn:E. injection H as <- <-. now rewrite (IH a' b').
    + injection H as <- <-. reflexivity.
Qed.

Lemma literal_extend s v r x : match_literal s = Some (v, r) -> match_literal (s ++ x) = Some (v, r ++ x).
Proof.
  unfold match_literal. destruct s as [|q s]; [discriminate|]. cbn [app].
  destruct (_ || _)%bool; [|discriminate].
  destruct (span _ s) as [body [|d rest]] eqn:E; [discriminate|]. intros [= <- <-].
  pose proof (span_app _ _ _ _ E) as Ha. pose proof (span_forall _ _ _ _ E) as Hf.
  pose proof (span_stop _ _ _ _ E) as Hs. rewrite Ha, <- app_assoc. cbn [app].
  rewrite span_all; auto.
Qed.

Lemma literal_none_extend s c x : is_ignored c = true -> s <> [] -> match_literal s = None ->
  match_literal (s ++ c :: x) = None \/ exists q r, s = q :: r /\ (q = q1 \/ q = q2).
Proof.
  intros Hc Hne H. destruct s as [|q s]; [congruence|].
  unfold match_literal in *. cbn [app].
  destruct (N.eqb q q1 || N.eqb q q2)%bool eqn:E; [|now left].
  right. exists q, s. split; [reflexivity|]. apply orb_prop in E as [E|E]; apply N.eqb_eq in E; auto.
Qed.

Lemma float_extend s c x : is_ignored c = true ->
  match_float (s ++ c :: x) = match match_float s with Some (v, r) => Some (v, r ++ c :: x) | None => None end.
Proof.
  intros Hc. destruct (ws_facts c Hc) as (W1 & W2 & W3 & W4 & _).
  unfold match_float. destruct (span is_digit s) as [ip rest] eqn:E.
  rewrite (span_extend _ _ _ _ c x E W1).
  destruct ip as [|d ip].
  - destruct rest as [|e rest]; cbn [app].
    + apply N.eqb_neq in W4. now rewrite W4.
    + destruct (N.eqb e 46); [|reflexivity].
      destruct (span is_digit rest) as [fp r2] eqn:E2. rewrite (span_extend _ _ _ _ c x E2 W1).
      destruct fp; reflexivity.
  - destruct rest as [|e rest]; cbn [app].
    + apply N.eqb_neq in W4. now rewrite W4.
    + destruct (N.eqb e 46); [|reflexivity].
      destruct (span is_digit rest) as [fp r2] eqn:E2. now rewrite (span_extend _ _ _ _ c x E2 W1).
Qed.

Lemma integer_extend s c x : is_ignored c = true ->
  match_integer (s ++ c :: x) = match match_integer s with Some (v, r) => Some (v, r ++ c :: x) | None => None end.
Proof.
  intros Hc. destruct (ws_facts c Hc) as (W1 & _). unfold match_integer.
  destruct (span is_digit s) as [ip rest] eqn:E. rewrite (span_extend _ _ _ _ c x E W1).
  destruct ip; reflexivity.
Qed.

Lemma quirk_extend s c x : is_ignored c = true -> starts_with quirk (s ++ c :: x) = starts_with quirk s.
Proof.
  intros Hc.
  assert (Hq : forall y, In y quirk -> N.eqb y c = false).
  { intros y Hy. apply N.eqb_neq. intros ->. unfold quirk in Hy. cbn [In] in Hy.
    repeat (destruct Hy as [<-|Hy]; [discriminate|]). contradiction. }
  destruct s as [|a [|b [|d [|e s]]]]; unfold quirk in *; cbn [app starts_with];
    repeat match goal with |- context [N.eqb ?y c] => rewrite (Hq y) by (cbn; tauto) end;
    rewrite ?andb_false_r; reflexivity.
Qed.

Lemma ncname_rest_extend f s a b c x : is_ignored c = true -> length s <= f -> ncname_rest f s = (a, b) ->
  forall f', length (s ++ c :: x) <= f' -> ncname_rest f' (s ++ c :: x) = (a, b ++ c :: x).
Proof.
  intros Hc. destruct (ws_facts c Hc) as (_ & W2 & W3 & _).
  revert s a b. induction f as [|f IH]; intros s a b Hf H f' Hf'.
  - destruct s; [|cbn in Hf; lia]. cbn in H. injection H as <- <-. cbn [app] in *.
    destruct f' as [|f']; [reflexivity|]. cbn [ncname_rest]. now rewrite W2, (quirk_stop _ _ W3).
  - destruct s as [|d s].
    + cbn in H. injection H as <- <-. cbn [app] in *.
      destruct f' as [|f']; [reflexivity|]. cbn [ncname_rest]. now rewrite W2, (quirk_stop _ _ W3).
    + cbn [ncname_rest] in H. destruct f' as [|f']; [cbn in Hf'; lia|]. cbn [app ncname_rest].
      destruct (name_char d).
      * destruct (ncname_rest f s) as [a' b'] eqn:E. injection H as <- <-.
        rewrite (IH s a' b'); [reflexivity|cbn in Hf; lia|exact E|cbn in Hf'; lia].
      * change (d :: s ++ c :: x) with ((d :: s) ++ c :: x). rewrite quirk_extend by exact Hc.
        destruct (starts_with quirk (d :: s)) eqn:Q; [|injection H as <- <-; reflexivity].
        destruct (ncname_rest f (skipn 4 (d :: s))) as [a' b'] eqn:E.
        assert (Hab : quirk ++ a' = a /\ b' = b) by (split; congruence). destruct Hab as [<- ->].
        apply starts_with_spec in Q as [r Hr]. rewrite Hr in *. cbn [skipn quirk app] in E |- *.
        rewrite (IH r a' b); [reflexivity| |exact E|].
        -- cbn [length quirk app] in Hf. lia.
        -- cbn [length quirk app] in Hf'. lia.
Qed.

Lemma ncname_extend s c x : is_ignored c = true -> s <> [] ->
  match_ncname (s ++ c :: x) = match match_ncname s with Some (v, r) => Some (v, r ++ c :: x) | None => None end.
Proof.
  intros Hc Hne. destruct s as [|d s]; [congruence|]. cbn [app match_ncname].
  destruct (start_char d).
  - destruct (ncname_rest (length s) s) as [a b] eqn:E.
    rewrite (ncname_rest_extend (length s) s a b c x Hc (le_n _) E); auto.
  - change (d :: s ++ c :: x) with ((d :: s) ++ c :: x). rewrite quirk_extend by exact Hc.
    destruct (starts_with quirk (d :: s)) eqn:Q; [|reflexivity].
    destruct (ncname_rest (length (d :: s)) (skipn 4 (d :: s))) as [a b] eqn:E.
    apply starts_with_spec in Q as [r Hr]. rewrite Hr in *. cbn [skipn quirk app] in E |- *.
    rewrite (ncname_rest_extend (length (quirk ++ r)) r a b c x); auto.
    + rewrite app_length. lia.
    + cbn [length]. lia.
Qed.

Lemma op_extend s c x : is_ignored c = true -> s <> [] ->
  match_op (s ++ c :: x) = match match_op s with Some (t, v, r) => Some (t, v, r ++ c :: x) | None => None end.
Proof.
  intros Hc Hne. destruct (ws_facts c Hc) as (_ & _ & _ & W4 & W5 & W6 & W7).
  apply N.eqb_neq in W4, W5, W6, W7.
  destruct s as [|d [|e s]]; [congruence| |].
  - cbn [app]. unfold match_op. cbv zeta. cbn [skipn].
    change (ch "=") with 61%N. change (ch ".") with 46%N. change (ch "/") with 47%N. change (ch ":") with 58%N.
    rewrite W4, W5, W6, W7, !andb_false_r. cbv iota.
    repeat match goal with |- context [if ?b then _ else _] => destruct b end; reflexivity.
  - cbn [app]. unfold match_op. cbv zeta. cbn [skipn].
    repeat match goal with |- context [if ?b then _ else _] => destruct b end; reflexivity.
Qed.

Lemma raw_at_extend s t r c x : is_ignored c = true -> raw_at s = RTok t r ->
  raw_at (s ++ c :: x) = RTok t (r ++ c :: x).
Proof.
  intros Hc H. unfold raw_at in H. destruct s as [|d s]; [discriminate|].
  unfold raw_at. cbn [app]. change (d :: s ++ c :: x) with ((d :: s) ++ c :: x).
  destruct (match_literal (d :: s)) as [[v r1]|] eqn:E1.
  { injection H as <- <-. now rewrite (literal_extend _ _ _ (c :: x) E1). }
  destruct (literal_none_extend (d :: s) c x Hc ltac:(discriminate) E1) as [->|(q & r' & Eq & Hq)].
  2:{ injection Eq as <- <-. exfalso.
      assert (match_float (d :: s) = None /\ match_integer (d :: s) = None /\ match_ncname (d :: s) = None /\ match_op (d :: s) = None) as (F1 & F2 & F3 & F4).
      { destruct Hq as [-> | ->]; repeat split; try reflexivity; destruct s; reflexivity. }
      rewrite F1, F2, F3, F4 in H. discriminate. }
  rewrite float_extend, integer_extend, ncname_extend, op_extend by (auto; discriminate).
  destruct (match_float (d :: s)) as [[v r1]|]; [injection H as <- <-; reflexivity|].
  destruct (match_integer (d :: s)) as [[v r1]|]; [injection H as <- <-; reflexivity|].
  destruct (match_ncname (d :: s)) as [[v r1]|]; [injection H as <- <-; reflexivity|].
  destruct (match_op (d :: s)) as [[[t' v] r1]|]; [injection H as <- <-; reflexivity|discriminate].
Qed.

Lemma raws_insert n : forall a ra c x, length a < n -> is_ignored c = true -> raws a = (ra, EndEof) ->
  raws (a ++ c :: x) = (ra ++ fst (raws x), snd (raws x)).
Proof.
  induction n as [|n IH]; intros a ra c x Hn Hc H; [lia|].
  rewrite raws_unfold in H. unfold raw_token in H.
  destruct (span is_ignored a) as [w b] eqn:Es. cbn [snd] in H.
  pose proof (span_app _ _ _ _ Es) as Ha. pose proof (span_forall _ _ _ _ Es) as Hw. subst a.
  rewrite <- app_assoc. rewrite raws_skip by exact Hw.
  destruct (raw_at b) as [t r| |] eqn:Er.
  - pose proof (raw_at_len _ _ _ Er) as Hl.
    rewrite raws_unfold. unfold raw_token.
    assert (Hsp : span is_ignored (b ++ c :: x) = ([], b ++ c :: x)).
    { destruct b as [|d b]; [discriminate|]. pose proof (span_stop _ _ _ _ Es) as Hst. cbn in Hst.
      cbn [app span]. now rewrite Hst. }
    rewrite Hsp. cbn [snd]. rewrite (raw_at_extend _ _ _ c x Hc Er).
    destruct (raws r) as [rs e] eqn:Err. injection H as <- ->.
    rewrite (IH r rs c x); auto. rewrite app_length in Hn. lia.
  - injection H as <-. assert (b = []) as ->.
    { destruct b as [|d b]; [reflexivity|]. exfalso. unfold raw_at in Er.
      repeat match type of Er with
      | match ?m with _ => _ end = _ => destruct m as [[[]?]|] || destruct m as [[]|] || destruct m end; discriminate. }
    cbn [app]. change (c :: x) with ([c] ++ x). rewrite raws_skip by (cbn; now rewrite Hc).
    destruct (raws x); reflexivity.
  - discriminate.
Qed.

(** white space after a prefix that ends at a token boundary *)
Lemma raws_ws a ra w x : is_ws w = true -> w <> [] -> raws a = (ra, EndEof) ->
  raws (a ++ w ++ x) = (ra ++ fst (raws x), snd (raws x)).
Proof.
  intros Hw Hne Ha. destruct w as [|c w]; [congruence|]. cbn [is_ws forallb] in Hw.
  apply andb_prop in Hw as [H1 H2]. cbn [app].
  rewrite (raws_insert (S (length a)) a ra c (w ++ x)); auto. now rewrite raws_skip.
Qed.

Lemma parse_with_raws last s1 s2 : raws s1 = raws s2 -> parse_with last s1 = parse_with last s2.
Proof. intros H. unfold parse_with. rewrite !tokens_from_spec, H. reflexivity. Qed.

(** [a | b]: the text a ++ b has a token boundary between a and b *)
Definition boundary (a b : str) : Prop :=
  snd (raws a) = EndEof /\ raws (a ++ b) = (fst (raws a) ++ fst (raws b), snd (raws b)).

Lemma ws_insert last a w b : boundary a b -> is_ws w = true -> parse_with last (a ++ w ++ b) = parse_with last (a ++ b).
Proof.
  intros [H1 H2] Hw. destruct w as [|c w]; [reflexivity|].
  apply parse_with_raws. rewrite H2. apply raws_ws; [exact Hw|discriminate|].
  destruct (raws a); cbn in *; congruence.
Qed.

Lemma ws_replace last a w w' b : snd (raws a) = EndEof -> is_ws w = true -> is_ws w' = true -> w <> [] -> w' <> [] ->
  parse_with last (a ++ w ++ b) = parse_with last (a ++ w' ++ b).
Proof.
  intros H1 Hw Hw' Hne Hne'. apply parse_with_raws.
  assert (Ha : raws a = (fst (raws a), EndEof)) by (destruct (raws a); cbn in *; congruence).
  now rewrite (raws_ws a _ w b Hw Hne Ha), (raws_ws a _ w' b Hw' Hne' Ha).
Qed.

Lemma ws_edges last w s w' : is_ws w = true -> is_ws w' = true -> snd (raws s) = EndEof ->
  parse_with last (w ++ s ++ w') = parse_with last s.
Proof.
  intros Hw Hw' Hs. apply parse_with_raws. rewrite raws_skip by exact Hw.
  destruct w' as [|c w']; [now rewrite app_nil_r|].
  assert (Ha : raws s = (fst (raws s), EndEof)) by (destruct (raws s); cbn in *; congruence).
  pose proof (raws_ws s (fst (raws s)) (c :: w') [] Hw' ltac:(discriminate) Ha) as H.
  rewrite app_nil_r in H. rewrite H. change (raws []) with (@nil tok, EndEof). cbn [fst snd].
  now rewrite app_nil_r, <- Ha.
Qed.

(** ** String literals *)
Lemma repr_char_nonempty q c : exists x r, repr_char q c = x :: r.
Proof.
  unfold repr_char. repeat match goal with |- context [if ?b then _ else _] => destruct b end; cbn; eauto.
Qed.

Lemma repr_char_single q c x : q = q1 \/ q = q2 -> repr_char q c = [x] -> c <> q /\ c <> bslash /\ printable c = true.
Proof.
  intros Hq. unfold repr_char.
  destruct (N.eqb c q || N.eqb c bslash)%bool eqn:E; [discriminate|].
  apply orb_false_iff in E as [E1 E2]. apply N.eqb_neq in E1, E2.
  destruct (N.eqb c 9); [discriminate|]. destruct (N.eqb c 10); [discriminate|]. destruct (N.eqb c 13); [discriminate|].
  destruct (printable c); [auto|].
  destruct (N.ltb c 256); [discriminate|]. destruct (N.ltb c 65536); discriminate.
Qed.

Lemma flat_repr_len q s : length s <= length (flat_map (repr_char q) s).
Proof.
  induction s as [|c s IH]; [reflexivity|]. cbn [flat_map length]. rewrite app_length.
  destruct (repr_char_nonempty q c) as (x & r & ->). cbn. lia.
Qed.

Lemma flat_repr_id q s : q = q1 \/ q = q2 -> flat_map (repr_char q) s = s ->
  forall c, In c s -> c <> q /\ c <> bslash /\ printable c = true.
Proof.
  intros Hq. induction s as [|d s IH]; intros H c Hc; [contradiction|].
  cbn [flat_map] in H.
  destruct (repr_char_nonempty q d) as (x & r & E). rewrite E in H. cbn [app] in H. injection H as -> H.
  assert (r = []).
  { apply (f_equal (@length N)) in H. rewrite app_length in H. pose proof (flat_repr_len q s).
    destruct r; [reflexivity|cbn in H; lia]. }
  subst r. cbn [app] in H. destruct Hc as [<-|Hc]; [eapply repr_char_single; eauto|]. now apply IH.
Qed.

Lemma literal_iff s : tokens (repr_str s) = ([mkTok LITERAL (VStr s)], EndEof) <-> lit_safe s = true.
Proof.
  split.
  - intros H. unfold tokens in H. rewrite tokens_from_spec in H.
    rewrite raws_unfold in H.
    set (q := repr_quote s) in *. assert (Hq : q = q1 \/ q = q2) by apply repr_quote_cases.
    assert (Er : raw_token (repr_str s) = raw_at (repr_str s)).
    { unfold repr_str. fold q. cbn [app]. apply raw_skip. destruct Hq as [-> | ->]; reflexivity. }
    rewrite Er in H. unfold raw_at in H.
    assert (Em : exists v r, match_literal (repr_str s) = Some (v, r) /\ flat_map (repr_char q) s ++ [q] = v ++ q :: r).
    { unfold repr_str. fold q. cbn [app match_literal].
      assert ((N.eqb q q1 || N.eqb q q2)%bool = true) as -> by (destruct Hq as [-> | ->]; reflexivity).
      destruct (span (fun c => negb (N.eqb c q)) (flat_map (repr_char q) s ++ [q])) as [v r] eqn:E.
      pose proof (span_app _ _ _ _ E) as Ha. pose proof (span_stop _ _ _ _ E) as Hs.
      destruct r as [|d r].
      - exfalso. rewrite app_nil_r in Ha. pose proof (span_forall _ _ _ _ E) as Hf.
        rewrite forallb_forall in Hf. specialize (Hf q). rewrite <- Ha in Hf.
        assert (negb (N.eqb q q) = true) by (apply Hf; apply in_or_app; right; now left).
        rewrite N.eqb_refl in H0. discriminate.
      - apply negb_false_iff, N.eqb_eq in Hs. subst d. exists v, r. split; [reflexivity|exact Ha]. }
    destruct Em as (v & r & Em & Ha). rewrite Em in H.
    assert (Hne : exists d l, repr_str s = d :: l) by (unfold repr_str; cbn; eauto).
    destruct Hne as (d & l & Hne). rewrite Hne in H. cbv iota beta in H.
    destruct (raws r) as [rs e] eqn:Err. cbn [fst snd retype ttype tval] in H.
    destruct (retype (Some LITERAL) rs e) as [ts e'] eqn:Et. injection H as -> -> ->.
    assert (r = []).
    { (* no token follows *)
      destruct r as [|x r]; [reflexivity|]. exfalso.
      (* the text ends with the quote, so something is left to lex *)
      assert (Hlast : exists r0, x :: r = r0 ++ [q]).
      { assert (Hx : exists r0 y, x :: r = r0 ++ [y]) by (destruct (exists_last (l := x :: r) ltac:(discriminate)) as (r0 & y & ->); eauto).
        destruct Hx as (r0 & y & Hx). rewrite Hx in Ha.
        change (s ++ q :: r0 ++ [y]) with (s ++ (q :: r0) ++ [y]) in Ha. rewrite app_assoc in Ha.
        apply app_inj_tail in Ha as [_ <-]. eauto. }
      destruct Hlast as [r0 Hr0].
      rewrite raws_unfold in Err. unfold raw_token in Err.
      destruct (span is_ignored (x :: r)) as [w b] eqn:Es. cbn [snd] in Err.
      pose proof (span_app _ _ _ _ Es) as Hb. pose proof (span_forall _ _ _ _ Es) as Hw.
      destruct b as [|y b].
      - rewrite app_nil_r in Hb. rewrite <- Hb, Hr0 in Hw. rewrite forallb_app in Hw.
        apply andb_prop in Hw as [_ Hw]. destruct Hq as [-> | ->]; discriminate.
      - destruct (raw_at (y :: b)) as [k r2| |] eqn:Ek.
        + destruct (raws r2) as [rs2 e2]. injection Err as <- <-. cbn [retype] in Et.
          cbn [operand_before forcer negb] in Et.
          destruct (ttype k); repeat match type of Et with context [retype ?a rs2 e2] => destruct (retype a rs2 e2) end; discriminate.
        + unfold raw_at in Ek. repeat match type of Ek with
          | match ?m with _ => _ end = _ => destruct m as [[[]?]|] || destruct m as [[]|] || destruct m end; discriminate.
        + injection Err as <- <-. cbn in Et. discriminate. }
    subst r. apply app_inj_tail in Ha as [Ha _].
    pose proof (flat_repr_id q s Hq Ha) as Hall.
    apply lit_safe_spec. split.
    + intros c Hc. destruct (Hall c Hc) as (A & B & C). auto.
    + intros A B. destruct (Hall _ A) as (A1 & _). destruct (Hall _ B) as (B1 & _).
      destruct Hq as [-> | ->]; congruence.
  - intros H. pose proof (tokens_render None [mkTok LITERAL (VStr s)]) as T.
    assert (E : render [mkTok LITERAL (VStr s)] = repr_str s).
    { unfold render, frag_text, tok_frag. cbn [flat_map concat keyword_op ttype tok_text tval]. now rewrite !app_nil_r. }
    rewrite E in T. apply T. cbn [lexable]. repeat split. exact H.
Qed.

Lemma literal_parse s : lit_safe s = true -> parse (serialize (ELit s)) = Ok (ELit s).
Proof. intros H. apply roundtrip_ast; [exact H|reflexivity]. Qed.
