(** What a string literal becomes when its serialisation is parsed again (C09): proofs. *)
From Coq Require Import String.
From Verif Require Import XPathSpec XPathParser XPathParseProofs XPathLexProofs XPathRender XPathRoundTrip XPathText
  LexSpec XPathMisc.

(** ** The escapes of repr *)
Lemma hexdigit_spec n : (n < 16)%N -> hex_value (hexdigit n) = Some n.
Proof.
  intros H. assert (Hc : In n [0;1;2;3;4;5;6;7;8;9;10;11;12;13;14;15]%N) by (cbn; lia).
  cbn [In] in Hc. repeat (destruct Hc as [<-|Hc]; [vm_compute; reflexivity|]). contradiction.
Qed.

Lemma hex_values_app a b x y : hex_values a x -> hex_values b y -> hex_values (a ++ b) (x * 16 ^ N.of_nat (List.length b) + y).
Proof.
  intros Ha Hb. revert y Hb. induction b as [|d b IH] using rev_ind; intros y Hb.
  - rewrite app_nil_r. inversion Hb; subst.
    + cbn [List.length N.of_nat]. rewrite N.pow_0_r, N.mul_1_r, N.add_0_r. exact Ha.
    + destruct ds; discriminate.
  - inversion Hb as [E|ds d' z v Hds Hd E Ey].
    + destruct b; discriminate.
    + apply app_inj_tail in E as [-> ->]. subst y. rewrite app_assoc.
      replace (x * 16 ^ N.of_nat (List.length (b ++ [d])) + (z * 16 + v))%N
        with ((x * 16 ^ N.of_nat (List.length b) + z) * 16 + v)%N.
      * constructor; [apply IH; exact Hds|exact Hd].
      * rewrite app_length. cbn [List.length]. rewrite Nat.add_1_r, Nat2N.inj_succ, N.pow_succ_r'. ring.
Qed.

Lemma hex_spec w n : (n < 16 ^ N.of_nat w)%N -> hex_values (hex w n) n /\ List.length (hex w n) = w.
Proof.
  revert n. induction w as [|w IH]; intros n H.
  - cbn in H. assert (n = 0%N) by lia. subst. split; [constructor|reflexivity].
  - cbn [hex]. rewrite Nat2N.inj_succ, N.pow_succ_r' in H.
    destruct (IH (n / 16)%N) as [H1 H2]; [apply N.div_lt_upper_bound; lia|].
    split; [|rewrite app_length; cbn; lia].
    rewrite (N.div_mod' n 16) at 3. rewrite N.mul_comm. constructor; [exact H1|].
    apply hexdigit_spec. apply N.mod_lt. lia.
Qed.

Lemma repr_char_spelt q c : (q = 39 \/ q = 34)%N -> c <> q -> (c < 1114112)%N -> spelt c (repr_char q c).
Proof.
  intros Hq Hc Hm. unfold repr_char.
  destruct (N.eqb_spec c q); [contradiction|]. cbn [orb].
  destruct (N.eqb_spec c bslash) as [->|H1]; [apply sp_backslash|].
  destruct (N.eqb_spec c 9) as [->|H2]; [apply sp_tab|].
  destruct (N.eqb_spec c 10) as [->|H3]; [apply sp_newline|].
  destruct (N.eqb_spec c 13) as [->|H4]; [apply sp_return|].
  destruct (printable c) eqn:Ep; [now apply sp_plain|].
  assert (Hn : ~ In c [92; 9; 10; 13]%N) by (unfold bslash in H1; cbn; lia).
  destruct (N.ltb_spec c 256) as [H5|H5].
  - destruct (hex_spec 2 c) as [A B]; [exact H5|]. now apply sp_byte.
  - destruct (N.ltb_spec c 65536) as [H6|H6].
    + destruct (hex_spec 4 c) as [A B]; [exact H6|]. now apply sp_bmp.
    + destruct (hex_spec 8 c) as [A B]; [|now apply sp_astral].
      change (16 ^ N.of_nat 8)%N with 4294967296%N. lia.
Qed.

Lemma repr_body_spells q s : (q = 39 \/ q = 34)%N -> ~ In q s -> (forall c, In c s -> (c < 1114112)%N) ->
  spells s (flat_map (repr_char q) s).
Proof.
  intros Hq. induction s as [|c s IH]; intros Hn Hm; [constructor|]. cbn [flat_map]. constructor.
  - apply repr_char_spelt; [exact Hq| |apply Hm; now left]. intros ->. apply Hn. now left.
  - apply IH; [intros H; apply Hn; now right|intros x Hx; apply Hm; now right].
Qed.

Lemma hex_no_quote w n c : In c (hex w n) -> (c <> 39 /\ c <> 34)%N.
Proof.
  revert n. induction w as [|w IH]; intros n H; [contradiction|]. cbn [hex] in H.
  apply in_app_or in H as [H|[<-|[]]]; [eauto|]. unfold hexdigit. generalize (n mod 16)%N. intros m. destruct (N.ltb_spec m 10); lia.
Qed.

Lemma repr_char_no_quote q c x : (q = 39 \/ q = 34)%N -> c <> q -> In x (repr_char q c) -> x <> q.
Proof.
  intros Hq Hc Hx ->. unfold repr_char, bslash in Hx.
  destruct (N.eqb_spec c q); [contradiction|]. cbn [orb] in Hx.
  repeat match type of Hx with context [if ?b then _ else _] => destruct b end;
    cbn [In app] in Hx;
    repeat match type of Hx with _ \/ _ => destruct Hx as [Hx|Hx] end;
    try contradiction; try congruence; try (destruct Hq; subst; congruence);
    try (apply hex_no_quote in Hx; destruct Hq; subst; lia).
Qed.

Lemma repr_body_no_quote q s : (q = 39 \/ q = 34)%N -> ~ In q s -> ~ In q (flat_map (repr_char q) s).
Proof.
  intros Hq Hn H. apply in_flat_map in H as (c & Hc & Hx).
  apply (repr_char_no_quote q c q Hq) in Hx; [congruence|]. intros ->. auto.
Qed.

(** ** the text re-read *)
Lemma quoted_tokens q v : (q = 39 \/ q = 34)%N -> ~ In q v -> tokens ([q] ++ v ++ [q]) = ([mkTok LITERAL (VStr v)], EndEof).
Proof.
  intros Hq Hv. unfold tokens. rewrite tokens_from_spec, raws_unfold.
  assert (Er : raw_token ([q] ++ v ++ [q]) = RTok (mkTok LITERAL (VStr v)) []).
  { cbn [app]. rewrite raw_skip by (destruct Hq as [-> | ->]; reflexivity).
    unfold raw_at, match_literal.
    assert ((N.eqb q q1 || N.eqb q q2)%bool = true) as -> by (destruct Hq as [-> | ->]; reflexivity).
    rewrite (span_all _ v [q]); [reflexivity| |].
    - apply forallb_forall. intros c Hc. apply negb_true_iff, N.eqb_neq. intros ->. auto.
    - cbn. now rewrite N.eqb_refl. }
  rewrite Er. change (raws []) with (@nil tok, EndEof). reflexivity.
Qed.

Definition lit_tree (v : str) : ptree := Node 17 [Node 43 [Leaf (mkTok LITERAL (VStr v))]].

Lemma literal_token_parse s v : tokens s = ([mkTok LITERAL (VStr v)], EndEof) -> parse s = Ok (ELit v).
Proof.
  intros H. apply (derives_parse s _ (lit_tree v) _ H); [|reflexivity].
  assert (N1 : nprods = List.length prods) by reflexivity. cbn in N1.
  split; [|split; [reflexivity|split; [|reflexivity]]].
  - constructor; [rewrite N1; lia|reflexivity|]. constructor; [|constructor].
    constructor; [rewrite N1; lia|reflexivity|]. constructor; constructor.
  - constructor; [|intros; discriminate|intros; discriminate].
    constructor; [|constructor]. constructor; [repeat constructor| |]; intros; discriminate.
Qed.

(** ** a parse that starts with a literal and yields a literal read nothing else *)
Lemma wf_kids1 kids p s : wf (Node p kids) -> rhs (get_prod p) = [s] -> exists k, kids = [k] /\ root k = s /\ wf k.
Proof.
  intros H E. inversion H as [|? ? Hp Hr Hk]; subst. rewrite E in Hr.
  destruct kids as [|k [|]]; cbn [map] in Hr; try discriminate. injection Hr as Hr. inversion Hk; subst. eauto.
Qed.

Lemma root_T k t : root k = T t -> exists x, k = Leaf x /\ ttype x = t.
Proof. destruct k as [x|p l]; cbn; [intros [= <-]; eauto|discriminate]. Qed.

Lemma sequence_len {A} (l : list (option A)) vs : sequence l = Some vs -> List.length l = List.length vs.
Proof.
  revert vs. induction l as [|[x|] l IH]; intros vs H; cbn in H; [now injection H as <-| |discriminate].
  destruct (sequence l); [|discriminate]. injection H as <-. cbn. now rewrite (IH _ eq_refl).
Qed.

Lemma prod_cases p kids v : 0 < p < nprods -> map root kids = rhs (get_prod p) ->
  eval (Node p kids) = Some (SExpr (ELit v)) ->
  (exists k, kids = [k] /\ eval k = Some (SExpr (ELit v))) \/
  (exists x, kids = [Leaf x] /\ tval x = VStr v) \/
  (exists x l, kids = Leaf x :: l /\ (ttype x = OPEN_PAREN \/ ttype x = OPEN_BRACKET)).
Proof.
  intros Hp. cbn [eval].
  assert (Hall : forall q, In q prods -> map root kids = rhs q ->
     match sequence (map eval kids) with Some vs => act q vs | None => None end = Some (SExpr (ELit v)) ->
     (exists k, kids = [k] /\ eval k = Some (SExpr (ELit v))) \/
     (exists x, kids = [Leaf x] /\ tval x = VStr v) \/
     (exists x l, kids = Leaf x :: l /\ (ttype x = OPEN_PAREN \/ ttype x = OPEN_BRACKET))).
  { clear. intros q Hq Hr He.
    destruct (sequence (map eval kids)) as [vs|] eqn:Es; [|discriminate].
    repeat (destruct Hq as [<-|Hq];
      [ cbn [rhs act P] in *;
        first
        [ (* copy *)
          (destruct kids as [|k [|]]; cbn [map] in Hr; try discriminate Hr; [];
           cbn [map sequence] in Es; destruct (eval k) as [y|] eqn:Ek; [|discriminate Es]; injection Es as <-;
           cbn in He; injection He as ->; left; exists k; split; [reflexivity|exact Ek])
        | (* token *)
          (destruct kids as [|k [|]]; cbn [map] in Hr; try discriminate Hr; [];
           injection Hr as Hr; destruct (root_T _ _ Hr) as (x & -> & _);
           cbn [map sequence eval] in Es; injection Es as <-;
           cbn in He; injection He as He; right; left; exists x; split; [reflexivity|];
           destruct (tval x); cbn in He; try discriminate He; injection He as ->; reflexivity)
        | (* group *)
          (destruct kids as [|k kids']; cbn [map] in Hr; [discriminate Hr|]; injection Hr as Hr Hr';
           destruct (root_T _ _ Hr) as (x & -> & Hx); right; right; exists x, kids'; split; [reflexivity|];
           first [left; exact Hx|right; exact Hx])
        | (* nothing else yields a literal *)
          (exfalso; clear -He;
           repeat match type of He with
           | ?f ?w = _ => unfold f in He
           end;
           repeat match type of He with context [match ?w with _ => _ end] => is_var w; destruct w; try discriminate He end;
           try discriminate He;
           unfold append_predicate in He;
           repeat match type of He with context [match ?w with _ => _ end] => is_var w; destruct w; try discriminate He end;
           discriminate He) ]
      | ]).
    destruct Hq. }
  apply Hall. unfold get_prod. apply nth_In. apply Hp.
Qed.

Lemma literal_alone t k rest v : wf t -> yield t = k :: rest -> ttype k = LITERAL ->
  eval t = Some (SExpr (ELit v)) -> rest = [] /\ tval k = VStr v.
Proof.
  induction t as [x|p kids IH] using ptree_ind'; intros Hw Hy Hk He; [discriminate|].
  inversion Hw as [|? ? Hp Hr Hwk]; subst.
  destruct (prod_cases p kids v Hp Hr He) as [(x & -> & Hx)|[(x & -> & Hx)|(x & l & -> & Hx)]].
  - inversion IH; subst. inversion Hwk; subst. cbn [yield flat_map] in Hy. rewrite app_nil_r in Hy. eauto.
  - cbn in Hy. injection Hy as -> <-. auto.
  - cbn [yield flat_map app] in Hy. injection Hy as -> _. destruct Hx; congruence.
Qed.

Lemma read_back_literal s t : parse (serialize (ELit s)) = Ok (ELit t) ->
  tokens (repr_str s) = ([mkTok LITERAL (VStr t)], EndEof).
Proof.
  intros H. change (serialize (ELit s)) with (List.concat [repr_str s]) in H. cbn [List.concat] in H. rewrite app_nil_r in H.
  destruct (parse_ok_derives _ _ H) as (ts & tr & Ht & (Hw & Hr & Hp & Hy) & Ha).
  unfold ast_of in Ha. destruct (eval tr) as [[e| | | | |]|] eqn:Ev; try discriminate. injection Ha as ->.
  destruct (yield tr) as [|k rest] eqn:Ey.
  - exfalso. subst ts. unfold tokens in Ht. rewrite tokens_from_spec, raws_unfold in Ht.
    destruct (raw_token (repr_str s)) as [k r| |] eqn:Er.
    + destruct (raws r). destruct k. cbn [fst snd retype] in Ht. destruct ttype; cbn in Ht;
      repeat match type of Ht with context [retype ?a ?b ?c] => destruct (retype a b c) end;
      repeat match type of Ht with context [if ?b then _ else _] => destruct b end; discriminate.
    + exfalso. revert Er. unfold repr_str. set (q := repr_quote s).
      assert (Hq : q = q1 \/ q = q2) by apply repr_quote_cases. cbn [app]. rewrite raw_skip by (destruct Hq as [-> | ->]; reflexivity).
      unfold raw_at. destruct Hq as [-> | ->];
      repeat match goal with |- match ?m with _ => _ end = _ -> _ => destruct m as [[[]?]|] || destruct m as [[]|] || destruct m end; discriminate.
    + cbn in Ht. discriminate.
  - assert (Hk : ttype k = LITERAL).
    { 
      unfold tokens in Ht. rewrite tokens_from_spec, raws_unfold in Ht.
      set (q := repr_quote s) in *. assert (Hq : q = q1 \/ q = q2) by apply repr_quote_cases.
      assert (Er : raw_token (repr_str s) = raw_at (repr_str s)).
      { unfold repr_str. fold q. cbn [app]. apply raw_skip. destruct Hq as [-> | ->]; reflexivity. }
      rewrite Er in Ht. unfold raw_at in Ht.
      assert (Em : exists v r, match_literal (repr_str s) = Some (v, r)).
      { unfold repr_str. fold q. cbn [app match_literal].
        assert ((N.eqb q q1 || N.eqb q q2)%bool = true) as -> by (destruct Hq as [-> | ->]; reflexivity).
        destruct (span (fun c => negb (N.eqb c q)) (flat_map (repr_char q) s ++ [q])) as [v r] eqn:E.
        pose proof (span_app _ _ _ _ E) as Ha.
        destruct r as [|d r]; [|eauto].
        exfalso. rewrite app_nil_r in Ha. pose proof (span_forall _ _ _ _ E) as Hf.
        rewrite forallb_forall in Hf. specialize (Hf q). rewrite <- Ha in Hf.
        assert (X : negb (N.eqb q q) = true) by (apply Hf; apply in_or_app; right; now left).
        rewrite N.eqb_refl in X. discriminate. }
      destruct Em as (v & r & Em). rewrite Em in Ht.
      assert (Hne : exists d l, repr_str s = d :: l) by (unfold repr_str; cbn; eauto).
      destruct Hne as (d & l & Hne). rewrite Hne in Ht. cbv iota beta in Ht.
      destruct (raws r) as [rs e]. cbn [fst snd retype ttype tval] in Ht.
      destruct (retype (Some LITERAL) rs e) as [ts' e']. injection Ht as <- _.
      injection Hy as -> _. reflexivity. }
    destruct (literal_alone tr k rest t Hw Ey Hk Ev) as [-> Hv].
    rewrite Ht, <- Hy. destruct k as [kt kv]. cbn in Hk, Hv. now subst.
Qed.

Lemma both_quotes s : In 39%N s -> In 34%N s -> repr_quote s = 39%N.
Proof.
  intros H1 H2. unfold repr_quote. apply memN_true in H2. change 34%N with q2 in H2. rewrite H2. cbn [negb]. now rewrite andb_false_r.
Qed.

Lemma not_both_quote s : ~ (In 39%N s /\ In 34%N s) -> ~ In (repr_quote s) s.
Proof.
  intros H. unfold repr_quote. destruct (memN q1 s) eqn:E1; cbn [andb].
  - destruct (memN q2 s) eqn:E2; cbn [negb].
    + apply memN_true in E1, E2. tauto.
    + intros X. apply memN_true in X. congruence.
  - intros X. apply memN_true in X. congruence.
Qed.

Lemma literal_becomes s : ~ (In 39%N s /\ In 34%N s) ->
  parse (serialize (ELit s)) = Ok (ELit (flat_map (repr_char (repr_quote s)) s)).
Proof.
  intros H. pose proof (not_both_quote s H) as Hn.
  change (serialize (ELit s)) with (List.concat [repr_str s]). cbn [List.concat]. rewrite app_nil_r.
  apply literal_token_parse. unfold repr_str. apply quoted_tokens.
  - apply repr_quote_cases.
  - apply repr_body_no_quote; [apply repr_quote_cases|exact Hn].
Qed.

Lemma one_literal q body t : (q = 39 \/ q = 34)%N -> tokens (q :: body ++ [q]) = ([mkTok LITERAL (VStr t)], EndEof) ->
  t = body /\ ~ In q body.
Proof.
  intros Hq H. unfold tokens in H. rewrite tokens_from_spec, raws_unfold in H.
  assert (Er : raw_token (q :: body ++ [q]) = raw_at (q :: body ++ [q])).
  { apply raw_skip. destruct Hq as [-> | ->]; reflexivity. }
  rewrite Er in H. unfold raw_at in H.
  assert (Em : exists v r, match_literal (q :: body ++ [q]) = Some (v, r) /\ body ++ [q] = v ++ q :: r /\ ~ In q v).
  { cbn [match_literal].
    assert ((N.eqb q q1 || N.eqb q q2)%bool = true) as -> by (destruct Hq as [-> | ->]; reflexivity).
    destruct (span (fun c => negb (N.eqb c q)) (body ++ [q])) as [v r] eqn:E.
    pose proof (span_app _ _ _ _ E) as Ha. pose proof (span_stop _ _ _ _ E) as Hs.
    pose proof (span_forall _ _ _ _ E) as Hf. rewrite forallb_forall in Hf.
    destruct r as [|d r].
    - exfalso. rewrite app_nil_r in Ha. specialize (Hf q). rewrite <- Ha in Hf.
      assert (X : negb (N.eqb q q) = true) by (apply Hf; apply in_or_app; right; now left).
      rewrite N.eqb_refl in X. discriminate.
    - apply negb_false_iff, N.eqb_eq in Hs. subst d. exists v, r. split; [reflexivity|split; [exact Ha|]].
      intros Hi. specialize (Hf q Hi). cbn in Hf. rewrite N.eqb_refl in Hf. discriminate. }
  destruct Em as (v & r & Em & Ha & Hv). rewrite Em in H. cbv iota beta in H.
  destruct (raws r) as [rs e] eqn:Err. cbn [fst snd retype ttype tval] in H.
  destruct (retype (Some LITERAL) rs e) as [ts e'] eqn:Et. injection H as -> -> ->.
  assert (r = []).
  { destruct r as [|x r]; [reflexivity|]. exfalso.
    assert (Hlast : exists r0, x :: r = r0 ++ [q]).
    { assert (Hx : exists r0 y, x :: r = r0 ++ [y]) by (destruct (exists_last (l := x :: r) ltac:(discriminate)) as (r0 & y & ->); eauto).
      destruct Hx as (r0 & y & Hx). rewrite Hx in Ha.
      change (t ++ q :: r0 ++ [y]) with (t ++ (q :: r0) ++ [y]) in Ha. rewrite app_assoc in Ha.
      apply app_inj_tail in Ha as [_ <-]. eauto. }
    destruct Hlast as [r0 Hr0].
    rewrite raws_unfold in Err. unfold raw_token in Err.
    destruct (span is_ignored (x :: r)) as [w b] eqn:Es. cbn [snd] in Err.
    pose proof (span_app _ _ _ _ Es) as Hb. pose proof (span_forall _ _ _ _ Es) as Hw.
    destruct b as [|y b].
    - rewrite app_nil_r in Hb. rewrite <- Hb, Hr0 in Hw. rewrite forallb_app in Hw.
      apply andb_prop in Hw as [_ Hw]. destruct Hq as [-> | ->]; discriminate.
    - destruct (raw_at (y :: b)) as [k r2| |] eqn:Ek.
      + destruct (raws r2) as [rs2 e2]. injection Err as <- <-. cbn [retype] in Et.
        cbn [operand_before forcer negb] in Et.
        destruct (ttype k); repeat match type of Et with context [retype ?a rs2 e2] => destruct (retype a rs2 e2) end; discriminate.
      + unfold raw_at in Ek. repeat match type of Ek with
        | match ?m with _ => _ end = _ => destruct m as [[[]?]|] || destruct m as [[]|] || destruct m end; discriminate.
      + injection Err as <- <-. cbn in Et. discriminate. }
  subst r. apply app_inj_tail in Ha as [-> _]. auto.
Qed.

Lemma both_never s t : In 39%N s -> In 34%N s -> parse (serialize (ELit s)) <> Ok (ELit t).
Proof.
  intros H1 H2 H. apply read_back_literal in H. unfold repr_str in H. cbn [app] in H.
  assert (Eq : repr_quote s = 39%N) by now apply both_quotes. rewrite Eq in H.
  apply one_literal in H as [_ H]; [|now left]. apply H. apply in_flat_map. exists 39%N. split; [exact H1|].
  vm_compute. auto.
Qed.

Lemma literal_roundtrip_iff s : parse (serialize (ELit s)) = Ok (ELit s) <-> lit_safe s = true.
Proof.
  split; [|apply literal_parse]. intros H. apply literal_iff. now apply read_back_literal.
Qed.
