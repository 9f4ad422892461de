(** Facts about the lexer: it always makes progress, its fuel suffices, and the token stream is a
    function ([retype]) of the stream of raw tokens. *)
From Coq Require Import Arith.
From Verif Require Import XPathLex.

(** ** Progress of the raw lexer *)
Lemma span_length f s a b : span f s = (a, b) -> length s = length a + length b.
Proof. intros H. apply span_app in H. subst. apply app_length. Qed.

Lemma ncname_rest_app f : forall s a b, ncname_rest f s = (a, b) -> s = a ++ b.
Proof.
  induction f as [|f IH]; intros s a b; cbn [ncname_rest].
  - intros [= <- <-]. reflexivity.
  - destruct s as [|c s']; [intros [= <- <-]; reflexivity|].
    destruct (name_char c).
    + destruct (ncname_rest f s') as [a' b'] eqn:E. intros [= <- <-]. cbn. f_equal. now apply IH.
    + destruct (starts_with quirk (c :: s')) eqn:Q.
      * destruct (ncname_rest f (skipn 4 (c :: s'))) as [a' b'] eqn:E. intros Hp.
        assert (a = quirk ++ a' /\ b = b') as [-> ->] by (split; congruence).
        apply IH in E. apply starts_with_spec in Q as [r Hr]. rewrite Hr in *.
        change (skipn 4 (quirk ++ r)) with r in E. rewrite <- app_assoc. congruence.
      * intros [= <- <-]. reflexivity.
Qed.

Lemma match_ncname_app s a b : match_ncname s = Some (a, b) -> s = a ++ b /\ a <> [].
Proof.
  destruct s as [|c s']; cbn [match_ncname]; [discriminate|].
  destruct (start_char c).
  - destruct (ncname_rest (length s') s') as [a' b'] eqn:E. intros [= <- <-].
    apply ncname_rest_app in E. subst s'. split; [reflexivity|discriminate].
  - destruct (starts_with quirk (c :: s')) eqn:Q; [|discriminate].
    destruct (ncname_rest (length (c :: s')) (skipn 4 (c :: s'))) as [a' b'] eqn:E. intros Hp.
    assert (a = quirk ++ a' /\ b = b') as [-> ->] by (split; congruence).
    apply ncname_rest_app in E. apply starts_with_spec in Q as [r Hr]. rewrite Hr in *.
    change (skipn 4 (quirk ++ r)) with r in E. subst r. rewrite <- app_assoc.
    split; [reflexivity|discriminate].
Qed.

Lemma match_literal_len s v r : match_literal s = Some (v, r) -> length r < length s.
Proof.
  unfold match_literal. destruct s as [|q s']; [discriminate|].
  destruct (_ || _)%bool; [|discriminate].
  destruct (span _ s') as [body [|c rest]] eqn:E; [discriminate|]. intros [= <- <-].
  apply span_length in E. cbn in *. lia.
Qed.

Lemma match_float_len s v r : match_float s = Some (v, r) -> length r < length s.
Proof.
  unfold match_float. destruct (span is_digit s) as [ip rest] eqn:E.
  pose proof (span_length _ _ _ _ E) as L.
  destruct ip as [|d ip].
  - destruct rest as [|c s']; [discriminate|]. destruct (N.eqb c 46); [|discriminate].
    destruct (span is_digit s') as [[|d' fp] rest'] eqn:E'; [discriminate|]. intros [= <- <-].
    apply span_length in E'. cbn in *. lia.
  - destruct rest as [|c s']; [discriminate|]. destruct (N.eqb c 46); [|discriminate].
    destruct (span is_digit s') as [fp rest'] eqn:E'. intros [= <- <-].
    apply span_length in E'. cbn in *. lia.
Qed.

Lemma match_integer_len s v r : match_integer s = Some (v, r) -> length r < length s.
Proof.
  unfold match_integer. destruct (span is_digit s) as [[|d ip] rest] eqn:E; [discriminate|].
  intros [= <- <-]. apply span_length in E. cbn in *. lia.
Qed.

Lemma match_op_app s t v r : match_op s = Some (t, v, r) -> s = v ++ r /\ v <> [].
Proof.
  destruct s as [|c [|e s2]]; [discriminate| |]; unfold match_op; cbv zeta; cbn [skipn]; intros H;
  repeat match type of H with
  | (if ?b then _ else _) = _ => destruct b eqn:?
  end; try discriminate; injection H as <- <- <-;
  repeat match goal with
  | H : (_ && _)%bool = true |- _ => apply andb_prop in H as [? ?]
  | H : N.eqb _ _ = true |- _ => apply N.eqb_eq in H
  end; subst; try discriminate; (split; [reflexivity|discriminate]).
Qed.

Lemma raw_at_len s t r : raw_at s = RTok t r -> length r < length s.
Proof.
  unfold raw_at. destruct s as [|c s]; [discriminate|].
  destruct (match_literal (c :: s)) as [[v r1]|] eqn:E1.
  { intros [= <- <-]. eapply match_literal_len; eassumption. }
  destruct (match_float (c :: s)) as [[v r1]|] eqn:E2.
  { intros [= <- <-]. eapply match_float_len; eassumption. }
  destruct (match_integer (c :: s)) as [[v r1]|] eqn:E3.
  { intros [= <- <-]. eapply match_integer_len; eassumption. }
  destruct (match_ncname (c :: s)) as [[v r1]|] eqn:E4.
  { intros [= <- <-]. apply match_ncname_app in E4 as [-> Hn]. rewrite app_length.
    destruct v; [congruence|cbn; lia]. }
  destruct (match_op (c :: s)) as [[[t' v] r1]|] eqn:E5; [|discriminate].
  intros [= <- <-]. apply match_op_app in E5 as [-> Hn]. rewrite app_length.
  destruct v; [congruence|cbn; lia].
Qed.

Lemma raw_token_len s t r : raw_token s = RTok t r -> length r < length s.
Proof.
  unfold raw_token. destruct (span is_ignored s) as [a b] eqn:E. cbn [snd]. intros H.
  apply raw_at_len in H. apply span_length in E. lia.
Qed.

(** ** Stream of raw tokens *)
Fixpoint raw_stream (fuel : nat) (s : str) : list tok * lexend :=
  match fuel with
  | O => ([], EndFuel)
  | S f =>
    match raw_token s with
    | REof => ([], EndEof)
    | RErr => ([], EndErr)
    | RTok t rest => let (ts, e) := raw_stream f rest in (t :: ts, e)
    end
  end.

Definition raws (s : str) : list tok * lexend := raw_stream (S (length s)) s.

Lemma raw_stream_fuel n m s : length s < n -> length s < m -> raw_stream n s = raw_stream m s.
Proof.
  revert m s. induction n as [|n IH]; intros m s Hn Hm; [lia|].
  destruct m as [|m]; [lia|]. cbn [raw_stream].
  destruct (raw_token s) as [t rest| |] eqn:E; try reflexivity.
  apply raw_token_len in E. rewrite (IH m rest); [reflexivity|lia|lia].
Qed.

Lemma raws_unfold s : raws s =
  match raw_token s with
  | REof => ([], EndEof)
  | RErr => ([], EndErr)
  | RTok t rest => let (ts, e) := raws rest in (t :: ts, e)
  end.
Proof.
  unfold raws. cbn [raw_stream]. destruct (raw_token s) as [t rest| |] eqn:E; try reflexivity.
  apply raw_token_len in E. rewrite (raw_stream_fuel (length s) (S (length rest))); [reflexivity|lia|lia].
Qed.

(** What peek sees: [None] if it raises, otherwise the type of the next token (when there is one).
    [ops]: in the wrapper's peek the previous token is the same as for the token itself. *)
Fixpoint peek_err (rs : list tok) (e : lexend) : bool :=
  match rs with
  | [] => match e with EndErr => true | _ => false end
  | r :: rs' => match ttype r with NCNAME => peek_err rs' e | _ => false end
  end.

Definition name_type (t : tok) (rs : list tok) : term :=
  match rs with
  | r :: _ =>
    match ttype r with
    | OPEN_PAREN => if str_mem (name_of (tval t)) NODE_TYPES then NODETYPE else FUNCNAME
    | AXIS_SEP => AXISNAME
    | _ => NCNAME
    end
  | [] => NCNAME
  end.

(** The wrapper's retyping as a function of the raw stream. *)
Fixpoint retype (last : option term) (rs : list tok) (e : lexend) : list tok * lexend :=
  match rs with
  | [] => ([], e)
  | r :: rs' =>
    let cont ty := let (ts, e') := retype (Some ty) rs' e in (mkTok ty (tval r) :: ts, e') in
    match ttype r with
    | STAR_OP => cont (if operand_before last then MULT_OP else STAR_OP)
    | NCNAME =>
      if operand_before last
      then cont (match operator_name (name_of (tval r)) with Some o => o | None => NCNAME end)
      else if peek_err rs' e then ([], EndErr) else cont (name_type r rs')
    | ty => cont ty
    end
  end.

Lemma tok_eta t ty : ttype t = ty -> t = mkTok ty (tval t).
Proof. destruct t; cbn; congruence. Qed.

Lemma wtoken_spec : forall n last s, length s <= n ->
  wtoken n last s =
  match raw_token s with
  | REof => LEof
  | RErr => LErr
  | RTok t rest =>
    match ttype t with
    | STAR_OP => LTok (mkTok (if operand_before last then MULT_OP else STAR_OP) (tval t)) rest
    | NCNAME =>
      if operand_before last then
        LTok (mkTok (match operator_name (name_of (tval t)) with Some o => o | None => NCNAME end)
                    (tval t)) rest
      else if peek_err (fst (raws rest)) (snd (raws rest)) then LErr
           else LTok (mkTok (name_type t (fst (raws rest))) (tval t)) rest
    | _ => LTok t rest
    end
  end.
Proof.
  induction n as [|n IH]; intros last s Hs.
  - destruct s; [reflexivity|cbn in Hs; lia].
  - cbn [wtoken]. destruct (raw_token s) as [t rest| |] eqn:E; try reflexivity.
    destruct (ttype t) eqn:Et; try reflexivity.
    destruct (operand_before last) eqn:Eo; [reflexivity|].
    pose proof (raw_token_len _ _ _ E) as L.
    rewrite (IH last rest) by lia. rewrite (raws_unfold rest).
    destruct (raw_token rest) as [t2 rest2| |] eqn:E2; cbn [fst snd peek_err name_type].
    + destruct (raws rest2) as [ts2 e2] eqn:R2. cbn [fst snd peek_err name_type].
      assert (HT : mkTok NCNAME (tval t) = t) by (symmetry; now apply tok_eta).
      destruct (ttype t2) eqn:Et2; cbn [ttype]; rewrite ?Et2, ?Eo, ?HT; cbn [ttype];
        rewrite ?HT; try reflexivity.
      destruct (peek_err ts2 e2); [reflexivity|]. cbn [ttype].
      assert (Hn : match name_type t2 ts2 with OPEN_PAREN => false | AXIS_SEP => false | _ => true end = true).
      { unfold name_type. destruct ts2 as [|t3 ts3]; [reflexivity|].
        destruct (ttype t3); try reflexivity. destruct (str_mem _ _); reflexivity. }
      destruct (name_type t2 ts2); try discriminate; reflexivity.
    + now rewrite <- (tok_eta t _ Et).
    + reflexivity.
Qed.

(** The tokens delivered are the retyped raw tokens. *)
Lemma lex_all_spec : forall n last s, length s < n ->
  lex_all n last s = retype last (fst (raws s)) (snd (raws s)).
Proof.
  induction n as [|n IH]; intros last s Hs; [lia|].
  cbn [lex_all]. rewrite wtoken_spec by lia. rewrite (raws_unfold s).
  destruct (raw_token s) as [t rest| |] eqn:E; try reflexivity.
  apply raw_token_len in E.
  destruct (raws rest) as [rs e] eqn:R. cbn [fst snd retype].
  assert (HR : forall last', lex_all n last' rest = retype last' rs e).
  { intros last'. rewrite IH by lia. now rewrite R. }
  destruct (ttype t) eqn:Et; cbn [ttype]; rewrite ?Et, ?HR;
    try (rewrite <- (tok_eta t _ Et); reflexivity); try reflexivity.
  destruct (operand_before last); [now rewrite HR|].
  destruct (peek_err rs e); [reflexivity|]. cbn [ttype]. now rewrite HR.
Qed.

Lemma tokens_from_spec last s :
  tokens_from last s = retype last (fst (raws s)) (snd (raws s)).
Proof. unfold tokens_from. apply lex_all_spec. lia. Qed.

(** ** Ends and token values *)
Lemma raw_stream_end n s : length s < n -> snd (raw_stream n s) <> EndFuel.
Proof.
  revert s. induction n as [|n IH]; intros s Hs; [lia|]. cbn [raw_stream].
  destruct (raw_token s) as [t rest| |] eqn:E; try discriminate.
  apply raw_token_len in E. specialize (IH rest ltac:(lia)).
  destruct (raw_stream n rest). exact IH.
Qed.

Lemma raws_end s : snd (raws s) <> EndFuel.
Proof. apply raw_stream_end. lia. Qed.

Lemma retype_end last rs e : e <> EndFuel -> snd (retype last rs e) <> EndFuel.
Proof.
  revert last. induction rs as [|r rs IH]; intros last He; cbn [retype]; [exact He|].
  assert (C : forall ty, snd (let (ts, e') := retype (Some ty) rs e in (mkTok ty (tval r) :: ts, e')) <> EndFuel).
  { intros ty. specialize (IH (Some ty) He). destruct (retype (Some ty) rs e). exact IH. }
  destruct (ttype r); try apply C.
  destruct (operand_before last); [apply C|]. destruct (peek_err rs e); [discriminate|apply C].
Qed.

Lemma tokens_from_end last s : snd (tokens_from last s) <> EndFuel.
Proof. rewrite tokens_from_spec. apply retype_end, raws_end. Qed.

(** every raw token carries a value of its kind and is none of the retyped kinds *)
Definition raw_ok (t : tok) : Prop :=
  match ttype t with
  | INTEGER => exists n, tval t = VInt n
  | FLOAT => exists f, tval t = VFloat f
  | T_END | MULT_OP | NODETYPE | FUNCNAME | AXISNAME | OR_OP | AND_OP | DIV_OP | MOD_OP => False
  | _ => exists s, tval t = VStr s
  end.

Lemma match_op_type s t v r : match_op s = Some (t, v, r) -> raw_ok (mkTok t (VStr v)).
Proof.
  destruct s as [|c [|e s2]]; [discriminate| |]; unfold match_op; cbv zeta; cbn [skipn]; intros H;
  repeat match type of H with
  | (if ?b then _ else _) = _ => destruct b
  end; try discriminate; injection H as <- <- <-; cbn; eauto.
Qed.

Lemma raw_at_ok s t r : raw_at s = RTok t r -> raw_ok t.
Proof.
  unfold raw_at. destruct s as [|c s]; [discriminate|].
  destruct (match_literal (c :: s)) as [[v r1]|] eqn:E1; [intros [= <- <-]; cbn; eauto|].
  destruct (match_float (c :: s)) as [[v r1]|] eqn:E2; [intros [= <- <-]; cbn; eauto|].
  destruct (match_integer (c :: s)) as [[v r1]|] eqn:E3; [intros [= <- <-]; cbn; eauto|].
  destruct (match_ncname (c :: s)) as [[v r1]|] eqn:E4; [intros [= <- <-]; cbn; eauto|].
  destruct (match_op (c :: s)) as [[[t' v] r1]|] eqn:E5; [|discriminate].
  intros [= <- <-]. eapply match_op_type; eassumption.
Qed.

Lemma raw_stream_ok n s : Forall raw_ok (fst (raw_stream n s)).
Proof.
  revert s. induction n as [|n IH]; intros s; cbn [raw_stream]; [constructor|].
  destruct (raw_token s) as [t rest| |] eqn:E; try constructor.
  specialize (IH rest). destruct (raw_stream n rest). constructor; [|exact IH].
  eapply raw_at_ok. exact E.
Qed.

Lemma raws_ok s : Forall raw_ok (fst (raws s)).
Proof. apply raw_stream_ok. Qed.

Lemma operator_name_cases n o : operator_name n = Some o -> o = OR_OP \/ o = AND_OP \/ o = DIV_OP \/ o = MOD_OP.
Proof.
  unfold operator_name. repeat match goal with |- context [if ?b then _ else _] => destruct b end;
  intros [= <-]; tauto.
Qed.

Definition fin_ok (t : tok) : Prop :=
  match ttype t with
  | INTEGER => exists n, tval t = VInt n
  | FLOAT => exists f, tval t = VFloat f
  | T_END => False
  | _ => exists s, tval t = VStr s
  end.

Lemma retype_ok last rs e : Forall raw_ok rs -> Forall fin_ok (fst (retype last rs e)).
Proof.
  revert last. induction rs as [|r rs IH]; intros last H; cbn [retype]; [constructor|].
  inversion H as [|? ? Hr Hrs]; subst.
  assert (C : forall ty, fin_ok (mkTok ty (tval r)) ->
    Forall fin_ok (fst (let (ts, e') := retype (Some ty) rs e in (mkTok ty (tval r) :: ts, e')))).
  { intros ty Hty. specialize (IH (Some ty) Hrs). destruct (retype (Some ty) rs e).
    constructor; assumption. }
  unfold raw_ok in Hr.
  destruct (ttype r) eqn:Er; try contradiction; try (apply C; exact Hr).
  - apply C. destruct (operand_before last); exact Hr.
  - destruct (operand_before last).
    + apply C. destruct (operator_name _) eqn:Eo; [|exact Hr].
      apply operator_name_cases in Eo. destruct Eo as [E|[E|[E|E]]]; rewrite E; exact Hr.
    + destruct (peek_err rs e); [constructor|]. apply C.
      unfold name_type. destruct rs as [|r2 rs2]; [exact Hr|].
      destruct (ttype r2); try exact Hr. destruct (str_mem _ _); exact Hr.
Qed.

Lemma tokens_from_ok last s : Forall fin_ok (fst (tokens_from last s)).
Proof. rewrite tokens_from_spec. apply retype_ok, raws_ok. Qed.
