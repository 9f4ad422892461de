(** Rendering a token sequence as text and lexing it back. *)
From Coq Require Import Arith String.
From Verif Require Export XPathSpec XPathParseProofs XPathLexProofs.

(** ** Which tokens can be neighbours in a derivation *)

Definition last_step (ls : list N) : list N :=
  map (fun n => fold_left (fun acc i => match rev (rhs (get_prod i)) with
                                        | x :: _ => N.lor acc (first_sym ls x)
                                        | [] => acc end) (prods_of n) 0%N) all_nterms.
Definition lasts : list N := Eval vm_compute in iter 20 last_step (map (fun _ => 0%N) all_nterms).
Definition lastset (x : sym) : N := first_sym lasts x.

(** pairs (a, b): a can end X and b can start Y for neighbours X Y in a right-hand side *)
Fixpoint adj_rhs (l : list sym) (a b : term) : bool :=
  match l with
  | X :: ((Y :: _) as l') =>
      (has (lastset X) (term_id a) && has (first Y) (term_id b)) || adj_rhs l' a b
  | _ => false
  end.

Definition adj_compute (a b : term) : bool :=
  existsb (fun p => adj_rhs (rhs (get_prod p)) a b) real_prods.

Definition adj_rows : list (list bool) := Eval vm_compute in
  map (fun a => map (adj_compute a) all_terms) all_terms.
Definition adj (a b : term) : bool :=
  nth (N.to_nat (term_id b)) (nth (N.to_nat (term_id a)) adj_rows []) false.

Definition chk_adj_table : bool :=
  forallb (fun a => forallb (fun b => Bool.eqb (adj a b) (adj_compute a b)) all_terms) all_terms.

Lemma adj_ok a b : adj_compute a b = true -> adj a b = true.
Proof.
  intros H.
  assert (C : forall a b, In a all_terms -> In b all_terms -> Bool.eqb (adj a b) (adj_compute a b) = true).
  { apply (forallb2_In (fun a b => Bool.eqb (adj a b) (adj_compute a b))). vm_compute. reflexivity. }
  specialize (C a b (all_terms_complete a) (all_terms_complete b)).
  apply Bool.eqb_prop in C. congruence.
Qed.

(** last terminal of a tree *)
Fixpoint ltok (t : ptree) : term :=
  match t with
  | Leaf k => ttype k
  | Node _ kids =>
    (fix go (l : list ptree) : term :=
       match l with [] => T_END | [k] => ltok k | _ :: l' => go l' end) kids
  end.

Definition chk_last : bool :=
  forallb (fun p => match rev (rhs (get_prod p)) with
                    | x :: _ => forall_terms (fun a => implb (has (lastset x) (term_id a))
                                        (has (lastset (NT (lhs (get_prod p)))) (term_id a)))
                    | [] => false
                    end) real_prods.
Lemma chk_last_ok : chk_last = true.
Proof. vm_compute. reflexivity. Qed.

(** the relation [R] holds between neighbours *)
Fixpoint chain (R : tok -> tok -> Prop) (l : list tok) : Prop :=
  match l with
  | x :: ((y :: _) as l') => R x y /\ chain R l'
  | _ => True
  end.

Lemma chain_app R a x y b : chain R (a ++ [x]) -> chain R (y :: b) -> R x y -> chain R (a ++ x :: y :: b).
Proof.
  induction a as [|z a IH]; intros H1 H2 H3.
  - cbn in *. auto.
  - cbn [app] in *. destruct a as [|w a]; cbn [app chain] in *; intuition.
Qed.

Definition Adj (x y : tok) : Prop := adj (ttype x) (ttype y) = true.

(** a tree's yield is nonempty, with first token in FIRST and last token in LAST *)
Definition edge (t : ptree) : Prop :=
  exists a l f r, yield t = f :: r /\ yield t = a ++ [l] /\
    has (first (root t)) (term_id (ttype f)) = true /\
    has (lastset (root t)) (term_id (ttype l)) = true.

Lemma has_last p x r a : 0 < p < nprods -> rev (rhs (get_prod p)) = x :: r ->
  has (lastset x) (term_id a) = true -> has (lastset (NT (lhs (get_prod p)))) (term_id a) = true.
Proof.
  intros Hp Hr Ha. pose proof chk_last_ok as H. unfold chk_last in H.
  rewrite forallb_forall in H. specialize (H p (in_real_prods _ Hp)).
  rewrite Hr in H. pose proof (forall_terms_spec _ H a) as H1. cbv beta in H1.
  rewrite Ha in H1. exact H1.
Qed.

Lemma adj_rhs_cons Z l a b : adj_rhs l a b = true -> adj_rhs (Z :: l) a b = true.
Proof.
  destruct l as [|s l]; [discriminate|]. intros H.
  change (adj_rhs (Z :: s :: l) a b)
    with ((has (lastset Z) (term_id a) && has (first s) (term_id b)) || adj_rhs (s :: l) a b)%bool.
  rewrite H. apply Bool.orb_true_r.
Qed.

Lemma adj_rhs_mem l a b X Y pre post :
  l = pre ++ X :: Y :: post -> has (lastset X) (term_id a) = true -> has (first Y) (term_id b) = true ->
  adj_rhs l a b = true.
Proof.
  revert l. induction pre as [|Z pre IH]; intros l -> Ha Hb.
  - cbn [app adj_rhs]. rewrite Ha, Hb. reflexivity.
  - cbn [app]. apply adj_rhs_cons. eapply IH; eauto.
Qed.

Lemma kids_chain p : 0 < p < nprods -> forall kids pre,
  rhs (get_prod p) = pre ++ map root kids -> kids <> [] ->
  Forall (fun t => edge t /\ chain Adj (yield t)) kids ->
  exists a l f r, flat_map yield kids = f :: r /\ flat_map yield kids = a ++ [l] /\
    chain Adj (flat_map yield kids) /\
    match kids with k :: _ => has (first (root k)) (term_id (ttype f)) = true | [] => True end /\
    exists x q, rev (map root kids) = x :: q /\ has (lastset x) (term_id (ttype l)) = true.
Proof.
  intros Hp. induction kids as [|k kids IH]; intros pre Hr Hne HF; [congruence|].
  inversion HF as [|? ? [(a & l & f & r & E1 & E2 & E3 & E4) Hc] HF']; subst.
  cbn [flat_map map].
  destruct kids as [|k2 kids].
  - cbn [flat_map]. rewrite app_nil_r. exists a, l, f, r. repeat split; auto. cbn. eauto.
  - destruct (IH (pre ++ [root k])) as (a2 & l2 & f2 & r2 & F1 & F2 & F3 & F4 & x & q & F5 & F6); auto.
    { rewrite <- app_assoc. exact Hr. }
    { discriminate. }
    rewrite E1. exists (yield k ++ a2), l2, f, (r ++ flat_map yield (k2 :: kids)).
    split; [reflexivity|]. split; [rewrite <- E1, F2, app_assoc; reflexivity|].
    split; [|split; [exact E3|]].
    + rewrite <- E1, E2, F1, <- app_assoc. cbn [app]. apply chain_app.
      * now rewrite <- E2.
      * now rewrite <- F1.
      * unfold Adj. apply adj_ok. unfold adj_compute. apply existsb_exists. exists p.
        split; [now apply in_real_prods|].
        eapply (adj_rhs_mem _ _ _ (root k) (root k2) pre); [exact Hr|exact E4|exact F4].
    + cbn [map rev] in F5 |- *. rewrite F5. exists x, (q ++ [root k]). auto.
Qed.

Lemma wf_chain t : wf t -> edge t /\ chain Adj (yield t).
Proof.
  induction t as [k|p kids IH] using ptree_ind'; intros Hw.
  - split; [|exact I]. exists [], k, k, []. repeat split; apply has_bit.
  - inversion Hw as [|p' kids' Hp Hr Hk]; subst.
    assert (Hne : kids <> []).
    { intros ->. cbn in Hr. symmetry in Hr. now apply rhs_nonempty in Hr. }
    assert (HF : Forall (fun t => edge t /\ chain Adj (yield t)) kids).
    { rewrite Forall_forall in *. intros x Hx. apply IH; auto. }
    destruct (kids_chain p Hp kids [] (eq_sym Hr) Hne HF) as (a & l & f & r & F1 & F2 & F3 & F4 & x & q & F5 & F6).
    split; [|exact F3]. exists a, l, f, r. cbn [yield root]. repeat split; auto.
    + destruct kids as [|k kids]; [congruence|]. cbn [map] in Hr.
      eapply first_mono; eauto.
    + rewrite Hr in F5. eapply has_last; eauto.
Qed.

(** ** Text of tokens *)

Definition keyword_op (t : term) : bool :=
  match t with OR_OP | AND_OP | DIV_OP | MOD_OP => true | _ => false end.

(** the text [serialize] produces for a token *)
Definition tok_text (k : tok) : str :=
  match tval k with
  | VInt n => str_of_N n
  | VFloat f => repr_float f
  | VStr s => match ttype k with LITERAL => repr_str s | _ => s end
  end.

Definition tok_frag (k : tok) : list str :=
  if keyword_op (ttype k) then [u " "; tok_text k; u " "] else [tok_text k].

Definition frag_text (k : tok) : str := concat (tok_frag k).
Definition render (ts : list tok) : str := flat_map frag_text ts.

(** a string that the NCNAME rule consumes whole and that does not start with a digit *)
Definition name_ok (s : str) : bool :=
  match s with c :: _ => negb (is_digit c) | [] => false end &&
  match match_ncname s with Some (a, []) => str_eqb a s | _ => false end.

(** a literal that [repr] quotes without escaping anything *)
Definition lit_safe (s : str) : bool :=
  forallb (fun c => printable c && negb (N.eqb c bslash)) s && negb (memN q1 s && memN q2 s).

(** a float written positionally with at most 15 significant digits, in normal form *)
Definition float_ok (f : pyfloat) : bool :=
  match f with
  | FDec ip fp =>
    forallb (fun d => N.ltb d 10) (ip ++ fp) &&
    match float_of_digits [] ip fp with
    | FDec ip' fp' => str_eqb ip ip' && str_eqb fp fp'
    | _ => false
    end
  | _ => false
  end.

(** texts (fixed) of the operator and punctuation tokens *)
Definition fixed_texts (t : term) : list str :=
  match t with
  | PATH_SEP => [u "/"] | ABBREV_PATH_SEP => [u "//"] | ABBREV_STEP_SELF => [u "."]
  | ABBREV_STEP_PARENT => [u ".."] | AXIS_SEP => [u "::"] | ABBREV_AXIS_AT => [u "@"]
  | OPEN_PAREN => [u "("] | CLOSE_PAREN => [u ")"] | OPEN_BRACKET => [u "["]
  | CLOSE_BRACKET => [u "]"] | UNION_OP => [u "|"] | EQUAL_OP => [u "="; u "!="]
  | REL_OP => [u "<"; u "<="; u ">"; u ">="] | PLUS_OP => [u "+"] | MINUS_OP => [u "-"]
  | MULT_OP => [u "*"] | STAR_OP => [u "*"] | COMMA => [u ","] | COLON => [u ":"]
  | DOLLAR => [u "$"] | OR_OP => [u "or"] | AND_OP => [u "and"] | DIV_OP => [u "div"]
  | MOD_OP => [u "mod"]
  | _ => []
  end.

Definition tok_valid (k : tok) : bool :=
  match ttype k, tval k with
  | LITERAL, VStr s => lit_safe s
  | INTEGER, VInt n => true
  | FLOAT, VFloat f => float_ok f
  | (NCNAME | AXISNAME), VStr s => name_ok s
  | NODETYPE, VStr s => name_ok s && str_mem s NODE_TYPES
  | FUNCNAME, VStr s => name_ok s && negb (str_mem s NODE_TYPES)
  | T_END, _ => false
  | t, VStr s => str_mem s (fixed_texts t)
  | _, _ => false
  end.

(** the raw token the lexer makes of a token's text *)
Definition raw_of (k : tok) : tok :=
  mkTok (match ttype k with
         | OR_OP | AND_OP | DIV_OP | MOD_OP | NODETYPE | FUNCNAME | AXISNAME => NCNAME
         | MULT_OP => STAR_OP
         | t => t
         end) (tval k).

(** [c] does not extend the token before it *)
Definition sep_ok (k : tok) (c : N) : bool :=
  match ttype k with
  | NCNAME | NODETYPE | FUNCNAME | AXISNAME => negb (name_char c) && negb (N.eqb c 192)
  | INTEGER | ABBREV_STEP_SELF => negb (is_digit c) && negb (N.eqb c 46)
  | FLOAT => negb (is_digit c)
  | PATH_SEP => negb (N.eqb c 47)
  | COLON => negb (N.eqb c 58)
  | REL_OP => negb (N.eqb c 61)
  | _ => true
  end.

Definition sep_rest (k : tok) (rest : str) : Prop :=
  match rest with [] => True | c :: _ => sep_ok k c = true end.

(** *** names *)
Lemma ncname_rest_fuel f1 f2 s : length s <= f1 -> length s <= f2 -> ncname_rest f1 s = ncname_rest f2 s.
Proof.
  revert f2 s. induction f1 as [|f1 IH]; intros f2 s H1 H2.
  - destruct s; [|cbn in H1; lia]. destruct f2; reflexivity.
  - destruct s as [|c s]; [destruct f2; reflexivity|].
    destruct f2 as [|f2]; [cbn in H2; lia|]. cbn [ncname_rest].
    destruct (name_char c).
    + rewrite (IH f2 s); [reflexivity| |]; cbn in *; lia.
    + destruct (starts_with quirk (c :: s)) eqn:Q; [|reflexivity].
      rewrite (IH f2 (skipn 4 (c :: s))); [reflexivity| |]; rewrite skipn_length; cbn [length] in *; lia.
Qed.

Definition name_stop (rest : str) : Prop :=
  match rest with [] => True | c :: _ => name_char c = false /\ c <> 192%N end.

Lemma ncname_rest_stop f s a b : ncname_rest f s = (a, b) -> length s <= f ->
  match b with [] => True | c :: _ => name_char c = false /\ starts_with quirk b = false end.
Proof.
  revert s a b. induction f as [|f IH]; intros s a b H Hf; cbn [ncname_rest] in H.
  - destruct s; [|cbn in Hf; lia]. injection H as <- <-. exact I.
  - destruct s as [|c s]; [injection H as <- <-; exact I|].
    destruct (name_char c) eqn:Hc.
    + destruct (ncname_rest f s) as [a' b'] eqn:E. injection H as <- <-. eapply IH; [exact E|cbn in Hf; lia].
    + destruct (starts_with quirk (c :: s)) eqn:Q.
      * destruct (ncname_rest f (skipn 4 (c :: s))) as [a' b'] eqn:E.
        assert (b' = b) as -> by congruence.
        eapply IH; [exact E|]. rewrite skipn_length. cbn [length] in *; lia.
      * injection H as <- <-. auto.
Qed.

Lemma quirk_stop c r : c <> 192%N -> starts_with quirk (c :: r) = false.
Proof. intros H. apply N.eqb_neq in H. unfold quirk. cbn [starts_with]. first [now rewrite H | rewrite N.eqb_sym in H; now rewrite H]. Qed.

Lemma starts_with_app p a b : starts_with p a = true -> starts_with p (a ++ b) = true.
Proof. rewrite !starts_with_spec. intros [r ->]. exists (r ++ b). now rewrite app_assoc. Qed.

(** extending the text after a name that stops there *)
Lemma ncname_rest_ext : forall f s rest,
  length s <= f -> ncname_rest f s = (s, []) -> name_stop rest ->
  forall f', length (s ++ rest) <= f' -> ncname_rest f' (s ++ rest) = (s, rest).
Proof.
  induction f as [|f IH]; intros s rest Hf H Hr f' Hf'.
  - destruct s; [|cbn in Hf; lia]. cbn [app] in *.
    destruct rest as [|c rest]; [destruct f'; reflexivity|].
    destruct f' as [|f']; [cbn in Hf'; lia|]. cbn [ncname_rest].
    destruct Hr as [Hc Hq]. rewrite Hc, (quirk_stop _ _ Hq). reflexivity.
  - destruct s as [|c s].
    + cbn [app] in *. destruct rest as [|c rest]; [destruct f'; reflexivity|].
      destruct f' as [|f']; [cbn in Hf'; lia|]. cbn [ncname_rest].
      destruct Hr as [Hc Hq]. rewrite Hc, (quirk_stop _ _ Hq). reflexivity.
    + cbn [ncname_rest] in H. destruct f' as [|f']; [cbn in Hf'; lia|].
      destruct (name_char c) eqn:Hc.
      * cbn [app ncname_rest]. rewrite Hc.
        destruct (ncname_rest f s) as [a' b'] eqn:E.
        assert (a' = s /\ b' = []) as [-> ->] by (split; congruence).
        rewrite (IH s rest); [reflexivity|cbn in Hf; lia|exact E|exact Hr|cbn in Hf'; lia].
      * destruct (starts_with quirk (c :: s)) eqn:Q; [|discriminate].
        destruct (ncname_rest f (skipn 4 (c :: s))) as [a' b'] eqn:E.
        assert (Hab : quirk ++ a' = c :: s /\ b' = []) by (split; congruence).
        destruct Hab as [Hab ->].
        rewrite <- Hab in E, Hf, Hf' |- *. change (skipn 4 (quirk ++ a')) with a' in E.
        rewrite <- app_assoc. cbn [quirk app] in *. cbn [ncname_rest].
        change (name_char 192) with false. cbn [starts_with N.eqb andb].
        change (starts_with quirk (192%N :: 45%N :: 214%N :: 93%N :: a' ++ rest)) with true.
        cbn [skipn].
        rewrite (IH a' rest); [reflexivity|cbn in Hf; lia|exact E|exact Hr|].
        cbn in Hf'. rewrite !app_length in *. lia.
Qed.

Lemma match_ncname_ext s rest :
  match_ncname s = Some (s, []) -> name_stop rest -> match_ncname (s ++ rest) = Some (s, rest).
Proof.
  destruct s as [|c s]; [discriminate|]. cbn [match_ncname app]. intros H Hr.
  destruct (start_char c) eqn:Hc.
  - destruct (ncname_rest (length s) s) as [a b] eqn:E.
    assert (a = s /\ b = []) as [-> ->] by (split; congruence).
    rewrite (ncname_rest_ext (length s) s rest); auto.
  - destruct (starts_with quirk (c :: s)) eqn:Q; [|discriminate].
    change (c :: s ++ rest) with ((c :: s) ++ rest).
    rewrite (starts_with_app _ _ rest Q).
    destruct (ncname_rest (length (c :: s)) (skipn 4 (c :: s))) as [a b] eqn:E.
    assert (Hab : quirk ++ a = c :: s /\ b = []) by (split; congruence).
    destruct Hab as [Hab ->].
    rewrite <- Hab in E |- *. change (skipn 4 (quirk ++ a)) with a in E.
    rewrite <- app_assoc. change (skipn 4 (quirk ++ a ++ rest)) with (a ++ rest).
    rewrite (ncname_rest_ext (length (quirk ++ a)) a rest); auto.
    + rewrite app_length. lia.
    + rewrite !app_length. lia.
Qed.

Lemma name_first_not c s : name_ok (c :: s) = true ->
  is_digit c = false /\ (start_char c = true \/ c = 192%N).
Proof.
  unfold name_ok. intros H. apply andb_prop in H as [H1 H2]. apply negb_true_iff in H1.
  split; [exact H1|]. cbn [match_ncname] in H2.
  destruct (start_char c); [auto|]. destruct (starts_with quirk (c :: s)) eqn:Q; [|discriminate].
  right. apply starts_with_spec in Q as [r Hr]. cbn in Hr. congruence.
Qed.

Lemma start_char_not c x : start_char c = true -> start_char x = false -> N.eqb c x = false.
Proof. intros H1 H2. apply N.eqb_neq. intros ->. congruence. Qed.

Lemma raw_name s rest : name_ok s = true -> name_stop rest ->
  raw_token (s ++ rest) = RTok (mkTok NCNAME (VStr s)) rest.
Proof.
  intros H Hr. destruct s as [|c s]; [discriminate|].
  destruct (name_first_not _ _ H) as [Hd Hs].
  assert (Hn : forall x, start_char x = false -> x <> 192%N -> N.eqb c x = false).
  { intros x Hx Hx2. destruct Hs as [Hs| ->]; [now apply start_char_not|]. apply N.eqb_neq. congruence. }
  unfold name_ok in H. apply andb_prop in H as [_ H].
  destruct (match_ncname (c :: s)) as [[a [|? ?]]|] eqn:E; try discriminate.
  apply str_eqb_eq in H. subst a.
  pose proof (match_ncname_ext _ _ E Hr) as Em.
  unfold raw_token. cbn [app] in *. cbn [span].
  assert (is_ignored c = false) as ->.
  { unfold is_ignored. rewrite !Hn by (vm_compute; congruence). reflexivity. }
  cbn [snd]. unfold raw_at.
  assert (match_literal (c :: s ++ rest) = None) as ->.
  { unfold match_literal. unfold q1, q2. rewrite !Hn by (vm_compute; congruence). reflexivity. }
  assert (Hsp : span is_digit (c :: s ++ rest) = ([], c :: s ++ rest)) by (cbn [span]; now rewrite Hd).
  assert (match_float (c :: s ++ rest) = None) as ->.
  { unfold match_float. rewrite Hsp. rewrite !Hn by (vm_compute; congruence). reflexivity. }
  assert (match_integer (c :: s ++ rest) = None) as ->.
  { unfold match_integer. rewrite Hsp. reflexivity. }
  rewrite Em. reflexivity.
Qed.

(** *** literals *)
Lemma memN_false c s : memN c s = false <-> ~ In c s.
Proof.
  unfold memN. split.
  - intros H Hin. assert (existsb (N.eqb c) s = true) by (apply existsb_exists; exists c; split; [auto|apply N.eqb_refl]).
    congruence.
  - intros H. apply Bool.not_true_is_false. intros E. apply existsb_exists in E as (x & Hx & Ex).
    apply N.eqb_eq in Ex. subst. auto.
Qed.

Lemma memN_true c s : memN c s = true <-> In c s.
Proof.
  unfold memN. rewrite existsb_exists. split.
  - intros (x & Hx & Ex). apply N.eqb_eq in Ex. now subst.
  - intros H. exists c. split; [auto|apply N.eqb_refl].
Qed.

Lemma repr_quote_cases s : repr_quote s = q1 \/ repr_quote s = q2.
Proof. unfold repr_quote. destruct (_ && _)%bool; auto. Qed.

Lemma repr_char_plain q c : q = q1 \/ q = q2 -> c <> q -> c <> bslash -> printable c = true -> repr_char q c = [c].
Proof.
  intros Hq H1 H2 Hp. unfold repr_char.
  apply N.eqb_neq in H1, H2. rewrite H1, H2. cbn [orb].
  destruct (N.eqb_spec c 9) as [->|]; [discriminate|].
  destruct (N.eqb_spec c 10) as [->|]; [discriminate|].
  destruct (N.eqb_spec c 13) as [->|]; [discriminate|].
  now rewrite Hp.
Qed.

Lemma lit_safe_spec s : lit_safe s = true <->
  (forall c, In c s -> printable c = true /\ c <> bslash) /\ (In q1 s -> In q2 s -> False).
Proof.
  unfold lit_safe. rewrite andb_true_iff, forallb_forall. split.
  - intros [H1 H2]. split.
    + intros c Hc. specialize (H1 c Hc). apply andb_prop in H1 as [H1 H1']. split; [exact H1|].
      apply negb_true_iff, N.eqb_neq in H1'. exact H1'.
    + intros A B. apply memN_true in A, B. rewrite A, B in H2. discriminate.
  - intros [H1 H2]. split.
    + intros c Hc. destruct (H1 c Hc) as [A B]. rewrite A. apply N.eqb_neq in B. now rewrite B.
    + apply negb_true_iff. apply Bool.not_true_is_false. intros E. apply andb_prop in E as [A B].
      apply memN_true in A, B. auto.
Qed.

Lemma lit_safe_quote s : lit_safe s = true -> ~ In (repr_quote s) s.
Proof.
  intros H. apply lit_safe_spec in H as [_ H]. unfold repr_quote.
  destruct (memN q1 s) eqn:E1; cbn [andb].
  - destruct (memN q2 s) eqn:E2; cbn [negb].
    + apply memN_true in E1, E2. tauto.
    + now apply memN_false.
  - now apply memN_false.
Qed.

Lemma repr_plain s : lit_safe s = true -> repr_str s = [repr_quote s] ++ s ++ [repr_quote s].
Proof.
  intros H. unfold repr_str. f_equal. f_equal.
  pose proof (lit_safe_quote s H) as Hq. apply lit_safe_spec in H as [H _].
  set (q := repr_quote s) in *. assert (Hqq : q = q1 \/ q = q2) by apply repr_quote_cases. clearbody q.
  induction s as [|c s IH]; [reflexivity|]. cbn [flat_map].
  rewrite repr_char_plain; auto.
  - cbn [app]. f_equal. apply IH; [intros c' Hc'; apply H; now right|intros Hin; apply Hq; now right].
  - intros ->. apply Hq. now left.
  - apply H. now left.
  - apply H. now left.
Qed.

Lemma raw_skip c s : is_ignored c = false -> raw_token (c :: s) = raw_at (c :: s).
Proof. intros H. unfold raw_token. cbn [span]. now rewrite H. Qed.

Lemma raw_lit s rest : lit_safe s = true ->
  raw_token (repr_str s ++ rest) = RTok (mkTok LITERAL (VStr s)) rest.
Proof.
  intros H. rewrite (repr_plain s H). pose proof (lit_safe_quote s H) as Hq.
  set (q := repr_quote s) in *. assert (Hqq : q = q1 \/ q = q2) by apply repr_quote_cases. clearbody q.
  rewrite <- !app_assoc. cbn [app].
  rewrite raw_skip by (destruct Hqq as [-> | ->]; reflexivity).
  unfold raw_at, match_literal.
  assert ((N.eqb q q1 || N.eqb q q2)%bool = true) as -> by (destruct Hqq as [-> | ->]; reflexivity).
  rewrite (span_all _ s (q :: rest)); [reflexivity| |].
  - apply forallb_forall. intros c Hc. apply negb_true_iff, N.eqb_neq. intros ->. auto.
  - cbn. now rewrite N.eqb_refl.
Qed.

(** *** numbers *)
Lemma digit_val_ascii d : (d < 10)%N -> digit_val (48 + d) = Some d.
Proof.
  intros H. assert (Hc : In d [0;1;2;3;4;5;6;7;8;9]%N) by (cbn; lia).
  cbn [In] in Hc. repeat (destruct Hc as [<-|Hc]; [vm_compute; reflexivity|]). contradiction.
Qed.

Lemma is_digit_ascii d : (d < 10)%N -> is_digit (48 + d) = true.
Proof. intros H. unfold is_digit. now rewrite digit_val_ascii. Qed.

Lemma not_ignored_digit d : (d < 10)%N -> is_ignored (48 + d) = false.
Proof.
  intros H. unfold is_ignored. rewrite !(proj2 (N.eqb_neq _ _)) by lia. reflexivity.
Qed.

Lemma digit_vals_map l : Forall (fun d => (d < 10)%N) l -> digit_vals (map (N.add 48) l) = l.
Proof.
  unfold digit_vals. rewrite map_map. induction 1 as [|d l Hd _ IH]; [reflexivity|].
  cbn [map]. rewrite digit_val_ascii by exact Hd. now rewrite IH.
Qed.

Lemma digits_forallb l : Forall (fun d => (d < 10)%N) l -> forallb is_digit (map (N.add 48) l) = true.
Proof.
  induction 1 as [|d l Hd _ IH]; [reflexivity|]. cbn [map forallb]. now rewrite is_digit_ascii, IH.
Qed.

Definition digit_stop (rest : str) : Prop :=
  match rest with [] => True | c :: _ => is_digit c = false end.

Lemma lit_none_digit d s : (d < 10)%N -> match_literal ((48 + d)%N :: s) = None.
Proof.
  intros H. unfold match_literal, q1, q2. rewrite !(proj2 (N.eqb_neq _ _)) by lia. reflexivity.
Qed.

Lemma raw_int n rest :
  match rest with [] => True | c :: _ => is_digit c = false /\ c <> 46%N end ->
  raw_token (str_of_N n ++ rest) = RTok (mkTok INTEGER (VInt n)) rest.
Proof.
  intros Hr. unfold str_of_N.
  pose proof (little_to_uint_nonnil n) as Hn.
  assert (Hf : Forall (fun d => (d < 10)%N) (digits_of_N n)).
  { apply Forall_forall. apply digits_of_N_lt. }
  pose proof (N_of_digits_of_N n) as HN.
  remember (digits_of_N n) as l eqn:El. clear El.
  destruct l as [|d l]; [congruence|]. inversion Hf as [|? ? Hd Hl]; subst.
  assert (Hs : span is_digit (map (N.add 48) (d :: l) ++ rest) = (map (N.add 48) (d :: l), rest)).
  { apply span_all; [now apply digits_forallb|]. destruct rest as [|c r]; [exact I|apply Hr]. }
  pose proof (digit_vals_map (d :: l) Hf) as Hv.
  set (ds := map (N.add 48) (d :: l)) in *.
  assert (Eds : exists r', ds = (48 + d)%N :: r') by (eexists; reflexivity).
  destruct Eds as [r' Eds]. rewrite Eds in *. cbn [app] in *.
  rewrite raw_skip by now apply not_ignored_digit.
  unfold raw_at. rewrite lit_none_digit by exact Hd.
  unfold match_float, match_integer. rewrite Hs.
  destruct rest as [|c rest].
  - now rewrite Hv.
  - destruct Hr as [_ Hc]. apply N.eqb_neq in Hc. rewrite Hc, Hv. reflexivity.
Qed.

Lemma strip0_or0 l : strip0 (or0 l) = strip0 l.
Proof. destruct l; reflexivity. Qed.
Lemma rstrip0_or0 l : rstrip0 (or0 l) = rstrip0 l.
Proof. destruct l; reflexivity. Qed.

Lemma float_of_digits_or0 lex ip fp ip' fp' : float_of_digits [] ip fp = FDec ip' fp' ->
  float_of_digits lex (or0 ip) (or0 fp) = FDec ip' fp'.
Proof.
  unfold float_of_digits. rewrite strip0_or0, rstrip0_or0.
  destruct (strip0 (rstrip0 (strip0 ip ++ rstrip0 fp))) as [|d l]; [auto|].
  repeat match goal with |- context [if ?b then _ else _] => destruct b end; auto; discriminate.
Qed.

Lemma float_ok_digits ip fp : float_ok (FDec ip fp) = true ->
  Forall (fun d => (d < 10)%N) (or0 ip) /\ Forall (fun d => (d < 10)%N) (or0 fp) /\
  forall lex, float_of_digits lex (or0 ip) (or0 fp) = FDec ip fp.
Proof.
  unfold float_ok. intros H. apply andb_prop in H as [H1 H2].
  rewrite forallb_forall in H1.
  assert (H0 : forall l, (forall d, In d l -> In d (ip ++ fp)) -> Forall (fun d => (d < 10)%N) (or0 l)).
  { intros l Hl. apply Forall_forall. intros d Hd. destruct l as [|x l].
    - cbn in Hd. destruct Hd as [<-|[]]. reflexivity.
    - apply N.ltb_lt. apply H1. apply Hl. exact Hd. }
  split; [|split].
  - apply H0. intros; apply in_or_app; auto.
  - apply H0. intros; apply in_or_app; auto.
  - intros lex. destruct (float_of_digits [] ip fp) as [ip' fp'| |] eqn:E; try discriminate.
    apply andb_prop in H2 as [A B]. apply str_eqb_eq in A, B. subst ip' fp'.
    now apply float_of_digits_or0.
Qed.

Lemma raw_float f rest : float_ok f = true -> digit_stop rest ->
  raw_token (repr_float f ++ rest) = RTok (mkTok FLOAT (VFloat f)) rest.
Proof.
  intros Hf Hr. destruct f as [ip fp| |]; try discriminate.
  destruct (float_ok_digits _ _ Hf) as (Hi & Hp & Hv).
  cbn [repr_float]. rewrite <- !app_assoc. cbn [app].
  change (map dch (or0 ip)) with (map (N.add 48) (or0 ip)).
  change (map dch (or0 fp)) with (map (N.add 48) (or0 fp)).
  remember (or0 ip) as a eqn:Ea. assert (Hne : a <> []) by (subst; destruct ip; discriminate).
  remember (or0 fp) as b eqn:Eb. clear Ea Eb.
  destruct a as [|d l]; [congruence|]. inversion Hi as [|? ? Hd Hl]; subst.
  assert (Hs : span is_digit (map (N.add 48) (d :: l) ++ 46%N :: map (N.add 48) b ++ rest)
             = (map (N.add 48) (d :: l), 46%N :: map (N.add 48) b ++ rest)).
  { apply span_all; [now apply digits_forallb|]. vm_compute. reflexivity. }
  assert (Hs2 : span is_digit (map (N.add 48) b ++ rest) = (map (N.add 48) b, rest)).
  { apply span_all; [now apply digits_forallb|]. exact Hr. }
  pose proof (digit_vals_map _ Hi) as Hvi. pose proof (digit_vals_map _ Hp) as Hvp.
  set (ds := map (N.add 48) (d :: l)) in *.
  assert (Eds : exists r', ds = (48 + d)%N :: r') by (eexists; reflexivity).
  destruct Eds as [r' Eds]. rewrite Eds in *. cbn [app] in *.
  rewrite raw_skip by now apply not_ignored_digit.
  unfold raw_at. rewrite lit_none_digit by exact Hd.
  unfold match_float. rewrite Hs. cbn [N.eqb Pos.eqb]. rewrite Hs2, Hvi, Hvp.
  now rewrite Hv.
Qed.

(** *** operators and punctuation *)
Definition opch (c : N) : bool :=
  negb (is_ignored c || N.eqb c q1 || N.eqb c q2 || is_digit c || start_char c || N.eqb c 192 || N.eqb c 46).

Lemma raw_opch c s : opch c = true ->
  raw_token (c :: s) = match match_op (c :: s) with
                       | Some (t, v, rest) => RTok (mkTok t (VStr v)) rest
                       | None => RErr
                       end.
Proof.
  unfold opch. rewrite negb_true_iff, !orb_false_iff. intros ((((((H1 & H2) & H3) & H4) & H5) & H6) & H7).
  rewrite raw_skip by exact H1. unfold raw_at, match_literal. rewrite H2, H3. cbn [orb].
  assert (Hs : span is_digit (c :: s) = ([], c :: s)) by (cbn [span]; now rewrite H4).
  unfold match_float, match_integer. rewrite Hs, H7.
  assert (match_ncname (c :: s) = None) as ->; [|reflexivity].
  cbn [match_ncname]. rewrite H5, quirk_stop; [reflexivity|]. now apply N.eqb_neq.
Qed.

Lemma raw_dot s : digit_stop s ->
  raw_token (46%N :: s) = match match_op (46%N :: s) with
                       | Some (t, v, rest) => RTok (mkTok t (VStr v)) rest
                       | None => RErr
                       end.
Proof.
  intros Hd. rewrite raw_skip by reflexivity. unfold raw_at.
  change (match_literal (46%N :: s)) with (@None (str * str)).
  assert (Hs : span is_digit (46%N :: s) = ([], 46%N :: s)) by reflexivity.
  assert (Hs2 : span is_digit s = ([], s)).
  { destruct s as [|c s]; [reflexivity|]. cbn [span]. cbn in Hd. now rewrite Hd. }
  unfold match_float, match_integer. rewrite Hs, Hs2. reflexivity.
Qed.

Lemma sep_digit c : is_digit c = false -> digit_stop [c].
Proof. auto. Qed.

Lemma raw_fixed t s rest : str_mem s (fixed_texts t) = true -> keyword_op t = false ->
  sep_rest (mkTok t (VStr s)) rest ->
  raw_token (s ++ rest) = RTok (raw_of (mkTok t (VStr s))) rest.
Proof.
  intros H Hk Hr. apply str_mem_In in H.
  unfold sep_rest, sep_ok in Hr; cbn [ttype] in Hr.
  destruct t; cbn [fixed_texts In] in H; try discriminate Hk; try contradiction.
  all: repeat (destruct H as [<-|H]); try contradiction.
  all: cbv [u map Ascii.N_of_ascii Ascii.N_of_digits list_ascii_of_string] ; cbn [app].
  all: try (rewrite raw_opch by reflexivity).
  all: try (rewrite raw_dot by (destruct rest as [|c rest]; [exact I|]; cbn [digit_stop];
              first [reflexivity | apply andb_prop in Hr as [Hr1 _]; now apply negb_true_iff in Hr1])).
  all: try reflexivity.
  all: destruct rest as [|c rest]; [reflexivity|].
  all: try (apply andb_prop in Hr as [_ Hr]).
  all: apply negb_true_iff in Hr; unfold match_op; cbv zeta; cbn [N.add N.mul];
       repeat match goal with |- context [ch ?x] => let y := eval vm_compute in (ch x) in change (ch x) with y end;
       rewrite ?Hr; reflexivity.
Qed.

(** every valid token is read back from its text *)
Lemma raw_valid k rest : tok_valid k = true -> sep_rest k rest ->
  (keyword_op (ttype k) = true -> name_stop rest) ->
  raw_token (tok_text k ++ rest) = RTok (raw_of k) rest.
Proof.
  destruct k as [t v]. intros Hv Hr Hk. unfold tok_text. cbn [ttype tval] in *.
  destruct v as [s|n|f].
  - assert (Hname : name_ok s = true -> name_stop rest ->
        raw_token (s ++ rest) = RTok (mkTok NCNAME (VStr s)) rest) by apply raw_name.
    assert (Hst : match t with NCNAME | NODETYPE | FUNCNAME | AXISNAME => True | _ => False end -> name_stop rest).
    { intros Ht. destruct rest as [|c rest]; [exact I|]. unfold sep_rest, sep_ok in Hr. cbn [ttype] in Hr.
      cbn [name_stop].
      destruct t; try contradiction; apply andb_prop in Hr as [A B]; apply negb_true_iff in A, B;
        apply N.eqb_neq in B; auto. }
    destruct t; try discriminate Hv;
    try (apply raw_fixed; [exact Hv|reflexivity|exact Hr]);
    try (apply raw_lit; exact Hv);
    try (apply Hname; [|apply Hst; exact I]; cbn [tok_valid ttype tval] in Hv;
         first [exact Hv | apply andb_prop in Hv as [Hv _]; exact Hv]).
    all: cbn [tok_valid ttype tval fixed_texts] in Hv; apply str_mem_In in Hv; cbn [In] in Hv;
         destruct Hv as [<-|[]]; apply Hname; [vm_compute; reflexivity|apply Hk; reflexivity].
  - destruct t; try discriminate Hv. apply raw_int.
    destruct rest as [|c rest]; [exact I|]. cbn in Hr. apply andb_prop in Hr as [A B].
    apply negb_true_iff in A, B. apply N.eqb_neq in B. auto.
  - destruct t; try discriminate Hv. apply raw_float; [exact Hv|].
    destruct rest as [|c rest]; [exact I|]. cbn in Hr. now apply negb_true_iff in Hr.
Qed.

(** ** Which neighbours are safe *)

(** how the text of a token of a given type starts *)
Inductive startc := SFix (l : list N) | SDigit | SName | SQuote.
Definition starts (t : term) : startc :=
  match t with
  | LITERAL => SQuote
  | INTEGER | FLOAT => SDigit
  | NCNAME | NODETYPE | FUNCNAME | AXISNAME => SName
  | OR_OP | AND_OP | DIV_OP | MOD_OP => SFix [32%N]
  | t => SFix (map (hd 0%N) (fixed_texts t))
  end.

Definition name_class (t : term) : bool :=
  match t with NCNAME | NODETYPE | FUNCNAME | AXISNAME => true | _ => false end.

Definition sep_types (a b : term) : bool :=
  if keyword_op a then true else      (* a blank follows *)
  match starts b with
  | SFix l => forallb (sep_ok (mkTok a (VStr []))) l
  | SDigit => negb (name_class a || match a with INTEGER | FLOAT | ABBREV_STEP_SELF => true | _ => false end)
  | SName => negb (name_class a)
  | SQuote => true
  end.

Lemma sep_ok_type a v w c : sep_ok (mkTok a v) c = sep_ok (mkTok a w) c.
Proof. reflexivity. Qed.

Lemma start_digit_excl c : start_char c = true -> name_char c = true.
Proof. intros H. unfold name_char. now rewrite H. Qed.

Lemma sep_types_ok a b s : sep_types (ttype a) (ttype b) = true -> tok_valid b = true ->
  keyword_op (ttype a) = false -> sep_rest a (frag_text b ++ s).
Proof.
  intros H Hb Ka. unfold sep_types in H. rewrite Ka in H.
  destruct a as [ta va]. destruct b as [tb vb]. cbn [ttype] in *.
  unfold frag_text, tok_frag. cbn [ttype].
  destruct vb as [x|n|f].
  - destruct (keyword_op tb) eqn:Kb.
    { assert (Es : starts tb = SFix [32%N]) by (destruct tb; try discriminate; reflexivity).
      rewrite Es in H. cbn [forallb] in H. apply andb_prop in H as [H _]. exact H. }
    cbn [concat]. rewrite app_nil_r. unfold tok_text. cbn [tval ttype].
    assert (Hfix : str_mem x (fixed_texts tb) = true -> starts tb = SFix (map (hd 0%N) (fixed_texts tb)) ->
       sep_rest {| ttype := ta; tval := va |} (x ++ s)).
    { intros Hx Es. rewrite Es in H. apply str_mem_In in Hx.
      rewrite forallb_forall in H. specialize (H (hd 0%N x) (in_map _ _ _ Hx)).
      destruct x as [|c x]; [|exact H].
      destruct tb; cbn in Hx; repeat (destruct Hx as [Hx|Hx]; try discriminate Hx); contradiction. }
    assert (Hn : name_ok x = true -> starts tb = SName -> sep_rest {| ttype := ta; tval := va |} (x ++ s)).
    { intros Hx Es. rewrite Es in H. destruct x as [|c x]; [discriminate|].
      destruct (name_first_not _ _ Hx) as [Hd Hs]. cbn [app sep_rest].
      assert (Hne : forall y, start_char y = false -> y <> 192%N -> N.eqb c y = false).
      { intros y Hy Hy2. destruct Hs as [Hs| ->]; [now apply start_char_not|]. apply N.eqb_neq. congruence. }
      unfold sep_ok. cbn [ttype].
      destruct ta; try reflexivity; try discriminate H;
        rewrite ?Hd, ?Hne by (vm_compute; congruence); reflexivity. }
    destruct tb; try discriminate Kb; try discriminate Hb;
      try (apply Hfix; [exact Hb|reflexivity]);
      try (apply Hn; [cbn [tok_valid ttype tval] in Hb; first [exact Hb | apply andb_prop in Hb as [Hb _]; exact Hb]|reflexivity]).
    (* LITERAL *)
    cbn [tok_valid ttype tval] in Hb. rewrite (repr_plain _ Hb).
    cbn [app sep_rest]. destruct (repr_quote_cases x) as [-> | ->]; destruct ta; vm_compute; reflexivity.
  - destruct tb; try discriminate Hb. cbn [keyword_op concat starts] in *. rewrite app_nil_r.
    unfold tok_text, str_of_N. cbn [tval].
    pose proof (little_to_uint_nonnil n) as Hn.
    destruct (digits_of_N n) as [|d l] eqn:E; [congruence|].
    cbn [map app sep_rest].
    assert (d < 10)%N by (apply (digits_of_N_lt n); rewrite E; now left).
    unfold sep_ok. cbn [ttype]. destruct ta; try reflexivity; try discriminate H;
      rewrite (proj2 (N.eqb_neq _ _)) by lia; reflexivity.
  - destruct tb; try discriminate Hb. cbn [keyword_op concat starts] in *. rewrite app_nil_r.
    unfold tok_text. cbn [tval]. cbn [tok_valid ttype tval] in Hb.
    destruct f as [ip fp| |]; try discriminate.
    destruct (float_ok_digits _ _ Hb) as (Hi & _). cbn [repr_float].
    destruct (or0 ip) as [|d l] eqn:E; [destruct ip; discriminate|].
    inversion Hi as [|? ? Hd _]; subst. cbn [map app sep_rest]. unfold dch.
    unfold sep_ok. cbn [ttype]. destruct ta; try reflexivity; try discriminate H;
      rewrite (proj2 (N.eqb_neq _ _)) by lia; reflexivity.
Qed.

(** type of a token from its predecessor and successor *)
Definition pre_ok (last : option term) (b : tok) : bool :=
  match ttype b with
  | MULT_OP | OR_OP | AND_OP | DIV_OP | MOD_OP => operand_before last
  | STAR_OP | FUNCNAME | NODETYPE | AXISNAME => negb (operand_before last)
  | NCNAME => negb (operand_before last) ||
              match operator_name (name_of (tval b)) with Some _ => false | None => true end
  | _ => true
  end.
Definition post_ok (a : term) (next : option term) : bool :=
  match a with
  | FUNCNAME | NODETYPE => match next with Some OPEN_PAREN => true | _ => false end
  | AXISNAME => match next with Some AXIS_SEP => true | _ => false end
  | NCNAME => match next with Some OPEN_PAREN | Some AXIS_SEP => false | _ => true end
  | _ => true
  end.

Fixpoint lexable (last : option term) (ts : list tok) : Prop :=
  match ts with
  | [] => True
  | a :: ts' =>
    tok_valid a = true /\ pre_ok last a = true /\
    post_ok (ttype a) (match ts' with b :: _ => Some (ttype b) | [] => None end) = true /\
    match ts' with b :: _ => sep_types (ttype a) (ttype b) = true | [] => True end /\
    lexable (Some (ttype a)) ts'
  end.

Lemma raws_skip s w : forallb is_ignored w = true -> raws (w ++ s) = raws s.
Proof.
  intros H. rewrite (raws_unfold (w ++ s)), (raws_unfold s).
  assert (E : raw_token (w ++ s) = raw_token s); [|now rewrite E].
  unfold raw_token. f_equal. induction w as [|c w IH]; [reflexivity|].
  cbn [forallb] in H. apply andb_prop in H as [H1 H2]. cbn [app span]. rewrite H1.
  specialize (IH H2). destruct (span is_ignored (w ++ s)). exact IH.
Qed.

Lemma raws_render last ts : lexable last ts -> raws (render ts) = (map raw_of ts, EndEof).
Proof.
  revert last. induction ts as [|a ts IH]; intros last H; [reflexivity|].
  destruct H as (Hv & _ & _ & Hs & H). specialize (IH _ H).
  cbn [render flat_map map]. change (flat_map frag_text ts) with (render ts).
  unfold frag_text, tok_frag. destruct (keyword_op (ttype a)) eqn:Ka.
  - cbn [concat]. rewrite app_nil_r. rewrite <- !app_assoc.
    rewrite raws_skip by reflexivity.
    rewrite raws_unfold.
    rewrite raw_valid; [|exact Hv| |].
    + rewrite raws_skip by reflexivity. rewrite IH. reflexivity.
    + unfold sep_rest, sep_ok. cbn. destruct (ttype a); try discriminate; reflexivity.
    + intros _. cbn. split; [reflexivity|discriminate].
  - cbn [concat]. rewrite app_nil_r. rewrite raws_unfold.
    rewrite raw_valid; [|exact Hv| |congruence].
    + now rewrite IH.
    + destruct ts as [|b ts]; [exact I|]. cbn [render flat_map].
      apply sep_types_ok; [exact Hs| |exact Ka]. cbn in H. tauto.
Qed.

Lemma peek_err_eof ts : peek_err ts EndEof = false.
Proof. induction ts as [|r ts IH]; [reflexivity|]. cbn. destruct (ttype r); auto. Qed.

Lemma name_type_raw k ts (x : tok) :
  post_ok (ttype k) (match ts with b :: _ => Some (ttype b) | [] => None end) = true ->
  (ttype k = NCNAME \/ ttype k = AXISNAME \/
   (ttype k = NODETYPE /\ str_mem (name_of (tval k)) NODE_TYPES = true) \/
   (ttype k = FUNCNAME /\ str_mem (name_of (tval k)) NODE_TYPES = false)) ->
  tval x = tval k ->
  name_type x (map raw_of ts) = ttype k.
Proof.
  intros Hp Hk Hx. unfold name_type. rewrite Hx.
  destruct ts as [|b ts]; cbn [map].
  - destruct Hk as [E|[E|[[E _]|[E _]]]]; rewrite E in *; try discriminate; reflexivity.
  - destruct Hk as [E|[E|[[E Em]|[E Em]]]]; rewrite E in *; cbn [post_ok] in Hp; unfold raw_of; cbn [ttype];
      try rewrite Em; destruct (ttype b); try discriminate; reflexivity.
Qed.

Lemma retype_render last ts : lexable last ts -> retype last (map raw_of ts) EndEof = (ts, EndEof).
Proof.
  revert last. induction ts as [|a ts IH]; intros last H; [reflexivity|].
  destruct H as (Hv & Hpre & Hpost & _ & H). specialize (IH _ H).
  cbn [map retype].
  assert (Hc : forall ty, ty = ttype a ->
    (let (ts0, e') := retype (Some ty) (map raw_of ts) EndEof in
      (mkTok ty (tval (raw_of a)) :: ts0, e')) = (a :: ts, EndEof)).
  { intros ty ->. rewrite IH. destruct a; reflexivity. }
  rewrite peek_err_eof.
  assert (Hop : forall o s, tval a = VStr s -> keyword_op o = true -> str_mem s (fixed_texts o) = true ->
     operator_name (name_of (tval (raw_of a))) = Some o).
  { intros o s Es Ho Hs. cbn [raw_of tval]. rewrite Es. cbn [name_of]. apply str_mem_In in Hs.
    destruct o; try discriminate Ho; cbn in Hs; destruct Hs as [<-|[]]; reflexivity. }
  destruct a as [t v]. cbn [raw_of ttype tval] in *.
  unfold pre_ok in Hpre. cbn [ttype tval] in Hpre.
  destruct t; cbn [ttype] in *; try (apply Hc; reflexivity); try discriminate Hv.
  - (* MULT *) rewrite Hpre. apply Hc. reflexivity.
  - (* STAR *) apply negb_true_iff in Hpre. rewrite Hpre. apply Hc. reflexivity.
  - (* NCNAME *)
    destruct (operand_before last).
    + cbn [negb orb] in Hpre. destruct (operator_name (name_of v)); [discriminate|]. apply Hc. reflexivity.
    + apply Hc. apply (name_type_raw (mkTok NCNAME v)); auto.
  - apply negb_true_iff in Hpre. rewrite Hpre. apply Hc.
    apply (name_type_raw (mkTok NODETYPE v)); auto. right; right; left. split; [reflexivity|].
    destruct v; try discriminate Hv. cbn in Hv. apply andb_prop in Hv as [_ Hv]. exact Hv.
  - apply negb_true_iff in Hpre. rewrite Hpre. apply Hc.
    apply (name_type_raw (mkTok FUNCNAME v)); auto. right; right; right. split; [reflexivity|].
    destruct v; try discriminate Hv. cbn in Hv. apply andb_prop in Hv as [_ Hv]. now apply negb_true_iff in Hv.
  - apply negb_true_iff in Hpre. rewrite Hpre. apply Hc.
    apply (name_type_raw (mkTok AXISNAME v)); auto.
  - rewrite Hpre. destruct v; try discriminate Hv. rewrite (Hop OR_OP s); auto.
  - rewrite Hpre. destruct v; try discriminate Hv. rewrite (Hop AND_OP s); auto.
  - rewrite Hpre. destruct v; try discriminate Hv. rewrite (Hop DIV_OP s); auto.
  - rewrite Hpre. destruct v; try discriminate Hv. rewrite (Hop MOD_OP s); auto.
Qed.

Lemma tokens_render last ts : lexable last ts -> tokens_from last (render ts) = (ts, EndEof).
Proof.
  intros H. rewrite tokens_from_spec, (raws_render last ts H). cbn [fst snd]. now apply retype_render.
Qed.

(** Neighbours that the grammar allows but that do not survive rendering and lexing: a lone '/'
    before '*' or an operator name (OPERATOR_FORCERS has PATH_SEP), a comma before '*', a node type,
    a function call or an axis (OPERATOR_FORCERS lacks COMMA), a name before '-' ('-' is a name
    character), and an operator name right after ',' or '$'. *)
Definition unsafe_types (a b : term) : bool :=
  match a, b with
  | PATH_SEP, (MULT_OP | OR_OP | AND_OP | DIV_OP | MOD_OP) => true
  | COMMA, (STAR_OP | NODETYPE | FUNCNAME | AXISNAME) => true
  | NCNAME, MINUS_OP => true
  | _, _ => false
  end.

Definition is_operator_name (k : tok) : bool :=
  match ttype k with
  | NCNAME => match operator_name (name_of (tval k)) with Some _ => true | None => false end
  | _ => false
  end.

Definition safe_pair (a b : tok) : bool :=
  negb (unsafe_types (ttype a) (ttype b)) &&
  negb (match ttype a with COMMA | DOLLAR => is_operator_name b | _ => false end).

Fixpoint lex_safe (ts : list tok) : bool :=
  match ts with
  | a :: ((b :: _) as r) => safe_pair a b && lex_safe r
  | _ => true
  end.

Lemma adj_safe a b : adj a b = true -> unsafe_types a b = false ->
  sep_types a b = true /\ post_ok a (Some b) = true /\
  match b with
  | MULT_OP | OR_OP | AND_OP | DIV_OP | MOD_OP => operand_before (Some a) = true
  | STAR_OP | FUNCNAME | NODETYPE | AXISNAME => operand_before (Some a) = false
  | NCNAME => operand_before (Some a) = false \/ a = COMMA \/ a = DOLLAR
  | _ => True
  end.
Proof.
  intros H1 H2.
  assert (C : forall a b, In a all_terms -> In b all_terms ->
    implb (adj a b && negb (unsafe_types a b))
     (sep_types a b && post_ok a (Some b) &&
      match b with
      | MULT_OP | OR_OP | AND_OP | DIV_OP | MOD_OP => operand_before (Some a)
      | STAR_OP | FUNCNAME | NODETYPE | AXISNAME => negb (operand_before (Some a))
      | NCNAME => negb (operand_before (Some a)) || term_eqb a COMMA || term_eqb a DOLLAR
      | _ => true
      end)%bool = true).
  { apply (forallb2_In (fun a b => implb (adj a b && negb (unsafe_types a b))
     (sep_types a b && post_ok a (Some b) &&
      match b with
      | MULT_OP | OR_OP | AND_OP | DIV_OP | MOD_OP => operand_before (Some a)
      | STAR_OP | FUNCNAME | NODETYPE | AXISNAME => negb (operand_before (Some a))
      | NCNAME => negb (operand_before (Some a)) || term_eqb a COMMA || term_eqb a DOLLAR
      | _ => true
      end)%bool)). vm_compute. reflexivity. }
  specialize (C a b (all_terms_complete a) (all_terms_complete b)).
  rewrite H1, H2 in C. cbn [andb negb implb] in C.
  apply andb_prop in C as [C C3]. apply andb_prop in C as [C1 C2].
  split; [exact C1|]. split; [exact C2|].
  destruct b; try exact I; try exact C3; try (now apply negb_true_iff).
  apply orb_prop in C3 as [C3|C3]; [apply orb_prop in C3 as [C3|C3]|].
  - left. now apply negb_true_iff.
  - right; left. now apply term_eqb_eq.
  - right; right. now apply term_eqb_eq.
Qed.

Lemma safe_pre a b : Adj a b -> safe_pair a b = true -> pre_ok (Some (ttype a)) b = true.
Proof.
  unfold Adj, safe_pair. intros H1 H. apply andb_prop in H as [H2 H3].
  apply negb_true_iff in H2, H3.
  destruct (adj_safe _ _ H1 H2) as (_ & _ & H4). unfold pre_ok.
  unfold is_operator_name in H3.
  destruct (ttype b); try reflexivity; try exact H4; try (now apply negb_true_iff).
  destruct (operand_before (Some (ttype a))); [|reflexivity]. cbn [negb orb].
  destruct H4 as [H4|[H4|H4]]; [discriminate| |]; rewrite H4 in H3;
    destruct (operator_name _); try discriminate; reflexivity.
Qed.

Lemma lexable_chain last ts : ts <> [] -> chain Adj ts -> lex_safe ts = true -> forallb tok_valid ts = true ->
  pre_ok last (hd (mkTok T_END (VStr [])) ts) = true ->
  (forall a l, ts = a ++ [l] -> post_ok (ttype l) None = true) ->
  lexable last ts.
Proof.
  revert last. induction ts as [|a ts IH]; intros last Hne Hc Hs Hv Hpre Hlast; [congruence|].
  cbn [forallb] in Hv. apply andb_prop in Hv as [Hva Hv]. cbn [hd] in Hpre.
  destruct ts as [|b ts].
  - cbn [lexable]. repeat split; auto. apply (Hlast [] a). reflexivity.
  - cbn [chain] in Hc. destruct Hc as [Hab Hc]. cbn [lex_safe] in Hs. apply andb_prop in Hs as [Hsab Hs].
    pose proof Hsab as Hsab'. unfold safe_pair in Hsab'. apply andb_prop in Hsab' as [Hu _].
    apply negb_true_iff in Hu. destruct (adj_safe _ _ Hab Hu) as (S1 & S2 & _).
    change (lexable last (a :: b :: ts)) with
      (tok_valid a = true /\ pre_ok last a = true /\ post_ok (ttype a) (Some (ttype b)) = true /\
       sep_types (ttype a) (ttype b) = true /\ lexable (Some (ttype a)) (b :: ts)).
    do 4 (split; [assumption|]).
    apply IH; auto.
    + discriminate.
    + cbn [hd]. now apply safe_pre.
    + intros x l El. apply (Hlast (a :: x) l). cbn. now rewrite El.
Qed.

(** the tokens of any derivation, rendered and lexed again *)
Lemma tokens_render_wf t : wf t -> root t = NT Expr -> forallb tok_valid (yield t) = true ->
  lex_safe (yield t) = true -> tokens (render (yield t)) = (yield t, EndEof).
Proof.
  intros Hw Hr Hv Hs. apply tokens_render.
  destruct (wf_chain t Hw) as [(a & l & f & r & E1 & E2 & E3 & E4) Hc].
  rewrite Hr in E3, E4.
  apply lexable_chain; auto.
  - rewrite E1. discriminate.
  - rewrite E1. cbn [hd]. unfold pre_ok.
    assert (Hf : match ttype f with MULT_OP | OR_OP | AND_OP | DIV_OP | MOD_OP => False | _ => True end).
    { destruct (ttype f); try exact I; vm_compute in E3; discriminate. }
    destruct (ttype f); try reflexivity; contradiction.
  - intros x l' El. rewrite E2 in El. apply app_inj_tail in El as [_ ->].
    destruct (ttype l'); try reflexivity; vm_compute in E4; discriminate.
Qed.
