(** Calls of parse from several threads: C80. *)
From Coq Require Import String List Arith Lia.
From Verif Require Import XPathSpec XPathParseProofs XPathParser XPathLexProofs XPathMisc XPathThreads.
Import ListNotations.

(** ** Specification *)
Definition is_running (S : system) (i : nat) : Prop := exists st la, nth_error (snd S) i = Some (Running st la).
Definition result_of (S : system) (i : nat) (r : result) : Prop := nth_error (snd S) i = Some (Finished r).
(** no call begins while another one is running *)
Definition one_at_a_time (texts : list str) (sch : list nat) : Prop :=
  forall past future, sch = past ++ future -> forall i j, is_running (exec past (start texts)) i -> is_running (exec past (start texts)) j -> i = j.

(** ** one call alone does what [parse_with] says *)
Lemma tokens_from_unfold last s : tokens_from last s =
  match wtoken (length s) last s with
  | LFuel => ([], EndFuel) | LErr => ([], EndErr) | LEof => ([], EndEof)
  | LTok t rest => let (ts, e) := tokens_from (Some (ttype t)) rest in (t :: ts, e)
  end.
Proof.
  unfold tokens_from at 1. cbn [lex_all]. destruct (wtoken (length s) last s) as [t rest| | |] eqn:E; try reflexivity.
  rewrite tokens_from_spec. rewrite lex_all_spec; [reflexivity|]. rewrite wtoken_spec in E by lia. destruct (raw_token s) as [t0 r0| |] eqn:Er; try discriminate. apply raw_token_len in Er.
  assert (rest = r0) as ->; [|exact Er]. destruct (ttype t0); try (injection E as _ <-; reflexivity). destruct (operand_before last); [injection E as _ <-; reflexivity|]. destruct (peek_err _ _); [discriminate|]. now injection E as _ <-.
Qed.
Definition outcome_pair (o : outcome) (last : option term) : result * option term :=
  match o with
  | Parsed t l => (match eval t with Some (SExpr x) => Ok x | _ => Stuck end, l)
  | SyntaxError l => (RaiseRuntimeError, l)
  | LexError l => (RaiseTypeError, l)
  | OutOfFuel => (Stuck, last)
  end.
Definition R (st : list (nat * ptree)) (la : option (option tok)) (L : lexer) (e : lexend) (c : config) : Prop :=
  stk c = st /\
  match la with
  | None => tokens_from (l_last L) (l_rest L) = (inp c, e) /\ lastp c = l_last L
  | Some (Some t) => exists ts, tokens_from (l_last L) (l_rest L) = (ts, e) /\ inp c = t :: ts /\ l_last L = Some (ttype t)
  | Some None => inp c = [] /\ e = EndEof /\ l_last L = None
  end.
Lemma simulates st la L e c x L' : R st la L e c -> advance (Running st la) L = (x, L') ->
  match x with
  | Waiting _ => False
  | Running st' la' => R st' la' L' e c \/ exists c', step e c = inl c' /\ R st' la' L' e c'
  | Finished r => exists o, step e c = inr o /\ (o <> OutOfFuel -> outcome_pair o None = (r, l_last L'))
  end.
Proof.
  intros [Hst HR]. destruct c as [st0 i pk lp]. cbn [stk inp lastp] in *. subst st0. cbn [advance]. unfold step. cbn [stk inp lastp peeked].
  destruct (defaulted (top_state st)) as [p|].
  { unfold after_reduce. destruct (reduce_by p st) as [st'|]; intros [= <- <-].
    - right. eexists. split; [reflexivity|]. split; [reflexivity|exact HR].
    - exists OutOfFuel. split; [reflexivity|congruence]. }
  destruct la as [x0|].
  - intros [= <- <-]. destruct x0 as [t|].
    + destruct HR as (ts & Ht & -> & Hl). cbv zeta. destruct (action_at (top_state st) (ttype t)) as [[s|p|]|].
      * right. eexists. split; [reflexivity|]. split; [reflexivity|]. cbn. auto.
      * unfold after_reduce. destruct (reduce_by p st) as [st'|].
        -- right. eexists. split; [reflexivity|]. split; [reflexivity|]. cbn. eauto.
        -- eexists. split; [reflexivity|congruence].
      * unfold accept_result. destruct st as [|[s t'] st']; eexists; (split; [reflexivity|]); [congruence|]. intros _. cbn. now rewrite Hl.
      * eexists. split; [reflexivity|]. cbn. now rewrite Hl.
    + destruct HR as (-> & -> & Hl). cbv zeta. destruct (action_at (top_state st) T_END) as [[s|p|]|].
      * eexists. split; [reflexivity|congruence].
      * unfold after_reduce. destruct (reduce_by p st) as [st'|].
        -- right. eexists. split; [reflexivity|]. split; [reflexivity|]. cbn. eauto.
        -- eexists. split; [reflexivity|congruence].
      * unfold accept_result. destruct st as [|[s t'] st']; eexists; (split; [reflexivity|]); [congruence|]. intros _. cbn. now rewrite Hl.
      * eexists. split; [reflexivity|]. cbn. now rewrite Hl.
  - destruct HR as [Ht Hl]. rewrite tokens_from_unfold in Ht. destruct (wtoken _ _ _) as [t rest| | |]; intros [= <- <-].
    + left. split; [reflexivity|]. cbn [l_last l_rest inp]. destruct (tokens_from (Some (ttype t)) rest) as [ts e']. injection Ht as <- <-. eauto.
    + left. split; [reflexivity|]. injection Ht as <- <-. auto.
    + injection Ht as <- <-. eexists. split; [reflexivity|]. cbn. now rewrite Hl.
    + injection Ht as <- <-. eexists. split; [reflexivity|congruence].
Qed.
Lemma parse_with_pair last s : forall ts e, tokens_from last s = (ts, e) -> parse_with last s = outcome_pair (parse_tokens last ts e) last.
Proof. intros ts e H. unfold parse_with. rewrite H. destruct (parse_tokens last ts e); reflexivity. Qed.
Lemma run_outcome last s ts e n c o : tokens_from last s = (ts, e) -> (forall m, run (n + m) e (mkConfig [] ts false last) = run m e c) -> step e c = inr o ->
  o <> OutOfFuel /\ parse_tokens last ts e = o.
Proof.
  intros Ht Hr Ho. pose proof (tokens_from_ok last s) as Hf. pose proof (tokens_from_end last s) as He. rewrite Ht in Hf, He. cbn [fst snd] in *.
  pose proof (parse_tokens_total last ts e (fin_no_end _ Hf) He) as T. unfold parse_tokens in *. set (c0 := mkConfig [] ts false last) in *.
  assert (A : forall m, n + 1 <= m -> run m e c0 = o). { intros m Hm. replace m with (n + S (m - n - 1)) by lia. rewrite Hr. cbn [run]. now rewrite Ho. }
  destruct (run (parse_fuel ts) e c0) as [t l|l|l|] eqn:Er; [| | |destruct T]; (assert (B : run (parse_fuel ts + n + 1) e c0 = o) by (apply A; lia); rewrite (run_mono _ _ _ _ Er) in B; [|discriminate|lia]); (split; [rewrite <- B; discriminate|exact B]).
Qed.

(** ** calls that do not overlap *)
Definition inv_sys (texts : list str) (S : system) : Prop := exists h, incl h texts /\
  (forall i r, nth_error (snd S) i = Some (Finished r) -> exists h1 s, incl h1 texts /\ nth_error texts i = Some s /\ r = fst (parse_with (parse_history None h1) s)) /\
  (forall i s, nth_error (snd S) i = Some (Waiting s) -> nth_error texts i = Some s) /\
  (((forall i, ~ is_running S i) /\ l_last (fst S) = parse_history None h) \/
   (exists i st la s ts e n c, nth_error (snd S) i = Some (Running st la) /\ nth_error texts i = Some s /\ (forall j, is_running S j -> j = i) /\
      tokens_from (parse_history None h) s = (ts, e) /\ (forall m, run (n + m) e (mkConfig [] ts false (parse_history None h)) = run m e c) /\ R st la (fst S) e c)).
Lemma set_nth_same i c l x : nth_error l i = Some x -> nth_error (set_nth_call i c l) i = Some c.
Proof. revert l. induction i as [|i IH]; intros [|y l] H; cbn in *; try discriminate; auto. Qed.
Lemma set_nth_other i j c l : i <> j -> nth_error (set_nth_call i c l) j = nth_error l j.
Proof. revert j l. induction i as [|i IH]; intros [|j] [|y l] H; cbn in *; try reflexivity; [congruence|]. apply IH. congruence. Qed.
Lemma history_snoc h s last : parse_history last (h ++ [s]) = snd (parse_with (parse_history last h) s).
Proof. revert last. induction h as [|x h IH]; intros last; cbn [app parse_history]; [reflexivity|]. apply IH. Qed.
Lemma turn_inv texts S i : inv_sys texts S -> (forall a b, is_running (turn i S) a -> is_running (turn i S) b -> a = b) -> inv_sys texts (turn i S).
Proof.
  intros (h & Hh & Hf & Hw & Hr) Hex. unfold turn in *. destruct (nth_error (snd S) i) as [c|] eqn:Hi; [|exists h; auto].
  destruct (advance c (fst S)) as [c' L'] eqn:Ha. destruct c as [s|st la|r].
  - cbn in Ha. injection Ha as <- <-. destruct Hr as [[Hn Hl]|(j & st & la & s' & ts & e & n & c & Hj & Hs' & Hu & _)].
    2:{ exfalso. assert (j = i); [|congruence]. apply Hex; unfold is_running; cbn [snd].
        - exists st, la. rewrite set_nth_other; [exact Hj|congruence].
        - exists [], None. eapply set_nth_same; eauto. }
    destruct (tokens_from (parse_history None h) s) as [ts e] eqn:Ht. exists h. split; [exact Hh|]. cbn [fst snd]. split; [|split].
    + intros k r Hk. destruct (Nat.eq_dec i k) as [<-|Hne]; [rewrite (set_nth_same _ _ _ _ Hi) in Hk; discriminate|]. rewrite set_nth_other in Hk by assumption. eauto.
    + intros k s' Hk. destruct (Nat.eq_dec i k) as [<-|Hne]; [rewrite (set_nth_same _ _ _ _ Hi) in Hk; discriminate|]. rewrite set_nth_other in Hk by assumption. eauto.
    + right. exists i, [], None, s, ts, e, 0, (mkConfig [] ts false (parse_history None h)). split; [eapply set_nth_same; eauto|]. split; [eauto|]. split; [|split; [exact Ht|split; [reflexivity|]]].
      * intros j (st & la & Hj). cbn [snd] in Hj. destruct (Nat.eq_dec i j) as [<-|Hne]; [reflexivity|]. rewrite set_nth_other in Hj by assumption. exfalso. apply (Hn j). now exists st, la.
      * split; [reflexivity|]. cbn [l_last l_rest inp lastp]. now rewrite Hl.
  - destruct Hr as [[Hn _]|(j & st0 & la0 & s & ts & e & n & c & Hj & Hs & Hu & Ht & Hrun & HR)]; [exfalso; apply (Hn i); now exists st, la|].
    assert (i = j) by (apply Hu; now exists st, la). subst j. rewrite Hi in Hj. injection Hj as <- <-. pose proof (simulates _ _ _ _ _ _ _ HR Ha) as Sim. destruct c' as [s'|st' la'|r].
    + destruct Sim.
    + exists h. split; [exact Hh|]. cbn [fst snd]. split; [|split].
      * intros k r Hk. destruct (Nat.eq_dec i k) as [<-|Hne]; [rewrite (set_nth_same _ _ _ _ Hi) in Hk; discriminate|]. rewrite set_nth_other in Hk by assumption. eauto.
      * intros k s' Hk. destruct (Nat.eq_dec i k) as [<-|Hne]; [rewrite (set_nth_same _ _ _ _ Hi) in Hk; discriminate|]. rewrite set_nth_other in Hk by assumption. eauto.
      * right. assert (G : exists n' c', (forall m, run (n' + m) e (mkConfig [] ts false (parse_history None h)) = run m e c') /\ R st' la' L' e c').
        { destruct Sim as [Sim|(c' & Hstep & Sim)]; [eauto|]. exists (n + 1), c'. split; [|exact Sim]. intros m. rewrite <- Nat.add_assoc, Hrun. cbn [Nat.add run]. now rewrite Hstep. }
        destruct G as (n' & c' & G1 & G2). exists i, st', la', s, ts, e, n', c'. split; [eapply set_nth_same; eauto|]. split; [exact Hs|]. split; [|auto].
        intros j (st1 & la1 & Hj). cbn [snd] in Hj. destruct (Nat.eq_dec i j) as [<-|Hne]; [reflexivity|]. rewrite set_nth_other in Hj by assumption. apply Hu. now exists st1, la1.
    + destruct Sim as (o & Hstep & Ho). destruct (run_outcome _ _ _ _ _ _ _ Ht Hrun Hstep) as [Hne Hp]. specialize (Ho Hne).
      assert (Hpw : parse_with (parse_history None h) s = (r, l_last L')). { rewrite (parse_with_pair _ _ _ _ Ht), Hp. rewrite <- Ho. destruct o; try reflexivity. congruence. }
      exists (h ++ [s]). split; [apply incl_app; [exact Hh|]; intros x [<-|[]]; eapply nth_error_In; eauto|]. cbn [fst snd]. split; [|split].
      * intros k r' Hk. destruct (Nat.eq_dec i k) as [<-|Hnk]; [|rewrite set_nth_other in Hk by assumption; eauto]. rewrite (set_nth_same _ _ _ _ Hi) in Hk. injection Hk as <-. exists h, s. split; [exact Hh|]. split; [exact Hs|]. now rewrite Hpw.
      * intros k s' Hk. destruct (Nat.eq_dec i k) as [<-|Hnk]; [rewrite (set_nth_same _ _ _ _ Hi) in Hk; discriminate|]. rewrite set_nth_other in Hk by assumption. eauto.
      * left. split; [|rewrite history_snoc, Hpw; reflexivity]. intros j (st1 & la1 & Hj). cbn [snd] in Hj. destruct (Nat.eq_dec i j) as [<-|Hnj]; [rewrite (set_nth_same _ _ _ _ Hi) in Hj; discriminate|]. rewrite set_nth_other in Hj by assumption. apply Hnj. symmetry. apply Hu. now exists st1, la1.
  - cbn in Ha. injection Ha as <- <-. assert (Heq : set_nth_call i (Finished r) (snd S) = snd S).
    { clear -Hi. revert Hi. generalize (snd S). induction i as [|i IH]; intros [|y l] H; cbn in *; try discriminate; [now injection H as ->|]. now rewrite IH. }
    rewrite Heq. destruct S as [L cs]. cbn [fst snd] in *. exists h. auto.
Qed.
Lemma exec_snoc a i S : exec (a ++ [i]) S = turn i (exec a S).
Proof. revert S. induction a as [|x a IH]; intros S; cbn; auto. Qed.
Lemma serial_inv texts sch : one_at_a_time texts sch -> inv_sys texts (exec sch (start texts)).
Proof.
  induction sch as [|i sch IH] using rev_ind; intros H.
  - exists []. split; [intros x []|]. cbn. split; [|split].
    + intros i r Hi. apply nth_error_In, in_map_iff in Hi as (s & Hs & _). discriminate.
    + intros i s Hi. rewrite nth_error_map in Hi. destruct (nth_error texts i) as [x|]; [|discriminate]. cbn in Hi. now injection Hi as ->.
    + left. split; [|reflexivity]. intros i (st & la & Hi). cbn in Hi. apply nth_error_In, in_map_iff in Hi as (s & Hs & _). discriminate.
  - rewrite exec_snoc. apply turn_inv.
    + apply IH. intros a b E. apply (H a (b ++ [i])). now rewrite E, app_assoc.
    + rewrite <- exec_snoc. apply (H (sch ++ [i]) []). now rewrite app_nil_r.
Qed.
(** every finished call has the result it would have after some of the other calls were made one after the other ... *)
Theorem C80_serial : forall texts sch i r, one_at_a_time texts sch -> result_of (exec sch (start texts)) i r ->
  exists earlier s, incl earlier texts /\ nth_error texts i = Some s /\ r = fst (parse_with (parse_history None earlier) s).
Proof. intros texts sch i r H Hr. destruct (serial_inv texts sch H) as (h & _ & Hf & _). exact (Hf i r Hr). Qed.
(** ... that is, if all texts are XPaths: its own *)
Theorem C80_serial_parse : forall texts sch i r, (forall s, In s texts -> exists e, parse s = Ok e) -> one_at_a_time texts sch -> result_of (exec sch (start texts)) i r ->
  exists s, nth_error texts i = Some s /\ r = parse s.
Proof.
  intros texts sch i r Hok H Hr. destruct (C80_serial texts sch i r H Hr) as (h & s & Hh & Hs & ->). exists s. split; [exact Hs|]. apply history_independent.
  assert (G : forall h, incl h texts -> all_succeed None h = true).
  { clear -Hok. induction h as [|x h IH]; intros Hi; [reflexivity|]. cbn [all_succeed]. destruct (Hok x (Hi x (or_introl eq_refl))) as [e He]. unfold parse in He.
    destruct (parse_with_cases None x) as [(ts & t & e' & _ & _ & _ & E)|[(l & E)|(l & _ & E)]]; rewrite E in *; cbn [fst] in He; try discriminate. apply IH. intros y Hy. apply Hi. now right. }
  now apply G.
Qed.

(** ** calls that overlap: they still end, and with a tree or a Python exception of parse *)
Definition inp_of (la : option (option tok)) : list tok := match la with Some (Some t) => [t] | _ => [] end.
Definition peeked_of (la : option (option tok)) : bool := match la with Some _ => true | None => false end.
Definition cfg (st : list (nat * ptree)) (la : option (option tok)) : config := mkConfig st (inp_of la) (peeked_of la) None.
Definition call_ok (c : call) : Prop :=
  match c with
  | Waiting _ => True
  | Running st la => exists ts, Forall fin_ok ts /\ inv ts (cfg st la)
  | Finished r => r <> Stuck
  end.
Definition weight (c : call) : nat :=
  match c with
  | Waiting s => 3 + 51 * length s
  | Running st la => 1 + 3 * pot (cfg st la) + (if peeked_of la then 0 else 1)
  | Finished _ => 0
  end.
Lemma inv_irr ts st i pk l l' : inv ts (mkConfig st i pk l) -> inv ts (mkConfig st i pk l').
Proof. intros H. exact H. Qed.
Lemma fetched last s t rest : wtoken (length s) last s = LTok t rest -> fin_ok t /\ length rest < length s.
Proof.
  intros H. split.
  - pose proof (tokens_from_ok last s) as Hf. rewrite tokens_from_unfold, H in Hf. destruct (tokens_from _ rest) as [ts e]. now inversion Hf.
  - rewrite wtoken_spec in H by lia. destruct (raw_token s) as [t0 r0| |] eqn:Er; try discriminate. apply raw_token_len in Er. assert (rest = r0) as ->; [|exact Er].
    destruct (ttype t0); try (injection H as _ <-; reflexivity). destruct (operand_before last); [injection H as _ <-; reflexivity|]. destruct (peek_err _ _); [discriminate|]. now injection H as _ <-.
Qed.
Lemma no_fuel last s : wtoken (length s) last s <> LFuel.
Proof.
  pose proof (tokens_from_end last s) as He. rewrite tokens_from_unfold in He. intros E. rewrite E in He. now apply He.
Qed.
Lemma advance_ok c L c' L' : call_ok c -> advance c L = (c', L') ->
  call_ok c' /\ match c with Finished _ => c' = c /\ L' = L | _ => weight c' + 51 * length (l_rest L') < weight c + 51 * length (l_rest L) end.
Proof.
  destruct c as [s|st la|r]; intros Hok Ha.
  - cbn in Ha. injection Ha as <- <-. split.
    + exists []. split; [constructor|]. split; [constructor|]. split; [exact I|reflexivity].
    + cbn [weight l_rest peeked_of]. change (pot (cfg [] None)) with 0. lia.
  - destruct Hok as (ts & Hf & Hinv). pose proof (fin_no_end _ Hf) as Hne. pose proof (step_inv ts EndEof _ Hne Hinv) as Hs. pose proof (fun c1 => step_pot ts EndEof (cfg st la) c1) as Hp.
    cbn [advance] in Ha. destruct (defaulted (top_state st)) as [p|] eqn:Ed.
    + injection Ha as <- <-. unfold after_reduce. unfold step in Hs, Hp. cbn [cfg stk inp peeked lastp] in Hs, Hp. rewrite Ed in Hs, Hp. destruct (reduce_by p st) as [st'|].
      * split; [exists ts; auto|]. specialize (Hp _ Hne Hinv eq_refl). cbn [weight]. unfold cfg in *. lia.
      * discriminate.
    + destruct la as [x|].
      * injection Ha as <- <-. unfold step in Hs, Hp. cbn [cfg stk inp peeked lastp] in Hs, Hp. rewrite Ed in Hs, Hp. destruct x as [t|]; cbn [inp_of] in Hs, Hp; cbv zeta in Hs, Hp.
        -- destruct (action_at (top_state st) (ttype t)) as [[s|p|]|].
           ++ split; [exists ts; auto|]. specialize (Hp _ Hne Hinv eq_refl). cbn [weight peeked_of]. unfold cfg, pot in *. cbn [stk inp inp_of] in *. lia.
           ++ unfold after_reduce. destruct (reduce_by p st) as [st'|]; [|discriminate]. split; [exists ts; auto|]. specialize (Hp _ Hne Hinv eq_refl). cbn [weight peeked_of]. unfold cfg, pot in *. cbn [stk inp inp_of] in *. lia.
           ++ destruct st as [|[s t'] st']; [discriminate|]. destruct Hs as (Hd & E & _). discriminate.
           ++ split; [discriminate|]. cbn [weight]. lia.
        -- destruct (action_at (top_state st) T_END) as [[s|p|]|].
           ++ discriminate.
           ++ unfold after_reduce. destruct (reduce_by p st) as [st'|]; [|discriminate]. split; [exists ts; auto|]. specialize (Hp _ Hne Hinv eq_refl). cbn [weight peeked_of]. unfold cfg, pot in *. cbn [stk inp inp_of] in *. lia.
           ++ destruct st as [|[s t'] st']; [discriminate|]. destruct Hs as (Hd & _). destruct (ast_of_total _ _ Hd (fin_tok_ok _ Hf)) as [x Hx]. split; [|cbn [weight]; lia].
              cbn. unfold ast_of in Hx. destruct (eval t') as [[]|]; discriminate.
           ++ split; [discriminate|]. cbn [weight]. lia.
      * destruct Hinv as (Hst & Htop & Hy). unfold cfg, top_ok in *. cbn [stk inp peeked inp_of peeked_of] in *.
        assert (Htop' : forall i, match st with [] => True | (_, t) :: _ => right_ops t = [] \/ (true = true /\ Forall (fun x => (lvl (nxt i) <= x)%N) (right_ops t)) end).
        { intros i. destruct st as [|[s t] st']; [exact I|]. destruct Htop as [E|[E _]]; [now left|discriminate]. }
        destruct (wtoken _ _ _) as [t rest| | |] eqn:Ew; injection Ha as <- <-.
        -- destruct (fetched _ _ _ _ Ew) as [Hft Hl]. split.
           ++ exists (ts ++ [t]). split; [apply Forall_app; auto|]. split; [exact Hst|]. split; [apply Htop'|]. cbn [stk inp cfg inp_of]. now rewrite <- Hy, app_nil_r.
           ++ cbn [weight peeked_of l_rest]. unfold pot, cfg. cbn [stk inp inp_of length]. lia.
        -- split.
           ++ exists ts. split; [exact Hf|]. split; [exact Hst|]. split; [apply Htop'|exact Hy].
           ++ cbn [weight peeked_of l_rest]. unfold pot, cfg. cbn [stk inp inp_of length]. lia.
        -- split; [discriminate|]. cbn [weight]. lia.
        -- exfalso. now apply no_fuel in Ew.
  - cbn in Ha. injection Ha as <- <-. auto.
Qed.
Definition total (S : system) : nat := 51 * length (l_rest (fst S)) + list_sum (map weight (snd S)).
Lemma total_set i c c' l : nth_error l i = Some c -> list_sum (map weight (set_nth_call i c' l)) + weight c = list_sum (map weight l) + weight c'.
Proof.
  unfold list_sum. revert l. induction i as [|i IH]; intros [|y l] H; cbn in H; try discriminate; cbn [set_nth_call map fold_right].
  - injection H as ->. lia.
  - specialize (IH _ H). lia.
Qed.
Lemma turn_total S i : Forall call_ok (snd S) ->
  Forall call_ok (snd (turn i S)) /\
  match nth_error (snd S) i with
  | None | Some (Finished _) => turn i S = S
  | Some _ => total (turn i S) < total S
  end.
Proof.
  intros H. unfold turn. destruct (nth_error (snd S) i) as [c|] eqn:Hi; [|auto]. destruct (advance c (fst S)) as [c' L'] eqn:Ha.
  assert (Hc : call_ok c) by (eapply Forall_forall; [exact H|eapply nth_error_In; eauto]). destruct (advance_ok _ _ _ _ Hc Ha) as [Hok Hw]. cbn [snd]. split.
  - clear -H Hok. revert i. induction (snd S) as [|y l IH]; intros [|i]; cbn; auto; inversion H; subst; constructor; auto.
  - pose proof (total_set _ _ c' _ Hi) as T. destruct c as [s|st la|r]; unfold total; cbn [fst snd]; [lia|lia|]. destruct Hw as [-> ->]. destruct S as [L cs]. cbn [fst snd] in *. f_equal.
    clear -Hi. revert cs Hi. induction i as [|i IH]; intros [|y l] Hi; cbn in *; try discriminate; [now injection Hi as ->|]. now rewrite IH.
Qed.
Definition bound (texts : list str) : nat := list_sum (map (fun s => 3 + 51 * length s) texts).
Lemma exec_total texts sch : Forall call_ok (snd (exec sch (start texts))) /\ length (snd (exec sch (start texts))) = length texts /\
  forall i, i < length texts -> (exists r, result_of (exec sch (start texts)) i r) \/ total (exec sch (start texts)) + count_occ Nat.eq_dec sch i <= bound texts.
Proof.
  induction sch as [|j sch (IH1 & IH2 & IH3)] using rev_ind.
  - cbn [exec start snd]. split; [|split].
    + apply Forall_forall. intros x Hx. apply in_map_iff in Hx as (s & <- & _). exact I.
    + apply map_length.
    + intros i Hi. right. unfold total, bound. cbn [fst snd start l_rest length count_occ]. rewrite map_map. change (fun x => weight (Waiting x)) with (fun s : str => 3 + 51 * length s). rewrite Nat.mul_0_r, Nat.add_0_r. exact (le_n _).
  - rewrite exec_snoc. set (S := exec sch (start texts)) in *. destruct (turn_total S j IH1) as [H1 H2]. split; [exact H1|]. split.
    + rewrite <- IH2. unfold turn. destruct (nth_error (snd S) j) as [c|]; [|reflexivity]. destruct (advance c (fst S)) as [c' L']. cbn [snd]. clear. revert j. induction (snd S) as [|y l IH]; intros [|j]; cbn; auto.
    + intros i Hi. rewrite count_occ_app. cbn [count_occ]. destruct (IH3 i Hi) as [[r Hr]|Hle].
      * left. exists r. unfold result_of in *. unfold turn. destruct (nth_error (snd S) j) as [c|] eqn:Hj; [|exact Hr]. destruct (advance c (fst S)) as [c' L'] eqn:Ha. cbn [snd].
        destruct (Nat.eq_dec j i) as [->|Hne]; [|now rewrite set_nth_other]. rewrite Hr in Hj. injection Hj as <-. cbn in Ha. injection Ha as <- <-. eapply set_nth_same; eauto.
      * destruct (nth_error (snd S) j) as [[s|st la|r]|] eqn:Hj.
        -- right. destruct (Nat.eq_dec j i); lia.
        -- right. destruct (Nat.eq_dec j i); lia.
        -- rewrite H2. destruct (Nat.eq_dec j i) as [->|Hne]; [left; now exists r|right; lia].
        -- rewrite H2. destruct (Nat.eq_dec j i) as [->|Hne]; [|right; lia]. apply nth_error_None in Hj. rewrite IH2 in Hj. lia.
Qed.
(** however the turns are dealt out, a call that gets enough of them ends ... *)
Theorem C80_calls_end : forall texts sch i, i < length texts -> bound texts < count_occ Nat.eq_dec sch i -> exists r, result_of (exec sch (start texts)) i r.
Proof. intros texts sch i Hi Hb. destruct (exec_total texts sch) as (_ & _ & H). destruct (H i Hi) as [H1|H1]; [exact H1|]. lia. Qed.
(** ... with a tree, a TypeError or a RuntimeError, and nothing else *)
Theorem C80_calls_answer : forall texts sch i r, result_of (exec sch (start texts)) i r -> (exists e, r = Ok e) \/ r = RaiseTypeError \/ r = RaiseRuntimeError.
Proof.
  intros texts sch i r Hr. destruct (exec_total texts sch) as (H & _). assert (call_ok (Finished r)) as Hok by (eapply Forall_forall; [exact H|eapply nth_error_In; exact Hr]).
  destruct r; eauto. now destruct Hok.
Qed.

(** ** calls that overlap do not keep their texts apart *)
Local Open Scope string_scope.
Definition tt : list str := [u "a/b"; u "x/c"].
Definition overlapping : list nat := [0; 0; 1; 1] ++ repeat 0 40 ++ repeat 1 40.
Theorem C80_overlap_refuted :
  exists texts sch r, (forall s, In s texts -> exists e, parse s = Ok e) /\ result_of (exec sch (start texts)) 0 r /\ nth_error texts 0 = Some (u "a/b") /\ r <> parse (u "a/b") /\ r = parse (u "a/c").
Proof.
  exists tt, overlapping. eexists. split; [|split; [vm_compute; reflexivity|split; [reflexivity|]]].
  - intros s [<-|[<-|[]]]; vm_compute; eexists; reflexivity.
  - split; [|vm_compute; reflexivity]. vm_compute. discriminate.
Qed.
(** a schedule that satisfies [one_at_a_time], with both results *)
Definition running_b (c : call) : bool := match c with Running _ _ => true | _ => false end.
Definition running_list (S : system) : list nat := filter (fun i => match nth_error (snd S) i with Some c => running_b c | None => false end) (seq 0 (length (snd S))).
Lemma at_most_one S : length (running_list S) <= 1 -> forall i j, is_running S i -> is_running S j -> i = j.
Proof.
  intros H i j (s1 & l1 & Hi) (s2 & l2 & Hj).
  assert (A : forall k st la, nth_error (snd S) k = Some (Running st la) -> In k (running_list S)).
  { intros k st la Hk. apply filter_In. split; [|now rewrite Hk]. apply in_seq. split; [lia|]. cbn. apply nth_error_Some. congruence. }
  pose proof (A _ _ _ Hi) as Ai. pose proof (A _ _ _ Hj) as Aj. destruct (running_list S) as [|x [|y l]]; [destruct Ai| |cbn in H; lia]. destruct Ai as [<-|[]], Aj as [<-|[]]. reflexivity.
Qed.
Definition in_turn : list nat := repeat 0 40 ++ repeat 1 40.
Example C80_case : one_at_a_time tt in_turn /\ result_of (exec in_turn (start tt)) 0 (parse (u "a/b")) /\ result_of (exec in_turn (start tt)) 1 (parse (u "x/c")) /\ bound tt < count_occ Nat.eq_dec (repeat 0 320) 0.
Proof.
  split; [|split; [vm_compute; reflexivity|split; [vm_compute; reflexivity|]]].
  - assert (A : forallb (fun k => Nat.leb (length (running_list (exec (firstn k in_turn) (start tt)))) 1) (seq 0 81) = true) by (vm_compute; reflexivity).
    intros past future E. apply at_most_one. rewrite forallb_forall in A. specialize (A (length past)). rewrite Nat.leb_le in A.
    assert (firstn (length past) in_turn = past) as Ef by (rewrite E, firstn_app, firstn_all, Nat.sub_diag; apply app_nil_r). rewrite Ef in A. apply A. apply in_seq. split; [lia|].
    apply (f_equal (@length nat)) in E. rewrite app_length in E. change (length in_turn) with 80 in E. lia.
  - vm_compute. repeat constructor.
Qed.
Print Assumptions C80_serial. Print Assumptions C80_calls_end. Print Assumptions C80_overlap_refuted.
