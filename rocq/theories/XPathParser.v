(** Top-level facts about the parser: termination, soundness, completeness, totality of actions. *)
From Coq Require Import Arith.
From Verif Require Import XPathSpec XPathParseProofs.

(** ** Termination: a potential that decreases with every step *)

Definition wsym (x : sym) : nat :=
  match x with
  | T _ => 16
  | NT n =>
    match n with
    | S' => 8 | Expr => 9 | ArgumentList => 8
    | RelativeLocationPath => 10 | AbsoluteLocationPath => 10
    | AbbreviatedAbsoluteLocationPath => 10 | FilterExpr => 10
    | Step => 11 | VariableReferenceN => 11 | Number => 11 | FunctionCallN => 11
    | NodeTestN => 12 | NameTestN => 13 | QName => 14 | FuncQName => 14
    | AxisSpecifier => 14 | Predicate => 14 | PredicateList => 13 | FormalArguments => 14
    end
  end.

Definition chk_weight (p : nat) : bool :=
  Nat.ltb (wsym (NT (lhs (get_prod p)))) (list_sum (map wsym (rhs (get_prod p)))).

Lemma chk_weight_ok p : 0 < p < nprods -> wsym (NT (lhs (get_prod p))) < list_sum (map wsym (rhs (get_prod p))).
Proof.
  intros Hp.
  assert (C : forall p, In p real_prods -> chk_weight p = true).
  { apply forallb_forall. vm_compute. reflexivity. }
  apply Nat.ltb_lt. apply C. now apply in_real_prods.
Qed.

Definition pot (c : config) : nat :=
  list_sum (map (fun e => wsym (root (snd e))) (stk c)) + 17 * length (inp c).

Lemma list_sum_rev l : list_sum (rev l) = list_sum l.
Proof.
  induction l as [|x l IH]; [reflexivity|]. cbn [rev]. rewrite list_sum_app, IH.
  unfold list_sum. cbn [fold_right]. lia.
Qed.

Lemma pot_reduce ts st i pk l p s' kids rest :
  reduce_by p st = Some ((s', Node p kids) :: rest) ->
  (exists top, st = top ++ rest /\ map root (map snd top) = rev (rhs (get_prod p)) /\
                 length top = length (rhs (get_prod p))) ->
  0 < p < nprods -> inv ts (mkConfig st i pk l) ->
  forall pk' l', pot (mkConfig ((s', Node p kids) :: rest) i pk' l') < pot (mkConfig st i pk l).
Proof.
  intros _ (top & -> & E & _) Hp _ pk' l'. unfold pot. cbn [stk inp map snd root list_sum fold_right].
  rewrite map_app, list_sum_app.
  assert (list_sum (map (fun e => wsym (root (snd e))) top) = list_sum (map wsym (rhs (get_prod p)))) as ->.
  { rewrite <- (list_sum_rev (map wsym (rhs (get_prod p)))), <- map_rev, <- E, !map_map. reflexivity. }
  pose proof (chk_weight_ok p Hp) as H.
  cbn [wsym] in H |- *. unfold list_sum in *. cbn [fold_right] in *. lia.
Qed.

Lemma step_gen e st i pk l :
  defaulted (top_state st) = None -> (i <> [] \/ e = EndEof) ->
  step e (mkConfig st i pk l) =
  let last := match i with [] => None | t :: _ => Some (ttype t) end in
  match action_at (top_state st) (nxt i) with
  | Some (Shift s) =>
    match i with
    | t :: r => inl (mkConfig ((s, Leaf t) :: st) r false last)
    | [] => inr OutOfFuel
    end
  | Some (Reduce p) =>
    match reduce_by p st with
    | Some st' => inl (mkConfig st' i true last)
    | None => inr OutOfFuel
    end
  | Some Accept =>
    match st with
    | (_, t) :: _ => inr (Parsed t last)
    | [] => inr OutOfFuel
    end
  | None => inr (SyntaxError last)
  end.
Proof.
  intros Ed Hi. unfold step. cbn [stk inp]. rewrite Ed.
  destruct i as [|t i']; [|reflexivity]. destruct Hi as [Hi| ->]; [congruence|]. reflexivity.
Qed.

Lemma step_pot ts e c c' : no_end ts -> inv ts c -> step e c = inl c' -> pot c' < pot c.
Proof.
  intros Hne Hinv. pose proof Hinv as (Hst & Htop & Hy).
  pose proof (top_state_bound _ Hst) as Hb.
  destruct c as [st i pk l]. cbn [stk inp peeked lastp] in *.
  destruct (defaulted (top_state st)) as [p|] eqn:Ed.
  - pose proof (chk_action_all _ T_END Hb) as Hc. unfold chk_action in Hc.
    apply andb_prop in Hc as [_ Hc]. rewrite Ed in Hc.
    assert (Hnb : binop p = None /\ is_unary p = false).
    { unfold chk_red in Hc. apply andb_prop in Hc as [_ Hc].
      destruct (binop p); [rewrite Ed in Hc; discriminate|].
      destruct (is_unary p); [rewrite Ed in Hc; discriminate|]. auto. }
    destruct Hnb as [Hn1 Hn2].
    destruct (reduce_inv ts st i pk l p Hinv Hc) as (s' & kids & rest & R & Htp & Hp & I'); try congruence.
    unfold step. cbn [stk inp peeked lastp]. rewrite Ed, R. intros [= <-]. eapply pot_reduce; eassumption.
  - pose proof (chk_action_all _ (nxt i) Hb) as Hc. unfold chk_action in Hc.
    apply andb_prop in Hc as [Hc _].
    set (last := match i with [] => None | t :: _ => Some (ttype t) end).
    assert (Hi : (i <> [] \/ e = EndEof) \/ (i = [] /\ e <> EndEof)).
    { destruct i; [|left; left; discriminate]. destruct e; [left; right; reflexivity| |]; right; split; congruence. }
    destruct Hi as [Hi|[-> Hi]].
    2:{ unfold step. cbn [stk inp]. rewrite Ed. destruct e; congruence. }
    rewrite (step_gen _ _ _ _ _ Ed Hi). fold last. cbv zeta.
    destruct (action_at (top_state st) (nxt i)) as [[s1|p|]|] eqn:Ea.
    + destruct i as [|t i']; [discriminate|]. intros [= <-].
      unfold pot. cbn [stk inp map snd root length wsym]. unfold list_sum. cbn [fold_right]. lia.
    + apply andb_prop in Hc as [Hc1 Hc2].
      assert (Hinv' : inv ts (mkConfig st i true last)).
      { split; [exact Hst|split; [|exact Hy]]. unfold top_ok in *. cbn [stk peeked inp] in *.
        destruct st as [|[s0 t0] st0]; [exact I|]. destruct Htop as [Ht|[_ Ht]]; auto. }
      destruct (reduce_inv ts st i true last p Hinv' Hc1) as (s' & kids & rest & R & Htp & Hp & I').
      { intros o Ho. rewrite Ho in Hc2. split; auto. now apply N.leb_le. }
      { intros Hu. destruct (binop p) eqn:Eb.
        - exfalso. unfold binop, is_unary in *. destruct (rhs (get_prod p)) as [|[[]|[]] [|[|[]] [|? ?]]]; discriminate.
        - rewrite Hu in Hc2. split; auto. now apply N.leb_le. }
      rewrite R. intros [= <-].
      eapply Nat.lt_le_trans; [eapply (pot_reduce ts st i true last); eassumption|]. reflexivity.
    + destruct st as [|[? ?] ?]; discriminate.
    + discriminate.
Qed.

Lemma inv_init ts l : inv ts (mkConfig [] ts false l).
Proof. repeat split; constructor. Qed.

(** The loop never runs out of its fuel, and ends in one of the three ways. *)
Lemma run_total ts e : no_end ts -> e <> EndFuel -> forall n c, inv ts c -> pot c < n ->
  match run n e c with
  | Parsed t l => derives ts t /\ l = None /\ e = EndEof
  | SyntaxError _ => True
  | LexError _ => e = EndErr
  | OutOfFuel => False
  end.
Proof.
  intros Hne He. induction n as [|n IH]; intros c Hinv Hp; [lia|].
  cbn [run]. pose proof (step_inv ts e c Hne Hinv) as Hs.
  destruct (step e c) as [c'|o] eqn:E.
  - apply IH; [exact Hs|]. pose proof (step_pot ts e c c' Hne Hinv E). lia.
  - destruct o; auto.
Qed.

Lemma run_mono e n c o : run n e c = o -> o <> OutOfFuel -> forall m, n <= m -> run m e c = o.
Proof.
  revert c. induction n as [|n IH]; intros c H Ho m Hm; cbn [run] in H; [congruence|].
  destruct m as [|m]; [lia|]. cbn [run].
  destruct (step e c); [|exact H]. apply IH; auto. lia.
Qed.

Lemma parse_fuel_enough ts l : pot (mkConfig [] ts false l) < parse_fuel ts.
Proof. unfold pot, parse_fuel. cbn [stk inp map list_sum fold_right]. unfold list_sum; cbn [fold_right]. lia. Qed.

Lemma parse_tokens_total last ts e :
  no_end ts -> e <> EndFuel ->
  match parse_tokens last ts e with
  | Parsed t l => derives ts t /\ l = None /\ e = EndEof
  | SyntaxError _ => True
  | LexError _ => e = EndErr
  | OutOfFuel => False
  end.
Proof.
  intros Hne He. unfold parse_tokens. apply run_total; auto using inv_init, parse_fuel_enough.
Qed.

(** ** Completeness *)
Lemma parse_tokens_complete last ts t :
  no_end ts -> derives ts t -> parse_tokens last ts EndEof = Parsed t None.
Proof.
  intros Hne (Hw & Hr & Hp & Hy).
  destruct (goto 0 (NT Expr)) as [sa|] eqn:Hg; [|vm_compute in Hg; discriminate].
  assert (Ha : action_at sa T_END = Some Accept /\ defaulted sa = None).
  { vm_compute in Hg. injection Hg as <-. split; vm_compute; reflexivity. }
  destruct Ha as [Ha Hd].
  assert (Hsh : shift_ok 0 (ftok t)).
  { apply chk_shift_ok. eapply (firsts_of_ok _ (chk_shift 0)); eauto. vm_compute. reflexivity. }
  assert (Hlo : Forall (fun x => (ctx (top_state []) < x)%N) (left_ops t)).
  { change (ctx (top_state [])) with 0%N. apply left_ops_pos. }
  destruct (complete_tree t Hw Hp sa [] [] false last) as (pk & l & n & R); auto.
  - rewrite Hr. exact Hg.
  - change (lvl (nxt [])) with 0%N. apply Forall_forall. intros; lia.
  - cbn [nxt]. congruence.
  - rewrite app_nil_r, Hy in R. specialize (R 1).
    assert (R1 : run (n + 1) EndEof (mkConfig [] ts false last) = Parsed t None).
    { rewrite R. cbn [run]. unfold step. cbn [stk inp top_state]. rewrite Hd, Ha. reflexivity. }
    unfold parse_tokens.
    destruct (le_lt_dec (n + 1) (parse_fuel ts)) as [Hle|Hlt].
    + eapply run_mono; eauto. discriminate.
    + pose proof (run_total ts EndEof Hne ltac:(discriminate) (parse_fuel ts) _ (inv_init ts last) (parse_fuel_enough ts last)) as Ht.
      destruct (run (parse_fuel ts) EndEof (mkConfig [] ts false last)) as [t'|l'|l'|] eqn:E; try contradiction.
      * rewrite <- R1. symmetry. eapply run_mono; eauto; [discriminate|lia].
      * rewrite <- R1. symmetry. eapply run_mono; eauto; [discriminate|lia].
      * rewrite <- R1. symmetry. eapply run_mono; eauto; [discriminate|lia].
Qed.

Lemma parse_tokens_iff last ts t :
  no_end ts -> (parse_tokens last ts EndEof = Parsed t None <-> derives ts t).
Proof.
  intros Hne. split.
  - intros H. pose proof (parse_tokens_total last ts EndEof Hne ltac:(discriminate)) as Ht.
    rewrite H in Ht. apply Ht.
  - now apply parse_tokens_complete.
Qed.

(** a token sequence has at most one precedence-respecting derivation *)
Lemma derives_unique ts t1 t2 : no_end ts -> derives ts t1 -> derives ts t2 -> t1 = t2.
Proof.
  intros Hne H1 H2.
  apply (parse_tokens_complete None _ _ Hne) in H1. apply (parse_tokens_complete None _ _ Hne) in H2.
  congruence.
Qed.

(** ** The actions are total on derivations *)

(** what kind of value a symbol carries *)
Definition str_term (t : term) : bool :=
  match t with INTEGER | FLOAT => false | _ => true end.

Definition tok_ok (k : tok) : Prop :=
  match ttype k with
  | INTEGER => exists n, tval k = VInt n
  | FLOAT => exists f, tval k = VFloat f
  | _ => exists s, tval k = VStr s
  end.

Definition val_ok (x : sym) (v : sval) : Prop :=
  match x with
  | T t => match t with
           | INTEGER => exists n, v = SVal (VInt n)
           | FLOAT => exists f, v = SVal (VFloat f)
           | _ => exists s, v = SVal (VStr s)
           end
  | NT n =>
    match n with
    | S' | Expr | RelativeLocationPath | AbsoluteLocationPath | AbbreviatedAbsoluteLocationPath
    | Step | FilterExpr | Predicate | VariableReferenceN | Number | FunctionCallN =>
        exists e, v = SExpr e
    | AxisSpecifier => exists a, v = SAxis a
    | NodeTestN | NameTestN => exists t, v = STest t
    | QName | FuncQName => exists p n, v = SQName p n
    | PredicateList | FormalArguments | ArgumentList => exists l, v = SPreds l
    end
  end.

Lemma sequence_map_ok (kids : list ptree) (syms : list sym) :
  map root kids = syms ->
  Forall (fun k => exists v, eval k = Some v /\ val_ok (root k) v) kids ->
  exists vs, sequence (map eval kids) = Some vs /\ Forall2 val_ok syms vs.
Proof.
  revert syms. induction kids as [|k kids IH]; intros syms <- H.
  - exists []. split; constructor.
  - inversion H as [|? ? (v & Hv & Ho) Hk]; subst.
    destruct (IH _ eq_refl Hk) as (vs & Hvs & Hf).
    exists (v :: vs). cbn [map sequence]. rewrite Hv, Hvs. split; [reflexivity|constructor; auto].
Qed.

Lemma act_ok p vs : 0 < p < nprods -> Forall2 val_ok (rhs (get_prod p)) vs ->
  exists v, act (get_prod p) vs = Some v /\ val_ok (NT (lhs (get_prod p))) v.
Proof.
  intros Hp H.
  assert (Hall : forall q, In q prods -> forall vs, Forall2 val_ok (rhs q) vs ->
     exists v, act q vs = Some v /\ val_ok (NT (lhs q)) v).
  { clear. intros q Hq vs Hf.
    repeat (destruct Hq as [<-|Hq];
      [ cbn [rhs lhs act P] in *;
        repeat match goal with H : Forall2 _ _ _ |- _ => inversion H; clear H; subst end;
        cbn [val_ok] in *;
        repeat match goal with H : exists _, _ |- _ => destruct H end; subst;
        first [ eexists; split; [reflexivity|]; cbn [val_ok]; eauto ] | ]).
    destruct Hq. }
  apply Hall; [|exact H]. unfold get_prod. apply nth_In. apply Hp.
Qed.

Lemma eval_wf t : wf t -> Forall tok_ok (yield t) -> exists v, eval t = Some v /\ val_ok (root t) v.
Proof.
  induction t as [k|p kids IH] using ptree_ind'; intros Hw Hy.
  - cbn [eval root val_ok]. exists (SVal (tval k)). split; [reflexivity|].
    cbn [yield] in Hy. inversion Hy as [|? ? Hk _]; subst. unfold tok_ok in Hk.
    destruct (ttype k); destruct Hk as [x ->]; eauto.
  - inversion Hw as [|p' kids' Hp Hr Hk]; subst. cbn [eval root].
    assert (Hall : Forall (fun k => exists v, eval k = Some v /\ val_ok (root k) v) kids).
    { cbn [yield] in Hy. clear Hr Hw. induction kids as [|k kids IHk]; constructor.
      - inversion IH; subst. inversion Hk; subst. apply H1; auto.
        cbn [flat_map] in Hy. apply Forall_app in Hy. apply Hy.
      - inversion IH; subst. inversion Hk; subst. apply IHk; auto.
        cbn [flat_map] in Hy. apply Forall_app in Hy. apply Hy. }
    destruct (sequence_map_ok kids _ Hr Hall) as (vs & Hvs & Hf).
    rewrite Hvs. apply act_ok; auto.
Qed.

Lemma ast_of_total ts t : derives ts t -> Forall tok_ok ts -> exists e, ast_of t = Some e.
Proof.
  intros (Hw & Hr & _ & Hy) Ht. subst ts.
  destruct (eval_wf t Hw Ht) as (v & Hv & Ho). rewrite Hr in Ho. destruct Ho as [e ->].
  exists e. unfold ast_of. now rewrite Hv.
Qed.
