(** Completeness, soundness and termination of the parser of LALR.v. *)
From Coq Require Import Arith.
From Verif Require Import XPathSpec.

Arguments get_prod : simpl never.
Arguments goto : simpl never.
Arguments action_at : simpl never.
Arguments defaulted : simpl never.
Arguments nprods : simpl never.
Arguments nstates : simpl never.
Arguments first : simpl never.
Arguments has : simpl never.

Definition nxt (i : list tok) : term := match i with [] => T_END | k :: _ => ttype k end.

(** level of the operator whose right operand starts at a state; 0 if none *)
Definition ctx (s : nat) : N :=
  match nth_error kernels s with
  | Some ks =>
    fold_left (fun acc it =>
      match binop (fst it) with
      | Some o => if Nat.eqb (snd it) 2 then lvl o else acc
      | None => if is_unary (fst it) && Nat.eqb (snd it) 1 then ulvl else acc
      end) ks 0%N
  | None => 0%N
  end.

Definition laction_eqb (a b : laction) : bool :=
  match a, b with
  | Shift x, Shift y => Nat.eqb x y
  | Reduce x, Reduce y => Nat.eqb x y
  | Accept, Accept => true
  | _, _ => false
  end.
Definition oaction_eqb (a b : option laction) : bool :=
  match a, b with
  | Some x, Some y => laction_eqb x y
  | None, None => true
  | _, _ => false
  end.
Lemma oaction_eqb_eq a b : oaction_eqb a b = true -> a = b.
Proof.
  destruct a as [[]|], b as [[]|]; cbn; rewrite ?Nat.eqb_eq; intros; subst; congruence.
Qed.
Definition onat_eqb (a b : option nat) : bool :=
  match a, b with Some x, Some y => Nat.eqb x y | None, None => true | _, _ => false end.
Lemma onat_eqb_eq a b : onat_eqb a b = true -> a = b.
Proof. destruct a, b; cbn; rewrite ?Nat.eqb_eq; intros; subst; congruence. Qed.

Definition is_some {A} (x : option A) : bool := match x with Some _ => true | None => false end.

Definition forall_terms (f : term -> bool) : bool := forallb f all_terms.
Lemma forall_terms_spec f : forall_terms f = true -> forall t, f t = true.
Proof.
  intros H t. unfold forall_terms in H. rewrite forallb_forall in H. apply H, all_terms_complete.
Qed.

Definition chk_shift (s : nat) (a : term) : bool :=
  onat_eqb (defaulted s) None &&
  match goto s (T a) with
  | Some s1 => oaction_eqb (action_at s a) (Some (Shift s1))
  | None => false
  end.

Definition chk_reduce (s p s' : nat) (bound : option N) : bool :=
  (onat_eqb (defaulted s) None || onat_eqb (defaulted s) (Some p)) &&
  forall_terms (fun a =>
    implb (is_some (action_at s' a))
          (implb (match bound with Some b => N.leb (lvl a) b | None => true end)
                 (oaction_eqb (action_at s a) (Some (Reduce p))))).

Definition firsts_of (x : sym) (f : term -> bool) : bool :=
  forall_terms (fun a => implb (has (first x) (term_id a)) (f a)).

Fixpoint chk_syms (isfirst : bool) (s : nat) (syms : list sym) (p s' : nat) : bool :=
  match syms with
  | [] => chk_reduce s p s' None
  | X :: rest =>
    match goto s X with
    | None => false
    | Some s1 =>
      (isfirst || firsts_of X (chk_shift s)) &&
      (if sym_eqb X (NT Expr) then
         N.eqb (ctx s) 0 &&
         match rest with
         | [] => forall_terms (fun a => implb (is_some (action_at s' a)) (N.eqb (lvl a) 0))
         | Y :: _ => firsts_of Y (fun a => N.eqb (lvl a) 0)
         end
       else true) &&
      chk_syms false s1 rest p s'
    end
  end.

Definition chk_prod (s p : nat) : bool :=
  match goto s (NT (lhs (get_prod p))) with
  | None => true
  | Some s' =>
    match binop p with
    | Some o =>
      match goto s (NT Expr) with
      | Some s1 =>
        match goto s1 (T o) with
        | Some s2 =>
          match goto s2 (NT Expr) with
          | Some s3 =>
            implb (N.ltb (ctx s) (lvl o)) (chk_shift s1 o) &&
            firsts_of (NT Expr) (chk_shift s2) &&
            N.eqb (ctx s2) (lvl o) &&
            chk_reduce s3 p s' (Some (lvl o))
          | None => false
          end
        | None => false
        end
      | None => false
      end
    | None =>
      if is_unary p then
        match goto s (T MINUS_OP) with
        | Some s1 =>
          match goto s1 (NT Expr) with
          | Some s2 =>
            firsts_of (NT Expr) (chk_shift s1) &&
            N.eqb (ctx s1) ulvl &&
            chk_reduce s2 p s' (Some ulvl)
          | None => false
          end
        | None => false
        end
      else chk_syms true s (rhs (get_prod p)) p s'
    end
  end.

Definition all_states := seq 0 nstates.
Definition real_prods := seq 1 (nprods - 1).

Lemma goto_bound s x s' : goto s x = Some s' -> s < nstates.
Proof.
  unfold goto. destruct (nth_error transitions s) eqn:E; [|discriminate]. intros _.
  change nstates with (length transitions). apply nth_error_Some. congruence.
Qed.

Lemma forallb2_In {A B} (f : A -> B -> bool) (la : list A) (lb : list B) :
  forallb (fun a => forallb (f a) lb) la = true ->
  forall a b, In a la -> In b lb -> f a b = true.
Proof.
  intros H a b Ha Hb. rewrite forallb_forall in H. specialize (H a Ha).
  rewrite forallb_forall in H. exact (H b Hb).
Qed.

Lemma chk_prod_all : forall s p, In s all_states -> In p real_prods -> chk_prod s p = true.
Proof. apply forallb2_In. vm_compute. reflexivity. Qed.

Lemma in_all_states s : s < nstates -> In s all_states.
Proof. intros H. unfold all_states. apply in_seq. lia. Qed.
Lemma in_real_prods p : 0 < p < nprods -> In p real_prods.
Proof. intros H. unfold real_prods. apply in_seq. lia. Qed.

Lemma chk_prod_ok s p s' :
  0 < p < nprods -> goto s (NT (lhs (get_prod p))) = Some s' -> chk_prod s p = true.
Proof.
  intros Hp Hg. apply chk_prod_all; [|now apply in_real_prods].
  apply in_all_states. eapply goto_bound. exact Hg.
Qed.

Section PtreeInd.
  Variable Q : ptree -> Prop.
  Hypothesis HL : forall k, Q (Leaf k).
  Hypothesis HN : forall p kids, Forall Q kids -> Q (Node p kids).
  Fixpoint ptree_ind' (t : ptree) : Q t :=
    let fix all (l : list ptree) : Forall Q l :=
      match l return Forall Q l with
      | [] => Forall_nil Q
      | x :: l' => @Forall_cons _ Q x l' (ptree_ind' x) (all l')
      end in
    match t with Leaf k => HL k | Node p kids => HN p kids (all kids) end.
End PtreeInd.

(** first terminal of a tree *)
Fixpoint ftok (t : ptree) : term :=
  match t with
  | Leaf k => ttype k
  | Node _ kids => match kids with k :: _ => ftok k | [] => T_END end
  end.

Definition chk_first : bool :=
  forallb (fun p => match rhs (get_prod p) with
                    | x :: _ => forall_terms (fun a => implb (has (first x) (term_id a))
                                        (has (first (NT (lhs (get_prod p)))) (term_id a)))
                    | [] => false
                    end) (seq 0 nprods).
Lemma chk_first_ok : chk_first = true.
Proof. vm_compute. reflexivity. Qed.

Lemma first_mono p x r a :
  0 < p < nprods -> rhs (get_prod p) = x :: r -> has (first x) (term_id a) = true ->
  has (first (NT (lhs (get_prod p)))) (term_id a) = true.
Proof.
  intros Hp Hr Ha. pose proof chk_first_ok as H. unfold chk_first in H.
  rewrite forallb_forall in H. specialize (H p).
  rewrite Hr in H. assert (In p (seq 0 nprods)) as Hin by (apply in_seq; lia).
  specialize (H Hin). pose proof (forall_terms_spec _ H a) as H1.
  cbv beta in H1. rewrite Ha in H1. exact H1.
Qed.

Lemma rhs_nonempty p : 0 < p < nprods -> rhs (get_prod p) <> [].
Proof.
  intros Hp Hr. pose proof chk_first_ok as H. unfold chk_first in H.
  rewrite forallb_forall in H. specialize (H p).
  rewrite Hr in H. assert (In p (seq 0 nprods)) as Hin by (apply in_seq; lia).
  specialize (H Hin). discriminate.
Qed.

Lemma has_bit a : has (bit (term_id a)) (term_id a) = true.
Proof. destruct a; reflexivity. Qed.

Lemma ftok_first t : wf t -> has (first (root t)) (term_id (ftok t)) = true.
Proof.
  induction t as [k|p kids IH] using ptree_ind'; intros Hwf.
  - apply has_bit.
  - inversion Hwf as [|p' kids' Hp Hr Hk]; subst.
    destruct kids as [|k kids].
    + cbn in Hr. symmetry in Hr. now apply rhs_nonempty in Hr.
    + cbn [ftok root]. cbn in Hr.
      inversion IH; subst. inversion Hk; subst.
      eapply first_mono; eauto.
Qed.

Lemma nxt_yield t i : wf t -> nxt (yield t ++ i) = ftok t.
Proof.
  revert i. induction t as [k|p kids IH] using ptree_ind'; intros i Hwf; [reflexivity|].
  inversion Hwf as [|p' kids' Hp Hr Hk]; subst.
  destruct kids as [|k kids]; [symmetry in Hr; now apply rhs_nonempty in Hr|].
  inversion IH; subst. inversion Hk; subst.
  cbn [yield flat_map ftok]. rewrite <- app_assoc. auto.
Qed.

Lemma left_ops_expr t : root t <> NT Expr -> left_ops t = [].
Proof.
  destruct t as [k|p kids]; [reflexivity|]. cbn [root left_ops]. intros H.
  assert (forallb (fun q => implb (is_some (binop q)) (nterm_eqb (lhs (get_prod q)) Expr))
                  (seq 0 (S nprods)) = true) as C by (vm_compute; reflexivity).
  destruct (le_lt_dec nprods p) as [Hp|Hp].
  - assert (rhs (get_prod p) = []) as E by (unfold get_prod; rewrite nth_overflow by exact Hp; reflexivity).
    unfold binop. rewrite E. reflexivity.
  - rewrite forallb_forall in C. specialize (C p).
    assert (In p (seq 0 (S nprods))) as Hin by (apply in_seq; lia).
    specialize (C Hin).
    destruct (binop p) eqn:E1; [|reflexivity].
    cbn [is_some implb] in C. apply nterm_eqb_eq in C. congruence.
Qed.

Lemma right_ops_expr t : root t <> NT Expr -> right_ops t = [].
Proof.
  destruct t as [k|p kids]; [reflexivity|]. cbn [root right_ops]. intros H.
  assert (forallb (fun q => implb (is_some (binop q) || is_unary q) (nterm_eqb (lhs (get_prod q)) Expr))
                  (seq 0 (S nprods)) = true) as C by (vm_compute; reflexivity).
  destruct (le_lt_dec nprods p) as [Hp|Hp].
  - assert (rhs (get_prod p) = []) as E by (unfold get_prod; rewrite nth_overflow by exact Hp; reflexivity).
    unfold binop, is_unary. rewrite E. reflexivity.
  - rewrite forallb_forall in C. specialize (C p).
    assert (In p (seq 0 (S nprods))) as Hin by (apply in_seq; lia).
    specialize (C Hin).
    destruct (binop p) eqn:E1.
    + cbn [is_some implb orb] in C. apply nterm_eqb_eq in C. congruence.
    + destruct (is_unary p) eqn:E2; [|reflexivity].
      cbn [is_some implb orb] in C. apply nterm_eqb_eq in C. congruence.
Qed.

(** operator levels are positive *)
Lemma binop_lvl p o : binop p = Some o -> (0 < lvl o)%N.
Proof.
  intros E. 
  assert (forallb (fun q => match binop q with Some o => N.ltb 0 (lvl o) | None => true end)
                  (seq 0 nprods) = true) as C by (vm_compute; reflexivity).
  destruct (le_lt_dec nprods p) as [Hp|Hp].
  - unfold binop, get_prod in E. rewrite nth_overflow in E by exact Hp. discriminate.
  - rewrite forallb_forall in C. specialize (C p).
    assert (In p (seq 0 nprods)) as Hin by (apply in_seq; lia).
    specialize (C Hin). rewrite E in C. now apply N.ltb_lt in C.
Qed.

Lemma left_ops_pos t : Forall (fun x => (0 < x)%N) (left_ops t).
Proof.
  induction t as [k|p kids IH] using ptree_ind'; cbn; [constructor|].
  destruct (binop p) eqn:E; [|constructor].
  constructor; [eapply binop_lvl; eassumption|].
  destruct kids; [constructor|]. now inversion IH.
Qed.

(** tokens can be shifted from a state *)
Definition shift_ok (s : nat) (a : term) : Prop :=
  defaulted s = None /\ exists s1, goto s (T a) = Some s1 /\ action_at s a = Some (Shift s1).

Lemma chk_shift_ok s a : chk_shift s a = true -> shift_ok s a.
Proof.
  unfold chk_shift, shift_ok. intros H. apply andb_prop in H as [H1 H2].
  apply onat_eqb_eq in H1. destruct (goto s (T a)) as [s1|]; [|discriminate].
  apply oaction_eqb_eq in H2. eauto.
Qed.

Lemma firsts_of_ok x f t : firsts_of x f = true -> wf t -> root t = x -> f (ftok t) = true.
Proof.
  intros H Hw <-. pose proof (forall_terms_spec _ H (ftok t)) as H1. cbv beta in H1.
  rewrite ftok_first in H1 by assumption. exact H1.
Qed.

(** [run] makes [n] steps from [c] to [c'] *)
Definition reaches (e : lexend) (c c' : config) : Prop :=
  exists n, forall k, run (n + k) e c = run k e c'.

Lemma reaches_refl e c : reaches e c c.
Proof. exists 0. reflexivity. Qed.
Lemma reaches_trans e c1 c2 c3 : reaches e c1 c2 -> reaches e c2 c3 -> reaches e c1 c3.
Proof.
  intros [n Hn] [m Hm]. exists (n + m). intros k. rewrite <- Nat.add_assoc, Hn. apply Hm.
Qed.
Lemma reaches_step e c c' : step e c = inl c' -> reaches e c c'.
Proof. intros H. exists 1. intros k. cbn [run Nat.add]. now rewrite H. Qed.

Section Complete.
  Notation e := EndEof.

  Definition next_of (ks : list ptree) (a : term) : term :=
    match ks with [] => a | k :: _ => ftok k end.

  Fixpoint kids_ok (s : nat) (ks : list ptree) (a : term) : Prop :=
    match ks with
    | [] => True
    | k :: ks' =>
      exists s1, goto s (root k) = Some s1 /\ shift_ok s (ftok k) /\
        Forall (fun x => (ctx s < x)%N) (left_ops k) /\
        Forall (fun x => (lvl (next_of ks' a) <= x)%N) (right_ops k) /\
        action_at s1 (next_of ks' a) <> None /\
        kids_ok s1 ks' a
    end.

  Definition goal (t : ptree) : Prop :=
    wf t -> prec_ok t ->
    forall s' st inp pk l,
      goto (top_state st) (root t) = Some s' ->
      shift_ok (top_state st) (ftok t) ->
      Forall (fun x => (ctx (top_state st) < x)%N) (left_ops t) ->
      Forall (fun x => (lvl (nxt inp) <= x)%N) (right_ops t) ->
      action_at s' (nxt inp) <> None ->
      exists pk' l', reaches e (mkConfig st (yield t ++ inp) pk l) (mkConfig ((s', t) :: st) inp pk' l').

  Fixpoint states_of (s : nat) (ks : list ptree) : list (nat * ptree) :=
    match ks with
    | [] => []
    | k :: ks' => match goto s (root k) with
                  | Some s1 => (s1, k) :: states_of s1 ks'
                  | None => []
                  end
    end.

  Definition last_state (s : nat) (ks : list ptree) : nat := 
    fold_left (fun s k => match goto s (root k) with Some s1 => s1 | None => s end) ks s.

  Lemma run_kids ks :
    Forall goal ks -> Forall wf ks -> Forall prec_ok ks ->
    forall st inp pk l,
      kids_ok (top_state st) ks (nxt inp) ->
      exists pk' l',
        reaches e (mkConfig st (flat_map yield ks ++ inp) pk l)
                  (mkConfig (rev (states_of (top_state st) ks) ++ st) inp pk' l') /\
        length (states_of (top_state st) ks) = length ks /\
        map snd (states_of (top_state st) ks) = ks /\
        top_state (rev (states_of (top_state st) ks) ++ st) = last_state (top_state st) ks.
  Proof.
    induction ks as [|k ks IH]; intros Hg Hw Hp st inp pk l Hk.
    - exists pk, l. repeat split; try reflexivity. apply reaches_refl.
    - inversion Hg as [|? ? Hgk Hgks]; subst. inversion Hw as [|? ? Hwk Hwks]; subst.
      inversion Hp as [|? ? Hpk Hpks]; subst.
      destruct Hk as (s1 & Hgo & Hsh & Hlo & Hro & Hac & Hks).
      assert (Hnx : nxt (flat_map yield ks ++ inp) = next_of ks (nxt inp)).
      { destruct ks as [|k' ks']; [reflexivity|]. cbn [flat_map next_of].
        rewrite <- app_assoc. apply nxt_yield. now inversion Hwks. }
      cbn [flat_map]. rewrite <- app_assoc.
      destruct (Hgk Hwk Hpk s1 st (flat_map yield ks ++ inp) pk l) as (pk1 & l1 & R1); auto.
      { now rewrite Hnx. }
      { now rewrite Hnx. }
      destruct (IH Hgks Hwks Hpks ((s1, k) :: st) inp pk1 l1 Hks) as (pk2 & l2 & R2 & L2 & M2 & T2).
      exists pk2, l2. cbn [states_of]. rewrite Hgo. cbn [top_state] in R2, L2, M2, T2.
      cbn [rev length map snd]. rewrite <- app_assoc. cbn [app].
      repeat split.
      + eapply reaches_trans; eassumption.
      + now rewrite L2.
      + now rewrite M2.
      + rewrite T2. unfold last_state. cbn [fold_left]. now rewrite Hgo.
  Qed.

  Lemma reduce_node p kids st s' inp pk l sts :
    0 < p < nprods -> map root kids = rhs (get_prod p) ->
    length sts = length kids -> map snd sts = kids ->
    goto (top_state st) (NT (lhs (get_prod p))) = Some s' ->
    let s := top_state (rev sts ++ st) in
    (defaulted s = None \/ defaulted s = Some p) ->
    action_at s (nxt inp) = Some (Reduce p) ->
    exists pk' l', reaches e (mkConfig (rev sts ++ st) inp pk l)
                             (mkConfig ((s', Node p kids) :: st) inp pk' l').
  Proof.
    intros Hp Hr Hl Hm Hg s Hd Ha.
    assert (Hlen : length (rhs (get_prod p)) = length (rev sts)).
    { rewrite <- Hr, map_length, rev_length. lia. }
    assert (Hred : reduce_by p (rev sts ++ st) = Some ((s', Node p kids) :: st)).
    { unfold reduce_by. rewrite Hlen.
      replace (Nat.ltb (length (rev sts ++ st)) (length (rev sts))) with false.
      2:{ symmetry. apply Nat.ltb_ge. rewrite app_length. lia. }
      rewrite firstn_app, firstn_all, Nat.sub_diag. cbn [firstn]. rewrite app_nil_r.
      rewrite skipn_app, skipn_all, Nat.sub_diag. cbn [skipn app].
      rewrite Hg. rewrite map_rev, rev_involutive, Hm. reflexivity. }
    destruct Hd as [Hd|Hd].
    - destruct inp as [|t inp'].
      + exists true, None. apply reaches_step. unfold step. cbn [stk LALR.inp].
        fold s. rewrite Hd. cbn [nxt] in Ha. rewrite Ha, Hred. reflexivity.
      + exists true, (Some (ttype t)). apply reaches_step. unfold step. cbn [stk LALR.inp].
        fold s. rewrite Hd. cbn [nxt] in Ha. rewrite Ha, Hred. reflexivity.
    - exists pk, l. apply reaches_step. unfold step. cbn [stk LALR.inp peeked lastp].
      fold s. rewrite Hd, Hred. reflexivity.
  Qed.

  Lemma chk_reduce_ok s p s' b a :
    chk_reduce s p s' b = true -> action_at s' a <> None ->
    match b with Some b => (lvl a <= b)%N | None => True end ->
    (defaulted s = None \/ defaulted s = Some p) /\ action_at s a = Some (Reduce p).
  Proof.
    unfold chk_reduce. intros H Ha Hb. apply andb_prop in H as [H1 H2]. split.
    - apply orb_prop in H1 as [H1|H1]; apply onat_eqb_eq in H1; auto.
    - pose proof (forall_terms_spec _ H2 a) as H3. cbv beta in H3.
      destruct (action_at s' a); [|congruence]. cbn [is_some implb] in H3.
      destruct b as [b|].
      + apply N.leb_le in Hb. rewrite Hb in H3. cbn [implb] in H3. now apply oaction_eqb_eq in H3.
      + cbn [implb] in H3. now apply oaction_eqb_eq in H3.
  Qed.

  (** from the check of a non-operator production to [kids_ok] *)
  Lemma kids_ok_generic p s' a :
    action_at s' a <> None ->
    forall ks isfirst s syms,
      chk_syms isfirst s syms p s' = true ->
      map root ks = syms -> Forall wf ks ->
      (isfirst = true -> match ks with k :: _ => shift_ok s (ftok k) | [] => True end) ->
      kids_ok s ks a /\
      (defaulted (last_state s ks) = None \/ defaulted (last_state s ks) = Some p) /\
      action_at (last_state s ks) a = Some (Reduce p) /\
      (ks <> [] -> isfirst = false -> match ks with k :: _ => shift_ok s (ftok k) | [] => True end).
  Proof.
    intros Ha. induction ks as [|k ks IH]; intros isfirst s syms Hc Hm Hw Hf.
    - cbn in Hm. subst syms. cbn [chk_syms] in Hc.
      destruct (chk_reduce_ok _ _ _ _ a Hc Ha I) as [H1 H2].
      cbn. repeat split; auto.
    - cbn [map] in Hm. destruct syms as [|X syms]; [discriminate|]. injection Hm as HX Hm.
      inversion Hw as [|? ? Hwk Hwks]; subst.
      cbn [chk_syms] in Hc.
      destruct (goto s (root k)) as [s1|] eqn:Hg; [|discriminate].
      apply andb_prop in Hc as [Hc Hc3]. apply andb_prop in Hc as [Hc1 Hc2].
      destruct (IH false s1 _ Hc3 eq_refl Hwks) as (K1 & K2 & K3 & K4); [discriminate|].
      assert (Hs : shift_ok s (ftok k)).
      { destruct isfirst; [now apply Hf|]. cbn [orb] in Hc1.
        apply chk_shift_ok. eapply (firsts_of_ok _ (chk_shift s)); eauto. }
      assert (Hnext : action_at s1 (next_of ks a) <> None).
      { destruct ks as [|k' ks'].
        - cbn [last_state fold_left next_of] in *. rewrite K3. discriminate.
        - cbn [next_of]. assert (shift_ok s1 (ftok k')) as [_ [s2 [_ Hs2]]] by (apply K4; congruence).
          congruence. }
      assert (Hops : Forall (fun x => (ctx s < x)%N) (left_ops k) /\
                     Forall (fun x => (lvl (next_of ks a) <= x)%N) (right_ops k)).
      { destruct (sym_eqb (root k) (NT Expr)) eqn:HE.
        - apply andb_prop in Hc2 as [Hc2 Hc4]. apply N.eqb_eq in Hc2.
          split; [rewrite Hc2; apply left_ops_pos|].
          assert (lvl (next_of ks a) = 0%N) as ->.
          { destruct ks as [|k' ks'].
            - cbn [map next_of] in *. pose proof (forall_terms_spec _ Hc4 a) as H4. cbv beta in H4.
              destruct (action_at s' a); [|congruence]. now apply N.eqb_eq in H4.
            - cbn [map next_of] in *. inversion Hwks; subst.
              pose proof (firsts_of_ok _ _ k' Hc4) as H4.
              apply N.eqb_eq. apply H4; auto. }
          apply Forall_forall. intros. lia.
        - assert (root k <> NT Expr) as HE'.
          { intros E. rewrite E in HE. rewrite sym_eqb_refl in HE. discriminate. }
          rewrite left_ops_expr, right_ops_expr by assumption. split; constructor. }
      destruct Hops as [Ho1 Ho2].
      assert (last_state s (k :: ks) = last_state s1 ks) as ->.
      { unfold last_state. cbn [fold_left]. now rewrite Hg. }
      split; [cbn [kids_ok]; exists s1; auto 10|]. auto.
  Qed.

  Lemma complete_tree t : goal t.
  Proof.
    induction t as [k|p kids IH] using ptree_ind'.
    - intros _ _ s' st inp pk l Hg [Hd (s1 & Hg1 & Ha)] _ _ _. cbn [root ftok yield app] in *.
      assert (s1 = s') by congruence. subst s1.
      exists false, (Some (ttype k)). apply reaches_step. unfold step. cbn [stk LALR.inp].
      rewrite Hd, Ha. reflexivity.
    - intros Hwf Hprec s' st inp pk l Hg Hsh Hlo Hro Hac.
      inversion Hwf as [|p' kids' Hp Hr Hk]; subst.
      inversion Hprec as [|p' kids' Hpk Hbin Hun]; subst.
      cbn [root] in Hg.
      pose proof (chk_prod_ok _ _ _ Hp Hg) as Hc. unfold chk_prod in Hc. rewrite Hg in Hc.
      assert (Hne : kids <> []).
      { intros ->. cbn in Hr. symmetry in Hr. now apply rhs_nonempty in Hr. }
      assert (Hmain : kids_ok (top_state st) kids (nxt inp) /\
        (defaulted (last_state (top_state st) kids) = None \/
         defaulted (last_state (top_state st) kids) = Some p) /\
        action_at (last_state (top_state st) kids) (nxt inp) = Some (Reduce p)).
      { destruct (binop p) as [o|] eqn:Eb.
        - (* binary operator *)
          cbn [left_ops right_ops] in Hlo, Hro. rewrite Eb in Hlo, Hro.
          pose proof Eb as Eb'. unfold binop in Eb'.
          destruct (rhs (get_prod p)) as [|[|[]] [|[o'|] [|[|[]] [|? ?]]]] eqn:Er; try discriminate.
          injection Eb' as ->.
          destruct kids as [|kl [|ko [|kr [|? ?]]]]; try discriminate.
          cbn [map] in Hr. injection Hr as Hr1 Hr2 Hr3.
          destruct (Hbin o kl ko kr eq_refl eq_refl) as [Hb1 Hb2].
          destruct (goto (top_state st) (NT Expr)) as [s1|] eqn:G1; [|discriminate].
          destruct (goto s1 (T o)) as [s2|] eqn:G2; [|discriminate].
          destruct (goto s2 (NT Expr)) as [s3|] eqn:G3; [|discriminate].
          apply andb_prop in Hc as [Hc C4]. apply andb_prop in Hc as [Hc C3].
          apply andb_prop in Hc as [C1 C2]. apply N.eqb_eq in C3.
          inversion Hlo as [|? ? Hlo1 Hlo2]; subst. inversion Hro as [|? ? Hro1 Hro2]; subst.
          apply N.ltb_lt in Hlo1. rewrite Hlo1 in C1. cbn [implb] in C1.
          apply chk_shift_ok in C1.
          inversion Hk as [|? ? Hw1 Hk']; subst. inversion Hk' as [|? ? Hw2 Hk'']; subst.
          inversion Hk'' as [|? ? Hw3 _]; subst.
          assert (S2 : shift_ok s2 (ftok kr)).
          { apply chk_shift_ok. eapply (firsts_of_ok _ (chk_shift s2)); eauto. }
          destruct (chk_reduce_ok _ _ _ _ (nxt inp) C4 Hac Hro1) as [D3 A3].
          assert (Ho : ftok ko = o).
          { destruct ko; cbn in Hr2 |- *; congruence. }
          assert (Hl3 : last_state (top_state st) [kl; ko; kr] = s3).
          { unfold last_state. cbn [fold_left]. rewrite Hr1, G1, Hr2, G2, Hr3, G3. reflexivity. }
          rewrite Hl3. split; [|split; assumption].
          cbn [kids_ok next_of]. exists s1. rewrite Hr1.
          refine (conj _ (conj _ (conj _ (conj _ (conj _ _))))); try assumption; try reflexivity.
          { rewrite Ho. exact Hb1. }
          { rewrite Ho. destruct C1 as [_ (sx & _ & E)]. congruence. }
          exists s2. rewrite Hr2.
          refine (conj _ (conj _ (conj _ (conj _ (conj _ _))))); try assumption; try reflexivity.
          { rewrite Ho. exact C1. }
          { rewrite left_ops_expr by congruence. constructor. }
          { rewrite right_ops_expr by congruence. constructor. }
          { destruct S2 as [_ (sx & _ & E)]. congruence. }
          exists s3. rewrite Hr3.
          refine (conj _ (conj _ (conj _ (conj _ (conj _ _))))); try assumption; try reflexivity.
          { rewrite C3. exact Hb2. }
          { congruence. }
        - destruct (is_unary p) eqn:Eu.
          + cbn [left_ops right_ops] in Hlo, Hro. rewrite Eb, Eu in Hro.
            pose proof Eu as Eu'. unfold is_unary in Eu'.
            destruct (rhs (get_prod p)) as [|[[]|] [|[|[]] [|? ?]]] eqn:Er; try discriminate.
            destruct kids as [|ko [|kr [|? ?]]]; try discriminate.
            cbn [map] in Hr. injection Hr as Hr1 Hr2.
            pose proof (Hun ko kr eq_refl eq_refl) as Hu.
            destruct (goto (top_state st) (T MINUS_OP)) as [s1|] eqn:G1; [|discriminate].
            destruct (goto s1 (NT Expr)) as [s2|] eqn:G2; [|discriminate].
            apply andb_prop in Hc as [Hc C3]. apply andb_prop in Hc as [C1 C2].
            apply N.eqb_eq in C2.
            inversion Hro as [|? ? Hro1 Hro2]; subst.
            inversion Hk as [|? ? Hw1 Hk']; subst. inversion Hk' as [|? ? Hw2 _]; subst.
            assert (S1 : shift_ok s1 (ftok kr)).
            { apply chk_shift_ok. eapply (firsts_of_ok _ (chk_shift s1)); eauto. }
            destruct (chk_reduce_ok _ _ _ _ (nxt inp) C3 Hac Hro1) as [D3 A3].
            assert (Hl2 : last_state (top_state st) [ko; kr] = s2).
            { unfold last_state. cbn [fold_left]. rewrite Hr1, G1, Hr2, G2. reflexivity. }
            rewrite Hl2. split; [|split; assumption].
            cbn [kids_ok next_of]. exists s1. rewrite Hr1.
          refine (conj _ (conj _ (conj _ (conj _ (conj _ _))))); try assumption; try reflexivity.
            { rewrite left_ops_expr by congruence. constructor. }
            { rewrite right_ops_expr by congruence. constructor. }
            { destruct S1 as [_ (sx & _ & E)]. congruence. }
            exists s2. rewrite Hr2.
          refine (conj _ (conj _ (conj _ (conj _ (conj _ _))))); try assumption; try reflexivity.
            { rewrite C2. exact Hu. }
            { congruence. }
          + destruct (kids_ok_generic p s' (nxt inp) Hac kids true (top_state st) _ Hc Hr Hk)
              as (K1 & K2 & K3 & _); auto.
            intros _. destruct kids; [constructor|]. exact Hsh. }
      destruct Hmain as (K1 & K2 & K3).
      destruct (run_kids kids IH Hk Hpk st inp pk l K1) as (pk1 & l1 & R1 & L1 & M1 & T1).
      rewrite <- T1 in K2, K3.
      destruct (reduce_node p kids st s' inp pk1 l1 _ Hp Hr L1 M1 Hg K2 K3) as (pk2 & l2 & R2).
      exists pk2, l2. cbn [yield]. eapply reaches_trans; eassumption.
  Qed.
End Complete.

(** ** Soundness *)

(** every transition into [s] on the way back along [l] (reversed right-hand side) carries the right
    symbol, the stack cannot be exhausted, and the goto on the left-hand side exists *)
Definition preds (s : nat) : list (nat * sym) :=
  flat_map (fun r => match nth_error transitions r with
                     | Some tr => flat_map (fun x => if Nat.eqb (snd x) s then [(r, fst x)] else []) tr
                     | None => []
                     end) all_states.

Definition pred_rows : list (list (nat * sym)) := Eval vm_compute in map preds all_states.
Definition pred (s : nat) : list (nat * sym) := nth s pred_rows [].
Arguments pred : simpl never.

Definition chk_pred_complete : bool :=
  forallb (fun r => forallb (fun x => match goto r x with
     | Some s => existsb (fun q => Nat.eqb (fst q) r && sym_eqb (snd q) x) (pred s)
     | None => true end) all_syms) all_states.

Lemma pred_ok r x s : goto r x = Some s -> In (r, x) (pred s).
Proof.
  intros H.
  assert (C : forall r x, In r all_states -> In x all_syms ->
    match goto r x with
     | Some s => existsb (fun q => Nat.eqb (fst q) r && sym_eqb (snd q) x) (pred s)
     | None => true end = true).
  { apply (forallb2_In (fun r x => match goto r x with
     | Some s => existsb (fun q => Nat.eqb (fst q) r && sym_eqb (snd q) x) (pred s)
     | None => true end)). vm_compute. reflexivity. }
  specialize (C r x (in_all_states _ (goto_bound _ _ _ H)) (all_syms_complete x)).
  rewrite H in C. apply existsb_exists in C as [[r' x'] [Hin Hq]].
  cbn [fst snd] in Hq. apply andb_prop in Hq as [H1 H2].
  apply Nat.eqb_eq in H1. apply sym_eqb_eq in H2. now subst.
Qed.

Fixpoint chk_back (s : nat) (l : list sym) (n : nterm) : bool :=
  match l with
  | [] => is_some (goto s (NT n))
  | x :: l' =>
    negb (Nat.eqb s 0) &&
    forallb (fun q => sym_eqb (snd q) x && chk_back (fst q) l' n) (pred s)
  end.

(** reductions that the tables can make in a state *)
Definition chk_red (s p : nat) : bool :=
  Nat.ltb 0 p && Nat.ltb p nprods &&
  chk_back s (rev (rhs (get_prod p))) (lhs (get_prod p)) &&
  match binop p with
  | Some o =>
    onat_eqb (defaulted s) None &&
    forallb (fun q => N.eqb (ctx (fst q)) (lvl o)) (pred s)
  | None =>
    if is_unary p then
      onat_eqb (defaulted s) None &&
      forallb (fun q => N.eqb (ctx (fst q)) ulvl) (pred s)
    else true
  end.

Definition chk_action (s : nat) (a : term) : bool :=
  match action_at s a with
  | Some (Shift s1) =>
    onat_eqb (goto s (T a)) (Some s1) && negb (term_eqb a T_END) &&
    forallb (fun q => implb (sym_eqb (snd q) (NT Expr))
                            (N.eqb (lvl a) 0 || N.ltb (ctx (fst q)) (lvl a))) (pred s)
  | Some (Reduce p) =>
    chk_red s p &&
    match binop p with
    | Some o => N.leb (lvl a) (lvl o)
    | None => if is_unary p then N.leb (lvl a) ulvl else true
    end
  | Some Accept =>
    term_eqb a T_END && negb (Nat.eqb s 0) &&
    forallb (fun q => sym_eqb (snd q) (NT Expr) && Nat.eqb (fst q) 0) (pred s)
  | None => true
  end &&
  match defaulted s with Some p => chk_red s p | None => true end.

Lemma chk_action_all s a : s < nstates -> chk_action s a = true.
Proof.
  intros H.
  assert (C : forall s a, In s all_states -> In a all_terms -> chk_action s a = true).
  { apply forallb2_In. vm_compute. reflexivity. }
  apply C; [now apply in_all_states|apply all_terms_complete].
Qed.

Lemma zero_no_pred : pred 0 = [].
Proof. vm_compute. reflexivity. Qed.

Lemma goto_target r x s : goto r x = Some s -> s < nstates.
Proof.
  intros H.
  assert (C : forall r x, In r all_states -> In x all_syms ->
    match goto r x with Some s => Nat.ltb s nstates | None => true end = true).
  { apply (forallb2_In (fun r x => match goto r x with Some s => Nat.ltb s nstates | None => true end)).
    vm_compute. reflexivity. }
  specialize (C r x (in_all_states _ (goto_bound _ _ _ H)) (all_syms_complete x)).
  rewrite H in C. now apply Nat.ltb_lt.
Qed.

(** the stack spells a path of the automaton; subtrees are derivations that respect precedence, and
    neighbouring entries respect precedence *)
Inductive stack_ok : list (nat * ptree) -> Prop :=
| so_nil : stack_ok []
| so_cons s t st :
    stack_ok st -> goto (top_state st) (root t) = Some s -> wf t -> prec_ok t ->
    Forall (fun x => (ctx (top_state st) < x)%N) (left_ops t) ->
    (forall k s1 t1 st1, t = Leaf k -> st = (s1, t1) :: st1 -> root t1 = NT Expr ->
        Forall (fun x => (lvl (ttype k) <= x)%N) (right_ops t1) /\
        (lvl (ttype k) = 0%N \/ (ctx (top_state st1) < lvl (ttype k))%N)) ->
    stack_ok ((s, t) :: st).

Definition top_ok (c : config) : Prop :=
  match stk c with
  | [] => True
  | (_, t) :: _ =>
    right_ops t = [] \/
    (peeked c = true /\ Forall (fun x => (lvl (nxt (inp c)) <= x)%N) (right_ops t))
  end.

Definition stack_yield (st : list (nat * ptree)) : list tok :=
  flat_map yield (rev (map snd st)).

Definition inv (ts : list tok) (c : config) : Prop :=
  stack_ok (stk c) /\ top_ok c /\ stack_yield (stk c) ++ inp c = ts.

Lemma top_state_bound st : stack_ok st -> top_state st < nstates.
Proof.
  destruct 1; cbn [top_state]; [apply Nat.ltb_lt; reflexivity|]. eapply goto_target; eassumption.
Qed.

Lemma chk_back_stack l n : forall st,
  stack_ok st -> chk_back (top_state st) l n = true ->
  exists top rest, st = top ++ rest /\ map root (map snd top) = l /\
    length top = length l /\ exists s', goto (top_state rest) (NT n) = Some s'.
Proof.
  induction l as [|x l IH]; intros st Hst Hc; cbn [chk_back] in Hc.
  - exists [], st. repeat split.
    destruct (goto (top_state st) (NT n)); [eauto|discriminate].
  - apply andb_prop in Hc as [H0 Hc]. destruct st as [|[s t] st].
    + cbn in H0. discriminate.
    + inversion Hst as [|? ? ? Hst' Hg Hw Hp Hlo Hlf]; subst. cbn [top_state] in Hc.
      rewrite forallb_forall in Hc. specialize (Hc _ (pred_ok _ _ _ Hg)). cbn [fst snd] in Hc.
      apply andb_prop in Hc as [H1 H2]. apply sym_eqb_eq in H1.
      destruct (IH st Hst' H2) as (top & rest & E1 & E2 & E3 & E4).
      exists ((s, t) :: top), rest. subst st. cbn [map snd app length]. rewrite H1, E2, E3. auto.
Qed.

Lemma stack_ok_app top rest : stack_ok (top ++ rest) ->
  stack_ok rest /\ Forall wf (map snd top) /\ Forall prec_ok (map snd top).
Proof.
  induction top as [|[s t] top IH]; intros H; cbn [app map] in *.
  - repeat split; auto; constructor.
  - inversion H; subst. destruct IH as (I1 & I2 & I3); [assumption|].
    split; [assumption|split; constructor; assumption].
Qed.

Lemma stack_yield_app top rest :
  stack_yield (top ++ rest) = stack_yield rest ++ stack_yield top.
Proof.
  unfold stack_yield. rewrite map_app, rev_app_distr, flat_map_app. reflexivity.
Qed.

Lemma reduce_inv ts st i pk l p :
  inv ts (mkConfig st i pk l) ->
  chk_red (top_state st) p = true ->
  (forall o, binop p = Some o -> pk = true /\ (lvl (nxt i) <= lvl o)%N) ->
  (is_unary p = true -> pk = true /\ (lvl (nxt i) <= ulvl)%N) ->
  exists s' kids rest,
    reduce_by p st = Some ((s', Node p kids) :: rest) /\
    (exists top, st = top ++ rest /\ map root (map snd top) = rev (rhs (get_prod p)) /\
                 length top = length (rhs (get_prod p))) /\
    0 < p < nprods /\
    inv ts (mkConfig ((s', Node p kids) :: rest) i pk l).
Proof.
  intros (Hst & Htop & Hy) Hc Hbin Hun. cbn [stk inp] in *.
  unfold chk_red in Hc. apply andb_prop in Hc as [Hc C4]. apply andb_prop in Hc as [Hc C3].
  apply andb_prop in Hc as [C1 C2]. apply Nat.ltb_lt in C1. apply Nat.ltb_lt in C2.
  destruct (chk_back_stack _ _ _ Hst C3) as (top & rest & E1 & E2 & E3 & s' & E4).
  rewrite rev_length in E3. subst st.
  destruct (stack_ok_app _ _ Hst) as (S1 & S2 & S3).
  set (kids := rev (map snd top)).
  assert (Hroots : map root kids = rhs (get_prod p)).
  { unfold kids. rewrite map_rev, E2, rev_involutive. reflexivity. }
  assert (Hred : reduce_by p (top ++ rest) = Some ((s', Node p kids) :: rest)).
  { unfold reduce_by. rewrite <- E3.
    replace (Nat.ltb (length (top ++ rest)) (length top)) with false.
    2:{ symmetry. apply Nat.ltb_ge. rewrite app_length. lia. }
    rewrite firstn_app, firstn_all, Nat.sub_diag. cbn [firstn]. rewrite app_nil_r.
    rewrite skipn_app, skipn_all, Nat.sub_diag. cbn [skipn app]. rewrite E4. reflexivity. }
  exists s', kids, rest. split; [exact Hred|]. split; [exists top; auto|]. split; [lia|].
  assert (Hyield : stack_yield ((s', Node p kids) :: rest) = stack_yield (top ++ rest)).
  { change ((s', Node p kids) :: rest) with ([(s', Node p kids)] ++ rest).
    rewrite !stack_yield_app. f_equal. unfold stack_yield. cbn [map snd rev app flat_map yield].
    rewrite app_nil_r. reflexivity. }
  assert (Hwfk : Forall wf kids) by (unfold kids; now apply Forall_rev).
  assert (Hpk : Forall prec_ok kids) by (unfold kids; now apply Forall_rev).
  assert (Hwf : wf (Node p kids)) by (constructor; auto; lia).
  (* precedence facts *)
  assert (Hprec : prec_ok (Node p kids) /\
                  Forall (fun x => (ctx (top_state rest) < x)%N) (left_ops (Node p kids)) /\
                  (right_ops (Node p kids) = [] \/
                   (pk = true /\ Forall (fun x => (lvl (nxt i) <= x)%N) (right_ops (Node p kids))))).
  { cbn [left_ops right_ops].
    destruct (binop p) as [o|] eqn:Eb.
    - pose proof Eb as Eb'. unfold binop in Eb'.
      destruct (rhs (get_prod p)) as [|[|[]] [|[o'|] [|[|[]] [|? ?]]]] eqn:Er; try discriminate.
      injection Eb' as ->.
      destruct top as [|[sr kr] [|[so ko] [|[sl kl] [|? ?]]]]; try discriminate.
      cbn [map rev app snd] in kids, E2. subst kids.
      injection E2 as R3 R2 R1.
      cbn [app] in Hst. 
      inversion Hst as [|? ? ? Hst1 Hg1 Hw1 Hp1 Hl1 Hf1]; subst.
      inversion Hst1 as [|? ? ? Hst2 Hg2 Hw2 Hp2 Hl2 Hf2]; subst.
      inversion Hst2 as [|? ? ? Hst3 Hg3 Hw3 Hp3 Hl3 Hf3]; subst.
      cbn [top_state app] in *.
      destruct ko as [tk|? ?]; [|cbn [root] in R2; discriminate].
      cbn [root] in R2. injection R2 as R2.
      destruct (Hf2 tk sl kl rest eq_refl eq_refl R1) as [F1 F2]. rewrite R2 in F1, F2.
      apply andb_prop in C4 as [_ C4]. rewrite forallb_forall in C4.
      specialize (C4 _ (pred_ok _ _ _ Hg1)). cbn [fst] in C4. apply N.eqb_eq in C4.
      rewrite C4 in Hl1.
      destruct (Hbin o eq_refl) as [Hpk1 Hlv].
      pose proof (binop_lvl _ _ Eb) as Hpos.
      split; [|split].
      + constructor; auto.
        * intros o1 l1 k1 r1 Ho1 Hk1. injection Hk1 as <- <- <-.
          assert (o1 = o) by congruence. subst o1. auto.
        * intros k1 r1 Hu. unfold is_unary in Hu. rewrite Er in Hu. discriminate.
      + constructor; [|exact Hl3]. destruct F2 as [F2|F2]; [lia|exact F2].
      + right. split; [exact Hpk1|]. constructor; [exact Hlv|].
        unfold top_ok in Htop. cbn [stk peeked inp] in Htop.
        destruct Htop as [Htop|[_ Htop]]; [rewrite Htop; constructor|exact Htop].
    - destruct (is_unary p) eqn:Eu.
      + pose proof Eu as Eu'. unfold is_unary in Eu'.
        destruct (rhs (get_prod p)) as [|[[]|] [|[|[]] [|? ?]]] eqn:Er; try discriminate.
        destruct top as [|[sr kr] [|[so ko] [|? ?]]]; try discriminate.
        cbn [map rev app snd] in kids, E2. subst kids.
        injection E2 as R2 R1.
        cbn [app] in Hst.
        inversion Hst as [|? ? ? Hst1 Hg1 Hw1 Hp1 Hl1 Hf1]; subst.
        inversion Hst1 as [|? ? ? Hst2 Hg2 Hw2 Hp2 Hl2 Hf2]; subst.
        cbn [top_state app] in *.
        apply andb_prop in C4 as [_ C4]. rewrite forallb_forall in C4.
        specialize (C4 _ (pred_ok _ _ _ Hg1)). cbn [fst] in C4. apply N.eqb_eq in C4.
        rewrite C4 in Hl1.
        destruct (Hun eq_refl) as [Hpk1 Hlv].
        split; [|split; [constructor|]].
        * constructor; auto.
          -- intros o1 l1 k1 r1 Ho1. congruence.
          -- intros k1 r1 _ Hk1. injection Hk1 as <- <-. exact Hl1.
        * right. split; [exact Hpk1|]. constructor; [exact Hlv|].
          unfold top_ok in Htop. cbn [stk peeked inp] in Htop.
          destruct Htop as [Htop|[_ Htop]]; [rewrite Htop; constructor|exact Htop].
      + split; [|split; [constructor|left; reflexivity]].
        constructor; auto; congruence. }
  destruct Hprec as (P1 & P2 & P3).
  split; [|split].
  - cbn [stk]. constructor; auto. intros k s1 t1 st1 Hk. discriminate.
  - unfold top_ok. cbn [stk peeked inp]. exact P3.
  - cbn [stk inp]. rewrite Hyield. exact Hy.
Qed.

Definition no_end (ts : list tok) : Prop := Forall (fun k => ttype k <> T_END) ts.

(** one step of the loop keeps the invariant, and an accepted tree is a derivation of the input *)
Lemma step_inv ts e c :
  no_end ts -> inv ts c ->
  match step e c with
  | inl c' => inv ts c'
  | inr (Parsed t l) => derives ts t /\ l = None /\ e = EndEof
  | inr (SyntaxError l) => True
  | inr (LexError l) => e = EndErr
  | inr OutOfFuel => e = EndFuel
  end.
Proof.
  intros Hne Hinv. pose proof Hinv as (Hst & Htop & Hy).
  pose proof (top_state_bound _ Hst) as Hb.
  unfold step.
  destruct (defaulted (top_state (stk c))) as [p|] eqn:Ed.
  - pose proof (chk_action_all _ T_END Hb) as Hc. unfold chk_action in Hc.
    apply andb_prop in Hc as [_ Hc]. rewrite Ed in Hc.
    assert (Hnb : binop p = None /\ is_unary p = false).
    { unfold chk_red in Hc. apply andb_prop in Hc as [_ Hc].
      destruct (binop p); [rewrite Ed in Hc; discriminate|].
      destruct (is_unary p); [rewrite Ed in Hc; discriminate|]. auto. }
    destruct Hnb as [Hn1 Hn2].
    destruct c as [st i pk l]. cbn [stk inp peeked lastp] in *.
    destruct (reduce_inv ts st i pk l p Hinv Hc) as (s' & kids & rest & R & _ & _ & I'); try congruence.
    rewrite R. exact I'.
  - destruct c as [st i pk l]. cbn [stk inp peeked lastp] in *.
    pose proof (chk_action_all _ (nxt i) Hb) as Hc. unfold chk_action in Hc.
    apply andb_prop in Hc as [Hc _].
    assert (Hgen : (i <> [] \/ e = EndEof) ->
      match action_at (top_state st) (nxt i) with
      | Some (Shift s) =>
        match i with
        | t :: r => inl (mkConfig ((s, Leaf t) :: st) r false (match i with [] => None | t :: _ => Some (ttype t) end))
        | [] => inr OutOfFuel
        end
      | Some (Reduce p) =>
        match reduce_by p st with
        | Some st' => inl (mkConfig st' i true (match i with [] => None | t :: _ => Some (ttype t) end))
        | None => inr OutOfFuel
        end
      | Some Accept =>
        match st with
        | (_, t) :: _ => inr (Parsed t (match i with [] => None | t :: _ => Some (ttype t) end))
        | [] => inr OutOfFuel
        end
      | None => inr (SyntaxError (match i with [] => None | t :: _ => Some (ttype t) end))
      end = step e (mkConfig st i pk l)).
    { intros Hi. unfold step. cbn [stk inp]. rewrite Ed.
      destruct i as [|t i']; [|reflexivity]. destruct Hi as [Hi| ->]; [congruence|]. reflexivity. }
    assert (Hmain : (i <> [] \/ e = EndEof) ->
      match step e (mkConfig st i pk l) with
      | inl c' => inv ts c'
      | inr (Parsed t l) => derives ts t /\ l = None /\ e = EndEof
      | inr (SyntaxError l) => True
      | inr (LexError l) => e = EndErr
      | inr OutOfFuel => e = EndFuel
      end).
    { intros Hi. rewrite <- (Hgen Hi).
      destruct (action_at (top_state st) (nxt i)) as [[s1|p|]|] eqn:Ea; [| | |exact I].
      - (* shift *)
        apply andb_prop in Hc as [Hc C3]. apply andb_prop in Hc as [C1 C2].
        apply onat_eqb_eq in C1.
        destruct i as [|t i']; [discriminate|]. cbn [nxt] in *.
        split; [|split].
        + cbn [stk]. constructor; auto; [constructor|constructor|constructor|].
          intros k s2 t2 st2 Hk Hst2 Hroot. injection Hk as <-. subst st.
          inversion Hst as [|? ? ? Hst' Hg' Hw' Hp' Hlo' Hlf']; subst. cbn [top_state] in C3.
          rewrite forallb_forall in C3. specialize (C3 _ (pred_ok _ _ _ Hg')).
          cbn [fst snd] in C3. rewrite Hroot in C3. rewrite sym_eqb_refl in C3. cbn [implb] in C3.
          split.
          * unfold top_ok in Htop. cbn [stk peeked inp nxt] in Htop.
            destruct Htop as [Htop|[_ Htop]]; [rewrite Htop; constructor|exact Htop].
          * apply orb_prop in C3 as [C3|C3]; [left; now apply N.eqb_eq|right; now apply N.ltb_lt].
        + unfold top_ok. cbn [stk]. left. reflexivity.
        + cbn [stk inp]. rewrite <- Hy.
          change ((s1, Leaf t) :: st) with ([(s1, Leaf t)] ++ st). rewrite stack_yield_app.
          unfold stack_yield at 2. cbn [map snd rev app flat_map yield].
          rewrite <- app_assoc. reflexivity.
      - (* reduce *)
        apply andb_prop in Hc as [Hc1 Hc2].
        assert (Hinv' : inv ts (mkConfig st i true (match i with [] => None | t :: _ => Some (ttype t) end))).
        { split; [exact Hst|split; [|exact Hy]]. unfold top_ok in *. cbn [stk peeked inp] in *.
          destruct st as [|[s0 t0] st0]; [exact I|]. destruct Htop as [Ht|[_ Ht]]; auto. }
        destruct (reduce_inv ts st i true _ p Hinv' Hc1) as (s' & kids & rest & R & _ & _ & I').
        { intros o Ho. rewrite Ho in Hc2. split; auto. now apply N.leb_le. }
        { intros Hu. destruct (binop p) eqn:Eb.
          - exfalso. unfold binop, is_unary in *. destruct (rhs (get_prod p)) as [|[[]|[]] [|[|[]] [|? ?]]]; discriminate.
          - rewrite Hu in Hc2. split; auto. now apply N.leb_le. }
        rewrite R. exact I'.
      - (* accept *)
        apply andb_prop in Hc as [Hc C3]. apply andb_prop in Hc as [C1 C2].
        apply term_eqb_eq in C1.
        assert (i = []).
        { destruct i as [|t i']; [reflexivity|]. exfalso. cbn [nxt] in C1.
          unfold no_end in Hne. rewrite Forall_forall in Hne. apply (Hne t); [|exact C1].
          rewrite <- Hy. apply in_or_app. right. left. reflexivity. }
        subst i. destruct Hi as [Hi|He]; [congruence|].
        destruct st as [|[s t] st].
        + cbn [top_state] in C2. discriminate.
        + inversion Hst as [|? ? ? Hst' Hg' Hw' Hp' Hlo' Hlf']; subst. cbn [top_state] in C3.
          rewrite forallb_forall in C3. specialize (C3 _ (pred_ok _ _ _ Hg')). cbn [fst snd] in C3.
          apply andb_prop in C3 as [C3 C4]. apply sym_eqb_eq in C3. apply Nat.eqb_eq in C4.
          repeat split; auto.
          destruct st as [|[s2 t2] st2].
          * unfold stack_yield. cbn. rewrite !app_nil_r. reflexivity.
          * exfalso. inversion Hst' as [|? ? ? Hst2 Hg2 ? ? ? ?]; subst. cbn [top_state] in C4.
            subst s2. apply pred_ok in Hg2. rewrite zero_no_pred in Hg2. exact Hg2. }
    destruct i as [|t i']; [destruct e|].
    + specialize (Hmain (or_intror eq_refl)). unfold step in Hmain. cbn [stk inp] in Hmain.
      rewrite Ed in Hmain. exact Hmain.
    + reflexivity.
    + reflexivity.
    + assert (Hi : t :: i' <> [] \/ e = EndEof) by (left; discriminate).
      specialize (Hmain Hi). unfold step in Hmain. cbn [stk inp] in Hmain.
      rewrite Ed in Hmain. exact Hmain.
Qed.
