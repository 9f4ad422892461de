(** Proofs about Namespaces.v *)
From Coq Require Import List Arith Lia NArith Bool.
From Verif Require Import PyStr Namespaces.
Import ListNotations.

Lemma ostr_refl p : ostr_eqb p p = true. Proof. now apply ostr_eqb_eq. Qed.
Lemma nget_nset p x q d : nget q (nset p x d) = if ostr_eqb p q then Some x else nget q d.
Proof.
  induction d as [|[k v] d IH]; cbn; [reflexivity|]. destruct (ostr_eqb k p) eqn:E; cbn.
  - apply ostr_eqb_eq in E as ->. destruct (ostr_eqb p q); reflexivity.
  - rewrite IH. destruct (ostr_eqb p q) eqn:E2; [|reflexivity]. apply ostr_eqb_eq in E2 as ->. now rewrite E.
Qed.
Lemma nget_In p x d : nget p d = Some x -> In (p, x) d.
Proof. induction d as [|[k v] d IH]; cbn; [discriminate|]. destruct (ostr_eqb k p) eqn:E; [|auto]. apply ostr_eqb_eq in E as ->. intros [= ->]. now left. Qed.
Lemma nget_notin p d : ~ In p (map fst d) -> nget p d = None.
Proof. intros H. destruct (nget p d) eqn:E; [|reflexivity]. apply nget_In, (in_map fst) in E. contradiction. Qed.
Lemma nget_nupdate p e : forall d, NoDup (map fst e) -> nget p (nupdate d e) = match nget p e with Some x => Some x | None => nget p d end.
Proof.
  unfold nupdate. induction e as [|[k v] e IH]; intros d H; cbn; [reflexivity|]. inversion H as [|? ? Hx H']; subst. rewrite IH by assumption. cbn. rewrite nget_nset.
  destruct (ostr_eqb k p) eqn:E; [|reflexivity]. apply ostr_eqb_eq in E as ->. now rewrite (nget_notin _ _ Hx).
Qed.
Lemma accepts_nset p x d : truthy p = true -> lxml_accepts d = true -> lxml_accepts (nset p x d) = true.
Proof.
  intros Hp. induction d as [|[k v] d IH]; cbn; [now rewrite Hp|]. intros H. apply andb_true_iff in H as [H1 H2]. destruct (ostr_eqb k p); cbn; rewrite ?H1, ?H2; auto.
Qed.
Lemma accepts_nupdate e : forall d, lxml_accepts e = true -> lxml_accepts d = true -> lxml_accepts (nupdate d e) = true.
Proof.
  unfold nupdate. induction e as [|[k v] e IH]; intros d He Hd; cbn; [assumption|]. cbn in He. apply andb_true_iff in He as [H1 H2]. apply IH; [assumption|]. now apply accepts_nset.
Qed.
Lemma accepts_doc m : lxml_accepts (doc_namespaces m) = true.
Proof. unfold lxml_accepts, doc_namespaces. apply forallb_forall. intros x Hx. now apply filter_In in Hx. Qed.
Lemma nget_doc p m : truthy p = true -> nget p (doc_namespaces m) = nget p m.
Proof.
  intros Hp. induction m as [|[k v] m IH]; cbn; [reflexivity|]. destruct (truthy k) eqn:Ek; cbn.
  - destruct (ostr_eqb k p); [reflexivity|assumption].
  - destruct (ostr_eqb k p) eqn:E; [|assumption]. apply ostr_eqb_eq in E as ->. congruence.
Qed.

Lemma nth_set_nth {A} (x : A) : forall l i j, nth_error (set_nth i x l) j = if (i =? j) && (j <? length l) then Some x else nth_error l j.
Proof.
  induction l as [|y l IH]; intros i j; cbn [set_nth].
  - rewrite andb_false_r. destruct i; reflexivity.
  - destruct i, j; cbn; try reflexivity. rewrite IH. reflexivity.
Qed.
Lemma set_nth_length {A} (x : A) : forall l i, length (set_nth i x l) = length l.
Proof. induction l as [|y l IH]; intros [|i]; cbn; auto. Qed.

(** every dictionary is acceptable, if the ones put in are *)
Definition clean_op (o : op) : Prop :=
  match o with ODict d => lxml_accepts d = true | OInit r n _ => lxml_accepts r = true /\ NoDup (map fst r) end.
Definition says (p : str) (x : str) (o : op) : Prop :=
  match o with OInit r _ (Some _) => nget (Some p) r = None \/ nget (Some p) r = Some x | _ => True end.

(** one operation: the dictionaries already there change only by what shares them *)
Lemma step_dicts h o r d : clean_op o -> nth_error (h_dicts h) r = Some d -> exists d', nth_error (h_dicts (step h o)) r = Some d' /\
  (lxml_accepts d = true -> lxml_accepts d' = true) /\
  (match o with OInit root _ (Some r') => if r' =? r then d' = nupdate d root else d' = d | _ => d' = d end).
Proof.
  intros Hc Hr. assert (Hlt : r < length (h_dicts h)) by (apply nth_error_Some; congruence). destruct o as [d0|root nsmap [r'|]]; cbn.
  - exists d. split; [rewrite nth_error_app1; auto|auto].
  - cbn in Hc. destruct (nth_error (h_dicts h) r') as [dr|] eqn:Er; cbn.
    + rewrite nth_set_nth. destruct (Nat.eqb_spec r' r) as [->|N]; cbn [andb].
      * apply Nat.ltb_lt in Hlt. rewrite Hlt. rewrite Hr in Er. injection Er as <-. eexists. split; [reflexivity|]. split; [|reflexivity]. apply accepts_nupdate. apply Hc.
      * exists d. auto.
    + exists d. split; [assumption|]. split; [auto|]. destruct (Nat.eqb_spec r' r) as [->|N]; [congruence|reflexivity].
  - exists d. split; [rewrite nth_error_app1; auto|auto].
Qed.

Lemma steps_declared p x : forall ops h r d, (forall o, In o ops -> clean_op o /\ says p x o) -> nth_error (h_dicts h) r = Some d -> lxml_accepts d = true -> nget (Some p) d = Some x ->
  exists d', nth_error (h_dicts (fold_left step ops h)) r = Some d' /\ lxml_accepts d' = true /\ nget (Some p) d' = Some x.
Proof.
  induction ops as [|o ops IH]; intros h r d Ho Hr Ha Hg; [exists d; auto|]. cbn [fold_left]. destruct (Ho o (or_introl eq_refl)) as [Hc Hs].
  destruct (step_dicts h o r d Hc Hr) as (d' & H1 & H2 & H3). apply (IH (step h o) r d'); auto; [intros o' Ho'; apply Ho; now right|].
  destruct o as [d0|root nsmap [r'|]]; try (now subst d'). cbn in Hc, Hs. destruct (r' =? r); [|now subst d']. subst d'. rewrite nget_nupdate by apply Hc. destruct Hs as [-> | ->]; auto.
Qed.
Lemma steps_unshared : forall ops h r d, (forall o, In o ops -> clean_op o /\ match o with OInit _ _ (Some r') => r' <> r | _ => True end) -> nth_error (h_dicts h) r = Some d ->
  nth_error (h_dicts (fold_left step ops h)) r = Some d.
Proof.
  induction ops as [|o ops IH]; intros h r d Ho Hr; [assumption|]. cbn [fold_left]. destruct (Ho o (or_introl eq_refl)) as [Hc Hs].
  destruct (step_dicts h o r d Hc Hr) as (d' & H1 & H2 & H3). apply IH; [intros o' Ho'; apply Ho; now right|].
  destruct o as [d0|root nsmap [r'|]]; try (now subst d'). apply Nat.eqb_neq in Hs. rewrite Hs in H3. now subst d'.
Qed.
Lemma all_accept ops : forall h, (forall o, In o ops -> clean_op o) -> (forall r d, nth_error (h_dicts h) r = Some d -> lxml_accepts d = true) ->
  forall r d, nth_error (h_dicts (fold_left step ops h)) r = Some d -> lxml_accepts d = true.
Proof.
  induction ops as [|o ops IH]; intros h Ho Hh r d Hr; [eauto|]. cbn [fold_left] in Hr. apply (IH (step h o)) with (r := r); auto; [intros o' Ho'; apply Ho; now right|].
  clear r d Hr. intros r d Hr. specialize (Ho o (or_introl eq_refl)). destruct (Nat.lt_ge_cases r (length (h_dicts h))) as [Hlt|Hge].
  - destruct (nth_error (h_dicts h) r) as [d0|] eqn:E; [|apply nth_error_None in E; lia]. destruct (step_dicts h o r d0 Ho E) as (d' & H1 & H2 & _). rewrite Hr in H1. injection H1 as <-. eauto.
  - destruct o as [d0|root nsmap [r'|]]; cbn in Hr, Ho.
    + rewrite nth_error_app2 in Hr by assumption. destruct (r - length (h_dicts h)) as [|j]; [|destruct j; discriminate]. injection Hr as <-. assumption.
    + destruct (nth_error (h_dicts h) r'); cbn in Hr; [rewrite nth_set_nth in Hr|]; [|eauto]. assert (E : r <? length (h_dicts h) = false) by (apply Nat.ltb_ge; assumption). rewrite E, andb_false_r in Hr. eauto.
    + rewrite nth_error_app2 in Hr by assumption. destruct (r - length (h_dicts h)) as [|j]; [|destruct j; discriminate]. injection Hr as <-. apply accepts_nupdate; [apply Ho|apply accepts_doc].
Qed.
Lemma run_app a b : run (a ++ b) = fold_left step b (run a).
Proof. unfold run. now rewrite fold_left_app. Qed.
Lemma nth_app_keep {A} (a b : list A) i x : nth_error a i = Some x -> nth_error (a ++ b) i = Some x.
Proof. intros H. rewrite nth_error_app1; [assumption|]. apply nth_error_Some. congruence. Qed.
