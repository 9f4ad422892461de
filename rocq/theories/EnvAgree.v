(** The supported class only looks at the namespaces an XPath mentions: a context that also binds other prefixes
    (those of the document, core.py:320-333) classifies the XPath in the same way. *)
From Coq Require Import String Arith.
From Verif Require Export FieldSpec IndepSpec ListSpec.
From Verif Require Import XPathEval.

(** every prefix in the XPath is declared in [l] and there are no variables *)
Definition declared (l : list (str * str)) (p : option str) : bool :=
  match p with None => true | Some x => match lookup x l with Some _ => true | None => false end end.
Fixpoint names_declared (l : list (str * str)) (e : expr) : bool :=
  match e with
  | EStep _ (NameTest p _) ps => declared l p && forallb (names_declared l) ps
  | EStep _ _ ps => forallb (names_declared l) ps
  | EBin a _ b => names_declared l a && names_declared l b
  | EUnary _ a => names_declared l a
  | EPred b ps => names_declared l b && forallb (names_declared l) ps
  | EAbs _ (Some a) => names_declared l a
  | ECall _ _ ps => forallb (names_declared l) ps
  | EVar _ _ => false
  | _ => true
  end.
(** the context binds at least the prefixes of [l], in that way *)
Definition binds (E : env) (l : list (str * str)) : Prop := forall p x, lookup p l = Some x -> ns_of E p = Some x.
Definition just (l : list (str * str)) : env := mkEnv (Some l) [].

Section A.
Variables (E : env) (l : list (str * str)).
Hypothesis B : binds E l.

Lemma resolve_agree p : declared l p = true -> resolve E p = resolve (just l) p.
Proof.
  destruct p as [x|]; [|reflexivity]. cbn [declared resolve]. change (ns_of (just l) x) with (lookup x l). destruct (lookup x l) as [y|] eqn:H; [|discriminate]. intros _. now rewrite (B _ _ H).
Qed.
Lemma kind_agree s : names_declared l s = true -> kind E s = kind (just l) s.
Proof.
  destruct s as [| | | | | | |ax [p nm|nm o] ps| | |]; try reflexivity. cbn [names_declared kind]. intros H. apply andb_prop in H as [H _].
  now rewrite (resolve_agree _ H).
Qed.
Lemma last_declared e s : names_declared l e = true -> last_step e = Some s -> names_declared l s = true.
Proof.
  destruct e as [| | | |a op b| | |ax t ps| | |]; try discriminate; cbn [last_step].
  - intros H. destruct b; try discriminate. destruct (str_eqb op _); [|discriminate]. intros Hs. injection Hs as <-. cbn [names_declared] in H. now apply andb_prop in H as [_ H].
  - intros H Hs. now injection Hs as <-.
Qed.
Lemma lkind_agree e : names_declared l e = true -> lkind E e = lkind (just l) e.
Proof. intros H. unfold lkind. destruct (last_step e) as [s|] eqn:Hs; [|reflexivity]. apply kind_agree. eapply last_declared; eauto. Qed.
Lemma lead_declared e : names_declared l e = true -> names_declared l (lead_step e) = true.
Proof. induction e as [| | | |a op b IHa IHb| | | |ax t ps H| | |] using expr_ind'; intros Hn; try exact Hn. cbn [names_declared lead_step] in *. apply andb_prop in Hn as [Hn _]. auto. Qed.
Lemma fkind_agree e : names_declared l e = true -> fkind E e = fkind (just l) e.
Proof. intros H. apply kind_agree. now apply lead_declared. Qed.
Lemma preds_declared s : names_declared l s = true -> forallb (names_declared l) (preds_of s) = true.
Proof. destruct s as [| | | | | | |ax [p nm|nm o] ps| | |]; try reflexivity; cbn [names_declared preds_of]; [intros H; now apply andb_prop in H as [_ H]|auto]. Qed.
Lemma forallb_agree {A} (f g h : A -> bool) ps : (forall x, In x ps -> f x = true -> g x = h x) -> forallb f ps = true -> forallb g ps = forallb h ps.
Proof. intros H Hf. rewrite forallb_forall in Hf. induction ps as [|x ps IH]; [reflexivity|]. cbn. rewrite (H x), IH; [reflexivity| | | |]; firstorder. Qed.
Lemma avoids_agree ps k : forallb (names_declared l) ps = true -> avoids E ps k = avoids (just l) ps k.
Proof. apply forallb_agree. intros x _ Hx. now rewrite (fkind_agree _ Hx). Qed.
Lemma attr_only_agree ps : forallb (names_declared l) ps = true -> attr_only E ps = attr_only (just l) ps.
Proof. apply forallb_agree. intros x _ Hx. now rewrite (fkind_agree _ Hx). Qed.
Lemma direct_agree ps : forallb (names_declared l) ps = true -> flat_map (direct_attr E) ps = flat_map (direct_attr (just l)) ps.
Proof.
  induction ps as [|p ps IH]; [reflexivity|]. cbn [forallb flat_map]. intros H. apply andb_prop in H as [H H']. rewrite (IH H'). unfold direct_attr at 1 3. now rewrite (fkind_agree _ H).
Qed.
Lemma end_preds_declared e : names_declared l e = true -> forallb (names_declared l) (end_preds e) = true.
Proof. intros H. unfold end_preds. destruct (last_step e) eqn:Hs; [|reflexivity]. apply preds_declared. eapply last_declared; eauto. Qed.
Lemma joins_agree a b : names_declared l a = true -> names_declared l b = true -> joins E a b = joins (just l) a b.
Proof.
  intros Ha Hb. unfold joins. destruct a; try reflexivity; rewrite (kind_agree _ Hb);
  (destruct (last_step _) as [s|] eqn:Hs; [|reflexivity]); pose proof (last_declared _ _ Ha Hs) as Hd; rewrite (kind_agree _ Hd);
  (destruct (kind (just l) b); [|reflexivity]); now rewrite (avoids_agree _ _ (preds_declared _ Hd)).
Qed.
Lemma rvalue_agree r : names_declared l r = true -> rvalue_ok E r = rvalue_ok (just l) r.
Proof. now destruct r. Qed.
Lemma value_valid_agree f r : names_declared l r = true -> value_valid E f r = value_valid (just l) f r.
Proof. now destruct r. Qed.

Lemma ok_agree e : forall dot, names_declared l e = true -> ok E dot e = ok (just l) dot e.
Proof.
  induction e as [| | | |a op b IHa IHb| | | |ax t ps H| | |] using expr_ind'; intros dot Hn; try reflexivity.
  - cbn [names_declared] in Hn. apply andb_prop in Hn as [Ha Hb]. cbn [ok]. rewrite (IHa dot Ha), (IHa false Ha), (IHb false Hb), (joins_agree _ _ Ha Hb), (rvalue_agree _ Hb). reflexivity.
  - cbn [ok]. rewrite (kind_agree _ Hn). pose proof (preds_declared _ Hn) as Hp. cbn [preds_of] in Hp. rewrite (direct_agree _ Hp).
    destruct (kind (just l) (EStep ax t ps)) as [[q|q|]|]; try reflexivity. f_equal.
    eapply forallb_agree; [|exact Hp]. intros x Hx Hd. rewrite Forall_forall in H. rewrite (H x Hx false Hd). f_equal. f_equal. f_equal.
    destruct x; try (apply lkind_agree; exact Hd). destruct (str_eqb op (u "=")); [|apply lkind_agree; exact Hd].
    cbn [names_declared] in Hd. apply andb_prop in Hd as [Hd _]. now apply lkind_agree.
Qed.
Theorem supported_agree e : names_declared l e = true -> supported_path E e = supported_path (just l) e.
Proof. intros H. unfold supported_path. now rewrite (ok_agree e true H). Qed.
Theorem tame_agree f e : names_declared l e = true -> tame E f e = tame (just l) f e.
Proof.
  induction e as [| | | |a op b IHa IHb| | | |ax t ps H| | |] using expr_ind'; intros Hn; try reflexivity.
  - cbn [names_declared] in Hn. apply andb_prop in Hn as [Ha Hb]. cbn [tame]. rewrite (IHa Ha), (IHb Hb), (value_valid_agree _ _ Hb), (attr_only_agree _ (end_preds_declared _ Ha)). reflexivity.
  - cbn [tame]. pose proof (preds_declared _ Hn) as Hp. cbn [preds_of] in Hp. eapply forallb_agree; [|exact Hp]. intros x Hx Hd. rewrite Forall_forall in H. auto.
Qed.
Theorem bare_agree e : names_declared l e = true -> bare_end E e = bare_end (just l) e.
Proof.
  intros Hn. unfold bare_end. destruct e; try (apply attr_only_agree; apply (preds_declared _ Hn)).
  cbn [names_declared] in Hn. apply andb_prop in Hn as [Ha Hb]. now rewrite (attr_only_agree _ (preds_declared _ Hb)), (attr_only_agree _ (end_preds_declared _ Ha)), (kind_agree _ Hb).
Qed.
Theorem list_field_agree e : names_declared l e = true -> list_field E e = list_field (just l) e.
Proof. intros H. unfold list_field. now rewrite (supported_agree _ H), (lkind_agree _ H), (tame_agree _ _ H), (bare_agree _ H). Qed.
Theorem first_kind_agree e : names_declared l e = true -> first_kind E e = first_kind (just l) e.
Proof.
  intros H. unfold first_kind. enough (G : forall s, In s (steps_of e) -> names_declared l s = true).
  { destruct (steps_of e) as [|s r]; [reflexivity|]. apply kind_agree, G. now left. }
  induction e as [| | | |a op b IHa IHb| | | |ax t ps H0| | |] using expr_ind'; intros st Hs; try contradiction.
  - cbn [names_declared steps_of] in *. apply andb_prop in H as [Ha Hb]. apply in_app_or in Hs as [Hs|[<-|[]]]; auto.
  - destruct Hs as [<-|[]]. exact H.
Qed.
End A.
