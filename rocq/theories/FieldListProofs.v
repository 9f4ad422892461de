(** Proofs about FieldLists.v *)
From Coq Require Import String List Arith NArith Bool Lia.
From Verif Require Import PyStr Classes ClassProofs FieldLists.
Import ListNotations.
Opaque u.

(** ** splitting at a character and joining again *)
Fixpoint joinc (c : N) (p : list str) : str :=
  match p with [] => [] | [x] => x | x :: r => x ++ c :: joinc c r end.
Definition free (c : N) (s : str) : Prop := ~ In c s.

Lemma split_nonnil c s : split_on c s <> [].
Proof. destruct s; cbn; [discriminate|]. destruct (n =? c)%N; [discriminate|]. destruct (split_on c s); discriminate. Qed.
Lemma split_free c s : Forall (free c) (split_on c s).
Proof.
  induction s as [|x s IH]; cbn; [constructor; [intros []|constructor]|]. destruct (N.eqb_spec x c) as [->|N]; [constructor; [intros []|assumption]|].
  destruct (split_on c s) as [|w ws]; [constructor; [|constructor]; intros [H|[]]; auto|]. inversion IH; subst. constructor; [|assumption]. intros [H|H]; [auto|contradiction].
Qed.
Lemma join_split c s : joinc c (split_on c s) = s.
Proof.
  induction s as [|x s IH]; cbn; [reflexivity|]. destruct (N.eqb_spec x c) as [->|N].
  - cbn. pose proof (split_nonnil c s). destruct (split_on c s); [contradiction|]. cbn [app]. now rewrite IH.
  - destruct (split_on c s) as [|w ws] eqn:E; [now apply split_nonnil in E|]. destruct ws; cbn in *; now rewrite <- IH.
Qed.
Lemma split_app c x s : free c x -> split_on c (x ++ c :: s) = x :: split_on c s.
Proof.
  induction x as [|y x IH]; cbn; intros H; [now rewrite N.eqb_refl|]. destruct (N.eqb_spec y c) as [->|N]; [exfalso; apply H; now left|].
  rewrite IH; [reflexivity|]. intros G. apply H. now right.
Qed.
Lemma split_single c x : free c x -> split_on c x = [x].
Proof.
  induction x as [|y x IH]; cbn; intros H; [reflexivity|]. destruct (N.eqb_spec y c) as [->|N]; [exfalso; apply H; now left|].
  rewrite IH; [reflexivity|]. intros G. apply H. now right.
Qed.
Lemma split_join c p : p <> [] -> Forall (free c) p -> split_on c (joinc c p) = p.
Proof.
  induction p as [|x [|y p] IH]; [contradiction| |]; intros _ H; inversion H; subst.
  - now apply split_single.
  - change (joinc c (x :: y :: p)) with (x ++ c :: joinc c (y :: p)). rewrite split_app by assumption. f_equal. apply IH; [discriminate|assumption].
Qed.
Lemma In_split c p names : p <> [] -> Forall (free c) p -> In p (map (split_on c) names) <-> In (joinc c p) names.
Proof.
  intros Hp Hf. rewrite in_map_iff. split.
  - intros (s & <- & Hs). now rewrite join_split.
  - intros H. exists (joinc c p). split; [now apply split_join|assumption].
Qed.

(** ** the loop *)
(** what the names say about the fields below [n] *)
Definition below (n : str) (p : list str) : list (list str) :=
  match p with h :: x :: r => if str_eqb h n then [x :: r] else [] | _ => [] end.
Definition heads (p : list str) : list str := match p with [] => [] | h :: _ => [h] end.
Definition leaves (p : list str) : list str := match p with [h] => [h] | _ => [] end.

Lemma dget_dappend {A} k (x : A) n d :
  dget n (dappend k x d) = if str_eqb k n then Some (match dget n d with Some l => l ++ [x] | None => [x] end) else dget n d.
Proof.
  induction d as [|[k' l] d IH]; cbn; [reflexivity|]. destruct (str_eqb_spec k' k) as [->|N]; cbn.
  - destruct (str_eqb k n); reflexivity.
  - rewrite IH. destruct (str_eqb_spec k n) as [->|N2]; [|reflexivity]. apply str_eqb_neq in N. now rewrite N.
Qed.
Lemma dget_map {A B} (f : A -> B) n d : dget n (map (fun ks => (fst ks, f (snd ks))) d) = option_map f (dget n d).
Proof. induction d as [|[k v] d IH]; cbn; [reflexivity|]. destruct (str_eqb k n); auto. Qed.

Lemma loop_subs incl n : forall pls fields subs,
  dget n (snd (fold_left (collect1 incl) pls (fields, subs))) =
  match dget n subs, flat_map (below n) pls with
  | Some l, r => Some (l ++ r)
  | None, [] => None
  | None, r => Some r
  end.
Proof.
  induction pls as [|p pls IH]; intros fields subs; cbn [fold_left flat_map snd].
  - destruct (dget n subs); [now rewrite app_nil_r|reflexivity].
  - destruct p as [|h [|x r]]; cbn [collect1 below app]; try apply IH. rewrite IH, dget_dappend.
    destruct (str_eqb_spec h n) as [->|N]; [|reflexivity]. destruct (dget n subs); cbn [app]; [now rewrite <- app_assoc|reflexivity].
Qed.

Lemma loop_fields_excl : forall pls fields subs,
  fst (fold_left (collect1 false) pls (fields, subs)) = fields ++ flat_map leaves pls.
Proof.
  induction pls as [|p pls IH]; intros fields subs; cbn [fold_left flat_map fst]; [now rewrite app_nil_r|].
  destruct p as [|h [|x r]]; cbn [collect1 leaves andb app]; rewrite IH; [reflexivity| |reflexivity]. now rewrite <- app_assoc.
Qed.

(** first occurrences, in order *)
Fixpoint firsts_from (seen l : list str) : list str :=
  match l with [] => [] | x :: r => if str_mem x seen then firsts_from seen r else x :: firsts_from (x :: seen) r end.
Definition firsts (l : list str) : list str := firsts_from [] l.

Lemma str_mem_ext x l m : (forall y, In y l <-> In y m) -> str_mem x l = str_mem x m.
Proof. intros H. apply eq_true_iff_eq. rewrite !str_mem_In. apply H. Qed.
Lemma firsts_from_ext l : forall s s', (forall y, In y s <-> In y s') -> firsts_from s l = firsts_from s' l.
Proof.
  induction l as [|x l IH]; intros s s' H; cbn; [reflexivity|]. rewrite (str_mem_ext x s s' H). destruct (str_mem x s'); [now apply IH|].
  f_equal. apply IH. intros y. cbn. rewrite (H y). tauto.
Qed.
Lemma firsts_from_app l : forall s m, firsts_from s (l ++ m) = firsts_from s l ++ firsts_from (l ++ s) m.
Proof.
  induction l as [|x l IH]; intros s m; cbn; [reflexivity|]. destruct (str_mem x s) eqn:E.
  - rewrite IH. f_equal. apply firsts_from_ext. intros y. cbn. split; [auto|]. intros [<-|H]; [apply in_or_app; right; now apply str_mem_In|assumption].
  - rewrite IH. cbn. f_equal. f_equal. apply firsts_from_ext. intros y. cbn. rewrite !in_app_iff. cbn. tauto.
Qed.
Lemma firsts_app_one l x : firsts (l ++ [x]) = firsts l ++ (if str_mem x l then [] else [x]).
Proof. unfold firsts. rewrite firsts_from_app. cbn. rewrite app_nil_r. destruct (str_mem x l); reflexivity. Qed.
Lemma firsts_from_In l : forall s x, In x (firsts_from s l) <-> In x l /\ ~ In x s.
Proof.
  induction l as [|y l IH]; intros s x; cbn; [tauto|]. destruct (str_mem y s) eqn:E.
  - apply str_mem_In in E. rewrite IH. split; [tauto|]. intros [[<-|H] Hn]; [contradiction|tauto].
  - assert (Ey : ~ In y s) by (rewrite <- str_mem_In; congruence). cbn. rewrite IH. cbn. destruct (str_eqb_spec y x) as [->|N]; [tauto|]. split; [intros [H|[H1 H2]]; tauto|]. intros [[H|H] Hn]; [tauto|]. right. split; [assumption|]. intros [G|G]; tauto.
Qed.
Lemma firsts_In l x : In x (firsts l) <-> In x l.
Proof. unfold firsts. rewrite firsts_from_In. cbn. tauto. Qed.
Lemma firsts_from_NoDup l : forall s, NoDup (firsts_from s l).
Proof.
  induction l as [|y l IH]; intros s; cbn; [constructor|]. destruct (str_mem y s); [apply IH|]. constructor; [|apply IH]. rewrite firsts_from_In. cbn. tauto.
Qed.
Lemma firsts_NoDup l : NoDup (firsts l). Proof. apply firsts_from_NoDup. Qed.

Lemma loop_fields_incl : forall pls fields subs ments, firsts fields = firsts ments -> (forall x, In x fields <-> In x ments) ->
  let r := fst (fold_left (collect1 true) pls (fields, subs)) in
  firsts r = firsts (ments ++ flat_map heads pls) /\ (forall x, In x r <-> In x (ments ++ flat_map heads pls)).
Proof.
  induction pls as [|p pls IH]; intros fields subs ments Hf Hi; cbn [fold_left flat_map fst].
  - rewrite app_nil_r. auto.
  - assert (G : forall h, firsts (fields ++ [h]) = firsts (ments ++ [h]) /\ (forall x, In x (fields ++ [h]) <-> In x (ments ++ [h]))).
    { intros h. split; [rewrite !firsts_app_one, Hf, (str_mem_ext h fields ments Hi); reflexivity|]. intros x. rewrite !in_app_iff, Hi. tauto. }
    destruct p as [|h [|x r]]; cbn [collect1 heads andb app].
    + now apply IH.
    + replace (ments ++ h :: flat_map heads pls) with ((ments ++ [h]) ++ flat_map heads pls) by now rewrite <- app_assoc. apply IH; apply G.
    + replace (ments ++ h :: flat_map heads pls) with ((ments ++ [h]) ++ flat_map heads pls) by now rewrite <- app_assoc.
      destruct (str_mem h fields) eqn:E; cbn [negb]; [|apply IH; apply G]. apply IH.
      * rewrite firsts_app_one, <- (str_mem_ext h fields ments Hi), E, app_nil_r. assumption.
      * intros y. rewrite in_app_iff, <- Hi. cbn. apply str_mem_In in E. intuition congruence.
Qed.

(** ** levels *)
Fixpoint level (t : pfl) (path : list str) : option pfl :=
  match path with
  | [] => Some t
  | n :: r => match dget n (p_subs t) with Some t' => level t' r | None => None end
  end.
(** the names that go on below [path], without it *)
Fixpoint strip (path p : list str) : option (list str) :=
  match path, p with
  | [], _ => Some p
  | n :: r, h :: q => if str_eqb h n then strip r q else None
  | _, [] => None
  end.
Definition under (path p : list str) : list (list str) :=
  match strip path p with Some (x :: r) => [x :: r] | _ => [] end.

Lemma longest_le pls p : In p pls -> length p <= longest pls.
Proof. unfold longest. induction pls as [|q pls IH]; cbn [fold_right In]; [tauto|]. intros [->|H]; [lia|]. apply IH in H. lia. Qed.
Lemma longest_pos pls : 1 <= longest pls. Proof. unfold longest. induction pls as [|q pls IH]; cbn [fold_right]; lia. Qed.

Lemma under_below path n p : flat_map (under path) (below n p) = under (n :: path) p.
Proof.
  unfold under. destruct p as [|h [|x r]]; cbn [below strip flat_map]; [reflexivity| |].
  - destruct (str_eqb h n); [|reflexivity]. destruct path; reflexivity.
  - destruct (str_eqb h n); cbn [flat_map]; [|reflexivity]. now rewrite app_nil_r.
Qed.
Lemma flat_map_map {A B C} (f : A -> list B) (g : B -> list C) l : flat_map g (flat_map f l) = flat_map (fun x => flat_map g (f x)) l.
Proof. induction l as [|x l IH]; cbn; [reflexivity|]. now rewrite flat_map_app, IH. Qed.
Lemma flat_map_ext' {A B} (f g : A -> list B) l : (forall x, f x = g x) -> flat_map f l = flat_map g l.
Proof. intros H. induction l as [|x l IH]; cbn; [reflexivity|]. now rewrite H, IH. Qed.

Lemma collect_level incl : forall path fuel pls, (forall p, In p pls -> length p <= fuel) -> (forall p, In p pls -> p <> []) -> 1 <= fuel ->
  level (collect fuel incl pls) path = match path with
    | [] => Some (collect fuel incl pls)
    | _ => match flat_map (under path) pls with [] => None | sub => Some (collect (fuel - length path) incl sub) end
    end /\ (path <> [] -> flat_map (under path) pls <> [] -> 1 <= fuel - length path).
Proof.
  induction path as [|n path IH]; intros fuel pls Hl Hn Hf; [split; [reflexivity|congruence]|]. destruct fuel as [|g]; [lia|]. cbn [level collect].
  destruct (fold_left (collect1 incl) pls ([], [])) as [fields subs] eqn:E. cbn [p_subs]. rewrite (dget_map (collect g incl)).
  pose proof (loop_subs incl n pls [] []) as Hs. rewrite E in Hs. cbn [snd dget] in Hs.
  assert (Hu : flat_map (under (n :: path)) pls = flat_map (under path) (flat_map (below n) pls)).
  { rewrite flat_map_map. apply flat_map_ext'. intros p. now rewrite under_below. }
  rewrite Hu. destruct (flat_map (below n) pls) as [|q qs] eqn:Eb; [rewrite Hs; cbn; split; [reflexivity|congruence]|]. rewrite Hs. cbn [option_map].
  assert (Hq : forall p, In p (q :: qs) -> length p <= g /\ p <> []).
  { rewrite <- Eb. intros p Hp. apply in_flat_map in Hp as (p0 & Hp0 & Hp). unfold below in Hp. destruct p0 as [|h [|x r]]; [contradiction|contradiction|]. destruct (str_eqb h n); [|contradiction].
    destruct Hp as [<-|[]]. specialize (Hl _ Hp0). cbn in *. split; [lia|discriminate]. }
  assert (Hg : 1 <= g). { destruct (Hq q (or_introl eq_refl)) as [H1 H2]. destruct q; [contradiction|cbn in H1; lia]. }
  destruct (IH g (q :: qs) (fun p Hp => proj1 (Hq p Hp)) (fun p Hp => proj2 (Hq p Hp)) Hg) as [IH1 IH2]. rewrite IH1. split.
  - destruct path; [|reflexivity]. cbn [length]. assert (G : flat_map (under []) (q :: qs) = q :: qs).
    { clear -Hq. induction (q :: qs) as [|p l IHl]; [reflexivity|]. cbn. destruct (Hq p (or_introl eq_refl)) as [_ Hp]. destruct p; [contradiction|]. cbn. f_equal. apply IHl. intros p' Hp'. apply Hq. now right. }
    rewrite G. cbn. now rewrite Nat.sub_0_r.
  - intros _ Hne. destruct path as [|m path]; [cbn; lia|]. cbn [length]. specialize (IH2 ltac:(discriminate) Hne). cbn in IH2. lia.
Qed.

Lemma strip_spec path p q : strip path p = Some q <-> p = path ++ q.
Proof.
  revert p. induction path as [|n path IH]; intros p; cbn; [split; congruence|]. destruct p as [|h p]; [split; discriminate|].
  destruct (str_eqb_spec h n) as [->|N]; [rewrite IH; split; congruence|]. split; [discriminate|intros [= -> ->]; contradiction].
Qed.
Lemma under_In path p q : In q (under path p) <-> q <> [] /\ p = path ++ q.
Proof.
  unfold under. destruct (strip path p) as [[|x r]|] eqn:E; cbn.
  - apply strip_spec in E. subst p. split; [tauto|]. intros [H1 H2]. apply app_inv_head in H2. congruence.
  - apply strip_spec in E. subst p. split; [intros [<-|[]]; split; [discriminate|reflexivity]|]. intros [H1 H2]. apply app_inv_head in H2. auto.
  - split; [tauto|]. intros [H1 H2]. apply strip_spec in H2. congruence.
Qed.

Lemma collect_fields_excl fuel pls : 1 <= fuel -> p_fields (collect fuel false pls) = flat_map leaves pls.
Proof. destruct fuel; [lia|]. intros _. cbn. pose proof (loop_fields_excl pls [] []) as H. destruct (fold_left _ pls _). exact H. Qed.
Lemma collect_fields_incl fuel pls : 1 <= fuel -> firsts (p_fields (collect fuel true pls)) = firsts (flat_map heads pls) /\
  (forall x, In x (p_fields (collect fuel true pls)) <-> In x (flat_map heads pls)).
Proof. destruct fuel; [lia|]. intros _. cbn. pose proof (loop_fields_incl pls [] [] [] eq_refl (fun x => iff_refl _)) as H. destruct (fold_left _ pls _). exact H. Qed.

(** ** the whole thing *)
Lemma parse_level names incl path :
  let pls := map (split_on (ch ".")) names in
  (path = [] /\ exists fuel, 1 <= fuel /\ level (parse_field_list names incl) path = Some (collect fuel incl (flat_map (under []) pls))) \/
  (path <> [] /\ flat_map (under path) pls = [] /\ level (parse_field_list names incl) path = None) \/
  (path <> [] /\ flat_map (under path) pls <> [] /\ exists fuel, 1 <= fuel /\ level (parse_field_list names incl) path = Some (collect fuel incl (flat_map (under path) pls))).
Proof.
  intros pls. unfold parse_field_list. fold pls.
  assert (Hn : forall p, In p pls -> p <> []). { intros p Hp. apply in_map_iff in Hp as (s & <- & _). apply split_nonnil. }
  assert (H0 : flat_map (under []) pls = pls).
  { clear -Hn. induction pls as [|p l IHl]; [reflexivity|]. cbn. pose proof (Hn p (or_introl eq_refl)) as Hp. destruct p; [contradiction|]. cbn. f_equal. apply IHl. intros p' Hp'. apply Hn. now right. }
  destruct (collect_level incl path (longest pls) pls (longest_le pls) Hn (longest_pos pls)) as [H1 H2].
  destruct path as [|n path].
  - left. split; [reflexivity|]. exists (longest pls). split; [apply longest_pos|]. now rewrite H0.
  - right. rewrite H1. destruct (flat_map (under (n :: path)) pls) as [|q qs]; [left; split; [discriminate|auto]|]. right. split; [discriminate|]. split; [discriminate|].
    eexists. split; [apply H2; discriminate|reflexivity].
Qed.
