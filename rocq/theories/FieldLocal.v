(** Construction is local: what is built at or below an element depends on, and changes, that element
    only.  So facts about construction at the root carry over to any element. *)
From Coq Require Import String Arith ZArith Lia.
From Verif Require Export FieldIndep.
From Verif Require Import XPathEval FieldSpec DocSpec.

Opaque u.

Definition shr (a : addr) (r : ref) : ref :=
  match r with RElem b => RElem (a ++ b) | RAttr b q => RAttr (a ++ b) q | RText b t => RText (a ++ b) t | RVal v => RVal v end.
Definition oshr (a : addr) (r : res (option ref)) : res (option ref) :=
  match r with Ret x => Ret (option_map (shr a) x) | Exc e => Exc e end.
Lemma shr_nil r : shr [] r = r.
Proof. destruct r; reflexivity. Qed.

Lemma upd_local a b f d n : get_at a d = Some n -> upd_at (a ++ b) f d = upd_at a (fun _ => upd_at b f n) d.
Proof. intros H. rewrite upd_at_app. now apply upd_at_const. Qed.
Lemma upd_same_id a d n : get_at a d = Some n -> upd_at a (fun _ => n) d = d.
Proof. intros H. eapply upd_at_id; [exact H|reflexivity]. Qed.

Lemma set_text_local a b v d n n' r : get_at a d = Some n -> set_text_at b v n = (n', r) -> set_text_at (a ++ b) v d = (upd_at a (fun _ => n') d, r).
Proof.
  intros Hg H. unfold set_text_at in *. destruct v as [s|]; [destruct (xml_valid s)|].
  - injection H as <- <-. now rewrite (upd_local _ _ _ _ _ Hg).
  - unfold raise in *. injection H as <- <-. now rewrite upd_same_id.
  - injection H as <- <-. now rewrite (upd_local _ _ _ _ _ Hg).
Qed.
Lemma set_attr_local E a b st v d n n' r : get_at a d = Some n -> set_attr_at E b st v n = (n', r) -> set_attr_at E (a ++ b) st v d = (upd_at a (fun _ => n') d, r).
Proof.
  intros Hg H. unfold set_attr_at in *. assert (R : forall e, raise e n = (n', r) -> raise e d = (upd_at a (fun _ => n') d, r)).
  { unfold raise. intros e [= <- <-]. now rewrite upd_same_id. }
  destruct st as [[]|]; auto. destruct (match node_test with NameTest p nm => (p, nm) | NodeType nm _ => (None, nm) end) as [p nm].
  destruct (negb (name_valid nm)); auto. destruct v as [s|]; auto. destruct (xml_valid s); auto. injection H as <- <-. now rewrite (upd_local _ _ _ _ _ Hg).
Qed.
Lemma set_local E a x v st d n n' r : get_at a d = Some n -> set_in_xml E x v st n = (n', r) ->
  set_in_xml E (option_map (shr a) x) v st d = (upd_at a (fun _ => n') d, r).
Proof.
  intros Hg H. assert (R : forall e, (n, @Exc unit e) = (n', r) -> (d, @Exc unit e) = (upd_at a (fun _ => n') d, r)).
  { intros e [= <- <-]. now rewrite upd_same_id. }
  destruct x as [[b|b q|b t|w]|]; cbn [set_in_xml option_map shr] in *.
  - rewrite get_at_app, Hg. destruct (get_at b n) as [m|]; auto. destruct (kids_of m); auto. now apply set_text_local with n.
  - destruct (is_text_nodetest st); [now apply set_text_local with n|now apply set_attr_local with n].
  - destruct (is_text_nodetest st); [now apply set_text_local with n|now apply set_attr_local with n].
  - destruct w; injection H as <- <-; now rewrite upd_same_id.
  - injection H as <- <-. now rewrite upd_same_id.
Qed.

Lemma create_child_local E p nm a x ins d n n' r : get_at a d = Some n -> create_child E p nm x ins n = (n', r) ->
  create_child E p nm (option_map (shr a) x) ins d = (upd_at a (fun _ => n') d, oshr a r).
Proof.
  intros Hg H. assert (R : forall e, (n, @Exc (option ref) e) = (n', r) -> (d, @Exc (option ref) e) = (upd_at a (fun _ => n') d, oshr a r)).
  { intros e [= <- <-]. now rewrite upd_same_id. }
  unfold create_child, raise in *. destruct (child_ns E p) as [uri|e0]; [|auto]. destruct (negb (name_valid nm)); [auto|].
  destruct x as [[b|b q|b t|w]|]; cbn [option_map shr]; auto. rewrite get_at_app, Hg. destruct (get_at b n) as [m|]; auto.
  injection H as <- <-. rewrite (upd_local _ _ _ _ _ Hg). cbn [oshr option_map shr]. now rewrite app_assoc.
Qed.
Lemma create_attr_local E p nm a x d n n' r : get_at a d = Some n -> create_attr E p nm x n = (n', r) ->
  create_attr E p nm (option_map (shr a) x) d = (upd_at a (fun _ => n') d, oshr a r).
Proof.
  intros Hg H. assert (R : forall e, (n, @Exc (option ref) e) = (n', r) -> (d, @Exc (option ref) e) = (upd_at a (fun _ => n') d, oshr a r)).
  { intros e [= <- <-]. now rewrite upd_same_id. }
  unfold create_attr, raise in *. destruct x as [[b|b q|b t|w]|]; cbn [option_map shr]; auto. destruct (negb (name_valid nm)); [auto|].
  injection H as <- <-. rewrite (upd_local _ _ _ _ _ Hg). destruct (resolve E (pfx p)); reflexivity.
Qed.

Definition P_local (E : env) (e : expr) : Prop := forall m a x ins d n n' r, m = Construct \/ is_estep e = true -> get_at a d = Some n ->
  build E m e x ins n = (n', r) -> build E m e (option_map (shr a) x) ins d = (upd_at a (fun _ => n') d, oshr a r).
Lemma iter_local E ps : Forall (P_local E) ps -> forall a x d n n' r, get_at a d = Some n ->
  iterM (fun p => build E Construct p x None) ps n = (n', r) ->
  iterM (fun p => build E Construct p (option_map (shr a) x) None) ps d = (upd_at a (fun _ => n') d, r).
Proof.
  induction 1 as [|p ps Hp _ IH]; intros a x d n n' r Hg H; cbn [iterM] in *; [injection H as <- <-; now rewrite upd_same_id|].
  unfold bind in *. destruct (build E Construct p x None n) as [n1 [y|e]] eqn:E1; rewrite (Hp Construct a x None d n _ _ (or_introl eq_refl) Hg E1); cbn [oshr].
  - rewrite (IH a x (upd_at a (fun _ => n1) d) n1 n' r); [now rewrite upd_upd_same|now rewrite (get_upd_same _ _ _ _ Hg)|exact H].
  - injection H as <- <-. reflexivity.
Qed.
Lemma build_local E e : P_local E e.
Proof.
  induction e as [| | | |e1 op e2 IHe1 IHe2| | | |axis node_test predicates H| | |] using expr_ind'; intros m ad x ins d nd nd' r Hme Hg Hb.
  all: try (destruct Hme as [->|Hme]; [|discriminate]; cbn [build] in *; unfold ret in *; injection Hb as <- <-; cbn [oshr option_map]; now rewrite upd_same_id).
  - destruct Hme as [->|Hme]; [|discriminate]. cbn [build] in *. destruct (str_eqb op (u "/")).
    + unfold bind in *. destruct (build E Construct e1 x None nd) as [n1 [y|er]] eqn:E1; rewrite (IHe1 Construct ad x None d nd _ _ (or_introl eq_refl) Hg E1); cbn [oshr].
      * rewrite (IHe2 Construct ad y None (upd_at ad (fun _ => n1) d) n1 nd' r (or_introl eq_refl)); [now rewrite upd_upd_same|now rewrite (get_upd_same _ _ _ _ Hg)|exact Hb].
      * injection Hb as <- <-. reflexivity.
    + destruct (str_eqb op (u "=")); [|unfold ret in *; injection Hb as <- <-; cbn [oshr option_map]; now rewrite upd_same_id].
      unfold bind in *. destruct (build E Construct e1 x None nd) as [n1 [y|er]] eqn:E1; rewrite (IHe1 Construct ad x None d nd _ _ (or_introl eq_refl) Hg E1); cbn [oshr].
      * destruct (pred_value E e2) as [v|er]; [|unfold raise in *; injection Hb as <- <-; reflexivity].
        destruct (set_in_xml E y (Some v) (terminal_step e1) n1) as [n2 r2] eqn:E2.
        rewrite (set_local E ad y _ _ (upd_at ad (fun _ => n1) d) n1 n2 r2); [|now rewrite (get_upd_same _ _ _ _ Hg)|exact E2].
        destruct r2 as [[]|er]; unfold ret in *; injection Hb as <- <-; rewrite upd_upd_same; reflexivity.
      * injection Hb as <- <-. reflexivity.
  - destruct node_test as [p nm|nm o]; cbn [build] in *.
    + destruct (forallb constructible predicates); [|unfold raise in *; injection Hb as <- <-; cbn [oshr]; now rewrite upd_same_id].
      set (c := fun y => if child_axis axis then create_child E p nm y ins else if attr_axis axis then create_attr E p nm y else raise XUnbound).
      change (bind (c x) (fun new => bind (iterM (fun q => build E Construct q new None) predicates) (fun _ => ret new)) nd = (nd', r)) in Hb.
      change (bind (c (option_map (shr ad) x)) (fun new => bind (iterM (fun q => build E Construct q new None) predicates) (fun _ => ret new)) d = (upd_at ad (fun _ => nd') d, oshr ad r)).
      assert (Hc : forall n1 r1, c x nd = (n1, r1) -> c (option_map (shr ad) x) d = (upd_at ad (fun _ => n1) d, oshr ad r1)).
      { intros n1 r1 H1. unfold c in *. destruct (child_axis axis); [now apply create_child_local with nd|]. destruct (attr_axis axis); [now apply create_attr_local with nd|].
        unfold raise in *. injection H1 as <- <-. cbn [oshr]. now rewrite upd_same_id. }
      unfold bind in *. destruct (c x nd) as [n1 [y|er]] eqn:E1; rewrite (Hc _ _ eq_refl); cbn [oshr]; [|injection Hb as <- <-; reflexivity].
      destruct (iterM (fun q => build E Construct q y None) predicates n1) as [n2 r2] eqn:E2.
      rewrite (iter_local E predicates H ad y (upd_at ad (fun _ => n1) d) n1 n2 r2); [|now rewrite (get_upd_same _ _ _ _ Hg)|exact E2].
      destruct r2 as [[]|er]; unfold ret in *; injection Hb as <- <-; rewrite upd_upd_same; reflexivity.
    + destruct (str_eqb nm (u "text")); unfold ret, raise in *; injection Hb as <- <-; cbn [oshr]; now rewrite upd_same_id.
Qed.

(** ** constructing a predicate on an element changes only what its first step sees, whatever the outcome *)
Lemma fkind_first E e : is_path e = true -> ok E false e = true -> first_kind E e = fkind E e.
Proof.
  unfold first_kind. rewrite spine_steps. induction e; cbn [is_path]; intros Hp; try discriminate; intros Ho.
  - apply str_eqb_eq in Hp. subst op. destruct (ok_slash _ _ _ _ Ho) as (H1 & _ & _ & H4). pose proof (joins_path _ _ _ _ H4 H1) as Hpl. specialize (IHe1 Hpl H1).
    cbn [spine]. unfold fkind in *. cbn [lead_step]. rewrite <- IHe1. destruct (spine e1) eqn:Es; [|reflexivity]. destruct e1; cbn in Es, H1, Hpl; try discriminate. destruct (spine e1_1); discriminate.
  - reflexivity.
Qed.
Lemma attr_step_root E ax t ps q m d d' r : ok E false (EStep ax t ps) = true -> kind E (EStep ax t ps) = Some (KAttr q) ->
  build E m (EStep ax t ps) (Some doc_root) None d = (d', r) -> sim (KAttr q) d d' /\ forall y, r = Ret (Some y) -> aref q y.
Proof.
  intros Hos Hk Hm. pose proof Hk as Hk2. destruct (kind_attr _ _ _ _ _ Hk) as (p & nm & -> & Hc & Ha & Hs & _ & Hpf & Hrs & Hn). apply attr_name_kind in Hk2.
  cbn [ok] in Hos. rewrite Hk in Hos. destruct ps; [|discriminate]. cbn [build forallb] in Hm. rewrite Hc, Ha in Hm. unfold bind at 1, create_attr, name_valid, doc_root in Hm. rewrite Hs in Hm. cbn [negb] in Hm.
  rewrite Hpf, Hrs, Hk2 in Hm. cbn [iterM upd_at] in Hm. unfold bind, ret in Hm. injection Hm as <- <-. split; [apply sim_set_attr|]. intros y [= <-]. reflexivity.
Qed.
Lemma cpath_root E e : is_path e = true -> ok E false e = true -> forall k, fkind E e = Some k -> k <> KText -> forall d d' r, tag_of d <> None ->
  build E Construct e (Some doc_root) None d = (d', r) -> sim k d d' /\ forall y, r = Ret (Some y) -> oref k d' y.
Proof.
  induction e; cbn [is_path]; intros Hp; try discriminate; intros Ho k Hk Hkt d d' r Hd Hm.
  - apply str_eqb_eq in Hp. subst op. destruct (ok_slash _ _ _ _ Ho) as (H1 & (ax & t & ps & ->) & H3 & H4). pose proof (joins_path _ _ _ _ H4 H1) as Hpl.
    cbn [build] in Hm. rewrite str_eqb_refl in Hm. unfold bind in Hm. assert (Hk' : fkind E e1 = Some k) by exact Hk.
    destruct (build E Construct e1 (Some doc_root) None d) as [d1 [y|er]] eqn:E1; destruct (IHe1 Hpl H1 k Hk' Hkt d d1 _ Hd E1) as [S1 B1]; [|injection Hm as <- <-; split; [exact S1|discriminate]].
    destruct k as [q|q|]; [| |contradiction].
    + destruct (step_below E ax t ps (proj2 (Forall_forall _ _) (fun p _ => build_below E p)) q Construct y d1 d' r) as [S2 B2]; [intros z ->; now apply B1|exact Hm|].
      split; [eapply sim_trans; [exact S1|apply S2]|exact B2].
    + exfalso. destruct (path_first_attr _ _ _ _ Hpl H1 Hk') as [He Hke]. destruct e1; try discriminate. unfold joins in H4. cbn [last_step] in H4. rewrite Hke in H4. destruct (kind E (EStep ax t ps)); discriminate.
  - change (fkind E (EStep axis node_test predicates)) with (kind E (EStep axis node_test predicates)) in Hk. destruct k as [q|q|]; [eapply step_root; eauto|eapply attr_step_root; eauto|contradiction].
Qed.
Lemma pred_root E p k d d' r : ok E false p = true -> fkind E p = Some k -> k <> KText -> tag_of d <> None ->
  build E Construct p (Some doc_root) None d = (d', r) -> sim k d d'.
Proof.
  intros Ho Hk Hkt Hd Hm. destruct (pred_cases _ _ Ho) as [[Hp He]|(l & v & ->)]; [eapply cpath_root; eauto|].
  destruct (ok_eq _ _ _ Ho) as (Hp & Ho' & _). change (fkind E (EBin l (u "=") v)) with (fkind E l) in Hk.
  cbn [build] in Hm. rewrite str_eqb_refl in Hm. replace (str_eqb (u "=") (u "/")) with false in Hm by reflexivity. unfold bind in Hm.
  destruct (build E Construct l (Some doc_root) None d) as [d1 [y|er]] eqn:E1; destruct (cpath_root E l Hp Ho' k Hk Hkt d d1 _ Hd E1) as [S1 B1]; [|injection Hm as <- _; exact S1].
  destruct (pred_value E v) as [w|er]; [|injection Hm as <- _; exact S1].
  destruct (set_in_xml E y (Some w) (terminal_step l) d1) as [d2 r2] eqn:E2. assert (S2 : sim k d1 d2).
  { destruct k as [q|q|]; [| |contradiction].
    - refine (proj1 (set_below E q y (Some w) _ d1 d2 r2 _ E2)). intros z ->. now apply B1.
    - destruct (path_first_attr _ _ _ _ Hp Ho' Hk) as [He Hke]. destruct l; try discriminate. refine (attr_set_root E _ q (Some w) y d1 d2 r2 _ _ E2); [exists axis, node_test, predicates; auto|intros z ->; now apply B1]. }
  destruct r2 as [[]|er]; unfold ret in Hm; injection Hm as <- _; eapply sim_trans; eauto.
Qed.

(** several such changes, none of which a step of kind [k] sees *)
Inductive others (k : skind) : node -> node -> Prop :=
| oth_refl n : others k n n
| oth_step D n n1 n' : D <> k -> D <> KText -> sim D n n1 -> others k n1 n' -> others k n n'.
Lemma others_trans k a b c : others k a b -> others k b c -> others k a c.
Proof. induction 1; [auto|]. intros. eapply oth_step; eauto. Qed.
Lemma others_tag k a b : others k a b -> tag_of a = tag_of b.
Proof. induction 1 as [|D n n1 n' H1 H2 [H3 _] _ IH]; congruence. Qed.
Lemma others_cores E s k a b : ok E false s = true -> is_estep s = true -> kind E s = Some k -> k <> KText -> others k a b -> cores E s a = cores E s b.
Proof.
  intros Ho Hs Hk Hkt. induction 1 as [|D n n1 n' H1 H2 H3 _ IH]; [reflexivity|]. rewrite <- IH. eapply cores_sim; [exact H3|exact H2| |exact Ho|].
  - destruct s; try discriminate. reflexivity.
  - exists k. split; [|auto]. destruct s; try discriminate. exact Hk.
Qed.

Lemma preds_root E ax t all q k : ok E false (EStep ax t all) = true -> kind E (EStep ax t all) = Some (KChild q) -> avoids E all k = true -> forall ps, incl ps all -> forall d d' r, tag_of d <> None ->
  iterM (fun p => build E Construct p (Some doc_root) None) ps d = (d', r) -> others k d d'.
Proof.
  intros Ho Hk Ha. induction ps as [|p ps IH]; intros Hin d d' r Hd Hm; cbn [iterM] in Hm; [injection Hm as <- _; constructor|].
  assert (Hp : In p all) by (apply Hin; now left). destruct (ok_step_preds _ _ _ _ _ _ _ Ho Hk Hp) as (O1 & O2 & O3).
  destruct (avoids_In _ _ _ _ Ha Hp) as (k' & Hf & Hne). assert (Hkt : k' <> KText).
  { pose proof (preds_avoid_text _ _ _ _ _ _ Ho Hk) as At. destruct (avoids_In _ _ _ _ At Hp) as (k2 & Hf2 & Hn2). congruence. }
  unfold bind in Hm. destruct (build E Construct p (Some doc_root) None d) as [d1 [y|er]] eqn:E1; pose proof (pred_root E p k' d d1 _ O1 Hf Hkt Hd E1) as S1.
  - eapply oth_step; [exact Hne|exact Hkt|exact S1|]. eapply IH; [intros z Hz; apply Hin; now right| |exact Hm]. destruct S1 as [<- _]. exact Hd.
  - injection Hm as <- _. eapply oth_step; [exact Hne|exact Hkt|exact S1|constructor].
Qed.

(** creating an element for a child step below [n]: whatever the outcome, at most one child is added; no
    step the predicates avoid sees anything in it *)
Lemma step_any E m ax t ps q n n' r k : ok E false (EStep ax t ps) = true -> kind E (EStep ax t ps) = Some (KChild q) -> tag_of n <> None -> avoids E ps k = true ->
  build E m (EStep ax t ps) (Some doc_root) None n = (n', r) ->
  n' = n /\ (forall x, r <> Ret x) \/ exists K, n' = append_kid K n /\ tag_of K = Some q /\ others k (Elem q [] None []) K /\
    (forall x, r = Ret x -> x = Some (RElem [length (kids_of n)]) /\ mstep E (EStep ax t ps) K = true).
Proof.
  intros Ho Hk Hn Ha Hm. pose proof Hm as Hm0. destruct (kind_child _ _ _ _ _ Hk) as (p & nm & -> & Hax & _). destruct (child_ns_kind _ _ _ _ _ _ Hk) as (Hns & Hv & Hl).
  cbn [build] in Hm. destruct (forallb constructible ps); [|left; unfold raise in Hm; injection Hm as <- <-; split; [reflexivity|discriminate]]. rewrite Hax in Hm.
  unfold bind at 1 in Hm. unfold create_child in Hm. rewrite Hns, Hv in Hm. cbn [negb doc_root get_at upd_at app] in Hm.
  assert (HK0 : Elem (QN (q_ns q) nm) [] None [] = Elem q [] None []) by (subst nm; destruct q; reflexivity). rewrite HK0, insert_at_end in Hm. set (i := length (kids_of n)) in *.
  set (K0 := Elem q [] None []) in *. assert (Hg : get_at [i] (append_kid K0 n) = Some K0) by (unfold i; rewrite get_append by exact Hn; reflexivity).
  right. unfold bind, ret in Hm. destruct (iterM (fun p0 => build E Construct p0 (Some doc_root) None) ps K0) as [K rr] eqn:EK.
  pose proof (iter_local E ps (proj2 (Forall_forall _ _) (fun p0 _ => build_local E p0)) [i] (Some doc_root) (append_kid K0 n) K0 K rr Hg EK) as EL. cbn [option_map shr doc_root app] in EL. rewrite EL in Hm.
  assert (Hup : upd_at [i] (fun _ => K) (append_kid K0 n) = append_kid K n) by (unfold i; rewrite upd_append by exact Hn; reflexivity). rewrite Hup in Hm.
  assert (HO : others k K0 K) by (eapply (preds_root E ax _ ps q k Ho Hk Ha ps); [apply incl_refl| |exact EK]; discriminate).
  exists K. assert (HT : tag_of K = Some q) by (rewrite <- (others_tag _ _ _ HO); reflexivity).
  destruct rr as [[]|er]; injection Hm as <- <-; (split; [reflexivity|]); (split; [exact HT|]); (split; [exact HO|]); [|discriminate].
  intros x [= <-]. split; [reflexivity|]. destruct (step_build E m ax (NameTest p nm) ps q None Ho Hk (preds_ok E ps) [] n n _ _ eq_refl Hn Hm0) as (K2 & _ & T2 & _ & T4 & _).
  cbn [upd_at ins_index] in T4. rewrite insert_at_end in T4. replace K with K2; [exact T2|].
  assert (Hk2 : kids_of (append_kid K n) = kids_of (append_kid K2 n)) by now rewrite T4. rewrite !kids_append in Hk2 by exact Hn. apply app_inv_head in Hk2. congruence.
Qed.
