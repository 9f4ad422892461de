(** Constructing a predicate on a node makes it hold and adds one child or one attribute; creating a
    step makes a new element that satisfies the step. *)
From Coq Require Import String Arith.
From Verif Require Export FieldBuild.
From Verif Require Import XPathEval FieldSpec.

Opaque u.

(** ** numbers: [number(str(z)) = z] *)
Lemma dvals_digits n : dvals (str_of_N n) = digits_of_N n.
Proof.
  unfold dvals, str_of_N. rewrite map_map. erewrite map_ext; [apply map_id|]. intros x. cbv beta. lia.
Qed.
Lemma str_of_N_digits n : forallb asc_digit (str_of_N n) = true.
Proof.
  apply forallb_forall. intros c Hc. unfold str_of_N in Hc. apply in_map_iff in Hc as (x & <- & Hx).
  apply digits_of_N_lt in Hx. unfold asc_digit, in_range. apply andb_true_intro. split; apply N.leb_le; lia.
Qed.
Lemma str_of_N_nonnil n : str_of_N n <> [].
Proof. unfold str_of_N. pose proof (little_to_uint_nonnil n). destruct (digits_of_N n); [contradiction|discriminate]. Qed.

Lemma digit_not_ws c : asc_digit c = true -> is_xws c = false.
Proof.
  unfold asc_digit, in_range, is_xws. intros H. apply andb_prop in H as [H1 H2]. apply N.leb_le in H1. apply N.leb_le in H2.
  repeat (apply orb_false_iff; split); apply N.eqb_neq; lia.
Qed.

Lemma lstrip_id f s : match s with c :: _ => f c = false | [] => True end -> lstrip f s = s.
Proof. destruct s as [|c s]; cbn; [reflexivity|]. now intros ->. Qed.

Lemma strip_id f s : match s with c :: _ => f c = false | [] => True end ->
  match rev s with c :: _ => f c = false | [] => True end -> strip f s = s.
Proof. intros H1 H2. unfold strip. rewrite (lstrip_id _ _ H1), (lstrip_id _ _ H2). apply rev_involutive. Qed.

Lemma last_digit n : match rev (str_of_N n) with c :: _ => asc_digit c = true | [] => True end.
Proof.
  pose proof (str_of_N_digits n) as H. rewrite forallb_forall in H. destruct (rev (str_of_N n)) as [|c l] eqn:E; [exact I|].
  apply H. apply in_rev. rewrite E. now left.
Qed.

Lemma span_digits s : forallb asc_digit s = true -> span asc_digit s = (s, []).
Proof. intros H. pose proof (span_all asc_digit s [] H I) as P. now rewrite app_nil_r in P. Qed.

Lemma mk_number_N neg n : mk_number neg (str_of_N n) [] = ((if neg then - Z.of_N n else Z.of_N n)%Z, O).
Proof. unfold mk_number. cbn [map dvals rstrip0 rev strip0]. rewrite app_nil_r, dvals_digits, N_of_digits_of_N. reflexivity. Qed.

Definition xnum_body (neg : bool) (s : str) : option number :=
  let (ip, rest) := span asc_digit s in
  match rest with
  | c :: r =>
    if N.eqb c 46 then
      let (fp, rest2) := span asc_digit r in
      match ip, fp with
      | [], [] => None
      | _, _ => match xexponent rest2 with Some e => scaled e (mk_number neg ip fp) | None => None end
      end
    else match ip, neg with
      | [], false => None
      | _, _ => match xexponent rest with Some e => scaled e (mk_number neg ip []) | None => None end
      end
  | [] => match ip, neg with [], false => None | _, _ => Some (mk_number neg ip []) end
  end.
Lemma xnumber_body s : xnumber s =
  match strip is_xws s with c :: r => if N.eqb c 45 then xnum_body true r else xnum_body false (c :: r) | [] => xnum_body false [] end.
Proof. unfold xnumber, xnum_body. destruct (strip is_xws s) as [|c r]; [reflexivity|]. destruct (N.eqb c 45); reflexivity. Qed.

Lemma xnum_body_N neg n : xnum_body neg (str_of_N n) = Some ((if neg then - Z.of_N n else Z.of_N n)%Z, O).
Proof.
  unfold xnum_body. rewrite (span_digits _ (str_of_N_digits n)). pose proof (str_of_N_nonnil n) as Hn.
  rewrite mk_number_N. destruct (str_of_N n); [contradiction|reflexivity].
Qed.

Lemma xnumber_N n : xnumber (str_of_N n) = Some (Z.of_N n, O).
Proof.
  pose proof (str_of_N_digits n) as Hd. pose proof (last_digit n) as Hl.
  rewrite xnumber_body, strip_id.
  - rewrite <- (xnum_body_N false n). destruct (str_of_N n) as [|c s] eqn:Es; [reflexivity|].
    replace (N.eqb c 45) with false; [reflexivity|]. symmetry. apply N.eqb_neq. cbn [forallb] in Hd. apply andb_prop in Hd as [Hc _].
    unfold asc_digit, in_range in Hc. apply andb_prop in Hc as [H1 H2]. apply N.leb_le in H1. lia.
  - destruct (str_of_N n) as [|c s]; [exact I|]. cbn [forallb] in Hd. apply andb_prop in Hd as [Hd _]. now apply digit_not_ws.
  - destruct (rev (str_of_N n)); [exact I|]. now apply digit_not_ws.
Qed.

Lemma xnumber_Z z : xnumber (str_of_Z z) = Some (z, O).
Proof.
  unfold str_of_Z. destruct (Z.ltb_spec z 0) as [Hz|Hz].
  - pose proof (last_digit (Z.to_N (- z))) as Hl. rewrite xnumber_body, strip_id.
    + replace (N.eqb 45 45) with true by reflexivity. rewrite xnum_body_N. do 2 f_equal. lia.
    + reflexivity.
    + cbn [rev]. destruct (rev (str_of_N (Z.to_N (- z)))) as [|c l] eqn:Er.
      * apply (f_equal (@rev N)) in Er. rewrite rev_involutive in Er. exfalso. exact (str_of_N_nonnil _ Er).
      * cbn [app]. now apply digit_not_ws.
  - rewrite xnumber_N. do 2 f_equal. lia.
Qed.

Lemma num_eqb_refl n : num_eqb (Some n) (Some n) = true.
Proof. destruct n. cbn. now rewrite Z.eqb_refl, Nat.eqb_refl. Qed.

Lemma pred_value_holds E r v : rvalue_ok E r = true -> pred_value E r = Ret v -> vcmp (rvalue E r) v = true.
Proof.
  intros Hr Hv. unfold rvalue. destruct r; cbn in Hr, Hv; try discriminate.
  - injection Hv as <-. cbn. apply str_eqb_refl.
  - injection Hv as <-. cbn [ev vcmp]. rewrite xnumber_N. apply num_eqb_refl.
  - destruct prefix; [discriminate|]. cbn [ev]. unfold var_value. destruct (lookup localname (vars E)) as [[s|z]|]; [| |discriminate].
    + injection Hv as <-. apply str_eqb_refl.
    + injection Hv as <-. cbn [vcmp]. rewrite xnumber_Z. apply num_eqb_refl.
Qed.

(** ** monad *)
Lemma bind_ret {A B} (m : M A) (f : A -> M B) d d' y : bind m f d = (d', Ret y) ->
  exists d1 x, m d = (d1, Ret x) /\ f x d1 = (d', Ret y).
Proof. unfold bind. destruct (m d) as [d1 [x|e]]; [eauto|discriminate]. Qed.

Lemma iterM_cons {A B} (f : A -> M B) x l d d' y : iterM f (x :: l) d = (d', Ret y) ->
  exists d1 z, f x d = (d1, Ret z) /\ iterM f l d1 = (d', Ret y).
Proof. cbn [iterM]. intros H. apply bind_ret in H. exact H. Qed.

Lemma upd_at_twice a c f g d n : get_at a d = Some n ->
  upd_at (a ++ c) g (upd_at a f d) = upd_at a (fun _ => upd_at c g (f n)) d.
Proof.
  intros H. rewrite upd_at_app, upd_upd_same. eapply upd_at_ext; [exact H|reflexivity].
Qed.
Lemma upd_at_const a f d n : get_at a d = Some n -> upd_at a f d = upd_at a (fun _ => f n) d.
Proof. intros H. eapply upd_at_ext; [exact H|reflexivity]. Qed.

Lemma last_preds_slash l r ax t ps : r = EStep ax t ps -> last_step (EBin l (u "/") r) = Some r.
Proof. intros ->. cbn. now rewrite str_eqb_refl. Qed.
Definition last_preds (e : expr) : list expr := match last_step e with Some s => preds_of s | None => [] end.

(** ** the invariant *)
(** a predicate was constructed on [n], giving [n'] *)
Definition grown (E : env) (p : expr) (n n' : node) : Prop :=
  (exists q K, fkind E p = Some (KChild q) /\ tag_of K = Some q /\ n' = append_kid K n) \/
  (exists q v, fkind E p = Some (KAttr q) /\ n' = set_attr q v n).

Definition P_pred (E : env) (p : expr) : Prop :=
  ok E false p = true -> lkind E (path_of p) <> Some KText -> forall a d n d' x, get_at a d = Some n -> tag_of n <> None ->
  build E Construct p (Some (RElem a)) None d = (d', Ret x) ->
  exists n', d' = upd_at a (fun _ => n') d /\ hold E p n' = true /\ grown E p n n'.

Definition P_path (E : env) (e : expr) : Prop :=
  is_path e = true -> ok E false e = true -> forall a d n d' x, get_at a d = Some n -> tag_of n <> None ->
  build E Construct e (Some (RElem a)) None d = (d', Ret x) ->
  match lkind E e with
  | Some (KChild _) => exists K b1 m q, fkind E e = Some (KChild q) /\ tag_of K = Some q /\
      d' = upd_at a (append_kid K) d /\ x = Some (RElem (a ++ length (kids_of n) :: b1)) /\
      In (length (kids_of n) :: b1) (sel E (spine e) (append_kid K n)) /\ get_at b1 K = Some m /\ tag_of m <> None /\
      leafy E (last_preds e) m
  | Some (KAttr qa) =>
      (is_estep e = true /\ d' = upd_at a (set_attr qa []) d /\ x = Some (RAttr a qa)) \/
      (exists l r K b1 m q, e = EBin l (u "/") r /\ fkind E e = Some (KChild q) /\ tag_of K = Some q /\
        d' = upd_at a (append_kid (upd_at b1 (set_attr qa []) K)) d /\ x = Some (RAttr (a ++ length (kids_of n) :: b1) qa) /\
        In (length (kids_of n) :: b1) (sel E (spine l) (append_kid K n)) /\ get_at b1 K = Some m /\ tag_of m <> None)
  | _ => True
  end.

(** constructing the predicates one after the other on a new element *)
Lemma iter_preds E ax t q all : ok E false (EStep ax t all) = true -> kind E (EStep ax t all) = Some (KChild q) ->
  Forall (P_pred E) all -> forall ps done, done ++ ps = all -> forall a d K d' y,
  get_at a d = Some K -> tag_of K = Some q -> leafy E done K -> forallb (fun p => hold E p K) done = true ->
  iterM (fun p => build E Construct p (Some (RElem a)) None) ps d = (d', Ret y) ->
  exists K', d' = upd_at a (fun _ => K') d /\ tag_of K' = Some q /\ leafy E all K' /\ forallb (fun p => hold E p K') all = true.
Proof.
  intros Hok Hk Hall. induction ps as [|p ps IH]; intros done Hd a d K d' y Hg Ht Hlf Hh Hi.
  - rewrite app_nil_r in Hd. subst done. cbn in Hi. injection Hi as <- <-. exists K. repeat split; auto; try apply Hlf.
    symmetry. eapply upd_at_id; [exact Hg|reflexivity].
  - apply iterM_cons in Hi as (d1 & z & Hp & Hi).
    assert (Hin : In p all) by (rewrite <- Hd; apply in_or_app; right; now left).
    pose proof Hall as HP. rewrite Forall_forall in HP. specialize (HP p Hin).
    destruct (ok_step_preds _ _ _ _ _ _ _ Hok Hk Hin) as (O1 & O2 & O3).
    destruct (HP O1 O2 a d K d1 z Hg ltac:(congruence) Hp) as (K1 & -> & Hh1 & Hgr).
    assert (Hdone : forall p', In p' done -> In p' all) by (intros; rewrite <- Hd; apply in_or_app; now left).
    assert (Ht1 : tag_of K1 = Some q).
    { destruct Hgr as [(q1 & K2 & _ & _ & ->)|(q1 & v & _ & ->)]; [now rewrite tag_append|now rewrite tag_set_attr]. }
    assert (Hh1' : forallb (fun p0 => hold E p0 K1) (done ++ [p]) = true).
    { rewrite forallb_app. cbn [forallb]. rewrite Hh1. cbn [andb]. rewrite andb_true_r. rewrite forallb_forall in *. intros p' Hp'. specialize (Hh p' Hp').
      destruct Hgr as [(q1 & K2 & Hf & HtK & ->)|(q1 & v & Hf & ->)].
      - eapply hold_append; try eassumption; [congruence|]. now apply Hdone.
      - rewrite <- Hh. symmetry. eapply hold_sim; [apply sim_set_attr|eassumption|eassumption|now apply Hdone|].
        intros Hf'. pose proof Hok as Hdis. cbn [ok] in Hdis. rewrite Hk in Hdis. apply andb_prop in Hdis as [_ Hdis].
        rewrite <- Hd in Hdis. clear - Hdis Hp' Hf Hf'.
        induction done as [|x done IHd]; [contradiction|]. cbn [app flat_map] in Hdis. destruct Hp' as [->|Hp'].
        + unfold direct_attr at 1 in Hdis. rewrite Hf' in Hdis. cbn [app distinct] in Hdis. apply andb_prop in Hdis as [Hx _].
          apply negb_true_iff in Hx. assert (Hx' : existsb (skind_eqb (KAttr q1)) (flat_map (direct_attr E) (done ++ p :: ps)) = true).
          { apply existsb_exists. exists (KAttr q1). split; [|apply skind_eqb_refl]. apply in_flat_map. exists p. split; [apply in_or_app; right; now left|].
            unfold direct_attr. rewrite Hf. now left. }
          congruence.
        + apply IHd; auto. clear - Hdis. revert Hdis. unfold direct_attr at 1. destruct (fkind E x) as [[| |]|]; cbn [app]; auto.
          cbn [distinct]. intros H. now apply andb_prop in H. }
    assert (Hlf1 : leafy E (done ++ [p]) K1).
    { destruct Hlf as (L1 & L2 & L3 & L4). destruct Hgr as [(q1 & K2 & Hf & HtK & ->)|(q1 & v & Hf & ->)]; repeat split.
      - rewrite kids_append by congruence. intros k Hkk. apply in_app_or in Hkk as [Hkk|[<-|[]]].
        + destruct (L1 _ Hkk) as (q' & p' & A & B & C). exists q', p'. repeat split; auto. apply in_or_app. now left.
        + exists q1, p. cbn. repeat split; auto. apply in_or_app. right. now left.
      - rewrite attrs_append. intros x Hx. destruct (L2 _ Hx) as (p' & A & B). exists p'. split; auto. apply in_or_app. now left.
      - destruct K; cbn in *; congruence.
      - rewrite kids_append by congruence. intros k Hkk. apply in_app_or in Hkk as [Hkk|[<-|[]]]; [auto|reflexivity].
      - rewrite kids_set_attr. intros k Hkk. destruct (L1 _ Hkk) as (q' & p' & A & B & C). exists q', p'. repeat split; auto.
        apply in_or_app. now left.
      - rewrite attrs_set_attr by congruence. intros x Hx.
        assert (Hx' : In x (attrs_of K) \/ fst x = q1).
        { clear - Hx. induction (attrs_of K) as [|[p w] l IHl]; cbn in Hx.
          - destruct Hx as [<-|[]]. now right.
          - destruct (qeqb q1 p) eqn:Eq.
            + apply qeqb_eq in Eq. subst p. destruct Hx as [<-|Hx]; [now right|left; now right].
            + destruct Hx as [<-|Hx]; [left; now left|]. apply IHl in Hx as [Hx|Hx]; [left; now right|now right]. }
        destruct Hx' as [Hx'|Hx'].
        + destruct (L2 _ Hx') as (p' & A & B). exists p'. split; auto. apply in_or_app. now left.
        + exists p. split; [apply in_or_app; right; now left|]. now rewrite Hx'.
      - destruct K; cbn in *; congruence.
      - rewrite kids_set_attr. exact L4. }
    destruct (IH (done ++ [p]) ltac:(now rewrite <- app_assoc) a (upd_at a (fun _ => K1) d) K1 d' y) as (K' & -> & A & B & C); auto.
    + now rewrite (get_upd_same a (fun _ => K1) d K Hg).
    + exists K'. repeat split; auto; try apply B. now rewrite upd_upd_same.
Qed.

(** creating an element for a child step (fields.py:276-297), with or without an insertion index *)
Lemma insert_at_end (K : node) n : insert_kid (length (kids_of n)) K n = append_kid K n.
Proof.
  destruct n as [q ats t ks|s]; cbn; [|reflexivity]. f_equal. unfold insert_nth. rewrite firstn_all, skipn_all. reflexivity.
Qed.

Definition ins_index (ins : option nat) (n : node) : nat :=
  match ins with Some i => Nat.min i (length (kids_of n)) | None => length (kids_of n) end.

Lemma nth_insert {A} i (x : A) l : i <= length l -> nth_error (insert_nth i x l) i = Some x.
Proof.
  intros H. unfold insert_nth. rewrite nth_error_app2; rewrite firstn_length, Nat.min_l by lia; [|lia].
  now rewrite Nat.sub_diag.
Qed.

Lemma upd_insert {A} i (x : A) f l : i <= length l -> upd_nth i f (insert_nth i x l) = insert_nth i (f x) l.
Proof.
  unfold insert_nth. revert l. induction i as [|i IH]; intros [|y l] H; cbn in *; try reflexivity; try lia.
  f_equal. apply IH. lia.
Qed.

Lemma step_build E m ax t ps q ins : ok E false (EStep ax t ps) = true -> kind E (EStep ax t ps) = Some (KChild q) ->
  Forall (P_pred E) ps -> forall a d n d' x, get_at a d = Some n -> tag_of n <> None ->
  build E m (EStep ax t ps) (Some (RElem a)) ins d = (d', Ret x) ->
  exists K, tag_of K = Some q /\ mstep E (EStep ax t ps) K = true /\ leafy E ps K /\
    d' = upd_at a (insert_kid (ins_index ins n) K) d /\ x = Some (RElem (a ++ [ins_index ins n])).
Proof.
  intros Hok Hk HP a d n d' x Hg Hn Hb.
  destruct (kind_child _ _ _ _ _ Hk) as (p & nm & -> & Hax & _). destruct (child_ns_kind _ _ _ _ _ _ Hk) as (Hns & Hv & Hl).
  cbn [build] in Hb. destruct (forallb constructible ps); [|discriminate]. rewrite Hax in Hb.
  apply bind_ret in Hb as (d1 & r1 & Hc & Hb). unfold create_child in Hc. rewrite Hns, Hv in Hc. cbn [negb] in Hc. rewrite Hg in Hc.
  fold (ins_index ins n) in Hc. injection Hc as <- <-. set (i := ins_index ins n) in *.
  assert (Hi : i <= length (kids_of n)) by (unfold i, ins_index; destruct ins; lia).
  apply bind_ret in Hb as (d2 & y & Hit & Hb). injection Hb as <- <-.
  set (K0 := Elem (QN (q_ns q) nm) [] None []) in *.
  assert (HK0 : tag_of K0 = Some q) by (cbn; subst nm; destruct q; reflexivity).
  assert (Hg1 : get_at (a ++ [i]) (upd_at a (insert_kid i K0) d) = Some K0).
  { rewrite get_at_app, (get_upd_same _ _ _ _ Hg). destruct n as [q' ats t ks|s]; [|contradiction]. cbn [get_at insert_kid set_kids kids_of] in *.
    now rewrite nth_insert. }
  destruct (iter_preds E ax _ q ps Hok Hk HP ps [] eq_refl (a ++ [i]) (upd_at a (insert_kid i K0) d) K0 d2 y Hg1 HK0) as (K & -> & A & B & C).
  - repeat split; cbn; intros; contradiction.
  - reflexivity.
  - exact Hit.
  - exists K. repeat split; auto; try apply B.
    + unfold mstep. rewrite Hk. cbn [preds_of]. unfold has_tag. now rewrite A, qeqb_refl, C.
    + rewrite (upd_at_twice _ _ _ _ _ _ Hg). symmetry. eapply upd_at_ext; [exact Hg|].
      destruct n as [q' ats t ks|s]; [|contradiction]. unfold insert_kid. cbn [set_kids upd_at kids_of] in *. f_equal.
      rewrite upd_insert by assumption. reflexivity.
Qed.

Lemma In_sel_spine E ss n b s K m : In b (sel E ss n) -> get_at b n = Some m -> tag_of m <> None -> mstep E s K = true ->
  In (b ++ [length (kids_of m)]) (sel E (ss ++ [s]) (upd_at b (append_kid K) n)) \/ ~ In b (sel E ss (upd_at b (append_kid K) n)).
Proof.
  intros Hb Hg Ht Hm. destruct (in_dec (list_eq_dec Nat.eq_dec) b (sel E ss (upd_at b (append_kid K) n))) as [Hi|Hi]; [left|now right].
  rewrite sel_app. apply in_flat_map. exists b. split; [exact Hi|]. rewrite (get_upd_same _ _ _ _ Hg).
  apply in_map_iff. exists [length (kids_of m)]. split; [reflexivity|]. rewrite (sel_append E s [] K m Ht). apply in_or_app. right.
  rewrite Hm. now left.
Qed.

Lemma append_sim_ok E ss k q b n K m : steps_ok E ss -> last_avoids E ss k -> k = KChild q -> tag_of K = Some q ->
  In b (sel E ss n) -> get_at b n = Some m -> sel E ss (upd_at b (append_kid K) n) = sel E ss n.
Proof.
  intros Ho Hl -> HK Hb Hg. eapply sel_upd; try eassumption. intros m' _. now apply sim_append.
Qed.

Lemma attr_build E m ax t ps q ins : ok E false (EStep ax t ps) = true -> kind E (EStep ax t ps) = Some (KAttr q) ->
  forall a d d' x, build E m (EStep ax t ps) (Some (RElem a)) ins d = (d', Ret x) ->
  d' = upd_at a (set_attr q []) d /\ x = Some (RAttr a q).
Proof.
  intros Ho Hk a d d' x Hb. cbn [ok] in Ho. rewrite Hk in Ho. destruct ps; [|discriminate].
  pose proof Hk as Hk2. destruct (kind_attr _ _ _ _ _ Hk) as (p & nm & -> & Hc & Ha & Hs & _ & Hp & Hr & Hn).
  apply attr_name_kind in Hk2. cbn [build forallb] in Hb. rewrite Hc, Ha in Hb.
  apply bind_ret in Hb as (d1 & r1 & H1 & Hb). unfold create_attr, name_valid in H1. rewrite Hs in H1. cbn [negb] in H1.
  rewrite Hp, Hr, Hk2 in H1. injection H1 as <- <-. cbn in Hb. now injection Hb as <- <-.
Qed.

(** the terminal step, as used by set_in_xml *)
Lemma terminal_slash l r ax t ps : r = EStep ax t ps -> terminal_step (EBin l (u "/") r) = Some r.
Proof. intros ->. cbn. now rewrite str_eqb_refl. Qed.

Lemma set_attr_in E a q ax t ps v d d' y : kind E (EStep ax t ps) = Some (KAttr q) ->
  set_in_xml E (Some (RAttr a q)) (Some v) (Some (EStep ax t ps)) d = (d', Ret y) -> d' = upd_at a (set_attr q v) d /\ xml_valid v = true.
Proof.
  intros Hk Hs. pose proof (attr_name_kind) as An. destruct (kind_attr _ _ _ _ _ Hk) as (p & nm & -> & _ & _ & Hst & Htx & _).
  apply An in Hk. unfold set_in_xml, is_text_nodetest, test_name in Hs. rewrite Htx in Hs. unfold set_attr_at, name_valid in Hs. rewrite Hst in Hs.
  cbn [negb] in Hs. destruct (xml_valid v); [|discriminate]. injection Hs as <- _. now rewrite Hk.
Qed.

Lemma set_elem_in E a st v d n d' y : get_at a d = Some n -> set_in_xml E (Some (RElem a)) (Some v) st d = (d', Ret y) ->
  kids_of n = [] /\ d' = upd_at a (set_text (Some v)) d /\ xml_valid v = true.
Proof.
  intros Hg Hs. cbn [set_in_xml] in Hs. rewrite Hg in Hs. destruct (kids_of n); [|discriminate]. unfold set_text_at in Hs.
  destruct (xml_valid v); [|discriminate]. injection Hs as <- _. auto.
Qed.

Lemma preds_avoid_text E dot ax t ps q : ok E dot (EStep ax t ps) = true -> kind E (EStep ax t ps) = Some (KChild q) -> avoids E ps KText = true.
Proof.
  intros Ho Hk. unfold avoids. apply forallb_forall. intros p Hp. destruct (fkind_some _ _ _ _ _ _ _ Ho Hk Hp) as [k Hf].
  destruct (ok_step_preds _ _ _ _ _ _ _ Ho Hk Hp) as (_ & _ & Hne). rewrite Hf in *. destruct k; auto; congruence.
Qed.

Lemma steps_avoid_text E ss : steps_ok E ss -> last_avoids E ss KText.
Proof.
  induction ss as [|s ss IH]; cbn [steps_ok last_avoids]; [auto|]. intros (H1 & (q & H2) & _ & H4). destruct ss; [|auto].
  destruct (kind_estep _ _ _ H2) as (ax & t & ps & ->). eapply preds_avoid_text; eassumption.
Qed.

Lemma strval_leaf n : kids_of n = [] -> tag_of n <> None -> strval n = ostr (text_of n).
Proof. destruct n as [q ats t ks|s]; [|contradiction]. cbn. intros -> _. apply app_nil_r. Qed.

Lemma text_set_text v n : tag_of n <> None -> text_of (set_text v n) = v.
Proof. destruct n; [reflexivity|contradiction]. Qed.

Lemma core_in_sel E dot e n b m : is_path e = true -> ok E dot e = true -> is_KChild (lkind E e) = true ->
  In b (sel E (spine e) n) -> get_at b n = Some m -> In (IElem [] m) (cores E e n).
Proof.
  intros Hp Ho Hl Hb Hg. unfold cores. rewrite (ev_elems _ _ _ Hp Ho (or_introl Hl)). cbn [nodes_of]. unfold elems_at.
  rewrite map_flat_map. apply in_flat_map. exists b. split; [assumption|]. rewrite Hg. now left.
Qed.

Lemma attr_in_cores E dot l r q n b m v : ok E dot (EBin l (u "/") r) = true -> kind E r = Some (KAttr q) ->
  In b (sel E (spine l) n) -> get_at b n = Some m -> attr_get q (attrs_of m) = Some v ->
  In (IAttr [] q v) (cores E (EBin l (u "/") r) n).
Proof.
  intros Ho Hk Hb Hg Ha. unfold cores. rewrite (ev_term _ _ _ _ _ _ _ Ho Hk eq_refl). cbn [nodes_of]. rewrite map_flat_map. apply in_flat_map.
  exists b. split; [assumption|]. rewrite Hg. cbn [term_items]. unfold attr_items. rewrite map_flat_map. apply in_flat_map.
  induction (attrs_of m) as [|[p w] l' IH]; cbn in Ha; [discriminate|]. destruct (qeqb q p) eqn:Eq.
  - injection Ha as ->. apply qeqb_eq in Eq. subst p. exists (q, v). split; [now left|]. cbn. rewrite qeqb_refl. now left.
  - destruct (IH Ha) as (y & A & B). exists y. split; [now right|exact B].
Qed.

Lemma last_preds_eq E e k : lkind E e = Some k -> exists s, last_step e = Some s /\ last_preds e = preds_of s /\ kind E s = Some k.
Proof. unfold lkind, last_preds. destruct (last_step e) as [s|]; [eauto|discriminate]. Qed.

Theorem construct_ok E e : P_path E e /\ P_pred E e.
Proof.
  induction e using expr_ind'; try (split; [intros ?; discriminate|intros ?; discriminate]).
  - (* EBin *)
    destruct IHe1 as [R1 _]. destruct IHe2 as [R2 _].
    assert (HR : P_path E (EBin e1 op e2)).
    { intros Hp Ho a d n d' x Hg Hn Hb. cbn [is_path] in Hp. apply str_eqb_eq in Hp. subst op.
      destruct (ok_slash _ _ _ _ Ho) as (O1 & (ax & t & ps & ->) & O3 & O4). cbn [build] in Hb. rewrite str_eqb_refl in Hb.
      apply bind_ret in Hb as (d1 & x1 & Hb1 & Hb2). rewrite (lkind_slash E e1 _ _ _ _ eq_refl).
      pose proof (joins_path _ _ _ _ O4 O1) as Hpl. pose proof (joins_left _ _ _ _ O4 O1) as Hjl.
      specialize (R1 Hpl O1 a d n d1 x1 Hg Hn Hb1).
      destruct (lkind E e1) as [[ql|ql|]|] eqn:Hkl; try (destruct Hjl; discriminate).
      2:{ destruct (ok_spine_child _ _ _ Hpl O1) as [Hd _]. rewrite (Hd Hkl) in O1. cbn in O1. discriminate. }
      destruct R1 as (K & b1 & m & q & Hf & HtK & -> & -> & Hin & Hgm & Htm & Hlf).
      assert (Hg1 : get_at (a ++ length (kids_of n) :: b1) (upd_at a (append_kid K) d) = Some m).
      { rewrite get_at_app, (get_upd_same _ _ _ _ Hg), get_append; assumption. }
      assert (Hso : steps_ok E (spine e1)) by (eapply spine_ok; try eassumption; rewrite Hkl; now left).
      destruct (kind E (EStep ax t ps)) as [[qr|qr|]|] eqn:Hkr; [| |exact I|exact I].
      + (* child step *)
        assert (Hlk : lkind E (EStep ax t ps) = Some (KChild qr)) by exact Hkr.
        specialize (R2 eq_refl O3 _ _ _ _ _ Hg1 Htm Hb2). rewrite Hlk in R2.
        destruct R2 as (K2 & b2 & m2 & q2 & Hf2 & HtK2 & -> & -> & Hin2 & Hgm2 & Htm2 & Hlf2).
        assert (Hq2 : q2 = qr) by (unfold fkind in Hf2; cbn [lead_step] in Hf2; congruence). subst q2.
        exists (upd_at b1 (append_kid K2) K), (b1 ++ length (kids_of m) :: b2), m2, q.
        assert (HE1 : upd_at (length (kids_of n) :: b1) (append_kid K2) (append_kid K n) = append_kid (upd_at b1 (append_kid K2) K) n)
          by (apply upd_append; assumption).
        split; [exact Hf|]. split; [rewrite tag_upd_at; [exact HtK|intros _; apply tag_append]|].
        split; [rewrite (upd_at_twice _ _ _ _ _ _ Hg), HE1; symmetry; now apply upd_at_const|].
        split; [do 2 f_equal; now rewrite <- app_assoc|].
        split; [|split; [rewrite get_at_app, (get_upd_same _ _ _ _ Hgm); now rewrite get_append|split; [exact Htm2|]]].
        * cbn [spine]. rewrite sel_app. apply in_flat_map. exists (length (kids_of n) :: b1). rewrite <- HE1. split.
          -- rewrite (sel_upd E (KChild qr)); [exact Hin|exact Hso|eapply spine_last; eassumption|exact Hin|].
             intros m' _. now apply sim_append.
          -- rewrite (get_upd_same (length (kids_of n) :: b1) _ _ m).
             ++ apply in_map_iff. exists (length (kids_of m) :: b2). split; [reflexivity|exact Hin2].
             ++ now rewrite get_append.
        * unfold last_preds. rewrite (last_preds_slash e1 _ ax t ps eq_refl). exact Hlf2.
      + (* attribute *)
        destruct (attr_build E Construct ax t ps qr None O3 Hkr _ _ _ _ Hb2) as [-> ->].
        right. exists e1, (EStep ax t ps), K, b1, m, q. repeat split; auto.
        rewrite (upd_at_twice _ _ _ _ _ _ Hg), upd_append by assumption. symmetry. now apply upd_at_const. }
    split; [exact HR|].
    intros Ho Hlt a d n d' x Hg Hn Hb. destruct (pred_cases _ _ Ho) as [[Hp He]|(l & r & [= -> -> ->])].
    + (* existence *)
      apply str_eqb_eq in Hp as Hop. subst op. rewrite He in Hlt.
      specialize (HR Hp Ho _ _ _ _ _ Hg Hn Hb). destruct (ok_slash _ _ _ _ Ho) as (O1 & (ax & t & ps & ->) & O3 & O4).
      destruct (lkind E (EBin e1 (u "/") (EStep ax t ps))) as [[ql|ql|]|] eqn:Hkl; [| |congruence|].
      * destruct HR as (K & b1 & m & q & Hf & HtK & -> & -> & Hin & Hgm & _ & _). exists (append_kid K n). split; [now apply upd_at_const|].
        split; [|left; exists q, K; auto]. apply hold_path; auto.
        assert (Hx : In (IElem [] m) (cores E (EBin e1 (u "/") (EStep ax t ps)) (append_kid K n))).
        { eapply core_in_sel; try eassumption; [now rewrite Hkl|]. now rewrite get_append. }
        intros H0. now rewrite H0 in Hx.
      * destruct HR as [(Hes & _)|(l & r & K & b1 & m & q & He' & Hf & HtK & -> & -> & Hin & Hgm & Htm)]; [discriminate|].
        injection He' as <- <-. rewrite (lkind_slash E e1 _ _ _ _ eq_refl) in Hkl.
        exists (append_kid (upd_at b1 (set_attr ql []) K) n). split; [now apply upd_at_const|].
        split; [|left; exists q, (upd_at b1 (set_attr ql []) K); repeat split; auto; rewrite tag_upd_at; auto; intros _; apply tag_set_attr].
        apply hold_path; auto.
        assert (Hx : In (IAttr [] ql []) (cores E (EBin e1 (u "/") (EStep ax t ps)) (append_kid (upd_at b1 (set_attr ql []) K) n))).
        { rewrite <- upd_append by assumption. eapply (attr_in_cores E false e1 (EStep ax t ps) ql _ (length (kids_of n) :: b1) (set_attr ql [] m)); auto.
          - rewrite (sel_upd E (KAttr ql)); [exact Hin| |eapply spine_last; eassumption|exact Hin|intros; apply sim_set_attr].
            eapply spine_ok; [eapply joins_path; eassumption|eassumption|eapply joins_left; eassumption].
          - apply get_upd_same. now rewrite get_append.
          - rewrite attrs_set_attr, attr_get_set, qeqb_refl by assumption. reflexivity. }
        intros H0. now rewrite H0 in Hx.
      * rewrite (lkind_slash E e1 _ _ _ _ eq_refl) in Hkl. cbn [ok] in O3. rewrite Hkl in O3. discriminate.
    + (* equality *)
      destruct (ok_eq _ _ _ Ho) as (O1 & O2 & O3). cbn [path_of] in Hlt. rewrite str_eqb_refl in Hlt.
      cbn [build] in Hb. replace (str_eqb (u "=") (u "/")) with false in Hb by reflexivity. rewrite str_eqb_refl in Hb.
      apply bind_ret in Hb as (d1 & x1 & Hb1 & Hb2). specialize (R1 O1 O2 _ _ _ _ _ Hg Hn Hb1).
      destruct (pred_value E r) as [v|ex] eqn:Hv; [|discriminate]. apply bind_ret in Hb2 as (d2 & y & Hs & Hb2). injection Hb2 as <- <-.
      pose proof (pred_value_holds _ _ _ O3 Hv) as Hvc.
      assert (Hfk : fkind E (EBin l (u "=") r) = fkind E l) by reflexivity.
      destruct (lkind E l) as [[ql|ql|]|] eqn:Hkl; [| |congruence|].
      * destruct R1 as (K & b1 & m & q & Hf & HtK & -> & -> & Hin & Hgm & Htm & Hlf).
        assert (Hg1 : get_at (a ++ length (kids_of n) :: b1) (upd_at a (append_kid K) d) = Some m).
        { rewrite get_at_app, (get_upd_same _ _ _ _ Hg), get_append; assumption. }
        destruct (set_elem_in _ _ _ _ _ _ _ _ Hg1 Hs) as (Hk0 & -> & _).
        exists (append_kid (upd_at b1 (set_text (Some v)) K) n). split.
        { rewrite (upd_at_twice _ _ _ _ _ _ Hg), upd_append by assumption. reflexivity. }
        split.
        { rewrite hold_eq by assumption. apply existsb_exists. exists (IElem [] (set_text (Some v) m)). split.
          - rewrite <- upd_append by assumption. eapply (core_in_sel E false l _ (length (kids_of n) :: b1)); try eassumption; [now rewrite Hkl| |].
            + rewrite (sel_upd E KText); [exact Hin| | |exact Hin|intros; apply sim_set_text];
              [|apply steps_avoid_text]; (eapply spine_ok; try eassumption; rewrite Hkl; now left).
            + apply get_upd_same. now rewrite get_append.
          - cbn [item_str]. rewrite strval_leaf; [|now rewrite kids_set_text|now rewrite tag_set_text]. rewrite text_set_text by assumption. exact Hvc. }
        left. exists q, (upd_at b1 (set_text (Some v)) K). repeat split; auto. rewrite tag_upd_at; auto. intros _. apply tag_set_text.
      * destruct R1 as [(Hes & -> & ->)|(l0 & r0 & K & b1 & m & q & -> & Hf & HtK & -> & -> & Hin & Hgm & Htm)].
        -- destruct l; try discriminate. cbn [terminal_step] in Hs.
           assert (Hkl' : kind E (EStep axis node_test predicates) = Some (KAttr ql)) by exact Hkl.
           destruct (set_attr_in _ _ _ _ _ _ _ _ _ _ Hkl' Hs) as [-> _].
           exists (set_attr ql v n). split.
           { rewrite upd_upd_same. eapply upd_at_ext; [exact Hg|]. destruct n; [|contradiction]. cbn. now rewrite attr_set_set. }
           split; [|right; exists ql, v; auto]. rewrite hold_eq by assumption. apply existsb_exists. exists (IAttr [] ql v). split; [|exact Hvc].
           rewrite (cores_attr _ _ _ _ _ O2 Hkl'). apply in_flat_map. exists (ql, v). cbn [fst snd]. rewrite qeqb_refl. split; [|now left].
           rewrite attrs_set_attr by assumption. clear. induction (attrs_of n) as [|[p w] l IH]; cbn; [now left|].
           destruct (qeqb ql p) eqn:Eq; [apply qeqb_eq in Eq; subst; now left|now right].
        -- destruct (ok_slash _ _ _ _ O2) as (Q1 & (ax & t & ps & ->) & Q3 & Q4). rewrite (terminal_slash l0 _ _ _ _ eq_refl) in Hs.
           rewrite (lkind_slash E l0 _ _ _ _ eq_refl) in Hkl. destruct (set_attr_in _ _ _ _ _ _ _ _ _ _ Hkl Hs) as [-> _].
           exists (append_kid (upd_at b1 (set_attr ql v) K) n).
           assert (HE1 : upd_at (length (kids_of n) :: b1) (set_attr ql v) (append_kid (upd_at b1 (set_attr ql []) K) n) = append_kid (upd_at b1 (set_attr ql v) K) n).
           { rewrite upd_append by assumption. f_equal. rewrite upd_upd_same. eapply upd_at_ext; [exact Hgm|]. destruct m; [|contradiction]. cbn. now rewrite attr_set_set. }
           split. { rewrite (upd_at_twice _ _ _ _ _ _ Hg). now rewrite HE1. }
           split.
           { rewrite hold_eq by assumption. apply existsb_exists. exists (IAttr [] ql v). split; [|exact Hvc].
             rewrite <- upd_append by assumption. eapply (attr_in_cores E false l0 (EStep ax t ps) ql _ (length (kids_of n) :: b1) (set_attr ql v m)); auto.
             - rewrite (sel_upd E (KAttr ql)); [exact Hin| |eapply spine_last; eassumption|exact Hin|intros; apply sim_set_attr].
               eapply spine_ok; [eapply joins_path; eassumption|eassumption|eapply joins_left; eassumption].
             - apply get_upd_same. now rewrite get_append.
             - rewrite attrs_set_attr, attr_get_set, qeqb_refl by assumption. reflexivity. }
           left. exists q, (upd_at b1 (set_attr ql v) K). repeat split; auto. rewrite tag_upd_at; auto. intros _. apply tag_set_attr.
      * destruct (ok_spine_child _ _ _ O1 O2) as [Hd _]. rewrite (Hd Hkl) in O2. cbn in O2. discriminate.
  - (* EStep *)
    assert (HPs : Forall (P_pred E) ps) by (eapply Forall_impl; [|exact H]; intros p [_ Hp]; exact Hp).
    assert (HR : P_path E (EStep a t ps)).
    { intros Hp Ho a0 d n d' x Hg Hn Hb. destruct (lkind E (EStep a t ps)) as [[q|q|]|] eqn:Hk; [| |exact I|exact I].
      - destruct (step_build E Construct a t ps q None Ho Hk HPs _ _ _ _ _ Hg Hn Hb) as (K & HtK & Hm & Hlf & -> & ->).
        exists K, [], K, q. cbn [ins_index].
        split; [exact Hk|]. split; [exact HtK|]. split; [eapply upd_at_ext; [exact Hg|apply insert_at_end]|]. split; [reflexivity|].
        split; [|repeat split; auto; try congruence; apply Hlf].
        cbn [spine]. rewrite (sel_append E _ [] K n Hn), Hm. apply in_or_app. right. now left.
      - left. destruct (attr_build _ _ _ _ _ _ _ Ho Hk _ _ _ _ Hb) as [-> ->]. auto. }
    split; [exact HR|]. intros Ho Hlt a0 d n d' x Hg Hn Hb. specialize (HR eq_refl Ho _ _ _ _ _ Hg Hn Hb).
    change (lkind E (EStep a t ps) <> Some KText) in Hlt.
    destruct (lkind E (EStep a t ps)) as [[q|q|]|] eqn:Hk; [| |congruence|].
    + destruct HR as (K & b1 & m & q' & Hf & HtK & -> & -> & Hin & Hgm & _ & _). exists (append_kid K n). split; [now apply upd_at_const|].
      split; [|left; exists q', K; auto]. apply hold_path; auto.
      assert (Hx : In (IElem [] m) (cores E (EStep a t ps) (append_kid K n))).
      { eapply core_in_sel; try eassumption; [reflexivity|now rewrite Hk|]. now rewrite get_append. }
      intros H0. now rewrite H0 in Hx.
    + destruct HR as [(_ & -> & ->)|(l & r & K & b1 & m & q' & [=] & _)]. exists (set_attr q [] n). split; [now apply upd_at_const|].
      split; [|right; exists q, []; split; [exact Hk|reflexivity]]. apply hold_path; auto.
      assert (Hx : In (IAttr [] q []) (cores E (EStep a t ps) (set_attr q [] n))).
      { rewrite (cores_attr _ _ _ _ _ Ho Hk). apply in_flat_map. exists (q, []). cbn [fst snd]. rewrite qeqb_refl. split; [|now left].
        rewrite attrs_set_attr by assumption. clear. induction (attrs_of n) as [|[p w] l IH]; cbn; [now left|].
        destruct (qeqb q p) eqn:Eq; [apply qeqb_eq in Eq; subst; now left|now right]. }
      intros H0. now rewrite H0 in Hx.
    + unfold lkind in Hk. cbn [last_step] in Hk. cbn [ok] in Ho. rewrite Hk in Ho. discriminate.
Qed.
