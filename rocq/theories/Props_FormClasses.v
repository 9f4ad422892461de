(** Form classes that inherit from form classes: C78. *)
From Coq Require Import String List Arith NArith Bool Lia.
From Verif Require Import PyStr Classes ClassProofs FieldLists FormFields FormClasses Props_FormFields.
Import ListNotations.
Opaque u.

(** ** Specification *)
Definition cls_at (w : fworld) (c : nat) : option fcls := nth_error w c.
(** the declaration of a name that a class sees, when every class has at most one base: its own, or that of its base *)
Inductive closest (w : fworld) : nat -> str -> decl -> Prop :=
| Own : forall c k n d, nth_error w c = Some k -> dget n (fc_own k) = Some d -> closest w c n d
| Inherited : forall c k b n d, nth_error w c = Some k -> dget n (fc_own k) = None -> fc_bases k = [b] -> closest w b n d -> closest w c n d.
(** the same for class Meta *)
Inductive closest_meta (w : fworld) : nat -> fmeta -> Prop :=
| OwnM : forall c k m, nth_error w c = Some k -> fc_meta k = Some m -> closest_meta w c m
| InheritedM : forall c k b m, nth_error w c = Some k -> fc_meta k = None -> fc_bases k = [b] -> closest_meta w b m -> closest_meta w c m.
(** programs: no name twice in a class body *)
Definition sound_program (p : list fstmt) : Prop := forall s, In s p -> NoDup (map fst (st_own s)).
Definition single (w : fworld) : Prop := forall c k, nth_error w c = Some k -> length (fc_bases k) <= 1.

(** ** lemmas *)
Lemma declared_last w bases own n : NoDup (map fst own) -> (forall b k, nth_error w b = Some k -> NoDup (map fst (fc_declared k))) ->
  dget n (tmp_fields w bases own) = match dget n own with
    | Some d => Some d
    | None => fold_left (fun acc b => match dget n (declared_of w b) with Some d => Some d | None => acc end) bases None
    end /\ NoDup (map fst (tmp_fields w bases own)).
Proof.
  intros ND Hw. unfold tmp_fields. split; [|apply dupdate_nodup; constructor].
  assert (G : forall (l : list (str * decl)) d0, dget n (dupdate d0 l) = match fold_left (fun acc kv => if str_eqb (fst kv) n then Some (snd kv) else acc) l None with Some v => Some v | None => dget n d0 end).
  { induction l as [|[k v] l IH]; intros d0; [reflexivity|]. cbn [dupdate fold_left]. unfold dupdate in *. cbn [fold_left fst snd]. rewrite IH. cbn [fst snd].
    assert (A : forall (l : list (str * decl)) (o : option decl), fold_left (fun acc kv => if str_eqb (fst kv) n then Some (snd kv) else acc) l o = match fold_left (fun acc kv => if str_eqb (fst kv) n then Some (snd kv) else acc) l None with Some v => Some v | None => o end).
    { clear. induction l as [|[k v] l IH]; intros o; [reflexivity|]. cbn. rewrite IH. symmetry. rewrite IH. destruct (fold_left _ l None); [reflexivity|]. now destruct (str_eqb k n). }
    rewrite (A l (if str_eqb k n then Some v else None)). destruct (fold_left _ l None); [reflexivity|]. rewrite dget_dset. now destruct (str_eqb k n). }
  rewrite G. cbn [dget].
  assert (D : forall l : list (str * decl), NoDup (map fst l) -> fold_left (fun acc kv => if str_eqb (fst kv) n then Some (snd kv) else acc) l None = dget n l).
  { assert (A : forall (l : list (str * decl)) o, NoDup (map fst l) -> fold_left (fun acc kv => if str_eqb (fst kv) n then Some (snd kv) else acc) l o = match dget n l with Some v => Some v | None => o end).
    { induction l as [|[k v] l IH]; intros o H; [reflexivity|]. cbn in H. apply NoDup_cons_iff in H as [H1 H2]. cbn. rewrite IH by exact H2. destruct (str_eqb_spec k n) as [->|N]; [|reflexivity].
      now rewrite (dget_none_notin n l H1). }
    intros l H. rewrite (A l None H). now destruct (dget n l). }
  assert (H : forall bs own, fold_left (fun fields b => declared_of w b ++ fields) (rev bs) own = flat_map (declared_of w) bs ++ own).
  { clear. induction bs as [|b bs IH]; intros own; [reflexivity|]. cbn [rev flat_map]. rewrite fold_left_app. cbn [fold_left]. now rewrite IH, app_assoc. }
  rewrite H, fold_left_app.
  assert (A : forall (l : list (str * decl)) o, NoDup (map fst l) -> fold_left (fun acc kv => if str_eqb (fst kv) n then Some (snd kv) else acc) l o = match dget n l with Some v => Some v | None => o end).
  { induction l as [|[k v] l IH]; intros o H0; [reflexivity|]. cbn in H0. apply NoDup_cons_iff in H0 as [H1 H2]. cbn. rewrite IH by exact H2. destruct (str_eqb_spec k n) as [->|N]; [|reflexivity].
    now rewrite (dget_none_notin n l H1). }
  rewrite (A own _ ND). destruct (dget n own) as [d|]; [reflexivity|].
  assert (B : forall bs o, fold_left (fun acc kv => if str_eqb (fst kv) n then Some (snd kv) else acc) (flat_map (declared_of w) bs) o =
     fold_left (fun acc b => match dget n (declared_of w b) with Some d => Some d | None => acc end) bs o).
  { induction bs as [|b bs IH]; intros o; [reflexivity|]. cbn [flat_map fold_left]. rewrite fold_left_app, IH. f_equal. apply A.
    unfold declared_of. destruct (nth_error w b) as [k|] eqn:E; [|constructor]. rewrite map_map. exact (Hw b k E). }
  rewrite B. now destruct (fold_left _ bases None).
Qed.
Lemma plain_dget n l : NoDup (map fst l) -> dget n (plain_decls l) = match dget n l with Some (DField f) => Some f | _ => None end.
Proof.
  induction l as [|[k d] l IH]; intros H; [reflexivity|]. cbn in H. apply NoDup_cons_iff in H as [H1 H2]. unfold plain_decls in *. cbn. destruct d as [f|f]; cbn; rewrite (IH H2).
  - destruct (str_eqb k n); reflexivity.
  - destruct (str_eqb_spec k n) as [->|N]; [|reflexivity]. now rewrite (dget_none_notin n l H1).
Qed.
Lemma plain_nodup l : NoDup (map fst l) -> NoDup (map fst (plain_decls l)).
Proof.
  induction l as [|[k d] l IH]; intros H; [constructor|]. cbn in H. apply NoDup_cons_iff in H as [H1 H2]. unfold plain_decls in *. cbn. destruct d as [f|f]; cbn; [|auto]. constructor; [|auto].
  intros I. apply H1. apply in_map_iff in I as ([k' f'] & E & I). cbn in E. subst k'. apply in_flat_map in I as ([k' d] & I1 & I2). cbn in I2. destruct d; [|destruct I2].
  destruct I2 as [[= <- _]|[]]. now apply (in_map fst) in I1.
Qed.
Lemma declared_of_dget w b n : dget n (declared_of w b) = match nth_error w b with Some k => option_map DField (dget n (fc_declared k)) | None => None end.
Proof. unfold declared_of. destruct (nth_error w b) as [k|]; [|reflexivity]. induction (fc_declared k) as [|[m f] l IH]; [reflexivity|]. cbn. destruct (str_eqb m n); [reflexivity|exact IH]. Qed.

(** what a program keeps true of its classes; [w] is the world up to the class or later *)
Record fc_ok (fuel : nat) (M : models) (w : fworld) (c : nat) (k : fcls) : Prop := {
  ok_bases : forall b, In b (fc_bases k) -> b < c;
  ok_own : NoDup (map fst (fc_own k));
  ok_mro : exists r, fc_mro k = c :: r /\ NoDup (fc_mro k) /\ (forall x, In x r -> x < c) /\
     merge (total (map (fun b => match nth_error w b with Some k => fc_mro k | None => [] end) (fc_bases k) ++ [fc_bases k])) (map (fun b => match nth_error w b with Some k => fc_mro k | None => [] end) (fc_bases k) ++ [fc_bases k]) = Some r;
  ok_declared : fc_declared k = plain_decls (tmp_fields w (fc_bases k) (fc_own k));
  ok_nodup : NoDup (map fst (fc_declared k));
  ok_form : match first_meta w (fc_mro k) with
            | Some x => match mt_model x with
                        | Some cm => form_class fuel M cm (mt_fields x) (mt_exclude x) (fc_declared k) (sub_decls (tmp_fields w (fc_bases k) (fc_own k)))
                        | None => FOk (FForm (fc_declared k) [] [])
                        end
            | None => FOk (FForm (fc_declared k) [] [])
            end = FOk (fc_form k) }.
Definition fw_ok fuel M (w : fworld) : Prop := forall c k, nth_error w c = Some k -> fc_ok fuel M w c k.

Lemma map_old {A} (f : option fcls -> A) (w : fworld) k bs : (forall b, In b bs -> b < length w) -> map (fun b => f (nth_error (w ++ [k]) b)) bs = map (fun b => f (nth_error w b)) bs.
Proof. intros H. apply map_ext_in. intros b I. rewrite nth_error_app1; auto. Qed.
Lemma tmp_old w k bs own : (forall b, In b bs -> b < length w) -> tmp_fields (w ++ [k]) bs own = tmp_fields w bs own.
Proof.
  intros H. unfold tmp_fields. f_equal. assert (G : forall b, In b (rev bs) -> b < length w) by (intros b I; apply H; now apply in_rev). revert G own. generalize (rev bs). clear H.
  induction l as [|b l IH]; intros G own; [reflexivity|]. cbn. rewrite IH by (intros x I; apply G; now right). f_equal. f_equal. unfold declared_of. rewrite nth_error_app1; [reflexivity|]. apply G. now left.
Qed.
Lemma meta_old w k l : (forall b, In b l -> b < length w) -> first_meta (w ++ [k]) l = first_meta w l.
Proof. induction l as [|b l IH]; intros H; [reflexivity|]. cbn. rewrite nth_error_app1 by (apply H; now left). rewrite IH by (intros x I; apply H; now right). reflexivity. Qed.

Lemma mros_ok fuel M w bs : fw_ok fuel M w -> (forall b, In b bs -> b < length w) ->
  Forall (fun l => forall x, In x l -> x < length w) (map (fun b => match nth_error w b with Some k => fc_mro k | None => [] end) bs ++ [bs]).
Proof.
  intros O H. apply Forall_app. split; [|constructor; [exact H|constructor]]. apply Forall_forall. intros l I. apply in_map_iff in I as (b & <- & I).
  destruct (nth_error w b) as [k|] eqn:E; [|intros x []]. destruct (ok_mro _ _ _ _ _ (O b k E)) as (r & -> & _ & Hr & _). pose proof (H b I). intros x [<-|Ix]; [assumption|]. specialize (Hr x Ix). lia.
Qed.
Lemma merge_facts : forall fuel ls m, merge fuel ls = Some m -> (forall x, In x m -> exists l, In l ls /\ In x l) /\ NoDup m.
Proof. intros fuel ls m H. destruct (merge_spec fuel ls m H) as (H1 & H2 & H3). auto. Qed.

Lemma define_form_ok fuel M w bs meta own w' : fw_ok fuel M w -> NoDup (map fst own) -> define_form fuel M w bs meta own = inl w' -> fw_ok fuel M w' /\ exists k, w' = w ++ [k] /\ fc_bases k = bs /\ fc_own k = own /\ fc_meta k = meta.
Proof.
  intros O ND H. unfold define_form in H. destruct (forallb (fun b => b <? length w) bs) eqn:EB; [|discriminate]. cbn [negb] in H. cbv zeta in H.
  destruct (flinearise w (length w) bs) as [mro|] eqn:EL; [|discriminate].
  destruct (match match meta with Some x => Some x | None => first_meta w (tl mro) end with
            | Some x => match mt_model x with Some c => form_class fuel M c (mt_fields x) (mt_exclude x) (plain_decls (tmp_fields w bs own)) (sub_decls (tmp_fields w bs own)) | None => FOk (FForm (plain_decls (tmp_fields w bs own)) [] []) end
            | None => FOk (FForm (plain_decls (tmp_fields w bs own)) [] []) end) as [F|] eqn:EF; [|discriminate].
  injection H as <-.
  assert (HB : forall b, In b bs -> b < length w) by (intros b I; rewrite forallb_forall in EB; now apply Nat.ltb_lt, EB).
  unfold flinearise in EL. destruct (merge _ _) as [r|] eqn:EM; [|discriminate]. cbn in EL. injection EL as <-.
  destruct (merge_facts _ _ _ EM) as [MF1 MF2].
  assert (HR : forall x, In x r -> x < length w). { intros x I. destruct (MF1 x I) as (l & Il & Ix). pose proof (mros_ok _ _ _ _ O HB) as G. rewrite Forall_forall in G. exact (G l Il x Ix). }
  split; [|eexists; split; [reflexivity|]; cbn; auto].
  intros c k E. destruct (Nat.lt_ge_cases c (length w)) as [L|L].
  - rewrite nth_error_app1 in E by exact L. destruct (O c k E) as [B1 B2 B3 B4 B5 B6].
    assert (HBk : forall b, In b (fc_bases k) -> b < length w) by (intros b I; specialize (B1 b I); lia).
    assert (HM : forall x, In x (fc_mro k) -> x < length w). { destruct B3 as (r0 & -> & _ & Hr & _). intros x [<-|I]; [exact L|]. specialize (Hr x I). lia. }
    constructor; auto.
    + destruct B3 as (r0 & C1 & C2 & C3 & C4). exists r0. split; [exact C1|]. split; [exact C2|]. split; [exact C3|]. rewrite (map_old (fun o => match o with Some k => fc_mro k | None => [] end)) by exact HBk. exact C4.
    + now rewrite tmp_old.
    + rewrite meta_old by exact HM. rewrite tmp_old by exact HBk. exact B6.
  - rewrite nth_error_app2 in E by exact L. destruct (c - length w) as [|[|j]] eqn:EC; cbn in E; try discriminate. injection E as <-. assert (c = length w) by lia. subst c. clear L EC.
    assert (DND : forall b k, nth_error w b = Some k -> NoDup (map fst (fc_declared k))) by (intros b k E; exact (ok_nodup _ _ _ _ _ (O b k E))).
    constructor; cbn [fc_bases fc_own fc_mro fc_declared fc_form fc_meta]; auto.
    + exists r. split; [reflexivity|]. split; [constructor; [intros I; specialize (HR _ I); lia|exact MF2]|]. split; [exact HR|].
      rewrite (map_old (fun o => match o with Some k => fc_mro k | None => [] end)) by exact HB. exact EM.
    + now rewrite tmp_old.
    + apply plain_nodup. now apply (declared_last w bs own []).
    + rewrite tmp_old by exact HB. cbn [first_meta]. rewrite nth_error_app2, Nat.sub_diag by lia. cbn [nth_error fc_meta]. rewrite meta_old by exact HR. cbn [tl] in EF. destruct meta; exact EF.
Qed.
Lemma run_forms_ok fuel M p : sound_program p -> fw_ok fuel M (run_forms fuel M p).
Proof.
  unfold run_forms. intros S. assert (G : forall w, fw_ok fuel M w -> fw_ok fuel M (fold_left (run_form fuel M) p w)).
  { induction p as [|s p IH]; intros w O; [exact O|]. cbn. apply IH; [intros s' I; apply S; now right|]. unfold run_form.
    destruct (define_form fuel M w (st_bases s) (st_meta s) (st_own s)) as [w'|] eqn:E; [|exact O]. eapply define_form_ok; [exact O| |exact E]. apply S. now left. }
  apply G. intros [|c] k E; discriminate.
Qed.

Lemma declared_closest fuel M w : fw_ok fuel M w -> single w -> forall c k n f, nth_error w c = Some k -> (dget n (fc_declared k) = Some f <-> closest w c n (DField f)).
Proof.
  intros O S. assert (DND : forall b k, nth_error w b = Some k -> NoDup (map fst (fc_declared k))) by (intros b k E; exact (ok_nodup _ _ _ _ _ (O b k E))).
  induction c as [c IH] using lt_wf_ind. intros k n f E. destruct (O c k E) as [B1 B2 _ B4 _ _].
  rewrite B4. destruct (declared_last w (fc_bases k) (fc_own k) n B2 DND) as [L N]. rewrite plain_dget by exact N. rewrite L. specialize (S c k E).
  destruct (dget n (fc_own k)) as [d|] eqn:Eo.
  - split; [destruct d; [intros [= <-]|discriminate]; intros; now apply (Own w c k)|].
    intros H. inversion H as [c' k' n' d' E1 E2|c' k' b n' d' E1 E2 E3 E4]; subst; rewrite E in E1; injection E1 as <-; rewrite Eo in E2; [injection E2 as ->; reflexivity|discriminate].
  - destruct (fc_bases k) as [|b [|b2 bs]] eqn:Eb; [| |cbn in S; lia].
    + cbn. split; [discriminate|]. intros H. inversion H as [c' k' n' d' E1 E2|c' k' b n' d' E1 E2 E3 E4]; subst; rewrite E in E1; injection E1 as <-; congruence.
    + cbn [fold_left]. rewrite declared_of_dget. destruct (nth_error w b) as [kb|] eqn:Ekb.
      * assert (Hb : b < c) by (apply B1; now left). rewrite <- (IH b Hb kb n f Ekb) || idtac.
        split.
        -- intros H. apply (Inherited w c k b); auto. apply (IH b Hb kb n f Ekb). destruct (dget n (fc_declared kb)); cbn in H; [congruence|discriminate].
        -- intros H. inversion H as [c' k' n' d' E1 E2|c' k' b' n' d' E1 E2 E3 E4]; subst; rewrite E in E1; injection E1 as <-; [congruence|]. rewrite Eb in E3. injection E3 as <-.
           apply (IH b Hb kb n f Ekb) in E4. now rewrite E4.
      * cbn. split; [discriminate|]. intros H. inversion H as [c' k' n' d' E1 E2|c' k' b' n' d' E1 E2 E3 E4]; subst; rewrite E in E1; injection E1 as <-; [congruence|]. rewrite Eb in E3. injection E3 as <-.
        inversion E4; congruence.
Qed.

Lemma merge_single x r : NoDup (x :: r) -> merge (total [x :: r; [x]]) [x :: r; [x]] = Some (x :: r).
Proof.
  assert (G : forall l e f, NoDup l -> total [l; e] <= f -> e = [] -> merge f [l; e] = Some l).
  { induction l as [|y l IH]; intros e f ND F ->; [destruct f; reflexivity|]. apply NoDup_cons_iff in ND as [N1 N2]. destruct f as [|f]; [cbn in F; lia|].
    cbn [merge forallb andb]. cbn [pick]. assert (T : in_tails y [y :: l; []] = false). { unfold in_tails. cbn. rewrite orb_false_r. destruct (existsb (Nat.eqb y) l) eqn:E; [|reflexivity]. apply existsb_exists in E as (z & Iz & Ez). apply Nat.eqb_eq in Ez. subst z. contradiction. }
    rewrite T. cbn [map drop_head]. rewrite Nat.eqb_refl. rewrite (IH [] f N2); [reflexivity| |reflexivity]. cbn in *. lia. }
  intros ND. apply NoDup_cons_iff in ND as [N1 N2]. cbn [total fold_right length]. replace (S (length r) + (1 + 0)) with (S (S (length r))) by lia.
  remember (S (length r)) as g eqn:Eg. cbn [merge forallb andb]. cbn [pick]. assert (T : in_tails x [x :: r; [x]] = false). { unfold in_tails. cbn. rewrite orb_false_r. destruct (existsb (Nat.eqb x) r) eqn:E; [|reflexivity]. apply existsb_exists in E as (z & Iz & Ez). apply Nat.eqb_eq in Ez. subst z. contradiction. }
  rewrite T. cbn [map drop_head]. rewrite Nat.eqb_refl. rewrite (G r [] g N2); [reflexivity| |reflexivity]. cbn. lia.
Qed.
Lemma meta_closest fuel M w : fw_ok fuel M w -> single w -> forall c k m, nth_error w c = Some k -> (first_meta w (fc_mro k) = Some m <-> closest_meta w c m).
Proof.
  intros O S. induction c as [c IH] using lt_wf_ind. intros k m E. destruct (O c k E) as [B1 B2 B3 _ _ _]. destruct B3 as (r & C1 & C2 & C3 & C4). specialize (S c k E).
  rewrite C1. cbn [first_meta]. rewrite E. destruct (fc_meta k) as [m0|] eqn:Em.
  - split; [intros [= <-]; now apply (OwnM w c k)|]. intros H. inversion H as [c' k' m' E1 E2|c' k' b m' E1 E2 E3 E4]; subst; rewrite E in E1; injection E1 as <-; congruence.
  - destruct (fc_bases k) as [|b [|b2 bs]] eqn:Eb; [| |cbn in S; lia].
    + cbn in C4. injection C4 as <-. cbn. split; [discriminate|]. intros H. inversion H as [c' k' m' E1 E2|c' k' b m' E1 E2 E3 E4]; subst; rewrite E in E1; injection E1 as <-; congruence.
    + assert (Hb : b < c) by (apply B1; now left). destruct (nth_error w b) as [kb|] eqn:Ekb; [|apply nth_error_None in Ekb; exfalso; assert (c < length w) by (apply nth_error_Some; congruence); lia].
      cbn [map app] in C4. rewrite Ekb in C4. destruct (ok_mro _ _ _ _ _ (O b kb Ekb)) as (rb & D1 & D2 & _ & _). rewrite D1 in C4. rewrite merge_single in C4 by congruence. injection C4 as <-. rewrite <- D1.
      rewrite (IH b Hb kb m Ekb). split; [intros H; now apply (InheritedM w c k b)|].
      intros H. inversion H as [c' k' m' E1 E2|c' k' b' m' E1 E2 E3 E4]; subst; rewrite E in E1; injection E1 as <-; [congruence|]. rewrite Eb in E3. now injection E3 as <-.
Qed.

(** ** C78 *)
(** with single inheritance, of any depth, the declared fields of a class are the closest declarations, and its options come from the
    closest Meta *)
Theorem C78_declared : forall fuel M p c k n f, sound_program p -> let w := run_forms fuel M p in single w -> cls_at w c = Some k ->
  (dget n (fc_declared k) = Some f <-> closest w c n (DField f)).
Proof. intros fuel M p c k n f S w Sg E. exact (declared_closest fuel M w (run_forms_ok fuel M p S) Sg c k n f E). Qed.

(** declared subforms only matter by what is declared for a name *)
Lemma loop_ext build ds ds' fl el : (forall n, dget n ds = dget n ds') -> forall fs a, loop build (Some ds) fl el fs a = loop build (Some ds') fl el fs a.
Proof.
  intros H. induction fs as [|[n m] r IH]; intros a; [reflexivity|]. cbn [loop].
  assert (C : contribute build (Some ds) fl el n m = contribute build (Some ds') fl el n m). { unfold contribute, sub_form. now rewrite H. }
  rewrite C. destruct (negb (included fl n)); [apply IH|]. destruct (excluded el n); [apply IH|]. destruct (contribute build (Some ds') fl el n m); [apply IH|reflexivity].
Qed.
Lemma form_class_ext fuel M c fields exclude df ds ds' : (forall n, dget n ds = dget n ds') -> form_class fuel M c fields exclude df ds = form_class fuel M c fields exclude df ds'.
Proof.
  intros H. unfold form_class, formfields_for_xmlobject. destruct fuel as [|g]; [reflexivity|]. cbn [form_for]. now rewrite (loop_ext _ ds ds' _ _ H).
Qed.
Lemma sub_dget n l : NoDup (map fst l) -> dget n (sub_decls l) = match dget n l with Some (DSub f) => Some f | _ => None end.
Proof.
  induction l as [|[k d] l IH]; intros H; [reflexivity|]. cbn in H. apply NoDup_cons_iff in H as [H1 H2]. unfold sub_decls in *. cbn. destruct d as [f|f]; cbn; rewrite (IH H2).
  - destruct (str_eqb_spec k n) as [->|N]; [|reflexivity]. now rewrite (dget_none_notin n l H1).
  - destruct (str_eqb k n); reflexivity.
Qed.
Lemma own_subs fuel M w c k : fw_ok fuel M w -> nth_error w c = Some k -> forall n, dget n (sub_decls (tmp_fields w (fc_bases k) (fc_own k))) = dget n (sub_decls (fc_own k)).
Proof.
  intros O E n. destruct (O c k E) as [_ B2 _ _ _ _].
  assert (DND : forall b k, nth_error w b = Some k -> NoDup (map fst (fc_declared k))) by (intros b k0 E0; exact (ok_nodup _ _ _ _ _ (O b k0 E0))).
  destruct (declared_last w (fc_bases k) (fc_own k) n B2 DND) as [L N]. rewrite sub_dget, sub_dget by assumption. rewrite L. destruct (dget n (fc_own k)) as [d|]; [reflexivity|].
  assert (G : forall bs (o : option decl), (forall f, o <> Some (DSub f)) -> forall f, fold_left (fun acc b => match dget n (declared_of w b) with Some d => Some d | None => acc end) bs o <> Some (DSub f)).
  { induction bs as [|b bs IH]; intros o Ho; [exact Ho|]. cbn. apply IH. rewrite declared_of_dget. destruct (nth_error w b) as [kb|]; [|exact Ho]. destruct (dget n (fc_declared kb)); cbn; [discriminate|exact Ho]. }
  specialize (G (fc_bases k) None ltac:(discriminate)). destruct (fold_left _ (fc_bases k) None) as [[f|f]|]; try reflexivity. now destruct (G f).
Qed.

(** and its form has the closest declared field under every name that has one, and otherwise what the model gives (C40) for the closest
    Meta; its subforms and formsets are those of the model, with the SubformFields of the class's own body *)
Theorem C78_form : forall fuel M p c k x cm, sound_program p -> let w := run_forms fuel M p in single w -> cls_at w c = Some k ->
  closest_meta w c x -> mt_model x = Some cm ->
  exists F0, form_class fuel M cm (mt_fields x) (mt_exclude x) [] (sub_decls (fc_own k)) = FOk F0 /\
    (forall n f, closest w c n (DField f) -> dget n (g_fields (fc_form k)) = Some f) /\
    (forall n, (forall f, ~ closest w c n (DField f)) -> dget n (g_fields (fc_form k)) = dget n (g_fields F0)) /\
    g_subs (fc_form k) = g_subs F0 /\ g_sets (fc_form k) = g_sets F0.
Proof.
  intros fuel M p c k x cm S w Sg E Hm Hc. pose proof (run_forms_ok fuel M p S) as O. fold w in O. destruct (O c k E) as [B1 B2 B3 B4 B5 B6].
  apply (meta_closest fuel M w O Sg c k x E) in Hm. rewrite Hm, Hc in B6. rewrite (form_class_ext _ _ _ _ _ _ _ _ (own_subs fuel M w c k O E)) in B6.
  unfold form_class in *. destruct (formfields_for_xmlobject _ _ _ _ _ _ _) as [F|]; [|discriminate]. injection B6 as HF. eexists. split; [reflexivity|]. rewrite <- HF. cbn [g_fields g_subs g_sets].
  split; [|split; [|now split]].
  - intros n f Hn. apply (declared_closest fuel M w O Sg c k n f E) in Hn. rewrite dget_dupdate by exact B5. now rewrite Hn.
  - intros n Hn. rewrite dget_dupdate by exact B5. change (dget n (dupdate (g_fields F) [])) with (dget n (g_fields F)). destruct (dget n (fc_declared k)) as [f|] eqn:Ed; [|reflexivity].
    exfalso. apply (Hn f). now apply (declared_closest fuel M w O Sg c k n f E).
Qed.

(** an empty subclass of a class that declares no subforms in its body makes the same form *)
Theorem C78_empty_subclass : forall fuel M p a k, sound_program p -> let w := run_forms fuel M p in cls_at w a = Some k -> (forall n f, ~ In (n, DSub f) (fc_own k)) ->
  exists k', define_form fuel M w [a] None [] = inl (w ++ [k']) /\ fc_declared k' = fc_declared k /\ fc_form k' = fc_form k.
Proof.
  intros fuel M p a k S w E Hs. pose proof (run_forms_ok fuel M p S) as O. fold w in O. destruct (O a k E) as [B1 B2 B3 B4 B5 B6].
  assert (La : a < length w) by (apply nth_error_Some; unfold cls_at in E; congruence).
  assert (ND : forall (l : list (str * decl)), NoDup (map fst l) -> dupdate [] l = l).
  { assert (G : forall (l d : list (str * decl)), NoDup (map fst (d ++ l)) -> dupdate d l = d ++ l).
    { induction l as [|[n v] l IH]; intros d H; [now rewrite app_nil_r|]. unfold dupdate. cbn [fold_left fst snd]. fold (dupdate (dset n v d) l).
      assert (D : dset n v d = d ++ [(n, v)]). { rewrite map_app in H. apply NoDup_remove_2 in H. assert (N : ~ In n (map fst d)) by (intros I; apply H; apply in_or_app; now left).
        clear -N. induction d as [|[n' v'] d IH]; [reflexivity|]. cbn in *. destruct (str_eqb_spec n' n); [subst; tauto|]. rewrite IH by tauto. reflexivity. }
      rewrite D, IH; rewrite <- app_assoc; [reflexivity|exact H]. }
    intros l H. exact (G l [] H). }
  assert (ET : tmp_fields w [a] [] = map (fun nf => (fst nf, DField (snd nf))) (fc_declared k)).
  { unfold tmp_fields. cbn [rev app fold_left]. unfold declared_of. unfold cls_at in E. rewrite E, app_nil_r. apply ND. rewrite map_map. exact B5. }
  assert (EP : forall l : list (str * ffield), plain_decls (map (fun nf => (fst nf, DField (snd nf))) l) = l) by (induction l as [|[n f] l IH]; [reflexivity|]; unfold plain_decls in *; cbn; now rewrite IH).
  assert (EQ : forall l : list (str * ffield), sub_decls (map (fun nf => (fst nf, DField (snd nf))) l) = []) by (induction l as [|[n f] l IH]; [reflexivity|]; unfold sub_decls in *; cbn; now rewrite IH).
  unfold define_form. cbn [forallb]. apply Nat.ltb_lt in La. rewrite La. cbn [andb negb]. cbv zeta. rewrite ET, EP, EQ.
  destruct B3 as (r & C1 & C2 & C3 & C4). unfold flinearise. cbn [map app]. unfold cls_at in E. rewrite E. rewrite C1 in C2 |- *. rewrite merge_single by exact C2. cbn [option_map tl]. rewrite <- C1.
  assert (ES : forall x cm, form_class fuel M cm (mt_fields x) (mt_exclude x) (fc_declared k) [] = form_class fuel M cm (mt_fields x) (mt_exclude x) (fc_declared k) (sub_decls (tmp_fields w (fc_bases k) (fc_own k)))).
  { intros x cm. apply form_class_ext. intros n. rewrite (own_subs fuel M w a k O E). rewrite sub_dget by exact B2. destruct (dget n (fc_own k)) as [[f|f]|] eqn:Ed; try reflexivity. apply dget_In in Ed. now apply Hs in Ed. }
  destruct (first_meta w (fc_mro k)) as [x|]; [destruct (mt_model x) as [cm|]; [rewrite ES|]|]; try rewrite B6; try injection B6 as B6; (eexists; split; [reflexivity|]); cbn; auto.
Qed.

(** ** examples and what does not hold *)
Open Scope string_scope.
Definition fld (s : string) : ffield := mkFF TChar None (LVerbose (u s)) None.
(** class 0 of the model: title and part, a node of class 1 with x and y *)
Definition Mx : models := fun c => match c with
  | 0 => [(u "title", mf KString 0); (u "part", mf (KNode 1) 1)]
  | 1 => [(u "x", mf KString 2); (u "y", mf KString 3)]
  | _ => [] end.
Definition mt0 := Some (mkMeta (Some 0) ANone ANone).
Definition part_form : fform := FForm [(u "x", fld "only x")] [] [].
Definition prog : list fstmt := [mkStmt [] None []; mkStmt [0] mt0 [(u "title", DField (fld "Title")); (u "note", DField (fld "Note"))]; mkStmt [1] None [(u "title", DField (fld "Headline"))]; mkStmt [2] None []].
Lemma prog_sound : sound_program prog.
Proof. intros s H. repeat destruct H as [<-|H]; try destruct H; cbn; repeat constructor; cbn; intuition; discriminate. Qed.
Example C78_case : sound_program prog /\ single (run_forms 9 Mx prog) /\ length (run_forms 9 Mx prog) = 4 /\
  option_map (fun k => (map fst (g_fields (fc_form k)), dget (u "title") (g_fields (fc_form k)), dget (u "note") (g_fields (fc_form k)))) (cls_at (run_forms 9 Mx prog) 3)
    = Some ([u "title"; u "note"], Some (fld "Headline"), Some (fld "Note")) /\
  (forall k, cls_at (run_forms 9 Mx prog) 3 = Some k -> forall n f, ~ In (n, DSub f) (fc_own k)).
Proof.
  split; [exact prog_sound|]. split.
  - intros c k E. do 4 (destruct c as [|c]; [vm_compute in E; injection E as <-; vm_compute; lia|]). vm_compute in E. destruct c; discriminate.
  - split; [vm_compute; reflexivity|]. split; [vm_compute; reflexivity|]. intros k E n f. vm_compute in E. injection E as <-. intros [].
Qed.
(** a SubformField is lost in subclasses: the subclass gets the generated subform back *)
Theorem C78_subform_lost_refuted :
  let w := run_forms 9 Mx [mkStmt [] None []; mkStmt [0] mt0 [(u "part", DSub part_form)]; mkStmt [1] None []] in
  option_map (fun k => dget (u "part") (g_subs (fc_form k))) (cls_at w 1) = Some (Some part_form) /\
  option_map (fun k => option_map (fun f => map fst (g_fields f)) (dget (u "part") (g_subs (fc_form k)))) (cls_at w 2) = Some (Some [u "x"; u "y"]).
Proof. vm_compute. auto. Qed.
(** of two bases the last one wins, although attributes (and Meta) come from the first *)
Theorem C78_last_base_refuted :
  let w := run_forms 9 Mx [mkStmt [] None []; mkStmt [0] mt0 [(u "title", DField (fld "A"))]; mkStmt [0] mt0 [(u "title", DField (fld "B"))]; mkStmt [1; 2] None []] in
  option_map fc_mro (cls_at w 3) = Some [3; 1; 2; 0] /\ option_map (fun k => dget (u "title") (g_fields (fc_form k))) (cls_at w 3) = Some (Some (fld "B")).
Proof. vm_compute. auto. Qed.
Close Scope string_scope.
