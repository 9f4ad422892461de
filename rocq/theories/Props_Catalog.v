(** The XML catalog: C44. *)
From Coq Require Import String List Arith NArith Bool Lia.
From Verif Require Import PyStr CatalogGen.
Import ListNotations.
Opaque u.

Section Spec.
Context (annotate : bytes -> option bytes) (render : list (str * str) -> bytes).
Notation generate := (generate annotate render).
(** ** Specification *)
(** the part after the last slash *)
Definition last_part (uri name : str) : Prop := ~ In (ch "/") name /\ (uri = name \/ exists before, uri = before ++ ch "/" :: name).
(** the schema came complete and is XML: what ends up in the file *)
Definition good (it : str * response) : option bytes := match snd it with RBody cs false => annotate (concat cs) | _ => None end.
Definition is_good (it : str * response) : bool := match good it with Some _ => true | None => false end.
(** the documented kind of failure: the server answers with an error *)
Definition refused (it : str * response) : Prop := snd it = RStatus.
Definition file_of (dir : str) (it : str * response) : str := join dir (basename (fst it)).
Definition entry (it : str * response) : str * str := (fst it, basename (fst it)).

(** ** lemmas *)
Lemma apply_app a b fs : apply (a ++ b) fs = apply b (apply a fs). Proof. apply fold_left_app. Qed.
Definition path_of (o : fsop) : str := match o with Trunc p => p | Write p _ => p end.
Lemma apply1_other o fs p : path_of o <> p -> apply1 fs o p = fs p.
Proof. destruct o as [q|q b]; cbn; unfold set_file; destruct (str_eqb_spec p q); congruence. Qed.
Lemma apply_other ops p : (forall o, In o ops -> path_of o <> p) -> forall fs, apply ops fs p = fs p.
Proof. induction ops as [|o ops IH]; intros H fs; [reflexivity|]. cbn [apply fold_left]. fold (apply ops (apply1 fs o)). rewrite IH by (intros; apply H; now right). apply apply1_other. apply H. now left. Qed.
Lemma apply_writes p cs : forall fs a, fs p = Some a -> apply (map (Write p) cs) fs p = Some (a ++ concat cs).
Proof.
  induction cs as [|c cs IH]; intros fs a H; cbn [map apply fold_left concat]; [now rewrite app_nil_r|]. fold (apply (map (Write p) cs) (apply1 fs (Write p c))). rewrite (IH _ (a ++ c)); [now rewrite app_assoc|]. cbn. unfold set_file. now rewrite str_eqb_refl, H.
Qed.
Lemma concat_nonempty (cs : list bytes) : concat (filter (fun c => match c with [] => false | _ => true end) cs) = concat cs.
Proof. induction cs as [|[|x c] cs IH]; cbn; [reflexivity|exact IH|now rewrite IH]. Qed.
Lemma basename_no_slash s : forall acc, ~ In (ch "/") acc -> ~ In (ch "/") (basename_from s acc).
Proof.
  induction s as [|c s IH]; intros acc H; cbn [basename_from]; [assumption|]. destruct (N.eqb_spec c (ch "/")) as [->|N]; apply IH; [intros []|]. intros Hin. apply in_app_or in Hin as [Hin|[Hin|[]]]; [now apply H|congruence].
Qed.
Lemma basename_acc s : forall acc, ~ In (ch "/") s -> basename_from s acc = acc ++ s.
Proof.
  induction s as [|c s IH]; intros acc H; cbn [basename_from]; [now rewrite app_nil_r|]. destruct (N.eqb_spec c (ch "/")) as [->|N]; [exfalso; apply H; now left|]. rewrite IH by (intros Hin; apply H; now right). now rewrite <- app_assoc.
Qed.
Lemma basename_slash a b acc : basename_from (a ++ ch "/" :: b) acc = basename_from b [].
Proof. revert acc. induction a as [|c a IH]; intros acc; cbn [app basename_from]; [now rewrite N.eqb_refl|apply IH]. Qed.
Lemma last_slash s : In (ch "/") s -> exists a b, s = a ++ ch "/" :: b /\ ~ In (ch "/") b.
Proof.
  induction s as [|c s IH]; intros H; [destruct H|]. destruct (in_dec N.eq_dec (ch "/") s) as [H2|H2].
  - destruct (IH H2) as (a & b & -> & Hb). exists (c :: a), b. auto.
  - destruct H as [->|H]; [|contradiction]. exists [], s. auto.
Qed.
Lemma In_firstn {A} (x : A) k l : In x (firstn k l) -> In x l.
Proof. revert l. induction k as [|k IH]; intros [|y l] H; cbn in *; try contradiction. destruct H as [->|H]; auto. Qed.
Lemma join_inj dir a b : join dir a = join dir b -> a = b.
Proof. unfold join. destruct (rev dir) as [|c r]; [auto|]. destruct (N.eqb c (ch "/")); rewrite ?app_assoc; apply app_inv_head. Qed.

Lemma download_spec p r : forall ops out, download annotate p r = (ops, out) ->
  (forall o, In o ops -> path_of o = p) /\
  match out with
  | Saved => exists cs b, r = RBody cs false /\ annotate (concat cs) = Some b /\ forall fs, apply ops fs p = Some b
  | NotSaved => r = RStatus /\ ops = []
  | Raised => r <> RStatus /\ (forall cs, r = RBody cs false -> annotate (concat cs) = None)
  end.
Proof.
  intros ops out H. destruct r as [| |cs cut]; cbn [download] in H.
  - injection H as <- <-. split; [intros ? []|auto].
  - injection H as <- <-. split; [intros ? []|]. split; [discriminate|]. intros cs H. discriminate.
  - set (W := Trunc p :: map (Write p) (filter (fun c => match c with [] => false | _ => true end) cs)) in *.
    assert (HW : forall o, In o W -> path_of o = p). { intros o [<-|Ho]; [reflexivity|]. apply in_map_iff in Ho as (c & <- & _). reflexivity. }
    destruct cut; [injection H as <- <-; split; [assumption|]; split; [discriminate|]; intros ? [=]|].
    destruct (annotate (concat cs)) as [b|] eqn:E; injection H as <- <-.
    + split; [intros o Ho; apply (in_app_or W) in Ho as [Ho|[<-|[<-|[]]]]; auto|]. exists cs, b. split; [reflexivity|]. split; [assumption|]. intros fs. change (apply (W ++ [Trunc p; Write p b]) fs p = Some b). rewrite apply_app. generalize (apply W fs). intros g. cbn. unfold set_file. now rewrite !str_eqb_refl.
    + split; [assumption|]. split; [discriminate|]. intros cs' [= <-]. assumption.
Qed.

(** all writes go to files of the items *)
Lemma all_paths dir : forall items entries ops res, download_all annotate dir items entries = (ops, res) ->
  forall o, In o ops -> exists it, In it items /\ ~ refused it /\ path_of o = file_of dir it.
Proof.
  induction items as [|[uri r] items IH]; intros entries ops res H o Ho; cbn [download_all] in H; [injection H as <- _; destruct Ho|].
  destruct (basename uri) as [|c0 n0] eqn:En.
  - destruct r; [|injection H as <- _; destruct Ho|injection H as <- _; destruct Ho]. destruct (IH _ _ _ H o Ho) as (it & H1 & H2). exists it. split; [now right|assumption].
  - rewrite <- En in H. destruct (download annotate (join dir (basename uri)) r) as [ops1 out] eqn:Ed. destruct (download_spec _ _ _ _ Ed) as [P1 P2].
    destruct out.
    + destruct (download_all annotate dir items _) as [ops2 res2] eqn:Ea. injection H as <- _. apply in_app_or in Ho as [Ho|Ho].
      * exists (uri, r). split; [now left|]. split; [destruct P2 as (cs & b & -> & _); discriminate|]. now apply P1.
      * destruct (IH _ _ _ Ea o Ho) as (it & H1 & H2). exists it. split; [now right|assumption].
    + destruct (download_all annotate dir items _) as [ops2 res2] eqn:Ea. injection H as <- _. destruct P2 as [_ ->]. cbn in Ho. destruct (IH _ _ _ Ea o Ho) as (it & H1 & H2). exists it. split; [now right|assumption].
    + injection H as <- _. exists (uri, r). split; [now left|]. split; [intros HR; apply (proj1 P2); exact HR|]. now apply P1.
Qed.
Lemma all_spec dir : forall items entries ops es, download_all annotate dir items entries = (ops, Some es) ->
  es = entries ++ map entry (filter is_good items) /\ (forall it, In it items -> is_good it = true \/ refused it) /\
  (forall pre it post fs b, items = pre ++ it :: post -> good it = Some b -> (forall it', In it' post -> basename (fst it') <> basename (fst it)) -> apply ops fs (file_of dir it) = Some b).
Proof.
  induction items as [|[uri r] items IH]; intros entries ops es H; cbn [download_all] in H.
  { injection H as <- <-. split; [now rewrite app_nil_r|]. split; [intros ? []|]. intros [|] it post fs b He; discriminate. }
  assert (Refused : forall ops2, r = RStatus -> download_all annotate dir items entries = (ops2, Some es) ->
    es = entries ++ map entry (filter is_good ((uri, r) :: items)) /\ (forall it, In it ((uri, r) :: items) -> is_good it = true \/ refused it) /\
    (forall pre it post fs b, (uri, r) :: items = pre ++ it :: post -> good it = Some b -> (forall it', In it' post -> basename (fst it') <> basename (fst it)) -> apply ops2 fs (file_of dir it) = Some b)).
  { intros ops2 -> Ea. destruct (IH _ _ _ Ea) as (I1 & I2 & I3). split; [exact I1|]. split; [intros it [<-|Hit]; [now right|auto]|].
    intros [|x pre] it post fs b He Hg Hp; cbn [app] in He; injection He as <- He; [discriminate|]. exact (I3 pre it post fs b He Hg Hp). }
  destruct (basename uri) as [|c0 n0] eqn:En.
  - destruct r; [|discriminate|discriminate]. now apply Refused.
  - rewrite <- En in H. destruct (download annotate (join dir (basename uri)) r) as [ops1 out] eqn:Ed. destruct (download_spec _ _ _ _ Ed) as [P1 P2].
    destruct out; [| |discriminate].
    + destruct (download_all annotate dir items _) as [ops2 res2] eqn:Ea. injection H as <- ->. destruct P2 as (cs & b0 & -> & Hb & Hw). destruct (IH _ _ _ Ea) as (I1 & I2 & I3).
      assert (Hg0 : good (uri, RBody cs false) = Some b0) by exact Hb. assert (Hi0 : is_good (uri, RBody cs false) = true) by (unfold is_good; now rewrite Hg0).
      split; [cbn [filter]; rewrite Hi0; cbn [map]; rewrite I1, <- app_assoc; reflexivity|]. split; [intros it [<-|Hit]; [now left|auto]|].
      intros [|x pre] it post fs b He Hg Hp; cbn [app] in He; injection He as <- He; rewrite apply_app.
      * subst post. rewrite Hg0 in Hg. injection Hg as <-. rewrite apply_other; [apply Hw|]. intros o Ho Hpo. destruct (all_paths _ _ _ _ _ Ea o Ho) as (it' & H1 & _ & H3). rewrite Hpo in H3. unfold file_of in H3. apply join_inj in H3. now apply (Hp it' H1).
      * exact (I3 pre it post _ b He Hg Hp).
    + destruct (download_all annotate dir items _) as [ops2 res2] eqn:Ea. injection H as <- ->. destruct P2 as [-> ->]. cbn [app]. now apply Refused.
Qed.
Lemma all_total dir : forall items entries, (forall it, In it items -> basename (fst it) <> [] /\ (is_good it = true \/ refused it)) -> exists ops es, download_all annotate dir items entries = (ops, Some es).
Proof.
  induction items as [|[uri r] items IH]; intros entries H; cbn [download_all]; [eauto|]. destruct (H _ (or_introl eq_refl)) as [Hn Hr]. cbn [fst] in Hn. destruct (basename uri) as [|c0 n0] eqn:En; [contradiction|]. rewrite <- En.
  assert (H' : forall it, In it items -> basename (fst it) <> [] /\ (is_good it = true \/ refused it)) by (intros; apply H; now right).
  destruct Hr as [Hg|Hr]; [|unfold refused in Hr; cbn in Hr; subst r; cbn [download]; destruct (IH entries H') as (ops & es & ->); eauto].
  unfold is_good, good in Hg. cbn [snd] in Hg. destruct r as [| |cs [|]]; try discriminate. cbn [download]. destruct (annotate (concat cs)); [|discriminate]. destruct (IH (entries ++ [(uri, basename uri)]) H') as (ops & es & ->). eauto.
Qed.

(** ** C44 *)
(** If every schema either arrives or is refused by its server, the catalog is generated ... *)
Theorem C44_completes : forall dir file items, (forall it, In it items -> basename (fst it) <> [] /\ (is_good it = true \/ refused it)) ->
  exists ops es, generate dir file items = (ops, Some es).
Proof. intros dir file items H. unfold CatalogGen.generate. destruct (all_total dir items [] H) as (ops & es & ->). eauto. Qed.
(** ... and whenever it is: one entry per schema that arrived, in order; the last part of its URI names a file in the directory that
    holds that schema; the catalog file holds the entries, or is untouched if there is none; no other file changes. *)
Theorem C44_catalog : forall dir file items ops es fs,
  generate dir file items = (ops, Some es) -> NoDup (map (fun it => basename (fst it)) items) -> (forall it, In it items -> file_of dir it <> file) ->
  let fs' := apply ops fs in
  es = map (fun it => (fst it, basename (fst it))) (filter is_good items) /\
  (forall it b, In it items -> good it = Some b -> fs' (file_of dir it) = Some b) /\
  fs' file = match es with [] => fs file | _ => Some (render es) end /\
  (forall p, p <> file -> (forall it, In it items -> refused it \/ file_of dir it <> p) -> fs' p = fs p).
Proof.
  intros dir file items ops es fs H Hn Hf fs'. unfold CatalogGen.generate in H. destruct (download_all annotate dir items []) as [ops1 res] eqn:Ea. injection H as <- ->.
  destruct (all_spec _ _ _ _ _ Ea) as (E1 & E2 & E3). cbn [app] in E1.
  assert (Hcat : forall o, In o (write_catalog render file (Some es)) -> path_of o = file). { intros o Ho. unfold write_catalog in Ho. destruct es; [destruct Ho|]. destruct Ho as [<-|[<-|[]]]; reflexivity. }
  assert (Hother : forall p g, p <> file -> apply (write_catalog render file (Some es)) g p = g p). { intros p g Hp. apply apply_other. intros o Ho. rewrite (Hcat o Ho). congruence. }
  assert (Hsch : apply ops1 fs file = fs file). { apply apply_other. intros o Ho He. destruct (all_paths _ _ _ _ _ Ea o Ho) as (it & H1 & _ & H3). apply (Hf it H1). congruence. }
  unfold fs'. split; [exact E1|]. split; [|split].
  - intros it b Hit Hg. rewrite apply_app, Hother by now apply Hf. apply in_split in Hit as (pre & post & ->). apply (E3 pre it post fs b eq_refl Hg).
    intros it' Hit' He. rewrite map_app in Hn. cbn [map] in Hn. apply NoDup_remove_2 in Hn. apply Hn, in_or_app. right. rewrite <- He. now apply (in_map (fun it => basename (fst it))).
  - rewrite apply_app. destruct es as [|e0 es0]; [exact Hsch|]. cbn. unfold set_file. now rewrite !str_eqb_refl.
  - intros p Hp Hit. rewrite apply_app, Hother by assumption. apply apply_other. intros o Ho He. destruct (all_paths _ _ _ _ _ Ea o Ho) as (it & H1 & H2 & H3). destruct (Hit it H1); [contradiction|congruence].
Qed.
(** the names in the catalog *)
Theorem C44_names : forall uri name, basename uri = name <-> last_part uri name.
Proof.
  intros uri name. split.
  - intros <-. split; [apply basename_no_slash; intros []|]. unfold basename. destruct (in_dec N.eq_dec (ch "/") uri) as [Hin|Hin]; [|left; now rewrite basename_acc].
    destruct (last_slash uri Hin) as (a & b & -> & Hb). right. exists a. rewrite basename_slash, basename_acc by assumption. reflexivity.
  - intros [Hn [->|(b & ->)]]; unfold basename; [now rewrite basename_acc|]. rewrite basename_slash. now rewrite basename_acc.
Qed.
(** the file of a schema is directly in the given directory, with one slash between, whether or not the directory ends in one *)
Definition in_dir (dir name path : str) : Prop :=
  (dir = [] /\ path = name) \/ (exists d, dir = d ++ [ch "/"] /\ path = d ++ ch "/" :: name) \/
  (dir <> [] /\ (forall d, dir <> d ++ [ch "/"]) /\ path = dir ++ ch "/" :: name).
Theorem C44_paths : forall dir it name path, last_part (fst it) name -> (file_of dir it = path <-> in_dir dir name path).
Proof.
  intros dir it name path Hl. apply C44_names in Hl. unfold file_of. rewrite Hl. clear Hl it. unfold in_dir, join. destruct dir as [|c d] using rev_ind.
  - cbn. split; [intros <-; now left|]. intros [[_ ->]|[(d & H & _)|[H _]]]; [reflexivity| |congruence]. destruct d; discriminate.
  - clear IHd. rewrite rev_app_distr. cbn [rev app]. destruct (N.eqb_spec c (ch "/")) as [->|Hc].
    + split.
      * intros <-. right. left. exists d. split; [reflexivity|]. now rewrite <- app_assoc.
      * intros [[H _]|[(d' & H & ->)|(_ & H & _)]]; [now destruct d| |exfalso; now apply (H d)]. apply app_inj_tail in H as [-> _]. now rewrite <- app_assoc.
    + split.
      * intros <-. right. right. split; [now destruct d|]. split; [|reflexivity]. intros d' H. apply app_inj_tail in H as [_ H]. now apply Hc.
      * intros [[H _]|[(d' & H & _)|(_ & _ & ->)]]; [now destruct d| |reflexivity]. apply app_inj_tail in H as [_ H]. now elim Hc.
Qed.

(** *** interruptions *)
Lemma crash_other ops p k fs : (forall o, In o ops -> path_of o <> p) -> after_crash ops k fs p = fs p.
Proof.
  intros H. unfold after_crash. apply apply_other. intros o Ho. apply In_firstn in Ho. apply in_flat_map in Ho as (o' & H1 & H2). destruct o' as [q|q b]; cbn in H2.
  - destruct H2 as [<-|[]]. now apply (H _ H1).
  - apply in_map_iff in H2 as (c & <- & _). now apply (H _ H1).
Qed.
Lemma crash_split a b k fs : after_crash (a ++ b) k fs = (if k <=? length (flat_map split_op a) then after_crash a k fs else after_crash b (k - length (flat_map split_op a)) (after_crash a (length (flat_map split_op a)) fs)).
Proof.
  unfold after_crash. rewrite flat_map_app, firstn_app. destruct (Nat.leb_spec k (length (flat_map split_op a))) as [H|H].
  - replace (k - length (flat_map split_op a)) with 0 by lia. cbn [firstn]. now rewrite app_nil_r.
  - rewrite firstn_all2 by lia. rewrite apply_app. now rewrite firstn_all.
Qed.
Lemma bytes_written p b : forall j fs a, fs p = Some a -> apply (firstn j (map (fun c => Write p [c]) b)) fs p = Some (a ++ firstn j b).
Proof.
  induction b as [|c b IH]; intros j fs a H; destruct j as [|j]; cbn [map firstn apply fold_left]; rewrite ?app_nil_r; try assumption.
  fold (apply (firstn j (map (fun c => Write p [c]) b)) (apply1 fs (Write p [c]))). rewrite (IH j _ (a ++ [c])); [now rewrite <- app_assoc|]. cbn. unfold set_file. now rewrite str_eqb_refl, H.
Qed.
(** splitting writes into bytes changes nothing when all of them happen, for traces that open each file before writing to it *)
Lemma whole_write p b fs a : fs p = Some a -> forall q, apply (split_op (Write p b)) fs q = apply1 fs (Write p b) q.
Proof.
  intros H q. cbn [split_op apply1]. unfold set_file. rewrite H. destruct (str_eqb_spec q p) as [->|N].
  - rewrite <- (firstn_all (map (fun c => Write p [c]) b)), map_length. rewrite (bytes_written p b _ _ a H). now rewrite firstn_all.
  - apply apply_other. intros o Ho. apply in_map_iff in Ho as (c & <- & _). cbn. congruence.
Qed.
Lemma apply_ext ops : forall fs gs, (forall p, fs p = gs p) -> forall p, apply ops fs p = apply ops gs p.
Proof.
  induction ops as [|o ops IH]; intros fs gs H p; cbn [apply fold_left]; [apply H|]. apply IH. intros q. destruct o as [w|w b]; cbn; unfold set_file; destruct (str_eqb q w); rewrite ?H; reflexivity.
Qed.
(** [opened ops fs]: every write goes to a file that exists by then *)
Fixpoint opened (ops : list fsop) (fs : fsys) : Prop :=
  match ops with [] => True | o :: r => match o with Trunc _ => True | Write p _ => fs p <> None end /\ opened r (apply1 fs o) end.
Lemma opened_app a b fs : opened (a ++ b) fs <-> opened a fs /\ opened b (apply a fs).
Proof. revert fs. induction a as [|o a IH]; intros fs; cbn [app opened]; [tauto|]. rewrite IH. cbn [apply fold_left]. fold (apply a (apply1 fs o)). tauto. Qed.
Lemma split_whole ops : forall fs, opened ops fs -> forall p, apply (flat_map split_op ops) fs p = apply ops fs p.
Proof.
  induction ops as [|o ops IH]; intros fs Ho p; cbn [flat_map]; [reflexivity|]. destruct Ho as [H1 H2]. rewrite apply_app. cbn [apply fold_left]. fold (apply ops (apply1 fs o)).
  assert (E : forall q, apply (split_op o) fs q = apply1 fs o q). { destruct o as [w|w b]; [reflexivity|]. destruct (fs w) as [a|] eqn:Ew; [|contradiction]. now apply (whole_write w b fs a). }
  fold (apply (flat_map split_op ops) (apply (split_op o) fs)). rewrite (apply_ext _ _ (apply1 fs o) E). now apply IH.
Qed.
Lemma opened_writes p cs : forall fs, fs p <> None -> opened (map (Write p) cs) fs.
Proof. induction cs as [|c cs IH]; intros fs H; cbn; [exact I|]. split; [assumption|]. apply IH. unfold set_file. rewrite str_eqb_refl. discriminate. Qed.
Lemma download_opened p r ops out fs : download annotate p r = (ops, out) -> opened ops fs.
Proof.
  destruct r as [| |cs cut]; cbn [download]; [intros [= <- _]; exact I|intros [= <- _]; exact I|].
  assert (HW : opened (Trunc p :: map (Write p) (filter (fun c => match c with [] => false | _ => true end) cs)) fs). { split; [exact I|]. apply opened_writes. cbn. unfold set_file. rewrite str_eqb_refl. discriminate. }
  destruct cut; [intros [= <- _]; exact HW|]. destruct (annotate (concat cs)); intros [= <- _]; [|exact HW].
  apply (opened_app (Trunc p :: _)). split; [exact HW|]. cbn. unfold set_file. rewrite str_eqb_refl. split; [exact I|]. split; [discriminate|exact I].
Qed.
Lemma all_opened dir : forall items entries ops res fs, download_all annotate dir items entries = (ops, res) -> opened ops fs.
Proof.
  induction items as [|[uri r] items IH]; intros entries ops res fs H; cbn [download_all] in H; [injection H as <- _; exact I|].
  destruct (basename uri) as [|c0 n0] eqn:En; [destruct r; [eapply IH; eassumption|injection H as <- _; exact I|injection H as <- _; exact I]|]. rewrite <- En in H.
  destruct (download annotate (join dir (basename uri)) r) as [ops1 out] eqn:Ed. destruct out.
  - destruct (download_all annotate dir items _) as [ops2 res2] eqn:Ea. injection H as <- _. apply opened_app. split; [eapply download_opened; eassumption|eapply IH; eassumption].
  - destruct (download_all annotate dir items _) as [ops2 res2] eqn:Ea. injection H as <- _. apply opened_app. split; [eapply download_opened; eassumption|eapply IH; eassumption].
  - injection H as <- _. eapply download_opened; eassumption.
Qed.

(** Wherever it is interrupted (or ends with an exception): either the catalog file is as it was, or all schemas have been dealt with, their
    files are complete, and the catalog file holds some first part of the new catalog; files that are neither are never touched. *)
Theorem C44_interrupted : forall dir file items ops res fs k, generate dir file items = (ops, res) ->
  NoDup (map (fun it => basename (fst it)) items) -> (forall it, In it items -> file_of dir it <> file) ->
  let fs' := after_crash ops k fs in
  (fs' file = fs file \/
   exists es j, res = Some es /\ es <> [] /\ fs' file = Some (firstn j (render es)) /\
     forall it b, In it items -> good it = Some b -> fs' (file_of dir it) = Some b) /\
  (forall p, p <> file -> (forall it, In it items -> refused it \/ file_of dir it <> p) -> fs' p = fs p).
Proof.
  intros dir file items ops res fs k H Hn Hf fs'. pose proof H as H0. unfold CatalogGen.generate in H. destruct (download_all annotate dir items []) as [ops1 res1] eqn:Ea. injection H as <- ->.
  assert (Hsch : forall o, In o ops1 -> path_of o <> file). { intros o Ho He. destruct (all_paths _ _ _ _ _ Ea o Ho) as (it & H1 & _ & H3). apply (Hf it H1). congruence. }
  assert (Hcat : forall o, In o (write_catalog render file res) -> path_of o = file). { intros o Ho. unfold write_catalog in Ho. destruct res as [[|e es]|]; try destruct Ho as [<-|[<-|[]]]; try reflexivity; destruct Ho. }
  split.
  - unfold fs'. rewrite crash_split. destruct (Nat.leb_spec k (length (flat_map split_op ops1))) as [Hk|Hk]; [left; now apply crash_other|].
    set (mid := after_crash ops1 (length (flat_map split_op ops1)) fs).
    assert (Emid : forall p, mid p = apply ops1 fs p). { intros p. unfold mid, after_crash. rewrite firstn_all. apply split_whole. eapply all_opened; eassumption. }
    destruct res as [[|e0 es0]|]; [left|right|left].
    + cbn [write_catalog]. unfold after_crash at 1. cbn [flat_map]. rewrite firstn_nil. cbn [apply fold_left]. now apply crash_other.
    + set (es := e0 :: es0) in *. remember (k - length (flat_map split_op ops1)) as k1. destruct k1 as [|k1]; [lia|].
      exists es, k1. split; [reflexivity|]. split; [discriminate|].
      assert (Ef : after_crash (write_catalog render file (Some es)) (S k1) mid file = Some (firstn k1 (render es))).
      { cbn [write_catalog]. unfold es. unfold after_crash. cbn [flat_map split_op app firstn]. rewrite app_nil_r. cbn [apply fold_left]. fold (apply (firstn k1 (map (fun c => Write file [c]) (render (e0 :: es0)))) (apply1 mid (Trunc file))).
        rewrite (bytes_written file _ k1 _ []); [reflexivity|]. cbn. unfold set_file. now rewrite str_eqb_refl. }
      split; [exact Ef|]. intros it b Hit Hg. rewrite crash_other by (intros o Ho; rewrite (Hcat o Ho); intros Hc; now apply (Hf it Hit)). rewrite Emid.
      destruct (C44_catalog dir file items _ es fs H0 Hn Hf) as (_ & G2 & _). rewrite <- (G2 it b Hit Hg). rewrite apply_app. symmetry. apply apply_other. intros o Ho. rewrite (Hcat o Ho). intros Hc. now apply (Hf it Hit).
    + cbn [write_catalog]. unfold after_crash at 1. cbn [flat_map]. rewrite firstn_nil. cbn [apply fold_left]. now apply crash_other.
  - intros p Hp Hit. apply crash_other. intros o Ho He. apply in_app_or in Ho as [Ho|Ho]; [|rewrite (Hcat o Ho) in He; congruence].
    destruct (all_paths _ _ _ _ _ Ea o Ho) as (it & H1 & H2 & H3). destruct (Hit it H1); [contradiction|congruence].
Qed.
(** an exception: the catalog file is as it was *)
Theorem C44_exception : forall dir file items ops fs, generate dir file items = (ops, None) -> (forall it, In it items -> file_of dir it <> file) -> apply ops fs file = fs file.
Proof.
  intros dir file items ops fs H Hf. unfold CatalogGen.generate in H. destruct (download_all annotate dir items []) as [ops1 res1] eqn:Ea. injection H as <- ->. cbn [write_catalog]. rewrite app_nil_r.
  apply apply_other. intros o Ho He. destruct (all_paths _ _ _ _ _ Ea o Ho) as (it & H1 & _ & H3). apply (Hf it H1). congruence.
Qed.
(** after an interruption anywhere, a second run that completes repairs everything: nothing of the first run remains visible in
    the catalog, nor in the file of any schema that arrives the second time *)
Theorem C44_rerun : forall dir file items ops res fs k items2 ops2 es2, generate dir file items = (ops, res) ->
  generate dir file items2 = (ops2, Some es2) -> NoDup (map (fun it => basename (fst it)) items2) -> (forall it, In it items2 -> file_of dir it <> file) ->
  let fs' := apply ops2 (after_crash ops k fs) in
  (es2 <> [] -> fs' file = Some (render es2)) /\ (forall it b, In it items2 -> good it = Some b -> fs' (file_of dir it) = Some b) /\
  es2 = map (fun it => (fst it, basename (fst it))) (filter is_good items2).
Proof.
  intros dir file items ops res fs k items2 ops2 es2 _ H2 Hn Hf fs'. destruct (C44_catalog dir file items2 ops2 es2 (after_crash ops k fs) H2 Hn Hf) as (E1 & E2 & E3 & _).
  split; [|split; [exact E2|exact E1]]. intros Hne. destruct es2; [contradiction|exact E3].
Qed.
End Spec.

(** ** Concrete cases *)
Definition mark (b : bytes) : option bytes := match b with 60%N :: _ => Some (b ++ [33%N]) | _ => None end.   (* XML starts with < *)
Definition show (es : list (str * str)) : bytes := concat (map (fun e => snd e ++ [10%N]) es).
Definition no_files : fsys := fun _ => None.
Definition dirn := u "/d". Definition catf := u "/d/catalog.xml".
Definition it_ok (n : string) := (u n, RBody [[60%N]; []; [65%N]] false).
Definition ex_items := [it_ok "http://x/a.xsd"; (u "http://x/b.xsd", RStatus); it_ok "http://y/c.xsd"].
Example C44_case : let r := generate mark show dirn catf ex_items in
  (forall it, In it ex_items -> basename (fst it) <> [] /\ (is_good mark it = true \/ refused it)) /\
  NoDup (map (fun it => basename (fst it)) ex_items) /\ (forall it, In it ex_items -> file_of dirn it <> catf) /\
  snd r = Some [(u "http://x/a.xsd", u "a.xsd"); (u "http://y/c.xsd", u "c.xsd")] /\
  apply (fst r) no_files (u "/d/c.xsd") = Some [60%N; 65%N; 33%N] /\ apply (fst r) no_files catf = Some (u "a.xsd" ++ [10%N] ++ u "c.xsd" ++ [10%N]).
Proof.
  split; [|split; [|split; [|vm_compute; auto]]].
  - intros it Hit. cbn [ex_items In] in Hit. destruct Hit as [<-|[<-|[<-|[]]]]; (split; [vm_compute; discriminate|]); [left|right|left]; reflexivity.
  - vm_compute. repeat (constructor; [cbn; intuition discriminate|]). constructor.
  - intros it Hit. cbn [ex_items In] in Hit. destruct Hit as [<-|[<-|[<-|[]]]]; vm_compute; discriminate.
Qed.
(** the schemas of catalog.py:53-63 have different names, none of them catalog.xml *)
Definition default_schemas := map u [
    "http://www.loc.gov/standards/mods/mods.xsd"; "http://www.loc.gov/standards/mods/v3/mods-3-4.xsd"; "http://www.openarchives.org/OAI/2.0/oai_dc.xsd";
    "http://www.loc.gov/standards/xlink/xlink.xsd"; "http://www.loc.gov/standards/premis/premis.xsd"; "http://www.loc.gov/standards/premis/v2/premis-v2-1.xsd";
    "http://www.tei-c.org/release/xml/tei/custom/schema/xsd/tei_all.xsd";
    "http://www.history.ncdcr.gov/SHRAB/ar/emailpreservation/mail-account/mail-account.xsd"; "http://www.loc.gov/ead/ead.xsd"]%string.
Example C44_default_schemas : NoDup (map basename default_schemas) /\ ~ In (u "catalog.xml") (map basename default_schemas) /\ ~ In [] (map basename default_schemas).
Proof. split; [|split]; vm_compute; [repeat (constructor; [cbn; intuition discriminate|]); constructor|intuition discriminate|intuition discriminate]. Qed.

(** *** where it fails *)
(** a connection error is not treated as a failed download: no catalog at all *)
Theorem C44_connection_refuted : generate mark show dirn catf [it_ok "http://x/a.xsd"; (u "http://x/b.xsd", RError); it_ok "http://y/c.xsd"] =
  (fst (generate mark show dirn catf [it_ok "http://x/a.xsd"; (u "http://x/b.xsd", RError)]), None).
Proof. vm_compute. reflexivity. Qed.
(** two schemas with the same last part: two entries, one file, holding the second schema *)
Theorem C44_same_name_refuted : let r := generate mark show dirn catf [it_ok "http://x/a.xsd"; (u "http://y/a.xsd", RBody [[60%N]; [66%N]] false)] in
  snd r = Some [(u "http://x/a.xsd", u "a.xsd"); (u "http://y/a.xsd", u "a.xsd")] /\ apply (fst r) no_files (u "/d/a.xsd") = Some [60%N; 66%N; 33%N].
Proof. vm_compute. auto. Qed.
(** interrupted while a schema is downloaded: the old catalog, which lists it, is left with a truncated schema file *)
Theorem C44_truncated_schema_refuted : let old := apply (fst (generate mark show dirn catf [it_ok "http://x/a.xsd"])) no_files in
  let fs' := after_crash (fst (generate mark show dirn catf [it_ok "http://x/a.xsd"])) 2 old in
  fs' catf = old catf /\ old catf <> None /\ fs' (u "/d/a.xsd") = Some [60%N].
Proof. split; [vm_compute; reflexivity|]. split; [vm_compute; discriminate|vm_compute; reflexivity]. Qed.
(** interrupted while the catalog is written: neither the old nor the new one *)
Theorem C44_truncated_catalog_refuted : let old := set_file catf [88%N] no_files in exists k, after_crash (fst (generate mark show dirn catf [it_ok "http://x/a.xsd"])) k old catf = Some (u "a.").
Proof. exists 10. vm_compute. reflexivity. Qed.
Print Assumptions C44_catalog.
Print Assumptions C44_names.
Print Assumptions C44_interrupted.
Print Assumptions C44_paths.
