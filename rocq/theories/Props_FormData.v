(** Initial data of forms: C41. *)
From Coq Require Import String List Arith NArith Bool Lia.
From Verif Require Import PyStr Classes ClassProofs FieldLists FieldListProofs FormFieldProofs FormData.
Import ListNotations.
Opaque u.

Section Spec.
Context {V : Type}.
Implicit Types (o : obj V).
(** ** Specification.  A place in an object: node fields and items of node lists, then a field. *)
Inductive pstep := Into (n : str) | Item (n : str) (i : nat).
Definition place : Type := list pstep * str.
Fixpoint value_at (o : obj V) (path : list pstep) (n : str) : option (dval V) :=
  match o with
  | Obj fs =>
    match path with
    | [] => match dget n fs with
            | Some (VPlain v) => Some (DPlain v)
            | Some (VNode None) => Some DNone
            | Some (VNode (Some o')) => Some (DObj o')
            | _ => None
            end
    | Into m :: r => match dget m fs with Some (VNode (Some o')) => value_at o' r n | _ => None end
    | Item m i :: r => match dget m fs with Some (VNodes l) => match nth_error l i with Some o' => value_at o' r n | None => None end | _ => None end
    end
  end.
(** its key, as documented for Django forms and formsets with a prefix: a-b-2-c *)
Definition key_step (s : pstep) : str := match s with Into n => n ++ [ch "-"] | Item n i => n ++ [ch "-"] ++ str_of_N (N.of_nat i) ++ [ch "-"] end.
Definition key (path : list pstep) (n : str) : str := concat (map key_step path) ++ n.
Definition first_name (path : list pstep) (n : str) : str := match path with [] => n | Into m :: _ => m | Item m _ :: _ => m end.
(** field names are Python identifiers: not empty, no hyphen; a class has each once *)
Definition is_ident (n : str) : Prop := n <> [] /\ ~ In (ch "-") n.
Inductive sane_obj : obj V -> Prop :=
| Sane : forall fs, NoDup (map fst fs) -> (forall n v, In (n, v) fs -> is_ident n) ->
    (forall n o, In (n, VNode (Some o)) fs -> sane_obj o) -> (forall n l o, In (n, VNodes l) fs -> In o l -> sane_obj o) -> sane_obj (Obj fs).

(** ** lemmas: keys as lists of components *)
Definition dash : N := ch "-".
Fixpoint each (f : obj V -> list (list str * dval V)) (n : str) (i : nat) (l : list (obj V)) : list (list str * dval V) :=
  match l with [] => [] | o :: t => map (fun cv => (n :: str_of_N (N.of_nat i) :: fst cv, snd cv)) (f o) ++ each f n (S i) t end.
Definition vcomps (f : obj V -> list (list str * dval V)) (n : str) (v : oval V) : list (list str * dval V) :=
  match v with
  | VPlain x => [([n], DPlain x)]
  | VNode None => [([n], DNone)]
  | VNode (Some o) => map (fun cv => (n :: fst cv, snd cv)) (f o) ++ [([n], DObj o)]
  | VNodes l => each f n 0 l
  end.
Fixpoint comps (sel : str -> bool) (o : obj V) {struct o} : list (list str * dval V) :=
  match o with
  | Obj fs =>
    (fix go fs := match fs with
                  | [] => []
                  | (n, v) :: r =>
                    (if sel n then
                       match v with
                       | VPlain x => [([n], DPlain x)]
                       | VNode None => [([n], DNone)]
                       | VNode (Some o) => map (fun cv => (n :: fst cv, snd cv)) (comps (fun _ => true) o) ++ [([n], DObj o)]
                       | VNodes l => (fix ea i l := match l with [] => [] | o :: t => map (fun cv => (n :: str_of_N (N.of_nat i) :: fst cv, snd cv)) (comps (fun _ => true) o) ++ ea (S i) t end) 0 l
                       end
                     else []) ++ go r
                  end) fs
  end.
Definition allc := comps (fun _ => true).
Lemma comps_eq sel fs : comps sel (Obj fs) = flat_map (fun nv => if sel (fst nv) then vcomps allc (fst nv) (snd nv) else []) fs.
Proof.
  cbn. induction fs as [|[n v] fs IH]; [reflexivity|]. cbn [flat_map fst snd]. rewrite <- IH. f_equal. destruct (sel n); [|reflexivity]. destruct v as [x|[o|]|l]; try reflexivity. cbn [vcomps]. generalize 0 as i. induction l as [|o l IHl]; intros i; cbn; [reflexivity|]. now rewrite IHl.
Qed.
Fixpoint each_dict (pre : str) (n : str) (i : nat) (l : list (obj V)) (data : list (str * dval V)) : list (str * dval V) :=
  match l with [] => data | o :: t => each_dict pre n (S i) t (dupdate data (to_dict None None (pre ++ n ++ [ch "-"] ++ str_of_N (N.of_nat i)) o)) end.
Definition step_dict (pre : str) (n : str) (v : oval V) (data : list (str * dval V)) : list (str * dval V) :=
  match v with
  | VPlain x => dset (pre ++ n) (DPlain x) data
  | VNode None => dset (pre ++ n) DNone data
  | VNode (Some o) => dset (pre ++ n) (DObj o) (dupdate data (to_dict None None (pre ++ n) o))
  | VNodes l => each_dict pre n 0 l data
  end.
Lemma to_dict_eq f e prefix fs : to_dict f e prefix (Obj fs) =
  fold_left (fun data nv => if wanted f e (fst nv) then step_dict (combining prefix) (fst nv) (snd nv) data else data) fs [].
Proof.
  cbn [to_dict]. generalize (@nil (str * dval V)) as data. induction fs as [|[n v] fs IH]; intros data; [reflexivity|]. cbn [fold_left fst snd]. destruct (wanted f e n); [|apply IH]. rewrite IH. f_equal. destruct v as [x|[o|]|l]; try reflexivity. cbn [step_dict]. generalize 0 as i. revert data. induction l as [|o l IHl]; intros data i; cbn [each_dict]; [reflexivity|]. now rewrite IHl.
Qed.

Lemma str_of_N_inj a b : str_of_N a = str_of_N b -> a = b.
Proof.
  unfold str_of_N. intros H. apply (f_equal (map (fun x => (x - 48)%N))) in H. rewrite !map_map in H. rewrite !(map_ext (fun x => (48 + x - 48)%N) (fun x => x)) in H by (intros; lia). rewrite !map_id in H. rewrite <- (N_of_digits_of_N a), H. apply N_of_digits_of_N.
Qed.
Lemma str_of_N_free a : free dash (str_of_N a).
Proof. unfold free, str_of_N. intros H. apply in_map_iff in H as (x & Hx & Hi). change dash with 45%N in Hx. lia. Qed.
Lemma dec_inj i j : str_of_N (N.of_nat i) = str_of_N (N.of_nat j) -> i = j.
Proof. intros H. apply str_of_N_inj in H. lia. Qed.

Lemma NoDup_app2 {A} (a b : list A) : NoDup a -> NoDup b -> (forall x, In x a -> ~ In x b) -> NoDup (a ++ b).
Proof.
  intros Ha Hb Hd. induction Ha as [|x a Hx Ha IHa]; [exact Hb|]. cbn. constructor; [rewrite in_app_iff; intros [G|G]; [auto|apply (Hd x (or_introl eq_refl) G)]|]. apply IHa. intros y Hy. apply Hd. now right.
Qed.
Definition good_comp (cs : list str) : Prop := cs <> [] /\ Forall (free dash) cs.
Lemma each_In f n : forall l i c v, In (c, v) (each f n i l) <-> exists j o c', nth_error l j = Some o /\ c = n :: str_of_N (N.of_nat (i + j)) :: c' /\ In (c', v) (f o).
Proof.
  induction l as [|o l IH]; intros i c v; cbn.
  - split; [tauto|]. intros (j & o & c' & H & _). now destruct j.
  - rewrite in_app_iff, IH, in_map_iff. split.
    + intros [([c' v'] & [= <- <-] & H)|(j & o' & c' & H1 & H2 & H3)]; [exists 0, o, c'; rewrite Nat.add_0_r; auto|]. exists (S j), o', c'. rewrite Nat.add_succ_r. auto.
    + intros ([|j] & o' & c' & H1 & H2 & H3); cbn in H1.
      * left. injection H1 as <-. exists (c', v). rewrite Nat.add_0_r in H2. subst c. auto.
      * right. exists j, o', c'. rewrite Nat.add_succ_r in H2. auto.
Qed.
Lemma comps_In o : sane_obj o -> forall sel,
  (forall c v, In (c, v) (comps sel o) -> good_comp c) /\ NoDup (map fst (comps sel o)).
Proof.
  induction 1 as [fs Hnd Hid _ IHn _ IHl]; intros sel. rewrite comps_eq. split.
  - intros c v H. apply in_flat_map in H as ([n w] & Hin & H). cbn [fst snd] in H. destruct (sel n); [|contradiction]. assert (Fn : free dash n) by apply (Hid n w Hin).
    destruct w as [x|[o|]|l]; cbn in H.
    + destruct H as [[= <- <-]|[]]. split; [discriminate|auto].
    + apply in_app_iff in H as [H|[[= <- <-]|[]]]; [|split; [discriminate|auto]]. apply in_map_iff in H as ([c' v'] & [= <- <-] & H). apply (IHn n o Hin) in H as [_ H]. split; [discriminate|constructor; auto].
    + destruct H as [[= <- <-]|[]]. split; [discriminate|auto].
    + apply each_In in H as (j & o & c' & H1 & -> & H3). apply (IHl n l o Hin (nth_error_In _ _ H1)) in H3 as [_ H3]. split; [discriminate|]. constructor; [assumption|]. constructor; [apply str_of_N_free|assumption].
  - assert (Hhead : forall n w c, In c (map fst (vcomps allc n w)) -> exists r, c = n :: r).
    { intros n w c H. apply in_map_iff in H as ([c' v] & <- & H). cbn [fst]. destruct w as [x|[o|]|l]; cbn in H.
      - destruct H as [[= <- <-]|[]]. eauto.
      - apply in_app_iff in H as [H|[[= <- <-]|[]]]; [|eauto]. apply in_map_iff in H as ([c2 v'] & [= <- <-] & H). eauto.
      - destruct H as [[= <- <-]|[]]. eauto.
      - apply each_In in H as (j & o & c2 & H1 & -> & H3). eauto. }
    assert (Hv : forall n w, In (n, w) fs -> NoDup (map fst (vcomps allc n w))).
    { intros n w Hin. destruct w as [x|[o|]|l]; cbn [vcomps]; try (repeat constructor; auto; fail).
      - rewrite map_app. cbn [map fst]. destruct (IHn n o Hin (fun _ => true)) as [G1 G2]. fold allc in G1, G2. apply NoDup_app2; [|repeat constructor; auto|].
        + rewrite map_map. cbn [fst]. rewrite <- (map_map fst (cons n)). apply FinFun.Injective_map_NoDup; [intros a b [= ->]; reflexivity|assumption].
        + intros x H [Hx|[]]. subst x. apply in_map_iff in H as ([c v] & H1 & H2). apply in_map_iff in H2 as ([c' v'] & [= <- <-] & H2). cbn in H1. injection H1 as ->. apply G1 in H2 as [H2 _]. now apply H2.
      - assert (Ho : forall o, In o l -> NoDup (map fst (allc o))) by (intros o Ho; apply (IHl n l o Hin Ho)). clear -Ho. generalize 0 as i. induction l as [|o l IH]; intros i; cbn [each]; [constructor|]. rewrite map_app, map_map. cbn [fst].
        apply NoDup_app2.
        + rewrite <- (map_map fst (fun c => n :: str_of_N (N.of_nat i) :: c)). apply FinFun.Injective_map_NoDup; [intros a b [= ->]; reflexivity|]. apply Ho. now left.
        + apply IH. intros o' Ho'. apply Ho. now right.
        + intros c Hc Hc2. apply in_map_iff in Hc as (cv & <- & _). apply in_map_iff in Hc2 as ([c2 v2] & Hc2 & Hin). apply each_In in Hin as (j & o' & c' & _ & -> & _). cbn [fst] in Hc2. injection Hc2 as Hc2 _. apply str_of_N_inj in Hc2. lia. }
    clear IHn IHl. induction fs as [|[n w] fs IH]; [constructor|]. cbn [flat_map fst snd]. rewrite map_app. inversion Hnd; subst.
    apply NoDup_app2.
    + destruct (sel n); [apply Hv; now left|constructor].
    + apply IH; auto. * intros m v Hm. apply (Hid m v). now right. * intros m v Hm. apply Hv. now right.
    + intros c Hc Hc2. destruct (sel n); [|contradiction]. apply Hhead in Hc as (r & ->). apply in_map_iff in Hc2 as ([c2 v2] & E & Hin). cbn in E. subst c2. apply in_flat_map in Hin as ([m w2] & Hm & Hin). cbn [fst snd] in Hin. destruct (sel m); [|contradiction].
      apply (in_map fst) in Hin. apply Hhead in Hin as (r2 & E). cbn in E. injection E as -> ->. apply H1. now apply (in_map fst) in Hm.
Qed.

Definition spell (pre : str) (cv : list str * dval V) : str * dval V := (pre ++ joinc dash (fst cv), snd cv).
Lemma joinc_inj a b : good_comp a -> good_comp b -> joinc dash a = joinc dash b -> a = b.
Proof. intros [A1 A2] [B1 B2] H. rewrite <- (split_join dash a), <- (split_join dash b) by assumption. now rewrite H. Qed.
Lemma spell_nodup pre L : (forall c v, In (c, v) L -> good_comp c) -> NoDup (map fst L) -> NoDup (map fst (map (spell pre) L)).
Proof.
  intros Hg H. induction L as [|[c v] L IH]; cbn in *; [constructor|]. inversion H; subst. constructor; [|apply IH; eauto].
  intros Hi. apply in_map_iff in Hi as (x & Hx & Hi). apply in_map_iff in Hi as ([c' v'] & <- & Hi). cbn in Hx. apply app_inv_head in Hx. apply joinc_inj in Hx; [|eauto|eauto]. subst c'. apply H2. now apply (in_map fst) in Hi.
Qed.
Lemma dupdate_fresh {A} (e : list (str * A)) : forall d, NoDup (map fst (d ++ e)) -> dupdate d e = d ++ e.
Proof.
  induction e as [|[k v] e IH]; intros d H; [now rewrite app_nil_r|]. change (dupdate d ((k, v) :: e)) with (dupdate (dset k v d) e).
  assert (~ In k (map fst d)). { rewrite map_app in H. cbn in H. apply NoDup_remove_2 in H. rewrite in_app_iff in H. tauto. }
  rewrite dset_fresh by assumption. rewrite IH; rewrite <- app_assoc; [reflexivity|assumption].
Qed.
Lemma NoDup_prefix {A} (a b : list A) : NoDup (a ++ b) -> NoDup a.
Proof. induction a as [|x a IH]; cbn; intros H; [constructor|]. inversion H; subst. constructor; [rewrite in_app_iff in H2; tauto|auto]. Qed.
Lemma combining_sub pre n : n <> [] -> combining (pre ++ n) = pre ++ n ++ [ch "-"].
Proof. intros H. unfold combining. destruct (pre ++ n) eqn:E; [apply app_eq_nil in E as [_ E]; contradiction|]. rewrite <- E. now rewrite <- app_assoc. Qed.
Lemma joinc_cons n c : c <> [] -> joinc dash (n :: c) = n ++ [ch "-"] ++ joinc dash c.
Proof. destruct c; [contradiction|reflexivity]. Qed.

Lemma to_dict_comps o : sane_obj o -> forall f e prefix, to_dict f e prefix o = map (spell (combining prefix)) (comps (wanted f e) o).
Proof.
  induction 1 as [fs Hnd Hid Hno IHn Hnl IHl]; intros f e prefix. rewrite to_dict_eq. set (pre := combining prefix).
  assert (Hs : sane_obj (Obj fs)) by (constructor; assumption).
  assert (Hall : NoDup (map fst (map (spell pre) (comps (wanted f e) (Obj fs))))).
  { destruct (comps_In _ Hs (wanted f e)) as [G1 G2]. apply spell_nodup; assumption. }
  rewrite comps_eq in *.
  enough (G : forall todo data, (forall n w, In (n, w) todo -> In (n, w) fs) ->
    NoDup (map fst (data ++ map (spell pre) (flat_map (fun nv => if wanted f e (fst nv) then vcomps allc (fst nv) (snd nv) else []) todo))) ->
    fold_left (fun data nv => if wanted f e (fst nv) then step_dict pre (fst nv) (snd nv) data else data) todo data =
    data ++ map (spell pre) (flat_map (fun nv => if wanted f e (fst nv) then vcomps allc (fst nv) (snd nv) else []) todo)).
  { rewrite (G fs []); auto. }
  clear Hall. induction todo as [|[n w] todo IH]; intros data Hin HN; cbn [fold_left flat_map fst snd] in *; [now rewrite app_nil_r|].
  destruct (wanted f e n) eqn:Ew; cbn [app]; [|apply IH; [intros; apply Hin; now right|assumption]]. rewrite (map_app (spell pre)) in HN. rewrite app_assoc in HN.
  assert (Hw := Hin n w (or_introl eq_refl)). destruct (Hid n w Hw) as [Hne _].
  assert (E : step_dict pre n w data = data ++ map (spell pre) (vcomps allc n w)).
  { rewrite map_app in HN. apply NoDup_prefix in HN. clear IH Hin. destruct w as [x|[o|]|l]; cbn [step_dict vcomps map].
    - unfold spell. cbn. apply dset_fresh. rewrite map_app in HN. cbn in HN. apply NoDup_remove_2 in HN. now rewrite app_nil_r in HN.
    - rewrite (IHn n o Hw), combining_sub by assumption. fold allc. rewrite map_app, map_map. cbn [map spell fst snd joinc].
      assert (E2 : map (spell (pre ++ n ++ [ch "-"])) (allc o) = map (fun x => spell pre (n :: fst x, snd x)) (allc o)).
      { apply map_ext_in. intros [c v] Hc. unfold spell. cbn [fst snd]. rewrite joinc_cons; [now rewrite <- !app_assoc|]. apply (proj1 (comps_In o (Hno n o Hw) (fun _ => true)) c v Hc). }
      change (wanted None None) with (fun _ : str => true). fold allc. rewrite E2. cbn [vcomps] in HN. rewrite (map_app (spell pre)), map_map in HN. cbn [map spell fst snd joinc] in HN. unfold spell in HN at 2. cbn [fst snd joinc] in HN. rewrite app_assoc, map_app in HN. cbn [map fst] in HN. apply NoDup_remove in HN as [HN1 HN2]. rewrite app_nil_r in *.
      rewrite dupdate_fresh by assumption. rewrite dset_fresh by assumption. now rewrite <- app_assoc.
    - unfold spell. cbn. apply dset_fresh. rewrite map_app in HN. cbn in HN. apply NoDup_remove_2 in HN. now rewrite app_nil_r in HN.
    - cbn [vcomps] in HN. assert (IHl' : forall o, In o l -> forall f e prefix, to_dict f e prefix o = map (spell (combining prefix)) (comps (wanted f e) o)) by (intros o Ho; now apply (IHl n l)).
      assert (Hnl' : forall o, In o l -> sane_obj o) by (intros o Ho; now apply (Hnl n l)). clear -HN IHl' Hnl' Hne. revert HN. generalize 0 as i. revert data. induction l as [|o l IH]; intros data i HN; cbn [each_dict each map]; [now rewrite app_nil_r|].
      rewrite IHl' by now left. assert (Hd : n ++ [ch "-"] ++ str_of_N (N.of_nat i) <> []) by (intros E; apply app_eq_nil in E as [E _]; contradiction). rewrite combining_sub by exact Hd. change (wanted None None) with (fun _ : str => true). fold allc.
      assert (E2 : map (spell (pre ++ (n ++ [ch "-"] ++ str_of_N (N.of_nat i)) ++ [ch "-"])) (allc o) = map (fun x => spell pre (n :: str_of_N (N.of_nat i) :: fst x, snd x)) (allc o)).
      { apply map_ext_in. intros [c v] Hc. unfold spell. cbn [fst snd]. rewrite joinc_cons by discriminate. rewrite joinc_cons; [now rewrite <- !app_assoc|]. apply (proj1 (comps_In o (Hnl' o (or_introl eq_refl)) (fun _ => true)) c v Hc). }
      rewrite E2. cbn [each] in HN. rewrite (map_app (spell pre)), map_map in HN. rewrite app_assoc in HN. rewrite dupdate_fresh by (rewrite map_app in HN; apply NoDup_prefix in HN; exact HN).
      rewrite IH; [|intros; apply IHl'; now right|intros; apply Hnl'; now right|exact HN]. now rewrite map_app, map_map, <- app_assoc. }
  rewrite E. rewrite IH; [now rewrite map_app, <- app_assoc|intros; apply Hin; now right|assumption].
Qed.

Definition pcomp (s : pstep) : list str := match s with Into n => [n] | Item n i => [n; str_of_N (N.of_nat i)] end.
Definition pcomps (path : list pstep) (n : str) : list str := flat_map pcomp path ++ [n].
Lemma key_joinc path n : key path n = joinc dash (pcomps path n).
Proof.
  unfold key, pcomps. induction path as [|s path IH]; [reflexivity|]. cbn [map concat flat_map]. rewrite <- !app_assoc, IH.
  assert (Hne : flat_map pcomp path ++ [n] <> []) by (intros E; apply app_eq_nil in E as [_ E]; discriminate).
  destruct s; cbn [key_step pcomp app]; [rewrite joinc_cons by exact Hne; rewrite <- ?app_assoc; reflexivity|]. rewrite joinc_cons by discriminate. rewrite joinc_cons by exact Hne. rewrite <- ?app_assoc. cbn [app]. rewrite <- ?app_assoc. reflexivity.
Qed.
Lemma comps_places o : sane_obj o -> forall sel c v, In (c, v) (comps sel o) <-> exists path n, c = pcomps path n /\ sel (first_name path n) = true /\ value_at o path n = Some v.
Proof.
  induction 1 as [fs Hnd Hid Hno IHn Hnl IHl]; intros sel c v. rewrite comps_eq, in_flat_map. split.
  - intros ([n w] & Hin & H). cbn [fst snd] in H. destruct (sel n) eqn:Es; [|contradiction]. pose proof (In_dget _ _ _ Hnd Hin) as Hg.
    destruct w as [x|[o|]|l]; cbn [vcomps] in H.
    + destruct H as [[= <- <-]|[]]. exists [], n. cbn. rewrite Hg. auto.
    + apply in_app_iff in H as [H|[[= <- <-]|[]]].
      * apply in_map_iff in H as ([c' v'] & [= <- <-] & H). apply (IHn n o Hin) in H as (path & m & E & _ & Hv). exists (Into n :: path), m. cbn in E |- *. rewrite Hg, E. auto.
      * exists [], n. cbn. rewrite Hg. auto.
    + destruct H as [[= <- <-]|[]]. exists [], n. cbn. rewrite Hg. auto.
    + apply each_In in H as (j & o & c' & H1 & -> & H3). apply (IHl n l o Hin (nth_error_In _ _ H1)) in H3 as (path & m & E & _ & Hv). exists (Item n j :: path), m. cbn [value_at]. rewrite Hg, H1, E. cbn. auto.
  - intros (path & n & -> & Hs & Hv). destruct path as [|[m|m i] path]; cbn [value_at first_name] in Hv, Hs.
    + destruct (dget n fs) as [w|] eqn:Eg; [|discriminate]. apply dget_In in Eg. exists (n, w). split; [assumption|]. cbn [fst snd]. rewrite Hs. destruct w as [x|[o|]|l]; try discriminate; injection Hv as <-; cbn; auto. apply in_app_iff. right. now left.
    + destruct (dget m fs) as [[|[o|]|]|] eqn:Eg; try discriminate. apply dget_In in Eg. exists (m, VNode (Some o)). split; [assumption|]. cbn [fst snd]. rewrite Hs. cbn [vcomps]. apply in_app_iff. left. apply in_map_iff. exists (pcomps path n, v). split; [reflexivity|]. apply (IHn m o Eg). eauto.
    + destruct (dget m fs) as [[| |l]|] eqn:Eg; try discriminate. destruct (nth_error l i) as [o|] eqn:En; [|discriminate]. apply dget_In in Eg. exists (m, VNodes l). split; [assumption|]. cbn [fst snd]. rewrite Hs. cbn [vcomps]. apply each_In. exists i, o, (pcomps path n). split; [assumption|]. split; [reflexivity|]. apply (IHl m l o Eg (nth_error_In _ _ En)). eauto.
Qed.
Lemma pcomps_inj o : sane_obj o -> forall p n p' n' v v', value_at o p n = Some v -> value_at o p' n' = Some v' -> pcomps p n = pcomps p' n' -> p = p' /\ n = n'.
Proof.
  induction 1 as [fs Hnd Hid Hno IHn Hnl IHl]. intros p n p' n' v v' Hv Hv' E. unfold pcomps in E.
  destruct p as [|[m|m i] p], p' as [|[m'|m' i'] p']; cbn [value_at flat_map pcomp app] in *.
  - injection E as ->. auto.
  - injection E as _ E. symmetry in E. apply app_eq_nil in E as [_ E]. discriminate.
  - discriminate.
  - injection E as _ E. apply app_eq_nil in E as [_ E]. discriminate.
  - injection E as -> E. destruct (dget m' fs) as [[|[o|]|]|] eqn:Eg; try discriminate. destruct (IHn m' o (dget_In _ _ _ Eg) p n p' n' v v' Hv Hv' E) as [-> ->]. auto.
  - injection E as -> E. exfalso. destruct (dget m' fs) as [[|[o|]|]|] eqn:Eg; discriminate.
  - discriminate.
  - injection E as -> E. exfalso. destruct (dget m' fs) as [[|[o|]|]|] eqn:Eg; discriminate.
  - injection E as -> Ei E. apply dec_inj in Ei. subst i'. destruct (dget m' fs) as [[| |l]|] eqn:Eg; try discriminate. destruct (nth_error l i) as [o|] eqn:En; [|discriminate].
    destruct (IHl m' l o (dget_In _ _ _ Eg) (nth_error_In _ _ En) p n p' n' v v' Hv Hv' E) as [-> ->]. auto.
Qed.

(** ** C41: every value is in the dictionary under its key, and nothing else is *)
Definition asked (fields exclude : option (list str)) (n : str) : Prop :=
  (fields = None \/ fields = Some [] \/ exists l, fields = Some l /\ In n l) /\ (forall l, exclude = Some l -> ~ In n l).
Lemma wanted_asked f e n : wanted f e n = true <-> asked f e n.
Proof.
  unfold wanted, asked. rewrite andb_true_iff. assert (A : (match f with Some (f0 :: fs) => str_mem n (f0 :: fs) | _ => true end) = true <-> (f = None \/ f = Some [] \/ exists l, f = Some l /\ In n l)).
  { destruct f as [[|f0 fs]|]; [split; auto| |split; auto]. rewrite str_mem_In. split; [eauto 6|]. intros [H|[H|(l & [= <-] & H)]]; [discriminate|discriminate|assumption]. }
  assert (B : (match e with Some (f0 :: fs) => negb (str_mem n (f0 :: fs)) | _ => true end) = true <-> (forall l, e = Some l -> ~ In n l)).
  { destruct e as [[|f0 fs]|].
    - split; [intros _ l [= <-] []|auto].
    - rewrite negb_true_iff, <- not_true_iff_false, str_mem_In. split; [intros H l [= <-]; exact H|auto].
    - split; [discriminate|auto]. }
  rewrite A, B. tauto.
Qed.
Theorem C41_dictionary : forall o fields exclude prefix k v, sane_obj o ->
  (dget k (to_dict fields exclude prefix o) = Some v <->
   exists path n, k = (if str_eqb prefix [] then [] else prefix ++ [ch "-"]) ++ key path n /\ asked fields exclude (first_name path n) /\ value_at o path n = Some v).
Proof.
  intros o f e prefix k v Hs. rewrite (to_dict_comps o Hs). destruct (comps_In o Hs (wanted f e)) as [G1 G2]. pose proof (spell_nodup (combining prefix) _ G1 G2) as Hnd.
  assert (Ec : (if str_eqb prefix [] then [] else prefix ++ [ch "-"]) = combining prefix) by now destruct prefix. rewrite Ec. split.
  - intros H. apply dget_In, in_map_iff in H as ([c w] & E & H). unfold spell in E. injection E as <- <-. apply (comps_places o Hs) in H as (path & n & -> & Hw & Hv). exists path, n. cbn [fst]. rewrite key_joinc. apply wanted_asked in Hw. auto.
  - intros (path & n & -> & Ha & Hv). apply In_dget; [assumption|]. apply in_map_iff. exists (pcomps path n, v). split; [unfold spell; cbn [fst snd]; now rewrite key_joinc|]. apply (comps_places o Hs). exists path, n. apply wanted_asked in Ha. auto.
Qed.
(** values at different places have different keys *)
Theorem C41_keys_distinct : forall o p n v p' n' v', sane_obj o -> value_at o p n = Some v -> value_at o p' n' = Some v' -> key p n = key p' n' -> p = p' /\ n = n'.
Proof.
  intros o p n v p' n' v' Hs Hv Hv' E. rewrite !key_joinc in E. destruct (comps_In o Hs (fun _ => true)) as [G1 _].
  apply joinc_inj in E; [eapply pcomps_inj; eauto|apply (G1 _ v); apply (comps_places o Hs); eauto|apply (G1 _ v'); apply (comps_places o Hs); eauto].
Qed.
(** and each key occurs once *)
Theorem C41_keys_once : forall o fields exclude prefix, sane_obj o -> NoDup (map fst (to_dict fields exclude prefix o)).
Proof. intros o f e prefix Hs. rewrite (to_dict_comps o Hs). destruct (comps_In o Hs (wanted f e)) as [G1 G2]. now apply spell_nodup. Qed.
End Spec.

Open Scope string_scope.
Definition o_sub (x : nat) : obj nat := Obj [(u "x", VPlain x); (u "b", VNode None)].
Definition o_case : obj nat := Obj [(u "a", VNode (Some (Obj [(u "b", VNodes [o_sub 1; o_sub 2]); (u "x", VPlain 3)]))); (u "x", VPlain 4); (u "b", VNodes [o_sub 5])].
Lemma ident_u s : u s <> [] -> existsb (N.eqb (ch "-")) (u s) = false -> is_ident (u s).
Proof. intros H1 H2. split; [assumption|]. intros Hi. assert (K : existsb (N.eqb (ch "-")) (u s) = true) by (apply existsb_exists; exists (ch "-"); split; [assumption|apply N.eqb_refl]). congruence. Qed.
Ltac sane_tac := constructor;
  [apply (fun l (H : firsts l = l) => eq_ind (firsts l) (@NoDup _) (firsts_NoDup l) l H); vm_compute; reflexivity
  |intros n v H; cbn [In] in H; repeat (destruct H as [[= <- _]|H]; [apply ident_u; vm_compute; (reflexivity || discriminate)|]); contradiction
  |intros n o H; cbn [In] in H; repeat (destruct H as [H|H]; [try discriminate H; injection H as <- <-|]); try contradiction
  |intros n l o H Hl; cbn [In] in H; repeat (destruct H as [H|H]; [try discriminate H; injection H as <- <-; cbn [In] in Hl; repeat (destruct Hl as [<-|Hl])|]); try contradiction].
Lemma o_sub_sane x : sane_obj (o_sub x).
Proof. unfold o_sub. sane_tac. Qed.
Example C41_case : sane_obj o_case /\
  to_dict None None [] o_case = [(u "a-b-0-x", DPlain 1); (u "a-b-0-b", DNone); (u "a-b-1-x", DPlain 2); (u "a-b-1-b", DNone); (u "a-x", DPlain 3);
    (u "a", DObj (Obj [(u "b", VNodes [o_sub 1; o_sub 2]); (u "x", VPlain 3)])); (u "x", DPlain 4); (u "b-0-x", DPlain 5); (u "b-0-b", DNone)] /\
  to_dict (Some [u "x"; u "b"]) (Some [u "x"]) (u "p") o_case = [(u "p-b-0-x", DPlain 5); (u "p-b-0-b", DNone)] /\
  value_at o_case [Into (u "a"); Item (u "b") 1] (u "x") = Some (DPlain 2).
Proof.
  split; [|split; [|split]; vm_compute; reflexivity]. sane_tac; try apply o_sub_sane. sane_tac; apply o_sub_sane.
Qed.
(** Names with a hyphen (possible with setattr or type(), not with class statements) can collide. *)
Example C41_hyphen_case : let o := Obj [(u "a", VNode (Some (Obj [(u "b", VPlain 1)]))); (u "a-b", VPlain 2)] in
  value_at o [Into (u "a")] (u "b") = Some (DPlain 1) /\ dget (key [Into (u "a")] (u "b")) (to_dict None None [] o) = Some (DPlain 2).
Proof. split; vm_compute; reflexivity. Qed.
Close Scope string_scope.

Print Assumptions C41_dictionary.
Print Assumptions C41_keys_distinct.
Print Assumptions C41_keys_once.
