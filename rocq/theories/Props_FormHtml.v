(** HTML output of forms: C77. *)
From Coq Require Import String List Arith NArith Bool Lia.
From Verif Require Import PyStr FormHtml.
Import ListNotations.
Opaque u.

(** ** Specification *)
Section Spec.
Context (capitalize : str -> str).
Notation shown := (fieldname_to_label capitalize).
(** the pieces of a page: the HTML of the fields of one form, a management form, and sections with a heading *)
Inductive tok := TForm (html : str) | TMgmt (html : str) | TOpen (heading : str) | TClose | TNewline.
Definition heading_start (k : fmt) : str :=
  match k with AsTable => u "<tbody><tr><th colspan=""2"" class=""section"">" | AsP => u "<div class=""subform""><p class=""label"">" | AsUl => u "<li class=""subform""><p class=""label"">" end.
Definition heading_end (k : fmt) : str :=
  match k with AsTable => u "</th></tr><tr><td colspan=""2""><table class=""subform"">" ++ [10%N] | AsP => u "</p>" | AsUl => u "</p><ul>" end.
Definition section_end (k : fmt) : str := match k with AsTable => u "</table></td></tr></tbody>" | AsP => u "</div>" | AsUl => u "</ul></li>" end.
Definition text (k : fmt) (t : tok) : str :=
  match t with
  | TForm s | TMgmt s => s
  | TOpen l => heading_start k ++ l ++ heading_end k
  | TClose => section_end k
  | TNewline => [10%N]
  end.
(** reading a page: what it shows, in order, each with the headings of the sections around it (innermost first); None if sections are
    not properly nested *)
Fixpoint scan (around : list str) (l : list tok) : option (list (list str * str)) :=
  match l with
  | [] => match around with [] => Some [] | _ => None end
  | TForm s :: r | TMgmt s :: r => option_map (cons (around, s)) (scan around r)
  | TOpen h :: r => scan (h :: around) r
  | TClose :: r => match around with [] => None | _ :: a => scan a r end
  | TNewline :: r => scan around r
  end.
(** what should be shown: the form itself; every subform under its label; for every formset its management form and, under its
    label, every one of its forms *)
Definition title (F : hform) : option str := match F with HForm _ _ l _ _ => l end.
Definition shown_label (F : hform) : str := match title F with Some l => shown l | None => [] end.
Definition set_heading (n : str) (s : hset) : str :=
  match s with
  | HSet _ sl forms =>
    shown match hd_error forms with
          | Some (IForm (HForm _ _ (Some l) _ _)) => l
          | Some _ => match sl with Some l => l | None => n end
          | None => n
          end
  end.
Section Inv.
  Context (rec : list str -> hform -> list (list str * str)).
  Definition inv_item (k : fmt) (path : list str) (i : hitem) : list (list str * str) :=
    match i with IForm G => rec path G | IPlain own => [(path, own k)] end.
  Definition inv_set (k : fmt) (path : list str) (ns : str * hset) : list (list str * str) :=
    match snd ns with HSet mgmt sl forms => (path, mgmt) :: flat_map (inv_item k (set_heading (fst ns) (snd ns) :: path)) forms end.
End Inv.
Fixpoint inventory (k : fmt) (path : list str) (F : hform) {struct F} : list (list str * str) :=
  match F with
  | HForm _ own _ subs sets =>
    (path, own k) :: flat_map (fun nG => inventory k (shown_label (snd nG) :: path) (snd nG)) subs ++ flat_map (inv_set (inventory k) k path) sets
  end.
(** every subform has a label and every formset at least one form, at every depth *)
Inductive displayable : hform -> Prop :=
| Displayable : forall sec own l subs sets,
    (forall n G, In (n, G) subs -> title G <> None /\ displayable G) ->
    (forall n mgmt sl forms, In (n, HSet mgmt sl forms) sets -> forms <> [] /\ forall G, In (IForm G) forms -> displayable G) ->
    displayable (HForm sec own l subs sets).
(** the same form except for the section formats left by earlier calls *)
Fixpoint erase (F : hform) : hform :=
  match F with
  | HForm _ own l subs sets => HForm None own l (map (fun nG => (fst nG, erase (snd nG))) subs) (map (fun ns => (fst ns, match snd ns with
      | HSet m sl forms => HSet m sl (map (fun i => match i with IForm G => IForm (erase G) | IPlain o => IPlain o end) forms) end)) sets)
  end.
End Spec.

(** ** induction *)
Section Ind.
Context (P : hform -> Prop)
  (H : forall sec own l subs sets, (forall n G, In (n, G) subs -> P G) ->
     (forall n m sl forms G, In (n, HSet m sl forms) sets -> In (IForm G) forms -> P G) -> P (HForm sec own l subs sets)).
Fixpoint hform_ind2 (F : hform) : P F.
Proof.
  destruct F as [sec own l subs sets]. apply H.
  - induction subs as [|[n' G'] r IH]; intros n G; [intros []|]. intros [[= _ <-]|I]; [apply hform_ind2|exact (IH n G I)].
  - induction sets as [|[n' [m' sl' fs]] r IH]; intros n m sl forms G; [intros []|]. intros [[= _ _ _ <-]|I]; [|exact (IH n m sl forms G I)].
    clear -hform_ind2. induction fs as [|[G'|o] r IH]; intros I; [destruct I| |].
    + destruct I as [[= <-]|I]; [apply hform_ind2|exact (IH I)].
    + destruct I as [I|I]; [discriminate|exact (IH I)].
Defined.
End Ind.

Section Proofs.
Context (capitalize : str -> str).
Notation shown := (fieldname_to_label capitalize).
Notation as_html := (as_html capitalize).
Notation html_output := (html_output capitalize).
Notation inventory := (inventory capitalize).
Notation out_subs := (out_subs capitalize).
Notation out_sets := (out_sets capitalize).
Notation inv_set := (inv_set capitalize).
Notation shown_label := (shown_label capitalize).

(** pages that can be put anywhere: reading them gives the entries, whatever is around and after *)
Definition reads (k : fmt) (s : str) (toks : list tok) (path : list str) (es : list (list str * str)) : Prop :=
  s = concat (map (text k) toks) /\ forall r, scan path (toks ++ r) = option_map (app es) (scan path r).
Lemma omap_app {A} (a b : list A) o : option_map (app a) (option_map (app b) o) = option_map (app (a ++ b)) o.
Proof. destruct o; cbn; [|reflexivity]. now rewrite app_assoc. Qed.
Lemma omap_nil {A} (o : option (list A)) : option_map (app []) o = o. Proof. now destruct o. Qed.
Lemma reads_app k s1 t1 s2 t2 path e1 e2 : reads k s1 t1 path e1 -> reads k s2 t2 path e2 -> reads k (s1 ++ s2) (t1 ++ t2) path (e1 ++ e2).
Proof.
  intros [-> H1] [-> H2]. split; [now rewrite map_app, concat_app|]. intros r. rewrite <- app_assoc, H1, H2, omap_app. reflexivity.
Qed.
Lemma reads_wrap k s t path l es : reads k s t (l :: path) es -> reads k (sec_open k ++ l ++ sec_mid k ++ s ++ sec_close k) (TOpen l :: t ++ [TClose]) path es.
Proof.
  intros [-> H]. split.
  - cbn [map concat text]. rewrite map_app, concat_app. cbn. rewrite app_nil_r, <- !app_assoc. reflexivity.
  - intros r. cbn. rewrite <- app_assoc, H. reflexivity.
Qed.
Lemma reads_form k s path : reads k s [TForm s] path [(path, s)].
Proof. split; [cbn; now rewrite app_nil_r|]. intros r. cbn. now destruct (scan path r). Qed.
Lemma reads_mgmt k s path : reads k s [TMgmt s] path [(path, s)].
Proof. split; [cbn; now rewrite app_nil_r|]. intros r. cbn. now destruct (scan path r). Qed.
Lemma reads_nl k path : reads k [10%N] [TNewline] path [].
Proof. split; [reflexivity|]. intros r. cbn. now destruct (scan path r). Qed.
(** parts joined by line ends *)
Inductive all_read (k : fmt) (path : list str) : list str -> list (list str * str) -> Prop :=
| ARnil : all_read k path [] []
| ARcons : forall s t e ss es, reads k s t path e -> all_read k path ss es -> all_read k path (s :: ss) (e ++ es).
Lemma reads_join k path ss es : all_read k path ss es -> exists t, reads k (join_with [10%N] ss) t path es.
Proof.
  induction 1 as [|s t e ss es H1 H2 [t2 IH]]; [exists []; split; [reflexivity|intros r; cbn; now rewrite omap_nil]|].
  destruct ss as [|s2 ss].
  - inversion H2; subst. rewrite app_nil_r. now exists t.
  - change (join_with [10%N] (s :: s2 :: ss)) with (s ++ [10%N] ++ join_with [10%N] (s2 :: ss)).
    exists (t ++ [TNewline] ++ t2). apply (reads_app k s t _ ([TNewline] ++ t2) path e es H1). exact (reads_app k _ [TNewline] _ t2 path [] es (reads_nl k path) IH).
Qed.
Lemma all_read_app k path a b ea eb : all_read k path a ea -> all_read k path b eb -> all_read k path (a ++ b) (ea ++ eb).
Proof. induction 1; cbn; [auto|]. intros. rewrite <- app_assoc. econstructor; eauto. Qed.

Lemma output_reads k F : displayable F -> forall path, exists s t, snd (html_output k (Some k) F) = HOk s /\ reads k s t path (inventory k path F).
Proof.
  induction F as [sec own l subs sets IHs IHt] using hform_ind2. intros D path. inversion D as [? ? ? ? ? Ds Dt]; subst.
  assert (Hsub : exists ps, snd (out_subs (html_output k (Some k)) (Some k) subs) = HOk ps /\
      all_read k path ps (flat_map (fun nG => inventory k (shown_label (snd nG) :: path) (snd nG)) subs)).
  { clear -Ds IHs. revert Ds IHs. generalize subs. clear subs. induction subs as [|[n G] r IH]; intros Ds IHs; [exists []; split; [reflexivity|constructor]|].
    destruct (Ds n G (or_introl eq_refl)) as [L DG]. destruct (IHs n G (or_introl eq_refl) DG (shown_label G :: path)) as (s & t & E1 & R1).
    destruct IH as (ps & E2 & R2); [intros n' G' I; apply (Ds n' G'); now right|intros n' G' I; apply (IHs n' G'); now right|].
    cbn. destruct (html_output k (Some k) G) as [G1 o]. cbn in E1. subst o. unfold wrap. unfold Props_FormHtml.shown_label in R1.
    change (label_of G) with (title G) in *; destruct (title G) as [lg|] eqn:EL; [|congruence]. destruct (out_subs (html_output k (Some k)) (Some k) r) as [r1 o2]. cbn in E2. subst o2. cbn.
    eexists. split; [reflexivity|]. econstructor; [|exact R2]. unfold Props_FormHtml.shown_label. rewrite EL. apply reads_wrap. exact R1. }
  destruct Hsub as (p1 & E1 & R1).
  assert (Hset : exists ps, snd (out_sets (html_output k (Some k)) (Some k) k sets) = HOk ps /\ all_read k path ps (flat_map (inv_set (inventory k) k path) sets)).
  { clear -Dt IHt. revert Dt IHt. generalize sets. clear sets. induction sets as [|[n [m sl forms]] r IH]; intros Dt IHt; [exists []; split; [reflexivity|constructor]|].
    destruct (Dt n m sl forms (or_introl eq_refl)) as [NE DG].
    destruct IH as (ps & E2 & R2); [intros n' m' sl' f' I; apply (Dt n' m' sl' f'); now right|intros n' m' sl' f' G I; apply (IHt n' m' sl' f' G); now right|].
    assert (Hit : forall path, exists ps, snd (out_items (html_output k (Some k)) k forms) = HOk ps /\ all_read k path ps (flat_map (inv_item (inventory k) k path) forms)).
    { assert (IHf : forall G, In (IForm G) forms -> forall path, exists s t, snd (html_output k (Some k) G) = HOk s /\ reads k s t path (inventory k path G)).
      { intros G I. apply (IHt n m sl forms G); [now left|exact I|now apply DG]. }
      clear -IHf. intros path. revert IHf. induction forms as [|[G|o] r IH]; intros IHf; [exists []; split; [reflexivity|constructor]| |].
      - destruct (IHf G (or_introl eq_refl) path) as (s & t & E1 & R1). destruct IH as (ps & E2 & R2); [intros G' I; apply IHf; now right|].
        cbn. destruct (html_output k (Some k) G) as [G1 og]. cbn in E1. subst og. destruct (out_items (html_output k (Some k)) k r) as [r1 o2]. cbn in E2. subst o2.
        eexists. split; [reflexivity|]. econstructor; [exact R1|exact R2].
      - destruct IH as (ps & E2 & R2); [intros G' I; apply IHf; now right|].
        cbn. destruct (out_items (html_output k (Some k)) k r) as [r1 o2]. cbn in E2. subst o2. eexists. split; [reflexivity|].
        change ((path, o k) :: flat_map (inv_item (inventory k) k path) r) with ([(path, o k)] ++ flat_map (inv_item (inventory k) k path) r).
        econstructor; [apply reads_form|exact R2]. }
    destruct (Hit (set_heading capitalize n (HSet m sl forms) :: path)) as (pi & Ei & Ri). destruct (reads_join k _ _ _ Ri) as (ti & Rj).
    destruct forms as [|i0 fr]; [congruence|].
    destruct (out_items (html_output k (Some k)) k (i0 :: fr)) as [f1 oi] eqn:EI. cbn in Ei. subst oi.
    destruct (out_sets (html_output k (Some k)) (Some k) k r) as [r1 o2] eqn:ES. cbn in E2. subst o2.
    eexists. split; [cbn [FormHtml.out_sets]; rewrite EI; cbn [wrap]; rewrite ES; reflexivity|].
    cbn [flat_map]. unfold Props_FormHtml.inv_set at 1. cbn [fst snd]. 
    match goal with |- all_read _ _ _ ((?a :: ?b) ++ ?c) => change ((a :: b) ++ c) with ([a] ++ (b ++ c)) end.
    econstructor; [apply reads_mgmt|]. econstructor; [|exact R2].
    destruct i0 as [[? ? [?|] ? ?]|?]; apply reads_wrap; exact Rj. }
  destruct Hset as (p2 & E2 & R2).
  cbn [FormHtml.html_output]. destruct (out_subs (html_output k (Some k)) (Some k) subs) as [s1 o1]. cbn in E1. subst o1.
  destruct (out_sets (html_output k (Some k)) (Some k) k sets) as [s2 o2]. cbn in E2. subst o2.
  destruct (reads_join k path (own k :: p1 ++ p2) ([(path, own k)] ++ flat_map (fun nG => inventory k (shown_label (snd nG) :: path) (snd nG)) subs ++ flat_map (inv_set (inventory k) k path) sets)) as (t & R).
  { econstructor; [apply reads_form|]. now apply all_read_app. }
  exists (join_with [10%N] (own k :: p1 ++ p2)), t. split; [reflexivity|exact R].
Qed.

(** C77: the page shows every form of the tree, every management form, each once, in order, under the headings of its own and its
    ancestors' labels, and nothing else *)
Theorem C77_complete : forall k F, displayable F ->
  exists toks, snd (as_html k F) = HOk (concat (map (text k) toks)) /\ scan [] toks = Some (inventory k [] F).
Proof.
  intros k F D. destruct (output_reads k F D []) as (s & t & E & -> & R). exists t. split; [exact E|].
  specialize (R []). rewrite app_nil_r in R. rewrite R. cbn. now rewrite app_nil_r.
Qed.

(** C77: showing fails only for a formset without forms or a subform without label *)
Lemma not_displayable_error k F : (exists s, snd (html_output k (Some k) F) = HOk s) -> displayable F.
Proof.
  induction F as [sec own l subs sets IHs IHt] using hform_ind2. intros [s E]. cbn [FormHtml.html_output] in E.
  destruct (out_subs (html_output k (Some k)) (Some k) subs) as [s1 o1] eqn:ES. destruct o1 as [p1|]; [|discriminate].
  destruct (out_sets (html_output k (Some k)) (Some k) k sets) as [s2 o2] eqn:ET. destruct o2 as [p2|]; [|discriminate].
  constructor.
  - clear -IHs ES. revert s1 p1 ES IHs. induction subs as [|[n G] r IH]; intros s1 p1 ES IHs n0 G0 I; [destruct I|].
    cbn in ES. destruct (html_output k (Some k) G) as [G1 og] eqn:EG. destruct og as [c|]; [|discriminate]. unfold wrap in ES.
    change (label_of G) with (title G) in *; destruct (title G) as [lg|] eqn:EL; [|discriminate]. destruct (out_subs (html_output k (Some k)) (Some k) r) as [r1 o2] eqn:ER. destruct o2 as [ps|]; [|discriminate].
    destruct I as [[= <- <-]|I].
    + split; [congruence|]. apply (IHs n G (or_introl eq_refl)). rewrite EG. now exists c.
    + apply (IH r1 ps eq_refl) with (n := n0); [|exact I]. intros n' G' I'. apply (IHs n' G'). now right.
  - clear -IHt ET. revert s2 p2 ET IHt. induction sets as [|[n [m sl forms]] r IH]; intros s2 p2 ET IHt n0 m0 sl0 f0 I; [destruct I|].
    destruct forms as [|i0 fr]; [discriminate|]. cbn [FormHtml.out_sets] in ET.
    destruct (out_items (html_output k (Some k)) k (i0 :: fr)) as [f1 oi] eqn:EI. destruct oi as [pi|]; [|discriminate]. cbn [wrap] in ET.
    destruct (out_sets (html_output k (Some k)) (Some k) k r) as [r1 o2] eqn:ER. destruct o2 as [ps|]; [|discriminate].
    destruct I as [[= <- <- <- <-]|I].
    + split; [discriminate|]. intros G IG. apply (IHt n m sl (i0 :: fr) G (or_introl eq_refl) IG).
      clear -EI IG. revert f1 pi EI IG. generalize (i0 :: fr) as fs. induction fs as [|[G'|o'] fs IH]; intros f1 pi EI IG; [destruct IG| |].
      * cbn in EI. destruct (html_output k (Some k) G') as [G1 og] eqn:EG. destruct og as [c|]; [|discriminate].
        destruct (out_items (html_output k (Some k)) k fs) as [r1 o2] eqn:ER. destruct o2 as [ps|]; [|discriminate].
        destruct IG as [[= <-]|IG]; [rewrite EG; now exists c|]. exact (IH r1 ps eq_refl IG).
      * cbn in EI. destruct (out_items (html_output k (Some k)) k fs) as [r1 o2] eqn:ER. destruct o2 as [ps|]; [|discriminate].
        destruct IG as [IG|IG]; [discriminate|]. exact (IH r1 ps eq_refl IG).
    + apply (IH r1 ps eq_refl) with (n := n0) (mgmt := m0) (sl := sl0); [|exact I]. intros n' m' sl' f' G' I'. apply (IHt n' m' sl' f' G'). now right.
Qed.
Theorem C77_shown_iff : forall k F, (exists s, snd (as_html k F) = HOk s) <-> displayable F.
Proof. intros k F. split; [apply not_displayable_error|]. intros D. destruct (C77_complete k F D) as (t & E & _). eauto. Qed.

(** C77: what the page shows for a subform is the subform's own output, under its label *)
Theorem C77_subform : forall k sec own l subs sets n G s, snd (as_html k (HForm sec own l subs sets)) = HOk s -> In (n, G) subs ->
  exists c a b, snd (as_html k G) = HOk c /\ s = a ++ heading_start k ++ shown_label G ++ heading_end k ++ c ++ section_end k ++ b.
Proof.
  intros k sec own l subs sets n G s E I. unfold FormHtml.as_html in *. cbn [FormHtml.html_output] in E.
  destruct (out_subs (html_output k (Some k)) (Some k) subs) as [s1 o1] eqn:ES. destruct o1 as [p1|]; [|discriminate].
  destruct (out_sets (html_output k (Some k)) (Some k) k sets) as [s2 o2] eqn:ET. destruct o2 as [p2|]; [|discriminate].
  cbn [snd] in E. injection E as <-.
  assert (H : exists c, snd (html_output k (Some k) G) = HOk c /\ In (sec_open k ++ shown_label G ++ sec_mid k ++ c ++ sec_close k) p1).
  { clear -ES I. revert s1 p1 ES I. induction subs as [|[n' G'] r IH]; intros s1 p1 ES I; [destruct I|].
    cbn in ES. destruct (html_output k (Some k) G') as [G1 og] eqn:EG. destruct og as [c|]; [|discriminate]. unfold wrap in ES.
    change (label_of G') with (title G') in *; destruct (title G') as [lg|] eqn:EL; [|discriminate]. destruct (out_subs (html_output k (Some k)) (Some k) r) as [r1 o2] eqn:ER. destruct o2 as [ps|]; [|discriminate].
    injection ES as _ <-. destruct I as [[= -> ->]|I].
    - exists c. rewrite EG. split; [reflexivity|]. left. unfold Props_FormHtml.shown_label. now rewrite EL.
    - destruct (IH r1 ps eq_refl I) as (c' & H1 & H2). exists c'. split; [exact H1|now right]. }
  destruct H as (c & Ec & Ip). exists c.
  assert (J : forall x l, In x l -> exists a b, join_with [10%N] l = a ++ x ++ b).
  { clear. intros x. induction l as [|y r IH]; [intros []|]. destruct r as [|z r].
    - intros [->|[]]. exists [], []. now rewrite app_nil_r.
    - change (join_with [10%N] (y :: z :: r)) with (y ++ [10%N] ++ join_with [10%N] (z :: r)). intros [->|I]; [now exists [], ([10%N] ++ join_with [10%N] (z :: r))|].
      destruct (IH I) as (a & b & ->). exists (y ++ [10%N] ++ a), b. now rewrite <- !app_assoc. }
  destruct (J _ (own k :: p1 ++ p2) (or_intror (in_or_app _ _ _ (or_introl Ip)))) as (a & b & E). exists a, b. split; [exact Ec|].
  etransitivity; [exact E|]. now rewrite <- !app_assoc.
Qed.

(** C77: earlier calls make no difference, and showing a form changes nothing but the section formats *)
Lemma erase_output k sec F : snd (html_output k sec F) = snd (html_output k sec (erase F)) /\ erase (fst (html_output k sec F)) = erase F.
Proof.
  induction F as [s0 own l subs sets IHs IHt] using hform_ind2.
  assert (LE : forall G, label_of (erase G) = label_of G) by now intros [].
  assert (Hsub : snd (out_subs (html_output k sec) sec subs) = snd (out_subs (html_output k sec) sec (map (fun nG => (fst nG, erase (snd nG))) subs)) /\
     map (fun nG => (fst nG, erase (snd nG))) (fst (out_subs (html_output k sec) sec subs)) = map (fun nG => (fst nG, erase (snd nG))) subs).
  { clear -IHs LE. revert IHs. induction subs as [|[n G] r IH]; intros IHs; [now split|]. destruct (IHs n G (or_introl eq_refl)) as [E1 E2].
    destruct IH as [I1 I2]; [intros n' G' I; apply (IHs n' G'); now right|].
    cbn. rewrite LE. destruct (html_output k sec G) as [G1 og]. destruct (html_output k sec (erase G)) as [G2 og2]. cbn in E1, E2. subst og2.
    destruct og as [c|e]; [|cbn; now rewrite E2]. destruct (wrap capitalize sec (label_of G) c) as [w|e]; [|cbn; now rewrite E2].
    destruct (out_subs (html_output k sec) sec r) as [r1 o1]. destruct (out_subs (html_output k sec) sec (map _ r)) as [r2 o2]. cbn in I1, I2. subst o2.
    destruct o1; cbn; split; auto; now rewrite E2, I2. }
  set (es := fun ns : str * hset => (fst ns, match snd ns with HSet m sl forms => HSet m sl (map (fun i => match i with IForm G => IForm (erase G) | IPlain o => IPlain o end) forms) end)).
  assert (Hset : snd (out_sets (html_output k sec) sec k sets) = snd (out_sets (html_output k sec) sec k (map es sets)) /\
     map es (fst (out_sets (html_output k sec) sec k sets)) = map es sets).
  { clear -IHt LE. revert IHt. induction sets as [|[n [m sl forms]] r IH]; intros IHt; [now split|].
    destruct IH as [I1 I2]; [intros n' m' sl' f' G' I; apply (IHt n' m' sl' f' G'); now right|].
    set (ei := fun i => match i with IForm G => IForm (erase G) | IPlain o => IPlain o end).
    assert (Hit : snd (out_items (html_output k sec) k forms) = snd (out_items (html_output k sec) k (map ei forms)) /\ map ei (fst (out_items (html_output k sec) k forms)) = map ei forms).
    { assert (IHf : forall G, In (IForm G) forms -> snd (html_output k sec G) = snd (html_output k sec (erase G)) /\ erase (fst (html_output k sec G)) = erase G).
      { intros G I. exact (IHt n m sl forms G (or_introl eq_refl) I). }
      clear -IHf. revert IHf. induction forms as [|[G|o] r IH]; intros IHf; [now split| |].
      - destruct (IHf G (or_introl eq_refl)) as [E1 E2]. destruct IH as [I1 I2]; [intros G' I; apply IHf; now right|].
        cbn. destruct (html_output k sec G) as [G1 og]. destruct (html_output k sec (erase G)) as [G2 og2]. cbn in E1, E2. subst og2.
        destruct og as [c|e]; [|cbn; split; [reflexivity|now rewrite E2]].
        destruct (out_items (html_output k sec) k r) as [r1 o1]. destruct (out_items (html_output k sec) k (map ei r)) as [r2 o2]. cbn in I1, I2. subst o2.
        destruct o1; cbn; rewrite E2, I2; now split.
      - destruct IH as [I1 I2]; [intros G' I; apply IHf; now right|]. cbn.
        destruct (out_items (html_output k sec) k r) as [r1 o1]. destruct (out_items (html_output k sec) k (map ei r)) as [r2 o2]. cbn in I1, I2. subst o2.
        destruct o1; cbn; rewrite I2; now split. }
    destruct Hit as [J1 J2]. destruct forms as [|i0 fr]; [now split|].
    change (map es ((n, HSet m sl (i0 :: fr)) :: r)) with ((n, HSet m sl (ei i0 :: map ei fr)) :: map es r).
    assert (LI : item_label (ei i0) = item_label i0) by (destruct i0; cbn; auto).
    change (map ei (i0 :: fr)) with (ei i0 :: map ei fr) in J1, J2.
    cbn [FormHtml.out_sets]. rewrite LI.
    destruct (out_items (html_output k sec) k (i0 :: fr)) as [f1 oi]. destruct (out_items (html_output k sec) k (ei i0 :: map ei fr)) as [f2 oi2]. cbn [fst snd] in J1, J2. subst oi2.
    assert (ES : forall x, es (n, HSet m sl x) = (n, HSet m sl (map ei x))) by reflexivity.
    destruct oi as [pi|e]; [|cbn [fst snd map]; rewrite ES, J2; now split].
    destruct (wrap capitalize sec (Some match item_label i0 with Some l => l | None => match sl with Some l => l | None => n end end) (join_with [10%N] pi)) as [w|e]; [|cbn [fst snd map]; rewrite ES, J2; now split].
    destruct (out_sets (html_output k sec) sec k r) as [r1 o1]. destruct (out_sets (html_output k sec) sec k (map es r)) as [r2 o2]. cbn [fst snd] in I1, I2. subst o2.
    destruct o1; cbn [fst snd map]; rewrite ES, J2, I2; now split. }
  destruct Hsub as [A1 A2]. destruct Hset as [B1 B2]. cbn [erase]. fold es. cbn [FormHtml.html_output].
  destruct (out_subs (html_output k sec) sec subs) as [x1 o1]. destruct (out_subs (html_output k sec) sec (map _ subs)) as [x2 o2]. cbn [fst snd] in A1, A2. subst o2.
  destruct o1 as [p1|e]; [|cbn [fst snd erase]; rewrite A2; now split].
  destruct (out_sets (html_output k sec) sec k sets) as [y1 q1]. destruct (out_sets (html_output k sec) sec k (map es sets)) as [y2 q2]. cbn [fst snd] in B1, B2. subst q2.
  destruct q1; cbn [fst snd erase]; rewrite A2; fold es; rewrite B2; now split.
Qed.
Theorem C77_history : forall (ks : list fmt) k F,
  let F1 := fold_left (fun G j => fst (as_html j G)) ks F in
  snd (as_html k F1) = snd (as_html k F) /\ erase F1 = erase F.
Proof.
  intros ks k. assert (H : forall F G, erase F = erase G -> snd (as_html k F) = snd (as_html k G)).
  { intros F G E. unfold FormHtml.as_html. rewrite (proj1 (erase_output k (Some k) F)), E. symmetry. apply erase_output. }
  induction ks as [|j ks IH]; intros F; [now split|]. cbn [fold_left]. destruct (IH (fst (as_html j F))) as [E1 E2].
  assert (E : erase (fst (as_html j F)) = erase F) by apply erase_output. split; [rewrite E1; now apply H|congruence].
Qed.

(** ** labels *)
(** C77: every subform has a label: with generated subforms the field's verbose name, or one made from the field's name; with declared
    subforms the form class's own label, else that of the SubformField, else the generated one *)
Theorem C77_subform_label : forall name verbose h, subform_label capitalize name verbose h = Some match h with
  | Declared _ (Some c) => c
  | Declared (Some l) None => l
  | _ => match verbose with Some v => v | None => shown name end
  end.
Proof. intros name verbose [|[l|] [c|]]; unfold subform_label, subform_labels, field_label; cbn; reflexivity. Qed.

End Proofs.

(** ** the default heading: for words whose capitalisation is final, a heading made from a field name is shown as it is *)
Definition proper (capitalize : str -> str) (name : str) : Prop :=
  forall w, In w (split_words (map (fun c => if N.eqb c 95 then 32%N else c) name)) ->
    capitalize (capitalize w) = capitalize w /\ capitalize w <> [] /\ forallb (fun c => negb (is_blank_char c) && negb (N.eqb c 95)) (capitalize w) = true.
Lemma words_plain cur w r : forallb (fun c => negb (is_blank_char c)) w = true -> words_from cur (w ++ r) = words_from (rev w ++ cur) r.
Proof.
  revert cur. induction w as [|c w IH]; intros cur H; cbn in *; [reflexivity|]. apply andb_true_iff in H as [H1 H2]. rewrite negb_true_iff in H1. rewrite H1, IH by exact H2.
  now rewrite <- app_assoc.
Qed.
Lemma split_join l : Forall (fun w => w <> [] /\ forallb (fun c => negb (is_blank_char c)) w = true) l -> split_words (join_with (u " ") l) = l.
Proof.
  induction 1 as [|w l [NE H] Hl IH]; [reflexivity|]. unfold split_words in *. destruct l as [|w2 l].
  - cbn. rewrite <- (app_nil_r w) at 1. rewrite words_plain by exact H. rewrite app_nil_r. cbn. destruct (rev w) eqn:E; [apply (f_equal (@rev N)) in E; rewrite rev_involutive in E; now subst|].
    now rewrite <- E, rev_involutive.
  - change (join_with (u " ") (w :: w2 :: l)) with (w ++ u " " ++ join_with (u " ") (w2 :: l)). rewrite words_plain by exact H.
    rewrite app_nil_r. change (u " ") with [32%N] at 1. cbn [app words_from]. change (is_blank_char 32) with true. cbn iota.
    destruct (rev w) eqn:E; [apply (f_equal (@rev N)) in E; rewrite rev_involutive in E; now subst|]. rewrite <- E, rev_involutive. f_equal. exact IH.
Qed.
Theorem C77_default_heading : forall capitalize name, proper capitalize name ->
  fieldname_to_label capitalize (field_label capitalize name None) = fieldname_to_label capitalize name.
Proof.
  intros capitalize name P0. set (sp := fun c => if N.eqb c 95 then 32%N else c).
  assert (M : forall ws, (forall w, In w ws -> capitalize (capitalize w) = capitalize w /\ capitalize w <> [] /\ forallb (fun c => negb (is_blank_char c) && negb (N.eqb c 95)) (capitalize w) = true) ->
      capwords capitalize (map sp (join_with (u " ") (map capitalize ws))) = join_with (u " ") (map capitalize ws)); [|exact (M _ P0)].
  clear name P0. intros ws P.
  assert (E : map sp (join_with (u " ") (map capitalize ws)) = join_with (u " ") (map capitalize ws)).
  { assert (G : forall w, forallb (fun c => negb (is_blank_char c) && negb (N.eqb c 95)) w = true -> map sp w = w).
    { induction w as [|c w IH]; cbn; [reflexivity|]. rewrite !andb_true_iff, !negb_true_iff. intros [[_ H] H2]. unfold sp at 1. rewrite H. now rewrite (IH H2). }
    induction ws as [|w ws IH]; [reflexivity|]. assert (IHs : map sp (join_with (u " ") (map capitalize ws)) = join_with (u " ") (map capitalize ws)) by (apply IH; intros v I; apply P; now right).
    destruct ws as [|w2 ws]; [cbn; apply G, P; now left|].
    change (map capitalize (w :: w2 :: ws)) with (capitalize w :: capitalize w2 :: map capitalize ws) in *. change (map capitalize (w2 :: ws)) with (capitalize w2 :: map capitalize ws) in IHs.
    change (join_with (u " ") (capitalize w :: capitalize w2 :: map capitalize ws)) with (capitalize w ++ u " " ++ join_with (u " ") (capitalize w2 :: map capitalize ws)).
    rewrite !map_app, IHs, (G (capitalize w)) by (apply P; now left). reflexivity. }
  rewrite E. unfold capwords. rewrite split_join.
  - rewrite map_map. f_equal. apply map_ext_in. intros w I. apply (proj1 (P w I)).
  - apply Forall_forall. intros w I. apply in_map_iff in I as (v & <- & I). destruct (P v I) as (_ & H1 & H2). split; [exact H1|].
    rewrite forallb_forall in *. intros c Ic. specialize (H2 c Ic). now apply andb_true_iff in H2.
Qed.

(** ** examples *)
(** str.capitalize for ASCII *)
Definition up (c : N) : N := if N.leb 97 c && N.leb c 122 then (c - 32)%N else c.
Definition low (c : N) : N := if N.leb 65 c && N.leb c 90 then (c + 32)%N else c.
Definition capA (w : str) : str := match w with [] => [] | c :: r => up c :: map low r end.
Lemma ascii_proper name : forallb (fun c => N.ltb c 128) name = true -> proper capA name.
Proof.
  intros A w I. unfold split_words in I.
  assert (W : w <> [] /\ forallb (fun c => negb (is_blank_char c) && negb (N.eqb c 95)) w = true).
  { clear A. set (x := map (fun c => if N.eqb c 95 then 32%N else c) name) in I.
    assert (X : forallb (fun c => negb (N.eqb c 95)) x = true). { unfold x. rewrite forallb_forall. intros c Ic. apply in_map_iff in Ic as (d & <- & _). destruct (N.eqb_spec d 95); [reflexivity|]. rewrite negb_true_iff. now apply N.eqb_neq. }
    clearbody x. assert (C : forallb (fun c => negb (is_blank_char c) && negb (N.eqb c 95)) (@nil N) = true) by reflexivity.
    assert (NN : forall cur : list N, In w (words_from cur x) -> forallb (fun c => negb (is_blank_char c) && negb (N.eqb c 95)) cur = true -> forallb (fun c => negb (N.eqb c 95)) x = true ->
      w <> [] /\ forallb (fun c => negb (is_blank_char c) && negb (N.eqb c 95)) w = true); [|exact (NN [] I C X)].
    clear I C X. induction x as [|c x IH]; intros cur I C X; cbn in I, X.
    - destruct cur as [|d cur]; [destruct I|]. destruct I as [<-|[]]. split; [intros E; apply (f_equal (@length N)) in E; rewrite rev_length in E; discriminate|].
      rewrite forallb_forall in *. intros e Ie. apply C. now apply in_rev.
    - apply andb_true_iff in X as [X1 X2]. destruct (is_blank_char c) eqn:B.
      + destruct cur as [|d cur]; [now apply (IH [] I)|]. destruct I as [<-|I]; [|now apply (IH [] I)].
        split; [intros E; apply (f_equal (@length N)) in E; rewrite rev_length in E; discriminate|]. rewrite forallb_forall in *. intros e Ie. apply C. now apply in_rev.
      + apply (IH (c :: cur)); [exact I| |exact X2]. cbn [forallb]. rewrite B, X1. exact C. }
  destruct W as [W1 W2].
  assert (UU : forall c, up (up c) = up c). { intros c. unfold up. destruct (N.leb 97 c && N.leb c 122) eqn:E; [|now rewrite E]. apply andb_true_iff in E as [E1 E2]. apply N.leb_le in E1, E2. destruct (N.leb_spec 97 (c - 32)); [lia|reflexivity]. }
  assert (LL : forall c, low (low c) = low c). { intros c. unfold low. destruct (N.leb 65 c && N.leb c 90) eqn:E; [|now rewrite E]. apply andb_true_iff in E as [E1 E2]. apply N.leb_le in E1, E2. destruct (N.leb_spec (c + 32) 90); [lia|now rewrite andb_false_r]. }
  assert (NB : forall c d, (d = up c \/ d = low c) -> negb (is_blank_char c) && negb (N.eqb c 95) = true -> negb (is_blank_char d) && negb (N.eqb d 95) = true).
  { intros c d H G. unfold up, low in H. destruct (N.leb 97 c && N.leb c 122) eqn:E1, (N.leb 65 c && N.leb c 90) eqn:E2; rewrite ?andb_true_iff, ?N.leb_le in *; destruct H; subst d; try exact G; try lia.
    - unfold is_blank_char. assert (B : (65 <= c - 32 <= 90)%N) by lia. revert B. generalize (c - 32)%N as e. intros e B. rewrite negb_true_iff, negb_true_iff, !orb_false_iff, !andb_false_iff, !N.eqb_neq, !N.leb_gt. lia.
    - unfold is_blank_char. rewrite negb_true_iff, negb_true_iff, !orb_false_iff, !andb_false_iff, !N.eqb_neq, !N.leb_gt. lia. }
  destruct w as [|c r]; [congruence|]. cbn [capA]. split; [rewrite UU, map_map; f_equal; apply map_ext; exact LL|]. split; [discriminate|].
  cbn [forallb] in *. apply andb_true_iff in W2 as [G1 G2]. rewrite (NB c _ (or_introl eq_refl) G1). cbn. rewrite forallb_forall in *. intros d Id.
  apply in_map_iff in Id as (e & <- & Ie). apply (NB e); auto.
Qed.

Open Scope string_scope.
Definition own1 (s : string) : fmt -> str := fun _ => u s.
Definition page : hform := HForm None (own1 "<title>") None
  [(u "source_desc", HForm None (own1 "<src>") (Some (u "source_desc")) [(u "bibl", HForm None (own1 "<bibl>") (Some (u "bibl")) [] [])] [])]
  [(u "names", HSet (u "<mgmt>") (Some (u "Names")) [IForm (HForm None (own1 "<n1>") None [] []); IForm (HForm None (own1 "<n2>") None [] [])]);
   (u "notes", HSet (u "<mgmt2>") (Some (u "Notes")) [IPlain (own1 "<note>")])].
Example C77_case : displayable page /\ inventory capA AsP [] page =
  [([], u "<title>"); ([u "Source Desc"], u "<src>"); ([u "Bibl"; u "Source Desc"], u "<bibl>"); ([], u "<mgmt>"); ([u "Names"], u "<n1>"); ([u "Names"], u "<n2>");
   ([], u "<mgmt2>"); ([u "Notes"], u "<note>")] /\ proper capA (u "date_created").
Proof.
  split; [|split; [vm_compute; reflexivity|apply ascii_proper; vm_compute; reflexivity]].
  unfold page. constructor.
  - intros n G [[= <- <-]|[]]. split; [discriminate|]. constructor; [|intros ? ? ? ? []]. intros n G [[= <- <-]|[]]. split; [discriminate|]. constructor; [intros ? ? []|intros ? ? ? ? []].
  - intros n m sl f [[= <- <- <- <-]|[[= <- <- <- <-]|[]]]; (split; [discriminate|]).
    + intros G [[= <-]|[[= <-]|[]]]; (constructor; [intros ? ? []|intros ? ? ? ? []]).
    + intros G [I|[]]. discriminate.
Qed.

(** ** what does not hold *)
(** a formset without forms makes the whole page fail, in every format *)
Theorem C77_no_forms_refuted : forall capitalize k sec own l n mgmt sl, snd (as_html capitalize k (HForm sec own l [] [(n, HSet mgmt sl [])])) = HErr HIndex.
Proof. reflexivity. Qed.
(** a label given by hand is not shown as given, nor escaped *)
Theorem C77_label_refuted : fieldname_to_label capA (u "IDs (MARC & MODS)") = u "Ids (marc & Mods)".
Proof. vm_compute. reflexivity. Qed.
(** the label of a SubformField is ignored if its form class has one, and always if the field is a list *)
Theorem C77_subformfield_label_refuted :
  subform_label capA (u "name") None (Declared (Some (u "Creator")) (Some (u "Person"))) = Some (u "Person") /\
  forall name verbose l c, class_label_of capA name verbose (Declared (Some l) c) = c.
Proof. split; [vm_compute; reflexivity|reflexivity]. Qed.
Close Scope string_scope.

(** ** What a heading is *)
(** the characters between words: blanks (tab, line feed, vertical tab, form feed, carriage return, 28 to 31, blank) and underscores *)
Definition between (c : N) : Prop := In c [9; 10; 11; 12; 13; 28; 29; 30; 31; 32; 95]%N.
(** the words of a name, in order *)
Inductive words_of : str -> list str -> Prop :=
| NoWord : forall g, Forall between g -> words_of g []
| Word : forall g w r ws, Forall between g -> w <> [] -> Forall (fun c => ~ between c) w -> (r = [] \/ exists c r', r = c :: r' /\ between c) ->
    words_of r ws -> words_of (g ++ w ++ r) (w :: ws).
Definition spaces (s : str) : str := map (fun c => if N.eqb c 95 then 32%N else c) s.
Lemma between_blank c : between c <-> is_blank_char (if N.eqb c 95 then 32%N else c) = true.
Proof.
  unfold between. destruct (N.eqb_spec c 95) as [->|H]; [split; intros _; [reflexivity|cbn; tauto]|]. unfold is_blank_char.
  rewrite !orb_true_iff, !andb_true_iff, N.eqb_eq, !N.leb_le. cbn [In]. lia.
Qed.
Lemma gap_words g r : Forall between g -> words_from [] (spaces (g ++ r)) = words_from [] (spaces r).
Proof. induction 1 as [|c g H _ IH]; [reflexivity|]. cbn [app spaces map words_from]. apply between_blank in H. rewrite H. exact IH. Qed.
Lemma word_plain w : Forall (fun c => ~ between c) w -> spaces w = w /\ forallb (fun c => negb (is_blank_char c)) w = true.
Proof.
  induction 1 as [|c w H _ [IH1 IH2]]; [now split|]. cbn [spaces map forallb]. unfold spaces in IH1. rewrite IH1, IH2, andb_true_r.
  assert (H95 : N.eqb c 95 = false) by (apply N.eqb_neq; intros ->; apply H; cbn; tauto). rewrite H95. split; [reflexivity|]. apply negb_true_iff, not_true_iff_false. intros B. apply H, between_blank. now rewrite H95.
Qed.
Lemma words_of_split s ws : words_of s ws -> split_words (spaces s) = ws.
Proof.
  unfold split_words. induction 1 as [g H|g w r ws Hg NE Hw Hr _ IH].
  - rewrite <- (app_nil_r g), (gap_words g [] H). reflexivity.
  - rewrite (gap_words g _ Hg). destruct (word_plain w Hw) as [E F]. unfold spaces in *. rewrite map_app, E, (words_plain [] w _ F), app_nil_r.
    destruct (rev w) as [|x y] eqn:Er; [apply (f_equal (@rev N)) in Er; rewrite rev_involutive in Er; now subst|].
    assert (Ew : rev (x :: y) = w) by (rewrite <- Er; apply rev_involutive).
    destruct Hr as [-> |(c & r' & -> & Hc)]; [cbn [map] in *; cbn [words_from] in *; now rewrite Ew, <- IH|].
    cbn [map words_from] in *. apply between_blank in Hc. rewrite Hc in *. rewrite Ew. f_equal. exact IH.
Qed.
Lemma between_dec c : {between c} + {~ between c}.
Proof. unfold between. apply in_dec, N.eq_dec. Qed.
Lemma words_exist s : exists ws, words_of s ws.
Proof.
  induction s as [|c s (ws & IH)]; [exists []; constructor; constructor|]. destruct (between_dec c) as [B|B].
  - destruct IH as [g H|g w r ws Hg NE Hw Hr H]; [exists []; constructor; now constructor|]. exists (w :: ws). change (c :: g ++ w ++ r) with ((c :: g) ++ w ++ r). constructor; auto.
  - assert (One : forall r ws, words_of r ws -> r = [] \/ (exists x r', r = x :: r' /\ between x) -> words_of (c :: r) ([c] :: ws)).
    { intros r vs H Hr. change (c :: r) with ([] ++ [c] ++ r). constructor; auto; discriminate. }
    destruct IH as [g H|g w r ws Hg NE Hw Hr H].
    + exists [[c]]. apply One; [now constructor|]. destruct H; [now left|right; eauto].
    + destruct Hg as [|x g Hx Hg].
      * exists ((c :: w) :: ws). change (c :: [] ++ w ++ r) with ([] ++ (c :: w) ++ r). constructor; auto. discriminate.
      * exists ([c] :: w :: ws). apply One; [constructor; auto|]. right. cbn [app]. eauto.
Qed.
(** every name has exactly one list of words, and its heading is these words, each capitalised, with one blank between two *)
Definition one_blank_between (ws : list str) : str := match ws with [] => [] | w :: r => w ++ concat (map (fun v => 32%N :: v) r) end.
Theorem C77_heading_words : forall capitalize name, exists ws, words_of name ws /\ (forall ws', words_of name ws' -> ws' = ws) /\
  fieldname_to_label capitalize name = one_blank_between (map capitalize ws).
Proof.
  intros capitalize name. destruct (words_exist name) as (ws & H). exists ws. split; [exact H|]. pose proof (words_of_split _ _ H) as E. split.
  - intros ws' H'. apply words_of_split in H'. congruence.
  - unfold fieldname_to_label, capwords. fold (spaces name). rewrite E. clear. induction (map capitalize ws) as [|w l IH]; [reflexivity|]. destruct l as [|w2 l]; [cbn; now rewrite app_nil_r|].
    change (join_with (u " ") (w :: w2 :: l)) with (w ++ u " " ++ join_with (u " ") (w2 :: l)). rewrite IH. reflexivity.
Qed.
Example C77_heading_words_case : words_of (u "date__of issue") [u "date"; u "of"; u "issue"] /\ fieldname_to_label capA (u "date__of issue") = u "Date Of Issue".
Proof.
  split; [|vm_compute; reflexivity]. destruct (words_exist (u "date__of issue")) as (ws & H). pose proof (words_of_split _ _ H) as E.
  assert (ws = [u "date"; u "of"; u "issue"]) as <- by (rewrite <- E; vm_compute; reflexivity). exact H.
Qed.
