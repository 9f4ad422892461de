(** The XML_CATALOG_FILES variable: C45. *)
From Coq Require Import String List Arith NArith Bool Lia.
From Verif Require Import PyStr Environ.
Import ListNotations.
Opaque u.

(** ** Specification *)
(** [x] is an entry of [s], entries being what stands between separators *)
Definition entry (sep : N -> Prop) (x s : str) : Prop :=
  (forall c, In c x -> ~ sep c) /\ exists pre post, s = pre ++ x ++ post /\
    (pre = [] \/ exists p c, pre = p ++ [c] /\ sep c) /\ (post = [] \/ exists c q, post = c :: q /\ sep c).
(** the separator eulxml uses, and the one libxml2 reads the variable with (xmlInitializeCatalog: blanks) *)
Definition colon (c : N) : Prop := c = ch ":".
Definition blank (c : N) : Prop := (c = 32 \/ c = 9 \/ c = 10 \/ c = 13)%N.
Definition substring (x s : str) : Prop := exists a b, s = a ++ x ++ b.
Definition value (env : option str) : str := match env with Some s => s | None => [] end.

(** ** lemmas *)
Lemma is_prefix_spec p : forall s, is_prefix p s = true <-> exists b, s = p ++ b.
Proof.
  induction p as [|x p IH]; intros [|y s]; cbn; split; intros H; try discriminate; eauto.
  - destruct H as [b H]. discriminate.
  - apply andb_prop in H as [H1 H2]. apply N.eqb_eq in H1. apply IH in H2 as [b ->]. subst. eauto.
  - destruct H as [b [= -> ->]]. rewrite N.eqb_refl. cbn. apply IH. eauto.
Qed.
Lemma contains_spec p s : contains p s = true <-> substring p s.
Proof.
  induction s as [|y s IH]; cbn [contains].
  - rewrite orb_false_r, is_prefix_spec. split; [intros [b H]; exists [], b; auto|]. intros (a & b & H). symmetry in H. apply app_eq_nil in H as [_ H]. exists b. now symmetry.
  - rewrite orb_true_iff, is_prefix_spec, IH. split.
    + intros [[b H]|(a & b & ->)]; [exists [], b; auto|exists (y :: a), b; auto].
    + intros ([|x a] & b & H); [left; eauto|right]. injection H as -> ->. exists a, b. auto.
Qed.
Lemma import_eq cat env : cat <> [] -> ~ substring cat (value env) -> import_env cat env = Some (match value env with [] => cat | v => v ++ ch ":" :: cat end).
Proof.
  intros Hc Hs. unfold import_env. fold (value env). destruct (contains cat (value env)) eqn:E; [apply contains_spec in E; contradiction|]. destruct cat as [|c cat]; [contradiction|].
  destruct env as [[|x s]|]; cbn; rewrite ?app_nil_r; reflexivity.
Qed.
Lemma import_same cat env : substring cat (value env) -> import_env cat env = env.
Proof. intros H. unfold import_env. fold (value env). apply contains_spec in H. now rewrite H. Qed.

Lemma cut (c : str) : forall a b d, a ++ b = c ++ d -> length c <= length a -> exists r, a = c ++ r /\ d = r ++ b.
Proof.
  induction c as [|x c IH]; intros a b d H Hl; [exists a; auto|]. destruct a as [|y a]; [cbn in Hl; lia|]. injection H as -> H. destruct (IH a b d H) as (r & -> & ->); [cbn in Hl; lia|]. exists r. auto.
Qed.

(** ** C45 *)
(** Importing again changes nothing, whatever the value was. *)
Theorem C45_idempotent : forall cat env n, cat <> [] -> Nat.iter (S n) (import_env cat) env = import_env cat env.
Proof.
  intros cat env n Hc. induction n as [|n IH]; [reflexivity|]. change (Nat.iter (S (S n)) (import_env cat) env) with (import_env cat (Nat.iter (S n) (import_env cat) env)). rewrite IH.
  apply import_same. destruct (contains cat (value env)) eqn:E.
  - apply contains_spec in E. rewrite import_same; assumption.
  - assert (Hs : ~ substring cat (value env)) by (rewrite <- contains_spec, E; discriminate). rewrite import_eq by assumption. cbn [value]. destruct (value env) as [|x s]; [exists [], []; now rewrite app_nil_r|].
    exists ((x :: s) ++ [ch ":"]), []. rewrite app_nil_r, <- app_assoc. reflexivity.
Qed.
(** As colon-separated list: the catalog is added unless its path occurs somewhere in the value, all entries stay, and a value
    that has the entry stays as it is. *)
Theorem C45_registered_partial : forall cat env, cat <> [] -> (forall c, In c cat -> ~ colon c) ->
  (~ substring cat (value env) \/ entry colon cat (value env)) ->
  entry colon cat (value (import_env cat env)) /\
  (forall x, x <> [] -> entry colon x (value env) -> entry colon x (value (import_env cat env))) /\
  (forall x, x <> [] -> entry colon x (value (import_env cat env)) -> entry colon x (value env) \/ x = cat) /\
  (entry colon cat (value env) -> import_env cat env = env).
Proof.
  intros cat env Hc Hn Hor.
  assert (Sub : entry colon cat (value env) -> import_env cat env = env) by (intros (_ & a & b & H & _); apply import_same; exists a, b; assumption).
  destruct Hor as [Hs|He]; [|rewrite (Sub He); split; [assumption|]; split; [auto|]; split; auto].
  rewrite import_eq by assumption. cbn [value]. destruct (value env) as [|c0 s0] eqn:Ev.
  { split; [split; [assumption|exists [], []; rewrite app_nil_r; auto]|]. split.
    - intros x Hx (_ & a & b & H & _). symmetry in H. apply app_eq_nil in H as [_ H]. apply app_eq_nil in H as [H _]. contradiction.
    - split; [|intros (_ & a & b & H & _); symmetry in H; apply app_eq_nil in H as [_ H]; apply app_eq_nil in H as [H _]; contradiction].
      intros x Hx (Hf & pre & post & H & Hpre & Hpost). right. destruct Hpre as [->|(p & c & -> & Hcc)]; [|exfalso; apply (Hn c); [rewrite H; apply in_or_app; left; apply in_or_app; right; now left|assumption]].
      destruct Hpost as [->|(c & q & -> & Hcc)]; [now rewrite app_nil_r in H|]. exfalso. apply (Hn c); [rewrite H; cbn; apply in_or_app; right; now left|assumption]. }
  set (s := c0 :: s0) in *. split.
  - split; [assumption|]. exists (s ++ [ch ":"]), []. rewrite app_nil_r, <- app_assoc. split; [reflexivity|]. split; [right; exists s, (ch ":"); split; [reflexivity|reflexivity]|now left].
  - split; [|split; [|intros (_ & a & b & H & _); exfalso; apply Hs; exists a, b; assumption]].
    + intros x Hx (Hf & pre & post & H & Hpre & Hpost). split; [assumption|]. exists pre, (post ++ ch ":" :: cat). rewrite H, <- !app_assoc. split; [reflexivity|]. split; [assumption|]. right.
      destruct Hpost as [->|(c & q & -> & Hcc)]; [exists (ch ":"), cat; split; reflexivity|]. exists c, (q ++ ch ":" :: cat). split; [reflexivity|assumption].
    + intros x Hx (Hf & pre & post & H & Hpre & Hpost).
      (* x lies before or after the new colon *)
      destruct (le_lt_dec (length (pre ++ x)) (length s)) as [Hl|Hl].
      * left. split; [assumption|]. assert (E : exists r, s = (pre ++ x) ++ r /\ post = r ++ ch ":" :: cat).
        { rewrite app_assoc in H. now apply (cut (pre ++ x)). }
        destruct E as (r & Es & Er). exists pre, r. rewrite app_assoc. split; [exact Es|]. split; [assumption|]. destruct r as [|c r]; [now left|right]. destruct Hpost as [->|(c' & q & -> & Hcc)]; [discriminate|]. injection Er as -> ->. exists c, r. auto.
      * right. assert (Hpl : length pre > length s).
        { destruct (le_lt_dec (length pre) (length s)) as [Hp|Hp]; [exfalso|lia].
          (* then the colon after s is inside x *)
          assert (Hnth : nth_error (pre ++ x ++ post) (length s) = Some (ch ":")) by (rewrite <- H, nth_error_app2, Nat.sub_diag by lia; reflexivity).
          rewrite nth_error_app2 in Hnth by lia. rewrite app_length in Hl. rewrite nth_error_app1 in Hnth by lia. apply nth_error_In in Hnth. apply (Hf _ Hnth). reflexivity. }
        destruct Hpre as [->|(p & c & -> & Hcc)]; [cbn in Hpl; lia|]. rewrite app_length in Hpl. cbn in Hpl.
        assert (E : exists r, p ++ [c] = (s ++ [ch ":"]) ++ r /\ cat = r ++ x ++ post).
        { change (s ++ ch ":" :: cat) with (s ++ [ch ":"] ++ cat) in H. rewrite app_assoc in H. symmetry in H. apply (cut (s ++ [ch ":"])) in H as (r & H1 & H2); [exists r; auto|]. rewrite !app_length. cbn. lia. }
        destruct E as (r & Ep & Ecat).
        assert (r = []). { destruct r as [|y r] using rev_ind; [reflexivity|]. exfalso. rewrite app_assoc in Ep. apply app_inj_tail in Ep as [_ ->]. apply (Hn y); [rewrite Ecat; apply in_or_app; left; apply in_or_app; right; now left|assumption]. }
        subst r. cbn [app] in Ecat. destruct Hpost as [->|(c' & q & -> & Hcc')]; [now rewrite app_nil_r in Ecat|]. exfalso. apply (Hn c'); [rewrite Ecat; apply in_or_app; right; now left|assumption].
Qed.
(** Read as libxml2 reads the variable: with no earlier value, the catalog is its only entry *)
Theorem C45_libxml2_unset_partial : forall cat env, cat <> [] -> (forall c, In c cat -> ~ blank c) -> value env = [] ->
  entry blank cat (value (import_env cat env)) /\ forall x, x <> [] -> entry blank x (value (import_env cat env)) -> x = cat.
Proof.
  intros cat env Hc Hb Hv. rewrite import_eq; [|assumption|rewrite Hv; intros (a & b & H); symmetry in H; apply app_eq_nil in H as [_ H]; apply app_eq_nil in H as [H _]; contradiction].
  rewrite Hv. cbn [value]. split; [split; [assumption|exists [], []; rewrite app_nil_r; auto]|]. intros x Hx (Hf & pre & post & H & Hpre & Hpost).
  destruct Hpre as [->|(p & c & -> & Hcc)]; [|exfalso; apply (Hb c); [rewrite H; apply in_or_app; left; apply in_or_app; right; now left|assumption]].
  destruct Hpost as [->|(c & q & -> & Hcc)]; [now rewrite app_nil_r in H|]. exfalso. apply (Hb c); [rewrite H; cbn; apply in_or_app; right; now left|assumption].
Qed.

(** *** where it fails *)
Lemma colon_not_blank : ~ blank (ch ":"). Proof. change (ch ":") with 58%N. unfold blank. lia. Qed.
(** With any earlier value that does not mention the catalog, libxml2 does not find it afterwards: the entries are joined with a colon. *)
Theorem C45_libxml2_refuted : forall cat env, cat <> [] -> (forall c, In c cat -> ~ blank c) -> value env <> [] -> ~ substring cat (value env) ->
  ~ entry blank cat (value (import_env cat env)).
Proof.
  intros cat env Hc Hb Hv Hs. rewrite import_eq by assumption. cbn [value]. destruct (value env) as [|c0 s0] eqn:Ev; [contradiction|]. set (s := c0 :: s0) in *.
  intros (_ & pre & post & H & Hpre & Hpost). destruct (le_lt_dec (length (pre ++ cat)) (length s)) as [Hl|Hl].
  - apply Hs. rewrite app_assoc in H. apply (cut (pre ++ cat)) in H as (r & -> & _); [|assumption]. exists pre, r. now rewrite app_assoc.
  - destruct Hpost as [->|(c & q & -> & Hcc)].
    + rewrite app_nil_r in H. change (s ++ ch ":" :: cat) with (s ++ [ch ":"] ++ cat) in H. rewrite app_assoc in H. apply app_inv_tail in H. destruct Hpre as [->|(p & c & -> & Hcc)]; [destruct s; discriminate|]. apply app_inj_tail in H as [_ <-]. now apply colon_not_blank.
    + (* the blank after cat would be the colon or a character of cat *)
      assert (Hnth : nth_error (s ++ ch ":" :: cat) (length (pre ++ cat)) = Some c) by (rewrite H, app_assoc, nth_error_app2, Nat.sub_diag by lia; reflexivity).
      rewrite nth_error_app2 in Hnth by lia. apply nth_error_In in Hnth as [<-|Hin]; [now apply colon_not_blank|now apply (Hb c)].
Qed.
(** the earlier catalog is lost with it *)
Theorem C45_libxml2_lost_refuted : let old := u "/etc/xml/catalog" in let new := value (import_env (u "/p/catalog.xml") (Some old)) in
  entry blank old old /\ ~ entry blank old new.
Proof.
  split.
  - split; [intros c Hc; change (In c (map N.of_nat [47; 101; 116; 99; 47; 120; 109; 108; 47; 99; 97; 116; 97; 108; 111; 103])) in Hc; cbn in Hc; unfold blank; intuition lia|]. exists [], []. rewrite app_nil_r. auto.
  - intros (_ & pre & post & H & _ & Hpost). destruct Hpost as [->|(c & q & -> & Hcc)].
    + rewrite app_nil_r in H. pose proof (f_equal (fun l => hd 0%N (rev l)) H) as H1. cbv beta in H1. rewrite rev_app_distr in H1. vm_compute in H1. discriminate.
    + assert (Hin : In c (value (import_env (u "/p/catalog.xml") (Some (u "/etc/xml/catalog"))))) by (rewrite H; apply in_or_app; right; apply in_or_app; right; now left).
      assert (F : forallb (fun c => negb (N.eqb c 32 || N.eqb c 9 || N.eqb c 10 || N.eqb c 13)) (value (import_env (u "/p/catalog.xml") (Some (u "/etc/xml/catalog")))) = true) by (vm_compute; reflexivity).
      rewrite forallb_forall in F. specialize (F c Hin). unfold blank in Hcc. destruct Hcc as [-> | [-> | [-> | ->]]]; discriminate.
Qed.
(** the path of another file that contains the catalog's path hides it *)
Theorem C45_substring_refuted : let env := Some (u "/p/catalog.xml.old") in import_env (u "/p/catalog.xml") env = env /\ ~ entry colon (u "/p/catalog.xml") (value env).
Proof.
  split; [vm_compute; reflexivity|]. intros (_ & pre & post & H & _ & Hpost). cbn [value] in H. destruct Hpost as [->|(c & q & -> & Hcc)].
  - rewrite app_nil_r in H. pose proof (f_equal (fun l => hd 0%N (rev l)) H) as H1. cbv beta in H1. rewrite rev_app_distr in H1. vm_compute in H1. discriminate.
  - assert (Hin : In c (u "/p/catalog.xml.old")) by (rewrite H; apply in_or_app; right; apply in_or_app; right; now left). unfold colon in Hcc. subst c.
    assert (F : forallb (fun c => negb (N.eqb c (ch ":"))) (u "/p/catalog.xml.old") = true) by (vm_compute; reflexivity). rewrite forallb_forall in F. specialize (F _ Hin). rewrite N.eqb_refl in F. discriminate.
Qed.
Example C45_case : let cat := u "/p/catalog.xml" in let env := Some (u "/a:/b") in
  cat <> [] /\ forallb (fun c => negb (N.eqb c (ch ":"))) cat = true /\ contains cat (value env) = false /\ import_env cat env = Some (u "/a:/b:/p/catalog.xml") /\ import_env cat None = Some cat.
Proof. split; [vm_compute; discriminate|]. repeat match goal with |- _ /\ _ => split end; vm_compute; reflexivity. Qed.
Print Assumptions C45_registered_partial.
Print Assumptions C45_libxml2_refuted.
