(** Proofs for C88, dates and times. *)
From Coq Require Import String Arith ZArith NArith List Lia Bool.
From Verif Require Import PyStr XPathEval Mappers MapperProofs ReadSpec ReadNum NumberSpec XPathNum.
From Verif Require Import Props_Mappers.
Import ListNotations.

(** ** what one directive matches *)
Definition dword (x : fdir) (w : str) (v : N) : Prop :=
  match x with
  | FY => year_text w v
  | Fm => short w v /\ (1 <= v <= 12)%N
  | Fd => day_text w v /\ (1 <= v <= 31)%N
  | FH => short w v /\ (v <= 23)%N
  | FM => short w v /\ (v <= 59)%N
  | FS => short w v /\ (v <= 61)%N
  | Ff => fraction_text w v
  | FC c => v = 0%N /\ exists x, w = [x] /\ lower x = lower c
  end.
Lemma in_dig lo hi s v r : In (v, r) (dig lo hi s) <-> exists c, s = c :: r /\ (48 + lo <= c <= 48 + hi)%N /\ v = (c - 48)%N.
Proof.
  unfold dig. destruct s as [|c s]; [split; [intros []|intros (c & E & _); discriminate]|].
  unfold in_range. destruct (N.leb_spec (48 + lo) c); destruct (N.leb_spec c (48 + hi)); cbn [andb In];
    (split; [intros [[= <- <-]|[]]; eauto|intros (x & [= -> ->] & H' & ->); ((left; reflexivity) || lia)]) || (split; [intros []|intros (x & [= -> ->] & H' & ->); lia]).
Qed.
Lemma in_dig2 a b lo hi s v r : In (v, r) (dig2 a b lo hi s) <->
  exists c d, s = c :: d :: r /\ (48 + a <= c <= 48 + b)%N /\ (48 + lo <= d <= 48 + hi)%N /\ v = (10 * (c - 48) + (d - 48))%N.
Proof.
  unfold dig2. rewrite in_flat_map. split.
  - intros ([v1 r1] & H1 & H2). apply in_map_iff in H2 as ([v2 r2] & [= <- <-] & H2). apply in_dig in H1 as (c & -> & Hc & ->). cbn [fst snd] in *.
    apply in_dig in H2 as (d & -> & Hd & ->). exists c, d. auto.
  - intros (c & d & -> & Hc & Hd & ->). exists ((c - 48)%N, d :: r). split; [apply in_dig; eauto|]. apply in_map_iff. exists ((d - 48)%N, r). split; [reflexivity|]. apply in_dig. cbn. eauto.
Qed.
Ltac words := repeat match goal with
  | H : _ \/ _ |- _ => destruct H
  | H : _ /\ _ |- _ => destruct H
  | H : exists _, _ |- _ => destruct H
  end.
Lemma short1 c : digit c -> short [c] (c - 48).
Proof. constructor. assumption. Qed.

Lemma in_digs k : forall acc s n j r, In (n, j, r) (digs k acc s) <->
  exists w, s = w ++ r /\ Forall digit w /\ 1 <= length w /\ length w + j = k /\ n = horner acc (dvals w).
Proof.
  induction k as [|k IH]; intros acc s n j r; cbn [digs].
  - split; [intros []|intros (w & _ & _ & H1 & H2 & _); lia].
  - rewrite in_flat_map. split.
    + intros ([v s'] & H & H'). apply in_dig in H as (c & -> & Hc & ->). cbn [fst snd] in H'. assert (digit c) by (unfold digit; lia).
      apply in_app_or in H' as [H'|[[= <- <- <-]|[]]].
      * apply IH in H' as (w & -> & Hw & L1 & L2 & ->). exists (c :: w). split; [reflexivity|]. split; [now constructor|]. split; [cbn; lia|]. split; [cbn; lia|reflexivity].
      * exists [c]. split; [reflexivity|]. split; [constructor; [assumption|constructor]|]. repeat split; cbn; lia.
    + intros (w & -> & Hw & L1 & L2 & ->). destruct w as [|c w]; [cbn in L1; lia|]. inversion_clear Hw as [|? ? Hc Hw']. exists ((c - 48)%N, w ++ r).
      split; [apply in_dig; exists c; split; [reflexivity|split; [unfold digit in Hc; lia|reflexivity]]|]. cbn [fst snd]. apply in_or_app. destruct w as [|d w].
      * right. left. cbn in *. f_equal. f_equal. lia.
      * left. apply IH. exists (d :: w). split; [reflexivity|]. split; [exact Hw'|]. cbn [length] in *. split; [lia|]. split; [lia|reflexivity].
Qed.

Lemma dmatch_iff x s v r : In (v, r) (dmatch x s) <-> exists w, s = w ++ r /\ dword x w v.
Proof.
  destruct x; cbn [dmatch dword].
  - rewrite in_flat_map. split.
    + intros ([v1 r1] & H1 & H2). apply in_map_iff in H2 as ([v2 r2] & E & H2). pose proof (f_equal fst E) as E1. pose proof (f_equal snd E) as E2. cbn [fst snd] in *. clear E. subst v r. apply in_dig2 in H1 as (a & b & -> & Ha & Hb & ->).
      apply in_dig2 in H2 as (c & d & -> & Hc & Hd & ->). exists [a; b; c; d]. split; [reflexivity|].
      replace (100 * (10 * (a - 48) + (b - 48)) + (10 * (c - 48) + (d - 48)))%N with (value_of [a; b; c; d]) by (unfold value_of; cbn [fold_left]; lia).
      constructor; unfold digit; lia.
    + intros (w & -> & [a b c d Ha Hb Hc Hd]). unfold digit in *. exists ((10 * (a - 48) + (b - 48))%N, c :: d :: r). split; [apply in_dig2; exists a, b; repeat split; lia|].
      apply in_map_iff. exists ((10 * (c - 48) + (d - 48))%N, r). split; [f_equal; unfold value_of; cbn [fold_left fst]; lia|]. apply in_dig2. exists c, d. repeat split; lia.
  - rewrite !in_app_iff, !in_dig2, in_dig. split.
    + intros [(c & d & -> & Hc & Hd & ->)|[(c & d & -> & Hc & Hd & ->)|(c & -> & Hc & ->)]]; [exists [c; d]|exists [c; d]|exists [c]];
        (split; [reflexivity|split; [constructor; unfold digit; lia|lia]]).
    + intros (w & -> & [[c Hc|c d Hc Hd] Hv]); unfold digit in *; [right; right; exists c; repeat split; lia|].
      destruct (N.leb_spec (c - 48) 0); [right; left|left]; exists c, d; repeat split; lia.
  - rewrite !in_app_iff, !in_dig2, in_dig, in_flat_map. split.
    + intros [(c & d & -> & Hc & Hd & ->)|[(c & d & -> & Hc & Hd & ->)|[(c & d & -> & Hc & Hd & ->)|[(c & -> & Hc & ->)|([v1 r1] & H1 & H2)]]]];
        [exists [c; d]|exists [c; d]|exists [c; d]|exists [c]|]; try (split; [reflexivity|split; [apply day_short; constructor; unfold digit; lia|lia]]).
      unfold lit in H1. destruct s as [|y s]; [destruct H1|]. destruct (N.eqb_spec 32 y) as [<-|]; [|destruct H1]. destruct H1 as [[= <- <-]|[]].
      cbn [snd] in H2. apply in_dig in H2 as (c & -> & Hc & ->). exists [32%N; c]. split; [reflexivity|]. split; [apply day_space; unfold digit; lia|lia].
    + intros (w & -> & [[w' n [c Hc|c d Hc Hd]|c Hc] Hv]); unfold digit in *.
      * right; right; right; left. exists c. repeat split; lia.
      * destruct (N.leb_spec (c - 48) 0); [right; right; left; exists c, d; repeat split; lia|].
        destruct (N.leb_spec (c - 48) 2); [right; left; exists c, d; repeat split; lia|left; exists c, d; repeat split; lia].
      * right; right; right; right. exists (0%N, c :: r). split; [left; reflexivity|]. apply in_dig. exists c. repeat split; lia.
  - rewrite !in_app_iff, !in_dig2, in_dig. split.
    + intros [(c & d & -> & Hc & Hd & ->)|[(c & d & -> & Hc & Hd & ->)|(c & -> & Hc & ->)]]; [exists [c; d]|exists [c; d]|exists [c]];
        (split; [reflexivity|split; [constructor; unfold digit; lia|lia]]).
    + intros (w & -> & [[c Hc|c d Hc Hd] Hv]); unfold digit in *; [right; right; exists c; repeat split; lia|].
      destruct (N.leb_spec (c - 48) 1); [right; left|left]; exists c, d; repeat split; lia.
  - rewrite !in_app_iff, !in_dig2, in_dig. split.
    + intros [(c & d & -> & Hc & Hd & ->)|(c & -> & Hc & ->)]; [exists [c; d]|exists [c]];
        (split; [reflexivity|split; [constructor; unfold digit; lia|lia]]).
    + intros (w & -> & [[c Hc|c d Hc Hd] Hv]); unfold digit in *; [right; exists c; repeat split; lia|].
      left; exists c, d; repeat split; lia.
  - rewrite !in_app_iff, !in_dig2, in_dig. split.
    + intros [(c & d & -> & Hc & Hd & ->)|[(c & d & -> & Hc & Hd & ->)|(c & -> & Hc & ->)]]; [exists [c; d]|exists [c; d]|exists [c]];
        (split; [reflexivity|split; [constructor; unfold digit; lia|lia]]).
    + intros (w & -> & [[c Hc|c d Hc Hd] Hv]); unfold digit in *; [right; right; exists c; repeat split; lia|].
      destruct (N.leb_spec (c - 48) 5); [right; left|left]; exists c, d; repeat split; lia.
  - rewrite in_map_iff. split.
    + intros ([[n k] r'] & E & H). pose proof (f_equal fst E) as E1. pose proof (f_equal snd E) as E2. cbn [fst snd] in *. clear E. subst v r. apply in_digs in H as (w & -> & Hw & L1 & L2 & ->). exists w. split; [reflexivity|].
      replace k with (6 - length w) by lia. change (horner 0 (dvals w)) with (dec (dvals w)). rewrite <- value_dec. constructor; [exact Hw|lia].
    + intros (w & -> & [w' Hw L]). exists (value_of w', 6 - length w', r). split; [reflexivity|]. apply in_digs. exists w'. repeat split; auto; try lia. apply value_dec.
  - split.
    + destruct s as [|y s]; [intros []|]. destruct (N.eqb_spec (lower c) (lower y)) as [E|]; [|intros []]. intros [[= <- <-]|[]]. exists [y]. eauto.
    + intros (w & -> & -> & y & -> & E). cbn [app]. rewrite E, N.eqb_refl. now left.
Qed.

Definition numeric (x : fdir) : bool := match x with Ff | FC _ => false | _ => true end.
Definition wchar (c : N) : Prop := digit c \/ c = 32%N.
Lemma short_chars w v : short w v -> Forall wchar w.
Proof. intros []; repeat (constructor; [now left|]); constructor. Qed.
Lemma dword_chars x w v : numeric x = true -> dword x w v -> Forall wchar w.
Proof.
  destruct x; try discriminate; intros _ H; cbn [dword] in H.
  - destruct H. repeat (constructor; [now left|]). constructor.
  - apply (short_chars _ _ (proj1 H)).
  - destruct H as [[s n H|c H] _]; [exact (short_chars _ _ H)|]. constructor; [now right|constructor; [now left|constructor]].
  - apply (short_chars _ _ (proj1 H)).
  - apply (short_chars _ _ (proj1 H)).
  - apply (short_chars _ _ (proj1 H)).
Qed.
Lemma short_fun w v v' : short w v -> short w v' -> v = v'.
Proof. intros [c Hc|c d Hc Hd] H; inversion H; reflexivity. Qed.
Lemma dword_fun x w v v' : dword x w v -> dword x w v' -> v = v'.
Proof.
  destruct x; cbn [dword].
  - intros [a b c d A B C D] H. now inversion H.
  - intros [H _] [H' _]. exact (short_fun _ _ _ H H').
  - intros [[s n H|c H] _] [H' _]; inversion H' as [? ? K|? K]; subst; [exact (short_fun _ _ _ H K)| | |reflexivity];
      [inversion H; subst; unfold digit in *; lia|inversion K; subst; unfold digit in *; lia].
  - intros [H _] [H' _]. exact (short_fun _ _ _ H H').
  - intros [H _] [H' _]. exact (short_fun _ _ _ H H').
  - intros [H _] [H' _]. exact (short_fun _ _ _ H H').
  - intros [s Hs L] H. now inversion H.
  - intros [-> _] [-> _]. reflexivity.
Qed.
Definition separates (c : N) : Prop := forall x, lower x = lower c -> ~ wchar x.
Lemma first_sep c w w' y y' r r' : separates c -> Forall wchar w -> Forall wchar w' -> lower y = lower c -> lower y' = lower c ->
  w ++ y :: r = w' ++ y' :: r' -> w = w' /\ y = y' /\ r = r'.
Proof.
  intros Hs Hw. revert w'. induction Hw as [|a w Ha Hw IH]; intros w' Hw' Hy Hy' E.
  - destruct w' as [|b w']; [injection E as -> ->; auto|]. cbn in E. injection E as -> ->. inversion_clear Hw'. now destruct (Hs b Hy).
  - destruct w' as [|b w']; cbn in E; injection E as -> E; [now destruct (Hs y' Hy')|]. inversion_clear Hw'. destruct (IH w') as (-> & -> & ->); auto.
Qed.
Lemma hd_flat {A B} (g : A -> list B) l b : hd_error (flat_map g l) = Some b -> exists y, In y l /\ hd_error (g y) = Some b.
Proof.
  induction l as [|a l IH]; [discriminate|]. cbn [flat_map]. destruct (g a) as [|z zs] eqn:G.
  - intros H. destruct (IH H) as (y & Hy & E). exists y. split; [now right|exact E].
  - intros H. exists a. split; [now left|]. rewrite G. exact H.
Qed.
Lemma hd_flat_uniq {A B} (g : A -> list B) l y b : In y l -> hd_error (g y) = Some b -> (forall z, In z l -> g z <> [] -> z = y) -> hd_error (flat_map g l) = Some b.
Proof.
  intros Hy Hb Hu. induction l as [|a l IH]; [destruct Hy|]. cbn [flat_map]. destruct (g a) as [|z zs] eqn:G.
  - apply IH; [|intros z Hz; apply Hu; now right]. destruct Hy as [->|Hy]; [rewrite G in Hb; discriminate|exact Hy].
  - assert (a = y) as -> by (apply Hu; [now left|rewrite G; discriminate]). rewrite G in Hb. exact Hb.
Qed.

Lemma sep_step x c f dt s R : numeric x = true -> separates c ->
  (hd_error (fmatch (x :: FC c :: f) dt s) = Some R <->
   exists w v c' r, s = w ++ c' :: r /\ lower c' = lower c /\ dword x w v /\ hd_error (fmatch f (put x v dt) r) = Some R).
Proof.
  intros Hx Hc. set (g := fun y => fmatch (FC c :: f) (put x (fst y) dt) (snd y)).
  change (fmatch (x :: FC c :: f) dt s) with (flat_map g (dmatch x s)).
  assert (G : forall v c' r, lower c' = lower c -> g (v, c' :: r) = fmatch f (put x v dt) r).
  { intros v c' r E. unfold g. cbn [fmatch dmatch fst snd]. rewrite E, N.eqb_refl. cbn [flat_map fst snd]. destruct (put x v dt) as [d t]. now rewrite app_nil_r. }
  assert (G' : forall z, g z <> [] -> exists c' r, snd z = c' :: r /\ lower c' = lower c).
  { intros [v r] H. unfold g in H. cbn [fmatch dmatch fst snd] in H. destruct r as [|c' r]; [now destruct H|]. destruct (N.eqb_spec (lower c) (lower c')); [exists c', r; split; [reflexivity|congruence]|now destruct H]. }
  split.
  - intros H. apply hd_flat in H as ([v r] & Hin & H). apply dmatch_iff in Hin as (w & -> & Hw). destruct (G' (v, r)) as (c' & r' & E & El); [intros K; rewrite K in H; discriminate|].
    cbn [snd] in E. subst r. exists w, v, c', r'. rewrite <- (G v c' r' El). auto.
  - intros (w & v & c' & r & -> & El & Hw & H). apply (hd_flat_uniq g _ (v, c' :: r)).
    + apply dmatch_iff. eauto.
    + rewrite (G _ _ _ El). exact H.
    + intros [v2 r2] Hin Hn. destruct (G' _ Hn) as (c2 & r3 & E & El2). cbn [snd] in E. subst r2. apply dmatch_iff in Hin as (w2 & E2 & Hw2).
      destruct (first_sep c _ _ _ _ _ _ Hc (dword_chars _ _ _ Hx Hw) (dword_chars _ _ _ Hx Hw2) El El2 E2) as (-> & -> & ->).
      now rewrite (dword_fun _ _ _ _ Hw Hw2).
Qed.

Lemma digit_cases c : digit c -> In c [48; 49; 50; 51; 52; 53; 54; 55; 56; 57]%N.
Proof.
  unfold digit. intros H. assert (E : (c = 48 \/ c = 49 \/ c = 50 \/ c = 51 \/ c = 52 \/ c = 53 \/ c = 54 \/ c = 55 \/ c = 56 \/ c = 57)%N) by lia.
  cbn. intuition.
Qed.
Ltac digit_tac H := apply digit_cases in H; cbn [In] in H; repeat (destruct H as [<-|H]); [..|destruct H].
Lemma digs_longest k : forall acc s, Forall digit s -> 1 <= length s <= k -> hd_error (digs k acc s) = Some (horner acc (dvals s), k - length s, []).
Proof.
  induction k as [|k IH]; intros acc s Hs L; [lia|]. destruct Hs as [|c s Hc Hs]; [cbn in L; lia|]. cbn [digs dig]. rewrite (proj2 (digit_ok c) Hc : in_range (48 + 0) (48 + 9) c = true).
  cbn [flat_map fst snd]. rewrite app_nil_r. destruct s as [|d s].
  - destruct k; cbn [digs dig flat_map app hd_error length dvals map horner]; repeat f_equal; lia.
  - specialize (IH (10 * acc + (c - 48))%N (d :: s) Hs ltac:(cbn [length] in *; lia)). destruct (digs k _ (d :: s)) as [|y l]; [discriminate|]. cbn [app hd_error] in *. rewrite IH. reflexivity.
Qed.
Lemma last_step x dt s dt' : x = Fd \/ x = FS \/ x = Ff ->
  (hd_error (fmatch [x] dt s) = Some (dt', []) <-> exists v, dword x s v /\ dt' = put x v dt).
Proof.
  intros Hx. assert (E : fmatch [x] dt s = map (fun y => (put x (fst y) dt, snd y)) (dmatch x s)).
  { cbn [fmatch]. induction (dmatch x s) as [|y l IH]; [reflexivity|]. cbn [flat_map map app]. now rewrite IH. }
  rewrite E. split.
  - destruct (dmatch x s) as [|[v r] l] eqn:D; [discriminate|]. cbn [map hd_error fst snd]. intros H.
    assert (r = []) as -> by congruence. assert (Q : In (v, []) (dmatch x s)) by (rewrite D; now left). apply dmatch_iff in Q as (w & -> & Hw). rewrite app_nil_r. exists v. split; [exact Hw|congruence].
  - intros (v & Hw & ->). enough (Q : hd_error (dmatch x s) = Some (v, [])) by (destruct (dmatch x s); [discriminate|]; injection Q as ->; reflexivity).
    destruct Hx as [->|[->| ->]]; cbn [dword] in Hw.
    + destruct Hw as [[w n [c Hc|c d Hc Hd]|c Hc] Hv].
      * digit_tac Hc; try reflexivity; exfalso; lia.
      * digit_tac Hc; digit_tac Hd; try reflexivity; exfalso; lia.
      * digit_tac Hc; try reflexivity; exfalso; lia.
    + destruct Hw as [[c Hc|c d Hc Hd] Hv].
      * digit_tac Hc; try reflexivity; exfalso; lia.
      * digit_tac Hc; digit_tac Hd; try reflexivity; exfalso; lia.
    + destruct Hw as [w Hw L]. cbn [dmatch]. pose proof (digs_longest 6 0 w Hw L) as Q. destruct (digs 6 0 w) as [|y l]; [discriminate|]. cbn [map hd_error] in *. injection Q as ->.
      rewrite value_dec. reflexivity.
Qed.

(** ** whole formats *)
Definition dt0 : date * time := (mkDate 1900 1 1, mkTime 0 0 0 0).
Lemma strptime_iff f s d t : strptime f s = Ret (d, t) <-> hd_error (fmatch f dt0 s) = Some ((d, t), []) /\ real_date d /\ real_time t.
Proof.
  unfold strptime. fold dt0. rewrite <- Props_Mappers.date_spec, <- Props_Mappers.time_spec. destruct (fmatch f dt0 s) as [|[[d1 t1] [|c r]] l]; cbn [hd_error].
  - split; [discriminate|intros [? _]; discriminate].
  - destruct (date_ok d1 && time_ok t1)%bool eqn:O.
    + apply andb_prop in O. split; [intros [= <- <-]; now repeat split|intros ([= -> ->] & _); reflexivity].
    + apply andb_false_iff in O. split; [discriminate|]. intros ([= -> ->] & A & B). destruct O; congruence.
  - split; [discriminate|]. intros ([= -> ->] & _).
Qed.
Lemma strptime_other f s : (exists d t, strptime f s = Ret (d, t)) \/ strptime f s = Exc XValue.
Proof. unfold strptime. destruct (fmatch _ _ _) as [|[[d1 t1] [|c r]] l]; auto. destruct (_ && _)%bool; eauto. Qed.

Lemma lower_cases x y : lower x = lower y -> x = y \/ x = (y + 32)%N \/ y = (x + 32)%N.
Proof. unfold lower, in_range. repeat match goal with |- context [N.leb ?a ?b] => destruct (N.leb_spec a b) end; cbn [andb]; lia. Qed.
Lemma sep45 : separates 45. Proof. intros x H [D|D]; unfold digit in *; apply lower_cases in H; unfold lower, in_range in *; lia. Qed.
Lemma lower_dash x : lower x = lower 45 <-> x = 45%N.
Proof. split; [|intros ->; reflexivity]. unfold lower, in_range. repeat match goal with |- context [N.leb ?a ?b] => destruct (N.leb_spec a b) end; cbn [andb]; lia. Qed.
Lemma lower_colon x : lower x = lower 58 <-> x = 58%N.
Proof. split; [|intros ->; reflexivity]. unfold lower, in_range. repeat match goal with |- context [N.leb ?a ?b] => destruct (N.leb_spec a b) end; cbn [andb]; lia. Qed.
Lemma lower_dot x : lower x = lower 46 <-> x = 46%N.
Proof. split; [|intros ->; reflexivity]. unfold lower, in_range. repeat match goal with |- context [N.leb ?a ?b] => destruct (N.leb_spec a b) end; cbn [andb]; lia. Qed.
Lemma lower_T x : lower x = lower 84 <-> x = 84%N \/ x = 116%N.
Proof. split; [|intros [->| ->]; reflexivity]. unfold lower, in_range. repeat match goal with |- context [N.leb ?a ?b] => destruct (N.leb_spec a b) end; cbn [andb]; lia. Qed.
Lemma sep58 : separates 58. Proof. intros x H. apply lower_colon in H as ->. intros [D|D]; unfold digit in *; lia. Qed.
Lemma sep46 : separates 46. Proof. intros x H. apply lower_dot in H as ->. intros [D|D]; unfold digit in *; lia. Qed.
Lemma sep84 : separates 84. Proof. intros x H. apply lower_T in H as [->| ->]; intros [D|D]; unfold digit in *; lia. Qed.

Lemma real_date_bounds d : real_date d -> (1 <= mo d <= 12 /\ 1 <= dy d <= 31)%N.
Proof. intros H. apply Props_Mappers.date_spec in H. unfold date_ok, month_days in H. rewrite !andb_true_iff, !N.leb_le in H.
  split; [lia|]. destruct H as (((((_ & _) & _) & _) & H1) & H2). split; [exact H1|]. destruct (N.eqb _ _); [destruct (leap _); lia|destruct (_ || _)%bool; lia].
Qed.

Theorem iso_date_exact s d t : strptime iso_date s = Ret (d, t) <-> t = mkTime 0 0 0 0 /\ date_text s (yr d) (mo d) (dy d) /\ real_date d.
Proof.
  rewrite strptime_iff. unfold iso_date. rewrite sep_step by (reflexivity || exact sep45). split.
  - intros ((ys & y & c1 & r & -> & C1 & Y & H) & Hd & _). apply lower_dash in C1 as ->. rewrite sep_step in H by (reflexivity || exact sep45).
    destruct H as (ms & m & c2 & ds & -> & C2 & Mo & H). apply lower_dash in C2 as ->. apply last_step in H; [|now left]. destruct H as (dd & D & E).
    cbn in E. injection E as -> ->. split; [reflexivity|]. split; [|exact Hd]. exists ys, ms, ds. cbn. repeat split; [exact Y|exact (proj1 Mo)|exact (proj1 D)].
  - intros (-> & (ys & ms & ds & -> & Y & Mo & D) & Hd). split; [|split; [exact Hd|unfold real_time; cbn; lia]]. destruct (real_date_bounds _ Hd) as [B1 B2].
    exists ys, (yr d), 45%N, (ms ++ 45%N :: ds). split; [reflexivity|]. split; [reflexivity|]. split; [exact Y|]. rewrite sep_step by (reflexivity || exact sep45).
    exists ms, (mo d), 45%N, ds. split; [reflexivity|]. split; [reflexivity|]. split; [now split|]. apply last_step; [now left|]. exists (dy d). split; [now split|]. now destruct d.
Qed.

(** the texts of iso_dt and iso_dt_us *)
Definition plain_text (s : str) (d : date) (t : time) : Prop := exists ds c hs ms ss,
  s = ds ++ c :: hs ++ 58%N :: ms ++ 58%N :: ss /\ date_text ds (yr d) (mo d) (dy d) /\ (c = 84%N \/ c = 116%N) /\ short hs (hh t) /\ short ms (mi t) /\ short ss (Mappers.ss t).
Definition frac_text (s : str) (d : date) (t : time) : Prop := exists s0 f, s = s0 ++ 46%N :: f /\ plain_text s0 d t /\ fraction_text f (us t).

Lemma date_steps f s R : hd_error (fmatch (iso_date ++ FC 84 :: f) dt0 s) = Some R <->
  exists ds c r y m dd, s = ds ++ c :: r /\ date_text ds y m dd /\ (1 <= m <= 12)%N /\ (1 <= dd <= 31)%N /\ (c = 84%N \/ c = 116%N) /\
    hd_error (fmatch f (mkDate y m dd, mkTime 0 0 0 0) r) = Some R.
Proof.
  cbn [iso_date app]. rewrite sep_step by (reflexivity || exact sep45). split.
  - intros (ys & y & c1 & r & -> & C1 & Y & H). apply lower_dash in C1 as ->. rewrite sep_step in H by (reflexivity || exact sep45).
    destruct H as (ms & m & c2 & r2 & -> & C2 & Mo & H). apply lower_dash in C2 as ->. rewrite sep_step in H by (reflexivity || exact sep84).
    destruct H as (ds & dd & c3 & r3 & -> & C3 & D & H). apply lower_T in C3. cbn [put dt0 mo dy yr] in H. destruct Mo as [Mo B1]. destruct D as [D B2].
    exists (ys ++ 45%N :: ms ++ 45%N :: ds), c3, r3, y, m, dd. split; [rewrite <- !app_assoc; cbn [app]; now rewrite <- !app_assoc|].
    split; [exists ys, ms, ds; now repeat split|]. repeat split; auto; lia.
  - intros (w & c & r & y & m & dd & -> & (ys & ms & ds & -> & Y & Mo & D) & B1 & B2 & C & H).
    exists ys, y, 45%N, (ms ++ 45%N :: ds ++ c :: r). split; [rewrite <- !app_assoc; cbn [app]; now rewrite <- !app_assoc|]. split; [reflexivity|]. split; [exact Y|].
    rewrite sep_step by (reflexivity || exact sep45). exists ms, m, 45%N, (ds ++ c :: r). split; [reflexivity|]. split; [reflexivity|]. split; [now split|].
    rewrite sep_step by (reflexivity || exact sep84). exists ds, dd, c, r. split; [reflexivity|]. split; [now apply lower_T|]. split; [now split|]. exact H.
Qed.
Theorem iso_dt_exact s d t : strptime iso_dt s = Ret (d, t) <-> us t = 0%N /\ plain_text s d t /\ real_date d /\ real_time t.
Proof.
  rewrite strptime_iff. unfold iso_dt. rewrite (date_steps [FH; FC 58; FM; FC 58; FS]). split.
  - intros ((ds & c & r & y & m & dd & -> & D & _ & _ & C & H) & Hd & Ht). rewrite sep_step in H by (reflexivity || exact sep58).
    destruct H as (hs & h & c1 & r1 & -> & C1 & [Hh _] & H). apply lower_colon in C1 as ->. rewrite sep_step in H by (reflexivity || exact sep58).
    destruct H as (ms & mm & c2 & ss & -> & C2 & [Hm _] & H). apply lower_colon in C2 as ->. apply last_step in H; [|auto]. destruct H as (sc & [Hs _] & E).
    cbn in E. injection E as -> ->. split; [reflexivity|]. split; [|now split]. exists ds, c, hs, ms, ss. cbn [yr mo dy hh mi Mappers.ss]. now repeat split.
  - intros (U & (ds & c & hs & ms & ss & -> & D & C & Hh & Hm & Hs) & Hd & Ht). split; [|now split]. destruct (real_date_bounds _ Hd) as [B1 B2]. destruct Ht as (T1 & T2 & T3 & T4).
    exists ds, c, (hs ++ 58%N :: ms ++ 58%N :: ss), (yr d), (mo d), (dy d). split; [reflexivity|]. split; [exact D|]. split; [exact B1|]. split; [exact B2|]. split; [exact C|].
    rewrite sep_step by (reflexivity || exact sep58). exists hs, (hh t), 58%N, (ms ++ 58%N :: ss). split; [reflexivity|]. split; [reflexivity|]. split; [split; [exact Hh|exact T1]|].
    rewrite sep_step by (reflexivity || exact sep58). exists ms, (mi t), 58%N, ss. split; [reflexivity|]. split; [reflexivity|]. split; [split; [exact Hm|exact T2]|].
    apply last_step; [auto|]. exists (Mappers.ss t). split; [split; [exact Hs|lia]|]. destruct d, t. cbn in *. now subst.
Qed.
Theorem iso_dt_us_exact s d t : strptime iso_dt_us s = Ret (d, t) <-> frac_text s d t /\ real_date d /\ real_time t.
Proof.
  rewrite strptime_iff. unfold iso_dt_us, iso_dt. rewrite <- app_assoc. cbn [app]. change (iso_date ++ [FC 84; FH; FC 58; FM; FC 58; FS; FC 46; Ff]) with (iso_date ++ FC 84 :: [FH; FC 58; FM; FC 58; FS; FC 46; Ff]).
  rewrite (date_steps [FH; FC 58; FM; FC 58; FS; FC 46; Ff]). split.
  - intros ((ds & c & r & y & m & dd & -> & D & _ & _ & C & H) & Hd & Ht). rewrite sep_step in H by (reflexivity || exact sep58).
    destruct H as (hs & h & c1 & r1 & -> & C1 & [Hh _] & H). apply lower_colon in C1 as ->. rewrite sep_step in H by (reflexivity || exact sep58).
    destruct H as (ms & mm & c2 & r2 & -> & C2 & [Hm _] & H). apply lower_colon in C2 as ->. rewrite sep_step in H by (reflexivity || exact sep46).
    destruct H as (ss & sc & c3 & f & -> & C3 & [Hs _] & H). apply lower_dot in C3 as ->. apply last_step in H; [|auto]. destruct H as (u0 & Hf & E).
    cbn in E. injection E as -> ->. split; [|now split]. exists (ds ++ c :: hs ++ 58%N :: ms ++ 58%N :: ss), f. cbn [us].
    split; [rewrite <- !app_assoc; cbn [app]; rewrite <- !app_assoc; cbn [app]; now rewrite <- !app_assoc|]. split; [|exact Hf]. exists ds, c, hs, ms, ss. now repeat split.
  - intros ((s0 & f & -> & (ds & c & hs & ms & ss & -> & D & C & Hh & Hm & Hs) & Hf) & Hd & Ht). split; [|now split]. destruct (real_date_bounds _ Hd) as [B1 B2]. destruct Ht as (T1 & T2 & T3 & T4).
    exists ds, c, (hs ++ 58%N :: ms ++ 58%N :: ss ++ 46%N :: f), (yr d), (mo d), (dy d).
    split; [rewrite <- !app_assoc; cbn [app]; rewrite <- !app_assoc; cbn [app]; now rewrite <- !app_assoc|]. split; [exact D|]. split; [exact B1|]. split; [exact B2|]. split; [exact C|].
    rewrite sep_step by (reflexivity || exact sep58). exists hs, (hh t), 58%N, (ms ++ 58%N :: ss ++ 46%N :: f). split; [reflexivity|]. split; [reflexivity|]. split; [split; [exact Hh|exact T1]|].
    rewrite sep_step by (reflexivity || exact sep58). exists ms, (mi t), 58%N, (ss ++ 46%N :: f). split; [reflexivity|]. split; [reflexivity|]. split; [split; [exact Hm|exact T2]|].
    rewrite sep_step by (reflexivity || exact sep46). exists ss, (Mappers.ss t), 46%N, f. split; [reflexivity|]. split; [reflexivity|]. split; [split; [exact Hs|lia]|].
    apply last_step; [auto|]. exists (us t). split; [exact Hf|]. now destruct d, t.
Qed.

(** ** the default format with a zone *)
Definition core_text (s : str) (d : date) (t : time) : Prop := exists ds c ts,
  s = ds ++ c :: ts /\ date_text ds (yr d) (mo d) (dy d) /\ (c = 84%N \/ c = 116%N) /\ time_text ts (hh t) (mi t) (Mappers.ss t) (us t).
Lemma core_cases s d t : core_text s d t <-> us t = 0%N /\ plain_text s d t \/ frac_text s d t.
Proof.
  split.
  - intros (ds & c & ts & -> & D & C & hs & ms & ss & fs & -> & H1 & H2 & H3 & [[-> U]|(f & -> & F)]).
    + left. split; [exact U|]. exists ds, c, hs, ms, ss. rewrite app_nil_r. now repeat split.
    + right. exists (ds ++ c :: hs ++ 58%N :: ms ++ 58%N :: ss), f. split; [rewrite <- !app_assoc; cbn [app]; rewrite <- !app_assoc; cbn [app]; now rewrite <- !app_assoc|].
      split; [|exact F]. exists ds, c, hs, ms, ss. now repeat split.
  - intros [(U & ds & c & hs & ms & ss & -> & D & C & H1 & H2 & H3)|(s0 & f & -> & (ds & c & hs & ms & ss & -> & D & C & H1 & H2 & H3) & F)].
    + exists ds, c, (hs ++ 58%N :: ms ++ 58%N :: ss). split; [reflexivity|]. split; [exact D|]. split; [exact C|]. exists hs, ms, ss, []. rewrite app_nil_r. repeat split; auto.
    + exists ds, c, (hs ++ 58%N :: ms ++ 58%N :: ss ++ 46%N :: f). split; [rewrite <- !app_assoc; cbn [app]; rewrite <- !app_assoc; cbn [app]; now rewrite <- !app_assoc|]. split; [exact D|]. split; [exact C|].
      exists hs, ms, ss, (46%N :: f). repeat split; auto. right. eauto.
Qed.
Lemma short_no x w v : short w v -> ~ digit x -> ~ In x w.
Proof. intros H K. pose proof (short_chars _ _ H) as F. destruct H as [c Hc|c d Hc Hd]; intros I; cbn [In] in I; repeat destruct I as [->|I]; auto. Qed.
Lemma date_no_dot ds y m d : date_text ds y m d -> ~ In 46%N ds.
Proof.
  intros (ys & ms & dd & -> & Y & M & D) I. assert (N46 : ~ digit 46) by (unfold digit; lia).
  apply in_app_or in I as [I|[I|I]]; [destruct Y as [a b c e A B C E]; cbn [In] in I; repeat destruct I as [I|I]; subst; auto|discriminate|].
  apply in_app_or in I as [I|[I|I]]; [exact (short_no _ _ _ M N46 I)|discriminate|]. destruct D as [s n D|c D]; [exact (short_no _ _ _ D N46 I)|]. cbn [In] in I. destruct I as [I|[I|I]]; [discriminate|subst; auto|exact I].
Qed.
Lemma plain_no_dot s d t : plain_text s d t -> ~ In 46%N s.
Proof.
  intros (ds & c & hs & ms & ss & -> & D & C & H1 & H2 & H3) I. assert (N46 : ~ digit 46) by (unfold digit; lia).
  apply in_app_or in I as [I|[I|I]]; [exact (date_no_dot _ _ _ _ D I)|destruct C; lia|].
  apply in_app_or in I as [I|[I|I]]; [exact (short_no _ _ _ H1 N46 I)|discriminate|].
  apply in_app_or in I as [I|[I|I]]; [exact (short_no _ _ _ H2 N46 I)|discriminate|exact (short_no _ _ _ H3 N46 I)].
Qed.
Theorem parse_exact s d t : parse_dt None s = Ret (d, t) <-> core_text s d t /\ real_date d /\ real_time t.
Proof.
  rewrite core_cases. cbn [parse_dt]. split.
  - destruct (strptime_other iso_dt s) as [(d1 & t1 & H)|H]; rewrite H.
    + intros [= -> ->]. apply iso_dt_exact in H as (U & P & Hd & Ht). split; [left|]; auto.
    + intros K. apply iso_dt_us_exact in K as (P & Hd & Ht). auto.
  - intros ([(U & P)|F] & Hd & Ht).
    + rewrite (proj2 (iso_dt_exact s d t)); auto.
    + destruct (strptime_other iso_dt s) as [(d1 & t1 & H)|H].
      * apply iso_dt_exact in H as (_ & P & _). destruct F as (s0 & f & -> & _). exfalso. apply (plain_no_dot _ _ _ P). apply in_or_app. right. now left.
      * rewrite H. now apply iso_dt_us_exact.
Qed.
Lemma parse_other s : (exists d t, parse_dt None s = Ret (d, t)) \/ parse_dt None s = Exc XValue.
Proof. cbn [parse_dt]. destruct (strptime_other iso_dt s) as [(d & t & ->)| ->]; [eauto|apply strptime_other]. Qed.
Lemma strip_tz_sound s r : strip_tz s = Ret r -> exists z, zone z /\ s = r ++ z.
Proof.
  unfold strip_tz. set (s1 := match rev s with c :: r => if N.eqb c 90 then rev r else s | [] => s end).
  assert (Q : s = s1 /\ (forall l, rev s <> 90%N :: l) \/ s = s1 ++ [90%N]).
  { subst s1. destruct (rev s) as [|c l] eqn:R; [left; split; [reflexivity|discriminate]|]. destruct (N.eqb_spec c 90) as [->|Hc]; [right|left; split; [reflexivity|congruence]]. now rewrite <- (rev_involutive s), R. }
  clearbody s1. destruct (rev s1) as [|a [|b [|c [|d [|e [|p l]]]]]] eqn:R; try discriminate. cbn [nth_error skipn].
  assert (E : s1 = rev l ++ [p; e; d; c; b; a]) by (rewrite <- (rev_involutive s1), R; cbn [rev]; rewrite <- !app_assoc; reflexivity).
  destruct (_ || _)%bool eqn:P; intros [= <-].
  - apply orb_prop in P. rewrite !N.eqb_eq in P. destruct Q as [[-> Hl]| ->].
    + exists [p; e; d; c; b; a]. split; [constructor; [exact P|intros ->; exact (Hl _ R)]|exact E].
    + exists [p; e; d; c; b; a; 90%N]. split; [now constructor|]. rewrite E, <- app_assoc. reflexivity.
  - destruct Q as [[-> _]| ->]; [exists []; split; [constructor|now rewrite app_nil_r]|exists [90%N]; split; [constructor|reflexivity]].
Qed.
Lemma strip_core ds w z : 6 <= length w -> Forall (fun x => x <> 90 /\ x <> 43 /\ x <> 45)%N w -> zone z -> strip_tz ((ds ++ w) ++ z) = Ret (ds ++ w).
Proof.
  intros L F Hz. apply Forall_rev in F. assert (L' : 6 <= length (rev w)) by now rewrite rev_length.
  assert (R : rev (ds ++ w) = rev w ++ rev ds) by apply rev_app_distr.
  destruct (rev w) as [|a [|b [|c [|d [|e [|p l]]]]]]; try (cbn in L'; lia). clear L'.
  pose proof (Forall_inv F) as Ha. do 5 apply Forall_inv_tail in F. apply Forall_inv in F as Hp. cbv beta in Ha, Hp. cbn [app] in R.
  assert (P0 : forall s, rev s = a :: b :: c :: d :: e :: p :: l ++ rev ds -> strip_tz s = Ret s).
  { intros s E. unfold strip_tz. rewrite E. destruct (N.eqb_spec a 90); [lia|]. rewrite E. cbn [nth_error]. destruct (N.eqb_spec p 43); [lia|]. destruct (N.eqb_spec p 45); [lia|]. reflexivity. }
  assert (P6 : forall q x1 x2 x3 x4 x5, q = 43%N \/ q = 45%N -> x5 <> 90%N -> strip_tz ((ds ++ w) ++ [q; x1; x2; x3; x4; x5]) = Ret (ds ++ w)).
  { intros q x1 x2 x3 x4 x5 Hq Hx. unfold strip_tz. assert (E : rev ((ds ++ w) ++ [q; x1; x2; x3; x4; x5]) = x5 :: x4 :: x3 :: x2 :: x1 :: q :: rev (ds ++ w)) by now rewrite rev_app_distr.
    rewrite E. destruct (N.eqb_spec x5 90); [lia|]. rewrite E. cbn [nth_error skipn]. rewrite rev_involutive. destruct Hq as [->| ->]; reflexivity. }
  destruct Hz as [| |q x1 x2 x3 x4 x5 Hq Hx|q x1 x2 x3 x4 x5 Hq].
  - rewrite app_nil_r. now apply P0.
  - unfold strip_tz. assert (E : rev ((ds ++ w) ++ [90%N]) = 90%N :: rev (ds ++ w)) by now rewrite rev_app_distr. rewrite E. change (N.eqb 90 90) with true. cbv iota.
    rewrite rev_involutive, R. cbn [nth_error]. destruct (N.eqb_spec p 43); [lia|]. destruct (N.eqb_spec p 45); [lia|]. cbn [orb]. rewrite <- R. now rewrite rev_involutive.
  - now apply P6.
  - unfold strip_tz. assert (E : rev ((ds ++ w) ++ [q; x1; x2; x3; x4; x5; 90%N]) = 90%N :: x5 :: x4 :: x3 :: x2 :: x1 :: q :: rev (ds ++ w)) by now rewrite rev_app_distr. rewrite E. change (N.eqb 90 90) with true. cbv iota.
    rewrite rev_involutive. cbn [nth_error skipn]. rewrite rev_involutive. destruct Hq as [->| ->]; reflexivity.
Qed.

Lemma time_shape ts h m sc us : time_text ts h m sc us -> 5 <= length ts /\ Forall (fun x => digit x \/ x = 58 \/ x = 46)%N ts.
Proof.
  assert (S1 : forall w v, short w v -> 1 <= length w /\ Forall (fun x => digit x \/ x = 58 \/ x = 46)%N w).
  { intros w v [c Hc|c d Hc Hd]; (split; [cbn; lia|]); repeat (constructor; [now left|]); constructor. }
  intros (hs & ms & ss & fs & -> & H1 & H2 & H3 & H4). apply S1 in H1 as [L1 F1]. apply S1 in H2 as [L2 F2]. apply S1 in H3 as [L3 F3].
  split; [rewrite app_length; cbn [length]; rewrite app_length; cbn [length]; rewrite app_length; lia|].
  apply Forall_app. split; [exact F1|]. constructor; [tauto|]. apply Forall_app. split; [exact F2|]. constructor; [tauto|]. apply Forall_app. split; [exact F3|].
  destruct H4 as [[-> _]|(f & -> & [f' Hf _])]; [constructor|]. constructor; [tauto|]. eapply Forall_impl; [|exact Hf]. intros c Hc. now left.
Qed.
Theorem datetime_exact s d t :
  match strip_tz s with Ret s => parse_dt None s | Exc x => Exc x end = Ret (d, t) <->
  datetime_text s (yr d) (mo d) (dy d) (hh t) (mi t) (Mappers.ss t) (us t) /\ real_date d /\ real_time t.
Proof.
  split.
  - destruct (strip_tz s) as [r|] eqn:Z0; [|discriminate]. apply strip_tz_sound in Z0 as (z & Hz & ->). intros H.
    apply parse_exact in H as ((ds & c & ts & -> & D & C & T) & Hd & Ht). split; [|now split]. exists ds, c, ts, z. now repeat split.
  - intros ((ds & c & ts & z & -> & D & C & T & Hz) & Hd & Ht). destruct (time_shape _ _ _ _ _ T) as [L F]. rewrite strip_core; auto.
    + apply parse_exact. split; [|now split]. exists ds, c, ts. now repeat split.
    + cbn [length]. lia.
    + constructor; [destruct C as [->| ->]; lia|]. eapply Forall_impl; [|exact F]. intros x Hx. unfold digit in Hx. cbn in Hx. lia.
Qed.
(** otherwise ValueError, or IndexError when fewer than six characters are left without the Z *)
Lemma datetime_other s : let r := match strip_tz s with Ret s => parse_dt None s | Exc x => Exc x end in
  (exists d t, r = Ret (d, t)) \/ r = Exc XValue \/ r = Exc XIndex.
Proof. cbv zeta. unfold strip_tz. destruct (nth_error _ _); [|auto]. destruct (_ || _)%bool; match goal with |- context [parse_dt None ?x] => destruct (parse_other x) as [H|H] end; auto. Qed.
Lemma datetime_index s : match strip_tz s with Ret s => parse_dt None s | Exc x => Exc x end = Exc XIndex <->
  (exists r, s = r ++ [90%N] /\ length r < 6) \/ (length s < 6 /\ forall r, s <> r ++ [90%N]).
Proof.
  unfold strip_tz. set (s1 := match rev s with c :: r => if N.eqb c 90 then rev r else s | [] => s end).
  assert (Q : s = s1 /\ (forall r, s <> r ++ [90%N]) \/ s = s1 ++ [90%N]).
  { subst s1. destruct (rev s) as [|c l] eqn:R.
    - left. split; [reflexivity|]. intros r ->. rewrite rev_app_distr in R. discriminate.
    - destruct (N.eqb_spec c 90) as [->|Hc]; [right; now rewrite <- (rev_involutive s), R|left; split; [reflexivity|]].
      intros r ->. rewrite rev_app_distr in R. cbn in R. congruence. }
  clearbody s1. assert (L : nth_error (rev s1) 5 = None <-> length s1 < 6) by (rewrite nth_error_None, rev_length; lia). split.
  - intros H. assert (length s1 < 6).
    { apply L. destruct (nth_error _ _); [|reflexivity]. destruct (_ || _)%bool; match type of H with context [parse_dt None ?x] => destruct (parse_other x) as [(a & b & K)|K] end; rewrite K in H; discriminate. }
    destruct Q as [[-> K]| ->]; [right; auto|left; eauto].
  - intros H. assert (length s1 < 6) as K.
    { destruct Q as [[-> K]| ->]; [destruct H as [(r & -> & _)|[H _]]; [now destruct (K r)|exact H]|].
      destruct H as [(r & E & H)|[_ H]]; [apply app_inj_tail in E as [-> _]; exact H|now destruct (H s1)]. }
    apply L in K. now rewrite K.
Qed.
