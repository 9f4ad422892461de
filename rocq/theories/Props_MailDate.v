(** C82: the date stored for a mail header.  [parse_mail_date p zone s] is cerp.parse_mail_date on header text [s], where
    [p] is email.utils.parsedate_tz and [zone] the machine's time zone. *)
From Coq Require Import String ZArith NArith List Bool Lia.
From Verif Require Import PyStr Mappers Fields MapperProofs Props_Mappers Cerp Props_Cerp MailDate.
Import ListNotations.
Open Scope Z_scope.

(** specification: counting the days of the Gregorian calendar, one by one, from 1 January 1970 *)
Inductive next_day : date -> date -> Prop :=
| next_in_month y m d n : month_length y m n -> (1 <= d < n)%N -> next_day (mkDate y m d) (mkDate y m (d + 1))
| next_month y m n : month_length y m n -> (m < 12)%N -> next_day (mkDate y m n) (mkDate y (m + 1) 1)
| next_year y : next_day (mkDate y 12 31) (mkDate (y + 1) 1 1).
Inductive day_number : date -> Z -> Prop :=
| day_zero : day_number (mkDate 1970 1 1) 0
| day_after d d' k : day_number d k -> next_day d d' -> day_number d' (k + 1)
| day_before d d' k : day_number d' k -> next_day d d' -> day_number d (k - 1).
(** [clock d t k]: date [d] and time [t] are [k] seconds after the beginning of 1970, on one and the same clock *)
Definition clock (d : date) (t : time) (k : Z) : Prop :=
  exists n, day_number d n /\ k = n * 86400 + Z.of_N (hh t) * 3600 + Z.of_N (mi t) * 60 + Z.of_N (ss t).
(** the header names the instant [k] seconds after the beginning of 1970 UTC *)
Definition instant_of (m : mail_time) (k : Z) : Prop :=
  exists d t, real_date d /\ real_time t /\ us t = 0%N /\ clock d t (k + mt_off m) /\
    m = mkMT (Z.of_N (yr d)) (Z.of_N (mo d)) (Z.of_N (dy d)) (Z.of_N (hh t)) (Z.of_N (mi t)) (Z.of_N (ss t)) (mt_off m).

(** ** calendar facts *)
Definition ordn (d : date) : Z := ordinal (Z.of_N (yr d)) (Z.of_N (mo d)) (Z.of_N (dy d)).
Definition real_day (d : date) : Prop := exists n, month_length (yr d) (mo d) n /\ (1 <= dy d <= n)%N.
Lemma zleap_spec y : zleap (Z.of_N y) = true <-> leap_year y.
Proof.
  unfold zleap, leap_year. rewrite andb_true_iff, orb_true_iff, negb_true_iff, !Z.eqb_eq, Z.eqb_neq.
  change 4 with (Z.of_N 4). change 100 with (Z.of_N 100). change 400 with (Z.of_N 400). rewrite <- !N2Z.inj_mod. lia.
Qed.
Lemma year_len y : before_year (y + 1) - before_year y = 365 + (if zleap y then 1 else 0).
Proof.
  unfold before_year, zleap. replace (y + 1 - 1) with y by lia.
  pose proof (Z.div_mod y 4 ltac:(lia)). pose proof (Z.div_mod y 100 ltac:(lia)). pose proof (Z.div_mod y 400 ltac:(lia)).
  pose proof (Z.div_mod (y-1) 4 ltac:(lia)). pose proof (Z.div_mod (y-1) 100 ltac:(lia)). pose proof (Z.div_mod (y-1) 400 ltac:(lia)).
  pose proof (Z.mod_pos_bound y 4 ltac:(lia)). pose proof (Z.mod_pos_bound y 100 ltac:(lia)). pose proof (Z.mod_pos_bound y 400 ltac:(lia)).
  pose proof (Z.mod_pos_bound (y-1) 4 ltac:(lia)). pose proof (Z.mod_pos_bound (y-1) 100 ltac:(lia)). pose proof (Z.mod_pos_bound (y-1) 400 ltac:(lia)).
  destruct (Z.eqb_spec (y mod 4) 0), (Z.eqb_spec (y mod 100) 0), (Z.eqb_spec (y mod 400) 0); cbn [negb andb orb]; lia.
Qed.
Lemma ml_range y m n : month_length y m n -> (1 <= m <= 12)%N.
Proof. intros [k M|k M|M|M]; try lia; cbn [In] in M; lia. Qed.
(** the length of a month is the distance to the next one *)
Lemma ml_before y m n : month_length y m n -> (m < 12)%N ->
  before_month (zleap (Z.of_N y)) (Z.of_N (m + 1)) = before_month (zleap (Z.of_N y)) (Z.of_N m) + Z.of_N n.
Proof.
  intros M L. destruct M as [m I|m I|Y|Y].
  - destruct (zleap (Z.of_N y)); cbn [In] in I; repeat (destruct I as [<-|I]; [first [reflexivity|lia]|]); destruct I.
  - destruct (zleap (Z.of_N y)); cbn [In] in I; repeat (destruct I as [<-|I]; [reflexivity|]); destruct I.
  - apply zleap_spec in Y. rewrite Y. reflexivity.
  - destruct (zleap (Z.of_N y)) eqn:Z; [now apply zleap_spec in Z|reflexivity].
Qed.
Lemma ml_fun y m n n' : month_length y m n -> month_length y m n' -> n = n'.
Proof. intros A B. pose proof (ml_range _ _ _ A) as R. apply (month_spec _ _ _ R) in A. apply (month_spec _ _ _ R) in B. congruence. Qed.
Lemma ml_ex y m : (1 <= m <= 12)%N -> exists n, month_length y m n /\ (28 <= n <= 31)%N.
Proof.
  intros R. exists (month_days y m). split; [now apply month_spec|]. unfold month_days. repeat match goal with |- context [if ?b then _ else _] => destruct b end; lia.
Qed.
Lemma ml_12 y n : month_length y 12 n -> n = 31%N.
Proof. intros M. apply month_spec in M; [|lia]. exact M. Qed.
Lemma ml_12' y : month_length y 12 31.
Proof. apply ml31. cbn. tauto. Qed.
Lemma bm_1 lp : before_month lp 1 = 0. Proof. reflexivity. Qed.
Lemma bm_12 lp : before_month lp 12 = 334 + (if lp then 1 else 0). Proof. now destruct lp. Qed.

Lemma next_ord d d' : next_day d d' -> ordn d' = ordn d + 1.
Proof.
  intros [y m k n M L|y m n M L|y]; unfold ordn, ordinal; cbn [yr mo dy].
  - lia.
  - rewrite (ml_before _ _ _ M L). lia.
  - rewrite N2Z.inj_add. pose proof (year_len (Z.of_N y)) as H. change (Z.of_N 1) with 1. change (Z.of_N 12) with 12. change (Z.of_N 31) with 31.
    rewrite bm_1, bm_12. destruct (zleap (Z.of_N y)); lia.
Qed.
Lemma next_real d d' : next_day d d' -> real_day d /\ real_day d'.
Proof.
  intros [y m k n M L|y m n M L|y]; unfold real_day; cbn [yr mo dy].
  - split; exists n; (split; [exact M|lia]).
  - destruct (ml_ex y (m + 1) ltac:(pose proof (ml_range _ _ _ M); lia)) as (n' & M' & B). destruct (ml_ex y m (ml_range _ _ _ M)) as (n2 & M2 & B2).
    pose proof (ml_fun _ _ _ _ M M2). split; [exists n|exists n']; (split; [assumption|lia]).
  - split; exists 31%N; (split; [apply ml31; cbn; tauto|lia]).
Qed.
Lemma ord_number d k : day_number d k -> ordn d = k + epoch.
Proof.
  induction 1 as [|d d' k D IH X|d d' k D IH X]; [reflexivity|apply next_ord in X; lia..].
Qed.
(** [ordinal] is injective on real days *)
Lemma bm_mono lp m m' : 1 <= m -> m < m' -> m' <= 12 -> before_month lp m + 28 <= before_month lp m'.
Proof.
  intros A B C. assert (H : forall k, (1 <= k <= 11)%N -> before_month lp (Z.of_N k) + 28 <= before_month lp (Z.of_N (k + 1))).
  { intros k K. assert (I : In k [1;2;3;4;5;6;7;8;9;10;11]%N) by (cbn; lia). cbn [In] in I. destruct lp; repeat (destruct I as [<-|I]; [vm_compute; discriminate|]); destruct I. }
  assert (G : forall j : nat, (m + Z.of_nat j <= 12) -> (1 <= j)%nat -> before_month lp m + 28 <= before_month lp (m + Z.of_nat j)).
  { induction j as [|j IH]; [lia|]. intros L _. destruct j as [|j].
    - specialize (H (Z.to_N m) ltac:(lia)). rewrite N2Z.inj_add, Z2N.id in H by lia. exact H.
    - specialize (IH ltac:(lia) ltac:(lia)). specialize (H (Z.to_N (m + Z.of_nat (S j))) ltac:(lia)). rewrite N2Z.inj_add, Z2N.id in H by lia.
      replace (m + Z.of_nat (S (S j))) with (m + Z.of_nat (S j) + Z.of_N 1) by lia. lia. }
  specialize (G (Z.to_nat (m' - m)) ltac:(lia) ltac:(lia)). replace (m + Z.of_nat (Z.to_nat (m' - m))) with m' in G by lia. exact G.
Qed.
Lemma real_bounds d : real_day d -> before_year (Z.of_N (yr d)) < ordn d <= before_year (Z.of_N (yr d) + 1).
Proof.
  intros (n & M & B). pose proof (ml_range _ _ _ M) as R. rewrite <- (Z.sub_add (before_year (Z.of_N (yr d))) (before_year (Z.of_N (yr d) + 1))), year_len.
  unfold ordn, ordinal. destruct (N.eq_dec (mo d) 12) as [E|E].
  - rewrite E in M |- *. apply ml_12 in M. change (Z.of_N 12) with 12. rewrite bm_12. destruct (zleap _); lia.
  - pose proof (ml_before _ _ _ M ltac:(lia)) as A. destruct (N.eq_dec (mo d) 11) as [E'|E'].
    + rewrite E' in A |- *. change (Z.of_N (11 + 1)) with 12 in A. rewrite bm_12 in A.
      pose proof (bm_mono (zleap (Z.of_N (yr d))) 1 (Z.of_N 11) ltac:(lia) ltac:(lia) ltac:(lia)) as C. rewrite bm_1 in C. destruct (zleap _); lia.
    + pose proof (bm_mono (zleap (Z.of_N (yr d))) (Z.of_N (mo d + 1)) 12 ltac:(lia) ltac:(lia) ltac:(lia)) as C. rewrite bm_12 in C.
      assert (0 <= before_month (zleap (Z.of_N (yr d))) (Z.of_N (mo d))).
      { destruct (N.eq_dec (mo d) 1) as [->|F]; [now rewrite bm_1|]. pose proof (bm_mono (zleap (Z.of_N (yr d))) 1 (Z.of_N (mo d)) ltac:(lia) ltac:(lia) ltac:(lia)) as X. rewrite bm_1 in X. lia. }
      destruct (zleap _); lia.
Qed.
Lemma by_mono y y' : y <= y' -> before_year y <= before_year y'.
Proof.
  intros L. replace y' with (y + Z.of_nat (Z.to_nat (y' - y))) by lia. induction (Z.to_nat (y' - y)) as [|j IH]; [now rewrite Z.add_0_r|].
  pose proof (year_len (y + Z.of_nat j)) as H. replace (y + Z.of_nat (S j)) with (y + Z.of_nat j + 1) by lia. destruct (zleap _); lia.
Qed.
Lemma ord_inj d d' : real_day d -> real_day d' -> ordn d = ordn d' -> d = d'.
Proof.
  intros R R' E. pose proof (real_bounds d R) as B. pose proof (real_bounds d' R') as B'.
  assert (Y : yr d = yr d').
  { destruct (N.lt_trichotomy (yr d) (yr d')) as [L|[L|L]]; [|exact L|].
    - pose proof (by_mono (Z.of_N (yr d) + 1) (Z.of_N (yr d')) ltac:(lia)). lia.
    - pose proof (by_mono (Z.of_N (yr d') + 1) (Z.of_N (yr d)) ltac:(lia)). lia. }
  destruct R as (n & M & K), R' as (n' & M' & K'). pose proof (ml_range _ _ _ M). pose proof (ml_range _ _ _ M'). destruct d as [y m k], d' as [y' m' k']. cbn [yr mo dy] in *. subst y'. unfold ordn, ordinal in E. cbn [yr mo dy] in E.
  assert (G : forall m m' n, month_length y m n -> (m < m' <= 12)%N -> before_month (zleap (Z.of_N y)) (Z.of_N m) + Z.of_N n <= before_month (zleap (Z.of_N y)) (Z.of_N m')).
  { clear. intros m m' n M L. rewrite <- (ml_before _ _ _ M) by lia. destruct (N.eq_dec (m + 1) m') as [->|F]; [reflexivity|].
    pose proof (ml_range _ _ _ M). pose proof (bm_mono (zleap (Z.of_N y)) (Z.of_N (m + 1)) (Z.of_N m') ltac:(lia) ltac:(lia) ltac:(lia)). lia. }
  destruct (N.lt_trichotomy m m') as [L|[<-|L]].
  - specialize (G m m' n M ltac:(lia)). lia.
  - f_equal. lia.
  - specialize (G m' m n' M' ltac:(lia)). lia.
Qed.
(** [ord2ymd] inverts [ordinal] *)
Definition month_ok (lp : bool) (n : Z) : bool :=
  let m := month_of lp n in let d := n - before_month lp m + 1 in
  (1 <=? m) && (m <=? 12) && (1 <=? d) && (d <=? (if m =? 2 then if lp then 29 else 28 else if (m =? 4) || (m =? 6) || (m =? 9) || (m =? 11) then 30 else 31)).
Lemma months_ok (lp : bool) n : 0 <= n -> n < 365 + (if lp then 1 else 0) -> month_ok lp n = true.
Proof.
  intros A B. assert (H : forallb (fun k => month_ok lp (Z.of_nat k)) (seq 0 (if lp then 366 else 365)) = true) by (destruct lp; vm_compute; reflexivity).
  rewrite forallb_forall in H. specialize (H (Z.to_nat n)). rewrite Z2Nat.id in H by lia. apply H. apply in_seq. destruct lp; lia.
Qed.
Lemma ord2ymd_spec n y m d : 1 <= n -> ord2ymd n = (y, m, d) ->
  1 <= y /\ 1 <= m <= 12 /\ 1 <= d <= 31 /\ real_day (mkDate (Z.to_N y) (Z.to_N m) (Z.to_N d)) /\ ordinal y m d = n.
Proof.
  intros P. unfold ord2ymd. remember (n - 1) as k. cbv zeta.
  remember (k / 146097) as a. remember (k mod 146097) as r. remember (r / 36524) as b. remember (r mod 36524) as s. remember (s / 1461) as c. remember (s mod 1461) as t.
  remember (t / 365) as e. remember (t mod 365) as w.
  pose proof (Z.div_mod k 146097 ltac:(lia)) as H1. pose proof (Z.mod_pos_bound k 146097 ltac:(lia)) as H2.
  pose proof (Z.div_mod r 36524 ltac:(lia)) as H3. pose proof (Z.mod_pos_bound r 36524 ltac:(lia)) as H4.
  pose proof (Z.div_mod s 1461 ltac:(lia)) as H5. pose proof (Z.mod_pos_bound s 1461 ltac:(lia)) as H6.
  pose proof (Z.div_mod t 365 ltac:(lia)) as H7. pose proof (Z.mod_pos_bound t 365 ltac:(lia)) as H8.
  rewrite <- Heqa, <- Heqr in *. rewrite <- Heqb, <- Heqs in *. rewrite <- Heqc, <- Heqt in *. rewrite <- Heqe, <- Heqw in *. clear Heqa Heqr Heqb Heqs Heqc Heqt Heqe Heqw.
  assert (A0 : 0 <= a) by lia. assert (B0 : 0 <= b <= 4) by lia. assert (C0 : 0 <= c <= 24) by lia. assert (E0 : 0 <= e <= 4) by lia.
  destruct ((e =? 4) || (b =? 4)) eqn:S.
  - intros X. injection X as <- <- <-. apply orb_prop in S. rewrite !Z.eqb_eq in S.
    split; [lia|]. split; [lia|]. split; [lia|]. split.
    + exists 31%N. cbn [yr mo dy]. split; [apply ml31; cbn; tauto|lia].
    + unfold ordinal. set (y := a * 400 + 1 + b * 100 + c * 4 + e - 1). destruct S as [->| ->].
      * assert (w = 0) by lia. subst w. assert (Q1 : (y - 1) / 4 = 100 * a + 25 * b + c) by (subst y; Z.div_mod_to_equations; lia).
        assert (b <= 3) by lia.
        assert (Q2 : (y - 1) / 100 = 4 * a + b) by (subst y; Z.div_mod_to_equations; lia).
        assert (Q3 : (y - 1) / 400 = a) by (subst y; Z.div_mod_to_equations; lia).
        assert (L : zleap y = true).
        { unfold zleap. apply andb_true_iff. assert (y mod 4 = 0) by (subst y; Z.div_mod_to_equations; lia). split; [now apply Z.eqb_eq|]. apply orb_true_iff.
          destruct (Z.eqb_spec (y mod 100) 0) as [F|F]; [right|now left]. apply Z.eqb_eq. subst y. Z.div_mod_to_equations; lia. }
        rewrite L, bm_12. unfold before_year. rewrite Q1, Q2, Q3. subst y. lia.
      * assert (w = 0 /\ e = 0 /\ c = 0) as (-> & -> & ->) by lia. assert (Q1 : (y - 1) / 4 = 100 * a + 99) by (subst y; Z.div_mod_to_equations; lia).
        assert (Q2 : (y - 1) / 100 = 4 * a + 3) by (subst y; Z.div_mod_to_equations; lia).
        assert (Q3 : (y - 1) / 400 = a) by (subst y; Z.div_mod_to_equations; lia).
        assert (L : zleap y = true).
        { unfold zleap. assert (y mod 4 = 0) as -> by (subst y; Z.div_mod_to_equations; lia). assert (y mod 400 = 0) as -> by (subst y; Z.div_mod_to_equations; lia).
          cbn [Z.eqb andb]. apply orb_true_r. }
        rewrite L, bm_12. unfold before_year. rewrite Q1, Q2, Q3. subst y. lia.
  - apply orb_false_iff in S. rewrite !Z.eqb_neq in S. set (lp := (e =? 3) && (negb (c =? 24) || (b =? 3))). intros X. injection X as <- <- <-.
    set (y := a * 400 + 1 + b * 100 + c * 4 + e).
    assert (Q1 : (y - 1) / 4 = 100 * a + 25 * b + c) by (subst y; Z.div_mod_to_equations; lia).
    assert (Q2 : (y - 1) / 100 = 4 * a + b) by (subst y; Z.div_mod_to_equations; lia).
    assert (Q3 : (y - 1) / 400 = a) by (subst y; Z.div_mod_to_equations; lia).
    assert (L : zleap y = lp).
    { unfold zleap, lp. assert (M4 : y mod 4 = if e =? 3 then 0 else e + 1) by (subst y; destruct (Z.eqb_spec e 3); Z.div_mod_to_equations; lia). rewrite M4.
      destruct (Z.eqb_spec e 3) as [->|F]; [|destruct (Z.eqb_spec (e + 1) 0); [lia|reflexivity]]. cbn [Z.eqb andb].
      destruct (Z.eqb_spec (y mod 100) 0) as [M|M]; cbn [negb orb].
      - assert (c = 24) as -> by (subst y; Z.div_mod_to_equations; lia). cbn [Z.eqb negb orb]. change (24 =? 24) with true. cbn [negb orb].
        destruct (Z.eqb_spec b 3) as [->|N3]; [apply Z.eqb_eq|apply Z.eqb_neq]; subst y; Z.div_mod_to_equations; lia.
      - destruct (Z.eqb_spec c 24) as [->|N]; [|reflexivity]. exfalso. apply M. subst y. Z.div_mod_to_equations; lia. }
    assert (W : month_ok lp w = true).
    { apply months_ok; [lia|]. destruct lp; lia. }
    unfold month_ok in W. cbv zeta in W. set (m := month_of lp w) in *. set (d := w - before_month lp m + 1) in *. apply andb_prop in W as [W Wd]. apply andb_prop in W as [W W1]. apply andb_prop in W as [W2 W3].
    apply Z.leb_le in W1, W2, W3. apply Z.leb_le in Wd.
    assert (R : (1 <= Z.to_N m <= 12)%N) by lia. assert (Y1 : 1 <= y) by (subst y; lia).
    split; [exact Y1|]. split; [lia|]. split; [revert Wd; clear -W1; repeat match goal with |- context [if ?b then _ else _] => destruct b end; lia|]. split.
    + exists (month_days (Z.to_N y) (Z.to_N m)). cbn [yr mo dy]. split; [now apply month_spec|]. split; [lia|].
      unfold month_days. assert (LP : leap (Z.to_N y) = lp).
      { rewrite <- L. pose proof (leap_spec (Z.to_N y)) as A1. pose proof (zleap_spec (Z.to_N y)) as A2. rewrite Z2N.id in A2 by lia.
        destruct (leap (Z.to_N y)), (zleap y); try reflexivity; [symmetry; apply A2, A1; reflexivity|apply A1, A2; reflexivity]. }
      rewrite LP. assert (I : In m [1;2;3;4;5;6;7;8;9;10;11;12]) by (cbn; lia). clearbody d m. clear -I Wd W1. cbn [In] in I.
      repeat (destruct I as [<-|I]; [cbn in Wd |- *; destruct lp; lia|]). destruct I.
    + unfold ordinal. rewrite L. unfold before_year. rewrite Q1, Q2, Q3. subst d y. lia.
Qed.
(** every real day from year 1 on has its number *)
Lemma next_ex d : real_day d -> exists d', next_day d d'.
Proof.
  intros (n & M & B). destruct d as [y m k]. cbn [yr mo dy] in *. destruct (N.eq_dec k n) as [->|F]; [|exists (mkDate y m (k + 1)); now apply next_in_month with n; [exact M|lia]].
  destruct (N.eq_dec m 12) as [->|F]; [apply ml_12 in M as ->; eexists; apply next_year|]. eexists. eapply next_month; [exact M|]. pose proof (ml_range _ _ _ M). lia.
Qed.
Lemma prev_ex d : real_day d -> (1 <= yr d)%N -> exists d', next_day d' d.
Proof.
  intros (n & M & B) Y. destruct d as [y m k]. cbn [yr mo dy] in *. pose proof (ml_range _ _ _ M) as R. destruct (N.eq_dec k 1) as [->|F].
  - destruct (N.eq_dec m 1) as [->|F].
    + exists (mkDate (y - 1) 12 31). replace y with (y - 1 + 1)%N at 2 by lia. apply next_year.
    + destruct (ml_ex y (m - 1) ltac:(lia)) as (n' & M' & _). exists (mkDate y (m - 1) n'). replace m with (m - 1 + 1)%N at 2 by lia. eapply next_month; [exact M'|lia].
  - exists (mkDate y m (k - 1)). replace k with (k - 1 + 1)%N at 2 by lia. eapply next_in_month; [exact M|lia].
Qed.
Lemma number_ex d : real_day d -> (1 <= yr d)%N -> day_number d (ordn d - epoch).
Proof.
  intros R Y. assert (F : forall j : nat, exists e, real_day e /\ day_number e (Z.of_nat j)).
  { induction j as [|j (e & Re & De)]; [exists (mkDate 1970 1 1); split; [|constructor]; exists 31%N; split; [apply ml31; cbn; tauto|cbn; lia]|].
    destruct (next_ex e Re) as (e' & N1). exists e'. split; [now apply next_real in N1|]. rewrite Nat2Z.inj_succ. unfold Z.succ. eapply day_after; eauto. }
  assert (G : forall j : nat, 1 - epoch <= - Z.of_nat j -> exists e, real_day e /\ day_number e (- Z.of_nat j)).
  { induction j as [|j IH]; intros L; [destruct (F O) as (e & Re & De); exists e; now split|].
    destruct IH as (e & Re & De); [lia|]. pose proof (ord_number _ _ De) as O.
    destruct (prev_ex e Re) as (e' & N1).
    { destruct (N.eq_dec (yr e) 0) as [Z|Z]; [|lia]. pose proof (real_bounds e Re) as B. rewrite Z in B. cbn in B. lia. }
    exists e'. split; [now apply next_real in N1|]. replace (- Z.of_nat (S j)) with (- Z.of_nat j - 1) by lia. eapply day_before; eauto. }
  assert (L : 1 <= ordn d).
  { pose proof (real_bounds d R) as B. pose proof (by_mono 1 (Z.of_N (yr d)) ltac:(lia)). change (before_year 1) with 0 in *. lia. }
  assert (H : exists e, real_day e /\ day_number e (ordn d - epoch)).
  { destruct (Z_le_gt_dec 0 (ordn d - epoch)) as [A|A].
    - rewrite <- (Z2Nat.id _ A). apply F.
    - replace (ordn d - epoch) with (- Z.of_nat (Z.to_nat (epoch - ordn d))) by lia. apply G. lia. }
  destruct H as (e & Re & De). pose proof (ord_number _ _ De) as O. assert (e = d) as -> by (apply ord_inj; [assumption|assumption|lia]). exact De.
Qed.
Lemma real_year d : real_date d -> real_day d /\ (1 <= yr d <= 9999)%N.
Proof. intros (Y & n & M & B). split; [exists n; now split|exact Y]. Qed.

Lemma instant_timegm m k : instant_of m k -> mktime_tz m = Ret k.
Proof.
  intros (d & t & Rd & Rt & U & (n & D & K) & ->). unfold mktime_tz, timegm. cbn [mt_y mt_mo mt_d mt_h mt_mi mt_s mt_off].
  destruct (real_year d Rd) as [R Y]. destruct R as (l & M & B). pose proof (ml_range _ _ _ M) as Rm.
  pose proof (ord_number _ _ D) as O. unfold ordn in O.
  destruct (Z.leb_spec 1 (Z.of_N (yr d))); [|lia]. destruct (Z.leb_spec (Z.of_N (yr d)) 9999); [|lia].
  destruct (Z.leb_spec 1 (Z.of_N (mo d))); [|lia]. destruct (Z.leb_spec (Z.of_N (mo d)) 12); [|lia]. cbn [andb]. f_equal.
  unfold ordinal in *. lia.
Qed.
Lemma secs_split r : 0 <= r < 86400 -> r = r / 3600 * 3600 + r / 60 mod 60 * 60 + r mod 60 /\ 0 <= r / 3600 <= 23 /\ 0 <= r / 60 mod 60 <= 59 /\ 0 <= r mod 60 <= 59.
Proof. intros H. Z.div_mod_to_equations. lia. Qed.
Lemma secs_join a b c : 0 <= a <= 23 -> 0 <= b <= 59 -> 0 <= c <= 59 -> let r := a * 3600 + b * 60 + c in r / 3600 = a /\ r / 60 mod 60 = b /\ r mod 60 = c.
Proof. intros A B C r. subst r. Z.div_mod_to_equations. lia. Qed.
Lemma from_wall zone s d t : fromtimestamp zone s = Ret (d, t) -> real_date d /\ real_time t /\ us t = 0%N /\ clock d t (s + zone s).
Proof.
  unfold fromtimestamp. set (w := s + zone s). destruct (ord2ymd (w / 86400 + epoch)) as [[y m] k] eqn:Q. destruct ((1 <=? y) && (y <=? 9999)) eqn:B; [|discriminate].
  intros X. injection X as <- <-. apply andb_prop in B as [B1 B2]. apply Z.leb_le in B1, B2.
  pose proof (Z.mod_pos_bound w 86400 ltac:(lia)) as P. destruct (secs_split _ P) as (S1 & S2 & S3 & S4).
  assert (N1 : 1 <= w / 86400 + epoch).
  { destruct (Z_le_gt_dec 1 (w / 86400 + epoch)) as [L|L]; [exact L|exfalso].
    revert Q. unfold ord2ymd. set (j := w / 86400 + epoch - 1). cbv zeta. pose proof (Z.div_mod j 146097 ltac:(lia)) as D1. pose proof (Z.mod_pos_bound j 146097 ltac:(lia)) as D2.
    assert (A : j / 146097 <= -1) by lia. clear D1. set (a := j / 146097) in *. set (r := j mod 146097) in *.
    assert (Bb : 0 <= r / 36524 <= 4) by (Z.div_mod_to_equations; lia). assert (Cc : 0 <= (r mod 36524) / 1461 <= 24) by (Z.div_mod_to_equations; lia).
    assert (Ee : 0 <= (r mod 36524) mod 1461 / 365 <= 4) by (Z.div_mod_to_equations; lia).
    assert (Last : r / 36524 = 4 -> (r mod 36524) / 1461 = 0 /\ (r mod 36524) mod 1461 / 365 = 0) by (intros; Z.div_mod_to_equations; lia).
    destruct (_ || _)%bool eqn:O; intros X; injection X as <- <- <-.
    - apply orb_prop in O. rewrite !Z.eqb_eq in O. destruct O as [O|O]; [|destruct (Last O)]; lia.
    - apply orb_false_iff in O. rewrite !Z.eqb_neq in O. lia. }
  destruct (ord2ymd_spec _ _ _ _ N1 Q) as (_ & Hm & Hk & (l & M & Bd) & O). cbn [yr mo dy] in M, Bd.
  split; [|split; [|split]].
  - split; [cbn [yr]; lia|]. exists l. now split.
  - unfold real_time. cbn [hh mi ss us]. lia.
  - reflexivity.
  - exists (w / 86400). split.
    + replace (w / 86400) with (ordn (mkDate (Z.to_N y) (Z.to_N m) (Z.to_N k)) - epoch).
      * apply number_ex; [exists l; now split|cbn [yr]; lia].
      * unfold ordn. cbn [yr mo dy]. rewrite !Z2N.id by lia. lia.
    + cbn [hh mi ss]. rewrite !Z2N.id by lia. pose proof (Z.div_mod w 86400 ltac:(lia)). lia.
Qed.
Lemma to_wall zone s d t : real_date d -> real_time t -> us t = 0%N -> clock d t (s + zone s) -> fromtimestamp zone s = Ret (d, t).
Proof.
  intros Rd Rt U (n & D & K). unfold fromtimestamp. set (w := s + zone s) in *. destruct (real_year d Rd) as [R Y]. pose proof (ord_number _ _ D) as O.
  destruct Rt as (T1 & T2 & T3 & T4). set (r := Z.of_N (hh t) * 3600 + Z.of_N (mi t) * 60 + Z.of_N (ss t)).
  assert (Q : w / 86400 = n /\ w mod 86400 = r) by (subst r; Z.div_mod_to_equations; lia). destruct Q as [Q1 Q2]. rewrite Q1, Q2.
  destruct (secs_join (Z.of_N (hh t)) (Z.of_N (mi t)) (Z.of_N (ss t)) ltac:(lia) ltac:(lia) ltac:(lia)) as (J1 & J2 & J3). fold r in J1, J2, J3. rewrite J1, J2, J3.
  destruct (ord2ymd (n + epoch)) as [[y m] k] eqn:E. pose proof (real_bounds d R) as B. pose proof (by_mono 1 (Z.of_N (yr d)) ltac:(lia)) as B1. change (before_year 1) with 0 in B1.
  destruct (ord2ymd_spec (n + epoch) y m k ltac:(lia) E) as (Hy & Hm & Hk & R' & O').
  assert (X : mkDate (Z.to_N y) (Z.to_N m) (Z.to_N k) = d).
  { apply ord_inj; [exact R'|exact R|]. unfold ordn at 1. cbn [yr mo dy]. rewrite !Z2N.id by lia. lia. }
  rewrite X. assert (Yy : Z.of_N (yr d) = y) by (rewrite <- X; cbn [yr]; lia).
  destruct (Z.leb_spec 1 y); [|lia]. destruct (Z.leb_spec y 9999); [|lia]. cbn [andb]. rewrite !N2Z.id. destruct t as [h' m' s' u']. cbn [hh mi ss us] in *. now subst.
Qed.
Lemma clock_fun d t k k' : clock d t k -> clock d t k' -> k = k'.
Proof. intros (n & D & ->) (n' & D' & ->). apply ord_number in D. apply ord_number in D'. lia. Qed.
Lemma iso_inj d t d' t' : real_date d -> real_time t -> real_date d' -> real_time t' -> isoformat d t = isoformat d' t' -> d = d' /\ t = t'.
Proof.
  intros A B A' B' E. pose proof (parse_isoformat d t (proj2 (date_spec d) A) (proj2 (time_spec t) B)) as P.
  pose proof (parse_isoformat d' t' (proj2 (date_spec d') A') (proj2 (time_spec t') B')) as P'. rewrite E in P. rewrite P in P'. injection P' as -> ->. now split.
Qed.

(** ** C82 *)
(** the text stored is the date and time that the machine's clock shows at the instant the header names ... *)
Theorem C82_instant : forall parsedate_tz zone s m k r, parsedate_tz s = Some m -> instant_of m k ->
  parse_mail_date parsedate_tz zone s = Ret r ->
  exists d t, real_date d /\ real_time t /\ us t = 0%N /\ clock d t (k + zone k) /\ r = isoformat d t.
Proof.
  intros p zone s m k r P I. unfold parse_mail_date. rewrite P, (instant_timegm _ _ I). destruct (fromtimestamp zone k) as [[d t]|x] eqn:F; [|discriminate].
  intros X. injection X as <-. apply from_wall in F. exists d, t. tauto.
Qed.
(** ... and whenever that clock shows a year from 1 to 9999, the conversion succeeds *)
Theorem C82_succeeds : forall parsedate_tz zone s m k d t, parsedate_tz s = Some m -> instant_of m k ->
  real_date d -> real_time t -> us t = 0%N -> clock d t (k + zone k) ->
  parse_mail_date parsedate_tz zone s = Ret (isoformat d t).
Proof. intros p zone s m k d t P I A B U C. unfold parse_mail_date. rewrite P, (instant_timegm _ _ I), (to_wall zone k d t); auto. Qed.
(** headers that name the same instant, in whatever zones, are stored alike *)
Theorem C82_same_instant : forall parsedate_tz zone s s' m m' k, parsedate_tz s = Some m -> parsedate_tz s' = Some m' -> instant_of m k -> instant_of m' k ->
  parse_mail_date parsedate_tz zone s = parse_mail_date parsedate_tz zone s'.
Proof. intros p zone s s' m m' k P P' I I'. unfold parse_mail_date. now rewrite P, P', (instant_timegm _ _ I), (instant_timegm _ _ I'). Qed.
(** where the machine's zone does not change its offset, headers stored alike name the same instant *)
Theorem C82_distinct_partial : forall parsedate_tz c s s' m m' k k' r, parsedate_tz s = Some m -> parsedate_tz s' = Some m' -> instant_of m k -> instant_of m' k' ->
  parse_mail_date parsedate_tz (fun _ => c) s = Ret r -> parse_mail_date parsedate_tz (fun _ => c) s' = Ret r -> k = k'.
Proof.
  intros p c s s' m m' k k' r P P' I I' E E'. destruct (C82_instant _ _ _ _ _ _ P I E) as (d & t & A & B & _ & C & ->).
  destruct (C82_instant _ _ _ _ _ _ P' I' E') as (d' & t' & A' & B' & _ & C' & X). apply iso_inj in X as [-> ->]; auto. pose proof (clock_fun _ _ _ _ C C'). lia.
Qed.
(** a header that is not a date is stored as it is *)
Theorem C82_unparsed : forall parsedate_tz zone s, parsedate_tz s = None -> parse_mail_date parsedate_tz zone s = Ret s.
Proof. intros p zone s P. unfold parse_mail_date. now rewrite P. Qed.

Definition at_header (m : mail_time) : str -> option mail_time := fun _ => Some m.
Lemma sample_instant : instant_of (mkMT 2016 4 1 9 30 0 (-18000)) 1459521000.
Proof.
  exists (mkDate 2016 4 1), (mkTime 9 30 0 0). split; [apply date_spec; reflexivity|]. split; [apply time_spec; reflexivity|]. split; [reflexivity|]. split; [|reflexivity].
  exists 16892. split; [|reflexivity]. change 16892 with (ordn (mkDate 2016 4 1) - epoch). apply number_ex; [|cbn; lia]. now apply real_year, date_spec.
Qed.
(** 1 April 2016 09:30:00 -0500 on a machine in UTC+1 *)
Example C82_case : instant_of (mkMT 2016 4 1 9 30 0 (-18000)) 1459521000 /\
  parse_mail_date (at_header (mkMT 2016 4 1 9 30 0 (-18000))) (fun _ => 3600) (u "Fri, 01 Apr 2016 09:30:00 -0500") = Ret (u "2016-04-01T15:30:00").
Proof. split; [exact sample_instant|vm_compute; reflexivity]. Qed.
Lemma utc_instant : instant_of (mkMT 2016 4 1 14 30 0 0) 1459521000.
Proof.
  exists (mkDate 2016 4 1), (mkTime 14 30 0 0). split; [apply date_spec; reflexivity|]. split; [apply time_spec; reflexivity|]. split; [reflexivity|]. split; [|reflexivity].
  exists 16892. split; [|reflexivity]. change 16892 with (ordn (mkDate 2016 4 1) - epoch). apply number_ex; [|cbn; lia]. now apply real_year, date_spec.
Qed.
(** The text does not say which zone it is in.  The same header is stored differently on two machines, and the texts made on
    two machines from headers five hours apart can be equal. *)
Theorem C82_zone_refuted : exists m m' k k' zone zone' s, instant_of m k /\ instant_of m' k' /\ k <> k' /\
  parse_mail_date (at_header m) zone s <> parse_mail_date (at_header m) zone' s /\
  (exists r, parse_mail_date (at_header m) zone s = Ret r /\ parse_mail_date (at_header m') zone' s = Ret r).
Proof.
  exists (mkMT 2016 4 1 9 30 0 (-18000)), (mkMT 2016 4 1 9 30 0 0), 1459521000, 1459503000, (fun _ => -18000), (fun _ => 0), (u "Date").
  split; [exact sample_instant|]. split.
  - exists (mkDate 2016 4 1), (mkTime 9 30 0 0). split; [apply date_spec; reflexivity|]. split; [apply time_spec; reflexivity|]. split; [reflexivity|]. split; [|reflexivity].
    exists 16892. split; [|reflexivity]. change 16892 with (ordn (mkDate 2016 4 1) - epoch). apply number_ex; [|cbn; lia]. now apply real_year, date_spec.
  - split; [lia|]. split; [vm_compute; discriminate|]. eexists. split; vm_compute; reflexivity.
Qed.
(** On one machine, the hour in which the clocks go back is stored twice alike (Europe/Paris, 30 October 2016, 01:00 UTC). *)
Definition paris_2016 (k : Z) : Z := if k <? 1477789200 then 7200 else 3600.
Theorem C82_clocks_back_refuted : exists m m' k k' s r, instant_of m k /\ instant_of m' k' /\ k' = k + 3600 /\
  parse_mail_date (at_header m) paris_2016 s = Ret r /\ parse_mail_date (at_header m') paris_2016 s = Ret r.
Proof.
  exists (mkMT 2016 10 30 0 30 0 0), (mkMT 2016 10 30 1 30 0 0), 1477787400, 1477791000, (u "Date"), (u "2016-10-30T02:30:00").
  assert (N1 : day_number (mkDate 2016 10 30) 17104).
  { change 17104 with (ordn (mkDate 2016 10 30) - epoch). apply number_ex; [|cbn; lia]. now apply real_year, date_spec. }
  split; [exists (mkDate 2016 10 30), (mkTime 0 30 0 0)|split; [exists (mkDate 2016 10 30), (mkTime 1 30 0 0)|]].
  1,2: split; [apply date_spec; reflexivity|]; split; [apply time_spec; reflexivity|]; split; [reflexivity|]; split; [exists 17104; split; [exact N1|reflexivity]|reflexivity].
  split; [reflexivity|]. split; vm_compute; reflexivity.
Qed.
(** A day that does not exist becomes another day: 31 February 2016 is stored as 2 March. *)
Theorem C82_no_such_day_refuted : forall zone, (forall k, zone k = 0) ->
  parse_mail_date (at_header (mkMT 2016 2 31 12 0 0 0)) zone (u "31 Feb 2016 12:00:00 +0000") = Ret (u "2016-03-02T12:00:00").
Proof.
  intros zone H0. unfold parse_mail_date, at_header. change (mktime_tz (mkMT 2016 2 31 12 0 0 0)) with (@Ret Z 1456920000). cbv beta iota. unfold fromtimestamp. rewrite H0. vm_compute. reflexivity.
Qed.
(** A year outside 1..9999 is not stored as it is but raises ValueError, and with it the conversion of the whole message. *)
Theorem C82_year_refuted : forall zone y mo d h mi s off, ~ (1 <= y <= 9999) ->
  forall txt, parse_mail_date (at_header (mkMT y mo d h mi s off)) zone txt = Exc XValue.
Proof.
  intros zone y mo d h mi s off H txt. unfold parse_mail_date, at_header, mktime_tz, timegm. cbn [mt_y mt_mo].
  destruct (Z.leb_spec 1 y); [|reflexivity]. destruct (Z.leb_spec y 9999); [lia|reflexivity].
Qed.

(** ** A whole message *)
(** the message's strings are ones XML can hold *)
Definition storable_mail (m : email) : Prop := storable_email (fun s => s) m.
(** what is stored for a Date header: the wall clock at the instant it names, or the header itself if it is not a date *)
Definition stored_date (p : str -> option mail_time) (zone : Z -> Z) (s r : str) : Prop :=
  match p s with
  | None => r = s
  | Some m => exists k d t, instant_of m k /\ real_date d /\ real_time t /\ us t = 0%N /\ clock d t (k + zone k) /\ r = isoformat d t
  end.
(** every Date header is not a date, or names an instant at which the machine's clock shows a year from 1 to 9999 *)
Definition dated (p : str -> option mail_time) (zone : Z -> Z) (m : email) : Prop := forall s, In s (get_all "Date" m) -> exists r, stored_date p zone s r.
Lemma stored_parse p zone s r : stored_date p zone s r -> parse_mail_date p zone s = Ret r.
Proof.
  unfold stored_date. destruct (p s) as [m|] eqn:P.
  - intros (k & d & t & I & A & B & U & C & ->). eapply C82_succeeds; eauto.
  - intros ->. now apply C82_unparsed.
Qed.
Lemma pad_valid w n : xml_valid (pad w n) = true.
Proof.
  revert n. induction w as [|w IH]; intros n; [reflexivity|]. cbn [pad]. unfold xml_valid in *. rewrite forallb_app, IH. cbn [forallb andb].
  pose proof (N.mod_lt n 10 ltac:(lia)) as L. remember (n mod 10)%N as q eqn:Q. clear -L. rewrite andb_true_r.
  assert (I : In q [0;1;2;3;4;5;6;7;8;9]%N) by (cbn; lia). cbn [In] in I. repeat (destruct I as [<-|I]; [vm_compute; reflexivity|]). destruct I.
Qed.
Lemma iso_valid d t : xml_valid (isoformat d t) = true.
Proof.
  unfold isoformat, xml_valid. rewrite !forallb_app. pose proof (fun w n => pad_valid w n) as V. unfold xml_valid in V. rewrite !V. cbn [andb].
  destruct (N.eqb (us t) 0); [vm_compute; reflexivity|]. rewrite forallb_app, V. vm_compute. reflexivity.
Qed.
(** Converting a message succeeds, and its orig_date_list reads, header by header, the wall clock at the instants named. *)
Theorem C82_message : forall parsedate_tz zone eol local_id m, storable_mail m -> dated parsedate_tz zone m -> xml_valid eol = true ->
  exists d texts, from_email_message parsedate_tz zone eol local_id m = Ret d /\
    Forall2 (stored_date parsedate_tz zone) (get_all "Date" m) texts /\
    list_field_of "OrigDate" d = Ret (map PStr texts).
Proof.
  intros p zone eol lid m S D E. set (f := fun s => match parse_mail_date p zone s with Ret r => r | Exc _ => s end).
  assert (SD : forall s, In s (get_all "Date" m) -> parse_mail_date p zone s = Ret (f s) /\ stored_date p zone s (f s)).
  { intros s I. destruct (D s I) as (r & X). pose proof (stored_parse _ _ _ _ X) as P. unfold f. rewrite P. now split. }
  assert (A : all_dates (parse_mail_date p zone) (get_all "Date" m) = Ret tt).
  { clear -SD. induction (get_all "Date" m) as [|s l IH]; [reflexivity|]. cbn [all_dates]. rewrite (proj1 (SD s (or_introl eq_refl))). apply IH. intros s' I. apply SD. now right. }
  assert (S' : storable_email f m).
  { destruct S as (S1 & S2 & S3). split; [exact S1|]. split; [|exact S3]. intros s I. destruct (SD s I) as (_ & X). unfold stored_date in X. destruct (p s).
    - destruct X as (k & d & t & _ & _ & _ & _ & _ & ->). apply iso_valid.
    - rewrite X. now apply S2. }
  destruct (from_email f eol lid m) as [d r] eqn:F. destruct (C47_lists_partial f eol lid m d r S' E F) as (-> & L). exists d, (map f (get_all "Date" m)).
  split; [|split].
  - unfold from_email_message. rewrite A. fold f. now rewrite F.
  - clear -SD. induction (get_all "Date" m) as [|s l IH]; cbn [map]; constructor; [exact (proj2 (SD s (or_introl eq_refl)))|]. apply IH. intros s' I. apply SD. now right.
  - decompose [and] L. assumption.
Qed.
Example C82_message_case : let m := mkEmail [(u "Date", u "Fri, 01 Apr 2016 09:30:00 -0500"); (u "Subject", u "x"); (u "date", u "soon")] false [] None None [] in
  let p := fun s => if str_eqb s (u "soon") then None else Some (mkMT 2016 4 1 9 30 0 (-18000)) in
  storable_mail m /\ dated p (fun _ => 3600) m /\
  exists d, from_email_message p (fun _ => 3600) (u "LF") None m = Ret d /\ list_field_of "OrigDate" d = Ret [PStr (u "2016-04-01T15:30:00"); PStr (u "soon")].
Proof.
  cbv zeta. split; [|split].
  - split; [|split; [|repeat match goal with |- _ /\ _ => split end]].
    + intros h Hh. cbn [em_headers In] in Hh. repeat (destruct Hh as [<-|Hh]; [vm_compute; auto|]). destruct Hh.
    + intros s Hs. vm_compute in Hs. repeat (destruct Hs as [<-|Hs]; [vm_compute; reflexivity|]). destruct Hs.
    + vm_compute; reflexivity.
    + intros s X; discriminate X.
    + intros s X; discriminate X.
    + vm_compute; reflexivity.
  - intros s Hs. change (get_all "Date" _) with [u "Fri, 01 Apr 2016 09:30:00 -0500"; u "soon"] in Hs. cbn [In] in Hs. destruct Hs as [<-|[<-|[]]]; [|exists (u "soon"); reflexivity].
    exists (u "2016-04-01T15:30:00"). unfold stored_date. change (str_eqb (u "Fri, 01 Apr 2016 09:30:00 -0500") (u "soon")) with false. cbv beta iota.
    exists 1459521000, (mkDate 2016 4 1), (mkTime 15 30 0 0). split; [exact sample_instant|]. split; [apply date_spec; reflexivity|]. split; [apply time_spec; reflexivity|]. split; [reflexivity|]. split; [|vm_compute; reflexivity].
    exists 16892. split; [|reflexivity]. change 16892 with (ordn (mkDate 2016 4 1) - epoch). apply number_ex; [|cbn; lia]. now apply real_year, date_spec.
  - eexists. split; vm_compute; reflexivity.
Qed.

(** One Date header with a year outside 1..9999, wherever it stands among the headers and however its name is written: ValueError, no message. *)
Lemma mail_date_exc p zone s x : parse_mail_date p zone s = Exc x -> x = XValue.
Proof.
  unfold parse_mail_date, mktime_tz, timegm, fromtimestamp. destruct (p s) as [t|]; [|discriminate]. match goal with |- context [if ?b then _ else _] => destruct b end; [|now intros [= <-]].
  destruct (ord2ymd _) as [[y mo] d]. match goal with |- context [if ?b then _ else _] => destruct b end; [discriminate|now intros [= <-]].
Qed.
Theorem C82_bad_date : forall parsedate_tz zone eol local_id m h s t, In (h, s) (em_headers m) -> map lower h = u "date" ->
  parsedate_tz s = Some t -> ~ (1 <= mt_y t <= 9999) -> from_email_message parsedate_tz zone eol local_id m = Exc XValue.
Proof.
  intros p zone eol lid m h s t I Hh P Y. unfold from_email_message.
  assert (G : In s (get_all "Date" m)).
  { unfold get_all. apply in_map_iff. exists (h, s). split; [reflexivity|]. apply filter_In. split; [exact I|]. unfold same_name. cbn [fst]. rewrite Hh. vm_compute. reflexivity. }
  assert (B : exists x, parse_mail_date p zone s = Exc x).
  { unfold parse_mail_date, mktime_tz, timegm. rewrite P. destruct (Z.leb_spec 1 (mt_y t)); cbn [andb]; [|eauto]. destruct (Z.leb_spec (mt_y t) 9999); [lia|]. cbn [andb]. eauto. }
  assert (A : all_dates (parse_mail_date p zone) (get_all "Date" m) = Exc XValue).
  { induction (get_all "Date" m) as [|s' l IH]; [destruct G|]. cbn [all_dates]. destruct (parse_mail_date p zone s') as [r|x] eqn:E; [|f_equal; exact (mail_date_exc _ _ _ _ E)].
    destruct G as [->|G]; [destruct B as [x B]; congruence|auto]. }
  now rewrite A.
Qed.
Example C82_bad_date_case : let m := mkEmail [(u "Date", u "soon"); (u "DATE", u "Fri, 01 Apr 0000 09:30:00")] false [] None None [] in
  let p := fun s => if str_eqb s (u "soon") then None else Some (mkMT 0 4 1 9 30 0 0) in
  map lower (u "DATE") = u "date" /\ In (u "DATE", u "Fri, 01 Apr 0000 09:30:00") (em_headers m) /\ from_email_message p (fun _ => 0) (u "LF") None m = Exc XValue.
Proof. cbv zeta. split; [vm_compute; reflexivity|]. split; [right; now left|]. vm_compute. reflexivity. Qed.
Print Assumptions C82_bad_date.
