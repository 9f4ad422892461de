(** Proofs for C88, numbers. *)
From Coq Require Import String Arith ZArith NArith List Lia Bool.
From Verif Require Import PyStr XPathAst XPathEval Mappers MapperProofs FieldConstruct NumberSpec XPathNum ReadSpec.
Import ListNotations.

(** ** characters *)
Lemma digit_ok c : asc_digit c = true <-> digit c.
Proof. unfold asc_digit, in_range, digit. rewrite andb_true_iff, !N.leb_le. reflexivity. Qed.
Lemma digits_ok s : forallb asc_digit s = true <-> Forall digit s.
Proof. rewrite forallb_forall, Forall_forall. split; intros H c Hc; apply digit_ok; auto. Qed.
Lemma pyblank_ok c : py_space c = true <-> py_blank c.
Proof. unfold py_space, in_range, py_blank. rewrite orb_true_iff, !andb_true_iff, !N.leb_le. reflexivity. Qed.
Lemma xblank_ok c : is_xws c = true <-> xml_blank c.
Proof. unfold is_xws, xml_blank. rewrite !orb_true_iff, !N.eqb_eq. tauto. Qed.

Lemma lstrip_split f s : exists l, s = l ++ lstrip f s /\ Forall (fun c => f c = true) l.
Proof.
  induction s as [|c s (l & E & H)]; [exists []; now split|]. cbn [lstrip]. destruct (f c) eqn:F; [|exists []; now split].
  exists (c :: l). split; [cbn [app]; now rewrite <- E|now constructor].
Qed.
Lemma strip_split f s : exists l r, s = l ++ strip f s ++ r /\ Forall (fun c => f c = true) l /\ Forall (fun c => f c = true) r.
Proof.
  destruct (lstrip_split f s) as (l & E & H). destruct (lstrip_split f (rev (lstrip f s))) as (r & E2 & H2).
  exists l, (rev r). split; [|split; [exact H|now apply Forall_rev]]. unfold strip. rewrite <- rev_app_distr, <- E2, rev_involutive. exact E.
Qed.
Lemma lstrip_app f l t : Forall (fun c => f c = true) l -> lstrip f (l ++ t) = lstrip f t.
Proof. induction 1 as [|c l H _ IH]; [reflexivity|]. cbn [app lstrip]. now rewrite H. Qed.
Lemma strip_mid f l t r : Forall (fun c => f c = true) l -> Forall (fun c => f c = true) r -> Forall (fun c => f c = false) t ->
  strip f (l ++ t ++ r) = t.
Proof.
  intros Hl Hr Ht. unfold strip. rewrite lstrip_app by exact Hl. destruct t as [|c t].
  - cbn [app]. pose proof (lstrip_app f r [] Hr) as G. rewrite app_nil_r in G. now rewrite G.
  - inversion_clear Ht as [|? ? Hc Ht']. cbn [app lstrip]. rewrite Hc. change (c :: t ++ r) with ((c :: t) ++ r).
    rewrite rev_app_distr, lstrip_app by now apply Forall_rev. rewrite lstrip_id; [apply rev_involutive|].
    destruct (rev (c :: t)) as [|x y] eqn:R; [exact I|]. assert (In x (c :: t)) as Hx by (apply in_rev; rewrite R; now left).
    destruct Hx as [<-|Hx]; [exact Hc|]. rewrite Forall_forall in Ht'. auto.
Qed.
Lemma blanks_py s : Forall py_blank s <-> Forall (fun c => py_space c = true) s.
Proof. split; apply Forall_impl; intros c; apply pyblank_ok. Qed.
Lemma blanks_xml s : Forall xml_blank s <-> Forall (fun c => is_xws c = true) s.
Proof. split; apply Forall_impl; intros c; apply xblank_ok. Qed.

(** ** the value of digits *)
Lemma dvals_app a b : dvals (a ++ b) = dvals a ++ dvals b.
Proof. apply map_app. Qed.
Lemma digits_dvals s : Forall digit s -> decimal_digits (dvals s).
Proof. intros H. apply Forall_map. eapply Forall_impl; [|exact H]. intros c. unfold digit. lia. Qed.
Lemma value_fold s n : fold_left (fun n c => (10 * n + (c - 48))%N) s n = horner n (dvals s).
Proof. revert n. induction s as [|c s IH]; intros n; [reflexivity|]. cbn [fold_left dvals map horner]. apply IH. Qed.
Lemma value_dec s : value_of s = dec (dvals s).
Proof. apply value_fold. Qed.
Lemma value_digits s : Forall digit s -> N_of_digits (dvals s) = value_of s.
Proof. intros H. rewrite value_dec. apply dec_fold. now apply digits_dvals. Qed.

(** ** int() *)
Definition goes_on (s ds : str) : Prop :=
  (Forall digit s /\ ds = s) \/ exists g t ds', s = g ++ 95%N :: t /\ Forall digit g /\ grouped t ds' /\ ds = g ++ ds'.
Lemma int_digits_sound s : forall acc out,
  (int_digits true acc s = Some out -> exists ds, goes_on s ds /\ Forall digit ds /\ out = rev acc ++ dvals ds) /\
  (int_digits false acc s = Some out -> exists ds, grouped s ds /\ Forall digit ds /\ out = rev acc ++ dvals ds).
Proof.
  induction s as [|c s IH]; intros acc out; split; cbn [int_digits].
  - intros [= <-]. exists []. split; [left; split; constructor|]. split; [constructor|]. cbn. now rewrite app_nil_r.
  - discriminate.
  - destruct (asc_digit c) eqn:D.
    + intros H. apply IH in H as (ds & G & Hd & ->). apply digit_ok in D. exists (c :: ds). split; [|split; [now constructor|cbn [rev dvals map]; now rewrite <- app_assoc]].
      destruct G as [[Hs ->]|(g & t & ds' & -> & Hg & Ht & ->)]; [left; split; [now constructor|reflexivity]|].
      right. exists (c :: g), t, ds'. repeat split; auto.
    + destruct (N.eqb_spec c 95) as [->|]; [|discriminate]. cbn [andb]. intros H. apply IH in H as (ds & G & Hd & ->).
      exists ds. split; [|now split]. right. exists [], s, ds. repeat split; auto.
  - destruct (asc_digit c) eqn:D; [|rewrite andb_false_r; discriminate].
    intros H. apply IH in H as (ds & G & Hd & ->). apply digit_ok in D. exists (c :: ds).
    split; [|split; [now constructor|cbn [rev dvals map]; now rewrite <- app_assoc]].
    destruct G as [[Hs ->]|(g & t & ds' & -> & Hg & Ht & ->)]; [apply one_group; [discriminate|now constructor]|].
    exact (more_groups (c :: g) t ds' ltac:(discriminate) (Forall_cons _ D Hg) Ht).
Qed.
Lemma int_digits_run g : Forall digit g -> g <> [] -> forall prev acc t, int_digits prev acc (g ++ t) = int_digits true (rev (dvals g) ++ acc) t.
Proof.
  induction 1 as [|c g H Hg IH]; [contradiction|]. intros _ prev acc t. cbn [app int_digits]. apply digit_ok in H. rewrite H.
  destruct g as [|x g]; [reflexivity|]. rewrite IH by discriminate. cbn [dvals map rev]. now rewrite <- !app_assoc.
Qed.
Lemma int_digits_complete s ds : grouped s ds -> Forall digit ds /\ forall acc, int_digits false acc s = Some (rev acc ++ dvals ds).
Proof.
  induction 1 as [g Hn Hg|g t ds Hn Hg Ht (Hd & IH)].
  - split; [exact Hg|]. intros acc. rewrite <- (app_nil_r g) at 1. rewrite int_digits_run by assumption. cbn [int_digits]. now rewrite rev_app_distr, rev_involutive.
  - split; [now apply Forall_app|]. intros acc. rewrite int_digits_run by assumption. cbn [int_digits].
    change (asc_digit 95) with false. cbn [N.eqb Pos.eqb andb]. cbv iota. rewrite IH, rev_app_distr, rev_involutive, dvals_app, app_assoc. reflexivity.
Qed.
Lemma grouped_chars s ds : grouped s ds -> Forall (fun c => digit c \/ c = 95%N) s /\ exists c r, s = c :: r /\ digit c.
Proof.
  assert (K : forall g, Forall digit g -> Forall (fun c => digit c \/ c = 95%N) g) by (intros g; apply Forall_impl; auto).
  induction 1 as [g Hn Hg|g t ds Hn Hg Ht (Hd & IH)]; (destruct g as [|c r]; [contradiction|]); inversion_clear Hg as [|? ? Hc Hr].
  - split; [apply K; now constructor|eauto].
  - split; [|exists c, (r ++ 95%N :: t); split; [reflexivity|exact Hc]]. apply Forall_app. split; [apply K; now constructor|constructor; [now right|exact Hd]].
Qed.
Lemma sign_chars sg v : sign sg v -> Forall (fun c => c = 43%N \/ c = 45%N) sg.
Proof. intros []; [constructor|constructor; [now left|constructor]|constructor; [now right|constructor]]. Qed.

Theorem py_int_spec s z : py_int s = Some z <-> python_int s z.
Proof.
  split.
  - unfold py_int. destruct (strip_split py_space s) as (l & r & E & Hl & Hr). set (t := strip py_space s) in *. clearbody t. subst s.
    apply blanks_py in Hl, Hr.
    set (q := match t with c :: r => if N.eqb c 45 then (true, r) else if N.eqb c 43 then (false, r) else (false, t) | [] => (false, []) end).
    assert (Q : exists sg v, t = sg ++ snd q /\ sign sg v /\ (fst q = true /\ v = (-1)%Z \/ fst q = false /\ v = 1%Z)).
    { subst q. destruct t as [|c w]; [exists [], 1%Z; repeat split; auto using no_sign|]. destruct (N.eqb_spec c 45) as [->|]; [exists [45%N], (-1)%Z; repeat split; auto using minus_sign|].
      destruct (N.eqb_spec c 43) as [->|]; [exists [43%N], 1%Z; repeat split; auto using plus_sign|exists [], 1%Z; repeat split; auto using no_sign]. }
    clearbody q. destruct q as [neg w]. cbn [fst snd] in Q. destruct Q as (sg & v & -> & Hs & Hv).
    destruct (int_digits false [] w) as [ds|] eqn:D; [|discriminate]. apply int_digits_sound in D as (ds' & G & Hd & ->). cbn [rev app].
    rewrite value_digits by exact Hd. intros [= <-]. exists l, sg, v, w, ds', r. split; [now rewrite !app_assoc|]. repeat split; auto.
    destruct Hv as [[-> ->]|[-> ->]]; lia.
  - intros (l & sg & v & t & ds & r & -> & Hl & Hr & Hs & Hg & ->). apply blanks_py in Hl, Hr.
    destruct (int_digits_complete _ _ Hg) as (Hd & Hi). destruct (grouped_chars _ _ Hg) as (Hc & c0 & r0 & E0 & H0).
    unfold py_int. rewrite (app_assoc sg), strip_mid; auto.
    + assert (Q : match sg ++ t with c :: r => if N.eqb c 45 then (true, r) else if N.eqb c 43 then (false, r) else (false, sg ++ t) | [] => (false, []) end = (Z.ltb v 0, t)).
      { destruct Hs; try reflexivity. rewrite E0. cbn [app]. unfold digit in H0. destruct (N.eqb_spec c0 45); [lia|]. destruct (N.eqb_spec c0 43); [lia|]. reflexivity. }
      match goal with |- (let (_, _) := ?q in _) = _ => replace q with (Z.ltb v 0, t) by exact (eq_sym Q) end. rewrite Hi. cbn [rev app]. rewrite value_digits by exact Hd. f_equal. destruct Hs; cbn [Z.ltb Z.compare]; lia.
    + apply Forall_app. split; [eapply Forall_impl; [|apply (sign_chars _ _ Hs)]|eapply Forall_impl; [|exact Hc]]; intros c Hx; cbn in Hx;
        apply not_true_iff_false; rewrite pyblank_ok; unfold py_blank, digit in *; lia.
Qed.

(** ** exact decimals *)
Lemma pow_nat (a b : nat) : (10 ^ Z.of_nat (a + b) = 10 ^ Z.of_nat a * 10 ^ Z.of_nat b)%Z.
Proof. rewrite Nat2Z.inj_add. apply Z.pow_add_r; lia. Qed.
Lemma equals_refl n k : equals n k n (- Z.of_nat k).
Proof. exists 0, 0. cbn. lia. Qed.
Lemma lowest_equals m k n x : equals m k n x -> equals (fst (lowest m k)) (snd (lowest m k)) n x.
Proof.
  revert m. induction k as [|k IH]; intros m H; [exact H|]. cbn [lowest]. destruct (Z.eqb_spec (Z.rem m 10) 0) as [R|R]; [|exact H].
  apply IH. destruct H as (a & b & H1 & H2). exists a, (S b). split; [|lia]. rewrite <- H1.
  assert (M : m = (10 * Z.quot m 10)%Z) by (pose proof (Z.quot_rem' m 10); lia). rewrite M at 2.
  replace (S b) with (1 + b) by lia. rewrite pow_nat. change (10 ^ Z.of_nat 1)%Z with 10%Z. ring.
Qed.
Lemma shift_equals e m k n x : equals m k n x -> equals (fst (shift10 e (m, k))) (snd (shift10 e (m, k))) n (x + e).
Proof.
  intros H. unfold shift10. destruct (Z.leb_spec 0 e) as [He|He].
  - destruct H as (a & b & H1 & H2). destruct (Nat.leb_spec k (Z.to_nat e)) as [K|K]; cbn [fst snd].
    + exists (a + (Z.to_nat e - k)), b. split; [|lia]. rewrite pow_nat.
      replace (e - Z.of_nat k)%Z with (Z.of_nat (Z.to_nat e - k)) by lia. transitivity ((m * 10 ^ Z.of_nat b) * 10 ^ Z.of_nat (Z.to_nat e - k))%Z; [ring|rewrite H1; ring].
    + exists a, b. split; [exact H1|lia].
  - apply lowest_equals. destruct H as (a & b & H1 & H2). exists a, b. split; [exact H1|lia].
Qed.
Lemma dec_app a b : dec (a ++ b) = (dec a * 10 ^ N.of_nat (length b) + dec b)%N.
Proof.
  unfold dec. revert a. assert (G : forall b n, horner n b = (n * 10 ^ N.of_nat (length b) + horner 0 b)%N).
  { clear. induction b as [|d b IH]; intros n; [cbn; lia|]. cbn [horner length]. rewrite IH, (IH (10 * 0 + d)%N).
    replace (N.of_nat (S (length b))) with (N.succ (N.of_nat (length b))) by lia. rewrite N.pow_succ_r'. ring. }
  intros a. rewrite <- (G b (horner 0 a)). generalize 0%N. induction a as [|d a IH]; intros n; [reflexivity|apply IH].
Qed.
Lemma dec_zeros z : dec (repeat 0%N z) = 0%N.
Proof. induction z as [|z IH]; [reflexivity|exact IH]. Qed.
Lemma of_N_pow j : Z.of_N (10 ^ N.of_nat j) = (10 ^ Z.of_nat j)%Z.
Proof. rewrite N2Z.inj_pow. f_equal. lia. Qed.
(** digits with trailing zeros cut off the fraction *)
Lemma cut_equals (v : Z) ip fp : (v = 1 \/ v = -1)%Z -> Forall (fun d => (d < 10)%N) ip -> Forall (fun d => (d < 10)%N) fp ->
  equals (v * Z.of_N (N_of_digits (ip ++ rstrip0 fp))) (length (rstrip0 fp)) (v * Z.of_N (dec (ip ++ fp))) (- Z.of_nat (length fp)).
Proof.
  intros Hv Hi Hf. rewrite dec_fold by (apply Forall_app; split; [exact Hi|now apply digits_rstrip0]).
  destruct (rstrip0_zeros fp) as [j Ej]. set (f := rstrip0 fp) in *. clearbody f. subst fp. rewrite app_assoc, (dec_app (ip ++ f)), dec_zeros, !app_length, repeat_length.
  exists 0, j. split; [|lia]. rewrite N.add_0_r, N2Z.inj_mul, of_N_pow. cbn [Z.of_nat]. change (10 ^ 0)%Z with 1%Z. ring.
Qed.
Lemma tz_scale n x j : towards_zero (n * 10 ^ Z.of_nat j) (x - Z.of_nat j) = towards_zero n x.
Proof.
  unfold towards_zero. assert (P : (0 < 10 ^ Z.of_nat j)%Z) by (apply Z.pow_pos_nonneg; lia).
  destruct (Z.leb_spec 0 (x - Z.of_nat j)) as [H|H]; destruct (Z.leb_spec 0 x) as [H'|H']; try lia.
  - rewrite <- Z.mul_assoc, <- Z.pow_add_r by lia. do 2 f_equal. lia.
  - replace (Z.of_nat j) with (x + - (x - Z.of_nat j))%Z at 1 by lia. rewrite Z.pow_add_r, Z.mul_assoc by lia. apply Z.quot_mul. apply Z.pow_nonzero; lia.
  - replace (- (x - Z.of_nat j))%Z with (- x + Z.of_nat j)%Z by lia. rewrite Z.pow_add_r by lia. apply Z.quot_mul_cancel_r; [apply Z.pow_nonzero; lia|lia].
Qed.
Lemma equals_tz m k n x : equals m k n x -> towards_zero m (- Z.of_nat k) = towards_zero n x.
Proof.
  intros (a & b & H1 & H2). rewrite <- (tz_scale m _ b), <- (tz_scale n x a), H1. f_equal. lia.
Qed.
Lemma int_of_tz m k : (Z.abs (towards_zero m (- Z.of_nat k)) <= 2 ^ 53)%Z -> int_result (m, k) = Ret (towards_zero m (- Z.of_nat k)).
Proof.
  intros H. set (z := towards_zero m (- Z.of_nat k)) in *.
  assert (Q : Z.quot m (10 ^ Z.of_nat k) = z).
  { subst z. unfold towards_zero. destruct k as [|k]; [cbn [Z.of_nat Z.opp Z.leb Z.compare]; change (10 ^ 0)%Z with 1%Z; now rewrite Z.quot_1_r, Z.mul_1_r|].
    destruct (Z.leb_spec 0 (- Z.of_nat (S k))); [lia|]. now rewrite Z.opp_involutive. }
  rewrite <- (int_result_exact z H). unfold int_result. enough (G : int_of_number (m, k) = int_of_number (z, O)) by now rewrite G.
  unfold int_of_number. rewrite Q. change (10 ^ Z.of_nat 0)%Z with 1%Z. rewrite Z.quot_1_r.
  assert (P : (0 < 10 ^ Z.of_nat k)%Z) by (apply Z.pow_pos_nonneg; lia).
  destruct (Z.ltb_spec m 0) as [Hm|Hm]; destruct (Z.ltb_spec z 0) as [Hz|Hz]; try reflexivity.
  - assert (z = 0)%Z as ->. { pose proof (Z.quot_opp_l m (10 ^ Z.of_nat k) ltac:(lia)) as O. pose proof (Z.quot_pos (- m) (10 ^ Z.of_nat k) ltac:(lia) P). rewrite O, Q in H0. lia. }
    cbn. reflexivity.
  - pose proof (Z.quot_pos m (10 ^ Z.of_nat k) Hm P). lia.
Qed.

(** ** number() *)
Definition sgn (neg : bool) : Z := if neg then (-1)%Z else 1%Z.
Lemma sgn_mul (neg : bool) m : (if neg then - m else m)%Z = (sgn neg * m)%Z.
Proof. destruct neg; cbn [sgn]; lia. Qed.
Lemma sgn_unit neg : (sgn neg = 1 \/ sgn neg = -1)%Z.
Proof. destruct neg; auto. Qed.
Lemma mk_equals neg ip fp : Forall digit ip -> Forall digit fp ->
  equals (fst (mk_number neg ip fp)) (snd (mk_number neg ip fp)) (sgn neg * Z.of_N (value_of (ip ++ fp))) (- Z.of_nat (length fp)).
Proof.
  intros Hi Hf. unfold mk_number. cbn [fst snd]. rewrite sgn_mul, value_dec, dvals_app.
  replace (length fp) with (length (dvals fp)) by apply map_length.
  apply cut_equals; [apply sgn_unit|now apply digits_dvals..].
Qed.
Lemma equals_zero m k n x : equals m k n x -> (m = 0 <-> n = 0)%Z.
Proof.
  intros (a & b & H & _). assert (A : (10 ^ Z.of_nat a <> 0)%Z) by (apply Z.pow_nonzero; lia). assert (B : (10 ^ Z.of_nat b <> 0)%Z) by (apply Z.pow_nonzero; lia).
  split; intros ->; rewrite Z.mul_0_l in H; [symmetry in H|]; apply Z.mul_eq_0 in H as [H|H]; auto; contradiction.
Qed.
Lemma scaled_some e x y : scaled e x = Some y <-> ~ (fst x = 0 /\ 308 < e)%Z /\ y = shift10 e x.
Proof.
  unfold scaled. destruct (Z.ltb_spec 308 e); destruct (Z.eqb_spec (fst x) 0); cbn [andb]; split; try (intros [= <-]; split; [lia|reflexivity]); try (intros [A ->]; (reflexivity || (exfalso; lia))); discriminate.
Qed.
Definition esplit (r : str) : bool * str :=
  match r with x :: r' => if N.eqb x 45 then (true, r') else if N.eqb x 43 then (false, r') else (false, r) | [] => (false, []) end.
Lemma esplit_sound r : exists sg, r = sg ++ snd (esplit r) /\ sign sg (sgn (fst (esplit r))).
Proof.
  unfold esplit. destruct r as [|c w]; [exists []; split; [reflexivity|constructor]|]. destruct (N.eqb_spec c 45) as [->|]; [exists [45%N]; split; [reflexivity|constructor]|].
  destruct (N.eqb_spec c 43) as [->|]; [exists [43%N]; split; [reflexivity|constructor]|exists []; split; [reflexivity|constructor]].
Qed.
Lemma esplit_complete sg v t : sign sg v -> (match t with c :: _ => digit c | [] => True end) -> esplit (sg ++ t) = (Z.ltb v 0, t).
Proof.
  intros [] H; [|reflexivity..]. destruct t as [|c t]; [reflexivity|]. cbn [app esplit]. unfold digit in H. destruct (N.eqb_spec c 45); [lia|]. destruct (N.eqb_spec c 43); [lia|]. reflexivity.
Qed.
Lemma sgn_sign sg v : sign sg v -> sgn (Z.ltb v 0) = v.
Proof. intros []; reflexivity. Qed.
Lemma xexponent_esplit s : xexponent s = match s with
  | [] => Some 0%Z
  | c :: r => if (N.eqb c 101 || N.eqb c 69)%bool then
      match span asc_digit (snd (esplit r)) with
      | (ds, []) => Some (sgn (fst (esplit r)) * Z.of_N (N_of_digits (dvals ds)))%Z
      | _ => None
      end else None
  end.
Proof.
  destruct s as [|c r]; [reflexivity|]. cbn [xexponent]. destruct (_ || _)%bool; [|reflexivity].
  unfold esplit. destruct r as [|x r]; [reflexivity|].
  destruct (N.eqb x 45); [|destruct (N.eqb x 43)]; cbn [fst snd]; (destruct (span asc_digit _) as [ds [|]]; [|reflexivity]); cbn [sgn]; f_equal; lia.
Qed.
Lemma span_spec f s a b : span f s = (a, b) -> s = a ++ b /\ forallb f a = true /\ match b with c :: _ => f c = false | [] => True end.
Proof.
  intros H. split; [exact (span_app _ _ _ _ H)|]. split; [exact (span_forall _ _ _ _ H)|]. pose proof (span_stop _ _ _ _ H) as K. now destruct b.
Qed.
Lemma exponent_letter c : (N.eqb c 101 || N.eqb c 69)%bool = true <-> c = 101%N \/ c = 69%N.
Proof. rewrite orb_true_iff, !N.eqb_eq. reflexivity. Qed.
Lemma xexponent_spec s e : xexponent s = Some e <-> exponent s e.
Proof.
  rewrite xexponent_esplit. split.
  - destruct s as [|c r]; [intros [= <-]; constructor|]. destruct (_ || _)%bool eqn:C; [|discriminate]. apply exponent_letter in C.
    destruct (esplit_sound r) as (sg & E & Hs). destruct (esplit r) as [neg w]. cbn [fst snd] in *. subst r.
    destruct (span asc_digit w) as [ds rest] eqn:Sp. apply span_spec in Sp as (-> & Hd & _). apply digits_ok in Hd.
    destruct rest as [|? ?]; [|discriminate]. rewrite app_nil_r, value_digits by exact Hd. intros [= <-]. now constructor.
  - intros [|c sg v ds C Hs Hd]; [reflexivity|]. apply exponent_letter in C. rewrite C.
    rewrite (esplit_complete _ _ _ Hs) by (destruct Hd; [exact I|assumption]). cbn [fst snd]. rewrite span_digits by now apply digits_ok. rewrite value_digits by exact Hd.
    now rewrite (sgn_sign _ _ Hs).
Qed.
Lemma exponent_head ex e : exponent ex e -> match ex with c :: _ => asc_digit c = false /\ N.eqb c 46 = false | [] => e = 0%Z end.
Proof. intros [|c sg v ds [->| ->] _ _]; [reflexivity|split; reflexivity..]. Qed.

Lemma xnum_complete (neg : bool) t ds k ex e :
  mantissa t ds k \/ neg = true /\ t = [] /\ ds = [] /\ k = 0 -> exponent ex e -> ~ (sgn neg * Z.of_N (value_of ds) = 0 /\ 308 < e)%Z ->
  exists m k', xnum_body neg (t ++ ex) = Some (m, k') /\ equals m k' (sgn neg * Z.of_N (value_of ds)) (e - Z.of_nat k).
Proof.
  intros Hm He Hz. pose proof (exponent_head _ _ He) as Hh. pose proof He as He'. apply xexponent_spec in He'.
  assert (K : forall ip fp, Forall digit ip -> Forall digit fp -> ip ++ fp = ds -> length fp = k ->
     exists m k', scaled e (mk_number neg ip fp) = Some (m, k') /\ equals m k' (sgn neg * Z.of_N (value_of ds)) (e - Z.of_nat k)).
  { intros ip fp Hi Hf Ed Ek. pose proof (mk_equals neg ip fp Hi Hf) as Q. rewrite Ed, Ek in Q. destruct (mk_number neg ip fp) as [m0 k0] eqn:M. cbn [fst snd] in Q.
    pose proof (shift_equals e _ _ _ _ Q) as Q'. destruct (shift10 e (m0, k0)) as [m k'] eqn:Sh. exists m, k'. split.
    - apply scaled_some. cbn [fst]. rewrite (equals_zero _ _ _ _ Q). split; [exact Hz|now rewrite Sh].
    - replace (e - Z.of_nat k)%Z with (- Z.of_nat k + e)%Z by lia. exact Q'. }
  assert (W : forall ip, Forall digit ip -> ip = ds -> k = 0 -> (ip <> [] \/ neg = true) ->
     exists m k', xnum_body neg (ip ++ ex) = Some (m, k') /\ equals m k' (sgn neg * Z.of_N (value_of ds)) (e - Z.of_nat k)).
  { intros ip Hi Ed Ek Hn. unfold xnum_body. rewrite span_all; [|now apply digits_ok|destruct ex; [exact I|apply Hh]].
    destruct ex as [|c ex].
    - subst e. pose proof (mk_equals neg ip [] Hi (Forall_nil _)) as Q. rewrite app_nil_r in Q. assert (Ev : value_of ip = value_of ds) by now rewrite Ed. rewrite Ev in Q. exists (fst (mk_number neg ip [])), (snd (mk_number neg ip [])).
      rewrite <- surjective_pairing. split; [|rewrite Ek; exact Q]. destruct ip; [destruct Hn as [Hn| ->]; [contradiction|reflexivity]|destruct neg; reflexivity].
    - destruct Hh as [_ Hp]. rewrite Hp. destruct (K ip [] Hi (Forall_nil _) ltac:(now rewrite app_nil_r) ltac:(now subst k)) as (m & k' & A & B).
      exists m, k'. split; [|exact B]. rewrite He', A. destruct ip; [destruct Hn as [Hn| ->]; [contradiction|reflexivity]|destruct neg; reflexivity]. }
  destruct Hm as [Hm|(-> & -> & -> & ->)]; [|exact (W [] (Forall_nil _) eq_refl eq_refl (or_intror eq_refl))]. destruct Hm as [ip Hn Hi|ip fp Hn Hi Hf].
  - apply (W ip); auto.
  - rewrite <- app_assoc. cbn [app]. unfold xnum_body. rewrite span_all; [|now apply digits_ok|reflexivity]. cbn [N.eqb Pos.eqb].
    rewrite span_all; [|now apply digits_ok|destruct ex; [exact I|apply Hh]].
    destruct (K ip fp Hi Hf eq_refl eq_refl) as (m & k' & A & B). exists m, k'. split; [|exact B]. rewrite He', A.
    destruct ip, fp; try reflexivity. destruct Hn; contradiction.
Qed.
Lemma xnum_sound (neg : bool) s y : xnum_body neg s = Some y -> exists t ds k ex e, s = t ++ ex /\
  (mantissa t ds k \/ neg = true /\ t = [] /\ ds = [] /\ k = 0) /\ exponent ex e /\ ~ (sgn neg * Z.of_N (value_of ds) = 0 /\ 308 < e)%Z.
Proof.
  unfold xnum_body. destruct (span asc_digit s) as [ip rest] eqn:Sp. apply span_spec in Sp as (-> & Hi & Hr). apply digits_ok in Hi.
  destruct rest as [|c r].
  - intros H. exists ip, ip, 0, [], 0%Z. split; [reflexivity|]. split; [|split; [constructor|lia]].
    destruct ip as [|x ip]; [|left; constructor; [discriminate|exact Hi]]. destruct neg; [right; auto|discriminate].
  - destruct (N.eqb_spec c 46) as [->|Hc].
    + destruct (span asc_digit r) as [fp rest2] eqn:Sp2. apply span_spec in Sp2 as (-> & Hf & _). apply digits_ok in Hf. intros H.
      assert (G : (ip <> [] \/ fp <> []) /\ exists e, xexponent rest2 = Some e /\ scaled e (mk_number neg ip fp) = Some y).
      { destruct ip as [|x ip]; [destruct fp as [|x fp]; [discriminate|]|]; (split; [try (left; discriminate); right; discriminate|]);
          destruct (xexponent rest2) as [e|]; try discriminate; eauto. }
      destruct G as (Hn & e & He & Hsc). apply xexponent_spec in He. apply scaled_some in Hsc as (Hz & _).
      rewrite (equals_zero _ _ _ _ (mk_equals neg ip fp Hi Hf)) in Hz.
      exists (ip ++ 46%N :: fp), (ip ++ fp), (length fp), rest2, e. split; [now rewrite <- app_assoc|]. split; [left; now constructor|]. now split.
    + intros H. assert (G : (ip <> [] \/ neg = true) /\ exists e, xexponent (c :: r) = Some e /\ scaled e (mk_number neg ip []) = Some y).
      { destruct ip as [|x ip]; [destruct neg; [|discriminate]|]; (split; [try (left; discriminate); now right|]); destruct (xexponent (c :: r)) as [e|]; try discriminate; eauto;
          destruct neg; try discriminate; eauto. }
      destruct G as (Hn & e & He & Hsc). apply xexponent_spec in He. apply scaled_some in Hsc as (Hz & _).
      rewrite (equals_zero _ _ _ _ (mk_equals neg ip [] Hi (Forall_nil _))), app_nil_r in Hz.
      exists ip, ip, 0, (c :: r), e. split; [reflexivity|]. split; [|now split].
      destruct ip as [|x ip]; [right; destruct Hn as [Hn|Hn]; [contradiction|auto]|left; constructor; [discriminate|exact Hi]].
Qed.
Lemma xnumber_neg s : xnumber s = let (neg, t) := match strip is_xws s with c :: r => if N.eqb c 45 then (true, r) else (false, c :: r) | [] => (false, []) end in xnum_body neg t.
Proof. rewrite xnumber_body. destruct (strip is_xws s) as [|c r]; [reflexivity|]. destruct (N.eqb c 45); reflexivity. Qed.
Lemma mantissa_chars t ds k : mantissa t ds k -> Forall (fun c => digit c \/ c = 46%N) t /\ t <> [].
Proof.
  assert (K : forall g, Forall digit g -> Forall (fun c => digit c \/ c = 46%N) g) by (intros g; apply Forall_impl; auto).
  intros [ip Hn Hi|ip fp Hn Hi Hf]; [now split; [apply K|]|]. split; [apply Forall_app; split; [now apply K|constructor; [now right|now apply K]]|]. now destruct ip.
Qed.
Lemma exponent_chars ex e : exponent ex e -> Forall (fun c => digit c \/ c = 101%N \/ c = 69%N \/ c = 43%N \/ c = 45%N) ex.
Proof.
  intros [|c sg v ds C Hs Hd]; [constructor|]. constructor; [tauto|]. apply Forall_app. split.
  - eapply Forall_impl; [|apply (sign_chars _ _ Hs)]. cbn. tauto.
  - eapply Forall_impl; [|exact Hd]. cbn. tauto.
Qed.
Theorem xnumber_complete s n x : libxml_number s n x -> exists m k, xnumber s = Some (m, k) /\ equals m k n x.
Proof.
  intros (l & sg & v & t & ds & k & ex & e & r & -> & Hl & Hr & Hsg & Hm & He & -> & -> & Hz). apply blanks_xml in Hl, Hr.
  rewrite xnumber_neg. replace (l ++ sg ++ t ++ ex ++ r) with (l ++ (sg ++ t ++ ex) ++ r) by now rewrite <- !app_assoc.
  assert (NB : forall c, digit c \/ c = 46%N \/ c = 101%N \/ c = 69%N \/ c = 43%N \/ c = 45%N -> is_xws c = false).
  { intros c Hc. apply not_true_iff_false. rewrite xblank_ok. unfold xml_blank, digit in *. lia. }
  rewrite strip_mid; auto.
  - assert (Q : match sg ++ t ++ ex with c :: r => if N.eqb c 45 then (true, r) else (false, c :: r) | [] => (false, []) end = (Z.ltb v 0, t ++ ex)).
    { destruct Hsg; [|reflexivity]. cbn [app]. destruct Hm as [Hm|(C & _)]; [|now destruct C]. destruct (mantissa_chars _ _ _ Hm) as [Hc Hn]. destruct t as [|c t]; [contradiction|].
      inversion_clear Hc as [|? ? Hx _]. cbn [app]. destruct (N.eqb_spec c 45); [exfalso; unfold digit in Hx; lia|reflexivity]. }
    match goal with |- exists _ _, (let (_, _) := ?q in _) = _ /\ _ => replace q with (Z.ltb v 0, t ++ ex) by exact (eq_sym Q) end.
    assert (V : sgn (Z.ltb v 0) = v) by (destruct Hsg; reflexivity). pose proof (xnum_complete (Z.ltb v 0) t ds k ex e) as X. rewrite V in X. apply X; auto.
    destruct Hm as [Hm|(C & -> & -> & ->)]; [now left|right]. destruct Hsg; [contradiction|]. auto.
  - apply Forall_app. split; [|apply Forall_app; split].
    + destruct Hsg; constructor; [reflexivity|constructor].
    + destruct Hm as [Hm|(_ & -> & _)]; [|constructor]. eapply Forall_impl; [|apply (mantissa_chars _ _ _ Hm)]. intros c Hc. apply NB. cbn in Hc. tauto.
    + eapply Forall_impl; [|apply (exponent_chars _ _ He)]. intros c Hc. apply NB. cbn in Hc. tauto.
Qed.
Theorem xnumber_sound s y : xnumber s = Some y -> exists n x, libxml_number s n x.
Proof.
  rewrite xnumber_neg. destruct (strip_split is_xws s) as (l & r & E & Hl & Hr). set (w := strip is_xws s) in *. clearbody w. subst s. apply blanks_xml in Hl, Hr.
  set (q := match w with c :: r => if N.eqb c 45 then (true, r) else (false, c :: r) | [] => (false, []) end).
  assert (Q : exists sg, w = sg ++ snd q /\ minus_only sg (sgn (fst q)) /\ (fst q = true -> sg <> [])).
  { subst q. destruct w as [|c w]; [exists []; repeat split; [constructor|discriminate]|]. destruct (N.eqb_spec c 45) as [->|]; [exists [45%N]; repeat split; [constructor|discriminate]|].
    exists []. repeat split; [constructor|discriminate]. }
  clearbody q. destruct q as [neg w']. cbn [fst snd] in Q. destruct Q as (sg & -> & Hs & Hn). intros H.
  apply xnum_sound in H as (t & ds & k & ex & e & -> & Hm & He & Hz).
  exists (sgn neg * Z.of_N (value_of ds))%Z, (e - Z.of_nat k)%Z, l, sg, (sgn neg), t, ds, k, ex, e, r.
  split; [now rewrite <- !app_assoc|]. split; [exact Hl|]. split; [exact Hr|]. split; [exact Hs|]. split; [|now repeat split].
  destruct Hm as [Hm|(A & -> & -> & ->)]; [now left|right; auto].
Qed.

(** ** float() *)
Lemma dec_number_equals neg ip fp e : Forall digit ip -> Forall digit fp ->
  equals (fst (dec_number neg (dvals ip) (dvals fp) e)) (snd (dec_number neg (dvals ip) (dvals fp) e)) (sgn neg * Z.of_N (value_of (ip ++ fp))) (e - Z.of_nat (length fp)).
Proof.
  intros Hi Hf. unfold dec_number. cbv zeta. rewrite sgn_mul. replace (e - Z.of_nat (length fp))%Z with (- Z.of_nat (length (dvals fp)) + e)%Z by (unfold dvals; rewrite map_length; lia).
  apply shift_equals. rewrite value_dec, dvals_app. apply cut_equals; [apply sgn_unit|now apply digits_dvals..].
Qed.
Lemma opt_digits_sound s out : opt_digits s = Some out -> exists ds, (s = [] /\ ds = [] \/ grouped s ds) /\ Forall digit ds /\ out = dvals ds.
Proof.
  unfold opt_digits. destruct s as [|c s]; [intros [= <-]; exists []; repeat split; auto|]. intros H. apply int_digits_sound in H as (ds & G & Hd & ->). exists ds. auto.
Qed.
Lemma opt_digits_complete s ds : grouped s ds -> Forall digit ds /\ opt_digits s = Some (dvals ds) /\ dvals ds <> [].
Proof.
  intros G. destruct (int_digits_complete _ _ G) as (Hd & Hi). destruct (grouped_chars _ _ G) as (_ & c & r & -> & Hc). split; [exact Hd|]. split.
  - exact (Hi []).
  - destruct G as [[|]|[|]]; (contradiction || discriminate).
Qed.
Lemma py_expo_esplit s : py_exponent s = match s with
  | [] => Some 0%Z
  | c :: r => if (N.eqb c 101 || N.eqb c 69)%bool then
      match int_digits false [] (snd (esplit r)) with Some ds => Some (sgn (fst (esplit r)) * Z.of_N (N_of_digits ds))%Z | None => None end else None
  end.
Proof.
  destruct s as [|c r]; [reflexivity|]. cbn [py_exponent]. destruct (_ || _)%bool; [|reflexivity].
  unfold esplit. destruct r as [|x r]; [reflexivity|].
  destruct (N.eqb x 45); [|destruct (N.eqb x 43)]; cbn [fst snd]; (match goal with |- context [int_digits ?a ?b ?c] => destruct (int_digits a b c) as [ds|] end; [|reflexivity]); cbn [sgn]; f_equal; lia.
Qed.
Lemma py_expo_spec s e : py_exponent s = Some e <-> py_expo s e.
Proof.
  rewrite py_expo_esplit. split.
  - destruct s as [|c r]; [intros [= <-]; constructor|]. destruct (_ || _)%bool eqn:C; [|discriminate]. apply exponent_letter in C.
    destruct (esplit_sound r) as (sg & E & Hs). destruct (esplit r) as [neg w]. cbn [fst snd] in *. subst r.
    destruct (int_digits false [] w) as [ds|] eqn:D; [|discriminate]. apply int_digits_sound in D as (ds' & G & Hd & ->). cbn [rev app].
    rewrite value_digits by exact Hd. intros [= <-]. now apply (py_some_exponent c sg (sgn neg) w ds').
  - intros [|c sg v t ds C Hs G]; [reflexivity|]. apply exponent_letter in C. rewrite C.
    destruct (grouped_chars _ _ G) as (_ & x & r & E & Hx). rewrite (esplit_complete _ _ _ Hs) by (rewrite E; exact Hx). cbn [fst snd].
    destruct (int_digits_complete _ _ G) as (Hd & Hi). rewrite Hi. cbn [rev app]. rewrite value_digits by exact Hd. now rewrite (sgn_sign _ _ Hs).
Qed.
Lemma py_expo_head ex e : py_expo ex e -> match ex with c :: _ => dig_us c = false /\ N.eqb c 46 = false | [] => e = 0%Z end.
Proof. intros [|c sg v t ds [->| ->] _ _]; [reflexivity|split; reflexivity..]. Qed.
Lemma grouped_us t ds : grouped t ds -> forallb dig_us t = true.
Proof.
  intros G. destruct (grouped_chars _ _ G) as (H & _). apply forallb_forall. intros c Hc. rewrite Forall_forall in H. unfold dig_us. apply orb_true_iff.
  destruct (H c Hc) as [D| ->]; [left; now apply digit_ok|right; reflexivity].
Qed.
(** what [py_float] does after the sign *)
Definition fsplit (s : str) : str * str * str :=
  let (ip, rest) := span dig_us s in
  match rest with c :: r => if N.eqb c 46 then let (fp, rest') := span dig_us r in (ip, fp, rest') else (ip, [], rest) | [] => (ip, [], []) end.
Definition fbody (neg : bool) (s : str) : option number :=
  let '(ip, fp, rest) := fsplit s in
  match opt_digits ip, opt_digits fp, py_exponent rest with
  | Some [], Some [], _ => None
  | Some i, Some f, Some e => Some (dec_number neg i f e)
  | _, _, _ => None
  end.
Definition fword (s : str) : option Mappers.pyfloat :=
  let w := map lower s in
  if (str_eqb w (u "inf") || str_eqb w (u "infinity"))%bool then Some FInf else if str_eqb w (u "nan") then Some FNan else None.
Lemma py_float_body s : py_float s =
  let (neg, t) := esplit (strip py_space s) in match fword t with Some w => Some w | None => option_map FNum (fbody neg t) end.
Proof.
  assert (G : forall neg t, (let w := map lower t in
    if (str_eqb w (u "inf") || str_eqb w (u "infinity"))%bool then Some FInf
    else if str_eqb w (u "nan") then Some FNan
    else
      let (ip, rest) := span dig_us t in
      let '(fp, rest) := match rest with c :: r => if N.eqb c 46 then span dig_us r else ([], rest) | [] => ([], []) end in
      match opt_digits ip, opt_digits fp, py_exponent rest with
      | Some [], Some [], _ => None
      | Some i, Some f, Some e => Some (FNum (dec_number neg i f e))
      | _, _, _ => None
      end) = match fword t with Some w => Some w | None => option_map FNum (fbody neg t) end).
  { intros neg t. unfold fword. cbv zeta. destruct (_ || _)%bool; [reflexivity|]. destruct (str_eqb _ _); [reflexivity|]. unfold fbody, fsplit.
    destruct (span dig_us t) as [ip [|c r]].
    - destruct (opt_digits ip) as [[|]|]; try reflexivity.
    - destruct (N.eqb c 46).
      + destruct (span dig_us r) as [fp rest]. destruct (opt_digits ip) as [[|]|]; destruct (opt_digits fp) as [[|]|]; destruct (py_exponent rest); reflexivity.
      + destruct (opt_digits ip) as [[|]|]; cbn [opt_digits]; destruct (py_exponent (c :: r)); reflexivity. }
  unfold py_float. cbv zeta. destruct (strip py_space s) as [|c w]; [exact (G false [])|]. cbn [esplit].
  destruct (N.eqb c 45); [apply G|]. destruct (N.eqb c 43); apply G.
Qed.
Lemma fword_num t : match t with c :: _ => digit c \/ c = 46%N | [] => True end -> fword t = None.
Proof.
  intros H. unfold fword. destruct t as [|c t]; [reflexivity|]. cbn [map]. cbv zeta.
  assert (L : lower c = c) by (unfold lower, in_range; destruct (N.leb_spec 65 c); destruct (N.leb_spec c 90); cbn [andb]; auto; unfold digit in H; lia). rewrite L.
  assert (K : forall x r, x <> c -> str_eqb (c :: map lower t) (x :: r) = false).
  { intros x r Hx. apply not_true_iff_false. intros E. apply str_eqb_eq in E. injection E as E _. congruence. }
  change (u "inf") with [105%N; 110%N; 102%N]. change (u "infinity") with (105%N :: tl (u "infinity")). change (u "nan") with [110%N; 97%N; 110%N].
  rewrite !K; [reflexivity|intros <-; unfold digit in H; lia..].
Qed.
Lemma fbody_complete neg t ds k ex e : py_mantissa t ds k -> py_expo ex e ->
  exists m k', fbody neg (t ++ ex) = Some (m, k') /\ equals m k' (sgn neg * Z.of_N (value_of ds)) (e - Z.of_nat k).
Proof.
  intros Hm He. pose proof (py_expo_head _ _ He) as Hh. pose proof He as He'. apply py_expo_spec in He'.
  assert (Hus : match ex with [] => True | c :: _ => dig_us c = false end) by (destruct ex; [exact I|apply Hh]).
  assert (K : forall ip fp i f, fsplit (t ++ ex) = (ip, fp, ex) -> opt_digits ip = Some (dvals i) -> opt_digits fp = Some (dvals f) -> Forall digit i -> Forall digit f ->
     i ++ f = ds -> length f = k -> (dvals i <> [] \/ dvals f <> []) ->
     exists m k', fbody neg (t ++ ex) = Some (m, k') /\ equals m k' (sgn neg * Z.of_N (value_of ds)) (e - Z.of_nat k)).
  { intros ip fp i f Es Ei Ef Hi Hf Ed Ek Hn. unfold fbody. rewrite Es, Ei, Ef, He'. pose proof (dec_number_equals neg i f e Hi Hf) as Q. rewrite Ed, Ek in Q.
    exists (fst (dec_number neg (dvals i) (dvals f) e)), (snd (dec_number neg (dvals i) (dvals f) e)). split; [|exact Q]. rewrite <- surjective_pairing.
    destruct (dvals i); [destruct (dvals f); [destruct Hn; contradiction|reflexivity]|destruct (dvals f); reflexivity]. }
  destruct Hm as [t ds G|t ds G|t ds G|t ds t' ds' G G'].
  - destruct (opt_digits_complete _ _ G) as (Hd & Ho & Hn). apply (K t [] ds []); auto; [|apply app_nil_r]. unfold fsplit. rewrite (span_all _ _ _ (grouped_us _ _ G) Hus).
    destruct ex as [|c r]; [reflexivity|]. destruct Hh as [_ ->]. reflexivity.
  - destruct (opt_digits_complete _ _ G) as (Hd & Ho & Hn). apply (K t [] ds []); auto; [|apply app_nil_r]. unfold fsplit. rewrite <- app_assoc. cbn [app].
    rewrite span_all; [|exact (grouped_us _ _ G)|reflexivity]. cbn [N.eqb Pos.eqb]. now rewrite (span_all dig_us [] ex eq_refl Hus : span dig_us ex = ([], ex)).
  - destruct (opt_digits_complete _ _ G) as (Hd & Ho & Hn). apply (K [] t [] ds); auto. unfold fsplit.
    replace (span dig_us ((46%N :: t) ++ ex)) with (([] : str), (46%N :: t) ++ ex) by reflexivity. cbn [app N.eqb Pos.eqb]. now rewrite (span_all _ _ _ (grouped_us _ _ G) Hus).
  - destruct (opt_digits_complete _ _ G) as (Hd & Ho & Hn). destruct (opt_digits_complete _ _ G') as (Hd' & Ho' & Hn'). apply (K t t' ds ds'); auto. unfold fsplit. rewrite <- app_assoc. cbn [app].
    rewrite span_all; [|exact (grouped_us _ _ G)|reflexivity]. cbn [N.eqb Pos.eqb]. now rewrite (span_all _ _ _ (grouped_us _ _ G') Hus).
Qed.
Lemma fbody_sound neg s y : fbody neg s = Some y -> exists t ds k ex e, s = t ++ ex /\ py_mantissa t ds k /\ py_expo ex e.
Proof.
  unfold fbody, fsplit. destruct (span dig_us s) as [ip rest] eqn:Sp. apply span_spec in Sp as (-> & _ & _).
  assert (K : forall fp rest', (exists i f, opt_digits ip = Some i /\ opt_digits fp = Some f /\ (i <> [] \/ f <> []) /\ exists e, py_exponent rest' = Some e) ->
     exists i f e, (ip = [] /\ i = [] \/ grouped ip i) /\ (fp = [] /\ f = [] \/ grouped fp f) /\ (i <> [] \/ f <> []) /\ py_expo rest' e).
  { intros fp rest' (i & f & Hi & Hf & Hn & e & He). apply opt_digits_sound in Hi as (i' & Gi & _ & ->). apply opt_digits_sound in Hf as (f' & Gf & _ & ->).
    apply py_expo_spec in He. exists i', f', e. repeat split; auto. destruct Hn as [Hn|Hn]; [left|right]; intros ->; now apply Hn. }
  assert (L : forall fp rest', match opt_digits ip, opt_digits fp, py_exponent rest' with
     | Some [], Some [], _ => None | Some i, Some f, Some e => Some (dec_number neg i f e) | _, _, _ => None end = Some y ->
     exists i f, opt_digits ip = Some i /\ opt_digits fp = Some f /\ (i <> [] \/ f <> []) /\ exists e, py_exponent rest' = Some e).
  { intros fp rest' H. destruct (opt_digits ip) as [i|]; [|discriminate]. destruct (opt_digits fp) as [f|]; [|destruct i; discriminate].
    exists i, f. destruct (py_exponent rest') as [e|]; [|destruct i; destruct f; discriminate]. repeat split; eauto. destruct i; [destruct f; [discriminate|right; discriminate]|left; discriminate]. }
  assert (W : forall rest', (exists i f e, (ip = [] /\ i = [] \/ grouped ip i) /\ (([] : str) = [] /\ f = [] \/ grouped [] f) /\ (i <> [] \/ f <> []) /\ py_expo rest' e) ->
     exists t ds k ex e, ip ++ rest' = t ++ ex /\ py_mantissa t ds k /\ py_expo ex e).
  { intros rest' (i & f & e & Gi & Gf & Hn & He). assert (f = []) as -> by (destruct Gf as [[_ ->]|Gf]; [reflexivity|apply grouped_chars in Gf as (_ & ? & ? & C & _); discriminate]).
    exists ip, i, 0, rest', e. split; [reflexivity|]. split; [|exact He]. destruct Gi as [[_ ->]|Gi]; [destruct Hn; contradiction|now apply py_whole]. }
  destruct rest as [|c r]; [intros H; now apply W, K, L|]. destruct (N.eqb_spec c 46) as [->|]; [|intros H; now apply W, K, L].
  destruct (span dig_us r) as [fp rest'] eqn:Sp'. apply span_spec in Sp' as (-> & _ & _). intros H. apply L, K in H as (i & f & e & Gi & Gf & Hn & He).
  destruct Gi as [[-> ->]|Gi]; destruct Gf as [[-> ->]|Gf].
  - destruct Hn; contradiction.
  - exists (46%N :: fp), f, (length f), rest', e. split; [reflexivity|]. split; [now apply py_point2|exact He].
  - exists (ip ++ [46%N]), i, 0, rest', e. split; [now rewrite <- app_assoc|]. split; [now apply py_point1|exact He].
  - exists (ip ++ 46%N :: fp), (i ++ f), (length f), rest', e. split; [now rewrite <- app_assoc|]. split; [now apply py_point3|exact He].
Qed.
Lemma py_mantissa_chars t ds k : py_mantissa t ds k -> Forall (fun c => digit c \/ c = 95%N \/ c = 46%N) t /\ exists c r, t = c :: r /\ (digit c \/ c = 46%N).
Proof.
  assert (K : forall g ds, grouped g ds -> Forall (fun c => digit c \/ c = 95%N \/ c = 46%N) g).
  { intros g d G. eapply Forall_impl; [|apply (grouped_chars _ _ G)]. cbn. tauto. }
  intros [t0 ds0 G|t0 ds0 G|t0 ds0 G|t0 ds0 t' ds' G G'].
  - split; [exact (K _ _ G)|]. destruct (grouped_chars _ _ G) as (_ & c & r & -> & H). eauto.
  - split; [apply Forall_app; split; [exact (K _ _ G)|constructor; [tauto|constructor]]|]. destruct (grouped_chars _ _ G) as (_ & c & r & -> & H). cbn [app]. eauto.
  - split; [constructor; [tauto|exact (K _ _ G)]|eauto].
  - split; [apply Forall_app; split; [exact (K _ _ G)|constructor; [tauto|exact (K _ _ G')]]|]. destruct (grouped_chars _ _ G) as (_ & c & r & -> & H). cbn [app]. eauto.
Qed.
Lemma py_expo_chars ex e : py_expo ex e -> Forall (fun c => digit c \/ c = 95%N \/ c = 101%N \/ c = 69%N \/ c = 43%N \/ c = 45%N) ex.
Proof.
  intros [|c sg v t ds C Hs G]; [constructor|]. constructor; [tauto|]. apply Forall_app. split.
  - eapply Forall_impl; [|apply (sign_chars _ _ Hs)]. cbn. tauto.
  - eapply Forall_impl; [|apply (grouped_chars _ _ G)]. cbn. tauto.
Qed.
Theorem py_float_complete s n x : python_float s n x -> exists m k, py_float s = Some (FNum (m, k)) /\ equals m k n x.
Proof.
  intros (l & sg & v & t & ds & k & ex & e & r & -> & Hl & Hr & Hsg & Hm & He & -> & ->). apply blanks_py in Hl, Hr.
  rewrite py_float_body. replace (l ++ sg ++ t ++ ex ++ r) with (l ++ (sg ++ t ++ ex) ++ r) by now rewrite <- !app_assoc.
  assert (NB : forall c, digit c \/ c = 95%N \/ c = 46%N \/ c = 101%N \/ c = 69%N \/ c = 43%N \/ c = 45%N -> py_space c = false).
  { intros c Hc. apply not_true_iff_false. rewrite pyblank_ok. unfold py_blank, digit in *. lia. }
  destruct (py_mantissa_chars _ _ _ Hm) as (Hc & c0 & r0 & E0 & H0).
  rewrite strip_mid; auto.
  - assert (Q : esplit (sg ++ t ++ ex) = (Z.ltb v 0, t ++ ex)).
    { destruct Hsg; [|reflexivity..]. rewrite E0. cbn [app esplit]. destruct (N.eqb_spec c0 45); [exfalso; unfold digit in H0; lia|]. destruct (N.eqb_spec c0 43); [exfalso; unfold digit in H0; lia|]. reflexivity. }
    rewrite Q. rewrite fword_num by (rewrite E0; exact H0). pose proof (fbody_complete (Z.ltb v 0) t ds k ex e Hm He) as X. rewrite (sgn_sign _ _ Hsg) in X.
    destruct X as (m & k' & -> & X). exists m, k'. split; [reflexivity|exact X].
  - apply Forall_app. split; [|apply Forall_app; split].
    + eapply Forall_impl; [|apply (sign_chars _ _ Hsg)]. intros c Hx. apply NB. cbn in Hx. tauto.
    + eapply Forall_impl; [|exact Hc]. intros c Hx. apply NB. cbn in Hx. tauto.
    + eapply Forall_impl; [|apply (py_expo_chars _ _ He)]. intros c Hx. apply NB. cbn in Hx. tauto.
Qed.
Theorem py_float_sound s y : py_float s = Some (FNum y) -> exists n x, python_float s n x.
Proof.
  rewrite py_float_body. destruct (strip_split py_space s) as (l & r & E & Hl & Hr). set (w := strip py_space s) in *. clearbody w. subst s. apply blanks_py in Hl, Hr.
  destruct (esplit_sound w) as (sg & E & Hs). destruct (esplit w) as [neg w']. cbn [fst snd] in E, Hs. subst w.
  destruct (fword w') as [f|] eqn:F.
  - unfold fword in F. cbv zeta in F. destruct (_ || _)%bool; [injection F as <-; discriminate|]. destruct (str_eqb _ _); [injection F as <-; discriminate|discriminate].
  - destruct (fbody neg w') as [z|] eqn:B; [|discriminate]. intros _. apply fbody_sound in B as (t & ds & k & ex & e & -> & Hm & He).
    exists (sgn neg * Z.of_N (value_of ds))%Z, (e - Z.of_nat k)%Z, l, sg, (sgn neg), t, ds, k, ex, e, r. split; [now rewrite <- !app_assoc|]. now repeat split.
Qed.
(** the words *)
Definition py_word (s : str) (ws : list str) : Prop := exists l sg v t r w,
  s = l ++ sg ++ t ++ r /\ Forall py_blank l /\ Forall py_blank r /\ sign sg v /\ map lower t = w /\ In w ws.
Lemma py_float_none s : py_float s = None -> (forall n x, ~ python_float s n x).
Proof. intros H n x P. apply py_float_complete in P as (m & k & P & _). congruence. Qed.
