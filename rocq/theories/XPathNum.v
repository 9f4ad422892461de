(** Numbers in XPath expressions (C83): proofs. *)
From Coq Require Import String Arith.
From Verif Require Import XPathSpec XPathParser XPathParseProofs XPathLexProofs XPathRender XPathRoundTrip XPathText
  LexSpec XPathMisc MapperProofs NumberSpec XPathLit.

(** ** values of digit sequences *)
Lemma horner_acc a ds : horner a ds = (a * 10 ^ N.of_nat (List.length ds) + dec ds)%N.
Proof.
  unfold dec. revert a. induction ds as [|d ds IH]; intros a; cbn [horner List.length].
  - cbn. lia.
  - rewrite IH, (IH (10 * 0 + d)%N). rewrite Nat2N.inj_succ, N.pow_succ_r'. ring.
Qed.

Lemma horner_app x a b : horner x (a ++ b) = horner (horner x a) b.
Proof. revert x. induction a as [|d a IH]; intros x; cbn [app horner]; [reflexivity|apply IH]. Qed.

Lemma dec_app a b : dec (a ++ b) = (dec a * 10 ^ N.of_nat (List.length b) + dec b)%N.
Proof. unfold dec at 1. rewrite horner_app. apply horner_acc. Qed.

Lemma dec_cons d l : dec (d :: l) = (d * 10 ^ N.of_nat (List.length l) + dec l)%N.
Proof. exact (dec_app [d] l). Qed.

Lemma pow_pos k : (0 < 10 ^ k)%N.
Proof. apply N.neq_0_lt_0, N.pow_nonzero. lia. Qed.

Lemma dec_lt ds : decimal_digits ds -> (dec ds < 10 ^ N.of_nat (List.length ds))%N.
Proof.
  induction 1 as [|d l Hd _ IH]; [reflexivity|]. rewrite dec_cons. cbn [List.length]. rewrite Nat2N.inj_succ, N.pow_succ_r'.
  set (p := (10 ^ N.of_nat (List.length l))%N) in *. nia.
Qed.

Lemma dec_fold l : decimal_digits l -> N_of_digits l = dec l.
Proof.
  intros H. rewrite (N_of_digits_fold l H). unfold dec.
  assert (E : forall a, fold_left (fun a d => (a * 10 + d)%N) l a = horner a l).
  { clear. induction l as [|d l IH]; intros a; [reflexivity|]. cbn [fold_left horner]. rewrite IH. f_equal. lia. }
  apply E.
Qed.

Lemma dec_zeros z l : dec (repeat 0%N z ++ l) = dec l.
Proof. induction z as [|z IH]; [reflexivity|]. cbn [repeat app]. rewrite dec_cons, IH. lia. Qed.

Lemma dec_zeros_r z l : dec (l ++ repeat 0%N z) = (dec l * 10 ^ N.of_nat z)%N.
Proof.
  rewrite dec_app, repeat_length. assert (E : dec (repeat 0%N z) = 0%N).
  { rewrite <- (app_nil_r (repeat 0%N z)). now rewrite dec_zeros. } rewrite E. lia.
Qed.

Lemma strip0_zeros l : exists z, l = repeat 0%N z ++ strip0 l /\ z = lead0 l.
Proof.
  induction l as [|d l IH]; [exists 0; auto|]. cbn [strip0 lead0]. destruct (N.eqb_spec d 0) as [->|Hd].
  - destruct IH as (z & E & Ez). exists (S z). cbn [repeat app]. rewrite E at 1. split; [reflexivity|lia].
  - exists 0. auto.
Qed.

Lemma strip0_head l : strip0 l = [] \/ exists d r, strip0 l = d :: r /\ d <> 0%N.
Proof.
  induction l as [|d l IH]; [now left|]. cbn [strip0]. destruct (N.eqb_spec d 0) as [->|Hd]; [exact IH|right; eauto].
Qed.

Lemma rev_repeat {A} (x : A) n : rev (repeat x n) = repeat x n.
Proof.
  induction n as [|n IH]; [reflexivity|]. cbn [repeat rev]. rewrite IH. clear IH.
  induction n as [|n IH]; [reflexivity|]. cbn [repeat app]. now rewrite IH.
Qed.

Lemma rstrip0_zeros l : exists z, l = rstrip0 l ++ repeat 0%N z.
Proof.
  unfold rstrip0. destruct (strip0_zeros (rev l)) as (z & E & _). exists z.
  apply (f_equal (@rev N)) in E. rewrite rev_involutive, rev_app_distr, rev_repeat in E. exact E.
Qed.

Lemma rstrip0_last l : rstrip0 l = [] \/ exists d r, rstrip0 l = r ++ [d] /\ d <> 0%N.
Proof.
  unfold rstrip0. destruct (strip0_head (rev l)) as [->|(d & r & -> & Hd)]; [now left|].
  right. exists d, (rev r). auto.
Qed.

Lemma strip0_idem l : strip0 (strip0 l) = strip0 l.
Proof.
  destruct (strip0_head l) as [->|(d & r & -> & Hd)]; [reflexivity|]. cbn [strip0]. apply N.eqb_neq in Hd. now rewrite Hd.
Qed.
Lemma rstrip0_idem l : rstrip0 (rstrip0 l) = rstrip0 l.
Proof. unfold rstrip0. now rewrite rev_involutive, strip0_idem. Qed.

Lemma strip0_app_last l d : d <> 0%N -> exists r, strip0 (l ++ [d]) = r ++ [d].
Proof.
  intros Hd. induction l as [|x l IH]; cbn [app strip0].
  - apply N.eqb_neq in Hd. rewrite Hd. now exists [].
  - destruct (N.eqb x 0); [exact IH|]. now exists (x :: l).
Qed.

Lemma digits_app a b : decimal_digits (a ++ b) <-> decimal_digits a /\ decimal_digits b.
Proof. apply Forall_app. Qed.

Lemma digits_strip0 l : decimal_digits l -> decimal_digits (strip0 l).
Proof. intros H. destruct (strip0_zeros l) as (z & E & _). rewrite E in H. now apply digits_app in H. Qed.
Lemma digits_rstrip0 l : decimal_digits l -> decimal_digits (rstrip0 l).
Proof. intros H. destruct (rstrip0_zeros l) as (z & E). rewrite E in H. now apply digits_app in H. Qed.

Lemma or0_digits l : decimal_digits l -> decimal_digits (or0 l).
Proof. destruct l; [intros _; constructor; [reflexivity|constructor]|auto]. Qed.

(** ** the significant digits *)
Definition sig (ip fp : list N) : list N := strip0 (rstrip0 (strip0 ip ++ rstrip0 fp)).

Lemma sig_value ip fp : exists j, dec (ip ++ fp) = (dec (sig ip fp) * 10 ^ N.of_nat j)%N.
Proof.
  destruct (strip0_zeros ip) as (z1 & E1 & _). destruct (rstrip0_zeros fp) as (z2 & E2).
  destruct (rstrip0_zeros (strip0 ip ++ rstrip0 fp)) as (z3 & E3).
  destruct (strip0_zeros (rstrip0 (strip0 ip ++ rstrip0 fp))) as (z4 & E4 & _).
  exists (z3 + z2)%nat. unfold sig.
  assert (H : dec (ip ++ fp) = (dec (strip0 ip ++ rstrip0 fp) * 10 ^ N.of_nat z2)%N).
  { rewrite E1 at 1. rewrite E2 at 1. rewrite <- app_assoc, dec_zeros, app_assoc, dec_zeros_r. reflexivity. }
  rewrite H. rewrite E3 at 1. rewrite dec_zeros_r. rewrite E4 at 1. rewrite dec_zeros.
  rewrite Nat2N.inj_add, N.pow_add_r. ring.
Qed.

Lemma sig_digits ip fp : decimal_digits ip -> decimal_digits fp -> decimal_digits (sig ip fp).
Proof.
  intros H1 H2. apply digits_strip0, digits_rstrip0, digits_app. split; [now apply digits_strip0|now apply digits_rstrip0].
Qed.

Lemma sig_shape ip fp : sig ip fp = [] \/
  (exists d r, sig ip fp = d :: r /\ d <> 0%N) /\ (exists d r, sig ip fp = r ++ [d] /\ d <> 0%N).
Proof.
  unfold sig. destruct (rstrip0_last (strip0 ip ++ rstrip0 fp)) as [->|(d & r & -> & Hd)]; [now left|].
  right. destruct (strip0_app_last r d Hd) as (r' & E). split; [|exists d, r'; auto].
  destruct (strip0_head (r ++ [d])) as [H|H]; [|exact H]. rewrite H in E. destruct r'; discriminate.
Qed.

Lemma lead_low d r : d <> 0%N -> (10 ^ N.of_nat (List.length r) <= dec (d :: r))%N.
Proof. intros H. rewrite dec_cons. pose proof (pow_pos (N.of_nat (List.length r))). nia. Qed.

Lemma last_not_10 d r x : (d < 10)%N -> d <> 0%N -> dec (r ++ [d]) <> (10 * x)%N.
Proof. intros Hd Hn H. rewrite dec_app in H. change (dec [d]) with d in H. cbn [List.length N.of_nat Pos.of_succ_nat] in H. change (10 ^ 1)%N with 10%N in H. lia. Qed.

Lemma sig_short ip fp : decimal_digits ip -> decimal_digits fp -> significant15 ip fp -> (List.length (sig ip fp) <= 15)%nat.
Proof.
  intros H1 H2 (m & k & Hm & E). destruct (sig_value ip fp) as (j & Ej). rewrite E in Ej.
  pose proof (sig_digits ip fp H1 H2) as Hd.
  destruct (sig_shape ip fp) as [->|[(d & r & Es & Hn) (d' & r' & Es' & Hn')]]; [cbn; lia|].
  assert (Hd' : (d' < 10)%N).
  { rewrite Es' in Hd. apply digits_app in Hd as [_ Hd]. now inversion Hd. }
  assert (Hk : (k <= N.of_nat j)%N).
  { destruct (N.le_gt_cases k (N.of_nat j)) as [L|L]; [exact L|exfalso].
    assert (X : (m * 10 ^ k = (10 * (m * 10 ^ (k - N.of_nat j - 1))) * 10 ^ N.of_nat j)%N).
    { replace k with (N.succ (k - N.of_nat j - 1) + N.of_nat j)%N at 1 by lia. rewrite N.pow_add_r, N.pow_succ_r'. ring. }
    rewrite X in Ej. apply N.mul_cancel_r in Ej; [|apply N.pow_nonzero; lia].
    rewrite Es' in Ej. symmetry in Ej. now apply last_not_10 in Ej. }
  assert (Y : (m = dec (sig ip fp) * 10 ^ (N.of_nat j - k))%N).
  { apply (N.mul_cancel_r _ _ (10 ^ k)); [apply N.pow_nonzero; lia|]. rewrite Ej, <- N.mul_assoc, <- N.pow_add_r. do 2 f_equal. lia. }
  assert (Z : (dec (sig ip fp) <= m)%N).
  { rewrite Y. pose proof (pow_pos (N.of_nat j - k)). nia. }
  rewrite Es in Z |- *. pose proof (lead_low d r Hn) as W. cbn [List.length].
  assert (10 ^ N.of_nat (List.length r) < 10 ^ 15)%N by lia.
  apply N.pow_lt_mono_r_iff in H; lia.
Qed.

Definition e10 (ip fp : list N) : Z :=
  match strip0 ip with [] => (- Z.of_nat (lead0 (rstrip0 fp)) - 1)%Z | _ => (Z.of_nat (List.length (strip0 ip)) - 1)%Z end.

Lemma e10_range ip fp : decimal_digits ip -> decimal_digits fp -> sig ip fp <> [] -> positional ip fp ->
  (-4 <= e10 ip fp <= 15)%Z.
Proof.
  intros H1 H2 Hs Hp.
  assert (Hv : dec (ip ++ fp) <> 0%N).
  { destruct (sig_value ip fp) as (j & ->). destruct (sig_shape ip fp) as [E|[(d & r & E & Hn) _]]; [contradiction|].
    rewrite E. pose proof (lead_low d r Hn). pose proof (pow_pos (N.of_nat (List.length r))). pose proof (pow_pos (N.of_nat j)). nia. }
  destruct Hp as [Hp|[Hlo Hhi]]; [contradiction|].
  destruct (strip0_zeros ip) as (z1 & E1 & _). unfold e10.
  destruct (strip0_head ip) as [E|(d & r & E & Hn)]; rewrite E in *.
  - (* below 1 *)
    rewrite app_nil_r in E1. rewrite E1, dec_zeros in Hlo.
    destruct (rstrip0_zeros fp) as (z2 & E2). destruct (strip0_zeros (rstrip0 fp)) as (z3 & E3 & Ez3).
    pose proof (digits_rstrip0 fp H2) as H3. pose proof (digits_strip0 _ H3) as H4. pose proof (dec_lt _ H4) as H5.
    assert (Ef : dec fp = (dec (strip0 (rstrip0 fp)) * 10 ^ N.of_nat z2)%N).
    { rewrite E2 at 1. rewrite dec_zeros_r. rewrite E3 at 1. now rewrite dec_zeros. }
    assert (El : List.length fp = (z3 + List.length (strip0 (rstrip0 fp)) + z2)%nat).
    { rewrite E2 at 1. rewrite app_length, repeat_length. rewrite E3 at 1. rewrite app_length, repeat_length. reflexivity. }
    rewrite Ef, El in Hlo. rewrite <- Ez3. rewrite !Nat2N.inj_add, !N.pow_add_r in Hlo.
    set (L := (10 ^ N.of_nat (List.length (strip0 (rstrip0 fp))))%N) in *.
    set (Z2 := (10 ^ N.of_nat z2)%N) in *. set (V := dec (strip0 (rstrip0 fp))) in *.
    pose proof (pow_pos (N.of_nat z2)) as P2. fold Z2 in P2.
    assert (X : (10 ^ N.of_nat z3 * L < L * 10 ^ 4)%N).
    { apply (N.mul_lt_mono_pos_r Z2); [exact P2|]. eapply N.le_lt_trans; [exact Hlo|].
      replace (V * Z2 * 10 ^ 4)%N with (V * (Z2 * 10 ^ 4))%N by ring. replace (L * 10 ^ 4 * Z2)%N with (L * (Z2 * 10 ^ 4))%N by ring.
      apply N.mul_lt_mono_pos_r; [|exact H5]. change (10 ^ 4)%N with 10000%N. lia. }
    assert (Y : (10 ^ N.of_nat z3 < 10 ^ 4)%N).
    { pose proof (pow_pos (N.of_nat (List.length (strip0 (rstrip0 fp))))) as PL. fold L in PL.
      apply (N.mul_lt_mono_pos_r L); [exact PL|]. now rewrite (N.mul_comm (10 ^ 4)). }
    apply N.pow_lt_mono_r_iff in Y; lia.
  - cbn [List.length]. rewrite dec_app in Hhi. rewrite E1, dec_zeros in Hhi. pose proof (lead_low d r Hn) as W.
    assert (X : (10 ^ N.of_nat (List.length r) < 10 ^ 16)%N).
    { pose proof (pow_pos (N.of_nat (List.length fp))) as PL. apply (N.mul_lt_mono_pos_r _ _ _ PL). nia. }
    apply N.pow_lt_mono_r_iff in X; lia.
Qed.

Lemma sig_nil_value ip fp : sig ip fp = [] -> dec (ip ++ fp) = 0%N.
Proof. intros H. destruct (sig_value ip fp) as (j & ->). now rewrite H. Qed.

Lemma float_positional lex ip fp : decimal_digits ip -> decimal_digits fp -> significant15 ip fp -> positional ip fp ->
  float_of_digits lex ip fp = match sig ip fp with [] => FDec [] [] | _ => FDec (strip0 ip) (rstrip0 fp) end.
Proof.
  intros H1 H2 H3 H4. unfold float_of_digits. fold (sig ip fp). change (match strip0 ip with [] => _ | _ => _ end) with (e10 ip fp).
  destruct (sig ip fp) as [|d l] eqn:Es; [reflexivity|].
  pose proof (sig_short ip fp H1 H2 H3) as L. rewrite Es in L.
  pose proof (e10_range ip fp H1 H2 ltac:(rewrite Es; discriminate) H4) as R.
  destruct (Nat.ltb_spec 15 (List.length (d :: l))); [lia|].
  destruct (Z.ltb_spec (e10 ip fp) (-300)); [lia|]. destruct (Z.ltb_spec 300 (e10 ip fp)); [lia|]. cbn [orb].
  destruct (Z.leb_spec (-4) (e10 ip fp)); [|lia]. destruct (Z.leb_spec (e10 ip fp) 15); [|lia]. reflexivity.
Qed.

(** ** reading numerals *)
Lemma lex_decimal ip fp : decimal_digits ip -> decimal_digits fp -> (ip <> [] \/ fp <> []) ->
  tokens (numeral ip fp) = ([mkTok FLOAT (VFloat (float_of_digits (numeral ip fp) ip fp))], EndEof).
Proof.
  intros Hi Hp Hne. unfold tokens. rewrite tokens_from_spec, raws_unfold.
  assert (Er : raw_token (numeral ip fp) = RTok (mkTok FLOAT (VFloat (float_of_digits (numeral ip fp) ip fp))) []).
  { unfold numeral at 1, written. cbn [app].
    assert (Hs2 : span is_digit (map (N.add 48) fp) = (map (N.add 48) fp, [])).
    { rewrite <- (app_nil_r (map (N.add 48) fp)) at 1. apply span_all; [now apply digits_forallb|exact I]. }
    pose proof (digit_vals_map _ Hi) as Hvi. pose proof (digit_vals_map _ Hp) as Hvp.
    destruct ip as [|d l].
    - cbn [map app]. rewrite raw_skip by reflexivity. unfold raw_at.
      change (match_literal (46%N :: map (fun d => (48 + d)%N) fp)) with (@None (str * str)).
      assert (Hs : span is_digit (46%N :: map (N.add 48) fp) = ([], 46%N :: map (N.add 48) fp)) by reflexivity.
      unfold match_float. change (fun d => (48 + d)%N) with (N.add 48). rewrite Hs. cbn [N.eqb Pos.eqb]. rewrite Hs2.
      destruct fp as [|x fp]; [destruct Hne; congruence|]. cbn [map]. cbn [map] in Hvp. rewrite Hvp. reflexivity.
    - assert (Hs : span is_digit (map (N.add 48) (d :: l) ++ 46%N :: map (N.add 48) fp)
             = (map (N.add 48) (d :: l), 46%N :: map (N.add 48) fp)).
      { apply span_all; [now apply digits_forallb|]. vm_compute. reflexivity. }
      inversion Hi as [|? ? Hd Hl]; subst.
      change (fun d => (48 + d)%N) with (N.add 48).
      assert (En : numeral (d :: l) fp = map (N.add 48) (d :: l) ++ [46%N] ++ map (N.add 48) fp) by reflexivity.
      set (lex := numeral (d :: l) fp) in *.
      set (ds := map (N.add 48) (d :: l)) in *.
      assert (Eds : exists r', ds = (48 + d)%N :: r') by (eexists; reflexivity).
      destruct Eds as [r' Eds]. rewrite Eds in *. cbn [app] in *.
      rewrite raw_skip by now apply not_ignored_digit.
      unfold raw_at. rewrite lit_none_digit by exact Hd.
      unfold match_float. rewrite Hs. cbn [N.eqb Pos.eqb]. rewrite Hs2, Hvi, Hvp. cbn [app]. rewrite En. reflexivity. }
  rewrite Er. change (raws []) with (@nil tok, EndEof). reflexivity.
Qed.

Lemma lex_integer ds : decimal_digits ds -> ds <> [] ->
  tokens (written ds) = ([mkTok INTEGER (VInt (dec ds))], EndEof).
Proof.
  intros Hf Hn. unfold tokens. rewrite tokens_from_spec, raws_unfold.
  assert (Er : raw_token (written ds) = RTok (mkTok INTEGER (VInt (dec ds))) []).
  { pose proof (dec_fold ds Hf) as HN. unfold written. change (fun d => (48 + d)%N) with (N.add 48).
    destruct ds as [|d l]; [congruence|]. inversion Hf as [|? ? Hd Hl]; subst.
    assert (Hs : span is_digit (map (N.add 48) (d :: l)) = (map (N.add 48) (d :: l), [])).
    { rewrite <- (app_nil_r (map (N.add 48) (d :: l))) at 1. apply span_all; [now apply digits_forallb|exact I]. }
    pose proof (digit_vals_map (d :: l) Hf) as Hv.
    set (w := map (N.add 48) (d :: l)) in *.
    assert (Ew : exists r', w = (48 + d)%N :: r') by (eexists; reflexivity).
    destruct Ew as [r' Ew]. rewrite Ew in *.
    rewrite raw_skip by now apply not_ignored_digit.
    unfold raw_at. rewrite lit_none_digit by exact Hd.
    unfold match_float, match_integer. rewrite Hs. rewrite Hv, HN. reflexivity. }
  rewrite Er. change (raws []) with (@nil tok, EndEof). reflexivity.
Qed.

Lemma number_token_parse s k e : (k = mkTok FLOAT (VFloat e) \/ False) -> tokens s = ([k], EndEof) -> parse s = Ok (EFloat e).
Proof.
  intros [->|[]] H. apply (derives_parse s _ (Node 17 [Node 44 [Node 52 [Leaf (mkTok FLOAT (VFloat e))]]]) _ H); [|reflexivity].
  assert (N1 : nprods = List.length prods) by reflexivity. cbn in N1.
  split; [|split; [reflexivity|split; [|reflexivity]]].
  - constructor; [rewrite N1; lia|reflexivity|]. constructor; [|constructor].
    constructor; [rewrite N1; lia|reflexivity|]. constructor; [|constructor].
    constructor; [rewrite N1; lia|reflexivity|]. constructor; constructor.
  - constructor; [|intros; discriminate|intros; discriminate].
    constructor; [|constructor]. constructor; [|intros; discriminate|intros; discriminate].
    constructor; [|constructor]. constructor; [repeat constructor| |]; intros; discriminate.
Qed.

Lemma integer_token_parse s n : tokens s = ([mkTok INTEGER (VInt n)], EndEof) -> parse s = Ok (EInt n).
Proof.
  intros H. apply (derives_parse s _ (Node 17 [Node 44 [Node 53 [Leaf (mkTok INTEGER (VInt n))]]]) _ H); [|reflexivity].
  assert (N1 : nprods = List.length prods) by reflexivity. cbn in N1.
  split; [|split; [reflexivity|split; [|reflexivity]]].
  - constructor; [rewrite N1; lia|reflexivity|]. constructor; [|constructor].
    constructor; [rewrite N1; lia|reflexivity|]. constructor; [|constructor].
    constructor; [rewrite N1; lia|reflexivity|]. constructor; constructor.
  - constructor; [|intros; discriminate|intros; discriminate].
    constructor; [|constructor]. constructor; [|intros; discriminate|intros; discriminate].
    constructor; [|constructor]. constructor; [repeat constructor| |]; intros; discriminate.
Qed.

Lemma parse_integer ds : decimal_digits ds -> ds <> [] -> parse (written ds) = Ok (EInt (dec ds)).
Proof. intros H1 H2. apply integer_token_parse. now apply lex_integer. Qed.

Lemma serialize_one (t : str) : List.concat [t] = t.
Proof. cbn. apply app_nil_r. Qed.

(** str(n) has no leading zero *)
Lemma to_uint_head n : n <> 0%N -> exists d l, digits_of_N n = d :: l /\ d <> 0%N.
Proof.
  intros Hn. unfold digits_of_N.
  pose proof (DecimalN.Unsigned.to_of (N.to_uint n)) as H. rewrite DecimalN.Unsigned.of_to in H.
  assert (Hz : N.to_uint n <> Decimal.zero).
  { intros E. apply (f_equal N.of_uint) in E. rewrite DecimalN.Unsigned.of_to in E. apply Hn. exact E. }
  destruct (N.to_uint n) as [|x|x|x|x|x|x|x|x|x|x]; cbn [digits_of_uint];
    [exfalso; cbn in H; discriminate| |eexists _, _; split; [reflexivity|discriminate]..].
  exfalso. rewrite (DecimalFacts.unorm_D0 x) in H. unfold Decimal.unorm in H.
  destruct (Decimal.nzhead x) eqn:E; try discriminate; first [apply Hz; now rewrite H|now apply DecimalFacts.nzhead_nonzero in E|apply Hz; rewrite <- H; reflexivity].
Qed.

Lemma integer_back n : exists ds, decimal_digits ds /\ dec ds = n /\ (ds = [0%N] \/ exists d l, ds = d :: l /\ d <> 0%N) /\
  serialize (EInt n) = written ds.
Proof.
  exists (digits_of_N n).
  assert (Hd : decimal_digits (digits_of_N n)) by (apply Forall_forall, digits_of_N_lt).
  split; [exact Hd|]. split; [|split].
  - rewrite <- dec_fold by exact Hd. apply N_of_digits_of_N.
  - destruct (N.eq_dec n 0) as [->|Hn]; [left; reflexivity|right; now apply to_uint_head].
  - apply serialize_one.
Qed.

Lemma sig_or0 ip fp : sig (or0 (strip0 ip)) (or0 (rstrip0 fp)) = sig ip fp.
Proof. unfold sig. now rewrite strip0_or0, rstrip0_or0, strip0_idem, rstrip0_idem. Qed.

Lemma same_or0 ip fp : same_number ip fp (or0 (strip0 ip)) (or0 (rstrip0 fp)).
Proof.
  unfold same_number.
  destruct (strip0_zeros ip) as (z1 & E1 & _). destruct (rstrip0_zeros fp) as (z2 & E2).
  assert (H : dec (ip ++ fp) = (dec (strip0 ip ++ rstrip0 fp) * 10 ^ N.of_nat z2)%N).
  { rewrite E1 at 1. rewrite E2 at 1. rewrite <- app_assoc, dec_zeros, app_assoc, dec_zeros_r. reflexivity. }
  assert (L : List.length fp = (List.length (rstrip0 fp) + z2)%nat) by (rewrite E2 at 1; now rewrite app_length, repeat_length).
  assert (A : forall x y, dec (or0 x ++ y) = dec (x ++ y)) by (intros [|d x] y; [exact (dec_zeros 1 y)|reflexivity]).
  rewrite H, A, L, Nat2N.inj_add, N.pow_add_r. destruct (rstrip0 fp) as [|d r]; cbn [or0].
  - cbn [List.length]. rewrite app_nil_r. rewrite (dec_app _ [0%N]). change (dec [0%N]) with 0%N. cbn [List.length N.of_nat]. rewrite N.pow_0_r. ring.
  - ring.
Qed.

Lemma or0_tidy ip fp : tidy (or0 (strip0 ip)) (or0 (rstrip0 fp)).
Proof.
  split.
  - destruct (strip0_head ip) as [->|(d & r & -> & Hd)]; [now left|right; exists d, r; split; [reflexivity|exact Hd]].
  - destruct (rstrip0_last fp) as [->|(d & r & E & Hd)]; [now left|right]. exists d, r. split; [|exact Hd].
    rewrite E. destruct r; reflexivity.
Qed.

Lemma sig_nil_parts ip fp : sig ip fp = [] -> strip0 ip = [] /\ rstrip0 fp = [].
Proof.
  unfold sig. intros H.
  destruct (rstrip0_last (strip0 ip ++ rstrip0 fp)) as [E|(d & r & E & Hd)].
  - assert (Z : strip0 ip ++ rstrip0 fp = repeat 0%N (List.length (strip0 ip ++ rstrip0 fp))).
    { destruct (rstrip0_zeros (strip0 ip ++ rstrip0 fp)) as (z & Ez). rewrite E in Ez. cbn [app] in Ez. rewrite Ez, repeat_length. reflexivity. }
    destruct (strip0_head ip) as [E1|(d & r & E1 & Hd)].
    + split; [exact E1|]. destruct (rstrip0_last fp) as [E2|(d & r & E2 & Hd)]; [exact E2|exfalso].
      rewrite E1, E2 in Z. cbn [app] in Z. apply Hd. eapply repeat_spec. rewrite <- Z. apply in_or_app. right. now left.
    + exfalso. rewrite E1 in Z. apply Hd. eapply repeat_spec. rewrite <- Z. now left.
  - exfalso. rewrite E in H. destruct (strip0_app_last r d Hd) as (r' & E'). rewrite E' in H. destruct r'; discriminate.
Qed.

Lemma same_sig15 ip fp jp kp : same_number ip fp jp kp -> sig jp kp = sig ip fp -> decimal_digits ip -> decimal_digits fp ->
  significant15 ip fp -> significant15 jp kp.
Proof.
  intros _ Hs H1 H2 H. pose proof (sig_short ip fp H1 H2 H) as L.
  destruct (sig_value jp kp) as (j & E). exists (dec (sig jp kp)), (N.of_nat j). split; [|exact E].
  rewrite Hs. eapply N.lt_le_trans; [apply dec_lt; now apply sig_digits|]. apply N.pow_le_mono_r; [lia|].
  change 15%N with (N.of_nat 15). lia.
Qed.

Lemma same_positional ip fp jp kp : same_number ip fp jp kp -> positional ip fp -> positional jp kp.
Proof.
  unfold same_number, positional. intros E.
  pose proof (pow_pos (N.of_nat (List.length fp))) as P1. pose proof (pow_pos (N.of_nat (List.length kp))) as P2.
  set (a := (10 ^ N.of_nat (List.length fp))%N) in *. set (b := (10 ^ N.of_nat (List.length kp))%N) in *.
  set (x := dec (ip ++ fp)) in *. set (y := dec (jp ++ kp)) in *.
  intros [H|[H1 H2]].
  - left. nia.
  - right. change (10 ^ 4)%N with 10000%N in *. change (10 ^ 16)%N with 10000000000000000%N in *. split.
    + apply (N.mul_le_mono_pos_r _ _ a P1). replace (y * 10000 * a)%N with ((y * a) * 10000)%N by ring. rewrite <- E. nia.
    + apply (N.mul_lt_mono_pos_r a _ _ P1). rewrite <- E. nia.
Qed.

Lemma decimal_back ip fp : decimal_digits ip -> decimal_digits fp -> (ip <> [] \/ fp <> []) ->
  significant15 ip fp -> positional ip fp ->
  exists x jp kp, parse (numeral ip fp) = Ok (EFloat x) /\ serialize (EFloat x) = numeral jp kp /\
    decimal_digits jp /\ decimal_digits kp /\ tidy jp kp /\ same_number ip fp jp kp /\
    parse (serialize (EFloat x)) = Ok (EFloat x).
Proof.
  intros H1 H2 Hn H3 H4.
  assert (Ef : forall lex, float_of_digits lex ip fp = FDec (strip0 ip) (rstrip0 fp)).
  { intros lex. rewrite float_positional by assumption. destruct (sig ip fp) eqn:Es; [|reflexivity].
    apply sig_nil_parts in Es as [-> ->]. reflexivity. }
  exists (FDec (strip0 ip) (rstrip0 fp)), (or0 (strip0 ip)), (or0 (rstrip0 fp)).
  assert (Hj : decimal_digits (or0 (strip0 ip))) by now apply or0_digits, digits_strip0.
  assert (Hk : decimal_digits (or0 (rstrip0 fp))) by now apply or0_digits, digits_rstrip0.
  assert (Es : serialize (EFloat (FDec (strip0 ip) (rstrip0 fp))) = numeral (or0 (strip0 ip)) (or0 (rstrip0 fp))) by apply serialize_one.
  split; [|split; [exact Es|split; [exact Hj|split; [exact Hk|split; [apply or0_tidy|split; [apply same_or0|]]]]]].
  - eapply number_token_parse; [left; reflexivity|]. rewrite lex_decimal by assumption. now rewrite Ef.
  - rewrite Es. eapply number_token_parse; [left; reflexivity|]. rewrite lex_decimal; [|assumption|assumption|left; destruct (strip0 ip); discriminate].
    rewrite float_positional; [|assumption|assumption| |].
    + rewrite sig_or0, strip0_or0, rstrip0_or0, strip0_idem, rstrip0_idem.
      destruct (sig ip fp) eqn:Eg; [|reflexivity]. apply sig_nil_parts in Eg as [-> ->]. reflexivity.
    + eapply same_sig15; [apply same_or0|apply sig_or0|assumption..].
    + eapply same_positional; [apply same_or0|exact H4].
Qed.
