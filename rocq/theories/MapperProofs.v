(** Proofs about the mappers (C16, C17, C22-C25). *)
From Coq Require Import String Arith Lia.
From Verif Require Export Mappers FieldDelete.
From Verif Require Import XPathEval FieldSpec DocSpec.

Opaque u.

(** ** What a typed field reads after a successful write *)

Lemma eval_path E e d : supported_path E e = true -> eval_at E e doc_root d = Ret (XN (selects E e d)).
Proof.
  unfold supported_path. intros H. apply andb_prop in H as [H _]. apply andb_prop in H as [Hp Ho].
  unfold eval_at, selects, doc_root, xpath. cbn [get_at]. rewrite (ok_supported _ _ _ Ho).
  destruct (ev_is_nodes E true e (IElem [] d) Hp Ho) as [its ->]. reflexivity.
Qed.

Lemma set_reads E e v d d' : supported_path E e = true -> tag_of d <> None -> not_tail (selects E e d) ->
  mgr_set E e (Some v) d = (d', Ret tt) ->
  exists i, first_input (XN (selects E e d')) = Some i /\
    (if is_attr_field E e then i = InStr v
     else exists n, i = InElem n /\ kids_of n = [] /\ text_of n = Some v /\ strval n = v).
Proof.
  intros Hs Hd Hn Hm. destruct (set_char _ _ _ _ _ Hs Hd Hn Hm) as (d1 & b & m & HP & -> & _ & _).
  unfold supported_path in Hs. apply andb_prop in Hs as [Hs _]. apply andb_prop in Hs as [Hp Ho].
  destruct (place_hd _ _ _ _ _ _ v Hp Ho HP) as (Hg & Ht & i & Hi & Hv & Hr & Hk).
  set (d2 := upd_at b (writes (wkind E e) v) d1) in *.
  unfold is_attr_field.
  destruct (selects E e d2) as [|i0 rest] eqn:Es; [discriminate|]. injection Hi as ->.
  destruct (lkind E e) as [[q|q|]|] eqn:Hl.
  2:{ destruct i as [x n|x y z|x y z]; cbn in Hr; try discriminate. cbn [first_input]. cbn in Hv. subst z. eauto. }
  2:{ destruct i as [x n|x y z|x y z]; cbn in Hr; try discriminate. cbn [first_input]. cbn in Hv. subst z. eauto. }
  all: destruct i as [x n|x y z|x y z]; cbn in Hr; try discriminate; injection Hr as ->.
  all: assert (Hkm : kids_of m = []) by (apply Hk; auto).
  all: assert (Hl' : is_KChild (lkind E e) = true \/ lkind E e = None) by (rewrite Hl; auto).
  all: assert (Hn2 : n = set_text (Some v) m);
    [ assert (Hg2 : get_at b d2 = Some n);
      [ rewrite (selects_elems _ _ _ _ Hp Ho Hl') in Es; apply elems_at_hd in Es as (l' & _ & Hgb & _);
        [exact Hgb | intros x Hx; destruct (In_sel_get _ _ _ _ Hx) as [m' ->]; discriminate]
      | unfold d2 in Hg2; rewrite (get_upd_same _ _ _ _ Hg) in Hg2; injection Hg2 as <-;
        unfold wkind; rewrite Hl; reflexivity ] | ].
  all: exists (InElem n); split; [reflexivity|]; exists n; subst n; rewrite kids_set_text, text_set_text by assumption; auto.
Qed.

Lemma typed_set_ok E e m v d d' : typed_set E e m v d = (d', Ret tt) -> exists x, to_xml m v = Ret x /\ mgr_set E e x d = (d', Ret tt).
Proof. unfold typed_set. destruct (to_xml m v) as [x|x]; intros H; [eauto|discriminate]. Qed.

Lemma typed_set_get E e m v s w d d' : supported_path E e = true -> tag_of d <> None -> not_tail (selects E e d) ->
  to_xml m v = Ret (Some s) ->
  to_python m (Some (InStr s)) = Ret w ->
  (forall n, kids_of n = [] -> text_of n = Some s -> strval n = s -> to_python m (Some (InElem n)) = Ret w) ->
  typed_set E e m v d = (d', Ret tt) -> field_get E e m d' = Ret w.
Proof.
  intros Hs Hd Hn Hx H1 H2 Hm. destruct (typed_set_ok _ _ _ _ _ _ Hm) as (x & Hx' & Hm'). rewrite Hx in Hx'. injection Hx' as <-.
  destruct (set_reads _ _ _ _ _ Hs Hd Hn Hm') as (i & Hi & Hc). unfold field_get. rewrite (eval_path _ _ _ Hs), Hi.
  destruct (is_attr_field E e); [now subst i|]. destruct Hc as (n & -> & Hk & Ht & Hv). auto.
Qed.

(** ** C22: integers *)
Lemma N_of_digits_fold l : Forall (fun x => (x < 10)%N) l -> N_of_digits l = fold_left (fun a d => (a * 10 + d)%N) l 0%N.
Proof.
  intros H. unfold N_of_digits, N.of_uint.
  assert (G : forall l p, Forall (fun x => (x < 10)%N) l -> Npos (Pos.of_uint_acc (uint_of_digits l) p) = fold_left (fun a d => (a * 10 + d)%N) l (Npos p)).
  { clear. induction l as [|x l IH]; intros p Hl; [reflexivity|]. inversion Hl as [|? ? Hx Hl']; subst.
    cbn [fold_left]. rewrite <- (IH p) || idtac. 
    assert (E : Pos.of_uint_acc (uint_of_digits (x :: l)) p = Pos.of_uint_acc (uint_of_digits l) (match x with N0 => 10 * p | Npos q => q + 10 * p end)%positive).
    { cbn [uint_of_digits fold_right]. fold (uint_of_digits l).
      destruct x as [|x]; [reflexivity|]. do 9 (destruct x as [x|x|]; try lia; try reflexivity). }
    rewrite E, IH by assumption. f_equal. destruct x; lia. }
  induction l as [|x l IH]; [reflexivity|]. inversion H as [|? ? Hx Hl]; subst.
  cbn [fold_left]. rewrite N.mul_0_l, N.add_0_l.
  destruct x as [|x].
  - cbn [uint_of_digits fold_right]. cbn [ucons Pos.of_uint]. exact (IH Hl).
  - rewrite <- (G l x Hl). cbn [uint_of_digits fold_right]. fold (uint_of_digits l).
    do 9 (destruct x as [x|x|]; try lia; try reflexivity).
Qed.

Lemma rnd53_small n : (n <= 2 ^ 53)%N -> rnd53 n = n.
Proof.
  intros H. destruct (N.eq_dec n (2 ^ 53)) as [->|Hne]; [reflexivity|].
  unfold rnd53. replace (N.ltb (N.log2 n) 53) with true; [reflexivity|]. symmetry. apply N.ltb_lt.
  destruct (N.eq_dec n 0) as [->|Hn]; [reflexivity|]. apply N.log2_lt_pow2; lia.
Qed.

Lemma dbl_digits_exact l acc : (fold_left (fun a d => (a * 10 + d)%N) l acc <= 2 ^ 53)%N ->
  fold_left (fun acc d => rnd53 (rnd53 (acc * 10) + d)) l acc = fold_left (fun a d => (a * 10 + d)%N) l acc.
Proof.
  assert (Mono : forall l acc, (acc <= fold_left (fun a d => (a * 10 + d)%N) l acc)%N).
  { clear. induction l as [|x l IH]; intros acc; cbn [fold_left]; [lia|]. specialize (IH (acc * 10 + x)%N). lia. }
  revert acc. induction l as [|x l IH]; intros acc H; [reflexivity|]. cbn [fold_left] in *.
  pose proof (Mono l (acc * 10 + x)%N) as HM. rewrite (rnd53_small (acc * 10)) by lia. rewrite rnd53_small by lia. now apply IH.
Qed.

Lemma int_of_number_exact z : (Z.abs z <= 2 ^ 53)%Z -> int_of_number (z, O) = z.
Proof.
  intros H. unfold int_of_number. cbn [Z.of_nat]. change (10 ^ 0)%Z with 1%Z. rewrite Z.quot_1_r.
  unfold dbl_digits.
  assert (E : fold_left (fun a d => (a * 10 + d)%N) (digits_of_N (Z.abs_N z)) 0%N = Z.abs_N z).
  { rewrite <- N_of_digits_fold; [apply N_of_digits_of_N|]. apply Forall_forall. intros x. apply digits_of_N_lt. }
  rewrite dbl_digits_exact; rewrite E; [|lia]. destruct (Z.ltb_spec z 0); lia.
Qed.

Lemma int_result_exact z : (Z.abs z <= 2 ^ 53)%Z -> int_result (z, O) = Ret z.
Proof.
  intros H. unfold int_result. rewrite int_of_number_exact by exact H. cbv zeta.
  assert (G : (Z.abs_N z < 2 ^ 1024)%N).
  { assert (A : (Z.abs_N z <= 2 ^ 53)%N) by lia. eapply N.le_lt_trans; [exact A|]. reflexivity. }
  apply N.leb_gt in G. now rewrite G.
Qed.

Lemma digit_not_pyspace c : asc_digit c = true -> py_space c = false.
Proof.
  unfold asc_digit, py_space, in_range. intros H. apply andb_prop in H as [H1 H2]. apply N.leb_le in H1. apply N.leb_le in H2.
  apply orb_false_iff. split; apply andb_false_iff; right; apply N.leb_gt; lia.
Qed.

Lemma int_digits_all s acc prev : forallb asc_digit s = true -> s <> [] \/ prev = true -> int_digits prev acc s = Some (rev acc ++ dvals s).
Proof.
  revert acc prev. induction s as [|c s IH]; intros acc prev H Hn; cbn [int_digits].
  - destruct Hn as [Hn| ->]; [contradiction|]. cbn. now rewrite app_nil_r.
  - cbn [forallb] in H. apply andb_prop in H as [-> H]. rewrite IH by auto. cbn [rev dvals map]. rewrite <- app_assoc. reflexivity.
Qed.

Lemma py_int_str z : py_int (str_of_Z z) = Some z.
Proof.
  assert (HN : forall n, int_digits false [] (str_of_N n) = Some (digits_of_N n)).
  { intros n. rewrite int_digits_all; [|apply str_of_N_digits|left; apply str_of_N_nonnil]. cbn [rev app]. now rewrite dvals_digits. }
  unfold py_int, str_of_Z. destruct (Z.ltb_spec z 0) as [Hz|Hz].
  - pose proof (last_digit (Z.to_N (- z))) as Hl. rewrite strip_id.
    + replace (N.eqb 45 45) with true by reflexivity. rewrite HN, N_of_digits_of_N. f_equal. lia.
    + reflexivity.
    + cbn [rev]. destruct (rev (str_of_N (Z.to_N (- z)))) as [|c l] eqn:Er; [reflexivity|]. cbn [app]. now apply digit_not_pyspace.
  - pose proof (last_digit (Z.to_N z)) as Hl. pose proof (str_of_N_digits (Z.to_N z)) as Hd. rewrite strip_id.
    + specialize (HN (Z.to_N z)). destruct (str_of_N (Z.to_N z)) as [|c s] eqn:Es; [exfalso; exact (str_of_N_nonnil _ Es)|].
      cbn [forallb] in Hd. apply andb_prop in Hd as [Hc _]. unfold asc_digit, in_range in Hc. apply andb_prop in Hc as [H1 H2]. apply N.leb_le in H1.
      replace (N.eqb c 45) with false by (symmetry; apply N.eqb_neq; lia). replace (N.eqb c 43) with false by (symmetry; apply N.eqb_neq; lia).
      rewrite HN, N_of_digits_of_N. f_equal. lia.
    + destruct (str_of_N (Z.to_N z)) as [|c s]; [exact I|]. cbn [forallb] in Hd. apply andb_prop in Hd as [Hc _]. now apply digit_not_pyspace.
    + destruct (rev (str_of_N (Z.to_N z))); [exact I|]. now apply digit_not_pyspace.
Qed.

Theorem int_roundtrip E e z d d' : supported_path E e = true -> tag_of d <> None -> not_tail (selects E e d) ->
  is_attr_field E e = true \/ (Z.abs z <= 2 ^ 53)%Z ->
  typed_set E e MInt (PInt z) d = (d', Ret tt) -> field_get E e MInt d' = Ret (PInt z).
Proof.
  intros Hs Hd Hn Hc Hm. destruct (typed_set_ok _ _ _ _ _ _ Hm) as (x & Hx & Hm'). cbn in Hx. injection Hx as <-.
  destruct (set_reads _ _ _ _ _ Hs Hd Hn Hm') as (i & Hi & Hr). unfold field_get. rewrite (eval_path _ _ _ Hs), Hi.
  destruct (is_attr_field E e).
  - subst i. cbn [to_python]. now rewrite py_int_str.
  - destruct Hr as (n & -> & _ & _ & Hv). destruct Hc as [Hc|Hc]; [discriminate|]. cbn [to_python]. rewrite Hv, xnumber_Z, int_result_exact by assumption. reflexivity.
Qed.

(** ** C23: booleans *)
Theorem bool_roundtrip E e t f b d d' : supported_path E e = true -> tag_of d <> None -> not_tail (selects E e d) ->
  f <> Some t -> (b = false -> f <> None) ->
  typed_set E e (MBool t f) (PBool b) d = (d', Ret tt) -> field_get E e (MBool t f) d' = Ret (PBool b).
Proof.
  intros Hs Hd Hn Hne Hnn Hm. destruct b.
  - eapply typed_set_get; try eassumption; [reflexivity| |]; cbn; [|intros n _ _ Hv; rewrite Hv]; now rewrite str_eqb_refl.
  - destruct f as [fs|]; [|now specialize (Hnn eq_refl)].
    assert (Hf : str_eqb fs t = false) by (destruct (str_eqb fs t) eqn:E0; [apply str_eqb_eq in E0; congruence|reflexivity]).
    eapply typed_set_get; try eassumption; [reflexivity| |]; cbn; [|intros n _ _ Hv; rewrite Hv]; now rewrite Hf, str_eqb_refl.
Qed.

(** ** C24: dates *)
Definition dir_val (x : fdir) (d : date) (t : time) : N :=
  match x with FY => yr d | Fm => mo d | Fd => dy d | FH => hh t | FM => mi t | FS => ss t | Ff => us t | FC _ => 0%N end.
Definition dir_pad (x : fdir) (d : date) (t : time) : str :=
  match x with FY => pad 4 (yr d) | _ => strftime1 x d t end.

Lemma below_In k (P : N -> Prop) : Forall P (map N.of_nat (seq 0 (N.to_nat k))) -> forall n, (n < k)%N -> P n.
Proof.
  intros H n Hn. rewrite Forall_forall in H. apply H. rewrite in_map_iff. exists (N.to_nat n). split; [lia|]. apply in_seq. lia.
Qed.

Lemma month_days_31 y m : (month_days y m <= 31)%N.
Proof. unfold month_days. destruct (N.eqb m 2); [destruct (leap y); lia|]. destruct (_ || _)%bool; lia. Qed.

Lemma dig_one x s : (x < 10)%N -> dig 0 9 ((48 + x)%N :: s) = [(x, s)].
Proof.
  intros H. unfold dig, in_range. replace (48 + 0 <=? 48 + x)%N with true by (symmetry; apply N.leb_le; lia).
  replace (48 + x <=? 48 + 9)%N with true by (symmetry; apply N.leb_le; lia). cbn [andb]. do 2 f_equal. lia.
Qed.

Lemma digs_six n s : (n < 1000000)%N -> hd_error (digs 6 0 (pad 6 n ++ s)) = Some (n, O, s).
Proof.
  intros H. cbn [pad app].
  set (a := ((n / 10 / 10 / 10 / 10 / 10) mod 10)%N). set (b := ((n / 10 / 10 / 10 / 10) mod 10)%N). set (c := ((n / 10 / 10 / 10) mod 10)%N).
  set (e := ((n / 10 / 10) mod 10)%N). set (f := ((n / 10) mod 10)%N). set (g := (n mod 10)%N).
  assert (L : forall x, (x mod 10 < 10)%N) by (intros; apply N.mod_lt; discriminate).
  assert (Hn : n = (10 * (10 * (10 * (10 * (10 * (10 * 0 + a) + b) + c) + e) + f) + g)%N).
  { subst a b c e f g. pose proof (N.div_mod n 10 ltac:(lia)). pose proof (N.div_mod (n/10) 10 ltac:(lia)). pose proof (N.div_mod (n/10/10) 10 ltac:(lia)).
    pose proof (N.div_mod (n/10/10/10) 10 ltac:(lia)). pose proof (N.div_mod (n/10/10/10/10) 10 ltac:(lia)). pose proof (N.div_mod (n/10/10/10/10/10) 10 ltac:(lia)).
    assert (n / 10/10/10/10/10/10 = 0)%N; [|lia]. rewrite !N.div_div by lia. apply N.div_small. lia. }
  repeat rewrite <- app_assoc. cbn [app].
  cbn [digs]. do 6 (rewrite dig_one by apply L; cbn [flat_map app fst snd]). cbn [hd_error]. rewrite <- Hn. reflexivity.
Qed.

Lemma year_match y s : (y <= 9999)%N -> hd_error (dmatch FY (pad 4 y ++ s)) = Some (y, s).
Proof.
  intros H. cbn [pad app]. repeat rewrite <- app_assoc. cbn [app].
  assert (L : forall x, (x mod 10 < 10)%N) by (intros; apply N.mod_lt; discriminate).
  cbn [dmatch]. unfold dig2. do 4 (rewrite dig_one by apply L; cbn [flat_map map app fst snd]). cbn [hd_error]. do 2 f_equal.
  pose proof (N.div_mod y 10 ltac:(lia)). pose proof (N.div_mod (y/10) 10 ltac:(lia)). pose proof (N.div_mod (y/10/10) 10 ltac:(lia)). pose proof (N.div_mod (y/10/10/10) 10 ltac:(lia)).
  assert (y / 10/10/10/10 = 0)%N; [|lia]. rewrite !N.div_div by lia. apply N.div_small. lia.
Qed.

Ltac below_cases := repeat (apply Forall_cons; [intros; reflexivity|]); apply Forall_nil.

Lemma dmatch_pad x d t s : date_ok d = true -> time_ok t = true -> hd_error (dmatch x (dir_pad x d t ++ s)) = Some (dir_val x d t, s).
Proof.
  intros Hd Ht. unfold date_ok in Hd. unfold time_ok in Ht. repeat rewrite andb_true_iff in Hd. repeat rewrite andb_true_iff in Ht.
  destruct Hd as (((((Hy1 & Hy2) & Hm1) & Hm2) & Hd1) & Hd2). destruct Ht as (((Hh & Hmi) & Hs) & Hu).
  apply N.leb_le in Hy1, Hy2, Hm1, Hm2, Hd1, Hd2. apply N.ltb_lt in Hh, Hmi, Hs, Hu.
  pose proof (month_days_31 (yr d) (mo d)) as H31.
  destruct x; cbn [dir_pad dir_val strftime1].
  - now apply year_match.
  - assert (G : forall n, (n < 12)%N -> forall s, hd_error (dmatch Fm (pad 2 (n + 1) ++ s)) = Some ((n + 1)%N, s)) by (refine (below_In 12 (fun n => forall s, hd_error (dmatch Fm (pad 2 (n + 1) ++ s)) = Some ((n + 1)%N, s)) _); below_cases).
    specialize (G (mo d - 1)%N ltac:(lia) s). replace (mo d - 1 + 1)%N with (mo d) in G by lia. exact G.
  - assert (G : forall n, (n < 31)%N -> forall s, hd_error (dmatch Fd (pad 2 (n + 1) ++ s)) = Some ((n + 1)%N, s)) by (refine (below_In 31 (fun n => forall s, hd_error (dmatch Fd (pad 2 (n + 1) ++ s)) = Some ((n + 1)%N, s)) _); below_cases).
    specialize (G (dy d - 1)%N ltac:(lia) s). replace (dy d - 1 + 1)%N with (dy d) in G by lia. exact G.
  - refine (below_In 24 (fun n => forall s, hd_error (dmatch FH (pad 2 n ++ s)) = Some (n, s)) _ _ Hh s). below_cases.
  - refine (below_In 60 (fun n => forall s, hd_error (dmatch FM (pad 2 n ++ s)) = Some (n, s)) _ _ Hmi s). below_cases.
  - refine (below_In 60 (fun n => forall s, hd_error (dmatch FS (pad 2 n ++ s)) = Some (n, s)) _ _ Hs s). below_cases.
  - cbn [dmatch]. pose proof (digs_six (us t) s Hu) as G. destruct (digs 6 0 (pad 6 (us t) ++ s)) as [|y l]; [discriminate|]. injection G as ->.
    cbn [map hd_error]. do 2 f_equal. cbn. apply N.mul_1_r.
  - cbn [app dmatch]. rewrite N.eqb_refl. reflexivity.
Qed.

Definition puts (f : list fdir) (d : date) (t : time) (x : date * time) : date * time := fold_left (fun x y => put y (dir_val y d t) x) f x.

Lemma fmatch_pad f d t x s : date_ok d = true -> time_ok t = true ->
  hd_error (fmatch f x (flat_map (fun y => dir_pad y d t) f ++ s)) = Some (puts f d t x, s).
Proof.
  intros Hd Ht. revert x. induction f as [|y f IH]; intros x; [reflexivity|].
  cbn [flat_map fmatch]. rewrite <- app_assoc. pose proof (dmatch_pad y d t (flat_map (fun y => dir_pad y d t) f ++ s) Hd Ht) as G.
  destruct (dmatch y _) as [|z l]; [discriminate|]. injection G as ->. cbn [flat_map fst snd].
  specialize (IH (put y (dir_val y d t) x)). destruct (fmatch f _ _) as [|w l']; [discriminate|]. cbn [app]. injection IH as ->. reflexivity.
Qed.

Definition fdir_eqb (x y : fdir) : bool :=
  match x, y with
  | FY, FY | Fm, Fm | Fd, Fd | FH, FH | FM, FM | FS, FS | Ff, Ff => true
  | FC c, FC c' => N.eqb c c'
  | _, _ => false
  end.
Definition records (x : fdir) (f : list fdir) : bool := existsb (fdir_eqb x) f.

(** the fields of a value that a format records; the others take strptime's defaults *)
Definition recorded (f : list fdir) (d : date) (t : time) : date * time :=
  (mkDate (if records FY f then yr d else 1900) (if records Fm f then mo d else 1) (if records Fd f then dy d else 1),
   mkTime (if records FH f then hh t else 0) (if records FM f then mi t else 0) (if records FS f then ss t else 0) (if records Ff f then us t else 0))%N.

Lemma puts_recorded f d t d0 t0 : puts f d t (d0, t0) =
  (mkDate (if records FY f then yr d else yr d0) (if records Fm f then mo d else mo d0) (if records Fd f then dy d else dy d0),
   mkTime (if records FH f then hh t else hh t0) (if records FM f then mi t else mi t0) (if records FS f then ss t else ss t0) (if records Ff f then us t else us t0)).
Proof.
  revert d0 t0. induction f as [|y f IH]; intros d0 t0; cbn [puts fold_left records existsb].
  - destruct d0, t0; reflexivity.
  - fold (puts f d t (put y (dir_val y d t) (d0, t0))). fold (records FY f) (records Fm f) (records Fd f) (records FH f) (records FM f) (records FS f) (records Ff f).
    destruct y; cbn [put dir_val fdir_eqb orb]; rewrite IH; cbn [yr mo dy hh mi ss us];
      repeat match goal with |- context[if ?b then ?x else ?x] => replace (if b then x else x) with x by (destruct b; reflexivity) end; reflexivity.
Qed.

Lemma fmatch_recorded f d t s : date_ok d = true -> time_ok t = true ->
  hd_error (fmatch f (mkDate 1900 1 1, mkTime 0 0 0 0) (flat_map (fun y => dir_pad y d t) f ++ s)) = Some (recorded f d t, s).
Proof. intros Hd Ht. rewrite fmatch_pad by assumption. now rewrite puts_recorded. Qed.

Lemma strptime_pad f d t : date_ok d = true -> time_ok t = true ->
  date_ok (fst (recorded f d t)) = true -> time_ok (snd (recorded f d t)) = true ->
  strptime f (flat_map (fun y => dir_pad y d t) f) = Ret (recorded f d t).
Proof.
  intros Hd Ht Hd' Ht'. unfold strptime. pose proof (fmatch_recorded f d t [] Hd Ht) as G. rewrite app_nil_r in G.
  destruct (fmatch f _ _) as [|x l]; [discriminate|]. injection G as ->. destruct (recorded f d t) as [d1 t1]. cbn [fst snd] in *. now rewrite Hd', Ht'.
Qed.

Lemma digits_of_uint_of l : Forall (fun x => (x < 10)%N) l -> digits_of_uint (uint_of_digits l) = l.
Proof.
  induction 1 as [|x l Hx _ IH]; [reflexivity|]. cbn [uint_of_digits fold_right]. fold (uint_of_digits l).
  destruct x as [|x]; [cbn; now rewrite IH|]. do 4 (destruct x as [x|x|]; try lia; try (cbn; now rewrite IH)).
Qed.

Lemma str_of_year y : (1000 <= y <= 9999)%N -> str_of_N y = pad 4 y.
Proof.
  intros H. set (l := [(y / 10 / 10 / 10) mod 10; (y / 10 / 10) mod 10; (y / 10) mod 10; y mod 10]%N).
  assert (L : forall x, (x mod 10 < 10)%N) by (intros; apply N.mod_lt; discriminate).
  assert (Hl : Forall (fun x => (x < 10)%N) l) by (unfold l; repeat (apply Forall_cons; [apply L|]); apply Forall_nil).
  assert (Ht : ((y / 10 / 10 / 10) mod 10 = y / 10 / 10 / 10)%N).
  { apply N.mod_small. rewrite !N.div_div by lia. apply N.div_lt_upper_bound; lia. }
  assert (Hv : N_of_digits l = y).
  { rewrite N_of_digits_fold by assumption. unfold l. cbn [fold_left]. rewrite Ht.
    pose proof (N.div_mod y 10 ltac:(lia)). pose proof (N.div_mod (y/10) 10 ltac:(lia)). pose proof (N.div_mod (y/10/10) 10 ltac:(lia)). lia. }
  assert (Hd : digits_of_N y = l).
  { unfold digits_of_N. rewrite <- Hv at 1. unfold N_of_digits. rewrite DecimalN.Unsigned.to_of.
    replace (Decimal.unorm (uint_of_digits l)) with (uint_of_digits l); [now apply digits_of_uint_of|].
    assert (Hz : (y / 10 / 10 / 10 <> 0)%N).
    { rewrite !N.div_div by lia. intros Hz. apply N.div_small_iff in Hz; lia. }
    unfold l. rewrite Ht. cbn [uint_of_digits fold_right].
    destruct (y / 10 / 10 / 10)%N as [|x]; [contradiction|]. cbn [uint_of_digits fold_right].
    do 4 (destruct x as [x|x|]; try reflexivity). }
  unfold str_of_N. rewrite Hd. reflexivity.
Qed.

Lemma strftime_pad f d t : (1000 <= yr d <= 9999)%N \/ records FY f = false -> strftime f d t = flat_map (fun y => dir_pad y d t) f.
Proof.
  intros H. unfold strftime. induction f as [|x f IH]; [reflexivity|]. cbn [flat_map].
  rewrite IH by (destruct H as [H|H]; [now left|right]; cbn [records existsb] in H; now apply orb_false_iff in H).
  f_equal. destruct x; try reflexivity. cbn [strftime1 dir_pad]. destruct H as [H|H]; [now apply str_of_year|discriminate].
Qed.

(** a date format reads back what it wrote, provided it records year, month and day *)
Lemma date_format_roundtrip f d : date_ok d = true -> (1000 <= yr d)%N -> records FY f = true -> records Fm f = true -> records Fd f = true ->
  exists t, strptime f (strftime f d (mkTime 0 0 0 0)) = Ret (d, t).
Proof.
  intros Hd Hy H1 H2 H3. assert (Hy' : (1000 <= yr d <= 9999)%N).
  { split; [assumption|]. unfold date_ok in Hd. repeat rewrite andb_true_iff in Hd. destruct Hd as (((((_ & Hd) & _) & _) & _) & _). now apply N.leb_le in Hd. }
  rewrite strftime_pad by now left. exists (snd (recorded f d (mkTime 0 0 0 0))). rewrite strptime_pad; auto.
  - unfold recorded. cbn [snd]. rewrite H1, H2, H3. destruct d; reflexivity.
  - unfold recorded. cbn [fst]. rewrite H1, H2, H3. destruct d; exact Hd.
  - unfold recorded. cbn [snd hh mi ss us]. repeat match goal with |- context[if ?b then ?x else ?x] => replace (if b then x else x) with x by (destruct b; reflexivity) end. reflexivity.
Qed.

Lemma isoformat_pad d t : isoformat d t = flat_map (fun y => dir_pad y d t) iso_dt ++ (if N.eqb (us t) 0 then [] else 46%N :: pad 6 (us t)).
Proof.
  unfold isoformat, iso_dt, iso_date. cbn [flat_map app dir_pad strftime1].
  repeat rewrite <- app_assoc. reflexivity.
Qed.

Lemma isoformat_us d t : us t <> 0%N -> isoformat d t = flat_map (fun y => dir_pad y d t) iso_dt_us.
Proof.
  intros H. rewrite isoformat_pad. unfold iso_dt_us. rewrite flat_map_app. apply N.eqb_neq in H. rewrite H.
  cbn [flat_map dir_pad strftime1]. rewrite app_nil_r. reflexivity.
Qed.

Theorem parse_isoformat d t : date_ok d = true -> time_ok t = true -> parse_dt None (isoformat d t) = Ret (d, t).
Proof.
  intros Hd Ht. unfold parse_dt. destruct (N.eqb (us t) 0) eqn:Eu.
  - rewrite isoformat_pad, Eu, app_nil_r.
    assert (R : recorded iso_dt d t = (d, t)) by (unfold recorded; cbn; apply N.eqb_eq in Eu; destruct d, t; cbn in *; now subst).
    rewrite strptime_pad; rewrite ?R; auto.
  - assert (E1 : strptime iso_dt (isoformat d t) = Exc XValue).
    { rewrite isoformat_pad, Eu. unfold strptime. pose proof (fmatch_recorded iso_dt d t (46%N :: pad 6 (us t)) Hd Ht) as G.
      destruct (fmatch iso_dt _ _) as [|x l]; [discriminate|]. injection G as ->. destruct (recorded iso_dt d t). reflexivity. }
    rewrite E1, isoformat_us by now apply N.eqb_neq.
    assert (R : recorded iso_dt_us d t = (d, t)) by (unfold recorded; cbn; now destruct d, t).
    rewrite strptime_pad; rewrite ?R; auto.
Qed.

Lemma pad_app w n : pad (S w) n = pad w (n / 10) ++ [(48 + n mod 10)%N]. Proof. reflexivity. Qed.

Lemma pad2_cons n : pad 2 n = [(48 + n / 10 mod 10)%N; (48 + n mod 10)%N]. Proof. reflexivity. Qed.

(** suffixes that eulxml ignores when reading a datetime *)
Inductive tz_suffix : str -> Prop :=
| tz_none : tz_suffix []
| tz_Z : tz_suffix (u "Z")
| tz_off sgn a b c e : sgn = 43%N \/ sgn = 45%N -> Forall (fun x => asc_digit x = true) [a; b; c; e] ->
    tz_suffix [sgn; a; b; 58%N; c; e].

Lemma rev_isoformat d t : exists a b c e f g l, rev (isoformat d t) = a :: b :: c :: e :: f :: g :: l /\ a <> 90%N /\ g <> 43%N /\ g <> 45%N.
Proof.
  unfold isoformat. destruct (N.eqb (us t) 0).
  - rewrite !rev_app_distr, app_nil_l. rewrite (pad2_cons (ss t)), (pad2_cons (mi t)). change (u ":") with [58%N].
    cbn [rev app]. do 7 eexists. split; [reflexivity|]. split; [|split; discriminate]. intros H.
    assert (L : forall x, (x mod 10 < 10)%N) by (intros; apply N.mod_lt; discriminate). specialize (L (ss t)). lia.
  - rewrite !rev_app_distr. cbn [pad app rev]. do 7 eexists. split; [reflexivity|].
    assert (L : forall x, (x mod 10 < 10)%N) by (intros; apply N.mod_lt; discriminate).
    pose proof (L (us t)) as L1. pose proof (L (us t / 10 / 10 / 10 / 10 / 10)%N) as L2. clear L.
    revert L1 L2. generalize (us t mod 10)%N ((us t / 10 / 10 / 10 / 10 / 10) mod 10)%N. intros x y L1 L2. lia.
Qed.

Lemma strip_tz_plain s a b c e f g l : rev s = a :: b :: c :: e :: f :: g :: l -> a <> 90%N -> g <> 43%N -> g <> 45%N -> strip_tz s = Ret s.
Proof.
  intros H H1 H2 H3. unfold strip_tz. rewrite H. apply N.eqb_neq in H1, H2, H3. rewrite H1, H. cbn [nth_error]. now rewrite H2, H3.
Qed.

Lemma strip_tz_suffix d t z : tz_suffix z -> strip_tz (isoformat d t ++ z) = Ret (isoformat d t).
Proof.
  destruct (rev_isoformat d t) as (a & b & c & e & f & g & l & H & H1 & H2 & H3). intros Hz.
  destruct Hz as [| |sgn x y w v Hs Hd].
  - rewrite app_nil_r. eapply strip_tz_plain; eassumption.
  - unfold strip_tz. change (u "Z") with [90%N]. rewrite rev_app_distr. cbn [rev app]. rewrite N.eqb_refl, !rev_involutive, H. cbn [nth_error].
    apply N.eqb_neq in H2, H3. now rewrite H2, H3.
  - unfold strip_tz. rewrite rev_app_distr. cbn [rev app].
    assert (Hv : N.eqb v 90 = false).
    { inversion_clear Hd as [|? ? _ Hd1]. inversion_clear Hd1 as [|? ? _ Hd2]. inversion_clear Hd2 as [|? ? _ Hd3]. inversion_clear Hd3 as [|? ? Hv _].
      apply N.eqb_neq. intros ->. discriminate. }
    rewrite Hv, rev_app_distr. cbn [rev app nth_error].
    replace (N.eqb sgn 43 || N.eqb sgn 45)%bool with true by (destruct Hs as [-> | ->]; reflexivity).
    cbn [skipn]. now rewrite rev_involutive.
Qed.

(** reading the default format, with any such suffix *)
Theorem datetime_read d t z : date_ok d = true -> time_ok t = true -> tz_suffix z ->
  forall i norm, read_str norm i = Ret (isoformat d t ++ z) -> to_python (MDateTime None norm) (Some i) = Ret (PDateTime d t).
Proof.
  intros Hd Ht Hz i norm Hi. cbn [to_python]. rewrite Hi, (strip_tz_suffix _ _ _ Hz), (parse_isoformat _ _ Hd Ht). reflexivity.
Qed.

(** ** C25: normalize-space *)
Definition all_ws (s : str) : Prop := forall c, In c s -> is_xws c = true.
Definition word (w : str) : Prop := w <> [] /\ forall c, In c w -> is_xws c = false.
(** [spaced s ws]: s consists of the words ws, separated by white space and perhaps surrounded by it *)
Inductive spaced : str -> list str -> Prop :=
| sp_end s : all_ws s -> spaced s []
| sp_word a w b ws : all_ws a -> word w -> match b with [] => True | c :: _ => is_xws c = true end -> spaced b ws -> spaced (a ++ w ++ b) (w :: ws).

Lemma norm_words_ws a s : all_ws a -> norm_words (a ++ s) [] = norm_words s [].
Proof.
  induction a as [|c a IH]; intros H; [reflexivity|]. cbn [app norm_words]. rewrite (H c (or_introl eq_refl)). apply IH. intros x Hx. apply H. now right.
Qed.
Lemma norm_words_in w s cur : (forall c, In c w -> is_xws c = false) -> norm_words (w ++ s) cur = norm_words s (rev w ++ cur).
Proof.
  revert cur. induction w as [|c w IH]; intros cur H; [reflexivity|]. cbn [app norm_words]. rewrite (H c (or_introl eq_refl)), IH by (intros x Hx; apply H; now right).
  cbn [rev]. now rewrite <- app_assoc.
Qed.

Lemma norm_words_spaced s ws : spaced s ws -> norm_words s [] = ws.
Proof.
  induction 1 as [s Hs|a w b ws Ha [Hw Hwc] Hb Hsp IH].
  - rewrite <- (app_nil_r s), norm_words_ws by assumption. reflexivity.
  - rewrite norm_words_ws, norm_words_in by assumption. rewrite app_nil_r.
    assert (Hr : rev w <> []) by (intros E; apply (f_equal (@rev N)) in E; rewrite rev_involutive in E; contradiction).
    destruct b as [|c b].
    + cbn [norm_words] in *. destruct (rev w) eqn:E; [contradiction|]. rewrite <- E, rev_involutive. now subst ws.
    + cbn [norm_words] in *. rewrite Hb in *. destruct (rev w) eqn:E; [contradiction|]. rewrite <- E, rev_involutive. now f_equal.
Qed.

Lemma spaced_cons_ws c s ws : is_xws c = true -> spaced s ws -> spaced (c :: s) ws.
Proof.
  intros Hc H. destruct H as [s Hs|a w b ws Ha Hw Hb Hs].
  - constructor. intros x [<-|Hx]; auto.
  - apply (sp_word (c :: a) w b ws); auto. intros x [<-|Hx]; auto.
Qed.

Lemma spaced_norm s : forall cur, (forall c, In c cur -> is_xws c = false) -> spaced (rev cur ++ s) (norm_words s cur).
Proof.
  induction s as [|c s IH]; intros cur Hcur; cbn [norm_words].
  - rewrite app_nil_r. destruct cur as [|x cur]; [constructor; intros ? []|].
    rewrite <- (app_nil_r (rev (x :: cur))) at 1. apply (sp_word [] (rev (x :: cur)) [] []); auto; [intros ? []| |constructor; intros ? []].
    split; [intros E; apply (f_equal (@rev N)) in E; rewrite rev_involutive in E; discriminate|]. intros y Hy. apply Hcur. now apply in_rev.
  - destruct (is_xws c) eqn:Ec.
    + assert (H0 : spaced (c :: s) (norm_words s [])) by (apply spaced_cons_ws; auto; apply (IH []); intros ? []).
      destruct cur as [|x cur]; [exact H0|]. apply (sp_word [] (rev (x :: cur)) (c :: s)); auto; [intros ? []|].
      split; [intros E; apply (f_equal (@rev N)) in E; rewrite rev_involutive in E; discriminate|]. intros y Hy. apply Hcur. now apply in_rev.
    + specialize (IH (c :: cur)). cbn [rev] in IH. rewrite <- app_assoc in IH. apply IH. intros y [<-|Hy]; auto.
Qed.

Theorem spaced_total s : exists ws, spaced s ws.
Proof. exists (norm_words s []). apply (spaced_norm s []). intros ? []. Qed.

Lemma spaced_words s ws : spaced s ws -> Forall word ws.
Proof. induction 1; auto. Qed.

Lemma spaced_join ws : Forall word ws -> spaced (join_sp ws) ws.
Proof.
  assert (Hn : all_ws []) by (intros ? []).
  induction ws as [|w ws IH]; intros H; [constructor; exact Hn|]. inversion H as [|? ? Hw Hws]; subst. cbn [join_sp].
  destruct ws as [|w' ws].
  - rewrite <- (app_nil_r w) at 1. apply (sp_word [] w [] []); [exact Hn|exact Hw|exact I|constructor; exact Hn].
  - apply (sp_word [] w (32%N :: join_sp (w' :: ws))); [exact Hn|exact Hw|reflexivity|]. apply spaced_cons_ws; [reflexivity|]. now apply IH.
Qed.

Theorem normalize_spec s ws : spaced s ws -> normalize_space s = join_sp ws.
Proof. intros H. unfold normalize_space. now rewrite (norm_words_spaced _ _ H). Qed.

Theorem normalize_idem s : normalize_space (normalize_space s) = normalize_space s.
Proof.
  destruct (spaced_total s) as [ws H]. rewrite (normalize_spec _ _ H). apply normalize_spec. apply spaced_join. eapply spaced_words; eassumption.
Qed.

(** ** C16 / C17 *)
Theorem none_is_delete E e d : mgr_set E e None d = mgr_delete E e d.
Proof. unfold mgr_set, mgr_delete, bind, reading. destruct (find_ast E e doc_root d) as [[r|]|x]; reflexivity. Qed.

Theorem get_readonly E e m d : mgr_get E e m false d = (d, field_get E e m d).
Proof.
  unfold mgr_get, field_get, bind, reading. destruct (eval_at E e doc_root d) as [v|x]; [|reflexivity].
  destruct (first_input v); reflexivity.
Qed.

Lemma join_no_runs ws : Forall word ws ->
  (forall a b, join_sp ws <> 32%N :: a /\ join_sp ws <> b ++ [32%N]) /\
  (forall a x y b, join_sp ws = a ++ x :: y :: b -> is_xws x = true -> is_xws y = false) /\
  (forall x, In x (join_sp ws) -> is_xws x = true -> x = 32%N).
Proof.
  induction ws as [|w ws IH]; intros H.
  - cbn. split; [intros a b; split; [discriminate|destruct b; discriminate]|]. split; [intros [] ? ? ?; discriminate|intros ? []].
  - inversion H as [|? ? [Hw Hwc] Hws]; subst. specialize (IH Hws).
    assert (Hno : forall x, In x w -> x <> 32%N) by (intros x Hx ->; apply Hwc in Hx; discriminate).
    assert (Hpair : forall a x y b, w = a ++ x :: y :: b -> is_xws x = true -> is_xws y = false).
    { intros a x y b -> Hx. assert (In x (a ++ x :: y :: b)) by (apply in_or_app; right; now left). rewrite Hwc in Hx by assumption. discriminate. }
    cbn [join_sp]. destruct ws as [|w' ws].
    + split; [|split; [exact Hpair|]].
      * intros a b. split; intros ->; [apply (Hno 32%N); [now left|reflexivity]|]. apply (Hno 32%N); [apply in_or_app; right; now left|reflexivity].
      * intros x Hx Hxx. rewrite (Hwc x Hx) in Hxx. discriminate.
    + remember (join_sp (w' :: ws)) as j. destruct IH as (I1 & I2 & I3).
      assert (Hj : j <> []). { inversion Hws as [|? ? [Hw' _] _]; subst. destruct w'; [contradiction|]. destruct ws; cbn; discriminate. }
      split; [|split].
      * intros a b. split.
        -- destruct w as [|c w]; [contradiction|]. cbn. intros [= -> _]. apply (Hno 32%N); [now left|reflexivity].
        -- intros Hb. destruct (exists_last Hj) as (j' & z & Hz). rewrite Hz in Hb.
           rewrite app_comm_cons, app_assoc in Hb. apply app_inj_tail in Hb as [_ ->]. apply (proj2 (I1 [] j')). exact Hz.
      * intros a x y b Hab Hx. revert a Hab. clear Hw H. induction w as [|c w IHw]; intros a Hab.
        -- destruct a as [|c' a]; cbn in Hab.
           ++ injection Hab as <- Hab. destruct (is_xws y) eqn:Ey; [|reflexivity]. exfalso.
              assert (y = 32%N) by (apply I3; [rewrite Hab; now left|exact Ey]). subst y. now apply (proj1 (I1 b [])).
           ++ injection Hab as <- Hab. eapply I2; eassumption.
        -- destruct a as [|c' a]; cbn in Hab.
           ++ injection Hab as <- Hab. rewrite Hwc in Hx by now left. discriminate.
           ++ injection Hab as _ Hab. apply (IHw) with (a := a); auto.
              ** intros z Hz. apply Hwc. now right.
              ** intros z Hz. apply Hno. now right.
              ** intros a0 x0 y0 b0 E0. apply (Hpair (c :: a0) x0 y0 b0). now rewrite E0.
      * intros x Hx Hxx. apply in_app_or in Hx as [Hx|[Hx|Hx]]; [rewrite (Hwc x Hx) in Hxx; discriminate|now symmetry|]. now apply I3.
Qed.

Theorem normalize_no_runs s : let r := normalize_space s in
  (forall a b, r <> 32%N :: a /\ r <> b ++ [32%N]) /\ (forall a x y b, r = a ++ x :: y :: b -> is_xws x = true -> is_xws y = false) /\
  (forall x, In x r -> is_xws x = true -> x = 32%N).
Proof.
  cbv zeta. destruct (spaced_total s) as [ws H]. rewrite (normalize_spec _ _ H). apply join_no_runs. eapply spaced_words; eassumption.
Qed.
