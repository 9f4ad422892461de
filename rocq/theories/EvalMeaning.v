(** Proof that the evaluator of XPathEval.v computes the meanings of EvalSpec.v. *)
From Coq Require Import String Arith ZArith NArith List Lia Bool.
From Verif Require Import FieldUndo MapperProofs XPathEval FieldSpec ReadSpec ReadNum EvalSpec NumberSpec XPathNum.
Import ListNotations.

(** ** string values *)
Lemma strval_inside n : text_inside n (strval n).
Proof.
  induction n as [q a t ks IH|s] using node_ind'; [|constructor]. cbn [strval]. change (ostr t) with (text_or_none t). constructor.
  induction IH as [|[x tl] ks Hx _ IHk]; cbn [flat_map fst snd]; [constructor|]. rewrite <- app_assoc. now constructor.
Qed.
Scheme ti_ind := Minimality for text_inside Sort Prop with ta_ind := Minimality for text_after Sort Prop.
Combined Scheme tia_ind from ti_ind, ta_ind.
Lemma inside_strval : (forall n s, text_inside n s -> s = strval n) /\
  (forall ks s, text_after ks s -> s = flat_map (fun k => strval (fst k) ++ ostr (snd k)) ks).
Proof.
  apply tia_ind; intros; cbn [strval flat_map fst snd]; subst; try reflexivity. now rewrite <- app_assoc.
Qed.
Lemma string_value_item i s : string_value i s <-> s = item_str i.
Proof.
  split.
  - intros H. inversion H; subst; cbn; auto. now apply inside_strval.
  - intros ->. destruct i; cbn; constructor. apply strval_inside.
Qed.

(** ** numbers of texts are in lowest terms *)
Definition low (x : number) : Prop := snd x = 0 \/ Z.rem (fst x) 10 <> 0%Z.
Lemma lowest_low m k : low (lowest m k).
Proof. revert m. induction k as [|k IH]; intros m; cbn [lowest]; [now left|]. destruct (Z.eqb_spec (Z.rem m 10) 0); [apply IH|now right]. Qed.
Lemma strip0_head l : match strip0 l with x :: _ => x <> 0%N | [] => True end.
Proof. induction l as [|x l IH]; cbn; auto. destruct (N.eqb_spec x 0); auto. Qed.
Lemma rstrip0_last l : rstrip0 l = [] \/ exists f x, rstrip0 l = f ++ [x] /\ x <> 0%N.
Proof.
  unfold rstrip0. pose proof (strip0_head (rev l)) as H. destruct (strip0 (rev l)) as [|x f]; [now left|].
  right. exists (rev f), x. split; [reflexivity|exact H].
Qed.
Lemma mk_low neg ip fp : Forall digit ip -> Forall digit fp -> low (mk_number neg ip fp).
Proof.
  intros Hi Hf. unfold low, mk_number. cbn [fst snd]. destruct (rstrip0_last (dvals fp)) as [->|(f & x & E & Hx)]; [now left|]. right.
  assert (D : Forall (fun d => (d < 10)%N) (dvals ip ++ rstrip0 (dvals fp))).
  { apply Forall_app. split; [now apply digits_dvals|]. apply digits_rstrip0. now apply digits_dvals. }
  rewrite dec_fold by exact D. rewrite E in D |- *. rewrite app_assoc in D |- *. rewrite dec_app.
  apply Forall_app in D as [_ D]. apply Forall_inv in D. cbn [List.length]. change (dec [x]) with (10 * 0 + x)%N. change (10 ^ N.of_nat 1)%N with 10%N.
  generalize (dec (dvals ip ++ f)). intros n. set (m := Z.of_N (n * 10 + (10 * 0 + x))).
  assert (M : (Z.rem m 10 <> 0)%Z). { rewrite Z.rem_mod_nonneg by lia. subst m. intros K. apply Z.mod_divide in K; [|lia]. destruct K as [y K]. lia. }
  destruct neg; [|exact M]. rewrite Z.rem_opp_l by lia. lia.
Qed.
Lemma shift_low e x : low x -> low (shift10 e x).
Proof.
  destruct x as [m k]. unfold low, shift10. cbn [fst snd]. intros H. destruct (Z.leb_spec 0 e); [|apply lowest_low].
  destruct (Nat.leb_spec k (Z.to_nat e)); cbn [fst snd]; [now left|]. destruct H as [->|H]; [lia|now right].
Qed.
Lemma scaled_low e x y : low x -> scaled e x = Some y -> low y.
Proof. unfold scaled. intros H. destruct (_ && _)%bool; [discriminate|]. intros [= <-]. now apply shift_low. Qed.
Lemma xnumber_low s y : xnumber s = Some y -> low y.
Proof.
  rewrite xnumber_neg. destruct (match strip is_xws s with c :: r => if N.eqb c 45 then (true, r) else (false, c :: r) | [] => (false, []) end) as [neg t].
  unfold xnum_body. destruct (span asc_digit t) as [ip rest] eqn:S1. apply span_spec in S1 as (_ & Hi & _). apply digits_ok in Hi.
  assert (L0 : low (mk_number neg ip [])) by now apply mk_low.
  destruct rest as [|c r].
  - destruct ip; [destruct neg|]; intros [= <-]; exact L0.
  - destruct (N.eqb c 46).
    + destruct (span asc_digit r) as [fp rest2] eqn:S2. apply span_spec in S2 as (_ & Hf & _). apply digits_ok in Hf. pose proof (mk_low neg ip fp Hi Hf) as L.
      destruct (xexponent rest2); [|destruct ip; [destruct fp|]; discriminate].
      destruct ip; [destruct fp; [discriminate|]|]; intros H; exact (scaled_low _ _ _ L H).
    + destruct (xexponent (c :: r)); [|destruct ip; [destruct neg|]; discriminate].
      destruct ip; [destruct neg; [|discriminate]|]; intros H; exact (scaled_low _ _ _ L0 H).
Qed.
Lemma low_integer m k z : low (m, k) -> equals z 0 m (- Z.of_nat k) -> m = z /\ k = 0.
Proof.
  intros L (a & b & H1 & H2). destruct k as [|k]; cbn [Z.of_nat] in H2.
  - assert (a = b) as -> by lia. split; [|reflexivity]. assert (10 ^ Z.of_nat b <> 0)%Z by (apply Z.pow_nonzero; lia). now apply Z.mul_cancel_r in H1.
  - exfalso. destruct L as [L|L]; cbn [fst snd] in L; [discriminate|]. apply L. assert (b = a + S k) as -> by lia.
    rewrite Nat2Z.inj_add, Z.pow_add_r in H1 by lia. assert (10 ^ Z.of_nat a <> 0)%Z by (apply Z.pow_nonzero; lia).
    assert (m = z * 10 ^ Z.of_nat (S k))%Z as -> by nia. rewrite Nat2Z.inj_succ, Z.pow_succ_r by lia.
    replace (z * (10 * 10 ^ Z.of_nat k))%Z with (z * 10 ^ Z.of_nat k * 10)%Z by ring. apply Z.rem_mul. lia.
Qed.
Lemma equals_trans m k n x z : equals m k n x -> equals z 0 n x -> equals z 0 m (- Z.of_nat k).
Proof.
  intros (a & b & H1 & H2) (c & d & H3 & H4). exists (b + c), (a + d). split; [|lia]. rewrite !pow_nat.
  transitivity (z * 10 ^ Z.of_nat d * 10 ^ Z.of_nat a)%Z; [ring|]. rewrite H3.
  transitivity (n * 10 ^ Z.of_nat a * 10 ^ Z.of_nat c)%Z; [ring|]. rewrite <- H1. ring.
Qed.
Lemma number_text s z : num_eqb (xnumber s) (Some (num_of_Z z)) = true <-> stands_for s z.
Proof.
  unfold stands_for, num_of_Z. destruct (xnumber s) as [[m k]|] eqn:X.
  - pose proof (xnumber_low _ _ X) as L. cbn [num_eqb]. rewrite andb_true_iff, Z.eqb_eq, Nat.eqb_eq. split.
    + intros [-> ->]. destruct (xnumber_sound _ _ X) as (n & x & N0). exists n, x. split; [exact N0|].
      destruct (xnumber_complete _ _ _ N0) as (m & k & X' & Q). rewrite X in X'. injection X' as <- <-. exact Q.
    + intros (n & x & N0 & Q). destruct (xnumber_complete _ _ _ N0) as (m' & k' & X' & Q'). rewrite X in X'. injection X' as <- <-.
      apply (low_integer _ _ _ L). exact (equals_trans _ _ _ _ _ Q' Q).
  - cbn. split; [discriminate|]. intros (n & x & N0 & _). apply xnumber_complete in N0 as (m & k & N0 & _). congruence.
Qed.
