(** Python 3 [str] values as lists of Unicode code points, with the handful of [str] / [repr] /
    [int] operations that eulxml relies on.  *)
From Coq Require Export List NArith ZArith Bool Lia.
From Coq Require Import String Ascii DecimalN.
Export ListNotations.

(** A Python 3 [str]: the list of its code points. *)
Definition str := list N.

(** ASCII literal to [str]. *)
Definition u (s : string) : str := map N_of_ascii (list_ascii_of_string s).

Definition ch (s : string) : N := hd 0%N (u s).

(** [==] on str. *)
Fixpoint str_eqb (a b : str) : bool :=
  match a, b with
  | [], [] => true
  | x :: a', y :: b' => N.eqb x y && str_eqb a' b'
  | _, _ => false
  end.

Lemma str_eqb_eq a b : str_eqb a b = true <-> a = b.
Proof.
  revert b; induction a as [|x a IH]; destruct b as [|y b]; cbn; split; try congruence; try easy.
  - rewrite andb_true_iff, N.eqb_eq, IH. intros [-> ->]; reflexivity.
  - intros [= -> ->]. rewrite andb_true_iff, N.eqb_eq, IH. auto.
Qed.

Lemma str_eqb_refl a : str_eqb a a = true.
Proof. now apply str_eqb_eq. Qed.

Lemma str_eqb_neq a b : str_eqb a b = false <-> a <> b.
Proof. rewrite <- not_true_iff_false, str_eqb_eq. tauto. Qed.

Lemma str_eqb_spec a b : reflect (a = b) (str_eqb a b).
Proof. destruct (str_eqb a b) eqn:E; constructor; [now apply str_eqb_eq|now apply str_eqb_neq]. Qed.

Lemma str_eqb_sym a b : str_eqb a b = str_eqb b a.
Proof. destruct (str_eqb_spec a b), (str_eqb_spec b a); congruence. Qed.

Definition str_eq_dec (a b : str) : {a = b} + {a <> b}.
Proof. apply (list_eq_dec N.eq_dec). Defined.

(** [x in l] for a list of strings. *)
Definition str_mem (x : str) (l : list str) : bool := existsb (str_eqb x) l.

Lemma str_mem_In x l : str_mem x l = true <-> In x l.
Proof.
  unfold str_mem. rewrite existsb_exists. split.
  - intros [y [Hy E]]. apply str_eqb_eq in E. now subst.
  - intros H. exists x. split; [assumption|apply str_eqb_refl].
Qed.

Definition ostr_eqb (a b : option str) : bool :=
  match a, b with
  | None, None => true
  | Some x, Some y => str_eqb x y
  | _, _ => false
  end.

Lemma ostr_eqb_eq a b : ostr_eqb a b = true <-> a = b.
Proof.
  destruct a, b; cbn; rewrite ?str_eqb_eq; split; congruence.
Qed.

(** Code point in a closed range. *)
Definition in_range (lo hi c : N) : bool := N.leb lo c && N.leb c hi.

Definition in_ranges (rs : list (N * N)) (c : N) : bool :=
  existsb (fun r => in_range (fst r) (snd r) c) rs.

(** [str(n)] for a non-negative int, and [int(s)] on a list of digit values. *)
Fixpoint digits_of_uint (d : Decimal.uint) : list N :=
  match d with
  | Decimal.Nil => []
  | Decimal.D0 d => 0%N :: digits_of_uint d
  | Decimal.D1 d => 1%N :: digits_of_uint d
  | Decimal.D2 d => 2%N :: digits_of_uint d
  | Decimal.D3 d => 3%N :: digits_of_uint d
  | Decimal.D4 d => 4%N :: digits_of_uint d
  | Decimal.D5 d => 5%N :: digits_of_uint d
  | Decimal.D6 d => 6%N :: digits_of_uint d
  | Decimal.D7 d => 7%N :: digits_of_uint d
  | Decimal.D8 d => 8%N :: digits_of_uint d
  | Decimal.D9 d => 9%N :: digits_of_uint d
  end.

Definition ucons (k : N) (d : Decimal.uint) : Decimal.uint :=
  match k with
  | 0 => Decimal.D0 d | 1 => Decimal.D1 d | 2 => Decimal.D2 d | 3 => Decimal.D3 d
  | 4 => Decimal.D4 d | 5 => Decimal.D5 d | 6 => Decimal.D6 d | 7 => Decimal.D7 d
  | 8 => Decimal.D8 d | _ => Decimal.D9 d
  end%N.

Definition uint_of_digits (l : list N) : Decimal.uint := fold_right ucons Decimal.Nil l.

Lemma uint_of_digits_of_uint d : uint_of_digits (digits_of_uint d) = d.
Proof. unfold uint_of_digits. induction d; cbn [digits_of_uint fold_right]; rewrite ?IHd; reflexivity. Qed.

Definition N_of_digits (l : list N) : N := N.of_uint (uint_of_digits l).

Definition digits_of_N (n : N) : list N := digits_of_uint (N.to_uint n).

Lemma N_of_digits_of_N n : N_of_digits (digits_of_N n) = n.
Proof.
  unfold N_of_digits, digits_of_N. rewrite uint_of_digits_of_uint.
  apply DecimalN.Unsigned.of_to.
Qed.

Lemma digits_of_uint_lt d x : In x (digits_of_uint d) -> (x < 10)%N.
Proof. induction d; cbn; intros H; try tauto; destruct H as [<-|H]; auto; reflexivity. Qed.

Lemma digits_of_N_lt n x : In x (digits_of_N n) -> (x < 10)%N.
Proof. apply digits_of_uint_lt. Qed.

Lemma little_to_uint_nonnil n : digits_of_N n <> [].
Proof.
  unfold digits_of_N. intros H.
  assert (E : N.to_uint n = Decimal.Nil) by (destruct (N.to_uint n); cbn in H; congruence).
  pose proof (DecimalN.Unsigned.of_to n) as P. rewrite E in P. cbn in P. subst n.
  cbn in E. discriminate.
Qed.

(** [str(n)], n >= 0. *)
Definition str_of_N (n : N) : str := map (N.add 48) (digits_of_N n).

(** [str(z)]. *)
Definition str_of_Z (z : Z) : str :=
  if Z.ltb z 0 then 45%N :: str_of_N (Z.to_N (- z)) else str_of_N (Z.to_N z).

Fixpoint starts_with (p s : str) : bool :=
  match p, s with
  | [], _ => true
  | x :: p', y :: s' => N.eqb x y && starts_with p' s'
  | _, _ => false
  end.

Lemma starts_with_spec p s : starts_with p s = true <-> exists r, s = p ++ r.
Proof.
  revert s; induction p as [|x p IH]; intros s; cbn.
  - split; eauto.
  - destruct s as [|y s]; [split; [easy|intros [r Hr]; discriminate]|].
    rewrite andb_true_iff, N.eqb_eq, IH. split.
    + intros [-> [r ->]]. eauto.
    + intros [r [= -> ->]]. eauto.
Qed.

(** Span: longest prefix satisfying [f]. *)
Fixpoint span (f : N -> bool) (s : str) : str * str :=
  match s with
  | [] => ([], [])
  | c :: s' => if f c then let (a, b) := span f s' in (c :: a, b) else ([], s)
  end.

Lemma span_app f s a b : span f s = (a, b) -> s = a ++ b.
Proof.
  revert a b; induction s as [|c s IH]; cbn; intros a b.
  - intros [= <- <-]; reflexivity.
  - destruct (f c).
    + destruct (span f s) as [a' b'] eqn:E. intros [= <- <-]. cbn. f_equal. now apply IH.
    + intros [= <- <-]. reflexivity.
Qed.

Lemma span_forall f s a b : span f s = (a, b) -> forallb f a = true.
Proof.
  revert a b; induction s as [|c s IH]; cbn; intros a b.
  - intros [= <- <-]; reflexivity.
  - destruct (f c) eqn:Hc.
    + destruct (span f s) as [a' b'] eqn:E. intros [= <- <-]. cbn. rewrite Hc. cbn. eauto.
    + intros [= <- <-]. reflexivity.
Qed.

Lemma span_stop f s a b : span f s = (a, b) -> match b with [] => True | c :: _ => f c = false end.
Proof.
  revert a b; induction s as [|c s IH]; cbn; intros a b.
  - intros [= <- <-]; exact I.
  - destruct (f c) eqn:Hc.
    + destruct (span f s) as [a' b'] eqn:E. intros [= <- <-]. eapply IH; reflexivity.
    + intros [= <- <-]. assumption.
Qed.

Lemma span_all f a b :
  forallb f a = true -> match b with [] => True | c :: _ => f c = false end ->
  span f (a ++ b) = (a, b).
Proof.
  induction a as [|c a IH]; cbn; intros Ha Hb.
  - destruct b as [|c b]; [reflexivity|]. cbn. now rewrite Hb.
  - apply andb_prop in Ha as [Hc Ha]. rewrite Hc, (IH Ha Hb). reflexivity.
Qed.
