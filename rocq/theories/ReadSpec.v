(** Specification for C88: which texts are integers, numbers, dates and times for a typed field, and what they stand for.
    Independent of the model: only characters (code points), sequences and arithmetic. *)
From Coq Require Import NArith ZArith List.
From Verif Require Import PyStr.
Import ListNotations.

(** '0'..'9', and the number a sequence of them denotes *)
Definition digit (c : N) : Prop := (48 <= c <= 57)%N.
Definition value_of (s : str) : N := fold_left (fun n c => (10 * n + (c - 48))%N) s 0%N.
(** white space for Python (ASCII part) and for XML *)
Definition py_blank (c : N) : Prop := (9 <= c <= 13 \/ 28 <= c <= 32)%N.
Definition xml_blank (c : N) : Prop := c = 32%N \/ c = 9%N \/ c = 13%N \/ c = 10%N.
(** '+' and '-' *)
Inductive sign : str -> Z -> Prop := no_sign : sign [] 1 | plus_sign : sign [43%N] 1 | minus_sign : sign [45%N] (-1).
Inductive minus_only : str -> Z -> Prop := mo_none : minus_only [] 1 | mo_minus : minus_only [45%N] (-1).

(** ** Python's int(text) *)
(** digits in groups with single underscores between them; the second argument has the digits only *)
Inductive grouped : str -> str -> Prop :=
| one_group g : g <> [] -> Forall digit g -> grouped g g
| more_groups g t ds : g <> [] -> Forall digit g -> grouped t ds -> grouped (g ++ 95%N :: t) (g ++ ds).
Definition python_int (s : str) (z : Z) : Prop := exists l sg v t ds r,
  s = l ++ sg ++ t ++ r /\ Forall py_blank l /\ Forall py_blank r /\ sign sg v /\ grouped t ds /\ z = (v * Z.of_N (value_of ds))%Z.

(** ** libxml2's number(text): the text stands for n * 10^x *)
Inductive mantissa : str -> str -> nat -> Prop :=                  (* text, digits, digits after the point *)
| whole ip : ip <> [] -> Forall digit ip -> mantissa ip ip 0
| pointed ip fp : (ip <> [] \/ fp <> []) -> Forall digit ip -> Forall digit fp -> mantissa (ip ++ 46%N :: fp) (ip ++ fp) (length fp).
Inductive exponent : str -> Z -> Prop :=                           (* the digits may be missing *)
| no_exponent : exponent [] 0
| some_exponent c sg v ds : c = 101%N \/ c = 69%N -> sign sg v -> Forall digit ds -> exponent (c :: sg ++ ds) (v * Z.of_N (value_of ds)).
Definition libxml_number (s : str) (n x : Z) : Prop := exists l sg v t ds k ex e r,
  s = l ++ sg ++ t ++ ex ++ r /\ Forall xml_blank l /\ Forall xml_blank r /\ minus_only sg v /\
  (mantissa t ds k \/ sg <> [] /\ t = [] /\ ds = [] /\ k = 0) /\ exponent ex e /\
  n = (v * Z.of_N (value_of ds))%Z /\ x = (e - Z.of_nat k)%Z /\
  ~ (n = 0 /\ 308 < e)%Z.                                           (* 0 * infinity: not a number *)

(** ** Python's float(text) *)
Inductive py_mantissa : str -> str -> nat -> Prop :=
| py_whole t ds : grouped t ds -> py_mantissa t ds 0
| py_point1 t ds : grouped t ds -> py_mantissa (t ++ [46%N]) ds 0
| py_point2 t ds : grouped t ds -> py_mantissa (46%N :: t) ds (length ds)
| py_point3 t ds t' ds' : grouped t ds -> grouped t' ds' -> py_mantissa (t ++ 46%N :: t') (ds ++ ds') (length ds').
Inductive py_expo : str -> Z -> Prop :=
| py_no_exponent : py_expo [] 0
| py_some_exponent c sg v t ds : c = 101%N \/ c = 69%N -> sign sg v -> grouped t ds -> py_expo (c :: sg ++ t) (v * Z.of_N (value_of ds)).
Definition python_float (s : str) (n x : Z) : Prop := exists l sg v t ds k ex e r,
  s = l ++ sg ++ t ++ ex ++ r /\ Forall py_blank l /\ Forall py_blank r /\ sign sg v /\ py_mantissa t ds k /\ py_expo ex e /\
  n = (v * Z.of_N (value_of ds))%Z /\ x = (e - Z.of_nat k)%Z.

(** m / 10^k = n * 10^x, and the integer next to it towards zero *)
Definition equals (m : Z) (k : nat) (n x : Z) : Prop :=
  exists a b : nat, (m * 10 ^ Z.of_nat b = n * 10 ^ Z.of_nat a /\ x + Z.of_nat k = Z.of_nat a - Z.of_nat b)%Z.
Definition towards_zero (n x : Z) : Z := if Z.leb 0 x then (n * 10 ^ x)%Z else Z.quot n (10 ^ (- x)).

(** ** dates and times *)
(** one digit, two digits, or (a day) a space and a digit *)
Inductive short : str -> N -> Prop :=
| one_digit c : digit c -> short [c] (c - 48)
| two_digits c d : digit c -> digit d -> short [c; d] (10 * (c - 48) + (d - 48)).
Inductive year_text : str -> N -> Prop :=
| four_digits a b c d : digit a -> digit b -> digit c -> digit d -> year_text [a; b; c; d] (value_of [a; b; c; d]).
Inductive day_text : str -> N -> Prop :=
| day_short s n : short s n -> day_text s n
| day_space c : digit c -> day_text [32%N; c] (c - 48).
(** the fraction of a second, in microseconds: one to six digits *)
Inductive fraction_text : str -> N -> Prop :=
| fraction s : Forall digit s -> 1 <= length s <= 6 -> fraction_text s (value_of s * 10 ^ N.of_nat (6 - length s)).
(** year-month-day, hour:minute:second with or without a fraction; an empty zone, Z, or a sign and five more
    characters (the last one not Z), perhaps with a Z after them *)
Definition date_text (s : str) (y m d : N) : Prop := exists ys ms ds,
  s = ys ++ 45%N :: ms ++ 45%N :: ds /\ year_text ys y /\ short ms m /\ day_text ds d.
Definition time_text (s : str) (h m sec us : N) : Prop := exists hs ms ss fs,
  s = hs ++ 58%N :: ms ++ 58%N :: ss ++ fs /\ short hs h /\ short ms m /\ short ss sec /\
  (fs = [] /\ us = 0%N \/ exists f, fs = 46%N :: f /\ fraction_text f us).
Inductive zone : str -> Prop :=
| zone_none : zone []
| zone_z : zone [90%N]
| zone_offset p a b c d e : p = 43%N \/ p = 45%N -> e <> 90%N -> zone [p; a; b; c; d; e]
| zone_offset_z p a b c d e : p = 43%N \/ p = 45%N -> zone [p; a; b; c; d; e; 90%N].
Definition datetime_text (s : str) (y m d h mi sec us : N) : Prop := exists ds c ts z,
  s = (ds ++ c :: ts) ++ z /\ date_text ds y m d /\ (c = 84%N \/ c = 116%N) /\ time_text ts h mi sec us /\ zone z.
