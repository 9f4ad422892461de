(** Specification for C83: decimal numerals and their values, independent of the lexer and of the float model. *)
From Coq Require Import NArith List.
From Verif Require Import PyStr.
Import ListNotations.

(** a sequence of decimal digit values *)
Definition decimal_digits (ds : list N) : Prop := Forall (fun d => (d < 10)%N) ds.
(** its value *)
Fixpoint horner (acc : N) (ds : list N) : N :=
  match ds with [] => acc | d :: ds' => horner (10 * acc + d) ds' end.
Definition dec (ds : list N) : N := horner 0 ds.
(** written with the characters '0'..'9' *)
Definition written (ds : list N) : str := map (fun d => (48 + d)%N) ds.
(** "ip.fp" *)
Definition numeral (ip fp : list N) : str := written ip ++ [46%N] ++ written fp.
(** ip.fp and jp.kp are the same number *)
Definition same_number (ip fp jp kp : list N) : Prop :=
  (dec (ip ++ fp) * 10 ^ N.of_nat (length kp) = dec (jp ++ kp) * 10 ^ N.of_nat (length fp))%N.
(** no superfluous zeros: the integer part is 0 or starts with another digit, the fraction is 0 or ends with another digit *)
Definition tidy (jp kp : list N) : Prop :=
  (jp = [0%N] \/ exists d l, jp = d :: l /\ d <> 0%N) /\ (kp = [0%N] \/ exists d l, kp = l ++ [d] /\ d <> 0%N).
(** ip.fp has at most 15 significant digits *)
Definition significant15 (ip fp : list N) : Prop := exists m k, (m < 10 ^ 15 /\ dec (ip ++ fp) = m * 10 ^ k)%N.
(** ip.fp is 0 or lies in the range that Python writes without an exponent, 0.0001 <= x < 10^16 *)
Definition positional (ip fp : list N) : Prop :=
  (dec (ip ++ fp) = 0 \/
   10 ^ N.of_nat (length fp) <= dec (ip ++ fp) * 10 ^ 4 /\ dec (ip ++ fp) < 10 ^ 16 * 10 ^ N.of_nat (length fp))%N.
