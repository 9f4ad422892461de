(** C83: numbers in XPath expressions keep their value (xpath/lexrules.py:131-140, xpath/parserules.py:320-325,
    xpath/ast.py:60-74).  Statements over NumberSpec.v. *)
From Coq Require Import String.
From Verif Require Import XPathSpec XPathParser NumberSpec XPathNum.

(** digits without a point are parsed to the integer they denote, however many digits and leading zeros *)
Theorem C83_integer : forall ds, decimal_digits ds -> ds <> [] -> parse (written ds) = Ok (EInt (dec ds)).
Proof. exact parse_integer. Qed.

(** an integer is written with the digits of its value, without leading zeros, and is read back *)
Theorem C83_integer_back : forall n, exists ds, decimal_digits ds /\ dec ds = n /\
  (ds = [0%N] \/ exists d l, ds = d :: l /\ d <> 0%N) /\
  serialize (EInt n) = written ds /\ parse (serialize (EInt n)) = Ok (EInt n).
Proof.
  intros n. destruct (integer_back n) as (ds & H1 & H2 & H3 & H4). exists ds. repeat split; auto.
  rewrite H4, <- H2. apply parse_integer; [exact H1|]. destruct H3 as [->|(d & l & -> & _)]; discriminate.
Qed.

(** a decimal of at most 15 significant digits in the positional range is written as the same number without superfluous
    zeros, and is read back to the same AST *)
Theorem C83_decimal_partial : forall ip fp, decimal_digits ip -> decimal_digits fp -> (ip <> [] \/ fp <> []) ->
  significant15 ip fp -> positional ip fp ->
  exists x jp kp, parse (numeral ip fp) = Ok (EFloat x) /\ serialize (EFloat x) = numeral jp kp /\
    decimal_digits jp /\ decimal_digits kp /\ tidy jp kp /\ same_number ip fp jp kp /\
    parse (serialize (EFloat x)) = Ok (EFloat x).
Proof. exact decimal_back. Qed.

(** outside the positional range Python writes an exponent, which the XPath grammar does not have *)
Theorem C83_exponent_refuted :
  (exists x, parse (u "10000000000000000.0") = Ok (EFloat x) /\ serialize (EFloat x) = u "1e+16" /\
     parse (u "1e+16") = RaiseRuntimeError) /\
  (exists x, parse (u "0.000015") = Ok (EFloat x) /\ serialize (EFloat x) = u "1.5e-05" /\
     parse (u "1.5e-05") = RaiseRuntimeError).
Proof.
  split; [exists (FExp [1%N] 16)|exists (FExp [1%N; 5%N] (-5))]; vm_compute; auto.
Qed.

Example C83_integer_case : decimal_digits [0; 0; 7; 0; 3]%N /\ dec [0; 0; 7; 0; 3]%N = 703%N /\
  parse (u "00703") = Ok (EInt 703) /\ serialize (EInt 703) = u "703".
Proof. split; [apply Forall_forall; cbn; intros x Hx; lia|]. vm_compute. auto. Qed.

Example C83_decimal_case : let ip := [0; 1; 2]%N in let fp := [5; 0]%N in
  decimal_digits ip /\ decimal_digits fp /\ significant15 ip fp /\ positional ip fp /\
  exists x, parse (u "012.50") = Ok (EFloat x) /\ serialize (EFloat x) = u "12.5".
Proof.
  cbv zeta. split; [apply Forall_forall; cbn; intros x Hx; lia|]. split; [apply Forall_forall; cbn; intros x Hx; lia|].
  split; [exists 1250%N, 0%N; split; reflexivity|]. split; [right; split; vm_compute; congruence|].
  exists (FDec [1; 2]%N [5]%N). vm_compute. auto.
Qed.

Print Assumptions C83_integer.
Print Assumptions C83_integer_back.
Print Assumptions C83_decimal_partial.
Print Assumptions C83_exponent_refuted.
