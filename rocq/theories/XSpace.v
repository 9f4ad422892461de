(** normalize-space(): strip, and collapse runs of white space to one space (XPath 1.0 section 4.2) *)
From Coq Require Import String Arith.
From Verif Require Export XPathEval.

Fixpoint norm_words (s : str) (cur : str) : list str :=
  match s with
  | [] => match cur with [] => [] | _ => [rev cur] end
  | c :: s' =>
    if is_xws c then match cur with [] => norm_words s' [] | _ => rev cur :: norm_words s' [] end
    else norm_words s' (c :: cur)
  end.
Fixpoint join_sp (l : list str) : str :=
  match l with [] => [] | [w] => w | w :: l' => w ++ 32%N :: join_sp l' end.
Definition normalize_space (s : str) : str := join_sp (norm_words s []).
