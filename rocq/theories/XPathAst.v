(** Model of eulxml/xpath/ast.py: the AST classes and [serialize]. *)
From Coq Require Import String.
From Verif Require Export PyStr UniTables.

(** Python floats as far as the XPath lexer makes them (lexrules.py:131-134, [float(t.value)]).
    [FDec ip fp]: a decimal with at most 15 significant digits whose [repr] is positional: [ip]
    are the integer digits without leading zeros, [fp] the fraction digits without trailing zeros
    (digit values 0..9).  [FExp ds e]: same precision, but [repr] uses an exponent (ds = significant
    digits, value = d.ddd * 10^e).  [FOther l]: more than 15 significant digits or out of range; the
    model keeps the lexeme and says nothing about the float's [repr].
    SIMPLIFICATION: binary64 rounding is not modelled; for <= 15 significant digits [repr(float(s))]
    is the normalised decimal [s] itself (IEEE 754 binary64 keeps 15 decimal digits). *)
Inductive pyfloat :=
| FDec (ip fp : list N)
| FExp (ds : list N) (e : Z)
| FOther (lexeme : str).

Fixpoint strip0 (l : list N) : list N :=
  match l with
  | [] => []
  | d :: l' => if N.eqb d 0 then strip0 l' else l
  end.

Definition rstrip0 (l : list N) : list N := rev (strip0 (rev l)).

Fixpoint lead0 (l : list N) : nat :=
  match l with
  | d :: l' => if N.eqb d 0 then S (lead0 l') else 0
  | [] => 0
  end.

(** [float(s)] for s = ip "." fp given as digit values. *)
Definition float_of_digits (lexeme : str) (ip fp : list N) : pyfloat :=
  let ip' := strip0 ip in
  let fp' := rstrip0 fp in
  let sig := strip0 (rstrip0 (ip' ++ fp')) in
  let e10 : Z := match ip' with
                 | [] => (- Z.of_nat (lead0 fp') - 1)%Z
                 | _ => (Z.of_nat (length ip') - 1)%Z
                 end in
  match sig with
  | [] => FDec [] []
  | _ =>
    if Nat.ltb 15 (length sig) then FOther lexeme
    else if (Z.ltb e10 (-300) || Z.ltb 300 e10)%bool then FOther lexeme
    else if (Z.leb (-4) e10 && Z.leb e10 15)%bool then FDec ip' fp'
    else FExp sig e10
  end.

Definition dch (d : N) : N := (48 + d)%N.

Definition or0 (l : list N) : list N := match l with [] => [0%N] | _ => l end.

(** [repr(float)] ([str] of a float is the same in Python 3). *)
Definition repr_float (f : pyfloat) : str :=
  match f with
  | FDec ip fp => map dch (or0 ip) ++ [46%N] ++ map dch (or0 fp)
  | FExp ds e =>
      match ds with
      | [] => []
      | [d] => [dch d]
      | d :: ds' => dch d :: 46%N :: map dch ds'
      end ++ [101%N] ++ [if Z.ltb e 0 then 45%N else 43%N] ++
      let n := Z.to_N (Z.abs e) in
      (if N.ltb n 10 then [48%N] else []) ++ str_of_N n
  | FOther l => l   (* unspecified: see the type's comment *)
  end.

(** Node tests: ast.py:214-235 (NameTest) and ast.py:237-261 (NodeType). *)
Inductive nodetest :=
| NameTest (prefix : option str) (name : str)
| NodeType (name : str) (literal : option str).

(** Expressions: the AST classes of ast.py:77-330; [str], [int] and [float] objects stand for
    themselves in the Python AST. *)
Inductive expr :=
| ELit (s : str)                                        (* str *)
| EInt (n : N)                                          (* int (never negative) *)
| EFloat (f : pyfloat)                                  (* float *)
| EUnary (op : str) (right : expr)                      (* ast.py:77-94 *)
| EBin (left : expr) (op : str) (right : expr)          (* ast.py:98-127 *)
| EPred (base : expr) (predicates : list expr)          (* ast.py:129-156 *)
| EAbs (op : str) (relative : option expr)              (* ast.py:158-178 *)
| EStep (axis : option str) (node_test : nodetest) (predicates : list expr) (* ast.py:181-212 *)
| EAbbrev (abbr : str)                                  (* ast.py:263-276 *)
| EVar (prefix : option str) (localname : str)          (* ast.py:279-297 *)
| ECall (prefix : option str) (name : str) (args : list expr). (* ast.py:300-330 *)

(** [repr(s)] of a str without the quote choice: CPython's unicode_repr.  *)
Definition q1 : N := 39%N.   (* single quote *)
Definition q2 : N := 34%N.   (* double quote *)
Definition bslash : N := 92%N.

Definition hexdigit (n : N) : N := if N.ltb n 10 then (48 + n)%N else (87 + n)%N.

Fixpoint hex (width : nat) (n : N) : str :=
  match width with
  | O => []
  | S w => hex w (N.div n 16) ++ [hexdigit (N.modulo n 16)]
  end.

Definition printable (c : N) : bool := negb (in_ranges nonprintable c).

Definition repr_char (q c : N) : str :=
  if (N.eqb c q || N.eqb c bslash)%bool then [bslash; c]
  else if N.eqb c 9 then [bslash; 116%N]
  else if N.eqb c 10 then [bslash; 110%N]
  else if N.eqb c 13 then [bslash; 114%N]
  else if printable c then [c]
  else if N.ltb c 256 then [bslash; 120%N] ++ hex 2 c
  else if N.ltb c 65536 then [bslash; 117%N] ++ hex 4 c
  else [bslash; 85%N] ++ hex 8 c.

Definition memN (c : N) (s : str) : bool := existsb (N.eqb c) s.

(** quote choice: double quotes iff the string has a single quote and no double quote *)
Definition repr_quote (s : str) : N := if (memN q1 s && negb (memN q2 s))%bool then q2 else q1.

Definition repr_str (s : str) : str :=
  let q := repr_quote s in [q] ++ flat_map (repr_char q) s ++ [q].

(** ast.py:97 *)
Definition KEYWORDS : list str := [u "or"; u "and"; u "div"; u "mod"].

(** [if self.prefix: yield self.prefix; yield ':'] *)
Definition ser_prefix (p : option str) : list str :=
  match p with
  | None => []
  | Some [] => []                      (* '' is falsy *)
  | Some p => [p; u ":"]
  end.

(** ast.py:228-232 and ast.py:252-258.  NodeType yields the raw literal (once: [_serialize] of a
    str yields one token), not its quoted form. *)
Definition ser_nodetest (t : nodetest) : list str :=
  match t with
  | NameTest p n => ser_prefix p ++ [n]
  | NodeType n l => [n; u "("] ++ match l with Some s => [s] | None => [] end ++ [u ")"]
  end.

(** [_serialize]: ast.py:60-74 and the [_serialize] methods.  The generator's yields in order. *)
Fixpoint ser (e : expr) : list str :=
  match e with
  | ELit s => [repr_str s]                                  (* repr(xp_ast).lstrip('u') *)
  | EInt n => [str_of_N n]
  | EFloat f => [repr_float f]
  | EUnary op r => [op] ++ ser r
  | EBin l op r =>
      ser l ++ (if str_mem op KEYWORDS then [u " "; op; u " "] else [op]) ++ ser r
  | EPred b ps =>
      [u "("] ++ ser b ++ [u ")"] ++ flat_map (fun p => [u "["] ++ ser p ++ [u "]"]) ps
  | EAbs op rel => [op] ++ match rel with Some r => ser r | None => [u "None"] end  (* str(None) *)
  | EStep axis t ps =>
      (match axis with
       | None => []
       | Some [] => []
       | Some a => if str_eqb a (u "@") then [u "@"] else [a; u "::"]
       end) ++ ser_nodetest t ++ flat_map (fun p => [u "["] ++ ser p ++ [u "]"]) ps
  | EAbbrev a => [a]
  | EVar p n => [u "$"] ++ ser_prefix p ++ [n]
  | ECall p n args =>
      ser_prefix p ++ [n; u "("] ++
      (match args with
       | [] => []
       | a :: rest => ser a ++ flat_map (fun b => [u ","] ++ ser b) rest
       end) ++ [u ")"]
  end.

(** [serialize]: ast.py:56-58. *)
Definition serialize (e : expr) : str := concat (ser e).

(** Induction principle with hypotheses for the nested lists. *)
Section ExprInd.
  Variable P : expr -> Prop.
  Hypothesis HLit : forall s, P (ELit s).
  Hypothesis HInt : forall n, P (EInt n).
  Hypothesis HFloat : forall f, P (EFloat f).
  Hypothesis HUnary : forall op r, P r -> P (EUnary op r).
  Hypothesis HBin : forall l op r, P l -> P r -> P (EBin l op r).
  Hypothesis HPred : forall b ps, P b -> Forall P ps -> P (EPred b ps).
  Hypothesis HAbsN : forall op, P (EAbs op None).
  Hypothesis HAbsS : forall op r, P r -> P (EAbs op (Some r)).
  Hypothesis HStep : forall a t ps, Forall P ps -> P (EStep a t ps).
  Hypothesis HAbbrev : forall a, P (EAbbrev a).
  Hypothesis HVar : forall p n, P (EVar p n).
  Hypothesis HCall : forall p n args, Forall P args -> P (ECall p n args).

  Fixpoint expr_ind' (e : expr) : P e :=
    let fix all (l : list expr) : Forall P l :=
      match l return Forall P l with
      | [] => Forall_nil P
      | x :: l' => @Forall_cons _ P x l' (expr_ind' x) (all l')
      end in
    match e with
    | ELit s => HLit s
    | EInt n => HInt n
    | EFloat f => HFloat f
    | EUnary op r => HUnary op r (expr_ind' r)
    | EBin l op r => HBin l op r (expr_ind' l) (expr_ind' r)
    | EPred b ps => HPred b ps (expr_ind' b) (all ps)
    | EAbs op None => HAbsN op
    | EAbs op (Some r) => HAbsS op r (expr_ind' r)
    | EStep a t ps => HStep a t ps (all ps)
    | EAbbrev a => HAbbrev a
    | EVar p n => HVar p n
    | ECall p n args => HCall p n args (all args)
    end.
End ExprInd.
