(** Specification side for the XPath parser: derivation trees of the grammar, their token yield, and
    the declared operator precedence as a condition on trees.  Nothing here mentions the parse
    tables or the driver; only the productions of parserules.py ([prods]) are used. *)
From Verif Require Export LALR.

(** grammar symbol at the root of a tree *)
Definition root (t : ptree) : sym :=
  match t with Leaf k => T (ttype k) | Node p _ => NT (lhs (get_prod p)) end.

(** a tree is a derivation: every inner node is an instance of a production (not of the augmented
    start rule) *)
Inductive wf : ptree -> Prop :=
| wf_leaf k : wf (Leaf k)
| wf_node p kids :
    0 < p < nprods -> map root kids = rhs (get_prod p) -> Forall wf kids -> wf (Node p kids).

(** the token sequence derived *)
Fixpoint yield (t : ptree) : list tok :=
  match t with Leaf k => [k] | Node _ kids => flat_map yield kids end.

(** operator productions *)
Definition binop (p : nat) : option term :=
  match rhs (get_prod p) with [NT Expr; T o; NT Expr] => Some o | _ => None end.
Definition is_unary (p : nat) : bool :=
  match rhs (get_prod p) with [T MINUS_OP; NT Expr] => true | _ => false end.

(** declared level of a token (parserules.py:27-36), 0 if it is not an operator *)
Definition lvl (t : term) : N := snd (token_prec t).
Definition ulvl : N := snd UMINUS.

(** operators visible at the left edge / right edge of an (unparenthesised) expression *)
Fixpoint left_ops (t : ptree) : list N :=
  match t with
  | Leaf _ => []
  | Node p kids =>
    match binop p with
    | Some o => lvl o :: match kids with l :: _ => left_ops l | [] => [] end
    | None => []
    end
  end.

Fixpoint right_ops (t : ptree) : list N :=
  match t with
  | Leaf _ => []
  | Node p kids =>
    match binop p with
    | Some o => lvl o :: match kids with [_; _; r] => right_ops r | _ => [] end
    | None => if is_unary p
              then ulvl :: match kids with [_; r] => right_ops r | _ => [] end
              else []
    end
  end.

(** precedence and left associativity: an operand on the left of an operator shows at its right edge
    only operators that bind at least as tightly; one on the right shows at its left edge only
    operators that bind strictly more tightly. *)
Inductive prec_ok : ptree -> Prop :=
| prec_leaf k : prec_ok (Leaf k)
| prec_node p kids :
    Forall prec_ok kids ->
    (forall o l k r, binop p = Some o -> kids = [l; k; r] ->
        Forall (fun x => (lvl o <= x)%N) (right_ops l) /\
        Forall (fun x => (lvl o < x)%N) (left_ops r)) ->
    (forall k r, is_unary p = true -> kids = [k; r] ->
        Forall (fun x => (ulvl < x)%N) (left_ops r)) ->
    prec_ok (Node p kids).

(** [derives ts t]: [t] is a derivation of the token sequence [ts] from Expr that respects the
    declared precedence. *)
Definition derives (ts : list tok) (t : ptree) : Prop :=
  wf t /\ root t = NT Expr /\ prec_ok t /\ yield t = ts.

(** the AST that the semantic actions build for a derivation *)
Definition ast_of (t : ptree) : option expr :=
  match eval t with Some (SExpr e) => Some e | _ => None end.
