(** The XPath 1.0 evaluator of lxml/libxml2 ([node.xpath(xpath, namespaces=..., **vars)]), for the
    fragment in which eulxml can create and remove nodes: child and attribute steps with name
    tests, text(), '.', '/', predicates (position, existence, '=' with literals, numbers and
    variables, and/or) and count().  Everything else is [unsupported] (the model then makes no
    claim).  Transcribed from XPath 1.0 sections 2-4; not part of /repo.
    SIMPLIFICATION: numbers are exact decimals instead of binary64. *)
From Coq Require Import String Arith.
From Verif Require Export XmlTree XPathAst.

(** XPath context given by eulxml: [context['namespaces']] (absent or a dict) and the variables
    (the other keys of the context). *)
Inductive vval := VarStr (s : str) | VarInt (z : Z).
Record env := mkEnv { nss : option (list (str * str)); vars : list (str * vval) }.

Fixpoint lookup {A} (k : str) (l : list (str * A)) : option A :=
  match l with
  | [] => None
  | (k', v) :: l' => if str_eqb k k' then Some v else lookup k l'
  end.

Definition ns_of (E : env) (p : str) : option str :=
  match nss E with Some l => lookup p l | None => None end.

(** the namespace a prefix stands for: [None] if undefined *)
Definition resolve (E : env) (p : option str) : option (option str) :=
  match p with
  | None => Some None
  | Some x => match ns_of E x with Some uri => Some (Some uri) | None => None end
  end.

(** nodes in an XPath result, with the address of the element lxml reports ([getparent()] for
    attribute and text "smart strings"; for a tail that is the element the tail follows) *)
Inductive item :=
| IElem (a : addr) (n : node)
| IAttr (a : addr) (q : qname) (v : str)
| IText (a : addr) (tl : bool) (s : str).

Definition item_str (i : item) : str :=
  match i with IElem _ n => strval n | IAttr _ _ v => v | IText _ _ s => s end.

(** *** Numbers: value m / 10^k in lowest terms, [None] for NaN *)
Definition is_xws (c : N) : bool := (N.eqb c 32 || N.eqb c 9 || N.eqb c 13 || N.eqb c 10)%bool.
Definition asc_digit (c : N) : bool := in_range 48 57 c.
Fixpoint lstrip (f : N -> bool) (s : str) : str :=
  match s with c :: s' => if f c then lstrip f s' else s | [] => [] end.
Definition strip (f : N -> bool) (s : str) : str := rev (lstrip f (rev (lstrip f s))).
Definition dvals (s : str) : list N := map (fun c => (c - 48)%N) s.

Definition number := (Z * nat)%type.
Definition mk_number (neg : bool) (ip fp : str) : number :=
  let fp' := rstrip0 (dvals fp) in
  let m := Z.of_N (N_of_digits (dvals ip ++ fp')) in
  ((if neg then - m else m)%Z, length fp').

(** the value times ten to the [e], in lowest terms *)
Fixpoint lowest (m : Z) (k : nat) : number :=
  match k with O => (m, O) | S k' => if Z.eqb (Z.rem m 10) 0 then lowest (Z.quot m 10) k' else (m, k) end.
Definition shift10 (e : Z) (x : number) : number :=
  let '(m, k) := x in
  if Z.leb 0 e then (if Nat.leb k (Z.to_nat e) then ((m * 10 ^ (e - Z.of_nat k))%Z, O) else (m, k - Z.to_nat e))
  else lowest m (k + Z.to_nat (- e)).
(** libxml2 accepts an exponent, also without digits: [None] if anything else follows *)
Definition xexponent (s : str) : option Z :=
  match s with
  | [] => Some 0%Z
  | c :: r =>
    if (N.eqb c 101 || N.eqb c 69)%bool then
      let '(neg, r) := match r with x :: r' => if N.eqb x 45 then (true, r') else if N.eqb x 43 then (false, r') else (false, r) | [] => (false, []) end in
      let (ds, rest) := span asc_digit r in
      match rest with [] => let z := Z.of_N (N_of_digits (dvals ds)) in Some (if neg then - z else z)%Z | _ => None end
    else None
  end.
(** zero times ten to a power that is infinity in binary64 is NaN *)
Definition scaled (e : Z) (x : number) : option number :=
  if (Z.ltb 308 e && Z.eqb (fst x) 0)%bool then None else Some (shift10 e x).
(** libxml2's xmlXPathStringEvalNumber, which is not quite XPath 1.0's number(): exponents, and digits may be missing after a minus sign.
    SIMPLIFICATION: other values are exact, not rounded to binary64 here. *)
Definition xnumber (s : str) : option number :=
  let s := strip is_xws s in
  let '(neg, s) := match s with c :: r => if N.eqb c 45 then (true, r) else (false, s) | [] => (false, []) end in
  let (ip, rest) := span asc_digit s in
  match rest with
  | c :: r =>
    if N.eqb c 46 then
      let (fp, rest2) := span asc_digit r in
      match ip, fp with
      | [], [] => None
      | _, _ => match xexponent rest2 with Some e => scaled e (mk_number neg ip fp) | None => None end
      end
    else match ip, neg with
      | [], false => None
      | _, _ => match xexponent rest with Some e => scaled e (mk_number neg ip []) | None => None end
      end
  | [] => match ip, neg with [], false => None | _, _ => Some (mk_number neg ip []) end
  end.

Definition num_eqb (a b : option number) : bool :=
  match a, b with
  | Some (m, k), Some (m', k') => Z.eqb m m' && Nat.eqb k k'
  | _, _ => false
  end.
Definition num_of_Z (z : Z) : number := (z, O).

(** *** Values *)
Inductive xv := XN (l : list item) | XS (s : str) | XNum (n : option number) | XB (b : bool).

Definition to_bool (v : xv) : bool :=
  match v with
  | XN l => match l with [] => false | _ => true end
  | XS s => match s with [] => false | _ => true end
  | XNum (Some (m, _)) => negb (Z.eqb m 0)
  | XNum None => false
  | XB b => b
  end.

(** 3.4: comparison with '=' *)
Definition xeq (a b : xv) : bool :=
  match a, b with
  | XN l, XN l' => existsb (fun i => existsb (fun j => str_eqb (item_str i) (item_str j)) l') l
  | XN l, XS s | XS s, XN l => existsb (fun i => str_eqb (item_str i) s) l
  | XN l, XNum n | XNum n, XN l => existsb (fun i => num_eqb (xnumber (item_str i)) n) l
  | XB x, v | v, XB x => Bool.eqb x (to_bool v)
  | XS s, XS s' => str_eqb s s'
  | XS s, XNum n | XNum n, XS s => num_eqb (xnumber s) n
  | XNum n, XNum n' => num_eqb n n'
  end.

Definition nodes_of (v : xv) : list item := match v with XN l => l | _ => [] end.

(** *** Steps *)
Definition child_axis (ax : option str) : bool :=
  match ax with None => true | Some a => str_eqb a (u "child") end.
Definition attr_axis (ax : option str) : bool :=
  match ax with None => false | Some a => (str_eqb a (u "@") || str_eqb a (u "attribute"))%bool end.

Definition test_q (E : env) (p : option str) (n : str) (q : qname) : bool :=
  if str_eqb n (u "*") then
    match p with
    | None => true
    | Some _ => match resolve E p with Some uri => ostr_eqb (q_ns q) uri | None => false end
    end
  else match resolve E p with Some uri => qeqb q (QN uri n) | None => false end.

Definition test_node (E : env) (p : option str) (n : str) (x : node) : bool :=
  match x with Elem q _ _ _ => test_q E p n q | Misc _ => false end.

Fixpoint enum {A} (i : nat) (l : list A) : list (nat * A) :=
  match l with [] => [] | x :: l' => (i, x) :: enum (S i) l' end.

Definition kid_items (f : node -> bool) (a : addr) (ks : list (node * option str)) : list item :=
  flat_map (fun x => if f (fst (snd x)) then [IElem (a ++ [fst x]) (fst (snd x))] else []) (enum 0 ks).

Definition text_items (a : addr) (n : node) : list item :=
  match n with
  | Elem _ _ t ks =>
    match t with Some s => [IText a false s] | None => [] end ++
    flat_map (fun x => match snd (snd x) with Some s => [IText (a ++ [fst x]) true s] | None => [] end) (enum 0 ks)
  | Misc _ => []
  end.

Definition step_items (E : env) (ax : option str) (t : nodetest) (c : item) : list item :=
  match c with
  | IElem a n =>
    match t with
    | NameTest p nm =>
      if child_axis ax then kid_items (test_node E p nm) a (kids_of n)
      else if attr_axis ax then
        flat_map (fun x => if test_q E p nm (fst x) then [IAttr a (fst x) (snd x)] else []) (attrs_of n)
      else []
    | NodeType _ _ => if child_axis ax then text_items a n else []
    end
  | _ => []
  end.

(** predicate filtering with proximity positions *)
Definition filter_pos (f : item -> N -> bool) (l : list item) : list item :=
  flat_map (fun x => if f (snd x) (N.of_nat (S (fst x))) then [snd x] else []) (enum 0 l).

(** 2.4: a number is compared with the position, anything else is converted to a boolean *)
Definition truth (v : xv) (pos : N) : bool :=
  match v with
  | XNum n => num_eqb n (Some (num_of_Z (Z.of_N pos)))
  | _ => to_bool v
  end.

Definition var_value (E : env) (n : str) : xv :=
  match lookup n (vars E) with
  | Some (VarStr s) => XS s
  | Some (VarInt z) => XNum (Some (num_of_Z z))
  | None => XN []
  end.

Fixpoint ev (E : env) (e : expr) (c : item) : xv :=
  match e with
  | ELit s => XS s
  | EInt n => XNum (Some (num_of_Z (Z.of_N n)))
  | EVar _ n => var_value E n
  | EAbbrev _ => XN [c]
  | EStep ax t ps =>
    XN (fold_left (fun items p => filter_pos (fun i pos => truth (ev E p i) pos) items) ps (step_items E ax t c))
  | EBin l op r =>
    if str_eqb op (u "/") then XN (flat_map (fun i => nodes_of (ev E r i)) (nodes_of (ev E l c)))
    else if str_eqb op (u "=") then XB (xeq (ev E l c) (ev E r c))
    else if str_eqb op (u "and") then XB (to_bool (ev E l c) && to_bool (ev E r c))
    else if str_eqb op (u "or") then XB (to_bool (ev E l c) || to_bool (ev E r c))
    else XN []
  | ECall _ _ args =>
    match args with
    | [a] => XNum (Some (num_of_Z (Z.of_nat (length (nodes_of (ev E a c))))))
    | _ => XN []
    end
  | _ => XN []
  end.

(** *** Which expressions are evaluated faithfully by [ev]; undefined prefixes and variables make
    lxml raise XPathEvalError *)
Definition is_path (e : expr) : bool :=
  match e with
  | EStep _ _ _ => true
  | EAbbrev a => str_eqb a (u ".")
  | EBin _ op _ => str_eqb op (u "/")
  | _ => false
  end.

Definition sup_test (E : env) (t : nodetest) : bool :=
  match t with
  | NameTest p _ => match resolve E p with Some _ => true | None => false end
  | NodeType n None => str_eqb n (u "text")
  | NodeType _ (Some _) => false
  end.

Fixpoint supported (E : env) (e : expr) : bool :=
  match e with
  | ELit _ | EInt _ => true
  | EVar None n => match lookup n (vars E) with Some _ => true | None => false end
  | EAbbrev a => str_eqb a (u ".")
  | EStep ax t ps =>
    (child_axis ax || attr_axis ax) && sup_test E t && forallb (supported E) ps
  | EBin l op r =>
    supported E l && supported E r &&
    (if str_eqb op (u "/") then is_path l && is_path r
     else str_mem op [u "="; u "and"; u "or"])
  | ECall None n [a] => str_eqb n (u "count") && is_path a && supported E a
  | _ => false
  end.
