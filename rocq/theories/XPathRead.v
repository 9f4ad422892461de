(** The XPath 1.0 evaluator of lxml/libxml2 for reading, beyond the fragment of XPathEval.v (which is the one eulxml can write
    through): every XPath that only looks down from the node.  Also '//', '|', '!=', filter expressions such as (a|b)[1], the axes
    self, descendant and descendant-or-self, and the functions not, boolean, true, false, position, last, string, string-length,
    normalize-space, local-name, contains and starts-with.  Transcribed from XPath 1.0 sections 2-4; not part of /repo.
    Nodes are kept together with their places in the document, by which libxml2 sorts the results of '/', '//' and '|'. *)
From Coq Require Import String Arith.
From Verif Require Export XSpace.

(** ** nodes with their places *)
Definition pkey := list (nat * nat).
Definition knode := (pkey * item)%type.
Definition pair_cmp (x y : nat * nat) : comparison :=
  match Nat.compare (fst x) (fst y) with Eq => Nat.compare (snd x) (snd y) | c => c end.
Fixpoint key_cmp (r s : pkey) : comparison :=
  match r, s with
  | [], [] => Eq
  | [], _ => Lt
  | _, [] => Gt
  | x :: r', y :: s' => match pair_cmp x y with Eq => key_cmp r' s' | c => c end
  end.
(** document order, each node once (libxml2: xmlXPathNodeSetSort, xmlXPathNodeSetAdd) *)
Fixpoint kinsert (x : knode) (l : list knode) : list knode :=
  match l with
  | [] => [x]
  | y :: l' => match key_cmp (fst x) (fst y) with Lt => x :: l | Eq => l | Gt => y :: kinsert x l' end
  end.
Definition ksort (l : list knode) : list knode := fold_right kinsert [] l.

(** ** axes *)
Definition kid_key (r : pkey) (k : nat) : pkey := r ++ [(2 * k + 2, 0)].
Definition tail_key (r : pkey) (k : nat) : pkey := r ++ [(2 * k + 3, 0)].
Definition own_text (r : pkey) (a : addr) (t : option str) : list knode :=
  match t with Some s => [(r ++ [(1, 0)], IText a false s)] | None => [] end.
Definition own_tail (r : pkey) (a : addr) (k : nat) (t : option str) : list knode :=
  match t with Some s => [(tail_key r k, IText (a ++ [k]) true s)] | None => [] end.

Definition kchildren (r : pkey) (a : addr) (n : node) : list knode :=
  match n with
  | Elem _ _ t ks =>
    own_text r a t ++
    flat_map (fun x => (kid_key r (fst x), IElem (a ++ [fst x]) (fst (snd x))) :: own_tail r a (fst x) (snd (snd x))) (enum 0 ks)
  | Misc _ => []
  end.
Fixpoint kbelow (r : pkey) (a : addr) (n : node) : list knode :=
  match n with
  | Elem _ _ t ks =>
    own_text r a t ++
    (fix go (i : nat) (l : list (node * option str)) : list knode :=
       match l with
       | [] => []
       | (x, tl) :: l' => ((kid_key r i, IElem (a ++ [i]) x) :: kbelow (kid_key r i) (a ++ [i]) x) ++ own_tail r a i tl ++ go (S i) l'
       end) 0 ks
  | Misc _ => []
  end.
Definition kattrs (r : pkey) (a : addr) (n : node) : list knode :=
  map (fun x => (r ++ [(0, fst x)], IAttr a (fst (snd x)) (snd (snd x)))) (enum 0 (attrs_of n)).

Inductive axis := AChild | AAttr | ASelf | ADesc | ADescSelf.
Definition axis_of (ax : option str) : option axis :=
  if child_axis ax then Some AChild
  else if attr_axis ax then Some AAttr
  else match ax with
    | None => None
    | Some s => if str_eqb s (u "self") then Some ASelf else if str_eqb s (u "descendant") then Some ADesc
                else if str_eqb s (u "descendant-or-self") then Some ADescSelf else None
    end.
Definition kbelow_of (k : knode) : list knode := match snd k with IElem a n => kbelow (fst k) a n | _ => [] end.
Definition kaxis (x : axis) (k : knode) : list knode :=
  match x, snd k with
  | AChild, IElem a n => kchildren (fst k) a n
  | AAttr, IElem a n => kattrs (fst k) a n
  | ASelf, _ => [k]
  | ADesc, _ => kbelow_of k
  | ADescSelf, _ => k :: kbelow_of k
  | _, _ => []
  end.
(** the principal node type is attribute for the attribute axis and element for the others *)
Definition ktest (E : env) (x : axis) (t : nodetest) (i : item) : bool :=
  match t, i, x with
  | NameTest p n, IAttr _ q _, AAttr => test_q E p n q
  | NameTest _ _, _, AAttr => false
  | NameTest p n, IElem _ (Elem q _ _ _), _ => test_q E p n q
  | NodeType _ _, IText _ _ _, _ => true
  | _, _, _ => false
  end.
Definition kstep (E : env) (ax : option str) (t : nodetest) (k : knode) : list knode :=
  match axis_of ax with Some x => filter (fun j => ktest E x t (snd j)) (kaxis x k) | None => [] end.

(** ** values *)
Inductive kv := KN (l : list knode) | KS (s : str) | KNum (n : option number) | KB (b : bool).
Definition erase (v : kv) : xv :=
  match v with KN l => XN (map snd l) | KS s => XS s | KNum n => XNum n | KB b => XB b end.
Definition knodes (v : kv) : list knode := match v with KN l => l | _ => [] end.

(** 3.4: comparison with '!=' *)
Definition xne (a b : xv) : bool :=
  match a, b with
  | XN l, XN l' => existsb (fun i => existsb (fun j => negb (str_eqb (item_str i) (item_str j))) l') l
  | XN l, XS s | XS s, XN l => existsb (fun i => negb (str_eqb (item_str i) s)) l
  | XN l, XNum n | XNum n, XN l => existsb (fun i => negb (num_eqb (xnumber (item_str i)) n)) l
  | XB x, v | v, XB x => negb (Bool.eqb x (to_bool v))
  | XS s, XS s' => negb (str_eqb s s')
  | XS s, XNum n | XNum n, XS s => negb (num_eqb (xnumber s) n)
  | XNum n, XNum n' => negb (num_eqb n n')
  end.

(** 4.2 string() of a node-set: of its first node; SIMPLIFICATION: not of numbers and booleans *)
Definition kstring (v : kv) : str :=
  match v with KN ((_, i) :: _) => item_str i | KS s => s | _ => [] end.
Definition local_name (v : kv) : str :=
  match v with KN ((_, IElem _ (Elem q _ _ _)) :: _) => q_local q | KN ((_, IAttr _ q _) :: _) => q_local q | _ => [] end.
Fixpoint starts (t s : str) : bool :=
  match t, s with [], _ => true | x :: t', y :: s' => N.eqb x y && starts t' s' | _, [] => false end.
Fixpoint contains (t s : str) : bool :=
  (starts t s || match s with _ :: s' => contains t s' | [] => false end)%bool.

(** predicates, with the position and the number of nodes *)
Definition kfilter (f : knode -> nat -> nat -> bool) (l : list knode) : list knode :=
  flat_map (fun x => if f (snd x) (S (fst x)) (List.length l) then [snd x] else []) (enum 0 l).

Definition nat_num (n : nat) : kv := KNum (Some (num_of_Z (Z.of_nat n))).
Definition str_var (E : env) (n : str) : kv :=
  match lookup n (vars E) with
  | Some (VarStr s) => KS s
  | Some (VarInt z) => KNum (Some (num_of_Z z))
  | None => KN []
  end.
(** functions applied to values; [c] is the context node *)
Definition call (n : str) (c : kv) (pos size : nat) (args : list kv) : kv :=
  match args with
  | [] =>
    if str_eqb n (u "position") then nat_num pos
    else if str_eqb n (u "last") then nat_num size
    else if str_eqb n (u "true") then KB true
    else if str_eqb n (u "false") then KB false
    else if str_eqb n (u "string") then KS (kstring c)
    else if str_eqb n (u "string-length") then nat_num (List.length (kstring c))
    else if str_eqb n (u "normalize-space") then KS (normalize_space (kstring c))
    else KS (local_name c)                                                                      (* local-name() *)
  | [v] =>
    if str_eqb n (u "count") then nat_num (List.length (knodes v))
    else if str_eqb n (u "not") then KB (negb (to_bool (erase v)))
    else if str_eqb n (u "boolean") then KB (to_bool (erase v))
    else if str_eqb n (u "string") then KS (kstring v)
    else if str_eqb n (u "string-length") then nat_num (List.length (kstring v))
    else if str_eqb n (u "normalize-space") then KS (normalize_space (kstring v))
    else KS (local_name v)                                                                      (* local-name(path) *)
  | [v; w] =>
    if str_eqb n (u "contains") then KB (contains (kstring w) (kstring v))
    else KB (starts (kstring w) (kstring v))                                                    (* starts-with(s, t) *)
  | _ => KN []
  end.

Fixpoint fev (E : env) (e : expr) (k : knode) (pos size : nat) : kv :=
  match e with
  | ELit s => KS s
  | EInt n => KNum (Some (num_of_Z (Z.of_N n)))
  | EVar _ n => str_var E n
  | EAbbrev _ => KN [k]
  | EStep ax t ps =>
    KN (fold_left (fun l p => kfilter (fun j pos size => truth (erase (fev E p j pos size)) (N.of_nat pos)) l) ps (kstep E ax t k))
  | EPred b ps =>
    KN (fold_left (fun l p => kfilter (fun j pos size => truth (erase (fev E p j pos size)) (N.of_nat pos)) l) ps (knodes (fev E b k pos size)))
  | EBin l op r =>
    if str_eqb op (u "/") then KN (ksort (flat_map (fun j => knodes (fev E r j 1 1)) (knodes (fev E l k pos size))))
    else if str_eqb op (u "//") then
      KN (ksort (flat_map (fun j => flat_map (fun h => knodes (fev E r h 1 1)) (j :: kbelow_of j)) (knodes (fev E l k pos size))))
    else if str_eqb op (u "|") then KN (ksort (knodes (fev E l k pos size) ++ knodes (fev E r k pos size)))
    else if str_eqb op (u "=") then KB (xeq (erase (fev E l k pos size)) (erase (fev E r k pos size)))
    else if str_eqb op (u "!=") then KB (xne (erase (fev E l k pos size)) (erase (fev E r k pos size)))
    else if str_eqb op (u "and") then KB (to_bool (erase (fev E l k pos size)) && to_bool (erase (fev E r k pos size)))
    else KB (to_bool (erase (fev E l k pos size)) || to_bool (erase (fev E r k pos size)))       (* or *)
  | ECall _ n args => call n (KN [k]) pos size (map (fun a => fev E a k pos size) args)
  | _ => KN []
  end.

(** ** which expressions: their types *)
Inductive vtype := TNodes | TStr | TNum | TBool.
Definition is_some {A} (o : option A) : bool := match o with Some _ => true | None => false end.
Definition is_nodes (o : option vtype) : bool := match o with Some TNodes => true | _ => false end.
(** what the string functions take *)
Definition is_strish (o : option vtype) : bool := match o with Some TNodes | Some TStr => true | _ => false end.
Definition call_type (n : str) (args : list (option vtype)) : option vtype :=
  match args with
  | [] =>
    if str_mem n [u "position"; u "last"; u "string-length"] then Some TNum
    else if str_mem n [u "true"; u "false"] then Some TBool
    else if str_mem n [u "string"; u "normalize-space"; u "local-name"] then Some TStr else None
  | [t] =>
    if str_eqb n (u "count") then (if is_nodes t then Some TNum else None)
    else if str_mem n [u "not"; u "boolean"] then (if is_some t then Some TBool else None)
    else if str_mem n [u "string"; u "normalize-space"] then (if is_strish t then Some TStr else None)
    else if str_eqb n (u "string-length") then (if is_strish t then Some TNum else None)
    else if str_eqb n (u "local-name") then (if is_nodes t then Some TStr else None)
    else None
  | [t; t'] => if (str_mem n [u "contains"; u "starts-with"] && is_strish t && is_strish t')%bool then Some TBool else None
  | _ => None
  end.
Fixpoint ty (E : env) (e : expr) : option vtype :=
  match e with
  | ELit _ => Some TStr
  | EInt _ => Some TNum
  | EVar None n => match lookup n (vars E) with Some (VarStr _) => Some TStr | Some (VarInt _) => Some TNum | None => None end
  | EAbbrev a => if str_eqb a (u ".") then Some TNodes else None
  | EStep ax t ps => if (is_some (axis_of ax) && sup_test E t && forallb (fun p => is_some (ty E p)) ps)%bool then Some TNodes else None
  | EPred b ps => if (is_nodes (ty E b) && forallb (fun p => is_some (ty E p)) ps)%bool then Some TNodes else None
  | EBin l op r =>
    if str_eqb op (u "/") then (if (is_nodes (ty E l) && is_nodes (ty E r))%bool then Some TNodes else None)
    else if str_eqb op (u "//") then
      (if (is_nodes (ty E l) && is_nodes (ty E r) && match r with EStep _ _ _ => true | _ => false end)%bool then Some TNodes else None)
    else if str_eqb op (u "|") then (if (is_nodes (ty E l) && is_nodes (ty E r))%bool then Some TNodes else None)
    else if str_mem op [u "="; u "!="; u "and"; u "or"] then (if (is_some (ty E l) && is_some (ty E r))%bool then Some TBool else None)
    else None
  | ECall None n args => call_type n (map (ty E) args)
  | _ => None
  end.
Definition readable (E : env) (e : expr) : bool := is_some (ty E e).
