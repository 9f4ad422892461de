(** PLY's LALR(1) parser generator and parsing loop (ply.yacc), applied to the grammar of
    parserules.py.  eulxml/xpath/core.py:147 builds the parser with [yacc.yacc(module=parserules)].
    The construction below computes the LR(0) automaton, the LALR(1) lookaheads (by propagation,
    which gives the same sets as PLY's DeRemer-Pennello algorithm), PLY's conflict resolution by
    precedence, and PLY's "defaulted states". *)
From Coq Require Import Arith.
From Verif Require Export XPathGrammar.

(** An LR(0) item: production number and dot position. *)
Definition item := (nat * nat)%type.

Definition item_eqb (a b : item) : bool := Nat.eqb (fst a) (fst b) && Nat.eqb (snd a) (snd b).

Fixpoint items_eqb (a b : list item) : bool :=
  match a, b with
  | [], [] => true
  | x :: a', y :: b' => item_eqb x y && items_eqb a' b'
  | _, _ => false
  end.

Definition prod0 : prod := mkProd S' [] None a_copy.
Definition get_prod (i : nat) : prod := nth i prods prod0.
Definition nprods : nat := length prods.

Definition next_sym (it : item) : option sym := nth_error (rhs (get_prod (fst it))) (snd it).

(** production numbers of a nonterminal *)
Definition prods_of (n : nterm) : list nat :=
  filter (fun i => nterm_eqb (lhs (get_prod i)) n) (seq 0 nprods).

(** Nonterminal sets and terminal sets as bit sets. *)
Definition bit (i : N) : N := N.shiftl 1 i.
Definition has (s : N) (i : N) : bool := N.testbit s i.

(** nonterminals right after a dot *)
Definition nts_after (its : list item) : N :=
  fold_left (fun acc it => match next_sym it with
                           | Some (NT n) => N.lor acc (bit (nterm_id n))
                           | _ => acc end) its 0%N.

Fixpoint iter {A} (n : nat) (f : A -> A) (x : A) : A :=
  match n with O => x | S n' => iter n' f (f x) end.

Definition initial_items (s : N) : list item :=
  flat_map (fun n => if has s (nterm_id n) then map (fun i => (i, 0)) (prods_of n) else [])
           all_nterms.

Definition close_nts (s : N) : N := N.lor s (nts_after (initial_items s)).

(** LR(0) closure (ply: lr0_closure). *)
Definition closure (kernel : list item) : list item :=
  kernel ++ initial_items (iter 12 close_nts (nts_after kernel)).

(** LR(0) goto kernel (ply: lr0_goto), items in production order. *)
Definition item_leb (a b : item) : bool :=
  (Nat.ltb (fst a) (fst b) || (Nat.eqb (fst a) (fst b) && Nat.leb (snd a) (snd b)))%bool.

Fixpoint insert_item (x : item) (l : list item) : list item :=
  match l with
  | [] => [x]
  | y :: l' => if item_leb x y then (if item_eqb x y then l else x :: l) else y :: insert_item x l'
  end.

Definition goto_kernel (its : list item) (x : sym) : list item :=
  fold_right (fun it acc => match next_sym it with
                           | Some y => if sym_eqb x y then insert_item (fst it, S (snd it)) acc else acc
                           | None => acc
                           end) [] its.

Fixpoint find_index (k : list item) (l : list (list item)) (i : nat) : option nat :=
  match l with
  | [] => None
  | k' :: l' => if items_eqb k k' then Some i else find_index k l' (S i)
  end.

(** ply: lr0_items.  Breadth-first construction of the collection of LR(0) states; returns the
    kernels and, per state, its transitions. *)
Definition add_gotos (its : list item) (states : list (list item))
  : list (list item) * list (sym * nat) :=
  fold_left
    (fun acc x =>
       let '(sts, tr) := acc in
       match goto_kernel its x with
       | [] => acc
       | k => match find_index k sts 0 with
              | Some j => (sts, tr ++ [(x, j)])
              | None => (sts ++ [k], tr ++ [(x, length sts)])
              end
       end)
    all_syms (states, []).

Fixpoint build_lr0 (fuel i : nat) (states : list (list item)) (trans : list (list (sym * nat)))
  : list (list item) * list (list (sym * nat)) :=
  match fuel with
  | O => (states, trans)
  | S f =>
    match nth_error states i with
    | None => (states, trans)
    | Some k =>
      let '(sts', tr) := add_gotos (closure k) states in
      build_lr0 f (S i) sts' (trans ++ [tr])
    end
  end.

Definition lr0 := Eval vm_compute in build_lr0 500 0 [[(0, 0)]] [].
Definition kernels : list (list item) := Eval vm_compute in fst lr0.
Definition transitions : list (list (sym * nat)) := Eval vm_compute in snd lr0.
Definition nstates : nat := Eval vm_compute in length kernels.

Fixpoint assoc_sym {A} (x : sym) (l : list (sym * A)) : option A :=
  match l with
  | [] => None
  | (y, v) :: l' => if sym_eqb x y then Some v else assoc_sym x l'
  end.

(** LR(0) transition on any symbol. *)
Definition goto (s : nat) (x : sym) : option nat :=
  match nth_error transitions s with Some tr => assoc_sym x tr | None => None end.

(** FIRST sets of nonterminals (no production is empty), as bit sets of terminals. *)
Definition first_sym (fs : list N) (x : sym) : N :=
  match x with T t => bit (term_id t) | NT n => nth (N.to_nat (nterm_id n)) fs 0%N end.

Definition first_step (fs : list N) : list N :=
  map (fun n => fold_left (fun acc i => match rhs (get_prod i) with
                                        | x :: _ => N.lor acc (first_sym fs x)
                                        | [] => acc end) (prods_of n) 0%N) all_nterms.

Definition firsts : list N := Eval vm_compute in iter 20 first_step (map (fun _ => 0%N) all_nterms).

Definition first (x : sym) : N := first_sym firsts x.

(** LALR(1) lookaheads: per state, one terminal set per kernel item. *)
Definition las := list (list N).

(** lookahead sets of the closure items' nonterminals in a state *)
Definition nt_la_step (kern : list (item * N)) (la : list N) : list N :=
  let contribs (it : item) (l : N) : option (nterm * N) :=
    match next_sym it with
    | Some (NT n) =>
      match next_sym (fst it, S (snd it)) with
      | Some y => Some (n, first y)
      | None => Some (n, l)
      end
    | _ => None
    end in
  let add (acc : list N) (c : option (nterm * N)) : list N :=
    match c with
    | None => acc
    | Some (n, l) =>
      let i := N.to_nat (nterm_id n) in
      firstn i acc ++ N.lor (nth i acc 0%N) l :: skipn (S i) acc
    end in
  let acc1 := fold_left (fun acc p => add acc (contribs (fst p) (snd p))) kern la in
  fold_left (fun acc n =>
               let l := nth (N.to_nat (nterm_id n)) acc 0%N in
               if N.eqb l 0 then acc
               else fold_left (fun acc i => add acc (contribs (i, 0) l)) (prods_of n) acc)
            all_nterms acc1.

Definition nt_la (kern : list (item * N)) : list N :=
  iter 8 (nt_la_step kern) (map (fun _ => 0%N) all_nterms).

(** all items of a state with their lookahead sets *)
Definition state_items (kern : list (item * N)) : list (item * N) :=
  kern ++
  let la := nt_la kern in
  flat_map (fun n => let l := nth (N.to_nat (nterm_id n)) la 0%N in
                     if N.eqb l 0 then [] else map (fun i => ((i, 0), l)) (prods_of n)) all_nterms.

Definition with_la (ks : list item) (l : list N) : list (item * N) := combine ks l.

Definition add_la (s : nat) (it : item) (l : N) (t : las) : las :=
  match nth_error kernels s, nth_error t s with
  | Some ks, Some ls =>
    let ls' := map (fun p => if item_eqb (fst p) it then N.lor (snd p) l else snd p) (combine ks ls) in
    firstn s t ++ ls' :: skipn (S s) t
  | _, _ => t
  end.

Definition propagate (t : las) : las :=
  fold_left
    (fun t s =>
       match nth_error kernels s, nth_error t s with
       | Some ks, Some ls =>
         fold_left (fun t p =>
                      match next_sym (fst p) with
                      | Some x => match goto s x with
                                  | Some j => add_la j (fst (fst p), S (snd (fst p))) (snd p) t
                                  | None => t
                                  end
                      | None => t
                      end) (state_items (combine ks ls)) t
       | _, _ => t
       end) (seq 0 nstates) t.

Definition init_las : las :=
  map (fun ks => map (fun it => if item_eqb it (0, 0) then bit (term_id T_END) else 0%N) ks) kernels.

Definition lookaheads : las := Eval vm_compute in iter 12 propagate init_las.

(** The propagation has reached its fixpoint, and so have FIRST and the LR(0) construction. *)
Example lookaheads_fixpoint : propagate lookaheads = lookaheads.
Proof. vm_compute. reflexivity. Qed.
Example firsts_fixpoint : first_step firsts = firsts.
Proof. vm_compute. reflexivity. Qed.
Example lr0_complete : length transitions = length kernels.
Proof. reflexivity. Qed.

(** Parse table entries. *)
Inductive laction := Shift (s : nat) | Reduce (p : nat) | Accept.

(** ply.yacc.LRGeneratedTable.lr_parse_table, the action for state [s] on terminal [a]:
    complete items whose lookahead set has [a] reduce (S' -> Expr . accepts on $end); an item with
    [a] after the dot shifts.  Shift/reduce conflicts: reduce if the token's level is lower than the
    production's or equal with a left-associative production, else shift.  (nonassoc is not used.)
    Reduce/reduce conflicts: the production on the earlier line, i.e. with the smaller number. *)
Definition reduces (s : nat) (a : term) : list nat :=
  match nth_error kernels s, nth_error lookaheads s with
  | Some ks, Some ls =>
    flat_map (fun p => match next_sym (fst p) with
                       | None => if has (snd p) (term_id a) then [fst (fst p)] else []
                       | Some _ => []
                       end) (combine ks ls)
  | _, _ => []
  end.

Definition min_list (l : list nat) : option nat :=
  match l with [] => None | x :: l' => Some (fold_left Nat.min l' x) end.

Definition compute_action (s : nat) (a : term) : option laction :=
  match min_list (reduces s a), goto s (T a) with
  | None, None => None
  | None, Some j => Some (Shift j)
  | Some 0, _ => Some Accept
  | Some p, None => Some (Reduce p)
  | Some p, Some j =>
    let '(_, slevel) := token_prec a in
    let '(rassoc, rlevel) := prod_prec (get_prod p) in
    if (N.ltb slevel rlevel ||
        (N.eqb slevel rlevel && match rassoc with ALeft => true | ARight => false end))%bool
    then Some (Reduce p) else Some (Shift j)
  end.

Definition action_rows : list (list (option laction)) := Eval vm_compute in
  map (fun s => map (fun a => compute_action s a) all_terms) (seq 0 nstates).

Definition action_at (s : nat) (a : term) : option laction :=
  match nth_error action_rows s with
  | Some row => match nth_error row (N.to_nat (term_id a)) with Some x => x | None => None end
  | None => None
  end.

(** ply.yacc.LRParser.set_defaulted_states: states whose only entry is one reduction (action rows are
    dictionaries keyed by token type). *)
Definition compute_defaulted (s : nat) : option nat :=
  match nth_error action_rows s with
  | Some row =>
    match flat_map (fun x => match x with Some y => [y] | None => [] end) row with
    | [Reduce p] => Some p
    | _ => None
    end
  | None => None
  end.

Definition defaulted_rows : list (option nat) := Eval vm_compute in
  map compute_defaulted (seq 0 nstates).

Definition defaulted (s : nat) : option nat :=
  match nth_error defaulted_rows s with Some x => x | None => None end.

(** Derivation trees.  The parser keeps trees on its stack; the semantic actions (pure functions
    of their arguments) are evaluated by [eval].  SIMPLIFICATION: PLY runs each action at the time
    of the reduction; no action of parserules.py raises or looks at anything but its arguments. *)
Inductive ptree := Leaf (t : tok) | Node (p : nat) (kids : list ptree).

Fixpoint sequence {A} (l : list (option A)) : option (list A) :=
  match l with
  | [] => Some []
  | Some x :: l' => match sequence l' with Some r => Some (x :: r) | None => None end
  | None :: _ => None
  end.

Fixpoint eval (t : ptree) : option sval :=
  match t with
  | Leaf k => Some (SVal (tval k))
  | Node p kids =>
    match sequence (map eval kids) with
    | Some vs => act (get_prod p) vs
    | None => None
    end
  end.

(** Configuration of the parsing loop (ply.yacc.LRParser.parseopt_notrack).
    [stk]: stack above the initial state 0, top first.  [inp]: tokens not yet shifted; the first one
    has been pulled from the lexer iff [peeked].  [lastp]: type of the last token pulled from the
    lexer, None initially or once the end of input was pulled: it is the shared lexer's [last]. *)
Record config := mkConfig {
  stk : list (nat * ptree);
  inp : list tok;
  peeked : bool;
  lastp : option term
}.

Definition top_state (st : list (nat * ptree)) : nat :=
  match st with [] => 0 | (s, _) :: _ => s end.

(** Outcome of a parse: the tree, RuntimeError from p_error (parserules.py:365-368), TypeError from
    t_error (lexrules.py:141-142), each with the lexer's [last] afterwards. *)
Inductive outcome :=
| Parsed (t : ptree) (last : option term)
| SyntaxError (last : option term)      (* RuntimeError *)
| LexError (last : option term)         (* TypeError *)
| OutOfFuel.

(** pop the right-hand side of production [p], push the node, goto *)
Definition reduce_by (p : nat) (st : list (nat * ptree)) : option (list (nat * ptree)) :=
  let n := length (rhs (get_prod p)) in
  if Nat.ltb (length st) n then None else
  let kids := rev (map snd (firstn n st)) in
  let st' := skipn n st in
  match goto (top_state st') (NT (lhs (get_prod p))) with
  | Some s' => Some ((s', Node p kids) :: st')
  | None => None
  end.

(** one iteration of the parsing loop: either a new configuration or the outcome *)
Definition step (e : lexend) (c : config) : config + outcome :=
  match defaulted (top_state (stk c)) with
  | Some p =>
    match reduce_by p (stk c) with
    | Some st => inl (mkConfig st (inp c) (peeked c) (lastp c))
    | None => inr OutOfFuel                 (* stack underflow / KeyError: proved unreachable *)
    end
  | None =>
    match inp c, e with
    | [], EndErr => inr (LexError (lastp c))
    | [], EndFuel => inr OutOfFuel
    | i, _ =>
      let la := match i with [] => T_END | t :: _ => ttype t end in
      let last := match i with [] => None | t :: _ => Some (ttype t) end in
      match action_at (top_state (stk c)) la with
      | Some (Shift s) =>
        match i with
        | t :: r => inl (mkConfig ((s, Leaf t) :: stk c) r false last)
        | [] => inr OutOfFuel               (* $end is never shifted *)
        end
      | Some (Reduce p) =>
        match reduce_by p (stk c) with
        | Some st => inl (mkConfig st i true last)
        | None => inr OutOfFuel
        end
      | Some Accept =>
        match stk c with
        | (_, t) :: _ => inr (Parsed t last)
        | [] => inr OutOfFuel
        end
      | None => inr (SyntaxError last)
      end
    end
  end.

Fixpoint run (fuel : nat) (e : lexend) (c : config) : outcome :=
  match fuel with
  | O => OutOfFuel
  | S f => match step e c with inl c' => run f e c' | inr o => o end
  end.

(** Enough iterations (proved in XPathParseProofs): 17 per token plus a constant. *)
Definition parse_fuel (ts : list tok) : nat := 17 * length ts + 50.

Definition parse_tokens (last : option term) (ts : list tok) (e : lexend) : outcome :=
  run (parse_fuel ts) e (mkConfig [] ts false last).

(** eulxml.xpath.parse (core.py:149-154): result and the shared lexer's [last] afterwards.
    [last] on entry is whatever an earlier call left in the module-level lexer object
    (core.py:135 initialises it to None). *)
Inductive result :=
| Ok (e : expr)
| RaiseRuntimeError
| RaiseTypeError
| Stuck.                                   (* proved unreachable *)

Definition parse_with (last : option term) (s : str) : result * option term :=
  let '(ts, e) := tokens_from last s in
  match parse_tokens last ts e with
  | Parsed t l => (match eval t with Some (SExpr x) => Ok x | _ => Stuck end, l)
  | SyntaxError l => (RaiseRuntimeError, l)
  | LexError l => (RaiseTypeError, l)
  | OutOfFuel => (Stuck, last)
  end.

(** [parse] in a fresh process. *)
Definition parse (s : str) : result := fst (parse_with None s).

(** A process: a sequence of parse calls sharing the lexer object. *)
Fixpoint parse_history (last : option term) (h : list str) : option term :=
  match h with
  | [] => last
  | s :: h' => parse_history (snd (parse_with last s)) h'
  end.
