(** Several calls of eulxml.xpath.parse at once.  The lexer is one module-level object (eulxml/xpath/core.py:118-135) and every call
    of parse uses it (core.py:149-154: parser.parse(xpath, lexer=lexer), which calls lexer.input and then lexer.token); the
    stacks of PLY's LRParser.parse are local to a call.
    Grain: a call is made of the steps of PLY's driver (ply/yacc.py, parseopt_notrack): [lexer.input], one token, one shift, one
    reduction; the scheduler picks a call for every step.
    SIMPLIFICATION: [input] and [token] themselves are not interrupted. *)
From Coq Require Import List Arith.
From Verif Require Export XPathSpec LALR.
Import ListNotations.

(** the shared lexer: the text not yet read, and [last] *)
Record lexer := mkLexer { l_rest : str; l_last : option term }.
(** a call: not begun; running, with the stack and the lookahead if it was fetched (None: end of input); finished *)
Inductive call :=
| Waiting (text : str)
| Running (st : list (nat * ptree)) (la : option (option tok))
| Finished (r : result).

Definition accept_result (st : list (nat * ptree)) : result :=
  match st with (_, t) :: _ => match eval t with Some (SExpr x) => Ok x | _ => Stuck end | [] => Stuck end.
Definition after_reduce (p : nat) (st : list (nat * ptree)) (la : option (option tok)) : call :=
  match reduce_by p st with Some st' => Running st' la | None => Finished Stuck end.
(** one step of a call *)
Definition advance (c : call) (L : lexer) : call * lexer :=
  match c with
  | Finished r => (c, L)
  | Waiting s => (Running [] None, mkLexer s (l_last L))
  | Running st la =>
    match defaulted (top_state st) with
    | Some p => (after_reduce p st la, L)
    | None =>
      match la with
      | None =>
        match wtoken (length (l_rest L)) (l_last L) (l_rest L) with
        | LTok t rest => (Running st (Some (Some t)), mkLexer rest (Some (ttype t)))
        | LEof => (Running st (Some None), mkLexer (l_rest L) None)
        | LErr => (Finished RaiseTypeError, L)
        | LFuel => (Finished Stuck, L)
        end
      | Some x =>
        (match action_at (top_state st) (match x with Some t => ttype t | None => T_END end) with
         | Some (Shift s) => match x with Some t => Running ((s, Leaf t) :: st) None | None => Finished Stuck end
         | Some (Reduce p) => after_reduce p st la
         | Some Accept => Finished (accept_result st)
         | None => Finished RaiseRuntimeError
         end, L)
      end
    end
  end.

Definition system := (lexer * list call)%type.
Fixpoint set_nth_call (i : nat) (c : call) (l : list call) : list call :=
  match i, l with
  | O, _ :: r => c :: r
  | S j, x :: r => x :: set_nth_call j c r
  | _, [] => []
  end.
Definition turn (i : nat) (S : system) : system :=
  match nth_error (snd S) i with
  | Some c => let (c', L) := advance c (fst S) in (L, set_nth_call i c' (snd S))
  | None => S
  end.
(** the scheduler gives turns in this order *)
Fixpoint exec (sch : list nat) (S : system) : system := match sch with [] => S | i :: r => exec r (turn i S) end.
(** core.py:118-135: a fresh process *)
Definition start (texts : list str) : system := (mkLexer [] None, map Waiting texts).
