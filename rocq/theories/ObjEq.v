(** Model of XmlObject.__eq__ / __ne__ (eulxml/xmlmap/core.py:433-444).  [ser] gives what etree.tostring
    returns for an element at the time of the comparison (including the text after it); an object may also
    wrap a string (a text() or attribute match), which etree.tostring refuses. *)
From Coq Require Import List Arith NArith.
From Verif Require Import PyStr.
Import ListNotations.

Inductive wrapped := WElem (id : nat) | WText (s : str).
(** the right hand side: an XmlObject, or something with neither [node] nor [serialize] *)
Inductive operand := OpObj (w : wrapped) | OpForeign.
Inductive eqres := EqVal (b : bool) | EqTypeError.

(** [self.node == other.node]: lxml elements compare by identity, strings by content *)
Definition node_eq (a b : wrapped) : bool :=
  match a, b with
  | WElem i, WElem j => Nat.eqb i j
  | WText s, WText t => str_eqb s t
  | _, _ => false
  end.
Definition serialize (ser : nat -> str) (w : wrapped) : option str := match w with WElem i => Some (ser i) | WText _ => None end.

Definition obj_eq (ser : nat -> str) (a : wrapped) (b : operand) : eqres :=
  match b with
  | OpForeign => EqVal false
  | OpObj b =>
    if node_eq a b then EqVal true
    else match serialize ser a, serialize ser b with
         | Some x, Some y => EqVal (str_eqb x y)
         | _, _ => EqTypeError
         end
  end.
Definition obj_ne (ser : nat -> str) (a : wrapped) (b : operand) : eqres :=
  match obj_eq ser a b with EqVal r => EqVal (negb r) | e => e end.
