(** Specification side of C74: two XPaths that share leading steps and then part ways.
    [a/b/c] and [a/b/@d] fork after [a/b]; [x] and [@y] fork at once; [a[@t='1']/b] and [a[@t='1']/c] fork
    after [a[@t='1']].  [a] and [a/b] do not fork (one continues the other), and neither do [a[@t='1']/b] and
    [a[@t='2']/c], whose first steps differ but select children of the same name. *)
From Coq Require Import String.
From Verif Require Export IndepSpec.
From Verif Require Import XPathEval FieldSpec DocSpec.

Definition fork (E : env) (e1 e2 : expr) : Prop :=
  exists P s1 r1 s2 r2 k1 k2, steps_of e1 = P ++ s1 :: r1 /\ steps_of e2 = P ++ s2 :: r2 /\
    kind E s1 = Some k1 /\ kind E s2 = Some k2 /\ k1 <> KText /\ k2 <> KText /\ k1 <> k2.
