(** Model of the environment handling at import, eulxml/__init__.py:50-57. *)
From Coq Require Import String List Arith NArith Bool.
From Verif Require Import PyStr.
Import ListNotations.

(** Python's [sub in s] *)
Fixpoint is_prefix (p s : str) : bool :=
  match p, s with [], _ => true | x :: p', y :: s' => N.eqb x y && is_prefix p' s' | _, _ => false end.
Fixpoint contains (p s : str) : bool := is_prefix p s || match s with [] => false | _ :: s' => contains p s' end.

(** [":".join(...)] of the truthy ones among the old value and the catalog file *)
Definition join_colon (l : list str) : str :=
  match l with [] => [] | x :: r => x ++ flat_map (fun y => ch ":" :: y) r end.
Definition truthy (o : option str) : list str := match o with Some (c :: r) => [c :: r] | _ => [] end.

(** os.environ['XML_CATALOG_FILES'] after the import, [cat] being XMLCATALOG_FILE *)
Definition import_env (cat : str) (env : option str) : option str :=
  if contains cat (match env with Some s => s | None => [] end) then env
  else Some (join_colon (truthy env ++ truthy (Some cat))).
