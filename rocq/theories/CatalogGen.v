(** Model of download_schema and generate_catalog (eulxml/catalog.py:86-188).  Every write to the file system is
    in a trace, so that an interruption at any point can be described.  Inputs: what the server answers to each
    request, [annotate] (parse the saved file, append the comment, serialise: catalog.py:112-117; None if the file is not
    XML), [render] (Catalog.serializeDocument).  SIMPLIFICATIONS: a directory is a prefix of paths; writing to
    an existing directory never fails for lack of space or rights; entries are pairs (name, uri), appended as in C33. *)
From Coq Require Import String List Arith NArith Bool.
From Verif Require Import PyStr.
Import ListNotations.

Definition bytes := list N.
Definition fsys := str -> option bytes.
Inductive fsop := Trunc (p : str) | Write (p : str) (b : bytes).
Definition set_file (p : str) (b : bytes) (fs : fsys) : fsys := fun q => if str_eqb q p then Some b else fs q.
Definition apply1 (fs : fsys) (o : fsop) : fsys :=
  match o with
  | Trunc p => set_file p [] fs
  | Write p b => set_file p (match fs p with Some a => a ++ b | None => b end) fs
  end.
Definition apply (ops : list fsop) (fs : fsys) : fsys := fold_left apply1 ops fs.

(** os.path.basename: what follows the last slash *)
Fixpoint basename_from (s acc : str) : str :=
  match s with [] => acc | c :: r => basename_from r (if N.eqb c (ch "/") then [] else acc ++ [c]) end.
Definition basename (s : str) : str := basename_from s [].
(** os.path.join(dir, name) for a name without slash *)
Definition join (dir name : str) : str :=
  match rev dir with
  | [] => name
  | c :: _ => if N.eqb c (ch "/") then dir ++ name else dir ++ [ch "/"] ++ name
  end.

Inductive response :=
| RStatus                                     (* raise_for_status raises HTTPError *)
| RError                                      (* any other exception from requests.get: no connection, bad URL, ... *)
| RBody (chunks : list bytes) (cut : bool).   (* the chunks; [cut]: then the connection breaks, an exception *)
Inductive outcome := Saved | NotSaved | Raised.

(** catalog.py:101-127 *)
Definition download (annotate : bytes -> option bytes) (path : str) (r : response) : list fsop * outcome :=
  match r with
  | RStatus => ([], NotSaved)
  | RError => ([], Raised)
  | RBody cs cut =>
    let ops := Trunc path :: map (Write path) (filter (fun c => match c with [] => false | _ => true end) cs) in
    if cut then (ops, Raised)
    else match annotate (concat cs) with
         | None => (ops, Raised)
         | Some b => (ops ++ [Trunc path; Write path b], Saved)
         end
  end.

(** catalog.py:173-182: the loop; the result is the entries, None if an exception got out *)
Fixpoint download_all (annotate : bytes -> option bytes) (dir : str) (items : list (str * response)) (entries : list (str * str)) : list fsop * option (list (str * str)) :=
  match items with
  | [] => ([], Some entries)
  | (uri, r) :: rest =>
    let name := basename uri in
    match name with
    | [] => match r with RStatus => download_all annotate dir rest entries | _ => ([], None) end     (* open() of a directory *)
    | _ =>
      match download annotate (join dir name) r with
      | (ops, Saved) => let (ops', res) := download_all annotate dir rest (entries ++ [(uri, name)]) in (ops ++ ops', res)
      | (ops, NotSaved) => let (ops', res) := download_all annotate dir rest entries in (ops ++ ops', res)
      | (ops, Raised) => (ops, None)
      end
    end
  end.
(** catalog.py:184-188 *)
Definition write_catalog (render : list (str * str) -> bytes) (file : str) (res : option (list (str * str))) : list fsop :=
  match res with Some (e :: es) => [Trunc file; Write file (render (e :: es))] | _ => [] end.
(** the whole of generate_catalog, the directory being there: trace and returned entries *)
Definition generate (annotate : bytes -> option bytes) (render : list (str * str) -> bytes) (dir file : str) (items : list (str * response)) : list fsop * option (list (str * str)) :=
  let (ops, res) := download_all annotate dir items [] in (ops ++ write_catalog render file res, res).

(** interruptions: a write may have reached the disk up to any byte *)
Definition split_op (o : fsop) : list fsop := match o with Trunc p => [Trunc p] | Write p b => map (fun c => Write p [c]) b end.
Definition after_crash (ops : list fsop) (k : nat) (fs : fsys) : fsys := apply (firstn k (flat_map split_op ops)) fs.
