(** Model of the mappers of eulxml/xmlmap/fields.py (lines 89-253) and of the typed single-node fields
    made from them: StringField, IntegerField, FloatField, SimpleBooleanField, DateTimeField,
    DateField, ItemField (NodeField's own assignment is in NodeField.v). *)
From Coq Require Import String Arith.
From Verif Require Export XSpace Fields.

(** ** What [_find_xml_node] hands to [mapper.to_python]: None, an element, a smart string (attribute,
    text() or string result), a number or a boolean (fields.py:267-273) *)
Inductive minput := InElem (n : node) | InStr (s : str) | InNum (n : option number) | InBool (b : bool).

Definition first_input (v : xv) : option minput :=
  match v with
  | XN [] => None
  | XN (IElem _ n :: _) => Some (InElem n)
  | XN (IAttr _ _ s :: _) => Some (InStr s)
  | XN (IText _ _ s :: _) => Some (InStr s)
  | XS [] => None
  | XS s => Some (InStr s)
  | XNum None => Some (InNum None)
  | XNum (Some (m, k)) => if Z.eqb m 0 then None else Some (InNum (Some (m, k)))
  | XB true => Some (InBool true)
  | XB false => None
  end.

(** ** Dates (datetime.date, naive datetime.datetime) *)
Record date := mkDate { yr : N; mo : N; dy : N }.
Record time := mkTime { hh : N; mi : N; ss : N; us : N }.

Definition leap (y : N) : bool :=
  (N.eqb (y mod 4) 0 && (negb (N.eqb (y mod 100) 0) || N.eqb (y mod 400) 0))%bool.
Definition month_days (y m : N) : N :=
  if N.eqb m 2 then (if leap y then 29 else 28)%N
  else if (N.eqb m 4 || N.eqb m 6 || N.eqb m 9 || N.eqb m 11)%bool then 30%N else 31%N.
(** what the constructors accept (otherwise ValueError) *)
Definition date_ok (d : date) : bool :=
  (N.leb 1 (yr d) && N.leb (yr d) 9999 && N.leb 1 (mo d) && N.leb (mo d) 12 &&
   N.leb 1 (dy d) && N.leb (dy d) (month_days (yr d) (mo d)))%bool.
Definition time_ok (t : time) : bool :=
  (N.ltb (hh t) 24 && N.ltb (mi t) 60 && N.ltb (ss t) 60 && N.ltb (us t) 1000000)%bool.

(** zero-padded decimal of [w] digits ([%02d] etc., for numbers that fit) *)
Fixpoint pad (w : nat) (n : N) : str :=
  match w with O => [] | S w' => pad w' (n / 10) ++ [(48 + n mod 10)%N] end.

(** [datetime.isoformat()] *)
Definition isoformat (d : date) (t : time) : str :=
  pad 4 (yr d) ++ u "-" ++ pad 2 (mo d) ++ u "-" ++ pad 2 (dy d) ++ u "T" ++
  pad 2 (hh t) ++ u ":" ++ pad 2 (mi t) ++ u ":" ++ pad 2 (ss t) ++
  (if N.eqb (us t) 0 then [] else u "." ++ pad 6 (us t)).

(** *** strftime / strptime for formats made of %Y %m %d %H %M %S %f and other characters.
    SIMPLIFICATION: white space in formats and the other directives are not modelled. *)
Inductive fdir := FY | Fm | Fd | FH | FM | FS | Ff | FC (c : N).

(** glibc's strftime does not pad %Y *)
Definition strftime1 (x : fdir) (d : date) (t : time) : str :=
  match x with
  | FY => str_of_N (yr d) | Fm => pad 2 (mo d) | Fd => pad 2 (dy d)
  | FH => pad 2 (hh t) | FM => pad 2 (mi t) | FS => pad 2 (ss t) | Ff => pad 6 (us t)
  | FC c => [c]
  end.
Definition strftime (f : list fdir) (d : date) (t : time) : str := flat_map (fun x => strftime1 x d t) f.

(** the regular expressions of Lib/_strptime.py, as lists of successes in the order tried:
    value read and rest.  SIMPLIFICATION: [\d] is ASCII. *)
Definition dig (lo hi : N) (s : str) : list (N * str) :=
  match s with c :: r => if in_range (48 + lo) (48 + hi) c then [((c - 48)%N, r)] else [] | [] => [] end.
Definition dig2 (a b lo hi : N) (s : str) : list (N * str) :=
  flat_map (fun x => map (fun y => ((10 * fst x + fst y)%N, snd y)) (dig lo hi (snd x))) (dig a b s).
Definition lit (c : N) (s : str) : list (N * str) :=
  match s with x :: r => if N.eqb c x then [(0%N, r)] else [] | [] => [] end.
(** [[0-9]{1,6}]: longest first; the value is scaled to microseconds *)
Fixpoint digs (k : nat) (acc : N) (s : str) : list (N * nat * str) :=
  match k with
  | O => []
  | S k' => flat_map (fun x => digs k' (10 * acc + fst x)%N (snd x) ++ [((10 * acc + fst x)%N, k', snd x)]) (dig 0 9 s)
  end.
Definition lower (c : N) : N := if in_range 65 90 c then (c + 32)%N else c.

Definition dmatch (x : fdir) (s : str) : list (N * str) :=
  match x with
  | FY => flat_map (fun x => map (fun y => ((100 * fst x + fst y)%N, snd y)) (dig2 0 9 0 9 (snd x))) (dig2 0 9 0 9 s)
  | Fm => dig2 1 1 0 2 s ++ dig2 0 0 1 9 s ++ dig 1 9 s
  | Fd => dig2 3 3 0 1 s ++ dig2 1 2 0 9 s ++ dig2 0 0 1 9 s ++ dig 1 9 s ++
          flat_map (fun x => dig 1 9 (snd x)) (lit 32 s)
  | FH => dig2 2 2 0 3 s ++ dig2 0 1 0 9 s ++ dig 0 9 s
  | FM => dig2 0 5 0 9 s ++ dig 0 9 s
  | FS => dig2 6 6 0 1 s ++ dig2 0 5 0 9 s ++ dig 0 9 s
  | Ff => map (fun x => let '(n, k, r) := x in ((n * 10 ^ N.of_nat k)%N, r)) (digs 6 0 s)
  | FC c => match s with x :: r => if N.eqb (lower c) (lower x) then [(0%N, r)] else [] | [] => [] end
  end.

Definition put (x : fdir) (n : N) (dt : date * time) : date * time :=
  let '(d, t) := dt in
  match x with
  | FY => (mkDate n (mo d) (dy d), t) | Fm => (mkDate (yr d) n (dy d), t) | Fd => (mkDate (yr d) (mo d) n, t)
  | FH => (d, mkTime n (mi t) (ss t) (us t)) | FM => (d, mkTime (hh t) n (ss t) (us t))
  | FS => (d, mkTime (hh t) (mi t) n (us t)) | Ff => (d, mkTime (hh t) (mi t) (ss t) n)
  | FC _ => dt
  end.

Fixpoint fmatch (f : list fdir) (dt : date * time) (s : str) : list (date * time * str) :=
  match f with
  | [] => [(dt, s)]
  | x :: f' => flat_map (fun y => fmatch f' (put x (fst y) dt) (snd y)) (dmatch x s)
  end.

(** datetime.strptime: ValueError if there is no match, text is left over, or the values are out of range *)
Definition strptime (f : list fdir) (s : str) : res (date * time) :=
  match fmatch f (mkDate 1900 1 1, mkTime 0 0 0 0) s with
  | ((d, t), []) :: _ => if (date_ok d && time_ok t)%bool then Ret (d, t) else Exc XValue
  | _ => Exc XValue
  end.

Definition iso_date : list fdir := [FY; FC 45; Fm; FC 45; Fd].                       (* %Y-%m-%d *)
Definition iso_dt : list fdir := iso_date ++ [FC 84; FH; FC 58; FM; FC 58; FS].      (* %Y-%m-%dT%H:%M:%S *)
Definition iso_dt_us : list fdir := iso_dt ++ [FC 46; Ff].                           (* ....%f *)

(** ** Numbers *)
(** binary64 rounding of a natural number to nearest, ties to even *)
Definition rnd53 (n : N) : N :=
  let k := N.log2 n in
  if N.ltb k 53 then n
  else
    let sh := (k - 52)%N in
    let q := N.shiftr n sh in
    let r := (n - N.shiftl q sh)%N in
    let half := N.shiftl 1 (sh - 1) in
    let up := (N.ltb half r || (N.eqb half r && N.odd q))%bool in
    N.shiftl (if up then q + 1 else q) sh.

(** libxml2 reads the integer part of a number digit by digit in binary64 arithmetic *)
Definition dbl_digits (l : list N) : N := fold_left (fun acc d => rnd53 (rnd53 (acc * 10) + d)) l 0%N.
(** [int(number())]: truncation.  SIMPLIFICATION: the fraction and the power of ten are taken exactly. *)
Definition int_of_number (x : number) : Z :=
  let '(m, k) := x in
  let i := Z.abs_N (Z.quot m (10 ^ Z.of_nat k)) in
  let r := dbl_digits (digits_of_N i) in
  if Z.ltb m 0 then (- Z.of_N r)%Z else Z.of_N r.

(** binary64 ends below 2^1024: int() of infinity raises OverflowError, which is no ValueError *)
Definition int_result (x : number) : res Z :=
  let z := int_of_number x in if N.leb (2 ^ 1024) (Z.abs_N z) then Exc XOverflow else Ret z.

(** Python's [int(str)]: white space around, an optional sign, digits with single underscores
    between them.  SIMPLIFICATION: digits and white space are ASCII; no limit on the number of digits. *)
Definition py_space (c : N) : bool := (in_range 9 13 c || in_range 28 32 c)%bool.
Fixpoint int_digits (prev : bool) (acc : list N) (s : str) : option (list N) :=
  match s with
  | [] => if prev then Some (rev acc) else None
  | c :: s' =>
    if asc_digit c then int_digits true ((c - 48)%N :: acc) s'
    else if (N.eqb c 95 && prev)%bool then int_digits false acc s' else None
  end.
Definition py_int (s : str) : option Z :=
  let s := strip py_space s in
  let '(neg, s) := match s with
    | c :: r => if N.eqb c 45 then (true, r) else if N.eqb c 43 then (false, r) else (false, s)
    | [] => (false, []) end in
  match int_digits false [] s with
  | Some ds => let n := Z.of_N (N_of_digits ds) in Some (if neg then - n else n)%Z
  | None => None
  end.

(** Python's [float(str)]: as [int], with a fraction and an exponent (of at least one digit), or inf, infinity, nan in any case.
    SIMPLIFICATION: exact values instead of binary64. *)
Inductive pyfloat := FNum (x : number) | FNan | FInf.
Definition opt_digits (s : str) : option (list N) := match s with [] => Some [] | _ => int_digits false [] s end.
Definition dig_us (c : N) : bool := (asc_digit c || N.eqb c 95)%bool.
Definition py_exponent (s : str) : option Z :=
  match s with
  | [] => Some 0%Z
  | c :: r =>
    if (N.eqb c 101 || N.eqb c 69)%bool then
      let '(neg, r) := match r with x :: r' => if N.eqb x 45 then (true, r') else if N.eqb x 43 then (false, r') else (false, r) | [] => (false, []) end in
      match int_digits false [] r with Some ds => let z := Z.of_N (N_of_digits ds) in Some (if neg then - z else z)%Z | None => None end
    else None
  end.
Definition dec_number (neg : bool) (ip fp : list N) (e : Z) : number :=
  let m := Z.of_N (N_of_digits (ip ++ rstrip0 fp)) in shift10 e ((if neg then - m else m)%Z, length (rstrip0 fp)).
Definition py_float (s : str) : option pyfloat :=
  let s := strip py_space s in
  let '(neg, s) := match s with
    | c :: r => if N.eqb c 45 then (true, r) else if N.eqb c 43 then (false, r) else (false, s)
    | [] => (false, []) end in
  let w := map lower s in
  if (str_eqb w (u "inf") || str_eqb w (u "infinity"))%bool then Some FInf
  else if str_eqb w (u "nan") then Some FNan
  else
    let (ip, rest) := span dig_us s in
    let '(fp, rest) := match rest with c :: r => if N.eqb c 46 then span dig_us r else ([], rest) | [] => ([], []) end in
    match opt_digits ip, opt_digits fp, py_exponent rest with
    | Some [], Some [], _ => None
    | Some i, Some f, Some e => Some (FNum (dec_number neg i f e))
    | _, _, _ => None
    end.

(** ** Mappers *)
Inductive pyval :=
| PNone
| PStr (s : str)
| PInt (z : Z)
| PFloat (n : option number)            (* exact decimal, or NaN *)
| PBool (b : bool)
| PDate (d : date)
| PDateTime (d : date) (t : time)       (* naive *)
| PNode (n : node)                      (* an XmlObject wrapping this element *)
| PRaw (i : minput).                    (* ItemField *)

Inductive mapper :=
| MString (norm : bool)
| MInt
| MFloat
| MBool (true_ : str) (false_ : option str)      (* str(true), str(false) or None *)
| MDateTime (fmt : option (list fdir)) (norm : bool)
| MDate (fmt : list fdir)
| MNode
| MNull.

(** fields.py:100-111: [string()] or [normalize-space(string())] of the element *)
Definition read_str (norm : bool) (i : minput) : res str :=
  match i with
  | InStr s => Ret s                                             (* returned as it is, also with normalize *)
  | InElem n => Ret (if norm then normalize_space (strval n) else strval n)
  | _ => Exc XType                                               (* etree.XPath on a float/bool *)
  end.

(** fields.py:194-206 *)
Definition strip_tz (s : str) : res str :=
  let s := match rev s with c :: r => if N.eqb c 90 then rev r else s | [] => s end in
  match nth_error (rev s) 5 with
  | None => Exc XIndex
  | Some c => if (N.eqb c 43 || N.eqb c 45)%bool then Ret (rev (skipn 6 (rev s))) else Ret s
  end.

Definition parse_dt (fmt : option (list fdir)) (s : str) : res (date * time) :=
  match fmt with
  | Some f => strptime f s
  | None => match strptime iso_dt s with Ret x => Ret x | Exc XValue => strptime iso_dt_us s | Exc x => Exc x end
  end.

Definition to_python (m : mapper) (i : option minput) : res pyval :=
  match m, i with
  | MString norm, None => Ret PNone
  | MString norm, Some i => match read_str norm i with Ret s => Ret (PStr s) | Exc x => Exc x end
  (* fields.py:113-126 *)
  | MInt, None => Ret PNone
  | MInt, Some (InStr s) => Ret (match py_int s with Some z => PInt z | None => PNone end)
  | MInt, Some (InNum n) => match n with Some x => match int_result x with Ret z => Ret (PInt z) | Exc x => Exc x end | None => Ret PNone end
  | MInt, Some (InElem n) => match xnumber (strval n) with Some x => match int_result x with Ret z => Ret (PInt z) | Exc x => Exc x end | None => Ret PNone end
  | MInt, Some (InBool _) => Exc XType
  (* fields.py:128-140; SIMPLIFICATION: infinity is not a value here *)
  | MFloat, None => Ret PNone
  | MFloat, Some (InElem n) => Ret (PFloat (xnumber (strval n)))
  | MFloat, Some (InStr s) => match py_float s with Some (FNum x) => Ret (PFloat (Some x)) | Some FNan => Ret (PFloat None) | Some FInf => Exc XUnmodelled | None => Ret PNone end
  | MFloat, Some _ => Exc XType
  (* fields.py:148-168 *)
  | MBool t f, None => Ret (match f with None => PBool false | Some _ => PNone end)
  | MBool t f, Some i =>
    match read_str false i with
    | Exc x => Exc x
    | Ret s =>
      if str_eqb s t then Ret (PBool true)
      else match f with
        | Some fs => if str_eqb s fs then Ret (PBool false) else Exc XBool
        | None => Exc XBool
        end
    end
  (* fields.py:187-207 *)
  | MDateTime fmt norm, None => Ret PNone
  | MDateTime fmt norm, Some i =>
    match read_str norm i with
    | Exc x => Exc x
    | Ret s => match strip_tz s with
               | Exc x => Exc x
               | Ret s => match parse_dt fmt s with Ret (d, t) => Ret (PDateTime d t) | Exc x => Exc x end
               end
    end
  (* fields.py:225-234: node.text, without normalisation or tz handling *)
  | MDate fmt, None => Ret PNone
  | MDate fmt, Some (InStr s) => match strptime fmt s with Ret (d, _) => Ret (PDate d) | Exc x => Exc x end
  | MDate fmt, Some (InElem n) =>
    match text_of n with
    | Some s => match strptime fmt s with Ret (d, _) => Ret (PDate d) | Exc x => Exc x end
    | None => Exc XType
    end
  | MDate fmt, Some _ => Exc XUnbound
  (* fields.py:246-249 *)
  | MNode, None => Ret PNone
  | MNode, Some (InElem n) => Ret (PNode n)
  | MNode, Some _ => Exc XUnmodelled
  (* fields.py:237-239 *)
  | MNull, None => Ret PNone
  | MNull, Some i => Ret (PRaw i)
  end.

(** str(value) of the generic Mapper.to_xml (fields.py:91-97) *)
Definition py_str (v : pyval) : res str :=
  match v with
  | PStr s => Ret s
  | PInt z => Ret (str_of_Z z)
  | PBool b => Ret (if b then u "True" else u "False")
  | _ => Exc XUnmodelled
  end.
(** Python truth value *)
Definition py_truth (v : pyval) : bool :=
  match v with
  | PNone => false
  | PStr [] => false
  | PInt z => negb (Z.eqb z 0)
  | PBool b => b
  | PFloat (Some (m, _)) => negb (Z.eqb m 0)
  | _ => true
  end.

(** to_xml for values written as strings; a NodeField's element value is not covered here *)
Definition to_xml (m : mapper) (v : pyval) : res (option str) :=
  match m with
  | MString _ | MInt | MFloat => match v with PNone => Ret None | _ => match py_str v with Ret s => Ret (Some s) | Exc x => Exc x end end
  | MBool t f => Ret (if py_truth v then Some t else f)                      (* fields.py:170-176 *)
  | MDateTime fmt _ =>                                                       (* fields.py:209-215 *)
    match v with
    | PDateTime d t => Ret (Some (match fmt with Some f => strftime f d t | None => isoformat d t end))
    | PDate d => match fmt with
                 | Some f => Ret (Some (strftime f d (mkTime 0 0 0 0)))
                 | None => Ret (Some (pad 4 (yr d) ++ u "-" ++ pad 2 (mo d) ++ u "-" ++ pad 2 (dy d)))  (* date.isoformat() *)
                 end
    | _ => Exc XAttr                                                         (* no strftime/isoformat *)
    end
  | MDate f =>
    match v with
    | PDate d => Ret (Some (strftime f d (mkTime 0 0 0 0)))
    | PDateTime d t => Ret (Some (strftime f d t))
    | _ => Exc XAttr
    end
  | MNode => match v with PNone => Ret None | _ => Exc XUnmodelled end       (* fields.py:251-253 *)
  | MNull => Exc XAttr                                                       (* NullMapper has no to_xml *)
  end.

(** ** Typed single-node fields (fields.py:74-81, 613-658) *)
Definition field_get (E : env) (e : expr) (m : mapper) (d : node) : res pyval :=
  match eval_at E e doc_root d with Ret v => to_python m (first_input v) | Exc x => Exc x end.

(** the get of the manager as a computation on the document, with the deprecated instantiate_on_get;
    a created node is mapped by a second look at it *)
Definition mgr_get (E : env) (e : expr) (m : mapper) (inst : bool) : M pyval :=
  bind (reading (fun d => eval_at E e doc_root d)) (fun v =>
  match first_input v, inst with
  | None, true =>
    bind (build E Create e (Some doc_root) None) (fun r =>
    reading (fun d => match r with
      | Some (RElem a) => match get_at a d with Some n => to_python m (Some (InElem n)) | None => Exc XUnmodelled end
      | Some (RAttr a q) => match get_at a d with
                            | Some n => to_python m (match attr_get q (attrs_of n) with Some s => Some (InStr s) | None => None end)
                            | None => Exc XUnmodelled end
      | _ => Exc XUnmodelled
      end))
  | i, _ => reading (fun _ => to_python m i)
  end).

Definition typed_set (E : env) (e : expr) (m : mapper) (v : pyval) : M unit :=
  match to_xml m v with Ret x => mgr_set E e x | Exc x => raise x end.
