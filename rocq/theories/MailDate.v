(** cerp.py:380-392 parse_mail_date: the text stored in OrigDate for a Date header.

    [email.utils.parsedate_tz] (Python's email package) is an input: it gives [None] or year, month, day, hour, minute,
    second and the offset from UTC in seconds (Python 3: 0 when the header has none).  The machine's time zone is the
    parameter [zone], the seconds to add to UTC at an instant (any function: summer time, political changes). *)
From Coq Require Import String ZArith NArith List Bool Lia.
From Verif Require Import PyStr Mappers Fields Cerp.
Import ListNotations.
Open Scope Z_scope.

Record mail_time := mkMT { mt_y : Z; mt_mo : Z; mt_d : Z; mt_h : Z; mt_mi : Z; mt_s : Z; mt_off : Z }.

(** CPython Lib/datetime.py _is_leap, _days_before_year, _days_before_month, _ymd2ord *)
Definition zleap (y : Z) : bool := (y mod 4 =? 0) && (negb (y mod 100 =? 0) || (y mod 400 =? 0)).
Definition before_year (y : Z) : Z := (y - 1) * 365 + (y - 1) / 4 - (y - 1) / 100 + (y - 1) / 400.
Definition before_month (lp : bool) (m : Z) : Z :=
  nth (Z.to_nat m) [0; 0; 31; 59; 90; 120; 151; 181; 212; 243; 273; 304; 334] 0 + (if (2 <? m) && lp then 1 else 0).
Definition ordinal (y m d : Z) : Z := before_year y + before_month (zleap y) m + d.
Definition epoch : Z := 719163.   (* date(1970, 1, 1).toordinal() *)

(** calendar.timegm: date(year, month, 1) raises ValueError for years outside 1..9999; the day only counts *)
Definition timegm (t : mail_time) : res Z :=
  if (1 <=? mt_y t) && (mt_y t <=? 9999) && (1 <=? mt_mo t) && (mt_mo t <=? 12) then
    let days := ordinal (mt_y t) (mt_mo t) 1 - epoch + mt_d t - 1 in
    Ret (((days * 24 + mt_h t) * 60 + mt_mi t) * 60 + mt_s t)
  else Exc XValue.

(** email.utils.mktime_tz with an offset *)
Definition mktime_tz (t : mail_time) : res Z :=
  match timegm t with Ret s => Ret (s - mt_off t) | Exc x => Exc x end.

(** year, month and day of an ordinal, CPython's _ord2ymd (libc's localtime computes the same) *)
Definition month_of (lp : bool) (n : Z) : Z :=
  let m := (n + 50) / 32 in if n <? before_month lp m then m - 1 else m.
Definition ord2ymd (n : Z) : Z * Z * Z :=
  let n := n - 1 in
  let n400 := n / 146097 in let n := n mod 146097 in
  let n100 := n / 36524 in let n := n mod 36524 in
  let n4 := n / 1461 in let n := n mod 1461 in
  let n1 := n / 365 in let n := n mod 365 in
  let y := n400 * 400 + 1 + n100 * 100 + n4 * 4 + n1 in
  if (n1 =? 4) || (n100 =? 4) then (y - 1, 12, 31)
  else
    let lp := (n1 =? 3) && (negb (n4 =? 24) || (n100 =? 3)) in
    let m := month_of lp n in (y, m, n - before_month lp m + 1).

(** datetime.fromtimestamp: the wall clock of the machine's zone; ValueError for years outside 1..9999.
    SIMPLIFICATION: timestamps outside the C time_t range raise OverflowError instead; years 1..9999 are inside it. *)
Definition fromtimestamp (zone : Z -> Z) (s : Z) : res (date * time) :=
  let w := s + zone s in
  let '(y, m, d) := ord2ymd (w / 86400 + epoch) in
  let r := w mod 86400 in
  if (1 <=? y) && (y <=? 9999) then
    Ret (mkDate (Z.to_N y) (Z.to_N m) (Z.to_N d), mkTime (Z.to_N (r / 3600)) (Z.to_N (r / 60 mod 60)) (Z.to_N (r mod 60)) 0)
  else Exc XValue.

Section ParseMailDate.
  Context (parsedate_tz : str -> option mail_time) (zone : Z -> Z).
  (** cerp.py:387-392 *)
  Definition parse_mail_date (s : str) : res str :=
    match parsedate_tz s with
    | None => Ret s
    | Some t =>
        match mktime_tz t with
        | Exc x => Exc x
        | Ret ts => match fromtimestamp zone ts with Ret (d, t) => Ret (isoformat d t) | Exc x => Exc x end
        end
    end.
End ParseMailDate.

(** cerp.py:219-314 Message.from_email_message with its call of parse_mail_date for every Date header (line 243).
    SIMPLIFICATION: the dates are converted first; if two things go wrong the exception of the dates is the one reported. *)
Fixpoint all_dates (f : str -> res str) (l : list str) : res unit :=
  match l with
  | [] => Ret tt
  | s :: l => match f s with Ret _ => all_dates f l | Exc x => Exc x end
  end.
Definition from_email_message (parsedate_tz : str -> option mail_time) (zone : Z -> Z) (eol : str) (local_id : option str) (m : email) : res node :=
  match all_dates (parse_mail_date parsedate_tz zone) (get_all "Date" m) with
  | Exc x => Exc x
  | Ret _ =>
      match from_email (fun s => match parse_mail_date parsedate_tz zone s with Ret r => r | Exc _ => s end) eol local_id m with
      | (d, Ret _) => Ret d
      | (_, Exc x) => Exc x
      end
  end.
