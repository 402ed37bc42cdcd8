(** Model of the parts of Go's time package which the code uses (time.Format and time.Parse with two
    layouts).  The package is not part of /repo: the definitions follow its documentation.

    A time is an instant and the offset of its location at that instant.  The name of the location is not
    modelled.  Calendar: proleptic Gregorian, no leap seconds. *)
From Coq Require Import String.
From Verif Require Import Base Chars StrconvModel.
Local Open Scope string_scope.
Local Open Scope list_scope.
Local Open Scope Z_scope.

(** [sec]: seconds since 1970-01-01T00:00:00Z; [nsec]: nanoseconds within the second; [off]: seconds east of UTC *)
Record time := mkTime { sec : Z; nsec : Z; off : Z }.

(** ** calendar; days are counted from 0000-01-01 *)
Definition epoch : Z := 719528.   (* 1970-01-01 *)
Definition leap (y : Z) : bool := (y mod 4 =? 0) && (negb (y mod 100 =? 0) || (y mod 400 =? 0)).
Definition days_before_year (y : Z) : Z := 365 * y + (y + 3) / 4 - (y + 99) / 100 + (y + 399) / 400.
Definition month_lengths (y : Z) : list Z := [31; if leap y then 29 else 28; 31; 30; 31; 30; 31; 31; 30; 31; 30; 31].
Definition days_in_month (y m : Z) : Z := nth (Z.to_nat (m - 1)) (month_lengths y) 0.
Definition days_before_month (y m : Z) : Z := fold_right Z.add 0 (firstn (Z.to_nat (m - 1)) (month_lengths y)).
Definition days_of_date (y m d : Z) : Z := days_before_year y + days_before_month y m + (d - 1).

Definition year_of (n : Z) : Z :=
  let y := n * 400 / 146097 in
  if n <? days_before_year y then y - 1 else if days_before_year (y + 1) <=? n then y + 1 else y.
(** month and day from the day of the year *)
Fixpoint month_day (m : Z) (lengths : list Z) (d : Z) : Z * Z :=
  match lengths with
  | [] => (m, d + 1)
  | l :: ls => if d <? l then (m, d + 1) else month_day (m + 1) ls (d - l)
  end.
Definition date_of_days (n : Z) : Z * Z * Z :=
  let y := year_of n in let '(m, d) := month_day 1 (month_lengths y) (n - days_before_year y) in (y, m, d).

(** ** formats *)
(** appendInt with a width; the year of a date before 0 has a sign *)
Definition pad (w : nat) (n : Z) : str :=
  let d := format_nat (Z.abs n) in (if n <? 0 then [45] else []) ++ repeat 48 (w - length d) ++ d.

(** "2006-01-02T15:04:05" of the clock of the location *)
Definition format_clock (t : time) : str :=
  let local := sec t + off t in
  let '(y, m, d) := date_of_days (local / 86400 + epoch) in
  let s := local mod 86400 in
  pad 4 y ++ lit "-" ++ pad 2 m ++ lit "-" ++ pad 2 d ++ lit "T" ++
  pad 2 (s / 3600) ++ lit ":" ++ pad 2 (s / 60 mod 60) ++ lit ":" ++ pad 2 (s mod 60).

(** "Z07:00" *)
Definition format_zone (o : Z) : str :=
  if o =? 0 then lit "Z"
  else let z := Z.quot o 60 in
       (if z <? 0 then lit "-" else lit "+") ++ pad 2 (Z.abs z / 60) ++ lit ":" ++ pad 2 (Z.abs z mod 60).

(** ".999": milliseconds without trailing zeros *)
Fixpoint trim_zeros (s : str) : str :=
  match s with
  | [] => []
  | c :: s' => match trim_zeros s' with [] => if c =? 48 then [] else [c] | r => c :: r end
  end.
Definition format_frac (n : Z) : str :=
  match trim_zeros (pad 3 (n / 1000000)) with [] => [] | r => lit "." ++ r end.

(** time.RFC3339 = "2006-01-02T15:04:05Z07:00" *)
Definition format_rfc3339 (t : time) : str := format_clock t ++ format_zone (off t).
(** "2006-01-02T15:04:05.999Z": the final Z is not the zone but a letter *)
Definition format_milli (t : time) : str := format_clock t ++ format_frac (nsec t) ++ lit "Z".

(** ** parsing *)
Definition digit (c : Z) : option Z := if is_digit c then Some (c - 48) else None.
(** getnum with fixed width *)
Definition two (s : str) : option (Z * str) :=
  match s with
  | a :: b :: r => match digit a, digit b with Some x, Some y => Some (10 * x + y, r) | _, _ => None end
  | _ => None
  end.
(** getnum: one or two digits *)
Definition one_or_two (s : str) : option (Z * str) :=
  match two s with
  | Some r => Some r
  | None => match s with a :: r => match digit a with Some x => Some (x, r) | None => None end | [] => None end
  end.
Definition four (s : str) : option (Z * str) :=
  match two s with Some (x, r) => match two r with Some (y, r') => Some (100 * x + y, r') | None => None end | None => None end.
Definition expect (c : Z) (s : str) : option str :=
  match s with d :: r => if d =? c then Some r else None | [] => None end.
Definition bind {X Y} (o : option X) (f : X -> option Y) : option Y := match o with Some x => f x | None => None end.

(** the fraction of a second: any number of digits after a point, or nothing *)
Fixpoint take_digits (s : str) : str * str :=
  match s with
  | c :: s' => if is_digit c then let '(a, b) := take_digits s' in (c :: a, b) else ([], s)
  | [] => ([], [])
  end.
Definition parse_frac (s : str) : Z * str :=
  match s with
  | c :: s' =>
      if (c =? 46) || (c =? 44) then
        let '(ds, r) := take_digits s' in
        match ds with
        | [] => (0, s)
        | _ => let ds9 := firstn 9 ds in
               (match number 0 ds9 with Some n => n * 10 ^ (9 - zlen ds9) | None => 0 end, r)
        end
      else (0, s)
  | [] => (0, s)
  end.

(** the clock; both layouts accept a fraction after the seconds *)
Definition parse_clock (s : str) : option (Z * Z * str) :=
  bind (four s) (fun '(y, s) => bind (expect 45 s) (fun s =>
  bind (two s) (fun '(m, s) => bind (expect 45 s) (fun s =>
  bind (two s) (fun '(d, s) => bind (expect 84 s) (fun s =>
  bind (one_or_two s) (fun '(h, s) => bind (expect 58 s) (fun s =>
  bind (two s) (fun '(mi, s) => bind (expect 58 s) (fun s =>
  bind (two s) (fun '(se, s) =>
  let '(ns, s) := parse_frac s in
  if (1 <=? m) && (m <=? 12) && (1 <=? d) && (d <=? days_in_month y m) && (h <? 24) && (mi <? 60) && (se <? 60)
  then Some ((days_of_date y m d - epoch) * 86400 + h * 3600 + mi * 60 + se, ns, s)
  else None))))))))))).

Definition parse_zone (s : str) : option (Z * str) :=
  match s with
  | 90 :: r => Some (0, r)
  | c :: r =>
      if (c =? 43) || (c =? 45) then
        bind (two r) (fun '(h, r) => bind (expect 58 r) (fun r => bind (two r) (fun '(m, r) =>
        if (h <=? 24) && (m <? 60) then Some ((if c =? 45 then -1 else 1) * (h * 3600 + m * 60), r) else None)))
      else None
  | [] => None
  end.

Definition parse_rfc3339 (s : str) : option time :=
  bind (parse_clock s) (fun '(local, ns, s) => bind (parse_zone s) (fun '(o, s) =>
  match s with [] => Some (mkTime (local - o) ns o) | _ => None end)).
Definition parse_milli (s : str) : option time :=
  bind (parse_clock s) (fun '(local, ns, s) => bind (expect 90 s) (fun s =>
  match s with [] => Some (mkTime local ns 0) | _ => None end)).
