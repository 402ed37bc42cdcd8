(** Model of the functions of Go's strconv, strings and net/url packages which the code uses.  These packages are not part of
    /repo: the definitions follow their documentation. *)
From Coq Require Import String.
From Verif Require Import Base Chars.
Open Scope Z_scope.

(** ** strconv *)
Definition is_digit (c : Z) : bool := (48 <=? c) && (c <=? 57).
(** decimal digits of a number, most significant first; [fuel]: at least the number of digits *)
Fixpoint digits (fuel : nat) (n : Z) (acc : str) : str :=
  match fuel with
  | O => acc
  | S f => let acc' := (48 + n mod 10) :: acc in if n / 10 =? 0 then acc' else digits f (n / 10) acc'
  end.
Definition format_nat (n : Z) : str := digits (S (Z.to_nat (Z.log2 n))) n [].
(** strconv.Itoa, strconv.FormatInt(_, 10), fmt.Sprintf("%d") *)
Definition itoa (n : Z) : str := if n <? 0 then 45 :: format_nat (- n) else format_nat n.

Fixpoint number (acc : Z) (s : str) : option Z :=
  match s with
  | [] => Some acc
  | c :: s' => if is_digit c then number (10 * acc + (c - 48)) s' else None
  end.
(** strconv.ParseInt(s, 10, bits): the value returned and whether there is no error; a syntax error gives 0, a range error
    the nearest number *)
Definition parse_int (bits : Z) (s : str) : Z * bool :=
  let limit := 2 ^ (bits - 1) in
  let '(neg, ds) := match s with 45 :: r => (true, r) | 43 :: r => (false, r) | _ => (false, s) end in
  match ds with
  | [] => (0, false)
  | _ =>
      match number 0 ds with
      | None => (0, false)
      | Some n => if neg then (if n <=? limit then (- n, true) else (- limit, false))
                  else (if n <? limit then (n, true) else (limit - 1, false))
      end
  end.
(** strconv.Atoi: int has 64 bits *)
Definition atoi (s : str) : Z * bool := parse_int 64 s.

(** ** strings *)
(** strings.Split with a separator of one character *)
Fixpoint split (sep : Z) (s : str) : list str :=
  match s with
  | [] => [[]]
  | c :: s' => if c =? sep then [] :: split sep s'
               else match split sep s' with x :: l => (c :: x) :: l | [] => [[c]] end
  end.
(** strings.Join *)
Fixpoint join (sep : str) (l : list str) : str :=
  match l with
  | [] => []
  | [x] => x
  | x :: l' => x ++ sep ++ join sep l'
  end.
(** strings.LastIndex of one character *)
Fixpoint last_index (c : Z) (s : str) : Z :=
  match s with
  | [] => -1
  | x :: s' => let i := last_index c s' in if 0 <=? i then i + 1 else if x =? c then 0 else -1
  end.

(** ** net/url *)
(** characters kept by url.PathEscape: letters, digits and - _ . ~ $ & + = : @ *)
Definition path_safe (c : Z) : bool :=
  ((97 <=? c) && (c <=? 122)) || ((65 <=? c) && (c <=? 90)) || is_digit c || existsb (Z.eqb c) [45; 95; 46; 126; 36; 38; 43; 61; 58; 64].
Definition hex (n : Z) : Z := if n <? 10 then 48 + n else 55 + n.
(** url.PathEscape; characters are bytes *)
Definition path_escape (s : str) : str := flat_map (fun c => if path_safe c then [c] else [37; hex (c / 16); hex (c mod 16)]) s.
Definition unhex (c : Z) : option Z :=
  if is_digit c then Some (c - 48) else if (97 <=? c) && (c <=? 102) then Some (c - 87) else if (65 <=? c) && (c <=? 70) then Some (c - 55) else None.
(** url.PathUnescape; on an error the empty string is returned with the error, which the callers ignore *)
Fixpoint path_unescape_opt (s : str) : option str :=
  match s with
  | [] => Some []
  | 37 :: s' =>
      match s' with
      | h :: l :: r => match unhex h, unhex l, path_unescape_opt r with Some x, Some y, Some t => Some (16 * x + y :: t) | _, _, _ => None end
      | _ => None
      end
  | c :: s' => match path_unescape_opt s' with Some t => Some (c :: t) | None => None end
  end.
Definition path_unescape (s : str) : str := match path_unescape_opt s with Some t => t | None => [] end.
