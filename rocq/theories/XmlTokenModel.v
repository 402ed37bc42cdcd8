(** Model of what ecore/xmldecoder.go uses of the standard library's encoding/xml: the tokens which
    xml.Decoder.Token (xmldecoder.go:146) delivers for a text, in strict mode.

    This is part of the trusted base: it describes the library, not the code in /repo.  Covered: the prolog and
    other processing instructions, elements, attributes, character data, the predefined references, decimal
    character references below 128, the translation of prefixes, the matching of tags, and the refusal of
    control characters and of "]]>".  Comments, directives, CDATA, hexadecimal references and encodings other
    than UTF-8 are answered like a syntax error; characters of names are not checked any further than here. *)
From Coq Require Import String.
From Verif Require Import Base Chars.
Open Scope Z_scope.

(** an attribute: name space, local name, value *)
Notation attr := (str * str * str)%type.

Inductive token :=
| TStart (space local : str) (attrs : list attr)
| TEnd
| TText (s : str)
| TOther.

(** white space, and the characters which end a name *)
Definition is_white (c : Z) : bool := existsb (Z.eqb c) [32; 9; 10; 13].
Definition ends_name (c : Z) : bool := existsb (Z.eqb c) [60; 62; 47; 61; 34; 39; 38; 59; 63; 33; 32; 9; 10; 13].

Fixpoint skip_white (s : str) : str :=
  match s with c :: s' => if is_white c then skip_white s' else s | [] => [] end.
(** the longest name in front of the text *)
Fixpoint read_name (s : str) : str * str :=
  match s with
  | c :: s' => if ends_name c then ([], s) else (c :: fst (read_name s'), snd (read_name s'))
  | [] => ([], [])
  end.

(** nsname: "p:l" is split at its only colon, unless one side is empty; two colons are an error *)
Fixpoint cut (s : str) : option (str * str) :=
  match s with
  | [] => None
  | c :: s' => if c =? 58 then Some ([], s') else match cut s' with Some (a, b) => Some (c :: a, b) | None => None end
  end.
Definition nsname (s : str) : option (str * str) :=
  match cut s with
  | None => Some ([], s)
  | Some (p, l) =>
      if existsb (Z.eqb 58) l then None
      else match p, l with [], _ | _, [] => Some ([], s) | _, _ => Some (p, l) end
  end.

(** characters which may occur in a document; those from 128 on are bytes of longer characters *)
Definition allowed (c : Z) : bool := (32 <=? c) || (c =? 9) || (c =? 10) || (c =? 13).

Fixpoint decimal_ref (acc : Z) (s : str) : option Z :=
  match s with
  | [] => Some acc
  | c :: s' => if (48 <=? c) && (c <=? 57) then decimal_ref (10 * acc + (c - 48)) s' else None
  end.
(** the character which a reference stands for *)
Definition reference (e : str) : option Z :=
  if str_eqb e (lit "amp") then Some 38 else if str_eqb e (lit "lt") then Some 60 else if str_eqb e (lit "gt") then Some 62
  else if str_eqb e (lit "quot") then Some 34 else if str_eqb e (lit "apos") then Some 39
  else match e with
       | 35 :: x :: d => match decimal_ref 0 (x :: d) with
                         | Some n => if (n <? 128) && allowed n then Some n else None
                         | None => None
                         end
       | _ => None
       end.

(** Decoder.text: the characters up to the quote, or up to "<" without one, and what follows; [b0] and [b1] are the
    two characters before.  A carriage return becomes a line feed, one after it is dropped. *)
Fixpoint chars (fuel : nat) (quote : option Z) (b0 b1 : Z) (s : str) : option (str * str) :=
  match fuel with
  | O => None
  | S fuel' =>
      match s with
      | [] => match quote with Some _ => None | None => Some ([], []) end
      | c :: s' =>
          if match quote with None => (b0 =? 93) && (b1 =? 93) && (c =? 62) | Some _ => false end then None
          else if c =? 60 then match quote with Some _ => None | None => Some ([], s) end
          else if match quote with Some q => c =? q | None => false end then Some ([], s')
          else if c =? 38 then
            let '(e, r) := read_name s' in
            match r with
            | c' :: r' => if c' =? 59 then
                            match reference e, chars fuel' quote 0 0 r' with
                            | Some x, Some (t, rest) => Some (x :: t, rest)
                            | _, _ => None
                            end
                          else None
            | [] => None
            end
          else if negb (allowed c) then None
          else match chars fuel' quote b1 c s' with
               | Some (t, rest) =>
                   Some (if c =? 13 then 10 :: t else if (b1 =? 13) && (c =? 10) then t else c :: t, rest)
               | None => None
               end
      end
  end.

(** the attributes of a start tag with their prefixes, whether the element is empty, and what follows *)
Fixpoint read_attrs (fuel : nat) (s : str) : option (list attr * bool * str) :=
  match fuel with
  | O => None
  | S fuel' =>
      match skip_white s with
      | [] => None
      | c :: r =>
          if c =? 62 then Some ([], false, r)
          else if c =? 47 then match r with c' :: r' => if c' =? 62 then Some ([], true, r') else None | [] => None end
          else
            let '(n, r) := read_name (c :: r) in
            match n, nsname n, skip_white r with
            | _ :: _, Some (p, l), e :: r' =>
                if e =? 61 then
                  match skip_white r' with
                  | q :: r'' =>
                      if (q =? 34) || (q =? 39) then
                        match chars (S (length r'')) (Some q) 0 0 r'' with
                        | Some (v, rest) =>
                            match read_attrs fuel' rest with
                            | Some (l', e, rest') => Some ((p, l, v) :: l', e, rest')
                            | None => None
                            end
                        | None => None
                        end
                      else None
                  | [] => None
                  end
                else None
            | _, _, _ => None
            end
      end
  end.

(** prefixes in scope, inner ones first *)
Notation env := (list (str * str)).
Fixpoint env_get (e : env) (p : str) : option str :=
  match e with [] => None | (q, u) :: e' => if str_eqb p q then Some u else env_get e' p end.
(** the declarations of a start tag; a later one hides an earlier one *)
Fixpoint env_add (l : list attr) (e : env) : env :=
  match l with
  | [] => e
  | (p, n, v) :: l' =>
      env_add l' (if str_eqb p (lit "xmlns") then (n, v) :: e
                  else if str_eqb p [] && str_eqb n (lit "xmlns") then ([], v) :: e else e)
  end.
Definition xml_space : str := lit "http://www.w3.org/XML/1998/namespace".
(** Decoder.translate *)
Definition translate (e : env) (element : bool) (p l : str) : str :=
  if str_eqb p (lit "xmlns") then p
  else if str_eqb p [] && negb element then p
  else if str_eqb p (lit "xml") then xml_space
  else if str_eqb p [] && str_eqb l (lit "xmlns") then p
  else match env_get e p with Some u => u | None => p end.

(** skips a processing instruction; [c] is the character before *)
Fixpoint skip_instruction (c : Z) (s : str) : option str :=
  match s with
  | c' :: s' => if (c =? 63) && (c' =? 62) then Some s' else skip_instruction c' s'
  | [] => None
  end.

(** all tokens up to the end or to the first error; the answer tells whether there was none *)
Fixpoint lex (fuel : nat) (open : list (str * env)) (s : str) : list token * bool :=
  match fuel with
  | O => ([], false)
  | S fuel' =>
      let scope := match open with (_, e) :: _ => e | [] => [] end in
      let next ts o r := let '(ts', ok) := lex fuel' o r in (ts ++ ts', ok) in
      match s with
      | [] => ([], match open with [] => true | _ => false end)
      | c :: r =>
          if c =? 60 then
            match r with
            | [] => ([], false)
            | c' :: r' =>
                if c' =? 63 then
                  match skip_instruction 0 r' with Some r'' => next [TOther] open r'' | None => ([], false) end
                else if c' =? 47 then
                  let '(n, r'') := read_name r' in
                  match open, skip_white r'' with
                  | (m, _) :: open', c'' :: rest => if (c'' =? 62) && str_eqb n m then next [TEnd] open' rest else ([], false)
                  | _, _ => ([], false)
                  end
                else
                  let '(n, r'') := read_name r in
                  match n, nsname n, read_attrs (S (length r'')) r'' with
                  | _ :: _, Some (p, l), Some (attrs, empty, rest) =>
                      let e := env_add attrs scope in
                      let start := TStart (translate e true p l) l (map (fun '(q, m, v) => (translate e false q m, m, v)) attrs) in
                      if empty then next [start; TEnd] open rest else next [start] ((n, e) :: open) rest
                  | _, _, _ => ([], false)
                  end
            end
          else
            match chars (S (length s)) None 0 0 s with
            | Some (t, rest) => next [TText t] open rest
            | None => ([], false)
            end
      end
  end.
Definition tokens_of (s : str) : list token * bool := lex (S (length s)) [] s.
