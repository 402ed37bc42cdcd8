(** A library with books, for the examples of the XML reader. *)
From Coq Require Import String.
From Verif Require Import Base Chars StrconvModel FragmentModel FragmentSpec XmlTokenModel XmlInModel XmlInSpec XmlTree XmlInWrite.
From Verif Require XmlOutModel XmlOutSpec.
Open Scope Z_scope.

(** class 0 is Library with name, books and best, class 1 is Book with title, next and tags, class 2 is abstract *)
Definition lib_name (f : nat) : str := match f with 0 => lit "name" | 1 => lit "books" | 2 => lit "title" | 3 => lit "next" | 4 => lit "tags" | 5 => lit "best" | _ => lit "item" end%nat.
Definition lib_kind (f : nat) : fkind := match f with 0 | 2 => Single | 4 => Many | 1 | 3 => ManyAdd | _ => Other end%nat.
Definition library : meta str :=
  mkMeta str (fun u => if str_eqb u (lit "http://lib") then Some 0%nat else None)
    (fun _ n => if str_eqb n (lit "Library") then Some 0%nat else if str_eqb n (lit "Book") then Some 1%nat else None)
    (fun c => Nat.eqb c 2) (fun c => match c with 0 => [0; 1; 5; 6] | _ => [2; 3; 4] end%nat) lib_name lib_name lib_kind
    (fun f => Nat.eqb f 1) (fun f => match f with 3 => true | _ => false end%nat) (fun f => match f with 6 => 2 | _ => 1 end%nat) (fun _ => None) (fun _ t => t) (fun _ v => v) str_eqb (fun _ => false).
Definition lib_op (deferred : bool) : options := mkOptions (lit "id") deferred false false (fun u => Some u).
Definition lib_feature (f : nat) : XmlOutModel.feature :=
  XmlOutModel.mkF (lib_name f) false (match f with 1 | 3 | 4 => true | _ => false end%nat) false (match f with 0 | 2 | 4 => false | _ => true end%nat) (Nat.eqb f 1) false true
    (match f with 0 | 2 | 4 => [] | 6 => lit "lib:Item" | _ => lit "lib:Book" end%nat) false (Nat.eqb f 6).
Definition lib_writing : writing :=
  mkWriting (fun c => match c with 0 => lit "lib:Library" | 1 => lit "lib:Book" | _ => lit "lib:Item" end%nat) lib_feature
    (fun k => match k with 1 => lit "//@books.0" | 2 => lit "//@books.1" | 3 => lit "//@books.2" | _ => lit "/" end%nat) [(lit "lib", lit "http://lib")].
Definition lib_doc : dobj str :=
  DObj 0 [] [(0%nat, DData (lit "A & B")); (5%nat, DLinks [2%nat]);
             (1%nat, DKids [DObj 1 [] [(2%nat, DData (lit "x<y")); (3%nat, DLinks [2; 1]%nat); (4%nat, DDatas [lit "u"; lit "v w"])];
                            DObj 1 [] [(2%nat, DData (lit "z")); (3%nat, DHrefs [(1%nat, lit "other.xml#/")])]])].
(** the first book refers to the third one and the second one to the third and the first *)
Definition shelf : dobj str :=
  DObj 0 [] [(1%nat, DKids [DObj 1 [] []; DObj 1 [] [(3%nat, DLinks [3; 1]%nat)]; DObj 1 [] []])].
(** the texts of the examples *)
Definition q (s : string) : str := map (fun c => if c =? 39 then 34 else c) (lit s).
Definition lib_text : str :=
  q "<?xml version='1.0' encoding='UTF-8'?>" ++ [10] ++
  q "<lib:Library xmlns:lib='http://lib' name='A &amp; B' best='#//@books.1'>" ++ [10] ++
  q "  <books title='x&lt;y' next='#//@books.1 #//@books.0'>" ++ [10] ++
  q "    <tags>u</tags>" ++ [10] ++ q "    <tags>v w</tags>" ++ [10] ++ q "  </books>" ++ [10] ++
  q "  <books title='z'>" ++ [10] ++ q "    <next href='other.xml#/'/>" ++ [10] ++ q "  </books>" ++ [10] ++ q "</lib:Library>" ++ [10].
Definition of_outcome {A} (o : outcome A) (d : A) : A := match o with Ok x => x | _ => d end.
Definition loaded (op : options) (t : str) : reader str := of_outcome (decode library op t) new_reader.
(** the text with some elements inside of a library *)
Definition in_library (s : string) : str :=
  q "<lib:Library xmlns:lib='http://lib' xmlns:xsi='http://www.w3.org/2001/XMLSchema-instance'>" ++ q s ++ q "</lib:Library>".
