(** What the properties of fragments talk about. *)
From Verif Require Import Base Chars StrconvModel FragmentModel.
Open Scope Z_scope.

(** the value of feature [f] of [c] holds [o] *)
Definition holds (w : world) (c f o : nat) : Prop :=
  In f (features w c) /\
  if f_many w f then exists l, get w c f = VMany l /\ In o l /\ zlen l < 2 ^ 63 else get w c f = VSingle (Some o).

(** containment is consistent: see C05, C08, C09 and C20 *)
Record consistent (w : world) : Prop := {
  roots : forall o, direct w o = true <-> In o (contents w);
  size : zlen (contents w) < 2 ^ 63;
  held : forall o c, container w o = Some c -> exists f, containing w o = Some f /\ holds w c f o;
  names : forall o f g, In f (features w o) -> In g (features w o) -> f_name w f = f_name w g -> f = g;
  owned : forall o c, container w o = Some c -> model_element w c = true -> In o (children w c) /\ zlen (children w c) < 2 ^ 63 }.

(** [o] is in the resource: a root or below a root *)
Inductive within (w : world) : nat -> Prop :=
| in_root o : direct w o = true -> within w o
| in_child o c : container w o = Some c -> within w c -> within w o.

(** a feature name which a segment can hold *)
Definition fine_name (w : world) (f : nat) : Prop :=
  ~ In 47 (f_name w f) /\ (f_many w f = true \/ ~ In 46 (f_name w f) \/ digit w (last (f_name w f) 0) = false).
(** the text after the last point is not a number *)
Definition no_count (n : str) : Prop := forall a b, n = a ++ 46 :: b -> ~ In 46 b -> snd (atoi b) = false.
(** the children before [o] *)
Fixpoint until (o : nat) (xs : list nat) : list nat :=
  match xs with
  | [] => []
  | y :: xs' => if Nat.eq_dec y o then [] else y :: until o xs'
  end.
Definition label_dec (l l' : label) : {l = l'} + {l <> l'}.
Proof. decide equality; apply (list_eq_dec Z.eq_dec). Defined.
(** number of siblings before [o] with the same label *)
Definition before (w : world) (c o : nat) : Z :=
  zlen (filter (fun y => if label_dec (label_of w y) (label_of w o) then true else false) (until o (children w c))).

(** the segment of [o] below [c] can be read back *)
Definition addressable (w : world) (c f o : nat) : Prop :=
  if model_element w c then
    match label_of w o with
    | Named n => forallb path_safe n = true /\ hd 0 n <> 64 /\ (before w c o = 0 -> no_count n)
    | Annotation s => (forall x, In x s -> 0 <= x < 256) /\ 0 < before w c o
    | Other => fine_name w f
    end
  else fine_name w f.

(** the same, for the path from the first root above [o] *)
Inductive addressable_path (w : world) : nat -> Prop :=
| ap_root o : direct w o = true -> addressable_path w o
| ap_child o c f : direct w o = false -> container w o = Some c -> containing w o = Some f -> addressable w c f o -> addressable_path w c -> addressable_path w o.

(** texts of ids which are not taken for paths or cut *)
Definition fine_id (id : str) : Prop := id <> [] /\ hd 0 id <> 47 /\ last id 0 <> 63.
(** the ids of [o], if any, lead to [o] *)
Definition identified (w : world) (o : nat) : Prop :=
  match object_id w o with
  | _ :: _ => fine_id (object_id w o) /\
      match manager w with
      | Some (_, find) => find (object_id w o) = Some o
      | None => In o (all_contents w) /\ forall x, In x (all_contents w) -> object_id w x = object_id w o -> x = o
      end
  | [] => match manager w with
          | Some (getID, find) => forall id, getID o = Some id -> id = [] \/ (fine_id id /\ find id = Some o)
          | None => True
          end
  end.

(** [o] has an id of its own or from the id manager *)
Definition has_id (w : world) (o : nat) : Prop :=
  object_id w o <> [] \/ exists getID find id, manager w = Some (getID, find) /\ getID o = Some id /\ id <> [].

(** [o] is strictly below [a], every step being addressable *)
Inductive below (w : world) (a : nat) : nat -> Prop :=
| bl_child o f : container w o = Some a -> containing w o = Some f -> addressable w a f o -> below w a o
| bl_step o c f : c <> a -> container w o = Some c -> containing w o = Some f -> addressable w c f o -> below w a c -> below w a o.
