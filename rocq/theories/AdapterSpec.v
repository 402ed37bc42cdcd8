(** What the properties of the content adapter talk about. *)
From Verif Require Import Base ListModel ListSpec GraphModel GraphSpec AdapterModel.

(** x is directly contained in the object, or in the resource *)
Definition edge (s : state) (n : notifier) (x : obj) : Prop :=
  match n with
  | NObj c => container s x = Some c
  | NRes r => internalResource s x = Some r
  end.

(** the roots, and all that they contain directly or not *)
Inductive covered (s : state) (roots : notifier -> Prop) : notifier -> Prop :=
| cov_root n : roots n -> covered s roots n
| cov_child p x : covered s roots p -> edge s p x -> covered s roots (NObj x).

(** the adapter is where it should be *)
Definition exact (s : state) (roots : notifier -> Prop) (A : flags) : Prop :=
  forall n, A n = true <-> covered s roots n.

(** no root is directly inside something that carries the adapter *)
Definition outermost (s : state) (roots : notifier -> Prop) (A : flags) : Prop :=
  forall x p, roots (NObj x) -> edge s p x -> A p = false.

(** x is neither contained nor in a resource *)
Definition free (s : state) (x : obj) : Prop := container s x = None /\ internalResource s x = None.

(** Bulk additions add free objects, and the object replaced by Set in the contents of a resource has
    no container.  See the refutations for the other calls. *)
Definition calm_args (s : state) (data : list obj) (p : op nat) : Prop :=
  match p with
  | AddAll (Ext l) | InsertAll _ (Ext l) => forall x, In x l -> In x data \/ free s x
  | _ => True
  end.
Definition calm (s : state) (p : gop) : Prop :=
  match p with
  | OList o f q => calm_args s (slot s o f) q
  | OContents r q =>
      calm_args s (contents s r) q /\
      match q with
      | SetAt i e => forall y, zget (contents s r) i = Some y -> y = e \/ container s y = None
      | _ => True
      end
  | _ => True
  end.

(** A history of an adapter: it is put on notifiers, the roots, or taken off them, and the graph is edited.
    [others] are the notifiers with other adapters. *)
Section History.
  Context (M : metamodel) (others : notifier -> bool).
  Inductive watched : state -> flags -> (notifier -> Prop) -> Prop :=
  | w_start s : reachable_safe M s -> watched s (fun _ => false) (fun _ => False)
  | w_attach s A roots n fuel A' : watched s A roots -> A n = false ->
      addAdapter M s fuel A n = Some A' -> watched s A' (fun m => m = n \/ roots m)
  | w_detach s A roots n fuel A' : watched s A roots -> roots n -> outermost s roots A ->
      removeAdapter M s fuel A n = Some A' -> watched s A' (fun m => m <> n /\ roots m)
  | w_step s A roots p fuel s' A' : watched s A roots -> legal M s p -> safe_call M s p -> calm s p ->
      outermost s roots A -> astep M others fuel s A p = Some (s', A') -> watched s' A' roots.

  (** the same of an adapter put on one object and left there *)
  Inductive followed (o : obj) : state -> flags -> Prop :=
  | f_attach s fuel A : reachable_safe M s -> addAdapter M s fuel (fun _ => false) (NObj o) = Some A -> followed o s A
  | f_step s A p fuel s' A' : followed o s A -> legal M s p -> safe_call M s p -> calm s p ->
      astep M others fuel s A p = Some (s', A') -> followed o s' A'.
End History.
