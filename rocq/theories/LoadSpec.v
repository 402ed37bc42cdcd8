(** What loading on demand is expected to do. *)
From Verif Require Import Base LoadModel.

Section Spec.
  Context (W : world).

  (** the document a resource stands for: its normalized URI *)
  Definition keyOf (s : state) (r : nat) : option text :=
    match uri s r with Some q => Some (norm W (raw W q)) | None => None end.
  Definition stands (s : state) (t : text) (r : nat) : bool :=
    match keyOf s r with Some k => Nat.eqb k t | None => false end.
  (** the resource known for a URI: that of a package, or the first resource of the set for its document *)
  Definition answer (s : state) (p : ptr) : option nat :=
    match pack W (raw W p) with
    | Some r => Some r
    | None => find (stands s (norm W (raw W p))) (resources s)
    end.
  (** no two resources of the set stand for one document *)
  Definition distinct (s : state) : Prop :=
    forall r r' k, In r (resources s) -> In r' (resources s) -> keyOf s r = Some k -> keyOf s r' = Some k -> r = r'.

  (** decoders only ask for documents of a finite collection [U] (which may refer to each other at will) *)
  Definition closed (U : list text) : Prop :=
    forall t t' d c l p, source W t = Document d -> codec W t' = Some c -> c d = Some l -> In (Demand p) l ->
      In (norm W (raw W (trim W p))) U.

  (** [n]: resources below it are not of the set, and those of packages are among them *)
  Definition packaged (n : nat) : Prop := forall t r, pack W t = Some r -> (r < n)%nat.

  (** programs that give every resource of the set a URI, do not move or remove resources while the URI cache is used, and do not unload packages *)
  Definition careful (n : nat) (s : state) (c : call) : Prop :=
    match c with
    | AddNew | SetURI _ None => False
    | SetURI r (Some _) | RemoveResource r => (r < next s)%nat /\ cache s = None
    | Load r | Put r _ _ => (r < next s)%nat
    | Unload r => (n <= r < next s)%nat
    | _ => True
    end.
  (** programs that only ask, load and unload *)
  Definition asking (n : nat) (s : state) (c : call) : Prop :=
    match c with
    | GetResource _ _ | GetEObject _ _ | UseCache _ => True
    | Load r | Put r _ _ => (r < next s)%nat
    | Unload r => (n <= r < next s)%nat
    | _ => False
    end.
  (** programs that do not unload *)
  Definition keeping (n : nat) (s : state) (c : call) : Prop :=
    careful n s c /\ match c with Unload _ => False | _ => True end.

  (** the states between the calls of a program *)
  Inductive later (allowed : state -> call -> Prop) (s : state) : state -> Prop :=
  | l_refl : later allowed s s
  | l_call s1 c fuel s2 x : later allowed s s1 -> allowed s1 c -> perform W fuel s1 c = Done s2 x -> later allowed s s2.
  Definition reach (allowed : nat -> state -> call -> Prop) (n : nat) (s : state) : Prop := later (allowed n) (empty n) s.

  (** what the decoder of a document puts into its resource: every object once, in the order of the document *)
  Fixpoint contents (seen : list nat) (l : list action) : list (fragment * nat) :=
    match l with
    | [] => []
    | AddRoot f o :: l' => if existsb (Nat.eqb o) seen then contents seen l' else (f, o) :: contents (o :: seen) l'
    | _ :: l' => contents seen l'
    end.
  Definition complaints (l : list action) : list diagnostic :=
    flat_map (fun a => match a with Complain c => [Reported c] | _ => [] end) l.
  (** the text [t] of a resource is read as the actions [l] *)
  Definition reads (t : text) (l : list action) : Prop :=
    exists d c, source W (norm W t) = Document d /\ codec W t = Some c /\ c d = Some l.

  (** what became of a document that was asked for *)
  Definition outcome (s : state) (t : text) (r : nat) : Prop :=
    loaded s r = true \/ errors s r <> [] \/ source W t = Nothing.
End Spec.
