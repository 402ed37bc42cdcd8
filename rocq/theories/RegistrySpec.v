(** Specification of registry lookup from the history of registrations. *)
From Verif Require Import Base RegistryModel.

Section RegistrySpec.
  Context {Pack : Type} (nsURI : Pack -> nat).

  (** number of registries created by a history, delegate given to registry [r] *)
  Fixpoint created (ops : list (rop Pack)) : nat :=
    match ops with
    | [] => 0
    | NewRegistry _ :: r => S (created r)
    | _ :: r => created r
    end.

  (** what the last registration call about (r,k) stored; the history is given latest first *)
  Fixpoint last_entry (latest_first : list (rop Pack)) (r k : nat) : option (entry Pack) :=
    match latest_first with
    | [] => None
    | o :: rest =>
        match o with
        | RegisterPackage r' p => if Nat.eqb r' r && Nat.eqb (nsURI p) k then Some (EPack p) else last_entry rest r k
        | UnregisterPackage r' p => if Nat.eqb r' r && Nat.eqb (nsURI p) k then None else last_entry rest r k
        | PutPackage r' k' p =>
            if Nat.eqb r' r && Nat.eqb k' k then Some (match p with Some q => EPack q | None => ENil end)
            else last_entry rest r k
        | PutSupplier r' k' f => if Nat.eqb r' r && Nat.eqb k' k then Some (ESupplier f) else last_entry rest r k
        | RemoveKey r' k' => if Nat.eqb r' r && Nat.eqb k' k then None else last_entry rest r k
        | NewRegistry _ => last_entry rest r k
        end
    end.
  Definition denotes (e : option (entry Pack)) : option Pack :=
    match e with Some (EPack p) => Some p | Some (ESupplier f) => f tt | _ => None end.

  (** delegate of registry [r] *)
  Fixpoint delegate_of (ops : list (rop Pack)) (n r : nat) : option nat :=
    match ops with
    | [] => None
    | NewRegistry d :: rest =>
        if Nat.eqb n r then match d with Some m => if (m <? n)%nat then Some m else None | None => None end
        else delegate_of rest (S n) r
    | _ :: rest => delegate_of rest n r
    end.

  (** the answer of a lookup: local entry if there is one, otherwise that of the delegate, otherwise nil *)
  Inductive finds (ops : list (rop Pack)) : nat -> nat -> option Pack -> Prop :=
  | finds_local r k p : denotes (last_entry (rev ops) r k) = Some p -> finds ops r k (Some p)
  | finds_delegate r k d x : denotes (last_entry (rev ops) r k) = None -> delegate_of ops 0 r = Some d ->
      finds ops d k x -> finds ops r k x
  | finds_none r k : denotes (last_entry (rev ops) r k) = None -> delegate_of ops 0 r = None -> finds ops r k None.

  (** calls on a registry are made after its creation *)
  Fixpoint well_formed (n : nat) (ops : list (rop Pack)) : Prop :=
    match ops with
    | [] => True
    | NewRegistry _ :: rest => well_formed (S n) rest
    | RegisterPackage r _ :: rest | UnregisterPackage r _ :: rest | PutPackage r _ _ :: rest
    | PutSupplier r _ _ :: rest | RemoveKey r _ :: rest => (r < n)%nat /\ well_formed n rest
    end.

  (** [r'] is [r] or one of its delegates *)
  Inductive reaches (ops : list (rop Pack)) : nat -> nat -> Prop :=
  | reaches_refl r : reaches ops r r
  | reaches_step r d r' : delegate_of ops 0 r = Some d -> reaches ops d r' -> reaches ops r r'.
End RegistrySpec.

(** codec lookup: the first registry of the chain that has an applicable entry decides *)
Definition applicable {Codec} (r : creg Codec) (scheme path : str) : option (option Codec) :=
  match protocolToCodec r scheme with
  | Some c => Some c
  | None => match (match extension path with Some e => extensionToCodec r e | None => None end) with
            | Some c => Some c
            | None => extensionToCodec r DEFAULT_EXTENSION
            end
  end.
Definition is_extension (p e : str) : Prop := exists q, p = q ++ dot :: e /\ ~ In dot e.
