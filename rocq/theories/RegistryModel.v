(** Model of ecore/epackageregistry_impl.go and ecore/ecodecregistry_impl.go.

    Namespace URIs and codecs are opaque; a package is an opaque value with a namespace URI and a factory.
    Registries are identified by the order of their creation; a delegate exists before its child, because
    it is passed to the constructor and never changed afterwards. *)
From Verif Require Import Base.

Section PackageRegistry.
  (** package, namespace URI, factory *)
  Context {Pack Factory : Type} (nsURI : Pack -> nat) (factory : Pack -> Factory).

  (** value stored in the map: nil, a package, or a supplier function (assumed pure; it may return nil) *)
  Inductive entry := ENil | EPack (p : Pack) | ESupplier (f : unit -> option Pack).

  (** epackageregistry_impl.go:12-30 *)
  Record preg := mkReg { packages : nat -> option entry; delegate : option nat }.
  Definition pworld := list preg.

  Inductive rop :=
  | NewRegistry (d : option nat)
  | RegisterPackage (r : nat) (p : Pack)
  | UnregisterPackage (r : nat) (p : Pack)
  | PutPackage (r : nat) (k : nat) (p : option Pack)
  | PutSupplier (r : nat) (k : nat) (f : unit -> option Pack)
  | RemoveKey (r : nat) (k : nat).

  Definition set_key (k : nat) (e : option entry) (g : preg) : preg :=
    mkReg (fun k' => if Nat.eqb k' k then e else packages g k') (delegate g).

  (** update registry number [r] *)
  Fixpoint upd_reg (w : pworld) (r : nat) (f : preg -> preg) : pworld :=
    match w, r with
    | [], _ => []
    | g :: w', O => f g :: w'
    | g :: w', S r' => g :: upd_reg w' r' f
    end.

  (** epackageregistry_impl.go:17-50 *)
  Definition rstep (w : pworld) (o : rop) : pworld :=
    match o with
    | NewRegistry d =>
        (* the delegate is an existing registry or none *)
        let d' := match d with Some n => if (n <? length w)%nat then Some n else None | None => None end in
        w ++ [mkReg (fun _ => None) d']
    | RegisterPackage r p => upd_reg w r (set_key (nsURI p) (Some (EPack p)))
    | UnregisterPackage r p => upd_reg w r (set_key (nsURI p) None)
    | PutPackage r k p => upd_reg w r (set_key k (Some (match p with Some q => EPack q | None => ENil end)))
    | PutSupplier r k f => upd_reg w r (set_key k (Some (ESupplier f)))
    | RemoveKey r k => upd_reg w r (set_key k None)
    end.
  Definition rrun (w : pworld) (ops : list rop) : pworld := fold_left rstep ops w.

  (** epackageregistry_impl.go:52-61 *)
  Definition doGetPackage (g : preg) (k : nat) : option Pack :=
    match packages g k with
    | Some (EPack p) => Some p
    | Some (ESupplier f) => f tt
    | _ => None
    end.

  (** epackageregistry_impl.go:63-70; [None] out of fuel, [Some None] Go's nil *)
  Fixpoint GetPackage (fuel : nat) (w : pworld) (r k : nat) : option (option Pack) :=
    match fuel with
    | O => None
    | S fuel' =>
        match nth_error w r with
        | None => Some None
        | Some g =>
            match doGetPackage g k with
            | Some p => Some (Some p)
            | None => match delegate g with
                      | Some d => GetPackage fuel' w d k
                      | None => Some None
                      end
            end
        end
    end.

  (** epackageregistry_impl.go:72-79 *)
  Fixpoint GetFactory (fuel : nat) (w : pworld) (r k : nat) : option (option Factory) :=
    match fuel with
    | O => None
    | S fuel' =>
        match nth_error w r with
        | None => Some None
        | Some g =>
            match doGetPackage g k with
            | Some p => Some (Some (factory p))
            | None => match delegate g with
                      | Some d => GetFactory fuel' w d k
                      | None => Some None
                      end
            end
        end
    end.
End PackageRegistry.
Arguments preg : clear implicits.
Arguments rop : clear implicits.
Arguments entry : clear implicits.

(** ** ecore/ecodecregistry_impl.go *)
Section CodecRegistry.
  Context {Codec : Type}.
  (** a string is the list of its bytes *)
  Definition str := list nat.
  Definition str_eqb (a b : str) : bool := if list_eq_dec Nat.eq_dec a b then true else false.
  Definition dot : nat := 46.
  (** DEFAULT_EXTENSION = "*", ecore/ecodecregistry.go:13 *)
  Definition DEFAULT_EXTENSION : str := [42%nat].

  (** Go maps: association by key; a present key may hold a nil codec ([None]) *)
  Definition cmap := str -> option (option Codec).
  (** ecodecregistry_impl.go:14-33; the chain of delegates, nearest first *)
  Record creg := mkCReg { protocolToCodec : cmap; extensionToCodec : cmap }.

  (** strings.LastIndex(p, ".") and p[ndx+1:] *)
  Fixpoint extension (p : str) : option str :=
    match p with
    | [] => None
    | c :: p' => match extension p' with
                 | Some e => Some e
                 | None => if Nat.eqb c dot then Some p' else None
                 end
    end.

  (** ecodecregistry_impl.go:35-54; [chain] is the registry followed by its delegates *)
  Fixpoint GetCodec (chain : list creg) (scheme path : str) : option Codec :=
    match chain with
    | [] => None
    | r :: ds =>
        match protocolToCodec r scheme with
        | Some c => c
        | None =>
            match (match extension path with Some e => extensionToCodec r e | None => None end) with
            | Some c => c
            | None => match extensionToCodec r DEFAULT_EXTENSION with
                      | Some c => c
                      | None => GetCodec ds scheme path
                      end
            end
        end
    end.
End CodecRegistry.
Arguments creg : clear implicits.
Arguments cmap : clear implicits.
