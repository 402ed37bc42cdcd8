(** C43: registries. *)
From Verif Require Import Base RegistryModel RegistrySpec RegistryProofs.

(** After any history of creations and registrations, GetPackage answers what the last local registration
    of the key gives, otherwise what the delegate answers, otherwise nil; it always terminates. *)
Theorem C43_package_lookup :
  forall (Pack : Type) (nsURI : Pack -> nat) ops fuel r k,
  well_formed 0 ops -> (r < created ops)%nat -> (r < fuel)%nat ->
  exists x, GetPackage fuel (rrun nsURI [] ops) r k = Some x /\ finds nsURI ops r k x.
Proof. exact @lookup_finds. Qed.
Print Assumptions C43_package_lookup.

Theorem C43_lookup_deterministic :
  forall (Pack : Type) (nsURI : Pack -> nat) ops r k x y,
  finds nsURI ops r k x -> finds nsURI ops r k y -> x = y.
Proof. exact @finds_fun. Qed.
Print Assumptions C43_lookup_deterministic.

(** GetFactory is the factory of the package GetPackage returns. *)
Theorem C43_factory_lookup :
  forall (Pack Factory : Type) (factory : Pack -> Factory) fuel w r k,
  GetFactory factory fuel w r k = option_map (option_map factory) (GetPackage fuel w r k).
Proof. exact (fun P F f => @factory_of_package P F f). Qed.
Print Assumptions C43_factory_lookup.

(** A registration in [c] is invisible to every registry that does not delegate, directly or not, to [c]. *)
Theorem C43_registration_is_local :
  forall (Pack : Type) (nsURI : Pack -> nat) ops o c r k fuel,
  well_formed 0 (ops ++ [o]) -> target_of o = Some c -> ~ reaches ops r c ->
  (r < created ops)%nat -> (r < fuel)%nat ->
  GetPackage fuel (rrun nsURI [] (ops ++ [o])) r k = GetPackage fuel (rrun nsURI [] ops) r k.
Proof. exact @lookup_isolated. Qed.
Print Assumptions C43_registration_is_local.

(** Codec lookup: the nearest registry with an applicable entry (scheme, then extension, then default)
    decides; nil when there is none. *)
Theorem C43_codec_lookup :
  forall (Codec : Type) (pre : list (creg Codec)) r post scheme path c,
  (forall q, In q pre -> applicable q scheme path = None) -> applicable r scheme path = Some c ->
  GetCodec (pre ++ r :: post) scheme path = c.
Proof. exact @codec_first. Qed.
Print Assumptions C43_codec_lookup.

Theorem C43_codec_lookup_none :
  forall (Codec : Type) (chain : list (creg Codec)) scheme path,
  (forall q, In q chain -> applicable q scheme path = None) -> GetCodec chain scheme path = None.
Proof. exact @codec_none. Qed.
Print Assumptions C43_codec_lookup_none.

(** The extension used is the part of the path after its last dot. *)
Theorem C43_extension : forall p e, extension p = Some e <-> is_extension p e.
Proof. exact extension_spec. Qed.
Print Assumptions C43_extension.

Definition C43_ops : list (rop nat) :=
  [NewRegistry None; NewRegistry (Some 0%nat); RegisterPackage 0 7%nat; RegisterPackage 1 8%nat;
   PutSupplier 1 7%nat (fun _ => None)].
Example C43_case_wf : well_formed 0 C43_ops.
Proof. cbn. lia. Qed.
Example C43_case_delegate : GetPackage 3 (rrun (fun p => p) [] C43_ops) 1 7 = Some (Some 7%nat).
Proof. reflexivity. Qed.
Example C43_case_local : ~ reaches C43_ops 0 1 /\ GetPackage 3 (rrun (fun p => p) [] C43_ops) 0 8 = Some None.
Proof. split; [|reflexivity]. intro H. inversion H; subst. discriminate. Qed.
Example C43_case_extension : extension [97; 46; 98; 46; 99]%nat = Some [99]%nat.
Proof. reflexivity. Qed.
