(** C18, C79: round trip through the binary codec. *)
From Coq Require Import String.
From Verif Require Import Base Chars BinaryModel BinarySpec BinaryProofs BinaryExamples.
Local Open Scope string_scope.
Local Open Scope list_scope.
Local Open Scope Z_scope.

(** C79: for every graph and metamodel in [good], with or without object identifiers, encoding succeeds
    and decoding what was written gives a copy of the graph. *)
Theorem C79_round_trip : forall (D DT U I : Type) (E : env D DT U) (heap : nat -> object D U I) (with_ids : bool)
    (all contents : list nat), good E heap all contents ->
  forall n, (length all < n)%nat ->
  exists ts contents' objects',
    encode_resource E heap with_ids n contents = Done ts
    /\ decode_resource E ts = Done (contents', objects')
    /\ graph_copy E heap with_ids contents contents' objects'.
Proof.
  intros D DT U I E heap with_ids all contents G n Hn.
  destruct (resource_total E heap with_ids all contents G n Hn) as [ts Hts].
  destruct (resource_round E heap with_ids all contents G n ts Hts) as (c & o & H). exists ts, c, o. split; [exact Hts|exact H].
Qed.
Print Assumptions C79_round_trip.

Example C79_example : good library_env library_heap [0; 1; 2; 3]%nat [0]%nat.
Proof. exact library_good. Qed.

Example C79_example_copy : library_copy = Done ([Some 0%nat],
  [ mkD 0 None (Some 100%nat)
      [ (0%nat, VPrim (PStr (lit "city"))); (1%nat, VObjs [Some 1%nat; Some 2%nat]); (2%nat, VObj (Some 2%nat)) ];
    mkD 1 None (Some 101%nat)
      [ (0%nat, VPrim (PStr (lit "first"))); (1%nat, VData (lit "novel")); (2%nat, VDatas [lit "old"; lit "long"]);
        (3%nat, VObjs [Some 2%nat; Some 3%nat]) ];
    mkD 1 None None [ (1%nat, VData (lit "novel")) ];
    mkD 1 (Some (7%nat, lit "//@books.0")) None [] ]).
Proof. vm_compute. reflexivity. Qed.

(** C18 asks this of every graph and every metamodel.  It holds of those in [good]. *)
Theorem C18_partial : forall (D DT U I : Type) (E : env D DT U) (heap : nat -> object D U I) (with_ids : bool)
    (all contents : list nat), good E heap all contents ->
  forall n ts, encode_resource E heap with_ids n contents = Done ts ->
  exists contents' objects',
    decode_resource E ts = Done (contents', objects')
    /\ graph_copy E heap with_ids contents contents' objects'.
Proof.
  intros D DT U I E heap with_ids all contents G n ts Hts. exact (resource_round E heap with_ids all contents G n ts Hts).
Qed.
Print Assumptions C18_partial.

(** It is false in general.  A feature without a name is written in a way the decoder cannot read. *)
Theorem C18_refuted_unnamed_feature : exists ts,
  encode_resource unnamed_env unnamed_heap false 2 [0%nat] = Done ts /\ decode_resource unnamed_env ts = Fail.
Proof. eexists. split; vm_compute; reflexivity. Qed.
Print Assumptions C18_refuted_unnamed_feature.

(** A proxy held by a reference that does not resolve proxies is written without its URI: an ordinary,
    empty object is read back. *)
Theorem C18_refuted_plain_proxy : exists ts,
  encode_resource plain_env plain_heap false 3 [0%nat] = Done ts
  /\ oproxy (plain_heap 1) = Some (7%nat, lit "/")
  /\ decode_resource plain_env ts = Done ([Some 0%nat], [ mkD 0 None None [(0%nat, VObj (Some 1%nat))]; mkD 0 None None [] ]).
Proof. eexists. split; [vm_compute; reflexivity|]. split; [reflexivity|vm_compute; reflexivity]. Qed.
Print Assumptions C18_refuted_plain_proxy.

(** The location of a date is lost. *)
Theorem C18_refuted_date : exists ts,
  encode_resource date_env date_heap false 2 [0%nat] = Done ts
  /\ ovalue (date_heap 0) 0 = Some (VPrim (PDate 1000 3600))
  /\ decode_resource date_env ts = Done ([Some 0%nat], [ mkD 0 None None [(0%nat, VPrim (PDate 1000 0))] ]).
Proof. eexists. split; [vm_compute; reflexivity|]. split; [reflexivity|vm_compute; reflexivity]. Qed.
Print Assumptions C18_refuted_date.

(** A referenced object of a resource without URI is read back as an ordinary, empty object. *)
Theorem C18_refuted_no_uri : exists ts,
  encode_resource nowhere_env nowhere_heap false 3 [0%nat] = Done ts
  /\ oforeign (nowhere_heap 1) = Some (None, lit "//@x")
  /\ decode_resource nowhere_env ts = Done ([Some 0%nat], [ mkD 0 None None [(0%nat, VObj (Some 1%nat))]; mkD 0 None None [] ]).
Proof. eexists. split; [vm_compute; reflexivity|]. split; [reflexivity|vm_compute; reflexivity]. Qed.
Print Assumptions C18_refuted_no_uri.
