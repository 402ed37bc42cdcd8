(** C07: compact objects against a record of independent fields. *)
From Verif Require Import Base CompactModel CompactSpec CompactProofs.

(** Every history of writes succeeds and reads back as the record, provided the container is not
    changed while the properties field is set (false otherwise, see below). *)
Theorem C07_compact_object_is_record_partial :
  forall ops, Forall op_valid ops -> props_ok view0 ops ->
  exists o, crun Initialize ops = Some o /\ reads_as o (vrun view0 ops).
Proof. exact compact_is_record. Qed.
Print Assumptions C07_compact_object_is_record_partial.

(** Setting the container erases the properties field: the flag mask 0x00FF drops bit 8. *)
Theorem C07_compact_object_is_record_refuted :
  exists ops o, Forall op_valid ops /\ crun Initialize ops = Some o /\
    field (vrun view0 ops) properties_flag = AVal 7 /\ getField o properties_flag = Some ANil.
Proof.
  exists [SetField properties_flag (AVal 7); SetContainer (AVal 1) 3].
  eexists; split; [repeat (apply Forall_cons || apply Forall_nil); cbn; auto 12|]. split; [reflexivity|]. split; reflexivity.
Qed.
Print Assumptions C07_compact_object_is_record_refuted.

(** ... and can corrupt the other fields: the class then reads as the packed array. *)
Theorem C07_other_field_corrupted_refuted :
  exists ops o, Forall op_valid ops /\ crun Initialize ops = Some o /\
    field (vrun view0 ops) class_flag = AVal 5 /\ getField o class_flag = Some (AArr [AVal 5; AVal 7]).
Proof.
  exists [SetField class_flag (AVal 5); SetField properties_flag (AVal 7); SetContainer ANil 3].
  eexists; split; [repeat (apply Forall_cons || apply Forall_nil); cbn; auto 12|]. split; [reflexivity|]. split; reflexivity.
Qed.
Print Assumptions C07_other_field_corrupted_refuted.

(** The variant with its own container field loses the properties in the same way. *)
Theorem C07_container_variant_refuted :
  exists o, getField (base o) properties_flag = Some (AVal 7) /\
    getField (base (CCSetInternalContainer o (AVal 1) 3)) properties_flag = Some ANil.
Proof.
  exists (mkCC (mkC (AVal 7) (Z.lor 257 (Z.shiftl (-1) 16))) ANil). split; reflexivity.
Qed.
Print Assumptions C07_container_variant_refuted.

(** ESetProxyURI(nil) turns every object into a proxy instead of clearing the proxy. *)
Theorem C07_clearing_proxy_refuted :
  forall ops o, Forall op_valid ops -> props_ok view0 ops -> crun Initialize ops = Some o ->
  exists o', ESetProxyURI o None = Some o' /\ EIsProxy o' = true.
Proof.
  intros ops o Hv Hp Ho. destruct (run_ok _ _ ops Inv_init Hv Hp) as (o1 & Ho1 & Hi & _).
  replace o1 with o in * by congruence.
  destruct (setField_ok o _ proxy_flag (uri_any None) Hi) as (o' & E & (Hh & _) & _); [cbn; auto|].
  exists o'. split; [exact E|]. unfold EIsProxy. rewrite Hh by (cbn; auto). reflexivity.
Qed.
Print Assumptions C07_clearing_proxy_refuted.

Definition C07_history : list cop :=
  [SetField class_flag (AVal 5); SetContainer (AVal 1) 3; SetField resource_flag (AVal 2); SetDeliver false;
   SetField class_flag ANil; SetField properties_flag (AVal 9); SetField container_flag ANil].
Example C07_case_hypotheses : Forall op_valid C07_history /\ props_ok view0 C07_history.
Proof. split; [repeat (apply Forall_cons || apply Forall_nil); cbn; auto 12|cbn; repeat split; auto]. Qed.
Example C07_case_result :
  exists o, crun Initialize C07_history = Some o /\ getField o resource_flag = Some (AVal 2)
    /\ getField o properties_flag = Some (AVal 9) /\ getField o class_flag = Some ANil
    /\ EDeliver o = false /\ EInternalContainerFeatureID o = 3.
Proof. eexists; split; [reflexivity|]. repeat split; reflexivity. Qed.
