(** Property theorems: XML text (C35, C69, C70). *)
From Coq Require Import String.
From Verif Require Import Base Chars XmlOutModel XmlOutSpec XmlOutProofs XmlOutProofs2.
Open Scope Z_scope.

(** A small package: a library with a name, tags and books; a book has a title and an author somewhere else. *)
Definition attr1 := mkF (lit "name") false false false false false false true (lit "EString") false false.
Definition tags := mkF (lit "tags") false true false false false false true (lit "EString") false false.
Definition books := mkF (lit "books") false true false true true false true (lit "lib:Book") false false.
Definition author := mkF (lit "author") false false false true false false true (lit "lib:Person") false false.
Definition here (c : str) := mkT c false InThis false (Some (lit "1")) [] [].
Definition away (c h : str) := mkT c false Elsewhere true None h [].
Definition book : obj := mkO (here (lit "lib:Novel")) [mkS attr1 true (VData (lit "a<b")); mkS author true (VRef (away (lit "lib:Person") (lit "p.xml#//@x")))].
Definition library (ts : list (option str)) : obj := mkO (here (lit "lib:Library")) [mkS attr1 true (VData (lit "x")); mkS tags true (VDatas ts); mkS books true (VChildren [Some book; None])].

(** C35, proved part: a document is well-formed when the class is no document root, values have the types of their features and every text
    which the encoder writes without escaping it is free of special characters. Missing: other objects, see below. *)
Theorem C35_well_formed_partial : forall version encoding attr n namespaces o,
  char_data [34] version -> char_data [34] encoding -> (attr = [] \/ name attr) -> name n ->
  (forall p u, In (p, u) namespaces -> name p /\ char_data [34] u) -> good o ->
  exists out, encodeTopObject version encoding attr (Some n) namespaces o = Some out /\ document out.
Proof. exact document_ok. Qed.
Print Assumptions C35_well_formed_partial.

Ltac a_text := apply char_data_plain; let c := fresh in let H := fresh in intros c H; vm_compute in H; repeat (destruct H as [<-|H]; [vm_compute; intuition discriminate|]); destruct H.
Example C35_well_formed_example : good (library [Some (lit "t1"); None]) /\
  encodeTopObject (lit "1.0") (lit "UTF-8") (lit "id") (Some (lit "lib:Library")) [(lit "xmlns:lib", lit "l")] (library [Some (lit "t1"); None]) = Some (
    lit "<?xml version=""1.0"" encoding=""UTF-8""?>" ++ [10] ++ lit "<lib:Library xmlns:lib=""l"" id=""1"" name=""x"">" ++ [10] ++
    lit "  <tags>t1</tags>" ++ [10] ++ lit "  <tags xsi:nil=""true""/>" ++ [10] ++
    lit "  <books xsi:type=""lib:Novel"" id=""1"" name=""a&lt;b"">" ++ [10] ++ lit "    <author href=""p.xml#//@x""/>" ++ [10] ++ lit "  </books>" ++ [10] ++ lit "</lib:Library>" ++ [10]).
Proof.
  assert (H : forall c, In c [lit "lib:Novel"; lit "lib:Library"] -> good_target (here c)).
  { intros c I. cbn in I. repeat split; cbn; try (apply cd_nil); [|intros id [= <-]; a_text]. destruct I as [<-|[<-|[]]]; a_text. }
  assert (GB : good book).
  { constructor; [apply H; cbn; auto| | |].
    - intros f b v [[= <- <- <-]|[[= <- <- <-]|[]]]; (split; [a_name|]); cbn; [eauto|]. right. eexists. split; [reflexivity|]. repeat split; cbn; try (apply cd_nil); try a_text. discriminate.
    - intros f b o [[=]|[[=]|[]]].
    - intros f b os o [[=]|[[=]|[]]]. }
  split; [|vm_compute; reflexivity].
  constructor; [apply H; cbn; auto| | |].
  - intros f b v [[= <- <- <-]|[[= <- <- <-]|[[= <- <- <-]|[]]]]; (split; [a_name|]); cbn; eauto.
    eexists. split; [reflexivity|]. intros t [[= <-]|[[=]|[]]]. a_text.
  - intros f b o [[=]|[[=]|[[=]|[]]]].
  - intros f b os o [[=]|[[=]|[[= <- <- <-]|[]]]] [[= <-]|[[=]|[]]]. exact GB.
Qed.

(** C35 is false: the values of a many-valued attribute are written without escaping *)
Theorem C35_content_refuted : exists o out, encodeTopObject (lit "1.0") (lit "UTF-8") [] (Some (lit "lib:Library")) [] o = Some out /\ ~ document out.
Proof.
  exists (library [Some (lit "<")]). eexists. split; [vm_compute; reflexivity|]. intros D. apply document_followed in D.
  set (k := 70%nat). specialize (D (firstn k (match encodeTopObject (lit "1.0") (lit "UTF-8") [] (Some (lit "lib:Library")) [] (library [Some (lit "<")]) with Some x => x | None => [] end)) (skipn (S k) (match encodeTopObject (lit "1.0") (lit "UTF-8") [] (Some (lit "lib:Library")) [] (library [Some (lit "<")]) with Some x => x | None => [] end))).
  vm_compute in D. destruct (D eq_refl) as (c & b & E & N). injection E as <- _. congruence.
Qed.
Print Assumptions C35_content_refuted.

(** C35 is false: a document root has no tag, so its attributes and the end of its tag are written outside of any tag *)
Theorem C35_document_root_refuted : exists o out, good o /\ encodeTopObject (lit "1.0") (lit "UTF-8") [] None [] o = Some out /\
  out = lit "<?xml version=""1.0"" encoding=""UTF-8""?>" ++ [10] ++ lit " name=""x""/>" ++ [10] /\ ~ document out.
Proof.
  exists (mkO (here (lit "lib:DocumentRoot")) [mkS attr1 true (VData (lit "x"))]). eexists. split; [|split; [|split; [reflexivity|]]].
  - constructor.
    + repeat split; cbn; try (apply cd_nil); [a_text|]. intros id [= <-]. a_text.
    + intros f b v [[= <- <- <-]|[]]. split; [a_name|]. cbn. eauto.
    + intros f b o [[=]|[]].
    + intros f b os o [[=]|[]].
  - vm_compute. reflexivity.
  - intros D. apply document_two in D. vm_compute in D. lia.
Qed.
Print Assumptions C35_document_root_refuted.

(** C69: well-formedness, with the texts and the kind of the root as hypotheses; single-valued attributes may hold any text *)
Theorem C69_well_formed : forall version encoding attr n namespaces o,
  char_data [34] version -> char_data [34] encoding -> (attr = [] \/ name attr) -> name n ->
  (forall p u, In (p, u) namespaces -> name p /\ char_data [34] u) -> good o ->
  exists out, encodeTopObject version encoding attr (Some n) namespaces o = Some out /\ document out.
Proof. exact document_ok. Qed.
Print Assumptions C69_well_formed.

(** C70: the attribute value written for a text means that text and nothing else *)
Theorem C70_attribute_value : forall t, char_data [34] (escape t) /\ denotes (escape t) t /\ forall t', denotes (escape t) t' -> t' = t.
Proof. exact (fun t => conj (escape_good t) (conj (escape_denotes t) (denotes_unique _ _ (escape_denotes t)))). Qed.
Print Assumptions C70_attribute_value.

Example C70_attribute_value_example : escape (lit "a<""&amp;") = lit "a&lt;&#34;&amp;amp;".
Proof. reflexivity. Qed.
