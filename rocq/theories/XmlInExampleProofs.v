(** The example documents are valid. *)
From Coq Require Import String.
From Verif Require Import Base Chars StrconvModel FragmentModel FragmentSpec XmlTokenModel XmlInModel XmlInSpec XmlTree XmlInExample.
From Verif Require XmlOutModel XmlOutSpec.
Open Scope Z_scope.

Lemma name_ok : forall n, n <> [] -> forallb (fun c => negb (existsb (Z.eqb c) XmlOutSpec.special)) n = true -> XmlOutSpec.name n.
Proof.
  intros n N H. split; auto. intros c I J. rewrite forallb_forall in H. specialize (H c I). apply Bool.negb_true_iff in H.
  assert (existsb (Z.eqb c) XmlOutSpec.special = true) by (apply existsb_exists; exists c; split; auto; apply Z.eqb_refl). congruence.
Qed.
Lemma not_in : forall c s, existsb (Z.eqb c) s = false -> ~ In c s.
Proof. intros c s H I. assert (existsb (Z.eqb c) s = true) by (apply existsb_exists; exists c; split; auto; apply Z.eqb_refl). congruence. Qed.
Lemma all_chars : forall (p : Z -> bool) s, forallb p s = true -> forall c, In c s -> p c = true.
Proof. intros p s H. apply forallb_forall. auto. Qed.
Lemma plain_ok : forall extra s, forallb (fun c => allowed c && negb (existsb (Z.eqb c) ([60; 38; 13] ++ extra))) s = true -> plain extra s.
Proof.
  intros extra s H c I. rewrite forallb_forall in H. specialize (H c I). apply Bool.andb_true_iff in H. destruct H as [A B]. apply Bool.negb_true_iff in B. apply not_in in B. split; auto. split; intros J; apply B; apply in_or_app; auto.
Qed.
Lemma no_end : forall s, existsb (Z.eqb 62) s = false -> ~ exists a b, s = a ++ [93; 93; 62] ++ b.
Proof. intros s H (a & b & ->). apply not_in in H. apply H. apply in_or_app. right. cbn. auto. Qed.

Ltac named := split; [apply name_ok; [discriminate|vm_compute; reflexivity]|apply not_in; vm_compute; reflexivity].
Ltac differs := vm_compute; intuition discriminate.

Lemma lib_spaces : forall b, spaces_ok (lib_op b) lib_writing.
Proof.
  intros b. constructor; cbn [lib_writing w_spaces map fst].
  - constructor; [intros []|constructor].
  - intros p u [E|[]]. injection E as <- <-. right. named.
  - intros p u c [E|[]]. injection E as <- <-. intros I. apply Z.leb_le. revert c I. apply all_chars. reflexivity.
  - intros p u [E|[]]. injection E as <- <-. split; [|split]; differs.
  - intros p u [E|[]]. injection E as <- <-. apply plain_ok. vm_compute. reflexivity.
Qed.
Lemma lib_id : forall b, id_attribute_ok (lib_op b).
Proof. intros b. split; [differs|discriminate]. Qed.
Lemma lib_class : forall c, (c < 2)%nat -> class_ok library lib_writing c.
Proof.
  intros c L. split; [destruct c as [|[|c]]; [reflexivity|reflexivity|lia]|].
  destruct c as [|[|c]]; [exists (lit "lib"), (lit "Library"), 0%nat|exists (lit "lib"), (lit "Book"), 0%nat|lia].
  all: split; [split; [apply name_ok; [discriminate|reflexivity]|split; [apply not_in; reflexivity|right; split; [apply name_ok; [discriminate|reflexivity]|split; [apply not_in; reflexivity|split; [differs|reflexivity]]]]]|].
  all: split; [right; cbn; auto|split; [intros x I; apply Z.leb_le; revert x I; apply all_chars; reflexivity|split; [apply all_chars; vm_compute; reflexivity|split; vm_compute; reflexivity]]].
Qed.
Lemma lib_features : forall b c f, (c = 0%nat /\ In f [0; 1; 5]%nat \/ c = 1%nat /\ In f [2; 3; 4]%nat) -> feature_ok library (lib_op b) lib_writing c f.
Proof.
  intros b c f [[-> I]|[-> I]]; repeat (destruct I as [<-|I]; [constructor; [named|reflexivity|split; differs|repeat split|reflexivity|reflexivity|first [discriminate|intros _; repeat split]]|]); destruct I.
Qed.
Ltac feat := apply lib_features; cbn; auto 10.
Ltac link := repeat (match goal with I : In _ (_ :: _) |- _ => destruct I as [<-|I] | I : In _ [] |- _ => destruct I end).

(** the fragments of the objects which references lead to *)
Ltac linked := split; [split; [|split; [right|split; [vm_compute; exact Logic.I|exists 5%nat; intros fuel L; do 5 (destruct fuel as [|fuel]; [lia|]); vm_compute; reflexivity]]]|split; [apply plain_ok; vm_compute; reflexivity|apply not_in; vm_compute; reflexivity]].
Lemma lib_path : forall w k, direct w k = false -> container w k = Some 0%nat -> containing w k = Some 1%nat -> direct w 0%nat = true -> model_element w 0%nat = false -> f_name w 1%nat = lit "books" -> f_many w 1%nat = true -> within w k /\ addressable_path w k.
Proof.
  intros w k D C F R E N MN. split; [eapply in_child; [eauto|]; apply in_root; auto|]. eapply ap_child; eauto; [|apply ap_root; auto]. unfold addressable. rewrite E. split; [|auto]. rewrite N. apply not_in. reflexivity.
Qed.
Lemma lib_link : forall b d k, d = lib_doc /\ In k [1; 2]%nat \/ d = shelf /\ In k [1; 3]%nat -> linkable library (lib_op b) lib_writing d k /\ frag_ok lib_writing k.
Proof.
  intros b d k H. assert (P : within (world_of library (lib_op b) (document library (lib_op b) lib_writing d)) k /\ addressable_path (world_of library (lib_op b) (document library (lib_op b) lib_writing d)) k).
  { destruct H as [[-> I]|[-> I]]; link; apply lib_path; vm_compute; reflexivity. }
  destruct P as [P1 P2]. split.
  - split; auto. split; auto. destruct H as [[-> I]|[-> I]]; link; (split; [vm_compute; exact Logic.I|exists 5%nat; intros fuel L; do 5 (destruct fuel as [|fuel]; [lia|]); vm_compute; reflexivity]).
  - destruct H as [[-> I]|[-> I]]; link; (split; [apply plain_ok; vm_compute; reflexivity|apply not_in; vm_compute; reflexivity]).
Qed.
Lemma book : forall b t slots, NoDup (map fst slots) -> (forall f v, In (f, v) slots -> fits library (lib_op b) lib_writing t 1 f v) -> valid library (lib_op b) lib_writing t (DObj 1 [] slots).
Proof. intros b t slots N H. constructor; auto; [apply lib_class; lia|discriminate]. Qed.
Lemma lib_data : forall b t c f v, (c = 0%nat /\ f = 0%nat \/ c = 1%nat /\ f = 2%nat) -> forallb allowed v = true -> fits library (lib_op b) lib_writing t c f (DData v).
Proof.
  intros b t c f v H A. constructor; [apply lib_features; cbn; intuition|destruct H as [[-> ->]|[-> ->]]; reflexivity|reflexivity|]. apply all_chars. exact A.
Qed.
Ltac nodup := repeat (constructor; [cbn; intuition discriminate|]); constructor.
Lemma lib_books : forall b t l, l <> [] -> (forall d, In d l -> d_class d = 1%nat /\ valid library (lib_op b) lib_writing t d) -> fits library (lib_op b) lib_writing t 0 1 (DKids l).
Proof. intros b t l N H. constructor; [feat|exact N|reflexivity|]. intros d I. destruct (H d I) as [C D]. rewrite C. repeat split; auto. intros X. exfalso. apply X. reflexivity. Qed.

Lemma lib_valid : forall b, valid library (lib_op b) lib_writing (linkable library (lib_op b) lib_writing lib_doc) lib_doc.
Proof.
  intros b. constructor; [apply lib_class; lia|nodup|discriminate|]. intros f v I. destruct I as [I|[I|[I|[]]]]; injection I as <- <-.
  - apply lib_data; [auto|vm_compute; reflexivity].
  - apply fit_links; [feat|reflexivity|reflexivity|nodup|]. intros k I. apply lib_link. left. split; auto. cbn in *. tauto.
  - apply lib_books; [discriminate|]. intros d [<-|[<-|[]]]; (split; [reflexivity|]); apply book; try nodup; intros f v I.
    + destruct I as [I|[I|[I|[]]]]; injection I as <- <-.
      * apply lib_data; [auto|vm_compute; reflexivity].
      * apply fit_links; [feat|discriminate|reflexivity|nodup|]. intros k I. apply lib_link. left. split; auto. cbn in *. tauto.
      * apply fit_datas; [feat|reflexivity|discriminate| |left; reflexivity]. intros v I. link; (split; [reflexivity|split; [apply plain_ok; vm_compute; reflexivity|apply no_end; vm_compute; reflexivity]]).
    + destruct I as [I|[I|[]]]; injection I as <- <-.
      * apply lib_data; [auto|vm_compute; reflexivity].
      * apply fit_hrefs; [feat|discriminate|reflexivity|]. intros c u [E|[]]. injection E as <- <-. split; [apply lib_class; lia|]. split; [reflexivity|]. split; [intros X; exfalso; apply X; reflexivity|]. split; [apply plain_ok; vm_compute; reflexivity|]. split; discriminate.
Qed.
Lemma shelf_valid : forall b, valid library (lib_op b) lib_writing (linkable library (lib_op b) lib_writing shelf) shelf.
Proof.
  intros b. constructor; [apply lib_class; lia|nodup|discriminate|]. intros f v [I|[]]. injection I as <- <-. apply lib_books; [discriminate|]. intros d [<-|[<-|[<-|[]]]]; (split; [reflexivity|]); apply book; try nodup; intros f v I; try (destruct I; fail).
  destruct I as [I|[]]. injection I as <- <-. apply fit_links; [feat|discriminate|reflexivity|nodup|]. intros k I. apply lib_link. right. split; auto. cbn in *. tauto.
Qed.
Lemma lib_names : forall c f g, In f (m_features library c) -> In g (m_features library c) -> m_name library f = m_name library g -> f = g.
Proof. intros c f g I J E. destruct c as [|c]; cbn [m_features library] in I, J; link; auto; vm_compute in E; discriminate. Qed.

(** ** What goes wrong *)
Definition shelf_text : str :=
  q "<?xml version='1.0' encoding='UTF-8'?>" ++ [10] ++ q "<lib:Library xmlns:lib='http://lib'>" ++ [10] ++
  q "  <books/>" ++ [10] ++ q "  <books next='#//@books.2 #//@books.0'/>" ++ [10] ++ q "  <books/>" ++ [10] ++ q "</lib:Library>" ++ [10].
Lemma loaded_is : forall op t, match decode library op t with Ok _ => true | _ => false end = true -> decode library op t = Ok (loaded op t).
Proof. intros op t. unfold loaded. destruct (decode library op t); cbn; auto; discriminate. Qed.
Lemma undeferred_order : exists (op : options) (W : writing) (d : dobj str) text s,
  op_deferred op = false /\ id_attribute_ok op /\ spaces_ok op W /\ valid library op W (linkable library op W d) d /\
  (forall c f g, In f (m_features library c) -> In g (m_features library c) -> m_name library f = m_name library g -> f = g) /\
  save library op W (lit "1.0") (lit "UTF-8") d = Some text /\ decode library op text = Ok s /\
  r_slot (heap (document library op W d) 2%nat) 3 = SRefs [3; 1]%nat /\ r_slot (heap s 2%nat) 3 = SRefs [1; 3]%nat /\ ~ holds_document library op W d s.
Proof.
  exists (lib_op false), lib_writing, shelf, shelf_text, (loaded (lib_op false) shelf_text).
  split; [reflexivity|]. split; [apply lib_id|]. split; [apply lib_spaces|]. split; [apply shelf_valid|]. split; [exact lib_names|].
  split; [vm_compute; reflexivity|]. split; [apply loaded_is; vm_compute; reflexivity|]. split; [vm_compute; reflexivity|]. split; [vm_compute; reflexivity|].
  intros (_ & _ & _ & H). specialize (H 2%nat _ eq_refl). destruct H as (_ & _ & _ & _ & H). specialize (H 3%nat). vm_compute in H. discriminate.
Qed.
Lemma unknown_element : exists before unknown after s s',
  (forall c f, In f (m_features library c) -> m_name library f <> lit "zap") /\
  unknown = lit "<zap/>" /\ decode library (lib_op true) (before ++ after) = Ok s /\ decode library (lib_op true) (before ++ unknown ++ after) = Ok s' /\
  errors s = [] /\ refs (r_slot (heap s 0%nat) 1) = [1; 2]%nat /\ In (UnknownFeature (lit "zap")) (errors s') /\
  refs (r_slot (heap s' 0%nat) 1) = [1]%nat /\ next s' = 2%nat.
Proof.
  set (b := q "<lib:Library xmlns:lib='http://lib'><books title='1'>"). set (a := q "</books><books title='2'/></lib:Library>").
  exists b, (lit "<zap/>"), a, (loaded (lib_op true) (b ++ a)), (loaded (lib_op true) (b ++ lit "<zap/>" ++ a)).
  split. { intros c f I. destruct c as [|c]; cbn [m_features library] in I; link; vm_compute; discriminate. }
  split; [reflexivity|]. split; [apply loaded_is; vm_compute; reflexivity|]. split; [apply loaded_is; vm_compute; reflexivity|].
  split; [vm_compute; reflexivity|]. split; [vm_compute; reflexivity|]. split; [vm_compute; auto|]. split; vm_compute; reflexivity.
Qed.
Lemma loading_panics :
  (* a reference to itself, twice *)
  decode library (lib_op true) (in_library "<books next='#//@books.0 #//@books.0'/>") = Panic /\
  (* a path with a feature that does not exist *)
  decode library (lib_op true) (in_library "<books next='#//@zap.0'/>") = Panic /\
  (* a second element which declares a prefix *)
  decode library (lib_op true) (in_library "<books xmlns:a='b'/><books xmlns:c='d'/>") = Panic /\
  (* a reference of the root to another document, with an abstract type *)
  decode library (lib_op true) (q "<lib:Library xmlns:lib='http://lib' item='a.xml#/'/>") = Panic.
Proof. repeat split; vm_compute; reflexivity. Qed.
Lemma values_lost : exists s1 s2 s3,
  (* a list of values in an attribute is ignored *)
  decode library (lib_op true) (in_library "<books tags='x y'/>") = Ok s1 /\ errors s1 = [] /\ r_slot (heap s1 1%nat) 4 = Unset /\
  (* nil becomes the empty text *)
  decode library (lib_op true) (in_library "<books><title xsi:nil='true'/></books>") = Ok s2 /\ errors s2 = [] /\ r_slot (heap s2 1%nat) 2 = SData [] /\
  (* an empty list of references becomes a reference to the root *)
  decode library (lib_op true) (in_library "<books next=''/>") = Ok s3 /\ errors s3 = [] /\ r_slot (heap s3 1%nat) 3 = SRefs [0%nat].
Proof.
  eexists _, _, _. split; [apply loaded_is; vm_compute; reflexivity|]. split; [vm_compute; reflexivity|]. split; [vm_compute; reflexivity|].
  split; [apply loaded_is; vm_compute; reflexivity|]. split; [vm_compute; reflexivity|]. split; [vm_compute; reflexivity|].
  split; [apply loaded_is; vm_compute; reflexivity|]. split; vm_compute; reflexivity.
Qed.
