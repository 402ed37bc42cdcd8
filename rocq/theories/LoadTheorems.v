(** Loading on demand: the property theorems (C95-C100). *)
From Verif Require Import Base LoadModel LoadSpec LoadProofs LoadRuns LoadContents LoadResolve LoadDemo.
Local Open Scope nat_scope.

(** * C95: GetResource answers with the resource of the document *)
Theorem C95_resource_of_a_document W n U fuel s p b :
  packaged W n -> closed W U -> (length U + 1 < fuel)%nat -> reach W careful n s ->
  exists s' x, getResource W fuel s p b = Done s' x
    /\ x = match answer W s p with Some r => Some r | None => if b then Some (next s) else None end
    /\ (exists l, resources s' = resources s ++ l)
    /\ (forall q r, answer W s q = Some r -> answer W s' q = Some r)
    /\ (if b
        then answer W s' p = x
          /\ (answer W s p = None -> ~ In (next s) (resources s) /\ In (next s) (resources s') /\ uri s' (next s) = Some p)
          /\ (pack W (raw W p) = None -> forall r, x = Some r -> outcome W s' (norm W (raw W p)) r)
        else resources s' = resources s /\ uri s' = uri s /\ loaded s' = loaded s /\ roots s' = roots s /\ errors s' = errors s /\ decoded s' = decoded s).
Proof. intros HP HU. exact (get_resource W n U HP HU fuel s p b). Qed.
Print Assumptions C95_resource_of_a_document.
Example C95_demo :
  match run 9 demo [GetResource 30 true; UseCache true; GetResource 10 true; SetURI 0 (Some 5); CreateResource 60]%nat (empty 1) with
  | Done s x => resources s = [1; 2; 3]%nat /\ loaded s 1 = true /\ loaded s 2 = true /\ loaded s 3 = false /\ answer demo s 10 = Some 1%nat
                /\ answer demo s 90 = Some 0%nat /\ answer demo s 50 = None
  | _ => False end.
Proof. vm_compute. repeat split. Qed.
Example C95_reached : reach demo careful 1 (after (perform demo 9 (empty 1) (GetResource 30 true)) (empty 1)).
Proof. apply reach_after; [apply l_refl|exact Logic.I|vm_compute; reflexivity]. Qed.

(** * C96: one resource for one document, all along a program *)
Theorem C96_answer_stays W n U s p b fuel s1 r s2 :
  packaged W n -> closed W U -> reach W careful n s -> getResource W fuel s p b = Done s1 (Some r) -> later W (asking n) s1 s2 ->
  answer W s2 p = Some r.
Proof. intros HP HU. exact (asked_stays W n U HP HU s p b fuel s1 r s2). Qed.
Print Assumptions C96_answer_stays.
Theorem C96_one_resource_per_document W n U s p b fuel s1 r s2 p' b' fuel' s3 r' :
  packaged W n -> closed W U -> reach W asking n s ->
  getResource W fuel s p b = Done s1 (Some r) -> later W (asking n) s1 s2 -> getResource W fuel' s2 p' b' = Done s3 (Some r') ->
  pack W (raw W p) = None -> pack W (raw W p') = None -> (r = r' <-> norm W (raw W p) = norm W (raw W p')).
Proof. intros HP HU. exact (asked_alike W n U HP HU s p b fuel s1 r s2 p' b' fuel' s3 r'). Qed.
Print Assumptions C96_one_resource_per_document.
Theorem C96_documents_distinct W n U s : packaged W n -> closed W U -> reach W asking n s -> distinct W s.
Proof. intros HP HU R. exact (proj2 (asking_reach W n U HP HU s R)). Qed.
Print Assumptions C96_documents_distinct.
Example C96_demo :
  match getResource demo 9 (empty 1) 30 true with
  | Done s1 x => x = Some 1%nat /\
      match run 9 demo [GetEObject 21 true; Unload 1; Load 1]%nat s1 with
      | Done s2 _ => (match getResource demo 9 s2 10 true with Done _ y => y = Some 1%nat | _ => False end)
                     /\ (match getResource demo 9 s2 20 true with Done _ y => y = Some 2%nat | _ => False end)
      | _ => False end
  | _ => False end.
Proof. vm_compute. repeat split. Qed.

(** * C97: documents that refer to each other are each read once *)
Theorem C97_each_resource_read_once W n U fuel s c :
  packaged W n -> closed W U -> (length U + 1 < fuel)%nat -> reach W careful n s -> careful n s c -> additive c ->
  exists s' x l, perform W fuel s c = Done s' x /\ decoded s' = decoded s ++ l /\ NoDup l
    /\ (forall r, In r l -> ((r < next s)%nat -> loaded s r = false) /\ loaded s' r = true)
    /\ (forall r, (r < next s)%nat -> loaded s r = true -> (forall f o, c <> Put r f o) ->
          roots s' r = roots s r /\ errors s' r = errors s r /\ loaded s' r = true)
    /\ (forall r, (r < next s')%nat -> loading s' r = false).
Proof. intros HP HU. exact (decoded_once W n U HP HU fuel s c). Qed.
Print Assumptions C97_each_resource_read_once.
Theorem C97_read_once_without_unloading W n U s : packaged W n -> closed W U -> reach W keeping n s -> NoDup (decoded s).
Proof. intros HP HU R. exact (proj1 (proj2 (kept_once W n U HP HU s R))). Qed.
Print Assumptions C97_read_once_without_unloading.
Example C97_demo :
  match run 9 demo [GetResource 10 true; GetResource 20 true; Load 1; GetEObject 31 true]%nat (empty 1) with
  | Done s x => decoded s = [1; 2]%nat /\ resources s = [1; 2]%nat /\ x = Some 101%nat
  | _ => False end.
Proof. vm_compute. repeat split. Qed.

(** * C98: a loaded resource has the contents of its document *)
Theorem C98_load_reads_the_document W n U fuel s r p l s' x :
  packaged W n -> closed W U -> reach W careful n s -> (r < next s)%nat -> loaded s r = false -> uri s r = Some p -> reads W (raw W p) l ->
  perform W fuel s (Load r) = Done s' x -> loaded s' r = true /\ roots s' r = contents [] l /\ errors s' r = complaints l.
Proof. intros HP HU. exact (load_reads W n U HP HU fuel s r p l s' x). Qed.
Print Assumptions C98_load_reads_the_document.
Theorem C98_get_resource_reads_the_document W n U fuel s p s' r l :
  packaged W n -> closed W U -> reach W careful n s -> pack W (raw W p) = None -> getResource W fuel s p true = Done s' (Some r) ->
  (r = next s \/ loaded s r = false) -> (forall q, uri s' r = Some q -> reads W (raw W q) l) ->
  loaded s' r = true /\ roots s' r = contents [] l /\ errors s' r = complaints l.
Proof. intros HP HU. exact (get_reads W n U HP HU fuel s p s' r l). Qed.
Print Assumptions C98_get_resource_reads_the_document.
Theorem C98_reload_reads_the_document W n U fuel s r p l s' x :
  packaged W n -> closed W U -> reach W careful n s -> (n <= r < next s)%nat -> loaded s r = true -> uri s r = Some p -> reads W (raw W p) l ->
  roots (unload s r) r = [] /\ loaded (unload s r) r = false /\
  (perform W fuel (unload s r) (Load r) = Done s' x -> loaded s' r = true /\ roots s' r = contents [] l /\ errors s' r = complaints l).
Proof. intros HP HU. exact (reload_reads W n U HP HU fuel s r p l s' x). Qed.
Print Assumptions C98_reload_reads_the_document.
Example C98_demo :
  match getResource demo 9 (empty 1) 10 true with
  | Done s x => roots s 1 = [(0, 100); (1, 101)]%nat /\ errors s 1 = [Reported 7] /\ roots s 2 = [(0, 200); (1, 201)]%nat
                /\ roots s 1 = contents [] [AddRoot 0 100; Demand 20; AddRoot 1 101; AddRoot 0 100; Complain 7]%nat
  | _ => False end.
Proof. vm_compute. repeat split. Qed.
Example C98_reads : reads demo 1 [AddRoot 0 100; Demand 20; AddRoot 1 101; AddRoot 0 100; Complain 7]%nat.
Proof. exists 1%nat. eexists. repeat split. Qed.
(** a resource with contents of its own is not read: isLoaded is set by the first object added *)
Example C98_filled_resource_is_not_read :
  match run 9 demo [CreateResource 10; Put 1 0 55; Load 1; GetResource 10 true]%nat (empty 1) with
  | Done s x => x = Some 1%nat /\ roots s 1 = [(0, 55)]%nat /\ decoded s = []
  | _ => False end.
Proof. vm_compute. repeat split. Qed.

(** * C99: answers after resources were moved or removed *)
(** without the restrictions of [careful], the answer can be another resource than that of the set, or never come *)
Theorem C99_moved_resource_refuted : exists W s r r', packaged W 1 /\ closed W [1; 2]
  /\ s = after (run 9 W [UseCache true; CreateResource 10; GetResource 10 false; SetURI 1 (Some 20); CreateResource 10] (empty 1)) (empty 1)
  /\ answer W s 10 = Some r' /\ keyOf W s r = Some 2 /\ r <> r'
  /\ forall m b, 9 <= m -> exists s', getResource W m s 10 b = Done s' (Some r).
Proof.
  eexists demo, _, 1, 2. split; [exact demo_packaged|]. split; [exact demo_closed|]. split; [reflexivity|].
  split; [vm_compute; reflexivity|]. split; [vm_compute; reflexivity|]. split; [discriminate|].
  intros m b Hm. apply (answered_mono demo 9 m _ 10 b 1 Hm). destruct b; vm_compute; reflexivity.
Qed.
Print Assumptions C99_moved_resource_refuted.
Theorem C99_removed_resource_refuted : exists W s r, packaged W 1 /\ closed W [1; 2]
  /\ s = after (run 9 W [UseCache true; GetResource 10 true; RemoveResource 1] (empty 1)) (empty 1)
  /\ answer W s 10 = None /\ ~ In r (resources s)
  /\ forall m b, 9 <= m -> exists s', getResource W m s 10 b = Done s' (Some r).
Proof.
  eexists demo, _, 1. split; [exact demo_packaged|]. split; [exact demo_closed|]. split; [reflexivity|].
  split; [vm_compute; reflexivity|]. split; [vm_compute; intuition discriminate|].
  intros m b Hm. apply (answered_mono demo 9 m _ 10 b 1 Hm). destruct b; vm_compute; reflexivity.
Qed.
Print Assumptions C99_removed_resource_refuted.
Theorem C99_resource_without_uri_refuted : exists W s, packaged W 1 /\ closed W [1; 2]
  /\ s = after (run 9 W [AddNew; CreateResource 10] (empty 1)) (empty 1)
  /\ answer W s 10 = Some 2
  /\ forall m b, getResource W (Datatypes.S m) s 10 b = Endless.
Proof.
  eexists demo, _. split; [exact demo_packaged|]. split; [exact demo_closed|]. split; [reflexivity|].
  split; [vm_compute; reflexivity|]. intros m b. vm_compute. reflexivity.
Qed.
Print Assumptions C99_resource_without_uri_refuted.
(** what holds: C95, for programs that are [careful] *)
Theorem C99_answers_partial W n U fuel s p b :
  packaged W n -> closed W U -> (length U + 1 < fuel)%nat -> reach W careful n s ->
  exists s' x, getResource W fuel s p b = Done s' x
    /\ x = match answer W s p with Some r => Some r | None => if b then Some (next s) else None end.
Proof.
  intros HP HU Hf R. destruct (get_resource W n U HP HU fuel s p b Hf R) as (s' & x & H1 & H2 & _). exact (ex_intro _ s' (ex_intro _ x (conj H1 H2))).
Qed.
Print Assumptions C99_answers_partial.

(** * C100: the resolution of proxies *)
Theorem C100_objects_resolve_to_themselves W depth fuel s o : proxyURI W o = None -> resolve W depth fuel s o = Done s o.
Proof. exact (resolve_plain W depth fuel s o). Qed.
Print Assumptions C100_objects_resolve_to_themselves.
Theorem C100_result_of_resolution_partial W depth fuel s o s' o' : resolve W depth fuel s o = Done s' o' ->
  proxyURI W o' = None \/
  exists p s1 x, proxyURI W o' = Some p /\ getEObject W fuel s1 p true = Done s' x /\ (x = None \/ x = Some o').
Proof. exact (resolve_result W depth fuel s o s' o'). Qed.
Print Assumptions C100_result_of_resolution_partial.
Theorem C100_resolution_ends_partial W n U fuel (rank : nat -> nat) depth s o :
  packaged W n -> closed W U -> (length U + 1 < fuel)%nat ->
  (forall s o p s' o', reach W careful n s -> proxyURI W o = Some p -> getEObject W fuel s p true = Done s' (Some o') -> o' <> o -> (rank o' < rank o)%nat) ->
  reach W careful n s -> (rank o <= depth)%nat -> exists s' o', resolve W depth fuel s o = Done s' o' /\ reach W careful n s'.
Proof. intros HP HU Hf Hr. exact (resolve_ends W n U HP HU fuel rank Hf Hr depth s o). Qed.
Print Assumptions C100_resolution_ends_partial.
Example C100_demo :
  match resolve demo 5 9 (empty 1) 7 with Done s o => o = 200 /\ proxyURI demo o = None /\ resources s = [1; 2] | _ => False end.
Proof. vm_compute. repeat split. Qed.
Example C100_dangling :
  match resolve demo 5 9 (empty 1) 8 with Done s o => o = 8 | _ => False end.
Proof. vm_compute. reflexivity. Qed.

(** two proxies that stand for each other are resolved for ever *)
Theorem C100_mutual_proxies_refuted : exists W s o o', packaged W 1 /\ closed W [1] /\ reach W careful 1 s
  /\ In o (map snd (roots s 1)) /\ In o' (map snd (roots s 1)) /\ o <> o'
  /\ forall fuel depth, resolve W depth (Datatypes.S fuel) s o = NoFuel.
Proof.
  exists mirrors, mirrored, 100, 101.
  split; [intros t r; discriminate|]. split.
  { intros t t' d c l p _ Hc Hl Hp. injection Hc as <-. injection Hl as <-. cbn in Hp. repeat (destruct Hp as [Hp|Hp]; [discriminate|]). contradiction. }
  split; [unfold mirrored; apply reach_after; [apply l_refl|exact Logic.I|vm_compute; reflexivity]|].
  split; [vm_compute; auto|]. split; [vm_compute; auto|]. split; [discriminate|].
  exact mutual_endless.
Qed.
Print Assumptions C100_mutual_proxies_refuted.
