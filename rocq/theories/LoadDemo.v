(** Worlds and programs for the examples of loading on demand. *)
From Verif Require Import Base LoadModel LoadSpec LoadProofs LoadRuns.
Local Open Scope nat_scope.

(** A world with two documents that refer to each other, an alias (text 3 is mapped to 1), a package (text 9),
    a text that cannot be read (5), one without a reader (6) and one without a codec (4).
    The URI [10 t + f] has text [t] and fragment [f]. *)
Definition demo : world := {|
  raw := fun p => Nat.div p 10;
  trim := fun p => 10 * Nat.div p 10;
  frag := fun p => Nat.modulo p 10;
  norm := fun t => match t with 3 => 1 | _ => t end;
  pack := fun t => match t with 9 => Some 0 | _ => None end;
  source := fun t => match t with 1 => Document 1 | 2 => Document 2 | 4 => Document 1 | 6 => Nothing | _ => Unreadable end;
  codec := fun t => match t with
                    | 4 => None
                    | _ => Some (fun d => match d with
                                          | 1 => Some [AddRoot 0 100; Demand 20; AddRoot 1 101; AddRoot 0 100; Complain 7]
                                          | 2 => Some [AddRoot 0 200; Demand 11; Demand 31; AddRoot 1 201]
                                          | _ => None
                                          end)
                    end;
  proxyURI := fun o => match o with 7 => Some 11 | 8 => Some 19 | 101 => Some 20 | 300 => Some 21 | 201 => Some 31 | _ => None end |}%nat.

Example demo_packaged : packaged demo 1.
Proof. intros t r. cbn. do 10 (destruct t as [|t]; try discriminate). intro H. injection H as <-. lia. Qed.
Example demo_closed : closed demo [1; 2]%nat.
Proof.
  intros t t' d c l p _ Hc Hl Hp. cbn in Hc.
  assert (E : l = [AddRoot 0 100; Demand 20; AddRoot 1 101; AddRoot 0 100; Complain 7]%nat \/ l = [AddRoot 0 200; Demand 11; Demand 31; AddRoot 1 201]%nat).
  { do 5 (destruct t' as [|t']; [first [discriminate Hc|injection Hc as <-; do 3 (destruct d as [|d]; [first [discriminate Hl|injection Hl as <-; auto]|]); discriminate Hl]|]).
    injection Hc as <-. do 3 (destruct d as [|d]; [first [discriminate Hl|injection Hl as <-; auto]|]). discriminate Hl. }
  destruct E as [-> | ->]; cbn in Hp; repeat (destruct Hp as [Hp|Hp]; [try discriminate Hp; injection Hp as <-; cbn; auto|]); contradiction.
Qed.

Definition run (fuel : nat) (W : world) (cs : list call) (s : state) : result (option nat) :=
  fold_left (fun a c => bind a (fun s1 _ => perform W fuel s1 c)) cs (Done s None).
Definition after (r : result (option nat)) (s : state) : state := match r with Done s' _ => s' | _ => s end.

Definition ended (r : result (option nat)) : bool := match r with Done _ _ => true | _ => false end.
Definition answered (r : result (option nat)) (x : nat) : bool := match r with Done _ (Some y) => Nat.eqb x y | _ => false end.
Lemma reach_after W allowed n s c fuel : reach W allowed n s -> allowed n s c -> ended (perform W fuel s c) = true -> reach W allowed n (after (perform W fuel s c) s).
Proof. intros R A E. destruct (perform W fuel s c) as [s' x| |] eqn:P; [|discriminate|discriminate]. exact (l_call _ _ _ s c fuel s' x R A P). Qed.
Lemma answered_mono W n m s p b x : n <= m -> answered (getResource W n s p b) x = true -> exists s', getResource W m s p b = Done s' (Some x).
Proof.
  intros Hm. destruct (getResource W n s p b) as [s' [y|]| |] eqn:G; try discriminate. intro E. apply Nat.eqb_eq in E. subst y.
  exists s'. exact (getResource_mono W n m Hm s p b s' (Some x) G).
Qed.

(** two proxies that stand for each other are resolved for ever *)
Definition mirrors : world := {|
  raw := raw demo; trim := trim demo; frag := frag demo; norm := fun t => t; pack := fun _ => None;
  source := fun t => match t with 1 => Document 1 | _ => Unreadable end;
  codec := fun _ => Some (fun _ => Some [AddRoot 0 100; AddRoot 1 101]);
  proxyURI := fun o => match o with 100 => Some 11 | 101 => Some 10 | _ => None end |}.
Definition mirrored : state := after (perform mirrors 9 (empty 1) (GetResource 10 true)) (empty 1).
(** both are found without changing anything *)
Lemma mirrors_found s f : scan mirrors s 1 (resources s) = Found 1 -> cache s = None -> loaded s 1 = true ->
  (f = 10 \/ f = 11) -> forall fuel, getEObject mirrors (Datatypes.S fuel) s f true = Done s (getRoot s 1 (frag mirrors f)).
Proof.
  intros Hs Hc Hl Hf fuel. unfold getEObject. cbn [getResource]. unfold getResourceWith. rewrite Hc.
  replace (norm mirrors (raw mirrors (trim mirrors f))) with 1 by (destruct Hf as [-> | ->]; reflexivity).
  cbn [pack mirrors]. rewrite Hs, Hl. cbn [andb negb bind]. unfold remember. rewrite Hc. reflexivity.
Qed.
Lemma mutual_endless fuel depth : resolve mirrors depth (Datatypes.S fuel) mirrored 100 = NoFuel.
Proof.
  assert (G : forall f, f = 10 \/ f = 11 -> getEObject mirrors (Datatypes.S fuel) mirrored f true = Done mirrored (getRoot mirrored 1 (frag mirrors f))).
  { intros f Hf. apply mirrors_found; [vm_compute; reflexivity..|assumption]. }
  assert (R1 : getRoot mirrored 1 (frag mirrors 11) = Some 101) by (vm_compute; reflexivity).
  assert (R0 : getRoot mirrored 1 (frag mirrors 10) = Some 100) by (vm_compute; reflexivity).
  assert (P1 : proxyURI mirrors 100 = Some 11) by (vm_compute; reflexivity).
  assert (P0 : proxyURI mirrors 101 = Some 10) by (vm_compute; reflexivity).
  generalize dependent mirrored. intros s G R1 R0.
  assert (K : forall d, resolve mirrors d (Datatypes.S fuel) s 100 = NoFuel /\ resolve mirrors d (Datatypes.S fuel) s 101 = NoFuel).
  { induction d as [|d [IH0 IH1]]; cbn [resolve]; rewrite P1, P0, !G, R1, R0 by auto; cbn [bind].
    - split; reflexivity.
    - split; [exact IH1|exact IH0]. }
  exact (proj1 (K depth)).
Qed.
