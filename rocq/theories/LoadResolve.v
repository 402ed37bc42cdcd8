From Verif Require Import Base LoadModel LoadSpec LoadProofs LoadRuns.

Section Resolve.
  Context (W : world).
  Lemma resolve_plain depth fuel s o : proxyURI W o = None -> resolve W depth fuel s o = Done s o.
  Proof. intro H. destruct depth; cbn; now rewrite H. Qed.
  Lemma resolve_result depth : forall fuel s o s' o', resolve W depth fuel s o = Done s' o' ->
    proxyURI W o' = None \/
    exists p s1 x, proxyURI W o' = Some p /\ getEObject W fuel s1 p true = Done s' x /\ (x = None \/ x = Some o').
  Proof.
    assert (K : forall fuel s o p s' o' (cont : state -> nat -> result nat), proxyURI W o = Some p ->
      bind (getEObject W fuel s p true) (fun s1 x => match x with Some o1 => if Nat.eqb o1 o then Done s1 o else cont s1 o1 | None => Done s1 o end) = Done s' o' ->
      (exists s1 o1, cont s1 o1 = Done s' o') \/ exists p s1 x, proxyURI W o' = Some p /\ getEObject W fuel s1 p true = Done s' x /\ (x = None \/ x = Some o')).
    { intros fuel s o p s' o' cont Hp E. apply bind_done in E. destruct E as (s1 & x & G & E). destruct x as [o1|].
      - destruct (Nat.eqb_spec o1 o) as [->|N]; [|left; eauto]. injection E as <- <-. right. exists p, s, (Some o). auto.
      - injection E as <- <-. right. exists p, s, None. auto. }
    induction depth as [|depth IH]; intros fuel s o s' o'; cbn; destruct (proxyURI W o) as [p|] eqn:Hp.
    - intro E. apply (K fuel s o p s' o' (fun _ _ => NoFuel)) in E; [|assumption]. destruct E as [(? & ? & ?)|?]; [discriminate|auto].
    - intro E. injection E as <- <-. auto.
    - intro E. apply (K fuel s o p s' o' (fun s1 o1 => resolve W depth fuel s1 o1)) in E; [|assumption]. destruct E as [(s1 & o1 & E)|?]; [eapply IH; eauto|auto].
    - intro E. injection E as <- <-. auto.
  Qed.

  Context (n : nat) (U : list text).
  Hypothesis HP : packaged W n.
  Hypothesis HU : closed W U.
  Lemma resolve_ends fuel (rank : nat -> nat) : (length U + 1 < fuel)%nat ->
    (forall s o p s' o', reach W careful n s -> proxyURI W o = Some p -> getEObject W fuel s p true = Done s' (Some o') -> o' <> o -> (rank o' < rank o)%nat) ->
    forall depth s o, reach W careful n s -> (rank o <= depth)%nat -> exists s' o', resolve W depth fuel s o = Done s' o' /\ reach W careful n s'.
  Proof.
    intros Hf Hrank. induction depth as [|depth IH]; intros s o R Hd; cbn; (destruct (proxyURI W o) as [p|] eqn:Hp; [|eauto]).
    all: pose proof (reach_calm W n U HP HU s R) as C.
    all: destruct (perform_additive W n U HU fuel s (GetEObject p true) Hf C Logic.I Logic.I) as (s1 & x & G & _); cbn [perform] in G; rewrite G; cbn [bind].
    all: assert (R1 : reach W careful n s1) by (eapply l_call with (c := GetEObject p true); [exact R|exact Logic.I|exact G]).
    all: destruct x as [o'|]; [|eauto]; destruct (Nat.eqb_spec o' o) as [->|N]; [eauto|].
    - specialize (Hrank s o p s1 o' R Hp G N). lia.
    - apply IH; [assumption|]. specialize (Hrank s o p s1 o' R Hp G N). lia.
  Qed.
End Resolve.
