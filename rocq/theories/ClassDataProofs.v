(** Goroutines that ask for the data of classes. *)
From Verif Require Import Base ClassDataModel ClassDataSpec.

Lemma nth_cput l i x j : nth_error (cput l i x) j = if Nat.eqb j i then match nth_error l i with Some _ => Some x | None => None end else nth_error l j.
Proof.
  revert i j. induction l as [|y l IH]; intros [|i] [|j]; cbn; try reflexivity.
  - now destruct (Nat.eqb j i).
  - apply IH.
Qed.
Lemma length_cput l i x : length (cput l i x) = length l.
Proof. revert i. induction l as [|y l IH]; intros [|i]; cbn; congruence. Qed.
Lemma cset_eq {B} (f : nat -> B) o b : cset f o b o = b. Proof. unfold cset. now rewrite Nat.eqb_refl. Qed.
Lemma cset_ne {B} (f : nat -> B) o b x : x <> o -> cset f o b x = f x.
Proof. unfold cset. intro N. apply Nat.eqb_neq in N. now rewrite N. Qed.
Lemma crun_cons supers s s' n s'' : cmove supers s s' -> crun supers s' n s'' -> crun supers s (S n) s''.
Proof. intros St R. induction R as [s'|s' n t u _ IH St']; [eapply crun_snoc; [constructor|exact St]|]. eapply crun_snoc; [apply IH, St|exact St']. Qed.
Lemma snoc_nodup {B} (l : list B) x : NoDup l -> ~ In x l -> NoDup (l ++ [x]).
Proof. intros N H. apply (NoDup_Add (a := x) (l := l)); [|auto]. rewrite <- (app_nil_r l) at 1. apply Add_app. Qed.

Section ClassData.
  Context (supers : nat -> list nat).

  Definition chold (f : cframe) : list nat := match f with CWant _ => [] | CHold c | CSupers c _ | CFail c => [c] end.
  Definition cheld (st : list cframe) : list nat := flat_map chold st.
  Definition cobj (f : cframe) : nat := match f with CWant c | CHold c | CSupers c _ | CFail c => c end.
  Definition isSupers (f : cframe) : Prop := match f with CSupers _ _ => True | _ => False end.
  (** the classes visited are super types of one another, and those already visited have data *)
  Fixpoint chain (d : nat -> bool) (above : option nat) (st : list cframe) : Prop :=
    match st with
    | [] => True
    | f :: r =>
        match above with None => True | Some s => In s (supers (cobj f)) end
        /\ match f with
           | CSupers c ss => incl ss (supers c) /\ d c = false /\ forall s, In s (supers c) -> In s ss \/ d s = true \/ above = Some s
           | _ => True
           end
        /\ chain d (Some (cobj f)) r
    end.
  Record CTI (g : nat) (sh : cshared) (st : list cframe) : Prop := {
    ct_shape : Forall isSupers (tl st);
    ct_nodup : NoDup (cheld st);
    ct_own : forall c, In c (cheld st) <-> cowner sh c = Some g;
    ct_chain : chain (cdata sh) None st }.
  Record CGI (s : cstate) : Prop := {
    cg_data : forall c, cdata (fst s) c = true <-> In c (created (fst s));
    cg_nodup : NoDup (created (fst s));
    cg_after : after_supers supers (created (fst s));
    cg_range : forall c g, cowner (fst s) c = Some g -> (g < length (snd s))%nat;
    cg_threads : forall g t, nth_error (snd s) g = Some t -> CTI g (fst s) (cstack t) }.

  Lemma chain_mono d d' a st : (forall c, d c = true -> d' c = true) -> (forall c, In c (cheld st) -> d' c = d c) ->
    chain d a st -> chain d' a st.
  Proof.
    intros M. revert a. induction st as [|f st IH]; intros a Hn; cbn; [tauto|]. intros (A & K & R). split; [exact A|]. split.
    - destruct f as [c|c|c ss|c]; try exact I. destruct K as (K1 & K2 & K3). split; [exact K1|]. split; [rewrite Hn; [exact K2|cbn; auto]|].
      intros s Hs. destruct (K3 s Hs) as [X|[X|X]]; auto.
    - apply IH; [|exact R]. intros c Hc. apply Hn. unfold cheld. cbn. apply in_or_app. now right.
  Qed.
  Lemma cleave_stack o b st js os : cstack (cleave o b st js os) = match st with [] => [] | f :: st' => (if b then f else cfailed f) :: st' end.
  Proof. now destruct st. Qed.
  Lemma CTI_other g sh sh' st :
    (forall c, cowner sh' c = Some g <-> cowner sh c = Some g) -> (forall c, cdata sh c = true -> cdata sh' c = true) ->
    (forall c, cowner sh c = Some g -> cdata sh' c = cdata sh c) -> CTI g sh st -> CTI g sh' st.
  Proof.
    intros O M D [S_ N Ow Ch]. constructor; try assumption.
    - intro c. now rewrite Ow, O.
    - eapply chain_mono; [exact M| |exact Ch]. intros c Hc. apply D, Ow, Hc.
  Qed.
  Lemma CTI_leave g sh c b st js os :
    Forall isSupers st -> NoDup (cheld st) -> (forall x, In x (cheld st) <-> cowner sh x = Some g) ->
    (b = true -> cdata sh c = true) -> chain (cdata sh) (Some c) st -> CTI g sh (cstack (cleave c b st js os)).
  Proof.
    intros S_ N Ow D Ch. rewrite cleave_stack. destruct st as [|f st]; [constructor; cbn; auto; try constructor|].
    inversion S_ as [|? ? Hf Hs]; subst. destruct f as [?|?|p ss|?]; try contradiction.
    assert (E : cheld ((if b then CSupers p ss else cfailed (CSupers p ss)) :: st) = cheld (CSupers p ss :: st)) by (destruct b; reflexivity).
    constructor; rewrite ?E; try assumption. destruct Ch as (_ & (K1 & K2 & K3) & R). destruct b; cbn; [|auto].
    repeat split; auto. intros s Hs'. destruct (K3 s Hs') as [X|[X|[= <-]]]; auto.
  Qed.

  Ltac inv_cti H := destruct H as [Hsh Hnd How Hch]; cbn [cstack tl cheld flat_map chold app] in *.
  Ltac released := let x := fresh "x" in let Ne := fresh "Ne" in
    intro x; cbn [cunlock cowner]; match goal with |- _ <-> cset _ ?c _ _ = _ => destruct (Nat.eq_dec x c) as [->|Ne];
      [rewrite cset_eq; split; [contradiction|discriminate]|rewrite cset_ne by exact Ne] end;
    match goal with How : forall c, _ <-> _ |- _ => rewrite <- How; split; [now right|intros [E|H]; [congruence|exact H]] end.

  Lemma CTI_step g sh t sh' t' : cstep supers g sh t sh' t' -> CTI g sh (cstack t) -> CTI g sh' (cstack t').
  Proof.
    intros St TI0. destruct St as [sh c js os|sh c st js os Ho|sh c st js os Hd|sh c st js os Hd|sh c s ss st js os|sh c st js os|sh c st js os|sh c st js os]; inv_cti TI0.
    - constructor; cbn; auto.
    - assert (No : ~ In c (cheld st)) by (intro H; apply How in H; congruence).
      constructor; cbn [cstack tl cheld flat_map chold app cowner cdata]; auto.
      + constructor; [exact No|exact Hnd].
      + intro x. destruct (Nat.eq_dec x c) as [->|Ne]; [rewrite cset_eq; split; auto; now left|].
        rewrite cset_ne by exact Ne. rewrite <- How. split; [intros [E|H]; [congruence|exact H]|now right].
    - inversion Hnd as [|? ? No Nd]; subst. apply CTI_leave; auto; [released|]. apply Hch.
    - constructor; cbn [cstack tl cheld flat_map chold app]; auto. cbn in *. repeat split; try tauto. apply incl_refl.
    - constructor; cbn [cstack tl cheld flat_map chold app]; auto.
      + now constructor.
      + cbn in *. destruct Hch as (_ & (K1 & K2 & K3) & R). repeat split; auto.
        * apply K1. now left.
        * intros x Hx. apply K1. now right.
        * intros x Hx. destruct (K3 x Hx) as [[->|X]|[X|X]]; auto. discriminate.
    - inversion Hnd as [|? ? No Nd]; subst. apply CTI_leave; auto; [released|intros _; apply cset_eq|].
      cbn [cunlock cdata]. apply (chain_mono (cdata sh)); [| |apply Hch].
      + intros x Hx. destruct (Nat.eq_dec x c) as [->|Ne]; [apply cset_eq|now rewrite cset_ne].
      + intros x Hx. apply cset_ne. intros ->. exact (No Hx).
    - constructor; cbn [cstack tl cheld flat_map chold app]; auto. cbn in *. tauto.
    - inversion Hnd as [|? ? No Nd]; subst. apply CTI_leave; auto; [released|discriminate|]. apply Hch.
  Qed.

  Lemma cstep_shared g sh t sh' t' : cstep supers g sh t sh' t' -> CTI g sh (cstack t) ->
    (forall c, cowner sh' c = cowner sh c \/ (cowner sh c = None /\ cowner sh' c = Some g) \/ (cowner sh c = Some g /\ cowner sh' c = None))
    /\ ((created sh' = created sh /\ cdata sh' = cdata sh)
        \/ exists c, created sh' = created sh ++ [c] /\ cdata sh' = cset (cdata sh) c true /\ cdata sh c = false /\ cowner sh c = Some g
             /\ forall s, In s (supers c) -> cdata sh s = true).
  Proof.
    intros St TI0. destruct St as [sh c js os|sh c st js os Ho|sh c st js os Hd|sh c st js os Hd|sh c s ss st js os|sh c st js os|sh c st js os|sh c st js os]; inv_cti TI0;
      try (split; [intro x; left; reflexivity|left; split; reflexivity]).
    - split; [|left; split; reflexivity]. intro x. cbn. destruct (Nat.eq_dec x c) as [->|Ne]; [rewrite cset_eq; auto|rewrite cset_ne by exact Ne; auto].
    - split; [|left; split; reflexivity]. intro x. cbn. destruct (Nat.eq_dec x c) as [->|Ne]; [rewrite cset_eq; right; right; split; [apply How; now left|reflexivity]|rewrite cset_ne by exact Ne; auto].
    - split.
      + intro x. cbn. destruct (Nat.eq_dec x c) as [->|Ne]; [rewrite cset_eq; right; right; split; [apply How; now left|reflexivity]|rewrite cset_ne by exact Ne; auto].
      + right. exists c. destruct Hch as (_ & (_ & D & K) & _). repeat split; [exact D|apply How; now left|].
        intros s Hs. destruct (K s Hs) as [[]|[X|X]]; [exact X|discriminate].
    - split; [|left; split; reflexivity]. intro x. cbn. destruct (Nat.eq_dec x c) as [->|Ne]; [rewrite cset_eq; right; right; split; [apply How; now left|reflexivity]|rewrite cset_ne by exact Ne; auto].
  Qed.
  Lemma after_snoc l c : after_supers supers l -> incl (supers c) l -> after_supers supers (l ++ [c]).
  Proof.
    intros A H a x b E. destruct b as [|y b] using rev_ind.
    - apply app_inj_tail in E as [-> ->]. exact H.
    - clear IHb. change (a ++ x :: b ++ [y]) with (a ++ (x :: b) ++ [y]) in E. rewrite app_assoc in E. apply app_inj_tail in E as [E _]. eapply A, E.
  Qed.
  Lemma CGI_step s s' : cmove supers s s' -> CGI s -> CGI s'.
  Proof.
    intros St [I1 I2 I3 I4 I5]. destruct St as [g sh ts t sh' t' Et Ts]. cbn [fst snd] in *. pose proof (I5 _ _ Et) as TI0.
    destruct (cstep_shared _ _ _ _ _ Ts TI0) as [Ow Ri]. pose proof (CTI_step _ _ _ _ _ Ts TI0) as TI1. constructor; cbn [fst snd].
    - intro x. destruct Ri as [[R Id]|(c & R & Id & _)]; rewrite R, Id; [apply I1|]. rewrite in_app_iff. destruct (Nat.eq_dec x c) as [->|Ne].
      + rewrite cset_eq. cbn. tauto.
      + rewrite cset_ne by exact Ne. rewrite I1. cbn. intuition congruence.
    - destruct Ri as [[R Id]|(c & R & Id & F & _)]; rewrite R; [exact I2|]. apply snoc_nodup; [exact I2|]. intro H. apply I1 in H. congruence.
    - destruct Ri as [[R Id]|(c & R & Id & F & _ & K)]; rewrite R; [exact I3|]. apply after_snoc; [exact I3|]. intros x Hx. apply I1, K, Hx.
    - intros x h E. rewrite length_cput. destruct (Ow x) as [Eq|[[_ Eq]|[_ Eq]]]; rewrite Eq in E.
      + eapply I4, E.
      + injection E as <-. apply nth_error_Some. congruence.
      + discriminate.
    - intros h u. rewrite nth_cput. destruct (Nat.eqb_spec h g) as [->|Ne].
      + rewrite Et. intros [= <-]. exact TI1.
      + intro Eu. eapply CTI_other; [| | |exact (I5 _ _ Eu)].
        * intro x. destruct (Ow x) as [Eq|[[E1 Eq]|[E1 Eq]]]; rewrite Eq; [reflexivity| |]; rewrite E1; split; intro X; try discriminate; injection X; congruence.
        * intros x Hx. destruct Ri as [[R Id]|(c & R & Id & _)]; rewrite Id; [exact Hx|]. destruct (Nat.eq_dec x c) as [->|Nx]; [apply cset_eq|now rewrite cset_ne].
        * intros x Hx. destruct Ri as [[R Id]|(c & R & Id & F & Og & _)]; rewrite Id; [reflexivity|]. apply cset_ne. intros ->. congruence.
  Qed.
  Lemma CGI_run work n s : crun supers (cstart work) n s -> CGI s.
  Proof.
    remember (cstart work) as s0 eqn:E. induction 1 as [s|s n s' s'' _ IH St]; [|eapply CGI_step; eauto]. subst. constructor; cbn.
    - intro c. split; [discriminate|intros []].
    - constructor.
    - intros a c b X. destruct a; discriminate.
    - discriminate.
    - intros g t H. rewrite nth_error_map in H. destruct (nth_error work g); [|discriminate]. injection H as <-. constructor; cbn.
      + constructor.
      + constructor.
      + intro o. split; [intros []|discriminate].
      + exact I.
  Qed.

  Lemma cleave_outs o b st js os x : In x (couts (cleave o b st js os)) <-> In x os \/ (st = [] /\ x = (o, b)).
  Proof. destruct st; cbn; [rewrite in_app_iff; cbn; intuition auto|]. intuition discriminate. Qed.
  Lemma couts_step g sh t sh' t' : cstep supers g sh t sh' t' -> (forall c, In (c, true) (couts t) -> cdata sh c = true) ->
    (forall c, cdata sh c = true -> cdata sh' c = true) /\ forall c, In (c, true) (couts t') -> cdata sh' c = true.
  Proof.
    intros St H. destruct St as [sh c js os|sh c st js os Ho|sh c st js os Hd|sh c st js os Hd|sh c s ss st js os|sh c st js os|sh c st js os|sh c st js os];
      cbn [couts] in H; split; auto; cbn [cunlock cdata].
    - intros x Hx. apply cleave_outs in Hx as [Hx|[_ [= ->]]]; auto.
    - intros x Hx. destruct (Nat.eq_dec x c) as [->|Ne]; [apply cset_eq|now rewrite cset_ne].
    - intros x Hx. destruct (Nat.eq_dec x c) as [->|Ne]; [apply cset_eq|rewrite cset_ne by exact Ne].
      apply cleave_outs in Hx as [Hx|[_ [= ->]]]; [auto|congruence].
    - intros x Hx. apply cleave_outs in Hx as [Hx|[_ [=]]]; auto.
  Qed.
  Lemma couts_run work n s : crun supers (cstart work) n s -> forall t c, In t (snd s) -> In (c, true) (couts t) -> cdata (fst s) c = true.
  Proof.
    remember (cstart work) as s0 eqn:E. induction 1 as [s|s n s' s'' _ IH St].
    - subst. cbn. intros t c Ht. apply in_map_iff in Ht as (js & <- & _). intros [].
    - specialize (IH E). destruct St as [g sh ts t sh' t' Et Ts]. cbn [fst snd] in *.
      destruct (couts_step _ _ _ _ _ Ts (fun c => IH t c (nth_error_In _ _ Et))) as [M O]. intros u c Hu Hc.
      apply In_nth_error in Hu as [h Eu]. rewrite nth_cput in Eu. destruct (Nat.eqb h g); [rewrite Et in Eu; injection Eu as <-; auto|].
      apply M. eapply IH; [eapply nth_error_In, Eu|exact Hc].
  Qed.

  Context (rank : nat -> nat) (ranked : forall c s, In s (supers c) -> (rank s < rank c)%nat).
  Lemma chain_rank d st : forall s, chain d (Some s) st -> forall f, In f st -> (rank s < rank (cobj f))%nat.
  Proof.
    induction st as [|f st IH]; intros s; [intros _ f []|]. cbn. intros (A & _ & R) f' [<-|H]; [now apply ranked|].
    specialize (IH _ R f' H). apply ranked in A. lia.
  Qed.
  Lemma cgo_or_wait g sh ts t : nth_error ts g = Some t -> cstack t <> [] \/ cjobs t <> [] ->
    (exists s', cmove supers (sh, ts) s') \/ exists c rest, cstack t = CWant c :: rest /\ cowner sh c <> None.
  Proof.
    intros Et Ne. destruct t as [st js os]. cbn in *.
    assert (Go : forall sh' t', cstep supers g sh (CT st js os) sh' t' -> exists s', cmove supers (sh, ts) s').
    { intros sh' t' H. eexists. econstructor; eassumption. }
    destruct st as [|f st].
    - destruct js as [|r js]; [tauto|]. left. eapply Go. constructor.
    - destruct f as [c|c|c ss|c].
      + destruct (cowner sh c) eqn:E; [right; exists c, st; split; [reflexivity|congruence]|left; eapply Go; apply cs_lock; exact E].
      + left. destruct (cdata sh c) eqn:E; eapply Go; [apply cs_found|apply cs_new]; exact E.
      + left. destruct ss as [|k ss]; eapply Go; [apply cs_create|apply cs_super].
      + left. eapply Go. apply cs_fail.
  Qed.
  Lemma cprogress_from sh ts : CGI (sh, ts) -> forall d g t c rest, nth_error ts g = Some t -> cstack t = CWant c :: rest ->
    (rank c <= d)%nat -> exists s', cmove supers (sh, ts) s'.
  Proof.
    intros G. induction d as [|d IH]; intros g t c rest Et Es Hd;
      (destruct (cgo_or_wait g sh ts t Et) as [S_|(o' & rest' & E' & Ow)]; [rewrite Es; left; discriminate|exact S_|];
       rewrite Es in E'; injection E' as <- <-; destruct (cowner sh c) as [h|] eqn:Eh; [|congruence];
       pose proof (cg_range _ G _ _ Eh) as Lt; cbn in Lt; apply nth_error_Some in Lt; destruct (nth_error ts h) as [u|] eqn:Eu; [|congruence];
       pose proof (cg_threads _ G _ _ Eu) as TIu; cbn in TIu; pose proof (proj2 (ct_own _ _ _ TIu c) Eh) as Ho;
       destruct (cgo_or_wait h sh ts u Eu) as [S_|(p & rst & Ep & Op)]; [left; intro C; rewrite C in Ho; exact Ho|exact S_|];
       rewrite Ep in Ho, TIu; cbn [cheld flat_map chold app] in Ho; apply in_flat_map in Ho as (f & Hf & Hc);
       pose proof (ct_chain _ _ _ TIu) as (_ & _ & Ch); cbn [cobj] in Ch; pose proof (chain_rank _ _ _ Ch f Hf) as L;
       assert (cobj f = c) by (destruct f; cbn in Hc; try contradiction; destruct Hc as [<-|[]]; reflexivity); subst c).
    - lia.
    - eapply (IH h u p rst); try eassumption. lia.
  Qed.
  Lemma cprogress s : CGI s -> ~ cfinished s -> exists s', cmove supers s s'.
  Proof.
    intros G Nf. destruct s as [sh ts].
    assert (X : exists t, In t ts /\ (cstack t <> [] \/ cjobs t <> [])).
    { clear G. unfold cfinished in Nf. cbn in Nf. induction ts as [|t ts IH]; [exfalso; apply Nf; intros t []|].
      destruct (cstack t) eqn:E; [|exists t; split; [now left|left; congruence]].
      destruct (cjobs t) eqn:E'; [|exists t; split; [now left|right; congruence]].
      destruct IH as (u & Hu & Hn); [|exists u; split; [now right|exact Hn]]. intro C. apply Nf. intros u [<-|H]; auto. }
    destruct X as (t & Ht & Hn). apply In_nth_error in Ht as [g Et].
    destruct (cgo_or_wait g sh ts t Et Hn) as [S_|(c & rest & Es & _)]; [exact S_|].
    eapply (cprogress_from sh ts G (rank c) g t c rest); eauto.
  Qed.
  Lemma cfinished_free s : CGI s -> cfinished s -> forall c, cowner (fst s) c = None.
  Proof.
    intros G F c. destruct (cowner (fst s) c) as [g|] eqn:E; [|reflexivity]. exfalso.
    pose proof (cg_range _ G _ _ E) as L. apply nth_error_Some in L. destruct (nth_error (snd s) g) as [t|] eqn:Et; [|congruence].
    pose proof (proj2 (ct_own _ _ _ (cg_threads _ G _ _ Et) c) E) as H. destruct (F t (nth_error_In _ _ Et)) as [Es _]. now rewrite Es in H.
  Qed.

  (** the work that a visit can cause *)
  Fixpoint nsum (l : list nat) : nat := match l with [] => 0%nat | x :: r => (x + nsum r)%nat end.
  Fixpoint visit (n : nat) (c : nat) : nat :=
    match n with O => 8%nat | S n' => (8 + nsum (map (fun s => S (visit n' s)) (supers c)))%nat end.
  Lemma visit_rank n : forall c, (rank c <= n)%nat -> forall m, (rank c <= m)%nat -> visit n c = visit m c.
  Proof.
    induction n as [|n IH]; intros c Hn m Hm.
    - assert (E : supers c = []) by (destruct (supers c) as [|s l] eqn:E; [reflexivity|]; assert (H : In s (supers c)) by (rewrite E; now left); apply ranked in H; lia).
      destruct m; cbn; rewrite ?E; reflexivity.
    - destruct m as [|m].
      + assert (E : supers c = []) by (destruct (supers c) as [|s l] eqn:E; [reflexivity|]; assert (H : In s (supers c)) by (rewrite E; now left); apply ranked in H; lia).
        cbn. now rewrite E.
      + cbn [visit]. apply (f_equal (fun l => 8 + nsum l)%nat). apply map_ext_in. intros s Hs. apply ranked in Hs. f_equal. apply IH; lia.
  Qed.
  Definition V (c : nat) : nat := visit (rank c) c.
  Lemma V_eq c : V c = (8 + nsum (map (fun s => S (V s)) (supers c)))%nat.
  Proof.
    unfold V at 1. rewrite (visit_rank (rank c) c (le_n _) (S (rank c))) by lia. cbn [visit]. apply (f_equal (fun l => 8 + nsum l)%nat). apply map_ext_in. intros s Hs. f_equal.
    apply visit_rank; [|lia]. apply ranked in Hs. lia.
  Qed.
  Definition ccost (f : cframe) : nat :=
    match f with CWant c => V c | CHold c => V c - 1 | CSupers _ ss => 3 + nsum (map (fun s => S (V s)) ss) | CFail _ => 1 end%nat.
  Definition ctcost (t : cthread) : nat := (nsum (map ccost (cstack t)) + nsum (map (fun s => S (V s)) (cjobs t)))%nat.
  Lemma cleave_cost o b st js os : (ctcost (cleave o b st js os) <= nsum (map ccost st) + nsum (map (fun s => S (V s)) js))%nat.
  Proof.
    unfold ctcost. rewrite cleave_stack. destruct st as [|f st]; [cbn; lia|]. destruct b; cbn [cleave cjobs]; [lia|]. cbn. destruct f; cbn; lia.
  Qed.
  Lemma cstep_cost g sh t sh' t' : cstep supers g sh t sh' t' -> (ctcost t' < ctcost t)%nat.
  Proof.
    intro St. destruct St;
      try (match goal with |- context [cleave ?o ?b ?st ?js ?os] => pose proof (cleave_cost o b st js os) end);
      try pose proof (V_eq c); unfold ctcost in *; cbn [cstack cjobs] in *; cbn [map ccost nsum] in *; lia.
  Qed.
  Lemma csum_put ts g t t' : nth_error ts g = Some t ->
    (nsum (map ctcost (cput ts g t')) + ctcost t = nsum (map ctcost ts) + ctcost t')%nat.
  Proof.
    revert g. induction ts as [|u ts IH]; intros [|g] E; cbn in *; try discriminate; [injection E as ->; lia|]. specialize (IH _ E). lia.
  Qed.
  Lemma crun_cost s n s' : crun supers s n s' -> (nsum (map ctcost (snd s')) + n <= nsum (map ctcost (snd s)))%nat.
  Proof.
    induction 1 as [s|s n s' s'' _ IH St]; [lia|]. destruct St as [g sh ts t sh' t' Et Ts]. cbn [snd] in *.
    pose proof (csum_put ts g t t' Et). pose proof (cstep_cost _ _ _ _ _ Ts). lia.
  Qed.
End ClassData.
