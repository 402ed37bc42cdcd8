(** Model of loading on demand: EResourceSetImpl (ecore/eresourceset_impl.go:69-135), loading and unloading
    of EResourceImpl (ecore/eresource_impl.go:402-492) and the resolution of proxies
    (ecore/ecoreutils.go:105-147).

    - URIs, texts, fragments, documents, objects and resources are numbers.  A [*URI] is a [ptr]; [raw p] is
      its text (URI.Equals compares texts, uri.go:424-426), [trim p] is TrimFragment, [frag p] its fragment.
    - [norm] is EURIConverter.Normalize on texts; for URI maps on which it ends see C67.  Normalize of a nil
      URI never ends: getURIFromMap returns nil, and nil.Equals(nil) is false (euriconverter_impl.go:41-56).
    - [pack t] is the resource of the package registered for the text [t], if any.
    - [source t] is CreateReader of the normalized text: an error, a nil reader, or a document.
      [codec t] is GetCodec of the text of the resource, applied to the reader: no codec, no decoder, or
      what the decoder does.  A decoder adds roots, reports errors and asks the resource set for objects
      of other documents (as binarydecoder.go:522 does); it does not remove what it added.
    - Documents do not change during a call.  Notifications, the identifier manager, saving and loading of
      resources that are in no resource set are left out.
    - A root is a number with the fragment by which it is found (fragments: FragmentModel). *)
From Verif Require Import Base.

Definition ptr := nat.
Definition text := nat.
Definition fragment := nat.
Definition doc := nat.

Inductive diagnostic := NoReader | NoCodec | NoDecoder | Reported (code : nat).
Inductive action :=
| AddRoot (f : fragment) (o : nat)        (* resource.GetContents().Add *)
| Demand (p : ptr)                        (* resourceSet.GetEObject(uri, true) *)
| Complain (code : nat).                  (* resource.GetErrors().Add *)
Inductive opened := Unreadable | Nothing | Document (d : doc).
(** what does not change during a program *)
Record world := World {
  raw : ptr -> text;
  trim : ptr -> ptr;
  frag : ptr -> fragment;
  norm : text -> text;
  pack : text -> option nat;
  source : text -> opened;
  codec : text -> option (doc -> option (list action));
  proxyURI : nat -> option ptr }.

Record state := State {
  resources : list nat;
  cache : option (ptr -> option nat);      (* uriResourceMap *)
  uri : nat -> option ptr;
  loaded : nat -> bool;
  loading : nat -> bool;
  errors : nat -> list diagnostic;
  roots : nat -> list (fragment * nat);
  next : nat;
  decoded : list nat }.                    (* DecodeResource calls, oldest first *)

Definition upd {X} (g : nat -> X) (k : nat) (v : X) : nat -> X := fun m => if Nat.eqb m k then v else g m.
Definition set_loaded (s : state) r b := State (resources s) (cache s) (uri s) (upd (loaded s) r b) (loading s) (errors s) (roots s) (next s) (decoded s).
Definition set_loading (s : state) r b := State (resources s) (cache s) (uri s) (loaded s) (upd (loading s) r b) (errors s) (roots s) (next s) (decoded s).
Definition set_errors (s : state) r l := State (resources s) (cache s) (uri s) (loaded s) (loading s) (upd (errors s) r l) (roots s) (next s) (decoded s).
Definition set_roots (s : state) r l := State (resources s) (cache s) (uri s) (loaded s) (loading s) (errors s) (upd (roots s) r l) (next s) (decoded s).
Definition set_uri (s : state) r u := State (resources s) (cache s) (upd (uri s) r u) (loaded s) (loading s) (errors s) (roots s) (next s) (decoded s).
Definition set_resources (s : state) l := State l (cache s) (uri s) (loaded s) (loading s) (errors s) (roots s) (next s) (decoded s).
Definition set_cache (s : state) c := State (resources s) c (uri s) (loaded s) (loading s) (errors s) (roots s) (next s) (decoded s).
Definition log (s : state) r := State (resources s) (cache s) (uri s) (loaded s) (loading s) (errors s) (roots s) (next s) (decoded s ++ [r]).

(** a call ends, recurses for ever (stack overflow), or ran out of the fuel of the model *)
Inductive result (X : Type) := Done (s : state) (x : X) | Endless | NoFuel.
Arguments Done {X}. Arguments Endless {X}. Arguments NoFuel {X}.
Definition bind {X Y} (a : result X) (f : state -> X -> result Y) : result Y :=
  match a with Done s x => f s x | Endless => Endless | NoFuel => NoFuel end.

Section Load.
Context (W : world).
Notation raw := (raw W). Notation trim := (trim W). Notation frag := (frag W). Notation norm := (norm W).
Notation pack := (pack W). Notation source := (source W). Notation codec := (codec W). Notation proxyURI := (proxyURI W).

(** NewEResourceImpl, eresource_impl.go:171-176 *)
Definition newResource (s : state) : state * nat :=
  let r := next s in
  (State (resources s) (cache s) (upd (uri s) r None) (upd (loaded s) r false) (upd (loading s) r false)
         (upd (errors s) r []) (upd (roots s) r []) (Datatypes.S r) (decoded s), r).
(** eresourceset_impl.go:120-125 *)
Definition createResource (s : state) (p : ptr) : state * nat :=
  let '(s1, r) := newResource s in
  (set_resources (set_uri s1 r (Some p)) (resources s1 ++ [r]), r).
(** contents.Add: eresource_impl.go:98-103, 117-124 *)
Definition addRoot (s : state) (r : nat) (f : fragment) (o : nat) : state :=
  if existsb (fun e => Nat.eqb (snd e) o) (roots s r) then s
  else set_loaded (set_roots s r (roots s r ++ [(f, o)])) r true.
Definition remember (s : state) (p : ptr) (r : nat) : state :=
  match cache s with
  | Some c => set_cache s (Some (fun q => if Nat.eqb q p then Some r else c q))
  | None => s
  end.
(** the loop of eresourceset_impl.go:92-103: a nil URI met before the answer is never normalized *)
Inductive search := Found (r : nat) | Absent | Stuck.
Fixpoint scan (s : state) (t : text) (l : list nat) : search :=
  match l with
  | [] => Absent
  | r :: l' => match uri s r with
               | None => Stuck
               | Some q => if Nat.eqb (norm (raw q)) t then Found r else scan s t l'
               end
  end.

Section Recursion.
  (** a call of GetResource(uri, true) by a decoder *)
  Variable demand : state -> ptr -> result (option nat).

  (** DecodeResource *)
  Fixpoint decode (s : state) (r : nat) (l : list action) : result unit :=
    match l with
    | [] => Done s tt
    | AddRoot f o :: l' => decode (addRoot s r f o) r l'
    | Demand p :: l' => bind (demand s (trim p)) (fun s1 _ => decode s1 r l')
    | Complain c :: l' => decode (set_errors s r (errors s r ++ [Reported c])) r l'
    end.
  (** eresource_impl.go:421-448 *)
  Definition loadWithReader (s : state) (r : nat) (p : ptr) (d : doc) : result unit :=
    if loaded s r then Done s tt
    else match codec (raw p) with
         | None => Done (set_errors s r [NoCodec]) tt
         | Some c => match c d with
                     | None => Done (set_errors s r [NoDecoder]) tt
                     | Some l =>
                         let s1 := set_errors (set_loaded (set_loading s r true) r true) r [] in
                         bind (decode (log s1 r) r l) (fun s2 _ => Done (set_loading s2 r false) tt)
                     end
         end.
  (** eresource_impl.go:402-419 *)
  Definition load (s : state) (r : nat) : result unit :=
    if loaded s r then Done s tt
    else match uri s r with
         | None => Done s tt
         | Some p => match source (norm (raw p)) with
                     | Unreadable => Done (set_errors s r [NoReader]) tt
                     | Nothing => Done s tt
                     | Document d => loadWithReader s r p d
                     end
         end.
  (** eresourceset_impl.go:69-118 *)
  Definition getResourceWith (s : state) (p : ptr) (onDemand : bool) : result (option nat) :=
    match (match cache s with Some c => c p | None => None end) with
    | Some r => bind (if onDemand && negb (loaded s r) then load s r else Done s tt) (fun s1 _ => Done s1 (Some r))
    | None =>
        match pack (raw p) with
        | Some r => Done (remember s p r) (Some r)
        | None =>
            match scan s (norm (raw p)) (resources s) with
            | Stuck => Endless
            | Found r => bind (if onDemand && negb (loaded s r) then load s r else Done s tt)
                              (fun s1 _ => Done (remember s1 p r) (Some r))
            | Absent =>
                if onDemand
                then let '(s1, r) := createResource s p in
                     bind (load s1 r) (fun s2 _ => Done (remember s2 p r) (Some r))
                else Done s None
            end
        end
    end.
End Recursion.

Fixpoint getResource (fuel : nat) (s : state) (p : ptr) (onDemand : bool) : result (option nat) :=
  match fuel with
  | O => NoFuel
  | Datatypes.S n => getResourceWith (fun s q => getResource n s q true) s p onDemand
  end.
Definition demandFrom (fuel : nat) : state -> ptr -> result (option nat) := fun s q => getResource fuel s q true.

(** EResourceImpl.GetEObject, on fragments of roots *)
Definition getRoot (s : state) (r : nat) (f : fragment) : option nat :=
  match find (fun e => Nat.eqb (fst e) f) (roots s r) with Some e => Some (snd e) | None => None end.
(** eresourceset_impl.go:127-135 *)
Definition getEObject (fuel : nat) (s : state) (p : ptr) (onDemand : bool) : result (option nat) :=
  bind (getResource fuel s (trim p) onDemand)
       (fun s1 r => Done s1 (match r with Some r => getRoot s1 r (frag p) | None => None end)).

(** eresource_impl.go:466-484 *)
Definition unload (s : state) (r : nat) : state :=
  if loaded s r then set_errors (set_roots (set_loaded s r false) r []) r [] else s.

(** ResolveInResourceSet, ecoreutils.go:126-147; [proxyURI o] is EProxyURI *)
Fixpoint resolve (depth fuel : nat) (s : state) (o : nat) : result nat :=
  match proxyURI o with
  | None => Done s o
  | Some p =>
      bind (getEObject fuel s p true) (fun s1 x =>
        match x with
        | Some o' => if Nat.eqb o' o then Done s1 o
                     else match depth with O => NoFuel | Datatypes.S d => resolve d fuel s1 o' end
        | None => Done s1 o
        end)
  end.

(** what a program may call *)
Inductive call :=
| GetResource (p : ptr) (onDemand : bool)
| GetEObject (p : ptr) (onDemand : bool)
| CreateResource (p : ptr)
| AddNew                                  (* resources.Add(NewEResourceImpl()) *)
| RemoveResource (r : nat)                (* resources.Remove *)
| SetURI (r : nat) (u : option ptr)
| Load (r : nat) | Unload (r : nat)
| Put (r : nat) (f : fragment) (o : nat)  (* r.GetContents().Add *)
| UseCache (b : bool).                    (* SetURIResourceMap *)
Definition perform (fuel : nat) (s : state) (c : call) : result (option nat) :=
  match c with
  | GetResource p b => getResource fuel s p b
  | GetEObject p b => getEObject fuel s p b
  | CreateResource p => let '(s1, r) := createResource s p in Done s1 (Some r)
  | AddNew => let '(s1, r) := newResource s in Done (set_resources s1 (resources s1 ++ [r])) (Some r)
  | RemoveResource r => Done (set_resources s (filter (fun x => negb (Nat.eqb x r)) (resources s))) None
  | SetURI r u => Done (set_uri s r u) None
  | Load r => bind (load (demandFrom fuel) s r) (fun s1 _ => Done s1 None)
  | Unload r => Done (unload s r) None
  | Put r f o => Done (addRoot s r f o) None
  | UseCache b => Done (set_cache s (if b then Some (fun _ => None) else None)) None
  end.
(** an empty resource set; numbers below [n] are resources outside of it, among them those of packages
    (which have contents and are therefore loaded) *)
Definition empty (n : nat) : state :=
  State [] None (fun _ => None) (fun r => Nat.ltb r n) (fun _ => false) (fun _ => []) (fun _ => []) n [].
End Load.
