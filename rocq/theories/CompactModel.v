(** Model of the packed field storage of ecore/compacteobject_impl.go and compacteobject_container.go.

    [flags] is a Go [int] (two's complement, [Z] bit operations; 64-bit overflow of
    [newContainerFeatureID<<16] is not modelled).  Field values are opaque references. *)
From Verif Require Import Base.

(** a Go [any]: nil, an opaque non-nil value, or a []any *)
Inductive any := ANil | AVal (v : nat) | AArr (l : list any).

(** compacteobject_impl.go:16-20 *)
Record cobj := mkC { storage : any; flags : Z }.

(** compacteobject_impl.go:22-35 *)
Definition deliver_flag := 1.
Definition container_flag := 2.
Definition resource_flag := 4.
Definition adapters_flag := 8.
Definition proxy_flag := 16.
Definition class_flag := 32.
Definition contents_flag := 64.
Definition cross_flag := 128.
Definition properties_flag := 256.
Definition fields_mask :=
  Z.lor container_flag (Z.lor resource_flag (Z.lor adapters_flag (Z.lor proxy_flag
    (Z.lor class_flag (Z.lor contents_flag (Z.lor cross_flag properties_flag)))))).

(** the values taken by [for bit := first_flag; bit <= last_flag; bit <<= 1] *)
Definition bits : list Z :=
  [container_flag; resource_flag; adapters_flag; proxy_flag; class_flag; contents_flag; cross_flag; properties_flag].

(** compacteobject_impl.go:37-39 *)
Definition Initialize : cobj := mkC ANil (Z.lor deliver_flag (Z.shiftl (-1) 16)).

(** compacteobject_impl.go:41-43 *)
Definition hasField (o : cobj) (field : Z) : bool := negb (Z.land (flags o) field =? 0).

(** compacteobject_impl.go:73-91; [field] is one of [bits] at every call *)
Definition fieldIndex (o : cobj) (field : Z) : Z :=
  let result := zlen (filter (fun bit => (bit <? field) && hasField o bit) bits) in
  if result =? 0
  then if existsb (fun bit => (field <? bit) && hasField o bit) bits then 0 else -1
  else result.

(** storage.([]any): panics on anything else *)
Definition as_array (a : any) : option (list any) := match a with AArr l => Some l | _ => None end.

(** compacteobject_impl.go:45-55 *)
Definition getField (o : cobj) (field : Z) : option any :=
  if hasField o field
  then let fi := fieldIndex o field in
       if fi =? -1 then Some (storage o)
       else let? a := as_array (storage o) in zget a fi
  else Some ANil.

(** bits.OnesCount(uint(x)) on 64 bits *)
Definition OnesCount (x : Z) : Z := zlen (filter (Z.testbit x) (map Z.of_nat (seq 0 64))).

(** compacteobject_impl.go:105-114 *)
Fixpoint add_loop (o : cobj) (bs : list Z) (field : Z) (value : any) (src result : list any)
  (sourceIndex targetIndex : Z) : option (list any) :=
  match bs with
  | [] => Some result
  | bit :: bs' =>
      if bit =? field
      then let? r := zset result targetIndex value in
           add_loop o bs' field value src r sourceIndex (targetIndex + 1)
      else if hasField o bit
      then let? x := zget src sourceIndex in
           let? r := zset result targetIndex x in
           add_loop o bs' field value src r (sourceIndex + 1) (targetIndex + 1)
      else add_loop o bs' field value src result sourceIndex targetIndex
  end.

(** compacteobject_impl.go:93-118 *)
Definition addField (o : cobj) (field : Z) (value : any) : option cobj :=
  let fieldCount := OnesCount (Z.land (flags o) fields_mask) in
  let? st :=
    (if fieldCount =? 0 then Some value
     else if fieldCount =? 1
     then if fieldIndex o field =? 0 then Some (AArr [value; storage o]) else Some (AArr [storage o; value])
     else let? src := as_array (storage o) in
          let? r := add_loop o bits field value src (repeat ANil (Z.to_nat (fieldCount + 1))) 0 0 in
          Some (AArr r)) in
  Some (mkC st (Z.lor (flags o) field)).

(** compacteobject_impl.go:133-141 *)
Fixpoint remove_loop (o : cobj) (bs : list Z) (field : Z) (src result : list any)
  (sourceIndex targetIndex : Z) : option (list any) :=
  match bs with
  | [] => Some result
  | bit :: bs' =>
      if bit =? field
      then remove_loop o bs' field src result (sourceIndex + 1) targetIndex
      else if hasField o bit
      then let? x := zget src sourceIndex in
           let? r := zset result targetIndex x in
           remove_loop o bs' field src r (sourceIndex + 1) (targetIndex + 1)
      else remove_loop o bs' field src result sourceIndex targetIndex
  end.

(** compacteobject_impl.go:120-145 *)
Definition removeField (o : cobj) (field : Z) : option cobj :=
  let fieldCount := OnesCount (Z.land (flags o) fields_mask) in
  let? st :=
    (if fieldCount =? 1 then Some ANil
     else if fieldCount =? 2
     then let? a := as_array (storage o) in
          if fieldIndex o field =? 0 then zget a 1 else zget a 0
     else let? src := as_array (storage o) in
          let? r := remove_loop o bits field src (repeat ANil (Z.to_nat (fieldCount - 1))) 0 0 in
          Some (AArr r)) in
  Some (mkC st (Z.land (flags o) (Z.lnot field))).

Definition is_nil (a : any) : bool := match a with ANil => true | _ => false end.

(** compacteobject_impl.go:57-71 *)
Definition setField (o : cobj) (field : Z) (value : any) : option cobj :=
  if hasField o field
  then if is_nil value then removeField o field
       else let fi := fieldIndex o field in
            if fi =? -1 then Some (mkC value (flags o))
            else let? a := as_array (storage o) in
                 let? a' := zset a fi value in
                 Some (mkC (AArr a') (flags o))
  else if is_nil value then Some o
  else addField o field value.

(** compacteobject_impl.go:163-169 *)
Definition ESetDeliver (o : cobj) (deliver : bool) : cobj :=
  if deliver then mkC (storage o) (Z.lor (flags o) deliver_flag)
  else mkC (storage o) (Z.land (flags o) (Z.lnot deliver_flag)).
(** compacteobject_impl.go:159-161 *)
Definition EDeliver (o : cobj) : bool := negb (Z.land (flags o) deliver_flag =? 0).

(** compacteobject_impl.go:231-234 *)
Definition ESetInternalContainer (o : cobj) (newContainer : any) (featureID : Z) : option cobj :=
  let? o' := setField o container_flag newContainer in
  Some (mkC (storage o') (Z.lor (Z.shiftl featureID 16) (Z.land (flags o') 255))).
(** compacteobject_impl.go:243-245 *)
Definition EInternalContainerFeatureID (o : cobj) : Z := Z.shiftr (flags o) 16.

(** Writers.  EClass/resource/contents/cross references/adapters/properties go through [setField]:
    compacteobject_impl.go:155-157, 171-178, 204-228, 256-258.
    [ESetProxyURI(nil)] (204-206) passes a typed nil pointer, which is a non-nil [any]. *)
Inductive cop :=
| SetField (field : Z) (value : any)
| SetDeliver (b : bool)
| SetContainer (container : any) (featureID : Z).

Definition cstep (o : cobj) (op : cop) : option cobj :=
  match op with
  | SetField f v => setField o f v
  | SetDeliver b => Some (ESetDeliver o b)
  | SetContainer c id => ESetInternalContainer o c id
  end.

Fixpoint crun (o : cobj) (ops : list cop) : option cobj :=
  match ops with
  | [] => Some o
  | op :: r => let? o' := cstep o op in crun o' r
  end.

(** compacteobject_impl.go:204-206: any(uri) with uri a *URI; a nil pointer gives a non-nil interface.
    The typed nil is the opaque value 0. *)
Definition uri_any (u : option nat) : any := match u with Some n => AVal (S n) | None => AVal 0 end.
Definition ESetProxyURI (o : cobj) (u : option nat) : option cobj := setField o proxy_flag (uri_any u).
(** compacteobject_impl.go:191-193 *)
Definition EIsProxy (o : cobj) : bool := hasField o proxy_flag.

(** compacteobject_container.go:12-24: the container lives in its own field *)
Record ccont := mkCC { base : cobj; container : any }.
Definition CCSetInternalContainer (o : ccont) (newContainer : any) (featureID : Z) : ccont :=
  mkCC (mkC (storage (base o)) (Z.lor (Z.shiftl featureID 16) (Z.land (flags (base o)) 255))) newContainer.
