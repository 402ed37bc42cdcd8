(** The statements found in the generated classes of ecore/e*_impl.go and in
    ecore/ecorepackage_impl.go, as data.  [EcoreTables] lists them for every class, [EcoreModel] says
    what they do. *)
From Coq Require Export String.
From Verif Require Import Base.

(** ecore/constants.go:13 *)
Definition EOPPOSITE_FEATURE_BASE : Z := -1.

(** Go literals occurring in the generated code *)
Inductive literal :=
| LBool (b : bool)
| LInt (z : Z)
| LStr (s : string)
| LNil.

(** A case of EGetFromID:
    - [GCall m]: return e.asC().m()
    - [GResolve m]: if resolve { return e.asC().m() }; return e.asBasics().basicm()
    - [GListUnres m]: list := e.asC().m(); its GetUnResolvedList() when not resolving *)
Inductive get_case :=
| GCall (m : string)
| GResolve (m : string)
| GListUnres (m : string).

(** A case of ESetFromID:
    - [SCall m t]: e.asC().m(newValue.(t))
    - [SCallOrNil m t]: newValueOrNil, _ := newValue.(t); e.asC().m(newValueOrNil)
    - [SList m]: list := e.asC().m(); list.Clear(); list.AddAll(newValue.(EList)) *)
Inductive set_case :=
| SCall (m t : string)
| SCallOrNil (m t : string)
| SList (m : string).

(** A case of EUnsetFromID: e.asC().m(literal), e.asC().m().Clear() or e.asC().m() *)
Inductive unset_case :=
| UCall (m : string) (l : literal)
| UClear (m : string)
| UUnset (m : string).

(** A case of EIsSetFromID: e.field != literal, e.field != nil && e.field.Size() != 0, or
    e.asC().m() != literal *)
Inductive isSet_case :=
| IField (field : string) (l : literal)
| IList (field : string)
| ICall (m : string) (l : literal).

(** How a value is stored without looking at the other end:
    - [BContainer id]: e.EBasicSetContainer(value, id, msgs)
    - [BField field id]: e.field = value, with a notification for the feature id
    - [BCall m]: e.asBasics().m(value, msgs), one of the two above *)
Inductive basic :=
| BContainer (id : Z)
| BField (field : string) (id : Z)
| BCall (m : string).

(** A case of EBasicInverseAdd:
    - [AList m]: e.m().(ENotifyingList).AddWithNotification(otherEnd, notifications)
    - [AContainer b]: leave the current container, then store with [b]
    - [ASingle field id b]: if e.field is not nil, EInverseRemove(e, id) on it; then store with [b] *)
Inductive add_case :=
| AList (m : string)
| AContainer (b : basic)
| ASingle (field : string) (id : Z) (b : basic).

(** A case of EBasicInverseRemove: RemoveWithNotification on the list e.m(), store nil with [b], or
    [return notifications] *)
Inductive remove_case :=
| RmList (m : string)
| RmBasic (b : basic)
| RmNothing.

(** Body of a getter:
    - [MField field]: return e.field
    - [MLazy field init]: if e.field == nil { e.field = init() }; return e.field
    - [MLazyInt field init]: the same with -1 in place of nil
    - [MInit init field]: init(); return e.field
    - [MContainer id]: e.EContainer() if e.EContainerFeatureID() == id, else nil
    - [MResolved field]: e.field, resolved and stored back when it is a proxy
    - [MPanic]: panic("... not implemented") *)
Inductive getter :=
| MField (field : string)
| MLazy (field init : string)
| MLazyInt (field init : string)
| MInit (init field : string)
| MContainer (id : Z)
| MResolved (field : string)
| MPanic.

(** Body of a setter:
    - [TField field id]: e.field = new; notification for id
    - [TContainer id opp b]: unless new is already the container through id: leave the current
      container, EInverseAdd(e, opp) on new, store with [b]
    - [TContained field rem add b]: unless new is already the value: EInverseRemove(e, rem) on the old
      value, EInverseAdd(e, add) on new, store with [b]
    - [TPanic]: panic("... not implemented") *)
Inductive setter :=
| TField (field : string) (id : Z)
| TContainer (id opp : Z) (b : basic)
| TContained (field : string) (rem add : Z) (b : basic)
| TPanic.

(** Body of an unsetter: e.field = nil with a notification, or Clear() on e.field if it is not nil *)
Inductive unsetter :=
| WField (field : string) (id : Z)
| WClear (field : string).

(** Body of an init function:
    - [NList field id inverseID containment inverse opposite proxies unset]:
      NewBasicEObjectList(e, id, inverseID, ...), stored in field if that is not empty, else returned
    - [NMap id inverseID unset]: NewBasicEObjectMap(..., e, id, inverseID, unset)
    - [NInt z]: return z
    - [NPanic] *)
Inductive new_value :=
| NList (field : string) (id inverseID : Z) (containment inverse opposite proxies unset : bool)
| NMap (id inverseID : Z) (unset : bool)
| NInt (z : Z)
| NPanic.

(** A generated class: the struct it embeds, the switch statements, and the methods *)
Record class := Class {
  c_embeds : option nat;
  c_static : nat * Z;   (* EStaticClass, EStaticFeatureCount *)
  c_get : list (Z * get_case);
  c_set : list (Z * set_case);
  c_unset : list (Z * unset_case);
  c_isSet : list (Z * isSet_case);
  c_add : list (Z * add_case);
  c_remove : list (Z * remove_case);
  c_getters : list (string * getter);
  c_setters : list (string * setter);
  c_basics : list (string * basic);
  c_unsetters : list (string * unsetter);
  c_inits : list (string * new_value);
  c_initialize : list (string * literal)
}.

(** The arguments of one InitEAttribute or InitEReference (epackage_ext.go:89-114): the accessor of
    the feature, its name, its type if that is a class, default value literal, bounds, transient,
    volatile, changeable, unsettable, unique, derived, and for references the accessor of the
    opposite, containment and resolveProxies.  [ordered] and [isID] are left out. *)
Record description := Desc {
  d_getter : string;
  d_name : string;
  d_type : option nat;
  d_default : string;
  d_lower : Z;
  d_upper : Z;
  d_transient : bool;
  d_volatile : bool;
  d_changeable : bool;
  d_unsettable : bool;
  d_unique : bool;
  d_derived : bool;
  d_opposite : option string;
  d_containment : bool;
  d_resolveProxies : bool
}.
