(** Model of the binary codec: ecore/binaryencoder.go, ecore/binarydecoder.go, ecore/binarycodec.go.

    The msgpack library is outside: what the encoder writes is a list of typed tokens, and the decoder
    reads the same tokens back (msgpack returns a value of the type asked for when the token has that
    type, and an error otherwise).  Numbers are in the range of their Go type.
    URIs, data values, packages and classes are given by an environment [env]:
    - [e_rel]/[e_unrel] are relativizeURI(uri).String() and its inverse reading (empty text = base URI);
    - [e_conv]/[e_create] are ConvertToString/CreateFromString of the data type's factory;
    - [e_get_package] is the lookup in the package registry, then in the resource set.
    Not modelled: errors of the underlying writer, the isResolveProxies flag (never set by the code),
    references with an opposite other than containment/container (their other end would be changed by
    ESet; [BinaryListModel] treats the resulting lists). *)
From Verif Require Import Base Chars ListModel BinaryListModel.

(** values on which a step may fail: an error or a panic ([Fail]); [Fuel] only by the model's recursion bound *)
Inductive result (X : Type) := Done (x : X) | Fail | Fuel.
Arguments Done {X} x.
Arguments Fail {X}.
Arguments Fuel {X}.
Definition rbind {X Y} (r : result X) (f : X -> result Y) : result Y :=
  match r with Done x => f x | Fail => Fail | Fuel => Fuel end.
Notation "'let!' x ':=' e 'in' f" := (rbind e (fun x => f))
  (at level 200, x pattern, right associativity).

(** binaryencoder.go:22-27 *)
Inductive check := checkNothing | checkDirectResource | checkResource | checkContainer.

(** Go integer types of values *)
Inductive intkind := GoInt | GoInt64 | GoInt32 | GoInt16 | GoByte.
Definition intkind_eqb (a b : intkind) : bool :=
  match a, b with
  | GoInt, GoInt | GoInt64, GoInt64 | GoInt32, GoInt32 | GoInt16, GoInt16 | GoByte, GoByte => true
  | _, _ => false
  end.

(** values of the primitive kinds; floats by their bits, a date by its instant and its location
    (0 is UTC) *)
Inductive prim :=
| PF64 (bits : Z) | PF32 (bits : Z) | PNum (k : intkind) (z : Z) | PBool (b : bool)
| PStr (s : str) | PBytes (b : list Z) | PDate (instant zone : Z).

(** binarycodec.go:33-58 *)
Inductive pkind := bfkFloat64 | bfkFloat32 | bfkNum (k : intkind) | bfkBool | bfkString | bfkByteArray | bfkDate.
Inductive kind :=
| bfkObjectContainer | bfkObjectContainerProxy
| bfkObject | bfkObjectProxy | bfkObjectList | bfkObjectListProxy
| bfkObjectContainment | bfkObjectContainmentProxy | bfkObjectContainmentList | bfkObjectContainmentListProxy
| bfkPrim (p : pkind) | bfkData | bfkDataList | bfkEnum.

(** position of the first element satisfying [f] *)
Fixpoint index_where {X} (f : X -> bool) (l : list X) : option nat :=
  match l with
  | [] => None
  | x :: l' => if f x then Some O else option_map S (index_where f l')
  end.

Section Binary.
  Context {D : Type}.    (* data values *)
  Context {DT : Type}.   (* data types *)
  Context {U : Type}.    (* URIs *)
  Context {I : Type}.    (* object ids *)

  Inductive token :=
  | TInt (z : Z) | TStr (s : str) | TBytes (b : list Z) | TF64 (bits : Z) | TF32 (bits : Z)
  | TBool (b : bool) | TDate (instant : Z) | TAny (i : I).

  (** what the codec needs to know of a feature: binaryencoder.go:506-529, binarydecoder.go:602-621 *)
  Record feature := mkFeature {
    fname : str; fkind : kind; ftransient : bool; funique : bool; fdatatype : DT;
    fopposite : bool }. (* has an opposite that is not a container/containment end *)

  (** value of a feature; objects are numbered *)
  Inductive value :=
  | VPrim (p : prim) | VData (d : D) | VDatas (l : list D)
  | VObj (r : option nat) | VObjs (l : list (option nat)).

  (** the surroundings of the codec: the metamodel, whose packages and classes are numbered, the URI
      functions, the conversions of data values, and the lookup of packages *)
  Record env := mkEnv {
    e_nsuri : nat -> str;                  (* EPackage.GetNsURI *)
    e_puri : nat -> option U;              (* GetURI(ePackage) *)
    e_classifiers : nat -> list (str * option nat); (* GetEClassifiers: name, and class if it is one *)
    e_cpackage : nat -> nat;               (* EClass.GetEPackage *)
    e_cname : nat -> str;                  (* EClass.GetName *)
    e_cfeatures : nat -> list feature;     (* EClass.GetEAllStructuralFeatures *)
    e_ustr : U -> str;                     (* URI.String *)
    e_rel : U -> str;                      (* relativizeURI(uri).String() *)
    e_unrel : str -> option U;             (* binarydecoder.go:553-557 *)
    e_trim : U -> U;                       (* URI.TrimFragment *)
    e_fragment : U -> str;                 (* URI.Fragment *)
    e_with_fragment : U -> str -> U;       (* NewURIBuilder(uri).SetFragment(f).URI() *)
    e_conv : DT -> D -> str;               (* ConvertToString *)
    e_create : DT -> str -> D;             (* CreateFromString *)
    e_d_eqb : D -> D -> bool; e_d_nil : D; (* Go's == and nil on data values *)
    e_get_package : str -> option U -> option nat }. (* binarydecoder.go:515-523 *)
  Context (E : env).
  Local Notation nsuri := (e_nsuri E).
  Local Notation puri := (e_puri E).
  Local Notation classifiers := (e_classifiers E).
  Local Notation cpackage := (e_cpackage E).
  Local Notation cname := (e_cname E).
  Local Notation cfeatures := (e_cfeatures E).
  Local Notation ustr := (e_ustr E).
  Local Notation rel := (e_rel E).
  Local Notation unrel := (e_unrel E).
  Local Notation trim := (e_trim E).
  Local Notation fragment := (e_fragment E).
  Local Notation with_fragment := (e_with_fragment E).
  Local Notation conv := (e_conv E).
  Local Notation create := (e_create E).
  Local Notation d_eqb := (e_d_eqb E).
  Local Notation d_nil := (e_d_nil E).
  Local Notation get_package := (e_get_package E).

  (** an object of the encoded graph.  [odirect]: EInternalResource(), its URI and the fragment of the
      object; [oforeign]: EResource() when it is not the encoded resource or the object is not below the
      encoded object (binaryencoder.go:251-253), its URI and the fragment.  [ovalue i] = None: not set. *)
  Record object := mkObject {
    oclass : nat; oproxy : option U; odirect : option (option U * str); oforeign : option (option U * str);
    oid : option I; ovalue : nat -> option value }.
  Context (heap : nat -> object).
  Context (with_ids : bool).  (* isIDAttributeEncoded and a manager exists, binaryencoder.go:271 *)

  (** ** Encoder *)

  (** binaryencoder.go:52-66; [eobjects] is objectToID in order of ids, each with the check under which
      it was first met (kept for the specification only); [epackages]: packageDataMap in order of ids,
      each with the classes of its classData in order of ids; [enamed]: features whose name was
      written (name == ""); [euris]: uriToIDMap, keys are [ustr]; [eenums]: enumLiteralToIDMap *)
  Record estate := mkE {
    eobjects : list (nat * check); epackages : list (nat * list nat);
    enamed : list (nat * nat); euris : list U; eenums : list str }.

  (** binaryencoder.go:439-460 (encodeURIWithFragment) *)
  Definition enc_uri (u : option U) (f : str) (e : estate) : list token * estate :=
    match u with
    | None => ([TInt (-1)], e)
    | Some u =>
        match index_where (fun v => str_eqb (ustr v) (ustr u)) (euris e) with
        | Some i => ([TInt (Z.of_nat i); TStr f], e)
        | None => ([TInt (zlen (euris e)); TStr (rel u); TStr f],
                   mkE (eobjects e) (epackages e) (enamed e) (euris e ++ [u]) (eenums e))
        end
    end.

  (** binaryencoder.go:431-437 (encodeURI) *)
  Definition enc_whole_uri (u : option U) (e : estate) : list token * estate :=
    match u with
    | None => ([TInt (-1)], e)
    | Some u => enc_uri (Some (trim u)) (fragment u) e
    end.

  (** position of a package, and the classes already known *)
  Definition known_package {X} (p : nat) (l : list (nat * list X)) : option (nat * list X) :=
    match index_where (fun q => Nat.eqb (fst q) p) l with
    | Some i => match nth_error l i with Some (_, cs) => Some (i, cs) | None => None end
    | None => None
    end.
  Fixpoint set_nth {X} (i : nat) (x : X) (l : list X) : list X :=
    match l, i with
    | [], _ => []
    | _ :: l', O => x :: l'
    | y :: l', S i' => y :: set_nth i' x l'
    end.

  (** binaryencoder.go:409-429 (encodePackage) *)
  Definition enc_package (p : nat) (e : estate) : list token * estate * nat * list nat :=
    match known_package p (epackages e) with
    | Some (i, cs) => ([TInt (Z.of_nat i)], e, i, cs)
    | None =>
        let i := length (epackages e) in
        let '(tu, e1) := enc_whole_uri (puri p) e in
        (TInt (Z.of_nat i) :: TStr (nsuri p) :: tu,
         mkE (eobjects e1) (epackages e1 ++ [(p, [])]) (enamed e1) (euris e1) (eenums e1), i, [])
    end.

  (** binaryencoder.go:384-407 (encodeClass) with 476-502 (newClassID, newClassData).  The classes of a
      package are numbered in the order they are met; classData[-1] panics when there is no slot left. *)
  Definition enc_class (c : nat) (e : estate) : result (list token * estate) :=
    let new :=
      let '(tp, e1, i, cs) := enc_package (cpackage c) e in
      if (length cs <? length (classifiers (cpackage c)))%nat
      then Done (tp ++ [TInt (zlen cs); TStr (cname c)],
                 mkE (eobjects e1) (set_nth i (cpackage c, cs ++ [c]) (epackages e1)) (enamed e1) (euris e1) (eenums e1))
      else Fail in
    match known_package (cpackage c) (epackages e) with
    | Some (i, cs) =>
        match index_where (Nat.eqb c) cs with
        | Some j => Done ([TInt (Z.of_nat i); TInt (Z.of_nat j)], e)
        | None => new
        end
    | None => new
    end.

  (** primitive kinds of encodeFeatureValue (binaryencoder.go:355-376); a wrong dynamic type panics.
      encodeDate writes date.UTC() (141-143). *)
  Definition enc_prim (k : pkind) (p : prim) : option token :=
    match k, p with
    | bfkFloat64, PF64 b => Some (TF64 b)
    | bfkFloat32, PF32 b => Some (TF32 b)
    | bfkNum k, PNum k' z => if intkind_eqb k k' then Some (TInt z) else None
    | bfkBool, PBool b => Some (TBool b)
    | bfkString, PStr s => Some (TStr s)
    | bfkByteArray, PBytes b => Some (TBytes b)
    | bfkDate, PDate i _ => Some (TDate i)
    | _, _ => None
    end.

  (** binaryencoder.go:343-354 *)
  Definition enc_enum (s : str) (e : estate) : list token * estate :=
    match index_where (str_eqb s) (eenums e) with
    | Some i => ([TInt (Z.of_nat i)], e)
    | None => ([TInt (zlen (eenums e)); TStr s],
               mkE (eobjects e) (epackages e) (enamed e) (euris e) (eenums e ++ [s]))
    end.

  (** binaryencoder.go:221-266: the URI written instead of the features *)
  Definition external (chk : check) (o : object) : option (option U * str) :=
    match chk with
    | checkNothing | checkContainer => None
    | checkDirectResource =>
        match oproxy o with Some u => Some (Some (trim u), fragment u) | None => odirect o end
    | checkResource =>
        match oproxy o with Some u => Some (Some (trim u), fragment u) | None => oforeign o end
    end.

  Section EncRec.
    Context (enc_object : estate -> check -> option nat -> result (list token * estate)).

    (** binaryencoder.go:188-199 (encodeObjects), after the size *)
    Fixpoint enc_objects (chk : check) (l : list (option nat)) (e : estate) : result (list token * estate) :=
      match l with
      | [] => Done ([], e)
      | o :: l' =>
          let! (t1, e1) := enc_object e chk o in
          let! (t2, e2) := enc_objects chk l' e1 in
          Done (t1 ++ t2, e2)
      end.

    (** binaryencoder.go:309-379: value.(EObject) panics on nil *)
    Definition enc_value (f : feature) (v : value) (e : estate) : result (list token * estate) :=
      let one chk := match v with VObj (Some o) => enc_object e chk (Some o) | _ => Fail end in
      let many chk := match v with
                      | VObjs l => let! (t, e1) := enc_objects chk l e in Done (TInt (zlen l) :: t, e1)
                      | _ => Fail end in
      match fkind f with
      | bfkObject | bfkObjectContainment => one checkNothing
      | bfkObjectContainerProxy => one checkResource
      | bfkObjectContainmentProxy => one checkDirectResource
      | bfkObjectProxy => one checkResource
      | bfkObjectList | bfkObjectContainmentList => many checkNothing
      | bfkObjectContainmentListProxy => many checkDirectResource
      | bfkObjectListProxy => many checkResource
      | bfkData => match v with VData d => Done ([TStr (conv (fdatatype f) d)], e) | _ => Fail end
      | bfkDataList =>
          match v with
          | VDatas l => Done (TInt (zlen l) :: map (fun d => TStr (conv (fdatatype f) d)) l, e)
          | _ => Fail end
      | bfkEnum => match v with VData d => Done (enc_enum (conv (fdatatype f) d) e) | _ => Fail end
      | bfkPrim k => match v with
                     | VPrim p => match enc_prim k p with Some t => Done ([t], e) | None => Fail end
                     | _ => Fail end
      | bfkObjectContainer => Fail
      end.

    (** binaryencoder.go:297-307: the feature number and, the first time, its name *)
    Definition enc_name (c i : nat) (f : feature) (e : estate) : list token * estate :=
      if existsb (fun p => Nat.eqb (fst p) c && Nat.eqb (snd p) i) (enamed e) then ([TInt (Z.of_nat i + 1)], e)
      else match fname f with
           | [] => ([TInt (Z.of_nat i + 1)], e)
           | _ => ([TInt (Z.of_nat i + 1); TStr (fname f)],
                   mkE (eobjects e) (epackages e) ((c, i) :: enamed e) (euris e) (eenums e))
           end.

    (** binaryencoder.go:284 *)
    Definition written (chk : check) (f : feature) : bool :=
      negb (ftransient f) &&
      match chk, fkind f with
      | checkContainer, _ => true
      | _, bfkObjectContainerProxy => false
      | _, _ => true
      end.

    (** binaryencoder.go:283-289 *)
    Fixpoint enc_features (chk : check) (x i : nat) (fs : list feature) (e : estate) : result (list token * estate) :=
      match fs with
      | [] => Done ([], e)
      | f :: fs' =>
          match (if written chk f then ovalue (heap x) i else None) with
          | None => enc_features chk x (S i) fs' e
          | Some v =>
              let '(t1, e1) := enc_name (oclass (heap x)) i f e in
              let! (t2, e2) := enc_value f v e1 in
              let! (t3, e3) := enc_features chk x (S i) fs' e2 in
              Done (t1 ++ t2 ++ t3, e3)
          end
      end.

    (** binaryencoder.go:201-295 (encodeObject) *)
    Definition enc_object_body (e : estate) (chk : check) (o : option nat) : result (list token * estate) :=
      match o with
      | None => Done ([TInt (-1)], e)
      | Some x =>
          match index_where (fun p => Nat.eqb (fst p) x) (eobjects e) with
          | Some i => Done ([TInt (Z.of_nat i)], e)
          | None =>
              let id := zlen (eobjects e) in
              let e1 := mkE (eobjects e ++ [(x, chk)]) (epackages e) (enamed e) (euris e) (eenums e) in
              let! (tc, e2) := enc_class (oclass (heap x)) e1 in
              match external chk (heap x) with
              | Some (u, f) =>
                  let '(tu, e3) := enc_uri u f e2 in
                  Done (TInt id :: tc ++ TInt (-2) :: tu ++ [TInt 0], e3)
              | None =>
                  let ti := match (if with_ids then oid (heap x) else None) with
                            | Some i => [TInt (-1); TAny i] | None => [] end in
                  let! (tf, e3) := enc_features chk x 0 (cfeatures (oclass (heap x))) e2 in
                  Done (TInt id :: tc ++ ti ++ tf ++ [TInt 0], e3)
              end
          end
      end.
  End EncRec.

  (** [n] bounds the depth of nested objects *)
  Fixpoint enc_object (n : nat) (e : estate) (chk : check) (o : option nat) : result (list token * estate) :=
    match n with
    | O => Fuel
    | S n' => enc_object_body (enc_object n') e chk o
    end.

  (** binaryencoder.go:29-31: signature (the bytes, the first being octal 211) and version *)
  Definition signature : list Z := [137; 101; 109; 102; 10; 13; 26; 10].
  Definition version : Z := 0.
  Definition e_start : estate := mkE [] [] [] [] [].

  (** binaryencoder.go:96-116 (EncodeResource) for the given contents *)
  Definition encode_resource (n : nat) (contents : list nat) : result (list token) :=
    let! (t, _) := enc_objects (enc_object n) checkContainer (map Some contents) e_start in
    Done (TBytes signature :: TInt version :: TInt (zlen contents) :: t).

  (** ** Decoder *)

  (** a decoded object; references are positions in d.objects; [dvalues] are the features that were set *)
  Record dobject := mkD { dclass : nat; dproxy : option U; did : option I; dvalues : list (nat * value) }.

  (** binarydecoder.go:41-51; [dpackages]: packageData with the known classes of eClassData in order of
      ids; [dfeatures]: the features known for a class and a feature number *)
  Record dstate := mkDS {
    dobjects : list dobject; dpackages : list (nat * list nat);
    dfeatures : list (nat * nat * feature); duris : list U; denums : list str }.

  (** binarydecoder.go:537-576 (decodeURI, resolveURI); [None] = nil *)
  Definition dec_uri (d : dstate) (ts : list token) : result (option U * dstate * list token) :=
    match ts with
    | TInt id :: ts1 =>
        if id =? -1 then Done (None, d, ts1)
        else
          let! (u, d1, ts2) :=
            (if zlen (duris d) <=? id
             then match ts1 with
                  | TStr s :: ts2 =>
                      match unrel s with
                      | Some u => Done (u, mkDS (dobjects d) (dpackages d) (dfeatures d) (duris d ++ [u]) (denums d), ts2)
                      | None => Fail
                      end
                  | _ => Fail
                  end
             else match zget (duris d) id with Some u => Done (u, d, ts1) | None => Fail end) in
          match ts2 with
          | TStr f :: ts3 => Done (Some (with_fragment u f), d1, ts3)
          | _ => Fail
          end
    | _ => Fail
    end.

  (** EPackage.GetEClassifier(name) restricted to classes, ecore/epackage_ext.go *)
  Definition class_named (p : nat) (s : str) : option nat :=
    match find (fun q => str_eqb (fst q) s) (classifiers p) with
    | Some (_, c) => c
    | None => None
    end.

  (** binarydecoder.go:498-535 (decodePackage): the position of the package *)
  Definition dec_package (d : dstate) (ts : list token) : result (nat * dstate * list token) :=
    match ts with
    | TInt id :: ts1 =>
        if zlen (dpackages d) <=? id
        then match ts1 with
             | TStr ns :: ts2 =>
                 let! (u, d1, ts3) := dec_uri d ts2 in
                 match get_package ns u with
                 | Some p => Done (length (dpackages d1),
                                   mkDS (dobjects d1) (dpackages d1 ++ [(p, [])]) (dfeatures d1) (duris d1) (denums d1), ts3)
                 | None => Fail
                 end
             | _ => Fail
             end
        else if id <? 0 then Fail else Done (Z.to_nat id, d, ts1)
    | _ => Fail
    end.

  (** binarydecoder.go:478-496 (decodeClass) with 585-600 (newClassData).  Simplification: the slots of
      eClassData are filled from the left, which is the order the encoder uses; an index beyond the
      first free slot is not modelled ([Fail]). *)
  Definition dec_class (d : dstate) (ts : list token) : result (nat * dstate * list token) :=
    let! (i, d1, ts1) := dec_package d ts in
    match nth_error (dpackages d1) i, ts1 with
    | Some (p, cs), TInt id :: ts2 =>
        match zget cs id with
        | Some c => Done (c, d1, ts2)
        | None =>
            if (id =? zlen cs) && (length cs <? length (classifiers p))%nat
            then match ts2 with
                 | TStr s :: ts3 =>
                     match class_named p s with
                     | Some c => Done (c, mkDS (dobjects d1) (set_nth i (p, cs ++ [c]) (dpackages d1)) (dfeatures d1)
                                               (duris d1) (denums d1), ts3)
                     | None => Fail
                     end
                 | _ => Fail
                 end
            else Fail
        end
    | _, _ => Fail
    end.

  (** ecore/eclass_ext.go:138-156: the last feature of that name *)
  Definition feature_named (c : nat) (s : str) : option feature :=
    find (fun f => str_eqb (fname f) s) (rev (cfeatures c)).

  (** binarydecoder.go:256-263 with 602-621 (newFeatureData) *)
  Definition dec_feature (c i : nat) (d : dstate) (ts : list token) : result (feature * dstate * list token) :=
    if (length (cfeatures c) <=? i)%nat then Fail
    else
      match find (fun p => Nat.eqb (fst (fst p)) c && Nat.eqb (snd (fst p)) i) (dfeatures d) with
      | Some (_, f) => Done (f, d, ts)
      | None =>
          match ts with
          | TStr s :: ts1 =>
              match feature_named c s with
              | Some f => Done (f, mkDS (dobjects d) (dpackages d) ((c, i, f) :: dfeatures d) (duris d) (denums d), ts1)
              | None => Fail
              end
          | _ => Fail
          end
      end.

  (** primitive kinds of decodeFeatureValue (binarydecoder.go:408-473); dates are in UTC (148-155) *)
  Definition dec_prim (k : pkind) (t : token) : option prim :=
    match k, t with
    | bfkFloat64, TF64 b => Some (PF64 b)
    | bfkFloat32, TF32 b => Some (PF32 b)
    | bfkNum k, TInt z => Some (PNum k z)
    | bfkBool, TBool b => Some (PBool b)
    | bfkString, TStr s => Some (PStr s)
    | bfkByteArray, TBytes b => Some (PBytes b)
    | bfkDate, TDate i => Some (PDate i 0)
    | _, _ => None
    end.

  (** binarydecoder.go:390-407 *)
  Definition dec_enum (d : dstate) (ts : list token) : result (str * dstate * list token) :=
    match ts with
    | TInt id :: ts1 =>
        if zlen (denums d) <=? id
        then match ts1 with
             | TStr s :: ts2 =>
                 Done (s, mkDS (dobjects d) (dpackages d) (dfeatures d) (duris d) (denums d ++ [s]), ts2)
             | _ => Fail
             end
        else match zget (denums d) id with Some s => Done (s, d, ts1) | None => Fail end
    | _ => Fail
    end.

  (** binarydecoder.go:379-387: [n] strings *)
  Fixpoint dec_strings (dt : DT) (n : nat) (ts : list token) : result (list D * list token) :=
    match n with
    | O => Done ([], ts)
    | S n' =>
        match ts with
        | TStr s :: ts1 => let! (l, ts2) := dec_strings dt n' ts1 in Done (create dt s :: l, ts2)
        | _ => Fail
        end
    end.

  (** the values set on an object *)
  Definition get_value (i : nat) (vs : list (nat * value)) : option value :=
    match find (fun p => Nat.eqb (fst p) i) vs with Some (_, v) => Some v | None => None end.
  Definition put_value (i : nat) (v : value) (vs : list (nat * value)) : list (nat * value) :=
    filter (fun p => negb (Nat.eqb (fst p) i)) vs ++ [(i, v)].

  Definition containment (k : kind) : bool :=
    match k with
    | bfkObjectContainment | bfkObjectContainmentProxy | bfkObjectContainmentList | bfkObjectContainmentListProxy => true
    | _ => false
    end.

  Definition same_ref (a : nat) (r : option nat) : bool := match r with Some b => Nat.eqb a b | None => false end.

  (** adding objects to a containment feature takes them out of the containment feature they were in
      (ESet/Add with inverse: see GraphModel); a child's container is here the object whose
      containment feature holds it *)
  Definition strip (children : list nat) (v : value) : value :=
    match v with
    | VObj (Some r) => if existsb (Nat.eqb r) children then VObj None else v
    | VObjs l => VObjs (filter (fun r => negb (existsb (fun a => same_ref a r) children)) l)
    | _ => v
    end.
  Definition is_containment (c i : nat) : bool :=
    match nth_error (cfeatures c) i with Some f => containment (fkind f) | None => false end.
  Definition detach (children : list nat) (o : dobject) : dobject :=
    mkD (dclass o) (dproxy o) (did o)
        (map (fun p => (fst p, if is_containment (dclass o) (fst p) then strip children (snd p) else snd p)) (dvalues o)).
  Fixpoint somes {X} (l : list (option X)) : list X :=
    match l with [] => [] | Some x :: l' => x :: somes l' | None :: l' => somes l' end.
  Definition children_of (v : value) : list nat :=
    match v with VObj (Some r) => [r] | VObjs l => somes l | _ => [] end.

  (** eObject.ESetFromID(i, v), or the addition to the list of feature [i]; the object is d.objects[k] *)
  Definition set_feature (k i : nat) (f : feature) (v : value) (d : dstate) : result dstate :=
    let objs := if containment (fkind f) then map (detach (children_of v)) (dobjects d) else dobjects d in
    match nth_error objs k with
    | Some o => Done (mkDS (set_nth k (mkD (dclass o) (dproxy o) (did o) (put_value i v (dvalues o))) objs)
                           (dpackages d) (dfeatures d) (duris d) (denums d))
    | None => Fail
    end.

  (** the list held by feature [i] of object [k] before decoding *)
  Definition current_list (k i : nat) (d : dstate) : list (option nat) :=
    match nth_error (dobjects d) k with
    | Some o => match get_value i (dvalues o) with Some (VObjs l) => l | _ => [] end
    | None => []
    end.
  Definition current_datas (k i : nat) (d : dstate) : list D :=
    match nth_error (dobjects d) k with
    | Some o => match get_value i (dvalues o) with Some (VDatas l) => l | _ => [] end
    | None => []
    end.
  Definition ref_eqb (a b : option nat) : bool :=
    match a, b with Some x, Some y => Nat.eqb x y | None, None => true | _, _ => false end.

  Section DecRec.
    Context (dec_object : dstate -> list token -> result (option nat * dstate * list token)).

    (** binarydecoder.go:288-294 *)
    Fixpoint dec_objects (n : nat) (d : dstate) (ts : list token) : result (list (option nat) * dstate * list token) :=
      match n with
      | O => Done ([], d, ts)
      | S n' =>
          let! (o, d1, ts1) := dec_object d ts in
          let! (l, d2, ts2) := dec_objects n' d1 ts1 in
          Done (o :: l, d2, ts2)
      end.

    (** binarydecoder.go:340-476 (decodeFeatureValue) *)
    Definition dec_value (k i : nat) (f : feature) (d : dstate) (ts : list token) : result (dstate * list token) :=
      match fkind f with
      | bfkObjectContainer | bfkObjectContainerProxy | bfkObject | bfkObjectProxy
      | bfkObjectContainment | bfkObjectContainmentProxy =>
          let! (o, d1, ts1) := dec_object d ts in
          let! d2 := set_feature k i f (VObj o) d1 in
          Done (d2, ts1)
      | bfkObjectList | bfkObjectListProxy | bfkObjectContainmentList | bfkObjectContainmentListProxy =>
          match ts with
          | TInt n :: ts1 =>
              let! (l, d1, ts2) := dec_objects (Z.to_nat n) d ts1 in
              match reconcile ref_eqb None (funique f) (current_list k i d1) l with
              | Some l' => let! d2 := set_feature k i f (VObjs l') d1 in Done (d2, ts2)
              | None => Fail
              end
          | _ => Fail
          end
      | bfkData =>
          match ts with
          | TStr s :: ts1 => let! d1 := set_feature k i f (VData (create (fdatatype f) s)) d in Done (d1, ts1)
          | _ => Fail
          end
      | bfkDataList =>
          match ts with
          | TInt n :: ts1 =>
              let! (l, ts2) := dec_strings (fdatatype f) (Z.to_nat n) ts1 in
              match list_do d_eqb d_nil (funique f) (current_datas k i d) (AddAll (Ext l)) with
              | Some l' => let! d1 := set_feature k i f (VDatas l') d in Done (d1, ts2)
              | None => Fail
              end
          | _ => Fail
          end
      | bfkEnum =>
          let! (s, d1, ts1) := dec_enum d ts in
          let! d2 := set_feature k i f (VData (create (fdatatype f) s)) d1 in
          Done (d2, ts1)
      | bfkPrim pk =>
          match ts with
          | t :: ts1 => match dec_prim pk t with
                        | Some p => let! d1 := set_feature k i f (VPrim p) d in Done (d1, ts1)
                        | None => Fail
                        end
          | _ => Fail
          end
      end.

    (** binarydecoder.go:255-273, [featureID] being the number read; [m] bounds the number of turns *)
    Fixpoint dec_features (m c k : nat) (featureID : Z) (d : dstate) (ts : list token) : result (dstate * list token) :=
      match m with
      | O => Fuel
      | S m' =>
          if featureID =? -1 then Done (d, ts)
          else if featureID <? 0 then Fail
          else
            let i := Z.to_nat featureID in
            let! (f, d1, ts1) := dec_feature c i d ts in
            let! (d2, ts2) := dec_value k i f d1 ts1 in
            match ts2 with
            | TInt z :: ts3 => dec_features m' c k (z - 1) d2 ts3
            | _ => Fail
            end
      end.

    Definition add_object (o : dobject) (d : dstate) : dstate :=
      mkDS (dobjects d ++ [o]) (dpackages d) (dfeatures d) (duris d) (denums d).
    Definition set_id (k : nat) (i : I) (d : dstate) : dstate :=
      match nth_error (dobjects d) k with
      | Some o => mkDS (set_nth k (mkD (dclass o) (dproxy o) (Some i) (dvalues o)) (dobjects d))
                       (dpackages d) (dfeatures d) (duris d) (denums d)
      | None => d
      end.

    (** binarydecoder.go:191-280 (decodeObject) *)
    Definition dec_object_body (d : dstate) (ts : list token) : result (option nat * dstate * list token) :=
      match ts with
      | TInt id :: ts1 =>
          if id =? -1 then Done (None, d, ts1)
          else if zlen (dobjects d) <=? id
          then
            let! (c, d1, ts2) := dec_class d ts1 in
            let k := length (dobjects d1) in
            match ts2 with
            | TInt z :: ts3 =>
                let! (fid, d2, ts4) :=
                  (if z - 1 =? -3
                   then let! (u, d2, ts4) := dec_uri d1 ts3 in
                        match ts4 with
                        | TInt z' :: ts5 => Done (z' - 1, add_object (mkD c u None []) d2, ts5)
                        | _ => Fail
                        end
                   else Done (z - 1, add_object (mkD c None None []) d1, ts3)) in
                let! (fid', d3, ts6) :=
                  (if fid =? -2
                   then match ts4 with
                        | TAny i :: TInt z' :: ts5 => Done (z' - 1, set_id k i d2, ts5)
                        | _ => Fail
                        end
                   else Done (fid, d2, ts4)) in
                let! (d4, ts7) := dec_features (S (length ts6)) c k fid' d3 ts6 in
                Done (Some k, d4, ts7)
            | _ => Fail
            end
          else if id <? 0 then Fail else Done (Some (Z.to_nat id), d, ts1)
      | _ => Fail
      end.
  End DecRec.

  (** [n] bounds the depth of nested objects *)
  Fixpoint dec_object (n : nat) (d : dstate) (ts : list token) : result (option nat * dstate * list token) :=
    match n with
    | O => Fuel
    | S n' => dec_object_body (dec_object n') d ts
    end.

  Definition d_start : dstate := mkDS [] [] [] [] [].

  (** binarydecoder.go:69-103 (DecodeResource): the contents of the resource, as positions in the decoded
      objects, and the decoded objects.  The resource is empty before. *)
  Definition decode_resource (ts : list token) : result (list (option nat) * list dobject) :=
    match ts with
    | TBytes sg :: TInt v :: TInt size :: ts1 =>
        if negb (if list_eq_dec Z.eq_dec sg signature then true else false) then Fail
        else if negb (v =? version) then Fail
        else
          let! (l, d, _) := dec_objects (dec_object (length ts)) (Z.to_nat size) d_start ts1 in
          match list_do ref_eqb None true [] (AddAll (Ext l)) with
          | Some l' => Done (l', dobjects d)
          | None => Fail
          end
    | _ => Fail
    end.
End Binary.

Arguments token : clear implicits.
Arguments feature : clear implicits.
Arguments value : clear implicits.
Arguments env : clear implicits.
Arguments object : clear implicits.
Arguments estate : clear implicits.
Arguments dobject : clear implicits.
Arguments dstate : clear implicits.
