# Formal model of masagroup/soft.go — design

## Approach

The Go sources under `/repo/ecore` are read as text and transcribed, function by function, into
executable Gallina (`rocq/theories/*Model.v`).  Every definition cites the file and lines it models.
A small independent specification lives in `*Spec.v`, proofs in `*Proofs*.v` (and similarly named helper
files), concrete systems used by examples in `*Run.v`/`*Examples.v`, and the statements that count in
`*Theorems.v`.  Those files contain only `Theorem … Proof. exact … Qed. Print Assumptions …` and the
`Example`s showing that the hypotheses are met by non-trivial cases.

Conventions
* A Go panic is an explicit value (`Panic`, or `None` where the model says so), never a default.
* `nil` is `None`.  Object identity is an abstract identifier (`nat`) with decidable equality.
* Mutation becomes state passing.  A slice is a list, except in the slice model (C47) where it is a
  view (array, offset, length, capacity) of a heap of arrays.
* Goroutines become a transition system whose steps interleave arbitrarily.
* Loops whose termination is not structural use fuel and return an explicit out-of-fuel value which the
  theorems exclude, or are proved terminating.
* Where a property is false of the code as written, the theorem is `…_refuted : exists …` and the
  finding is listed below.  What does hold is proved beside it: with the suffix `_partial` under the
  original property, and, when it is a useful claim of its own, as a further property (C49 and later)
  whose English statement carries the hypotheses.

## Trusted base

* Coq 8.16.1: kernel, parser, and `vm_compute` (used by examples, witnesses and some decidable goals).
* `Print Assumptions` is run on every theorem of every `*Theorems.v`; all of them answer
  "Closed under the global context".  No axiom is declared in the development.  Standard libraries that
  are loaded contribute only the `Coq.ssr.ssrunder` module-type parameters reported by `coqchk -o`; no
  theorem depends on them.
* The reading of Go as Gallina: semantics of slices, maps (iteration order is arbitrary), interfaces,
  `==`, integer widths and panics as described in the header of each model file.
* External packages, entering as parameters with the documented contract as an explicit hypothesis, or
  modelled from their documentation: `strconv`, `strings`, `net/url`, `time` (StrconvModel, TimeModel),
  `strconv.FormatFloat/ParseFloat` (functions with the shortest-format round-trip guarantee),
  IEEE 754 conversions (FloatModel, Coq's SpecFloat), `html.EscapeString`, the tokens of `encoding/xml` (XmlTokenModel), msgpack (typed tokens), SQLite and
  sqlitex (ordering of rows, affinity, NULL for NaN, tokenizer), the promise and worker-pool libraries
  (a promise settles once; unbounded pool), uuid/ulid generators (streams), the gods linked hash set
  (iteration while removing, as in its source), `weak`/cache maps (arbitrary partial maps).

## What is modelled

| model | Go code | simplifications and parts left out |
|-------|---------|------------------------------------|
| ListModel | abstractelist.go, basicelist.go, elistiterator.go | element equality is total (no panic on uncomparable values) |
| NotifyModel | basicenotifyinglist.go, abstractnotification.go, notificationchain.go | the owner delivers notifications; inverse callbacks are in GraphModel |
| NotifierModel | abstractenotifier.go, enotifier_impl.go, abstracteadapter.go | — |
| SearchModel | elist.go (BinarySearch) | pure comparison function |
| CompactModel | compacteobject_impl.go, compacteobject_container.go | 64-bit overflow of the feature id shift |
| MapModel | basicemap.go | entries are heap cells; inverse callbacks left out |
| RegistryModel | epackageregistry_impl.go, ecodecregistry_impl.go | suppliers are pure |
| GraphModel, ResourceSetModel | abstracteobject.go, basiceobjectlist.go, basicenotifyinglist.go, eresource_impl.go (contents), eresourceset_impl.go (resources) | dynamic objects, references only, no proxies, adapters do not edit the graph; URI map and loading left out |
| DynModel | abstracteobject.go:241-301, 355-360, 391-568 (attributes), dynamiceobject_impl.go, reflectiveeobject_impl.go, basicedatatypelist.go | no references; default values are parameters; an edit of a list is one notification; objects without static features |
| EcoreSyntax, EcoreTables | ecorepackage_impl.go (creation and description of all classes and features), constants of ecorepackage.go, and of the 20 e*_impl.go: EGetFromID, ESetFromID, EUnsetFromID, EIsSetFromID, EBasicInverseAdd, EBasicInverseRemove, getters, setters, basicSet*, Unset*, init*, Initialize | transcription, one entry per statement, made by a script from the sources and kept as a table; EStaticClass and EStaticFeatureCount; operations and EInvoke left out |
| EcoreModel | what those statements do, with abstracteobject.go:83-85, 218-227, 391-417, 540-566, 650-877, basiceobjectlist.go:26-42 and 121-145, basiceobjectmap.go:22-37, and the methods of e*_ext.go for attributes | derived references only as features; values of references are of the declared type or nil; e*_ext.go overrides of setters of references do not exist; caches left out |
| AdapterModel | econtentadapter.go, with the notifications of GraphModel's operations | see the header of AdapterModel.v |
| SliceModel | basicelist.go, immutableEList.go with Go slices and capacities | see the header of SliceModel.v |
| CopyModel | deepcopy.go, ecoreutils.go (Copy, CopyAll) | no proxies; EFactory.Create is a stream of fresh blank objects; EIsSet as in generated classes; Go map order arbitrary |
| EqualModel | deepequal.go, ecoreutils.go (Equals, EqualsAll) | snapshot of the graph after proxy resolution |
| TreeModel | etreeiterator.go, econtentslist.go, eallcontents.go | the graph does not change during the iteration |
| ClassModel | eclass_ext.go | IsOverrideOf is an arbitrary relation; no proxies of super types; the mutex only as fuel; moving a feature is removal then addition; the containing class is given to SetID |
| IdModel | uniqueidmanager.go, eobjectidmanager_impl.go | addresses of live objects are distinct; generators are streams; string attributes convert identically |
| UriModel | uri.go, euriconverter_impl.go | bytes = runes; ParseURI's use of net/url; the cache is an arbitrary partial map |
| LoadModel | eresourceset_impl.go:69-135, eresource_impl.go:402-492, ecoreutils.go:126-147 | readers, codecs and decoders are parameters (decoders: lists of additions, demands and complaints); loading with options or without a resource set, notifications and id managers left out |
| FragmentModel | eresource_impl.go, abstracteobject.go, emodelelement_ext.go, ecoreutils.go (fragments) | the graph does not change during the calls |
| XmlNsModel | xmlnamespaces.go, prefix allocation of xmlencoder.go and xmldecoder.go | — |
| XmlOutModel | xmlstring.go, saving in xmlencoder.go, xmiencoder.go | qualified names and texts of values are inputs; no line wrapping |
| XmlTokenModel | (library) xml.Decoder.Token as xmldecoder.go:144-168 uses it | see the header of XmlTokenModel.v: comments, directives, CDATA and hexadecimal references answer a syntax error |
| XmlInModel | xmldecoder.go:31-229, 270-674, 737-798 | the metamodel, values' texts and proxy URIs are inputs; references with a non-container opposite (xlfkManyMove, sameDocumentProxies), document roots, DecodeObject, moving an attached object left out (outcome Unmodelled) |
| MetaModel | epackage_ext.go:19-69, extendedmetadata.go (names and types), estructuralfeature_ext.go:27-68, edatatype_ext.go:30-66, ereference_ext.go:30-39, eclassifier_impl.go:66-72 | one ExtendedMetaData; no proxies; conversions of factories are parameters; a factory belongs to one package; namespaces left out |
| LiteralModel | efactory_ext.go, ecorefactory_impl.go, eenum_ext.go, edatatype_ext.go | strconv, time, IEEE conversions from documentation |
| BinaryModel, BinaryListModel | binaryencoder.go, binarydecoder.go, binarycodec.go | msgpack is faithful typed tokens; numbers in range; URIs, conversions, package lookup are an environment; references with non-containment opposites only in BinaryListModel |
| StoreListModel | estorelist.go, estoreeobject_impl.go | the store is the contract of estore.go (synchronous; out-of-range call = panic); mutex, inverse callbacks, RESOLVE notifications left out; SetEStore with a different store only |
| SqlOrderModel | sqlstore.go (lists) | SQLite ORDER BY, OFFSET, rowid semantics from documentation; values encoded faithfully |
| SchedModel, SqlSchedModel | sqlstore.go (scheduleOperation), sqlbase.go | transition system; the SQL parser that classifies statements is external |
| ChannelModel | sqlstore.go (infiniteChannel) | unbuffered channels; all interleavings |
| LockModel | sqlencoder.go (sqlEncoderLockManager) | critical sections of the manager's own mutex are atomic |
| SqlSchemaModel | sqlschema.go, sqlcodec.go | ASCII case folding; names of indexes; WHERE and ORDER BY texts left out |
| SqlValueModel | sqlencoder.go, sqldecoder.go (values) | SQLite storage rules from documentation; package encoding identity |
| SqlCellModel | sqlstore.go (Get, Set, IsSet, UnSet, GetContainer, SetContainer), sqlencoder.go:281-425, 622 | operations one after the other; attributes only; objects without values when first stored; SQLite never fails |
| SqlDocModel | sqlencoder.go:263-454, 866-903 (objects, features, contents), sqldecoder.go:388-429, 805-862, 961-1144 | columns of attributes are parameters (SqlValueModel has them); SQLite gives keys in order and never fails; references without opposites; the tasks of the decoder set values in any order, each ESet being atomic |
| SqlIdentModel | sqlstore.go:328-418 (identifiers), 930-978, 1379-1473 (Get and Set of single references), 1761-1859 (roots, UnRegister), sqlencoder.go:263-434, sqldecoder.go:278-340, 388-430 | SQLite keeps what it is given, rows come in the order of insertion, the primary key is unique; calls are atomic; classes known by number; values of an object not in the store are given when it is created; what is below an object is given as a tree to UnRegister; lists, attributes and the object-identifier column left out |
| AttachModel | eresource_impl.go:79-97, 353-401, 474-491, with the calls to Attached and Detached in abstracteobject.go | the operations of GraphModel with the calls they make to the id managers and listeners (AttachErase.v: same states); every resource has a manager or a listener; these do not edit the graph |
| StoreMapModel | estoremap.go:12-91 with basicemap.go:71-187 | maps over the lists of StoreListModel; entries are the cells of MapModel (their own storage and cache are not modelled), no inverse references, no notifications; the locking part has the two mutexes and, per call, the order in which they are taken; whether a lookup has to build the map's data is given with the call |
| StoreObjModel | estoreeobject_impl.go:16-284 with estorelist.go:34-177, eclass_ext.go:130-169 | one object, its single-valued features and lists (handles over the lists of StoreListModel), several stores; no default values, no maps, transient lists not modelled, children's own SetCache, inverse references, notifications and mutexes not modelled; the container part has the container field, its feature id and what each store says; the search of GetFeatureID starts at the beginning |
| StoreLockModel | estoreeobject_impl.go:43-59, sqlencoder.go:277-279, 347-414, sqlstore.go:328-333 | lock counts per list of one goroutine, on the objects of StoreObjModel; the recursive mutex library (rmx) is trusted; the object's own mutex and the rows written are left out, and so is the option to keep defaults |
| EncodeModel | sqlencoder.go:281-425, sqlstore.go:969-978 | interleavings of goroutines in encodeObject; object locks are exclusive (C30) and calls of the id manager atomic; classes, packages and enumeration literals, the object's own Lock, and ids cleared in between are left out; which queries fail is arbitrary |
| ClassDataModel | sqlencoder.go:571-646 | interleavings of goroutines in getEncoderClassData; class locks are exclusive (C30); the contents of the data, tables left behind by a failure, and the unsynchronised map itself are left out |
| EncodeClearModel | sqlstore.go:407-418, 943-967, 1844-1860 | EncodeModel with ids that other operations set and clear at any moment; nothing else of these operations |
| LoadedModel | eresource_impl.go:99-135, 206-211, 440-491, 563-574; basicelist.go:63-180 | the loaded flag, the contents lists made so far (sizes only) and the IS_LOADED notifications. A load has a codec and a reader; the calls made while the document is read are arbitrary. Not modelled: LoadWithOptions, the other notifications, listeners that act when notified of the flag |
| OverrideModel | eoperation_ext.go:24-41; eclass_ext.go:122-124, 196-221, 356-379, 406-419 | IsOverrideOf and GetOverride over a fixed hierarchy; the lists are computed anew (their caching is in ClassModel), the order of eAllSuperTypes is not modelled, parameters are their types |
| JsonModel | jsonencoder.go:33-174, jsoncodec.go:24-72 | the JSON value described by the calls to the jsonwriter library (its text and escaping are trusted, and so is jsonEscape); texts of values, classes and references are parameters; keepDefaults is never set by the code |

Not modelled: mocks and operations of the generated code, namespaces of extendedmetadata.go, eresource_impl.go saving, emodelelement resolution of
proxies across resources, generics
(egenerictype*), and `/repo` packages other than `ecore`.

## Findings

Each is the content of a `…_refuted` theorem unless marked (read), i.e. noticed while reading but not modelled.

Lists and notifications
* `getNonDuplicates` removes from the set it iterates: `[1,2,3].AddAll([1,2])` gives `[1,2,3,2]` (C01, C02).
* `Move` accepts `newIndex == Size()` and then panics; `doAddAll` announces positions from 0 (C49); `doClear` fires
  no `DidChange` (read).
* `l.AddAll(l)` on a non-unique list sends a doubled ADD_MANY (C03).
* Merging REMOVE_MANY with a REMOVE before a removed position corrupts positions; two SETs of different positions
  of a list merge (C04).
* An observer that removes itself hides the notification from the next one (C42); `Clear` and `Set` on an adapter
  list leave stale targets (C50).
* Returned and passed slices share memory with lists (C47, see its theorems).

Objects, resources, metamodel
* `EUnset` of a many-valued reference with inverse does not inform the other ends; a reference that is its own
  opposite, and several supertypes, break containment and symmetry (C05, C06, C52).
* No guard against containment cycles (C45); `Unload` never resets the resource of its objects (C08, C09).
* `Remove` of an object under a bidirectional containment unsets the container's container (C53).
* Compact objects: setting nil, clearing the proxy URI and the container variant corrupt other fields (C07).
* `eAllCrossReferences` and `eReferenceType` are never invalidated; updates inside a feature and silent classes leave
  stale views (C20); `setModified` and initialisation take class locks in opposite orders (read).
* Maps accept duplicate keys through the entry list and miss direct updates of entries (C17).
* Class-filtered traversal misses objects in five ways (C46).
* Content adapter: a bulk addition of an object and of one of its own descendants leaves the adapter on the
  descendant; other failures are listed with C40.
* `eDynamicPropertiesCreateList` passes `EIsProxy()` for `IsResolveProxies()` (read); `getObjectByID("")` without
  manager returns the first object without id (read).

Identifiers, URIs, fragments
* `SetID` accepts the id of another object; freshness stops at int64 and when an address is reused (C10, C11).
* Empty references are not resolved, `Authority` searches the host in the whole text, an unnormalised base gives a
  wrong result (C14); the cache keyed by text confuses `c:d` (C68); the converter loops on cyclic maps and stops on
  identity mappings (C44); NUL cuts segments in normalisation (read).
* Fragments: ids starting with `/` are read as paths, id `?` panics, ID attributes are written but not read, names
  ending in `.digits` are misread (C15); model element segments are escaped twice, the first annotation's segment
  panics (C41); the relative path of an object to itself panics (C73).

XML
* `declarePrefix` after a closed scope panics or overwrites (C33); prefix allocation loops with three packages of one
  prefix, aliases `xsi` (C34); many-valued attribute values, hrefs, idrefs and ids are not escaped, document roots write
  outside tags (C35); `setAttributeValue` cuts the prefix one character short (read).

Binary
* Features with empty names desynchronise the stream, proxies behind non-resolving references and objects of a resource
  without URI lose their URI, dates lose their location (C18); lists that were partly filled are always mis-ordered
  (C19, C80).

SQL
* AddAll in the middle is misplaced, and repeated insertion exhausts binary64 (C23); a write waits only for the last
  pending read, timeouts execute without waiting (C24); feature operations do not wait for object or store operations
  (C25); one rejected operation or panic disables later ones (C26); statements of unknown kind and scripts are
  misordered (C27); `Get` may return the value of `AddRoot`/`SetContainer`/another object (C28).
* `Close` twice at the same time may panic (C51).
* Table and column names collide (case, underscore, `idx`, `<class>ID`); identifiers with special characters are not
  quoted (C31, C83); dates, NaN, -0.0, nil slices change (C32); a relative URI that is a number is read as an object id
  (C88).
* Store lists: `SetEStore` never updates the size, a list detached while empty loses additions, self-insertion makes
  cache and store differ, resolved proxies are not found in a cached list (C22); transient features are erased by
  `SetCache` (C76); callbacks differ with the cache (C78).

Values, copies, equality
* Two enum literals with one text read back as the first (C36); EDate loses zone and sub-milliseconds, an empty EByte
  literal yields a string (C84, C85).
* `Equals` ignores inherited features, is not transitive, distinguishes lists that were read, and NaN from itself
  (C39, C89).
* Copies lose inherited references and bidirectional references to the outside; dynamic copies share attribute lists and
  their children have no container; nested roots in `CopyAll` are confused (C38, C90).
* A content adapter stays on an object that left with its container in one `AddAll`, is taken off an object that `Set`
  removed from the contents of a resource although it is still contained, and is taken off an object the user put it
  on when that object leaves an adapted container (C40).
* C47: `ToArray` returns the list's own slice (basicelist.go:184-186): `RemoveAt` and `Set` change what was returned,
  and `RemoveAt` sets its last element to nil.
* C47: `doInsertAll` computes `append(collection.ToArray(), list.data[index:]...)` (basicelist.go:100): when the slice of
  the argument has spare capacity, the elements of the receiver are written after the argument's elements, in memory of
  the argument.  A slice taken from the argument before a removal sees them.
* C47: lists made by `NewBasicEList` of one slice with spare capacity overwrite each other's additions.

- C99: the URI cache of a resource set (uriResourceMap) is never invalidated. After SetURI on a cached resource
  GetResource returns the moved resource for its former URI even if the set has another resource with it; after
  removal from the set it returns (and loads) a resource that is no member.
- C99: a resource without URI in a resource set makes every GetResource that gets past it recurse without end:
  Normalize(nil) calls itself because nil.Equals(nil) is false.
- C100: ResolveInResourceSet only guards against a proxy that resolves to itself; two proxies that resolve to each
  other overflow the stack.
- C98: a resource to which an object was added counts as loaded, so GetResource(uri, true) and Load silently never
  read its document.
- C102: without deferred resolution `setValueFromId` appends what it can resolve at once and leaves the rest for the end
  (xmldecoder.go:622-643), so that `next="#//@books.2 #//@books.0"` on the second book is loaded in the reverse order.
- C103: for an unknown feature `handleFeature` pushes neither an object nor a type (xmldecoder.go:417-445), but
  `endElement` pops both: the siblings of the parent are then read as features of the wrong object or as roots.
- C104: loading panics on an object that refers to itself twice (`Move(position, index)`, line 487, has its arguments
  swapped), on a path with an unknown feature, on a second element that declares a prefix (C33), and on a reference of
  the root to another document whose declared type is abstract (`l.objects[:len(l.objects)-1]`, line 608).
- C105: a list of values in an attribute is ignored (line 469), `xsi:nil` elements become empty texts, and `name=""`,
  which is how an empty unsettable list of references is saved, becomes a reference to the root
  (`strings.Split("", " ")` has one element, and GetEObject("") finds the first object without id).
- C107: a text that ends before the root element is loaded as an empty resource without error (io.EOF, line 148).
- **GetEClassifier (C108)** keeps a map of names that only changes of the list empty: after `SetName` the old name is
  still found and the new one is not; with `SetEDeliver(false)` removed classifiers are found.
- **ExtendedMetaData (C110, C112)**: `GetType` finds removed classifiers; it stops filling its map at the name looked
  for and rebuilds it only when the sizes differ, so that after a removal a classifier that is present is not found;
  it never sees changed names; with two classifiers of one name the answer depends on earlier lookups. `GetName` and
  `GetType` of one package panic, in either order, since both keep an entry under the package.
- **Default values (C113, C115)**: the default value of a feature is kept for the factory of its type, so after
  `SetEType` to another type of the same package the value of the old type is returned; the type of a reference and
  the number of a classifier are kept forever; asking a data type without instance type for its default value fixes
  it to nil.
- **SQL store, single values (C117, C120)**: `getFeatureSchema` looks at the features of the object's own class
  (sqlstore.go:888-901), so an inherited attribute is never stored, and `Get` answers the Go error itself as the value
  (`return err, nil`, line 1390). A NULL column reads as the zero value whatever the default. `UnSet` writes the
  default value without encoding it (line 1555): for an enumeration the number is read as the row of whichever literal
  has that key. `IsSet` compares the database's int64 with a bool or int and is always true (line 1513). The number
  of the containment feature stored with a child is its number in the declaring class (sqlencoder.go:622) but is read
  as a number in the container's class (sqlstore.go:2184): with two supertypes another feature is found.

- **SQL documents (C122)**: `EncodeResource` writes the first object of the contents only. A column that is NULL is
  decoded to the zero value of its kind and set, so an attribute that was not set and whose default is not zero
  changes. A link written before its target has a number is written as a URI and comes back as a proxy although both
  ends are in the document; when the type of the link is an abstract class `Create` panics for the proxy and the
  load fails. With both `SQL_OPTION_CONTAINER_ID` and `SQL_OPTION_OBJECT_ID` the decoder reads the container column
  as identifier; an object without identifier gets the text `<nil>`. References that are neither containments nor
  resolve proxies are written like containments: the objects they lead to are copied into the database.
- **JSON documents (C124)**: `EncodeResource` writes the first object of the contents only. References that neither
  contain nor resolve proxies are written as nested objects, so two objects that refer to each other send the encoder
  into a recursion without end, and an object reached twice is written twice. A feature called `eClass` (or like the
  identifier's name) gives a second member of that name. A reference that is set to nil panics.
- **Dynamic objects (C126)**: values are kept in a slice by feature number. A feature added to the class of an existing
  object makes every call on it panic (index out of range), for a dynamic object even after `SetEClass` with the same
  class; removing a feature, or `SetEClass` to another class, shows values under other features. `EGet` of a
  list stores it, so that `EIsSet` answers true afterwards. `ESet` of a list feature stores the given list itself: two
  objects then share it and only its first owner announces edits. Notifications carry nil where `EGet` answers
  the default value. A reflective object uses the number a feature has in its own class, so that with two supertypes
  another feature is read and set.
- C52 (unset elsewhere): EUnset, and ESet with nil, of a container reference look only at whether the
  object has a container.  When the object is contained through another reference, and the container
  reference is not set, the call still takes the object out of its container
  (abstracteobject.go:420-436, 569-577).  What such calls change is exactly described by C129.
- **Generated classes (C131, C134, C135, C138, C139)**: `ESet` and `EUnset` of a feature that cannot be changed (for
  example `EClassifier.ePackage`, `EClass.eAllAttributes`) never return: the generated switch has no case,
  `AbstractEObject.ESetFromID` calls `ESet`, which calls `ESetFromID` (abstracteobject.go:401-417, 550-566). The getters
  of container references assert the type of `EContainer()` when the container feature number matches; an object that
  was taken out of its container keeps the number, so `GetEContainingClass()`, `EGet` and `EIsSet` panic for a feature
  removed from its class. `ESet` of a many-valued reference clears the list and adds the given one: giving a
  reference its own list empties it. `EAnnotationImpl.EBasicInverseRemove` does nothing for `details`: an
  entry added to a second annotation stays in both. The lists of `EPackage.eClassifiers` and `eSubPackages` do not
  resolve proxies although the references do. Besides: `ESet` with a value of another type sets a single reference to
  nil without complaint, an enumeration literal without text reads as its name while `EIsSet` is false,
  `instanceTypeName` is `instanceClassName` under another name, and `GetEAttributeType` panics without a type.
- **C141** `C141_announced_refuted`: setting `instanceTypeName` of a classifier sends a notification
  for `instanceClassName` (`ecore/eclassifier_ext.go:35-42`); an adapter listening for
  `instanceTypeName` never hears of it.
- **C142, C144, C147 (identities in the SQL store)**: an object whose class is not an SQLObject has its identifier only
  in the maps of the store; after `UnRegister` it is unknown, and `Get` answers nil for references that were set
  (sqlstore.go:407-418, 943-967). `Set` of a reference that does not contain, to an object not in the store, writes
  its URI, and `Get` answers a proxy even after the object was added. `AddRoot` of the same object twice gives it twice in
  `GetRoots`. An SQLObject that was removed from the roots and unregistered keeps its identifier; adding it again
  inserts a second row with the same key, which fails (sqlencoder.go:304-341). An SQLObject of another store is taken
  for the one with the same identifier. Unregistering again an object that was unregistered before removes the
  entry of the object that stands for it now, so that a third object is made for the same row.
- **C151 (announcements of resources)**: `Attached` and `Detached` visit the whole tree below the object, also parts that
  have a resource of their own (eresource_impl.go:357-366). When a root of R1 is contained, through a reference
  that resolves proxies, by an object that is added to R2, the id manager of R2 registers it although its
  `EResource()` is R1. `Unload` clears the manager, but the objects still answer the resource
  (eresource_impl.go:485-491, see C09).
- **C153 (store-backed maps)**: on a map that does not cache, `RemoveRange` passes a slice to `DidRemove`
  (estorelist.go:327), whose assertion to `EMapEntry` panics (estoremap.go:30), with the list's mutex still
  locked. `EStoreMap.SetEStore` does not reset the map's data as `SetCache` does (estoremap.go:62-75), so lookups
  answer from the former store.
- **C155 (deadlock of store-backed maps)**: `GetValue`, `ContainsKey` and `ToMap` take the map's mutex and then, to build
  the data, the list's (basicemap.go:81-86, 159-167); additions, removals and `Clear` take the list's mutex and then, in
  the callback, the map's (estorelist.go:186-310, basicemap.go:169-187). The first lookup and an addition by
  another goroutine can wait for each other for ever. C156 says exactly when.
- **C157 (two lists for one feature)**: `SetCache` drops the properties of an object that has a store
  (estoreeobject_impl.go:112-114), the next read makes another `EStoreList`.  A client that kept the first list and one
  that reads the second write into the same rows without seeing each other; the sizes the lists keep go stale.
- **C160 (detaching)**: `SetEStore(nil)` (estoreeobject_impl.go:72-80) copies single values only, and only when the
  object does not cache; it does not tell the lists in `properties`, which go on writing into the store; lists that
  were not read before are empty afterwards.
- **C162 (container erased)**: reading the container of an object without store makes it "no container"
  (estoreeobject_impl.go:154-156); attaching the store later then writes that over the container the store has
  (lines 82-83, 161-175).  Detaching before the container is read loses it on the object's side.
- **C164 (IsSet)**: `EDynamicIsSet` says yes for a list that was read, even if empty (estoreeobject_impl.go:181-183).
- **C166 (Lock/Unlock)**: `Unlock` unlocks the lists the object has at that time (estoreeobject_impl.go:52-59). The SQL encoder locks an object, and `registerObject` sets its store before the deferred Unlock (sqlencoder.go:350, 414); an object that does not cache drops its lists there, so every list a client got from it before stays locked by the encoding goroutine. A list read between Lock and Unlock is unlocked without being held. C167 is exact.
- **C170 (id before the features)**: `encodeObject` registers the object's id (sqlencoder.go:345) before its features are written and does not take it back when a query fails, and the SQL code opens no transaction: a second attempt finds the id and returns without error although the features were never written. For the same reason a goroutine that meets an object while another one encodes it returns before the object is written.  (Registering the id early is what makes C168 hold for objects that contain one another.)
- Not covered by a theorem: `classDataMap` is a plain map that getEncoderClassData reads and writes under the lock of one class (sqlencoder.go:575-578, 642), so goroutines that meet different classes write it at the same time.
- **C174 (order of IS_LOADED)**: `LoadWithReader` makes the notification before it reads the document and sends it afterwards (eresource_impl.go:452-463), while the contents list sends its own at once (118-134). When the contents are emptied while the document is read, a listener gets true-to-false, then false-to-true, and takes an unloaded resource for a loaded one.
- **C175 (lists kept across Unload)**: `DoUnload` only drops the contents list (eresource_impl.go:485); the list still points to the resource and sets and clears its flag. After Unload, adding to the old list makes the resource loaded without contents, and Load then does nothing; emptying the old list makes a resource with contents unloaded.
- **C179 (which override)**: the inner loop of `initOperationToOverrideMap` goes from the end of the list and does not stop at the first override it finds (eclass_ext.go:209-217), so the last one stored is the nearest one: in a class C below B below A, which all declare the operation, `GetOverride` of A's operation is B's, not C's. `eAllOperations` keeps duplicates (356-379) and an operation is an override of itself (eoperation_ext.go:26, eclass_ext.go:122-124), so in a class that reaches another one twice the inherited operations are their own overrides.

## Seeded errors

`seeded/LOG.jsonl` records edits of the model as a realistic bug would make them, with the theorems (or the lemmas
under them) whose proofs were no longer accepted.  A rejected proof script does not by itself show that the statement
became false: a script can also break because a definition is spelled differently.  Only the entries whose note gives a
computed counterexample have that checked as well; entries known to be equivalent edits say so in their note.  `blocked_theorem_files` are files that were not
reached because a file they need failed: nothing is known about their theorems from that entry.

## Properties and theorems

| id | property | status | theorems |
|----|----------|--------|----------|
| C01 | Lists behave like mathematical sequences | partial | `C01_list_is_sequence`, `C01_unique_list_is_sequence_partial`, `C01_index_of_is_first_occurrence`, `C01_unique_list_is_sequence_refuted`, `C01_notifying_list_same_as_plain` |
| C02 | A unique list never holds an element twice | partial | `C02_unique_list_has_no_duplicates_partial`, `C02_unique_list_has_no_duplicates_refuted` |
| C03 | Notifications of a feature list are sufficient to mirror it | partial | `C03_notifications_mirror_unique_list`, `C03_notifications_mirror_list_partial`, `C03_notifications_mirror_list_refuted`, `C03_observer_is_deterministic` |
| C04 | Merging two notifications preserves their meaning | partial | `C04_merge_preserves_meaning_list_partial`, `C04_merge_never_panics_on_consecutive_notifications`, `C04_unsafe_removal_merge_always_wrong`, `C04_merge_preserves_meaning_list_refuted`, `C04_merge_set_positions_refuted`, `C04_merge_preserves_meaning_single`, `C04_merge_unset_refuted`, `C04_chain_preserves_meaning_refuted` |
| C05 | A contained object and its container agree | partial | `C05_containment_agrees_partial`, `C05_at_most_one_place_partial`, `C05_calls_panic_only_on_bad_position`, `C05_containment_agrees_refuted`, `C05_multiple_inheritance_refuted` |
| C06 | Bidirectional references stay symmetric | partial | `C06_opposites_agree_partial`, `C06_opposites_agree_refuted`, `C06_own_opposite_refuted` |
| C07 | Compact objects store exactly what was set | partial | `C07_compact_object_is_record_partial`, `C07_compact_object_is_record_refuted`, `C07_other_field_corrupted_refuted`, `C07_container_variant_refuted`, `C07_clearing_proxy_refuted` |
| C08 | Resource contents and EResource agree | partial | `C08_resources_agree_partial`, `C08_contents_call_takes_effect`, `C08_one_resource_partial`, `C08_resource_sets_agree`, `C08_resource_list_call_takes_effect`, `C08_unload_refuted` |
| C09 | Unloading a resource detaches its objects | partial | `C09_unload_detaches_refuted`, `C09_unload_keeps_every_link` |
| C10 | Object ids are unique and resolvable | partial | `C10_resolution_sound_partial`, `C10_incremental_partial`, `C10_random_partial`, `C10_attribute_partial`, `C10_shared_id_refuted`, `C10_reused_detached_id_refuted`, `C10_stale_attribute_id_refuted` |
| C11 | Generated incremental ids are always fresh | proved | `C11_generated_ids_are_fresh`, `C11_overflow_refuted`, `C11_address_reuse_refuted` |
| C12 | Re-registered objects get their former id back | proved | `C12_former_id_given_back` |
| C13 | URI normalisation is canonical | proved | `normalize_yields_canonical_path`, `canonical_path_is_unique`, `normalize_twice_is_once` |
| C14 | Relativize is inverted by Resolve | partial | `relativize_same_refuted`, `relativize_directory_refuted`, `relativize_port_refuted`, `authority_panics_refuted`, `relativize_unnormalised_refuted`, `resolve_inverts_relativize` |
| C15 | Fragments address the object they were computed for | partial | `C15_round_trip_partial`, `C15_slash_id_refuted`, `C15_question_mark_refuted`, `C15_manager_refuted`, `C15_feature_name_refuted` |
| C16 | EAllContents visits every contained object exactly once, parents first | proved | `C16_tree_iterator_preorder`, `C16_preorder_complete`, `C16_preorder_once`, `C16_parents_first`, `C16_preorder_unique` |
| C17 | Map view and entry list of a map agree | partial | `C17_map_agrees_refuted`, `C17_put_order_refuted`, `C17_entry_update_refuted`, `C17_lookup_partial` |
| C18 | Binary encoding round-trips | partial | `C18_partial`, `C18_refuted_unnamed_feature`, `C18_refuted_plain_proxy`, `C18_refuted_date`, `C18_refuted_no_uri` |
| C19 | Decoding into a partially filled list reproduces the encoded order | partial | `C19_refuted`, `C19_statement_refuted`, `C19_partial` |
| C20 | Derived metamodel views are never stale | partial | `C20_views_partial`, `C20_cross_references_refuted`, `C20_undelivered_refuted`, `C20_feature_update_refuted`, `C20_rename_refuted` |
| C21 | Feature ids and features are inverse | proved | `C21_feature_ids` |
| C22 | Store-backed lists behave like plain lists whatever the cache mode | partial | `C22_store_list_is_a_sequence_partial`, `C22_attached_store_refuted`, `C22_detached_empty_list_refuted`, `C22_self_insertion_refuted`, `C22_proxy_search_refuted` |
| C23 | SQL store keeps list order | partial | `C23_order_partial`, `C23_add_all_refuted`, `C23_add_all_front_refuted`, `C23_precision_refuted` |
| C24 | SQL store: conflicting operations on a feature run in call order | partial | `C24_write_first_partial`, `C24_reads_refuted`, `C24_read_late_refuted`, `C24_timeout_refuted` |
| C25 | SQL store: operations on a whole object or on the whole store are ordered with those on its features | partial | `C25_earlier_partial`, `C25_object_later_refuted`, `C25_store_later_refuted` |
| C26 | SQL store: one failed operation does not disable later ones | partial | `C26_isolated_partial`, `C26_cascade_refuted`, `C26_panic_refuted`, `C26_statement_refuted` |
| C27 | SQL base: at most one write statement is active and reads never overlap a write to their table | partial | `C27_writes_partial`, `C27_reads_refuted`, `C27_unknown_refuted`, `C27_script_refuted`, `C27_self_wait_refuted` |
| C28 | SQL store reads its own pending writes | partial | `C28_pending_partial`, `C28_add_root_refuted`, `C28_value_refuted`, `C28_set_container_refuted` |
| C29 | The unbounded operation channel is a lossless FIFO | proved | `C29_fifo`, `C29_closed_when_drained`, `C29_sender_never_blocked`, `C29_receiver_never_blocked`, `C29_drain_progress`, `C29_drain_terminates`, `C29_drains` |
| C30 | Encoder locks exclude each other per key and do not leak | proved | `C30_mutual_exclusion`, `C30_no_entry_remains`, `C30_no_mutex_left_locked`, `C30_no_fatal_unlock`, `C30_waits_only_for_same_key` |
| C31 | Distinct classes and features get distinct SQL tables | partial | `C31_refuted`, `C31_refuted_underscore`, `C31_refuted_features`, `C31_distinct_tables_partial` |
| C32 | SQL column values round-trip | partial | `C32_values_partial`, `C32_refuted`, `C32_refuted_annotation` |
| C33 | XML namespace scopes are lexical | partial | `C33_lookup_innermost_partial`, `C33_leaving_restores_partial`, `C33_lookup_innermost_refuted`, `C33_declaration_panics_refuted`, `C33_prefix_for_uri_refuted` |
| C34 | XML prefix allocation terminates and never aliases two namespaces | partial | `C34_prefixes_denote_namespaces_partial`, `C34_prefixes_stable`, `C34_terminates_partial`, `C34_terminates_refuted`, `C34_xsi_refuted`, `C34_must_have_prefix_refuted`, `C34_reader_terminates_refuted` |
| C35 | XML output is well nested | partial | `C35_well_formed_partial`, `C35_content_refuted`, `C35_document_root_refuted` |
| C36 | Data type literals round-trip | partial | `C36_literals_partial`, `C36_refuted` |
| C37 | Binary search finds a key exactly when present | proved | `C37_binary_search_total`, `C37_binary_search_correct`, `C37_insertion_keeps_sorted` |
| C38 | A copy equals its original | partial | `C38_refuted`, `C38_refuted_generated`, `C38_refuted_opposite_outside`, `C38_refuted_container_reference`, `C38_refuted_unchangeable`, `C38_refuted_nan`, `C38_refuted_inherited_reference`, `C38_refuted_dynamic`, `C38_copy_partial` |
| C39 | Equal is an equivalence insensitive to object identity | partial | `C39_equals_partial`, `C39_refuted` |
| C40 | A content adapter observes exactly the contained objects | partial | `C40_content_adapter_partial`, `C40_bulk_addition_refuted`, `C40_contents_set_refuted`, `C40_nested_root_refuted` |
| C41 | Model element fragments identify the element | partial | `C41_round_trip_partial`, `C41_escape_refuted`, `C41_count_refuted`, `C41_at_refuted`, `C41_annotation_refuted` |
| C42 | Every observer sees every notification once, in order | partial | `C42_each_observer_once_in_order`, `C42_nothing_when_off`, `C42_observers_may_add`, `C42_each_observer_once_refuted` |
| C43 | Registry lookup falls back to the delegate | proved | `C43_package_lookup`, `C43_lookup_deterministic`, `C43_factory_lookup`, `C43_registration_is_local`, `C43_codec_lookup`, `C43_codec_lookup_none`, `C43_extension` |
| C44 | URI prefix mapping terminates and applies the mapping | partial | `converter_cycle_refuted`, `converter_unfinished_refuted`, `converter_finishes` |
| C45 | Containment never becomes cyclic | partial | `C45_acyclic_refuted`, `C45_acyclic_partial`, `C45_eresource_returns_partial` |
| C46 | Class-filtered traversal agrees with the full traversal | partial | `C46_class_filter_sound_partial`, `C46_own_class_refuted`, `C46_unset_reference_refuted`, `C46_subclass_refuted`, `C46_cycle_refuted`, `C46_order_refuted` |
| C47 | Slice representation does not leak | partial | `C47_returned_slice_stays_partial`, `C47_returned_slice_refuted`, `C47_other_list_writes_returned_slice_refuted`, `C47_lists_of_one_slice_refuted` |
| C48 | isLoaded reflects the contents | partial | `C48_loaded_iff_contents_partial` |
| C49 | List callbacks announce what changed | partial | `C49_callbacks_announce_each_element_once`, `C49_callbacks_have_exact_positions_partial`, `C49_callbacks_have_exact_positions_refuted` |
| C50 | An adapter's target is the notifier it is registered with | partial | `C50_target_iff_registered_partial`, `C50_clear_refuted`, `C50_set_refuted`, `C50_two_notifiers_refuted` |
| C51 | Closing the unbounded channel is safe | partial | `C51_close_safe_partial`, `C51_close_safe_refuted` |
| C52 | What is set through a feature is read back through it, and nothing else is set | partial | `C52_set_is_read_back_partial`, `C52_unset_is_read_back_partial`, `C52_list_call_is_read_back_partial`, `C52_set_is_read_back_refuted`, `C52_unset_elsewhere_refuted` |
| C53 | Remove takes an object out of wherever it is | partial | `C53_containment_feature_partial`, `C53_remove_detaches_partial`, `C53_remove_detaches_refuted` |
| C54 | A contained object is a resource root only through a proxy-resolving containment reference | partial | `C54_contained_root_needs_resolving_reference_partial`, `C54_contained_root_refuted` |
| C55 | Contents and cross reference views enumerate the features in order | proved | `C55_contents_iterator`, `C55_contents_queries` |
| C56 | A map with distinct keys behaves as an association list | proved | `C56_map_operations`, `C56_map_total` |
| C57 | Derived views other than eAllCrossReferences are never stale while classes deliver notifications | proved | `C57_views_never_stale` |
| C58 | Operation ids and operations are inverse | proved | `C58_operation_ids` |
| C59 | SQL store keeps list order with exact positions and single insertions | proved | `C59_order_exact` |
| C60 | SQL store: with one pending read at a time, conflicting operations on a feature run in call order | proved | `C60_feature_order` |
| C61 | SQL store: an operation waits for every earlier conflicting operation whose target it covers | proved | `C61_covering_order` |
| C62 | SQL store: isolated failures do not affect other operations | proved | `C62_isolated_failures` |
| C63 | SQL store: operations never block each other for ever | proved | `C63_no_deadlock` |
| C64 | SQL base: writes execute one after the other, reads after the earlier writes to their tables | proved | `C64_statements` |
| C65 | SQL store: Get returns the last Set when only Set writes the feature | proved | `C65_get_last_set` |
| C66 | Resolve inverts Relativize on normalised paths | proved | `resolve_inverts_relativize` |
| C67 | The URI converter terminates on ranked mappings | proved | `converter_finishes` |
| C68 | URIs built from components keep them | proved | `components_are_kept`, `cache_confuses_components_refuted` |
| C69 | XML text is well-formed when unescaped texts are plain | proved | `C69_well_formed` |
| C70 | XML attribute values mean what was stored | proved | `C70_attribute_value` |
| C71 | Fragments address their object, for unambiguous ids and names | proved | `C71_round_trip`, `C71_distinct` |
| C72 | Fragments of foreign objects lead nowhere | proved | `C72_foreign` |
| C73 | Relative paths lead to the descendant | proved | `C73_relative`, `C73_self_refuted` |
| C74 | Model element segments identify the element, for plain names | proved | `C74_segment` |
| C75 | Store-backed lists are sequences under the calls that keep them in agreement | proved | `C75_new_list_agrees_with_its_store`, `C75_store_list_histories_are_those_of_a_sequence`, `C75_cache_is_not_observable`, `C75_store_list_notifications_mirror_the_contents` |
| C76 | A persistent single-valued feature of a store-backed object is a variable | proved | `C76_persistent_feature_is_a_variable`, `C76_transient_feature_refuted` |
| C77 | Queries of a store-backed reference list see the resolved objects, cached or not | proved | `C77_queries_see_the_resolved_objects` |
| C78 | List callbacks do not depend on the cache | proved | `C78_callbacks_do_not_depend_on_the_cache`, `C78_callbacks_of_remove_range_refuted`, `C78_callbacks_of_move_refuted` |
| C79 | Round trip through the binary codec for well-formed documents | proved | `C79_round_trip` |
| C80 | A decoded reference list has the encoded objects, and their order exactly when none or all were already there | proved | `C80_same_objects`, `C80_same_order_iff` |
| C81 | The SQL schema of any finite metamodel is computed | proved | `C81_schema_is_computed`, `C81_key_is_primary` |
| C82 | SQL names do not collide for well-behaved names | proved | `C31_distinct_tables_partial`, `C82_distinct_columns` |
| C83 | The text of SQL queries is read as intended | proved | `C83_create_statement`, `C83_row_statements`, `C83_escaping_twice_is_harmless`, `C83_refuted_other_names` |
| C84 | Literals of floating-point types and of the data types of Ecore round-trip | proved | `C84_factory_floats`, `C84_ecore_data_types`, `C84_refuted_other_values` |
| C85 | Any text is read as a value of the data type | proved | `C85_factory`, `C85_ecore`, `C85_refuted_empty_byte` |
| C86 | SQL identifiers of enumeration literals stay consistent | proved | `C86_encode_keeps_enums`, `C86_decode_keeps_enums`, `C86_row_is_literal` |
| C87 | NULL columns decode to the zero value of the attribute kind | proved | `C87_null` |
| C88 | SQL references distinguish objects and proxies | proved | `C88_references`, `C88_refuted_numeric_uri` |
| C89 | Equals decides whether the two graphs can be matched | proved | `C89_equals_decides_matching`, `C89_equals_all_decides_matching`, `C89_refuted_transitive`, `C89_refuted_read_list` |
| C90 | Copy duplicates exactly the containment tree | proved | `C90_copy_exact`, `C90_copy_all_exact`, `C90_refuted_nested_roots` |
| C91 | Equals accepts a complete copy | proved | `C91_copy_equals` |
| C92 | A content adapter is on the roots it was put on, on all they contain, and nowhere else | proved | `C92_content_adapter_history`, `C92_taken_off` |
| C93 | The work of a content adapter ends | proved | `C93_call_ends`, `C93_attach_ends`, `C93_detach_ends` |
| C94 | Lists over shared memory are sequences | proved | `C94_lists_over_slices_are_sequences`, `C94_calls_leave_other_lists_alone`, `C94_creations_leave_other_lists_alone` |
| C95 | GetResource answers with the resource of the document | proved | `C95_resource_of_a_document` |
| C96 | One resource per document | proved | `C96_answer_stays`, `C96_one_resource_per_document`, `C96_documents_distinct` |
| C97 | Documents that refer to each other are read once | proved | `C97_each_resource_read_once`, `C97_read_once_without_unloading` |
| C98 | A loaded resource has the contents of its document | proved | `C98_load_reads_the_document`, `C98_get_resource_reads_the_document`, `C98_reload_reads_the_document` |
| C99 | Answers follow moves and removals of resources | partial | `C99_answers_partial`, `C99_moved_resource_refuted`, `C99_removed_resource_refuted`, `C99_resource_without_uri_refuted` |
| C100 | Resolution of proxies | partial | `C100_objects_resolve_to_themselves`, `C100_result_of_resolution_partial`, `C100_resolution_ends_partial`, `C100_mutual_proxies_refuted` |
| C101 | A saved XML document is loaded as it was | proved | `C101_xml_round_trip` |
| C102 | A saved XML document is loaded as it was, without deferred resolution | partial | `C102_undeferred_round_trip_refuted` |
| C103 | Elements the metamodel does not know are reported and skipped | partial | `C103_unknown_content_refuted` |
| C104 | Loading an XML text does not panic | partial | `C104_loading_panics_refuted` |
| C105 | Values in an XML text are loaded or reported | partial | `C105_values_lost_refuted` |
| C106 | Objects loaded from any XML text are well formed | proved | `C106_loaded_well_formed` |
| C107 | A saved XML document that was cut off is not loaded in part without an error | proved | `C107_cut_document` |
| C108 | A package finds its classifiers by their names | partial | `C108_renamed_classifier_refuted`, `C108_undelivered_refuted` |
| C109 | A package that notifies finds the classifiers whose names have not changed | proved | `C109_classifier_by_name`, `C109_right_again` |
| C110 | ExtendedMetaData finds the types of a package | partial | `C110_types_refuted` |
| C111 | ExtendedMetaData finds the types of a package that only grows | proved | `C111_types_found` |
| C112 | One ExtendedMetaData answers all questions about a package | partial | `C112_name_and_types_refuted` |
| C113 | The default value of a feature is that of its type and literal | partial | `C113_default_after_change_refuted` |
| C114 | The default value of a feature whose type stays follows its literal and its factory | proved | `C114_default_value` |
| C115 | What a metamodel has once reported stays up to date | partial | `C115_kept_answers_refuted` |
| C116 | What a metamodel reports is right while it only grows | proved | `C116_reference_type`, `C116_classifier_number`, `C116_type_default` |
| C117 | SQL store: single-valued attributes are variables | partial | `C117_inherited_refuted`, `C117_never_set_refuted`, `C117_unset_refuted`, `C117_is_set_refuted` |
| C118 | SQL store: attributes declared by the class of the object are read as last set | proved | `C118_get_last` |
| C119 | SQL store: what IsSet answers | proved | `C119_is_set` |
| C120 | SQL store: the feature of the container of a child first stored with it | partial | `C120_multiple_inheritance_refuted` |
| C121 | SQL store: containers are those given last | proved | `C121_container`, `C121_first_container` |
| C122 | SQL documents: what is loaded is what was saved | partial | `C122_refuted`, `C122_refuted_second_root`, `C122_refuted_unset`, `C122_refuted_forward`, `C122_refuted_abstract`, `C122_refuted_identity`, `C122_refuted_peer` |
| C123 | SQL documents: what is given back of the first root | proved | `C123_saved`, `C123_loaded` |
| C124 | JSON documents: everything is written once | partial | `C124_cycle_refuted`, `C124_names_refuted`, `C124_roots_refuted`, `C124_twice_refuted` |
| C125 | JSON documents: the first root | proved | `C125_json`, `C125_kinds`, `C125_empty` |
| C126 | Attributes of dynamic objects are variables of their features | partial | `C126_reading_sets_refuted`, `C126_announced_values_refuted`, `C126_nil_refuted`, `C126_shared_list_refuted`, `C126_removed_feature_refuted`, `C126_added_feature_refuted`, `C126_other_class_refuted`, `C126_two_supertypes_refuted` |
| C127 | While classes stay, attributes are independent variables | proved | `C127_variables`, `C127_new_object` |
| C128 | What becomes of attribute values when classes change | proved | `C128_set_class`, `C128_added_features` |
| C129 | A call on a reference changes the ends of the links it makes and breaks, and nothing else | proved | `C129_other_references`, `C129_other_containers`, `C129_roots`, `C129_parent`, `C129_parent_other_containers` |
| C130 | Generated classes agree with Ecore's own description | proved | `C130_sources_agree` |
| C131 | Lists of generated classes resolve proxies when the metamodel says so | partial | `C131_resolving_lists_refuted`, `C131_resolving_lists_partial` |
| C132 | Generated objects behave as dynamic objects of the same class | proved | `C132_generated_as_dynamic` |
| C133 | Containment, opposites and resources of generated objects stay consistent | proved | `C133_generated_graph` |
| C134 | An entry of an annotation's details belongs to one annotation | partial | `C134_entry_of_one_annotation_refuted` |
| C135 | ESet and EUnset return | partial | `C135_set_returns_refuted` |
| C136 | Which references ESet and EUnset return for | proved | `C136_set_returns_iff_changeable` |
| C137 | Attributes of generated classes | proved | `C137_attributes` |
| C138 | Giving a reference its own list changes nothing | partial | `C138_own_list_refuted`, `C138_own_list_partial` |
| C139 | Reading a reference of a generated object does not panic | partial | `C139_read_never_panics_refuted` |
| C140 | When reading a reference of a generated object panics | proved | `C140_read_panics_iff_removed` |
| C141 | Setters of generated classes announce the feature they set | partial | `C141_announced_refuted`, `C141_announced_partial` |
| C142 | SQL store: a reference gives back the object it was given | partial | `C142_reference_refuted` |
| C143 | SQL store: while objects stay registered, a reference gives back the object it was given | proved | `C143_reference` |
| C144 | SQL store: GetRoots gives each object that was added, once | partial | `C144_roots_refuted` |
| C145 | SQL store: while objects stay registered, the roots are a list to which objects are added at its end | proved | `C145_roots` |
| C146 | SQL store: references of SQLObjects survive UnRegister | proved | `C146_identifier_survives` |
| C147 | SQL store: UnRegister forgets the objects it is given and no others | partial | `C147_unregister_refuted` |
| C148 | SQL store: the first UnRegister forgets the objects it is given and no others | proved | `C148_unregister` |
| C149 | What a unique list is after any calls | proved | `C149_unique_list_exactly` |
| C150 | When a bulk addition to a unique list keeps it without repetitions | proved | `C150_bulk_addition_iff` |
| C151 | A resource knows the objects that are in it | partial | `C151_registries_right_refuted`, `C151_unload_refuted` |
| C152 | A resource knows the objects that are in it, without objects that are both roots and contained | proved | `C152_registries_right`, `C152_local_metamodel_calls_proper`, `C152_calls_return` |
| C153 | A store-backed map answers as its entries say | partial | `C153_remove_range_refuted`, `C153_attached_store_refuted`, `C153_lookup_partial` |
| C154 | A store-backed map acts as its entries say, within the limits of its list | proved | `C154_map_operations`, `C154_list_operations`, `C154_total` |
| C155 | Goroutines that share a store-backed map do not block each other for ever | partial | `C155_concurrent_use_refuted`, `C155_no_deadlock_partial` |
| C156 | Goroutines that share a store-backed map block each other for ever only when one builds its data and another changes it | proved | `C156_deadlock_exactly`, `C156_unlock_by_holder` |
| C157 | The list that an object with a store returns stays the list of the feature | partial | `C157_list_identity_refuted`, `C157_list_identity_partial` |
| C158 | The calls after which a feature of an object with a store has another list | proved | `C158_list_replaced_exactly` |
| C159 | An object with a store is a record of variables and sequences that the store keeps | proved | `C159_object_is_a_record` |
| C160 | Detaching an object from its store keeps what it shows and leaves the store alone | partial | `C160_detached_list_writes_refuted`, `C160_detach_loses_refuted`, `C160_detach_keeps_partial` |
| C161 | What an object shows after its store is taken away or replaced | proved | `C161_detach_exactly`, `C161_attach_uncached`, `C161_attach_cached` |
| C162 | The container of an object in a store is the one the store has | partial | `C162_early_read_refuted`, `C162_detach_loses_container_refuted`, `C162_container_read_back_partial` |
| C163 | The container of an object is a variable that the attached store keeps, once it is known | proved | `C163_container_is_a_variable` |
| C164 | Reading a feature does not change which features are set | partial | `C164_reading_sets_refuted`, `C164_reading_partial` |
| C165 | An object stays the same record when it gets a store that already has its contents | proved | `C165_record_across_stores` |
| C166 | Lock and Unlock of an object with a store are a pair | partial | `C166_pair_refuted`, `C166_pair_partial` |
| C167 | Exactly which lists Unlock leaves locked, and which lists stay locked when an object is encoded | proved | `C167_left_exactly`, `C167_encoded_object` |
| C168 | Goroutines that encode objects with one SQL encoder do not block each other for ever | proved | `C168_calls_return` |
| C169 | Each object is inserted once, and exactly the new objects are | proved | `C169_one_row_each` |
| C170 | encodeObject without error means that the object is written | partial | `C170_nil_error_refuted`, `C170_nil_error_partial` |
| C171 | Goroutines that ask one SQL encoder for the data of classes do not block each other for ever | proved | `C171_class_calls_return` |
| C172 | The data of each class are made once, after those of its super types | proved | `C172_made_once` |
| C173 | Encoding goes on while other operations register and unregister objects | proved | `C173_calls_return_while_ids_change` |
| C174 | A listener that follows the notifications about the loaded flag knows whether a resource is loaded | partial | `C174_listener_refuted`, `C174_listener_partial` |
| C175 | Across Unload, a resource that is not loaded from a document is loaded exactly when it has contents | partial | `C175_loaded_contents_refuted`, `C175_loaded_contents_partial` |
| C176 | Counted, the notifications that a resource was loaded and unloaded give the loaded flag | proved | `C176_counted` |
| C177 | A resource with contents is loaded, and one that is loaded without contents was loaded from a document | proved | `C177_contents_or_document` |
| C178 | GetOverride finds an override, and finds one whenever there is one | proved | `C178_override_found` |
| C179 | GetOverride returns the operation that replaces all others | partial | `C179_most_specific_refuted`, `C179_most_specific_partial` |
| C180 | Which override GetOverride returns | proved | `C180_first_after`, `C180_duplicates` |
