{"id": "C01", "title": "Lists behave like mathematical sequences", "statement": "After any sequence of calls Add, Insert, AddAll, InsertAll, Set, RemoveAt, Remove, RemoveRange, Move, MoveObject, Clear on a list created empty (unique or not), Size/Get/ToArray/Contains/IndexOf and the returned values are exactly those of the obvious operation on a mathematical sequence, and a call whose index is out of range panics instead of silently doing something else.", "quantifier": "all finite histories of list operations with arbitrary arguments, both uniqueness modes", "why_tests_cant": "the history and the argument space are unbounded; a unit test sees one history", "anchors": ["ecore/abstractelist.go:AbstractEList", "ecore/basicelist.go:BasicEList"]}
{"id": "C02", "title": "A unique list never holds an element twice", "statement": "A list created as unique never contains two equal elements, whatever operations are applied to it.", "quantifier": "all finite histories of operations on a unique list", "why_tests_cant": "the duplicate only appears for particular overlaps between the argument collection and the current contents", "anchors": ["ecore/abstractelist.go:Add", "ecore/abstractelist.go:AddAll", "ecore/abstractelist.go:InsertAll", "ecore/abstractelist.go:getNonDuplicates", "ecore/abstractelist.go:Set"]}
{"id": "C03", "title": "Notifications of a feature list are sufficient to mirror it", "statement": "An observer that only receives the notifications sent by a many-valued feature and applies each of them to its own copy (ADD, ADD_MANY, REMOVE, REMOVE_MANY, MOVE, SET) holds, after every operation, exactly the contents of the list; no change goes unreported.", "quantifier": "all finite histories of list operations and all starting contents", "why_tests_cant": "positions and old/new values have to be right for every index and every history at once", "anchors": ["ecore/basicenotifyinglist.go:BasicENotifyingList", "ecore/abstractnotification.go:AbstractNotification"]}
{"id": "C04", "title": "Merging two notifications preserves their meaning", "statement": "When a notification absorbs a later one, replaying the merged notification has the same effect as replaying the two in order.", "quantifier": "all pairs of notifications of the same feature emitted one after the other, for every starting contents", "why_tests_cant": "the merge of k removals depends on the whole vector of positions", "anchors": ["ecore/abstractnotification.go:Merge", "ecore/notificationchain.go:notificationChain.Add"]}
{"id": "C05", "title": "A contained object and its container agree", "statement": "In every reachable state, an object's EContainer()/EContainingFeature is (c,f) exactly when the containment feature f of c holds the object; consequently an object is contained in at most one place and at most once.", "quantifier": "all finite histories of ESet, EUnset, list add/insert/remove/set/move/clear over any set of objects and any metamodel of containment references with or without opposite", "why_tests_cant": "the invariant couples two objects plus the previous container; counterexamples need multi-object histories", "anchors": ["ecore/abstracteobject.go:EInverseAdd", "ecore/abstracteobject.go:EInverseRemove", "ecore/abstracteobject.go:EBasicSetContainer", "ecore/dynamiceobject_impl.go", "ecore/basiceobjectlist.go:InverseAdd"]}
{"id": "C06", "title": "Bidirectional references stay symmetric", "statement": "For every pair of opposite references (one-one, one-many, many-one, many-many) and every reachable state: b is referenced by a through r exactly when a is referenced by b through opposite(r).", "quantifier": "all finite histories of single-valued sets/unsets and list operations on any objects", "why_tests_cant": "the update of the far side may itself evict a third object; needs arbitrary histories", "anchors": ["ecore/abstracteobject.go:EInverseAdd", "ecore/abstracteobject.go:EInverseRemove", "ecore/basicenotifyinglist.go:doAdd", "ecore/reflectiveeobject_impl.go"]}
{"id": "C07", "title": "Compact objects store exactly what was set", "statement": "A compact object behaves like a record of independent optional fields: reading any of container, resource, proxy URI, adapters, class, contents or properties returns what was last stored in that field, and storing one field never changes another.", "quantifier": "all finite histories of field writes", "why_tests_cant": "fields share one packed array indexed through a bit mask; only some presence combinations misbehave", "anchors": ["ecore/compacteobject_impl.go:CompactEObjectImpl", "ecore/compacteobject_container.go:CompactEObjectContainer"]}
{"id": "C08", "title": "Resource contents and EResource agree", "statement": "An object is a direct member of a resource's contents exactly when the resource is its internal resource; adding it to another resource removes it from the first; a resource belongs to a resource set exactly when it is in its resource list.", "quantifier": "all finite histories of contents and resource list operations on any number of resources", "why_tests_cant": "couples several resources and objects", "anchors": ["ecore/eresource_impl.go:resourceContents", "ecore/abstracteobject.go:ESetResource", "ecore/eresourceset_impl.go"]}
{"id": "C09", "title": "Unloading a resource detaches its objects", "statement": "After Unload no object claims to belong to the resource any more.", "quantifier": "all resources and contents", "why_tests_cant": "has to hold for every object of the contents", "anchors": ["ecore/eresource_impl.go:Unload"]}
{"id": "C10", "title": "Object ids are unique and resolvable", "statement": "With an ID manager, in every reachable state GetObjectFromID(GetID(o)) is o for every object that has an id, and two objects never have the same id.", "quantifier": "all finite histories of Register, UnRegister, SetID, Clear", "why_tests_cant": "violations need a particular interleaving of id reuse and removal", "anchors": ["ecore/uniqueidmanager.go:UniqueIDManager", "ecore/eobjectidmanager_impl.go"]}
{"id": "C11", "title": "Generated incremental ids are always fresh", "statement": "An id generated by an incremental ID manager (for an object that has none and had none before) is not and never was the id of any object, including ids forced through SetID, as long as the counter does not overflow int64.", "quantifier": "all finite histories of Register/SetID/UnRegister", "why_tests_cant": "collision between forced and generated ids depends on the history", "anchors": ["ecore/uniqueidmanager.go:NewIncrementalIDManager"]}
{"id": "C12", "title": "Re-registered objects get their former id back", "statement": "An object that was unregistered and is registered again has the id it had before, whatever happened to other objects in between.", "quantifier": "all histories between the two events", "why_tests_cant": "unbounded interleavings of other registrations", "anchors": ["ecore/uniqueidmanager.go:Register", "ecore/uniqueidmanager.go:UnRegister"]}
{"id": "C13", "title": "URI normalisation is canonical", "statement": "Normalising a URI path removes exactly the '.' and 'x/..' segments as defined by RFC 2396 segment rules, and normalising twice is the same as once.", "quantifier": "all paths without NUL characters", "why_tests_cant": "the algorithm works in place on a byte array; only some segment patterns exercise each branch", "anchors": ["ecore/uri.go:normalize", "ecore/uri.go:removeDots", "ecore/uri.go:maybeAddLeadingDot", "ecore/uri.go:split", "ecore/uri.go:join"]}
{"id": "C14", "title": "Relativize is inverted by Resolve", "statement": "If base.Relativize(u) = r then base.Resolve(r) denotes u again.", "quantifier": "all pairs of hierarchical URIs", "why_tests_cant": "depends on the common prefix, query and fragment of both", "anchors": ["ecore/uri.go:Relativize", "ecore/uri.go:Resolve"]}
{"id": "C15", "title": "Fragments address the object they were computed for", "statement": "resource.GetEObject(resource.GetURIFragment(o)) is o for every object contained in the resource.", "quantifier": "all containment trees and all objects in them", "why_tests_cant": "arbitrary depth, indices and feature names", "anchors": ["ecore/eresource_impl.go:GetURIFragment", "ecore/eresource_impl.go:GetEObject", "ecore/abstracteobject.go:EObjectForFragmentSegment", "ecore/abstracteobject.go:EURIFragmentSegment"]}
{"id": "C16", "title": "EAllContents visits every contained object exactly once, parents first", "statement": "Iterating EAllContents yields the preorder of the containment tree: every direct or indirect content once, each after its container, siblings in EContents order, and HasNext is false exactly afterwards; calling HasNext any number of times changes nothing.", "quantifier": "all finite trees, all patterns of HasNext/Next calls", "why_tests_cant": "arbitrary shapes and call patterns", "anchors": ["ecore/etreeiterator.go:treeIterator", "ecore/eallcontents.go"]}
{"id": "C17", "title": "Map view and entry list of a map agree", "statement": "In every reachable state of an EMap, GetValue/ContainsKey/Put/RemoveKey answer as the partial function denoted by its entry list.", "quantifier": "all finite histories of map and list operations", "why_tests_cant": "the key index is built lazily and maintained incrementally", "anchors": ["ecore/basicemap.go:BasicEMap"]}
{"id": "C18", "title": "Binary encoding round-trips", "statement": "Decoding what the binary encoder wrote for an object graph gives back an equal graph: same classes, attribute values, containment trees, order, and references.", "quantifier": "all object graphs over all metamodels", "why_tests_cant": "interning tables make the meaning of every token depend on all previous ones", "anchors": ["ecore/binaryencoder.go", "ecore/binarydecoder.go", "ecore/binarycodec.go"]}
{"id": "C19", "title": "Decoding into a partially filled list reproduces the encoded order", "statement": "When a decoded reference list already contains some of its objects (added through opposites), after decoding it is exactly the encoded list.", "quantifier": "all encoded lists and all subsets/orders of already present objects", "why_tests_cant": "order depends on the permutation", "anchors": ["ecore/binarydecoder.go:decodeObjects"]}
{"id": "C20", "title": "Derived metamodel views are never stale", "statement": "GetEAllStructuralFeatures, GetEAllAttributes, GetEAllReferences, GetEAllContainments, GetEAllCrossReferences, GetEAllSuperTypes, ... always equal what would be computed from scratch from the current features and super types.", "quantifier": "all finite histories of adding/removing features and super types interleaved with queries, over any acyclic class graph", "why_tests_cant": "cache invalidation must reach every transitive subclass for every history", "anchors": ["ecore/eclass_ext.go:setModified", "ecore/eclass_ext.go:eSuperAdapter", "ecore/eclass_ext.go:initEAllStructuralFeatures", "ecore/eclass_ext.go:initEAllReferences"]}
{"id": "C21", "title": "Feature ids and features are inverse", "statement": "For every class and every feature f it owns or inherits, GetEStructuralFeature(GetFeatureID(f)) is f.", "quantifier": "all classes of all acyclic inheritance graphs", "why_tests_cant": "multiple inheritance shifts ids", "anchors": ["ecore/eclass_ext.go:GetFeatureID", "ecore/eclass_ext.go:GetEStructuralFeature"]}
{"id": "C22", "title": "Store-backed lists behave like plain lists whatever the cache mode", "statement": "A store-backed list answers every query like a mathematical sequence for every history of operations, with and without cache, and cache, size and store stay in agreement; switching the cache on or off is not observable.", "quantifier": "all finite histories of list operations and cache switches", "why_tests_cant": "three representations must agree", "anchors": ["ecore/estorelist.go:EStoreList", "ecore/estoreeobject_impl.go"]}
{"id": "C23", "title": "SQL store keeps list order", "statement": "A many-valued feature persisted through the SQL store is read back in the order produced by the list operations Add, AddAll, Remove, Move, Set, Clear.", "quantifier": "all finite histories of list operations", "why_tests_cant": "order is encoded in fractional row indices whose arithmetic depends on the history", "anchors": ["ecore/sqlstore.go:getInsertIdx", "ecore/sqlstore.go:doAdd", "ecore/sqlstore.go:doAddAll", "ecore/sqlstore.go:doMove", "ecore/sqlstore.go:doRemove"]}
{"id": "C24", "title": "SQL store: conflicting operations on a feature run in call order", "statement": "Two operations on the same object feature, at least one of which writes, execute in the order in which they were scheduled and never overlap, under every goroutine schedule.", "quantifier": "all schedules and all numbers of concurrent operations", "why_tests_cant": "schedules cannot be enumerated by tests", "anchors": ["ecore/sqlstore.go:scheduleOperation", "ecore/sqlstore.go:registerOperation", "ecore/sqlstore.go:unregisterOperation"]}
{"id": "C25", "title": "SQL store: operations on a whole object or on the whole store are ordered with those on its features", "statement": "An operation covering an object (UnRegister) or the store (Serialize, GetRoots, AddRoot, ExecuteQuery) is ordered with respect to every conflicting feature operation scheduled before or after it.", "quantifier": "all schedules", "why_tests_cant": "schedules cannot be enumerated by tests", "anchors": ["ecore/sqlstore.go:objectFeaturesIterator", "ecore/sqlstore.go:scheduleOperation"]}
{"id": "C26", "title": "SQL store: one failed operation does not disable later ones", "statement": "After an operation has failed, later independent operations on the same feature still execute.", "quantifier": "all schedules and failures", "why_tests_cant": "failure points and schedules", "anchors": ["ecore/sqlstore.go:scheduleOperation", "ecore/sqlbase.go:executeSqlite"]}
{"id": "C27", "title": "SQL base: at most one write statement is active and reads never overlap a write to their table", "statement": "Statements are admitted so that no two writes ever execute at the same time and a statement reading a table never executes at the same time as a write to that table.", "quantifier": "all schedules of any number of statements", "why_tests_cant": "schedules cannot be enumerated by tests", "anchors": ["ecore/sqlbase.go:executeSqlite", "ecore/sqlbase.go:newQuery"]}
{"id": "C28", "title": "SQL store reads its own pending writes", "statement": "Get on a single-valued feature returns the value of the last Set on that object and feature, even while that write is still pending.", "quantifier": "all histories of operations", "why_tests_cant": "pending window", "anchors": ["ecore/sqlstore.go:getLastOperation", "ecore/sqlstore.go:Get", "ecore/sqlstore.go:SetContainer"]}
{"id": "C29", "title": "The unbounded operation channel is a lossless FIFO", "statement": "Values received from the unbounded channel are exactly the values sent, in order; after Close the remaining values are still delivered and then the channel is closed; a sender is never blocked forever by a slow receiver.", "quantifier": "all interleavings of senders, the manager goroutine and receivers", "why_tests_cant": "schedules cannot be enumerated by tests", "anchors": ["ecore/sqlstore.go:manage", "ecore/sqlstore.go:infiniteChannel"]}
{"id": "C30", "title": "Encoder locks exclude each other per key and do not leak", "statement": "At any time at most one goroutine is between lock(k) and unlock(k) for a given key k, for any number of goroutines and keys, and no lock entry remains once every goroutine has released.", "quantifier": "all interleavings", "why_tests_cant": "schedules cannot be enumerated by tests", "anchors": ["ecore/sqlencoder.go:sqlEncoderLockManager"]}
{"id": "C31", "title": "Distinct classes and features get distinct SQL tables", "statement": "The SQL schema maps different classes, and different many-valued features, to different table names.", "quantifier": "all metamodels", "why_tests_cant": "collisions depend on names", "anchors": ["ecore/sqlschema.go:getOrComputeClassSchema"]}
{"id": "C32", "title": "SQL column values round-trip", "statement": "decodeFeatureValue(encodeFeatureValue(v)) = v for every attribute kind and every value of the kind's Go type.", "quantifier": "all values of each primitive kind", "why_tests_cant": "value ranges", "anchors": ["ecore/sqlencoder.go:encodeFeatureValue", "ecore/sqldecoder.go:decodeFeatureValue"]}
{"id": "C33", "title": "XML namespace scopes are lexical", "statement": "While parsing XML, looking up a prefix (or URI) gives the innermost declaration in scope, and leaving an element restores exactly the declarations in force before it.", "quantifier": "all well-nested sequences of push/declare/pop", "why_tests_cant": "needs arbitrary nesting histories", "anchors": ["ecore/xmlnamespaces.go:xmlNamespaces"]}
{"id": "C34", "title": "XML prefix allocation terminates and never aliases two namespaces", "statement": "Writing XML gives every package a prefix that denotes only its namespace URI, and always terminates.", "quantifier": "all sequences of packages with arbitrary nsPrefix/nsURI", "why_tests_cant": "collision chains", "anchors": ["ecore/xmlencoder.go:getPrefix", "ecore/xmldecoder.go:startPrefixMapping"]}
{"id": "C35", "title": "XML output is well nested", "statement": "The text produced for any object tree consists of balanced, properly nested start and end tags with attributes only inside start tags.", "quantifier": "all trees", "why_tests_cant": "arbitrary shapes", "anchors": ["ecore/xmlstring.go:xmlString", "ecore/xmlencoder.go:saveFeatures"]}
{"id": "C36", "title": "Data type literals round-trip", "statement": "CreateFromString(ConvertToString(v)) = v for every value of the integer, boolean, string and enumeration data types.", "quantifier": "all values", "why_tests_cant": "value ranges", "anchors": ["ecore/efactory_ext.go:ConvertToString", "ecore/efactory_ext.go:CreateFromString"]}
{"id": "C37", "title": "Binary search finds a key exactly when present", "statement": "On a list sorted by the comparison function, BinarySearch returns an index whose element compares equal, or reports absence together with the insertion point that keeps the list sorted.", "quantifier": "all sorted lists and keys", "why_tests_cant": "all lengths and boundaries", "anchors": ["ecore/elist.go:BinarySearch"]}
{"id": "C38", "title": "A copy equals its original", "statement": "Equal(Copy(o), o) for every object tree, the copy shares no object with the original, and references inside the tree are redirected to the copies.", "quantifier": "all object graphs", "why_tests_cant": "arbitrary graphs", "anchors": ["ecore/deepcopy.go", "ecore/deepequal.go", "ecore/ecoreutils.go:Copy"]}
{"id": "C39", "title": "Equal is an equivalence insensitive to object identity", "statement": "Equal is reflexive and symmetric, and Equal objects agree on all their features.", "quantifier": "all pairs of object graphs", "why_tests_cant": "arbitrary graphs", "anchors": ["ecore/deepequal.go:equals"]}
{"id": "C40", "title": "A content adapter observes exactly the contained objects", "statement": "A content adapter added to an object is an adapter of every object currently contained (directly or not) in it and of no object that left the tree.", "quantifier": "all finite histories of containment changes", "why_tests_cant": "unbounded histories", "anchors": ["ecore/econtentadapter.go:EContentAdapter"]}
{"id": "C41", "title": "Model element fragments identify the element", "statement": "EObjectForFragmentSegment(EURIFragmentSegment(f,o)) is o for every named element or annotation child o.", "quantifier": "all names, all sibling lists", "why_tests_cant": "names with special characters, equal names, dots", "anchors": ["ecore/emodelelement_ext.go:EURIFragmentSegment", "ecore/emodelelement_ext.go:EObjectForFragmentSegment"]}
{"id": "C42", "title": "Every observer sees every notification once, in order", "statement": "ENotify delivers a notification once to each adapter registered at that moment, in registration order, and to none when delivery is off.", "quantifier": "all adapter lists and notification sequences", "why_tests_cant": "arbitrary lists", "anchors": ["ecore/abstractenotifier.go:ENotify", "ecore/enotifier_impl.go"]}
{"id": "C43", "title": "Registry lookup falls back to the delegate", "statement": "GetPackage/GetFactory/GetCodec return the local entry when there is one, otherwise what the chain of delegates returns; registration in a child is never visible in its parent.", "quantifier": "all chains of registries and registration histories", "why_tests_cant": "arbitrary chains", "anchors": ["ecore/epackageregistry_impl.go", "ecore/ecodecregistry_impl.go"]}
{"id": "C44", "title": "URI prefix mapping terminates and applies the mapping", "statement": "Normalising a URI through the converter's map returns a URI to which no mapping applies, and always terminates.", "quantifier": "all maps and URIs", "why_tests_cant": "cyclic maps", "anchors": ["ecore/euriconverter_impl.go:Normalize", "ecore/uri.go:ReplacePrefix"]}
{"id": "C45", "title": "Containment never becomes cyclic", "statement": "No object is ever a direct or indirect container of itself.", "quantifier": "all histories", "why_tests_cant": "histories", "anchors": ["ecore/abstracteobject.go:EBasicSetContainer", "ecore/dynamiceobject_impl.go"]}
{"id": "C46", "title": "Class-filtered traversal agrees with the full traversal", "statement": "EAllContentsWithClass yields exactly the elements of EAllContents that are instances of the class, in the same order.", "quantifier": "all metamodels and trees", "why_tests_cant": "the pruning automaton depends on the whole class graph", "anchors": ["ecore/eallcontents.go:eAllContentsWithClass"]}
{"id": "C47", "title": "Slice representation does not leak", "statement": "Operations on one list never change another list or a slice previously returned, except where documented.", "quantifier": "all histories over several lists built from shared slices", "why_tests_cant": "aliasing depends on capacity", "anchors": ["ecore/basicelist.go:ToArray", "ecore/basicelist.go:NewBasicEList", "ecore/immutableEList.go"]}
{"id": "C48", "title": "isLoaded reflects the contents", "statement": "A resource becomes loaded when its contents become non-empty and unloaded when they become empty through list operations.", "quantifier": "all histories of contents operations", "why_tests_cant": "histories", "anchors": ["ecore/eresource_impl.go:resourceContents.DidAdd"]}
{"id": "C49", "title": "List callbacks announce what changed", "statement": "Every mutating call on an array list invokes DidAdd/DidSet/DidRemove/DidClear/DidMove so that each element entering or leaving the list is announced exactly once, at the position where it enters or leaves.", "quantifier": "all contents, calls and arguments", "why_tests_cant": "subclasses (maps, resource contents) rebuild state from the callbacks for every argument combination", "anchors": ["ecore/basicelist.go:doAdd", "ecore/basicelist.go:doAddAll", "ecore/basicelist.go:doRemoveRange"]}
{"id": "C50", "title": "An adapter's target is the notifier it is registered with", "statement": "An adapter used with a single notifier has that notifier as its target exactly while it is in the notifier's adapter list.", "quantifier": "all histories of operations on the adapter list", "why_tests_cant": "the list has bulk operations and each must keep targets in step", "anchors": ["ecore/abstractenotifier.go:notifierAdapterList.DidAdd", "ecore/abstractenotifier.go:notifierAdapterList.DidRemove", "ecore/abstracteadapter.go:UnSetTarget"]}
{"id": "C51", "title": "Closing the unbounded channel is safe", "statement": "Calling Close, once or several times and from any goroutines, never panics.", "quantifier": "all interleavings of goroutines calling Close with senders and receivers", "why_tests_cant": "the failing schedule needs two goroutines between two adjacent statements", "anchors": ["ecore/sqlstore.go:infiniteChannel.Close"]}
{"id": "C52", "title": "What is set through a feature is read back through it, and nothing else is set", "statement": "After o.ESet(f,v), o.EUnset(f) or a list operation on o.EGet(f), o.EGet(f) is the value given (or the list the operation describes), and no other feature of o without an inverse relation to f receives the value.", "quantifier": "all reachable object graphs, all classes including those with several supertypes", "why_tests_cant": "depends on the position each inherited feature gets in each subclass; unit tests use single inheritance", "anchors": ["ecore/abstracteobject.go:218-300", "ecore/abstracteobject.go:391-499", "ecore/eclass_ext.go:381-404"]}
{"id": "C53", "title": "Remove takes an object out of wherever it is", "statement": "EContainmentFeature() is the containment reference of the container that holds the object, and after Remove(o) the object has no container and no resource and nobody holds it.", "quantifier": "all reachable object graphs", "why_tests_cant": "depends on whether the containment reference has an opposite and on the position of features in two classes", "anchors": ["ecore/ecoreutils.go:173-189", "ecore/abstracteobject.go:188-211"]}
{"id": "C54", "title": "A contained object is a resource root only through a proxy-resolving containment reference", "statement": "If an object has a container and is also in the contents of a resource then the containment reference that holds it resolves proxies.", "quantifier": "all histories of containment and contents operations", "why_tests_cant": "the two ends of the containment relation are edited by different operations and any order is possible", "anchors": ["ecore/abstracteobject.go:139-171", "ecore/abstracteobject.go:782-851"]}
{"id": "C55", "title": "Contents and cross reference views enumerate the features in order", "statement": "EContents and ECrossReferences of an object list, for each feature of the view that is set and in feature order, its value or values; Iterator (with any pattern of HasNext and Next calls), Get, Size, Empty, Contains, IndexOf and ToArray all agree with that list.", "quantifier": "all objects, feature lists and call patterns", "why_tests_cant": "the iterator is a state machine whose prepared/unprepared states depend on the call pattern and on empty or unset features", "anchors": ["ecore/econtentslist.go:eContentsListIterator", "ecore/econtentslist.go:eContentsList"]}
{"id": "C56", "title": "A map with distinct keys behaves as an association list", "statement": "While the program keeps the keys of a map's entries distinct and does not modify entries that are inside the map, Put, RemoveKey, GetValue, ContainsKey and ContainsValue act on and answer from the ordered list of key-value pairs: Put replaces in place or appends, RemoveKey removes and returns the value, and none of them panics.", "quantifier": "all finite histories mixing map, list and entry operations under that discipline, whenever the key index happens to be built", "why_tests_cant": "whether the index exists depends on which lookups happened before each modification", "anchors": ["ecore/basicemap.go:BasicEMap"]}
{"id": "C57", "title": "Derived views other than eAllCrossReferences are never stale while classes deliver notifications", "statement": "As long as the class hierarchy stays acyclic, modified classes deliver their notifications and a feature is only changed (except for its ID flag) while it is in no class, GetEAllSuperTypes, GetEAllAttributes, GetEAllReferences, GetEAllStructuralFeatures, GetEAllOperations, GetEAllContainments, GetEAttributes, GetEReferences, GetEIDAttribute, GetEContainmentFeatures, GetECrossReferenceFeatures, GetEStructuralFeatureFromName, GetOverride, feature and operation ids and IsSuperTypeOf return, and return what is computed from scratch from the current super types, features and operations.", "quantifier": "all finite histories of list operations on super types, features and operations, ID changes and queries", "why_tests_cant": "which caches exist at each modification depends on the history; invalidation must reach every transitive sub class", "anchors": ["ecore/eclass_ext.go:setModified", "ecore/eclass_ext.go:eSuperAdapter", "ecore/eattribute_ext.go:SetID"]}
{"id": "C58", "title": "Operation ids and operations are inverse", "statement": "For every class and operation o it owns or inherits GetEOperation(GetOperationID(o)) is o, and GetOperationID is -1 for other operations.", "quantifier": "all fair histories over acyclic inheritance graphs", "why_tests_cant": "multiple inheritance shifts ids while the stored id is that of the owner class", "anchors": ["ecore/eclass_ext.go:GetOperationID", "ecore/eclass_ext.go:GetEOperation"]}
{"id": "C59", "title": "SQL store keeps list order with exact positions and single insertions", "statement": "If row positions were exact numbers, then Add, Remove, Move, Set, Clear anywhere, AddAll of at most one element anywhere and AddAll of several elements at the end keep every stored list as the list operations describe, one object's operations leave the lists of other objects alone, and Get, Size, IsEmpty, Contains, IndexOf, LastIndexOf and ToArray answer from these lists.", "quantifier": "all finite histories of operations on any number of objects", "why_tests_cant": "the position of a row depends on the whole history of insertions and moves", "anchors": ["ecore/sqlstore.go:getInsertIdx", "ecore/sqlstore.go:doMove", "ecore/sqlstore.go:doIndexOf"]}
{"id": "C60", "title": "SQL store: with one pending read at a time, conflicting operations on a feature run in call order", "statement": "If no operation times out and a reading operation is only called when no other reading operation is pending, then of two operations on the same object feature, at least one of which writes, the later one does not start before the earlier one has ended.", "quantifier": "all schedules, failures and numbers of operations under these two conditions", "why_tests_cant": "schedules cannot be enumerated by tests", "anchors": ["ecore/sqlstore.go:scheduleOperation", "ecore/sqlstore.go:registerOperation", "ecore/sqlstore.go:unregisterOperation"]}
{"id": "C61", "title": "SQL store: an operation waits for every earlier conflicting operation whose target it covers", "statement": "Without timeouts, an operation that concerns an object or the store (its own target, its contents or its value) does not start before every earlier write whose target is thereby covered has ended; with one pending read at a time the same holds of earlier reads.", "quantifier": "all schedules, failures and numbers of operations", "why_tests_cant": "the keys under which an operation is registered depend on which other operations are pending", "anchors": ["ecore/sqlstore.go:objectFeaturesIterator", "ecore/sqlstore.go:scheduleOperation"]}
{"id": "C62", "title": "SQL store: isolated failures do not affect other operations", "statement": "If operations never panic or time out and fail only while no other operation is pending, then no operation is ever rejected because of another one, and whenever operations are pending one of them is executing or able to start.", "quantifier": "all schedules with any number of such failures", "why_tests_cant": "failure points and schedules", "anchors": ["ecore/sqlstore.go:scheduleOperation"]}
{"id": "C63", "title": "SQL store: operations never block each other for ever", "statement": "Whenever some operation is pending, some operation is executing, able to start or about to be rejected, provided the contents of an object are distinct and do not include itself or the value of the operation.", "quantifier": "all schedules and failures without timeouts", "why_tests_cant": "a cycle of waiting operations would need a particular interleaving of registrations", "anchors": ["ecore/sqlstore.go:scheduleOperation", "ecore/sqlstore.go:allObjectFeatures"]}
{"id": "C64", "title": "SQL base: writes execute one after the other, reads after the earlier writes to their tables", "statement": "For scripts of one statement: of two statements that may change the database, the later one does not start before the earlier one has ended; and a SELECT does not start before every earlier write to one of its tables has ended.", "quantifier": "all schedules and failures of any number of statements", "why_tests_cant": "schedules cannot be enumerated by tests", "anchors": ["ecore/sqlbase.go:executeSqlite", "ecore/sqlbase.go:newQuery"]}
{"id": "C65", "title": "SQL store: Get returns the last Set when only Set writes the feature", "statement": "Without failures, with one pending read at a time and when every write concerning the feature is a Set of it, Get answers with the value of the last Set called before it, whether it answers from the pending operation or from the table, and with the default value when there is none.", "quantifier": "all schedules and histories under these conditions", "why_tests_cant": "pending window", "anchors": ["ecore/sqlstore.go:getLastOperation", "ecore/sqlstore.go:Get", "ecore/sqlstore.go:doSet"]}
{"id": "C66", "title": "Resolve inverts Relativize on normalised paths", "statement": "For URIs with a scheme, with the same scheme, user, host and port and with normalised non-empty paths: when the result r of base.Relativize(u) has a non-empty path, base.Resolve(r) has exactly the components of u.", "quantifier": "all such pairs of URIs, and all caches which do not hold another reading of the texts involved", "why_tests_cant": "depends on the common prefix, on dots and double slashes in both paths, and on what the cache holds", "anchors": ["ecore/uri.go:Relativize", "ecore/uri.go:Resolve", "ecore/uri.go:resolvePath"]}
{"id": "C67", "title": "The URI converter terminates on ranked mappings", "statement": "When schemes can be ranked so that every mapping leads to a scheme of lower rank, converting a URI terminates for every iteration order of the map, the result is obtained by applying mappings, and no mapping applies to it.", "quantifier": "all ranked maps, all orders of enumeration of the Go map at each step, all URIs", "why_tests_cant": "Go enumerates maps in random order", "anchors": ["ecore/euriconverter_impl.go:Normalize", "ecore/euriconverter_impl.go:getURIFromMap", "ecore/uri.go:ReplacePrefix"]}
{"id": "C68", "title": "URIs built from components keep them", "statement": "A URI built from scheme, user name, password, host, port, path, query and fragment has exactly these components, whichever of them are empty, unless the cache holds another reading of the same text.", "quantifier": "all components", "why_tests_cant": "256 combinations of empty components, and the cache", "anchors": ["ecore/uri.go:NewURIFromComponents"]}
{"id": "C69", "title": "XML text is well-formed when unescaped texts are plain", "statement": "Encoding an object which is no document root, whose values have the types of their features and whose many-valued attribute values, references, ids and qualified names contain no special XML characters, succeeds and gives a prolog followed by one well-formed element; single-valued attributes may hold any text.", "quantifier": "all object trees, all single-valued texts, all id attribute names, all namespace declarations", "why_tests_cant": "the shapes and texts are unbounded and the start tag is completed lazily by later calls", "anchors": ["ecore/xmlstring.go:startElement", "ecore/xmlstring.go:endElement", "ecore/xmlstring.go:resetToFirstElementMark", "ecore/xmlencoder.go:saveFeatures", "ecore/xmlencoder.go:encodeTopObject"]}
{"id": "C70", "title": "XML attribute values mean what was stored", "statement": "The attribute value written for a text is legal in an attribute, and reading its character and entity references gives that text and no other.", "quantifier": "all texts", "why_tests_cant": "texts are unbounded and escapes may interact with characters around them", "anchors": ["ecore/xmlencoder.go:saveDataTypeSingle"]}
{"id": "C71", "title": "Fragments address their object, for unambiguous ids and names", "statement": "For an object of the resource whose ids are not empty, do not start with / or end with ? and are resolved to it by the id manager or are unique without one, or which has no id and whose path goes through feature names that cannot be confused with positions, GetEObject(GetURIFragment(o)) is o; so different objects have different fragments.", "quantifier": "all consistent containment trees, all depths, positions, names and ids satisfying the conditions", "why_tests_cant": "trees and names are unbounded; writing and reading are separate pieces of string code", "anchors": ["ecore/eresource_impl.go:GetURIFragment", "ecore/eresource_impl.go:GetEObject", "ecore/abstracteobject.go:EURIFragmentSegment", "ecore/abstracteobject.go:EObjectForFragmentSegment"]}
{"id": "C72", "title": "Fragments of foreign objects lead nowhere", "statement": "An object without id which is not contained in the resource gets a fragment for which GetEObject returns nil.", "quantifier": "all objects outside of the resource, all states of the resource", "why_tests_cant": "needs all container chains", "anchors": ["ecore/eresource_impl.go:GetURIFragment", "ecore/eresource_impl.go:GetEObject"]}
{"id": "C73", "title": "Relative paths lead to the descendant", "statement": "For an object strictly below another one, getRelativeURIFragmentPath terminates and GetEObject applied to the ancestor and this path returns the object, for names which cannot be confused with positions.", "quantifier": "all containment trees, all pairs of ancestor and descendant", "why_tests_cant": "arbitrary depth", "anchors": ["ecore/ecoreutils.go:getRelativeURIFragmentPath", "ecore/ecoreutils.go:GetEObject"]}
{"id": "C74", "title": "Model element segments identify the element, for plain names", "statement": "For a named child whose name has only safe characters, does not start with @ and, when it is the first with this name, does not end like a count, and for an annotation which is not the first with its source, EObjectForFragmentSegment(EURIFragmentSegment(f, o)) is o.", "quantifier": "all sibling lists, all such names, all sources", "why_tests_cant": "names, sources and sibling lists are unbounded", "anchors": ["ecore/emodelelement_ext.go:EURIFragmentSegment", "ecore/emodelelement_ext.go:EObjectForFragmentSegment"]}
{"id": "C75", "title": "Store-backed lists are sequences under the calls that keep them in agreement", "statement": "From any state in which cached data, store and size agree, every history of list calls, SetCache, and SetEStore to a store that already has the contents or away from a non-empty list, returns the results of a mathematical sequence, panics exactly on invalid indices, keeps cached data, store and size in agreement, and sends notifications from which an observer rebuilds the contents; two lists with the same contents behave the same whatever they cache. Excluded: bulk additions to a unique list outside the exact case of the duplicate filter, and adding a non-unique list to itself.", "quantifier": "all histories of calls, all contents, all initial cache states, unique and non-unique lists", "why_tests_cant": "the state space is every interleaving of mutations with cache and store switches", "anchors": ["ecore/estorelist.go:EStoreList"]}
{"id": "C76", "title": "A persistent single-valued feature of a store-backed object is a variable", "statement": "For every history of EDynamicGet, EDynamicSet, EDynamicUnset, EDynamicIsSet and SetCache on non-transient single-valued features of an object with a store, a read returns the last value written (nil after unset), IsSet tells whether the last write was a set, and SetCache changes neither.", "quantifier": "all histories, all features and values, cached or not", "why_tests_cant": "histories interleave writes and cache switches without bound", "anchors": ["ecore/estoreeobject_impl.go:EDynamicGet", "ecore/estoreeobject_impl.go:EDynamicSet", "ecore/estoreeobject_impl.go:SetCache"]}
{"id": "C77", "title": "Queries of a store-backed reference list see the resolved objects, cached or not", "statement": "For every sequence of Get, IndexOf, Contains, ToArray, Size and SetCache on a reference list whose proxies resolve to distinct objects, the answers are those of the sequence of resolved objects, provided the objects searched for are not themselves proxies.", "quantifier": "all lists, all stable resolution functions, all query sequences", "why_tests_cant": "resolution has side effects on the cache, so the answer of a query could depend on all earlier ones", "anchors": ["ecore/estorelist.go:resolve", "ecore/estorelist.go:IndexOf", "ecore/estorelist.go:Contains"]}
{"id": "C78", "title": "List callbacks do not depend on the cache", "statement": "Except for RemoveRange and moves, a call on a store-backed list makes the same DidAdd, DidRemove, DidSet, DidClear and DidChange callbacks, with the same arguments and in the same order, whether the list is cached or not.", "quantifier": "all contents, all calls, both cache states", "why_tests_cant": "needs the comparison of two executions for every state and call", "anchors": ["ecore/estorelist.go:performRemove", "ecore/estorelist.go:performInsertAll", "ecore/estoremap.go:eStoreEMapList"]}
{"id": "C79", "title": "Round trip through the binary codec for well-formed documents", "statement": "For every object graph whose classes are found again by package and name, whose features have distinct non-empty names, whose values have the type of their feature (dates in UTC, data values that convert faithfully), in which every object has at most one container, references have no opposite other than containment, and URIs of outside objects exist and survive relativization: BinaryEncoder succeeds and BinaryDecoder returns a copy with the same classes, identifiers, set features, values, containment, order and sharing, outside objects being proxies of the same URI.", "quantifier": "all such graphs (cyclic ones included) and metamodels, with and without object identifiers", "why_tests_cant": "graphs, metamodels and the back-reference tables of the format are unbounded", "anchors": ["ecore/binaryencoder.go:encodeObject", "ecore/binarydecoder.go:decodeObject"]}
{"id": "C80", "title": "A decoded reference list has the encoded objects, and their order exactly when none or all were already there", "statement": "When a list without duplicates is decoded into a list that already holds some of its objects, the result holds exactly the encoded objects, each once; it is in the encoded order if and only if the list was empty or already held all of them.", "quantifier": "all lists and all subsets already present in any order", "why_tests_cant": "the in-place algorithm is exercised only by particular interleavings", "anchors": ["ecore/binarydecoder.go:decodeObjects"]}
{"id": "C81", "title": "The SQL schema of any finite metamodel is computed", "statement": "Asking for the schemas of any classes, in any order, of a finite metamodel that contains the types of its references (cyclic or not) terminates without panic; each class has one schema, the same whatever was asked before, and no foreign key refers to a class without a table.", "quantifier": "all metamodels, all sequences of requests", "why_tests_cant": "the recursion follows the references of the metamodel, whose cycles and orders are unbounded", "anchors": ["ecore/sqlschema.go:getOrComputeClassSchema"]}
{"id": "C82", "title": "SQL names do not collide for well-behaved names", "statement": "If classes differ up to case and have no underscore, and the features of each class differ up to case and are not called like its key or idx, then all tables (codec tables included) have different names for SQLite, and so have the columns of each table.", "quantifier": "all metamodels with such names", "why_tests_cant": "collisions depend on names", "anchors": ["ecore/sqlschema.go:getOrComputeClassSchema", "ecore/sqlschema.go:newSqlSchema"]}
{"id": "C83", "title": "The text of SQL queries is read as intended", "statement": "For names made of letters, digits and underscores, SQL key words included, the CREATE, INSERT, INSERT OR REPLACE and SELECT texts of every table of a schema are read by SQLite as the intended statements, with every name intact.", "quantifier": "all metamodels with such names, all tables of the schema", "why_tests_cant": "the text is assembled from names of the metamodel", "anchors": ["ecore/sqlschema.go:createQuery", "ecore/sqlschema.go:insertQuery", "ecore/sqlschema.go:selectQuery", "ecore/sqlschema.go:sqlEscapeIdentifier"]}
{"id": "C84", "title": "Literals of floating-point types and of the data types of Ecore round-trip", "statement": "For every value of the float types of a dynamic package and of the data types of Ecore other than EJavaClass and EJavaObject, the literal written by ConvertToString is read back as the value, provided dates are in UTC, of whole milliseconds and with four digits of year, slices of bytes are not nil, and strconv's documented shortest-format guarantee holds.", "quantifier": "all values", "why_tests_cant": "value ranges; calendar arithmetic", "anchors": ["ecore/ecorefactory_impl.go:ConvertToString", "ecore/ecorefactory_impl.go:CreateFromString", "ecore/efactory_ext.go:ConvertToString"]}
{"id": "C85", "title": "Any text is read as a value of the data type", "statement": "CreateFromString of a data type with a Go or Java instance type (and of an Ecore data type, for a non-empty text in the case of bytes) returns a value of that Go type within its range, whatever the text.", "quantifier": "all texts", "why_tests_cant": "texts are unbounded; range and syntax errors are ignored by the code", "anchors": ["ecore/efactory_ext.go:CreateFromString", "ecore/ecorefactory_impl.go:createEByteFromString"]}
{"id": "C86", "title": "SQL identifiers of enumeration literals stay consistent", "statement": "Through any encoding and decoding of attribute values, every known identifier of an enumeration literal is the key of a row with its enumeration and text, keys are distinct, rows are only added, and a row is decoded as the first literal with its text whether or not its identifier is already known.", "quantifier": "all metamodels, states and values", "why_tests_cant": "depends on the history of the identifier manager and the table", "anchors": ["ecore/sqlencoder.go:encodeEnumLiteral", "ecore/sqldecoder.go:decodeEnumLiteral"]}
{"id": "C87", "title": "NULL columns decode to the zero value of the attribute kind", "statement": "A nil attribute value is stored as NULL, and NULL is decoded as false, 0, the empty string, the default value of an enumeration attribute, or nil for dates, bytes and other data.", "quantifier": "all kinds", "why_tests_cant": "exhaustive over kinds and states", "anchors": ["ecore/sqlencoder.go:encodeFeatureValue", "ecore/sqldecoder.go:decodeFeatureValue"]}
{"id": "C88", "title": "SQL references distinguish objects and proxies", "statement": "The text stored for a reference to an object with a non-zero identifier is read as that object, and the non-empty URI stored for another object is read as a proxy with that URI unless the URI is a decimal number.", "quantifier": "all identifiers and URIs", "why_tests_cant": "one text column holds both", "anchors": ["ecore/sqlencoder.go:encodeFeatureValue", "ecore/sqldecoder.go:decodeFeatureValue"]}
{"id": "C89", "title": "Equals decides whether the two graphs can be matched", "statement": "On objects whose references stay in a finite set of objects, Equals always answers (it terminates and does not panic), also on cyclic graphs; it answers true exactly when there is a symmetric one-to-one pairing that contains the two objects and whose pairs are the same object, proxies with the same URI, or objects of one class whose own non-derived features are set alike and hold equal attribute values and paired references in the same order. EqualsAll does the same for two lists pairwise.", "quantifier": "for all finite object graphs, all pairs of objects and all pairs of lists of objects", "why_tests_cant": "The algorithm records guesses in a mutable map while it walks a possibly cyclic graph; that no guess makes the answer wrong needs an invariant over all graphs.", "anchors": ["ecore/deepequal.go:1-171"]}
{"id": "C90", "title": "Copy duplicates exactly the containment tree", "statement": "For objects of generated classes, Copy(o) and CopyAll(l) with no object of l inside another do not panic, create one new object of the same class for each object inside the roots, give attributes equal values in lists of their own, contents that are the copies of the contents in the same order, and declared references redirected to the copies (other objects are kept, unless the reference has an opposite); nothing else changes, whatever the order in which Go visits its map.", "quantifier": "all metamodels, all object graphs without containment circle, all factories, all map orders", "why_tests_cant": "arbitrary graphs, and Go's map order is random: a run sees one order", "anchors": ["ecore/deepcopy.go:copy", "ecore/deepcopy.go:copyReferences", "ecore/ecoreutils.go:Copy", "ecore/ecoreutils.go:CopyAll"]}
{"id": "C91", "title": "Equals accepts a complete copy", "statement": "When the declared, non-derived features of the objects inside o that cannot be changed are unset, their references with opposites stay inside o, o has no set reference to its container, and attribute values equal themselves, Equals(Copy(o), o) is true.", "quantifier": "all metamodels, graphs and trees that meet the conditions", "why_tests_cant": "arbitrary graphs, cyclic references", "anchors": ["ecore/deepcopy.go", "ecore/deepequal.go", "ecore/ecoreutils.go:Equals"]}
{"id": "C92", "title": "A content adapter is on the roots it was put on, on all they contain, and nowhere else", "statement": "Put a content adapter on objects and resources (the roots), take it off roots, and edit the model with EObject.ESet/EUnset, the lists of references and EResource.GetContents(): if bulk additions only add objects that are not contained, no object still in the tree is replaced by Set in the contents of a resource, and no root is inside an adapted object or resource when a call is made, then after every step EAdapters() of an object or resource contains the adapter exactly when it is a root or is contained, directly or not, in one. Taking it off the last root leaves it nowhere.", "quantifier": "all well-formed metamodels, all finite histories, other adapters anywhere", "why_tests_cant": "histories and models are unbounded; the adapter is moved by notifications whose order and merging depend on where every object was", "anchors": ["ecore/econtentadapter.go:handleContainment", "ecore/econtentadapter.go:removeAdapterWithChecks", "ecore/econtentadapter.go:SetTarget", "ecore/notificationchain.go:Add"]}
{"id": "C93", "title": "The work of a content adapter ends", "statement": "Putting a content adapter on an object or resource, taking it off, and every successful edit of an adapted model terminate without a panic.", "quantifier": "all reachable acyclic models of any size", "why_tests_cant": "termination of mutually triggered notifications over unbounded trees", "anchors": ["ecore/econtentadapter.go:SetTarget", "ecore/econtentadapter.go:UnSetTarget", "ecore/econtentadapter.go:NotifyChanged"]}
{"id": "C94", "title": "Lists over shared memory are sequences", "statement": "If no list is created on a slice that overlaps the slice of another list, then every operation of every BasicEList returns the result of, leaves the contents of, and panics exactly as the same operation on a plain sequence, and changes no other list, its argument included.", "quantifier": "all programs with any number of lists and slices, all interleavings of their operations, all growth policies of append", "why_tests_cant": "the code appends in place when capacity allows; whether memory is shared depends on the whole history and on the runtime's growth policy", "anchors": ["ecore/basicelist.go:doAddAll", "ecore/basicelist.go:doInsertAll", "ecore/basicelist.go:doRemoveRange", "ecore/abstractelist.go:InsertAll"]}
{"id": "C95", "title": "GetResource answers with the resource of the document", "statement": "EResourceSet.GetResource(uri, loadOnDemand) always returns. It returns the resource of the package registered for uri, or the first resource of the set whose normalized URI equals the normalized uri. If there is none it returns nil without loadOnDemand, and a new resource with that URI, appended to the set, with loadOnDemand. It changes no other answer and removes nothing. With loadOnDemand the resource is loaded afterwards, or its errors say why not, unless the converter gave no reader. Without it nothing is created or loaded.", "quantifier": "all URI converters that normalize every text, registries, finite collections of documents that demand each other in any way, and all states reached by programs that give every resource a URI and do not move or remove resources while the URI cache is in use", "why_tests_cant": "Demands nest to any depth and come back to resources that are being loaded; a test fixes one shape of references.", "anchors": ["ecore/eresourceset_impl.go:69-125", "ecore/eresource_impl.go:402-448"]}
{"id": "C96", "title": "One resource per document", "statement": "In a program that uses a resource set only by asking, loading and unloading, two calls of GetResource return the same resource exactly if their URIs normalize to the same text. A resource once returned for a URI is returned for it ever after, with or without the URI cache.", "quantifier": "all such programs, worlds as in the previous property, and pairs of calls at any distance", "why_tests_cant": "The property relates calls at arbitrary distance across loads that create further resources.", "anchors": ["ecore/eresourceset_impl.go:69-125"]}
{"id": "C97", "title": "Documents that refer to each other are read once", "statement": "During one call of GetResource, GetEObject or Load each resource is decoded at most once, and only resources that were not loaded are decoded; contents and errors of resources that were loaded before do not change; afterwards no resource is left marked as loading. In a program that never unloads, each resource is decoded at most once over its whole life.", "quantifier": "all finite collections of documents with cyclic references, and all careful programs", "why_tests_cant": "Cycles of references between documents have unbounded length.", "anchors": ["ecore/eresource_impl.go:402-448", "ecore/eresourceset_impl.go:69-118"]}
{"id": "C98", "title": "A loaded resource has the contents of its document", "statement": "When GetResource or Load reads the document of a resource, the contents of the resource are afterwards the objects the decoder added, each once and in that order, and its errors are those the decoder reported, whatever other documents were loaded on the way. Unload empties the contents; loading again gives the contents of the document again.", "quantifier": "all documents, states and references to other documents, including references back to the resource being read", "why_tests_cant": "Nested loads run in the middle of the decoder; a test sees few interleavings.", "anchors": ["ecore/eresource_impl.go:402-484", "ecore/eresourceset_impl.go:69-118"]}
{"id": "C99", "title": "Answers follow moves and removals of resources", "statement": "After SetURI on a resource, or after removing it from the set or adding one to it, GetResource answers according to the present URIs and members of the set.", "quantifier": "all programs, with and without a URI cache, including resources without a URI", "why_tests_cant": "The cache is keyed by pointers and filled by earlier calls; tests of the cache do not move resources.", "anchors": ["ecore/eresourceset_impl.go:69-118", "ecore/euriconverter_impl.go:41-56"]}
{"id": "C100", "title": "Resolution of proxies", "statement": "ResolveInResourceSet returns. An object that is no proxy is returned as it is. Otherwise the result is the object at the end of the chain of proxies: an object that is no proxy, or the first proxy of the chain whose URI designates nothing or itself.", "quantifier": "all documents and chains of proxies of any length", "why_tests_cant": "Chains and cycles of proxies have unbounded length.", "anchors": ["ecore/ecoreutils.go:105-147", "ecore/eresourceset_impl.go:127-135"]}
{"id": "C101", "title": "A saved XML document is loaded as it was", "statement": "With deferred resolution of references, a document saved by the XML encoder and read by the XML decoder gives the same objects: the same classes, containers and order of children, the same values, references to the same objects in the same order, proxies with the same URIs for objects of other documents, the same ids for an id manager, one root and no errors.", "quantifier": "all metamodels without references that have a non-container opposite, all documents whose values are not lost by their texts, whose names lead to their features and classes, and whose reference fragments are addressable", "why_tests_cant": "Documents have unbounded depth, names and texts; the property ties the encoder, the tokenizer and the decoder together.", "anchors": ["ecore/xmldecoder.go:144-798", "ecore/xmlencoder.go"]}
{"id": "C102", "title": "A saved XML document is loaded as it was, without deferred resolution", "statement": "The previous property also holds with the default options, where references are resolved while the document is read.", "quantifier": "as in the previous property", "why_tests_cant": "Whether a reference is resolved at once or at the end depends on the places of both ends in the document.", "anchors": ["ecore/xmldecoder.go:583-655", "ecore/xmldecoder.go:737-745"]}
{"id": "C103", "title": "Elements the metamodel does not know are reported and skipped", "statement": "When the XML decoder meets an element for which the class has no feature, it reports it, skips it, and reads the rest of the document as if the element were not there.", "quantifier": "all documents and all places of the unknown element", "why_tests_cant": "The stacks of the decoder get out of step only for some nestings.", "anchors": ["ecore/xmldecoder.go:181-229", "ecore/xmldecoder.go:417-445"]}
{"id": "C104", "title": "Loading an XML text does not panic", "statement": "Loading any text ends, with or without errors in the resource; it does not panic.", "quantifier": "all texts and metamodels", "why_tests_cant": "Texts come from outside and tests try few malformed ones.", "anchors": ["ecore/xmldecoder.go"]}
{"id": "C105", "title": "Values in an XML text are loaded or reported", "statement": "A value, nil or empty list written in an XML text is afterwards the value of the feature, or an error is reported.", "quantifier": "all texts and features", "why_tests_cant": "Kinds of features and ways to write their values multiply.", "anchors": ["ecore/xmldecoder.go:447-497", "ecore/xmldecoder.go:562-581"]}
{"id": "C106", "title": "Objects loaded from any XML text are well formed", "statement": "Whatever the text and whatever errors it has, if loading ends then each object held by a containment feature has that owner and feature as container, each object with a container is held by its feature, containment lists and unique lists have no duplicates, features hold values of their kind, references are to objects created by the load, and the contents of the resource are distinct objects without container.", "quantifier": "all texts, metamodels and options", "why_tests_cant": "The stacks of the decoder get out of step on bad texts; tests do not enumerate them.", "anchors": ["ecore/xmldecoder.go:144-798"]}
{"id": "C107", "title": "A saved XML document that was cut off is not loaded in part without an error", "statement": "Loading any prefix of a saved document ends without panic, and either a syntax error is reported, or nothing is loaded, or the whole document is loaded.", "quantifier": "all documents of C101 and all prefixes of their texts", "why_tests_cant": "The cut can be anywhere in an unbounded text.", "anchors": ["ecore/xmldecoder.go:144-168", "ecore/xmlencoder.go"]}
{"id": "C108", "title": "A package finds its classifiers by their names", "statement": "At any time GetEClassifier(name) of a package returns the last classifier in GetEClassifiers() whose name it is, and nil if there is none.", "quantifier": "all packages, all histories of additions, removals, moves, renamings, lookups and changes of EDeliver", "why_tests_cant": "the cache is filled by the first lookup; a test has to hit the order lookup, change, lookup for each kind of change", "anchors": ["ecore/epackage_ext.go:19-69"]}
{"id": "C109", "title": "A package that notifies finds the classifiers whose names have not changed", "statement": "As long as no classifier is renamed and packages deliver notifications, GetEClassifier(name) returns the last classifier of that name in the package, nil if none; after renamings, any addition to or removal from the package makes its answers right again.", "quantifier": "all packages, all interleavings of lookups, additions, removals and moves between packages", "why_tests_cant": "interleavings of lookups and changes of several packages are unbounded", "anchors": ["ecore/epackage_ext.go:19-69"]}
{"id": "C110", "title": "ExtendedMetaData finds the types of a package", "statement": "GetType(package, name) returns a classifier of the package whose name in documents is the name, and nil only if the package has none; the answer does not depend on earlier lookups.", "quantifier": "all packages, all histories of changes and lookups", "why_tests_cant": "the map is rebuilt only when its size differs from that of the list, and building it stops early; the states in which this goes wrong need particular sequences", "anchors": ["ecore/extendedmetadata.go:47-70", "ecore/extendedmetadata.go:92-135"]}
{"id": "C111", "title": "ExtendedMetaData finds the types of a package that only grows", "statement": "While a package only receives classifiers and names and annotations do not change, GetType(package, name) does not panic and returns a classifier of the package with the name in documents, and nil only if there is none, whatever was looked for before.", "quantifier": "all packages, all interleavings of additions and lookups, also with several classifiers of one name", "why_tests_cant": "the partial map built by each lookup and the size test that decides about rebuilding it make every order of lookups a different state", "anchors": ["ecore/extendedmetadata.go:47-70", "ecore/extendedmetadata.go:92-135"]}
{"id": "C112", "title": "One ExtendedMetaData answers all questions about a package", "statement": "GetName(package) and GetType(package, name) can both be asked of one ExtendedMetaData without a panic.", "quantifier": "all packages and names", "why_tests_cant": "each call works alone; only the two together on one package fail", "anchors": ["ecore/extendedmetadata.go:92-135"]}
{"id": "C113", "title": "The default value of a feature is that of its type and literal", "statement": "At any time GetDefaultValue of a feature is what the factory of its type makes of its default value literal, or without a literal the default value of its type (nil if the feature is many).", "quantifier": "all features, all histories of changes of types, literals, factories and lookups", "why_tests_cant": "the value is kept together with the factory only, so the fault needs a lookup, a change of the type and another lookup", "anchors": ["ecore/estructuralfeature_ext.go:27-68"]}
{"id": "C114", "title": "The default value of a feature whose type stays follows its literal and its factory", "statement": "While the type of a feature, its package, its instance type and its serializability do not change, GetDefaultValue is what the current factory makes of the current literal, or without a literal the default value of the type, whatever calls of SetDefaultValueLiteral, SetDefaultValue, SetEFactoryInstance, SetUpperBound and lookups came before.", "quantifier": "all features, factories (arbitrary conversions, which may panic) and histories", "why_tests_cant": "sequences of literals and factories are unbounded", "anchors": ["ecore/estructuralfeature_ext.go:27-68", "ecore/edatatype_ext.go:30-66"]}
{"id": "C115", "title": "What a metamodel has once reported stays up to date", "statement": "GetEReferenceType follows SetEType, GetClassifierID is the position of the classifier in its package, and the default value of a data type does not depend on whether it has been asked for before.", "quantifier": "all histories of changes and lookups", "why_tests_cant": "each first answer is right; only later ones are stale", "anchors": ["ecore/ereference_ext.go:30-39", "ecore/eclassifier_impl.go:66-72", "ecore/eclassifier_ext.go:23-28", "ecore/edatatype_ext.go:39-66"]}
{"id": "C116", "title": "What a metamodel reports is right while it only grows", "statement": "If the type of a reference is only ever set to one classifier, GetEReferenceType is that classifier when it is a class and nil before; in a package that only receives classifiers, GetClassifierID is the position of the classifier, -1 before it is added; lookups never change the default value of a data type whose instance type and default are not set.", "quantifier": "all histories of additions, settings and lookups", "why_tests_cant": "the answers are kept from different moments of the history", "anchors": ["ecore/ereference_ext.go:30-39", "ecore/eclassifier_impl.go:66-72", "ecore/eclassifier_ext.go:23-28", "ecore/edatatype_ext.go:39-66"]}
{"id": "C117", "title": "SQL store: single-valued attributes are variables", "statement": "For objects of a SQL store, Get of any single-valued attribute of the object's class, inherited or not, answers the value last given by Set, the default value after UnSet or when nothing was set, and IsSet tells whether that value differs from the default value.", "quantifier": "every metamodel, object, attribute, and sequence of Set, UnSet and SetContainer calls executed one after the other", "why_tests_cant": "Tests use classes without supertypes, attributes without defaults and a handful of types; the answer depends on the class hierarchy, the kind of attribute and the rows already written", "anchors": ["ecore/sqlstore.go:888-928", "ecore/sqlstore.go:1363-1566"]}
{"id": "C118", "title": "SQL store: attributes declared by the class of the object are read as last set", "statement": "If every Set and UnSet concerns an attribute declared by the object's own class, values are storable, and UnSet concerns attributes that are stored as they are, then Get answers the value last given, the zero value of the kind if the object was stored and the attribute never given a value, and nil if the object was never stored.", "quantifier": "every metamodel, object, such attribute, and sequence of such calls mixed with SetContainer", "why_tests_cant": "The state depends on the whole history of calls on all objects and on the shared enumeration table", "anchors": ["ecore/sqlstore.go:943-978", "ecore/sqlstore.go:1379-1566"]}
{"id": "C119", "title": "SQL store: what IsSet answers", "statement": "Under the conditions of the previous property IsSet is false for objects never stored; it tells whether the default value is not nil for attributes never given a value; it tells whether the last value differs from the default value for int64, string and float64 attributes; and it is always true for stored objects' bool, byte, int, int16, int32 and float32 attributes.", "quantifier": "every metamodel, object, such attribute, and sequence of such calls", "why_tests_cant": "A test of one attribute type says nothing of the others, and unset and default values need to be told apart after any history", "anchors": ["ecore/sqlstore.go:1491-1529"]}
{"id": "C120", "title": "SQL store: the feature of the container of a child first stored with it", "statement": "When a child is first stored as a value of a containment of its container, GetContainer of the child answers that container and that feature.", "quantifier": "every metamodel, container class and containment feature of it, after any sequence of calls", "why_tests_cant": "The stored number is a position in the features of one class read in those of another; they agree in the class hierarchies tests use", "anchors": ["ecore/sqlencoder.go:420-425", "ecore/sqlencoder.go:622", "ecore/sqlstore.go:2140-2187"]}
{"id": "C121", "title": "SQL store: containers are those given last", "statement": "GetContainer answers the container and the feature last given by SetContainer, nil if there was none; for a child first stored as a value of its container it answers this container and feature if the features of the class that declares the containment are the first ones of the container's class.", "quantifier": "every metamodel of dynamic classes, and sequence of calls", "why_tests_cant": "Objects are stored on first use, in any order, and rows are shared by all later calls", "anchors": ["ecore/sqlstore.go:2140-2234"]}
{"id": "C122", "title": "SQL documents: what is loaded is what was saved", "statement": "A resource saved by the SQL encoder and loaded by the SQL decoder has the same contents, and each object has the same class, identifier, set features, values and links inside the document.", "quantifier": "every metamodel, finite resource whose values fit their features, and option of the encoder", "why_tests_cant": "Tests save a few fixed models with one root; losses depend on the number of roots, default values, the order in which linked objects are written, and on combinations of options", "anchors": ["ecore/sqlencoder.go:866-903", "ecore/sqlencoder.go:281-418", "ecore/sqldecoder.go:805-862", "ecore/sqldecoder.go:961-1144"]}
{"id": "C123", "title": "SQL documents: what is given back of the first root", "statement": "A finite resource is saved without error. Loading gives the first root, exactly the objects reached from it by containments and by references that resolve no proxies, each once and with its class; every value and every list in order; every link to an object saved before its source, and links to others as that object or a proxy with its URI; attributes without value are set to what NULL stands for, other features without value are not set; identifiers are kept if SQL_OPTION_CONTAINER_ID is not used. The result does not depend on the order in which the concurrent tasks of the decoder set values.", "quantifier": "every metamodel whose features belong to one class, resource whose values fit, option, finite object graph with cycles and sharing, and order of the tasks", "why_tests_cant": "Rows of all objects are interleaved by the recursion and read back by concurrent tasks; sharing and cycles make the order of numbers depend on the whole graph", "anchors": ["ecore/sqlencoder.go:281-454", "ecore/sqldecoder.go:388-429", "ecore/sqldecoder.go:961-1144"]}
{"id": "C124", "title": "JSON documents: everything is written once", "statement": "Encoding a finite resource as JSON ends, and the JSON has every root, every object of the resource exactly once, and every set feature under a member of its own.", "quantifier": "every metamodel and finite resource whose values fit their features", "why_tests_cant": "Tests encode one fixed model with one root and without plain references; cycles, several roots and name clashes do not occur in it", "anchors": ["ecore/jsonencoder.go:33-74", "ecore/jsonencoder.go:93-153", "ecore/jsoncodec.go:34-72"]}
{"id": "C125", "title": "JSON documents: the first root", "statement": "If the containments and the references that resolve no proxies have no cycle below the first root, and no feature is called eClass or like the identifier, encoding ends without panic and gives one JSON object for the first root: one member for the class, one for the identifier if there is one, one for each feature that is set and not transient, with its text, list of texts in order, nested objects in order or references (class and URI), and no other member.", "quantifier": "every metamodel, resource and option, object graph of any size and depth", "why_tests_cant": "The structure is produced by nested callbacks of a recursion over the whole graph; no test can fix its depth or the combinations of features", "anchors": ["ecore/jsonencoder.go:59-153", "ecore/jsoncodec.go:34-72"]}
{"id": "C126", "title": "Attributes of dynamic objects are variables of their features", "statement": "EGet answers the value last given by ESet, or the default value; reading changes nothing; notifications carry the values EGet answers before and after; two objects never share a list; and values stay with their features when the class of the object or the features of the class change.", "quantifier": "every dynamic or reflective object, metamodel, history of calls, and change of the metamodel", "why_tests_cant": "Tests use one object with one attribute of an unchanging class", "anchors": ["ecore/abstracteobject.go:241-301", "ecore/abstracteobject.go:391-420", "ecore/dynamiceobject_impl.go:40-89", "ecore/reflectiveeobject_impl.go:35-68"]}
{"id": "C127", "title": "While classes stay, attributes are independent variables", "statement": "As long as classes are not changed and the numbers of features are their positions, every history of EGet, ESet, EIsSet, EUnset and edits of attribute lists answers like independent variables, one for each object and feature: EGet gives the value set last, the default value of an attribute that is not set, and for a list the same list each time, made at the first look; EIsSet tells whether there is a value other than nil; calls panic exactly for features the class does not have; an observed object announces each ESet, EUnset and edit once, in order, with the feature and the values of the variable before and after, and nothing else.", "quantifier": "every number of dynamic and reflective objects, metamodel with numbered features, initial values, and history of calls", "why_tests_cant": "Histories interleave objects, features and lists without bound; slices are allocated lazily", "anchors": ["ecore/abstracteobject.go:241-301", "ecore/abstracteobject.go:391-568", "ecore/dynamiceobject_impl.go:56-89", "ecore/reflectiveeobject_impl.go:43-68"]}
{"id": "C128", "title": "What becomes of attribute values when classes change", "statement": "SetEClass of a dynamic object keeps values at their numbers: a feature of the new class has the value of the feature of the old class with its number, and none if there was no such feature; other objects are untouched. When features are added at the end of classes, calls on the former features do exactly what they did, and every call on a new feature panics for an object that already has its slice.", "quantifier": "every metamodel with numbered features, object, and addition of features", "why_tests_cant": "Depends on the sizes of slices allocated earlier in the history", "anchors": ["ecore/dynamiceobject_impl.go:40-46", "ecore/dynamiceobject_impl.go:84-89", "ecore/reflectiveeobject_impl.go:63-68"]}
{"id": "C129", "title": "A call on a reference changes the ends of the links it makes and breaks, and nothing else", "statement": "After ESet, EUnset or a list operation on a reference f of an object o, with R the objects that left it and A those that entered it, every other reference holds what it held, in the same order, except: the opposite references of objects of R no longer hold o; those of objects of A hold o, at the end of a list, alone in a single-valued one; when f is a containment reference, or its opposite is single-valued, the objects of A are gone from the reference that held them before. Containers of objects that neither left nor entered a containment reference stay. Roots of resources stay, except that the objects of A are roots no more when the containment reference does not resolve proxies. Setting a container reference moves o from where it was contained, whatever the reference, to the new container, and changes nothing else but the container of an object it displaces.", "quantifier": "every metamodel with mutual opposites and features numbered by position, state reached by typed calls, and next call", "why_tests_cant": "The effects spread over the objects linked to the two ends, in any graph", "anchors": ["ecore/abstracteobject.go:419-629", "ecore/abstracteobject.go:650-877", "ecore/basiceobjectlist.go:121-145"]}
{"id": "C130", "title": "Generated classes agree with Ecore's own description", "statement": "For every class of the Ecore metamodel (EClass, EAttribute, ... 20 classes): EStaticClass and EStaticFeatureCount name the class and the number of its features as ecorepackage_impl.go builds it; the struct it embeds is its supertype; the constants <CLASS>__<FEATURE> are exactly the positions of the features of that name, and equal the identifiers given when the features are created; every feature has a case in EGetFromID and EIsSetFromID, and one in ESetFromID and EUnsetFromID exactly if it is changeable; the description is a well-formed metamodel (mutual opposites, positions as identifiers); every list of a many-valued reference is created for that feature, with its containment, and is linked through the feature's opposite if there is one.", "quantifier": "all classes, features and constants of ecorepackage_impl.go and e*_impl.go", "why_tests_cant": "Tests call a few getters and setters; nothing compares the hundreds of constants, cases and constructor arguments with the metamodel the same package describes.", "anchors": ["ecore/ecorepackage_impl.go:94-1500", "ecore/constants.go", "ecore/eclass_impl.go", "ecore/epackage_impl.go", "ecore/eannotation_impl.go"]}
{"id": "C131", "title": "Lists of generated classes resolve proxies when the metamodel says so", "statement": "The list of a many-valued reference of a generated Ecore class resolves the proxies it holds if and only if the reference has resolveProxies in the metamodel.", "quantifier": "all classes and many-valued references of Ecore", "why_tests_cant": "Tests put ordinary objects in the lists; a proxy that stays a proxy looks like an object.", "anchors": ["ecore/epackage_impl.go", "ecore/ecorepackage_impl.go", "ecore/basiceobjectlist.go:26-42"]}
{"id": "C132", "title": "Generated objects behave as dynamic objects of the same class", "statement": "In every state reached by typed calls on objects of the generated Ecore classes (without annotation details), every ESet, EUnset, edit of a list and edit of the contents of a resource returns, and leaves exactly the state, or panics exactly when, the same calls on dynamic objects of the metamodel do: ESet of a many-valued reference is Clear followed by AddAll, EUnset is Clear or a set to nil.", "quantifier": "all assignments of classes to objects, all histories of typed calls, all references that can be changed except EAnnotation.details", "why_tests_cant": "The generated switch statements, setters, inverse handlers and list constructors are separate code from the reflective ones; tests compare neither of them on histories.", "anchors": ["ecore/abstracteobject.go:391-877", "ecore/eclass_impl.go", "ecore/epackage_impl.go", "ecore/efactory_impl.go", "ecore/eannotation_impl.go", "ecore/basiceobjectlist.go:121-145"]}
{"id": "C133", "title": "Containment, opposites and resources of generated objects stay consistent", "statement": "In every state reached by typed calls on objects of the generated Ecore classes (without annotation details): an object is in a containment reference of c (read with EGet) if and only if its container is c and its containing feature is that reference; every contained object is found in some containment reference of its container; a is in the reference of b if and only if b is in the opposite reference of a; an object is in the contents of a resource if and only if the resource is its own.", "quantifier": "all assignments of classes to objects, all reachable states, all objects and references", "why_tests_cant": "Consistency is a statement about all histories of moves between containers; the tests follow single moves.", "anchors": ["ecore/abstracteobject.go:650-877", "ecore/eclass_impl.go", "ecore/estructuralfeature_impl.go", "ecore/epackage_impl.go"]}
{"id": "C134", "title": "An entry of an annotation's details belongs to one annotation", "statement": "An entry in the details of an annotation is in the details of that annotation only, the one that is its container.", "quantifier": "all histories of typed calls on annotations and entries", "why_tests_cant": "The inverse handler of details is a generated case of its own; tests add entries to one annotation.", "anchors": ["ecore/eannotation_impl.go"]}
{"id": "C135", "title": "ESet and EUnset return", "statement": "ESet and EUnset of a feature of a generated class return or panic; they do not run forever.", "quantifier": "all classes and features of Ecore", "why_tests_cant": "A call that never returns ends a test run, so no test makes it.", "anchors": ["ecore/abstracteobject.go:391-417", "ecore/abstracteobject.go:540-566"]}
{"id": "C136", "title": "Which references ESet and EUnset return for", "statement": "ESet and EUnset of a reference of a generated class return (or panic) for every value if the reference is changeable, and call themselves without end if it is not.", "quantifier": "all classes and references of Ecore, all states and values", "why_tests_cant": "Needs all features of all classes; a missing case in a generated switch shows as recursion without end.", "anchors": ["ecore/abstracteobject.go:391-417", "ecore/abstracteobject.go:540-566", "ecore/eclassifier_impl.go", "ecore/eclass_impl.go"]}
{"id": "C137", "title": "Attributes of generated classes", "statement": "For every changeable attribute of a generated class other than instanceTypeName, classifierID, literal and defaultValue: a new object has the default given in the metamodel; ESet accepts every value of the attribute's type, EGet then returns it and the other attributes of all objects are unchanged; EUnset returns to that default, after which EIsSet is false; EIsSet is true exactly if the value is another than the default.", "quantifier": "all classes and such attributes, all field contents, all values, all histories", "why_tests_cant": "Defaults occur in three places of the generated code (Initialize, EUnset, EIsSet) and as text in the metamodel; tests set and get one value.", "anchors": ["ecore/etypedelement_impl.go", "ecore/estructuralfeature_impl.go", "ecore/ereference_impl.go", "ecore/ecorepackage_impl.go", "ecore/enamedelement_impl.go"]}
{"id": "C138", "title": "Giving a reference its own list changes nothing", "statement": "o.ESet(f, o.EGet(f)) leaves a many-valued reference of a generated object as it is.", "quantifier": "all reachable states, objects and many-valued references that can be changed", "why_tests_cant": "A copy loop over all features makes exactly this call; tests pass lists made for the purpose.", "anchors": ["ecore/eclass_impl.go", "ecore/epackage_impl.go", "ecore/basicelist.go"]}
{"id": "C139", "title": "Reading a reference of a generated object does not panic", "statement": "EGet (and the getter) of a reference of a generated object returns in every state reached by typed calls.", "quantifier": "all reachable states, objects and references", "why_tests_cant": "The panic needs an object taken out of its container earlier; tests read the container while it is there.", "anchors": ["ecore/estructuralfeature_impl.go:92-97", "ecore/efactory_impl.go:63-68", "ecore/eclassifier_impl.go"]}
{"id": "C140", "title": "When reading a reference of a generated object panics", "statement": "EGet of a reference of a generated object panics exactly if it is a container reference, the object was last held through it, and it has since been taken out of its container; otherwise it returns what it returns for a dynamic object.", "quantifier": "all reachable states, objects, and references that can be changed or have an opposite, except EAnnotation.details", "why_tests_cant": "Needs all references of all classes and the history of the object.", "anchors": ["ecore/estructuralfeature_impl.go:92-97", "ecore/efactory_impl.go:63-68", "ecore/abstracteobject.go:782-851"]}
{"id": "C141", "title": "Setters of generated classes announce the feature they set", "statement": "When a changeable feature of a metamodel object is set or unset through ESet or EUnset, the notification the object sends names that feature, so an adapter filtering on the feature sees the change.", "quantifier": "for every class of Ecore, every object of it and every changeable feature of it", "why_tests_cant": "There are about twenty generated setters, each with a hand-numbered constant in its notification, and hand-written ones beside them; a test of one setter says nothing of the next, and a wrong constant changes no value that a test of getters reads.", "anchors": ["ecore/etypedelement_impl.go", "ecore/eclassifier_ext.go:35-42", "ecore/abstracteobject.go:782-851"]}
{"id": "C142", "title": "SQL store: a reference gives back the object it was given", "statement": "After Set of a single reference of an object in a SQL store, and until it is set again, Get answers the object that was set.", "quantifier": "for every data base, every program using objects of one store, every object, reference and value", "why_tests_cant": "Whether it holds depends on which of the objects were registered or unregistered in between, in any order; a test fixes one order.", "anchors": ["ecore/sqlstore.go:1379-1473", "ecore/sqlstore.go:1829-1859", "ecore/sqlencoder.go:281-434"]}
{"id": "C143", "title": "SQL store: while objects stay registered, a reference gives back the object it was given", "statement": "In a program that unregisters nothing, after Set of a single reference to an object (one that is in the store, unless the reference contains), Get answers that very object until the reference is set again; and what Get answered once for a reference of the data base, it answers again.", "quantifier": "for every well-formed data base, every program without UnRegister and objects of other stores, every object, reference and value", "why_tests_cant": "The same object must come back through caches of identifiers whatever else was stored, read or removed in between; tests look at a few sequences.", "anchors": ["ecore/sqlstore.go:328-418", "ecore/sqlstore.go:943-978", "ecore/sqlstore.go:1379-1473", "ecore/sqldecoder.go:278-340"]}
{"id": "C144", "title": "SQL store: GetRoots gives each object that was added, once", "statement": "GetRoots answers the objects that were given to AddRoot and not to RemoveRoot since, each once.", "quantifier": "for every program on objects and a SQL store", "why_tests_cant": "It quantifies over all sequences of calls, including an object added twice, added again after being unregistered, or coming from another store.", "anchors": ["ecore/sqlstore.go:1761-1827", "ecore/sqlencoder.go:263-269"]}
{"id": "C145", "title": "SQL store: while objects stay registered, the roots are a list to which objects are added at its end", "statement": "In a program that unregisters nothing, the answer of GetRoots follows from an earlier one: AddRoot adds its object at the end, RemoveRoot takes all occurrences of its object out, and no other call changes the roots. No call fails.", "quantifier": "for every well-formed data base and every program without UnRegister and objects of other stores", "why_tests_cant": "Other calls store objects and give out identifiers; that none of them disturbs the roots, for all sequences, is not something examples show.", "anchors": ["ecore/sqlstore.go:1761-1827", "ecore/sqlencoder.go:281-418"]}
{"id": "C146", "title": "SQL store: references of SQLObjects survive UnRegister", "statement": "A single reference from an SQLObject that led to an SQLObject leads, until it is set, to an object with the same SQL identifier, whatever was unregistered meanwhile and whichever object stands for its owner.", "quantifier": "for every well-formed data base, every program using objects of one store, every reference between SQLObjects", "why_tests_cant": "Objects are dropped from memory and read again at any point; the claim is about every interleaving of these with other calls.", "anchors": ["ecore/sqlstore.go:380-418", "ecore/sqlstore.go:943-978", "ecore/sqldecoder.go:278-340", "ecore/sqlstore.go:1829-1859"]}
{"id": "C147", "title": "SQL store: UnRegister forgets the objects it is given and no others", "statement": "After UnRegister of an object, objects that are neither it nor below it are still the ones the store gives for their identifiers.", "quantifier": "for every program using objects of one store", "why_tests_cant": "It fails only after a particular history (the object was unregistered before and read again since), which a test has to guess.", "anchors": ["ecore/sqlstore.go:407-418", "ecore/sqlstore.go:1829-1859"]}
{"id": "C148", "title": "SQL store: the first UnRegister forgets the objects it is given and no others", "statement": "In a program that has unregistered nothing so far, UnRegister of an object makes exactly it and the objects below it unregistered. A reference read through an object that is kept gives the same object if that is kept too, and an object that was not there before otherwise.", "quantifier": "for every well-formed data base, every program without UnRegister and objects of other stores, and every object then unregistered with its contents", "why_tests_cant": "The set of objects in memory is the outcome of an arbitrary history of loads and stores.", "anchors": ["ecore/sqlstore.go:407-418", "ecore/sqlstore.go:1829-1859", "ecore/sqldecoder.go:278-340"]}
{"id": "C149", "title": "What a unique list is after any calls", "statement": "After any calls on a unique list its contents and all answers are those of a sequence without repetitions, except that of the distinct elements given to AddAll or InsertAll, when these are fewer than the elements of the list, an element already in the list is left out only while the elements left out before it are not more than the elements after it.", "quantifier": "for every element type, every initial contents and every finite sequence of calls", "why_tests_cant": "The effect depends on the size of the list, and on how elements already there are interleaved with new ones in the argument; tests fix one interleaving.", "anchors": ["ecore/abstractelist.go:51-258", "ecore/basicelist.go"]}
{"id": "C150", "title": "When a bulk addition to a unique list keeps it without repetitions", "statement": "A call on a unique list without repetitions leaves it without repetitions, and does what it does on a sequence without repetitions, exactly when it is no bulk addition, or the argument has as many distinct elements as the list, or no element of the list in the argument is preceded there by more elements of the list than it is followed by elements. Histories of such calls are those of a sequence without repetitions.", "quantifier": "for every element type, every list and every call, and every finite history of such calls", "why_tests_cant": "It is an equivalence over all arguments: which of them go wrong cannot be found from examples.", "anchors": ["ecore/abstractelist.go:51-76", "ecore/abstractelist.go:87-123"]}
{"id": "C151", "title": "A resource knows the objects that are in it", "statement": "The objects that the id manager of a resource holds (those it was asked to register and not since to unregister, and that the listeners of the resource were told of) are those whose EResource() is the resource.", "quantifier": "for every metamodel and every sequence of well-typed calls that edit references and contents and make no cycle", "why_tests_cant": "Each edit announces whole trees to two resources in an order that depends on where the object and its new container are; a missing or a wrong announcement only shows in later lookups.", "anchors": ["ecore/eresource_impl.go:353-401", "ecore/eresource_impl.go:79-97", "ecore/abstracteobject.go:130-175", "ecore/abstracteobject.go:782-828"]}
{"id": "C152", "title": "A resource knows the objects that are in it, without objects that are both roots and contained", "statement": "The objects that the id manager of a resource holds are exactly those whose EResource() is the resource, as long as no call makes an object both a root of a resource and contained: a root is only put in a containment reference that takes it out of its resource, and a contained object is only put in a resource when that takes it out of its container. In a metamodel whose containment links do not resolve proxies every call is such a call. Such a call returns when its indices are in bounds.", "quantifier": "for every metamodel and every sequence of such calls (EUnset of many-valued references with an inverse and Unload excluded) that make no cycle", "why_tests_cant": "The agreement must survive every nesting of removals, moves and replacements, in trees of any depth and over any number of resources.", "anchors": ["ecore/eresource_impl.go:353-401", "ecore/eresource_impl.go:79-97", "ecore/abstracteobject.go:130-175", "ecore/abstracteobject.go:782-828"]}
{"id": "C153", "title": "A store-backed map answers as its entries say", "statement": "GetValue, ContainsKey, ContainsValue, Put and RemoveKey of a map that keeps its entries in a store answer as the pairs of its entries, after every sequence of calls: list operations, SetCache and SetEStore included.", "quantifier": "for all keys, values, initial contents of the store and sequences of calls that keep keys distinct", "why_tests_cant": "The answers come from a map built at the first lookup and kept up to date by callbacks that differ between the cached and the uncached list; each combination of an operation, the cache and the first lookup would need its own test.", "anchors": ["ecore/estoremap.go:12-91", "ecore/basicemap.go:71-187", "ecore/estorelist.go:120-383"]}
{"id": "C154", "title": "A store-backed map acts as its entries say, within the limits of its list", "statement": "GetValue, ContainsKey, ContainsValue, Put and RemoveKey of a map that keeps its entries in a store answer as the pairs of its entries and change them as on a map of pairs, SetCache changes nothing, and the list operations are those of a sequence; the map's operations never panic. Limits: RemoveRange is used when entries are cached (or on an empty range), another store is attached only with the same contents, a list of unique values gets bulk additions as in C75, and entries in the map are not modified.", "quantifier": "for all keys, values, initial contents of the store, lists with unique values or not, and sequences of such calls that keep keys distinct", "why_tests_cant": "The answers come from a map built at the first lookup and kept up to date by callbacks that differ between the cached and the uncached list; each combination of an operation, the cache and the first lookup would need its own test.", "anchors": ["ecore/estoremap.go:12-91", "ecore/basicemap.go:71-187", "ecore/estorelist.go:120-383"]}
{"id": "C155", "title": "Goroutines that share a store-backed map do not block each other for ever", "statement": "Calls that goroutines make on one store-backed map (lookups, Put, additions, removals, Clear) all return.", "quantifier": "for every number of goroutines, every sequence of calls of each and every interleaving", "why_tests_cant": "A deadlock needs one particular interleaving of two calls, which tests practically never hit.", "anchors": ["ecore/basicemap.go:81-99", "ecore/basicemap.go:144-187", "ecore/estorelist.go:186-310", "ecore/estoremap.go:17-36"]}
{"id": "C156", "title": "Goroutines that share a store-backed map block each other for ever only when one builds its data and another changes it", "statement": "Some interleaving of the calls that goroutines make on one store-backed map ends with goroutines waiting for each other exactly when a goroutine makes a lookup that builds the map's data from the list and another goroutine makes a call that adds to, removes from or clears the list. A mutex is only given back by its holder.", "quantifier": "for every number of goroutines, every sequence of calls of each and every interleaving", "why_tests_cant": "A deadlock needs one particular interleaving of two calls, which tests practically never hit; its absence is a statement about all of them.", "anchors": ["ecore/basicemap.go:81-99", "ecore/basicemap.go:144-187", "ecore/estorelist.go:186-310", "ecore/estoremap.go:17-36"]}
{"id": "C157", "title": "The list that an object with a store returns stays the list of the feature", "statement": "Once EGet on a feature of many values of an object with a store has returned a list, later reads return the same list, so that changes made through it and changes made through the object are seen by both.", "quantifier": "for all states of the object and all later calls, SetCache and SetEStore included", "why_tests_cant": "Whether the list is replaced depends on the cache, the store and the history; the two lists agree until both are used.", "anchors": ["ecore/estoreeobject_impl.go:67-117", "ecore/estoreeobject_impl.go:191-228", "ecore/estorelist.go:120-207"]}
{"id": "C158", "title": "The calls after which a feature of an object with a store has another list", "statement": "A call makes a later EGet return another list than before exactly when it unsets (or overwrites) the feature, switches the cache of an object that has a store, or gives another store to an object that does not cache.", "quantifier": "for all states of the object, all features and all calls, on the object and on any list it ever returned", "why_tests_cant": "It is a statement about every call in every state, in both directions.", "anchors": ["ecore/estoreeobject_impl.go:67-117", "ecore/estoreeobject_impl.go:191-266"]}
{"id": "C159", "title": "An object with a store is a record of variables and sequences that the store keeps", "statement": "Reads, sets, unsets, IsSet (single values) and list operations made on the list just read from the object answer as on a record that has a variable per single-valued persistent feature and a sequence per list, whatever SetCache calls come between; after each history the store has exactly these values and sequences, and no other store has changed. Limits: bulk additions to unique lists as in C75, no transient features, the store stays the same.", "quantifier": "for all classes of features, initial contents of the store, values and histories of calls, cached or not", "why_tests_cant": "Cache, store and the sizes kept by lists must agree after every history of writes and cache switches over several features.", "anchors": ["ecore/estoreeobject_impl.go:101-117", "ecore/estoreeobject_impl.go:177-284", "ecore/estorelist.go:34-207"]}
{"id": "C160", "title": "Detaching an object from its store keeps what it shows and leaves the store alone", "statement": "After SetEStore(nil) every feature shows what it showed before, and later changes of the object do not change the store.", "quantifier": "for all contents of the store, features and histories", "why_tests_cant": "What is lost depends on which features were read before, and on the cache.", "anchors": ["ecore/estoreeobject_impl.go:67-99"]}
{"id": "C161", "title": "What an object shows after its store is taken away or replaced", "statement": "After SetEStore(nil) a feature shows what it showed before exactly when it is transient, when the store had nothing for it, when the object had loaded it, or when it is single-valued and the object does not cache. After SetEStore with another store, an object that does not cache shows exactly the contents of the new store for its persistent features; an object that caches shows what it had loaded, and the contents of the new store for the rest.", "quantifier": "for all contents of the stores, features and histories of calls as in C159", "why_tests_cant": "What is shown depends on which features were read before, on the cache, and on the contents of both stores.", "anchors": ["ecore/estoreeobject_impl.go:67-99", "ecore/estorelist.go:120-137"]}
{"id": "C162", "title": "The container of an object in a store is the one the store has", "statement": "The container and container feature id that are set on an object with a store are read back by a new object for the same row, and neither reading the container nor attaching and detaching stores loses them.", "quantifier": "for all classes, containment references with and without opposite, and sequences of calls", "why_tests_cant": "The id is translated to a feature and back in two ways, and the container is fetched lazily: what is lost depends on the order of reading and attaching.", "anchors": ["ecore/estoreeobject_impl.go:25-37", "ecore/estoreeobject_impl.go:67-99", "ecore/estoreeobject_impl.go:125-175"]}
{"id": "C163", "title": "The container of an object is a variable that the attached store keeps, once it is known", "statement": "If the store is not changed before the container has been read or set, then reads of the container and of its feature id return the last ones set (at first those of the store), whatever stores are attached and detached between, and a new object over the store attached at the end reads the same. Containers are set with the feature id that belongs to them: that of a containment reference without opposite, or that of the opposite.", "quantifier": "for all classes with distinct features, all objects and sequences of such calls", "why_tests_cant": "The id is translated to a feature and back in two ways, and the container is fetched lazily; sequences are unbounded.", "anchors": ["ecore/estoreeobject_impl.go:25-37", "ecore/estoreeobject_impl.go:67-99", "ecore/estoreeobject_impl.go:125-175", "ecore/eclass_ext.go:130-169"]}
{"id": "C164", "title": "Reading a feature does not change which features are set", "statement": "EIsSet gives the same answer for every feature before and after EGet on any feature of an object with a store.", "quantifier": "for all states and features", "why_tests_cant": "IsSet looks at what the object has loaded before it asks the store.", "anchors": ["ecore/estoreeobject_impl.go:177-228"]}
{"id": "C165", "title": "An object stays the same record when it gets a store that already has its contents", "statement": "Reads, sets, unsets, IsSet (single values), list operations on the list just read, SetCache, and SetEStore with a store that has the object's contents at that moment, on an object created with or without a store, answer as on one record of variables and sequences; at the end the attached store has exactly these contents, and each call changes the contents of no store other than the one attached. Limits as in C159; SetEStore(nil) is C161.", "quantifier": "for all classes of features, contents of the stores, values and histories of such calls, cached or not", "why_tests_cant": "Values move between the object, its lists and the stores; they must agree after every history of writes, cache switches and attachments.", "anchors": ["ecore/estoreeobject_impl.go:67-117", "ecore/estoreeobject_impl.go:177-284", "ecore/estorelist.go:34-207"]}
{"id": "C166", "title": "Lock and Unlock of an object with a store are a pair", "statement": "After Lock, any calls on the object, and Unlock, the goroutine holds the mutex of each of the object's lists as often as before.", "quantifier": "for all histories of calls on the object before Lock and between Lock and Unlock, cached or not", "why_tests_cant": "Unlock walks over the lists the object has at that time, not over those that were locked; what is left locked shows only when another goroutine blocks.", "anchors": ["ecore/estoreeobject_impl.go:43-59", "ecore/sqlencoder.go:347-414"]}
{"id": "C167", "title": "Exactly which lists Unlock leaves locked, and which lists stay locked when an object is encoded", "statement": "After Lock, any calls, and Unlock: a list is held as often as before iff it was the object's at Lock exactly if it is at Unlock; a list the object dropped in between is held once more; a list it got in between is given back without being held. When an object without a store is encoded and gets the store, each list it has stays locked if the object does not cache, and no list otherwise.", "quantifier": "for all reachable objects, lists, histories between Lock and Unlock, features encoded and stores", "why_tests_cant": "The lock counts depend on every history of loads, cache switches and attachments; a test sees one of them.", "anchors": ["ecore/estoreeobject_impl.go:43-83", "ecore/sqlencoder.go:347-414", "ecore/sqlstore.go:328-333"]}
{"id": "C168", "title": "Goroutines that encode objects with one SQL encoder do not block each other for ever", "statement": "Whatever objects goroutines encode at the same time, whatever these contain (even one another) and whichever queries fail: until all calls have returned some goroutine can go on, the number of steps is bounded, and no object lock is held at the end.", "quantifier": "for every number of goroutines and objects, every containment graph, every interleaving and every failure of queries", "why_tests_cant": "Each goroutine holds the locks of all objects it is inside of while it waits for the next; a deadlock would need one particular interleaving.", "anchors": ["ecore/sqlencoder.go:281-425", "ecore/sqlstore.go:969-978"]}
{"id": "C169", "title": "Each object is inserted once, and exactly the new objects are", "statement": "When goroutines encode objects at the same time, no object gets two rows; only objects that are requested or contained in an inserted one, and had no id before, get one; when all calls have returned without error, all of these have one.", "quantifier": "for every number of goroutines and objects, every containment graph, objects registered before, every interleaving and every failure of queries", "why_tests_cant": "Two goroutines that meet the same object at the same moment must not both insert it, nor both leave it to the other.", "anchors": ["ecore/sqlencoder.go:281-425"]}
{"id": "C170", "title": "encodeObject without error means that the object is written", "statement": "When a call of encodeObject returns without error, the object's row and the values of its features are written.", "quantifier": "for every number of goroutines and objects, every containment graph, every interleaving and every failure of queries", "why_tests_cant": "It fails only after an error in the middle of an object, or when two goroutines meet the same object.", "anchors": ["ecore/sqlencoder.go:284-294", "ecore/sqlencoder.go:344-414"]}
{"id": "C171", "title": "Goroutines that ask one SQL encoder for the data of classes do not block each other for ever", "statement": "Provided that no class is its own super type (directly or not): whatever classes goroutines ask for at the same time and whichever tables cannot be created, until all calls have returned some goroutine can go on, the number of steps is bounded, and no class lock is held at the end. (A class that is its own super type blocks the goroutine that asks for it.)", "quantifier": "for every number of goroutines, every acyclic hierarchy of classes, every interleaving and every failure", "why_tests_cant": "A goroutine holds the lock of a class while it waits for those of the super types; a deadlock would need one particular interleaving.", "anchors": ["ecore/sqlencoder.go:571-646"]}
{"id": "C172", "title": "The data of each class are made once, after those of its super types", "statement": "However goroutines interleave, the data of a class are registered at most once and after those of all its super types; a call that returned without error finds them and those of the super types registered.", "quantifier": "for every number of goroutines, every hierarchy of classes, every interleaving and every failure", "why_tests_cant": "Two goroutines that meet a class at the same moment must not both create its tables.", "anchors": ["ecore/sqlencoder.go:571-646"]}
{"id": "C173", "title": "Encoding goes on while other operations register and unregister objects", "statement": "Provided that no object contains itself (directly or not): while goroutines encode objects and other operations register or unregister any objects at any moment, some goroutine can go on until all calls have returned, no object lock is held then, and the goroutines take a bounded number of steps. (Objects that contain each other and are unregistered while they are encoded can block two goroutines.)", "quantifier": "for every number of goroutines and objects, every acyclic containment, every interleaving, every failure of queries and every change of ids", "why_tests_cant": "An id that vanishes makes a goroutine wait for a lock it would not have needed; only particular interleavings show it.", "anchors": ["ecore/sqlencoder.go:281-425", "ecore/sqlstore.go:407-418", "ecore/sqlstore.go:943-967", "ecore/sqlstore.go:1844-1860"]}
{"id": "C174", "title": "A listener that follows the notifications about the loaded flag knows whether a resource is loaded", "statement": "For every history of GetContents, calls on contents lists (also lists got before an Unload), loads and unloads: each IS_LOADED notification starts from the value the one before it ended with, is a change, and the last one has the value that IsLoaded returns.", "quantifier": "for every history, every list and index, every sequence of calls made while a document is read", "why_tests_cant": "The order of notifications depends on what is called while a document is being read; a test has one decoder.", "anchors": ["ecore/eresource_impl.go:99-135", "ecore/eresource_impl.go:440-491", "ecore/eresource_impl.go:563-574"]}
{"id": "C175", "title": "Across Unload, a resource that is not loaded from a document is loaded exactly when it has contents", "statement": "For every history of GetContents, calls on contents lists and unloads, without loads: IsLoaded is true exactly when GetContents is not empty.", "quantifier": "for every history, every list and index", "why_tests_cant": "The lists that a client keeps across Unload make the number of cases unbounded.", "anchors": ["ecore/eresource_impl.go:99-135", "ecore/eresource_impl.go:206-211", "ecore/eresource_impl.go:474-491"]}
{"id": "C176", "title": "Counted, the notifications that a resource was loaded and unloaded give the loaded flag", "statement": "For every history of GetContents, calls on contents lists (also lists got before an Unload), loads and unloads: the IS_LOADED notifications from false to true are as many as those from true to false, plus one exactly when IsLoaded is true; each of them is a change. This holds also where the order of the notifications is wrong (C174).", "quantifier": "for every history, every list and index, every sequence of calls made while a document is read", "why_tests_cant": "The order and number of notifications depend on what is called while a document is being read; a test has one decoder.", "anchors": ["ecore/eresource_impl.go:99-135", "ecore/eresource_impl.go:440-491", "ecore/eresource_impl.go:563-574"]}
{"id": "C177", "title": "A resource with contents is loaded, and one that is loaded without contents was loaded from a document", "statement": "For every history of GetContents, loads, unloads and calls on the list that GetContents returns at that time (also while a document is read): when GetContents is not empty, IsLoaded is true; when IsLoaded is true and GetContents is empty, a document was read while the resource was not loaded, and there was no Unload since.", "quantifier": "for every history, every index, every sequence of calls made while a document is read", "why_tests_cant": "The flag is set by loads and by the contents list; histories mix the two without bound.", "anchors": ["ecore/eresource_impl.go:99-135", "ecore/eresource_impl.go:206-211", "ecore/eresource_impl.go:440-491"]}
{"id": "C178", "title": "GetOverride finds an override, and finds one whenever there is one", "statement": "For operations that belong to the classes that declare them and classes that are not above themselves: what EClass.GetOverride(o) returns is an operation of GetEAllOperations, declared in the class of o or below, with the name and parameter types of o; when it returns nil, no operation of GetEAllOperations declared in a class strictly below that of o has them.", "quantifier": "for every hierarchy of classes, every class and operation", "why_tests_cant": "The existing test has one pair of mock operations; hierarchies are unbounded and IsOverrideOf is mocked.", "anchors": ["ecore/eoperation_ext.go:24-41", "ecore/eclass_ext.go:196-221", "ecore/eclass_ext.go:356-379"]}
{"id": "C179", "title": "GetOverride returns the operation that replaces all others", "statement": "What EClass.GetOverride(o) returns is not o, and no operation of GetEAllOperations with its name and parameter types is declared in a class strictly below that of the result.", "quantifier": "for every hierarchy of classes, every class and operation", "why_tests_cant": "It takes three levels of classes, or a class reached on two ways, to see which override is taken.", "anchors": ["ecore/eclass_ext.go:196-221", "ecore/eclass_ext.go:356-379"]}
{"id": "C180", "title": "Which override GetOverride returns", "statement": "When GetEAllOperations has no duplicates: EClass.GetOverride(o) returns the first operation after o in GetEAllOperations that is declared in the class of o or below and has the name and parameter types of o, nil if there is none. With duplicates the same holds for the last occurrence of o that has such an operation after it.", "quantifier": "for every hierarchy of classes, every class and operation", "why_tests_cant": "Hierarchies are unbounded.", "anchors": ["ecore/eoperation_ext.go:24-41", "ecore/eclass_ext.go:196-221"]}
