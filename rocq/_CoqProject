-Q theories Verif
theories/Base.v
theories/ListModel.v
theories/ListProofs.v
theories/ListSpec.v
theories/ListTheorems.v
theories/MergeProofs.v
theories/NotifyModel.v
theories/NotifyProofs.v
theories/NotifySpec.v
theories/NotifyTheorems.v
theories/CallbackProofs.v
theories/CallbackSpec.v
theories/CallbackTheorems.v
theories/CompactModel.v
theories/CompactProofs.v
theories/CompactSpec.v
theories/CompactTheorems.v
theories/NotifierModel.v
theories/NotifierProofs.v
theories/NotifierSpec.v
theories/NotifierTheorems.v
theories/RegistryModel.v
theories/RegistryProofs.v
theories/RegistrySpec.v
theories/RegistryTheorems.v
theories/SearchModel.v
theories/SearchProofs.v
theories/SearchSpec.v
theories/SearchTheorems.v
theories/XmlNsModel.v
theories/XmlNsProofs.v
theories/XmlNsSpec.v
theories/XmlNsTheorems.v
theories/ChannelModel.v
theories/ChannelProofs.v
theories/ChannelSpec.v
theories/ChannelTheorems.v
theories/LockModel.v
theories/LockProofs.v
theories/LockSpec.v
theories/LockTheorems.v
theories/GraphAcyclic.v
theories/GraphInv.v
theories/GraphModel.v
theories/GraphProofs.v
theories/GraphRun.v
theories/GraphSpec.v
theories/GraphSteps.v
theories/GraphTheorems.v
theories/ResourceSetModel.v
theories/ResourceSetProofs.v
theories/ResourceSetSpec.v
theories/IdModel.v
theories/IdProofs.v
theories/IdSpec.v
theories/IdTheorems.v
theories/TreeModel.v
theories/TreeProofs.v
theories/TreeSpec.v
theories/TreeTheorems.v
theories/MapModel.v
theories/MapProofs.v
theories/MapSpec.v
theories/MapTheorems.v
theories/ClassModel.v
theories/ClassProofs.v
theories/ClassProofs2.v
theories/ClassProofs3.v
theories/ClassSpec.v
theories/ClassTheorems.v
theories/SqlOrderModel.v
theories/SqlOrderProofs.v
theories/SqlOrderProofs2.v
theories/SqlOrderSpec.v
theories/SqlOrderTheorems.v
theories/SchedModel.v
theories/SchedProofs.v
theories/SqlSchedModel.v
theories/SqlSchedProofs.v
theories/SqlSchedProofs2.v
theories/SqlSchedProofs3.v
theories/SqlSchedProofs4.v
theories/SqlSchedProofs5.v
theories/SqlSchedSpec.v
theories/SqlSchedTheorems.v
theories/UriModel.v
theories/UriProofs.v
theories/UriProofs2.v
theories/UriProofs3.v
theories/UriProofs4.v
theories/UriProofs5.v
theories/UriSpec.v
theories/UriTheorems.v
theories/Chars.v
theories/XmlOutModel.v
theories/XmlOutProofs.v
theories/XmlOutProofs2.v
theories/XmlOutSpec.v
theories/XmlOutTheorems.v
theories/FragmentModel.v
theories/FragmentProofs.v
theories/FragmentSpec.v
theories/FragmentTheorems.v
theories/StrconvModel.v
theories/StrconvProofs.v
theories/StoreListModel.v
theories/StoreListProofs.v
theories/StoreListSpec.v
theories/StoreListTheorems.v
theories/BinaryExamples.v
theories/BinaryListModel.v
theories/BinaryListProofs.v
theories/BinaryListTheorems.v
theories/BinaryModel.v
theories/BinaryProofs.v
theories/BinarySpec.v
theories/BinaryTheorems.v
theories/SqlSchemaModel.v
theories/SqlSchemaProofs.v
theories/SqlSchemaProofs2.v
theories/SqlSchemaProofs3.v
theories/SqlSchemaProofs4.v
theories/SqlSchemaSpec.v
theories/SqlSchemaTheorems.v
theories/FloatModel.v
theories/FloatProofs.v
theories/LiteralModel.v
theories/LiteralProofs.v
theories/LiteralSpec.v
theories/LiteralTheorems.v
theories/SqlValueModel.v
theories/SqlValueProofs.v
theories/SqlValueSpec.v
theories/SqlValueTheorems.v
theories/TimeModel.v
theories/TimeProofs.v
theories/EqualModel.v
theories/EqualProofs.v
theories/EqualSpec.v
theories/EqualTheorems.v
theories/CopyEqual.v
theories/CopyModel.v
theories/CopyProofs.v
theories/CopyProofs2.v
theories/CopyProofs3.v
theories/CopyRun.v
theories/CopySpec.v
theories/CopySteps.v
theories/CopyTheorems.v
theories/AdapterErase.v
theories/AdapterModel.v
theories/AdapterDispatch.v
theories/AdapterSpec.v
theories/AdapterSummary.v
theories/AdapterWalk.v
theories/AdapterCalls.v
theories/AdapterEvents.v
theories/AdapterMoves.v
theories/AdapterOps.v
theories/AdapterRest.v
theories/AdapterRun.v
theories/AdapterSteps.v
theories/AdapterTheorems.v
theories/SliceModel.v
theories/SliceOps.v
theories/SliceProofs.v
theories/SliceRun.v
theories/SliceRuns.v
theories/SliceSpec.v
theories/SliceTheorems.v
theories/LoadContents.v
theories/LoadDemo.v
theories/LoadModel.v
theories/LoadProofs.v
theories/LoadResolve.v
theories/LoadRuns.v
theories/LoadSpec.v
theories/LoadTheorems.v
theories/XmlInCut.v
theories/XmlInDocs.v
theories/XmlInExample.v
theories/XmlInExampleProofs.v
theories/XmlInHeapProofs.v
theories/XmlInHeapSpec.v
theories/XmlInModel.v
theories/XmlInRead.v
theories/XmlInResolve.v
theories/XmlInSpec.v
theories/XmlInTheorems.v
theories/XmlInWrite.v
theories/XmlTokenModel.v
theories/XmlTree.v
theories/MetaExample.v
theories/MetaModel.v
theories/MetaProofs.v
theories/MetaProofs2.v
theories/MetaProofs3.v
theories/MetaSpec.v
theories/MetaTheorems.v
theories/SqlCellModel.v
theories/SqlCellProofs.v
theories/SqlCellSpec.v
theories/SqlCellTheorems.v
theories/SqlDocModel.v
theories/SqlDocProofs.v
theories/SqlDocRead.v
theories/SqlDocSpec.v
theories/SqlDocTheorems.v
theories/JsonModel.v
theories/JsonProofs.v
theories/JsonSpec.v
theories/JsonTheorems.v
theories/DynModel.v
theories/DynProofs.v
theories/DynSpec.v
theories/DynTheorems.v
theories/GraphFrame.v
theories/GraphFrameRes.v
theories/GraphFrameSpec.v
theories/GraphFrameTheorems.v
theories/EcoreChecks.v
theories/EcoreModel.v
theories/EcoreProofs.v
theories/EcoreSpec.v
theories/EcoreSyntax.v
theories/EcoreTables.v
theories/EcoreTheorems.v
theories/SqlIdentModel.v
theories/SqlIdentProofs.v
theories/SqlIdentSpec.v
theories/SqlIdentTheorems.v
theories/ListExactProofs.v
theories/ListExactSpec.v
theories/ListExactTheorems.v
theories/AttachErase.v
theories/AttachGraph.v
theories/AttachModel.v
theories/AttachProofs.v
theories/AttachRun.v
theories/AttachSpec.v
theories/AttachSteps.v
theories/AttachTheorems.v
theories/AttachTotal.v
theories/StoreMapLocks.v
theories/StoreMapModel.v
theories/StoreMapProofs.v
theories/StoreMapSpec.v
theories/StoreMapTheorems.v
theories/StoreObjModel.v
theories/StoreObjProofs.v
theories/StoreObjSpec.v
theories/StoreObjStores.v
theories/StoreObjTheorems.v
theories/StoreLockModel.v
theories/StoreLockProofs.v
theories/StoreLockSpec.v
theories/StoreLockTheorems.v
theories/StoreObjAttach.v
theories/StoreObjAttachSpec.v
theories/StoreObjAttachTheorems.v
theories/EncodeContents.v
theories/EncodeModel.v
theories/EncodeProofs.v
theories/EncodeSpec.v
theories/EncodeTheorems.v
theories/ClassDataModel.v
theories/ClassDataProofs.v
theories/ClassDataSpec.v
theories/ClassDataTheorems.v
theories/EncodeClearModel.v
theories/EncodeClearProofs.v
theories/EncodeClearTheorems.v
theories/LoadedModel.v
theories/LoadedProofs.v
theories/LoadedSpec.v
theories/LoadedTheorems.v
theories/LoadedCountProofs.v
theories/LoadedCountSpec.v
theories/LoadedCountTheorems.v
theories/LoadedDocProofs.v
theories/LoadedDocSpec.v
theories/LoadedDocTheorems.v
theories/OverrideModel.v
theories/OverrideProofs.v
theories/OverrideSpec.v
theories/OverrideTheorems.v
