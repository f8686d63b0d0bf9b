-Q theories Verif
theories/PyBase.v
theories/PyNum.v
theories/UnicodeTables.v
theories/Unicode.v
theories/Repr.v
theories/Json.v
theories/Version.v
theories/Tags.v
theories/Classes.v
theories/Graph.v
theories/SpineGraph.v
theories/DrawOrder.v
theories/AnimData.v
theories/Editor.v
theories/PyFacts.v
theories/SpecVersion.v
theories/SpecTags.v
theories/VersionFacts.v
theories/TagFacts.v
theories/PropVersion.v
theories/VersionOps.v
theories/SpecVersionOps.v
theories/VersionOpsFacts.v
theories/PropVersionOps.v
theories/PropTags.v
theories/SpecDoc.v
theories/ClassFacts.v
theories/DocFacts.v
theories/ReloadFacts.v
theories/PropClasses.v
theories/SpecGraph.v
theories/GraphFacts.v
theories/GraphHist.v
theories/GraphSearch.v
theories/GraphPaths.v
theories/GraphOrder.v
theories/GraphApi.v
theories/PropGraph.v
theories/PropExact.v
theories/SpecDraw.v
theories/DrawFacts.v
theories/DrawAny.v
theories/PropDraw.v
theories/GraphRemove.v
theories/IdFacts.v
theories/SpecSpine.v
theories/SpineFacts.v
theories/BuildFacts.v
theories/BuildTotal.v
theories/SpineRemove.v
theories/PropSpine.v
theories/SpecAnim.v
theories/AnimFacts.v
theories/AnimErr.v
theories/SkinFacts.v
theories/ScaleFacts.v
theories/TermFacts.v
theories/PropAnim.v
theories/SpecProduct.v
theories/ProductFacts.v
theories/SpecEditor.v
theories/SpecLoad.v
theories/SpecFail.v
theories/EditorGraph.v
theories/EditorData.v
theories/EditorBuild.v
theories/EditorClean.v
theories/EditorOut.v
theories/EditorHist.v
theories/EditorFacts.v
theories/EditorKeep.v
theories/EditorImages.v
theories/EditorOrder.v
theories/EditorScale.v
theories/EditorVersion.v
theories/EditorRemoved.v
theories/EditorFail.v
theories/EditorKinds.v
theories/EditorRun.v
theories/PropEditor.v
theories/PropFail.v
theories/LoadFacts.v
theories/LoadEditor.v
theories/PropLoad.v
theories/SpecErase.v
theories/EditorErase.v
theories/EditorEntries.v
theories/PropErase.v
theories/Heap.v
theories/SpecHeap.v
theories/HeapFacts.v
theories/PropHeap.v
theories/SpecTables.v
theories/TableFacts.v
theories/PropTables.v
theories/Traverse.v
theories/SpecTraverse.v
theories/TraverseFacts.v
theories/SpecForeign.v
theories/ForeignFacts.v
theories/PropTraverse.v
theories/Elements.v
theories/SpecElements.v
theories/ElementFacts.v
theories/PropElements.v
theories/SpecScale.v
theories/ScaleFail.v
theories/PropScale.v
theories/ConformData.v
theories/Conform.v
theories/JsonText.v
theories/SpecText.v
theories/SpecFloats.v
theories/FloatFacts.v
theories/TextFacts.v
theories/SpecRepr.v
theories/ReprFacts.v
theories/WriteFacts.v
theories/StrFacts.v
theories/StrInj.v
theories/SpecNums.v
theories/NumFacts.v
theories/Files.v
theories/SpecFiles.v
theories/JsonInv.v
theories/FileFacts.v
theories/SaveFacts.v
theories/Cast.v
theories/SpecCast.v
theories/CastFacts.v
theories/PropText.v
theories/PropRepr.v
theories/PropProduct.v
theories/PropFiles.v
theories/SpecReload.v
theories/EditorReload.v
theories/PropReload.v
theories/SpecNumbers.v
theories/NumberFacts.v
theories/SpecOffsets.v
theories/OffsetFacts.v
theories/PropNumbers.v
theories/RelFacts.v
theories/PropRelate.v
theories/SpecUnicode.v
theories/UnicodeFacts.v
theories/SpecEqual.v
theories/EqualFacts.v
theories/SpecLayout.v
theories/LayoutFacts.v
theories/LayoutOne.v
theories/HeapExport.v
theories/PropValues.v
theories/SpecGraphJson.v
theories/GraphJsonFacts.v
theories/PropGraphJson.v
theories/SpecContainer.v
theories/ContainerFacts.v
theories/SpecRefs.v
theories/RefsFacts.v
theories/PropRefs.v
theories/SpecAgain.v
theories/EditorAgain.v
theories/PropAgain.v
theories/SpecAny.v
theories/EditorAny.v
theories/PropAny.v
theories/EditorRepair.v
theories/PropRepair.v
theories/ImagesAny.v
theories/PropImages.v
theories/SpecCare.v
theories/ImagesCare.v
theories/EditorReady.v
theories/PropCare.v
theories/Nodes.v
theories/NodeFacts.v
theories/PropNodes.v
theories/ReloadImages.v
theories/AlikeFacts.v
theories/ReloadClean.v
theories/ReloadOut.v
theories/ReloadAgain.v
theories/PropReclean.v
theories/ReloadErase.v
theories/PropReerase.v
theories/SpecRescale.v
theories/ReloadScale.v
theories/PropRescale.v
theories/ReloadSecond.v
theories/PropSecond.v
