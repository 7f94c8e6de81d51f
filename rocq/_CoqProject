-Q theories Verif
theories/Bytes.v
theories/IO.v
theories/Escape.v
theories/Nodes.v
theories/Values.v
theories/Render.v
theories/Slices.v
theories/Build.v
theories/NodeInd.v
theories/IOFacts.v
theories/SpecEscape.v
theories/EscapeFacts.v
theories/SpecOut.v
theories/RenderFacts.v
theories/AttrFacts.v
theories/Api.v
theories/ApiFacts.v
theories/SpecRun.v
theories/PageFacts.v
theories/Demo.v
theories/PropValues.v
theories/SpecElem.v
theories/CondFacts.v
theories/TagFacts.v
theories/PropElements.v
theories/PropNames.v
theories/PropGroups.v
theories/PropConditions.v
theories/SpecErr.v
theories/ErrFacts.v
theories/PropErrors.v
theories/PropIteration.v
theories/PropImperative.v
theories/SpecHtml.v
theories/SpecReader.v
theories/ReaderFacts.v
theories/HtmlFacts.v
theories/SpecTemplate.v
theories/PropHtml.v
theories/SpecSafe.v
theories/PropSafe.v
theories/PropReader.v
theories/Tables.v
theories/Packages.v
theories/PropPackages.v
theories/Headers.v
theories/PropHeaders.v
theories/Sharing.v
theories/Programs.v
theories/Library.v
theories/ProgramValues.v
theories/ProgramFacts.v
theories/ProgramPure.v
theories/SharingFacts.v
theories/Strip.v
theories/LinearFacts.v
theories/PropSharing.v
theories/Memory.v
theories/MemoryFacts.v
theories/StartFacts.v
theories/SpecSteady.v
theories/SteadyFacts.v
theories/PropConcurrent.v
theories/Reflect.v
theories/SpecGet.v
theories/GetFacts.v
theories/PropGet.v
theories/Template.v
theories/PropTemplate.v
theories/Generator.v
theories/SpecGo.v
theories/SpecGen.v
theories/GenFacts.v
theories/PropGenerator.v
theories/Rebuild.v
theories/SpecRebuild.v
theories/PropRebuild.v
theories/SpecSource.v
theories/PropSource.v
theories/SpecShared.v
theories/SharedFacts.v
theories/PropShared.v
theories/SpecReturn.v
theories/PropReturn.v
theories/SpecJson.v
theories/PropJson.v
theories/SpecComponent.v
theories/PropComponent.v
theories/SpecNamed.v
theories/PropNamed.v
theories/Accessors.v
theories/PropAccessors.v
theories/SpecText.v
theories/PropText.v
theories/SpecStart.v
theories/PropStart.v
theories/PropVars.v
theories/PropAbsent.v
theories/Pointer.v
theories/Lift.v
theories/PointerFacts.v
theories/PointerSim.v
theories/PointerInd.v
theories/PropPointer.v
theories/TestTable.v
theories/Conformance.v
theories/UserAttr.v
theories/UserAttrFacts.v
theories/PropUserAttr.v
theories/GoSyntax.v
theories/SourceLib.v
theories/Source.v
theories/GoSem.v
theories/GoRun.v
theories/GoRep.v
theories/GoStep.v
theories/GoOwn.v
theories/RefineValue.v
theories/RefineNode.v
theories/RefineAttrs.v
theories/RefineElement.v
theories/RefineUser.v
theories/RefineIter.v
theories/RefineEscape.v
theories/RefineImper.v
theories/RefineStart.v
theories/RefineAll.v
theories/RefineNew.v
theories/RefineMake.v
theories/RefineGroup.v
theories/GoShare.v
theories/RefineCollect.v
theories/RefineBuild.v
theories/RefineAdd.v
theories/RefineNewElement.v
theories/RefineVariadic.v
theories/RefineStyle.v
theories/RefineDocument.v
theories/RefineCalls.v
theories/RefineProgram.v
theories/RefineLib.v
theories/HeadersRun.v
theories/RefineHeaders.v
theories/GoExamples.v
theories/PropGo.v
theories/PropProgram.v
theories/PropLib.v
theories/PropHeadersGo.v
theories/RefineGen.v
theories/RefineGenLoop.v
theories/RefineGenMain.v
theories/PropGenGo.v
theories/RefineTemplate.v
theories/PropTemplateGo.v
theories/RefineGet.v
theories/PropGetGo.v
theories/RefineSmall.v
theories/PropSmallGo.v
theories/PropReadme.v
theories/GoThreads.v
theories/PropThreads.v
theories/GoShared.v
theories/PropOneWriter.v
theories/PropHanded.v
