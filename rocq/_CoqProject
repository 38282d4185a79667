-Q theories Verif

theories/Base.v
theories/Sig.v
theories/Lib.v
theories/StateFacts.v
theories/StateProofs.v
theories/StateOrder.v
theories/PropsState.v
theories/ZCurve.v
theories/Struct.v
theories/Sem.v
theories/Refine.v
theories/SigFacts.v
theories/ViewPath.v
theories/ZCurveBits.v
theories/ZCurveFacts.v
theories/Good.v
theories/GoodFacts.v
theories/Transfer.v
theories/ViewFacts.v
theories/ViewBij.v
theories/Layout.v
theories/Defined.v
theories/Bytes.v
theories/Ext.v
theories/Spec.v
theories/Access.v
theories/Check.v
theories/Shortcuts.v
theories/StateTools.v
theories/Protos.v
theories/PropsLayout.v
theories/Cong.v
theories/Foreign.v
theories/PropsForeign.v
theories/RowMajor.v
theories/PropsRowMajor.v
theories/ViewSize.v
theories/PropsSize.v
theories/Traverser.v
theories/SpecTrav.v
theories/TravFacts.v
theories/TravSig.v
theories/TravEach.v
theories/TravDef.v
theories/PropsTrav.v
theories/SpecOrder.v
theories/Select.v
theories/PropsOrder.v
theories/SpecViews.v
theories/Views.v
theories/Views2.v
theories/Views3.v
theories/Views4.v
theories/Views5.v
theories/PropsViews.v
theories/PropsBlocks.v
theories/Sections.v
theories/Sections2.v
theories/SpecSections.v
theories/Sections3.v
theories/SpecUnion.v
theories/UnionTrav.v
theories/PropsSections.v
theories/SpecCount.v
theories/Count.v
theories/Like.v
theories/PropsCount.v
theories/SpecParts.v
theories/Parts.v
theories/PropsParts.v
theories/SpecAvail.v
theories/Avail.v
theories/PropsAvail.v
theories/Range.v
theories/RangeFacts.v
theories/SpecRange.v
theories/RangeThms.v
theories/Reduce.v
theories/SpecReduce.v
theories/ReduceFacts.v
theories/PropsRange.v
theories/SpecRace.v
theories/RaceFacts.v
theories/RaceOrder.v
theories/PropsRace.v
theories/Mangle.v
theories/SpecMangle.v
theories/MangleFacts.v
theories/PropsMangle.v
theories/Bag.v
theories/SpecBag.v
theories/BagFacts.v
theories/PropsBag.v
theories/Striped.v
theories/SpecStriped.v
theories/StripedFacts.v
theories/PropsStriped.v
theories/Planner.v
theories/SpecPlan.v
theories/PlanFacts.v
theories/PlanRun.v
theories/PlanSec.v
theories/PropsPlan.v
theories/Introspect.v
theories/SpecIntrospect.v
theories/IntrospectFacts.v
theories/IntrospectOff.v
theories/IntrospectApi.v
theories/PropsIntrospect.v
theories/SpecContig.v
theories/Contig.v
theories/PropsContig.v
theories/LowerBound.v
theories/SpecLower.v
theories/LowerFacts.v
theories/LowerAll.v
theories/AlongAll.v
theories/PropsLower.v
theories/Cuda.v
theories/SpecCuda.v
theories/CudaFacts.v
theories/PropsCuda.v
theories/SpecPar.v
theories/ParFacts.v
theories/ParThms.v
theories/PropsPar.v
theories/PlanRange.v
theories/SpecPlanRange.v
theories/PlanRangeFacts.v
theories/PropsPlanRange.v
theories/SpecStencil.v
theories/StencilFacts.v
theories/PropsStencil.v
theories/SpecTools.v
theories/ToolFacts.v
theories/PropsTools.v
theories/MangleStruct.v
theories/SpecMangleStruct.v
theories/MangleTree.v
theories/MangleStructFacts.v
theories/PropsMangleStruct.v
theories/AutoStep.v
theories/AutoStepFacts.v
theories/PropsStep.v
theories/Strips.v
theories/PropsStrips.v
theories/Contain.v
theories/SpecContain.v
theories/ContainFacts.v
theories/PropsContain.v
theories/BagView.v
theories/PropsBagView.v
theories/Traits.v
theories/SpecTraits.v
theories/TraitsFacts.v
theories/PropsTraits.v
theories/SpecSig.v
theories/SigLen.v
theories/SigLen2.v
theories/SigLen3.v
theories/PropsSig.v
theories/SpecAlign.v
theories/AlignFacts.v
theories/PropsAlign.v
theories/Kernel.v
theories/SpecKernel.v
theories/KernelFacts.v
theories/KernelTrav.v
theories/KernelThms.v
theories/PropsKernel.v
theories/SectionKernel.v
theories/SpecSectionKernel.v
theories/SectionParts.v
theories/SectionKernelFacts.v
theories/PropsSectionKernel.v
theories/StencilKernel.v
theories/SpecStencilKernel.v
theories/StencilKernelFacts.v
theories/PropsStencilKernel.v
theories/ReduceBag.v
theories/SpecReduceBag.v
theories/ReduceBagFacts.v
theories/ReduceBagThms.v
theories/PropsReduceBag.v
theories/Matrix.v
theories/SpecMatrix.v
theories/MatrixFacts.v
theories/MatrixThms.v
theories/PropsMatrix.v
theories/PlanElem.v
theories/SpecPlanElem.v
theories/PlanElemThms.v
theories/PropsPlanElem.v
theories/OnlyDims.v
theories/StripedKernel.v
theories/SpecStripedKernel.v
theories/StripedKernelFacts.v
theories/StripedKernelThms.v
theories/PropsStripedKernel.v
theories/ThreadKernel.v
theories/SpecThreadKernel.v
theories/ThreadKernelThms.v
theories/PropsThreadKernel.v
theories/Agnostic.v
theories/SpecAgnostic.v
theories/AgnosticSig.v
theories/AgnosticCalls.v
theories/AgnosticThms.v
theories/AgnosticAccept.v
theories/PropsAgnostic.v
theories/SpecKnown.v
theories/KnownFacts.v
theories/KnownThms.v
theories/KnownSections.v
theories/PropsKnown.v
theories/SpecWrap.v
theories/WrapFacts.v
theories/WrapReject.v
theories/PropsWrap.v
theories/Copy.v
theories/CopyFacts.v
theories/PropsCopy.v
theories/KnownText.v
theories/SpecCommute.v
theories/CommuteFacts.v
theories/PropsCommute.v
theories/SpecAbout.v
theories/AboutFacts.v
theories/PropsAbout.v
theories/RangeOrder.v
theories/PropsRangeOrder.v
theories/Arrays.v
theories/PropsArrays.v
theories/Tiles.v
theories/PropsTiles.v
theories/Selects.v
theories/PropsSelects.v
theories/VectorBag.v
theories/VectorBagFacts.v
theories/PropsVectorBag.v
theories/SpecPromise.v
theories/Promises.v
theories/PropsPromises.v
theories/Fixes.v
theories/PropsFixes.v
theories/FixLengths.v
theories/PropsFixLengths.v
theories/FixBlocks.v
theories/PropsFixBlocks.v
theories/FixCurve.v
theories/PropsFixCurve.v
