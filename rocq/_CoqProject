-Q theories Verif
theories/Base.v
theories/NameModel.v
theories/RenderModel.v
theories/CodesModel.v
theories/RDataModel.v
theories/MsgModel.v
theories/EqModel.v
theories/TextModel.v
theories/SpecText.v
theories/TextProofs.v
theories/TextProofs2.v
theories/TextProofs3.v
theories/TextProofs4.v
theories/TextProofs5.v
theories/TextProofs6.v
theories/SpecPanic.v
theories/PanicProofs.v
theories/ExtInstance.v
theories/RandProofs.v
theories/SpecUtf8.v
theories/Utf8Proofs.v
theories/PropText.v
theories/SpecName.v
theories/SpecApi.v
theories/SpecBuf.v
theories/SpecCompress.v
theories/SpecCodes.v
theories/SpecMsg.v
theories/SpecOrd.v
theories/SpecScope.v
theories/OrdBase.v
theories/OrdName.v
theories/SpecEq.v
theories/BaseLemmas.v
theories/NameWireProofs.v
theories/NameOpsProofs.v
theories/NameOpsProofs2.v
theories/NameCmpProofs.v
theories/NameCmpProofs2.v
theories/NameTextProofs.v
theories/SpecEsc.v
theories/EscProofs.v
theories/NameTextProofs2.v
theories/NameApiProofs.v
theories/BitLemmas.v
theories/RenderProofs.v
theories/RenderProofs2.v
theories/BufProofs.v
theories/LiveProofs.v
theories/CodesProofs.v
theories/WireProofs.v
theories/RDataProofs.v
theories/DecodeProofs.v
theories/MsgProofs.v
theories/MsgProofs2.v
theories/MsgProofs3.v
theories/MsgProofs4.v
theories/MsgProofs5.v
theories/MsgProofs6.v
theories/MsgProofs7.v
theories/IndepProofs.v
theories/FirstProofs.v
theories/FitProofs.v
theories/CompProofs.v
theories/EscProofs2.v
theories/MsgProofs8.v
theories/BuildProofs.v
theories/EqProofs.v
theories/PropNameAux.v
theories/PropName.v
theories/TruncProofs.v
theories/PropBuf.v
theories/PropCodes.v
theories/PropMsg.v
theories/SpecBuild.v
theories/BuildProofs2.v
theories/PropBuild.v
theories/TreeModel.v
theories/SpecTree.v
theories/TreeProofs.v
theories/PermTac.v
theories/TreeProofs2.v
theories/TreeProofs3.v
theories/TreeProofs4.v
theories/TreePure.v
theories/TreePure2.v
theories/TreeProofs5.v
theories/TreeProofs6.v
theories/TreeProofs7.v
theories/TreeProofs8.v
theories/TreeProofs9.v
theories/TreeProofs10.v
theories/TreeProofs11.v
theories/SpecHist.v
theories/TreeProofs12.v
theories/TreeProofs13.v
theories/TreeProofs14.v
theories/TreeProofs15.v
theories/TreeProofs16.v
theories/TreeProofs17.v
theories/SpecHist2.v
theories/TreeProofs18.v
theories/OrdProofs.v
theories/SpecTrap.v
theories/TreeProofs19.v
theories/TreeProofs20.v
theories/TreeProofs21.v
theories/TreeProofs22.v
theories/PropTree.v
theories/DisplayModel.v
theories/SpecDisplay.v
theories/DisplayProofs.v
theories/DisplayProofs2.v
theories/DisplayProofs3.v
theories/DisplayProofs4.v
theories/SpecShown.v
theories/ShownProofs.v
theories/PropDisplay.v
theories/CtorModel.v
theories/SpecCtor.v
theories/CtorProofs.v
theories/TextProofs7.v
theories/TextRange.v
theories/CtorProofs2.v
theories/PropCtor.v
theories/SliceModel.v
theories/NodeModel.v
theories/DumpModel.v
theories/SpecDump.v
theories/SpecLast.v
theories/TreeProofs23.v
theories/TreeProofs24.v
theories/SpecNode.v
theories/NodeProofs.v
theories/SpecChain.v
theories/ChainProofs.v
theories/PropDump.v
theories/PropNode.v
theories/SpecLocal.v
theories/LocalProofs.v
theories/LocalProofs2.v
theories/PropLocal.v
theories/DeriveModel.v
theories/SpecDerive.v
theories/MacroModel.v
theories/SpecMacro.v
theories/MacroProofs.v
theories/MacroProofs2.v
theories/DeriveProofs.v
theories/UncompProofs.v
theories/DeriveProofs2.v
theories/PropDerive.v
theories/PropMacro.v
theories/SpecNormal.v
theories/TextProofs8.v
theories/TextProofs9.v
theories/MsgEqModel.v
theories/SpecMsgEq.v
theories/MsgEqProofs.v
theories/PropMsgEq.v
theories/PropNormal.v
theories/SpecWork.v
theories/WorkProofs.v
theories/SpecTreeWork.v
theories/TreeWorkProofs.v
theories/TreeWorkProofs2.v
theories/TreeWorkProofs3.v
theories/PropWork.v
theories/DumpProofs.v
theories/SpecSlice.v
theories/SliceProofs.v
theories/SliceProofs2.v
theories/PropOrd.v
theories/PropSlice.v
theories/PropCompress.v
theories/FindMutModel.v
theories/FindMutProofs.v
theories/SpecFindMut.v
theories/AccessModel.v
theories/SpecAccess.v
theories/AccessProofs.v
theories/NotifyProofs.v
theories/PropAccess.v
theories/PropFindMut.v
theories/StdNet.v
theories/StdNetProofs.v
theories/TreeProofs25.v
theories/UsizeModel.v
theories/SpecUsize.v
theories/UsizeProofs.v
theories/PropUsize.v
theories/SpecExact.v
theories/MsgExact.v
theories/SpecRebuild.v
theories/RebuildProofs.v
theories/RebuildProofs2.v
theories/PropRebuild.v
theories/PropExact.v
theories/SpecOpaque.v
theories/OpaqueProofs.v
theories/PropOpaque.v
theories/SpecRenderWork.v
theories/RenderWorkProofs.v
theories/PropRenderWork.v
theories/SpecDecodeWork.v
theories/DecodeWorkProofs.v
theories/PropDecodeWork.v
theories/SpecAnyCalls.v
theories/AnyCallsProofs.v
theories/PropAnyCalls.v
theories/SpecMsgWork.v
theories/MsgWorkProofs.v
theories/PropMsgWork.v
theories/PrefixProofs.v
theories/PropPrefix.v
theories/SpecBig.v
theories/BigProofs.v
theories/Big2Proofs.v
theories/PropBig.v
theories/SpecStale.v
theories/StaleProofs.v
theories/PropStale.v
theories/SpecReuse.v
theories/ReuseProofs.v
theories/PropReuse.v
