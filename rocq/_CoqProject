-Q theories Verif

theories/Base.v
theories/Sv.v
theories/BaseLemmas.v
theories/SvProofs.v
theories/Info.v
theories/Registry.v
theories/RegistryProofs.v
theories/TypeMut.v
theories/Rules.v
theories/TypeBuild.v
theories/TypeBuildProofs.v
theories/LayoutProofs.v
theories/TypeQuery.v
theories/Msg.v
theories/Domain.v
theories/ElemProofs.v
theories/TypesProofs.v
theories/SpecReg.v
theories/HistProofs.v
theories/ExEnv.v
theories/RegTheorems.v
theories/PropsReg.v
theories/SpecDom.v
theories/DomTheorems.v
theories/SpecOrd.v
theories/CmpProofs.v
theories/RuleTheorems.v
theories/SpecRule.v
theories/RuleTheorems2.v
theories/ExFirst.v
theories/PropsDom.v
theories/FtableProofs.v
theories/SpecMsg.v
theories/MsgProofs.v
theories/MsgProofs2.v
theories/MsgProofs3.v
theories/MixinInfo.v
theories/SpecLayout.v
theories/TypeTheorems.v
theories/SpecList.v
theories/RuleTheorems3.v
theories/ExKept.v
theories/PropsMsg.v
theories/PropsType.v
theories/Heap.v
theories/Mutation.v
theories/Object.v
theories/SpecObj.v
theories/HeapProofs.v
theories/PartProofs.v
theories/RollProofs.v
theories/AllocProofs.v
theories/UpdProofs.v
theories/FinProofs.v
theories/PerfProofs.v
theories/WorldProofs.v
theories/ObjProofs.v
theories/OpProofs.v
theories/PlanProofs.v
theories/ActProofs.v
theories/ActProofs2.v
theories/MatchProofs.v
theories/ActProofs3.v
theories/SpecLog.v
theories/LogProofs.v
theories/SpecMut.v
theories/MutProofs.v
theories/MutProofs2.v
theories/MutTheorems.v
theories/HonestProofs.v
theories/ObjTheorems.v
theories/SpecAct.v
theories/ObjTheorems2.v
theories/StableProofs.v
theories/ObjTheorems3.v
theories/ObjTheorems4.v
theories/ObjTheorems5.v
theories/ObjTheorems6.v
theories/ObjTheorems7.v
theories/ObjTheorems8.v
theories/ObjTheorems9.v
theories/ObjTheorems10.v
theories/ExObj.v
theories/PropsObj.v
theories/PropsMut.v
theories/PropsMut2.v
theories/V1Rules.v
theories/SpecV1.v
theories/V1Proofs.v
theories/PropsV1.v
theories/Conc.v
theories/SpecConc.v
theories/CongProofs.v
theories/ConcProofs.v
theories/ConcTheorems.v
theories/ConcTheorems2.v
theories/PropsConc.v
theories/Locks.v
theories/LockProofs.v
theories/PropsLocks.v
theories/SpecSeal.v
theories/SealProofs.v
theories/PropsMut3.v
theories/Define.v
theories/SpecDefine.v
theories/DefineProofs.v
theories/DefineProofs2.v
theories/PropsDef.v
theories/CApi.v
theories/SpecC.v
theories/CProofs.v
theories/CProofs2.v
theories/PropsC.v
theories/Oom.v
theories/SpecOom.v
theories/OomProofs.v
theories/PropsOom.v
theories/Life.v
theories/SpecLife.v
theories/LifeProofs.v
theories/PropsLife.v
theories/SpecPlace.v
theories/PlaceProofs.v
theories/PlaceProofs2.v
theories/PlaceProofs3.v
theories/PlaceProofs4.v
theories/PropsPlace.v
theories/Common.v
theories/SpecCommon.v
theories/CommonProofs.v
theories/CommonProofs2.v
theories/CommonProofs3.v
theories/PropsCommon.v
theories/SpecSeen.v
theories/SeenProofs.v
theories/SeenProofs2.v
theories/SeenProofs3.v
theories/SeenProofs4.v
theories/SeenProofs5.v
theories/SeenProofs6.v
theories/SeenProofs7.v
theories/SeenProofs8.v
theories/PropsSeen.v
theories/TypeBuf.v
theories/TypeBufProofs.v
theories/SpecBuf.v
theories/TypeBufProofs2.v
theories/PropsBuf.v
theories/Resource.v
theories/ResourceProofs.v
theories/PropsRes.v
theories/Class.v
theories/SpecClass.v
theories/CalledProofs.v
theories/ClassProofs.v
theories/PropsClass.v
theories/SpecAbs.v
theories/AbsProofs.v
theories/AbsProofs2.v
theories/AbsProofs3.v
theories/AbsProofs4.v
theories/PropsAbs.v
theories/AbsProofs5.v
theories/PropsUse.v
theories/WorldSteps.v
theories/ObjMsg.v
theories/SpecSend.v
theories/SendProofs.v
theories/PropsSend.v
theories/GradMut.v
theories/SpecGrad.v
theories/GradProofs.v
theories/ExGrad.v
theories/PropsGrad.v
theories/V1Obj.v
theories/V1ObjProofs.v
theories/PropsV1Obj.v
theories/Reenter.v
theories/SpecRe.v
theories/ReProofs.v
theories/PropsRe.v
theories/SpecNext.v
theories/NextProofs.v
theories/PropsNext.v
theories/SpecExact.v
theories/ExactProofs.v
theories/PropsExact.v
theories/ReProofs2.v
theories/Texts.v
theories/SpecText.v
theories/TextProofs.v
theories/TextClash.v
theories/TextProofs2.v
theories/PropsText.v
theories/Dump.v
theories/SpecDump.v
theories/DumpProofs.v
theories/PropsDump.v
theories/Globals.v
theories/SpecGlob.v
theories/GlobProofs.v
theories/PropsGlob.v
