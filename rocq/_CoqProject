-Q theories Verif
theories/GoStr.v
theories/GoStrL.v
theories/Val.v
theories/Conv.v
theories/Instr.v
theories/Heap.v
theories/Schema.v
theories/Build.v
theories/World.v
theories/InstrL.v
theories/ConvL.v
theories/SpecOps.v
theories/OpsThm.v
theories/PropsOps.v
theories/Den.v
theories/Param.v
theories/HeapL.v
theories/Refine.v
theories/Top.v
theories/SpecPath.v
theories/PathL.v
theories/SpecSchema.v
theories/BuildL.v
theories/SpecProj.v
theories/ProjL.v
theories/Api.v
theories/SpecRun.v
theories/RunL.v
theories/SpecTrans.v
theories/TransL.v
theories/InstL.v
theories/ItemL.v
theories/SpecSave.v
theories/SaveL.v
theories/Index.v
theories/IndexL.v
theories/AcceptL.v
theories/Cases.v
theories/PropsTransform.v
theories/Inst.v
theories/SpecWalk.v
theories/WalkL.v
theories/WalkC.v
theories/PropsSchema.v
theories/Load.v
theories/SpecLoad.v
theories/FlatL.v
theories/SpecRef.v
theories/RefL.v
theories/DerefL.v
theories/TermL.v
theories/SpecExp.v
theories/ExpL.v
theories/ExpT.v
theories/LoadL.v
theories/CaseLoad.v
theories/PropsLoad.v
theories/Cache.v
theories/SpecCache.v
theories/CacheL.v
theories/CacheT.v
theories/CacheP.v
theories/CacheR.v
theories/CaseCache.v
theories/PropsCache.v
theories/SpecGen.v
theories/Gen.v
theories/GenL.v
theories/SortL.v
theories/GenP.v
theories/GenM.v
theories/GenT.v
theories/GenU.v
theories/CaseGen.v
theories/PropsGen.v
theories/Flags.v
theories/SpecFlags.v
theories/FlagsL.v
theories/PropsFlags.v
theories/AvroRun.v
theories/SpecAvroRun.v
theories/AvroRunL.v
theories/PropsAvroRun.v
theories/SpecConv.v
theories/ConvT.v
theories/PropsConv.v
theories/Avro.v
theories/SpecAvro.v
theories/AvroL.v
theories/AvroMapL.v
theories/AvroCases.v
theories/PropsAvro.v
theories/KeyedL.v
theories/SpecNamed.v
theories/NamedL.v
theories/NamedM.v
theories/NamedT.v
theories/NamedF.v
theories/NamedK.v
theories/NamedU.v
theories/CaseNamed.v
theories/PropsNamed.v
theories/Gql.v
theories/SpecGql.v
theories/SpecDoc.v
theories/GqlL.v
theories/GqlM.v
theories/GqlT.v
theories/GqlF.v
theories/GqlB.v
theories/GqlC.v
theories/GqlD.v
theories/SpecDesc.v
theories/DescL.v
theories/DescM.v
theories/GqlE.v
theories/CaseGql.v
theories/PropsGql.v
theories/PropsDesc.v
theories/SpecFiles.v
theories/Files.v
theories/FilesL.v
theories/CaseFiles.v
theories/PropsFiles.v
theories/SpecPut.v
theories/PutL.v
theories/CasePut.v
theories/PropsSave.v
theories/Mapper.v
theories/MapRun.v
theories/SpecMapper.v
theories/MapperL.v
theories/MapperP.v
theories/CaseMapper.v
theories/MapperC.v
theories/FixMapper.v
theories/PropsMapper.v
theories/SpecXml.v
theories/XmlL.v
theories/CaseXml.v
theories/XmlS.v
theories/PropsXml.v
theories/SpecArr.v
theories/ArrT.v
theories/ArrH.v
theories/ArrW.v
theories/ArrD.v
theories/ArrE.v
theories/ArrP.v
theories/ArrQ.v
theories/CaseArr.v
theories/PropsArr.v
theories/GoSrc.v
theories/SpecGo.v
theories/GoSrcL.v
theories/GoSrcP.v
theories/GoSrcQ.v
theories/GoSrcA.v
theories/GoSrcB.v
theories/GoSrcC.v
theories/GoSrcD.v
theories/CaseGo.v
theories/PropsGo.v
theories/GoJson.v
theories/SpecJson.v
theories/JsonL.v
theories/JsonM.v
theories/JsonN.v
theories/JsonP.v
theories/JsonQ.v
theories/CaseJson.v
theories/PropsJson.v
theories/SpecInst.v
theories/InstR.v
theories/PropsInst.v
theories/SpecSdl.v
theories/SpecRead.v
theories/LexL.v
theories/ParseL.v
theories/SdlL.v
theories/SdlM.v
theories/PropsSdl.v
theories/Conc.v
theories/ConcL.v
theories/ConcR.v
theories/ConcS.v
theories/SpecConc.v
theories/ConcB.v
theories/ConcP.v
theories/ConcQ.v
theories/CaseConc.v
theories/PropsConc.v
theories/Template.v
theories/Whole.v
theories/SpecEmbed.v
theories/EmbedL.v
theories/AvroFuel.v
theories/SpecWhole.v
theories/WholeL.v
theories/CaseWhole.v
theories/PropsWhole.v
theories/Main.v
theories/SpecMain.v
theories/MainL.v
theories/CaseMain.v
theories/PropsMain.v
theories/SpecItems.v
theories/ItemsL.v
theories/PropsItems.v
theories/Crash.v
theories/CrashL.v
theories/CaseCrash.v
theories/PropsCrash.v
theories/Valid.v
theories/SpecValid.v
theories/ValidL.v
theories/PropsValid.v
theories/SpecDef.v
theories/DefD.v
theories/DefE.v
theories/DefB.v
theories/DefS.v
theories/DefP.v
theories/DefT.v
theories/DefM.v
theories/CaseDef.v
theories/PropsDef.v
theories/SpecDang.v
theories/DangL.v
theories/CaseDang.v
theories/PropsDang.v
theories/SelH.v
theories/SelD.v
theories/SelE.v
theories/SpecSel.v
theories/SelP.v
theories/SelQ.v
theories/SelR.v
theories/CaseSel.v
theories/PropsSel.v
theories/Fault.v
theories/SpecFault.v
theories/FaultL.v
theories/FaultP.v
theories/FaultQ.v
theories/CaseFault.v
theories/PropsFault.v
theories/SpecCalm.v
theories/CalmX.v
theories/CaseCalm.v
theories/PropsCalm.v
theories/Fold.v
theories/SpecFold.v
theories/FoldL.v
theories/PropsFold.v
theories/EndL.v
theories/CaseEnd.v
theories/EndM.v
theories/PropsEnd.v
theories/SpecOut.v
theories/OutL.v
theories/PropsOut.v
theories/SpecMade.v
theories/GqlG.v
theories/CaseMade.v
theories/PropsMade.v
theories/SpecSection.v
theories/SectionL.v
theories/PropsSection.v
theories/FoldT.v
theories/SpecFoldT.v
theories/FoldTL.v
theories/PropsFoldT.v
theories/SpecText.v
theories/SplitL.v
theories/PropsSplit.v
theories/SpecPick.v
theories/PickL.v
theories/PropsPick.v
theories/ExactL.v
theories/PropsExact.v
theories/SpecRing.v
theories/RingL.v
theories/PropsRing.v
theories/SpecSelf.v
theories/SelfL.v
theories/CaseSelf.v
theories/PropsSelf.v
theories/MostL.v
theories/PropsMost.v
theories/SpecSlice.v
theories/SliceL.v
theories/CaseSlice.v
theories/PropsSlice.v
theories/FaceL.v
theories/PropsFace.v
theories/FailL.v
theories/PropsFail.v
theories/SpecShown.v
theories/ShownL.v
theories/PropsShown.v
theories/PropsNamedArr.v
theories/AgreeL.v
theories/SpecDec.v
theories/DecL.v
theories/PropsAgree.v
theories/AllOfL.v
theories/PropsAllOf.v
theories/CutTagL.v
theories/PropsCutTag.v
theories/ExactTagL.v
theories/PropsExactTag.v
theories/ReadBackL.v
theories/PropsReadBack.v
theories/NeedL.v
theories/PropsNeed.v
theories/SpecEsc.v
theories/EscTagL.v
theories/PropsEscTag.v
