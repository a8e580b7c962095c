-Q theories Verif
theories/Base.v
theories/BaseProofs.v
theories/AlignModel.v
theories/LiteralsModel.v
theories/BasicSpec.v
theories/BasicProofs.v
theories/PropBasic.v
theories/ArenaSpec.v
theories/ArenaModel.v
theories/ArenaProofs.v
theories/ArenaStatements.v
theories/ArenaProofs2.v
theories/ArenaProofs3.v
theories/ArenaProofs4.v
theories/ArenaProofs5.v
theories/ArenaProofs6.v
theories/ArenaProofs7.v
theories/ArenaProofs8.v
theories/ArenaCases.v
theories/PropArena.v
theories/ArenaSpaceStatements.v
theories/ArenaSpaceProofs.v
theories/ArenaSpaceProofs2.v
theories/PropArenaSpace.v
theories/MetricsSpec.v
theories/MetricsModel.v
theories/MetricsStatements.v
theories/MetricsProofs.v
theories/MetricsProofs2.v
theories/PropMetrics.v
theories/MetricsGlobalModel.v
theories/MetricsGlobalStatements.v
theories/MetricsGlobalProofs.v
theories/MetricsGlobalProofs2.v
theories/MetricsGlobalProofs3.v
theories/PropMetricsGlobal.v
theories/VecSpec.v
theories/VecModel.v
theories/VecStatements.v
theories/VecProofs.v
theories/VecProofs2.v
theories/VecProofs3.v
theories/VecProofs4.v
theories/VecProofs5.v
theories/VecProofs6.v
theories/VecCases.v
theories/PropVector.v
theories/VecOwnStatements.v
theories/VecOwnProofs.v
theories/VecOwnProofs2.v
theories/PropVecOwn.v
theories/VecThrowModel.v
theories/VecThrowStatements.v
theories/VecThrowProofs.v
theories/VecThrowProofs2.v
theories/VecThrowProofs3.v
theories/PropVecThrow.v
theories/VecIterSpec.v
theories/VecIterModel.v
theories/VecIterStatements.v
theories/VecIterProofs.v
theories/PropVecIter.v
theories/VecRangeModel.v
theories/VecRangeSpec.v
theories/VecRangeProofs.v
theories/VecRangeProofs2.v
theories/PropVecRange.v
theories/StrSpec.v
theories/StrModel.v
theories/StrProofs.v
theories/StrProofs2.v
theories/StrProofs3.v
theories/StrProofs4.v
theories/StrProofs5.v
theories/StrProofs6.v
theories/StrProofs7.v
theories/StrStatements.v
theories/StrQuiet.v
theories/StrProofs8.v
theories/StrProofs9.v
theories/StrProofs10.v
theories/StrProofs11.v
theories/StrProofs12.v
theories/StrProofs13.v
theories/StrProofs14.v
theories/StrCases.v
theories/StrGrowStatements.v
theories/StrGrowProofs.v
theories/StrOwnStatements.v
theories/StrOwnProofs.v
theories/StrOwnProofs2.v
theories/PropStrGrow.v
theories/PropString.v
theories/PropStringOwn.v
theories/PropArenaString.v
theories/StrFindSpec.v
theories/StrFindModel.v
theories/StrFindProofs.v
theories/PropStrFind.v
theories/StrConcModel.v
theories/StrConcSpec.v
theories/StrConcProofs.v
theories/PropStrConc.v
theories/StrStreamSpec.v
theories/StrStreamModel.v
theories/StrStreamStatements.v
theories/StrStreamProofs.v
theories/PropStrStream.v
theories/OptModel.v
theories/OptSpec.v
theories/OptSpec2.v
theories/OptProofs.v
theories/OptProofs2.v
theories/OptProofs3.v
theories/OptProofs4.v
theories/OptProofs5.v
theories/PropOpt.v
theories/PropOpt2.v
theories/OptModel2.v
theories/OptSpec3.v
theories/OptProofs6.v
theories/OptProofs7.v
theories/PropOpt3.v
theories/StrApiModel.v
theories/StrApiSpec.v
theories/StrApiProofs.v
theories/StrApiProofs2.v
theories/PropStrApi.v
theories/StrWideModel.v
theories/StrWideProofs.v
theories/PropStrWide.v
theories/StrCheckModel.v
theories/StrCheckSpec.v
theories/StrCheckProofs.v
theories/PropStrCheck.v
theories/MetricsRelaxModel.v
theories/MetricsRelaxSpec.v
theories/MetricsRelaxProofs.v
theories/PropMetricsRelax.v
theories/ArenaReentModel.v
theories/ArenaReentSpec.v
theories/ArenaReentProofs.v
theories/ArenaReentProofs2.v
theories/ArenaReentProofs3.v
theories/ArenaReentProofs4.v
theories/PropArenaReent.v
theories/StrArenaModel.v
theories/StrArenaStatements.v
theories/StrAskProofs.v
theories/StrArenaProofs.v
theories/StrArenaProofs2.v
theories/StrArenaProofs3.v
theories/StrArenaProofs4.v
theories/StrArenaCases.v
theories/PropStrArena.v
theories/OptLifeModel.v
theories/OptLifeSpec.v
theories/OptLifeProofs.v
theories/OptLifeProofs2.v
theories/OptLifeProofs3.v
theories/PropOptLife.v
theories/ArenaHookModel.v
theories/ArenaHookSpec.v
theories/ArenaHookProofs.v
theories/ArenaHookProofs2.v
theories/ArenaHookProofs3.v
theories/ArenaHookProofs4.v
theories/ArenaHookProofs5.v
theories/PropArenaHook.v
theories/ArenaCallModel.v
theories/ArenaCallSpec.v
theories/ArenaCallProofs.v
theories/ArenaCallProofs2.v
theories/ArenaCallProofs3.v
theories/PropArenaCall.v
theories/OptRefModel.v
theories/OptRefSpec.v
theories/OptRefProofs.v
theories/PropOptRef.v
theories/ArenaCtorModel.v
theories/ArenaCtorSpec.v
theories/ArenaCtorProofs.v
theories/PropArenaCtor.v
theories/OptStoreModel.v
theories/OptStoreSpec.v
theories/OptStoreProofs.v
theories/PropOptStore.v
theories/OptHistSpec.v
theories/OptHistProofs.v
theories/PropOptHist.v
theories/ArenaTypeModel.v
theories/ArenaTypeSpec.v
theories/ArenaTypeProofs.v
theories/PropArenaType.v
theories/StrRangeModel.v
theories/StrRangeSpec.v
theories/StrRangeProofs.v
theories/StrRangeProofs2.v
theories/StrRangeProofs3.v
theories/PropStrRange.v
theories/StrNullModel.v
theories/PropStrNull.v
theories/ArenaElseSpec.v
theories/ArenaElseProofs.v
theories/ArenaElseProofs2.v
theories/ArenaElseProofs3.v
theories/PropArenaElse.v
theories/ArenaRoomSpec.v
theories/ArenaRoomProofs.v
theories/ArenaRoomProofs2.v
theories/PropArenaRoom.v
theories/ArenaPmrModel.v
theories/ArenaPmrSpec.v
theories/ArenaPmrProofs.v
theories/ArenaPmrProofs2.v
theories/ArenaPmrProofs3.v
theories/PropArenaPmr.v
theories/StrZeroModel.v
theories/PropStrZero.v
