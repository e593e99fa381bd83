-Q theories Verif
theories/GoBase.v
theories/GoBaseProofs.v
theories/ShardMap.v
theories/ShardMapProofs.v
theories/Float64.v
theories/Float64Proofs.v
theories/DList.v
theories/SpecList.v
theories/DListProofs.v
theories/SkipList.v
theories/SkipListProofs.v
theories/SkipListOps.v
theories/SpecZSet.v
theories/SkipListMore.v
theories/SkipListAbsent.v
theories/SkipListScores.v
theories/SpecResp.v
theories/Db.v
theories/Protocol.v
theories/Redis.v
theories/Obs.v
theories/SpecCmd.v
theories/SpecServer.v
theories/SetRep.v
theories/DbInv.v
theories/ExecSteps.v
theories/RespProofs.v
theories/SpecFrame.v
theories/SpecKey.v
theories/KeyHist.v
theories/Sim.v
theories/SimStr.v
theories/SimList.v
theories/SimSet.v
theories/SimZSet.v
theories/SimMain.v
theories/PropBase.v
theories/KeyIs.v
theories/Examples.v
theories/P_Strings.v
theories/P_Keys.v
theories/P_Requests.v
theories/P_Frame.v
theories/P_Lists.v
theories/P_Sets.v
theories/P_ZSets.v
theories/SpecWire.v
theories/P_Wire.v
theories/SpecMap.v
theories/P_Map.v
theories/SpecHash.v
theories/P_Hash.v
theories/Server.v
theories/SpecServing.v
theories/TermList.v
theories/TermZSet.v
theories/SpecEnds.v
theories/ListEnds.v
theories/Term.v
theories/ServerProofs.v
theories/P_Serve.v
theories/P_Term.v
theories/Drive.v
theories/P_ServeMore.v
theories/Stream.v
theories/SpecStream.v
theories/StreamProofs.v
theories/Server1.v
theories/SpecServing1.v
theories/Server1Proofs.v
theories/Server1More.v
theories/Server1Err.v
theories/Drive1.v
theories/P_Stream.v
theories/P_Serve1.v
theories/SpecSafe.v
theories/SafeSpec.v
theories/Safe.v
theories/P_Server.v
theories/P_Exact.v
theories/SpecTable.v
theories/ScoreTable.v
theories/P_Table.v
theories/P_Ends.v
theories/Main.v
theories/SpecMain.v
theories/MainProofs.v
theories/P_Main.v
theories/Gen.v
theories/GenSources.v
theories/SpecGen.v
theories/GenProofs.v
theories/P_Gen.v
theories/Preload.v
theories/SpecPreload.v
theories/P_Preload.v
theories/SpecTenants.v
theories/Twin.v
theories/P_Tenants.v
theories/SpecChoices.v
theories/Choices.v
theories/Settled.v
theories/P_Choices.v
theories/SpecLife.v
theories/P_Life.v
theories/SpecBlame.v
theories/Blame.v
theories/P_Blame.v
theories/SpecAccept.v
theories/P_Accept.v
theories/SpecKinds.v
theories/P_Kinds.v
theories/SpecOverload.v
theories/P_Overload.v
theories/SpecRetry.v
theories/SpecCommute.v
theories/P_Retry.v
theories/KeyOrder.v
theories/P_Commute.v
theories/P_Demos.v
theories/SpecUse.v
theories/P_Use.v
theories/P_Use2.v
theories/P_Use3.v
theories/SpecBoard.v
theories/P_Use4.v
theories/SpecTasks.v
theories/P_Use5.v
theories/SpecTotal.v
theories/P_Use6.v
theories/SpecRegister.v
theories/P_Use7.v
theories/P_Real1.v
theories/SpecPages.v
theories/P_Pages.v
theories/SpecMono.v
theories/P_Mono.v
theories/P_Acked.v
theories/P_Fifo.v
theories/P_Sections.v
theories/SpecPot.v
theories/P_Pot.v
theories/P_Logged.v
theories/P_Demos2.v
theories/Config.v
theories/SpecConfig.v
theories/P_Config.v
theories/Assumptions.v
