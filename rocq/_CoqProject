-Q theories Verif
theories/Base.v
theories/Val.v
theories/Query.v
theories/QuerySpec.v
theories/QueryProof.v
theories/MergeProof.v
theories/Examples.v
theories/PropQuery.v
theories/Types.v
theories/Graph.v
theories/Queue.v
theories/Result.v
theories/Engine.v
theories/QueueSpec.v
theories/QueueProof.v
theories/PropQueue.v
theories/EngineSpec.v
theories/SplitProof.v
theories/EngineApi.v
theories/EngineProof.v
theories/ExEngine.v
theories/PropEngine.v
theories/EngineTrace.v
theories/EngineDisc.v
theories/BatchProof.v
theories/PropTrace.v
theories/PropStore.v
theories/PropOptions.v
theories/PropResult.v
theories/Validate.v
theories/ValProof.v
theories/ValidateSpec.v
theories/PropValidate.v
theories/PropValExec.v
theories/ReadGraphql.v
theories/ReadSpec.v
theories/PropRead.v
theories/Edn.v
theories/EdnSpec.v
theories/PropEdn.v
theories/Export.v
theories/ExportSpec.v
theories/PropExport.v
theories/Expr.v
theories/ExprSpec.v
theories/PropExpr.v
theories/PropReqs.v
theories/PropCheck.v
theories/Sql.v
theories/SqlSpec.v
theories/PropSql.v
theories/Introspect.v
theories/IntrospectSpec.v
theories/PropIntrospect.v
theories/GraphExt.v
theories/PropIntroGraph.v
theories/Transform.v
theories/PropTransform.v
theories/Telemetry.v
theories/GraphRename.v
theories/PropTelemetry.v
theories/Builder.v
theories/BuilderSpec.v
theories/PropBuilder.v
theories/CallSpec.v
theories/EngineLog.v
theories/Context.v
theories/PropCalls.v
theories/Endpoint.v
theories/PropEndpoint.v
theories/Console.v
theories/PropConsole.v
theories/CostSpec.v
theories/EngineBound.v
theories/EngineTerm.v
theories/ExSub.v
theories/PropBound.v
theories/SubSpec.v
theories/SubJob.v
theories/EngineSub.v
theories/EngineSubRun.v
theories/PropSub.v
theories/SubPathSpec.v
theories/PropSubExpr.v
theories/ExSubCheck.v
theories/PropSubEx.v
theories/SubWfSpec.v
theories/PropSubWf.v
theories/PropSubVal.v
theories/ExSubWf.v
theories/PropCollide.v
theories/EngineSim.v
theories/PropAlike.v
theories/PropAlikeEx.v
theories/PropObserved.v
theories/PropIntroSound.v
theories/PropEndpointSub.v
theories/PropEndpointSubEx.v
theories/PropOrdered.v
theories/ExprRun.v
theories/PropExprRun.v
theories/ExprBindSpec.v
theories/PropExprBind.v
theories/PropExprSound.v
theories/PropExprEx.v
theories/Kinko.v
theories/KinkoSpec.v
theories/PropKinko.v
theories/RecordSpec.v
theories/PropRecords.v
theories/PropRecordsEx.v
theories/Async.v
theories/AsyncProof.v
theories/PropAsync.v
theories/PropAsyncEx.v
theories/PropIntroList.v
theories/IntroRun.v
theories/IntroRunSpec.v
theories/IntroMet.v
theories/IntroServe.v
theories/PropIntroRun.v
theories/IntroClient.v
theories/IntroAsk.v
theories/PropIntroClient.v
theories/ExIntro.v
theories/ExprBuild.v
theories/PropExprBuild.v
theories/EdnLayout.v
theories/PropEdnLayout.v
theories/PropEndpointIntro.v
theories/IntroDoc.v
theories/PropIntroDoc.v
theories/ExIntroDoc.v
theories/ProvSpec.v
theories/EngineCells.v
theories/PropProv.v
theories/MoreSpec.v
theories/PropMore.v
theories/PropMoreEx.v
theories/SameSpec.v
theories/PropSame.v
theories/PropSameEx.v
theories/ViewSpec.v
theories/PropView.v
theories/PropViewEx.v
theories/KnownSpec.v
theories/PropKnown.v
theories/PropKnownEx.v
theories/EdnTextSpec.v
theories/PropEdnText.v
theories/PySpec.v
theories/PropPy.v
theories/SqlGraph.v
theories/SqlGraphSpec.v
theories/PropSqlGraph.v
theories/JsonText.v
theories/JsonSpec.v
theories/PropJson.v
theories/Assumed1.v
theories/Assumed2.v
theories/Assumed3.v
