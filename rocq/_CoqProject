-Q theories Verif
theories/Base.v
theories/Str.v
theories/Num.v
theories/Player.v
theories/Predicate.v
theories/Engine.v
theories/Formatter.v
theories/PredSpec.v
theories/PredFacts.v
theories/LinkSpec.v
theories/Wf.v
theories/Frame.v
theories/SetProps.v
theories/Steps.v
theories/Reach.v
theories/Spec.v
theories/Inv.v
theories/Links.v
theories/Cases.v
theories/PresInv.v
theories/Count.v
theories/Queue.v
theories/Delay.v
theories/Trans.v
theories/InterSpec.v
theories/TermSpec.v
theories/StopSpec.v
theories/Inter.v
theories/Stop.v
theories/Hold.v
theories/Up.v
theories/Term.v
theories/Fuel.v
theories/FReach.v
theories/TermApi.v
theories/Examples.v
theories/Witness.v
theories/FactsPres.v
theories/FactsFmt.v
theories/FactsDelay.v
theories/Props_Delay.v
theories/Props_Pres.v
theories/PredHeap.v
theories/FactsPred.v
theories/Props_Pred.v
theories/FactsLinks.v
theories/Props_Links.v
theories/FactsInter.v
theories/Props_Inter.v
theories/FactsStop.v
theories/Props_Stop.v
theories/FactsTerm.v
theories/Props_Term.v
theories/Props_Fmt.v
theories/Float.v
theories/ParseSpec.v
theories/StrFacts.v
theories/ParseFacts.v
theories/NumFacts.v
theories/Props_Parse.v
theories/DecSpec.v
theories/DecFacts.v
theories/Props_Dec.v
theories/Animator.v
theories/AnimSpec.v
theories/AnimFacts.v
theories/AnimTime.v
theories/Props_Anim.v
theories/PlayerSpec.v
theories/PlayerFacts.v
theories/StartFacts.v
theories/StartSpec.v
theories/StartMedia.v
theories/FactsPlayer.v
theories/Props_Player.v
theories/MediaSpec.v
theories/MediaFacts.v
theories/Props_Media.v
theories/AnchorSpec.v
theories/AnchorFacts.v
theories/Props_Anchor.v
theories/UserData.v
theories/UserSpec.v
theories/UserFacts.v
theories/Props_User.v
theories/Builder.v
theories/BuildSpec.v
theories/BuildInv.v
theories/BuildOps.v
theories/BuildFacts.v
theories/Props_Build.v
theories/Syntax.v
theories/Parser.v
theories/ParseDoc.v
theories/ParserWp.v
theories/ParserFrame.v
theories/ParserSpec.v
theories/ParserCheck.v
theories/ParserGrammar.v
theories/Props_Parser.v
theories/ParserQuiet.v
theories/ParserInv.v
theories/ParserGraph.v
theories/ParserObjs.v
theories/ParserPush.v
theories/ParserCache.v
theories/ParserWhole.v
theories/ParserEnd.v
theories/ParserOdd.v
theories/TreeSpec.v
theories/TreeGraph.v
theories/TreeEvts.v
theories/TreeObjs.v
theories/TreeHead.v
theories/TreePush.v
theories/TreeFacts.v
theories/Props_Tree.v
theories/FactsParsed.v
theories/Props_Parsed.v
theories/ValuesSpec.v
theories/FactsValues.v
theories/Props_Values.v
theories/CompileSpec.v
theories/CompileFrame.v
theories/CompileProc.v
theories/CompileElts.v
theories/CompileConn.v
theories/CompileOrder.v
theories/CompileDoc.v
theories/CompileTree.v
theories/CompileCells.v
theories/CompileGuard.v
theories/CompileStat.v
theories/CompileCond.v
theories/CompileKept.v
theories/CompilePred.v
theories/CompileLinks.v
theories/CompileRoot.v
theories/CompileIface.v
theories/CompileMove.v
theories/CompileAct.v
theories/CompileSolve.v
theories/CompileWith.v
theories/CompileEnd.v
theories/FactsCompile.v
theories/Props_Compile.v
theories/Lua.v
theories/ParserLua.v
theories/LtabSpec.v
theories/LtabStr.v
theories/LtabWp.v
theories/LtabPure.v
theories/LtabKept.v
theories/LtabMake.v
theories/LtabFill.v
theories/LtabTree.v
theories/LtabBody.v
theories/LtabEnd.v
theories/FactsLtab.v
theories/LtabExamples.v
theories/Props_Ltab.v
theories/PortFrame.v
theories/PortObjs.v
theories/PortSpec.v
theories/PortIface.v
theories/PortUniq.v
theories/PortElts.v
theories/PortPop.v
theories/PortTree.v
theories/PortProc.v
theories/RuleSpec.v
theories/RuleElts.v
theories/RuleProc.v
theories/PortRoot.v
theories/PortEnd.v
theories/FactsPort.v
theories/Props_Port.v
theories/RuleEnd.v
theories/FactsRule.v
theories/Props_Rule.v
theories/FactsOwn.v
theories/Props_Own.v
theories/Destroy.v
theories/DestroyFacts.v
theories/FactsDestroy.v
theories/Props_Destroy.v
theories/SafeSpec.v
theories/Safe.v
theories/SafeInv.v
theories/SafeLoop.v
theories/SafeTick.v
theories/FactsSafe.v
theories/Props_Safe.v
theories/SafeCheck.v
theories/Props_Calm.v
