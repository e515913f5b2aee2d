-Q theories Verif
theories/Bytes.v
theories/Types.v
theories/World.v
theories/BpfModel.v
theories/GenModel.v
theories/PktSpec.v
theories/Frag.v
theories/BytesFacts.v
theories/NetFacts.v
theories/StepFacts.v
theories/SwichFacts.v
theories/Wf.v
theories/ViewSpec.v
theories/ViewModel.v
theories/MatcherFacts.v
theories/MatcherFacts2.v
theories/MatcherFacts3.v
theories/MatcherFacts4.v
theories/SetFacts.v
theories/MatcherFacts5.v
theories/MatcherFacts6.v
theories/RuleFacts.v
theories/SockFacts.v
theories/RuleFacts2.v
theories/SockLog.v
theories/RuleFacts3.v
theories/ProgFacts.v
theories/HeadFacts.v
theories/HeadFacts2.v
theories/HeadFacts3.v
theories/HeadFacts4.v
theories/HeadFacts5.v
theories/HeadFacts6.v
theories/SockHead.v
theories/ProgThm.v
theories/FitsFacts.v
theories/WfDec.v
theories/EvalSpec.v
theories/EvalFacts.v
theories/Deploy.v
theories/DeployFacts.v
theories/ChainSpec.v
theories/ChainFacts.v
theories/OneFacts.v
theories/Fixtures.v
theories/OneFacts2.v
theories/SockSpec.v
theories/LogSpec.v
theories/LogFacts.v
theories/ChainFacts2.v
theories/SockFacts2.v
theories/PropsVerdict.v
theories/PropsMatchers.v
theories/PropsChain.v
theories/MapModel.v
theories/MapFacts.v
theories/JumpSpec.v
theories/JumpFacts.v
theories/LongRule.v
theories/CodeSpec.v
theories/CodeFacts.v
theories/PropsCode.v
theories/WalkSpec.v
theories/WalkFacts.v
theories/PropsWalk.v
theories/PropsSock.v
theories/ChainModel.v
theories/NewSpec.v
theories/NewFacts.v
theories/NewFacts2.v
theories/PropsNew.v
theories/ListSpec.v
theories/ListModel.v
theories/ListFacts.v
theories/HashSpec.v
theories/HashModel.v
theories/HashFacts.v
theories/HashFacts2.v
theories/HashFacts3.v
theories/VecSpec.v
theories/VecModel.v
theories/VecFacts.v
theories/PropsCont.v
theories/SetModel.v
theories/SetSpec.v
theories/SetApiFacts.v
theories/SetApiFacts2.v
theories/PropsSet.v
theories/StrModel.v
theories/StrSpec.v
theories/StrFacts.v
theories/EnumModel.v
theories/EnumFacts.v
theories/PropsStr.v
theories/ParseModel.v
theories/ParseSpec.v
theories/ParseFacts.v
theories/ParseFacts2.v
theories/ParseFacts3.v
theories/PropsParse.v
theories/PackModel.v
theories/PackSpec.v
theories/PackFacts.v
theories/PackFacts2.v
theories/PackFacts3.v
theories/PackFacts4.v
theories/PackFacts5.v
theories/WpackModel.v
theories/WpackFacts.v
theories/HookModel.v
theories/HookSpec.v
theories/HookFacts.v
theories/PropsPack.v
theories/MpackModel.v
theories/MpackSpec.v
theories/MpackFacts.v
theories/MpackFacts2.v
theories/MpackFacts3.v
theories/MpackFacts4.v
theories/PropsWire.v
theories/SetTextModel.v
theories/SetTextSpec.v
theories/SetTextFacts.v
theories/PropsSetText.v
theories/RateModel.v
theories/RateFacts.v
theories/RulesTextModel.v
theories/RulesTextSpec.v
theories/RulesTextFacts.v
theories/RulesTextFacts2.v
theories/RulesTextFacts3.v
theories/PropsRulesText.v
theories/PrintModel.v
theories/PrintSpec.v
theories/PrintFacts.v
theories/PrintFacts2.v
theories/PrintFacts3.v
theories/PercentModel.v
theories/PropsPrint.v
theories/LexModel.v
theories/LexSpec.v
theories/LexFacts.v
theories/LexFacts2.v
theories/LexFacts3.v
theories/LexFacts4.v
theories/LexFacts5.v
theories/PropsLex.v
theories/AsmModel.v
theories/AsmSpec.v
theories/AsmFacts.v
theories/AsmFacts2.v
theories/AsmFacts3.v
theories/AsmFacts4.v
theories/AsmFacts5.v
theories/AsmFacts6.v
theories/AsmFacts7.v
theories/PropsAsm.v
theories/KernModel.v
theories/LockModel.v
theories/CtlModel.v
theories/SysSpec.v
theories/SysFacts.v
theories/RelyFacts.v
theories/LockFacts.v
theories/LockFacts2.v
theories/NeutFacts.v
theories/NeutFacts2.v
theories/ApiFacts.v
theories/SeqFacts.v
theories/ConcFacts.v
theories/StageFacts.v
theories/PropsConc.v
theories/EvoFacts.v
theories/CtlSpec.v
theories/HandleFacts.v
theories/PinFacts.v
theories/AttachFacts.v
theories/LockSeqFacts.v
theories/LoadFacts.v
theories/RestoreFacts.v
theories/WithFacts.v
theories/IsolFacts.v
theories/UnloadFacts.v
theories/AttachOpFacts.v
theories/SetOpFacts.v
theories/HistSpec.v
theories/HistFacts.v
theories/RulesetFacts.v
theories/RulesetSetFacts.v
theories/CtlFacts.v
theories/CountFacts.v
theories/UpdSpec.v
theories/UpdFacts.v
theories/UpdOpFacts.v
theories/UpdSetFacts.v
theories/HistInv.v
theories/UpdSum.v
theories/RulesetSum.v
theories/PropsCtl.v
theories/PropsCtl2.v
theories/PropsUpd.v
theories/PropsRules.v
theories/CliModel.v
theories/CliSpec.v
theories/CliFacts.v
theories/CliFacts2.v
theories/PropsCli.v
