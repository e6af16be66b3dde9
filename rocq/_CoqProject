-Q theories Verif

theories/PyBase.v
theories/Shlex.v
theories/JsonData.v
theories/Parser.v
theories/ShippedData.v
theories/SpecShlex.v
theories/ShlexFacts.v
theories/SpecParser.v
theories/ParserFacts.v
theories/ParserProps.v
theories/ShippedFacts.v
theories/P_Parser.v
theories/Access.v
theories/IOInfo.v
theories/IOGen.v
theories/SpecLists.v
theories/ListFacts.v
theories/SpecIO.v
theories/IOFacts.v
theories/IOProps.v
theories/IOGeneral.v
theories/IOShipped.v
theories/P_IO.v
theories/IOVars.v
theories/Transformers.v
theories/ParaTypes.v
theories/ParaGen.v
theories/MapperAgg.v
theories/SpecPara.v
theories/ParaFacts.v
theories/ParaProps.v
theories/P_Para.v
theories/SpecVars.v
theories/IOVarsFacts.v
theories/IOVarsProps.v
theories/P_IOVars.v
theories/P_IOVars2.v
theories/SpecMapper.v
theories/MapperFacts.v
theories/P_Mapper.v
theories/Cli.v
theories/SpecCli.v
theories/CliFacts.v
theories/P_Cli.v
theories/ArgsToJson.v
theories/SpecArgs.v
theories/ArgsFacts.v
theories/P_Args.v
theories/Heap.v
theories/SpecHeap.v
theories/HeapFacts.v
theories/HeapSep.v
theories/HeapCopy.v
theories/HeapRefine.v
theories/HeapRefine2.v
theories/HeapRefine3.v
theories/P_Heap.v
theories/SpecSem.v
theories/SemFacts.v
theories/SemRun.v
theories/SemProps.v
theories/SemSystem.v
theories/P_Sem.v
theories/SpecSem2.v
theories/SemProps2.v
theories/P_Sem2.v
theories/SpecSem3.v
theories/SemProps3.v
theories/P_Sem3.v
theories/SpecSem4.v
theories/SemProps4.v
theories/P_Sem4.v
theories/ArgChars.v
theories/SpecArgChars.v
theories/P_ArgChars.v
theories/HeapEq.v
theories/SpecHeapEq.v
theories/HeapEqFacts.v
theories/HeapEqProps.v
theories/P_HeapEq.v
theories/Small.v
theories/SpecSmall.v
theories/P_Small.v
theories/SpecSem5.v
theories/SemProps5.v
theories/P_Sem5.v
theories/SpecSem6.v
theories/P_Sem6.v
theories/SpecSem7.v
theories/SemProps7.v
theories/P_Sem7.v
theories/SpecSem8.v
theories/SemProps8.v
theories/P_Sem8.v
theories/SpecGetopt.v
theories/GetoptFacts.v
theories/P_Getopt.v
theories/SpecEffects.v
theories/EffectFacts.v
theories/EffectLists.v
theories/P_Effects.v
theories/P_Effects2.v
theories/Text.v
theories/SpecText.v
theories/TextFacts.v
theories/ReportFacts.v
theories/ReportFacts2.v
theories/P_Text.v
theories/SpecEnd.v
theories/EndFacts.v
theories/P_End.v
theories/Registry.v
theories/SpecRegistry.v
theories/RegistryFacts.v
theories/P_Registry.v
theories/SpecDepends.v
theories/P_Depends.v
theories/SpecPipe.v
theories/PipeFacts.v
theories/P_Pipe.v
theories/SpecSem9.v
theories/SemProps9.v
theories/P_Sem9.v
theories/P_Text2.v
theories/SpecSem10.v
theories/SemProps10.v
theories/P_Sem10.v
theories/SpecSem11.v
theories/SemProps11.v
theories/P_Sem11.v
theories/ShippedText.v
theories/Json.v
theories/SpecJson.v
theories/JsonFacts.v
theories/JsonFacts2.v
theories/P_Json.v
theories/Conformance.v
theories/OldText.v
theories/SpecOld.v
theories/OldFacts.v
theories/P_Old.v
theories/SpecText2.v
theories/P_Text3.v
theories/SpecOldIO.v
theories/OldIOFacts.v
theories/P_OldIO.v
theories/Argparse.v
theories/SpecArgparse.v
theories/ArgparseFacts.v
theories/P_Argparse.v
theories/HeapText.v
theories/SpecHeapText.v
theories/HeapTextFacts.v
theories/HeapTextFacts2.v
theories/P_HeapText.v
theories/SpecShellWord.v
theories/P_ArgChars2.v
theories/SpecSem12.v
theories/P_Sem12.v
theories/P_End2.v
theories/GenHelpers.v
theories/SpecHelpers.v
theories/P_Helpers.v
theories/SpecSem13.v
theories/P_Sem13.v
theories/IOHelpers.v
theories/SpecIOHelpers.v
theories/P_IOHelpers.v
theories/P_Sem14.v
theories/Kinds.v
theories/P_Kinds.v
theories/SpecNames.v
theories/NamesFacts.v
theories/P_Names.v
theories/SpecCustom.v
theories/CustomFacts.v
theories/P_Custom.v
theories/SpecStateless.v
theories/P_Stateless.v
theories/SpecSpelling.v
theories/P_Spelling.v
theories/SpecTable.v
theories/P_Table.v
theories/SpecSize.v
theories/P_Size.v
theories/SpecJoin.v
theories/P_Join.v
theories/NamesBlind.v
theories/SpecNames2.v
theories/P_Names2.v
theories/HeapInfer.v
theories/SpecInfer.v
theories/InferFacts.v
theories/P_Infer.v
theories/HeapApply.v
theories/SpecApply.v
theories/ApplyFacts.v
theories/P_Apply.v
theories/HeapIOHelpers.v
theories/SpecShare.v
theories/ShareFacts.v
theories/P_Share.v
theories/HeapTypers.v
theories/SpecTypers.v
theories/TypersFacts.v
theories/P_Typers.v
theories/HeapGenerators.v
theories/GeneratorsFacts.v
theories/P_Generators.v
theories/HeapPara.v
theories/SpecHeapPara.v
theories/HeapParaFacts.v
theories/P_HeapPara.v
theories/HeapUniq.v
theories/P_HeapUniq.v
theories/HeapGrep.v
theories/P_HeapGrep.v
theories/P_HeapPara2.v
