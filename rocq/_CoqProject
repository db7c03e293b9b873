-Q theories Verif
theories/Base.v
theories/NumText.v
theories/AddrModel.v
theories/AddrSpec.v
theories/AddrProofs.v
theories/AddrProps.v
theories/ExprModel.v
theories/ExprSpec.v
theories/ExprParseProofs.v
theories/ExprLexProofs.v
theories/ExprMore.v
theories/ExprProps.v
theories/OMap.v
theories/SymModel.v
theories/SymSpec.v
theories/SymProofs.v
theories/SymDisplay.v
theories/SymProps.v
theories/TypesModel.v
theories/TypesSpec.v
theories/TypesProofs.v
theories/TypesProps.v
theories/ValueModel.v
theories/ValueProofs.v
theories/ValueProps.v
theories/DataModel.v
theories/DataSpec.v
theories/DataProofs.v
theories/DataProofs2.v
theories/MemExample.v
theories/DataProps.v
theories/SynthModel.v
theories/SynthProps.v
theories/AccessModel.v
theories/AccessProps.v
theories/Utf8.v
theories/TextProps.v
theories/CreateModel.v
theories/CreateProps.v
theories/LinesModel.v
theories/LinesProps.v
theories/DieModel.v
theories/DieSpec.v
theories/DieProofs.v
theories/DieProps.v
theories/ModuleModel.v
theories/ModuleSpec.v
theories/ModuleProofs.v
theories/ModuleProps.v
theories/ParserModel.v
theories/ParserSpec.v
theories/ParserProofs.v
theories/ParserProps.v
theories/ResolveModel.v
theories/ResolveSpec.v
theories/ResolveProofs.v
theories/ResolveProofs2.v
theories/ResolveProps.v
theories/ResolveExample.v
theories/PathModel.v
theories/PathProps.v
theories/LocModel.v
theories/LocProps.v
theories/FnModel.v
theories/FnSpec.v
theories/FnProofs.v
theories/FnProps.v
theories/FnExample.v
theories/DiscoverModel.v
theories/DiscoverSpec.v
theories/DiscoverProofs.v
theories/DiscoverProps.v
theories/DiscoverFns.v
theories/DiscoverExample.v
theories/ProcModel.v
theories/ProcSpec.v
theories/ProcProofs.v
theories/IoDataModel.v
theories/IoDataProofs.v
theories/EvalModel.v
theories/EvalSpec.v
theories/EvalProofs.v
theories/EvalDenote.v
theories/EvalTerm.v
theories/EvalProps.v
theories/EvalCalls.v
theories/FormatSpec.v
theories/FormatProps.v
theories/EvalExample.v
theories/ServerModel.v
theories/ServerSpec.v
theories/ServerProofs.v
theories/ServerCausal.v
theories/ServerStrict.v
theories/ServerProps.v
theories/ServerExample.v
theories/TypeTextModel.v
theories/TypeTextProofs.v
theories/TypeTextSpec.v
theories/TypeTextParse.v
theories/TypeTextLex.v
theories/TypeTextSound.v
theories/TypeNameSpec.v
theories/TypeNameProofs.v
theories/TypeNameProps.v
theories/EvalCreate.v
theories/LookupModel.v
theories/LookupSpec.v
theories/LookupProps.v
theories/LookupExample.v
theories/SourceModel.v
theories/SourceProps.v
theories/SourceExample.v
theories/JsonModel.v
theories/JsonProofs.v
theories/JsonProps.v
theories/WireModel.v
theories/WireProps.v
theories/WireRead.v
theories/ClientModel.v
theories/ClientSpec.v
theories/ClientProps.v
theories/ClientEvents.v
theories/SessionModel.v
theories/SessionSpec.v
theories/SessionProofs.v
theories/RdProps.v
theories/TypedProps.v
theories/SessionProps.v
theories/SessionExample.v
theories/LoadModel.v
theories/LoadProps.v
theories/BinaryModel.v
theories/BinarySpec.v
theories/BinaryProofs.v
theories/BinaryProps.v
theories/BinaryVars.v
theories/BinarySession.v
theories/BinaryExample.v
theories/BinaryTypes.v
theories/BinaryLines.v
theories/BinaryDiscover.v
theories/BinaryExample2.v
theories/ModulePlaces.v
theories/BinaryMethods.v
theories/BinaryExample3.v
theories/PlainSpec.v
theories/PlainProofs.v
theories/BinaryEval.v
theories/BinaryExample4.v
theories/DiscoverReport.v
theories/BinaryReport.v
theories/BinaryExample5.v
theories/BinarySynth.v
theories/BinaryExample6.v
theories/BinaryCall.v
theories/BinaryExample7.v
theories/ExprText.v
theories/BinaryExample8.v
theories/ServeModel.v
theories/ServeProps.v
theories/ServeStop.v
theories/ServeExample.v
theories/InstallModel.v
theories/InstallProps.v
theories/InstallExample.v
theories/BinaryCommands.v
theories/BinaryExample9.v
theories/TypeGrammar.v
theories/TypeGrammarProofs.v
theories/TypeGrammarProps.v
theories/TypeRedisplay.v
theories/AutoModel.v
theories/AutoProps.v
theories/AutoLive.v
theories/BinaryValueMethods.v
theories/BinaryExample10.v
theories/AutoEnd.v
theories/ModulePanic.v
theories/BinaryAstray.v
theories/BinaryExample11.v
theories/TypedWords.v
theories/BinaryCallText.v
theories/BinaryExample12.v
theories/BinaryNested.v
theories/BinaryExample13.v
theories/CacheModel.v
theories/CacheSpec.v
theories/CacheProofs.v
theories/CacheProps.v
theories/CacheExample.v
theories/OutModel.v
theories/OutProps.v
theories/CliModel.v
theories/CliProps.v
theories/FindProps.v
theories/StackModel.v
theories/StackProps.v
theories/TypeCostModel.v
theories/TypeCostProps.v
