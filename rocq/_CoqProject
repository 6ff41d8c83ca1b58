-Q theories Verif
theories/GoBase.v
theories/GoBaseProofs.v
theories/DagModel.v
theories/DagSpec.v
theories/DagProofs.v
theories/DepProofs.v
theories/DagExamples.v
theories/DagProps.v
theories/SchedModel.v
theories/SchedSpec.v
theories/SchedProofs.v
theories/SchedExamples.v
theories/SchedProps.v
theories/RunnerModel.v
theories/RunnerSpec.v
theories/RunnerInvA.v
theories/RunnerInvT.v
theories/RunnerInvB.v
theories/RunnerProofs.v
theories/RunnerLive.v
theories/RunnerExamples.v
theories/RunnerProps.v
theories/HangSpec.v
theories/HangProofs.v
theories/HangProps.v
theories/GoStrings.v
theories/GoStringsProofs.v
theories/ShModel.v
theories/ShSpec.v
theories/ShProofs.v
theories/GoUtf8.v
theories/GoUtf8Proofs.v
theories/ShProps.v
theories/ShExecModel.v
theories/ShExecSpec.v
theories/ShExecProofs.v
theories/ShExecProps.v
theories/ShLookModel.v
theories/ShLookSpec.v
theories/ShLookProps.v
theories/DemoModel.v
theories/DemoSpec.v
theories/DemoProofs.v
theories/DemoProps.v
theories/JsonModel.v
theories/ParserModel.v
theories/ParserSpec.v
theories/ParserProofs.v
theories/JsonParserModel.v
theories/JsonSpec.v
theories/JsonProofs.v
theories/JsonParserProofs.v
theories/ParserProps.v
theories/JsonProps.v
theories/DdlModel.v
theories/DdlSpec.v
theories/DdlProofs.v
theories/DdlProps.v
theories/SqlLex.v
theories/SqlLexProofs.v
theories/SqlProps.v
theories/MachineModel.v
theories/MachineTables.v
theories/MachineExits.v
theories/ParseModel.v
theories/Re.v
theories/ParseGrammar.v
theories/ParseSpec.v
theories/ParseText.v
theories/ParseProofs.v
theories/ParseEquiv.v
theories/ParseCheck.v
theories/ParseCheckEquiv.v
theories/ParseFacts.v
theories/ParseError.v
theories/ParseProps.v
theories/ParseCharset.v
theories/PgModel.v
theories/PgSpec.v
theories/PgProofs.v
theories/PgProps.v
theories/CliModel.v
theories/CliSpec.v
theories/CliProofs.v
theories/CliProps.v
theories/TasksetModel.v
theories/TasksetSpec.v
theories/TasksetProofs.v
theories/TasksetProps.v
theories/EffectsModel.v
theories/EffectsSpec.v
theories/EffectsProofs.v
theories/EffectsExamples.v
theories/EffectsProps.v
theories/ShRunSpec.v
theories/ShRunProps.v
theories/FineModel.v
theories/FineProofs.v
theories/FineProps.v
theories/QueryModel.v
theories/QueryProofs.v
theories/SysModel.v
theories/SysSpec.v
theories/SysProofs.v
theories/SysListing.v
theories/SysInspect.v
theories/SysServer.v
theories/SysExamples.v
theories/SysProps.v
theories/SysTotalProps.v
theories/DefModel.v
theories/DefSpec.v
theories/DefProofs.v
theories/DefTrigger.v
theories/DefCheck.v
theories/DefIndex.v
theories/DefDbSpec.v
theories/DefDb.v
theories/DefProps.v
theories/HclModel.v
theories/HclSpec.v
theories/HclProofs.v
theories/HclRead.v
theories/HclWrite.v
theories/HclText.v
theories/HclTextProofs.v
theories/HclExamples.v
theories/HclProps.v
theories/TasksetFileModel.v
theories/TasksetFileSpec.v
theories/TasksetFileProofs.v
theories/TasksetFileProps.v
theories/ArgsModel.v
theories/ArgsSpec.v
theories/ArgsProofs.v
theories/ArgsValuesProofs.v
theories/ArgsRequestProofs.v
theories/ArgsPortProofs.v
theories/ArgsUsageProofs.v
theories/ArgsProps.v
theories/ArgsFileModel.v
theories/ArgsFileSpec.v
theories/ArgsFileProps.v
theories/ArgsFileLineProps.v
theories/ArgsFileBadProps.v
theories/ProgModel.v
theories/ProgSpec.v
theories/ProgLineProofs.v
theories/ProgProofs.v
theories/ProgProps.v
theories/ProgRunModel.v
theories/ProgRunProps.v
theories/ProgShProps.v
theories/ProgOneProps.v
theories/ProgOutProps.v
theories/PathModel.v
theories/PathSpec.v
theories/PathProofs.v
theories/PathProps.v
theories/ProgPathProps.v
theories/ShCleanModel.v
theories/ShCleanProps.v
theories/ShCleanRunProps.v
theories/JsonLimitProps.v
