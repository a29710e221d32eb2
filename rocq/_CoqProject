-Q theories Verif
theories/Base.v
theories/F64.v
theories/Value.v
theories/Protocols.v
theories/BaseProofs.v
theories/F64Proofs.v
theories/Monad.v
theories/Chains.v
theories/OpsProofs.v
theories/OpsProps.v
theories/Text.v
theories/TextProps.v
theories/EscapeProps.v
theories/Scope.v
theories/ScopeProps.v
theories/Registry.v
theories/RegistryProps.v
theories/CloseRace.v
theories/CloseRaceProps.v
theories/Range.v
theories/RangeProps.v
theories/Pipeline.v
theories/PipelineProofs.v
theories/PipelineProps.v
theories/Foreach.v
theories/ForeachProps.v
theories/Flatten.v
theories/FlattenProps.v
theories/ArgParser.v
theories/ArgParserProps.v
theories/FreeArgProps.v
theories/Builtins.v
theories/Syntax.v
theories/Eval.v
theories/GoSort.v
theories/EvalGolden.v
theories/Runs.v
theories/Para.v
theories/Evolve.v
theories/Demo.v
theories/PureSpec.v
theories/PureEval.v
theories/PureSelect.v
theories/SelectProps.v
theories/GroupSpec.v
theories/GroupEval.v
theories/GroupProps.v
theories/Effects.v
theories/LazyProps.v
theories/LetSpec.v
theories/LetProps.v
theories/Recursion.v
theories/Halting.v
theories/HaltEval.v
theories/HaltProps.v
theories/Response.v
theories/ResponseProps.v
theories/Regex.v
theories/RegexProps.v
theories/Throttle.v
theories/ThrottleProps.v
theories/Lexer.v
theories/Numeral.v
theories/Grammar.v
theories/Parser.v
theories/Format.v
theories/ParseGolden.v
theories/Spelling.v
theories/LexProofs.v
theories/LexCover.v
theories/FloatRound.v
theories/NumeralProofs.v
theories/FloatText.v
theories/NumberProps.v
theories/FloatArith.v
theories/FloatProps.v
theories/ParseProofs.v
theories/FormatProofs.v
theories/FormatRuns.v
theories/TrimProofs.v
theories/RoundTrip.v
theories/ParserSound.v
theories/ParserTotal.v
theories/FormatProps.v
theories/FormatTwice.v
theories/Outline.v
theories/OutlineProps.v
theories/SourceCalls.v
theories/Marshal.v
theories/MarshalProps.v
theories/Reformat.v
theories/ReformatGolden.v
theories/ReformatProofs.v
theories/ReformatRuns.v
theories/ReformatTwice.v
theories/ReformatProps.v
theories/Elab.v
theories/RunGolden.v
theories/ElabProps.v
theories/WrapProps.v
theories/JoinProps.v
theories/FlattenRows.v
theories/BuiltinProps.v
theories/HostObject.v
theories/HostObjectProps.v
theories/PromotedProps.v
theories/Comments.v
theories/CommentFormat.v
theories/CommentGolden.v
theories/CommentProofs.v
theories/CommentParse.v
theories/CommentKeep.v
theories/CommentProps.v
theories/Introspect.v
theories/IntrospectProofs.v
theories/IntrospectProps.v
theories/Catalogue.v
theories/CatalogueProps.v
theories/Explain.v
theories/ExplainProps.v
theories/SharedCalls.v
theories/SharedCallsProps.v
theories/RowDictProps.v
theories/LazyShared.v
theories/LazySharedProps.v
theories/CallCheck.v
theories/CallCheckProps.v
theories/Locks.v
theories/LocksProps.v
theories/LexRules.v
theories/LexRulesProps.v
theories/CommentTotal.v
theories/GrammarText.v
theories/GrammarTextProofs.v
theories/GrammarTextProps.v
theories/LambdaText.v
theories/LambdaTextProps.v
theories/Settings.v
theories/SettingsProps.v
theories/GrammarTree.v
theories/GrammarTreeProofs.v
theories/GrammarTreeProps.v
theories/DataRaces.v
theories/DataRacesProofs.v
theories/DataRacesProps.v
theories/QueryValue.v
theories/QueryValueProps.v
theories/NoPanic.v
theories/NoPanicEval.v
theories/NoPanicProps.v
theories/Laws.v
theories/LawsProps.v
theories/Laws2.v
theories/Laws2Props.v
theories/GroupLaws.v
theories/GroupLawsProps.v
theories/Lookahead.v
theories/LookaheadProps.v
theories/SchedProps.v
theories/EndProps.v
theories/GroupSplitProps.v
theories/ScriptProps.v
theories/ScriptLawsProps.v
theories/ScriptGroupProps.v
theories/ScriptGroupLawsProps.v
theories/ScriptHavingProps.v
