-Q theories Verif
theories/Base.v
theories/Utf8.v
theories/F64.v
theories/Operands.v
theories/Ast.v
theories/Nom.v
theories/CldrParser.v
theories/LangId.v
theories/Tokens.v
theories/GenPr.v
theories/GenRs.v
theories/Json.v
theories/MakeRules.v
theories/RustExpr.v
theories/Spec.v
theories/PluralRules.v
theories/TextRules.v
theories/TextCardinals37.v
theories/TextOrdinals37.v
theories/TextFix33.v
theories/TextCardinals33.v
theories/TextOrdinals33.v
theories/TextWithin.v
theories/TextWithinRs.v
theories/Tables.v
theories/LangIdFacts.v
theories/LangOrder.v
theories/SearchFacts.v
theories/SpecR.v
theories/Cldr.v
theories/F64Facts.v
theories/DigitFacts.v
theories/OperandsFacts.v
theories/OperandsProps.v
theories/Shortest.v
theories/FloatProps.v
theories/FloatAgree.v
theories/InputSpec.v
theories/ApiProps.v
theories/GenFacts.v
theories/GenMeaning.v
theories/Represents.v
theories/Conformance.v
theories/WithinProps.v
theories/Remember.v
theories/FaultSpec.v
theories/FaultProps.v
theories/Properties1.v
theories/Properties2.v
theories/ConformanceProps.v
theories/FloatConf.v
theories/Exclusive.v
theories/Properties3.v
theories/Properties4.v
theories/Grammar.v
theories/ParserFacts.v
theories/ParserComplete.v
theories/ParserProps.v
theories/ParserExact.v
theories/PrinterFacts.v
theories/Properties5.v
theories/LexFacts.v
theories/JsonSpec.v
theories/JsonGram.v
theories/JsonDe.v
theories/FileSpec.v
theories/MakeFacts.v
theories/MakeRead.v
theories/MakeTable.v
theories/MakeBody.v
theories/MakeProps.v
theories/JsonFacts.v
theories/MakeMore.v
theories/OtherText.v
theories/Shipped.v
theories/Properties6.v
theories/Fixtures.v
theories/Main.v
theories/MainProps.v
theories/Properties7.v
theories/RepoTests.v
theories/LangSpec.v
theories/LangGram.v
theories/LocaleTexts.v
theories/Properties8.v
theories/OperandsEq.v
theories/ParserErrors.v
theories/SampleSpec.v
theories/SampleProps.v
theories/Properties9.v
theories/WrongSpec.v
theories/WrongProps.v
theories/PtrWidth.v
theories/WrongFloat.v
theories/Properties10.v
theories/Properties11.v
theories/BehaviourSpec.v
theories/CycleProps.v
theories/SpellingProps.v
theories/ClassProps.v
theories/TextSpec.v
theories/TextProps.v
theories/Properties12.v
theories/ExpSpec.v
theories/ExpProps.v
theories/LengthSpec.v
theories/LengthProps.v
theories/LengthFloat.v
theories/FloatAny.v
theories/F32Any.v
theories/Properties13.v
theories/Properties14.v
theories/CodeSpec.v
theories/CodeProps.v
theories/CodeMore.v
theories/Properties15.v
theories/LookSpec.v
theories/CodeShipped.v
theories/Properties16.v
theories/TargetSpec.v
theories/Target.v
theories/HostWidth.v
theories/Properties17.v
theories/ExpLocale.v
theories/Properties18.v
theories/Locality.v
theories/Pipeline.v
theories/Properties19.v
theories/Faithful.v
theories/Frame.v
theories/SplitFloats.v
theories/Properties20.v
theories/Order.v
theories/IntExact.v
theories/Properties21.v
theories/Update.v
theories/Properties22.v
theories/Truncate.v
theories/WholeFiles.v
theories/Compose.v
theories/Properties23.v
theories/F32Same.v
theories/Properties24.v
theories/SameSpec.v
theories/SameCode.v
theories/SameFile.v
theories/SameAny.v
theories/Properties25.v
theories/JsonSer.v
theories/JsonBack.v
theories/Properties26.v
theories/Properties27.v
theories/Properties28.v
theories/Properties29.v
theories/ListSpec.v
theories/ListProps.v
theories/Properties30.v
theories/DecListSpec.v
theories/DecListProps.v
theories/Properties31.v
theories/RepeatSpec.v
theories/RepeatProps.v
theories/Properties32.v
theories/ViewSpec.v
theories/ViewProps.v
theories/Properties33.v
theories/Debug.v
theories/DebugProps.v
theories/Properties34.v
theories/PartSpec.v
theories/PartProps.v
theories/Properties35.v
theories/LongSpec.v
theories/LongProps.v
theories/Properties36.v
theories/IntTextSpec.v
theories/IntTextProps.v
theories/Properties37.v
theories/WithinFaithful.v
theories/Properties38.v
theories/RightRules.v
theories/Properties39.v
theories/IntegerClasses.v
theories/Properties40.v
theories/CldrClasses.v
theories/Properties41.v
theories/SameBack.v
theories/Properties42.v
theories/SameIff.v
theories/Properties43.v
theories/WrongCount.v
theories/Properties44.v
theories/Confused.v
theories/Properties45.v
theories/LastSeen.v
theories/Properties46.v
theories/FracConf.v
theories/Properties47.v
theories/CutShort.v
theories/Properties48.v
theories/WrongRuns.v
theories/Properties49.v
