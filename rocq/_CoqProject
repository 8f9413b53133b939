-Q theories Verif

theories/Outcome.v
theories/SpecUtf8.v
theories/SpecChar.v
theories/BitsLib.v
theories/CharModel.v
theories/CharUtil.v
theories/CharProofs.v
theories/CharUtilProofs.v
theories/CharProps.v
theories/SpecStr.v
theories/StrModel.v
theories/StrProofs.v
theories/StrProps.v
theories/Kmp.v
theories/KmpProofs.v
theories/KmpCost.v
theories/SpecStrUtil.v
theories/StrUtil.v
theories/StrUtilProofs.v
theories/HexProofs.v
theories/StrUtilProps.v
theories/SpecFormat.v
theories/Format.v
theories/FormatProofs.v
theories/FormatProps.v
theories/Dec.v
theories/SpecInt.v
theories/DecProofs.v
theories/BigInt.v
theories/BigIntProofs.v
theories/BigIntStates.v
theories/BigIntFacts.v
theories/BigIntProps.v
theories/SpecFloat.v
theories/BigFloat.v
theories/BigFloatProofs.v
theories/BigFloatOps.v
theories/BigFloatStates.v
theories/BigFloatFacts.v
theories/BigFloatClaims.v
theories/BigFloatProps.v
theories/Comparators.v
theories/ComparatorsProps.v
theories/Application.v
theories/ApplicationProps.v
theories/StdMap.v
theories/StdMapProofs.v
theories/MapUtilProps.v
theories/SpecTest.v
theories/TestRegistry.v
theories/TestRegistryProofs.v
theories/TestRegistryProps.v
theories/File.v
theories/SpecFile.v
theories/FileProofs.v
theories/FileProps.v
theories/Expected.v
theories/ExpectedLife.v
theories/ExpectedProofs.v
theories/ExpectedProps.v
theories/UniquePtr.v
theories/UniquePtrProofs.v
theories/SharedPtr.v
theories/SharedPtrProofs.v
theories/PointersProps.v
theories/JsonData.v
theories/SpecJson.v
theories/JsonDataProofs.v
theories/JsonDataProps.v
theories/JsonParse.v
theories/SpecJsonText.v
theories/JsonParseSafe.v
theories/JsonParseProofs.v
theories/JsonGrammar.v
theories/JsonPrintProofs.v
theories/JsonCalm.v
theories/JsonDocProofs.v
theories/JsonProps.v
theories/CxxTypes.v
theories/Traits.v
theories/SpecTraits.v
theories/TraitsProofs.v
theories/TraitsProps.v
theories/Values.v
theories/ValuesProps.v
theories/Stream.v
theories/StreamProps.v
theories/Asserts.v
theories/AssertsProps.v
theories/RawPtr.v
theories/RawPtrProps.v
theories/JsonHeap.v
theories/SpecJsonHeap.v
theories/JsonHeapProofs.v
theories/JsonHeapSteps.v
theories/JsonHeapRuns.v
theories/JsonHeapProps.v
theories/StrExtraProps.v
theories/JsonAssignProps.v
theories/Double.v
theories/DoubleProps.v
theories/Vars.v
theories/SpecVars.v
theories/VarsProofs.v
theories/VarsProps.v
theories/TestTimes.v
theories/TestTimesProps.v
theories/Random.v
theories/Limits.v
theories/LimitsProps.v
theories/RandomProps.v
theories/RandomReal.v
theories/RandomRealProps.v
theories/EngineProps.v
theories/FileShare.v
theories/FileShareProps.v
theories/IntExpr.v
theories/IntExprProps.v
theories/JsonFileProps.v
theories/SpecFloatText.v
theories/FloatText.v
theories/FloatQ.v
theories/FloatTextProofs.v
theories/FloatRead.v
theories/SpecFloatJson.v
theories/FloatJson.v
theories/FloatSmall.v
theories/FloatDoc.v
theories/FloatJsonProps.v
theories/SpecFloatRead.v
theories/FloatNumber.v
theories/FloatNumberProps.v
theories/PtrCompare.v
theories/PtrCompareProps.v
theories/FloatExpr.v
theories/FloatExprProps.v
theories/RepoTests.v
theories/SizeOf.v
theories/SizeOfProps.v
theories/Members.v
theories/MembersProps.v
theories/Forward.v
theories/ForwardProps.v
theories/SpecFormatUb.v
theories/FormatUbProofs.v
theories/FormatUbProps.v
theories/SpecFormatText.v
theories/FormatTextProofs.v
theories/FormatTextProps.v
theories/RandomSign.v
theories/RandomSignProps.v
theories/Lookup.v
theories/SpecLookup.v
theories/LookupProofs.v
theories/LookupProps.v
theories/Headers.v
theories/SpecHeaders.v
theories/HeadersProofs.v
theories/HeadersProps.v
theories/HeaderOrder.v
theories/SpecHeaderOrder.v
theories/HeaderOrderProps.v
