-Q theories Verif
theories/Base.v
theories/Strings.v
theories/Values.v
theories/Functions.v
theories/Syntax.v
theories/Eval.v
theories/SpecEval.v
theories/EvalFacts.v
theories/EvalFacts2.v
theories/EvalFacts3.v
theories/EvalFacts4.v
theories/SpecFun.v
theories/FunFacts.v
theories/EvalState.v
theories/SpecState.v
theories/StateFacts.v
theories/StringFacts.v
theories/FuncMap.v
theories/SpecFuncMap.v
theories/FuncMapFacts.v
theories/FuncMapFacts2.v
theories/Setters.v
theories/SpecSetters.v
theories/SettersFacts.v
theories/Utils.v
theories/SpecUtils.v
theories/UtilsFacts.v
theories/Response.v
theories/SpecResponse.v
theories/ResponseFacts.v
theories/Text.v
theories/Registry.v
theories/SpecText.v
theories/TextFacts.v
theories/Readers.v
theories/SpecRead.v
theories/ReadFacts.v
theories/ReadFacts2.v
theories/ReadFacts3.v
theories/ReadFacts4.v
theories/SpecRelate.v
theories/RelateFacts.v
theories/ContextXml.v
theories/SpecContext.v
theories/ContextFacts.v
theories/EvalThreads.v
theories/SpecThreads.v
theories/ThreadFacts.v
theories/SpecAlgebra.v
theories/AlgebraFacts.v
theories/PrettyPrint.v
theories/SpecPretty.v
theories/PrettyFacts.v
theories/Service.v
theories/SpecService.v
theories/ServiceFacts.v
theories/SpecFault.v
theories/FaultFacts.v
theories/SpecQueries.v
theories/QueryFacts.v
theories/SpecAlike.v
theories/AlikeFacts.v
theories/EvalCrash.v
theories/CrashFacts.v
theories/EvalDebug.v
theories/SpecDebug.v
theories/DebugFacts.v
theories/Objects.v
theories/SpecObjects.v
theories/ObjectsFacts.v
theories/ObjectsFacts2.v
theories/ObjectsFacts3.v
theories/ObjectsFacts4.v
theories/Factory.v
theories/SpecFactory.v
theories/FactoryFacts.v
theories/FuncMapThreads.v
theories/SpecFuncMapThreads.v
theories/FuncMapThreadsFacts.v
theories/EvalObjects.v
theories/SpecEvalObjects.v
theories/EvalObjectsFacts.v
theories/EvalObjectsFacts2.v
theories/EvalObjectsFacts3.v
theories/Copy.v
theories/SpecCopy.v
theories/CopyFacts.v
theories/CopyFacts2.v
theories/CopyFacts3.v
theories/Sources.v
theories/SpecSources.v
theories/SourcesFacts.v
theories/SourcesFacts2.v
theories/PdpThreads.v
theories/SpecPdpThreads.v
theories/PdpThreadsFacts.v
theories/PdpThreadsFacts2.v
theories/PdpThreadsFacts3.v
theories/NsMap.v
theories/SpecNsMap.v
theories/NsMapFacts.v
theories/XPathSelect.v
theories/SpecXPath.v
theories/XPathFacts.v
theories/TreeChoice.v
theories/SpecTreeChoice.v
theories/TreeChoiceFacts.v
theories/FinderThreads.v
theories/SpecFinderThreads.v
theories/FinderThreadsFacts.v
theories/FinderThreadsFacts2.v
theories/Fetch.v
theories/SpecFetch.v
theories/FetchFacts.v
theories/DataTypes.v
theories/SpecDataTypes.v
theories/DataTypesFacts.v
theories/ReadObjects.v
theories/SpecReadObjects.v
theories/ReadObjectsFacts.v
theories/ReadObjectsFacts2.v
theories/ReadObjectsFacts3.v
theories/ReadObjectsFacts4.v
theories/ReadObjectsFacts5.v
theories/EvalLive.v
theories/SpecEvalLive.v
theories/EvalLiveFacts.v
theories/EvalLiveFacts2.v
theories/EvalLiveFacts3.v
theories/Custom.v
theories/SpecCustom.v
theories/CustomFacts.v
theories/CustomFacts2.v
theories/SpecBearing.v
theories/BearingFacts.v
theories/Vocab.v
theories/SpecVocab.v
theories/VocabFacts.v
theories/Members.v
theories/SpecMembers.v
theories/MembersFacts.v
theories/PdpLive.v
theories/SpecPdpLive.v
theories/PdpLiveFacts.v
theories/SpecAmplify.v
theories/AmplifyFacts.v
theories/AmplifyFacts2.v
theories/SpecStandard.v
theories/StandardFacts.v
theories/ListMethods.v
theories/SpecListMethods.v
theories/ListMethodsFacts.v
theories/SpecMonotone.v
theories/MonotoneFacts.v
theories/SpecRename.v
theories/RenameFacts.v
theories/Interrupts.v
theories/SpecInterrupts.v
theories/InterruptsFacts.v
theories/InterruptsFacts2.v
theories/InterruptsFacts3.v
theories/SpecRefusals.v
theories/RefusalsFacts.v
theories/RefusalsFacts2.v
theories/RefusalsFacts3.v
theories/RefusalsFacts4.v
theories/RefusalsFacts5.v
theories/FuncErrorsFacts.v
theories/SpecAccess.v
theories/AccessFacts.v
theories/AccessFacts2.v
theories/MapMethods.v
theories/SpecMapMethods.v
theories/MapMethodsFacts.v
theories/SpecFunctionTable.v
theories/FunctionTableFacts.v
theories/SpecTighten.v
theories/TightenFacts.v
theories/SpecRewrite.v
theories/RewriteFacts.v
theories/FunFactory.v
theories/SpecFunFactory.v
theories/FunFactoryFacts.v
theories/FunFactoryFacts2.v
theories/FunFactoryFacts3.v
theories/SpecMirror.v
theories/MirrorFacts.v
theories/SpecDefault.v
theories/DefaultFacts.v
theories/SpecSplit.v
theories/SplitFacts.v
theories/SpecBundle.v
theories/BundleFacts.v
theories/SpecFailed.v
theories/FailedFacts.v
theories/FailedFacts2.v
theories/SpecLeft.v
theories/LeftFacts.v
theories/LeftFacts2.v
theories/PiecesFacts.v
theories/SpecPieces.v
theories/PiecesFacts2.v
theories/RefusalsFacts6.v
theories/Sample.v
theories/PropertiesEval.v
theories/PropertiesAttr.v
theories/PropertiesFun.v
theories/PropertiesState.v
theories/PropertiesFuncMap.v
theories/PropertiesSetters.v
theories/PropertiesUtils.v
theories/PropertiesResponse.v
theories/PropertiesText.v
theories/PropertiesRead.v
theories/PropertiesRelate.v
theories/PropertiesContext.v
theories/PropertiesThreads.v
theories/PropertiesAlgebra.v
theories/PropertiesPretty.v
theories/PropertiesService.v
theories/PropertiesFault.v
theories/PropertiesQueries.v
theories/PropertiesAlike.v
theories/PropertiesCrash.v
theories/PropertiesDebug.v
theories/PropertiesObjects.v
theories/PropertiesFactory.v
theories/PropertiesFuncMapThreads.v
theories/PropertiesEvalObjects.v
theories/PropertiesCopy.v
theories/PropertiesSources.v
theories/PropertiesPdpThreads.v
theories/PropertiesNsMap.v
theories/PropertiesXPath.v
theories/PropertiesTreeChoice.v
theories/PropertiesFinderThreads.v
theories/PropertiesFetch.v
theories/PropertiesDataTypes.v
theories/PropertiesReadObjects.v
theories/PropertiesEvalLive.v
theories/PropertiesCustom.v
theories/PropertiesBearing.v
theories/PropertiesVocab.v
theories/PropertiesMembers.v
theories/PropertiesPdpLive.v
theories/PropertiesAmplify.v
theories/PropertiesStandard.v
theories/PropertiesListMethods.v
theories/PropertiesMonotone.v
theories/PropertiesRename.v
theories/PropertiesInterrupts.v
theories/PropertiesRefusals.v
theories/PropertiesAccess.v
theories/PropertiesMapMethods.v
theories/PropertiesFunctionTable.v
theories/PropertiesTighten.v
theories/PropertiesRewrite.v
theories/PropertiesFunFactory.v
theories/PropertiesMirror.v
theories/PropertiesDefault.v
theories/PropertiesSplit.v
theories/PropertiesBundle.v
theories/PropertiesFailed.v
theories/PropertiesLeft.v
theories/PropertiesRefusals2.v
theories/PropertiesPieces.v
theories/PropertiesOverriding.v
