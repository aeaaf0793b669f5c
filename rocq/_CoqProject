-Q theories Verif
theories/PyBase.v
theories/PyFloat.v
theories/Enums.v
theories/Regex.v
theories/SyntaxTable.v
theories/ErrorTable.v
theories/Syntax.v
theories/Tokenizer.v
theories/Utils.v
theories/Ers.v
theories/Parser.v
theories/Xml.v
theories/UnitTests.v
theories/SpecTokenizer.v
theories/TokenizerProofs.v
theories/PropsTokenizer.v
theories/SpecRegex.v
theories/RegexProofs.v
theories/SyntaxProofs.v
theories/PropsSyntax.v
theories/FloatProofs.v
theories/SpecNum.v
theories/FloatRN.v
theories/NumTables.v
theories/NumProofs.v
theories/GeoTables.v
theories/ParserPrims.v
theories/PerfEq.v
theories/PointEq.v
theories/NumFacts.v
theories/PropsNum.v
theories/SpecSound.v
theories/SoundProofs.v
theories/SoundFacts.v
theories/PropsSound.v
theories/Trace.v
theories/ParseTrace.v
theories/SpecParser.v
theories/ParserInv.v
theories/ParserFacts.v
theories/PropsParser.v
theories/SpecGrammar.v
theories/GrammarSem.v
theories/ErrMono.v
theories/Grammar.v
theories/Accept.v
theories/Unambiguous.v
theories/PropsGrammar.v
theories/SpecAccept.v
theories/Describe.v
theories/AcceptFacts.v
theories/PropsAccept.v
theories/SpecXml.v
theories/XmlFacts.v
theories/RecMono.v
theories/ErsFacts.v
theories/PropsErs.v
theories/SpecText.v
theories/TextProofs.v
theories/PropsText.v
theories/SpecLegs.v
theories/LegFacts.v
theories/PropsLegs.v
theories/SpecLayout.v
theories/Layout.v
theories/PropsLayout.v
theories/SpecDiagnosis.v
theories/Diagnosis.v
theories/DiagFacts.v
theories/PropsDiagnosis.v
theories/SpecViable.v
theories/Viable.v
theories/PropsViable.v
theories/SpecReader.v
theories/Reader.v
theories/ReaderFacts.v
theories/PropsReader.v
theories/SpecDesignators.v
theories/DesignatorFacts.v
theories/PropsDesignators.v
theories/SpecRecovery.v
theories/ReaderOrder.v
theories/RecoveryFacts.v
theories/PropsRecovery.v
theories/Print.v
theories/SpecPrint.v
theories/PrintFacts.v
theories/PrintRuns.v
theories/PrintLines.v
theories/PrintReport.v
theories/PropsPrint.v
theories/SpecSettled.v
theories/SettledFacts.v
theories/PropsSettled.v
theories/SizeFacts.v
theories/PropsSize.v
theories/SpecComplete.v
theories/CompleteFacts.v
theories/PropsComplete.v
theories/SpecXmlUnique.v
theories/XmlUnique.v
theories/PropsXmlUnique.v
theories/Descriptions.v
theories/SpecDescriptions.v
theories/DescriptionFacts.v
theories/PropsDescriptions.v
theories/UnitTests2.v
theories/SpecUse.v
theories/UseFacts.v
theories/PropsUse.v
theories/SpecRemoval.v
theories/Removal.v
theories/PropsRemoval.v
theories/SpecBeginning.v
theories/Beginning.v
theories/PropsBeginning.v
theories/XmlReads.v
theories/XmlForged.v
theories/PropsXmlReads.v
theories/SpecSplit.v
theories/Split.v
theories/InForce.v
theories/Join.v
theories/PropsSplit.v
theories/SpecRefile.v
theories/RefileWords.v
theories/RefileClimb.v
theories/Refile.v
theories/PropsRefile.v
theories/SpecRename.v
theories/Rename.v
theories/PropsRename.v
theories/SpecUnknown.v
theories/Unknown.v
theories/PropsUnknown.v
theories/SpecFlow.v
theories/Flow.v
theories/PropsFlow.v
theories/SpecLibrary.v
theories/Library.v
theories/PropsLibrary.v
theories/SpecWriting.v
theories/Writing.v
theories/PropsWriting.v
theories/SpecConnector.v
theories/Connector.v
theories/PropsConnector.v
theories/SpecStay.v
theories/Stay.v
theories/PropsStay.v
theories/SpecUnits.v
theories/Units.v
theories/PropsUnits.v
theories/SpecSwap.v
theories/Swap.v
theories/PropsSwap.v
theories/SpecSummary.v
theories/Summary.v
theories/PropsSummary.v
theories/SpecClimb.v
theories/Climb.v
theories/PropsClimb.v
theories/SpecAppend.v
theories/Append.v
theories/PropsAppend.v
theories/Setters.v
theories/SpecSetters.v
theories/SettersFacts.v
theories/IntText.v
theories/PropsSetters.v
theories/SpecProcedure.v
theories/Procedure.v
theories/PropsProcedure.v
theories/SpecLimit.v
theories/Limit.v
theories/PropsLimit.v
theories/SpecPlaces.v
theories/Places.v
theories/PropsPlaces.v
theories/SpecOrder.v
theories/Order.v
theories/PropsOrder.v
theories/SpecReuse.v
theories/Reuse.v
theories/ReuseFacts.v
theories/PropsReuse.v
theories/SpecBearings.v
theories/Bearings.v
theories/PropsBearings.v
theories/SpecOnce.v
theories/Once.v
theories/PropsOnce.v
theories/SpecMessages.v
theories/Messages.v
theories/PropsMessages.v
theories/SpecWords.v
theories/Words.v
theories/PropsWords.v
theories/SpecCapitals.v
theories/Capitals.v
theories/PropsCapitals.v
theories/SpecMirror.v
theories/Mirror.v
theories/PropsMirror.v
theories/SpecSeparators.v
theories/Separators.v
theories/PropsSeparators.v
theories/SpecSections.v
theories/Sections.v
theories/PropsSections.v
theories/SpecLocal.v
theories/Local.v
theories/PropsLocal.v
theories/SpecBack.v
theories/Back.v
theories/PropsBack.v
theories/SpecWaypoint.v
theories/Waypoint.v
theories/PropsWaypoint.v
theories/SpecInstead.v
theories/Instead.v
theories/PropsInstead.v
theories/SpecChange.v
theories/Change.v
theories/PropsChange.v
theories/PropsFirst.v
theories/SpecCross.v
theories/Cross.v
theories/PropsCross.v
theories/SpecAdvice.v
theories/Advice.v
theories/AdviceRule.v
theories/PropsAdvice.v
theories/SpecTold.v
theories/Told.v
theories/PropsTold.v
theories/SpecLoneC.v
theories/LoneC.v
theories/PropsLoneC.v
