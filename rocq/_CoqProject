-Q theories Verif
theories/Bytes.v
theories/CodePoint.v
theories/TabGrapheme.v
theories/TabLine.v
theories/TabWhitespace.v
theories/TabZero.v
theories/TabDouble.v
theories/Utf8.v
theories/Token.v
theories/Adapter.v
theories/Result.v
theories/Tree.v
theories/Levenshtein.v
theories/PreParse.v
theories/Parse.v
theories/Root.v
theories/Build.v
theories/Validator.v
theories/SpecAdapter.v
theories/AdapterProofs.v
theories/TokenProofs.v
theories/PropsToken.v
theories/SpecEdit.v
theories/LevProofs.v
theories/TreeProofs.v
theories/SpecSuggest.v
theories/SuggestProofs.v
theories/PropsSuggest.v
theories/SpecUtf8.v
theories/CodePointProofs.v
theories/Utf8Proofs.v
theories/SpecLines.v
theories/LineProofs.v
theories/PropsUtf8.v
theories/SpecPolicy.v
theories/OrderProofs.v
theories/PermProofs.v
theories/SpecTokens.v
theories/SpecTake.v
theories/SpecFault.v
theories/SpecMode.v
theories/NodeProofs.v
theories/SpecDeliver.v
theories/SpecRoot.v
theories/SpecReading.v
theories/SpecOutcome.v
theories/TakeProofs.v
theories/ModeProofs.v
theories/FaultProofs.v
theories/SelectProofs.v
theories/ParseProofs.v
theories/MeaningProofs.v
theories/RootProofs.v
theories/ReadProofs.v
theories/OutcomeProofs.v
theories/SpecClaims.v
theories/ExactProofs.v
theories/BlameProofs.v
theories/ClaimProofs.v
theories/TotalProofs.v
theories/SpecSafe.v
theories/SafeProofs.v
theories/RunProofs.v
theories/Demo.v
theories/PropsRun.v
theories/Oddities.v
theories/NodeClaims.v
theories/LabelProofs.v
theories/SpecGroup.v
theories/GroupProofs.v
theories/PropsNode.v
theories/PropsTree.v
theories/ParseTarget.v
theories/SpecTarget.v
theories/TargetProofs.v
theories/Digits.v
theories/SpecNumeral.v
theories/DigitProofs.v
theories/Message.v
theories/SpecMessage.v
theories/MessageProofs.v
theories/Caller.v
theories/GlobalParser.v
theories/MultiLang.v
theories/StringPolicy.v
theories/SpecNames.v
theories/TextProofs.v
theories/PropsText.v
theories/Help.v
theories/SpecHelp.v
theories/HelpProofs.v
theories/PageProofs.v
theories/SpecLabel.v
theories/LabelTextProofs.v
theories/PropsHelp.v
theories/PropsFault.v
theories/SpecBreaks.v
theories/BreakProofs.v
theories/LayoutProofs.v
theories/ProseProofs.v
theories/PropsBreaks.v
theories/SpecTold.v
theories/ToldProofs.v
theories/PropsTold.v
theories/SpecRules.v
theories/RulesProofs.v
theories/PropsRules.v
theories/SpecNode.v
theories/VocabProofs.v
theories/PropsVocab.v
theories/SpecFactory.v
theories/FactoryProofs.v
theories/PropsFactory.v
theories/HelpMore.v
theories/SpecColour.v
theories/ColourProofs.v
theories/PropsColour.v
theories/StringView.v
theories/SpecView.v
theories/ViewProofs.v
theories/PropsView.v
theories/UnsafeAny.v
theories/SpecAny.v
theories/AnyProofs.v
theories/PropsAny.v
theories/SpecWording.v
theories/WordingProofs.v
theories/PropsWording.v
theories/HelpCustom.v
theories/SpecPage.v
theories/CustomProofs.v
theories/PropsPage.v
theories/Lists.v
theories/SpecList.v
theories/ListProofs.v
theories/PropsList.v
theories/CtString.v
theories/SpecCt.v
theories/CtProofs.v
theories/PropsCt.v
theories/TransGen.v
theories/SpecTransGen.v
theories/TransProofs.v
theories/PropsTrans.v
theories/SpecTranslate.v
theories/TranslateProofs.v
theories/PropsTranslate.v
theories/RuleList.v
theories/SpecRuleList.v
theories/RuleListProofs.v
theories/PropsRuleList.v
theories/SpecHistory.v
theories/HistoryProofs.v
theories/PropsHistory.v
theories/TableGen.v
theories/SpecTableGen.v
theories/TableGenProofs.v
theories/PropsTableGen.v
theories/Wrapper.v
theories/SpecWrapper.v
theories/WrapperProofs.v
theories/ResultClass.v
theories/SpecResultClass.v
theories/ResultClassProofs.v
theories/PropsWrapper.v
theories/SpecPaths.v
theories/PathProofs.v
theories/PropsPaths.v
theories/Prefixes.v
theories/SpecPrefix.v
theories/PrefixProofs.v
theories/PrefixRunProofs.v
theories/PrefixMoreProofs.v
theories/PropsPrefix.v
theories/PrefixCaller.v
theories/SpecPrefixHelp.v
theories/PrefixHelpProofs.v
theories/PropsPrefixHelp.v
theories/SpecPrefixRules.v
theories/PrefixModeProofs.v
theories/PrefixRulesProofs.v
theories/PropsPrefixMode.v
theories/Examples.v
theories/SpecExamples.v
theories/ExampleProofs.v
theories/CatProofs.v
theories/AdvancedProofs.v
theories/RuntimeProofs.v
theories/PropsExamples.v
theories/ExamplesMl.v
theories/SpecMl.v
theories/MlProofs.v
theories/PropsMl.v
theories/ExampleEven.v
theories/EvenProofs.v
theories/PropsEven.v
