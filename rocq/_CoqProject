-Q theories Verif

theories/Bytes.v
theories/BytesFacts.v
theories/TextUtils.v
theories/Escape.v
theories/SpecEscape.v
theories/EscapeFacts.v
theories/EscapeFacts2.v
theories/EscapeFacts3.v
theories/EscapeFacts4.v
theories/EscapeFacts5.v
theories/EscapeFacts6.v
theories/ThmEscape.v
theories/RenderText.v
theories/SpecText.v
theories/TextFacts.v
theories/TextFacts2.v
theories/RenderFacts.v
theories/RenderFacts2.v
theories/RenderFacts3.v
theories/RenderFacts4.v
theories/RenderFacts5.v
theories/ThmText.v
theories/Dom.v
theories/DomUtils.v
theories/SpecDom.v
theories/Collapse.v
theories/Engine.v
theories/CommonMark.v
theories/Table.v
theories/NetUrl.v
theories/Url.v
theories/State.v
theories/SpecEngine.v
theories/EngineFacts.v
theories/StateFacts.v
theories/ThmEngine.v
theories/RenderInv.v
theories/PanicFacts.v
theories/SpecText2.v
theories/TextFacts3.v
theories/SpecPipeline.v
theories/PipelineFacts.v
theories/DomFacts.v
theories/DomFacts2.v
theories/DomFacts3.v
theories/DomFacts4.v
theories/StrikeFacts.v
theories/DomFacts5.v
theories/DomFacts6.v
theories/DomFacts7.v
theories/ThmDom.v
theories/FreeFacts.v
theories/LetterFacts.v
theories/LetterFacts2.v
theories/ThmLetters.v
theories/ThmPipeline.v
theories/SpecUrl.v
theories/UrlFacts.v
theories/UrlFacts2.v
theories/ThmUrl.v
theories/SpecDomain.v
theories/DomainFacts.v
theories/DomainFacts2.v
theories/DomainFacts3.v
theories/ThmDomain.v
theories/Api.v
theories/SpecApi.v
theories/ApiFacts.v
theories/ThmApi.v
theories/Cli.v
theories/SpecCli.v
theories/CliFacts.v
theories/CliFacts2.v
theories/CliFacts3.v
theories/CliFacts4.v
theories/CliSim.v
theories/CliWitness.v
theories/ThmCli.v
theories/CliPrefix.v
theories/CliOrder.v
theories/ThmCliPrefix.v
theories/CliConvert.v
theories/SpecSelect.v
theories/SelectFacts.v
theories/SelectFacts2.v
theories/SelectFacts3.v
theories/ThmSelect.v
theories/SpecTable.v
theories/TableFacts.v
theories/TableFacts2.v
theories/TableFacts3.v
theories/TableFacts4.v
theories/TableFacts5.v
theories/TableFacts6.v
theories/ThmTable.v
theories/SpecGrid.v
theories/GridFacts.v
theories/GridFacts2.v
theories/GridFacts3.v
theories/ThmGrid.v
theories/SpecNode.v
theories/NodeFacts.v
theories/NodeFacts2.v
theories/ThmNode.v
theories/SpecOptions.v
theories/OptionFacts.v
theories/ThmOptions.v
theories/SpecFlags.v
theories/FlagFacts.v
theories/ThmFlags.v
theories/SpecPlain.v
theories/PlainFacts.v
theories/PlainFacts2.v
theories/PlainFacts3.v
theories/PlainFacts4.v
theories/PlainFacts5.v
theories/ThmPlain.v
theories/SpecTrim.v
theories/EdgeFacts.v
theories/EdgeFacts2.v
theories/EdgeFacts3.v
theories/EdgeFacts4.v
theories/EdgeFacts5.v
theories/TreeInv.v
theories/EdgeFacts6.v
theories/ThmTrim.v
theories/SpecUtf8.v
theories/Utf8Facts.v
theories/Utf8Facts2.v
theories/Utf8Facts3.v
theories/Utf8Facts4.v
theories/Utf8Facts5.v
theories/ThmUtf8.v
theories/SpecHtml.v
theories/HtmlFacts.v
theories/ThmHtml.v
theories/SpecSpace.v
theories/SpaceFacts.v
theories/SpaceFacts2.v
theories/SpecSpace2.v
theories/SpaceFacts3.v
theories/SpaceFacts4.v
theories/ThmSpace.v
theories/SpecPath.v
theories/PathFacts.v
theories/ThmPath.v
theories/DomainFacts4.v
theories/ThmDomain2.v
theories/SpecStruck.v
theories/StruckFacts.v
theories/ThmStruck.v
theories/SpecStyle.v
theories/StyleFacts.v
theories/StyleFacts2.v
theories/ThmStyle.v
theories/TestsDom.v
theories/TestsUrl.v
theories/TestsGolden.v
theories/TestsCli.v
theories/SpecBlocks.v
theories/BlockFacts0.v
theories/BlockFacts.v
theories/BlockFacts1.v
theories/BlockFacts2.v
theories/BlockFacts3.v
theories/BlockFacts4.v
theories/BlockFacts5.v
theories/BlockFacts6.v
theories/BlockFacts7.v
theories/BlockFacts8.v
theories/BlockFacts9.v
theories/ThmBlocks.v
theories/SpecInline.v
theories/InlineFacts1.v
theories/InlineFacts2.v
theories/InlineFacts3.v
theories/InlineFacts4.v
theories/InlineFacts5.v
theories/InlineFacts6.v
theories/InlineFacts7.v
theories/InlineFacts8.v
theories/InlineFacts9.v
theories/ThmInline.v
theories/CliText.v
theories/SpecCliText.v
theories/CliTextFacts1.v
theories/CliTextFacts2.v
theories/CliTextFacts3.v
theories/CliTextFacts4.v
theories/CliTextFacts5.v
theories/ThmCliText.v
theories/TestsCliText.v
theories/Locks.v
theories/SpecLocks.v
theories/LocksFacts.v
theories/ThmLocks.v
theories/SpecComments.v
theories/CommentFacts.v
theories/SpecRedundant.v
theories/RedundantFacts.v
theories/SpecAlternatives.v
theories/AlternativesFacts.v
theories/ThmSteps.v
