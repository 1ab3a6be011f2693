-Q theories Verif
theories/GoStr.v
theories/GoStrFacts.v
theories/ValueModel.v
theories/ValueFacts.v
theories/CollSpec.v
theories/ListModel.v
theories/DictModel.v
theories/ListProofs.v
theories/ExampleEnv.v
theories/ListProps.v
theories/DictProofs.v
theories/DictProps.v
theories/DataModel.v
theories/DataProofs.v
theories/DataProps.v
theories/HeapModel.v
theories/HeapSpec.v
theories/HeapProofs.v
theories/HeapTree.v
theories/HeapProps.v
theories/Utf8.v
theories/Utf8Facts.v
theories/TextModel.v
theories/TextSpec.v
theories/TextProofs.v
theories/TextProofs2.v
theories/TextProofs3.v
theories/TextProps.v
theories/FloatModel.v
theories/FloatFacts.v
theories/MathModel.v
theories/NumFacts.v
theories/MathSpec.v
theories/MathProofs.v
theories/MathProps.v
theories/SliceModel.v
theories/SliceSpec.v
theories/SliceProofs.v
theories/SliceProps.v
theories/ConvModel.v
theories/ConvSpec.v
theories/ConvProofs.v
theories/ConvProps.v
theories/QuoteModel.v
theories/QuoteSpec.v
theories/QuoteProofs.v
theories/VeqFacts.v
theories/BashModel.v
theories/BashSpec.v
theories/BashProofs.v
theories/BashProps.v
theories/HclModel.v
theories/HclSpec.v
theories/HclProofs.v
theories/HclProps.v
theories/DecodeModel.v
theories/DecodeSpec.v
theories/DecodeProofs.v
theories/DecodeProps.v
theories/CliModel.v
theories/CliSpec.v
theories/CliProofs.v
theories/CliProps.v
theories/PathModel.v
theories/PathSpec.v
theories/PathProofs.v
theories/PathProps.v
theories/TemplateModel.v
theories/TemplateSpec.v
theories/TemplateProofs.v
theories/TemplateProps.v
theories/SentinelFacts.v
theories/ProcessModel.v
theories/ProcessSpec.v
theories/PauseProofs.v
theories/ProcessProofs.v
theories/ProcessProps.v
theories/FilesModel.v
theories/FilesSpec.v
theories/FilesProofs.v
theories/FilesProps.v
theories/HclProofs2.v
theories/ContextModel.v
theories/ContextSpec.v
theories/ContextProofs.v
theories/ContextProps.v
theories/SearchModel.v
theories/SearchSpec.v
theories/SearchProofs.v
theories/SearchProps.v
theories/FuncsModel.v
theories/FuncsSpec.v
theories/FuncsProofs.v
theories/FuncsProps.v
theories/IncludeModel.v
theories/IncludeSpec.v
theories/IncludeProofs.v
theories/IncludeProps.v
theories/AliasModel.v
theories/AliasSpec.v
theories/AliasProofs.v
theories/AliasProps.v
theories/RazorExprModel.v
theories/RazorExprSpec.v
theories/RazorExprProofs.v
theories/RazorExprProps.v
theories/RazorWordsModel.v
theories/RazorWordsSpec.v
theories/RazorWordsProofs.v
theories/RazorWordsProps.v
theories/OperatorWordsProofs.v
theories/OperatorWordsProps.v
theories/LongStringModel.v
theories/LongStringSpec.v
theories/LongStringProofs.v
theories/LongStringProps.v
theories/ReModel.v
theories/ReProofs.v
theories/ScriptModel.v
theories/ScriptSpec.v
theories/ScriptProofs.v
theories/ScriptProps.v
theories/ReSyntaxModel.v
theories/RazorTableModel.v
theories/ReSound.v
theories/RazorRefSpec.v
theories/RazorRefAuto.v
theories/RazorRefProofs.v
theories/RazorRefMain.v
theories/RazorRefProps.v
theories/RazorAssignModel.v
theories/RazorAsgAuto.v
theories/RazorAsgSpec.v
theories/RazorAsgText.v
theories/RazorAsgExpr.v
theories/RazorAsgExpr2.v
theories/RazorAsgGo.v
theories/RazorAsgGo2.v
theories/RazorAsgVal.v
theories/RazorAsgVal2.v
theories/RazorAsgVal3.v
theories/RazorAsgWrite.v
theories/RazorAsgWrite2.v
theories/RazorAsgMatch.v
theories/RazorAsgFits.v
theories/RazorAsgDoc.v
theories/RazorAsgMain.v
theories/RazorAsgSample.v
theories/RazorAssignProps.v
theories/ErrorModel.v
theories/ErrorSpec.v
theories/ErrorMatch.v
theories/ErrorMatch2.v
theories/ErrorMatch3.v
theories/ErrorMatch4.v
theories/ErrorProofs.v
theories/ErrorProofs2.v
theories/ErrorProofs3.v
theories/ErrorProofs4.v
theories/ErrorProofs5.v
theories/ErrorProps.v
theories/RegexSpec.v
theories/RegexProofs.v
theories/RegexProofs2.v
theories/RegexProofs3.v
theories/RegexProofs4.v
theories/RegexProofs5.v
theories/RegexProps.v
theories/BlockSpec.v
theories/BlockAuto.v
theories/BlockFits.v
theories/BlockDoc.v
theories/BlockMatch.v
theories/BlockMatch2.v
theories/BlockMatch3.v
theories/BlockValue.v
theories/BlockRows.v
theories/BlockMain.v
theories/BlockMain2.v
theories/BlockMain3.v
theories/BlockProps.v
theories/IdModel.v
theories/IdSpec.v
theories/IdProofs.v
theories/IdProps.v
theories/SetModel.v
theories/SetSpec.v
theories/SetProofs.v
theories/SetProps.v
theories/HelpModel.v
theories/HelpSpec.v
theories/HelpProofs.v
theories/HelpProps.v
theories/MainModel.v
theories/MainSpec.v
theories/MainProofs.v
theories/MainProps.v
theories/EllModel.v
theories/EllSpec.v
theories/EllProofs.v
theories/EllProps.v
theories/IgnoreModel.v
theories/IgnoreSpec.v
theories/IgnoreProofs.v
theories/IgnoreProofs2.v
theories/IgnoreProps.v
theories/RawModel.v
theories/RawSpec.v
theories/RawProofs.v
theories/RawProofs2.v
theories/RawProofs3.v
theories/RawProps.v
theories/RunModel.v
theories/RunSpec.v
theories/RunProofs.v
theories/RunProps.v
theories/FsModel.v
theories/FsSpec.v
theories/FsProofs.v
theories/FsProofs2.v
theories/FsProps.v
theories/ExtModel.v
theories/ExtSpec.v
theories/ExtProofs.v
theories/ExtProps.v
theories/CallSpec.v
theories/CallAuto.v
theories/CallDoc.v
theories/CallFits.v
theories/CallMatch.v
theories/CallRows.v
theories/CallValue.v
theories/CallMain.v
theories/CallMain2.v
theories/CallSample.v
theories/CallProps.v
theories/SigModel.v
theories/SigSpec.v
theories/SigProofs.v
theories/SigProps.v
theories/UtilModel.v
theories/UtilSpec.v
theories/UtilProofs.v
theories/UtilProps.v
theories/ShowModel.v
theories/ShowSpec.v
theories/ShowProofs.v
theories/ShowProps.v
theories/IdxSpec.v
theories/IdxProofs.v
theories/IdxProps.v
theories/TfModel.v
theories/TfSpec.v
theories/TfProofs.v
theories/TfProps.v
theories/MiscSpec.v
theories/MiscProofs.v
theories/MiscProps.v
theories/StructModel.v
theories/StructSpec.v
theories/StructProofs.v
theories/StructProps.v
