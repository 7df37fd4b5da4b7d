-Q theories Verif
theories/Base.v
theories/BaseFacts.v
theories/Reader.v
theories/ReaderFacts.v
theories/Net.v
theories/NetSpec.v
theories/NetFacts.v
theories/PropNet.v
theories/Stream.v
theories/Framing.v
theories/FramingFacts.v
theories/PropFraming.v
theories/AsPath.v
theories/AsPathSpec.v
theories/AsPathFacts.v
theories/AsPathUnitsSpec.v
theories/AsPathUnitsFacts.v
theories/PropAsPath.v
theories/Tac.v
theories/Community.v
theories/CommunitySpec.v
theories/CommunityFacts.v
theories/PropCommunity.v
theories/Mpls.v
theories/MplsSpec.v
theories/MplsFacts.v
theories/PropMpls.v
theories/FlowSpec.v
theories/FlowSpecSpec.v
theories/FlowSpecFacts.v
theories/PropFlowSpec.v
theories/Tlv.v
theories/TlvSpec.v
theories/TlvFacts.v
theories/PropTlv.v
theories/LinkState.v
theories/LinkStateSpec.v
theories/LinkStateFacts.v
theories/PropLinkState.v
theories/Nlri.v
theories/NlriSpec.v
theories/NlriFacts.v
theories/PropNlri.v
theories/Attr.v
theories/AttrSpec.v
theories/AttrFacts.v
theories/PropAttr.v
theories/Cap.v
theories/BgpError.v
theories/BgpMsg.v
theories/MsgSpec.v
theories/CapFacts.v
theories/MsgFacts.v
theories/PropMsg.v
theories/Bgp4mp.v
theories/Bgp4mpSpec.v
theories/Bgp4mpFacts.v
theories/PropBgp4mp.v
theories/Utf8.v
theories/TableDump.v
theories/TableDumpSpec.v
theories/TableDumpFacts.v
theories/PropTableDump.v
theories/MrtRecord.v
theories/MrtRecordSpec.v
theories/MrtRecordFacts.v
theories/PropMrtRecord.v
theories/Elem.v
theories/ElemSpec.v
theories/ElemFacts.v
theories/F64Facts.v
theories/PropElem.v
theories/Text.v
theories/Filter.v
theories/FilterSpec.v
theories/FilterFacts.v
theories/PropFilter.v
theories/Iter.v
theories/IterSpec.v
theories/IterFacts.v
theories/PropIter.v
theories/Route.v
theories/RouteSpec.v
theories/RouteFacts.v
theories/PropRoute.v
theories/Rtr.v
theories/RtrSpec.v
theories/RtrFacts.v
theories/PropRtr.v
theories/Recovery.v
theories/RecoverySpec.v
theories/RecoveryFacts.v
theories/PropRecovery.v
theories/Bmp.v
theories/BmpSpec.v
theories/BmpFacts.v
theories/F64Real.v
theories/PropBmp.v
theories/PropTime.v
theories/Encoder.v
theories/EncoderSpec.v
theories/EncoderFacts.v
theories/PropEncoder.v
theories/Update.v
theories/UpdateSpec.v
theories/UpdateFacts.v
theories/PropUpdate.v
theories/Dissect.v
theories/DissectSpec.v
theories/DissectFacts.v
theories/DissectWhole.v
theories/PropDissect.v
theories/Diagnostic.v
theories/DiagnosticSpec.v
theories/DiagnosticFacts.v
theories/DiagnosticTree.v
theories/DiagnosticSpans.v
theories/PropDiagnostic.v
theories/TextDump.v
theories/TextDumpSpec.v
theories/TextDumpFacts.v
theories/TextRowsFacts.v
theories/TextRouteFacts.v
theories/TextTimeFacts.v
theories/TextAutoFacts.v
theories/PropTextDump.v
theories/FilterKeysFacts.v
theories/Json.v
theories/JsonSpec.v
theories/JsonFacts.v
theories/PropJson.v
theories/RisLive.v
theories/RisLiveSpec.v
theories/RisLiveFacts.v
theories/RisTime.v
theories/PropRisLive.v
theories/Wasm.v
theories/WasmSpec.v
theories/WasmFacts.v
theories/PropWasm.v
theories/ElemOrd.v
theories/ElemOrdFacts.v
theories/PropElemOrd.v
theories/Psv.v
theories/PsvSpec.v
theories/PsvFacts.v
theories/PsvCommFacts.v
theories/PsvLineFacts.v
theories/PropPsv.v
theories/AsnNum.v
theories/AsnNumSpec.v
theories/AsnNumFacts.v
theories/PropAsnNum.v
theories/RangeSpec.v
theories/RangeFacts.v
theories/RangeIterFacts.v
theories/PropRange.v
theories/RecoveryFilter.v
theories/Cli.v
theories/CliSpec.v
theories/CliFacts.v
theories/CliRunFacts.v
theories/CliExprFacts.v
theories/PropCli.v
theories/Render.v
theories/RenderSpec.v
theories/RenderFacts.v
theories/RenderReadFacts.v
theories/RenderTellFacts.v
theories/PropRender.v
theories/Cache.v
theories/CacheSpec.v
theories/CacheFacts.v
theories/PropCache.v
theories/RisClient.v
theories/RisClientSpec.v
theories/RisClientFacts.v
theories/PropRisClient.v
theories/LsRates.v
theories/LsRatesSpec.v
theories/LsRatesFacts.v
theories/PropLsRates.v
theories/Equal.v
theories/EqualSpec.v
theories/EqualFacts.v
theories/F64Bits.v
theories/PropEqual.v
theories/Summary.v
theories/SummarySpec.v
theories/SummaryFacts.v
theories/PropSummary.v
theories/JsonMsg.v
theories/JsonMsgSpec.v
theories/JsonMsgFacts.v
theories/JsonMsgReadFacts.v
theories/PropJsonMsg.v
theories/JsonRec.v
theories/JsonRecSpec.v
theories/JsonRecFacts.v
theories/JsonRecReadFacts.v
theories/PropJsonRec.v
theories/ParsedFacts.v
theories/ParsedIterFacts.v
theories/PropParsed.v
theories/PropJsonNames.v
theories/BodyErrSpec.v
theories/BodyErrFacts.v
theories/PropBodyErr.v
theories/LocalSpec.v
theories/LocalFacts.v
theories/PropLocal.v
theories/PropFused.v
