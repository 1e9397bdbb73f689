-Q theories Verif
theories/Base.v
theories/Addr.v
theories/Spec.v
theories/AddrProofs.v
theories/AddrProofs2.v
theories/AddrProofs3.v
theories/AddrProofs4.v
theories/PropAddr.v
theories/Socket.v
theories/PropSocket.v
theories/Range.v
theories/SpecRange.v
theories/RangeProofs.v
theories/RangeProofs2.v
theories/PropRange.v
theories/Inet.v
theories/SpecText.v
theories/AddrText.v
theories/InetProofs.v
theories/InetProofs2.v
theories/TextProofs.v
theories/PropText.v
theories/Parser.v
theories/SpecParser.v
theories/ParserProofs.v
theories/ParserProofs2.v
theories/ParserProofs3.v
theories/ParserProofs4.v
theories/ParserProofs5.v
theories/ParserProofs6.v
theories/ParserProofs7.v
theories/PropParser.v
theories/PropParser2.v
theories/PropParser3.v
theories/SpecIpv6.v
theories/DottedProofs.v
theories/Ipv6Proofs.v
theories/Ipv6Proofs2.v
theories/SpecParser2.v
theories/SpecParser3.v
theories/SpecParser4.v
theories/ParserProofs8.v
theories/PropParser4.v
theories/ParserProofs9.v
theories/ParserProofs10.v
theories/ParserProofs11.v
theories/ParserProofs12.v
theories/PropParser5.v
theories/PropParser6.v
theories/PropParser7.v
theories/PropParser8.v
theories/Unix.v
theories/SpecUnix.v
theories/UnixProofs.v
theories/UnixProofs2.v
theories/PropUnix.v
theories/Route.v
theories/SpecRoute.v
theories/RouteProofs.v
theories/PropRoute.v
theories/Iface.v
theories/IfaceCache.v
theories/SpecIface.v
theories/IfaceCacheProofs.v
theories/IfaceProofs.v
theories/PropIface.v
theories/Ostream.v
theories/SpecOstream.v
theories/OstreamProofs.v
theories/OstreamIndex.v
theories/SpecOstreamIndex.v
theories/OstreamIndexProofs.v
theories/PropOstream.v
theories/Validator.v
theories/SpecValidator.v
theories/ValidatorProofs.v
theories/ValidatorProofs2.v
theories/PropValidator.v
theories/NameInfo.v
theories/TableTools.v
theories/SpecTools.v
theories/ToolsProofs.v
theories/ToolsProofs2.v
theories/PropTools.v
theories/ValidateTool.v
theories/SpecValidate.v
theories/ValidateProofs.v
theories/PropValidate.v
theories/PropGrammar.v
theories/PropGrammar2.v
theories/SpecExact.v
theories/ExactProofs.v
theories/ExactProofs2.v
theories/PropExact.v
theories/PropExact2.v
theories/PropExact3.v
theories/SpecModes.v
theories/PropModes.v
theories/SpecLanguage.v
theories/ParserProofs13.v
theories/ParserProofs14.v
theories/ParserProofs15.v
theories/PropParser9.v
theories/PropParser10.v
theories/PropParser11.v
theories/SpecComplaint.v
theories/ParserProofs16.v
theories/PropParser12.v
theories/SpecSettings.v
theories/SettingsProofs.v
theories/PropSettings.v
theories/NetShared.v
theories/SpecNetShared.v
theories/NetSharedProofs.v
theories/PropNetShared.v
theories/IfaceHeap.v
theories/SpecIfaceHeap.v
theories/IfaceHeapProofs.v
theories/PropIfaceHeap.v
theories/Ipv6Proofs3.v
theories/PropIpv6.v
theories/SpecHistory.v
theories/HistoryProofs.v
theories/SpecUnixHistory.v
theories/UnixHistoryProofs.v
theories/PropHistory.v
theories/SockCompare.v
theories/SpecSockCompare.v
theories/PropSockCompare.v
theories/ValidatorShared.v
theories/SpecValidatorShared.v
theories/PropValidatorShared.v
theories/RangeProofs3.v
theories/PropRange2.v
theories/PropExact4.v
theories/PropParser13.v
theories/SpecAllowList.v
theories/PropAllowList.v
theories/Receive.v
theories/PropReceive.v
theories/PropParser14.v
theories/SpecLists.v
theories/ListProofs.v
theories/PropLists.v
theories/PropParser15.v
theories/PropParser16.v
theories/PropWire.v
theories/AddrSet.v
theories/PropSet.v
theories/IfaceIndex.v
theories/PropIndex.v
theories/PropRoute2.v
theories/PropNetUnion.v
theories/PropRange3.v
theories/PropReadme.v
theories/Errno.v
theories/PropErrno.v
theories/Lookups.v
theories/LookupProofs.v
theories/PropLookups.v
theories/LookupsUse.v
theories/PropLookups2.v
theories/SpecNumeric.v
theories/NumericProofs.v
theories/PropNumeric.v
theories/AllowProofs.v
theories/PropAllow.v
theories/OrderProofs.v
theories/OrderProofs2.v
theories/PropOrder.v
theories/PropRoute3.v
theories/PropNetwork.v
theories/OstreamWidth.v
theories/PropWidth.v
theories/AgainProofs.v
theories/PropAgain.v
theories/PropValidate2.v
theories/SpecPort.v
theories/PortProofs.v
theories/PortProofs2.v
theories/PropPort.v
theories/SpecColumns.v
theories/PropColumns.v
theories/SpecReplace.v
theories/PropReplace.v
theories/PropUnchanged.v
theories/PropExact5.v
theories/PropListing.v
theories/ParserProofs17.v
theories/PropHostname.v
theories/PropAggregate.v
theories/ParserProofs18.v
theories/PropExceptions.v
theories/PropExceptions2.v
theories/PropUndefined.v
theories/PropPortText.v
theories/PropPeers.v
theories/SpecUnused.v
theories/UnusedProofs.v
theories/PropUnused.v
theories/SpecRangeCalls.v
theories/PropRangeCalls.v
theories/SpecDefaults.v
theories/DefaultsProofs.v
theories/PropDefaults.v
theories/SpecCuts.v
theories/PropCuts.v
theories/PropIfaceClock.v
theories/PropRangeCalls2.v
