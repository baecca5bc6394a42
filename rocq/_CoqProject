-Q theories Verif
theories/Base.v
theories/BaseFacts.v
theories/Spec.v
theories/MPriority.v
theories/MHelpers.v
theories/MText.v
theories/MTime.v
theories/MSData.v
theories/MMessage.v
theories/MTransport.v
theories/MParse.v
theories/LPriority.v
theories/LText.v
theories/LAtoi.v
theories/LCalendar.v
theories/LTime.v
theories/LSData.v
theories/LParse.v
theories/LTransport.v
theories/LRound.v
theories/LResult.v
theories/PropPriority.v
theories/PropMessage.v
theories/PropParse.v
theories/PropTransport.v
theories/PropTime.v
theories/PropSData.v
theories/PropSData2.v
theories/PropSData3.v
theories/MSlice.v
theories/PropMemory.v
theories/MTokenize.v
theories/LTokenize.v
theories/PropReceiver.v
theories/LLines.v
theories/LBlocked.v
theories/PropLines.v
theories/MTokMem.v
theories/MTokErr.v
theories/MConnectOther.v
theories/PropTokMem.v
theories/PropDatagram.v
theories/MReceiver.v
theories/LReceiver.v
theories/PropRecvSys.v
theories/MSender.v
theories/MSenderFine.v
theories/LSender.v
theories/PropSender.v
theories/PropSender2.v
theories/PropSender3.v
theories/PropEndToEnd.v
theories/MSyslog.v
theories/LSyslog.v
theories/PropSyslog.v
theories/PropSyslog2.v
theories/MChanRace.v
theories/PropChanRace.v
theories/MConnect.v
theories/PropConnect.v
theories/PropConnect2.v
theories/PropProgram.v
theories/PropEndToEnd2.v
theories/MDatagram.v
theories/PropEndToEnd3.v
theories/MRegistry.v
theories/PropRegistry.v
theories/MAux.v
theories/MTesting.v
theories/PropRelay.v
theories/PropStamp.v
theories/PropAux.v
theories/PropBuild.v
theories/PropScan.v
theories/PropLive.v
theories/PropIdentity.v
theories/PropRecvLive.v
theories/PropMixed.v
theories/PropPacked.v
theories/PropEndToEnd4.v
theories/PropEndToEnd5.v
theories/PropFine.v
theories/PropTesting.v
theories/PropConcurrent.v
theories/PropLive2.v
theories/MErrors.v
theories/PropErrorKind.v
theories/PropErrors.v
theories/PropLive3.v
theories/PropAnyPriority.v
theories/Conformance.v
theories/PropForgery.v
theories/PropBuffer.v
theories/MIdent.v
theories/PropIdent.v
theories/PropGoroutines.v
theories/Rfc5424.v
theories/PropRfc.v
theories/PropRfcProgram.v
theories/PropRfcRead.v
theories/MCustom.v
theories/PropCustom.v
theories/MAnyConn.v
theories/PropAnyConn.v
theories/MAnyReader.v
theories/PropAnyReader.v
theories/MRecover.v
theories/PropRecover.v
theories/MStdio.v
theories/PropStdio.v
theories/MTimed.v
theories/PropTimed.v
theories/PropMany.v
theories/PropMany2.v
theories/PropChain.v
theories/PropTokErr.v
theories/PropConnectOther.v
