-Q theories Verif
theories/Base.v
theories/BaseFacts.v
theories/Headers.v
theories/HeadersProofs.v
theories/Method.v
theories/P_Headers.v
theories/Fsm.v
theories/FsmSpec.v
theories/FsmProofs.v
theories/P_Fsm.v
theories/P_FsmTimers.v
theories/TxManager.v
theories/TxManagerSpec.v
theories/TxManagerProofs.v
theories/P_TxManager.v
theories/RateLimit.v
theories/RateLimitSpec.v
theories/RateLimitProofs.v
theories/P_RateLimit.v
theories/Auth.v
theories/AuthSpec.v
theories/AuthProofs.v
theories/P_Auth.v
theories/Text.v
theories/TextFacts.v
theories/Uri.v
theories/UriProofs.v
theories/P_Uri.v
theories/Msg.v
theories/Dialog.v
theories/DialogSpec.v
theories/DialogProofs.v
theories/P_Dialog.v
theories/NumFacts.v
theories/Prack.v
theories/PrackSpec.v
theories/PrackProofs.v
theories/P_Prack.v
theories/SessionTimer.v
theories/SessionTimerProofs.v
theories/P_SessionTimer.v
theories/AnyUri.v
theories/Registrar.v
theories/RegistrarSpec.v
theories/RegistrarProofs.v
theories/AorProofs.v
theories/P_Registrar.v
theories/ProxyFork.v
theories/ProxyForkSpec.v
theories/ProxyForkProofs.v
theories/ProxyForkConc.v
theories/P_ProxyFork.v
theories/ProxyCore.v
theories/ProxyCoreSpec.v
theories/ProxyCoreProofs.v
theories/P_ProxyCore.v
theories/Utf8Facts.v
theories/Message.v
theories/MessageSpec.v
theories/MessageProofs.v
theories/P_Message.v
theories/Via.v
theories/ViaSpec.v
theories/ViaProofs.v
theories/P_Via.v
theories/Framing.v
theories/FramingSpec.v
theories/FramingProofs.v
theories/P_Framing.v
theories/Pool.v
theories/PoolSpec.v
theories/PoolProofs.v
theories/P_Pool.v
theories/PoolLock.v
theories/P_PoolLock.v
theories/Sdp.v
theories/SdpSpec.v
theories/SdpProofs.v
theories/P_Sdp.v
theories/SdpText.v
theories/SdpTextSpec.v
theories/SdpTextProofs.v
theories/P_SdpText.v
theories/Dns.v
theories/DnsSpec.v
theories/DnsProofs.v
theories/P_Dns.v
theories/Dhcp.v
theories/DhcpSpec.v
theories/DhcpProofs.v
theories/P_Dhcp.v
theories/Hep.v
theories/HepProofs.v
theories/P_Hep.v
theories/AddrProofs.v
theories/Json.v
theories/JsonProofs.v
theories/Identity.v
theories/IdentitySpec.v
theories/IdentityProofs.v
theories/P_Identity.v
theories/Uac.v
theories/UacSend.v
theories/UacSpec.v
theories/UacProofs.v
theories/UacReads.v
theories/UacRegister.v
theories/UacAuth.v
theories/P_Uac.v
theories/P_UacAuth.v
theories/UacSendProofs.v
theories/P_UacSend.v
theories/Uas.v
theories/UasServe.v
theories/UasSpec.v
theories/UasProofs.v
theories/UasCalls.v
theories/UasTalk.v
theories/P_Uas.v
theories/P_UasCall.v
theories/P_UasTimer.v
theories/P_UasReliable.v
theories/UasFill.v
theories/P_UasServe.v
theories/TypedFacts.v
theories/Replaces.v
theories/ReplacesSpec.v
theories/P_Replaces.v
theories/P_UacMore.v
theories/Privacy.v
theories/PrivacySpec.v
theories/P_Privacy.v
theories/AtomFacts.v
theories/Reason.v
theories/ReasonSpec.v
theories/P_Reason.v
theories/SdpCore.v
theories/SdpCoreSpec.v
theories/SdpCoreProofs.v
theories/SdpCoreRead.v
theories/SdpCoreSound.v
theories/SdpCoreWrite.v
theories/P_SdpCore.v
theories/OfferAnswer.v
theories/OfferSpec.v
theories/OfferProofs.v
theories/OfferFacts.v
theories/P_OfferAnswer.v
theories/P_OfferHold.v
theories/Prefs.v
theories/PrefsSpec.v
theories/P_Prefs.v
theories/Cpim.v
theories/CpimSpec.v
theories/CpimProofs.v
theories/P_Cpim.v
theories/P_CpimEdit.v
theories/Mwi.v
theories/MwiSpec.v
theories/P_Mwi.v
theories/Pidf.v
theories/PidfSpec.v
theories/PidfProofs.v
theories/P_Pidf.v
theories/Mime.v
theories/MimeSpec.v
theories/P_Mime.v
theories/SecAgree.v
theories/SecAgreeSpec.v
theories/P_SecAgree.v
theories/Words.v
theories/WordsSpec.v
theories/P_Words.v
theories/DateHdr.v
theories/DateSpec.v
theories/P_DateHdr.v
theories/Winfo.v
theories/WinfoSpec.v
theories/P_Winfo.v
theories/ResPrio.v
theories/ResPrioSpec.v
theories/P_ResPrio.v
theories/History.v
theories/HistorySpec.v
theories/P_History.v
theories/P_UasMore.v
theories/PIdent.v
theories/PIdentSpec.v
theories/P_PIdent.v
theories/SipFrag.v
theories/SipFragSpec.v
theories/P_SipFrag.v
theories/Sharding.v
theories/P_Sharding.v
theories/Referred.v
theories/ReferredSpec.v
theories/P_Referred.v
theories/Subs.v
theories/SubsSpec.v
theories/P_Subs.v
theories/P_SubStore.v
theories/PathRoute.v
theories/PathRouteSpec.v
theories/P_PathRoute.v
theories/RegEvent.v
theories/RegEventSpec.v
theories/P_RegEvent.v
theories/Ice.v
theories/IceSpec.v
theories/P_Ice.v
theories/Profile.v
theories/ProfileSpec.v
theories/P_Profile.v
theories/P_ProfileText.v
