-Q theories Verif
theories/Base.v
theories/PyNum.v
theories/Util.v
theories/PyLib.v
theories/OxmCodec.v
theories/OxmTables.v
theories/Oxm.v
theories/Nx.v
theories/Ofp4.v
theories/Cli.v
theories/Replay.v
theories/Spec.v
theories/BaseFacts.v
theories/UtilFacts.v
theories/NumFacts.v
theories/PropUtil.v
theories/PyLibFacts.v
theories/SpecOxm.v
theories/SpecRate.v
theories/SpecText.v
theories/SpecShow.v
theories/OxmRead.v
theories/OxmPrint.v
theories/OxmFacts.v
theories/TermFacts.v
theories/OxmFrame.v
theories/OxmMore.v
theories/PropOxm.v
theories/OfpTerm.v
theories/SpecOfp.v
theories/SpecShowOfp.v
theories/SpecMp.v
theories/SpecShowMsg.v
theories/SpecCli.v
theories/OfpLoop.v
theories/PropTerm.v
theories/ActBase.v
theories/ActRead.v
theories/ActReadNx.v
theories/ActReadReg.v
theories/ActReadLearn.v
theories/ActPrint.v
theories/ActText.v
theories/ActFrame.v
theories/ActDenote.v
theories/ActStyle.v
theories/ActExtra.v
theories/FlowRead.v
theories/FlowMod.v
theories/FlowText.v
theories/FlowFrame.v
theories/FlowDenote.v
theories/FlowPrefix.v
theories/FlowMore.v
theories/GroupRead.v
theories/GroupText.v
theories/GroupFrame.v
theories/GroupDenote.v
theories/GroupExtra.v
theories/MpBase.v
theories/MpFlow.v
theories/MpGroup.v
theories/MpStat.v
theories/MpFrame.v
theories/MpDenote.v
theories/CliFacts.v
theories/CliAddr.v
theories/GramLib.v
theories/FloatFacts.v
theories/RateFacts.v
theories/OxmGram.v
theories/OxmExact.v
theories/RateExact.v
theories/ShowLib.v
theories/PropGram.v
theories/PropRate.v
theories/PropAct.v
theories/PropNx.v
theories/Steady.v
theories/PropStable.v
theories/PropFlow.v
theories/PropGroup.v
theories/PropMp.v
theories/PropShow.v
theories/ShowAct.v
theories/ShowAct2.v
theories/ShowAct3.v
theories/PropShowOfp.v
theories/ShowMsg.v
theories/ShowMsg2.v
theories/ShowMsg3.v
theories/ShowMsg4.v
theories/PropShowMsg.v
theories/PropCli.v
theories/SpecActText.v
theories/SpecFlowText.v
theories/SpecMpText.v
theories/GramTok.v
theories/GramField.v
theories/GramAct.v
theories/GramReg.v
theories/GramBundle.v
theories/GramLearn.v
theories/GramStr.v
theories/GramFlow.v
theories/GramGroup.v
theories/GramMp.v
theories/PropActText.v
theories/PropFlowText.v
theories/PropMpText.v
theories/PropMpStable.v
theories/PrintEnds.v
theories/PropEnds.v
theories/Refuse.v
theories/RefuseShow.v
theories/PropRefuse.v
theories/SpecReload.v
theories/Reload.v
theories/PropReload.v
theories/SpecInject.v
theories/Inject.v
theories/InjectAct.v
theories/InjectMsg.v
theories/PropInject.v
theories/SpecQp.v
theories/Qp.v
theories/PropQp.v
theories/SpecUnknown.v
theories/Unknown.v
theories/PropUnknown.v
theories/SpecIds.v
theories/Ids.v
theories/PropIds.v
theories/SpecCompose.v
theories/Compose.v
theories/Continue.v
theories/GroupMore.v
theories/PropCompose.v
theories/SpecJoin.v
theories/Join.v
theories/PropJoin.v
theories/SpecMpJoin.v
theories/MpJoin.v
theories/PropMpJoin.v
theories/SpecName.v
theories/Names.v
theories/PropNames.v
theories/SpecFit.v
theories/Fit.v
theories/PropFit.v
