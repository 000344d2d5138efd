-Q theories Verif

theories/Base.v
theories/Conformance.v
theories/Lib.v
theories/ModelAddress.v
theories/ModelAttachment.v
theories/ModelBase64.v
theories/ModelBuffers.v
theories/ModelClient.v
theories/ModelCpp.v
theories/ModelErrors.v
theories/ModelHeap.v
theories/ModelMessage.v
theories/ModelReply.v
theories/ModelScarce.v
theories/ModelState.v
theories/ModelThreads.v
theories/ModelUtil.v
theories/ModelWin.v
theories/ModelWorld.v
theories/ProofAddress.v
theories/ProofAgain.v
theories/ProofAttachment.v
theories/ProofAuth.v
theories/ProofAuth2.v
theories/ProofAuth3.v
theories/ProofAuth4.v
theories/ProofBase64.v
theories/ProofBcc.v
theories/ProofBuffers.v
theories/ProofCode.v
theories/ProofConfig.v
theories/ProofConn.v
theories/ProofConn2.v
theories/ProofCpp.v
theories/ProofCpp2.v
theories/ProofDead.v
theories/ProofDialogue.v
theories/ProofDiverge.v
theories/ProofDiverge2.v
theories/ProofDiverge3.v
theories/ProofErrors.v
theories/ProofEstablish.v
theories/ProofFate.v
theories/ProofFate2.v
theories/ProofForward.v
theories/ProofForward2.v
theories/ProofForward3.v
theories/ProofForward4.v
theories/ProofForward5.v
theories/ProofFresh.v
theories/ProofFresh2.v
theories/ProofFresh3.v
theories/ProofHeap.v
theories/ProofHeap10.v
theories/ProofHeap11.v
theories/ProofHeap12.v
theories/ProofHeap2.v
theories/ProofHeap3.v
theories/ProofHeap4.v
theories/ProofHeap5.v
theories/ProofHeap6.v
theories/ProofHeap7.v
theories/ProofHeap8.v
theories/ProofHeap9.v
theories/ProofInject.v
theories/ProofInject2.v
theories/ProofInject3.v
theories/ProofInject4.v
theories/ProofLife.v
theories/ProofLog.v
theories/ProofLogSize.v
theories/ProofLookup.v
theories/ProofLookup2.v
theories/ProofMail.v
theories/ProofMail2.v
theories/ProofMail3.v
theories/ProofMail4.v
theories/ProofMail5.v
theories/ProofMime.v
theories/ProofMode.v
theories/ProofMode2.v
theories/ProofNames.v
theories/ProofOwn.v
theories/ProofOwn2.v
theories/ProofOwn3.v
theories/ProofPair.v
theories/ProofPair2.v
theories/ProofPair3.v
theories/ProofPast.v
theories/ProofPast2.v
theories/ProofPastWin.v
theories/ProofPastWin2.v
theories/ProofPatience.v
theories/ProofPatience2.v
theories/ProofPhases.v
theories/ProofReply.v
theories/ProofSafety.v
theories/ProofScarce.v
theories/ProofScarce2.v
theories/ProofScarce3.v
theories/ProofScarce4.v
theories/ProofScarce5.v
theories/ProofScarce6.v
theories/ProofSelf.v
theories/ProofSelf2.v
theories/ProofSend.v
theories/ProofStage.v
theories/ProofSteps.v
theories/ProofText.v
theories/ProofTexts.v
theories/ProofTexts2.v
theories/ProofTextsWin.v
theories/ProofThreads.v
theories/ProofThrow.v
theories/ProofThrow2.v
theories/ProofTime.v
theories/ProofTls.v
theories/ProofTls2.v
theories/ProofTranscript.v
theories/ProofValues.v
theories/ProofWalk.v
theories/ProofWin.v
theories/ProofWin2.v
theories/ProofWin3.v
theories/ProofWinAddr.v
theories/ProofWinConfig.v
theories/ProofWinEst.v
theories/ProofWinEv.v
theories/ProofWinFail.v
theories/ProofWinForward.v
theories/ProofWinForward2.v
theories/ProofWinLong.v
theories/ProofWinMail.v
theories/ProofWinMode.v
theories/ProofWinOwn.v
theories/ProofWinPair.v
theories/ProofWinRef.v
theories/ProofWinRef2.v
theories/ProofWinRef3.v
theories/ProofWinRef4.v
theories/ProofWinRef5.v
theories/ProofWinSafe.v
theories/ProofWinSafe2.v
theories/ProofWinSkip.v
theories/ProofWinTame.v
theories/ProofWinThreads.v
theories/ProofWinTime.v
theories/ProofWinTime2.v
theories/ProofWinTls.v
theories/ProofWinTls2.v
theories/ProofWinTls3.v
theories/ProofWinWalk.v
theories/ProofWinWalk2.v
theories/ProofWire.v
theories/ProofWire2.v
theories/ProofWorld.v
theories/PropsAddress.v
theories/PropsAgain.v
theories/PropsAttachment.v
theories/PropsAuth.v
theories/PropsBase64.v
theories/PropsBuffers.v
theories/PropsConfig.v
theories/PropsConn.v
theories/PropsCpp.v
theories/PropsDead.v
theories/PropsErrors.v
theories/PropsFate.v
theories/PropsForward.v
theories/PropsHeap.v
theories/PropsInject.v
theories/PropsLogSize.v
theories/PropsMail.v
theories/PropsMime.v
theories/PropsMode.v
theories/PropsNames.v
theories/PropsOwn.v
theories/PropsPair.v
theories/PropsPast.v
theories/PropsPastWin.v
theories/PropsPatience.v
theories/PropsReply.v
theories/PropsSafety.v
theories/PropsScarce.v
theories/PropsSelf.v
theories/PropsText.v
theories/PropsTexts.v
theories/PropsTextsWin.v
theories/PropsThreads.v
theories/PropsThrow.v
theories/PropsTls.v
theories/PropsTranscript.v
theories/PropsValues.v
theories/PropsWin.v
theories/PropsWinForward.v
theories/PropsWinMail.v
theories/PropsWinMode.v
theories/PropsWinMore.v
theories/PropsWinPair.v
theories/PropsWinSafe.v
theories/PropsWire.v
theories/Samples.v
theories/SamplesForward.v
theories/SpecAddress.v
theories/SpecAttachment.v
theories/SpecAuth.v
theories/SpecBase64.v
theories/SpecBuffers.v
theories/SpecConfig.v
theories/SpecConn.v
theories/SpecCpp.v
theories/SpecDead.v
theories/SpecDialogue.v
theories/SpecErrors.v
theories/SpecFate.v
theories/SpecForward.v
theories/SpecHeap.v
theories/SpecInject.v
theories/SpecLife.v
theories/SpecLookup.v
theories/SpecMime.v
theories/SpecMode.v
theories/SpecNames.v
theories/SpecOwn.v
theories/SpecPair.v
theories/SpecPast.v
theories/SpecPastWin.v
theories/SpecPatience.v
theories/SpecReply.v
theories/SpecSafety.v
theories/SpecScarce.v
theories/SpecSelf.v
theories/SpecText.v
theories/SpecTexts.v
theories/SpecTextsWin.v
theories/SpecThreads.v
theories/SpecThrow.v
theories/SpecTls.v
theories/SpecTranscript.v
theories/SpecValues.v
theories/SpecWin.v
theories/SpecWinForward.v
theories/SpecWinPair.v
theories/SpecWinSafe.v
theories/SpecWire.v
