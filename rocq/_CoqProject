-Q theories Verif
theories/Base.v
theories/BaseLemmas.v
theories/ModelPad.v
theories/ModelBlock.v
theories/ModelAes.v
theories/ModelRc.v
theories/ModelMd.v
theories/ModelSha.v
theories/ModelBig.v
theories/ModelRsa.v
theories/ModelPem.v
theories/ModelKey.v
theories/SpecPad.v
theories/ProofPad.v
theories/PropPad.v
theories/SpecBlock.v
theories/ProofBlock.v
theories/PropBlock.v
theories/SpecEndian.v
theories/ProofEndian.v
theories/SpecAes.v
theories/ProofAesField.v
theories/ProofAes.v
theories/ProofAesKey.v
theories/PropAes.v
theories/SpecWord.v
theories/SpecRc.v
theories/ProofWord.v
theories/ProofRc2.v
theories/ProofRc4.v
theories/ProofRc5.v
theories/PropRc.v
theories/SpecMd.v
theories/ProofMd2.v
theories/ProofMd.v
theories/SpecText.v
theories/PropMd.v
theories/SpecSha.v
theories/SpecHex.v
theories/ProofSha.v
theories/ProofSha2.v
theories/ProofHash.v
theories/PropSha.v
theories/SpecBig.v
theories/ProofBig.v
theories/ProofBig2.v
theories/ProofBig3.v
theories/PropBig.v
theories/SpecRsa.v
theories/ProofRsaMath.v
theories/ProofPrime.v
theories/ProofRsa.v
theories/PropRsa.v
theories/SpecOaep.v
theories/ProofOaep.v
theories/PropOaep.v
theories/SpecMsg.v
theories/ProofMsg.v
theories/ProofMsgWitness.v
theories/PropMsg.v
theories/SpecAsn1.v
theories/ProofAsn1.v
theories/PropAsn1.v
theories/SpecPem.v
theories/ProofBase64.v
theories/ProofPem.v
theories/PropPem.v
theories/SpecKey.v
theories/ProofKey.v
theories/ProofKeyErr.v
theories/ProofFile.v
theories/PropKey.v
theories/SpecConst.v
theories/ProofConst.v
theories/ProofConst2.v
theories/ProofConst3.v
theories/PropConst.v
theories/SpecRelease.v
theories/ProofRelease.v
theories/ProofInverse.v
theories/ProofRelease2.v
theories/ProofRelease3.v
theories/ProofRelease4.v
theories/PropRelease.v
theories/SpecMerkle.v
theories/ProofMerkle.v
theories/PropMerkle.v
theories/SpecLazy.v
theories/ProofLazy.v
theories/PropLazy.v
theories/SpecMalleable.v
theories/ProofMalleable.v
theories/PropMalleable.v
theories/SpecKeys.v
theories/ProofKeys.v
theories/PropKeys.v
theories/ModelCost.v
theories/SpecCost.v
theories/ProofCost.v
theories/PropCost.v
theories/ModelOracle.v
theories/SpecManger.v
theories/ProofManger.v
theories/PropManger.v
theories/SpecSpoiled.v
theories/ProofSpoiled.v
theories/PropSpoiled.v
theories/ModelMessage.v
theories/SpecMessage.v
theories/ProofMessage.v
theories/PropMessage.v
theories/SpecPadOracle.v
theories/ProofPadOracle.v
theories/PropPadOracle.v
theories/SpecTrail.v
theories/ProofBranch.v
theories/ProofTrail.v
theories/PropTrail.v
theories/SpecFixed.v
theories/ProofFixed.v
theories/PropFixed.v
theories/SpecBroadcast.v
theories/ProofBroadcast.v
theories/PropBroadcast.v
theories/ProofExponent.v
theories/PropExponent.v
theories/SpecMd2Chain.v
theories/ProofMd2Chain.v
theories/PropMd2Chain.v
theories/SpecIntegral.v
theories/ProofIntegral.v
theories/PropIntegral.v
theories/SpecWeak.v
theories/ProofWeak.v
theories/PropWeak.v
theories/SpecLinear.v
theories/ProofLinear.v
theories/PropLinear.v
theories/SpecFactor.v
theories/ProofFactor.v
theories/ProofFactorKey.v
theories/PropFactor.v
theories/SpecUnconcealed.v
theories/ProofRoots.v
theories/ProofUnconcealed.v
theories/PropUnconcealed.v
theories/ProofSpread.v
theories/PropSpread.v
theories/SpecSchedule.v
theories/ProofSchedule.v
theories/PropSchedule.v
theories/ProofTerm.v
theories/ProofTerm2.v
theories/ProofTerm3.v
theories/PropTerm.v
theories/SpecMulti.v
theories/ProofMulti.v
theories/PropMulti.v
theories/SpecWiener.v
theories/ProofWiener.v
theories/PropWiener.v
theories/SpecRelated.v
theories/ProofRelated.v
theories/PropRelated.v
theories/ModelCalls.v
theories/SpecCalls.v
theories/ProofCalls.v
theories/PropCalls.v
theories/SpecImport.v
theories/ProofImport.v
theories/PropImport.v
theories/SpecFermat.v
theories/ProofFermat.v
theories/PropFermat.v
theories/SpecFms.v
theories/ProofFms.v
theories/PropFms.v
theories/ModelLookup.v
theories/SpecEcb.v
theories/ProofEcb.v
theories/PropEcb.v
theories/SpecLookup.v
theories/ProofLookup.v
theories/PropLookup.v
theories/SpecCycle.v
theories/ProofCycle.v
theories/PropCycle.v
theories/SpecSmooth.v
theories/ProofSmooth.v
theories/PropSmooth.v
theories/ModelWork.v
theories/ProofWork.v
theories/PropWork.v
theories/SpecParity.v
theories/ProofParity.v
theories/PropParity.v
theories/SpecAesForms.v
theories/ProofAesForms.v
theories/PropAesForms.v
theories/SpecSymmetry.v
theories/ProofSymmetry.v
theories/PropSymmetry.v
theories/ProofXorSchedule.v
theories/PropXorSchedule.v
theories/SpecReencode.v
theories/ProofReencode.v
theories/PropReencode.v
theories/ProofSeveral.v
theories/PropSeveral.v
theories/ProofStates.v
theories/PropStates.v
theories/SpecUtf8.v
theories/ModelUtf8.v
theories/ProofUtf8.v
theories/PropUtf8.v
theories/SpecFault.v
theories/ProofFault.v
theories/PropFault.v
theories/SpecPseudo.v
theories/ProofPseudo.v
theories/PropPseudo.v
theories/ModelWidth.v
theories/SpecWidth.v
theories/ProofWidth.v
theories/PropWidth.v
theories/ModelTrace.v
theories/ProofTraceErase.v
theories/ProofTrace.v
theories/PropTrace.v
theories/ProofDisclose.v
theories/PropDisclose.v
theories/ProofOneByte.v
theories/PropOneByte.v
theories/SpecFinney.v
theories/ProofFinney.v
theories/PropFinney.v
theories/ProofWorking.v
theories/PropWorking.v
theories/SpecKeyFault.v
theories/ProofKeyFault.v
theories/PropKeyFault.v
theories/ModelWidthKey.v
theories/SpecWidthKey.v
theories/ProofWidthKey.v
theories/PropWidthKey.v
theories/ModelHashed.v
theories/SpecHashed.v
theories/ProofHashed.v
theories/PropHashed.v
theories/SpecMantin.v
theories/ProofMantin.v
theories/ProofMantinCount.v
theories/PropMantin.v
theories/SpecAccept.v
theories/ProofAccept.v
theories/PropAccept.v
theories/ProofAcceptOaep.v
theories/ProofAcceptMsg.v
theories/PropAcceptOaep.v
theories/Replay.v
