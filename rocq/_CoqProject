-Q theories Verif
theories/Py.v
theories/Tensor.v
theories/Scalar.v
theories/DataRef.v
theories/DataAlpha.v
theories/DataPair.v
theories/DataToml.v
theories/ModelExt.v
theories/ModelUtils.v
theories/ModelDamping.v
theories/ModelModels.v
theories/ModelTerms.v
theories/ModelDisp.v
theories/TensorLemmas.v
theories/EinsumLemmas.v
theories/Spec.v
theories/SpecCall.v
theories/Closed.v
theories/ClosedM.v
theories/ClosedTerms.v
theories/ClosedModels.v
theories/RInst.v
theories/ClosedDamp.v
theories/ClosedDisp.v
theories/SpecR.v
theories/EnergyR.v
theories/Energy3R.v
theories/Inst.v
theories/Sums.v
theories/PropsEnergy.v
theories/CallLemmas.v
theories/Relabel.v
theories/SpecMol.v
theories/Usable.v
theories/PropsCall.v
theories/InstW.v
theories/PropsTerms.v
theories/PropsApi.v
theories/PropsMol.v
theories/PropsSelect.v
theories/PropsParams.v
theories/InstS.v
theories/PropsDamp.v
theories/PropsTables.v
theories/SpecW.v
theories/WeightsR.v
theories/WeightsP.v
theories/PropsWeights.v
theories/PropsD4S.v
theories/DerivR.v
theories/PropsDeriv.v
theories/InstD.v
theories/ModelLoader.v
theories/SpecLoader.v
theories/LoaderP.v
theories/PropsLoader.v
theories/ModelStore.v
theories/SpecStore.v
theories/StoreP.v
theories/StoreC.v
theories/PropsStore.v
theories/ModelParams.v
theories/PropsOutcome.v
theories/PropsD3.v
theories/PropsClasses.v
theories/SpecD4.v
theories/PropsD4.v
theories/PropsDisp2.v
theories/SpecBits.v
theories/PropsBits.v
theories/PropsPadIeee.v
theories/InstAny.v
theories/PropsArgs.v
theories/IeeeInst.v
theories/IeeeP.v
theories/IeeeB.v
theories/SpecIeee.v
theories/IeeeW.v
theories/IeeeLib.v
theories/PropsIeee.v
theories/InstIeee.v
theories/PropsC6.v
theories/DiffR.v
theories/PropsDiff.v
theories/ModelConc.v
theories/SpecConc.v
theories/ConcP.v
theories/PropsConc.v
theories/SpecBounds.v
theories/BoundsR.v
theories/PropsBounds.v
theories/PropsRace.v
theories/ModelDtype.v
theories/SpecDtype.v
theories/DtypeP.v
theories/PropsDtype.v
theories/ModelLoaderConc.v
theories/SpecLoaderConc.v
theories/LoaderConcP.v
theories/LoaderConcQ.v
theories/PropsLoaderConc.v
theories/ModelSubclass.v
theories/SpecSubclass.v
theories/SpecProps.v
theories/PropsProperties.v
theories/PropsSubclass.v
theories/PropsNegative.v
theories/PropsSignIeee.v
theories/PropsFinite.v
theories/InstFinite.v
theories/AdInst.v
theories/SpecAD.v
theories/AdR.v
theories/AdW.v
theories/AdT.v
theories/PropsAD.v
theories/PropsThread.v
theories/GradInst.v
theories/ModelGrad.v
theories/SpecGrad.v
theories/ClosedGrad.v
theories/GradR.v
theories/GradT.v
theories/GradW.v
theories/PropsGrad.v
theories/IeeeA.v
theories/PropsAcc.v
theories/InstAcc.v
theories/PropsForce.v
theories/AdN.v
theories/SpecADN.v
theories/AdG.v
theories/AdNW.v
theories/AdNT.v
theories/PropsADN.v
theories/PropsSym.v
theories/PropsHess.v
theories/PropsPropAD.v
theories/PropsOrder.v
theories/PropsQuad.v
theories/ModelUser.v
theories/PropsUser.v
theories/IeeeM.v
theories/PropsAcc3.v
theories/InstAcc3.v
theories/IeeeE.v
theories/PropsAccW.v
theories/PropsAccZ.v
theories/PropsAccT.v
theories/InstAccT.v
theories/PropsAccC.v
theories/PropsAccC6.v
theories/InstAccC6.v
theories/PropsAccE.v
theories/InstAccE.v
theories/PropsAccA.v
theories/InstAccA.v
theories/PropsAccD.v
theories/InstAccD.v
theories/PropsAccP.v
theories/InstAccP.v
