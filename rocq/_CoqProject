-Q theories Verif
theories/Base.v
theories/Num.v
theories/BaseFacts.v
theories/Common.v
theories/Spec.v
theories/Poly.v
theories/Order.v
theories/ProofSearch.v
theories/ProofInterp.v
theories/ProofFindPk.v
theories/ProofFindPkR.v
theories/ProofSigma.v
theories/Legendre.v
theories/LegendreRoots.v
theories/SpecQuad.v
theories/LegendreSpec.v
theories/ProofGL.v
theories/ProofNewton.v
theories/ProofNewton2.v
theories/ProofNewton3.v
theories/ProofNewton4.v
theories/ProofNewton5.v
theories/ProofNewton6.v
theories/ProofGL2.v
theories/ProofCommon2.v
theories/ProofCommon3.v
theories/PropCommon.v
theories/SpecPT.v
theories/SpecKernels.v
theories/Series.v
theories/Kernels.v
theories/ProofKernels.v
theories/ProofSeries.v
theories/ProofSeries2.v
theories/ProofSeries3.v
theories/ProofSeries4.v
theories/PropKernels.v
theories/GExpr.v
theories/Gamma2dSrc.v
theories/Gamma2tSrc.v
theories/Gamma2.v
theories/SpecGamma2.v
theories/SpecTable.v
theories/Sums.v
theories/ProofGamma2.v
theories/ProofGamma2b.v
theories/ProofGamma2c.v
theories/ProofGamma2d.v
theories/ProofGamma2e.v
theories/ProofGamma2f.v
theories/ProofGamma2g.v
theories/PropGamma2.v
theories/Integrals.v
theories/SpecIntegrals.v
theories/SpecLoops.v
theories/ProofIntegrals.v
theories/ProofIntegrals2.v
theories/ProofIntegrals3.v
theories/ProofIntegrals4.v
theories/ProofIntegrals5.v
theories/ProofIntegrals6.v
theories/ProofIntegrals7.v
theories/ProofIntegrals8.v
theories/ProofIntegrals9.v
theories/ProofIntegrals10.v
theories/PropIntegrals.v
theories/Lockstep.v
theories/SpecScratch.v
theories/ProofScratch.v
theories/ProofScratch2.v
theories/ProofScratch3.v
theories/PropScratch.v
theories/SpecBispectrum.v
theories/SpecBisp2.v
theories/ProofBispectrum.v
theories/ProofBispectrum2.v
theories/PropBispectrum.v
theories/Registry.v
theories/SpecRegistry.v
theories/ProofRegistry.v
theories/PropRegistry.v
theories/PyTerms.v
theories/SpecPy.v
theories/ProofPy.v
theories/ProofPy2.v
theories/ProofPy3.v
theories/ProofPy4.v
theories/ProofPy5.v
theories/ProofPy6.v
theories/ProofPy7.v
theories/PropPy.v
theories/Threads.v
theories/SpecThreads.v
theories/ProofThreads.v
theories/ProofThreads2.v
theories/ProofThreads3.v
theories/ProofThreads4.v
theories/ProofThreads5.v
theories/ProofThreads6.v
theories/ProofThreads7.v
theories/ProofThreads8.v
theories/PropThreads.v
theories/Process.v
theories/SpecProcess.v
theories/ProofProcess.v
theories/ProofProcess2.v
theories/ProofProcess3.v
theories/ProofProcess4.v
theories/ProofProcess5.v
theories/ProofProcess6.v
theories/ProofProcess7.v
theories/ProofProcess8.v
theories/ProofProcess9.v
theories/ProofProcess10.v
theories/ProofProcess11.v
theories/ProofProcess12.v
theories/ProofProcess13.v
theories/ProofProcess14.v
theories/ProofProcess17.v
theories/ProofProcess16.v
theories/ProofProcess15.v
theories/ProofProcess18.v
theories/ProofProcess19.v
theories/ProofProcess20.v
theories/ProofProcess21.v
theories/ProofProcess22.v
theories/ProofProcess23.v
theories/ProofProcess24.v
theories/ProofProcess25.v
theories/ProofProcess26.v
theories/ProofProcess27.v
theories/ProofProcess28.v
theories/ProofProcess29.v
theories/ProofProcess30.v
theories/ProofProcess31.v
theories/ProofProcess32.v
theories/PropProcess.v
theories/SpecScale.v
theories/ProofScale.v
theories/ProofScale2.v
theories/ProofScale3.v
theories/ProofScale4.v
theories/ProofScale5.v
theories/ProofScale6.v
theories/ProofScale7.v
theories/SpecSym.v
theories/ProofSym.v
theories/PropScale.v
theories/SpecPositive.v
theories/ProofPositive.v
theories/ProofPositive2.v
theories/PropPositive.v
theories/SpecDefined.v
theories/ProofDefined.v
theories/ProofDefined2.v
theories/ProofDefined3.v
theories/ProofDefined4.v
theories/ProofDefined5.v
theories/ProofDefined6.v
theories/ProofDefined7.v
theories/ProofDefined8.v
theories/ProofDefined9.v
theories/ProofDefined10.v
theories/ProofDefined11.v
theories/ProofDefined12.v
theories/PropDefined.v
theories/SpecRounded.v
theories/ProofRounded.v
theories/ProofRounded2.v
theories/ProofRounded3.v
theories/ProofRounded4.v
theories/ProofRounded5.v
theories/ProofRounded6.v
theories/ProofRounded7.v
theories/ProofRounded8.v
theories/PropRounded.v
theories/SpecColumns.v
theories/ProofColumns.v
theories/ProofColumns2.v
theories/ProofColumns3.v
theories/ProofColumns4.v
theories/PropColumns.v
theories/SpecLimits.v
theories/ProofLimits.v
theories/ProofLimits2.v
theories/ProofLimits3.v
theories/ProofLimits4.v
theories/PropLimits.v
theories/PyHelpers.v
theories/SpecHelpers.v
theories/ProofHelpers.v
theories/PropHelpers.v
theories/PyContainer.v
theories/SpecContainer.v
theories/ProofContainer.v
theories/ProofContainer2.v
theories/ProofContainer3.v
theories/PropContainer.v
theories/SpecDamped.v
theories/ProofDamped.v
theories/PropDamped.v
theories/PyPad.v
theories/SpecPad.v
theories/ProofPad.v
theories/ProofPad2.v
theories/ProofPad3.v
theories/PropPad.v
theories/ProofNewton7.v
theories/ProofNewton8.v
theories/PropNewton.v
theories/SpecConv.v
theories/ProofQuad.v
theories/ProofQuad2.v
theories/ProofQuad3.v
theories/PropQuad.v
theories/ProofConv.v
theories/ProofConv2.v
theories/ProofConv3.v
theories/ProofConv4.v
theories/PropConv.v
theories/SpecSamples.v
theories/ProofSamples.v
theories/ProofSamples2.v
theories/ProofSamples3.v
theories/ProofSamples4.v
theories/ProofSamples5.v
theories/ProofSamples6.v
theories/ProofSamples7.v
theories/ProofSamples8.v
theories/PropSamples.v
theories/ProofConv5.v
theories/PropConv2.v
theories/SpecConv2.v
theories/ProofConv6.v
theories/PropConv3.v
theories/SpecTotal.v
theories/ProofTotal.v
theories/PropTotal.v
theories/SpecTotal2.v
theories/ProofTotal2.v
theories/PropTotal2.v
theories/ProofPy8.v
theories/PropPy2.v
theories/SpecConv3.v
theories/ProofConv7.v
theories/PropConv4.v
theories/SpecRsd.v
theories/ProofRsd.v
theories/ProofRsd2.v
theories/PropRsd.v
theories/SpecRounded2.v
theories/ProofRounded9.v
theories/ProofRounded10.v
theories/PropRounded2.v
theories/SpecRounded3.v
theories/ProofRounded11.v
theories/ProofRounded12.v
theories/PropRounded3.v
theories/SpecRounded4.v
theories/ProofRounded13.v
theories/ProofRounded14.v
theories/PropRounded4.v
theories/SpecNoWiggle.v
theories/PyNoWiggle.v
theories/ProofNoWiggle.v
theories/PropNoWiggle.v
theories/ProofRounded15.v
theories/ProofRounded16.v
theories/PropRounded5.v
theories/SpecRounded5.v
theories/ProofRounded17.v
theories/PropRounded6.v
theories/ProofRounded18.v
theories/PropRounded7.v
theories/PyPadMode.v
theories/ProofPadMode.v
theories/PropPadMode.v
theories/PyShaped.v
theories/SpecShaped.v
theories/ProofShaped.v
theories/PropShaped.v
theories/PyMethods.v
theories/SpecMethods.v
theories/ProofMethods.v
theories/PropMethods.v
theories/PyEarly.v
theories/ProofEarly.v
theories/PropEarly.v
theories/SpecSmooth.v
theories/ProofSmooth.v
theories/PropSmooth.v
theories/SpecResum.v
theories/ProofResum.v
theories/PropResum.v
