-Q theories Verif
theories/Model/Py.v
theories/Model/Chunk.v
theories/Spec/Lex.v
theories/Proof/Chunk.v
theories/Proof/ChunkSort.v
theories/Props/Chunk.v
theories/Model/Plane.v
theories/Model/Ma.v
theories/Model/Coadd.v
theories/Spec/Coadd.v
theories/Spec/CoaddExample.v
theories/Proof/Coadd.v
theories/Proof/CoaddThreads.v
theories/Proof/Fourier.v
theories/Proof/CoaddMain.v
theories/Proof/CoaddFail.v
theories/Proof/CoaddMore.v
theories/Proof/CoaddList.v
theories/Props/Coadd.v
theories/Model/Subtract.v
theories/Spec/Subtract.v
theories/Proof/Subtract.v
theories/Proof/SubtractMain.v
theories/Proof/SubtractSum.v
theories/Proof/SubtractFit.v
theories/Props/Subtract.v
theories/Model/Image.v
theories/Spec/Image.v
theories/Spec/ImageExample.v
theories/Proof/Image.v
theories/Proof/ImageMask.v
theories/Proof/ImageGrow.v
theories/Proof/ImageBorder.v
theories/Proof/ImageBuild.v
theories/Proof/ImageStore.v
theories/Proof/ImageMain.v
theories/Proof/ImageSum.v
theories/Props/Image.v
theories/Model/Transparency.v
theories/Spec/Transparency.v
theories/Proof/LeastSquares.v
theories/Proof/Transparency.v
theories/Proof/TransparencyFresh.v
theories/Proof/TransparencyMain.v
theories/Proof/Nearest.v
theories/Props/Transparency.v
theories/Model/Plot.v
theories/Spec/Plot.v
theories/Proof/Plot.v
theories/Proof/PlotMain.v
theories/Props/Plot.v
theories/Model/Simtools.v
theories/Spec/Simtools.v
theories/Proof/Simtools.v
theories/Proof/SimtoolsPsf.v
theories/Proof/SimtoolsMain.v
theories/Props/Simtools.v
theories/Model/Store.v
theories/Spec/Store.v
theories/Proof/Store.v
theories/Proof/StoreMain.v
theories/Props/Store.v
theories/Model/Sources.v
theories/Spec/Sources.v
theories/Proof/SourcesMain.v
theories/Props/Sources.v
theories/Model/FindS.v
theories/Spec/FindS.v
theories/Proof/FindSMain.v
theories/Props/FindS.v
theories/Model/Stamps.v
theories/Spec/Stamps.v
theories/Proof/Stamps.v
theories/Proof/StampsLoop.v
theories/Proof/StampsMain.v
theories/Proof/StampsExample.v
theories/Props/Stamps.v
theories/Model/KL.v
theories/Spec/KL.v
theories/Proof/KL.v
theories/Proof/KLMain.v
theories/Proof/PsfXY.v
theories/Proof/KLExample.v
theories/Props/KL.v
theories/Model/Interp.v
theories/Spec/Interp.v
theories/Proof/Interp.v
theories/Proof/InterpExample.v
theories/Props/Interp.v
theories/Model/Session.v
theories/Model/Knobs.v
theories/Model/Gauss.v
theories/Spec/Session.v
theories/Proof/Session.v
theories/Proof/SessionBad.v
theories/Proof/SessionHist.v
theories/Proof/SessionMain.v
theories/Proof/SessionFrame.v
theories/Proof/SessionLm.v
theories/Proof/SessionLm2.v
theories/Proof/SessionExample.v
theories/Proof/Knobs.v
theories/Proof/GaussMain.v
theories/Props/Session.v
theories/Props/Gauss.v
theories/Spec/Fourier.v
theories/Spec/Filter.v
theories/Model/Filter.v
theories/Proof/Dft.v
theories/Proof/Filter.v
theories/Proof/FilterMain.v
theories/Proof/CoaddWeights.v
theories/Spec/Signif.v
theories/Proof/Peak.v
theories/Proof/Signif.v
theories/Proof/CoaddPoint.v
theories/Props/Filter.v
theories/Spec/Ratio.v
theories/Proof/Ratio.v
theories/Props/Ratio.v
theories/Spec/Percentile.v
theories/Proof/Percentile.v
theories/Model/Chain.v
theories/Spec/Chain.v
theories/Proof/Chain.v
theories/Proof/ChainMain.v
theories/Proof/ChainScale.v
theories/Proof/ChainUnits.v
theories/Proof/ChainStack.v
theories/Proof/ChainExample.v
theories/Props/Chain.v
theories/Model/Normal.v
theories/Spec/Normal.v
theories/Proof/Normal.v
theories/Props/Normal.v
theories/Model/Pyplot.v
theories/Spec/Pyplot.v
theories/Proof/Pyplot.v
theories/Props/Pyplot.v
theories/Spec/Sky.v
theories/Proof/SkyDft.v
theories/Proof/Sky.v
theories/Proof/Herm.v
theories/Proof/SkyDiff.v
theories/Proof/SkyReal.v
theories/Proof/SkyCases.v
theories/Props/Sky.v
theories/Proof/SessionClean.v
theories/Proof/SessionCleanEx.v
theories/Props/SessionClean.v
theories/Spec/Order.v
theories/Proof/Order.v
theories/Proof/OrderMain.v
theories/Proof/OrderSign.v
theories/Proof/OrderEx.v
theories/Props/Order.v
theories/Spec/Sign.v
theories/Proof/Sign.v
theories/Proof/SignEx.v
theories/Props/Sign.v
theories/Spec/Fits.v
theories/Proof/Fits.v
theories/Proof/FitsEx.v
theories/Props/Fits.v
theories/Spec/Uses.v
theories/Proof/Uses.v
theories/Props/Uses.v
theories/Proof/UsesEx.v
theories/Spec/Many.v
theories/Proof/Many.v
theories/Proof/ManyEx.v
theories/Props/Many.v
theories/Spec/Float32.v
theories/Spec/FitsMask.v
theories/Proof/Float32.v
theories/Proof/Float32Main.v
theories/Proof/FitsMask.v
theories/Props/Float32.v
theories/Props/FitsMask.v
theories/Spec/Widths.v
theories/Proof/Widths.v
theories/Props/Widths.v
theories/Spec/Stars.v
theories/Proof/Stars.v
theories/Props/Stars.v
theories/Proof/ManySession.v
theories/Props/ManySession.v
theories/Model/ChainCoadd.v
theories/Spec/ChainCoadd.v
theories/Proof/ChainCoadd.v
theories/Spec/UsesCoadd.v
theories/Proof/UsesCoadd.v
theories/Proof/UsesCoaddMain.v
theories/Proof/ChainCoaddEx.v
theories/Proof/UsesCoaddEx.v
theories/Props/ChainCoadd.v
theories/Spec/Again.v
theories/Model/Again.v
theories/Proof/TransparencyAgain.v
theories/Proof/Again.v
theories/Proof/AgainMain.v
theories/Proof/AgainEx.v
theories/Props/Again.v
theories/Proof/Filtered.v
theories/Proof/FilteredEx.v
theories/Props/Filtered.v
theories/Model/GaussImage.v
theories/Spec/GaussImage.v
theories/Proof/GaussImage.v
theories/Proof/GaussFiltered.v
theories/Proof/GaussImageEx.v
theories/Props/GaussImage.v
theories/Model/GaussSub.v
theories/Spec/GaussSub.v
theories/Proof/GaussSub.v
theories/Proof/GaussTotal.v
theories/Proof/GaussSubEx.v
theories/Props/GaussSub.v
theories/Model/SubAgain.v
theories/Spec/SubAgain.v
theories/Proof/SubAgain.v
theories/Proof/SubAgainMain.v
theories/Proof/SubAgainPair.v
theories/Proof/SubAgainEx.v
theories/Props/SubAgain.v
theories/Model/Convol.v
theories/Spec/Convol.v
theories/Proof/Convol.v
theories/Props/Convol.v
theories/Model/Rebuild.v
theories/Spec/Rebuild.v
theories/Proof/Rebuild.v
theories/Proof/RebuildMain.v
theories/Proof/RebuildEx.v
theories/Props/Rebuild.v
theories/Proof/SessionKeep.v
theories/Proof/AgainKept.v
theories/Model/CoaddCall.v
theories/Spec/CoaddCall.v
theories/Proof/CoaddCallMain.v
theories/Proof/CoaddCallEx.v
theories/Props/CoaddCall.v
theories/Model/Interrupt.v
theories/Spec/Interrupt.v
theories/Proof/Interrupt.v
theories/Proof/InterruptTrace.v
theories/Proof/InterruptMain.v
theories/Proof/InterruptEx.v
theories/Props/Interrupt.v
theories/Model/Stopped.v
theories/Spec/Stopped.v
theories/Proof/StoppedMatch.v
theories/Proof/StoppedMain.v
theories/Proof/RowSort.v
theories/Proof/StoppedEx.v
theories/Props/Stopped.v
theories/Model/AlignDiff.v
theories/Spec/AlignDiff.v
theories/Proof/AlignDiff.v
theories/Proof/AlignDiffMain.v
theories/Proof/AlignDiffLoad.v
theories/Props/AlignDiff.v
theories/Proof/AlignDiffMask.v
theories/Model/Collection.v
theories/Spec/Collection.v
theories/Proof/Collection.v
theories/Proof/CollectionMain.v
theories/Proof/CollectionEx.v
theories/Props/Collection.v
theories/Model/Deprecated.v
theories/Spec/Deprecated.v
theories/Proof/DeprecatedMain.v
theories/Props/Deprecated.v
theories/Model/Cut.v
theories/Spec/Cut.v
theories/Proof/Cut.v
theories/Proof/CutIntact.v
theories/Proof/CutLoop.v
theories/Proof/CutMain.v
theories/Proof/CutLeft.v
theories/Proof/CutEx.v
theories/Props/Cut.v
theories/Model/CutChain.v
theories/Proof/CutChain.v
theories/Proof/CutChainLeft.v
theories/Props/CutChain.v
theories/Model/Hat.v
theories/Spec/Hat.v
theories/Proof/HatMain.v
theories/Props/Hat.v
theories/Model/CutCoadd.v
theories/Spec/CutCoadd.v
theories/Proof/CutCoadd.v
theories/Proof/CutCoaddMain.v
theories/Proof/CutCoaddEx.v
theories/Props/CutCoadd.v
theories/Spec/CutNan.v
theories/Proof/CutNan.v
theories/Model/Live.v
theories/Spec/Live.v
theories/Proof/Live.v
theories/Proof/LiveMain.v
theories/Proof/LiveEx.v
theories/Props/Live.v
theories/Proof/CutUses.v
theories/Proof/CutUsesEx.v
theories/Spec/LiveFar.v
theories/Proof/LiveKeeps.v
theories/Proof/LiveFar.v
theories/Props/LiveFar.v
theories/Proof/HatNan.v
theories/Proof/LiveNan.v
theories/Proof/LiveNanEx.v
theories/Proof/SignBoth.v
theories/Proof/StarEx.v
theories/Spec/Retry.v
theories/Proof/Retry.v
theories/Proof/RetryLive.v
theories/Proof/RetryEx.v
theories/Props/Retry.v
theories/Model/LiveGauss.v
theories/Spec/LiveGauss.v
theories/Proof/LiveGauss.v
theories/Proof/LiveGaussEx.v
theories/Props/LiveGauss.v
theories/Proof/LiveGaussFar.v
theories/Model/LiveSub.v
theories/Proof/LiveSame.v
theories/Proof/LiveSub.v
theories/Proof/LiveSubEx.v
theories/Props/LiveSub.v
theories/Model/LiveCoadd.v
theories/Spec/LiveCoadd.v
theories/Proof/LiveRaise.v
theories/Proof/LiveCoadd.v
theories/Proof/LiveCoaddWorks.v
theories/Proof/LiveCoaddEx.v
theories/Props/LiveCoadd.v
theories/Spec/LiveMore.v
theories/Model/LiveRounds.v
theories/Spec/LiveRounds.v
theories/Proof/LiveMore.v
theories/Proof/LiveRounds.v
theories/Proof/LiveRoundsEx.v
theories/Proof/LiveRoundsCalls.v
theories/Proof/LiveRoundsCallsEx.v
theories/Props/LiveRounds.v
