-Q theories Verif
theories/Base.v
theories/Ticker.v
theories/TickerSpec.v
theories/TickerProofs.v
theories/TickerProps.v
theories/AList.v
theories/Masks.v
theories/MasksSpec.v
theories/MasksProofs.v
theories/MasksProps.v
theories/StructDiff.v
theories/StructDiffSpec.v
theories/StructDiffProofs.v
theories/StructDiffMethod.v
theories/StructDiffProps.v
theories/Evaluator.v
theories/EvaluatorSpec.v
theories/EvaluatorProofs.v
theories/EvaluatorHist.v
theories/EvaluatorRun.v
theories/EvaluatorMore.v
theories/EvaluatorExample.v
theories/EvaluatorProps.v
theories/Merge.v
theories/MergeSpec.v
theories/MergeProofs.v
theories/MergeProps.v
theories/RBase.v
theories/Sums.v
theories/Sphere.v
theories/SphereSpec.v
theories/SphereProofs.v
theories/SphereGeom.v
theories/SphereRecip.v
theories/SphereMain.v
theories/SphereProps.v
theories/Trig.v
theories/TrigProofs.v
theories/TrigProps.v
theories/R3.v
theories/Lattice.v
theories/LatticeSpec.v
theories/LatticeProofs.v
theories/LatticeProps.v
theories/BondGen.v
theories/BondGenSpec.v
theories/BondGenProofs.v
theories/BondGenMain.v
theories/BondGenProps.v
theories/BondCalc.v
theories/BondCalcSpec.v
theories/BondCalcProofs.v
theories/BondCalcSim.v
theories/BondCalcMain.v
theories/BondCalcExample.v
theories/BondCalcProps.v
theories/Overlap.v
theories/OverlapSpec.v
theories/OverlapProofs.v
theories/OverlapFlip.v
theories/OverlapNbh.v
theories/OverlapGrad.v
theories/OverlapGen.v
theories/OverlapExample.v
theories/OverlapProps.v
theories/PdfGrid.v
theories/PdfSpec.v
theories/PdfProofs.v
theories/PdfMain.v
theories/PdfFft.v
theories/PdfResult.v
theories/PdfMask.v
theories/PdfFinal.v
theories/PdfExample.v
theories/PdfProps.v
theories/Bvs.v
theories/BvsSpec.v
theories/BvsProofs.v
theories/BvsTable.v
theories/BvsMain.v
theories/BvsExample.v
theories/BvsProps.v
theories/Debye.v
theories/DebyeSpec.v
theories/DebyeProofs.v
theories/DebyeSum.v
theories/DebyeMain.v
theories/DebyePdf.v
theories/DebyeFast.v
theories/DebyeExample.v
theories/DebyeExample2.v
theories/DebyeExample3.v
theories/DebyeProps.v
theories/Registry.v
theories/RegistrySpec.v
theories/RegistryProofs.v
theories/RegistryProps.v
theories/Attr.v
theories/AttrSpec.v
theories/AttrProofs.v
theories/AttrProps.v
theories/Tables.v
theories/TablesSpec.v
theories/TablesProofs.v
theories/TablesProps.v
theories/Peaks.v
theories/PeaksSpec.v
theories/PeaksProofs.v
theories/PeaksArea.v
theories/PeaksProps.v
theories/PeakWidth.v
theories/PeakWidthSpec.v
theories/PeakWidthProofs.v
theories/PeakWidthProps.v
theories/Envelopes.v
theories/EnvelopesSpec.v
theories/EnvelopesProofs.v
theories/EnvelopesProps.v
theories/Crystal.v
theories/CrystalSpec.v
theories/CrystalProofs.v
theories/CrystalMain.v
theories/CrystalSep.v
theories/CrystalCell.v
theories/CrystalExample.v
theories/CrystalBonds.v
theories/CrystalProps.v
theories/CrystalCache.v
theories/CrystalCacheProps.v
theories/CrystalTensor.v
theories/CrystalTensorProps.v
theories/Wrappers.v
theories/WrappersSpec.v
theories/WrappersProofs.v
theories/WrappersProps.v
theories/Owners.v
theories/OwnersSpec.v
theories/OwnersProofs.v
theories/OwnersProps.v
theories/Copies.v
theories/CopiesSpec.v
theories/CopiesProofs.v
theories/CopiesProps.v
theories/Data.v
theories/DataSpec.v
theories/DataText.v
theories/DataIons.v
theories/DataWk.v
theories/DataNsf.v
theories/DataHist.v
theories/DataExample.v
theories/DataShipped.v
theories/DataShippedProofs.v
theories/DataProps.v
theories/Persist.v
theories/PersistSpec.v
theories/PersistProofs.v
theories/PersistProps.v
theories/World.v
theories/WorldSpec.v
theories/WorldAtoms.v
theories/WorldProofs.v
theories/WorldMain.v
theories/WorldFlip.v
theories/WorldTotal.v
theories/WorldProps.v
theories/PairCount.v
theories/PairCountSpec.v
theories/PairCountProofs.v
theories/PairCountProps.v
theories/OrbitSpec.v
theories/OrbitGroup.v
theories/OrbitSum.v
theories/OrbitWorld.v
theories/OrbitTensor.v
theories/OrbitExample.v
theories/OrbitProps.v
theories/Visited.v
theories/VisitedSpec.v
theories/VisitedProofs.v
theories/VisitedHalf.v
theories/VisitedMain.v
theories/VisitedCalc.v
theories/VisitedProps.v
theories/ObjCryst.v
theories/ObjCrystSpec.v
theories/ObjCrystProofs.v
theories/ObjCrystGroup.v
theories/ObjCrystExample.v
theories/ObjCrystProps.v
theories/Shares.v
theories/SiteSums.v
theories/BvsWorld.v
theories/BvsWorldSpec.v
theories/BvsWorldProofs.v
theories/BvsWorldExample.v
theories/BvsWorldProps.v
theories/OverlapWorld.v
theories/OverlapWorldSpec.v
theories/OverlapWorldProofs.v
theories/OverlapWorldGrad.v
theories/OverlapWorldSym.v
theories/OverlapWorldProps.v
theories/BondWorld.v
theories/BondWorldSpec.v
theories/BondWorldProofs.v
theories/BondWorldProps.v
theories/PdfWorkers.v
theories/PdfWorkersProofs.v
theories/PdfWorkersProps.v
theories/Fp.v
theories/FpGrid.v
theories/FpGridSpec.v
theories/FpConcrete.v
theories/FpGridProofs.v
theories/FpLimits.v
theories/FpGridProps.v
theories/FpSum.v
theories/FpSumSpec.v
theories/FpSumProofs.v
theories/FpSumMain.v
theories/FpSumProps.v
theories/FpCountProps.v
theories/FpTol.v
theories/FpTolProps.v
theories/AllPeaksSpec.v
theories/AllPeaksProofs.v
theories/AllPeaksProps.v
theories/SftData.v
theories/SftDataSpec.v
theories/SftDataProofs.v
theories/SftDataShipped.v
theories/SftDataProps.v
theories/PairCountCrystalProps.v
theories/DataBvShipped.v
theories/DataBvShippedSpec.v
theories/DataBvShippedProofs.v
theories/DataBvShippedProps.v
theories/R3Ref.v
theories/R3RefSpec.v
theories/R3RefLU.v
theories/R3RefProofs.v
theories/R3RefMain.v
theories/R3RefProps.v
theories/Threads.v
theories/ThreadsSpec.v
theories/ThreadsProofs.v
theories/ThreadsMain.v
theories/ThreadsProps.v
theories/Live.v
theories/LiveSpec.v
theories/LiveProofs.v
theories/LiveMain.v
theories/LiveProps.v
theories/PdfSettingsSpec.v
theories/PdfSettingsProps.v
theories/SphereCopy.v
theories/SphereCopySpec.v
theories/SphereCopyProofs.v
theories/SphereCopyMain.v
theories/SphereCopyProps.v
theories/FpPi.v
theories/FpAngle.v
theories/FpAngleSpec.v
theories/FpAngleProofs.v
theories/FpAngleMain.v
theories/FpAngleProps.v
theories/DebyeSettingsSpec.v
theories/DebyeSettingsProps.v
theories/FpSphere.v
theories/FpSphereLoop.v
theories/FpSphereSpec.v
theories/FpSphereProofs.v
theories/FpSphereMain.v
theories/FpSphereMore.v
theories/FpSphereProps.v
theories/FpBonds.v
theories/FpBondsSpec.v
theories/FpBondsLoop.v
theories/FpBondsProofs.v
theories/FpBondsMain.v
theories/FpBondsMore.v
theories/FpBondsExample.v
theories/FpBondsDiag.v
theories/FpBondsProps.v
theories/BondEdits.v
theories/BondEditsSpec.v
theories/BondEditsProofs.v
theories/BondEditsProps.v
theories/FpLn2.v
theories/FpWidth.v
theories/FpWidthSpec.v
theories/FpWidthProofs.v
theories/FpWidthMain.v
theories/FpWidthExample.v
theories/FpWidthProps.v
theories/FpLatAngleSpec.v
theories/FpLatAngle.v
theories/FpLatAngleProps.v
theories/FpCellSpec.v
theories/FpCell.v
theories/FpCellLen.v
theories/FpCellConst.v
theories/FpCellMain.v
theories/FpCellProps.v
theories/FpDist.v
theories/FpDistProofs.v
theories/FpDistProps.v
theories/LatEdits.v
theories/LatEditsSpec.v
theories/LatEditsProofs.v
theories/LatEditsMain.v
theories/LatEditsProps.v
