-Q theories Verif
theories/Prelude.v
theories/Layout.v
theories/LayoutFacts.v
theories/LayoutEdges.v
theories/LayoutLists.v
theories/LayoutHex.v
theories/LayoutHex2.v
theories/Pauli.v
theories/LayoutObs.v
theories/LayoutLogic.v
theories/LayoutIndex.v
theories/Prop_Layout.v
theories/Prop_Index.v
theories/Torus.v
theories/Distance.v
theories/Distance2.v
theories/Prop_Distance.v
theories/Tracker.v
theories/TrackerFacts.v
theories/Prop_Tracker.v
theories/Prop_Tracker2.v
theories/Stim.v
theories/Circuit.v
theories/Noise.v
theories/Golden.v
theories/Annot.v
theories/Shift.v
theories/Ends.v
theories/Gen.v
theories/Gen2.v
theories/Gen3.v
theories/Traj.v
theories/Eval.v
theories/Frame.v
theories/Exec.v
theories/Exec2.v
theories/Exec3.v
theories/Exec4.v
theories/Checks.v
theories/Detectors.v
theories/Struct.v
theories/Struct2.v
theories/Struct3.v
theories/Moments.v
theories/Prop_Circuit.v
theories/NoiseFacts.v
theories/NoiseMoments.v
theories/GenShape.v
theories/NoiseAlign.v
theories/Prop_Noise.v
theories/Prop_Noise2.v
theories/NoiseCorr.v
theories/Prop_Noise3.v
theories/Prop_Mixing.v
theories/FaultQuiet.v
theories/FaultCore.v
theories/FaultInv.v
theories/FaultObs.v
theories/FaultZ.v
theories/FaultSpec.v
theories/FaultInj.v
theories/FaultStep.v
theories/FaultNoise.v
theories/FaultChain.v
theories/FaultEnd.v
theories/FaultStyles.v
theories/FaultEm3.v
theories/FaultRun.v
theories/FaultCount.v
theories/Prop_Fault.v
theories/Prop_Match.v
theories/FaultLin.v
theories/FaultLine.v
theories/FaultDist.v
theories/FaultTilt.v
theories/FaultReach.v
theories/FaultFinal.v
theories/FaultPairs.v
theories/Prop_Dist.v
theories/Prop_Match2.v
theories/Prop_Dist2.v
theories/Prop_Dist3.v
theories/Prop_Dist4.v
theories/Prop_Dist5.v
theories/Prop_Dist6.v
theories/Epr.v
theories/EprRun.v
theories/EprRun2.v
theories/EprNoise.v
theories/Prop_Epr.v
theories/EprFault.v
theories/Prop_EprFault.v
theories/Prop_Graph.v
theories/Prop_Graph2.v
theories/Prop_Decode.v
theories/Example.v
theories/Prop_Example.v
theories/Prop_Obs.v
theories/Text.v
theories/Decoding.v
theories/Prop_Decoding.v
theories/Collect.v
theories/Prop_Collect.v
theories/Prop_Collect2.v
theories/Console.v
theories/Prop_Console.v
theories/Prop_Decoding2.v
theories/Prob.v
theories/Prop_Prob.v
theories/Prop_Prob2.v
theories/Prop_Prob3.v
theories/Stirling.v
theories/Prop_Prob4.v
theories/Paper.v
theories/Prop_Paper.v
theories/Prop_Paper2.v
theories/Prop_Paper3.v
theories/PaperFit.v
theories/Prop_PaperFit.v
theories/Warnings.v
theories/Prop_Warnings.v
theories/Plot.v
theories/Prop_Plot.v
theories/Prop_Plot2.v
theories/Prop_Plot3.v
theories/Prop_Plot4.v
theories/Prop_Paper4.v
theories/Diagrams.v
theories/Prop_Diagrams.v
theories/Prop_Diagrams2.v
theories/Prop_Diagrams3.v
theories/Prop_Diagrams4.v
theories/Prop_Diagrams5.v
theories/Prop_Diagrams6.v
theories/GoldenDiagrams.v
theories/InternalDecoder.v
theories/Prop_InternalDecoder.v
theories/Surface.v
theories/Prop_Surface.v
