-Q theories Verif

theories/PyFloat.v
theories/PyBase.v
theories/Arr.v
theories/PyNum.v
theories/MParams.v
theories/SParams.v
theories/PParams.v
theories/TParams.v
theories/MKernels.v
theories/SKernels.v
theories/PKernels.v
theories/PKernels2.v
theories/PData.v
theories/TKernels.v
theories/MAper2D.v
theories/SAper2D.v
theories/PAper2D.v
theories/PAper2DHist.v
theories/PAper2DGrid.v
theories/PAper2DShape.v
theories/PAper2DOk.v
theories/PAper2DVal.v
theories/PAper2DGeo.v
theories/PAper2DEx.v
theories/PAper2DEff.v
theories/PAper2DTop.v
theories/MCube3D.v
theories/PCube3D.v
theories/PSlit.v
theories/PAper2DEx2.v
theories/TAper2D.v
theories/MProf.v
theories/SProf.v
theories/PProf.v
theories/PProf2.v
theories/TProf.v
theories/SPsf.v
theories/PPsf.v
theories/PPsfEx.v
theories/TPsf.v
theories/MMask.v
theories/SMask.v
theories/PMask.v
theories/PMask2.v
theories/PMask3.v
theories/PMaskEx.v
theories/TMask.v
theories/MTrim.v
theories/STrim.v
theories/PTrim.v
theories/PTrim2.v
theories/TTrim.v
theories/MPrep.v
theories/SPrep.v
theories/PPrep.v
theories/PPrep2.v
theories/PPrep3.v
theories/PPrep4.v
theories/PPrep5.v
theories/PPrepEx.v
theories/TPrep.v
theories/MMcmc.v
theories/SMcmc.v
theories/PMcmc.v
theories/PMcmcEx.v
theories/TMcmc.v
theories/MPost.v
theories/SPost.v
theories/PPost.v
theories/PPost2.v
theories/PPost3.v
theories/PPostEx.v
theories/TPost.v
theories/SLine.v
theories/PLine.v
theories/PLine2.v
theories/TLine.v
theories/MAper1D.v
theories/SAper1D.v
theories/PAper1D.v
theories/PAper1D2.v
theories/PAper1D3.v
theories/PAper1D4.v
theories/PAper1D5.v
theories/PAper1D6.v
theories/PAper1D7.v
theories/TAper1D.v
theories/MIo.v
theories/MFit1D.v
theories/SFit1D.v
theories/PFit1D.v
theories/PFit1D2.v
theories/PFit1D3.v
theories/PFit1D4.v
theories/PFit1D5.v
theories/PFit1DEx.v
theories/TFit1D.v
theories/MGeom.v
theories/SGeom.v
theories/PGeom.v
theories/PGeom2.v
theories/PGeom3.v
theories/PGeom4.v
theories/PGeom5.v
theories/PGeomEx.v
theories/TGeom.v
theories/MAttr.v
theories/SAttr.v
theories/PAttr.v
theories/PAttr2.v
theories/PAttrEx.v
theories/TAttr.v
theories/MShare.v
theories/SShare.v
theories/PShareSt.v
theories/PShare.v
theories/PShareEx.v
theories/PShareFit.v
theories/PSharePrune.v
theories/PShareFitEx.v
theories/TShare.v
theories/MVert.v
theories/SVert.v
theories/PVert.v
theories/PVert2.v
theories/PVertEx.v
theories/TVert.v
theories/MFloat64.v
theories/SFloat64.v
theories/PFloat64.v
theories/TFloat64.v
theories/MYprof.v
theories/SYprof.v
theories/PYprof.v
theories/PYprof2.v
theories/PYprofEx.v
theories/TYprof.v
theories/PTrim3.v
theories/SCont.v
theories/PCont.v
theories/PCont2.v
theories/TCont.v
theories/SLos.v
theories/SLos2.v
theories/PLos.v
theories/PLos2.v
theories/PLos3.v
theories/TLos.v
theories/MLines2D.v
theories/SLines2D.v
theories/PLines2D.v
theories/TLines2D.v
theories/MPipe.v
theories/SPipe.v
theories/PPipe.v
theories/TPipe.v
theories/MCorner.v
theories/SCorner.v
theories/PCorner.v
theories/TCorner.v
theories/MSlitPlot.v
theories/SSlitPlot.v
theories/PSlitPlot.v
theories/PSlitConv.v
theories/TSlitPlot.v
theories/MBestPlot.v
theories/SBestPlot.v
theories/PBestPlot.v
theories/TBestPlot.v
theories/SMirror.v
theories/PMirror.v
theories/PMirror2.v
theories/PMirror3.v
theories/PMirror4.v
theories/PMirror5.v
theories/TMirror.v
theories/SBright.v
theories/PBright.v
theories/PBright2.v
theories/PBright3.v
theories/PBright4.v
theories/TBright.v
theories/SShift1.v
theories/PShift1.v
theories/STables.v
theories/PTables.v
theories/TShift1.v
theories/SUnits.v
theories/PUnits.v
theories/PUnits2.v
theories/PUnits3.v
theories/PUnits4.v
theories/PUnits5.v
theories/PUnits6.v
theories/TUnits.v
theories/PCont3.v
theories/TCont2.v
theories/SFrame.v
theories/PFrame.v
theories/PFrame2.v
theories/PFrame3.v
theories/TFrame.v
theories/SVert2.v
theories/PVert3.v
theories/TVert2.v
theories/SScale.v
theories/PScale.v
theories/TScale.v
theories/SAngle.v
theories/PAngle.v
theories/PAngle2.v
theories/PAngle3.v
theories/TAngle.v
theories/PPrep6.v
theories/TPrep2.v
theories/SLineset.v
theories/PLineset.v
theories/PLineset2.v
theories/TLineset.v
theories/SOrder.v
theories/POrder.v
theories/PUnitsPost.v
theories/PUnitsPost2.v
theories/POrder2.v
theories/TOrder.v
theories/SUnits1D.v
theories/PUnits1D.v
theories/PUnits1D2.v
theories/PUnits1D3.v
theories/TUnits1D.v
theories/SReach.v
theories/PReach.v
theories/PReach2.v
theories/PReach3.v
theories/TReach.v
theories/MMock.v
theories/STruth.v
theories/PTruth.v
theories/PTruth2.v
theories/PTruth3.v
theories/SFinite.v
theories/PFinite.v
theories/PFinite2.v
theories/PFinite3.v
theories/PFinite4.v
theories/TTruth.v
theories/TFinite.v
theories/SSign.v
theories/PSign.v
theories/PSign2.v
theories/PSign3.v
theories/TSign.v
theories/SLim.v
theories/PLim.v
theories/PLim2.v
theories/PLim3.v
theories/PLim4.v
theories/PLim5.v
theories/PLim6.v
theories/TLim.v
theories/SFine.v
theories/PFine.v
theories/PFine2.v
theories/PFine3.v
theories/TFine.v
theories/SNoise.v
theories/PNoise.v
theories/PNoise2.v
theories/PSharp.v
theories/PSharp2.v
theories/TNoise.v
theories/TSharp.v
theories/MRowFit.v
theories/SRowFit.v
theories/PRowFit.v
theories/PRowFit2.v
theories/TRowFit.v
theories/SClean1.v
theories/PClean1.v
theories/TClean1.v
theories/SBad.v
theories/PBad.v
theories/TBad.v
theories/PBad2.v
theories/TBad2.v
theories/SRows.v
theories/PRows.v
theories/TRows.v
theories/SLeft1.v
theories/PLeft1.v
theories/TLeft1.v
theories/SBad3.v
theories/PBad3.v
theories/TBad3.v
theories/MCpus.v
theories/SCpus.v
theories/PCpus.v
theories/TCpus.v
theories/PNanDisp.v
theories/TNanDisp.v
