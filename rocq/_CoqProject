-Q theories Verif
theories/MAlias.v
theories/MBeam.v
theories/MBeam2.v
theories/MClip.v
theories/MCuda.v
theories/MDeprecated.v
theories/MDetector.v
theories/MFloat.v
theories/MFloat2.v
theories/MLaue.v
theories/MLevelset.v
theories/MMemory.v
theories/MMesh.v
theories/MMotion.v
theories/MPersist.v
theories/MPhase.v
theories/MPolycrystal.v
theories/MRender.v
theories/MSample.v
theories/MScattering.v
theories/MStrain.v
theories/MStructure.v
theories/MTemplates.v
theories/MUtils.v
theories/MVerbose.v
theories/Num.v
theories/PAlias.v
theories/PAperture.v
theories/PAperture2.v
theories/PBack.v
theories/PBack2.v
theories/PBack3.v
theories/PBeam.v
theories/PBeam2.v
theories/PClip.v
theories/PCorner.v
theories/PCorner2.v
theories/PCorner3.v
theories/PCorner4.v
theories/PCrystal.v
theories/PCrystal2.v
theories/PCrystal3.v
theories/PCuda.v
theories/PCylinder.v
theories/PDeprecated.v
theories/PDetector.v
theories/PDetector2.v
theories/PDetector3.v
theories/PDetector4.v
theories/PEnd.v
theories/PEnd2.v
theories/PEvents.v
theories/PExtra.v
theories/PFloat.v
theories/PFloat2.v
theories/PFrame.v
theories/PFrame2.v
theories/PFrame3.v
theories/PFrame4.v
theories/PFriedel.v
theories/PFriedel2.v
theories/PGauge.v
theories/PGauge2.v
theories/PGaugeEx.v
theories/PJoin.v
theories/PJoin2.v
theories/PJoin3.v
theories/PJoin4.v
theories/PKernel.v
theories/PKernel2.v
theories/PKernel3.v
theories/PLaue.v
theories/PLevelset.v
theories/PLinear.v
theories/PLinear2.v
theories/PLinear3.v
theories/PMacro.v
theories/PMacroEx.v
theories/PMemory.v
theories/PMesh.v
theories/PMesh2.v
theories/PMotion.v
theories/PNano.v
theories/PNano2.v
theories/PNano3.v
theories/PNano4.v
theories/PNano5.v
theories/PNano6.v
theories/PNano7.v
theories/PNano8.v
theories/PNanoEx.v
theories/PNumber.v
theories/PNumber2.v
theories/PNumber3.v
theories/PNumber4.v
theories/POdf.v
theories/POdf2.v
theories/PPass.v
theories/PPass2.v
theories/PPass3.v
theories/PPersist.v
theories/PPersist2.v
theories/PPhase.v
theories/PPolycrystal.v
theories/PPolycrystal2.v
theories/PPolycrystal3.v
theories/PPowder.v
theories/PProfile.v
theories/PProfileEx.v
theories/PRadius.v
theories/PRadiusEx.v
theories/PRefine.v
theories/PRefine2.v
theories/PRender.v
theories/PRender2.v
theories/PRender2b.v
theories/PRender3.v
theories/PRenderEx.v
theories/PSample.v
theories/PSample2.v
theories/PScale.v
theories/PScale2.v
theories/PScale3.v
theories/PScale4.v
theories/PScan.v
theories/PScattering.v
theories/PShift.v
theories/PShift2.v
theories/PShift3.v
theories/PStrain.v
theories/PStructure.v
theories/PStructure2.v
theories/PTemplates.v
theories/PTurn.v
theories/PTurn2.v
theories/PTurn3.v
theories/PTurnEx.v
theories/PUtils.v
theories/PVerbose.v
theories/PVolume.v
theories/PWindow.v
theories/PWindow2.v
theories/PWindow3.v
theories/PWindow4.v
theories/PWitness.v
theories/Properties_Alias.v
theories/Properties_Aperture.v
theories/Properties_Aperture2.v
theories/Properties_Back.v
theories/Properties_Back2.v
theories/Properties_Back3.v
theories/Properties_Beam.v
theories/Properties_Beam2.v
theories/Properties_Clip.v
theories/Properties_Corner.v
theories/Properties_Corner2.v
theories/Properties_Corner3.v
theories/Properties_Corner4.v
theories/Properties_Crystal.v
theories/Properties_Crystal2.v
theories/Properties_Crystal3.v
theories/Properties_Cuda.v
theories/Properties_Cylinder.v
theories/Properties_Deprecated.v
theories/Properties_Detector.v
theories/Properties_Detector2.v
theories/Properties_Detector3.v
theories/Properties_Detector4.v
theories/Properties_End2.v
theories/Properties_Events.v
theories/Properties_Extra.v
theories/Properties_Float2.v
theories/Properties_Frame4.v
theories/Properties_Friedel.v
theories/Properties_Friedel2.v
theories/Properties_Gauge.v
theories/Properties_Gauge2.v
theories/Properties_GaugeEx.v
theories/Properties_Join2.v
theories/Properties_Join3.v
theories/Properties_Join4.v
theories/Properties_Kernel.v
theories/Properties_Kernel2.v
theories/Properties_Kernel3.v
theories/Properties_Laue.v
theories/Properties_Levelset.v
theories/Properties_Linear2.v
theories/Properties_Linear3.v
theories/Properties_Macro.v
theories/Properties_MacroEx.v
theories/Properties_Memory.v
theories/Properties_Mesh.v
theories/Properties_Mesh2.v
theories/Properties_Motion.v
theories/Properties_Nano.v
theories/Properties_Nano2.v
theories/Properties_Nano3.v
theories/Properties_Nano4.v
theories/Properties_Nano5.v
theories/Properties_Nano6.v
theories/Properties_Nano7.v
theories/Properties_Nano8.v
theories/Properties_NanoEx.v
theories/Properties_Number2.v
theories/Properties_Number3.v
theories/Properties_Number4.v
theories/Properties_Odf.v
theories/Properties_Odf2.v
theories/Properties_Pass2.v
theories/Properties_Pass3.v
theories/Properties_Persist.v
theories/Properties_Persist2.v
theories/Properties_Phase.v
theories/Properties_Polycrystal.v
theories/Properties_Polycrystal2.v
theories/Properties_Polycrystal3.v
theories/Properties_Powder.v
theories/Properties_Profile.v
theories/Properties_ProfileEx.v
theories/Properties_Radius.v
theories/Properties_RadiusEx.v
theories/Properties_Refine.v
theories/Properties_Refine2.v
theories/Properties_Render.v
theories/Properties_Render2.v
theories/Properties_Render2b.v
theories/Properties_Render3.v
theories/Properties_Sample.v
theories/Properties_Sample2.v
theories/Properties_Scale3.v
theories/Properties_Scale4.v
theories/Properties_Scan.v
theories/Properties_Scattering.v
theories/Properties_Shift.v
theories/Properties_Shift2.v
theories/Properties_Shift3.v
theories/Properties_Strain.v
theories/Properties_Structure.v
theories/Properties_Structure2.v
theories/Properties_Templates.v
theories/Properties_Turn2.v
theories/Properties_Turn3.v
theories/Properties_TurnEx.v
theories/Properties_Utils.v
theories/Properties_Verbose.v
theories/Properties_Volume.v
theories/Properties_Window2.v
theories/Properties_Window3.v
theories/Properties_Window4.v
theories/Properties_Witness.v
theories/SAlias.v
theories/SAperture.v
theories/SBack.v
theories/SBeam.v
theories/SBeam2.v
theories/SClip.v
theories/SCorner.v
theories/SCrystal.v
theories/SCuda.v
theories/SDetector.v
theories/SEnd.v
theories/SEvents.v
theories/SFloat.v
theories/SFrame.v
theories/SFriedel.v
theories/SGauge.v
theories/SJoin.v
theories/SLevelset.v
theories/SLinear.v
theories/SMacro.v
theories/SMemory.v
theories/SMesh.v
theories/SNano.v
theories/SNano2.v
theories/SNumber.v
theories/SPassenger.v
theories/SPersist.v
theories/SPhase.v
theories/SPolycrystal.v
theories/SProfile.v
theories/SRadius.v
theories/SRefine.v
theories/SRender.v
theories/SSample.v
theories/SScale.v
theories/SScan.v
theories/SScattering.v
theories/SShift.v
theories/SStrain.v
theories/SStructure.v
theories/STemplates.v
theories/STurn.v
theories/SUtils.v
theories/SVerbose.v
theories/SVolume.v
theories/SWindow.v
theories/Spec.v
theories/Vec.v
