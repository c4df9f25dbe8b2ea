-Q theories Verif
theories/Base.v
theories/Units.v
theories/SpecUnits.v
theories/UnitsProofs.v
theories/Reactions.v
theories/SpecReactions.v
theories/ReactionsProofs.v
theories/P_Reactions.v
theories/Profile.v
theories/SpecProfile.v
theories/ProfileProofs.v
theories/P_Profile.v
theories/Transport.v
theories/SpecTransport.v
theories/TransportProofs.v
theories/FloatComp.v
theories/FloatCompProofs.v
theories/FloatCompAcc.v
theories/SpecConvex.v
theories/ConvexProofs.v
theories/P_Transport.v
theories/Space.v
theories/SpecSpace.v
theories/SpaceProofs.v
theories/P_Space.v
theories/XsData.v
theories/Reactivity.v
theories/SpecReactivity.v
theories/ReactivityProofs.v
theories/P_Reactivity.v
theories/Source.v
theories/SpecSource.v
theories/SourceProofs.v
theories/P_Source.v
theories/Geometry.v
theories/SpecGeometry.v
theories/GeometryProofs.v
theories/P_Geometry.v
theories/Flux.v
theories/SpecFlux.v
theories/FluxProofs.v
theories/P_Flux.v
theories/SpectraData.v
theories/Energy.v
theories/SpecEnergy.v
theories/EnergyProofs.v
theories/P_Energy.v
theories/LogFilter.v
theories/SpecLogFilter.v
theories/P_LogFilter.v
theories/OpenMC.v
theories/SpecOpenMC.v
theories/OpenMCProofs.v
theories/P_OpenMC.v
theories/TextWrap.v
theories/SpecText.v
theories/TextProofs.v
theories/Error.v
theories/SpecError.v
theories/ErrorProofs.v
theories/P_Error.v
theories/Format.v
theories/SpecFormat.v
theories/FormatProofs.v
theories/P_Text.v
theories/Mcnp.v
theories/SpecMcnp.v
theories/McnpProofs.v
theories/SpecSdef.v
theories/SdefProofs.v
theories/TTRange.v
theories/P_Mcnp.v
theories/P_McnpGrid.v
theories/DShape.v
theories/ConvexFlux.v
theories/P_Convex.v
theories/P_ConvexMcnp.v
theories/P_EndToEnd.v
theories/P_EndToEndMcnp.v
theories/McnpIO.v
theories/SpecIO.v
theories/IOProofs.v
theories/P_IO.v
theories/P_Units.v
theories/Paths.v
theories/SpecPaths.v
theories/PathsProofs.v
theories/P_Paths.v
theories/FloatSource.v
theories/SpecFloatSource.v
theories/FloatSourceProofs.v
theories/P_FloatSource.v
theories/SpecGrid.v
theories/GridProofs.v
theories/GridProofs2.v
theories/GridConvex.v
theories/P_Grid.v
theories/SpecIntegral.v
theories/IntegralProofs.v
theories/IntegralProofs2.v
theories/IntegralProofs3.v
theories/P_Integral.v
theories/SpecSmooth.v
theories/SmoothProofs.v
theories/P_Smooth.v
theories/SmoothProfiles.v
theories/P_SmoothPlasma.v
theories/SpecStar.v
theories/StarProofs.v
theories/P_Star.v
theories/PolyPos.v
theories/SpecMono.v
theories/MonoProofs.v
theories/P_Mono.v
theories/SpecSym.v
theories/SymProofs.v
theories/SymSource.v
theories/P_Sym.v
theories/SpecMoments.v
theories/MomentProofs.v
theories/P_Moments.v
theories/SpecReadXs.v
theories/P_ReadXs.v
theories/FloatSpace.v
theories/FloatReactivity.v
theories/SpecFloatSpace.v
theories/FloatSpaceProofs.v
theories/PiProofs.v
theories/P_FloatSpace.v
theories/SpecFloatReactivity.v
theories/FloatReactivityProofs.v
theories/P_FloatReactivity.v
theories/FloatMain.v
theories/SpecFloatMain.v
theories/P_FloatMain.v
theories/FloatOpenMC.v
theories/SpecFloatOpenMC.v
theories/P_FloatOpenMC.v
theories/FloatProfile.v
theories/SpecFloatProfile.v
theories/FloatProfileProofs.v
theories/FloatPedProofs.v
theories/FloatTableProofs.v
theories/P_FloatProfile.v
theories/SpecCurve.v
theories/CurveProofs.v
theories/P_Curve.v
theories/ResampleProofs.v
theories/P_Resample.v
theories/FloatEnergy.v
theories/SpecFloatEnergy.v
theories/FloatEnergyProofs.v
theories/FloatSpectrumProofs.v
theories/FloatGaussProofs.v
theories/FloatMGaussProofs.v
theories/FloatBallabioProofs.v
theories/FloatGeometry.v
theories/SpecFloatGeometry.v
theories/FloatGeometryProofs.v
theories/FloatCentroidProofs.v
theories/P_FloatGeometry.v
theories/P_FloatEnergy.v
theories/FloatMcnp.v
theories/SpecFloatMcnp.v
theories/FloatMcnpProofs.v
theories/FloatMcnpFileProofs.v
theories/FloatMcnpNumProofs.v
theories/FloatMcnpDeckProofs.v
theories/FloatMcnpChannelProofs.v
theories/P_FloatMcnp.v
theories/SpecFloatSdef.v
theories/FloatSdefProofs.v
theories/P_FloatSdef.v
theories/FloatTT.v
theories/SpecFloatTT.v
theories/FloatTTProofs.v
theories/P_FloatTT.v
theories/P_FloatPlasma.v
theories/FloatXs.v
theories/SpecFloatXs.v
theories/FloatXsProofs.v
theories/P_FloatXs.v
