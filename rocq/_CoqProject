-Q theories Verif

theories/Num.v
theories/TimeLoop_Model.v
theories/TimeLoop_Spec.v
theories/TimeLoop_Proofs.v
theories/TimeLoop_Proofs2.v
theories/TimeLoop_Proofs3.v
theories/P_TimeLoop.v
theories/Exporter_Model.v
theories/Exporter_Spec.v
theories/Exporter_Proofs.v
theories/P_Exporter.v
theories/Callback_Model.v
theories/Callback_Spec.v
theories/Callback_Proofs.v
theories/Callback_Proofs2.v
theories/Callback_Proofs3.v
theories/P_Callback.v
theories/Timezone_Model.v
theories/Timezone_Spec.v
theories/Timezone_Proofs.v
theories/P_Timezone.v
theories/Interp_Model.v
theories/Interp_Spec.v
theories/Interp_Proofs.v
theories/Interp_Proofs2.v
theories/P_Interp.v
theories/RK_Model.v
theories/RK_Spec.v
theories/RK_Proofs.v
theories/RK_Proofs2.v
theories/RK_Proofs3.v
theories/RK_Proofs4.v
theories/P_RungeKutta.v
theories/TimeInt_Model.v
theories/TimeInt_Spec.v
theories/TimeInt_Proofs.v
theories/P_TimeInt.v
theories/Options_Model.v
theories/Options_Table.v
theories/Options_Spec.v
theories/Options_Proofs.v
theories/Options_Proofs2.v
theories/P_Options.v
theories/Limiter_Model.v
theories/Limiter_Spec.v
theories/Limiter_Proofs.v
theories/P_Limiter.v
theories/Equation_Model.v
theories/Equation_Spec.v
theories/Equation_Proofs.v
theories/P_Equation.v
theories/Depth_Model.v
theories/P_Depth.v
theories/Stability_Model.v
theories/P_Stability.v
theories/P_StabilitySets.v
theories/Turb_Model.v
theories/P_Turbulence.v
theories/Turbine_Model.v
theories/P_Turbines.v
theories/Sediment_Model.v
theories/P_Sediment.v
theories/Log_Model.v
theories/P_Log.v
theories/Coords_Model.v
theories/P_Coords.v
theories/Optim_Model.v
theories/P_Optim.v
theories/Eos_Model.v
theories/P_Eos.v
theories/Extrude_Model.v
theories/P_Extrude.v
theories/Column_Model.v
theories/P_Column.v
theories/Forms_Model.v
theories/Forms_Spec.v
theories/Forms_Proofs.v
theories/P_SWE.v
theories/Forms_Examples.v
theories/P_SWE_Examples.v
theories/P_Bnd.v
theories/P_Tracer2d.v
theories/P_Tracer2d_Examples.v
theories/Coupled2d_Model.v
theories/Coupled2d_Spec.v
theories/P_Coupled2d.v
theories/P_Coupled2d_Examples.v
theories/P_Coupled2d_Picard.v
theories/Detector_Model.v
theories/P_Detector.v
theories/Inversion_Model.v
theories/P_Inversion.v
theories/P_Inversion_Records.v
theories/P_Tightened.v
theories/Registry_Model.v
theories/P_Registry.v
theories/Forms3d_Model.v
theories/Forms3d_Spec.v
theories/P_Tracer3d.v
theories/P_Tracer3d_Bounds.v
theories/P_AleConst.v
theories/Mom3d_Model.v
theories/P_Mom3d.v
theories/P_Mom3d_Pressure.v
theories/Coupled3d_Model.v
theories/Coupled3d_Proofs.v
theories/P_Coupled3d.v
theories/P_Coupled3d_Mean.v
theories/P_Tightened2.v
theories/P_Tightened3.v
theories/P_Tightened4.v
theories/Forcing_Model.v
theories/P_Forcing.v
theories/P_Forcing2.v
theories/Diag_Model.v
theories/P_Diag.v
theories/Nonhydro_Model.v
theories/P_Nonhydro.v
theories/P_Tightened5.v
theories/TimeStep_Model.v
theories/P_TimeStep.v
theories/SolverParams_Model.v
theories/P_SolverParams.v
theories/Schur_Model.v
theories/P_Schur.v
theories/P_VelocityBlock.v
theories/Geometry_Model.v
theories/P_Geometry.v
theories/P_Geometry2.v
theories/P_Geometry3.v
theories/GLSInit_Model.v
theories/P_GLSInit.v
theories/P_GLSInit2.v
theories/P_GLSInit3.v
theories/Cfl_Model.v
theories/Stable_Spec.v
theories/Stable_Proofs.v
theories/P_Stable.v
theories/P_Stable2.v
theories/P_Stable3.v
theories/P_Energy.v
theories/P_Energy2.v
theories/P_Tightened6.v
theories/P_Tightened7.v
theories/P_Tightened8.v
theories/Setup_Model.v
theories/Setup_Spec.v
theories/Setup_Proofs.v
theories/P_Setup.v
theories/P_Setup2.v
theories/InitCond_Model.v
theories/P_InitCond.v
theories/LogFile_Model.v
theories/P_LogFile.v
theories/Spaces_Model.v
theories/P_Spaces.v
theories/P_Spaces2.v
theories/P_Tightened9.v
theories/Exner_Model.v
theories/P_Exner.v
theories/P_Tightened10.v
theories/SourcePoints_Model.v
theories/P_SourcePoints.v
theories/P_Tightened11.v
theories/Strain_Model.v
theories/P_Strain.v
theories/StationFile_Model.v
theories/P_StationFile.v
theories/InvTests_Model.v
theories/P_InvTests.v
theories/Galerkin_Model.v
theories/Galerkin_Proofs.v
theories/P_Galerkin.v
theories/Dates_Model.v
theories/P_Dates.v
theories/Galerkin3d_Model.v
theories/Galerkin3d_Proofs.v
theories/P_Galerkin3d.v
theories/Wiring_Model.v
theories/Wiring_Spec.v
theories/P_Wiring.v
theories/LinSys_Proofs.v
theories/WaveEnergy_Spec.v
theories/WaveEnergy_Proofs.v
theories/P_WaveEnergy.v
theories/P_WaveEnergy_Examples.v
theories/P_Tightened12.v
theories/Variance_Spec.v
theories/P_Variance.v
theories/P_Variance_Examples.v
theories/TurbineFile_Model.v
theories/TurbineFile_Spec.v
theories/P_TurbineFile.v
theories/Dissip_Proofs.v
theories/VMix_Model.v
theories/VMix_Spec.v
theories/P_VMix.v
theories/P_VMix_Momentum.v
theories/P_VMix_Column.v
theories/P_VMix_Examples.v
theories/Bounds_Spec.v
theories/Bounds_Proofs.v
theories/P_Bounds.v
theories/P_Bounds_Examples.v
theories/Frame_Spec.v
theories/Frame_Proofs.v
theories/P_Frame.v
theories/Frame3d_Spec.v
theories/Frame3d_Proofs.v
theories/P_Frame3d.v
theories/Super_Spec.v
theories/Super_Proofs.v
theories/Super_Swe_Spec.v
theories/Super_Swe_Proofs.v
theories/P_Super.v
theories/P_Super_Examples.v
theories/Super3d_Spec.v
theories/Super3d_Proofs.v
theories/P_Super3d.v
theories/Watch_Model.v
theories/Watch_Spec.v
theories/P_Watch.v
theories/Sym_Spec.v
theories/Sym_Proofs.v
theories/P_Sym.v
theories/Datum_Spec.v
theories/Datum_Proofs.v
theories/P_Datum.v
theories/SedCheck_Model.v
theories/P_SedCheck.v
theories/Basin_Spec.v
theories/Basin_Proofs.v
theories/P_Basin.v
