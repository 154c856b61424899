-Q theories Verif
theories/TimeLoop_Model.v
theories/TimeLoop_Spec.v
theories/TimeLoop_Proofs.v
theories/TimeLoop_Props.v
theories/Cfl_Model.v
theories/Cfl_Proofs.v
theories/Cfl_Props.v
theories/CExp.v
theories/Schemes_Model.v
theories/Schemes_Spec.v
theories/Schemes_Proofs.v
theories/Schemes_Order.v
theories/Schemes_Props.v
theories/InPlace_Model.v
theories/InPlace_Spec.v
theories/InPlace_Props.v
theories/PhaseForcing_Props.v
theories/TurbModel_Model.v
theories/TurbModel_Props.v
theories/FD_Model.v
theories/FD_Proofs.v
theories/FD_Props.v
theories/DFT.v
theories/Alias_Model.v
theories/Alias_Proofs.v
theories/Alias_Props.v
theories/PhasePairs_Model.v
theories/PhasePairs_Props.v
theories/StateVars_Model.v
theories/StateVars_Proofs.v
theories/StateVars_Props.v
theories/OutSched_Model.v
theories/OutSched_Spec.v
theories/OutSched_Proofs.v
theories/OutSched_Props.v
theories/OutFiles_Model.v
theories/OutFiles_Spec.v
theories/OutFiles_Proofs.v
theories/OutFiles_Props.v
theories/SpatialMeans_Model.v
theories/SpatialMeans_Spec.v
theories/SpatialMeans_Proofs.v
theories/SpatialMeans_Props.v
theories/PhysFiles_Model.v
theories/PhysFiles_Spec.v
theories/PhysFiles_Proofs.v
theories/PhysFiles_Props.v
theories/Forcing_Model.v
theories/Forcing_Spec.v
theories/Forcing_Proofs.v
theories/Forcing_Props.v
theories/RunDir_Model.v
theories/RunDir_Spec.v
theories/RunDir_Props.v
theories/Params_Model.v
theories/Params_Spec.v
theories/Params_Proofs.v
theories/Params_Props.v
theories/Oper_Model.v
theories/Oper_Spec.v
theories/Oper_Proofs.v
theories/OperVec_Proofs.v
theories/Oper_Props.v
theories/Resol_Model.v
theories/Resol_Proofs.v
theories/Resol_Props.v
theories/Models0D_Model.v
theories/Models0D_Props.v
theories/PrintOut_Model.v
theories/PrintOut_Spec.v
theories/PrintOut_Proofs.v
theories/PrintOut_Props.v
theories/Milestone_Model.v
theories/Milestone_Proofs.v
theories/Milestone_Props.v
theories/Budget_Model.v
theories/Budget_Spec.v
theories/Budget_Proofs.v
theories/Budget2D_Proofs.v
theories/Budget2D_Props.v
theories/Budget3D_Proofs.v
theories/Budget3D_Props.v
theories/Budget1D_Props.v
theories/BudgetEq_Props.v
theories/Means_Model.v
theories/Means_Spec.v
theories/Means_Proofs.v
theories/Means_Props.v
theories/Means3D_Props.v
theories/MeansInj_Props.v
theories/MeansSW_Props.v
theories/Plate_Model.v
theories/Plate_Spec.v
theories/Plate_Proofs.v
theories/Plate_Props.v
theories/PlateAlias_Props.v
theories/SW_Model.v
theories/SWNormal_Model.v
theories/SW_Spec.v
theories/SW_Proofs.v
theories/SWModes_Props.v
theories/SWEq_Props.v
theories/SWOnly_Props.v
theories/SWEnergy_Props.v
theories/SWModified_Props.v
theories/SWForcing_Props.v
theories/Seb_Model.v
theories/Seb2D_Props.v
theories/Seb3D_Props.v
theories/SebSW_Props.v
theories/SebNormal_Model.v
theories/SebNormal_Props.v
theories/PartK_Model.v
theories/PartK_Props.v
theories/Aniso_Model.v
theories/Aniso_Props.v
theories/Incr_Model.v
theories/Incr_Props.v
theories/TSLoad_Model.v
theories/TSLoad_Props.v
theories/TSpec_Model.v
theories/TSpec_Props.v
theories/Prep_Model.v
theories/Prep_Props.v
theories/TCache_Model.v
theories/TCache_Props.v
theories/Probes_Model.v
theories/Probes_Props.v
theories/HMeans_Model.v
theories/HMeans_Props.v
theories/LinMode_Model.v
theories/LinMode_Props.v
theories/MeanVals_Model.v
theories/MeanVals_Props.v
theories/XCorr_Model.v
theories/XCorr_Props.v
theories/Regions_Model.v
theories/Regions_Props.v
theories/Movies_Model.v
theories/Movies_Props.v
theories/Hexa_Model.v
theories/Hexa_Props.v
theories/Script_Model.v
theories/Script_Props.v
theories/Watu_Model.v
theories/Watu_Props.v
theories/StratDt_Model.v
theories/StratDt_Props.v
theories/Noise_Model.v
theories/Noise_Props.v
theories/TSigK_Model.v
theories/TSigK_Props.v
theories/Spec2D_Model.v
theories/Spec2D_Props.v
theories/InitSW_Model.v
theories/InitSW_Props.v
theories/SpecPlot_Model.v
theories/SpecPlot_Props.v
theories/Bench_Model.v
theories/Bench_Props.v
theories/LogLoad_Model.v
theories/LogLoad_Props.v
theories/WithUxuy_Model.v
theories/WithUxuy_Props.v
theories/Sphere_Model.v
theories/Sphere_Props.v
theories/Mile3D_Model.v
theories/Mile3D_Props.v
theories/SaveFile_Model.v
theories/SaveFile_Props.v
theories/StratForce_Model.v
theories/StratForce_Props.v
theories/Xmf_Model.v
theories/Xmf_Props.v
theories/Correl_Model.v
theories/Correl_Props.v
theories/CrossSec_Model.v
theories/CrossSec_Props.v
theories/SWConv_Model.v
theories/SWConv_Props.v
theories/TDef_Model.v
theories/TDef_Props.v
theories/NS3DForce_Model.v
theories/NS3DForce_Props.v
theories/Dimless_Model.v
theories/Dimless_Props.v
theories/BudgetPlot_Model.v
theories/BudgetPlot_Props.v
theories/Repr_Model.v
theories/Repr_Props.v
theories/StratModes_Model.v
theories/StratModes_Props.v
theories/VortexGrid_Model.v
theories/VortexGrid_Props.v
theories/Start_Model.v
theories/Start_Props.v
theories/PlotFlux_Model.v
theories/PlotFlux_Props.v
theories/ModifResol_Model.v
theories/ModifResol_Props.v
theories/LastDuration_Model.v
theories/LastDuration_Props.v
theories/Info_Model.v
theories/Info_Props.v
theories/LoadParams_Model.v
theories/LoadParams_Props.v
theories/CflChoice_Model.v
theories/CflChoice_Props.v
theories/FnlUrUd_Model.v
theories/FnlUrUd_Props.v
theories/Float64_Model.v
theories/Float64_Props.v
theories/Float64Saves_Props.v
theories/Float64Slots_Props.v
theories/ForcedModes_Model.v
theories/ForcedModes_Props.v
theories/CoreMisc_Model.v
theories/CoreMisc_Props.v
theories/LastTime_Model.v
theories/LastTime_Props.v
theories/HexaRead_Model.v
theories/HexaRead_Props.v
theories/CorrelPlots_Model.v
theories/CorrelPlots_Props.v
theories/MeansPV_Model.v
theories/MeansPV_Props.v
theories/Rates_Model.v
theories/Rates_Props.v
theories/ShortName_Model.v
theories/ShortName_Props.v
theories/Magic_Model.v
theories/Magic_Props.v
theories/Slider_Model.v
theories/Slider_Props.v
theories/StratEnergy_Model.v
theories/StratEnergy_Props.v
theories/SpecTimes_Model.v
theories/SpecTimes_Props.v
theories/RunAll_Model.v
theories/RunAll_Props.v
theories/SpecCurves_Model.v
theories/SpecCurves_Props.v
theories/HexaMove_Model.v
theories/HexaMove_Props.v
theories/KolmoPlot_Model.v
theories/KolmoPlot_Props.v
theories/TSpecPlot_Model.v
theories/TSpecPlot_Props.v
theories/KzkhMap_Model.v
theories/KzkhMap_Props.v
theories/HexaTime_Model.v
theories/HexaTime_Props.v
theories/SwSpec_Model.v
theories/SwSpec_Props.v
theories/StratPlot_Model.v
theories/StratPlot_Props.v
theories/ConsoleMain_Model.v
theories/ConsoleMain_Props.v
theories/ForcRegion_Model.v
theories/ForcRegion_Props.v
theories/KzkhOmega_Model.v
theories/KzkhOmega_Props.v
theories/SpecBands_Model.v
theories/SpecBands_Props.v
theories/TempPlot_Model.v
theories/TempPlot_Props.v
theories/PlotPdf_Model.v
theories/PlotPdf_Props.v
theories/PlotPdfFloat_Model.v
theories/PlotPdfFloat_Props.v
