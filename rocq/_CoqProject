-Q theories Verif

theories/Common.v
theories/PyModel.v
theories/MeshModel.v
theories/MeshSpec.v
theories/MeshBuildModel.v
theories/DofModel.v
theories/DofSpec.v
theories/ListLemmas.v
theories/MeshRemoveProofs.v
theories/MeshReorderProofs.v
theories/MeshFacesProofs.v
theories/MeshOrderProofs.v
theories/MeshEdgesProofs.v
theories/MeshBuildProofs.v
theories/MeshTotalProofs.v
theories/DofProofs.v
theories/MeshExamples.v
theories/Props_Mesh.v
theories/RVec.v
theories/DirichletModel.v
theories/DirichletSpec.v
theories/DirichletProofs.v
theories/DirichletMeshProofs.v
theories/DirichletExamples.v
theories/Props_Dirichlet.v
theories/NormalsModel.v
theories/NormalsSpec.v
theories/NormalsProofs.v
theories/NormalsGeomProofs.v
theories/MeshMapProofs.v
theories/NormalsExamples.v
theories/NormalsCases.v
theories/NormalsRows.v
theories/Props_Normals.v
theories/FemModel.v
theories/FemSpec.v
theories/FemGeomProofs.v
theories/FemAssemblyProofs.v
theories/FemFormProofs.v
theories/FemBasicProofs.v
theories/FemOperatorProofs.v
theories/FemMeshProofs.v
theories/FemBuildProofs.v
theories/FemQuadProofs.v
theories/FemExamples.v
theories/FemPipelineProofs.v
theories/FemFinalProofs.v
theories/Props_Fem.v
theories/ForcesModel.v
theories/ForcesSpec.v
theories/ForcesProofs.v
theories/ForcesLoadProofs.v
theories/Props_Forces.v
theories/StatementModel.v
theories/StatementSpec.v
theories/LinAlg.v
theories/StatementProofs.v
theories/StatementValueProofs.v
theories/StatementLawProofs.v
theories/StatementEnergyProofs.v
theories/StatementCacheProofs.v
theories/StatementExamples.v
theories/FemKornProofs.v
theories/StatementMeshProofs.v
theories/Props_Statement.v
theories/ConvexMin.v
theories/ContactModel.v
theories/ContactSpec.v
theories/ContactProofs.v
theories/ContactLawProofs.v
theories/ContactCostProofs.v
theories/ContactForceProofs.v
theories/ContactExtraProofs.v
theories/ContactWitness.v
theories/Props_Contact.v
theories/SchurModel.v
theories/SchurSpec.v
theories/SchurProofs.v
theories/SchurMinProofs.v
theories/SchurStepProofs.v
theories/SchurWitness.v
theories/Props_Schur.v
theories/StateModel.v
theories/TimeModel.v
theories/TimeSpec.v
theories/StateLemmas.v
theories/CopyProofs.v
theories/TimeProofs.v
theories/RunProofs.v
theories/HistoryProofs.v
theories/SolveProofs.v
theories/MarchProofs.v
theories/TimeTheorems.v
theories/ResumeProofs.v
theories/UzawaProofs.v
theories/CoupledTheorems.v
theories/StateProofs.v
theories/ProductRecords.v
theories/CoupledTotal.v
theories/TimeCorollaries.v
theories/TimeWitness.v
theories/Props_Time.v
theories/Props_State.v
theories/RegistryModel.v
theories/RegistrySpec.v
theories/RegistryProofs.v
theories/DispatchProofs.v
theories/DispatchExamples.v
theories/MethodModel.v
theories/MethodProofs.v
theories/RunSpec.v
theories/WholeRunProofs.v
theories/RunTheorems.v
theories/RunTotal.v
theories/RunMeshProofs.v
theories/RunWitness.v
theories/RunExamples.v
theories/RunStable.v
theories/RunUnique.v
theories/Props_Registry.v
theories/Props_Run.v
theories/CrossModel.v
theories/CrossSpec.v
theories/CrossProofs.v
theories/CrossElementProofs.v
theories/CrossBoundaryProofs.v
theories/CrossTheorems.v
theories/CrossBuiltProofs.v
theories/CrossFinalProofs.v
theories/CrossExamples.v
theories/Props_Cross.v
theories/ZerosModel.v
theories/ZerosSpec.v
theories/ZerosProofs.v
theories/ZerosMeshProofs.v
theories/ZerosExamples.v
theories/Props_Zeros.v
theories/ConstrainedSpec.v
theories/ConstrainedProofs.v
theories/ConstrainedSchurProofs.v
theories/ConstrainedWitness.v
theories/Props_Constrained.v
theories/OptimisationModel.v
theories/ContactRunSpec.v
theories/OptimisationProofs.v
theories/ContactRunProofs.v
theories/ContactRunTheorems.v
theories/ContactRunWitness.v
theories/Props_ContactRun.v
theories/OptimiserSpec.v
theories/OptimiserProofs.v
theories/Props_Optimiser.v
theories/ProblemModel.v
theories/ProblemSpec.v
theories/ProblemProofs.v
theories/ProblemReady.v
theories/ProblemTheorems.v
theories/ProblemUnique.v
theories/ProblemTotal.v
theories/ProblemDefaults.v
theories/ProblemFinal.v
theories/ProblemConst.v
theories/ProblemWitness.v
theories/Props_Problem.v
theories/ProblemContactModel.v
theories/ProblemContactSpec.v
theories/ProblemContactProofs.v
theories/ProblemContactTheorems.v
theories/ProblemContactFinal.v
theories/ProblemContactWitness.v
theories/ProblemContactSingular.v
theories/Props_ProblemContact.v
theories/ProblemStateSpec.v
theories/ProblemStateProofs.v
theories/Props_ProblemState.v
theories/SolidSpec.v
theories/SolidProofs.v
theories/ZooModel.v
theories/ZooSpec.v
theories/ZooCheck.v
theories/ZooProofs.v
theories/ZooBuilt.v
theories/ZooTwist.v
theories/ImportSpec.v
theories/ImportProofs.v
theories/CentreSpec.v
theories/CentreProofs.v
theories/ZooFinal.v
theories/Props_Zoo.v
theories/StressModel.v
theories/StressSpec.v
theories/StressProofs.v
theories/StressFinal.v
theories/Props_Stress.v
theories/PlotModel.v
theories/PlotSpec.v
theories/PlotProofs.v
theories/Props_Plot.v
theories/MmsModel.v
theories/MmsSpec.v
theories/MmsProofs.v
theories/Props_Mms.v
theories/LawsModel.v
theories/LawsSpec.v
theories/CompositeProofs.v
theories/LawsProofs.v
theories/Props_Laws.v
theories/GaussSpec.v
theories/GaussProofs.v
theories/GaussFinal.v
theories/SidesProofs.v
theories/SidesFinal.v
theories/PatchSpec.v
theories/PatchProofs.v
theories/PatchFinal.v
theories/PatchProblemSpec.v
theories/PatchPosed.v
theories/GaussBuilt.v
theories/PatchWitness.v
theories/Props_Gauss.v
theories/CoupledMethodModel.v
theories/CoupledSpec.v
theories/CoupledMethodProofs.v
theories/CoupledProblemSpec.v
theories/ElectrodeProofs.v
theories/ElectrodeUserProofs.v
theories/CoupledProblemTheorems.v
theories/CoupledGoes.v
theories/CoupledProblemTotal.v
theories/CoupledProblemFinal.v
theories/CoupledResidual.v
theories/CoupledWitness.v
theories/Props_Coupled.v
theories/AlternationProofs.v
theories/CoupledLimitSpec.v
theories/CoupledLimitProofs.v
theories/CoupledLimitFinal.v
theories/CoupledLimitTheorems.v
theories/CoupledLimitRuns.v
theories/FierceWitness.v
theories/CoupledLimitWitness.v
theories/Props_CoupledLimit.v
theories/EulerProofs.v
theories/ConvergenceSpec.v
theories/ConvergenceProofs.v
theories/ConvergenceFinal.v
theories/ConvergenceUnique.v
theories/ConvergenceWitness.v
theories/Props_Convergence.v
theories/EulerContactProofs.v
theories/ConvergenceContactSpec.v
theories/ConvergenceContactProofs.v
theories/ProblemContactExists.v
theories/ConvergenceContactFinal.v
theories/ConvergenceContactWitness.v
theories/Props_ConvergenceContact.v
theories/StaleSpec.v
theories/StaleProofs.v
theories/StaleFinal.v
theories/Props_Stale.v
theories/EulerMemoryProofs.v
theories/ConvergenceMemorySpec.v
theories/ConvergenceMemoryProofs.v
theories/ConvergenceMemoryFinal.v
theories/ConvergenceMemoryWitness.v
theories/Props_ConvergenceMemory.v
theories/InexactSpec.v
theories/InexactEuler.v
theories/InexactProofs.v
theories/InexactFinal.v
theories/InexactWitness.v
theories/Props_Inexact.v
theories/PoissonProofs.v
theories/DirichletMissing.v
theories/EstimateModel.v
theories/EstimateSpec.v
theories/EstimateProofs.v
theories/EstimateFinal.v
theories/EstimateWitness.v
theories/Props_Estimate.v
theories/ResultsModel.v
theories/ResultsSpec.v
theories/ResultsProofs.v
theories/ResultsFinal.v
theories/ResultsWitness.v
theories/ResultsRepeated.v
theories/Props_Results.v
theories/SurveyModel.v
theories/SurveySpec.v
theories/SurveyProofs.v
theories/Props_Survey.v
theories/ClockModel.v
theories/ClockSpec.v
theories/ClockProofs.v
theories/ClockAdvance.v
theories/Props_Clock.v
theories/RateModel.v
theories/RateSpec.v
theories/RateProofs.v
theories/RateWitness.v
theories/RateFinal.v
theories/Props_Rate.v
theories/GridModel.v
theories/GridSpec.v
theories/GridProofs.v
theories/GridFinal.v
theories/GridTheorems.v
theories/GridFailures.v
theories/Props_Grid.v
