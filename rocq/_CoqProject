-Q theories Verif
theories/Base.v
theories/Calc.v
theories/Model_Aero.v
theories/Model_Aerostruct.v
theories/Model_Algebra.v
theories/Model_Atmos.v
theories/Model_Data.v
theories/Model_Derivatives.v
theories/Model_Drag.v
theories/Model_Ducts.v
theories/Model_Fleet.v
theories/Model_Flight.v
theories/Model_HX.v
theories/Model_HeatPipe.v
theories/Model_Integrals.v
theories/Model_Mesh.v
theories/Model_Mission.v
theories/Model_Net.v
theories/Model_Phases.v
theories/Model_Polar.v
theories/Model_Propulsion.v
theories/Model_SingleAisle.v
theories/Model_Sizing.v
theories/Model_Systems.v
theories/Model_Tank.v
theories/Model_Targets.v
theories/Model_Thermal.v
theories/Model_Training.v
theories/Model_Vectors.v
theories/Model_Weights.v
theories/Model_Winged.v
theories/Proofs_Aero.v
theories/Proofs_Airliner.v
theories/Proofs_Algebra.v
theories/Proofs_Atmos.v
theories/Proofs_AutoComps.v
theories/Proofs_BDF3.v
theories/Proofs_Cs.v
theories/Proofs_Data.v
theories/Proofs_Deriv.v
theories/Proofs_Derivatives.v
theories/Proofs_Drag.v
theories/Proofs_Ducts.v
theories/Proofs_Exec.v
theories/Proofs_Fleet.v
theories/Proofs_FleetBody.v
theories/Proofs_FleetFlow.v
theories/Proofs_FleetParts.v
theories/Proofs_FleetSetup.v
theories/Proofs_Flight.v
theories/Proofs_Fly.v
theories/Proofs_FlyBurn.v
theories/Proofs_FlyJet.v
theories/Proofs_FlySized.v
theories/Proofs_FlySizing.v
theories/Proofs_Friction.v
theories/Proofs_HX.v
theories/Proofs_HXJac.v
theories/Proofs_HeatPipe.v
theories/Proofs_IntegJac.v
theories/Proofs_IntegMore.v
theories/Proofs_Integrals.v
theories/Proofs_Journey.v
theories/Proofs_Mesh.v
theories/Proofs_MeshSparse.v
theories/Proofs_Mission.v
theories/Proofs_Net.v
theories/Proofs_Phases.v
theories/Proofs_Profiles.v
theories/Proofs_Propulsion.v
theories/Proofs_Roll.v
theories/Proofs_SingleAisle.v
theories/Proofs_Sized.v
theories/Proofs_Sizing.v
theories/Proofs_Systems.v
theories/Proofs_Takeoff.v
theories/Proofs_Tank.v
theories/Proofs_Thermal.v
theories/Proofs_Training.v
theories/Proofs_Trip.v
theories/Proofs_Vectors.v
theories/Proofs_Weights.v
theories/Props_Aero.v
theories/Props_Aerostruct.v
theories/Props_Airliner.v
theories/Props_AirlinerMet.v
theories/Props_Algebra.v
theories/Props_Atmos.v
theories/Props_CLmax.v
theories/Props_CompressibleCooling.v
theories/Props_Cooling.v
theories/Props_CoolingRuns.v
theories/Props_Declared.v
theories/Props_Derivatives.v
theories/Props_Drag.v
theories/Props_DragTrends.v
theories/Props_DuctDesign.v
theories/Props_DuctHX.v
theories/Props_Ducts.v
theories/Props_Exact.v
theories/Props_Fins.v
theories/Props_Fleet.v
theories/Props_FleetBody.v
theories/Props_Flight.v
theories/Props_Friction.v
theories/Props_HX.v
theories/Props_HeatPipe.v
theories/Props_Integrals.v
theories/Props_Mesh.v
theories/Props_Mission.v
theories/Props_Phases.v
theories/Props_Polar.v
theories/Props_Propulsion.v
theories/Props_Refrigerated.v
theories/Props_SectionInterp.v
theories/Props_SectionJac.v
theories/Props_Sections.v
theories/Props_SingleAisle.v
theories/Props_Sizing.v
theories/Props_SystemRuns.v
theories/Props_SystemSetup.v
theories/Props_Systems.v
theories/Props_Takeoff.v
theories/Props_Tank.v
theories/Props_Targets.v
theories/Props_Thermal.v
theories/Props_Training.v
theories/Props_Trip.v
theories/Props_Units.v
theories/Props_VLM.v
theories/Props_Vectors.v
theories/Props_WaveDrag.v
theories/Props_Weights.v
theories/Props_Winged.v
theories/Py.v
theories/RSum.v
theories/Spec_Aero.v
theories/Spec_Aerostruct.v
theories/Spec_Airliner.v
theories/Spec_Algebra.v
theories/Spec_Data.v
theories/Spec_Declared.v
theories/Spec_Drag.v
theories/Spec_Ducts.v
theories/Spec_Fins.v
theories/Spec_Fleet.v
theories/Spec_Flight.v
theories/Spec_HX.v
theories/Spec_HeatPipe.v
theories/Spec_Integrals.v
theories/Spec_Mesh.v
theories/Spec_Mission.v
theories/Spec_Polar.v
theories/Spec_SingleAisle.v
theories/Spec_Systems.v
theories/Spec_Training.v
theories/Spec_WaveDrag.v
theories/Spec_Weights.v
theories/Spec_Winged.v
