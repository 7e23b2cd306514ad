(** C62: what OpenMDAO requires of a component's declarations. *)
From Coq Require Import List String.
From Verif Require Import Base Py Model_Atmos Model_Phases Model_Propulsion Model_Aero Model_Tank Model_Thermal Model_HX Model_Ducts Model_HeatPipe Model_Weights Model_Drag Model_Polar.
Import ListNotations.
Open Scope R_scope.
Open Scope string_scope.

(** Names are declared once, partials are declared between declared names, and the
    values of outputs and partials come from declared inputs only - a scalar output
    from scalar inputs only (numpy cannot store [num_nodes] values in it). *)
Record well_declared (C : pcomp) : Prop := {
  wd_ins : NoDup (map fst (pc_ins C));
  wd_outs : NoDup (map fst (pc_outs C));
  wd_J : forall o x g, In (o, x, g) (pc_J C) -> In o (map fst (pc_outs C)) /\ In x (map fst (pc_ins C));
  wd_once : NoDup (map fst (pc_J C));
  wd_reads : forall o k f e e', In (o, (k, f)) (pc_outs C) ->
    (forall x kx, In (x, kx) (pc_ins C) -> (k = Sca -> kx = Sca) -> e x = e' x) -> f e = f e';
  wd_J_reads : forall o x g e e', In (o, x, g) (pc_J C) ->
    (forall y ky, In (y, ky) (pc_ins C) -> e y = e' y) -> g e = g e'
}.
(** An explicit component does not read its own outputs. *)
Definition explicit (C : pcomp) : Prop := forall x, In x (map fst (pc_ins C)) -> ~ In x (map fst (pc_outs C)).
(** The residual of an implicit one has its states among the values it reads. *)
Definition residual (C : pcomp) : Prop := forall x, In x (map fst (pc_outs C)) -> In x (map fst (pc_ins C)).

(** The modelled components, with all their options. *)
Inductive shipped : pcomp -> Prop :=
| s_polar b : shipped (PolarDrag b) | s_stall : shipped StallSpeed | s_clean f : shipped (CleanCLmax f)
| s_flap a b c d f : shipped (FlapCLmax a b c d f) | s_hstab c : shipped (HStabSizing c) | s_vstab c : shipped (VStabSizing c)
| s_mac : shipped WingMACTrapezoidal | s_span : shipped WingSpan | s_ar : shipped WingAspectRatio | s_cyl : shipped CylinderSurfaceArea
| s_density : shipped DensityComp | s_sound : shipped SpeedOfSoundComp | s_mach : shipped MachNumberComp | s_tas : shipped TrueAirspeedComp
| s_eas : shipped EquivalentAirspeedComp | s_q : shipped DynamicPressureComp
| s_incomp a b : shipped (ExplicitIncompressibleDuct a b) | s_ti g : shipped (TemperatureIsentropic g) | s_tti g : shipped (TotalTemperatureIsentropic g)
| s_pi g : shipped (PressureIsentropic g) | s_tpi g : shipped (TotalPressureIsentropic g) | s_ideal r : shipped (DensityIdealGas r)
| s_dsound r g : shipped (SpeedOfSound r g) | s_machs : shipped MachNumberfromSpeed | s_heatadd : shipped HeatAdditionPressureLoss
| s_massflow : shipped MassFlow | s_exitm g : shipped (DuctExitMachNumber g) | s_net c : shipped (NetForce c) | s_nozzle : shipped NozzlePressureLoss
| s_ram : shipped ram_recovery
| s_geo : shipped OffsetStripFinGeometry | s_osf : shipped OffsetStripFinData | s_re : shipped HydraulicDiameterReynoldsNumber | s_nu : shipped NusseltFromColburnJ
| s_conv : shipped ConvectiveCoefficient | s_fin : shipped FinEfficiency | s_ua a b : shipped (UAOverall a b) | s_ntu : shipped NTUMethod
| s_cross : shipped CrossFlowNTUEffectiveness | s_ntuq : shipped NTUEffectivenessActualHeatTransfer | s_out : shipped OutletTemperatures
| s_drop a b c d : shipped (PressureDrop a b c d)
| s_hpr a b c d e v : shipped (HeatPipeThermalResistance a b c d e v) | s_hpv a b c : shipped (HeatPipeVaporTempDrop a b c)
| s_hpw a b c : shipped (HeatPipeWeight a b c) | s_qmax a b c d : shipped (QMaxAnalyticalPart a b c d) | s_amm A : shipped (AmmoniaProperties A)
| s_hdiv : shipped heat_divide | s_qmul : shipped q_max_multiplier | s_cond : shipped cond_temp
| s_climb : shipped ClimbAngleComp | s_gs : shipped Groundspeeds | s_ha : shipped HorizontalAcceleration | s_va : shipped VerticalAcceleration
| s_cl : shipped SteadyFlightCL | s_lift : shipped Lift | s_tt h l : shipped (TakeoffTransition h l) | s_tc h : shipped (TakeoffClimb h)
| s_motor o : shipped (SimpleMotor o) | s_gen o : shipped (SimpleGenerator o) | s_turbo p o : shipped (SimpleTurboshaft p o)
| s_splitfr o : shipped (SplitFraction o) | s_splitfx o : shipped (SplitFixed o) | s_pcoef : shipped PropCoefficients | s_thrust : shipped ThrustCalc
| s_propw b : shipped (WeightCalc b) | s_batt a b c d : shipped (SimpleBattery a b c d)
| s_wall a b c : shipped (PressureVesselWall a b c) | s_vac a b c d : shipped (VacuumWall a b c d) | s_mli a b : shipped (MLIWeight a b)
| s_lh2 a b : shipped (InitialLH2Mass a b)
| s_pht c : shipped (PerfectHeatTransferComp c) | s_tm c : shipped (ThermalComponentWithMass c) | s_plate a b c : shipped (ColdPlate a b c)
| s_res : shipped CoolantReservoirRate | s_pump a b c : shipped (SimplePump a b c)
| s_fsplit : shipped FlowSplit | s_fcomb : shipped FlowCombine | s_sel : shipped LinearSelector | s_hpump : shipped COPHeatPump
| s_hpumpw : shipped HeatPumpWeight | s_cop : shipped COPExplicit | s_jacket a b c : shipped (MotorCoolingJacket a b c) | s_band o : shipped (Bandolier o)
| s_w1 n : shipped (WingWeight_SmallTurboprop n) | s_w2 n : shipped (EmpennageWeight_SmallTurboprop n) | s_w3 n : shipped (FuselageWeight_SmallTurboprop n)
| s_w4 : shipped NacelleWeight_SmallSingleTurboprop | s_w5 : shipped NacelleWeight_MultiTurboprop | s_w6 n : shipped (LandingGearWeight_SmallTurboprop n)
| s_w7 k : shipped (FuelSystemWeight_SmallTurboprop k) | s_w8 : shipped EquipmentWeight_SmallTurboprop
| s_w9 n f : shipped (WingWeight_JetTransport n f) | s_w10 f : shipped (HstabConst_JetTransport f) | s_w11 n k s : shipped (HstabWeight_JetTransport n k s)
| s_w12 n t : shipped (VstabWeight_JetTransport n t) | s_w13 : shipped FuselageKws_JetTransport | s_w14 n d l : shipped (FuselageWeight_JetTransport n d l)
| s_w15 n k : shipped (MainLandingGearWeight_JetTransport n k) | s_w16 n k : shipped (NoseLandingGearWeight_JetTransport n k)
| s_w17 : shipped EngineWeight_JetTransport | s_w18 : shipped EngineSystemsWeight_JetTransport | s_w19 : shipped NacelleWeight_JetTransport
| s_w20 l b : shipped (FurnishingWeight_JetTransport l b) | s_w21 c a p : shipped (EquipmentWeight_JetTransport c a p) | s_w22 f : shipped (cabin_volume f)
| s_w23 : shipped CabinWeight_BWB | s_w24 : shipped AftbodyWeight_BWB
| s_d1 q : shipped (FuselageFormFactor_JetTransport q) | s_d2 q : shipped (WingFormFactor_JetTransport q) | s_d3 c q f : shipped (FlapDrag_JetTransport c q f)
| s_d4 l : shipped (SkinFrictionCoefficient_JetTransport l)
| s_p1 v : shipped (VLMDrag v) | s_p2 : shipped AerostructDrag | s_p3 : shipped ExactDrag | s_p4 : shipped Airspeed | s_p5 : shipped UnitReynolds.
Inductive shipped_residual : pcomp -> Prop :=
| r_massless : shipped_residual massless_residual | r_mach : shipped_residual MachNumberDuct
| r_ratio : shipped_residual DuctExitPressureRatioImplicit | r_flow : shipped_residual FlowMatcher.
