{"id": "C01", "title": "Simpson integrator reproduces the exact integral of quadratic rates at every node", "statement": "Integrator(method='simpson'): if the rate input holds the node values of a polynomial of degree <= 2 in time, every entry of the state output equals start value + exact integral from t0 to that node; for cubic rates every even-indexed node (including the final value output) is exact.", "quantifier": "every odd num_nodes >= 3, every polynomial, every dt/start value/start time", "why_tests_cant": "num_nodes and polynomial coefficients are unbounded; a test fixes both.", "anchors": ["openconcept/utilities/math/integrals.py: simpson_cache_matrix, multistep_integrator, Integrator.compute"]}
{"id": "C02", "title": "BDF3 integrator is exact for quadratic rates, and its solution is the unique solution of the published difference scheme", "statement": "Integrator(method='bdf3'): the state output at every node equals start value + exact integral whenever the rate is polynomial of degree <= 2; the matrix that is inverted is non-singular for every accepted size, so the output is the only vector satisfying the BDF3 difference equations.", "quantifier": "every odd num_nodes >= 5, every rate vector / polynomial", "why_tests_cant": "non-singularity and exactness for every size cannot be sampled.", "anchors": ["openconcept/utilities/math/integrals.py: bdf3_cache_matrix, multistep_integrator, Integrator.compute"]}
{"id": "C03", "title": "The three ways to specify time are interchangeable", "statement": "Integrator with time_setup 'dt', 'duration' and 'bounds' give identical state outputs whenever dt = duration/(n-1) = (t_final - t_initial)/(n-1).", "quantifier": "every n, rate vector, start value and time interval", "why_tests_cant": "ranges over all vectors and sizes.", "anchors": ["openconcept/utilities/math/integrals.py: Integrator.compute"]}
{"id": "C04", "title": "The integrator is affine: superposition of rates, shift by start value, final value is last node", "statement": "Integrator output is linear in the rate vector, scales with dt, shifts one-for-one with the start value; entry 0 equals the start value exactly; the final value output equals the last entry; a single-node integrator returns the start value.", "quantifier": "every method, size, rate vector", "why_tests_cant": "universally quantified over vectors.", "anchors": ["openconcept/utilities/math/integrals.py: Integrator.compute, multistep_integrator"]}
{"id": "C05", "title": "Integrator partial derivatives equal the true derivatives", "statement": "Every entry of the Jacobian declared/computed by Integrator (state and final value w.r.t. rate, start value and the time inputs) equals the mathematical derivative of compute, for each time_setup.", "quantifier": "every size, method, time_setup and input value", "why_tests_cant": "derivative checks sample points; exactness must hold at all points, including inputs whose contribution is exactly zero.", "anchors": ["openconcept/utilities/math/integrals.py: Integrator.add_integrand, Integrator.setup, Integrator.compute_partials"]}
{"id": "C06", "title": "Multi-segment integration chains segments without gaps", "statement": "OldIntegrator with k segments equals integrating each segment separately, each started from the final value of the previous one; the first node of a segment repeats the last value of the previous segment.", "quantifier": "every number of segments, segment size, per-segment dt, rate vectors", "why_tests_cant": "unbounded segments/histories.", "anchors": ["openconcept/utilities/math/integrals.py: multistep_integrator, OldIntegrator"]}
{"id": "C07", "title": "Skipped segments contribute nothing but keep their place", "statement": "With segments_to_count, the state holds constant across every segment not listed and the listed segments contribute as if the others had zero rate.", "quantifier": "every subset of segments", "why_tests_cant": "2^k subsets times all vectors.", "anchors": ["openconcept/utilities/math/integrals.py: multistep_integrator (segments_to_count)"]}
{"id": "C08", "title": "First-derivative component is exact on polynomials", "statement": "FirstDerivative/first_deriv of order 4 (order 2) applied to node values of a polynomial of degree <= 4 (<= 2) returns the exact derivative at every node of every segment; segments do not influence each other.", "quantifier": "every segment count, segment size admitted by the code, dt, polynomial", "why_tests_cant": "all sizes and coefficients.", "anchors": ["openconcept/utilities/math/derivatives.py: first_deriv, FirstDerivative"]}
{"id": "C09", "title": "First-derivative partials equal true derivatives", "statement": "The partials of the derivative component w.r.t. the values and the time steps equal the derivative of its compute at every point.", "quantifier": "every size, order, input", "why_tests_cant": "exactness at all points.", "anchors": ["openconcept/utilities/math/derivatives.py: first_deriv_partials, FirstDerivative.compute_partials"]}
{"id": "C10", "title": "AddSubtractComp computes the scaled sum and declares its exact Jacobian", "statement": "After add_equation(output, inputs, vec_size, length, scaling_factors, units) the output is elementwise sum of scaling_factor*input with size-1 inputs broadcast; the declared constant Jacobian is the derivative; malformed calls are rejected with the documented exception.", "quantifier": "every list of inputs, sizes, scale factors and values", "why_tests_cant": "unbounded configuration space.", "anchors": ["openconcept/utilities/math/add_subtract_comp.py: AddSubtractComp"]}
{"id": "C11", "title": "AddSubtractComp units survive repeated setup", "statement": "Calling setup again on the same problem declares the same variables with the same units as the first time.", "quantifier": "every history of setup calls", "why_tests_cant": "history property.", "anchors": ["openconcept/utilities/math/add_subtract_comp.py: AddSubtractComp.setup"]}
{"id": "C12", "title": "ElementMultiplyDivideComp computes the product/quotient and its exact Jacobian", "statement": "Output = scaling_factor * product of multiplied inputs / product of divided inputs with broadcasting; partials equal the derivative wherever divided inputs are non-zero; malformed calls are rejected.", "quantifier": "every list of inputs, divide flags, sizes, values", "why_tests_cant": "unbounded configuration space.", "anchors": ["openconcept/utilities/math/multiply_divide_comp.py: ElementMultiplyDivideComp"]}
{"id": "C13", "title": "Output units assembled by ElementMultiplyDivideComp are the product of the input units", "statement": "The unit string declared for the output denotes the product of the input units (inverted for divided inputs), unitless inputs contributing nothing. For the equations the library's own groups add, the output unit is that of the quantity (force, mass per time, per time, weight, or none).", "quantifier": "every list of optional unit strings and divide flags", "why_tests_cant": "all combinations of None / unit / divide.", "anchors": ["openconcept/utilities/math/multiply_divide_comp.py: ElementMultiplyDivideComp.setup"]}
{"id": "C14", "title": "Concatenate and split are mutually inverse", "statement": "VectorConcatenateComp followed by VectorSplitComp with the same vec_sizes returns the original vectors and vice versa; declared Jacobian is the exact (permutation) derivative; size mismatches are rejected.", "quantifier": "every list of vector sizes and values", "why_tests_cant": "unbounded sizes.", "anchors": ["openconcept/utilities/math/combine_split_comp.py: VectorConcatenateComp, VectorSplitComp"]}
{"id": "C15", "title": "MaxComp/MinComp return the extreme value with a valid derivative", "statement": "The output is an element of the input, no element exceeds it; where the extreme value is attained once the declared partials are the true gradient.", "quantifier": "every vector", "why_tests_cant": "all vectors, ties included.", "anchors": ["openconcept/utilities/math/max_min_comp.py: MaxComp, MinComp"]}
{"id": "C16", "title": "SelectorComp returns the selected input at every node", "statement": "At every node the output equals the value of the input whose index is the rounded selector value, out-of-range selectors are rejected, and the partials are the true derivatives away from the half-integers.", "quantifier": "every number of inputs/nodes, selector vectors", "why_tests_cant": "all selector vectors.", "anchors": ["openconcept/utilities/selector.py: SelectorComp"]}
{"id": "C17", "title": "LinearInterpolator interpolates linearly between the end values", "statement": "First/last entries equal start_val/end_val, entries are equally spaced and lie between the ends, partials are exact.", "quantifier": "every num_nodes, values", "why_tests_cant": "all sizes.", "anchors": ["openconcept/utilities/linearinterp.py: LinearInterpolator"]}
{"id": "C18", "title": "DictIndepVarComp publishes exactly the value stored at the '|' path", "statement": "add_output_from_dict(path) declares an output of that name whose value/units are those stored in the nested dictionary; a missing path or value raises KeyError and adds nothing.", "quantifier": "every nested dictionary and path", "why_tests_cant": "unbounded nesting.", "anchors": ["openconcept/utilities/dict_indepvarcomp.py: DictIndepVarComp.add_output_from_dict"]}
{"id": "C19", "title": "DVLabel is the identity with identity Jacobian and is reusable", "statement": "Each labelled output equals its input with identity Jacobian; the caller's list can be reused to build another component.", "quantifier": "every list of labels", "why_tests_cant": "all lists and histories.", "anchors": ["openconcept/utilities/dvlabel.py: DVLabel"]}
{"id": "C20", "title": "Atmosphere temperature/pressure are continuously differentiable and their partials are the derivatives at every altitude", "statement": "TemperatureComp and PressureComp: outputs are continuous and differentiable for every altitude in the model range, including the seams at 10.5 and 11.5 km, and the computed partials equal the derivative there.", "quantifier": "every altitude vector", "why_tests_cant": "the seams are measure-zero and sampling misses them.", "anchors": ["openconcept/atmospherics/atmospherics_data.py: get_mask_arrays, compute_temps, compute_pressures, compute_temp_derivs, compute_pressure_derivs", "openconcept/atmospherics/temperature_comp.py", "openconcept/atmospherics/pressure_comp.py"]}
{"id": "C21", "title": "Partials always belong to the inputs they are requested for", "statement": "compute_partials of the atmosphere components returns the derivative at the inputs it is called with, whatever inputs compute was last called with.", "quantifier": "every interleaving of compute and compute_partials calls", "why_tests_cant": "history property.", "anchors": ["openconcept/atmospherics/temperature_comp.py: TemperatureComp.compute_partials", "openconcept/atmospherics/pressure_comp.py: PressureComp.compute_partials"]}
{"id": "C22", "title": "The standard atmosphere is physically monotone", "statement": "Pressure is positive and strictly decreasing with altitude, temperature is non-increasing and bounded below, density is positive, on the whole valid altitude range.", "quantifier": "every pair of altitudes", "why_tests_cant": "monotonicity is over all pairs.", "anchors": ["openconcept/atmospherics/atmospherics_data.py", "openconcept/atmospherics/density_comp.py"]}
{"id": "C23", "title": "True and equivalent airspeed conversions are mutually inverse", "statement": "TrueAirspeedComp and EquivalentAirspeedComp are inverse to each other; dynamic pressure computed from TAS and density equals that from EAS and sea-level density; Mach = U/a with a^2 = gamma R T; partials exact.", "quantifier": "every density, speed", "why_tests_cant": "all reals.", "anchors": ["openconcept/atmospherics/true_airspeed.py", "openconcept/atmospherics/dynamic_pressure_comp.py", "openconcept/atmospherics/mach_number_comp.py", "openconcept/atmospherics/speedofsound_comp.py"]}
{"id": "C24", "title": "Groundspeed and flight-path angle decompose the true airspeed", "statement": "Groundspeeds: where TAS >= |vertical speed| > ..., groundspeed^2 + vs^2 = Utrue^2, singamma = vs/Utrue, cosgamma^2+singamma^2 = 1, outputs are never NaN, partials exact off the clipping boundary.", "quantifier": "every vs, Utrue vector", "why_tests_cant": "all reals incl. clipped region.", "anchors": ["openconcept/mission/phases.py: Groundspeeds"]}
{"id": "C25", "title": "Steady-flight lift coefficient balances weight", "statement": "SteadyFlightCL: lift q*S*CL equals W*g*cos(gamma); partials exact.", "quantifier": "all inputs", "why_tests_cant": "all reals.", "anchors": ["openconcept/mission/phases.py: SteadyFlightCL"]}
{"id": "C26", "title": "Acceleration components implement Newton's law with exact partials", "statement": "HorizontalAcceleration is ((T-D) - braking*(W-L) - W sin gamma)/W*g...; VerticalAcceleration respects the clip; partials are the derivative of the output at every input.", "quantifier": "all inputs incl. saturated ones", "why_tests_cant": "saturation regions.", "anchors": ["openconcept/mission/phases.py: HorizontalAcceleration, VerticalAcceleration"]}
{"id": "C27", "title": "Balanced-field residual vanishes exactly at a balanced field", "statement": "BFLImplicitSolve residual is zero iff abort and continue distances are equal, or V1 is held at Vr because continuing is never shorter.", "quantifier": "all speeds and distances", "why_tests_cant": "all reals.", "anchors": ["openconcept/mission/phases.py: BFLImplicitSolve"]}
{"id": "C28", "title": "Takeoff transition and climb geometry reach the obstacle consistently", "statement": "TakeoffTransition/TakeoffClimb: the transition ends no higher than the obstacle, distance is continuous in the inputs at the obstacle-in-arc switch, transition height plus climb reaches the obstacle height, partials exact.", "quantifier": "all inputs", "why_tests_cant": "switching surface.", "anchors": ["openconcept/mission/phases.py: TakeoffTransition, TakeoffClimb"]}
{"id": "C29", "title": "Linked phases hand over every common state", "statement": "TrajectoryGroup.link_phases: each state present in both phases and not skipped gets exactly one connection from the end of the first to the start of the second; skipped states and states missing in either get none; non-phase arguments are rejected.", "quantifier": "every pair of state lists and skip lists", "why_tests_cant": "unbounded state lists.", "anchors": ["openconcept/mission/mission_groups.py: TrajectoryGroup._link_phases, link_phases"]}
{"id": "C30", "title": "Every integrator of a phase gets the phase duration exactly once", "statement": "PhaseGroup connects its duration output to each distinct integrator duration input once, never twice, whatever the nesting and promotion.", "quantifier": "every model tree", "why_tests_cant": "unbounded trees.", "anchors": ["openconcept/mission/mission_groups.py: PhaseGroup.configure, find_integrators_in_model"]}
{"id": "C31", "title": "Automatically created adder/multiplier components never collide", "statement": "IntegratorGroup.promote_add / promote_mult: any sequence of calls creates subsystems with pairwise distinct names, each computing the requested sum/product with the requested promotions.", "quantifier": "every call sequence", "why_tests_cant": "history property.", "anchors": ["openconcept/mission/mission_groups.py: IntegratorGroup.promote_add, promote_mult"]}
{"id": "C32", "title": "Rate outputs tagged for integration are all integrated", "statement": "IntegratorGroup.configure: every tagged rate output gets one integrator state with the declared name, units, start value and bounds; a tag without state_name is rejected.", "quantifier": "every set of tagged outputs", "why_tests_cant": "unbounded sets.", "anchors": ["openconcept/mission/mission_groups.py: IntegratorGroup.configure"]}
{"id": "C33", "title": "Mission profiles form one connected trajectory", "statement": "In BasicMission, MissionWithReserve, FullMissionAnalysis, FullMissionWithReserve every user state present in all phases is handed from each phase to the next in flight order, the deliberately skipped states are the documented ones, and no input is driven twice.", "quantifier": "every list of user states; every option combination", "why_tests_cant": "unbounded user state lists.", "anchors": ["openconcept/mission/profiles.py: BasicMission, MissionWithReserve, FullMissionAnalysis, FullMissionWithReserve"]}
{"id": "C34", "title": "FlipVectorComp reverses the vector (optionally negated)", "statement": "Output is the reversed (negated) input, flipping twice is the identity; Jacobian exact.", "quantifier": "every size and vector", "why_tests_cant": "all sizes.", "anchors": ["openconcept/mission/phases.py: FlipVectorComp"]}
{"id": "C35", "title": "PowerSplit conserves power under every rule", "statement": "power_out_A + power_out_B + heat_out = power_in for every rule and every input; the fixed rule never sends more to A than asked nor more than available; partials exact.", "quantifier": "all rules, inputs", "why_tests_cant": "all reals.", "anchors": ["openconcept/propulsion/splitter.py: PowerSplit"]}
{"id": "C36", "title": "Motor, generator and turboshaft conserve power with exact partials", "statement": "shaft power + heat = electrical load (motor), electrical power + heat = shaft power (generator), fuel flow = psfc * power (turboshaft); cost/weight affine; full Jacobian exact for every num_nodes.", "quantifier": "all inputs, num_nodes", "why_tests_cant": "all reals.", "anchors": ["openconcept/propulsion/motor.py: SimpleMotor", "openconcept/propulsion/generator.py: SimpleGenerator", "openconcept/propulsion/turboshaft.py: SimpleTurboshaft"]}
{"id": "C37", "title": "Propeller thrust is continuous across the static/dynamic switch and coefficients are consistent", "statement": "ThrustCalc: thrust is continuous in advance ratio at J=0.1 and 0.2, in the dynamic regime thrust*velocity = eta*power; partials exact in the interior of each regime; PropCoefficients partials exact incl. at zero airspeed.", "quantifier": "all inputs", "why_tests_cant": "switching boundaries.", "anchors": ["openconcept/propulsion/propeller.py: ThrustCalc, PropCoefficients, WeightCalc"]}
{"id": "C38", "title": "Supported blade counts are accepted", "statement": "SimplePropeller can be set up with 3 or 4 blades and rejects others.", "quantifier": "every blade count, map choice", "why_tests_cant": "configuration space.", "anchors": ["openconcept/propulsion/propeller.py: SimplePropeller.setup"]}
{"id": "C39", "title": "Rubberised turbofan scales thrust and fuel together", "statement": "Thrust-specific fuel consumption is independent of the rating; thrust scales linearly with the rating; hydrogen option keeps thrust-specific energy.", "quantifier": "all ratings, fuels, engines", "why_tests_cant": "all reals.", "anchors": ["openconcept/propulsion/rubberized_turbofan.py: RubberizedTurbofan"]}
{"id": "C40", "title": "Battery energy accounting", "statement": "SimpleBattery: heat, margins and max energy obey the defining relations with exact partials; SOCBattery: state of charge falls by exactly the integral of load over max energy for loads the quadrature integrates exactly.", "quantifier": "all inputs, loads, num_nodes", "why_tests_cant": "all reals/sizes.", "anchors": ["openconcept/energy_storage/battery.py: SimpleBattery, SOCBattery"]}
{"id": "C41", "title": "LH2 tank mass accounting", "statement": "LH2TankNoBoilOff: liquid mass + consumed = initial fill mass; fill level in [0,1] while consumption does not exceed the fill; fill level * rho * volume = liquid mass; partials exact.", "quantifier": "all tank sizes, densities, initial fills, flow histories, start values and odd node counts", "why_tests_cant": "The claim holds at every node of every mission history for any number of nodes; tests run a few fixed histories.", "anchors": ["openconcept/energy_storage/hydrogen/LH2_tank_no_boil_off.py"]}
{"id": "C42", "title": "Tank structure sizing keeps stress and buckling limits", "statement": "For positive pressures, radii and material constants: PressureVesselWallThickness gives a wall whose hoop stress is exactly yield stress / safety factor. VacuumWallThickness gives a wall which, before the stiffening multiplier, withstands safety_factor times the pressure as a cylinder and as a sphere, with one limit met exactly; a tank of length 0 is sized as a sphere. VacuumTankWeight is the fudge factor times (inner wall + outer wall at the radius enlarged by the gap + insulation) and is positive. The partials are exact wherever cylinder and sphere criteria are not tied (and the cylinder is at least 1e-6 m long if it governs).", "quantifier": "all positive pressures, radii, gaps, layer counts, lengths >= 0 and all positive option values", "why_tests_cant": "The governing criterion and the length-0 special case split the input space into regimes; tests sample a few tanks with default materials.", "anchors": ["openconcept/energy_storage/hydrogen/structural.py"]}
{"id": "C43", "title": "Aerodynamic drag polar, lift and stall speed", "statement": "PolarDrag, Lift, StallSpeed satisfy their defining equations with exact partials: at stall speed lift at CLmax equals weight.", "quantifier": "all inputs", "why_tests_cant": "all reals.", "anchors": ["openconcept/aerodynamics/aerodynamics.py"]}
{"id": "C44", "title": "Section-defined wings: area and mean chord are the planform integrals", "statement": "WingAreaFromSections and WingMACFromSections equal the integrals of the piecewise linear chord for any number of sections, are unchanged when a section is inserted on a straight panel, and agree with the trapezoidal formulas for two sections.", "quantifier": "every number of sections", "why_tests_cant": "unbounded sections.", "anchors": ["openconcept/geometry/wing_planform.py: WingAreaFromSections, WingMACFromSections, WingMACTrapezoidal, WingSpan, WingAspectRatio, WingSweepFromSections"]}
{"id": "C45", "title": "Tail sizing reproduces the requested volume coefficient", "statement": "HStab/VStab areas give back the input volume coefficient; partials exact.", "quantifier": "all inputs", "why_tests_cant": "all reals.", "anchors": ["openconcept/stability/tail_volume_coefficient_sizing.py"]}
{"id": "C46", "title": "Operating-cost totals are the sum of their parts and constant partials are exact", "statement": "Costs are additive over components; declared constant partials equal the derivative for any number of engines/batteries.", "quantifier": "every number of components", "why_tests_cant": "unbounded lists.", "anchors": ["openconcept/costs/costs_commuter.py: TurbopropOperatingCost"]}
{"id": "C47", "title": "Coolant components conserve energy, at every node and over every phase", "statement": "In every component that passes heat to coolant (perfect heat transfer, cold plate, motor jacket, battery bandolier) the coolant's enthalpy rise equals the heat transferred; the outlet temperature lies strictly between the inlet and the wall temperature and follows the exponential approach for the wetted area; what is not carried away heats the body. In every converged LiquidCooledComp, LiquidCooledMotor, LiquidCooledBattery and CoolantReservoir the heat stored between start and end of a phase is the Simpson integral of the heat put in minus the heat carried off, and in quasi-steady mode there is exactly one operating temperature, at which all heat goes into the coolant. All partials are exact.", "quantifier": "all heat inputs, inlet temperatures, positive flows, geometries and material options; all odd numbers of nodes and phase durations; every converged state of the cyclic groups", "why_tests_cant": "Conservation must hold for every temperature history and every number of nodes, and for whatever state the nonlinear solver converges to; tests look at a handful of converged numbers.", "anchors": ["openconcept/thermal/thermal.py: PerfectHeatTransferComp, ThermalComponentWithMass, ThermalComponentMassless, ConstantSurfaceTemperatureColdPlate_NTU, LiquidCooledComp, CoolantReservoir, CoolantReservoirRate", "openconcept/thermal/motor_cooling.py: MotorCoolingJacket, LiquidCooledMotor", "openconcept/thermal/battery_cooling.py: BandolierCoolingSystem, LiquidCooledBattery"]}
{"id": "C48", "title": "Flow split and combine conserve mass and energy", "statement": "FlowSplit shares the inflow between its two outlets in the given proportion and never loses or creates flow; it raises RuntimeWarning exactly when some node's fraction lies outside [0, 1]. FlowCombine conserves mass and enthalpy and, for non-negative flows, its outlet temperature lies between the inlet temperatures. Splitting a stream and joining the parts gives back the stream. All partials are exact.", "quantifier": "all flows, fractions and temperatures; all numbers of nodes", "why_tests_cant": "Conservation and the exact rejection condition range over all real fractions and every node of a vector of any length.", "anchors": ["openconcept/thermal/manifold.py"]}
{"id": "C49", "title": "Heat pump obeys the first law; chiller bypass is energy-consistent", "statement": "In every converged heat pump the two coolant streams together gain exactly 95 % of the electricity drawn; without bypass the cold stream loses COP times the power and the hot stream gains that plus the power; electricity is proportional to the flow not bypassed and zero at full bypass; the built-in control runs linearly between its end values. The coefficient of performance is defined and finite for every pair of temperatures, positive, bounded, and does not exceed Carnot's when heat is pumped upwards. All partials are exact.", "quantifier": "all converged states, inlet temperatures, flows, power ratings, efficiency factors and bypass schedules", "why_tests_cant": "Needs all temperature pairs including the singular one T_hot = T_cold, and every state the cyclic group can converge to.", "anchors": ["openconcept/thermal/chiller.py: LinearSelector, COPHeatPump, HeatPumpWeight, HeatPumpWithIntegratedCoolantLoop, COPExplicit"]}
{"id": "C50", "title": "Duct components obey compressible gas dynamics, and their partials are exact", "statement": "Static and total temperature and pressure conversions are mutually inverse; totals are never below statics; speed of sound, density and total values together satisfy the ideal gas law, energy conservation and constancy of entropy. The nozzle exit Mach number is 1 at or below the critical pressure ratio, is otherwise the Mach number at which the static pressure equals the exit pressure, is continuous at the switch and never above 1. Heat addition and nozzle raise an error exactly for the non-positive flows or ratios and excessive pressures they test for. Every declared partial derivative is the exact derivative, except that of the speed of sound below 0 K.", "quantifier": "all positive temperatures and pressures, all Mach numbers, every gamma > 1, every number of nodes", "why_tests_cant": "Inverse relations, a choking switch and derivative identities hold over a continuum; tests compare a few regression values and cannot exclude a jump at the switch or a wrong derivative elsewhere.", "anchors": ["openconcept/thermal/ducts.py: TemperatureIsentropic, TotalTemperatureIsentropic, PressureIsentropic, TotalPressureIsentropic, DensityIdealGas, SpeedOfSound, MachNumberfromSpeed, HeatAdditionPressureLoss, MassFlow, MachNumberDuct, DuctExitPressureRatioImplicit, DuctExitMachNumber, NozzlePressureLoss, NetForce, Inlet, DuctStation, OutletNozzle"]}
{"id": "C51", "title": "The heat exchanger group obeys the first and second law, its geometry adds up and its partials are exact", "statement": "For HXGroup with positive sizes, flows and fluid properties: a converged state exists and no check raises; effectiveness lies in (0,1), rises with NTU, falls with the capacity ratio and stays below 1-exp(-NTU); heat given up by the hot stream equals heat taken up by the cold stream; both outlet temperatures lie strictly between the inlets whichever stream is hotter; conductance is two resistances in series with film coefficient j Re Pr^(1/3) k/dh; pressure falls on both sides by rho v^2/2 (K + 4fL/dh); the box volume is metal plus passages; AnalysisError is raised exactly for non-positive cold side values; every component's partials are the exact derivatives. The heat transfer and friction factors are those of the Manglik-Bergles correlations for the channel sizes; they fall with the Reynolds number while Re j and Re^2 f rise.", "quantifier": "every num_nodes, every node, all positive real sizes, counts, flows and fluid properties, and all inlet temperatures (in either order)", "why_tests_cant": "The energy balance, ordering of temperatures and monotonicity are claims about all reals through a thirteen component chain with fractional powers and a min/max switch; tests sample a handful of points.", "anchors": ["openconcept/thermal/heat_exchanger.py: HXGroup, OffsetStripFinGeometry, OffsetStripFinData, HydraulicDiameterReynoldsNumber, NusseltFromColburnJ, ConvectiveCoefficient, FinEfficiency, NTUMethod, CrossFlowNTUEffectiveness, NTUEffectivenessActualHeatTransfer, OutletTemperatures, PressureDrop"]}
{"id": "C52", "title": "Fouling resistances enter the overall conductance once each", "statement": "UAOverall: 1/UA is the sum of the cold and hot convective resistances 1/(h A eta) and of the cold and hot fouling resistances f/(A eta), each counted once on its own side; partials are the exact derivatives of UA.", "quantifier": "all positive coefficients, areas and efficiencies and all values of the two fouling factor options", "why_tests_cant": "The defaults of both options are zero, where a wrong fouling term is invisible; the claim ranges over all option values.", "anchors": ["openconcept/thermal/heat_exchanger.py: UAOverall"]}
{"id": "C53", "title": "Heat pipes follow the heat through wall, wick and vapour", "statement": "For a converged HeatPipe: T_cond is the outer temperature of a condenser reached by q / n_pipes conducting radially through the evaporator wall and wick, dropping by the Darcy-Weisbach/Blasius vapour loss along the pipe, and conducting out through the condenser wick and wall, each layer with its documented conductivity; T_cond < T_evap whenever heat flows; the walls carry the design pressure with the stated safety factor and weight is n_pipes times the weight of those walls; q_max is positive, falls with tilt, grows with the diameter; k times the heat through k times the pipes leaves the temperatures and multiplies weight and q_max by k; warnings are raised exactly when some node exceeds q_max_warn * q_max or leaves -10 to 100 degC; partials are exact. (The wick part is refuted: wick_conduct is declared and never read.)", "quantifier": "every number of nodes, every option value and every input with positive sizes, heat and fluid properties; any ammonia property curves", "why_tests_cant": "The repository's tests check a handful of numeric values with the default options (no wick), which cannot see an option that has no effect nor establish signs, scaling laws or derivatives for all real inputs.", "anchors": ["openconcept/thermal/heat_pipe.py:HeatPipe", "openconcept/thermal/heat_pipe.py:HeatPipeThermalResistance", "openconcept/thermal/heat_pipe.py:HeatPipeVaporTempDrop", "openconcept/thermal/heat_pipe.py:HeatPipeWeight", "openconcept/thermal/heat_pipe.py:QMaxHeatPipe", "openconcept/thermal/heat_pipe.py:QMaxAnalyticalPart", "openconcept/thermal/heat_pipe.py:QMaxWarning"]}
{"id": "C54", "title": "The obstacle height option governs the rotation phase", "statement": "RobustRotationPhase(h_obstacle=h): the takeoff distance and duration are those of a flight path that ends at height h, and the reported final altitude is h.", "quantifier": "every obstacle height, speed and climb angle", "why_tests_cant": "holds for all option values; a test with the default cannot see an ignored option.", "anchors": ["openconcept/mission/phases.py: RobustRotationPhase, TakeoffTransition, TakeoffClimb"]}
{"id": "C55", "title": "Section-wing sweep is a weighted mean of the panel sweeps", "statement": "For every sectioned wing and every range of sections, the quarter-chord sweep reported by WingSweepFromSections lies between the smallest and the largest absolute sweep of the panels in the range, equals the common absolute sweep when all panels agree, and each panel's sweep is the angle whose tangent is the setback of the quarter-chord line divided by the width of the panel.", "quantifier": "all section counts, all ranges of sections, all leading-edge, spanwise and chord values giving panels of positive area", "why_tests_cant": "Tests use one or two fixed wings with a few sections; the claim covers any number of sections, start index and geometry.", "anchors": ["openconcept/geometry/wing_planform.py:WingSweepFromSections"]}
{"id": "C56", "title": "Trapezoidal planform relations agree with each other", "statement": "For every positive area and aspect ratio, span squared is area times aspect ratio, WingAspectRatio of the span from WingSpan returns the aspect ratio, and the mean aerodynamic chord is at least area/span (equal only for an untapered wing) and at most 4/3 of it; the declared partials of the planform and cylinder components are the derivatives.", "quantifier": "all positive areas and aspect ratios, all non-negative taper ratios", "why_tests_cant": "The relations combine several components over a continuum of planforms.", "anchors": ["openconcept/geometry/wing_planform.py:WingMACTrapezoidal", "openconcept/geometry/wing_planform.py:WingSpan", "openconcept/geometry/wing_planform.py:WingAspectRatio", "openconcept/geometry/wetted_area.py:CylinderSurfaceArea"]}
{"id": "C57", "title": "Maximum lift estimates", "statement": "For every sweep below 90 degrees and every airfoil, the clean maximum lift coefficient is 0.9 of the airfoil's times the cosine of the sweep (so sweep never raises it); flaps and slats add to the clean value, the slat increment vanishes when the slat chord is zero whatever the slat span, and the declared partials are the derivatives for all option values.", "quantifier": "all inputs with cos(sweep) > 0 and all option values", "why_tests_cant": "Derivative checks at one point cannot show that the partials hold for all option values and inputs.", "anchors": ["openconcept/aerodynamics/CL_max_estimation.py:CleanCLmax", "openconcept/aerodynamics/CL_max_estimation.py:FlapCLmax"]}
{"id": "C58", "title": "Coolant hose and pump follow the laws they cite", "statement": "The hose pressure drop is Darcy's f (L/d) rho U^2/2 with Blasius' friction factor at the flow speed given by continuity, hence grows with the 7/4 power of the mass flow; the hose weight is that of a wall carrying the design pressure at the stated hoop stress plus the coolant inside. The pump draws hydraulic power over efficiency and its sizing margin is load over rating. All partials are exact, including those obtained by the one-pass complex step.", "quantifier": "all positive diameters, viscosities, densities and flows; all pump inputs; any number of nodes", "why_tests_cant": "Scaling laws and derivative identities over all positive reals; the tests compare a few regression values.", "anchors": ["openconcept/thermal/hose.py: SimpleHose", "openconcept/thermal/pump.py: SimplePump"]}
{"id": "C59", "title": "A converged compressible duct conserves mass and energy and gives no thrust without heat", "statement": "In every converged ImplicitCompressibleDuct (with its own heat exchanger) and ImplicitCompressibleDuct_ExternalHX: the same mass flow passes every station and the nozzle; the rise in total enthalpy from free stream to nozzle is the heat added at the stations; the heat exchanger works with the air of station 2 and gives it exactly the heat its liquid loses, the liquid leaving between the two inlet temperatures. In subsonic flight, if no heat is added and total pressure is only lost, the net force is never a thrust; without losses the air returns to the free stream state and the force is -(1-cfg) mdot U. Converged ducts exist for every free stream, recoveries, heats and exchanger sizes once areas are chosen to fit.", "quantifier": "all converged states of the duct groups: every number of nodes, every node, every gross thrust factor and every input", "why_tests_cant": "The groups are solved by Newton's method; tests check one converged point against regression values, while the balances and the sign of the force are claimed of every converged point.", "anchors": ["openconcept/thermal/ducts.py: ImplicitCompressibleDuct, ImplicitCompressibleDuct_ExternalHX, Inlet, DuctStation, OutletNozzle, FlowMatcher, NetForce"]}
{"id": "C60", "title": "The incompressible duct satisfies Bernoulli's equation with losses and never fails on a stalled duct", "statement": "While the dynamic pressure exceeds the exchanger's pressure drop, ExplicitIncompressibleDuct's mass flow is the one for which static pressure losses, exchanger drop and exit dynamic pressure add up to the free stream dynamic pressure, and its drag is the momentum deficit; otherwise it reports the small positive flow area/10^5; mass flow is never negative; the partials are the exact derivatives wherever the duct flows.", "quantifier": "all positive densities and areas, all speeds, pressure changes, loss factors above -1 and gross thrust factors, every node", "why_tests_cant": "An energy balance and a stall switch over a continuum of inputs; the tests evaluate regression values in the flowing regime only.", "anchors": ["openconcept/thermal/ducts.py: ExplicitIncompressibleDuct"]}
{"id": "C61", "title": "A converged mission reaches the altitudes, distances, speeds and times the user asked for", "statement": "When a mission built from any of the shipped profiles has converged, the climb ends at cruise|h0, the descent at takeoff|h, and the distance covered from the start of the first phase to the end of the descent is mission_range; with reserves the reserve climb ends at reserve|h0, the reserve descent at takeoff|h after covering exactly reserve_range more, and the loiter starts at loiter|h0 and lasts loiter_duration; with a takeoff, V1 is the speed at the end of v0v1 and the start of v1vr and v1v0, and either the accelerate-stop and accelerate-go distances are equal or V1 = VR and stopping is shorter. Every state of the aircraft model accumulates over the flown phases: the per-phase changes add up to the final minus the first value.", "quantifier": "all profile options (takeoff, reserves, ground roll, transition method), all lists of user states per phase, all promoted names, all converged value assignments", "why_tests_cant": "The tests converge a few example missions; whether every leg's balance is wired to the user's target and to the last phase of that leg is a property of the whole connection graph for every option combination and every aircraft model.", "anchors": ["openconcept/mission/profiles.py: BasicMission, FullMissionWithReserve, MissionWithReserve, FullMissionAnalysis", "openconcept/mission/phases.py: BFLImplicitSolve, GroundRollPhase, RotationPhase, SteadyFlightPhase"]}
{"id": "C62", "title": "Every component declares exactly the variables it uses", "statement": "In every component no name is declared twice, no name is both input and output of an explicit component, every declared partial is between a declared output and a declared input and is declared once, outputs and partials are functions of the declared inputs only, and outputs declared as scalars are computed from scalar inputs alone (the hose's weight, which reads the coolant density of the first node, excepted). Hence two runs whose declared inputs agree give the same outputs and the same Jacobian.", "quantifier": "all modelled components with all values of their options, all num_nodes >= 1, all pairs of input values", "why_tests_cant": "A run only exercises the wiring it was given: a value read from an undeclared or stale variable, or a scalar output fed by a vector, shows up only for other inputs or other num_nodes.", "anchors": ["all ExplicitComponent and ImplicitComponent classes of openconcept/{aerodynamics,atmospherics,energy_storage,mission,propulsion,thermal,geometry,weights}: setup, compute, compute_partials"]}
{"id": "C63", "title": "Propulsion systems deliver the thrust, power, fuel flow and weight of their parts", "statement": "In a converged state of each shipped propulsion system (single and twin turboprop, single and twin series hybrid, all-electric, with and without cooling): shaft power, electrical load and fuel flow follow from throttle and ratings through the component efficiencies; thrust is the sum of the thrusts the propeller maps give for the shaft power each propeller actually receives; generator output plus battery power equals the electrical load, the battery share being the hybridization fraction; the weights handed to the aircraft are those of all the motors and propellers; and the battery's charge falls by exactly the energy drawn over the phase divided by its capacity.", "quantifier": "all propeller maps, num_nodes, ratings, diameters, throttles, flight conditions, hybridization fractions and converged value assignments; every input for which the acyclic systems and the twin series hybrid are run has such a state", "why_tests_cant": "Tests compare a handful of missions with stored numbers; a wrong or missing connection between two parts only shows where the two values differ.", "anchors": ["openconcept/propulsion/systems/simple_turboprop.py: TurbopropPropulsionSystem, TwinTurbopropPropulsionSystem", "openconcept/propulsion/systems/simple_series_hybrid.py: TwinSeriesHybridElectricPropulsionSystem, SingleSeriesHybridElectricPropulsionSystem", "openconcept/propulsion/systems/simple_all_electric.py", "openconcept/propulsion/systems/thermal_series_hybrid.py", "openconcept/propulsion/propeller.py: SimplePropeller", "openconcept/energy_storage/battery.py: SOCBattery"]}
{"id": "C64", "title": "Switching one propulsor off leaves a system with exactly the other one", "statement": "With propulsor_active = 0 a twin system gives the thrust of one propeller, draws the electrical load (or burns the fuel) of one motor (or engine), and the inactive side produces no heat; with propulsor_active = 1 and equal propeller speeds everything doubles. In the series hybrids fuel energy through the generator and battery energy always add up to the load, nothing is burnt when the battery carries the whole load and nothing is drawn from the battery when its share is zero.", "quantifier": "all propeller maps, num_nodes, throttles, ratings, flight conditions and converged states", "why_tests_cant": "Engine-out behaviour is one input value among infinitely many and depends on which side the switch is wired to.", "anchors": ["openconcept/propulsion/systems/simple_turboprop.py: TwinTurbopropPropulsionSystem", "openconcept/propulsion/systems/simple_series_hybrid.py: TwinSeriesHybridElectricPropulsionSystem", "openconcept/propulsion/systems/thermal_series_hybrid.py"]}
{"id": "C65", "title": "Cooling loops conserve energy over a phase", "statement": "In each liquid-cooled propulsion system, the heat stored over a phase in the cooled components and the coolant equals the time integral (with the library's own Simpson rule) of the heat the motors, batteries and heat pump produce minus the heat the air carries away: no heat is created or lost in the loop's connections. Each system has steady converged states, in which no temperature changes over the phase and coolant, component and air temperatures are in the order heat flows.", "quantifier": "all numbers of segments, durations, masses, flows, heat exchanger sizes and converged states", "why_tests_cant": "A mis-wired or doubly counted heat source balances in steady cases and for equal temperatures; it must be excluded for all transients.", "anchors": ["openconcept/propulsion/systems/simple_all_electric.py", "openconcept/propulsion/systems/thermal_series_hybrid.py", "openconcept/thermal/thermal.py: LiquidCooledComp, CoolantReservoir", "openconcept/thermal/heat_exchanger.py: HXGroup", "openconcept/thermal/ducts.py"]}
{"id": "C66", "title": "Shipped propulsion systems set up, and their design variables take effect", "statement": "Every shipped propulsion system can be set up for every num_nodes, and every aircraft design variable it takes in is read by one of its parts, so that changing it changes the result.", "quantifier": "all propeller maps, num_nodes and integration matrices; all converged states and all values of the design variable", "why_tests_cant": "An unconnected design variable never raises an error; only the absence of any dependence, for all values, shows it.", "anchors": ["openconcept/propulsion/systems/simple_series_hybrid.py: SeriesHybridElectricPropulsionSystem", "openconcept/propulsion/systems/thermal_series_hybrid.py: TwinSeriesHybridElectricThermalPropulsionRefrigerated", "openconcept/utilities/dvlabel.py: DVLabel"]}
{"id": "C67", "title": "Empty weight models add up all their parts", "statement": "For the turboprop, twin series hybrid, jet transport and blended wing body models, OEW is the documented sum of structure (with its fudge factor and the wing multiplier), propulsion, furnishings and systems - each part counted once, in pounds, none left out - as an explicit function of the documented inputs and options; the groups set up, every input value gives a result and nothing else has to be connected.", "quantifier": "all values of the inputs and of the options, all converged states", "why_tests_cant": "A part counted twice, dropped or added in kilograms shifts every result by a few percent, within the spread a regression value accepts; the identity must hold for all inputs.", "anchors": ["openconcept/weights/weights_turboprop.py: SingleTurboPropEmptyWeight", "openconcept/weights/weights_twin_hybrid.py: TwinSeriesHybridEmptyWeight", "openconcept/weights/weights_jet_transport.py: JetTransportEmptyWeight", "openconcept/weights/weights_BWB.py: BWBEmptyWeight"]}
{"id": "C68", "title": "Analytic partials of the weight estimates are exact", "statement": "Every component of the weights package returns, for every physically meaningful input, exactly the derivatives of its weights with respect to each of its inputs, and has no undeclared dependence.", "quantifier": "all physically meaningful inputs and options of all 24 components", "why_tests_cant": "A wrong exponent or a missing chain rule factor changes partials by little near the test point; finite differencing cannot settle all points.", "anchors": ["openconcept/weights/weights_turboprop.py", "openconcept/weights/weights_jet_transport.py", "openconcept/weights/weights_BWB.py"]}
{"id": "C69", "title": "Sizing by weight closure has exactly one answer", "statement": "For every load (fuel, payload, batteries) there is exactly one takeoff weight at which empty weight plus load equals takeoff weight, with all other inputs fixed; and adding load raises the takeoff weight by more than the load added. For the jet models this holds exactly when the part of the empty weight proportional to the takeoff weight is below one.", "quantifier": "all physically meaningful inputs and options, all nonnegative loads", "why_tests_cant": "Existence, uniqueness and monotonicity range over all takeoff weights; a solver run finds one root and says nothing about others.", "anchors": ["openconcept/weights/weights_turboprop.py: SingleTurboPropEmptyWeight", "openconcept/weights/weights_twin_hybrid.py: TwinSeriesHybridEmptyWeight", "openconcept/weights/weights_jet_transport.py: JetTransportEmptyWeight", "openconcept/weights/weights_BWB.py: BWBEmptyWeight"]}
{"id": "C70", "title": "Component weights are the published estimates", "statement": "Each component weight equals the textbook equation its docstring cites (Raymer, Roskam, FLOPS, Bradley), for the inputs in the units they are declared in.", "quantifier": "all inputs and options, all converged states", "why_tests_cant": "A coefficient or a unit slip in one term changes the result within the scatter of such estimates; equality must hold for all inputs.", "anchors": ["openconcept/weights/weights_turboprop.py: LandingGearWeight_SmallTurboprop, FuselageWeight_SmallTurboprop", "openconcept/weights/weights_jet_transport.py", "openconcept/weights/weights_BWB.py"]}
{"id": "C71", "title": "The zero-lift drag estimate is the documented component build-up", "statement": "The parasite drag coefficient of a jet transport is the fudge factor times the sum over fuselage, tails, nacelles and (unless excluded) wing of wetted area times form factor times friction coefficient, divided by the wing reference area, plus gear and flap drag in the takeoff configuration; the blended wing body estimate is the same with nacelles only. It reads exactly the documented inputs, is defined for every input, and the takeoff configuration adds exactly gear and flap drag.", "quantifier": "all numbers of nodes, all options, all flight conditions and geometries with positive dimensions, both configurations", "why_tests_cant": "Tests compare one aircraft at one condition with a stored number; a dropped part, a wrong area or a swapped connection must be excluded for all aircraft and options.", "anchors": ["openconcept/aerodynamics/drag_jet_transport.py: ParasiteDragCoefficient_JetTransport", "openconcept/aerodynamics/drag_BWB.py: ParasiteDragCoefficient_BWB"]}
{"id": "C72", "title": "Partials of the drag build-up's components are derivatives", "statement": "The hand-written partials of the form factors, of the flap drag and of the skin friction coefficient equal the derivatives of the values computed.", "quantifier": "all inputs in the domain, all options (laminar fractions, interference factors, flap geometry), all numbers of nodes", "why_tests_cant": "A finite difference check at one point has a tolerance and sees one branch of the laminar option; gradient-based optimization uses the partials everywhere.", "anchors": ["openconcept/aerodynamics/drag_jet_transport.py: SkinFrictionCoefficient_JetTransport, FuselageFormFactor_JetTransport, WingFormFactor_JetTransport, FlapDrag_JetTransport"]}
{"id": "C73", "title": "The zero-lift drag responds to its inputs as drag does", "statement": "The friction coefficient depends on the flow only through the Reynolds number; the clean drag coefficient is positive and falls with airspeed; gear and flaps add drag, more flap adds more, each engine adds the drag of its nacelle; laminar flow over the front of the parts reduces the drag.", "quantifier": "all pairs of flight conditions and aircraft within the range of the friction laws, all options with positive factors", "why_tests_cant": "Monotonicity and sign range over all pairs of points; the friction law subtracts two terms and could turn negative somewhere.", "anchors": ["openconcept/aerodynamics/drag_jet_transport.py: ParasiteDragCoefficient_JetTransport, SkinFrictionCoefficient_JetTransport, FlapDrag_JetTransport"]}
{"id": "C74", "title": "Wave drag follows Korn's equation and the area it is normalised by", "statement": "There is no wave drag up to the critical Mach number and some beyond it; it rises smoothly, with the slope that defines drag divergence at the Mach number of Korn's equation, and never falls with Mach number, lift coefficient or thickness. The thickness used is the area-weighted mean of the region's sections. With an area given, coefficient times area does not change.", "quantifier": "all regions of all wings with positive chords, all Mach numbers, lift coefficients, sweeps, thicknesses and areas", "why_tests_cant": "Smoothness and monotonicity are statements about all points, the onset included; the one test of the area option uses one area.", "anchors": ["openconcept/aerodynamics/openaerostruct/wave_drag.py: WaveDragFromSections"]}
{"id": "C75", "title": "The trapezoidal wing mesh has the planform asked for", "statement": "At any resolution the mesh of the trapezoidal planform component has exactly the area, aspect ratio, taper ratio and quarter-chord sweep given, lies in the plane z = 0 with its symmetry plane at y = 0, and is evenly spaced along chord and span. The partials returned are the derivatives of every coordinate of the flattened mesh.", "quantifier": "all resolutions, all positive areas and aspect ratios, all tapers >= 0, all sweeps short of 90 degrees", "why_tests_cant": "The tests check a few meshes and resolutions; the planform identities must hold for every number of panels and every shape.", "anchors": ["openconcept/aerodynamics/openaerostruct/mesh_gen.py: TrapezoidalPlanformMesh"]}
{"id": "C76", "title": "The section mesh passes through the sections given, scaled to the area asked for", "statement": "Every section given appears as one column of the mesh with its leading edge, chord and spanwise position all multiplied by one common factor; edges are straight between sections; points are cosine spaced. With an area asked for, the planform area of the mesh is that area; without, the area reported is that of the mesh. For sections ordered inboard with positive chords no panel is folded or degenerate. Setup accepts two or more sections with one panel count per region, and nothing else.", "quantifier": "all numbers of sections, all panel counts per region, all sections, all areas", "why_tests_cant": "Sections and panel counts are arbitrary lists; the loop over the regions overwrites shared columns, which is right only because neighbouring regions agree there.", "anchors": ["openconcept/aerodynamics/openaerostruct/mesh_gen.py: SectionPlanformMesh.setup, compute; cos_space"]}
{"id": "C77", "title": "Partials of the section mesh are exact after any history of calls", "statement": "Whatever sequence of computations and linearisations a component instance has gone through, the partials it returns for given inputs are the derivatives of the mesh it computes at those inputs, for every coordinate and every entry of every input, scaled or not; so are those of the area it reports. The sparse arrays are filled exactly, stay in range and hold no entry twice.", "quantifier": "all histories of compute and partials calls, all inputs, all section and panel counts", "why_tests_cant": "The component reuses a stored mesh when it believes the inputs unchanged; whether that is sound depends on every possible history.", "anchors": ["openconcept/aerodynamics/openaerostruct/mesh_gen.py: SectionPlanformMesh.setup, compute, compute_partials; cos_space_deriv_start, cos_space_deriv_end"]}
{"id": "C78", "title": "Section properties are carried to the mesh along straight lines", "statement": "A property given at the sections takes at each mesh node the value on the straight line, along the span, between the two neighbouring sections, for the cosine spacing of the section mesh and the uniform spacing of the trapezoidal mesh; a thickness ratio on a panel is the average of its two nodes. Values stay within the range of those given. Partials are exact and the sparse arrays filled exactly, in range, without repetition.", "quantifier": "all numbers of sections and panels, both spacings, all values", "why_tests_cant": "The claim ties three components that each space their points on their own; it must hold for every panel count per region.", "anchors": ["openconcept/aerodynamics/openaerostruct/mesh_gen.py: ThicknessChordRatioInterp, SectionLinearInterp"]}
{"id": "C79", "title": "Training tables hold the analyses of the current inputs, whatever was computed before", "statement": "The table a training component delivers for given inputs has at entry (i, j, k) the OpenAeroStruct result at the i-th Mach number, j-th angle of attack and k-th altitude, for inputs equal to those given within the documented tolerance, plus the non-wing drag of this very call in the aerostructural case; the partials are the derivatives of the same results. This holds after any history of set-ups, evaluations, linearizations and failures of the instances sharing the tables. Results are recomputed when the inputs changed and reused when they did not. Missing: after a call that raised in the middle of the analyses, a retry with the same inputs silently returns the table of other inputs (proved as a refutation); inputs equal to the placeholders get zeros.", "quantifier": "all histories of calls by any number of instances, all crash points of the analyses, all inputs, grids and analyses", "why_tests_cant": "The tables live on the class and outlive instances and problems; whether a reuse is sound depends on every call made earlier in the process, including those that failed.", "anchors": ["openconcept/aerodynamics/openaerostruct/drag_polar.py: VLMDataGen, compute_training_data, compute_aerodynamic_data", "openconcept/aerodynamics/openaerostruct/aerostructural.py: OASDataGen, compute_training_data, compute_aerodynamic_data"]}
{"id": "C80", "title": "Instances sharing training tables have the same options", "statement": "Set-up of a training component succeeds exactly when its training values are arrays and its surface options equal those of the first instance ever set up in the process; a refused set-up changes nothing; once accepted options exist, every later model with other options is refused. Instances of the vortex lattice component with another number of panels are refused at evaluation. Missing: training values given as lists, which the documentation allows, are refused; aerostructural instances with another number of panels, and instances with other training points of the same count, silently share tables that are not theirs (all proved as refutations).", "quantifier": "all histories of calls, all surface options, all training values and panel counts", "why_tests_cant": "The check compares with state left by earlier models of the process; which pairs of instances it lets through must be settled for all options and orders of set-up.", "anchors": ["openconcept/aerodynamics/openaerostruct/drag_polar.py: VLMDataGen.setup, compute", "openconcept/aerodynamics/openaerostruct/aerostructural.py: OASDataGen.setup, compute"]}
{"id": "C81", "title": "A surrogate drag polar gives the drag of the wing at the required lift", "statement": "A converged VLMDragPolar or AerostructDragPolar has at every node an angle of attack whose surrogate lift coefficient is the required one; its drag is dynamic pressure times reference area times the sum of the surrogate wing drag coefficient, at that angle, Mach number and altitude, and the non-wing coefficient (per node or common, as the option says). The surrogate's tables are those of the analyses of the wing described by the inputs: for the trapezoidal option the mesh of the documented planform, for sections the mesh through them scaled to the reference area, for a given mesh that mesh, twisted and with the thickness ratios of its strips. At a training point drag and lift are those of the analysis itself. A larger required lift means a larger angle when the surrogate's lift curve rises. Wing weight and failure of the aerostructural polar come from the same analyses. Set-up connects every input and refuses what the training component or the mesh refuses.", "quantifier": "all geometry options, panel counts, node counts, training grids, converged solutions, histories of earlier evaluations, analyses and surrogates", "why_tests_cant": "It ties tables shared across instances, meshes, an interpolant and an implicit balance; tests use a few grids and one history, and compare with recorded numbers.", "anchors": ["openconcept/aerodynamics/openaerostruct/drag_polar.py: VLMDragPolar", "openconcept/aerodynamics/openaerostruct/aerostructural.py: AerostructDragPolar"]}
{"id": "C82", "title": "Thickness ratios are interpolated linearly to the strips", "statement": "The thickness ratio VLMDragPolar gives a strip of the wing is the linear interpolation, along the span, of the ratios at the sections (at tip and root for the trapezoidal option), averaged over the two edges of the strip. Proved for wings through sections, and for trapezoidal wings with one or two strips or equal ratios; missing: with three or more strips and different ratios the trapezoidal option uses cosine spaced positions for a uniformly spaced mesh, so the strip at the tip never has the documented value (proved).", "quantifier": "all geometry options, panel counts, ratios and planforms", "why_tests_cant": "The test of the component and the test of the mesh each pass; the mismatch between their spacings shows only where they meet, for every number of strips above two.", "anchors": ["openconcept/aerodynamics/openaerostruct/drag_polar.py: VLMDragPolar.setup", "openconcept/aerodynamics/openaerostruct/mesh_gen.py: ThicknessChordRatioInterp"]}
{"id": "C83", "title": "Maximum lift by the critical section method is conservative and close", "statement": "At the angle of attack CLmaxCriticalSectionVLM converges to, no strip of the wing exceeds its airfoil limit, strictly so with more than one strip, and some strip is within ln(strips)/rho of it. If sectional lift rises with the angle, that angle is at most the critical one, short of it by at most ln(strips)/(rho slope), and CL_max does not exceed the lift there. The solution is unique, and exists whenever some angle has all strips at least ln(strips)/rho below their limits and a larger one has a strip at its limit. Holds for one limit for the wing and for one per strip.", "quantifier": "all strip counts, limits, aggregation parameters, lift curves and converged solutions", "why_tests_cant": "Conservatism of a smoothed maximum is a bound over all lift distributions; existence and uniqueness of the root are not observable from single solves.", "anchors": ["openconcept/aerodynamics/openaerostruct/CL_max_critical_section.py: CLmaxCriticalSectionVLM"]}
{"id": "C84", "title": "The vortex lattice method is given the air of the mission and the user's options", "statement": "VLM passes OpenAeroStruct the density of the standard atmosphere that missions use, at the given altitude and temperature increment, the true airspeed of the given Mach number in it and the Reynolds number per metre of that flow, positive for positive Mach numbers; its outputs are the seven results of that analysis for the given mesh, thickness ratios and angle. Every surface option of the user overrides the default, options not given keep it, options unknown to the defaults are passed on, and the order in which distinct options are given does not matter. The partials of speed and Reynolds number are exact.", "quantifier": "all altitudes below the model's ceiling, temperature increments, Mach numbers, meshes, option dictionaries and analyses", "why_tests_cant": "Agreement with the mission's atmosphere is an equality of functions of altitude; option handling ranges over dictionaries.", "anchors": ["openconcept/aerodynamics/openaerostruct/drag_polar.py: VLM"]}
{"id": "C85", "title": "Direct aerostructural analyses at every node", "statement": "In a converged AerostructDragPolarExact every node has its own analysis at its own Mach number, altitude and angle of attack, all of the same wing and day; the angle gives the node's required lift; drag and failure at a node are those of its analysis, with the non-wing coefficient added, and the wing weight is that of the first node's analysis. The group connects for any number of nodes, without two variables of the same name. Where AerostructDragPolar is evaluated at a training point with a surrogate that reproduces its table, the two polars have the same lift, drag and failure.", "quantifier": "all node counts, wings, flight conditions, converged solutions, analyses and surrogates", "why_tests_cant": "Names and indices are generated per node; a slip shows only at node counts not tested, and agreement of the two polars must hold at every training point.", "anchors": ["openconcept/aerodynamics/openaerostruct/aerostructural.py: AerostructDragPolarExact"]}
{"id": "C86", "title": "A steady flight phase flies a force balance along the path it reports", "statement": "In every converged steady flight phase (climb, cruise, descent, their reserve versions, loiter), at every node and for any aircraft model: the air is the standard atmosphere at the node's altitude and temperature increment, with the perfect gas law, and the dynamic pressure is that of the equivalent airspeed at sea level; there is one flight path angle that gives both vertical speed and ground speed from the true airspeed, the lift carries the weight's component across the path, and thrust less drag, slope and friction accelerates the aircraft by exactly the demanded (zero) acceleration; without brakes the excess power equals the rate of climb times the weight. Altitude and distance at the nodes are the integrals of vertical speed and ground speed over the phase's duration, and the reported final values are those of the last node.", "quantifier": "all aircraft models whose integrators keep to their own duration names, phases, odd node counts, altitudes below the model's ceiling, speeds not below the vertical speed, weights, wings and converged solutions", "why_tests_cant": "The balance comes from a chain of connections between a dozen components; tests compare one mission's fuel with a stored number and would not see a wrong angle at other speeds.", "anchors": ["openconcept/mission/phases.py: SteadyFlightPhase", "openconcept/atmospherics/compute_atmos_props.py: ComputeAtmosphericProperties"]}
{"id": "C87", "title": "The takeoff phases obey the equations of motion and end where they should", "statement": "In every converged takeoff phase and for any aircraft model: on the runway and in the rotation the aircraft accelerates along its path by thrust less drag, slope and the friction of the wheels, which carry what lift leaves of the weight; ground rolls start at the standing start or at the given speed, speed and distance are integrals of acceleration and ground speed, and the roll lasts until the decision speed or the rotation speed, the latter the user's multiple of the sea-level stall speed; the aborted takeoff, computed backwards, is a roll from the decision speed to standstill; the rotation with equations of motion starts at zero altitude and vertical speed and lasts until the obstacle height is reached; the rotation along an arc flies a circle at 1.2 g up to the climb angle or 10.66 m and then straight to 10.66 m, its distance and duration being those of both parts; the engine-out climb is at the takeoff safety speed with lift equal to takeoff weight, and the climb angle is such that thrust carries drag and slope.", "quantifier": "all aircraft models whose integrators keep to their own duration names, node counts (odd where integrated), positive weights, wings and speeds, and converged solutions", "why_tests_cant": "Backwards integration and balances on the duration make the statement a property of every solution of the coupled equations, not of one run.", "anchors": ["openconcept/mission/phases.py: GroundRollPhase, RotationPhase, RobustRotationPhase, ClimbAnglePhase"]}
{"id": "C88", "title": "A converged mission is one flight that covers the distance and reaches the altitudes asked for", "statement": "For any aircraft model, every converged solution of a mission (with or without ground roll, full takeoff and reserve) gives each phase values at its nodes that solve the phase's own equations (C86, C87) with the same aircraft data in every phase, and the mission reports exactly these values. The distance flown and every state of the aircraft model (fuel burned, battery energy) start each phase where the previous one ended; the altitude goes on through climb, cruise and descent. The climb ends at the cruise altitude, the descent at the takeoff altitude and at the mission range, so that the ground speeds of the phases, summed over their durations, cover exactly the mission range, the reserve legs the reserve range, and the vertical speeds gain exactly the altitudes asked for. The takeoff goes from standstill to the decision speed, on to the rotation speed or back to standstill over the same distance, unless even a decision at the rotation speed leaves the abort shorter.", "quantifier": "all mission profiles, node counts (odd, at least 3), aircraft models with states promoted inside their phase, and converged solutions of the mission's equations", "why_tests_cant": "The chain through twelve phases, promotions and solver targets has to be unbroken for every aircraft model and every option; a run shows one converged case to a tolerance.", "anchors": ["openconcept/mission/profiles.py: MissionWithReserve, FullMissionAnalysis, FullMissionWithReserve, BasicMission", "openconcept/mission/mission_groups.py: TrajectoryGroup, PhaseGroup", "openconcept/mission/phases.py"]}
{"id": "C89", "title": "The example aircraft keep account of their fuel and of their battery through every mission", "statement": "Every example aircraft (the two minimal ones, TBM 850, Caravan, King Air C90GT, the series-hybrid twin uncooled, liquid-cooled and refrigerated, the electric TBM, the B738) sets up with every mission profile, and a converged mission is one flight (C88). In every phase of those that burn fuel the aircraft weighs what it weighed at takeoff less the fuel used, and the fuel used is the integral of its fuel flow; the weight goes on from phase to phase, the aircraft lands lighter by exactly what its engines burned in all phases flown, and ends the loiter lighter by what they burned in the reserve. If no engine gives fuel back, the aircraft is never heavier at a later even node than at an earlier one (at odd nodes it may be). In every phase of those with a battery its charge falls by the energy drawn over the energy it holds, and over the mission by the sum.", "quantifier": "every mission profile, every number of nodes the integration allows, every propeller map and engine deck, every aircraft datum and every converged solution", "why_tests_cant": "the regression tests compare a few totals of one converged mission per example; conservation has to hold for every mission profile, node count and propulsion data", "anchors": ["openconcept/examples/TBM850.py", "openconcept/examples/Caravan.py", "openconcept/examples/KingAirC90GT.py", "openconcept/examples/HybridTwin.py", "openconcept/examples/HybridTwin_thermal.py", "openconcept/examples/HybridTwin_active_thermal.py", "openconcept/examples/ElectricSinglewithThermal.py", "openconcept/examples/B738.py", "openconcept/examples/minimal_integrator.py"]}
{"id": "C90", "title": "Weight, drag, thrust and fuel flow of the example aircraft, and the margin of the hybrid twins", "statement": "In every converged phase of the example aircraft: the drag is that of a parabolic polar with the zero-lift drag of the takeoff configuration until the aircraft has rotated and of the cruise configuration afterwards, plus the cooling duct's in the cooled hybrids; thrust and fuel flow are those of the propulsion system at the throttle, the rated powers and the propeller of the aircraft (twice the engine deck's for the B738); a failed propulsor neither pulls nor burns; the empty weight is that of the weight formulas with the powertrain's weights at the rated powers, plus exchanger and coolant in the cooled hybrids. The analyses of the hybrid twins set up, and their takeoff weight margin is the weight at the end of the descent less empty weight, battery and payload; their objective is the fuel burned by all phases and a hundredth of the takeoff weight.", "quantifier": "every phase, node, throttle, flight condition, propeller map, engine deck and aircraft datum of every converged solution", "why_tests_cant": "a wrong connection between an aircraft's weights, drag or propulsion model and the phase shows only as slightly different totals; the tests have one reference total per aircraft", "anchors": ["openconcept/examples/TBM850.py", "openconcept/examples/Caravan.py", "openconcept/examples/KingAirC90GT.py", "openconcept/examples/HybridTwin.py", "openconcept/examples/HybridTwin_thermal.py", "openconcept/examples/HybridTwin_active_thermal.py", "openconcept/examples/ElectricSinglewithThermal.py", "openconcept/examples/B738.py"]}
{"id": "C91", "title": "The sizing analysis closes: the airliner takes off with what it needs and needs what it takes off with", "statement": "The sizing analysis of the airliner sets up around any mission with a reserve. When it has converged, its mission is one flight (C88) of the aircraft that was sized: every phase flies with the geometry, ratings and weights of the analysis. The takeoff weight is empty weight, payload and the fuel of the whole mission; the aircraft starts the mission with the fuel of all phases on board, lands with that of the reserve and ends the loiter with none; the empty weight is the weight formulas' estimate for exactly this takeoff weight, this fuel and the tail sizes, lever arms and surfaces of this wing and fuselage. The tails have the tail volumes 1 and 0.09, the maximum lift coefficients are those of the clean, flap and slat formulas. In every phase the drag is a parabola on top of the drag build-up of the phase's configuration, thrust and fuel flow are the engine deck's times the number of running engines and the ratio of the rating to the deck's.", "quantifier": "every mission profile with a reserve, every number of nodes the integration allows, every engine deck, every design variable and every converged solution", "why_tests_cant": "the example is regression-tested at one set of design variables; that weights, fuel and geometry are consistent has to hold for every design an optimiser visits", "anchors": ["openconcept/examples/B738_sizing.py", "openconcept/propulsion/rubberized_turbofan.py", "openconcept/stability/tail_volume_coefficient_sizing.py", "openconcept/geometry/wing_planform.py", "openconcept/aerodynamics/CL_max_estimation.py"]}
{"id": "C92", "title": "The hybrid single-aisle airliner: fuel, charge, weight and every joule of heat", "statement": "The hybrid single-aisle airliner with a refrigerated battery flies every mission profile. In every converged phase: thrust and fuel flow are those of two engines of the deck, each helped by 95 % of what its motor draws; the drag is the polar's less the net thrust of the four cooling ducts; the battery of a side feeds exactly the motor, its fault protection, the refrigerator and the two coolant pumps, and its charge falls by the integral of that; the empty weight is the given one plus both sides' added parts; the takeoff margin is what is left after empty weight, fuel and both batteries. The heat the motor stores is 5 % of its power less what its exchanger takes; the fault protection's exchanger takes exactly its heat; the heat the battery stores is 5 % of its load plus 95 % of the refrigerator's power less what the exchanger takes; the air of each duct takes up what its exchangers give. From phase to phase weight, fuel, charge and the temperatures of motor and battery go on unchanged, and over the mission the weight falls by the fuel burned and the battery gives what was drawn.", "quantifier": "every mission profile, phase, number of nodes the integration allows, engine deck, design variable and converged solution", "why_tests_cant": "forty subsystems are wired by hand with string paths; a load left out of the sum, a weight counted for one side or a heat flow connected to the wrong loop shifts totals that the regression test only pins at one design", "anchors": ["openconcept/examples/N3_HybridSingleAisle_Refrig.py", "openconcept/examples/HybridSingleAisle.py:MotorFaultProtection", "openconcept/mission/mission_groups.py:PhaseGroup", "openconcept/mission/mission_groups.py:IntegratorGroup"]}
{"id": "C93", "title": "The aerostructural analysis: right wing, right air, weight of the design", "statement": "In every converged aerostructural analysis, OpenAeroStruct receives the mesh of a wing with the given area, aspect ratio, taper and quarter-chord sweep, turned by the spline of the given twist; wing boxes made of the given thickness ratios, skins and spars; the beam these boxes make, with its mass, nodes, stiffness, centre of gravity and, exactly when weight relief is on, the masses of its elements; and the density, speed of sound, airspeed and unit Reynolds number of the air the mission uses at that altitude and temperature increment. Lift and drag coefficients and the failure measure are those it returns. The wing's weight is the beam's mass: it depends on the design of the wing only, not on altitude, speed, angle of attack, load factor or take-off weight. User options replace defaults and leave the others alone, and the default airfoil has the thickness ratio that OpenAeroStruct is told. If OpenAeroStruct converges, the whole analysis has a result.", "quantifier": "every mesh size, number of control points, surface option, design variable, flight condition and converged solution", "why_tests_cant": "some thirty arrays are passed by string paths into another library; a height passed for a depth, a mesh before the twist or a missing element mass still converges to plausible lift and drag, and the regression test pins one condition", "anchors": ["openconcept/aerodynamics/openaerostruct/aerostructural.py:Aerostruct", "openconcept/aerodynamics/openaerostruct/mesh_gen.py:TrapezoidalPlanformMesh"]}
{"id": "C94", "title": "The airliner flown with OpenAeroStruct's drag: its own wing in every phase, its weight with that wing, its 2.5 g maneuver", "statement": "The 737-800 whose drag comes from the vortex lattice method, and the one whose drag and wing weight come from the aerostructural analysis, fly every mission profile. In every converged phase fuel flow and thrust are those of two engines of the deck; the drag is dynamic pressure times wing area times the drag coefficient that the table of the analysed wing has at the phase's Mach number and altitude, at the angle of attack where the table has the phase's lift coefficient, plus the non-wing drag; the analysed wing has the area, aspect ratio, taper, sweep and twist of the design, the same in every phase; the weight is the takeoff weight less the fuel used, and for the aerostructural airliner less the original wing plus the analysed one. Fuel and weight (without the wing that every phase analyses anew) go on from phase to phase, and over the mission the weight falls by the fuel burned. In the aerostructural analysis group the maneuver is analysed with the same wing as the mission, and at the angle of attack found the lift is the load factor times the weight at takeoff with the wing of the climb.", "quantifier": "every mission profile, phase, number of nodes the integration allows, engine deck, training grid, mesh size, history of earlier analyses in the process, design variable and converged solution", "why_tests_cant": "polars, weights and maneuver are joined by promoted names; an input of the polar left unpromoted, a weight with the wrong sign or a lift of another wing converges all the same, and the tests pin the fuel burn of one design", "anchors": ["openconcept/examples/B738_VLM_drag.py:B738AirplaneModel", "openconcept/examples/B738_aerostructural.py:B738AirplaneModel", "openconcept/examples/B738_aerostructural.py:B738AnalysisGroup"]}
