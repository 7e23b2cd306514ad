{
 "C02": {
  "note": "Exactness, unique solvability and the scheme characterisation are proved for every accepted size; C02_every_documented_size_works_refuted: the default method raises ValueError for num_nodes=3 although the documentation allows 2N+1."
 },
 "C05": {
  "note": "dt, duration, rate, start value and all final-value partials proved; for time_setup='bounds' the state column is wrong (or raises) when the integral vanishes at some but not all nodes (two _refuted witnesses)."
 },
 "C06": {
  "note": "Chaining proved in full; the |dt partials are proved when no node integral of the segment vanishes and refuted for zero rates (ValueError)."
 },
 "C10": {
  "note": "Value and acceptance proved in full. The declared Jacobian is proved exact except for one-row inputs of multi-column equations, where it is proved wrong (column 0 is declared for every row)."
 },
 "C11": {
  "note": "Repeated setup keeps names, shapes and Jacobian structure but loses all units (stored kwargs are popped): proved as _refuted."
 },
 "C12": {
  "note": "Value and acceptance proved in full. Jacobian exact except one-row inputs of multi-column equations (witness in _refuted)."
 },
 "C13": {
  "note": "Unit text denotes the product when the first input has units or none has; when only the first is unitless the text starts with an operator and denotes nothing (_refuted)."
 },
 "C18": {
  "note": "Everything proved; the KeyError claim fails when the path runs through a stored number/array/text (TypeError or IndexError), see _refuted."
 },
 "C19": {
  "note": "Identity, Jacobian and reuse of the unchanged list proved; reuse after changing the value's size is refuted because the constructor appended the old size to the caller's list."
 },
 "C20": {
  "note": "Temperature: every altitude. Pressure: every altitude below 288.16/0.0065 m (44.3 km); above it the output is NaN (C20_pressure_every_altitude_refuted)."
 },
 "C21": {
  "note": "Proved when the last compute had the same layers; the unrestricted statement is refuted (stale masks; AttributeError before the first compute)."
 },
 "C24": {
  "note": "Decomposition proved for |vs| <= TAS, partials off |vs| = TAS; for steeper descents groundspeed is 0.1 and singamma +1 (_refuted)."
 },
 "C26": {
  "note": "Values proved everywhere. Horizontal partials off the kink. Vertical partials only inside the clip range; in the clipped range they are proved wrong (_refuted)."
 },
 "C27": {
  "note": "Exact zero set proved; every zero is a documented one, but within 0.1 m/s of Vr a balanced field has nonzero residual (_refuted)."
 },
 "C54": {
  "note": "Refuted: the option is ignored, geometry always uses 10.66 m and the reported height is 35 ft = 10.668 m. The partial theorem states what the phase does."
 },
 "C29": {
  "note": "Proved for every pair of phases (any model trees) that give common states the same start name; the code uses the first phase's start name for the second phase (C29_start_name_refuted) and raises AttributeError for a final_only state."
 },
 "C31": {
  "note": "Names, connections and computed values proved for any sequence of calls; promote_mult's input_units argument is ignored (_refuted)."
 },
 "C32": {
  "note": "Proved for the group's own components; tagged outputs of nested groups are not integrated and equal rate names are rejected (_refuted)."
 },
 "C33": {
  "note": "Proved for all 24 profile configurations and any aircraft model; MissionWithReserve leaves the climb altitude unconnected, and any reserve leaves the reserve climb's altitude unconnected (C33_takeoff_altitude_refuted)."
 },
 "C35": {
  "note": "Proved for every accepted rule; the fixed rule has no derivative at power_in = amount (C35_no_derivative_at_the_switch), so partials exclude exactly that point."
 },
 "C37": {
  "note": "Continuity, the group's relations and partials proved; false at zero airspeed (dJ/dU evaluated as J/U = 0/0) and at zero map efficiency (two _refuted theorems)."
 },
 "C38": {
  "note": "C38_three_blades_refuted: 3 blades raise NotImplementedError although a 3-blade map is selected first (missing elif); 4 accepted and every other count rejected."
 },
 "C39": {
  "note": "Proved for any deck; the deck surrogate itself is a parameter."
 },
 "C49": {
  "note": "Everything except that the coefficient of performance is defined for all temperature pairs: at T_hot = T_cold the code divides by zero (nan), shown by two _refuted theorems."
 },
 "C51": {
  "note": "All parts proved on solutions of the modelled group; a solution is shown to exist for every positive input (C51_solvable), and what it delivers at a point depends only on the inputs at that point (C51_pointwise). NTUMethod's partials are claimed away from equal heat capacity flows, where min and max have a kink."
 },
 "C52": {
  "note": "False as stated for the code: C52_series_refuted (Rfc is assigned twice, so the cold fouling factor is ignored and the hot one counted twice) and C52_partials_refuted; C52_series_partial characterises exactly when the series law holds; C52_no_fouling and C52_partials_no_fouling cover the default options."
 },
 "C50": {
  "note": "C50_sound_partial_refuted: below 0 K the speed of sound is held constant but its partial is not zero. DuctExitMachNumber yields nan (model: 0) for exit pressures above the total pressure; the theorems assume a ratio of at most 1. Everything else is proved."
 },
 "C59": {
  "note": "Proved on converged states; existence of such states by C59_design and C59_hx_design. The no-thrust theorem for the duct with its own exchanger has the extra hypotheses met only by states with recovery factor at most 1, whose existence is shown for the external-exchanger duct (C59_met)."
 },
 "C53": {
  "note": "Ammonia property curves are parameters (cubic interpolation not modelled). Condenser temperature proved when there is no wick or the wick conducts like the wall; otherwise refuted: wick_conduct is ignored, so T_cond is too high for every less conductive wick (C53_wick_refuted). The wall's hoop stress is half of yield/safety factor, i.e. twice the stated margin. Requires q > 0: at q = 0 the code divides 0 by 0."
 },
 "C61": {
  "note": "Over Model_Mission's connection list plus the phases' inner connections and balances (Model_Targets). A converged BalanceComp is taken to have equal sides; duration bounds are not modelled."
 },
 "C62": {
  "note": "The components are listed in Spec_Declared.shipped; AmmoniaProperties' partials are not modelled."
 },
 "C63": {
  "note": "Each system's converged equations are proved from its subsystems and connections. The _runs theorems show that the acyclic systems and the twin series hybrid have a converged state for all inputs (engine rating nonzero for the hybrid). Thrust needs nonzero density, rpm and diameter (propeller_runs). Propeller maps are arbitrary functions. The docstring of the twin series hybrid says the generator supplies hybrid_split.power_out_A; the code balances it against power_out_B."
 },
 "C64": {
  "note": "C64_hybrid_one_motor and C64_energy_sources speak about hybrid_flows, which C63_twin_hybrid proves for all three twin hybrids; C64_one_motor states the engine-out case directly on the converged twin hybrid, C63_twin_hybrid_runs gives such a state."
 },
 "C65": {
  "note": "Hypotheses: all sizes and flows of the heat exchanger positive, nonzero masses, and hx.cp_hot = 3801: heat sinks and heat pump use the coolant's specific heat from an option (3801), the heat exchanger reads an input with the same default; setting only one breaks the balance. Batteries of the all-electric systems produce heat nobody cools. Converged states meeting the hypotheses exist for all four systems and families of inputs (C65_..._steady: the steady states, whose throttle balances the exchanger's heat)."
 },
 "C66": {
  "note": "Two claims are false of the code and refuted: SeriesHybridElectricPropulsionSystem promotes fltcond_*, which matches no variable, so setup raises; in the refrigerated twin hybrid ac|propulsion|thermal|duct|area_nozzle is relabelled but never connected to the duct, so that any value leaves every other variable of a converged state as it is (examples/HybridTwin_active_thermal.py uses it as a design variable); coolant_mass is unread there too."
 },
 "C67": {
  "note": "OEW as an explicit function of the inputs for the four groups, the documented breakdown, existence of a result for every input, and the list of unconnected inputs."
 },
 "C68": {
  "note": "All 24 components; inputs physically meaningful (sweeps within 90 degrees, positive sizes)."
 },
 "C69": {
  "note": "Existence and uniqueness of the closing takeoff weight and growth with the load for all four groups; C69_too_heavy shows that for the jets the condition is needed."
 },
 "C70": {
  "note": "Proved for all parts but two. C70_gear_length_refuted: the small aircraft gear lengths are declared in ft while the cited equation takes inches. C70_pressurized_volume_refuted: the fuselage's pressurized volume is a lateral area, so that wide cabins are underestimated."
 },
 "C72": {
  "note": "Form factors and flap drag: proved exact. C72_skin_friction_refuted: the skin friction partials are never exact, because the code writes ln(Re) - 2.81341 for ln(0.06 Re) and ln 0.06 is not -2.81341. C72_skin_friction_partial: they are within 3 parts per million of the turbulent terms' derivatives."
 },
 "C73": {
  "note": "All parts proved; laminar flow reduces the estimate once each laminar run has a Reynolds number of at least 20000 (C73_laminar_flow_helps). C73_laminar_flow_helps_refuted: below, it can raise it."
 },
 "C74": {
  "note": "Onset, smoothness, slope at drag divergence, monotonicity and the mean thickness (with the exact error of the 500 point quadrature) proved. Normalisation: C74_normalisation_partial for equal areas; C74_normalisation_refuted for every other area, since the code multiplies by S_ref / area where it should multiply by area / S_ref."
 },
 "C71": {
  "note": "Proved for all options."
 },
 "C75": {
  "note": "Proved for every resolution with at least one panel each way."
 },
 "C76": {
  "note": "Proved for every list of panel counts >= 1 and every list of sections; scaling needs a positive area of the unscaled wing, which C76_scalable shows for sections ordered inboard with positive chords."
 },
 "C77": {
  "note": "Proved for every history (induction over the calls, invariant: the stored mesh is the mesh of the stored inputs). Scaled meshes need a positive area."
 },
 "C78": {
  "note": "Proved for both spacings."
 },
 "C79": {
  "note": "History theorems proved for both components with the analysis an arbitrary function that may fail; the excluded cases are refuted by C79_interrupted_refuted and described by C79_after_interruption and C79_placeholder."
 },
 "C80": {
  "note": "Exact characterisation of accepted set-ups proved; three documented behaviours are false of the code: C80_lists_refuted, C80_panels_refuted, C80_training_points_refuted."
 },
 "C82": {
  "note": "Proved for sections and, as C82_trapezoid_partial, for trapezoidal wings with up to two strips or equal ratios; C82_trapezoid says what the code computes instead, C82_trapezoid_tip_strip that it is never the documented value for three or more strips, C82_trapezoid_refuted has a converged witness."
 },
 "C81": {
  "note": "OpenAeroStruct, OpenMDAO's b-spline and structured surrogate are arbitrary functions; where a theorem needs the surrogate to interpolate or to commute with constants it says so."
 },
 "C83": {
  "note": "The lift of the vortex lattice method is an arbitrary function of the angle and of the listed inputs."
 },
 "C84": {
  "note": "Below 288.16/0.0065 m, the ceiling of the pressure model; OpenAeroStruct is an arbitrary function."
 },
 "C85": {
  "note": "The per-node aerostructural group is an arbitrary partial function of the wing, the day and the flight condition."
 },
 "C86": {
  "note": "For any aircraft model as an arbitrary group; the aircraft's duration connections must not target the phase's own names (own_durations). Ceiling 288.16 K / 6.5 K/km. C86_met flies a climb of the minimal aircraft to 3000 m at every odd node count."
 },
 "C87": {
  "note": "The arc's heights are 10.66 m, not the phase's h_obstacle (C54). The rotation's equation across the path holds while the acceleration is within the clip of -1 g and 2.5 g. Instances: three rolls at constant acceleration, an arc, a level rotation and an engine-out climb of the minimal aircraft."
 },
 "C88": {
  "note": "One theorem (C88_one_flight) turns any solution of the mission group into values of the phases that follow one another; C88_distance sums the speeds. C88_sets_up shows that every valid profile sets up with the two minimal aircraft; C88_met constructs a converged BasicMission for any odd node count. The altitude of the reserve climb and, without a takeoff, of the first climb is not connected (see C33)."
 },
 "C89": {
  "note": "Propeller maps, engine deck and the trained drag polars are arbitrary functions. C89_heavier_within_a_parabola shows why the weight falls only over pairs of intervals: inside one parabola of the Simpson rule a node may be heavier than the one before. C89_mission_charge assumes the same battery in every phase: true of the hybrids (C89_hybrid_battery); the electric TBM's specific energy is an input of each phase. C89_met flies a mission of the fuel-burning minimal aircraft."
 },
 "C90": {
  "note": "Propeller thrust where density, speed of rotation and diameter are not zero. Empty weights where rated power and fuel capacity are positive. The electric TBM's drag leaves out its cooling duct's; the refrigerated twin compares the exchanger's frontal area with propmodel.area_nozzle, the duct's control for which no connection exists (the duct's own is propmodel.duct.area_nozzle)."
 },
 "C91": {
  "note": "Proved for every profile with a reserve (the code's own is the full mission with takeoff and reserve). The engine deck is an arbitrary function of throttle, altitude and Mach number; initial guesses, bounds and solvers are not modelled; the empty weight formula for positive sizes and weights. C91_converges gives a solution for every choice of design variables and takeoff weight with a deck of constant thrust and fuel flow, for the mission without takeoff; that the payload it leaves is positive is not claimed."
 },
 "C92": {
  "note": "Proved for every engine deck as a function of throttle, altitude, Mach number and shaft power (the deck itself is an input of the model). C92_heat assumes heat exchangers with positive sizes and flows whose coolant has the specific heat the other components use, a motor rating that is not zero and a battery with weight. C92_flies shows that the aircraft sets up in every phase and every mission; a converged state of the whole aircraft is not exhibited (its cooling ducts are compressible; C65 has a solution of one duct). The heat of the pumps and 5 % of the refrigerator's power do not enter a coolant loop in the code, and the accounts say so. The thermal parameter bypass_heat_pump is connected to nothing. The analysis group and the optimisation scripts around the aircraft are not modelled."
 },
 "C93": {
  "note": "OpenAeroStruct's wing box, beam and coupled point, its Rotate and OpenMDAO's splines are parameters. C93_weight assumes of Rotate only that it reads the points of the mesh (turns_points, met in C93_turns_case). Initial values and solver settings are not modelled."
 },
 "C94": {
  "note": "Proved for every engine deck, training grid, surface option, spline, surrogate and OpenAeroStruct analysis as parameters (C81, C93). The drag clause assumes that the process has not met other options or a failed analysis near the same inputs (usable, as in C81; C79 shows what happens otherwise). The temperature increment of the mission is not promoted to the polar in the code: the polar has its own (drag.fltcond|TempIncrement), and the theorems say so; likewise the thickness ratio of the vortex lattice polar and the original wing weight of the maneuver (kg_to_N.orig_W_wing) are inputs of their own. The wing weight comes from a table cached within a tolerance, so that phases may differ in it within that tolerance: the continuity of the weight is stated without the wing. The variant with use_surrogate=False is not modelled as an aircraft (C85 has its polar). No converged state of a whole such aircraft is exhibited: C81 and C93 have one of the polar and of the analysis, C90 one of the flight."
 }
}