# Formal model of mdolab/openconcept in Rocq (Coq 8.16.1)

## 1. What is modelled, and how

OpenConcept is a library of OpenMDAO components.  A *component* has named
inputs and outputs (vectors of `num_nodes` entries or scalars), a `compute`
method, and either declared constant partials or a `compute_partials` method.
The model has three styles, chosen per module:

* **Pointwise components** (`Base.v`, record `pcomp`).  Nearly all physics
  components act node by node.  A `pcomp` lists the inputs and outputs with
  their shape (`Vec` = `(nn,)`, `Sca` = scalar), the formula of every output
  (a literal transcription of `compute`, reading `e "name"` where the Python
  reads `inputs["name"]`), and the list of declared partials with their
  formula (a literal transcription of `compute_partials` / `declare_partials`).
  `vcompute` is the vectorised output for any number of nodes; `vjac` is the
  dense Jacobian OpenMDAO assembles from the declared sparsity pattern
  (`rows=cols=arange` for a vector input, `cols=zeros` for a scalar input;
  an undeclared pair is zero).
  The specification is `jac_correct`: for every output entry and every input
  entry, the Jacobian entry *is the derivative* (Coquelicot `is_derive`) of that
  output entry with respect to that input entry.  This covers the sparsity
  pattern and undeclared pairs, not just the formulas.
* **Array algorithms** (integrators, finite differences, concatenation, wing
  sections, adders).  Vectors are `list R` or `nat -> R` with an explicit size,
  matrices `nat -> nat -> R`; every theorem quantifies over the size.
* **Groups** (`Model_Net.v`).  A group is a list of subsystems with their
  promotions, and connections.  `setup` rejects promotions that match nothing,
  unknown or doubly connected names, and duplicate outputs.  A *solution* of a
  group is an assignment of values to all its names in which every subsystem is
  satisfied: what OpenMDAO's solvers deliver when they converge.  Theorems about
  groups quantify over all solutions; separate theorems show that solutions
  exist (by running acyclic groups in order, or by designing a state backwards).
* **Structural / configuration code** (mission linking, promotion naming, tag
  parsing, argument validation, history of `setup` calls).  Executable Gallina
  over lists and strings; Python exceptions are values of an error type.

Numbers are exact reals `R`; IEEE rounding, overflow and NaN propagation are not
modelled except where a property is about them (there numpy division is an
option-valued function that returns `None` for a zero denominator).

## 2. Trusted base

* Coq 8.16.1 kernel.
* Axioms (all from the standard library; listed by `Print Assumptions` beneath
  each theorem in the `Props_*.v` files): `ClassicalDedekindReals.sig_not_dec`,
  `ClassicalDedekindReals.sig_forall_dec`,
  `FunctionalExtensionality.functional_extensionality_dep`,
  `Classical_Prop.classic` (the last through Coquelicot's limits).  Structural
  theorems are closed under the global context.  No axiom of our own; sections
  with hypotheses are closed, so that their lemmas carry them as premises.
* Libraries: Coq stdlib, Coquelicot (definitions of `is_derive`, `RInt`,
  `continuous`, and their theorems - itself axiom-free beyond the stdlib).
* The reading of the Python source: each definition cites file and lines.
* OpenMDAO, numpy and scipy semantics assumed:
  * `declare_partials(rows, cols, val)` gives a dense matrix with those entries
    and zero elsewhere; assigning a scalar or vector to `J[...]` broadcasts over
    the declared entries; declared rows and columns outside the variable, a
    duplicate variable name, or an unmatched promotion raise;
  * `connect` and promotion hand values over unchanged.  Values are physical
    quantities, so that the unit conversion between a source and its targets is
    the identity; where a component computes with non-SI numbers (hp, ft, lb,
    lbf, ...) the conversion factor is part of the model;
  * a converged BalanceComp has equal sides, a converged implicit component zero
    residuals; bounds and initial guesses are hints to the solvers;
  * partials declared with `method="cs"` are the exact derivatives of the
    modelled expression;
  * interpolating metamodels (propeller maps, engine decks, property curves) are
    arbitrary functions, or functions with the stated differentiability;
  * `sp.linalg.inv` and `np.linalg.solve` return an inverse / a solution when one
    exists (the theorems take it as a parameter with that property, and the
    existence of an inverse is proved where the code builds the matrix).
* Numbers are exact reals.  `sqrt` of a negative number is 0 in Coq and nan in
  numpy, `/ 0` is 0 in Coq: theorems that could touch such a point exclude it by
  hypothesis or state the failure with an option-valued operation.

## 3. Files

| model | source modelled | specification, theorems |
|---|---|---|
| `Model_Integrals` | utilities/math/integrals.py | `Spec_Integrals`, `Props_Integrals` (C01-C07) |
| `Model_Derivatives` | utilities/math/derivatives.py | `Props_Derivatives` (C08, C09) |
| `Model_Algebra` | utilities/math/add_subtract_comp.py, multiply_divide_comp.py | `Spec_Algebra`, `Props_Algebra`, `Props_Units` (C10-C13) |
| `Model_Vectors`, `Model_Data` | combine_split_comp.py, max_min_comp.py, selector.py, linearinterp.py, dict_indepvarcomp.py, dvlabel.py, FlipVectorComp | `Spec_Data`, `Props_Vectors` (C14-C19, C34) |
| `Model_Atmos` | atmospherics/* | `Props_Atmos` (C20-C23) |
| `Model_Phases` | mission/phases.py (components) | `Props_Phases` (C24-C28, C54) |
| `Model_Mission` | mission/mission_groups.py, profiles.py | `Spec_Mission`, `Props_Mission` (C29-C33) |
| `Model_Targets` | inner wiring and balances of the phases and profiles | `Props_Targets` (C61) |
| `Model_Propulsion` | propulsion/{splitter,motor,generator,turboshaft,propeller,rubberized_turbofan}.py, energy_storage/battery.py | `Props_Propulsion` (C35-C40) |
| `Model_Tank` | energy_storage/hydrogen/* | `Props_Tank` (C41, C42) |
| `Model_Aero` | aerodynamics/{aerodynamics,CL_max_estimation}.py, geometry/*, stability/*, costs/* | `Spec_Aero`, `Props_Aero` (C43-C46, C55-C57) |
| `Model_Thermal` | thermal/{thermal,chiller,hose,pump,manifold,battery_cooling,motor_cooling}.py | `Props_Thermal` (C47-C49, C58) |
| `Model_HX` | thermal/heat_exchanger.py | `Spec_HX`, `Props_HX`, `Spec_Fins`, `Props_Fins` (C51, C52) |
| `Model_Ducts` | thermal/ducts.py | `Spec_Ducts`, `Props_Ducts`, `Props_DuctDesign`, `Props_DuctHX` (C50, C59, C60) |
| `Model_HeatPipe` | thermal/heat_pipe.py | `Spec_HeatPipe`, `Props_HeatPipe` (C53) |
| `Model_Systems` | propulsion/systems/* | `Spec_Systems`, `Props_Systems`, `Props_SystemRuns`, `Props_Cooling`, `Props_SystemSetup`, `Props_CoolingRuns`, `Props_Refrigerated`, `Props_CompressibleCooling` (C51, C63-C66) |
| `Model_Weights` | weights/* | `Spec_Weights`, `Props_Weights`, `Props_Sizing` (C67-C70) |
| `Model_Drag` | aerodynamics/{drag_jet_transport,drag_BWB}.py, aerodynamics/openaerostruct/wave_drag.py | `Spec_Drag`, `Spec_WaveDrag`, `Props_Drag`, `Props_Friction`, `Props_DragTrends`, `Props_WaveDrag` (C71-C74) |
| `Model_Mesh` | aerodynamics/openaerostruct/mesh_gen.py | `Spec_Mesh`, `Props_Mesh`, `Props_Sections`, `Props_SectionJac`, `Props_SectionInterp` (C75-C78) |
| `Model_Training` | aerodynamics/openaerostruct/drag_polar.py:379-684, aerostructural.py:255-756 (training tables) | `Spec_Training`, `Props_Training` (C79-C80) |
| `Model_Polar` | aerodynamics/openaerostruct/drag_polar.py:46-376, 687-870, aerostructural.py:46-252, 1317-1505, CL_max_critical_section.py | `Spec_Polar`, `Props_Polar` (C81-C82), `Props_CLmax` (C83), `Props_VLM` (C84), `Props_Exact` (C85) |
| `Model_Flight` | mission/phases.py:599-1139, 1354-1469, mission/profiles.py:32-297, atmospherics/compute_atmos_props.py, examples/minimal.py, examples/minimal_integrator.py as groups of the network model at node level | `Spec_Flight`, `Props_Flight` (C86), `Props_Takeoff` (C87), `Props_Trip` (C88) |
| `Model_Fleet` | examples/{TBM850,Caravan,KingAirC90GT,HybridTwin,HybridTwin_thermal,HybridTwin_active_thermal,ElectricSinglewithThermal,B738}.py: the aircraft models, the margins and objective of the hybrid analyses | `Spec_Fleet`, `Props_Fleet` (C89), `Props_FleetBody` (C90) |
| `Model_Sizing` (aircraft model: `SizedB738` in `Model_Fleet`) | examples/B738_sizing.py:31-412, propulsion/rubberized_turbofan.py without hydrogen | `Spec_Airliner`, `Props_Airliner`, `Props_AirlinerMet` (C91) |
| `Model_SingleAisle` | examples/N3_HybridSingleAisle_Refrig.py:24-366 (the aircraft model), examples/HybridSingleAisle.py:118-159, mission/mission_groups.py:113-222 (promote_add, promote_mult) | `Spec_SingleAisle`, `Props_SingleAisle` (C92) |
| `Model_Aerostruct` | aerodynamics/openaerostruct/aerostructural.py:759-1314 (group Aerostruct, its options and default surface) | `Spec_Aerostruct`, `Props_Aerostruct` (C93) |
| `Model_Winged` | examples/B738_VLM_drag.py:32-107, examples/B738_aerostructural.py:40-318 (aircraft with surrogates and analysis group) | `Spec_Winged`, `Props_Winged` (C94) |
| all | `Spec_Declared` | `Props_Declared` (C62) |

`Base.v`, `RSum.v`, `Calc.v`, `Py.v` hold the framework (components, finite
sums, python values and errors); `Proofs_*.v` hold lemmas only.

## 4. Per-property plan

| id | model | proof |
|---|---|---|
| C01, C02 | Simpson and BDF3 matrices as built by the code, for arbitrary n | sums by induction; exactness by polynomial identity per row; BDF3 uniqueness by forward substitution (band solve) |
| C03, C04 | Integrator.compute as function of options | algebra over finite sums |
| C05 | Integrator partials, incl. the sparse `.data` path of 'bounds' mode | is_derive of finite sums; refutation by witness where `.data` is shorter than the vector |
| C06, C07 | block matrix with repeat matrix, segments_to_count | induction on segments |
| C08, C09 | stencils by row position for arbitrary segments | polynomial identities; is_derive |
| C10-C13 | option validation + compute + COO partials, unit strings, stored kwargs as state | induction on input list; witnesses for the refuted parts |
| C14 | slices over list of sizes | list induction |
| C15-C19 | direct | list induction / reals |
| C20-C22 | Hermite seam formulas over R with Rpower/exp | Coquelicot derivative, local equality at seams; monotonicity via sign of derivative |
| C21 | component with stored masks as a state machine | state-machine witness / invariant |
| C23-C28 | pcomp / direct | field, sqrt lemmas, Coquelicot |
| C29-C33 | connection lists as data, trees of subsystems | list induction |
| C34 | list reversal | induction |
| C35-C43, C45, C47, C48 | pcomp, groups as solutions | jac_correct + field; bounds by nra / exp lemmas; energy over a phase by summing the Simpson rule |
| C44, C55, C56 | list of sections, integral spec via RInt | induction on sections |
| C46 | lists of components | induction |
| C49 | heat pump group with its balance, bypass | solution equations; division by zero as refutation |
| C50-C52 | pcomp with cs partials; heat exchanger as an acyclic group | isentropic identities with Rpower; 1 - exp bounds; existence by running the group |
| C53 | heat pipe group, property curves as parameters | solution equations, ln/tanh lemmas |
| C54 | rotation phase with its option | witness for every other obstacle height |
| C57, C58 | pcomp | monotonicity lemmas, Blasius law |
| C59, C60 | implicit compressible duct (cyclic group) | conservation from residuals; existence by backward design: choose station Mach numbers, read off areas and pressures |
| C61 | profile connections + phase internals | every leg's balance traced through the connection list, sums over phases |
| C62 | every component | decision procedure over the declaration lists + locality |
| C63, C64 | whole propulsion systems as groups | equations of each subsystem composed through the connection list; existence by execution order, the engine throttle given in closed form |
| C65 | same, with heat sinks, reservoir, duct, exchanger, heat pump | per-node heat balances composed with the Simpson energy lemma of C47; steady converged states constructed for all four systems |
| C66 | setup of each system; set of names read by each subsystem | computation; invariance of solutions under a change of the unread variable |
| C67, C68, C70 | weight components and the four empty weight groups, conversions in the model | solution equations composed; textbook equations in `Spec_Weights`; derivatives of powers |
| C69 | same | empty weight is L M + g(M) with g growing slower than M^(2/3): intermediate value theorem, scaling argument for uniqueness |
| C71-C73 | drag build-up groups with their multipliers, adders and constants | solution equations composed; derivative of the friction laws; rational bounds on ln 0.06 and exp by Taylor polynomials; monotonicity by the mean value theorem |
| C74 | section lists, quadrature over 500 points, masked drag rise | closed form of the trapezoidal rule on products of lines, RInt of the exact mean; derivative at the onset from the definition |
| C75-C78 | meshes as functions of indices, the loop over the regions with its overwrites, sparse arrays with duplicates adding up, the stored state | closed form of the loop, telescoping sums for areas; sums over the one region a row lies in; counting entries for repetitions; induction over histories of calls |
| C79-C80 | the class attributes as one state shared by all instances, the analysis an arbitrary partial function, any call may be interrupted | invariant over histories: stored inputs and tables belong to the last call that completed, or to a failed call; row-major arithmetic for the grid; witnesses for the refutations |
| C81-C85 | groups of the network model whose subsystems are meshes, training tables, an arbitrary surrogate, an arbitrary analysis and balances; per-node names generated from the node number | reading the relations of a converged solution; the table theorems of C79; bounds on the log-sum-exp maximum, intermediate value theorem for existence; injectivity of decimal numerals for the generated names |
| C86-C87 | the phases as groups with an arbitrary group for the aircraft model, integrators with the inverse of the Simpson matrix, balances as equations | the integrators' nodes as sums of parabola strips; reading every component of a converged solution through promotions and connections; trigonometry of the path angle; closed-form phases of the minimal aircraft for non-vacuity |
| C88 | the mission group of any profile with an arbitrary aircraft model | one choice of values per phase from the nested groups; decoding of mission-level names into phase and variable, so that each connection of `mission` becomes an equation between two phases; the scalar values form a converged mission in the sense of `Model_Targets`, so C61 applies; node values through C86 and C87 |
| C89-C90 | the aircraft models of the examples as groups built from the propulsion systems, weight groups, polar and integrators; propeller maps and engine deck arbitrary functions | set-up checks of every aircraft, phase and profile by computation on names; values traced through promotions and connections to the phase's names; the theorems on the propulsion systems (C51, C63-C66), weights (C67) and one flight (C88) composed; telescoping sums over the phases; a mission of the fuel-burning minimal aircraft in closed form for non-vacuity |
| C91 | the sizing analysis as a group around the mission group of any profile with a reserve; unit conversions of the weight and tail components explicit | each part's relation read through promotions and connections; C67, C71 and C89 composed; the fuel at the end of the loiter as the sum over the phases |
| C92 | the hybrid single-aisle aircraft as a group of the network model, from the models of its ducts (C65), exchangers (C66), pumps, hoses, refrigerator and heat sinks | the setup of every phase and mission by computation of the wiring check; each account from the relations of the parts read through promotions and connections; temperatures and charge as integrals; the mission by the chain of its phases |
| C93 | the aerostructural analysis as a group of the network model with OpenAeroStruct's wing box, beam and coupled point as parameters, the mesh from C75, the air from C22 and C23 | each input of the point traced through connections and promotions to its source; the planform by C75; the wing's weight by comparing two solutions with the same design; existence by building the solution part by part; the default airfoil by a finite table over its 51 stations |
| C94 | the two airliners as aircraft of the mission model, their drag the groups of C81 with the history of the process as a parameter; the analysis group with the aerostructural group of C93 | the setup of every phase and mission by computation of the wiring check; drag through C81 and the promotions of the polar; weight from the sum component; the mission by the chain of its phases; the maneuver from the balance, the lift and the dynamic pressure read through their connections |

## 5. What the proofs found in the code

Each of these is a theorem (suffix `_refuted`, or named in the note of its claim).

* integrals.py: default BDF3 raises for the documented size 3; 'bounds' mode
  partials wrong or raising when the integral vanishes at some nodes; `|dt`
  partials raise for a zero rate (C02, C05, C06).
* add_subtract_comp.py / multiply_divide_comp.py: units lost on the second
  setup; wrong Jacobian for one-row inputs of multi-column equations; unit string
  starting with an operator (C10-C13).
* dvlabel.py appends to the caller's list; dict_indepvarcomp.py raises other
  errors than KeyError (C18, C19).
* Atmosphere: nan above 44.3 km; masks kept between calls (C20, C21).
* Phases: groundspeed and climb angle for steep descents; clipped vertical
  acceleration has unclipped partials; the BFL residual near Vr; the obstacle
  height option is ignored (C24, C26, C27, C54).
* Mission groups: start name of the first phase used for the second one;
  final_only states; promote_mult ignores input_units; nested tagged rates not
  integrated; takeoff altitude unconnected in MissionWithReserve and for every
  reserve climb (C29, C31-C33).
* propeller.py: three blades rejected (missing elif); 0/0 at zero airspeed and
  zero efficiency (C37, C38).
* Heat pump: division by zero at equal temperatures (C49).
* ducts.py: speed-of-sound partial wrong below 0 K; the default cp of the duct
  (1002.93), of the exchanger (1005) and of the gas law (1004.675) differ (C50,
  C59).
* heat_exchanger.py: the cold fouling factor is ignored, the hot one counted
  twice (C52).
* heat_pipe.py: wick conductivity ignored; factor 2 in the hoop stress; 0/0 at
  zero heat (C53).
* Propulsion systems: `SeriesHybridElectricPropulsionSystem` cannot be set up;
  the nozzle area design variable of the refrigerated twin hybrid has no effect;
  the coolant's specific heat is given in two places; the docstring of the twin
  series hybrid swaps the two sides of the power split (C63, C65, C66).
* weights_turboprop.py: gear lengths in ft where the cited equation takes inches;
  the pressurized volume of the fuselage is a lateral area (C70).
* drag_jet_transport.py: skin friction partials use -2.81341 for ln 0.06; a short
  laminar run is given more drag than turbulent flow (C72, C73).
* wave_drag.py: with `specify_area_norm` the area ratio is upside down (C74).
* drag_polar.py, aerostructural.py: inputs are stored before the analyses run, so a retry
  after a failure returns stale tables; lists of training values are refused; instances
  with other training points share tables (C79, C80).
* drag_polar.py: the thickness ratios of a trapezoidal wing are interpolated at cosine spaced
  positions although the mesh is uniform (C82).

## 6. Not modelled

Kriging/Akima metamodels with binary training data (`cfm56.py`, `N3.py`,
`prop_maps.py` tables), OpenAeroStruct itself (a parameter of `Model_Training`, `Model_Polar` and `Model_Aerostruct`), Newton/linear solvers (their converged result
is), plotting (`visualization.py`), of the examples the analysis with use_surrogate=False of
B738_aerostructural.py and the analysis groups and optimisation scripts around the modelled aircraft (those of the hybrid twins, of B738_sizing.py and of
B738_aerostructural.py are modelled), IEEE rounding.

## 7. Testing the theorems

`tools/mutate.py` applies one edit to a model file in a scratch copy, rebuilds
what depends on it and records which theorems fail; `tools/automut.py` generates
such edits (constants, signs, swapped operators and names, dropped list
entries).  `seeded/LOG.jsonl` has one line per edit, including the edits no
theorem noticed at first, with the theorem that was tightened or the reason why
the edit changes nothing a property speaks about.
