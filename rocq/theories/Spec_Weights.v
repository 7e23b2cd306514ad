(** Specification vocabulary for the empty weight estimates. *)
From Coq Require Import Reals List Bool String.
From Verif Require Import Base Model_Net Model_Ducts Model_Weights.
Import ListNotations.
Open Scope R_scope.
Open Scope string_scope.

(** Physically meaningful values of the inputs: sweep angles between -90 and 90
    degrees, crew numbers not negative, the sweep term [K_ws] above -1 (it is negative
    for forward sweep), everything else positive. *)
Definition sane (x : string) (v : R) : Prop :=
  if mem x ["ac|geom|wing|c4sweep"; "ac|geom|hstab|c4sweep"; "ac|geom|vstab|c4sweep"] then - (PI / 2) < v < PI / 2
  else if mem x ["ac|num_flight_deck_crew"; "ac|num_cabin_crew"] then 0 <= v
  else if String.eqb x "K_ws" then -1 < v else 0 < v.
Definition sane_inputs (C : pcomp) (E : env) : Prop := forall x k, assoc x (pc_ins C) = Some k -> sane x (E x 0%nat).

(** The components of openconcept/weights, with the options for which the formulas make sense. *)
Inductive weight_component : pcomp -> Prop :=
| w_ga_wing n : 0 < n -> weight_component (WingWeight_SmallTurboprop n)
| w_ga_tail n : 0 < n -> weight_component (EmpennageWeight_SmallTurboprop n)
| w_ga_fuselage n : 0 < n -> weight_component (FuselageWeight_SmallTurboprop n)
| w_ga_nacelle : weight_component NacelleWeight_SmallSingleTurboprop
| w_ga_nacelles : weight_component NacelleWeight_MultiTurboprop
| w_ga_gear n : 0 < n -> weight_component (LandingGearWeight_SmallTurboprop n)
| w_ga_fuel k : 0 < k -> weight_component (FuelSystemWeight_SmallTurboprop k)
| w_ga_equipment : weight_component EquipmentWeight_SmallTurboprop
| w_wing n f : 0 < n -> 0 < f -> weight_component (WingWeight_JetTransport n f)
| w_hstab_const f : weight_component (HstabConst_JetTransport f)
| w_hstab n k s : weight_component (HstabWeight_JetTransport n k s)
| w_vstab n t : weight_component (VstabWeight_JetTransport n t)
| w_kws : weight_component FuselageKws_JetTransport
| w_fuselage n d l : weight_component (FuselageWeight_JetTransport n d l)
| w_main n k : weight_component (MainLandingGearWeight_JetTransport n k)
| w_nose n k : weight_component (NoseLandingGearWeight_JetTransport n k)
| w_engine : weight_component EngineWeight_JetTransport
| w_engine_systems : weight_component EngineSystemsWeight_JetTransport
| w_nacelle : weight_component NacelleWeight_JetTransport
| w_furnishing l b : weight_component (FurnishingWeight_JetTransport l b)
| w_equipment c a p : 0 <= a -> weight_component (EquipmentWeight_JetTransport c a p)
| w_volume f : weight_component (cabin_volume f)
| w_cabin : weight_component CabinWeight_BWB
| w_aftbody : weight_component AftbodyWeight_BWB.

(** ** The published estimates
    In the form of the books the code cites; pounds, feet, knots and psi unless noted.
    [Nz]: ultimate load factor; [Wdg]: design gross weight; [Nl]: ultimate landing load
    factor; [Wl]: landing weight.  Sweeps are in radians. *)
(** Raymer (1992), transports, eqs. 15.25 to 15.30.  [Ky = 0.3 Lt] and [Kz = Lt] are the
    radii of gyration the book recommends; gear lengths in inches. *)
Definition raymer_wing (Wdg Nz Sw A tc taper sweep Scsw : R) : R :=
  51/10000 * Rpower (Wdg * Nz) (557/1000) * Rpower Sw (649/1000) * Rpower A (5/10) * Rpower tc (-4/10) * Rpower (1 + taper) (1/10)
  / cos sweep * Rpower Scsw (1/10).
Definition raymer_hstab (Kuht Fw Bh Wdg Nz Sht Lt sweep Ah SeSht : R) : R :=
  let Ky := 3/10 * Lt in
  379/10000 * Kuht * Rpower (1 + Fw / Bh) (-25/100) * Rpower Wdg (639/1000) * Rpower Nz (1/10) * Rpower Sht (75/100) / Lt
  * Rpower Ky (704/1000) / cos sweep * Rpower Ah (166/1000) * Rpower (1 + SeSht) (1/10).
Definition raymer_vstab (HtHv Wdg Nz Lt Svt sweep Av tc : R) : R :=
  let Kz := Lt in
  26/10000 * Rpower (1 + HtHv) (225/1000) * Rpower Wdg (556/1000) * Rpower Nz (536/1000) * Rpower Lt (-5/10) * Rpower Svt (5/10)
  * Rpower Kz (875/1000) / cos sweep * Rpower Av (35/100) * Rpower tc (-5/10).
Definition raymer_kws (taper Bw sweep L : R) : R := 75/100 * ((1 + 2 * taper) / (1 + taper)) * (Bw * tan sweep / L).
Definition raymer_fuselage (Kdoor Klg Wdg Nz L Sf Kws D : R) : R :=
  328/1000 * Kdoor * Klg * Rpower (Wdg * Nz) (5/10) * Rpower L (25/100) * Rpower Sf (302/1000) * Rpower (1 + Kws) (4/100) * Rpower (L / D) (1/10).
Definition raymer_main_gear (Kmp Wl Nl Lm Nmw Nmss Vs : R) : R :=
  106/10000 * Kmp * Rpower Wl (888/1000) * Rpower Nl (25/100) * Rpower Lm (4/10) * Rpower Nmw (321/1000) * Rpower Nmss (-5/10) * Rpower Vs (1/10).
Definition raymer_nose_gear (Knp Wl Nl Ln Nnw : R) : R :=
  32/1000 * Knp * Rpower Wl (646/1000) * Rpower Nl (2/10) * Rpower Ln (5/10) * Rpower Nnw (45/100).
(** FLOPS, engines, thrust reversers, engine controls and fuel system. *)
Definition flops_engine (T : R) : R := T / (55/10).
Definition flops_reversers (T N : R) : R := 34/1000 * T * N.
Definition flops_controls (T N : R) : R := 26/100 * N * sqrt T.
Definition flops_fuel_system (F N M : R) : R := 107/100 * Rpower F (58/100) * Rpower N (43/100) * Rpower M (34/100).
(** Roskam (1989), part V: eqs. 6.27, 5.37, 7.44, 7.6, 7.23, 7.15, 7.29, 7.35. *)
Definition roskam_starters (We N : R) : R := 933/100 * N * Rpower (We / 1000) (1078/1000).
Definition roskam_nacelles (T N : R) : R := 65/1000 * (T * N).
Definition roskam_furnishings (Ndc Npax Ncc Klav Kbuf Pc W : R) : R :=
  55 * Ndc + 32 * Npax + 15 * Ncc + Klav * Rpower Npax (133/100) + Kbuf * Rpower Npax (112/100)
  + 109 * Rpower (Npax * (1 + Pc) / 100) (505/1000) + 771/1000 * (W / 1000).
Definition roskam_flight_controls (Kfc W : R) : R := Kfc * Rpower W (2/3).
Definition roskam_avionics (Npil Ne W : R) : R :=
  Npil * (15 + 32/1000 * (W / 1000)) + Ne * (5 + 6/1000 * (W / 1000)) + 15/100 * (W / 1000) + 12/1000 * W.
Definition roskam_electrical (Wfs Wiae : R) : R := 1163 * Rpower ((Wfs + Wiae) / 1000) (506/1000).
Definition roskam_pressurization (V N : R) : R := 469 * Rpower (V * N / 10000) (419/1000).
Definition roskam_oxygen (N : R) : R := 7 * Rpower N (702/1000).
(** Bradley (2004), cabin and aft body of a blended wing body. *)
Definition bradley_cabin (W S : R) : R := 1803246/1000000 * Rpower W (166552/1000000) * Rpower S (1061158/1000000).
Definition bradley_aftbody (N S W taper : R) : R := 53/100 * (1 + 5/100 * N) * S * Rpower W (2/10) * (taper + 1/2).
(** Raymer, general aviation: wing, fuselage with pressurization, landing gear, fuel
    system; Roskam (Torenbeek): empennage and nacelle of one turboprop.  [Lm] and [Ln] in inches. *)
Definition ga_wing (S Wf A sweep q taper tc Nz W : R) : R :=
  36/1000 * Rpower S (758/1000) * Rpower Wf (35/10000) * Rpower (A / cos sweep ^ 2) (6/10) * Rpower q (6/1000) * Rpower taper (4/100)
  * Rpower (100 * tc / cos sweep) (-3/10) * Rpower (Nz * W) (49/100).
Definition ga_fuselage (Sf Nz W Lt L D q : R) : R :=
  52/1000 * Rpower Sf (1086/1000) * Rpower (Nz * W) (177/1000) * Rpower Lt (-51/1000) * Rpower (L / D) (-72/1000) * Rpower q (241/1000).
Definition ga_pressurization (V P : R) : R := 119/10 * Rpower (V * P) (271/1000).
Definition ga_gear (Nl Wl Lm Ln : R) : R :=
  95/1000 * Rpower (Nl * Wl) (768/1000) * Rpower (Lm / 12) (409/1000) + 125/1000 * Rpower (Nl * Wl) (566/1000) * Rpower (Ln / 12) (845/1000).
Definition ga_fuel_system (Vt Vi Nt Nen : R) : R :=
  249/100 * Rpower Vt (726/1000) * Rpower (1 / (1 + Vi / Vt)) (363/1000) * Rpower Nt (242/1000) * Rpower Nen (157/1000).
Definition ga_empennage (Nz Sv Sh : R) : R := 4/100 * Rpower (Nz * (Sv + Sh) ^ 2) (75/100).
Definition ga_nacelle (P : R) : R := 25/10 * sqrt P.
(** Flight controls, avionics (110 lb uninstalled), electrics, pressurization and anti-ice,
    oxygen, furnishings, paint, hydraulics. *)
Definition ga_equipment (W N Wfs L Bw : R) : R :=
  let Wav := 2117/1000 * Rpower 110 (933/1000) in
  23/100 * Rpower W (666/1000) + Wav + 1257/100 * Rpower (Wfs + Wav) (51/100)
  + 95/100 * (265/1000 * Rpower W (52/100) * Rpower N (68/100) * Rpower Wav (17/100))
  + (30 + 12/10 * N) + 412/1000 * Rpower N (1145/1000) * Rpower W (489/1000) + 3/1000 * W
  + 2673/10000 * Rpower (L * Bw) (937/1000).

(** ** Empty weights from the inputs
    [v] gives the value of each input; 57/10 = 1.5 * 3.8 is the ultimate load factor and
    6.55 lb/gal the density of the fuel. *)
Definition ga_structure_weight (v : string -> R) : R :=
  ga_wing (v wS) (v Wfuel) (v wAR) (v wsweep) (v qcr) (v wtaper) (v wtc) (57/10) (v MTOW)
  + (ga_fuselage (v fS) (57/10) (v MTOW) (v harm) (v fL) (v fH) (v qcr) + ga_pressurization (PI * ((v fW + v fH) / 2) * (8/10 * v fL)) 8)
  + ga_nacelle (v "P_TO") + ga_empennage (57/10) (v vS) (v hS) + ga_gear (57/10) (v MLW) (v mgL) (v ngL).
Definition ga_fuel_system_weight (v : string -> R) : R := let gallons := v Wfuel / (655/100) in ga_fuel_system gallons gallons 1 1.
Definition ga_empty_weight (powertrain : list string) (v : string -> R) : R :=
  16/10 * ga_structure_weight v + ga_fuel_system_weight v
  + ga_equipment (v MTOW) (v npax) (ga_fuel_system_weight v) (v fL) (sqrt (v wS * v wAR))
  + fold_right (fun x s => v x + s) 0 powertrain + 20 / (45359237/100000000).
Definition turboprop_empty_weight := ga_empty_weight ["W_engine"; "W_propeller"].
Definition hybrid_empty_weight := ga_empty_weight ["W_engine"; "W_motors"; "W_generator"; "W_propeller"].

Definition gear_and_nacelles (o : jet_options) (v : string -> R) : R :=
  raymer_main_gear (kneeling_main o) (v MLW) (n_land_ult o) (v mgL) (v mgW) (v mgS) (v Vstall)
  + raymer_nose_gear (kneeling_nose o) (v MLW) (n_land_ult o) (v ngL) (v ngW) + roskam_nacelles (v rating) (v neng).
Definition transport_wing (o : jet_options) (v : string -> R) : R :=
  wing_weight_multiplier o * raymer_wing (v MTOW) (n_ult o) (v wS) (v wAR) (v wtc) (v wtaper) (v wsweep) (control_surface_area_frac o * v wS).
(** Propulsion, furnishings and systems of an aircraft with pressurized volume [vol]. *)
Definition transport_systems (o : jet_options) (vol : R) (v : string -> R) : R :=
  let people := v ndeck + v ncabin + v npax in
  let fuelsystem := flops_fuel_system (v Wfuel) (v neng) (v Mmax) in
  let avionics := coeff_avionics o * roskam_avionics (v ndeck) (v neng) (v MTOW) in
  flops_engine (v rating) * v neng + flops_reversers (v rating) (v neng) + flops_controls (v rating) (v neng) + fuelsystem
  + roskam_starters (flops_engine (v rating)) (v neng)
  + roskam_furnishings (v ndeck) (v npax) (v ncabin) (K_lav o) (K_buf o) (v pcabin) (v MTOW)
  + roskam_flight_controls (coeff_fc o) (v MTOW) + avionics + roskam_electrical fuelsystem avionics
  + roskam_pressurization vol people + roskam_oxygen people + APU_weight_frac o * v MTOW.
Definition jet_empty_weight (o : jet_options) (v : string -> R) : R :=
  let hstab := raymer_hstab (K_uht o) (fuselage_width_frac o * v fH) (sqrt (v hS * v hAR)) (v MTOW) (n_ult o) (v hS) (v harm) (v hsweep) (v hAR) (elevator_area_frac o) in
  let vstab := raymer_vstab (if T_tail o then 1 else 0) (v MTOW) (n_ult o) (v varm) (v vS) (v vsweep) (v vAR) (v vtc) in
  let fuselage := raymer_fuselage (K_door o) (K_lg o) (v MTOW) (n_ult o) (v fL) (v fS)
    (raymer_kws (v wtaper) (sqrt (v wS * v wAR)) (v wsweep) (v fL)) (v fH) in
  total_fudge o * (structural_fudge o * (transport_wing o v + hstab + vstab + fuselage + gear_and_nacelles o v)
    + transport_systems o (PI / 4 * v fH ^ 2 * (cabin_length_frac o * v fL)) v).
Definition bwb_empty_weight (o : jet_options) (v : string -> R) : R :=
  total_fudge o * (structural_fudge o * (transport_wing o v + bradley_cabin (v MTOW) (v Scabin)
      + bradley_aftbody (v neng) (v Saft) (v MTOW) (v taft) + gear_and_nacelles o v)
    + transport_systems o (v Vpr) v).

(** A design closes at the takeoff weight [M] when, with all other inputs as in [V0], the
    empty weight and the load [c] (fuel, payload, batteries) add up to it. *)
Definition closes (G : group) (V0 : env) (c M : R) : Prop :=
  0 < M /\ exists V, solution G V /\ V MTOW 0%nat = M /\ (forall x i, ~ In x (group_outs G) -> x <> MTOW -> V x i = V0 x i) /\
    M = V "OEW" 0%nat + c.

(** The inputs the docstrings list: weights_jet_transport.py:13-80, weights_BWB.py:36-90. *)
Definition jet_inputs : list string :=
  ["ac|num_passengers_max"; "ac|num_flight_deck_crew"; "ac|num_cabin_crew"; "ac|cabin_pressure"; "ac|aero|Mach_max";
   "ac|aero|Vstall_land"; "ac|geom|wing|S_ref"; "ac|geom|wing|AR"; "ac|geom|wing|c4sweep"; "ac|geom|wing|taper";
   "ac|geom|wing|toverc"; "ac|geom|hstab|S_ref"; "ac|geom|hstab|AR"; "ac|geom|hstab|c4sweep"; "ac|geom|hstab|c4_to_wing_c4";
   "ac|geom|vstab|S_ref"; "ac|geom|vstab|AR"; "ac|geom|vstab|c4sweep"; "ac|geom|vstab|toverc"; "ac|geom|vstab|c4_to_wing_c4";
   "ac|geom|fuselage|height"; "ac|geom|fuselage|length"; "ac|geom|fuselage|S_wet"; "ac|geom|maingear|length";
   "ac|geom|maingear|num_wheels"; "ac|geom|maingear|num_shock_struts"; "ac|geom|nosegear|length"; "ac|geom|nosegear|num_wheels";
   "ac|propulsion|engine|rating"; "ac|propulsion|num_engines"; "ac|weights|MTOW"; "ac|weights|MLW"; "ac|weights|W_fuel_max"].
Definition bwb_inputs : list string :=
  ["ac|num_passengers_max"; "ac|num_flight_deck_crew"; "ac|num_cabin_crew"; "ac|cabin_pressure"; "ac|aero|Mach_max";
   "ac|aero|Vstall_land"; "ac|geom|centerbody|S_cabin"; "ac|geom|centerbody|S_aftbody"; "ac|geom|centerbody|taper_aftbody";
   "ac|geom|wing|S_ref"; "ac|geom|wing|AR"; "ac|geom|wing|c4sweep"; "ac|geom|wing|taper"; "ac|geom|wing|toverc";
   "ac|geom|maingear|length"; "ac|geom|maingear|num_wheels"; "ac|geom|maingear|num_shock_struts"; "ac|geom|nosegear|length";
   "ac|geom|nosegear|num_wheels"; "ac|geom|V_pressurized"; "ac|propulsion|engine|rating"; "ac|propulsion|num_engines";
   "ac|weights|MTOW"; "ac|weights|MLW"; "ac|weights|W_fuel_max"].
(** Inputs of [G] have physically meaningful values. *)
Definition sane_group (G : group) (V : env) : Prop := forall x, In x (free_ins G) -> sane x (V x 0%nat).
(** The same, leaving the takeoff weight open. *)
Definition sane_but_MTOW (G : group) (V : env) : Prop := forall x, In x (free_ins G) -> x <> MTOW -> sane x (V x 0%nat).
(** The wing is not swept forward so far that Raymer's fuselage formula takes a power of a negative number. *)
Definition sweep_ok (V : env) : Prop :=
  -1 < raymer_kws (V wtaper 0%nat) (sqrt (V wS 0%nat * V wAR 0%nat)) (V wsweep 0%nat) (V fL 0%nat).
(** Options for which the estimates are positive. *)
Definition sane_options (o : jet_options) : Prop :=
  0 < structural_fudge o /\ 0 < total_fudge o /\ 0 <= wing_weight_multiplier o /\ 0 < n_ult o /\ 0 < n_land_ult o /\
  0 < control_surface_area_frac o /\ 0 <= fuselage_width_frac o /\ 0 <= K_uht o /\ 0 <= elevator_area_frac o /\ 0 <= K_door o /\
  0 <= K_lg o /\ 0 <= kneeling_main o /\ 0 <= kneeling_nose o /\ 0 <= K_lav o /\ 0 <= K_buf o /\ 0 < coeff_fc o /\
  0 <= coeff_avionics o /\ 0 < cabin_length_frac o /\ 0 <= APU_weight_frac o.
(** The part of the empty weight that grows in proportion to the takeoff weight, per pound of it. *)
Definition share (o : jet_options) (V : env) : R :=
  total_fudge o * (APU_weight_frac o + 771/1000000
    + coeff_avionics o * (V ndeck 0%nat * (32/1000000) + V neng 0%nat * (6/1000000) + 15/100000 + 12/1000)).
