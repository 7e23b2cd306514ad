(** Model of openconcept/weights: weights_turboprop.py, weights_twin_hybrid.py,
    weights_jet_transport.py and weights_BWB.py.

    Simplifications: exact reals; [x ** y] with a non-integer [y] is [Rpower x y]
    (the bases are positive for every input the properties range over); all values
    are expressed in the units the components declare (lb, ft, ft**2, ft**3, hp, lbf,
    kn, psi, rad, lb/ft**2), which agree between the components of a group; the landing
    gear lengths are in ft in weights_turboprop.py and in inches in
    weights_jet_transport.py, as declared there. *)
From Coq Require Import Reals List Bool PeanoNat String.
From Verif Require Import Base Py Model_Algebra Model_Net Model_Thermal Model_Ducts Model_HeatPipe Model_Systems.
Import ListNotations.
Open Scope R_scope.
Open Scope string_scope.

Notation MTOW := "ac|weights|MTOW" (only parsing).
Notation MLW := "ac|weights|MLW" (only parsing).
Notation Wfuel := "ac|weights|W_fuel_max" (only parsing).
Notation wS := "ac|geom|wing|S_ref" (only parsing).
Notation wAR := "ac|geom|wing|AR" (only parsing).
Notation wsweep := "ac|geom|wing|c4sweep" (only parsing).
Notation wtaper := "ac|geom|wing|taper" (only parsing).
Notation wtc := "ac|geom|wing|toverc" (only parsing).
Notation hS := "ac|geom|hstab|S_ref" (only parsing).
Notation hAR := "ac|geom|hstab|AR" (only parsing).
Notation hsweep := "ac|geom|hstab|c4sweep" (only parsing).
Notation harm := "ac|geom|hstab|c4_to_wing_c4" (only parsing).
Notation vS := "ac|geom|vstab|S_ref" (only parsing).
Notation vAR := "ac|geom|vstab|AR" (only parsing).
Notation vsweep := "ac|geom|vstab|c4sweep" (only parsing).
Notation vtc := "ac|geom|vstab|toverc" (only parsing).
Notation varm := "ac|geom|vstab|c4_to_wing_c4" (only parsing).
Notation fL := "ac|geom|fuselage|length" (only parsing).
Notation fH := "ac|geom|fuselage|height" (only parsing).
Notation fW := "ac|geom|fuselage|width" (only parsing).
Notation fS := "ac|geom|fuselage|S_wet" (only parsing).
Notation mgL := "ac|geom|maingear|length" (only parsing).
Notation mgW := "ac|geom|maingear|num_wheels" (only parsing).
Notation mgS := "ac|geom|maingear|num_shock_struts" (only parsing).
Notation ngL := "ac|geom|nosegear|length" (only parsing).
Notation ngW := "ac|geom|nosegear|num_wheels" (only parsing).
Notation qcr := "ac|q_cruise" (only parsing).
Notation npax := "ac|num_passengers_max" (only parsing).
Notation ndeck := "ac|num_flight_deck_crew" (only parsing).
Notation ncabin := "ac|num_cabin_crew" (only parsing).
Notation pcabin := "ac|cabin_pressure" (only parsing).
Notation Mmax := "ac|aero|Mach_max" (only parsing).
Notation Vstall := "ac|aero|Vstall_land" (only parsing).
Notation rating := "ac|propulsion|engine|rating" (only parsing).
Notation neng := "ac|propulsion|num_engines" (only parsing).
Notation Vpr := "ac|geom|V_pressurized" (only parsing).
Notation Scabin := "ac|geom|centerbody|S_cabin" (only parsing).
Notation Saft := "ac|geom|centerbody|S_aftbody" (only parsing).
Notation taft := "ac|geom|centerbody|taper_aftbody" (only parsing).

(** ** weights_turboprop.py *)
(** Default ultimate load factor, weights_turboprop.py:20 (also 180, 231, 448). *)
Definition n_ult_ga : R := 38/10 * (15/10).

(** weights_turboprop.py:10-169 *)
Definition WingWeight_SmallTurboprop (n_ult : R) : pcomp :=
  let pS (e : nenv) := Rpower (e wS) (758/1000) in
  let pF (e : nenv) := Rpower (e Wfuel) (35/10000) in
  let ca (e : nenv) := e wAR / cos (e wsweep) ^ 2 in
  let pA e := Rpower (ca e) (6/10) in
  let pq (e : nenv) := Rpower (e qcr) (6/1000) in
  let pt (e : nenv) := Rpower (e wtaper) (4/100) in
  let cb (e : nenv) := 100 * e wtc / cos (e wsweep) in
  let pb e := Rpower (cb e) (-3/10) in
  let pM (e : nenv) := Rpower (n_ult * e MTOW) (49/100) in
  let c4const e := 36/1000 * pS e * pF e * pq e * pt e * pM e in
  let dc4multa e := 6/10 * Rpower (ca e) (6/10 - 1) * (-2 * e wAR / cos (e wsweep) ^ 3) * - sin (e wsweep) in
  let dc4multb e := -3/10 * Rpower (cb e) (-3/10 - 1) * -100 * e wtc / cos (e wsweep) ^ 2 * - sin (e wsweep) in {|
  pc_ins := [(MTOW, Sca); (Wfuel, Sca); (wS, Sca); (wAR, Sca); (wsweep, Sca); (wtaper, Sca); (wtc, Sca); (qcr, Sca)];
  pc_outs := [("W_wing", (Sca, fun e => 36/1000 * pS e * pF e * pA e * pq e * pt e * pb e * pM e))];
  pc_J :=
    [("W_wing", MTOW, fun e => 36/1000 * pS e * pF e * pA e * pq e * pt e * pb e * Rpower (n_ult * e MTOW) (49/100 - 1) * n_ult * (49/100));
     ("W_wing", Wfuel, fun e => 36/1000 * pS e * (35/10000) * Rpower (e Wfuel) (35/10000 - 1) * pA e * pq e * pt e * pb e * pM e);
     ("W_wing", wS, fun e => 36/1000 * Rpower (e wS) (758/1000 - 1) * (758/1000) * pF e * pA e * pq e * pt e * pb e * pM e);
     ("W_wing", wAR, fun e => 36/1000 * pS e * pF e * (6/10) * Rpower (ca e) (6/10 - 1) / cos (e wsweep) ^ 2 * pq e * pt e * pb e * pM e);
     ("W_wing", wsweep, fun e => c4const e * (pA e * dc4multb e + pb e * dc4multa e));
     ("W_wing", wtaper, fun e => 36/1000 * pS e * pF e * pA e * pq e * (4/100) * Rpower (e wtaper) (4/100 - 1) * pb e * pM e);
     ("W_wing", wtc, fun e => 36/1000 * pS e * pF e * pA e * pq e * pt e * (-3/10) * Rpower (cb e) (-3/10 - 1) * (100 / cos (e wsweep)) * pM e);
     ("W_wing", qcr, fun e => 36/1000 * pS e * pF e * pA e * (6/1000) * Rpower (e qcr) (6/1000 - 1) * pt e * pb e * pM e)]
|}.

(** weights_turboprop.py:172-224 *)
Definition EmpennageWeight_SmallTurboprop (n_ult : R) : pcomp :=
  let area (e : nenv) := e vS + e hS in
  let J e := 75/100 * (4/100) * Rpower (n_ult * area e ^ 2) (75/100 - 1) * (n_ult * 2 * area e) in {|
  pc_ins := [(hS, Sca); (vS, Sca)];
  pc_outs := [("W_empennage", (Sca, fun e => 4/100 * Rpower (n_ult * area e ^ 2) (75/100)))];
  pc_J := [("W_empennage", vS, J); ("W_empennage", hS, J)]
|}.

(** weights_turboprop.py:227-375 *)
Definition FuselageWeight_SmallTurboprop (n_ult : R) : pcomp :=
  let vol (e : nenv) := PI * (e fW + e fH) / 2 * e fL * (8/10) * 8 in
  let pS (e : nenv) := Rpower (e fS) (1086/1000) in
  let pM (e : nenv) := Rpower (n_ult * e MTOW) (177/1000) in
  let pl (e : nenv) := Rpower (e harm) (-51/1000) in
  let lh (e : nenv) := e fL / e fH in
  let ph e := Rpower (lh e) (-72/1000) in
  let pq (e : nenv) := Rpower (e qcr) (241/1000) in
  let dvol e := 271/1000 * (119/10) * Rpower (vol e) (271/1000 - 1) in {|
  pc_ins := [(MTOW, Sca); (fL, Sca); (fH, Sca); (fW, Sca); (fS, Sca); (harm, Sca); (qcr, Sca)];
  pc_outs := [("W_fuselage", (Sca, fun e => 52/1000 * pS e * pM e * pl e * ph e * pq e + 119/10 * Rpower (vol e) (271/1000)))];
  pc_J :=
    [("W_fuselage", MTOW, fun e => 52/1000 * pS e * (177/1000) * n_ult * Rpower (n_ult * e MTOW) (177/1000 - 1) * pl e * ph e * pq e);
     ("W_fuselage", fW, fun e => dvol e * (PI / 2 * e fL * (8/10) * 8));
     ("W_fuselage", fH, fun e => dvol e * (PI / 2 * e fL * (8/10) * 8)
        + 52/1000 * pS e * pM e * pl e * (-72/1000) * Rpower (lh e) (-72/1000 - 1) * (- e fL / e fH ^ 2) * pq e);
     ("W_fuselage", fL, fun e => dvol e * (PI * (e fW + e fH) / 2 * (8/10) * 8)
        + 52/1000 * pS e * pM e * pl e * (-72/1000) * Rpower (lh e) (-72/1000 - 1) * (1 / e fH) * pq e);
     ("W_fuselage", fS, fun e => 52/1000 * (1086/1000) * Rpower (e fS) (1086/1000 - 1) * pM e * pl e * ph e * pq e);
     ("W_fuselage", harm, fun e => 52/1000 * pS e * pM e * (-51/1000) * Rpower (e harm) (-51/1000 - 1) * ph e * pq e);
     ("W_fuselage", qcr, fun e => 52/1000 * pS e * pM e * pl e * ph e * (241/1000) * Rpower (e qcr) (241/1000 - 1))]
|}.

(** weights_turboprop.py:378-405 *)
Definition NacelleWeight_SmallSingleTurboprop : pcomp := {|
  pc_ins := [("P_TO", Sca)];
  pc_outs := [("W_nacelle", (Sca, fun e => 25/10 * Rpower (e "P_TO") (5/10)))];
  pc_J := [("W_nacelle", "P_TO", fun e => 5/10 * (25/10) * Rpower (e "P_TO") (5/10 - 1))]
|}.
(** weights_turboprop.py:408-435 *)
Definition NacelleWeight_MultiTurboprop : pcomp := {|
  pc_ins := [("P_TO", Sca)];
  pc_outs := [("W_nacelle", (Sca, fun e => 14/100 * e "P_TO"))];
  pc_J := [("W_nacelle", "P_TO", fun _ => 14/100)]
|}.

(** weights_turboprop.py:438-504 *)
Definition LandingGearWeight_SmallTurboprop (n_ult : R) : pcomp :=
  let W (e : nenv) := n_ult * e MLW in let m (e : nenv) := e mgL / 12 in let n (e : nenv) := e ngL / 12 in {|
  pc_ins := [(MLW, Sca); (mgL, Sca); (ngL, Sca)];
  pc_outs := [("W_gear", (Sca, fun e =>
    95/1000 * Rpower (W e) (768/1000) * Rpower (m e) (409/1000) + 125/1000 * Rpower (W e) (566/1000) * Rpower (n e) (845/1000)))];
  pc_J :=
    [("W_gear", MLW, fun e => 95/1000 * Rpower (W e) (768/1000 - 1) * (768/1000) * n_ult * Rpower (m e) (409/1000)
        + 125/1000 * Rpower (W e) (566/1000 - 1) * (566/1000) * n_ult * Rpower (n e) (845/1000));
     ("W_gear", mgL, fun e => 95/1000 * Rpower (W e) (768/1000) * Rpower (m e) (409/1000 - 1) * (1 / 12) * (409/1000));
     ("W_gear", ngL, fun e => 125/1000 * Rpower (W e) (566/1000) * Rpower (n e) (845/1000 - 1) * (1 / 12) * (845/1000))]
|}.

(** Default option, weights_turboprop.py:511. *)
Definition default_Kfsp : R := 655/100.
(** weights_turboprop.py:507-540 *)
Definition FuelSystemWeight_SmallTurboprop (Kfsp : R) : pcomp := {|
  pc_ins := [(Wfuel, Sca)];
  pc_outs := [("W_fuelsystem", (Sca, fun e => 249/100 * Rpower (e Wfuel * 1 / Kfsp) (726/1000) * Rpower (5/10) (363/1000)))];
  pc_J := [("W_fuelsystem", Wfuel, fun e =>
    249/100 * (726/1000) * Rpower (e Wfuel * 1 / Kfsp) (726/1000 - 1) * (1 / Kfsp) * Rpower (5/10) (363/1000))]
|}.

(** weights_turboprop.py:565, 583 *)
Definition Wavionics : R := 2117/1000 * Rpower 110 (933/1000).
(** weights_turboprop.py:543-629 *)
Definition EquipmentWeight_SmallTurboprop : pcomp :=
  let b (e : nenv) := sqrt (e wS * e wAR) in
  let Wfc (e : nenv) := 23/100 * Rpower (e MTOW) (666/1000) in
  let Whyd e := 2673/10000 * 1 * Rpower (e fL * b e) (937/1000) in
  let Welec (e : nenv) := 1257/100 * Rpower (e "W_fuelsystem" + Wavionics) (51/100) in
  let Wapi (e : nenv) := 265/1000 * Rpower (e MTOW) (52/100) * Rpower (e npax) (68/100) * Rpower Wavionics (17/100) * (95/100) in
  let Wox (e : nenv) := 30 + 12/10 * e npax in
  let Wfur (e : nenv) := 412/1000 * Rpower (e npax) (1145/1000) * Rpower (e MTOW) (489/1000) in
  let Wpaint (e : nenv) := 3/1000 * e MTOW in
  let dhyd e := 2673/10000 * 1 * Rpower (e fL * b e) (937/1000 - 1) * (937/1000) * e fL * (1 / 2) in {|
  pc_ins := [(MTOW, Sca); (npax, Sca); (fL, Sca); (wAR, Sca); (wS, Sca); ("W_fuelsystem", Sca)];
  pc_outs := [("W_equipment", (Sca, fun e => Wfc e + Welec e + Wavionics + Wapi e + Wox e + Wfur e + Wpaint e + Whyd e))];
  pc_J :=
    [("W_equipment", MTOW, fun e => 23/100 * Rpower (e MTOW) (666/1000 - 1) * (666/1000)
        + 52/100 * (265/1000) * Rpower (e MTOW) (52/100 - 1) * Rpower (e npax) (68/100) * Rpower Wavionics (17/100) * (95/100)
        + 412/1000 * Rpower (e npax) (1145/1000) * Rpower (e MTOW) (489/1000 - 1) * (489/1000) + 3/1000);
     ("W_equipment", npax, fun e => 265/1000 * Rpower (e MTOW) (52/100) * (68/100) * Rpower (e npax) (68/100 - 1) * Rpower Wavionics (17/100) * (95/100)
        + 12/10 + 412/1000 * (1145/1000) * Rpower (e npax) (1145/1000 - 1) * Rpower (e MTOW) (489/1000));
     ("W_equipment", fL, fun e => 2673/10000 * 1 * (937/1000) * Rpower (e fL * b e) (937/1000 - 1) * b e);
     ("W_equipment", "W_fuelsystem", fun e => 1257/100 * Rpower (e "W_fuelsystem" + Wavionics) (51/100 - 1) * (51/100));
     ("W_equipment", wS, fun e => dhyd e * 1 / b e * e wAR);
     ("W_equipment", wAR, fun e => dhyd e / b e * e wS)]
|}.

(** ** Groups of weights_turboprop.py and weights_twin_hybrid.py *)
(** The IndepVarComp with 20 kg of fluids and the structural fudge factor 1.6:
    weights_turboprop.py:634-636, weights_twin_hybrid.py:16-18. *)
Definition ga_const : gsub := {|
  gs_name := "const"; gs_ins := []; gs_outs := ["W_fluids"; "structural_fudge"];
  gs_rel := fun _ O => O "W_fluids" 0%nat = 20 / pound /\ O "structural_fudge" 0%nat = 16/10;
  gs_pin := []; gs_pout := [P "*"] |}.
(** weights_turboprop.py:648-657, weights_twin_hybrid.py:30-39 *)
Definition ga_structure : add_sys := sum "W_structure" ["W_wing"; "W_fuselage"; "W_nacelle"; "W_empennage"; "W_gear"] 1 "lb".
(** weights_turboprop.py:658-667, weights_twin_hybrid.py:40-49 *)
Definition ga_fudge : mul_sys := {|
  ms_out := "W_structure_adjusted"; ms_ins := ["W_structure"; "structural_fudge"]; ms_vec := VInt 1; ms_len := 1; ms_sf := 1; ms_div := None;
  ms_units := Some [Some [TUnit "lb"]; Some [TUnit "m"; TDiv; TUnit "m"]] |}.
(** The common part of the two groups, weights_turboprop.py:634-667 and
    weights_twin_hybrid.py:16-49, and the sum [total] that follows. *)
Definition ga_subs (total : add_sys) : list gsub :=
  [ga_const;
   comp 1 "wing" (WingWeight_SmallTurboprop n_ult_ga) [P "*"] [P "*"];
   comp 1 "empennage" (EmpennageWeight_SmallTurboprop n_ult_ga) [P "*"] [P "*"];
   comp 1 "fuselage" (FuselageWeight_SmallTurboprop n_ult_ga) [P "*"] [P "*"];
   comp 1 "nacelle" NacelleWeight_SmallSingleTurboprop [P "*"] [P "*"];
   comp 1 "gear" (LandingGearWeight_SmallTurboprop n_ult_ga) [P "*"] [P "*"];
   comp 1 "fuelsystem" (FuelSystemWeight_SmallTurboprop default_Kfsp) [P "*"] [P "*"];
   comp 1 "equipment" EquipmentWeight_SmallTurboprop [P "*"] [P "*"];
   adder 1 "structural" ga_structure [P "*"] [P "*"];
   multiplier 1 "structural_fudge" ga_fudge [P "*"] [P "*"];
   adder 1 "totalempty" total [P "*"] [P "*"]].
(** weights_turboprop.py:632-683 *)
Definition single_parts : list string :=
  ["W_structure_adjusted"; "W_fuelsystem"; "W_equipment"; "W_engine"; "W_propeller"; "W_fluids"].
Definition SingleTurboPropEmptyWeight : group := {|
  g_subs := ga_subs (sum "OEW" single_parts 1 "lb"); g_conns := [] |}.
(** weights_twin_hybrid.py:14-68 *)
Definition twin_parts : list string :=
  ["W_structure_adjusted"; "W_fuelsystem"; "W_equipment"; "W_engine"; "W_motors"; "W_generator"; "W_propeller"; "W_fluids"].
Definition TwinSeriesHybridEmptyWeight : group := {|
  g_subs := ga_subs (sum "OEW" twin_parts 1 "lb"); g_conns := [] |}.

(** ** weights_jet_transport.py *)
(** weights_jet_transport.py:500-635 *)
Definition WingWeight_JetTransport (n_ult csf : R) : pcomp :=
  let c : R := 51/10000 in
  let pM (e : nenv) := Rpower (e MTOW * n_ult) (557/1000) in
  let pS (e : nenv) := Rpower (e wS) (649/1000) in
  let pA (e : nenv) := Rpower (e wAR) (5/10) in
  let pt (e : nenv) := Rpower (e wtc) (-4/10) in
  let pl (e : nenv) := Rpower (1 + e wtaper) (1/10) in
  let pc (e : nenv) := / cos (e wsweep) in
  let ps (e : nenv) := Rpower (csf * e wS) (1/10) in
  let k := Rpower csf (1/10) in let pS1 (e : nenv) := Rpower (e wS) (1/10) in {|
  pc_ins := [(MTOW, Sca); (wS, Sca); (wAR, Sca); (wsweep, Sca); (wtaper, Sca); (wtc, Sca)];
  pc_outs := [("W_wing", (Sca, fun e => c * pM e * pS e * pA e * pt e * pl e * pc e * ps e))];
  pc_J :=
    [("W_wing", MTOW, fun e => c * (557/1000) * Rpower (e MTOW) (557/1000 - 1) * Rpower n_ult (557/1000) * pS e * pA e * pt e * pl e * pc e * ps e);
     ("W_wing", wS, fun e => c * pM e * (649/1000 + 1/10) * Rpower (e wS) (649/1000 + 1/10 - 1) * pA e * pt e * pl e * pc e * k);
     ("W_wing", wAR, fun e => c * pM e * pS e * (5/10) * Rpower (e wAR) (5/10 - 1) * pt e * pl e * pc e * k * pS1 e);
     ("W_wing", wsweep, fun e => c * pM e * Rpower (e wS) (649/1000 + 1/10) * pA e * pt e * pl e * - (1) * / cos (e wsweep) ^ 2 * (- (1) * sin (e wsweep)) * k);
     ("W_wing", wtaper, fun e => c * pM e * pS e * pA e * pt e * (1/10) * Rpower (1 + e wtaper) (1/10 - 1) * pc e * k * pS1 e);
     ("W_wing", wtc, fun e => c * pM e * pS e * pA e * (-4/10) * Rpower (e wtc) (-4/10 - 1) * pl e * pc e * k * pS1 e)]
|}.

(** weights_jet_transport.py:638-684 *)
Definition HstabConst_JetTransport (frac : R) : pcomp :=
  let Fw (e : nenv) := e fH * frac in let Bh (e : nenv) := sqrt (e hS * e hAR) in {|
  pc_ins := [(hS, Sca); (hAR, Sca); (fH, Sca)];
  pc_outs := [("HstabConst", (Sca, fun e => 1 + Fw e / Bh e))];
  pc_J :=
    [("HstabConst", hS, fun e => - Fw e / Bh e ^ 2 * (5/10 / Bh e) * e hAR);
     ("HstabConst", hAR, fun e => - Fw e / Bh e ^ 2 * (5/10 / Bh e) * e hS);
     ("HstabConst", fH, fun e => 1 / Bh e * frac)]
|}.

(** weights_jet_transport.py:687-858 *)
Definition HstabWeight_JetTransport (n_ult K_uht Se_Sht : R) : pcomp :=
  let c := 379/10000 * K_uht in
  let pC (e : nenv) := Rpower (e "HstabConst") (-25/100) in
  let pM (e : nenv) := Rpower (e MTOW) (639/1000) in
  let pn := Rpower n_ult (10/100) in
  let pS (e : nenv) := Rpower (e hS) (75/100) in
  let pL (e : nenv) := Rpower (3/10 * e harm) (704/1000) in
  let pi (e : nenv) := / e harm in
  let pc (e : nenv) := / cos (e hsweep) in
  let pA (e : nenv) := Rpower (e hAR) (166/1000) in
  let pe := Rpower (1 + Se_Sht) (1/10) in {|
  pc_ins := [(MTOW, Sca); (hS, Sca); (hAR, Sca); (hsweep, Sca); (harm, Sca); ("HstabConst", Sca)];
  pc_outs := [("W_hstab", (Sca, fun e => c * pC e * pM e * pn * pS e * pL e * pi e * pc e * pA e * pe))];
  pc_J :=
    [("W_hstab", MTOW, fun e => c * pC e * (639/1000) * Rpower (e MTOW) (639/1000 - 1) * pn * pS e * pL e * pi e * pc e * pA e * pe);
     ("W_hstab", hS, fun e => c * pC e * pM e * pn * (75/100) * Rpower (e hS) (75/100 - 1) * pL e * pi e * pc e * pA e * pe);
     ("W_hstab", hAR, fun e => c * pC e * pM e * pn * pS e * pL e * pi e * pc e * (166/1000) * Rpower (e hAR) (166/1000 - 1) * pe);
     ("W_hstab", hsweep, fun e => c * pC e * pM e * pn * pS e * pL e * pi e * / cos (e hsweep) ^ 2 * sin (e hsweep) * pA e * pe);
     ("W_hstab", harm, fun e => c * pC e * pM e * pn * pS e * Rpower (3/10) (704/1000) * (-296/1000) * Rpower (e harm) (-1296/1000) * pc e * pA e * pe);
     ("W_hstab", "HstabConst", fun e => c * (-25/100) * Rpower (e "HstabConst") (-25/100 - 1) * pM e * pn * pS e * pL e * pi e * pc e * pA e * pe)]
|}.

(** weights_jet_transport.py:861-1004 *)
Definition VstabWeight_JetTransport (n_ult : R) (T_tail : bool) : pcomp :=
  let Ht_Hv : R := if T_tail then 1 else 0 in
  let c := 26/10000 * Rpower (1 + Ht_Hv) (225/1000) in
  let pM (e : nenv) := Rpower (e MTOW) (556/1000) in
  let pn := Rpower n_ult (536/1000) in
  let pL (e : nenv) := Rpower (e varm) (-5/10 + 875/1000) in
  let pS (e : nenv) := Rpower (e vS) (5/10) in
  let pc (e : nenv) := / cos (e vsweep) in
  let pA (e : nenv) := Rpower (e vAR) (35/100) in
  let pt (e : nenv) := Rpower (e vtc) (-5/10) in {|
  pc_ins := [(MTOW, Sca); (vS, Sca); (vAR, Sca); (vsweep, Sca); (varm, Sca); (vtc, Sca)];
  pc_outs := [("W_vstab", (Sca, fun e => c * pM e * pn * pL e * pS e * pc e * pA e * pt e))];
  pc_J :=
    [("W_vstab", MTOW, fun e => c * (556/1000) * Rpower (e MTOW) (556/1000 - 1) * pn * pL e * pS e * pc e * pA e * pt e);
     ("W_vstab", vS, fun e => c * pM e * pn * pL e * (5/10) * Rpower (e vS) (-5/10) * pc e * pA e * pt e);
     ("W_vstab", vAR, fun e => c * pM e * pn * pL e * pS e * pc e * (35/100) * Rpower (e vAR) (35/100 - 1) * pt e);
     ("W_vstab", vsweep, fun e => c * pM e * pn * pL e * pS e * / cos (e vsweep) ^ 2 * sin (e vsweep) * pA e * pt e);
     ("W_vstab", varm, fun e => c * pM e * pn * (-5/10 + 875/1000) * Rpower (e varm) (-5/10 + 875/1000 - 1) * pS e * pc e * pA e * pt e);
     ("W_vstab", vtc, fun e => c * pM e * pn * pL e * pS e * pc e * pA e * (-5/10) * Rpower (e vtc) (-15/10))]
|}.

(** weights_jet_transport.py:1007-1098 *)
Definition FuselageKws_JetTransport : pcomp :=
  let tt (e : nenv) := 75/100 * (1 + 2 * e wtaper) / (1 + e wtaper) in
  let pS (e : nenv) := Rpower (e wS) (5/10) in
  let pA (e : nenv) := Rpower (e wAR) (5/10) in
  let tn (e : nenv) := tan (e wsweep) in
  let pi (e : nenv) := / e fL in {|
  pc_ins := [(wtaper, Sca); (wS, Sca); (wAR, Sca); (wsweep, Sca); (fL, Sca)];
  pc_outs := [("K_ws", (Sca, fun e => tt e * pS e * pA e * tn e * pi e))];
  pc_J :=
    [("K_ws", wtaper, fun e => 75/100 * / (1 + e wtaper) ^ 2 * pS e * pA e * tn e * pi e);
     ("K_ws", wS, fun e => tt e * (5/10) * Rpower (e wS) (5/10 - 1) * pA e * tn e * pi e);
     ("K_ws", wAR, fun e => tt e * pS e * (5/10) * Rpower (e wAR) (5/10 - 1) * tn e * pi e);
     ("K_ws", wsweep, fun e => tt e * pS e * pA e * (1 / cos (e wsweep)) ^ 2 * pi e);
     ("K_ws", fL, fun e => tt e * pS e * pA e * tn e * - (1) * / e fL ^ 2)]
|}.

(** weights_jet_transport.py:1101-1232 *)
Definition FuselageWeight_JetTransport (n_ult K_door K_lg : R) : pcomp :=
  let c := 3280/10000 * K_door * K_lg in
  let pM (e : nenv) := Rpower (e MTOW) (5/10) in
  let pn := Rpower n_ult (5/10) in
  let pL (e : nenv) := Rpower (e fL) (25/100 + 1/10) in
  let pS (e : nenv) := Rpower (e fS) (302/1000) in
  let pK (e : nenv) := Rpower (1 + e "K_ws") (4/100) in
  let pH (e : nenv) := Rpower (e fH) (-10/100) in {|
  pc_ins := [(MTOW, Sca); (fL, Sca); (fS, Sca); (fH, Sca); ("K_ws", Sca)];
  pc_outs := [("W_fuselage", (Sca, fun e => c * pM e * pn * pL e * pS e * pK e * pH e))];
  pc_J :=
    [("W_fuselage", MTOW, fun e => c * (5/10) * Rpower (e MTOW) (-5/10) * pn * pL e * pS e * pK e * pH e);
     ("W_fuselage", fL, fun e => c * pM e * pn * (35/100) * Rpower (e fL) (25/100 + 1/10 - 1) * pS e * pK e * pH e);
     ("W_fuselage", fS, fun e => c * pM e * pn * pL e * (302/1000) * Rpower (e fS) (302/1000 - 1) * pK e * pH e);
     ("W_fuselage", fH, fun e => c * pM e * pn * pL e * pS e * pK e * (-1/10) * Rpower (e fH) (-110/100));
     ("W_fuselage", "K_ws", fun e => c * pM e * pn * pL e * pS e * (4/100) * Rpower (1 + e "K_ws") (4/100 - 1) * pH e)]
|}.

(** weights_jet_transport.py:1235-1353 *)
Definition MainLandingGearWeight_JetTransport (n_land kneel : R) : pcomp :=
  let c := 106/10000 * kneel in
  let pM (e : nenv) := Rpower (e MLW) (888/1000) in
  let pn := Rpower n_land (25/100) in
  let pL (e : nenv) := Rpower (e mgL) (4/10) in
  let pW (e : nenv) := Rpower (e mgW) (321/1000) in
  let pS (e : nenv) := Rpower (e mgS) (-5/10) in
  let pV (e : nenv) := Rpower (e Vstall) (1/10) in {|
  pc_ins := [(mgL, Sca); (MLW, Sca); (mgW, Sca); (mgS, Sca); (Vstall, Sca)];
  pc_outs := [("W_mlg", (Sca, fun e => c * pM e * pn * pL e * pW e * pS e * pV e))];
  pc_J :=
    [("W_mlg", MLW, fun e => c * (888/1000) * Rpower (e MLW) (888/1000 - 1) * pn * pL e * pW e * pS e * pV e);
     ("W_mlg", mgL, fun e => c * pM e * pn * (4/10) * Rpower (e mgL) (4/10 - 1) * pW e * pS e * pV e);
     ("W_mlg", mgW, fun e => c * pM e * pn * pL e * (321/1000) * Rpower (e mgW) (321/1000 - 1) * pS e * pV e);
     ("W_mlg", mgS, fun e => c * pM e * pn * pL e * pW e * (-5/10) * Rpower (e mgS) (-15/10) * pV e);
     ("W_mlg", Vstall, fun e => c * pM e * pn * pL e * pW e * pS e * (1/10) * Rpower (e Vstall) (1/10 - 1))]
|}.

(** weights_jet_transport.py:1356-1436 *)
Definition NoseLandingGearWeight_JetTransport (n_land kneel : R) : pcomp :=
  let c := 32/1000 * kneel in
  let pM (e : nenv) := Rpower (e MLW) (646/1000) in
  let pn := Rpower n_land (2/10) in
  let pL (e : nenv) := Rpower (e ngL) (5/10) in
  let pW (e : nenv) := Rpower (e ngW) (45/100) in {|
  pc_ins := [(ngL, Sca); (MLW, Sca); (ngW, Sca)];
  pc_outs := [("W_nlg", (Sca, fun e => c * pM e * pn * pL e * pW e))];
  pc_J :=
    [("W_nlg", MLW, fun e => c * (646/1000) * Rpower (e MLW) (646/1000 - 1) * pn * pL e * pW e);
     ("W_nlg", ngL, fun e => c * pM e * pn * (5/10) * Rpower (e ngL) (-5/10) * pW e);
     ("W_nlg", ngW, fun e => c * pM e * pn * pL e * (45/100) * Rpower (e ngW) (45/100 - 1))]
|}.

(** weights_jet_transport.py:1439-1462 *)
Definition EngineWeight_JetTransport : pcomp := {|
  pc_ins := [(rating, Sca)];
  pc_outs := [("W_engine", (Sca, fun e => e rating / (55/10)))];
  pc_J := [("W_engine", rating, fun _ => 1 / (55/10))]
|}.

(** weights_jet_transport.py:1465-1552 *)
Definition EngineSystemsWeight_JetTransport : pcomp :=
  let N (e : nenv) := e neng in let T (e : nenv) := e rating in
  let pF (e : nenv) := Rpower (e Wfuel) (58/100) in
  let pN (e : nenv) := Rpower (N e) (43/100) in
  let pM (e : nenv) := Rpower (e Mmax) (34/100) in {|
  pc_ins := [(rating, Sca); (neng, Sca); ("W_engine", Sca); (Mmax, Sca); (Wfuel, Sca)];
  pc_outs :=
    [("W_thrust_rev", (Sca, fun e => 34/1000 * T e * N e));
     ("W_eng_control", (Sca, fun e => 26/100 * N e * Rpower (T e) (5/10)));
     ("W_fuelsystem", (Sca, fun e => 107/100 * pF e * pN e * pM e));
     ("W_eng_start", (Sca, fun e => 933/100 * Rpower (e "W_engine" / 1000) (1078/1000) * N e))];
  pc_J :=
    [("W_thrust_rev", rating, fun e => 34/1000 * N e);
     ("W_thrust_rev", neng, fun e => 34/1000 * T e);
     ("W_eng_control", rating, fun e => 26/100 * N e * (5/10) / Rpower (T e) (5/10));
     ("W_eng_control", neng, fun e => 26/100 * Rpower (T e) (5/10));
     ("W_fuelsystem", Wfuel, fun e => 107/100 * (58/100) * Rpower (e Wfuel) (58/100 - 1) * pN e * pM e);
     ("W_fuelsystem", neng, fun e => 107/100 * pF e * (43/100) * Rpower (N e) (43/100 - 1) * pM e);
     ("W_fuelsystem", Mmax, fun e => 107/100 * pF e * pN e * (34/100) * Rpower (e Mmax) (34/100 - 1));
     ("W_eng_start", "W_engine", fun e => 933/100 * (1078/1000) * Rpower (e "W_engine") (78/1000) / Rpower 1000 (1078/1000) * N e);
     ("W_eng_start", neng, fun e => 933/100 * Rpower (e "W_engine" / 1000) (1078/1000))]
|}.

(** weights_jet_transport.py:1555-1584 *)
Definition NacelleWeight_JetTransport : pcomp := {|
  pc_ins := [(rating, Sca); (neng, Sca)];
  pc_outs := [("W_nacelle", (Sca, fun e => 65/1000 * e rating * e neng))];
  pc_J := [("W_nacelle", rating, fun e => 65/1000 * e neng); ("W_nacelle", neng, fun e => 65/1000 * e rating)]
|}.

(** weights_jet_transport.py:1587-1658 *)
Definition FurnishingWeight_JetTransport (K_lav K_buf : R) : pcomp :=
  let n (e : nenv) := e npax in {|
  pc_ins := [(npax, Sca); (ndeck, Sca); (ncabin, Sca); (pcabin, Sca); (MTOW, Sca)];
  pc_outs := [("W_furnishings", (Sca, fun e =>
    55 * e ndeck + 32 * n e + 15 * e ncabin + K_lav * Rpower (n e) (133/100) + K_buf * Rpower (n e) (112/100)
    + 109 * Rpower (n e * (1 + e pcabin) / 100) (505/1000) + 771/1000 * (e MTOW / 1000)))];
  pc_J :=
    [("W_furnishings", ndeck, fun _ => 55);
     ("W_furnishings", ncabin, fun _ => 15);
     ("W_furnishings", MTOW, fun _ => 771/1000 / 1000);
     ("W_furnishings", npax, fun e => 32 + 133/100 * K_lav * Rpower (n e) (33/100) + 112/100 * K_buf * Rpower (n e) (12/100)
        + 109 * (505/1000) * Rpower (n e) (505/1000 - 1) * Rpower ((1 + e pcabin) / 100) (505/1000));
     ("W_furnishings", pcabin, fun e => 109 * (505/1000) * Rpower (n e / 100) (505/1000) * Rpower (1 + e pcabin) (505/1000 - 1))]
|}.

(** weights_jet_transport.py:1661-1827 *)
Definition EquipmentWeight_JetTransport (coeff_fc coeff_av APU : R) : pcomp :=
  let M (e : nenv) := e MTOW in
  let Wav (e : nenv) := coeff_av * (e ndeck * (15 + 32/1000000 * M e) + e neng * (5 + 6/1000000 * M e) + (15/100000 + 12/1000) * M e) in
  let people (e : nenv) := e ndeck + e ncabin + e npax in
  let Jdeck e := coeff_av * (15 + 32/1000000 * M e) in
  let Jeng e := coeff_av * (5 + 6/1000000 * M e) in
  let JM (e : nenv) := coeff_av * (e ndeck * (32/1000000) + e neng * (6/1000000) + (15/100000 + 12/1000)) in
  let del e := 1163 * (506/1000) * Rpower (1/1000 * (e "W_fuelsystem" + Wav e)) (506/1000 - 1) * (1/1000) in
  let Jac e := 469 * (419/1000) * Rpower (1/10000 * e Vpr * people e) (419/1000 - 1) * (1/10000) * e Vpr in
  let Jox e := 7 * (702/1000) * Rpower (people e) (702/1000 - 1) in {|
  pc_ins := [(MTOW, Sca); (npax, Sca); (ncabin, Sca); (ndeck, Sca); (neng, Sca); (Vpr, Sca); ("W_fuelsystem", Sca)];
  pc_outs :=
    [("W_flight_controls", (Sca, fun e => coeff_fc * Rpower (M e) (2/3)));
     ("W_avionics", (Sca, Wav));
     ("W_electrical", (Sca, fun e => 1163 * Rpower (1/1000 * (e "W_fuelsystem" + Wav e)) (506/1000)));
     ("W_ac_pressurize_antiice", (Sca, fun e => 469 * Rpower (1/10000 * e Vpr * people e) (419/1000)));
     ("W_oxygen", (Sca, fun e => 7 * Rpower (people e) (702/1000)));
     ("W_APU", (Sca, fun e => APU * M e))];
  pc_J :=
    [("W_flight_controls", MTOW, fun e => 2/3 * coeff_fc * Rpower (M e) (-1/3));
     ("W_avionics", ndeck, Jdeck); ("W_avionics", neng, Jeng); ("W_avionics", MTOW, JM);
     ("W_electrical", "W_fuelsystem", del);
     ("W_electrical", ndeck, fun e => del e * Jdeck e);
     ("W_electrical", neng, fun e => del e * Jeng e);
     ("W_electrical", MTOW, fun e => del e * JM e);
     ("W_ac_pressurize_antiice", ndeck, Jac);
     ("W_ac_pressurize_antiice", ncabin, Jac);
     ("W_ac_pressurize_antiice", npax, Jac);
     ("W_ac_pressurize_antiice", Vpr, fun e => 469 * (419/1000) * Rpower (1/10000 * e Vpr * people e) (419/1000 - 1) * (1/10000) * people e);
     ("W_oxygen", ndeck, Jox); ("W_oxygen", ncabin, Jox); ("W_oxygen", npax, Jox);
     ("W_APU", MTOW, fun _ => APU)]
|}.

(** The ExecComp of weights_jet_transport.py:414-424. *)
Definition cabin_volume (frac : R) : pcomp :=
  let ins := [("fus_height", Sca); ("fus_length", Sca)] in
  let outs := [("V_pressurized", (Sca, fun e : nenv => PI * (25/100) * e "fus_height" * e "fus_height" * e "fus_length" * frac))] in
  {| pc_ins := ins; pc_outs := outs; pc_J := cs_partials ins outs |}.

(** Options of JetTransportEmptyWeight, weights_jet_transport.py:184-210; those of
    BWBEmptyWeight, weights_BWB.py:174-189, are a part of them. *)
Record jet_options := {
  structural_fudge : R; total_fudge : R; wing_weight_multiplier : R; n_ult : R; n_land_ult : R; control_surface_area_frac : R;
  fuselage_width_frac : R; K_uht : R; elevator_area_frac : R; T_tail : bool; K_door : R; K_lg : R;
  kneeling_main : R; kneeling_nose : R; K_lav : R; K_buf : R; coeff_fc : R; coeff_avionics : R; cabin_length_frac : R; APU_weight_frac : R
}.
Definition jet_defaults : jet_options := {|
  structural_fudge := 12/10; total_fudge := 115/100; wing_weight_multiplier := 1; n_ult := 25/10 * (15/10); n_land_ult := 28/10 * (15/10);
  control_surface_area_frac := 1/10; fuselage_width_frac := 5/10; K_uht := 1; elevator_area_frac := 2/10; T_tail := false; K_door := 1; K_lg := 1;
  kneeling_main := 1; kneeling_nose := 1; K_lav := 7/10; K_buf := 4; coeff_fc := 12/10 * (64/100); coeff_avionics := 5/10;
  cabin_length_frac := 75/100; APU_weight_frac := 85/10000 |}.

(** weights_jet_transport.py:234-260 *)
Definition jet_hstab (o : jet_options) : group := {|
  g_subs :=
    [comp 1 "hstab_const" (HstabConst_JetTransport (fuselage_width_frac o)) [P hS; P hAR; P fH] [];
     comp 1 "hstab_calc" (HstabWeight_JetTransport (n_ult o) (K_uht o) (elevator_area_frac o)) [P MTOW; P hS; P hAR; P hsweep; P harm] [P "W_hstab"]];
  g_conns := [("hstab_const.HstabConst", "hstab_calc.HstabConst")] |}.
(** weights_jet_transport.py:284-307 *)
Definition jet_fuselage (o : jet_options) : group := {|
  g_subs :=
    [comp 1 "K_ws_term" FuselageKws_JetTransport [P wtaper; P wS; P wAR; P wsweep; P fL] [];
     comp 1 "fuselage_calc" (FuselageWeight_JetTransport (n_ult o) (K_door o) (K_lg o)) [P MTOW; P fL; P fS; P fH] [P "W_fuselage"]];
  g_conns := [("K_ws_term.K_ws", "fuselage_calc.K_ws")] |}.
(** weights_jet_transport.py:219-230, weights_BWB.py:219-230 *)
Definition jet_wing (o : jet_options) : gsub :=
  comp 1 "wing" (WingWeight_JetTransport (n_ult o) (control_surface_area_frac o)) [P MTOW; P wS; P wAR; P wsweep; P wtaper; P wtc] [P "W_wing"].
(** weights_jet_transport.py:355-362, weights_BWB.py:278-285 *)
Definition engine_multiplier : mul_sys := {|
  ms_out := "W_engines"; ms_ins := ["W_engine"; neng]; ms_vec := VInt 1; ms_len := 1; ms_sf := 1; ms_div := None; ms_units := Some [Some [TUnit "lb"]; None] |}.
(** Landing gear, propulsion and furnishings: weights_jet_transport.py:314-406, weights_BWB.py:237-329. *)
Definition jet_common (o : jet_options) : list gsub :=
  [comp 1 "main_gear" (MainLandingGearWeight_JetTransport (n_land_ult o) (kneeling_main o)) [P MLW; P mgL; P mgW; P mgS; P Vstall] [P "W_mlg"];
   comp 1 "nose_gear" (NoseLandingGearWeight_JetTransport (n_land_ult o) (kneeling_nose o)) [P MLW; P ngL; P ngW] [P "W_nlg"];
   comp 1 "single_engine" EngineWeight_JetTransport [P rating] [];
   multiplier 1 "engine_multiplier" engine_multiplier [P neng] [P "W_engines"];
   comp 1 "engine_systems" EngineSystemsWeight_JetTransport [P rating; P neng; P Mmax; P Wfuel]
     [P "W_thrust_rev"; P "W_eng_control"; P "W_fuelsystem"; P "W_eng_start"];
   comp 1 "nacelles" NacelleWeight_JetTransport [P rating; P neng] [P "W_nacelle"];
   comp 1 "furnishings" (FurnishingWeight_JetTransport (K_lav o) (K_buf o)) [P npax; P ndeck; P ncabin; P pcabin; P MTOW] [P "W_furnishings"]].
(** weights_jet_transport.py:425-448; weights_BWB.py:334-361 promotes the cabin volume as well. *)
Definition jet_equipment (o : jet_options) (vol : list promo) : gsub :=
  comp 1 "equipment" (EquipmentWeight_JetTransport (coeff_fc o) (coeff_avionics o) (APU_weight_frac o))
    ([P MTOW; P npax; P ncabin; P ndeck; P neng] ++ vol ++ [P "W_fuelsystem"])%list
    [P "W_flight_controls"; P "W_avionics"; P "W_electrical"; P "W_ac_pressurize_antiice"; P "W_oxygen"; P "W_APU"].
(** weights_jet_transport.py:454-466, weights_BWB.py:363-375: the wing's factor is also
    multiplied by [wing_weight_multiplier]. *)
Definition jet_structure (o : jet_options) (parts : list string) : add_sys := {|
  as_out := "W_structure"; as_ins := "W_wing" :: parts; as_vec := VInt 1; as_len := 1;
  as_sf := Some ((structural_fudge o * wing_weight_multiplier o) :: repeat (structural_fudge o) (List.length parts)); as_units := Some "lb" |}.
(** weights_jet_transport.py:472-497, weights_BWB.py:381-406 *)
Definition jet_parts : list string :=
  ["W_structure"; "W_engines"; "W_thrust_rev"; "W_eng_control"; "W_fuelsystem"; "W_eng_start"; "W_furnishings"; "W_flight_controls";
   "W_avionics"; "W_electrical"; "W_ac_pressurize_antiice"; "W_oxygen"; "W_APU"].
Definition jet_total (o : jet_options) : add_sys := {|
  as_out := "OEW"; as_ins := jet_parts; as_vec := VInt 1; as_len := 1;
  as_sf := Some (repeat (total_fudge o) (List.length jet_parts)); as_units := Some "lb" |}.
(** weights_jet_transport.py:363, 382 (weights_BWB.py:286, 305) *)
Definition jet_conns : list (string * string) :=
  [("single_engine.W_engine", "engine_multiplier.W_engine"); ("single_engine.W_engine", "engine_systems.W_engine")].
(** weights_jet_transport.py:212-497 *)
Definition JetTransportEmptyWeight (o : jet_options) : group := {|
  g_subs :=
    ([jet_wing o;
      subgroup "hstab" (jet_hstab o) [P "*"] [P "W_hstab"];
      comp 1 "vstab" (VstabWeight_JetTransport (n_ult o) (T_tail o)) [P MTOW; P vS; P vAR; P vsweep; P vtc; P varm] [P "W_vstab"];
      subgroup "fuselage" (jet_fuselage o) [P "*"] [P "W_fuselage"]] ++ jet_common o ++
     [comp 1 "cabin_volume" (cabin_volume (cabin_length_frac o)) [As "fus_height" fH; As "fus_length" fL] [];
      jet_equipment o [];
      adder 1 "structural_adjustment" (jet_structure o ["W_hstab"; "W_vstab"; "W_fuselage"; "W_mlg"; "W_nlg"; "W_nacelle"]) [P "*"] [P "W_structure"];
      adder 1 "sum_weights" (jet_total o) [P "*"] [P "OEW"]])%list;
  g_conns := (jet_conns ++ [("cabin_volume.V_pressurized", "equipment.ac|geom|V_pressurized")])%list |}.

(** ** weights_BWB.py *)
(** weights_BWB.py:409-451 *)
Definition CabinWeight_BWB : pcomp :=
  let c := 1803246/1000000 in {|
  pc_ins := [(Scabin, Sca); (MTOW, Sca)];
  pc_outs := [("W_cabin", (Sca, fun e => c * Rpower (e MTOW) (166552/1000000) * Rpower (e Scabin) (1061158/1000000)))];
  pc_J :=
    [("W_cabin", Scabin, fun e => c * Rpower (e MTOW) (166552/1000000) * (1061158/1000000) * Rpower (e Scabin) (61158/1000000));
     ("W_cabin", MTOW, fun e => c * (166552/1000000) * Rpower (e MTOW) (166552/1000000 - 1) * Rpower (e Scabin) (1061158/1000000))]
|}.
(** weights_BWB.py:454-522 *)
Definition AftbodyWeight_BWB : pcomp :=
  let c := 53/100 in
  let eng (e : nenv) := 1 + 5/100 * e neng in
  let pM (e : nenv) := Rpower (e MTOW) (2/10) in
  let tp (e : nenv) := e taft + 5/10 in {|
  pc_ins := [(Saft, Sca); (taft, Sca); (neng, Sca); (MTOW, Sca)];
  pc_outs := [("W_aftbody", (Sca, fun e => c * eng e * e Saft * pM e * tp e))];
  pc_J :=
    [("W_aftbody", Saft, fun e => c * eng e * pM e * tp e);
     ("W_aftbody", taft, fun e => c * eng e * e Saft * pM e);
     ("W_aftbody", neng, fun e => c * (5/100) * e Saft * pM e * tp e);
     ("W_aftbody", MTOW, fun e => c * eng e * e Saft * (2/10) * Rpower (e MTOW) (2/10 - 1) * tp e)]
|}.
(** Defaults, weights_BWB.py:175-189: no fudge factors. *)
Definition bwb_defaults : jet_options := {|
  structural_fudge := 1; total_fudge := 1; wing_weight_multiplier := 1; n_ult := 25/10 * (15/10); n_land_ult := 28/10 * (15/10);
  control_surface_area_frac := 1/10; fuselage_width_frac := 5/10; K_uht := 1; elevator_area_frac := 2/10; T_tail := false; K_door := 1; K_lg := 1;
  kneeling_main := 1; kneeling_nose := 1; K_lav := 7/10; K_buf := 4; coeff_fc := 12/10 * (64/100); coeff_avionics := 5/10;
  cabin_length_frac := 75/100; APU_weight_frac := 85/10000 |}.
(** weights_BWB.py:191-406 *)
Definition BWBEmptyWeight (o : jet_options) : group := {|
  g_subs :=
    ([comp 1 "cabin" CabinWeight_BWB [P Scabin; P MTOW] [P "W_cabin"];
      comp 1 "aftbody" AftbodyWeight_BWB [P Saft; P taft; P neng; P MTOW] [P "W_aftbody"];
      jet_wing o] ++ jet_common o ++
     [jet_equipment o [P Vpr];
      adder 1 "structural_adjustment" (jet_structure o ["W_cabin"; "W_aftbody"; "W_mlg"; "W_nlg"; "W_nacelle"]) [P "*"] [P "W_structure"];
      adder 1 "sum_weights" (jet_total o) [P "*"] [P "OEW"]])%list;
  g_conns := jet_conns |}.
