(** Model of openconcept/aerodynamics: drag_jet_transport.py, drag_BWB.py and
    openaerostruct/wave_drag.py.

    Simplifications: exact reals; [x ** y] with a non-integer [y] is [Rpower x y]
    (the bases are positive for every input the properties range over); all values are
    expressed in the units the components declare (m, m/s, kg/m**3, K, m**2; flap
    extension in deg, the sweep in rad in the drag build-ups and in deg in wave_drag.py). *)
From Coq Require Import Reals List Bool PeanoNat String.
From Verif Require Import Base Py RSum Model_Algebra Model_Vectors Model_Net Model_Thermal Model_Ducts Model_HeatPipe Model_Systems Model_Aero.
Import ListNotations.
Open Scope R_scope.
Open Scope string_scope.


(** ** drag_jet_transport.py *)
(** drag_jet_transport.py:353-403 *)
Definition FuselageFormFactor_JetTransport (Q : R) : pcomp :=
  let L (e : nenv) : R := e "ac|geom|fuselage|length" in let D (e : nenv) : R := e "ac|geom|fuselage|height" in
  let f e := L e / D e in {|
  pc_ins := [("ac|geom|fuselage|length", Sca); ("ac|geom|fuselage|height", Sca)];
  pc_outs := [("FF_fuselage", (Sca, fun e => Q * (1 + 22/10 / f e + 38/10 / f e ^ 3)))];
  pc_J :=
    [("FF_fuselage", "ac|geom|fuselage|length", fun e => Q * (- (22/10) / f e ^ 2 - 3 * (38/10) / f e ^ 4) * (1 / D e));
     ("FF_fuselage", "ac|geom|fuselage|height", fun e => Q * (- (22/10) / f e ^ 2 - 3 * (38/10) / f e ^ 4) * (- L e / D e ^ 2))]
|}.

(** drag_jet_transport.py:406-442 *)
Definition WingFormFactor_JetTransport (Q : R) : pcomp := {|
  pc_ins := [("toverc", Sca)];
  pc_outs := [("FF_wing", (Sca, fun e => Q * (1 + 27/10 * e "toverc" + 100 * e "toverc" ^ 4)))];
  pc_J := [("FF_wing", "toverc", fun e => Q * (27/10 + 400 * e "toverc" ^ 3))]
|}.

(** drag_jet_transport.py:490 *)
Definition flap_quadratic (cf : R) : R := 575/1000000 * cf ^ 2 - 745/10000000 * cf + 123/10000000.
(** drag_jet_transport.py:445-520 *)
Definition FlapDrag_JetTransport (cf Q frac : R) : pcomp :=
  let delta (e : nenv) : R := e "flap_extension" in let sweep (e : nenv) : R := e "ac|geom|wing|c4sweep" in
  let incr e := flap_quadratic cf * delta e ^ 2 in {|
  pc_ins := [("flap_extension", Sca); ("ac|geom|wing|c4sweep", Sca)];
  pc_outs := [("CD_flap", (Sca, fun e => incr e * cos (sweep e) * frac * Q))];
  pc_J :=
    [("CD_flap", "flap_extension", fun e => 2 * flap_quadratic cf * delta e * cos (sweep e) * frac * Q);
     ("CD_flap", "ac|geom|wing|c4sweep", fun e => - incr e * sin (sweep e) * frac * Q)]
|}.

(** drag_jet_transport.py:573-577, 596-601: dynamic viscosity (Sutherland) *)
Definition viscosity (T : R) : R := 1458/1000000000 * Rpower T (3/2) / (T + 1004/10).
(** drag_jet_transport.py:584: explicit fit of Spalding *)
Definition spalding (Re : R) : R := 523/1000 / ln (6/100 * Re) ^ 2.
(** drag_jet_transport.py:619 *)
Definition spalding' (Re : R) : R := - (1046/1000) / (Re * (ln Re - 281341/100000) ^ 3).
(** drag_jet_transport.py:589, 631: Blasius *)
Definition blasius (Re : R) : R := 132824/100000 / sqrt Re.
Definition blasius' (Re : R) : R := - (5/10) * (132824/100000) / Rpower Re (15/10).

(** drag_jet_transport.py:523-640.  The derivative of the friction coefficient with
    respect to the Reynolds number is factored out of the partials (lines 621-624 and
    637-640 add the same terms). *)
Definition SkinFrictionCoefficient_JetTransport (lam : R) : pcomp :=
  let T (e : nenv) : R := e "fltcond|T" in let rho (e : nenv) : R := e "fltcond|rho" in
  let U (e : nenv) : R := e "fltcond|Utrue" in let L (e : nenv) : R := e "L" in
  let nu e := viscosity (T e) / rho e in
  let Re e := U e * L e / nu e in
  let dmu_dT e := 1458/1000000000 * sqrt (T e) * (3 * (1004/10) + T e) / (2 * (1004/10 + T e) ^ 2) in
  let dnu_dT e := dmu_dT e / rho e in
  let dnu_drho e := - viscosity (T e) / rho e ^ 2 in
  let dRe_dT e := - U e * L e / nu e ^ 2 * dnu_dT e in
  let dRe_drho e := - U e * L e / nu e ^ 2 * dnu_drho e in
  let dRe_dU e := L e / nu e in
  let dRe_dL e := U e / nu e in
  let J (d : nenv -> R) (e : nenv) :=
    if Rlt_dec 0 lam
    then spalding' (Re e) * d e + lam * (blasius' (Re e * lam) - spalding' (Re e * lam)) * lam * d e
    else spalding' (Re e) * d e in {|
  pc_ins := [("L", Sca); ("fltcond|Utrue", Vec); ("fltcond|rho", Vec); ("fltcond|T", Vec)];
  pc_outs := [("Cf", (Vec, fun e =>
    if Rlt_dec 0 lam
    then spalding (Re e) + (blasius (Re e * lam) - spalding (Re e * lam)) * lam
    else spalding (Re e)))];
  pc_J :=
    [("Cf", "fltcond|T", J dRe_dT); ("Cf", "fltcond|rho", J dRe_drho);
     ("Cf", "fltcond|Utrue", J dRe_dU); ("Cf", "L", J dRe_dL)]
|}.

(** An IndepVarComp with fixed scalar values. *)
Definition constants (name : string) (l : list (string * R)) : gsub := {|
  gs_name := name; gs_ins := []; gs_outs := map fst l;
  gs_rel := fun _ O => forall x v, In (x, v) l -> O x 0%nat = v;
  gs_pin := []; gs_pout := [] |}.
(** An ElementMultiplyDivideComp with the equations [l], each over its own number of rows. *)
Definition multipliers (name : string) (l : list mul_sys) (pin pout : list promo) : gsub := {|
  gs_name := name; gs_ins := flat_map ms_ins l; gs_outs := map ms_out l;
  gs_rel := fun I O => forall s, In s l -> forall i, (i < rows (ms_vec s))%nat -> mul_compute s I i = Ok (O (ms_out s) i);
  gs_pin := pin; gs_pout := pout |}.

(** drag_jet_transport.py:132-148; [do_takeoff] is [configuration == "takeoff"]. *)
Record drag_options := {
  do_wing : bool; do_takeoff : bool; do_fudge : R; do_FF_nacelle : R; do_Q_fuselage : R; do_Q_tail : R; do_Q_wing : R;
  do_flap_chord : R; do_Q_flap : R; do_flapped : R;
  do_lam_fuselage : R; do_lam_hstab : R; do_lam_vstab : R; do_lam_wing : R; do_lam_nacelle : R }.
(** drag_jet_transport.py:133-148 *)
Definition drag_defaults : drag_options := {|
  do_wing := true; do_takeoff := false; do_fudge := 1; do_FF_nacelle := 125/100 * (12/10); do_Q_fuselage := 1; do_Q_tail := 105/100; do_Q_wing := 1;
  do_flap_chord := 2/10; do_Q_flap := 125/100; do_flapped := 9/10;
  do_lam_fuselage := 0; do_lam_hstab := 15/100; do_lam_vstab := 15/100; do_lam_wing := 15/100; do_lam_nacelle := 0 |}.

Definition flow_promo : list promo := [P "fltcond|Utrue"; P "fltcond|rho"; P "fltcond|T"].
Definition m2 : option (list tok) := Some [TUnit "m"; TPow 2].
(** drag_jet_transport.py:248-270: one equation of "drag_coeffs"; [area] is its first input, [Sw] its last. *)
Definition surface_drag (nn : nat) (out area FF Cf Sw : string) (scale : R) : mul_sys := {|
  ms_out := out; ms_ins := [area; FF; Cf; Sw]; ms_vec := VList [1; 1; nn; 1]%nat; ms_len := 1; ms_sf := scale;
  ms_div := Some [false; false; false; true]; ms_units := Some [m2; None; None; m2] |}.
(** drag_jet_transport.py:271-277, drag_BWB.py:131-143 *)
Definition nacelle_drag (nn : nat) (Sw : string) : mul_sys := {|
  ms_out := "CD_nacelle"; ms_ins := ["ac|geom|nacelle|S_wet"; "FF_nacelle"; "Cf_nacelle"; "ac|propulsion|num_engines"; Sw];
  ms_vec := VList [1; 1; nn; 1; 1]%nat; ms_len := 1; ms_sf := 1;
  ms_div := Some [false; false; false; false; true]; ms_units := Some [m2; None; None; None; m2] |}.
(** drag_jet_transport.py:279-286 *)
Definition wing_drag (nn : nat) : mul_sys := {|
  ms_out := "CD_wing"; ms_ins := ["FF_wing"; "Cf_wing"]; ms_vec := VList [1; nn]%nat; ms_len := 1; ms_sf := 2;
  ms_div := Some [false; false]; ms_units := Some [None; None] |}.
(** drag_jet_transport.py:332-341, drag_BWB.py:179-188 *)
Definition drag_sum (nn : nat) (ins : list string) (fudge : R) : gsub :=
  adders "sum_CD0"
    [{| as_out := "CD0"; as_ins := ins; as_vec := VList (repeat nn (List.length ins - 2) ++ [1; 1]%nat); as_len := 1;
        as_sf := Some (repeat fudge (List.length ins)); as_units := None |}] [] [P "CD0"].
(** drag_jet_transport.py:190, 305-323, drag_BWB.py:107, 153-173: constants "iv" of a
    build-up; [gear] is the landing gear's drag coefficient when extended. *)
Definition drag_iv (takeoff : bool) (FF gear : R) : gsub :=
  constants "iv" (if takeoff then [("FF_nacelle", FF); ("CD_landing_gear", gear)]
                  else [("FF_nacelle", FF); ("CD_flap", 0); ("CD_landing_gear", 0)]).
(** drag_jet_transport.py:305-318, drag_BWB.py:153-166 *)
Definition flaps (takeoff : bool) (cf Q frac : R) : list gsub :=
  if takeoff then [comp 1 "flaps" (FlapDrag_JetTransport cf Q frac) [As "flap_extension" "ac|aero|takeoff_flap_deg"; P "ac|geom|wing|c4sweep"] []] else [].
Definition flap_source (takeoff : bool) : string := if takeoff then "flaps.CD_flap" else "iv.CD_flap".
(** drag_jet_transport.py:206-221: one round of the loop over the lifting surfaces *)
Definition surface (nn : nat) (surf : string) (lam : R) : list gsub :=
  [comp 1 (String.append surf "_MAC_calc") WingMACTrapezoidal
     [As "S_ref" (String.append "ac|geom|" (String.append surf "|S_ref")); As "AR" (String.append "ac|geom|" (String.append surf "|AR"));
      As "taper" (String.append "ac|geom|" (String.append surf "|taper"))] [];
   comp nn (String.append surf "_friction") (SkinFrictionCoefficient_JetTransport lam) flow_promo []].
Definition surface_conn (surf : string) : string * string := (String.append surf "_MAC_calc.MAC", String.append surf "_friction.L").

(** drag_jet_transport.py:150-350 *)
Definition ParasiteDragCoefficient_JetTransport (o : drag_options) (nn : nat) : group := {|
  g_subs :=
    ([drag_iv (do_takeoff o) (do_FF_nacelle o) (2/100);
      comp 1 "fuselage_form" (FuselageFormFactor_JetTransport (do_Q_fuselage o)) [P "ac|geom|fuselage|length"; P "ac|geom|fuselage|height"] [];
      comp 1 "hstab_form" (WingFormFactor_JetTransport (do_Q_tail o)) [As "toverc" "ac|geom|hstab|toverc"] [];
      comp 1 "vstab_form" (WingFormFactor_JetTransport (do_Q_tail o)) [As "toverc" "ac|geom|vstab|toverc"] []]
     ++ (if do_wing o then [comp 1 "wing_form" (WingFormFactor_JetTransport (do_Q_wing o)) [As "toverc" "ac|geom|wing|toverc"] []] else [])
     ++ [comp nn "fuselage_friction" (SkinFrictionCoefficient_JetTransport (do_lam_fuselage o)) (flow_promo ++ [As "L" "ac|geom|fuselage|length"]) []]
     ++ surface nn "hstab" (do_lam_hstab o) ++ surface nn "vstab" (do_lam_vstab o)
     ++ (if do_wing o then surface nn "wing" (do_lam_wing o) else [])
     ++ [comp nn "nacelle_friction" (SkinFrictionCoefficient_JetTransport (do_lam_nacelle o)) (flow_promo ++ [As "L" "ac|geom|nacelle|length"]) [];
         multipliers "drag_coeffs"
           ([surface_drag nn "CD_fuselage" "ac|geom|fuselage|S_wet" "FF_fuselage" "Cf_fuselage" "S_wing_1" 1;
             surface_drag nn "CD_hstab" "ac|geom|hstab|S_ref" "FF_hstab" "Cf_hstab" "S_wing_2" 2;
             surface_drag nn "CD_vstab" "ac|geom|vstab|S_ref" "FF_vstab" "Cf_vstab" "S_wing_3" 2;
             nacelle_drag nn "S_wing_4"] ++ (if do_wing o then [wing_drag nn] else []))
           [P "ac|geom|fuselage|S_wet"; P "ac|geom|hstab|S_ref"; P "ac|geom|vstab|S_ref"; P "ac|geom|nacelle|S_wet"; P "ac|propulsion|num_engines";
            As "S_wing_1" "ac|geom|wing|S_ref"; As "S_wing_2" "ac|geom|wing|S_ref"; As "S_wing_3" "ac|geom|wing|S_ref"; As "S_wing_4" "ac|geom|wing|S_ref"] []]
     ++ flaps (do_takeoff o) (do_flap_chord o) (do_Q_flap o) (do_flapped o)
     ++ [drag_sum nn (["CD_fuselage"; "CD_hstab"; "CD_vstab"; "CD_nacelle"] ++ (if do_wing o then ["CD_wing"] else []) ++ ["CD_flap"; "CD_landing_gear"]) (do_fudge o)])%list;
  g_conns :=
    ([surface_conn "hstab"; surface_conn "vstab"] ++ (if do_wing o then [surface_conn "wing"] else [])
     ++ [("fuselage_form.FF_fuselage", "drag_coeffs.FF_fuselage"); ("hstab_form.FF_wing", "drag_coeffs.FF_hstab");
         ("vstab_form.FF_wing", "drag_coeffs.FF_vstab"); ("iv.FF_nacelle", "drag_coeffs.FF_nacelle");
         ("fuselage_friction.Cf", "drag_coeffs.Cf_fuselage"); ("hstab_friction.Cf", "drag_coeffs.Cf_hstab");
         ("vstab_friction.Cf", "drag_coeffs.Cf_vstab"); ("nacelle_friction.Cf", "drag_coeffs.Cf_nacelle")]
     ++ (if do_wing o then [("wing_form.FF_wing", "drag_coeffs.FF_wing"); ("wing_friction.Cf", "drag_coeffs.Cf_wing")] else [])
     ++ [("drag_coeffs.CD_fuselage", "sum_CD0.CD_fuselage"); ("drag_coeffs.CD_hstab", "sum_CD0.CD_hstab");
         ("drag_coeffs.CD_vstab", "sum_CD0.CD_vstab"); ("drag_coeffs.CD_nacelle", "sum_CD0.CD_nacelle")]
     ++ (if do_wing o then [("drag_coeffs.CD_wing", "sum_CD0.CD_wing")] else [])
     ++ [(flap_source (do_takeoff o), "sum_CD0.CD_flap"); ("iv.CD_landing_gear", "sum_CD0.CD_landing_gear")])%list
|}.

(** ** drag_BWB.py *)
(** drag_BWB.py:87-95 *)
Record bwb_drag_options := {
  bo_takeoff : bool; bo_fudge : R; bo_FF_nacelle : R; bo_flap_chord : R; bo_Q_flap : R; bo_flapped : R; bo_lam_nacelle : R }.
(** drag_BWB.py:88-95 *)
Definition bwb_drag_defaults : bwb_drag_options := {|
  bo_takeoff := false; bo_fudge := 1; bo_FF_nacelle := 125/100 * (12/10); bo_flap_chord := 2/10; bo_Q_flap := 125/100; bo_flapped := 0; bo_lam_nacelle := 0 |}.
(** drag_BWB.py:97-192 *)
Definition ParasiteDragCoefficient_BWB (o : bwb_drag_options) (nn : nat) : group := {|
  g_subs :=
    ([drag_iv (bo_takeoff o) (bo_FF_nacelle o) (1/100);
      comp nn "nacelle_friction" (SkinFrictionCoefficient_JetTransport (bo_lam_nacelle o)) (flow_promo ++ [As "L" "ac|geom|nacelle|length"]) [];
      multipliers "drag_coeffs" [nacelle_drag nn "ac|geom|wing|S_ref"]
        [P "ac|geom|nacelle|S_wet"; P "ac|propulsion|num_engines"; P "ac|geom|wing|S_ref"] []]
     ++ flaps (bo_takeoff o) (bo_flap_chord o) (bo_Q_flap o) (bo_flapped o)
     ++ [drag_sum nn ["CD_nacelle"; "CD_flap"; "CD_landing_gear"] (bo_fudge o)])%list;
  g_conns :=
    [("iv.FF_nacelle", "drag_coeffs.FF_nacelle"); ("nacelle_friction.Cf", "drag_coeffs.Cf_nacelle");
     ("drag_coeffs.CD_nacelle", "sum_CD0.CD_nacelle");
     (flap_source (bo_takeoff o), "sum_CD0.CD_flap"); ("iv.CD_landing_gear", "sum_CD0.CD_landing_gear")]
|}.

(** ** wave_drag.py
    [tc] are the thickness-to-chord ratios of the sections [s]; the slice of sections is
    that of Model_Aero ([n_panels], wave_drag.py:96-102 and 119-121). *)
(** numpy's [trapz(f, x=y)] over [n] points. *)
Definition trapz (n : nat) (f y : nat -> R) : R := rsum (n - 1) (fun k => (y (k + 1)%nat - y k) * (f (k + 1)%nat + f k) / 2).
(** wave_drag.py:129-134: integral of thickness over panel [a], before it is divided by
    the panel's area (line 134) and multiplied by it again (line 135).  [n] is 500 in the code. *)
Definition panel_thickness (n : nat) (tc : nat -> R) (s : sections) (a : nat) : R :=
  trapz n (fun k => linspace (tc a) (tc (a + 1)%nat) n k * linspace (sec_c s a) (sec_c s (a + 1)%nat) n k)
    (fun k => linspace (full_y s a) (full_y s (a + 1)%nat) n k).
(** wave_drag.py:134-135 *)
Definition avg_toverc (tc : nat -> R) (start : nat) (idx_end : option nat) (s : sections) : R :=
  rsum (n_panels s start idx_end) (fun k => panel_thickness 500 tc s (start + k) / panel_area s (start + k) * panel_area s (start + k))
  / rsum (n_panels s start idx_end) (fun k => panel_area s (start + k)).
(** wave_drag.py:122, 137-138; [sweep] in degrees *)
Definition drag_divergence (tech tcavg sweep CL : R) : R :=
  let c := cos (sweep * PI / 180) in tech / c - tcavg / c ^ 2 - CL / (10 * c ^ 3).
Definition critical_mach (tech tcavg sweep CL : R) : R := drag_divergence tech tcavg sweep CL - Rpower (1/10 / 80) (1/3).
(** wave_drag.py:117-145 at one node; [S_ref] is given if [specify_area_norm]. *)
Definition CD_wave (tech : R) (tc : nat -> R) (start : nat) (idx_end : option nat) (s : sections) (S_ref : option R) (sweep M CL : R) : R :=
  let Mc := critical_mach tech (avg_toverc tc start idx_end s) sweep CL in
  let region := 2 * (if Rlt_dec Mc M then 20 * (M - Mc) ^ 4 else 0) in
  match S_ref with
  | None => region
  | Some A => region * (A / (2 * rsum (n_panels s start idx_end) (fun k => panel_area s (start + k))))
  end.
