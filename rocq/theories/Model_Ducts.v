(** Model of openconcept/thermal/ducts.py.  Simplifications: exact reals; powers
    with a real exponent are [Rpower] (their bases are positive for every input the
    theorems speak about; numpy yields nan for a negative base); the square root of a
    negative number is 0 where numpy yields nan; initial guesses and the [lower=] /
    [upper=] bounds of outputs are hints to OpenMDAO's solvers and are left out;
    partials declared with [method="cs"] are the exact derivative of the modelled
    expression. *)
From Coq Require Import Reals List Bool PeanoNat String.
From Verif Require Import Base Py Model_Algebra Model_Vectors Model_Net Model_Thermal Model_HX.
Import ListNotations.
Open Scope R_scope.
Open Scope string_scope.

(** ducts.py:47-85; options [static_pressure_loss_factor] and [gross_thrust_factor]. *)
Definition duct_interior (loss rho U dp : R) : R := (rho ^ 2 * U ^ 2 + 2 * rho * dp) / (1 + loss).
Definition unspurious (x : R) : R := if Rlt_dec x 0 then 1 / 10 ^ 10 else x.
Definition ExplicitIncompressibleDuct (loss cfg : R) : pcomp :=
  let mdot e : R := unspurious (e "area_nozzle" *
    sqrt (unspurious (duct_interior loss (e "fltcond|rho") (e "fltcond|Utrue") (e "delta_p_hex")))) in
  let ins := [("fltcond|Utrue", Vec); ("fltcond|rho", Vec); ("area_nozzle", Vec); ("delta_p_hex", Vec)] in
  let outs := [("mdot", (Vec, mdot));
               ("drag", (Vec, fun e : nenv => mdot e * (e "fltcond|Utrue" - cfg * mdot e / e "area_nozzle" / e "fltcond|rho")))] in
  {| pc_ins := ins; pc_outs := outs; pc_J := cs_partials ins outs |}.

(** ** Isentropic relations, ideal gas *)
(** The factor [1 + (gam - 1) / 2 * M ** 2]. *)
Definition isen (gam M : R) : R := 1 + (gam - 1) / 2 * M ^ 2.

(** ducts.py:132-151; the exponents -1 and -2 are integers. *)
Definition TemperatureIsentropic (gam : R) : pcomp :=
  let Tt e : R := e "Tt" in let M e : R := e "M" in {|
  pc_ins := [("Tt", Vec); ("M", Vec)];
  pc_outs := [("T", (Vec, fun e => Tt e * / isen gam (M e)))];
  pc_J := [("T", "Tt", fun e => / isen gam (M e));
           ("T", "M", fun e => - Tt e * / (isen gam (M e) ^ 2) * (gam - 1) * M e)]
|}.
(** ducts.py:178-197 *)
Definition TotalTemperatureIsentropic (gam : R) : pcomp :=
  let T e : R := e "T" in let M e : R := e "M" in {|
  pc_ins := [("T", Vec); ("M", Vec)];
  pc_outs := [("Tt", (Vec, fun e => T e * isen gam (M e)))];
  pc_J := [("Tt", "T", fun e => isen gam (M e)); ("Tt", "M", fun e => T e * (gam - 1) * M e)]
|}.
(** ducts.py:224-237 *)
Definition PressureIsentropic (gam : R) : pcomp :=
  let ins := [("pt", Vec); ("M", Vec)] in
  let outs := [("p", (Vec, fun e : nenv => e "pt" * Rpower (isen gam (e "M")) (- gam / (gam - 1))))] in
  {| pc_ins := ins; pc_outs := outs; pc_J := cs_partials ins outs |}.
(** ducts.py:264-289 *)
Definition TotalPressureIsentropic (gam : R) : pcomp :=
  let p e : R := e "p" in let M e : R := e "M" in {|
  pc_ins := [("p", Vec); ("M", Vec)];
  pc_outs := [("pt", (Vec, fun e => p e * Rpower (isen gam (M e)) (gam / (gam - 1))))];
  pc_J := [("pt", "p", fun e => Rpower (isen gam (M e)) (gam / (gam - 1)));
           ("pt", "M", fun e => p e * (gam - 1) * M e * (gam / (gam - 1)) * Rpower (isen gam (M e)) (gam / (gam - 1) - 1))]
|}.
(** ducts.py:317-330 *)
Definition DensityIdealGas (Rgas : R) : pcomp :=
  let ins := [("p", Vec); ("T", Vec)] in
  let outs := [("rho", (Vec, fun e : nenv => e "p" / Rgas / e "T"))] in
  {| pc_ins := ins; pc_outs := outs; pc_J := cs_partials ins outs |}.
(** ducts.py:357-381 *)
Definition warm (T : R) : R := if Rlt_dec T 0 then 100 else T.
Definition SpeedOfSound (Rgas gam : R) : pcomp := {|
  pc_ins := [("T", Vec)];
  pc_outs := [("a", (Vec, fun e => sqrt (gam * Rgas * warm (e "T"))))];
  pc_J := [("a", "T", fun e => (1/2) * sqrt (gam * Rgas) / sqrt (warm (e "T")))]
|}.
(** ducts.py:406-417 *)
Definition MachNumberfromSpeed : pcomp :=
  let ins := [("a", Vec); ("Utrue", Vec)] in
  let outs := [("M", (Vec, fun e : nenv => e "Utrue" / e "a"))] in
  {| pc_ins := ins; pc_outs := outs; pc_J := cs_partials ins outs |}.

(** ** Heat addition, mass flow, nozzle *)
(** ducts.py:457-525 *)
Definition HeatAdditionPressureLoss : pcomp :=
  let Tt e : R := e "Tt_in" in let pt e : R := e "pt_in" in let m e : R := e "mdot" in let rho e : R := e "rho" in
  let A e : R := e "area" in let dp e : R := e "delta_p" in let K e : R := e "dynamic_pressure_loss_factor" in
  let pr e : R := e "pressure_recovery" in let q e : R := e "heat_in" in let cp e : R := e "cp" in {|
  pc_ins := [("Tt_in", Vec); ("pt_in", Vec); ("mdot", Vec); ("rho", Vec); ("area", Sca); ("delta_p", Vec);
             ("dynamic_pressure_loss_factor", Sca); ("pressure_recovery", Vec); ("heat_in", Vec); ("cp", Sca)];
  pc_outs := [("Tt_out", (Vec, fun e => Tt e + q e / cp e / m e));
              ("pt_out", (Vec, fun e => pt e * pr e - (1/2) * m e ^ 2 / rho e / A e ^ 2 * K e + dp e))];
  pc_J :=
    [("Tt_out", "Tt_in", fun _ => 1); ("Tt_out", "heat_in", fun e => 1 / cp e / m e);
     ("Tt_out", "cp", fun e => - q e / cp e ^ 2 / m e); ("Tt_out", "mdot", fun e => - q e / cp e / m e ^ 2);
     ("pt_out", "pt_in", fun e => pr e); ("pt_out", "pressure_recovery", fun e => pt e); ("pt_out", "delta_p", fun _ => 1);
     ("pt_out", "mdot", fun e => - K e * m e / rho e / A e ^ 2);
     ("pt_out", "rho", fun e => (1/2) * K e * m e ^ 2 / rho e ^ 2 / A e ^ 2);
     ("pt_out", "area", fun e => K e * m e ^ 2 / rho e / A e ^ 3);
     ("pt_out", "dynamic_pressure_loss_factor", fun e => - (1/2) * m e ^ 2 / rho e / A e ^ 2)]
|}.
(** ducts.py:482-499: the compute method with its two checks. *)
Definition heat_run (nn : nat) (E : env) : res env :=
  if nonpos nn (E "mdot") then Err ValueError
  else if anyb nn (fun i => if Rlt_dec (10 ^ 8) (vcompute HeatAdditionPressureLoss E "pt_out" i) then true else false)
  then Err ValueError
  else Ok (vcompute HeatAdditionPressureLoss E).

(** ducts.py:558-575 *)
Definition MassFlow : pcomp :=
  let M e : R := e "M" in let a e : R := e "a" in let A e : R := e "area" in let rho e : R := e "rho" in {|
  pc_ins := [("a", Vec); ("area", Vec); ("rho", Vec); ("M", Vec)];
  pc_outs := [("mdot", (Vec, fun e => M e * a e * A e * rho e))];
  pc_J := [("mdot", "M", fun e => a e * A e * rho e); ("mdot", "a", fun e => M e * A e * rho e);
           ("mdot", "area", fun e => M e * a e * rho e); ("mdot", "rho", fun e => M e * a e * A e)]
|}.

(** An implicit component: [apply_nonlinear] and [linearize] as a component that
    computes the residual from inputs and state; converged means residual zero. *)
Definition implicit (nn : nat) (name : string) (C : pcomp) (pin pout : list promo) : gsub := {|
  gs_name := name;
  gs_ins := filter (fun x => negb (mem x (map fst (pc_outs C)))) (map fst (pc_ins C));
  gs_outs := map fst (pc_outs C);
  gs_rel := fun I O => forall o k f i, assoc o (pc_outs C) = Some (k, f) -> (i < size nn k)%nat ->
    vcompute C (fun x => if mem x (map fst (pc_outs C)) then O x else I x) o i = 0;
  gs_pin := pin; gs_pout := pout |}.
(** ducts.py:582-602 *)
Definition MachNumberDuct : pcomp :=
  let m e : R := e "mdot" in let a e : R := e "a" in let A e : R := e "area" in let rho e : R := e "rho" in let M e : R := e "M" in {|
  pc_ins := [("mdot", Vec); ("a", Vec); ("area", Sca); ("rho", Vec); ("M", Vec)];
  pc_outs := [("M", (Vec, fun e => m e - M e * a e * A e * rho e))];
  pc_J := [("M", "mdot", fun _ => 1); ("M", "M", fun e => - a e * A e * rho e); ("M", "a", fun e => - M e * A e * rho e);
           ("M", "area", fun e => - M e * a e * rho e); ("M", "rho", fun e => - M e * a e * A e)]
|}.
(** ducts.py:630-646 *)
Definition DuctExitPressureRatioImplicit : pcomp :=
  let pe e : R := e "p_exit" in let pt e : R := e "pt" in {|
  pc_ins := [("p_exit", Vec); ("pt", Vec); ("nozzle_pressure_ratio", Vec)];
  pc_outs := [("nozzle_pressure_ratio", (Vec, fun e => e "nozzle_pressure_ratio" - pe e / pt e))];
  pc_J := [("nozzle_pressure_ratio", "nozzle_pressure_ratio", fun _ => 1);
           ("nozzle_pressure_ratio", "p_exit", fun e => - (1) / pt e);
           ("nozzle_pressure_ratio", "pt", fun e => pe e / pt e ^ 2)]
|}.
(** ducts.py:675-691 *)
Definition critical_ratio (gam : R) : R := Rpower (2 / (gam + 1)) (gam / (gam - 1)).
Definition DuctExitMachNumber (gam : R) : pcomp :=
  let ins := [("nozzle_pressure_ratio", Vec)] in
  let outs := [("M", (Vec, fun e : nenv =>
    if Rle_dec (e "nozzle_pressure_ratio") (critical_ratio gam) then 1
    else sqrt ((Rpower (e "nozzle_pressure_ratio") ((1 - gam) / gam) - 1) * 2 / (gam - 1))))] in
  {| pc_ins := ins; pc_outs := outs; pc_J := cs_partials ins outs |}.
(** ducts.py:685-686: the check of the ratio. *)
Definition exit_run (gam : R) (nn : nat) (E : env) : res env :=
  if nonpos nn (E "nozzle_pressure_ratio") then Err ValueError else Ok (vcompute (DuctExitMachNumber gam) E).
(** ducts.py:724-744 *)
Definition NetForce (cfg : R) : pcomp :=
  let ins := [("mdot", Vec); ("Utrue_inf", Vec); ("p_inf", Vec); ("area_nozzle", Vec); ("p_nozzle", Vec); ("rho_nozzle", Vec)] in
  let outs := [("F_net", (Vec, fun e : nenv =>
    e "mdot" * (e "mdot" / e "area_nozzle" / e "rho_nozzle" * cfg - e "Utrue_inf") +
    e "area_nozzle" * cfg * (e "p_nozzle" - e "p_inf")))] in
  {| pc_ins := ins; pc_outs := outs; pc_J := cs_partials ins outs |}.
(** ducts.py:876-912 *)
Definition NozzlePressureLoss : pcomp :=
  let pt e : R := e "pt_in" in let m e : R := e "mdot" in let rho e : R := e "rho" in
  let A e : R := e "area" in let K e : R := e "dynamic_pressure_loss_factor" in {|
  pc_ins := [("pt_in", Vec); ("mdot", Vec); ("rho", Vec); ("area", Vec); ("dynamic_pressure_loss_factor", Sca)];
  pc_outs := [("pt", (Vec, fun e => pt e - (1/2) * m e ^ 2 / rho e / A e ^ 2 * K e))];
  pc_J :=
    [("pt", "pt_in", fun _ => 1); ("pt", "mdot", fun e => - K e * m e / rho e / A e ^ 2);
     ("pt", "rho", fun e => (1/2) * K e * m e ^ 2 / rho e ^ 2 / A e ^ 2);
     ("pt", "area", fun e => K e * m e ^ 2 / rho e / A e ^ 3);
     ("pt", "dynamic_pressure_loss_factor", fun e => - (1/2) * m e ^ 2 / rho e / A e ^ 2)]
|}.
(** ducts.py:1086-1095 *)
Definition FlowMatcher : pcomp := {|
  pc_ins := [("mdot_actual", Vec); ("mdot", Vec)];
  pc_outs := [("mdot", (Vec, fun e => e "mdot_actual" - e "mdot"))];
  pc_J := [("mdot", "mdot_actual", fun _ => 1); ("mdot", "mdot", fun _ => - (1))]
|}.
(** ducts.py:788-797: the ExecComp [pt = pt_in * eta_ram]. *)
Definition ram_recovery : pcomp := {|
  pc_ins := [("pt_in", Vec); ("eta_ram", Vec)];
  pc_outs := [("pt", (Vec, fun e => e "pt_in" * e "eta_ram"))];
  pc_J := [("pt", "pt_in", fun e => e "eta_ram"); ("pt", "eta_ram", fun e => e "pt_in")]
|}.

(** ** Groups *)
(** ducts.py:134, 319, 359, 360: default options. *)
Definition air_gam : R := 14/10.
Definition air_R : R := 28705/100.

(** A group as a subsystem, all of its unset inputs and all of its outputs visible. *)
Definition free_ins (g : group) : list string :=
  let outs := group_outs g in let targets := map snd (g_conns g) in
  filter (fun x => negb (mem x outs) && negb (mem x targets)) (group_ins g).
Definition subgroup (name : string) (g : group) (pin pout : list promo) : gsub :=
  nested name g (free_ins g) (group_outs g) pin pout.

(** An AddSubtractComp with one equation as a subsystem. *)
Definition adder (nn : nat) (name : string) (s : add_sys) (pin pout : list promo) : gsub := {|
  gs_name := name; gs_ins := as_ins s; gs_outs := [as_out s];
  gs_rel := fun I O => forall i, (i < nn)%nat -> add_compute s I i = Ok (O (as_out s) i);
  gs_pin := pin; gs_pout := pout |}.

(** ducts.py:775-799 *)
Definition Inlet (nn : nat) : group := {|
  g_subs :=
    [comp nn "speedsound" (SpeedOfSound air_R air_gam) [P "*"] [P "*"];
     comp nn "mach" MachNumberfromSpeed [P "*"] [P "*"];
     comp nn "freestreamtotaltemperature" (TotalTemperatureIsentropic air_gam) [P "*"] [P "*"];
     comp nn "freestreamtotalpressure" (TotalPressureIsentropic air_gam) [P "*"] [];
     comp nn "totalpressure" ram_recovery [] [P "pt"]];
  g_conns := [("freestreamtotalpressure.pt", "totalpressure.pt_in")]
|}.
(** ducts.py:834-845 *)
Definition DuctStation (nn : nat) : group := {|
  g_subs :=
    [checked nn "totals" HeatAdditionPressureLoss heat_run [P "*"] [P "*"];
     comp nn "temp" (TemperatureIsentropic air_gam) [P "M"] [P "*"];
     comp nn "pressure" (PressureIsentropic air_gam) [P "M"] [P "*"];
     comp nn "density" (DensityIdealGas air_R) [P "*"] [P "*"];
     comp nn "speedsound" (SpeedOfSound air_R air_gam) [P "*"] [P "*"];
     implicit nn "mach" MachNumberDuct [P "*"] [P "*"]];
  g_conns := [("Tt_out", "temp.Tt"); ("pt_out", "pressure.pt")]
|}.
(** ducts.py:944-961 *)
Definition OutletNozzle (nn : nat) : group := {|
  g_subs :=
    [comp nn "pressureloss" NozzlePressureLoss [P "*"] [P "*"];
     implicit nn "pressureratio" DuctExitPressureRatioImplicit [P "*"] [P "*"];
     checked nn "machimplicit" (DuctExitMachNumber air_gam) (exit_run air_gam) [P "*"] [P "*"];
     comp nn "temp" (TemperatureIsentropic air_gam) [P "*"] [P "*"];
     comp nn "pressure" (PressureIsentropic air_gam) [P "*"] [P "*"];
     comp nn "density" (DensityIdealGas air_R) [P "*"] [P "*"];
     comp nn "speedsound" (SpeedOfSound air_R air_gam) [P "*"] [P "*"];
     comp nn "massflow" MassFlow [P "*"] [As "mdot" "mdot_actual"]];
  g_conns := []
|}.
(** ducts.py:1058-1061 and 1188-1191 *)
Definition exit_pressure (nn : nat) : add_sys :=
  {| as_out := "p_exit"; as_ins := ["p_inf"; "convergence_hack"]; as_vec := VList [nn; 1%nat]; as_len := 1;
     as_sf := None; as_units := Some "Pa" |}.
(** ducts.py:1000-1011, 1016-1027 and 1046-1050: the three stations, alike in both ducts. *)
Definition duct_sta1 (nn : nat) : gsub := subgroup "sta1" (DuctStation nn)
  [P "mdot"; P "cp"; As "area" "area_1"; As "delta_p" "delta_p_1"; As "heat_in" "heat_in_1";
   As "pressure_recovery" "pressure_recovery_1"] [].
Definition duct_sta2 (nn : nat) : gsub := subgroup "sta2" (DuctStation nn)
  [P "mdot"; P "cp"; As "area" "area_2"; As "delta_p" "delta_p_2"; As "heat_in" "heat_in_2";
   As "pressure_recovery" "pressure_recovery_2"] [].
Definition duct_sta3 (nn : nat) : gsub := subgroup "sta3" (DuctStation nn)
  [P "mdot"; P "cp"; As "pressure_recovery" "pressure_recovery_3"; As "area" "area_3"] [].
(** ducts.py:973-1079 *)
Definition ImplicitCompressibleDuct (nn : nat) (cfg : R) : group := {|
  g_subs :=
    [indep "dv" ["cp"; "area_1"; "delta_p_1"; "heat_in_1"; "pressure_recovery_1"; "loss_factor_1"; "delta_p_2"; "heat_in_2";
                 "pressure_recovery_2"; "pressure_recovery_3"; "area_nozzle"; "convergence_hack"]
       [P "cp"; P "*_1"; P "*_2"; P "*_3"; P "*_nozzle"; P "convergence_hack"];
     implicit nn "mdotguess" FlowMatcher [P "*"] [P "*"];
     subgroup "inlet" (Inlet nn) [As "p" "p_inf"; As "T" "T_inf"; P "Utrue"] [];
     duct_sta1 nn;
     duct_sta2 nn;
     subgroup "hx" (HXGroup nn)
       [As "mdot_cold" "mdot"; P "mdot_hot"; P "T_in_hot"; P "rho_hot"; P "ac|propulsion|thermal|hx|n_wide_cold"] [P "T_out_hot"];
     duct_sta3 nn;
     adder nn "pexit" (exit_pressure nn) [P "*"] [P "*"];
     subgroup "nozzle" (OutletNozzle nn) [P "mdot"; P "p_exit"; As "area" "area_nozzle"] [P "mdot_actual"];
     comp nn "force" (NetForce cfg) [P "mdot"; P "p_inf"; As "Utrue_inf" "Utrue"; P "area_nozzle"] []];
  g_conns :=
    [("inlet.pt", "sta1.pt_in"); ("inlet.Tt", "sta1.Tt_in"); ("loss_factor_1", "sta1.dynamic_pressure_loss_factor");
     ("sta1.pt_out", "sta2.pt_in"); ("sta1.Tt_out", "sta2.Tt_in");
     ("sta2.T", "hx.T_in_cold"); ("sta2.rho", "hx.rho_cold");
     ("sta2.pt_out", "sta3.pt_in"); ("sta2.Tt_out", "sta3.Tt_in");
     ("hx.delta_p_cold", "sta3.delta_p"); ("hx.heat_transfer", "sta3.heat_in");
     ("hx.frontal_area", "area_2"); ("hx.frontal_area", "area_3");
     ("sta3.pt_out", "nozzle.pt_in"); ("sta3.Tt_out", "nozzle.Tt");
     ("nozzle.p", "force.p_nozzle"); ("nozzle.rho", "force.rho_nozzle")]
|}.
(** ducts.py:1107-1210 *)
Definition ImplicitCompressibleDuct_ExternalHX (nn : nat) (cfg : R) : group := {|
  g_subs :=
    [indep "dv" ["cp"; "area_1"; "delta_p_1"; "heat_in_1"; "pressure_recovery_1"; "loss_factor_1"; "delta_p_2"; "heat_in_2";
                 "pressure_recovery_2"; "pressure_recovery_3"; "convergence_hack"]
       [P "cp"; P "*_1"; P "*_2"; P "*_3"; P "convergence_hack"];
     relabel "dvpassthru" [("area_nozzle_in", "area_nozzle")] [P "*"] [P "*"];
     implicit nn "mdotguess" FlowMatcher [P "*"] [P "*"];
     subgroup "inlet" (Inlet nn) [As "p" "p_inf"; As "T" "T_inf"; P "Utrue"] [];
     duct_sta1 nn;
     duct_sta2 nn;
     duct_sta3 nn;
     adder nn "pexit" (exit_pressure nn) [P "*"] [P "*"];
     subgroup "nozzle" (OutletNozzle nn) [P "mdot"; P "p_exit"; As "area" "area_nozzle"] [P "mdot_actual"];
     comp nn "force" (NetForce cfg) [P "mdot"; P "p_inf"; As "Utrue_inf" "Utrue"; P "area_nozzle"] []];
  g_conns :=
    [("inlet.pt", "sta1.pt_in"); ("inlet.Tt", "sta1.Tt_in"); ("loss_factor_1", "sta1.dynamic_pressure_loss_factor");
     ("sta1.pt_out", "sta2.pt_in"); ("sta1.Tt_out", "sta2.Tt_in");
     ("sta2.pt_out", "sta3.pt_in"); ("sta2.Tt_out", "sta3.Tt_in");
     ("sta3.pt_out", "nozzle.pt_in"); ("sta3.Tt_out", "nozzle.Tt");
     ("nozzle.p", "force.p_nozzle"); ("nozzle.rho", "force.rho_nozzle")]
|}.
