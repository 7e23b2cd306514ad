(** Model of openconcept/thermal/heat_exchanger.py: the offset strip fin, liquid to
    air cross flow heat exchanger.  Simplifications: exact reals; [x ** a] with a
    fractional exponent is [Rpower x a] (x > 0); initial guesses and [lower=] bounds
    (hints to solvers) are left out; [set_input_defaults] values are left to the
    environment; partials declared with [method="cs"] are the exact derivative. *)
From Coq Require Import Reals List Bool PeanoNat String.
From Verif Require Import Base Py Model_Vectors Model_Net Model_Thermal.
Import ListNotations.
Open Scope R_scope.
Open Scope string_scope.

(** heat_exchanger.py:93-190.  The declared partials are [method="cs"] for all pairs. *)
Definition osf_outs : list (string * (kind * (nenv -> R))) :=
  let tf e : R := e "fin_thickness" in let tp e : R := e "plate_thickness" in let tc e : R := e "case_thickness" in
  let nt e : R := e "n_tall" in let nw e : R := e "n_wide_cold" in let nl e : R := e "n_long_cold" in
  let wc e : R := e "channel_width_cold" in let hc e : R := e "channel_height_cold" in let lc e : R := e "fin_length_cold" in
  let wh e : R := e "channel_width_hot" in let hh e : R := e "channel_height_hot" in let lh e : R := e "fin_length_hot" in
  let height e := (2 * (tf e + tp e) + hc e + hh e) * nt e in
  let width e := (tf e + wc e) * nw e in
  let length e := lc e * nl e in
  let frontal e := width e * height e in
  let xs_c e := wc e * hc e * nw e * nt e in
  let nw_h e := length e / (wh e + tf e) in
  let nl_h e := width e / lh e in
  let xs_h e := wh e * hh e * nw_h e * nt e in
  let plate e := length e * width e * 2 * tp e * nt e in
  let fin e := (wc e + hc e + tf e) * lc e * nl e * tf e * nw e * nt e
             + (wh e + hh e + tf e) * lh e * nl_h e * tf e * nw_h e * nt e in
  let case e := tc e * length e * 2 * (height e + width e) in
  [("component_weight", (Sca, fun e => (plate e + fin e + case e) * e "material_rho"));
   ("length_overall", (Sca, length)); ("height_overall", (Sca, height)); ("width_overall", (Sca, width));
   ("frontal_area", (Sca, frontal));
   ("xs_area_cold", (Sca, xs_c));
   ("heat_transfer_area_cold", (Sca, fun e => 2 * (wc e + hc e) * lc e * nl e * nw e * nt e));
   ("dh_cold", (Sca, fun e => 4 * wc e * hc e * lc e / (2 * (wc e * lc e + hc e * lc e + tf e * hc e) + tf e * wc e)));
   ("fin_area_ratio_cold", (Sca, fun e => hc e / (hc e + wc e)));
   ("contraction_ratio_cold", (Sca, fun e => xs_c e / frontal e));
   ("alpha_cold", (Sca, fun e => wc e / hc e)); ("delta_cold", (Sca, fun e => tf e / lc e)); ("gamma_cold", (Sca, fun e => tf e / wc e));
   ("xs_area_hot", (Sca, xs_h));
   ("heat_transfer_area_hot", (Sca, fun e => 2 * (wh e + hh e) * lh e * nl_h e * nw_h e * nt e));
   ("dh_hot", (Sca, fun e => 2 * wh e * hh e / (wh e + hh e)));
   ("fin_area_ratio_hot", (Sca, fun e => hh e / (hh e + wh e)));
   ("contraction_ratio_hot", (Sca, fun e => xs_h e / height e / length e));
   ("alpha_hot", (Sca, fun e => wh e / hh e)); ("delta_hot", (Sca, fun e => tf e / lh e)); ("gamma_hot", (Sca, fun e => tf e / wh e))].
Definition osf_ins : list (string * kind) :=
  [("channel_width_hot", Sca); ("channel_height_hot", Sca); ("fin_length_hot", Sca);
   ("channel_width_cold", Sca); ("channel_height_cold", Sca); ("fin_length_cold", Sca);
   ("fin_thickness", Sca); ("plate_thickness", Sca); ("case_thickness", Sca);
   ("n_wide_cold", Sca); ("n_long_cold", Sca); ("n_tall", Sca); ("material_rho", Sca)].
Definition OffsetStripFinGeometry : pcomp :=
  {| pc_ins := osf_ins; pc_outs := osf_outs; pc_J := cs_partials osf_ins osf_outs |}.

(** heat_exchanger.py:261-291 *)
Definition j1 (a d g : R) : R := Rpower a (-1541/10000) * Rpower d (1499/10000) * Rpower g (-678/10000).
Definition j2 (a d g : R) : R := Rpower a (504/1000) * Rpower d (456/1000) * Rpower g (-1055/1000).
Definition f1 (a d g : R) : R := Rpower a (-1856/10000) * Rpower d (3053/10000) * Rpower g (-2659/10000).
Definition f2 (a d g : R) : R := Rpower a (92/100) * Rpower d (3767/1000) * Rpower g (236/1000).
Definition osf_j (Re a d g : R) : R :=
  6522/10000 * Rpower Re (-5403/10000) * j1 a d g * Rpower (1 + 5269/100000000 * Rpower Re (134/100) * j2 a d g) (1/10).
Definition osf_f (Re a d g : R) : R :=
  96243/10000 * Rpower Re (-7422/10000) * f1 a d g * Rpower (1 + 7669/100000000000 * Rpower Re (4429/1000) * f2 a d g) (1/10).
(** heat_exchanger.py:293-365 *)
Definition osf_j_Re (Re a d g : R) : R :=
  6522/10000 * (-5403/10000) * Rpower Re (-15403/10000) * j1 a d g * Rpower (1 + 5269/100000000 * Rpower Re (134/100) * j2 a d g) (1/10)
  + 6522/10000 * Rpower Re (-5403/10000) * j1 a d g * (1/10) * Rpower (1 + 5269/100000000 * Rpower Re (134/100) * j2 a d g) (-9/10)
    * (5269/100000000) * (134/100) * Rpower Re (34/100) * j2 a d g.
Definition osf_f_Re (Re a d g : R) : R :=
  96243/10000 * (-7422/10000) * Rpower Re (-17422/10000) * f1 a d g * Rpower (1 + 7669/100000000000 * Rpower Re (4429/1000) * f2 a d g) (1/10)
  + 96243/10000 * Rpower Re (-7422/10000) * f1 a d g * (1/10) * Rpower (1 + 7669/100000000000 * Rpower Re (4429/1000) * f2 a d g) (-9/10)
    * (7669/100000000000) * (4429/1000) * Rpower Re (3429/1000) * f2 a d g.
(** heat_exchanger.py:240-365 *)
Definition OffsetStripFinData : pcomp :=
  let c (F : R -> R -> R -> R -> R) (e : nenv) := F (e "Re_dh_cold") (e "alpha_cold") (e "delta_cold") (e "gamma_cold") in
  let h (F : R -> R -> R -> R -> R) (e : nenv) := F (e "Re_dh_hot") (e "alpha_hot") (e "delta_hot") (e "gamma_hot") in {|
  pc_ins := [("Re_dh_cold", Vec); ("alpha_cold", Sca); ("delta_cold", Sca); ("gamma_cold", Sca);
             ("Re_dh_hot", Vec); ("alpha_hot", Sca); ("delta_hot", Sca); ("gamma_hot", Sca)];
  pc_outs := [("j_cold", (Vec, c osf_j)); ("f_cold", (Vec, c osf_f)); ("j_hot", (Vec, h osf_j)); ("f_hot", (Vec, h osf_f))];
  pc_J :=
    [("j_cold", "alpha_cold", cs (c osf_j) "alpha_cold"); ("j_cold", "delta_cold", cs (c osf_j) "delta_cold");
     ("j_cold", "gamma_cold", cs (c osf_j) "gamma_cold");
     ("f_cold", "alpha_cold", cs (c osf_f) "alpha_cold"); ("f_cold", "delta_cold", cs (c osf_f) "delta_cold");
     ("f_cold", "gamma_cold", cs (c osf_f) "gamma_cold");
     ("j_hot", "alpha_hot", cs (h osf_j) "alpha_hot"); ("j_hot", "delta_hot", cs (h osf_j) "delta_hot");
     ("j_hot", "gamma_hot", cs (h osf_j) "gamma_hot");
     ("f_hot", "alpha_hot", cs (h osf_f) "alpha_hot"); ("f_hot", "delta_hot", cs (h osf_f) "delta_hot");
     ("f_hot", "gamma_hot", cs (h osf_f) "gamma_hot");
     ("j_cold", "Re_dh_cold", c osf_j_Re); ("f_cold", "Re_dh_cold", c osf_f_Re);
     ("j_hot", "Re_dh_hot", h osf_j_Re); ("f_hot", "Re_dh_hot", h osf_f_Re)]
|}.

(** heat_exchanger.py:407-452 *)
Definition HydraulicDiameterReynoldsNumber : pcomp :=
  let m e : R := e "mdot_cold" in let mu e : R := e "mu_cold" in let A e : R := e "xs_area_cold" in let d e : R := e "dh_cold" in
  let m' e : R := e "mdot_hot" in let mu' e : R := e "mu_hot" in let A' e : R := e "xs_area_hot" in let d' e : R := e "dh_hot" in {|
  pc_ins := [("mdot_cold", Vec); ("mu_cold", Sca); ("xs_area_cold", Sca); ("dh_cold", Sca);
             ("mdot_hot", Vec); ("mu_hot", Sca); ("xs_area_hot", Sca); ("dh_hot", Sca)];
  pc_outs := [("Re_dh_cold", (Vec, fun e => m e * d e / A e / mu e)); ("Re_dh_hot", (Vec, fun e => m' e * d' e / A' e / mu' e))];
  pc_J :=
    [("Re_dh_cold", "mdot_cold", fun e => d e / A e / mu e * 1); ("Re_dh_cold", "dh_cold", fun e => m e / A e / mu e);
     ("Re_dh_cold", "xs_area_cold", fun e => - m e * d e / A e ^ 2 / mu e);
     ("Re_dh_cold", "mu_cold", fun e => - m e * d e / A e / mu e ^ 2);
     ("Re_dh_hot", "mdot_hot", fun e => d' e / A' e / mu' e * 1); ("Re_dh_hot", "dh_hot", fun e => m' e / A' e / mu' e);
     ("Re_dh_hot", "xs_area_hot", fun e => - m' e * d' e / A' e ^ 2 / mu' e);
     ("Re_dh_hot", "mu_hot", fun e => - m' e * d' e / A' e / mu' e ^ 2)]
|}.

(** heat_exchanger.py:498-622 *)
Definition NusseltFromColburnJ : pcomp :=
  let Re e : R := e "Re_dh_cold" in let j e : R := e "j_cold" in let k e : R := e "k_cold" in
  let mu e : R := e "mu_cold" in let cp e : R := e "cp_cold" in
  let Re' e : R := e "Re_dh_hot" in let j' e : R := e "j_hot" in let k' e : R := e "k_hot" in
  let mu' e : R := e "mu_hot" in let cp' e : R := e "cp_hot" in
  let t x := Rpower x (1/3) in let mt x := Rpower x (-2/3) in {|
  pc_ins := [("Re_dh_cold", Vec); ("j_cold", Vec); ("k_cold", Sca); ("mu_cold", Sca); ("cp_cold", Sca);
             ("Re_dh_hot", Vec); ("j_hot", Vec); ("k_hot", Sca); ("mu_hot", Sca); ("cp_hot", Sca)];
  pc_outs := [("Nu_dh_cold", (Vec, fun e => j e * Re e * t (mu e) * t (cp e) / t (k e)));
              ("Nu_dh_hot", (Vec, fun e => j' e * Re' e * t (mu' e) * t (cp' e) / t (k' e)))];
  pc_J :=
    [("Nu_dh_cold", "mu_cold", fun e => 1 / 3 * (j e * Re e * mt (mu e) * t (cp e) / t (k e)));
     ("Nu_dh_cold", "cp_cold", fun e => 1 / 3 * (j e * Re e * t (mu e) * mt (cp e) / t (k e)));
     ("Nu_dh_cold", "k_cold", fun e => - (1) / 3 * (j e * Re e * t (mu e) * t (cp e) / Rpower (k e) (4/3)));
     ("Nu_dh_cold", "j_cold", fun e => Re e * t (mu e) * t (cp e) / t (k e));
     ("Nu_dh_cold", "Re_dh_cold", fun e => j e * t (mu e) * t (cp e) / t (k e));
     ("Nu_dh_hot", "mu_hot", fun e => 1 / 3 * (j' e * Re' e * mt (mu' e) * t (cp' e) / t (k' e)));
     ("Nu_dh_hot", "cp_hot", fun e => 1 / 3 * (j' e * Re' e * t (mu' e) * mt (cp' e) / t (k' e)));
     ("Nu_dh_hot", "k_hot", fun e => - (1) / 3 * (j' e * Re' e * t (mu' e) * t (cp' e) / Rpower (k' e) (4/3)));
     ("Nu_dh_hot", "j_hot", fun e => Re' e * t (mu' e) * t (cp' e) / t (k' e));
     ("Nu_dh_hot", "Re_dh_hot", fun e => j' e * t (mu' e) * t (cp' e) / t (k' e))]
|}.

(** heat_exchanger.py:660-693, without the check of the cold side coefficients. *)
Definition ConvectiveCoefficient : pcomp :=
  let Nu e : R := e "Nu_dh_cold" in let d e : R := e "dh_cold" in let k e : R := e "k_cold" in
  let Nu' e : R := e "Nu_dh_hot" in let d' e : R := e "dh_hot" in let k' e : R := e "k_hot" in {|
  pc_ins := [("Nu_dh_cold", Vec); ("dh_cold", Sca); ("k_cold", Sca); ("Nu_dh_hot", Vec); ("dh_hot", Sca); ("k_hot", Sca)];
  pc_outs := [("h_conv_cold", (Vec, fun e => Nu e * k e / d e)); ("h_conv_hot", (Vec, fun e => Nu' e * k' e / d' e))];
  pc_J :=
    [("h_conv_cold", "Nu_dh_cold", fun e => k e / d e); ("h_conv_cold", "k_cold", fun e => Nu e / d e);
     ("h_conv_cold", "dh_cold", fun e => - Nu e * k e / d e ^ 2);
     ("h_conv_hot", "Nu_dh_hot", fun e => k' e / d' e); ("h_conv_hot", "k_hot", fun e => Nu' e / d' e);
     ("h_conv_hot", "dh_hot", fun e => - Nu' e * k' e / d' e ^ 2)]
|}.

(** heat_exchanger.py:769-789: efficiency of a fin of length [l], overall efficiency. *)
Definition fin_m (h k t : R) : R := sqrt (2 * h / k / t).
Definition eta_fin (m l : R) : R := 2 * tanh (m * l / 2) / m / l.
Definition eta_overall (h k t l afa : R) : R := 1 - afa * (1 - eta_fin (fin_m h k t) l).
(** heat_exchanger.py:799-815: partials of m and of the fin efficiency. *)
Definition m_h (h k t : R) : R := Rpower (2 * h * t * k) (- (1) / 2).
Definition m_t (h k t : R) : R := - Rpower (h / t ^ 3 / k / 2) (1 / 2).
Definition m_k (h k t : R) : R := - Rpower (h / k ^ 3 / t / 2) (1 / 2).
Definition eta_m (m l : R) : R := (m * l * / (cosh (m * l / 2) ^ 2) - 2 * tanh (m * l / 2)) / (m * l) / m.
Definition eta_l (m l : R) : R := (m * l * / (cosh (m * l / 2) ^ 2) - 2 * tanh (m * l / 2)) / (m * l) / l.
(** heat_exchanger.py:740-839, without the check of the cold side coefficients. *)
Definition FinEfficiency : pcomp :=
  let k e : R := e "material_k" in let t e : R := e "fin_thickness" in
  let l e : R := e "channel_height_cold" in let h e : R := e "h_conv_cold" in let a e : R := e "fin_area_ratio_cold" in
  let l' e : R := e "channel_height_hot" in let h' e : R := e "h_conv_hot" in let a' e : R := e "fin_area_ratio_hot" in
  let m e := fin_m (h e) (k e) (t e) in let m' e := fin_m (h' e) (k e) (t e) in {|
  pc_ins := [("h_conv_cold", Vec); ("fin_area_ratio_cold", Sca); ("channel_height_cold", Sca);
             ("h_conv_hot", Vec); ("fin_area_ratio_hot", Sca); ("channel_height_hot", Sca);
             ("fin_thickness", Sca); ("material_k", Sca)];
  pc_outs := [("eta_overall_cold", (Vec, fun e => eta_overall (h e) (k e) (t e) (l e) (a e)));
              ("eta_overall_hot", (Vec, fun e => eta_overall (h' e) (k e) (t e) (l' e) (a' e)))];
  pc_J :=
    [("eta_overall_cold", "fin_area_ratio_cold", fun e => eta_fin (m e) (l e) - 1);
     ("eta_overall_cold", "channel_height_cold", fun e => a e * eta_l (m e) (l e));
     ("eta_overall_cold", "fin_thickness", fun e => a e * eta_m (m e) (l e) * m_t (h e) (k e) (t e));
     ("eta_overall_cold", "material_k", fun e => a e * eta_m (m e) (l e) * m_k (h e) (k e) (t e));
     ("eta_overall_cold", "h_conv_cold", fun e => a e * eta_m (m e) (l e) * m_h (h e) (k e) (t e));
     ("eta_overall_hot", "fin_area_ratio_hot", fun e => eta_fin (m' e) (l' e) - 1);
     ("eta_overall_hot", "channel_height_hot", fun e => a' e * eta_l (m' e) (l' e));
     ("eta_overall_hot", "fin_thickness", fun e => a' e * eta_m (m' e) (l' e) * m_t (h' e) (k e) (t e));
     ("eta_overall_hot", "material_k", fun e => a' e * eta_m (m' e) (l' e) * m_k (h' e) (k e) (t e));
     ("eta_overall_hot", "h_conv_hot", fun e => a' e * eta_m (m' e) (l' e) * m_h (h' e) (k e) (t e))]
|}.

(** heat_exchanger.py:882-943; [Rfc] is assigned twice, so the cold side's fouling
    resistance is overwritten by the hot side's. *)
Definition UAOverall (foul_cold foul_hot : R) : pcomp :=
  let h e : R := e "h_conv_cold" in let A e : R := e "heat_transfer_area_cold" in let n e : R := e "eta_overall_cold" in
  let h' e : R := e "h_conv_hot" in let A' e : R := e "heat_transfer_area_hot" in let n' e : R := e "eta_overall_hot" in
  let Rc e := 1 / h e / A e / n e in
  let Rh e := 1 / h' e / A' e / n' e in
  let Rfc e := foul_hot / A' e / n' e in
  let S e := Rc e + Rfc e + Rh e + Rfc e in
  let Rc_h e := - (1) / h e ^ 2 / A e / n e in let Rc_A e := - (1) / h e / A e ^ 2 / n e in
  let Rc_n e := - (1) / h e / A e / n e ^ 2 in
  let Rfc_A e := - foul_cold / A e ^ 2 / n e in let Rfc_n e := - foul_cold / A e / n e ^ 2 in
  let Rh_h e := - (1) / h' e ^ 2 / A' e / n' e in let Rh_A e := - (1) / h' e / A' e ^ 2 / n' e in
  let Rh_n e := - (1) / h' e / A' e / n' e ^ 2 in
  let Rfh_A e := - foul_hot / A' e ^ 2 / n' e in let Rfh_n e := - foul_hot / A' e / n' e ^ 2 in {|
  pc_ins := [("h_conv_cold", Vec); ("heat_transfer_area_cold", Sca); ("eta_overall_cold", Vec);
             ("h_conv_hot", Vec); ("heat_transfer_area_hot", Sca); ("eta_overall_hot", Vec)];
  pc_outs := [("UA_overall", (Vec, fun e => 1 / S e))];
  pc_J :=
    [("UA_overall", "h_conv_cold", fun e => - (1) / S e ^ 2 * Rc_h e);
     ("UA_overall", "heat_transfer_area_cold", fun e => - (1) / S e ^ 2 * (Rc_A e + Rfc_A e));
     ("UA_overall", "eta_overall_cold", fun e => - (1) / S e ^ 2 * (Rc_n e + Rfc_n e));
     ("UA_overall", "h_conv_hot", fun e => - (1) / S e ^ 2 * Rh_h e);
     ("UA_overall", "heat_transfer_area_hot", fun e => - (1) / S e ^ 2 * (Rh_A e + Rfh_A e));
     ("UA_overall", "eta_overall_hot", fun e => - (1) / S e ^ 2 * (Rh_n e + Rfh_n e))]
|}.

(** heat_exchanger.py:986-1054 *)
Definition NTUMethod : pcomp :=
  let U e : R := e "UA_overall" in let mc e : R := e "mdot_cold" in let Tc e : R := e "T_in_cold" in let cc e : R := e "cp_cold" in
  let mh e : R := e "mdot_hot" in let Th e : R := e "T_in_hot" in let ch e : R := e "cp_hot" in
  let Cc e := mc e * cc e in let Ch e := mh e * ch e in
  let pick (e : nenv) (a b : R) : R := if Rlt_dec (Cc e) (Ch e) then a else b in
  let Cmin e := pick e (Cc e) (Ch e) in let Cmax e := pick e (Ch e) (Cc e) in
  let Cmin_mc e := pick e (cc e) 0 in let Cmin_cc e := pick e (mc e) 0 in
  let Cmin_mh e := pick e 0 (ch e) in let Cmin_ch e := pick e 0 (mh e) in
  let Cmax_mc e := pick e 0 (cc e) in let Cmax_cc e := pick e 0 (mc e) in
  let Cmax_mh e := pick e (ch e) 0 in let Cmax_ch e := pick e (mh e) 0 in {|
  pc_ins := [("UA_overall", Vec); ("mdot_cold", Vec); ("T_in_cold", Vec); ("cp_cold", Sca);
             ("mdot_hot", Vec); ("T_in_hot", Vec); ("cp_hot", Sca)];
  pc_outs := [("NTU", (Vec, fun e => U e / Cmin e)); ("heat_max", (Vec, fun e => (Th e - Tc e) * Cmin e));
              ("C_ratio", (Vec, fun e => Cmin e / Cmax e))];
  pc_J :=
    [("NTU", "UA_overall", fun e => 1 / Cmin e);
     ("NTU", "mdot_cold", fun e => - U e / Cmin e ^ 2 * Cmin_mc e); ("NTU", "cp_cold", fun e => - U e / Cmin e ^ 2 * Cmin_cc e);
     ("NTU", "mdot_hot", fun e => - U e / Cmin e ^ 2 * Cmin_mh e); ("NTU", "cp_hot", fun e => - U e / Cmin e ^ 2 * Cmin_ch e);
     ("heat_max", "T_in_cold", fun e => - Cmin e); ("heat_max", "T_in_hot", Cmin);
     ("heat_max", "mdot_cold", fun e => (Th e - Tc e) * Cmin_mc e); ("heat_max", "cp_cold", fun e => (Th e - Tc e) * Cmin_cc e);
     ("heat_max", "mdot_hot", fun e => (Th e - Tc e) * Cmin_mh e); ("heat_max", "cp_hot", fun e => (Th e - Tc e) * Cmin_ch e);
     ("C_ratio", "mdot_cold", fun e => (Cmin_mc e * Cmax e - Cmax_mc e * Cmin e) / Cmax e ^ 2);
     ("C_ratio", "cp_cold", fun e => (Cmin_cc e * Cmax e - Cmax_cc e * Cmin e) / Cmax e ^ 2);
     ("C_ratio", "mdot_hot", fun e => (Cmin_mh e * Cmax e - Cmax_mh e * Cmin e) / Cmax e ^ 2);
     ("C_ratio", "cp_hot", fun e => (Cmin_ch e * Cmax e - Cmax_ch e * Cmin e) / Cmax e ^ 2)]
|}.

(** heat_exchanger.py:1083-1106 *)
Definition eff_cross (ntu Cr : R) : R :=
  1 - exp (Rpower ntu (22/100) / Cr * (exp (- Cr * Rpower ntu (78/100)) - 1)).
Definition CrossFlowNTUEffectiveness : pcomp :=
  let Cr e : R := e "C_ratio" in let N e : R := e "NTU" in
  let p22 e := Rpower (N e) (22/100) in let p78 e := Rpower (N e) (78/100) in
  let X e := exp (- Cr e * p78 e) in {|
  pc_ins := [("NTU", Vec); ("C_ratio", Vec)];
  pc_outs := [("effectiveness", (Vec, fun e => eff_cross (N e) (Cr e)))];
  pc_J :=
    [("effectiveness", "C_ratio", fun e =>
        - exp (p22 e * (X e - 1) / Cr e) * (- (p22 e * (X e - 1)) / Cr e ^ 2 - N e * X e / Cr e));
     ("effectiveness", "NTU", fun e =>
        (39 * Cr e * p78 e * exp (p22 e * (X e - 1) / Cr e - Cr e * p78 e) - 11 * exp (p22 e * (X e - 1) / Cr e) * (X e - 1))
        / (50 * Cr e * p78 e))]
|}.

(** heat_exchanger.py:1135-1149 *)
Definition NTUEffectivenessActualHeatTransfer : pcomp := {|
  pc_ins := [("effectiveness", Vec); ("heat_max", Vec)];
  pc_outs := [("heat_transfer", (Vec, fun e => e "effectiveness" * e "heat_max"))];
  pc_J := [("heat_transfer", "effectiveness", fun e => e "heat_max"); ("heat_transfer", "heat_max", fun e => e "effectiveness")]
|}.

(** heat_exchanger.py:1190-1221 *)
Definition OutletTemperatures : pcomp :=
  let q e : R := e "heat_transfer" in let mc e : R := e "mdot_cold" in let cc e : R := e "cp_cold" in
  let mh e : R := e "mdot_hot" in let ch e : R := e "cp_hot" in {|
  pc_ins := [("heat_transfer", Vec); ("mdot_cold", Vec); ("T_in_cold", Vec); ("cp_cold", Sca);
             ("mdot_hot", Vec); ("T_in_hot", Vec); ("cp_hot", Sca)];
  pc_outs := [("T_out_cold", (Vec, fun e => e "T_in_cold" + q e / mc e / cc e));
              ("T_out_hot", (Vec, fun e => e "T_in_hot" - q e / mh e / ch e))];
  pc_J :=
    [("T_out_cold", "T_in_cold", fun _ => 1); ("T_out_hot", "T_in_hot", fun _ => 1);
     ("T_out_cold", "heat_transfer", fun e => 1 / mc e / cc e);
     ("T_out_cold", "mdot_cold", fun e => - q e / mc e ^ 2 / cc e);
     ("T_out_cold", "cp_cold", fun e => - q e / mc e / cc e ^ 2);
     ("T_out_hot", "heat_transfer", fun e => - (1) / mh e / ch e);
     ("T_out_hot", "mdot_hot", fun e => q e / mh e ^ 2 / ch e);
     ("T_out_hot", "cp_hot", fun e => q e / mh e / ch e ^ 2)]
|}.

(** heat_exchanger.py:1285-1366; options: contraction and expansion coefficients. *)
Definition PressureDrop (Kcc Kec Kch Keh : R) : pcomp :=
  let L e : R := e "length_overall" in let W e : R := e "width_overall" in
  let f e : R := e "f_cold" in let m e : R := e "mdot_cold" in let r e : R := e "rho_cold" in
  let d e : R := e "dh_cold" in let A e : R := e "xs_area_cold" in
  let f' e : R := e "f_hot" in let m' e : R := e "mdot_hot" in let r' e : R := e "rho_hot" in
  let d' e : R := e "dh_hot" in let A' e : R := e "xs_area_hot" in
  let q e := 1 / 2 * (m e / A e) ^ 2 / r e in let q' e := 1 / 2 * (m' e / A' e) ^ 2 / r' e in
  let loss e := - Kec - Kcc - 4 * L e * f e / d e in let loss' e := - Keh - Kch - 4 * W e * f' e / d' e in {|
  pc_ins := [("length_overall", Sca); ("width_overall", Sca); ("f_cold", Vec); ("mdot_cold", Vec); ("rho_cold", Vec);
             ("dh_cold", Sca); ("xs_area_cold", Sca); ("f_hot", Vec); ("mdot_hot", Vec); ("rho_hot", Vec);
             ("dh_hot", Sca); ("xs_area_hot", Sca)];
  pc_outs := [("delta_p_cold", (Vec, fun e => q e * loss e)); ("delta_p_hot", (Vec, fun e => q' e * loss' e))];
  pc_J :=
    [("delta_p_cold", "mdot_cold", fun e => m e / A e ^ 2 / r e * loss e);
     ("delta_p_cold", "rho_cold", fun e => - q e / r e * loss e);
     ("delta_p_cold", "f_cold", fun e => q e * (- 4 * L e / d e));
     ("delta_p_cold", "xs_area_cold", fun e => - 2 * q e / A e * loss e);
     ("delta_p_cold", "length_overall", fun e => q e * (- 4 * f e / d e));
     ("delta_p_cold", "dh_cold", fun e => q e * (4 * L e * f e / d e ^ 2));
     ("delta_p_hot", "mdot_hot", fun e => m' e / A' e ^ 2 / r' e * loss' e);
     ("delta_p_hot", "rho_hot", fun e => - q' e / r' e * loss' e);
     ("delta_p_hot", "f_hot", fun e => q' e * (- 4 * W e / d' e));
     ("delta_p_hot", "xs_area_hot", fun e => - 2 * q' e / A' e * loss' e);
     ("delta_p_hot", "width_overall", fun e => q' e * (- 4 * f' e / d' e));
     ("delta_p_hot", "dh_hot", fun e => q' e * (4 * W e * f' e / d' e ^ 2))]
|}.

(** heat_exchanger.py:266-267, 680-683, 777-780: compute of the three components that
    check their cold side values over all nodes and raise AnalysisError. *)
Definition nonpos (nn : nat) (v : nat -> R) : bool := anyb nn (fun i => if Rle_dec (v i) 0 then true else false).
Definition osfdata_run (nn : nat) (E : env) : res env :=
  if nonpos nn (E "Re_dh_cold") then Err AnalysisError else Ok (vcompute OffsetStripFinData E).
Definition convection_run (nn : nat) (E : env) : res env :=
  if nonpos nn (vcompute ConvectiveCoefficient E "h_conv_cold") then Err AnalysisError else Ok (vcompute ConvectiveCoefficient E).
Definition fin_run (nn : nat) (E : env) : res env :=
  if nonpos nn (E "h_conv_cold") then Err AnalysisError else Ok (vcompute FinEfficiency E).

(** A component whose [compute] may raise: converged means it did not. *)
Definition checked (nn : nat) (name : string) (C : pcomp) (run : nat -> env -> res env) (pin pout : list promo) : gsub := {|
  gs_name := name; gs_ins := map fst (pc_ins C); gs_outs := map fst (pc_outs C);
  gs_rel := fun I O => exists F, run nn I = Ok F /\
    forall o k f i, assoc o (pc_outs C) = Some (k, f) -> (i < size nn k)%nat -> O o i = F o i;
  gs_pin := pin; gs_pout := pout |}.

(** dvlabel.py: a component that copies inputs to outputs, see Model_Vectors. *)
Definition relabel (name : string) (l : list (string * string)) (pin pout : list promo) : gsub := {|
  gs_name := name; gs_ins := map fst l; gs_outs := map snd l;
  gs_rel := fun I O => forall a b, In (a, b) l -> forall i, O b i = I a i;
  gs_pin := pin; gs_pout := pout |}.

(** heat_exchanger.py:1393-1455 *)
Definition HXGroup (nn : nat) : group := {|
  g_subs :=
    [relabel "dvpassthru" [("ac|propulsion|thermal|hx|n_wide_cold", "n_wide_cold"); ("ac|propulsion|thermal|hx|n_long_cold", "n_long_cold");
                           ("ac|propulsion|thermal|hx|n_tall", "n_tall")] [P "*"] [P "*"];
     comp nn "osfgeometry" OffsetStripFinGeometry [P "*"] [P "*"];
     comp nn "redh" HydraulicDiameterReynoldsNumber [P "*"] [P "*"];
     checked nn "osfdata" OffsetStripFinData osfdata_run [P "*"] [P "*"];
     comp nn "nusselt" NusseltFromColburnJ [P "*"] [P "*"];
     checked nn "convection" ConvectiveCoefficient convection_run [P "*"] [P "*"];
     checked nn "finefficiency" FinEfficiency fin_run [P "*"] [P "*"];
     comp nn "ua" (UAOverall 0 0) [P "*"] [P "*"];
     comp nn "ntu" NTUMethod [P "*"] [P "*"];
     comp nn "effectiveness" CrossFlowNTUEffectiveness [P "*"] [P "*"];
     comp nn "heat" NTUEffectivenessActualHeatTransfer [P "*"] [P "*"];
     comp nn "t_out" OutletTemperatures [P "*"] [P "*"];
     comp nn "delta_p" (PressureDrop (3/10) (-1/10) (3/10) (-1/10)) [P "*"] [P "*"]];
  g_conns := []
|}.
