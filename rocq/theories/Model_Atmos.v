(** Model of openconcept/atmospherics/.

    Simplifications: exact reals; overflow is not modelled.  A NaN is [None]. *)
From Coq Require Import Reals List Bool PeanoNat String.
From Verif Require Import Base Py.
Import ListNotations.
Open Scope R_scope.

(** numpy [x ** y] for a float array and a non-integer y > 0: NaN for x < 0. *)
Definition fpow (x y : R) : option R :=
  if Rlt_dec x 0 then None else if Req_EM_T x 0 then Some 0 else Some (Rpower x y).

(** ** atmospherics_data.py *)

(** atmospherics_data.py:12-15 *)
Definition eps_trop : R := 500.
Definition h_trans : R := 11000.
Definition h_lower : R := h_trans - eps_trop.
Definition h_upper : R := h_trans + eps_trop.

(** atmospherics_data.py:16-23 and 36, 47: [np.linalg.solve(tropopause_matrix, rhs)];
    the contract of [solve] is that the returned coefficients satisfy the four equations. *)
Record coeffs := { c3 : R; c2 : R; c1 : R; c0 : R }.
Definition solves (k : coeffs) (r0 r1 r2 r3 : R) : Prop :=
  h_lower ^ 3 * c3 k + h_lower ^ 2 * c2 k + h_lower * c1 k + 1 * c0 k = r0 /\
  h_upper ^ 3 * c3 k + h_upper ^ 2 * c2 k + h_upper * c1 k + 1 * c0 k = r1 /\
  3 * h_lower ^ 2 * c3 k + 2 * h_lower * c2 k + 1 * c1 k + 0 * c0 k = r2 /\
  3 * h_upper ^ 2 * c3 k + 2 * h_upper * c2 k + 1 * c1 k + 0 * c0 k = r3.

(** atmospherics_data.py:26-36.  ([tmp1 = 0.763...] is positive, so [**] is [Rpower].) *)
Definition tmp1 : R := 1 - 65/10000 * h_lower / (28816/100).
Definition tmp2 : R := exp (- (981/100) * eps_trop / (288 * (21665/100))).
Definition pressure_coeffs (k : coeffs) : Prop :=
  solves k (101325 * Rpower tmp1 (52561/10000))
           (22632 * tmp2)
           (- (101325) * (52561/10000) * (65/10000 / (28816/100)) * Rpower tmp1 (42561/10000))
           (22632 * (- (981/100) / (288 * (21665/100))) * tmp2).
(** atmospherics_data.py:39-47 *)
Definition temp_coeffs (k : coeffs) : Prop :=
  solves k (28816/100 - 65/10000 * h_lower) (21665/100) (- (65/10000)) 0.

(** atmospherics_data.py:51-55, one node: (tropos, strato, smooth). *)
Record masks := { m_tropos : bool; m_strato : bool; m_smooth : bool }.
Definition get_masks (h : R) : masks :=
  let t := if Rle_dec h h_lower then true else false in
  let s := if Rgt_dec h h_upper then true else false in
  {| m_tropos := t; m_strato := s; m_smooth := negb t && negb s |}.
Definition b2r (b : bool) : R := if b then 1 else 0.

Definition cubic (k : coeffs) (h : R) : R := c3 k * h ^ 3 + c2 k * h ^ 2 + c1 k * h + c0 k.
Definition cubic' (k : coeffs) (h : R) : R := 3 * c3 k * h ^ 2 + 2 * c2 k * h + c1 k.

(** atmospherics_data.py:58-66: a NaN under a false mask still propagates ([False * nan] is nan). *)
Definition compute_pressure (k : coeffs) (h : R) (m : masks) : option R :=
  match fpow (1 - 65/10000 * h / (28816/100)) (52561/10000) with
  | None => None
  | Some v => Some (0 + b2r (m_tropos m) * (101325 * v)
                      + b2r (m_strato m) * (22632 * exp (- (981/100) * (h - h_trans) / (288 * (21665/100))))
                      + b2r (m_smooth m) * cubic k h)
  end.
(** atmospherics_data.py:69-79 *)
Definition compute_pressure_deriv (k : coeffs) (h : R) (m : masks) : option R :=
  match fpow (1 - 65/10000 * h / (28816/100)) (42561/10000) with
  | None => None
  | Some v => Some (0 + b2r (m_tropos m) * (101325 * (52561/10000) * (- (65/10000) / (28816/100)) * v)
                      + b2r (m_strato m) * (22632 * (- (981/100) / (288 * (21665/100)))
                           * exp (981/100 * 11000 / (288 * (21665/100))) * exp (- (981/100) * h / (288 * (21665/100))))
                      + b2r (m_smooth m) * cubic' k h)
  end.
(** atmospherics_data.py:82-90 *)
Definition compute_temp (k : coeffs) (h : R) (m : masks) : R :=
  0 + b2r (m_tropos m) * (28816/100 - 65/10000 * h) + b2r (m_strato m) * (21665/100)
    + b2r (m_smooth m) * cubic k h.
(** atmospherics_data.py:93-100 *)
Definition compute_temp_deriv (k : coeffs) (h : R) (m : masks) : R :=
  0 + b2r (m_tropos m) * (- (65/10000)) + b2r (m_smooth m) * cubic' k h.

(** ** TemperatureComp, PressureComp: the masks are kept on the component *)

(** temperature_comp.py:48-61, pressure_comp.py:44-56.  The state is the masks
    stored by the last [compute], per node; [None] before the first one. *)
Definition comp_state := option (nat -> masks).
Definition temp_comp_compute (k : coeffs) (E : env) (st : comp_state) : comp_state * (nat -> R) :=
  let ms := fun i => get_masks (E "fltcond|h"%string i) in
  (Some ms, fun i => compute_temp k (E "fltcond|h"%string i) (ms i) + E "fltcond|TempIncrement"%string i).
Definition temp_comp_partials (k : coeffs) (E : env) (st : comp_state) : res (nat -> R) :=
  match st with
  | None => Err AttributeError
  | Some ms => Ok (fun i => compute_temp_deriv k (E "fltcond|h"%string i) (ms i))
  end.
Definition press_comp_compute (k : coeffs) (E : env) (st : comp_state) : comp_state * (nat -> option R) :=
  let ms := fun i => get_masks (E "fltcond|h"%string i) in
  (Some ms, fun i => compute_pressure k (E "fltcond|h"%string i) (ms i)).
Definition press_comp_partials (k : coeffs) (E : env) (st : comp_state) : res (nat -> option R) :=
  match st with
  | None => Err AttributeError
  | Some ms => Ok (fun i => compute_pressure_deriv k (E "fltcond|h"%string i) (ms i))
  end.

(** A history of calls on one component. *)
Inductive call := CCompute (E : env) | CPartials (E : env).
Definition temp_step (k : coeffs) (st : comp_state) (c : call) : comp_state :=
  match c with CCompute E => fst (temp_comp_compute k E st) | CPartials _ => st end.
Definition press_step (k : coeffs) (st : comp_state) (c : call) : comp_state :=
  match c with CCompute E => fst (press_comp_compute k E st) | CPartials _ => st end.

(** ** The remaining components (node-wise, rows = cols = arange) *)

Definition Rgas : R := 287058/1000.
Definition rho_isa : R := 1225/1000.

(** density_comp.py:37-62 *)
Definition DensityComp : pcomp := {|
  pc_ins := [("fltcond|p", Vec); ("fltcond|T", Vec)];
  pc_outs := [("fltcond|rho", (Vec, fun e => e "fltcond|p" / Rgas / e "fltcond|T"))];
  pc_J := [("fltcond|rho", "fltcond|p", fun e => 1 / Rgas / e "fltcond|T");
           ("fltcond|rho", "fltcond|T", fun e => - e "fltcond|p" / Rgas / (e "fltcond|T") ^ 2)]
|}%string.
(** speedofsound_comp.py:37-55 *)
Definition SpeedOfSoundComp : pcomp := {|
  pc_ins := [("fltcond|T", Vec)];
  pc_outs := [("fltcond|a", (Vec, fun e => sqrt (14/10 * Rgas * e "fltcond|T")))];
  pc_J := [("fltcond|a", "fltcond|T", fun e => 5/10 * sqrt (14/10 * Rgas / e "fltcond|T"))]
|}%string.
(** mach_number_comp.py:31-48 *)
Definition MachNumberComp : pcomp := {|
  pc_ins := [("fltcond|a", Vec); ("fltcond|Utrue", Vec)];
  pc_outs := [("fltcond|M", (Vec, fun e => e "fltcond|Utrue" / e "fltcond|a"))];
  pc_J := [("fltcond|M", "fltcond|Utrue", fun e => 1 / e "fltcond|a");
           ("fltcond|M", "fltcond|a", fun e => - e "fltcond|Utrue" / (e "fltcond|a") ^ 2)]
|}%string.
(** true_airspeed.py:31-51 *)
Definition TrueAirspeedComp : pcomp := {|
  pc_ins := [("fltcond|Ueas", Vec); ("fltcond|rho", Vec)];
  pc_outs := [("fltcond|Utrue", (Vec, fun e => e "fltcond|Ueas" * sqrt (rho_isa / e "fltcond|rho")))];
  pc_J := [("fltcond|Utrue", "fltcond|Ueas", fun e => sqrt (rho_isa / e "fltcond|rho"));
           ("fltcond|Utrue", "fltcond|rho", fun e =>
              e "fltcond|Ueas" * sqrt rho_isa * (-1 / 2) * Rpower (e "fltcond|rho") (-3 / 2))]
|}%string.
(** true_airspeed.py:79-99 *)
Definition EquivalentAirspeedComp : pcomp := {|
  pc_ins := [("fltcond|rho", Vec); ("fltcond|Utrue", Vec)];
  pc_outs := [("fltcond|Ueas", (Vec, fun e => e "fltcond|Utrue" * sqrt (e "fltcond|rho" / rho_isa)))];
  pc_J := [("fltcond|Ueas", "fltcond|Utrue", fun e => sqrt (e "fltcond|rho" / rho_isa));
           ("fltcond|Ueas", "fltcond|rho", fun e =>
              (1 / 2) * e "fltcond|Utrue" * Rpower (e "fltcond|rho" / rho_isa) (-1 / 2) / rho_isa)]
|}%string.
(** dynamic_pressure_comp.py:31-47 *)
Definition DynamicPressureComp : pcomp := {|
  pc_ins := [("fltcond|Utrue", Vec); ("fltcond|rho", Vec)];
  pc_outs := [("fltcond|q", (Vec, fun e => 5/10 * e "fltcond|rho" * (e "fltcond|Utrue") ^ 2))];
  pc_J := [("fltcond|q", "fltcond|rho", fun e => 5/10 * (e "fltcond|Utrue") ^ 2);
           ("fltcond|q", "fltcond|Utrue", fun e => e "fltcond|rho" * e "fltcond|Utrue")]
|}%string.

(** ** compute_atmos_props.py:53-86: the group, every variable shared by its promoted name *)
Definition put (E : env) (x : string) (v : nat -> R) : env := fun y => if String.eqb x y then v else E y.
(** One explicit subsystem of a group run in order: all its outputs are written. *)
Definition run_comp (C : pcomp) (E : env) : env :=
  fold_left (fun E' o => put E' (fst o) (vcompute C E (fst o))) (pc_outs C) E.
(** A NaN pressure is entered as 0 here: statements about [run_atmos] assume
    altitudes where the pressure is a number. *)
Definition num (x : option R) : R := match x with Some v => v | None => 0 end.
Definition run_atmos (kt kp : coeffs) (tas_in : bool) (E : env) : env :=
  let T := snd (temp_comp_compute kt E None) in
  let E1 := put E "fltcond|T" T in
  let p := snd (press_comp_compute kp E1 None) in
  let E2 := put E1 "fltcond|p" (fun i => num (p i)) in
  let E3 := run_comp DensityComp E2 in
  let E4 := run_comp SpeedOfSoundComp E3 in
  let E5 := if (tas_in : bool) then run_comp EquivalentAirspeedComp E4 else run_comp TrueAirspeedComp E4 in
  run_comp MachNumberComp (run_comp DynamicPressureComp E5).
