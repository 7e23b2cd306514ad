(** Specification vocabulary for the wing meshes. *)
From Coq Require Import Reals List.
From Verif Require Import RSum Model_Aero Model_Mesh.
Open Scope R_scope.

(** ** Geometry of a half-wing mesh of [nx] by [ny] points, tip first, symmetry plane at y = 0 *)
Definition px (m : mesh) (ix j : nat) : R := m ix j 0%nat.
Definition py (m : mesh) (ix j : nat) : R := m ix j 1%nat.
Definition pz (m : mesh) (ix j : nat) : R := m ix j 2%nat.
(** Distance from leading to trailing edge. *)
Definition chord (m : mesh) (nx j : nat) : R := px m (nx - 1) j - px m 0 j.
(** The point a quarter of the chord behind the leading edge. *)
Definition quarter (m : mesh) (nx j : nat) : R := px m 0 j + chord m nx j / 4.
(** Planform area of the whole wing: both sides, strip by strip. *)
Definition planform (m : mesh) (nx ny : nat) : R :=
  2 * rsum (ny - 1) (fun j => (py m 0 (S j) - py m 0 j) * (chord m nx j + chord m nx (S j)) / 2).
(** Every column of points lies at one spanwise position, in the plane z = 0. *)
Definition streamwise_columns (m : mesh) (nx ny : nat) : Prop :=
  forall ix j, (ix < nx)%nat -> (j < ny)%nat -> pz m ix j = 0 /\ py m ix j = py m 0 j.
(** No panel is degenerate: columns ordered inboard, points of a column ordered backwards. *)
Definition ordered_points (m : mesh) (nx ny : nat) : Prop :=
  (forall ix j, (ix < nx)%nat -> (S j < ny)%nat -> py m ix j < py m ix (S j)) /\
  (forall ix j, (S ix < nx)%nat -> (j < ny)%nat -> px m ix j < px m (S ix) j).
(** The value at [y] on the straight line from [(y0, a)] to [(y1, b)]. *)
Definition between (y0 y1 a b y : R) : R := a + (b - a) * (y - y0) / (y1 - y0).

(** ** Changing one input *)
Definition tz_get (t : trapezoid) (x : tz_input) : R :=
  match x with In_S => tz_S t | In_AR => tz_AR t | In_taper => tz_taper t | In_sweep => tz_sweep t end.
Definition tz_set (t : trapezoid) (x : tz_input) (v : R) : trapezoid :=
  match x with
  | In_S => {| tz_S := v; tz_AR := tz_AR t; tz_taper := tz_taper t; tz_sweep := tz_sweep t |}
  | In_AR => {| tz_S := tz_S t; tz_AR := v; tz_taper := tz_taper t; tz_sweep := tz_sweep t |}
  | In_taper => {| tz_S := tz_S t; tz_AR := tz_AR t; tz_taper := v; tz_sweep := tz_sweep t |}
  | In_sweep => {| tz_S := tz_S t; tz_AR := tz_AR t; tz_taper := tz_taper t; tz_sweep := v |}
  end.
Definition set_at (a : nat -> R) (c : nat) (v : R) (k : nat) : R := if Nat.eqb k c then v else a k.
(** Inputs of the section mesh: number of entries, entry [c], and the inputs with that entry replaced. *)
Definition sec_size (n_sec : nat) (x : sec_input) : nat :=
  match x with In_x | In_c => n_sec | In_y => n_sec - 1 | In_area => 1 end.
Definition sec_get (s : sections) (A : option R) (x : sec_input) (c : nat) : R :=
  match x with In_x => sec_x s c | In_y => sec_y s c | In_c => sec_c s c | In_area => match A with Some v => v | None => 0 end end.
Definition sec_set (s : sections) (x : sec_input) (c : nat) (v : R) : sections :=
  match x with
  | In_x => {| sec_n := sec_n s; sec_x := set_at (sec_x s) c v; sec_y := sec_y s; sec_c := sec_c s |}
  | In_y => {| sec_n := sec_n s; sec_x := sec_x s; sec_y := set_at (sec_y s) c v; sec_c := sec_c s |}
  | In_c => {| sec_n := sec_n s; sec_x := sec_x s; sec_y := sec_y s; sec_c := set_at (sec_c s) c v |}
  | In_area => s
  end.
Definition area_set (A : option R) (x : sec_input) (v : R) : option R :=
  match x, A with In_area, Some _ => Some v | _, _ => A end.

(** ** Regions between sections *)
(** [l] lists the panels of each region; region [i] lies between sections [i] and [i + 1]. *)
Definition regions_ok (s : sections) (l : list nat) : Prop :=
  (2 <= sec_n s)%nat /\ length l = (sec_n s - 1)%nat /\ List.Forall (fun n => (1 <= n)%nat) l.
(** Column of the mesh at which section [i] lies. *)
Definition column (l : list nat) (i : nat) : nat := fold_right Nat.add 0%nat (firstn i l).
(** Sections ordered from the tip inboard to the root at y = 0. *)
Definition inboard (s : sections) : Prop := forall i, (i + 1 < sec_n s)%nat -> full_y s i < full_y s (i + 1)%nat.
(** Planform area of the wing through the sections. *)
Definition sections_planform (s : sections) : R :=
  2 * rsum (sec_n s - 1) (fun i => (full_y s (i + 1)%nat - full_y s i) * (sec_c s i + sec_c s (i + 1)%nat) / 2).
(** Common factor by which the wing through the sections is scaled to the area asked for. *)
Definition scaling (s : sections) (A : option R) : R := match A with Some v => sqrt (v / sections_planform s) | None => 1 end.
(** Distance covered after [k] of [n] cosine steps from 0 to 1: fine at both ends. *)
Definition cosine_step (n k : nat) : R := (1 - cos (PI * (INR k / INR n))) / 2.

(** ** Histories of a section mesh component: the calls it has received since setup *)
Inductive call := Computes (s : sections) (A : option R) | Differentiates (s : sections) (A : option R).
Definition call_sections (k : call) : nat := match k with Computes s _ | Differentiates s _ => sec_n s end.
Fixpoint after (nx : nat) (l : list nat) (h : list call) : sec_state :=
  match h with
  | nil => None
  | cons (Computes s A) h' => fst (run_compute nx l (after nx l h') s A)
  | cons (Differentiates s A) h' => fst (run_partials nx l (after nx l h') s A)
  end.
