(** Specification vocabulary for the wave drag of a wing region given by sections. *)
From Coq Require Import Reals.
From Coquelicot Require Import Coquelicot.
From Verif Require Import RSum Model_Aero.
Open Scope R_scope.

(** The value at [y] on the straight line from [(y0, a)] to [(y1, b)]. *)
Definition on_line (y0 y1 a b y : R) : R := a + (b - a) * (y - y0) / (y1 - y0).
(** Section [k] of the region that begins with section [start]: spanwise position. *)
Definition station (s : sections) (start k : nat) : R := full_y s (start + k)%nat.
(** Planform area of the region on one side of the plane of symmetry. *)
Definition side_area (s : sections) (start panels : nat) : R :=
  rsum panels (fun k => RInt (on_line (station s start k) (station s start (S k)) (sec_c s (start + k)%nat) (sec_c s (start + S k)%nat)) (station s start k) (station s start (S k))).
(** Area-weighted mean of the thickness-to-chord ratios [tc] over the region. *)
Definition mean_toverc (tc : nat -> R) (s : sections) (start panels : nat) : R :=
  rsum panels (fun k => RInt (fun y =>
      on_line (station s start k) (station s start (S k)) (tc (start + k)%nat) (tc (start + S k)%nat) y
      * on_line (station s start k) (station s start (S k)) (sec_c s (start + k)%nat) (sec_c s (start + S k)%nat) y)
    (station s start k) (station s start (S k)))
  / side_area s start panels.
(** A proper region: sections from the tip inboard, with positive chords. *)
Definition proper_region (s : sections) (start panels : nat) : Prop :=
  (0 < panels)%nat /\ (forall k, (k < panels)%nat -> station s start k < station s start (S k)) /\ (forall k, (k <= panels)%nat -> 0 < sec_c s (start + k)%nat).
(** Korn's equation for the drag divergence Mach number of a wing swept by [sweep] degrees. *)
Definition korn (tech tc sweep CL : R) : R :=
  let c := cos (sweep / 180 * PI) in tech / c - tc / c ^ 2 - CL / 10 / c ^ 3.
(** Distance from the onset of wave drag to drag divergence: the drag law [20 (M - Mc)^4] of
    one side has the slope 0.1 that defines drag divergence at [M - Mc = gap]. *)
Definition gap : R := Rpower (1/10/80) (1/3).
