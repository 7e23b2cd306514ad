(** The correlations cited for offset strip fins, written as published. *)
From Coq Require Import Reals.
Open Scope R_scope.

(** Manglik and Bergles (1995): the Colburn factor (equation 34) and the Fanning friction factor
    (equation 35) of an offset strip fin with free spacing [s], height [h], fin thickness [t]
    and fin length [l] at Reynolds number [Re]. *)
Definition colburn (Re s h t l : R) : R :=
  0.6522 * Rpower Re (-0.5403) * Rpower (s / h) (-0.1541) * Rpower (t / l) 0.1499 * Rpower (t / s) (-0.0678) *
  Rpower (1 + 0.00005269 * Rpower Re 1.340 * Rpower (s / h) 0.504 * Rpower (t / l) 0.456 * Rpower (t / s) (-1.055)) 0.1.
Definition friction (Re s h t l : R) : R :=
  9.6243 * Rpower Re (-0.7422) * Rpower (s / h) (-0.1856) * Rpower (t / l) 0.3053 * Rpower (t / s) (-0.2659) *
  Rpower (1 + 0.00000007669 * Rpower Re 4.429 * Rpower (s / h) 0.920 * Rpower (t / l) 3.767 * Rpower (t / s) 0.236) 0.1.
(** Hydraulic diameter in the same paper (equation 5). *)
Definition hydraulic_diameter (s h t l : R) : R := 4 * s * h * l / (2 * (s * l + h * l + t * h) + t * s).
