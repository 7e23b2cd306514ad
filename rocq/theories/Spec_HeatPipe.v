(** Vocabulary for the statements about heat pipes. *)
From Coq Require Import Reals.
From Coquelicot Require Import Coquelicot.
Open Scope R_scope.

(** [T] is the steady temperature, as a function of the radius, in a cylindrical shell
    of length [L] and conductivity [k] between the radii [a] and [b] through which the
    heat flow [q] passes outwards (Fourier's law through the area 2 pi r L). *)
Definition conducts (k L q a b : R) (T : R -> R) : Prop :=
  forall r, a <= r <= b -> is_derive T r (- q / (k * (2 * PI * r * L))).

(** A pipe with vapour radius [a], wick up to the radius [b] and wall up to [c]. Heat [q]
    enters through an evaporator at [Te], outside, of length [Le], crosses wall and
    wick, loses [dT] along the vapour and leaves through wick and wall of a
    condenser of length [Lc] at [Tc]. *)
Definition pipe_temperatures (k_wall k_wick Le Lc a b c q dT Te Tc : R) : Prop :=
  exists E C : R -> R, exists Ew Cw : R -> R,
    conducts k_wall Le (- q) b c E /\ conducts k_wick Le (- q) a b Ew /\ Ew b = E b /\ E c = Te /\
    Cw a = Ew a - dT /\
    conducts k_wick Lc q a b Cw /\ conducts k_wall Lc q b c C /\ C b = Cw b /\ C c = Tc.

(** The pressure lost by a fluid of density [rho] and viscosity [mu] that flows with
    mass flow [m] through a smooth round pipe (Darcy and Weisbach, Blasius). *)
Definition pipe_loss (m rho mu d L dp : R) : Prop :=
  exists v Re f, m = rho * v * (PI * (d / 2) ^ 2) /\ Re = rho * v * d / mu /\
    f = (3164/10000) / Rpower Re (1/4) /\ dp = f * (L / d) * (rho * v ^ 2 / 2).
