(** Vocabulary for statements about section-defined wings. *)
From Coq Require Import Reals PeanoNat.
From Verif Require Import Base RSum Model_Aero.
Open Scope R_scope.

(** [f] is, over each of the panels lo .. hi-1, the straight line through the
    values [v] given at the sections; sections are ordered from tip to root. *)
Definition lofted (s : sections) (v : nat -> R) (f : R -> R) (lo hi : nat) : Prop :=
  forall a, (lo <= a < hi)%nat ->
    full_y s a < full_y s (a + 1)%nat /\
    forall t, full_y s a <= t <= full_y s (a + 1)%nat ->
      f t = v a + (v (a + 1)%nat - v a) * (t - full_y s a) / (full_y s (a + 1)%nat - full_y s a).

(** One more entry after position [j]. *)
Definition insert_after (j : nat) (v : R) (f : nat -> R) : nat -> R := fun i =>
  if Nat.leb i j then f i else if Nat.eqb i (j + 1) then v else f (i - 1)%nat.
(** The wing with an extra section on panel [j], at fraction [l] of it. *)
Definition add_section (j : nat) (l : R) (s : sections) : sections :=
  let at_ (f : nat -> R) := (1 - l) * f j + l * f (j + 1)%nat in
  {| sec_n := S (sec_n s);
     sec_x := insert_after j (at_ (sec_x s)) (sec_x s);
     sec_y := insert_after j (at_ (full_y s)) (full_y s);
     sec_c := insert_after j (at_ (sec_c s)) (sec_c s) |}.
