(** Model of openconcept/aerodynamics/openaerostruct/mesh_gen.py.

    A mesh is the function of chordwise index, spanwise index and coordinate (0: x, 1: y,
    2: z); a flattened array (C order) is the function of its flat index.  Simplifications:
    exact reals; [dtype] (complex step) left out; default values of the variables left out. *)
From Coq Require Import Reals List Bool PeanoNat.
From Verif Require Import RSum Py Model_Algebra Model_Vectors Model_Aero.
Import ListNotations.
Open Scope R_scope.

Definition mesh := nat -> nat -> nat -> R.
(** [flatten] of an array of shape (nx, ny, 3), and back. *)
Definition flat (ny ix j d : nat) : nat := (3 * (ix * ny + j) + d)%nat.
Definition flatten (ny : nat) (m : mesh) (r : nat) : R := m (r / 3 / ny)%nat ((r / 3) mod ny)%nat (r mod 3)%nat.
(** A sparse Jacobian declared with [rows] and [cols], as assembled: duplicates add up. *)
Definition entry := (nat * nat * R)%type.
Definition row_of (e : entry) : nat := fst (fst e).
Definition col_of (e : entry) : nat := snd (fst e).
Fixpoint assembled (l : list entry) (r c : nat) : R :=
  match l with
  | [] => 0
  | e :: l' => (if Nat.eqb (row_of e) r && Nat.eqb (col_of e) c then snd e else 0) + assembled l' r c
  end.

(** ** TrapezoidalPlanformMesh *)
Record trapezoid := { tz_S : R; tz_AR : R; tz_taper : R; tz_sweep : R }.
(** mesh_gen.py:68-69, 96-97 *)
Definition half_span (t : trapezoid) : R := sqrt (tz_AR t * tz_S t) / 2.
Definition c_root (t : trapezoid) : R := tz_S t / (half_span t * (1 + tz_taper t)).
(** numpy [deg2rad] *)
Definition deg2rad (a : R) : R := a * PI / 180.
(** mesh_gen.py:61-87; [nx], [ny] are the numbers of points (options plus one). *)
Definition trapezoid_mesh (nx ny : nat) (t : trapezoid) : mesh := fun ix j d =>
  match d with
  | 0%nat => linspace 0 1 nx ix * c_root t * linspace (tz_taper t) 1 ny j
             - linspace (c_root t * tz_taper t) (c_root t) ny j / 4
             + linspace (half_span t) 0 ny j * tan (deg2rad (tz_sweep t))
  | 1%nat => linspace (-1) 0 ny j * half_span t
  | _ => 0
  end.
(** mesh_gen.py:103-107 *)
Definition db_dS (t : trapezoid) : R := tz_AR t / (4 * sqrt (tz_AR t * tz_S t)).
Definition db_dAR (t : trapezoid) : R := tz_S t / (4 * sqrt (tz_AR t * tz_S t)).
Definition dcroot_dS (t : trapezoid) : R := 1 / (half_span t * (1 + tz_taper t)) - tz_S t / (half_span t ^ 2 * (1 + tz_taper t)) * db_dS t.
Definition dcroot_dAR (t : trapezoid) : R := - tz_S t / (half_span t ^ 2 * (1 + tz_taper t)) * db_dAR t.
Definition dcroot_dtaper (t : trapezoid) : R := - tz_S t / (half_span t * (1 + tz_taper t) ^ 2).
(** mesh_gen.py:109-141: the four columns, as meshes; the code flattens them (C order). *)
Inductive tz_input := In_S | In_AR | In_taper | In_sweep.
Definition trapezoid_partials (nx ny : nat) (t : trapezoid) (x : tz_input) : mesh := fun ix j d =>
  match x, d with
  | In_S, 0%nat => linspace 0 1 nx ix * linspace (tz_taper t) 1 ny j * dcroot_dS t
                   - linspace (dcroot_dS t * tz_taper t) (dcroot_dS t) ny j / 4
                   + linspace (db_dS t) 0 ny j * tan (deg2rad (tz_sweep t))
  | In_S, 1%nat => linspace (-1) 0 ny j * db_dS t
  | In_AR, 0%nat => linspace 0 1 nx ix * linspace (tz_taper t) 1 ny j * dcroot_dAR t
                    - linspace (dcroot_dAR t * tz_taper t) (dcroot_dAR t) ny j / 4
                    + linspace (db_dAR t) 0 ny j * tan (deg2rad (tz_sweep t))
  | In_AR, 1%nat => linspace (-1) 0 ny j * db_dAR t
  | In_taper, 0%nat => linspace 0 1 nx ix * c_root t * linspace 1 0 ny j
                       + linspace 0 1 nx ix * linspace (tz_taper t) 1 ny j * dcroot_dtaper t
                       - (linspace (c_root t) 0 ny j / 4 + linspace (dcroot_dtaper t * tz_taper t) (dcroot_dtaper t) ny j / 4)
  | In_sweep, 0%nat => 0 * linspace 0 1 nx ix + linspace (half_span t) 0 ny j / cos (deg2rad (tz_sweep t)) ^ 2 * PI / 180
  | _, _ => 0
  end.
(** The Jacobian's column of length [3 * nx * ny]. *)
Definition trapezoid_jac (nx ny : nat) (t : trapezoid) (x : tz_input) (r : nat) : R := flatten ny (trapezoid_partials nx ny t x) r.

(** ** Cosine spacing: mesh_gen.py:687-705 *)
Definition cos_space (a b : R) (n k : nat) : R := a + 5/10 * (b - a) * (1 - cos (linspace 0 PI n k)).
Definition cos_deriv_start (n k : nat) : R := 1 - 5/10 * (1 - cos (linspace 0 PI n k)).
Definition cos_deriv_end (n k : nat) : R := 5/10 * (1 - cos (linspace 0 PI n k)).

(** ** Panels per region: mesh_gen.py:238-248, 484-494, 609-619 *)
Definition panels (n_sec : nat) (num_y : vsize) : res (list nat) :=
  if Nat.ltb n_sec 2 then Err ValueError
  else match num_y with
       | VInt n => Ok (repeat n (n_sec - 1))
       | VList l => if negb (Nat.eqb (List.length l) (n_sec - 1)) then Err ValueError else Ok l
       end.
Definition ny_of (l : list nat) (i : nat) : nat := nth i l 0%nat.
(** [y_prev] on entry to region [i]: the sum of the panels before. *)
Fixpoint region_start (l : list nat) (i : nat) : nat :=
  match i with O => O | S i' => (region_start l i' + ny_of l i')%nat end.
(** Total number of panels: [np.sum(ny)]. *)
Definition total (l : list nat) : nat := fold_right Nat.add 0%nat l.
(** The loop over the first [k] regions: region [i] writes its points [0 .. ny] to
    [y_prev : y_prev + ny + 1]; the last write to an index counts. *)
Fixpoint written (l : list nat) (f : nat -> nat -> R) (k j : nat) : R :=
  match k with
  | O => 0
  | S i => if Nat.leb (region_start l i) j && Nat.ltb j (region_start l i + ny_of l i + 1) then f i (j - region_start l i)%nat else written l f i j
  end.

(** ** SectionPlanformMesh *)
(** mesh_gen.py:345-379: the mesh before it is scaled. *)
Definition unscaled (nx : nat) (l : list nat) (s : sections) : mesh := fun ix j d =>
  match d with
  | 0%nat => written l (fun i jj => cos_space 0 1 nx ix * cos_space (sec_c s i) (sec_c s (i + 1)%nat) (ny_of l i + 1) jj
                                     + cos_space (sec_x s i) (sec_x s (i + 1)%nat) (ny_of l i + 1) jj) (sec_n s - 1) j
  | 1%nat => written l (fun i jj => cos_space (full_y s i) (full_y s (i + 1)%nat) (ny_of l i + 1) jj) (sec_n s - 1) j
  | _ => 0
  end.
(** mesh_gen.py:353, 371, 382 *)
Definition area (s : sections) : R :=
  rsum (sec_n s - 1) (fun i => (full_y s (i + 1)%nat - full_y s i) * (sec_c s i + sec_c s (i + 1)%nat) * (5/10)) * 2.
(** mesh_gen.py:383-386; [S] is given if [scale_area]. *)
Definition section_mesh (nx : nat) (l : list nat) (s : sections) (S : option R) : mesh := fun ix j d =>
  match S with
  | Some S_ref => unscaled nx l s ix j d * sqrt (S_ref / area s)
  | None => unscaled nx l s ix j d
  end.

(** mesh_gen.py:276-335: the parts of the partials that do not depend on the inputs.  The
    points of a region leave out the outboard section unless it is the tip. *)
Definition first_point (i : nat) : nat := if Nat.eqb i 0 then 0%nat else 1%nat.
(** Row [r] of the flattened mesh: whether it is coordinate [d] of a point of region [i],
    and the spanwise index within the region. *)
Definition in_region (nx : nat) (l : list nat) (d i r : nat) : bool :=
  let ny_tot := (total l + 1)%nat in
  let j := ((r / 3) mod ny_tot)%nat in
  Nat.eqb (r mod 3) d && Nat.ltb (r / 3 / ny_tot) nx
  && Nat.leb (region_start l i + first_point i) j && Nat.ltb j (region_start l i + ny_of l i + 1).
Definition local (l : list nat) (i r : nat) : nat := ((r / 3) mod (total l + 1) - region_start l i)%nat.
Definition chordwise (nx : nat) (l : list nat) (r : nat) : R := cos_space 0 1 nx (r / 3 / (total l + 1))%nat.
(** mesh_gen.py:314-318; [+=] on zeros, so the sum over the regions. *)
Definition dmesh_dysec (nx : nat) (l : list nat) (n_sec : nat) (r c : nat) : R :=
  rsum (n_sec - 1) (fun i => if in_region nx l 1 i r then
    (if Nat.ltb i (n_sec - 2) && Nat.eqb c (i + 1) then cos_deriv_end (ny_of l i + 1) (local l i r) else 0)
    + (if Nat.eqb c i then cos_deriv_start (ny_of l i + 1) (local l i r) else 0) else 0).
(** mesh_gen.py:319-320 *)
Definition dmesh_dcsec (nx : nat) (l : list nat) (n_sec : nat) (r c : nat) : R :=
  rsum (n_sec - 1) (fun i => if in_region nx l 0 i r then
    (if Nat.eqb c (i + 1) then chordwise nx l r * cos_deriv_end (ny_of l i + 1) (local l i r) else 0)
    + (if Nat.eqb c i then chordwise nx l r * cos_deriv_start (ny_of l i + 1) (local l i r) else 0) else 0).
(** mesh_gen.py:308-312, 323-333: the sparse partials with respect to the leading edges. *)
Definition region_points (nx : nat) (l : list nat) (i : nat) : list (nat * nat) :=
  flat_map (fun ix => map (fun jj => (ix, jj)) (seq (first_point i) (ny_of l i + 1 - first_point i))) (seq 0 nx).
Definition xLE_region (nx : nat) (l : list nat) (i : nat) : list entry :=
  (map (fun p => (flat (total l + 1) (fst p) (region_start l i + snd p) 0, (i + 1)%nat, cos_deriv_end (ny_of l i + 1) (snd p))) (region_points nx l i)
   ++ map (fun p => (flat (total l + 1) (fst p) (region_start l i + snd p) 0, i, cos_deriv_start (ny_of l i + 1) (snd p))) (region_points nx l i))%list.
Definition xLE_entries (nx : nat) (l : list nat) (n_sec : nat) : list entry := flat_map (xLE_region nx l) (seq 0 (n_sec - 1)).
(** mesh_gen.py:279-281: length of the arrays the entries are stored in. *)
Definition xLE_size (nx : nat) (l : list nat) : nat := ((total l + 1) * nx * 2)%nat.

(** mesh_gen.py:406-419 *)
Definition dA_dysec (s : sections) (c : nat) : R :=
  rsum (sec_n s - 1) (fun i =>
    (if Nat.eqb c i then - (5/10) * (sec_c s i + sec_c s (i + 1)%nat) else 0)
    + (if Nat.ltb i (sec_n s - 2) && Nat.eqb c (i + 1) then 5/10 * (sec_c s i + sec_c s (i + 1)%nat) else 0)) * 2.
Definition dA_dcsec (s : sections) (c : nat) : R :=
  rsum (sec_n s - 1) (fun i => if Nat.leb i c && Nat.ltb c (i + 2) then 5/10 * (full_y s (i + 1)%nat - full_y s i) else 0) * 2.

(** mesh_gen.py:400-429 given the stored unscaled mesh [u] (flattened).  Output "mesh": *)
Inductive sec_input := In_x | In_y | In_c | In_area.
Definition mesh_jac (nx : nat) (l : list nat) (s : sections) (S : option R) (u : nat -> R) (x : sec_input) (r c : nat) : R :=
  match S with
  | Some Sf =>
      let A := area s in
      let coeff := sqrt (Sf / A) in
      match x with
      | In_x => assembled (map (fun e => (fst e, snd e * coeff)) (xLE_entries nx l (sec_n s))) r c
      | In_y => dmesh_dysec nx l (sec_n s) r c * coeff + - (5/10) * u r * sqrt Sf * Rpower A (- (15/10)) * dA_dysec s c
      | In_c => dmesh_dcsec nx l (sec_n s) r c * coeff + - (5/10) * u r * sqrt Sf * Rpower A (- (15/10)) * dA_dcsec s c
      | In_area => 5/10 * Rpower Sf (- (5/10)) / sqrt A * u r
      end
  | None =>
      match x with
      | In_x => assembled (xLE_entries nx l (sec_n s)) r c
      | In_y => dmesh_dysec nx l (sec_n s) r c
      | In_c => dmesh_dcsec nx l (sec_n s) r c
      | In_area => 0
      end
  end.
(** Output "S" (when [scale_area] is false): mesh_gen.py:259-260, 431-432. *)
Definition area_jac (s : sections) (x : sec_input) (c : nat) : R :=
  match x with In_y => dA_dysec s c | In_c => dA_dcsec s c | _ => 0 end.

(** The component's state: inputs of the last [compute] and the mesh it stored
    (mesh_gen.py:273-274, 349, 379, 392-396); [None] after [setup]. *)
Definition sec_state := option (sections * option R * (nat -> R)).
Definition same_array (n : nat) (a b : nat -> R) : bool := forallb (fun k => if Req_EM_T (a k) (b k) then true else false) (seq 0 n).
Definition same_values (n_sec : nat) (a b : sections * option R) : bool :=
  same_array n_sec (sec_x (fst a)) (sec_x (fst b)) && same_array (n_sec - 1) (sec_y (fst a)) (sec_y (fst b)) && same_array n_sec (sec_c (fst a)) (sec_c (fst b))
  && match snd a, snd b with Some u, Some v => if Req_EM_T u v then true else false | None, None => true | _, _ => false end.
(** mesh_gen.py:344-386 *)
Definition run_compute (nx : nat) (l : list nat) (st : sec_state) (s : sections) (S : option R) : sec_state * mesh :=
  (Some (s, S, flatten (total l + 1) (unscaled nx l s)), section_mesh nx l s S).
(** mesh_gen.py:388-432 *)
Definition refreshed (nx : nat) (l : list nat) (st : sec_state) (s : sections) (S : option R) : sec_state :=
  match st with
  | None => fst (run_compute nx l st s S)
  | Some (s0, S0, _) => if same_values (sec_n s) (s, S) (s0, S0) then st else fst (run_compute nx l st s S)
  end.
Definition run_partials (nx : nat) (l : list nat) (st : sec_state) (s : sections) (S : option R) : sec_state * (sec_input -> nat -> nat -> R) :=
  let st' := refreshed nx l st s S in
  (st', mesh_jac nx l s S match st' with Some (_, _, u) => u | None => fun _ => 0 end).

(** ** ThicknessChordRatioInterp *)
(** Values at the points of a region: cosine or uniform spacing (mesh_gen.py:509-514, 547-550, 635-640, 675-682). *)
Definition nodal (cosine : bool) (a b : R) (n k : nat) : R := if cosine then cos_space a b n k else linspace a b n k.
Definition nodal_dstart (cosine : bool) (n k : nat) : R := if cosine then cos_deriv_start n k else linspace 1 0 n k.
Definition nodal_dend (cosine : bool) (n k : nat) : R := if cosine then cos_deriv_end n k else linspace 0 1 n k.
(** mesh_gen.py:539-555; region [i] writes [y_prev : y_prev + ny]. *)
Fixpoint written_panels (l : list nat) (f : nat -> nat -> R) (k j : nat) : R :=
  match k with
  | O => 0
  | S i => if Nat.leb (region_start l i) j && Nat.ltb j (region_start l i + ny_of l i) then f i (j - region_start l i)%nat else written_panels l f i j
  end.
Definition panel_toverc (cosine : bool) (l : list nat) (n_sec : nat) (tc : nat -> R) (j : nat) : R :=
  written_panels l (fun i jj => let node := nodal cosine (tc i) (tc (i + 1)%nat) (ny_of l i + 1) in 5/10 * (node jj + node (jj + 1)%nat)) (n_sec - 1) j.
(** mesh_gen.py:501-537 *)
Definition toverc_region (cosine : bool) (l : list nat) (i : nat) : list entry :=
  let n := (ny_of l i + 1)%nat in
  (map (fun jj => ((region_start l i + jj)%nat, i, 5/10 * (nodal_dstart cosine n jj + nodal_dstart cosine n (jj + 1)%nat))) (seq 0 (ny_of l i))
   ++ map (fun jj => ((region_start l i + jj)%nat, (i + 1)%nat, 5/10 * (nodal_dend cosine n jj + nodal_dend cosine n (jj + 1)%nat))) (seq 0 (ny_of l i)))%list.
Definition toverc_entries (cosine : bool) (l : list nat) (n_sec : nat) : list entry := flat_map (toverc_region cosine l) (seq 0 (n_sec - 1)).
Definition toverc_size (l : list nat) : nat := (total l * 2)%nat.

(** ** SectionLinearInterp *)
(** mesh_gen.py:666-684 *)
Definition property_node (cosine : bool) (l : list nat) (n_sec : nat) (p : nat -> R) (j : nat) : R :=
  written l (fun i jj => nodal cosine (p i) (p (i + 1)%nat) (ny_of l i + 1) jj) (n_sec - 1) j.
(** mesh_gen.py:626-664 *)
Definition property_region (cosine : bool) (l : list nat) (i : nat) : list entry :=
  let n := (ny_of l i + 1)%nat in
  (map (fun jj => ((region_start l i + jj)%nat, i, nodal_dstart cosine n jj)) (seq (first_point i) (ny_of l i - first_point i))
   ++ map (fun jj => ((region_start l i + jj)%nat, (i + 1)%nat, nodal_dend cosine n jj)) (seq 1 (ny_of l i)))%list.
Definition property_entries (cosine : bool) (l : list nat) (n_sec : nat) : list entry := flat_map (property_region cosine l) (seq 0 (n_sec - 1)).
(** mesh_gen.py:628 *)
Definition property_size (l : list nat) (n_sec : nat) : nat := (fold_right Nat.add 0 (map (fun n => n - 1) l) * 2 + n_sec)%nat.
