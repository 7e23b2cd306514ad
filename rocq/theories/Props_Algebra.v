(** Property theorems C10-C13 (add_subtract_comp.py, multiply_divide_comp.py). *)
From Coq Require Import Reals List Bool PeanoNat String ZArith Lra Lia.
From Coquelicot Require Import Coquelicot.
From Verif Require Import Base Py RSum Model_Algebra Spec_Algebra Proofs_Algebra.
Import ListNotations.
Open Scope R_scope.

(** ** C10 *)
(** Element (row, col) of the output is the scaled sum of the elements (row, col)
    of the inputs, one-row inputs being repeated on every row. *)
Theorem C10_output_is_the_scaled_sum :
  forall s E row col, add_wf s -> (col < as_len s)%nat ->
    add_compute s E (row * as_len s + col) = Ok (rsum (List.length (as_ins s)) (fun i =>
      factor s i * entry (E (nth i (as_ins s) ""%string)) (in_size (as_vec s) i) (as_len s) row col)).
Proof. exact add_value. Qed.
Print Assumptions C10_output_is_the_scaled_sum.

(** Exactly the well-formed equations with fresh names are accepted. *)
Theorem C10_accepted_calls :
  forall l, is_ok (add_setup l) = true <->
    List.Forall add_wf l /\ NoDup (concat (map add_names l)).
Proof. exact add_setup_iff. Qed.
Print Assumptions C10_accepted_calls.

(** The declared Jacobian is the derivative, for every input that is not a
    one-row input of a multi-column equation.  Missing: those inputs, for which
    the statement is false (next theorem). *)
Theorem C10_jacobian_partial :
  forall s E i r c x, add_wf s -> NoDup (as_ins s) -> (i < List.length (as_ins s))%nat ->
    nth i (as_ins s) ""%string = x ->
    (as_len s = 1%nat \/ in_size (as_vec s) i <> 1%nat) ->
    exists J, add_jac s x r c = Ok J /\
      is_derive (fun t => get (add_compute s (updE E x c t) r)) (E x c) J.
Proof. exact add_jac_ok. Qed.
Print Assumptions C10_jacobian_partial.

Theorem C10_jacobian_of_one_row_input_refuted :
  forall s E i x, add_wf s -> NoDup (as_ins s) -> (i < List.length (as_ins s))%nat ->
    nth i (as_ins s) ""%string = x ->
    (1 < as_len s)%nat -> in_size (as_vec s) i = 1%nat -> factor s i <> 0 ->
    exists J, add_jac s x 1 1 = Ok J /\
      ~ is_derive (fun t => get (add_compute s (updE E x 1 t) 1)) (E x 1%nat) J.
Proof. exact add_jac_wrong. Qed.
Print Assumptions C10_jacobian_of_one_row_input_refuted.

Theorem C10_constructor_arguments :
  comp_init AIter = Err NotImplementedError /\ comp_init AOther = Err ValueError /\
  comp_add_output = Err NotImplementedError.
Proof. repeat split. Qed.
Print Assumptions C10_constructor_arguments.

Definition ex_add : add_sys :=
  {| as_out := "z"; as_ins := ["a"; "b"; "c"]; as_vec := VList [1; 5; 5]%nat; as_len := 3;
     as_sf := Some [1; -1; 2]; as_units := Some "kg"%string |}.
Example C10_hypotheses_met : add_wf ex_add /\ NoDup (add_names ex_add) /\ is_ok (add_setup [ex_add]) = true /\
  in_size (as_vec ex_add) 0 = 1%nat /\ in_size (as_vec ex_add) 1 <> 1%nat /\ factor ex_add 0 <> 0.
Proof.
  assert (N : NoDup (add_names ex_add)).
  { unfold add_names, ex_add. simpl. repeat constructor; simpl; intuition discriminate. }
  assert (W : add_wf ex_add).
  { split; simpl; auto. split; [discriminate|]. split; auto. intros n H. simpl. lia. }
  split; [exact W|]. split; [exact N|]. split; [apply add_setup_iff; split; [apply List.Forall_cons; [exact W|apply List.Forall_nil]|]|].
  - simpl. rewrite ?app_nil_r. exact N.
  - simpl. split; auto. split; [lia|]. unfold factor; simpl; lra.
Qed.
(** 2 columns; z = a - b + 2c at row 4, column 1. *)
Example C10_value_case :
  add_compute ex_add (fun x j => if String.eqb x "a" then INR j else if String.eqb x "b" then 10 * INR j else 100) 13
  = Ok (1 - 130 + 200).
Proof. unfold add_compute. simpl. f_equal. ring. Qed.

(** ** C11 *)
(** After any number of repeated setups: same names, shapes and Jacobian
    structure - and every unit gone. *)
Theorem C11_names_shapes_jacobian_survive_partial :
  forall n l ds l', add_setup l = Ok (ds, l') -> exists ds', setup_n (S n) l = Ok (ds', l') /\
    map strip ds' = map strip ds.
Proof.
  intros n l ds l' H. exists (map strip ds). split; [now apply setup_again|apply strip_strip].
Qed.
Print Assumptions C11_names_shapes_jacobian_survive_partial.

Theorem C11_units_survive_refuted :
  forall n l ds l', add_setup l = Ok (ds, l') -> setup_n (S n) l = Ok (map strip ds, l').
Proof. exact setup_again. Qed.
Print Assumptions C11_units_survive_refuted.

Example C11_units_lost :
  exists ds ds' l', setup_n 0 [ex_add] = Ok (ds, l') /\ setup_n 1 [ex_add] = Ok (ds', l') /\
    In (DOut "z" 5 3 (Some "kg"%string)) ds /\ In (DIn "b" 5 3 (Some "kg"%string)) ds /\
    In (DOut "z" 5 3 None) ds' /\ In (DIn "b" 5 3 None) ds' /\ ~ In (DOut "z" 5 3 (Some "kg"%string)) ds'.
Proof.
  do 3 eexists. split; [reflexivity|]. split; [reflexivity|]. simpl. intuition discriminate.
Qed.

(** ** C12 *)
Theorem C12_output_is_the_product :
  forall s E row col, mul_wf s -> (col < ms_len s)%nat ->
    mul_compute s E (row * ms_len s + col) = Ok (ms_sf s * rprod (List.length (ms_ins s)) (fun i =>
      let v := entry (E (nth i (ms_ins s) ""%string)) (in_size (ms_vec s) i) (ms_len s) row col in
      if divided s i then / v else v)).
Proof. exact mul_value. Qed.
Print Assumptions C12_output_is_the_product.

Theorem C12_accepted_calls :
  forall l, is_ok (mul_setup l) = true <->
    List.Forall mul_wf l /\ NoDup (concat (map mul_names l)).
Proof. exact mul_setup_iff. Qed.
Print Assumptions C12_accepted_calls.

(** Missing: one-row inputs of a multi-column equation (false, next theorem). *)
Theorem C12_jacobian_partial :
  forall s E i r c x, mul_wf s -> NoDup (ms_ins s) -> (i < List.length (ms_ins s))%nat ->
    nth i (ms_ins s) ""%string = x ->
    (ms_len s = 1%nat \/ in_size (ms_vec s) i <> 1%nat) ->
    (divided s i = true -> E x c <> 0) ->
    exists J, mul_jac s E x r c = Ok J /\
      is_derive (fun t => get (mul_compute s (updE E x c t) r)) (E x c) J.
Proof. exact mul_jac_ok. Qed.
Print Assumptions C12_jacobian_partial.

Definition ex_mul : mul_sys :=
  {| ms_out := "z"; ms_ins := ["a"; "b"; "c"]; ms_vec := VList [1; 5; 5]%nat; ms_len := 3;
     ms_sf := 2; ms_div := Some [true; false; true]; ms_units := None |}.
Lemma ex_mul_wf : mul_wf ex_mul /\ NoDup (mul_names ex_mul).
Proof.
  split.
  - split; simpl; auto. split; [discriminate|]. split; auto. intros n H. simpl. lia.
  - unfold mul_names, ex_mul. simpl. repeat constructor; simpl; intuition discriminate.
Qed.
Theorem C12_jacobian_of_one_row_input_refuted :
  exists s E i x, mul_wf s /\ NoDup (mul_names s) /\ nth i (ms_ins s) ""%string = x /\
    (i < List.length (ms_ins s))%nat /\ (divided s i = true -> E x 1%nat <> 0) /\
    exists J, mul_jac s E x 1 1 = Ok J /\
      ~ is_derive (fun t => get (mul_compute s (updE E x 1 t) 1)) (E x 1%nat) J.
Proof.
  exists ex_mul, (fun _ _ => 1), 0%nat, "a"%string. destruct ex_mul_wf as [W N].
  split; auto. split; auto. split; auto. split; [simpl; lia|]. split; [intros; lra|].
  apply (mul_jac_wrong ex_mul (fun _ _ => 1) 0); simpl; auto; try lia.
  - inversion N; auto.
  - unfold mul_partial, mul_ri, divided. simpl. lra.
Qed.
Print Assumptions C12_jacobian_of_one_row_input_refuted.

Example C12_value_case : mul_compute ex_mul (fun x _ => if String.eqb x "a" then 4 else if String.eqb x "b" then 3 else 5) 7
  = Ok (1 / 4 * 3 / 5 * 2).
Proof. unfold mul_compute. simpl. reflexivity. Qed.
Example C12_hypotheses_met : mul_wf ex_mul /\ NoDup (mul_names ex_mul) /\ is_ok (mul_setup [ex_mul]) = true /\
  in_size (ms_vec ex_mul) 1 <> 1%nat.
Proof.
  destruct ex_mul_wf as [W N]. split; [exact W|]. split; [exact N|]. split; [|simpl; lia].
  apply mul_setup_iff. split; [apply List.Forall_cons; [exact W|apply List.Forall_nil]|]. simpl. exact N.
Qed.

(** ** C13: [w] counts an arbitrary base unit, [ueval] evaluates the text. *)
(** Missing: equations whose first input is unitless and another is not
    (false, next theorem). *)
Theorem C13_output_units_partial :
  forall w d u l zs z, ueval w u = Some z -> uvals w l zs ->
    exists ts, out_units ((d, Some u) :: l) = Some ts /\
      ueval w ts = Some (units_product ((d, Some z) :: zs)).
Proof. exact out_units_ok. Qed.
Print Assumptions C13_output_units_partial.

Theorem C13_unitless_iff_all_inputs_unitless :
  forall l, (forall p, In p l -> snd p = None) <-> out_units l = None.
Proof. exact out_units_none. Qed.
Print Assumptions C13_unitless_iff_all_inputs_unitless.

(** With a unitless first input the text starts with an operator: no unit at all. *)
Theorem C13_output_units_first_unitless_refuted :
  forall w d l, (exists p, In p l /\ snd p <> None) ->
    exists ts, out_units ((d, None) :: l) = Some ts /\ ueval w ts = None.
Proof. exact out_units_bad. Qed.
Print Assumptions C13_output_units_first_unitless_refuted.

(** kg / m / (s) with m unitless in between: input units kg/m**3, -, s**2 (divided). *)
Example C13_hypotheses_met :
  let w := fun u => if String.eqb u "kg" then 1%Z else if String.eqb u "m" then 10%Z else 100%Z in
  let u1 := [TUnit "kg"; TDiv; TUnit "m"; TPow 3] in let u2 := [TUnit "s"; TPow 2] in
  ueval w u1 = Some (-29)%Z /\ uvals w [(false, None); (true, Some u2)] [(false, None); (true, Some 200%Z)] /\
  units_product [(true, Some (-29)%Z); (false, None); (true, Some 200%Z)] = (29 - 200)%Z.
Proof.
  cbv zeta. split; [reflexivity|]. split; [|reflexivity].
  unfold uvals. repeat constructor; simpl; auto.
Qed.
