(** Bounds on the exponential, and the friction coefficient as a function of the
    Reynolds number. *)
From Coq Require Import Reals List Bool PeanoNat ZArith String Lia Lra.
From Coquelicot Require Import Coquelicot.
From Verif Require Import Base Py RSum Model_Drag Spec_Drag Proofs_Cs Proofs_Drag.
Open Scope R_scope.

(** ** Taylor sums of the exponential *)
Fixpoint taylor (n : nat) (x : R) : R := match n with O => 1 | S m => taylor m x + x ^ n / INR (fact n) end.
Lemma taylor_0 n : taylor n 0 = 1.
Proof. induction n as [|n IH]; [reflexivity|]. cbn [taylor]. rewrite IH, pow_ne_zero by lia. lra. Qed.
Lemma taylor_der n x : is_derive (taylor (S n)) x (taylor n x).
Proof.
  induction n as [|n IH].
  - cbn. auto_derive; [auto|lra].
  - change (taylor (S (S n))) with (fun y => taylor (S n) y + y ^ (S (S n)) / INR (fact (S (S n)))).
    change (taylor (S n) x) with (plus (taylor n x) (x ^ (S n) / INR (fact (S n)))).
    apply (is_derive_plus (K := R_AbsRing) (V := R_NormedModule)); [exact IH|].
    pose proof (INR_fact_neq_0 (S (S n))) as F. assert (Q : INR (fact (S (S n))) = INR (S (S n)) * INR (fact (S n))) by (now rewrite (fact_simpl (S n)), mult_INR).
    pose proof (INR_fact_neq_0 (S n)) as F'. set (a := INR (fact (S (S n)))) in *. set (b := INR (fact (S n))) in *. clearbody a b.
    auto_derive; [auto|]. match goal with |- ?l = ?r => change (@eq R l r) end. rewrite Q in F |- *.
    change (1 * (INR (S (S n)) * x ^ S n) * / (INR (S (S n)) * b) = x ^ S n / b). set (q := INR (S (S n))) in *. set (w := x ^ S n). assert (q <> 0) by (intro Z; apply F; rewrite Z; ring). clearbody q w. field. auto.
Qed.
Lemma taylor_rest n x : exists c, Rmin 0 x <= c <= Rmax 0 x /\ exp x - taylor (S n) x = (exp c - taylor n c) * x.
Proof.
  destruct (MVT_gen (fun y => exp y - taylor (S n) y) 0 x (fun y => exp y - taylor n y)) as [c [Hc E]].
  - intros y _. apply (is_derive_minus (K := R_AbsRing) (V := R_NormedModule)); [apply is_derive_exp|apply taylor_der].
  - intros y _. apply derivable_continuous_pt. exists (exp y - taylor n y). apply is_derive_Reals.
    apply (is_derive_minus (K := R_AbsRing) (V := R_NormedModule)); [apply is_derive_exp|apply taylor_der].
  - exists c. rewrite taylor_0, exp_0 in E. split; [exact Hc|lra].
Qed.
Lemma taylor_lower n x : 0 <= x -> taylor n x <= exp x.
Proof.
  revert x. induction n as [|n IH]; intros x Hx.
  - cbn. destruct (Req_dec x 0) as [->|]; [rewrite exp_0; lra|]. left. rewrite <- exp_0. apply exp_increasing. lra.
  - destruct (taylor_rest n x) as [c [Hc E]]. rewrite Rmin_left, Rmax_right in Hc by lra. specialize (IH c ltac:(lra)).
    assert (0 <= (exp c - taylor n c) * x) by (apply Rmult_le_pos; lra). lra.
Qed.
Lemma taylor_neg n x : x <= 0 -> 0 <= (exp x - taylor n x) * (-1) ^ S n.
Proof.
  revert x. induction n as [|n IH]; intros x Hx.
  - cbn. destruct (Req_dec x 0) as [->|]; [rewrite exp_0; lra|]. pose proof (exp_increasing x 0 ltac:(lra)). rewrite exp_0 in *. lra.
  - destruct (taylor_rest n x) as [c [Hc E]]. rewrite Rmin_right, Rmax_left in Hc by lra. specialize (IH c ltac:(lra)).
    rewrite E. replace ((exp c - taylor n c) * x * (-1) ^ S (S n)) with ((exp c - taylor n c) * (-1) ^ S n * (- x)) by (cbn; ring). apply Rmult_le_pos; lra.
Qed.
Lemma exp_pow x n : exp (x * INR n) = exp x ^ n.
Proof. induction n as [|n IH]; [cbn; rewrite Rmult_0_r; apply exp_0|]. rewrite S_INR, Rmult_plus_distr_l, exp_plus, IH, Rmult_1_r. cbn. ring. Qed.
(** Comparing a power of a fraction with a fraction, by computation with integers. *)
Lemma frac_pow_lt a b n c d : (0 < b)%Z -> (0 < d)%Z -> (a ^ Z.of_nat n * d < c * b ^ Z.of_nat n)%Z -> (IZR a / IZR b) ^ n < IZR c / IZR d.
Proof.
  intros Hb Hd H. unfold Rdiv. rewrite Rpow_mult_distr, pow_inv, !pow_IZR.
  assert (0 < IZR (b ^ Z.of_nat n)) by (apply IZR_lt; apply Z.pow_pos_nonneg; lia). apply IZR_lt in Hd, H. rewrite !mult_IZR in H.
  apply (Rmult_lt_reg_r (IZR (b ^ Z.of_nat n) * IZR d)); [now apply Rmult_lt_0_compat|].
  field_simplify; lra.
Qed.
Lemma frac_pow_gt a b n c d : (0 < b)%Z -> (0 < d)%Z -> (c * b ^ Z.of_nat n < a ^ Z.of_nat n * d)%Z -> IZR c / IZR d < (IZR a / IZR b) ^ n.
Proof.
  intros Hb Hd H. unfold Rdiv. rewrite Rpow_mult_distr, pow_inv, !pow_IZR.
  assert (0 < IZR (b ^ Z.of_nat n)) by (apply IZR_lt; apply Z.pow_pos_nonneg; lia). apply IZR_lt in Hd, H. rewrite !mult_IZR in H.
  apply (Rmult_lt_reg_r (IZR (b ^ Z.of_nat n) * IZR d)); [now apply Rmult_lt_0_compat|].
  field_simplify; lra.
Qed.

(** ** ln 0.06 to seven digits: it lies strictly between -2.813411 and -2.81341. *)
Lemma ln_006_upper : ln (6/100) < - (281341/100000).
Proof.
  apply exp_lt_inv. rewrite exp_ln by lra.
  replace (- (281341/100000)) with (- (281341/6400000) * INR 64) by (cbn; lra). rewrite exp_pow.
  pose proof (taylor_neg 5 (- (281341/6400000)) ltac:(lra)) as H. cbn [taylor fact Nat.add Nat.mul] in H. cbn [INR pow] in H.
  assert (L : 956992684977/1000000000000 <= exp (- (281341/6400000))) by lra. clear H.
  apply Rlt_le_trans with ((956992684977/1000000000000) ^ 64); [|apply pow_incr; lra].
  apply frac_pow_gt; [reflexivity|reflexivity|vm_compute; reflexivity].
Qed.
Lemma ln_006_lower : - (2813411/1000000) < ln (6/100).
Proof.
  replace (ln (6/100)) with (- ln (100/6)) by (rewrite <- ln_Rinv by lra; f_equal; field). apply Ropp_lt_contravar.
  apply exp_lt_inv. rewrite exp_ln by lra.
  replace (2813411/1000000) with (2813411/64000000 * INR 64) by (cbn; lra). rewrite exp_pow.
  pose proof (taylor_lower 4 (2813411/64000000) ltac:(lra)) as H. cbn [taylor fact Nat.add Nat.mul] in H. cbn [INR pow] in H.
  assert (L : 1044940081563/1000000000000 <= exp (2813411/64000000)) by lra. clear H.
  apply Rlt_le_trans with ((1044940081563/1000000000000) ^ 64); [|apply pow_incr; lra].
  apply frac_pow_gt; [reflexivity|reflexivity|vm_compute; reflexivity].
Qed.

(** ** Slopes *)
Lemma turbulent_der Re : 0 < Re -> ln (6/100 * Re) <> 0 -> is_derive turbulent Re (turbulent_slope Re).
Proof.
  intros H L. unfold turbulent, turbulent_slope. auto_derive.
  - split; [lra|]. split; [|auto]. apply Rmult_integral_contrapositive_currified; [assumption|]. rewrite Rmult_1_r. assumption.
  - field. repeat split; lra.
Qed.
Lemma laminar_der Re : 0 < Re -> is_derive laminar Re (laminar_slope Re).
Proof.
  intros H. unfold laminar, laminar_slope. pose proof (sqrt_lt_R0 _ H) as Q. pose proof (sqrt_sqrt _ (Rlt_le _ _ H)) as QQ. auto_derive; [lra|].
  set (q := sqrt Re) in *. rewrite <- QQ. field. lra.
Qed.
Definition friction_slope (lam Re : R) : R :=
  if Rlt_dec 0 lam then turbulent_slope Re + lam ^ 2 * (laminar_slope (lam * Re) - turbulent_slope (lam * Re)) else turbulent_slope Re.
Lemma friction_der lam Re : 0 < Re -> ln (6/100 * Re) <> 0 -> (0 < lam -> ln (6/100 * (lam * Re)) <> 0) ->
  is_derive (friction lam) Re (friction_slope lam Re).
Proof.
  intros H L Ll. unfold friction, friction_slope. destruct (Rlt_dec 0 lam) as [P|P]; [|now apply turbulent_der].
  specialize (Ll P). assert (H' : 0 < lam * Re) by (now apply Rmult_lt_0_compat).
  pose proof (turbulent_der Re H L) as D1. pose proof (turbulent_der _ H' Ll) as D2. pose proof (laminar_der _ H') as D3.
  assert (D0 : is_derive (fun r => lam * r) Re lam) by (auto_derive; [auto|ring]).
  evar_last.
  - apply (is_derive_plus (K := R_AbsRing) (V := R_NormedModule)); [exact D1|].
    apply (is_derive_scal (fun r => laminar (lam * r) - turbulent (lam * r))).
    apply (is_derive_minus (K := R_AbsRing) (V := R_NormedModule)); [exact (is_derive_comp laminar (fun r => lam * r) Re _ _ D3 D0)|exact (is_derive_comp turbulent (fun r => lam * r) Re _ _ D2 D0)].
  - unfold plus, minus, opp, scal; cbn. unfold mult; cbn. ring.
Qed.
(** The code's slopes: the laminar one is exact, the turbulent one uses ln 0.06 = -2.81341. *)
Lemma blasius_slope Re : 0 < Re -> blasius' Re = laminar_slope Re.
Proof.
  intro H. unfold blasius', laminar_slope. replace (15/10) with (1 + / 2) by field. rewrite Rpower_plus, Rpower_1, Rpower_sqrt by assumption.
  pose proof (sqrt_lt_R0 _ H). field. split; lra.
Qed.
Lemma ln_scaled Re : 0 < Re -> ln Re - 281341/100000 = ln (6/100 * Re) + (- (281341/100000) - ln (6/100)).
Proof. intro H. rewrite ln_mult by lra. ring. Qed.
Lemma spalding_close Re : 0 < Re -> 1 <= ln (6/100 * Re) -> Rabs (spalding' Re - turbulent_slope Re) <= 3 / 10 ^ 6 * Rabs (turbulent_slope Re).
Proof.
  intros H L. unfold spalding', turbulent_slope. rewrite ln_scaled by assumption.
  pose proof ln_006_upper as U. pose proof ln_006_lower as W. set (d := - (281341/100000) - ln (6/100)) in *.
  assert (D : 0 < d < 1/1000000) by (unfold d; lra). clearbody d. set (l := ln (6/100 * Re)) in *. clearbody l.
  assert (Hl : 0 < l ^ 3) by (apply pow_lt; lra). assert (Hd : 0 < (l + d) ^ 3) by (apply pow_lt; lra).
  replace (- (1046/1000) / (Re * l ^ 3)) with (- (1046/1000 / (Re * l ^ 3))) by (field; lra).
  set (g := 1046/1000 / (Re * l ^ 3)). assert (G : 0 < g) by (unfold g; apply Rdiv_lt_0_compat; [lra|now apply Rmult_lt_0_compat]).
  replace (- (1046/1000) / (Re * (l + d) ^ 3)) with (- (g * (l ^ 3 / (l + d) ^ 3))) by (unfold g; field; lra).
  rewrite Rabs_Ropp, (Rabs_right g) by lra. replace (- (g * (l ^ 3 / (l + d) ^ 3)) - - g) with (g * (1 - l ^ 3 / (l + d) ^ 3)) by ring.
  assert (Q : 0 <= 1 - l ^ 3 / (l + d) ^ 3 <= 3 * d).
  { assert (E : 1 - l ^ 3 / (l + d) ^ 3 = ((l + d) ^ 3 - l ^ 3) / (l + d) ^ 3) by (field; lra). rewrite E. split.
    - apply Rlt_le, Rdiv_lt_0_compat; [|assumption]. replace ((l + d) ^ 3 - l ^ 3) with (d * (3 * l * l + 3 * l * d + d * d)) by ring. apply Rmult_lt_0_compat; [lra|nra].
    - apply (Rmult_le_reg_r ((l + d) ^ 3)); [assumption|]. unfold Rdiv. rewrite Rmult_assoc, Rinv_l, Rmult_1_r by lra.
      replace ((l + d) ^ 3 - l ^ 3) with (d * (3 * l * l + 3 * l * d + d * d)) by ring.
      replace (3 * d * (l + d) ^ 3) with (d * (3 * (l + d) ^ 3)) by ring. apply Rmult_le_compat_l; [lra|].
      assert (3 * l * l + 3 * l * d + d * d <= 3 * (l + d) ^ 2) by nra.
      assert ((l + d) ^ 2 <= (l + d) ^ 3) by (assert (1 <= l + d) by lra; replace ((l + d) ^ 3) with ((l + d) ^ 2 * (l + d)) by ring; rewrite <- (Rmult_1_r ((l + d) ^ 2)) at 1; apply Rmult_le_compat_l; [apply pow2_ge_0|assumption]). lra. }
  rewrite Rabs_right by (apply Rle_ge, Rmult_le_pos; lra). rewrite (Rmult_comm (3 / 10 ^ 6)). apply Rmult_le_compat_l; [lra|].
  apply Rle_trans with (1 := proj2 Q). cbn [pow]. lra.
Qed.
Lemma spalding_differs Re : 0 < Re -> 0 < ln (6/100 * Re) -> spalding' Re <> turbulent_slope Re.
Proof.
  intros H L. unfold spalding', turbulent_slope. rewrite ln_scaled by assumption. pose proof ln_006_upper as U.
  set (d := - (281341/100000) - ln (6/100)) in *. assert (D : 0 < d) by (unfold d; lra). clearbody d. set (l := ln (6/100 * Re)) in *. clearbody l. clear U.
  assert (Hl : 0 < l ^ 3) by (apply pow_lt; lra). assert (Hd : l ^ 3 < (l + d) ^ 3).
  { apply Rminus_gt_0_lt. replace ((l + d) ^ 3 - l ^ 3) with (d * (3 * l * l + 3 * l * d + d * d)) by ring. apply Rmult_lt_0_compat; nra. }
  intro E. set (a := l ^ 3) in *. set (b := (l + d) ^ 3) in *. clearbody a b.
  assert (E' : (- (1046/1000) / (Re * b)) * (Re * a * b) = (- (1046/1000) / (Re * a)) * (Re * a * b)) by now rewrite E.
  assert (E1 : (- (1046/1000) / (Re * b)) * (Re * a * b) = - (1046/1000) * a) by (field; lra).
  assert (E2 : (- (1046/1000) / (Re * a)) * (Re * a * b) = - (1046/1000) * b) by (field; lra). lra.
Qed.

(** ** Monotonicity *)
Lemma ln_ge_1 x c : 0 < x -> exp c <= x -> c <= ln x.
Proof. intros H E. rewrite <- (ln_exp c). destruct E as [E | <-]; [left; apply ln_increasing; [apply exp_pos|assumption]|right; reflexivity]. Qed.
Lemma turbulent_pos Re : ln (6/100 * Re) <> 0 -> 0 < turbulent Re.
Proof. intro H. unfold turbulent. apply Rdiv_lt_0_compat; [lra|]. assert (0 <= ln (6/100 * Re) ^ 2) by apply pow2_ge_0. assert (ln (6/100 * Re) ^ 2 <> 0) by now apply pow_nonzero. lra. Qed.
Lemma laminar_pos Re : 0 < Re -> 0 < laminar Re.
Proof. intro H. unfold laminar. apply Rdiv_lt_0_compat; [lra|now apply sqrt_lt_R0]. Qed.
Lemma turbulent_decr a b : 0 < a -> 0 < ln (6/100 * a) -> a < b -> turbulent b < turbulent a.
Proof.
  intros Ha La H. unfold turbulent. assert (L : ln (6/100 * a) < ln (6/100 * b)) by (apply ln_increasing; lra).
  set (x := ln (6/100 * a)) in *. set (y := ln (6/100 * b)) in *. clearbody x y. apply Rmult_lt_compat_l; [lra|].
  apply Rinv_lt_contravar; [apply Rmult_lt_0_compat; apply pow_lt; lra|]. nra.
Qed.
Lemma laminar_decr a b : 0 < a -> a < b -> laminar b < laminar a.
Proof.
  intros Ha H. unfold laminar. pose proof (sqrt_lt_R0 _ Ha). assert (sqrt a < sqrt b) by (apply sqrt_lt_1; lra).
  apply Rmult_lt_compat_l; [lra|]. apply Rinv_lt_contravar; [apply Rmult_lt_0_compat; lra|assumption].
Qed.
Lemma exp_ge x : 1 + x <= exp x.
Proof. destruct (Req_dec x 0) as [->|N]; [rewrite exp_0; lra|]. pose proof (exp_ineq1 x N). lra. Qed.
(** The drag of the front part of a turbulent plate is at most that of the whole plate. *)
Lemma front_le lam Re : 0 < Re -> 0 < lam <= 1 -> 2 <= ln (6/100 * (lam * Re)) -> lam * turbulent (lam * Re) <= turbulent Re.
Proof.
  intros H [P Q] L. unfold turbulent.
  assert (E : ln (6/100 * Re) = ln (6/100 * (lam * Re)) + - ln lam).
  { replace (6/100 * (lam * Re)) with (lam * (6/100 * Re)) by ring. rewrite (ln_mult lam) by lra. ring. }
  rewrite E. set (l := ln (6/100 * (lam * Re))) in *. clearbody l. set (u := - ln lam).
  assert (Lu : lam = exp (- u)) by (unfold u; rewrite Ropp_involutive, exp_ln; lra).
  assert (Hu : 0 <= u). { unfold u. destruct (Req_dec lam 1) as [->|]; [rewrite ln_1; lra|]. assert (ln lam < ln 1) by (apply ln_increasing; lra). rewrite ln_1 in *. lra. }
  rewrite Lu. clearbody u. clear E Lu P Q lam.
  replace (exp (- u) * (523/1000 / l ^ 2)) with (523/1000 * (exp (- u) / l ^ 2)) by (field; lra). apply Rmult_le_compat_l; [lra|].
  assert (K : (l + u) ^ 2 <= l ^ 2 * exp u).
  { pose proof (exp_ge (u / 2)) as G. replace (exp u) with (exp (u / 2) ^ 2) by (cbn; rewrite Rmult_1_r, <- exp_plus; f_equal; field).
    rewrite <- Rpow_mult_distr. apply pow_incr. split; [lra|]. apply Rle_trans with (l * (1 + u / 2)); [nra|]. apply Rmult_le_compat_l; lra. }
  rewrite exp_Ropp. assert (0 < l ^ 2) by (apply pow_lt; lra). assert (0 < (l + u) ^ 2) by (apply pow_lt; lra). pose proof (exp_pos u).
  apply (Rmult_le_reg_r ((l + u) ^ 2 * (l ^ 2 * exp u))); [apply Rmult_lt_0_compat; [assumption|apply Rmult_lt_0_compat; assumption]|].
  replace (/ exp u / l ^ 2 * ((l + u) ^ 2 * (l ^ 2 * exp u))) with ((l + u) ^ 2) by (field; lra).
  replace (/ (l + u) ^ 2 * ((l + u) ^ 2 * (l ^ 2 * exp u))) with (l ^ 2 * exp u) by (field; lra). exact K.
Qed.
Lemma friction_pos lam Re : 0 < Re -> ln (6/100 * Re) <> 0 -> (0 < lam -> lam <= 1 /\ 2 <= ln (6/100 * (lam * Re))) -> 0 < friction lam Re.
Proof.
  intros H L K. unfold friction. destruct (Rlt_dec 0 lam) as [P|P]; [|now apply turbulent_pos].
  destruct (K P) as [K1 K2]. pose proof (front_le lam Re H ltac:(lra) K2). pose proof (laminar_pos (lam * Re) ltac:(now apply Rmult_lt_0_compat)).
  assert (0 < lam * laminar (lam * Re)) by (now apply Rmult_lt_0_compat). lra.
Qed.
Lemma friction_slope_neg lam Re : 0 < Re -> 0 < ln (6/100 * Re) -> (0 < lam -> lam <= 1 /\ 3 <= ln (6/100 * (lam * Re))) -> friction_slope lam Re < 0.
Proof.
  intros H L K. unfold friction_slope. 
  assert (T : turbulent_slope Re < 0).
  { unfold turbulent_slope. assert (0 < 1046/1000 / (Re * ln (6/100 * Re) ^ 3)) by (apply Rdiv_lt_0_compat; [lra|]; apply Rmult_lt_0_compat; [assumption|now apply pow_lt]).
    assert (ln (6/100 * Re) ^ 3 <> 0) by (apply pow_nonzero; lra). replace (- (1046/1000) / (Re * ln (6/100 * Re) ^ 3)) with (- (1046/1000 / (Re * ln (6/100 * Re) ^ 3))) by (field; split; lra). lra. }
  destruct (Rlt_dec 0 lam) as [P|P]; [|assumption]. destruct (K P) as [K1 K2]. clear T.
  assert (H' : 0 < lam * Re) by (now apply Rmult_lt_0_compat).
  assert (A : laminar_slope (lam * Re) < 0).
  { unfold laminar_slope. pose proof (sqrt_lt_R0 _ H'). assert (0 < 132824/200000 / (lam * Re * sqrt (lam * Re))) by (apply Rdiv_lt_0_compat; [lra|now apply Rmult_lt_0_compat]).
    replace (- (132824/200000) / (lam * Re * sqrt (lam * Re))) with (- (132824/200000 / (lam * Re * sqrt (lam * Re)))) by (field; repeat split; lra). lra. }
  assert (B : turbulent_slope Re <= lam ^ 2 * turbulent_slope (lam * Re)).
  { unfold turbulent_slope. 
    assert (E : ln (6/100 * Re) = ln (6/100 * (lam * Re)) + - ln lam).
    { replace (6/100 * (lam * Re)) with (lam * (6/100 * Re)) by ring. rewrite (ln_mult lam) by lra. ring. }
    rewrite E. set (l := ln (6/100 * (lam * Re))) in *. clearbody l. set (u := - ln lam).
    assert (Lu : lam = exp (- u)) by (unfold u; rewrite Ropp_involutive, exp_ln; lra).
    assert (Hu : 0 <= u). { unfold u. destruct (Req_dec lam 1) as [->|]; [rewrite ln_1; lra|]. assert (ln lam < ln 1) by (apply ln_increasing; lra). rewrite ln_1 in *. lra. }
    clearbody u. assert (0 < l ^ 3) by (apply pow_lt; lra). assert (0 < (l + u) ^ 3) by (apply pow_lt; lra).
    assert (K3 : lam * (l + u) ^ 3 <= l ^ 3).
    { rewrite Lu, exp_Ropp. pose proof (exp_pos u). apply (Rmult_le_reg_r (exp u)); [assumption|]. replace (/ exp u * (l + u) ^ 3 * exp u) with ((l + u) ^ 3) by (field; lra).
      pose proof (exp_ge (u / 3)) as G. replace (exp u) with (exp (u / 3) ^ 3) by (cbn; rewrite Rmult_1_r, <- !exp_plus; f_equal; field).
      rewrite <- Rpow_mult_distr. apply pow_incr. split; [lra|]. apply Rle_trans with (l * (1 + u / 3)); [nra|]. apply Rmult_le_compat_l; lra. }
    replace (- (1046/1000) / (Re * (l + u) ^ 3)) with (- (1046/1000 / (Re * l ^ 3 * (l + u) ^ 3) * l ^ 3)) by (field; split; lra).
    replace (lam ^ 2 * (- (1046/1000) / (lam * Re * l ^ 3))) with (- (1046/1000 / (Re * l ^ 3 * (l + u) ^ 3) * (lam * (l + u) ^ 3))) by (field; repeat split; lra).
    apply Ropp_le_contravar, Rmult_le_compat_l; [|assumption]. apply Rlt_le, Rdiv_lt_0_compat; [lra|]. apply Rmult_lt_0_compat; [apply Rmult_lt_0_compat; assumption|assumption]. }
  assert (0 < lam ^ 2) by now apply pow_lt. assert (0 < lam ^ 2 * - laminar_slope (lam * Re)) by (apply Rmult_lt_0_compat; lra). nra.
Qed.
Lemma friction_decr lam a b : 0 < a -> a < b -> 0 < ln (6/100 * a) -> (0 < lam -> lam <= 1 /\ 3 <= ln (6/100 * (lam * a))) -> friction lam b < friction lam a.
Proof.
  intros Ha H L K.
  assert (G : forall r, a <= r -> 0 < ln (6/100 * r) /\ (0 < lam -> lam <= 1 /\ 3 <= ln (6/100 * (lam * r)))).
  { intros r [Hr|<-]; [|tauto]. split; [apply Rlt_trans with (1 := L), ln_increasing; lra|]. intro P. destruct (K P) as [K1 K2]. split; [assumption|].
    apply Rle_trans with (1 := K2), Rlt_le, ln_increasing; [apply Rmult_lt_0_compat; [lra|now apply Rmult_lt_0_compat]|]. apply Rmult_lt_compat_l; [lra|]. now apply Rmult_lt_compat_l. }
  destruct (MVT_gen (friction lam) a b (friction_slope lam)) as [c [Hc E]].
  - intros r Hr. rewrite Rmin_left in Hr by lra. destruct (G r ltac:(lra)) as [G1 G2]. apply friction_der; [lra|lra|intro P; destruct (G2 P); lra].
  - intros r Hr. rewrite Rmin_left in Hr by lra. destruct (G r ltac:(lra)) as [G1 G2]. apply derivable_continuous_pt. exists (friction_slope lam r). apply is_derive_Reals.
    apply friction_der; [lra|lra|intro P; destruct (G2 P); lra].
  - rewrite Rmin_left, Rmax_right in Hc by lra. destruct (G c ltac:(lra)) as [G1 G2].
    pose proof (friction_slope_neg lam c ltac:(lra) G1 G2). assert (0 < - friction_slope lam c * (b - a)) by (apply Rmult_lt_0_compat; lra). lra.
Qed.
(** Laminar flow reduces friction once the laminar part's Reynolds number reaches 20000. *)
Lemma ln_1200 : ln 1200 < 74/10.
Proof.
  apply exp_lt_inv. rewrite exp_ln by lra. replace (74/10) with (74/640 * INR 64) by (cbn; lra). rewrite exp_pow.
  pose proof (taylor_lower 2 (74/640) ltac:(lra)) as H. cbn [taylor fact Nat.add Nat.mul] in H. cbn [INR pow] in H.
  assert (Q : 11222/10000 <= exp (74/640)) by lra. clear H. apply Rlt_le_trans with ((11222/10000) ^ 64); [|apply pow_incr; lra].
  apply Rle_lt_trans with (IZR 1200 / IZR 1); [lra|]. apply frac_pow_gt; [reflexivity|reflexivity|vm_compute; reflexivity].
Qed.
Lemma laminar_le x : 20000 <= x -> laminar x <= turbulent x.
Proof.
  intro H. set (u := ln (x / 20000)). assert (X : x = 20000 * exp u) by (unfold u; rewrite exp_ln; lra).
  assert (Hu : 0 <= u). { unfold u. destruct H as [H|<-]; [|replace (20000 / 20000) with 1 by field; rewrite ln_1; lra]. rewrite <- ln_1. apply Rlt_le, ln_increasing; lra. }
  clearbody u. subst x. clear H. unfold laminar, turbulent. pose proof (exp_pos u) as Eu.
  replace (6/100 * (20000 * exp u)) with (1200 * exp u) by field. rewrite ln_mult, ln_exp by lra. pose proof ln_1200 as L.
  assert (L0 : 0 < ln 1200) by (rewrite <- ln_1; apply ln_increasing; lra). set (l := ln 1200) in *. clearbody l.
  rewrite sqrt_mult by lra. assert (S : 141 <= sqrt 20000).
  { replace 141 with (sqrt (141 * 141)) by (rewrite sqrt_square; lra). apply sqrt_le_1; lra. }
  assert (Q : sqrt (exp u) = exp (u / 4) ^ 2).
  { replace (exp u) with (exp (u / 4) ^ 2 * exp (u / 4) ^ 2) by (cbn; rewrite !Rmult_1_r, <- !exp_plus; f_equal; field). rewrite sqrt_square; [reflexivity|apply pow2_ge_0]. }
  rewrite Q. pose proof (exp_ge (u / 4)) as G. set (q := exp (u / 4)) in *. clearbody q. assert (B : l + u <= 74/10 * q) by lra.
  set (s := sqrt 20000) in *. clearbody s. assert (0 < q ^ 2) by (apply pow_lt; lra). assert (0 < s * q ^ 2) by (apply Rmult_lt_0_compat; lra).
  assert (C : (l + u) ^ 2 <= (74/10 * q) ^ 2) by (apply pow_incr; lra).
  assert (0 < (l + u) ^ 2) by (apply pow_lt; lra).
  apply (Rmult_le_reg_r (s * q ^ 2 * (l + u) ^ 2)); [now apply Rmult_lt_0_compat|].
  replace (132824/100000 / (s * q ^ 2) * (s * q ^ 2 * (l + u) ^ 2)) with (132824/100000 * (l + u) ^ 2) by (field; split; lra).
  replace (523/1000 / (l + u) ^ 2 * (s * q ^ 2 * (l + u) ^ 2)) with (523/1000 * (s * q ^ 2)) by (field; lra).
  assert (141 * q ^ 2 <= s * q ^ 2) by (apply Rmult_le_compat_r; lra). replace ((74/10 * q) ^ 2) with (5476/100 * q ^ 2) in C by field. lra.
Qed.
Lemma laminar_gt : turbulent 1000 < laminar 1000.
Proof.
  unfold turbulent, laminar. replace (6/100 * 1000) with 60 by field.
  assert (L : 4 < ln 60).
  { apply exp_lt_inv. rewrite exp_ln by lra. rewrite <- (Ropp_involutive 4), exp_Ropp. replace (- (4)) with (- (4/64) * INR 64) by (cbn; lra). rewrite exp_pow.
    pose proof (taylor_neg 3 (- (4/64)) ltac:(lra)) as H. cbn [taylor fact Nat.add Nat.mul] in H. cbn [INR pow] in H.
    assert (Q : 9394/10000 <= exp (- (4/64))) by lra. clear H. assert (P : (9394/10000) ^ 64 <= exp (- (4/64)) ^ 64) by (apply pow_incr; lra).
    assert (IZR 1 / IZR 60 < (9394/10000) ^ 64) by (apply frac_pow_gt; [reflexivity|reflexivity|vm_compute; reflexivity]).
    apply Rlt_le_trans with (/ (1 / 60)); [|lra]. apply Rinv_lt_contravar; [apply Rmult_lt_0_compat; lra|lra]. }
  assert (S : sqrt 1000 < 32). { replace 32 with (sqrt (32 * 32)) by (rewrite sqrt_square; lra). apply sqrt_lt_1; lra. }
  pose proof (sqrt_lt_R0 1000 ltac:(lra)). set (s := sqrt 1000) in *. clearbody s. set (l := ln 60) in *. clearbody l.
  apply Rlt_trans with (523/1000 / 16).
  - apply Rmult_lt_compat_l; [lra|]. apply Rinv_lt_contravar; nra.
  - apply Rlt_trans with (132824/100000 / 32); [lra|]. apply Rmult_lt_compat_l; [lra|]. apply Rinv_lt_contravar; nra.
Qed.
