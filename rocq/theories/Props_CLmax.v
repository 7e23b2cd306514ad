(** C83: the maximum lift coefficient of CLmaxCriticalSectionVLM. *)
From Coq Require Import Reals List Bool PeanoNat String Lia Lra.
From Verif Require Import Base Py Model_Algebra Model_Net Proofs_Net Model_Thermal Model_Systems Model_Polar Spec_Polar.
Import ListNotations.
Open Scope string_scope.
Open Scope list_scope.
Open Scope R_scope.

(** ** The smooth maximum *)
Lemma max_ge n g j : (j < n)%nat -> g j <= max_of n g.
Proof.
  revert j. induction n as [|n IH]; intros j Hj; [lia|]. destruct n as [|n]; [replace j with 0%nat by lia; apply Rle_refl|].
  change (max_of (S (S n)) g) with (Rmax (max_of (S n) g) (g (S n))). destruct (Nat.eq_dec j (S n)) as [->|]; [apply Rmax_r|].
  eapply Rle_trans; [apply IH; lia | apply Rmax_l].
Qed.
Lemma max_at n g : (0 < n)%nat -> exists j, (j < n)%nat /\ max_of n g = g j.
Proof.
  induction n as [|n IH]; intros Hn; [lia|]. destruct n as [|n]; [exists 0%nat; split; [lia|reflexivity]|].
  change (max_of (S (S n)) g) with (Rmax (max_of (S n) g) (g (S n))). destruct (IH ltac:(lia)) as [j [Hj E]].
  unfold Rmax. destruct (Rle_dec _ _); [exists (S n); split; [lia|reflexivity] | exists j; split; [lia|exact E]].
Qed.
Lemma sum_le n f f' : (forall j, (j < n)%nat -> f j <= f' j) -> sum_of n f <= sum_of n f'.
Proof. induction n as [|n IH]; intros H; cbn [sum_of]; [lra|]. pose proof (H n ltac:(lia)). pose proof (IH ltac:(intros; apply H; lia)). lra. Qed.
Lemma sum_lt n f f' : (0 < n)%nat -> (forall j, (j < n)%nat -> f j < f' j) -> sum_of n f < sum_of n f'.
Proof.
  induction n as [|n IH]; intros Hn H; [lia|]. cbn [sum_of]. pose proof (H n ltac:(lia)). destruct n as [|n]; [cbn; lra|]. pose proof (IH ltac:(lia) ltac:(intros; apply H; lia)). lra.
Qed.
Lemma sum_const n c : sum_of n (fun _ => c) = INR n * c.
Proof. induction n as [|n IH]; [cbn; ring|]. cbn [sum_of]. rewrite IH, S_INR. ring. Qed.
Lemma sum_term n f j : (forall i, (i < n)%nat -> 0 < f i) -> (j < n)%nat -> f j <= sum_of n f.
Proof.
  intros H. induction n as [|n IH]; intros Hj; [lia|]. cbn [sum_of]. assert (P : 0 <= sum_of n f).
  { pose proof (sum_le n (fun _ => 0) f ltac:(intros i Hi; apply Rlt_le, H; lia)) as Q. rewrite sum_const in Q. lra. }
  destruct (Nat.eq_dec j n) as [->|]; [lra|]. pose proof (IH ltac:(intros; apply H; lia) ltac:(lia)). pose proof (H n ltac:(lia)). lra.
Qed.
Lemma sum_scale n c f : sum_of n (fun j => c * f j) = c * sum_of n f.
Proof. induction n as [|n IH]; cbn [sum_of]; [ring|]. rewrite IH. ring. Qed.
Lemma sum_ext n f f' : (forall j, (j < n)%nat -> f j = f' j) -> sum_of n f = sum_of n f'.
Proof. induction n as [|n IH]; intros H; cbn [sum_of]; [reflexivity|]. rewrite (H n) by lia. f_equal. apply IH. intros; apply H; lia. Qed.
Lemma sum_exp_pos n f : (0 < n)%nat -> 0 < sum_of n (fun j => exp (f j)).
Proof.
  intros Hn. eapply Rlt_le_trans; [apply (exp_pos (f 0%nat))|]. apply (sum_term n (fun j => exp (f j)) 0%nat); [intros; apply exp_pos | exact Hn].
Qed.
(** Shifting by the maximum does not change the value. *)
Lemma KS_plain rho n g : 0 < rho -> (0 < n)%nat -> KS rho n g = 1 / rho * ln (sum_of n (fun j => exp (rho * g j))).
Proof.
  intros Hr Hn. unfold KS. set (m := max_of n g).
  assert (E : sum_of n (fun j => exp (rho * g j)) = exp (rho * m) * sum_of n (fun j => exp (rho * (g j - m)))).
  { rewrite <- sum_scale. apply sum_ext. intros j _. rewrite <- exp_plus. f_equal. ring. }
  rewrite E, ln_mult, ln_exp; [field; lra | apply exp_pos | now apply sum_exp_pos].
Qed.
Lemma KS_ge rho n g j : 0 < rho -> (j < n)%nat -> g j <= KS rho n g.
Proof.
  intros Hr Hj. rewrite KS_plain by (try assumption; lia). apply Rmult_le_reg_l with rho; [exact Hr|]. replace (rho * (1 / rho * ln (sum_of n (fun j => exp (rho * g j))))) with (ln (sum_of n (fun j => exp (rho * g j)))) by (field; lra).
  rewrite <- (ln_exp (rho * g j)). apply Rcomplements.ln_le; [apply exp_pos|]. apply (sum_term n (fun j => exp (rho * g j)) j); [intros; apply exp_pos | exact Hj].
Qed.
Lemma KS_gt rho n g j : 0 < rho -> (1 < n)%nat -> (j < n)%nat -> g j < KS rho n g.
Proof.
  intros Hr Hn Hj. rewrite KS_plain by (try assumption; lia). apply Rmult_lt_reg_l with rho; [exact Hr|]. replace (rho * (1 / rho * ln (sum_of n (fun j => exp (rho * g j))))) with (ln (sum_of n (fun j => exp (rho * g j)))) by (field; lra).
  rewrite <- (ln_exp (rho * g j)) at 1. apply ln_increasing; [apply exp_pos|].
  assert (P : forall n j, (1 < n)%nat -> (j < n)%nat -> exp (rho * g j) < sum_of n (fun j => exp (rho * g j))).
  { clear. induction n as [|n IH]; intros j Hn Hj; [lia|]. cbn [sum_of]. destruct (Nat.eq_dec j n) as [->|].
    - pose proof (sum_exp_pos n (fun j => rho * g j) ltac:(lia)). lra.
    - pose proof (exp_pos (rho * g n)). pose proof (sum_term n (fun j => exp (rho * g j)) j ltac:(intros; apply exp_pos) ltac:(lia)). cbv beta in *. lra. }
  apply P; assumption.
Qed.
Lemma KS_le rho n g : 0 < rho -> (0 < n)%nat -> KS rho n g <= max_of n g + ln (INR n) / rho.
Proof.
  intros Hr Hn. unfold KS. assert (L : ln (sum_of n (fun j => exp (rho * (g j - max_of n g)))) <= ln (INR n)).
  { apply Rcomplements.ln_le; [now apply sum_exp_pos|]. eapply Rle_trans; [apply (sum_le n _ (fun _ => 1))|rewrite sum_const; lra].
    intros j Hj. rewrite <- exp_0. pose proof (max_ge n g j Hj). destruct (Rle_lt_or_eq_dec (rho * (g j - max_of n g)) 0) as [Q|Q]; [nra | left; now apply exp_increasing | right; now rewrite Q]. }
  apply Rplus_le_compat_l. unfold Rdiv. rewrite Rmult_1_l, Rmult_comm. apply Rmult_le_compat_r; [left; now apply Rinv_0_lt_compat | exact L].
Qed.
Lemma KS_lt rho n g g' : 0 < rho -> (0 < n)%nat -> (forall j, (j < n)%nat -> g j < g' j) -> KS rho n g < KS rho n g'.
Proof.
  intros Hr Hn H. rewrite !KS_plain by assumption. apply Rmult_lt_compat_l; [apply Rdiv_lt_0_compat; lra|]. apply ln_increasing; [now apply sum_exp_pos|].
  apply sum_lt; [exact Hn|]. intros j Hj. apply exp_increasing. apply Rmult_lt_compat_l; [exact Hr | now apply H].
Qed.

(** ** Reading the group *)
Section Group.
  Variables (n : nat) (vec : bool) (rho : R) (CL : env -> R -> R) (Cl : env -> R -> nat -> R) (V : env).
  Let G := CLmaxCriticalSectionVLM n vec rho CL Cl.
  Hypothesis (Hn : (0 < n)%nat) (S : solution G V) (Dep : lift_of_inputs CL Cl).
  Let al := V "sectional_CL_balance.alpha" 0%nat.
  Lemma lift_reads : V "CL_max" 0%nat = CL V al /\ forall j, (j < n)%nat -> V "VLM.sectional_CL" j = Cl V al j.
  Proof.
    assert (R1 := sol_rel G V _ S (or_introl eq_refl)). destruct R1 as [R1 R2].
    destruct (Dep (reads G (lifting_sub n CL Cl) V) V) as [D1 D2].
    { intros k I. repeat (destruct I as [<- | I]; [reflexivity|]). destruct I. }
    rewrite D1 in R1. rewrite D2 in R2. split; [exact R1 | exact R2].
  Qed.
  Lemma limit_rows : (n <= rows (as_vec (limit_eq n vec)))%nat.
  Proof. cbn. destruct vec; lia. Qed.
  Lemma limit_reads j : (j < n)%nat -> V "Cl_max_limit.Cl_limit_vec" j = Cl V al j - limit vec V j.
  Proof.
    intros Hj. assert (R2 := sol_rel G V _ S (or_intror (or_introl eq_refl)) _ (or_introl eq_refl) j ltac:(pose proof limit_rows; lia)).
    change (as_out (limit_eq n vec)) with "Cl_limit_vec" in R2. change (writes (adders "Cl_max_limit" [limit_eq n vec] [As "Cl_max" "ac|aero|airfoil_Cl_max"] []) V "Cl_limit_vec") with (V "Cl_max_limit.Cl_limit_vec") in R2.
    rewrite <- (proj2 lift_reads j Hj).
    revert R2. unfold add_compute, add_resolve, limit_eq. cbn [as_sf as_ins as_vec as_len as_out List.length Nat.eqb negb].
    destruct (read_sizes _ _) as [vs|e] eqn:E; [|discriminate]. cbn [res_bind].
    assert (Ev : snd vs = [n; if vec then n else 1%nat]).
    { revert E. unfold read_sizes. cbn. repeat match goal with |- context [if ?b then _ else _] => destruct b end; intros E; try discriminate E; injection E as <-; reflexivity. }
    destruct (negb _); [discriminate|]. cbn [res_bind]. rewrite Ev. cbn [combine fold_left fst snd]. intros [= <-].
    unfold reads, limit. cbn.
    assert (B : bidx n 1 j = j). { unfold bidx. destruct (Nat.eqb_spec n 1); [assert (j = 0%nat) by lia; subst j; reflexivity | cbn; try lia; reflexivity]. }
    rewrite B. destruct vec; [rewrite B; ring|]. unfold bidx. cbn. destruct j; ring.
  Qed.
  Lemma balance_reads : KS rho n (fun j => Cl V al j - limit vec V j) = 0.
  Proof.
    assert (R3 := sol_rel G V _ S (or_intror (or_intror (or_introl eq_refl)))).
    assert (R4 := sol_rel G V _ S (or_intror (or_intror (or_intror (or_introl eq_refl)))) 0%nat ltac:(lia)).
    change (V "max_limit.KS" 0%nat = KS rho n (V "Cl_max_limit.Cl_limit_vec")) in R3. change (V "max_limit.KS" 0%nat = 0) in R4. rewrite R4 in R3. rewrite R3 at 1.
    unfold KS. assert (Mx : forall k g g', (forall j, (j < k)%nat -> g j = g' j) -> max_of k g = max_of k g').
    { induction k as [|k IH]; intros g g' H; [reflexivity|]. destruct k as [|k]; [cbn; apply H; lia|]. change (max_of (Datatypes.S (Datatypes.S k)) g) with (Rmax (max_of (Datatypes.S k) g) (g (Datatypes.S k))).
      change (max_of (Datatypes.S (Datatypes.S k)) g') with (Rmax (max_of (Datatypes.S k) g') (g' (Datatypes.S k))). rewrite (IH g g'), (H (Datatypes.S k)) by (intros; try apply H; lia). reflexivity. }
    assert (E : forall j, (j < n)%nat -> Cl V al j - limit vec V j = V "Cl_max_limit.Cl_limit_vec" j) by (intros j Hj; symmetry; now apply limit_reads).
    rewrite (Mx n _ _ E). f_equal. f_equal. f_equal. apply sum_ext. intros j Hj. rewrite (E j Hj). reflexivity.
  Qed.
End Group.

(** ** C83 *)
(** No strip is above its limit, and some strip is within ln(num_y) / rho of it. *)
Theorem C83_limits : forall n vec rho CL Cl V, (0 < n)%nat -> 0 < rho -> lift_of_inputs CL Cl ->
  solution (CLmaxCriticalSectionVLM n vec rho CL Cl) V ->
  (forall j, (j < n)%nat -> V "VLM.sectional_CL" j <= limit vec V j) /\
  ((1 < n)%nat -> forall j, (j < n)%nat -> V "VLM.sectional_CL" j < limit vec V j) /\
  (exists j, (j < n)%nat /\ limit vec V j - ln (INR n) / rho <= V "VLM.sectional_CL" j).
Proof.
  intros n vec rho CL Cl V Hn Hr Dep S. pose proof (balance_reads n vec rho CL Cl V Hn S Dep) as B. destruct (lift_reads n vec rho CL Cl V S Dep) as [_ L].
  set (al := V "sectional_CL_balance.alpha" 0%nat) in *. split; [|split].
  - intros j Hj. rewrite L by exact Hj. pose proof (KS_ge rho n (fun j => Cl V al j - limit vec V j) j Hr Hj). cbv beta in *. lra.
  - intros Hn1 j Hj. rewrite L by exact Hj. pose proof (KS_gt rho n (fun j => Cl V al j - limit vec V j) j Hr Hn1 Hj). cbv beta in *. lra.
  - destruct (max_at n (fun j => Cl V al j - limit vec V j) Hn) as [j [Hj E]]. exists j. split; [exact Hj|]. rewrite L by exact Hj.
    pose proof (KS_le rho n (fun j => Cl V al j - limit vec V j) Hr Hn). cbv beta in *. lra.
Qed.
Print Assumptions C83_limits.

(** One strip: exactly the limit. *)
Theorem C83_one_strip : forall vec rho CL Cl V, 0 < rho -> lift_of_inputs CL Cl -> solution (CLmaxCriticalSectionVLM 1 vec rho CL Cl) V ->
  V "VLM.sectional_CL" 0%nat = V "ac|aero|airfoil_Cl_max" 0%nat.
Proof.
  intros vec rho CL Cl V Hr Dep S. destruct (C83_limits 1 vec rho CL Cl V ltac:(lia) Hr Dep S) as (A & _ & j & Hj & B). replace j with 0%nat in B by lia. specialize (A 0%nat ltac:(lia)).
  unfold limit in *. cbn [INR] in B. rewrite ln_1 in B. unfold Rdiv in B. destruct vec; lra.
Qed.
Print Assumptions C83_one_strip.

(** The maximum lift is on the safe side of the critical section method, and close to it. *)
Theorem C83_conservative : forall n vec rho CL Cl V al0, (0 < n)%nat -> 0 < rho -> lift_of_inputs CL Cl ->
  solution (CLmaxCriticalSectionVLM n vec rho CL Cl) V ->
  (forall a b j, (j < n)%nat -> a < b -> Cl V a j < Cl V b j) ->
  critical n (Cl V) (limit vec V) al0 ->
  V "sectional_CL_balance.alpha" 0%nat <= al0 /\
  ((forall a b, a <= b -> CL V a <= CL V b) -> V "CL_max" 0%nat <= CL V al0) /\
  (forall slope, 0 < slope -> (forall a b j, (j < n)%nat -> a <= b -> slope * (b - a) <= Cl V b j - Cl V a j) ->
     al0 - ln (INR n) / (rho * slope) <= V "sectional_CL_balance.alpha" 0%nat).
Proof.
  intros n vec rho CL Cl V al0 Hn Hr Dep S Mono [C1 [j0 [Hj0 C2]]]. pose proof (C83_limits n vec rho CL Cl V Hn Hr Dep S) as (A & _ & j & Hj & B). destruct (lift_reads n vec rho CL Cl V S Dep) as [E L].
  set (al := V "sectional_CL_balance.alpha" 0%nat) in *.
  assert (Le : al <= al0).
  { destruct (Rle_or_lt al al0) as [Q|Q]; [exact Q|]. pose proof (Mono al0 al j0 Hj0 Q) as M. specialize (A j0 Hj0). rewrite L in A by exact Hj0. lra. }
  split; [exact Le|]. split; [intros MC; rewrite E; now apply MC|].
  intros k Hk Sl. pose proof (Sl al al0 j Hj Le) as Q. specialize (C1 j Hj). rewrite L in B by exact Hj.
  apply Rmult_le_reg_l with k; [exact Hk|]. replace (k * (al0 - ln (INR n) / (rho * k))) with (k * al0 - ln (INR n) / rho) by (field; lra). lra.
Qed.
Print Assumptions C83_conservative.

(** The answer is unique. *)
Theorem C83_unique : forall n vec rho CL Cl V V', (0 < n)%nat -> 0 < rho -> lift_of_inputs CL Cl ->
  solution (CLmaxCriticalSectionVLM n vec rho CL Cl) V -> solution (CLmaxCriticalSectionVLM n vec rho CL Cl) V' ->
  (forall k, In k lift_inputs -> V k = V' k) -> (forall j, V "ac|aero|airfoil_Cl_max" j = V' "ac|aero|airfoil_Cl_max" j) ->
  (forall a b j, (j < n)%nat -> a < b -> Cl V a j < Cl V b j) ->
  V "sectional_CL_balance.alpha" 0%nat = V' "sectional_CL_balance.alpha" 0%nat /\ V "CL_max" 0%nat = V' "CL_max" 0%nat /\
  forall j, (j < n)%nat -> V "VLM.sectional_CL" j = V' "VLM.sectional_CL" j.
Proof.
  intros n vec rho CL Cl V V' Hn Hr Dep S S' Same Lim Mono.
  pose proof (balance_reads n vec rho CL Cl V Hn S Dep) as B. pose proof (balance_reads n vec rho CL Cl V' Hn S' Dep) as B'.
  destruct (lift_reads n vec rho CL Cl V S Dep) as [E L]. destruct (lift_reads n vec rho CL Cl V' S' Dep) as [E' L'].
  destruct (Dep V V' Same) as [D1 D2]. rewrite <- D2 in B', L'. rewrite <- D1 in E'.
  set (al := V "sectional_CL_balance.alpha" 0%nat) in *. set (al' := V' "sectional_CL_balance.alpha" 0%nat) in *.
  assert (Q : forall a b, a < b -> KS rho n (fun j => Cl V a j - limit vec V j) < KS rho n (fun j => Cl V b j - limit vec V' j)).
  { intros a b Hab. apply KS_lt; [exact Hr | exact Hn |]. intros j Hj. unfold limit. rewrite <- Lim. pose proof (Mono a b j Hj Hab). lra. }
  assert (Q' : forall a b, a < b -> KS rho n (fun j => Cl V a j - limit vec V' j) < KS rho n (fun j => Cl V b j - limit vec V j)).
  { intros a b Hab. apply KS_lt; [exact Hr | exact Hn |]. intros j Hj. unfold limit. rewrite <- Lim. pose proof (Mono a b j Hj Hab). lra. }
  assert (Ea : al = al') by (destruct (Rtotal_order al al') as [H | [H | H]]; [specialize (Q _ _ H); lra | exact H | specialize (Q' _ _ H); lra]).
  split; [exact Ea|]. rewrite <- Ea in *. split; [congruence|]. intros j Hj. rewrite L, L' by exact Hj. reflexivity.
Qed.
Print Assumptions C83_unique.

(** There is an answer between an angle with every strip well below its limit and one with some
    strip at its limit, if the strips' lift varies continuously. *)
Theorem C83_exists : forall n vec rho CL Cl x a b, (0 < n)%nat -> 0 < rho -> lift_of_inputs CL Cl ->
  (forall j, (j < n)%nat -> continuity (fun al => Cl x al j)) -> a <= b ->
  (forall j, (j < n)%nat -> Cl x a j <= limit vec x j - ln (INR n) / rho) -> (exists j, (j < n)%nat /\ limit vec x j <= Cl x b j) ->
  exists V, solution (CLmaxCriticalSectionVLM n vec rho CL Cl) V /\ (forall k, In k ("ac|aero|airfoil_Cl_max" :: lift_inputs) -> V k = x k) /\
    a <= V "sectional_CL_balance.alpha" 0%nat <= b.
Proof.
  intros n vec rho CL Cl x a b Hn Hr Dep Co Hab Ha [jb [Hjb Hb]].
  set (f := fun al => sum_of n (fun j => exp (rho * (Cl x al j - limit vec x j))) - 1).
  assert (Cf : continuity f).
  { unfold f. apply continuity_minus; [|apply continuity_const; intros u v; reflexivity].
    assert (P : forall k, (k <= n)%nat -> continuity (fun al => sum_of k (fun j => exp (rho * (Cl x al j - limit vec x j))))).
    { induction k as [|k IH]; intros Hk; cbn [sum_of]; [apply continuity_const; intros u v; reflexivity|]. apply continuity_plus; [apply IH; lia|].
      apply (continuity_comp (fun al => rho * (Cl x al k - limit vec x k)) exp); [|apply derivable_continuous, derivable_exp].
      apply continuity_mult; [apply continuity_const; intros u v; reflexivity|]. apply continuity_minus; [apply Co; lia | apply continuity_const; intros u v; reflexivity]. }
    apply P. lia. }
  assert (HN : 0 < INR n) by (apply lt_0_INR; lia).
  assert (Fa : f a <= 0).
  { unfold f. assert (Q : sum_of n (fun j => exp (rho * (Cl x a j - limit vec x j))) <= sum_of n (fun _ => / INR n)).
    { apply sum_le. intros j Hj. rewrite <- (exp_ln (/ INR n)) by (now apply Rinv_0_lt_compat). rewrite ln_Rinv by exact HN. specialize (Ha j Hj).
      assert (Q : rho * (Cl x a j - limit vec x j) <= - ln (INR n)).
      { apply Rle_trans with (rho * (- (ln (INR n) / rho))); [apply Rmult_le_compat_l; lra | right; field; lra]. }
      destruct (Rle_lt_or_eq_dec _ _ Q) as [Q'|Q']; [left; now apply exp_increasing | right; now rewrite Q']. }
    rewrite sum_const, Rinv_r in Q; lra. }
  assert (Fb : 0 <= f b).
  { unfold f. pose proof (sum_term n (fun j => exp (rho * (Cl x b j - limit vec x j))) jb ltac:(intros; apply exp_pos) Hjb) as Q. cbv beta in Q.
    assert (1 <= exp (rho * (Cl x b jb - limit vec x jb))).
    { rewrite <- exp_0 at 1. assert (Z : 0 <= rho * (Cl x b jb - limit vec x jb)) by (apply Rmult_le_pos; lra). destruct (Rle_lt_or_eq_dec _ _ Z) as [Q'|Q']; [left; now apply exp_increasing | right; now rewrite <- Q']. }
    lra. }
  destruct (IVT_cor f a b Cf Hab) as [z [Hz Ez]]; [nra|].
  assert (K : KS rho n (fun j => Cl x z j - limit vec x j) = 0).
  { rewrite KS_plain by assumption. unfold f in Ez. replace (sum_of n (fun j => exp (rho * (Cl x z j - limit vec x j)))) with 1 by lra. rewrite ln_1. ring. }
  set (V := fun k (i : nat) => if String.eqb k "sectional_CL_balance.alpha" then z else if String.eqb k "CL_max" then CL x z else if String.eqb k "VLM.sectional_CL" then Cl x z i else
              if String.eqb k "Cl_max_limit.Cl_limit_vec" then Cl x z i - limit vec x i else if String.eqb k "max_limit.KS" then KS rho n (fun j => Cl x z j - limit vec x j) else x k i).
  assert (Eq : forall k, In k ("ac|aero|airfoil_Cl_max" :: lift_inputs) -> V k = x k) by (intros k I; repeat (destruct I as [<- | I]; [reflexivity|]); destruct I).
  exists V. split; [|split; [exact Eq | exact Hz]].
  set (G := CLmaxCriticalSectionVLM n vec rho CL Cl). intros s [<- | [<- | [<- | [<- | []]]]].
  - destruct (Dep (reads G (lifting_sub n CL Cl) V) x) as [D1 D2].
    { intros k I. repeat (destruct I as [<- | I]; [reflexivity|]). destruct I. }
    split; [rewrite D1; reflexivity | intros j Hj; rewrite D2; reflexivity].
  - intros s [<- | []] i Hi.
    assert (Hi' : (i < n)%nat) by (cbn in Hi; destruct vec; lia).
    unfold add_compute, add_resolve, limit_eq. cbn [as_sf as_ins as_vec as_len as_out List.length Nat.eqb negb read_sizes res_bind fst snd].
    replace (negb (forallb (fun v => fits v (list_max [n; if vec then n else 1%nat])) [n; if vec then n else 1%nat])) with false.
    2:{ symmetry. apply negb_false_iff. assert (Mx : list_max [n; if vec then n else 1%nat] = n) by (cbn; destruct vec; lia). rewrite Mx. cbn. unfold fits. rewrite Nat.eqb_refl, orb_true_r. destruct vec; [rewrite Nat.eqb_refl, orb_true_r; reflexivity | reflexivity]. }
    cbn [res_bind combine fold_left fst snd].
    assert (B : bidx n 1 i = i). { unfold bidx. destruct (Nat.eqb_spec n 1); [assert (i = 0%nat) by lia; subst i; reflexivity | reflexivity]. }
    rewrite B. f_equal. change (0 + Cl x z i * 1 + x "ac|aero|airfoil_Cl_max" (bidx (if vec then n else 1) 1 i) * - (1) = Cl x z i - limit vec x i).
    unfold limit. destruct vec; [rewrite B; ring | cbn; ring].
  - reflexivity.
  - intros i Hi. replace i with 0%nat by lia. exact K.
Qed.
Print Assumptions C83_exists.

(** A wing whose strips carry more lift towards the root. *)
Example C83_case : let CL := fun (_ : env) al => al in let Cl := fun (_ : env) al j => al * (1 + INR j / 10) in
  lift_of_inputs CL Cl /\ (forall x a b j, (j < 2)%nat -> a < b -> Cl x a j < Cl x b j) /\ (forall x a b, a <= b -> CL x a <= CL x b) /\
  (forall x a b j, (j < 2)%nat -> a <= b -> 1 * (b - a) <= Cl x b j - Cl x a j) /\
  critical 2 (Cl (fun _ _ => 1)) (limit false (fun _ _ => 11/10)) 1 /\
  exists V, solution (CLmaxCriticalSectionVLM 2 false 200 CL Cl) V /\ limit false V 0 = 11/10.
Proof.
  intros CL Cl. assert (D : lift_of_inputs CL Cl) by (intros x y _; split; reflexivity). split; [exact D|]. split; [|split; [|split; [|split]]].
  - intros x a b j Hj H. unfold Cl. apply Rmult_lt_compat_r; [pose proof (pos_INR j); lra | exact H].
  - intros x a b H. exact H.
  - intros x a b j Hj H. unfold Cl. pose proof (pos_INR j). nra.
  - split; [|exists 1%nat; split; [lia|unfold Cl, limit; cbn; lra]]. intros j Hj. unfold Cl, limit. assert (E : (j = 0 \/ j = 1)%nat) by lia. destruct E as [-> | ->]; cbn; lra.
  - destruct (C83_exists 2 false 200 CL Cl (fun _ _ => 11/10) 0 2) as (V & S & E & _); [lia | lra | exact D | | lra | | |].
    + intros j Hj. unfold Cl. apply derivable_continuous. apply derivable_mult; [apply derivable_id | apply derivable_const].
    + intros j Hj. unfold Cl, limit. assert (L : ln (INR 2) < 2). { rewrite <- (ln_exp 2). apply ln_increasing; [cbn; lra|]. pose proof (exp_ineq1 2 ltac:(lra)). cbn. lra. } lra.
    + exists 0%nat. split; [lia|]. unfold Cl, limit. cbn. lra.
    + exists V. split; [exact S|]. unfold limit. rewrite (E "ac|aero|airfoil_Cl_max" (or_introl eq_refl)). reflexivity.
Qed.

Theorem C83_connected : forall n vec rho CL Cl, let G := CLmaxCriticalSectionVLM n vec rho CL Cl in Model_Net.setup G = Ok G.
Proof. intros n [|] rho CL Cl; reflexivity. Qed.
Print Assumptions C83_connected.
