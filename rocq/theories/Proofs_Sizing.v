(** Equations M = L M + g(M) + c with a slowly growing g. *)
From Coq Require Import Reals Ranalysis5 List Bool PeanoNat String Lra Lia.
From Coquelicot Require Import Coquelicot.
From Verif Require Import Base Calc Proofs_Cs.
Open Scope R_scope.

Definition slow (p : R) (g : R -> R) : Prop :=
  (forall M, 0 < M -> continuous g M) /\ (forall M, 0 < M -> 0 <= g M) /\ (forall M N, 0 < M <= N -> g M <= g N) /\
  forall k M, 1 <= k -> 0 < M -> g (k * M) <= Rpower k p * g M.
Lemma pow_ge_1 k p : 1 <= k -> 0 <= p -> 1 <= Rpower k p.
Proof. intros. rewrite <- (Rpower_O k) by lra. now apply Rle_Rpower. Qed.
Lemma slow_const p c : 0 <= p -> 0 <= c -> slow p (fun _ => c).
Proof.
  intros Hp Hc. split; [|split; [|split]]; intros; try lra.
  - apply continuous_const.
  - pose proof (pow_ge_1 k p H Hp). nra.
Qed.
Lemma slow_plus p f g : slow p f -> slow p g -> slow p (fun M => f M + g M).
Proof.
  intros [a [b [c d]]] [a' [b' [c' d']]]. split; [|split; [|split]]; intros.
  - apply (continuous_plus f g); auto.
  - specialize (b M H). specialize (b' M H). lra.
  - specialize (c M N H). specialize (c' M N H). lra.
  - specialize (d k M H H0). specialize (d' k M H H0). lra.
Qed.
Lemma slow_scal p c f : 0 <= c -> slow p f -> slow p (fun M => c * f M).
Proof.
  intros Hc [a [b [h d]]]. split; [|split; [|split]]; intros.
  - apply (continuous_mult (fun _ => c) f); auto. apply continuous_const.
  - apply Rmult_le_pos; auto.
  - apply Rmult_le_compat_l; auto.
  - specialize (d k M H H0). rewrite <- Rmult_assoc, (Rmult_comm (Rpower k p)), Rmult_assoc. now apply Rmult_le_compat_l.
Qed.
Lemma slow_scal_r p c f : 0 <= c -> slow p f -> slow p (fun M => f M * c).
Proof.
  intros Hc H. destruct (slow_scal p c f Hc H) as [a [b [h d]]]. 
  assert (E : forall M, c * f M = f M * c) by (intro; ring). split; [|split; [|split]]; intros; rewrite <- ?E; auto.
  eapply continuous_ext; [exact E|]. auto.
Qed.
(** A power, at most [p], of an affine function. *)
Lemma slow_power p q a b : 0 <= q <= p -> 0 <= a -> 0 <= b -> 0 < a + b -> slow p (fun M => Rpower (a * M + b) q).
Proof.
  intros [Hq Hqp] Ha Hb Hab.
  assert (P : forall M, 0 < M -> 0 < a * M + b).
  { intros M HM. destruct (Rle_lt_or_eq_dec 0 a Ha) as [H|<-]; [|lra]. pose proof (Rmult_lt_0_compat a M H HM). lra. }
  split; [|split; [|split]]; intros.
  - apply (ex_derive_continuous (V := R_NormedModule)). apply ex_Rpower; [auto_derive; auto|now apply P].
  - left. apply Rpower_pos.
  - apply Rle_Rpower_l; [exact Hq|]. split; [apply P; lra|]. apply Rplus_le_compat_r, Rmult_le_compat_l; lra.
  - apply Rle_trans with (Rpower (k * (a * M + b)) q).
    + apply Rle_Rpower_l; [exact Hq|]. split; [apply P; nra|]. nra.
    + rewrite <- Rpower_mult_distr by (try lra; now apply P). apply Rmult_le_compat_r; [left; apply Rpower_pos|]. now apply Rle_Rpower.
Qed.
Lemma slow_pow p q : 0 <= q <= p -> slow p (fun M => Rpower M q).
Proof.
  intro H. pose proof (slow_power p q 1 0 H ltac:(lra) ltac:(lra) ltac:(lra)) as [a [b [c d]]].
  assert (E : forall M, 1 * M + 0 = M) by (intro; ring). split; [|split; [|split]]; intros.
  - eapply continuous_ext; [|apply a; eassumption]. intro t. cbn. now rewrite E.
  - specialize (b M H0). now rewrite E in b.
  - specialize (c M N H0). now rewrite !E in c.
  - specialize (d k M H0 H1). now rewrite !E in d.
Qed.

Section Size.
Variables (p L c : R) (g : R -> R).
Hypotheses (Hp : 0 <= p < 1) (HL : 0 <= L < 1) (Hc : 0 <= c) (Hg : slow p g) (Hpos : forall M, 0 < M -> 0 < g M).
Lemma size_unique M N : 0 < M -> 0 < N -> M = L * M + g M + c -> N = L * N + g N + c -> M = N.
Proof.
  assert (K : forall M N, 0 < M -> M < N -> M = L * M + g M + c -> N = L * N + g N + c -> False).
  { clear M N. intros M N HM HN EM EN. destruct Hg as [_ [_ [_ d]]].
    set (k := N / M). assert (Hk : 1 < k) by (apply (Rmult_lt_reg_r M); [exact HM|]; unfold k; field_simplify; lra).
    assert (E : N = k * M) by (unfold k; field; lra). specialize (d k M ltac:(lra) HM). rewrite <- E in d.
    pose proof (Hpos M HM) as PG.
    assert (B : Rpower k p < k) by (rewrite <- (Rpower_1 k) at 2 by lra; apply Rpower_lt; lra).
    assert (D : N = L * N + k * (g M + c)) by (rewrite E; rewrite EM at 1; ring). nra. }
  intros HM HN EM EN. destruct (Rtotal_order M N) as [H|[H|H]]; [exfalso; eauto|exact H|exfalso; eauto].
Qed.
Lemma size_exists : exists M, 0 < M /\ M = L * M + g M + c.
Proof.
  destruct Hg as [C [NN [Mo d]]].
  (* below [a] the sum exceeds M, above [b] it does not *)
  set (q := / (1 - p)). assert (Hq : 0 < q) by (apply Rinv_0_lt_compat; lra).
  pose proof (Hpos 1 ltac:(lra)) as G1.
  set (A := 1 - L). assert (HA : 0 < A) by (unfold A; lra).
  set (x := Rpower (g 1 / (2 * A)) q). set (a := Rmin 1 x).
  assert (Ha : 0 < a) by (apply Rmin_pos; [lra|apply Rpower_pos]).
  assert (Ha1 : a <= 1) by apply Rmin_l. assert (Hax : a <= x) by apply Rmin_r.
  set (y := Rpower (2 * g 1 / A) q). assert (Hy : 0 < y) by apply Rpower_pos.
  assert (Hcd : 0 <= 2 * c / A) by (apply Rmult_le_pos; [lra|left; now apply Rinv_0_lt_compat]).
  set (b := 1 + y + 2 * c / A + 1). assert (Hb : 1 < b) by (unfold b; lra).
  assert (Q : q * (1 - p) = 1) by (unfold q; field; lra).
  assert (Split : forall M, 0 < M -> M = Rpower M p * Rpower M (1 - p)).
  { intros M HM. rewrite <- Rpower_plus. replace (p + (1 - p)) with 1 by ring. now rewrite Rpower_1. }
  assert (Ea : A * a <= Rpower a p * (g 1 / 2)).
  { rewrite (Split a Ha) at 1. assert (B : Rpower a (1 - p) <= g 1 / (2 * A)).
    { apply Rle_trans with (Rpower x (1 - p)); [apply Rle_Rpower_l; lra|]. unfold x. rewrite Rpower_mult, Q, Rpower_1; [lra|].
      apply Rdiv_lt_0_compat; lra. }
    pose proof (Rpower_pos a p) as P1. replace (g 1 / 2) with (A * (g 1 / (2 * A))) by (field; lra).
    apply Rle_trans with (Rpower a p * (A * Rpower a (1 - p))); [right; ring|]. apply Rmult_le_compat_l; [lra|]. apply Rmult_le_compat_l; lra. }
  assert (Eb : Rpower b p * g 1 <= A * b / 2).
  { rewrite (Split b) at 2 by lra. assert (B : 2 * g 1 / A <= Rpower b (1 - p)).
    { apply Rle_trans with (Rpower y (1 - p)); [|apply Rle_Rpower_l; unfold b in *; lra]. unfold y. rewrite Rpower_mult, Q, Rpower_1; [lra|].
      apply Rdiv_lt_0_compat; lra. }
    pose proof (Rpower_pos b p) as P1. replace (g 1) with (A / 2 * (2 * g 1 / A)) by (field; lra).
    assert (0 < A / 2) by lra. apply Rle_trans with (Rpower b p * (A / 2 * Rpower b (1 - p))); [|right; field].
    apply Rmult_le_compat_l; [lra|]. apply Rmult_le_compat_l; lra. }
  assert (Ga : Rpower a p * g 1 <= g a).
  { specialize (d (/ a) a). assert (1 <= / a) by (rewrite <- Rinv_1 at 1; apply Rinv_le_contravar; lra). specialize (d H Ha).
    rewrite Rinv_l in d by lra. assert (E : Rpower (/ a) p = / Rpower a p).
    { unfold Rpower. rewrite ln_Rinv by exact Ha. rewrite <- exp_Ropp. f_equal. ring. }
    rewrite E in d. pose proof (Rpower_pos a p) as P1. apply (Rmult_le_compat_l (Rpower a p)) in d; [|lra].
    rewrite <- Rmult_assoc, Rinv_r, Rmult_1_l in d by lra. exact d. }
  assert (Gb : g b <= Rpower b p * g 1) by (specialize (d b 1 ltac:(lra) ltac:(lra)); now rewrite Rmult_1_r in d).
  destruct (IVT_interv (fun M => A * M - g M - c) a b) as [z [[z1 z2] z3]].
  - intros t Ht. apply continuity_pt_filterlim. change (continuous (fun M => A * M - g M - c) t).
    apply (continuous_minus (V := R_NormedModule) (fun M => A * M - g M) (fun _ => c)); [|apply continuous_const].
    apply (continuous_minus (V := R_NormedModule) (fun M => A * M) g); [|apply C; lra].
    apply (continuous_mult (fun _ => A) (fun M => M)); [apply continuous_const|apply continuous_id].
  - lra.
  - cbv beta. pose proof (Rmult_lt_0_compat _ _ (Rpower_pos a p) G1). lra.
  - cbv beta. assert (2 * c < A * b).
    { unfold b. replace (A * (1 + y + 2 * c / A + 1)) with (A * (2 + y) + 2 * c) by (field; lra). nra. }
    lra.
  - exists z. split; [lra|]. unfold A in z3. lra.
Qed.
End Size.
(** More load makes the aircraft heavier by at least the load. *)
Lemma size_growth p L c c' g M N : 0 <= p < 1 -> 0 <= L < 1 -> 0 <= c -> slow p g -> (forall M, 0 < M -> 0 < g M) ->
  0 < M -> 0 < N -> c < c' -> M = L * M + g M + c -> N = L * N + g N + c' -> c' - c <= N - M.
Proof.
  intros Hp HL Hc Hg Hpos HM HN Hcc EM EN. destruct Hg as [_ [_ [Mo d]]].
  destruct (Rle_lt_dec M N) as [H|H]; [specialize (Mo M N ltac:(lra)); nra|exfalso].
  set (k := M / N). assert (Hk : 1 < k) by (apply (Rmult_lt_reg_r N); [exact HN|]; unfold k; field_simplify; lra).
  assert (E : M = k * N) by (unfold k; field; lra). specialize (d k N ltac:(lra) HN). rewrite <- E in d.
  pose proof (Hpos N HN) as PG.
  assert (B : Rpower k p < k) by (rewrite <- (Rpower_1 k) at 2 by lra; apply Rpower_lt; lra).
  assert (D : M = L * M + k * (g N + c')) by (rewrite E; rewrite EN at 1; ring). nra.
Qed.
