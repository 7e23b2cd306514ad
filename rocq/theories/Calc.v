(** Derivative rules over R, stated with R's own operations, and piecewise functions. *)
From Verif Require Import Base.
Open Scope R_scope.

Lemma derive_eq (f : R -> R) (x a b : R) : is_derive f x a -> a = b -> is_derive f x b.
Proof. now intros H <-. Qed.
Lemma derive_mulr (f : R -> R) (x l k : R) : is_derive f x l -> is_derive (fun t => f t * k) x (l * k).
Proof. intro H. apply (is_derive_scal_l f x l k). exact H. Qed.
Lemma derive_mull (f : R -> R) (x l k : R) : is_derive f x l -> is_derive (fun t => k * f t) x (k * l).
Proof. intro H. apply (is_derive_scal f x k l). exact H. Qed.
Lemma derive_const (k x : R) : is_derive (fun _ : R => k) x 0.
Proof. apply (is_derive_const k). Qed.
Lemma derive_id (x : R) : is_derive (fun t : R => t) x 1.
Proof. apply (is_derive_id (K := R_AbsRing)). Qed.
Lemma derive_plus (f g : R -> R) (x l m : R) : is_derive f x l -> is_derive g x m -> is_derive (fun t => f t + g t) x (l + m).
Proof. intros. now apply (@is_derive_plus R_AbsRing R_NormedModule). Qed.
Lemma derive_minus (f g : R -> R) (x l m : R) : is_derive f x l -> is_derive g x m -> is_derive (fun t => f t - g t) x (l - m).
Proof. intros. now apply (@is_derive_minus R_AbsRing R_NormedModule). Qed.
Lemma derive_mult (f g : R -> R) (x l m : R) : is_derive f x l -> is_derive g x m ->
  is_derive (fun t => f t * g t) x (l * g x + f x * m).
Proof.
  intros Hf Hg. apply (is_derive_mult f g x l m Hf Hg). intros n k. apply Rmult_comm.
Qed.
Lemma derive_div (f g : R -> R) (x l m : R) : is_derive f x l -> is_derive g x m -> g x <> 0 ->
  is_derive (fun t => f t / g t) x ((l * g x - f x * m) / g x ^ 2).
Proof.
  intros Hf Hg H0. eapply derive_eq; [apply (is_derive_div f g x l m); auto|]. reflexivity.
Qed.
Lemma derive_comp (f g : R -> R) (x l m : R) : is_derive f (g x) l -> is_derive g x m -> is_derive (fun t => f (g t)) x (m * l).
Proof. intros. now apply (is_derive_comp f g x l m). Qed.
Lemma derive_sqrt (g : R -> R) (x m : R) : is_derive g x m -> 0 < g x -> is_derive (fun t => sqrt (g t)) x (m / (2 * sqrt (g x))).
Proof.
  intros Hg H. eapply derive_eq; [apply (derive_comp sqrt g x (/ (2 * sqrt (g x))) m); auto|reflexivity].
  auto_derive; auto. now rewrite Rmult_1_l.
Qed.

Lemma cont_of (f : R -> R) (x l : R) : is_derive f x l -> continuous f x.
Proof. intro H. apply (@ex_derive_continuous R_AbsRing R_NormedModule). exists l; exact H. Qed.

Lemma near_lt_c (g : R -> R) x c : continuous g x -> g x < c -> locally x (fun t => g t < c).
Proof. intros Hg H. apply (Hg (fun y => y < c)). apply (open_lt c (g x) H). Qed.
Lemma near_gt_c (g : R -> R) x c : continuous g x -> c < g x -> locally x (fun t => c < g t).
Proof. intros Hg H. apply (Hg (fun y => c < y)). apply (open_gt c (g x) H). Qed.

Lemma derive_if_true (P : R -> Prop) (dec : forall t, {P t} + {~ P t}) (a b : R -> R) x l :
  locally x P -> is_derive a x l -> is_derive (fun t => if dec t then a t else b t) x l.
Proof.
  intros HP Ha. eapply is_derive_ext_loc; [|exact Ha].
  eapply filter_imp; [|exact HP]. intros t Ht. destruct (dec t); [reflexivity|contradiction].
Qed.
Lemma derive_if_false (P : R -> Prop) (dec : forall t, {P t} + {~ P t}) (a b : R -> R) x l :
  locally x (fun t => ~ P t) -> is_derive b x l -> is_derive (fun t => if dec t then a t else b t) x l.
Proof.
  intros HP Hb. eapply is_derive_ext_loc; [|exact Hb].
  eapply filter_imp; [|exact HP]. intros t Ht. destruct (dec t); [contradiction|reflexivity].
Qed.

(** [if g t < c then a t else b t] away from g = c. *)
Lemma derive_if_lt (g a b : R -> R) c x l : continuous g x -> g x <> c ->
  (g x < c -> is_derive a x l) -> (c < g x -> is_derive b x l) ->
  is_derive (fun t => if Rlt_dec (g t) c then a t else b t) x l.
Proof.
  intros Hc H0 Ha Hb. destruct (Rlt_dec (g x) c).
  - apply (derive_if_true (fun t => g t < c) (fun t => Rlt_dec (g t) c)); auto. now apply near_lt_c.
  - apply (derive_if_false (fun t => g t < c) (fun t => Rlt_dec (g t) c)); [|apply Hb; lra].
    eapply filter_imp; [|apply (near_gt_c g x c Hc); lra]. intros t Ht. simpl in Ht. lra.
Qed.
(** [if g t > c then a t else b t] away from g = c. *)
Lemma derive_if_gt (g a b : R -> R) c x l : continuous g x -> g x <> c ->
  (g x > c -> is_derive a x l) -> (g x < c -> is_derive b x l) ->
  is_derive (fun t => if Rgt_dec (g t) c then a t else b t) x l.
Proof.
  intros Hc H0 Ha Hb. destruct (Rgt_dec (g x) c).
  - apply (derive_if_true (fun t => g t > c) (fun t => Rgt_dec (g t) c)); auto. now apply near_gt_c.
  - apply (derive_if_false (fun t => g t > c) (fun t => Rgt_dec (g t) c)); [|apply Hb; lra].
    eapply filter_imp; [|apply (near_lt_c g x c Hc); lra]. intros t Ht. simpl in Ht. lra.
Qed.
(** [if g t <= c then a t else b t] away from g = c. *)
Lemma derive_if_le (g a b : R -> R) c x l : continuous g x -> g x <> c ->
  (g x < c -> is_derive a x l) -> (c < g x -> is_derive b x l) ->
  is_derive (fun t => if Rle_dec (g t) c then a t else b t) x l.
Proof.
  intros Hc H0 Ha Hb. destruct (Rle_dec (g x) c).
  - apply (derive_if_true (fun t => g t <= c) (fun t => Rle_dec (g t) c)); [|apply Ha; lra].
    eapply filter_imp; [|apply (near_lt_c g x c Hc); lra]. intros t Ht. simpl in Ht. lra.
  - apply (derive_if_false (fun t => g t <= c) (fun t => Rle_dec (g t) c)); [|apply Hb; lra].
    eapply filter_imp; [|apply (near_gt_c g x c Hc); lra]. intros t Ht. simpl in Ht. lra.
Qed.
(** A function that is locally another one. *)
Lemma derive_near (f g : R -> R) (P : R -> Prop) x l : locally x P -> (forall t, P t -> f t = g t) ->
  is_derive f x l -> is_derive g x l.
Proof. intros HP H Hf. eapply is_derive_ext_loc; [|exact Hf]. eapply filter_imp; [|exact HP]. exact H. Qed.
(** [if g t < h t then a t else b t] away from g = h. *)
Lemma derive_if_lt2 (g h a b : R -> R) x l : continuous g x -> continuous h x -> g x <> h x ->
  (g x < h x -> is_derive a x l) -> (h x < g x -> is_derive b x l) ->
  is_derive (fun t => if Rlt_dec (g t) (h t) then a t else b t) x l.
Proof.
  intros Hg Hh H0 Ha Hb.
  assert (Hc : continuous (fun t => g t - h t) x) by (apply (continuous_minus g h x); auto).
  destruct (Rlt_dec (g x) (h x)).
  - apply (derive_if_true (fun t => g t < h t) (fun t => Rlt_dec (g t) (h t))); auto.
    eapply filter_imp; [|apply (near_lt_c _ x 0 Hc); lra]. intros t Ht. simpl in Ht. lra.
  - apply (derive_if_false (fun t => g t < h t) (fun t => Rlt_dec (g t) (h t))); [|apply Hb; lra].
    eapply filter_imp; [|apply (near_gt_c _ x 0 Hc); lra]. intros t Ht. simpl in Ht. lra.
Qed.
Lemma cont_ex (f : R -> R) (x : R) : ex_derive f x -> continuous f x.
Proof. apply (@ex_derive_continuous R_AbsRing R_NormedModule). Qed.
(** A function with different slopes on the two sides of [a] has no derivative at [a]. *)
Lemma no_derive_kink (f : R -> R) a k1 k2 d : 0 < d -> k1 <> k2 ->
  (forall t, a - d < t <= a -> f t = f a + k1 * (t - a)) ->
  (forall t, a <= t < a + d -> f t = f a + k2 * (t - a)) -> ~ ex_derive f a.
Proof.
  intros Hd Hk Hl Hr [l H]. apply is_derive_Reals in H.
  set (e := Rabs (k1 - k2) / 4).
  assert (He : 0 < e) by (unfold e; assert (0 < Rabs (k1 - k2)) by (apply Rabs_pos_lt; lra); lra).
  destruct (H e He) as [[del Hdel] Hq]. simpl in Hq.
  set (h := Rmin (del / 2) (d / 2)).
  assert (Hh : 0 < h /\ h < del /\ h < d).
  { unfold h. assert (A := Rmin_l (del / 2) (d / 2)). assert (B := Rmin_r (del / 2) (d / 2)).
    split; [apply Rmin_pos; lra|lra]. }
  destruct Hh as (H0 & H1 & H2).
  pose proof (Hq h) as Q1. pose proof (Hq (- h)) as Q2.
  rewrite (Hr (a + h)) in Q1 by lra. rewrite (Hl (a + - h)) in Q2 by lra.
  assert (E1 : (f a + k2 * (a + h - a) - f a) / h - l = k2 - l) by (field; lra).
  assert (E2 : (f a + k1 * (a + - h - a) - f a) / - h - l = k1 - l) by (field; lra).
  rewrite E1 in Q1. rewrite E2 in Q2.
  assert (A1 : Rabs (k2 - l) < e) by (apply Q1; [lra|rewrite Rabs_right; lra]).
  assert (A2 : Rabs (k1 - l) < e) by (apply Q2; [lra|rewrite Rabs_Ropp, Rabs_right; lra]).
  assert (T : Rabs (k1 - k2) <= Rabs (k1 - l) + Rabs (k2 - l)).
  { replace (k1 - k2) with ((k1 - l) - (k2 - l)) by ring. eapply Rle_trans; [apply Rabs_triang|]. rewrite Rabs_Ropp. lra. }
  unfold e in *. lra.
Qed.

(** Continuity at the level of R. *)
Lemma cont_plus (f g : R -> R) x : continuous f x -> continuous g x -> continuous (fun t => f t + g t) x.
Proof. exact (continuous_plus f g x). Qed.
Lemma cont_minus (f g : R -> R) x : continuous f x -> continuous g x -> continuous (fun t => f t - g t) x.
Proof. exact (continuous_minus f g x). Qed.
Lemma cont_mult (f g : R -> R) x : continuous f x -> continuous g x -> continuous (fun t => f t * g t) x.
Proof. exact (continuous_mult f g x). Qed.
Lemma cont_const (c x : R) : continuous (fun _ : R => c) x.
Proof. exact (continuous_const c x). Qed.
