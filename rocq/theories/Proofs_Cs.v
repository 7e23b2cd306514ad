(** Differentiability by structure, for partials declared with [method="cs"]. *)
From Coq Require Import Reals List Bool PeanoNat String Lra Lia.
From Verif Require Import Base Calc.
Open Scope R_scope.
Open Scope string_scope.

Lemma upd_same e x y : upd e x (e x) y = e y.
Proof. unfold upd. destruct (String.eqb_spec x y); congruence. Qed.
Lemma upd_ex (e : nenv) x y a : ex_derive (fun t => upd e x t y) a.
Proof. unfold upd. destruct (String.eqb x y); [apply ex_derive_id|apply ex_derive_const]. Qed.

Lemma ex_plus (f g : R -> R) x : ex_derive f x -> ex_derive g x -> ex_derive (fun t => f t + g t) x.
Proof. intros. now apply (ex_derive_plus f g). Qed.
Lemma ex_minus (f g : R -> R) x : ex_derive f x -> ex_derive g x -> ex_derive (fun t => f t - g t) x.
Proof. intros. now apply (ex_derive_minus f g). Qed.
Lemma ex_mult (f g : R -> R) x : ex_derive f x -> ex_derive g x -> ex_derive (fun t => f t * g t) x.
Proof. intros. now apply (ex_derive_mult f g). Qed.
Lemma ex_div (f g : R -> R) x : ex_derive f x -> ex_derive g x -> g x <> 0 -> ex_derive (fun t => f t / g t) x.
Proof. intros. now apply (ex_derive_div f g). Qed.
Lemma ex_inv (g : R -> R) x : ex_derive g x -> g x <> 0 -> ex_derive (fun t => / g t) x.
Proof. intros. now apply (ex_derive_inv g). Qed.
Lemma ex_opp (f : R -> R) x : ex_derive f x -> ex_derive (fun t => - f t) x.
Proof. intros. now apply (ex_derive_opp f). Qed.
Lemma ex_pow (f : R -> R) n x : ex_derive f x -> ex_derive (fun t => f t ^ n) x.
Proof. intros. now apply (ex_derive_pow f). Qed.
Lemma ex_comp (f g : R -> R) x : ex_derive f (g x) -> ex_derive g x -> ex_derive (fun t => f (g t)) x.
Proof. intros. now apply (ex_derive_comp f g). Qed.
Lemma ex_exp (f : R -> R) x : ex_derive f x -> ex_derive (fun t => exp (f t)) x.
Proof. intro. apply (ex_comp exp f); auto. eexists. apply is_derive_exp. Qed.
Lemma ex_sqrt (f : R -> R) x : ex_derive f x -> 0 < f x -> ex_derive (fun t => sqrt (f t)) x.
Proof. intros. apply (ex_comp sqrt f); auto. eexists. apply is_derive_sqrt; auto. apply is_derive_id. Qed.
Lemma ex_cos (f : R -> R) x : ex_derive f x -> ex_derive (fun t => cos (f t)) x.
Proof. intro. apply (ex_comp cos f); auto. eexists. apply is_derive_cos. Qed.
Lemma ex_sin (f : R -> R) x : ex_derive f x -> ex_derive (fun t => sin (f t)) x.
Proof. intro. apply (ex_comp sin f); auto. eexists. apply is_derive_sin. Qed.
Lemma ex_tan (f : R -> R) x : ex_derive f x -> cos (f x) <> 0 -> ex_derive (fun t => tan (f t)) x.
Proof. intros. apply (ex_comp tan f); auto. eexists. apply (is_derive_tan (f x)). exact H0. Qed.

Lemma Rpower_derive a x : 0 < x -> is_derive (fun t => Rpower t a) x (a * Rpower x (a - 1)).
Proof.
  intro H. unfold Rpower. auto_derive; auto. unfold Rminus. rewrite Rmult_plus_distr_r, exp_plus.
  replace (- (1) * ln x) with (- ln x) by ring. rewrite exp_Ropp, exp_ln by auto. field. lra.
Qed.
Lemma Rpower_pos x a : 0 < Rpower x a.
Proof. apply exp_pos. Qed.
Lemma ex_Rpower (f : R -> R) a x : ex_derive f x -> 0 < f x -> ex_derive (fun t => Rpower (f t) a) x.
Proof. intros D H. apply (ex_comp (fun u => Rpower u a) f); auto. eexists. now apply Rpower_derive. Qed.

(** Reduces differentiability at [e x] of an expression in [upd e x t y] to side
    conditions on the denominators, radicands and bases. *)
Ltac exd :=
  lazymatch goal with
  | |- ex_derive (fun t => upd ?e ?x t ?y) _ => apply upd_ex
  | |- ex_derive (fun t => (@?f t + @?g t)%R) _ => apply (ex_plus f g); exd
  | |- ex_derive (fun t => (@?f t - @?g t)%R) _ => apply (ex_minus f g); exd
  | |- ex_derive (fun t => (@?f t * @?g t)%R) _ => apply (ex_mult f g); exd
  | |- ex_derive (fun t => (@?f t / @?g t)%R) _ => apply (ex_div f g); [exd|exd|rewrite ?upd_same]
  | |- ex_derive (fun t => (/ @?g t)%R) _ => apply (ex_inv g); [exd|rewrite ?upd_same]
  | |- ex_derive (fun t => (- @?g t)%R) _ => apply (ex_opp g); exd
  | |- ex_derive (fun t => (@?g t ^ ?n)%R) _ => apply (ex_pow g); exd
  | |- ex_derive (fun t => exp (@?g t)) _ => apply (ex_exp g); exd
  | |- ex_derive (fun t => cos (@?g t)) _ => apply (ex_cos g); exd
  | |- ex_derive (fun t => sin (@?g t)) _ => apply (ex_sin g); exd
  | |- ex_derive (fun t => tan (@?g t)) _ => apply (ex_tan g); [exd|rewrite ?upd_same]
  | |- ex_derive (fun t => sqrt (@?g t)) _ => apply (ex_sqrt g); [exd|rewrite ?upd_same]
  | |- ex_derive (fun t => Rpower (@?g t) ?a) _ => apply (ex_Rpower g); [exd|rewrite ?upd_same]
  | |- ex_derive (fun _ => ?c) _ => apply ex_derive_const
  | |- _ => idtac
  end.

(** Positivity of products, quotients and sums of positive terms. *)
Lemma sum_pos a b : 0 < a -> 0 < b -> 0 < a + b.
Proof. lra. Qed.
Lemma quot_pos a b : 0 < a -> 0 < b -> 0 < a / b.
Proof. intros. unfold Rdiv. apply Rmult_lt_0_compat; auto. now apply Rinv_0_lt_compat. Qed.
Lemma pow_pos_R a n : 0 < a -> 0 < a ^ n.
Proof. intros. now apply pow_lt. Qed.
Ltac posi :=
  lazymatch goal with
  | |- 0 < ?a + ?b => first [assumption | apply sum_pos; posi]
  | |- 0 < ?a * ?b => first [assumption | apply Rmult_lt_0_compat; posi]
  | |- 0 < ?a / ?b => first [assumption | apply quot_pos; posi]
  | |- 0 < / ?b => apply Rinv_0_lt_compat; posi
  | |- 0 < ?b ^ _ => apply pow_lt; posi
  | |- 0 < Rpower _ _ => apply Rpower_pos
  | |- 0 < exp _ => apply exp_pos
  | |- 0 < PI => apply PI_RGT_0
  | |- 0 < sqrt _ => apply sqrt_lt_R0; posi
  | |- _ <> 0 => apply Rgt_not_eq; apply Rlt_gt; posi
  | |- 0 < _ => first [assumption | lra]
  end.
