(** Derivatives of products of powers, computed by structure. *)
From Coq Require Import Reals List Bool PeanoNat String Lra Lia.
From Verif Require Import Base Calc Proofs_Cs.
Open Scope R_scope.
Open Scope string_scope.

Lemma D_eq (f : R -> R) (x l l' : R) : is_derive f x l -> l = l' -> is_derive f x l'.
Proof. now intros H <-. Qed.
Lemma D_plus (f g : R -> R) x a b : is_derive f x a -> is_derive g x b -> is_derive (fun t => f t + g t) x (a + b).
Proof. intros. now apply (is_derive_plus f g). Qed.
Lemma D_minus (f g : R -> R) x a b : is_derive f x a -> is_derive g x b -> is_derive (fun t => f t - g t) x (a - b).
Proof. intros. now apply (is_derive_minus f g). Qed.
Lemma D_opp (f : R -> R) x a : is_derive f x a -> is_derive (fun t => - f t) x (- a).
Proof. intros. now apply (is_derive_opp f). Qed.
Lemma D_mult (f g : R -> R) x a b : is_derive f x a -> is_derive g x b -> is_derive (fun t => f t * g t) x (a * g x + f x * b).
Proof. intros. apply (is_derive_mult f g); auto. intros; apply Rmult_comm. Qed.
Lemma D_multc (c : R) (g : R -> R) x b : is_derive g x b -> is_derive (fun t => c * g t) x (c * b).
Proof. intro H. apply (is_derive_scal g x c b H). Qed.
Lemma D_cmult (c : R) (g : R -> R) x b : is_derive g x b -> is_derive (fun t => g t * c) x (b * c).
Proof. intro H. eapply is_derive_ext; [intro t; apply Rmult_comm|]. rewrite Rmult_comm. now apply D_multc. Qed.
Lemma D_div (f g : R -> R) x a b : is_derive f x a -> is_derive g x b -> g x <> 0 -> is_derive (fun t => f t / g t) x ((a * g x - f x * b) / g x ^ 2).
Proof. intros. now apply (is_derive_div f g). Qed.
Lemma D_inv (g : R -> R) x b : is_derive g x b -> g x <> 0 -> is_derive (fun t => / g t) x (- b / g x ^ 2).
Proof. intros. now apply (is_derive_inv g). Qed.
Lemma D_cdiv (f : R -> R) c x a : is_derive f x a -> is_derive (fun t => f t / c) x (a / c).
Proof. intro H. unfold Rdiv. now apply D_cmult. Qed.
Lemma D_pown (f : R -> R) n x a : is_derive f x a -> is_derive (fun t => f t ^ n) x (INR n * a * f x ^ pred n).
Proof. intro H. now apply (is_derive_pow f n). Qed.
Lemma D_comp (f g : R -> R) x a b : is_derive f (g x) a -> is_derive g x b -> is_derive (fun t => f (g t)) x (b * a).
Proof. intros. now apply (is_derive_comp f g). Qed.
Lemma D_Rpower (f : R -> R) p x a : is_derive f x a -> 0 < f x -> is_derive (fun t => Rpower (f t) p) x (a * (p * Rpower (f x) (p - 1))).
Proof. intros D H. apply (D_comp (fun u => Rpower u p) f); auto. now apply Rpower_derive. Qed.
Lemma D_sqrt (f : R -> R) x a : is_derive f x a -> 0 < f x -> is_derive (fun t => sqrt (f t)) x (a * / (2 * sqrt (f x))).
Proof. intros D H. apply (D_comp sqrt f); auto. eapply D_eq; [apply is_derive_sqrt; [apply is_derive_id|exact H]|]. cbn. unfold Rdiv, one; cbn. ring. Qed.
Lemma D_cos (f : R -> R) x a : is_derive f x a -> is_derive (fun t => cos (f t)) x (a * - sin (f x)).
Proof. intro D. apply (D_comp cos f); auto. apply is_derive_cos. Qed.
Lemma D_sin (f : R -> R) x a : is_derive f x a -> is_derive (fun t => sin (f t)) x (a * cos (f x)).
Proof. intro D. apply (D_comp sin f); auto. apply is_derive_sin. Qed.
Lemma D_tan (f : R -> R) x a : is_derive f x a -> cos (f x) <> 0 -> is_derive (fun t => tan (f t)) x (a * (tan (f x) ^ 2 + 1)).
Proof. intros D H. apply (D_comp tan f); auto. now apply is_derive_tan. Qed.
Lemma D_id x : is_derive (fun t : R => t) x 1.
Proof. apply (is_derive_id x). Qed.
Lemma D_const (c x : R) : is_derive (fun _ : R => c) x 0.
Proof. apply (is_derive_const c x). Qed.

(** Applies the rules; conditions on denominators, radicands and bases remain.
    Constant subterms are recognised first, so they contribute nothing. *)
Ltac der :=
  lazymatch goal with
  | |- is_derive (fun _ => ?c) _ _ => apply D_const
  | |- is_derive (fun t => t) _ _ => apply D_id
  | |- is_derive (fun t => (@?f t + @?g t)%R) _ _ => apply (D_plus f g); der
  | |- is_derive (fun t => (@?f t - @?g t)%R) _ _ => apply (D_minus f g); der
  | |- is_derive (fun t => (@?f t * @?g t)%R) _ _ =>
      lazymatch f with
      | fun _ => ?c => apply (D_multc c g); der
      | _ => lazymatch g with fun _ => ?c => apply (D_cmult c f); der | _ => apply (D_mult f g); der end
      end
  | |- is_derive (fun t => (@?f t / @?g t)%R) _ _ =>
      lazymatch g with fun _ => ?c => apply (D_cdiv f c); der | _ => apply (D_div f g); [der|der|] end
  | |- is_derive (fun t => (/ @?g t)%R) _ _ => apply (D_inv g); [der|]
  | |- is_derive (fun t => (- @?g t)%R) _ _ => apply (D_opp g); der
  | |- is_derive (fun t => (@?g t ^ ?n)%R) _ _ => apply (D_pown g); der
  | |- is_derive (fun t => cos (@?g t)) _ _ => apply (D_cos g); der
  | |- is_derive (fun t => sin (@?g t)) _ _ => apply (D_sin g); der
  | |- is_derive (fun t => tan (@?g t)) _ _ => apply (D_tan g); [der|]
  | |- is_derive (fun t => sqrt (@?g t)) _ _ => apply (D_sqrt g); [der|]
  | |- is_derive (fun t => Rpower (@?g t) ?a) _ _ => apply (D_Rpower g); [der|]
  | |- _ => idtac
  end.

(** Writes equal exponents of the same base alike. *)
Ltac exponents := repeat match goal with
  | |- context [Rpower ?y ?a] => match goal with
    | |- context [Rpower y ?b] => lazymatch a with b => fail | _ => replace a with b by lra end
    end
  end.
