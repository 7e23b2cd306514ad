(** Python-level outcomes used throughout the model. *)
(** Python exceptions as values. *)
Inductive pyerr := ValueError | NotImplementedError | KeyError | IndexError | NameError
                 | AttributeError | TypeError | RuntimeError | RuntimeWarning | IOError | AnalysisError.
Inductive res (A : Type) := Ok (a : A) | Err (e : pyerr).
Arguments Ok {A} a. Arguments Err {A} e.


Definition res_bind {A B} (x : res A) (f : A -> res B) : res B :=
  match x with Ok a => f a | Err e => Err e end.
Definition is_ok {A} (x : res A) : bool := match x with Ok _ => true | Err _ => false end.
