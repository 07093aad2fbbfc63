(** Generic runs of step functions; no code of /repo is modelled here. *)
From Coq Require Import List.
Import ListNotations.

Section Runs.
  Context {S I O : Type}.
  Variable step : S -> I -> S * O.
  (** Outputs of a run, in order. *)
  Fixpoint run_outs (s : S) (is : list I) : list O :=
    match is with
    | [] => []
    | i :: is => let '(s', o) := step s i in o :: run_outs s' is
    end.
  (** Final state of a run. *)
  Fixpoint run_state (s : S) (is : list I) : S :=
    match is with
    | [] => s
    | i :: is => run_state (fst (step s i)) is
    end.
End Runs.

Section Folds.
  Context {S I : Type}.
  Variable step : S -> I -> S.
  Fixpoint run (s : S) (is : list I) : S :=
    match is with
    | [] => s
    | i :: is => run (step s i) is
    end.
  Lemma run_app s a b : run s (a ++ b) = run (run s a) b.
  Proof. revert s; induction a; intros; cbn; auto. Qed.
  Lemma run_snoc s a i : run s (a ++ [i]) = step (run s a) i.
  Proof. rewrite run_app. reflexivity. Qed.
End Folds.
