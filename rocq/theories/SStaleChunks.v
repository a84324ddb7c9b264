(** * SStaleChunks: chunks whose rejection does not outlast the bad points *)
From Coq Require Import Reals.
From Verif Require Import Np SReal SGen SStaleStats.
Set Implicit Arguments.
Open Scope nat_scope.

(** The append of [xs] after [pts] does not raise, or it leaves a point that is not finite among the last [m] *)
Definition chunk_ok (m W : nat) (pts xs : list (num R)) : Prop :=
  forallb isfinite (final (length xs + m - 1) (final W (pts ++ xs))) = true \/ exists x, In x (final m (pts ++ xs)) /\ isfinite x = false.
Definition chunks_ok (m W : nat) (chunks : list (list (num R))) : Prop :=
  forall before xs after, chunks = before ++ xs :: after -> xs <> [] -> chunk_ok m W (concat before) xs.
