(** * SValmod: motifs and lower bounds of distances, independent of the model *)
From Coq Require Import Reals Permutation Sorted.
From Verif Require Import Np SReal.
Set Implicit Arguments.
Open Scope nat_scope.

(** Two positions that are no trivial match *)
Definition apart (buffer i j : nat) : Prop := i + buffer < j \/ j + buffer < i.

(** [r] is a top motif of the [n] x [n] matrix [D]: two positions that are no trivial match, at the smallest distance; None if there are
    no such positions. *)
Definition top_motif (D : nat -> nat -> R) (n buffer : nat) (r : option (nat * nat)) : Prop :=
  match r with
  | Some (i, j) => i < n /\ j < n /\ apart buffer i j /\ forall i' j', i' < n -> j' < n -> apart buffer i' j' -> (D i j <= D i' j')%R
  | None => forall i j, i < n -> j < n -> ~ apart buffer i j
  end.

(** Pearson correlation of two sequences, and the same between 0 and 1 *)
Definition corr (x y : list R) : R := ((dotp x y / INR (length x) - mean x * mean y) / (std x * std y))%R.
Definition corr01 (x y : list R) : R := Rmin (Rmax (corr x y) 0) 1.
(** Lower bound of the distances between extensions of [x] and [y], times the standard deviation of the extension of [y] *)
Definition bound (x y : list R) : R := (sqrt (INR (length x) * (1 - corr01 x y * corr01 x y)) * std y)%R.

(** [np.argsort]: the positions in ascending order of the keys, NaN last *)
Definition sorts (argsort : list (num R) -> list nat) : Prop :=
  forall l, Permutation (argsort l) (seq 0 (length l)) /\ StronglySorted (fun i j => sort_le (nth i l NaN) (nth j l NaN) = true) (argsort l).

(** No window is nearly flat without being flat (the generator treats standard deviations up to 1e-6 as 0) *)
Definition clean (X : list R) (mn mx : nat) : Prop :=
  forall m i, mn <= m <= mx -> i + m <= length X -> std (sub m X i) = 0%R \/ (/ 10 ^ 6 < std (sub m X i))%R.

(** Every window of length [m] has a match that is nearer than the lower bound, known from length [m0], of another match. *)
Definition stuck (X : list R) (buffer m0 m : nat) : Prop :=
  forall c, c + m <= length X -> std (sub m0 X c) <> 0%R /\ exists q1 q2,
    q1 + m <= length X /\ apart buffer q1 c /\ q2 + m <= length X /\ apart buffer q2 c /\ std (sub m0 X q2) <> 0%R /\
    (zdef (sub m X q1) (sub m X c) < bound (sub m0 X q2) (sub m0 X c) / std (sub m X c))%R.
