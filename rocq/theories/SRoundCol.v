(** * SRoundCol: how large the data on a diagonal is *)
From Coq Require Import Reals.
From Verif Require Import Np SReal.
Set Implicit Arguments.
Open Scope R_scope.

(** The sum of [(|x| + |y|)^2] over the first [n] pairs of the diagonal through row [a] and column [b] *)
Definition extent (n : nat) (Q S : list R) (a b : nat) : R := psum (fun x y => (Rabs x + Rabs y) * (Rabs x + Rabs y)) (sub n Q a) (sub n S b).

(** The bound on the error of the squared distance in row [i], column [j] (subsequences of [m] points): [m + 4 + 2k] roundings of
    everything the diagonal holds up to there, and the threshold of 10^-15. *)
Definition sq_error (u t : R) (m : nat) (Q S : list R) (i j : nat) : R :=
  let k := Nat.min i j in
  let threshold := (1 + u) / 10 ^ 15 + u * t in
  ((1 + u) ^ (m + 4 + 2 * k) - 1) * (extent (k + m) Q S (i - k) (j - k) + extent k Q S (i - k) (j - k) + INR (4 * m + 2 * k) * t + threshold) + threshold.
