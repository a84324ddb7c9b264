(** * SOstinato: consensus motifs of a collection of series, independent of the model *)
From Coq Require Import Reals Sorted Permutation.
From Verif Require Import Np SReal.
Set Implicit Arguments.
Open Scope nat_scope.

(** [v] is the least (greatest) of the values [f i] for [i] in [P]. *)
Definition least (P : nat -> Prop) (f : nat -> R) (v : R) : Prop := (exists i, P i /\ f i = v) /\ forall i, P i -> (v <= f i)%R.
Definition greatest (P : nat -> Prop) (f : nat -> R) (v : R) : Prop := (exists i, P i /\ f i = v) /\ forall i, P i -> (f i <= v)%R.

Section Collection.
  Variable m : nat.
  Variable C : list (list R).

  Definition has_sub (s i : nat) : Prop := s < length C /\ i + m <= length (nth s C []).
  (** Distance of subsequence [i] of series [s] to its best match in series [t] *)
  Definition best_match (s i t : nat) (d : R) : Prop :=
    least (fun r => has_sub t r) (fun r => zdef (sub m (nth t C []) r) (sub m (nth s C []) i)) d.
  (** [d t] is the distance of subsequence [i] of series [s] to its best match in [t], for all other series [t]. *)
  Definition matches (s i : nat) (d : nat -> R) : Prop := forall t, t < length C -> t <> s -> best_match s i t (d t).
  (** The largest of these *)
  Definition radius (s i : nat) (v : R) : Prop := exists d, matches s i d /\ greatest (fun t => t < length C /\ t <> s) d v.
  (** The smallest distance within which [k] other series have a match: the k-th smallest distance *)
  Definition others (s : nat) : list nat := filter (fun t => negb (t =? s)) (seq 0 (length C)).
  Definition radius_k (k : nat) (s i : nat) (v : R) : Prop :=
    exists d l, matches s i d /\ Permutation l (map d (others s)) /\ StronglySorted Rle l /\ 1 <= k /\ nth_error l (k - 1) = Some v.
  (** The subsequence with the smallest radius *)
  Definition consensus (rad : nat -> nat -> R -> Prop) (s i : nat) (v : R) : Prop :=
    has_sub s i /\ rad s i v /\ forall s' i' v', has_sub s' i' -> rad s' i' v' -> (v <= v')%R.
End Collection.

(** [np.argsort] of finite numbers: a permutation of the positions, in ascending order of the keys *)
Definition argsorts (argsort : list (num R) -> list nat) : Prop :=
  forall l : list R, Permutation (argsort (fin l)) (seq 0 (length l)) /\ StronglySorted (fun i j => (nth i l 0 <= nth j l 0)%R) (argsort (fin l)).
