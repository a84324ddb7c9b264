(** * SOstinatoSub: consensus motifs when only some series are examined, some of them several times; independent of the model *)
From Coq Require Import Reals Sorted Permutation.
From Verif Require Import Np SReal SOstinato.
Set Implicit Arguments.
Open Scope nat_scope.

(** The k-th smallest distance of subsequence [i] of series [s] to its best matches in the series [ts]; a series that occurs
    several times in [ts] counts several times.  With [ts := others C s] this is [radius_k]. *)
Definition radius_among (m : nat) (C : list (list R)) (ts : list nat) (k s i : nat) (v : R) : Prop :=
  exists d l, matches m C s i d /\ Permutation l (map d ts) /\ StronglySorted Rle l /\ 1 <= k /\ nth_error l (k - 1) = Some v.

(** [n] series in a circle: from [s] on, the next [n - k + 1] series once each, and the one after these [k - 2] times.  The last
    [k - 3] series before [s] do not occur. *)
Definition examined (n k s : nat) : list nat := map (fun j => (s + 1 + j) mod n) (seq 0 (n - k + 1)) ++ repeat ((s + (n - k) + 2) mod n) (k - 2).

(** The least number in some lists *)
Definition smallest (rs : list (list (num R))) (v : R) : Prop := (exists r, In r rs /\ In (Fin v) r) /\ forall r x, In r rs -> In x r -> exists w, x = Fin w /\ (v <= w)%R.
