(** * SCols: specification of the consumers that process columns only *)
From Coq Require Import Reals.
From Verif Require Import Np Mat SLog SInsights SCounters SReal.
Set Implicit Arguments.
Open Scope nat_scope.

(** The ranks number [a] to number [t] of the sorted list are pairwise different *)
Definition rises (track : list nat) (a t : nat) : Prop := forall x p q, a <= x < t -> nth_error track x = Some p -> nth_error track (S x) = Some q -> p < q.

(** [rows] are rows satisfying [P], pairwise more than [excl] apart; every other row satisfying [P] lies within [excl] of one that is at
    least as good *)
Definition spaced (P : nat -> Prop) (v : nat -> num R) (excl : nat) (rows : list nat) : Prop :=
  NoDup rows /\ (forall r, In r rows -> P r) /\ (forall r r', In r rows -> In r' rows -> r <> r' -> apart excl r r') /\
  forall r, P r -> exists r', In r' rows /\ ~ apart excl r r' /\ fleb (v r') (v r) = true.
(** [np.argsort] *)
Definition orders_columns (argsort : list (num R) -> list nat) : Prop := forall vals, (forall x, In x vals -> isnan x = false) -> sorting_order vals (argsort vals).
