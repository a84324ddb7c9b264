(** * Columns that were delivered as columns *)
From Verif Require Import Np Mat SLog.
Open Scope nat_scope.

(** Column [c] was delivered by a column event, with at least [n] values in its first row of values. *)
Definition col_given {A} (c n : nat) (es : list (event (num A))) : Prop :=
  exists vals rest, In (ECol c (vals :: rest)) es /\ n <= length vals.
