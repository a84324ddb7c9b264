(** * SRejectJoin: which points make an append raise, and calls that only append *)
From Coq Require Import Reals.
From Verif Require Import Np SReal SGen.
Set Implicit Arguments.
Open Scope nat_scope.

(** Calls of append_series and append_query *)
Definition append_only {X} (o : gcall X) : Prop := match o with CSeries _ | CQuery _ => True | _ => False end.

(** Some subsequence of length [m] that is new in the window has a point that is not finite: one of the last (number of new points + m - 1) *)
Definition bad_append (m : nat) (window values : list (num R)) : Prop :=
  values <> [] /\ m <= length window /\ exists x, In x (skipn (length window - (length values + m - 1)) window) /\ isfinite x = false.
