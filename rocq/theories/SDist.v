(** * SDist: what a stored distance matrix should contain. *)
From Verif Require Import Np Mat SLog.
Set Implicit Arguments.

(** [v] is the most recently delivered value of cell (r, c); [dflt] if that cell was never delivered. *)
Definition is_latest {T} (L : list (cell T)) (r c : Z) (dflt v : T) : Prop :=
  (exists before after, L = before ++ (r, c, v) :: after /\ forall x, ~ In (r, c, x) after) \/
  (v = dflt /\ forall x, ~ In (r, c, x) L).
