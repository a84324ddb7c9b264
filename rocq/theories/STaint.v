(** * STaint: data with NaN and infinities *)
From Coq Require Import Reals.
From Verif Require Import Np SReal SGen.
Set Implicit Arguments.
Open Scope nat_scope.

(** The real number, for finite points *)
Definition real (x : num R) : R := match x with Fin a => a | _ => 0%R end.

(** No NaN, no infinity among the points of the subsequences [r] of [Q] and [c] of [S], nor among the [j] points before each of them *)
Definition clean (m : nat) (S Q : list (num R)) (j r c : nat) : bool :=
  forallb isfinite (sub (j + m) Q (r - j)) && forallb isfinite (sub (j + m) S (c - j)).

(** [ok] holds for the [n] pairs of points from [r] and [c] on *)
Definition pairs (ok : num R -> num R -> bool) (n : nat) (S Q : list (num R)) (r c : nat) : bool := forallb (fun b => b) (zip_with ok (sub n Q r) (sub n S c)).
(** Two numbers, or numbers and infinities of opposite signs *)
Definition opposite (x y : num R) : bool :=
  match x, y with
  | Fin _, Fin _ | PInf, NInf | NInf, PInf => true
  | PInf, Fin a | Fin a, PInf => Rltb a 0
  | NInf, Fin a | Fin a, NInf => Rltb 0 a
  | _, _ => false
  end.
(** No NaN, and not the same infinity *)
Definition apart (x y : num R) : bool := match x, y with NaN, _ | _, NaN | PInf, PInf | NInf, NInf => false | _, _ => true end.
(** The [j] points before each of the subsequences are finite, ... *)
Definition clear (S Q : list (num R)) (j r c : nat) : bool := forallb isfinite (sub j Q (r - j)) && forallb isfinite (sub j S (c - j)).
(** ... the subsequences [j] before have infinities only with opposite signs, and the points after those are apart. *)
Definition over (m : nat) (S Q : list (num R)) (j r c : nat) : bool :=
  clear S Q j r c && pairs opposite m S Q (r - j) (c - j) && pairs apart j S Q (r - j + m) (c - j + m).
Definition inf_if (b : bool) : num R := if b then PInf else NaN.

(** The columns asked for *)
Definition asked {X} (H : list (gcall X)) : list nat := flat_map (fun o => match o with CCol c => [c] | _ => [] end) H.
(** [cols]: the columns asked for, the latest first.  The number of columns directly before column [c] that were calculated one after
    the other just before it *)
Fixpoint back (cols : list nat) (c : nat) : nat :=
  match cols with p :: cols' => if p + 1 =? c then S (back cols' p) else 0 | [] => 0 end.

(** The value [v] of a distance whose square is [x], up to 1e-15 *)
Definition about (x : R) (v : num R) : Prop := exists a, v = root a /\ (0 <= x - a < / 10 ^ 15)%R.
