(** * SStaleStats: the subsequences whose statistics a z-normalised generator holds, appends that raise included *)
From Coq Require Import Reals.
From Verif Require Import Np SReal SCalc SGen SStale.
Set Implicit Arguments.
Open Scope nat_scope.

Definition value (x : num R) : R := match x with Fin a => a | _ => 0%R end.

(** The last [n] elements *)
Definition final {T} (n : nat) (l : list T) : list T := skipn (length l - n) l.

(** The subsequences of length [m] that end in the new points [xs], after the points [pts], in a window of [W] points: none if one of their points is
    not finite (the append raises) *)
Definition new_subs (m W : nat) (pts xs : list (num R)) : list (list R) :=
  let part := final (length xs + m - 1) (final W (pts ++ xs)) in
  match xs with
  | [] => []
  | _ => if forallb isfinite part then map (sub m (map value part)) (seq 0 (length part + 1 - m)) else []
  end.

(** ... of all chunks, one after the other *)
Fixpoint all_subs (m W : nat) (pts : list (num R)) (chunks : list (list (num R))) : list (list R) :=
  match chunks with
  | [] => []
  | xs :: chunks' => new_subs m W pts xs ++ all_subs m W (pts ++ xs) chunks'
  end.

Definition s_chunks {X} (H : list (gcall X)) : list (list X) := flat_map (fun o => match o with CSeries xs => [xs] | _ => [] end) H.
Definition q_chunks {X} (H : list (gcall X)) : list (list X) := flat_map (fun o => match o with CQuery xs => [xs] | _ => [] end) H.

(** Those whose statistics are held after the calls [H]: of the series, of the query *)
Definition stat_s (m W : nat) (H : list (gcall (num R))) : list (list R) := final (W + 1 - m) (all_subs m W [] (s_chunks H)).
Definition stat_q (self : bool) (m W Wq : nat) (H : list (gcall (num R))) : list (list R) :=
  if self then stat_s m W H else final (Wq + 1 - m) (all_subs m Wq [] (q_chunks H)).

(** A cell calculated from the points [S] and [Q] with the statistics of the subsequences [ss] and [sq] *)
Definition off_cell (noise : R) (m : nat) (S Q : list R) (ss sq : list (list R)) (r c : Z) : num R :=
  let x := nth (Z.to_nat r) sq [] in let y := nth (Z.to_nat c) ss [] in
  Fin (zdist_off noise (dotp (sub m Q (Z.to_nat r)) (sub m S (Z.to_nat c)) - dotp x y) x y).
Definition off_col (noise : R) (m : nat) (S Q : list R) (ss sq : list (list R)) (c : nat) : list (num R) :=
  map (fun r => off_cell noise m S Q ss sq (Z.of_nat r) (Z.of_nat c)) (seq 0 (length Q + 1 - m)).

(** No column has been calculated *)
Definition no_column {X} (H : list (gcall X)) : Prop := Forall (fun o => match o with CCol _ => False | _ => True end) H.
