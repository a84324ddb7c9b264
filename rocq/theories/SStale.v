(** * SStale: which column a generator that keeps one column has kept, and under which index *)
From Coq Require Import Reals.
From Verif Require Import Np NpFacts SReal SCalc SGen.
Set Implicit Arguments.
Open Scope nat_scope.

(** Nothing is kept; or something is kept as column [label] of the current window, and it is column [place] of the current
    window ([None]: of no column) *)
Inductive kept := Nothing | Kept (label : Z) (place : option Z).

(** The next column is derived from what is kept if that is labelled as the column before *)
Definition derives (k : kept) (c : nat) : Prop := 0 < c /\ exists p, k = Kept (Z.of_nat c - 1) p.
(** ... which goes wrong if it is another column *)
Definition stale (k : kept) (c : nat) : Prop := 0 < c /\ exists p, k = Kept (Z.of_nat c - 1) p /\ p <> Some (Z.of_nat c - 1)%Z.
Definition staleb (k : kept) (c : nat) : bool :=
  match k with
  | Kept l (Some p) => (0 <? c) && (l =? Z.of_nat c - 1)%Z && negb (p =? Z.of_nat c - 1)%Z
  | Kept l None => (0 <? c) && (l =? Z.of_nat c - 1)%Z
  | Nothing => false
  end.

(** One call, when the series has had [n] points.  After [k] new points the label drops by [k] less the room that is left then,
    the place by the number of points that left the window. *)
Definition kept_step {X} (self : bool) (W n : nat) (k : kept) (o : gcall X) : kept :=
  match o with
  | CSeries [] | CQuery [] | CDiag _ => k
  | CSeries xs =>
      if self then Nothing
      else match k with
           | Kept l p =>
               let room := Z.of_nat (W - (n + length xs)) in
               let left := Z.of_nat (Nat.min W n + length xs - Nat.min W (n + length xs)) in
               Kept (l - Z.max 0 (Z.of_nat (length xs) - room)) (option_map (fun q => q - left)%Z p)
           | Nothing => Nothing
           end
  | CQuery _ => Nothing
  | CCol c => Kept (Z.of_nat c) (if staleb k c then None else Some (Z.of_nat c))
  end.
Definition grow {X} (n : nat) (o : gcall X) : nat := match o with CSeries xs => n + length xs | _ => n end.
Fixpoint kept_from {X} (self : bool) (W n : nat) (k : kept) (H : list (gcall X)) : kept :=
  match H with [] => k | o :: H' => kept_from self W (grow n o) (kept_step self W n k o) H' end.
Definition kept_after {X} (self : bool) (W : nat) (H : list (gcall X)) : kept := kept_from self W 0 Nothing H.

(** The z-normalised distance calculated with a dot product that is off by [off] *)
Definition zdist_off (noise off : R) (x y : list R) : R :=
  let z := (zsq noise x y - (if uneven x && uneven y then 2 * off / (std x * std y) else 0))%R in
  if Rltb z (/ 10 ^ 12) then 0%R else sqrt z.
