(** * SReal: distances of finite sequences of real numbers, independent of the model. *)
From Coq Require Import Reals.
From Verif Require Import Np.
Set Implicit Arguments.
Open Scope R_scope.

(** The real numbers as carrier of the model *)
Definition Rltb (a b : R) : bool := if Rlt_dec a b then true else false.
#[export] Instance NumR : NumOps R := {
  nzero := 0; nadd := Rplus; nsub := Rminus; nmul := Rmult; ndiv := Rdiv; nsqrt := sqrt; nltb := Rltb; nofZ := IZR
}.

(** Finite data *)
Notation fin l := (map (@Fin R) l).

(** The subsequence of length [m] at position [i] *)
Definition sub {T} (m : nat) (l : list T) (i : nat) : list T := firstn m (skipn i l).

Definition rsum (l : list R) : R := fold_right Rplus 0 l.
(** Sum of the contributions of the pairs of points of two sequences *)
Definition psum (f : R -> R -> R) (x y : list R) : R := rsum (zip_with f x y).

(** Squared Euclidean distance, dot product *)
Definition sqd (x y : list R) : R := psum (fun a b => (a - b) * (a - b)) x y.
Definition dotp (x y : list R) : R := psum Rmult x y.
Definition euclid (x y : list R) : R := sqrt (sqd x y).

(** Mean, population standard deviation, z-normalisation *)
Definition mean (x : list R) : R := rsum x / INR (length x).
Definition std (x : list R) : R := sqrt (mean (map (fun a => (a - mean x) * (a - mean x)) x)).
Definition znorm (x : list R) : list R := map (fun a => (a - mean x) / std x) x.
(** np.sqrt of a real number *)
Definition root (v : R) : num R := if Rltb v 0 then NaN else Fin (sqrt v).

(** A statistic of every subsequence of length [m] *)
Definition windowed {T U} (stat : list T -> U) (m : nat) (l : list T) : list U :=
  map (fun i => stat (sub m l i)) (seq 0 (length l + 1 - m)).

(** A subsequence is not flat; squared z-normalised distance with noise correction; z-normalised distance *)
Definition uneven (x : list R) : bool := Rltb (/ 10 ^ 6) (std x).
Definition zsq (noise : R) (x y : list R) : R :=
  let n := INR (length x) in
  (if uneven x then if uneven y then sqd (znorm x) (znorm y) else n else if uneven y then n else 0) -
  (if uneven x || uneven y then 2 * (n + 1) * (noise * noise) / (Rmax (std x) (std y) * Rmax (std x) (std y)) else 0).
Definition zdist (noise : R) (x y : list R) : R := if Rltb (zsq noise x y) (/ 10 ^ 12) then 0 else sqrt (zsq noise x y).

(** The definition without noise: 0 for two flat subsequences, the square root of the length if exactly one is flat, otherwise
    the Euclidean distance of the z-normalised subsequences, with squares below 1e-12 taken as 0 *)
Definition zdef (x y : list R) : R :=
  if uneven x && uneven y then if Rltb (sqd (znorm x) (znorm y)) (/ 10 ^ 12) then 0 else euclid (znorm x) (znorm y)
  else if uneven x || uneven y then sqrt (INR (length x)) else 0.
