(** * SRound: arithmetic that rounds.

    The operations on real numbers followed by a rounding function.  Binary64 without overflow is of this kind. *)
From Coq Require Import Reals.
From Verif Require Import Np SReal SGen.
Set Implicit Arguments.
Open Scope R_scope.

Definition NumRnd (rnd : R -> R) : NumOps R := {|
  nzero := 0; nadd a b := rnd (a + b); nsub a b := rnd (a - b); nmul a b := rnd (a * b); ndiv a b := rnd (a / b); nsqrt a := rnd (sqrt a);
  nltb := Rltb; nofZ z := rnd (IZR z) |}.

(** Monotone; rounded numbers are not changed; the integers up to 10^15 are exact; numbers above 10^-30 lose at most half. *)
Record sane (rnd : R -> R) : Prop := {
  sane_mono : forall x y, x <= y -> rnd x <= rnd y;
  sane_idem : forall x, rnd (rnd x) = rnd x;
  sane_ints : forall z, (Z.abs z <= 10 ^ 15)%Z -> rnd (IZR z) = IZR z;
  sane_half : forall x, / 10 ^ 30 <= x -> x / 2 <= rnd x
}.

(** Relative error [u] of every operation, except for numbers around [t] and below (underflow) *)
Definition accurate (u t : R) (rnd : R -> R) : Prop := forall x, Rabs (rnd x - x) <= u * (Rabs x + t).

(** Rounding towards zero to [p] significant bits, with unbounded exponents *)
Definition lg (x : R) : Z := Int_part (ln x / ln 2).
Definition chop_pos (p : Z) (x : R) : R := let e := (lg x + 1 - p)%Z in IZR (Int_part (x / powerRZ 2 e)) * powerRZ 2 e.
Definition chop (p : Z) (x : R) : R := if Rltb 0 x then chop_pos p x else if Rltb x 0 then - chop_pos p (- x) else 0.

(** No series points are added after a column was asked for *)
Definition fixed_series {X} (H : list (gcall X)) : Prop := forall H1 c H2 xs, H = H1 ++ CCol c :: H2 -> ~ In (CSeries xs) H2.
(** After the calls [H], column [c] does not follow the last column that was asked for *)
Definition calculated_fully {X} (H : list (gcall X)) (c : nat) : Prop :=
  c = 0%nat \/ (forall c', In (CCol c') H -> (c' + 1 < c)%nat) \/ (fixed_series H /\ ~ In (CCol (c - 1)) H).
