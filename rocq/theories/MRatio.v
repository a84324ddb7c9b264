(** * MRatio: the fraction of the calculators in double precision (distancematrix/calculator.py 409-414).

    [ratio_to_int] of MCalc.v calculates [ceil(ratio * full)] exactly.  Here [ratio] is a double, [full] is converted to a double, and the
    product is rounded (IEEE binary64, round to nearest even). *)
From Coq Require Import Floats.SpecFloat.
From Verif Require Import Np InstF.
Open Scope Z_scope.

(** math.ceil of a finite double, exact *)
Definition ceil64 (x : f64) : Z :=
  match x with
  | S754_finite s m e => let z := if s then Zneg m else Zpos m in if 0 <=? e then z * 2 ^ e else - (- z / 2 ^ (- e))
  | _ => 0
  end.
(** 409-414.  Comparisons with NaN are false; [ceil] of NaN raises ValueError.  (A product of a finite ratio cannot overflow: it is at most [full].) *)
Definition ratio_to_int64 (r : num f64) (full max_value : Z) : res Z :=
  match r with
  | Fin x =>
      if nltb x nzero || nltb (nofZ 1) x then Err ValueError
      else Ok (Z.min (Z.max 0 (ceil64 (nmul x (nofZ full)))) max_value)
  | _ => Err ValueError
  end.
