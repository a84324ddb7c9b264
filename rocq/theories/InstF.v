(** * InstF: IEEE double precision numbers as carrier, to run the model with the rounding of the code.

    The operations are those of Coq's SpecFloat: binary64, rounding to nearest even.  The infinities and NaN of the model are those
    of [num]; a result that overflows would be an infinite [spec_float] inside of [Fin], which is not what NumPy does: the examples check that there
    is none ([plain]). *)
From Coq Require Import Floats.SpecFloat.
From Verif Require Import Np.

Definition f64 := spec_float.
Definition prec : Z := 53.
Definition emax : Z := 1024.
(** [z * 2^e], rounded *)
Definition f64_of (z e : Z) : f64 := binary_normalize prec emax z e false.
#[export] Instance NumF : NumOps f64 := {
  nzero := S754_zero false; nadd := SFadd prec emax; nsub := SFsub prec emax; nmul := SFmul prec emax; ndiv := SFdiv prec emax; nsqrt := SFsqrt prec emax;
  nltb := SFltb; nofZ := fun z => f64_of z 0
}.

(** A finite number *)
Definition plain (x : num f64) : bool :=
  match x with Fin (S754_zero _) | Fin (S754_finite _ _ _) => true | _ => false end.
Definition F (z : Z) : num f64 := Fin (f64_of z 0).
(** The decimal literal [z * 10^-k] *)
Definition Dec (z k : Z) : num f64 := Fin (SFdiv prec emax (f64_of z 0) (f64_of (10 ^ k) 0)).
(** The value as a fraction, for reading *)
Definition shown (x : num f64) : num (Z * Z) :=
  match x with
  | NaN => NaN | PInf => PInf | NInf => NInf
  | Fin (S754_finite s m e) => let z := if s then Zneg m else Zpos m in if (0 <=? e)%Z then Fin ((z * 2 ^ e)%Z, 1%Z) else Fin (z, (2 ^ (- e))%Z)
  | Fin (S754_zero _) => Fin (0%Z, 1%Z)
  | Fin (S754_infinity s) => if s then NInf else PInf
  | Fin S754_nan => NaN
  end.
