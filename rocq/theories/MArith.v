(** * MArith: array arithmetic used by the generators.  Finite results are exact: the rounding of floating point numbers is
    not modelled. *)
From Verif Require Import Np MUtil.
Set Implicit Arguments.
Open Scope nat_scope.

Section Arith.
  Context {A : Type} {NA : NumOps A}.
  Notation num := (Np.num A).

  Definition fsub (x y : num) : num :=
    match x, y with
    | Fin a, Fin b => Fin (nsub a b)
    | NaN, _ | _, NaN => NaN
    | PInf, PInf | NInf, NInf => NaN
    | PInf, _ | _, NInf => PInf
    | NInf, _ | _, PInf => NInf
    end.
  (** product with an infinity whose sign is [pos] *)
  Definition inf_times (pos : bool) (a : A) : num :=
    if nltb nzero a then (if pos then PInf else NInf)
    else if nltb a nzero then (if pos then NInf else PInf) else NaN.
  Definition fmul (x y : num) : num :=
    match x, y with
    | Fin a, Fin b => Fin (nmul a b)
    | NaN, _ | _, NaN => NaN
    | PInf, PInf | NInf, NInf => PInf
    | PInf, NInf | NInf, PInf => NInf
    | PInf, Fin a | Fin a, PInf => inf_times true a
    | NInf, Fin a | Fin a, NInf => inf_times false a
    end.
  (** The sign of a zero divisor is not modelled: it counts as positive. *)
  Definition fdiv (x y : num) : num :=
    match x, y with
    | Fin a, Fin b =>
        if nltb b nzero || nltb nzero b then Fin (ndiv a b)
        else if nltb nzero a then PInf else if nltb a nzero then NInf else NaN
    | NaN, _ | _, NaN => NaN
    | Fin _, _ => Fin nzero
    | PInf, Fin b => if nltb b nzero then NInf else PInf
    | NInf, Fin b => if nltb b nzero then PInf else NInf
    | _, _ => NaN
    end.
  (** [np.sqrt] *)
  Definition froot (x : num) : num :=
    match x with Fin a => fsqrt a | PInf => PInf | _ => NaN end.
  (** [np.square] *)
  Definition fsquare (x : num) : num := fmul x x.
  (** [np.maximum] *)
  Definition fmaximum (x y : num) : num :=
    if isnan x then x else if isnan y then y else if fltb x y then y else x.

  Definition fzero : num := Fin nzero.
  Definition fofZ (z : Z) : num := Fin (nofZ z).
  (** the float literal 1e-k *)
  Definition fneg10 (k : Z) : num := Fin (ndiv (nofZ 1) (nofZ (10 ^ k))).

  (** [np.sum], [np.dot] and the rows of [np.einsum]; the order of summation is not modelled *)
  Definition fsum (l : list num) : num := fold_left fadd l fzero.
  Definition fdot (a b : list num) : num := fsum (zip_with fmul a b).
End Arith.

(** Element-wise operation of arrays: equal lengths, or one of them has one element that is broadcast. *)
Definition bop {S T U} (f : S -> T -> U) (a : list S) (b : list T) : res (list U) :=
  if length a =? length b then Ok (zip_with f a b)
  else match a, b with
       | [x], _ => Ok (map (f x) b)
       | _, [y] => Ok (map (fun x => f x y) a)
       | _, _ => Err ValueError
       end.

(** util.sliding_window_view(l, [m]) of a one-dimensional array: the list of its windows.  [MUtil.sliding_window_view] is the
    address calculation; PArith.windows_view relates the two. *)
Definition windows {T} (l : list T) (m : nat) : res (list (list T)) :=
  if (m =? 0) || (length l <? m) then Err ValueError
  else Ok (map (fun i => firstn m (skipn i l)) (seq 0 (length l - m + 1))).
