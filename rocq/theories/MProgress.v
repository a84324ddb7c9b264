(** * MProgress: the progress output of the calculators (distancematrix/calculator.py 129-135, 263-271).

    The loops of MCalc.v with the printed numbers as additional result.  Times are rational numbers; the clock is a parameter.  The text
    around the numbers and their number of digits are not modelled. *)
From Coq Require Import QArith Qround.
From Verif Require Import Np Mat MUtil SLog MCalc.
Set Implicit Arguments.
Open Scope nat_scope.

(** [a / b] of Python numbers *)
Definition pydiv (a b : Q) : res Q := if Qeq_bool b 0 then Err ZeroDivisionError else Ok (a / b)%Q.

(** 130-135: percentage and remaining time.  [current] is the column after the one that was just processed. *)
Definition col_progress (start upto current : Z) (elapsed : Q) : res (Q * Q) :=
  let columns_calculated := (current - start)%Z in
  let columns_remaining := (upto + 1 - current)%Z in
  do p <- pydiv (inject_Z columns_calculated) (inject_Z (upto + 1 - start));
  do t <- pydiv elapsed (inject_Z columns_calculated);
  Ok (p * 100, t * inject_Z columns_remaining)%Q.

(** 264-271: local percentage, remaining time, global percentage *)
Definition diag_progress (calculated needed total : Z) (calc_time : Q) : res (Q * Q * Q) :=
  do local_progress <- pydiv (inject_Z calculated) (inject_Z needed);
  do global_progress <- pydiv (inject_Z calculated) (inject_Z total);
  do avg_time_per_value <- pydiv calc_time (inject_Z calculated);
  let time_left := (avg_time_per_value * inject_Z (needed - calculated))%Q in
  Ok (local_progress * 100, time_left, global_progress * 100)%Q.

Section Progress.
  Context {A : Type}.
  Notation num := (Np.num A).
  Variables (X G C : Type).
  Variable g_col : G -> nat -> res (G * list num).
  Variable g_diag : G -> Z -> res (G * list num).
  Variable c_step : C -> event num -> res C.
  Variable set_order : list nat -> list nat.
  (** [print_progress] *)
  Variable print : bool.

  (** 113-135; [clock k] is the time since [start_time] when the k-th column is reported *)
  Fixpoint col_loop_p (fuel : nat) (intr : nat -> bool) (clock : nat -> Q) (k : nat) (ids : list nat) (row_limit : nat) (start c upto : Z)
      (st : calc G C * list (list num)) : res (calc G C * list (list num) * list (Q * Q)) :=
    match fuel with
    | 0 => Err OutOfFuel
    | S fuel' =>
        if (c <? upto)%Z && negb (intr k) then
          do st' <- col_step g_col c_step ids row_limit st c;
          do out <- (if print then do p <- col_progress start upto (c + 1) (clock k); Ok [p] else Ok []);
          do r <- col_loop_p fuel' intr clock (S k) ids row_limit start (c + 1) upto st';
          Ok (fst r, out ++ snd r)
        else Ok (st, [])
    end.

  (** 85-135 *)
  Definition calculate_columns_p (column_limit row_limit : Z) (intr : nat -> bool) (clock : nat -> Q) (s : calc G C) (start : option request)
      (upto : request) : res (calc G C * list (Q * Q)) :=
    let start := match start with None => RInt (ca_last s + 1) | Some r => r end in
    do start <- ratio_to_int start (ca_ns s) column_limit;
    do upto <- ratio_to_int upto (ca_ns s) column_limit;
    if (row_limit <? 0)%Z then Err ValueError
    else
      let rows := Z.to_nat row_limit in
      do st <- col_loop_p (S (Z.to_nat (upto - start))) intr clock 0 (needed set_order s) rows start start upto (s, repeat (repeat NaN rows) (length (ca_gens s)));
      Ok (fst (fst st), snd st).

  (** 243-271; [spent k] is the time the k-th iteration takes, [time] is [_diagonal_calc_time] *)
  Fixpoint diag_loop_p (fuel : nat) (intr : nat -> bool) (spent : nat -> Q) (k : nat) (ids : list nat) (values_needed : Z) (time : Q)
      (st : any X G C * list (list num)) : res (any X G C * list (list num) * Q * list (Q * Q * Q)) :=
    match fuel with
    | 0 => Err OutOfFuel
    | S fuel' =>
        if (an_done (fst st) <? values_needed)%Z && negb (intr k) then
          do st' <- diag_step g_diag c_step ids st;
          let time' := (time + spent k)%Q in
          do out <- (if print then do p <- diag_progress (an_done (fst st')) values_needed (an_total (fst st')) time'; Ok [p] else Ok []);
          do r <- diag_loop_p fuel' intr spent (S k) ids values_needed time' st';
          Ok (fst r, out ++ snd r)
        else Ok (st, time, [])
    end.

  (** 225-271 *)
  Definition calculate_diagonals_p (intr : nat -> bool) (spent : nat -> Q) (time : Q) (a : any X G C) (partial : request) :
      res (any X G C * Q * list (Q * Q * Q)) :=
    let s := an_calc a in
    let max_diagonal_length := Z.min (ca_nq s) (ca_ns s) in
    if (max_diagonal_length <? 0)%Z then Err ValueError
    else
      do values_needed <- ratio_to_int partial (an_total a) (an_total a);
      do r <- diag_loop_p (S (S (length (an_order a)))) intr spent 0 (needed set_order s) values_needed time
        (a, repeat (repeat NaN (Z.to_nat max_diagonal_length)) (length (ca_gens s)));
      let '(st, time', out) := r in
      Ok (fst st, time', out).
End Progress.
