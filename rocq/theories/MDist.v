(** * MDist: model of DistanceMatrix (distancematrix/consumer/distance_matrix.py). *)
From Verif Require Import Np Mat MUtil MProfile SLog.
Set Implicit Arguments.
Open Scope nat_scope.

(** [np.roll(l, -amount)] along the axis of [l] *)
Definition roll_left {T} (amount : nat) (l : list T) : list T :=
  let k := amount mod length l in skipn k l ++ firstn k l.

Section Dist.
  Context {A : Type} {NA : NumOps A}.
  Notation num := (Np.num A).

  (** 17-21 *)
  Definition dm_init (dims query_subseq series_subseq : nat) : res (mat num) :=
    if negb (dims =? 1) then Err RuntimeError
    else Ok (repeat (repeat NaN series_subseq) query_subseq).

  (** [m[rows, cols] = values] with index arrays of equal length and values of shape (1, n): one
      assignment per index; other numbers of values raise, except that a single value broadcasts. *)
  Definition fancy_set (m : mat num) (cells : list (Z * Z)) (values : list num) : res (mat num) :=
    if length cells =? length values then
      foldM (fun m x => match x with (r, c, v) => mset m (Z.to_nat r) (Z.to_nat c) v end) (combine cells values) m
    else if length values =? 1 then
      foldM (fun m x => match x with (r, c, v) => mset m (Z.to_nat r) (Z.to_nat c) v end)
            (combine cells (repeat (hd NaN values) (length cells))) m
    else Err ValueError.

  (** 23-27; [values] has one channel *)
  Definition dm_diag (m : mat num) (d : Z) (values : list (list num)) : res (mat num) :=
    do values <- row0 values;
    let num_values := length values in
    let indices := diag_indices_of m d in
    fancy_set m (combine (firstn num_values (fst indices)) (firstn num_values (snd indices))) values.

  (** 29-31 *)
  Definition dm_col (m : mat num) (c : nat) (values : list (list num)) : res (mat num) :=
    do values <- row0 values;
    if ncols m <=? c then Err IndexError
    else fancy_set m (map (fun i => (Z.of_nat i, Z.of_nat c)) (seq 0 (Nat.min (length values) (length m)))) values.

  (** 33-38: [m[:, -amount:] = nan] on every row *)
  Definition dm_shift_series (m : mat num) (amount : nat) : res (mat num) :=
    if amount =? 0 then Ok m
    else Ok (map (fun row => let row := roll_left amount row in
                             fill_slice row (length row - amount) (length row) NaN) m).

  (** 40-45 *)
  Definition dm_shift_query (m : mat num) (amount : nat) : res (mat num) :=
    if amount =? 0 then Ok m
    else
      let w := ncols m in
      let m := roll_left amount m in
      Ok (fill_slice m (length m - amount) (length m) (repeat NaN w)).

  Definition dm_step (m : mat num) (e : event num) : res (mat num) :=
    match e with
    | EDiag d v => dm_diag m d v
    | ECol c v => dm_col m c v
    | EShiftS n => dm_shift_series m n
    | EShiftQ n => dm_shift_query m n
    end.
  Definition dm_run (m : mat num) (es : list (event num)) : res (mat num) := foldM dm_step es m.
End Dist.
