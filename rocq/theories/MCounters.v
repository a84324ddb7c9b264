(** * MCounters: models of ThresholdCounter, DistancedThresholdCounter
    (distancematrix/consumer/threshold_counter.py), RadiusProfile0 and RadiusProfile
    (distancematrix/consumer/radius_profile.py). *)
From Verif Require Import Np Mat SLog MProfile MInsights.
Set Implicit Arguments.
Open Scope nat_scope.

Section Counters.
  Context {A : Type} {NA : NumOps A}.
  Notation num := (Np.num A).

  (** ** ThresholdCounter, threshold_counter.py 6-42 *)
  Record tc := mkTc { tc_thr : list num; tc_counts : mat nat }.

  (** 27-28 *)
  Definition tc_init (thresholds : list num) (query_subseq series_subseq : nat) : tc :=
    mkTc thresholds (repeat (repeat 0 series_subseq) (length thresholds)).

  (** [row[lo:hi] += vals <= t] for one row; NumPy raises when the slice has another length. *)
  Definition tc_add (vals : list num) (lo hi : nat) (t : num) (row : list nat) : res (list nat) :=
    let old := lslice row lo hi in
    if length old =? length vals then
      Ok (splice row lo (zip_with (fun n (b : bool) => if b then S n else n) old (map (fun v => fleb v t) vals)))
    else Err ValueError.

  (** Applies [f] to every (threshold, row) pair: operations on [counts[:, ...]]. *)
  Definition per_row {S} (f : num -> S -> res S) (thr : list num) (rows : list S) : res (list S) :=
    mapM (fun tr => f (fst tr) (snd tr)) (combine thr rows).

  (** 30-37 *)
  Definition tc_diag (s : tc) (diag : Z) (values : list (list num)) : res tc :=
    do values <- row0 values;
    let n := length values in
    if (0 <=? diag)%Z then
      let d := Z.to_nat diag in
      do counts <- per_row (tc_add values d (d + n)) (tc_thr s) (tc_counts s);
      Ok (mkTc (tc_thr s) counts)
    else
      do counts <- per_row (tc_add values 0 n) (tc_thr s) (tc_counts s);
      Ok (mkTc (tc_thr s) counts).

  (** 39-42 *)
  Definition tc_col (s : tc) (c : nat) (values : list (list num)) : res tc :=
    do values <- row0 values;
    do counts <- per_row (fun t row => setitem row c (length (filter (fun v => fleb v t) values))) (tc_thr s) (tc_counts s);
    Ok (mkTc (tc_thr s) counts).

  Definition tc_step (s : tc) (e : event num) : res tc :=
    match e with
    | EDiag d v => tc_diag s d v
    | ECol c v => tc_col s c v
    | EShiftS _ | EShiftQ _ => Err AttributeError
    end.
  Definition tc_run (s : tc) (es : list (event num)) : res tc := foldM tc_step es s.

  (** ** DistancedThresholdCounter, 45-97; [exclusion] is not negative. *)
  Record dtc := mkDtc { dt_thr : list num; dt_excl : nat; dt_counts : mat nat }.

  (** 54-69; [sort] *)
  Definition dtc_init (thresholds : list num) (exclusion : nat) (query_subseq series_subseq : nat) : dtc :=
    mkDtc (fsort thresholds) exclusion (repeat (repeat 0 series_subseq) (length thresholds)).

  (** 87-91: the while loop.  [rest] are the thresholds from [idx] on; the result is the new
      [threshold_idx] with the thresholds from there on, [None] for the [return]. *)
  Fixpoint advance (value : num) (rest : list num) (idx : nat) : option (nat * list num) :=
    match rest with
    | [] => None
    | t :: rest' => if fltb t value then advance value rest' (S idx) else Some (idx, rest)
    end.

  (** 94: [counts[idx:, c] += 1] *)
  Fixpoint incr_from (idx c : nat) (counts : mat nat) : res (mat nat) :=
    match counts with
    | [] => Ok []
    | row :: counts' =>
        do row' <- (match idx with
                    | O => do n <- getitem row c; setitem row c (S n)
                    | S _ => Ok row
                    end);
        do counts'' <- incr_from (pred idx) c counts';
        Ok (row' :: counts'')
    end.

  (** 85-95: the for loop over [order] *)
  Fixpoint dtc_loop (excl c : nat) (values : list num) (order : list nat)
      (idx : nat) (rest : list num) (exclusions : list bool) (counts : mat nat) : res (mat nat) :=
    match order with
    | [] => Ok counts
    | i :: order' =>
        do value <- getitem values i;
        match advance value rest idx with
        | None => Ok counts
        | Some (idx', rest') =>
            do ex <- getitem exclusions i;
            if ex then dtc_loop excl c values order' idx' rest' exclusions counts
            else
              do counts' <- incr_from idx' c counts;
              dtc_loop excl c values order' idx' rest'
                (fill_slice exclusions (i - excl) (i + excl + 1) true) counts'
        end
    end.

  (** 74-97; [order] is the result of [np.argsort(values)] (tie order unspecified: quicksort).
      [self.thresholds[0]] raises when there are no thresholds. *)
  Definition dtc_col (order : list nat) (s : dtc) (c : nat) (values : list (list num)) : res dtc :=
    do values <- row0 values;
    do _ <- getitem (dt_thr s) 0;
    do counts <- dtc_loop (dt_excl s) c values order 0 (dt_thr s) (repeat false (length values)) (dt_counts s);
    Ok (mkDtc (dt_thr s) (dt_excl s) counts).

  (** 71-72: process_diagonal raises NotImplementedError; there are no shift methods.  [argsort] is [np.argsort]. *)
  Definition dtc_step (argsort : list num -> list nat) (s : dtc) (e : event num) : res dtc :=
    match e with ECol c v => do values <- row0 v; dtc_col (argsort values) s c v | EDiag _ _ => Err NotImplementedError | EShiftS _ | EShiftQ _ => Err AttributeError end.

  (** ** RadiusProfile0, radius_profile.py 9-53 *)
  Record rp := mkRp { rp_track : list nat; rp_excl : Z; rp_values : mat num }.

  (** [ndarray.sort()] on integers *)
  Fixpoint ninsert (x : nat) (l : list nat) : list nat :=
    match l with [] => [x] | y :: l' => if x <=? y then x :: l else y :: ninsert x l' end.
  Fixpoint nsort (l : list nat) : list nat :=
    match l with [] => [] | x :: l' => ninsert x (nsort l') end.

  (** 28-41, 76-92: [__init__] and [initialise] of both classes; RadiusProfile0 ignores [excl].
      (dtype/ndim checks are typing) *)
  Definition rp_init (track : list Z) (excl : Z) (query_subseq series_subseq : nat) : res rp :=
    if length track =? 0 then Err ValueError
    else if existsb (fun k => k <? 0)%Z track then Err ValueError
    else if (excl <? 0)%Z then Err RuntimeError
    else Ok (mkRp (nsort (map Z.to_nat track)) excl (repeat (repeat NaN series_subseq) (length track))).

  (** [values[:, c] = l]: column assignment *)
  Definition set_col {T} (m : mat T) (c : nat) (l : list T) : res (mat T) :=
    if length m =? length l then mapM (fun rx => setitem (fst rx) c (snd rx)) (combine m l)
    else Err ValueError.

  (** [np.take(l, k, mode="clip")] *)
  Definition take_clip {T} (l : list T) (k : nat) : res T := getitem l (Nat.min k (length l - 1)).

  (** 46-53 *)
  Definition rp0_col (s : rp) (c : nat) (values : list (list num)) : res rp :=
    do values <- row0 values;
    let sorted_values := fsort values ++ [NaN] in
    do new <- mapM (take_clip sorted_values) (rp_track s);
    do v <- set_col (rp_values s) c new;
    Ok (mkRp (rp_track s) (rp_excl s) v).

  (** 43-44: process_diagonal raises NotImplementedError *)
  Definition rp0_step (s : rp) (e : event num) : res rp :=
    match e with ECol c v => rp0_col s c v | EDiag _ _ => Err NotImplementedError | EShiftS _ | EShiftQ _ => Err AttributeError end.
  Definition rp0_run (s : rp) (es : list (event num)) : res rp := foldM rp0_step es s.

  (** ** RadiusProfile, 56-114 *)
  (** 103-112: the loop; [i] is the enumeration counter, [ti] is [tracker_idx].  [track[ti]] cannot be out
      of range: the loop returns when [ti] reaches the length. *)
  Fixpoint rp_loop (track : list nat) (c : nat) (values : list num) (yields : list nat) (i ti : nat) (m : mat num)
    : res (mat num) :=
    match yields with
    | [] => Ok m
    | low :: yields' =>
        do k <- getitem track ti;
        if i =? k then
          do v <- getitem values low;
          do m' <- mset m ti c v;
          if length track <=? S ti then Ok m'
          else rp_loop track c values yields' (S i) (S ti) m'
        else rp_loop track c values yields' (S i) ti m
    end.

  (** 97-114.  The generator is evaluated completely (it has no effects). *)
  Definition rp_col (s : rp) (c : nat) (values : list (list num)) : res rp :=
    do values <- row0 values;
    do yields <- lowest_value_idxs (length values) values (rp_excl s);
    do m <- rp_loop (rp_track s) c values yields 0 0 (rp_values s);
    Ok (mkRp (rp_track s) (rp_excl s) m).

  (** 94-95: process_diagonal raises NotImplementedError; there are no shift methods *)
  Definition rp_step (s : rp) (e : event num) : res rp :=
    match e with ECol c v => rp_col s c v | EDiag _ _ => Err NotImplementedError | EShiftS _ | EShiftQ _ => Err AttributeError end.
End Counters.
