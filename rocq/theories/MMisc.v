(** * MMisc: model of remaining small functions: util.sliding_min and sliding_max (util.py 136-158), calculator._find_invalid_subseq_idxs
    (calculator.py 422-439), AbstractCalculator.num_dist_matrix_values (calculator.py 137-139) and the item access of RingBuffer
    (ringbuffer.py 114-121). *)
From Verif Require Import Np Mat MUtil MRing MCalc.
Set Implicit Arguments.

Section Misc.
  Context {A : Type} {NA : NumOps A}.
  Notation num := (Np.num A).

  Fixpoint best_from (better : num -> num -> bool) (l : list num) (b : num) : num :=
    match l with [] => b | x :: l' => best_from better l' (if better x b then x else b) end.

  (** pandas' [Series(l).rolling(w).min()] and [.max()], after pandas' documentation and the conversion in its [_prep_values]: infinite values are replaced by NaN;
      [min_periods] is [w], so a result is NaN unless [w] numbers end at its position. *)
  Definition rolling (better : num -> num -> bool) (w : nat) (l : list num) : list num :=
    map (fun i => if i + 1 <? w then NaN
                  else match firstn w (skipn (i + 1 - w) l) with
                       | [] => NaN
                       | x :: win => if forallb isfinite (x :: win) then best_from better win x else NaN
                       end) (seq 0 (length l)).

  (** util.py 136-158; pandas rejects a negative window. *)
  Definition sliding (better : num -> num -> bool) (array : list num) (window_size : Z) : res (list num) :=
    if (window_size <? 0)%Z then Err ValueError else Ok (slice_from (rolling better (Z.to_nat window_size) array) (window_size - 1)).
  Definition sliding_min := sliding (fun x b => fltb x b).
  Definition sliding_max := sliding (fun x b => fltb b x).

  (** ringbuffer.py 117-118, for one integer key: the item of the view.  [__setitem__] is [rb_setitem] of MRing.  ndarray has no
      item deletion: [__delitem__] (120-121) raises for every key ("cannot delete array elements"). *)
  Definition rb_getitem {T} (b : rb T) (key : Z) : res T := pyget (rb_view b) key.
  (** the same for a key [lo:hi] *)
  Definition rb_getslice {T} (b : rb T) (lo hi : Z) : list T := slice (rb_view b) lo hi.
  Definition rb_delitem {T} (b : rb T) (key : Z) : res unit := Err ValueError.
End Misc.

(** calculator.py 422-439.  [invalid] is the transpose of np.nonzero's output: pairs of dimension and index.  A set is a list without duplicates,
    the order in which it is listed an oracle. *)
Definition find_invalid_subseq_idxs (set_order : list Z -> list Z) (invalid : list (nat * Z)) (dims : nat) (m min_result_idx max_result_idx : Z) : res (list (list Z)) :=
  do sets <- foldM (fun sets di =>
      let affected := pyrange 0 (Z.max min_result_idx (Z.max (snd di - m + 1) (Z.min (snd di + m) max_result_idx))) in
      do s <- getitem sets (fst di);
      setitem sets (fst di) (fold_left (fun s x => if existsb (Z.eqb x) s then s else s ++ [x]) affected s)) invalid (repeat [] dims);
  Ok (map set_order sets).

(** calculator.py 137-139 *)
Definition num_dist_matrix_values {G C} (s : calc G C) : Z := (ca_nq s * ca_ns s)%Z.
