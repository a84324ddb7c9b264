(** * MMulti: model of MultidimensionalMatrixProfileLR
    (distancematrix/consumer/multidimensional_matrix_profile_lr.py). *)
From Coq Require Import QArith.
From Verif Require Import Np Mat MRing MProfile SLog.
Set Implicit Arguments.
Open Scope nat_scope.

Section Multi.
  Context {A : Type} {NA : NumOps A}.
  Notation num := (Np.num A).

  (** What one side (left or right) stores for one number of dimensions: row [dim] of the profile and of the index,
      and the dim-th array of dimensions.  A row of a two-dimensional ring buffer is a ring buffer (all rows move
      together); the dimension arrays are ring buffers of columns. *)
  Record sd := mkSd { sd_mp : rb num; sd_ix : rb Z; sd_dm : rb (list Z) }.

  (** 43-58: attributes; [md_lanes] pairs the left and right side per number of dimensions. *)
  Record md := mkMd {
    md_ndim : nat;
    md_range : rb Z;
    md_lanes : list (sd * sd);
    md_ss : Z;        (* _series_shift *)
    md_qs : Z         (* _query_shift *)
  }.

  (** 66-72 / 74-80 for one [dim] *)
  Definition sd_init (memn : nat -> num) (memz : nat -> Z) (memd : nat -> list Z) (sf : Q) (w dim : nat) : res sd :=
    do m <- rb_new memn (Some (repeat PInf w)) None true sf;
    do i <- rb_new memz (Some (repeat (-1)%Z w)) None true sf;
    do d <- rb_new memd (Some (repeat (repeat (-1)%Z (dim + 1)) w)) None true sf;
    Ok (mkSd m i d).

  (** 31-80: [__init__] and [initialise] *)
  Definition md_init (memn : nat -> num) (memz : nat -> Z) (memd : nat -> list Z) (sf : Q)
      (dims query_subseq series_subseq : nat) : res md :=
    if negb (Qle_bool 1 sf) then Err ValueError
    else
      do range <- rb_new memz (Some (arange 0 series_subseq)) None true sf;
      do lanes <- mapM (fun dim =>
        do l <- sd_init memn memz memd sf series_subseq dim;
        do r <- sd_init memn memz memd sf series_subseq dim;
        Ok (l, r)) (seq 0 dims);
      Ok (mkMd dims range lanes 0 0).

  (** The columns of a (channels x points) array *)
  Definition axis0 (values : list (list num)) : list (list num) :=
    map (fun p => map (fun row => nth p row NaN) values) (seq 0 (length (hd [] values))).
  (** [np.sort(values, axis=0)[dim, :]] *)
  Definition sorted_row (values : list (list num)) (dim : nat) : list num :=
    map (fun col => nth dim (fsort col) NaN) (axis0 values).
  (** [np.argsort(values, axis=0)[:dim + 1, :]], column by column; [argsort] is NumPy's choice among equal values *)
  Definition sort_order (argsort : list num -> list nat) (values : list (list num)) (dim : nat) : list (list Z) :=
    map (fun col => map Z.of_nat (firstn (dim + 1) (argsort col))) (axis0 values).

  (** 163-168: [_update_matrix_profile] on the slices [lo:hi] of one side.  The comparison of arrays of different length
      raises ValueError (broadcasting of one-element arrays not modelled), a mask of another length than the indexed
      array raises IndexError. *)
  Definition sd_update (dist : list num) (idx : list Z) (dims : list (list Z)) (s : sd) (lo hi : nat) : res sd :=
    let mp := lslice (rb_view (sd_mp s)) lo hi in
    let ix := lslice (rb_view (sd_ix s)) lo hi in
    let dm := lslice (rb_view (sd_dm s)) lo hi in
    if negb (length dist =? length mp) then Err ValueError
    else if negb ((length idx =? length dist) && (length ix =? length dist) && (length dims =? length dist) && (length dm =? length dist)) then Err IndexError
    else
      let upd := zip_with fltb dist mp in
      Ok (mkSd
        (rb_set_view (sd_mp s) (splice (rb_view (sd_mp s)) lo (zip_with (fun (u : bool) x => if u then fst x else snd x) upd (zip_with pair dist mp))))
        (rb_set_view (sd_ix s) (splice (rb_view (sd_ix s)) lo (zip_with (fun (u : bool) x => if u then fst x else snd x) upd (zip_with pair idx ix))))
        (rb_set_view (sd_dm s) (splice (rb_view (sd_dm s)) lo (zip_with (fun (u : bool) x => if u then fst x else snd x) upd (zip_with pair dims dm))))).

  Definition on_left (lane : sd * sd) (f : sd -> res sd) : res (sd * sd) := do l <- f (fst lane); Ok (l, snd lane).
  Definition on_right (lane : sd * sd) (f : sd -> res sd) : res (sd * sd) := do r <- f (snd lane); Ok (fst lane, r).

  (** The bodies of the loops [for dim in range(n_dim)] in 82-161: [values_cumsum] is the accumulator, [body] the call of
      [_update_matrix_profile] with the averaged distances. *)
  Definition dim_loop (values : list (list num)) (body : nat -> list num -> sd * sd -> res (sd * sd))
      (st : list num * list (sd * sd)) : res (list num * list (sd * sd)) :=
    foldM (fun st dim =>
      let cumsum := zip_with fadd (fst st) (sorted_row values dim) in
      let mean := map (fun x => fdivp x (nofZ (Z.of_nat dim + 1))) cumsum in
      do lane <- getitem (snd st) dim;
      do lane' <- body dim mean lane;
      do lanes <- setitem (snd st) dim lane';
      Ok (cumsum, lanes)) (seq 0 (length values)) st.

  (** 82-161.  116-126: [self._range[num_values]] is one number (or out of bounds); indexing it with a mask raises
      IndexError. *)
  Definition md_diag (argsort : list num -> list nat) (s : md) (diag : Z) (values : list (list num)) : res md :=
    let num_values := length (hd [] values) in
    let shift_diff := (md_ss s - md_qs s)%Z in
    let range := rb_view (md_range s) in
    let dpos := Z.to_nat diag in
    let dneg := Z.to_nat (- diag) in
    let order := sort_order argsort values in
    do st1 <-
      (if (0 <=? diag + shift_diff)%Z then
         if (0 <=? diag)%Z then
           dim_loop values (fun dim mean lane => on_left lane (fun x =>
             sd_update mean (lslice range 0 num_values) (order dim) x dpos (dpos + num_values)))
             (repeat (Fin nzero) num_values, md_lanes s)
         else
           dim_loop values (fun dim mean lane => on_left lane (fun x =>
             sd_update mean (lslice range dneg (dneg + num_values)) (order dim) x 0 num_values))
             (repeat (Fin nzero) num_values, md_lanes s)
       else
         if (0 <=? diag)%Z then
           dim_loop values (fun dim mean lane => Err IndexError) (repeat (Fin nzero) num_values, md_lanes s)
         else
           dim_loop values (fun dim mean lane => on_right lane (fun x =>
             sd_update mean (lslice range dneg (dneg + num_values)) (order dim) x 0 num_values))
             (repeat (Fin nzero) num_values, md_lanes s));
    do st2 <-
      (if (0 <=? diag)%Z then
         dim_loop values (fun dim mean lane => on_left lane (fun x =>
           sd_update mean (lslice range 0 num_values) (order dim) x dpos (dpos + num_values))) st1
       else
         dim_loop values (fun dim mean lane => on_right lane (fun x =>
           sd_update mean (lslice range dneg (dneg + num_values)) (order dim) x 0 num_values)) st1);
    Ok (mkMd (md_ndim s) (md_range s) (snd st2) (md_ss s) (md_qs s)).

  (** 186-190 / 198-202: store the match of a column if it is better *)
  Definition sd_put (c : nat) (v : num) (q : Z) (ds : list Z) (s : sd) : res sd :=
    do cur <- getitem (rb_view (sd_mp s)) c;
    if fltb v cur then
      do m <- rb_setitem (sd_mp s) (Z.of_nat c) v;
      do i <- rb_setitem (sd_ix s) (Z.of_nat c) q;
      do d <- rb_setitem (sd_dm s) (Z.of_nat c) ds;
      Ok (mkSd m i d)
    else Ok s.

  (** 170-202 *)
  Definition md_col (argsort : list num -> list nat) (s : md) (c : nat) (values : list (list num)) : res md :=
    let num_values := length (hd [] values) in
    let shift_diff := (md_ss s - md_qs s)%Z in
    let border := Z.to_nat (Z.max 0 (Z.of_nat c + 1 + shift_diff)) in
    do st <- foldM (fun st dim =>
      let cumsum := zip_with fadd (fst st) (sorted_row values dim) in
      do lane <- getitem (snd st) dim;
      do l <- (if 0 <? border then
                 do p <- argmin (firstn border cumsum);
                 do m <- getitem cumsum p;
                 sd_put c (fdivp m (nofZ (Z.of_nat dim + 1))) (Z.of_nat p + md_qs s)
                   (map Z.of_nat (firstn (dim + 1) (argsort (map (fun row => nth p row NaN) values)))) (fst lane)
               else Ok (fst lane));
      do r <- (if border <? num_values then
                 do p0 <- argmin (skipn border cumsum);
                 let p := p0 + border in
                 do m <- getitem cumsum p;
                 sd_put c (fdivp m (nofZ (Z.of_nat dim + 1))) (Z.of_nat p + md_qs s)
                   (map Z.of_nat (firstn (dim + 1) (argsort (map (fun row => nth p row NaN) values)))) (snd lane)
               else Ok (snd lane));
      do lanes <- setitem (snd st) dim (l, r);
      Ok (cumsum, lanes)) (seq 0 (length values)) (repeat (Fin nzero) num_values, md_lanes s);
    Ok (mkMd (md_ndim s) (md_range s) (snd st) (md_ss s) (md_qs s)).

  (** 204-209 *)
  Definition md_shift_query (s : md) (amount : nat) : res md :=
    if amount =? 0 then Ok s
    else
      do lst <- pyget (rb_view (md_range s)) (-1);
      do r <- rb_push (md_range s) (arange (lst + 1) amount);
      Ok (mkMd (md_ndim s) (fst r) (md_lanes s) (md_ss s) (md_qs s + Z.of_nat amount)%Z).

  Definition sd_push (amount dim : nat) (s : sd) : res sd :=
    do m <- rb_push (sd_mp s) (repeat PInf amount);
    do i <- rb_push (sd_ix s) (repeat (-1)%Z amount);
    do d <- rb_push (sd_dm s) (repeat (repeat (-1)%Z (dim + 1)) amount);
    Ok (mkSd (fst m) (fst i) (fst d)).

  (** 211-227; the buffers are independent of each other, so that the order of the pushes does not matter *)
  Definition md_shift_series (s : md) (amount : nat) : res md :=
    if amount =? 0 then Ok s
    else
      do lanes <- foldM (fun lanes dim =>
        do lane <- getitem lanes dim;
        do l <- sd_push amount dim (fst lane);
        do r <- sd_push amount dim (snd lane);
        setitem lanes dim (l, r)) (seq 0 (md_ndim s)) (md_lanes s);
      Ok (mkMd (md_ndim s) (md_range s) lanes (md_ss s + Z.of_nat amount)%Z (md_qs s)).

  Definition md_step (argsort : list num -> list nat) (s : md) (e : event num) : res md :=
    match e with
    | EDiag d v => md_diag argsort s d v
    | ECol c v => md_col argsort s c v
    | EShiftS n => md_shift_series s n
    | EShiftQ n => md_shift_query s n
    end.
  Definition md_run (argsort : list num -> list nat) (s : md) (es : list (event num)) : res md := foldM (md_step argsort) es s.

  (** Reading (dim, c) of a side: distance, index and dimensions *)
  Definition sd_read (s : sd) (c : nat) : res (num * Z * list Z) :=
    do v <- getitem (rb_view (sd_mp s)) c;
    do q <- getitem (rb_view (sd_ix s)) c;
    do d <- getitem (rb_view (sd_dm s)) c;
    Ok (v, q, d).
  Definition md_left (s : md) (dim c : nat) : res (num * Z * list Z) := do lane <- getitem (md_lanes s) dim; sd_read (fst lane) c.
  Definition md_right (s : md) (dim c : nat) : res (num * Z * list Z) := do lane <- getitem (md_lanes s) dim; sd_read (snd lane) c.
  (** 229-270: the three merging methods select the left side exactly where it is strictly smaller *)
  Definition md_merged (s : md) (dim c : nat) : res (num * Z * list Z) :=
    do l <- md_left s dim c;
    do r <- md_right s dim c;
    Ok (if fltb (fst (fst l)) (fst (fst r)) then l else r).
End Multi.
