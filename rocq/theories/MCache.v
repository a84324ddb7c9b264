(** * MCache: the cached calculation of columns, which is the same code in BoundStreamingEuclidean
    (distancematrix/generator/euclidean.py 60-141) and BoundZNormEuclidean (distancematrix/generator/znorm_euclidean.py
    118-307).  The classes differ in the complete calculation of a column ([full], called with a sequence of points and one
    subsequence) and in the contribution [term] of a pair of points: squared difference or product. *)
From Coq Require Import QArith.
From Verif Require Import Np MRing MArith.
Set Implicit Arguments.
Open Scope nat_scope.

Section Cache.
  Context {A : Type} {NA : NumOps A}.
  Notation num := (Np.num A).
  Variable full : list num -> list num -> res (list num).
  Variable term : num -> num -> num.
  (** uninitialised memory of new buffers *)
  Variable mem : nat -> num.

  (** euclidean.py 61-70, znorm_euclidean.py 131-150.  In a self-join [query] is the same object as [series]. *)
  Record cache := mkCache {
    ch_m : nat;
    ch_self : bool;
    ch_series : rb num;
    ch_qbuf : rb num;                (* only used when it is not a self-join *)
    ch_first : option (rb num);      (* first_row *)
    ch_backlog : nat;                (* first_row_backlog *)
    ch_prev : option Z;              (* prev_calc_column_index *)
    ch_vals : list num               (* prev_calc_column_sq_dist / prev_calc_column_dot_prod *)
  }.
  Definition ch_query (g : cache) : rb num := if ch_self g then ch_series g else ch_qbuf g.

  Definition cache_new (m : nat) (self : bool) (series query : rb num) : cache :=
    mkCache m self series query None 0 None [].

  (** The statements shared by euclidean.py 72-86 and znorm_euclidean.py 152-173, for at least one value *)
  Definition cache_append_s (g : cache) (values : list num) : res cache :=
    do r <- rb_push (ch_series g) values;
    let series := fst r in
    let data_dropped := snd r in
    let num_dropped := (Z.of_nat (length values) - (Z.of_nat (rb_max series) - Z.of_nat (length (rb_view series))))%Z in
    let prev := match ch_prev g with
                | Some p => if (0 <? num_dropped)%Z then Some (p - num_dropped)%Z else Some p
                | None => None
                end in
    let backlog := ch_backlog g + length values in
    Ok (if ch_self g
        then mkCache (ch_m g) true series (ch_qbuf g) (if data_dropped =? 0 then ch_first g else None) backlog None (ch_vals g)
        else mkCache (ch_m g) false series (ch_qbuf g) (ch_first g) backlog prev (ch_vals g)).

  (** euclidean.py 88-97 and znorm_euclidean.py 175-184, for at least one value and not in a self-join *)
  Definition cache_append_q (g : cache) (values : list num) : res cache :=
    do r <- rb_push (ch_qbuf g) values;
    Ok (mkCache (ch_m g) (ch_self g) (ch_series g) (fst r) (if snd r =? 0 then ch_first g else None) (ch_backlog g) None (ch_vals g)).

  (** euclidean.py 122-131, znorm_euclidean.py 256-266: the first row, brought up to date *)
  Definition cache_first (g : cache) : res (rb num) :=
    let series := rb_view (ch_series g) in
    let first_query := lslice (rb_view (ch_query g)) 0 (ch_m g) in
    match ch_first g with
    | None =>
        do d <- full series first_query;
        rb_new mem (Some d) (Some (rb_max (ch_series g) + 1 - ch_m g)) true 2
    | Some b =>
        if 0 <? ch_backlog g then
          do d <- full (slice_from series (- (Z.of_nat (ch_backlog g) + Z.of_nat (ch_m g) - 1))) first_query;
          do r <- rb_push b d; Ok (fst r)
        else Ok b
    end.

  (** euclidean.py 116-141, znorm_euclidean.py 249-275: the values behind column [column].  The subtraction and addition of
      euclidean.py 133-136 are element-wise; an assignment of another number of values raises. *)
  Definition cache_col (g : cache) (column : nat) : res (cache * list num) :=
    let series := rb_view (ch_series g) in
    let query := rb_view (ch_query g) in
    let m := ch_m g in
    let cached := match ch_prev g with Some p => (p =? Z.of_nat column - 1)%Z | None => false end in
    do r <-
      (if negb cached || (column =? 0) then
         do v <- full query (lslice series column (column + m)); Ok (ch_first g, ch_backlog g, v)
       else
         do fr <- cache_first g;
         do sub <- getitem series (column - 1);
         do add <- getitem series (column + m - 1);
         do v1 <- bop fsub (slice (ch_vals g) 0 (-1)) (map (term sub) (slice query 0 (Z.of_nat (length query) - Z.of_nat m)));
         do v2 <- bop fadd v1 (map (term add) (skipn m query));
         do v3 <- set_slice (ch_vals g) 1 (length (ch_vals g)) v2;
         do f <- getitem (rb_view fr) column;
         do v <- setitem v3 0 f;
         Ok (Some fr, 0, v));
    let '(first, backlog, v) := r in
    Ok (mkCache m (ch_self g) (ch_series g) (ch_qbuf g) first backlog (Some (Z.of_nat column)) v, v).
End Cache.
