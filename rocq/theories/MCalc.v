(** * MCalc: model of the calculators (distancematrix/calculator.py).

    Bound generators and consumers are values of arbitrary types [G] and [C] with the operations of their abstract base
    classes (a sum type gives a mixture of classes).  Generators and consumers are different objects, so that a
    calculator can hold their states in lists.  An exception aborts the call ([Err]); the state an aborted call leaves
    behind is not modelled.  Progress printing and timing (129-135, 263-271) are not modelled. *)
From Coq Require Import QArith Qround.
From Verif Require Import Np Mat MUtil SLog.
Set Implicit Arguments.
Open Scope nat_scope.

(** The argument types of [_ratio_to_int]: a Python int, a float, anything else. *)
Inductive request := RInt (z : Z) | RFloat (x : num Q) | ROther.

(** 409-419.  [ceil(ratio * full)] is computed exactly (the rounding of the float product is in MRatio.v); [ceil] of
    NaN raises ValueError. *)
Definition ratio_to_int (r : request) (full max_value : Z) : res Z :=
  match r with
  | RFloat (Fin q) =>
      if negb (Qle_bool 0 q) || negb (Qle_bool q 1) then Err ValueError
      else Ok (Z.min (Z.max 0 (Qceiling (q * inject_Z full))) max_value)
  | RFloat _ => Err ValueError
  | RInt z => Ok (Z.min (Z.max 0 z) max_value)
  | ROther => Err RuntimeError
  end.

Section Calc.
  Context {A : Type}.
  Notation num := (Np.num A).
  Variables (X G C : Type).
  Variable g_col : G -> nat -> res (G * list num).     (* calc_column *)
  Variable g_diag : G -> Z -> res (G * list num).      (* calc_diagonal *)
  Variable g_app_s : G -> list X -> res G.             (* append_series *)
  Variable g_app_q : G -> list X -> res G.             (* append_query *)
  Variable c_step : C -> event num -> res C.           (* process_diagonal, process_column, shift_series, shift_query *)
  (** [list(set(...))] (107, 236): the elements in some order *)
  Variable set_order : list nat -> list nat.

  (** 22-57 *)
  Record calc := mkCalc {
    ca_self : bool;                    (* _self_join *)
    ca_m : Z;
    ca_ndim : nat;
    ca_ns : Z;                         (* num_series_subseq *)
    ca_nq : Z;                         (* num_query_subseq *)
    ca_tmb : Z;                        (* trivial_match_buffer *)
    ca_gens : list (G * nat);          (* _generators: bound generator -> input_dim *)
    ca_cons : list (C * list nat);     (* _consumers: consumer -> generator ids *)
    ca_last : Z                        (* _last_column_calculated *)
  }.
  Definition ca_upd (s : calc) gens cns last : calc :=
    mkCalc (ca_self s) (ca_m s) (ca_ndim s) (ca_ns s) (ca_nq s) (ca_tmb s) gens cns last.

  (** 22-57: [AbstractCalculator.__init__] *)
  Definition ca_new (self_join : bool) (m num_series_subseq num_query_subseq : Z) (n_dim : nat) (buffer : option Z) : res calc :=
    if self_join then
      let b := match buffer with None => Z.div m 2 | Some b => b end in
      if (-1 <=? b)%Z && (b <? num_series_subseq)%Z
      then Ok (mkCalc true m n_dim num_series_subseq num_series_subseq b [] [] (-1))
      else Err RuntimeError
    else Ok (mkCalc false m n_dim num_series_subseq num_query_subseq (-1) [] [] (-1)).

  (** 61-72: [init] is [consumer.initialise]; a new consumer object *)
  Definition add_consumer (s : calc) (generator_ids : list nat) (init : nat -> Z -> Z -> res C) : res calc :=
    do c <- init (length generator_ids) (ca_nq s) (ca_ns s);
    Ok (ca_upd s (ca_gens s) (ca_cons s ++ [(c, generator_ids)]) (ca_last s)).

  (** 107 / 236: [generators_needed_ids] *)
  Definition needed (s : calc) : list nat := set_order (concat (map snd (ca_cons s))).

  (** 114-116 / 251-253: one row of [dists] per generator, [g_calc] is calc_column or calc_diagonal; the first [n] entries are
      assigned. *)
  Definition run_gens (g_calc : G -> res (G * list num)) (n : nat) (ids : list nat) (gens : list (G * nat))
      (dists : list (list num)) : res (list (G * nat) * list (list num)) :=
    foldM (fun st id =>
      do g <- getitem (fst st) id;
      do r <- g_calc (fst g);
      do row <- getitem (snd st) id;
      do row' <- set_slice row 0 n (snd r);
      do dists' <- setitem (snd st) id row';
      do gens' <- setitem (fst st) id (fst r, snd g);
      Ok (gens', dists')) ids (gens, dists).

  (** 123-124 / 255-259: every consumer receives the rows of its generators ([mk] makes the calls) *)
  Definition deliver (mk : list (list num) -> list (event num)) (dists : list (list num)) (cns : list (C * list nat)) :
      res (list (C * list nat)) :=
    mapM (fun cl =>
      do vals <- mapM (getitem dists) (snd cl);
      do c <- foldM c_step (mk vals) (fst cl);
      Ok (c, snd cl)) cns.

  (** 118-121 *)
  Definition mask_column (tmb c : Z) (dists : list (list num)) : list (list num) :=
    if (0 <=? tmb)%Z
    then map (fun row => fill_slice row (Z.to_nat (Z.max 0 (c - tmb))) (Z.to_nat (c + tmb + 1)) PInf) dists
    else dists.

  (** 114-127: the body of the loop over columns *)
  Definition col_step (ids : list nat) (row_limit : nat) (st : calc * list (list num)) (c : Z) : res (calc * list (list num)) :=
    let s := fst st in
    do gd <- run_gens (fun g => g_col g (Z.to_nat c)) row_limit ids (ca_gens s) (snd st);
    let dists := mask_column (ca_tmb s) c (snd gd) in
    do cns <- deliver (fun vals => [ECol (Z.to_nat c) vals]) dists (ca_cons s);
    Ok (ca_upd s (fst gd) cns (Z.max c (ca_last s)), dists).

  (** 113-127: the loop; [intr k] is the value of [is_interrupted()] at its k-th test. *)
  Fixpoint col_loop (fuel : nat) (intr : nat -> bool) (k : nat) (ids : list nat) (row_limit : nat) (c upto : Z)
      (st : calc * list (list num)) : res (calc * list (list num)) :=
    match fuel with
    | 0 => Err OutOfFuel
    | S fuel' =>
        if (c <? upto)%Z && negb (intr k) then
          do st' <- col_step ids row_limit st c;
          col_loop fuel' intr (S k) ids row_limit (c + 1) upto st'
        else Ok st
    end.

  (** 85-135: [calculate_columns]; [column_limit] and [row_limit] are [_max_column()] and [_max_row()].  The loop runs at most
      [upto - start] times, [fuel] is one more. *)
  Definition calculate_columns (column_limit row_limit : Z) (intr : nat -> bool) (s : calc) (start : option request)
      (upto : request) : res calc :=
    let start := match start with None => RInt (ca_last s + 1) | Some r => r end in
    do start <- ratio_to_int start (ca_ns s) column_limit;
    do upto <- ratio_to_int upto (ca_ns s) column_limit;
    if (row_limit <? 0)%Z then Err ValueError
    else
      let rows := Z.to_nat row_limit in
      do st <- col_loop (S (Z.to_nat (upto - start))) intr 0 (needed s) rows start upto (s, repeat (repeat NaN rows) (length (ca_gens s)));
      Ok (fst st).

  (** ** AnytimeCalculator *)
  (** 165-211 *)
  Record any := mkAny {
    an_calc : calc;
    an_series : list (list X);
    an_query : list (list X);
    an_order : list Z;         (* _diagonal_calc_order *)
    an_total : Z;              (* _diagonal_values_total *)
    an_next : nat;             (* _diagonal_calc_list_next_index *)
    an_done : Z                (* _diagonal_values_calculated *)
  }.

  (** 165-211: [series] and [query] after [np.atleast_2d] (rows of equal length, so that ndim is 2); [shuffle] is
      [random.shuffle] with a fixed seed. *)
  Definition any_new (shuffle : list Z -> list Z) (m : Z) (series : list (list X)) (query : option (list (list X)))
      (buffer : option Z) : res any :=
    let q := match query with None => series | Some q => q end in
    let self_join := match query with None => true | Some _ => false end in
    let n_dim := length series in
    if negb (n_dim =? length q) then Err RuntimeError
    else
      let num_series_subseq := (Z.of_nat (length (hd [] series)) - m + 1)%Z in
      let num_query_subseq := (Z.of_nat (length (hd [] q)) - m + 1)%Z in
      do s <- ca_new self_join m num_series_subseq num_query_subseq n_dim buffer;
      if self_join then
        let temp := (ca_ns s - ca_tmb s - 1)%Z in
        Ok (mkAny s series q (shuffle (pyrange (ca_tmb s + 1) (ca_ns s))) (Z.div (temp * (temp + 1)) 2) 0 0)
      else
        Ok (mkAny s series q (shuffle (pyrange (- ca_nq s + 1) (ca_ns s))) (ca_nq s * ca_ns s) 0 0).

  (** 213-223; [prepare] is [generator.prepare] *)
  Definition any_add_generator (prepare : Z -> list X -> option (list X) -> res G) (a : any) (input_dim : Z) : res any :=
    let s := an_calc a in
    if (input_dim <? 0)%Z || (Z.of_nat (ca_ndim s) <=? input_dim)%Z then Err ValueError
    else
      let d := Z.to_nat input_dim in
      do row <- getitem (an_series a) d;
      do g <- (if negb (ca_self s) then do qrow <- getitem (an_query a) d; prepare (ca_m s) row (Some qrow)
               else prepare (ca_m s) row None);
      Ok (mkAny (ca_upd s (ca_gens s ++ [(g, d)]) (ca_cons s) (ca_last s)) (an_series a) (an_query a) (an_order a) (an_total a) (an_next a) (an_done a)).

  (** 255-259: the calls for one diagonal *)
  Definition diag_calls (self_join : bool) (diagonal : Z) (vals : list (list num)) : list (event num) :=
    EDiag diagonal vals :: (if self_join then [EDiag (- diagonal) vals] else []).

  (** 246-262: the body of the loop over diagonals *)
  Definition diag_step (ids : list nat) (st : any * list (list num)) : res (any * list (list num)) :=
    let a := fst st in
    let s := an_calc a in
    do diagonal <- getitem (an_order a) (an_next a);
    let dl := diag_length (ca_nq s) (ca_ns s) diagonal in
    let n := Z.to_nat dl in
    do gd <- run_gens (fun g => g_diag g diagonal) n ids (ca_gens s) (snd st);
    do cns <- deliver (diag_calls (ca_self s) diagonal) (map (firstn n) (snd gd)) (ca_cons s);
    Ok (mkAny (ca_upd s (fst gd) cns (ca_last s)) (an_series a) (an_query a) (an_order a) (an_total a) (S (an_next a)) (an_done a + dl)%Z, snd gd).

  Fixpoint diag_loop (fuel : nat) (intr : nat -> bool) (k : nat) (ids : list nat) (values_needed : Z)
      (st : any * list (list num)) : res (any * list (list num)) :=
    match fuel with
    | 0 => Err OutOfFuel
    | S fuel' =>
        if (an_done (fst st) <? values_needed)%Z && negb (intr k) then
          do st' <- diag_step ids st;
          diag_loop fuel' intr (S k) ids values_needed st'
        else Ok st
    end.

  (** 225-271: [calculate_diagonals].  Every iteration uses another element of the order, so that it cannot run more than
      [length order] times without raising IndexError; [fuel] is two more. *)
  Definition calculate_diagonals (intr : nat -> bool) (a : any) (partial : request) : res any :=
    let s := an_calc a in
    let max_diagonal_length := Z.min (ca_nq s) (ca_ns s) in
    if (max_diagonal_length <? 0)%Z then Err ValueError
    else
      do values_needed <- ratio_to_int partial (an_total a) (an_total a);
      do st <- diag_loop (S (S (length (an_order a)))) intr 0 (needed s) values_needed
        (a, repeat (repeat NaN (Z.to_nat max_diagonal_length)) (length (ca_gens s)));
      Ok (fst st).

  (** 149-153 inherited: [_max_column], [_max_row] *)
  Definition any_columns (intr : nat -> bool) (a : any) (start : option request) (upto : request) : res any :=
    do s <- calculate_columns (ca_ns (an_calc a)) (ca_nq (an_calc a)) intr (an_calc a) start upto;
    Ok (mkAny s (an_series a) (an_query a) (an_order a) (an_total a) (an_next a) (an_done a)).

  (** ** StreamingCalculator *)
  Record stm := mkStm {
    st_calc : calc;
    st_sp : Z;         (* streamed_series_points *)
    st_qp : Z          (* streamed_query_points *)
  }.

  (** 282-307 *)
  Definition stm_new (m series_window : Z) (query_window : option Z) (n_dim : nat) (buffer : option Z) : res stm :=
    let num_series_subseq := (series_window - m + 1)%Z in
    match query_window with
    | None =>
        do s <- ca_new true m num_series_subseq num_series_subseq n_dim buffer;
        Ok (mkStm s 0 (-1))
    | Some qw =>
        do s <- ca_new false m num_series_subseq (qw - m + 1)%Z n_dim buffer;
        Ok (mkStm s 0 0)
    end.

  (** 309-321; [prepare] is [generator.prepare_streaming] *)
  Definition stm_add_generator (prepare : Z -> Z -> option Z -> res G) (t : stm) (input_dim : Z) : res stm :=
    let s := st_calc t in
    if (input_dim <? 0)%Z || (Z.of_nat (ca_ndim s) <=? input_dim)%Z then Err ValueError
    else
      do g <- (if negb (ca_self s) then prepare (ca_m s) (ca_ns s + ca_m s - 1)%Z (Some (ca_nq s + ca_m s - 1)%Z)
               else prepare (ca_m s) (ca_ns s + ca_m s - 1)%Z None);
      Ok (mkStm (ca_upd s (ca_gens s ++ [(g, Z.to_nat input_dim)]) (ca_cons s) (ca_last s)) (st_sp t) (st_qp t)).

  (** 332-340 / 373-382: the values of a call, one point per channel or (channels x points) *)
  Inductive points := Pt (v : list X) | Pts (rows : list (list X)).
  Definition as_rows (n_dim : nat) (v : points) : res (list (list X)) :=
    match v with
    | Pt v => if length v =? n_dim then Ok (map (fun x => [x]) v) else Err RuntimeError
    | Pts rows => if length rows =? n_dim then Ok rows else Err RuntimeError
    end.

  (** 342-344 / 384-386 *)
  Definition append_gens (g_app : G -> list X -> res G) (gens : list (G * nat)) (rows : list (list X)) : res (list (G * nat)) :=
    mapM (fun g => do row <- getitem rows (snd g); do g' <- g_app (fst g) row; Ok (g', snd g)) gens.

  (** 346-350 / 388-392: number of subsequences that leave the window *)
  Definition window_shift (window streamed points : Z) : Z :=
    if (streamed <? window)%Z then Z.max 0 (points - (window - streamed)) else points.

  Definition shift_all (e : event num) (cns : list (C * list nat)) : res (list (C * list nat)) :=
    mapM (fun cl => do c <- c_step (fst cl) e; Ok (c, snd cl)) cns.

  (** 323-359; [values.shape[1]] is the length of the rows *)
  Definition append_series (t : stm) (values : points) : res stm :=
    let s := st_calc t in
    do rows <- as_rows (ca_ndim s) values;
    do gens <- append_gens g_app_s (ca_gens s) rows;
    let n := Z.of_nat (length (hd [] rows)) in
    let column_shift := window_shift (ca_ns s + ca_m s - 1) (st_sp t) n in
    let sp := (st_sp t + n)%Z in
    if (column_shift =? 0)%Z then Ok (mkStm (ca_upd s gens (ca_cons s) (ca_last s)) sp (st_qp t))
    else
      do cns <- shift_all (EShiftS (Z.to_nat column_shift)) (ca_cons s);
      do cns' <- (if ca_self s then shift_all (EShiftQ (Z.to_nat column_shift)) cns else Ok cns);
      Ok (mkStm (ca_upd s gens cns' (Z.max (-1) (ca_last s - column_shift))) sp (st_qp t)).

  (** 361-397 *)
  Definition append_query (t : stm) (values : points) : res stm :=
    let s := st_calc t in
    if ca_self s then Err RuntimeError
    else
      do rows <- as_rows (ca_ndim s) values;
      do gens <- append_gens g_app_q (ca_gens s) rows;
      let n := Z.of_nat (length (hd [] rows)) in
      let row_shift := window_shift (ca_nq s + ca_m s - 1) (st_qp t) n in
      let qp := (st_qp t + n)%Z in
      do cns <- (if (row_shift =? 0)%Z then Ok (ca_cons s) else shift_all (EShiftQ (Z.to_nat row_shift)) (ca_cons s));
      Ok (mkStm (ca_upd s gens cns (ca_last s)) (st_sp t) qp).

  (** 399-407 *)
  Definition stm_max_column (t : stm) : Z := Z.min (Z.max 0 (st_sp t - ca_m (st_calc t) + 1)) (ca_ns (st_calc t)).
  Definition stm_max_row (t : stm) : Z :=
    if ca_self (st_calc t) then stm_max_column t
    else Z.min (Z.max 0 (st_qp t - ca_m (st_calc t) + 1)) (ca_nq (st_calc t)).

  Definition stm_columns (intr : nat -> bool) (t : stm) (start : option request) (upto : request) : res stm :=
    do s <- calculate_columns (stm_max_column t) (stm_max_row t) intr (st_calc t) start upto;
    Ok (mkStm s (st_sp t) (st_qp t)).
End Calc.
