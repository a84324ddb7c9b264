(** * MRaise: the state of an AnytimeCalculator after an exception (distancematrix/calculator.py 85-135, 225-271).

    Generators and consumers are objects: a call changes the object also when it raises.  Here a call returns the new state of the object and a result or an
    exception, and so do the methods of the calculator.  The functions follow those of MCalc.v line by line; a local array ([column_dists],
    [diag_dists]) is lost with an exception. *)
From Coq Require Import QArith.
From Verif Require Import Np Mat MUtil SLog MCalc SMixed.
Set Implicit Arguments.
Open Scope nat_scope.

Section Raise.
  Context {A : Type}.
  Notation num := (Np.num A).
  Variables (X G C : Type).
  Variable g_col : G -> nat -> G * res (list num).
  Variable g_diag : G -> Z -> G * res (list num).
  Variable c_step : C -> event num -> C * option exn.
  Variable set_order : list nat -> list nat.
  Notation calc := (calc G C).
  Notation any := (any X G C).

  (** Calls of one consumer, up to the first exception *)
  Fixpoint feed (evs : list (event num)) (c : C) : C * option exn :=
    match evs with
    | [] => (c, None)
    | e :: evs' => match c_step c e with (c', None) => feed evs' c' | r => r end
    end.

  (** 114-116 / 251-253 *)
  Fixpoint run_gens_x (g_calc : G -> G * res (list num)) (n : nat) (ids : list nat) (gens : list (G * nat)) (dists : list (list num)) :
      list (G * nat) * list (list num) * option exn :=
    match ids with
    | [] => (gens, dists, None)
    | id :: ids' =>
        match nth_error gens id with
        | None => (gens, dists, Some IndexError)
        | Some (g, d) =>
            let (g', r) := g_calc g in
            let gens' := splice gens id [(g', d)] in
            match (do vals <- r; do row <- getitem dists id; do row' <- set_slice row 0 n vals; setitem dists id row') with
            | Ok dists' => run_gens_x g_calc n ids' gens' dists'
            | Err e => (gens', dists, Some e)
            end
        end
    end.

  (** 123-124 / 255-259: the consumers before the one that raises have been called, those after it have not. *)
  Fixpoint deliver_x (mk : list (list num) -> list (event num)) (dists : list (list num)) (cns : list (C * list nat)) :
      list (C * list nat) * option exn :=
    match cns with
    | [] => ([], None)
    | (c, ids) :: cns' =>
        match mapM (getitem dists) ids with
        | Err e => (cns, Some e)
        | Ok vals =>
            match feed (mk vals) c with
            | (c', Some e) => ((c', ids) :: cns', Some e)
            | (c', None) => let (r, e) := deliver_x mk dists cns' in ((c', ids) :: r, e)
            end
        end
    end.

  (** 114-127: [_last_column_calculated] is assigned last. *)
  Definition col_step_x (ids : list nat) (row_limit : nat) (st : calc * list (list num)) (c : Z) : calc * list (list num) * option exn :=
    let s := fst st in
    let '(gens, dists, e) := run_gens_x (fun g => g_col g (Z.to_nat c)) row_limit ids (ca_gens s) (snd st) in
    match e with
    | Some e => (ca_upd s gens (ca_cons s) (ca_last s), dists, Some e)
    | None =>
        let dists := mask_column (ca_tmb s) c dists in
        match deliver_x (fun vals => [ECol (Z.to_nat c) vals]) dists (ca_cons s) with
        | (cns, Some e) => (ca_upd s gens cns (ca_last s), dists, Some e)
        | (cns, None) => (ca_upd s gens cns (Z.max c (ca_last s)), dists, None)
        end
    end.

  (** 113-127 *)
  Fixpoint col_loop_x (fuel : nat) (intr : nat -> bool) (k : nat) (ids : list nat) (row_limit : nat) (c upto : Z)
      (st : calc * list (list num)) : calc * list (list num) * option exn :=
    match fuel with
    | 0 => (st, Some OutOfFuel)
    | S fuel' =>
        if (c <? upto)%Z && negb (intr k) then
          match col_step_x ids row_limit st c with
          | (st', None) => col_loop_x fuel' intr (S k) ids row_limit (c + 1) upto st'
          | r => r
          end
        else (st, None)
    end.

  (** 85-135 *)
  Definition calculate_columns_x (column_limit row_limit : Z) (intr : nat -> bool) (s : calc) (start : option request)
      (upto : request) : calc * option exn :=
    let start := match start with None => RInt (ca_last s + 1) | Some r => r end in
    match (do start <- ratio_to_int start (ca_ns s) column_limit; do upto <- ratio_to_int upto (ca_ns s) column_limit;
           if (row_limit <? 0)%Z then Err ValueError else Ok (start, upto)) with
    | Err e => (s, Some e)
    | Ok (start, upto) =>
        let rows := Z.to_nat row_limit in
        let r := col_loop_x (S (Z.to_nat (upto - start))) intr 0 (needed set_order s) rows start upto (s, repeat (repeat NaN rows) (length (ca_gens s))) in
        (fst (fst r), snd r)
    end.

  Definition any_columns_x (intr : nat -> bool) (a : any) (start : option request) (upto : request) : any * option exn :=
    let (s, e) := calculate_columns_x (ca_ns (an_calc a)) (ca_nq (an_calc a)) intr (an_calc a) start upto in
    (mkAny s (an_series a) (an_query a) (an_order a) (an_total a) (an_next a) (an_done a), e).

  (** 246-262: the two counters are assigned last. *)
  Definition diag_step_x (ids : list nat) (st : any * list (list num)) : any * list (list num) * option exn :=
    let a := fst st in
    let s := an_calc a in
    let upd gens cns next done := mkAny (ca_upd s gens cns (ca_last s)) (an_series a) (an_query a) (an_order a) (an_total a) next done in
    match getitem (an_order a) (an_next a) with
    | Err e => (st, Some e)
    | Ok diagonal =>
        let dl := diag_length (ca_nq s) (ca_ns s) diagonal in
        let n := Z.to_nat dl in
        let '(gens, dists, e) := run_gens_x (fun g => g_diag g diagonal) n ids (ca_gens s) (snd st) in
        match e with
        | Some e => (upd gens (ca_cons s) (an_next a) (an_done a), dists, Some e)
        | None =>
            match deliver_x (diag_calls (ca_self s) diagonal) (map (firstn n) dists) (ca_cons s) with
            | (cns, Some e) => (upd gens cns (an_next a) (an_done a), dists, Some e)
            | (cns, None) => (upd gens cns (S (an_next a)) (an_done a + dl)%Z, dists, None)
            end
        end
    end.

  Fixpoint diag_loop_x (fuel : nat) (intr : nat -> bool) (k : nat) (ids : list nat) (values_needed : Z)
      (st : any * list (list num)) : any * list (list num) * option exn :=
    match fuel with
    | 0 => (st, Some OutOfFuel)
    | S fuel' =>
        if (an_done (fst st) <? values_needed)%Z && negb (intr k) then
          match diag_step_x ids st with
          | (st', None) => diag_loop_x fuel' intr (S k) ids values_needed st'
          | r => r
          end
        else (st, None)
    end.

  (** 225-271 *)
  Definition calculate_diagonals_x (intr : nat -> bool) (a : any) (partial : request) : any * option exn :=
    let s := an_calc a in
    let max_diagonal_length := Z.min (ca_nq s) (ca_ns s) in
    match (if (max_diagonal_length <? 0)%Z then Err ValueError else ratio_to_int partial (an_total a) (an_total a)) with
    | Err e => (a, Some e)
    | Ok values_needed =>
        let r := diag_loop_x (S (S (length (an_order a)))) intr 0 (needed set_order s) values_needed
          (a, repeat (repeat NaN (Z.to_nat max_diagonal_length)) (length (ca_gens s))) in
        (fst (fst r), snd r)
    end.

  Definition any_call_x (a : any) (call : acall) : any * option exn :=
    match call with
    | ACols intr start upto => any_columns_x intr a start upto
    | ADiags intr partial => calculate_diagonals_x intr a partial
    end.

  (** A client that catches the exceptions *)
  Definition persist (calls : list acall) (a : any) : any := fold_left (fun a call => fst (any_call_x a call)) calls a.
End Raise.

(** Forgetting the state after an exception *)
Definition plain_g {A G K} (g_calc : G -> K -> G * res (list (Np.num A))) (g : G) (k : K) : res (G * list (Np.num A)) :=
  match g_calc g k with (g', Ok v) => Ok (g', v) | (_, Err e) => Err e end.
Definition plain_c {C E} (c_step : C -> E -> C * option exn) (c : C) (e : E) : res C :=
  match c_step c e with (c', None) => Ok c' | (_, Some x) => Err x end.
