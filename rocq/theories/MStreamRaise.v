(** * MStreamRaise: the state of a StreamingCalculator after an exception (distancematrix/calculator.py 323-397).

    As in MRaise.v, a call of a generator or of a consumer returns the new state of the object, and an exception or not; so do the methods of the
    calculator.  They follow those of MCalc.v line by line. *)
From Coq Require Import QArith.
From Verif Require Import Np Mat MUtil SLog MCalc MRaise.
Set Implicit Arguments.
Open Scope nat_scope.

(** Calls of a client *)
Inductive xop (X : Type) : Type := XSeries (v : points X) | XQuery (v : points X) | XCols (intr : nat -> bool) (start : option request) (upto : request).
Arguments XCols {X} intr start upto.

Section Raise.
  Context {A : Type}.
  Notation num := (Np.num A).
  Variables (X G C : Type).
  Variable g_col : G -> nat -> G * res (list num).
  Variable g_app_s g_app_q : G -> list X -> G * option exn.
  Variable c_step : C -> event num -> C * option exn.
  Variable set_order : list nat -> list nat.
  Notation stm := (stm G C).

  (** 342-344 / 384-386: the generators before the one that raises have appended the points, those after it have not. *)
  Fixpoint append_gens_x (g_app : G -> list X -> G * option exn) (rows : list (list X)) (gens : list (G * nat)) : list (G * nat) * option exn :=
    match gens with
    | [] => ([], None)
    | (g, d) :: gens' =>
        match getitem rows d with
        | Err e => (gens, Some e)
        | Ok row =>
            match g_app g row with
            | (g', Some e) => ((g', d) :: gens', Some e)
            | (g', None) => let (r, e) := append_gens_x g_app rows gens' in ((g', d) :: r, e)
            end
        end
    end.

  (** 354-355, 357-358, 396-397 *)
  Fixpoint shift_all_x (e : event num) (cns : list (C * list nat)) : list (C * list nat) * option exn :=
    match cns with
    | [] => ([], None)
    | (c, ids) :: cns' =>
        match c_step c e with
        | (c', Some x) => ((c', ids) :: cns', Some x)
        | (c', None) => let (r, x) := shift_all_x e cns' in ((c', ids) :: r, x)
        end
    end.

  (** 323-359: [streamed_series_points] is assigned before the consumers are called, [_last_column_calculated] after. *)
  Definition append_series_x (t : stm) (values : points X) : stm * option exn :=
    let s := st_calc t in
    match as_rows (ca_ndim s) values with
    | Err e => (t, Some e)
    | Ok rows =>
        match append_gens_x g_app_s rows (ca_gens s) with
        | (gens, Some e) => (mkStm (ca_upd s gens (ca_cons s) (ca_last s)) (st_sp t) (st_qp t), Some e)
        | (gens, None) =>
            let n := Z.of_nat (length (hd [] rows)) in
            let column_shift := window_shift (ca_ns s + ca_m s - 1) (st_sp t) n in
            let st cns last := mkStm (ca_upd s gens cns last) (st_sp t + n)%Z (st_qp t) in
            if (column_shift =? 0)%Z then (st (ca_cons s) (ca_last s), None)
            else
              match shift_all_x (EShiftS (Z.to_nat column_shift)) (ca_cons s) with
              | (cns, Some e) => (st cns (ca_last s), Some e)
              | (cns, None) =>
                  match (if ca_self s then shift_all_x (EShiftQ (Z.to_nat column_shift)) cns else (cns, None)) with
                  | (cns', Some e) => (st cns' (ca_last s), Some e)
                  | (cns', None) => (st cns' (Z.max (-1) (ca_last s - column_shift)), None)
                  end
              end
        end
    end.

  (** 361-397 *)
  Definition append_query_x (t : stm) (values : points X) : stm * option exn :=
    let s := st_calc t in
    if ca_self s then (t, Some RuntimeError)
    else
      match as_rows (ca_ndim s) values with
      | Err e => (t, Some e)
      | Ok rows =>
          match append_gens_x g_app_q rows (ca_gens s) with
          | (gens, Some e) => (mkStm (ca_upd s gens (ca_cons s) (ca_last s)) (st_sp t) (st_qp t), Some e)
          | (gens, None) =>
              let n := Z.of_nat (length (hd [] rows)) in
              let row_shift := window_shift (ca_nq s + ca_m s - 1) (st_qp t) n in
              let (cns, e) := if (row_shift =? 0)%Z then (ca_cons s, None) else shift_all_x (EShiftQ (Z.to_nat row_shift)) (ca_cons s) in
              (mkStm (ca_upd s gens cns (ca_last s)) (st_sp t) (st_qp t + n)%Z, e)
          end
      end.

  Definition stm_columns_x (intr : nat -> bool) (t : stm) (start : option request) (upto : request) : stm * option exn :=
    let (s, e) := calculate_columns_x g_col c_step set_order (stm_max_column t) (stm_max_row t) intr (st_calc t) start upto in
    (mkStm s (st_sp t) (st_qp t), e).

  Definition xcall (t : stm) (op : xop X) : stm * option exn :=
    match op with
    | XSeries v => append_series_x t v
    | XQuery v => append_query_x t v
    | XCols intr start upto => stm_columns_x intr t start upto
    end.
  (** A client that catches the exceptions *)
  Definition go_on (ops : list (xop X)) (t : stm) : stm := fold_left (fun t op => fst (xcall t op)) ops t.
End Raise.

(** Forgetting the state after an exception *)
Definition plain_a {G X} (g_app : G -> X -> G * option exn) (g : G) (x : X) : res G := match g_app g x with (g', None) => Ok g' | (_, Some e) => Err e end.
