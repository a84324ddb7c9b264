(** * MContext: models of GeneralStaticManager (distancematrix/consumer/contextmanager.py) and
    ContextualMatrixProfile (distancematrix/consumer/contextual_matrix_profile.py). *)
From Coq Require Import QArith.
From Verif Require Import Np Mat MRing MProfile MDist SLog.
Set Implicit Arguments.
Open Scope nat_scope.

(** (start, end, context id) as produced by a context manager *)
Definition ctx : Type := (Z * Z * nat)%type.

(** ** Context managers: contextmanager.py 7-55 (AbstractContextManager).  [M] is the manager's state. *)
Record ManagerOps (M : Type) := {
  man_query : M -> Z -> Z -> res (list ctx);
  man_series : M -> Z -> Z -> res (list ctx);
  man_shape : M -> res (nat * nat);
  man_shift_query : M -> nat -> res (M * nat);
  man_shift_series : M -> nat -> res (M * nat)
}.

(** ** GeneralStaticManager, 58-114 *)

(** Python's [range(start, stop, step)] *)
Record prange := mkRange { r_start : Z; r_stop : Z; r_step : Z }.
(** An element of the given iterable: a range or an iterable of ranges *)
Inductive ctx_el := One (r : prange) | Many (rs : list prange).

(** 125-137 *)
Definition flatten_el (i : nat) (el : ctx_el) : list (nat * prange) :=
  match el with One r => [(i, r)] | Many rs => map (fun r => (i, r)) rs end.
Fixpoint enumerate_flattened (i : nat) (l : list ctx_el) : list (nat * prange) :=
  match l with [] => [] | el :: l' => flatten_el i el ++ enumerate_flattened (S i) l' end.

(** 117-122; both checks raise RuntimeError *)
Definition verify_ranges (l : list (nat * prange)) : res unit :=
  if existsb (fun x => negb (r_step (snd x) =? 1)%Z || (r_start (snd x) <? 0)%Z) l then Err RuntimeError else Ok tt.

(** 140-143 with the list comprehensions of 78-81 *)
Definition to_ctxs (l : list (nat * prange)) : list ctx :=
  map (fun x => (r_start (snd x), r_stop (snd x), fst x))
      (filter (fun x => (r_start (snd x) <? r_stop (snd x))%Z) l).

Record gsm := mkGsm { g_series : list ctx; g_query : list ctx; g_sstart : list ctx; g_sstop : list ctx }.

Definition c_start (c : ctx) : Z := fst (fst c).
Definition c_stop (c : ctx) : Z := snd (fst c).
Definition c_id (c : ctx) : nat := snd c.

(** [array[argsort(keys)]]; the order of equal keys is NumPy's choice: [order] is any result. *)
Definition take_order (l : list ctx) (order : list nat) : res (list ctx) := mapM (getitem l) order.

(** 63-84; [argsort] stands for [np.argsort].  [_query_contexts[:, 0]] of an array built from an empty list raises. *)
Definition gsm_new (argsort : list Z -> list nat) (series : list ctx_el) (query : option (list ctx_el)) : res gsm :=
  do _ <- verify_ranges (enumerate_flattened 0 series);
  do query <- match query with
              | None => Ok series
              | Some q => do _ <- verify_ranges (enumerate_flattened 0 q); Ok q
              end;
  let sc := to_ctxs (enumerate_flattened 0 series) in
  let qc := to_ctxs (enumerate_flattened 0 query) in
  match qc with
  | [] => Err IndexError
  | _ :: _ =>
      do s1 <- take_order qc (argsort (map c_start qc));
      do s2 <- take_order qc (argsort (map c_stop qc));
      Ok (mkGsm sc qc s1 s2)
  end.

(** 86-90 *)
Definition max_id (l : list ctx) : nat := fold_right (fun c m => Nat.max (c_id c) m) 0 l.
Definition gsm_shape (g : gsm) : res (nat * nat) :=
  match g_query g, g_series g with
  | _ :: _, _ :: _ => Ok (max_id (g_query g) + 1, max_id (g_series g) + 1)
  | _, _ => Err IndexError
  end.

(** 92-96 *)
Definition gsm_series (g : gsm) (start stop : Z) : res (list ctx) :=
  match g_series g with
  | [] => Err IndexError
  | _ => Ok (filter (fun c => (c_start c <? stop)%Z && (start <? c_stop c)%Z) (g_series g))
  end.

(** [np.searchsorted] on a sorted array: number of entries smaller than (left) / not larger than (right) [v] *)
Definition searchsorted_left (l : list Z) (v : Z) : nat := length (filter (fun x => (x <? v)%Z) l).
Definition searchsorted_right (l : list Z) (v : Z) : nat := length (filter (fun x => (x <=? v)%Z) l).

(** 98-114 *)
Definition gsm_query (g : gsm) (start stop : Z) : res (list ctx) :=
  do first <- getitem (g_sstart g) 0;
  do last <- pyget (g_sstop g) (-1)%Z;
  if (start <=? c_start first)%Z && (c_stop last <=? stop)%Z then Ok (g_query g)
  else if (start =? 0)%Z then
    let contexts := firstn (searchsorted_left (map c_start (g_sstart g)) stop) (g_sstart g) in
    Ok (filter (fun c => (0 <? c_stop c)%Z) contexts)
  else if (c_stop last <=? stop)%Z then
    let contexts := skipn (searchsorted_right (map c_stop (g_sstop g)) start) (g_sstop g) in
    Ok (filter (fun c => (c_start c <? stop)%Z) contexts)
  else Ok (filter (fun c => (c_start c <? stop)%Z && (start <? c_stop c)%Z) (g_query g)).

(** The shifts of AbstractContextManager (37-55) raise *)
Definition gsm_ops : ManagerOps gsm := {|
  man_query := gsm_query;
  man_series := gsm_series;
  man_shape := gsm_shape;
  man_shift_query := fun _ _ => Err RuntimeError;
  man_shift_series := fun _ _ => Err RuntimeError
|}.

(** ** A ring buffer whose [view] attribute may have been replaced by an unrelated array
    (contextual_matrix_profile.py 128-136).  The last axis is the ring axis: an element is a column. *)
Record dv (T : Type) := mkDv { dv_rb : rb (list T); dv_det : option (list (list T)) }.

Section Dv.
  Context {T : Type}.
  Definition dv_view (d : dv T) : list (list T) := match dv_det d with Some v => v | None => rb_view (dv_rb d) end.
  Definition dv_set_view (d : dv T) (v : list (list T)) : dv T :=
    match dv_det d with
    | Some _ => mkDv (dv_rb d) (Some v)
    | None => mkDv (rb_set_view (dv_rb d) v) None
    end.
  (** [d[i, j]] *)
  Definition dv_get (d : dv T) (i j : nat) : res T := do col <- getitem (dv_view d) j; getitem col i.
  (** [d[i, j] = x] *)
  Definition dv_set (d : dv T) (i j : nat) (x : T) : res (dv T) :=
    do col <- getitem (dv_view d) j;
    do col' <- setitem col i x;
    do v <- setitem (dv_view d) j col';
    Ok (dv_set_view d v).
  (** [push]: assigns [self.view] anew, unless there is nothing to push *)
  Definition dv_push (d : dv T) (data : list (list T)) : res (dv T) :=
    do r <- rb_push (dv_rb d) data;
    Ok (mkDv (fst r) (match data with [] => dv_det d | _ => None end)).
  (** [d.view = np.roll(d.view, k, axis=0)] *)
  Definition dv_roll (d : dv T) (k : nat) : dv T :=
    mkDv (dv_rb d) (Some (map (fun col => roll_left (length col - k mod length col) col) (dv_view d))).
  (** [d[-n:, :] = x] *)
  Definition dv_fill_last (d : dv T) (n : nat) (x : T) : dv T :=
    dv_set_view d (map (fun col => fill_slice col (length col - n) (length col) x) (dv_view d)).
End Dv.

Section Contextual.
  Context {A : Type} {NA : NumOps A}.
  Context {M : Type} (MO : ManagerOps M).
  Notation num := (Np.num A).

  (** 29-55: attributes ([_range] is never used) *)
  Record cm := mkCm {
    cm_man : M;
    cm_nq : nat;         (* _num_query_subseq *)
    cm_ns : nat;         (* _num_series_subseq *)
    cm_height : nat;     (* max_shape[0] of the three buffers *)
    cm_dist : dv num;
    cm_ms : dv Z;        (* _match_index_series *)
    cm_mq : dv Z;        (* _match_index_query *)
    cm_qs : Z;
    cm_ss : Z
  }.

  (** 17-55 *)
  Definition cm_init (memn : nat -> list num) (memz : nat -> list Z) (sf : Q) (man : M) (query_subseq series_subseq : nat) : res cm :=
    if negb (Qle_bool 1 sf) then Err ValueError
    else
      do shape <- man_shape MO man;
      let h := fst shape in let w := snd shape in
      do d <- rb_new memn (Some (repeat (repeat PInf h) w)) None true sf;
      do s <- rb_new memz (Some (repeat (repeat (-1)%Z h) w)) None true sf;
      do q <- rb_new memz (Some (repeat (repeat (-1)%Z h) w)) None true sf;
      Ok (mkCm man query_subseq series_subseq h (mkDv d None) (mkDv s None) (mkDv q None) 0 0).

  (** 87-96 and 109-112: store the match if it is better *)
  Definition cm_update (s : cm) (i j : nat) (v : num) (mq ms : Z) : res cm :=
    do cur <- dv_get (cm_dist s) i j;
    if fltb v cur then
      do d <- dv_set (cm_dist s) i j v;
      do q <- dv_set (cm_mq s) i j mq;
      do r <- dv_set (cm_ms s) i j ms;
      Ok (mkCm (cm_man s) (cm_nq s) (cm_ns s) (cm_height s) d r q (cm_qs s) (cm_ss s))
    else Ok s.

  (** 79-96: one pair of contexts *)
  Definition cm_diag_pair (diag : Z) (values : list num) (idx1 ss1_start ss1_end : Z) (i : nat) (s : cm) (c1 : ctx) : res cm :=
    let sss1_start := Z.max ss1_start (c_start c1) in
    let sss1_end := Z.min ss1_end (c_stop c1) in
    let sss_values := slice values (sss1_start - idx1) (sss1_end - idx1) in
    do min_value <- amin sss_values;
    do rel <- argmin sss_values;
    let sss0_start := (sss1_start - diag)%Z in
    cm_update s i (c_id c1) min_value (Z.of_nat rel + sss0_start + cm_qs s) (Z.of_nat rel + sss1_start + cm_ss s).

  (** 68-96 *)
  Definition cm_diag_ctx (diag : Z) (values : list num) (idx1 : Z) (s : cm) (c0 : ctx) : res cm :=
    let nq := Z.of_nat (cm_nq s) in let ns := Z.of_nat (cm_ns s) in
    let ss1_start := Z.min (Z.max 0 (c_start c0 + diag)) ns in
    let ss1_end := Z.min ns (Z.min nq (c_stop c0) + diag) in
    if (ss1_start =? ss1_end)%Z then Ok s
    else
      do c1s <- man_series MO (cm_man s) ss1_start ss1_end;
      foldM (cm_diag_pair diag values idx1 ss1_start ss1_end (c_id c0)) c1s s.

  (** 57-96 *)
  Definition cm_diag (s : cm) (diag : Z) (values : list (list num)) : res cm :=
    do values <- row0 values;
    let num_values := Z.of_nat (length values) in
    if (0 <=? diag)%Z then
      do c0s <- man_query MO (cm_man s) 0 num_values;
      foldM (cm_diag_ctx diag values diag) c0s s
    else
      do c0s <- man_query MO (cm_man s) (- diag) (Z.of_nat (cm_nq s));
      foldM (cm_diag_ctx diag values 0) c0s s.

  (** 105-112 *)
  Definition cm_col_pair (c : nat) (values : list num) (j : nat) (s : cm) (c0 : ctx) : res cm :=
    let subseq := slice values (c_start c0) (c_stop c0) in
    do best_value <- amin subseq;
    do rel <- argmin subseq;
    cm_update s (c_id c0) j best_value (Z.of_nat rel + c_start c0 + cm_qs s) (Z.of_nat c + cm_ss s).

  (** 98-112 *)
  Definition cm_col (s : cm) (c : nat) (values : list (list num)) : res cm :=
    do values <- row0 values;
    do c1s <- man_series MO (cm_man s) (Z.of_nat c) (Z.of_nat c + 1);
    foldM (fun s c1 =>
      do c0s <- man_query MO (cm_man s) 0 (Z.of_nat (cm_nq s));
      foldM (cm_col_pair c values (c_id c1)) c0s s) c1s s.

  (** 114-122 *)
  Definition cm_shift_series (s : cm) (amount : nat) : res cm :=
    do r <- man_shift_series MO (cm_man s) amount;
    let '(man, k) := r in
    let ss := (cm_ss s + Z.of_nat amount)%Z in
    if 0 <? k then
      do d <- dv_push (cm_dist s) (repeat (repeat PInf (cm_height s)) k);
      do ms <- dv_push (cm_ms s) (repeat (repeat (-1)%Z (cm_height s)) k);
      do mq <- dv_push (cm_mq s) (repeat (repeat (-1)%Z (cm_height s)) k);
      Ok (mkCm man (cm_nq s) (cm_ns s) (cm_height s) d ms mq (cm_qs s) ss)
    else Ok (mkCm man (cm_nq s) (cm_ns s) (cm_height s) (cm_dist s) (cm_ms s) (cm_mq s) (cm_qs s) ss).

  (** 124-136 *)
  Definition cm_shift_query (s : cm) (amount : nat) : res cm :=
    do r <- man_shift_query MO (cm_man s) amount;
    let '(man, k) := r in
    let qs := (cm_qs s + Z.of_nat amount)%Z in
    if 0 <? k then
      let height := Nat.min k (cm_height s) in
      Ok (mkCm man (cm_nq s) (cm_ns s) (cm_height s)
            (dv_fill_last (dv_roll (cm_dist s) k) height PInf)
            (dv_fill_last (dv_roll (cm_ms s) k) height (-1)%Z)
            (dv_fill_last (dv_roll (cm_mq s) k) height (-1)%Z) qs (cm_ss s))
    else Ok (mkCm man (cm_nq s) (cm_ns s) (cm_height s) (cm_dist s) (cm_ms s) (cm_mq s) qs (cm_ss s)).

  Definition cm_step (s : cm) (e : event num) : res cm :=
    match e with
    | EDiag d v => cm_diag s d v
    | ECol c v => cm_col s c v
    | EShiftS n => cm_shift_series s n
    | EShiftQ n => cm_shift_query s n
    end.
  Definition cm_run (s : cm) (es : list (event num)) : res cm := foldM cm_step es s.
End Contextual.
