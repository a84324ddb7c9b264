(** * SLog: what a consumer is told, and what it should remember.

    A consumer receives a sequence of [event]s.  Independently of any consumer, such a sequence
    determines a log of delivered cells of the (conceptually unbounded) distance matrix, in delivery
    order, where every cell carries its absolute row (position in the complete query) and absolute
    column (position in the complete series). *)
From Verif Require Import Np Mat.
Set Implicit Arguments.
Open Scope Z_scope.

(** The calls of AbstractConsumer / AbstractStreamingConsumer (abstract_consumer.py 4-72). Values have
    one row per channel. *)
Inductive event (T : Type) : Type :=
| EDiag (diag : Z) (values : list (list T))
| ECol (col : nat) (values : list (list T))
| EShiftS (amount : nat)
| EShiftQ (amount : nat).
Arguments EDiag {T} diag values.
Arguments ECol {T} col values.
Arguments EShiftS {T} amount.
Arguments EShiftQ {T} amount.

(** A delivered cell: absolute row, absolute column, value. *)
Definition cell (T : Type) : Type := (Z * Z * T)%type.

Fixpoint mapi_from {U T} (f : nat -> U -> T) (k : nat) (l : list U) : list T :=
  match l with [] => [] | x :: l' => f k x :: mapi_from f (S k) l' end.
Definition mapi {U T} (f : nat -> U -> T) (l : list U) : list T := mapi_from f 0%nat l.

(** Diagonal [d] starts at row [max 0 (-d)], column [max 0 d] of the current window; the window starts
    at absolute row [qs] and absolute column [ss]. *)
Definition diag_cells {T} (qs ss d : Z) (vals : list T) : list (cell T) :=
  mapi (fun k v => (qs + Z.max 0 (- d) + Z.of_nat k, ss + Z.max 0 d + Z.of_nat k, v)) vals.
Definition col_cells {T} (qs ss : Z) (c : nat) (vals : list T) : list (cell T) :=
  mapi (fun k v => (qs + Z.of_nat k, ss + Z.of_nat c, v)) vals.

(** Cells delivered on the first channel. *)
Definition event_cells {T} (qs ss : Z) (e : event T) : list (cell T) :=
  match e with
  | EDiag d (vals :: _) => diag_cells qs ss d vals
  | ECol c (vals :: _) => col_cells qs ss c vals
  | _ => []
  end.
Definition event_qshift {T} (e : event T) : Z := match e with EShiftQ n => Z.of_nat n | _ => 0 end.
Definition event_sshift {T} (e : event T) : Z := match e with EShiftS n => Z.of_nat n | _ => 0 end.

Fixpoint qshift {T} (es : list (event T)) : Z :=
  match es with [] => 0 | e :: es' => event_qshift e + qshift es' end.
Fixpoint sshift {T} (es : list (event T)) : Z :=
  match es with [] => 0 | e :: es' => event_sshift e + sshift es' end.

(** The log of a history that starts with the window at absolute position (qs, ss). *)
Fixpoint log_from {T} (qs ss : Z) (es : list (event T)) : list (cell T) :=
  match es with
  | [] => []
  | e :: es' => event_cells qs ss e ++ log_from (qs + event_qshift e) (ss + event_sshift e) es'
  end.
Definition log {T} (es : list (event T)) : list (cell T) := log_from 0 0 es.

(** The cells of absolute column [a] whose row satisfies [P], as (row, value) in delivery order. *)
Definition sel {T} (P : Z -> bool) (a : Z) (L : list (cell T)) : list (Z * T) :=
  map (fun x => match x with (r, _, v) => (r, v) end)
      (filter (fun x => match x with (r, c, _) => (c =? a) && P r end) L).
(** left: on or above the main diagonal of the complete matrix; right: below it. *)
Definition is_left (a : Z) : Z -> bool := fun r => r <=? a.
Definition is_right (a : Z) : Z -> bool := fun r => negb (r <=? a).

Definition all_rows : Z -> bool := fun _ => true.

(** A window of [h] rows and [w] columns; events that fit in it.  Fewer values than the full length are
    allowed: a streaming calculation starts with a partially filled window. *)
Definition fits (h w : nat) {T} (e : event T) : Prop :=
  match e with
  | EDiag d vs =>
      - Z.of_nat h < d < Z.of_nat w /\
      exists vals rest, vs = vals :: rest /\ (Z.to_nat (Z.max 0 (- d)) + length vals <= h)%nat /\
                        (Z.to_nat (Z.max 0 d) + length vals <= w)%nat
  | ECol c vs => (c < w)%nat /\
      exists vals rest, vs = vals :: rest /\ (0 < length vals)%nat /\ (length vals <= h)%nat
  | EShiftS _ | EShiftQ _ => True
  end.

Definition is_diag {T} (e : event T) : Prop := match e with EDiag _ _ => True | _ => False end.
Definition no_shift {T} (e : event T) : Prop :=
  match e with EShiftS _ | EShiftQ _ => False | _ => True end.

Section Best.
  Context {A : Type} {NA : NumOps A}.
  Notation num := (Np.num A).

  (** [v] at row [i] is the best (smallest) of [cells], the first delivered one among equals; if no cell
      is smaller than +inf the best is +inf at row -1. NaN cells are never the best. *)
  Definition is_first_best (cells : list (Z * num)) (v : num) (i : Z) : Prop :=
    (v = PInf /\ i = -1 /\ forall r x, In (r, x) cells -> fltb x PInf = false) \/
    (fltb v PInf = true /\
     exists before after, cells = before ++ (i, v) :: after /\
       (forall r x, In (r, x) before -> fleb x v = false) /\
       (forall r x, In (r, x) after -> fltb x v = false)).

  (** The same without the tie rule: [v] is the smallest value and is attained at row [i] (if it is not
      +inf). *)
  Definition is_best (cells : list (Z * num)) (v : num) (i : Z) : Prop :=
    (v = PInf /\ forall r x, In (r, x) cells -> fltb x PInf = false) \/
    (fltb v PInf = true /\ In (i, v) cells /\ forall r x, In (r, x) cells -> fltb x v = false).

  (** Column events carry no NaN (the calculator's generators never produce one there). *)
  Definition cols_no_nan (e : event num) : Prop :=
    match e with ECol _ vs => forall vals, In vals vs -> forall x, In x vals -> isnan x = false | _ => True end.

  (** [v] at position [i] is the smallest of [vals[lo..hi-1]], the first one among equals. *)
  Definition is_lowest (vals : list num) (lo hi : nat) (v : num) (i : nat) : Prop :=
    (lo <= i < hi)%nat /\ nth_error vals i = Some v /\
    forall j x, (lo <= j < hi)%nat -> nth_error vals j = Some x ->
      fltb x v = false /\ ((j < i)%nat -> fltb v x = true).

  (** Column events deliver complete columns. *)
  Definition full_cols (h : nat) (e : event num) : Prop :=
    match e with ECol _ vs => forall vals, In vals vs -> length vals = h | _ => True end.

  (** Every delivered value is the entry of the distance matrix [D] for that cell. *)
  Definition agrees {T} (D : Z -> Z -> T) (L : list (cell T)) : Prop :=
    forall r c v, In (r, c, v) L -> v = D r c.

  (** Every cell of the h x w matrix was delivered. *)
  Definition covers (h w : nat) {T} (L : list (cell T)) : Prop :=
    forall r c, 0 <= r < Z.of_nat h -> 0 <= c < Z.of_nat w -> exists v, In (r, c, v) L.
End Best.
