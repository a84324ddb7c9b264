(** * SReservoir: specification of the reservoir-sampled profile. *)
From Coq Require Import QArith.
From Verif Require Import Np SLog.
Set Implicit Arguments.
Open Scope nat_scope.

Section S.
  Context {A : Type} {NA : NumOps A}.
  Notation num := (Np.num A).

  (** number of delivered cells with value [v]; number of those in row [r] *)
  Definition count (v : num) (cells : list (Z * num)) : nat :=
    length (filter (fun x => feqb (snd x) v) cells).
  Definition count_row (r : Z) (v : num) (cells : list (Z * num)) : nat :=
    length (filter (fun x => feqb (snd x) v && (fst x =? r)%Z) cells).

  (** [v] is the smallest delivered value, [n] the number of cells attaining it, [i] the row of one of
      them; +inf, 0, -1 if no cell is below +inf. *)
  Definition res_ok (cells : list (Z * num)) (v : num) (i : Z) (n : nat) : Prop :=
    (v = PInf /\ i = (-1)%Z /\ n = 0 /\ forall r x, In (r, x) cells -> fltb x PInf = false) \/
    (isfinite v = true /\ In (i, v) cells /\ (forall r x, In (r, x) cells -> fltb x v = false) /\ n = count v cells).

  (** distances are never -inf *)
  Definition no_ninf (e : event num) : Prop :=
    match e with
    | EDiag _ vs | ECol _ vs => forall vals, In vals vs -> ~ In NInf vals
    | _ => True
    end.

  (** number of elements equal to [x] *)
  Definition ties (x : num) (l : list num) : nat := length (filter (fun y => feqb y x) l).

  (** On rows lo..hi-1 of a column: [v] is the smallest value, [n] its number of occurrences, [i] the row
      of one of them. *)
  Definition col_ok (vals : list num) (lo hi : nat) (v : num) (i : Z) (n : nat) : Prop :=
    (exists k, i = Z.of_nat k /\ lo <= k < hi /\ nth_error vals k = Some v) /\
    (forall k x, lo <= k < hi -> nth_error vals k = Some x -> fltb x v = false) /\
    n = ties v (lslice vals lo hi).

  (** The events since the last delivery of column [c], that one included; all events if column [c] was not delivered *)
  Definition is_col_of (c : nat) (e : event num) : bool := match e with ECol c' _ => c' =? c | _ => false end.
  Fixpoint since (c : nat) (es : list (event num)) : list (event num) :=
    match es with
    | [] => []
    | e :: es' => if existsb (is_col_of c) es' then since c es' else e :: es'
    end.

  (** [v] is the smallest value of the cells, [n] the number of cells attaining it, [i] the row of one of them; +inf if no cell is
      below +inf. *)
  Definition kept (cells : list (Z * num)) (v : num) (i : Z) (n : nat) : Prop :=
    (v = PInf /\ forall r x, In (r, x) cells -> fltb x PInf = false) \/
    (isfinite v = true /\ In (i, v) cells /\ (forall r x, In (r, x) cells -> fltb x v = false) /\ n = count v cells).

  (** An index entry that holds row [r] *)
  Definition at_row (r : Z) (o : option Z) : bool := match o with Some i => (i =? r)%Z | None => false end.
End S.
