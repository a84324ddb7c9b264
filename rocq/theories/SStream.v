(** * SStream: specification of streaming calculations *)
From Coq Require Import QArith Sorted.
From Verif Require Import Np Mat SLog MCalc SCalc.
Set Implicit Arguments.
Open Scope nat_scope.

(** A window of [W] points over a stream of which [n] points arrived: how many points were lost, how many complete
    subsequences of length [m] are in the window *)
Definition lost (W n : nat) : nat := n - W.
Definition subseqs (m W n : nat) : nat := Nat.min n W + 1 - m.

(** ** Generators *)
(** What a bound generator was asked for: series points, query points, columns *)
Inductive gop (X : Type) : Type := GSeries (xs : list X) | GQuery (xs : list X) | GCol (c : nat).
Arguments GCol {X} c.
Definition series_of {X} (H : list (gop X)) : list X := flat_map (fun o => match o with GSeries xs => xs | _ => [] end) H.
Definition query_of {X} (H : list (gop X)) : list X := flat_map (fun o => match o with GQuery xs => xs | _ => [] end) H.
(** The columns asked for, as absolute positions, after [n] series points *)
Fixpoint asked {X} (W n : nat) (H : list (gop X)) : list nat :=
  match H with
  | [] => []
  | GSeries xs :: H' => asked W (n + length xs) H'
  | GQuery _ :: H' => asked W n H'
  | GCol c :: H' => (lost W n + c) :: asked W n H'
  end.

Section Gen.
  Context {A : Type}.
  Notation num := (Np.num A).
  Variables (X G : Type).
  Variable g_col : G -> nat -> res (G * list num).
  Variable g_app_s g_app_q : G -> list X -> res G.

  Definition rows_of (self : bool) (m Wq : nat) (H : list (gop X)) : nat := subseqs m Wq (length (if self then series_of H else query_of H)).

  (** A bound streaming generator: as long as the data is valid and the columns are asked for in increasing (absolute) order,
      it does not fail, and column [c] after history [H] is [F id H c] ([Inv id H g]: [g] is a state of generator [id] after
      [H]). *)
  Record streams (self : bool) (m W Wq : nat) (valid : list X -> Prop) (Inv : nat -> list (gop X) -> G -> Prop) (F : nat -> list (gop X) -> nat -> list num) : Prop := {
    streams_s : forall id H g xs, Inv id H g -> valid xs -> exists g', g_app_s g xs = Ok g' /\ Inv id (H ++ [GSeries xs]) g';
    streams_q : self = false -> forall id H g xs, Inv id H g -> valid xs -> exists g', g_app_q g xs = Ok g' /\ Inv id (H ++ [GQuery xs]) g';
    streams_c : forall id H g c, Inv id H g -> c < subseqs m W (length (series_of H)) -> 0 < rows_of self m Wq H -> StronglySorted lt (asked W 0 (H ++ [GCol c])) ->
      exists g', g_col g c = Ok (g', F id H c) /\ Inv id (H ++ [GCol c]) g' /\ length (F id H c) = rows_of self m Wq H
  }.
End Gen.

(** ** Calculators *)
(** Calls of a streaming calculator *)
Inductive sop (X : Type) : Type := OSeries (v : points X) | OQuery (v : points X) | OCols (intr : nat -> bool) (upto : request).
Arguments OCols {X} intr upto.

(** What happened to the generators, with one row of points per channel; generator with input channel [d] *)
Inductive hop (X : Type) : Type := HSeries (rows : list (list X)) | HQuery (rows : list (list X)) | HCol (c : nat).
Arguments HCol {X} c.
Definition ghist {X} (d : nat) (used : bool) (H : list (hop X)) : list (gop X) :=
  flat_map (fun o => match o with
    | HSeries rows => [GSeries (nth d rows [])]
    | HQuery rows => [GQuery (nth d rows [])]
    | HCol c => if used then [GCol c] else []
    end) H.

(** Points per channel of a call: one value per channel, or one row per channel *)
Definition rows_are {X} (ndim : nat) (v : points X) (rows : list (list X)) (n : nat) : Prop :=
  length rows = ndim /\ (forall r, In r rows -> length r = n) /\
  match v with Pt xs => rows = map (fun x => [x]) xs | Pts rs => rows = rs end.

(** Progress of a streaming calculation: number of series and query points so far, first absolute column that was not
    calculated (or lost), and what happened *)
Record progress (X : Type) := mkProgress { p_s : nat; p_q : nat; p_next : nat; p_hist : list (hop X) }.

Section Stream.
  Context {A : Type}.
  Notation num := (Np.num A).
  Variables (X : Type).
  (** Self-join, subsequence length, windows, channels, buffer; channel of every generator; valid data; values of every generator *)
  Variables (self : bool) (m W Wq ndim : nat) (tmb : Z) (dim : nat -> nat) (valid : list X -> Prop) (F : nat -> list (gop X) -> nat -> list num).

  Definition rows_now (p : progress X) : nat := if self then subseqs m W (p_s p) else subseqs m Wq (p_q p).

  (** One well-formed call, with the events that the consumers receive.  Columns are only calculated when there are rows. *)
  Inductive does : sop X -> progress X -> progress X -> (list nat -> list (event num)) -> Prop :=
  | does_series v rows n s q nx H : rows_are ndim v rows n -> (forall r, In r rows -> valid r) ->
      does (OSeries v) (mkProgress s q nx H) (mkProgress (s + n) q nx (H ++ [HSeries rows]))
        (fun _ => match lost W (s + n) - lost W s with 0 => [] | k => EShiftS k :: if self then [EShiftQ k] else [] end)
  | does_query v rows n s q nx H : self = false -> rows_are ndim v rows n -> (forall r, In r rows -> valid r) ->
      does (OQuery v) (mkProgress s q nx H) (mkProgress s (q + n) nx (H ++ [HQuery rows]))
        (fun _ => match lost Wq (q + n) - lost Wq q with 0 => [] | k => [EShiftQ k] end)
  | does_cols intr upto u n s q nx H :
      let c := nx - lost W s in
      resolves upto (Z.of_nat (W + 1 - m)) (Z.of_nat (subseqs m W s)) (Z.of_nat u) -> runs intr n (u - c) -> (0 < n -> 0 < rows_now (mkProgress s q nx H)) ->
      does (OCols intr upto) (mkProgress s q nx H) (mkProgress s q (lost W s + c + n) (H ++ map HCol (seq c n)))
        (fun ids => map (fun j => ECol j (map (fun id => hide tmb j (F id (ghist (dim id) true (H ++ map HCol (seq c (j - c)))) j)) ids)) (seq c n)).

  (** A sequence of calls *)
  Inductive history : list (sop X) -> progress X -> (list nat -> list (event num)) -> Prop :=
  | history_nil : history [] (mkProgress 0 0 0 []) (fun _ => [])
  | history_snoc ops op p p' evs evs' : history ops p evs -> does op p p' evs' -> history (ops ++ [op]) p' (fun ids => evs ids ++ evs' ids).
End Stream.

(** Number of points in the calls *)
Definition points_of {X} (v : points X) : nat := match v with Pt _ => 1 | Pts rows => length (hd [] rows) end.
Definition series_points {X} (ops : list (sop X)) : nat := list_sum (map (fun o => match o with OSeries v => points_of v | _ => 0 end) ops).
Definition query_points {X} (ops : list (sop X)) : nat := list_sum (map (fun o => match o with OQuery v => points_of v | _ => 0 end) ops).

(** Absolute columns delivered by events *)
Fixpoint delivered_from {T} (ss : Z) (es : list (event T)) : list Z :=
  match es with
  | [] => []
  | ECol c _ :: es' => (ss + Z.of_nat c)%Z :: delivered_from ss es'
  | e :: es' => delivered_from (ss + event_sshift e) es'
  end.
Definition delivered {T} (es : list (event T)) : list Z := delivered_from 0 es.

(** Calls of the model *)
Section Run.
  Context {A : Type}.
  Notation num := (Np.num A).
  Variables (X G C : Type).
  Variable g_col : G -> nat -> res (G * list num).
  Variable g_app_s g_app_q : G -> list X -> res G.
  Variable c_step : C -> event num -> res C.
  Variable set_order : list nat -> list nat.
  Definition stm_call (t : stm G C) (op : sop X) : res (stm G C) :=
    match op with
    | OSeries v => append_series g_app_s c_step t v
    | OQuery v => append_query g_app_q c_step t v
    | OCols intr upto => stm_columns g_col c_step set_order intr t None upto
    end.
  (** A streaming calculator with the given generators and consumers *)
  Definition stm_with (t : stm G C) (gens : list (G * nat)) (cs : list (C * list nat)) : stm G C :=
    mkStm (ca_upd (st_calc t) gens cs (ca_last (st_calc t))) (st_sp t) (st_qp t).
End Run.
