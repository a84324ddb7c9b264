(** * SStreamRaise: specification of streaming calculations in which generators and consumers raise *)
From Coq Require Import QArith.
From Verif Require Import Np NpFacts Mat MUtil SLog MCalc SCalc SStream SReal MRaise SRaise MStreamRaise.
Set Implicit Arguments.
Open Scope nat_scope.

Section Spec.
  Context {A : Type}.
  Notation num := (Np.num A).
  Variables (X : Type) (self : bool) (m W Wq ndim : nat) (tmb : Z) (dim : nat -> nat).
  Variable valid : list X -> Prop.
  (** [F id s q j]: column [j] of generator [id] when the points [s] (series) and [q] (query) have arrived in its channel *)
  Variable F : nat -> list X -> list X -> nat -> list num.

  (** A generator that may raise when a column is calculated, but only returns right values, also after it has raised, as long as its appends return.
      [lets ns nq call]: what the client may do when [ns] points of the series and [nq] points of the query have arrived: append [k] points to the
      series ([Some k]) or calculate columns ([None]) *)
  Variable lets : nat -> nat -> option nat -> Prop.
  Definition may_stream_if {G} (g_col : G -> nat -> G * res (list num)) (g_app_s g_app_q : G -> list X -> G * option exn) (Inv : nat -> list X -> list X -> G -> Prop) : Prop :=
    forall id s q g, Inv id s q g ->
      (forall xs g', lets (length s) (length q) (Some (length xs)) -> valid xs -> g_app_s g xs = (g', None) -> Inv id (s ++ xs) q g') /\
      (self = false -> forall xs g', valid xs -> g_app_q g xs = (g', None) -> Inv id s (q ++ xs) g') /\
      (forall j, lets (length s) (length q) None -> j < subseqs m W (length s) -> Inv id s q (fst (g_col g j)) /\
         forall v, snd (g_col g j) = Ok v -> v = F id s q j /\ length v = subseqs m Wq (length (if self then s else q))).
  (** The same without conditions on the calls *)
  Definition may_stream {G} (g_col : G -> nat -> G * res (list num)) (g_app_s g_app_q : G -> list X -> G * option exn) (Inv : nat -> list X -> list X -> G -> Prop) : Prop :=
    forall id s q g, Inv id s q g ->
      (forall xs g', valid xs -> g_app_s g xs = (g', None) -> Inv id (s ++ xs) q g') /\
      (self = false -> forall xs g', valid xs -> g_app_q g xs = (g', None) -> Inv id s (q ++ xs) g') /\
      (forall j, j < subseqs m W (length s) -> Inv id s q (fst (g_col g j)) /\
         forall v, snd (g_col g j) = Ok v -> v = F id s q j /\ length v = subseqs m Wq (length (if self then s else q))).

  (** An append that the calculator rejects at once: not one row per channel, or query points in a self-join *)
  Definition misfit (op : xop X) : Prop :=
    match op with
    | XSeries v => as_rows ndim v = Err RuntimeError
    | XQuery v => self = true \/ as_rows ndim v = Err RuntimeError
    | XCols _ _ _ => False
    end.
  (** Points are given as an array (all rows are of the same length) and are [valid] for the generators. *)
  Definition is_array (op : xop X) : Prop :=
    match op with
    | XSeries (Pts rows) | XQuery (Pts rows) => (exists n, forall r, In r rows -> length r = n) /\ forall r, In r rows -> valid r
    | XSeries (Pt xs) | XQuery (Pt xs) => forall x, In x xs -> valid [x]
    | XCols _ _ _ => True
    end.

  Definition append_rows (all new : list (list X)) : list (list X) := zip_with (@app X) all new.

  (** What a consumer with generators [ids] is told: [all_s] and [all_q] are the points that have arrived, per channel.  Any columns may be calculated,
      with the values for the points present. *)
  Inductive heard (ids : list nat) : list (xop X) -> list (list X) -> list (list X) -> list (event num) -> Prop :=
  | heard_nil : heard ids [] (repeat [] ndim) (repeat [] ndim) []
  | heard_series ops ss qs evs v rows n : heard ids ops ss qs evs -> rows_are ndim v rows n ->
      let s := length (hd [] ss) in
      heard ids (ops ++ [XSeries v]) (append_rows ss rows) qs
        (evs ++ match lost W (s + n) - lost W s with 0 => [] | k => EShiftS k :: if self then [EShiftQ k] else [] end)
  | heard_query ops ss qs evs v rows n : self = false -> heard ids ops ss qs evs -> rows_are ndim v rows n ->
      let q := length (hd [] qs) in
      heard ids (ops ++ [XQuery v]) ss (append_rows qs rows) (evs ++ match lost Wq (q + n) - lost Wq q with 0 => [] | k => [EShiftQ k] end)
  | heard_misfit ops ss qs evs op : heard ids ops ss qs evs -> misfit op -> heard ids (ops ++ [op]) ss qs evs
  | heard_columns ops ss qs evs intr start upto j n : heard ids ops ss qs evs -> j + n <= subseqs m W (length (hd [] ss)) ->
      heard ids (ops ++ [XCols intr start upto]) ss qs
        (evs ++ map (fun j => ECol j (map (fun id => hide tmb j (F id (nth (dim id) ss []) (nth (dim id) qs []) j)) ids)) (seq j n)).

  (** The column now at [j] was delivered and its delivery did not raise. *)
  Definition processed {C} (c_step : C -> event num -> C * option exn) (c : C) (evs : list (event num)) (j : nat) : Prop :=
    exists pre vals post, evs = pre ++ ECol (j + Z.to_nat (sshift post)) vals :: post /\ snd (c_step (after c_step pre c) (ECol (j + Z.to_nat (sshift post)) vals)) = None.

  Definition default_start (op : xop X) : Prop := match op with XCols _ start _ => start = None | _ => True end.
End Spec.

(** Every append of the run returned, or was rejected at once. *)
Definition appends_return {A X G C} (self : bool) (ndim : nat) (g_col : G -> nat -> G * res (list (Np.num A))) (g_app_s g_app_q : G -> list X -> G * option exn) (c_step : C -> event (Np.num A) -> C * option exn)
    (set_order : list nat -> list nat) (ops : list (xop X)) (t : stm G C) : Prop :=
  forall pre op post, ops = pre ++ op :: post -> match op with XCols _ _ _ => True | _ => misfit self ndim op \/ snd (xcall g_col g_app_s g_app_q c_step set_order (go_on g_col g_app_s g_app_q c_step set_order pre t) op) = None end.

(** The points of channel [d] in the appends that are not rejected for their shape *)
Definition arrived {X} (ndim d : nat) (ops : list (xop X)) : list X :=
  flat_map (fun op => match op with
    | XSeries (Pts rows) => if length rows =? ndim then nth d rows [] else []
    | XSeries (Pt xs) => if length xs =? ndim then nth d (map (fun x => [x]) xs) [] else []
    | _ => [] end) ops.
Definition arrived_q {X} (ndim d : nat) (ops : list (xop X)) : list X :=
  flat_map (fun op => match op with
    | XQuery (Pts rows) => if length rows =? ndim then nth d rows [] else []
    | XQuery (Pt xs) => if length xs =? ndim then nth d (map (fun x => [x]) xs) [] else []
    | _ => [] end) ops.
(** The client only does what [lets] allows; appends of a wrong shape are free. *)
Definition paced {X} (lets : nat -> nat -> option nat -> Prop) (self : bool) (ndim : nat) (ops : list (xop X)) : Prop :=
  forall pre op post, ops = pre ++ op :: post -> let ns := length (arrived ndim 0 pre) in let nq := if self then 0 else length (arrived_q ndim 0 pre) in
    match op with
    | XSeries v => forall rows n, rows_are ndim v rows n -> lets ns nq (Some n)
    | XQuery _ => True
    | XCols _ _ _ => lets ns nq None
    end.
(** The windows as cells: column [a] was calculated when [n] points had arrived, with rows for all subsequences of the window. *)
Definition cells_at (m W : nat) (moments : list (nat * nat)) : list (nat * nat * nat) := map (fun x => (fst x, lost W (snd x), subseqs m W (snd x))) moments.
Definition in_window (m W n a : nat) : Prop := lost W n <= a < lost W n + subseqs m W n.
(** Column [j] of a self-join when the points [s] have arrived, of which the last [W] are kept *)
Definition self_column {A X} (E : list X -> list X -> Np.num A) (m W : nat) (s : list X) (j : nat) : list (Np.num A) :=
  map (fun r => E (sub m (lastn W s) r) (sub m (lastn W s) j)) (seq 0 (length (lastn W s) + 1 - m)).
(** Generators without own state after an exception *)
Definition keep {G T} (g_col : G -> nat -> res (G * T)) (g : G) (c : nat) : G * res T := match g_col g c with Ok (g', v) => (g', Ok v) | Err e => (g, Err e) end.
Definition keep_a {G X} (g_app : G -> X -> res G) (g : G) (x : X) : G * option exn := match g_app g x with Ok g' => (g', None) | Err e => (g, Some e) end.

(** The shift methods of a consumer that starts as [c] do not raise, in any run of what it is told *)
Definition shifts_return {A X C} (told : list (xop X) -> list (list X) -> list (list X) -> list (event (Np.num A)) -> Prop) (c_step : C -> event (Np.num A) -> C * option exn) (c : C) : Prop :=
  forall ops ss qs pre e post, told ops ss qs (pre ++ e :: post) -> (match e with EShiftS _ | EShiftQ _ => True | _ => False end) -> snd (c_step (after c_step pre c) e) = None.
