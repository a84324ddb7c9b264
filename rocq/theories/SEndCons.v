(** * SEndCons: specification of the results of complete programs per consumer class *)
From Coq Require Import QArith.
From Verif Require Import Np Mat MUtil SLog SCalc SMixed SEnd SEndAll SCounters SMulti MRand MReservoir.
Set Implicit Arguments.
Open Scope nat_scope.

(** There are [n] rows satisfying [P]. *)
Definition how_many (P : nat -> Prop) (n : nat) : Prop := exists rows, NoDup rows /\ (forall r, In r rows <-> P r) /\ length rows = n.

(** What was delivered, one column or diagonal at a time *)
Definition deliveries (t : list part) : list (nat + Z) :=
  flat_map (fun p => match p with PCols c n => map inl (seq c n) | PDiags ds => map inr ds end) t.
(** How often the cell (r, j) was delivered since (and including) the last delivery of column [j].  In a self-join every diagonal is
    delivered a second time, mirrored. *)
Definition weight (self : bool) (t : list part) (r j : nat) : nat :=
  fold_left (fun n x => match x with
    | inl c => if c =? j then 1 else n
    | inr d => n + (if (d =? Z.of_nat j - Z.of_nat r)%Z then 1 else 0) + (if self && (d =? Z.of_nat r - Z.of_nat j)%Z then 1 else 0)
    end) (deliveries t) 0.

Section S.
  Context {A : Type} {NA : NumOps A}.
  Notation num := (Np.num A).

  (** The matrix [D] with +inf for the trivial matches *)
  Definition masked (b : Z) (D : nat -> nat -> num) (r j : nat) : num := if (Z.abs (Z.of_nat r - Z.of_nat j) <=? b)%Z then PInf else D r j.

  (** [v] at (q, s) is the smallest of the entries [D r c] with [P r c]; +inf and (-1, -1) if none is below +inf. *)
  Definition smallest_cell (P : nat -> nat -> Prop) (D : nat -> nat -> num) (v : num) (q s : Z) : Prop :=
    (v = PInf /\ q = (-1)%Z /\ s = (-1)%Z /\ forall r c, P r c -> fltb (D r c) PInf = false) \/
    (fltb v PInf = true /\ exists r c, P r c /\ q = Z.of_nat r /\ s = Z.of_nat c /\ v = D r c /\ forall r' c', P r' c' -> fltb (D r' c') v = false).

  (** Row [r] has the smallest of the values [f r'] for the rows [r'] in [P], and it is below +inf *)
  Definition best_row (P : nat -> Prop) (f : nat -> num) (r : nat) : Prop :=
    P r /\ fltb (f r) PInf = true /\ forall r', P r' -> fltb (f r') (f r) = false.

  (** Entry for [k+1] dimensions: the smallest average over the [k+1] best dimensions, of the rows [r] with [P r]; [vals r] are the
      distances of all dimensions for that row *)
  Definition smallest_average (P : nat -> Prop) (vals : nat -> list num) (k : nat) (x : num * Z * list Z) : Prop :=
    let '(v, q, ds) := x in
    (v = PInf /\ q = (-1)%Z /\ ds = repeat (-1)%Z (k + 1) /\ forall r ds' s', P r -> k_best (vals r) k ds' s' -> fltb s' PInf = false) \/
    (fltb v PInf = true /\ exists r, P r /\ q = Z.of_nat r /\ k_best (vals r) k ds v /\ forall r' ds' s', P r' -> k_best (vals r') k ds' s' -> fltb s' v = false).

  (** A MatrixProfileLRReservoir as a consumer: the state is the tree of the random choices made so far. *)
  Definition mrs_next (t : rnd (@mrs A)) (e : event num) : res (rnd (@mrs A)) := Ok (rbind t (fun s => mrs_step s e)).
End S.
