(** * SCalc: specification of the calculators *)
From Coq Require Import QArith Permutation.
From Verif Require Import Np Mat MUtil SLog MCalc.
Set Implicit Arguments.
Open Scope nat_scope.

(** Some order of the elements of a set of generator ids *)
Definition orders_sets (set_order : list nat -> list nat) : Prop :=
  forall l, NoDup (set_order l) /\ forall x, In x (set_order l) <-> In x l.

(** A loop that may be interrupted runs [n] of at most [total] times: [intr k] tells whether it was interrupted at its k-th
    test. *)
Definition runs (intr : nat -> bool) (n total : nat) : Prop :=
  n <= total /\ (forall i, i < n -> intr i = false) /\ (n < total -> intr n = true).

(** Meaning of a requested position or amount: an int is clamped to [0, limit]; a ratio between 0 and 1 is the smallest
    integer that is at least that part of [full], at most [limit]. *)
Definition resolves (r : request) (full limit v : Z) : Prop :=
  match r with
  | RInt z => v = Z.min (Z.max 0 z) limit
  | RFloat (Fin q) => (0 <= q)%Q /\ (q <= 1)%Q /\
      exists k, (q * inject_Z full <= inject_Z k)%Q /\ (forall k', (q * inject_Z full <= inject_Z k')%Q -> (k <= k')%Z) /\ v = Z.min k limit
  | _ => False
  end.

Definition never : nat -> bool := fun _ => false.

Section Spec.
  Context {A : Type}.
  Notation num := (Np.num A).
  Variables (C : Type).
  Variable (c_step : C -> event num -> res C).

  (** Bound generators of type [G].  The invariant [I id g] says that [g] is a state of generator [id]; in such a state
      every column [c < cols] (every diagonal [d] with [dom d]) is calculated without exception, is [F id c], and leads to such
      a state again. *)
  Definition gives {G K} (calc : G -> K -> res (G * list num)) (I : nat -> G -> Prop) (F : nat -> K -> list num) (dom : K -> Prop)
      (len : K -> nat) : Prop :=
    forall id g k, I id g -> dom k -> exists g', calc g k = Ok (g', F id k) /\ I id g' /\ length (F id k) = len k.

  Definition gens_ok {G} (I : nat -> G -> Prop) (gens : list (G * nat)) : Prop :=
    forall id g d, nth_error gens id = Some (g, d) -> I id g.

  (** Consumers refer to existing generators. *)
  Definition ids_ok {G} (gens : list (G * nat)) (cs : list (C * list nat)) : Prop :=
    forall c ids id, In (c, ids) cs -> In id ids -> id < length gens.

  (** Every consumer processes the calls [evs ids] for its generators [ids], and nothing else. *)
  Definition receive (evs : list nat -> list (event num)) (cs cs' : list (C * list nat)) : Prop :=
    Forall2 (fun c c' => snd c' = snd c /\ foldM c_step (evs (snd c)) (fst c) = Ok (fst c')) cs cs'.

  (** A column with +inf for the trivial matches: rows at most [tmb] away from column [c] *)
  Definition hide (tmb : Z) (c : nat) (col : list num) : list num :=
    mapi (fun r v => if (Z.abs (Z.of_nat r - Z.of_nat c) <=? tmb)%Z then PInf else v) col.

  (** Columns [start], ..., [start + n - 1]; [F id c] is column [c] of generator [id]. *)
  Definition column_calls (F : nat -> nat -> list num) (tmb : Z) (start n : nat) (ids : list nat) : list (event num) :=
    map (fun c => ECol c (map (fun id => hide tmb c (F id c)) ids)) (seq start n).

  (** The diagonals [ds]; in a self-join each stands for its mirror image as well. *)
  Definition diagonal_calls (F : nat -> Z -> list num) (self_join : bool) (ds : list Z) (ids : list nat) : list (event num) :=
    flat_map (fun d => EDiag d (map (fun id => F id d) ids) ::
                       if self_join then [EDiag (- d) (map (fun id => F id d) ids)] else []) ds.
End Spec.

(** ** Cells *)
(** All positions of an h x w matrix, in row order *)
Definition positions (h w : nat) : list (Z * Z) :=
  flat_map (fun r => map (fun c => (Z.of_nat r, Z.of_nat c)) (seq 0 w)) (seq 0 h).
(** Those more than [b] away from the main diagonal *)
Definition far (b : Z) (p : Z * Z) : bool := (b <? Z.abs (fst p - snd p))%Z.
Definition cells_of {T} (D : Z -> Z -> T) (ps : list (Z * Z)) : list (cell T) := map (fun p => (fst p, snd p, D (fst p) (snd p))) ps.
(** Length of diagonal [d] of an h x w matrix, and the diagonal [d] of the matrix [D] *)
Definition dlen (h w : nat) (d : Z) : Z := Z.min (Z.of_nat h - Z.max 0 (- d)) (Z.of_nat w - Z.max 0 d).
Definition diag_of {T} (D : Z -> Z -> T) (h w : nat) (d : Z) : list T :=
  map (fun k => D (Z.max 0 (- d) + Z.of_nat k) (Z.max 0 d + Z.of_nat k))%Z (seq 0 (Z.to_nat (dlen h w d))).
(** Number of values on the diagonals [ds] *)
Definition size (h w : nat) (ds : list Z) : Z := fold_right Z.add 0%Z (map (dlen h w) ds).
(** A self-join calculates the part above the main diagonal only and mirrors it. *)
Definition mirror {T} (D : Z -> Z -> T) : Z -> Z -> T := fun r c => if (r <=? c)%Z then D r c else D c r.
(** The values of channel [i] only *)
Definition channel {T} (i : nat) (e : event T) : event T :=
  match e with
  | EDiag d vs => EDiag d (firstn 1 (skipn i vs))
  | ECol c vs => ECol c (firstn 1 (skipn i vs))
  | EShiftS n => EShiftS n
  | EShiftQ n => EShiftQ n
  end.

(** A calculator with the given generators and consumers *)
Definition with_parts {X G C} (a : any X G C) (gens : list (G * nat)) (cs : list (C * list nat)) : any X G C :=
  mkAny (ca_upd (an_calc a) gens cs (ca_last (an_calc a))) (an_series a) (an_query a) (an_order a) (an_total a) (an_next a) (an_done a).

(** [a0] is a new AnytimeCalculator; its distance matrix has [h] rows and [w] columns. *)
Definition built {X G C} (shuffle : list Z -> list Z) (m : Z) (series : list (list X)) (query : option (list (list X))) (buffer : option Z)
    (h w : nat) (a0 : any X G C) : Prop :=
  (forall l, Permutation (shuffle l) l) /\ any_new G C shuffle m series query buffer = Ok a0 /\ 0 < h /\ 0 < w /\
  Z.of_nat w = (Z.of_nat (length (hd [] series)) - m + 1)%Z /\
  Z.of_nat h = (Z.of_nat (length (hd [] (match query with None => series | Some q => q end))) - m + 1)%Z.
Definition is_self {T} (query : option T) : bool := match query with None => true | Some _ => false end.
Definition buffer_of (m : Z) (buffer : option Z) : Z := match buffer with None => Z.div m 2 | Some b => b end.
(** The diagonals of an h x w matrix; for a self-join those above the trivial match zone *)
Definition diagonals {T} (query : option T) (m : Z) (buffer : option Z) (h w : nat) : list Z :=
  pyrange (match query with None => buffer_of m buffer + 1 | Some _ => - Z.of_nat h + 1 end)%Z (Z.of_nat w).
Definition on_matrix (h w : nat) (d : Z) : Prop := (- Z.of_nat h < d < Z.of_nat w)%Z.
