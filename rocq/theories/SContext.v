(** * SContext: specifications for context managers and the contextual matrix profile. *)
From Coq Require Import Permutation.
From Verif Require Import Np Mat SLog MContext.
Set Implicit Arguments.
Open Scope Z_scope.

(** ** What was given to a static manager *)
Definition el_ranges (el : ctx_el) : list prange := match el with One r => [r] | Many rs => rs end.

(** Context [id] was given the range [s, e). *)
Definition given (input : list ctx_el) (s e : Z) (id : nat) : Prop :=
  exists el r, nth_error input id = Some el /\ In r (el_ranges el) /\ r_start r = s /\ r_stop r = e.

(** Position [x] belongs to context [id]. *)
Definition in_context (input : list ctx_el) (id : nat) (x : Z) : Prop :=
  exists s e, given input s e id /\ s <= x < e.

(** All given ranges with their context id, in order. *)
Definition all_given (input : list ctx_el) : list ctx :=
  concat (mapi (fun i el => map (fun r => (r_start r, r_stop r, i)) (el_ranges el)) input).

(** Non-empty and intersecting [a, b) (for a < b: they share a position). *)
Definition intersects (a b : Z) (c : ctx) : bool :=
  (c_start c <? c_stop c) && (c_start c <? b) && (a <? c_stop c).

Definition ranges_valid (input : list ctx_el) : Prop :=
  forall el r, In el input -> In r (el_ranges el) -> r_step r = 1 /\ 0 <= r_start r.

(** [np.argsort]: some permutation of the positions that sorts the keys. *)
Definition sorts (argsort : list Z -> list nat) : Prop :=
  forall l, Permutation (argsort l) (seq 0 (length l)) /\
    forall p q i j v w, (p < q)%nat -> nth_error (argsort l) p = Some i -> nth_error (argsort l) q = Some j ->
      nth_error l i = Some v -> nth_error l j = Some w -> v <= w.

(** ** What ContextualMatrixProfile needs from a manager in some state, for an h x w distance matrix and an
    H x W context matrix.  [QM i x]: window row [x] belongs to query context [i]; [SM j x] likewise for series. *)
Definition lookup_ok (lookup : Z -> Z -> res (list ctx)) (n H : nat) (Mem : nat -> Z -> Prop) : Prop :=
  forall a b, 0 <= a < b -> b <= Z.of_nat n ->
    exists l, lookup a b = Ok l /\
      (forall c, In c l -> 0 <= c_start c < c_stop c /\ c_start c < b /\ a < c_stop c /\ (c_id c < H)%nat /\
         forall x, c_start c <= x < c_stop c -> x < Z.of_nat n -> Mem (c_id c) x) /\
      (forall i x, a <= x < b -> Mem i x -> exists c, In c l /\ c_id c = i /\ c_start c <= x < c_stop c).

Definition man_ok {M} (MO : ManagerOps M) (m : M) (h w H W : nat) (QM SM : nat -> Z -> Prop) : Prop :=
  lookup_ok (man_query MO m) h H QM /\ lookup_ok (man_series MO m) w W SM.

(** A streaming manager: there are fixed contexts over the absolute positions of the complete query ([QA]) and
    series ([SA]); after shifts by [qs] and [ss] the matrix rows are the contexts kq, ..., kq+H-1 and the columns the
    contexts ks, ..., ks+W-1.  [inv] is the manager's own invariant. *)
Record stream_manager {M} (MO : ManagerOps M) (h w H W : nat) (QA SA : nat -> Z -> Prop)
    (inv : M -> Z -> Z -> nat -> nat -> Prop) : Prop := {
  sm_lookup : forall m qs ss kq ks, inv m qs ss kq ks ->
    man_ok MO m h w H W (fun i x => QA (i + kq)%nat (qs + x)) (fun j x => SA (j + ks)%nat (ss + x));
  sm_query : forall m qs ss kq ks n m' k, inv m qs ss kq ks -> man_shift_query MO m n = Ok (m', k) ->
    inv m' (qs + Z.of_nat n) ss (kq + k)%nat ks;
  sm_series : forall m qs ss kq ks n m' k, inv m qs ss kq ks -> man_shift_series MO m n = Ok (m', k) ->
    inv m' qs (ss + Z.of_nat n) kq (ks + k)%nat;
  (* contexts beyond the matrix do not reach into the window *)
  sm_new_q : forall m qs ss kq ks i r, inv m qs ss kq ks -> r < qs + Z.of_nat h -> QA i r -> (i < kq + H)%nat;
  sm_new_s : forall m qs ss kq ks j c, inv m qs ss kq ks -> c < ss + Z.of_nat w -> SA j c -> (j < ks + W)%nat
}.

(** What the manager answers to the shifts of a history: its final state and the number of query and series
    contexts that were dropped. *)
Definition man_event {M T} (MO : ManagerOps M) (st : M * nat * nat) (e : event T) : res (M * nat * nat) :=
  let '(m, kq, ks) := st in
  match e with
  | EShiftQ n => do r <- man_shift_query MO m n; Ok (fst r, (kq + snd r)%nat, ks)
  | EShiftS n => do r <- man_shift_series MO m n; Ok (fst r, kq, (ks + snd r)%nat)
  | _ => Ok st
  end.
Definition man_after {M T} (MO : ManagerOps M) (m : M) (es : list (event T)) : res (M * nat * nat) :=
  foldM (man_event MO) es (m, 0%nat, 0%nat).

(** A concrete streaming manager: the contexts are the blocks [t*b, (t+1)*b) of the complete query and series; the
    state is the position of the window in the two. *)
Definition block_lookup (b : Z) (H : nat) (pos lo hi : Z) : res (list ctx) :=
  Ok (filter (intersects lo hi)
        (map (fun i => (Z.max 0 ((pos / b + Z.of_nat i) * b - pos), (pos / b + Z.of_nat i + 1) * b - pos, i)) (seq 0 H))).
Definition block_manager (bq bs : Z) (H W : nat) : ManagerOps (Z * Z) := {|
  man_query := fun m => block_lookup bq H (fst m);
  man_series := fun m => block_lookup bs W (snd m);
  man_shape := fun _ => Ok (H, W);
  man_shift_query := fun m n => Ok ((fst m + Z.of_nat n, snd m), Z.to_nat ((fst m + Z.of_nat n) / bq - fst m / bq));
  man_shift_series := fun m n => Ok ((fst m, snd m + Z.of_nat n), Z.to_nat ((snd m + Z.of_nat n) / bs - snd m / bs))
|}.

Section Rect.
  Context {A : Type} {NA : NumOps A}.
  Notation num := (Np.num A).

  (** [v] at (r, c) = (mq, ms) is the smallest delivered value of the cells satisfying [R]; +inf and (-1, -1) if no such
      cell is smaller than +inf. *)
  Definition rect_best (L : list (cell num)) (R : Z -> Z -> Prop) (v : num) (mq ms : Z) : Prop :=
    (v = PInf /\ mq = -1 /\ ms = -1 /\ forall r c x, In (r, c, x) L -> R r c -> fltb x PInf = false) \/
    (fltb v PInf = true /\ In (mq, ms, v) L /\ R mq ms /\
       forall r c x, In (r, c, x) L -> R r c -> fltb x v = false).

  (** Complete diagonals and columns of an h x w matrix without NaN *)
  Definition full_event (h w : nat) (e : event num) : Prop :=
    match e with
    | EDiag d vs => - Z.of_nat h < d < Z.of_nat w /\
        exists vals rest, vs = vals :: rest /\ (forall x, In x vals -> isnan x = false) /\
          Z.of_nat (length vals) = Z.min (Z.of_nat h - Z.max 0 (- d)) (Z.of_nat w - Z.max 0 d)
    | ECol c vs => (c < w)%nat /\
        exists vals rest, vs = vals :: rest /\ (forall x, In x vals -> isnan x = false) /\ length vals = h
    | EShiftS _ | EShiftQ _ => True
    end.
End Rect.
