(** * SCounters: specifications for counters and radius profiles. *)
From Coq Require Import Permutation Sorted.
From Verif Require Import Np SLog SInsights.
Set Implicit Arguments.
Open Scope nat_scope.

Section S.
  Context {A : Type} {NA : NumOps A}.
  Notation num := (Np.num A).

  (** Number of delivered values <= t. *)
  Definition count_le (t : num) (l : list num) : nat := length (filter (fun v => fleb v t) l).
  Definition count_lt (t : num) (l : list num) : nat := length (filter (fun v => fltb v t) l).
  Definition count_real (l : list num) : nat := length (filter (fun v => negb (isnan v)) l).

  (** [order] is a possible result of [np.argsort(values)] for NaN-free values. *)
  Definition sorting_order (values : list num) (order : list nat) : Prop :=
    Permutation order (seq 0 (length values)) /\
    forall p q i j v w, p < q -> nth_error order p = Some i -> nth_error order q = Some j ->
      nth_error values i = Some v -> nth_error values j = Some w -> fleb v w = true.

  (** Greedy scan: go through [order]; pick a position unless it lies within [d] of an earlier pick. *)
  Inductive scan (d : nat) : list nat -> list nat -> list nat -> Prop :=
  | scan_nil chosen : scan d chosen [] []
  | scan_pick chosen i order rest : (forall j, In j chosen -> apart d i j) ->
      scan d (i :: chosen) order rest -> scan d chosen (i :: order) (i :: rest)
  | scan_skip chosen i order rest : (exists j, In j chosen /\ ~ apart d i j) ->
      scan d chosen order rest -> scan d chosen (i :: order) rest.

  (** Picks of value at most [t] *)
  Definition le_at (values : list num) (t : num) (i : nat) : bool :=
    match nth_error values i with Some v => fleb v t | None => false end.

  (** [v] is the k-th smallest (counting from 0) of [l], where NaN counts as larger than any number. *)
  Definition kth_smallest (k : nat) (l : list num) (v : num) : Prop :=
    if isnan v then count_real l <= k else In v l /\ count_lt v l <= k < count_le v l.
End S.
