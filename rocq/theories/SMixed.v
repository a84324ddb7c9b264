(** * SMixed: specification of any mixture of calls of an AnytimeCalculator *)
From Coq Require Import QArith.
From Verif Require Import Np Mat MUtil SLog MCalc SCalc.
Set Implicit Arguments.
Open Scope nat_scope.

(** calculate_columns(start, upto) and calculate_diagonals(partial), with their interruptions *)
Inductive acall : Type := ACols (intr : nat -> bool) (start : option request) (upto : request) | ADiags (intr : nat -> bool) (partial : request).

(** Requests that make sense: an int, or a ratio between 0 and 1 *)
Definition sensible (r : request) : Prop :=
  match r with RInt _ => True | RFloat (Fin q) => (0 <= q)%Q /\ (q <= 1)%Q | _ => False end.
Definition sensible_call (c : acall) : Prop :=
  match c with
  | ACols _ start upto => match start with Some r => sensible r | None => True end /\ sensible upto
  | ADiags _ partial => sensible partial
  end.

(** What was delivered: the columns [c], ..., [c + n - 1]; some diagonals *)
Inductive part : Type := PCols (c n : nat) | PDiags (ds : list Z).
Definition cols_in (t : list part) : list nat := flat_map (fun p => match p with PCols c n => seq c n | _ => [] end) t.
Definition diags_in (t : list part) : list Z := flat_map (fun p => match p with PDiags ds => ds | _ => [] end) t.

(** One call, on an h x w matrix of which the diagonals are calculated in the given order.  State: the largest column calculated
    so far (-1 if none) and what was delivered. *)
Inductive mixes (h w : nat) (order : list Z) : acall -> Z * list part -> Z * list part -> Prop :=
| mixes_cols intr start upto last t c u n :
    resolves (match start with None => RInt (last + 1) | Some r => r end) (Z.of_nat w) (Z.of_nat w) (Z.of_nat c) ->
    resolves upto (Z.of_nat w) (Z.of_nat w) (Z.of_nat u) -> runs intr n (u - c) ->
    mixes h w order (ACols intr start upto) (last, t) (if n =? 0 then last else Z.max last (Z.of_nat (c + n) - 1), t ++ [PCols c n])
| mixes_diags intr partial last t v new rest :
    resolves partial (size h w order) (size h w order) v -> order = diags_in t ++ new ++ rest ->
    (forall i, i < length new -> intr i = false /\ (size h w (diags_in t ++ firstn i new) < v)%Z) ->
    (intr (length new) = true \/ (v <= size h w (diags_in t ++ new))%Z) ->
    mixes h w order (ADiags intr partial) (last, t) (last, t ++ [PDiags new]).

Inductive mixture (h w : nat) (order : list Z) : list acall -> Z * list part -> Prop :=
| mixture_nil : mixture h w order [] ((-1)%Z, [])
| mixture_snoc calls call p p' : mixture h w order calls p -> mixes h w order call p p' -> mixture h w order (calls ++ [call]) p'.

(** The calls that every consumer receives: [Fc id c] and [Fd id d] are the columns and diagonals of generator [id]. *)
Definition part_calls {A} (Fc : nat -> nat -> list (Np.num A)) (Fd : nat -> Z -> list (Np.num A)) (self : bool) (tmb : Z) (p : part) (ids : list nat) : list (event (Np.num A)) :=
  match p with
  | PCols c n => column_calls Fc tmb c n ids
  | PDiags ds => diagonal_calls Fd self ds ids
  end.
Definition mixed_calls {A} (Fc : nat -> nat -> list (Np.num A)) (Fd : nat -> Z -> list (Np.num A)) (self : bool) (tmb : Z) (t : list part) (ids : list nat) : list (event (Np.num A)) :=
  flat_map (fun p => part_calls Fc Fd self tmb p ids) t.

(** Calls of the model *)
Definition any_call {A X G C} (g_col : G -> nat -> res (G * list (Np.num A))) (g_diag : G -> Z -> res (G * list (Np.num A))) (c_step : C -> event (Np.num A) -> res C)
    (set_order : list nat -> list nat) (a : any X G C) (call : acall) : res (any X G C) :=
  match call with
  | ACols intr start upto => any_columns g_col c_step set_order intr a start upto
  | ADiags intr partial => calculate_diagonals g_diag c_step set_order intr a partial
  end.
