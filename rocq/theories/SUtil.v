(** * SUtil: specifications for util.py *)
From Verif Require Import Np Mat MUtil.
From Coq Require Import Sorted.
Set Implicit Arguments.

(** Adding the same number on the right preserves [<=] (true of exact and of rounded addition). *)
Class AddMono (A : Type) {NA : NumOps A} := {
  nadd_mono : forall a b c : A, nltb b a = false -> nltb (nadd b c) (nadd a c) = false
}.
Arguments AddMono A {NA}.

(** One step of a monotone path: right, down or diagonal. *)
Inductive sp_step : nat * nat -> nat * nat -> Prop :=
| st_down i j : sp_step (i, j) (S i, j)
| st_right i j : sp_step (i, j) (i, S j)
| st_diag i j : sp_step (i, j) (S i, S j).

Section Path.
  Context {A : Type} {NA : NumOps A}.
  Notation num := (num A).

  Definition entry (m : mat num) (p : nat * nat) (v : num) : Prop :=
    exists r, nth_error m (fst p) = Some r /\ nth_error r (snd p) = Some v.

  (** [mono_path cost l p c]: [l] lists the cells of a monotone path from (0,0) to [p], the last cell
      being [p]; [c] is its cost, the sum of the entries on it from first to last. *)
  Inductive mono_path (cost : mat num) : list (nat * nat) -> nat * nat -> num -> Prop :=
  | mp_start v : entry cost (0, 0) v -> mono_path cost [(0, 0)] (0, 0) v
  | mp_step l p c q v : mono_path cost l p c -> sp_step p q -> entry cost q v ->
      mono_path cost (l ++ [q]) q (fadd c v).

  (** [c] is the cost of some path to [p], and no path to [p] is cheaper. *)
  Definition optimal (cost : mat num) (p : nat * nat) (c : num) : Prop :=
    (exists l, mono_path cost l p c) /\
    (forall l' c', mono_path cost l' p c' -> fleb c c' = true).
End Path.

(** Index [i] is inside an array of the given shape. *)
Definition in_shape (i s : list Z) : Prop := Forall2 (fun k n => 0 <= k < n)%Z i s.

(** The step actually used: one along every axis by default. *)
Definition steps_of (x : ndarray) (step : option (list Z)) : list Z :=
  match step with None => repeat 1%Z (length (nd_shape x)) | Some st => st end.
