(** * SInsights: specification of the greedy exclusion order *)
From Verif Require Import Np.
Set Implicit Arguments.

(** Positions [i] and [j] differ by more than [d]. *)
Definition apart (d i j : nat) : Prop := d < i - j \/ d < j - i.

Section Greedy.
  Context {A : Type} {NA : NumOps A}.
  Variable better : A -> A -> bool.     (* strict: first argument preferred *)
  Variable array : list (num A).
  Variable d : nat.

  (** Position [i] holds the finite value [v] and is not excluded by an earlier choice. *)
  Definition eligible (chosen : list nat) (i : nat) (v : A) : Prop :=
    nth_error array i = Some (Fin v) /\ forall j, In j chosen -> apart d i j.

  (** [greedy chosen out]: after the choices [chosen], the following choices are [out]; each choice is the
      best eligible value, the lowest position among equals, until no position is eligible. *)
  Inductive greedy : list nat -> list nat -> Prop :=
  | greedy_stop chosen : (forall i v, ~ eligible chosen i v) -> greedy chosen []
  | greedy_pick chosen i v rest :
      eligible chosen i v ->
      (forall i' v', eligible chosen i' v' -> better v' v = false /\ (i' < i -> better v v' = true)) ->
      greedy (i :: chosen) rest ->
      greedy chosen (i :: rest).
End Greedy.

(** Negation reverses the order. *)
Class OppLaws (A : Type) {NA : NumOps A} := {
  nopp_lt : forall a b : A, nltb (nsub nzero a) (nsub nzero b) = nltb b a
}.
Arguments OppLaws A {NA}.
