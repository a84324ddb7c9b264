(** * SRaise: specification of calculations in which generators and consumers raise *)
From Coq Require Import QArith.
From Verif Require Import Np Mat MUtil SLog MCalc SCalc SMixed.
Set Implicit Arguments.
Open Scope nat_scope.

Section Spec.
  Context {A : Type}.
  Notation num := (Np.num A).
  Variable C : Type.
  Variable c_step : C -> event num -> C * option exn.

  (** A generator that may raise, but only returns right values, also after it has raised *)
  Definition may_give {G K} (calc : G -> K -> G * res (list num)) (I : nat -> G -> Prop) (F : nat -> K -> list num) (dom : K -> Prop) (len : K -> nat) : Prop :=
    forall id g k, I id g -> dom k -> I id (fst (calc g k)) /\ forall v, snd (calc g k) = Ok v -> v = F id k /\ length v = len k.

  (** A consumer after the calls [evs], raising or not *)
  Definition after (evs : list (event num)) (c : C) : C := fold_left (fun c e => fst (c_step c e)) evs c.

  (** Among the calls [evs], the calls [block] were made one after the other and did not raise. *)
  Definition in_full (block evs : list (event num)) (c : C) : Prop :=
    exists pre post, evs = pre ++ block ++ post /\
      forall b1 e b2, block = b1 ++ e :: b2 -> snd (c_step (after (pre ++ b1) c) e) = None.

  (** A call with the values of the generators [ids]: [Fc id j] is column [j], [Fd id d] is diagonal [d] of generator [id]. *)
  Definition right_call (Fc : nat -> nat -> list num) (Fd : nat -> Z -> list num) (self : bool) (tmb : Z) (w : nat) (order : list Z) (ids : list nat) (e : event num) : Prop :=
    (exists j, j < w /\ In e (column_calls Fc tmb j 1 ids)) \/ (exists d, In d order /\ In e (diagonal_calls Fd self [d] ids)).

  Definition from_last (c : acall) : Prop := match c with ACols _ start _ => start = None | ADiags _ _ => True end.
End Spec.
