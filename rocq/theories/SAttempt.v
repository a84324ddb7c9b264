(** * SAttempt: specification of what every consumer receives when generators and consumers raise *)
From Coq Require Import QArith.
From Verif Require Import Np Mat MUtil SLog MCalc SCalc SMixed SRaise.
Set Implicit Arguments.
Open Scope nat_scope.

(** One column ([PCols j 1]) or diagonal ([PDiags [d]]) for which no generator raised, and how its delivery ended: all consumers
    have received it, or consumer [k] raised in its call number [n] (from 0) for it. *)
Inductive outcome : Type := Done | Raised (k n : nat).
Definition attempt : Type := part * outcome.

Definition done (ats : list attempt) : list part := flat_map (fun a => match snd a with Done => [fst a] | Raised _ _ => [] end) ats.
(** The columns and diagonals of which consumer [k] got all calls *)
Definition complete_for (k : nat) (ats : list attempt) : list part :=
  flat_map (fun a => match snd a with Done => [fst a] | Raised k0 _ => if k <? k0 then [fst a] else [] end) ats.

Section Spec.
  Context {A : Type}.
  Notation num := (Np.num A).
  Variable C : Type.
  Variable c_step : C -> event num -> C * option exn.
  Variables (Fc : nat -> nat -> list num) (Fd : nat -> Z -> list num) (self : bool) (tmb : Z).

  (** The calls that consumer [k], connected to the generators [ids], gets in an attempt: the consumers before the one that raises get all of
      them, those after it none. *)
  Definition got (k : nat) (ids : list nat) (a : attempt) : list (event num) :=
    let calls := part_calls Fc Fd self tmb (fst a) ids in
    match snd a with
    | Done => calls
    | Raised k0 n => if k <? k0 then calls else if k =? k0 then firstn (S n) calls else []
    end.
  Definition got_all (k : nat) (ids : list nat) (ats : list attempt) : list (event num) := flat_map (got k ids) ats.

  (** The outcome of the attempt [a], made after the attempts [p], is due to the consumers: the call in which the attempt ended raised, no other did. *)
  Definition explained (cs : list (C * list nat)) (p : list attempt) (a : attempt) : Prop :=
    (forall k n, snd a = Raised k n -> exists c ids, nth_error cs k = Some (c, ids) /\ n < length (part_calls Fc Fd self tmb (fst a) ids)) /\
    (forall k c ids b1 e b2, nth_error cs k = Some (c, ids) -> got k ids a = b1 ++ e :: b2 ->
      (snd (c_step (after c_step (got_all k ids p ++ b1) c) e) = None <-> snd a <> Raised k (length b1))).

  (** The next diagonal is the first one that is not done; the next column is any, or, if the client always goes on with the next column, the one
      after those done. *)
  Definition in_turn (w : nat) (order : list Z) (go_on : Prop) (p : list attempt) (x : part) : Prop :=
    match x with
    | PCols j n => n = 1 /\ j < w /\ (go_on -> j = length (cols_in (done p)))
    | PDiags ds => exists d, ds = [d] /\ nth_error order (length (diags_in (done p))) = Some d
    end.

  (** The consumers [cs] have become [cns] by the attempts [ats]. *)
  Definition tells (w : nat) (order : list Z) (go_on : Prop) (cs cns : list (C * list nat)) (ats : list attempt) : Prop :=
    length cns = length cs /\
    (forall k c ids, nth_error cs k = Some (c, ids) -> nth_error cns k = Some (after c_step (got_all k ids ats) c, ids)) /\
    (forall p a q, ats = p ++ a :: q -> explained cs p a /\ in_turn w order go_on p (fst a)).

  (** A consumer [c] of the generators [ids] that raises in no call, as long as it gets columns and diagonals of the calculation as a whole *)
  Definition proper_part (w : nat) (order : list Z) (x : part) : Prop :=
    match x with PCols j n => n = 1 /\ j < w | PDiags ds => exists d, ds = [d] /\ In d order end.
  Definition never_raises (w : nat) (order : list Z) (ids : list nat) (c : C) : Prop :=
    forall t x b1 e b2, Forall (proper_part w order) (t ++ [x]) -> part_calls Fc Fd self tmb x ids = b1 ++ e :: b2 ->
      snd (c_step (after c_step (mixed_calls Fc Fd self tmb t ids ++ b1) c) e) = None.
End Spec.

Definition is_cols (x : part) : Prop := match x with PCols _ _ => True | PDiags _ => False end.
Definition is_diags (x : part) : Prop := match x with PCols _ _ => False | PDiags _ => True end.
