(** * SRand: possible outcomes and expectations of random programs. *)
From Coq Require Import QArith.
From Verif Require Import Np MRand.
Set Implicit Arguments.
Open Scope Q_scope.

(** Whatever the random source returns, the program does not raise and its result satisfies [Post]. *)
Fixpoint safe {X} (t : rnd X) (Post : X -> Prop) : Prop :=
  match t with
  | Ret x => Post x
  | Fail _ => False
  | Flip _ _ k => forall o : bool, safe (k o) Post
  | Pick n k => (0 < n)%nat /\ forall i, (i < n)%nat -> safe (k i) Post
  end.

Definition frac (a b : nat) : Q := inject_Z (Z.of_nat a) / inject_Z (Z.of_nat b).

Fixpoint qsum (n : nat) (f : nat -> Q) : Q :=
  match n with O => 0 | S n' => qsum n' f + f n' end.

(** Expected value of [f] when every draw is independent, [rand() < a/b] holds with probability a/b and
    [randint(0,n)] is uniform. *)
Fixpoint expect {X} (t : rnd X) (f : X -> Q) : Q :=
  match t with
  | Ret x => f x
  | Fail _ => 0
  | Flip a b k => frac a b * expect (k true) f + (1 - frac a b) * expect (k false) f
  | Pick n k => qsum n (fun i => frac 1 n * expect (k i) f)
  end.

(** Probability that the result satisfies [P]. *)
Definition ind (b : bool) : Q := if b then 1 else 0.
Definition prob {X} (t : rnd X) (P : X -> bool) : Q := expect t (fun x => ind (P x)).
