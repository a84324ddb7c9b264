(** * MRand: programs that draw random numbers.

    A program is the tree of everything it could do; the leaves are results or exceptions.  Nothing is
    said here about how draws are distributed (see SRand.v). *)
From Verif Require Import Np.
Set Implicit Arguments.

Inductive rnd (X : Type) : Type :=
| Ret (x : X)
| Fail (e : exn)
| Flip (a b : nat) (k : bool -> rnd X)    (* the test [rand() < a / b], rand() in [0,1) *)
| Pick (n : nat) (k : nat -> rnd X).      (* randint(0, n): raises when n = 0 *)
Arguments Ret {X} x.
Arguments Fail {X} e.
Arguments Flip {X} a b k.
Arguments Pick {X} n k.

Fixpoint rbind {X Y} (t : rnd X) (f : X -> rnd Y) : rnd Y :=
  match t with
  | Ret x => f x
  | Fail e => Fail e
  | Flip a b k => Flip a b (fun o => rbind (k o) f)
  | Pick n k => Pick n (fun i => rbind (k i) f)
  end.
Definition lift {X} (r : res X) : rnd X := match r with Ok x => Ret x | Err e => Fail e end.
Notation "'draw' x <- r ; k" := (rbind r (fun x => k))
  (at level 200, x pattern, r at level 100, k at level 200).

Fixpoint rfold {S T} (f : S -> T -> rnd S) (l : list T) (s : S) : rnd S :=
  match l with [] => Ret s | x :: l' => draw s' <- f s x; rfold f l' s' end.
