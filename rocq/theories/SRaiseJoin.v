(** * SRaiseJoin: specification of joins of streams in which consumers raise *)
From Coq Require Import QArith.
From Verif Require Import Np NpFacts Mat MUtil SLog MCalc SCalc SStream SReal SStreamRaise.
Set Implicit Arguments.
Open Scope nat_scope.

(** Column [j] of a join when the points [s] and [q] have arrived, of which the last [W] and [Wq] are kept *)
Definition join_column {A X} (E : list X -> list X -> Np.num A) (m W Wq : nat) (s q : list X) (j : nat) : list (Np.num A) :=
  map (fun r => E (sub m (lastn Wq q) r) (sub m (lastn W s) j)) (seq 0 (length (lastn Wq q) + 1 - m)).
(** Column [a] was calculated when [n] points of the series and [nq] points of the query had arrived, with rows for all subsequences of the query window. *)
Definition cells_join (m Wq : nat) (moments : list (nat * nat * nat)) : list (nat * nat * nat) := map (fun x => (fst (fst x), lost Wq (snd x), subseqs m Wq (snd x))) moments.
(** Clients that give points to the series before it has a subsequence, when its window is full, or at most half of what fits; and that ask for
    columns when the query has a subsequence *)
Definition measured (m W : nat) (ns nq : nat) (call : option nat) : Prop :=
  match call with
  | Some k => ns < m \/ W <= ns \/ ns + 2 * k <= W
  | None => m <= nq
  end.
