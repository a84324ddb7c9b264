(** * SFilter: specification of filtered generators *)
From Coq Require Import Reals.
From Verif Require Import Np NpFacts SLog SReal SCalc SGen.
Set Implicit Arguments.
Open Scope nat_scope.

(** The window of length [m] at position [i] contains an invalid point ([bad] tells for every point if it is invalid) *)
Definition spoiled (m : nat) (bad : list bool) (i : nat) : bool := existsb (fun b => b) (sub m bad i).

Section Spec.
  Context {A : Type} {NA : NumOps A}.
  Notation num := (Np.num A).
  (** Which points are invalid *)
  Variable invalid : list num -> nat -> list bool.
  Variable m : nat.

  (** Data with 0 for the invalid points *)
  Definition cleaned (xs : list num) : list num := map (fun p => if snd p : bool then Fin nzero else fst p) (combine xs (invalid xs m)).

  (** A column or diagonal with +inf for the cells of spoiled subsequences; [bs], [bq]: the invalid points of series and query *)
  Definition filtered_col (bs bq : list bool) (c : nat) (col : list num) : list num :=
    mapi (fun r v => if spoiled m bs c || spoiled m bq r then PInf else v) col.
  Definition filtered_diag (bs bq : list bool) (d : Z) (diag : list num) : list num :=
    mapi (fun k v => if spoiled m bs (Z.to_nat d + k) || spoiled m bq (Z.to_nat (- d) + k) then PInf else v) diag.

  (** Calls with the validity of the points instead of the points *)
  Definition marks (o : gcall num) : gcall bool :=
    match o with CSeries xs => CSeries (invalid xs m) | CQuery xs => CQuery (invalid xs m) | CCol c => CCol c | CDiag d => CDiag d end.
  Definition cleaned_call (o : gcall num) : gcall num :=
    match o with CSeries xs => CSeries (cleaned xs) | CQuery xs => CQuery (cleaned xs) | CCol c => CCol c | CDiag d => CDiag d end.

  (** The invalid points of the windows after [H] *)
  Definition badS (W : nat) (H : list (gcall num)) : list bool := wS W (map marks H).
  Definition badQ (self : bool) (W Wq : nat) (H : list (gcall num)) : list bool := wQ self W Wq (map marks H).

  (** The calls that reach the wrapped generator, after the calls [H0]: columns of spoiled subsequences do not *)
  Fixpoint passed (W : nat) (H0 H : list (gcall num)) : list (gcall num) :=
    match H with
    | [] => []
    | o :: H' => (match o with CCol c => if spoiled m (badS W H0) c then [] else [CCol c] | _ => [cleaned_call o] end) ++ passed W (H0 ++ [o]) H'
    end.

  (** Chunks are not empty, and the validity function gives one boolean per point *)
  Definition proper_call (o : gcall num) : Prop := match o with CSeries xs | CQuery xs => xs <> [] /\ length (invalid xs m) = length xs | _ => True end.
End Spec.

(** ** Non-finite data *)
Definition val (x : num R) : R := match x with Fin a => a | _ => 0%R end.
Definition finite (x : num R) : bool := match x with Fin _ => true | _ => false end.
(** The distance of two subsequences of finite values; +inf for other subsequences *)
Definition dist_or_inf (dist : list R -> list R -> R) (x y : list (num R)) : num R :=
  if forallb finite x && forallb finite y then Fin (dist (map val x) (map val y)) else PInf.
Definition col_or_inf (dist : list R -> list R -> R) (m : nat) (S Q : list (num R)) (c : nat) : list (num R) :=
  map (fun r => dist_or_inf dist (sub m Q r) (sub m S c)) (seq 0 (length Q + 1 - m)).
Definition diag_or_inf (dist : list R -> list R -> R) (m : nat) (S Q : list (num R)) (d : Z) : list (num R) :=
  diag_of (fun r c => dist_or_inf dist (sub m Q (Z.to_nat r)) (sub m S (Z.to_nat c))) (length Q + 1 - m) (length S + 1 - m) d.
(** Every append has data *)
Definition chunked {X} (H : list (gcall X)) : Prop := forall o, In o H -> match o with CSeries xs | CQuery xs => xs <> [] | _ => True end.
