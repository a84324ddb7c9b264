(** * SGen: calls of a bound generator and the windows they refer to *)
From Coq Require Import Reals Sorted.
From Verif Require Import Np NpFacts SReal SCalc.
Set Implicit Arguments.
Open Scope nat_scope.

(** append_series, append_query, calc_column, calc_diagonal *)
Inductive gcall (X : Type) : Type := CSeries (xs : list X) | CQuery (xs : list X) | CCol (c : nat) | CDiag (d : Z).
Arguments CCol {X} c.
Arguments CDiag {X} d.
Definition s_points {X} (H : list (gcall X)) : list X := flat_map (fun o => match o with CSeries xs => xs | _ => [] end) H.
Definition q_points {X} (H : list (gcall X)) : list X := flat_map (fun o => match o with CQuery xs => xs | _ => [] end) H.
Definition asks_col {X} (o : gcall X) : bool := match o with CCol _ => true | _ => false end.

(** The last [W] (at most) points of the series, the last [Wq] points of the query *)
Definition wS {X} (W : nat) (H : list (gcall X)) : list X := lastn W (s_points H).
Definition wQ {X} (self : bool) (W Wq : nat) (H : list (gcall X)) : list X := if self then wS W H else lastn Wq (q_points H).

(** The columns asked for, counted from the first point of the stream, after [n] series points *)
Fixpoint cols_asked {X} (W n : nat) (H : list (gcall X)) : list nat :=
  match H with
  | [] => []
  | CSeries xs :: H' => cols_asked W (n + length xs) H'
  | CCol c :: H' => (n - W + c) :: cols_asked W n H'
  | _ :: H' => cols_asked W n H'
  end.

(** Column [c], diagonal [d] of the distance matrix of the subsequences of length [m] of [S] (columns) and [Q] (rows) *)
Definition has_col {X} (m : nat) (S Q : list X) (c : nat) : Prop := c + m <= length S /\ m <= length Q.
Definition has_diag {X} (m : nat) (S Q : list X) (d : Z) : Prop :=
  exists i j, i + m <= length Q /\ j + m <= length S /\ (Z.of_nat j - Z.of_nat i)%Z = d.

(** Every call makes sense when it is made *)
Definition in_range {X} (self : bool) (m W Wq : nat) (H : list (gcall X)) : Prop :=
  forall H1 o H2, H = H1 ++ o :: H2 ->
  match o with
  | CSeries _ => True
  | CQuery _ => self = false
  | CCol c => has_col m (wS W H1) (wQ self W Wq H1) c
  | CDiag d => has_diag m (wS W H1) (wQ self W Wq H1) d
  end.

(** Histories in which the position of the cached column is known: self-joins; or every chunk of series points arrives before
    the first column is asked for, or when the window is full, or takes at most half of the room that is left; or no column
    is asked for again *)
Definition trusted {X} (self : bool) (W : nat) (H : list (gcall X)) : Prop :=
  self = true \/
  (forall H1 xs H2, H = H1 ++ CSeries xs :: H2 ->
     existsb asks_col H1 = false \/ length (wS W H1) = W \/ length (wS W H1) + 2 * length xs <= W) \/
  StronglySorted lt (cols_asked W 0 H).

(** Running calls on a generator *)
Section Run.
  Context {A : Type}.
  Notation num := (Np.num A).
  Variables (X G : Type).
  Variable g_col : G -> nat -> res (G * list num).
  Variable g_diag : G -> Z -> res (G * list num).
  Variable g_s g_q : G -> list X -> res G.
  Definition gstep (g : G) (o : gcall X) : res G :=
    match o with
    | CSeries xs => g_s g xs
    | CQuery xs => g_q g xs
    | CCol c => do r <- g_col g c; Ok (fst r)
    | CDiag d => do r <- g_diag g d; Ok (fst r)
    end.
  Definition grun (g : G) (H : list (gcall X)) : res G := foldM gstep H g.
End Run.

(** The calls with finite real data *)
Definition finc (o : gcall R) : gcall (num R) :=
  match o with CSeries xs => CSeries (fin xs) | CQuery xs => CQuery (fin xs) | CCol c => CCol c | CDiag d => CDiag d end.

(** The query of a self-join is the series *)
Definition self_of {X} (q : option X) : bool := match q with Some _ => false | None => true end.
Definition query_or {X} (S : X) (q : option X) : X := match q with Some q => q | None => S end.

(** Calculations only, on the fixed data [S] and [Q] *)
Definition calc_only {X} (m : nat) (S Q : list X) (H : list (gcall X)) : Prop :=
  forall o, In o H -> match o with CCol c => has_col m S Q c | CDiag d => has_diag m S Q d | _ => False end.

(** No two compared subsequences have a squared distance strictly between 0 and 1e-15 *)
Definition separated (m : nat) (S Q : list R) : Prop :=
  forall i j, i + m <= length Q -> j + m <= length S -> ~ (0 < sqd (sub m Q i) (sub m S j) < / 10 ^ 15)%R.

(** Column [c] and diagonal [d] of the matrix of [dist] of the subsequences of length [m] of [S] (columns) and [Q] (rows) *)
Definition col_dist (dist : list R -> list R -> R) (m : nat) (S Q : list R) (c : nat) : list (num R) :=
  map (fun r => Fin (dist (sub m Q r) (sub m S c))) (seq 0 (length Q + 1 - m)).
Definition cell_dist (dist : list R -> list R -> R) (m : nat) (S Q : list R) (r c : Z) : num R :=
  Fin (dist (sub m Q (Z.to_nat r)) (sub m S (Z.to_nat c))).
Definition diag_dist (dist : list R -> list R -> R) (m : nat) (S Q : list R) (d : Z) : list (num R) :=
  diag_of (cell_dist dist m S Q) (length Q + 1 - m) (length S + 1 - m) d.
