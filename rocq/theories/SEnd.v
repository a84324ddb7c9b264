(** * SEnd: specification of complete calculations of a matrix profile *)
From Coq Require Import QArith.
From Verif Require Import Np Mat MUtil SLog MProfile MCalc SCalc SMixed.
Set Implicit Arguments.
Open Scope nat_scope.

(** The cell (r, j) lies outside of the trivial match zone, and was delivered: column [j] was, or the diagonal of (r, j), or (in a
    self-join) that of (j, r) *)
Definition given (self : bool) (b : Z) (t : list part) (r j : nat) : Prop :=
  far b (Z.of_nat r, Z.of_nat j) = true /\
  (In j (cols_in t) \/ In (Z.of_nat j - Z.of_nat r)%Z (diags_in t) \/ (self = true /\ In (Z.of_nat r - Z.of_nat j)%Z (diags_in t))).

(** [v] is the smallest of the values [f r] for the rows [r] in [P], and is that of row [i]; it is +inf if there is none (below
    +inf). *)
Definition smallest {A} {NA : NumOps A} (P : nat -> Prop) (f : nat -> Np.num A) (v : Np.num A) (i : Z) : Prop :=
  (v = PInf /\ forall r, P r -> fltb (f r) PInf = false) \/
  (fltb v PInf = true /\ exists r, P r /\ i = Z.of_nat r /\ v = f r /\ forall r', P r' -> fltb (f r') v = false).

(** The cells outside of the trivial match zone *)
Definition outside (b : Z) (h : nat) (j r : nat) : Prop := r < h /\ (b < Z.abs (Z.of_nat r - Z.of_nat j))%Z.
(** The buffer that counts: it is ignored unless the calculation is a self-join *)
Definition buffer_used {T} (query : option T) (m : Z) (buffer : option Z) : Z := match query with None => buffer_of m buffer | Some _ => (-1)%Z end.

(** The program: an AnytimeCalculator with one generator, on channel [dim], and a MatrixProfileLR; then the given calls; then
    matrix_profile() and matrix_profile_index(). *)
Section Program.
  Context {A : Type} {NA : NumOps A}.
  Notation num := (Np.num A).
  Variables (X G : Type).
  Variable g_col : G -> nat -> res (G * list num).
  Variable g_diag : G -> Z -> res (G * list num).
  Variable prepare : Z -> list X -> option (list X) -> res G.
  Variable set_order : list nat -> list nat.
  Variable shuffle : list Z -> list Z.

  Definition profile_program (m : Z) (series : list (list X)) (query : option (list (list X))) (buffer : option Z) (dim : Z) (calls : list acall) : res (list num * list Z) :=
    do a <- any_new G mplr shuffle m series query buffer;
    do a <- any_add_generator prepare a dim;
    do s <- add_consumer (an_calc a) [0] (fun _ q s => Ok (mplr_init (Z.to_nat q) (Z.to_nat s)));
    do a <- foldM (any_call g_col g_diag mplr_step set_order) calls (mkAny s (an_series a) (an_query a) (an_order a) (an_total a) (an_next a) (an_done a));
    match ca_cons (an_calc a) with
    | (c, _) :: _ => Ok (mplr_mp c, mplr_idx c)
    | [] => Err IndexError
    end.
End Program.

(** All channels have [n] points. *)
Definition rows_have {X} (n : nat) (rows : list (list X)) : Prop := forall r, In r rows -> length r = n.
(** Everything was delivered: every column, or every diagonal *)
Definition complete {T} (query : option T) (m : Z) (buffer : option Z) (h w : nat) (t : list part) : Prop :=
  (forall j, j < w -> In j (cols_in t)) \/ (forall d, In d (diagonals query m buffer h w) -> In d (diags_in t)).

(** calculate_columns without start *)
Definition continues (c : acall) : Prop := match c with ACols _ None _ => True | ACols _ (Some _) _ => False | ADiags _ _ => True end.

(** The last call completes the calculation: all remaining diagonals, or all remaining columns (no call skipped some) *)
Definition completes (calls : list acall) : Prop :=
  (exists calls', calls = calls' ++ [ADiags never (RFloat (Fin 1%Q))]) \/
  (exists calls', calls = calls' ++ [ACols never None (RFloat (Fin 1%Q))] /\ Forall continues calls').

(** Matrix profile and index of the matrix with entries [D r j]; the cells of column [j] that count are those of the rows [r] with
    [P j r]. *)
Definition profile_ok {A} {NA : NumOps A} (D : nat -> nat -> Np.num A) (w : nat) (P : nat -> nat -> Prop) (res : list (Np.num A) * list Z) : Prop :=
  length (fst res) = w /\ length (snd res) = w /\
  forall j, j < w -> exists v i, nth_error (fst res) j = Some v /\ nth_error (snd res) j = Some i /\ smallest (P j) (fun r => D r j) v i.

(** Well-formed input: channels of [n] points (the query: [nq]), windows of [m] points, an allowed buffer *)
Definition proper_input {X} (m n nq : nat) (series : list (list X)) (query : option (list (list X))) (buffer : option Z) : Prop :=
  0 < m /\ m <= n /\ m <= nq /\ rows_have n series /\ match query with Some q => rows_have nq q /\ length q = length series | None => nq = n end /\
  (-1 <= buffer_used query (Z.of_nat m) buffer < Z.of_nat (n + 1 - m))%Z.
(** The data of channel [dim] *)
Definition channel_data {X} (dim : nat) (series : list (list X)) (query : option (list (list X))) (S Q : list X) : Prop :=
  nth_error series dim = Some S /\ match query with Some q => nth_error q dim = Some Q | None => Q = S end.
