(** * SEndStream: specification of streaming calculations of a matrix profile *)
From Coq Require Import QArith.
From Verif Require Import Np NpFacts Mat SLog MProfile MCalc SReal SCalc SStream SEnd.
Set Implicit Arguments.
Open Scope nat_scope.

(** ** What the calls calculated *)
(** The calculated columns, counted from the first point of the stream, each with its first row and its number of rows, after
    [s] series points and [q] query points *)
Fixpoint calculated {X} (self : bool) (m W Wq s q : nat) (H : list (hop X)) : list (nat * nat * nat) :=
  match H with
  | [] => []
  | HSeries rows :: H' => calculated self m W Wq (s + length (hd [] rows)) q H'
  | HQuery rows :: H' => calculated self m W Wq s (q + length (hd [] rows)) H'
  | HCol c :: H' =>
      (lost W s + c, if self then lost W s else lost Wq q, if self then subseqs m W s else subseqs m Wq q) :: calculated self m W Wq s q H'
  end.
(** Row [r] of column [a] was calculated, and is outside of the trivial match zone *)
Definition seen (b : Z) (cells : list (nat * nat * nat)) (a r : nat) : Prop :=
  (b < Z.abs (Z.of_nat r - Z.of_nat a))%Z /\ exists lo n, In (a, lo, n) cells /\ lo <= r < lo + n.

(** All points of channel [d] *)
Definition stream_of {X} (d : nat) (H : list (hop X)) : list X := flat_map (fun o => match o with HSeries rows => nth d rows [] | _ => [] end) H.
Definition query_stream {X} (d : nat) (H : list (hop X)) : list X := flat_map (fun o => match o with HQuery rows => nth d rows [] | _ => [] end) H.

(** Column [c] of the windows after a history, with entries [E] of a row and a column subsequence *)
Definition window_column {A X} (E : list X -> list X -> Np.num A) (self : bool) (m W Wq : nat) (H : list (gop X)) (c : nat) : list (Np.num A) :=
  let S := lastn W (series_of H) in
  let Q := if self then S else lastn Wq (query_of H) in
  map (fun r => E (sub m Q r) (sub m S c)) (seq 0 (length Q + 1 - m)).

(** ** The program: a StreamingCalculator with one generator, on channel [dim], and a ShiftingMatrixProfileLR; then the given calls;
    then matrix_profile() and matrix_profile_index(). *)
Section Program.
  Context {A : Type} {NA : NumOps A}.
  Notation num := (Np.num A).
  Variables (X G : Type).
  Variable g_col : G -> nat -> res (G * list num).
  Variable g_app_s g_app_q : G -> list X -> res G.
  Variable prepare : Z -> Z -> option Z -> res G.
  Variable set_order : list nat -> list nat.
  Variables (memn : nat -> num) (memz : nat -> Z) (sfc : Q).

  Definition stream_program (m W : Z) (qw : option Z) (ndim : nat) (buffer : option Z) (dim : Z) (ops : list (sop X)) : res (list num * list Z) :=
    do t <- stm_new G smp m W qw ndim buffer;
    do t <- stm_add_generator prepare t dim;
    do s <- add_consumer (st_calc t) [0] (fun _ q s => smp_init memn memz sfc (Z.to_nat q) (Z.to_nat s));
    do t <- foldM (stm_call g_col g_app_s g_app_q smp_step set_order) ops (mkStm s (st_sp t) (st_qp t));
    match ca_cons (st_calc t) with
    | (c, _) :: _ => Ok (smp_mp c, smp_idx c)
    | [] => Err IndexError
    end.
End Program.

(** Profile [res] of a window that starts at column [first] of the complete matrix with entries [D]; the rows of column [a] that
    count are those in [P a]. *)
Definition window_profile {A} {NA : NumOps A} (D : nat -> nat -> Np.num A) (first w : nat) (P : nat -> nat -> Prop) (res : list (Np.num A) * list Z) : Prop :=
  length (fst res) = w /\ length (snd res) = w /\
  forall j, j < w -> exists v i, nth_error (fst res) j = Some v /\ nth_error (snd res) j = Some i /\ smallest (P (first + j)) (fun r => D r (first + j)) v i.
