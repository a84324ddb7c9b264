(** * SMulti: specification of the multidimensional matrix profile *)
From Coq Require Import Permutation.
From Verif Require Import Np Mat SLog.
Set Implicit Arguments.
Open Scope nat_scope.

Section Multi.
  Context {A : Type} {NA : NumOps A}.
  Notation num := (Np.num A).

  (** Cells carrying the distances of all channels *)
  Definition chan (vs : list (list num)) (p : nat) : list num := map (fun row => nth p row NaN) vs.
  Definition chans (vs : list (list num)) : list (list num) :=
    match vs with [] => [] | v :: _ => map (chan vs) (seq 0 (length v)) end.
  Definition tr (e : event num) : event (list num) :=
    match e with
    | EDiag d vs => EDiag d [chans vs]
    | ECol c vs => ECol c [chans vs]
    | EShiftS n => EShiftS n
    | EShiftQ n => EShiftQ n
    end.
  Definition mlog (es : list (event num)) : list (cell (list num)) := log (map tr es).

  (** [ds] are k+1 different channels with the smallest distances, in ascending order, and [s] is their average *)
  Definition k_best (vals : list num) (k : nat) (ds : list Z) (s : num) : Prop :=
    exists ns, ds = map Z.of_nat ns /\ NoDup ns /\ length ns = k + 1 /\ (forall i, In i ns -> i < length vals) /\
      (forall p q i j x y, p < q -> nth_error ns p = Some i -> nth_error ns q = Some j ->
         nth_error vals i = Some x -> nth_error vals j = Some y -> fltb y x = false) /\
      (forall i j x y, In i ns -> ~ In j ns -> nth_error vals i = Some x -> nth_error vals j = Some y -> fltb y x = false) /\
      s = fdivp (fold_left fadd (map (fun i => nth i vals NaN) ns) (Fin nzero)) (nofZ (Z.of_nat k + 1)).

  (** Entry for [k+1] dimensions of absolute column [a], over the delivered cells with row satisfying [P] *)
  Definition md_best (L : list (cell (list num))) (P : Z -> bool) (a : Z) (k : nat) (x : num * Z * list Z) : Prop :=
    let '(v, q, ds) := x in
    (v = PInf /\ q = (-1)%Z /\ ds = repeat (-1)%Z (k + 1) /\
       forall r vals ds' s', In (r, a, vals) L -> P r = true -> k_best vals k ds' s' -> fltb s' PInf = false) \/
    (fltb v PInf = true /\ P q = true /\ (exists vals, In (q, a, vals) L /\ k_best vals k ds v) /\
       forall r vals ds' s', In (r, a, vals) L -> P r = true -> k_best vals k ds' s' -> fltb s' v = false).

  (** Not NaN and not -inf (no distance is; -inf and +inf together have no average) *)
  Definition real (x : num) : Prop := x <> NaN /\ x <> NInf.
  Definition rect (D n : nat) (vs : list (list num)) : Prop :=
    length vs = D /\ forall row, In row vs -> length row = n /\ forall x, In x row -> real x.

  (** NaN-free deliveries on D channels that fit in an h x w window *)
  Definition mfits (D h w : nat) (e : event num) : Prop :=
    match e with
    | EDiag d vs => (- Z.of_nat h < d < Z.of_nat w)%Z /\
        exists n, rect D n vs /\ Z.to_nat (- d) + n <= h /\ Z.to_nat d + n <= w
    | ECol c vs => c < w /\ exists n, rect D n vs /\ 0 < n /\ n <= h
    | EShiftS _ | EShiftQ _ => True
    end.

  Definition nonneg (e : event num) : Prop :=
    match e with
    | EDiag _ vs | ECol _ vs => forall row x, In row vs -> In x row -> fltb x (Fin nzero) = false
    | _ => True
    end.

  (** A diagonal on the same side of the main diagonal of the window and of the complete matrix, whose rows are below the
      number of series subsequences *)
  Fixpoint md_diags_ok (w : nat) (sdiff : Z) (es : list (event num)) : Prop :=
    match es with
    | [] => True
    | e :: es' =>
        (match e with
         | EDiag d vs => ((0 <= d)%Z <-> (0 <= d + sdiff)%Z) /\ Z.to_nat (- d) + length (hd [] vs) <= w
         | _ => True
         end) /\ md_diags_ok w (sdiff + event_sshift e - event_qshift e) es'
    end.

  (** [np.argsort] of a NaN-free array *)
  Definition argsorts (argsort : list num -> list nat) : Prop :=
    forall l, (forall x, In x l -> isnan x = false) -> Permutation (argsort l) (seq 0 (length l)) /\
      forall p q i j v w, p < q -> nth_error (argsort l) p = Some i -> nth_error (argsort l) q = Some j ->
        nth_error l i = Some v -> nth_error l j = Some w -> fltb w v = false.
End Multi.

(** Laws of the arithmetic: averaging is monotone, adding something not negative does not decrease. *)
Class AvgLaws (A : Type) {NA : NumOps A} := {
  avg_mono : forall k a b, nltb a b = false -> nltb (ndiv a (nofZ (Z.of_nat k + 1))) (ndiv b (nofZ (Z.of_nat k + 1))) = false;
  add_nonneg : forall a b, nltb b nzero = false -> nltb (nadd a b) a = false
}.
Arguments AvgLaws A {NA}.
