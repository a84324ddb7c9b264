(** * ConfFloat: running the generators in binary64 against the brute force of the unit tests

    The tests compare with distances calculated one by one ([eu_brute], [zn_brute]), with a tolerance.  Decimal numbers are the nearest
    double precision numbers.  Sums go from left to right. *)
From Coq Require Import QArith Floats.SpecFloat.
From Verif Require Import Np Mat MRing MUtil MArith MStats MCache MEuclid MZnorm InstF.
Open Scope nat_scope.

Notation N := (num f64).
(** [npt.assert_allclose(actual, desired, rtol, atol)]: |actual - desired| <= atol + rtol * |desired|.  The tests give the distances in
    either order. *)
Definition fabs (x : N) : N := if fltb x fzero then fsub fzero x else x.
Definition close (rtol atol actual desired : N) : bool :=
  plain actual && plain desired && fleb (fabs (fsub actual desired)) (fadd atol (fmul rtol (fabs desired))).
Fixpoint all2 {T U} (e : T -> U -> bool) (a : list T) (b : list U) : bool :=
  match a, b with [], [] => true | x :: a, y :: b => e x y && all2 e a b | _, _ => false end.
Definition allclose (atol : N) : list N -> list N -> bool := all2 (close (Dec 1 7) atol).

(** A matrix of distances, calculated one by one from the subsequences, prepared by [pre] *)
Definition brute {T} (pre : list N -> T) (dist : T -> T -> N) (m : nat) (series query : list N) : mat N :=
  let cut l := map (fun r => pre (lslice l r (r + m))) (seq 0 (length l + 1 - m)) in
  let ss := cut series in
  map (fun q => map (dist q) ss) (cut query).
Definition minus (a b : list N) : list N := map (fun p => fsub (fst p) (snd p)) (combine a b).
Definition eu_brute : nat -> list N -> list N -> mat N := brute (fun l => l) (fun a b => froot (fsum (map fsquare (minus a b)))).
(** [_znorm], and the standard deviation *)
Definition znormalise (a : list N) : list N * N :=
  let s := np_std a in
  let std := if fltb s (Dec 1 6) then F 1 else s in
  let mu := np_mean a in
  (map (fun x => fdiv (fsub x mu) std) a, s).
Definition zn_brute (noise : N) (m : nat) : list N -> list N -> mat N :=
  brute znormalise (fun a b =>
    let sq := fsum (map fsquare (minus (fst a) (fst b))) in
    let s := snd a in
    let t := snd b in
    froot (if negb (feqb noise fzero) && negb (feqb s fzero && feqb t fzero)
           then fmaximum (fsub sq (fdiv (fmul (F (2 * (Z.of_nat m + 1))) (fsquare noise)) (fsquare (fmaximum s t)))) fzero
           else sq)) m.

(** The operations of a generator, and a test as a list of operations *)
Record gen := mkGen { g_t : Type; g_dg : g_t -> Z -> res (g_t * list N); g_cl : g_t -> nat -> res (g_t * list N);
  g_as : g_t -> list N -> res g_t; g_aq : g_t -> list N -> res g_t;
  g_prep : nat -> list N -> option (list N) -> res g_t; g_str : nat -> nat -> option nat -> res g_t;
  g_brute : nat -> list N -> list N -> mat N; g_atol : N }.
Inductive op :=
  | Series (v : list N) | Query (v : list N)
  | Diagonals (s q : list N)                    (* _verify_diagonals_correct *)
  | Columns (s q : list N) (backwards : bool)   (* _verify_columns_correct *)
  | Column (c : nat) (s q : list N) (k : nat).  (* the column [c] is column [k] of the matrix, with the default tolerance *)
Definition ok (b : bool) {T} (x : T) : res T := if b then Ok x else Err RuntimeError.
Definition mat_diag (mx : mat N) (d : Z) : list N :=
  flat_map (fun r => let c := (Z.of_nat r + d)%Z in if (0 <=? c)%Z then match nth_error (nth r mx []) (Z.to_nat c) with Some x => [x] | None => [] end else []) (seq 0 (length mx)).
Definition mat_col (mx : mat N) (c : nat) : list N := map (fun r => nth c r NaN) mx.
Definition op_run (G : gen) (m : nat) (g : g_t G) (o : op) : res (g_t G) :=
  match o with
  | Series v => g_as G g v
  | Query v => g_aq G g v
  | Diagonals s q =>
      let mx := g_brute G m s q in
      let h := Z.of_nat (length q + 1 - m) in
      foldM (fun g i => do r <- g_dg G g i; ok (allclose (g_atol G) (snd r) (mat_diag mx i)) (fst r)) (pyrange (- h + 1) (Z.of_nat (length s + 1 - m))) g
  | Columns s q backwards =>
      let mx := g_brute G m s q in
      let idx := seq 0 (length s + 1 - m) in
      foldM (fun g i => do r <- g_cl G g i; ok (allclose (g_atol G) (snd r) (mat_col mx i)) (fst r)) (if backwards then rev idx else idx) g
  | Column c s q k => do r <- g_cl G g c; ok (allclose fzero (mat_col (g_brute G m s q) k) (snd r)) (fst r)
  end.
Definition passes (G : gen) (m : nat) (start : res (g_t G)) (l : list op) : bool :=
  match (do g <- start; foldM (op_run G m) l g) with Ok _ => true | Err _ => false end.

Definition mem (_ : nat) : N := NaN.
Definition memb (_ : nat) : bool := true.
Definition Eu : gen := mkGen (@cache f64) (eu_calc_diagonal (A := f64)) (eu_calc_column mem) (eu_append_series (A := f64)) (eu_append_query (A := f64))
  (eu_prepare mem 2%Q) (eu_prepare_streaming mem 2%Q) eu_brute fzero.
Definition Zn (noise : N) : gen := mkGen (@zn f64) (zn_calc_diagonal (A := f64)) (zn_calc_column mem) (zn_append_series (A := f64)) (zn_append_query (A := f64))
  (zn_prepare mem memb noise 2%Q) (zn_prepare_streaming mem memb noise 2%Q) (zn_brute noise) (Dec 1 10).
