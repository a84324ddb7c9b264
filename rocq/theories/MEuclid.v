(** * MEuclid: model of distancematrix/generator/euclidean.py *)
From Coq Require Import QArith.
From Verif Require Import Np MRing MUtil MArith MCache.
Set Implicit Arguments.
Open Scope nat_scope.

Section Euclid.
  Context {A : Type} {NA : NumOps A}.
  Notation num := (Np.num A).

  Definition EPSILON : num := fneg10 15.

  (** 144-179 *)
  Definition euclidean_distance_squared (series sequence : list num) : res (list num) :=
    do ws <- windows series (length sequence);
    let dist := map (fun w => fadd (fsub (fdot w w) (fmul (fofZ 2) (fdot w sequence))) (fdot sequence sequence)) ws in
    Ok (map (fun d => if fltb d EPSILON then fzero else d) dist).

  (** np.square(a - b) *)
  Definition sq_diff (a b : num) : num := fsquare (fsub a b).

  Variable mem : nat -> num.

  (** 32-42; the constructor (20-30) rejects scaling factors below 1 *)
  Definition eu_prepare_streaming (sf : Q) (m : nat) (series_window : nat) (query_window : option nat) : res (@cache A) :=
    if negb (Qle_bool 1 sf) then Err ValueError
    else
      do series <- rb_new mem None (Some series_window) true sf;
      match query_window with
      | Some qw => do query <- rb_new mem None (Some qw) true sf; Ok (cache_new m false series query)
      | None => Ok (cache_new m true series series)
      end.

  (** 44-57 (one-dimensional arrays) *)
  Definition eu_prepare (sf : Q) (m : nat) (series : list num) (query : option (list num)) : res (@cache A) :=
    if negb (Qle_bool 1 sf) then Err ValueError
    else
      do s <- rb_new mem (Some series) None true 1;
      match query with
      | Some q => do q <- rb_new mem (Some q) None true 1; Ok (cache_new m false s q)
      | None => Ok (cache_new m true s s)
      end.

  (** 72-86 *)
  Definition eu_append_series (g : cache) (values : list num) : res cache :=
    if length values =? 0 then Ok g else cache_append_s g values.

  (** 88-97 *)
  Definition eu_append_query (g : cache) (values : list num) : res cache :=
    if ch_self g then Err RuntimeError
    else if length values =? 0 then Ok g else cache_append_q g values.

  (** 99-114.  [cumsum] has [dl + 1] entries and starts with 0. *)
  Definition eu_calc_diagonal (g : cache) (diag : Z) : res (cache * list num) :=
    let query := rb_view (ch_query g) in
    let series := rb_view (ch_series g) in
    let dl := diag_length (Z.of_nat (length query)) (Z.of_nat (length series)) diag in
    do sq <- (if (0 <=? diag)%Z
              then bop sq_diff (slice query 0 dl) (slice series diag (diag + dl))
              else bop sq_diff (slice query (- diag) (- diag + dl)) (slice series 0 dl));
    let cs := fzero :: cumsum sq in
    let n := Z.of_nat (length cs) in
    do d <- bop fsub (slice cs (Z.of_nat (ch_m g)) n) (slice cs 0 (n - Z.of_nat (ch_m g)));
    Ok (g, map froot d).

  (** 116-141 *)
  Definition eu_calc_column (g : cache) (column : nat) : res (cache * list num) :=
    do r <- cache_col euclidean_distance_squared sq_diff mem g column;
    Ok (fst r, map froot (snd r)).
End Euclid.
