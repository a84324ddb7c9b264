(** * MOstinato: model of distancematrix/ostinato.py *)
From Coq Require Import QArith.
From Verif Require Import Np MRing MUtil MArith MStats MCache MZnorm SLog MProfile MCalc MMulti.
Set Implicit Arguments.
Open Scope nat_scope.

(** The collection is a list of one-dimensional arrays (the tests of ndim succeed). *)
Section Ostinato.
  Context {A : Type} {NA : NumOps A}.
  Notation num := (Np.num A).
  Notation zn := (@MZnorm.zn A).
  Notation zstats := (@MZnorm.zstats A).
  Variables (mem : nat -> num) (memb : nat -> bool).
  (** [np.argsort]; the order of equal keys is NumPy's choice *)
  Variable argsort : list num -> list nat.
  Variables (set_order : list nat -> list nat) (shuffle : list Z -> list Z).

  (** 11 *)
  Record cmresult := mkCm { cm_radius : num; cm_series : Z; cm_subseq : Z }.
  (** 40, 143 *)
  Definition cm_start : cmresult := mkCm PInf (-1) (-1).

  (** Python's [max(a, b)] and [a >= b] *)
  Definition pymax (a b : num) : num := if fltb a b then b else a.
  Definition pyge (a b : num) : bool := fleb b a.

  (** 33-38, 136-141 *)
  Definition check_lengths (series_list : list (list num)) (m : Z) : res unit :=
    if existsb (fun s => (Z.of_nat (length s) <? m)%Z) series_list then Err RuntimeError else Ok tt.

  (** ** find_consensus_motif *)

  (** 49-53: mean, standard deviation, non-flatness *)
  Definition series_stats (m : Z) (series : list num) : res zstats :=
    do ms <- sliding_mean_std series m;
    do mu <- rb_new mem (Some (fst ms)) None false 1;
    do sd <- rb_new mem (Some (snd ms)) None false 1;
    do nz <- rb_new memb (Some (map (fun s => fltb THRESHOLD s) (snd ms))) None false 1;
    Ok (mkZstats mu sd nz).
  (** 60-61.  The buffers of the statistics are shared by several generators; nothing is pushed to them. *)
  Definition pair_generator (m : Z) (series1 series2 : list num) (z1 z2 : zstats) : res zn :=
    do s <- rb_new mem (Some series1) None false 1;
    do q <- rb_new mem (Some series2) None false 1;
    Ok (mkZn (cache_new (Z.to_nat m) false s q) fzero z1 z2).

  (** The dictionary cached_generators *)
  Definition gendict : Type := list ((nat * nat) * zn).
  Definition same (a b : nat * nat) : bool := (fst a =? fst b) && (snd a =? snd b).
  Definition dict_get (d : gendict) (k : nat * nat) : res zn :=
    match find (fun p => same k (fst p)) d with Some p => Ok (snd p) | None => Err KeyError end.
  (** The generator behind an existing key changed *)
  Definition dict_set (d : gendict) (k : nat * nat) (g : zn) : gendict := map (fun p => if same k (fst p) then (fst p, g) else p) d.

  (** 56-62 *)
  Definition make_generators (m : Z) (series_list : list (list num)) (stats : list zstats) : res gendict :=
    foldM (fun d ij =>
      let '(i, j) := ij in
      if i =? j then Ok d
      else
        do s1 <- getitem series_list i;
        do s2 <- getitem series_list j;
        do z1 <- getitem stats i;
        do z2 <- getitem stats j;
        do g <- pair_generator m s1 s2 z1 z2;
        Ok (d ++ [((i, j), g)]))
      (list_prod (seq 0 (length series_list)) (seq 0 (length series_list))) [].

  (** [np.min(generator.calc_column(col))] of the generator with key [k] *)
  Definition column_min (k : nat * nat) (d : gendict) (col : nat) : res (gendict * num) :=
    do g <- dict_get d k;
    do r <- zn_calc_column mem g col;
    do v <- amin (snd r);
    Ok (dict_set d k (fst r), v).

  (** 70-74: the array [mp] *)
  Definition next_profile (k : nat * nat) (num_subseq : nat) (d : gendict) : res (gendict * list num) :=
    foldM (fun st col => do r <- column_min k (fst st) col; Ok (fst r, snd st ++ [snd r])) (seq 0 num_subseq) (d, []).

  (** 89-103: the loop over the other series; the result is the radius and [aborted] *)
  Fixpoint check_others (others : list nat) (s next idx : nat) (best : num) (d : gendict) (radius : num) : res (gendict * (num * bool)) :=
    match others with
    | [] => Ok (d, (radius, false))
    | o :: others =>
        if (o =? s) || (o =? next) then check_others others s next idx best d radius
        else
          do r <- column_min (s, o) d idx;
          let radius := pymax radius (snd r) in
          if pyge radius best then Ok (fst r, (radius, true))
          else check_others others s next idx best (fst r) radius
    end.

  (** 80-107: the loop over the candidates *)
  Fixpoint try_candidates (cands : list nat) (n s next : nat) (mp : list num) (d : gendict) (best : cmresult) : res (gendict * cmresult) :=
    match cands with
    | [] => Ok (d, best)
    | idx :: cands =>
        do radius <- getitem mp idx;
        if pyge radius (cm_radius best) then Ok (d, best)   (* 85-86 *)
        else
          do r <- check_others (seq 0 n) s next idx (cm_radius best) d radius;
          let '(radius, aborted) := snd r in
          let best := if negb aborted && fltb radius (cm_radius best) then mkCm radius (Z.of_nat s) (Z.of_nat idx) else best in
          try_candidates cands n s next mp (fst r) best
    end.

  (** 65-107: the body of the loop over the series *)
  Definition search_series (series_list : list (list num)) (m : Z) (st : gendict * cmresult) (s : nat) : res (gendict * cmresult) :=
    let n := length series_list in
    let next := (s + 1) mod n in
    do active <- getitem series_list s;
    do r <- next_profile (s, next) (Z.to_nat (Z.of_nat (length active) - m + 1)) (fst st);
    try_candidates (argsort (snd r)) n s next (snd r) (fst r) (snd st).

  (** 14-109 *)
  Definition find_consensus_motif (series_list : list (list num)) (m : Z) : res cmresult :=
    if length series_list <? 2 then Err RuntimeError
    else if (m <? 3)%Z then Err RuntimeError
    else
      do _ <- check_lengths series_list m;
      do stats <- mapM (series_stats m) series_list;
      do d <- make_generators m series_list stats;
      do st <- foldM (search_series series_list m) (seq 0 (length series_list)) (d, cm_start);
      Ok (snd st).

  (** ** find_consensus_motif_subset *)

  (** ZNormEuclidean() *)
  Definition znorm_prepare (m : Z) (s : list num) (q : option (list num)) : res zn := zn_prepare mem memb fzero 2 (Z.to_nat m) s q.

  (** 201-209; [intr] tells when the calculation is interrupted *)
  Definition calculate_mp (intr : nat -> bool) (m : Z) (series query : list num) : res (list num) :=
    do a <- any_new zn (@mplr A) shuffle m [series] (Some [query]) None;
    do a <- any_add_generator znorm_prepare a 0;
    do s <- add_consumer (an_calc a) [0] (fun _ q s => Ok (mplr_init (Z.to_nat q) (Z.to_nat s)));
    do a <- any_columns (zn_calc_column mem) mplr_step set_order intr (mkAny s (an_series a) (an_query a) (an_order a) (an_total a) (an_next a) (an_done a)) None (RFloat (Fin 1%Q));
    do c <- getitem (ca_cons (an_calc a)) 0;
    Ok (mplr_mp (fst c)).

  (** 151-152 *)
  Definition stream_generator (m : Z) (series : list num) : res zn :=
    do g <- zn_prepare_streaming mem memb fzero 2 (Z.to_nat m) (Z.to_nat m) (Some (length series));
    zn_append_query g series.

  (** 179-191: the loop over the remaining series ([count] iterations); the result is candidate_radii and [aborted].  The index of
      the other series does not depend on the iteration. *)
  Fixpoint check_rest (count : nat) (m : Z) (other : nat) (active : list num) (idx : nat) (best : num) (gens : list zn) (radii : list num) : res (list zn * (list num * bool)) :=
    match count with
    | 0 => Ok (gens, (radii, false))
    | S count =>
        let radii := fsort radii in
        do r0 <- getitem radii 0;
        if pyge r0 best then Ok (gens, (radii, true))
        else
          do g <- getitem gens other;
          do g <- zn_append_series g (lslice active idx (idx + Z.to_nat m));
          do r <- zn_calc_column mem g 0;
          do v <- amin (snd r);
          do gens <- setitem gens other (fst r);
          do radii <- setitem radii 0 (pymax r0 v);
          check_rest count m other active idx best gens radii
    end.

  (** 170-196: the body of the loop over the candidates *)
  Definition try_candidate (count : nat) (m : Z) (s other : nat) (active : list num) (next_mps : list (list num)) (st : list zn * cmresult) (idx : nat) : res (list zn * cmresult) :=
    let best := snd st in
    do radii <- mapM (fun row => getitem row idx) next_mps;
    do r <- check_rest count m other active idx (cm_radius best) (fst st) radii;
    let '(radii, aborted) := snd r in
    if aborted then Ok (fst r, best)
    else
      do v <- amin radii;
      Ok (fst r, if fltb v (cm_radius best) then mkCm v (Z.of_nat s) (Z.of_nat idx) else best).

  (** 155-196: the body of the loop over the series; [num_ignored] is num_ignored_series *)
  Definition subset_series (intr : nat -> nat -> nat -> bool) (series_list : list (list num)) (m : Z) (num_ignored : nat) (st : list zn * cmresult) (s : nat) : res (list zn * cmresult) :=
    let n := length series_list in
    do active <- getitem series_list s;
    do next_mps <- mapM (fun i => do next <- getitem series_list ((s + 1 + i) mod n); calculate_mp (intr s i) m active next) (seq 0 (num_ignored + 1));
    do mins <- mapM amin (axis0 next_mps);
    foldM (try_candidate (n - num_ignored - 2) m s ((s + num_ignored + 2) mod n) active next_mps) (argsort mins) st.

  (** 112-198.  [intr s i] tells when the calculation of the i-th profile of series [s] is interrupted. *)
  Definition find_consensus_motif_subset (intr : nat -> nat -> nat -> bool) (series_list : list (list num)) (m k : Z) : res cmresult :=
    let n := length series_list in
    if n <? 2 then Err RuntimeError
    else if (m <? 3)%Z then Err RuntimeError
    else if (k <? 2)%Z || (Z.of_nat n <? k)%Z then Err RuntimeError
    else
      do _ <- check_lengths series_list m;
      do gens <- mapM (stream_generator m) series_list;
      do st <- foldM (subset_series intr series_list m (Z.to_nat (Z.of_nat n - k))) (seq 0 n) (gens, cm_start);
      Ok (snd st).

  (** ** OstinatoAnytime *)

  (** The consumers: MatrixProfileLR and its subclass _MPReverse (212-220), which swaps rows and columns.  process_column is
      inherited unchanged. *)
  Inductive mpcons := Forward (c : @mplr A) | Reverse (c : @mplr A).
  Definition mp_of (c : mpcons) : list num := match c with Forward c | Reverse c => mplr_mp c end.
  Definition mpc_step (c : mpcons) (e : event num) : res mpcons :=
    match c with
    | Forward c => do c <- mplr_step c e; Ok (Forward c)
    | Reverse c =>
        do c <- mplr_step c (match e with EDiag d v => EDiag (- d)%Z v | e => e end);
        Ok (Reverse c)
    end.

  (** 246-247: self.calculators; and self.mps: for each series the positions (calculator, consumer) of its consumers *)
  Record ostinato := mkOst { os_calcs : list (any num zn mpcons); os_mps : list (list (nat * nat)) }.

  (** 251-256: the calculator for a pair of series *)
  Definition pair_calculator (m : Z) (series query : list num) : res (any num zn mpcons) :=
    do a <- any_new zn mpcons shuffle m [series] (Some [query]) None;
    do a <- any_add_generator znorm_prepare a 0;
    do s <- add_consumer (an_calc a) [0] (fun _ q s => Ok (Forward (mplr_init (Z.to_nat q) (Z.to_nat s))));
    do s <- add_consumer s [0] (fun _ q s => Ok (Reverse (mplr_init (Z.to_nat s) (Z.to_nat q))));
    Ok (mkAny s (an_series a) (an_query a) (an_order a) (an_total a) (an_next a) (an_done a)).
  (** self.mps[i].append(...) *)
  Definition append_at (mps : list (list (nat * nat))) (i : nat) (ref : nat * nat) : res (list (list (nat * nat))) :=
    do l <- getitem mps i; setitem mps i (l ++ [ref]).

  (** 237-256; the pairs of the two loops *)
  Definition series_pairs (n : nat) : list (nat * nat) := flat_map (fun i => map (fun j => (i, j)) (seq (i + 1) (n - (i + 1)))) (seq 0 n).
  Definition ost_new (series : list (list num)) (m : Z) : res ostinato :=
    foldM (fun o ij =>
      let '(i, j) := ij in
      do sj <- getitem series j;
      do si <- getitem series i;
      do a <- pair_calculator m sj si;
      let k := length (os_calcs o) in
      do mps <- append_at (os_mps o) j (k, 0);
      do mps <- append_at mps i (k, 1);
      Ok (mkOst (os_calcs o ++ [a]) mps))
      (series_pairs (length series)) (mkOst [] (repeat [] (length series))).

  (** 258-268; [intr k] tells when the calculation of the k-th calculator is interrupted *)
  Definition ost_calculate (intr : nat -> nat -> bool) (o : ostinato) (fraction : request) : res ostinato :=
    do cs <- mapM (fun p => calculate_diagonals (@zn_calc_diagonal A NA) mpc_step set_order (intr (fst p)) (snd p) fraction)
      (combine (seq 0 (length (os_calcs o))) (os_calcs o));
    Ok (mkOst cs (os_mps o)).

  (** [np.max] *)
  Definition amax (l : list num) : res num := match l with [] => Err ValueError | x :: l => Ok (fold_left fmaximum l x) end.
  (** matrix_profile() of a consumer *)
  Definition read_mp (calcs : list (any num zn mpcons)) (ref : nat * nat) : res (list num) :=
    do a <- getitem calcs (fst ref);
    do c <- getitem (ca_cons (an_calc a)) (snd ref);
    Ok (mp_of (fst c)).

  (** 270-289.  The profiles of one series have equal lengths. *)
  Definition ost_radii (o : ostinato) (k_best : option Z) : res (list (list num)) :=
    mapM (fun refs =>
      do mps <- mapM (read_mp (os_calcs o)) refs;
      match k_best with
      | None => if length mps =? 0 then Err ValueError else mapM amax (axis0 mps)
      | Some k => do _ <- pyget mps (k - 1); mapM (fun col => pyget (fsort col) (k - 1)) (axis0 mps)
      end) (os_mps o).
End Ostinato.
