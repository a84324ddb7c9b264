(** * MZnorm: model of distancematrix/generator/znorm_euclidean.py *)
From Coq Require Import QArith.
From Verif Require Import Np MRing MUtil MArith MStats MCache.
Set Implicit Arguments.
Open Scope nat_scope.

Section ZNorm.
  Context {A : Type} {NA : NumOps A}.
  Notation num := (Np.num A).

  (** 10-12 *)
  Definition EPS : num := fneg10 12.
  Definition THRESHOLD : num := fneg10 6.

  (** [scipy.signal.convolve(a, b, 'valid')] of one-dimensional arrays: the inputs are swapped if the first is shorter; empty
      inputs are rejected.  The choice between the direct and the FFT method only affects rounding. *)
  Definition convolve_valid (a b : list num) : res (list num) :=
    let volume := if length a <? length b then b else a in
    let kernel := if length a <? length b then a else b in
    if length kernel =? 0 then Err ValueError
    else Ok (map (fun i => fdot (firstn (length kernel) (skipn i volume)) (rev kernel)) (seq 0 (length volume - length kernel + 1))).
  (** 253, 258, 265: the dot products of [subseq] with every window of [points] *)
  Definition dot_products (points subseq : list num) : res (list num) := convolve_valid points (rev subseq).

  (** Mean, standard deviation and non-flatness of the subsequences in a window *)
  Record zstats := mkZstats { zs_mu : rb num; zs_std : rb num; zs_nz : rb bool }.

  (** 118-151.  In a self-join the statistics of the query are those of the series (the same objects). *)
  Record zn := mkZn { zn_c : @cache A; zn_noise : num; zn_s : zstats; zn_q : zstats }.
  Definition zn_qstats (g : zn) : zstats := if ch_self (zn_c g) then zn_s g else zn_q g.

  Variable mem : nat -> num.
  Variable memb : nat -> bool.

  (** 64-67, 70-73 / 88-92, 95-99: the buffers for [n] subsequences *)
  Definition zstats_new (sf : Q) (n : nat) : res zstats :=
    do mu <- rb_new mem None (Some n) true sf;
    do sd <- rb_new mem None (Some n) true sf;
    do nz <- rb_new memb None (Some n) true sf;
    Ok (mkZstats mu sd nz).

  (** The constructor, 36-52 *)
  Definition zn_config (noise : num) (sf : Q) : res unit :=
    if fltb noise fzero then Err ValueError else if negb (Qle_bool 1 sf) then Err ValueError else Ok tt.

  (** 54-80, with the scaling factor given.  [m] is at most the windows (otherwise the number of subsequences is negative). *)
  Definition zn_empty (noise : num) (sf : Q) (m W : nat) (Wq : option nat) : res zn :=
    do series <- rb_new mem None (Some W) true sf;
    do zs <- zstats_new sf (W + 1 - m);
    match Wq with
    | Some qw =>
        do query <- rb_new mem None (Some qw) true sf;
        do zq <- zstats_new sf (qw + 1 - m);
        Ok (mkZn (cache_new m false series query) noise zs zq)
    | None => Ok (mkZn (cache_new m true series series) noise zs zs)
    end.
  Definition zn_prepare_streaming (noise : num) (sf : Q) (m W : nat) (Wq : option nat) : res zn :=
    do _ <- zn_config noise sf; zn_empty noise sf m W Wq.

  (** 160-165 / 186-191: statistics of the new subsequences of the window [view] after [n] points were added *)
  Definition zstats_append (m : nat) (view : list num) (n : nat) (z : zstats) : res zstats :=
    if m <=? length view then
      do ms <- sliding_mean_std (slice_from view (- (Z.of_nat n + Z.of_nat m - 1))) (Z.of_nat m);
      do mu <- rb_push (zs_mu z) (fst ms);
      do sd <- rb_push (zs_std z) (snd ms);
      do nz <- rb_push (zs_nz z) (map (fun s => fltb THRESHOLD s) (snd ms));
      Ok (mkZstats (fst mu) (fst sd) (fst nz))
    else Ok z.

  (** 152-173 *)
  Definition zn_append_series (g : zn) (values : list num) : res zn :=
    if length values =? 0 then Ok g
    else
      do c <- cache_append_s (zn_c g) values;
      do zs <- zstats_append (ch_m c) (rb_view (ch_series c)) (length values) (zn_s g);
      Ok (mkZn c (zn_noise g) zs (zn_q g)).

  (** 175-191 *)
  Definition zn_append_query (g : zn) (values : list num) : res zn :=
    if ch_self (zn_c g) then Err RuntimeError
    else if length values =? 0 then Ok g
    else
      do c <- cache_append_q (zn_c g) values;
      do zq <- zstats_append (ch_m c) (rb_view (ch_qbuf c)) (length values) (zn_q g);
      Ok (mkZn c (zn_noise g) (zn_s g) zq).

  (** 82-115 (one-dimensional arrays) *)
  Definition zn_prepare (noise : num) (sf : Q) (m : nat) (series : list num) (query : option (list num)) : res zn :=
    do _ <- zn_config noise sf;
    do g <- zn_empty noise 1 m (length series) (option_map (@length num) query);
    do g <- zn_append_series g series;
    match query with Some q => zn_append_query g q | None => Ok g end.

  (** Formula for two subsequences that are not flat: 231-232, 283-284, 332 *)
  Definition formula (m dot mean_q mean_s std_q std_s : num) : num :=
    fmul (fofZ 2) (fsub m (fdiv (fsub dot (fmul (fmul m mean_q) mean_s)) (fmul std_q std_s))).
  (** Noise correction: 237-238, 299-300, 335 *)
  Definition correction (m noise a b : num) : num :=
    fdiv (fmul (fmul (fofZ 2) (fadd m (fofZ 1))) (fsquare noise)) (fsquare (fmaximum a b)).

  (** The statistics of one subsequence *)
  Definition stat : Type := num * num * bool.
  Definition stats_of (n : nat) (mu sd : list num) (nz : list bool) : res (list stat) :=
    if (length mu =? n) && (length sd =? n) && (length nz =? n) then Ok (combine (combine mu sd) nz) else Err IndexError.

  (** 220-245, for one cell: the masks are element-wise conditions *)
  Definition diag_cell (m noise dot : num) (q s : stat) : num :=
    let '(mean_q, std_q, nz_q) := q in
    let '(mean_s, std_s, nz_s) := s in
    let d := if xorb nz_q nz_s then m else fzero in
    let d := if nz_q && nz_s then formula m dot mean_q mean_s std_q std_s else d in
    let d := if negb (feqb noise fzero) then
               if nz_q || nz_s then fsub d (correction m noise std_s std_q) else d
             else d in
    froot (if fltb d EPS then fzero else d).

  (** 193-245 *)
  Definition zn_calc_diagonal (g : zn) (diag : Z) : res (zn * list num) :=
    let query := rb_view (ch_query (zn_c g)) in
    let series := rb_view (ch_series (zn_c g)) in
    let m := Z.of_nat (ch_m (zn_c g)) in
    let dl := diag_length (Z.of_nat (length query)) (Z.of_nat (length series)) diag in
    let dlr := (dl - m + 1)%Z in
    if (dlr <? 0)%Z then Err ValueError   (* np.zeros of a negative length *)
    else
      do prods <- (if (0 <=? diag)%Z
                   then bop fmul (slice query 0 dl) (slice series diag (diag + dl))
                   else bop fmul (slice query (- diag) (- diag + dl)) (slice series 0 dl));
      let cs := fzero :: cumsum prods in
      let q0 := if (0 <=? diag)%Z then 0%Z else (- diag)%Z in
      let s0 := if (0 <=? diag)%Z then diag else 0%Z in
      let cut {T} (b : rb T) (o : Z) := slice (rb_view b) o (o + dlr) in
      let zq := zn_qstats g in
      let zs := zn_s g in
      do dot_prod <- bop fsub (slice cs m (Z.of_nat (length cs))) (slice cs 0 dlr);
      do sq <- stats_of (Z.to_nat dlr) (cut (zs_mu zq) q0) (cut (zs_std zq) q0) (cut (zs_nz zq) q0);
      do ss <- stats_of (Z.to_nat dlr) (cut (zs_mu zs) s0) (cut (zs_std zs) s0) (cut (zs_nz zs) s0);
      if length dot_prod =? Z.to_nat dlr
      then Ok (g, zip_with (fun dot p => diag_cell (fofZ m) (zn_noise g) dot (fst p) (snd p)) dot_prod (combine sq ss))
      else Err IndexError.

  (** 277-307, for one row *)
  Definition col_cell (m noise : num) (s : stat) (dot : num) (q : stat) : num :=
    let '(mean_q, std_q, nz_q) := q in
    let '(mean_s, std_s, nz_s) := s in
    let d := if nz_s then if nz_q then formula m dot mean_q mean_s std_q std_s else m
             else if nz_q then m else fzero in
    let d := if negb (feqb noise fzero) then
               if nz_s || nz_q then fsub d (correction m noise std_s std_q) else d
             else d in
    froot (if fltb d EPS then fzero else d).

  (** 247-307 *)
  Definition zn_calc_column (g : zn) (column : nat) : res (zn * list num) :=
    let query := rb_view (ch_query (zn_c g)) in
    let m := ch_m (zn_c g) in
    if length query + 1 <? m then Err ValueError   (* np.zeros of a negative length *)
    else
      do r <- cache_col dot_products fmul mem (zn_c g) column;
      let n := length query + 1 - m in
      let zq := zn_qstats g in
      do mean_s <- getitem (rb_view (zs_mu (zn_s g))) column;
      do std_s <- getitem (rb_view (zs_std (zn_s g))) column;
      do nz_s <- getitem (rb_view (zs_nz (zn_s g))) column;
      do sq <- stats_of n (rb_view (zs_mu zq)) (rb_view (zs_std zq)) (rb_view (zs_nz zq));
      if length (snd r) =? n
      then Ok (mkZn (fst r) (zn_noise g) (zn_s g) (zn_q g),
               zip_with (col_cell (fofZ (Z.of_nat m)) (zn_noise g) (mean_s, std_s, nz_s)) (snd r) sq)
      else Err IndexError.

  (** 309-340.  [dot_prod = None] is Python's None; zero also counts as absent. *)
  Definition zn_calc_single (g : zn) (row column : nat) (dot_prod : option num) : res num :=
    let query := rb_view (ch_query (zn_c g)) in
    let series := rb_view (ch_series (zn_c g)) in
    let zq := zn_qstats g in
    let zs := zn_s g in
    let m := ch_m (zn_c g) in
    let M := fofZ (Z.of_nat m) in
    do std_q <- getitem (rb_view (zs_std zq)) row;
    do std_s <- getitem (rb_view (zs_std zs)) column;
    if fleb std_q THRESHOLD && fleb std_s THRESHOLD then Ok fzero
    else
      do d <- (if fleb std_q THRESHOLD || fleb std_s THRESHOLD then Ok M
               else
                 let absent := match dot_prod with None => true | Some d => feqb d fzero end in
                 do dot <- (if absent then
                              do p <- bop fmul (lslice query row (row + m)) (lslice series column (column + m)); Ok (fsum p)
                            else match dot_prod with Some d => Ok d | None => Err RuntimeError end);
                 do mean_q <- getitem (rb_view (zs_mu zq)) row;
                 do mean_s <- getitem (rb_view (zs_mu zs)) column;
                 Ok (formula M dot mean_q mean_s std_q std_s));
      let d := if negb (feqb (zn_noise g) fzero) then fsub d (correction M (zn_noise g) std_s std_q) else d in
      Ok (if fltb d EPS then fzero else froot d).
End ZNorm.
