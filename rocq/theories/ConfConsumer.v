(** * ConfConsumer: the unit tests of distancematrix/tests/consumer, on the model

    The tests that count the random choices of MatrixProfileLRReservoir(random_seed=0) are left out: they depend on
    NumPy's generator.  Its other tests are here, for the first and for the last choice at every draw. *)
From Coq Require Import QArith.
From Verif Require Import Np Mat MUtil MInsights MRing MDist MProfile MRand MReservoir MCounters MContext MMulti SLog Inst PropContext PropMulti ConfData.
Open Scope nat_scope.

Notation N := (Np.num Z).
Definition fm (m : mat Z) : mat N := map (map Fz) m.
Definition at_ (m : mat N) (r c : Z) : N := match mgetz m r c with Ok x => x | Err _ => NaN end.
Definition hgt {T} (m : mat T) : Z := Z.of_nat (length m).
Definition wid {T} (m : mat T) : Z := Z.of_nat (ncols m).
(** [m[r0:r1, c0:c1]] *)
Definition sub {T} (m : mat T) (r0 r1 c0 c1 : Z) : mat T := map (fun r => slice r c0 c1) (slice m r0 r1).
(** the cells of a diagonal *)
Definition on_diag (m : mat N) (d : Z) : list N :=
  flat_map (fun r => let c := (r + d)%Z in if (0 <=? c)%Z && (c <? wid m)%Z then [at_ m r c] else []) (pyrange 0 (hgt m)).
Definition on_col (m : mat N) (c : Z) : list N := map (fun r => at_ m r c) (pyrange 0 (hgt m)).
(** [m] with some cells replaced *)
Definition where_m (m : mat N) (p : Z -> Z -> bool) (x : N) : mat N :=
  map (fun r => map (fun c => if p r c then x else at_ m r c) (pyrange 0 (wid m))) (pyrange 0 (hgt m)).
Definition diags (m : mat N) (ds : list Z) : list (event N) := map (fun d => EDiag d [on_diag m d]) ds.
Definition cols (m : mat N) (cs : list Z) : list (event N) := map (fun c => ECol (Z.to_nat c) [on_col m c]) cs.
Definition all_diags {T} (m : mat T) : list Z := pyrange (1 - hgt m) (wid m).
Definition all_cols {T} (m : mat T) : list Z := pyrange 0 (wid m).
Definition step_by (a b s : Z) : list Z := filter (fun z => ((z - a) mod s =? 0)%Z) (pyrange a b).
Definition inl (l : list Z) (z : Z) : bool := existsb (Z.eqb z) l.

Definition dm : mat N := fm dm_1.

(** ** test_distance_matrix.py *)
Definition dm_test (h w : nat) (es : list (event N)) : res (mat N) := do s <- dm_init 1 h w; dm_run s es.

Example test_dm_process_diagonal : dm_test 10 15 (diags dm (all_diags dm)) = Ok dm.
Proof. vm_compute; reflexivity. Qed.
Example test_dm_process_diagonal_partial :
  let ds := step_by (-8) 15 3 in dm_test 10 15 (diags dm ds) = Ok (where_m dm (fun r c => negb (inl ds (c - r)%Z)) NaN).
Proof. vm_compute; reflexivity. Qed.
Example test_dm_process_column : dm_test 10 15 (cols dm (all_cols dm)) = Ok dm.
Proof. vm_compute; reflexivity. Qed.
Example test_dm_process_column_partial :
  let cs := [2; 3; 4; 5; 10; 11; 12]%Z in dm_test 10 15 (cols dm cs) = Ok (where_m dm (fun r c => negb (inl cs c)) NaN).
Proof. vm_compute; reflexivity. Qed.

(** test_streaming_process_column *)
Definition step1 : list (event N) := cols (sub dm 0 5 0 5) (pyrange 0 5).
Definition step2 : list (event N) := step1 ++ [EShiftQ 1; EShiftS 3].
Definition step3 : list (event N) := step2 ++ cols (sub dm 1 6 3 8) (pyrange 0 5).
Definition step4 : list (event N) := step3 ++ [EShiftQ 2; EShiftS 1; ECol 4 [on_col (sub dm 3 8 4 9) 4]].
Example test_dm_streaming_process_column :
  dm_test 5 5 [ECol 0 [[at_ dm 0 0]]; ECol 1 [slice (on_col dm 1) 0 2]] =
    Ok (where_m (sub dm 0 5 0 5) (fun r c => negb (((r =? 0) && (c =? 0)) || ((r <? 2) && (c =? 1)))%Z) NaN) /\
  dm_test 5 5 step1 = Ok (sub dm 0 5 0 5) /\
  dm_test 5 5 step2 = Ok (where_m (sub dm 1 6 3 8) (fun r c => (3 <? r) || (1 <? c))%Z NaN) /\
  dm_test 5 5 step3 = Ok (sub dm 1 6 3 8) /\
  dm_test 5 5 step4 = Ok (where_m (sub dm 3 8 4 9) (fun r c => (2 <? r) && negb (c =? 4))%Z NaN).
Proof. repeat split; vm_compute; reflexivity. Qed.

Definition dstep1 : list (event N) := diags (sub dm 0 5 0 5) (pyrange (-4) 5).
Definition dstep2 : list (event N) := dstep1 ++ [EShiftQ 2; EShiftS 1].
Example test_dm_streaming_process_diagonal :
  dm_test 5 5 [EDiag 0 [[at_ dm 0 0]]; EDiag 1 [[at_ dm 0 1; at_ dm 1 2]]] =
    Ok (where_m (sub dm 0 5 0 5) (fun r c => negb (((r =? 0) && (c =? 0)) || ((r =? 0) && (c =? 1)) || ((r =? 1) && (c =? 2)))%Z) NaN) /\
  dm_test 5 5 dstep1 = Ok (sub dm 0 5 0 5) /\
  dm_test 5 5 dstep2 = Ok (where_m (sub dm 2 7 1 6) (fun r c => (2 <? r) || (3 <? c))%Z NaN) /\
  dm_test 5 5 (dstep2 ++ dstep1) = Ok (sub dm 0 5 0 5).
Proof. repeat split; vm_compute; reflexivity. Qed.

(** ** test_matrix_profile_lr.py *)
(** [brute_force_mp]: smallest number of every column that is not NaN, and its first row when it is finite *)
Definition brute_mp (m : mat N) : list N * list Z :=
  let best c := fold_left (fun (b : N * Z) r => if fltb (at_ m r c) (fst b) then (at_ m r c, r) else b) (pyrange 0 (hgt m)) (PInf, (-1)%Z) in
  split (map best (all_cols m)).
(** [fill_diagonals(dm, range(a, b), inf)] *)
Definition fill_diags (m : mat N) (a b : Z) : mat N := where_m m (fun r c => (a <=? c - r) && (c - r <? b))%Z PInf.
Definition mp_all : list (list N * list Z) := [brute_mp (fill_diags dm (-14) 0); brute_mp (fill_diags dm 0 15); brute_mp dm].

Definition mplr_test (es : list (event N)) : res (list (list N * list Z)) :=
  do s <- mplr_run (mplr_init 10 15) es;
  Ok [(mp_left s, mp_ileft s); (mp_right s, mp_iright s); (mplr_mp s, mplr_idx s)].
Example test_mplr_process_diagonal : mplr_test (diags dm (all_diags dm)) = Ok mp_all.
Proof. vm_compute; reflexivity. Qed.
Example test_mplr_process_column : mplr_test (cols dm (all_cols dm)) = Ok mp_all.
Proof. vm_compute; reflexivity. Qed.

Definition no_memn (i : nat) : N := Fz 777.
Definition no_memz (i : nat) : Z := 777%Z.
Definition smp_test (h w : nat) (es : list (event N)) : res (list (list N * list Z)) :=
  do s0 <- smp_init no_memn no_memz 2 h w; do s <- smp_run s0 es;
  Ok [(rb_view (s_left s), rb_view (s_ileft s)); (rb_view (s_right s), rb_view (s_iright s)); (smp_mp s, smp_idx s)].
Example test_smp_process_diagonal : smp_test 10 15 (diags dm (all_diags dm)) = Ok mp_all.
Proof. vm_compute; reflexivity. Qed.
Example test_smp_process_column : smp_test 10 15 (cols dm (all_cols dm)) = Ok mp_all.
Proof. vm_compute; reflexivity. Qed.

(** The first ([b = true]) or the last choice at every draw *)
Fixpoint choose {X} (b : bool) (t : rnd X) : res X :=
  match t with
  | Ret x => Ok x
  | Fail e => Err e
  | Flip _ _ k => choose b (k b)
  | Pick n k => if n =? 0 then Err ValueError else choose b (k (if b then 0 else n - 1))
  end.
Definition mrs_test (b : bool) (es : list (event N)) : res (list (list N * list Z)) :=
  do s <- choose b (mrs_run (mrs_init 10 15) es); do i <- choose b (mrs_idx s);
  Ok [(r_left s, r_ileft s); (r_right s, r_iright s); (mrs_mp s, i)].
Example test_mrs_process_diagonal : mrs_test true (diags dm (all_diags dm)) = Ok mp_all /\ mrs_test false (diags dm (all_diags dm)) = Ok mp_all.
Proof. split; vm_compute; reflexivity. Qed.
Example test_mrs_process_column : mrs_test true (cols dm (all_cols dm)) = Ok mp_all /\ mrs_test false (cols dm (all_cols dm)) = Ok mp_all.
Proof. split; vm_compute; reflexivity. Qed.

(** Expected values: numbers, with [inf] *)
Definition inf : Z := 1000000%Z.
Definition e_ (l : list Z) : list N := map (fun z => if (z =? inf)%Z then PInf else Fz z) l.
Definition mp3 (l : list Z) (il : list Z) (r : list Z) (ir : list Z) (m : list Z) (im : list Z) : res (list (list N * list Z)) :=
  Ok [(e_ l, il); (e_ r, ir); (e_ m, im)].
Definition c4 (m : mat N) (k c : Z) : event N := ECol (Z.to_nat k) [on_col m c].

Definition sm1 : mat N := fm [[2; 2; 3; 1; -1; -5]; [4; 1; 2; 4; -2; -6]; [1; 3; 4; 2; -3; -7]; [3; 4; 1; 3; -4; 0]]%Z.
Definition s1_1 := [c4 sm1 0 0; c4 sm1 1 1].
Definition s1_2 := s1_1 ++ [EShiftS 1].
Definition s1_3 := s1_2 ++ [c4 sm1 1 2].
Definition s1_4 := s1_3 ++ [EShiftS 1; c4 sm1 1 3].
Definition s1_5 := s1_4 ++ [c4 sm1 2 4; c4 sm1 3 5].
Example test_calculate_columns_with_series_shifting :
  (smp_test 4 4 s1_1 = mp3 [2; 1; inf; inf] [0; 1; -1; -1] [1; 3; inf; inf] [2; 2; -1; -1] [1; 1; inf; inf] [2; 1; -1; -1] /\
  smp_test 4 4 s1_2 = mp3 [1; inf; inf; inf] [1; -1; -1; -1] [3; inf; inf; inf] [2; -1; -1; -1] [1; inf; inf; inf] [1; -1; -1; -1] /\
  smp_test 4 4 s1_3 = mp3 [1; 2; inf; inf] [1; 1; -1; -1] [3; 1; inf; inf] [2; 3; -1; -1] [1; 1; inf; inf] [1; 3; -1; -1] /\
  smp_test 4 4 s1_4 = mp3 [2; 1; inf; inf] [1; 0; -1; -1] [1; inf; inf; inf] [3; -1; -1; -1] [1; 1; inf; inf] [3; 0; -1; -1] /\
  smp_test 4 4 s1_5 = mp3 [2; 1; -4; -7] [1; 0; 3; 2] [1; inf; inf; inf] [3; -1; -1; -1] [1; 1; -4; -7] [3; 0; 3; 2])%Z.
Proof. repeat split; vm_compute; reflexivity. Qed.

Definition nan : Z := 2000000%Z.
Definition fmn (m : mat Z) : mat N := map (map (fun z => if (z =? nan)%Z then NaN else Fz z)) m.
Definition sm2 : mat N := fmn [[2; 2; 3; 1; nan; nan]; [4; 1; 2; 4; nan; nan]; [1; 3; 4; 2; -1; -5]; [3; 4; 1; 3; -2; -6];
  [nan; nan; nan; 8; -3; -7]; [nan; nan; nan; 7; -4; 0]]%Z.
Definition s2_1 := cols (sub sm2 0 4 0 4) (pyrange 0 4).
Definition s2_2 := s2_1 ++ [EShiftQ 2; EShiftS 2].
Definition s2_3 := s2_2 ++ map (fun k => c4 (sub sm2 2 6 2 6) k k) [1; 2; 3]%Z.
Example test_calculate_columns_with_series_and_query_shifting :
  (smp_test 4 4 s2_1 = mp3 [2; 1; 2; 1] [0; 1; 1; 0] [1; 3; 1; inf] [2; 2; 3; -1] [1; 1; 1; 1] [2; 1; 3; 0] /\
  smp_test 4 4 s2_2 = mp3 [2; 1; inf; inf] [1; 0; -1; -1] [1; inf; inf; inf] [3; -1; -1; -1] [1; 1; inf; inf] [3; 0; -1; -1] /\
  smp_test 4 4 s2_3 = mp3 [2; 1; -3; -7] [1; 0; 4; 4] [1; 7; -4; inf] [3; 5; 5; -1] [1; 1; -4; -7] [3; 0; 5; 4])%Z.
Proof. repeat split; vm_compute; reflexivity. Qed.

Definition sm3 : mat N := fm [[2; 1]; [0; 2]; [1; 3]; [3; 4]; [4; 0]; [2; 9]]%Z.
Definition s3_1 := cols (sub sm3 0 4 0 2) (pyrange 0 2).
Definition s3_2 := s3_1 ++ [EShiftQ 1].
Definition s3_3 := s3_2 ++ cols (sub sm3 1 5 0 2) (pyrange 0 2).
Definition s3_4 := s3_3 ++ EShiftQ 1 :: cols (sub sm3 2 6 0 2) (pyrange 0 2).
Example test_calculate_columns_with_query_shifting :
  (smp_test 4 2 s3_1 = mp3 [2; 1] [0; 0] [0; 3] [1; 2] [0; 1] [1; 0] /\
  smp_test 4 2 s3_2 = mp3 [2; 1] [0; 0] [0; 3] [1; 2] [0; 1] [1; 0] /\
  smp_test 4 2 s3_3 = mp3 [2; 1] [0; 0] [0; 0] [1; 4] [0; 0] [1; 4] /\
  smp_test 4 2 s3_4 = mp3 [2; 1] [0; 0] [0; 0] [1; 4] [0; 0] [1; 4])%Z.
Proof. repeat split; vm_compute; reflexivity. Qed.

Definition s4_1 := diags (sub sm1 0 4 0 4) [-3; -2; -1; 1; 2; 3]%Z.
Definition s4_2 := s4_1 ++ EShiftS 1 :: diags (sub sm1 0 4 1 5) [-1]%Z.
Definition s4_3 := s4_2 ++ [EShiftS 1].
Definition s4_4 := s4_3 ++ diags (sub sm1 0 4 2 6) [-1; 0; 1; 2; 3]%Z.
Example test_calculate_diagonals_with_series_shifting :
  (smp_test 4 4 s4_1 = mp3 [inf; 2; 2; 1] [-1; 0; 1; 0] [1; 3; 1; inf] [2; 2; 3; -1] [1; 2; 1; 1] [2; 0; 3; 0] /\
  smp_test 4 4 s4_2 = mp3 [1; 2; 1; inf] [1; 1; 0; -1] [3; 1; inf; inf] [2; 3; -1; -1] [1; 1; 1; inf] [1; 3; 0; -1] /\
  smp_test 4 4 s4_3 = mp3 [2; 1; inf; inf] [1; 0; -1; -1] [1; inf; inf; inf] [3; -1; -1; -1] [1; 1; inf; inf] [3; 0; -1; -1] /\
  smp_test 4 4 s4_4 = mp3 [2; 1; -4; -7] [1; 0; 3; 2] [1; inf; inf; inf] [3; -1; -1; -1] [1; 1; -4; -7] [3; 0; 3; 2])%Z.
Proof. repeat split; vm_compute; reflexivity. Qed.

Definition sm5 : mat N := fmn [[2; 2; 3; 1; nan; nan]; [4; 1; 2; 4; nan; nan]; [1; 3; 4; 2; -1; -5]; [3; 4; 1; 3; -2; -6];
  [nan; nan; nan; -1; -3; -7]; [nan; nan; nan; nan; -4; 0]]%Z.
Definition s5_1 := diags (sub sm5 0 4 0 4) (pyrange (-3) 4).
Definition s5_2 := s5_1 ++ [EShiftQ 2; EShiftS 2].
Definition s5_3 := s5_2 ++ diags (sub sm5 2 6 2 6) (pyrange (-1) 4).
Example test_calculate_diagonals_with_series_and_query_shifting :
  (smp_test 4 4 s5_1 = mp3 [2; 1; 2; 1] [0; 1; 1; 0] [1; 3; 1; inf] [2; 2; 3; -1] [1; 1; 1; 1] [2; 1; 3; 0] /\
  smp_test 4 4 s5_2 = mp3 [2; 1; inf; inf] [1; 0; -1; -1] [1; inf; inf; inf] [3; -1; -1; -1] [1; 1; inf; inf] [3; 0; -1; -1] /\
  smp_test 4 4 s5_3 = mp3 [2; 1; -3; -7] [1; 0; 4; 4] [1; -1; -4; inf] [3; 4; 5; -1] [1; -1; -4; -7] [3; 4; 5; 4])%Z.
Proof. repeat split; vm_compute; reflexivity. Qed.

(** ** test_threshold_counter.py *)
(** [bruteforce_count]: for every threshold and column, how many values are at most the threshold *)
Definition brute_count (m : mat N) (ts : list N) : mat nat :=
  map (fun t => map (fun c => length (filter (fun x => fleb x t) (on_col m c))) (all_cols m)) ts.
Definition tc_test (ts : list Z) (es : list (event N)) : res (mat nat) := do s <- tc_run (tc_init (map Fz ts) 10 15) es; Ok (tc_counts s).
Example test_tc_diagonal_single : tc_test [283]%Z (diags dm (all_diags dm)) = Ok (brute_count dm [Fz 283]).
Proof. vm_compute; reflexivity. Qed.
Example test_tc_diagonal_multiple : tc_test [-100; 212; 283; 600]%Z (diags dm (all_diags dm)) = Ok (brute_count dm (map Fz [-100; 212; 283; 600]%Z)).
Proof. vm_compute; reflexivity. Qed.
Example test_tc_column_single : tc_test [509]%Z (cols dm (all_cols dm)) = Ok (brute_count dm [Fz 509]).
Proof. vm_compute; reflexivity. Qed.
Example test_tc_column_multiple : tc_test [-100; 68; 467; 500]%Z (cols dm (all_cols dm)) = Ok (brute_count dm (map Fz [-100; 68; 467; 500]%Z)).
Proof. vm_compute; reflexivity. Qed.

(** [bruteforce_count] of the second class: the values at [lowest_value_idxs(column, exclusion)] that are at most the threshold
    (the tests take a prefix of them; they come in increasing order) *)
Definition low_vals (m : mat N) (excl c : Z) : list N :=
  match lowest_value_idxs 20 (on_col m c) excl with Ok l => map (fun i => nth i (on_col m c) NaN) l | Err _ => [] end.
Definition brute_dist_count (m : mat N) (ts : list N) (excl : Z) : mat nat :=
  map (fun t => map (fun c => length (filter (fun x => fleb x t) (low_vals m excl c))) (all_cols m)) ts.
Definition dtc_test (ts : list Z) (excl : nat) : res (mat nat) :=
  do s <- foldM (fun s c => dtc_col (fargsort (on_col dm c)) s (Z.to_nat c) [on_col dm c]) (all_cols dm) (dtc_init (map Fz ts) excl 10 15);
  Ok (dt_counts s).
Example test_dtc_single : dtc_test [509]%Z 2 = Ok (brute_dist_count dm [Fz 509] 2).
Proof. vm_compute; reflexivity. Qed.
Example test_dtc_multiple : dtc_test [-100; 68; 467; 500]%Z 2 = Ok (brute_dist_count dm (map Fz [-100; 68; 467; 500]%Z) 2).
Proof. vm_compute; reflexivity. Qed.

(** ** test_radius_profile.py *)
Definition brute_radius (vals : Z -> list N) (ks : list nat) : mat N := map (fun k => map (fun c => nth k (vals c) NaN) (all_cols dm)) ks.
Definition rp_test (col : rp -> nat -> list (list N) -> res rp) (ks : list Z) (excl : Z) : res (mat N) :=
  do s0 <- rp_init ks excl 10 15;
  do s <- foldM (fun s c => col s (Z.to_nat c) [on_col dm c]) (all_cols dm) s0;
  Ok (rp_values s).
Example test_rp0_single : rp_test rp0_col [2]%Z 0 = Ok (brute_radius (fun c => fsort (on_col dm c)) [2]).
Proof. vm_compute; reflexivity. Qed.
Example test_rp0_multiple : rp_test rp0_col [2; 5; 0; 9; 10]%Z 0 = Ok (brute_radius (fun c => fsort (on_col dm c)) [0; 2; 5; 9; 10]) /\
  nth 4 (brute_radius (fun c => fsort (on_col dm c)) [0; 2; 5; 9; 10]) [] = repeat NaN 15.
Proof. split; vm_compute; reflexivity. Qed.
Example test_rp_single : rp_test rp_col [2]%Z 2 = Ok (brute_radius (low_vals dm 2) [2]).
Proof. vm_compute; reflexivity. Qed.
Example test_rp_multiple : rp_test rp_col [2; 0; 10]%Z 1 = Ok (brute_radius (low_vals dm 1) [0; 2; 10]).
Proof. vm_compute; reflexivity. Qed.

(** ** test_contextmanager.py *)
Definition R (a b : Z) : ctx_el := One (mkRange a b 1).
Example test_does_not_return_empty_contexts :
  (do g <- gsm_new zargsort [R 1 5; R 0 0; R 5 10] None;
   do s <- mapM (fun p => gsm_series g (fst p) (snd p)) [(0, 1); (0, 4); (0, 8); (0, 12); (5, 12)]%Z;
   do q <- mapM (fun p => gsm_query g (fst p) (snd p)) [(0, 1); (0, 4); (0, 8); (0, 12); (5, 12)]%Z;
   Ok (s, q)) =
  let e := [[]; [(1, 5, 0%nat)]; [(1, 5, 0%nat); (5, 10, 2%nat)]; [(1, 5, 0%nat); (5, 10, 2%nat)]; [(5, 10, 2%nat)]]%Z in Ok (e, e).
Proof. vm_compute; reflexivity. Qed.

(** ** test_contextual_matrix_profile.py *)
Definition ranges (e : ctx_el) : list (Z * Z) := map (fun r => (r_start r, r_stop r)) (match e with One r => [r] | Many rs => rs end).
(** [bruteforce_cdm] for one pair of contexts: the first strictly smallest value over the pairs of ranges, rows and columns *)
Definition brute_cell (m : mat N) (q s : ctx_el) : N * Z * Z :=
  fold_left (fun (b : N * Z * Z) p => if fltb (at_ m (fst p) (snd p)) (fst (fst b)) then (at_ m (fst p) (snd p), fst p, snd p) else b)
    (flat_map (fun r0 => flat_map (fun r1 => list_prod (pyrange (fst r0) (Z.min (snd r0) (hgt m))) (pyrange (fst r1) (Z.min (snd r1) (wid m))))
                                  (ranges s)) (ranges q))
    (PInf, (-1)%Z, (-1)%Z).
(** The tables of the model are lists of columns *)
Definition brute_cdm (m : mat N) (qs ss : list ctx_el) : list (list N) * list (list Z) * list (list Z) :=
  let t := map (fun s => map (fun q => brute_cell m q s) qs) ss in
  (map (map (fun x => fst (fst x))) t, map (map (fun x => snd (fst x))) t, map (map snd) t).
Definition cdm_test (m : mat N) (qs ss : list ctx_el) (es : list (event N)) : res (list (list N) * list (list Z) * list (list Z)) :=
  do g <- gsm_new zargsort ss (Some qs);
  do s0 <- cm_init gsm_ops no_mem no_mem 2 g (length m) (ncols m);
  do s <- cm_run gsm_ops s0 es; Ok (cm_tables s).
Definition by_diags (m : mat N) (qs ss : list ctx_el) : Prop := cdm_test m qs ss (diags m (all_diags m)) = Ok (brute_cdm m qs ss).
Definition by_cols (m : mat N) (qs ss : list ctx_el) : Prop := cdm_test m qs ss (cols m (all_cols m)) = Ok (brute_cdm m qs ss).
Definition complex_q : list ctx_el := [R 0 10; R 1 5; R 1 2; R 4 5; Many [mkRange 1 2 1; mkRange 3 4 1; mkRange 7 9 1]].
Definition complex_s : list ctx_el := [R 0 2; R 1 3; R 2 4; R 3 6; R 4 8; R 4 10; Many [mkRange 0 3 1; mkRange 3 5 1; mkRange 13 15 1]].
Definition transp (m : mat N) : mat N := map (on_col m) (all_cols m).

Example test_cdm_diagonal : by_diags dm [R 0 4; R 7 8] [R 1 4; R 6 8].
Proof. vm_compute; reflexivity. Qed.
Example test_cdm_diagonal_partial :
  let ds := step_by (-8) 15 4 in
  let qs := [R 0 2; R 2 5; R 7 8; R 8 9; R 9 10] in let ss := [R 0 2; R 2 4; R 4 10; R 13 14] in
  cdm_test dm qs ss (diags dm ds) = Ok (brute_cdm (where_m dm (fun r c => negb (inl ds (c - r)%Z)) PInf) qs ss).
Proof. vm_compute; reflexivity. Qed.
Example test_cdm_diagonal_complex_ranges : by_diags dm complex_q complex_s.
Proof. vm_compute; reflexivity. Qed.
Example test_cdm_diagonal_beyond : by_diags dm [R 0 8; R 8 16] [R 0 10; R 10 20] /\ by_diags (transp dm) [R 0 8; R 13 20] [R 0 10; R 9 13].
Proof. split; vm_compute; reflexivity. Qed.
Example test_cdm_diagonal_outside : by_diags dm [R 0 8; R 8 16; R 20 30] [R 0 10; R 10 20; R 30 40].
Proof. vm_compute; reflexivity. Qed.
Example test_cdm_column : by_cols dm [R 0 4; R 7 8] [R 1 4; R 6 8].
Proof. vm_compute; reflexivity. Qed.
Example test_cdm_column_partial :
  let cs := [2; 3; 4; 5; 10; 11; 12]%Z in
  let qs := [R 0 2; R 2 5; R 7 10] in let ss := [R 0 2; R 2 4; R 4 6; R 9 14] in
  cdm_test dm qs ss (cols dm cs) = Ok (brute_cdm (where_m dm (fun r c => negb (inl cs c)) PInf) qs ss).
Proof. vm_compute; reflexivity. Qed.
Example test_cdm_column_complex_ranges : by_cols dm complex_q complex_s.
Proof. vm_compute; reflexivity. Qed.
Example test_cdm_column_beyond : by_cols dm [R 0 8; R 8 16] [R 0 10; R 10 20].
Proof. vm_compute; reflexivity. Qed.
Example test_cdm_column_outside : by_cols dm [R 0 8; R 8 16; R 20 30] [R 0 10; R 10 20; R 30 40].
Proof. vm_compute; reflexivity. Qed.

(** MockContextManager: the state is (series_shift, query_shift) *)
Definition touching (start stop : Z) (l : list ctx) : list ctx := filter (fun c => (c_start c <? stop)%Z && (start <? c_stop c)%Z) l.
Definition mock_manager : ManagerOps (nat * nat) := {|
  man_query := fun st a b =>
    match snd st with
    | 0 => Ok (touching a b [(0, 3, 0%nat); (3, 10, 1%nat)]%Z)
    | 2 => Ok (touching a b [(0, 1, 0%nat); (1, 10, 1%nat)]%Z)
    | 4 => Ok (touching a b [(0, 10, 0%nat); (2, 8, 1%nat)]%Z)
    | _ => Err RuntimeError
    end;
  man_series := fun st a b =>
    match fst st with
    | 0 => Ok (touching a b [(0, 2, 0%nat); (2, 4, 1%nat); (4, 6, 2%nat)]%Z)
    | 1 => Ok (touching a b [(0, 1, 0%nat); (1, 3, 1%nat); (3, 5, 2%nat); (5, 6, 3%nat)]%Z)
    | 2 => Ok (touching a b [(0, 2, 0%nat); (2, 4, 1%nat); (4, 6, 2%nat)]%Z)
    | _ => Err RuntimeError
    end;
  man_shape := fun _ => Ok (2, 4);
  man_shift_query := fun st n =>
    let q := snd st + n in if q =? 2 then Ok ((fst st, q), 0) else if q =? 4 then Ok ((fst st, q), 1) else Err RuntimeError;
  man_shift_series := fun st n =>
    let s := fst st + n in if s =? 1 then Ok ((s, snd st), 0) else if s =? 2 then Ok ((s, snd st), 1) else Err RuntimeError
|}.
Definition mock_test (es : list (event N)) : res (list (list N) * list (list Z) * list (list Z)) :=
  do s0 <- cm_init mock_manager no_mem no_mem 2 (0, 0) 4 6; do s <- cm_run mock_manager s0 es; Ok (cm_tables s).
(** Expected tables by rows, as in the tests *)
Definition tr {T} (d : T) (m : mat T) : mat T := map (fun j => map (fun r => nth j r d) m) (seq 0 (ncols m)).
Definition rows3 (d q s : mat Z) : res (list (list N) * list (list Z) * list (list Z)) := Ok (tr NaN (map e_ d), tr 0%Z q, tr 0%Z s).
Definition cx : mat N := fm dm_ctx.
Definition some_cols (m : mat N) (cs : list Z) : list (event N) := cols m cs.

Definition k1 := some_cols (sub cx 0 4 0 6) [0; 2]%Z.
Definition k2 := k1 ++ [EShiftS 1; EShiftQ 2].
Definition k3 := k2 ++ some_cols (sub cx 2 6 1 7) [0; 1; 3]%Z.
Definition k4 := k3 ++ [EShiftS 1; EShiftQ 2].
Definition k5 := k4 ++ some_cols (sub cx 4 8 2 8) [0; 3; 4; 5]%Z.
Example test_cdm_streaming_process_column :
  (mock_test k1 = rows3 [[720; 50; inf; inf]; [530; 580; inf; inf]] [[2; 0; -1; -1]; [3; 3; -1; -1]] [[0; 2; -1; -1]; [0; 2; -1; -1]] /\
  mock_test k2 = rows3 [[720; 50; inf; inf]; [530; 580; inf; inf]] [[2; 0; -1; -1]; [3; 3; -1; -1]] [[0; 2; -1; -1]; [0; 2; -1; -1]] /\
  mock_test k3 = rows3 [[310; 50; 800; inf]; [480; 230; 210; inf]] [[2; 0; 2; -1]; [4; 5; 4; -1]] [[1; 2; 4; -1]; [1; 2; 4; -1]] /\
  mock_test k4 = rows3 [[230; 210; inf; inf]; [inf; inf; inf; inf]] [[5; 4; -1; -1]; [-1; -1; -1; -1]] [[2; 4; -1; -1]; [-1; -1; -1; -1]] /\
  mock_test k5 = rows3 [[120; 210; 120; inf]; [120; 750; 250; inf]] [[6; 4; 4; -1]; [6; 7; 7; -1]] [[2; 4; 6; -1]; [2; 5; 6; -1]])%Z.
Proof. repeat split; vm_compute; reflexivity. Qed.

Definition g1 := diags (sub cx 0 4 0 6) [0; 2; -1]%Z.
Definition g2 := g1 ++ [EShiftS 1; EShiftQ 2].
Definition g3 := g2 ++ diags (sub cx 2 6 1 7) [5; 1; 0; -3]%Z.
Definition g4 := g3 ++ [EShiftS 1; EShiftQ 2].
Definition g5 := g4 ++ diags (sub cx 4 8 2 8) [-2; 0; 1; 2; 3; 4]%Z.
Example test_cdm_streaming_process_diagonal :
  (mock_test g1 = rows3 [[310; 50; 800; inf]; [inf; 580; 100; inf]] [[2; 0; 2; -1]; [-1; 3; 3; -1]] [[1; 2; 4; -1]; [-1; 2; 5; -1]] /\
  mock_test g2 = rows3 [[310; 50; 800; inf]; [inf; 580; 100; inf]] [[2; 0; 2; -1]; [-1; 3; 3; -1]] [[1; 2; 4; -1]; [-1; 2; 5; -1]] /\
  mock_test g3 = rows3 [[310; 50; 800; 270]; [810; 580; 100; inf]] [[2; 0; 2; 2]; [5; 3; 3; -1]] [[1; 2; 4; 6]; [1; 2; 5; -1]] /\
  mock_test g4 = rows3 [[580; 100; inf; inf]; [inf; inf; inf; inf]] [[3; 3; -1; -1]; [-1; -1; -1; -1]] [[2; 5; -1; -1]; [-1; -1; -1; -1]] /\
  mock_test g5 = rows3 [[120; 100; 120; inf]; [120; 370; 250; inf]] [[6; 3; 4; -1]; [6; 6; 7; -1]] [[2; 5; 6; -1]; [2; 4; 6; -1]])%Z.
Proof. repeat split; vm_compute; reflexivity. Qed.

(** ** test_multidimensional_matrix_profile_lr.py, in 600ths so that averages of two and of three are exact *)
Definition d3 : list (mat N) := map (fun m => map (map (fun z => Fz (6 * z))) m) [dm_1; dm_2; dm_3].
(** [_bruteforce_mmp_for_dims] for one column, over the rows [r] with [p r c]; [sels] are the selections of dimensions *)
Definition brute_md (ms : list (mat N)) (h : Z) (p : Z -> Z -> bool) (sels : list (list nat)) (c : Z) : N * Z * list Z :=
  fold_left (fun (b : N * Z * list Z) x =>
      let '(sel, r) := x in
      let v := fdivp (fold_left fadd (map (fun k => at_ (nth k ms []) r c) sel) (Fz 0)) (Z.of_nat (length sel)) in
      if p r c && fltb v (fst (fst b)) then (v, r, map Z.of_nat sel) else b)
    (list_prod sels (pyrange 0 h)) (PInf, (-1)%Z, map (fun _ => (-1)%Z) (hd [] sels)).
Definition brute_mmp (h w : Z) (p : Z -> Z -> bool) : list (list (N * Z * list Z)) :=
  map (fun sels => map (brute_md d3 h p sels) (pyrange 0 w)) [[[0]; [1]; [2]]; [[0; 1]; [0; 2]; [1; 2]]; [[0; 1; 2]]].
Definition no_memd (i : nat) : list Z := [].
Fixpoint zins (x : Z) (l : list Z) : list Z := match l with [] => [x] | y :: l' => if (x <=? y)%Z then x :: l else y :: zins x l' end.
Definition zsort (l : list Z) : list Z := fold_right zins [] l.
Definition md_test (read : md -> nat -> nat -> res (N * Z * list Z)) (h w : nat) (es : list (event N)) : res (list (list (N * Z * list Z))) :=
  do s0 <- md_init no_memn no_memz no_memd 2 3 h w;
  do s <- md_run fargsort s0 es;
  mapM (fun dim => mapM (fun c => do x <- read s dim c; Ok (fst x, zsort (snd x))) (seq 0 w)) (seq 0 3).
Definition sub3 (r0 r1 c0 c1 : Z) : list (mat N) := map (fun m => sub m r0 r1 c0 c1) d3.
Definition diags3 (ms : list (mat N)) (ds : list Z) : list (event N) := map (fun d => EDiag d (map (fun m => on_diag m d) ms)) ds.
Definition cols3 (ms : list (mat N)) (cs : list Z) : list (event N) := map (fun c => ECol (Z.to_nat c) (map (fun m => on_col m c) ms)) cs.

Example test_md_process_diagonal : md_test md_merged 10 15 (diags3 d3 (all_diags dm)) = Ok (brute_mmp 10 15 (fun _ _ => true)).
Proof. vm_compute; reflexivity. Qed.
Example test_md_process_diagonal_partial :
  let ds := step_by (-8) 10 4 in md_test md_merged 10 15 (diags3 d3 ds) = Ok (brute_mmp 10 15 (fun r c => inl ds (c - r)%Z)).
Proof. vm_compute; reflexivity. Qed.
Example test_md_process_diagonal_lr :
  md_test md_left 10 15 (diags3 d3 (all_diags dm)) = Ok (brute_mmp 10 15 (fun r c => (r <=? c)%Z)) /\
  md_test md_right 10 15 (diags3 d3 (all_diags dm)) = Ok (brute_mmp 10 15 (fun r c => (c <? r)%Z)).
Proof. split; vm_compute; reflexivity. Qed.
Example test_md_process_column : md_test md_merged 10 15 (cols3 d3 (all_cols dm)) = Ok (brute_mmp 10 15 (fun _ _ => true)).
Proof. vm_compute; reflexivity. Qed.
Example test_md_process_column_partial :
  let cs := [0; 3; 4; 6; 9; 12; 13]%Z in md_test md_merged 10 15 (cols3 d3 cs) = Ok (brute_mmp 10 15 (fun r c => inl cs c)).
Proof. vm_compute; reflexivity. Qed.
Example test_md_process_column_lr :
  md_test md_left 10 15 (cols3 d3 (all_cols dm)) = Ok (brute_mmp 10 15 (fun r c => (r <=? c)%Z)) /\
  md_test md_right 10 15 (cols3 d3 (all_cols dm)) = Ok (brute_mmp 10 15 (fun r c => (c <? r)%Z)).
Proof. split; vm_compute; reflexivity. Qed.

Definition mc1 := cols3 (sub3 0 5 0 7) [0; 4; 5]%Z.
Definition mc2 := mc1 ++ [EShiftS 2; EShiftQ 3].
Definition mc3 := mc2 ++ cols3 (sub3 3 8 2 9) [0; 2; 3; 5]%Z.
Definition from {T} (k : nat) (m : list (list T)) : list (list T) := map (skipn k) m.
Example test_md_streaming_process_column :
  md_test md_merged 5 7 mc1 = Ok (brute_mmp 5 7 (fun r c => inl [0; 4; 5]%Z c)) /\
  md_test md_merged 5 7 mc2 = Ok (from 2 (brute_mmp 8 9 (fun r c => (r <? 5) && inl [4; 5] c)%Z)) /\
  md_test md_merged 5 7 mc3 = Ok (from 2 (brute_mmp 8 9 (fun r c => ((r <? 5) && inl [4; 5] c) || ((3 <=? r) && inl [2; 4; 5; 7] c))%Z)).
Proof. repeat split; vm_compute; reflexivity. Qed.

Definition mg1 := diags3 (sub3 0 5 0 7) [0; 4; -3]%Z.
Definition mg2 := mg1 ++ [EShiftS 3; EShiftQ 2].
Definition mg3 := mg2 ++ diags3 (sub3 2 7 3 10) [-1; 3; -4; 2]%Z.
Example test_md_streaming_process_diagonal :
  md_test md_merged 5 7 mg1 = Ok (brute_mmp 5 7 (fun r c => inl [0; 4; -3] (c - r))%Z) /\
  md_test md_merged 5 7 mg2 = Ok (from 3 (brute_mmp 7 10 (fun r c => (r <? 5) && (c <? 7) && inl [0; 4; -3] (c - r))%Z)) /\
  md_test md_merged 5 7 mg3 =
    Ok (from 3 (brute_mmp 7 10 (fun r c => ((r <? 5) && (c <? 7) && inl [0; 4; -3] (c - r)) || ((2 <=? r) && (3 <=? c) && inl [-1; 3; -4; 2] (c - r - 1)))%Z)).
Proof. repeat split; vm_compute; reflexivity. Qed.
