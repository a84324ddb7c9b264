(** * ConfUtil: the unit tests of distancematrix/tests/test_ringbuffer.py, test_util.py and test_insights.py, on the model *)
From Coq Require Import QArith.
From Verif Require Import Np Mat MRing MUtil MInsights MMisc Inst.
Open Scope nat_scope.

(** A test of a buffer: a new buffer, then pushes; every push gives the returned number, the view after it and the first item *)
Definition rb_test {T} (b : res (rb T)) (pushes : list (list T)) : res (list T * list (Z * list T * T)) :=
  do b0 <- b;
  do r <- foldM (fun st d => do p <- rb_push (fst st) d; do x <- rb_getitem (fst p) 0; Ok (fst p, snd st ++ [(Z.of_nat (snd p), rb_view (fst p), x)])) pushes (b0, []);
  Ok (rb_view b0, snd r).
Definition mem0 (i : nat) : Z := 777%Z.

Example test_one_dimensional :
  rb_test (rb_new mem0 (Some [0; 1; 2; 3; 4]%Z) None false 2) [[]; [5]; [6]; [7]; [8; 9; 10]; [11; 12; 13; 14]; [15; 16; 17; 18; 19]; [20; 21; 22; 23; 24; 25]]%Z =
  Ok ([0; 1; 2; 3; 4]%Z, [(0, [0; 1; 2; 3; 4], 0); (1, [1; 2; 3; 4; 5], 1); (1, [2; 3; 4; 5; 6], 2); (1, [3; 4; 5; 6; 7], 3); (3, [6; 7; 8; 9; 10], 6);
    (4, [10; 11; 12; 13; 14], 10); (5, [15; 16; 17; 18; 19], 15); (6, [21; 22; 23; 24; 25], 21)]%Z).
Proof. reflexivity. Qed.

Definition two (l : list Z) : list (Z * Z) := map (fun x => (x, - x)%Z) l.
Example test_multi_dimensional :
  rb_test (rb_new (fun i => (mem0 i, mem0 i)) (Some (two [0; 1; 2; 3; 4]%Z)) None false 2) (map two [[]; [5]; [6; 7]; [8; 9; 10]; [11; 12; 13; 14]; [15; 16; 17; 18; 19]; [20; 21; 22; 23; 24; 25]]%Z) =
  Ok (two [0; 1; 2; 3; 4]%Z, map (fun x => match x with (k, l, v) => (k, two l, (v, - v)%Z) end) [(0, [0; 1; 2; 3; 4], 0); (1, [1; 2; 3; 4; 5], 1); (2, [3; 4; 5; 6; 7], 3); (3, [6; 7; 8; 9; 10], 6);
    (4, [10; 11; 12; 13; 14], 10); (5, [15; 16; 17; 18; 19], 15); (6, [21; 22; 23; 24; 25], 21)]%Z).
Proof. reflexivity. Qed.

Example test_empty_initialization : rb_test (rb_new mem0 None (Some 5) true 2) [[1]; [2; 3]; [4; 5; 6]]%Z = Ok ([], [(0, [1], 1); (0, [1; 2; 3], 1); (1, [2; 3; 4; 5; 6], 2)]%Z).
Proof. reflexivity. Qed.
Example test_partial_initialization : rb_test (rb_new mem0 (Some [1; 2]%Z) (Some 5) true 2) [[3]; [4; 5; 6]]%Z = Ok ([1; 2]%Z, [(0, [1; 2; 3], 1); (1, [2; 3; 4; 5; 6], 2)]%Z).
Proof. reflexivity. Qed.
Example test_oversized_initialization : rb_test (rb_new mem0 (Some [1; 2; 3; 4; 5; 6]%Z) (Some 5) true 2) [[7]; [8; 9; 10]]%Z = Ok ([2; 3; 4; 5; 6]%Z, [(1, [3; 4; 5; 6; 7], 3); (3, [6; 7; 8; 9; 10], 6)]%Z).
Proof. reflexivity. Qed.

(** ** test_util.py *)
Example test_diag_length_square_matrix : map (diag_length 5 5) [0; 1; -2; 4; 5; 6]%Z = [5; 4; 3; 1; 0; 0]%Z.
Proof. reflexivity. Qed.
Example test_diag_length_rect_matrix :
  map (diag_length 5 3) [0; 1; 2; 3; 4; -1; -2; -3; -4; -5; -6]%Z = [3; 2; 1; 0; 0; 3; 3; 2; 1; 0; 0]%Z /\
  map (diag_length 3 5) [0; 1; 2; 3; 4; 5; 6; -1; -2; -3; -4]%Z = [3; 3; 3; 2; 1; 0; 0; 2; 1; 0; 0]%Z.
Proof. split; reflexivity. Qed.

(** [data[(rows, columns)]] *)
Definition take_at {T} (data : mat T) (ix : list Z * list Z) : res (list T) := mapM (fun p => mgetz data (fst p) (snd p)) (combine (fst ix) (snd ix)).
Definition data33 : mat Z := [[1; 2; 3]; [4; 5; 6]; [7; 8; 9]]%Z.
Definition data23 : mat Z := [[1; 2; 3]; [4; 5; 6]]%Z.
Example test_diag_indices_square : mapM (fun d => take_at data33 (diag_indices 3 3 d)) [-3; -2; -1; 0; 1; 2; 3]%Z = Ok [[]; [7]; [4; 8]; [1; 5; 9]; [2; 6]; [3]; []]%Z.
Proof. reflexivity. Qed.
Example test_diag_indices_rect : mapM (fun d => take_at data23 (diag_indices 2 3 d)) [-2; -1; 0; 1; 2; 3]%Z = Ok [[]; [4]; [1; 5]; [2; 6]; [3]; []]%Z.
Proof. reflexivity. Qed.
Example test_diag_indices_of_rect : mapM (fun d => take_at data23 (diag_indices_of data23 d)) [-2; -1; 0; 1; 2; 3]%Z = Ok [[]; [4]; [1; 5]; [2; 6]; [3]; []]%Z.
Proof. reflexivity. Qed.
Example test_cut_indices_of :
  mapM (fun d => take_at [[1; 2; 3]; [4; 5; 6]; [7; 8; 9]; [10; 11; 12]]%Z (cut_indices 4 3 d)) [0; 1; 2; 3; 4; 5; 6]%Z = Ok [[1]; [4; 2]; [7; 5; 3]; [10; 8; 6]; [11; 9]; [12]; []]%Z /\
  mapM (fun d => take_at [[0; 1; 2; 3; 4]; [5; 6; 7; 8; 9]]%Z (cut_indices 2 5 d)) [0; 1; 2; 3; 4; 5]%Z = Ok [[0]; [5; 1]; [6; 2]; [7; 3]; [8; 4]; [9]]%Z.
Proof. split; reflexivity. Qed.

Definition data_spd : mat (num Z) := map (map Fz) [[1; 2; 1; 0; 3]; [1; 3; 0; 1; 1]; [0; 1; 1; 4; 0]; [2; 5; 5; 2; 2]; [0; 1; 2; 3; 9]]%Z.
Definition expected_spd : mat (num Z) := map (map Fz) [[1; 3; 4; 4; 7]; [2; 4; 3; 4; 5]; [2; 3; 4; 7; 4]; [4; 7; 8; 6; 6]; [4; 5; 7; 9; 15]]%Z.
Example test_shortest_path_distances : let garbage := fun _ _ => @NaN Z in
  shortest_path_distances garbage data_spd = Ok expected_spd /\ shortest_path_distances garbage (firstn 3 data_spd) = Ok (firstn 3 expected_spd) /\
  shortest_path_distances garbage (map (firstn 3) data_spd) = Ok (map (firstn 3) expected_spd).
Proof. repeat split; vm_compute; reflexivity. Qed.
Example test_shortest_path : shortest_path 20 (fun _ _ => @NaN Z) (map (map Fz) [[1; 2; 1; 0; 3]; [1; 3; 3; 1; 1]; [4; 3; 8; 4; 0]; [2; 2; 5; 2; 5]; [0; 1; 1; 3; 2]; [0; 1; 1; 5; 9]]%Z) =
  Ok [(0, 0); (1, 0); (2, 1); (3, 1); (4, 2); (4, 3); (5, 4)]%Z.
Proof. vm_compute. reflexivity. Qed.

Example test_sliding_min :
  sliding_min (map Fz [1; 2; 3; 4; 5; 6; 7; 8]%Z) 3 = Ok (map Fz [1; 2; 3; 4; 5; 6]%Z) /\ sliding_min (map Fz [8; 7; 6; 5; 4; 3; 2; 1]%Z) 3 = Ok (map Fz [6; 5; 4; 3; 2; 1]%Z) /\
  sliding_min (map Fz [8; 3; 4; 0; 6; 1; 1; 1; 2; 7; 6; 4; 3; 4]%Z) 3 = Ok (map Fz [3; 0; 0; 0; 1; 1; 1; 1; 2; 4; 3; 3]%Z).
Proof. repeat split; vm_compute; reflexivity. Qed.
Example test_sliding_max :
  sliding_max (map Fz [1; 2; 3; 4; 5; 6; 7; 8]%Z) 3 = Ok (map Fz [3; 4; 5; 6; 7; 8]%Z) /\ sliding_max (map Fz [8; 7; 6; 5; 4; 3; 2; 1]%Z) 3 = Ok (map Fz [8; 7; 6; 5; 4; 3]%Z) /\
  sliding_max (map Fz [8; 3; 4; 0; 6; 1; 1; 1; 2; 7; 6; 4; 3; 4]%Z) 3 = Ok (map Fz [8; 4; 6; 6; 6; 1; 2; 7; 7; 7; 6; 4]%Z).
Proof. repeat split; vm_compute; reflexivity. Qed.

(** All elements of an array over the memory [mem], in row-major order *)
Fixpoint indices (shape : list Z) : list (list Z) :=
  match shape with [] => [[]] | n :: shape' => flat_map (fun i => map (cons i) (indices shape')) (pyrange 0 n) end.
Definition elements (mem : list Z) (x : ndarray) : list Z := map (fun ix => nth (Z.to_nat (nd_addr x ix)) mem 0%Z) (indices (nd_shape x)).
Definition window_test (mem shape strides window : list Z) (step : option (list Z)) : res (list Z * list Z) :=
  do v <- sliding_window_view (mkNd 0 shape strides) window step; Ok (nd_shape v, elements mem v).
Example test_sliding_window_view :
  window_test [1; 2; 3; 4; 5; 6; 7; 8]%Z [8]%Z [1]%Z [3]%Z None = Ok ([6; 3]%Z, [1; 2; 3; 2; 3; 4; 3; 4; 5; 4; 5; 6; 5; 6; 7; 6; 7; 8]%Z) /\
  window_test [1; 2; 3; 4; 5; 6; 7; 8]%Z [8]%Z [1]%Z [3]%Z (Some [2]%Z) = Ok ([3; 3]%Z, [1; 2; 3; 3; 4; 5; 5; 6; 7]%Z) /\
  window_test [1; 2; 3; 4; 5; 6; 7; 8; 9]%Z [3; 3]%Z [3; 1]%Z [2; 2]%Z None = Ok ([2; 2; 2; 2]%Z, [1; 2; 4; 5; 2; 3; 5; 6; 4; 5; 7; 8; 5; 6; 8; 9]%Z) /\
  window_test [1; 2; 3; 4; 5; 6; 7; 8; 9]%Z [3; 3]%Z [3; 1]%Z [1; 3]%Z (Some [2; 1]%Z) = Ok ([2; 1; 1; 3]%Z, [1; 2; 3; 7; 8; 9]%Z).
Proof. repeat split; vm_compute; reflexivity. Qed.

(** ** test_insights.py *)
Example test_lowest_value_idxs : let a := map Fz [1; 5; 3; 9; 4; 7; 6; 0; 2; 8]%Z in
  lowest_value_idxs 20 a 0 = Ok [7; 0; 8; 2; 4; 1; 6; 5; 9; 3] /\ lowest_value_idxs 20 a 1 = Ok [7; 0; 2; 4; 9] /\
  lowest_value_idxs 20 a 2 = Ok [7; 0; 4] /\ lowest_value_idxs 20 a 3 = Ok [7; 0].
Proof. repeat split; vm_compute; reflexivity. Qed.
Example test_highest_value_idxs : let a := map Fz [4; 8; 6; 1; 0; 3; 7; 9; 2; 5]%Z in
  highest_value_idxs 20 a 0 = Ok [7; 1; 6; 2; 9; 0; 5; 8; 3; 4] /\ highest_value_idxs 20 a 1 = Ok [7; 1; 9; 5; 3] /\
  highest_value_idxs 20 a 2 = Ok [7; 1; 4] /\ highest_value_idxs 20 a 3 = Ok [7; 1].
Proof. repeat split; vm_compute; reflexivity. Qed.
