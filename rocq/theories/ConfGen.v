(** * ConfGen: the unit tests of test_euclidean.py and test_znorm_euclidean.py, on the model in binary64

    [Succeed Definition] checks the test (by evaluation in the kernel, [<:]) without keeping the proof: coqchk would evaluate all of them
    again, more slowly.  The build fails if one of the tests fails. *)
From Coq Require Import QArith Floats.SpecFloat.
From Verif Require Import Np Mat MRing MUtil MArith MStats MCache MEuclid MZnorm InstF ConfFloat.
Open Scope nat_scope.

Definition eu_s : list N :=
    [Dec 5578463 7; Dec 4555404 7; Dec 18124978 8; Dec 252396 6; Dec 60623881 8; Dec 5546021 7; Dec 13714127 8; 
     Dec 903246 6; Dec 3695094 8; Dec 23420792 8; Dec 27482897 8; Dec 57765821 8; Dec 23571178 8; Dec 65772705 8; 
     Dec 292154 8; Dec 87258653 8; Dec 29869269 8; Dec 91492178 8; Dec 69096235 8; Dec 6786107 7; Dec 85413687 8; 
     Dec 19725933 8; Dec 39460891 8; Dec 32650366 8; Dec 35188833 8; Dec 92658149 8; Dec 7503563 8; 
     Dec 37864432 8; Dec 9415974 7; Dec 62313779 8].
Definition eu_q : list N :=
    [Dec 3737861 8; Dec 53931239 8; Dec 6194507 8; Dec 938707 7; Dec 95875364 8; Dec 9495936 8; Dec 12392364 8; 
     Dec 81358582 8; Dec 56507776 8; Dec 61620183 8; Dec 24720462 8; Dec 83886639 8; Dec 38130506 8; 
     Dec 13693176 8; Dec 90555723 8; Dec 23274948 8; Dec 31526678 8; Dec 28504739 8; Dec 45200344 8; 
     Dec 9867946 7].
Definition up_s : list N :=
    [Dec 5546021 7; Dec 13714127 8; Dec 903246 6; Dec 3695094 8; Dec 23420792 8; Dec 27482897 8; Dec 57765821 8; 
     Dec 23571178 8; Dec 65772705 8; Dec 292154 8; Dec 87258653 8; Dec 29869269 8; Dec 91492178 8; Dec 69096235 8; 
     Dec 6786107 7].
Definition up_q : list N :=
    [Dec 3737861 8; Dec 53931239 8; Dec 6194507 8; Dec 938707 7; Dec 95875364 8; Dec 9495936 8; Dec 12392364 8; 
     Dec 81358582 8; Dec 56507776 8; Dec 61620183 8].
Definition zn_s_ : list N :=
    [Dec 2488674 7; Dec 1547179 7; F 2; F 2; F 2; F 2; F 2; F 2; Dec 2841 5; Dec 371845 6; Dec 5578463 7; 
     Dec 4555404 7; Dec 18124978 8; Dec 252396 6; Dec 60623881 8; Dec 5546021 7; Dec 13714127 8; Dec 903246 6; 
     Dec 3695094 8; Dec 23420792 8; Dec 27482897 8; Dec 57765821 8; Dec 23571178 8; Dec 65772705 8; Dec 292154 8; 
     Dec 87258653 8; Dec 29869269 8; Dec 91492178 8; Dec 69096235 8; Dec 6786107 7; Dec 85413687 8; 
     Dec 19725933 8; Dec 39460891 8; Dec 32650366 8; Dec 35188833 8; Dec 92658149 8; Dec 7503563 8; 
     Dec 37864432 8; Dec 9415974 7; Dec 62313779 8].
Definition zn_q_ : list N :=
    [F 6; F 6; F 6; F 6; F 6; Dec 3737861 8; Dec 53931239 8; Dec 6194507 8; Dec 938707 7; Dec 95875364 8; 
     Dec 9495936 8; Dec 12392364 8; Dec 81358582 8; Dec 56507776 8; Dec 61620183 8; Dec 24720462 8; 
     Dec 83886639 8; Dec 38130506 8; Dec 13693176 8; Dec 90555723 8; Dec 23274948 8; Dec 31526678 8; 
     Dec 28504739 8; Dec 45200344 8; Dec 9867946 7].

(** ** test_euclidean.py *)
Example Eu_TestEuclidean_test_calc_diagonal :
  let G := Eu in passes G 5 (g_prep G 5 eu_s (Some eu_q))
      [Diagonals eu_s eu_q] = true.
Proof. vm_compute; reflexivity. Qed.
Example Eu_TestEuclidean_test_calc_column_no_cache :
  let G := Eu in passes G 5 (g_prep G 5 eu_s (Some eu_q))
      [Columns eu_s eu_q true] = true.
Proof. vm_compute; reflexivity. Qed.
Example Eu_TestEuclidean_test_calc_column_cache :
  let G := Eu in passes G 5 (g_prep G 5 eu_s (Some eu_q))
      [Columns eu_s eu_q false] = true.
Proof. vm_compute; reflexivity. Qed.
Succeed Definition Eu_TestEuclideanSelfJoin_test_calc_diagonal :=
  (eq_refl true <:
   passes Eu 5 (g_prep Eu 5 eu_s None)
      [Diagonals eu_s eu_s] = true).
Succeed Definition Eu_TestEuclideanSelfJoin_test_calc_column_no_cache :=
  (eq_refl true <:
   passes Eu 5 (g_prep Eu 5 eu_s None)
      [Columns eu_s eu_s true] = true).
Succeed Definition Eu_TestEuclideanSelfJoin_test_calc_column_cache :=
  (eq_refl true <:
   passes Eu 5 (g_prep Eu 5 eu_s None)
      [Columns eu_s eu_s false] = true).
Succeed Definition Eu_TestStreamingEuclidean_test_calc_diagonal :=
  (eq_refl true <:
   passes Eu 5 (g_str Eu 5 20 (Some 15))
      [Series (lslice eu_s 0 10);
       Query (lslice eu_q 0 5);
       Diagonals (lslice eu_s 0 10) (lslice eu_q 0 5);
       Series (lslice eu_s 10 15);
       Query (lslice eu_q 5 10);
       Diagonals (lslice eu_s 0 15) (lslice eu_q 0 10);
       Series (lslice eu_s 15 25);
       Query (lslice eu_q 10 20);
       Diagonals (lslice eu_s 5 25) (lslice eu_q 5 20);
       Series (lslice eu_s 25 30);
       Diagonals (lslice eu_s 10 30) (lslice eu_q 5 20)] = true).
Succeed Definition Eu_TestStreamingEuclidean_test_calc_column_no_cache :=
  (eq_refl true <:
   passes Eu 5 (g_str Eu 5 20 (Some 15))
      [Series (lslice eu_s 0 10);
       Query (lslice eu_q 0 5);
       Columns (lslice eu_s 0 10) (lslice eu_q 0 5) true;
       Series (lslice eu_s 10 15);
       Query (lslice eu_q 5 10);
       Columns (lslice eu_s 0 15) (lslice eu_q 0 10) true;
       Series (lslice eu_s 15 25);
       Query (lslice eu_q 10 18);
       Columns (lslice eu_s 5 25) (lslice eu_q 3 18) true;
       Query (lslice eu_q 18 20);
       Columns (lslice eu_s 5 25) (lslice eu_q 5 20) true;
       Series (lslice eu_s 25 30);
       Columns (lslice eu_s 10 30) (lslice eu_q 5 20) true] = true).
Succeed Definition Eu_TestStreamingEuclidean_test_calc_column_cache :=
  (eq_refl true <:
   passes Eu 5 (g_str Eu 5 20 (Some 15))
      [Series (lslice eu_s 0 10);
       Query (lslice eu_q 0 5);
       Columns (lslice eu_s 0 10) (lslice eu_q 0 5) false;
       Series (lslice eu_s 10 15);
       Query (lslice eu_q 5 10);
       Columns (lslice eu_s 0 15) (lslice eu_q 0 10) false;
       Series (lslice eu_s 15 25);
       Query (lslice eu_q 10 18);
       Columns (lslice eu_s 5 25) (lslice eu_q 3 18) false;
       Query (lslice eu_q 18 20);
       Columns (lslice eu_s 5 25) (lslice eu_q 5 20) false;
       Series (lslice eu_s 25 30);
       Columns (lslice eu_s 10 30) (lslice eu_q 5 20) false] = true).
Example Eu_TestStreamingEuclidean_test_streaming_updates_cached_row :
  let G := Eu in passes G 5 (g_str G 5 10 (Some 10))
      [Series (lslice up_s 0 10);
       Query (lslice up_q 0 10);
       Column 0 (lslice up_s 0 15) (lslice up_q 0 10) 0;
       Series (lslice up_s 10 11);
       Column 0 (lslice up_s 0 15) (lslice up_q 0 10) 1;
       Column 3 (lslice up_s 0 15) (lslice up_q 0 10) 4;
       Series (lslice up_s 11 12);
       Column 4 (lslice up_s 0 15) (lslice up_q 0 10) 6] = true.
Proof. vm_compute; reflexivity. Qed.
Succeed Definition Eu_TestStreamingEuclideanSelfJoin_test_calc_diagonal :=
  (eq_refl true <:
   passes Eu 5 (g_str Eu 5 20 None)
      [Series (lslice eu_s 0 10);
       Diagonals (lslice eu_s 0 10) (lslice eu_s 0 10);
       Series (lslice eu_s 10 15);
       Diagonals (lslice eu_s 0 15) (lslice eu_s 0 15);
       Series (lslice eu_s 15 25);
       Diagonals (lslice eu_s 5 25) (lslice eu_s 5 25);
       Series (lslice eu_s 25 30);
       Diagonals (lslice eu_s 10 30) (lslice eu_s 10 30)] = true).
Succeed Definition Eu_TestStreamingEuclideanSelfJoin_test_calc_column_no_cache :=
  (eq_refl true <:
   passes Eu 5 (g_str Eu 5 20 None)
      [Series (lslice eu_s 0 10);
       Columns (lslice eu_s 0 10) (lslice eu_s 0 10) true;
       Series (lslice eu_s 10 15);
       Columns (lslice eu_s 0 15) (lslice eu_s 0 15) true;
       Series (lslice eu_s 15 25);
       Columns (lslice eu_s 5 25) (lslice eu_s 5 25) true;
       Series (lslice eu_s 25 30);
       Columns (lslice eu_s 10 30) (lslice eu_s 10 30) true] = true).
Succeed Definition Eu_TestStreamingEuclideanSelfJoin_test_calc_column_cache :=
  (eq_refl true <:
   passes Eu 5 (g_str Eu 5 20 None)
      [Series (lslice eu_s 0 10);
       Columns (lslice eu_s 0 10) (lslice eu_s 0 10) false;
       Series (lslice eu_s 10 15);
       Columns (lslice eu_s 0 15) (lslice eu_s 0 15) false;
       Series (lslice eu_s 15 25);
       Columns (lslice eu_s 5 25) (lslice eu_s 5 25) false;
       Series (lslice eu_s 25 30);
       Columns (lslice eu_s 10 30) (lslice eu_s 10 30) false] = true).

(** ** test_znorm_euclidean.py, without noise and with noise 0.2 *)
Definition noise0 : N := fzero.
Definition noise2 : N := Dec 2 1.
Definition Zn_test_non_streaming_calc_diagonal_ (G : gen) : Prop :=
  passes G 5 (g_prep G 5 zn_s_ (Some zn_q_))
      [Diagonals zn_s_ zn_q_] = true.
Succeed Definition Zn_test_non_streaming_calc_diagonal :=
  (eq_refl true <: Zn_test_non_streaming_calc_diagonal_ (Zn noise0),
   eq_refl true <: Zn_test_non_streaming_calc_diagonal_ (Zn noise2)).
Definition Zn_test_non_streaming_calc_column_no_cache_ (G : gen) : Prop :=
  passes G 5 (g_prep G 5 zn_s_ (Some zn_q_))
      [Columns zn_s_ zn_q_ true] = true.
Succeed Definition Zn_test_non_streaming_calc_column_no_cache :=
  (eq_refl true <: Zn_test_non_streaming_calc_column_no_cache_ (Zn noise0),
   eq_refl true <: Zn_test_non_streaming_calc_column_no_cache_ (Zn noise2)).
Definition Zn_test_non_streaming_calc_column_cache_ (G : gen) : Prop :=
  passes G 5 (g_prep G 5 zn_s_ (Some zn_q_))
      [Columns zn_s_ zn_q_ false] = true.
Succeed Definition Zn_test_non_streaming_calc_column_cache :=
  (eq_refl true <: Zn_test_non_streaming_calc_column_cache_ (Zn noise0),
   eq_refl true <: Zn_test_non_streaming_calc_column_cache_ (Zn noise2)).
Definition Zn_test_non_streaming_self_join_calc_diagonal_ (G : gen) : Prop :=
  passes G 5 (g_prep G 5 zn_s_ None)
      [Diagonals zn_s_ zn_s_] = true.
Succeed Definition Zn_test_non_streaming_self_join_calc_diagonal :=
  (eq_refl true <: Zn_test_non_streaming_self_join_calc_diagonal_ (Zn noise0),
   eq_refl true <: Zn_test_non_streaming_self_join_calc_diagonal_ (Zn noise2)).
Definition Zn_test_non_streaming_self_join_calc_column_no_cache_ (G : gen) : Prop :=
  passes G 5 (g_prep G 5 zn_s_ None)
      [Columns zn_s_ zn_s_ true] = true.
Succeed Definition Zn_test_non_streaming_self_join_calc_column_no_cache :=
  (eq_refl true <: Zn_test_non_streaming_self_join_calc_column_no_cache_ (Zn noise0),
   eq_refl true <: Zn_test_non_streaming_self_join_calc_column_no_cache_ (Zn noise2)).
Definition Zn_test_non_streaming_self_join_calc_column_cache_ (G : gen) : Prop :=
  passes G 5 (g_prep G 5 zn_s_ (Some zn_s_))
      [Columns zn_s_ zn_s_ false] = true.
Succeed Definition Zn_test_non_streaming_self_join_calc_column_cache :=
  (eq_refl true <: Zn_test_non_streaming_self_join_calc_column_cache_ (Zn noise0),
   eq_refl true <: Zn_test_non_streaming_self_join_calc_column_cache_ (Zn noise2)).
Definition Zn_test_streaming_calc_diagonal_ (G : gen) : Prop :=
  passes G 5 (g_str G 5 20 (Some 15))
      [Series (lslice zn_s_ 0 10);
       Query (lslice zn_q_ 0 5);
       Diagonals (lslice zn_s_ 0 10) (lslice zn_q_ 0 5);
       Series (lslice zn_s_ 10 15);
       Query (lslice zn_q_ 5 10);
       Diagonals (lslice zn_s_ 0 15) (lslice zn_q_ 0 10);
       Query (lslice zn_q_ 10 15);
       Diagonals (lslice zn_s_ 0 15) (lslice zn_q_ 0 15);
       Series (lslice zn_s_ 15 25);
       Query (lslice zn_q_ 15 25);
       Diagonals (lslice zn_s_ 5 25) (lslice zn_q_ 10 25);
       Series (lslice zn_s_ 25 40);
       Diagonals (lslice zn_s_ 20 40) (lslice zn_q_ 10 25)] = true.
Succeed Definition Zn_test_streaming_calc_diagonal :=
  (eq_refl true <: Zn_test_streaming_calc_diagonal_ (Zn noise0),
   eq_refl true <: Zn_test_streaming_calc_diagonal_ (Zn noise2)).
Definition Zn_test_streaming_calc_column_no_cache_ (G : gen) : Prop :=
  passes G 5 (g_str G 5 20 (Some 15))
      [Series (lslice zn_s_ 0 10);
       Query (lslice zn_q_ 0 5);
       Columns (lslice zn_s_ 0 10) (lslice zn_q_ 0 5) true;
       Series (lslice zn_s_ 10 15);
       Query (lslice zn_q_ 5 10);
       Columns (lslice zn_s_ 0 15) (lslice zn_q_ 0 10) true;
       Query (lslice zn_q_ 10 15);
       Columns (lslice zn_s_ 0 15) (lslice zn_q_ 0 15) true;
       Series (lslice zn_s_ 15 25);
       Query (lslice zn_q_ 15 25);
       Columns (lslice zn_s_ 5 25) (lslice zn_q_ 10 25) true;
       Series (lslice zn_s_ 25 40);
       Columns (lslice zn_s_ 20 40) (lslice zn_q_ 10 25) true] = true.
Succeed Definition Zn_test_streaming_calc_column_no_cache :=
  (eq_refl true <: Zn_test_streaming_calc_column_no_cache_ (Zn noise0),
   eq_refl true <: Zn_test_streaming_calc_column_no_cache_ (Zn noise2)).
Definition Zn_test_streaming_calc_column_cache_ (G : gen) : Prop :=
  passes G 5 (g_str G 5 20 (Some 15))
      [Series (lslice zn_s_ 0 10);
       Query (lslice zn_q_ 0 5);
       Columns (lslice zn_s_ 0 10) (lslice zn_q_ 0 5) false;
       Series (lslice zn_s_ 10 15);
       Query (lslice zn_q_ 5 10);
       Columns (lslice zn_s_ 0 15) (lslice zn_q_ 0 10) false;
       Query (lslice zn_q_ 10 15);
       Columns (lslice zn_s_ 0 15) (lslice zn_q_ 0 15) false;
       Series (lslice zn_s_ 15 25);
       Query (lslice zn_q_ 15 25);
       Columns (lslice zn_s_ 5 25) (lslice zn_q_ 10 25) false;
       Series (lslice zn_s_ 25 40);
       Columns (lslice zn_s_ 20 40) (lslice zn_q_ 10 25) false] = true.
Succeed Definition Zn_test_streaming_calc_column_cache :=
  (eq_refl true <: Zn_test_streaming_calc_column_cache_ (Zn noise0),
   eq_refl true <: Zn_test_streaming_calc_column_cache_ (Zn noise2)).
Definition Zn_test_streaming_updates_cached_row_ (G : gen) : Prop :=
  passes G 5 (g_str G 5 10 (Some 10))
      [Series (lslice up_s 0 10);
       Query (lslice up_q 0 10);
       Column 0 (lslice up_s 0 15) (lslice up_q 0 10) 0;
       Series (lslice up_s 10 11);
       Column 0 (lslice up_s 0 15) (lslice up_q 0 10) 1;
       Column 3 (lslice up_s 0 15) (lslice up_q 0 10) 4;
       Series (lslice up_s 11 12);
       Column 4 (lslice up_s 0 15) (lslice up_q 0 10) 6] = true.
Example Zn_test_streaming_updates_cached_row : Zn_test_streaming_updates_cached_row_ (Zn noise0) /\ Zn_test_streaming_updates_cached_row_ (Zn noise2).
Proof. split; vm_compute; reflexivity. Qed.
Definition Zn_test_streaming_self_join_calc_diagonal_ (G : gen) : Prop :=
  passes G 5 (g_str G 5 20 None)
      [Series (lslice zn_s_ 0 10);
       Diagonals (lslice zn_s_ 0 10) (lslice zn_s_ 0 10);
       Series (lslice zn_s_ 10 15);
       Diagonals (lslice zn_s_ 0 15) (lslice zn_s_ 0 15);
       Series (lslice zn_s_ 15 16);
       Diagonals (lslice zn_s_ 0 16) (lslice zn_s_ 0 16);
       Series (lslice zn_s_ 16 40);
       Diagonals (lslice zn_s_ 20 40) (lslice zn_s_ 20 40)] = true.
Succeed Definition Zn_test_streaming_self_join_calc_diagonal :=
  (eq_refl true <: Zn_test_streaming_self_join_calc_diagonal_ (Zn noise0),
   eq_refl true <: Zn_test_streaming_self_join_calc_diagonal_ (Zn noise2)).
Definition Zn_test_streaming_self_join_calc_column_no_cache_ (G : gen) : Prop :=
  passes G 5 (g_str G 5 20 None)
      [Series (lslice zn_s_ 0 10);
       Columns (lslice zn_s_ 0 10) (lslice zn_s_ 0 10) true;
       Series (lslice zn_s_ 10 15);
       Columns (lslice zn_s_ 0 15) (lslice zn_s_ 0 15) true;
       Series (lslice zn_s_ 15 16);
       Columns (lslice zn_s_ 0 16) (lslice zn_s_ 0 16) true;
       Series (lslice zn_s_ 16 40);
       Columns (lslice zn_s_ 20 40) (lslice zn_s_ 20 40) true] = true.
Succeed Definition Zn_test_streaming_self_join_calc_column_no_cache :=
  (eq_refl true <: Zn_test_streaming_self_join_calc_column_no_cache_ (Zn noise0),
   eq_refl true <: Zn_test_streaming_self_join_calc_column_no_cache_ (Zn noise2)).
Definition Zn_test_streaming_self_join_calc_column_cache_ (G : gen) : Prop :=
  passes G 5 (g_str G 5 20 None)
      [Series (lslice zn_s_ 0 10);
       Columns (lslice zn_s_ 0 10) (lslice zn_s_ 0 10) false;
       Series (lslice zn_s_ 10 15);
       Columns (lslice zn_s_ 0 15) (lslice zn_s_ 0 15) false;
       Series (lslice zn_s_ 15 16);
       Columns (lslice zn_s_ 0 16) (lslice zn_s_ 0 16) false;
       Series (lslice zn_s_ 16 40);
       Columns (lslice zn_s_ 20 40) (lslice zn_s_ 20 40) false] = true.
Succeed Definition Zn_test_streaming_self_join_calc_column_cache :=
  (eq_refl true <: Zn_test_streaming_self_join_calc_column_cache_ (Zn noise0),
   eq_refl true <: Zn_test_streaming_self_join_calc_column_cache_ (Zn noise2)).

Definition all_singles (g : zn) (h w : nat) : res (mat N) := mapM (fun r => mapM (fun c => zn_calc_single g r c None) (seq 0 w)) (seq 0 h).
Definition single_ok (noise : N) : Prop :=
  match (do g <- zn_prepare mem memb noise 2%Q 5 zn_s_ (Some zn_q_); all_singles g (length zn_q_ - 4) (length zn_s_ - 4)) with
  | Ok mx => all2 (allclose (Dec 1 10)) mx (zn_brute noise 5 zn_s_ zn_q_)
  | Err _ => false
  end = true.
Succeed Definition Zn_test_non_streaming_calc_single :=
  (eq_refl true <: single_ok noise0,
   eq_refl true <: single_ok noise2).

Definition stab : list N := [Fin (f64_of 86722167851451 (-43)); Fin (f64_of 5073893999666983 (-48)); Fin (f64_of 8941988087911185 (-132)); F 0; F 0].
Definition stable (noise : N) : Prop :=
  match (do g <- zn_prepare mem memb noise 2%Q 3 stab (Some stab);
         do c0 <- zn_calc_column mem g 0; do c1 <- zn_calc_column mem (fst c0) 1; do c2 <- zn_calc_column mem (fst c1) 2;
         do mx <- all_singles (fst c2) 3 3;
         Ok ([snd c0; snd c1; snd c2], mx)) with
  | Ok (cs, mx) =>
      forallb (forallb (fun x => fleb x (fmul (F 2) (froot (F 3))))) cs &&
      all2 (allclose (Dec 1 10)) cs (map (mat_col mx) [0; 1; 2]) &&
      all2 (allclose (Dec 1 10)) cs (map (mat_col (zn_brute noise 3 stab stab)) [0; 1; 2])
  | Err _ => false
  end = true.
Example Zn_test_numerical_stability : stable noise0 /\ stable noise2.
Proof. split; vm_compute; reflexivity. Qed.
