(** * ConfFilter: the unit tests of distancematrix/tests/generator/test_filter_generator.py, on the model

    The wrapped generator is the mock generator with a record of what it was given. *)
From Coq Require Import QArith.
From Verif Require Import Np Mat MUtil MFilter Inst ConfConsumer ConfCalc.
Open Scope nat_scope.

(** ** TestHelperMethods *)
Definition bits (l : list nat) : list bool := map (fun b => b =? 1) l.
Example test_invalid_data_to_invalid_subseq :
  map (fun l => invalid_subseq (bits l) 3) [[0;0;0;0;0;0]; [1;0;0;0;0;0]; [0;1;0;0;0;0]; [0;0;1;0;0;0]; [0;0;0;1;0;0];
      [0;0;0;0;1;0]; [0;0;0;0;0;1]; [1;0;1;0;0;0]; [0;0;1;0;1;0]] =
  map (fun l => Ok (bits l)) [[0;0;0;0]; [1;0;0;0]; [1;1;0;0]; [1;1;1;0]; [0;1;1;1]; [0;0;1;1]; [0;0;0;1]; [1;1;1;0]; [1;1;1;1]].
Proof. vm_compute; reflexivity. Qed.

(** The mock generator with [appended_series] and [appended_query], or the prepared series and query *)
Record spy := mkSpy { y_g : mock; y_s : list N; y_q : option (list N) }.
Definition ones (l : list N) : list Z := map (fun _ => 1%Z) l.
Definition spy_diag (y : spy) (d : Z) : res (spy * list N) := do r <- mock_diag (y_g y) d; Ok (mkSpy (fst r) (y_s y) (y_q y), snd r).
Definition spy_col (y : spy) (c : nat) : res (spy * list N) := do r <- mock_col (y_g y) c; Ok (mkSpy (fst r) (y_s y) (y_q y), snd r).
Definition spy_s (y : spy) (v : list N) : res spy := do g <- mock_app_s (y_g y) (ones v); Ok (mkSpy g (y_s y ++ v) (y_q y)).
Definition spy_q (y : spy) (v : list N) : res spy :=
  do g <- mock_app_q (y_g y) (ones v); Ok (mkSpy g (y_s y) (option_map (fun q => q ++ v) (y_q y))).
Definition spy_prepare (mx : mat N) (m : nat) (s : list N) (q : option (list N)) : res spy :=
  do g <- mock_prepare mx (Z.of_nat m) (ones s) (option_map ones q); Ok (mkSpy g s q).
Definition spy_streaming (mx : mat N) (m W : nat) (Wq : option nat) : res spy :=
  do g <- mock_streaming mx (Z.of_nat m) (Z.of_nat W) (option_map Z.of_nat Wq); Ok (mkSpy g [] (Some [])).

Definition arange (h w : Z) : mat N := build h w (fun r c => Fz (w * r + c)).
Definition z (l : list Z) : list N := map Fz l.
Notation i := PInf.
Definition fin (a : Z) : N := Fz a.
Definition mb (_ : nat) : bool := true.

(** ** TestFilterGenerator *)
Definition fprep (mx : mat N) (s : list N) (q : option (list N)) := fb_prepare (is_not_finite (A := Z)) (spy_prepare mx) 2%Q 3 s q.
Example test_data_points_are_filtered_for_different_query_and_series :
  (do f <- fprep (arange 3 4) ([fin 1; i; fin 3; fin 4; fin 5; i]) (Some ([i; fin 2; fin 3; fin 4; i])); Ok (y_s (fb_g f), y_q (fb_g f))) =
  Ok (z [1; 0; 3; 4; 5; 0]%Z, Some (z [0; 2; 3; 4; 0]%Z)).
Proof. vm_compute; reflexivity. Qed.
Example test_data_points_are_filtered_for_self_join :
  (do f <- fprep (arange 3 3) ([i; fin 2; fin 3; fin 4; i]) None; Ok (y_s (fb_g f), y_q (fb_g f))) = Ok (z [0; 2; 3; 4; 0]%Z, None).
Proof. vm_compute; reflexivity. Qed.
Definition inv_data := fprep (arange 3 4) ([fin 1; i; fin 3; fin 4; fin 5; fin 6]) (Some ([fin 1; fin 2; fin 3; fin 4; i])).
Example test_calc_column_with_invalid_data :
  (do f <- inv_data; mapM (fun c => do r <- fb_calc_column spy_col f c; Ok (snd r)) [0; 1; 2; 3]) =
  Ok ([[i; i; i]; [i; i; i]; [fin 2; fin 6; i]; [fin 3; fin 7; i]]).
Proof. vm_compute; reflexivity. Qed.
Example test_calc_diag_with_invalid_data :
  (do f <- inv_data; mapM (fun d => do r <- fb_calc_diagonal spy_diag f d; Ok (snd r)) [-2; -1; 0; 1; 2; 3]%Z) =
  Ok ([[i]; [i; i]; [i; i; i]; [i; fin 6; i]; [fin 2; fin 7]; [fin 3]]).
Proof. vm_compute; reflexivity. Qed.

(** ** TestStreamingFilterGenerator: a list of operations, each with what it must return *)
Inductive op :=
  | Series (v : list N) | Query (v : list N)
  | Got (s q : list Z)                     (* appended_series, appended_query *)
  | Col (c : nat) (v : list N) | Dia (d : Z) (v : list N).
Definition eqn (a b : N) : bool := match a, b with NaN, NaN | PInf, PInf | NInf, NInf => true | Fin a, Fin b => Z.eqb a b | _, _ => false end.
Fixpoint eql {T} (e : T -> T -> bool) (a b : list T) : bool :=
  match a, b with [], [] => true | x :: a, y :: b => e x y && eql e a b | _, _ => false end.
Definition check (b : bool) {T} (x : T) : res T := if b then Ok x else Err RuntimeError.
Definition run_op (f : fstream spy) (o : op) : res (fstream spy) :=
  match o with
  | Series v => fs_append_series spy_s (is_not_finite (A := Z)) f v
  | Query v => fs_append_query spy_q (is_not_finite (A := Z)) f v
  | Got s q => check (eql eqn (y_s (fs_g f)) (z s) && match y_q (fs_g f) with Some l => eql eqn l (z q) | None => false end) f
  | Col c v => do r <- fs_calc_column spy_col f c; check (eql eqn (snd r) v) (fst r)
  | Dia d v => do r <- fs_calc_diagonal spy_diag f d; check (eql eqn (snd r) v) (fst r)
  end.
Definition scenario (mx : mat N) (Wq : option nat) (l : list op) : bool :=
  match (do f <- fs_prepare mb (spy_streaming mx) 2%Q 3 6 Wq; foldM run_op l f) with Ok _ => true | Err _ => false end.

Example test_streaming_data_points_are_filtered_for_different_query_and_series :
  scenario (arange 3 4) (Some 5)
    [Got [] [];
     Series [fin 0; i; fin 1; fin 2]; Query [i]; Got [0; 0; 1; 2]%Z [0]%Z;
     Series [fin 3; fin 4; fin 5]; Query (z [0; 1; 2; 3; 4; 5]%Z); Got [0; 0; 1; 2; 3; 4; 5]%Z [0; 0; 1; 2; 3; 4; 5]%Z;
     Series [fin 6; fin 7; NaN]; Query (z [6; 7]%Z); Got [0; 0; 1; 2; 3; 4; 5; 6; 7; 0]%Z [0; 0; 1; 2; 3; 4; 5; 6; 7]%Z] = true.
Proof. vm_compute; reflexivity. Qed.

Example test_streaming_data_points_are_filtered_for_self_join :
  scenario (arange 3 3) None
    [Got [] []; Series (z [0; 1; 2; 3]%Z); Got [0; 1; 2; 3]%Z [];
     Series [NaN; i; fin 4; fin 5; fin 6]; Got [0; 1; 2; 3; 0; 0; 4; 5; 6]%Z [];
     Series (z [7; 8; 9]%Z); Got [0; 1; 2; 3; 0; 0; 4; 5; 6; 7; 8; 9]%Z []] = true.
Proof. vm_compute; reflexivity. Qed.

Example test_streaming_calc_column_with_invalid_data :
  scenario (arange 10 10) (Some 5)
    [Series [fin 0; fin 1; fin 2; fin 3; i];
     Query [fin 0; fin 1; fin 2];
     Got [0; 1; 2; 3; 0]%Z [0; 1; 2]%Z;
     Col 0 [fin 0];
     Col 1 [fin 1];
     Col 2 [i];
     Series [fin 4; fin 5; fin 6];
     Query [fin 3];
     Got [0; 1; 2; 3; 0; 4; 5; 6]%Z [0; 1; 2; 3]%Z;
     Col 0 [i; i];
     Col 1 [i; i];
     Col 2 [i; i];
     Col 3 [fin 5; fin 15];
     Series [fin 7];
     Query [i; fin 4];
     Got [0; 1; 2; 3; 0; 4; 5; 6; 7]%Z [0; 1; 2; 3; 0; 4]%Z;
     Col 0 [i; i; i];
     Col 1 [i; i; i];
     Col 2 [fin 15; i; i];
     Col 3 [fin 16; i; i];
     Series [fin 8];
     Query [fin 5; fin 6];
     Got [0; 1; 2; 3; 0; 4; 5; 6; 7; 8]%Z [0; 1; 2; 3; 0; 4; 5; 6]%Z;
     Col 0 [i; i; i];
     Col 1 [i; i; fin 55];
     Col 2 [i; i; fin 56];
     Col 3 [i; i; fin 57];
     Query [fin 7];
     Got [0; 1; 2; 3; 0; 4; 5; 6; 7; 8]%Z [0; 1; 2; 3; 0; 4; 5; 6; 7]%Z;
     Col 0 [i; i; i];
     Col 1 [i; fin 55; fin 65];
     Col 2 [i; fin 56; fin 66];
     Col 3 [i; fin 57; fin 67]] = true.
Proof. vm_compute; reflexivity. Qed.

Example test_streaming_self_join_calc_column_with_invalid_data :
  scenario (arange 10 10) None
    [Series [fin 0; fin 1; fin 2; fin 3; i];
     Got [0; 1; 2; 3; 0]%Z [];
     Col 0 [fin 0; fin 10; i];
     Col 1 [fin 1; fin 11; i];
     Col 2 [i; i; i];
     Series [fin 4; fin 5; fin 6];
     Got [0; 1; 2; 3; 0; 4; 5; 6]%Z [];
     Col 0 [i; i; i; i];
     Col 1 [i; i; i; i];
     Col 2 [i; i; i; i];
     Col 3 [i; i; i; fin 55];
     Series [fin 7];
     Got [0; 1; 2; 3; 0; 4; 5; 6; 7]%Z [];
     Col 0 [i; i; i; i];
     Col 1 [i; i; i; i];
     Col 2 [i; i; fin 55; fin 65];
     Col 3 [i; i; fin 56; fin 66];
     Series [fin 8; fin 9];
     Got [0; 1; 2; 3; 0; 4; 5; 6; 7; 8; 9]%Z [];
     Col 0 [fin 55; fin 65; fin 75; fin 85];
     Col 1 [fin 56; fin 66; fin 76; fin 86];
     Col 2 [fin 57; fin 67; fin 77; fin 87];
     Col 3 [fin 58; fin 68; fin 78; fin 88]] = true.
Proof. vm_compute; reflexivity. Qed.

Example test_streaming_calc_diag_with_invalid_data :
  scenario (arange 10 10) (Some 5)
    [Series [fin 0; fin 1; fin 2];
     Query [i; fin 1; fin 2];
     Got [0; 1; 2]%Z [0; 1; 2]%Z;
     Dia (0) [i];
     Query [fin 3; fin 4; fin 5];
     Got [0; 1; 2]%Z [0; 1; 2; 3; 4; 5]%Z;
     Dia (0) [fin 10];
     Dia (-1) [fin 20];
     Dia (-2) [fin 30];
     Series [fin 3; fin 4; NaN];
     Query [i; fin 6; fin 7];
     Got [0; 1; 2; 3; 4; 0]%Z [0; 1; 2; 3; 4; 5; 0; 6; 7]%Z;
     Dia (0) [i; i; i];
     Dia (-1) [i; i];
     Dia (-2) [i];
     Dia (1) [i; i; i];
     Dia (2) [i; i];
     Dia (3) [i];
     Series [fin 5; fin 6; fin 7; fin 8];
     Query [fin 8];
     Got [0; 1; 2; 3; 4; 0; 5; 6; 7; 8]%Z [0; 1; 2; 3; 4; 5; 0; 6; 7; 8]%Z;
     Dia (0) [i; i; fin 76];
     Dia (-1) [i; i];
     Dia (-2) [i];
     Dia (1) [i; i; fin 77];
     Dia (2) [i; i];
     Dia (3) [i];
     Series [fin 9];
     Query [fin 9];
     Got [0; 1; 2; 3; 4; 0; 5; 6; 7; 8; 9]%Z [0; 1; 2; 3; 4; 5; 0; 6; 7; 8; 9]%Z;
     Dia (0) [i; fin 76; fin 87];
     Dia (-1) [i; fin 86];
     Dia (-2) [i];
     Dia (1) [i; fin 77; fin 88];
     Dia (2) [i; fin 78];
     Dia (3) [i]] = true.
Proof. vm_compute; reflexivity. Qed.

Example test_streaming_self_join_calc_diag_with_invalid_data :
  scenario (arange 10 10) None
    [Series [i; fin 1; fin 2];
     Got [0; 1; 2]%Z [];
     Dia (0) [i];
     Series [fin 3; fin 4; fin 5];
     Got [0; 1; 2; 3; 4; 5]%Z [];
     Dia (0) [i; fin 11; fin 22; fin 33];
     Dia (-1) [i; fin 21; fin 32];
     Dia (-2) [i; fin 31];
     Dia (-3) [i];
     Dia (1) [i; fin 12; fin 23];
     Dia (2) [i; fin 13];
     Dia (3) [i];
     Series [fin 6; fin 7; NaN];
     Got [0; 1; 2; 3; 4; 5; 6; 7; 0]%Z [];
     Dia (0) [fin 33; fin 44; fin 55; i];
     Dia (-1) [fin 43; fin 54; i];
     Dia (-2) [fin 53; i];
     Dia (-3) [i];
     Dia (1) [fin 34; fin 45; i];
     Dia (2) [fin 35; i];
     Dia (3) [i]] = true.
Proof. vm_compute; reflexivity. Qed.
