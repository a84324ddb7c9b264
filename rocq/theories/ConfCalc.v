(** * ConfCalc: the unit tests of distancematrix/tests/test_calculator.py, on the model

    The generator is that of distancematrix/tests/generator/mock_generator.py.  random.shuffle is tried with two
    permutations (none and reversal). *)
From Coq Require Import QArith.
From Verif Require Import Np Mat MUtil MDist MProfile MCalc SLog SCalc Inst PropCalc ConfConsumer.
Open Scope nat_scope.

(** BoundMockGenerator *)
Record mock := mkMock { k_m : mat N; k_sw : Z; k_qw : Z; k_self : bool; k_s : Z; k_q : Z }.
Definition k_view (g : mock) : mat N := sub (k_m g) (Z.max (k_q g) 0) (Z.max (k_q g + k_qw g) 0) (Z.max (k_s g) 0) (Z.max (k_s g + k_sw g) 0).
Definition mock_diag (g : mock) (d : Z) : res (mock * list N) := Ok (g, on_diag (k_view g) d).
Definition mock_col (g : mock) (c : nat) : res (mock * list N) :=
  if (Z.of_nat c <? wid (k_view g))%Z then Ok (g, on_col (k_view g) (Z.of_nat c)) else Err IndexError.
Definition mock_app_s (g : mock) (v : list Z) : res mock :=
  let n := Z.of_nat (length v) in Ok (mkMock (k_m g) (k_sw g) (k_qw g) (k_self g) (k_s g + n) (if k_self g then k_q g + n else k_q g)%Z).
Definition mock_app_q (g : mock) (v : list Z) : res mock :=
  if k_self g then Err RuntimeError else Ok (mkMock (k_m g) (k_sw g) (k_qw g) (k_self g) (k_s g) (k_q g + Z.of_nat (length v))%Z).
Definition mock_prepare (mx : mat N) (m : Z) (series : list Z) (query : option (list Z)) : res mock :=
  let w := (Z.of_nat (length series) - m + 1)%Z in
  match query with
  | None => Ok (mkMock mx w w true 0 0)
  | Some q => Ok (mkMock mx w (Z.of_nat (length q) - m + 1) false 0 0)
  end.
Definition mock_streaming (mx : mat N) (m sw : Z) (qw : option Z) : res mock :=
  match qw with
  | None => Ok (mkMock mx (sw - m + 1) (sw - m + 1) true (- sw) (- sw))
  | Some q => Ok (mkMock mx (sw - m + 1) (q - m + 1) false (- sw) (- q))
  end.

(** DistanceMatrix, and SummingConsumer: the sum of its channels *)
Inductive cons_ := CDist (m : mat N) | CSum (m : mat N).
Definition content (c : cons_) : mat N := match c with CDist m => m | CSum m => m end.
Definition sum_chan (v : list (list N)) : list (list N) :=
  match v with [] => [] | r :: v => [fold_left (fun a b => map (fun p => fadd (fst p) (snd p)) (combine a b)) v r] end.
Definition cstep (c : cons_) (e : event N) : res cons_ :=
  match c with
  | CDist m => do m' <- dm_step m e; Ok (CDist m')
  | CSum m =>
      do m' <- dm_step m (match e with EDiag d v => EDiag d (sum_chan v) | ECol k v => ECol k (sum_chan v) | e => e end);
      Ok (CSum m')
  end.
Definition init_dist (dims : nat) (h w : Z) : res cons_ := do m <- dm_init dims (Z.to_nat h) (Z.to_nat w); Ok (CDist m).
Definition init_sum (dims : nat) (h w : Z) : res cons_ := do m <- dm_init 1 (Z.to_nat h) (Z.to_nat w); Ok (CSum m).
Definition build (h w : Z) (f : Z -> Z -> N) : mat N := map (fun r => map (f r) (pyrange 0 w)) (pyrange 0 h).

(** ** TestAnytimeCalculator *)
Definition M1 : mat N := build 10 20 (fun r c => Fz (20 * r + c)).
Definition M2 : mat N := build 10 20 (fun r c => Fz 1).
Definition M3 : mat N := build 10 20 (fun r c => NaN).
Definition M4 : mat N := build 10 20 (fun r c => Fz 5).
Definition MS : mat N := build 10 20 (fun r c => Fz (20 * r + c + 1 + 5)).
Definition with_calc {S} (a : any Z mock cons_) (f : calc mock cons_ -> res (calc mock cons_)) (k : any Z mock cons_ -> res S) : res S :=
  do s <- f (an_calc a); k (mkAny s (an_series a) (an_query a) (an_order a) (an_total a) (an_next a) (an_done a)).
Definition simple (shuffle : list Z -> list Z) : res (any Z mock cons_) :=
  do a <- any_new mock cons_ shuffle 4 [pyrange 0 23] (Some [pyrange 0 13]) None;
  do a <- foldM (fun a m => any_add_generator (mock_prepare m) a 0) [M1; M2; M3; M4] a;
  with_calc a (fun s => add_consumer s [0] init_dist) (fun a =>
  with_calc a (fun s => add_consumer s [3] init_dist) (fun a =>
  with_calc a (fun s => add_consumer s [0; 1; 3] init_sum) (fun a => Ok a))).
Definition contents {X G} (a : any X G cons_) : list (mat N) := map (fun c => content (fst c)) (ca_cons (an_calc a)).
Definition columns (a : any Z mock cons_) (start : option request) (upto : request) : res (any Z mock cons_) :=
  any_columns mock_col cstep dedup never a start upto.
Definition diagonals_ (a : any Z mock cons_) (partial : request) : res (any Z mock cons_) :=
  calculate_diagonals mock_diag cstep dedup never a partial.
Definition one : request := RFloat (Fin 1%Q).
Definition id_ (l : list Z) : list Z := l.
Definition triple (p : Z -> Z -> bool) : list (mat N) := map (fun m => where_m m (fun r c => negb (p r c)) NaN) [M1; M4; MS].

Example test_simple_calculate_columns : (do a <- simple id_; do a <- columns a None one; Ok (contents a)) = Ok [M1; M4; MS].
Proof. vm_compute; reflexivity. Qed.

Example test_simple_calculate_columns_partial :
  (do a <- simple id_;
   do a1 <- columns a (Some (RInt 3)) (RFloat (Fin (6 # 10)));
   do a2 <- columns a1 None (RInt 15);
   do a3 <- columns a2 None one;
   do a4 <- columns a3 (Some (RFloat (Fin 0%Q))) (RInt 3);
   Ok (map contents [a1; a2; a3; a4])) =
  Ok [triple (fun r c => (3 <=? c) && (c <? 12))%Z; triple (fun r c => (3 <=? c) && (c <? 15))%Z; triple (fun r c => (3 <=? c))%Z; [M1; M4; MS]].
Proof. vm_compute; reflexivity. Qed.

Example test_simple_calculate_diagonals :
  (do a <- simple id_; do a <- diagonals_ a one; Ok (contents a)) = Ok [M1; M4; MS] /\
  (do a <- simple (@rev Z); do a <- diagonals_ a one; Ok (contents a)) = Ok [M1; M4; MS].
Proof. split; vm_compute; reflexivity. Qed.

(** [np.count_nonzero(~np.isnan(m))] *)
Definition known (m : mat N) : nat := length (filter (fun x => match x with NaN => false | _ => true end) (concat m)).
Definition partial_ok (shuffle : list Z -> list Z) : Prop :=
  exists a1 a2 a3 n1 n2,
    bind (simple shuffle) (fun a => diagonals_ a (RInt 20)) = Ok a1 /\ diagonals_ a1 (RFloat (Fin (8 # 10))) = Ok a2 /\ diagonals_ a2 one = Ok a3 /\
    map known (contents a1) = [n1; n1; n1] /\ 20 <= n1 < 30 /\ map known (contents a2) = [n2; n2; n2] /\ 160 <= n2 < 170 /\
    Forall (fun d => on_diag (nth 0 (contents a1) []) d = on_diag M1 d) (firstn 3 (an_order a1)) /\
    map known (contents a3) = [200; 200; 200] /\ contents a3 = [M1; M4; MS].
Example test_simple_calculate_diagonals_partial : partial_ok id_ /\ partial_ok (@rev Z).
Proof.
  split; do 5 eexists; (split; [vm_compute; reflexivity|]); (split; [vm_compute; reflexivity|]); (split; [vm_compute; reflexivity|]);
    (split; [vm_compute; reflexivity|]); (split; [vm_compute; lia|]); (split; [vm_compute; reflexivity|]); (split; [vm_compute; lia|]);
    (split; [repeat constructor|]); split; vm_compute; reflexivity.
Qed.

(** One generator and one consumer *)
Definition single (m : mat N) (buffer : option Z) (shuffle : list Z -> list Z) : res (any Z mock cons_) :=
  do a <- any_new mock cons_ shuffle 4 [pyrange 0 23] None buffer;
  do a <- any_add_generator (mock_prepare m) a 0;
  with_calc a (fun s => add_consumer s [0] init_dist) (fun a => Ok a).
Definition count (r c : Z) : Z := (20 * r + c + 1)%Z.
Example test_simple_calculate_self_join_diagonals :
  let upper := build 20 20 (fun r c => if (3 <=? c - r)%Z then Fz (count r c) else Fz 0) in
  (do a <- single upper (Some 2%Z) id_; do a' <- diagonals_ a one; Ok (forallb (fun d => 2 <? d)%Z (an_order a), contents a')) =
  Ok (true, [build 20 20 (fun r c => if (3 <=? c - r)%Z then Fz (count r c) else if (3 <=? r - c)%Z then Fz (count c r) else NaN)]).
Proof. vm_compute; reflexivity. Qed.
Example test_simple_calculate_self_join_columns :
  (do a <- single (build 20 20 (fun r c => Fz (count r c))) (Some 2%Z) id_; do a' <- columns a None one; Ok (contents a')) =
  Ok [build 20 20 (fun r c => if (Z.abs (c - r) <=? 2)%Z then PInf else Fz (count r c))].
Proof. vm_compute; reflexivity. Qed.

(** ** TestStreamingCalculator *)
Definition ST : mat N := build 9 10 (fun r c => Fz (10 + 10 * r + c)).
Definition stream (sw : Z) (qw : option Z) (buffer : option Z) : res (stm mock cons_) :=
  do t <- stm_new mock cons_ 101 sw qw 1 buffer;
  do t <- stm_add_generator (mock_streaming ST) t 0;
  do s <- add_consumer (st_calc t) [0] init_dist;
  Ok (mkStm s (st_sp t) (st_qp t)).
Inductive call := Calc (start : option request) (upto : request) | AppS (n : nat) | AppQ (n : nat).
Definition run_call (t : stm mock cons_) (c : call) : res (stm mock cons_) :=
  match c with
  | Calc a b => stm_columns mock_col cstep dedup never t a b
  | AppS n => append_series mock_app_s cstep t (Pts [repeat 0%Z n])
  | AppQ n => append_query mock_app_q cstep t (Pts [repeat 0%Z n])
  end.
(** The matrix after every call *)
Definition trace (t : res (stm mock cons_)) (cs : list call) : res (list (mat N)) :=
  do t <- t;
  do r <- foldM (fun st c => do t <- run_call (fst st) c; Ok (t, snd st ++ map (fun x => content (fst x)) (ca_cons (st_calc t)))) cs (t, []);
  Ok (snd r).
Definition nn : Z := nan.

Definition sj1 : mat N := fmn [[10; 11; 12; 13; nn; nn]; [20; 21; 22; 23; nn; nn]; [30; 31; 32; 33; nn; nn]; [40; 41; 42; 43; nn; nn];
  [nn; nn; nn; nn; nn; nn]; [nn; nn; nn; nn; nn; nn]]%Z.
Definition sj2 : mat N := fmn [[10; 11; 12; 13; 14; 15]; [20; 21; 22; 23; 24; 25]; [30; 31; 32; 33; 34; 35]; [40; 41; 42; 43; 44; 45];
  [nn; nn; nn; nn; 54; 55]; [nn; nn; nn; nn; 64; 65]]%Z.
Definition sj3 : mat N := fmn [[32; 33; 34; 35; nn; nn]; [42; 43; 44; 45; nn; nn]; [nn; nn; 54; 55; nn; nn]; [nn; nn; 64; 65; nn; nn];
  [nn; nn; nn; nn; nn; nn]; [nn; nn; nn; nn; nn; nn]]%Z.
Definition sj4 : mat N := fmn [[32; 33; 34; 35; 36; 37]; [42; 43; 44; 45; 46; 47]; [nn; nn; 54; 55; 56; 57]; [nn; nn; 64; 65; 66; 67];
  [nn; nn; nn; nn; 76; 77]; [nn; nn; nn; nn; 86; 87]]%Z.
Definition sj5 : mat N := fmn [[32; 33; 34; 35; 36; 37]; [42; 43; 44; 45; 46; 47]; [52; 53; 54; 55; 56; 57]; [62; 63; 64; 65; 66; 67];
  [72; 73; 74; 75; 76; 77]; [82; 83; 84; 85; 86; 87]]%Z.
Definition empty (h w : nat) : mat N := repeat (repeat NaN w) h.
Example test_streaming_calculate_columns_self_join :
  trace (stream 106 None (Some (-1)%Z))
    [Calc None one; AppS 104; Calc None one; AppS 2; Calc None one; AppS 2; Calc None one; Calc (Some (RInt 0)) one] =
  Ok [empty 6 6; empty 6 6; sj1; sj1; sj2; sj3; sj4; sj5].
Proof. vm_compute; reflexivity. Qed.

Definition j1 : mat N := fmn [[10; 11; nn; nn; nn; nn]; [20; 21; nn; nn; nn; nn]; [30; 31; nn; nn; nn; nn]; [nn; nn; nn; nn; nn; nn]; [nn; nn; nn; nn; nn; nn]]%Z.
Definition j2 : mat N := fmn [[10; 11; 12; 13; 14; nn]; [20; 21; 22; 23; 24; nn]; [30; 31; 32; 33; 34; nn]; [nn; nn; nn; nn; nn; nn]; [nn; nn; nn; nn; nn; nn]]%Z.
Definition j3 : mat N := fmn [[10; 11; 12; 13; 14; nn]; [20; 21; 22; 23; 24; nn]; [30; 31; 32; 33; 34; nn]; [nn; nn; 42; 43; 44; nn]; [nn; nn; 52; 53; 54; nn]]%Z.
Definition j4 : mat N := fmn [[32; 33; 34; nn; nn; nn]; [42; 43; 44; nn; nn; nn]; [52; 53; 54; nn; nn; nn]; [nn; nn; nn; nn; nn; nn]; [nn; nn; nn; nn; nn; nn]]%Z.
Definition j5 : mat N := fmn [[32; 33; 34; 35; 36; 37]; [42; 43; 44; 45; 46; 47]; [52; 53; 54; 55; 56; 57]; [nn; nn; nn; 65; 66; 67]; [nn; nn; nn; 75; 76; 77]]%Z.
Definition j6 : mat N := fmn [[32; 33; 34; 35; 36; 37]; [42; 43; 44; 45; 46; 47]; [52; 53; 54; 55; 56; 57]; [62; 63; 64; 65; 66; 67]; [72; 73; 74; 75; 76; 77]]%Z.
(** The tests do not look at the matrix between the appends of series and query; here it is checked after every call. *)
Example test_streaming_calculate_columns : exists half,
  trace (stream 106 (Some 105%Z) None)
    [Calc None one; AppS 102; AppQ 103; Calc None one; AppS 3; Calc None one; AppQ 2; Calc None one; Calc (Some (RInt 2)) one;
     AppS 3; AppQ 2; Calc None one; Calc (Some (RInt 0)) one] =
  Ok [empty 5 6; empty 5 6; empty 5 6; j1; j1; j2; j2; j2; j3; half; j4; j5; j6].
Proof. eexists. vm_compute; reflexivity. Qed.

(** ** TestHelperMethods *)
Example test_ratio_to_int : ratio_to_int (RInt 5) 20 10 = Ok 5%Z /\ ratio_to_int (RInt 15) 20 10 = Ok 10%Z /\ ratio_to_int (RFloat (Fin (1 # 4))) 20 10 = Ok 5%Z /\
  ratio_to_int (RFloat (Fin (3 # 4))) 20 10 = Ok 10%Z /\ ratio_to_int (RFloat (Fin (3 # 4))) 20 20 = Ok 15%Z.
Proof. repeat split; vm_compute; reflexivity. Qed.
