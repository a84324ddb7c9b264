(** * PropStaleColumn: columns calculated after rejected appends (C108) *)
From Coq Require Import QArith Reals Lra.
From Verif Require Import Np NpFacts MRing PRing MUtil MArith MStats MCache MZnorm MRejected SReal SCalc SGen SStale PArith PStats PCache PGenRun PZdist PZnorm PRejected SRejectJoin PRejectJoin SStaleStats PStaleStats PStaleOne PStaleColumn PropZnorm PropStaleStats.
Set Implicit Arguments.
Open Scope nat_scope.

Lemma columns_state mem memb noise sf m W Wq self H cs g0 g S Q : 0 < m -> m <= W -> (self = false -> m <= Wq) -> (1 <= sf)%Q -> (sf <= 2)%Q -> (0 <= noise)%R ->
  zn_prepare_streaming mem memb (Fin noise) sf m W (if self then None else Some Wq) = Ok g0 -> no_column H ->
  foldM (zn_caught mem) (H ++ map (@CCol (num R)) cs) g0 = Ok g ->
  final W (s_points H) = map (@Fin R) S -> (if self then final W (s_points H) else final Wq (q_points H)) = map (@Fin R) Q ->
  Forall (fun c => c + m <= length S) cs -> m <= length Q ->
  zviews noise m (fin S) (fin Q) (stat_s m W H) (stat_q self m W Wq H) g /\ exists u last, cinv Rmult EZ m W Wq self true u S Q last (zn_c g).
Proof.
  intros Hm HW HWq S1 S2 Hn E0 NC E ES EQ Hcs HQ. rewrite foldM_app in E. apply bind_ok in E as (g1 & E1 & E2).
  pose proof (@run_views mem memb noise sf m W Wq self H g0 g1 Hm HW HWq S1 S2 Hn E0 E1) as V. rewrite EQ, ES in V.
  pose proof (@uncached_run mem H NC g0 g1 (@uncached_start mem memb noise sf m W Wq self g0 E0) E1) as U.
  destruct (zheld_start mem memb Hm HW HWq S1 S2 Hn) as (g0' & E0' & I0). assert (g0' = g0) as -> by congruence.
  pose proof (@zheld_run mem noise m W Wq self H Hm HW HWq [] [] [] [] g0 g1 I0 E1) as I. cbn [app] in I.
  pose proof (@held_cinv noise m W Wq self _ _ _ _ g1 S Q HW I U ES EQ) as C.
  exact (@columns_run mem noise m W Wq self S Q _ _ cs Hm HQ Hcs _ _ g1 g V C E2).
Qed.

(** ** C108, columns: after any appends (exceptions caught) and diagonals, with finite points in the windows, any columns may be calculated, in any order:
    each is calculated from the points in the windows and the statistics held; IndexError if they are too few. *)
Theorem C108_column : forall mem memb noise sf m W Wq self H cs c g0 g S Q, 0 < m -> m <= W -> (self = false -> m <= Wq) -> (1 <= sf)%Q -> (sf <= 2)%Q -> (0 <= noise)%R ->
  zn_prepare_streaming mem memb (Fin noise) sf m W (if self then None else Some Wq) = Ok g0 -> no_column H ->
  foldM (zn_caught mem) (H ++ map (@CCol (num R)) cs) g0 = Ok g ->
  final W (s_points H) = map (@Fin R) S -> (if self then final W (s_points H) else final Wq (q_points H)) = map (@Fin R) Q ->
  Forall (fun c => c + m <= length S) (c :: cs) -> m <= length Q ->
  let ss := stat_s m W H in let sq := stat_q self m W Wq H in
  if (c <? length ss) && (length sq =? length Q + 1 - m)
  then exists g', zn_calc_column mem g c = Ok (g', off_col noise m S Q ss sq c)
  else zn_calc_column mem g c = Err IndexError.
Proof.
  intros mem memb noise sf m W Wq self H cs c g0 g S Q Hm HW HWq S1 S2 Hn E0 NC E ES EQ Hcs HQ ss sq. inversion_clear Hcs as [|? ? Hc Hcs'].
  destruct (@columns_state mem memb noise sf m W Wq self H cs g0 g S Q Hm HW HWq S1 S2 Hn E0 NC E ES EQ Hcs' HQ) as (V & u & last & C).
  pose proof (@views_column mem noise m W Wq self S Q _ _ u last g c Hm V C Hc HQ) as K. fold ss sq in K. destruct (_ && _); [|exact K].
  destruct K as (g' & _ & K & _). eauto.
Qed.
Print Assumptions C108_column.

(** Points one by one: the columns are right as soon as all points in the windows are finite. *)
Theorem C108_column_one_by_one : forall mem memb noise sf m W Wq self H cs c g0 g S Q, 0 < m -> m <= W -> (self = false -> m <= Wq) -> (1 <= sf)%Q -> (sf <= 2)%Q -> (0 <= noise)%R ->
  zn_prepare_streaming mem memb (Fin noise) sf m W (if self then None else Some Wq) = Ok g0 -> no_column H ->
  foldM (zn_caught mem) (H ++ map (@CCol (num R)) cs) g0 = Ok g ->
  one_by_one (s_chunks H) -> (self = false -> one_by_one (q_chunks H) \/ at_once (q_chunks H)) ->
  final W (s_points H) = map (@Fin R) S -> (if self then final W (s_points H) else final Wq (q_points H)) = map (@Fin R) Q ->
  Forall (fun c => c + m <= length S) (c :: cs) -> m <= length Q ->
  exists g', zn_calc_column mem g c = Ok (g', col_dist (zdist noise) m S Q c).
Proof.
  intros mem memb noise sf m W Wq self H cs c g0 g S Q Hm HW HWq S1 S2 Hn E0 NC E Os Oq ES EQ Hcs HQ.
  pose proof (@C108_column mem memb noise sf m W Wq self H cs c g0 g S Q Hm HW HWq S1 S2 Hn E0 NC E ES EQ Hcs HQ) as K. cbn zeta in K.
  destruct (@one_stats m W Wq self H S Q Hm HW HWq Os Oq ES EQ) as (As & Aq). rewrite As, Aq, !map_length, !seq_length, Nat.eqb_refl in K.
  inversion_clear Hcs as [|? ? Hc Hcs']. destruct (Nat.ltb_spec c (length S + 1 - m)); [|lia]. cbn [andb] in K. destruct K as (g' & K). exists g'. rewrite K. do 2 f_equal.
  unfold off_col, col_dist. apply map_ext_in. intros r Hr. apply in_seq in Hr. rewrite right_cell by lia. unfold cell_dist. rewrite !Nat2Z.id. reflexivity.
Qed.
Print Assumptions C108_column_one_by_one.

(** The history of [C108_silent]: its columns can be calculated too, and the first cell is the root of 5.5. *)
Lemma off_col_nth noise m S Q ss sq c r : r < length Q + 1 - m -> nth_error (off_col noise m S Q ss sq c) r = Some (off_cell noise m S Q ss sq (Z.of_nat r) (Z.of_nat c)).
Proof. intro H. unfold off_col. rewrite nth_error_map, nth_error_seq. destruct (Nat.ltb_spec r (length Q + 1 - m)); [reflexivity|lia]. Qed.

Lemma silent_cell : off_cell 0 2 [1; 2; 3; 4; 5]%R [1; 2; 3; 4; 5]%R (stat_s 2 5 silent) (stat_s 2 5 silent) (Z.of_nat 0) (Z.of_nat 0) = Fin (sqrt (11 / 2)).
Proof.
  assert (A : stat_s 2 5 silent = [[4; 0]; [2; 3]; [3; 4]; [4; 5]]%R) by reflexivity. rewrite A. unfold off_cell. change (Z.to_nat (Z.of_nat 0)) with 0. cbn [nth]. cbn zeta.
  change (sub 2 [1; 2; 3; 4; 5]%R 0) with [1; 2]%R. rewrite silent_dist. reflexivity.
Qed.
Example C108_example_column : no_column silent /\ final 5 (s_points silent) = map (@Fin R) [1; 2; 3; 4; 5]%R /\ length (stat_s 2 5 silent) = 4 /\
  Forall (fun c => c + 2 <= 5) [0; 2; 1] /\
  nth_error (off_col 0 2 [1; 2; 3; 4; 5]%R [1; 2; 3; 4; 5]%R (stat_s 2 5 silent) (stat_q true 2 5 0 silent) 0) 0 = Some (Fin (sqrt (11 / 2))).
Proof.
  split; [repeat constructor|]. split; [reflexivity|]. split; [reflexivity|]. split; [repeat constructor; lia|].
  rewrite off_col_nth by (cbn; lia). change (stat_q true 2 5 0 silent) with (stat_s 2 5 silent). rewrite silent_cell. reflexivity.
Qed.
