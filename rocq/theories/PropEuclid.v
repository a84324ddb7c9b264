(** * PropEuclid: properties of distancematrix/generator/euclidean.py *)
From Coq Require Import QArith Reals Lra Sorted.
From Verif Require Import Np NpFacts MEuclid SReal SCalc SGen PEuclid.
Set Implicit Arguments.
Open Scope nat_scope.

Definition eu_calls (mem : nat -> num R) := grun (eu_calc_column mem) (@eu_calc_diagonal R NumR) (@eu_append_series R) (@eu_append_query R).
Definition eu_batch (mem : nat -> num R) (sf : Q) (m : nat) (S : list R) (q : option (list R)) :=
  eu_prepare mem sf m (fin S) (option_map (map (@Fin R)) q).

(** C12. Diagonals, after any calculations. *)
Theorem C12_diagonals : forall mem sf m S q, let Q := query_or S q in
  0 < m -> m <= length S -> m <= length Q -> (1 <= sf)%Q -> forall H d, calc_only m S Q H -> has_diag m S Q d ->
  exists g0 g, eu_batch mem sf m S q = Ok g0 /\ eu_calls mem g0 (map finc H) = Ok g /\
    eu_calc_diagonal g d = Ok (g, diag_dist euclid m S Q d).
Proof. intros. eapply eu_batch_diag; eassumption. Qed.
Print Assumptions C12_diagonals.

(** C13. Columns, after any calculations in any order: the square is at most 1e-15 too small. *)
Theorem C13_columns : forall mem sf m S q, let Q := query_or S q in
  0 < m -> m <= length S -> m <= length Q -> (1 <= sf)%Q -> forall H c, calc_only m S Q H -> c + m <= length S ->
  exists g0 g g' vs, eu_batch mem sf m S q = Ok g0 /\ eu_calls mem g0 (map finc H) = Ok g /\
    eu_calc_column mem g c = Ok (g', map root vs) /\ length vs = length Q + 1 - m /\
    forall r, r + m <= length Q -> (0 <= sqd (sub m Q r) (sub m S c) - nth r vs 0 < / 10 ^ 15)%R.
Proof. intros. eapply eu_batch_within; eassumption. Qed.
Print Assumptions C13_columns.

Theorem C13_columns_exact : forall mem sf m S q, let Q := query_or S q in
  0 < m -> m <= length S -> m <= length Q -> (1 <= sf)%Q -> separated m S Q -> forall H c, calc_only m S Q H -> c + m <= length S ->
  exists g0 g g', eu_batch mem sf m S q = Ok g0 /\ eu_calls mem g0 (map finc H) = Ok g /\
    eu_calc_column mem g c = Ok (g', col_dist euclid m S Q c).
Proof. intros. eapply eu_batch_exact; eassumption. Qed.
Print Assumptions C13_columns_exact.

Lemma eps_small : (0 < / 10 ^ 15 < 1)%R.
Proof. split; [apply Rinv_0_lt_compat, pow_lt; lra|]. rewrite <- Rinv_1. apply Rinv_lt_contravar; [|simpl; lra]. apply Rmult_lt_0_compat; [lra|apply pow_lt; lra]. Qed.

Definition ex_series : list R := [0; 3; 4]%R.
Definition ex_query : list R := [0; 0; 4; 3]%R.
Example C13_hypotheses : separated 2 ex_series ex_query /\ calc_only 2 ex_series ex_query [CCol 1; CDiag (-2); CCol 0] /\ has_diag 2 ex_series ex_query (-2).
Proof.
  assert (D : has_diag 2 ex_series ex_query (-2)) by (exists 2, 0; cbn; lia).
  split; [|split; [|exact D]].
  - intros i j Hi Hj. pose proof eps_small. unfold ex_series, ex_query in *. cbn [length] in *.
    destruct i as [|[|[|i]]]; [| | |lia]; (destruct j as [|[|j]]; [| |lia]); unfold sqd, psum, rsum, sub; cbn [firstn skipn zip_with fold_right]; lra.
  - intros o [<-|[<-|[<-|[]]]]; [split; cbn; lia|exact D|split; cbn; lia].
Qed.
Example C12_example mem sf (Hsf : (1 <= sf)%Q) : exists g0 g, eu_batch mem sf 2 ex_series (Some ex_query) = Ok g0 /\
  eu_calls mem g0 (map finc [CCol 1; CDiag (-2); CCol 0]) = Ok g /\ eu_calc_diagonal g (-2) = Ok (g, [Fin 4]%R).
Proof.
  destruct C13_hypotheses as (_ & Hc & Hd). destruct (@C12_diagonals mem sf 2 ex_series (Some ex_query)) with (H := [@CCol R 1; CDiag (-2); CCol 0]) (d := (-2)%Z) as (g0 & g & E0 & E1 & E2);
    [lia|cbn; lia|cbn; lia|exact Hsf|exact Hc|exact Hd|].
  exists g0, g. rewrite E2. split; [exact E0|]. split; [exact E1|]. do 2 f_equal.
  cbv [diag_dist diag_of dlen length ex_series ex_query Z.max Z.min Z.opp Z.sub Z.of_nat Nat.add Nat.sub Z.add Z.compare Pos.compare Pos.compare_cont Pos.of_succ_nat Pos.succ Z.pos_sub Z.to_nat Pos.to_nat Pos.iter_op seq map cell_dist query_or Z.double Z.succ_double Z.pred_double Pos.pred_double Pos.add].
  f_equal. f_equal. unfold euclid, sqd, psum, rsum, sub. cbn [firstn skipn zip_with fold_right].
  match goal with |- sqrt ?x = _ => replace x with (4 * 4)%R by lra end. apply sqrt_square. lra.
Qed.
Example C13_example mem sf (Hsf : (1 <= sf)%Q) : exists g0 g g', eu_batch mem sf 2 ex_series (Some ex_query) = Ok g0 /\
  eu_calls mem g0 (map finc [CCol 1; CDiag (-2); CCol 0]) = Ok g /\ eu_calc_column mem g 1 = Ok (g', [Fin 5; Fin 3; Fin (sqrt 2)]%R).
Proof.
  destruct C13_hypotheses as (Hs & Hc & _). destruct (@C13_columns_exact mem sf 2 ex_series (Some ex_query)) with (H := [@CCol R 1; CDiag (-2); CCol 0]) (c := 1) as (g0 & g & g' & E0 & E1 & E2);
    [lia|cbn; lia|cbn; lia|exact Hsf|exact Hs|exact Hc|cbn; lia|].
  exists g0, g, g'. rewrite E2. split; [exact E0|]. split; [exact E1|]. do 2 f_equal.
  unfold col_dist. cbn [length ex_query query_or Nat.add Nat.sub seq map]. unfold euclid, sqd, psum, rsum, sub, ex_series, ex_query. cbn [query_or]. cbn [firstn skipn zip_with fold_right].
  assert (Sq : forall x v, (0 <= v)%R -> x = (v * v)%R -> sqrt x = v) by (intros x v Hv ->; apply sqrt_square; exact Hv).
  f_equal; [f_equal; apply Sq; lra|]. f_equal; [f_equal; apply Sq; lra|]. f_equal. f_equal. f_equal. lra.
Qed.

(** C14. Streaming: after any appends and calculations, columns and diagonals are those of the data in the windows.
    Missing: histories that are not [trusted], for which it is false (below). *)
Definition eu_stream (mem : nat -> num R) (sf : Q) (m W Wq : nat) (self : bool) := eu_prepare_streaming mem sf m W (if self then None else Some Wq).

Theorem C14_streaming_partial : forall mem sf m W Wq (self : bool), 0 < m -> m <= W -> (self = false -> 0 < Wq) -> (1 <= sf)%Q -> (sf <= 2)%Q ->
  forall H c, in_range self m W Wq (H ++ [CCol c]) -> trusted self W (H ++ [CCol c]) ->
  exists g0 g g' vs, eu_stream mem sf m W Wq self = Ok g0 /\ eu_calls mem g0 (map finc H) = Ok g /\ eu_calc_column mem g c = Ok (g', map root vs) /\
    length vs = length (wQ self W Wq H) + 1 - m /\
    forall r, r + m <= length (wQ self W Wq H) -> (0 <= sqd (sub m (wQ self W Wq H) r) (sub m (wS W H) c) - nth r vs 0 < / 10 ^ 15)%R.
Proof. intros. eapply eu_stream_within; eassumption. Qed.
Print Assumptions C14_streaming_partial.

Theorem C14_streaming_exact_partial : forall mem sf m W Wq (self : bool), 0 < m -> m <= W -> (self = false -> 0 < Wq) -> (1 <= sf)%Q -> (sf <= 2)%Q ->
  forall H c, in_range self m W Wq (H ++ [CCol c]) -> trusted self W (H ++ [CCol c]) ->
  (forall H1 c' H2, H ++ [CCol c] = H1 ++ CCol c' :: H2 -> separated m (wS W H1) (wQ self W Wq H1)) ->
  exists g0 g g', eu_stream mem sf m W Wq self = Ok g0 /\ eu_calls mem g0 (map finc H) = Ok g /\
    eu_calc_column mem g c = Ok (g', col_dist euclid m (wS W H) (wQ self W Wq H) c).
Proof. intros. eapply eu_stream_exact; eassumption. Qed.
Print Assumptions C14_streaming_exact_partial.

Theorem C14_streaming_diagonals_partial : forall mem sf m W Wq (self : bool), 0 < m -> m <= W -> (self = false -> 0 < Wq) -> (1 <= sf)%Q -> (sf <= 2)%Q ->
  forall H d, in_range self m W Wq (H ++ [CDiag d]) -> trusted self W H ->
  exists g0 g, eu_stream mem sf m W Wq self = Ok g0 /\ eu_calls mem g0 (map finc H) = Ok g /\
    eu_calc_diagonal g d = Ok (g, diag_dist euclid m (wS W H) (wQ self W Wq H) d).
Proof. intros. eapply eu_stream_diag; eassumption. Qed.
Print Assumptions C14_streaming_diagonals_partial.

(** Evaluation of the model on concrete real numbers *)
Ltac run_model := cbv -[R IZR Rplus Rminus Rmult Rdiv Ropp Rinv sqrt Rltb].
Lemma Rltb_yes a b : (a < b)%R -> Rltb a b = true.
Proof. intro H. unfold Rltb. destruct (Rlt_dec a b); tauto. Qed.
Lemma Rltb_no a b : (b <= a)%R -> Rltb a b = false.
Proof. intro H. unfold Rltb. destruct (Rlt_dec a b); [lra|reflexivity]. Qed.
Ltac decide_Rltb := repeat match goal with |- context [Rltb ?a ?b] =>
  first [rewrite (Rltb_yes (a := a) (b := b)) by lra | rewrite (Rltb_no (a := a) (b := b)) by lra] end.

Definition slip : list (gcall R) := [CSeries [0; 1]; CQuery [0; 1]; CCol 1; CSeries [5]]%R.
Theorem C14_streaming_refuted : exists mem sf m W Wq H c g0 g g' ds, 0 < m /\ m <= W /\ 0 < Wq /\ (1 <= sf)%Q /\ (sf <= 2)%Q /\
  in_range false m W Wq (H ++ [CCol c]) /\
  (forall H1 c' H2, H ++ [CCol c] = H1 ++ CCol c' :: H2 -> separated m (wS W H1) (wQ false W Wq H1)) /\
  eu_stream mem sf m W Wq false = Ok g0 /\ eu_calls mem g0 (map finc H) = Ok g /\ eu_calc_column mem g c = Ok (g', ds) /\
  nth_error ds 1 = Some (Fin 1%R) /\ nth_error (col_dist euclid m (wS W H) (wQ false W Wq H) c) 1 = Some (Fin 0%R).
Proof.
  exists (fun _ => NaN), 2%Q, 1, 3, 2, slip, 1. do 4 eexists.
  split; [lia|]. split; [lia|]. split; [lia|]. split; [discriminate|]. split; [discriminate|].
  assert (D : forall H1 o H2, slip ++ [CCol 1] = H1 ++ o :: H2 ->
    In (H1, o) [([], CSeries [0; 1]); ([CSeries [0; 1]], CQuery [0; 1]); ([CSeries [0; 1]; CQuery [0; 1]], CCol 1);
                ([CSeries [0; 1]; CQuery [0; 1]; CCol 1], CSeries [5]); (slip, CCol 1)]%R).
  { intros H1 o H2 E. destruct H1 as [|o1 [|o2 [|o3 [|o4 [|o5 H1]]]]]; cbn in E; inversion E; subst; cbn; auto 10. destruct H1; discriminate. }
  split.
  { intros H1 o H2 E. apply D in E. cbn [In] in E. destruct E as [E|[E|[E|[E|[E|[]]]]]]; inversion E; subst; auto; unfold has_col; cbn; lia. }
  split.
  { intros H1 c' H2 E. apply D in E. cbn [In] in E. pose proof eps_small. intros i j Hi Hj.
    destruct E as [E|[E|[E|[E|[E|[]]]]]]; inversion E; subst; cbn in Hi, Hj;
      (destruct i as [|[|i]]; [| |lia]); (destruct j as [|[|[|j]]]; [| | |lia]); unfold sqd, psum, rsum; cbn -[pow Rlt]; try lia; lra. }
  split; [run_model; reflexivity|]. split; [run_model; decide_Rltb; reflexivity|].
  split; [run_model; decide_Rltb; reflexivity|].
  assert (Sq : forall x v, (0 <= v)%R -> x = (v * v)%R -> sqrt x = v) by (intros x v Hv ->; apply sqrt_square; exact Hv).
  split.
  - cbn [nth_error]. do 2 f_equal. apply Sq; lra.
  - unfold col_dist. rewrite nth_error_map. cbn -[IZR sqrt]. do 2 f_equal. unfold euclid, sqd, psum, rsum. cbn -[IZR sqrt]. apply Sq; lra.
Qed.
Print Assumptions C14_streaming_refuted.

(** A trusted history: the window slides, columns are asked for in any order *)
Definition slide : list (gcall R) := [CSeries [7; 0; 1]; CQuery [0; 1]; CCol 2; CCol 0; CSeries [5]]%R.
Example C14_example mem : exists g0 g g', eu_stream mem 2 1 3 2 false = Ok g0 /\ eu_calls mem g0 (map finc slide) = Ok g /\
  eu_calc_column mem g 2 = Ok (g', [Fin 5; Fin 4]%R).
Proof.
  assert (D : forall H1 o H2, slide ++ [CCol 2] = H1 ++ o :: H2 ->
    In (H1, o) [([], CSeries [7; 0; 1]); ([CSeries [7; 0; 1]], CQuery [0; 1]); ([CSeries [7; 0; 1]; CQuery [0; 1]], CCol 2);
                ([CSeries [7; 0; 1]; CQuery [0; 1]; CCol 2], CCol 0); ([CSeries [7; 0; 1]; CQuery [0; 1]; CCol 2; CCol 0], CSeries [5]); (slide, CCol 2)]%R).
  { intros H1 o H2 E. destruct H1 as [|o1 [|o2 [|o3 [|o4 [|o5 [|o6 H1]]]]]]; cbn in E; inversion E; subst; cbn; auto 10. destruct H1; discriminate. }
  destruct (@C14_streaming_exact_partial mem 2%Q 1 3 2 false) with (H := slide) (c := 2) as (g0 & g & g' & E0 & E1 & E2); [lia|lia|lia|discriminate|discriminate| | | |].
  - intros H1 o H2 E. apply D in E. cbn [In] in E. destruct E as [E|[E|[E|[E|[E|[E|[]]]]]]]; inversion E; subst; auto; unfold has_col; cbn; lia.
  - right. left. intros H1 xs H2 E. apply D in E. cbn [In] in E. destruct E as [E|[E|[E|[E|[E|[E|[]]]]]]]; inversion E; subst; auto.
  - intros H1 c' H2 E. apply D in E. cbn [In] in E. pose proof eps_small. intros i j Hi Hj.
    destruct E as [E|[E|[E|[E|[E|[E|[]]]]]]]; inversion E; subst; cbn in Hi, Hj;
      (destruct i as [|[|i]]; [| |lia]); (destruct j as [|[|[|j]]]; [| | |lia]); unfold sqd, psum, rsum; cbn -[pow Rlt]; try lia; lra.
  - exists g0, g, g'. rewrite E2. split; [exact E0|]. split; [exact E1|]. do 2 f_equal.
    assert (Sq : forall x v, (0 <= v)%R -> x = (v * v)%R -> sqrt x = v) by (intros x v Hv ->; apply sqrt_square; exact Hv).
    unfold col_dist. cbn -[IZR euclid]. unfold euclid, sqd, psum, rsum. cbn -[IZR sqrt].
    f_equal; [f_equal; apply Sq; lra|]. f_equal. f_equal. apply Sq; lra.
Qed.

(** C15. Distances of finite data are numbers.  Missing: data with squared distances strictly between 0 and 1e-15, for which
    it is false (below). *)
Theorem C15_numbers_partial : forall mem sf m S q, let Q := query_or S q in
  0 < m -> m <= length S -> m <= length Q -> (1 <= sf)%Q -> separated m S Q -> forall H c, calc_only m S Q H -> c + m <= length S ->
  exists g0 g g' ds, eu_batch mem sf m S q = Ok g0 /\ eu_calls mem g0 (map finc H) = Ok g /\ eu_calc_column mem g c = Ok (g', ds) /\
    forall v, In v ds -> exists x, v = Fin x /\ (0 <= x)%R.
Proof.
  intros mem sf m S q Q0 Hm HS HQ Hsf Hs H c Hc Hcol. destruct (@C13_columns_exact mem sf m S q Hm HS HQ Hsf Hs H c Hc Hcol) as (g0 & g & g' & E0 & E1 & E2).
  exists g0, g, g', (col_dist euclid m S Q0 c). split; [exact E0|]. split; [exact E1|]. split; [exact E2|].
  intros v Hv. unfold col_dist in Hv. apply in_map_iff in Hv as (r & <- & _). eexists. split; [reflexivity|]. apply sqrt_pos.
Qed.
Print Assumptions C15_numbers_partial.

Theorem C15_numbers_refuted : exists mem sf m S q H c g0 g g' ds, 0 < m /\ m <= length S /\ m <= length q /\ (1 <= sf)%Q /\
  calc_only m S q H /\ c + m <= length S /\
  eu_batch mem sf m S (Some q) = Ok g0 /\ eu_calls mem g0 (map finc H) = Ok g /\ eu_calc_column mem g c = Ok (g', ds) /\ In NaN ds.
Proof.
  exists (fun _ => NaN), 2%Q, 1, [0; 5]%R, [1 / 100000000; 5]%R, [CCol 0], 1. do 4 eexists.
  split; [lia|]. split; [cbn; lia|]. split; [cbn; lia|]. split; [discriminate|].
  split. { intros o [<-|[]]. split; cbn; lia. }
  split; [cbn; lia|].
  split; [run_model; reflexivity|]. split; [run_model; decide_Rltb; reflexivity|].
  split; [run_model; decide_Rltb; reflexivity|]. right. left. reflexivity.
Qed.
Print Assumptions C15_numbers_refuted.

(** Without that restriction: a value is a number, at most the distance, and its square is less than 1e-15 too small, or it is NaN and the
    distance is less than the root of 1e-15. *)
Definition nearly (d : R) (v : num R) : Prop :=
  (exists x, v = Fin x /\ (0 <= x <= d)%R /\ (d * d - x * x < / 10 ^ 15)%R) \/ (v = NaN /\ (d * d < / 10 ^ 15)%R).
Lemma root_nearly x y v : (0 <= sqd x y - v < / 10 ^ 15)%R -> nearly (euclid x y) (root v).
Proof.
  intro H. unfold euclid, root. pose proof (sqd_nonneg x y) as Hs. unfold nearly. rewrite (sqrt_sqrt _ Hs). unfold Rltb. destruct (Rlt_dec v 0) as [Hv|Hv]; [right; split; [reflexivity|lra]|].
  left. exists (sqrt v). split; [reflexivity|]. rewrite (sqrt_sqrt v) by lra. split; [|lra]. split; [apply sqrt_pos|apply sqrt_le_1; lra].
Qed.
Lemma roots_nearly m Q y vs : length vs = length Q + 1 - m -> (forall r, r + m <= length Q -> (0 <= sqd (sub m Q r) y - nth r vs 0 < / 10 ^ 15)%R) ->
  length (map root vs) = length Q + 1 - m /\ forall r v, nth_error (map root vs) r = Some v -> nearly (euclid (sub m Q r) y) v.
Proof.
  intros L H. split; [rewrite map_length; exact L|]. intros r v Hr. rewrite nth_error_map in Hr. destruct (nth_error vs r) as [x|] eqn:E; [|discriminate]. injection Hr as <-.
  apply root_nearly. rewrite <- (nth_error_nth vs r 0%R E). apply H. assert (r < length vs) by (apply nth_error_Some; congruence). lia.
Qed.
Theorem C15_bound : forall mem sf m S q, let Q := query_or S q in
  0 < m -> m <= length S -> m <= length Q -> (1 <= sf)%Q -> forall H c, calc_only m S Q H -> c + m <= length S ->
  exists g0 g g' ds, eu_batch mem sf m S q = Ok g0 /\ eu_calls mem g0 (map finc H) = Ok g /\ eu_calc_column mem g c = Ok (g', ds) /\
    length ds = length Q + 1 - m /\ forall r v, nth_error ds r = Some v -> nearly (euclid (sub m Q r) (sub m S c)) v.
Proof.
  intros mem sf m S q Q0 Hm HS HQ Hsf H c Hc Hcol. destruct (@C13_columns mem sf m S q Hm HS HQ Hsf H c Hc Hcol) as (g0 & g & g' & vs & E0 & E1 & E2 & L & B).
  exists g0, g, g', (map root vs). split; [exact E0|]. split; [exact E1|]. split; [exact E2|]. apply roots_nearly; assumption.
Qed.
Print Assumptions C15_bound.
Theorem C15_bound_streaming : forall mem sf m W Wq (self : bool), 0 < m -> m <= W -> (self = false -> 0 < Wq) -> (1 <= sf)%Q -> (sf <= 2)%Q ->
  forall H c, in_range self m W Wq (H ++ [CCol c]) -> trusted self W (H ++ [CCol c]) ->
  exists g0 g g' ds, eu_stream mem sf m W Wq self = Ok g0 /\ eu_calls mem g0 (map finc H) = Ok g /\ eu_calc_column mem g c = Ok (g', ds) /\
    length ds = length (wQ self W Wq H) + 1 - m /\ forall r v, nth_error ds r = Some v -> nearly (euclid (sub m (wQ self W Wq H) r) (sub m (wS W H) c)) v.
Proof.
  intros mem sf m W Wq self Hm HW HWq Hsf Hsf2 H c Hr Ht. destruct (@C14_streaming_partial mem sf m W Wq self Hm HW HWq Hsf Hsf2 H c Hr Ht) as (g0 & g & g' & vs & E0 & E1 & E2 & L & B).
  exists g0, g, g', (map root vs). split; [exact E0|]. split; [exact E1|]. split; [exact E2|]. apply roots_nearly; assumption.
Qed.
Print Assumptions C15_bound_streaming.
(** The NaN of the witness above is a distance of 0. *)
Example C15_bound_case : nearly (euclid [5%R] [5%R]) NaN /\ ~ nearly (euclid [5%R] [4%R]) NaN /\ nearly 1 (Fin 1)%R.
Proof.
  assert (E : forall a b, sqd [a] [b] = ((a - b) * (a - b))%R) by (intros; unfold sqd, psum, rsum; cbn; ring). unfold euclid. rewrite !E. pose proof eps_small.
  split; [|split].
  - right. split; [reflexivity|]. rewrite sqrt_sqrt; lra.
  - intros [(x & Hx & _)|[_ Hx]]; [discriminate|]. rewrite sqrt_sqrt in Hx; lra.
  - left. exists 1%R. split; [reflexivity|lra].
Qed.

Example C15_example mem sf (Hsf : (1 <= sf)%Q) : exists g0 g g' ds, eu_batch mem sf 2 ex_series (Some ex_query) = Ok g0 /\
  eu_calls mem g0 (map finc [CCol 1; CDiag (-2); CCol 0]) = Ok g /\ eu_calc_column mem g 1 = Ok (g', ds) /\
  forall v, In v ds -> exists x, v = Fin x /\ (0 <= x)%R.
Proof.
  destruct C13_hypotheses as (Hs & Hc & _). apply (@C15_numbers_partial mem sf 2 ex_series (Some ex_query)); auto; cbn; lia.
Qed.
