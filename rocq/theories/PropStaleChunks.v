(** * PropStaleChunks: rejected chunks after which the generator recovers with its window (C108) *)
From Coq Require Import QArith Reals Lra.
From Verif Require Import Np NpFacts MRing PRing MUtil MArith MStats MCache MZnorm MRejected SReal SCalc SGen SStale PArith PStats PCache PGenRun PZdist PZnorm PRejected SRejectJoin PRejectJoin SStaleStats PStaleStats PStaleOne PStaleColumn SStaleChunks PStaleChunks PropZnorm PropStaleStats PropStaleColumn.
Set Implicit Arguments.
Open Scope nat_scope.

Lemma ok_stats m W Wq (self : bool) H S Q : 0 < m -> m <= W -> (self = false -> m <= Wq) -> chunks_ok m W (s_chunks H) -> (self = false -> chunks_ok m Wq (q_chunks H)) ->
  final W (s_points H) = map (@Fin R) S -> (if self then final W (s_points H) else final Wq (q_points H)) = map (@Fin R) Q ->
  stat_s m W H = map (sub m S) (seq 0 (length S + 1 - m)) /\ stat_q self m W Wq H = map (sub m Q) (seq 0 (length Q + 1 - m)).
Proof.
  intros Hm HW HWq Os Oq ES EQ. rewrite <- s_concat, final_lastn in ES.
  assert (As : stat_s m W H = map (sub m S) (seq 0 (length S + 1 - m))) by (apply held_chunks; assumption).
  split; [exact As|]. unfold stat_q. destruct self.
  - rewrite As. assert (S = Q) as ->; [|reflexivity]. rewrite <- s_concat, final_lastn, ES in EQ. apply fin_inj, EQ.
  - rewrite <- q_concat, final_lastn in EQ. apply held_chunks; auto.
Qed.

(** ** C108, any chunks: if every chunk that was rejected left a bad point among the last [m] points (a client that sends points one by one always
    does that), everything is right as soon as all points in the windows are finite. *)
Theorem C108_chunks : forall mem memb noise sf m W Wq self H g0 g S Q, 0 < m -> m <= W -> (self = false -> m <= Wq) -> (1 <= sf)%Q -> (sf <= 2)%Q -> (0 <= noise)%R ->
  zn_prepare_streaming mem memb (Fin noise) sf m W (if self then None else Some Wq) = Ok g0 ->
  chunks_ok m W (s_chunks H) -> (self = false -> chunks_ok m Wq (q_chunks H)) ->
  final W (s_points H) = map (@Fin R) S -> (if self then final W (s_points H) else final Wq (q_points H)) = map (@Fin R) Q ->
  (foldM (zn_caught mem) H g0 = Ok g ->
    (forall d, has_diag m S Q d -> zn_calc_diagonal g d = Ok (g, diag_dist (zdist noise) m S Q d)) /\
    (forall r c, r + m <= length Q -> c + m <= length S -> zn_calc_single g r c None = Ok (Fin (zdist noise (sub m Q r) (sub m S c))))) /\
  (forall cs c, no_column H -> foldM (zn_caught mem) (H ++ map (@CCol (num R)) cs) g0 = Ok g -> Forall (fun c => c + m <= length S) (c :: cs) -> m <= length Q ->
    exists g', zn_calc_column mem g c = Ok (g', col_dist (zdist noise) m S Q c)).
Proof.
  intros mem memb noise sf m W Wq self H g0 g S Q Hm HW HWq S1 S2 Hn E0 Os Oq ES EQ.
  destruct (@ok_stats m W Wq self H S Q Hm HW HWq Os Oq ES EQ) as (As & Aq). split.
  - intros E. pose proof (@run_views mem memb noise sf m W Wq self H g0 g Hm HW HWq S1 S2 Hn E0 E) as V. rewrite EQ, ES, As, Aq in V. split.
    + intros d Hd. rewrite (views_diag Hm V Hd). cbn zeta. rewrite !map_length, !seq_length.
      destruct Hd as (i & j & Hi & Hj & Hd). unfold dlen.
      destruct (Z.leb_spec (Z.max 0 (- d) + Z.min (Z.of_nat (length Q + 1 - m) - Z.max 0 (- d)) (Z.of_nat (length S + 1 - m) - Z.max 0 d)) (Z.of_nat (length Q + 1 - m))); [|lia].
      destruct (Z.leb_spec (Z.max 0 d + Z.min (Z.of_nat (length Q + 1 - m) - Z.max 0 (- d)) (Z.of_nat (length S + 1 - m) - Z.max 0 d)) (Z.of_nat (length S + 1 - m))); [|lia].
      cbn [andb]. do 2 f_equal. unfold diag_dist, diag_of, dlen. apply map_ext_in. intros k Hk. apply in_seq in Hk. apply right_cell; lia.
    + intros r c Hr Hc.
      destruct (@C108_single mem memb noise sf m W Wq self H g0 g r c None) as (_ & K); auto. cbn zeta in K. rewrite EQ, ES, As, Aq in K.
      assert (N : forall (u : list R) i, i + m <= length u -> nth i (map (sub m u) (seq 0 (length u + 1 - m))) [] = sub m u i).
      { intros u i Hi. rewrite (nth_indep _ [] (sub m u 0)) by (rewrite map_length, seq_length; lia). rewrite map_nth, seq_nth by lia. reflexivity. }
      destruct (K (sub m Q r) (sub m S c)) as [_ K2]; rewrite ?map_length, ?seq_length, ?length_sub; auto using sub_map; try lia.
      apply K2; symmetry; apply N; assumption.
  - intros cs c NC E Hcs HQ.
    pose proof (@C108_column mem memb noise sf m W Wq self H cs c g0 g S Q Hm HW HWq S1 S2 Hn E0 NC E ES EQ Hcs HQ) as K. cbn zeta in K.
    rewrite As, Aq, !map_length, !seq_length, Nat.eqb_refl in K.
    inversion_clear Hcs as [|? ? Hc Hcs']. destruct (Nat.ltb_spec c (length S + 1 - m)); [|lia]. cbn [andb] in K. destruct K as (g' & K). exists g'. rewrite K. do 2 f_equal.
    unfold off_col, col_dist. apply map_ext_in. intros r Hr. apply in_seq in Hr. rewrite right_cell by lia. unfold cell_dist. rewrite !Nat2Z.id. reflexivity.
Qed.
Print Assumptions C108_chunks.

(** Chunks of one point are such chunks; so are chunks of finite points only, after finite points only *)
Theorem C108_chunks_one : forall m W chunks, 0 < m -> m <= W -> one_by_one chunks \/ Forall (Forall (fun x => isfinite x = true)) chunks -> chunks_ok m W chunks.
Proof.
  intros m W chunks Hm HW O before xs after -> Nx. unfold chunk_ok. rewrite (final_lastn (length xs + m - 1)), (final_lastn W). destruct O as [O|O].
  - apply Forall_app in O as [_ O]. inversion_clear O as [|? ? Lx _]. rewrite Lx. replace (1 + m - 1) with m by lia. rewrite lastn_lastn_min, Nat.min_l by exact HW.
    destruct (forallb isfinite _) eqn:F; [left; reflexivity|right]. rewrite <- final_lastn in F.
    induction (final m (concat before ++ xs)) as [|x l IH]; [discriminate|]. cbn [forallb] in F. destruct (isfinite x) eqn:Fx.
    + destruct (IH F) as (y & Hy & Fy). exists y. split; [right; exact Hy|exact Fy].
    + exists x. split; [left; reflexivity|exact Fx].
  - left. apply forallb_forall. intros x Hx. apply Forall_app in O as [O1 O2]. inversion_clear O2 as [|? ? Ox _].
    assert (A : Forall (fun x => isfinite x = true) (concat before ++ xs)).
    { apply Forall_app. split; [|exact Ox]. clear - O1. induction O1; cbn [concat]; [constructor|apply Forall_app; auto]. }
    apply (Forall_lastn W) in A. apply (Forall_lastn (length xs + m - 1)) in A. rewrite Forall_forall in A. apply A, Hx.
Qed.
Print Assumptions C108_chunks_one.

(** Not all chunks are: in [silent] a rejected chunk goes on with m finite points.  Without the last of them it would be one (m = 2, W = 5). *)
Example C108_example_chunks : ~ chunks_ok 2 5 (s_chunks silent) /\ chunks_ok 2 5 [[Fin 4; Fin 0]; [NaN; Fin 1]; [Fin 2; Fin 3]; [Fin 4; Fin 5; Fin 6]]%R.
Proof.
  split.
  - intros H. destruct (H [[Fin 4; Fin 0]%R] [NaN; Fin 1; Fin 2]%R [[Fin 3]; [Fin 4]; [Fin 5]]%R eq_refl ltac:(discriminate)) as [K|(x & K & F)]; [discriminate|].
    cbn in K. destruct K as [<-|[<-|[]]]; discriminate.
  - intros before xs after E Nx.
    destruct before as [|b1 [|b2 [|b3 [|b4 [|b5 b]]]]]; cbn [app] in E; injection E; intros; subst; try discriminate; unfold chunk_ok;
      try (left; reflexivity); right; (exists NaN; split; [cbn; tauto|reflexivity]).
Qed.
