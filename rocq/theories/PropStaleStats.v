(** * PropStaleStats: the statistics in use after rejected appends, and the distances calculated with them (C108) *)
From Coq Require Import QArith Reals Lra.
From Verif Require Import Np NpFacts Inst MRing PRing MUtil MArith MStats MCache MZnorm MRejected SReal SCalc SGen SStale PArith PStats PCache PGenRun PZdist PZnorm PRejected SRejectJoin PRejectJoin SStaleStats PStaleStats PStaleOne PropZnorm.
Set Implicit Arguments.
Open Scope nat_scope.

Lemma run_views mem memb noise sf m W Wq self H g0 g : 0 < m -> m <= W -> (self = false -> m <= Wq) -> (1 <= sf)%Q -> (sf <= 2)%Q -> (0 <= noise)%R ->
  zn_prepare_streaming mem memb (Fin noise) sf m W (if self then None else Some Wq) = Ok g0 -> foldM (zn_caught mem) H g0 = Ok g ->
  zviews noise m (final W (s_points H)) (if self then final W (s_points H) else final Wq (q_points H)) (stat_s m W H) (stat_q self m W Wq H) g.
Proof.
  intros Hm HW HWq S1 S2 Hn E0 E. destruct (zheld_start mem memb Hm HW HWq S1 S2 Hn) as (g0' & E0' & I0).
  assert (g0' = g0) as -> by congruence. pose proof (@zheld_run mem noise m W Wq self H Hm HW HWq [] [] [] [] g0 g I0 E) as I. cbn [app] in I.
  exact (zheld_views Hm (all_subs_len _ _ Hm []) (all_subs_len _ _ Hm []) I).
Qed.

(** ** C108. The z-normalised generator, any calls, with the exceptions of appends caught: the means, standard deviations and flags it holds are those
    of the last [W + 1 - m] subsequences that were new in an append that did not raise - whatever the window has now. *)
Theorem C108_statistics : forall mem memb noise sf m W Wq self H g0 g, 0 < m -> m <= W -> (self = false -> m <= Wq) -> (1 <= sf)%Q -> (sf <= 2)%Q -> (0 <= noise)%R ->
  zn_prepare_streaming mem memb (Fin noise) sf m W (if self then None else Some Wq) = Ok g0 -> foldM (zn_caught mem) H g0 = Ok g ->
  rb_view (ch_series (zn_c g)) = final W (s_points H) /\ rb_view (ch_query (zn_c g)) = (if self then final W (s_points H) else final Wq (q_points H)) /\
  (rb_view (zs_mu (zn_s g)) = map (fun x => Fin (mean x)) (stat_s m W H) /\ rb_view (zs_std (zn_s g)) = map (fun x => Fin (std x)) (stat_s m W H) /\
   rb_view (zs_nz (zn_s g)) = map uneven (stat_s m W H)) /\
  (rb_view (zs_mu (zn_qstats g)) = map (fun x => Fin (mean x)) (stat_q self m W Wq H) /\ rb_view (zs_std (zn_qstats g)) = map (fun x => Fin (std x)) (stat_q self m W Wq H) /\
   rb_view (zs_nz (zn_qstats g)) = map uneven (stat_q self m W Wq H)).
Proof.
  intros mem memb noise sf m W Wq self H g0 g Hm HW HWq S1 S2 Hn E0 E. destruct (@run_views mem memb noise sf m W Wq self H g0 g Hm HW HWq S1 S2 Hn E0 E). auto.
Qed.
Print Assumptions C108_statistics.

(** A single cell: its dot product is of the points in the window, the rest is of the subsequences whose statistics are at those indices. *)
Theorem C108_single : forall mem memb noise sf m W Wq self H g0 g r c dp, 0 < m -> m <= W -> (self = false -> m <= Wq) -> (1 <= sf)%Q -> (sf <= 2)%Q -> (0 <= noise)%R ->
  zn_prepare_streaming mem memb (Fin noise) sf m W (if self then None else Some Wq) = Ok g0 -> foldM (zn_caught mem) H g0 = Ok g ->
  let S := final W (s_points H) in let Q := if self then S else final Wq (q_points H) in
  let ss := stat_s m W H in let sq := stat_q self m W Wq H in
  (length sq <= r \/ length ss <= c -> zn_calc_single g r c dp = Err IndexError) /\
  (forall a b, r < length sq -> c < length ss -> length a = m -> length b = m -> sub m Q r = map (@Fin R) a -> sub m S c = map (@Fin R) b ->
    (dp = None \/ dp = Some (Fin (dotp a b))) ->
    let x := nth r sq [] in let y := nth c ss [] in
    zn_calc_single g r c dp = Ok (Fin (zdist_off noise (dotp a b - dotp x y) x y)) /\
    (a = x -> b = y -> zn_calc_single g r c dp = Ok (Fin (zdist noise a b)))).
Proof.
  intros mem memb noise sf m W Wq self H g0 g r c dp Hm HW HWq S1 S2 Hn E0 E S Q ss sq.
  pose proof (@run_views mem memb noise sf m W Wq self H g0 g Hm HW HWq S1 S2 Hn E0 E) as V. fold S in V. fold Q ss sq in V.
  split; [exact (@views_single_err noise m S Q ss sq g r c dp V)|]. intros a b Hr Hc La Lb Ea Eb Hdp x y.
  pose proof (@views_single noise m S Q ss sq g r c dp a b Hm V La Lb Ea Eb Hdp Hr Hc) as K. cbn zeta in K. fold x y in K. split; [exact K|].
  intros <- <-. rewrite K. do 2 f_equal. unfold zdist_off, zdist. replace (dotp a b - dotp a b)%R with 0%R by lra.
  replace (zsq noise a b - (if uneven a && uneven b then 2 * 0 / (std a * std b) else 0))%R with (zsq noise a b) by (destruct (_ && _); unfold Rdiv; lra).
  reflexivity.
Qed.
Print Assumptions C108_single.

(** A diagonal, when all points in the windows are finite. *)
Theorem C108_diagonal : forall mem memb noise sf m W Wq self H g0 g S Q d, 0 < m -> m <= W -> (self = false -> m <= Wq) -> (1 <= sf)%Q -> (sf <= 2)%Q -> (0 <= noise)%R ->
  zn_prepare_streaming mem memb (Fin noise) sf m W (if self then None else Some Wq) = Ok g0 -> foldM (zn_caught mem) H g0 = Ok g ->
  final W (s_points H) = map (@Fin R) S -> (if self then final W (s_points H) else final Wq (q_points H)) = map (@Fin R) Q -> has_diag m S Q d ->
  let ss := stat_s m W H in let sq := stat_q self m W Wq H in
  zn_calc_diagonal g d =
    let n := dlen (length Q + 1 - m) (length S + 1 - m) d in
    if (Z.max 0 (- d) + n <=? Z.of_nat (length sq))%Z && (Z.max 0 d + n <=? Z.of_nat (length ss))%Z
    then Ok (g, diag_of (off_cell noise m S Q ss sq) (length Q + 1 - m) (length S + 1 - m) d) else Err IndexError.
Proof.
  intros mem memb noise sf m W Wq self H g0 g S Q d Hm HW HWq S1 S2 Hn E0 E ES EQ Hd ss sq.
  pose proof (@run_views mem memb noise sf m W Wq self H g0 g Hm HW HWq S1 S2 Hn E0 E) as V. rewrite EQ, ES in V. exact (views_diag Hm V Hd).
Qed.
Print Assumptions C108_diagonal.

(** ** The wrong values are silent: a chunk that has a NaN is rejected; when the NaN has left the window all points are finite, all statistics are
    there and nothing raises, but the distance of the first subsequence to itself is the root of 5.5. *)
Definition silent : list (gcall (num R)) := [CSeries [Fin 4; Fin 0]%R; CSeries [NaN; Fin 1; Fin 2]%R; CSeries [Fin 3%R]; CSeries [Fin 4%R]; CSeries [Fin 5%R]].

Lemma std40 : std [4; 0]%R = 2%R.
Proof. unfold std, variance, mean, rsum. cbn [length map fold_right INR]. replace (_ / _)%R with (2 * 2)%R by field. rewrite sqrt_square; lra. Qed.

Lemma caught_series mem chunks : forall g, exists g', foldM (zn_caught mem) (map (@CSeries (num R)) chunks) g = Ok g'.
Proof. induction chunks as [|xs chunks IH]; intro g; cbn [map foldM zn_caught bind]; [eexists; reflexivity|apply IH]. Qed.

Lemma silent_dist : zdist_off 0 (dotp [1; 2] [1; 2] - dotp [4; 0] [4; 0])%R [4; 0]%R [4; 0]%R = sqrt (11 / 2).
Proof.
  unfold zdist_off, zsq, uneven. rewrite std40. destruct (Rltb_spec (/ 10 ^ 6) 2) as [h|h]; [|exfalso; apply h; lra]. cbn [andb orb].
  replace (sqd (znorm [4; 0]%R) (znorm [4; 0]%R)) with 0%R by (unfold sqd, rsum, znorm; cbn; lra).
  rewrite no_noise. match goal with |- context [Rltb ?z _] => replace z with (11 / 2)%R by (unfold dotp, psum, rsum; cbn [zip_with combine map fold_right fst snd]; field) end.
  destruct (Rltb_spec (11 / 2) (/ 10 ^ 12)); [lra|reflexivity].
Qed.

Theorem C108_silent : forall mem memb g0, zn_prepare_streaming mem memb (Fin 0%R) 1 2 5 None = Ok g0 ->
  exists g vs, foldM (zn_caught mem) silent g0 = Ok g /\ rb_view (ch_series (zn_c g)) = map (@Fin R) [1; 2; 3; 4; 5]%R /\
  length (rb_view (zs_mu (zn_s g))) = 4 /\
  zn_calc_diagonal g 0 = Ok (g, Fin (sqrt (11 / 2)) :: vs) /\ zn_calc_single g 0 0 None = Ok (Fin (sqrt (11 / 2))) /\
  zdist 0 [1; 2]%R [1; 2]%R = 0%R.
Proof.
  intros mem memb g0 E0. destruct (caught_series mem [[Fin 4; Fin 0]; [NaN; Fin 1; Fin 2]; [Fin 3]; [Fin 4]; [Fin 5]]%R g0) as (g & E).
  change (foldM (zn_caught mem) silent g0 = Ok g) in E. exists g. eexists. split; [exact E|].
  assert (A : stat_s 2 5 silent = [[4; 0]; [2; 3]; [3; 4]; [4; 5]]%R) by reflexivity.
  assert (B : final 5 (s_points silent) = map (@Fin R) [1; 2; 3; 4; 5]%R) by reflexivity.
  destruct (@C108_statistics mem memb 0%R 1 2 5 0 true silent g0 g) as (V1 & _ & (V2 & _) & _); auto; try lia; try discriminate; try lra.
  split; [rewrite V1; exact B|]. split; [rewrite V2, A; reflexivity|].
  pose proof silent_dist as D.
  split; [|split].
  - rewrite (@C108_diagonal mem memb 0%R 1 2 5 0 true silent g0 g [1; 2; 3; 4; 5]%R [1; 2; 3; 4; 5]%R 0%Z); auto; try lia; try discriminate; try lra.
    2: { exists 0, 0. cbn. lia. }
    unfold stat_q. rewrite A. cbn zeta. match goal with |- (if ?b then _ else _) = _ => change b with true end. cbv iota.
    unfold diag_of. change (seq 0 _) with [0; 1; 2; 3]. cbn [map].
    change (Z.max 0 (- 0) + Z.of_nat 0)%Z with 0%Z. change (Z.max 0 0 + Z.of_nat 0)%Z with 0%Z.
    assert (Hh : (off_cell 0 2 [1; 2; 3; 4; 5] [1; 2; 3; 4; 5] [[4; 0]; [2; 3]; [3; 4]; [4; 5]] [[4; 0]; [2; 3]; [3; 4]; [4; 5]] 0 0 = Fin (sqrt (11 / 2)))%R) by exact (f_equal (@Fin R) D).
    rewrite Hh. reflexivity.
  - destruct (@C108_single mem memb 0%R 1 2 5 0 true silent g0 g 0 0 None) as (_ & K); auto; try lia; try discriminate; try lra. cbn zeta in K. unfold stat_q in K.
    rewrite A, B in K. destruct (K [1; 2]%R [1; 2]%R) as [K1 _]; auto; try (cbn; lia). rewrite K1. exact (f_equal (fun v => Ok (Fin v)) D).
  - unfold zdist. replace (zsq 0 [1; 2]%R [1; 2]%R) with 0%R; [destruct (Rltb_spec 0 (/ 10 ^ 12)); [reflexivity|rewrite sqrt_0; reflexivity]|].
    unfold zsq. replace (sqd (znorm [1; 2]%R) (znorm [1; 2]%R)) with 0%R by (unfold sqd, rsum, znorm; cbn; lra).
    destruct (uneven [1; 2]%R); cbn [orb]; unfold Rdiv; lra.
Qed.
Print Assumptions C108_silent.

(** ** Points appended one by one (the query of a join also all at once): as soon as all points in the windows are finite, the statistics are
    those of the windows' subsequences, and all diagonals and cells are right, whatever was rejected before. *)
Definition one_by_one {X} (chunks : list (list X)) : Prop := Forall (fun xs => length xs = 1) chunks.
Definition at_once {X} (chunks : list (list X)) : Prop := exists xs, xs <> [] /\ chunks = [xs].

Lemma one_stats m W Wq (self : bool) H S Q : 0 < m -> m <= W -> (self = false -> m <= Wq) -> one_by_one (s_chunks H) -> (self = false -> one_by_one (q_chunks H) \/ at_once (q_chunks H)) ->
  final W (s_points H) = map (@Fin R) S -> (if self then final W (s_points H) else final Wq (q_points H)) = map (@Fin R) Q ->
  stat_s m W H = map (sub m S) (seq 0 (length S + 1 - m)) /\ stat_q self m W Wq H = map (sub m Q) (seq 0 (length Q + 1 - m)).
Proof.
  intros Hm HW HWq Os Oq ES EQ.
  assert (As : stat_s m W H = map (sub m S) (seq 0 (length S + 1 - m))).
  { unfold stat_s. rewrite (chunks_ones Os), s_concat. apply held_ones; assumption. }
  assert (Aq : stat_q self m W Wq H = map (sub m Q) (seq 0 (length Q + 1 - m))).
  { unfold stat_q. destruct self.
    - rewrite As. assert (S = Q) as ->; [|reflexivity]. rewrite ES in EQ. rewrite <- (value_fin S), <- (value_fin Q), EQ. reflexivity.
    - destruct (Oq eq_refl) as [O|(xs & Nx & O)].
      + rewrite (chunks_ones O), q_concat. apply held_ones; auto.
      + rewrite O. apply held_one_chunk; auto. rewrite <- q_concat, O in EQ. cbn [concat] in EQ. rewrite app_nil_r in EQ. exact EQ. }
  split; assumption.
Qed.

Theorem C108_one_by_one : forall mem memb noise sf m W Wq self H g0 g S Q, 0 < m -> m <= W -> (self = false -> m <= Wq) -> (1 <= sf)%Q -> (sf <= 2)%Q -> (0 <= noise)%R ->
  zn_prepare_streaming mem memb (Fin noise) sf m W (if self then None else Some Wq) = Ok g0 -> foldM (zn_caught mem) H g0 = Ok g ->
  one_by_one (s_chunks H) -> (self = false -> one_by_one (q_chunks H) \/ at_once (q_chunks H)) ->
  final W (s_points H) = map (@Fin R) S -> (if self then final W (s_points H) else final Wq (q_points H)) = map (@Fin R) Q ->
  (forall d, has_diag m S Q d -> zn_calc_diagonal g d = Ok (g, diag_dist (zdist noise) m S Q d)) /\
  (forall r c, r + m <= length Q -> c + m <= length S -> zn_calc_single g r c None = Ok (Fin (zdist noise (sub m Q r) (sub m S c)))).
Proof.
  intros mem memb noise sf m W Wq self H g0 g S Q Hm HW HWq S1 S2 Hn E0 E Os Oq ES EQ.
  pose proof (@run_views mem memb noise sf m W Wq self H g0 g Hm HW HWq S1 S2 Hn E0 E) as V. rewrite EQ, ES in V.
  destruct (@one_stats m W Wq self H S Q Hm HW HWq Os Oq ES EQ) as (As & Aq).
  rewrite As, Aq in V. split.
  - intros d Hd. rewrite (views_diag Hm V Hd). cbn zeta. rewrite !map_length, !seq_length.
    destruct Hd as (i & j & Hi & Hj & Hd). unfold dlen.
    destruct (Z.leb_spec (Z.max 0 (- d) + Z.min (Z.of_nat (length Q + 1 - m) - Z.max 0 (- d)) (Z.of_nat (length S + 1 - m) - Z.max 0 d)) (Z.of_nat (length Q + 1 - m))); [|lia].
    destruct (Z.leb_spec (Z.max 0 d + Z.min (Z.of_nat (length Q + 1 - m) - Z.max 0 (- d)) (Z.of_nat (length S + 1 - m) - Z.max 0 d)) (Z.of_nat (length S + 1 - m))); [|lia].
    cbn [andb]. do 2 f_equal. unfold diag_dist, diag_of, dlen. apply map_ext_in. intros k Hk. apply in_seq in Hk. apply right_cell; lia.
  - intros r c Hr Hc.
    destruct (@C108_single mem memb noise sf m W Wq self H g0 g r c None) as (_ & K); auto. cbn zeta in K. rewrite EQ, ES, As, Aq in K.
    assert (N : forall (u : list R) i, i + m <= length u -> nth i (map (sub m u) (seq 0 (length u + 1 - m))) [] = sub m u i).
    { intros u i Hi. rewrite (nth_indep _ [] (sub m u 0)) by (rewrite map_length, seq_length; lia). rewrite map_nth, seq_nth by lia. reflexivity. }
    destruct (K (sub m Q r) (sub m S c)) as [_ K2]; rewrite ?map_length, ?seq_length, ?length_sub; auto using sub_map; try lia.
    apply K2; symmetry; apply N; assumption.
Qed.
Print Assumptions C108_one_by_one.

(** The hypotheses hold: five points one by one, the second of them a NaN (m = 2, W = 3). *)
Example C108_example_one : let H := map (fun x => CSeries [x]) [Fin 1; NaN; Fin 0; Fin 3; Fin 4]%R in
  one_by_one (s_chunks H) /\ final 3 (s_points H) = map (@Fin R) [0; 3; 4]%R /\ stat_s 2 3 H = [[0; 3]; [3; 4]]%R /\ has_diag 2 [0; 3; 4]%R [0; 3; 4]%R 1 /\
  forall mem memb g0, zn_prepare_streaming mem memb (Fin 0%R) 1 2 3 None = Ok g0 -> exists g, foldM (zn_caught mem) H g0 = Ok g.
Proof.
  cbn zeta. split; [repeat constructor|]. split; [reflexivity|]. split; [reflexivity|]. split; [exists 0, 1; cbn; lia|].
  intros mem memb g0 _. exact (caught_series mem [[Fin 1]; [NaN]; [Fin 0]; [Fin 3]; [Fin 4]]%R g0).
Qed.
