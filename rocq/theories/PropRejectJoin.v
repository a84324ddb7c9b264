(** * PropRejectJoin: rejected appends to either series of a join (C107) *)
From Coq Require Import QArith Reals Lra.
From Verif Require Import Np NpFacts Inst MRing PRing MUtil MArith MStats MCache MZnorm MRejected SReal SCalc SGen PArith PStats PCache PGenRun PZnorm PZdist PRejected SRejectJoin PRejectJoin PropZnorm PropReject.
Set Implicit Arguments.
Open Scope nat_scope.

Lemma refused_iff m W now xs : refused m W now xs = true <-> bad_append m (lastn W (now ++ xs)) xs.
Proof.
  unfold refused, bad_append. set (w := lastn W (now ++ xs)). change (skipn (length w - (length xs + m - 1)) w) with (lastn (length xs + m - 1) w).
  assert (Nf : forall l : list (num R), forallb isfinite l = false <-> exists x, In x l /\ isfinite x = false).
  { clear. induction l as [|x l IH]; cbn [forallb]; [split; [discriminate|intros (x & [] & _)]|]. destruct (isfinite x) eqn:F; cbn [andb].
    - rewrite IH. split; [intros (y & Y1 & Y2); exists y; split; [right; exact Y1|exact Y2]|]. intros (y & [<-|Y1] & Y2); [congruence|eauto].
    - split; [|reflexivity]. intros _. exists x. split; [left; reflexivity|exact F]. }
  rewrite <- Nf, !andb_true_iff, !negb_true_iff, Nat.leb_le, Nat.eqb_neq. split; [intros ((A & B) & C)|intros (A & B & C)].
  - split; [intros ->; cbn in A; lia|auto].
  - split; [split; [destruct xs; [congruence|cbn; lia]|exact B]|exact C].
Qed.

(** The state in which a join starts *)
Lemma zn_start_join mem memb noise sf m W Wq : 0 < m -> m <= W -> m <= Wq -> (1 <= sf)%Q -> (sf <= 2)%Q -> (0 <= noise)%R ->
  exists g0, zn_prepare_streaming mem memb (Fin noise) sf m W (Some Wq) = Ok g0 /\ zjoin noise m W Wq [] [] g0.
Proof.
  intros Hm HW HWq S1 S2 Hn. destruct (@zn_streaming_state mem memb noise m W Wq false Hm ltac:(intros _; exact HWq) sf Hn S1 S2 HW) as (g0 & E0 & I0).
  exists g0. split; [exact E0|]. unfold state_after in I0. cbn zeta in I0. destruct I0 as [I1 I2 (I3 & I4 & I5) I6]. destruct (I6 eq_refl) as (J3 & J4 & J5).
  constructor; auto; [apply (ci_m I1)|apply (ci_self I1)| |].
  - split; [apply (ci_s I1)|]. eauto 7.
  - split; [apply (ci_q I1)|]. eauto 7.
Qed.

(** ** C107. The z-normalised generator (join), after any calls whose exceptions were caught: an append to either series raises if and only if
    a subsequence that is new in that series' window has a point that is not finite; the window has the new points either way, and the other
    window is as before. *)
Theorem C107_raises : forall mem memb noise sf m W Wq H g0 g values, 0 < m -> m <= W -> m <= Wq -> (1 <= sf)%Q -> (sf <= 2)%Q -> (0 <= noise)%R ->
  zn_prepare_streaming mem memb (Fin noise) sf m W (Some Wq) = Ok g0 -> foldM (zn_caught mem) H g0 = Ok g ->
  (let window := lastn W (s_points H ++ values) in
   let r := zn_append_series_st g values in
   rb_view (ch_series (zn_c (fst r))) = window /\ rb_view (ch_qbuf (zn_c (fst r))) = lastn Wq (q_points H) /\
   (snd r = None \/ snd r = Some RuntimeError) /\ (snd r = Some RuntimeError <-> bad_append m window values)) /\
  (let window := lastn Wq (q_points H ++ values) in
   let r := zn_append_query_st g values in
   rb_view (ch_series (zn_c (fst r))) = lastn W (s_points H) /\ rb_view (ch_qbuf (zn_c (fst r))) = window /\
   (snd r = None \/ snd r = Some RuntimeError) /\ (snd r = Some RuntimeError <-> bad_append m window values)).
Proof.
  intros mem memb noise sf m W Wq H g0 g values Hm HW HWq S1 S2 Hn E0 E. destruct (zn_start_join mem memb Hm HW HWq S1 S2 Hn) as (g0' & E0' & I0).
  assert (g0' = g0) as -> by congruence. pose proof (@zjoin_run mem noise m W Wq H Hm HW HWq [] [] g0 g I0 E) as I. cbn [app] in I.
  split; cbn zeta.
  - destruct (zjoin_s values Hm HW I) as (I' & Er). rewrite lastn_app in I'.
    destruct (zj_s I') as ((_ & _ & _ & V & _) & _). destruct (zj_q I') as ((_ & _ & _ & V' & _) & _).
    split; [exact V|]. split; [exact V'|]. rewrite Er. rewrite <- (lastn_app W (s_points H) values), <- refused_iff.
    split; [destruct (refused _ _ _ _); auto|destruct (refused _ _ _ _); split; congruence].
  - destruct (zjoin_q values Hm HWq I) as (I' & Er). rewrite lastn_app in I'.
    destruct (zj_s I') as ((_ & _ & _ & V & _) & _). destruct (zj_q I') as ((_ & _ & _ & V' & _) & _).
    split; [exact V|]. split; [exact V'|]. rewrite Er. rewrite <- (lastn_app Wq (q_points H) values), <- refused_iff.
    split; [destruct (refused _ _ _ _); auto|destruct (refused _ _ _ _); split; congruence].
Qed.
Print Assumptions C107_raises.

(** A join recovers too.  [H]: any calls, with the exceptions of appends caught; [H1]: appends to either series in any order, none of which raises,
    with more than a window of points for each; [H2]: anything a client may do with a generator that never raised.  All that is calculated during and
    after [H2] is as if [H1]'s points were the first ones. *)
Theorem C107_join : forall mem memb noise sf m W Wq H H1 H2 g0 g1 g, 0 < m -> m <= W -> m <= Wq -> (1 <= sf)%Q -> (sf <= 2)%Q -> (0 <= noise)%R ->
  zn_prepare_streaming mem memb (Fin noise) sf m W (Some Wq) = Ok g0 -> foldM (zn_caught mem) H g0 = Ok g1 ->
  Forall append_only H1 -> zn_run mem g1 (map finc H1) = Ok g -> W < length (s_points H1) -> Wq < length (q_points H1) ->
  let K := [CSeries (s_points H1); CQuery (q_points H1)] ++ H2 in
  in_range false m W Wq K -> trusted false W K ->
  exists g2, zn_run mem g (map finc H2) = Ok g2 /\
    (forall d, has_diag m (wS W K) (wQ false W Wq K) d -> zn_calc_diagonal g2 d = Ok (g2, diag_dist (zdist noise) m (wS W K) (wQ false W Wq K) d)) /\
    (forall c, has_col m (wS W K) (wQ false W Wq K) c -> trusted false W (K ++ [CCol c]) ->
       exists g', zn_calc_column mem g2 c = Ok (g', col_dist (zdist noise) m (wS W K) (wQ false W Wq K) c)) /\
    (forall r c, r + m <= length (wQ false W Wq K) -> c + m <= length (wS W K) ->
       zn_calc_single g2 r c None = Ok (Fin (zdist noise (sub m (wQ false W Wq K) r) (sub m (wS W K) c)))).
Proof.
  intros mem memb noise sf m W Wq H H1 H2 g0 g1 g Hm HW HWq S1 S2 Hn E0 E1 Ao E2 L Lq K Hr Ht.
  destruct (zn_start_join mem memb Hm HW HWq S1 S2 Hn) as (g0' & E0' & I0).
  assert (g0' = g0) as -> by congruence. pose proof (@zjoin_run mem noise m W Wq H Hm HW HWq [] [] g0 g1 I0 E1) as I. cbn [app] in I.
  apply (jmend_start Hm) in I. apply (@jmend_run mem noise m W Wq H1 Hm HW HWq Ao _ _ _ _ _ _ I) in E2. cbn [app] in E2.
  pose proof (healed_join Hm HW HWq L Lq E2) as St.
  destruct (@zn_from mem memb noise m W Wq false Hm ltac:(intros _; exact HWq) _ _ H2 St Hr Ht) as (g2 & Er & St2). exists g2. split; [exact Er|].
  fold K in St2. pose proof (@zn_answer mem memb noise m W Wq false Hm ltac:(intros _; exact HWq) _ _ St2) as (A1 & A2).
  split; [exact A1|]. split; [|intros r c R1 R2; apply A2; auto].
  intros c Hc Hx. exact (@zn_column mem memb noise m W Wq false Hm ltac:(intros _; exact HWq) _ _ c St2 Hc Hx).
Qed.
Print Assumptions C107_join.

(** The same for self-joins: also what is done later is right. *)
Theorem C107_self : forall mem memb noise sf m W H chunks H2 g0 g1 g, 0 < m -> m <= W -> (1 <= sf)%Q -> (sf <= 2)%Q -> (0 <= noise)%R ->
  zn_prepare_streaming mem memb (Fin noise) sf m W None = Ok g0 -> foldM (zn_caught mem) H g0 = Ok g1 ->
  foldM (@zn_append_series R NumR) (map (map (@Fin R)) chunks) g1 = Ok g -> W < length (concat chunks) ->
  let K := CSeries (concat chunks) :: H2 in
  in_range true m W W K ->
  exists g2, zn_run mem g (map finc H2) = Ok g2 /\
    (forall d, has_diag m (wS W K) (wS W K) d -> zn_calc_diagonal g2 d = Ok (g2, diag_dist (zdist noise) m (wS W K) (wS W K) d)) /\
    (forall c, c + m <= W -> exists g', zn_calc_column mem g2 c = Ok (g', col_dist (zdist noise) m (wS W K) (wS W K) c)) /\
    (forall r c, r + m <= W -> c + m <= W -> zn_calc_single g2 r c None = Ok (Fin (zdist noise (sub m (wS W K) r) (sub m (wS W K) c)))).
Proof.
  intros mem memb noise sf m W H chunks H2 g0 g1 g Hm HW S1 S2 Hn E0 E1 E2 L K Hr. destruct (zn_start mem memb Hm HW S1 S2 Hn) as (g0' & E0' & I0).
  assert (g0' = g0) as -> by congruence. pose proof (@zloose_run mem noise m W H Hm HW [] g0 g1 I0 E1) as I. cbn [app] in I.
  apply (zheal_start Hm) in I. apply (zheal_appends chunks Hm HW I) in E2. cbn [app] in E2.
  pose proof (@healed noise m W W _ _ g Hm HW L E2) as St.
  destruct (@zn_from mem memb noise m W W true Hm ltac:(discriminate) _ _ H2 St Hr ltac:(left; reflexivity)) as (g2 & Er & St2). exists g2. split; [exact Er|].
  cbn [app] in St2. fold K in St2. assert (Ls : length (wS W K) = W).
  { unfold wS, K, s_points. cbn [flat_map]. rewrite length_lastn, app_length. lia. }
  pose proof (@zn_answer mem memb noise m W W true Hm ltac:(discriminate) _ _ St2) as (A1 & A2). unfold wQ in A1, A2.
  split; [exact A1|]. split; [|intros r c R1 R2; apply A2; auto; lia].
  intros c Hc. pose proof (@zn_column mem memb noise m W W true Hm ltac:(discriminate) _ _ c St2) as A3. unfold wQ in A3.
  apply A3; [unfold has_col; lia|left; reflexivity].
Qed.
Print Assumptions C107_self.

(** A NaN in the query and one in the series are rejected, then a column is calculated (from statistics of other points); after four points for each
    series, in turn, the statistics are those of the windows, and no cached column is left (integers, m = 2, windows of 3). *)
Example C107_example_join : exists g0 g1 g, zn_prepare_streaming none_Z (fun _ => true) (Fin 0%Z) 2 2 3 (Some 3) = Ok g0 /\
  foldM (zn_caught none_Z) [CSeries (map (@Fin Z) [0; 2; 0]%Z); CQuery (map (@Fin Z) [4; 2; 2]%Z); CQuery [NaN]; CSeries [PInf]; CCol 0] g0 = Ok g1 /\
  rb_view (ch_qbuf (zn_c g1)) = [Fin 2; Fin 2; NaN]%Z /\ rb_view (zs_std (zn_q g1)) = map (@Fin Z) [1; 0]%Z /\ ch_prev (zn_c g1) = Some 0%Z /\
  map snd [zn_append_series_st g1 [Fin 3%Z]; zn_append_query_st g1 [Fin 3%Z]; zn_append_query_st g1 (map (@Fin Z) [3; 3; 3]%Z)] = [Some RuntimeError; Some RuntimeError; None] /\
  grun (zn_calc_column none_Z) (@zn_calc_diagonal Z NumZ) zn_append_series zn_append_query g1
    [CSeries (map (@Fin Z) [0; 2; 2]%Z); CQuery (map (@Fin Z) [6; 4; 4]%Z); CSeries [Fin 0%Z]; CQuery [Fin 8%Z]] = Ok g /\
  rb_view (ch_series (zn_c g)) = map (@Fin Z) [2; 2; 0]%Z /\ rb_view (zs_std (zn_s g)) = map (@Fin Z) [0; 1]%Z /\
  rb_view (ch_qbuf (zn_c g)) = map (@Fin Z) [4; 4; 8]%Z /\ rb_view (zs_std (zn_q g)) = map (@Fin Z) [0; 2]%Z /\ ch_prev (zn_c g) = None.
Proof.
  do 3 eexists. split; [vm_compute; reflexivity|]. split; [vm_compute; reflexivity|]. split; [vm_compute; reflexivity|]. split; [vm_compute; reflexivity|].
  split; [vm_compute; reflexivity|]. split; [vm_compute; reflexivity|]. split; [vm_compute; reflexivity|]. repeat split; vm_compute; reflexivity.
Qed.
(** The hypotheses of [C107_join] on [H1] and [H2] hold of such calls. *)
Example C107_join_hyps : let H1 := [CSeries [0; 2; 2]%R; CQuery [6; 4; 4]%R; CSeries [0]%R; CQuery [8]%R] in let H2 := [CCol 0; CCol 1; CSeries [5]%R; CDiag 0%Z] in
  let K := [CSeries (s_points H1); CQuery (q_points H1)] ++ H2 in
  Forall append_only H1 /\ in_range false 2 3 3 K /\ trusted false 3 K /\ wS 3 K = [2; 0; 5]%R /\ wQ false 3 3 K = [4; 4; 8]%R.
Proof.
  cbn zeta. split; [repeat constructor|]. split; [|split; [|split; reflexivity]].
  - intros A o B E. cbn in E. destruct A as [|a A]; [injection E as <- _; exact I|]. injection E as <- E.
    destruct A as [|a A]; [injection E as <- _; reflexivity|]. injection E as <- E.
    destruct A as [|a A]; [injection E as <- _; cbv; lia|]. injection E as <- E.
    destruct A as [|a A]; [injection E as <- _; cbv; lia|]. injection E as <- E.
    destruct A as [|a A]; [injection E as <- _; exact I|]. injection E as <- E.
    destruct A as [|a A]; [injection E as <- _|].
    + exists 0, 0. cbn. lia.
    + injection E as <- E. destruct A; discriminate.
  - right. right. repeat constructor; cbn; lia.
Qed.
