(** * PRejectJoin: the z-normalised generator after rejected appends, in a join *)
From Coq Require Import QArith Reals Lra.
From Verif Require Import Np NpFacts MRing PRing MUtil MArith MStats MCache MZnorm MRejected SReal SCalc SGen PArith PStats PCache PGenRun PZdist PZnorm PRejected SRejectJoin.
Set Implicit Arguments.
Open Scope nat_scope.

(** ** One of the two series, and its statistics *)
(** [now]: the window, whatever happened *)
Definition side (m N : nat) (now : list (num R)) (b : rb (num R)) (z : @zstats R) : Prop :=
  win N now b /\ exists mus sds nzs, win (N + 1 - m) mus (zs_mu z) /\ win (N + 1 - m) sds (zs_std z) /\ win (N + 1 - m) nzs (zs_nz z).

Lemma side_append m N now b z xs b' : 0 < m -> m <= N -> xs <> [] -> side m N now b z -> win N (lastn N (now ++ xs)) b' ->
  match zstats_append m (rb_view b') (length xs) z with
  | Ok z' => refused m N now xs = false /\ side m N (lastn N (now ++ xs)) b' z'
  | Err e => refused m N now xs = true /\ e = RuntimeError
  end.
Proof.
  intros Hm HN Nx (Wn & mus & sds & nzs & Z1 & Z2 & Z3) Wb. pose proof Wb as (_ & _ & _ & Vc & _). rewrite Vc. unfold zstats_append, refused.
  assert (L : length xs =? 0 = false) by (destruct xs; [congruence|reflexivity]). rewrite L. cbn [negb andb].
  destruct (Nat.leb_spec m (length (lastn N (now ++ xs)))) as [C|C].
  - replace (- (Z.of_nat (length xs) + Z.of_nat m - 1))%Z with (- Z.of_nat (length xs + m - 1))%Z by lia.
    apply Nat.eqb_neq in L. rewrite slice_from_neg by lia.
    cbn [andb]. set (part := lastn (length xs + m - 1) (lastn N (now ++ xs))).
    destruct (forallb isfinite part) eqn:F; cbn [negb].
    + destruct (finite_fin _ F) as (p & Ep). rewrite Ep. assert (Lp : m <= length p).
      { apply (f_equal (@length _)) in Ep. rewrite map_length in Ep. rewrite <- Ep. unfold part. rewrite length_lastn. lia. }
      destruct (sliding_fin p Hm Lp) as [Es _]. rewrite Es. cbn [bind fst snd].
      destruct (win_push (fin (windowed mean m p)) Z1) as (b1 & E1 & W1). destruct (win_push (fin (windowed std m p)) Z2) as (b2 & E2 & W2).
      destruct (win_push (map (fun s => fltb THRESHOLD s) (fin (windowed std m p))) Z3) as (b3 & E3 & W3). rewrite E1. cbn [bind]. rewrite E2. cbn [bind].
      rewrite E3. cbn [bind fst snd]. split; [reflexivity|]. split; [exact Wb|]. cbn [zs_mu zs_std zs_nz]. eauto 7.
    + unfold sliding_mean_std, sliding_mean_with. destruct (Z.leb_spec (Z.of_nat m) 0); [lia|]. rewrite F. cbn [negb bind]. auto.
  - split; [reflexivity|]. split; [exact Wb|]. eauto 7.
Qed.

(** [now0]: the window at some moment; [t]: the points of the appends since then, which were accepted *)
Record mends (m N : nat) (now0 : list (num R)) (t : list R) (b : rb (num R)) (z : @zstats R) : Prop := {
  me_s : win N (lastn N (now0 ++ fin t)) b;
  me_mu : exists x, win (N + 1 - m) x (zs_mu z) /\ ends x (lastn (N + 1 - m) (fin (windowed mean m t)));
  me_sd : exists x, win (N + 1 - m) x (zs_std z) /\ ends x (lastn (N + 1 - m) (fin (windowed std m t)));
  me_nz : exists x, win (N + 1 - m) x (zs_nz z) /\ ends x (lastn (N + 1 - m) (windowed uneven m t))
}.

Lemma mends_start m N now b z : 0 < m -> side m N now b z -> mends m N now [] b z.
Proof.
  intros Hm (Zs & mus & sds & nzs & Z1 & Z2 & Z3).
  assert (E : forall U (st : list R -> U), windowed st m [] = []) by (intros; unfold windowed; cbn [length]; replace (0 + 1 - m) with 0 by lia; reflexivity).
  constructor.
  - cbn [map]. rewrite app_nil_r, lastn_all by (apply (win_len Zs)). exact Zs.
  - exists mus. split; [exact Z1|]. rewrite E. exists mus. unfold lastn. cbn. rewrite app_nil_r. reflexivity.
  - exists sds. split; [exact Z2|]. rewrite E. exists sds. unfold lastn. cbn. rewrite app_nil_r. reflexivity.
  - exists nzs. split; [exact Z3|]. rewrite E. exists nzs. unfold lastn. cbn. rewrite app_nil_r. reflexivity.
Qed.

Lemma mends_append m N now0 t b z xs b' z' : 0 < m -> m <= N -> xs <> [] -> mends m N now0 t b z ->
  win N (lastn N (now0 ++ fin (t ++ xs))) b' -> zstats_append m (rb_view b') (length xs) z = Ok z' -> mends m N now0 (t ++ xs) b' z'.
Proof.
  intros Hm HW Nx [Z4 (x1 & Z5 & F1) (x2 & Z6 & F2) (x3 & Z7 & F3)] Wc Ez.
  pose proof Wc as (_ & _ & _ & Vc & _). rewrite Vc in Ez.
  assert (Px : 0 < length xs) by (destruct xs; [congruence|cbn; lia]).
  assert (Ls : length (lastn N (now0 ++ fin (t ++ xs))) = Nat.min N (length now0 + length t + length xs)) by (rewrite length_lastn, app_length, map_length, app_length; lia).
  unfold zstats_append in Ez. rewrite Ls in Ez.
  destruct (Nat.leb_spec m (Nat.min N (length now0 + length t + length xs))) as [C|C].
  + apply bind_ok in Ez as (ms & Em & Ez).
    replace (- (Z.of_nat (length xs) + Z.of_nat m - 1))%Z with (- Z.of_nat (length xs + m - 1))%Z in Em by lia. rewrite slice_from_neg in Em by lia.
    set (part := lastn (length xs + m - 1) (lastn N (now0 ++ fin (t ++ xs)))) in *.
    assert (F : forallb isfinite part = true).
    { unfold sliding_mean_std, sliding_mean_with in Em. destruct (_ <=? 0)%Z; [discriminate|]. destruct (forallb isfinite part); [reflexivity|discriminate]. }
    destruct (finite_fin _ F) as (p & Ep). assert (Lp : m <= length p).
    { apply (f_equal (@length _)) in Ep. rewrite map_length in Ep. rewrite <- Ep. unfold part. rewrite length_lastn, Ls. lia. }
    unfold part in Ep.
    destruct (sliding_fin p Hm Lp) as [Es _]. unfold part in Em. rewrite Ep in Em. rewrite Es in Em. injection Em as <-. cbn [fst snd] in Ez. rewrite uneven_map in Ez.
    destruct (win_push (fin (windowed mean m p)) Z5) as (b1 & E1 & V1).
    destruct (win_push (fin (windowed std m p)) Z6) as (b2 & E2 & V2).
    destruct (win_push (windowed uneven m p) Z7) as (b3 & E3 & V3).
    rewrite E1 in Ez. cbn [bind] in Ez. rewrite E2 in Ez. cbn [bind] in Ez. rewrite E3 in Ez. cbn [bind fst] in Ez. injection Ez as <-.
    assert (Wm : forall (st : list R -> R) l, fin (windowed st m l) = windowed (fun v => Fin (st v)) m l) by (intros st l; unfold windowed; rewrite map_map; reflexivity).
    constructor; cbn [zs_mu zs_std zs_nz]; auto.
    * eexists. split; [exact V1|]. rewrite !Wm in *. eapply stats_continue; eauto.
    * eexists. split; [exact V2|]. rewrite !Wm in *. eapply stats_continue; eauto.
    * eexists. split; [exact V3|]. eapply stats_continue; eauto.
  + injection Ez as <-.
    assert (Wn : forall U (st : list R -> U), windowed st m (t ++ xs) = []) by (intros; unfold windowed; rewrite app_length; replace (length t + length xs + 1 - m) with 0 by lia; reflexivity).
    assert (K : forall T (x : list T), ends x []) by (intros T x; exists x; rewrite app_nil_r; reflexivity).
    constructor; auto.
    * eexists. split; [exact Z5|]. rewrite Wn. apply K.
    * eexists. split; [exact Z6|]. rewrite Wn. apply K.
    * eexists. split; [exact Z7|]. rewrite Wn. apply K.
Qed.

Lemma mended m N now0 t b z : 0 < m -> m <= N -> N < length t -> mends m N now0 t b z ->
  win N (fin (lastn N t)) b /\ zs_inv m N (lastn N t) z.
Proof.
  intros Hm HW Lt [Z4 (x1 & Z5 & F1) (x2 & Z6 & F2) (x3 & Z7 & F3)].
  rewrite lastn_app_r, lastn_map in Z4 by (rewrite map_length; lia).
  apply ends_all in F1; [|apply (win_len Z5)|rewrite map_length, length_windowed; lia].
  apply ends_all in F2; [|apply (win_len Z6)|rewrite map_length, length_windowed; lia].
  apply ends_all in F3; [|apply (win_len Z7)|rewrite length_windowed; lia].
  rewrite lastn_map, <- windowed_lastn in F1, F2 by exact Hm. rewrite <- windowed_lastn in F3 by exact Hm. subst x1 x2 x3.
  split; [exact Z4|]. split; [exact Z5|split; [exact Z6|exact Z7]].
Qed.

(** ** The cache of a join *)
Lemma join_append_s (c : @cache R) n v xs : ch_self c = false -> win n v (ch_series c) -> exists c', cache_append_s c xs = Ok c' /\
  win n (lastn n (v ++ xs)) (ch_series c') /\ ch_m c' = ch_m c /\ ch_self c' = false /\ ch_qbuf c' = ch_qbuf c /\
  (ch_prev c = None -> ch_prev c' = None) /\ ch_first c' = ch_first c.
Proof.
  intros Es Wc. destruct (win_push xs Wc) as (b & Eb & Wb). unfold cache_append_s. rewrite Eb. cbn [bind fst snd]. eexists. split; [reflexivity|].
  rewrite Es. cbn [ch_series ch_m ch_self ch_prev ch_first ch_qbuf]. intuition. rewrite H. reflexivity.
Qed.
Lemma join_append_q (c : @cache R) n v xs : win n v (ch_qbuf c) -> exists c', cache_append_q c xs = Ok c' /\
  win n (lastn n (v ++ xs)) (ch_qbuf c') /\ ch_m c' = ch_m c /\ ch_self c' = ch_self c /\ ch_series c' = ch_series c /\
  ch_prev c' = None /\ (ch_first c = None -> ch_first c' = None) /\ (n < length v + length xs -> ch_first c' = None).
Proof.
  intros Wc. destruct (win_push xs Wc) as (b & Eb & Wb). unfold cache_append_q. rewrite Eb. cbn [bind fst snd]. eexists. split; [reflexivity|].
  cbn [ch_series ch_m ch_self ch_prev ch_first ch_qbuf]. split; [exact Wb|]. do 4 (split; [reflexivity|]).
  split; [intros ->; destruct (_ =? 0); reflexivity|]. intro L. destruct (Nat.eqb_spec (length v + length xs - n) 0); [lia|reflexivity].
Qed.

(** ** The generator, whatever happened *)
Record zjoin (noise : R) (m W Wq : nat) (now nowq : list (num R)) (g : @zn R) : Prop := {
  zj_m : ch_m (zn_c g) = m;
  zj_self : ch_self (zn_c g) = false;
  zj_noise : zn_noise g = Fin noise;
  zj_s : side m W now (ch_series (zn_c g)) (zn_s g);
  zj_q : side m Wq nowq (ch_qbuf (zn_c g)) (zn_q g)
}.

Lemma side_nil m N now b z : side m N now b z -> lastn N (now ++ []) = now.
Proof. intros (Wn & _). rewrite app_nil_r. apply lastn_all. apply (win_len Wn). Qed.

Lemma zjoin_s noise m W Wq now nowq g xs : 0 < m -> m <= W -> zjoin noise m W Wq now nowq g ->
  zjoin noise m W Wq (lastn W (now ++ xs)) nowq (fst (zn_append_series_st g xs)) /\
  snd (zn_append_series_st g xs) = (if refused m W now xs then Some RuntimeError else None).
Proof.
  intros Hm HW [Zm Zself Zn Zs Zq]. unfold zn_append_series_st. destruct (Nat.eqb_spec (length xs) 0) as [L|L].
  { destruct xs; [|discriminate]. split; [|reflexivity]. rewrite (side_nil Zs). constructor; auto. }
  assert (Nx : xs <> []) by (intros ->; cbn in L; lia).
  destruct (join_append_s _ xs Zself (proj1 Zs)) as (c & Ec & Wc & Mc & Sc & Qc & _). rewrite Ec, Mc, Zm.
  pose proof (side_append Hm HW Nx Zs Wc) as K. destruct (zstats_append _ _ _ _) as [z|e].
  - destruct K as (-> & K). split; [|reflexivity]. constructor; cbn [fst zn_c zn_noise zn_s zn_q]; auto; try congruence; rewrite Qc; exact Zq.
  - destruct K as (-> & ->). split; [|reflexivity]. constructor; cbn [fst zn_c zn_noise zn_s zn_q ch_m ch_self ch_series ch_qbuf]; auto.
    split; [exact Wc|exact (proj2 Zs)].
Qed.
Lemma zjoin_q noise m W Wq now nowq g xs : 0 < m -> m <= Wq -> zjoin noise m W Wq now nowq g ->
  zjoin noise m W Wq now (lastn Wq (nowq ++ xs)) (fst (zn_append_query_st g xs)) /\
  snd (zn_append_query_st g xs) = (if refused m Wq nowq xs then Some RuntimeError else None).
Proof.
  intros Hm HW [Zm Zself Zn Zs Zq]. unfold zn_append_query_st. rewrite Zself. destruct (Nat.eqb_spec (length xs) 0) as [L|L].
  { destruct xs; [|discriminate]. split; [|reflexivity]. rewrite (side_nil Zq). constructor; auto. }
  assert (Nx : xs <> []) by (intros ->; cbn in L; lia).
  destruct (join_append_q _ xs (proj1 Zq)) as (c & Ec & Wc & Mc & Sc & Qc & _). rewrite Ec, Mc, Zm.
  pose proof (side_append Hm HW Nx Zq Wc) as K. destruct (zstats_append _ _ _ _) as [z|e].
  - destruct K as (-> & K). split; [|reflexivity]. constructor; cbn [fst zn_c zn_noise zn_s zn_q]; auto; try congruence.
  - destruct K as (-> & ->). split; [|reflexivity]. constructor; cbn [fst zn_c zn_noise zn_s zn_q]; auto; try congruence.
    split; [exact Wc|exact (proj2 Zq)].
Qed.

Lemma zjoin_caught mem noise m W Wq now nowq g o g' : 0 < m -> m <= W -> m <= Wq -> zjoin noise m W Wq now nowq g -> zn_caught mem g o = Ok g' ->
  zjoin noise m W Wq (lastn W (now ++ s_points [o])) (lastn Wq (nowq ++ q_points [o])) g'.
Proof.
  intros Hm HW HWq I E. unfold s_points, q_points. cbn [flat_map]. rewrite !app_nil_r.
  pose proof (side_nil (zj_s I)) as L. pose proof (side_nil (zj_q I)) as Lq.
  destruct o; cbn [zn_caught] in E; rewrite ?L, ?Lq.
  - injection E as <-. apply zjoin_s; assumption.
  - injection E as <-. apply zjoin_q; assumption.
  - apply bind_ok in E as (r & E1 & E2). injection E2 as <-. destruct I as [Zm Zself Zn Zs Zq].
    unfold zn_calc_column in E1. destruct (_ <? _); [discriminate|]. apply bind_ok in E1 as (r' & Er & E1). do 4 (apply bind_ok in E1 as (? & _ & E1)).
    destruct (_ =? _); [|discriminate]. injection E1 as <-. cbn [fst].
    assert (K : ch_m (fst r') = ch_m (zn_c g) /\ ch_self (fst r') = ch_self (zn_c g) /\ ch_series (fst r') = ch_series (zn_c g) /\ ch_qbuf (fst r') = ch_qbuf (zn_c g)).
    { unfold cache_col in Er. apply bind_ok in Er as (((a & b) & v) & _ & Er). injection Er as <-. auto. }
    destruct K as (K1 & K2 & K3 & K4). constructor; cbn [zn_c zn_noise zn_s zn_q]; try congruence.
  - apply bind_ok in E as (r & E1 & E2). injection E2 as <-. unfold zn_calc_diagonal in E1. destruct (_ <? 0)%Z; [discriminate|].
    do 4 (apply bind_ok in E1 as (? & _ & E1)). destruct (_ =? _); [|discriminate]. injection E1 as <-. exact I.
Qed.

Lemma zjoin_run mem noise m W Wq H : 0 < m -> m <= W -> m <= Wq -> forall pts ptsq g g', zjoin noise m W Wq (lastn W pts) (lastn Wq ptsq) g ->
  foldM (zn_caught mem) H g = Ok g' -> zjoin noise m W Wq (lastn W (pts ++ s_points H)) (lastn Wq (ptsq ++ q_points H)) g'.
Proof.
  intros Hm HW HWq. induction H as [|o H IH]; intros pts ptsq g g' I E; cbn [foldM] in E.
  - cbn. rewrite !app_nil_r. congruence.
  - apply bind_ok in E as (g1 & E1 & E2). apply (zjoin_caught _ _ Hm HW HWq I) in E1. rewrite !lastn_app in E1.
    apply (IH _ _ _ _ E1) in E2. rewrite <- !app_assoc in E2. unfold s_points, q_points in *. cbn [flat_map] in E2 |- *. rewrite !app_nil_r in E2. exact E2.
Qed.

(** ** Accepted appends to either series *)
Record jmend (noise : R) (m W Wq : nat) (now0 nowq0 : list (num R)) (t tq : list R) (g : @zn R) : Prop := {
  jm_m : ch_m (zn_c g) = m;
  jm_self : ch_self (zn_c g) = false;
  jm_noise : zn_noise g = Fin noise;
  jm_s : mends m W now0 t (ch_series (zn_c g)) (zn_s g);
  jm_q : mends m Wq nowq0 tq (ch_qbuf (zn_c g)) (zn_q g);
  jm_prev : tq <> [] -> ch_prev (zn_c g) = None;
  jm_first : Wq < length tq -> ch_first (zn_c g) = None
}.

Lemma jmend_start noise m W Wq now nowq g : 0 < m -> zjoin noise m W Wq now nowq g -> jmend noise m W Wq now nowq [] [] g.
Proof.
  intros Hm [Zm Zself Zn Zs Zq]. constructor; auto using mends_start; [congruence|cbn; lia].
Qed.

Definition zn_go (mem : nat -> num R) : @zn R -> list (gcall (num R)) -> res (@zn R) := grun (zn_calc_column mem) (@zn_calc_diagonal R NumR) zn_append_series zn_append_query.

Lemma jmend_append mem noise m W Wq now0 nowq0 t tq g o g' : 0 < m -> m <= W -> m <= Wq -> append_only o -> jmend noise m W Wq now0 nowq0 t tq g ->
  gstep (zn_calc_column mem) (@zn_calc_diagonal R NumR) zn_append_series zn_append_query g (finc o) = Ok g' ->
  jmend noise m W Wq now0 nowq0 (t ++ s_points [o]) (tq ++ q_points [o]) g'.
Proof.
  intros Hm HW HWq Ao I E. unfold s_points, q_points. cbn [flat_map]. rewrite !app_nil_r.
  destruct o as [xs|xs| |]; try contradiction; cbn [finc gstep] in E; rewrite ?app_nil_r; pose proof I as [Zm Zself Zn Zs Zq Zp Zf].
  - unfold zn_append_series in E. rewrite map_length in E. destruct (Nat.eqb_spec (length xs) 0) as [L|L].
    { injection E as <-. destruct xs; [|discriminate]. rewrite app_nil_r. exact I. }
    assert (Nx : xs <> []) by (intros ->; cbn in L; lia).
    destruct (join_append_s _ (fin xs) Zself (me_s Zs)) as (c & Ec & Wc & Mc & Sc & Qc & Pc & Fc). rewrite Ec in E. cbn [bind] in E.
    rewrite lastn_app, <- app_assoc, <- map_app in Wc.
    apply bind_ok in E as (z & Ez & E). injection E as <-. rewrite Mc, Zm in Ez.
    constructor; cbn [zn_c zn_noise zn_s zn_q]; auto; try congruence.
    + eapply mends_append; eauto.
    + intro L'. rewrite Fc. auto.
  - unfold zn_append_query in E. rewrite Zself, map_length in E. destruct (Nat.eqb_spec (length xs) 0) as [L|L].
    { injection E as <-. destruct xs; [|discriminate]. rewrite app_nil_r. exact I. }
    assert (Nx : xs <> []) by (intros ->; cbn in L; lia).
    destruct (join_append_q _ (fin xs) (me_s Zq)) as (c & Ec & Wc & Mc & Sc & Qc & Pc & Fc & Fc'). rewrite Ec in E. cbn [bind] in E.
    rewrite lastn_app, <- app_assoc, <- map_app in Wc.
    apply bind_ok in E as (z & Ez & E). injection E as <-. rewrite Mc, Zm in Ez.
    constructor; cbn [zn_c zn_noise zn_s zn_q]; auto; try congruence.
    + eapply mends_append; eauto.
    + rewrite app_length. intro L'. destruct (le_lt_dec (length tq) Wq); [|auto]. apply Fc'. rewrite length_lastn, app_length, !map_length. lia.
Qed.

Lemma jmend_run mem noise m W Wq H : 0 < m -> m <= W -> m <= Wq -> Forall append_only H -> forall now0 nowq0 t tq g g', jmend noise m W Wq now0 nowq0 t tq g ->
  zn_go mem g (map finc H) = Ok g' -> jmend noise m W Wq now0 nowq0 (t ++ s_points H) (tq ++ q_points H) g'.
Proof.
  intros Hm HW HWq. induction 1 as [|o H Ho _ IH]; intros now0 nowq0 t tq g g' I E; unfold zn_go, grun in E; cbn [map foldM] in E.
  - cbn. rewrite !app_nil_r. congruence.
  - apply bind_ok in E as (g1 & E1 & E2). apply (jmend_append _ _ Hm HW HWq Ho I) in E1.
    apply (IH _ _ _ _ _ _ E1) in E2. rewrite <- !app_assoc in E2. unfold s_points, q_points in *. cbn [flat_map] in E2 |- *. rewrite !app_nil_r in E2. exact E2.
Qed.

Lemma healed_join noise m W Wq now0 nowq0 t tq g : 0 < m -> m <= W -> m <= Wq -> W < length t -> Wq < length tq ->
  jmend noise m W Wq now0 nowq0 t tq g -> state_after false W Wq (ZInv noise m W Wq false) [CSeries t; CQuery tq] g.
Proof.
  intros Hm HW HWq Lt Ltq [Zm Zself Zn Zs Zq Zp Zf].
  destruct (mended Hm HW Lt Zs) as (A1 & A2). destruct (mended Hm HWq Ltq Zq) as (B1 & B2).
  assert (Ntq : tq <> []) by (intros ->; cbn in Ltq; lia).
  unfold state_after. cbn zeta.
  assert (Ew : wS W [CSeries t; CQuery tq] = lastn W t) by (unfold wS, s_points; cbn [flat_map]; rewrite !app_nil_r; reflexivity).
  assert (Eq : wQ false W Wq [CSeries t; CQuery tq] = lastn Wq tq) by (unfold wQ, q_points; cbn [flat_map app]; rewrite ?app_nil_r; reflexivity).
  rewrite Ew, Eq. constructor; auto. constructor; auto.
  - intros b Eb. rewrite Zf in Eb by exact Ltq. discriminate.
  - intros p Ep. rewrite Zp in Ep by exact Ntq. discriminate.
Qed.
