(** * PRejected: StreamingStats and the z-normalised generator after rejected appends *)
From Coq Require Import QArith Reals Lra.
From Verif Require Import Np NpFacts MRing PRing MUtil MArith MStats MCache MZnorm MRejected SReal SCalc SGen PArith PStats PCache PGenRun PZdist PZnorm.
Set Implicit Arguments.
Open Scope nat_scope.

Lemma finite_fin (l : list (num R)) : forallb isfinite l = true -> exists l', l = fin l'.
Proof.
  induction l as [|x l IH]; intro H; [exists []; reflexivity|]. cbn [forallb] in H. apply andb_prop in H as [H1 H2].
  destruct (IH H2) as (l' & ->). destruct x; try discriminate. exists (a :: l'). reflexivity.
Qed.

(** ** StreamingStats *)
Definition sloose (m N : nat) (now : list (num R)) (good : list R) (s : stats) : Prop :=
  ss_m s = Z.of_nat m /\ length now = N /\ length good = N /\ win N now (ss_data s) /\
  win (N + 1 - m) (fin (windowed mean m good)) (ss_mean s) /\ win (N + 1 - m) (fin (windowed std m good)) (ss_std s).

Lemma stats_append_loose m N now good s xs : 0 < m -> m <= N -> sloose m N now good s ->
  let now' := lastn N (now ++ xs) in
  exists s', fst (stats_append_st s xs) = s' /\
    ((snd (stats_append_st s xs) = None /\ forallb isfinite now' = true /\ exists l, now' = fin l /\ sloose m N now' l s') \/
     (snd (stats_append_st s xs) = None /\ xs = [] /\ sloose m N now' good s') \/
     (snd (stats_append_st s xs) = Some RuntimeError /\ xs <> [] /\ forallb isfinite now' = false /\ sloose m N now' good s')).
Proof.
  intros Hm HN (Em & Ln & Lg & Wd & Wm & Ws) now'. eexists. split; [reflexivity|]. unfold stats_append_st.
  destruct (Z.eqb_spec (Z.of_nat (length xs)) 0) as [L|L].
  - right. left. destruct xs; [|cbn [length] in L; lia]. cbn [fst snd]. split; [reflexivity|]. split; [reflexivity|].
    unfold now'. rewrite app_nil_r, lastn_all by lia. unfold sloose. tauto.
  - assert (Nx : xs <> []) by (intros ->; cbn in L; lia).
    destruct (win_push xs Wd) as (d & Ed & Wd'). fold now' in Wd'. rewrite Ed. cbn [fst snd].
    pose proof Wd' as (_ & _ & _ & Vd & _). rewrite Vd, Em.
    assert (Ln' : length now' = N) by (unfold now'; rewrite length_lastn, app_length; lia).
    replace (Z.max (- Z.of_nat m - 1 - Z.of_nat (length xs)) 0) with 0%Z by lia.
    replace (slice_from now' 0) with now' by (unfold slice_from; destruct now'; reflexivity).
    destruct (forallb isfinite now') eqn:F.
    + left. destruct (finite_fin _ F) as (l' & El). rewrite El in *. rewrite map_length in Ln'.
      destruct (sliding_fin l' Hm ltac:(lia)) as [Es _]. rewrite Es. cbn [fst snd].
      destruct (win_push (fin (windowed mean m l')) Wm) as (b1 & E1 & W1). destruct (win_push (fin (windowed std m l')) Ws) as (b2 & E2 & W2).
      rewrite E1, E2. cbn [fst snd]. split; [reflexivity|]. split; [reflexivity|]. exists l'. split; [reflexivity|].
      rewrite lastn_app_r in W1, W2 by (rewrite map_length, length_windowed; lia).
      rewrite lastn_all in W1, W2 by (rewrite map_length, length_windowed; lia).
      unfold sloose. cbn [ss_m ss_data ss_mean ss_std]. rewrite map_length. tauto.
    + right. right. unfold sliding_mean_std, sliding_mean_with. destruct (Z.leb_spec (Z.of_nat m) 0); [lia|]. rewrite F. cbn [negb fst snd].
      split; [reflexivity|]. split; [exact Nx|]. split; [reflexivity|]. unfold sloose. cbn [ss_m ss_data ss_mean ss_std]. tauto.
Qed.

Lemma stats_new_loose mem m l : 0 < m -> m <= length l -> exists s, stats_new mem (fin l) (Z.of_nat m) = Ok s /\ sloose m (length l) (fin l) l s.
Proof.
  intros Hm Hl. destruct (stats_new_ok mem l Hm Hl) as (s & E & I). exists s. split; [exact E|].
  unfold sinv in I. unfold sloose. rewrite map_length. tauto.
Qed.

Lemma stats_appends_snoc (s : @stats R) cs c :
  stats_appends s (cs ++ [c]) = (fst (stats_append_st (fst (stats_appends s cs)) c), snd (stats_appends s cs) ++ [snd (stats_append_st (fst (stats_appends s cs)) c)]).
Proof.
  revert s. induction cs as [|a cs IH]; intro s; cbn [app stats_appends fst snd]; [reflexivity|]. rewrite IH. reflexivity.
Qed.

(** ** The z-normalised generator, self-join *)
(** What holds whatever happened: [now] is the window of points, the statistics are some [X] *)
Record zloose (noise : R) (m W : nat) (now : list (num R)) (mus sds : list (num R)) (nzs : list bool) (g : @zn R) : Prop := {
  zl_m : ch_m (zn_c g) = m;
  zl_self : ch_self (zn_c g) = true;
  zl_noise : zn_noise g = Fin noise;
  zl_s : win W now (ch_series (zn_c g));
  zl_mu : win (W + 1 - m) mus (zs_mu (zn_s g));
  zl_sd : win (W + 1 - m) sds (zs_std (zn_s g));
  zl_nz : win (W + 1 - m) nzs (zs_nz (zn_s g))
}.
Definition zsome (noise : R) (m W : nat) (now : list (num R)) (g : @zn R) : Prop := exists mus sds nzs, zloose noise m W now mus sds nzs g.

Lemma cache_append_s_parts (c : @cache R) n v xs : win n v (ch_series c) -> exists c', cache_append_s c xs = Ok c' /\
  win n (lastn n (v ++ xs)) (ch_series c') /\ ch_m c' = ch_m c /\ ch_self c' = ch_self c /\
  (ch_self c = true -> ch_prev c' = None /\ (ch_first c' = ch_first c \/ ch_first c' = None) /\ (n < length v + length xs -> ch_first c' = None)).
Proof.
  intro Wc. destruct (win_push xs Wc) as (b & Eb & Wb). unfold cache_append_s. rewrite Eb. cbn [bind fst snd]. eexists. split; [reflexivity|].
  destruct (ch_self c) eqn:Es; cbn [ch_series ch_m ch_self ch_prev ch_first]; (split; [exact Wb|]); (split; [reflexivity|]); (split; [congruence|]).
  - intros _. split; [reflexivity|]. split; [destruct (_ =? 0); auto|]. intro L. destruct (Nat.eqb_spec (length v + length xs - n) 0); [lia|reflexivity].
  - discriminate.
Qed.

(** The statistics of new points are rejected if, and only if, some of the points they depend on are not finite. *)
Definition refused (m W : nat) (now xs : list (num R)) : bool :=
  negb (length xs =? 0) && (m <=? length (lastn W (now ++ xs))) && negb (forallb isfinite (lastn (length xs + m - 1) (lastn W (now ++ xs)))).

Lemma zloose_append noise m W now g xs : 0 < m -> m <= W -> zsome noise m W now g -> zsome noise m W (lastn W (now ++ xs)) (fst (zn_append_series_st g xs)) /\
  snd (zn_append_series_st g xs) = (if refused m W now xs then Some RuntimeError else None).
Proof.
  intros Hm HW (mus & sds & nzs & [Zm Zself Zn Zs Z1 Z2 Z3]). unfold zn_append_series_st, refused. destruct (Nat.eqb_spec (length xs) 0) as [L|L].
  { destruct xs; [|discriminate]. split; [|reflexivity]. exists mus, sds, nzs. cbn [fst]. constructor; auto. rewrite app_nil_r, lastn_all by (apply (win_len Zs)). exact Zs. }
  destruct (cache_append_s_parts _ xs Zs) as (c & Ec & Wc & Mc & Sc & _). rewrite Ec.
  pose proof Wc as (_ & _ & _ & Vc & _). rewrite Vc, Mc, Zm. unfold zstats_append. cbn [negb andb].
  destruct (Nat.leb_spec m (length (lastn W (now ++ xs)))) as [C|C].
  - replace (- (Z.of_nat (length xs) + Z.of_nat m - 1))%Z with (- Z.of_nat (length xs + m - 1))%Z by lia. rewrite slice_from_neg by lia.
    cbn [andb]. set (part := lastn (length xs + m - 1) (lastn W (now ++ xs))).
    destruct (forallb isfinite part) eqn:F; cbn [negb].
    + destruct (finite_fin _ F) as (p & Ep). rewrite Ep. assert (Lp : m <= length p).
      { apply (f_equal (@length _)) in Ep. rewrite map_length in Ep. rewrite <- Ep. unfold part. rewrite length_lastn. lia. }
      destruct (sliding_fin p Hm Lp) as [Es _]. rewrite Es. cbn [bind fst snd].
      destruct (win_push (fin (windowed mean m p)) Z1) as (b1 & E1 & W1). destruct (win_push (fin (windowed std m p)) Z2) as (b2 & E2 & W2).
      destruct (win_push (map (fun s => fltb THRESHOLD s) (fin (windowed std m p))) Z3) as (b3 & E3 & W3). rewrite E1. cbn [bind]. rewrite E2. cbn [bind].
      rewrite E3. cbn [bind fst snd]. split; [|reflexivity]. do 3 eexists. constructor; cbn [zn_c zn_noise zn_s zs_mu zs_std zs_nz]; eauto; congruence.
    + unfold sliding_mean_std, sliding_mean_with. destruct (Z.leb_spec (Z.of_nat m) 0); [lia|]. rewrite F. cbn [negb bind fst snd]. split; [|reflexivity].
      do 3 eexists. constructor; cbn [zn_c zn_noise zn_s zs_mu zs_std zs_nz ch_m ch_self ch_series]; eauto.
  - cbn [andb fst snd]. split; [|reflexivity]. do 3 eexists. constructor; cbn [zn_c zn_noise zn_s zs_mu zs_std zs_nz]; eauto; congruence.
Qed.

Lemma zloose_caught mem noise m W now g o g' : 0 < m -> m <= W -> zsome noise m W now g -> zn_caught mem g o = Ok g' ->
  zsome noise m W (lastn W (now ++ match o with CSeries xs => xs | _ => [] end)) g'.
Proof.
  intros Hm HW I E. assert (L : lastn W (now ++ []) = now).
  { destruct I as (? & ? & ? & I). rewrite app_nil_r. apply lastn_all. apply (win_len (zl_s I)). }
  destruct o; cbn [zn_caught] in E; rewrite ?L.
  - injection E as <-. apply zloose_append; assumption.
  - injection E as <-. unfold zn_append_query_st. destruct I as (mus & sds & nzs & I). rewrite (zl_self I). cbn [fst]. exists mus, sds, nzs. exact I.
  - apply bind_ok in E as (r & E1 & E2). injection E2 as <-. destruct I as (mus & sds & nzs & [Zm Zself Zn Zs Z1 Z2 Z3]). exists mus, sds, nzs.
    unfold zn_calc_column in E1. destruct (_ <? _); [discriminate|]. apply bind_ok in E1 as (r' & Er & E1). do 4 (apply bind_ok in E1 as (? & _ & E1)).
    destruct (_ =? _); [|discriminate]. injection E1 as <-. cbn [fst].
    assert (K : ch_m (fst r') = ch_m (zn_c g) /\ ch_self (fst r') = ch_self (zn_c g) /\ ch_series (fst r') = ch_series (zn_c g)).
    { unfold cache_col in Er. apply bind_ok in Er as (((a & b) & v) & _ & Er). injection Er as <-. auto. }
    destruct K as (K1 & K2 & K3). constructor; cbn [zn_c zn_noise zn_s]; congruence.
  - apply bind_ok in E as (r & E1 & E2). injection E2 as <-. unfold zn_calc_diagonal in E1. destruct (_ <? 0)%Z; [discriminate|].
    do 4 (apply bind_ok in E1 as (? & _ & E1)). destruct (_ =? _); [|discriminate]. injection E1 as <-. exact I.
Qed.

Lemma zloose_run mem noise m W H : 0 < m -> m <= W -> forall pts g g', zsome noise m W (lastn W pts) g -> foldM (zn_caught mem) H g = Ok g' ->
  zsome noise m W (lastn W (pts ++ s_points H)) g'.
Proof.
  intros Hm HW. induction H as [|o H IH]; intros pts g g' I E; cbn [foldM] in E.
  - cbn. rewrite app_nil_r. congruence.
  - apply bind_ok in E as (g1 & E1 & E2). apply (zloose_caught _ _ Hm HW I) in E1. rewrite lastn_app in E1.
    apply (IH _ _ _ E1) in E2. rewrite <- app_assoc in E2. exact E2.
Qed.

(** [t]: the points of the accepted appends since some moment, and [m - 1] points before these *)
Lemma windowed_snoc {U} (stat : list R -> U) m l x : 0 < m -> windowed stat m (l ++ x) = windowed stat m l ++ windowed stat m (lastn (length x + m - 1) (l ++ x)).
Proof.
  intro Hm. destruct (le_lt_dec m (length l + length x)); [apply windowed_app; assumption|].
  unfold windowed. rewrite app_length, length_lastn, app_length.
  replace (length l + length x + 1 - m) with 0 by lia. replace (length l + 1 - m) with 0 by lia.
  replace (Nat.min (length x + m - 1) (length l + length x) + 1 - m) with 0 by lia. reflexivity.
Qed.

Lemma windowed_suffix {U} (stat : list R -> U) m z u : exists y, windowed stat m (z ++ u) = y ++ windowed stat m u.
Proof.
  destruct m as [|m].
  - exists (map (fun i => stat []) (seq 0 (length z))). unfold windowed, sub. cbn [firstn]. rewrite !Nat.sub_0_r, <- map_app, app_length.
    assert (K : forall a b, map (fun _ : nat => stat (@nil R)) (seq a b) = repeat (stat []) b).
    { intros a b. revert a. induction b as [|b IH]; intro a; cbn [seq map repeat]; [reflexivity|]. rewrite IH. reflexivity. }
    rewrite map_app, !K, <- repeat_app. f_equal. lia.
  - exists (firstn (length z + length u + 1 - Datatypes.S m - (length u + 1 - Datatypes.S m)) (windowed stat (Datatypes.S m) (z ++ u))).
    rewrite <- (firstn_skipn (length z + length u + 1 - Datatypes.S m - (length u + 1 - Datatypes.S m)) (windowed stat (Datatypes.S m) (z ++ u))) at 1. f_equal.
    replace u with (lastn (length u) (z ++ u)) at 4.
    2:{ rewrite lastn_app_r by lia. apply lastn_all. lia. }
    rewrite windowed_lastn by lia. unfold lastn. rewrite length_windowed, app_length. reflexivity.
Qed.
Lemma lastn_suffix {T} c (y w : list T) : exists y', lastn c (y ++ w) = y' ++ lastn c w.
Proof.
  destruct (le_lt_dec c (length w)) as [C|C].
  - exists []. apply lastn_app_r. exact C.
  - exists (lastn (c - length w) y). rewrite (@lastn_all _ c w) by lia. unfold lastn. rewrite skipn_app, app_length.
    replace (length y + length w - c - length y) with 0 by lia. cbn [skipn]. f_equal. f_equal. lia.
Qed.

Definition ends {T} (x w : list T) : Prop := exists y, x = y ++ w.
Lemma ends_push {T} c (x w b z : list T) : ends x (lastn c w) -> ends (lastn c (x ++ z ++ b)) (lastn c b) /\
  (z = [] -> ends (lastn c (x ++ z ++ b)) (lastn c (w ++ b))).
Proof.
  intros (y & ->). split.
  - rewrite app_assoc. destruct (lastn_suffix c ((y ++ lastn c w) ++ z) b) as (y' & E). exists y'. exact E.
  - intros ->. cbn [app]. rewrite <- app_assoc. destruct (lastn_suffix c y (lastn c w ++ b)) as (y' & E). exists y'. rewrite E. f_equal.
    rewrite lastn_app. reflexivity.
Qed.

(** [now0]: the window at some moment; [t]: the points of the appends since then, which were accepted *)
Record zheal (noise : R) (m W : nat) (now0 : list (num R)) (t : list R) (g : @zn R) : Prop := {
  zh_m : ch_m (zn_c g) = m;
  zh_self : ch_self (zn_c g) = true;
  zh_noise : zn_noise g = Fin noise;
  zh_s : win W (lastn W (now0 ++ fin t)) (ch_series (zn_c g));
  zh_mu : exists x, win (W + 1 - m) x (zs_mu (zn_s g)) /\ ends x (lastn (W + 1 - m) (fin (windowed mean m t)));
  zh_sd : exists x, win (W + 1 - m) x (zs_std (zn_s g)) /\ ends x (lastn (W + 1 - m) (fin (windowed std m t)));
  zh_nz : exists x, win (W + 1 - m) x (zs_nz (zn_s g)) /\ ends x (lastn (W + 1 - m) (windowed uneven m t));
  zh_prev : t <> [] -> ch_prev (zn_c g) = None;
  zh_first : W < length now0 + length t -> t <> [] -> ch_first (zn_c g) = None
}.

Lemma zheal_start noise m W now g : 0 < m -> zsome noise m W now g -> zheal noise m W now [] g.
Proof.
  intros Hm (mus & sds & nzs & [Zm Zself Zn Zs Z1 Z2 Z3]).
  assert (E : forall U (st : list R -> U), windowed st m [] = []) by (intros; unfold windowed; cbn [length]; replace (0 + 1 - m) with 0 by lia; reflexivity).
  constructor; auto.
  - cbn [map]. rewrite app_nil_r, lastn_all by (apply (win_len Zs)). exact Zs.
  - exists mus. split; [exact Z1|]. rewrite E. exists mus. unfold lastn. cbn. rewrite app_nil_r. reflexivity.
  - exists sds. split; [exact Z2|]. rewrite E. exists sds. unfold lastn. cbn. rewrite app_nil_r. reflexivity.
  - exists nzs. split; [exact Z3|]. rewrite E. exists nzs. unfold lastn. cbn. rewrite app_nil_r. reflexivity.
  - congruence.
  - congruence.
Qed.

Lemma lastn_lastn_min {T} a b (l : list T) : lastn a (lastn b l) = lastn (Nat.min a b) l.
Proof.
  apply nth_error_ext. intro i. rewrite !nth_error_lastn, length_lastn. f_equal. lia.
Qed.

(** The new statistics continue those of the accepted points. *)
Lemma stats_continue {U} (st : list R -> U) m W now0 (t xs p : list R) x : 0 < m -> m <= W -> xs <> [] ->
  lastn (length xs + m - 1) (lastn W (now0 ++ fin (t ++ xs))) = fin p -> ends x (lastn (W + 1 - m) (windowed st m t)) ->
  ends (lastn (W + 1 - m) (x ++ windowed st m p)) (lastn (W + 1 - m) (windowed st m (t ++ xs))).
Proof.
  intros Hm HW Nx Ep Ex. assert (Px : 0 < length xs) by (destruct xs; cbn [length]; [congruence|lia]).
  set (q := length xs + m - 1) in *. set (q' := Nat.min q W). rewrite lastn_lastn_min in Ep. fold q' in Ep.
  set (u := lastn q' (t ++ xs)).
  assert (Hp : exists z, p = z ++ u /\ (q' <= length (t ++ xs) -> z = [])).
  { destruct (lastn_suffix q' now0 (fin (t ++ xs))) as (z & Ez). rewrite Ez, lastn_map in Ep. fold u in Ep.
    exists (firstn (length z) p). split.
    - apply (f_equal (skipn (length z))) in Ep as E2. rewrite skipn_app, skipn_all, Nat.sub_diag, skipn_map in E2. cbn [skipn app] in E2.
      rewrite <- (firstn_skipn (length z) p) at 1. f_equal.
      assert (Inj : forall a b : list R, fin a = fin b -> a = b).
      { clear. induction a as [|v a IH]; intros [|w b] E; try discriminate; [reflexivity|]. injection E as -> E. f_equal. auto. }
      symmetry. apply Inj. rewrite skipn_map in E2; exact E2.
    - intro L. apply (f_equal (@length _)) in Ez. rewrite lastn_map, app_length, !map_length in Ez. fold u in Ez. rewrite length_lastn in Ez.
      rewrite app_length, map_length in Ez. assert (Lu : length u = q') by (unfold u; rewrite length_lastn; lia).
      destruct z; [reflexivity|]. cbn [length] in Ez. lia. }
  destruct Hp as (z & -> & Hz). destruct (windowed_suffix st m z u) as (y & Ey). rewrite Ey.
  destruct (@ends_push U (W + 1 - m) x (windowed st m t) (windowed st m u) y Ex) as (B1 & B2).
  destruct (le_lt_dec q W) as [C|C].
  - assert (Eq : q' = q) by (unfold q'; lia). unfold u in *. rewrite Eq in *.
    destruct (le_lt_dec q (length (t ++ xs))) as [D|D].
    + rewrite (Hz D) in Ey. cbn [app] in Ey. assert (y = []) as -> by (destruct y as [|a y]; [reflexivity|]; apply (f_equal (@length _)) in Ey; cbn in Ey; rewrite app_length in Ey; lia).
      rewrite (windowed_snoc st t xs Hm). fold q. apply B2. reflexivity.
    + rewrite app_length in D. rewrite (windowed_snoc st t xs Hm). fold q.
      replace (windowed st m t) with (@nil U) by (unfold windowed; replace (length t + 1 - m) with 0 by (unfold q in D; lia); reflexivity).
      cbn [app]. exact B1.
  - assert (Eq : q' = W) by (unfold q'; lia). unfold u in *. rewrite Eq in *. rewrite windowed_lastn in B1 by exact Hm.
    rewrite lastn_lastn_min, Nat.min_id in B1. rewrite windowed_lastn by exact Hm. exact B1.
Qed.

Lemma zheal_append noise m W now0 t g xs g' : 0 < m -> m <= W -> zheal noise m W now0 t g -> zn_append_series g (fin xs) = Ok g' -> zheal noise m W now0 (t ++ xs) g'.
Proof.
  intros Hm HW [Z1 Z2 Z3 Z4 (x1 & Z5 & F1) (x2 & Z6 & F2) (x3 & Z7 & F3) Z8 Z9] E. unfold zn_append_series in E. rewrite map_length in E.
  destruct (Nat.eqb_spec (length xs) 0) as [L|L].
  - injection E as <-. destruct xs; [|discriminate]. rewrite app_nil_r. constructor; eauto.
  - assert (Nx : xs <> []) by (intros ->; cbn in L; lia).
    destruct (cache_append_s_parts _ (fin xs) Z4) as (c & Ec & Wc & Mc & Sc & Pc). rewrite Ec in E. cbn [bind] in E.
    rewrite lastn_app, <- app_assoc, <- map_app in Wc.
    destruct (Pc Z2) as (P1 & P2 & P3). apply bind_ok in E as (zs & Ez & E). injection E as <-.
    pose proof Wc as (_ & _ & _ & Vc & _). rewrite Vc, Mc, Z1 in Ez. clear Ec Pc.
    assert (Ls : length (lastn W (now0 ++ fin (t ++ xs))) = Nat.min W (length now0 + length t + length xs)) by (rewrite length_lastn, app_length, map_length, app_length; lia).
    assert (Common : ch_prev c = None /\ (W < length now0 + length (t ++ xs) -> ch_first c = None)).
    { split; [exact P1|]. rewrite app_length. intro Lw. apply P3. rewrite length_lastn, app_length, !map_length. lia. }
    destruct Common as (Q1 & Q2). unfold zstats_append in Ez. rewrite Ls in Ez.
    destruct (Nat.leb_spec m (Nat.min W (length now0 + length t + length xs))) as [C|C].
    + apply bind_ok in Ez as (ms & Em & Ez).
      replace (- (Z.of_nat (length xs) + Z.of_nat m - 1))%Z with (- Z.of_nat (length xs + m - 1))%Z in Em by lia. rewrite slice_from_neg in Em by lia.
      set (part := lastn (length xs + m - 1) (lastn W (now0 ++ fin (t ++ xs)))) in *.
      assert (F : forallb isfinite part = true).
      { unfold sliding_mean_std, sliding_mean_with in Em. destruct (_ <=? 0)%Z; [discriminate|]. destruct (forallb isfinite part); [reflexivity|discriminate]. }
      destruct (finite_fin _ F) as (p & Ep). assert (Lp : m <= length p).
      { apply (f_equal (@length _)) in Ep. rewrite map_length in Ep. rewrite <- Ep. unfold part. rewrite length_lastn, Ls. lia. }
      unfold part in Ep.
      destruct (sliding_fin p Hm Lp) as [Es _]. unfold part in Em. rewrite Ep in Em. rewrite Es in Em. injection Em as <-. cbn [fst snd] in Ez. rewrite uneven_map in Ez.
      destruct (win_push (fin (windowed mean m p)) Z5) as (b1 & E1 & V1).
      destruct (win_push (fin (windowed std m p)) Z6) as (b2 & E2 & V2).
      destruct (win_push (windowed uneven m p) Z7) as (b3 & E3 & V3).
      rewrite E1 in Ez. cbn [bind] in Ez. rewrite E2 in Ez. cbn [bind] in Ez. rewrite E3 in Ez. cbn [bind fst] in Ez. injection Ez as <-.
      assert (Wm : forall (st : list R -> R) l, fin (windowed st m l) = windowed (fun v => Fin (st v)) m l) by (intros st l; unfold windowed; rewrite map_map; reflexivity).
      constructor; cbn [zn_c zn_noise zn_s zs_mu zs_std zs_nz]; auto; try congruence.
      * eexists. split; [exact V1|]. rewrite !Wm in *. eapply stats_continue; eauto.
      * eexists. split; [exact V2|]. rewrite !Wm in *. eapply stats_continue; eauto.
      * eexists. split; [exact V3|]. eapply stats_continue; eauto.
    + injection Ez as <-.
      assert (Wn : forall U (st : list R -> U), windowed st m (t ++ xs) = []) by (intros; unfold windowed; rewrite app_length; replace (length t + length xs + 1 - m) with 0 by lia; reflexivity).
      assert (K : forall T (x : list T), ends x []) by (intros T x; exists x; rewrite app_nil_r; reflexivity).
      constructor; cbn [zn_c zn_noise zn_s]; auto; try congruence.
      * eexists. split; [exact Z5|]. rewrite Wn. apply K.
      * eexists. split; [exact Z6|]. rewrite Wn. apply K.
      * eexists. split; [exact Z7|]. rewrite Wn. apply K.
Qed.

Lemma zheal_appends noise m W chunks : 0 < m -> m <= W -> forall now0 t g g', zheal noise m W now0 t g ->
  foldM (@zn_append_series R NumR) (map (map (@Fin R)) chunks) g = Ok g' -> zheal noise m W now0 (t ++ concat chunks) g'.
Proof.
  intros Hm HW. induction chunks as [|xs chunks IH]; intros now0 t g g' I E; cbn [map foldM concat] in *.
  - rewrite app_nil_r. congruence.
  - apply bind_ok in E as (g1 & E1 & E2). rewrite app_assoc. eapply IH; [|eauto]. eapply zheal_append; eauto.
Qed.

Lemma ends_all {T} n (x w : list T) : length x <= n -> n <= length w -> ends x (lastn n w) -> x = lastn n w.
Proof.
  intros L1 L2 (y & ->). rewrite app_length, length_lastn in L1. destruct y; [reflexivity|cbn [length] in L1; lia].
Qed.

Lemma healed noise m W Wq now0 t g : 0 < m -> m <= W -> W < length t -> zheal noise m W now0 t g ->
  state_after true W Wq (ZInv noise m W Wq true) [CSeries t] g.
Proof.
  intros Hm HW Lt [Z1 Z2 Z3 Z4 (x1 & Z5 & F1) (x2 & Z6 & F2) (x3 & Z7 & F3) Z8 Z9].
  assert (Nt : t <> []) by (intros ->; cbn in Lt; lia).
  assert (Ew : wS W [CSeries t] = lastn W t) by (unfold wS, s_points; cbn [flat_map]; rewrite app_nil_r; reflexivity).
  unfold state_after. cbn zeta. unfold wQ. rewrite Ew.
  rewrite lastn_app_r, lastn_map in Z4 by (rewrite map_length; lia).
  apply ends_all in F1; [|apply (win_len Z5)|rewrite map_length, length_windowed; lia].
  apply ends_all in F2; [|apply (win_len Z6)|rewrite map_length, length_windowed; lia].
  apply ends_all in F3; [|apply (win_len Z7)|rewrite length_windowed; lia].
  rewrite lastn_map, <- windowed_lastn in F1, F2 by exact Hm. rewrite <- windowed_lastn in F3 by exact Hm. subst x1 x2 x3.
  constructor; auto; [|split; [exact Z5|split; [exact Z6|exact Z7]]|discriminate].
  constructor; auto.
  - intros b Eb. rewrite Z9 in Eb; [discriminate|lia|exact Nt].
  - intros p Ep. rewrite Z8 in Ep by exact Nt. discriminate.
Qed.
