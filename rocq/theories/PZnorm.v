(** * PZnorm: the z-normalised generator on finite data *)
From Coq Require Import QArith Reals Lra Sorted.
From Verif Require Import Np NpFacts MRing PRing MUtil MArith MStats MCache MZnorm SReal SCalc SGen PArith PStats PCache PGenRun PSort PDiagonal PZdist.
Set Implicit Arguments.
Open Scope nat_scope.

Lemma Rmult_sym a b : (a * b)%R = (b * a)%R.
Proof. lra. Qed.
Lemma fmul_fin a b : fmul (Fin a) (Fin b) = Fin (a * b)%R.
Proof. reflexivity. Qed.
Definition EZ (e : R) : Prop := e = 0%R.
Definition okz (x y : list R) : Prop := True.

Lemma dots_full m l y : 0 < m -> length y = m -> m <= length l -> (forall i, i + m <= length l -> okz (sub m l i) y) ->
  exists vs, dot_products (fin l) (fin y) = Ok (fin vs) /\ length vs = length l + 1 - m /\
    forall i, i + m <= length l -> EZ (psum Rmult (sub m l i) y - nth i vs 0)%R.
Proof.
  intros Hm Ly Ll _. unfold dot_products, convolve_valid. rewrite rev_length, !map_length, Ly.
  destruct (Nat.ltb_spec (length l) m); [lia|]. rewrite rev_length, !map_length, Ly. destruct (Nat.eqb_spec m 0); [lia|].
  rewrite rev_involutive. exists (map (fun i => dotp (sub m l i) y) (seq 0 (length l + 1 - m))). split; [|split].
  - replace (length l - m + 1) with (length l + 1 - m) by lia. f_equal. rewrite map_map. apply map_ext. intro i.
    change (firstn m (skipn i (fin l))) with (sub m (fin l) i). rewrite sub_map. apply fdot_fin.
  - rewrite map_length, seq_length. reflexivity.
  - intros i Hi. rewrite (nth_indep _ 0%R (dotp (sub m l 0) y)) by (rewrite map_length, seq_length; lia).
    rewrite (map_nth (fun i => dotp (sub m l i) y)), seq_nth by lia. cbn [Nat.add]. unfold EZ, dotp. lra.
Qed.

(** ** Statistics *)
Definition zs_inv (m N : nat) (l : list R) (z : @zstats R) : Prop :=
  win (N + 1 - m) (fin (windowed mean m l)) (zs_mu z) /\ win (N + 1 - m) (fin (windowed std m l)) (zs_std z) /\
  win (N + 1 - m) (windowed uneven m l) (zs_nz z).

Lemma uneven_map m l : map (fun s => fltb THRESHOLD s) (fin (windowed std m l)) = windowed uneven m l.
Proof.
  unfold windowed. rewrite !map_map. apply map_ext. intro i. rewrite THR_fin. reflexivity.
Qed.

Lemma zs_append m N l xs z : 0 < m -> m <= N -> length l <= N -> 0 < length xs -> zs_inv m N l z ->
  exists z', zstats_append m (fin (lastn N (l ++ xs))) (length xs) z = Ok z' /\ zs_inv m N (lastn N (l ++ xs)) z'.
Proof.
  intros Hm HN Hl Px (W1 & W2 & W3). unfold zstats_append. rewrite map_length, length_lastn, app_length.
  destruct (Nat.leb_spec m (Nat.min N (length l + length xs))) as [C|C].
  - replace (- (Z.of_nat (length xs) + Z.of_nat m - 1))%Z with (- Z.of_nat (length xs + m - 1))%Z by lia.
    rewrite slice_from_neg, lastn_map by lia.
    set (part := lastn (length xs + m - 1) (lastn N (l ++ xs))).
    assert (Lp : m <= length part) by (unfold part; rewrite !length_lastn, app_length; lia).
    destruct (sliding_fin part Hm Lp) as [Es _]. rewrite Es. cbn [bind fst snd]. rewrite uneven_map.
    destruct (win_push (fin (windowed mean m part)) W1) as (b1 & E1 & V1).
    destruct (win_push (fin (windowed std m part)) W2) as (b2 & E2 & V2).
    destruct (win_push (windowed uneven m part) W3) as (b3 & E3 & V3).
    rewrite E1. cbn [bind]. rewrite E2. cbn [bind]. rewrite E3. cbn [bind fst]. eexists. split; [reflexivity|].
    rewrite <- map_app, lastn_map in V1, V2. unfold part in *. rewrite windowed_push in V1 by (assumption || lia).
    rewrite windowed_push in V2 by (assumption || lia). rewrite windowed_push in V3 by (assumption || lia).
    unfold zs_inv. cbn [zs_mu zs_std zs_nz]. tauto.
  - exists z. split; [reflexivity|].
    assert (E : forall U (st : list R -> U), windowed st m (lastn N (l ++ xs)) = windowed st m l).
    { intros U st. unfold windowed. rewrite length_lastn, app_length.
      replace (Nat.min N (length l + length xs) + 1 - m) with 0 by lia. replace (length l + 1 - m) with 0 by lia. reflexivity. }
    unfold zs_inv. rewrite !E. tauto.
Qed.

Section Run.
  Variables (mem : nat -> num R) (memb : nat -> bool) (noise : R).
  Variables (m W Wq : nat) (self : bool).
  Hypothesis Hm : 0 < m.
  Hypothesis HWq : self = false -> m <= Wq.

  Lemma windowed_nil {U} (st : list R -> U) : windowed st m [] = [].
  Proof. clear HWq. unfold windowed. cbn [length]. replace (0 + 1 - m) with 0 by lia. reflexivity. Qed.
  Lemma zs_empty N sf : m <= N -> (1 <= sf)%Q -> (sf <= 2)%Q -> exists z, @zstats_new R mem memb sf (N + 1 - m) = Ok z /\ zs_inv m N [] z.
  Proof.
    clear HWq. intros HN H1 H2. unfold zstats_new.
    destruct (@win_empty (num R) mem (N + 1 - m) sf H1 H2) as (b & Eb & Wb); [lia|].
    destruct (@win_empty bool memb (N + 1 - m) sf H1 H2) as (b2 & Eb2 & Wb2); [lia|].
    rewrite Eb. cbn [bind]. rewrite Eb2. cbn [bind]. eexists. split; [reflexivity|].
    unfold zs_inv. cbn [zs_mu zs_std zs_nz]. rewrite !windowed_nil. tauto.
  Qed.

  Record ZInv (ex u : bool) (S Q : list R) (last : Z) (g : @zn R) : Prop := {
    zi_c : cinv Rmult EZ m W Wq self ex u S Q last (zn_c g);
    zi_noise : zn_noise g = Fin noise;
    zi_s : zs_inv m W S (zn_s g);
    zi_q : self = false -> zs_inv m Wq Q (zn_q g)
  }.

  (** the statistics of the query *)
  Lemma zi_query ex u S Q last g : ZInv ex u S Q last g ->
    rb_view (zs_mu (zn_qstats g)) = fin (windowed mean m Q) /\ rb_view (zs_std (zn_qstats g)) = fin (windowed std m Q) /\
    rb_view (zs_nz (zn_qstats g)) = windowed uneven m Q.
  Proof.
    intros [I1 I2 I3 I4]. unfold zn_qstats. rewrite (ci_self I1). pose proof (ci_q I1) as Q0. revert Q0 I4. case self; intros Q0 I4.
    - subst Q. destruct I3 as ((_ & _ & _ & V1 & _) & (_ & _ & _ & V2 & _) & (_ & _ & _ & V3 & _)). auto.
    - destruct (I4 eq_refl) as ((_ & _ & _ & V1 & _) & (_ & _ & _ & V2 & _) & (_ & _ & _ & V3 & _)). auto.
  Qed.
  Lemma zi_series ex u S Q last g : ZInv ex u S Q last g ->
    rb_view (zs_mu (zn_s g)) = fin (windowed mean m S) /\ rb_view (zs_std (zn_s g)) = fin (windowed std m S) /\
    rb_view (zs_nz (zn_s g)) = windowed uneven m S.
  Proof. intros [_ _ I3 _]. destruct I3 as ((_ & _ & _ & V1 & _) & (_ & _ & _ & V2 & _) & (_ & _ & _ & V3 & _)). auto. Qed.

  Lemma lastn_nil_app {T} n (l : list T) : length l <= n -> lastn n (l ++ []) = l.
  Proof. intro H. rewrite app_nil_r. apply lastn_all. exact H. Qed.

  Lemma ZInv_s ex u S Q last g xs : ZInv ex u S Q last g -> exists g', zn_append_series g (fin xs) = Ok g' /\
    ZInv (ex && (self || negb u || counted W S xs)) u (lastn W (S ++ xs)) (if self then lastn W (S ++ xs) else Q) (last - Z.of_nat (shifted W S xs)) g'.
  Proof.
    intro I. pose proof I as [I1 I2 I3 I4]. unfold zn_append_series. rewrite map_length.
    pose proof (win_len (ci_s I1)) as LW. rewrite map_length in LW.
    destruct (Nat.eqb_spec (length xs) 0) as [L|L].
    - exists g. split; [reflexivity|].
      destruct xs; [|discriminate]. rewrite lastn_nil_app by lia. unfold shifted, counted. cbn [length].
      replace (Z.of_nat (length S + 0 - W)) with 0%Z by lia. rewrite Z.sub_0_r.
      replace (length S + 2 * 0 <=? W) with true by (symmetry; apply Nat.leb_le; lia). rewrite !orb_true_r, andb_true_r.
      pose proof (ci_q I1) as Q0. destruct (bool_dec self true) as [Es|Es].
      + rewrite Es in *. subst Q. exact I.
      + apply not_true_is_false in Es. rewrite Es in *. exact I.
    - destruct (@cinv_append_s _ _ _ Hm _ _ _ _ _ _ _ _ _ xs ltac:(lia) I1) as (c & Ec & Ic). rewrite Ec. cbn [bind].
      pose proof (ci_s Ic) as (_ & _ & _ & Vc & _). rewrite Vc, (ci_m Ic).
      destruct (zs_append xs Hm (ci_W I1) LW ltac:(lia) I3) as (z & Ez & Iz). rewrite Ez. cbn [bind].
      eexists. split; [reflexivity|]. constructor; cbn [zn_c zn_noise zn_s zn_q]; auto.
      intro Es. specialize (I4 Es). rewrite Es. exact I4.
  Qed.
  Lemma ZInv_q : self = false -> forall ex u S Q last g xs, ZInv ex u S Q last g -> exists g', zn_append_query g (fin xs) = Ok g' /\
    ZInv ex u S (lastn Wq (Q ++ xs)) last g'.
  Proof.
    intros Hs ex u S Q last g xs I. pose proof I as [I1 I2 I3 I4]. unfold zn_append_query. rewrite (ci_self I1), Hs, map_length.
    pose proof I1 as I1'. rewrite Hs in I1'.
    pose proof (win_len (ci_q I1')) as LW. rewrite map_length in LW.
    destruct (Nat.eqb_spec (length xs) 0) as [L|L].
    - exists g. split; [reflexivity|]. destruct xs; [|discriminate]. rewrite lastn_nil_app by lia. exact I.
    - destruct (@cinv_append_q _ _ _ Hm _ _ _ _ _ _ _ _ xs I1') as (c & Ec & Ic). rewrite Ec. cbn [bind].
      pose proof (ci_q Ic) as (_ & _ & _ & Vc & _). rewrite Vc, (ci_m Ic).
      destruct (zs_append xs Hm (HWq Hs) LW ltac:(lia) (I4 Hs)) as (z & Ez & Iz). rewrite Ez. cbn [bind].
      eexists. split; [reflexivity|]. constructor; cbn [zn_c zn_noise zn_s zn_q]; auto. rewrite Hs. exact Ic.
  Qed.

  Lemma fofZ_m : fofZ (Z.of_nat m) = Fin (INR m).
  Proof. clear HWq. unfold fofZ. cbn [nofZ NumR]. rewrite <- INR_IZR_INZ. reflexivity. Qed.
  Lemma getitem_windowed {U} (st : list R -> U) l i : i + m <= length l -> getitem (windowed st m l) i = Ok (st (sub m l i)).
  Proof. clear HWq. intro H. unfold getitem. rewrite nth_error_windowed. destruct (Nat.ltb_spec i (length l + 1 - m)); [reflexivity|lia]. Qed.
  Lemma getitem_fin {U V} (f : U -> V) l i v : getitem l i = Ok v -> getitem (map f l) i = Ok (f v).
  Proof. clear HWq Hm. unfold getitem. rewrite nth_error_map. destruct (nth_error l i); cbn [option_map]; congruence. Qed.
  Lemma stats_all l : stats_of (length l + 1 - m) (fin (windowed mean m l)) (fin (windowed std m l)) (windowed uneven m l) =
    Ok (windowed stat_of m l).
  Proof.
    clear HWq Hm. unfold stats_of. rewrite !map_length, !length_windowed, Nat.eqb_refl. cbn [andb]. apply f_equal.
    unfold windowed. rewrite !map_map. generalize (seq 0 (length l + 1 - m)). intro k. induction k as [|a k IH]; [reflexivity|]. cbn [map combine]. exact (f_equal (cons _) IH).
  Qed.
  Lemma stats_cut l o n : o + n + m <= length l + 1 ->
    stats_of n (sub n (fin (windowed mean m l)) o) (sub n (fin (windowed std m l)) o) (sub n (windowed uneven m l) o) =
    Ok (map (fun j => stat_of (sub m l (o + j))) (seq 0 n)).
  Proof.
    clear HWq Hm. intro H. unfold stats_of.
    assert (E : forall U (st : list R -> U), sub n (windowed st m l) o = map (fun j => st (sub m l (o + j))) (seq 0 n)).
    { intros U st. apply nth_error_ext. intro i. rewrite nth_error_sub, nth_error_windowed, nth_error_map, nth_error_seq.
      destruct (Nat.ltb_spec i n); [|reflexivity]. destruct (Nat.ltb_spec (o + i) (length l + 1 - m)); [reflexivity|lia]. }
    rewrite !sub_map, !E, !map_length, seq_length, Nat.eqb_refl. cbn [andb]. apply f_equal. rewrite !map_map.
    generalize (seq 0 n). intro k. induction k as [|a k IH]; [reflexivity|]. cbn [map combine]. exact (f_equal (cons _) IH).
  Qed.
  Lemma zip_dots (h : num R -> @stat R -> num R) vs (k : list (@stat R)) : 
    zip_with h (fin vs) k = zip_with (fun v s => h (Fin v) s) vs k.
  Proof. clear. revert k. induction vs as [|v vs IH]; intros [|s k]; cbn [map zip_with]; auto. f_equal. apply IH. Qed.

  Lemma ZInv_col ex u S Q last g c : ZInv ex u S Q last g -> has_col m S Q c -> ex = true \/ (last < Z.of_nat c)%Z ->
    exists g', zn_calc_column mem g c = Ok (g', col_dist (zdist noise) m S Q c) /\ ZInv ex true S Q (Z.max last (Z.of_nat c)) g'.
  Proof.
    intros I [Hc HQ] Hx. pose proof I as [I1 I2 I3 I4]. unfold zn_calc_column. rewrite (ci_query I1), (ci_m I1), map_length.
    destruct (Nat.ltb_spec (length Q + 1) m); [lia|].
    destruct (@cinv_col dot_products fmul mem Rmult EZ okz m Hm Rmult_sym (fun _ _ H => H) fmul_fin (fun l y H1 H2 H3 => @dots_full m l y Hm H1 H2 H3)
        W Wq self ex u S Q last (zn_c g) c I1 Hc HQ (fun _ _ _ _ => Logic.I) Hx) as (c' & vs & Eq & [Lv N] & I').
    rewrite Eq. cbn [bind fst snd].
    destruct (zi_series I) as (V1 & V2 & V3). destruct (zi_query I) as (V4 & V5 & V6). rewrite V1, V2, V3, V4, V5, V6.
    rewrite (getitem_fin _ _ _ (getitem_windowed mean S c Hc)), (getitem_fin _ _ _ (getitem_windowed std S c Hc)), (getitem_windowed uneven S c Hc). cbn [bind].
    rewrite stats_all. cbn [bind]. rewrite map_length, Lv, Nat.eqb_refl. rewrite I2, fofZ_m.
    eexists. split; [apply f_equal; apply f_equal2; [reflexivity|]|].
    - change (Fin (mean (sub m S c)), Fin (std (sub m S c)), uneven (sub m S c)) with (stat_of (sub m S c)).
      unfold col_dist. apply nth_error_ext. intro i. rewrite nth_error_zip_with, !nth_error_map, nth_error_windowed, nth_error_seq.
      destruct (Nat.ltb_spec i (length Q + 1 - m)) as [Hi|Hi].
      + rewrite (nth_error_nth' vs 0%R) by lia. cbn [option_map Nat.add]. f_equal. specialize (N i ltac:(lia)). unfold EZ in N.
        assert (Ev : nth i vs 0%R = dotp (sub m Q i) (sub m S c)) by (unfold dotp; lra). rewrite Ev.
        assert (L1 : length (sub m Q i) = m) by (rewrite length_sub; lia). assert (L2 : length (sub m S c) = m) by (rewrite length_sub; lia).
        rewrite <- (@col_cell_ok noise (sub m Q i) (sub m S c)) by lia. rewrite L1. reflexivity.
      + destruct (nth_error vs i); reflexivity.
    - constructor; cbn [zn_c zn_noise zn_s zn_q]; auto.
  Qed.
  Lemma ZInv_c ex u S Q last g c : ZInv ex u S Q last g -> has_col m S Q c -> okall okz m S Q -> ex = true \/ (last < Z.of_nat c)%Z ->
    exists g' v, zn_calc_column mem g c = Ok (g', v) /\ ZInv ex true S Q (Z.max last (Z.of_nat c)) g'.
  Proof. intros I Hc _ Hx. destruct (ZInv_col I Hc Hx) as (g' & H1 & H2). eauto. Qed.

  Lemma ZInv_diag ex u S Q last g d : ZInv ex u S Q last g -> has_diag m S Q d -> zn_calc_diagonal g d = Ok (g, diag_dist (zdist noise) m S Q d).
  Proof.
    intros I Hd. pose proof I as [I1 I2 I3 I4]. unfold zn_calc_diagonal. rewrite (ci_query I1), (ci_m I1). pose proof (ci_s I1) as (_ & _ & _ & VS & _). rewrite VS.
    destruct (@diag_align fmul Rmult m S Q d fmul_fin Hm Hd) as (E1' & E2 & E3 & E4 & E5 & E6 & E7).
    set (n := Z.to_nat (diag_length (Z.of_nat (length (fin Q))) (Z.of_nat (length (fin S))) d)) in *.
    set (a := Z.to_nat (Z.max 0 (- d))) in *. set (b := Z.to_nat (Z.max 0 d)) in *. rewrite E2, E1'.
    destruct (Z.ltb_spec (Z.of_nat n - Z.of_nat m + 1) 0); [lia|]. cbn [bind].
    pose proof (@window_sums (zip_with Rmult (sub n Q a) (sub n S b)) m Hm ltac:(lia)) as Ew.
    replace (Z.of_nat (length (fzero :: cumsum (fin (zip_with Rmult (sub n Q a) (sub n S b))))) - Z.of_nat m)%Z with (Z.of_nat n - Z.of_nat m + 1)%Z in Ew
      by (rewrite cumsum_fin, !map_length, seq_length, E6; lia).
    rewrite Ew, E6, diag_sums by assumption. cbn [bind].
    replace (if (0 <=? d)%Z then 0%Z else (- d)%Z) with (Z.of_nat a) by (unfold a; destruct (Z.leb_spec 0 d); lia).
    replace (if (0 <=? d)%Z then d else 0%Z) with (Z.of_nat b) by (unfold b; destruct (Z.leb_spec 0 d); lia).
    replace (Z.of_nat a + (Z.of_nat n - Z.of_nat m + 1))%Z with (Z.of_nat (a + (n + 1 - m))) by lia.
    replace (Z.of_nat b + (Z.of_nat n - Z.of_nat m + 1))%Z with (Z.of_nat (b + (n + 1 - m))) by lia.
    rewrite !slice_nat, !lslice_sub.
    replace (Z.to_nat (Z.of_nat n - Z.of_nat m + 1)) with (n + 1 - m) by lia.
    destruct (zi_series I) as (V1 & V2 & V3). destruct (zi_query I) as (V4 & V5 & V6). rewrite V1, V2, V3, V4, V5, V6.
    rewrite !stats_cut by lia. cbn [bind]. rewrite !map_length, seq_length, Nat.eqb_refl, I2, fofZ_m.
    do 2 f_equal. unfold diag_dist, diag_of. rewrite <- E7, Nat2Z.id.
    apply nth_error_ext. intro i. rewrite nth_error_zip_with, !nth_error_map, nth_error_combine, !nth_error_map, nth_error_seq.
    destruct (Nat.ltb_spec i (n + 1 - m)); cbn [option_map]; [|reflexivity]. f_equal. cbn [fst snd Nat.add].
    unfold cell_dist. rewrite !Z2Nat.inj_add, Nat2Z.id by lia. fold a b.
    assert (L1 : length (sub m Q (a + i)) = m) by (rewrite length_sub; lia). assert (L2 : length (sub m S (b + i)) = m) by (rewrite length_sub; lia).
    rewrite <- (@diag_cell_ok noise (sub m Q (a + i)) (sub m S (b + i))) by lia. rewrite L1. reflexivity.
  Qed.
  Lemma ZInv_d ex u S Q last g d : ZInv ex u S Q last g -> has_diag m S Q d ->
    exists g' v, zn_calc_diagonal g d = Ok (g', v) /\ ZInv ex u S Q last g'.
  Proof. intros I Hd. exists g. eexists. split; [eapply ZInv_diag; eassumption|exact I]. Qed.

  Lemma fleb_thr x : fleb (Fin (std x)) THRESHOLD = negb (uneven x).
  Proof. clear. rewrite THR_fin. reflexivity. Qed.
  Lemma single_clip v : (if fltb (Fin v) EPS then fzero else froot (Fin v)) = Fin (if Rltb v eps12 then 0%R else sqrt v).
  Proof.
    clear. rewrite <- root_clip. destruct (fltb (Fin v) EPS); [|reflexivity]. cbn [froot fzero nzero NumR]. unfold fsqrt. cbn [nltb nzero nsqrt NumR].
    rewrite (proj2 (Rltb_false 0 0)) by lra. rewrite sqrt_0. reflexivity.
  Qed.
  Lemma ZInv_single ex u S Q last g r c dp : ZInv ex u S Q last g -> r + m <= length Q -> c + m <= length S ->
    (dp = None \/ dp = Some (Fin (dotp (sub m Q r) (sub m S c)))) ->
    zn_calc_single g r c dp = Ok (Fin (zdist noise (sub m Q r) (sub m S c))).
  Proof.
    intros I Hr Hc Hdp. pose proof I as [I1 I2 I3 I4]. unfold zn_calc_single. rewrite (ci_query I1), (ci_m I1).
    pose proof (ci_s I1) as (_ & _ & _ & VS & _). rewrite VS.
    destruct (zi_series I) as (V1 & V2 & V3). destruct (zi_query I) as (V4 & V5 & V6). rewrite V1, V2, V4, V5.
    rewrite (getitem_fin _ _ _ (getitem_windowed std Q r Hr)), (getitem_fin _ _ _ (getitem_windowed std S c Hc)). cbn [bind].
    rewrite (getitem_fin _ _ _ (getitem_windowed mean Q r Hr)), (getitem_fin _ _ _ (getitem_windowed mean S c Hc)).
    rewrite !lslice_sub, !sub_map, bop_eq by (rewrite !map_length, !length_sub; lia). cbn [bind].
    rewrite zip_with_map. replace (fsum (zip_with (fun x y => fmul (Fin x) (Fin y)) (sub m Q r) (sub m S c))) with (Fin (dotp (sub m Q r) (sub m S c))).
    2: { change (Fin (dotp (sub m Q r) (sub m S c))) with (Fin (rsum (zip_with Rmult (sub m Q r) (sub m S c)))). rewrite <- fsum_fin, map_zip_with. reflexivity. }
    set (x := sub m Q r) in *. set (y := sub m S c) in *.
    assert (Lx : length x = m) by (unfold x; rewrite length_sub; lia). assert (Ly : length y = m) by (unfold y; rewrite length_sub; lia).
    rewrite !fleb_thr, fofZ_m, I2, noise_zero.
    assert (Hd : (if match dp with None => true | Some d => feqb d fzero end then Ok (Fin (dotp x y))
       else match dp with Some d => Ok d | None => Err RuntimeError end) = Ok (Fin (dotp x y))).
    { destruct Hdp as [->| ->]; [reflexivity|]. destruct (feqb (Fin (dotp x y)) fzero); reflexivity. }
    unfold zdist, zsq. fold eps12. destruct (uneven x) eqn:Ux; destruct (uneven y) eqn:Uy; cbn [negb andb orb bind].
    - rewrite Hd. cbn [bind]. apply uneven_std in Ux, Uy. rewrite <- Lx, formula_fin by lia || assumption.
      destruct (Req_EM_T noise 0) as [->|Hn]; cbn [negb];
        rewrite ?correction_fin by (auto using Rmax_pos_l, Rmax_pos_r); cbn [fsub nsub NumR]; rewrite ?no_noise, ?Rminus_0_r, single_clip; reflexivity.
    - apply uneven_std in Ux. rewrite <- Lx. destruct (Req_EM_T noise 0) as [->|Hn]; cbn [negb];
        rewrite ?correction_fin by (auto using Rmax_pos_l, Rmax_pos_r); cbn [fsub nsub NumR]; rewrite ?no_noise, ?Rminus_0_r, single_clip; reflexivity.
    - apply uneven_std in Uy. rewrite <- Lx. destruct (Req_EM_T noise 0) as [->|Hn]; cbn [negb];
        rewrite ?correction_fin by (auto using Rmax_pos_l, Rmax_pos_r); cbn [fsub nsub NumR]; rewrite ?no_noise, ?Rminus_0_r, single_clip; reflexivity.
    - pose proof eps12_pos. rewrite Rminus_0_r. destruct (Rltb_spec 0 eps12); [reflexivity|lra].
  Qed.

  Definition zn_run := grun (zn_calc_column mem) (@zn_calc_diagonal R NumR) zn_append_series zn_append_query.

  (** What is answered in a state: column, diagonals and single cells *)
  Definition zn_answers (S Q : list R) (g : @zn R) : Prop :=
    (forall d, has_diag m S Q d -> zn_calc_diagonal g d = Ok (g, diag_dist (zdist noise) m S Q d)) /\
    (forall r c dp, r + m <= length Q -> c + m <= length S -> (dp = None \/ dp = Some (Fin (dotp (sub m Q r) (sub m S c)))) ->
       zn_calc_single g r c dp = Ok (Fin (zdist noise (sub m Q r) (sub m S c)))).

  Lemma zn_from H0 g0 H : state_after self W Wq ZInv H0 g0 -> in_range self m W Wq (H0 ++ H) -> trusted self W (H0 ++ H) ->
    exists g, zn_run g0 (map finc H) = Ok g /\ state_after self W Wq ZInv (H0 ++ H) g.
  Proof.
    intros. eapply runs_from with (m := m) (good := okall okz m); eauto.
    - exact ZInv_s.
    - exact ZInv_q.
    - exact ZInv_c.
    - exact ZInv_d.
    - intros. intros i j _ _. exact I.
  Qed.
  Lemma zn_answer H g : state_after self W Wq ZInv H g -> zn_answers (wS W H) (wQ self W Wq H) g.
  Proof. intro Ig. unfold state_after in Ig. cbn zeta in Ig. split; intros; [eapply ZInv_diag; eauto|eapply ZInv_single; eauto]. Qed.
  Lemma zn_column H g c : state_after self W Wq ZInv H g -> has_col m (wS W H) (wQ self W Wq H) c -> trusted self W (H ++ [CCol c]) ->
    exists g', zn_calc_column mem g c = Ok (g', col_dist (zdist noise) m (wS W H) (wQ self W Wq H) c).
  Proof.
    intros Ig Hc Ht. pose proof (trusted_col _ _ Ht) as Hx. cbn zeta in Hx. unfold state_after in Ig. cbn zeta in Ig.
    destruct (ZInv_col Ig Hc Hx) as (g' & Ec & _). eauto.
  Qed.

  Lemma zn_empty_state sf : (1 <= sf)%Q -> (sf <= 2)%Q -> m <= W ->
    exists g0, zn_empty mem memb (Fin noise) sf m W (if self then None else Some Wq) = Ok g0 /\ state_after self W Wq ZInv [] g0.
  Proof.
    intros H1 H2 H3. unfold zn_empty.
    destruct (@win_empty (num R) mem W sf H1 H2) as (b & Eb & Wb); [lia|]. rewrite Eb. cbn [bind].
    destruct (zs_empty H3 H1 H2) as (z & Ez & Iz). rewrite Ez. cbn [bind].
    revert HWq. case self eqn:Es; intro H4.
    - eexists. split; [reflexivity|]. apply state_start. constructor; cbn [zn_c zn_noise zn_s zn_q]; auto; rewrite ?Es; [apply cinv_data; auto|discriminate].
    - destruct (@win_empty (num R) mem Wq sf H1 H2) as (b2 & Eb2 & Wb2); [specialize (H4 eq_refl); lia|]. rewrite Eb2. cbn [bind].
      destruct (zs_empty (H4 eq_refl) H1 H2) as (z2 & Ez2 & Iz2). rewrite Ez2. cbn [bind].
      eexists. split; [reflexivity|]. apply state_start. constructor; cbn [zn_c zn_noise zn_s zn_q]; auto. rewrite Es. apply cinv_data; auto.
  Qed.
  Lemma zn_streaming_state sf : (0 <= noise)%R -> (1 <= sf)%Q -> (sf <= 2)%Q -> m <= W ->
    exists g0, zn_prepare_streaming mem memb (Fin noise) sf m W (if self then None else Some Wq) = Ok g0 /\ state_after self W Wq ZInv [] g0.
  Proof.
    intros Hn H1 H2 H3. unfold zn_prepare_streaming, zn_config. cbn [fltb fzero nltb nzero NumR]. destruct (Rltb_spec noise 0); [lra|].
    rewrite (proj2 (Qle_bool_iff 1 sf) H1). cbn [negb bind]. apply zn_empty_state; assumption.
  Qed.
End Run.

Lemma zn_batch_state mem memb noise sf m S q : 0 < m -> m <= length S -> m <= length (query_or S q) -> (1 <= sf)%Q -> (0 <= noise)%R ->
  exists g0, zn_prepare mem memb (Fin noise) sf m (fin S) (option_map (map (@Fin R)) q) = Ok g0 /\
    state_after (self_of q) (length S) (length (query_or S q)) (ZInv noise m (length S) (length (query_or S q)) (self_of q)) (loaded S q) g0.
Proof.
  intros Hm HS HQ Hsf Hn. unfold zn_prepare, zn_config. cbn [fltb fzero nltb nzero NumR]. destruct (Rltb_spec noise 0); [lra|].
  rewrite (proj2 (Qle_bool_iff 1 sf) Hsf). cbn [negb bind]. rewrite map_length.
  assert (HWq : self_of q = false -> m <= length (query_or S q)) by auto.
  destruct (@zn_empty_state mem memb noise m (length S) (length (query_or S q)) (self_of q) Hm HWq 1) as (g0 & E0 & I0); [discriminate|discriminate|assumption|].
  destruct (@zn_from mem memb noise m (length S) (length (query_or S q)) (self_of q) Hm HWq [] g0 (loaded S q) I0) as (g & Eg & Ig).
  - intros H1 o H2 E. cbn [app] in E. unfold loaded in E.
    destruct H1 as [|o1 H1]; cbn [app] in E; inversion E; subst; [exact I|].
    destruct q as [q|]; cbn [self_of]; [|destruct H1; discriminate]. destruct H1 as [|o2 [|]]; cbn [app] in *; try discriminate. inversion H3. reflexivity.
  - right. left. intros H1 xs H2 E. left. cbn [app] in E. unfold loaded in E.
    destruct H1 as [|o1 H1]; [reflexivity|]. cbn [app] in E. inversion E; subst.
    destruct q as [q|]; [|destruct H1; discriminate]. destruct H1 as [|o2 [|]]; cbn [app] in *; discriminate.
  - exists g. split; [|exact Ig]. destruct q as [q|]; cbn [self_of query_or option_map] in *; rewrite ?map_length, E0; cbn [bind].
    + unfold zn_run, grun in Eg. cbn [loaded map finc foldM gstep] in Eg. destruct (zn_append_series g0 (fin S)) as [g1|]; cbn [bind] in *; [|discriminate].
      destruct (zn_append_query g1 (fin q)) as [g2|]; cbn [bind] in *; congruence.
    + unfold zn_run, grun in Eg. cbn [loaded map finc foldM gstep] in Eg. destruct (zn_append_series g0 (fin S)) as [g1|]; cbn [bind] in *; congruence.
Qed.

(** ** Summary: fixed data *)
Definition zn_cols (mem : nat -> num R) (noise : R) (m : nat) (S Q : list R) (g : @zn R) (c : nat) : Prop :=
  exists g', zn_calc_column mem g c = Ok (g', col_dist (zdist noise) m S Q c).
Lemma zn_batch_all mem memb noise sf m S q : 0 < m -> m <= length S -> m <= length (query_or S q) -> (1 <= sf)%Q -> (0 <= noise)%R ->
  exists g0, zn_prepare mem memb (Fin noise) sf m (fin S) (option_map (map (@Fin R)) q) = Ok g0 /\
  forall H, calc_only m S (query_or S q) H -> exists g, zn_run mem g0 (map finc H) = Ok g /\ zn_answers noise m S (query_or S q) g /\
    forall c, c + m <= length S -> zn_cols mem noise m S (query_or S q) g c.
Proof.
  intros Hm HS HQ Hsf Hn. destruct (@zn_batch_state mem memb noise sf m S q Hm HS HQ Hsf Hn) as (g0 & E0 & I0). exists g0. split; [exact E0|].
  intros H Hc.
  assert (HWq : self_of q = false -> m <= length (query_or S q)) by auto.
  destruct (@zn_from mem memb noise m (length S) (length (query_or S q)) (self_of q) Hm HWq (loaded S q) g0 H I0) as (g & Eg & Ig).
  - apply in_range_batch. exact Hc.
  - apply trusted_batch with (m := m). exact Hc.
  - exists g. split; [exact Eg|]. pose proof (zn_answer mem memb Hm HWq Ig) as A. rewrite (wS_batch q Hc), (wQ_batch q Hc) in A. split; [exact A|].
    intros c Hcol. assert (Hc' : calc_only m S (query_or S q) (H ++ [CCol c])).
    { apply calc_only_app. split; [exact Hc|]. intros o [<-|[]]. split; assumption. }
    destruct (@zn_column mem memb noise m (length S) (length (query_or S q)) (self_of q) Hm HWq (loaded S q ++ H) g c Ig) as (g' & Ec).
    + rewrite (wS_batch q Hc), (wQ_batch q Hc). split; assumption.
    + rewrite <- app_assoc. apply trusted_batch with (m := m). exact Hc'.
    + exists g'. rewrite (wS_batch q Hc), (wQ_batch q Hc) in Ec. exact Ec.
Qed.

(** ** Summary: streaming *)
Lemma zn_stream_all mem memb noise sf m W Wq (self : bool) : 0 < m -> m <= W -> (self = false -> m <= Wq) -> (1 <= sf)%Q -> (sf <= 2)%Q -> (0 <= noise)%R ->
  exists g0, zn_prepare_streaming mem memb (Fin noise) sf m W (if self then None else Some Wq) = Ok g0 /\
  forall H, in_range self m W Wq H -> trusted self W H -> exists g, zn_run mem g0 (map finc H) = Ok g /\ zn_answers noise m (wS W H) (wQ self W Wq H) g /\
    forall c, has_col m (wS W H) (wQ self W Wq H) c -> trusted self W (H ++ [CCol c]) -> zn_cols mem noise m (wS W H) (wQ self W Wq H) g c.
Proof.
  intros Hm HW HWq H1 H2 Hn. destruct (@zn_streaming_state mem memb noise m W Wq self Hm HWq sf Hn H1 H2 HW) as (g0 & E0 & I0). exists g0. split; [exact E0|].
  intros H Hr Ht. destruct (@zn_from mem memb noise m W Wq self Hm HWq [] g0 H I0 Hr Ht) as (g & Eg & Ig). cbn [app] in Ig.
  exists g. split; [exact Eg|]. split; [exact (zn_answer mem memb Hm HWq Ig)|].
  intros c Hc Htc. destruct (@zn_column mem memb noise m W Wq self Hm HWq H g c Ig Hc Htc) as (g' & Ec). exists g'. exact Ec.
Qed.
