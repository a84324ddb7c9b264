(** * PEuclid: the Euclidean generator on finite data *)
From Coq Require Import QArith Reals Lra Sorted.
From Verif Require Import Np NpFacts MRing PRing MUtil MArith MCache MEuclid SReal SCalc SGen PArith PCache PGenRun PDiagonal.
Set Implicit Arguments.
Open Scope nat_scope.

Definition sqdiff (a b : R) : R := ((a - b) * (a - b))%R.

Lemma sq_diff_fin a b : sq_diff (Fin a) (Fin b) = Fin (sqdiff a b).
Proof. reflexivity. Qed.
Lemma sqdiff_sym a b : sqdiff a b = sqdiff b a.
Proof. unfold sqdiff. lra. Qed.
Lemma sqd_cons a b x y : sqd (a :: x) (b :: y) = (sqdiff a b + sqd x y)%R.
Proof. reflexivity. Qed.
Lemma dotp_cons a b x y : dotp (a :: x) (b :: y) = (a * b + dotp x y)%R.
Proof. reflexivity. Qed.
Lemma sqd_nonneg x y : (0 <= sqd x y)%R.
Proof.
  revert y. induction x as [|a x IH]; intros [|b y]; try (unfold sqd, psum, rsum; simpl; lra).
  rewrite sqd_cons. specialize (IH y). unfold sqdiff. pose proof (Rle_0_sqr (a - b)) as H. unfold Rsqr in H. lra.
Qed.
Lemma sqd_dots x y : length x = length y -> (dotp x x - 2 * dotp x y + dotp y y)%R = sqd x y.
Proof.
  revert y. induction x as [|a x IH]; intros [|b y] L; simpl in L; try lia; [unfold dotp, sqd, psum, rsum; simpl; lra|].
  rewrite !dotp_cons, sqd_cons. rewrite <- (IH y) by lia. unfold sqdiff. lra.
Qed.
Lemma sqd_sym x y : sqd x y = sqd y x.
Proof. apply psum_sym. exact sqdiff_sym. Qed.

Definition eps15 : R := (/ 10 ^ 15)%R.
Lemma eps15_pos : (0 < eps15)%R.
Proof. unfold eps15. apply Rinv_0_lt_compat. apply pow_lt. lra. Qed.
Lemma EPSILON_fin : EPSILON = Fin eps15.
Proof.
  unfold EPSILON, fneg10, eps15. cbn [ndiv nofZ NumR]. f_equal. unfold Rdiv. rewrite Rmult_1_l. f_equal.
  rewrite (pow_IZR 10 15). f_equal.
Qed.

Definition clip (v : R) : R := if Rltb v eps15 then 0%R else v.
Lemma full_value m l y : 0 < m -> length y = m -> m <= length l ->
  euclidean_distance_squared (fin l) (fin y) = Ok (fin (map (fun i => clip (sqd (sub m l i) y)) (seq 0 (length l + 1 - m)))).
Proof.
  intros Hm Ly Ll. unfold euclidean_distance_squared. rewrite map_length, Ly, windows_ok by (rewrite ?map_length; lia). cbn [bind].
  f_equal. rewrite !map_map, map_length. apply map_ext_in. intros i Hi%in_seq.
  rewrite sub_map, !fdot_fin. cbn [fmul fofZ fsub fadd nadd nsub nmul nofZ NumR].
  rewrite sqd_dots by (rewrite length_sub; lia). rewrite EPSILON_fin. unfold clip. cbn [fltb nltb NumR].
  destruct (Rltb (sqd (sub m l i) y) eps15); reflexivity.
Qed.

Section Run.
  Variable mem : nat -> num R.
  Variables (m W Wq : nat) (self : bool).
  Hypothesis Hm : 0 < m.

  Definition E1 (e : R) : Prop := (0 <= e < eps15)%R.
  Definition E0 (e : R) : Prop := e = 0%R.
  Definition okp1 (x y : list R) : Prop := True.
  Definition okp0 (x y : list R) : Prop := ~ (0 < sqd x y < eps15)%R.

  Lemma clip_E1 v : (0 <= v)%R -> E1 (v - clip v).
  Proof. intro H. unfold E1, clip. pose proof eps15_pos. destruct (Rltb_spec v eps15); lra. Qed.
  Lemma clip_E0 v : (0 <= v)%R -> ~ (0 < v < eps15)%R -> E0 (v - clip v).
  Proof. intros H N. unfold E0, clip. pose proof eps15_pos. destruct (Rltb_spec v eps15); lra. Qed.

  Lemma full_E (E : R -> Prop) (okp : list R -> list R -> Prop) : (forall x y, okp x y -> E (sqd x y - clip (sqd x y))%R) ->
    forall l y, length y = m -> m <= length l -> (forall i, i + m <= length l -> okp (sub m l i) y) ->
    exists vs, euclidean_distance_squared (fin l) (fin y) = Ok (fin vs) /\ length vs = length l + 1 - m /\
      forall i, i + m <= length l -> E (psum sqdiff (sub m l i) y - nth i vs 0)%R.
  Proof.
    intros HE l y Ly Ll Hok. eexists. split; [exact (full_value l y Hm Ly Ll)|]. split; [rewrite map_length, seq_length; reflexivity|].
    intros i Hi. rewrite (nth_indep _ 0%R (clip (sqd (sub m l 0) y))) by (rewrite map_length, seq_length; lia).
    rewrite (map_nth (fun i => clip (sqd (sub m l i) y))), seq_nth by lia. cbn [Nat.add]. apply HE. apply Hok. exact Hi.
  Qed.
  Lemma okE1 x y : okp1 x y -> E1 (sqd x y - clip (sqd x y))%R.
  Proof. intros _. apply clip_E1. apply sqd_nonneg. Qed.
  Lemma okE0 x y : okp0 x y -> E0 (sqd x y - clip (sqd x y))%R.
  Proof. intro H. apply clip_E0; [apply sqd_nonneg|exact H]. Qed.

  Section Acc.
    Variables (E : R -> Prop) (okp : list R -> list R -> Prop).
    Hypothesis okE : forall x y, okp x y -> E (sqd x y - clip (sqd x y))%R.
    Hypothesis okp_sym : forall x y, okp x y -> okp y x.

    Definition EInv (ex u : bool) (S Q : list R) (last : Z) (g : @cache R) : Prop := cinv sqdiff E m W Wq self ex u S Q last g.

    Lemma lastn_nil_app {T} n (l : list T) : length l <= n -> lastn n (l ++ []) = l.
    Proof. intro H. rewrite app_nil_r. unfold lastn. replace (length l - n) with 0 by lia. reflexivity. Qed.

    Lemma EInv_s ex u S Q last g xs : EInv ex u S Q last g -> exists g', eu_append_series g (fin xs) = Ok g' /\
      EInv (ex && (self || negb u || counted W S xs)) u (lastn W (S ++ xs)) (if self then lastn W (S ++ xs) else Q) (last - Z.of_nat (shifted W S xs)) g'.
    Proof.
      clear okE okp_sym okp. intro I. unfold eu_append_series. rewrite map_length. destruct (Nat.eqb_spec (length xs) 0) as [L|L].
      - exists g. split; [reflexivity|]. pose proof (win_len (ci_s I)) as LW. rewrite map_length in LW.
        destruct xs; [|discriminate]. rewrite lastn_nil_app by lia. unfold shifted, counted. cbn [length].
        replace (Z.of_nat (length S + 0 - W)) with 0%Z by lia. rewrite Z.sub_0_r.
        replace (length S + 2 * 0 <=? W) with true by (symmetry; apply Nat.leb_le; lia). rewrite !orb_true_r, andb_true_r.
        unfold EInv in *. pose proof (ci_q I) as Q0. revert I Q0. case self; intros; subst; auto.
      - apply cinv_append_s; auto. lia.
    Qed.
    Lemma EInv_q : self = false -> forall ex u S Q last g xs, EInv ex u S Q last g -> exists g', eu_append_query g (fin xs) = Ok g' /\
      EInv ex u S (lastn Wq (Q ++ xs)) last g'.
    Proof.
      clear okE okp_sym okp. intros Hs ex u S Q last g xs I. unfold eu_append_query. rewrite (ci_self I), Hs. rewrite map_length.
      unfold EInv in *. rewrite Hs in I |- *. destruct (Nat.eqb_spec (length xs) 0) as [L|L].
      - exists g. split; [reflexivity|]. pose proof (win_len (ci_q I)) as LW. rewrite map_length in LW.
        destruct xs; [|discriminate]. rewrite lastn_nil_app by lia. exact I.
      - apply cinv_append_q; assumption.
    Qed.
    Lemma EInv_col ex u S Q last g c : EInv ex u S Q last g -> has_col m S Q c -> okall okp m S Q -> ex = true \/ (last < Z.of_nat c)%Z ->
      exists g' vs, eu_calc_column mem g c = Ok (g', map root vs) /\ near sqdiff E m Q (sub m S c) vs /\ EInv ex true S Q (Z.max last (Z.of_nat c)) g'.
    Proof.
      intros I [Hc HQ] Hok Hx. unfold eu_calc_column.
      destruct (@cinv_col euclidean_distance_squared sq_diff mem sqdiff E okp m Hm sqdiff_sym okp_sym sq_diff_fin (full_E E okp okE)
        W Wq self ex u S Q last g c I Hc HQ Hok Hx) as (g' & vs & Eq & N & I').
      rewrite Eq. cbn [bind fst snd]. exists g', vs. split; [|auto]. rewrite map_map. reflexivity.
    Qed.
    Lemma EInv_c ex u S Q last g c : EInv ex u S Q last g -> has_col m S Q c -> okall okp m S Q -> ex = true \/ (last < Z.of_nat c)%Z ->
      exists g' v, eu_calc_column mem g c = Ok (g', v) /\ EInv ex true S Q (Z.max last (Z.of_nat c)) g'.
    Proof. intros I Hc Hok Hx. destruct (EInv_col I Hc Hok Hx) as (g' & vs & H1 & _ & H2). eauto. Qed.
    Lemma EInv_diag ex u S Q last g d : EInv ex u S Q last g -> has_diag m S Q d -> eu_calc_diagonal g d = Ok (g, diag_dist euclid m S Q d).
    Proof.
      clear okE okp_sym okp. intros I Hd. unfold eu_calc_diagonal. rewrite (ci_query I), (ci_m I). pose proof (ci_s I) as (_ & _ & _ & VS & _). rewrite VS.
      destruct (@diag_align sq_diff sqdiff m S Q d sq_diff_fin Hm Hd) as (E1' & E2 & E3 & E4 & E5 & E6 & E7).
      rewrite E2. cbn [bind]. rewrite window_sums by (rewrite ?E6; assumption). cbn [bind]. rewrite E6, diag_sums by assumption.
      do 2 f_equal. unfold diag_dist, diag_of. rewrite <- E7, Nat2Z.id, !map_map. apply map_ext_in. intros j Hj.
      unfold cell_dist, euclid. cbn [froot fsqrt nltb NumR nzero nsqrt].
      rewrite !Z2Nat.inj_add, Nat2Z.id by lia.
      match goal with |- context [psum sqdiff ?x ?y] => change (psum sqdiff x y) with (sqd x y); pose proof (sqd_nonneg x y) as NN; set (v := sqd x y) in * end.
      unfold fsqrt. cbn [nltb NumR nzero nsqrt]. destruct (Rltb_spec v 0%R); [lra|reflexivity].
    Qed.
    Lemma EInv_d ex u S Q last g d : EInv ex u S Q last g -> has_diag m S Q d ->
      exists g' v, eu_calc_diagonal g d = Ok (g', v) /\ EInv ex u S Q last g'.
    Proof. intros I Hd. exists g. eexists. split; [eapply EInv_diag; eassumption|exact I]. Qed.

    Definition eu_run := grun (eu_calc_column mem) (@eu_calc_diagonal R NumR) eu_append_series eu_append_query.

    Lemma eu_from H0 g0 H : state_after self W Wq EInv H0 g0 -> in_range self m W Wq (H0 ++ H) -> trusted self W (H0 ++ H) ->
      (forall H1 c H2, H = H1 ++ CCol c :: H2 -> okall okp m (wS W (H0 ++ H1)) (wQ self W Wq (H0 ++ H1))) ->
      exists g, eu_run g0 (map finc H) = Ok g /\ state_after self W Wq EInv (H0 ++ H) g.
    Proof.
      intros. eapply runs_from with (m := m) (good := okall okp m); eauto.
      - exact EInv_s.
      - exact EInv_q.
      - exact EInv_c.
      - exact EInv_d.
    Qed.
    Lemma eu_column H0 g0 H c : state_after self W Wq EInv H0 g0 -> in_range self m W Wq (H0 ++ H ++ [CCol c]) -> trusted self W (H0 ++ H ++ [CCol c]) ->
      (forall H1 c' H2, H ++ [CCol c] = H1 ++ CCol c' :: H2 -> okall okp m (wS W (H0 ++ H1)) (wQ self W Wq (H0 ++ H1))) ->
      exists g g' vs, eu_run g0 (map finc H) = Ok g /\ eu_calc_column mem g c = Ok (g', map root vs) /\
        near sqdiff E m (wQ self W Wq (H0 ++ H)) (sub m (wS W (H0 ++ H)) c) vs.
    Proof.
      rewrite app_assoc. intros I0 Hr Ht Hg. destruct (eu_from I0 (H := H)) as (g & Eg & Ig).
      - intros H1 o H2 Eo. apply (Hr H1 o (H2 ++ [CCol c])). rewrite Eo, <- app_assoc. reflexivity.
      - eapply trusted_prefix; eassumption.
      - intros H1 c' H2 ->. apply (Hg H1 c' (H2 ++ [CCol c])). rewrite <- app_assoc. reflexivity.
      - pose proof (trusted_col _ _ Ht) as Hx. cbn zeta in Hx. unfold state_after in Ig. cbn zeta in Ig.
        destruct (EInv_col Ig (c := c)) as (g' & vs & Ec & N & _); [exact (Hr (H0 ++ H) (CCol c) [] eq_refl)|exact (Hg H c [] eq_refl)|exact Hx|].
        exists g, g', vs. auto.
    Qed.
  End Acc.

  (** The initial states *)
  Lemma eu_streaming_state (E : R -> Prop) sf : (1 <= sf)%Q -> (sf <= 2)%Q -> m <= W -> (self = false -> 0 < Wq) ->
    exists g0, eu_prepare_streaming mem sf m W (if self then None else Some Wq) = Ok g0 /\ state_after self W Wq (EInv E) [] g0.
  Proof.
    intros H1 H2 H3 H4. unfold eu_prepare_streaming. rewrite (proj2 (Qle_bool_iff 1 sf) H1). cbn [negb].
    destruct (@win_empty (num R) mem W sf H1 H2) as (b & Eb & Wb); [lia|]. rewrite Eb. cbn [bind].
    revert H4. case self eqn:Es; intro H4.
    - eexists. split; [reflexivity|]. apply state_start. unfold EInv. rewrite Es. apply cinv_data; auto.
    - destruct (@win_empty (num R) mem Wq sf H1 H2) as (b2 & Eb2 & Wb2); [auto|]. rewrite Eb2. cbn [bind].
      eexists. split; [reflexivity|]. apply state_start. unfold EInv. rewrite Es. apply cinv_data; auto.
  Qed.
End Run.

Lemma eu_batch_state mem sf m S q (E : R -> Prop) : 0 < m -> m <= length S -> m <= length (query_or S q) -> (1 <= sf)%Q ->
  exists g0, eu_prepare mem sf m (fin S) (option_map (map (@Fin R)) q) = Ok g0 /\
    state_after (self_of q) (length S) (length (query_or S q)) (EInv m (length S) (length (query_or S q)) (self_of q) E) (loaded S q) g0.
Proof.
  intros Hm HS HQ Hsf. unfold eu_prepare. rewrite (proj2 (Qle_bool_iff 1 sf) Hsf). cbn [negb].
  destruct (@win_data (num R) mem (fin S) 1) as (b & Eb & Wb); [discriminate|discriminate|rewrite map_length; lia|]. rewrite Eb. cbn [bind].
  rewrite map_length in Wb.
  assert (D : forall g0, EInv m (length S) (length (query_or S q)) (self_of q) E true false S (query_or S q) (-1) g0 ->
    state_after (self_of q) (length S) (length (query_or S q)) (EInv m (length S) (length (query_or S q)) (self_of q) E) (loaded S q) g0).
  { intros g0 I. unfold state_after. cbn zeta.
    assert (Hc : calc_only m S (query_or S q) []) by (intros o []).
    pose proof (wS_batch q Hc) as E1. pose proof (wQ_batch q Hc) as E2. rewrite app_nil_r in E1, E2. rewrite E1, E2.
    replace (ghost_of (self_of q) (length S) (loaded S q)) with (mkGhost true false (length S) (-1)).
    - cbn [gh_exact gh_used gh_n gh_last]. rewrite Nat.sub_diag. exact I.
    - unfold ghost_of, loaded. destruct q; cbn [self_of fold_left ghost_step gh_exact gh_used gh_n gh_last negb orb andb Nat.add]; reflexivity. }
  destruct q as [q|]; cbn [option_map query_or self_of] in *.
  - destruct (@win_data (num R) mem (fin q) 1) as (b2 & Eb2 & Wb2); [discriminate|discriminate|rewrite map_length; lia|]. rewrite Eb2. cbn [bind].
    rewrite map_length in Wb2. eexists. split; [reflexivity|]. apply D. apply cinv_data; auto.
  - eexists. split; [reflexivity|]. apply D. apply cinv_data; auto.
Qed.

Lemma near_exact (E : R -> Prop) m S Q c vs : (forall e, E e -> e = 0%R) -> near sqdiff E m Q (sub m S c) vs -> map root vs = col_dist euclid m S Q c.
Proof.
  intros HE [L N]. unfold col_dist. apply nth_error_ext. intro i. rewrite !nth_error_map, nth_error_seq.
  destruct (Nat.ltb_spec i (length Q + 1 - m)) as [Hi|Hi].
  - rewrite (nth_error_nth' vs 0%R) by lia. cbn [option_map Nat.add]. f_equal. specialize (N i ltac:(lia)). apply HE in N.
    change (psum sqdiff (sub m Q i) (sub m S c)) with (sqd (sub m Q i) (sub m S c)) in N.
    assert (Ev : nth i vs 0%R = sqd (sub m Q i) (sub m S c)) by lra. rewrite Ev. unfold root.
    pose proof (sqd_nonneg (sub m Q i) (sub m S c)). destruct (Rltb_spec (sqd (sub m Q i) (sub m S c)) 0%R); [lra|reflexivity].
  - rewrite (proj2 (nth_error_None vs i)) by lia. reflexivity.
Qed.

Lemma okall_separated m S Q : separated m S Q -> okall okp0 m S Q.
Proof. intros H i j Hi Hj. apply H; assumption. Qed.
Lemma okall_true m S Q : okall okp1 m S Q.
Proof. intros i j Hi Hj. exact I. Qed.
Lemma okp0_sym x y : okp0 x y -> okp0 y x.
Proof. unfold okp0. rewrite sqd_sym. auto. Qed.

Section Batch.
  Variables (mem : nat -> num R) (sf : Q) (m : nat) (S : list R) (q : option (list R)).
  Let Q := query_or S q.
  Let run := grun (eu_calc_column mem) (@eu_calc_diagonal R NumR) eu_append_series eu_append_query.
  Hypothesis Hm : 0 < m.
  Hypothesis HS : m <= length S.
  Hypothesis HQ : m <= length Q.
  Hypothesis Hsf : (1 <= sf)%Q.

  Lemma eu_batch_col (E : R -> Prop) (okp : list R -> list R -> Prop) H c :
    (forall x y, okp x y -> E (sqd x y - clip (sqd x y))%R) -> (forall x y, okp x y -> okp y x) -> okall okp m S Q ->
    calc_only m S Q H -> c + m <= length S ->
    exists g0 g g' vs, eu_prepare mem sf m (fin S) (option_map (map (@Fin R)) q) = Ok g0 /\ run g0 (map finc H) = Ok g /\
      eu_calc_column mem g c = Ok (g', map root vs) /\ near sqdiff E m Q (sub m S c) vs.
  Proof.
    intros H1 H2 H3 Hc Hcol. destruct (eu_batch_state mem S q E Hm HS HQ Hsf) as (g0 & E0 & I0).
    assert (Hc' : calc_only m S Q (H ++ [CCol c])).
    { apply calc_only_app. split; [exact Hc|]. intros o [<-|[]]. split; assumption. }
    destruct (eu_column mem Hm H1 H2 H c I0) as (g & g' & vs & Eg & Ec & N).
    - apply in_range_batch. exact Hc'.
    - apply trusted_batch with (m := m). exact Hc'.
    - intros Ha c' Hb Eh. rewrite Eh in Hc'. apply calc_only_app in Hc' as [Hc' _]. rewrite (wS_batch q Hc'), (wQ_batch q Hc'). exact H3.
    - exists g0, g, g', vs. rewrite (wS_batch q Hc), (wQ_batch q Hc) in N. auto.
  Qed.

  Lemma eu_batch_within H c : calc_only m S Q H -> c + m <= length S ->
    exists g0 g g' vs, eu_prepare mem sf m (fin S) (option_map (map (@Fin R)) q) = Ok g0 /\ run g0 (map finc H) = Ok g /\
      eu_calc_column mem g c = Ok (g', map root vs) /\ length vs = length Q + 1 - m /\
      forall r, r + m <= length Q -> (0 <= sqd (sub m Q r) (sub m S c) - nth r vs 0 < / 10 ^ 15)%R.
  Proof.
    intros Hc Hcol. destruct (@eu_batch_col E1 okp1 H c okE1 (fun _ _ H => H) (@okall_true m S Q) Hc Hcol) as (g0 & g & g' & vs & E0 & E1' & E2 & N1 & N2).
    exists g0, g, g', vs. auto.
  Qed.
  Lemma eu_batch_exact H c : separated m S Q -> calc_only m S Q H -> c + m <= length S ->
    exists g0 g g', eu_prepare mem sf m (fin S) (option_map (map (@Fin R)) q) = Ok g0 /\ run g0 (map finc H) = Ok g /\
      eu_calc_column mem g c = Ok (g', col_dist euclid m S Q c).
  Proof.
    intros Hs Hc Hcol. destruct (@eu_batch_col E0 okp0 H c okE0 okp0_sym (okall_separated Hs) Hc Hcol) as (g0 & g & g' & vs & E0' & E1' & E2 & N).
    exists g0, g, g'. rewrite <- (@near_exact E0 m S Q c vs (fun e H => H) N). auto.
  Qed.
  Lemma eu_batch_diag H d : calc_only m S Q H -> has_diag m S Q d ->
    exists g0 g, eu_prepare mem sf m (fin S) (option_map (map (@Fin R)) q) = Ok g0 /\ run g0 (map finc H) = Ok g /\
      eu_calc_diagonal g d = Ok (g, diag_dist euclid m S Q d).
  Proof.
    intros Hc Hd. destruct (eu_batch_state mem S q E1 Hm HS HQ Hsf) as (g0 & E0' & I0).
    destruct (eu_from mem Hm okE1 (fun _ _ H => H) I0 (H := H)) as (g & Eg & Ig).
    - apply in_range_batch. exact Hc.
    - apply trusted_batch with (m := m). exact Hc.
    - intros. apply okall_true.
    - exists g0, g. split; [exact E0'|]. split; [exact Eg|]. unfold state_after in Ig. cbn zeta in Ig. rewrite (wS_batch q Hc), (wQ_batch q Hc) in Ig.
      eapply EInv_diag; eauto.
  Qed.
End Batch.

Section Streaming.
  Variables (mem : nat -> num R) (sf : Q) (m W Wq : nat) (self : bool).
  Let run := grun (eu_calc_column mem) (@eu_calc_diagonal R NumR) eu_append_series eu_append_query.
  Let qw := if self then None else Some Wq.
  Hypothesis Hm : 0 < m.
  Hypothesis HW : m <= W.
  Hypothesis HWq : self = false -> 0 < Wq.
  Hypothesis Hsf1 : (1 <= sf)%Q.
  Hypothesis Hsf2 : (sf <= 2)%Q.

  Lemma eu_stream_within H c : in_range self m W Wq (H ++ [CCol c]) -> trusted self W (H ++ [CCol c]) ->
    exists g0 g g' vs, eu_prepare_streaming mem sf m W qw = Ok g0 /\ run g0 (map finc H) = Ok g /\ eu_calc_column mem g c = Ok (g', map root vs) /\
      length vs = length (wQ self W Wq H) + 1 - m /\
      forall r, r + m <= length (wQ self W Wq H) -> (0 <= sqd (sub m (wQ self W Wq H) r) (sub m (wS W H) c) - nth r vs 0 < / 10 ^ 15)%R.
  Proof.
    intros Hr Ht. destruct (eu_streaming_state mem Hm E1 Hsf1 Hsf2 HW HWq) as (g0 & E0' & I0).
    destruct (eu_column mem Hm okE1 (fun _ _ H => H) H c I0) as (g & g' & vs & Eg & Ec & N1 & N2); auto.
    { intros. apply okall_true. }
    exists g0, g, g', vs. auto.
  Qed.
  Lemma eu_stream_exact H c : in_range self m W Wq (H ++ [CCol c]) -> trusted self W (H ++ [CCol c]) ->
    (forall H1 c' H2, H ++ [CCol c] = H1 ++ CCol c' :: H2 -> separated m (wS W H1) (wQ self W Wq H1)) ->
    exists g0 g g', eu_prepare_streaming mem sf m W qw = Ok g0 /\ run g0 (map finc H) = Ok g /\
      eu_calc_column mem g c = Ok (g', col_dist euclid m (wS W H) (wQ self W Wq H) c).
  Proof.
    intros Hr Ht Hs. destruct (eu_streaming_state mem Hm E0 Hsf1 Hsf2 HW HWq) as (g0 & E0' & I0).
    destruct (eu_column mem Hm okE0 okp0_sym H c I0) as (g & g' & vs & Eg & Ec & N); [exact Hr|exact Ht| |].
    { intros H1 c' H2 E. apply okall_separated. exact (Hs H1 c' H2 E). }
    exists g0, g, g'. rewrite <- (@near_exact E0 m (wS W H) (wQ self W Wq H) c vs (fun e H => H) N). auto.
  Qed.
  Lemma eu_stream_diag H d : in_range self m W Wq (H ++ [CDiag d]) -> trusted self W H ->
    exists g0 g, eu_prepare_streaming mem sf m W qw = Ok g0 /\ run g0 (map finc H) = Ok g /\
      eu_calc_diagonal g d = Ok (g, diag_dist euclid m (wS W H) (wQ self W Wq H) d).
  Proof.
    intros Hr Ht. destruct (eu_streaming_state mem Hm E1 Hsf1 Hsf2 HW HWq) as (g0 & E0' & I0).
    destruct (eu_from mem Hm okE1 (fun _ _ H => H) I0 (H := H)) as (g & Eg & Ig); auto.
    { intros H1 o H2 Eo. apply (Hr H1 o (H2 ++ [CDiag d])). cbn [app] in Eo. rewrite Eo, <- app_assoc. reflexivity. }
    { intros. apply okall_true. }
    exists g0, g. split; [exact E0'|]. split; [exact Eg|]. unfold state_after in Ig. eapply EInv_diag; eauto.
    exact (Hr H (CDiag d) [] eq_refl).
  Qed.
End Streaming.
