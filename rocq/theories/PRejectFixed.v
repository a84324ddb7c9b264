(** * PRejectFixed: the z-normalised generator after rejected appends to its series, in a join whose query had finite points only *)
From Coq Require Import QArith Reals Lra.
From Verif Require Import Np NpFacts MRing PRing MUtil MArith MStats MCache MZnorm MRejected SReal SCalc SGen PArith PStats PCache PGenRun PZdist PZnorm PRejected SRejectJoin PRejectJoin.
Set Implicit Arguments.
Open Scope nat_scope.

Lemma setitem_len {T} (l : list T) i x l' : setitem l i x = Ok l' -> length l' = length l /\ i < length l.
Proof.
  unfold setitem. destruct (Nat.ltb_spec i (length l)) as [C|C]; [|discriminate]. intro E. injection E as <-. split; [|exact C].
  unfold splice. rewrite !app_length, firstn_length. cbn [length]. rewrite skipn_length. lia.
Qed.
Lemma getitem_lt {T} (l : list T) i x : getitem l i = Ok x -> i < length l.
Proof. intro E. apply getitem_ok in E. apply nth_error_Some. congruence. Qed.
Lemma dots_len (points subseq : list (num R)) d : dot_products points subseq = Ok d -> length subseq <= length points -> length d = length points - length subseq + 1.
Proof.
  unfold dot_products, convolve_valid. rewrite rev_length. intros E L. destruct (Nat.ltb_spec (length points) (length subseq)); [lia|].
  rewrite rev_length in E. destruct (_ =? 0); [discriminate|]. injection E as <-. rewrite map_length, seq_length. reflexivity.
Qed.

(** ** Whatever happened to the series *)
Record zfix (noise : R) (m W Wq : nat) (now : list (num R)) (Q : list R) (g : @zn R) : Prop := {
  zf_m : ch_m (zn_c g) = m;
  zf_self : ch_self (zn_c g) = false;
  zf_noise : zn_noise g = Fin noise;
  zf_s : side m W now (ch_series (zn_c g)) (zn_s g);
  zf_q : win Wq (fin Q) (ch_qbuf (zn_c g));
  zf_qs : zs_inv m Wq Q (zn_q g);
  zf_first : forall b, ch_first (zn_c g) = Some b -> m <= length Q /\ exists x, win (W + 1 - m) x b;
  zf_prev : forall p, ch_prev (zn_c g) = Some p -> (p < Z.of_nat W)%Z
}.

(** what a series append does to the cached position *)
Lemma join_append_prev (c c' : @cache R) n v xs : ch_self c = false -> win n v (ch_series c) -> cache_append_s c xs = Ok c' ->
  ch_backlog c' = ch_backlog c + length xs /\ (forall p', ch_prev c' = Some p' -> exists p, ch_prev c = Some p /\ (p' + Z.of_nat (length v + length xs - n) <= p)%Z).
Proof.
  intros Es Wc. destruct (win_push xs Wc) as (b & Eb & Wb). unfold cache_append_s. rewrite Eb. cbn [bind fst snd]. rewrite Es. intro E. injection E as <-.
  cbn [ch_backlog ch_prev]. split; [reflexivity|]. intros p' E. destruct (ch_prev c) as [p|]; [|discriminate]. exists p. split; [reflexivity|].
  pose proof (win_len Wc) as Lv. destruct Wb as (_ & M & _ & V & _). rewrite V, M, length_lastn, app_length in E.
  destruct (Z.ltb_spec 0 (Z.of_nat (length xs) - (Z.of_nat n - Z.of_nat (Nat.min n (length v + length xs)))))%Z as [C|C]; injection E as <-; lia.
Qed.

Lemma zfix_s noise m W Wq now Q g xs : 0 < m -> m <= W -> zfix noise m W Wq now Q g ->
  zfix noise m W Wq (lastn W (now ++ xs)) Q (fst (zn_append_series_st g xs)).
Proof.
  intros Hm HW [Zm Zself Zn Zs Zq Zqs Zf Zp]. unfold zn_append_series_st. destruct (Nat.eqb_spec (length xs) 0) as [L|L].
  { destruct xs; [|discriminate]. rewrite (side_nil Zs). constructor; auto. }
  assert (Nx : xs <> []) by (intros ->; cbn in L; lia).
  destruct (join_append_s _ xs Zself (proj1 Zs)) as (c & Ec & Wc & Mc & Sc & Qc & _ & Fc).
  destruct (join_append_prev _ xs Zself (proj1 Zs) Ec) as (_ & Pc). rewrite Ec, Mc, Zm.
  pose proof (side_append Hm HW Nx Zs Wc) as K. destruct (zstats_append _ _ _ _) as [z|e].
  - destruct K as (_ & K). constructor; cbn [fst zn_c zn_noise zn_s zn_q]; auto; try congruence.
    + rewrite Fc. exact Zf.
    + intros p' E. destruct (Pc _ E) as (p & E1 & E2). apply Zp in E1. lia.
  - constructor; cbn [fst zn_c zn_noise zn_s zn_q ch_m ch_self ch_series ch_qbuf ch_first ch_prev]; auto.
    split; [exact Wc|exact (proj2 Zs)].
Qed.
Lemma zfix_q noise m W Wq now Q g ys : 0 < m -> m <= Wq -> zfix noise m W Wq now Q g ->
  zfix noise m W Wq now (lastn Wq (Q ++ ys)) (fst (zn_append_query_st g (fin ys))).
Proof.
  intros Hm HW [Zm Zself Zn Zs Zq Zqs Zf Zp]. pose proof (win_len Zq) as LQ. rewrite map_length in LQ.
  unfold zn_append_query_st. rewrite Zself, map_length. destruct (Nat.eqb_spec (length ys) 0) as [L|L].
  { destruct ys; [|discriminate]. rewrite app_nil_r, lastn_all by exact LQ. constructor; auto. }
  destruct (join_append_q _ (fin ys) Zq) as (c & Ec & Wc & Mc & Sc & Qc & Pc & Fc & _).
  rewrite <- map_app, lastn_map in Wc. rewrite Ec, Mc, Zm. pose proof Wc as (_ & _ & _ & Vc & _). rewrite Vc.
  destruct (zs_append ys Hm HW LQ ltac:(lia) Zqs) as (z & Ez & Iz). rewrite Ez.
  constructor; cbn [fst zn_c zn_noise zn_s zn_q]; auto; try congruence.
  intros b E. assert (F : exists b, ch_first (zn_c g) = Some b) by (destruct (ch_first (zn_c g)); [eauto|rewrite Fc in E by reflexivity; discriminate]).
  assert (Fe : ch_first c = ch_first (zn_c g)).
  { unfold cache_append_q in Ec. apply bind_ok in Ec as (r & _ & Ec). injection Ec as <-. cbn [ch_first] in *. destruct (_ =? 0); [reflexivity|discriminate]. }
  rewrite Fe in E. apply Zf in E as (E1 & E2). split; [|exact E2]. rewrite length_lastn, app_length. lia.
Qed.
Lemma zfix_c mem noise m W Wq now Q g c g' v : 0 < m -> m <= W -> m <= Wq -> zfix noise m W Wq now Q g -> zn_calc_column mem g c = Ok (g', v) -> zfix noise m W Wq now Q g'.
Proof.
  intros Hm HW HWq [Zm Zself Zn Zs Zq Zqs Zf Zp] E. unfold zn_calc_column in E. destruct (_ <? _); [discriminate|].
  apply bind_ok in E as (r & Er & E). apply bind_ok in E as (mu & Emu & E). do 3 (apply bind_ok in E as (? & _ & E)).
  destruct (Nat.eqb_spec (length (snd r)) (length (rb_view (ch_query (zn_c g))) + 1 - ch_m (zn_c g))) as [Lr|]; [|discriminate].
  injection E as <- _.
  assert (VQ : rb_view (ch_query (zn_c g)) = fin Q) by (unfold ch_query; rewrite Zself; apply Zq). rewrite VQ, map_length, Zm in Lr.
  pose proof (proj1 Zs) as (_ & MS & _ & VS & _). pose proof (win_len (proj1 Zs)) as LS.
  assert (Lc : c < W).
  { apply getitem_lt in Emu. destruct Zs as (_ & mus & _ & _ & Wm & _). pose proof (win_len Wm) as L2. destruct Wm as (_ & _ & _ & Vm & _). rewrite Vm in Emu. lia. }
  unfold cache_col in Er. apply bind_ok in Er as (((fr & bl) & vv) & Ef & Er). injection Er as <-. cbn [fst snd] in Lr |- *.
  constructor; cbn [zn_c zn_noise zn_s zn_q ch_m ch_self ch_series ch_qbuf ch_first ch_prev]; auto.
  - intros b ->. destruct (_ || _).
    + apply bind_ok in Ef as (? & _ & Ef). injection Ef as F1 _ _. apply Zf. exact F1.
    + apply bind_ok in Ef as (b1 & Eb & Ef). apply bind_ok in Ef as (? & _ & Ef). apply bind_ok in Ef as (? & Ga & Ef). do 4 (apply bind_ok in Ef as (? & _ & Ef)).
      apply bind_ok in Ef as (v4 & Ev & Ef). injection Ef as -> _ ->. destruct (setitem_len _ _ _ Ev) as (L1 & L2).
      assert (HQ : m <= length Q) by lia. split; [exact HQ|]. apply getitem_lt in Ga. rewrite VS, Zm in Ga.
      unfold cache_first in Eb. destruct (ch_first (zn_c g)) as [b0|] eqn:F0.
      * destruct (Zf _ eq_refl) as (_ & xx & Wx). destruct (_ <? _); [|injection Eb as <-; eauto].
        apply bind_ok in Eb as (d & _ & Eb). destruct (win_push d Wx) as (b2 & E2 & W2). rewrite E2 in Eb. injection Eb as <-. eauto.
      * apply bind_ok in Eb as (d & Ed & Eb). rewrite VQ, VS, Zm in Ed. rewrite MS, Zm in Eb. apply dots_len in Ed.
        2:{ rewrite length_lslice, map_length. lia. }
        rewrite length_lslice, map_length in Ed. destruct (@win_new _ mem d (W + 1 - m) 2) as (b2 & E2 & W2); [discriminate|discriminate|lia|lia|].
        rewrite E2 in Eb. injection Eb as <-. eauto.
  - intros p E. injection E as <-. lia.
Qed.

Lemma zfix_run mem noise m W Wq H : 0 < m -> m <= W -> m <= Wq -> forall pts Q Q' g g', zfix noise m W Wq (lastn W pts) (lastn Wq Q) g ->
  q_points H = fin Q' -> foldM (zn_caught mem) H g = Ok g' -> zfix noise m W Wq (lastn W (pts ++ s_points H)) (lastn Wq (Q ++ Q')) g'.
Proof.
  intros Hm HW HWq. induction H as [|o H IH]; intros pts Q Q' g g' I Eq E; cbn [foldM] in E.
  - cbn in Eq |- *. destruct Q'; [|discriminate]. rewrite !app_nil_r. congruence.
  - apply bind_ok in E as (g1 & E1 & E2). unfold q_points in Eq. cbn [flat_map] in Eq. fold (q_points H) in Eq.
    change (s_points (o :: H)) with (match o with CSeries xs => xs | _ => [] end ++ s_points H).
    destruct o as [xs|xs|c|d]; cbn [zn_caught] in E1; cbn [app] in Eq |- *.
    + injection E1 as <-. apply (zfix_s xs Hm HW) in I. rewrite lastn_app in I. rewrite app_assoc. eapply IH; eauto.
    + injection E1 as <-. symmetry in Eq. apply map_eq_app in Eq as (ys & zs & -> & <- & Ez). apply (zfix_q ys Hm HWq) in I. rewrite lastn_app in I.
      rewrite app_assoc. eapply IH; eauto.
    + apply bind_ok in E1 as ((g2 & v) & E1 & E3). injection E3 as <-. cbn [fst] in E2. eapply IH; [|exact Eq|exact E2]. eapply zfix_c; eauto.
    + apply bind_ok in E1 as (r & E1 & E3). injection E3 as <-. eapply IH; [|exact Eq|exact E2]. unfold zn_calc_diagonal in E1. destruct (_ <? 0)%Z; [discriminate|].
      do 4 (apply bind_ok in E1 as (? & _ & E1)). destruct (_ =? _); [|discriminate]. injection E1 as <-. exact I.
Qed.

(** ** Accepted series appends *)
Record zfmend (noise : R) (m W Wq : nat) (now0 : list (num R)) (Q : list R) (t : list R) (g : @zn R) : Prop := {
  fm_m : ch_m (zn_c g) = m;
  fm_self : ch_self (zn_c g) = false;
  fm_noise : zn_noise g = Fin noise;
  fm_s : mends m W now0 t (ch_series (zn_c g)) (zn_s g);
  fm_q : win Wq (fin Q) (ch_qbuf (zn_c g));
  fm_qs : zs_inv m Wq Q (zn_q g);
  fm_first : forall b, ch_first (zn_c g) = Some b -> m <= length Q /\ exists x, win (W + 1 - m) x b;
  fm_prev : forall p, ch_prev (zn_c g) = Some p -> (p + Z.of_nat (length now0 + length t - W) < Z.of_nat W)%Z;
  fm_backlog : length t <= ch_backlog (zn_c g)
}.
Lemma zfmend_start noise m W Wq now Q g : 0 < m -> zfix noise m W Wq now Q g -> zfmend noise m W Wq now Q [] g.
Proof.
  intros Hm [Zm Zself Zn Zs Zq Zqs Zf Zp]. constructor; auto using mends_start; [|cbn; lia].
  intros p E. apply Zp in E. pose proof (win_len (proj1 Zs)). cbn [length]. lia.
Qed.
Lemma zfmend_append noise m W Wq now0 Q t g xs g' : 0 < m -> m <= W -> length now0 <= W -> zfmend noise m W Wq now0 Q t g -> zn_append_series g (fin xs) = Ok g' ->
  zfmend noise m W Wq now0 Q (t ++ xs) g'.
Proof.
  intros Hm HW L0 I E. pose proof I as [Zm Zself Zn Zs Zq Zqs Zf Zp Zb].
  unfold zn_append_series in E. rewrite map_length in E. destruct (Nat.eqb_spec (length xs) 0) as [L|L].
  { injection E as <-. destruct xs; [|discriminate]. rewrite app_nil_r. exact I. }
  assert (Nx : xs <> []) by (intros ->; cbn in L; lia).
  destruct (join_append_s _ (fin xs) Zself (me_s Zs)) as (c & Ec & Wc & Mc & Sc & Qc & _ & Fc).
  destruct (join_append_prev _ (fin xs) Zself (me_s Zs) Ec) as (Bc & Pc). rewrite map_length in Bc, Pc.
  rewrite Ec in E. cbn [bind] in E. rewrite lastn_app, <- app_assoc, <- map_app in Wc.
  apply bind_ok in E as (z & Ez & E). injection E as <-. rewrite Mc, Zm in Ez.
  constructor; cbn [zn_c zn_noise zn_s zn_q]; auto; try congruence.
  - eapply mends_append; eauto.
  - rewrite Fc. exact Zf.
  - intros p' E. destruct (Pc _ E) as (p & E1 & E2). apply Zp in E1. rewrite length_lastn, app_length, map_length in E2. rewrite app_length. lia.
  - rewrite app_length. lia.
Qed.
Lemma zfmend_appends noise m W Wq chunks : 0 < m -> m <= W -> forall now0 Q t g g', length now0 <= W -> zfmend noise m W Wq now0 Q t g ->
  foldM (@zn_append_series R NumR) (map (map (@Fin R)) chunks) g = Ok g' -> zfmend noise m W Wq now0 Q (t ++ concat chunks) g'.
Proof.
  intros Hm HW. induction chunks as [|xs chunks IH]; intros now0 Q t g g' L0 I E; cbn [map foldM concat] in *.
  - rewrite app_nil_r. congruence.
  - apply bind_ok in E as (g1 & E1 & E2). rewrite app_assoc. eapply IH; [exact L0| |eauto]. eapply zfmend_append; eauto.
Qed.

(** ** Two generators that differ only in a cache that will not be used *)
Record csim (m W : nat) (c h : @cache R) : Prop := {
  cs_m : ch_m c = m /\ ch_m h = m;
  cs_self : ch_self c = false /\ ch_self h = false;
  cs_s : exists v, win W v (ch_series c);
  cs_ss : ch_series c = ch_series h;
  cs_q : exists Wq v, win Wq v (ch_qbuf c);
  cs_qq : ch_qbuf c = ch_qbuf h;
  cs_b : ch_backlog c = ch_backlog h;
  cs_v : ch_vals c = ch_vals h;
  cs_prev : ch_prev c = ch_prev h \/ (ch_prev h = None /\ exists p, ch_prev c = Some p /\ (p < 0)%Z);
  cs_first : match ch_first c, ch_first h with
             | None, None => True
             | Some b, Some b' => m <= length (rb_view (ch_qbuf c)) /\ exists x x', win (W + 1 - m) x b /\ win (W + 1 - m) x' b' /\
                 (x = x' \/ (W <= ch_backlog c /\ length (rb_view (ch_series c)) = W))
             | _, _ => False
             end
}.

Lemma csim_append_s m W c h xs h' : csim m W c h -> cache_append_s h xs = Ok h' -> exists c', cache_append_s c xs = Ok c' /\ csim m W c' h'.
Proof.
  intros [(M1 & M2) (S1 & S2) (v & Wv) Es (Wq & vq & Wvq) Eq Eb Ev Ep Ef] E. destruct (win_push xs Wv) as (b & Pb & Wb).
  unfold cache_append_s in *. rewrite <- Es in E. rewrite Pb in *. cbn [bind fst snd] in *. rewrite S2 in E. injection E as <-. rewrite S1.
  eexists. split; [reflexivity|]. constructor; cbn [ch_m ch_self ch_series ch_qbuf ch_first ch_backlog ch_prev ch_vals]; eauto.
  - destruct Ep as [->|(-> & p & -> & Hp)]; [left; reflexivity|]. right. split; [reflexivity|]. destruct (_ <? _)%Z eqn:D; [|eauto].
    apply Z.ltb_lt in D. eexists. split; [reflexivity|]. lia.
  - destruct (ch_first c) as [b1|]; destruct (ch_first h) as [b2|]; auto. destruct Ef as (HQ & x & x' & F1 & F2 & F3). split; [exact HQ|].
    exists x, x'. split; [exact F1|]. split; [exact F2|]. destruct F3 as [F3|(F3 & F4)]; [left; exact F3|]. right.
    destruct Wb as (_ & _ & _ & -> & _). destruct Wv as (_ & _ & _ & Vv & _). rewrite Vv in F4. rewrite length_lastn, app_length. lia.
Qed.
Lemma csim_append_q m W c h xs h' : csim m W c h -> cache_append_q h xs = Ok h' -> exists c', cache_append_q c xs = Ok c' /\ csim m W c' h'.
Proof.
  intros [(M1 & M2) (S1 & S2) (v & Wv) Es (Wq & vq & Wvq) Eq Eb Ev Ep Ef] E. destruct (win_push xs Wvq) as (b & Pb & Wb).
  unfold cache_append_q in *. rewrite <- Eq in E. rewrite Pb in *. cbn [bind fst snd] in *. injection E as <-.
  eexists. split; [reflexivity|]. constructor; cbn [ch_m ch_self ch_series ch_qbuf ch_first ch_backlog ch_prev ch_vals]; eauto.
  destruct (_ =? 0); [|exact I].
  destruct (ch_first c) as [b1|]; destruct (ch_first h) as [b2|]; auto. destruct Ef as (HQ & F). split; [|exact F].
  destruct Wb as (_ & _ & _ & -> & _). pose proof (win_len Wvq). destruct Wvq as (_ & _ & _ & Vv & _). rewrite Vv in HQ. rewrite length_lastn, app_length. lia.
Qed.

Lemma slice_from_long {T} (l : list T) k : length l <= k -> 0 < k -> slice_from l (- Z.of_nat k) = l.
Proof. intros L K. rewrite slice_from_neg by exact K. apply lastn_all. exact L. Qed.

Lemma csim_col mem m W c h n r : 0 < m -> m <= W -> csim m W c h -> cache_col dot_products fmul mem h n = Ok r ->
  m <= length (rb_view (ch_qbuf c)) ->
  exists c', cache_col dot_products fmul mem c n = Ok (c', snd r) /\ csim m W c' (fst r).
Proof.
  intros Hm HW [(M1 & M2) (S1 & S2) (v & Wv) Es (Wq & vq & Wvq) Eq Eb Ev Ep Ef] E HQ.
  assert (Qe : ch_query c = ch_query h) by (unfold ch_query; rewrite S1, S2; exact Eq).
  unfold cache_col in *. rewrite Qe, M1. rewrite M2 in E. rewrite Es, S1, Ev. rewrite S2 in E.
  set (cached := match ch_prev h with Some p => (p =? Z.of_nat n - 1)%Z | None => false end) in *.
  assert (Ec : negb (match ch_prev c with Some p => (p =? Z.of_nat n - 1)%Z | None => false end) || (n =? 0) = negb cached || (n =? 0)).
  { unfold cached. destruct Ep as [->|(-> & p & -> & Hp)]; [reflexivity|]. destruct (Z.eqb_spec p (Z.of_nat n - 1)); [|reflexivity].
    destruct (Nat.eqb_spec n 0); [reflexivity|lia]. }
  rewrite Ec. destruct (negb cached || (n =? 0)).
  - apply bind_ok in E as (((fr & bl) & vv) & E1 & E). apply bind_ok in E1 as (w & Ew & E1). rewrite Ew. cbn [bind]. injection E1 as <- <- <-. injection E as <-.
    eexists. split; [reflexivity|]. cbn [fst snd]. rewrite <- Es. constructor; cbn [ch_m ch_self ch_series ch_qbuf ch_first ch_backlog ch_prev ch_vals]; eauto.
  - apply bind_ok in E as (((fr & bl) & vv) & E1 & E). apply bind_ok in E1 as (b & E0 & E1).
    assert (Fi : exists b1 x, cache_first dot_products mem c = Ok b1 /\ win (W + 1 - m) x b1 /\ win (W + 1 - m) x b).
    { unfold cache_first in *. rewrite Qe, M1, Es. rewrite M2 in E0. rewrite <- Eb in E0. rewrite <- Es in *. pose proof Wv as (_ & Mx & _ & Vv & _). rewrite Vv, Mx in *.
      pose proof (win_len Wv) as Lv.
      assert (Gl : m <= length v).
      { apply bind_ok in E1 as (? & _ & E1). apply bind_ok in E1 as (? & Ga & _). apply getitem_lt in Ga. lia. }
      assert (Ls : length (lslice (rb_view (ch_query h)) 0 m) = m).
      { rewrite length_lslice. unfold ch_query. rewrite S2, <- Eq. lia. }
      destruct (ch_first c) as [b1|]; destruct (ch_first h) as [b2|]; try contradiction.
      - destruct Ef as (_ & x & x' & F1 & F2 & F3). destruct (Nat.ltb_spec 0 (ch_backlog c)) as [C|C].
        + apply bind_ok in E0 as (d & Ed & E0). rewrite Ed. cbn [bind]. destruct (win_push d F1) as (b1' & P1 & W1). destruct (win_push d F2) as (b2' & P2 & W2).
          rewrite P1. rewrite P2 in E0. cbn [bind fst] in *. injection E0 as <-. exists b1', (lastn (W + 1 - m) (x' ++ d)). split; [reflexivity|]. split; [|exact W2].
          destruct F3 as [->|(F3 & F4)]; [exact W1|].
          replace (- (Z.of_nat (ch_backlog c) + Z.of_nat m - 1))%Z with (- Z.of_nat (ch_backlog c + m - 1))%Z in Ed by lia. rewrite slice_from_long in Ed by lia.
          apply dots_len in Ed; [|lia]. rewrite lastn_app_r in W1 |- * by lia. exact W1.
        + injection E0 as <-. destruct F3 as [->|(F3 & _)]; [|lia]. exists b1, x'. auto.
      - apply bind_ok in E0 as (d & Ed & E0). rewrite Ed. cbn [bind]. rewrite E0. apply dots_len in Ed; [|lia]. rewrite Ls in Ed.
        destruct (@win_new _ mem d (W + 1 - m) 2) as (b' & E2 & W2); [discriminate|discriminate|lia|lia|]. rewrite E2 in E0. injection E0 as <-. eauto. }
    destruct Fi as (b1 & x & G1 & G2 & G3). rewrite G1. cbn [bind].
    apply bind_ok in E1 as (sb & Esb & E1). apply bind_ok in E1 as (ad & Ead & E1). apply bind_ok in E1 as (v1 & Ev1 & E1). apply bind_ok in E1 as (v2 & Ev2 & E1).
    apply bind_ok in E1 as (v3 & Ev3 & E1). apply bind_ok in E1 as (f & Ef' & E1). apply bind_ok in E1 as (v4 & Ev4 & E1). injection E1 as <- <- <-. injection E as <-.
    rewrite Esb. cbn [bind]. rewrite Ead. cbn [bind]. rewrite Ev1. cbn [bind]. rewrite Ev2. cbn [bind]. rewrite Ev3. cbn [bind].
    pose proof G2 as (_ & _ & _ & V2 & _). pose proof G3 as (_ & _ & _ & V3 & _). rewrite V3 in Ef'. rewrite V2, Ef'. cbn [bind]. rewrite Ev4. cbn [bind].
    eexists. split; [reflexivity|]. cbn [fst snd]. rewrite <- Es. constructor; cbn [ch_m ch_self ch_series ch_qbuf ch_first ch_backlog ch_prev ch_vals]; eauto.
    split; [exact HQ|]. exists x, x. auto.
Qed.

Record zsim (m W : nat) (g h : @zn R) : Prop := {
  zm_c : csim m W (zn_c g) (zn_c h);
  zm_noise : zn_noise g = zn_noise h;
  zm_s : zn_s g = zn_s h;
  zm_q : zn_q g = zn_q h
}.

Lemma zsim_col mem m W g h n h' v : 0 < m -> m <= W -> zsim m W g h -> zn_calc_column mem h n = Ok (h', v) ->
  m <= length (rb_view (ch_qbuf (zn_c g))) -> exists g', zn_calc_column mem g n = Ok (g', v) /\ zsim m W g' h'.
Proof.
  intros Hm HW [Zc Zn Zs Zq] E HQ. unfold zn_calc_column in *.
  assert (Qe : ch_query (zn_c g) = ch_query (zn_c h)) by (unfold ch_query; rewrite (proj1 (cs_self Zc)), (proj2 (cs_self Zc)); apply (cs_qq Zc)).
  assert (Me : ch_m (zn_c g) = ch_m (zn_c h)) by (destruct (cs_m Zc); congruence).
  assert (Ze : zn_qstats g = zn_qstats h) by (unfold zn_qstats; rewrite (proj1 (cs_self Zc)), (proj2 (cs_self Zc)); exact Zq).
  rewrite Qe, Me, Ze, Zs, Zn, Zq. destruct (_ <? _); [discriminate|].
  apply bind_ok in E as (r & Er & E). destruct (csim_col mem n Hm HW Zc Er HQ) as (c' & Ec' & Sc'). rewrite Ec'. cbn [bind fst snd].
  apply bind_ok in E as (mu & Emu & E). rewrite Emu. cbn [bind]. apply bind_ok in E as (sd & Esd & E). rewrite Esd. cbn [bind].
  apply bind_ok in E as (nz & Enz & E). rewrite Enz. cbn [bind]. apply bind_ok in E as (sq & Esq & E). rewrite Esq. cbn [bind].
  destruct (_ =? _); [|discriminate]. injection E as <- <-. eexists. split; [reflexivity|]. constructor; auto.
Qed.
Lemma zsim_diag m W g h d h' v : zsim m W g h -> zn_calc_diagonal h d = Ok (h', v) -> zn_calc_diagonal g d = Ok (g, v) /\ h' = h.
Proof.
  intros [Zc Zn Zs Zq] E. unfold zn_calc_diagonal in *.
  assert (Qe : ch_query (zn_c g) = ch_query (zn_c h)) by (unfold ch_query; rewrite (proj1 (cs_self Zc)), (proj2 (cs_self Zc)); apply (cs_qq Zc)).
  assert (Me : ch_m (zn_c g) = ch_m (zn_c h)) by (destruct (cs_m Zc); congruence).
  assert (Ze : zn_qstats g = zn_qstats h) by (unfold zn_qstats; rewrite (proj1 (cs_self Zc)), (proj2 (cs_self Zc)); exact Zq).
  rewrite Qe, Me, Ze, Zs, Zn, (cs_ss Zc). destruct (_ <? 0)%Z; [discriminate|].
  apply bind_ok in E as (p & Ep & E). rewrite Ep. cbn [bind]. apply bind_ok in E as (dp & Ed & E). rewrite Ed. cbn [bind].
  apply bind_ok in E as (sq & Esq & E). rewrite Esq. cbn [bind]. apply bind_ok in E as (ss & Ess & E). rewrite Ess. cbn [bind].
  destruct (_ =? _); [|discriminate]. injection E as <- <-. auto.
Qed.
Lemma zsim_single m W g h r c dp : zsim m W g h -> zn_calc_single g r c dp = zn_calc_single h r c dp.
Proof.
  intros [Zc Zn Zs Zq]. unfold zn_calc_single.
  assert (Qe : ch_query (zn_c g) = ch_query (zn_c h)) by (unfold ch_query; rewrite (proj1 (cs_self Zc)), (proj2 (cs_self Zc)); apply (cs_qq Zc)).
  assert (Me : ch_m (zn_c g) = ch_m (zn_c h)) by (destruct (cs_m Zc); congruence).
  assert (Ze : zn_qstats g = zn_qstats h) by (unfold zn_qstats; rewrite (proj1 (cs_self Zc)), (proj2 (cs_self Zc)); exact Zq).
  rewrite Qe, Me, Ze, Zs, Zn, (cs_ss Zc). reflexivity.
Qed.
Lemma zsim_s m W g h xs h' : zsim m W g h -> zn_append_series h xs = Ok h' -> exists g', zn_append_series g xs = Ok g' /\ zsim m W g' h'.
Proof.
  intros Z E. pose proof Z as [Zc Zn Zs Zq]. unfold zn_append_series in *. destruct (_ =? 0); [injection E as <-; eauto|].
  apply bind_ok in E as (hc & Ec & E). destruct (csim_append_s xs Zc Ec) as (c' & Ec' & Sc). rewrite Ec'. cbn [bind].
  apply bind_ok in E as (z & Ez & E). injection E as <-. rewrite (cs_ss Sc), Zs, (proj1 (cs_m Sc)). rewrite (proj2 (cs_m Sc)) in Ez. rewrite Ez. cbn [bind].
  eexists. split; [reflexivity|]. constructor; auto.
Qed.
Lemma zsim_q m W g h xs h' : zsim m W g h -> zn_append_query h xs = Ok h' -> exists g', zn_append_query g xs = Ok g' /\ zsim m W g' h'.
Proof.
  intros Z E. pose proof Z as [Zc Zn Zs Zq]. unfold zn_append_query in *. rewrite (proj1 (cs_self Zc)). rewrite (proj2 (cs_self Zc)) in E.
  destruct (_ =? 0); [injection E as <-; eauto|].
  apply bind_ok in E as (hc & Ec & E). destruct (csim_append_q xs Zc Ec) as (c' & Ec' & Sc). rewrite Ec'. cbn [bind].
  apply bind_ok in E as (z & Ez & E). injection E as <-. rewrite (cs_qq Sc), Zq, (proj1 (cs_m Sc)). rewrite (proj2 (cs_m Sc)) in Ez. rewrite Ez. cbn [bind].
  eexists. split; [reflexivity|]. constructor; auto.
Qed.

Lemma col_len mem (c : @cache R) n r : cache_col dot_products fmul mem c n = Ok r -> 1 <= length (snd r).
Proof.
  unfold cache_col. intro E. apply bind_ok in E as (((fr & bl) & vv) & E1 & E). injection E as <-. cbn [snd]. destruct (_ || _).
  - apply bind_ok in E1 as (w & Ew & E1). injection E1 as _ _ <-. unfold dot_products, convolve_valid in Ew. destruct (_ =? 0); [discriminate|]. injection Ew as <-.
    rewrite map_length, seq_length. lia.
  - do 7 (apply bind_ok in E1 as (? & _ & E1)). apply bind_ok in E1 as (v4 & Ev4 & E1). injection E1 as _ _ <-. apply setitem_len in Ev4 as (-> & L). exact L.
Qed.
Lemma zsim_column mem m W g h n h' v : 0 < m -> m <= W -> zsim m W g h -> zn_calc_column mem h n = Ok (h', v) ->
  exists g', zn_calc_column mem g n = Ok (g', v) /\ zsim m W g' h'.
Proof.
  intros Hm HW Z E. eapply zsim_col; eauto. unfold zn_calc_column in E. destruct (_ <? _); [discriminate|].
  apply bind_ok in E as (r & Er & E). do 4 (apply bind_ok in E as (? & _ & E)). destruct (Nat.eqb_spec (length (snd r)) (length (rb_view (ch_query (zn_c h))) + 1 - ch_m (zn_c h))) as [L|]; [|discriminate].
  apply col_len in Er. unfold ch_query in L. destruct (zm_c Z) as [(_ & M2) (_ & S2) _ _ _ Eq _ _ _ _]. rewrite S2, M2 in L. rewrite Eq. lia.
Qed.
Lemma zsim_run mem m W H : 0 < m -> m <= W -> forall g h h', zsim m W g h -> zn_run mem h H = Ok h' -> exists g', zn_run mem g H = Ok g' /\ zsim m W g' h'.
Proof.
  intros Hm HW. unfold zn_run, grun. induction H as [|o H IH]; intros g h h' Z E; cbn [foldM] in *.
  - injection E as <-. eauto.
  - apply bind_ok in E as (h1 & E1 & E2).
    assert (K : exists g1, gstep (zn_calc_column mem) (@zn_calc_diagonal R NumR) zn_append_series zn_append_query g o = Ok g1 /\ zsim m W g1 h1).
    { destruct o as [xs|xs|c|d]; cbn [gstep] in *.
      - eapply zsim_s; eauto.
      - eapply zsim_q; eauto.
      - apply bind_ok in E1 as ((h2 & v) & E1 & E3). injection E3 as <-. destruct (@zsim_column mem m W g h c h2 v Hm HW Z E1) as (g2 & G1 & G2). rewrite G1. cbn [bind fst]. eauto.
      - apply bind_ok in E1 as ((h2 & v) & E1 & E3). injection E3 as <-. destruct (zsim_diag _ Z E1) as (G1 & ->). rewrite G1. cbn [bind fst]. eauto. }
    destruct K as (g1 & G1 & G2). rewrite G1. cbn [bind]. eapply IH; eauto.
Qed.

(** Enough accepted points: the caches are out of date and known to be *)
Lemma healed_fixed (mem : nat -> num R) noise m W Wq now0 Qp t g : 0 < m -> m <= W -> m <= Wq -> length now0 <= W -> 2 * W <= length t ->
  zfmend noise m W Wq now0 (lastn Wq Qp) t g ->
  exists h, zsim m W g h /\ state_after false W Wq (ZInv noise m W Wq false) [CSeries t; CQuery Qp] h.
Proof.
  intros Hm HW HWq L0 Lt [Zm Zself Zn Zs Zq Zqs Zf Zp Zb]. set (Q := lastn Wq Qp) in *.
  assert (Lt' : W < length t) by lia. destruct (mended Hm HW Lt' Zs) as (A1 & A2). set (S := lastn W t) in *.
  assert (LS : length S = W) by (unfold S; rewrite length_lastn; lia).
  set (v0 := map (fun i => psum Rmult (sub m S i) (sub m Q 0)) (seq 0 (W + 1 - m))).
  destruct (@win_new _ mem (fin v0) (W + 1 - m) 2) as (b0 & _ & Wb0); [discriminate|discriminate|lia|unfold v0; rewrite !map_length, seq_length; lia|].
  set (c := zn_c g) in *.
  set (hc := mkCache m false (ch_series c) (ch_qbuf c) (match ch_first c with Some _ => Some b0 | None => None end) (ch_backlog c) None (ch_vals c)).
  exists (mkZn hc (zn_noise g) (zn_s g) (zn_q g)). split.
  - constructor; cbn [zn_c zn_noise zn_s zn_q]; auto. fold c. constructor; unfold hc; cbn [ch_m ch_self ch_series ch_qbuf ch_first ch_backlog ch_prev ch_vals]; auto; eauto.
    + destruct (ch_prev c) as [p|]; [|auto]. right. split; [reflexivity|]. exists p. split; [reflexivity|]. specialize (Zp _ eq_refl). lia.
    + destruct (ch_first c) as [b|]; [|exact I]. destruct (Zf _ eq_refl) as (F1 & x & F2).
      pose proof Zq as (_ & _ & _ & -> & _). pose proof A1 as (_ & _ & _ & -> & _). rewrite !map_length. split; [exact F1|].
      exists x, (fin v0). split; [exact F2|]. split; [exact Wb0|]. right. split; lia.
  - unfold state_after. cbn zeta.
    assert (Ew : wS W [CSeries t; CQuery Qp] = S) by (unfold wS, s_points; cbn [flat_map]; rewrite !app_nil_r; reflexivity).
    assert (Eq : wQ false W Wq [CSeries t; CQuery Qp] = Q) by (unfold wQ, q_points; cbn [flat_map app]; rewrite ?app_nil_r; reflexivity).
    rewrite Ew, Eq. constructor; cbn [zn_c zn_noise zn_s zn_q]; auto. unfold hc.
    constructor; cbn [ch_m ch_self ch_series ch_qbuf ch_first ch_backlog ch_prev ch_vals]; auto; try discriminate.
    intros b Eb. destruct (ch_first c) as [b'|]; [|discriminate]. injection Eb as <-. destruct (Zf _ eq_refl) as (F1 & _).
    exists S, (repeat 0%R (ch_backlog c - W) ++ S), v0. rewrite app_length, repeat_length, LS. split; [lia|]. split; [lia|]. split.
    { rewrite app_assoc, lastn_app_r by lia. rewrite lastn_all by lia. reflexivity. }
    split; [exact F1|]. split; [exact Wb0|]. split; [unfold v0; rewrite map_length, seq_length; lia|].
    intros i Hi. unfold v0, EZ. rewrite nth_indep with (d' := psum Rmult (sub m S 0) (sub m Q 0)) by (rewrite map_length, seq_length; lia).
    rewrite (map_nth (fun i => psum Rmult (sub m S i) (sub m Q 0))), seq_nth by lia. cbn [Nat.add]. lra.
Qed.
