(** * PStaleColumn: columns calculated with the statistics held *)
From Coq Require Import QArith Reals Lra.
From Verif Require Import Np NpFacts MRing PRing MUtil MArith MStats MCache MZnorm MRejected SReal SCalc SGen SStale PArith PStats PCache PGenRun PSort PDiagonal PZdist PZnorm PRejected PStaleRun SRejectJoin PRejectJoin SStaleStats PStaleStats.
Set Implicit Arguments.
Open Scope nat_scope.

(** ** Without columns there is nothing in the caches *)
Definition uncached (g : @zn R) : Prop := ch_first (zn_c g) = None /\ ch_prev (zn_c g) = None.

Lemma uncached_s g xs : uncached g -> uncached (fst (zn_append_series_st g xs)).
Proof.
  intros [U1 U2]. unfold zn_append_series_st. destruct (_ =? 0); [split; assumption|]. unfold cache_append_s. destruct (rb_push _ _) as [r|]; [|split; assumption]. cbn [bind].
  destruct (zstats_append _ _ _ _); cbn [fst]; [|split; cbn [zn_c ch_first ch_prev]; assumption].
  split; cbn [zn_c]; destruct (ch_self (zn_c g)); cbn [ch_first ch_prev]; rewrite ?U1, ?U2; try reflexivity. destruct (_ =? 0); reflexivity.
Qed.
Lemma uncached_q g xs : uncached g -> uncached (fst (zn_append_query_st g xs)).
Proof.
  intros [U1 U2]. unfold zn_append_query_st. destruct (ch_self (zn_c g)); [split; assumption|]. destruct (_ =? 0); [split; assumption|]. unfold cache_append_q.
  destruct (rb_push _ _) as [r|]; [|split; assumption]. cbn [bind].
  destruct (zstats_append _ _ _ _); cbn [fst]; split; cbn [zn_c ch_first ch_prev]; rewrite ?U1; try reflexivity; destruct (_ =? 0); reflexivity.
Qed.
Lemma uncached_run mem H : no_column H -> forall g g', uncached g -> foldM (zn_caught mem) H g = Ok g' -> uncached g'.
Proof.
  induction 1 as [|o H Ho _ IH]; intros g g' U E; cbn [foldM] in E; [injection E as <-; exact U|]. apply bind_ok in E as (g1 & E1 & E2). destruct o as [xs|xs|c|d]; cbn [zn_caught] in E1.
  - injection E1 as <-. eapply IH; [|exact E2]. apply uncached_s, U.
  - injection E1 as <-. eapply IH; [|exact E2]. apply uncached_q, U.
  - destruct Ho.
  - apply bind_ok in E1 as (r & E1 & E3). injection E3 as <-. eapply IH; [|exact E2]. unfold zn_calc_diagonal in E1. destruct (_ <? 0)%Z; [discriminate|].
    do 4 (apply bind_ok in E1 as (? & _ & E1)). destruct (_ =? _); [|discriminate]. injection E1 as <-. exact U.
Qed.
Lemma uncached_start (mem : nat -> num R) (memb : nat -> bool) noise sf m W Wq self g0 : zn_prepare_streaming mem memb (Fin noise) sf m W (if self : bool then None else Some Wq) = Ok g0 -> uncached g0.
Proof.
  unfold zn_prepare_streaming, zn_empty. intro E. apply bind_ok in E as (? & _ & E).
  destruct self; repeat (apply bind_ok in E as (? & _ & E)); injection E as <-; split; reflexivity.
Qed.

(** ** Columns *)
Lemma held_all (l : list (list R)) n :
  stats_of n (map (fun x => Fin (mean x)) l) (map (fun x => Fin (std x)) l) (map uneven l) = if length l =? n then Ok (map stat_of l) else Err IndexError.
Proof.
  unfold stats_of. rewrite !map_length. destruct (length l =? n); [|reflexivity]. cbn [andb]. apply f_equal.
  induction l as [|a l IH]; [reflexivity|]. cbn [map combine]. exact (f_equal (cons _) IH).
Qed.

Lemma views_column mem noise m W Wq self S Q ss sq u last g c : 0 < m -> zviews noise m (fin S) (fin Q) ss sq g -> cinv Rmult EZ m W Wq self true u S Q last (zn_c g) ->
  c + m <= length S -> m <= length Q ->
  if (c <? length ss) && (length sq =? length Q + 1 - m)
  then exists g' last', zn_calc_column mem g c = Ok (g', off_col noise m S Q ss sq c) /\ zviews noise m (fin S) (fin Q) ss sq g' /\ cinv Rmult EZ m W Wq self true true S Q last' (zn_c g')
  else zn_calc_column mem g c = Err IndexError.
Proof.
  intros Hm V I Hc HQ. pose proof V as [Vm Vn Vps Vpq (V1 & V2 & V3) (V4 & V5 & V6) Ls Lq]. unfold zn_calc_column. rewrite Vpq, Vm, map_length.
  destruct (Nat.ltb_spec (length Q + 1) m); [lia|].
  destruct (@cinv_col dot_products fmul mem Rmult EZ okz m Hm Rmult_sym (fun _ _ H => H) fmul_fin (fun l y H1 H2 H3 => @dots_full m l y Hm H1 H2 H3)
      W Wq self true u S Q last (zn_c g) c I Hc HQ (fun _ _ _ _ => Logic.I) (or_introl eq_refl)) as (c' & vs & Eq & [Lv N] & I').
  rewrite Eq. cbn [bind fst snd]. rewrite V1, V2, V3, V4, V5, V6.
  destruct (Nat.ltb_spec c (length ss)) as [C|C]; cbn [andb].
  2: { rewrite getitem_none by lia. reflexivity. }
  rewrite (getitem_map (fun x => Fin (mean x)) (@nil R)), (getitem_map (fun x => Fin (std x)) (@nil R)), (getitem_map uneven (@nil R)) by assumption. cbn [bind].
  rewrite held_all. destruct (Nat.eqb_spec (length sq) (length Q + 1 - m)) as [Lsq|Lsq]; [|reflexivity]. cbn [bind]. rewrite map_length, Lv, Nat.eqb_refl, Vn, fofZ_m.
  eexists. exists (Z.max last (Z.of_nat c)). split; [apply f_equal; apply f_equal2; [reflexivity|]|].
  - set (y := nth c ss []). change (Fin (mean y), Fin (std y), uneven y) with (stat_of y).
    unfold off_col. apply nth_error_ext. intro i. rewrite nth_error_zip_with, !nth_error_map, nth_error_seq.
    destruct (Nat.ltb_spec i (length Q + 1 - m)) as [Hi|Hi].
    + rewrite (nth_error_nth' vs 0%R), (nth_error_nth' sq []) by lia. cbn [option_map Nat.add]. f_equal. specialize (N i ltac:(lia)). unfold EZ in N.
      unfold off_cell. rewrite !Nat2Z.id. cbn zeta. fold y. set (x := nth i sq []).
      assert (L1 : length x = m) by (apply len_nth; [assumption|lia]). assert (L2 : length y = m) by (apply len_nth; [assumption|lia]).
      assert (Ev : nth i vs 0%R = (dotp x y + (dotp (sub m Q i) (sub m S c) - dotp x y))%R) by (unfold dotp at 2; lra). rewrite Ev.
      rewrite <- (@col_cell_off noise x y) by lia. rewrite L1. reflexivity.
    + destruct (nth_error vs i); [|reflexivity]. rewrite (proj2 (nth_error_None sq i)) by lia. reflexivity.
  - split; [|exact I'].
    assert (Ec : ch_m c' = m /\ rb_view (ch_series c') = fin S /\ rb_view (ch_query c') = fin Q /\ ch_self c' = self).
    { split; [exact (ci_m I')|]. split; [destruct (ci_s I') as (_ & _ & _ & K & _); exact K|]. split; [exact (ci_query I')|exact (ci_self I')]. }
    destruct Ec as (Ec1 & Ec2 & Ec3 & Ec4). pose proof (ci_self I) as Es.
    constructor; cbn [zn_c zn_noise zn_s zn_q]; auto. unfold zn_qstats in *. cbn [zn_c zn_s zn_q]. rewrite Ec4. rewrite Es in V4, V5, V6. auto.
Qed.

Lemma columns_run mem noise m W Wq self S Q ss sq cs : 0 < m -> m <= length Q -> Forall (fun c => c + m <= length S) cs -> forall u last g g', zviews noise m (fin S) (fin Q) ss sq g ->
  cinv Rmult EZ m W Wq self true u S Q last (zn_c g) -> foldM (zn_caught mem) (map (@CCol (num R)) cs) g = Ok g' ->
  zviews noise m (fin S) (fin Q) ss sq g' /\ exists u' last', cinv Rmult EZ m W Wq self true u' S Q last' (zn_c g').
Proof.
  intros Hm HQ. induction 1 as [|c cs Hc _ IH]; intros u last g g' V I E; cbn [map foldM] in E; [injection E as <-; eauto|].
  apply bind_ok in E as (g1 & E1 & E2). cbn [zn_caught] in E1. apply bind_ok in E1 as ((g2 & v) & E1 & E3). injection E3 as <-. cbn [fst] in E2.
  pose proof (@views_column mem noise m W Wq self S Q ss sq u last g c Hm V I Hc HQ) as K. destruct (_ && _); [|congruence].
  destruct K as (g3 & last' & K1 & K2 & K3). assert (g2 = g3) as -> by congruence. eapply IH; [exact K2|exact K3|exact E2].
Qed.

Lemma held_cinv noise m W Wq self pts ptsq subs subsq g S Q : m <= W -> zheld noise m W Wq self pts ptsq subs subsq g -> uncached g -> lastn W pts = fin S ->
  (if self then lastn W pts else lastn Wq ptsq) = fin Q -> cinv Rmult EZ m W Wq self true false S Q (-1) (zn_c g).
Proof.
  intros HW [Zm Zself Zn Zs Zq] [U1 U2] ES EQ. constructor; auto; try (intros; congruence).
  - rewrite <- ES. exact (proj1 Zs).
  - destruct self.
    + rewrite ES in EQ. rewrite <- (value_fin S), <- (value_fin Q), EQ. reflexivity.
    + rewrite <- EQ. exact (proj1 (Zq eq_refl)).
Qed.
