(** * PStaleStats: which statistics a z-normalised generator holds after any calls, and the cells it calculates with them *)
From Coq Require Import QArith Reals Lra.
From Verif Require Import Np NpFacts MRing PRing MUtil MArith MStats MCache MZnorm MRejected SReal SCalc SGen SStale PArith PStats PCache PGenRun PSort PDiagonal PZdist PZnorm PRejected PStaleRun SRejectJoin PRejectJoin SStaleStats.
Set Implicit Arguments.
Open Scope nat_scope.

Lemma final_lastn {T} n (l : list T) : final n l = lastn n l.
Proof. reflexivity. Qed.
Lemma value_fin l : map value (fin l) = l.
Proof. rewrite map_map. cbn [value]. apply map_id. Qed.

Lemma new_subs_eq m W pts xs : xs <> [] -> new_subs m W pts xs =
  let part := lastn (length xs + m - 1) (lastn W (pts ++ xs)) in if forallb isfinite part then map (sub m (map value part)) (seq 0 (length part + 1 - m)) else [].
Proof. intro H. unfold new_subs. rewrite !final_lastn. destruct xs; [congruence|reflexivity]. Qed.

(** ** One of the two series *)
Definition held (m N : nat) (pts : list (num R)) (subs : list (list R)) (b : rb (num R)) (z : @zstats R) : Prop :=
  win N (lastn N pts) b /\ win (N + 1 - m) (lastn (N + 1 - m) (map (fun x => Fin (mean x)) subs)) (zs_mu z) /\
  win (N + 1 - m) (lastn (N + 1 - m) (map (fun x => Fin (std x)) subs)) (zs_std z) /\ win (N + 1 - m) (lastn (N + 1 - m) (map uneven subs)) (zs_nz z).

Lemma held_append m N pts subs b z xs b' : 0 < m -> m <= N -> xs <> [] -> held m N pts subs b z -> win N (lastn N (pts ++ xs)) b' ->
  held m N (pts ++ xs) (subs ++ new_subs m N pts xs) b'
    match zstats_append m (rb_view b') (length xs) z with Ok z' => z' | Err _ => z end.
Proof.
  intros Hm HN Nx (Wn & Z1 & Z2 & Z3) Wb. pose proof Wb as (_ & _ & _ & Vc & _). rewrite Vc. unfold zstats_append. rewrite new_subs_eq by assumption. cbn zeta.
  assert (L : 0 < length xs) by (destruct xs; [congruence|cbn; lia]).
  set (part := lastn (length xs + m - 1) (lastn N (pts ++ xs))).
  assert (Lp : length part = Nat.min (length xs + m - 1) (length (lastn N (pts ++ xs)))) by (unfold part; rewrite length_lastn; reflexivity).
  destruct (Nat.leb_spec m (length (lastn N (pts ++ xs)))) as [C|C].
  - replace (- (Z.of_nat (length xs) + Z.of_nat m - 1))%Z with (- Z.of_nat (length xs + m - 1))%Z by lia. rewrite slice_from_neg by lia. fold part.
    destruct (forallb isfinite part) eqn:F.
    + destruct (finite_fin _ F) as (p & Ep). rewrite Ep in *. rewrite map_length in Lp. rewrite value_fin, map_length.
      destruct (sliding_fin p Hm ltac:(lia)) as [Es _]. rewrite Es. cbn [bind fst snd]. rewrite uneven_map.
      destruct (win_push (fin (windowed mean m p)) Z1) as (b1 & E1 & W1). destruct (win_push (fin (windowed std m p)) Z2) as (b2 & E2 & W2).
      destruct (win_push (windowed uneven m p) Z3) as (b3 & E3 & W3). rewrite E1. cbn [bind]. rewrite E2. cbn [bind]. rewrite E3. cbn [bind fst].
      rewrite lastn_app in W1. rewrite lastn_app in W2. rewrite lastn_app in W3. split; [exact Wb|]. cbn [zs_mu zs_std zs_nz]. rewrite !map_app, !map_map.
      unfold windowed in W1, W2, W3. rewrite map_map in W1, W2. auto.
    + unfold sliding_mean_std, sliding_mean_with. destruct (Z.leb_spec (Z.of_nat m) 0); [lia|]. rewrite F. cbn [negb bind]. rewrite app_nil_r. split; auto.
  - replace (length part + 1 - m) with 0 by lia. cbn [seq map]. replace (if forallb isfinite part then [] else []) with (@nil (list R)) by (destruct (forallb _ _); reflexivity).
    rewrite app_nil_r. split; auto.
Qed.

(** ** The generator *)
Record zheld (noise : R) (m W Wq : nat) (self : bool) (pts ptsq : list (num R)) (subs subsq : list (list R)) (g : @zn R) : Prop := {
  he_m : ch_m (zn_c g) = m;
  he_self : ch_self (zn_c g) = self;
  he_noise : zn_noise g = Fin noise;
  he_s : held m W pts subs (ch_series (zn_c g)) (zn_s g);
  he_q : self = false -> held m Wq ptsq subsq (ch_qbuf (zn_c g)) (zn_q g)
}.

Lemma zheld_s noise m W Wq self pts ptsq subs subsq g xs : 0 < m -> m <= W -> zheld noise m W Wq self pts ptsq subs subsq g ->
  zheld noise m W Wq self (pts ++ xs) ptsq (subs ++ new_subs m W pts xs) subsq (fst (zn_append_series_st g xs)).
Proof.
  intros Hm HW [Zm Zself Zn Zs Zq]. unfold zn_append_series_st. destruct (Nat.eqb_spec (length xs) 0) as [L|L].
  { destruct xs; [|discriminate]. unfold new_subs. rewrite !app_nil_r. constructor; auto. }
  assert (Nx : xs <> []) by (intros ->; cbn in L; lia).
  destruct (cache_append_s_parts _ xs (proj1 Zs)) as (c & Ec & Wc & Mc & Sc & _). rewrite Ec, Mc, Zm. rewrite lastn_app in Wc.
  assert (Qc : ch_qbuf c = ch_qbuf (zn_c g)).
  { unfold cache_append_s in Ec. apply bind_ok in Ec as (r & _ & Ec). injection Ec as <-. destruct (ch_self (zn_c g)); reflexivity. }
  pose proof (held_append Hm HW Nx Zs Wc) as K. destruct (zstats_append _ _ _ _) as [z|e].
  - constructor; cbn [fst zn_c zn_noise zn_s zn_q]; auto; try congruence. rewrite Qc. exact Zq.
  - constructor; cbn [fst zn_c zn_noise zn_s zn_q ch_m ch_self ch_series ch_qbuf]; auto.
Qed.
Lemma zheld_q noise m W Wq self pts ptsq subs subsq g xs : 0 < m -> (self = false -> m <= Wq) -> zheld noise m W Wq self pts ptsq subs subsq g ->
  zheld noise m W Wq self pts (ptsq ++ xs) subs (subsq ++ new_subs m Wq ptsq xs) (fst (zn_append_query_st g xs)).
Proof.
  intros Hm HW [Zm Zself Zn Zs Zq]. unfold zn_append_query_st. rewrite Zself. destruct self.
  { constructor; auto. discriminate. }
  destruct (Nat.eqb_spec (length xs) 0) as [L|L].
  { destruct xs; [|discriminate]. unfold new_subs. rewrite !app_nil_r. constructor; auto. }
  assert (Nx : xs <> []) by (intros ->; cbn in L; lia). specialize (Zq eq_refl). specialize (HW eq_refl).
  destruct (join_append_q _ xs (proj1 Zq)) as (c & Ec & Wc & Mc & Sc & Qc & _). rewrite Ec, Mc, Zm. rewrite lastn_app in Wc.
  pose proof (held_append Hm HW Nx Zq Wc) as K. destruct (zstats_append _ _ _ _) as [z|e].
  - constructor; cbn [fst zn_c zn_noise zn_s zn_q]; auto; try congruence.
  - constructor; cbn [fst zn_c zn_noise zn_s zn_q]; auto; try congruence.
Qed.

Lemma zheld_run mem noise m W Wq self H : 0 < m -> m <= W -> (self = false -> m <= Wq) -> forall pts ptsq subs subsq g g', zheld noise m W Wq self pts ptsq subs subsq g ->
  foldM (zn_caught mem) H g = Ok g' ->
  zheld noise m W Wq self (pts ++ s_points H) (ptsq ++ q_points H) (subs ++ all_subs m W pts (s_chunks H)) (subsq ++ all_subs m Wq ptsq (q_chunks H)) g'.
Proof.
  intros Hm HW HWq. induction H as [|o H IH]; intros pts ptsq subs subsq g g' I E; cbn [foldM] in E.
  - injection E as <-. cbn. rewrite !app_nil_r. exact I.
  - apply bind_ok in E as (g1 & E1 & E2). unfold s_points, q_points, s_chunks, q_chunks. cbn [flat_map].
    fold (s_points H) (q_points H) (s_chunks H) (q_chunks H). destruct o as [xs|xs|c|d]; cbn [zn_caught] in E1; cbn [app all_subs].
    + injection E1 as <-. apply (zheld_s xs Hm HW) in I. specialize (IH _ _ _ _ _ _ I E2). rewrite <- !app_assoc in IH. exact IH.
    + injection E1 as <-. apply (zheld_q xs Hm HWq) in I. specialize (IH _ _ _ _ _ _ I E2). rewrite <- !app_assoc in IH. exact IH.
    + apply bind_ok in E1 as (r & E1 & E3). injection E3 as <-. eapply IH; [|exact E2]. destruct I as [Zm Zself Zn Zs Zq].
      unfold zn_calc_column in E1. destruct (_ <? _); [discriminate|]. apply bind_ok in E1 as (r' & Er & E1). do 4 (apply bind_ok in E1 as (? & _ & E1)).
      destruct (_ =? _); [|discriminate]. injection E1 as <-. cbn [fst].
      unfold cache_col in Er. apply bind_ok in Er as (((a & b) & v) & _ & Er). injection Er as <-. constructor; auto.
    + apply bind_ok in E1 as (r & E1 & E3). injection E3 as <-. eapply IH; [|exact E2]. unfold zn_calc_diagonal in E1. destruct (_ <? 0)%Z; [discriminate|].
      do 4 (apply bind_ok in E1 as (? & _ & E1)). destruct (_ =? _); [|discriminate]. injection E1 as <-. exact I.
Qed.

Lemma zheld_start mem memb noise sf m W Wq self : 0 < m -> m <= W -> (self = false -> m <= Wq) -> (1 <= sf)%Q -> (sf <= 2)%Q -> (0 <= noise)%R ->
  exists g0, zn_prepare_streaming mem memb (Fin noise) sf m W (if self then None else Some Wq) = Ok g0 /\ zheld noise m W Wq self [] [] [] [] g0.
Proof.
  intros Hm HW HWq S1 S2 Hn. destruct (@zn_streaming_state mem memb noise m W Wq self Hm HWq sf Hn S1 S2 HW) as (g0 & E0 & I0).
  exists g0. split; [exact E0|]. unfold state_after in I0. cbn zeta in I0. destruct I0 as [I1 I2 (I3 & I4 & I5) I6].
  assert (E : forall U (st : list R -> U), windowed st m [] = []) by (intros; unfold windowed; cbn [length]; replace (0 + 1 - m) with 0 by lia; reflexivity).
  change (wS W []) with (@nil R) in *. rewrite E in I3, I4, I5.
  constructor; auto; [apply (ci_m I1)|apply (ci_self I1)| |].
  - split; [exact (ci_s I1)|]. auto.
  - intros Es. destruct (I6 Es) as (J3 & J4 & J5). pose proof (ci_q I1) as Q0. rewrite Es in Q0. unfold wQ in *. rewrite Es in *.
    change (lastn Wq (q_points (@nil (gcall R)))) with (@nil R) in *. rewrite E in J3, J4, J5. split; [exact Q0|]. auto.
Qed.

(** ** Cells calculated with the statistics of [x] and [y] and any dot product *)
Lemma single_off noise m x y d : length x = m -> length y = m -> 0 < m ->
  (if fleb (Fin (std x)) THRESHOLD && fleb (Fin (std y)) THRESHOLD then Ok fzero
   else do d0 <- (if fleb (Fin (std x)) THRESHOLD || fleb (Fin (std y)) THRESHOLD then Ok (fofZ (Z.of_nat m))
                  else Ok (formula (fofZ (Z.of_nat m)) (Fin (dotp x y + d)%R) (Fin (mean x)) (Fin (mean y)) (Fin (std x)) (Fin (std y))));
        let d0 := if negb (feqb (Fin noise) fzero) then fsub d0 (correction (fofZ (Z.of_nat m)) (Fin noise) (Fin (std y)) (Fin (std x))) else d0 in
        Ok (if fltb d0 EPS then fzero else froot d0)) = Ok (Fin (zdist_off noise d x y)).
Proof.
  intros Lx Ly Hm. rewrite !fleb_thr, fofZ_m, noise_zero. unfold zdist_off, zsq. fold eps12. rewrite Lx.
  destruct (uneven x) eqn:Ux; destruct (uneven y) eqn:Uy; cbn [negb andb orb bind].
  - apply uneven_std in Ux, Uy. rewrite <- Lx, formula_off by (congruence || lia || assumption).
    destruct (Req_EM_T noise 0) as [->|Hn]; cbn [negb];
      rewrite ?correction_fin by (auto using Rmax_pos_l, Rmax_pos_r); cbn [fsub nsub NumR]; rewrite ?no_noise, ?Rminus_0_r, single_clip;
      match goal with |- Ok (Fin (if Rltb ?v _ then _ else _)) = Ok (Fin (if Rltb ?w _ then _ else _)) => replace w with v by lra end; reflexivity.
  - apply uneven_std in Ux. rewrite <- Lx. rewrite !Rminus_0_r. destruct (Req_EM_T noise 0) as [->|Hn]; cbn [negb];
      rewrite ?correction_fin by (auto using Rmax_pos_l, Rmax_pos_r); cbn [fsub nsub NumR]; rewrite ?no_noise, ?Rminus_0_r, single_clip; reflexivity.
  - apply uneven_std in Uy. rewrite <- Lx. rewrite !Rminus_0_r. destruct (Req_EM_T noise 0) as [->|Hn]; cbn [negb];
      rewrite ?correction_fin by (auto using Rmax_pos_l, Rmax_pos_r); cbn [fsub nsub NumR]; rewrite ?no_noise, ?Rminus_0_r, single_clip; reflexivity.
  - pose proof eps12_pos. rewrite !Rminus_0_r. destruct (Rltb_spec 0 eps12); [reflexivity|lra].
Qed.
Lemma diag_cell_off noise x y d : length x = length y -> (0 < length x)%nat ->
  diag_cell (Fin (INR (length x))) (Fin noise) (Fin (dotp x y + d)%R) (stat_of x) (stat_of y) = Fin (zdist_off noise d x y).
Proof.
  intros L H. unfold diag_cell, stat_of, zdist_off, zsq. fold eps12. rewrite noise_zero.
  destruct (uneven x) eqn:Ux; destruct (uneven y) eqn:Uy; cbn [xorb andb orb]; unfold fzero; cbn [nzero NumR];
    try apply uneven_std in Ux; try apply uneven_std in Uy;
    rewrite ?formula_off by assumption;
    destruct (Req_EM_T noise 0) as [->|Hn]; cbn [negb];
    rewrite ?correction_fin by (auto using Rmax_pos_l, Rmax_pos_r); cbn [fsub nsub NumR]; rewrite ?no_noise, ?Rminus_0_r;
    match goal with |- context [fltb (Fin ?v) EPS] => match goal with |- _ = Fin (if Rltb ?w _ then _ else _) => replace w with v by lra end end; apply root_clip.
Qed.

Lemma new_subs_len m W pts xs : 0 < m -> Forall (fun x => length x = m) (new_subs m W pts xs).
Proof.
  intro Hm. destruct xs as [|x0 xs0] eqn:E; [constructor|]. rewrite <- E. rewrite new_subs_eq by (rewrite E; discriminate). cbn zeta.
  set (part := lastn _ _). destruct (forallb isfinite part); [|constructor]. rewrite Forall_map. apply Forall_forall. intros i Hi. apply in_seq in Hi.
  rewrite length_sub, map_length; lia.
Qed.
Lemma all_subs_len m W chunks : 0 < m -> forall pts, Forall (fun x => length x = m) (all_subs m W pts chunks).
Proof.
  intro Hm. induction chunks as [|xs chunks IH]; intro pts; cbn [all_subs]; [constructor|]. apply Forall_app. split; [apply new_subs_len, Hm|apply IH].
Qed.
Lemma Forall_lastn {T} (P : T -> Prop) n l : Forall P l -> Forall P (lastn n l).
Proof. intro H. rewrite Forall_forall in *. intros x Hx. apply H. unfold lastn in Hx. rewrite <- (firstn_skipn (length l - n) l). apply in_or_app. right. exact Hx. Qed.

(** ** What the generator holds, as views *)
Record zviews (noise : R) (m : nat) (ps pq : list (num R)) (ss sq : list (list R)) (g : @zn R) : Prop := {
  zv_m : ch_m (zn_c g) = m;
  zv_noise : zn_noise g = Fin noise;
  zv_ps : rb_view (ch_series (zn_c g)) = ps;
  zv_pq : rb_view (ch_query (zn_c g)) = pq;
  zv_s : rb_view (zs_mu (zn_s g)) = map (fun x => Fin (mean x)) ss /\ rb_view (zs_std (zn_s g)) = map (fun x => Fin (std x)) ss /\ rb_view (zs_nz (zn_s g)) = map uneven ss;
  zv_q : rb_view (zs_mu (zn_qstats g)) = map (fun x => Fin (mean x)) sq /\ rb_view (zs_std (zn_qstats g)) = map (fun x => Fin (std x)) sq /\
         rb_view (zs_nz (zn_qstats g)) = map uneven sq;
  zv_ls : Forall (fun x => length x = m) ss;
  zv_lq : Forall (fun x => length x = m) sq
}.

Lemma zheld_views noise m W Wq self pts ptsq subs subsq g : 0 < m -> Forall (fun x => length x = m) subs -> Forall (fun x => length x = m) subsq ->
  zheld noise m W Wq self pts ptsq subs subsq g ->
  zviews noise m (lastn W pts) (if self then lastn W pts else lastn Wq ptsq) (lastn (W + 1 - m) subs) (if self then lastn (W + 1 - m) subs else lastn (Wq + 1 - m) subsq) g.
Proof.
  intros Hm F1 F2 [Zm Zself Zn (Z1 & Z2 & Z3 & Z4) Zq]. destruct Z1 as (_ & _ & _ & V1 & _), Z2 as (_ & _ & _ & V2 & _), Z3 as (_ & _ & _ & V3 & _), Z4 as (_ & _ & _ & V4 & _).
  rewrite !lastn_map in *. destruct self.
  - constructor; unfold ch_query, zn_qstats; rewrite ?Zself; auto using Forall_lastn.
  - destruct (Zq eq_refl) as (Z5 & Z6 & Z7 & Z8). destruct Z5 as (_ & _ & _ & V5 & _), Z6 as (_ & _ & _ & V6 & _), Z7 as (_ & _ & _ & V7 & _), Z8 as (_ & _ & _ & V8 & _).
    rewrite !lastn_map in *. constructor; unfold ch_query, zn_qstats; rewrite ?Zself; auto using Forall_lastn.
Qed.

Lemma getitem_map {T U} (f : T -> U) (d : T) l i : i < length l -> getitem (map f l) i = Ok (f (nth i l d)).
Proof. intro H. unfold getitem. rewrite nth_error_map, (nth_error_nth' l d) by exact H. reflexivity. Qed.
Lemma getitem_none {T U} (f : T -> U) l i : length l <= i -> getitem (map f l) i = Err IndexError.
Proof. intro H. unfold getitem. rewrite nth_error_map. apply nth_error_None in H. rewrite H. reflexivity. Qed.
Lemma len_nth m (l : list (list R)) i : Forall (fun x => length x = m) l -> i < length l -> length (nth i l []) = m.
Proof. intros F H. rewrite Forall_forall in F. apply F, nth_In, H. Qed.

Lemma views_single noise m ps pq ss sq g r c dp a b : 0 < m -> zviews noise m ps pq ss sq g -> length a = m -> length b = m -> sub m pq r = fin a -> sub m ps c = fin b ->
  (dp = None \/ dp = Some (Fin (dotp a b))) -> r < length sq -> c < length ss ->
  let x := nth r sq [] in let y := nth c ss [] in zn_calc_single g r c dp = Ok (Fin (zdist_off noise (dotp a b - dotp x y) x y)).
Proof.
  intros Hm [Vm Vn Vps Vpq (V1 & V2 & V3) (V4 & V5 & V6) Ls Lq] La Lb Ea Eb Hdp Hr Hc x y. unfold zn_calc_single.
  rewrite Vps, Vpq, Vm, Vn, V1, V2, V4, V5. rewrite !(@getitem_map _ _ _ (@nil R)) by assumption. cbn [bind]. fold x y.
  rewrite !lslice_sub, Ea, Eb, bop_eq by (rewrite !map_length; lia). cbn [bind].
  rewrite zip_with_map. replace (fsum (zip_with (fun x y => fmul (Fin x) (Fin y)) a b)) with (Fin (dotp a b)).
  2: { change (Fin (dotp a b)) with (Fin (rsum (zip_with Rmult a b))). rewrite <- fsum_fin, map_zip_with. reflexivity. }
  assert (Lx : length x = m) by (apply len_nth; assumption). assert (Ly : length y = m) by (apply len_nth; assumption).
  rewrite <- (@single_off noise m x y (dotp a b - dotp x y)%R Lx Ly Hm). replace (dotp x y + (dotp a b - dotp x y))%R with (dotp a b) by lra.
  assert (Hd : (if match dp with None => true | Some d => feqb d fzero end then Ok (Fin (dotp a b))
     else match dp with Some d => Ok d | None => Err RuntimeError end) = Ok (Fin (dotp a b))).
  { destruct Hdp as [->| ->]; [reflexivity|]. destruct (feqb (Fin (dotp a b)) fzero); reflexivity. }
  rewrite Hd. reflexivity.
Qed.
Lemma views_single_err noise m ps pq ss sq g r c dp : zviews noise m ps pq ss sq g -> length sq <= r \/ length ss <= c -> zn_calc_single g r c dp = Err IndexError.
Proof.
  intros [Vm Vn Vps Vpq (V1 & V2 & V3) (V4 & V5 & V6) Ls Lq] H. unfold zn_calc_single. rewrite V2, V5.
  destruct (Nat.ltb_spec r (length sq)).
  - rewrite (getitem_map _ (@nil R)) by assumption. cbn [bind]. rewrite getitem_none by lia. reflexivity.
  - rewrite getitem_none by lia. reflexivity.
Qed.

Lemma held_cut (l : list (list R)) o n : 0 < n ->
  stats_of n (sub n (map (fun x => Fin (mean x)) l) o) (sub n (map (fun x => Fin (std x)) l) o) (sub n (map uneven l) o) =
  if o + n <=? length l then Ok (map (fun j => stat_of (nth (o + j) l [])) (seq 0 n)) else Err IndexError.
Proof.
  intro Hn. unfold stats_of. rewrite !length_sub, !map_length. destruct (Nat.leb_spec (o + n) (length l)) as [H|H].
  - rewrite Nat.min_l by lia. rewrite Nat.eqb_refl. cbn [andb]. apply f_equal.
    assert (E : forall U (st : list R -> U), sub n (map st l) o = map (fun j => st (nth (o + j) l [])) (seq 0 n)).
    { intros U st. apply nth_error_ext. intro i. rewrite nth_error_sub, !nth_error_map, nth_error_seq.
      destruct (Nat.ltb_spec i n); [|reflexivity]. rewrite (nth_error_nth' l []) by lia. reflexivity. }
    rewrite !E. generalize (seq 0 n). intro k. induction k as [|a k IH]; [reflexivity|]. cbn [map combine]. exact (f_equal (cons _) IH).
  - destruct (Nat.eqb_spec (Nat.min n (length l - o)) n); [lia|reflexivity].
Qed.

Lemma views_diag noise m S Q ss sq g d : 0 < m -> zviews noise m (fin S) (fin Q) ss sq g -> has_diag m S Q d ->
  zn_calc_diagonal g d =
    let n := dlen (length Q + 1 - m) (length S + 1 - m) d in
    if (Z.max 0 (- d) + n <=? Z.of_nat (length sq))%Z && (Z.max 0 d + n <=? Z.of_nat (length ss))%Z
    then Ok (g, diag_of (off_cell noise m S Q ss sq) (length Q + 1 - m) (length S + 1 - m) d) else Err IndexError.
Proof.
  intros Hm [Vm Vn Vps Vpq (V1 & V2 & V3) (V4 & V5 & V6) Ls Lq] Hd. unfold zn_calc_diagonal. rewrite Vpq, Vps, Vm.
  destruct (@diag_align fmul Rmult m S Q d fmul_fin Hm Hd) as (E1' & E2 & E3 & E4 & E5 & E6 & E7).
  set (n := Z.to_nat (diag_length (Z.of_nat (length (fin Q))) (Z.of_nat (length (fin S))) d)) in *.
  set (a := Z.to_nat (Z.max 0 (- d))) in *. set (b := Z.to_nat (Z.max 0 d)) in *. rewrite E2, E1'.
  destruct (Z.ltb_spec (Z.of_nat n - Z.of_nat m + 1) 0); [lia|]. cbn [bind].
  pose proof (@window_sums (zip_with Rmult (sub n Q a) (sub n S b)) m Hm ltac:(lia)) as Ew.
  replace (Z.of_nat (length (fzero :: cumsum (fin (zip_with Rmult (sub n Q a) (sub n S b))))) - Z.of_nat m)%Z with (Z.of_nat n - Z.of_nat m + 1)%Z in Ew
    by (rewrite cumsum_fin, !map_length, seq_length, E6; lia).
  rewrite Ew, E6, diag_sums by assumption. cbn [bind].
  replace (if (0 <=? d)%Z then 0%Z else (- d)%Z) with (Z.of_nat a) by (unfold a; destruct (Z.leb_spec 0 d); lia).
  replace (if (0 <=? d)%Z then d else 0%Z) with (Z.of_nat b) by (unfold b; destruct (Z.leb_spec 0 d); lia).
  replace (Z.of_nat a + (Z.of_nat n - Z.of_nat m + 1))%Z with (Z.of_nat (a + (n + 1 - m))) by lia.
  replace (Z.of_nat b + (Z.of_nat n - Z.of_nat m + 1))%Z with (Z.of_nat (b + (n + 1 - m))) by lia.
  rewrite !slice_nat, !lslice_sub.
  replace (Z.to_nat (Z.of_nat n - Z.of_nat m + 1)) with (n + 1 - m) by lia. rewrite V1, V2, V3, V4, V5, V6.
  rewrite !held_cut by lia. cbn zeta. rewrite <- E7.
  replace (Z.max 0 (- d) + Z.of_nat (n + 1 - m) <=? Z.of_nat (length sq))%Z with (a + (n + 1 - m) <=? length sq)
    by (unfold a; destruct (Nat.leb_spec (Z.to_nat (Z.max 0 (- d)) + (n + 1 - m)) (length sq)); destruct (Z.leb_spec (Z.max 0 (- d) + Z.of_nat (n + 1 - m)) (Z.of_nat (length sq))); auto; lia).
  replace (Z.max 0 d + Z.of_nat (n + 1 - m) <=? Z.of_nat (length ss))%Z with (b + (n + 1 - m) <=? length ss)
    by (unfold b; destruct (Nat.leb_spec (Z.to_nat (Z.max 0 d) + (n + 1 - m)) (length ss)); destruct (Z.leb_spec (Z.max 0 d + Z.of_nat (n + 1 - m)) (Z.of_nat (length ss))); auto; lia).
  destruct (Nat.leb_spec (a + (n + 1 - m)) (length sq)) as [Hq|Hq]; [|reflexivity]. cbn [bind andb].
  destruct (Nat.leb_spec (b + (n + 1 - m)) (length ss)) as [Hs|Hs]; [|reflexivity]. cbn [bind].
  rewrite !map_length, seq_length, Nat.eqb_refl, Vn, fofZ_m.
  do 2 f_equal. unfold diag_of. rewrite <- E7, Nat2Z.id.
  apply nth_error_ext. intro i. rewrite nth_error_zip_with, !nth_error_map, nth_error_combine, !nth_error_map, nth_error_seq.
  destruct (Nat.ltb_spec i (n + 1 - m)); cbn [option_map]; [|reflexivity]. f_equal. cbn [fst snd Nat.add].
  unfold off_cell. rewrite !Z2Nat.inj_add, Nat2Z.id by lia. fold a b. cbn zeta.
  set (x := nth (a + i) sq []). set (y := nth (b + i) ss []).
  assert (L1 : length x = m) by (apply len_nth; [assumption|lia]). assert (L2 : length y = m) by (apply len_nth; [assumption|lia]).
  rewrite <- (@diag_cell_off noise x y) by lia. rewrite L1. do 2 f_equal. unfold dotp. lra.
Qed.
