(** * PBinaryZn: the z-normalised generator in binary64 and in rounded real arithmetic *)
From Coq Require Import QArith Reals Lia Lra.
From Flocq Require Import Core.
From Verif Require Import Np NpFacts MRing PRing MUtil MArith MStats MCache MZnorm SReal SRound SGen InstF PRoundGen PSim PFloat PBinary.
Set Implicit Arguments.
Open Scope nat_scope.
#[local] Existing Instance NB.

Definition zs_sim (z : @zstats f64) (z' : @zstats R) : Prop := rb_sim (rel 240) (zs_mu z) (zs_mu z') /\ rb_sim (rel 261) (zs_std z) (zs_std z') /\ rb_sim eq (zs_nz z) (zs_nz z').
Lemma sim_zs_append m view view' n z z' : all2 (rel 200) view view' -> (Z.of_nat m <= 2 ^ 40)%Z -> zs_sim z z' -> res_sim zs_sim (zstats_append m view n z) (zstats_append m view' n z').
Proof.
  intros HV Hm (Z1 & Z2 & Z3). unfold zstats_append. rewrite (all2_length HV). destruct (m <=? length view'); [|split; [exact Z1|split; assumption]].
  eapply bind_sim; [apply sim_sliding; [apply sim_slice_from, HV|exact Hm]|]. intros [mu sd] [mu' sd'] [H1 H2]. cbn [fst snd] in *.
  eapply bind_sim; [apply sim_push; [exact Z1|exact H1]|]. intros r1 r1' (S1 & _). eapply bind_sim; [apply sim_push; [exact Z2|exact H2]|]. intros r2 r2' (S2 & _).
  eapply bind_sim; [apply sim_push; [exact Z3|]|].
  - eapply sim_map; [|exact H2]. intros x y Hxy. exact (rel_ltb (@rel_neg10 6 ltac:(lia)) Hxy).
  - intros r3 r3' (S3 & _). cbn [res_sim]. split; [exact S1|]. split; [exact S2|exact S3].
Qed.

Definition sized (c : @cache f64) : Prop := (Z.of_nat (ch_m c) <= 2 ^ 40)%Z /\ (Z.of_nat (rb_max (ch_series c)) <= 2 ^ 40)%Z /\ (ch_self c = false -> (Z.of_nat (rb_max (ch_qbuf c)) <= 2 ^ 40)%Z).
Lemma sized_dims c s : same_dims c s -> sized c -> sized s.
Proof. intros (D1 & D2 & D3 & D4) (S1 & S2 & S3). unfold sized. rewrite D1, D2, D3, D4. auto. Qed.
(** After [N] columns *)
Definition zn_sim (N : Z) (g : @zn f64) (g' : @zn R) : Prop :=
  cache_sim (rel 200) (relz (2 ^ 40) 400) (relz (2 ^ 40 + 2 * N) 400) (zn_c g) (zn_c g') /\ sized (zn_c g) /\ rel 200 (zn_noise g) (zn_noise g') /\ zs_sim (zn_s g) (zn_s g') /\
  (ch_self (zn_c g) = false -> zs_sim (zn_q g) (zn_q g')) /\ zfin rnd64 g'.
Lemma rel_all_fin z k l l' : all2 (relz z k) l l' -> Forall isfin l'.
Proof. apply all2_right. intros. eapply rel_isfin; eassumption. Qed.
Lemma sim_zn_s N g g' d d' : zn_sim N g g' -> all2 (rel 200) d d' -> res_sim (zn_sim N) (zn_append_series g d) (zn_append_series g' d').
Proof.
  intros (C & SZ & HN & Zs & Zq & ZF) HD. eapply res_sim_and with (R := fun s s' => zfin rnd64 s' -> zn_sim N s s').
  - unfold zn_append_series. rewrite (all2_length HD). destruct (_ =? 0); [intros _; exact (conj C (conj SZ (conj HN (conj Zs (conj Zq ZF)))))|].
    eapply bind_sim; [eapply sim_append_s; [exact C|exact HD]|]. intros c c' [C' D]. pose proof C' as (M & _). rewrite <- M. pose proof (sized_dims D SZ) as SZ'. eapply bind_sim; [apply sim_zs_append; [eapply sim_series; exact C'|apply SZ'|exact Zs]|].
    intros zs zs' Hz. cbn [res_sim]. intro F. split; [exact C'|]. split; [exact SZ'|]. split; [exact HN|]. split; [exact Hz|]. split; [|exact F]. cbn [zn_c]. destruct D as (_ & -> & _). exact Zq.
  - intros s t _ E H. apply H. exact (zfin_append_series rnd64_sane ZF (rel_all_fin HD) E).
Qed.
Lemma sim_zn_q N g g' d d' : zn_sim N g g' -> all2 (rel 200) d d' -> res_sim (zn_sim N) (zn_append_query g d) (zn_append_query g' d').
Proof.
  intros (C & SZ & HN & Zs & Zq & ZF) HD. eapply res_sim_and with (R := fun s s' => zfin rnd64 s' -> zn_sim N s s').
  - unfold zn_append_query. pose proof C as (_ & Es & _). rewrite <- Es. destruct (ch_self (zn_c g)) eqn:Eg; [reflexivity|].
    rewrite (all2_length HD). destruct (_ =? 0); [intros F; split; [exact C|split; [exact SZ|split; [exact HN|split; [exact Zs|split; [intros _; apply Zq; reflexivity|exact F]]]]]|].
    eapply bind_sim; [eapply sim_append_q; [exact C|exact Eg|exact HD]|]. intros c c' [C' D]. pose proof C' as (M & _ & _ & _ & _ & HQ & _). rewrite <- M. pose proof (sized_dims D SZ) as SZ'.
    assert (Ec : ch_self c = false) by (destruct D as (_ & -> & _); exact Eg).
    eapply bind_sim; [apply sim_zs_append; [apply rb_sim_view, HQ, Ec|apply SZ'|apply Zq; reflexivity]|].
    intros zs zs' Hz. cbn [res_sim]. intro F. split; [exact C'|]. split; [exact SZ'|]. split; [exact HN|]. split; [exact Zs|]. split; [intros _; exact Hz|exact F].
  - intros s t _ E H. apply H. exact (zfin_append_query rnd64_sane ZF (rel_all_fin HD) E).
Qed.
Lemma sim_dots m a a' b b' : (Z.of_nat m <= 2 ^ 40)%Z -> all2 (rel 200) a a' -> all2 (rel 200) b b' -> length b <= m -> res_sim (all2 (relz (2 ^ 40) 400)) (dot_products a b) (dot_products a' b').
Proof.
  intros Hm HA HB Hb. unfold dot_products, convolve_valid. rewrite !rev_length, <- (all2_length HA), <- (all2_length HB). pose proof (sim_rev HB) as HR.
  assert (K : forall v v' k k', all2 (rel 200) v v' -> all2 (rel 200) k k' -> length k <= m ->
    res_sim (all2 (relz (2 ^ 40) 400)) (if length k =? 0 then Err ValueError else Ok (map (fun i => fdot (firstn (length k) (skipn i v)) (rev k)) (seq 0 (length v - length k + 1))))
      (if length k' =? 0 then Err ValueError else Ok (map (fun i => fdot (firstn (length k') (skipn i v')) (rev k')) (seq 0 (length v' - length k' + 1))))).
  { intros v v' k k' Hv Hk L. rewrite <- (all2_length Hk), <- (all2_length Hv). destruct (_ =? 0); [reflexivity|]. cbn [res_sim]. eapply sim_map; [|apply all2_same with (R := eq); reflexivity].
    intros i i' <-. eapply relz_le; [|apply (@relz_fdot 200 200); [unfold room; lia|apply sim_firstn, sim_skipn, Hv|apply sim_rev, Hk|]]; [|unfold short]; rewrite firstn_length; lia. }
  destruct (Nat.ltb_spec (length a) (length b)); apply K; try assumption; rewrite ?rev_length; lia.
Qed.
Lemma sim_stats_of n mu mu' sd sd' nz nz' : all2 (rel 240) mu mu' -> all2 (rel 261) sd sd' -> all2 eq nz nz' -> nz' = map (fltb THRESHOLD) sd' -> res_sim (all2 rstat) (stats_of n mu sd nz) (stats_of n mu' sd' nz').
Proof.
  intros H1 H2 H3 E. unfold stats_of. rewrite (all2_length H1), (all2_length H2), (all2_length H3). destruct (_ && _); [|reflexivity]. cbn [res_sim]. subst nz'. clear - H1 H2 H3.
  revert mu mu' H1 nz H3. induction H2 as [|s s' sd sd' Hs H2 IH]; intros mu mu' H1 nz H3; [destruct H1; constructor|]. destruct H1 as [|x x' mu mu' Hx H1]; [constructor|]. cbn [map] in H3. inversion H3; subst. cbn [combine]. constructor; [|apply IH; assumption].
  unfold rstat. cbn [fst snd]. auto.
Qed.
Lemma zs_sim_views z z' : zs_sim z z' -> all2 (rel 240) (rb_view (zs_mu z)) (rb_view (zs_mu z')) /\ all2 (rel 261) (rb_view (zs_std z)) (rb_view (zs_std z')) /\ all2 eq (rb_view (zs_nz z)) (rb_view (zs_nz z')).
Proof. intros (H1 & H2 & H3). repeat split; apply rb_sim_view; assumption. Qed.
Lemma zn_sim_q N g g' : zn_sim N g g' -> zs_sim (zn_qstats g) (zn_qstats g').
Proof. intros (C & _ & _ & Zs & Zq & _). pose proof C as (_ & Es & _). unfold zn_qstats. rewrite <- Es. destruct (ch_self (zn_c g)); [exact Zs|apply Zq; reflexivity]. Qed.
Lemma rel_m c c' N : cache_sim (rel 200) (relz (2 ^ 40) 400) (relz (2 ^ 40 + 2 * N) 400) c c' -> sized c -> rel 40 (fofZ (Z.of_nat (ch_m c))) (fofZ (Z.of_nat (ch_m c))).
Proof. intros (_ & _ & P & _) (S1 & _). eapply rel_ge_rel, (@rel_ofZ _ 40); lia. Qed.
Lemma bop_short {S T U} (f : S -> T -> U) a b l : bop f a b = Ok l -> short a -> short b -> short l.
Proof.
  unfold bop, short. intros E Ha Hb. destruct (_ =? _); [injection E as <-; pose proof (zip_short f a b); lia|].
  destruct a as [|x [|y a]]; [destruct b as [|z [|w b]]|..]; try discriminate; try (injection E as <-; rewrite ?map_length; assumption).
  destruct b as [|z [|w b]]; try discriminate. injection E as <-. cbn [length map]. rewrite map_length. cbn [length] in Ha. exact Ha.
Qed.
Lemma lslice_short {T} (l : list T) a b : short l -> short (lslice l a b).
Proof. unfold short, lslice. intro. rewrite firstn_length, skipn_length. lia. Qed.
Lemma slice_short {T} (l : list T) a b : short l -> short (slice l a b).
Proof. apply lslice_short. Qed.
Lemma view_short {S T} (R : S -> T -> Prop) b b' : rb_sim R b b' -> (Z.of_nat (rb_max b) <= 2 ^ 40)%Z -> short (rb_view b).
Proof. intros (H & _) L. pose proof (length_rb_view H). pose proof (ok_len H). unfold short. lia. Qed.
Lemma zn_views N g g' : zn_sim N g g' ->
  all2 (rel 200) (rb_view (ch_query (zn_c g))) (rb_view (ch_query (zn_c g'))) /\ all2 (rel 200) (rb_view (ch_series (zn_c g))) (rb_view (ch_series (zn_c g'))) /\
  short (rb_view (ch_query (zn_c g))) /\ short (rb_view (ch_series (zn_c g))).
Proof.
  intros (C & (S1 & S2 & S3) & _). pose proof (sim_query C) as HQ. pose proof (sim_series C) as HV. pose proof C as (_ & _ & _ & _ & B1 & B2 & _). split; [exact HQ|]. split; [exact HV|]. split; [|eapply view_short; eassumption].
  unfold ch_query. destruct (ch_self (zn_c g)); eapply view_short; [exact B1|exact S2|apply B2; reflexivity|apply S3; reflexivity].
Qed.
Lemma sim_zn_diag N g g' d : zn_sim N g g' -> res_sim (fun r r' => fst r = g /\ fst r' = g' /\ all2 (rel 286) (snd r) (snd r')) (zn_calc_diagonal g d) (zn_calc_diagonal g' d).
Proof.
  intro H. destruct (zn_views H) as (HQ & HV & LQ & LV). pose proof (zs_sim_views (zn_sim_q H)) as (Q1 & Q2 & Q3). pose proof H as (C & SZ & HN & Zs & Zq & ZF). pose proof (zs_sim_views Zs) as (V1 & V2 & V3). pose proof C as (Em & _). pose proof (rel_m _ C SZ) as Hm.
  pose proof (zfin_qstats ZF) as (_ & _ & _ & _ & FQ). destruct ZF as (_ & _ & (_ & _ & _ & _ & FS) & _).
  unfold zn_calc_diagonal. rewrite (all2_length HQ), (all2_length HV), <- Em. destruct (_ <? 0)%Z; [reflexivity|].
  apply bind_sim with (R := fun p p' => all2 (rel 400) p p' /\ short p).
  - assert (K : forall a a' b b', all2 (rel 200) a a' -> all2 (rel 200) b b' -> short a -> short b -> res_sim (fun p p' => all2 (rel 400) p p' /\ short p) (bop fmul a b) (bop fmul a' b')).
    { intros a a' b b' Ha Hb La Lb. eapply res_sim_and; [eapply sim_bop; [|exact Ha|exact Hb]; intros; apply (@rel_mul 200 200); [unfold room; lia|eassumption|eassumption]|].
      cbn beta. intros s t E _ Hs. split; [exact Hs|]. eapply bop_short; eassumption. }
    destruct (0 <=? d)%Z; apply K; try (apply sim_slice; assumption); apply slice_short; assumption.
  - intros p p' [Hp Lp]. assert (HC : all2 (relz (2 ^ 40) 400) (fzero :: cumsum p) (fzero :: cumsum p')) by (constructor; [apply relz_zero; lia|apply relz_cumsum; [unfold room; lia|exact Hp|exact Lp]]).
    rewrite (all2_length HC). eapply bind_sim; [eapply sim_bop; [|apply sim_slice, HC|apply sim_slice, HC]|].
    + intros x x' y y' Hx Hy. apply (@relz_sub (2 ^ 40) (2 ^ 40) 400); [lia|lia|lia|unfold room; lia|exact Hx|exact Hy].
    + intros dp dp' Hdp. eapply bind_sim; [apply sim_stats_of; [apply sim_slice, Q1|apply sim_slice, Q2|apply sim_slice, Q3|rewrite FQ, slice_map; reflexivity]|]. intros sq sq' Hsq.
      eapply bind_sim; [apply sim_stats_of; [apply sim_slice, V1|apply sim_slice, V2|apply sim_slice, V3|rewrite FS, slice_map; reflexivity]|]. intros ss ss' Hss.
      rewrite (all2_length Hdp). destruct (_ =? _); [|reflexivity]. cbn [res_sim fst snd]. split; [reflexivity|]. split; [reflexivity|].
      eapply sim_zip; [|exact Hdp|eapply sim_combine; [exact Hsq|exact Hss]]. intros x x' y y' Hx [Hy1 Hy2]. apply rel_diag_cell; try assumption.
      eapply rel_le; [|eapply (relz_rel (j := 41)); [| |exact Hx]]; lia.
Qed.
Lemma sim_zn_col N mem mem' g g' c : (0 <= N)%Z -> (N < 2 ^ 40)%Z -> zn_sim N g g' -> res_sim (fun r r' => zn_sim (N + 1) (fst r) (fst r') /\ all2 (rel 286) (snd r) (snd r')) (zn_calc_column mem g c) (zn_calc_column mem' g' c).
Proof.
  intros N0 NM H. destruct (zn_views H) as (HQ & HV & LQ & LV). pose proof (zs_sim_views (zn_sim_q H)) as (Q1 & Q2 & Q3). pose proof H as (C & SZ & HN & Zs & Zq & ZF). pose proof (zs_sim_views Zs) as (V1 & V2 & V3). pose proof C as (Em & _). pose proof (rel_m _ C SZ) as Hm.
  eapply res_sim_and with (R := fun r r' => (zfin rnd64 (fst r') -> zn_sim (N + 1) (fst r) (fst r')) /\ all2 (rel 286) (snd r) (snd r')).
  - pose proof (zfin_qstats ZF) as (_ & _ & _ & _ & FQ). destruct ZF as (_ & _ & (_ & _ & _ & _ & FS) & _).
    unfold zn_calc_column. rewrite (all2_length HQ), <- Em. destruct (_ <? _); [reflexivity|].
    eapply bind_sim.
    { eapply (@sim_col f64 R NumF NB (rel 200) (relz (2 ^ 40) 400) (ch_m (zn_c g)) dot_products dot_products fmul fmul (rel 400) (relz (2 ^ 40 + 2 * N + 1) 400)) with (rv := relz (2 ^ 40 + 2 * N) 400) (rv' := relz (2 ^ 40 + 2 * (N + 1)) 400); [| | | | | |exact C|reflexivity].
      - intros a a' b b' Ha Hb Lb. eapply sim_dots; [|exact Ha|exact Hb|exact Lb]. apply SZ.
      - intros x x' y y' Hx Hy. apply (@rel_mul 200 200); [unfold room; lia|exact Hx|exact Hy].
      - intros x x' y y' Hx Hy. apply (@relz_sub (2 ^ 40 + 2 * N) 1 400); [lia|lia|lia|unfold room; lia|exact Hx|exact Hy].
      - intros x x' y y' Hx Hy. replace (2 ^ 40 + 2 * (N + 1))%Z with (2 ^ 40 + 2 * N + 1 + 1)%Z by lia. apply (@relz_add (2 ^ 40 + 2 * N + 1) 1 400); [lia|lia|lia|unfold room; lia|exact Hx|exact Hy].
      - intros x x' Hx. eapply relz_le; [|exact Hx]. lia.
      - intros x x' Hx. eapply relz_le; [|exact Hx]. lia. }
    intros [c1 v] [c1' v'] (C' & D & Hv). cbn [fst snd] in *. eapply bind_sim; [apply sim_getitem, V1|]. intros mu mu' Hmu. 
    eapply bind_sim with (R := fun s s' => rel 261 s s' /\ getitem (rb_view (zs_std (zn_s g'))) c = Ok s'); [eapply res_sim_and; [apply sim_getitem, V2|cbn beta; auto]|]. intros sd sd' [Hsd Esd].
    eapply bind_sim with (R := fun b b' => b = b' /\ b' = fltb THRESHOLD sd'); [|intros nz nz' [-> Enz]].
    { eapply res_sim_and; [apply sim_getitem, V3|]. intros b b' _ Eb ->. split; [reflexivity|]. rewrite FS in Eb. clear - Esd Eb. unfold getitem in *. rewrite nth_error_map in Eb. destruct (nth_error _ c); [|discriminate]. cbn [option_map] in Eb. injection Esd as <-. injection Eb as <-. reflexivity. }
    eapply bind_sim; [apply sim_stats_of; [exact Q1|exact Q2|exact Q3|exact FQ]|]. intros sq sq' Hsq. rewrite (all2_length Hv). destruct (_ =? _); [|reflexivity]. cbn [res_sim fst snd]. split.
    + intro F. split; [exact C'|]. split; [exact (sized_dims D SZ)|]. split; [exact HN|]. split; [exact Zs|]. split; [|exact F]. cbn [zn_c]. destruct D as (_ & -> & _). exact Zq.
    + eapply sim_zip; [|exact Hv|exact Hsq]. intros x x' y y' Hx Hy. apply rel_col_cell; try assumption; [|unfold rstat; cbn [fst snd]; auto].
      eapply rel_le; [|eapply (relz_rel (j := 42)); [| |exact Hx]]; lia.
  - intros [s ds] [t ds'] _ E [G1 G2]. cbn [fst snd] in *. split; [|exact G2]. apply G1. exact (proj1 (zn_col_fin rnd64_sane _ _ ZF E)).
Qed.
Lemma rel_dots k l a a' b b' : room (k + l) -> all2 (rel k) a a' -> all2 (rel l) b b' -> short a -> short b -> res_sim (rel (k + l + 40)) (do p <- bop fmul a b; Ok (fsum p)) (do p <- bop fmul a' b'; Ok (fsum p)).
Proof.
  intros Hk Ha Hb La Lb. eapply bind_sim with (R := fun p p' => all2 (rel (k + l)) p p' /\ short p).
  - eapply res_sim_and; [eapply sim_bop; [|exact Ha|exact Hb]; intros; apply rel_mul; eassumption|]. cbn beta. intros s t E _ Hs. split; [exact Hs|]. eapply bop_short; eassumption.
  - intros p p' [Hp Lp]. cbn [res_sim]. apply rel_fsum; assumption.
Qed.
Lemma sim_zn_single N g g' r c dot dot' : zn_sim N g g' -> opt_sim (rel 450) dot dot' -> res_sim (rel 286) (zn_calc_single g r c dot) (zn_calc_single g' r c dot').
Proof.
  intros H Hdot. destruct (zn_views H) as (HQ & HV & LQ & LV). pose proof (zs_sim_views (zn_sim_q H)) as (Q1 & Q2 & _). pose proof H as (C & SZ & HN & Zs & Zq & ZF). pose proof (zs_sim_views Zs) as (V1 & V2 & _). pose proof C as (Em & _). pose proof (rel_m _ C SZ) as Hm.
  unfold zn_calc_single. rewrite <- Em. eapply bind_sim; [apply sim_getitem, Q2|]. intros sq sq' Hsq. eapply bind_sim; [apply sim_getitem, V2|]. intros ss ss' Hss.
  assert (T : rel 0 (@THRESHOLD f64 NumF) (@THRESHOLD R NB)) by (apply (@rel_neg10 6); lia).
  assert (Fl : forall s, isfin s -> fleb s (@THRESHOLD R NB) = negb (fltb (@THRESHOLD R NB) s)) by (intros s (y & ->); destruct (THR rnd64_sane) as (t & Et & _); change (@THRESHOLD R (NR rnd64)) with (@THRESHOLD R NB) in Et; rewrite Et; reflexivity).
  rewrite (rel_leb Hsq T), (rel_leb Hss T), !Fl by (eapply rel_isfin; eassumption).
  destruct (fltb (@THRESHOLD R NB) sq') eqn:G1, (fltb (@THRESHOLD R NB) ss') eqn:G2; cbn [negb andb orb]; [| | |apply rel_zero].
  all: eapply bind_sim with (R := rel 571); [|intros d d' Hd; cbn [res_sim];
    match goal with |- rel _ (if fltb ?e _ then _ else _) (if fltb ?e' _ then _ else _) => assert (Hd' : rel 572 e e') end;
    [rewrite (rel_eqb HN (rel_zero 0)); destruct (negb _); [|eapply rel_le; [|exact Hd]; lia]; apply (@rel_sub 571); [unfold room; lia|exact Hd|]; eapply rel_le; [|apply rel_correction; try assumption]; [lia|rewrite G1, G2; tauto]
    |match goal with |- rel _ (if fltb ?e _ then _ else _) (if fltb ?e' _ then _ else _) => set (x := e) in *; set (x' := e') in * end; clearbody x x'; pose proof (rel_clip Hd') as Hc; pose proof (rel_ltb Hd' (@rel_neg10 12 ltac:(lia))) as L;
     change (@fneg10 R NB 12) with (@EPS R NB) in L; change (@fneg10 f64 NumF 12) with (@EPS f64 NumF) in L; rewrite L in Hc |- *; destruct (fltb x' EPS); [apply rel_zero|exact Hc]]].
  2, 3: eapply rel_le; [|exact Hm]; lia.
  assert (EA : match dot with None => true | Some d => feqb d fzero end = match dot' with None => true | Some d => feqb d fzero end).
  { destruct dot as [x|], dot' as [x'|]; cbn in Hdot; try contradiction; [|reflexivity]. exact (rel_eqb Hdot (rel_zero 0)). }
  rewrite EA. eapply bind_sim with (R := rel 450).
  - destruct (match dot' with None => true | Some d => feqb d fzero end) eqn:E'.
    + eapply res_sim_impl; [|apply (@rel_dots 200 200); [unfold room; lia|apply sim_lslice, HQ|apply sim_lslice, HV|apply lslice_short, LQ|apply lslice_short, LV]]. intros x y. apply rel_le. lia.
    + destruct dot as [x|], dot' as [x'|]; cbn in Hdot; try contradiction; [exact Hdot|discriminate].
  - intros dt dt' Hdt. eapply bind_sim; [apply sim_getitem, Q1|]. intros mq mq' Hmq. eapply bind_sim; [apply sim_getitem, V1|]. intros ms ms' Hms. cbn [res_sim].
    apply rel_formula; try assumption; apply rel_above; assumption.
Qed.

(** ** Runs *)
Definition call_sim (o : gcall (num f64)) (o' : gcall (num R)) : Prop :=
  match o, o' with
  | CSeries d, CSeries d' | CQuery d, CQuery d' => all2 (rel 200) d d'
  | CCol c, CCol c' => c = c'
  | CDiag d, CDiag d' => d = d'
  | _, _ => False
  end.
Lemma sim_zn_run mem mem' H H' : all2 call_sim H H' -> forall N g g', (0 <= N)%Z -> (N + Z.of_nat (length H) <= 2 ^ 40)%Z -> zn_sim N g g' ->
  res_sim (zn_sim (N + Z.of_nat (length H))) (grun (zn_calc_column mem) zn_calc_diagonal zn_append_series zn_append_query g H) (grun (zn_calc_column mem') zn_calc_diagonal zn_append_series zn_append_query g' H').
Proof.
  induction 1 as [|o o' H H' Ho HH IH]; intros N g g' N0 NM Hg; [cbn; rewrite Z.add_0_r; exact Hg|]. unfold grun in *. cbn [foldM length].
  assert (W : forall a b, zn_sim N a b -> zn_sim (N + 1) a b).
  { intros a b (C & G). split; [|exact G]. eapply cache_sim_impl; [|exact C]. intros x y. apply relz_le. lia. }
  replace (N + Z.of_nat (S (length H)))%Z with (N + 1 + Z.of_nat (length H))%Z by lia. cbn [length] in NM. eapply bind_sim; [|intros s s' Hs; apply IH; [lia|lia|exact Hs]].
  destruct o as [xs|xs|c|d], o' as [ys|ys|c'|d']; cbn in Ho; try contradiction; cbn [gstep].
  - eapply res_sim_impl; [exact W|]. apply sim_zn_s; assumption.
  - eapply res_sim_impl; [exact W|]. apply sim_zn_q; assumption.
  - subst c'. eapply bind_sim; [apply sim_zn_col; [exact N0|lia|exact Hg]|]. intros r r' [G _]. exact G.
  - subst d'. eapply bind_sim; [eapply sim_zn_diag; exact Hg|]. intros r r' (-> & -> & _). apply W, Hg.
Qed.
Lemma sim_zs_new mem mem' memb memb' sf n : (1 <= sf)%Q -> 0 < n -> res_sim zs_sim (zstats_new mem memb sf n) (zstats_new mem' memb' sf n).
Proof.
  intros Hsf Hn. unfold zstats_new. eapply bind_sim; [apply sim_rb_new; [exact Hsf|intros k Ek; injection Ek as <-; exact Hn]|]. intros b1 b1' [H1 _].
  eapply bind_sim; [apply sim_rb_new; [exact Hsf|intros k Ek; injection Ek as <-; exact Hn]|]. intros b2 b2' [H2 _].
  eapply bind_sim; [apply sim_rb_new; [exact Hsf|intros k Ek; injection Ek as <-; exact Hn]|]. intros b3 b3' [H3 _]. split; [exact H1|]. split; [exact H2|exact H3].
Qed.
Lemma sim_zn_empty mem mem' memb memb' noise noise' sf m W Wq : (1 <= sf)%Q -> 0 < m -> m <= W -> (forall w, Wq = Some w -> m <= w) -> (Z.of_nat W <= 2 ^ 40)%Z -> (forall w, Wq = Some w -> (Z.of_nat w <= 2 ^ 40)%Z) ->
  rel 200 noise noise' -> res_sim (zn_sim 0) (zn_empty mem memb noise sf m W Wq) (zn_empty mem' memb' noise' sf m W Wq).
Proof.
  intros Hsf Hm HW Hq BW Bq HN. eapply res_sim_and with (R := fun g g' => zfin rnd64 g' -> zn_sim 0 g g').
  - unfold zn_empty. eapply bind_sim; [apply sim_rb_new; [exact Hsf|intros k Ek; injection Ek as <-; lia]|]. intros s s' [Hs Ms]. specialize (Ms _ eq_refl).
    eapply bind_sim; [apply sim_zs_new; [exact Hsf|lia]|]. intros zs zs' Hzs. destruct Wq as [qw|].
    + specialize (Hq _ eq_refl). specialize (Bq _ eq_refl). eapply bind_sim; [apply sim_rb_new; [exact Hsf|intros k Ek; injection Ek as <-; lia]|]. intros q q' [Hqs Mq]. specialize (Mq _ eq_refl).
      eapply bind_sim; [apply sim_zs_new; [exact Hsf|lia]|]. intros zq zq' Hzq. cbn [res_sim]. intro F. split; [|split; [|split; [exact HN|split; [exact Hzs|split; [intros _; exact Hzq|exact F]]]]].
      * apply cache_sim_mk; cbn [zn_c cache_new ch_m ch_series ch_self ch_qbuf ch_first ch_vals ch_backlog ch_prev]; try reflexivity; [lia|lia|exact Hs|intros _; exact Hqs|constructor].
      * unfold sized. cbn [zn_c cache_new ch_m ch_series ch_self ch_qbuf]. rewrite Ms, Mq. split; [lia|]. split; [exact BW|]. intros _. exact Bq.
    + cbn [res_sim]. intro F. split; [|split; [|split; [exact HN|split; [exact Hzs|split; [discriminate|exact F]]]]].
      * apply cache_sim_mk; cbn [zn_c cache_new ch_m ch_series ch_self ch_qbuf ch_first ch_vals ch_backlog ch_prev]; try reflexivity; [lia|lia|exact Hs|discriminate|constructor].
      * unfold sized. cbn [zn_c cache_new ch_m ch_series ch_self ch_qbuf]. rewrite Ms. split; [lia|]. split; [exact BW|]. discriminate.
  - intros g g' _ E G. apply G. eapply (@zfin_empty rnd64 mem' memb'); [exact Hm|exact HW|exact Hq|exact Hsf| |exact E]. eapply rel_isfin, HN.
Qed.
