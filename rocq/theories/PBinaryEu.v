(** * PBinaryEu: the Euclidean generator in binary64 and in rounded real arithmetic *)
From Coq Require Import QArith Reals Lia Lra.
From Flocq Require Import Core.
From Verif Require Import Np NpFacts MRing PRing MUtil MArith MCache MEuclid SReal SRound SGen InstF PRoundGen PSim PFloat PBinary PBinaryZn.
Set Implicit Arguments.
Open Scope nat_scope.
#[local] Existing Instance NB.

(** Related, or both NaN *)
Definition reln (k : Z) (x : num f64) (y : num R) : Prop := rel k x y \/ (x = NaN /\ y = NaN).
Lemma rel_root_or k x x' : room k -> rel (2 * k) x x' -> reln k (froot x) (froot x').
Proof.
  intros Hk H. pose proof H as (f & -> & -> & D & B). destruct (Rlt_dec (val f) 0) as [N|N].
  - right. unfold froot, fsqrt. rewrite (f64_ltb f nzero D (proj1 f64_zero)), (proj2 f64_zero). cbn [nltb NB NumRnd nzero]. unfold Rltb. destruct (Rlt_dec (val f) 0); [split; reflexivity|contradiction].
  - left. apply rel_root; [exact Hk| |exact H]. exists (val f). split; [reflexivity|lra].
Qed.

(** After [N] columns *)
Definition eu_sim (N : Z) (g : @cache f64) (g' : @cache R) : Prop :=
  cache_sim (rel 200) (relz (2 ^ 42) 400) (relz (2 ^ 42 + 8 * N) 400) g g' /\ sized g.
Lemma eu_sim_le N N' g g' : (N <= N')%Z -> eu_sim N g g' -> eu_sim N' g g'.
Proof. intros H [C S]. split; [|exact S]. eapply cache_sim_impl; [|exact C]. intros x y. apply relz_le. lia. Qed.
Lemma sim_eu_s N g g' d d' : eu_sim N g g' -> all2 (rel 200) d d' -> res_sim (eu_sim N) (eu_append_series g d) (eu_append_series g' d').
Proof.
  intros [C SZ] HD. unfold eu_append_series. rewrite (all2_length HD). destruct (_ =? 0); [split; assumption|].
  eapply res_sim_impl; [|eapply sim_append_s; [exact C|exact HD]]. intros s s' [C' D]. split; [exact C'|exact (sized_dims D SZ)].
Qed.
Lemma sim_eu_q N g g' d d' : eu_sim N g g' -> all2 (rel 200) d d' -> res_sim (eu_sim N) (eu_append_query g d) (eu_append_query g' d').
Proof.
  intros [C SZ] HD. unfold eu_append_query. pose proof C as (_ & Es & _). rewrite <- Es. destruct (ch_self g) eqn:Eg; [reflexivity|]. rewrite (all2_length HD). destruct (_ =? 0); [split; assumption|].
  eapply res_sim_impl; [|eapply sim_append_q; [exact C|exact Eg|exact HD]]. intros s s' [C' D]. split; [exact C'|exact (sized_dims D SZ)].
Qed.
Lemma rel_sq_diff x x' y y' : rel 200 x x' -> rel 200 y y' -> rel 402 (sq_diff x y) (sq_diff x' y').
Proof.
  intros Hx Hy. unfold sq_diff, fsquare. assert (G : rel 201 (fsub x y) (fsub x' y')) by (apply (@rel_sub 200); [unfold room; lia|exact Hx|exact Hy]).
  apply (@rel_mul 201 201); [unfold room; lia|exact G|exact G].
Qed.
Lemma sim_eds m a a' b b' : (Z.of_nat m <= 2 ^ 40)%Z -> all2 (rel 200) a a' -> all2 (rel 200) b b' -> length b <= m -> res_sim (all2 (relz (2 ^ 42) 400)) (euclidean_distance_squared a b) (euclidean_distance_squared a' b').
Proof.
  intros Hm HA HB Hb. unfold euclidean_distance_squared. rewrite <- (all2_length HB). eapply bind_sim; [apply sim_windows, HA|]. intros ws ws' HW. cbn [res_sim].
  eapply sim_map; [|eapply sim_map; [|exact HW]].
  - intros x y Hx. pose proof (rel_ltb (@relz_rel (2 ^ 42) 42 400 x y ltac:(lia) ltac:(lia) Hx) (@rel_neg10 15 ltac:(lia))) as L. change (@fneg10 R NB 15) with (@EPSILON R NB) in L. change (@fneg10 f64 NumF 15) with (@EPSILON f64 NumF) in L.
    rewrite L. destruct (fltb y EPSILON); [apply relz_zero; lia|exact Hx].
  - intros w v (L0 & L & Hw). cbn beta. assert (SW : short w) by (unfold short; lia). assert (SB : short b) by (unfold short; lia).
    assert (R1 : relz (2 ^ 40) 400 (fdot w w) (fdot v v)) by (eapply relz_le; [|apply (@relz_fdot 200 200); [unfold room; lia|exact Hw|exact Hw|exact SW]]; unfold short in SW; lia).
    assert (R2 : relz (2 ^ 40) 400 (fdot w b) (fdot v b')) by (eapply relz_le; [|apply (@relz_fdot 200 200); [unfold room; lia|exact Hw|exact HB|exact SW]]; unfold short in SW; lia).
    assert (R3 : relz (2 ^ 40) 400 (fdot b b) (fdot b' b')) by (eapply relz_le; [|apply (@relz_fdot 200 200); [unfold room; lia|exact HB|exact HB|exact SB]]; unfold short in SB; lia).
    assert (R4 : relz (2 ^ 41) 400 (fmul (fofZ 2) (fdot w b)) (fmul (fofZ 2) (fdot v b'))).
    { apply (@rel_relz 400 (2 ^ 41) 41); [lia|lia|]. apply (@rel_mul 1 440); [unfold room; lia| |apply (@relz_rel (2 ^ 40) 40 400); [lia|lia|exact R2]]. eapply rel_ge_rel, (@rel_ofZ 2 1); lia. }
    eapply relz_le; [|eapply (@relz_add (2 ^ 40 + 2 ^ 41) (2 ^ 40)); [lia|lia|lia|unfold room; lia| |exact R3]]; [lia|]. apply (@relz_sub (2 ^ 40) (2 ^ 41)); [lia|lia|lia|unfold room; lia|exact R1|exact R4].
Qed.
Lemma eu_views N g g' : eu_sim N g g' ->
  all2 (rel 200) (rb_view (ch_query g)) (rb_view (ch_query g')) /\ all2 (rel 200) (rb_view (ch_series g)) (rb_view (ch_series g')) /\ short (rb_view (ch_query g)) /\ short (rb_view (ch_series g)).
Proof.
  intros [C (S1 & S2 & S3)]. pose proof (sim_query C) as HQ. pose proof (sim_series C) as HV. pose proof C as (_ & _ & _ & _ & B1 & B2 & _). split; [exact HQ|]. split; [exact HV|]. split; [|eapply view_short; eassumption].
  unfold ch_query. destruct (ch_self g); eapply view_short; [exact B1|exact S2|apply B2; reflexivity|apply S3; reflexivity].
Qed.
Lemma sim_eu_diag N g g' d : eu_sim N g g' -> res_sim (fun r r' => fst r = g /\ fst r' = g' /\ all2 (reln 222) (snd r) (snd r')) (eu_calc_diagonal g d) (eu_calc_diagonal g' d).
Proof.
  intro H. destruct (eu_views H) as (HQ & HV & LQ & LV). destruct H as [C SZ]. pose proof C as (Em & _). unfold eu_calc_diagonal. rewrite (all2_length HQ), (all2_length HV), <- Em.
  apply bind_sim with (R := fun p p' => all2 (rel 402) p p' /\ short p).
  - assert (K : forall a a' b b', all2 (rel 200) a a' -> all2 (rel 200) b b' -> short a -> short b -> res_sim (fun p p' => all2 (rel 402) p p' /\ short p) (bop sq_diff a b) (bop sq_diff a' b')).
    { intros a a' b b' Ha Hb La Lb. eapply res_sim_and; [eapply sim_bop; [|exact Ha|exact Hb]; intros; apply rel_sq_diff; eassumption|].
      cbn beta. intros s t E _ Hs. split; [exact Hs|]. eapply bop_short; eassumption. }
    destruct (0 <=? d)%Z; apply K; try (apply sim_slice; assumption); apply slice_short; assumption.
  - intros p p' [Hp Lp]. assert (HC : all2 (relz (2 ^ 40) 402) (fzero :: cumsum p) (fzero :: cumsum p')) by (constructor; [apply relz_zero; lia|apply relz_cumsum; [unfold room; lia|exact Hp|exact Lp]]).
    rewrite (all2_length HC). eapply bind_sim; [eapply sim_bop; [|apply sim_slice, HC|apply sim_slice, HC]|].
    + intros x x' y y' Hx Hy. apply (@relz_sub (2 ^ 40) (2 ^ 40) 402); [lia|lia|lia|unfold room; lia|exact Hx|exact Hy].
    + intros dp dp' Hdp. cbn [res_sim fst snd]. split; [reflexivity|]. split; [reflexivity|]. eapply sim_map; [|exact Hdp]. intros x y Hx. apply rel_root_or; [unfold room; lia|].
      eapply rel_le; [|eapply (relz_rel (j := 41)); [| |exact Hx]]; lia.
Qed.
Lemma sim_eu_col N mem mem' g g' c : (0 <= N)%Z -> (N < 2 ^ 40)%Z -> eu_sim N g g' -> res_sim (fun r r' => eu_sim (N + 1) (fst r) (fst r') /\ all2 (reln 222) (snd r) (snd r')) (eu_calc_column mem g c) (eu_calc_column mem' g' c).
Proof.
  intros N0 NM [C SZ]. unfold eu_calc_column. eapply bind_sim.
  { eapply (@sim_col f64 R NumF NB (rel 200) (relz (2 ^ 42) 400) (ch_m g) euclidean_distance_squared euclidean_distance_squared sq_diff sq_diff (relz 4 400) (relz (2 ^ 42 + 8 * N + 4) 400)) with (rv := relz (2 ^ 42 + 8 * N) 400) (rv' := relz (2 ^ 42 + 8 * (N + 1)) 400); [| | | | | |exact C|reflexivity].
    - intros a a' b b' Ha Hb Lb. eapply sim_eds; [|exact Ha|exact Hb|exact Lb]. apply SZ.
    - intros x x' y y' Hx Hy. apply (@rel_relz 400 4 2); [lia|lia|]. apply rel_sq_diff; assumption.
    - intros x x' y y' Hx Hy. apply (@relz_sub (2 ^ 42 + 8 * N) 4 400); [lia|lia|lia|unfold room; lia|exact Hx|exact Hy].
    - intros x x' y y' Hx Hy. replace (2 ^ 42 + 8 * (N + 1))%Z with (2 ^ 42 + 8 * N + 4 + 4)%Z by lia. apply (@relz_add (2 ^ 42 + 8 * N + 4) 4 400); [lia|lia|lia|unfold room; lia|exact Hx|exact Hy].
    - intros x x' Hx. eapply relz_le; [|exact Hx]. lia.
    - intros x x' Hx. eapply relz_le; [|exact Hx]. lia. }
  intros [c1 v] [c1' v'] (C' & D & Hv). cbn [res_sim fst snd] in *. split; [split; [exact C'|exact (sized_dims D SZ)]|]. eapply sim_map; [|exact Hv]. intros x y Hx. apply rel_root_or; [unfold room; lia|].
  apply (@relz_rel (2 ^ 42 + 8 * (N + 1)) 44 400); [lia|lia|exact Hx].
Qed.
Lemma sim_eu_run mem mem' H H' : all2 call_sim H H' -> forall N g g', (0 <= N)%Z -> (N + Z.of_nat (length H) <= 2 ^ 40)%Z -> eu_sim N g g' ->
  res_sim (eu_sim (N + Z.of_nat (length H))) (grun (eu_calc_column mem) eu_calc_diagonal (@eu_append_series f64) (@eu_append_query f64) g H) (grun (eu_calc_column mem') eu_calc_diagonal (@eu_append_series R) (@eu_append_query R) g' H').
Proof.
  induction 1 as [|o o' H H' Ho HH IH]; intros N g g' N0 NM Hg; [cbn; rewrite Z.add_0_r; exact Hg|]. unfold grun in *. cbn [foldM length].
  assert (W : forall a b, eu_sim N a b -> eu_sim (N + 1) a b) by (intros a b; apply eu_sim_le; lia).
  replace (N + Z.of_nat (S (length H)))%Z with (N + 1 + Z.of_nat (length H))%Z by lia. cbn [length] in NM. eapply bind_sim; [|intros s s' Hs; apply IH; [lia|lia|exact Hs]].
  destruct o as [xs|xs|c|d], o' as [ys|ys|c'|d']; cbn in Ho; try contradiction; cbn [gstep].
  - eapply res_sim_impl; [exact W|]. apply sim_eu_s; assumption.
  - eapply res_sim_impl; [exact W|]. apply sim_eu_q; assumption.
  - subst c'. eapply bind_sim; [apply sim_eu_col; [exact N0|lia|exact Hg]|]. intros r r' [G _]. exact G.
  - subst d'. eapply bind_sim; [eapply sim_eu_diag; exact Hg|]. intros r r' (-> & -> & _). apply W, Hg.
Qed.
Lemma sim_eu_streaming mem mem' sf m W Wq : 0 < m -> m <= W -> (forall w, Wq = Some w -> 0 < w) -> (Z.of_nat W <= 2 ^ 40)%Z -> (forall w, Wq = Some w -> (Z.of_nat w <= 2 ^ 40)%Z) ->
  res_sim (eu_sim 0) (eu_prepare_streaming mem sf m W Wq) (eu_prepare_streaming mem' sf m W Wq).
Proof.
  intros Hm HW Hq BW Bq. unfold eu_prepare_streaming. destruct (Qle_bool 1 sf) eqn:Hsf; [|reflexivity]. apply Qle_bool_iff in Hsf. cbn [negb].
  eapply bind_sim; [apply sim_rb_new; [exact Hsf|intros k Ek; injection Ek as <-; lia]|]. intros s s' [Hs Ms]. specialize (Ms _ eq_refl). destruct Wq as [qw|].
  - specialize (Hq _ eq_refl). specialize (Bq _ eq_refl). eapply bind_sim; [apply sim_rb_new; [exact Hsf|intros k Ek; injection Ek as <-; lia]|]. intros q q' [Hqs Mq]. specialize (Mq _ eq_refl). cbn [res_sim]. split.
    + apply cache_sim_mk; cbn [cache_new ch_m ch_series ch_self ch_qbuf ch_first ch_vals ch_backlog ch_prev]; try reflexivity; [lia|lia|exact Hs|intros _; exact Hqs|constructor].
    + unfold sized. cbn [cache_new ch_m ch_series ch_self ch_qbuf]. rewrite Ms, Mq. split; [lia|]. split; [exact BW|]. intros _. exact Bq.
  - cbn [res_sim]. split.
    + apply cache_sim_mk; cbn [cache_new ch_m ch_series ch_self ch_qbuf ch_first ch_vals ch_backlog ch_prev]; try reflexivity; [lia|lia|exact Hs|discriminate|constructor].
    + unfold sized. cbn [cache_new ch_m ch_series ch_self ch_qbuf]. rewrite Ms. split; [lia|]. split; [exact BW|]. discriminate.
Qed.
Lemma sim_rb_data {S T} (R : S -> T -> Prop) mem mem' l l' : all2 R l l' -> 0 < length l ->
  res_sim (fun b b' => rb_sim R b b' /\ rb_max b = length l) (rb_new mem (Some l) None true 1) (rb_new mem' (Some l') None true 1).
Proof.
  intros HD Hn. unfold rb_new. rewrite <- (all2_length HD). eapply bind_sim; [apply (@sim_alloc S T R); [discriminate|exact Hn]|]. intros b b' [Hb Mb]. eapply bind_sim; [apply sim_push; [exact Hb|exact HD]|].
  intros r r' (Hr & _ & Mr). split; [exact Hr|congruence].
Qed.
Lemma sim_eu_batch mem mem' sf m S S' q q' : 0 < m -> m <= length S -> (forall l, q = Some l -> 0 < length l) -> (Z.of_nat (length S) <= 2 ^ 40)%Z -> (forall l, q = Some l -> (Z.of_nat (length l) <= 2 ^ 40)%Z) ->
  all2 (rel 200) S S' -> opt_sim (all2 (rel 200)) q q' -> res_sim (eu_sim 0) (eu_prepare mem sf m S q) (eu_prepare mem' sf m S' q').
Proof.
  intros Hm HW Hq BW Bq HS HQ. unfold eu_prepare. destruct (negb _); [reflexivity|].
  eapply bind_sim; [eapply (@sim_rb_data _ _ (rel 200)); [exact HS|lia]|]. intros s s' [Hs Ms]. destruct q as [l|], q' as [l'|]; try contradiction.
  - specialize (Hq _ eq_refl). specialize (Bq _ eq_refl). eapply bind_sim; [eapply (@sim_rb_data _ _ (rel 200)); [exact HQ|lia]|]. intros b b' [Hqs Mq]. cbn [res_sim]. split.
    + apply cache_sim_mk; cbn [cache_new ch_m ch_series ch_self ch_qbuf ch_first ch_vals ch_backlog ch_prev]; try reflexivity; [lia|lia|exact Hs|intros _; exact Hqs|constructor].
    + unfold sized. cbn [cache_new ch_m ch_series ch_self ch_qbuf]. rewrite Ms, Mq. split; [lia|]. split; [exact BW|]. intros _. exact Bq.
  - cbn [res_sim]. split.
    + apply cache_sim_mk; cbn [cache_new ch_m ch_series ch_self ch_qbuf ch_first ch_vals ch_backlog ch_prev]; try reflexivity; [lia|lia|exact Hs|discriminate|constructor].
    + unfold sized. cbn [cache_new ch_m ch_series ch_self ch_qbuf]. rewrite Ms. split; [lia|]. split; [exact BW|]. discriminate.
Qed.
