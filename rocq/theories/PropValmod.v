(** * PropValmod: C55, C56, C57, motifs of variable length *)
From Coq Require Import QArith Reals Lra Sorted Permutation.
From Verif Require Import Np NpFacts MRing PRing MUtil MArith MStats MCache MZnorm MOstinato MValmod SReal SCalc SGen SValmod PArith PStats PCache PGenRun PSort PEuclid PZdist PZgeo PZnorm POstinato POstinatoAny PValmodLb PValmod PValmodNext PropZnorm.
Set Implicit Arguments.
Open Scope nat_scope.

Lemma top_ext (D D' : nat -> nat -> R) n buffer r : (forall i j, i < n -> j < n -> D i j = D' i j) -> top_motif D n buffer r -> top_motif D' n buffer r.
Proof.
  intros E. destruct r as [[i j]|]; cbn [top_motif]; [|auto]. intros (Hi & Hj & Ha & H). repeat (split; [assumption|]). intros i' j' Hi' Hj' Ha'. rewrite <- !E by assumption. auto.
Qed.

Lemma NoDup_left {T} (a b : list T) : NoDup (a ++ b) -> NoDup a.
Proof. induction a as [|x a IH]; intro H; [constructor|]. cbn [app] in H. inversion H as [|? ? Hn Hd]; subst. constructor; [|auto]. intro Hin. apply Hn, in_or_app. left. exact Hin. Qed.

(** ** C55: the lower bound *)
Theorem C55_bound : forall x y x' y', length x = length y -> length x' = length y' -> 0 < length x -> (0 < std x)%R -> (0 < std y)%R ->
  (bound x y / std (y ++ y') <= euclid (znorm (x ++ x')) (znorm (y ++ y')))%R.
Proof. exact bound_sound. Qed.

(** In the terms of the generator's distance, which takes distances below 1e-6 as 0 *)
Theorem C55_distance : forall x y x' y', length x = length y -> length x' = length y' -> 0 < length x -> (0 < std x)%R -> (0 < std y)%R ->
  (/ 10 ^ 6 < std (x ++ x'))%R -> (/ 10 ^ 6 < std (y ++ y'))%R ->
  (bound x y / std (y ++ y') <= zdef (x ++ x') (y ++ y') \/ (zdef (x ++ x') (y ++ y') = 0 /\ bound x y / std (y ++ y') < / 10 ^ 6))%R.
Proof.
  intros x y x' y' L L' H Px Py Ux Uy. pose proof (bound_sound x y x' y' L L' H Px Py) as B. unfold zdef, uneven. rewrite (Rltb_yes Ux), (Rltb_yes Uy). cbn [andb].
  destruct (Rltb_spec (sqd (znorm (x ++ x')) (znorm (y ++ y'))) (/ 10 ^ 12)) as [Hs|Hs]; [right|left; exact B]. split; [reflexivity|]. apply Rle_lt_trans with (1 := B). unfold euclid.
  assert (E : (/ 10 ^ 6)%R = sqrt (/ 10 ^ 12)). { replace (/ 10 ^ 12)%R with (/ 10 ^ 6 * / 10 ^ 6)%R by (rewrite <- Rinv_mult; f_equal; ring). rewrite sqrt_square; [reflexivity|]. apply Rlt_le, Rinv_0_lt_compat, pow_lt. lra. }
  rewrite E. apply sqrt_lt_1_alt. split; [apply sqd_nonneg|exact Hs].
Qed.

(** ** C56: the complete calculation *)
Theorem C56_full : forall mem memb argsort noise X m size buffer,
  sorts argsort -> 0 < m <= length X -> (0 <= noise)%R -> 0 < size ->
  exists g lists r, zn_prepare mem memb (Fin noise) 2 m (fin X) None = Ok g /\ full_iteration mem argsort g size buffer = Ok (lists, r) /\
  top_motif (fun i j => zdist noise (sub m X i) (sub m X j)) (length X + 1 - m) buffer r /\
  length lists = length X + 1 - m /\
  forall c, c + m <= length X -> exists l, nth_error lists c = Some l /\ NoDup (map (@lb_q R) l) /\
    (std (sub m X c) = 0%R -> l = []) /\
    (forall e, In e l -> lb_s e = c /\ lb_q e + m <= length X /\
       (apart buffer (lb_q e) c -> lb_dot e = Fin (dotp (sub m X (lb_q e)) (sub m X c)) /\ (std (sub m X (lb_q e)) <> 0%R -> lb_base e = Fin (bound (sub m X (lb_q e)) (sub m X c))))) /\
    (length l <= size /\ (std (sub m X c) = 0%R \/ length l = size \/
       forall q, q + m <= length X -> apart buffer q c -> std (sub m X q) <> 0%R -> In q (map (@lb_q R) l))) /\
    (forall e q, In e l -> apart buffer (lb_q e) c -> std (sub m X (lb_q e)) <> 0%R ->
       q + m <= length X -> apart buffer q c -> std (sub m X q) <> 0%R -> ~ In q (map (@lb_q R) l) -> (bound (sub m X (lb_q e)) (sub m X c) <= bound (sub m X q) (sub m X c))%R).
Proof.
  intros mem memb argsort noise X m size buffer Hsort [Hm HX] Hn Hs. destruct (@vready_prepare mem memb noise X m Hm HX Hn) as (g & Eg & Hg).
  destruct (@full_ok mem memb noise X m Hm HX buffer argsort Hsort g size Hg Hs) as (lists & r & E & T & HLen & HL & HE). exists g, lists, r. split; [exact Eg|]. split; [exact E|]. split; [exact T|]. split; [exact HLen|].
  intros c Hc. destruct (HL c Hc) as (l & El & Z & ps & rest & HP & HS & HF). exists l. split; [exact El|].
  assert (Hq : map (@lb_q R) l = ps). { clear - HF. induction HF as [|e q l ps H _ IH]; [reflexivity|]. cbn [map]. f_equal; [apply H|exact IH]. }
  assert (HI : forall e, In e l -> exists q, In q ps /\ entry_ok X buffer m m c e q).
  { clear - HF. induction HF as [|e q l ps H _ IH]; intros e' He'; [destruct He'|]. destruct He' as [<-|He']; [exists q; split; [left; reflexivity|exact H]|]. destruct (IH e' He') as (q' & H1 & H2). exists q'. split; [right; exact H1|exact H2]. }
  assert (HR : forall q, In q ps -> q + m <= length X). { intros q Hin. assert (I : In q (seq 0 (length X + 1 - m))) by (apply (Permutation_in _ HP), in_or_app; left; exact Hin). apply in_seq in I. lia. }
  split; [rewrite Hq; apply NoDup_left with (b := rest); apply (Permutation_NoDup (Permutation_sym HP)), seq_NoDup|]. split; [exact Z|]. split; [|split].
  - intros e He. destruct (HI e He) as (q & Iq & E1 & E2 & E3 & E4). rewrite E1. split; [exact E2|]. split; [apply HR; exact Iq|]. intro Ha. split; [apply E4; [exact Ha|apply HR; exact Iq|exact Hc]|].
    intro Sq. rewrite E3. unfold key. rewrite (proj2 (apartb_spec buffer q c) Ha). destruct (zero_dec (std (sub m X q))); [contradiction|reflexivity].
  - destruct (HE c l El) as (H1 & H2). split; [exact H1|]. destruct H2 as [H2|[H2|H2]]; [auto|auto|]. right. right. intros q Hq1 Ha Sq. destruct (H2 q Hq1 Ha Sq) as (e & He & <-). apply in_map. exact He.
  - intros e q He Ha Sq Hr Ha' Sq' Hni. destruct (HI e He) as (p & Ip & E1 & _). rewrite E1 in *. rewrite Hq in Hni.
    assert (Ir : In q rest). { assert (I : In q (ps ++ rest)) by (apply (Permutation_in _ (Permutation_sym HP)), in_seq; lia). apply in_app_or in I. tauto. }
    specialize (HS p q Ip Ir). unfold key in HS. rewrite (proj2 (apartb_spec buffer p c) Ha), (proj2 (apartb_spec buffer q c) Ha') in HS.
    destruct (zero_dec (std (sub m X p))); [contradiction|]. destruct (zero_dec (std (sub m X q))); [contradiction|]. unfold sort_le in HS. cbn [isnan fleb fltb nltb NumR] in HS. apply negb_true_iff, Rltb_false in HS. exact HS.
Qed.

(** ** C57: all lengths *)
(** Full statement: for such input, find_variable_length_motifs returns a top motif for every length.  It is false
    ([C57_motifs_refuted]): if every window can be pruned, np.min of an empty list raises.  Proved: this is the only failure. *)
Theorem C57_motifs_partial : forall mem memb argsort exceeds X mn mx size,
  sorts argsort -> 2 <= mn <= mx -> mx <= length X -> 0 < size -> clean X mn mx ->
  let buffer := (mn + 1) / 2 in
  let result := find_variable_length_motifs mem memb argsort exceeds (fin X) (Z.of_nat mn) (Z.of_nat mx) (Z.of_nat size) (Fin 0%R) in
  (exists r, result = Ok r /\ length r = mx + 1 - mn /\
     forall m, mn <= m <= mx -> top_motif (fun i j => zdef (sub m X i) (sub m X j)) (length X + 1 - m) buffer (nth (m - mn) r None)) \/
  (result = Err ValueError /\ exists m0 m, mn <= m0 < m /\ m <= mx /\ stuck X buffer m0 m).
Proof.
  intros mem memb argsort exceeds X mn mx size Hsort Hmn Hmx Hs Hcl buffer result.
  assert (ED : forall m i j, 0 < m -> i < length X + 1 - m -> D 0 X m i j = zdef (sub m X i) (sub m X j)) by (intros m i j Hm Hi; unfold D; apply zdist_def; rewrite length_sub; lia).
  destruct (@found_ok mem memb X mn mx size Hmn Hmx Hs Hcl argsort Hsort exceeds) as [(r & E & HL & HT)|(E & m0 & m & H1 & H2 & HP)]; [left|right].
  - exists r. split; [exact E|]. split; [exact HL|]. intros m Hm. specialize (HT (m - mn) ltac:(lia)). replace (mn + (m - mn)) with m in HT by lia. eapply top_ext; [|exact HT]. intros i j Hi Hj. apply ED; lia.
  - split; [exact E|]. exists m0, (Datatypes.S m). split; [lia|]. split; [lia|]. intros c Hc. destruct (HP c ltac:(lia)) as (Sc & q1 & q2 & [A1 A2] & [B1 B2] & Sq & Hlt). split; [exact Sc|].
    exists q1, q2. rewrite <- ED by lia. repeat (split; [assumption || lia|]). exact Hlt.
Qed.

(** With a cache for every window, the function raises whenever every window can be pruned at the second length. *)
Theorem C57_stuck : forall mem memb argsort exceeds X mn mx size,
  sorts argsort -> 2 <= mn < mx -> mx <= length X -> length X + 1 - mn < size -> clean X mn mx -> stuck X ((mn + 1) / 2) mn (mn + 1) ->
  find_variable_length_motifs mem memb argsort exceeds (fin X) (Z.of_nat mn) (Z.of_nat mx) (Z.of_nat size) (Fin 0%R) = Err ValueError.
Proof.
  intros mem memb argsort exceeds X mn mx size Hsort [Hmn Hlt] Hmx Hs Hcl Hst.
  apply (@found_stuck mem memb X mn mx size ltac:(lia) Hmx ltac:(lia) Hcl argsort Hsort exceeds Hs Hlt). intros c Hc. replace (mn + 1) with (Datatypes.S mn) in Hst at 2 by lia.
  destruct (Hst c ltac:(lia)) as (Sc & q1 & q2 & A1 & A2 & B1 & B2 & Sq & Hd). split; [exact Sc|]. exists q1, q2. repeat split; auto; try lia. unfold D. rewrite zdist_def by (rewrite length_sub; lia). exact Hd.
Qed.

(** *** A zigzag *)
Definition zigzag : list R := [0; 1; 0; 1; 0; 1; 0; 1]%R.
Lemma std3 a b : std [a; b; a] = (sqrt 2 / 3 * Rabs (b - a))%R.
Proof.
  unfold std. assert (Em : mean [a; b; a] = ((2 * a + b) / 3)%R) by (unfold mean, rsum; cbn [length fold_right INR]; lra). rewrite Em.
  assert (E : mean (map (fun v => (v - (2 * a + b) / 3) * (v - (2 * a + b) / 3))%R [a; b; a]) = ((sqrt 2 / 3 * Rabs (b - a)) * (sqrt 2 / 3 * Rabs (b - a)))%R).
  { unfold mean, rsum. cbn [length fold_right INR map]. replace (sqrt 2 / 3 * Rabs (b - a) * (sqrt 2 / 3 * Rabs (b - a)))%R with ((sqrt 2 * sqrt 2) / 9 * (Rabs (b - a) * Rabs (b - a)))%R by lra.
    rewrite sqrt_sqrt by lra. replace (Rabs (b - a) * Rabs (b - a))%R with ((b - a) * (b - a))%R by (rewrite <- Rabs_mult; symmetry; apply Rabs_right, Rle_ge, Rle_0_sqr). lra. }
  rewrite E. apply sqrt_square. apply Rmult_le_pos; [|apply Rabs_pos]. pose proof (sqrt_pos 2). lra.
Qed.
Lemma sqrt2_1 : (1 < sqrt 2)%R.
Proof. rewrite <- sqrt_1 at 1. apply sqrt_lt_1_alt. lra. Qed.
Lemma std_up : std [0; 1]%R = (1 / 2)%R. Proof. apply std2; lra. Qed.
Lemma std_down : std [1; 0]%R = (1 / 2)%R. Proof. apply std2; lra. Qed.
Lemma std_peak : (/ 10 ^ 6 < std [0; 1; 0])%R.
Proof. rewrite std3. pose proof sqrt2_1. rewrite Rabs_right by lra. lra. Qed.
Lemma std_dip : (/ 10 ^ 6 < std [1; 0; 1])%R.
Proof. rewrite std3. pose proof sqrt2_1. rewrite Rabs_left by lra. lra. Qed.
Lemma bound_up_down : bound [0; 1]%R [1; 0]%R = (sqrt 2 / 2)%R.
Proof.
  unfold bound, corr01, corr. rewrite std_up, std_down, !mean2. unfold dotp, psum, rsum. cbn [zip_with fold_right length INR]. rewrite Rmax_right, Rmin_left by lra. replace ((1 + 1) * (1 - 0 * 0))%R with 2%R by lra. lra.
Qed.
Lemma bound_down_up : bound [1; 0]%R [0; 1]%R = (sqrt 2 / 2)%R.
Proof.
  unfold bound, corr01, corr. rewrite std_up, std_down, !mean2. unfold dotp, psum, rsum. cbn [zip_with fold_right length INR]. rewrite Rmax_right, Rmin_left by lra. replace ((1 + 1) * (1 - 0 * 0))%R with 2%R by lra. lra.
Qed.
Lemma zigzag_sub2 X i : i + 2 <= length X -> (exists k, X = firstn k zigzag) -> sub 2 X i = [0; 1]%R \/ sub 2 X i = [1; 0]%R.
Proof.
  intros Hi (k & ->). rewrite firstn_length in Hi. cbn [length zigzag] in Hi. do 7 (destruct i as [|i]; [do 9 (destruct k as [|k]; [cbn in Hi; try lia; cbn; auto|]); cbn; auto|]). lia.
Qed.
Lemma zigzag_sub3 X i : i + 3 <= length X -> (exists k, X = firstn k zigzag) -> sub 3 X i = [0; 1; 0]%R \/ sub 3 X i = [1; 0; 1]%R.
Proof.
  intros Hi (k & ->). rewrite firstn_length in Hi. cbn [length zigzag] in Hi. do 6 (destruct i as [|i]; [do 9 (destruct k as [|k]; [cbn in Hi; try lia; cbn; auto|]); cbn; auto|]). lia.
Qed.
Lemma zigzag_clean X : (exists k, X = firstn k zigzag) -> clean X 2 3.
Proof.
  intros HX m i Hm Hi. right. assert (Hc : m = 2 \/ m = 3) by lia. destruct Hc as [->| ->].
  - destruct (@zigzag_sub2 X i Hi HX) as [->| ->]; rewrite ?std_up, ?std_down; lra.
  - destruct (@zigzag_sub3 X i Hi HX) as [->| ->]; [exact std_peak|exact std_dip].
Qed.
Lemma zdef_self x : zdef x x = 0%R.
Proof.
  unfold zdef. rewrite sqd_self. rewrite (@Rltb_yes 0 (/ 10 ^ 12))%R by (pose proof eps12_pos; unfold eps12 in *; lra). destruct (uneven x); reflexivity.
Qed.
Lemma zigzag_stuck : stuck zigzag 1 2 3.
Proof.
  intros c Hc. cbn [length zigzag] in Hc.
  pose proof sqrt2_1 as S2. pose proof std_peak as Pk. pose proof std_dip as Dp. assert (T : (0 < / 10 ^ 6)%R) by (apply Rinv_0_lt_compat, pow_lt; lra).
  assert (U : std [0; 1]%R <> 0%R) by (rewrite std_up; lra). assert (V : std [1; 0]%R <> 0%R) by (rewrite std_down; lra).
  destruct c as [|[|[|[|[|[|c]]]]]]; [| | | | | |lia].
  - split; [exact U|]. exists 2, 3. cbn [length zigzag sub skipn firstn]. repeat (split; [unfold apart; lia || assumption|]). rewrite zdef_self, bound_down_up. apply Rdiv_lt_0_compat; lra.
  - split; [exact V|]. exists 3, 4. cbn [length zigzag sub skipn firstn]. repeat (split; [unfold apart; lia || assumption|]). rewrite zdef_self, bound_up_down. apply Rdiv_lt_0_compat; lra.
  - split; [exact U|]. exists 0, 5. cbn [length zigzag sub skipn firstn]. repeat (split; [unfold apart; lia || assumption|]). rewrite zdef_self, bound_down_up. apply Rdiv_lt_0_compat; lra.
  - split; [exact V|]. exists 1, 0. cbn [length zigzag sub skipn firstn]. repeat (split; [unfold apart; lia || assumption|]). rewrite zdef_self, bound_up_down. apply Rdiv_lt_0_compat; lra.
  - split; [exact U|]. exists 0, 1. cbn [length zigzag sub skipn firstn]. repeat (split; [unfold apart; lia || assumption|]). rewrite zdef_self, bound_down_up. apply Rdiv_lt_0_compat; lra.
  - split; [exact V|]. exists 1, 2. cbn [length zigzag sub skipn firstn]. repeat (split; [unfold apart; lia || assumption|]). rewrite zdef_self, bound_up_down. apply Rdiv_lt_0_compat; lra.
Qed.
Theorem C57_motifs_refuted : exists X mn mx size, 2 <= mn <= mx /\ mx <= length X /\ 0 < size /\ clean X mn mx /\
  forall mem memb argsort exceeds, sorts argsort ->
  find_variable_length_motifs mem memb argsort exceeds (fin X) (Z.of_nat mn) (Z.of_nat mx) (Z.of_nat size) (Fin 0%R) = Err ValueError.
Proof.
  exists zigzag, 2, 3, 8. cbn [length zigzag]. do 3 (split; [lia|]). split; [apply zigzag_clean; exists 8; reflexivity|]. intros mem memb argsort exceeds Hsort.
  apply C57_stuck; cbn [length zigzag]; try lia; [exact Hsort|apply zigzag_clean; exists 8; reflexivity|exact zigzag_stuck].
Qed.
Print Assumptions C55_bound.
Print Assumptions C55_distance.
Print Assumptions C56_full.
Print Assumptions C57_motifs_partial.
Print Assumptions C57_stuck.
Print Assumptions C57_motifs_refuted.

(** *** Conditions of C55 and C57 that are necessary *)
Lemma std_peak_sq : (std [0; 1; 0]%R * std [0; 1; 0]%R = 2 / 9)%R.
Proof. rewrite std3, Rabs_right by lra. replace (sqrt 2 / 3 * (1 - 0) * (sqrt 2 / 3 * (1 - 0)))%R with (sqrt 2 * sqrt 2 / 9)%R by lra. rewrite sqrt_sqrt; lra. Qed.
Lemma std_dip_peak : std [1; 0; 1]%R = std [0; 1; 0]%R.
Proof. rewrite !std3. rewrite Rabs_left, Rabs_right by lra. lra. Qed.
Lemma sqd_peak_dip : sqd (znorm [0; 1; 0]%R) (znorm [1; 0; 1]%R) = 12%R.
Proof.
  pose proof std_peak_sq as E. pose proof std_peak as P. assert (T : (0 < / 10 ^ 6)%R) by (apply Rinv_0_lt_compat, pow_lt; lra).
  unfold znorm. rewrite std_dip_peak. set (s := std [0; 1; 0]%R) in *. assert (M1 : mean [0; 1; 0]%R = (1 / 3)%R) by (unfold mean, rsum; cbn [length fold_right INR]; lra). assert (M2 : mean [1; 0; 1]%R = (2 / 3)%R) by (unfold mean, rsum; cbn [length fold_right INR]; lra). rewrite M1, M2.
  assert (I : (/ s * / s = 9 / 2)%R). { rewrite <- Rinv_mult, E. lra. }
  unfold sqd, psum, rsum, Rdiv. cbn [map zip_with fold_right]. fold (9 / 2)%R in I. unfold Rdiv in I. replace 12%R with (24 / 9 * (9 * / 2))%R by lra. rewrite <- I. field. lra.
Qed.
(** The bound ignores noise_std: with noise, it may be above the distance. *)
Theorem C55_noise_refuted : exists noise x y x' y', length x = length y /\ length x' = length y' /\ 0 < length x /\ (0 < std x)%R /\ (0 < std y)%R /\ (0 <= noise)%R /\
  (/ 10 ^ 6 < std (x ++ x'))%R /\ (/ 10 ^ 6 < std (y ++ y'))%R /\ (1 < bound x y / std (y ++ y'))%R /\ zdist noise (x ++ x') (y ++ y') = 0%R.
Proof.
  exists 1%R, [0; 1]%R, [1; 0]%R, [0]%R, [1]%R. cbn [app length]. pose proof std_peak as P. pose proof std_dip as Q. rewrite std_up, std_down, bound_up_down. pose proof sqrt2_1 as S2. assert (T : (0 < / 10 ^ 6)%R) by (apply Rinv_0_lt_compat, pow_lt; lra).
  do 3 (split; [lia|]). do 3 (split; [lra|]). split; [exact P|]. split; [exact Q|]. split.
  - rewrite std3, Rabs_left by lra. apply (Rmult_lt_reg_r (sqrt 2 / 3 * - (0 - 1))); [lra|]. unfold Rdiv at 2. rewrite Rmult_assoc, Rinv_l by lra. lra.
  - unfold zdist, zsq, uneven. rewrite (Rltb_yes P), (Rltb_yes Q), std_dip_peak, Rmax_left by lra. cbn [orb]. rewrite sqd_peak_dip, std_peak_sq. cbn [length INR]. rewrite Rltb_yes; [reflexivity|].
    assert (E : (0 < / 10 ^ 12)%R) by (apply Rinv_0_lt_compat, pow_lt; lra). lra.
Qed.
(** Nearly flat subsequences have distance 0, but a positive bound. *)
Theorem C55_flat_refuted : exists x y x' y', length x = length y /\ length x' = length y' /\ 0 < length x /\ (0 < std x)%R /\ (0 < std y)%R /\
  (1 < bound x y / std (y ++ y'))%R /\ zdef (x ++ x') (y ++ y') = 0%R.
Proof.
  set (t := (/ 10 ^ 6)%R). assert (T : (0 < t)%R) by (apply Rinv_0_lt_compat, pow_lt; lra). pose proof sqrt2_1 as S2.
  assert (S3 : (sqrt 2 < 3)%R) by (pose proof (sqrt_sqrt 2 ltac:(lra)) as Q2; apply Rnot_le_lt; intro Q3; assert (3 * 3 <= sqrt 2 * sqrt 2)%R by (apply Rmult_le_compat; lra); lra).
  assert (B : bound [0; t]%R [t; 0]%R = (sqrt 2 * (t / 2))%R).
  { unfold bound, corr01, corr. rewrite (@std2 0 t (t / 2))%R, (@std2 t 0 (t / 2))%R, !mean2 by lra. unfold dotp, psum, rsum. cbn [zip_with fold_right length INR].
    replace (((0 * t + (t * 0 + 0)) / (1 + 1) - (0 + t) / 2 * ((t + 0) / 2)) / (t / 2 * (t / 2)))%R with (-1)%R by (field; lra). rewrite Rmax_right, Rmin_left by lra. replace ((1 + 1) * (1 - 0 * 0))%R with 2%R by lra. reflexivity. }
  exists [0; t]%R, [t; 0]%R, [0]%R, [t]%R. cbn [app length]. rewrite B. rewrite (@std2 0 t (t / 2))%R, (@std2 t 0 (t / 2))%R by lra. do 3 (split; [lia|]). do 2 (split; [lra|]).
  assert (P3 : (sqrt 2 * t < 3 * t)%R) by (apply Rmult_lt_compat_r; lra). assert (P1 : (1 * t < sqrt 2 * t)%R) by (apply Rmult_lt_compat_r; lra).
  split.
  - rewrite std3, Rabs_left by lra. apply (Rmult_lt_reg_r (sqrt 2 / 3 * - (0 - t))); [lra|]. unfold Rdiv at 2. rewrite Rmult_assoc, Rinv_l by lra. lra.
  - unfold zdef, uneven. fold t. rewrite !std3. rewrite Rabs_right, Rabs_left by lra. rewrite !Rltb_no by lra. reflexivity.
Qed.

(** A single length: any noise *)
Theorem C57_single : forall mem memb argsort exceeds noise X m size, sorts argsort -> 2 <= m <= length X -> 0 < size -> (0 <= noise)%R ->
  exists r, find_variable_length_motifs mem memb argsort exceeds (fin X) (Z.of_nat m) (Z.of_nat m) (Z.of_nat size) (Fin noise) = Ok [r] /\
    top_motif (fun i j => zdist noise (sub m X i) (sub m X j)) (length X + 1 - m) ((m + 1) / 2) r.
Proof.
  intros mem memb argsort exceeds noise X m size Hsort Hm Hs Hn. destruct (@vready_prepare mem memb noise X m ltac:(lia) ltac:(lia) Hn) as (g & Eg & Hg).
  destruct (@full_ok mem memb noise X m ltac:(lia) ltac:(lia) ((m + 1) / 2) argsort Hsort g size Hg Hs) as (lists & r & E & T & _). exists r. split; [|exact T]. unfold find_variable_length_motifs.
  destruct (Z.ltb_spec (Z.of_nat m) 2); [lia|]. destruct (Z.ltb_spec (Z.of_nat m) (Z.of_nat m)); [lia|]. destruct (Z.ltb_spec (Z.of_nat size) 0); [lia|].
  rewrite !Nat2Z.id, map_length. destruct (Nat.ltb_spec (length X + 1) m); [lia|]. rewrite Eg. cbn [bind]. rewrite E. cbn [bind fst snd]. rewrite Nat.sub_diag. reflexivity.
Qed.
(** The arguments that are rejected *)
Theorem C57_rejects : forall mem memb argsort exceeds (series : list (num R)) mn mx size noise, (mn < 2 \/ mx < mn \/ size < 0)%Z ->
  find_variable_length_motifs mem memb argsort exceeds series mn mx size noise = Err RuntimeError.
Proof.
  intros mem memb argsort exceeds series mn mx size noise H. unfold find_variable_length_motifs. destruct (Z.ltb_spec mn 2); [reflexivity|]. destruct (Z.ltb_spec mx mn); [reflexivity|]. destruct (Z.ltb_spec size 0); [reflexivity|lia].
Qed.
(** The cache size 0 passes the check, but closest_indices[-1] raises IndexError for the first window that is not flat. *)
Theorem C57_no_cache : forall mem memb argsort exceeds noise X mn mx, 2 <= mn <= mx -> mn <= length X -> (0 <= noise)%R -> std (sub mn X 0) <> 0%R ->
  find_variable_length_motifs mem memb argsort exceeds (fin X) (Z.of_nat mn) (Z.of_nat mx) 0 (Fin noise) = Err IndexError.
Proof.
  intros mem memb argsort exceeds noise X mn mx Hm HX Hn Hs. destruct (@vready_prepare mem memb noise X mn ltac:(lia) ltac:(lia) Hn) as (g & Eg & Hg). unfold find_variable_length_motifs.
  destruct (Z.ltb_spec (Z.of_nat mn) 2); [lia|]. destruct (Z.ltb_spec (Z.of_nat mx) (Z.of_nat mn)); [lia|]. destruct (Z.ltb_spec 0 0); [lia|].
  rewrite !Nat2Z.id, map_length. destruct (Nat.ltb_spec (length X + 1) mn); [lia|]. rewrite Eg. cbn [bind Z.to_nat].
  assert (Pm : 0 < mn) by lia. unfold full_iteration. destruct (vready_views Hg) as (_ & V1 & _). rewrite V1, map_length, seq_length. replace (length X + 1 - mn) with (Datatypes.S (length X - mn)) by lia. cbn [seq foldM].
  assert (B0 : binv (D noise X mn) (length X + 1 - mn) ((mn + 1) / 2) (fun _ _ => False) (PInf, None)) by (left; split; [reflexivity|intros i j F; exact F]).
  destruct (@try_column_ok mem memb noise X mn ltac:(lia) ltac:(lia) ((mn + 1) / 2) g 0 (PInf, None) _ Hg ltac:(lia) B0) as (g2 & b2 & E2 & Hg2 & Ev & _). rewrite E2. cbn [bind fst snd].
  unfold lb_list. destruct (vready_views Hg2) as (W0 & W1 & W2). rewrite W0, W1, W2, Ev. rewrite !getitem_map_seq by lia. cbn [bind].
  assert (E0 : feqb (Fin (std (sub mn X 0))) fzero = false).
  { unfold feqb, fzero. cbn [fleb fltb nltb nzero NumR]. destruct (Rltb_spec (std (sub mn X 0)) 0), (Rltb_spec 0 (std (sub mn X 0))); cbn [negb andb]; auto; lra. }
  rewrite E0, (@bounds_ok mem memb X mn ltac:(lia) ltac:(lia) ((mn + 1) / 2) 0 ltac:(lia) Hs). reflexivity.
Qed.
Print Assumptions C55_noise_refuted.
Print Assumptions C55_flat_refuted.
Print Assumptions C57_single.
Print Assumptions C57_rejects.
Print Assumptions C57_no_cache.

(** ** Examples *)
Example C55_bound_example : (1 < bound [0; 1] [1; 0] / std [1; 0; 1] <= euclid (znorm [0; 1; 0]) (znorm [1; 0; 1]))%R.
Proof.
  split.
  - rewrite bound_up_down, std3, Rabs_left by lra. pose proof sqrt2_1. apply (Rmult_lt_reg_r (sqrt 2 / 3 * - (0 - 1))); [lra|]. unfold Rdiv at 2. rewrite Rmult_assoc, Rinv_l by lra. lra.
  - apply (C55_bound [0; 1]%R [1; 0]%R [0]%R [1]%R); cbn [length]; try lia; rewrite ?std_up, ?std_down; lra.
Qed.
Example C55_distance_example : (bound [0; 1] [1; 0] / std [1; 0; 1] <= zdef [0; 1; 0] [1; 0; 1] \/ zdef [0; 1; 0] [1; 0; 1] = 0 /\ bound [0; 1] [1; 0] / std [1; 0; 1] < / 10 ^ 6)%R.
Proof. apply (C55_distance [0; 1]%R [1; 0]%R [0]%R [1]%R); cbn [length]; try lia; rewrite ?std_up, ?std_down; try lra; [exact std_peak|exact std_dip]. Qed.
(** The first six elements: window 1 cannot be pruned, so the function returns; its second motif has distance 0. *)
Definition zigzag6 : list R := firstn 6 zigzag.
Lemma bound_up_up : bound [1; 0]%R [1; 0]%R = 0%R.
Proof.
  unfold bound, corr01, corr. rewrite std_down, !mean2. unfold dotp, psum, rsum. cbn [zip_with fold_right length INR]. rewrite Rmax_left by lra. rewrite Rmin_left by lra.
  match goal with |- (sqrt ?e * _ = 0)%R => replace e with 0%R by lra end. rewrite sqrt_0. lra.
Qed.
Lemma zigzag6_free m0 m : 2 <= m0 < m -> m <= 3 -> ~ stuck zigzag6 1 m0 m.
Proof.
  intros H1 H2 H. assert (m0 = 2) by lia. assert (m = 3) by lia. subst. destruct (H 1) as (_ & q1 & q2 & A1 & A2 & B1 & B2 & _ & Hd); [cbn; lia|]. cbn in A1, B1. unfold apart in *.
  assert (q1 = 3) by lia. assert (q2 = 3) by lia. subst. cbn [zigzag6 firstn zigzag sub skipn] in Hd. rewrite bound_up_up, zdef_self in Hd. unfold Rdiv in Hd. rewrite Rmult_0_l in Hd. lra.
Qed.
Example C57_motifs_example : forall mem memb argsort exceeds, sorts argsort ->
  exists a i j, find_variable_length_motifs mem memb argsort exceeds (fin zigzag6) 2 3 1 (Fin 0%R) = Ok [a; Some (i, j)] /\
    (i + 1 < j \/ j + 1 < i) /\ zdef (sub 3 zigzag6 i) (sub 3 zigzag6 j) = 0%R.
Proof.
  intros mem memb argsort exceeds Hsort.
  destruct (@C57_motifs_partial mem memb argsort exceeds zigzag6 2 3 1 Hsort ltac:(lia) ltac:(cbn; lia) ltac:(lia) (@zigzag_clean zigzag6 (ex_intro _ 6 eq_refl))) as [(r & E & HL & HT)|(_ & m0 & m & H1 & H2 & H)].
  - destruct r as [|a [|b [|? ?]]]; try discriminate HL. specialize (HT 3 ltac:(lia)). cbn [nth Nat.sub length zigzag6 firstn zigzag Nat.add] in HT. cbn [Nat.div Nat.divmod Nat.add fst snd] in HT.
    destruct b as [[i j]|]; cbn [top_motif] in HT.
    + exists a, i, j. split; [exact E|]. destruct HT as (Hi & Hj & Ha & Hmin). split; [exact Ha|]. specialize (Hmin 0 2 ltac:(lia) ltac:(lia) ltac:(unfold apart; lia)). cbn [sub firstn skipn] in Hmin. rewrite zdef_self in Hmin.
      apply Rle_antisym; [exact Hmin|]. rewrite <- (@zdist_def (sub 3 zigzag6 i)). { unfold zdist. destruct (Rltb _ _); [lra|apply sqrt_pos]. }
      destruct (sub 3 zigzag6 i) eqn:Es; [|cbn; lia]. exfalso. apply (f_equal (@length R)) in Es. unfold sub in Es. rewrite firstn_length, skipn_length in Es. cbn [length zigzag6 firstn zigzag] in Es.
      lia.
    + exfalso. apply (HT 0 2); [lia|lia|unfold apart; lia].
  - exfalso. exact (@zigzag6_free m0 m H1 H2 H).
Qed.
Example C57_single_example : forall mem memb argsort exceeds, sorts argsort ->
  exists i j, find_variable_length_motifs mem memb argsort exceeds (fin zigzag) 3 3 5 (Fin 0%R) = Ok [Some (i, j)] /\ (i + 2 < j \/ j + 2 < i).
Proof.
  intros mem memb argsort exceeds Hsort. destruct (@C57_single mem memb argsort exceeds 0%R zigzag 3 5 Hsort ltac:(cbn; lia) ltac:(lia) ltac:(lra)) as (r & E & T). destruct r as [[i j]|]; cbn [top_motif] in T.
  - exists i, j. split; [exact E|]. apply T.
  - exfalso. apply (T 0 3); [cbn; lia|cbn; lia|unfold apart; cbn; lia].
Qed.
Example C57_rejects_example : forall mem memb argsort exceeds, find_variable_length_motifs mem memb argsort exceeds (fin zigzag) 4 3 5 (Fin 0%R) = Err RuntimeError.
Proof. intros. apply C57_rejects. lia. Qed.
Example C57_no_cache_example : forall mem memb argsort exceeds, find_variable_length_motifs mem memb argsort exceeds (fin zigzag) 2 3 0 (Fin 0%R) = Err IndexError.
Proof. intros. apply (@C57_no_cache mem memb argsort exceeds 0%R zigzag 2 3); [lia|cbn; lia|lra|]. cbn [sub zigzag firstn skipn]. rewrite std_up. lra. Qed.
(** "cache_size can only affect performance" is false. *)
Theorem C57_cache_refuted : exists X mn mx, 2 <= mn <= mx /\ mx <= length X /\ clean X mn mx /\ forall mem memb argsort exceeds, sorts argsort ->
  find_variable_length_motifs mem memb argsort exceeds (fin X) (Z.of_nat mn) (Z.of_nat mx) 0 (Fin 0%R) = Err IndexError /\
  exists r, find_variable_length_motifs mem memb argsort exceeds (fin X) (Z.of_nat mn) (Z.of_nat mx) 1 (Fin 0%R) = Ok r.
Proof.
  exists zigzag6, 2, 3. split; [lia|]. split; [cbn; lia|]. split; [apply zigzag_clean; exists 6; reflexivity|]. intros mem memb argsort exceeds Hsort. split.
  - apply C57_no_cache; [lia|cbn; lia|lra|]. cbn [sub zigzag6 zigzag firstn skipn]. rewrite std_up. lra.
  - destruct (@C57_motifs_example mem memb argsort exceeds Hsort) as (a & i & j & E & _). eexists. exact E.
Qed.
Print Assumptions C57_cache_refuted.
(** The lists of the zigzag: the zeroth window has entries, among them one whose bound is positive. *)
Example C56_full_example : forall mem memb argsort, sorts argsort ->
  exists g lists r l e, zn_prepare mem memb (Fin 0%R) 2 2 (fin zigzag) None = Ok g /\ full_iteration mem argsort g 8 1 = Ok (lists, r) /\
    nth_error lists 0 = Some l /\ In e l /\ lb_q e = 3 /\ lb_base e = Fin (sqrt 2 / 2)%R /\ lb_dot e = Fin 0%R.
Proof.
  intros mem memb argsort Hsort. destruct (@C56_full mem memb argsort 0%R zigzag 2 8 1 Hsort ltac:(cbn; lia) ltac:(lra) ltac:(lia)) as (g & lists & r & Eg & E & _ & _ & H).
  destruct (H 0 ltac:(cbn; lia)) as (l & El & ND & _ & He & (HLen & Hall) & _). 
  assert (S0 : std (sub 2 zigzag 0) <> 0%R) by (cbn [sub zigzag firstn skipn]; rewrite std_up; lra).
  assert (I : In 3 (map (@lb_q R) l)).
  { destruct Hall as [Hz|[Hz|Hz]]; [contradiction| |apply Hz; [cbn; lia|unfold apart; lia|cbn [sub zigzag firstn skipn]; rewrite std_down; lra]].
    exfalso. assert (Hi : incl (map (@lb_q R) l) (seq 0 7)). { intros q (e & <- & Ie)%in_map_iff. destruct (He e Ie) as (_ & Hq & _). apply in_seq. cbn in Hq. lia. }
    apply (NoDup_incl_length ND) in Hi. rewrite map_length, seq_length in Hi. lia. }
  apply in_map_iff in I. destruct I as (e & Eq & Ie). exists g, lists, r, l, e. repeat (split; [assumption|]). destruct (He e Ie) as (_ & _ & Hd). rewrite Eq in Hd.
  destruct Hd as (Hd & Hb); [unfold apart; lia|]. cbn [sub zigzag firstn skipn] in Hd, Hb. split.
  - rewrite Hb; [|rewrite std_down; lra]. rewrite bound_down_up. reflexivity.
  - rewrite Hd. f_equal. unfold dotp, psum, rsum. cbn [zip_with fold_right]. lra.
Qed.
