(** * PValmodLb: the lower bound of VALMOD *)
From Coq Require Import QArith Reals Lra.
From Verif Require Import Np NpFacts MArith MStats MZnorm SReal SValmod PArith PStats PEuclid PZdist PZgeo.
Set Implicit Arguments.
Open Scope R_scope.

Lemma rsum_app a b : rsum (a ++ b) = rsum a + rsum b.
Proof. induction a as [|x a IH]; cbn [app]; rewrite ?rsum_cons; [unfold rsum; simpl; lra|]. rewrite IH. lra. Qed.
Lemma rsum_nonneg l : (forall x, In x l -> 0 <= x) -> 0 <= rsum l.
Proof. induction l as [|x l IH]; intro H; [unfold rsum; simpl; lra|]. rewrite rsum_cons. pose proof (H x (or_introl eq_refl)). assert (0 <= rsum l) by (apply IH; intros; apply H; right; assumption). lra. Qed.
Lemma combine_app' {S T} (a a' : list S) (b b' : list T) : length a = length b -> combine (a ++ a') (b ++ b') = combine a b ++ combine a' b'.
Proof. revert b. induction a as [|x a IH]; intros [|y b] H; simpl in *; try discriminate; [reflexivity|]. f_equal. apply IH. lia. Qed.

(** Sum of squares around another point *)
Lemma rsum_around x c : (0 < length x)%nat -> rsum (map (fun a => (a - c) * (a - c)) x) = INR (length x) * (std x * std x) + INR (length x) * ((mean x - c) * (mean x - c)).
Proof.
  intro H. rewrite <- (rsum_dev_sq x H). transitivity (rsum (map (fun a => (a - mean x) * (a - mean x) + (2 * (mean x - c) * (a - mean x) + (mean x - c) * (mean x - c))) x)); [apply rsum_map_ext; intros; lra|].
  rewrite !rsum_map_add, rsum_map_mult, rsum_map_const, (rsum_dev x H). lra.
Qed.
(** Extension never decreases the sum of the squared deviations. *)
Lemma std_extend x x' : (0 < length x)%nat -> INR (length x) * (std x * std x) <= INR (length (x ++ x')) * (std (x ++ x') * std (x ++ x')).
Proof.
  intro H. rewrite <- (rsum_dev_sq (x ++ x')) by (rewrite app_length; lia). set (c := mean (x ++ x')). rewrite map_app, rsum_app, (rsum_around x c H).
  assert (0 <= rsum (map (fun a => (a - c) * (a - c)) x')). { apply rsum_nonneg. intros v Hv. apply in_map_iff in Hv. destruct Hv as (a & <- & _). apply Rle_0_sqr. }
  assert (0 < INR (length x)) by (apply (lt_INR 0); lia). assert (0 <= (mean x - c) * (mean x - c)) by apply Rle_0_sqr. assert (0 <= INR (length x) * ((mean x - c) * (mean x - c))) by (apply Rmult_le_pos; lra). lra.
Qed.
Lemma std_nonneg x : 0 <= std x.
Proof. unfold std. apply sqrt_pos. Qed.
Lemma std_extend_pos x x' : (0 < length x)%nat -> 0 < std x -> 0 < std (x ++ x').
Proof.
  intros H Hx. pose proof (std_extend x x' H) as HE. pose proof (std_nonneg (x ++ x')) as HN. assert (0 < INR (length x)) by (apply (lt_INR 0); lia).
  destruct HN as [HN|HN]; [exact HN|exfalso]. rewrite <- HN in HE. assert (0 < INR (length x) * (std x * std x)) by (apply Rmult_lt_0_compat; [assumption|nra]). lra.
Qed.

(** Sum of squared differences of two sequences that are shifted and scaled *)
Lemma sqd_shift x y A B c d : length x = length y -> (0 < length x)%nat -> 0 < std x -> 0 < std y ->
  rsum (map (fun p => (A * (fst p - c) - B * (snd p - d)) * (A * (fst p - c) - B * (snd p - d))) (combine x y)) >=
  INR (length x) * ((A * std x) * (A * std x) + (B * std y) * (B * std y) - 2 * (A * std x) * (B * std y) * corr x y).
Proof.
  intros L H Px Py. assert (Hn : 0 < INR (length x)) by (apply (lt_INR 0); lia).
  set (e := A * (mean x - c) - B * (mean y - d)).
  eapply Rge_trans with (rsum (map (fun p => A * A * ((fst p - mean x) * (fst p - mean x)) + (B * B * ((snd p - mean y) * (snd p - mean y)) + (- 2 * A * B * ((fst p - mean x) * (snd p - mean y)) +
      (2 * e * A * (fst p - mean x) + (- 2 * e * B * (snd p - mean y) + e * e))))) (combine x y))).
  { right. apply rsum_map_ext. intros p _. unfold e. lra. }
  rewrite !rsum_map_add, !rsum_map_mult, rsum_map_const, combine_length.
  rewrite (rsum_fst (fun v => (v - mean x) * (v - mean x)) x y L), (rsum_snd (fun v => (v - mean y) * (v - mean y)) x y L).
  rewrite (rsum_fst (fun v => v - mean x) x y L), (rsum_snd (fun v => v - mean y) x y L).
  rewrite rsum_dev_prod, !rsum_dev_sq, !rsum_dev by lia. rewrite <- L, Nat.min_id. unfold corr.
  assert (Ed : dotp x y - INR (length x) * mean x * mean y = INR (length x) * ((dotp x y / INR (length x) - mean x * mean y) / (std x * std y)) * (std x * std y)) by (field; lra).
  rewrite Ed. set (r := (dotp x y / INR (length x) - mean x * mean y) / (std x * std y)). assert (0 <= e * e) by nra. nra.
Qed.

Lemma bound_sound x y x' y' : length x = length y -> length x' = length y' -> (0 < length x)%nat -> 0 < std x -> 0 < std y ->
  bound x y / std (y ++ y') <= euclid (znorm (x ++ x')) (znorm (y ++ y')).
Proof.
  intros L L' H Px Py. pose proof (std_extend_pos x x' H Px) as PX. pose proof (std_extend_pos y y' ltac:(lia) Py) as PY.
  set (X := x ++ x') in *. set (Y := y ++ y') in *. assert (Hn : 0 < INR (length x)) by (apply (lt_INR 0); lia).
  unfold euclid. set (q := corr01 x y). set (B := std y / std Y). set (a := std x / std X).
  assert (HB : 0 < B) by (apply Rdiv_lt_0_compat; assumption). assert (Ha : 0 < a) by (apply Rdiv_lt_0_compat; assumption).
  assert (Hq : 0 <= q <= 1). { unfold q, corr01. split; [apply Rmin_glb; [apply Rmax_r|lra]|apply Rmin_r]. }
  assert (E1 : bound x y / std Y = sqrt (INR (length x) * (1 - q * q) * (B * B))).
  { rewrite sqrt_mult_alt by (apply Rmult_le_pos; nra). rewrite sqrt_square by lra. unfold bound, B. fold q. field. lra. }
  rewrite E1. apply sqrt_le_1_alt.
  destruct (Rle_dec (corr x y) 1) as [R1|R1].
  2: { assert (Eq : q = 1). { unfold q, corr01. rewrite Rmax_left, Rmin_right by lra. reflexivity. }
       rewrite Eq. replace (INR (length x) * (1 - 1 * 1) * (B * B)) with 0 by lra. apply sqd_nonneg. }
  assert (E2 : sqd (znorm X) (znorm Y) >= INR (length x) * (a * a + B * B - 2 * a * B * corr x y)).
  { unfold znorm. rewrite sqd_affine. replace (combine X Y) with (combine x y ++ combine x' y') by (unfold X, Y; symmetry; apply combine_app'; exact L). rewrite map_app, rsum_app.
    assert (N2 : 0 <= rsum (map (fun p => ((fst p - mean X) / std X - (snd p - mean Y) / std Y) * ((fst p - mean X) / std X - (snd p - mean Y) / std Y)) (combine x' y'))).
    { apply rsum_nonneg. intros v Hv. apply in_map_iff in Hv. destruct Hv as (p & <- & _). apply Rle_0_sqr. }
    pose proof (@sqd_shift x y (/ std X) (/ std Y) (mean X) (mean Y) L H Px Py) as S1.
    match type of S1 with ?s >= _ => assert (E3 : rsum (map (fun p => ((fst p - mean X) / std X - (snd p - mean Y) / std Y) * ((fst p - mean X) / std X - (snd p - mean Y) / std Y)) (combine x y)) = s) end.
    { apply rsum_map_ext. intros p _. unfold Rdiv. lra. }
    rewrite E3. unfold a, B, Rdiv. replace (std x * / std X) with (/ std X * std x) by lra. replace (std y * / std Y) with (/ std Y * std y) by lra. lra. }
  assert (E3 : INR (length x) * (1 - q * q) * (B * B) <= INR (length x) * (a * a + B * B - 2 * a * B * corr x y)); [|lra].
  rewrite Rmult_assoc. apply Rmult_le_compat_l; [lra|]. unfold q, corr01. set (r := corr x y) in *. clearbody r. unfold Rmin, Rmax. destruct (Rle_dec r 0) as [Hr|Hr].
  - destruct (Rle_dec 0 1); [|lra]. assert (0 <= a * B * (- r)) by (apply Rmult_le_pos; [apply Rmult_le_pos|]; lra). assert (0 <= a * a) by apply Rle_0_sqr. lra.
  - destruct (Rle_dec r 1); [|lra]. assert (0 <= (a - B * r) * (a - B * r)) by apply Rle_0_sqr. lra.
Qed.
