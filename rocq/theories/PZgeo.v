(** * PZgeo: geometry of the z-normalised distance *)
From Coq Require Import QArith Reals Lra.
From Verif Require Import Np NpFacts SReal PArith PStats PEuclid PZdist.
Set Implicit Arguments.
Open Scope R_scope.

Lemma zdist_def x y : (0 < length x)%nat -> zdist 0 x y = zdef x y.
Proof.
  intro H. unfold zdist, zdef, zsq. pose proof eps12_pos as P. pose proof eps12_lt1 as P1. unfold eps12 in *.
  assert (N : 1 <= INR (length x)) by (apply (le_INR 1); lia).
  destruct (uneven x); destruct (uneven y); cbn [andb orb]; rewrite ?no_noise, ?Rminus_0_r; [reflexivity| | |].
  - destruct (Rltb_spec (INR (length x)) (/ 10 ^ 12)); [lra|reflexivity].
  - destruct (Rltb_spec (INR (length x)) (/ 10 ^ 12)); [lra|reflexivity].
  - destruct (Rltb_spec 0 (/ 10 ^ 12)); [reflexivity|lra].
Qed.

(** the distance is a monotone function of the squared value *)
Definition clip12 (v : R) : R := if Rltb v (/ 10 ^ 12) then 0 else sqrt v.
Lemma clip12_nonneg v : 0 <= clip12 v.
Proof. unfold clip12. destruct (Rltb_spec v (/ 10 ^ 12)); [lra|apply sqrt_pos]. Qed.
Lemma clip12_mono u v : u <= v -> clip12 u <= clip12 v.
Proof.
  intro H. unfold clip12. destruct (Rltb_spec u (/ 10 ^ 12)); [apply clip12_nonneg|].
  destruct (Rltb_spec v (/ 10 ^ 12)); [lra|]. apply sqrt_le_1_alt. exact H.
Qed.
Lemma zdist_clip noise x y : zdist noise x y = clip12 (zsq noise x y).
Proof. reflexivity. Qed.

Lemma corr_nonneg n noise a : 0 <= n -> 0 < a -> 0 <= 2 * (n + 1) * (noise * noise) / (a * a).
Proof.
  intros Hn Ha. apply Rmult_le_pos; [|left; apply Rinv_0_lt_compat, Rmult_lt_0_compat; exact Ha].
  apply Rmult_le_pos; [lra|]. apply Rle_0_sqr.
Qed.
Lemma max_std_pos x y : uneven x || uneven y = true -> 0 < Rmax (std x) (std y).
Proof. intro H. apply orb_true_iff in H as [H|H]; apply uneven_std in H; auto using Rmax_pos_l, Rmax_pos_r. Qed.

Lemma zsq_noise noise noise' x y : 0 <= noise <= noise' -> zsq noise' x y <= zsq noise x y.
Proof.
  intro H. unfold zsq. destruct (uneven x || uneven y) eqn:U; [|lra]. apply max_std_pos in U.
  apply Rplus_le_compat_l, Ropp_le_contravar. apply Rmult_le_compat_r; [left; apply Rinv_0_lt_compat, Rmult_lt_0_compat; exact U|].
  apply Rmult_le_compat_l; [pose proof (pos_INR (length x)); lra|]. apply Rmult_le_compat; lra.
Qed.
Lemma zdist_noise noise noise' x y : 0 <= noise <= noise' -> 0 <= zdist noise' x y <= zdist noise x y.
Proof. intro H. rewrite !zdist_clip. split; [apply clip12_nonneg|]. apply clip12_mono, zsq_noise, H. Qed.

Lemma rsum_le {T} (f g : T -> R) l : (forall x, f x <= g x) -> rsum (map f l) <= rsum (map g l).
Proof. intro H. induction l as [|a l IH]; cbn [map]; [lra|]. rewrite !rsum_cons. specialize (H a). lra. Qed.
Lemma znorm_sq x : (0 < length x)%nat -> 0 < std x -> rsum (map (fun v => v * v) (znorm x)) = INR (length x).
Proof.
  intros H P. unfold znorm. rewrite map_map.
  transitivity (rsum (map (fun a => / (std x * std x) * ((a - mean x) * (a - mean x))) x)).
  { apply rsum_map_ext. intros. field. lra. }
  rewrite rsum_map_mult, rsum_dev_sq by exact H. field. lra.
Qed.
Lemma sqd_znorm_le x y : length x = length y -> (0 < length x)%nat -> 0 < std x -> 0 < std y -> sqd (znorm x) (znorm y) <= 4 * INR (length x).
Proof.
  intros L H Px Py. pose proof (sqd_affine (fun v => v) (fun v => v) (znorm x) (znorm y)) as E. rewrite !map_id in E. rewrite E.
  apply Rle_trans with (rsum (map (fun p => 2 * (fst p * fst p) + 2 * (snd p * snd p)) (combine (znorm x) (znorm y)))).
  - apply rsum_le. intros [a b]. cbn [fst snd]. pose proof (Rle_0_sqr (a + b)) as S. unfold Rsqr in S. lra.
  - rewrite rsum_map_add, !rsum_map_mult.
    rewrite (rsum_fst (fun v => v * v)), (rsum_snd (fun v => v * v)) by (rewrite !length_znorm; exact L).
    rewrite !znorm_sq by (lia || assumption). rewrite L. lra.
Qed.
Lemma zdist_range noise x y : length x = length y -> (0 < length x)%nat -> 0 <= noise -> 0 <= zdist noise x y <= 2 * sqrt (INR (length x)).
Proof.
  intros L H Hn. destruct (@zdist_noise 0 noise x y ltac:(lra)) as [A B]. split; [exact A|]. eapply Rle_trans; [exact B|].
  rewrite zdist_def by exact H. unfold zdef. assert (N : 0 < INR (length x)) by (apply INR_pos; exact H).
  assert (E : 2 * sqrt (INR (length x)) = sqrt (4 * INR (length x))).
  { rewrite sqrt_mult by lra. replace 4 with (2 * 2) by lra. rewrite sqrt_square by lra. reflexivity. }
  rewrite E. pose proof (sqrt_pos (4 * INR (length x))).
  destruct (uneven x) eqn:Ux; destruct (uneven y) eqn:Uy; cbn [andb orb]; [| | |lra].
  - destruct (Rltb (sqd (znorm x) (znorm y)) (/ 10 ^ 12)); [assumption|]. apply uneven_std in Ux, Uy. apply sqrt_le_1_alt.
    apply sqd_znorm_le; assumption.
  - apply sqrt_le_1_alt. lra.
  - apply sqrt_le_1_alt. lra.
Qed.
Lemma zsq_sym noise x y : length x = length y -> zsq noise x y = zsq noise y x.
Proof.
  intro L. unfold zsq. rewrite <- L, (sqd_sym (znorm y)), (Rmax_comm (std y)), (orb_comm (uneven y)). destruct (uneven x); destruct (uneven y); reflexivity.
Qed.
Lemma zdist_sym noise x y : length x = length y -> zdist noise x y = zdist noise y x.
Proof. intro L. rewrite !zdist_clip, zsq_sym by exact L. reflexivity. Qed.
Lemma sqd_self x : sqd x x = 0.
Proof. induction x as [|a x IH]; [reflexivity|]. rewrite sqd_cons, IH. unfold sqdiff. lra. Qed.
Lemma zdist_self noise x : zdist noise x x = 0.
Proof.
  rewrite zdist_clip. unfold clip12. destruct (Rltb_spec (zsq noise x x) (/ 10 ^ 12)) as [|N]; [reflexivity|]. exfalso. apply N. clear N.
  pose proof eps12_pos as P. unfold eps12 in P. unfold zsq. rewrite sqd_self. destruct (uneven x) eqn:U; cbn [orb]; [|lra].
  apply uneven_std in U. pose proof (corr_nonneg noise (pos_INR (length x)) (Rmax_pos_l (std x) U)). lra.
Qed.

(** positive affine maps *)
Definition affine (a b : R) (x : list R) : list R := map (fun v => a * v + b) x.
Lemma mean_affine a b x : (0 < length x)%nat -> mean (affine a b x) = a * mean x + b.
Proof.
  intro H. unfold mean, affine. rewrite map_length, rsum_map_add, rsum_map_mult, rsum_id, rsum_map_const. field. pose proof (INR_pos H). lra.
Qed.
Lemma std_affine a b x : (0 < length x)%nat -> 0 <= a -> std (affine a b x) = a * std x.
Proof.
  intros H Ha. unfold std. fold (variance (affine a b x)). fold (variance x).
  replace (variance (affine a b x)) with (a * a * variance x).
  - rewrite sqrt_mult; [|apply Rle_0_sqr|apply variance_nonneg]. rewrite sqrt_square by exact Ha. reflexivity.
  - unfold variance. rewrite mean_affine by exact H. unfold affine. rewrite map_map. unfold mean. rewrite !map_length. fold (mean x).
    rewrite (rsum_map_ext (fun v => (a * v + b - (a * mean x + b)) * (a * v + b - (a * mean x + b))) (fun v => a * a * ((v - mean x) * (v - mean x)))) by (intros; lra).
    rewrite rsum_map_mult. field. pose proof (INR_pos H). lra.
Qed.
Lemma znorm_affine a b x : (0 < length x)%nat -> 0 < a -> 0 < std x -> znorm (affine a b x) = znorm x.
Proof.
  intros H Ha Hs. unfold znorm. rewrite std_affine, mean_affine by (assumption || lra). unfold affine. rewrite map_map. apply map_ext. intro v. field. lra.
Qed.
Lemma zdist_affine a b x y : (0 < length x)%nat -> 0 < a -> uneven x = true -> uneven (affine a b x) = true -> zdist 0 (affine a b x) y = zdist 0 x y.
Proof.
  intros H Ha U U'. rewrite !zdist_def by (unfold affine; rewrite ?map_length; exact H). unfold zdef. rewrite U, U'.
  apply uneven_std in U. rewrite znorm_affine by assumption. unfold affine. rewrite map_length. reflexivity.
Qed.
(** how long must the scale be for a non-flat subsequence to stay so *)
Lemma uneven_affine a b x : (0 < length x)%nat -> 1 <= a -> uneven x = true -> uneven (affine a b x) = true.
Proof.
  intros H Ha U. pose proof (uneven_std _ U). unfold uneven in *. apply Rltb_true in U. apply Rltb_true. rewrite std_affine by (assumption || lra).
  apply Rlt_le_trans with (1 * std x); [lra|]. apply Rmult_le_compat_r; lra.
Qed.
