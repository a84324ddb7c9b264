(** * PZdist: the z-normalised distance *)
From Coq Require Import QArith Reals Lra.
From Verif Require Import Np NpFacts MArith MStats MZnorm SReal PArith PStats.
Set Implicit Arguments.
Open Scope R_scope.

(** ** Sums *)
Lemma rsum_map_add {T} (f g : T -> R) l : rsum (map (fun x => f x + g x) l) = rsum (map f l) + rsum (map g l).
Proof. induction l as [|a l IH]; cbn [map]; rewrite ?rsum_cons; [unfold rsum; simpl; lra|]. rewrite IH. lra. Qed.
Lemma rsum_map_mult {T} k (f : T -> R) l : rsum (map (fun x => k * f x) l) = k * rsum (map f l).
Proof. induction l as [|a l IH]; cbn [map]; rewrite ?rsum_cons; [unfold rsum; simpl; lra|]. rewrite IH. lra. Qed.
Lemma rsum_map_const {T} k (l : list T) : rsum (map (fun _ => k) l) = INR (length l) * k.
Proof.
  induction l as [|a l IH]; [unfold rsum; simpl; lra|]. cbn [map length]. rewrite rsum_cons, IH, S_INR. lra.
Qed.
Lemma rsum_map_ext {T} (f g : T -> R) l : (forall x, In x l -> f x = g x) -> rsum (map f l) = rsum (map g l).
Proof. intro H. f_equal. apply map_ext_in. exact H. Qed.
Lemma psum_combine f x y : psum f x y = rsum (map (fun p => f (fst p) (snd p)) (combine x y)).
Proof. unfold psum. f_equal. revert y. induction x as [|a x IH]; intros [|b y]; cbn [zip_with combine map]; auto. f_equal. apply IH. Qed.
Lemma rsum_fst {T} (g : R -> R) (x : list R) (y : list T) : length x = length y -> rsum (map (fun p => g (fst p)) (combine x y)) = rsum (map g x).
Proof. intro H. rewrite <- (map_map fst g). f_equal. f_equal. revert y H. induction x as [|a x IH]; intros [|b y] H; simpl in *; auto; try lia. f_equal. apply IH. lia. Qed.
Lemma rsum_snd {T} (g : R -> R) (x : list T) (y : list R) : length x = length y -> rsum (map (fun p => g (snd p)) (combine x y)) = rsum (map g y).
Proof. intro H. rewrite <- (map_map snd g). f_equal. f_equal. revert y H. induction x as [|a x IH]; intros [|b y] H; simpl in *; auto; try lia. f_equal. apply IH. lia. Qed.
Lemma rsum_id l : rsum (map (fun x => x) l) = rsum l.
Proof. rewrite map_id. reflexivity. Qed.

(** ** Mean and standard deviation *)
Lemma rsum_mean x : (0 < length x)%nat -> rsum x = INR (length x) * mean x.
Proof. intro H. unfold mean. field. pose proof (INR_pos H). lra. Qed.
Lemma std_sq x : std x * std x = variance x.
Proof. unfold std. fold (variance x). apply sqrt_sqrt. apply variance_nonneg. Qed.
Lemma rsum_dev_sq x : (0 < length x)%nat -> rsum (map (fun a => (a - mean x) * (a - mean x)) x) = INR (length x) * (std x * std x).
Proof.
  intro H. rewrite std_sq. unfold variance. unfold mean at 3. rewrite map_length. field. pose proof (INR_pos H). lra.
Qed.
Lemma rsum_dev x : (0 < length x)%nat -> rsum (map (fun a => a - mean x) x) = 0.
Proof.
  intro H. transitivity (rsum (map (fun a => a + - mean x) x)); [apply rsum_map_ext; intros; lra|].
  rewrite rsum_map_add, rsum_id, rsum_map_const, (rsum_mean x H). lra.
Qed.
(** covariance *)
Lemma rsum_dev_prod x y : length x = length y -> (0 < length x)%nat ->
  rsum (map (fun p => (fst p - mean x) * (snd p - mean y)) (combine x y)) = dotp x y - INR (length x) * mean x * mean y.
Proof.
  intros L H. unfold dotp. rewrite psum_combine.
  transitivity (rsum (map (fun p => fst p * snd p + (- mean y * fst p + (- mean x * snd p + mean x * mean y))) (combine x y))).
  { apply rsum_map_ext. intros; lra. }
  rewrite !rsum_map_add, !rsum_map_mult, rsum_map_const, combine_length.
  pose proof (rsum_fst (fun v => v) x y L) as E1. pose proof (rsum_snd (fun v => v) x y L) as E2. rewrite rsum_id in E1, E2.
  change (map (fun p : R * R => fst p)) with (map (@fst R R)) in E1. change (map (fun p : R * R => snd p)) with (map (@snd R R)) in E2.
  rewrite E1, E2.
  rewrite (rsum_mean x H), (rsum_mean y) by lia. rewrite L, Nat.min_id. lra.
Qed.

(** ** The identity behind the formula *)
Lemma length_znorm x : length (znorm x) = length x.
Proof. unfold znorm. apply map_length. Qed.
Lemma sqd_affine (f g : R -> R) x y : sqd (map f x) (map g y) = rsum (map (fun p => (f (fst p) - g (snd p)) * (f (fst p) - g (snd p))) (combine x y)).
Proof. unfold sqd, psum. rewrite zip_with_map. f_equal. revert y. induction x as [|a x IH]; intros [|b y]; cbn [zip_with combine map]; auto. f_equal. apply IH. Qed.
Lemma sqd_znorm x y : length x = length y -> (0 < length x)%nat -> 0 < std x -> 0 < std y ->
  2 * (INR (length x) - (dotp x y - INR (length x) * mean x * mean y) / (std x * std y)) = sqd (znorm x) (znorm y).
Proof.
  intros L H Px Py. unfold znorm. rewrite sqd_affine.
  transitivity (rsum (map (fun p => / (std x * std x) * ((fst p - mean x) * (fst p - mean x)) +
     (/ (std y * std y) * ((snd p - mean y) * (snd p - mean y)) + - 2 * / (std x * std y) * ((fst p - mean x) * (snd p - mean y)))) (combine x y))).
  2: { apply rsum_map_ext. intros p _. field. lra. }
  rewrite !rsum_map_add, !rsum_map_mult.
  rewrite (rsum_fst (fun v => (v - mean x) * (v - mean x)) x y L), (rsum_snd (fun v => (v - mean y) * (v - mean y)) x y L).
  rewrite rsum_dev_prod, !rsum_dev_sq by lia. rewrite L. field. lra.
Qed.

(** ** The cells calculated by the model *)
Definition eps12 : R := / 10 ^ 12.
Definition thr : R := / 10 ^ 6.
Lemma fneg10_fin k n : (10 ^ k)%Z = (10 ^ Z.of_nat n)%Z -> fneg10 k = Fin (/ 10 ^ n).
Proof.
  intro H. unfold fneg10. cbn [ndiv nofZ NumR]. f_equal. unfold Rdiv. rewrite Rmult_1_l. f_equal. rewrite H. rewrite pow_IZR. reflexivity.
Qed.
Lemma EPS_fin : EPS = Fin eps12.
Proof. apply (fneg10_fin 12 12). reflexivity. Qed.
Lemma THR_fin : THRESHOLD = Fin thr.
Proof. apply (fneg10_fin 6 6). reflexivity. Qed.
Lemma thr_pos : 0 < thr.
Proof. unfold thr. apply Rinv_0_lt_compat, pow_lt. lra. Qed.
Lemma eps12_pos : 0 < eps12.
Proof. unfold eps12. apply Rinv_0_lt_compat, pow_lt. lra. Qed.
Lemma eps12_lt1 : eps12 < 1.
Proof. unfold eps12. rewrite <- Rinv_1. apply Rinv_lt_contravar; [rewrite Rmult_1_l; apply pow_lt; lra|]. apply Rlt_pow_R1; [lra|lia]. Qed.

Lemma uneven_std x : uneven x = true -> 0 < std x.
Proof. unfold uneven. intro H. apply Rltb_true in H. pose proof thr_pos. unfold thr in *. lra. Qed.

Lemma fdiv_fin a b : 0 < b -> fdiv (Fin a) (Fin b) = Fin (a / b).
Proof. intro H. cbn [fdiv nltb nzero ndiv NumR]. rewrite (proj2 (Rltb_true 0 b) H), orb_true_r. reflexivity. Qed.
Lemma formula_fin x y : length x = length y -> (0 < length x)%nat -> 0 < std x -> 0 < std y ->
  formula (Fin (INR (length x))) (Fin (dotp x y)) (Fin (mean x)) (Fin (mean y)) (Fin (std x)) (Fin (std y)) = Fin (sqd (znorm x) (znorm y)).
Proof.
  intros L H Px Py. unfold formula. cbn [fmul fsub nmul nsub NumR]. rewrite fdiv_fin by (apply Rmult_lt_0_compat; assumption).
  cbn [fmul fsub nmul nsub nofZ fofZ NumR]. f_equal. rewrite <- sqd_znorm by assumption. reflexivity.
Qed.
Lemma fmaximum_fin a b : fmaximum (Fin a) (Fin b) = Fin (Rmax a b).
Proof. unfold fmaximum. cbn [isnan fltb nltb NumR]. unfold Rmax. destruct (Rltb_spec a b); destruct (Rle_dec a b); auto; try lra. f_equal. lra. Qed.
Lemma correction_fin m noise a b : 0 < Rmax a b ->
  correction (Fin m) (Fin noise) (Fin a) (Fin b) = Fin (2 * (m + 1) * (noise * noise) / (Rmax b a * Rmax b a)).
Proof.
  intro H. unfold correction. rewrite fmaximum_fin. unfold fsquare. cbn [fofZ fadd fmul nofZ nadd nmul NumR].
  rewrite fdiv_fin by (apply Rmult_lt_0_compat; assumption). rewrite (Rmax_comm b a). reflexivity.
Qed.
Lemma Rmax_pos_l a b : 0 < a -> 0 < Rmax a b.
Proof. intro H. eapply Rlt_le_trans; [exact H|apply Rmax_l]. Qed.
Lemma Rmax_pos_r a b : 0 < b -> 0 < Rmax a b.
Proof. intro H. eapply Rlt_le_trans; [exact H|apply Rmax_r]. Qed.

Definition stat_of (x : list R) : @stat R := (Fin (mean x), Fin (std x), uneven x).

Lemma noise_zero noise : feqb (Fin noise) fzero = if Req_EM_T noise 0 then true else false.
Proof.
  unfold feqb. cbn [fleb fzero fltb nltb nzero NumR]. destruct (Rltb_spec 0 noise); destruct (Rltb_spec noise 0); destruct (Req_EM_T noise 0); auto; lra.
Qed.
Lemma no_noise k a : 2 * (k + 1) * (0 * 0) / a = 0.
Proof. unfold Rdiv. rewrite !Rmult_0_r, Rmult_0_l. reflexivity. Qed.

Lemma root_clip v : froot (if fltb (Fin v) EPS then fzero else Fin v) = Fin (if Rltb v eps12 then 0 else sqrt v).
Proof.
  rewrite EPS_fin. cbn [fltb nltb NumR]. pose proof eps12_pos. destruct (Rltb_spec v eps12).
  - cbn [froot fzero nzero NumR]. unfold fsqrt. cbn [nltb nzero nsqrt NumR]. rewrite (proj2 (Rltb_false 0 0)) by lra. rewrite sqrt_0. reflexivity.
  - cbn [froot]. unfold fsqrt. cbn [nltb nzero nsqrt NumR]. rewrite (proj2 (Rltb_false v 0)) by lra. reflexivity.
Qed.

(** the squared value before clipping *)
Lemma diag_cell_ok noise x y : length x = length y -> (0 < length x)%nat ->
  diag_cell (Fin (INR (length x))) (Fin noise) (Fin (dotp x y)) (stat_of x) (stat_of y) = Fin (zdist noise x y).
Proof.
  intros L H. unfold diag_cell, stat_of, zdist, zsq. fold eps12. rewrite noise_zero.
  destruct (uneven x) eqn:Ux; destruct (uneven y) eqn:Uy; cbn [xorb andb orb]; unfold fzero; cbn [nzero NumR];
    try apply uneven_std in Ux; try apply uneven_std in Uy;
    rewrite ?formula_fin by assumption;
    destruct (Req_EM_T noise 0) as [->|Hn]; cbn [negb];
    rewrite ?correction_fin by (auto using Rmax_pos_l, Rmax_pos_r); cbn [fsub nsub NumR]; rewrite ?no_noise, ?Rminus_0_r; apply root_clip.
Qed.
Lemma col_cell_ok noise x y : length x = length y -> (0 < length x)%nat ->
  col_cell (Fin (INR (length x))) (Fin noise) (stat_of y) (Fin (dotp x y)) (stat_of x) = Fin (zdist noise x y).
Proof.
  intros L H. unfold col_cell, stat_of, zdist, zsq. fold eps12. rewrite noise_zero.
  destruct (uneven x) eqn:Ux; destruct (uneven y) eqn:Uy; cbn [xorb andb orb]; unfold fzero; cbn [nzero NumR];
    try apply uneven_std in Ux; try apply uneven_std in Uy;
    rewrite ?formula_fin by assumption;
    destruct (Req_EM_T noise 0) as [->|Hn]; cbn [negb];
    rewrite ?correction_fin by (auto using Rmax_pos_l, Rmax_pos_r); cbn [fsub nsub NumR]; rewrite ?no_noise, ?Rminus_0_r; apply root_clip.
Qed.
