(** * PBinary: runs of the generators in binary64 and in rounded real arithmetic go together, if the data are not too large *)
From Coq Require Import QArith Reals Lia Lra.
From Flocq Require Import Core.
From Verif Require Import Np NpFacts MRing PRing MUtil MArith MStats MCache MEuclid MZnorm SReal SRound SGen InstF PRoundGen PSim PFloat.
Set Implicit Arguments.
Open Scope nat_scope.

#[local] Instance NB : NumOps R := NumRnd rnd64.
Notation p2 := (bpow radix2).

(** [x] is a double of size at most [z * 2^k], [y] its value *)
Definition relz (z k : Z) (x : num f64) (y : num R) : Prop := exists f, x = Fin f /\ y = Fin (val f) /\ dbl f /\ (Rabs (val f) <= IZR z * p2 k)%R.
Definition rel (k : Z) := relz 1 k.
Lemma relz_le z z' k x y : (z <= z')%Z -> relz z k x y -> relz z' k x y.
Proof. intros H (f & E1 & E2 & D & B). exists f. repeat (split; [assumption|]). eapply Rle_trans; [exact B|]. apply Rmult_le_compat_r; [apply bpow_ge_0|apply IZR_le, H]. Qed.
Lemma relz_rel z j k x y : (z <= 2 ^ j)%Z -> (0 <= j)%Z -> relz z k x y -> rel (k + j) x y.
Proof.
  intros H Hj (f & E1 & E2 & D & B). exists f. repeat (split; [assumption|]). eapply Rle_trans; [exact B|]. rewrite Rmult_1_l, bpow_plus, (Rmult_comm (p2 k)). apply Rmult_le_compat_r; [apply bpow_ge_0|].
  rewrite <- (IZR_Zpower radix2) by exact Hj. apply IZR_le, H.
Qed.
Lemma rel_le k k' x y : (k <= k')%Z -> rel k x y -> rel k' x y.
Proof. intros H (f & E1 & E2 & D & B). exists f. repeat (split; [assumption|]). eapply Rle_trans; [exact B|]. apply Rmult_le_compat_l; [lra|]. apply bpow_le, H. Qed.
Lemma rel_relz k z j x y : (0 <= j)%Z -> (2 ^ j <= z)%Z -> rel (k + j) x y -> relz z k x y.
Proof.
  intros Hj Hz (f & E1 & E2 & D & B). exists f. repeat (split; [assumption|]). eapply Rle_trans; [exact B|]. rewrite Rmult_1_l, bpow_plus, (Rmult_comm (p2 k)). apply Rmult_le_compat_r; [apply bpow_ge_0|].
  rewrite <- (IZR_Zpower radix2) by exact Hj. apply IZR_le, Hz.
Qed.
Definition room (k : Z) : Prop := (-900 <= k <= 900)%Z.
Lemma p2_small z k x : (0 <= z <= 2 ^ 53)%Z -> room k -> (Rabs x <= IZR z * p2 k)%R -> small (rnd64 x) /\ (Rabs (rnd64 x) <= IZR z * p2 k)%R.
Proof.
  intros Hz Hk H. assert (G : (Rabs (rnd64 x) <= IZR z * p2 k)%R) by (apply rnd64_le; [exact Hz|unfold room in Hk; lia|exact H]). split; [|exact G].
  unfold small. eapply Rle_lt_trans; [exact G|]. apply Rle_lt_trans with (p2 53 * p2 900)%R.
  - apply Rmult_le_compat; [apply IZR_le; lia|apply bpow_ge_0| |apply bpow_le, Hk]. change (p2 53) with (IZR (2 ^ 53)). apply IZR_le. lia.
  - rewrite <- bpow_plus. apply bpow_lt. lia.
Qed.
Lemma relz_add a b k x x' y y' : (0 <= a)%Z -> (0 <= b)%Z -> (a + b <= 2 ^ 53)%Z -> room k -> relz a k x x' -> relz b k y y' -> relz (a + b) k (fadd x y) (fadd x' y').
Proof.
  intros Ha Hb Hab Hk (f & -> & -> & D & B) (g & -> & -> & D' & B'). assert (G : (Rabs (val f + val g) <= IZR (a + b) * p2 k)%R).
  { eapply Rle_trans; [apply Rabs_triang|]. rewrite plus_IZR, Rmult_plus_distr_r. lra. }
  apply p2_small in G; [|lia|exact Hk]. destruct G as [G1 G2]. destruct (f64_add f g D D' G1) as [D1 E1]. exists (nadd f g). split; [reflexivity|]. split; [cbn [fadd]; f_equal; symmetry; exact E1|]. split; [exact D1|]. rewrite E1. exact G2.
Qed.
Lemma relz_sub a b k x x' y y' : (0 <= a)%Z -> (0 <= b)%Z -> (a + b <= 2 ^ 53)%Z -> room k -> relz a k x x' -> relz b k y y' -> relz (a + b) k (fsub x y) (fsub x' y').
Proof.
  intros Ha Hb Hab Hk (f & -> & -> & D & B) (g & -> & -> & D' & B'). assert (G : (Rabs (val f - val g) <= IZR (a + b) * p2 k)%R).
  { unfold Rminus. eapply Rle_trans; [apply Rabs_triang|]. rewrite Rabs_Ropp, plus_IZR, Rmult_plus_distr_r. lra. }
  apply p2_small in G; [|lia|exact Hk]. destruct G as [G1 G2]. destruct (f64_sub f g D D' G1) as [D1 E1]. exists (nsub f g). split; [reflexivity|]. split; [cbn [fsub]; f_equal; symmetry; exact E1|]. split; [exact D1|]. rewrite E1. exact G2.
Qed.
Lemma rel_add k x x' y y' : room k -> rel k x x' -> rel k y y' -> rel (k + 1) (fadd x y) (fadd x' y').
Proof. intros Hk H H'. apply relz_rel with (z := 2%Z); [reflexivity|lia|]. apply (@relz_add 1 1); try assumption; lia. Qed.
Lemma rel_sub k x x' y y' : room k -> rel k x x' -> rel k y y' -> rel (k + 1) (fsub x y) (fsub x' y').
Proof. intros Hk H H'. apply relz_rel with (z := 2%Z); [reflexivity|lia|]. apply (@relz_sub 1 1); try assumption; lia. Qed.
Lemma rel_mul k l x x' y y' : room (k + l) -> rel k x x' -> rel l y y' -> rel (k + l) (fmul x y) (fmul x' y').
Proof.
  intros Hk (f & -> & -> & D & B) (g & -> & -> & D' & B'). rewrite Rmult_1_l in B, B'. assert (G : (Rabs (val f * val g) <= 1 * p2 (k + l))%R).
  { rewrite Rabs_mult, Rmult_1_l, bpow_plus. apply Rmult_le_compat; try apply Rabs_pos; assumption. }
  apply p2_small in G; [|lia|exact Hk]. destruct G as [G1 G2]. destruct (f64_mul f g D D' G1) as [D1 E1]. exists (nmul f g). split; [reflexivity|]. split; [cbn [fmul]; f_equal; symmetry; exact E1|]. split; [exact D1|]. rewrite E1. exact G2.
Qed.
(** Division by a number that is at least [2^-l] *)
Definition rel_ge (k l : Z) (x : num f64) (y : num R) : Prop := exists f, x = Fin f /\ y = Fin (val f) /\ dbl f /\ (val f <= p2 k)%R /\ (p2 (- l) <= val f)%R.
Lemma rel_ge_rel k l x y : rel_ge k l x y -> rel k x y.
Proof. intros (f & E1 & E2 & D & B & B'). exists f. repeat (split; [assumption|]). pose proof (bpow_gt_0 radix2 (- l)). rewrite Rabs_pos_eq by lra. lra. Qed.
Lemma rel_div k l j x x' y y' : room (k + l) -> rel k x x' -> rel_ge j l y y' -> rel (k + l) (fdiv x y) (fdiv x' y').
Proof.
  intros Hk (f & -> & -> & D & B) (g & -> & -> & D' & _ & B'). rewrite Rmult_1_l in B. pose proof (bpow_gt_0 radix2 (- l)) as P. assert (Hn : val g <> 0%R) by lra.
  assert (G : (Rabs (val f / val g) <= 1 * p2 (k + l))%R).
  { unfold Rdiv. rewrite Rabs_mult, Rmult_1_l, bpow_plus. apply Rmult_le_compat; try apply Rabs_pos; [exact B|]. rewrite Rabs_pos_eq by (left; apply Rinv_0_lt_compat; lra).
    replace (p2 l) with (/ p2 (- l))%R by (rewrite <- bpow_opp; f_equal; lia). apply Rinv_le_contravar; lra. }
  apply p2_small in G; [|lia|exact Hk]. destruct G as [G1 G2]. destruct (f64_div f g D D' Hn G1) as [D1 E1].
  assert (L : nltb nzero g = true) by (rewrite (f64_ltb nzero g (proj1 f64_zero) D'), (proj2 f64_zero); unfold Rltb; destruct (Rlt_dec 0 (val g)); [reflexivity|lra]).
  exists (ndiv f g). unfold fdiv. rewrite L, orb_true_r. split; [reflexivity|]. split; [|split; [exact D1|rewrite E1; exact G2]].
  cbn [nltb NB NumRnd nzero]. unfold Rltb at 2. destruct (Rlt_dec 0 (val g)); [|lra]. rewrite orb_true_r. f_equal. symmetry. exact E1.
Qed.
Lemma rel_ltb k l x x' y y' : rel k x x' -> rel l y y' -> fltb x y = fltb x' y'.
Proof. intros (f & -> & -> & D & B) (g & -> & -> & D' & B'). cbn. apply f64_ltb; assumption. Qed.
Lemma rel_leb k l x x' y y' : rel k x x' -> rel l y y' -> fleb x y = fleb x' y'.
Proof. intros H H'. pose proof (rel_ltb H' H) as E. destruct H as (f & -> & -> & _), H' as (g & -> & -> & _). unfold fleb. rewrite E. reflexivity. Qed.
Lemma rel_eqb k l x x' y y' : rel k x x' -> rel l y y' -> feqb x y = feqb x' y'.
Proof. intros H H'. unfold feqb. rewrite (rel_leb H H'), (rel_leb H' H). reflexivity. Qed.
(** Roots of numbers that are not negative *)
Lemma rel_root k x x' : room k -> nonneg x' -> rel (2 * k) x x' -> rel k (froot x) (froot x').
Proof.
  intros HR (a & -> & Ha) (f & -> & E & D & B). injection E as ->. destruct (f64_sqrt f D Ha) as [D1 E1].
  assert (L : nltb f nzero = false) by (rewrite (f64_ltb f nzero D (proj1 f64_zero)), (proj2 f64_zero); unfold Rltb; destruct (Rlt_dec (val f) 0); [lra|reflexivity]).
  exists (nsqrt f). cbn [froot]. unfold fsqrt. rewrite L. split; [reflexivity|]. cbn [nltb NB NumRnd nzero]. unfold Rltb. destruct (Rlt_dec (val f) 0); [lra|]. split; [f_equal; symmetry; exact E1|]. split; [exact D1|].
  rewrite E1. apply p2_small; [lia|exact HR|]. rewrite Rabs_pos_eq by apply sqrt_pos. rewrite (Rabs_pos_eq _ Ha) in B. rewrite Rmult_1_l in B |- *.
  rewrite <- sqrt_bpow. apply sqrt_le_1_alt, B.
Qed.
Lemma rel_zero k : rel k fzero fzero.
Proof. exists nzero. split; [reflexivity|]. split; [reflexivity|]. split; [apply f64_zero|]. rewrite (proj2 f64_zero), Rabs_R0, Rmult_1_l. apply bpow_ge_0. Qed.
Lemma relz_zero z k : (0 <= z)%Z -> relz z k fzero fzero.
Proof. intro H. exists nzero. split; [reflexivity|]. split; [reflexivity|]. split; [apply f64_zero|]. rewrite (proj2 f64_zero), Rabs_R0. apply Rmult_le_pos; [apply IZR_le, H|apply bpow_ge_0]. Qed.
Lemma rel_ofZ z j : (0 <= j <= 53)%Z -> (1 <= z <= 2 ^ j)%Z -> rel_ge j 0 (fofZ z) (fofZ z) /\ @fofZ R NB z = Fin (IZR z).
Proof.
  intros Hj Hz. assert (P : (2 ^ j <= 2 ^ 53)%Z) by (apply Z.pow_le_mono_r; lia).
  assert (E : rnd64 (IZR z) = IZR z) by (pose proof (@rnd64_exact z 0) as E; cbn [bpow] in E; rewrite Rmult_1_r in E; apply E; lia).
  assert (B : (IZR z <= p2 j)%R) by (rewrite <- (IZR_Zpower radix2) by lia; apply IZR_le; change (Zpower radix2 j) with (2 ^ j)%Z; lia). assert (B0 : (1 <= IZR z)%R) by (apply (IZR_le 1); lia).
  destruct (@f64_ofZ z) as [D Ev].
  { rewrite E. unfold small. rewrite Rabs_pos_eq by lra. eapply Rle_lt_trans; [exact B|]. apply bpow_lt. lia. }
  split; [|unfold fofZ; cbn; f_equal; exact E]. exists (nofZ z). split; [reflexivity|]. split; [unfold fofZ; f_equal; symmetry; exact Ev|]. split; [exact D|]. rewrite Ev, E. split; [exact B|]. exact B0.
Qed.

(** ** Sums *)
Lemma rel_isfin z k x y : relz z k x y -> isfin y.
Proof. intros (f & _ & -> & _). eexists. reflexivity. Qed.
Lemma all2_right {S T} (R : S -> T -> Prop) (P : T -> Prop) l l' : (forall x y, R x y -> P y) -> all2 R l l' -> Forall P l'.
Proof. intros H. induction 1; constructor; eauto. Qed.
Definition short {T} (l : list T) : Prop := (Z.of_nat (length l) <= 2 ^ 40)%Z.
Lemma relz_fold k l l' : room k -> all2 (rel k) l l' -> forall a x x', (0 <= a)%Z -> (a + Z.of_nat (length l) <= 2 ^ 53)%Z -> relz a k x x' ->
  relz (a + Z.of_nat (length l)) k (fold_left fadd l x) (fold_left fadd l' x').
Proof.
  intros Hk. induction 1 as [|y y' l l' Hy Hl IH]; intros a x x' Ha HN Hx; cbn [fold_left length] in *; [rewrite Z.add_0_r; exact Hx|].
  replace (a + Z.of_nat (S (length l)))%Z with ((a + 1) + Z.of_nat (length l))%Z by lia. apply IH; [lia|lia|]. apply relz_add; try assumption; lia.
Qed.
Lemma relz_fsum k l l' : room k -> all2 (rel k) l l' -> short l -> relz (Z.of_nat (length l)) k (fsum l) (fsum l').
Proof. intros Hk H Hl. unfold fsum. unfold short in Hl. change (Z.of_nat (length l)) with (0 + Z.of_nat (length l))%Z. apply relz_fold; try assumption; try lia. apply relz_zero. lia. Qed.
Lemma rel_fsum k l l' : room k -> all2 (rel k) l l' -> short l -> rel (k + 40) (fsum l) (fsum l').
Proof. intros Hk H Hl. eapply relz_rel; [exact Hl|lia|]. apply relz_fsum; assumption. Qed.
Lemma relz_cumsum_from k l l' : room k -> all2 (rel k) l l' -> forall a x x', (0 <= a)%Z -> (a + Z.of_nat (length l) <= 2 ^ 53)%Z -> relz a k x x' ->
  all2 (relz (a + Z.of_nat (length l)) k) (cumsum_from x l) (cumsum_from x' l').
Proof.
  intros Hk. induction 1 as [|y y' l l' Hy Hl IH]; intros a x x' Ha HN Hx; cbn [cumsum_from length] in *; [constructor|].
  assert (G : relz (a + 1) k (fadd x y) (fadd x' y')) by (apply relz_add; try assumption; lia).
  replace (a + Z.of_nat (S (length l)))%Z with ((a + 1) + Z.of_nat (length l))%Z by lia. constructor; [eapply relz_le; [|exact G]; lia|]. apply IH; [lia|lia|exact G].
Qed.
Lemma relz_cumsum k l l' : room k -> all2 (rel k) l l' -> short l -> all2 (relz (2 ^ 40) k) (cumsum l) (cumsum l').
Proof.
  intros Hk H Hl. unfold short in Hl. destruct H as [|x x' l l' Hx H]; cbn [cumsum]; [constructor|]. cbn [length] in Hl. constructor; [eapply relz_le; [|exact Hx]; lia|].
  eapply all2_impl; [|apply (relz_cumsum_from Hk H (a := 1) (x := x) (x' := x')); [lia|lia|exact Hx]]. intros y y' Hy. eapply relz_le; [|exact Hy]. lia.
Qed.
Lemma zip_short {S T U} (f : S -> T -> U) a : forall b, length (zip_with f a b) <= length a.
Proof. induction a as [|x a IH]; intros [|y b]; cbn; try lia. specialize (IH b). lia. Qed.
Lemma relz_fdot k l a a' b b' : room (k + l) -> all2 (rel k) a a' -> all2 (rel l) b b' -> short a -> relz (Z.of_nat (length a)) (k + l) (fdot a b) (fdot a' b').
Proof.
  intros Hk HA HB Ha. unfold fdot. pose proof (zip_short (@fmul f64 NumF) a b) as L. eapply relz_le; [|apply relz_fsum; [exact Hk| |]].
  - apply inj_le, L.
  - eapply sim_zip; [|exact HA|exact HB]. intros. apply rel_mul; assumption.
  - unfold short in *. lia.
Qed.

(** ** Statistics *)
Lemma rel_mean k l l' : room k -> room (k + 40) -> all2 (rel k) l l' -> 0 < length l -> short l -> rel (k + 40) (np_mean l) (np_mean l').
Proof.
  intros Hk Hk' H H0 Hl. unfold np_mean. rewrite <- (all2_length H). replace (k + 40)%Z with (k + 40 + 0)%Z by lia. eapply rel_div; [rewrite Z.add_0_r; exact Hk'|apply rel_fsum; assumption|].
  apply (@rel_ofZ (Z.of_nat (length l)) 40); [lia|]. unfold short in Hl. lia.
Qed.
Lemma map_short {S T} (f : S -> T) l : short l -> short (map f l).
Proof. unfold short. rewrite map_length. exact (fun H => H). Qed.
Lemma rel_var l l' : all2 (rel 200) l l' -> 0 < length l -> short l -> rel 522 (np_var l) (np_var l').
Proof.
  intros H H0 Hl. assert (HM : rel 240 (np_mean l) (np_mean l')) by (apply (@rel_mean 200); try assumption; unfold room; lia). unfold np_var. apply (@rel_mean 482); [unfold room; lia|unfold room; lia| |rewrite map_length; exact H0|apply map_short, Hl].
  eapply sim_map; [|exact H]. intros x y Hx. unfold fsquare. assert (G : rel 241 (fsub x (np_mean l)) (fsub y (np_mean l'))) by (apply (@rel_sub 240); [unfold room; lia|eapply rel_le; [|exact Hx]; lia|exact HM]).
  apply (@rel_mul 241 241); [unfold room; lia|exact G|exact G].
Qed.
Lemma rel_std l l' : all2 (rel 200) l l' -> 0 < length l -> short l -> rel 261 (np_std l) (np_std l').
Proof.
  intros H H0 Hl. unfold np_std. assert (HF : Forall isfin l') by (eapply all2_right; [|exact H]; intros; eapply rel_isfin; eassumption). assert (H0' : 0 < length l') by (rewrite <- (all2_length H); exact H0).
  apply rel_root; [unfold room; lia| |apply rel_var; assumption].
  unfold np_var. apply (np_mean_nonneg rnd64_sane); [rewrite map_length; exact H0'|]. apply Forall_map. eapply Forall_impl; [|exact HF]. cbn beta. intros x Hx.
  apply (fsquare_nonneg rnd64_sane). apply fsub_fin; [exact Hx|]. apply (np_mean_fin rnd64_sane); assumption.
Qed.
Lemma sim_finite k l l' : all2 (rel k) l l' -> forallb isfinite l = true /\ forallb isfinite l' = true.
Proof. induction 1 as [|x y l l' (f & -> & -> & _) _ IH]; cbn; [split; reflexivity|exact IH]. Qed.
Lemma sim_sliding l l' m : all2 (rel 200) l l' -> (m <= 2 ^ 40)%Z ->
  res_sim (fun r r' => all2 (rel 240) (fst r) (fst r') /\ all2 (rel 261) (snd r) (snd r')) (sliding_mean_std l m) (sliding_mean_std l' m).
Proof.
  intros H Hm. unfold sliding_mean_std, sliding_mean_with. destruct (Z.leb_spec m 0) as [N|N]; [reflexivity|]. destruct (sim_finite H) as [-> ->]. cbn [negb].
  eapply bind_sim; [apply sim_windows, H|]. intros ws ws' HW. cbn [res_sim fst snd].
  split; (eapply sim_map; [|exact HW]; intros w v (L0 & L & Hw); assert (short w) by (unfold short; lia)); [apply (@rel_mean 200); try assumption; unfold room; lia|apply rel_std; assumption].
Qed.

(** ** One cell *)
Lemma Fin_inj {T} (a b : T) : Fin a = Fin b -> a = b.
Proof. congruence. Qed.
Lemma rel_neg10 k : (0 <= k <= 15)%Z -> rel 0 (fneg10 k) (fneg10 k).
Proof.
  intro Hk. assert (P : (1 <= 10 ^ k <= 2 ^ 53)%Z) by (split; [apply (Z.pow_le_mono_r 10 0 k); lia|]; eapply Z.le_trans; [apply (Z.pow_le_mono_r 10 k 15); lia|]; lia).
  destruct (@rel_ofZ 1 0) as [H1 _]; [lia|cbn; lia|]. destruct (@rel_ofZ (10 ^ k) 53) as [H2 _]; [lia|exact P|].
  assert (G : rel (0 + 0) (fdiv (fofZ 1) (fofZ (10 ^ k))) (fdiv (fofZ 1) (fofZ (10 ^ k)))) by (eapply rel_div; [unfold room; lia|eapply rel_ge_rel; exact H1|exact H2]).
  destruct G as (f & E1 & E2 & G). unfold fdiv, fofZ in E1, E2. exists f. unfold fneg10.
  destruct H2 as (b & Eb & Eb' & Db & _ & Lb). cbn in Lb. unfold fofZ in Eb, Eb'. apply Fin_inj in Eb. apply Fin_inj in Eb'.
  assert (L1 : @nltb f64 NumF nzero (nofZ (10 ^ k)) = true) by (rewrite Eb, (f64_ltb nzero b (proj1 f64_zero) Db), (proj2 f64_zero); unfold Rltb; destruct (Rlt_dec 0 (val b)); [reflexivity|lra]).
  assert (L2 : @nltb R NB nzero (nofZ (10 ^ k)) = true) by (change (Rltb 0 (@nofZ R NB (10 ^ k)) = true); rewrite Eb'; unfold Rltb; destruct (Rlt_dec 0 (val b)); [reflexivity|lra]).
  rewrite L1, orb_true_r in E1. rewrite L2, orb_true_r in E2. split; [exact E1|]. split; [exact E2|exact G].
Qed.
Lemma rel_ge_mul k l k' l' x x' y y' : room (k + k') -> room (- (l + l')) -> rel_ge k l x x' -> rel_ge k' l' y y' -> rel_ge (k + k') (l + l') (fmul x y) (fmul x' y').
Proof.
  intros Hk Hl Hx Hy. destruct (rel_mul Hk (rel_ge_rel Hx) (rel_ge_rel Hy)) as (f & E1 & E2 & D & B). exists f. repeat (split; [assumption|]). rewrite Rmult_1_l in B. split; [eapply Rle_trans; [apply Rle_abs|exact B]|].
  destruct Hx as (a & -> & -> & _ & _ & La), Hy as (b & -> & -> & _ & _ & Lb). cbn [fmul] in E2. injection E2 as E2. change (rnd64 (val a * val b) = val f) in E2. rewrite <- E2.
  replace (p2 (- (l + l'))) with (rnd64 (IZR 1 * p2 (- (l + l')))) by (rewrite rnd64_exact; [apply Rmult_1_l|lia|unfold room in Hl; lia]). apply rnd64_mono. rewrite Rmult_1_l.
  replace (- (l + l'))%Z with (- l + - l')%Z by lia. rewrite bpow_plus. apply Rmult_le_compat; try apply bpow_ge_0; assumption.
Qed.
Lemma p2_24 : (p2 (-24) <= / 10 ^ 7)%R.
Proof. change (p2 (-24)) with (/ IZR (2 ^ 24))%R. apply Rinv_le_contravar; [apply pow_lt; lra|]. change (2 ^ 24)%Z with 16777216%Z. lra. Qed.
Lemma rel_above k x x' : rel k x x' -> fltb (@THRESHOLD R NB) x' = true -> rel_ge k 24 x x'.
Proof.
  intros H G. destruct (above rnd64_sane (rel_isfin H) G) as (s & -> & Hs). destruct H as (f & -> & E & D & B). injection E as ->. exists f. repeat (split; [reflexivity || assumption|]). rewrite Rmult_1_l in B.
  split; [eapply Rle_trans; [apply Rle_abs|exact B]|]. pose proof p2_24. change (-(24))%Z with (-24)%Z. lra.
Qed.
Lemma rel_formula m m' dot dot' mq mq' ms ms' sq sq' ss ss' : rel 40 m m' -> rel 450 dot dot' -> rel 240 mq mq' -> rel 240 ms ms' -> rel_ge 261 24 sq sq' -> rel_ge 261 24 ss ss' ->
  rel 571 (formula m dot mq ms sq ss) (formula m' dot' mq' ms' sq' ss').
Proof.
  intros Hm Hd Hq Hs Gq Gs. unfold formula. apply (@rel_mul 1 570); [unfold room; lia|eapply rel_ge_rel, (@rel_ofZ 2 1); cbn; lia|]. apply (@rel_sub 569); [unfold room; lia|eapply rel_le; [|exact Hm]; lia|].
  apply (@rel_div 521 48 522); [unfold room; lia| |apply (@rel_ge_mul 261 24 261 24); try assumption; unfold room; lia]. apply (@rel_sub 520); [unfold room; lia|eapply rel_le; [|exact Hd]; lia|].
  apply (@rel_mul 280 240); [unfold room; lia|apply (@rel_mul 40 240); [unfold room; lia|assumption|assumption]|exact Hs].
Qed.
Lemma rel_max k x x' y y' : rel k x x' -> rel k y y' -> rel k (fmaximum x y) (fmaximum x' y').
Proof.
  intros Hx Hy. pose proof (rel_ltb Hx Hy) as E. unfold fmaximum. rewrite E. pose proof Hx as (a & Ea & Ea' & _). pose proof Hy as (b & Eb & Eb' & _). 
  replace (isnan x) with false by (rewrite Ea; reflexivity). replace (isnan x') with false by (rewrite Ea'; reflexivity). replace (isnan y) with false by (rewrite Eb; reflexivity). replace (isnan y') with false by (rewrite Eb'; reflexivity). destruct (fltb x' y'); assumption.
Qed.
Lemma fmax_above x y : isfin x -> isfin y -> fltb (@THRESHOLD R NB) x = true \/ fltb (@THRESHOLD R NB) y = true -> fltb (@THRESHOLD R NB) (fmaximum x y) = true.
Proof.
  intros (a & ->) (b & ->). destruct (THR rnd64_sane) as (t & E & _). change (@THRESHOLD R NB) with (@THRESHOLD R (NR rnd64)). rewrite E. unfold fmaximum. cbn [isnan fltb]. change (@nltb R NB) with Rltb. change (@nltb R (NR rnd64)) with Rltb.
  intro H. unfold Rltb in H |- *. destruct (Rlt_dec a b), (Rlt_dec t a), (Rlt_dec t b); cbn [fltb]; change (@nltb R NB) with Rltb; unfold Rltb; destruct H as [H|H]; try discriminate; 
    try match goal with |- context [Rlt_dec t ?x] => destruct (Rlt_dec t x) end; try reflexivity; exfalso; lra.
Qed.
Lemma rel_correction m m' noise noise' a a' b b' : rel 40 m m' -> rel 200 noise noise' -> rel 261 a a' -> rel 261 b b' -> fltb (@THRESHOLD R NB) a' = true \/ fltb (@THRESHOLD R NB) b' = true ->
  rel 490 (correction m noise a b) (correction m' noise' a' b').
Proof.
  intros Hm Hn Ha Hb HT. unfold correction. apply (@rel_div 442 48 522); [unfold room; lia| |].
  - apply (@rel_mul 42 400); [unfold room; lia| |apply (@rel_mul 200 200); [unfold room; lia|exact Hn|exact Hn]].
    apply (@rel_mul 1 41); [unfold room; lia|eapply rel_ge_rel, (@rel_ofZ 2 1); cbn; lia|]. apply (@rel_add 40); [unfold room; lia|exact Hm|]. eapply rel_le; [|eapply rel_ge_rel, (@rel_ofZ 1 0); cbn; lia]. lia.
  - assert (G : rel_ge 261 24 (fmaximum a b) (fmaximum a' b')) by (apply rel_above; [apply rel_max; assumption|]; apply fmax_above; try (eapply rel_isfin; eassumption); exact HT).
    apply (@rel_ge_mul 261 24 261 24); try assumption; unfold room; lia.
Qed.
Lemma rel_clip d d' : rel 572 d d' -> rel 286 (froot (if fltb d EPS then fzero else d)) (froot (if fltb d' EPS then fzero else d')).
Proof.
  intros H. pose proof (rel_ltb H (@rel_neg10 12 ltac:(lia))) as L. change (@fneg10 R NB 12) with (@EPS R NB) in L. change (@fneg10 f64 NumF 12) with (@EPS f64 NumF) in L. rewrite L. destruct (EPS_pos rnd64_sane) as (e & E & He). change (@EPS R (NR rnd64)) with (@EPS R NB) in E.
  destruct (fltb d' EPS) eqn:F; [apply rel_root; [unfold room; lia|apply fzero_nonneg|apply rel_zero]|]. apply rel_root; [unfold room; lia| |exact H].
  destruct (rel_isfin H) as (y & ->). exists y. split; [reflexivity|]. rewrite E in F. cbn in F. unfold Rltb in F. destruct (Rlt_dec y e); [discriminate|lra].
Qed.
Definition rstat (q : stat (A := f64)) (q' : stat (A := R)) : Prop := rel 240 (fst (fst q)) (fst (fst q')) /\ rel 261 (snd (fst q)) (snd (fst q')) /\ snd q = snd q' /\ snd q' = fltb (@THRESHOLD R NB) (snd (fst q')).
Lemma rel_diag_cell m m' noise noise' dot dot' q q' s s' : rel 40 m m' -> rel 200 noise noise' -> rel 450 dot dot' -> rstat q q' -> rstat s s' ->
  rel 286 (diag_cell m noise dot q s) (diag_cell m' noise' dot' q' s').
Proof.
  destruct q as [[mq sq] nq], q' as [[mq' sq'] nq'], s as [[ms ss] ns], s' as [[ms' ss'] ns']. unfold rstat. cbn [fst snd]. intros Hm Hn Hd (Q1 & Q2 & -> & Q4) (S1 & S2 & -> & S4). unfold diag_cell. apply rel_clip.
  match goal with |- rel _ (if _ then if _ then fsub ?d _ else _ else _) (if _ then if _ then fsub ?d' _ else _ else _) => assert (G : rel 571 d d') end.
  { destruct nq', ns'; cbn [andb xorb]; [|eapply rel_le; [|exact Hm]; lia|eapply rel_le; [|exact Hm]; lia|apply rel_zero]. apply rel_formula; try assumption; apply rel_above; try assumption; congruence. }
  rewrite (rel_eqb Hn (rel_zero 0)). destruct (negb _); [|eapply rel_le; [|exact G]; lia]. destruct (nq' || ns') eqn:Go; [|eapply rel_le; [|exact G]; lia].
  apply (@rel_sub 571); [unfold room; lia|exact G|]. eapply rel_le; [|apply rel_correction; try assumption]; [lia|]. rewrite <- Q4, <- S4. apply orb_true_iff in Go. destruct Go; [right|left]; congruence.
Qed.
Lemma rel_col_cell m m' noise noise' dot dot' q q' s s' : rel 40 m m' -> rel 200 noise noise' -> rel 450 dot dot' -> rstat q q' -> rstat s s' ->
  rel 286 (col_cell m noise s dot q) (col_cell m' noise' s' dot' q').
Proof.
  destruct q as [[mq sq] nq], q' as [[mq' sq'] nq'], s as [[ms ss] ns], s' as [[ms' ss'] ns']. unfold rstat. cbn [fst snd]. intros Hm Hn Hd (Q1 & Q2 & -> & Q4) (S1 & S2 & -> & S4). unfold col_cell. apply rel_clip.
  match goal with |- rel _ (if _ then if _ then fsub ?d _ else _ else _) (if _ then if _ then fsub ?d' _ else _ else _) => assert (G : rel 571 d d') end.
  { destruct ns', nq'; [|eapply rel_le; [|exact Hm]; lia|eapply rel_le; [|exact Hm]; lia|apply rel_zero]. apply rel_formula; try assumption; apply rel_above; try assumption; congruence. }
  rewrite (rel_eqb Hn (rel_zero 0)). destruct (negb _); [|eapply rel_le; [|exact G]; lia]. destruct (ns' || nq') eqn:Go; [|eapply rel_le; [|exact G]; lia].
  apply (@rel_sub 571); [unfold room; lia|exact G|]. eapply rel_le; [|apply rel_correction; try assumption]; [lia|]. rewrite <- Q4, <- S4. apply orb_true_iff in Go. destruct Go; [left|right]; congruence.
Qed.
