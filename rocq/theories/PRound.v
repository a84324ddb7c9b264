(** * PRound: proofs about arithmetic that rounds *)
From Coq Require Import QArith Reals Lra Lia.
From Verif Require Import Np NpFacts SReal SRound PArith.
Set Implicit Arguments.
Open Scope R_scope.

(** ** [chop] is a rounding function *)
Lemma floor_spec x : IZR (Int_part x) <= x < IZR (Int_part x) + 1.
Proof. destruct (base_Int_part x). lra. Qed.
Lemma floor_unique x z : IZR z <= x < IZR z + 1 -> Int_part x = z.
Proof.
  intros [H1 H2]. destruct (floor_spec x) as [H3 H4]. apply Z.le_antisymm; apply Zlt_succ_le; unfold Z.succ; apply lt_IZR; rewrite plus_IZR; cbn; lra.
Qed.
Lemma floor_le x y : x <= y -> (Int_part x <= Int_part y)%Z.
Proof. intro H. destruct (floor_spec x), (floor_spec y). apply Zlt_succ_le. unfold Z.succ. apply lt_IZR. rewrite plus_IZR. cbn. lra. Qed.

Lemma two_pos z : 0 < powerRZ 2 z.
Proof. apply powerRZ_lt. lra. Qed.
Lemma two_add a b : powerRZ 2 (a + b) = powerRZ 2 a * powerRZ 2 b.
Proof. apply powerRZ_add. lra. Qed.
Lemma two_le a b : (a <= b)%Z -> powerRZ 2 a <= powerRZ 2 b.
Proof.
  intro H. replace b with (a + (b - a))%Z by lia. rewrite two_add. assert (1 <= powerRZ 2 (b - a)).
  { replace (b - a)%Z with (Z.of_nat (Z.to_nat (b - a))) by lia. rewrite <- pow_powerRZ. apply pow_R1_Rle. lra. }
  pose proof (two_pos a). nra.
Qed.
Lemma two_int k : (0 <= k)%Z -> powerRZ 2 k = IZR (2 ^ k).
Proof. intro H. rewrite <- (Z2Nat.id k H). rewrite <- pow_powerRZ. apply pow_IZR. Qed.
Lemma lg_spec x : 0 < x -> powerRZ 2 (lg x) <= x < powerRZ 2 (lg x + 1).
Proof.
  intro Hx. assert (L2 : 0 < ln 2) by (rewrite <- ln_1; apply ln_increasing; lra).
  assert (E : forall z, powerRZ 2 z = exp (IZR z * ln 2)) by (intro z; rewrite powerRZ_Rpower by lra; reflexivity).
  destruct (floor_spec (ln x / ln 2)) as [H1 H2]. fold (lg x) in *. rewrite !E, plus_IZR.
  assert (Hl : ln x = ln x / ln 2 * ln 2) by (field; lra).
  rewrite <- (exp_ln x Hx) at 2 3. split.
  - destruct (Rle_lt_or_eq_dec (IZR (lg x) * ln 2) (ln x)) as [H|H]; [nra|left; apply exp_increasing; exact H|rewrite H; lra].
  - apply exp_increasing. nra.
Qed.
Lemma lg_unique x k : powerRZ 2 k <= x < powerRZ 2 (k + 1) -> lg x = k.
Proof.
  intros [H1 H2]. assert (Hx : 0 < x) by (pose proof (two_pos k); lra). destruct (lg_spec Hx) as [H3 H4].
  destruct (Z.lt_trichotomy (lg x) k) as [H|[H|H]]; [|exact H|].
  - pose proof (@two_le (lg x + 1) k ltac:(lia)). lra.
  - pose proof (@two_le (k + 1) (lg x) ltac:(lia)). lra.
Qed.
Lemma lg_le x y : 0 < x -> x <= y -> (lg x <= lg y)%Z.
Proof.
  intros Hx H. destruct (lg_spec Hx) as [H1 H2]. destruct (@lg_spec y ltac:(lra)) as [H3 H4]. destruct (Z.le_gt_cases (lg x) (lg y)) as [|G]; [assumption|].
  pose proof (@two_le (lg y + 1) (lg x) ltac:(lia)). lra.
Qed.

Section Chop.
  Variable p : Z.
  Hypothesis Hp : (1 <= p)%Z.

  (** between the power of two below [x] and [x] *)
  Lemma chop_pos_range x : 0 < x -> powerRZ 2 (lg x) <= chop_pos p x <= x /\ x - powerRZ 2 (lg x + 1 - p) < chop_pos p x.
  Proof.
    intro Hx. unfold chop_pos. set (e := (lg x + 1 - p)%Z). pose proof (two_pos e) as He. destruct (floor_spec (x / powerRZ 2 e)) as [F1 F2].
    assert (X : x = x / powerRZ 2 e * powerRZ 2 e) by (field; lra). destruct (lg_spec Hx) as [L1 L2].
    split; [split|].
    - replace (lg x) with ((p - 1) + e)%Z at 1 by (unfold e; lia). rewrite two_add. apply Rmult_le_compat_r; [lra|].
      rewrite two_int by lia. apply IZR_le. rewrite <- (@floor_unique (IZR (2 ^ (p - 1))) (2 ^ (p - 1))) by lra.
      apply floor_le. rewrite <- two_int by lia. apply Rmult_le_reg_r with (powerRZ 2 e); [exact He|]. rewrite <- X, <- two_add. replace (p - 1 + e)%Z with (lg x) by (unfold e; lia). exact L1.
    - rewrite X at 2. apply Rmult_le_compat_r; lra.
    - rewrite X at 1. nra.
  Qed.
  Lemma chop_pos_pos x : 0 < x -> 0 < chop_pos p x.
  Proof. intro H. destruct (chop_pos_range H) as [[H1 _] _]. pose proof (two_pos (lg x)). lra. Qed.
  Lemma chop_pos_mono x y : 0 < x -> x <= y -> chop_pos p x <= chop_pos p y.
  Proof.
    intros Hx H. destruct (Z.eq_dec (lg x) (lg y)) as [E|E].
    - unfold chop_pos. rewrite E. set (e := (lg y + 1 - p)%Z). pose proof (two_pos e). apply Rmult_le_compat_r; [lra|]. apply IZR_le, floor_le. apply Rmult_le_compat_r; [|exact H]. left. apply Rinv_0_lt_compat. assumption.
    - pose proof (lg_le Hx H). destruct (chop_pos_range Hx) as [[_ A] _]. destruct (@chop_pos_range y ltac:(lra)) as [[B _] _].
      destruct (lg_spec Hx) as [_ L]. pose proof (@two_le (lg x + 1) (lg y) ltac:(lia)). lra.
  Qed.
  (** [z * 2^e] is not changed if [z] has at most [p] bits *)
  Lemma chop_pos_exact z e : (0 < z < 2 ^ p)%Z -> chop_pos p (IZR z * powerRZ 2 e) = IZR z * powerRZ 2 e.
  Proof.
    intros [Z1 Z2]. set (x := IZR z * powerRZ 2 e). pose proof (two_pos e) as He. assert (Hz : 0 < IZR z) by (apply IZR_lt; exact Z1). assert (Hx : 0 < x) by (unfold x; nra).
    assert (L : (lg x + 1 - p <= e)%Z).
    { destruct (lg_spec Hx) as [L1 _]. assert (x < powerRZ 2 (p + e)).
      { rewrite two_add. unfold x. apply Rmult_lt_compat_r; [exact He|]. rewrite two_int by lia. apply IZR_lt, Z2. }
      destruct (Z.le_gt_cases (lg x + 1 - p) e) as [|G]; [assumption|]. pose proof (@two_le (p + e) (lg x) ltac:(lia)). lra. }
    unfold chop_pos. set (f := (lg x + 1 - p)%Z) in *. pose proof (two_pos f) as Hf.
    assert (X : x / powerRZ 2 f = IZR (z * 2 ^ (e - f))).
    { rewrite mult_IZR, <- two_int by lia. unfold x. replace e with (e - f + f)%Z at 1 by lia. rewrite two_add. field. lra. }
    rewrite X. rewrite (@floor_unique (IZR (z * 2 ^ (e - f))) (z * 2 ^ (e - f))) by lra. rewrite <- X. field. lra.
  Qed.
  Lemma chop_pos_idem x : 0 < x -> chop_pos p (chop_pos p x) = chop_pos p x.
  Proof.
    intro Hx. pose proof (chop_pos_pos Hx) as C. pose proof (chop_pos_range Hx) as [[_ C2] _]. unfold chop_pos in *. set (e := (lg x + 1 - p)%Z) in *. pose proof (two_pos e) as He. apply chop_pos_exact.
    split.
    - apply lt_IZR. nra.
    - apply lt_IZR. rewrite <- two_int by lia. destruct (lg_spec Hx) as [_ L]. replace (lg x + 1)%Z with (p + e)%Z in L by (unfold e; lia). rewrite two_add in L. nra.
  Qed.

  Lemma chop_of_pos x : 0 < x -> chop p x = chop_pos p x.
  Proof. intro H. unfold chop, Rltb. destruct (Rlt_dec 0 x); [reflexivity|contradiction]. Qed.
  Lemma chop_zero : chop p 0 = 0.
  Proof. unfold chop, Rltb. destruct (Rlt_dec 0 0); [lra|reflexivity]. Qed.
  Lemma chop_opp x : chop p (- x) = - chop p x.
  Proof.
    unfold chop, Rltb. destruct (Rlt_dec 0 (- x)), (Rlt_dec (- x) 0), (Rlt_dec 0 x), (Rlt_dec x 0); try lra. rewrite Ropp_involutive. reflexivity.
  Qed.
  Lemma chop_mono x y : x <= y -> chop p x <= chop p y.
  Proof.
    assert (N : forall x, 0 <= x -> 0 <= chop p x).
    { intros z [H|<-]; [rewrite chop_of_pos by exact H; left; apply chop_pos_pos, H|rewrite chop_zero; lra]. }
    assert (P : forall x y, 0 <= x -> x <= y -> chop p x <= chop p y).
    { intros a b [H|<-] H2; [|rewrite chop_zero; apply N; lra]. rewrite !chop_of_pos by lra. apply chop_pos_mono; assumption. }
    intro H. destruct (Rle_dec 0 x) as [Hx|Hx]; [apply P; assumption|]. destruct (Rle_dec 0 y) as [Hy|Hy].
    - pose proof (N y Hy). pose proof (N (- x) ltac:(lra)) as H1. rewrite chop_opp in H1. lra.
    - pose proof (P (- y) (- x) ltac:(lra) ltac:(lra)) as H1. rewrite !chop_opp in H1. lra.
  Qed.
  Lemma chop_odd (P : R -> Prop) : P 0 -> (forall x, P x -> P (- x)) -> (forall x, 0 < x -> P x) -> forall x, P x.
  Proof.
    intros H0 Ho Hpos x. destruct (Rtotal_order 0 x) as [H|[<-|H]]; [apply Hpos, H|exact H0|]. rewrite <- (Ropp_involutive x). apply Ho, Hpos. lra.
  Qed.
  Lemma chop_idem x : chop p (chop p x) = chop p x.
  Proof.
    revert x. apply chop_odd.
    - rewrite !chop_zero. reflexivity.
    - intros x H. rewrite !chop_opp, H. reflexivity.
    - intros x H. rewrite (chop_of_pos H). rewrite chop_of_pos by (apply chop_pos_pos, H). apply chop_pos_idem, H.
  Qed.
  Lemma chop_int z : (Z.abs z < 2 ^ p)%Z -> chop p (IZR z) = IZR z.
  Proof.
    intro H. assert (P : forall z, (0 < z < 2 ^ p)%Z -> chop p (IZR z) = IZR z).
    { intros y Hy. rewrite chop_of_pos by (apply IZR_lt; lia). replace (IZR y) with (IZR y * powerRZ 2 0) by (cbn; lra). apply chop_pos_exact, Hy. }
    destruct (Z.lt_trichotomy z 0) as [Hz|[->|Hz]]; [|apply chop_zero|apply P; lia].
    replace z with (- (- z))%Z by lia. rewrite opp_IZR, chop_opp, P by lia. reflexivity.
  Qed.
  Lemma chop_accurate : accurate (powerRZ 2 (1 - p)) 0 (chop p).
  Proof.
    intro x. rewrite Rplus_0_r. revert x. apply chop_odd.
    - rewrite chop_zero, Rminus_0_r, Rabs_R0. lra.
    - intros x H. rewrite chop_opp, Rabs_Ropp. replace (- chop p x - - x) with (- (chop p x - x)) by lra. rewrite Rabs_Ropp. exact H.
    - intros x H. rewrite (chop_of_pos H). destruct (chop_pos_range H) as [[_ A] B]. rewrite (Rabs_pos_eq x) by lra. rewrite Rabs_left1 by lra.
      replace (lg x + 1 - p)%Z with ((1 - p) + lg x)%Z in B by lia. rewrite two_add in B. destruct (lg_spec H) as [L _]. pose proof (two_pos (1 - p)). nra.
  Qed.
End Chop.

(** 53 bits, as binary64 *)
Lemma chop_sane : sane (chop 53).
Proof.
  assert (Hp : (1 <= 53)%Z) by lia. split.
  - apply chop_mono, Hp.
  - apply chop_idem, Hp.
  - intros z H. apply chop_int; [exact Hp|]. assert (10 ^ 15 < 2 ^ 53)%Z by (vm_compute; reflexivity). lia.
  - intros x H. assert (0 < / 10 ^ 30) by (apply Rinv_0_lt_compat, pow_lt; lra). pose proof (chop_accurate Hp x) as A. rewrite Rplus_0_r, (Rabs_pos_eq x) in A by lra.
    assert (B : powerRZ 2 (1 - 53) <= / 2) by (apply Rle_trans with (powerRZ 2 (-1)); [apply two_le; lia|change (powerRZ 2 (-1)) with (/ 2 ^ 1); simpl; lra]).
    revert A. unfold Rabs. destruct (Rcase_abs _); nra.
Qed.
