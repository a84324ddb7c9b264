(** * PRatio: rounding of the fraction of the calculators *)
From Coq Require Import ZArith Reals Lia Lra Floats.SpecFloat.
From Flocq Require Import Core IEEE754.BinarySingleNaN Relative.
From Verif Require Import Np InstF SReal SRound PFloat MRatio.
Open Scope R_scope.

#[local] Instance Hvalid' : Valid_exp (FLT_exp (-1074) 53). Proof. apply FLT_exp_valid. reflexivity. Qed.
Lemma ceil64_ok x : dbl x -> ceil64 x = Zceil (val x).
Proof.
  intros [_ Fx]. destruct x as [s|s| |s m e]; try discriminate; [cbn; symmetry; apply (Zceil_IZR 0)|]. unfold ceil64, val, SF2R, F2R. cbn [Fnum Fexp].
  replace (cond_Zopp s (Zpos m)) with (if s then Zneg m else Zpos m) by (destruct s; reflexivity). set (z := if s then _ else _). clearbody z.
  destruct (Z.leb_spec 0 e) as [He|He].
  - rewrite <- (IZR_Zpower radix2) by exact He. rewrite <- mult_IZR, Zceil_IZR. reflexivity.
  - unfold Zceil. f_equal. assert (H0 : (0 < 2 ^ (- e))%Z) by (apply Z.pow_pos_nonneg; lia). replace (- (IZR z * bpow radix2 e)) with (IZR (- z) / IZR (2 ^ (- e))).
    + rewrite Zfloor_div by lia. reflexivity.
    + rewrite opp_IZR. unfold Rdiv. rewrite Ropp_mult_distr_l_reverse. do 2 f_equal. change (2 ^ (- e))%Z with (Zpower radix2 (- e)). rewrite IZR_Zpower by lia. rewrite <- bpow_opp. f_equal. lia.
Qed.
Lemma rnd64_Z z : (Z.abs z <= 2 ^ 53)%Z -> rnd64 (IZR z) = IZR z.
Proof. intro H. pose proof (rnd64_exact z 0 H ltac:(lia)) as E. cbn [bpow] in E. rewrite Rmult_1_r in E. exact E. Qed.
Lemma Z_small z : (Z.abs z <= 2 ^ 53)%Z -> small (IZR z).
Proof.
  intro H. unfold small. rewrite <- abs_IZR. apply Rle_lt_trans with (IZR (2 ^ 53)); [apply IZR_le, H|]. change (IZR (2 ^ 53)) with (bpow radix2 53). apply bpow_lt. lia.
Qed.
Lemma ofZ_ok z : (Z.abs z <= 2 ^ 53)%Z -> dbl (nofZ z) /\ val (nofZ z) = IZR z.
Proof. intro H. rewrite <- (rnd64_Z z H). apply f64_ofZ. rewrite (rnd64_Z z H). apply Z_small, H. Qed.

(** The product is rounded *)
Lemma product x full : dbl x -> 0 <= val x <= 1 -> (0 <= full <= 2 ^ 53)%Z -> dbl (nmul x (nofZ full)) /\ val (nmul x (nofZ full)) = rnd64 (val x * IZR full) /\ 0 <= rnd64 (val x * IZR full) <= IZR full.
Proof.
  intros Hx Hv Hf. destruct (ofZ_ok full ltac:(lia)) as [D1 D2]. assert (Hp : 0 <= IZR full) by (apply IZR_le; lia).
  assert (B : 0 <= rnd64 (val x * IZR full) <= IZR full).
  { split; [rewrite <- (rnd64_Z 0) by lia; apply rnd64_mono, Rmult_le_pos; lra|]. rewrite <- (rnd64_Z full) at 2 by lia. apply rnd64_mono. rewrite <- (Rmult_1_l (IZR full)) at 2. apply Rmult_le_compat_r; lra. }
  destruct (f64_mul x (nofZ full) Hx D1) as [E1 E2].
  - rewrite D2. unfold small. rewrite Rabs_pos_eq by lra. eapply Rle_lt_trans; [apply B|]. pose proof (Z_small full ltac:(lia)) as S. unfold small in S. rewrite Rabs_pos_eq in S by exact Hp. exact S.
  - rewrite D2 in E2. auto.
Qed.
Lemma in_range_tests x : dbl x -> (nltb x nzero || nltb (nofZ 1) x = false <-> 0 <= val x <= 1).
Proof.
  intro Hx. destruct (ofZ_ok 1 ltac:(cbn; lia)) as [D1 D2]. rewrite (f64_ltb x nzero Hx (proj1 f64_zero)), (f64_ltb _ x D1 Hx), (proj2 f64_zero), D2. unfold Rltb.
  destruct (Rlt_dec (val x) 0), (Rlt_dec 1 (val x)); cbn; split; intro H; try discriminate; try lra; reflexivity.
Qed.
Lemma ratio64_ok x full limit : dbl x -> 0 <= val x <= 1 -> (0 <= full <= 2 ^ 53)%Z ->
  ratio_to_int64 (Fin x) full limit = Ok (Z.min (Zceil (rnd64 (val x * IZR full))) limit) /\ (0 <= Zceil (rnd64 (val x * IZR full)) <= full)%Z.
Proof.
  intros Hx Hv Hf. destruct (product x full Hx Hv Hf) as (D & E & B1 & B2). cbn [ratio_to_int64]. rewrite (proj2 (in_range_tests x Hx) Hv), (ceil64_ok _ D), E.
  assert (B : (0 <= Zceil (rnd64 (val x * IZR full)) <= full)%Z) by (split; [rewrite <- (Zceil_IZR 0); apply Zceil_le, B1|rewrite <- (Zceil_IZR full) at 2; apply Zceil_le, B2]). split; [|exact B]. do 2 f_equal. lia.
Qed.

Lemma round_rel p : bpow radix2 (-1022) <= p -> Rabs (rnd64 p - p) <= bpow radix2 (-53) * p.
Proof.
  intro Hp. pose proof (bpow_gt_0 radix2 (-1022)). pose proof (relative_error_N_FLT radix2 (-1074) 53 ltac:(reflexivity) (fun z => negb (Z.even z)) p) as H1. rewrite (Rabs_pos_eq p) in H1 by lra.
  specialize (H1 Hp). change (/ 2) with (bpow radix2 (-1)) in H1. rewrite <- bpow_plus in H1. exact H1.
Qed.
(** Rounding may remove what is above an integer *)
Lemma ceil_round x full c : dbl x -> 0 <= val x <= 1 -> (0 <= full <= 2 ^ 53)%Z -> c = Zceil (val x * IZR full) -> let k := Zceil (rnd64 (val x * IZR full)) in
  k = c \/ (k = c - 1)%Z /\ (0 < k)%Z /\ val x * IZR full - IZR k <= bpow radix2 (-53) * (val x * IZR full).
Proof.
  intros Hx Hv Hf Ec k. set (p := val x * IZR full) in *. assert (Hp : 0 <= IZR full) by (apply IZR_le; lia). assert (Hp0 : 0 <= p) by (apply Rmult_le_pos; lra). assert (Hpf : p <= IZR full) by (unfold p; rewrite <- (Rmult_1_l (IZR full)) at 2; apply Rmult_le_compat_r; lra).
  assert (Hc : IZR (c - 1) < p <= IZR c).
  { subst c. rewrite minus_IZR. pose proof (Zceil_ub p). pose proof (Zceil_lb p). lra. }
  assert (C0 : (0 <= c <= full)%Z) by (subst c; split; [rewrite <- (Zceil_IZR 0); apply Zceil_le, Hp0|rewrite <- (Zceil_IZR full); apply Zceil_le, Hpf]).
  assert (K1 : (k <= c)%Z) by (unfold k; rewrite <- (Zceil_IZR c), <- (rnd64_Z c) by lia; apply Zceil_le, rnd64_mono, Hc).
  destruct (Z.eq_dec c 0) as [E0|E0]; [left; assert (0 <= k)%Z by (unfold k; rewrite <- (Zceil_IZR 0), <- (rnd64_Z 0) by lia; apply Zceil_le, rnd64_mono, Hp0); lia|].
  assert (K2 : (c - 1 <= k)%Z) by (unfold k; rewrite <- (Zceil_IZR (c - 1)), <- (rnd64_Z (c - 1)) by lia; apply Zceil_le, rnd64_mono; lra).
  destruct (Z.eq_dec k c) as [E|E]; [left; exact E|]. right. assert (Ek : (k = c - 1)%Z) by lia. split; [exact Ek|].
  assert (L : rnd64 p <= IZR k) by (unfold k; apply Zceil_ub).
  assert (Hk : (0 < k)%Z).
  { destruct (Z_lt_le_dec 0 k) as [|Hk]; [assumption|]. exfalso. assert (IZR k <= 0) by (apply IZR_le; exact Hk). assert (Hp1 : 0 < p) by (eapply Rle_lt_trans; [|exact (proj1 Hc)]; apply IZR_le; lia).
    assert (V : 0 < val x) by (destruct Hv as [[V|V] _]; [exact V|unfold p in Hp1; rewrite <- V, Rmult_0_l in Hp1; lra]). assert (full <> 0%Z) by lia. assert (1 <= IZR full) by (apply IZR_le; lia).
    assert (val x <= p) by (unfold p; rewrite <- (Rmult_1_r (val x)) at 1; apply Rmult_le_compat_l; lra). pose proof (rnd64_mono _ _ H2) as M. rewrite (rnd64_val x Hx) in M. lra. }
  split; [exact Hk|]. assert (1 <= IZR k) by (apply IZR_le; lia). rewrite <- Ek in Hc.
  assert (Hn : bpow radix2 (-1022) <= p) by (apply Rle_trans with (bpow radix2 0); [apply bpow_le; lia|cbn; lra]). pose proof (round_rel p Hn) as A. apply Rabs_le_inv in A. lra.
Qed.
(** A quotient of integers *)
Lemma quotient k n : (0 <= k <= n)%Z -> (0 < n <= 2 ^ 52)%Z -> let x := ndiv (nofZ k) (nofZ n) in dbl x /\ 0 <= val x <= 1 /\ Rabs (val x * IZR n - IZR k) <= bpow radix2 (-53) * IZR k.
Proof.
  intros Hk Hn x. destruct (ofZ_ok k ltac:(lia)) as [A1 A2], (ofZ_ok n ltac:(lia)) as [B1 B2]. assert (P : 1 <= IZR n) by (apply IZR_le; lia). assert (P0 : 0 <= IZR k) by (apply IZR_le; lia). assert (P1 : IZR k <= IZR n) by (apply IZR_le; lia).
  set (q := IZR k / IZR n). assert (Hq : 0 <= q <= 1).
  { unfold q, Rdiv. assert (0 < / IZR n) by (apply Rinv_0_lt_compat; lra). split; [apply Rmult_le_pos; lra|]. rewrite <- (Rinv_r (IZR n)) by lra. apply Rmult_le_compat_r; lra. }
  assert (B : 0 <= rnd64 q <= 1) by (split; [rewrite <- (rnd64_Z 0) by lia|rewrite <- (rnd64_Z 1) by (cbn; lia)]; apply rnd64_mono, Hq).
  destruct (f64_div (nofZ k) (nofZ n) A1 B1) as [D E].
  - rewrite B2. lra.
  - rewrite A2, B2. fold q. unfold small. rewrite Rabs_pos_eq by lra. apply Rle_lt_trans with (bpow radix2 0); [cbn; lra|apply bpow_lt; lia].
  - rewrite A2, B2 in E. fold q in E. fold x in D, E. split; [exact D|]. rewrite E. split; [exact B|]. destruct (Z.eq_dec k 0) as [Ek|Ek].
    + assert (q = 0) as -> by (unfold q; rewrite Ek; unfold Rdiv; ring). change 0 with (IZR 0). rewrite rnd64_Z by lia. rewrite Ek, Rmult_0_l, Rminus_0_r, Rabs_R0, Rmult_0_r. lra.
    + assert (Hq2 : bpow radix2 (-1022) <= q).
      { apply Rle_trans with (bpow radix2 (-52)); [apply bpow_le; lia|]. change (bpow radix2 (-52)) with (/ IZR (2 ^ 52)). unfold q, Rdiv. rewrite <- (Rmult_1_l (/ IZR (2 ^ 52))). assert (1 <= IZR k) by (apply IZR_le; lia).
        apply Rmult_le_compat; [lra|left; apply Rinv_0_lt_compat, IZR_lt; lia|lra|]. apply Rinv_le_contravar; [lra|apply IZR_le; lia]. }
      pose proof (round_rel q Hq2) as A. assert (Eq : q * IZR n = IZR k) by (unfold q; field; lra). replace (rnd64 q * IZR n - IZR k) with ((rnd64 q - q) * IZR n) by (rewrite Rmult_minus_distr_r, Eq; reflexivity).
      rewrite Rabs_mult, (Rabs_pos_eq (IZR n)) by lra. rewrite <- Eq at 1. rewrite <- Rmult_assoc. apply Rmult_le_compat_r; [lra|exact A].
Qed.
