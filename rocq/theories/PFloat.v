(** * PFloat: binary64 operations are operations on reals followed by rounding (from Flocq) *)
From Coq Require Import ZArith Reals Lia Lra Floats.SpecFloat.
From Flocq Require Import Core IEEE754.BinarySingleNaN Relative.
From Verif Require Import Np InstF SReal SRound.
Open Scope Z_scope.

(** Rounding to the nearest double, ties to even, without upper bound of the exponent *)
Definition rnd64 : R -> R := round radix2 (FLT_exp (-1074) 53) ZnearestE.
(** The value of a double, and: it is one *)
Definition val (x : f64) : R := SF2R radix2 x.
Definition dbl (x : f64) : Prop := valid_binary prec emax x = true /\ is_finite_SF x = true.

#[local] Instance Hprec : FLX.Prec_gt_0 prec. Proof. reflexivity. Qed.
#[local] Instance Hmax : Prec_lt_emax prec emax. Proof. reflexivity. Qed.

Lemma dbl_B x : dbl x -> exists b : binary_float prec emax, B2SF b = x /\ B2R b = val x /\ is_finite b = true.
Proof.
  intros [V Fx]. exists (SF2B x V). split; [apply B2SF_SF2B|]. split; [apply B2R_SF2B|]. rewrite is_finite_SF2B. exact Fx.
Qed.
Lemma B_dbl (b : binary_float prec emax) : is_finite b = true -> dbl (B2SF b) /\ val (B2SF b) = B2R b.
Proof. intro H. split; [|apply SF2R_B2SF]. split; [apply valid_binary_B2SF|rewrite is_finite_SF_B2SF; exact H]. Qed.

(** SpecFloat and Flocq have the same operations *)
Lemma round_aux_same sx mx ex lx : SpecFloat.binary_round_aux prec emax sx mx ex lx = binary_round_aux prec emax mode_NE sx mx ex lx.
Proof.
  unfold SpecFloat.binary_round_aux, binary_round_aux. set (mrse' := shr_fexp _ _ _). case mrse'; intros mrs' e'; simpl.
  assert (E : forall s m l, round_nearest_even m l = choice_mode mode_NE s m l).
  { intros s m l. case l; [reflexivity|intro c]. case c; [|reflexivity..]. now simpl; unfold Round.cond_incr; case Z.even. }
  now rewrite (E sx).
Qed.
Lemma round_same s m e : SpecFloat.binary_round prec emax s m e = binary_round prec emax mode_NE s m e.
Proof. unfold SpecFloat.binary_round, binary_round, shl_align_fexp. set (mez := shl_align _ _ _); case mez as [mz ez]. apply round_aux_same. Qed.
Lemma normalize_same m e sz : SpecFloat.binary_normalize prec emax m e sz = B2SF (binary_normalize prec emax Hprec Hmax mode_NE m e sz).
Proof. case m as [|p|p]; [now simpl|simpl; rewrite B2SF_SF2B; apply round_same|simpl; rewrite B2SF_SF2B; apply round_same]. Qed.
Lemma add_same (a b : binary_float prec emax) : SFadd prec emax (B2SF a) (B2SF b) = B2SF (Bplus mode_NE a b).
Proof.
  case a as [sx|sx| |sx mx ex Bx]; case b as [sy|sy| |sy my ey By]; [now (trivial || simpl; case Bool.eqb)..|]. apply normalize_same.
Qed.
Lemma sub_same (a b : binary_float prec emax) : SFsub prec emax (B2SF a) (B2SF b) = B2SF (Bminus mode_NE a b).
Proof.
  case a as [sx|sx| |sx mx ex Bx]; case b as [sy|sy| |sy my ey By]; [now (trivial || simpl; case Bool.eqb)..|]. simpl. unfold Zminus. rewrite <- cond_Zopp_negb. apply normalize_same.
Qed.
Lemma mul_same (a b : binary_float prec emax) : SFmul prec emax (B2SF a) (B2SF b) = B2SF (Bmult mode_NE a b).
Proof.
  case a as [sx|sx| |sx mx ex Bx]; case b as [sy|sy| |sy my ey By]; [now trivial..|]. simpl. rewrite B2SF_SF2B. apply round_aux_same.
Qed.
Lemma div_same (a b : binary_float prec emax) : SFdiv prec emax (B2SF a) (B2SF b) = B2SF (Bdiv mode_NE a b).
Proof.
  case a as [sx|sx| |sx mx ex Bx]; case b as [sy|sy| |sy my ey By]; [now (trivial || simpl; case Bool.eqb)..|]. simpl. rewrite B2SF_SF2B.
  set (melz := SFdiv_core_binary _ _ _ _ _ _). case melz as [[mz ez] lz]. apply round_aux_same.
Qed.
Lemma sqrt_same (a : binary_float prec emax) : SFsqrt prec emax (B2SF a) = B2SF (Bsqrt mode_NE a).
Proof.
  case a as [sx|sx| |sx mx ex Bx]; [now (trivial || case sx)..|]. case sx; [reflexivity|]. simpl. rewrite B2SF_SF2B.
  set (melz := SFsqrt_core_binary _ _ _ _). case melz as [[mz ez] lz]. apply round_aux_same.
Qed.

(** ** The operations round, as long as nothing overflows *)
Definition small (x : R) : Prop := (Rabs x < bpow radix2 1024)%R.
Lemma small_true x : small x -> Rlt_bool (Rabs x) (bpow radix2 emax) = true.
Proof. apply Rlt_bool_true. Qed.
Lemma f64_add x y : dbl x -> dbl y -> small (rnd64 (val x + val y)) -> dbl (nadd x y) /\ val (nadd x y) = rnd64 (val x + val y).
Proof.
  intros Hx Hy HS. destruct (dbl_B x Hx) as (a & <- & Ea & Fa), (dbl_B y Hy) as (b & <- & Eb & Fb). cbn [nadd NumF]. rewrite add_same.
  pose proof (Bplus_correct prec emax Hprec Hmax mode_NE a b Fa Fb) as C. rewrite Ea, Eb in C. change (round _ _ _ _) with (rnd64 (val (B2SF a) + val (B2SF b))) in C. rewrite (small_true _ HS) in C.
  destruct C as (C1 & C2 & _). destruct (B_dbl _ C2) as [D1 D2]. split; [exact D1|]. rewrite D2. exact C1.
Qed.
Lemma f64_sub x y : dbl x -> dbl y -> small (rnd64 (val x - val y)) -> dbl (nsub x y) /\ val (nsub x y) = rnd64 (val x - val y).
Proof.
  intros Hx Hy HS. destruct (dbl_B x Hx) as (a & <- & Ea & Fa), (dbl_B y Hy) as (b & <- & Eb & Fb). cbn [nsub NumF]. rewrite sub_same.
  pose proof (Bminus_correct prec emax Hprec Hmax mode_NE a b Fa Fb) as C. rewrite Ea, Eb in C. change (round _ _ _ _) with (rnd64 (val (B2SF a) - val (B2SF b))) in C. rewrite (small_true _ HS) in C.
  destruct C as (C1 & C2 & _). destruct (B_dbl _ C2) as [D1 D2]. split; [exact D1|]. rewrite D2. exact C1.
Qed.
Lemma f64_mul x y : dbl x -> dbl y -> small (rnd64 (val x * val y)) -> dbl (nmul x y) /\ val (nmul x y) = rnd64 (val x * val y).
Proof.
  intros Hx Hy HS. destruct (dbl_B x Hx) as (a & <- & Ea & Fa), (dbl_B y Hy) as (b & <- & Eb & Fb). cbn [nmul NumF]. rewrite mul_same.
  pose proof (Bmult_correct prec emax Hprec Hmax mode_NE a b) as C. rewrite Ea, Eb, Fa, Fb in C. change (round _ _ _ _) with (rnd64 (val (B2SF a) * val (B2SF b))) in C. rewrite (small_true _ HS) in C.
  destruct C as (C1 & C2 & _). destruct (B_dbl _ C2) as [D1 D2]. split; [exact D1|]. rewrite D2. exact C1.
Qed.
Lemma f64_div x y : dbl x -> dbl y -> val y <> 0%R -> small (rnd64 (val x / val y)) -> dbl (ndiv x y) /\ val (ndiv x y) = rnd64 (val x / val y).
Proof.
  intros Hx Hy Hn HS. destruct (dbl_B x Hx) as (a & <- & Ea & Fa), (dbl_B y Hy) as (b & <- & Eb & Fb). cbn [ndiv NumF]. rewrite div_same.
  pose proof (Bdiv_correct prec emax Hprec Hmax mode_NE a b) as C. rewrite Ea, Eb, Fa in C. specialize (C Hn). change (round _ _ _ _) with (rnd64 (val (B2SF a) / val (B2SF b))) in C. rewrite (small_true _ HS) in C.
  destruct C as (C1 & C2 & _). destruct (B_dbl _ C2) as [D1 D2]. split; [exact D1|]. rewrite D2. exact C1.
Qed.
Lemma f64_sqrt x : dbl x -> (0 <= val x)%R -> dbl (nsqrt x) /\ val (nsqrt x) = rnd64 (sqrt (val x)).
Proof.
  intros Hx Hp. destruct (dbl_B x Hx) as (a & <- & Ea & Fa). cbn [nsqrt NumF]. rewrite sqrt_same.
  destruct (Bsqrt_correct prec emax Hprec Hmax mode_NE a) as (C1 & C2 & _). rewrite Ea in C1.
  assert (C3 : is_finite (Bsqrt mode_NE a) = true).
  { rewrite C2. destruct a as [s|s| |s mx ex B]; try discriminate; [reflexivity|]. destruct s; [|reflexivity]. exfalso.
    assert (N : (val (S754_finite true mx ex) < 0)%R) by (apply F2R_lt_0; reflexivity). cbn [B2SF] in Hp. lra. }
  destruct (B_dbl _ C3) as [D1 D2]. split; [exact D1|]. rewrite D2. exact C1.
Qed.
Lemma f64_ofZ z : small (rnd64 (IZR z)) -> dbl (nofZ z) /\ val (nofZ z) = rnd64 (IZR z).
Proof.
  intro HS. cbn [nofZ NumF]. unfold f64_of. rewrite normalize_same. pose proof (binary_normalize_correct prec emax Hprec Hmax mode_NE z 0 false) as C.
  assert (E : F2R (Float radix2 z 0) = IZR z) by (unfold F2R; cbn; ring). rewrite E in C. cbv zeta in C. change (round _ _ _ _) with (rnd64 (IZR z)) in C. rewrite (small_true _ HS) in C.
  destruct C as (C1 & C2 & _). destruct (B_dbl _ C2) as [D1 D2]. split; [exact D1|]. rewrite D2. exact C1.
Qed.
Lemma f64_ltb x y : dbl x -> dbl y -> nltb x y = Rltb (val x) (val y).
Proof.
  intros Hx Hy. destruct (dbl_B x Hx) as (a & <- & Ea & Fa), (dbl_B y Hy) as (b & <- & Eb & Fb). cbn [nltb NumF]. change (SFltb (B2SF a) (B2SF b)) with (Bltb a b).
  rewrite Bltb_correct by assumption. rewrite Ea, Eb. unfold Rltb. destruct (Rlt_dec _ _); [apply Rlt_bool_true; assumption|apply Rlt_bool_false; lra].
Qed.
Lemma f64_zero : dbl nzero /\ val nzero = 0%R.
Proof. split; [split; reflexivity|reflexivity]. Qed.
(** every double is a fixed point of the rounding *)
Lemma rnd64_val x : dbl x -> rnd64 (val x) = val x.
Proof. intros Hx. destruct (dbl_B x Hx) as (a & <- & Ea & Fa). unfold rnd64. apply round_generic; [apply valid_rnd_N|]. rewrite <- Ea. apply generic_format_B2R. Qed.

(** ** Properties of the rounding *)
#[local] Instance Hvalid : Valid_exp (FLT_exp (-1074) 53). Proof. apply FLT_exp_valid. reflexivity. Qed.
Open Scope R_scope.
(** Integers up to [2^53] times powers of two are not changed *)
Lemma rnd64_exact z e : (Z.abs z <= 2 ^ 53)%Z -> (-1074 <= e)%Z -> rnd64 (IZR z * bpow radix2 e) = IZR z * bpow radix2 e.
Proof.
  intros Hz He. unfold rnd64. apply round_generic; [apply valid_rnd_N|]. destruct (Z.eq_dec (Z.abs z) (2 ^ 53)) as [E|E].
  - assert (X : generic_format radix2 (FLT_exp (-1074) 53) (bpow radix2 (53 + e))) by (apply generic_format_FLT_bpow; [reflexivity|lia]).
    rewrite bpow_plus in X. destruct (Zabs_spec z) as [[Hp Ea]|[Hp Ea]].
    + replace z with (2 ^ 53)%Z by lia. exact X.
    + replace z with (- 2 ^ 53)%Z by lia. rewrite opp_IZR, Ropp_mult_distr_l_reverse. apply generic_format_opp. exact X.
  - apply generic_format_FLT. exists (Float radix2 z e); [reflexivity| |exact He]. cbn [Fnum]. change (Zpower radix2 53) with (2 ^ 53)%Z. lia.
Qed.
Lemma rnd64_mono x y : x <= y -> rnd64 x <= rnd64 y.
Proof. apply round_le; [exact Hvalid|apply valid_rnd_N]. Qed.
Lemma rnd64_opp x : rnd64 (- x) = - rnd64 x.
Proof. apply round_NE_opp. Qed.
(** A bound of that kind survives rounding *)
Lemma rnd64_le x z e : (0 <= z <= 2 ^ 53)%Z -> (-1074 <= e)%Z -> Rabs x <= IZR z * bpow radix2 e -> Rabs (rnd64 x) <= IZR z * bpow radix2 e.
Proof.
  intros Hz He H. assert (E := rnd64_exact z e ltac:(lia) He). apply Rabs_le_inv in H. apply Rabs_le. split.
  - rewrite <- E, <- rnd64_opp. apply rnd64_mono. lra.
  - rewrite <- E. apply rnd64_mono. lra.
Qed.
(** Relative error 2^-53, apart from underflow *)
Lemma rnd64_accurate : accurate (bpow radix2 (-53)) (bpow radix2 (-1022)) rnd64.
Proof.
  intro x. destruct (error_N_FLT radix2 (-1074) 53 ltac:(reflexivity) (fun z => negb (Z.even z)) x) as (eps & eta & H1 & H2 & _ & H3).
  unfold rnd64. change (ZnearestE) with (Znearest (fun z => negb (Z.even z))). rewrite H3. replace (x * (1 + eps) + eta - x) with (x * eps + eta) by ring.
  eapply Rle_trans; [apply Rabs_triang|]. rewrite Rabs_mult, Rmult_plus_distr_l, <- bpow_plus. rewrite (Rmult_comm (bpow _ _) (Rabs x)).
  assert (E1 : / 2 * bpow radix2 (- (53) + 1) = bpow radix2 (-53)) by (change (/ 2) with (bpow radix2 (-1)); rewrite <- bpow_plus; f_equal).
  assert (E2 : / 2 * bpow radix2 (-1074) = bpow radix2 (-53 + -1022)) by (change (/ 2) with (bpow radix2 (-1)); rewrite <- bpow_plus; f_equal).
  rewrite E1 in H1. rewrite E2 in H2. apply Rplus_le_compat; [|exact H2]. apply Rmult_le_compat_l; [apply Rabs_pos|exact H1].
Qed.
Lemma rnd64_sane : sane rnd64.
Proof.
  split.
  - exact rnd64_mono.
  - intro x. unfold rnd64. apply round_generic; [apply valid_rnd_N|]. apply generic_format_round; [exact Hvalid|apply valid_rnd_N].
  - intros z Hz. pose proof (rnd64_exact z 0) as E. cbn [bpow] in E. rewrite Rmult_1_r in E. apply E; [|lia]. assert (10 ^ 15 < 2 ^ 53)%Z by (vm_compute; reflexivity). lia.
  - intros x Hx. pose proof (rnd64_accurate x) as A. assert (P : 0 < / 10 ^ 30) by (apply Rinv_0_lt_compat, pow_lt; lra). rewrite (Rabs_pos_eq x) in A by lra.
    assert (B1 : bpow radix2 (-53) <= / 4) by (change (/ 4) with (bpow radix2 (-2)); apply bpow_le; lia).
    assert (B2 : bpow radix2 (-1022) <= x).
    { eapply Rle_trans; [|exact Hx]. apply Rle_trans with (bpow radix2 (-100)); [apply bpow_le; lia|]. change (bpow radix2 (-100)) with (/ IZR (Zpower_pos radix2 100)).
      apply Rinv_le_contravar; [apply pow_lt; lra|]. rewrite pow_IZR. apply IZR_le. vm_compute. discriminate. }
    apply Rabs_le_inv in A. assert (bpow radix2 (-53) * (x + bpow radix2 (-1022)) <= / 4 * (x + x)) by (apply Rmult_le_compat; [apply bpow_ge_0| |exact B1|lra]; pose proof (bpow_ge_0 radix2 (-1022)); lra). lra.
Qed.
