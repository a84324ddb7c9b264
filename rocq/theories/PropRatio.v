(** * Property C98: fractions in double precision *)
From Coq Require Import QArith ZArith Reals Lia Lra Floats.SpecFloat.
From Flocq Require Import Core IEEE754.BinarySingleNaN.
From Verif Require Import Np Mat MUtil MCalc InstF SReal SRound PFloat MRatio PRatio.
Open Scope R_scope.

(** [c] is the smallest integer that is at least [x]. *)
Definition least_above (x : R) (c : Z) : Prop := x <= IZR c /\ forall c', x <= IZR c' -> (c <= c')%Z.
Lemma least_ceil x : least_above x (Zceil x).
Proof. split; [apply Zceil_ub|]. intros c' H. rewrite <- (Zceil_IZR c'). apply Zceil_le, H. Qed.

(** C98. A double between 0 and 1: the call is one with the integer [k], which is the exact result [c], or [c - 1] if the exact product exceeds the
    integer [c - 1] by a relative 2^-53 at most. *)
Theorem C98_rounded : forall x full, dbl x -> 0 <= val x <= 1 -> (0 <= full <= 2 ^ 53)%Z ->
  exists k c, (forall limit, ratio_to_int64 (Fin x) full limit = ratio_to_int (RInt k) full limit) /\ (0 <= k <= full)%Z /\ least_above (val x * IZR full) c /\
    (k = c \/ (k = c - 1)%Z /\ (0 < k)%Z /\ val x * IZR full - IZR k <= bpow radix2 (-53) * (val x * IZR full)).
Proof.
  intros x full Hx Hv Hf. set (p := val x * IZR full). exists (Zceil (rnd64 p)), (Zceil p). destruct (ratio64_ok x full 0 Hx Hv Hf) as [_ B]. fold p in B. split; [|split; [exact B|split; [apply least_ceil|]]].
  - intro limit. destruct (ratio64_ok x full limit Hx Hv Hf) as [E _]. fold p in E. rewrite E. cbn [ratio_to_int]. do 2 f_equal. lia.
  - exact (ceil_round x full (Zceil p) Hx Hv Hf eq_refl).
Qed.
Print Assumptions C98_rounded.

(** 1.0 is everything, 0.0 nothing, and a larger fraction is not less. *)
Theorem C98_ends : forall x full limit, dbl x -> (0 <= full <= 2 ^ 53)%Z ->
  (val x = 1 -> ratio_to_int64 (Fin x) full limit = Ok (Z.min full limit)) /\ (val x = 0 -> ratio_to_int64 (Fin x) full limit = Ok (Z.min 0 limit)).
Proof.
  intros x full limit Hx Hf. split; intro E; (destruct (ratio64_ok x full limit Hx) as [H _]; [lra|exact Hf|]); rewrite H, E, ?Rmult_1_l, ?Rmult_0_l; [rewrite rnd64_Z by lia|change 0 with (IZR 0); rewrite rnd64_Z by lia]; rewrite Zceil_IZR; reflexivity.
Qed.
Print Assumptions C98_ends.
Theorem C98_monotone : forall x y full limit v v', dbl x -> dbl y -> val x <= val y -> (0 <= full <= 2 ^ 53)%Z ->
  ratio_to_int64 (Fin x) full limit = Ok v -> ratio_to_int64 (Fin y) full limit = Ok v' -> (v <= v')%Z.
Proof.
  intros x y full limit v v' Hx Hy Hle Hf E E'.
  assert (R : forall z w, dbl z -> ratio_to_int64 (Fin z) full limit = Ok w -> 0 <= val z <= 1) by (intros z w Hz Ez; apply (proj1 (in_range_tests z Hz)); cbn [ratio_to_int64] in Ez; destruct (_ || _); [discriminate|reflexivity]).
  rewrite (proj1 (ratio64_ok x full limit Hx (R x v Hx E) Hf)) in E. rewrite (proj1 (ratio64_ok y full limit Hy (R y v' Hy E') Hf)) in E'. injection E as <-. injection E' as <-.
  assert (H : (Zceil (rnd64 (val x * IZR full)) <= Zceil (rnd64 (val y * IZR full)))%Z); [|lia]. apply Zceil_le, rnd64_mono, Rmult_le_compat_r; [apply IZR_le; lia|exact Hle].
Qed.
Print Assumptions C98_monotone.
(** Everything else is rejected: NaN, infinities, and doubles outside of [0, 1]. *)
Theorem C98_rejects : forall r full limit, (forall x, r = Fin x -> dbl x /\ ~ 0 <= val x <= 1) -> ratio_to_int64 r full limit = Err ValueError.
Proof.
  intros [| |x|] full limit H; try reflexivity. destruct (H x eq_refl) as [Hx Hn]. cbn [ratio_to_int64]. destruct (nltb x nzero || nltb (nofZ 1) x) eqn:E; [reflexivity|]. destruct Hn. apply in_range_tests; assumption.
Qed.
Print Assumptions C98_rejects.

(** The fraction k / n, itself calculated in double precision (as the literal 0.07 is 7 / 100): [k] or [k + 1] of [n] *)
Theorem C98_fraction : forall k n, (0 <= k <= n)%Z -> (0 < n <= 2 ^ 52)%Z -> let r := Fin (ndiv (nofZ k) (nofZ n)) in
  (forall limit, ratio_to_int64 r n limit = ratio_to_int (RInt k) n limit) \/ (forall limit, ratio_to_int64 r n limit = ratio_to_int (RInt (k + 1)) n limit).
Proof.
  intros k n Hk Hn r. destruct (quotient k n Hk Hn) as (D & V & A). set (x := ndiv (nofZ k) (nofZ n)) in *. set (p := val x * IZR n) in *.
  assert (P0 : 0 <= IZR k) by (apply IZR_le; lia).
  assert (Hb : bpow radix2 (-53) * IZR k <= / 2).
  { apply Rle_trans with (bpow radix2 (-53) * bpow radix2 52); [apply Rmult_le_compat_l; [apply bpow_ge_0|change (bpow radix2 52) with (IZR (2 ^ 52)); apply IZR_le; lia]|]. rewrite <- bpow_plus. cbn. lra. }
  apply Rabs_le_inv in A.
  assert (half : forall z, (Z.abs z <= 2 ^ 53)%Z -> rnd64 (IZR z * / 2) = IZR z * / 2) by (intros z Hz; exact (rnd64_exact z (-1) Hz ltac:(lia))).
  assert (L : IZR (2 * k - 1) * / 2 <= rnd64 p) by (rewrite <- half by lia; apply rnd64_mono; rewrite minus_IZR, mult_IZR; lra).
  assert (U : rnd64 p <= IZR (2 * k + 1) * / 2).
  { destruct (Z.eq_dec k (2 ^ 52)) as [E|E]; [|rewrite <- half by lia; apply rnd64_mono; rewrite plus_IZR, mult_IZR; lra].
    apply Rle_trans with (IZR n); [rewrite <- (rnd64_Z n) by lia; apply rnd64_mono; unfold p; rewrite <- (Rmult_1_l (IZR n)) at 2; apply Rmult_le_compat_r; [apply IZR_le; lia|lra]|]. replace n with k by lia. rewrite plus_IZR, mult_IZR. lra. }
  assert (K1 : (k <= Zceil (rnd64 p))%Z) by (assert (IZR (k - 1) < IZR (Zceil (rnd64 p))) as H by (eapply Rlt_le_trans; [|apply Zceil_ub]; eapply Rlt_le_trans; [|exact L]; rewrite !minus_IZR, mult_IZR; lra); apply lt_IZR in H; lia).
  assert (K2 : (Zceil (rnd64 p) <= k + 1)%Z) by (rewrite <- (Zceil_IZR (k + 1)); apply Zceil_le; eapply Rle_trans; [exact U|]; rewrite !plus_IZR, mult_IZR; lra).
  assert (E : forall limit, ratio_to_int64 r n limit = Ok (Z.min (Zceil (rnd64 p)) limit)) by (intro limit; exact (proj1 (ratio64_ok x n limit D V ltac:(lia)))).
  destruct (Z.eq_dec (Zceil (rnd64 p)) k) as [Ek|Ek]; [left|right]; intro limit; rewrite E; cbn [ratio_to_int]; do 2 f_equal; lia.
Qed.
Print Assumptions C98_fraction.

(** Both cases happen.  7 percent of 100 columns are 8 columns. *)
Theorem C98_fraction_refuted : exists k n, (0 <= k <= n)%Z /\ ratio_to_int64 (Fin (ndiv (nofZ k) (nofZ n))) n n = Ok (k + 1)%Z.
Proof. exists 7%Z, 100%Z. split; [lia|vm_compute; reflexivity]. Qed.
Print Assumptions C98_fraction_refuted.
(** The double 0.1 is above 1 / 10, so the exact result for 10 columns is 2; it is 1. *)
Theorem C98_exact_refuted : exists x q full, dbl x /\ val x = Q2R q /\ ratio_to_int (RFloat (Fin q)) full full = Ok 2%Z /\ ratio_to_int64 (Fin x) full full = Ok 1%Z.
Proof.
  exists (ndiv (nofZ 1) (nofZ 10)), (3602879701896397 # 36028797018963968)%Q, 10%Z. split; [split; vm_compute; reflexivity|]. split; [|split; vm_compute; reflexivity].
  replace (ndiv (nofZ 1) (nofZ 10)) with (S754_finite false 7205759403792794 (-56)) by (vm_compute; reflexivity). unfold val, SF2R, F2R, Q2R. cbn [Fnum Fexp cond_Zopp Qnum Qden].
  replace (bpow radix2 (-56)) with (/ IZR 72057594037927936) by (cbn; reflexivity). lra.
Qed.
Print Assumptions C98_exact_refuted.

Example C98_example : map (fun k => ratio_to_int64 (Dec k 2) 100 90) [0; 7; 14; 28; 29; 50; 95; 100; 101; -1]%Z = [Ok 0; Ok 8; Ok 15; Ok 29; Ok 29; Ok 50; Ok 90; Ok 90; Err ValueError; Err ValueError]%Z.
Proof. vm_compute. reflexivity. Qed.
Example C98_example_hyps : dbl (ndiv (nofZ 7) (nofZ 100)) /\ 0 <= val (ndiv (nofZ 7) (nofZ 100)) <= 1.
Proof. destruct (quotient 7 100 ltac:(lia) ltac:(lia)) as (D & V & _). auto. Qed.
