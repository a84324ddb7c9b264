(** * PRoundCol: the error of the columns of the Euclidean generator in arithmetic that rounds *)
From Coq Require Import QArith Reals Lra Lia.
From Verif Require Import Np NpFacts MRing PRing MUtil MArith MCache MEuclid SReal SCalc SGen SRound SRoundCol PArith PDiagonal PEuclid PGenRun PValmodNext PRound PRoundGen PRoundEu.
Set Implicit Arguments.
Open Scope nat_scope.

Section Error.
  Variables (rnd : R -> R) (u t : R).
  Hypothesis HS : sane rnd.
  Hypothesis Hu : (0 <= u)%R.
  Hypothesis Ht : (0 <= t <= 1)%R.
  Hypothesis Ha : accurate u t rnd.
  Local Instance NRc : NumOps R := NumRnd rnd.
  Open Scope R_scope.
  Definition asum (x y : list R) : R := psum (fun a b => Rabs (a * b)) x y.
  Lemma asum_nonneg x : forall y, 0 <= asum x y.
  Proof. induction x as [|a x IH]; intros [|b y]; unfold asum, psum, rsum in *; cbn; try lra. specialize (IH y). pose proof (Rabs_pos (a * b)). lra. Qed.
  (** Dot products *)
  Lemma dot_from x : forall y n (s S B : R), (1 <= n)%nat -> Rabs S + t <= B \/ (s = S /\ Rabs S <= B) -> Rabs (s - S) <= grow u n * B -> length x = length y ->
    exists z, fold_left fadd (zip_with fmul (fin x) (fin y)) (Fin s) = Fin z /\
      Rabs (z - (S + dotp x y)) <= grow u (n + length x) * (B + asum x y + INR (length x) * t).
  Proof.
    induction x as [|a x IH]; intros [|b y] n s S B Hn HB He L; try discriminate.
    - exists s. split; [reflexivity|]. unfold dotp, asum, psum, rsum. cbn. rewrite !Rplus_0_r, Nat.add_0_r. rewrite Rmult_0_l, Rplus_0_r. exact He.
    - cbn [map zip_with fold_left]. cbn [fmul fadd nmul nadd NRc NumRnd].
      set (p := rnd (a * b)). pose proof (Ha (a * b)) as Ep. fold p in Ep. assert (G1 : u <= grow u n) by (eapply Rle_trans; [|apply (grow_mono Hu Hn)]; unfold grow; simpl; lra).
      pose proof (Rabs_pos (a * b)) as A0. pose proof (Rabs_pos S) as S0.
      assert (HB' : Rabs S <= B) by (destruct HB as [HB|[_ HB]]; lra).
      assert (E1 : Rabs (s + p - (S + a * b)) <= grow u n * (B + Rabs (a * b) + t)).
      { replace (s + p - (S + a * b)) with ((s - S) + (p - a * b)) by ring. eapply Rle_trans; [apply Rabs_triang|].
        assert (u * (Rabs (a * b) + t) <= grow u n * (Rabs (a * b) + t)) by (apply Rmult_le_compat_r; lra). lra. }
      assert (E2 : Rabs (S + a * b) + t <= B + Rabs (a * b) + t) by (pose proof (Rabs_triang S (a * b)); lra).
      assert (E3 : Rabs (rnd (s + p) - (S + a * b)) <= grow u (Datatypes.S n) * (B + Rabs (a * b) + t)) by (apply (rnd_err Hu Ha); assumption).
      destruct (IH y (Datatypes.S n) (rnd (s + p)) (S + a * b) (B + Rabs (a * b) + t)) as (z & Ez & Bz); [lia|left; exact E2|exact E3|cbn in L; lia|].
      exists z. split; [exact Ez|]. rewrite dotp_cons. cbn [length]. replace (n + Datatypes.S (length x))%nat with (Datatypes.S n + length x)%nat by lia.
      rewrite S_INR. replace (asum (a :: x) (b :: y)) with (Rabs (a * b) + asum x y) by (unfold asum, psum, rsum; reflexivity).
      replace (S + (a * b + dotp x y)) with (S + a * b + dotp x y) by ring. replace (B + (Rabs (a * b) + asum x y) + (INR (length x) + 1) * t) with (B + Rabs (a * b) + t + asum x y + INR (length x) * t) by ring. exact Bz.
  Qed.
  Lemma dot_err x y : length x = length y -> exists z, fdot (fin x) (fin y) = Fin z /\ Rabs (z - dotp x y) <= grow u (1 + length x) * (asum x y + INR (length x) * t).
  Proof.
    intro L. destruct (@dot_from x y 1 0 0 0) as (z & Ez & Bz); [lia|right; split; [reflexivity|rewrite Rabs_R0; lra]|rewrite Rminus_0_r, Rabs_R0; lra|exact L|].
    exists z. rewrite !Rplus_0_l in Bz. split; [exact Ez|exact Bz].
  Qed.
  Definition both (x y : list R) : R := psum (fun a b => (Rabs a + Rabs b) * (Rabs a + Rabs b)) x y.
  Lemma both_sums x : forall y, length x = length y -> both x y = asum x x + 2 * asum x y + asum y y.
  Proof.
    induction x as [|a x IH]; intros [|b y] L; try discriminate; unfold both, asum, psum, rsum in *; cbn.
    - ring.
    - rewrite (IH y) by (cbn in L; lia). rewrite !Rabs_mult. ring.
  Qed.
  Lemma dot_abs x : forall y, Rabs (dotp x y) <= asum x y.
  Proof.
    induction x as [|a x IH]; intros [|b y]; unfold dotp, asum, psum, rsum in *; cbn; try (rewrite Rabs_R0; lra).
    eapply Rle_trans; [apply Rabs_triang|]. specialize (IH y). lra.
  Qed.
  Lemma sqd_both x : forall y, sqd x y <= both x y.
  Proof.
    induction x as [|a x IH]; intros [|b y]; unfold sqd, both, psum, rsum in *; cbn; try lra. specialize (IH y).
    assert (H := Rabs_triang a (- b)). rewrite Rabs_Ropp in H. pose proof (Rabs_pos (a + - b)). assert ((a - b) * (a - b) = Rabs (a + - b) * Rabs (a + - b)) by (rewrite <- Rabs_mult, Rabs_pos_eq; [reflexivity|apply Rle_0_sqr]).
    assert (Rabs (a + - b) * Rabs (a + - b) <= (Rabs a + Rabs b) * (Rabs a + Rabs b)) by (apply Rmult_le_compat; lra). lra.
  Qed.
  Lemma both_nonneg x y : 0 <= both x y.
  Proof. eapply Rle_trans; [apply sqd_nonneg|apply sqd_both]. Qed.
  Lemma both_sym x : forall y, both x y = both y x.
  Proof. intro y. apply psum_sym. intros; ring. Qed.
  (** A subsequence compared in full *)
  Lemma full_err x y : length x = length y -> (0 < length x)%nat -> let m := length x in
    exists z, fadd (fsub (fdot (fin x) (fin x)) (fmul (fofZ 2) (fdot (fin x) (fin y)))) (fdot (fin y) (fin y)) = Fin z /\
      Rabs (z - sqd x y) <= grow u (m + 4) * (both x y + INR (4 * m) * t).
  Proof.
    intros L Hm m. destruct (@dot_err x x eq_refl) as (z1 & -> & B1). destruct (@dot_err x y L) as (z2 & -> & B2). destruct (@dot_err y y eq_refl) as (z3 & -> & B3). rewrite <- L in B3. fold m in B1, B2, B3.
    change (@fofZ R NRc 2) with (Fin (rnd 2)). rewrite (sane_ints HS 2) by (apply Z.leb_le; reflexivity). cbn [fmul fsub fadd nmul nsub nadd NRc NumRnd]. eexists. split; [reflexivity|].
    assert (M1 : 1 <= INR m) by (apply (le_INR 1); exact Hm). pose proof (asum_nonneg x x). pose proof (asum_nonneg x y). pose proof (asum_nonneg y y).
    pose proof (dot_abs x x). pose proof (dot_abs x y). pose proof (dot_abs y y). assert (T1 : t <= INR m * t) by nra.
    set (b1 := asum x x + INR m * t) in *. set (b2 := asum x y + INR m * t) in *. set (b3 := asum y y + INR m * t) in *.
    pose proof (grow_pos Hu (m + 3)). pose proof (grow_pos Hu (m + 2)). 
    assert (C2 : Rabs (rnd (2 * z2) - 2 * dotp x y) <= grow u (m + 2) * (2 * b2)).
    { replace (m + 2)%nat with (S (1 + m)) by lia. apply (rnd_err Hu Ha).
      - rewrite Rabs_mult, (Rabs_pos_eq 2) by lra. unfold b2. lra.
      - replace (2 * z2 - 2 * dotp x y) with (2 * (z2 - dotp x y)) by ring. rewrite Rabs_mult, (Rabs_pos_eq 2) by lra. lra. }
    assert (C3 : Rabs (rnd (z1 - rnd (2 * z2)) - (dotp x x - 2 * dotp x y)) <= grow u (m + 3) * (b1 + 2 * b2)).
    { replace (m + 3)%nat with (S (m + 2)) by lia. apply (rnd_err Hu Ha).
      - unfold Rminus. eapply Rle_trans; [apply Rplus_le_compat_r, Rabs_triang|]. rewrite Rabs_Ropp, Rabs_mult, (Rabs_pos_eq 2) by lra. unfold b1, b2. lra.
      - replace (z1 - rnd (2 * z2) - (dotp x x - 2 * dotp x y)) with ((z1 - dotp x x) + - (rnd (2 * z2) - 2 * dotp x y)) by ring. eapply Rle_trans; [apply Rabs_triang|]. rewrite Rabs_Ropp, Rmult_plus_distr_l.
        apply Rplus_le_compat; [|exact C2]. eapply Rle_trans; [exact B1|]. apply Rmult_le_compat_r; [unfold b1; nra|apply grow_mono; [exact Hu|lia]]. }
    replace (sqd x y) with (dotp x x - 2 * dotp x y + dotp y y) by (apply sqd_dots; exact L).
    replace (both x y + INR (4 * m) * t) with (b1 + 2 * b2 + b3).
    2:{ rewrite both_sums by exact L. rewrite mult_INR. unfold b1, b2, b3. replace (INR 4) with 4 by (simpl; lra). ring. }
    replace (m + 4)%nat with (S (m + 3)) by lia. apply (rnd_err Hu Ha).
    - eapply Rle_trans; [apply Rplus_le_compat_r, Rabs_triang|]. unfold Rminus. eapply Rle_trans; [apply Rplus_le_compat_r, Rplus_le_compat_r, Rabs_triang|]. rewrite Rabs_Ropp, Rabs_mult, (Rabs_pos_eq 2) by lra. unfold b1, b2, b3. lra.
    - match goal with |- Rabs (?p + z3 - (?q + _)) <= _ => replace (p + z3 - (q + dotp y y)) with ((p - q) + (z3 - dotp y y)) by ring end. eapply Rle_trans; [apply Rabs_triang|]. rewrite (Rmult_plus_distr_l (grow u (m + 3)) (b1 + 2 * b2)).
      apply Rplus_le_compat; [exact C3|]. eapply Rle_trans; [exact B3|]. apply Rmult_le_compat_r; [unfold b3; nra|apply grow_mono; [exact Hu|lia]].
  Qed.
  Definition thr : R := (1 + u) / 10 ^ 15 + u * t.
  Lemma thr_pos : 0 < thr.
  Proof. unfold thr. assert (0 < (1 + u) / 10 ^ 15) by (apply Rdiv_lt_0_compat; [lra|apply pow_lt; lra]). nra. Qed.
  Lemma eps_le : exists e, EPSILON = Fin e /\ 0 < e <= thr.
  Proof.
    destruct (EPSILON_pos HS) as (e & Ee & He). exists e. split; [exact Ee|]. split; [exact He|]. change (Fin (rnd (rnd 1 / rnd (IZR (10 ^ 15)))) = Fin e) in Ee.
    rewrite (sane_ints HS 1), (sane_ints HS (10 ^ 15)) in Ee by (apply Z.leb_le; reflexivity). assert (E15 : IZR (10 ^ 15) = 10 ^ 15) by (rewrite (pow_IZR 10 15); reflexivity). rewrite E15 in Ee. pose proof (Ha (1 / 10 ^ 15)) as E.
    assert (Ev : e = rnd (1 / 10 ^ 15)) by congruence. clear Ee E15. subst e.
    assert (P : 0 < 1 / 10 ^ 15) by (apply Rdiv_lt_0_compat; [lra|apply pow_lt; lra]). rewrite (Rabs_pos_eq (1 / 10 ^ 15)) in E by lra.
    pose proof (Rle_abs (rnd (1 / 10 ^ 15) - 1 / 10 ^ 15)). unfold thr. replace ((1 + u) / 10 ^ 15) with (1 / 10 ^ 15 + u * (1 / 10 ^ 15)) by (unfold Rdiv; ring). set (q := 1 / 10 ^ 15) in *. clearbody q. lra.
  Qed.
  (** [v] is [D] after [n] roundings of values up to [B], and the threshold *)
  Definition within (n : nat) (B v D : R) : Prop := 0 <= D /\ D + t <= B /\ Rabs (v - D) <= grow u n * (B + thr) + thr.
  Lemma within_le n k B C v D : (n <= k)%nat -> B <= C -> within n B v D -> within k C v D.
  Proof.
    intros Hn HB (H1 & H2 & H3). split; [exact H1|]. split; [lra|]. eapply Rle_trans; [exact H3|]. apply Rplus_le_compat_r. pose proof thr_pos.
    apply Rmult_le_compat; [apply grow_pos, Hu|lra|apply grow_mono; assumption|lra].
  Qed.
  Lemma round_within y Y B n : Rabs Y + t <= B -> Rabs (y - Y) <= grow u n * (B + thr) + thr -> Rabs (rnd y - Y) <= grow u (S n) * (B + thr) + thr.
  Proof.
    intros HB H. pose proof thr_pos. assert (Hy : Rabs y + t <= (1 + u) ^ n * (B + thr)).
    { assert (Rabs y <= Rabs (y - Y) + Rabs Y) by (replace y with ((y - Y) + Y) at 1 by ring; apply Rabs_triang). unfold grow in H. lra. }
    replace (rnd y - Y) with ((rnd y - y) + (y - Y)) by ring. eapply Rle_trans; [apply Rabs_triang|]. rewrite grow_S. pose proof (Ha y) as E.
    assert (u * (Rabs y + t) <= u * ((1 + u) ^ n * (B + thr))) by (apply Rmult_le_compat_l; [exact Hu|exact Hy]). lra.
  Qed.
  Lemma clip_within m x y e : (0 < m)%nat -> length x = m -> length y = m -> EPSILON = Fin e -> 0 < e <= thr ->
    exists v, (let d := fadd (fsub (fdot (fin x) (fin x)) (fmul (fofZ 2) (fdot (fin x) (fin y)))) (fdot (fin y) (fin y)) in if fltb d EPSILON then fzero else d) = Fin v /\
      within (m + 4) (both x y + INR (4 * m) * t) v (sqd x y).
  Proof.
    intros Hm Lx Ly Ee He. destruct (@full_err x y) as (z & Ez & B); [congruence|lia|]. rewrite Lx in B. cbn zeta. rewrite Ez, Ee. cbn [fltb nltb NRc NumRnd]. pose proof (sqd_nonneg x y) as D0. pose proof (sqd_both x y).
    assert (T1 : t <= INR (4 * m) * t). { assert (1 <= INR (4 * m)) by (apply (le_INR 1); lia). nra. }
    pose proof (grow_pos Hu (m + 4)) as G0. pose proof (both_nonneg x y). assert (Db : sqd x y + t <= both x y + INR (4 * m) * t) by lra. set (b := both x y + INR (4 * m) * t) in *. assert (Gt : 0 <= grow u (m + 4) * thr) by (apply Rmult_le_pos; lra).
    unfold Rltb. destruct (Rlt_dec z e) as [Hz|Hz].
    - exists 0. split; [reflexivity|]. split; [exact D0|]. split; [lra|]. rewrite Rmult_plus_distr_l, Rminus_0_l, Rabs_Ropp, Rabs_pos_eq by exact D0.
      assert (- (z - sqd x y) <= Rabs (z - sqd x y)) by (rewrite <- Rabs_Ropp; apply Rle_abs). lra.
    - exists z. split; [reflexivity|]. split; [exact D0|]. split; [lra|]. rewrite Rmult_plus_distr_l. lra.
  Qed.
  (** One column further *)
  Lemma slide_within n B v D a b c d : (4 <= n)%nat -> within n B v D -> 0 <= D - sqdiff a b + sqdiff c d -> 
    within (n + 2) (B + sqdiff a b + sqdiff c d + 2 * t) (rnd (rnd (v - rnd (rnd (a - b) * rnd (a - b))) + rnd (rnd (c - d) * rnd (c - d)))) (D - sqdiff a b + sqdiff c d).
  Proof.
    intros Hn (H1 & H2 & H3) HD. pose proof (@off_square rnd u t Hu Ht Ha a b) as [P1 P2]. pose proof (@off_square rnd u t Hu Ht Ha c d) as [P3 P4]. cbn [INR] in P2, P4. rewrite Rmult_1_l in P2, P4.
    set (s1 := rnd (rnd (a - b) * _)) in *. set (s2 := rnd (rnd (c - d) * _)) in *. set (q1 := sqdiff a b) in *. set (q2 := sqdiff c d) in *. clearbody s1 s2 q1 q2.
    pose proof (grow_mono Hu Hn) as G4. assert (Hn1 : (4 <= n + 1)%nat) by lia. pose proof (grow_mono Hu Hn1) as G5.
    split; [exact HD|]. split; [lra|].
    assert (E1 : Rabs (rnd (v - s1) - (D - q1)) <= grow u (S n) * (B + q1 + t + thr) + thr).
    { apply round_within.
      - assert (Rabs (D - q1) <= D + q1) by (apply Rabs_le; lra). lra.
      - replace (v - s1 - (D - q1)) with ((v - D) + - (s1 - q1)) by ring. eapply Rle_trans; [apply Rabs_triang|]. rewrite Rabs_Ropp.
        assert (grow u 4 * (q1 + t) <= grow u n * (q1 + t)) by (apply Rmult_le_compat_r; lra). lra. }
    replace (n + 2)%nat with (S (S n)) by lia. apply round_within.
    - rewrite Rabs_pos_eq by exact HD. lra.
    - replace (rnd (v - s1) + s2 - (D - q1 + q2)) with ((rnd (v - s1) - (D - q1)) + (s2 - q2)) by ring. eapply Rle_trans; [apply Rabs_triang|].
      replace (S n) with (n + 1)%nat in * by lia. assert (grow u 4 * (q2 + t) <= grow u (n + 1) * (q2 + t)) by (apply Rmult_le_compat_r; lra). lra.
  Qed.
  Lemma sqdiff_sz a b : sqdiff a b <= (Rabs a + Rabs b) * (Rabs a + Rabs b).
  Proof. pose proof (sqd_both [a] [b]) as H. unfold sqd, both, psum, rsum in H. cbn in H. unfold sqdiff. lra. Qed.
End Error.

Section Batch.
  Variables (rnd : R -> R) (u t : R).
  Hypothesis HS : sane rnd.
  Hypothesis Hu : (0 <= u)%R.
  Hypothesis Ht : (0 <= t <= 1)%R.
  Hypothesis Ha : accurate u t rnd.
  Local Instance NRb : NumOps R := NumRnd rnd.
  Variables (m : nat) (S Q : list R).
  Hypothesis Hm : 0 < m.
  Definition cell_bound (i j : nat) : R := let k := Nat.min i j in (extent (k + m) Q S (i - k) (j - k) + extent k Q S (i - k) (j - k) + INR (4 * m + 2 * k) * t)%R.
  Definition good (i j : nat) (v : R) : Prop := within u t (m + 4 + 2 * Nat.min i j) (cell_bound i j) v (sqd (sub m Q i) (sub m S j)).
  Lemma extent_split n k a b : a + k + n <= length Q -> b + k + n <= length S -> extent (k + n) Q S a b = (extent k Q S a b + both (sub n Q (a + k)) (sub n S (b + k)))%R.
  Proof.
    intros H1 H2. unfold extent, both. rewrite !sub_split. apply psum_app. rewrite !length_sub. lia.
  Qed.
  Lemma extent_nonneg n a b : (0 <= extent n Q S a b)%R.
  Proof. apply both_nonneg. Qed.
  Lemma good_fresh i j v : i + m <= length Q -> j + m <= length S -> within u t (m + 4) (both (sub m Q i) (sub m S j) + INR (4 * m) * t) v (sqd (sub m Q i) (sub m S j)) -> good i j v.
  Proof.
    intros Hi Hj H. unfold good, cell_bound. set (k := Nat.min i j). assert (Hk : k <= i /\ k <= j) by lia. refine (within_le Hu Ht _ _ H); [lia|].
    rewrite (@extent_split m k (i - k) (j - k)) by lia. replace (i - k + k) with i by lia. replace (j - k + k) with j by lia.
    pose proof (extent_nonneg k (i - k) (j - k)). assert (INR (4 * m) * t <= INR (4 * m + 2 * k) * t)%R by (apply Rmult_le_compat_r; [lra|apply le_INR; lia]). lra.
  Qed.
  Lemma extent_one n a b : a + n < length Q -> b + n < length S -> extent (n + 1) Q S a b = (extent n Q S a b + (Rabs (nth (a + n) Q 0) + Rabs (nth (b + n) S 0)) * (Rabs (nth (a + n) Q 0) + Rabs (nth (b + n) S 0)))%R.
  Proof.
    intros H1 H2. rewrite extent_split by lia. f_equal. rewrite (sub_head 0 Q 0%R) by lia. rewrite (sub_head 0 S 0%R) by lia. unfold both, psum, rsum. cbn. ring.
  Qed.
  Lemma good_slide i j v : i + m < length Q -> j + m < length S -> good i j v ->
    good (i + 1) (j + 1) (rnd (rnd (v - rnd (rnd (nth j S 0 - nth i Q 0) * rnd (nth j S 0 - nth i Q 0))) + rnd (rnd (nth (j + m) S 0 - nth (i + m) Q 0) * rnd (nth (j + m) S 0 - nth (i + m) Q 0))))%R.
  Proof.
    intros Hi Hj H. unfold good in *.
    assert (ED : sqd (sub m Q (i + 1)) (sub m S (j + 1)) = (sqd (sub m Q i) (sub m S j) - sqdiff (nth j S 0) (nth i Q 0) + sqdiff (nth (j + m) S 0) (nth (i + m) Q 0))%R).
    { rewrite !Nat.add_1_r. unfold sqd. rewrite psum_slide by lia. unfold sqdiff. ring. }
    assert (D0 := sqd_nonneg (sub m Q (i + 1)) (sub m S (j + 1))). rewrite ED in D0 |- *.
    pose proof (@slide_within rnd u t Hu Ht Ha (m + 4 + 2 * Nat.min i j) _ _ _ (nth j S 0%R) (nth i Q 0%R) (nth (j + m) S 0%R) (nth (i + m) Q 0%R) ltac:(lia) H D0) as G.
    refine (within_le Hu Ht _ _ G); [lia|]. unfold cell_bound. replace (Nat.min (i + 1) (j + 1)) with (Nat.min i j + 1) by lia. set (k := Nat.min i j). assert (Hk : k <= i /\ k <= j) by lia.
    replace (i + 1 - (k + 1)) with (i - k) by lia. replace (j + 1 - (k + 1)) with (j - k) by lia. replace (k + 1 + m) with (k + m + 1) by lia.
    rewrite (@extent_one (k + m)), (@extent_one k) by lia. replace (i - k + (k + m)) with (i + m) by lia. replace (j - k + (k + m)) with (j + m) by lia. replace (i - k + k) with i by lia. replace (j - k + k) with j by lia.
    pose proof (sqdiff_sz (nth i Q 0%R) (nth j S 0%R)) as Z1. pose proof (sqdiff_sz (nth (i + m) Q 0%R) (nth (j + m) S 0%R)) as Z2. rewrite (sqdiff_sym (nth j S 0%R) (nth i Q 0%R)), (sqdiff_sym (nth (j + m) S 0%R) (nth (i + m) Q 0%R)).
    replace (INR (4 * m + 2 * (k + 1)))%R with (INR (4 * m + 2 * k) + 2)%R by (replace (4 * m + 2 * (k + 1)) with (4 * m + 2 * k + 2) by lia; rewrite (plus_INR (4 * m + 2 * k) 2); reflexivity).
    set (e1 := ((Rabs (nth i Q 0) + _) * _)%R) in *. set (e2 := ((Rabs (nth (i + m) Q 0) + _) * _)%R) in *. clearbody e1 e2.
    set (x1 := extent (k + m) _ _ _ _). set (x2 := extent k _ _ _ _). clearbody x1 x2. lra.
  Qed.
  Definition good_col (c : nat) (vs : list R) : Prop := length vs = length Q + 1 - m /\ forall i, i + m <= length Q -> good i c (nth i vs 0%R).
  Definition good_row (v : list R) : Prop := length v = length S + 1 - m /\ forall j, j + m <= length S -> good 0 j (nth j v 0%R).

  Lemma full_values l y : length y = m -> m <= length l -> exists vs, euclidean_distance_squared (fin l) (fin y) = Ok (fin vs) /\ length vs = length l + 1 - m /\
    forall i, i + m <= length l -> within u t (m + 4) (both (sub m l i) y + INR (4 * m) * t) (nth i vs 0%R) (sqd (sub m l i) y).
  Proof.
    intros Ly Ll. destruct (@eps_le rnd u t HS Ha) as (e & Ee & He).
    set (val := fun w => let d := fadd (fsub (fdot w w) (fmul (fofZ 2) (fdot w (fin y)))) (fdot (fin y) (fin y)) in if fltb d EPSILON then fzero else d).
    set (real := fun x : num R => match x with Fin a => a | _ => 0%R end).
    exists (map (fun i => real (val (fin (sub m l i)))) (seq 0 (length l + 1 - m))).
    assert (K : forall i, i + m <= length l -> exists v, val (fin (sub m l i)) = Fin v /\ within u t (m + 4) (both (sub m l i) y + INR (4 * m) * t) v (sqd (sub m l i) y)).
    { intros i Hi. apply (@clip_within rnd u t HS Hu Ht Ha m (sub m l i) y e Hm); [rewrite length_sub; lia|exact Ly|exact Ee|exact He]. }
    split.
    - unfold euclidean_distance_squared. rewrite map_length, Ly, windows_ok by (rewrite ?map_length; lia). cbn [bind]. f_equal. rewrite !map_map, map_length. apply map_ext_in. intros i Hi%in_seq.
      rewrite sub_map. destruct (K i ltac:(lia)) as (v & Ev & _). rewrite Ev. exact Ev.
    - split; [rewrite map_length, seq_length; reflexivity|]. intros i Hi. destruct (K i Hi) as (v & Ev & W).
      replace (nth i _ 0%R) with v; [exact W|]. symmetry. apply nth_error_nth. rewrite nth_error_map, nth_error_seq. destruct (Nat.ltb_spec i (length l + 1 - m)); [|lia]. cbn. rewrite Ev. reflexivity.
  Qed.

  Record binv (g : @cache R) : Prop := {
    bi_m : ch_m g = m;
    bi_s : rb_view (ch_series g) = fin S;
    bi_q : rb_view (ch_query g) = fin Q;
    bi_max : rb_max (ch_series g) = length S;
    bi_backlog : ch_backlog g = 0;
    bi_first : forall b, ch_first g = Some b -> exists v, rb_view b = fin v /\ good_row v;
    bi_prev : forall p, ch_prev g = Some p -> exists c vs, p = Z.of_nat c /\ c + m <= length S /\ ch_vals g = fin vs /\ good_col c vs
  }.
  Lemma batch_first mem g : binv g -> m <= length S -> m <= length Q -> exists b v, cache_first euclidean_distance_squared mem g = Ok b /\ rb_view b = fin v /\ good_row v.
  Proof.
    intros [B1 B2 B3 B4 B5 B6 _] LS LQ. unfold cache_first. rewrite B3, B1, B2, B4, B5. destruct (ch_first g) as [b|].
    - cbn. destruct (B6 _ eq_refl) as (v & V & G). exists b, v. auto.
    - change (lslice (fin Q) 0 m) with (lslice (fin Q) 0 (0 + m)). rewrite lslice_sub, sub_map. destruct (@full_values S (sub m Q 0)) as (vs & Ev & Lv & Nv); [rewrite length_sub; lia|lia|]. rewrite Ev. cbn [bind].
      destruct (@win_new _ mem (fin vs) (length S + 1 - m) 2) as (b & Eb & Wb); [discriminate|discriminate|lia|rewrite map_length; lia|].
      exists b, vs. split; [exact Eb|]. split; [apply Wb|]. split; [exact Lv|]. intros j Hj. apply good_fresh; [lia|exact Hj|]. rewrite both_sym, sqd_sym. apply Nv, Hj.
  Qed.
  Lemma batch_col mem g c : binv g -> c + m <= length S -> m <= length Q -> exists g' vs, cache_col euclidean_distance_squared sq_diff mem g c = Ok (g', fin vs) /\ good_col c vs /\ binv g'.
  Proof.
    intros I Hc HQ. pose proof I as [B1 B2 B3 B4 B5 B6 B7]. unfold cache_col. rewrite B3, B2, B1.
    assert (Fin1 : forall vs fr bl, good_col c vs -> bl = 0 -> (forall b, fr = Some b -> exists v, rb_view b = fin v /\ good_row v) ->
      binv (mkCache m (ch_self g) (ch_series g) (ch_qbuf g) fr bl (Some (Z.of_nat c)) (fin vs))).
    { intros vs fr bl G -> F. constructor; cbn [ch_m ch_self ch_series ch_qbuf ch_first ch_prev ch_backlog ch_vals]; auto. intros p Ep. injection Ep as <-. exists c, vs. auto. }
    destruct (negb _ || _) eqn:Ec.
    - rewrite lslice_sub, sub_map. destruct (@full_values Q (sub m S c)) as (vs & Ev & Lv & Nv); [rewrite length_sub; lia|exact HQ|]. rewrite Ev. cbn [bind].
      assert (G : good_col c vs) by (split; [exact Lv|]; intros i Hi; apply good_fresh; [exact Hi|exact Hc|apply Nv, Hi]).
      do 2 eexists. split; [reflexivity|]. split; [exact G|]. apply Fin1; assumption.
    - apply orb_false_elim in Ec as [Ec1 Ec2]. apply negb_false_iff in Ec1. apply Nat.eqb_neq in Ec2. destruct (ch_prev g) as [p|] eqn:Ep; [|discriminate]. apply Z.eqb_eq in Ec1.
      destruct (B7 _ eq_refl) as (c0 & pv & C0 & C1 & C2 & [Lpv C3]). assert (c0 = c - 1) as -> by lia.
      destruct (@batch_first mem g I ltac:(lia) HQ) as (b & v & Eb & Vb & [Lv Nv]). rewrite Eb. cbn [bind].
      rewrite (proj2 (getitem_ok (fin S) (c - 1) (Fin (nth (c - 1) S 0%R)))) by (rewrite nth_error_map, (nth_error_nth' S 0%R) by lia; reflexivity).
      cbn [bind]. rewrite (proj2 (getitem_ok (fin S) (c + m - 1) (Fin (nth (c + m - 1) S 0%R)))) by (rewrite nth_error_map, (nth_error_nth' S 0%R) by lia; reflexivity).
      cbn [bind]. rewrite C2, map_length. set (n := length Q - m) in *. assert (Lpv' : length pv = n + 1) by lia.
      replace (slice (fin pv) 0 (-1)) with (fin (firstn n pv)).
      2:{ unfold slice, norm_idx, lslice. cbn [Z.ltb Z.compare]. rewrite map_length, Lpv', <- firstn_map.
          replace (Z.to_nat (Z.max 0 (Z.min (Z.of_nat (n + 1)) 0))) with 0 by lia. cbn [skipn]. f_equal. lia. }
      replace (slice (fin Q) 0 (Z.of_nat (length Q) - Z.of_nat m)) with (fin (firstn n Q)).
      2:{ replace (Z.of_nat (length Q) - Z.of_nat m)%Z with (Z.of_nat n) by lia. change 0%Z with (Z.of_nat 0). rewrite slice_nat. unfold lslice. cbn [skipn]. rewrite firstn_map. f_equal. f_equal. lia. }
      rewrite skipn_map', !map_map. rewrite bop_eq by (rewrite !map_length, !firstn_length; lia).
      cbn [bind]. rewrite bop_eq by (rewrite length_zip_with, !map_length, !firstn_length, skipn_length; lia). cbn [bind].
      set (f := fun a b : R => rnd (rnd (a - b) * rnd (a - b))).
      rewrite (map_ext (fun x => sq_diff (Fin (nth (c - 1) S 0%R)) (Fin x)) (fun x => Fin (f (nth (c - 1) S 0%R) x))) by (intro; apply (sq_diff_rnd rnd)).
      rewrite (map_ext (fun x => sq_diff (Fin (nth (c + m - 1) S 0%R)) (Fin x)) (fun x => Fin (f (nth (c + m - 1) S 0%R) x))) by (intro; apply (sq_diff_rnd rnd)).
      rewrite <- (map_map (f (nth (c - 1) S 0%R)) (@Fin R)), <- (map_map (f (nth (c + m - 1) S 0%R)) (@Fin R)).
      rewrite zip_with_map, (zip_with_ext _ (fun x y => Fin (rnd (x - y)%R))) by reflexivity. rewrite <- (map_zip_with (fun x y => rnd (x - y)%R) (@Fin R)).
      rewrite zip_with_map, (zip_with_ext _ (fun x y => Fin (rnd (x + y)%R))) by reflexivity. rewrite <- (map_zip_with (fun x y => rnd (x + y)%R) (@Fin R)).
      match goal with |- context [fin (zip_with ?a ?b ?c)] => set (w := zip_with a b c) end.
      assert (Lw : length w = n) by (unfold w; rewrite !length_zip_with, !map_length, !firstn_length, skipn_length; lia).
      rewrite set_slice_ok; [|rewrite map_length; lia|rewrite map_length; lia|rewrite !map_length; lia]. cbn [bind].
      rewrite (proj2 (getitem_ok (rb_view b) c (Fin (nth c v 0%R)))) by (rewrite Vb, nth_error_map, (nth_error_nth' v 0%R) by lia; reflexivity).
      cbn [bind]. rewrite setitem_ok by (rewrite length_splice; rewrite ?map_length; lia). cbn [bind].
      replace (splice (splice (fin pv) 1 (fin w)) 0 [Fin (nth c v 0%R)]) with (fin (nth c v 0%R :: w)).
      2:{ destruct pv as [|p0 pv]; [simpl in Lpv'; lia|]. unfold splice. rewrite map_length, Lw. simpl in Lpv'. cbn [firstn skipn app map length Nat.add]. f_equal. rewrite skipn_all2 by (rewrite map_length; lia). rewrite app_nil_r. reflexivity. }
      assert (NV : good_col c (nth c v 0%R :: w)).
      { split; [cbn [length]; lia|]. intros [|i] Hi; cbn [nth]; [apply Nv; lia|].
        assert (Ew : nth i w 0%R = rnd (rnd (nth i pv 0 - f (nth (c - 1) S 0%R) (nth i Q 0%R)) + f (nth (c + m - 1) S 0%R) (nth (i + m) Q 0%R))%R).
        { apply nth_error_nth. unfold w. rewrite !nth_error_zip_with, !nth_error_map, !nth_error_firstn, nth_error_skipn. destruct (Nat.ltb_spec i n); [|lia].
          rewrite (nth_error_nth' pv 0%R), (nth_error_nth' Q 0%R), (nth_error_nth' Q 0%R (n := m + i)) by lia. cbn [option_map]. rewrite (Nat.add_comm m i). reflexivity. }
        rewrite Ew. pose proof (@good_slide i (c - 1) _ ltac:(lia) ltac:(lia) (C3 i ltac:(lia))) as G. replace (c - 1 + 1) with c in G by lia. replace (c - 1 + m) with (c + m - 1) in G by lia. rewrite Nat.add_1_r in G. exact G. }
      do 2 eexists. split; [reflexivity|]. split; [exact NV|]. apply Fin1; [exact NV|reflexivity|]. intros b0 Eb0. injection Eb0 as <-. exists v. split; [exact Vb|]. split; assumption.
  Qed.
  Lemma batch_run mem H : forall g, binv g -> calc_only m S Q H -> exists g', eu_rcalls rnd mem g (map finc H) = Ok g' /\ binv g'.
  Proof.
    induction H as [|o H IH]; intros g I HC; [exists g; split; [reflexivity|exact I]|].
    assert (HC' : calc_only m S Q H) by (intros o' Ho; apply HC; right; exact Ho). pose proof (HC o (or_introl eq_refl)) as Ho. unfold eu_rcalls, grun. cbn [map foldM].
    destruct o as [xs|xs|c|d]; try contradiction; cbn [finc gstep].
    - destruct Ho as [H1 H2]. destruct (@batch_col mem g c I H1 H2) as (g' & vs & E & _ & I'). change (PRoundEu.NR rnd) with NRb. unfold eu_calc_column. rewrite E. cbn [bind fst]. apply IH; assumption.
    - destruct I as [B1 B2 B3 B4 B5 B6 B7] eqn:EI. clear EI. destruct (@diag_align (@sq_diff R (PRoundEu.NR rnd)) (fun a b : R => rnd (rnd (a - b) * rnd (a - b)))%R m S Q d (sq_diff_rnd rnd) Hm Ho) as (_ & E2 & E3 & _ & _ & E6 & _).
      unfold eu_calc_diagonal. rewrite B3, B2, B1, E2. cbn [bind]. rewrite (cumsum_scan rnd). rewrite window_diff by (rewrite length_scan0, E6; lia). cbn [bind fst]. apply IH; [constructor; assumption|exact HC'].
  Qed.
  (** A column after its root *)
  Lemma good_root i c v : good i c v -> let D := euclid (sub m Q i) (sub m S c) in
    (exists x, @froot R NRb (Fin v) = Fin x /\ (Rabs (x - D) <= (1 + u) * sqrt (sq_error u t m Q S i c) + u * (D + t))%R) \/
    (@froot R NRb (Fin v) = NaN /\ (D <= sqrt (sq_error u t m Q S i c))%R).
  Proof.
    intros (H1 & H2 & H3) D. assert (E : (grow u (m + 4 + 2 * Nat.min i c) * (cell_bound i c + thr u t) + thr u t)%R = sq_error u t m Q S i c) by reflexivity. rewrite E in H3.
    unfold froot, fsqrt. cbn [nltb NRb NumRnd nzero nsqrt]. unfold Rltb. destruct (Rlt_dec v 0) as [N|N].
    - right. split; [reflexivity|]. apply sqrt_le_1_alt. assert (- (v - sqd (sub m Q i) (sub m S c)) <= Rabs (v - sqd (sub m Q i) (sub m S c)))%R by (rewrite <- Rabs_Ropp; apply Rle_abs). lra.
    - left. eexists. split; [reflexivity|]. apply (root_off Hu Ha); [lra|exact H1|exact H3].
  Qed.
End Batch.

Lemma batch_start rnd mem sf m S q g u t : sane rnd -> 0 < m -> m <= length S -> 0 < length (query_or S q) -> eu_prepare mem sf m (fin S) (option_map (map (@Fin R)) q) = Ok g -> binv u t m S (query_or S q) g.
Proof.
  intros HS Hm HL HQ E. pose proof (@einv_batch mem sf m S q g Hm HL HQ E) as I. pose proof (einv_query I) as VQ. destruct I as (_ & I1 & _ & I3 & I4 & _).
  assert (N : calc_only m S (query_or S q) []) by (intros o []). pose proof (wS_batch _ N) as W1. pose proof (wQ_batch _ N) as W2. rewrite app_nil_r in W1, W2. rewrite W1 in I4. rewrite W2 in VQ.
  assert (F : ch_backlog g = 0 /\ ch_first g = None /\ ch_prev g = None).
  { clear - E. unfold eu_prepare in E. destruct (negb _); [discriminate|]. apply bind_ok in E. destruct E as (s & _ & E). destruct q as [q|]; cbn [option_map] in E; [apply bind_ok in E; destruct E as (b & _ & E)|]; injection E as <-; auto. }
  destruct F as (F1 & F2 & F3). constructor; try assumption; intros; congruence.
Qed.

(** A column calculated in full, whatever came before *)
Lemma full_col rnd u t mem m W Wq self H g c : sane rnd -> (0 <= u)%R -> (0 <= t <= 1)%R -> accurate u t rnd -> 0 < m -> einv m W Wq self H g -> (c = 0 \/ ch_prev g <> Some (Z.of_nat c - 1)%Z) ->
  let S := wS W H in let Q := wQ self W Wq H in has_col m S Q c ->
  exists g' vs, @eu_calc_column R (NumRnd rnd) mem g c = Ok (g', map (@froot R (NumRnd rnd)) (fin vs)) /\ length vs = length Q + 1 - m /\
    forall i, i + m <= length Q -> within u t (m + 4) (both (sub m Q i) (sub m S c) + INR (4 * m) * t) (nth i vs 0%R) (sqd (sub m Q i) (sub m S c)).
Proof.
  intros HS Hu Ht Ha Hm I Hc S Q [H1 H2]. pose proof (einv_query I) as VQ. destruct I as (_ & Em & _ & _ & VS & _). fold S in VS. fold Q in VQ.
  destruct (@full_values rnd u t HS Hu Ht Ha m Hm Q (sub m S c)) as (vs & Ev & Lv & Nv); [rewrite length_sub; lia|exact H2|].
  exists (mkCache m (ch_self g) (ch_series g) (ch_qbuf g) (ch_first g) (ch_backlog g) (Some (Z.of_nat c)) (fin vs)), vs. split; [|split; [exact Lv|exact Nv]].
  unfold eu_calc_column, cache_col. rewrite VQ, VS, Em.
  assert (B : negb (match ch_prev g with Some p => (p =? Z.of_nat c - 1)%Z | None => false end) || (c =? 0) = true).
  { destruct Hc as [->|Hc]; [apply orb_true_r|]. destruct (ch_prev g) as [p|]; [|reflexivity]. destruct (Z.eqb_spec p (Z.of_nat c - 1)); [congruence|reflexivity]. }
  rewrite B, lslice_sub, sub_map. unfold NRb in Ev. rewrite Ev. reflexivity.
Qed.
