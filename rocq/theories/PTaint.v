(** * PTaint: Euclidean distances of data with NaN and infinities *)
From Coq Require Import QArith Reals Lra.
From Verif Require Import Np NpFacts MRing MUtil MArith MCache MEuclid SReal SCalc SGen STaint PArith PDiagonal PEuclid.
Set Implicit Arguments.
Open Scope nat_scope.

Lemma fadd_finite (x y : num R) : isfinite (fadd x y) = isfinite x && isfinite y.
Proof. destruct x, y; reflexivity. Qed.
Lemma fsub_finite (x y : num R) : isfinite (fsub x y) = isfinite x && isfinite y.
Proof. destruct x, y; reflexivity. Qed.
Lemma fmul_finite (x y : num R) : isfinite (fmul x y) = isfinite x && isfinite y.
Proof. destruct x, y; cbn [fmul]; try reflexivity; unfold inf_times; repeat destruct (nltb _ _); reflexivity. Qed.
Lemma sq_finite (x y : num R) : isfinite (sq_diff x y) = isfinite x && isfinite y.
Proof. unfold sq_diff, fsquare. rewrite fmul_finite, fsub_finite. apply andb_diag. Qed.
Lemma root_taint (v : num R) : isfinite v = false -> froot v = NaN \/ froot v = PInf.
Proof. destruct v; try discriminate; cbn; auto. Qed.

Lemma real_fin l : forallb isfinite l = true -> fin (map real l) = l.
Proof. intro H. rewrite map_map. rewrite forallb_forall in H. rewrite <- (map_id l) at 2. apply map_ext_in. intros x Hx. specialize (H x Hx). destruct x; try discriminate. reflexivity. Qed.

Lemma foldadd_finite (l : list (num R)) a : isfinite (fold_left fadd l a) = isfinite a && forallb isfinite l.
Proof. revert a. induction l as [|x l IH]; intro a; cbn [fold_left forallb]; [rewrite andb_true_r; reflexivity|]. rewrite IH, fadd_finite, andb_assoc. reflexivity. Qed.
Lemma zip_finite (f : num R -> num R -> num R) (a b : list (num R)) : (forall x y, isfinite (f x y) = isfinite x && isfinite y) -> length a = length b ->
  forallb isfinite (zip_with f a b) = forallb isfinite a && forallb isfinite b.
Proof.
  intro Hf. revert b. induction a as [|x a IH]; intros [|y b] L; try discriminate; [reflexivity|]. injection L as L. cbn [zip_with forallb]. rewrite Hf, (IH b L).
  destruct (isfinite x), (isfinite y), (forallb isfinite a), (forallb isfinite b); reflexivity.
Qed.
Lemma fdot_finite (a b : list (num R)) : length a = length b -> isfinite (fdot a b) = forallb isfinite a && forallb isfinite b.
Proof. intro L. unfold fdot, fsum. rewrite foldadd_finite. cbn [isfinite fzero andb]. apply zip_finite, L. apply fmul_finite. Qed.

(** The dot product of a sequence with itself is not -inf. *)
Lemma fdot_self (l : list (num R)) : fdot l l <> NInf.
Proof.
  unfold fdot, fsum. assert (H : forall a, a <> NInf -> fold_left fadd (zip_with fmul l l) a <> NInf); [|apply H; discriminate].
  induction l as [|x l IH]; intros a Ha; cbn [zip_with fold_left]; [exact Ha|]. apply IH. destruct x, a; cbn; congruence.
Qed.

(** ** A complete column *)
Definition fullv (w y : list (num R)) : num R :=
  let d := fadd (fsub (fdot w w) (fmul (fofZ 2) (fdot w y))) (fdot y y) in if fltb d EPSILON then fzero else d.
Lemma full_any m l y : 0 < m -> length y = m -> m <= length l ->
  euclidean_distance_squared l y = Ok (map (fun i => fullv (sub m l i) y) (seq 0 (length l + 1 - m))).
Proof. intros Hm Ly Ll. unfold euclidean_distance_squared. rewrite Ly, windows_ok by lia. cbn [bind]. rewrite !map_map. reflexivity. Qed.
Definition near1 (x : R) (v : num R) : Prop := exists a, v = Fin a /\ (0 <= x - a < / 10 ^ 15)%R.
(** Sums of numbers and -inf, of numbers and +inf *)
Definition low (x : num R) : bool := match x with Fin _ | NInf => true | _ => false end.
Definition high (x : num R) : bool := match x with Fin _ | PInf => true | _ => false end.
Lemma fold_low (l : list (num R)) a : low (fold_left fadd l a) = low a && forallb low l.
Proof. revert a. induction l as [|x l IH]; intro a; cbn [fold_left forallb]; [rewrite andb_true_r; reflexivity|]. rewrite IH. destruct a, x; reflexivity. Qed.
Lemma fold_high (l : list (num R)) a : high (fold_left fadd l a) = high a && forallb high l.
Proof. revert a. induction l as [|x l IH]; intro a; cbn [fold_left forallb]; [rewrite andb_true_r; reflexivity|]. rewrite IH. destruct a, x; reflexivity. Qed.
Definition all2 (ok : num R -> num R -> bool) (x y : list (num R)) : bool := forallb (fun b => b) (zip_with ok x y).
Lemma all2_zip ok (f : num R -> bool) (g : num R -> num R -> num R) x y : (forall a b, f (g a b) = ok a b) -> forallb f (zip_with g x y) = all2 ok x y.
Proof. intro H. unfold all2. revert y. induction x as [|a x IH]; intros [|b y]; cbn [zip_with forallb]; try reflexivity. rewrite H, IH. reflexivity. Qed.
Lemma all2_sym ok x y : (forall a b, ok a b = ok b a) -> all2 ok x y = all2 ok y x.
Proof. intro H. unfold all2. revert y. induction x as [|a x IH]; intros [|b y]; cbn [zip_with forallb]; try reflexivity. rewrite H, IH. reflexivity. Qed.
Lemma opposite_sym a b : opposite a b = opposite b a.
Proof. destruct a, b; reflexivity. Qed.
Lemma dot_low x y : low (fdot x y) = all2 opposite x y.
Proof.
  unfold fdot, fsum. rewrite fold_low. cbn [low fzero andb]. apply all2_zip. intros a b. destruct a, b; cbn [fmul low opposite]; try reflexivity; unfold inf_times; cbn [nltb nzero NumR];
    match goal with |- context [Rltb 0 ?z] => destruct (Rltb_spec 0 z), (Rltb_spec z 0); cbn; try reflexivity; lra end.
Qed.
Lemma dot_high x : high (fdot x x) = forallb (fun a => negb (isnan a)) x.
Proof.
  unfold fdot, fsum. rewrite fold_high. cbn [high fzero andb]. induction x as [|a x IH]; [reflexivity|]. cbn [zip_with forallb]. rewrite IH. destruct a; reflexivity.
Qed.
Lemma opposite_nan x y : length x = length y -> all2 opposite x y = true -> forallb (fun a => negb (isnan a)) x = true /\ forallb (fun a => negb (isnan a)) y = true.
Proof.
  unfold all2. revert y. induction x as [|a x IH]; intros [|b y] L H; try discriminate; [split; reflexivity|]. cbn [zip_with forallb] in *. apply andb_true_iff in H. destruct H as [H1 H2]. injection L as L.
  destruct (IH y L H2) as [-> ->]. destruct a, b; try discriminate; split; reflexivity.
Qed.
Lemma finite_all2 (ok : num R -> num R -> bool) x y : (forall a b, ok (Fin a) (Fin b) = true) -> forallb isfinite x && forallb isfinite y = true -> all2 ok x y = true.
Proof.
  intro Hk. unfold all2. revert y. induction x as [|a x IH]; intros [|b y] H; try reflexivity. cbn [zip_with forallb] in *. destruct a as [| |a|], b as [| |b|]; try discriminate; cbn [isfinite andb] in H; rewrite ?andb_false_r in H; try discriminate.
  rewrite Hk. cbn [andb]. apply IH. exact H.
Qed.
Lemma fullv_spec w y : length w = length y ->
  if forallb isfinite w && forallb isfinite y then near1 (sqd (map real w) (map real y)) (fullv w y) else fullv w y = inf_if (all2 opposite w y).
Proof.
  intro L. destruct (forallb isfinite w && forallb isfinite y) eqn:E.
  - apply andb_true_iff in E. destruct E as [F1 F2]. rewrite <- (real_fin _ F1) at 2. rewrite <- (real_fin _ F2) at 2. unfold fullv.
    rewrite !fdot_fin. cbn [fmul fofZ fsub fadd nadd nsub nmul nofZ NumR]. rewrite sqd_dots by (rewrite !map_length; exact L). set (v := sqd _ _). rewrite EPSILON_fin. cbn [fltb nltb NumR].
    pose proof (sqd_nonneg (map real w) (map real y)) as P. fold v in P. pose proof (clip_E1 P) as C. unfold E1, clip in C. exists (if Rltb v eps15 then 0%R else v). split; [destruct (Rltb v eps15); reflexivity|]. exact C.
  - unfold fullv. set (d := fadd _ _). assert (Hd : d = inf_if (all2 opposite w y)); [|rewrite Hd; destruct (all2 opposite w y); reflexivity]. unfold d. clear d.
    pose proof (fdot_self w) as N1. pose proof (fdot_self y) as N2. pose proof (fdot_finite w y L) as F0. pose proof (fdot_finite w w eq_refl) as F1. pose proof (fdot_finite y y eq_refl) as F2.
    pose proof (dot_low w y) as D0. pose proof (dot_high w) as D1. pose proof (dot_high y) as D2. pose proof (@opposite_nan w y L) as D3.
    rewrite E in F0. rewrite andb_diag in F1, F2.
    assert (T : fmul (fofZ 2) (fdot w y) = fdot w y).
    { destruct (fdot w y); try discriminate; cbn [fmul fofZ]; try reflexivity; unfold inf_times; cbn [nltb nzero nofZ NumR]; destruct (Rltb_spec 0 2); try lra; reflexivity. }
    rewrite T. destruct (all2 opposite w y).
    + destruct D3 as [D3 D4]; [reflexivity|]. rewrite D3 in D1. rewrite D4 in D2. destruct (fdot w y); try discriminate. destruct (fdot w w), (fdot y y); try discriminate; reflexivity.
    + destruct (fdot w y); try discriminate; [destruct (fdot w w); reflexivity|]. destruct (fdot w w); [reflexivity|contradiction| |reflexivity].
      destruct (fdot y y); [reflexivity|contradiction| |reflexivity]. cbn [isfinite] in F1, F2. rewrite <- F1, <- F2 in E. discriminate.
Qed.

(** ** Columns in any order *)
Section Batch.
  Variables (mem : nat -> num R) (m : nat) (S Q : list (num R)).
  Hypothesis Hm : 0 < m.
  Hypothesis HS : m <= length S.
  Hypothesis HQ : m <= length Q.
  Notation h := (length Q + 1 - m).
  Notation w := (length S + 1 - m).

  Definition cell_is (j r c : nat) (v : num R) : Prop :=
    if clean m S Q j r c then near1 (sqd (map real (sub m Q r)) (map real (sub m S c))) v else v = inf_if (over m S Q j r c).
  Definition col_is (cols : list nat) (c : nat) (vs : list (num R)) : Prop :=
    length vs = h /\ forall r v, nth_error vs r = Some v -> cell_is (Nat.min r (back cols c)) r c v.

  (** The state after the columns [cols], the latest first *)
  Record tinv (cols : list nat) (g : @cache R) : Prop := {
    ti_m : ch_m g = m;
    ti_s : rb_view (ch_series g) = S;
    ti_q : rb_view (ch_query g) = Q;
    ti_max : rb_max (ch_series g) = length S;
    ti_backlog : ch_backlog g = 0;
    ti_first : forall b, ch_first g = Some b -> rb_view b = map (fun i => fullv (sub m S i) (sub m Q 0)) (seq 0 w);
    ti_prev : match cols with [] => ch_prev g = None | p :: cols' => ch_prev g = Some (Z.of_nat p) /\ col_is cols' p (ch_vals g) end
  }.

  Lemma cell_zero c r : c + m <= length S -> r + m <= length Q -> cell_is 0 r c (fullv (sub m Q r) (sub m S c)).
  Proof.
    intros Hc Hr. unfold cell_is, clean, over, clear, pairs. cbn [Nat.add]. rewrite !Nat.sub_0_r. cbn [sub firstn forallb zip_with andb]. rewrite andb_true_r. apply fullv_spec. rewrite !length_sub. lia.
  Qed.

  Lemma fullv_sym x y : length x = length y -> fullv x y = fullv y x.
  Proof.
    intro L. pose proof (fullv_spec x y L) as H1. pose proof (fullv_spec y x (eq_sym L)) as H2. rewrite andb_comm in H2. destruct (forallb isfinite x && forallb isfinite y) eqn:E.
    - apply andb_true_iff in E. destruct E as [E1 E2]. rewrite <- (real_fin _ E1), <- (real_fin _ E2). unfold fullv.
      rewrite !fdot_fin. cbn [fmul fofZ fsub fadd nadd nsub nmul nofZ NumR]. rewrite !sqd_dots, sqd_sym by (rewrite !map_length; congruence). reflexivity.
    - rewrite H1, H2. f_equal. apply all2_sym, opposite_sym.
  Qed.
  Lemma cell_first c : c + m <= length S -> cell_is 0 0 c (fullv (sub m S c) (sub m Q 0)).
  Proof. intro Hc. rewrite fullv_sym by (rewrite !length_sub; lia). exact (@cell_zero c 0 Hc HQ). Qed.

  Lemma forallb_snoc {T} f (l : list T) k i x : nth_error l (i + k) = Some x -> forallb f (sub (k + 1) l i) = forallb f (sub k l i) && f x.
  Proof.
    intro H. replace (sub (k + 1) l i) with (sub k l i ++ [x]); [rewrite forallb_app; cbn [forallb]; rewrite andb_true_r; reflexivity|].
    apply nth_error_ext. intro a. rewrite nth_error_sub, nth_error_app. assert (nth_error l (i + k) <> None) as Hk by congruence. apply nth_error_Some in Hk.
    rewrite length_sub, nth_error_sub. destruct (Nat.ltb_spec a (Nat.min k (length l - i))), (Nat.ltb_spec a k), (Nat.ltb_spec a (k + 1)); try lia; [reflexivity| |].
    - replace a with k by lia. replace (k - Nat.min k (length l - i)) with 0 by lia. cbn. symmetry. exact H.
    - apply nth_error_None. cbn. lia.
  Qed.

  Lemma pairs_snoc ok k r c x y : nth_error Q (r + k) = Some x -> nth_error S (c + k) = Some y -> pairs ok (k + 1) S Q r c = pairs ok k S Q r c && ok x y.
  Proof.
    intros Hx Hy. unfold pairs.
    assert (E : forall T (l : list T) i z, nth_error l (i + k) = Some z -> sub (k + 1) l i = sub k l i ++ [z] /\ length (sub k l i) = k).
    { intros T l i z H. assert (nth_error l (i + k) <> None) as Hk by congruence. apply nth_error_Some in Hk. split; [|rewrite length_sub; lia].
      apply nth_error_ext. intro a. rewrite nth_error_sub, nth_error_app, length_sub, nth_error_sub. destruct (Nat.ltb_spec a (Nat.min k (length l - i))), (Nat.ltb_spec a k), (Nat.ltb_spec a (k + 1)); try lia; [reflexivity| |].
      - replace a with k by lia. replace (k - Nat.min k (length l - i)) with 0 by lia. cbn. exact H.
      - symmetry. apply nth_error_None. cbn. lia. }
    destruct (E _ _ _ _ Hx) as [-> L1]. destruct (E _ _ _ _ Hy) as [-> L2]. revert L1 L2. generalize (sub k Q r) (sub k S c). clear. intros a b L1 L2. assert (L : length a = length b) by congruence. clear - L.
    revert b L. induction a as [|p a IH]; intros [|q b] L; try discriminate; cbn [app zip_with forallb]; [rewrite andb_true_r; reflexivity|]. rewrite IH by (cbn in L; lia). apply andb_assoc.
  Qed.
  Lemma sq_class x y : isfinite x && isfinite y = false -> sq_diff x y = inf_if (apart x y).
  Proof. destruct x, y; try discriminate; reflexivity. Qed.
  Lemma apart_sym x y : apart x y = apart y x.
  Proof. destruct x, y; reflexivity. Qed.
  Lemma over_step j r c s0 s1 q0 q1 : 0 < c -> c + m <= length S -> j <= r -> j <= c - 1 ->
    nth_error S (c - 1) = Some s0 -> nth_error S (c + m - 1) = Some s1 -> nth_error Q r = Some q0 -> nth_error Q (r + m) = Some q1 ->
    over m S Q (Datatypes.S j) (Datatypes.S r) c = over m S Q j r (c - 1) && (isfinite q0 && isfinite s0) && apart q1 s1.
  Proof.
    intros Hc Hcm Hj1 Hj2 E0 E1 E2 E3. unfold over, clear. cbn [Nat.sub]. replace (c - Datatypes.S j) with (c - 1 - j) by lia. rewrite <- Nat.add_1_r.
    rewrite (@forallb_snoc _ isfinite Q j (r - j) q0) by (replace (r - j + j) with r by lia; exact E2).
    rewrite (@forallb_snoc _ isfinite S j (c - 1 - j) s0) by (replace (c - 1 - j + j) with (c - 1) by lia; exact E0).
    rewrite (@pairs_snoc apart j (r - j + m) (c - 1 - j + m) q1 s1) by (first [replace (r - j + m + j) with (r + m) by lia; exact E3|replace (c - 1 - j + m + j) with (c + m - 1) by lia; exact E1]).
    destruct (forallb isfinite (sub j Q (r - j))), (forallb isfinite (sub j S (c - 1 - j))), (pairs opposite m S Q (r - j) (c - 1 - j)), (pairs apart j S Q (r - j + m) (c - 1 - j + m)), (isfinite q0), (isfinite s0), (apart q1 s1); reflexivity.
  Qed.
  Lemma forallb_part {T} (f : T -> bool) (l : list T) n i n' i' : i <= i' -> i' + n' <= i + n -> forallb f (sub n l i) = true -> forallb f (sub n' l i') = true.
  Proof.
    intros H1 H2 H. rewrite forallb_forall in *. intros x Hx. apply In_nth_error in Hx. destruct Hx as (a & Ha). apply H. rewrite nth_error_sub in Ha. destruct (Nat.ltb_spec a n'); [|discriminate].
    apply nth_error_In with (i' - i + a). rewrite nth_error_sub. destruct (Nat.ltb_spec (i' - i + a) n); [|lia]. replace (i + (i' - i + a)) with (i' + a) by lia. exact Ha.
  Qed.
  Lemma clean_over j r c : j <= r -> j <= c -> clean m S Q j r c = true -> over m S Q j r c = true.
  Proof.
    intros Hr Hc H. unfold clean in H. apply andb_true_iff in H. destruct H as [H1 H2]. unfold over, clear, pairs.
    rewrite (@forallb_part _ isfinite Q (j + m) (r - j) j (r - j)), (@forallb_part _ isfinite S (j + m) (c - j) j (c - j)) by (assumption || lia). cbn [andb].
    change (all2 opposite (sub m Q (r - j)) (sub m S (c - j)) && all2 apart (sub j Q (r - j + m)) (sub j S (c - j + m)) = true).
    rewrite !finite_all2; try reflexivity; apply andb_true_iff; split; eapply forallb_part; try eassumption; lia.
  Qed.

  Lemma cell_slide j r c v s0 s1 q0 q1 : r < h - 1 -> 0 < c -> c + m <= length S -> j <= r -> j <= c - 1 -> cell_is j r (c - 1) v ->
    nth_error S (c - 1) = Some s0 -> nth_error S (c + m - 1) = Some s1 -> nth_error Q r = Some q0 -> nth_error Q (r + m) = Some q1 ->
    cell_is (Datatypes.S j) (Datatypes.S r) c (fadd (fsub v (sq_diff s0 q0)) (sq_diff s1 q1)).
  Proof.
    intros Hr Hc Hcm Hj1 Hj2 Hv E0 E1 E2 E3. unfold cell_is in *. rewrite (@over_step j r c s0 s1 q0 q1) by assumption. pose proof (@clean_over j r (c - 1) Hj1 Hj2) as HCO. unfold clean in *. cbn [Nat.add Nat.sub].
    replace (c - Datatypes.S j) with (c - 1 - j) by lia. replace (Datatypes.S (j + m)) with (j + m + 1) by lia.
    rewrite (@forallb_snoc _ isfinite Q (j + m) (r - j) q1) by (replace (r - j + (j + m)) with (r + m) by lia; exact E3).
    rewrite (@forallb_snoc _ isfinite S (j + m) (c - 1 - j) s1) by (replace (c - 1 - j + (j + m)) with (c + m - 1) by lia; exact E1).
    set (a := forallb isfinite (sub (j + m) Q (r - j))) in *. set (b := forallb isfinite (sub (j + m) S (c - 1 - j))) in *.
    destruct (a && b) eqn:Eab.
    - apply andb_true_iff in Eab. destruct Eab as [Ea Eb]. rewrite Ea, Eb. cbn [andb].
      assert (F0 : isfinite s0 = true). { unfold b in Eb. rewrite forallb_forall in Eb. apply Eb. apply nth_error_In with j. rewrite nth_error_sub. destruct (Nat.ltb_spec j (j + m)); [|lia]. replace (c - 1 - j + j) with (c - 1) by lia. exact E0. }
      assert (F2 : isfinite q0 = true). { unfold a in Ea. rewrite forallb_forall in Ea. apply Ea. apply nth_error_In with j. rewrite nth_error_sub. destruct (Nat.ltb_spec j (j + m)); [|lia]. replace (r - j + j) with r by lia. exact E2. }
      destruct Hv as (x & -> & Hx). destruct s0 as [| |s0|], q0 as [| |q0|]; try discriminate.
      destruct (isfinite q1) eqn:Fq1, (isfinite s1) eqn:Fs1; cbn [andb]; try (rewrite (@sq_class s1 q1) by (rewrite Fq1, Fs1; reflexivity); rewrite (HCO eq_refl), F0, F2, (apart_sym q1 s1), sq_diff_fin; cbn [andb]; destruct (apart s1 q1); reflexivity).
      destruct s1 as [| |s1|], q1 as [| |q1|]; try discriminate. rewrite !sq_diff_fin. cbn [fsub fadd nadd nsub NumR]. eexists. split; [reflexivity|].
      assert (Hs : forall (X : list (num R)) i y, nth_error X i = Some (Fin y) -> nth i (map real X) 0%R = y) by (intros X i y Hy; apply nth_error_nth; rewrite nth_error_map, Hy; reflexivity).
      replace c with (Datatypes.S (c - 1)) by lia. rewrite <- !sub_map in *. change sqd with (psum sqdiff) in *. rewrite psum_slide by (rewrite map_length; lia).
      rewrite (Hs _ _ _ E2), (Hs _ _ _ E3), (Hs _ _ _ E0). replace (c - 1 + m) with (c + m - 1) by lia. rewrite (Hs _ _ _ E1), (sqdiff_sym q0), (sqdiff_sym q1). lra.
    - replace (a && isfinite q1 && (b && isfinite s1)) with false by (destruct a, b; try discriminate; cbn; rewrite ?andb_false_r; reflexivity).
      rewrite Hv. destruct (over m S Q j r (c - 1)); [|reflexivity]. cbn [inf_if andb]. destruct (isfinite q0 && isfinite s0) eqn:Ef; cbn [andb].
      + apply andb_true_iff in Ef. destruct Ef as [G1 G2]. destruct q0 as [| |q0|], s0 as [| |s0|]; try discriminate. rewrite sq_diff_fin. cbn [fsub]. destruct (isfinite s1 && isfinite q1) eqn:Eg.
        * apply andb_true_iff in Eg. destruct Eg as [G3 G4]. destruct q1 as [| |q1|], s1 as [| |s1|]; try discriminate. rewrite sq_diff_fin. reflexivity.
        * rewrite (@sq_class s1 q1 Eg), (apart_sym q1 s1). destruct (apart s1 q1); reflexivity.
      + rewrite (@sq_class s0 q0) by (rewrite andb_comm; exact Ef). destruct (apart s0 q0); reflexivity.
  Qed.

  Lemma back_le cols c : back cols c <= c.
  Proof. revert c. induction cols as [|p cols IH]; intro c; cbn [back]; [lia|]. destruct (Nat.eqb_spec (p + 1) c); [|lia]. specialize (IH p). lia. Qed.

  Lemma first_any cols g : tinv cols g -> exists b, cache_first euclidean_distance_squared mem g = Ok b /\ rb_view b = map (fun i => fullv (sub m S i) (sub m Q 0)) (seq 0 w).
  Proof.
    intros [I1 I2 I3 I4 I5 I6 _]. unfold cache_first. rewrite I1, I2, I3, I4, I5. destruct (ch_first g) as [b|].
    - exists b. split; [reflexivity|]. apply I6. reflexivity.
    - change (lslice Q 0 m) with (lslice Q 0 (0 + m)). rewrite lslice_sub. rewrite (@full_any m) by (rewrite ?length_sub; lia). cbn [bind].
      destruct (@win_new _ mem (map (fun i => fullv (sub m S i) (sub m Q 0)) (seq 0 w)) w 2) as (b & Eb & (_ & _ & _ & V & _)); [discriminate|discriminate|lia|rewrite map_length, seq_length; lia|]. eauto.
  Qed.

  Lemma tinv_next cols g c first vs : tinv cols g -> col_is cols c vs -> (forall b, first = Some b -> rb_view b = map (fun i => fullv (sub m S i) (sub m Q 0)) (seq 0 w)) ->
    tinv (c :: cols) (mkCache m (ch_self g) (ch_series g) (ch_qbuf g) first 0 (Some (Z.of_nat c)) vs).
  Proof. intros [I1 I2 I3 I4 I5 I6 _] H1 H2. constructor; cbn [ch_m ch_self ch_series ch_qbuf ch_first ch_backlog ch_prev ch_vals]; auto. Qed.

  Lemma col_any cols g c : tinv cols g -> c + m <= length S -> exists g' vs, cache_col euclidean_distance_squared sq_diff mem g c = Ok (g', vs) /\ col_is cols c vs /\ tinv (c :: cols) g'.
  Proof.
    intros I Hc. pose proof I as [I1 I2 I3 I4 I5 I6 I7]. unfold cache_col. rewrite I1, I2, I3.
    destruct (negb _ || _) eqn:Ec.
    - assert (B : back cols c = 0).
      { destruct cols as [|p cols']; [reflexivity|]. destruct I7 as [I7 _]. rewrite I7 in Ec. cbn [back]. destruct (Nat.eqb_spec (p + 1) c); [|reflexivity].
        exfalso. apply orb_true_iff in Ec. destruct Ec as [Ec|Ec]; [apply negb_true_iff, Z.eqb_neq in Ec; lia|apply Nat.eqb_eq in Ec; lia]. }
      rewrite lslice_sub. rewrite (@full_any m) by (rewrite ?length_sub; lia). cbn [bind]. rewrite I5. do 2 eexists. split; [reflexivity|].
      assert (C : col_is cols c (map (fun i => fullv (sub m Q i) (sub m S c)) (seq 0 h))).
      { split; [rewrite map_length, seq_length; reflexivity|]. intros r v Hv. rewrite nth_error_map, nth_error_seq in Hv. destruct (Nat.ltb_spec r h); [|discriminate]. injection Hv as <-. rewrite B, Nat.min_0_r. apply cell_zero; lia. }
      split; [exact C|]. apply tinv_next with (g := g); assumption.
    - apply orb_false_elim in Ec as [Ec1 Ec2]. apply negb_false_iff in Ec1. apply Nat.eqb_neq in Ec2.
      destruct cols as [|p cols']; [rewrite I7 in Ec1; discriminate|]. destruct I7 as [I7 [L7 C7]]. rewrite I7 in Ec1. apply Z.eqb_eq in Ec1. assert (p = c - 1) as -> by lia.
      destruct (first_any I) as (b & Eb & Vb). rewrite Eb. cbn [bind].
      destruct (@nth_error_lt_some _ S (c - 1)) as (s0 & E0); [lia|]. destruct (@nth_error_lt_some _ S (c + m - 1)) as (s1 & E1); [lia|].
      rewrite (proj2 (getitem_ok _ _ _) E0), (proj2 (getitem_ok _ _ _) E1). cbn [bind]. set (n := length Q - m) in *.
      replace (slice (ch_vals g) 0 (-1)) with (firstn n (ch_vals g)).
      2:{ unfold slice, norm_idx, lslice. cbn [Z.ltb Z.compare]. rewrite L7. replace (Z.to_nat (Z.max 0 (Z.min (Z.of_nat h) 0))) with 0 by lia. cbn [skipn]. f_equal. lia. }
      replace (slice Q 0 (Z.of_nat (length Q) - Z.of_nat m)) with (firstn n Q).
      2:{ replace (Z.of_nat (length Q) - Z.of_nat m)%Z with (Z.of_nat n) by lia. change 0%Z with (Z.of_nat 0). rewrite slice_nat. unfold lslice. cbn [skipn]. f_equal. lia. }
      rewrite bop_eq by (rewrite !map_length, !firstn_length; lia). cbn [bind]. rewrite bop_eq by (rewrite length_zip_with, !map_length, !firstn_length, skipn_length; lia). cbn [bind].
      set (u := zip_with fadd _ _). assert (Lu : length u = n) by (unfold u; rewrite !length_zip_with, !map_length, !firstn_length, skipn_length; lia).
      rewrite set_slice_ok by lia. cbn [bind]. destruct (@nth_error_lt_some _ (rb_view b) c) as (f & Ef); [rewrite Vb, map_length, seq_length; lia|]. rewrite (proj2 (getitem_ok _ _ _) Ef). cbn [bind].
      rewrite setitem_ok by (rewrite length_splice; lia). cbn [bind].
      replace (splice (splice (ch_vals g) 1 u) 0 [f]) with (f :: u).
      2:{ destruct (ch_vals g) as [|p0 pv]; [cbn in L7; lia|]. unfold splice. rewrite Lu. cbn [length] in L7. cbn [firstn skipn app length Nat.add]. f_equal. rewrite skipn_all2 by lia. rewrite app_nil_r. reflexivity. }
      do 2 eexists. split; [reflexivity|].
      assert (C : col_is (c - 1 :: cols') c (f :: u)).
      { split; [cbn [length]; lia|]. intros [|r] v Hv; cbn [nth_error] in Hv.
        - injection Hv as ->. cbn [Nat.min]. rewrite Vb, nth_error_map, nth_error_seq in Ef. destruct (Nat.ltb_spec c w); [|lia]. injection Ef as <-. apply cell_first, Hc.
        - cbn [back]. destruct (Nat.eqb_spec (c - 1 + 1) c); [|lia]. cbn [Nat.min]. assert (Hr : r < n) by (rewrite <- Lu; apply nth_error_Some; congruence).
          unfold u in Hv. rewrite !nth_error_zip_with, !nth_error_map, !nth_error_firstn, nth_error_skipn in Hv. destruct (Nat.ltb_spec r n); [|lia].
          destruct (@nth_error_lt_some _ (ch_vals g) r) as (v0 & Ev0); [lia|]. destruct (@nth_error_lt_some _ Q r) as (q0 & E2); [lia|]. destruct (@nth_error_lt_some _ Q (r + m)) as (q1 & E3); [lia|].
          rewrite Ev0, E2, (Nat.add_comm m r), E3 in Hv. cbn [option_map] in Hv. injection Hv as <-.
          apply cell_slide; try assumption; try lia; [pose proof (back_le cols' (c - 1)); lia|]. apply C7, Ev0. }
      split; [exact C|]. apply tinv_next with (g := g); try assumption. intros b0 Eb0. injection Eb0 as <-. exact Vb.
  Qed.
End Batch.

(** ** Diagonals *)
Lemma foldadd_fin (l : list (num R)) a : forallb isfinite l = true -> fold_left fadd l (Fin a) = Fin (a + rsum (map real l))%R.
Proof.
  revert a. induction l as [|x l IH]; intros a H; cbn [fold_left map]; [unfold rsum; cbn [fold_right]; f_equal; lra|]. cbn [forallb] in H. apply andb_true_iff in H. destruct H as [Hx H]. destruct x as [| |x|]; try discriminate.
  cbn [fadd nadd NumR]. rewrite IH by exact H. unfold rsum. cbn [real fold_right]. f_equal. lra.
Qed.
Lemma cumsum_nth (l : list (num R)) x k : k <= length l -> nth_error (x :: cumsum_from x l) k = Some (fold_left fadd (firstn k l) x).
Proof. revert x k. induction l as [|y l IH]; intros x [|k] H; cbn [length] in H; try reflexivity; [lia|]. cbn [cumsum_from firstn fold_left]. change (nth_error (fadd x y :: cumsum_from (fadd x y) l) k = Some (fold_left fadd (firstn k l) (fadd x y))). apply IH. lia. Qed.
Lemma cumsum_any (l : list (num R)) k : k <= length l -> exists v, nth_error (fzero :: cumsum l) k = Some v /\
  if forallb isfinite (firstn k l) then v = Fin (rsum (map real (firstn k l))) else isfinite v = false.
Proof.
  intro H. destruct k as [|k]; [exists fzero; split; reflexivity|]. destruct l as [|x l]; [cbn in H; lia|]. cbn [length] in H. exists (fold_left fadd (firstn k l) x). split; [apply (cumsum_nth l x); lia|].
  cbn [firstn forallb map]. destruct (isfinite x && forallb isfinite (firstn k l)) eqn:E; [|rewrite foldadd_finite; exact E]. apply andb_true_iff in E. destruct E as [E1 E2]. destruct x as [| |x|]; try discriminate. rewrite foldadd_fin by exact E2. reflexivity.
Qed.

Lemma cumsum_high (l : list (num R)) k : (forall x, In x l -> x <> NInf) -> k <= length l -> exists v, nth_error (fzero :: cumsum l) k = Some v /\ high v = forallb high (firstn k l) /\ v <> NInf.
Proof.
  intros Hl H. destruct k as [|k]; [exists fzero; repeat split; discriminate|]. destruct l as [|x l]; [cbn in H; lia|]. cbn [length] in H. exists (fold_left fadd (firstn k l) x). split; [apply (cumsum_nth l x); lia|].
  split; [rewrite fold_high; reflexivity|]. assert (Hx : x <> NInf) by (apply Hl; left; reflexivity). assert (Hl' : forall y, In y (firstn k l) -> y <> NInf) by (intros y Hy; apply Hl; right; rewrite <- (firstn_skipn k l); apply in_app_iff; left; exact Hy).
  clear - Hx Hl'. revert x Hx Hl'. induction (firstn k l) as [|y r IH]; intros x Hx Hl; [exact Hx|]. cbn [fold_left]. apply IH; [|intros z Hz; apply Hl; right; exact Hz]. specialize (Hl y (or_introl eq_refl)). destruct x, y; cbn; congruence.
Qed.

Lemma align_any {T} (term : T -> T -> T) m (S Q : list T) d : 0 < m ->
  (exists i j, i + m <= length Q /\ j + m <= length S /\ (Z.of_nat j - Z.of_nat i)%Z = d) ->
  let dl := diag_length (Z.of_nat (length Q)) (Z.of_nat (length S)) d in
  let n := Z.to_nat dl in
  let a := Z.to_nat (Z.max 0 (- d)) in
  let b := Z.to_nat (Z.max 0 d) in
  (if (0 <=? d)%Z then bop term (slice Q 0 dl) (slice S d (d + dl))
   else bop term (slice Q (- d) (- d + dl)) (slice S 0 dl)) = Ok (zip_with term (sub n Q a) (sub n S b)) /\
  m <= n /\ a + n <= length Q /\ b + n <= length S /\ Z.of_nat (n + 1 - m) = dlen (length Q + 1 - m) (length S + 1 - m) d.
Proof.
  intros Hm (i & j & Hi & Hj & Hd) dl n a b.
  assert (L : (dl = Z.min (Z.of_nat (length Q) - Z.max 0 (- d)) (Z.of_nat (length S) - Z.max 0 d))%Z).
  { unfold dl, diag_length. destruct (Z.leb_spec 0 d); lia. }
  clearbody dl. assert (En : dl = Z.of_nat n) by (unfold n; lia).
  assert (Ha : a + n <= length Q) by (unfold a; lia). assert (Hb : b + n <= length S) by (unfold b; lia).
  assert (Ls : length (sub n Q a) = length (sub n S b)) by (rewrite !length_sub; lia).
  split; [|unfold dlen; split; [lia|]; repeat split; auto; lia].
  rewrite <- bop_eq by exact Ls. rewrite En. destruct (Z.leb_spec 0 d).
  - replace d with (Z.of_nat b) by lia. rewrite <- Nat2Z.inj_add. change 0%Z with (Z.of_nat 0). rewrite !slice_nat, lslice_sub.
    replace (lslice Q 0 n) with (sub n Q a) by (unfold lslice, sub; replace a with 0 by lia; rewrite Nat.sub_0_r; reflexivity). reflexivity.
  - replace (- d)%Z with (Z.of_nat a) by lia. rewrite <- Nat2Z.inj_add. change 0%Z with (Z.of_nat 0). rewrite !slice_nat, lslice_sub.
    replace (lslice S 0 n) with (sub n S b) by (unfold lslice, sub; replace b with 0 by lia; rewrite Nat.sub_0_r; reflexivity). reflexivity.
Qed.

Lemma firstn_sub {T} k n (l : list T) i : k <= n -> firstn k (sub n l i) = sub k l i.
Proof. intro H. unfold sub. rewrite firstn_firstn. f_equal. lia. Qed.
Lemma firstn_zip {S T U} (f : S -> T -> U) k a b : firstn k (zip_with f a b) = zip_with f (firstn k a) (firstn k b).
Proof. revert a b. induction k as [|k IH]; intros [|x a] [|y b]; cbn; try reflexivity. f_equal. apply IH. Qed.

Lemma diag_any m S Q g d : 0 < m -> ch_m g = m -> rb_view (ch_series g) = S -> rb_view (ch_query g) = Q -> has_diag m S Q d ->
  exists vs, eu_calc_diagonal g d = Ok (g, vs) /\ Z.of_nat (length vs) = dlen (length Q + 1 - m) (length S + 1 - m) d /\
    forall k v, nth_error vs k = Some v -> let r := Z.to_nat (Z.max 0 (- d)) + k in let c := Z.to_nat (Z.max 0 d) + k in
      if clean m S Q k r c then v = Fin (euclid (map real (sub m Q r)) (map real (sub m S c))) else v = inf_if (clear S Q k r c && pairs apart m S Q r c).
Proof.
  intros Hm E1 E2 E3 Hd. unfold eu_calc_diagonal. rewrite E1, E2, E3.
  destruct (@align_any _ sq_diff m S Q d Hm Hd) as (Ea & Hn & La & Lb & Ed). rewrite Ea. cbn [bind]. clear Ea.
  set (n := Z.to_nat _) in *. set (a := Z.to_nat (Z.max 0 (- d))) in *. set (b := Z.to_nat (Z.max 0 d)) in *.
  set (D := zip_with sq_diff (sub n Q a) (sub n S b)). assert (LD : length D = n) by (unfold D; rewrite length_zip_with, !length_sub; lia).
  set (cs := fzero :: cumsum D). assert (Lc : length cs = n + 1).
  { unfold cs. cbn [length]. rewrite Nat.add_1_r. f_equal. rewrite <- LD. clear. destruct D as [|x l]; [reflexivity|]. cbn [cumsum length]. f_equal. revert x. induction l as [|y l IH]; intro x; [reflexivity|]. cbn [cumsum_from length]. f_equal. apply IH. }
  rewrite Lc. replace (Z.of_nat (n + 1) - Z.of_nat m)%Z with (Z.of_nat (n + 1 - m)) by lia. change 0%Z with (Z.of_nat 0). rewrite !slice_nat.
  rewrite bop_eq by (unfold lslice; rewrite !firstn_length, !skipn_length, Lc; lia). cbn [bind]. eexists. split; [reflexivity|]. split; [rewrite map_length, length_zip_with; unfold lslice; rewrite !firstn_length, !skipn_length, Lc; lia|].
  intros k v Hv. set (r := a + k). set (c := b + k). rewrite nth_error_map, nth_error_zip_with, !nth_error_lslice in Hv. rewrite Nat.sub_0_r in Hv. cbn [Nat.add] in Hv.
  destruct (Nat.ltb_spec k (n + 1 - m)) as [Hk|Hk]; [|discriminate].
  destruct (@cumsum_any D (k + m)) as (v1 & V1 & S1); [lia|]. destruct (@cumsum_any D k) as (v0 & V0 & S0); [lia|]. fold cs in V1, V0. rewrite (Nat.add_comm m k), V1, V0 in Hv. cbn [option_map] in Hv. injection Hv as <-.
  assert (Ef : forall j, j <= n -> forallb isfinite (firstn j D) = forallb isfinite (sub j Q a) && forallb isfinite (sub j S b)).
  { intros j Hj. unfold D. rewrite firstn_zip, !firstn_sub by exact Hj. apply zip_finite; [apply sq_finite|rewrite !length_sub; lia]. }
  unfold clean. replace (r - k) with a by lia. replace (c - k) with b by lia. rewrite <- Ef by lia. destruct (forallb isfinite (firstn (k + m) D)) eqn:F1.
  - assert (F0 : forallb isfinite (firstn k D) = true).
    { rewrite forallb_forall in *. intros x Hx. apply F1. replace (firstn k D) with (firstn k (firstn (k + m) D)) in Hx by (rewrite firstn_firstn; f_equal; lia). rewrite <- (firstn_skipn k (firstn (k + m) D)). apply in_app_iff. left. exact Hx. }
    rewrite F0 in S0. rewrite S1, S0. cbn [fsub nsub NumR]. rewrite <- !firstn_map, rsum_sub by (rewrite map_length; lia).
    assert (Hsum : rsum (sub m (map real D) k) = sqd (map real (sub m Q r)) (map real (sub m S c))).
    { rewrite Ef in F1 by lia. apply andb_true_iff in F1. destruct F1 as [F1 F2]. unfold sqd, psum. f_equal. unfold D. rewrite sub_map, sub_zip, !sub_sub by lia. fold r c.
      assert (G1 : forallb isfinite (sub m Q r) = true). { replace (sub m Q r) with (sub m (sub (k + m) Q a) k) by (apply sub_sub; lia). rewrite forallb_forall in *. intros x Hx. apply F1. unfold sub at 1 in Hx. rewrite <- (firstn_skipn k (sub (k + m) Q a)). apply in_app_iff. right. rewrite <- (firstn_skipn m (skipn k _)). apply in_app_iff. left. exact Hx. }
      assert (G2 : forallb isfinite (sub m S c) = true). { replace (sub m S c) with (sub m (sub (k + m) S b) k) by (apply sub_sub; lia). rewrite forallb_forall in *. intros x Hx. apply F2. unfold sub at 1 in Hx. rewrite <- (firstn_skipn k (sub (k + m) S b)). apply in_app_iff. right. rewrite <- (firstn_skipn m (skipn k _)). apply in_app_iff. left. exact Hx. }
      rewrite <- (real_fin _ G1) at 1. rewrite <- (real_fin _ G2) at 1. generalize (map real (sub m Q r)) (map real (sub m S c)). clear. induction l as [|x l IH]; intros [|y l']; cbn [map zip_with]; try reflexivity. rewrite sq_diff_fin. cbn [real]. f_equal. apply IH. }
    rewrite Hsum. unfold euclid. pose proof (sqd_nonneg (map real (sub m Q r)) (map real (sub m S c))) as P. cbn [froot]. unfold fsqrt. cbn [nltb NumR nzero nsqrt]. destruct (Rltb_spec (sqd (map real (sub m Q r)) (map real (sub m S c))) 0%R); [lra|reflexivity].
  - unfold clear. replace (r - k) with a by lia. replace (c - k) with b by lia. rewrite <- Ef by lia.
    assert (HD : forall x, In x D -> x <> NInf).
    { intros x Hx. apply In_nth_error in Hx. destruct Hx as (i & Hi). unfold D in Hi. rewrite nth_error_zip_with in Hi. destruct (nth_error (sub n Q a) i) as [p|], (nth_error (sub n S b) i) as [p'|]; try discriminate. injection Hi as <-. destruct p, p'; discriminate. }
    destruct (@cumsum_high D k) as (u0 & U0 & P0 & N0); [exact HD|lia|]. destruct (@cumsum_high D (k + m)) as (u1 & U1 & P1 & N1); [exact HD|lia|]. fold cs in U0, U1. rewrite V0 in U0. rewrite V1 in U1. injection U0 as <-. injection U1 as <-.
    assert (Ep : pairs apart m S Q r c = forallb high (sub m D k)).
    { unfold D. rewrite sub_zip, !sub_sub by lia. fold r c. symmetry. apply all2_zip. intros x y. destruct x, y; reflexivity. }
    assert (EH : forallb high (firstn (k + m) D) = forallb high (firstn k D) && forallb high (sub m D k)).
    { rewrite <- (firstn_skipn k (firstn (k + m) D)), forallb_app, firstn_firstn, Nat.min_l by lia. f_equal. f_equal. unfold sub. rewrite skipn_firstn_comm. f_equal. lia. }
    rewrite Ep. rewrite EH in P1. destruct (forallb isfinite (firstn k D)) eqn:F0.
    + assert (Hh : forallb high (firstn k D) = true) by (rewrite forallb_forall in *; intros x Hx; specialize (F0 x Hx); destruct x; try discriminate; reflexivity). rewrite Hh in P1. cbn [andb] in *.
      rewrite S0. destruct v1; try discriminate; try contradiction; cbn [high] in P1; rewrite <- P1; reflexivity.
    + cbn [andb inf_if]. destruct v0; try discriminate; try contradiction; destruct v1; try discriminate; try contradiction; reflexivity.
Qed.

(** ** Any calculations *)
Section Any.
  Variables (mem : nat -> num R) (sf : Q) (m : nat) (S : list (num R)) (q : option (list (num R))).
  Let Q := query_or S q.
  Let run := grun (eu_calc_column mem) (@eu_calc_diagonal R NumR) eu_append_series eu_append_query.
  Hypothesis Hm : 0 < m.
  Hypothesis HS : m <= length S.
  Hypothesis HQ : m <= length Q.
  Hypothesis Hsf : (1 <= sf)%Q.

  Lemma start_any : exists g0, eu_prepare mem sf m S q = Ok g0 /\ tinv m S Q [] g0.
  Proof.
    unfold eu_prepare. rewrite (proj2 (Qle_bool_iff 1 sf) Hsf). cbn [negb]. destruct (@win_data (num R) mem S 1) as (b & Eb & (_ & M & _ & V & _)); [discriminate|discriminate|lia|]. rewrite Eb. cbn [bind].
    unfold Q in *. destruct q as [q'|]; cbn [query_or] in *.
    - destruct (@win_data (num R) mem q' 1) as (b2 & Eb2 & (_ & M2 & _ & V2 & _)); [discriminate|discriminate|lia|]. rewrite Eb2. cbn [bind]. eexists. split; [reflexivity|]. constructor; cbn; auto; discriminate.
    - eexists. split; [reflexivity|]. constructor; cbn; auto; discriminate.
  Qed.
  Lemma run_any H cols g : tinv m S Q cols g -> calc_only m S Q H -> exists g', run g H = Ok g' /\ tinv m S Q (rev (asked H) ++ cols) g'.
  Proof.
    revert cols g. induction H as [|o H IH]; intros cols g I Hc; [exists g; split; [reflexivity|exact I]|].
    assert (Hc' : calc_only m S Q H) by (intros o' Ho'; apply Hc; right; exact Ho'). specialize (Hc o (or_introl eq_refl)). unfold run, grun in *. cbn [foldM].
    destruct o as [xs|xs|c|d]; [destruct Hc|destruct Hc| |].
    - destruct Hc as [Hc _]. destruct (@col_any mem m S Q Hm HS HQ cols g c I Hc) as (g' & vs & E & _ & I'). cbn [gstep]. assert (Ec : eu_calc_column mem g c = Ok (g', map froot vs)) by (unfold eu_calc_column; rewrite E; reflexivity). rewrite Ec. cbn [bind fst snd]. destruct (IH _ _ I' Hc') as (g2 & E2 & I2).
      exists g2. split; [exact E2|]. change (asked (CCol c :: H)) with (c :: asked H). cbn [rev]. rewrite <- app_assoc. exact I2.
    - destruct (@diag_any m S Q g d Hm (ti_m I) (ti_s I) (ti_q I) Hc) as (vs & E & _). cbn [gstep]. rewrite E. cbn [bind fst]. destruct (IH _ _ I Hc') as (g2 & E2 & I2). exists g2. split; [exact E2|]. exact I2.
  Qed.
End Any.
