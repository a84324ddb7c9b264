(** * PStats: sliding mean and standard deviation of finite data *)
From Coq Require Import QArith Reals Lra.
From Verif Require Import Np NpFacts MRing PRing MArith MStats SReal PArith.
Set Implicit Arguments.
Open Scope nat_scope.

Lemma INR_pos n : 0 < n -> (0 < INR n)%R.
Proof. intro H. change 0%R with (INR 0). apply lt_INR. exact H. Qed.

Lemma np_mean_fin l : 0 < length l -> np_mean (fin l) = Fin (mean l).
Proof.
  intro H. unfold np_mean. rewrite fsum_fin, map_length. unfold fofZ. cbn [fdiv nltb nofZ nzero ndiv NumR].
  rewrite <- INR_IZR_INZ. pose proof (INR_pos H) as P.
  rewrite (proj2 (Rltb_true 0 (INR (length l))) P), orb_true_r. reflexivity.
Qed.
Lemma mean_nonneg l : (forall x, In x l -> (0 <= x)%R) -> (0 <= mean l)%R.
Proof.
  intro H. unfold mean. destruct l as [|a l]; [unfold rsum; cbn [fold_right length INR]; unfold Rdiv; rewrite Rmult_0_l; apply Rle_refl|].
  apply Rmult_le_pos; [|left; apply Rinv_0_lt_compat; apply INR_pos; cbn [length]; lia].
  clear - H. induction (a :: l) as [|x k IH]; [unfold rsum; simpl; lra|]. rewrite rsum_cons.
  pose proof (H x (or_introl eq_refl)). pose proof (IH (fun y Hy => H y (or_intror Hy))). lra.
Qed.
Definition variance (x : list R) : R := mean (map (fun a => (a - mean x) * (a - mean x))%R x).
Lemma variance_nonneg x : (0 <= variance x)%R.
Proof. apply mean_nonneg. intros v Hv. apply in_map_iff in Hv as (a & <- & _). apply Rle_0_sqr. Qed.
Lemma np_var_fin l : 0 < length l -> np_var (fin l) = Fin (variance l).
Proof.
  intro H. unfold np_var. rewrite np_mean_fin by exact H. rewrite map_map.
  change (map (fun x => fsquare (fsub (Fin x) (Fin (mean l)))) l) with (map (fun x => Fin ((x - mean l) * (x - mean l))%R) l).
  rewrite <- (map_map (fun x => ((x - mean l) * (x - mean l))%R) (@Fin R)), np_mean_fin by (rewrite map_length; exact H). reflexivity.
Qed.
Lemma np_std_fin l : 0 < length l -> np_std (fin l) = Fin (std l).
Proof.
  intro H. unfold np_std. rewrite np_var_fin by exact H. cbn [froot]. unfold fsqrt. cbn [nltb nzero nsqrt NumR].
  destruct (Rltb_spec (variance l) 0%R) as [N|N]; [|reflexivity]. pose proof (variance_nonneg l). lra.
Qed.
Lemma std_nonneg l : (0 <= std l)%R.
Proof. apply sqrt_pos. Qed.

Lemma all_finite (l : list R) : forallb isfinite (fin l) = true.
Proof. induction l; auto. Qed.

Lemma sliding_fin (l : list R) m : 0 < m -> m <= length l ->
  sliding_mean_std (fin l) (Z.of_nat m) = Ok (fin (windowed mean m l), fin (windowed std m l)) /\
  sliding_mean_var (fin l) (Z.of_nat m) = Ok (fin (windowed mean m l), fin (windowed variance m l)).
Proof.
  intros H1 H2. unfold sliding_mean_std, sliding_mean_var, sliding_mean_with. destruct (Z.leb_spec (Z.of_nat m) 0); [lia|].
  rewrite all_finite. cbn [negb]. rewrite Nat2Z.id, windows_ok by (rewrite ?map_length; lia). cbn [bind].
  unfold windowed. rewrite !map_map, map_length.
  assert (D : forall i, In i (seq 0 (length l + 1 - m)) -> 0 < length (sub m l i)) by (intros i Hi%in_seq; rewrite length_sub; lia).
  split; do 2 f_equal; apply map_ext_in; intros i Hi; apply D in Hi; rewrite sub_map;
    auto using np_mean_fin, np_std_fin, np_var_fin.
Qed.

(** ** Windows of parts *)
Lemma length_windowed {T U} (stat : list T -> U) m l : length (windowed stat m l) = length l + 1 - m.
Proof. unfold windowed. rewrite map_length, seq_length. reflexivity. Qed.
Lemma nth_error_windowed {T U} (stat : list T -> U) m l i : nth_error (windowed stat m l) i = if i <? length l + 1 - m then Some (stat (sub m l i)) else None.
Proof. unfold windowed. rewrite nth_error_map, nth_error_seq. destruct (i <? length l + 1 - m); reflexivity. Qed.
(** the windows that end in the last points *)
Lemma windowed_lastn {T U} (stat : list T -> U) m n l : 0 < m -> windowed stat m (lastn n l) = lastn (n + 1 - m) (windowed stat m l).
Proof.
  intro Hm. apply nth_error_ext. intro i. rewrite nth_error_lastn, !nth_error_windowed, length_windowed, length_lastn.
  destruct (Nat.ltb_spec i (Nat.min n (length l) + 1 - m)); destruct (Nat.ltb_spec (length l + 1 - m - (n + 1 - m) + i) (length l + 1 - m)); try lia; auto.
  f_equal. f_equal. rewrite sub_lastn. f_equal. lia.
Qed.
Lemma windowed_app {T U} (stat : list T -> U) m l x : 0 < m -> m <= length l + length x ->
  windowed stat m (l ++ x) = windowed stat m l ++ windowed stat m (lastn (length x + m - 1) (l ++ x)).
Proof.
  intros Hm H. apply nth_error_ext. intro i. rewrite nth_error_app, !nth_error_windowed, length_windowed, length_lastn, app_length.
  destruct (Nat.ltb_spec i (length l + 1 - m)).
  - destruct (Nat.ltb_spec i (length l + length x + 1 - m)); [|lia]. f_equal. f_equal. apply sub_app_l. lia.
  - destruct (Nat.ltb_spec i (length l + length x + 1 - m)); destruct (Nat.ltb_spec (i - (length l + 1 - m)) (Nat.min (length x + m - 1) (length l + length x) + 1 - m)); try lia; auto.
    f_equal. f_equal. rewrite sub_lastn, app_length. f_equal. lia.
Qed.

(** ** StreamingStats *)
Definition sinv (m N : nat) (l : list R) (s : stats) : Prop :=
  ss_m s = Z.of_nat m /\ length l = N /\ win N (fin l) (ss_data s) /\ win (N + 1 - m) (fin (windowed mean m l)) (ss_mean s) /\
  win (N + 1 - m) (fin (windowed std m l)) (ss_std s).

Lemma stats_new_ok mem m l : 0 < m -> m <= length l -> exists s, stats_new mem (fin l) (Z.of_nat m) = Ok s /\ sinv m (length l) l s.
Proof.
  intros Hm Hl. unfold stats_new. rewrite map_length. destruct (Z.ltb_spec (Z.of_nat (length l)) (Z.of_nat m)); [lia|].
  destruct (@win_data (num R) mem (fin l) 2) as (d & Ed & Wd); [discriminate|discriminate|rewrite map_length; lia|]. rewrite Ed. cbn [bind].
  destruct (sliding_fin l Hm Hl) as [Es _]. rewrite Es. cbn [bind fst snd].
  destruct (@win_data (num R) mem (fin (windowed mean m l)) 2) as (d1 & Ed1 & Wd1); [discriminate|discriminate|rewrite map_length, length_windowed; lia|].
  destruct (@win_data (num R) mem (fin (windowed std m l)) 2) as (d2 & Ed2 & Wd2); [discriminate|discriminate|rewrite map_length, length_windowed; lia|].
  rewrite Ed1. cbn [bind]. rewrite Ed2. cbn [bind]. eexists. split; [reflexivity|].
  rewrite map_length in Wd. rewrite map_length, length_windowed in Wd1, Wd2. unfold sinv. cbn [ss_m ss_data ss_mean ss_std]. tauto.
Qed.

Lemma lastn_app_r {T} n (a b : list T) : n <= length b -> lastn n (a ++ b) = lastn n b.
Proof.
  intro H. unfold lastn. rewrite app_length, skipn_app. rewrite skipn_all2 by lia. cbn [app]. f_equal. lia.
Qed.
Lemma windowed_push {T U} (stat : list T -> U) m N l xs : 0 < m -> m <= N -> length l <= N ->
  m <= length l + length xs -> 0 < length xs ->
  lastn (N + 1 - m) (windowed stat m l ++ windowed stat m (lastn (length xs + m - 1) (lastn N (l ++ xs)))) = windowed stat m (lastn N (l ++ xs)).
Proof.
  intros Hm HN Hl Hx Px. rewrite (windowed_lastn stat N (l ++ xs) Hm).
  destruct (le_lt_dec (length xs + m - 1) N) as [C|C].
  - replace (lastn (length xs + m - 1) (lastn N (l ++ xs))) with (lastn (length xs + m - 1) (l ++ xs)).
    + rewrite <- windowed_app by assumption. reflexivity.
    + apply nth_error_ext. intro i. rewrite !nth_error_lastn, length_lastn, app_length.
      replace (length l + length xs - N + (Nat.min N (length l + length xs) - (length xs + m - 1) + i)) with
        (length l + length xs - (length xs + m - 1) + i) by lia. reflexivity.
  - rewrite (lastn_all (n := length xs + m - 1)) by (rewrite length_lastn; lia).
    rewrite (windowed_lastn stat N (l ++ xs) Hm).
    destruct (le_lt_dec m (length l)) as [D|D].
    + rewrite lastn_app_r by (rewrite length_lastn, length_windowed, app_length; lia).
      apply lastn_all. rewrite length_lastn. lia.
    + replace (windowed stat m l) with (@nil U) by (unfold windowed; replace (length l + 1 - m) with 0 by lia; reflexivity).
      apply lastn_all. cbn [app]. rewrite length_lastn. lia.
Qed.

Lemma stats_append_ok m N l s xs : 0 < m -> m <= N -> sinv m N l s -> exists s', stats_append s (fin xs) = Ok s' /\ sinv m N (lastn N (l ++ xs)) s'.
Proof.
  intros Hm HN (Em & Ln & Wd & Wm & Ws). unfold stats_append. rewrite map_length. destruct (Z.eqb_spec (Z.of_nat (length xs)) 0) as [L|L].
  - exists s. split; [reflexivity|]. destruct xs; [|cbn [length] in L; lia]. rewrite app_nil_r, lastn_all by lia. unfold sinv. tauto.
  - destruct (win_push (fin xs) Wd) as (d & Ed & Wd'). rewrite Ed. cbn [bind fst]. rewrite <- map_app, lastn_map in Wd'.
    pose proof Wd' as (_ & _ & _ & Vd & _). rewrite Vd, Em.
    set (l' := lastn N (l ++ xs)) in *.
    assert (Ll' : length l' = N) by (unfold l'; rewrite length_lastn, app_length; lia).
    replace (Z.max (- Z.of_nat m - 1 - Z.of_nat (length xs)) 0) with 0%Z by lia.
    replace (slice_from (fin l') 0) with (fin l') by (unfold slice_from; destruct (fin l'); reflexivity).
    destruct (sliding_fin l' Hm ltac:(lia)) as [Es _]. rewrite Es. cbn [bind fst snd].
    destruct (win_push (fin (windowed mean m l')) Wm) as (b1 & E1 & W1). destruct (win_push (fin (windowed std m l')) Ws) as (b2 & E2 & W2).
    rewrite E1. cbn [bind]. rewrite E2. cbn [bind fst]. eexists. split; [reflexivity|].
    rewrite lastn_app_r in W1, W2 by (rewrite map_length, length_windowed; lia).
    rewrite lastn_all in W1, W2 by (rewrite map_length, length_windowed; lia).
    unfold sinv. cbn [ss_m ss_data ss_mean ss_std]. tauto.
Qed.

(** ** Any sequence of appends *)
Lemma stats_run mem m l chunks : 0 < m -> m <= length l ->
  exists s0 s, stats_new mem (fin l) (Z.of_nat m) = Ok s0 /\ foldM stats_append (map (map (@Fin R)) chunks) s0 = Ok s /\
    sinv m (length l) (lastn (length l) (l ++ concat chunks)) s.
Proof.
  intros Hm Hl. destruct (stats_new_ok mem l Hm Hl) as (s0 & E0 & I0).
  exists s0. enough (D : exists s, foldM stats_append (map (map (@Fin R)) chunks) s0 = Ok s /\ sinv m (length l) (lastn (length l) (l ++ concat chunks)) s).
  { destruct D as (s & D). exists s. auto. }
  induction chunks as [|xs chunks IH] using rev_ind.
  - exists s0. split; [reflexivity|]. cbn [concat]. rewrite app_nil_r, lastn_all by lia. exact I0.
  - destruct IH as (s & Es & Is). rewrite map_app, foldM_app, Es. cbn [bind map foldM].
    destruct (stats_append_ok xs Hm Hl Is) as (s' & E' & I'). rewrite E'. cbn [bind]. exists s'. split; [reflexivity|].
    rewrite lastn_app, concat_app in *. cbn [concat]. rewrite app_nil_r, app_assoc. exact I'.
Qed.
