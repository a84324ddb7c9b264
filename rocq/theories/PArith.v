(** * PArith: array arithmetic on finite data over the real numbers; windows of ring buffers. *)
From Coq Require Import QArith Reals Lra.
From Verif Require Import Np NpFacts MUtil SUtil PUtil MRing PRing MArith SReal.
Set Implicit Arguments.
Open Scope nat_scope.

(** ** The carrier *)
Lemma Rltb_true a b : Rltb a b = true <-> (a < b)%R.
Proof. unfold Rltb. destruct (Rlt_dec a b); split; intros; try congruence; tauto. Qed.
Lemma Rltb_false a b : Rltb a b = false <-> (b <= a)%R.
Proof. unfold Rltb. destruct (Rlt_dec a b); split; intros; try congruence; lra. Qed.
Lemma Rltb_spec a b : Bool.reflect (a < b)%R (Rltb a b).
Proof. unfold Rltb. destruct (Rlt_dec a b); constructor; assumption. Qed.

#[export] Instance OrdR : OrdLaws R.
Proof.
  constructor; cbn [nltb NumR]; intros.
  - apply Rltb_false. lra.
  - rewrite Rltb_true in *. lra.
  - rewrite Rltb_false in *. lra.
Qed.

(** ** Sums *)
Lemma rsum_app a b : rsum (a ++ b) = (rsum a + rsum b)%R.
Proof. induction a as [|x a IH]; cbn [rsum fold_right app]; [unfold rsum; simpl; lra|]. unfold rsum in *. cbn [fold_right]. rewrite IH. lra. Qed.
Lemma rsum_cons x a : rsum (x :: a) = (x + rsum a)%R.
Proof. reflexivity. Qed.

Lemma fsum_acc l a : fold_left fadd (fin l) (Fin a) = Fin (a + rsum l)%R.
Proof.
  revert a. induction l as [|x l IH]; intro a; cbn [map fold_left].
  - f_equal. unfold rsum; simpl; lra.
  - cbn [fadd nadd NumR]. rewrite IH, rsum_cons. f_equal. lra.
Qed.
Lemma fsum_fin l : fsum (fin l) = Fin (rsum l).
Proof. unfold fsum, fzero. cbn [nzero NumR]. rewrite fsum_acc. f_equal. lra. Qed.

Lemma zip_with_map {A1 A2 B1 B2 C} (f : A2 -> B2 -> C) (g : A1 -> A2) (h : B1 -> B2) a b :
  zip_with f (map g a) (map h b) = zip_with (fun x y => f (g x) (h y)) a b.
Proof. revert b. induction a as [|x a IH]; intros [|y b]; simpl; auto. f_equal. apply IH. Qed.
Lemma map_zip_with {A1 B1 C D} (f : A1 -> B1 -> C) (g : C -> D) a b :
  map g (zip_with f a b) = zip_with (fun x y => g (f x y)) a b.
Proof. revert b. induction a as [|x a IH]; intros [|y b]; simpl; auto. f_equal. apply IH. Qed.
Lemma zip_with_ext {A1 B1 C} (f g : A1 -> B1 -> C) a b : (forall x y, f x y = g x y) -> zip_with f a b = zip_with g a b.
Proof. intro H. revert b. induction a as [|x a IH]; intros [|y b]; simpl; auto. f_equal; auto. Qed.
Lemma zip_with_app {A1 B1 C} (f : A1 -> B1 -> C) a a' b b' : length a = length b ->
  zip_with f (a ++ a') (b ++ b') = zip_with f a b ++ zip_with f a' b'.
Proof. revert b. induction a as [|x a IH]; intros [|y b] L; simpl in *; try lia; auto. f_equal. apply IH. lia. Qed.
Lemma zip_with_swap {A1 B1 C} (f : A1 -> B1 -> C) a b : zip_with f a b = zip_with (fun y x => f x y) b a.
Proof. revert b. induction a as [|x a IH]; intros [|y b]; simpl; auto. f_equal. apply IH. Qed.

Lemma fdot_fin a b : fdot (fin a) (fin b) = Fin (dotp a b).
Proof.
  unfold fdot. rewrite zip_with_map.
  rewrite (zip_with_ext _ (fun x y => Fin (x * y)%R)) by reflexivity.
  rewrite <- (map_zip_with Rmult (@Fin R)). apply fsum_fin.
Qed.

Lemma psum_sym f x y : (forall a b, f a b = f b a) -> psum f x y = psum f y x.
Proof. intro H. unfold psum. rewrite zip_with_swap. f_equal. apply zip_with_ext. auto. Qed.

(** ** Subsequences *)
Lemma length_sub {T} m (l : list T) i : length (sub m l i) = Nat.min m (length l - i).
Proof. unfold sub. rewrite firstn_length, skipn_length. reflexivity. Qed.
Lemma nth_error_sub {T} m (l : list T) i j : nth_error (sub m l i) j = if j <? m then nth_error l (i + j) else None.
Proof. unfold sub. rewrite nth_error_firstn, nth_error_skipn. reflexivity. Qed.
Lemma nth_sub {T} m (l : list T) i j d : j < m -> nth j (sub m l i) d = nth (i + j) l d.
Proof.
  intro H. destruct (nth_error (sub m l i) j) as [x|] eqn:E.
  - rewrite (nth_error_nth _ _ _ E). rewrite nth_error_sub in E. destruct (Nat.ltb_spec j m); [|lia].
    rewrite (nth_error_nth _ _ _ E). reflexivity.
  - rewrite (nth_overflow (sub m l i)) by (apply nth_error_None; exact E).
    rewrite nth_error_sub in E. destruct (Nat.ltb_spec j m); [|lia]. apply nth_error_None in E.
    rewrite nth_overflow; auto.
Qed.
Lemma sub_app_l {T} m (a b : list T) i : i + m <= length a -> sub m (a ++ b) i = sub m a i.
Proof.
  intro H. apply nth_error_ext; intro j. rewrite !nth_error_sub. destruct (Nat.ltb_spec j m); auto.
  rewrite nth_error_app. destruct (Nat.ltb_spec (i + j) (length a)); [reflexivity|lia].
Qed.
Lemma sub_lastn {T} m n (l : list T) i : sub m (lastn n l) i = sub m l (length l - n + i).
Proof.
  apply nth_error_ext; intro j. rewrite !nth_error_sub. destruct (Nat.ltb_spec j m); auto.
  rewrite nth_error_lastn. f_equal; lia.
Qed.
Lemma sub_map {S T} (g : S -> T) m l i : sub m (map g l) i = map g (sub m l i).
Proof. unfold sub. rewrite <- firstn_map. f_equal. symmetry. revert l. induction i as [|i IH]; intros [|x l]; simpl; auto. Qed.
Lemma lslice_sub {T} (l : list T) i m : lslice l i (i + m) = sub m l i.
Proof. unfold lslice, sub. f_equal. lia. Qed.
Lemma skipn_map' {S T} (g : S -> T) i l : skipn i (map g l) = map g (skipn i l).
Proof. revert l. induction i as [|i IH]; intros [|x l]; simpl; auto. Qed.
Lemma lastn_map {S T} (g : S -> T) n l : lastn n (map g l) = map g (lastn n l).
Proof. unfold lastn. rewrite map_length. apply skipn_map'. Qed.
Lemma nth_lastn {T} n (l : list T) i d : nth i (lastn n l) d = nth (length l - n + i) l d.
Proof.
  destruct (nth_error (lastn n l) i) as [x|] eqn:E.
  - rewrite (nth_error_nth _ _ _ E). rewrite nth_error_lastn in E. rewrite (nth_error_nth _ _ _ E). reflexivity.
  - rewrite (nth_overflow (lastn n l)) by (apply nth_error_None; exact E).
    rewrite nth_error_lastn in E. apply nth_error_None in E. rewrite nth_overflow; auto.
Qed.
Lemma sub_head {T} m (l : list T) i d : i < length l -> sub (S m) l i = nth i l d :: sub m l (S i).
Proof.
  intro H. apply nth_error_ext; intro j. rewrite nth_error_sub. destruct j as [|j].
  - cbn [Nat.ltb Nat.leb nth_error]. rewrite Nat.add_0_r. apply nth_error_nth'. exact H.
  - cbn [nth_error]. rewrite nth_error_sub.
    destruct (Nat.ltb_spec (S j) (S m)); destruct (Nat.ltb_spec j m); try lia; auto. f_equal; lia.
Qed.
Lemma sub_tail {T} m (l : list T) i d : i + m < length l -> sub (S m) l i = sub m l i ++ [nth (i + m) l d].
Proof.
  intro H. apply nth_error_ext; intro j. rewrite nth_error_app, !nth_error_sub, length_sub.
  replace (Nat.min m (length l - i)) with m by lia.
  destruct (Nat.ltb_spec j m); destruct (Nat.ltb_spec j (S m)); try lia; auto.
  - replace j with m by lia. rewrite Nat.sub_diag. cbn [nth_error]. apply nth_error_nth'. lia.
  - destruct (j - m) eqn:E; [lia|]. cbn [nth_error]. destruct n; reflexivity.
Qed.

(** The sum over one pair of subsequences from the sum over the previous pair on the diagonal *)
Lemma psum_slide f m x y i j : i + m < length x -> j + m < length y ->
  psum f (sub m x (S i)) (sub m y (S j)) =
  (psum f (sub m x i) (sub m y j) - f (nth i x 0%R) (nth j y 0%R) + f (nth (i + m) x 0%R) (nth (j + m) y 0%R))%R.
Proof.
  intros Hx Hy.
  assert (E : psum f (sub (S m) x i) (sub (S m) y j) = (f (nth i x 0%R) (nth j y 0%R) + psum f (sub m x (S i)) (sub m y (S j)))%R).
  { rewrite (@sub_head _ m x i 0%R), (@sub_head _ m y j 0%R) by lia. reflexivity. }
  rewrite (@sub_tail _ m x i 0%R), (@sub_tail _ m y j 0%R) in E by lia.
  unfold psum in *. rewrite zip_with_app in E by (rewrite !length_sub; lia).
  rewrite rsum_app in E. cbn [zip_with] in E. unfold rsum at 2 in E. cbn [fold_right] in E. lra.
Qed.

(** ** Ring buffers as windows: the buffer shows [v], at most the last [n] points *)
Definition win {T} (n : nat) (v : list T) (b : rb T) : Prop :=
  rb_ok b /\ rb_max b = n /\ 0 < n /\ rb_view b = v /\ length (rb_buf b) <= 2 * n.

Lemma win_len {T} n (v : list T) b : win n v b -> length v <= n.
Proof. intros (Ho & M & _ & V & _). rewrite <- V, (length_rb_view Ho), <- M. apply ok_len. exact Ho. Qed.
Lemma win_push {T} n (v d : list T) b : win n v b ->
  exists b', rb_push b d = Ok (b', length v + length d - n) /\ win n (lastn n (v ++ d)) b'.
Proof.
  intros W. pose proof (win_len W) as L. destruct W as (Ho & M & Hn & V & C).
  destruct (@rb_push_spec T b d Ho) as (b' & E & Ho' & V' & C' & M'); [lia|right; lia|].
  exists b'. rewrite E, V', V, M, length_lastn, app_length. split; [do 2 f_equal; lia|].
  split; [exact Ho'|]. split; [congruence|]. split; [exact Hn|]. split; [congruence|lia].
Qed.
Lemma win_new {T} mem (d : list T) n sf : (1 <= sf)%Q -> (sf <= 2)%Q -> 0 < n -> length d <= n ->
  exists b, rb_new mem (Some d) (Some n) true sf = Ok b /\ win n d b.
Proof.
  intros H1 H2 Hn Hd. destruct (@rb_new_rel T mem (Some d) (Some n) n sf H1 Hn) as (b & E & (R1 & R2 & R3 & R4) & _ & C); auto.
  exists b. split; [exact E|]. rewrite lastn_all in R4 by lia. unfold win. tauto.
Qed.
Lemma win_data {T} mem (d : list T) sf : (1 <= sf)%Q -> (sf <= 2)%Q -> 0 < length d ->
  exists b, rb_new mem (Some d) None true sf = Ok b /\ win (length d) d b.
Proof.
  intros H1 H2 Hn. destruct (@rb_new_rel T mem (Some d) None (length d) sf H1 Hn) as (b & E & (R1 & R2 & R3 & R4) & _ & C); eauto.
  exists b. split; [exact E|]. rewrite lastn_all in R4 by lia. unfold win. tauto.
Qed.
Lemma win_empty {T} mem n sf : (1 <= sf)%Q -> (sf <= 2)%Q -> 0 < n ->
  exists b, @rb_new T mem None (Some n) true sf = Ok b /\ win n [] b.
Proof.
  intros H1 H2 Hn. destruct (@rb_new_rel T mem None (Some n) n sf H1 Hn) as (b & E & (R1 & R2 & R3 & R4) & _ & C); eauto.
  exists b. split; [exact E|]. unfold win. tauto.
Qed.

(** ** Array operations *)
Lemma bop_eq {S T U} (f : S -> T -> U) a b : length a = length b -> bop f a b = Ok (zip_with f a b).
Proof. intro H. unfold bop. rewrite H, Nat.eqb_refl. reflexivity. Qed.

Lemma slice_nat {T} (l : list T) a b : slice l (Z.of_nat a) (Z.of_nat b) = lslice l a b.
Proof.
  unfold slice. rewrite !norm_idx_of_nat. apply nth_error_ext; intro i. rewrite !nth_error_lslice.
  destruct (Nat.ltb_spec i (b - a)); destruct (Nat.ltb_spec i (Nat.min (length l) b - Nat.min (length l) a)); try lia; auto.
  - f_equal; lia.
  - symmetry. apply nth_error_None. lia.
Qed.

Lemma windows_ok {T} (l : list T) m : 0 < m -> m <= length l -> windows l m = Ok (map (sub m l) (seq 0 (length l + 1 - m))).
Proof.
  intros H1 H2. unfold windows. destruct (Nat.eqb_spec m 0); [lia|]. destruct (Nat.ltb_spec (length l) m); [lia|].
  cbn [orb]. replace (length l - m + 1) with (length l + 1 - m) by lia. reflexivity.
Qed.

(** [windows] is what the addresses of [sliding_window_view] select *)
Lemma windows_view {T} (l : list T) m : (0 < m)%nat ->
  match windows l m with
  | Ok ws => exists v, sliding_window_view (mkNd 0 [Z.of_nat (length l)] [1%Z]) [Z.of_nat m] None = Ok v /\
      nd_shape v = [Z.of_nat (length ws); Z.of_nat m] /\
      forall i w, nth_error ws i = Some w -> length w = m /\
        forall j, j < m -> nth_error w j = nth_error l (Z.to_nat (nd_addr v [Z.of_nat i; Z.of_nat j]))
  | Err e => sliding_window_view (mkNd 0 [Z.of_nat (length l)] [1%Z]) [Z.of_nat m] None = Err e
  end.
Proof.
  intro Hm. unfold sliding_window_view. cbn [nd_shape length Nat.eqb negb existsb orb].
  destruct (Z.leb_spec (Z.of_nat m) 0); [lia|]. cbn [orb bind repeat zip_with existsb].
  rewrite Z.div_1_r. unfold windows. destruct (Nat.eqb_spec m 0); [lia|]. cbn [orb].
  destruct (Nat.ltb_spec (length l) m).
  - destruct (Z.leb_spec (Z.of_nat (length l) - Z.of_nat m + 1) 0); [reflexivity|lia].
  - destruct (Z.leb_spec (Z.of_nat (length l) - Z.of_nat m + 1) 0); [lia|]. cbn [orb].
    eexists; split; [reflexivity|]. cbn [nd_shape nd_base nd_strides app]. rewrite map_length, seq_length.
    split; [f_equal; lia|]. intros i w E.
    rewrite nth_error_map, nth_error_seq in E. destruct (Nat.ltb_spec i (length l - m + 1)); [|discriminate].
    injection E as <-. split; [rewrite firstn_length, skipn_length; lia|]. intros j Hj.
    rewrite nth_error_firstn, nth_error_skipn. destruct (Nat.ltb_spec j m); [|lia].
    unfold nd_addr. cbn [nd_base nd_strides zip_with app dot]. f_equal. lia.
Qed.
