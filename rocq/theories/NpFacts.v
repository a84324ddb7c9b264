(** * NpFacts: lemmas about the NumPy fragment. *)
From Verif Require Export Np.
From Coq Require Export ZifyBool ZifyNat.
Set Implicit Arguments.

(** ** Result monad *)
Lemma bind_ok {S T} (r : res S) (k : S -> res T) t :
  bind r k = Ok t <-> exists s, r = Ok s /\ k s = Ok t.
Proof.
  destruct r; simpl; split.
  - intro H; eauto.
  - intros (s & E & H); inversion E; subst; exact H.
  - discriminate.
  - intros (s & E & _); discriminate.
Qed.

Lemma foldM_app {S T} (f : S -> T -> res S) l1 l2 s :
  foldM f (l1 ++ l2) s = do s' <- foldM f l1 s; foldM f l2 s'.
Proof.
  revert s; induction l1 as [|x l1 IH]; intro s; simpl; [reflexivity|].
  destruct (f s x); simpl; auto.
Qed.

Lemma foldM_inv {S T} (f : S -> T -> res S) (P : list T -> S -> Prop) s0 :
  P [] s0 ->
  forall l, (forall l1 x l2 s, l = l1 ++ x :: l2 -> P l1 s -> exists s', f s x = Ok s' /\ P (l1 ++ [x]) s') ->
  exists s, foldM f l s0 = Ok s /\ P l s.
Proof.
  intros H0 l.
  assert (G : forall done todo s, P done s ->
     (forall l1 x l2 s, todo = l1 ++ x :: l2 -> P (done ++ l1) s ->
        exists s', f s x = Ok s' /\ P (done ++ l1 ++ [x]) s') ->
     exists s', foldM f todo s = Ok s' /\ P (done ++ todo) s').
  { intros done todo; revert done; induction todo as [|x todo IH]; intros done s Hp Hs.
    - exists s; simpl; rewrite app_nil_r; auto.
    - destruct (Hs [] x todo s eq_refl) as (s' & E & Hp').
      { rewrite app_nil_r; exact Hp. }
      simpl in Hp'. destruct (IH (done ++ [x]) s' Hp') as (s2 & E2 & P2).
      { intros l1 y l2 s1 El Hp1.
        destruct (Hs (x :: l1) y l2 s1) as (s3 & E3 & P3).
        - simpl; rewrite El; reflexivity.
        - rewrite <- app_assoc in Hp1; exact Hp1.
        - exists s3; split; [exact E3|]. rewrite <- app_assoc; exact P3. }
      exists s2; simpl; rewrite E; simpl; split; [exact E2|].
      rewrite <- app_assoc in P2; exact P2. }
  intros Hs. destruct (G [] l s0 H0) as (s & E & Hp); [|eauto].
  intros l1 x l2 s El Hp; exact (Hs l1 x l2 s El Hp).
Qed.

(** ** Lists *)
Lemma nth_error_ext {T} (l1 l2 : list T) :
  (forall i, nth_error l1 i = nth_error l2 i) -> l1 = l2.
Proof.
  revert l2; induction l1 as [|x l1 IH]; intros [|y l2] H; auto.
  - specialize (H 0); discriminate.
  - specialize (H 0); discriminate.
  - f_equal.
    + specialize (H 0); simpl in H; congruence.
    + apply IH; intro i; exact (H (S i)).
Qed.

Lemma nth_error_skipn {T} (l : list T) a i : nth_error (skipn a l) i = nth_error l (a + i).
Proof.
  revert l; induction a as [|a IH]; intros l; simpl; [reflexivity|].
  destruct l; simpl; [destruct i; reflexivity|apply IH].
Qed.

Lemma nth_error_firstn {T} (l : list T) a i :
  nth_error (firstn a l) i = if i <? a then nth_error l i else None.
Proof.
  revert l i; induction a as [|a IH]; intros l i; simpl.
  - destruct i; reflexivity.
  - destruct l as [|x l]; simpl.
    + destruct i; simpl; [reflexivity|]. destruct (S i <? S a); reflexivity.
    + destruct i; simpl; [reflexivity|]. rewrite IH. reflexivity.
Qed.

Lemma nth_error_app {T} (l1 l2 : list T) i :
  nth_error (l1 ++ l2) i = if i <? length l1 then nth_error l1 i else nth_error l2 (i - length l1).
Proof.
  destruct (Nat.ltb_spec i (length l1)).
  - apply nth_error_app1; lia.
  - apply nth_error_app2; lia.
Qed.

Lemma nth_error_repeat' {T} (x : T) n i :
  nth_error (repeat x n) i = if i <? n then Some x else None.
Proof.
  revert i; induction n as [|n IH]; intros [|i]; simpl; auto. rewrite IH; reflexivity.
Qed.

Lemma nth_error_seq a n i : nth_error (seq a n) i = if i <? n then Some (a + i) else None.
Proof.
  revert a i; induction n as [|n IH]; intros a [|i]; try reflexivity.
  - simpl; f_equal; lia.
  - simpl nth_error. rewrite IH. replace (S a + i) with (a + S i) by lia. reflexivity.
Qed.

Lemma nth_error_lslice {T} (l : list T) a b i :
  nth_error (lslice l a b) i = if i <? b - a then nth_error l (a + i) else None.
Proof. unfold lslice. rewrite nth_error_firstn, nth_error_skipn. reflexivity. Qed.

Lemma length_lslice {T} (l : list T) a b : length (lslice l a b) = Nat.min b (length l) - a.
Proof. unfold lslice. rewrite firstn_length, skipn_length. lia. Qed.

Lemma length_splice {T} (l : list T) lo v :
  lo + length v <= length l -> length (splice l lo v) = length l.
Proof.
  intro H. unfold splice. rewrite !app_length, firstn_length, skipn_length. lia.
Qed.

Lemma nth_error_none_ge {T} (l : list T) i : length l <= i -> nth_error l i = None.
Proof. apply nth_error_None. Qed.

Lemma nth_error_splice {T} (l : list T) lo v i :
  lo <= length l ->
  nth_error (splice l lo v) i =
  if i <? lo then nth_error l i
  else if i <? lo + length v then nth_error v (i - lo)
  else nth_error l i.
Proof.
  intro H. unfold splice. rewrite !nth_error_app, nth_error_firstn, nth_error_skipn, firstn_length.
  replace (Nat.min lo (length l)) with lo by lia.
  destruct (Nat.ltb_spec i lo); [reflexivity|].
  destruct (Nat.ltb_spec (i - lo) (length v)); destruct (Nat.ltb_spec i (lo + length v)); try lia; auto.
  f_equal; lia.
Qed.

Lemma set_slice_ok {T} (l : list T) lo hi v :
  lo <= hi -> hi <= length l -> length v = hi - lo -> set_slice l lo hi v = Ok (splice l lo v).
Proof.
  intros H1 H2 H3. unfold set_slice.
  replace (Nat.min hi (length l)) with hi by lia.
  replace (Nat.min lo (length l)) with lo by lia.
  rewrite H3, Nat.eqb_refl. reflexivity.
Qed.

Lemma length_fill_slice {T} (l : list T) lo hi x : length (fill_slice l lo hi x) = length l.
Proof. unfold fill_slice. apply length_splice. rewrite repeat_length. lia. Qed.

Lemma nth_error_fill_slice {T} (l : list T) lo hi x i :
  nth_error (fill_slice l lo hi x) i =
  if (lo <=? i) && (i <? hi) && (i <? length l) then Some x else nth_error l i.
Proof.
  unfold fill_slice. rewrite nth_error_splice by lia. rewrite repeat_length, nth_error_repeat'.
  destruct ((lo <=? i) && (i <? hi) && (i <? length l)) eqn:E.
  - destruct (Nat.ltb_spec i (Nat.min lo (length l))); [lia|].
    destruct (Nat.ltb_spec i (Nat.min lo (length l) + (Nat.min hi (length l) - lo))); [|lia].
    destruct (Nat.ltb_spec (i - Nat.min lo (length l)) (Nat.min hi (length l) - lo)); [reflexivity|lia].
  - destruct (Nat.ltb_spec i (Nat.min lo (length l))); [reflexivity|].
    destruct (Nat.ltb_spec i (Nat.min lo (length l) + (Nat.min hi (length l) - lo))); [|reflexivity].
    lia.
Qed.

Lemma setitem_ok {T} (l : list T) i x : i < length l -> setitem l i x = Ok (splice l i [x]).
Proof. intro H. unfold setitem. destruct (Nat.ltb_spec i (length l)); [reflexivity|lia]. Qed.

Lemma nth_error_set1 {T} (l : list T) i x j :
  i < length l -> nth_error (splice l i [x]) j = if j =? i then Some x else nth_error l j.
Proof.
  intro H. rewrite nth_error_splice by lia. simpl.
  destruct (Nat.ltb_spec j i); destruct (Nat.eqb_spec j i); try lia; auto.
  - destruct (Nat.ltb_spec j (i + 1)); [|lia]. subst. rewrite Nat.sub_diag; reflexivity.
  - destruct (Nat.ltb_spec j (i + 1)); [lia|reflexivity].
Qed.

Lemma length_set1 {T} (l : list T) i x : i < length l -> length (splice l i [x]) = length l.
Proof. intro H; apply length_splice; simpl; lia. Qed.

Lemma length_zip_with {S T U} (f : S -> T -> U) a b :
  length (zip_with f a b) = Nat.min (length a) (length b).
Proof. revert b; induction a as [|x a IH]; intros [|y b]; simpl; auto. Qed.

Lemma nth_error_zip_with {S T U} (f : S -> T -> U) a b i :
  nth_error (zip_with f a b) i =
  match nth_error a i, nth_error b i with Some x, Some y => Some (f x y) | _, _ => None end.
Proof.
  revert b i; induction a as [|x a IH]; intros [|y b] [|i]; simpl; auto.
  destruct (nth_error a i); reflexivity.
Qed.

Lemma length_arange a n : length (arange a n) = n.
Proof. unfold arange. rewrite map_length, seq_length. reflexivity. Qed.

Lemma nth_error_arange a n i :
  nth_error (arange a n) i = if i <? n then Some (a + Z.of_nat i)%Z else None.
Proof.
  unfold arange. rewrite nth_error_map, nth_error_seq. destruct (i <? n); reflexivity.
Qed.

Lemma getitem_ok {T} (l : list T) i x : getitem l i = Ok x <-> nth_error l i = Some x.
Proof. unfold getitem. destruct (nth_error l i); split; intro H; congruence. Qed.

Lemma nth_error_lt_some {T} (l : list T) i : i < length l -> exists x, nth_error l i = Some x.
Proof.
  intro H. destruct (nth_error l i) eqn:E; [eauto|].
  apply nth_error_None in E; lia.
Qed.

Lemma nth_error_some_lt {T} (l : list T) i x : nth_error l i = Some x -> i < length l.
Proof. intro H. apply nth_error_Some. congruence. Qed.

(** The last [n] elements. *)
Definition lastn {T} (n : nat) (l : list T) : list T := skipn (length l - n) l.

Lemma length_lastn {T} n (l : list T) : length (lastn n l) = Nat.min n (length l).
Proof. unfold lastn. rewrite skipn_length. lia. Qed.

Lemma nth_error_lastn {T} n (l : list T) i : nth_error (lastn n l) i = nth_error l (length l - n + i).
Proof. unfold lastn. apply nth_error_skipn. Qed.

Lemma lastn_all {T} n (l : list T) : length l <= n -> lastn n l = l.
Proof. intro H. unfold lastn. replace (length l - n) with 0 by lia. reflexivity. Qed.

Lemma lastn_app {T} n (l1 l2 : list T) : lastn n (lastn n l1 ++ l2) = lastn n (l1 ++ l2).
Proof.
  apply nth_error_ext; intro i. rewrite !nth_error_lastn, !app_length, !length_lastn, !nth_error_app, nth_error_lastn.
  rewrite length_lastn.
  destruct (Nat.leb_spec n (length l1)).
  - replace (Nat.min n (length l1)) with n by lia.
    destruct (Nat.ltb_spec (n + length l2 - n + i) n).
    + destruct (Nat.ltb_spec (length l1 + length l2 - n + i) (length l1)); [f_equal; lia|lia].
    + destruct (Nat.ltb_spec (length l1 + length l2 - n + i) (length l1)); [lia|f_equal; lia].
  - replace (Nat.min n (length l1)) with (length l1) by lia.
    destruct (Nat.ltb_spec (length l1 + length l2 - n + i) (length l1)); f_equal; lia.
Qed.

Lemma slice_from_neg {T} (l : list T) k : 0 < k -> slice_from l (- Z.of_nat k) = lastn k l.
Proof.
  intro H. unfold slice_from, lastn, norm_idx. f_equal.
  destruct (- Z.of_nat k <? 0)%Z eqn:E; lia.
Qed.

Lemma norm_idx_nonneg n i : (0 <= i)%Z -> norm_idx n i = Nat.min n (Z.to_nat i).
Proof. intro H. unfold norm_idx. destruct (i <? 0)%Z eqn:E; lia. Qed.

Lemma norm_idx_of_nat n k : norm_idx n (Z.of_nat k) = Nat.min n k.
Proof. rewrite norm_idx_nonneg by lia. f_equal; lia. Qed.

(** ** Order on [num] *)
Section Ord.
  Context {A : Type} {NA : NumOps A} {OA : OrdLaws A}.

  Lemma nltb_asym (a b : A) : nltb a b = true -> nltb b a = false.
  Proof.
    intro H. destruct (nltb b a) eqn:E; [|reflexivity].
    rewrite <- (nltb_irrefl a). symmetry. eapply nltb_trans; eassumption.
  Qed.

  Lemma nltb_false_trans (a b c : A) : nltb a b = false -> nltb b c = false -> nltb a c = false.
  Proof.
    intros H1 H2. destruct (nltb a c) eqn:E; [|reflexivity].
    destruct (nltb b a) eqn:E1.
    - rewrite (nltb_trans b a c E1 E) in H2; discriminate.
    - rewrite (nltb_total a b H1 E1) in E. congruence.
  Qed.

  Lemma fltb_irrefl (x : num A) : fltb x x = false.
  Proof. destruct x; simpl; auto using nltb_irrefl. Qed.

  Lemma fltb_trans (x y z : num A) : fltb x y = true -> fltb y z = true -> fltb x z = true.
  Proof. destruct x, y, z; simpl; try congruence; eauto using nltb_trans. Qed.

  Lemma fltb_asym (x y : num A) : fltb x y = true -> fltb y x = false.
  Proof. destruct x, y; simpl; try congruence; eauto using nltb_asym. Qed.

  (** "not smaller" is transitive through a non-NaN value *)
  Lemma fltb_false_trans (x y z : num A) :
    isnan y = false -> fltb x y = false -> fltb y z = false -> fltb x z = false.
  Proof. destruct x, y, z; simpl; try congruence; eauto using nltb_false_trans. Qed.

  Lemma fltb_fle_trans (x y z : num A) : fltb x y = true -> fleb y z = true -> fltb x z = true.
  Proof.
    destruct x, y, z; simpl; try congruence. intros H1 H2.
    destruct (nltb a a1) eqn:E; [reflexivity|]. apply negb_true_iff in H2.
    rewrite (nltb_false_trans a a1 a0 E H2) in H1. discriminate.
  Qed.

  Lemma fleb_fltb_trans (x y z : num A) : fleb x y = true -> fltb y z = true -> fltb x z = true.
  Proof.
    destruct x, y, z; simpl; try congruence. intros H1 H2.
    destruct (nltb a a1) eqn:E; [reflexivity|]. apply negb_true_iff in H1.
    rewrite (nltb_false_trans a0 a a1 H1 E) in H2. discriminate.
  Qed.

  Lemma fltb_fleb (x y : num A) : fltb x y = true -> fleb x y = true.
  Proof. destruct x, y; simpl; try congruence. intro H; rewrite (nltb_asym _ _ H); reflexivity. Qed.

  Lemma fleb_refl (x : num A) : isnan x = false -> fleb x x = true.
  Proof. destruct x; simpl; try congruence. rewrite nltb_irrefl; reflexivity. Qed.

  Lemma fleb_trans (x y z : num A) : fleb x y = true -> fleb y z = true -> fleb x z = true.
  Proof.
    destruct x, y, z; simpl; try congruence. rewrite !negb_true_iff. intros H1 H2.
    eapply nltb_false_trans; eassumption.
  Qed.

  Lemma fleb_false_fltb (x y : num A) :
    isnan x = false -> isnan y = false -> fleb x y = false -> fltb y x = true.
  Proof. destruct x, y; simpl; try congruence. rewrite negb_false_iff; auto. Qed.

  Lemma fltb_false_fleb (x y : num A) :
    isnan x = false -> isnan y = false -> fltb x y = false -> fleb y x = true.
  Proof. destruct x, y; simpl; try congruence. intros _ _ H. rewrite H; reflexivity. Qed.

  Lemma fleb_nonnan (x y : num A) : fleb x y = true -> isnan x = false /\ isnan y = false.
  Proof. destruct x, y; simpl; try congruence; auto. Qed.

  Lemma fltb_nonnan (x y : num A) : fltb x y = true -> isnan x = false /\ isnan y = false.
  Proof. destruct x, y; simpl; try congruence; auto. Qed.

  Lemma fltb_fleb_false (x y : num A) : fltb x y = true -> fleb y x = false.
  Proof. destruct x, y; simpl; try congruence. intro H; rewrite H; reflexivity. Qed.

  Lemma fleb_fltb_false (x y : num A) : fleb x y = true -> fltb y x = false.
  Proof. destruct x, y; simpl; try congruence. destruct (nltb a0 a); simpl; congruence. Qed.

  Lemma fle_antisym (x y : num A) : fleb x y = true -> fleb y x = true -> x = y.
  Proof.
    destruct x, y; simpl; try congruence. rewrite !negb_true_iff. intros H1 H2.
    f_equal. apply nltb_total; assumption.
  Qed.

  Lemma feqb_eq (x y : num A) : feqb x y = true <-> x = y /\ isnan x = false.
  Proof.
    unfold feqb. rewrite andb_true_iff. split.
    - intros [H1 H2]. split; [apply fle_antisym; assumption|]. apply (fleb_nonnan _ _ H1).
    - intros [-> H]. rewrite fleb_refl by assumption. auto.
  Qed.

  (** ** min / argmin *)
  Definition no_nan (l : list (num A)) : Prop := forall x, In x l -> isnan x = false.

  Lemma no_nan_cons x l : no_nan (x :: l) <-> isnan x = false /\ no_nan l.
  Proof.
    unfold no_nan; split.
    - intro H; split; [apply H; left; reflexivity|intros y Hy; apply H; right; exact Hy].
    - intros [H1 H2] y [<-|Hy]; auto.
  Qed.

  Lemma no_nan_nth l i x : no_nan l -> nth_error l i = Some x -> isnan x = false.
  Proof. intros H E. apply H. eapply nth_error_In; eassumption. Qed.

  (** [i] is the first position of a minimum of [l], whose value is [v]. *)
  Definition first_min (l : list (num A)) (i : nat) (v : num A) : Prop :=
    nth_error l i = Some v /\
    (forall j x, nth_error l j = Some x -> fltb x v = false) /\
    (forall j x, j < i -> nth_error l j = Some x -> fltb v x = true).

  Lemma argmin_from_spec l : no_nan l -> forall pre b bi,
    first_min pre bi b -> no_nan pre ->
    exists v, first_min (pre ++ l) (argmin_from l (length pre) b bi) v /\ v = min_from l b.
  Proof.
    induction l as [|x l IH]; intros Hn pre b bi Hm Hp; simpl.
    - exists b. rewrite app_nil_r. split; [exact Hm|reflexivity].
    - apply no_nan_cons in Hn; destruct Hn as [Hx Hn].
      destruct Hm as (Hb & Hmin & Hfst).
      assert (Nb : isnan b = false) by (eapply no_nan_nth; eassumption).
      rewrite Nb, Hx; simpl.
      assert (Hp' : no_nan (pre ++ [x])).
      { intros y Hy; apply in_app_or in Hy; destruct Hy as [Hy|[<-|[]]]; auto. }
      replace (pre ++ x :: l) with ((pre ++ [x]) ++ l) by (rewrite <- app_assoc; reflexivity).
      replace (S (length pre)) with (length (pre ++ [x])) by (rewrite app_length; simpl; lia).
      destruct (fltb x b) eqn:E.
      + apply IH; auto. split; [|split].
        * rewrite nth_error_app2 by lia. rewrite Nat.sub_diag; reflexivity.
        * intros j y Hj. rewrite nth_error_app in Hj.
          destruct (Nat.ltb_spec j (length pre)).
          -- assert (Ny : isnan y = false) by (eapply (@no_nan_nth pre); eassumption).
             destruct (fltb y x) eqn:E2; [|reflexivity].
             rewrite <- (Hmin _ _ Hj). symmetry. eapply fltb_trans; eassumption.
          -- assert (j - length pre = 0) as E2 by (apply nth_error_some_lt in Hj; simpl in Hj; lia).
             rewrite E2 in Hj; simpl in Hj; inversion Hj; subst. apply fltb_irrefl.
        * intros j y Hj Hy. rewrite nth_error_app1 in Hy by lia.
          assert (Ny : isnan y = false) by (eapply (@no_nan_nth pre); eassumption).
          eapply fltb_fle_trans; [exact E|]. apply fltb_false_fleb; auto. eapply Hmin; eassumption.
      + apply IH; auto. split; [|split].
        * rewrite nth_error_app1; [exact Hb|]. eapply nth_error_some_lt; eassumption.
        * intros j y Hj. rewrite nth_error_app in Hj.
          destruct (Nat.ltb_spec j (length pre)); [eapply Hmin; eassumption|].
          assert (j - length pre = 0) as E2 by (apply nth_error_some_lt in Hj; simpl in Hj; lia).
          rewrite E2 in Hj; simpl in Hj; inversion Hj; subst; exact E.
        * intros j y Hj Hy. rewrite nth_error_app1 in Hy.
          -- eapply Hfst; eassumption.
          -- apply nth_error_some_lt in Hb. lia.
  Qed.

  Lemma argmin_spec l i : no_nan l -> argmin l = Ok i ->
    exists v, first_min l i v /\ amin l = Ok v.
  Proof.
    destruct l as [|x l]; simpl; [discriminate|]. intros Hn H; inversion H; clear H.
    apply no_nan_cons in Hn; destruct Hn as [Hx Hn].
    destruct (@argmin_from_spec l Hn [x] x 0) as (v & Hv & Ev).
    - split; [reflexivity|split].
      + intros [|j] y Hy; simpl in Hy; [inversion Hy; apply fltb_irrefl|].
        destruct j; discriminate.
      + intros; lia.
    - intros y [<-|[]]; exact Hx.
    - exists v; split; [exact Hv|]. simpl; rewrite Ev; reflexivity.
  Qed.

  Lemma amin_argmin l : l <> [] -> no_nan l ->
    exists i v, argmin l = Ok i /\ amin l = Ok v /\ first_min l i v.
  Proof.
    intros Hl Hn. destruct l as [|x l]; [congruence|].
    destruct (@argmin_spec (x :: l) _ Hn eq_refl) as (v & Hv & Ev).
    exists (argmin_from l 1 x 0), v. auto.
  Qed.
End Ord.
