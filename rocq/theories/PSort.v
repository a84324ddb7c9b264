(** * PSort: facts about sorting, mapM and counting. *)
From Coq Require Import Permutation Sorted.
From Verif Require Import Np NpFacts Mat MCounters SCounters PUtil.
Set Implicit Arguments.
Open Scope nat_scope.

Lemma mapM_ok {U V} (f : U -> res V) l : (forall x, In x l -> exists y, f x = Ok y) ->
  exists ys, mapM f l = Ok ys /\ length ys = length l /\
    forall i x, nth_error l i = Some x -> exists y, nth_error ys i = Some y /\ f x = Ok y.
Proof.
  induction l as [|x l IH]; intro H.
  - exists []. split; [reflexivity|]. split; [reflexivity|]. intros [|i] x; discriminate.
  - destruct (H x (or_introl eq_refl)) as [y Hy]. destruct IH as (ys & E & L & N); [intros z Hz; apply H; right; exact Hz|].
    exists (y :: ys). cbn [mapM bind]. rewrite Hy. cbn [bind]. rewrite E. split; [reflexivity|]. split; [simpl; congruence|].
    intros [|i] z Hz; simpl in *; [injection Hz as <-; eauto|apply N, Hz].
Qed.

Lemma nth_error_combine {U V} (a : list U) (b : list V) i :
  nth_error (combine a b) i = match nth_error a i, nth_error b i with Some x, Some y => Some (x, y) | _, _ => None end.
Proof.
  revert b i; induction a as [|x a IH]; intros [|y b] [|i]; simpl; auto; destruct (nth_error a i); auto.
Qed.

(** ** Counting *)
Lemma filter_length_ge {U} (f : U -> bool) l k : k <= length l -> (forall i x, i < k -> nth_error l i = Some x -> f x = true) ->
  k <= length (filter f l).
Proof.
  revert k; induction l as [|x l IH]; intros k Hk H; simpl in *; [lia|]. destruct k as [|k]; [lia|].
  rewrite (H 0 x) by (auto; lia). simpl. assert (k <= length (filter f l)); [|lia]. apply IH; [lia|].
  intros i y Hi Hy. apply (H (S i) y); [lia|exact Hy].
Qed.
Lemma filter_length_le {U} (f : U -> bool) l k : (forall i x, k <= i -> nth_error l i = Some x -> f x = false) ->
  length (filter f l) <= k.
Proof.
  revert k; induction l as [|x l IH]; intros k H; simpl; [lia|]. destruct k as [|k].
  - rewrite (H 0 x) by (auto; lia). apply IH. intros i y Hi Hy. apply (H (S i) y); [lia|exact Hy].
  - assert (length (filter f l) <= k) by (apply IH; intros i y Hi Hy; apply (H (S i) y); [lia|exact Hy]).
    destruct (f x); simpl; lia.
Qed.
Lemma filter_length_perm {U} (f : U -> bool) l l' : Permutation l l' -> length (filter f l) = length (filter f l').
Proof.
  induction 1 as [|x l l' _ IH|x y l|l1 l2 l3 _ IH1 _ IH2]; simpl; auto.
  - destruct (f x); simpl; congruence.
  - destruct (f x), (f y); reflexivity.
  - congruence.
Qed.

Lemma sorted_nth {U} (R : U -> U -> Prop) l : StronglySorted R l ->
  forall i j x y, i < j -> nth_error l i = Some x -> nth_error l j = Some y -> R x y.
Proof.
  induction 1 as [|z l H IH F]; intros i j x y Hij Hi Hj; [destruct i; discriminate|].
  destruct j as [|j]; [lia|]. destruct i as [|i]; simpl in Hi, Hj.
  - injection Hi as <-. rewrite Forall_forall in F. apply F. eapply nth_error_In; exact Hj.
  - eapply IH; [|exact Hi|exact Hj]. lia.
Qed.

Section NumSort.
  Context {A : Type} {NA : NumOps A} {OL : OrdLaws A}.
  Notation num := (Np.num A).

  Lemma sort_le_total (x y : num) : sort_le x y = true \/ sort_le y x = true.
  Proof.
    unfold sort_le. destruct (isnan x) eqn:X, (isnan y) eqn:Y; auto.
    destruct (fleb x y) eqn:E; [auto|right]. apply fltb_fleb. destruct x, y; try discriminate; simpl in *; auto; try reflexivity.
    apply negb_false_iff in E. exact E.
  Qed.
  Lemma sort_le_trans (x y z : num) : sort_le x y = true -> sort_le y z = true -> sort_le x z = true.
  Proof.
    unfold sort_le. destruct (isnan z) eqn:Z; [auto|]. destruct (isnan y) eqn:Y; [intros _; discriminate|].
    destruct (isnan x) eqn:X; [discriminate|]. apply fleb_trans.
  Qed.

  Lemma insert_perm (x : num) l : Permutation (x :: l) (insert x l).
  Proof.
    induction l as [|y l IH]; simpl; [reflexivity|]. destruct (sort_le x y); [reflexivity|].
    rewrite perm_swap. constructor. exact IH.
  Qed.
  Lemma fsort_perm (l : list num) : Permutation l (fsort l).
  Proof. induction l as [|x l IH]; simpl; [constructor|]. rewrite <- insert_perm. constructor. exact IH. Qed.
  Lemma insert_sorted (x : num) l : StronglySorted (fun a b => sort_le a b = true) l ->
    StronglySorted (fun a b => sort_le a b = true) (insert x l).
  Proof.
    induction 1 as [|y l H IH F]; simpl; [repeat constructor|].
    destruct (sort_le x y) eqn:E.
    - constructor; [constructor; assumption|]. constructor; [exact E|].
      eapply Forall_impl; [|exact F]. intros z Hz. eapply sort_le_trans; [exact E|exact Hz].
    - constructor; [exact IH|]. assert (Hyx : sort_le y x = true) by (destruct (sort_le_total x y); congruence).
      eapply Permutation_Forall; [apply insert_perm|]. constructor; assumption.
  Qed.
  Lemma fsort_sorted (l : list num) : StronglySorted (fun a b => sort_le a b = true) (fsort l).
  Proof. induction l as [|x l IH]; simpl; [constructor|]. apply insert_sorted, IH. Qed.
  Lemma fsort_length (l : list num) : length (fsort l) = length l.
  Proof. symmetry. apply Permutation_length, fsort_perm. Qed.

  Lemma kth_fsort k (l : list num) : exists v, nth_error (fsort l ++ [NaN]) (Nat.min k (length l)) = Some v /\ kth_smallest k l v.
  Proof.
    rewrite nth_error_app, fsort_length. pose proof (fsort_perm l) as HP. pose proof (fsort_sorted l) as HS.
    destruct (Nat.ltb_spec (Nat.min k (length l)) (length l)) as [Hk|Hk].
    - rewrite Nat.min_l by lia. destruct (@nth_error_lt_some _ (fsort l) k) as [v Hv]; [rewrite fsort_length; lia|].
      exists v. split; [exact Hv|]. unfold kth_smallest. destruct (isnan v) eqn:N.
      + unfold count_real. rewrite (filter_length_perm _ HP). apply filter_length_le. intros i x Hi Hx.
        destruct (Nat.eq_dec i k) as [->|]; [replace x with v by congruence; rewrite N; reflexivity|].
        assert (E : sort_le v x = true) by (eapply (sorted_nth HS); [|exact Hv|exact Hx]; lia).
        unfold sort_le in E. rewrite N in E. destruct (isnan x); [reflexivity|discriminate].
      + split; [eapply Permutation_in; [apply Permutation_sym, HP|]; eapply nth_error_In; exact Hv|].
        unfold count_lt, count_le. rewrite !(filter_length_perm _ HP). split.
        * apply filter_length_le. intros i x Hi Hx. destruct (Nat.eq_dec i k) as [->|]; [replace x with v by congruence; apply fltb_irrefl|].
          assert (E : sort_le v x = true) by (eapply (sorted_nth HS); [|exact Hv|exact Hx]; lia).
          unfold sort_le in E. rewrite N in E. destruct (isnan x) eqn:Nx; [destruct x; try discriminate; reflexivity|].
          apply fleb_fltb_false, E.
        * apply (@filter_length_ge _ _ _ (S k)); [rewrite fsort_length; lia|]. intros i x Hi Hx.
          destruct (Nat.eq_dec i k) as [->|]; [replace x with v by congruence; apply fleb_refl, N|].
          assert (E : sort_le x v = true) by (eapply (sorted_nth HS); [|exact Hx|exact Hv]; lia).
          unfold sort_le in E. rewrite N in E. destruct (isnan x); [discriminate|exact E].
    - rewrite Nat.min_r by lia. rewrite Nat.sub_diag. exists NaN. split; [reflexivity|]. simpl.
      unfold count_real. apply filter_length_le. intros i x Hi Hx. apply nth_error_some_lt in Hx. lia.
  Qed.

  (** The specification determines the value. *)
  Lemma count_le_lt_mono (v w : num) l : fltb v w = true -> count_le v l <= count_lt w l.
  Proof.
    intro H. unfold count_le, count_lt. induction l as [|x l IH]; simpl; [lia|].
    destruct (fleb x v) eqn:E; [|destruct (fltb x w); simpl; lia].
    rewrite (fleb_fltb_trans _ _ _ E H). simpl. lia.
  Qed.
  Lemma count_le_real (v : num) l : count_le v l <= count_real l.
  Proof.
    unfold count_le, count_real. induction l as [|x l IH]; simpl; [lia|].
    destruct (fleb x v) eqn:E; [destruct (fleb_nonnan _ _ E) as [-> _]; simpl; lia|]. destruct (negb (isnan x)); simpl; lia.
  Qed.
  Lemma kth_unique k (l : list num) v w : kth_smallest k l v -> kth_smallest k l w -> v = w.
  Proof.
    unfold kth_smallest. destruct (isnan v) eqn:Nv, (isnan w) eqn:Nw.
    - destruct v, w; try discriminate. auto.
    - intros H1 (_ & H2). pose proof (count_le_real w l). lia.
    - intros (_ & H2) H1. pose proof (count_le_real v l). lia.
    - intros (_ & H1) (_ & H2). apply feqb_eq.
      assert (fltb v w = false) by (destruct (fltb v w) eqn:E; [pose proof (@count_le_lt_mono v w l E); lia|reflexivity]).
      assert (fltb w v = false) by (destruct (fltb w v) eqn:E; [pose proof (@count_le_lt_mono w v l E); lia|reflexivity]).
      unfold feqb. rewrite (fltb_false_fleb v w), (fltb_false_fleb w v); auto.
  Qed.
End NumSort.

(** ** Sorting integers *)
Lemma ninsert_perm x l : Permutation (x :: l) (ninsert x l).
Proof.
  induction l as [|y l IH]; simpl; [reflexivity|]. destruct (x <=? y); [reflexivity|].
  rewrite perm_swap. constructor. exact IH.
Qed.
Lemma nsort_perm l : Permutation l (nsort l).
Proof. induction l as [|x l IH]; simpl; [constructor|]. rewrite <- ninsert_perm. constructor. exact IH. Qed.
Lemma ninsert_sorted x l : StronglySorted le l -> StronglySorted le (ninsert x l).
Proof.
  induction 1 as [|y l H IH F]; simpl; [repeat constructor|].
  destruct (Nat.leb_spec x y).
  - constructor; [constructor; assumption|]. constructor; [exact H0|]. eapply Forall_impl; [|exact F]. simpl. lia.
  - constructor; [exact IH|]. eapply Permutation_Forall; [apply ninsert_perm|]. constructor; [lia|assumption].
Qed.
Lemma nsort_sorted l : StronglySorted le (nsort l).
Proof. induction l as [|x l IH]; simpl; [constructor|]. apply ninsert_sorted, IH. Qed.
Lemma sorted_strict l : StronglySorted le l -> NoDup l -> StronglySorted lt l.
Proof.
  induction 1 as [|x l H IH F]; intro N; [constructor|]. inversion N as [|? ? N1 N2]; subst. constructor; [apply IH, N2|].
  rewrite Forall_forall in *. intros y Hy. specialize (F y Hy). destruct (Nat.eq_dec x y); [subst; contradiction|lia].
Qed.
