(** * PResCol: reservoir profile over columns, final statements for C39 and C40. *)
From Coq Require Import QArith.
From Verif Require Import Np NpFacts Mat SLog PLog MProfile PProfile MRand SRand PRand MReservoir SReservoir PReservoir PResProb.
Set Implicit Arguments.
Open Scope nat_scope.

Section PResCol.
  Context {A : Type} {NA : NumOps A} {OL : OrdLaws A}.
  Notation num := (Np.num A).

  (** ** Columns *)
  Lemma eq_idxs_from_spec l : forall k x i,
    In i (eq_idxs_from k l x) <-> k <= i /\ exists y, nth_error l (i - k) = Some y /\ feqb y x = true.
  Proof.
    induction l as [|y l IH]; intros k x i; cbn [eq_idxs_from].
    - split; [intros []|]. intros (_ & z & Hz & _). destruct (i - k); discriminate.
    - assert (Hc : k <= i /\ (exists y0, nth_error (y :: l) (i - k) = Some y0 /\ feqb y0 x = true) <->
        (i = k /\ feqb y x = true) \/ (S k <= i /\ exists y0, nth_error l (i - S k) = Some y0 /\ feqb y0 x = true)).
      { split.
        - intros (Hk & z & Hz & Hx). destruct (Nat.eq_dec i k) as [->|Hne].
          + rewrite Nat.sub_diag in Hz. injection Hz as ->. auto.
          + right. split; [lia|]. replace (i - k) with (S (i - S k)) in Hz by lia. eauto.
        - intros [[-> Hx]|(Hk & z & Hz & Hx)].
          + split; [lia|]. rewrite Nat.sub_diag. eexists; split; [reflexivity|exact Hx].
          + split; [lia|]. replace (i - k) with (S (i - S k)) by lia. eauto. }
      rewrite Hc. destruct (feqb y x); simpl; rewrite IH; intuition congruence.
  Qed.
  Lemma eq_idxs_nodup l : forall k x, NoDup (eq_idxs_from k l x).
  Proof.
    induction l as [|y l IH]; intros k x; cbn [eq_idxs_from]; [constructor|].
    destruct (feqb y x); [|apply IH]. constructor; [|apply IH].
    rewrite eq_idxs_from_spec. intros [H _]. lia.
  Qed.
  Lemma eq_idxs_length l : forall k x, length (eq_idxs_from k l x) = ties x l.
  Proof.
    unfold ties. induction l as [|y l IH]; intros k x; cbn [eq_idxs_from filter]; [reflexivity|].
    destruct (feqb y x); simpl; rewrite IH; reflexivity.
  Qed.

  Lemma getitem_nth {T} (l : list T) i x : nth_error l i = Some x -> getitem l i = Ok x.
  Proof. unfold getitem. intros ->. reflexivity. Qed.

  Lemma random_pick_safe (a : list nat) : a <> [] -> safe (random_pick a) (fun x => In x a).
  Proof.
    intro Ha. unfold random_pick. destruct (Nat.eqb_spec (length a) 1) as [E|E].
    - destruct a as [|x [|y a]]; try discriminate. simpl. auto.
    - cbn [safe]. split; [destruct a; [congruence|simpl; lia]|]. intros i Hi.
      destruct (@nth_error_lt_some _ a i Hi) as [x Hx]. rewrite (getitem_nth _ _ Hx). simpl. eapply nth_error_In; exact Hx.
  Qed.

  Lemma qsum_single n f i0 (q : Q) : i0 < n -> (forall i, i < n -> i <> i0 -> (f i == 0)%Q) -> (f i0 == q)%Q -> (qsum n f == q)%Q.
  Proof.
    induction n as [|n IH]; [lia|]. intros Hi Hz Hq. cbn [qsum]. destruct (Nat.eq_dec i0 n) as [->|Hne].
    - rewrite Hq. assert (qsum n f == 0)%Q as ->; [|ring]. clear - Hz.
      assert (G : forall m, m <= n -> (qsum m f == 0)%Q).
      { induction m as [|m IHm]; [reflexivity|]. intro Hm. cbn [qsum]. rewrite IHm by lia. rewrite Hz by lia. ring. }
      apply G. lia.
    - rewrite IH by (auto; lia). rewrite Hz by lia. ring.
  Qed.

  Lemma random_pick_prob (a : list nat) x : NoDup a -> In x a ->
    (prob (random_pick a) (fun y => y =? x) == frac 1 (length a))%Q.
  Proof.
    intros Hd Hin. unfold random_pick, prob. destruct (Nat.eqb_spec (length a) 1) as [E|E].
    - destruct a as [|z [|y a]]; try discriminate. destruct Hin as [->|[]]. cbn [getitem nth_error lift expect length].
      cbn. rewrite Nat.eqb_refl. reflexivity.
    - cbn [expect]. apply In_nth_error in Hin. destruct Hin as [i0 Hi0].
      apply (@qsum_single _ _ i0).
      + eapply nth_error_some_lt; exact Hi0.
      + intros i Hi Hne. destruct (@nth_error_lt_some _ a i Hi) as [y Hy]. rewrite (getitem_nth _ _ Hy). cbn [lift expect].
        destruct (Nat.eqb_spec y x) as [->|]; [|cbn [ind]; ring].
        exfalso. apply Hne. eapply (proj1 (NoDup_nth_error a) Hd); [exact Hi|congruence].
      + rewrite (getitem_nth _ _ Hi0). cbn [lift expect]. rewrite Nat.eqb_refl. cbn [ind]. ring.
  Qed.

  Lemma part_ok (part : list num) : part <> [] -> no_nan part -> exists v, amin part = Ok v /\ In v part /\
    (forall x, In x part -> fltb x v = false) /\ eq_idxs part v <> [] /\
    (forall i, In i (eq_idxs part v) <-> nth_error part i = Some v).
  Proof.
    intros Hne Hn. destruct (amin_argmin Hne Hn) as (i & v & _ & Ea & (Hi & Hm & _)).
    exists v. assert (Hin : In v part) by (eapply nth_error_In; exact Hi).
    assert (Nv : isnan v = false) by (apply Hn, Hin).
    assert (Hs : forall j, In j (eq_idxs part v) <-> nth_error part j = Some v).
    { intro j. unfold eq_idxs. rewrite eq_idxs_from_spec, Nat.sub_0_r. split.
      - intros (_ & y & Hy & E). apply feqb_finite in E. congruence.
      - intro Hj. split; [lia|]. exists v. split; [exact Hj|]. apply feqb_eq. auto. }
    split; [exact Ea|]. split; [exact Hin|]. split; [|split; [|exact Hs]].
    - intros x Hx. apply In_nth_error in Hx. destruct Hx as [j Hj]. eapply Hm; exact Hj.
    - intro E. apply Hs in Hi. rewrite E in Hi. destruct Hi.
  Qed.

  Lemma setitem_some {T} (l : list T) c x : c < length l ->
    exists l', setitem l c x = Ok l' /\ length l' = length l /\ nth_error l' c = Some x /\ forall j, j <> c -> nth_error l' j = nth_error l j.
  Proof.
    intro Hc. unfold setitem. destruct (Nat.ltb_spec c (length l)); [|lia]. eexists; split; [reflexivity|].
    split; [apply length_set1; lia|]. split.
    - rewrite nth_error_set1 by lia. rewrite Nat.eqb_refl. reflexivity.
    - intros j Hj. rewrite nth_error_set1 by lia. destruct (Nat.eqb_spec j c); [congruence|reflexivity].
  Qed.

  Lemma no_nan_part (vals part : list num) : (forall x, In x part -> In x vals) -> no_nan vals -> no_nan part.
  Proof. intros H Hn x Hx. apply Hn, H, Hx. Qed.
  Lemma in_firstn {T} n (l : list T) x : In x (firstn n l) -> In x l.
  Proof. intro H. rewrite <- (firstn_skipn n l). apply in_or_app. auto. Qed.
  Lemma in_skipn {T} n (l : list T) x : In x (skipn n l) -> In x l.
  Proof. intro H. rewrite <- (firstn_skipn n l). apply in_or_app. auto. Qed.

  Lemma mrs_col_lemma w s c (vals : list num) rest : mrs_len w s -> c < w -> vals <> [] -> no_nan vals ->
    safe (mrs_col s c (vals :: rest)) (fun s' => r_range s' = r_range s /\ mrs_len w s' /\
      (forall j, j <> c -> ent3 (r_left s') (r_ileft s') (r_nleft s') j = ent3 (r_left s) (r_ileft s) (r_nleft s) j /\
                           ent3 (r_right s') (r_iright s') (r_nright s') j = ent3 (r_right s) (r_iright s) (r_nright s) j) /\
      (exists v i n, ent3 (r_left s') (r_ileft s') (r_nleft s') c = Some (v, i, n) /\
         col_ok vals 0 (Nat.min (c + 1) (length vals)) v i n) /\
      (if c + 2 <=? length vals then exists v i n, ent3 (r_right s') (r_iright s') (r_nright s') c = Some (v, i, n) /\
         col_ok vals (c + 1) (length vals) v i n
       else ent3 (r_right s') (r_iright s') (r_nright s') c = ent3 (r_right s) (r_iright s) (r_nright s) c)).
  Proof.
    intros (L1 & L2 & L3 & L4 & L5 & L6) Hc Hv Hn. unfold mrs_col. cbn [row0 lift rbind].
    assert (E1 : lslice vals 0 (Nat.min (c + 1) (length vals)) = firstn (c + 1) vals).
    { unfold lslice. rewrite Nat.sub_0_r. cbn [skipn]. destruct (Nat.le_gt_cases (c + 1) (length vals)).
      - rewrite Nat.min_l by assumption. reflexivity.
      - rewrite Nat.min_r by lia. rewrite !firstn_all2; auto; lia. }
    destruct (@part_ok (firstn (c + 1) vals)) as (v1 & A1 & I1 & M1 & N1 & S1).
    { destruct vals; [congruence|]. rewrite Nat.add_1_r. discriminate. }
    { eapply no_nan_part; [|exact Hn]. apply in_firstn. }
    rewrite A1. cbn [lift rbind].
    destruct (@setitem_some _ (r_left s) c v1) as (l1 & B1 & B2 & B3 & B4); [lia|]. rewrite B1. cbn [lift rbind].
    destruct (@setitem_some _ (r_nleft s) c (length (eq_idxs (firstn (c + 1) vals) v1))) as (n1 & C1 & C2 & C3 & C4); [lia|].
    rewrite C1. cbn [lift rbind].
    eapply safe_bind; [apply random_pick_safe, N1|]. intros p1 P1.
    destruct (@setitem_some _ (r_ileft s) c (Z.of_nat p1)) as (i1 & D1 & D2 & D3 & D4); [lia|]. rewrite D1. cbn [lift rbind].
    assert (Left : exists v i n, ent3 l1 i1 n1 c = Some (v, i, n) /\ col_ok vals 0 (Nat.min (c + 1) (length vals)) v i n).
    { do 3 eexists. split; [apply ent3_intro; [exact B3|exact D3|exact C3]|]. apply S1 in P1.
      split; [|split].
      - exists p1. split; [reflexivity|]. rewrite nth_error_firstn in P1. destruct (Nat.ltb_spec p1 (c + 1)); [|discriminate].
        split; [apply nth_error_some_lt in P1; lia|exact P1].
      - intros k x Hk Hx. apply M1. apply (nth_error_In (firstn (c + 1) vals) k). rewrite nth_error_firstn.
        destruct (Nat.ltb_spec k (c + 1)); [exact Hx|lia].
      - rewrite E1. apply eq_idxs_length. }
    assert (Lo : forall j, j <> c -> ent3 l1 i1 n1 j = ent3 (r_left s) (r_ileft s) (r_nleft s) j).
    { intros j Hj. unfold ent3. rewrite B4, C4, D4 by exact Hj. reflexivity. }
    destruct (Nat.leb_spec (c + 2) (length vals)) as [Hc2|Hc2].
    2:{ cbn [safe]. split; [reflexivity|]; split; [unfold mrs_len; cbn; lia|]. cbn [r_left r_ileft r_nleft r_right r_iright r_nright].
        split; [auto|]. split; [exact Left|]. reflexivity. }
    assert (E2 : lslice vals (c + 1) (length vals) = skipn (c + 1) vals).
    { unfold lslice. rewrite firstn_all2; [reflexivity|]. rewrite skipn_length. lia. }
    destruct (@part_ok (skipn (c + 1) vals)) as (v2 & A2 & I2 & M2 & N2 & S2).
    { intro E. apply (f_equal (@length _)) in E. rewrite skipn_length in E. simpl in E. lia. }
    { eapply no_nan_part; [|exact Hn]. apply in_skipn. }
    rewrite A2. cbn [lift rbind].
    destruct (@setitem_some _ (r_right s) c v2) as (l2 & B1' & B2' & B3' & B4'); [lia|]. rewrite B1'. cbn [lift rbind].
    destruct (@setitem_some _ (r_nright s) c (length (eq_idxs (skipn (c + 1) vals) v2))) as (n2 & C1' & C2' & C3' & C4'); [lia|].
    rewrite C1'. cbn [lift rbind].
    eapply safe_bind; [apply random_pick_safe, N2|]. intros p2 P2.
    destruct (@setitem_some _ (r_iright s) c (Z.of_nat p2 + Z.of_nat c + 1)%Z) as (i2 & D1' & D2' & D3' & D4'); [lia|].
    rewrite D1'. cbn [lift rbind safe]. split; [reflexivity|]; split; [unfold mrs_len; cbn; lia|].
    cbn [r_left r_ileft r_nleft r_right r_iright r_nright].
    split; [intros j Hj; split; [apply Lo, Hj|unfold ent3; rewrite B4', C4', D4' by exact Hj; reflexivity]|].
    split; [exact Left|].
    do 3 eexists. split; [apply ent3_intro; [exact B3'|exact D3'|exact C3']|]. apply S2 in P2. rewrite nth_error_skipn in P2.
    split; [|split].
    - exists (c + 1 + p2). split; [lia|]. split; [apply nth_error_some_lt in P2; lia|exact P2].
    - intros k x Hk Hx. apply M2. apply (nth_error_In (skipn (c + 1) vals) (k - (c + 1))). rewrite nth_error_skipn.
      replace (c + 1 + (k - (c + 1))) with k by lia. exact Hx.
    - rewrite E2. apply eq_idxs_length.
  Qed.

  (** Probability of a row after one column *)
  Lemma safe_true {X} (t : rnd X) P : safe t P -> safe t (fun _ => True).
  Proof. apply safe_impl. auto. Qed.

  Lemma mrs_col_prob_left w s c (vals : list num) rest r v : mrs_len w s -> c < w -> vals <> [] -> no_nan vals ->
    r < c + 1 -> nth_error vals r = Some v -> (forall k x, k < c + 1 -> nth_error vals k = Some x -> fltb x v = false) ->
    (prob (mrs_col s c (vals :: rest)) (fun s' => at_row (Z.of_nat r) (nth_error (r_ileft s') c)) ==
      frac 1 (ties v (lslice vals 0 (Nat.min (c + 1) (length vals)))))%Q.
  Proof.
    intros (L1 & L2 & L3 & L4 & L5 & L6) Hc Hv Hn Hr Hrv Hmin. unfold mrs_col. cbn [row0 lift rbind].
    assert (E1 : lslice vals 0 (Nat.min (c + 1) (length vals)) = firstn (c + 1) vals).
    { unfold lslice. rewrite Nat.sub_0_r. cbn [skipn]. destruct (Nat.le_gt_cases (c + 1) (length vals)).
      - rewrite Nat.min_l by assumption. reflexivity.
      - rewrite Nat.min_r by lia. rewrite !firstn_all2; auto; lia. }
    destruct (@part_ok (firstn (c + 1) vals)) as (v1 & A1 & I1 & M1 & N1 & S1).
    { destruct vals; [congruence|]. rewrite Nat.add_1_r. discriminate. }
    { eapply no_nan_part; [|exact Hn]. apply in_firstn. }
    assert (v1 = v) as ->.
    { assert (Hvin : In v (firstn (c + 1) vals)).
      { apply (nth_error_In _ r). rewrite nth_error_firstn. destruct (Nat.ltb_spec r (c + 1)); [exact Hrv|lia]. }
      pose proof (M1 _ Hvin) as X1. apply In_nth_error in I1. destruct I1 as [k Hk]. rewrite nth_error_firstn in Hk.
      destruct (Nat.ltb_spec k (c + 1)); [|discriminate]. pose proof (Hmin k _ H Hk) as X2.
      apply feqb_finite. unfold feqb.
      assert (isnan v = false) by (apply Hn; eapply nth_error_In; exact Hrv).
      assert (isnan v1 = false) by (apply Hn; eapply nth_error_In; exact Hk).
      rewrite (fltb_false_fleb v v1), (fltb_false_fleb v1 v); auto. }
    rewrite A1. cbn [lift rbind].
    destruct (@setitem_some _ (r_left s) c v) as (l1 & B1 & B2 & B3 & B4); [lia|]. rewrite B1. cbn [lift rbind].
    destruct (@setitem_some _ (r_nleft s) c (length (eq_idxs (firstn (c + 1) vals) v))) as (n1 & C1 & C2 & C3 & C4); [lia|].
    rewrite C1. cbn [lift rbind]. unfold prob. rewrite expect_bind, E1, <- (eq_idxs_length _ 0 v). fold (eq_idxs (firstn (c + 1) vals) v) (eq_idxs (skipn (c + 1) vals) v).
    rewrite <- (@random_pick_prob (eq_idxs (firstn (c + 1) vals) v) r); [|apply eq_idxs_nodup|].
    2:{ apply S1. rewrite nth_error_firstn. destruct (Nat.ltb_spec r (c + 1)); [exact Hrv|lia]. }
    unfold prob. eapply expect_ext; [apply random_pick_safe, N1|]. intros p1 _.
    destruct (@setitem_some _ (r_ileft s) c (Z.of_nat p1)) as (i1 & D1 & D2 & D3 & D4); [lia|]. rewrite D1. cbn [lift rbind].
    assert (Eq : ind (at_row (Z.of_nat r) (nth_error i1 c)) = ind (p1 =? r)).
    { rewrite D3. cbn [at_row]. f_equal. destruct (Nat.eqb_spec p1 r); destruct (Z.eqb_spec (Z.of_nat p1) (Z.of_nat r)); auto; lia. }
    destruct (Nat.leb_spec (c + 2) (length vals)) as [Hc2|Hc2].
    2:{ cbn [expect r_ileft]. rewrite Eq. reflexivity. }
    destruct (@part_ok (skipn (c + 1) vals)) as (v2 & A2 & I2 & M2 & N2 & S2).
    { intro E. apply (f_equal (@length _)) in E. rewrite skipn_length in E. simpl in E. lia. }
    { eapply no_nan_part; [|exact Hn]. apply in_skipn. }
    rewrite A2. cbn [lift rbind].
    destruct (@setitem_some _ (r_right s) c v2) as (l2 & B1' & B2' & B3' & B4'); [lia|]. rewrite B1'. cbn [lift rbind].
    destruct (@setitem_some _ (r_nright s) c (length (eq_idxs (skipn (c + 1) vals) v2))) as (n2 & C1' & C2' & C3' & C4'); [lia|].
    rewrite C1'. cbn [lift rbind]. rewrite expect_bind.
    rewrite (@expect_ext _ _ _ _ (fun _ => ind (p1 =? r)) (@random_pick_safe _ N2)).
    - eapply expect_const. apply random_pick_safe, N2.
    - intros p2 _. destruct (@setitem_some _ (r_iright s) c (Z.of_nat p2 + Z.of_nat c + 1)%Z) as (i2 & D1' & _); [lia|].
      rewrite D1'. cbn [lift rbind expect r_ileft]. rewrite Eq. reflexivity.
  Qed.

  Lemma mrs_col_prob_right w s c (vals : list num) rest r v : mrs_len w s -> c < w -> no_nan vals ->
    c + 1 <= r -> nth_error vals r = Some v -> (forall k x, c + 1 <= k -> nth_error vals k = Some x -> fltb x v = false) ->
    (prob (mrs_col s c (vals :: rest)) (fun s' => at_row (Z.of_nat r) (nth_error (r_iright s') c)) ==
      frac 1 (ties v (lslice vals (c + 1) (length vals))))%Q.
  Proof.
    intros (L1 & L2 & L3 & L4 & L5 & L6) Hc Hn Hr Hrv Hmin. unfold mrs_col. cbn [row0 lift rbind].
    pose proof (nth_error_some_lt _ _ Hrv) as Hrl.
    destruct (@part_ok (firstn (c + 1) vals)) as (v1 & A1 & I1 & M1 & N1 & S1).
    { destruct vals; [simpl in Hrl; lia|]. rewrite Nat.add_1_r. discriminate. }
    { eapply no_nan_part; [|exact Hn]. apply in_firstn. }
    rewrite A1. cbn [lift rbind].
    destruct (@setitem_some _ (r_left s) c v1) as (l1 & B1 & B2 & B3 & B4); [lia|]. rewrite B1. cbn [lift rbind].
    destruct (@setitem_some _ (r_nleft s) c (length (eq_idxs (firstn (c + 1) vals) v1))) as (n1 & C1 & C2 & C3 & C4); [lia|].
    rewrite C1. cbn [lift rbind]. unfold prob. rewrite expect_bind.
    assert (E2 : lslice vals (c + 1) (length vals) = skipn (c + 1) vals).
    { unfold lslice. rewrite firstn_all2; [reflexivity|]. rewrite skipn_length. lia. }
    destruct (@part_ok (skipn (c + 1) vals)) as (v2 & A2 & I2 & M2 & N2 & S2).
    { intro E. apply (f_equal (@length _)) in E. rewrite skipn_length in E. simpl in E. lia. }
    { eapply no_nan_part; [|exact Hn]. apply in_skipn. }
    assert (v2 = v) as ->.
    { assert (Hvin : In v (skipn (c + 1) vals)).
      { apply (nth_error_In _ (r - (c + 1))). rewrite nth_error_skipn. replace (c + 1 + (r - (c + 1))) with r by lia. exact Hrv. }
      pose proof (M2 _ Hvin) as X1. apply In_nth_error in I2. destruct I2 as [k Hk]. rewrite nth_error_skipn in Hk.
      assert (Hle : c + 1 <= c + 1 + k) by lia. pose proof (Hmin _ _ Hle Hk) as X2.
      apply feqb_finite. unfold feqb.
      assert (isnan v = false) by (apply Hn; eapply nth_error_In; exact Hrv).
      assert (isnan v2 = false) by (apply Hn; eapply nth_error_In; exact Hk).
      rewrite (fltb_false_fleb v v2), (fltb_false_fleb v2 v); auto. }
    rewrite (@expect_ext _ _ _ _ (fun _ => frac 1 (ties v (lslice vals (c + 1) (length vals)))) (@random_pick_safe _ N1)).
    { eapply expect_const. apply random_pick_safe, N1. }
    intros p1 _.
    destruct (@setitem_some _ (r_ileft s) c (Z.of_nat p1)) as (i1 & D1 & D2 & D3 & D4); [lia|]. rewrite D1. cbn [lift rbind].
    destruct (Nat.leb_spec (c + 2) (length vals)) as [Hc2|Hc2]; [|lia].
    rewrite A2. cbn [lift rbind].
    destruct (@setitem_some _ (r_right s) c v) as (l2 & B1' & B2' & B3' & B4'); [lia|]. rewrite B1'. cbn [lift rbind].
    destruct (@setitem_some _ (r_nright s) c (length (eq_idxs (skipn (c + 1) vals) v))) as (n2 & C1' & C2' & C3' & C4'); [lia|].
    rewrite C1'. cbn [lift rbind]. rewrite expect_bind, E2, <- (eq_idxs_length _ 0 v). fold (eq_idxs (firstn (c + 1) vals) v) (eq_idxs (skipn (c + 1) vals) v).
    rewrite <- (@random_pick_prob (eq_idxs (skipn (c + 1) vals) v) (r - (c + 1))); [|apply eq_idxs_nodup|].
    2:{ apply S2. rewrite nth_error_skipn. replace (c + 1 + (r - (c + 1))) with r by lia. exact Hrv. }
    unfold prob. eapply expect_ext; [apply random_pick_safe, N2|]. intros p2 _.
    destruct (@setitem_some _ (r_iright s) c (Z.of_nat p2 + Z.of_nat c + 1)%Z) as (i2 & D1' & _ & D3' & _); [lia|].
    rewrite D1'. cbn [lift rbind expect r_iright]. rewrite D3'. cbn [at_row].
    destruct (Nat.eqb_spec p2 (r - (c + 1))); destruct (Z.eqb_spec (Z.of_nat p2 + Z.of_nat c + 1) (Z.of_nat r)); try lia; reflexivity.
  Qed.

  (** ** C39 *)
  Lemma C39_lemma h w (es : list (event num)) : Forall is_diag es -> Forall (fits h w) es -> Forall no_ninf es ->
    safe (mrs_run (mrs_init h w) es) (fun s =>
      forall c, c < w -> exists vl il nl vr ir nr,
        nth_error (r_left s) c = Some vl /\ nth_error (r_ileft s) c = Some il /\ nth_error (r_nleft s) c = Some nl /\
        nth_error (r_right s) c = Some vr /\ nth_error (r_iright s) c = Some ir /\ nth_error (r_nright s) c = Some nr /\
        let a := Z.of_nat c in
        res_ok (sel (is_left a) a (log es)) vl il nl /\ res_ok (sel (is_right a) a (log es)) vr ir nr).
  Proof.
    intros Hd Hf Hni. eapply safe_impl; [|apply mrs_run_safe; eassumption].
    intros s (_ & (_ & _ & _ & H1) & (_ & _ & _ & H2)) c Hc.
    destruct (H1 c Hc) as (vl & il & nl & E1 & R1). destruct (H2 c Hc) as (vr & ir & nr & E2 & R2).
    apply ent3_inv in E1, E2. exists vl, il, nl, vr, ir, nr. intuition.
  Qed.

  Lemma C39_merged_lemma h w (es : list (event num)) : Forall is_diag es -> Forall (fits h w) es -> Forall no_ninf es ->
    safe (rbind (mrs_run (mrs_init h w) es) (fun s => rbind (mrs_idx s) (fun l => Ret (mrs_mp s, l)))) (fun r =>
      length (fst r) = w /\ length (snd r) = w /\
      forall c, c < w -> exists v i n, nth_error (fst r) c = Some v /\ nth_error (snd r) c = Some i /\
        res_ok (sel all_rows (Z.of_nat c) (log es)) v i n).
  Proof.
    intros Hd Hf Hni. eapply safe_bind; [apply mrs_run_safe; eassumption|]. intros s Hok.
    pose proof Hok as (_ & Hl & Hr). pose proof Hl as (A1 & A2 & A3 & Hl'). pose proof Hr as (B1 & B2 & B3 & Hr').
    assert (Hall : safe (mrs_idx s) (fun l => length l = w /\ forall c, c < w ->
        exists i n, nth_error l c = Some i /\ exists v, nth_error (mrs_mp s) c = Some v /\
          res_ok (sel all_rows (Z.of_nat c) (log es)) v i n)).
    { assert (Hc : forall c, c < w -> safe (mrs_idx s) (fun l => length l = w /\
        exists i n, nth_error l c = Some i /\ exists v, nth_error (mrs_mp s) c = Some v /\
          res_ok (sel all_rows (Z.of_nat c) (log es)) v i n)).
      { intros c Hc. destruct (Hl' c Hc) as (vl & il & nl & E1 & R1). destruct (Hr' c Hc) as (vr & ir & nr & E2 & R2).
        eapply safe_impl; [|exact (mrs_idx_safe _ (proj2 (mrs_ok_shape Hok)) E1 E2)]. intros l [Ll H]. split; [exact Ll|].
        destruct (res_ok_merge _ _ R1 R2) as [M1 M2].
        apply ent3_inv in E1, E2.
        assert (Em : nth_error (mrs_mp s) c = Some (merged vl vr)).
        { unfold mrs_mp, merge_mp. rewrite nth_error_zip_with. destruct E1 as [-> _], E2 as [-> _]. reflexivity. }
        destruct (feqb vl vr && negb (nl =? 0)) eqn:Eq; [|eauto 10].
        apply andb_true_iff in Eq. destruct Eq as [Eq En]. apply negb_true_iff, Nat.eqb_neq in En.
        destruct H as [H|H].
        - exists il. eexists. split; [exact H|]. eexists. split; [exact Em|]. apply M2; [exact Eq|].
          destruct R1 as [(_ & _ & -> & _)|(F & _)]; [lia|exact F].
        - exists ir. eexists. split; [exact H|]. eexists. split; [exact Em|].
          assert (fltb vl vr = false) as El.
          { destruct (fltb vl vr) eqn:El; [|reflexivity]. unfold feqb in Eq. rewrite (fltb_fleb_false _ _ El), andb_false_r in Eq. discriminate. }
          rewrite El in M1. exact M1. }
      assert (Hn : forall n, n <= w -> safe (mrs_idx s) (fun l => length l = w /\ forall c, c < n ->
        exists i n, nth_error l c = Some i /\ exists v, nth_error (mrs_mp s) c = Some v /\
          res_ok (sel all_rows (Z.of_nat c) (log es)) v i n)).
      { induction n as [|n IH]; intro Hn.
        - eapply safe_impl; [|unfold mrs_idx; apply merge_draws_safe].
          + intros l [Ll _]. split; [|lia]. rewrite Ll, !length_zip_with. lia.
          + rewrite !length_zip_with. lia.
          + rewrite !length_zip_with. lia.
          + rewrite !length_zip_with. lia.
          + rewrite !length_zip_with. lia.
          + rewrite length_where; rewrite !length_zip_with; lia.
        - assert (Hn' : n < w) by lia.
          eapply safe_impl; [|apply (safe_and _ _ _ (IH ltac:(lia)) (Hc n Hn'))].
          intros l [[Ll H1] [_ H2]]. split; [exact Ll|]. intros c Hcn. destruct (Nat.eq_dec c n) as [->|]; [exact H2|]. apply H1. lia. }
      apply (Hn w). lia. }
    eapply safe_bind; [exact Hall|]. intros l [Ll H]. cbn [safe fst snd].
    split; [unfold mrs_mp, merge_mp; rewrite length_zip_with; lia|]. split; [exact Ll|].
    intros c Hc. destruct (H c Hc) as (i & n & Hi & v & Hv & HR). exists v, i, n. auto.
  Qed.

  (** ** C40 *)
  Lemma C40_left_lemma h w (es : list (event num)) c r v : Forall is_diag es -> Forall (fits h w) es -> Forall no_ninf es -> c < w ->
    let cells := sel (is_left (Z.of_nat c)) (Z.of_nat c) (log es) in
    isfinite v = true -> In v (map snd cells) -> (forall r x, In (r, x) cells -> fltb x v = false) ->
    (prob (mrs_run (mrs_init h w) es) (fun s => at_row r (nth_error (r_ileft s) c)) ==
      frac (count_row r v cells) (count v cells))%Q.
  Proof.
    intros Hd Hf Hni Hc cells F Hin Hm. apply in_map_iff in Hin. destruct Hin as ([i v'] & E & Hin). cbn in E. subst v'.
    apply (@side_uniform _ _ _ h w es true c r v i); auto. right. auto.
  Qed.
  Lemma C40_right_lemma h w (es : list (event num)) c r v : Forall is_diag es -> Forall (fits h w) es -> Forall no_ninf es -> c < w ->
    let cells := sel (is_right (Z.of_nat c)) (Z.of_nat c) (log es) in
    isfinite v = true -> In v (map snd cells) -> (forall r x, In (r, x) cells -> fltb x v = false) ->
    (prob (mrs_run (mrs_init h w) es) (fun s => at_row r (nth_error (r_iright s) c)) ==
      frac (count_row r v cells) (count v cells))%Q.
  Proof.
    intros Hd Hf Hni Hc cells F Hin Hm. apply in_map_iff in Hin. destruct Hin as ([i v'] & E & Hin). cbn in E. subst v'.
    apply (@side_uniform _ _ _ h w es false c r v i); auto. right. auto.
  Qed.

  Lemma count_row_zero r v cells : count v cells = 0 -> count_row r v cells = 0.
  Proof. intro H. pose proof (count_row_le r v cells). lia. Qed.

  Lemma C40_merged_lemma h w (es : list (event num)) c r v : Forall is_diag es -> Forall (fits h w) es -> Forall no_ninf es -> c < w ->
    let cells := sel all_rows (Z.of_nat c) (log es) in
    isfinite v = true -> In v (map snd cells) -> (forall r x, In (r, x) cells -> fltb x v = false) ->
    (prob (rbind (mrs_run (mrs_init h w) es) (@mrs_idx A NA)) (fun l => at_row r (nth_error l c)) ==
      frac (count_row r v cells) (count v cells))%Q.
  Proof.
    intros Hd Hf Hni Hc cells F Hin Hm. apply in_map_iff in Hin. destruct Hin as ([i v'] & E & Hin). cbn in E. subst v'.
    pose proof (mrs_run_safe Hd Hf Hni) as Hs. destruct (safe_ex _ _ Hs) as [s0 (_ & (_ & _ & _ & Hl) & (_ & _ & _ & Hr))].
    destruct (Hl c Hc) as (vl & il & nl & _ & Rl). destruct (Hr c Hc) as (vr & ir & nr & _ & Rr). clear Hl Hr s0.
    set (a := Z.of_nat c) in *.
    destruct (res_ok_merge _ _ Rl Rr) as [Rm _].
    assert (Rv : res_ok cells v i (count v cells)) by (right; auto).
    destruct (res_ok_det Rv Rm) as [Ev En].
    set (g := fun o => ind (at_row r o)).
    unfold prob. rewrite expect_bind.
    rewrite (@expect_ext _ _ _ _ (fun s =>
      if feqb vl vr && negb (nl =? 0) then frac nl (nl + nr) * g (nth_error (r_ileft s) c) + (1 - frac nl (nl + nr)) * g (nth_error (r_iright s) c)
      else if fltb vl vr then g (nth_error (r_ileft s) c) else g (nth_error (r_iright s) c))%Q Hs).
    2:{ intros s Hok. pose proof Hok as (_ & (_ & _ & _ & Hl) & (_ & _ & _ & Hr)).
        destruct (Hl c Hc) as (vl' & il' & nl' & E1 & Rl'). destruct (Hr c Hc) as (vr' & ir' & nr' & E2 & Rr').
        destruct (res_ok_det Rl Rl') as [<- <-]. destruct (res_ok_det Rr Rr') as [<- <-].
        etransitivity; [exact (mrs_idx_expect _ (proj2 (mrs_ok_shape Hok)) E1 E2 g)|]. apply ent3_inv in E1, E2. destruct E1 as (_ & -> & _), E2 as (_ & -> & _).
        destruct (fltb vl vr); reflexivity. }
    unfold cells. rewrite count_row_sides, count_sides.
    destruct (feqb vl vr && negb (nl =? 0)) eqn:Eq.
    - apply andb_true_iff in Eq. destruct Eq as [Eq Enz]. apply negb_true_iff, Nat.eqb_neq in Enz.
      assert (El : fltb vl vr = false).
      { destruct (fltb vl vr) eqn:El; [|reflexivity]. unfold feqb in Eq. rewrite (fltb_fleb_false _ _ El), andb_false_r in Eq. discriminate. }
      unfold merged in Ev. rewrite El in Ev. subst vr. pose proof (feqb_finite _ _ Eq) as ->.
      rewrite expect_plus, !expect_scale. unfold g.
      rewrite (side_uniform true r Hd Hf Hni Hc Rl F), (side_uniform false r Hd Hf Hni Hc Rr F).
      assert (K1 : nl = count v (sel (is_left a) a (log es))).
      { destruct Rl as [(-> & _)|(_ & _ & _ & ->)]; [discriminate|reflexivity]. }
      assert (K2 : nr = count v (sel (is_right a) a (log es))).
      { destruct Rr as [(-> & _)|(_ & _ & _ & ->)]; [discriminate|reflexivity]. }
      rewrite <- K1, <- K2. cbn [side_rows]. apply frac_merge; [lia|].
      destruct Rr as [(-> & _)|(_ & I & _ & ->)]; [discriminate|]. eapply count_pos; [exact I|apply (isfinite_lt _ F)].
    - destruct (fltb vl vr) eqn:El.
      + unfold merged in Ev. rewrite El in Ev. subst vl. unfold g. rewrite (side_uniform true r Hd Hf Hni Hc Rl F).
        rewrite (count_row_zero r v (sel (is_right a) a (log es))) by (eapply count_lt_zero; [exact Rr|exact El]).
        rewrite (count_lt_zero _ Rr El). rewrite !Nat.add_0_r. cbn [side_rows].
        assert (nl = count v (sel (is_left a) a (log es))) as ->; [|reflexivity].
        destruct Rl as [(-> & _)|(_ & _ & _ & ->)]; [discriminate|reflexivity].
      + unfold merged in Ev. rewrite El in Ev. subst vr. unfold g. rewrite (side_uniform false r Hd Hf Hni Hc Rr F).
        assert (Z0 : count v (sel (is_left a) a (log es)) = 0).
        { destruct (feqb vl v) eqn:E2.
          - pose proof (feqb_finite _ _ E2) as ->. cbn [andb] in Eq. apply negb_false_iff, Nat.eqb_eq in Eq. subst nl.
            destruct Rl as [(-> & _)|(_ & I & _ & K)]; [discriminate|].
            pose proof (count_pos _ _ _ I). destruct (isfinite_lt _ F). lia.
          - eapply count_lt_zero; [exact Rl|]. destruct (fltb v vl) eqn:E; [reflexivity|]. exfalso.
            assert (Nl : isnan vl = false) by (destruct Rl as [(-> & _)|(F' & _)]; [reflexivity|apply (isfinite_lt _ F')]).
            destruct (isfinite_lt _ F) as [_ Nv].
            unfold feqb in E2. rewrite (fltb_false_fleb v vl), (fltb_false_fleb vl v) in E2 by assumption. discriminate. }
        rewrite (count_row_zero r _ _ Z0), Z0. cbn [plus side_rows].
        assert (nr = count v (sel (is_right a) a (log es))) as ->; [|reflexivity].
        destruct Rr as [(-> & _)|(_ & _ & _ & ->)]; [discriminate|reflexivity].
  Qed.
End PResCol.
