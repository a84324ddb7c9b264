(** * PDist: proofs about MDist.v *)
From Verif Require Import Np NpFacts Mat MUtil PUtil MProfile MDist SDist SLog PLog PProfile.
Set Implicit Arguments.
Open Scope nat_scope.

Section Latest.
  Context {T : Type}.
  Variable dflt : T.

  (** Computed form *)
  Definition latest_from (v0 : T) (L : list (cell T)) (r c : Z) : T :=
    fold_left (fun acc x => match x with (r', c', v) => if (r' =? r)%Z && (c' =? c)%Z then v else acc end) L v0.

  Lemma latest_from_app v0 L L' r c : latest_from v0 (L ++ L') r c = latest_from (latest_from v0 L r c) L' r c.
  Proof. apply fold_left_app. Qed.
  Lemma latest_from_none L r c : (forall x, ~ In (r, c, x) L) -> forall v0, latest_from v0 L r c = v0.
  Proof.
    induction L as [|[[r' c'] v] L IH]; intros H v0; [reflexivity|]. cbn [latest_from fold_left].
    destruct (Z.eqb_spec r' r) as [->|]; [destruct (Z.eqb_spec c' c) as [->|]|]; cbn [andb].
    - exfalso. apply (H v). left; reflexivity.
    - apply IH. intros x Hx. apply (H x). right; exact Hx.
    - apply IH. intros x Hx. apply (H x). right; exact Hx.
  Qed.
  Lemma latest_is L r c : is_latest L r c dflt (latest_from dflt L r c).
  Proof.
    induction L as [|[[r' c'] v] L IH] using rev_ind; [right; split; [reflexivity|intros x []]|].
    rewrite latest_from_app. cbn [latest_from fold_left].
    destruct (Z.eqb_spec r' r) as [->|Hr]; [destruct (Z.eqb_spec c' c) as [->|Hc]|]; cbn [andb].
    - left. exists L, []. split; [reflexivity|intros x []].
    - destruct IH as [(b & a & E & H)|[E H]].
      + left. exists b, (a ++ [(r, c', v)]). split; [fold (latest_from dflt L r c); rewrite E at 1; rewrite <- app_assoc; reflexivity|].
        intros x Hx. apply in_app_or in Hx. destruct Hx as [Hx|[Hx|[]]]; [eapply H; exact Hx|congruence].
      + right. split; [exact E|]. intros x Hx. apply in_app_or in Hx. destruct Hx as [Hx|[Hx|[]]]; [eapply H; exact Hx|congruence].
    - destruct IH as [(b & a & E & H)|[E H]].
      + left. exists b, (a ++ [(r', c', v)]). split; [fold (latest_from dflt L r c); rewrite E at 1; rewrite <- app_assoc; reflexivity|].
        intros x Hx. apply in_app_or in Hx. destruct Hx as [Hx|[Hx|[]]]; [eapply H; exact Hx|congruence].
      + right. split; [exact E|]. intros x Hx. apply in_app_or in Hx. destruct Hx as [Hx|[Hx|[]]]; [eapply H; exact Hx|congruence].
  Qed.
  Lemma is_latest_unique (L : list (cell T)) r c v w : is_latest L r c dflt v -> is_latest L r c dflt w -> v = w.
  Proof.
    assert (G : forall v, is_latest L r c dflt v -> v = latest_from dflt L r c).
    { intros u [(b & a & -> & H)|[-> H]].
      - rewrite latest_from_app. cbn [latest_from fold_left]. rewrite !Z.eqb_refl. cbn [andb].
        symmetry. apply latest_from_none, H.
      - symmetry. apply latest_from_none, H. }
    intros H1 H2. rewrite (G _ H1), (G _ H2). reflexivity.
  Qed.
End Latest.

Lemma nth_roll_left {T} n (l : list T) i : i < length l ->
  nth_error (roll_left n l) i = nth_error l ((i + n) mod length l).
Proof.
  intro Hi. unfold roll_left. set (k := n mod length l).
  assert (Hk : k < length l) by (apply Nat.mod_upper_bound; lia).
  rewrite nth_error_app, skipn_length. rewrite <- (Nat.add_mod_idemp_r i n) by lia. fold k.
  destruct (Nat.ltb_spec i (length l - k)).
  - rewrite nth_error_skipn, Nat.mod_small by lia. f_equal; lia.
  - rewrite nth_error_firstn. replace ((i + k) mod length l) with (i - (length l - k)).
    + destruct (Nat.ltb_spec (i - (length l - k)) k); [reflexivity|lia].
    + apply (Nat.mod_unique _ _ 1); lia.
Qed.
Lemma length_roll_left {T} n (l : list T) : length (roll_left n l) = length l.
Proof.
  unfold roll_left. destruct l as [|x l]; [rewrite skipn_nil, firstn_nil; reflexivity|]. rewrite app_length, skipn_length, firstn_length.
  assert (n mod length (x :: l) < length (x :: l)) by (apply Nat.mod_upper_bound; discriminate). lia.
Qed.

(** Rolling and then overwriting the tail: a shift. *)
Lemma nth_shift_fill {T} n (l : list T) x i : 0 < n -> i < length l ->
  let r := roll_left n l in
  nth_error (fill_slice r (length r - n) (length r) x) i = if i + n <? length l then nth_error l (i + n) else Some x.
Proof.
  intros Hn Hi r. subst r. rewrite nth_error_fill_slice, length_roll_left.
  destruct (Nat.ltb_spec (i + n) (length l)).
  - destruct (Nat.leb_spec (length l - n) i); [lia|]. cbn [andb]. rewrite nth_roll_left by lia. rewrite Nat.mod_small by lia. reflexivity.
  - destruct (Nat.leb_spec (length l - n) i); [|lia]. destruct (Nat.ltb_spec i (length l)); [|lia]. reflexivity.
Qed.

Section Dist.
  Context {A : Type} {NA : NumOps A}.
  Notation num := (Np.num A).

  Definition dm_ok h w es (m : mat num) : Prop :=
    is_mat h w m /\
    forall i j, i < h -> j < w -> mget m i j = Ok (latest_from NaN (log es) (qshift es + Z.of_nat i) (sshift es + Z.of_nat j)).

  (** Assigning a list of in-range cells acts like the log *)
  Lemma fancy_fold h w qs ss : forall (xs : list (cell num)) (m : mat num), is_mat h w m ->
    (forall r c v, In (r, c, v) xs -> (0 <= r < Z.of_nat h)%Z /\ (0 <= c < Z.of_nat w)%Z) ->
    exists m', foldM (fun m x => match x with (r, c, v) => mset m (Z.to_nat r) (Z.to_nat c) v end) xs m = Ok m' /\
      is_mat h w m' /\
      forall i j v0, i < h -> j < w -> mget m i j = Ok v0 ->
        mget m' i j = Ok (latest_from v0 (map (fun x => match x with (r, c, v) => (qs + r, ss + c, v)%Z end) xs) (qs + Z.of_nat i) (ss + Z.of_nat j)).
  Proof.
    induction xs as [|[[r c] v] xs IH]; intros m M H.
    - exists m. split; [reflexivity|]. split; [exact M|]. auto.
    - destruct (H r c v (or_introl eq_refl)) as [Hr Hc].
      destruct (@mset_spec _ h w m (Z.to_nat r) (Z.to_nat c) v M) as (m1 & E1 & M1 & G1); [lia|lia|].
      destruct (IH m1 M1) as (m' & E' & M' & G'); [intros; eapply H; right; eassumption|].
      exists m'. split; [cbn [foldM]; rewrite E1; cbn [bind]; exact E'|]. split; [exact M'|].
      intros i j v0 Hi Hj Hv0. cbn [map latest_from fold_left].
      apply G'; auto. rewrite G1.
      replace (qs + r =? qs + Z.of_nat i)%Z with (i =? Z.to_nat r) by (destruct (Nat.eqb_spec i (Z.to_nat r)), (Z.eqb_spec (qs + r) (qs + Z.of_nat i)); try reflexivity; lia).
      replace (ss + c =? ss + Z.of_nat j)%Z with (j =? Z.to_nat c) by (destruct (Nat.eqb_spec j (Z.to_nat c)), (Z.eqb_spec (ss + c) (ss + Z.of_nat j)); try reflexivity; lia).
      destruct ((i =? Z.to_nat r) && (j =? Z.to_nat c)); [reflexivity|exact Hv0].
  Qed.

  Lemma ncols_is_mat h w (m : mat num) : is_mat h w m -> 0 < h -> ncols m = w.
  Proof. intros [L R] Hh. destruct m as [|r m]; simpl in *; [lia|]. apply R. left; reflexivity. Qed.

  Lemma event_cells_from (qs ss d : Z) (vals : list num) :
    diag_cells qs ss d vals = map (fun x => match x with (r, c, v) => (qs + r, ss + c, v)%Z end)
      (mapi (fun k v => (Z.max 0 (- d) + Z.of_nat k, Z.max 0 d + Z.of_nat k, v)%Z) vals).
  Proof.
    unfold diag_cells, mapi. generalize 0 as k. induction vals as [|v vals IH]; intro k; [reflexivity|].
    cbn [mapi_from map]. rewrite IH. f_equal. f_equal. f_equal; lia.
  Qed.
  Lemma col_cells_from (qs ss : Z) c (vals : list num) :
    col_cells qs ss c vals = map (fun x => match x with (r, c, v) => (qs + r, ss + c, v)%Z end)
      (mapi (fun k v => (Z.of_nat k, Z.of_nat c, v)%Z) vals).
  Proof.
    unfold col_cells, mapi. generalize 0 as k. induction vals as [|v vals IH]; intro k; [reflexivity|].
    cbn [mapi_from map]. rewrite IH. reflexivity.
  Qed.

  Lemma combine_mapi {U V} (f : nat -> U) (l : list V) : forall k,
    combine (map f (seq k (length l))) l = mapi_from (fun i v => (f i, v)) k l.
  Proof. induction l as [|x l IH]; intro k; [reflexivity|]. simpl. rewrite IH. reflexivity. Qed.

  Lemma firstn_arange n a m : n <= m -> firstn n (arange a m) = arange a n.
  Proof.
    intro H. apply nth_error_ext. intro i. rewrite nth_error_firstn, !nth_error_arange.
    destruct (Nat.ltb_spec i n), (Nat.ltb_spec i m); try reflexivity; lia.
  Qed.

  Lemma dm_diag_ok h w es (m : mat num) d vs : dm_ok h w es m -> fits h w (EDiag d vs) ->
    exists m', dm_diag m d vs = Ok m' /\ dm_ok h w (es ++ [EDiag d vs]) m'.
  Proof.
    intros [M G] (Hd & vals & rest & -> & H1 & H2). unfold dm_diag. cbn [row0 bind].
    set (xs := mapi (fun k (v : num) => (Z.max 0 (- d) + Z.of_nat k, Z.max 0 d + Z.of_nat k, v)%Z) vals).
    assert (Ec : combine (firstn (length vals) (fst (diag_indices_of m d))) (firstn (length vals) (snd (diag_indices_of m d)))
       = map (fun k => (Z.max 0 (- d) + Z.of_nat k, Z.max 0 d + Z.of_nat k)%Z) (seq 0 (length vals))).
    { destruct (Nat.eq_dec (length vals) 0) as [E|E]; [rewrite E; reflexivity|].
      unfold diag_indices_of. rewrite (proj1 M), (ncols_is_mat M) by lia. unfold diag_indices, diag_length, pyrange.
      destruct (Z.leb_spec 0 d); cbn [fst snd]; rewrite !firstn_arange by lia; rewrite combine_range; apply map_ext; intro k; f_equal; lia. }
    rewrite Ec. unfold fancy_set. rewrite map_length, seq_length, Nat.eqb_refl, combine_mapi. fold (mapi (fun i (v : num) => ((Z.max 0 (- d) + Z.of_nat i)%Z, (Z.max 0 d + Z.of_nat i)%Z, v)) vals). fold xs.
    destruct (@fancy_fold h w (qshift es) (sshift es) xs m M) as (m' & E & M' & G').
    - intros r c v Hi. apply in_mapi in Hi. destruct Hi as (k & x & Hk & E). injection E as -> -> ->.
      apply nth_error_some_lt in Hk. lia.
    - exists m'. split; [exact E|]. split; [exact M'|]. intros i j Hi Hj. rewrite (G' i j _ Hi Hj (G i j Hi Hj)).
      rewrite log_snoc, qshift_app, sshift_app, latest_from_app. cbn [event_cells qshift sshift event_qshift event_sshift].
      rewrite event_cells_from, !Z.add_0_r. reflexivity.
  Qed.

  Lemma dm_col_ok h w es (m : mat num) c vs : dm_ok h w es m -> fits h w (ECol c vs) ->
    exists m', dm_col m c vs = Ok m' /\ dm_ok h w (es ++ [ECol c vs]) m'.
  Proof.
    intros [M G] (Hc & vals & rest & -> & H1 & H2). unfold dm_col. cbn [row0 bind].
    rewrite (ncols_is_mat M) by lia. destruct (Nat.leb_spec w c); [lia|].
    rewrite (proj1 M), Nat.min_l by lia. unfold fancy_set. rewrite map_length, seq_length, Nat.eqb_refl, combine_mapi.
    set (xs := mapi_from _ 0 vals).
    destruct (@fancy_fold h w (qshift es) (sshift es) xs m M) as (m' & E & M' & G').
    - intros r c' v Hi. apply (in_mapi (fun i (v : num) => (Z.of_nat i, Z.of_nat c, v))) in Hi. destruct Hi as (k & x & Hk & E). injection E as -> -> ->.
      apply nth_error_some_lt in Hk. lia.
    - exists m'. split; [exact E|]. split; [exact M'|]. intros i j Hi Hj. rewrite (G' i j _ Hi Hj (G i j Hi Hj)).
      rewrite log_snoc, qshift_app, sshift_app, latest_from_app. cbn [event_cells qshift sshift event_qshift event_sshift].
      rewrite col_cells_from, !Z.add_0_r. reflexivity.
  Qed.

  Lemma latest_out h w (es : list (event num)) r c v0 : Forall (fits h w) es ->
    (qshift es + Z.of_nat h <= r \/ sshift es + Z.of_nat w <= c)%Z -> latest_from v0 (log es) r c = v0.
  Proof.
    intros Hf H. apply latest_from_none. intros x Hx. pose proof (log_bound Hf _ _ _ Hx). lia.
  Qed.

  Lemma dm_shift_series_ok h w es (m : mat num) n : Forall (fits h w) es -> dm_ok h w es m ->
    exists m', dm_shift_series m n = Ok m' /\ dm_ok h w (es ++ [EShiftS n]) m'.
  Proof.
    intros Hf [M G]. unfold dm_shift_series.
    assert (Go : forall m', (is_mat h w m' /\ forall i j, i < h -> j < w -> mget m' i j =
       if j + n <? w then mget m i (j + n) else Ok NaN) -> dm_ok h w (es ++ [EShiftS n]) m').
    { intros m' [M' G']. split; [exact M'|]. intros i j Hi Hj. rewrite (G' i j Hi Hj).
      rewrite log_snoc, app_nil_r, qshift_app, sshift_app. cbn [qshift sshift event_qshift event_sshift]. rewrite !Z.add_0_r.
      destruct (Nat.ltb_spec (j + n) w).
      - rewrite G by lia. f_equal. f_equal; lia.
      - f_equal. symmetry. eapply latest_out; [exact Hf|]. right. lia. }
    destruct (Nat.eqb_spec n 0) as [->|Hn].
    - exists m. split; [reflexivity|]. apply Go. split; [exact M|]. intros i j Hi Hj. rewrite Nat.add_0_r.
      destruct (Nat.ltb_spec j w); [reflexivity|lia].
    - eexists; split; [reflexivity|]. apply Go. split; [split|].
      + rewrite map_length. apply M.
      + intros r Hr. apply in_map_iff in Hr. destruct Hr as (r0 & <- & Hr0). rewrite length_fill_slice, length_roll_left. apply M, Hr0.
      + intros i j Hi Hj. unfold mget, getitem. destruct (@nth_error_lt_some _ m i) as [r Hr]; [rewrite (proj1 M); exact Hi|].
        pose proof (is_mat_row _ M Hr) as Lr. rewrite nth_error_map, Hr. cbn [option_map bind].
        pose proof (@nth_shift_fill _ n r NaN j) as E. cbv zeta in E. rewrite E by lia. rewrite Lr. destruct (j + n <? w); reflexivity.
  Qed.

  Lemma dm_shift_query_ok h w es (m : mat num) n : Forall (fits h w) es -> dm_ok h w es m ->
    exists m', dm_shift_query m n = Ok m' /\ dm_ok h w (es ++ [EShiftQ n]) m'.
  Proof.
    intros Hf [M G]. unfold dm_shift_query.
    assert (Go : forall m', (is_mat h w m' /\ forall i j, i < h -> j < w -> mget m' i j =
       if i + n <? h then mget m (i + n) j else Ok NaN) -> dm_ok h w (es ++ [EShiftQ n]) m').
    { intros m' [M' G']. split; [exact M'|]. intros i j Hi Hj. rewrite (G' i j Hi Hj).
      rewrite log_snoc, app_nil_r, qshift_app, sshift_app. cbn [qshift sshift event_qshift event_sshift]. rewrite !Z.add_0_r.
      destruct (Nat.ltb_spec (i + n) h).
      - rewrite G by lia. f_equal. f_equal; lia.
      - f_equal. symmetry. eapply latest_out; [exact Hf|]. left. lia. }
    destruct (Nat.eqb_spec n 0) as [->|Hn].
    - exists m. split; [reflexivity|]. apply Go. split; [exact M|]. intros i j Hi Hj. rewrite Nat.add_0_r.
      destruct (Nat.ltb_spec i h); [reflexivity|lia].
    - eexists; split; [reflexivity|]. apply Go.
      assert (GG : forall i, i < h -> nth_error (fill_slice (roll_left n m) (length (roll_left n m) - n) (length (roll_left n m)) (repeat NaN (ncols m))) i =
         if i + n <? h then nth_error m (i + n) else Some (repeat NaN w)).
      { intros i Hi. pose proof (@nth_shift_fill _ n m (repeat NaN (ncols m)) i) as E. cbv zeta in E. rewrite E by (rewrite ?(proj1 M); lia).
        rewrite (proj1 M), (ncols_is_mat M) by lia. reflexivity. }
      split; [split|].
      + rewrite length_fill_slice, length_roll_left. apply M.
      + intros r Hr. apply In_nth_error in Hr. destruct Hr as [i Hi]. rewrite GG in Hi.
        * destruct (i + n <? h); [exact (is_mat_row _ M Hi)|]. injection Hi as <-. apply repeat_length.
        * apply nth_error_some_lt in Hi. rewrite length_fill_slice, length_roll_left, (proj1 M) in Hi. exact Hi.
      + intros i j Hi Hj. unfold mget, getitem. rewrite GG by exact Hi. destruct (i + n <? h); [reflexivity|].
        cbn [bind]. rewrite nth_error_repeat'. destruct (Nat.ltb_spec j w); [reflexivity|lia].
  Qed.

  Lemma dm_run_ok h w : forall es, Forall (fits h w) es ->
    exists m0 m, dm_init 1 h w = Ok m0 /\ dm_run m0 es = Ok m /\ dm_ok h w es m.
  Proof.
    induction es as [|e es IH] using rev_ind; intro Hf.
    - do 2 eexists. split; [reflexivity|]. split; [reflexivity|]. split; [split; [apply repeat_length|]|].
      + intros r Hr. apply repeat_spec in Hr. subst r. apply repeat_length.
      + intros i j Hi Hj. apply mget_ok. exists (repeat NaN w). rewrite !nth_error_repeat'.
        destruct (Nat.ltb_spec i h); [|lia]. destruct (Nat.ltb_spec j w); [|lia]. auto.
    - apply Forall_app in Hf. destruct Hf as [Hf He]. inversion He as [|? ? He' _]; subst.
      destruct (IH Hf) as (m0 & m & E0 & E & G).
      assert (exists m', dm_step m e = Ok m' /\ dm_ok h w (es ++ [e]) m') as (m' & E' & G').
      { destruct e; cbn [dm_step].
        - apply dm_diag_ok; assumption.
        - apply dm_col_ok; assumption.
        - apply dm_shift_series_ok; assumption.
        - apply dm_shift_query_ok; assumption. }
      exists m0, m'. split; [exact E0|]. split; [unfold dm_run in *; rewrite foldM_app, E; cbn [bind foldM]; rewrite E'; reflexivity|exact G'].
  Qed.

  Lemma C45_lemma h w (es : list (event num)) : Forall (fits h w) es ->
    exists m0 m, dm_init 1 h w = Ok m0 /\ dm_run m0 es = Ok m /\ is_mat h w m /\
      forall i j, i < h -> j < w -> exists v, mget m i j = Ok v /\
        is_latest (log es) (qshift es + Z.of_nat i) (sshift es + Z.of_nat j) NaN v.
  Proof.
    intro Hf. destruct (dm_run_ok Hf) as (m0 & m & E0 & E & M & G). exists m0, m. repeat (split; [assumption|]).
    intros i j Hi Hj. eexists. split; [apply G; assumption|]. apply latest_is.
  Qed.

  Lemma C45_complete_lemma h w D (es : list (event num)) : Forall (fits h w) es -> Forall no_shift es ->
    agrees D (log es) -> covers h w (log es) ->
    exists m0 m, dm_init 1 h w = Ok m0 /\ dm_run m0 es = Ok m /\ is_mat h w m /\
      forall i j, i < h -> j < w -> mget m i j = Ok (D (Z.of_nat i) (Z.of_nat j)).
  Proof.
    intros Hf Hn Ha Hc. destruct (C45_lemma Hf) as (m0 & m & E0 & E & M & G). exists m0, m. repeat (split; [assumption|]).
    intros i j Hi Hj. destruct (G i j Hi Hj) as (v & -> & Hv). destruct (no_shift_qs Hn) as [-> ->] in Hv. f_equal.
    destruct Hv as [(b & a & EL & _)|[_ Hno]].
    - apply Ha. cbn [Z.add] in EL. rewrite EL. apply in_or_app. right. left. reflexivity.
    - destruct (Hc (Z.of_nat i) (Z.of_nat j)) as [x Hx]; [lia|lia|]. destruct (Hno x Hx).
  Qed.
End Dist.
