(** * PLog: facts about delivery logs and running minima. *)
From Verif Require Import Np NpFacts Mat SLog.
Set Implicit Arguments.
Open Scope Z_scope.

Section Log.
  Context {T : Type}.

  Lemma length_mapi_from {U V} (f : nat -> U -> V) k l : length (mapi_from f k l) = length l.
  Proof. revert k; induction l; intro k; simpl; auto. Qed.

  Lemma nth_error_mapi_from {U V} (f : nat -> U -> V) l : forall k i,
    nth_error (mapi_from f k l) i = option_map (f (k + i)%nat) (nth_error l i).
  Proof.
    induction l as [|x l IH]; intros k i; destruct i as [|i]; simpl; try reflexivity.
    - rewrite Nat.add_0_r. reflexivity.
    - rewrite IH. f_equal. f_equal. lia.
  Qed.
  Lemma nth_error_mapi {U V} (f : nat -> U -> V) l i :
    nth_error (mapi f l) i = option_map (f i) (nth_error l i).
  Proof. unfold mapi. rewrite nth_error_mapi_from. reflexivity. Qed.
  Lemma length_mapi {U V} (f : nat -> U -> V) l : length (mapi f l) = length l.
  Proof. apply length_mapi_from. Qed.
  Lemma mapi_from_app {U V} (f : nat -> U -> V) l1 : forall k l2,
    mapi_from f k (l1 ++ l2) = mapi_from f k l1 ++ mapi_from f (k + length l1)%nat l2.
  Proof.
    induction l1 as [|x l1 IH]; intros k l2; simpl; [rewrite Nat.add_0_r; reflexivity|].
    rewrite IH. f_equal. f_equal. f_equal. lia.
  Qed.
  Lemma mapi_from_ext {U V} (f g : nat -> U -> V) l : forall k j,
    (forall i x, nth_error l i = Some x -> f (k + i)%nat x = g (j + i)%nat x) ->
    mapi_from f k l = mapi_from g j l.
  Proof.
    induction l as [|x l IH]; intros k j H; simpl; [reflexivity|]. f_equal.
    - rewrite <- (Nat.add_0_r k), <- (Nat.add_0_r j). apply H. reflexivity.
    - apply IH. intros i y Hy. replace (S k + i)%nat with (k + S i)%nat by lia.
      replace (S j + i)%nat with (j + S i)%nat by lia. apply H. exact Hy.
  Qed.
  Lemma in_mapi {U V} (f : nat -> U -> V) l y :
    In y (mapi f l) <-> exists i x, nth_error l i = Some x /\ y = f i x.
  Proof.
    split.
    - intro H. apply In_nth_error in H. destruct H as [i H]. rewrite nth_error_mapi in H.
      destruct (nth_error l i) as [x|] eqn:E; [|discriminate]. exists i, x. split; [exact E|].
      injection H as <-. reflexivity.
    - intros (i & x & E & ->). apply nth_error_In with i. rewrite nth_error_mapi, E. reflexivity.
  Qed.

  Lemma qshift_app (es es' : list (event T)) : qshift (es ++ es') = qshift es + qshift es'.
  Proof. induction es; simpl; lia. Qed.
  Lemma sshift_app (es es' : list (event T)) : sshift (es ++ es') = sshift es + sshift es'.
  Proof. induction es; simpl; lia. Qed.
  Lemma qshift_nonneg (es : list (event T)) : 0 <= qshift es.
  Proof. induction es as [|[]]; simpl; lia. Qed.
  Lemma sshift_nonneg (es : list (event T)) : 0 <= sshift es.
  Proof. induction es as [|[]]; simpl; lia. Qed.

  Lemma log_from_app (es es' : list (event T)) : forall qs ss,
    log_from qs ss (es ++ es') = log_from qs ss es ++ log_from (qs + qshift es) (ss + sshift es) es'.
  Proof.
    induction es as [|e es IH]; intros qs ss; simpl.
    - rewrite !Z.add_0_r. reflexivity.
    - rewrite IH, app_assoc. f_equal. f_equal; lia.
  Qed.
  Lemma log_snoc (es : list (event T)) e :
    log (es ++ [e]) = log es ++ event_cells (qshift es) (sshift es) e.
  Proof. unfold log. rewrite log_from_app. simpl. rewrite app_nil_r. reflexivity. Qed.

  Lemma no_shift_qs (es : list (event T)) : Forall no_shift es -> qshift es = 0 /\ sshift es = 0.
  Proof.
    induction 1 as [|e es He _ [IH1 IH2]]; simpl; [auto|].
    destruct e; simpl in *; try contradiction; lia.
  Qed.

  Lemma sel_app P a (L L' : list (cell T)) : sel P a (L ++ L') = sel P a L ++ sel P a L'.
  Proof. unfold sel. rewrite filter_app, map_app. reflexivity. Qed.

  Lemma in_sel P a (L : list (cell T)) r v : In (r, v) (sel P a L) <-> In (r, a, v) L /\ P r = true.
  Proof.
    unfold sel. rewrite in_map_iff. split.
    - intros ([[r' c] v'] & E & H). injection E as -> ->. apply filter_In in H. destruct H as [H1 H2].
      apply andb_true_iff in H2. destruct H2 as [H2 H3]. apply Z.eqb_eq in H2. subst c. auto.
    - intros [H1 H2]. exists (r, a, v). split; [reflexivity|]. apply filter_In. split; [exact H1|].
      rewrite Z.eqb_refl. exact H2.
  Qed.

  (** The part of a diagonal that lies in one column: at most one cell. *)
  Lemma sel_diag P a qs ss d (vals : list T) :
    sel P a (diag_cells qs ss d vals) =
    let k := a - ss - Z.max 0 d in
    if 0 <=? k then
      match nth_error vals (Z.to_nat k) with
      | Some v => if P (qs + Z.max 0 (- d) + k) then [(qs + Z.max 0 (- d) + k, v)] else []
      | None => []
      end
    else [].
  Proof.
    cbv zeta. unfold diag_cells, mapi.
    enough (G : forall j, sel P a (mapi_from (fun k v => (qs + Z.max 0 (- d) + Z.of_nat k, ss + Z.max 0 d + Z.of_nat k, v)) j vals) =
      let k := a - ss - Z.max 0 d in
      if Z.of_nat j <=? k then
      match nth_error vals (Z.to_nat k - j) with
      | Some v => if P (qs + Z.max 0 (- d) + k) then [(qs + Z.max 0 (- d) + k, v)] else []
      | None => []
      end
      else []) by (rewrite (G 0%nat); cbv zeta; rewrite Nat.sub_0_r; reflexivity).
    cbv zeta. set (kk := a - ss - Z.max 0 d).
    induction vals as [|v vals IH]; intro j.
    - cbn [mapi_from sel filter map]. destruct (Z.of_nat j <=? kk); [|reflexivity].
      destruct (Z.to_nat kk - j)%nat; reflexivity.
    - change (mapi_from (fun k v0 => (qs + Z.max 0 (- d) + Z.of_nat k, ss + Z.max 0 d + Z.of_nat k, v0)) j (v :: vals))
        with ([(qs + Z.max 0 (- d) + Z.of_nat j, ss + Z.max 0 d + Z.of_nat j, v)] ++
              mapi_from (fun k v0 => (qs + Z.max 0 (- d) + Z.of_nat k, ss + Z.max 0 d + Z.of_nat k, v0)) (S j) vals).
      rewrite sel_app, IH. unfold sel. cbn [filter].
      destruct (Z.eqb_spec (ss + Z.max 0 d + Z.of_nat j) a) as [E|E].
      + assert (Ek : kk = Z.of_nat j) by (unfold kk; lia).
        destruct (Z.leb_spec (Z.of_nat (S j)) kk); [lia|].
        destruct (Z.leb_spec (Z.of_nat j) kk); [|lia].
        replace (Z.to_nat kk - j)%nat with 0%nat by lia. cbn [nth_error andb].
        rewrite Ek. destruct (P (qs + Z.max 0 (- d) + Z.of_nat j)); reflexivity.
      + cbn [andb map app].
        assert (Ek : kk <> Z.of_nat j) by (unfold kk; lia).
        destruct (Z.leb_spec (Z.of_nat (S j)) kk); destruct (Z.leb_spec (Z.of_nat j) kk); try lia; try reflexivity.
        replace (Z.to_nat kk - j)%nat with (S (Z.to_nat kk - S j)) by lia. reflexivity.
  Qed.

  Lemma sel_col P a qs ss c (vals : list T) :
    sel P a (col_cells qs ss c vals) =
    if ss + Z.of_nat c =? a then filter (fun x => P (fst x)) (mapi (fun k v => (qs + Z.of_nat k, v)) vals) else [].
  Proof.
    unfold col_cells, mapi. generalize 0%nat as j.
    induction vals as [|v vals IH]; intro j; cbn [mapi_from].
    - simpl. destruct (_ =? a); reflexivity.
    - change ((qs + Z.of_nat j, ss + Z.of_nat c, v) ::
        mapi_from (fun k v0 => (qs + Z.of_nat k, ss + Z.of_nat c, v0)) (S j) vals)
        with ([(qs + Z.of_nat j, ss + Z.of_nat c, v)] ++
        mapi_from (fun k v0 => (qs + Z.of_nat k, ss + Z.of_nat c, v0)) (S j) vals).
      rewrite sel_app, IH. unfold sel. cbn [filter fst].
      destruct (ss + Z.of_nat c =? a); cbn [andb]; [|reflexivity].
      destruct (P (qs + Z.of_nat j)); reflexivity.
  Qed.

  (** Rows of a column on or above / below the main diagonal are an initial / final segment. *)
  Lemma filter_rows (qs b : Z) (vals : list T) j :
    filter (fun x => fst x <=? b) (mapi_from (fun k v => (qs + Z.of_nat k, v)) j vals) =
    mapi_from (fun k v => (qs + Z.of_nat k, v)) j (firstn (Z.to_nat (b - qs + 1) - j) vals) /\
    filter (fun x => negb (fst x <=? b)) (mapi_from (fun k v => (qs + Z.of_nat k, v)) j vals) =
    mapi_from (fun k v => (qs + Z.of_nat k, v)) (j + (Z.to_nat (b - qs + 1) - j))%nat (skipn (Z.to_nat (b - qs + 1) - j) vals).
  Proof.
    revert j; induction vals as [|v vals IH]; intro j.
    - rewrite firstn_nil, skipn_nil. auto.
    - cbn [mapi_from filter fst]. destruct (IH (S j)) as [I1 I2]. rewrite I1, I2. clear IH I1 I2.
      destruct (Z.leb_spec (qs + Z.of_nat j) b); cbn [negb].
      + replace (Z.to_nat (b - qs + 1) - j)%nat with (S (Z.to_nat (b - qs + 1) - S j)) by lia.
        cbn [firstn skipn mapi_from]. split; [reflexivity|]. f_equal. lia.
      + replace (Z.to_nat (b - qs + 1) - j)%nat with 0%nat by lia.
        replace (Z.to_nat (b - qs + 1) - S j)%nat with 0%nat by lia.
        cbn [firstn skipn mapi_from]. split; [reflexivity|]. rewrite !Nat.add_0_r. reflexivity.
  Qed.

  Lemma sel_col_left qs ss c (vals : list T) :
    sel (is_left (ss + Z.of_nat c)) (ss + Z.of_nat c) (col_cells qs ss c vals) =
    mapi (fun k v => (qs + Z.of_nat k, v)) (firstn (Z.to_nat (Z.max 0 (Z.of_nat c + 1 + (ss - qs)))) vals).
  Proof.
    rewrite sel_col, Z.eqb_refl. unfold is_left, mapi.
    destruct (filter_rows qs (ss + Z.of_nat c) vals 0) as [E _]. rewrite E, Nat.sub_0_r.
    f_equal. f_equal. lia.
  Qed.
  Lemma sel_col_right qs ss c (vals : list T) :
    sel (is_right (ss + Z.of_nat c)) (ss + Z.of_nat c) (col_cells qs ss c vals) =
    let b := Z.to_nat (Z.max 0 (Z.of_nat c + 1 + (ss - qs))) in
    mapi (fun k v => (qs + Z.of_nat b + Z.of_nat k, v)) (skipn b vals).
  Proof.
    cbv zeta. rewrite sel_col, Z.eqb_refl. unfold is_right, mapi.
    destruct (filter_rows qs (ss + Z.of_nat c) vals 0) as [_ E]. rewrite E, Nat.sub_0_r.
    replace (Z.to_nat (ss + Z.of_nat c - qs + 1)) with (Z.to_nat (Z.max 0 (Z.of_nat c + 1 + (ss - qs)))) by lia.
    apply mapi_from_ext. intros i x _. f_equal. lia.
  Qed.
End Log.

Section BestFacts.
  Context {A : Type} {NA : NumOps A} {OL : OrdLaws A}.
  Notation num := (Np.num A).

  (** Running minimum *)
  Definition bstep (b : num * Z) (x : Z * num) : num * Z :=
    if fltb (snd x) (fst b) then (snd x, fst x) else b.
  Definition best_from (b : num * Z) (cells : list (Z * num)) : num * Z := fold_left bstep cells b.
  Definition best (cells : list (Z * num)) : num * Z := best_from (PInf, -1) cells.

  Lemma best_app l1 l2 : best (l1 ++ l2) = best_from (best l1) l2.
  Proof. unfold best, best_from. apply fold_left_app. Qed.

  Lemma best_first cells : is_first_best cells (fst (best cells)) (snd (best cells)).
  Proof.
    induction cells as [|[r x] cells IH] using rev_ind.
    - left. simpl. split; [reflexivity|split; [reflexivity|]]. intros ? ? [].
    - rewrite best_app. unfold best_from. simpl. unfold bstep at 1 2. simpl.
      destruct (best cells) as [v i] eqn:Eb. simpl in IH. simpl.
      destruct (fltb x v) eqn:Ex.
      + right. simpl. assert (Hx : fltb x PInf = true).
        { destruct IH as [(-> & _)|[H _]]; [exact Ex|]. eapply fltb_trans; eassumption. }
        split; [exact Hx|]. exists cells, []. split; [reflexivity|]. split; [|intros ? ? []].
        destruct IH as [(-> & -> & H)|[H (p & s & -> & H1 & H2)]].
        * intros r' x' Hi. specialize (H _ _ Hi). destruct (fleb x' x) eqn:E; [|reflexivity].
          rewrite (fleb_fltb_trans _ _ _ E Hx) in H. discriminate.
        * intros r' x' Hi. destruct (fleb x' x) eqn:E; [|reflexivity].
          pose proof (fleb_fltb_trans _ _ _ E Ex) as E2.
          apply in_app_or in Hi. destruct Hi as [Hi|[Hi|Hi]].
          -- pose proof (fltb_fleb _ _ E2) as E3. rewrite (H1 _ _ Hi) in E3. discriminate.
          -- injection Hi as <- <-. rewrite fltb_irrefl in E2. discriminate.
          -- rewrite (H2 _ _ Hi) in E2. discriminate.
      + simpl. destruct IH as [(-> & -> & H)|[H (p & s & -> & H1 & H2)]].
        * left. split; [reflexivity|split; [reflexivity|]]. intros r' x' Hi. apply in_app_or in Hi.
          destruct Hi as [Hi|[Hi|[]]]; [eapply H; exact Hi|]. injection Hi as <- <-. exact Ex.
        * right. split; [exact H|]. exists p, (s ++ [(r, x)]). split; [rewrite <- app_assoc; reflexivity|].
          split; [exact H1|]. intros r' x' Hi. apply in_app_or in Hi.
          destruct Hi as [Hi|[Hi|[]]]; [eapply H2; exact Hi|]. injection Hi as <- <-. exact Ex.
  Qed.

  Lemma first_best_best cells v i : is_first_best cells v i -> is_best cells v i.
  Proof.
    intros [(-> & -> & H)|[H (p & s & -> & H1 & H2)]]; [left; auto|]. right.
    split; [exact H|]. split; [apply in_or_app; right; left; reflexivity|].
    intros r x Hi. apply in_app_or in Hi. destruct Hi as [Hi|[Hi|Hi]].
    - specialize (H1 _ _ Hi). destruct (fltb x v) eqn:E; [|reflexivity].
      apply fltb_fleb in E. congruence.
    - injection Hi as <- <-. apply fltb_irrefl.
    - eapply H2; exact Hi.
  Qed.

  (** The first best is unique. *)
  Lemma first_best_unique cells v i v' i' :
    is_first_best cells v i -> is_first_best cells v' i' -> v = v' /\ i = i'.
  Proof.
    intros H1 H2.
    assert (Hb1 := first_best_best H1). assert (Hb2 := first_best_best H2).
    destruct H1 as [(-> & -> & H1)|[H1 (p & s & E1 & P1 & S1)]];
      destruct H2 as [(-> & -> & H2)|[H2 (p' & s' & E2 & P2 & S2)]].
    - auto.
    - destruct Hb2 as [[-> _]|(_ & Hi & _)]; [discriminate H2|]. rewrite (H1 _ _ Hi) in H2. discriminate.
    - destruct Hb1 as [[-> _]|(_ & Hi & _)]; [discriminate H1|]. rewrite (H2 _ _ Hi) in H1. discriminate.
    - assert (V : v = v').
      { destruct Hb1 as [[-> _]|(_ & I1 & M1)]; [discriminate H1|].
        destruct Hb2 as [[-> _]|(_ & I2 & M2)]; [discriminate H2|].
        destruct (fltb_nonnan _ _ H1) as [N1 _]. destruct (fltb_nonnan _ _ H2) as [N2 _].
        apply fle_antisym; apply fltb_false_fleb; eauto. }
      subst v'. split; [reflexivity|]. subst cells.
      destruct (fltb_nonnan _ _ H1) as [N1 _].
      clear Hb1 Hb2. revert p' P2 E2. induction p as [|[r x] p IH]; intros p' P2 E2.
      + destruct p' as [|[r' x'] p']; simpl in E2; injection E2; [intros; congruence|].
        intros _ -> ->. pose proof (P2 r' x' (or_introl eq_refl)) as Q. rewrite fleb_refl in Q by exact N1. discriminate.
      + destruct p' as [|[r' x'] p']; simpl in E2; injection E2.
        * intros _ -> ->. pose proof (P1 i' v (or_introl eq_refl)) as Q.
          rewrite fleb_refl in Q by exact N1. discriminate.
        * intros E -> ->. apply (IH (fun a b h => P1 a b (or_intror h)) p'
            (fun a b h => P2 a b (or_intror h)) E).
  Qed.

  (** Folding over the cells of a NaN-free column is [np.min] / [np.argmin]. *)
  Lemma best_from_min vals (f : nat -> Z) i v b :
    no_nan vals -> first_min vals i v -> isnan (fst b) = false ->
    best_from b (mapi (fun k x => (f k, x)) vals) = if fltb v (fst b) then (v, f i) else b.
  Proof.
    intros Hn (Hi & Hmin & Hfirst) Hb. unfold mapi.
    enough (G : forall vals j b, isnan (fst b) = false -> no_nan vals ->
      (exists i, nth_error vals i = Some v /\ (forall j x, nth_error vals j = Some x -> fltb x v = false) /\
        (forall k x, (k < i)%nat -> nth_error vals k = Some x -> fltb v x = true) /\
        best_from b (mapi_from (fun k x => (f k, x)) j vals) = if fltb v (fst b) then (v, f (j + i)%nat) else b) \/
      ((exists j x, nth_error vals j = Some x /\ fltb x v = true) \/ ~ In v vals)).
    { destruct (G vals 0%nat b Hb Hn) as [(i' & E1 & _ & E3 & E4)|[(j & x & E1 & E2)|E]].
      - rewrite E4. assert (i' = i); [|subst; reflexivity].
        destruct (Nat.lt_trichotomy i' i) as [L|[L|L]]; [|exact L|].
        + pose proof (Hfirst i' v L E1) as Q. rewrite fltb_irrefl in Q. discriminate.
        + pose proof (E3 i v L Hi) as Q. rewrite fltb_irrefl in Q. discriminate.
      - rewrite (Hmin _ _ E1) in E2. discriminate.
      - exfalso. apply E. eapply nth_error_In; exact Hi. }
    clear - OL. induction vals as [|x vals IH]; intros j b Hb Hn; [right; right; intros []|].
    apply no_nan_cons in Hn. destruct Hn as [Hx Hn]. cbn [mapi_from best_from fold_left].
    destruct (fltb x v) eqn:Exv; [right; left; exists 0%nat, x; auto|].
    set (b' := bstep b (f j, x)).
    assert (Hb' : isnan (fst b') = false) by (unfold b', bstep; simpl; destruct (fltb x (fst b)); assumption).
    fold (best_from b' (mapi_from (fun k x => (f k, x)) (S j) vals)).
    destruct (IH (S j) b' Hb' Hn) as [(i & E1 & E2 & E3 & E4)|[(k & y & E1 & E2)|E]].
    - assert (Hv : isnan v = false) by (eapply no_nan_nth; eassumption).
      left. destruct (fltb v x) eqn:Evx.
      + exists (S i). split; [exact E1|]. split; [|split].
        * intros [|k] y; simpl; [intros [= <-]; exact Exv|apply E2].
        * intros [|k] y; simpl; [intros _ [= <-]; exact Evx|intros L; apply E3; lia].
        * rewrite E4. unfold b', bstep. cbn [fst snd].
          destruct (fltb x (fst b)) eqn:Exb; cbn [fst].
          -- rewrite Evx, (fltb_trans _ _ _ Evx Exb). do 2 f_equal. lia.
          -- destruct (fltb v (fst b)); [do 2 f_equal; lia|reflexivity].
      + assert (x = v) as -> by (apply fle_antisym; apply fltb_false_fleb; assumption).
        exists 0%nat. split; [reflexivity|]. split; [|split].
        * intros [|k] y; simpl; [intros [= <-]; exact Exv|apply E2].
        * intros k y L; lia.
        * rewrite E4. unfold b', bstep. cbn [fst snd]. rewrite Nat.add_0_r.
          destruct (fltb v (fst b)) eqn:Evb; cbn [fst]; [rewrite fltb_irrefl; reflexivity|].
          rewrite Evb. reflexivity.
    - right; left. exists (S k), y. auto.
    - destruct (fltb v x) eqn:Evx; [right; right; intros [->|H]; [rewrite fltb_irrefl in Evx; discriminate|auto]|].
      destruct (isnan v) eqn:Hv.
      { right; right. intros [->|H]; [congruence|]. apply Hn in H. congruence. }
      assert (x = v) as -> by (apply fle_antisym; apply fltb_false_fleb; assumption).
      destruct (existsb (fun y => fltb y v) vals) eqn:Ex.
      { apply existsb_exists in Ex. destruct Ex as (y & Hy & Ey). apply In_nth_error in Hy.
        destruct Hy as [k Hk]. right; left. exists (S k), y. auto. }
      left. exists 0%nat. split; [reflexivity|].
      assert (Hle : forall y, In y vals -> fltb y v = false).
      { intros y Hy. destruct (fltb y v) eqn:E0; [|reflexivity].
        assert (existsb (fun y => fltb y v) vals = true) by (apply existsb_exists; eauto). congruence. }
      split; [|split].
      * intros [|k] y; simpl; [intros [= <-]; exact Exv|]. intro H. apply Hle. eapply nth_error_In; exact H.
      * intros k y L; lia.
      * rewrite Nat.add_0_r.
        assert (F : forall l k b0, (forall y, In y l -> fltb y (fst b0) = false) ->
           best_from b0 (mapi_from (fun k x => (f k, x)) k l) = b0).
        { induction l as [|y l IHl]; intros k b0 Hl; [reflexivity|]. cbn [mapi_from best_from fold_left].
          replace (bstep b0 (f k, y)) with b0 by (unfold bstep; cbn [fst snd]; rewrite (Hl y (or_introl eq_refl)); reflexivity).
          apply (IHl (S k) b0). intros z Hz. apply Hl. right. exact Hz. }
        rewrite F.
        -- unfold b', bstep. reflexivity.
        -- intros y Hy. unfold b', bstep. cbn [fst snd]. destruct (fltb v (fst b)) eqn:E0; cbn [fst].
           ++ apply Hle, Hy.
           ++ apply (fltb_false_trans y v); [exact Hv|apply Hle, Hy|exact E0].
  Qed.

  Lemma best_no_nan cells : isnan (fst (best cells)) = false.
  Proof.
    destruct (best_first cells) as [(-> & _)|[H _]]; [reflexivity|]. apply (fltb_nonnan _ _ H).
  Qed.
End BestFacts.
