(** * PCounters: proofs about counters and radius profiles. *)
From Coq Require Import Permutation Sorted.
From Verif Require Import Np NpFacts Mat SLog PLog SInsights MInsights PInsights MProfile PProfile MCounters SCounters PUtil PSort.
Set Implicit Arguments.
Open Scope nat_scope.

Section PCounters.
  Context {A : Type} {NA : NumOps A} {OL : OrdLaws A}.
  Notation num := (Np.num A).

  (** ** ThresholdCounter *)
  Lemma per_row_ok {S} (f : num -> S -> res S) (thr : list num) (rows : list S) : length rows = length thr ->
    (forall t row, In row rows -> exists row', f t row = Ok row') ->
    exists rows', per_row f thr rows = Ok rows' /\ length rows' = length thr /\
      forall i t row, nth_error thr i = Some t -> nth_error rows i = Some row ->
        exists row', nth_error rows' i = Some row' /\ f t row = Ok row'.
  Proof.
    intros L H. destruct (@mapM_ok _ _ (fun tr => f (fst tr) (snd tr)) (combine thr rows)) as (ys & E & L' & N).
    { intros [t row] Hi. apply in_combine_r in Hi. apply H, Hi. }
    exists ys. split; [exact E|]. split; [rewrite L', combine_length; lia|].
    intros i t row Ht Hr. apply (N i (t, row)). rewrite nth_error_combine, Ht, Hr. reflexivity.
  Qed.

  Definition tc_ok (thr : list num) (w : nat) (s : tc) (cnt : num -> nat -> nat) : Prop :=
    tc_thr s = thr /\ is_mat (length thr) w (tc_counts s) /\
    forall i t c, nth_error thr i = Some t -> c < w -> mget (tc_counts s) i c = Ok (cnt t c).

  Lemma count_le_app t l1 l2 : count_le t (l1 ++ l2) = count_le t l1 + count_le t l2.
  Proof. unfold count_le. rewrite filter_app, app_length. reflexivity. Qed.

  Lemma tc_add_ok vals lo t row w : length row = w -> lo + length vals <= w ->
    exists row', tc_add vals lo (lo + length vals) t row = Ok row' /\ length row' = w /\
      forall c n, nth_error row c = Some n -> nth_error row' c =
        Some (n + match (if (lo <=? c) then nth_error vals (c - lo) else None) with
                  | Some v => if fleb v t then 1 else 0 | None => 0 end).
  Proof.
    intros Hr Hv. unfold tc_add.
    assert (E : length (lslice row lo (lo + length vals)) = length vals) by (rewrite length_lslice; lia).
    rewrite E, Nat.eqb_refl. eexists; split; [reflexivity|].
    set (z := zip_with _ _ _). assert (Lz : length z = length vals) by (unfold z; rewrite length_zip_with, map_length; lia).
    split; [rewrite length_splice; lia|].
    intros c n Hc. rewrite nth_error_splice by lia. rewrite Lz.
    destruct (Nat.ltb_spec c lo); destruct (Nat.leb_spec lo c); try lia; [rewrite Hc, Nat.add_0_r; reflexivity|].
    destruct (Nat.ltb_spec c (lo + length vals)).
    - unfold z. rewrite nth_error_zip_with, nth_error_lslice, nth_error_map.
      destruct (Nat.ltb_spec (c - lo) (lo + length vals - lo)); [|lia].
      replace (lo + (c - lo)) with c by lia. rewrite Hc.
      destruct (@nth_error_lt_some _ vals (c - lo)) as [v ->]; [lia|]. simpl. destruct (fleb v t); f_equal; lia.
    - rewrite (@nth_error_none_ge _ vals) by lia. rewrite Hc, Nat.add_0_r. reflexivity.
  Qed.

  Lemma tc_row_ok (thr : list num) w s cnt i t : tc_ok thr w s cnt -> nth_error thr i = Some t ->
    exists row, nth_error (tc_counts s) i = Some row /\ length row = w /\ forall c, c < w -> nth_error row c = Some (cnt t c).
  Proof.
    intros (_ & M & H) Ht. destruct (@nth_error_lt_some _ (tc_counts s) i) as [row Hr].
    { destruct M as [-> _]. eapply nth_error_some_lt; exact Ht. }
    exists row. split; [exact Hr|]. split; [exact (is_mat_row _ M Hr)|]. intros c Hc.
    specialize (H i t c Ht Hc). apply mget_ok in H. destruct H as (r & Hr' & Hc'). congruence.
  Qed.

  Lemma tc_diag_ok thr h w s es d vs : Forall no_shift es ->
    tc_ok thr w s (fun t c => count_le t (map snd (sel all_rows (Z.of_nat c) (log es)))) -> fits h w (EDiag d vs) ->
    exists s', tc_diag s d vs = Ok s' /\
      tc_ok thr w s' (fun t c => count_le t (map snd (sel all_rows (Z.of_nat c) (log (es ++ [EDiag d vs]))))).
  Proof.
    intros Hn Hok (Hd & vals & rest & -> & H1 & H2). destruct (no_shift_qs Hn) as [Q S].
    pose proof Hok as (Et & M & _).
    set (lo := Z.to_nat (Z.max 0 d)).
    assert (G : exists s', (do counts <- per_row (tc_add vals lo (lo + length vals)) (tc_thr s) (tc_counts s); Ok (mkTc (tc_thr s) counts)) = Ok s' /\
      tc_ok thr w s' (fun t c => count_le t (map snd (sel all_rows (Z.of_nat c) (log (es ++ [EDiag d (vals :: rest)])))))).
    { destruct (@per_row_ok _ (tc_add vals lo (lo + length vals)) thr (tc_counts s)) as (rows' & E & L & N).
      - apply M.
      - intros t row Hr. destruct (@tc_add_ok vals lo t row w) as (row' & Hr' & _); [apply M, Hr|unfold lo; lia|]. eauto.
      - rewrite Et, E. cbn [bind]. eexists; split; [reflexivity|].
        assert (NN : forall i t, nth_error thr i = Some t -> exists row', nth_error rows' i = Some row' /\ length row' = w /\
          forall c, c < w -> nth_error row' c = Some (count_le t (map snd (sel all_rows (Z.of_nat c) (log (es ++ [EDiag d (vals :: rest)])))))).
        { intros i t Ht. destruct (tc_row_ok _ Hok Ht) as (row & Hr & Lr & Hc).
          destruct (N i t row Ht Hr) as (row' & Hr' & Ea).
          destruct (@tc_add_ok vals lo t row w Lr) as (row'' & Ea' & Lr' & Hc'); [unfold lo; lia|].
          rewrite Ea in Ea'. injection Ea' as <-. exists row'. split; [exact Hr'|]. split; [exact Lr'|].
          intros c Hcw. rewrite (Hc' c _ (Hc c Hcw)). f_equal.
          rewrite log_snoc, sel_app, map_app, count_le_app. f_equal. cbn [event_cells]. rewrite Q, S, sel_diag. cbv zeta.
          unfold all_rows.
          destruct (Nat.leb_spec lo c); destruct (Z.leb_spec 0 (Z.of_nat c - 0 - Z.max 0 d)); try (unfold lo in *; lia); [|reflexivity].
          replace (Z.to_nat (Z.of_nat c - 0 - Z.max 0 d)) with (c - lo) by (unfold lo; lia).
          destruct (nth_error vals (c - lo)) as [v|]; [|reflexivity]. unfold count_le. simpl. destruct (fleb v t); reflexivity. }
        split; [reflexivity|]. cbn [tc_counts]. split; [split; [exact L|]|].
        + intros r Hr. apply In_nth_error in Hr. destruct Hr as [i Hi].
          destruct (@nth_error_lt_some _ thr i) as [t Ht]; [rewrite <- L; eapply nth_error_some_lt; exact Hi|].
          destruct (NN i t Ht) as (row' & Hr' & Lr & _). congruence.
        + intros i t c Ht Hc. destruct (NN i t Ht) as (row' & Hr' & Lr & Hc'). apply mget_ok. eauto. }
    unfold tc_diag. cbn [row0 bind]. destruct (Z.leb_spec 0 d).
    - replace (Z.to_nat d) with lo by (unfold lo; lia). exact G.
    - replace (per_row (tc_add vals 0 (length vals))) with (per_row (tc_add vals lo (lo + length vals))); [exact G|].
      replace lo with 0 by (unfold lo; lia). reflexivity.
  Qed.

  Lemma C41_lemma thr h w (es : list (event num)) : Forall is_diag es -> Forall (fits h w) es ->
    exists s, tc_run (tc_init thr h w) es = Ok s /\ tc_thr s = thr /\
      forall i t c, nth_error thr i = Some t -> c < w ->
        mget (tc_counts s) i c = Ok (count_le t (map snd (sel all_rows (Z.of_nat c) (log es)))).
  Proof.
    intros Hd Hf. enough (G : exists s, tc_run (tc_init thr h w) es = Ok s /\
       tc_ok thr w s (fun t c => count_le t (map snd (sel all_rows (Z.of_nat c) (log es))))).
    { destruct G as (s & E & Et & _ & H). exists s. auto. }
    assert (Hn : Forall no_shift es) by (eapply Forall_impl; [|exact Hd]; intros []; simpl; tauto).
    induction es as [|e es IH] using rev_ind.
    - eexists; split; [reflexivity|]. unfold tc_init. split; [reflexivity|]. cbn [tc_counts]. split; [split|].
      + apply repeat_length.
      + intros r Hr. apply repeat_spec in Hr. subst r. apply repeat_length.
      + intros i t c Ht Hc. apply mget_ok. exists (repeat 0 w). rewrite !nth_error_repeat'. apply nth_error_some_lt in Ht.
        destruct (Nat.ltb_spec i (length thr)); [|lia]. destruct (Nat.ltb_spec c w); [|lia]. auto.
    - apply Forall_app in Hd, Hf, Hn. destruct Hd as [Hd He], Hf as [Hf Hfe], Hn as [Hn _]. apply Forall_inv in He, Hfe.
      destruct (IH Hd Hf Hn) as (s & E & Hok). unfold tc_run. rewrite foldM_app. fold (tc_run (tc_init thr h w) es). rewrite E.
      cbn [bind foldM]. destruct e as [d vs| | |]; simpl in He; try contradiction. cbn [tc_step].
      destruct (tc_diag_ok Hn Hok Hfe) as (s' & E' & Hok'). rewrite E'. cbn [bind]. eauto.
  Qed.

  Lemma C41_column_lemma (s : tc) w c (vals : list num) rest : is_mat (length (tc_thr s)) w (tc_counts s) -> c < w ->
    exists s', tc_col s c (vals :: rest) = Ok s' /\ tc_thr s' = tc_thr s /\ is_mat (length (tc_thr s)) w (tc_counts s') /\
      forall i t j, nth_error (tc_thr s) i = Some t ->
        mget (tc_counts s') i j = if j =? c then Ok (count_le t vals) else mget (tc_counts s) i j.
  Proof.
    intros M Hc. unfold tc_col. cbn [row0 bind].
    destruct (@per_row_ok _ (fun t row => setitem row c (length (filter (fun v => fleb v t) vals))) (tc_thr s) (tc_counts s)) as (rows' & E & L & N).
    - apply M.
    - intros t row Hr. rewrite setitem_ok by (rewrite (proj2 M _ Hr); exact Hc). eauto.
    - rewrite E. cbn [bind]. eexists; split; [reflexivity|]. cbn [tc_thr tc_counts]. split; [reflexivity|].
      assert (NN : forall i t, nth_error (tc_thr s) i = Some t -> exists row row', nth_error (tc_counts s) i = Some row /\ nth_error rows' i = Some row' /\
         length row = w /\ row' = splice row c [count_le t vals]).
      { intros i t Ht. destruct (@nth_error_lt_some _ (tc_counts s) i) as [row Hr].
        { rewrite (proj1 M). eapply nth_error_some_lt; exact Ht. }
        destruct (N i t row Ht Hr) as (row' & Hr' & Es). pose proof (is_mat_row _ M Hr) as Lr.
        rewrite setitem_ok in Es by lia. injection Es as <-. eauto 10. }
      split; [split; [exact L|]|].
      + intros r Hr. apply In_nth_error in Hr. destruct Hr as [i Hi].
        destruct (@nth_error_lt_some _ (tc_thr s) i) as [t Ht]; [rewrite <- L; eapply nth_error_some_lt; exact Hi|].
        destruct (NN i t Ht) as (row & row' & Hr & Hr' & Lr & ->). replace r with (splice row c [count_le t vals]) by congruence.
        rewrite length_set1; lia.
      + intros i t j Ht. destruct (NN i t Ht) as (row & row' & Hr & Hr' & Lr & ->).
        unfold mget, getitem. rewrite Hr, Hr'. cbn [bind]. rewrite nth_error_set1 by lia. destruct (j =? c); reflexivity.
  Qed.

  (** ** DistancedThresholdCounter *)
  Lemma apart_dec d i j : {apart d i j} + {~ apart d i j}.
  Proof. unfold apart. destruct (lt_dec d (i - j)); [left; auto|]. destruct (lt_dec d (j - i)); [left; auto|right; lia]. Qed.

  Lemma scan_exists d order : forall chosen, exists picks, scan d chosen order picks.
  Proof.
    induction order as [|i order IH]; intro chosen; [eexists; constructor|].
    destruct (Exists_dec (fun j => ~ apart d i j) chosen) as [E|E].
    { intro j. destruct (apart_dec d i j); [right|left]; tauto. }
    - destruct (IH chosen) as [p Hp]. exists p. apply scan_skip; [apply Exists_exists, E|exact Hp].
    - destruct (IH (i :: chosen)) as [p Hp]. exists (i :: p). apply scan_pick; [|exact Hp].
      intros j Hj. destruct (apart_dec d i j); [assumption|]. exfalso. apply E, Exists_exists. eauto.
  Qed.
  Lemma scan_unique d chosen order p p' : scan d chosen order p -> scan d chosen order p' -> p = p'.
  Proof.
    intro H. revert p'; induction H as [chosen|chosen i order rest H1 H2 IH|chosen i order rest H1 H2 IH]; intros p' H';
      inversion H' as [|? ? ? ? K1 K2|? ? ? ? K1 K2]; subst; auto.
    - f_equal. auto.
    - destruct K1 as (j & Hj & Hna). destruct (Hna (H1 j Hj)).
    - destruct H1 as (j & Hj & Hna). destruct (Hna (K1 j Hj)).
  Qed.
  Lemma scan_incl d chosen order p : scan d chosen order p -> incl p order.
  Proof.
    induction 1; intros x Hx; auto; [destruct Hx as [->|Hx]; [left; reflexivity|right; auto]|right; auto].
  Qed.
  Lemma scan_apart d chosen order p : scan d chosen order p ->
    (forall i j, In i p -> In j chosen -> apart d i j) /\
    (forall a b i j, nth_error p a = Some i -> nth_error p b = Some j -> a <> b -> apart d i j).
  Proof.
    induction 1 as [chosen|chosen i order rest H1 H2 [IH1 IH2]|chosen i order rest H1 H2 [IH1 IH2]].
    - split; [intros i j []|]. intros [|a] b i j; discriminate.
    - split.
      + intros x j [->|Hx] Hj; [auto|]. apply IH1; [exact Hx|right; exact Hj].
      + intros [|a] [|b] x y Hx Hy Hab; simpl in *.
        * congruence.
        * injection Hx as ->. assert (apart d y x) by (apply IH1; [eapply nth_error_In; exact Hy|left; reflexivity]).
          unfold apart in *. tauto.
        * injection Hy as ->. apply IH1; [eapply nth_error_In; exact Hx|left; reflexivity].
        * eapply IH2; [exact Hx|exact Hy|lia].
    - auto.
  Qed.
  Lemma scan_cover d (f : nat -> num) chosen order p : scan d chosen order p ->
    (forall a b i j, a < b -> nth_error order a = Some i -> nth_error order b = Some j -> fleb (f i) (f j) = true) ->
    (forall i, In i order -> isnan (f i) = false) ->
    (forall i j, In i chosen -> In j order -> fleb (f i) (f j) = true) ->
    forall i, In i order -> exists j, (In j p \/ In j chosen) /\ ~ apart d i j /\ fleb (f j) (f i) = true.
  Proof.
    induction 1 as [chosen|chosen i order rest H1 H2 IH|chosen i order rest (j0 & Hj0 & Hna) H2 IH]; intros Hs Hn Hc x Hx.
    - destruct Hx.
    - destruct Hx as [->|Hx].
      + exists x. split; [left; left; reflexivity|]. split; [unfold apart; lia|].
        apply fleb_refl. apply Hn. left; reflexivity.
      + destruct IH with (i := x) as (j & Hj & Ha & Hle); auto.
        * intros a b i' j' Hab Hi' Hj'. apply (Hs (S a) (S b) i' j'); auto. lia.
        * intros i' Hi'. apply Hn. right; exact Hi'.
        * intros i' j' [<-|Hi'] Hj'.
          -- apply In_nth_error in Hj'. destruct Hj' as [b Hb]. apply (Hs 0 (S b) i j'); auto. lia.
          -- apply Hc; [exact Hi'|right; exact Hj'].
        * exists j. split; [|auto]. destruct Hj as [Hj|[<-|Hj]]; [left; right; exact Hj|left; left; reflexivity|right; exact Hj].
    - destruct Hx as [->|Hx].
      + exists j0. split; [right; exact Hj0|]. split; [exact Hna|]. apply Hc; [exact Hj0|left; reflexivity].
      + apply IH; auto.
        * intros a b i' j' Hab Hi' Hj'. apply (Hs (S a) (S b) i' j'); auto. lia.
        * intros i' Hi'. apply Hn. right; exact Hi'.
        * intros i' j' Hi' Hj'. apply Hc; [exact Hi'|right; exact Hj'].
  Qed.

  Lemma advance_spec value : forall rest idx,
    match advance value rest idx with
    | None => forall t, In t rest -> fltb t value = true
    | Some (idx', rest') => exists k t, idx' = idx + k /\ rest' = skipn k rest /\ nth_error rest k = Some t /\ fltb t value = false /\
        forall j t', j < k -> nth_error rest j = Some t' -> fltb t' value = true
    end.
  Proof.
    induction rest as [|t rest IH]; intro idx; cbn [advance]; [intros t []|].
    destruct (fltb t value) eqn:E.
    - specialize (IH (S idx)). destruct (advance value rest (S idx)) as [[idx' rest']|].
      + destruct IH as (k & t0 & -> & -> & Hk & Hlt & Hj). exists (S k), t0. split; [lia|]. split; [reflexivity|].
        split; [exact Hk|]. split; [exact Hlt|]. intros [|j] t' Hjk Ht'; simpl in Ht'; [congruence|].
        eapply Hj; [|exact Ht']. lia.
      + intros t0 [<-|Ht]; auto.
    - exists 0, t. split; [lia|]. split; [reflexivity|]. split; [reflexivity|]. split; [exact E|]. intros; lia.
  Qed.

  Lemma incr_from_ok c w : forall counts idx, (forall r, In r counts -> length r = w) -> c < w ->
    exists counts', incr_from idx c counts = Ok counts' /\ is_mat (length counts) w counts' /\
      forall i j, mget counts' i j = if (idx <=? i) && (j =? c) then (do n <- mget counts i j; Ok (S n)) else mget counts i j.
  Proof.
    induction counts as [|row counts IH]; intros idx Hr Hc.
    - exists []. split; [reflexivity|]. split; [split; [reflexivity|intros r []]|].
      intros i j. unfold mget, getitem. destruct i; simpl; destruct (_ && _); reflexivity.
    - destruct (IH (pred idx)) as (counts' & E & M & N); [intros r H; apply Hr; right; exact H|exact Hc|].
      assert (Lr : length row = w) by (apply Hr; left; reflexivity).
      destruct (@nth_error_lt_some _ row c) as [n Hn]; [lia|].
      assert (G : exists row', (match idx with O => do n <- getitem row c; setitem row c (S n) | S _ => Ok row end) = Ok row' /\
        length row' = w /\ forall j, nth_error row' j = if (idx =? 0) && (j =? c) then Some (S n) else nth_error row j).
      { destruct idx.
        - rewrite (proj2 (getitem_ok _ _ _) Hn). cbn [bind]. rewrite setitem_ok by lia. eexists; split; [reflexivity|].
          split; [rewrite length_set1; lia|]. intro j. rewrite nth_error_set1 by lia. cbn [Nat.eqb andb]. destruct (j =? c); reflexivity.
        - exists row. split; [reflexivity|]. split; [exact Lr|]. reflexivity. }
      destruct G as (row' & Er & Lr' & Nr). exists (row' :: counts'). cbn [incr_from]. rewrite Er. cbn [bind]. rewrite E. cbn [bind].
      split; [reflexivity|]. split; [split; [simpl; f_equal; apply M|]|].
      + intros r [<-|H]; [exact Lr'|apply M, H].
      + intros [|i] j.
        * unfold mget, getitem. cbn [nth_error bind]. rewrite Nr.
          destruct idx; cbn [Nat.eqb Nat.leb andb]; [|reflexivity].
          destruct (Nat.eqb_spec j c) as [->|]; [rewrite Hn; reflexivity|reflexivity].
        * change (mget (row' :: counts') (S i) j) with (mget counts' i j). change (mget (row :: counts) (S i) j) with (mget counts i j).
          rewrite N. destruct idx; reflexivity.
  Qed.

  Lemma dtc_loop_ok excl c w values thr :
    no_nan thr -> no_nan values -> c < w ->
    (forall p q s t, p < q -> nth_error thr p = Some s -> nth_error thr q = Some t -> fleb s t = true) ->
    forall order chosen picks idx exclusions counts,
    scan excl chosen order picks ->
    (forall i, In i order -> i < length values) ->
    (forall p q i j v w, p < q -> nth_error order p = Some i -> nth_error order q = Some j ->
      nth_error values i = Some v -> nth_error values j = Some w -> fleb v w = true) ->
    (forall p t i v, p < idx -> nth_error thr p = Some t -> In i order -> nth_error values i = Some v -> fltb t v = true) ->
    length exclusions = length values ->
    (forall i, i < length values -> nth_error exclusions i = Some true <-> exists j, In j chosen /\ ~ apart excl i j) ->
    is_mat (length thr) w counts ->
    exists counts', dtc_loop excl c values order idx (skipn idx thr) exclusions counts = Ok counts' /\
      is_mat (length thr) w counts' /\
      forall p t j, nth_error thr p = Some t ->
        mget counts' p j = if j =? c then (do n <- mget counts p j; Ok (n + length (filter (le_at values t) picks))) else mget counts p j.
  Proof.
    intros Nt Nv Hc Hthr. induction order as [|i order IH]; intros chosen picks idx exclusions counts Hsc Hin Hord Hpast Lex Hex M.
    - inversion Hsc; subst. exists counts. split; [reflexivity|]. split; [exact M|]. intros p t j Hp.
      destruct (Nat.eqb_spec j c); [|reflexivity]. cbn [filter length].
      destruct (mget counts p j); cbn [bind]; [rewrite Nat.add_0_r|]; reflexivity.
    - cbn [dtc_loop]. destruct (@nth_error_lt_some _ values i) as [value Hv]; [apply Hin; left; reflexivity|].
      rewrite (proj2 (getitem_ok _ _ _) Hv). cbn [bind].
      assert (Nval : isnan value = false) by (eapply no_nan_nth; [exact Nv|exact Hv]).
      assert (Hval : forall x y, In x (i :: order) -> nth_error values x = Some y -> fleb value y = true).
      { intros x y [<-|Hx] Hy; [replace y with value by congruence; apply fleb_refl, Nval|].
        apply In_nth_error in Hx. destruct Hx as [b Hb]. apply (Hord 0 (S b) i x value y); auto. lia. }
      pose proof (advance_spec value (skipn idx thr) idx) as Hadv.
      destruct (advance value (skipn idx thr) idx) as [[idx' rest']|].
      2:{ (* all remaining values exceed every threshold *)
          exists counts. split; [reflexivity|]. split; [exact M|]. intros p t j Hp.
          destruct (Nat.eqb_spec j c); [|reflexivity].
          assert (Ht : fltb t value = true).
          { destruct (Nat.lt_ge_cases p idx) as [Hlt|Hge].
            - apply (Hpast p t i value Hlt Hp); [left; reflexivity|exact Hv].
            - apply Hadv. apply (nth_error_In _ (p - idx)). rewrite nth_error_skipn. replace (idx + (p - idx)) with p by lia. exact Hp. }
          assert (Ef : filter (le_at values t) picks = []).
          { pose proof (scan_incl Hsc) as Hi. clear - Hi Hval Ht OL. induction picks as [|x picks IHp]; [reflexivity|]. simpl.
            assert (le_at values t x = false) as ->.
            { unfold le_at. destruct (nth_error values x) as [y|] eqn:Ey; [|reflexivity].
              apply fltb_fleb_false. eapply fltb_fle_trans; [exact Ht|]. eapply Hval; [|exact Ey]. apply Hi. left; reflexivity. }
            apply IHp. intros z Hz. apply Hi. right; exact Hz. }
          rewrite Ef. cbn [length]. destruct (mget counts p j); cbn [bind]; [rewrite Nat.add_0_r|]; reflexivity. }
      destruct Hadv as (k & tk & -> & -> & Hk & Hltk & Hbefore). rewrite nth_error_skipn in Hk.
      assert (Esk : skipn k (skipn idx thr) = skipn (idx + k) thr).
      { clear. revert idx; induction thr as [|t thr IHt]; intros [|idx]; try reflexivity.
        - simpl. rewrite skipn_nil. destruct k; reflexivity.
        - cbn [skipn plus]. apply IHt. }
      rewrite Esk.
      assert (Hpast' : forall p t x v, p < idx + k -> nth_error thr p = Some t -> In x (i :: order) -> nth_error values x = Some v -> fltb t v = true).
      { intros p t x v Hp Ht Hx Hvx. destruct (Nat.lt_ge_cases p idx) as [Hlt|Hge]; [eapply Hpast; eassumption|].
        assert (fltb t value = true).
        { apply (Hbefore (p - idx)); [lia|]. rewrite nth_error_skipn. replace (idx + (p - idx)) with p by lia. exact Ht. }
        eapply fltb_fle_trans; [eassumption|]. eapply Hval; eassumption. }
      assert (Hord' : forall p q i j v w, p < q -> nth_error order p = Some i -> nth_error order q = Some j ->
          nth_error values i = Some v -> nth_error values j = Some w -> fleb v w = true).
      { intros p q x y v u Hpq Hx Hy. apply (Hord (S p) (S q) x y); auto. lia. }
      destruct (@nth_error_lt_some _ exclusions i) as [ex Hexi]; [rewrite Lex; apply Hin; left; reflexivity|].
      rewrite (proj2 (getitem_ok _ _ _) Hexi). cbn [bind].
      assert (Hi : i < length values) by (apply Hin; left; reflexivity).
      assert (Nthr : forall p t, nth_error thr p = Some t -> le_at values t i = (idx + k <=? p)).
      { intros p t Hp. unfold le_at. rewrite Hv. destruct (Nat.leb_spec (idx + k) p).
        - assert (fleb tk t = true).
          { destruct (Nat.eq_dec p (idx + k)) as [->|]; [replace t with tk by congruence; apply fleb_refl; eapply no_nan_nth; [exact Nt|exact Hk]|].
            apply (Hthr (idx + k) p tk t); auto. lia. }
          eapply fleb_trans; [|eassumption]. apply fltb_false_fleb; auto. eapply no_nan_nth; [exact Nt|exact Hk].
        - apply fltb_fleb_false. apply (Hpast' p t i value); auto. left; reflexivity. }
      inversion Hsc as [|? ? ? rest0 K1 K2|? ? ? ? K1 K2]; subst.
      + (* picked *)
        assert (ex = false) as ->.
        { destruct ex; [|reflexivity]. destruct (proj1 (Hex i Hi) Hexi) as (j & Hj & Hna). destruct (Hna (K1 j Hj)). }
        destruct (@incr_from_ok c w counts (idx + k) (proj2 M) Hc) as (counts1 & E1 & M1 & G1). rewrite E1. cbn [bind].
        rewrite (proj1 M) in M1.
        destruct (IH (i :: chosen) rest0 (idx + k) (fill_slice exclusions (i - excl) (i + excl + 1) true) counts1) as (counts' & E' & M' & G'); auto.
        * intros x Hx. apply Hin. right; exact Hx.
        * intros p t x v Hp Ht Hx Hvx. eapply Hpast'; [exact Hp|exact Ht|right; exact Hx|exact Hvx].
        * rewrite length_fill_slice. exact Lex.
        * intros x Hx. rewrite nth_error_fill_slice. split.
          -- destruct ((i - excl <=? x) && (x <? i + excl + 1) && (x <? length exclusions)) eqn:Eb.
             ++ intros _. exists i. split; [left; reflexivity|]. apply andb_true_iff in Eb. destruct Eb as [Eb _]. apply andb_true_iff in Eb. destruct Eb as [Eb1 Eb2].
                apply Nat.leb_le in Eb1. apply Nat.ltb_lt in Eb2. unfold apart. lia.
             ++ intro Hx'. apply (Hex x Hx) in Hx'. destruct Hx' as (j & Hj & Hna). exists j. split; [right; exact Hj|exact Hna].
          -- intros (j & [<-|Hj] & Hna).
             ++ assert ((i - excl <=? x) && (x <? i + excl + 1) && (x <? length exclusions) = true) as ->; [|reflexivity].
                rewrite !andb_true_iff, Nat.leb_le, !Nat.ltb_lt. unfold apart in Hna. lia.
             ++ destruct (_ && _); [reflexivity|]. apply Hex; eauto.
        * exists counts'. split; [exact E'|]. split; [exact M'|]. intros p t j Hp. rewrite (G' p t j Hp), (G1 p j).
          destruct (Nat.eqb_spec j c) as [->|]; [|rewrite andb_false_r; reflexivity].
          rewrite andb_true_r. cbn [filter]. rewrite (Nthr p t Hp).
          destruct (idx + k <=? p); destruct (mget counts p c); cbn [bind length]; try reflexivity. f_equal. lia.
      + (* skipped *)
        assert (ex = true) as ->.
        { apply (Hex i Hi) in K1. congruence. }
        destruct (IH chosen picks (idx + k) exclusions counts) as (counts' & E' & M' & G'); auto.
        * intros x Hx. apply Hin. right; exact Hx.
        * intros p t x v Hp Ht Hx Hvx. eapply Hpast'; [exact Hp|exact Ht|right; exact Hx|exact Hvx].
        * exists counts'. auto.
  Qed.

  Lemma C42_lemma order (s : dtc) w c (vals : list num) rest :
    no_nan (dt_thr s) -> StronglySorted (fun a b => sort_le a b = true) (dt_thr s) -> dt_thr s <> [] ->
    is_mat (length (dt_thr s)) w (dt_counts s) -> c < w -> no_nan vals -> sorting_order vals order ->
    exists s' picks, dtc_col order s c (vals :: rest) = Ok s' /\ dt_thr s' = dt_thr s /\ dt_excl s' = dt_excl s /\
      is_mat (length (dt_thr s)) w (dt_counts s') /\ scan (dt_excl s) [] order picks /\
      forall p t j, nth_error (dt_thr s) p = Some t ->
        mget (dt_counts s') p j =
          if j =? c then (do n <- mget (dt_counts s) p j; Ok (n + length (filter (le_at vals t) picks)))
          else mget (dt_counts s) p j.
  Proof.
    intros Nt Hs Hne M Hc Nv [Hp Ho]. unfold dtc_col. cbn [row0 bind].
    destruct (scan_exists (dt_excl s) order []) as [picks Hsc].
    assert (exists t0, getitem (dt_thr s) 0 = Ok t0) as [t0 ->].
    { destruct (dt_thr s) as [|t0 l]; [congruence|]. exists t0. reflexivity. }
    cbn [bind].
    destruct (@dtc_loop_ok (dt_excl s) c w vals (dt_thr s) Nt Nv Hc) with (order := order) (chosen := @nil nat) (picks := picks)
      (idx := 0) (exclusions := repeat false (length vals)) (counts := dt_counts s) as (counts' & E & M' & G); auto.
    - intros p q a b Hpq Ha Hb. pose proof (@sorted_nth _ _ _ Hs p q a b Hpq Ha Hb) as E. unfold sort_le in E.
      rewrite (no_nan_nth _ Nt Ha), (no_nan_nth _ Nt Hb) in E. exact E.
    - intros i Hi. apply (Permutation_in _ Hp), in_seq in Hi. lia.
    - intros; lia.
    - apply repeat_length.
    - intros i Hi. rewrite nth_error_repeat'. destruct (Nat.ltb_spec i (length vals)); [|lia].
      split; [discriminate|]. intros (j & [] & _).
    - cbn [skipn] in E. rewrite E. cbn [bind]. eexists; exists picks. split; [reflexivity|]. cbn [dt_thr dt_excl dt_counts].
      repeat (split; [auto; fail|]). exact G.
  Qed.

  Lemma C42_picks_lemma (vals : list num) order excl picks t : no_nan vals -> sorting_order vals order ->
    scan excl [] order picks ->
    let ps := filter (le_at vals t) picks in
    (forall i, In i ps -> exists v, nth_error vals i = Some v /\ fleb v t = true) /\
    (forall p q i j, nth_error ps p = Some i -> nth_error ps q = Some j -> p <> q -> apart excl i j) /\
    (forall i v, nth_error vals i = Some v -> fleb v t = true ->
       exists j w, In j ps /\ nth_error vals j = Some w /\ ~ apart excl i j /\ fleb w v = true).
  Proof.
    intros Nv [Hp Ho] Hsc ps.
    assert (Hlen : forall i, In i order -> i < length vals) by (intros i Hi; apply (Permutation_in _ Hp), in_seq in Hi; lia).
    assert (Hps : forall i, In i ps <-> In i picks /\ exists v, nth_error vals i = Some v /\ fleb v t = true).
    { intro i. unfold ps. rewrite filter_In. unfold le_at. destruct (nth_error vals i) as [v|].
      - split; [intros [H1 H2]; eauto|]. intros [H1 (v' & [= ->] & H2)]. auto.
      - split; [intros [_ H]; discriminate|]. intros [_ (v & Hv & _)]. discriminate. }
    split; [|split].
    - intros i Hi. apply Hps in Hi. apply Hi.
    - destruct (scan_apart Hsc) as [_ Hpw].
      assert (G : forall l, (forall p q i j, nth_error l p = Some i -> nth_error l q = Some j -> p <> q -> apart excl i j) ->
        forall p q i j, nth_error (filter (le_at vals t) l) p = Some i -> nth_error (filter (le_at vals t) l) q = Some j -> p <> q -> apart excl i j).
      { clear. induction l as [|x l IH]; intros H; [intros [|p] q i j; discriminate|].
        assert (H' : forall p q i j, nth_error l p = Some i -> nth_error l q = Some j -> p <> q -> apart excl i j).
        { intros p q i j Hi Hj Hpq. apply (H (S p) (S q)); auto. }
        assert (Hx : forall q j, nth_error (filter (le_at vals t) l) q = Some j -> apart excl x j /\ apart excl j x).
        { intros q j Hq. apply nth_error_In, filter_In in Hq. destruct Hq as [Hq _]. apply In_nth_error in Hq. destruct Hq as [b Hb].
          split; [apply (H 0 (S b)); auto|apply (H (S b) 0); auto]. }
        cbn [filter]. destruct (le_at vals t x); [|apply IH, H'].
        intros [|p] [|q] i j Hi Hj Hpq; simpl in Hi, Hj.
        - congruence.
        - injection Hi as <-. apply (Hx q j Hj).
        - injection Hj as <-. apply (Hx p i Hi).
        - eapply IH; [exact H'|exact Hi|exact Hj|lia]. }
      apply (G picks Hpw).
    - intros i v Hv Hle. set (f := fun i => match nth_error vals i with Some v => v | None => PInf end).
      destruct (@scan_cover excl f [] order picks Hsc) with (i := i) as (j & Hj & Hna & Hlej).
      + intros a b x y Hab Hx Hy. unfold f.
        destruct (@nth_error_lt_some _ vals x) as [vx Ex]; [apply Hlen; eapply nth_error_In; exact Hx|].
        destruct (@nth_error_lt_some _ vals y) as [vy Ey]; [apply Hlen; eapply nth_error_In; exact Hy|].
        rewrite Ex, Ey. eapply Ho; eassumption.
      + intros x Hx. unfold f. destruct (nth_error vals x) as [vx|] eqn:Ex; [|reflexivity]. eapply no_nan_nth; [exact Nv|exact Ex].
      + intros x y [].
      + apply (Permutation_in _ (Permutation_sym Hp)), in_seq. split; [lia|]. simpl. eapply nth_error_some_lt; exact Hv.
      + destruct Hj as [Hj|[]]. pose proof (scan_incl Hsc _ Hj) as Hjo.
        destruct (@nth_error_lt_some _ vals j) as [w Hw]; [apply Hlen, Hjo|].
        unfold f in Hlej. rewrite Hw, Hv in Hlej. exists j, w. split; [|auto]. apply Hps. split; [exact Hj|]. exists w. split; [exact Hw|].
        eapply fleb_trans; eassumption.
  Qed.

  (** ** RadiusProfile0 *)
  Lemma set_col_ok {T} (m : mat T) h w c (l : list T) : is_mat h w m -> length l = h -> c < w ->
    exists m', set_col m c l = Ok m' /\ is_mat h w m' /\
      forall i j, i < h -> mget m' i j = if j =? c then getitem l i else mget m i j.
  Proof.
    intros M Ll Hc. unfold set_col. rewrite (proj1 M), Ll, Nat.eqb_refl.
    destruct (@mapM_ok _ _ (fun rx : list T * T => setitem (fst rx) c (snd rx)) (combine m l)) as (ys & E & Ly & N).
    { intros [r x] Hi. apply in_combine_l in Hi. cbn [fst snd]. rewrite setitem_ok by (rewrite (proj2 M _ Hi); exact Hc). eauto. }
    rewrite combine_length, (proj1 M), Ll, Nat.min_id in Ly.
    assert (NN : forall i, i < h -> exists r x, nth_error m i = Some r /\ nth_error l i = Some x /\ length r = w /\
       nth_error ys i = Some (splice r c [x])).
    { intros i Hi. destruct (@nth_error_lt_some _ m i) as [r Hr]; [rewrite (proj1 M); exact Hi|].
      destruct (@nth_error_lt_some _ l i) as [x Hx]; [lia|]. pose proof (is_mat_row _ M Hr) as Lr.
      destruct (N i (r, x)) as (y & Hy & Es); [rewrite nth_error_combine, Hr, Hx; reflexivity|]. cbn [fst snd] in Es.
      rewrite setitem_ok in Es by lia. injection Es as <-. eauto 10. }
    exists ys. split; [exact E|]. split; [split; [exact Ly|]|].
    - intros r Hr. apply In_nth_error in Hr. destruct Hr as [i Hi].
      destruct (NN i) as (r0 & x & H1 & H2 & H3 & H4); [rewrite <- Ly; eapply nth_error_some_lt; exact Hi|].
      replace r with (splice r0 c [x]) by congruence. rewrite length_set1; lia.
    - intros i j Hi. destruct (NN i Hi) as (r0 & x & H1 & H2 & H3 & H4). unfold mget, getitem. rewrite H4, H1, H2. cbn [bind].
      rewrite nth_error_set1 by lia. destruct (j =? c); reflexivity.
  Qed.

  Lemma C43_lemma (s : @rp A) w c (vals : list num) rest : is_mat (length (rp_track s)) w (rp_values s) -> c < w ->
    exists s', rp0_col s c (vals :: rest) = Ok s' /\ rp_track s' = rp_track s /\ is_mat (length (rp_track s)) w (rp_values s') /\
      (forall i k, nth_error (rp_track s) i = Some k -> exists v, mget (rp_values s') i c = Ok v /\ kth_smallest k vals v) /\
      (forall i j, i < length (rp_track s) -> j <> c -> mget (rp_values s') i j = mget (rp_values s) i j).
  Proof.
    intros M Hc. unfold rp0_col. cbn [row0 bind].
    assert (Htake : forall k, exists v, take_clip (fsort vals ++ [NaN]) k = Ok v /\ kth_smallest k vals v).
    { intro k. unfold take_clip. destruct (kth_fsort k vals) as (v & Hv & Hk). exists v. split; [|exact Hk].
      apply getitem_ok. rewrite app_length, fsort_length. cbn [length]. replace (length vals + 1 - 1) with (length vals) by lia. exact Hv. }
    destruct (@mapM_ok _ _ (take_clip (fsort vals ++ [NaN])) (rp_track s)) as (new & E & Ln & N).
    { intros k _. destruct (Htake k) as (v & Hv & _). eauto. }
    rewrite E. cbn [bind]. destruct (set_col_ok _ M Ln Hc) as (m' & E' & M' & G). rewrite E'. cbn [bind].
    eexists; split; [reflexivity|]. cbn [rp_track rp_values]. split; [reflexivity|]. split; [exact M'|]. split.
    - intros i k Hk. destruct (N i k Hk) as (v & Hv & Ev). destruct (Htake k) as (v' & Ev' & Hks). exists v'.
      split; [|exact Hks]. rewrite G by (eapply nth_error_some_lt; exact Hk). rewrite Nat.eqb_refl. apply getitem_ok. congruence.
    - intros i j Hi Hj. rewrite G by exact Hi. destruct (Nat.eqb_spec j c); [contradiction|reflexivity].
  Qed.

  Lemma rp_init_lemma (track : list Z) excl h w : track <> [] -> (forall k, In k track -> (0 <= k)%Z) -> (0 <= excl)%Z ->
    exists s, @rp_init A track excl h w = Ok s /\ rp_excl s = excl /\ length (rp_track s) = length track /\
      Permutation (map Z.of_nat (rp_track s)) track /\ StronglySorted le (rp_track s) /\ is_mat (length (rp_track s)) w (rp_values s) /\
      (NoDup track -> StronglySorted lt (rp_track s)) /\
      (forall i c, i < length track -> c < w -> mget (rp_values s) i c = Ok NaN).
  Proof.
    intros Hne Hpos He. unfold rp_init. destruct (Nat.eqb_spec (length track) 0); [destruct track; [congruence|discriminate]|].
    assert (existsb (fun k => (k <? 0)%Z) track = false) as ->.
    { destruct (existsb _ track) eqn:E; [|reflexivity]. apply existsb_exists in E. destruct E as (k & Hk & Hlt).
      apply Z.ltb_lt in Hlt. specialize (Hpos k Hk). lia. }
    destruct (Z.ltb_spec excl 0); [lia|]. eexists; split; [reflexivity|]. cbn [rp_excl rp_track rp_values].
    pose proof (nsort_perm (map Z.to_nat track)) as HP.
    assert (L : length (nsort (map Z.to_nat track)) = length track) by (rewrite <- (Permutation_length HP), map_length; reflexivity).
    split; [reflexivity|]. split; [exact L|]. split.
    { rewrite <- (Permutation_map Z.of_nat HP), map_map. rewrite (map_ext_in _ (fun z => z)), map_id; [reflexivity|].
      intros k Hk. specialize (Hpos k Hk). lia. }
    split; [apply nsort_sorted|]. split; [split; [rewrite repeat_length; congruence|]|split].
    - intros r Hr. apply repeat_spec in Hr. subst r. apply repeat_length.
    - intro Hd. apply sorted_strict; [apply nsort_sorted|]. eapply Permutation_NoDup; [exact HP|].
      clear - Hd Hpos. induction Hd as [|k l Hk Hd IH]; simpl; [constructor|]. constructor.
      + intro Hi. apply in_map_iff in Hi. destruct Hi as (k' & E & Hk'). apply Hk. replace k with k'; [exact Hk'|].
        pose proof (Hpos k (or_introl eq_refl)). pose proof (Hpos k' (or_intror Hk')). lia.
      + apply IH. intros k' Hk'. apply Hpos. right; exact Hk'.
    - intros i c Hi Hc. apply mget_ok. exists (repeat NaN w). rewrite !nth_error_repeat'.
      destruct (Nat.ltb_spec i (length track)); [|lia]. destruct (Nat.ltb_spec c w); [|lia]. auto.
  Qed.

  (** ** RadiusProfile *)
  Lemma rp_loop_ok (track : list nat) c w (values : list num) : StronglySorted lt track -> c < w ->
    forall yields i ti (m : mat num), is_mat (length track) w m -> ti < length track ->
    (forall k, nth_error track ti = Some k -> i <= k) ->
    (forall low, In low yields -> low < length values) ->
    exists m', rp_loop track c values yields i ti m = Ok m' /\ is_mat (length track) w m' /\
      (forall t k, nth_error track t = Some k -> mget m' t c =
         if ti <=? t then match nth_error yields (k - i) with Some low => getitem values low | None => mget m t c end else mget m t c) /\
      (forall t j, j <> c -> mget m' t j = mget m t j).
  Proof.
    intros Hs Hc. induction yields as [|low yields IH]; intros i ti m M Hti Hik Hy.
    - exists m. split; [reflexivity|]. split; [exact M|]. split; [|auto]. intros t k Hk.
      destruct (ti <=? t); [destruct (k - i)|]; reflexivity.
    - cbn [rp_loop]. destruct (@nth_error_lt_some _ track ti Hti) as [k Hk]. rewrite (proj2 (getitem_ok _ _ _) Hk). cbn [bind].
      specialize (Hik k Hk) as Hik'.
      assert (Hy' : forall l, In l yields -> l < length values) by (intros l Hl; apply Hy; right; exact Hl).
      assert (Hgt : forall t k', ti < t -> nth_error track t = Some k' -> k < k').
      { intros t k' Ht Hk'. exact (@sorted_nth _ _ _ Hs _ _ _ _ Ht Hk Hk'). }
      destruct (Nat.eqb_spec i k) as [->|Hne].
      + destruct (@nth_error_lt_some _ values low) as [v Hv]; [apply Hy; left; reflexivity|].
        rewrite (proj2 (getitem_ok _ _ _) Hv). cbn [bind].
        destruct (mset_spec v M Hti Hc) as (m1 & E1 & M1 & G1). rewrite E1. cbn [bind].
        assert (Hcur : forall t k', nth_error track t = Some k' -> (t = ti /\ k' = k) \/ (t < ti) \/ (ti < t /\ k < k')).
        { intros t k' Ht. destruct (Nat.lt_trichotomy t ti) as [H|[->|H]]; [auto|left; split; [reflexivity|congruence]|right; right; eauto]. }
        destruct (Nat.leb_spec (length track) (S ti)) as [Hend|Hend].
        * exists m1. split; [reflexivity|]. split; [exact M1|]. split.
          -- intros t k' Ht. rewrite G1, Nat.eqb_refl, andb_true_r.
             destruct (Hcur t k' Ht) as [[-> ->]|[H|[H _]]].
             ++ rewrite Nat.eqb_refl, Nat.leb_refl, Nat.sub_diag. cbn [nth_error]. symmetry. apply getitem_ok, Hv.
             ++ destruct (Nat.eqb_spec t ti); [lia|]. destruct (Nat.leb_spec ti t); [lia|]. reflexivity.
             ++ apply nth_error_some_lt in Ht. lia.
          -- intros t j Hj. rewrite G1. destruct (Nat.eqb_spec j c); [contradiction|]. rewrite andb_false_r. reflexivity.
        * destruct (IH (S k) (S ti) m1 M1 Hend) as (m' & E' & M' & G' & O').
          { intros k' Hk'. apply (Hgt (S ti)); [lia|exact Hk']. }
          { exact Hy'. }
          exists m'. split; [exact E'|]. split; [exact M'|]. split.
          -- intros t k' Ht. rewrite (G' t k' Ht), G1, Nat.eqb_refl, andb_true_r.
             destruct (Hcur t k' Ht) as [[-> ->]|[H|[H Hkk]]].
             ++ destruct (Nat.leb_spec (S ti) ti); [lia|]. rewrite Nat.eqb_refl, Nat.leb_refl, Nat.sub_diag. cbn [nth_error].
                symmetry. apply getitem_ok, Hv.
             ++ destruct (Nat.leb_spec (S ti) t); [lia|]. destruct (Nat.eqb_spec t ti); [lia|]. destruct (Nat.leb_spec ti t); [lia|]. reflexivity.
             ++ destruct (Nat.leb_spec (S ti) t); [|lia]. destruct (Nat.leb_spec ti t); [|lia].
                destruct (Nat.eqb_spec t ti); [lia|]. replace (k' - k) with (S (k' - S k)) by lia. reflexivity.
          -- intros t j Hj. rewrite (O' t j Hj), G1. destruct (Nat.eqb_spec j c); [contradiction|]. rewrite andb_false_r. reflexivity.
      + destruct (IH (S i) ti m M Hti) as (m' & E' & M' & G' & O').
        { intros k' Hk'. assert (k' = k) by congruence. lia. }
        { exact Hy'. }
        exists m'. split; [exact E'|]. split; [exact M'|]. split; [|exact O'].
        intros t k' Ht. rewrite (G' t k' Ht). destruct (Nat.leb_spec ti t); [|reflexivity].
        assert (k <= k').
        { destruct (Nat.eq_dec t ti) as [->|]; [assert (k' = k) by congruence; lia|]. assert (k < k') by (apply (Hgt t); [lia|exact Ht]). lia. }
        replace (k' - i) with (S (k' - S i)) by lia. reflexivity.
  Qed.

  Lemma C44_lemma (s : @rp A) w c (vals : list num) rest d : StronglySorted lt (rp_track s) -> rp_track s <> [] ->
    rp_excl s = Z.of_nat d -> is_mat (length (rp_track s)) w (rp_values s) -> c < w -> vals <> [] ->
    exists s' out, rp_col s c (vals :: rest) = Ok s' /\ rp_track s' = rp_track s /\ is_mat (length (rp_track s)) w (rp_values s') /\
      greedy nltb vals d [] out /\
      (forall i k, nth_error (rp_track s) i = Some k ->
         match nth_error out k with
         | Some j => exists v, nth_error vals j = Some (Fin v) /\ mget (rp_values s') i c = Ok (Fin v)
         | None => mget (rp_values s') i c = mget (rp_values s) i c
         end) /\
      (forall i j, j <> c -> mget (rp_values s') i j = mget (rp_values s) i j).
  Proof.
    intros Hs Hne Hd M Hc Hv. unfold rp_col. cbn [row0 bind]. rewrite Hd.
    destruct (@C09_lemma _ _ _ vals d (length vals) Hv (le_n _)) as (out & E & G). rewrite E. cbn [bind].
    destruct (@C09_consequences_lemma _ _ _ vals d (length vals) out Hv (le_n _) E) as (_ & _ & Hin & _).
    destruct (@rp_loop_ok (rp_track s) c w vals Hs Hc out 0 0 (rp_values s) M) as (m' & E' & M' & G' & O').
    - destruct (rp_track s); [congruence|simpl; lia].
    - intros; lia.
    - intros low Hl. destruct (Hin low Hl) as (v & Hv'). eapply nth_error_some_lt; exact Hv'.
    - rewrite E'. cbn [bind]. do 2 eexists. split; [reflexivity|]. cbn [rp_track rp_values]. split; [reflexivity|]. split; [exact M'|].
      split; [exact G|]. split; [|exact O']. intros i k Hk. specialize (G' i k Hk). cbn [Nat.leb] in G'. rewrite Nat.sub_0_r in G'.
      destruct (nth_error out k) as [j|] eqn:Ej; [|exact G'].
      destruct (Hin j) as (v & Hv'); [eapply nth_error_In; exact Ej|]. exists v. split; [exact Hv'|]. rewrite G'. apply getitem_ok, Hv'.
  Qed.
End PCounters.

Section Statements.
  Context {A : Type} {NA : NumOps A} {OL : OrdLaws A}.
  Notation num := (Np.num A).

  Lemma C41_agree_lemma thr h w (es : list (event num)) c (vals : list num) rest :
    Forall is_diag es -> Forall (fits h w) es -> c < w ->
    Permutation (map snd (sel all_rows (Z.of_nat c) (log es))) vals ->
    exists s s', tc_run (tc_init thr h w) es = Ok s /\ tc_col (tc_init thr h w) c (vals :: rest) = Ok s' /\
      forall i, i < length thr -> mget (tc_counts s) i c = mget (tc_counts s') i c.
  Proof.
    intros Hd Hf Hc HP. destruct (C41_lemma thr Hd Hf) as (s & E & _ & G).
    destruct (@C41_column_lemma _ _ (tc_init thr h w) w c vals rest) as (s' & E' & _ & _ & G'); [|exact Hc|].
    - unfold tc_init. cbn. split; [apply repeat_length|]. intros r Hr. apply repeat_spec in Hr. subst r. apply repeat_length.
    - exists s, s'. split; [exact E|]. split; [exact E'|]. intros i Hi.
      destruct (@nth_error_lt_some _ thr i Hi) as [t Ht]. rewrite (G i t c Ht Hc), (G' i t c Ht), Nat.eqb_refl. f_equal.
      apply filter_length_perm, HP.
  Qed.

  Lemma dtc_init_lemma (thr : list num) excl h w : no_nan thr ->
    let s := dtc_init thr excl h w in
    Permutation thr (dt_thr s) /\ no_nan (dt_thr s) /\ StronglySorted (fun a b => sort_le a b = true) (dt_thr s) /\
    dt_excl s = excl /\ is_mat (length (dt_thr s)) w (dt_counts s) /\
    forall p c, p < length thr -> c < w -> mget (dt_counts s) p c = Ok 0.
  Proof.
    intro N. cbn. pose proof (fsort_perm thr) as HP. split; [exact HP|]. split; [|split; [apply fsort_sorted|split; [reflexivity|split; [split|]]]].
    - intros x Hx. apply N. eapply Permutation_in; [apply Permutation_sym, HP|exact Hx].
    - rewrite repeat_length, fsort_length. reflexivity.
    - intros r Hr. apply repeat_spec in Hr. subst r. apply repeat_length.
    - intros p c Hp Hc. apply mget_ok. exists (repeat 0 w). rewrite !nth_error_repeat'.
      destruct (Nat.ltb_spec p (length thr)); [|lia]. destruct (Nat.ltb_spec c w); [|lia]. auto.
  Qed.

  (** Without exclusion every value at most [t] is counted. *)
  Lemma C42_no_exclusion_lemma (vals : list num) order picks t : sorting_order vals order -> scan 0 [] order picks ->
    length (filter (le_at vals t) picks) = count_le t vals.
  Proof.
    intros [HP _] Hs.
    assert (G : forall order chosen p, scan 0 chosen order p -> NoDup order -> (forall i, In i chosen -> ~ In i order) -> p = order).
    { clear. induction 1 as [|chosen i order rest H1 H2 IH|chosen i order rest (j & Hj & Hna) H2 IH]; intros Hd Hc; [reflexivity| |].
      - f_equal. inversion Hd; subst. apply IH; [assumption|]. intros x [<-|Hx]; [assumption|]. intro Hi. apply (Hc x Hx). right; exact Hi.
      - exfalso. apply (Hc j Hj). left. unfold apart in Hna. lia. }
    rewrite (G order [] picks Hs); [|eapply Permutation_NoDup; [apply Permutation_sym, HP|apply seq_NoDup]|intros i []].
    rewrite (filter_length_perm _ HP). clear. unfold count_le.
    induction vals as [|v vals IH] using rev_ind; [reflexivity|].
    rewrite app_length, seq_app, !filter_app, !app_length. f_equal.
    - rewrite <- IH. f_equal. apply filter_ext_in. intros i Hi. apply in_seq in Hi. unfold le_at. rewrite nth_error_app1 by lia. reflexivity.
    - simpl. unfold le_at. rewrite nth_error_app2, Nat.sub_diag by lia. simpl. destruct (fleb v t); reflexivity.
  Qed.

  Lemma C42_run_lemma (thr0 : list num) excl h w : no_nan thr0 -> thr0 <> [] ->
    forall (ds : list (list nat * nat * list num)),
    (forall order c vals, In (order, c, vals) ds -> c < w /\ no_nan vals /\ sorting_order vals order) ->
    exists s ps, foldM (fun s d => match d with (order, c, vals) => dtc_col order s c [vals] end) ds (dtc_init thr0 excl h w) = Ok s /\
      Permutation thr0 (dt_thr s) /\
      (forall p q a b, p < q -> nth_error (dt_thr s) p = Some a -> nth_error (dt_thr s) q = Some b -> fleb a b = true) /\
      Forall2 (fun d picks => scan excl [] (fst (fst d)) picks) ds ps /\
      forall p t j, nth_error (dt_thr s) p = Some t -> j < w ->
        mget (dt_counts s) p j = Ok (fold_right (fun dp acc => match dp with (_, c, vals, picks) =>
            if c =? j then length (filter (le_at vals t) picks) + acc else acc end) 0 (combine ds ps)).
  Proof.
    intros N0 Hne ds. set (s0 := dtc_init thr0 excl h w). destruct (@dtc_init_lemma thr0 excl h w N0) as (HP & Nt & HS & He & M & Z0).
    fold s0 in HP, Nt, HS, He, M, Z0.
    assert (Hne' : dt_thr s0 <> []) by (intro E; rewrite E in HP; apply Permutation_sym, Permutation_nil in HP; auto).
    assert (Gs : forall p q a b, p < q -> nth_error (dt_thr s0) p = Some a -> nth_error (dt_thr s0) q = Some b -> fleb a b = true).
    { intros p q a b Hpq Ha Hb. pose proof (@sorted_nth _ _ _ HS p q a b Hpq Ha Hb) as E. unfold sort_le in E.
      rewrite (no_nan_nth _ Nt Ha), (no_nan_nth _ Nt Hb) in E. exact E. }
    intro Hds.
    enough (G : exists s ps, foldM (fun s d => match d with (order, c, vals) => dtc_col order s c [vals] end) ds s0 = Ok s /\
       dt_thr s = dt_thr s0 /\ dt_excl s = excl /\ is_mat (length (dt_thr s0)) w (dt_counts s) /\
       Forall2 (fun d picks => scan excl [] (fst (fst d)) picks) ds ps /\
       forall p t j, nth_error (dt_thr s0) p = Some t -> j < w ->
        mget (dt_counts s) p j = Ok (fold_right (fun dp acc => match dp with (_, c, vals, picks) =>
            if c =? j then length (filter (le_at vals t) picks) + acc else acc end) 0 (combine ds ps))).
    { destruct G as (s & ps & E & Et & _ & _ & Hps & G). exists s, ps. rewrite Et. auto. }
    revert Hds. induction ds as [|[[order c] vals] ds IH] using rev_ind; intro Hds.
    - exists s0, []. split; [reflexivity|]. split; [reflexivity|]. split; [exact He|]. split; [exact M|]. split; [constructor|].
      intros p t j Hp Hj. simpl. apply Z0; [|exact Hj]. rewrite (Permutation_length HP). eapply nth_error_some_lt; exact Hp.
    - destruct IH as (s & ps & E & Et & Ee & Ms & Hps & G); [intros o c' v Hi; apply Hds; apply in_or_app; left; exact Hi|].
      destruct (Hds order c vals) as (Hc & Nv & Ho); [apply in_or_app; right; left; reflexivity|].
      destruct (@C42_lemma _ _ _ order s w c vals []) as (s' & picks & E' & Et' & Ee' & M' & Hsc & G'); auto; try (rewrite Et; auto; fail).
      rewrite Et in *. rewrite Ee in *.
      exists s', (ps ++ [picks]). split; [rewrite foldM_app, E; cbn [bind foldM]; rewrite E'; reflexivity|].
      split; [exact Et'|]. split; [exact Ee'|]. split; [exact M'|]. split; [apply Forall2_app; [exact Hps|constructor; [exact Hsc|constructor]]|].
      intros p t j Hp Hj. rewrite (G' p t j Hp), (G p t j Hp Hj).
      assert (L : length ds = length ps) by (clear - Hps; induction Hps; simpl; congruence). clear - L.
      assert (Ec : combine (ds ++ [(order, c, vals)]) (ps ++ [picks]) = combine ds ps ++ [((order, c, vals), picks)]).
      { revert ps L; induction ds as [|d ds IH]; intros [|p ps] L; simpl in *; try discriminate; [reflexivity|]. rewrite IH by congruence. reflexivity. }
      rewrite Ec, fold_right_app. cbn [fold_right bind]. rewrite (Nat.eqb_sym c j). destruct (j =? c); [|reflexivity]. f_equal.
      rewrite Nat.add_0_r. set (F := fun dp acc => _).
      assert (HF : forall l x, fold_right F 0 l + x = fold_right F x l).
      { intros l x. induction l as [|[[[o c'] v] pk] l IHl]; [reflexivity|]. cbn [fold_right]. unfold F at 1 3.
        destruct (c' =? j); [rewrite <- Nat.add_assoc; f_equal; exact IHl|exact IHl]. }
      apply HF.
  Qed.
End Statements.
