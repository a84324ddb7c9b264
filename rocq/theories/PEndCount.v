(** * PEndCount: ThresholdCounter consumers that are told columns and diagonals, in any mixture *)
From Coq Require Import QArith Permutation.
From Verif Require Import Np NpFacts Mat MUtil SLog PLog MProfile PUtil MCounters SCounters PCounters MReservoir SReservoir PReservoir PResMix MCalc SCalc PCalc PCalcRun SMixed PMixed SEnd PEnd SEndAll SEndCons PEndCons PEndRes.
Set Implicit Arguments.
Open Scope nat_scope.

Section Any.
  Context {A : Type} {NA : NumOps A}.
  Notation num := (Np.num A).
  Notation cells c es := (sel all_rows (Z.of_nat c) (log (since c es))).

  (** ThresholdCounter: the values delivered for the column since it was last delivered as a column *)
  Lemma tc_ok_diag thr h w s es d vs : Forall no_shift es -> tc_ok thr w s (fun t c => count_le t (map snd (cells c es))) -> fits h w (EDiag d vs) ->
    exists s', tc_diag s d vs = Ok s' /\ tc_ok thr w s' (fun t c => count_le t (map snd (cells c (es ++ [EDiag d vs])))).
  Proof.
    intros Hn (Et & M & G) Hf. destruct Hf as (Hd & vals & rest & -> & H1 & H2).
    set (lo := Z.to_nat (Z.max 0 d)).
    destruct (@per_row_ok _ _ (tc_add vals lo (lo + length vals)) thr (tc_counts s)) as (rows' & E & L & N).
    - apply M.
    - intros t row Hr. destruct (@tc_add_ok _ _ vals lo t row w) as (row' & Hr' & _); [apply M, Hr|unfold lo; lia|]. eauto.
    - assert (E' : tc_diag s d (vals :: rest) = Ok (mkTc thr rows')).
      { unfold tc_diag. cbn [row0 bind]. destruct (Z.leb_spec 0 d).
        - replace (Z.to_nat d) with lo by (unfold lo; lia). rewrite Et, E. reflexivity.
        - replace (per_row (tc_add vals 0 (length vals))) with (per_row (tc_add vals lo (lo + length vals))); [rewrite Et, E; reflexivity|]. replace lo with 0 by (unfold lo; lia). reflexivity. }
      exists (mkTc thr rows'). split; [exact E'|].
      assert (NN : forall i t, nth_error thr i = Some t -> exists row', nth_error rows' i = Some row' /\ length row' = w /\
          forall c, c < w -> nth_error row' c = Some (count_le t (map snd (cells c (es ++ [EDiag d (vals :: rest)]))))).
      { intros i t Ht. destruct (tc_row_ok _ (conj Et (conj M G)) Ht) as (row & Hr & Lr & Hc). destruct (N i t row Ht Hr) as (row' & Hr' & Ea).
        destruct (@tc_add_ok _ _ vals lo t row w Lr) as (row'' & Ea' & Lr' & Hc'); [unfold lo; lia|]. rewrite Ea in Ea'. injection Ea' as <-. exists row'. split; [exact Hr'|]. split; [exact Lr'|].
        intros c Hcw. rewrite (Hc' c _ (Hc c Hcw)). f_equal. rewrite cells_diag by exact Hn. rewrite map_app, count_le_app. f_equal. rewrite sel_diag. cbv zeta. unfold all_rows.
        destruct (Nat.leb_spec lo c); destruct (Z.leb_spec 0 (Z.of_nat c - 0 - Z.max 0 d)); try (unfold lo in *; lia); [|reflexivity].
        replace (Z.to_nat (Z.of_nat c - 0 - Z.max 0 d)) with (c - lo) by (unfold lo; lia).
        destruct (nth_error vals (c - lo)) as [v|]; [|reflexivity]. unfold count_le. simpl. destruct (fleb v t); reflexivity. }
      split; [reflexivity|]. cbn [tc_counts]. split; [split; [exact L|]|].
      + intros r Hr. apply In_nth_error in Hr. destruct Hr as [i Hi]. destruct (@nth_error_lt_some _ thr i) as [t Ht]; [rewrite <- L; eapply nth_error_some_lt; exact Hi|].
        destruct (NN i t Ht) as (row' & Hr' & Lr & _). congruence.
      + intros i t c Ht Hc. destruct (NN i t Ht) as (row' & Hr' & Lr & Hc'). apply mget_ok. eauto.
  Qed.

  Lemma snd_rows (vals : list num) : map snd (mapi (fun k v => (Z.of_nat k, v)) vals) = vals.
  Proof. unfold mapi. generalize 0. induction vals as [|v vals IH]; intro k; [reflexivity|]. cbn [mapi_from map snd]. rewrite IH. reflexivity. Qed.

  Lemma tc_any thr h w (es : list (event num)) : Forall no_shift es -> Forall (fits h w) es ->
    exists s, tc_run (tc_init thr h w) es = Ok s /\ tc_ok thr w s (fun t c => count_le t (map snd (cells c es))).
  Proof.
    intros Hn Hf. induction es as [|e es IH] using rev_ind.
    - destruct (@C41_lemma _ _ thr h w []) as (s & E & _ & G); [constructor..|]. cbn in E. injection E as <-. eexists. split; [reflexivity|]. split; [reflexivity|]. split; [|exact G].
      cbn [tc_init tc_counts]. split; [apply repeat_length|]. intros r Hr. apply repeat_spec in Hr. subst r. apply repeat_length.
    - apply Forall_app in Hf, Hn. destruct Hf as [Hf Hfe], Hn as [Hn He]. apply Forall_inv in He, Hfe. destruct (IH Hn Hf) as (s & E & Hok). unfold tc_run. rewrite foldM_app. fold (tc_run (tc_init thr h w) es). rewrite E. cbn [bind foldM].
      destruct e as [d vs|c vs| |]; try destruct He; cbn [tc_step].
      + destruct (tc_ok_diag Hn Hok Hfe) as (s' & E' & Hok'). rewrite E'. cbn [bind]. eauto.
      + destruct Hok as (Et & M & G). destruct Hfe as (Hc & vals & rest & -> & _ & _). destruct (@C41_column_lemma _ _ s w c vals rest) as (s' & E' & Et' & M' & G'); [rewrite Et; exact M|exact Hc|].
        rewrite E'. cbn [bind]. exists s'. split; [reflexivity|]. rewrite Et in *. split; [exact Et'|]. split; [exact M'|]. intros i t j Hi Hj. rewrite (G' i t j Hi). destruct (Nat.eqb_spec j c) as [->|Hne].
        * rewrite cells_col, snd_rows. reflexivity.
        * rewrite cells_other by auto. apply G; assumption.
  Qed.

  (** Counting cells row by row *)
  Lemma count_rows (p : num -> bool) (f : nat -> num) h (L : list (Z * num)) : (forall r v, In (r, v) L -> exists r', r = Z.of_nat r' /\ r' < h /\ v = f r') ->
    length (filter p (map snd L)) = list_sum (map (fun r => if p (f r) then rowcount r L else 0) (seq 0 h)).
  Proof.
    induction L as [|[r v] L IH]; intro H.
    - cbn [map filter length]. clear. induction (seq 0 h) as [|k l IHl]; [reflexivity|]. cbn [map]. change (list_sum (?a :: ?l)) with (a + list_sum l). rewrite <- IHl. destruct (p (f k)); reflexivity.
    - destruct (H r v (or_introl eq_refl)) as (r' & -> & Hr & ->). cbn [map snd filter].
      assert (E : list_sum (map (fun r => if p (f r) then rowcount r ((Z.of_nat r', f r') :: L) else 0) (seq 0 h)) =
                  (if p (f r') then 1 else 0) + list_sum (map (fun r => if p (f r) then rowcount r L else 0) (seq 0 h))).
      { clear - Hr. assert (G : forall n k, list_sum (map (fun r => if p (f r) then rowcount r ((Z.of_nat r', f r') :: L) else 0) (seq k n)) =
          (if (k <=? r') && (r' <? k + n) && p (f r') then 1 else 0) + list_sum (map (fun r => if p (f r) then rowcount r L else 0) (seq k n))).
        { induction n as [|n IH]; intro k; cbn [seq map].
          - destruct (Nat.leb_spec k r'); destruct (Nat.ltb_spec r' (k + 0)); cbn [andb]; try lia; reflexivity.
          - change (list_sum (?a :: ?l)) with (a + list_sum l). rewrite IH. clear IH. assert (Ec : rowcount k ((Z.of_nat r', f r') :: L) = (if r' =? k then 1 else 0) + rowcount k L).
            { unfold rowcount. cbn [filter fst]. destruct (Z.eqb_spec (Z.of_nat r') (Z.of_nat k)); destruct (Nat.eqb_spec r' k); try lia; reflexivity. }
            rewrite Ec. destruct (Nat.eqb_spec r' k) as [->|Hne].
            + destruct (Nat.leb_spec (S k) k); destruct (Nat.leb_spec k k); destruct (Nat.ltb_spec k (k + S n)); try lia. cbn [andb]. destruct (p (f k)); lia.
            + destruct (Nat.leb_spec (S k) r'); destruct (Nat.leb_spec k r'); destruct (Nat.ltb_spec r' (k + S n)); destruct (Nat.ltb_spec r' (S k + n)); try lia; cbn [andb]; destruct (p (f k)), (p (f r')); lia. }
        rewrite (G h 0). destruct (Nat.leb_spec 0 r'); destruct (Nat.ltb_spec r' (0 + h)); try lia. reflexivity. }
      rewrite E, <- IH by (intros r v Hin; apply H; right; exact Hin). destruct (p (f r')); reflexivity.
  Qed.
End Any.

Section One.
  Context {A : Type} {NA : NumOps A} {OL : OrdLaws A}.
  Notation num := (Np.num A).
  Variables (self : bool) (h w : nat) (b : Z) (D : nat -> nat -> num).
  Hypothesis Hnan : forall r c, r < h -> c < w -> isnan (D r c) = false.
  Hypothesis Hself : self = true -> h = w /\ forall r c, r < h -> c < h -> D r c = D c r.
  Hypothesis Hh : 0 < h.
  Hypothesis Hninf : forall r c, r < h -> c < w -> D r c <> NInf.
  Notation evs t := (mixed_calls (fun _ => Dc h D) (fun _ => Dd h w D) self b t [0]).
  Notation fine := (fine self h w b).

  Lemma tc_of thr t : fine t -> exists s, foldM tc_step (evs t) (tc_init thr h w) = Ok s /\ is_mat (length thr) w (tc_counts s) /\
    forall i x j, nth_error thr i = Some x -> j < w -> mget (tc_counts s) i j = Ok (list_sum (map (fun r => if fleb (masked b D r j) x then weight self t r j else 0) (seq 0 h))).
  Proof.
    intro F. pose proof (fine_one F) as HF. pose proof (evs_good D Hnan Hself Hh Hninf HF) as HG. assert (Hn : Forall no_shift (flat_map (ev self h w b D) (deliveries t))) by (exact (good_no_shift HG)).
    destruct (@tc_any _ _ thr h w (evs t)) as (s & E & _ & M & G).
    - rewrite evs_one. exact Hn.
    - rewrite evs_one. eapply Forall_impl; [|exact HG]. intros e He. apply He.
    - exists s. split; [exact E|]. split; [exact M|]. intros i x j Hi Hj. rewrite (G i x j Hi Hj). f_equal. unfold count_le. rewrite (@count_rows _ (fun v => fleb v x) (fun r => masked b D r j) h).
      + f_equal. apply map_ext_in. intros r Hr. apply in_seq in Hr. destruct (fleb _ x); [|reflexivity]. rewrite weight_fold, evs_one. apply (cells_weight D Hnan Hself Hh Hninf HF); lia.
      + intros r v Hin. exact (@cells_in _ self h w b D Hnan Hself Hh Hninf t r j v F Hj Hin).
  Qed.
End One.
