(** * PEndRes: MatrixProfileLRReservoir consumers that are told columns and diagonals of a distance matrix, in any mixture *)
From Coq Require Import QArith Permutation.
From Verif Require Import Np NpFacts Mat MUtil SLog PLog PSort PMulti MProfile PProfile MRand SRand PRand MReservoir SReservoir PReservoir PResProb PResCol PResMix MCalc SCalc PCalc PCalcRun SMixed PMixed SEnd PEnd SEndAll SEndCons PEndCons.
Set Implicit Arguments.
Open Scope nat_scope.

Section One.
  Context {A : Type} {NA : NumOps A} {OL : OrdLaws A}.
  Notation num := (Np.num A).
  Variables (self : bool) (h w : nat) (b : Z) (D : nat -> nat -> num).
  Hypothesis Hnan : forall r c, r < h -> c < w -> isnan (D r c) = false.
  Hypothesis Hself : self = true -> h = w /\ forall r c, r < h -> c < h -> D r c = D c r.
  Hypothesis Hh : 0 < h.
  Hypothesis Hninf : forall r c, r < h -> c < w -> D r c <> NInf.
  Notation evs t := (mixed_calls (fun _ => Dc h D) (fun _ => Dd h w D) self b t [0]).
  Notation fine := (fine self h w b).
  Notation cells c es := (sel all_rows (Z.of_nat c) (log (since c es))).

  (** The events of one delivery *)
  Definition ev (x : nat + Z) : list (event num) :=
    match x with inl c => [ECol c [hide b c (Dc h D c)]] | inr d => EDiag d [Dd h w D d] :: (if self then [EDiag (- d) [Dd h w D d]] else []) end.
  Definition fine1 (x : nat + Z) : Prop :=
    match x with inl c => c < w | inr d => on_matrix h w d /\ (b < Z.abs d)%Z /\ (self = true -> 0 <= d)%Z end.

  Lemma evs_one t : evs t = flat_map ev (deliveries t).
  Proof.
    clear. unfold mixed_calls, deliveries. induction t as [|p t IH]; [reflexivity|]. cbn [flat_map]. rewrite flat_map_app, IH. f_equal. destruct p as [c n|ds]; cbn [part_calls].
    - unfold column_calls. generalize (seq c n). induction l as [|c' l IHl]; [reflexivity|]. cbn [map flat_map ev app]. f_equal. exact IHl.
    - unfold diagonal_calls. induction ds as [|d ds IHd]; [reflexivity|]. cbn [map flat_map ev app]. destruct self; cbn [app]; repeat f_equal; exact IHd.
  Qed.
  Lemma fine_one t : fine t -> Forall fine1 (deliveries t).
  Proof.
    clear. intros [Fc Fd]. apply Forall_forall. intros x Hx. unfold deliveries in Hx. apply in_flat_map in Hx. destruct Hx as (p & Hp & Hx). destruct p as [c n|ds]; apply in_map_iff in Hx; destruct Hx as (y & <- & Hy); cbn [fine1].
    - apply Fc. unfold cols_in. apply in_flat_map. exists (PCols c n). auto.
    - apply Fd. unfold diags_in. apply in_flat_map. exists (PDiags ds). auto.
  Qed.

  Lemma hide_in c x : c < w -> In x (@hide A b c (Dc h D c)) -> x = PInf \/ exists r, r < h /\ x = D r c.
  Proof.
    clear. intros Hc Hx. unfold hide in Hx. apply in_mapi in Hx. destruct Hx as (r & v & Hr & ->). unfold Dc in Hr. rewrite nth_error_map, nth_error_seq in Hr. destruct (Nat.ltb_spec r h); [|discriminate]. injection Hr as <-.
    destruct (_ <=? b)%Z; [left; reflexivity|right; exists r; auto].
  Qed.
  Lemma Dd_in d x : on_matrix h w d -> In x (Dd h w D d) -> exists r c, r < h /\ c < w /\ x = D r c.
  Proof. clear. unfold on_matrix. intros Hm Hx. unfold Dd, diag_of in Hx. apply in_map_iff in Hx. destruct Hx as (k & <- & Hk). apply in_seq in Hk. unfold dlen in Hk. unfold Dz. do 2 eexists. split; [|split; [|reflexivity]]; lia. Qed.

  Lemma ev_good x : fine1 x -> Forall (good h w) (ev x).
  Proof.
    destruct x as [c|d]; cbn [fine1 ev].
    - intro Hc. constructor; [|constructor]. split; [exact I|]. split; [|split; [|split]].
      + split; [exact Hc|]. exists (hide b c (Dc h D c)), []. split; [reflexivity|]. rewrite length_hide, length_Dc. lia.
      + intros vals [<-|[]]. rewrite length_hide. apply length_Dc.
      + intros vals [<-|[]] x Hx. apply (hide_in _ Hc) in Hx. destruct Hx as [->|(r & Hr & ->)]; [reflexivity|apply Hnan; assumption].
      + intros vals [<-|[]] Hx. apply (hide_in _ Hc) in Hx. destruct Hx as [E|(r & Hr & E)]; [discriminate|]. symmetry in E. revert E. apply Hninf; assumption.
    - intros (Hm & Hb & Hs). assert (NI : ~ In NInf (Dd h w D d)) by (intro Hx; apply (Dd_in _ Hm) in Hx; destruct Hx as (r & c & Hr & Hc & E); symmetry in E; revert E; apply Hninf; assumption).
      unfold on_matrix in Hm. constructor.
      + split; [exact I|]. split; [|split; [exact I|split; [exact I|intros vals [<-|[]]; exact NI]]]. split; [exact Hm|]. exists (Dd h w D d), []. split; [reflexivity|]. rewrite length_Dd. unfold dlen. lia.
      + destruct self; [|constructor]. destruct (Hself eq_refl) as [E _]. specialize (Hs eq_refl). constructor; [|constructor]. split; [exact I|]. split; [|split; [exact I|split; [exact I|intros vals [<-|[]]; exact NI]]]. rewrite E in *.
        split; [lia|]. exists (Dd w w D d), []. split; [reflexivity|]. rewrite length_Dd. unfold dlen. lia.
  Qed.
  Lemma evs_good l : Forall fine1 l -> Forall (good h w) (flat_map ev l).
  Proof. induction 1 as [|x l Hx _ IH]; [constructor|]. cbn [flat_map]. apply Forall_app. split; [apply ev_good, Hx|exact IH]. Qed.
  Lemma good_no_shift (es : list (event num)) : Forall (good h w) es -> Forall no_shift es.
  Proof. clear. intro H. eapply Forall_impl; [|exact H]. intros e He. apply He. Qed.

  (** The cells that count, after one more event *)
  Lemma cells_diag j (es : list (event num)) d vals rest : Forall no_shift es -> cells j (es ++ [EDiag d (vals :: rest)]) = cells j es ++ sel all_rows (Z.of_nat j) (diag_cells 0 0 d vals).
  Proof. clear. intro Hn. rewrite since_snoc. cbn [is_col_of]. rewrite log_snoc, sel_app. destruct (no_shift_qs (since_no_shift j Hn)) as [-> ->]. reflexivity. Qed.
  Lemma cells_other j (es : list (event num)) c vals rest : Forall no_shift es -> c <> j -> cells j (es ++ [ECol c (vals :: rest)]) = cells j es.
  Proof.
    clear. intros Hn Hc. rewrite since_snoc. cbn [is_col_of]. destruct (Nat.eqb_spec c j); [contradiction|]. rewrite log_snoc, sel_app. destruct (no_shift_qs (since_no_shift j Hn)) as [-> ->].
    cbn [event_cells]. rewrite sel_col. destruct (Z.eqb_spec (0 + Z.of_nat c) (Z.of_nat j)); [lia|]. apply app_nil_r.
  Qed.
  Lemma cells_col j (es : list (event num)) (vals : list num) rest : cells j (es ++ [ECol j (vals :: rest)]) = mapi (fun k v => (Z.of_nat k, v)) vals.
  Proof.
    clear. rewrite since_snoc. cbn [is_col_of]. rewrite Nat.eqb_refl. unfold log. cbn [log_from event_cells app]. rewrite ?app_nil_r, sel_col. rewrite Z.eqb_refl. unfold mapi.
    generalize 0. induction vals as [|v vals IH]; intro k; [reflexivity|]. cbn [mapi_from filter all_rows fst]. rewrite IH. reflexivity.
  Qed.

  Definition rowcount (r : nat) (L : list (Z * num)) : nat := length (filter (fun x => fst x =? Z.of_nat r)%Z L).
  Lemma rowcount_app r L L' : rowcount r (L ++ L') = rowcount r L + rowcount r L'.
  Proof. clear. unfold rowcount. rewrite filter_app, app_length. reflexivity. Qed.

  Lemma rowcount_col r (vals : list num) : r < length vals -> rowcount r (mapi (fun k v => (Z.of_nat k, v)) vals) = 1.
  Proof.
    clear. intro Hr. assert (G : forall k, rowcount (k + r) (mapi_from (fun k v => (Z.of_nat k, v)) k vals) = 1 /\ forall r', r' < k -> rowcount r' (mapi_from (fun k v => (Z.of_nat k, v)) k vals) = 0); [|apply (G 0)].
    unfold rowcount. 
    assert (Z0 : forall (vals : list num) k r', r' < k -> length (filter (fun x => (fst x =? Z.of_nat r')%Z) (mapi_from (fun k v => (Z.of_nat k, v)) k vals)) = 0).
    { clear. induction vals as [|v vals IH]; intros k r' Hk; [reflexivity|]. cbn [mapi_from filter fst]. destruct (Z.eqb_spec (Z.of_nat k) (Z.of_nat r')); [lia|]. apply IH. lia. }
    intro k. split; [|intros; apply Z0; assumption]. revert k r Hr. induction vals as [|v vals IH]; intros k r Hr; [cbn in Hr; lia|]. cbn [mapi_from filter fst]. destruct (Z.eqb_spec (Z.of_nat k) (Z.of_nat (k + r))).
    - cbn [length]. rewrite Z0 by lia. reflexivity.
    - replace (k + r) with (S k + (r - 1)) by lia. apply IH. cbn [length] in Hr. lia.
  Qed.
  (** A diagonal with a value for each of its cells *)
  Lemma rowcount_diag r j d (vals : list num) : r < h -> j < w -> length vals = Z.to_nat (dlen h w d) -> rowcount r (sel all_rows (Z.of_nat j) (diag_cells 0 0 d vals)) = if (d =? Z.of_nat j - Z.of_nat r)%Z then 1 else 0.
  Proof.
    clear. intros Hr Hj L. rewrite sel_diag. cbv zeta. destruct (Z.leb_spec 0 (Z.of_nat j - 0 - Z.max 0 d)).
    - destruct (nth_error vals (Z.to_nat (Z.of_nat j - 0 - Z.max 0 d))) as [v|] eqn:E.
      + cbn [all_rows]. unfold rowcount. cbn [filter fst]. destruct (Z.eqb_spec (0 + Z.max 0 (- d) + (Z.of_nat j - 0 - Z.max 0 d)) (Z.of_nat r)); destruct (Z.eqb_spec d (Z.of_nat j - Z.of_nat r)); try lia; reflexivity.
      + apply nth_error_None in E. unfold rowcount. cbn. destruct (Z.eqb_spec d (Z.of_nat j - Z.of_nat r)); [|reflexivity]. exfalso. unfold dlen in L. lia.
    - unfold rowcount. cbn. destruct (Z.eqb_spec d (Z.of_nat j - Z.of_nat r)); [lia|reflexivity].
  Qed.

  Definition add (r j n : nat) (x : nat + Z) : nat :=
    match x with
    | inl c => if c =? j then 1 else n
    | inr d => n + (if (d =? Z.of_nat j - Z.of_nat r)%Z then 1 else 0) + (if self && (d =? Z.of_nat r - Z.of_nat j)%Z then 1 else 0)
    end.
  Lemma cells_weight l r j : Forall fine1 l -> r < h -> j < w -> rowcount r (cells j (flat_map ev l)) = fold_left (add r j) l 0.
  Proof.
    intros HF Hr Hj. induction l as [|x l IH] using rev_ind; [reflexivity|]. apply Forall_app in HF. destruct HF as [HF Hx]. apply Forall_inv in Hx. specialize (IH HF).
    pose proof (good_no_shift (evs_good HF)) as Hn. rewrite flat_map_app, fold_left_app. cbn [flat_map fold_left]. rewrite app_nil_r, <- IH. clear IH. destruct x as [c|d]; cbn [ev add fine1] in *.
    - destruct (Nat.eqb_spec c j) as [->|Hc]; [|rewrite cells_other by assumption; reflexivity]. rewrite cells_col. apply rowcount_col. rewrite length_hide, length_Dc. exact Hr.
    - destruct Hx as (Hm & Hb & Hs). destruct self; cbn [andb].
      + destruct (Hself eq_refl) as [E _]. change (EDiag d [Dd h w D d] :: [EDiag (- d) [Dd h w D d]]) with ([EDiag d [Dd h w D d]] ++ [EDiag (- d) [Dd h w D d]]). rewrite app_assoc, cells_diag, cells_diag, !rowcount_app.
        * rewrite !rowcount_diag; [|assumption..| |assumption|assumption|apply length_Dd].
          -- destruct (Z.eqb_spec (- d) (Z.of_nat j - Z.of_nat r)); destruct (Z.eqb_spec d (Z.of_nat r - Z.of_nat j)); try lia; reflexivity.
          -- rewrite length_Dd. unfold dlen. rewrite E. f_equal. lia.
        * exact Hn.
        * apply Forall_app. split; [exact Hn|]. constructor; [exact I|constructor].
      + rewrite cells_diag, rowcount_app, rowcount_diag by (try assumption; apply length_Dd). lia.
  Qed.
  Lemma weight_fold t r j : weight self t r j = fold_left (add r j) (deliveries t) 0.
  Proof. reflexivity. Qed.

  Lemma since_incl c (es : list (event num)) e : In e (since c es) -> In e es.
  Proof. clear. induction es as [|x es IH]; [auto|]. cbn [since]. destruct (existsb _ es); [intro H; right; auto|auto]. Qed.
  Lemma cells_in t r j v : fine t -> j < w -> In (r, v) (cells j (evs t)) -> exists r', r = Z.of_nat r' /\ r' < h /\ v = masked b D r' j.
  Proof.
    intros F Hj Hin. pose proof (evs_good (fine_one F)) as HG. rewrite <- evs_one in HG. pose proof (good_no_shift HG) as Hn.
    assert (Hin' : In (r, v) (sel all_rows (Z.of_nat j) (log (evs t)))).
    { apply in_sel. apply in_sel in Hin. destruct Hin as [Hin Ha]. split; [|exact Ha]. rewrite (log_no_shift (since_no_shift j Hn)) in Hin. rewrite (log_no_shift Hn). apply in_flat_map in Hin. destruct Hin as (e & He & Hin). apply in_flat_map. exists e. split; [eapply since_incl; exact He|exact Hin]. }
    apply (sel_in D Hnan Hself Hh) in Hin'; [|assumption..]. destruct Hin' as (r' & -> & Hr & _ & ->). eauto.
  Qed.
  Lemma rowcount_in r L : 0 < rowcount r L <-> exists v, In (Z.of_nat r, v) L.
  Proof.
    clear. unfold rowcount. induction L as [|[r0 v] L IH]; cbn [filter fst].
    - split; [cbn; lia|intros (? & [])].
    - destruct (Z.eqb_spec r0 (Z.of_nat r)) as [->|Hne]; cbn [length].
      + split; [intros _; exists v; left; reflexivity|lia].
      + rewrite IH. split; [intros (x & Hx); exists x; right; exact Hx|intros (x & [E|Hx]); [congruence|eauto]].
  Qed.

  (** Delivered cells have a weight. *)
  Lemma weight_delivered t r j : 0 < weight self t r j <-> delivered self t r j.
  Proof.
    clear. unfold delivered. assert (E1 : In j (cols_in t) <-> In (inl j) (deliveries t)).
    { unfold cols_in, deliveries. rewrite !in_flat_map. split; intros (p & Hp & Hin); exists p; (split; [exact Hp|]); destruct p as [c n|ds]; try (destruct Hin; fail); try (apply in_map_iff; eauto); apply in_map_iff in Hin; destruct Hin as (y & E & Hy); try discriminate; injection E as <-; exact Hy. }
    assert (E2 : forall d, In d (diags_in t) <-> In (inr d) (deliveries t)).
    { intro d. unfold diags_in, deliveries. rewrite !in_flat_map. split; intros (p & Hp & Hin); exists p; (split; [exact Hp|]); destruct p as [c n|ds]; try (destruct Hin; fail); try (apply in_map_iff; eauto); apply in_map_iff in Hin; destruct Hin as (y & E & Hy); try discriminate; injection E as <-; exact Hy. }
    rewrite E1, !E2, weight_fold. generalize (deliveries t). intro l. clear E1 E2. induction l as [|x l IH] using rev_ind; [cbn; split; [lia|intros [[]|[[]|[_ []]]]]|].
    rewrite fold_left_app. cbn [fold_left]. rewrite !in_app_iff. cbn [In]. destruct x as [c|d]; cbn [add].
    - destruct (Nat.eqb_spec c j) as [->|Hc]; [split; auto|]. rewrite IH. split; [tauto|]. intros [[H|[H|[]]]|[[H|[H|[]]]|[Hs [H|[H|[]]]]]]; try discriminate; try tauto. congruence.
    - destruct (Z.eqb_spec d (Z.of_nat j - Z.of_nat r)) as [Ed|Ed]; [split; [intros _; right; left; right; left; congruence|lia]|].
      destruct (Z.eqb_spec d (Z.of_nat r - Z.of_nat j)) as [Ed'|Ed'].
      + destruct self; cbn [andb]; [split; [intros _; right; right; split; [reflexivity|]; right; left; congruence|lia]|]. rewrite !Nat.add_0_r, IH. split; [tauto|]. intros [[H|[H|[]]]|[[H|[H|[]]]|[Hs [H|[H|[]]]]]]; try discriminate; try tauto. exfalso. apply Ed. congruence.
      + rewrite andb_false_r, !Nat.add_0_r, IH. split; [tauto|]. intros [[H|[H|[]]]|[[H|[H|[]]]|[Hs [H|[H|[]]]]]]; try discriminate; try tauto; exfalso; congruence.
  Qed.

  Lemma cells_iff t r j v : fine t -> r < h -> j < w -> In (Z.of_nat r, v) (cells j (evs t)) <-> delivered self t r j /\ v = masked b D r j.
  Proof.
    intros F Hr Hj. rewrite <- weight_delivered, weight_fold, <- (cells_weight (fine_one F) Hr Hj), <- evs_one, rowcount_in. split.
    - intro Hin. split; [eauto|]. destruct (cells_in _ _ F Hj Hin) as (r' & E & _ & ->). apply Nat2Z.inj in E. subst r'. reflexivity.
    - intros ((x & Hx) & ->). destruct (cells_in _ _ F Hj Hx) as (r' & E & _ & ->). apply Nat2Z.inj in E. subst r'. exact Hx.
  Qed.

  Lemma count_row_weight t r j v : fine t -> r < h -> j < w -> count_row (Z.of_nat r) v (cells j (evs t)) = if feqb (masked b D r j) v then weight self t r j else 0.
  Proof.
    intros F Hr Hj. rewrite weight_fold, <- (cells_weight (fine_one F) Hr Hj), <- evs_one.
    assert (G : forall L : list (Z * num), (forall x, In (Z.of_nat r, x) L -> x = masked b D r j) -> count_row (Z.of_nat r) v L = if feqb (masked b D r j) v then rowcount r L else 0).
    { clear. unfold count_row, rowcount. induction L as [|[r0 x] L IH]; intro H; cbn [filter fst snd]; [destruct (feqb _ v); reflexivity|]. specialize (IH ltac:(intros; apply H; right; assumption)).
      destruct (Z.eqb_spec r0 (Z.of_nat r)) as [->|]; [|rewrite andb_false_r; exact IH]. rewrite (H x) by (left; reflexivity). rewrite andb_true_r. destruct (feqb (masked b D r j) v); cbn [length]; rewrite IH; reflexivity. }
    apply G. intros x Hx. apply (cells_iff x F Hr Hj) in Hx. apply Hx.
  Qed.

  Lemma count_sum v (L : list (Z * num)) rows : NoDup rows -> (forall r x, In (r, x) L -> feqb x v = true -> exists r', r = Z.of_nat r' /\ In r' rows) ->
    count v L = list_sum (map (fun r => count_row (Z.of_nat r) v L) rows).
  Proof.
    clear. intros Hd. induction L as [|[r x] L IH]; intro H.
    - unfold count, count_row. cbn. clear. induction rows as [|r rows IH]; [reflexivity|exact IH].
    - specialize (IH ltac:(intros; eapply H; [right|]; eassumption)). unfold count in *. cbn [filter snd]. destruct (feqb x v) eqn:E.
      + destruct (H r x (or_introl eq_refl) E) as (r' & -> & Hin). cbn [length]. rewrite IH.
        assert (EQ : forall r0, count_row (Z.of_nat r0) v ((Z.of_nat r', x) :: L) = (if r' =? r0 then 1 else 0) + count_row (Z.of_nat r0) v L).
        { intro r0. unfold count_row. cbn [filter fst snd]. rewrite E. cbn [andb]. destruct (Z.eqb_spec (Z.of_nat r') (Z.of_nat r0)); destruct (Nat.eqb_spec r' r0); try lia; reflexivity. }
        rewrite (map_ext _ _ EQ). clear - Hd Hin. induction rows as [|r0 rows IHr]; [destruct Hin|]. cbn [map list_sum fold_right]. inversion Hd as [|? ? Hx Hd']; subst. destruct Hin as [->|Hin].
        * rewrite Nat.eqb_refl. assert (EQ : map (fun r0 => (if r' =? r0 then 1 else 0) + count_row (Z.of_nat r0) v L) rows = map (fun r0 => count_row (Z.of_nat r0) v L) rows).
          { apply map_ext_in. intros r0 Hr0. destruct (Nat.eqb_spec r' r0); [subst; contradiction|reflexivity]. }
          rewrite EQ. unfold list_sum. lia.
        * destruct (Nat.eqb_spec r' r0); [subst; contradiction|]. specialize (IHr Hd' Hin). unfold list_sum in *. lia.
      + rewrite IH. f_equal. apply map_ext. intro r0. unfold count_row. cbn [filter fst snd]. rewrite E. reflexivity.
  Qed.

  Lemma given_delivered t r j : SEnd.given self b t r j <-> delivered self t r j /\ (b < Z.abs (Z.of_nat r - Z.of_nat j))%Z.
  Proof. clear. unfold SEnd.given, delivered, far. cbn [fst snd]. rewrite Z.ltb_lt. tauto. Qed.

  Lemma mrs_of t : fine t -> exists T, foldM mrs_next (evs t) (Ret (mrs_init h w)) = Ok T /\
      safe (rbind T (fun s => rbind (mrs_idx s) (fun l => Ret (mrs_mp s, l)))) (profile_ok D w (fun j r => r < h /\ SEnd.given self b t r j)) /\
      forall j rows r, j < w -> let best := best_row (fun r => r < h /\ SEnd.given self b t r j) (fun r => D r j) in
        NoDup rows -> (forall r, In r rows <-> best r) -> rows <> [] ->
        (best r -> (prob (rbind T (@mrs_idx A NA)) (fun l => at_row (Z.of_nat r) (nth_error l j)) == frac (weight self t r j) (list_sum (map (fun r => weight self t r j) rows)))%Q) /\
        (~ best r -> (prob (rbind T (@mrs_idx A NA)) (fun l => at_row (Z.of_nat r) (nth_error l j)) == 0)%Q).
  Proof.
    intros F. pose proof (evs_good (fine_one F)) as HG. rewrite <- evs_one in HG.
    destruct (mrs_fold (evs t) (Ret (mrs_init h w))) as (T & E & Hs & He). exists T. split; [exact E|].
    assert (HP : forall j r, j < w -> r < h /\ SEnd.given self b t r j -> In (Z.of_nat r, D r j) (cells j (evs t))).
    { intros j r Hj [Hr Hg]. apply cells_iff; try assumption. rewrite (given_masked D Hg). split; [apply given_delivered in Hg; apply Hg|reflexivity]. }
    assert (HC : forall j r v, j < w -> In (r, v) (cells j (evs t)) -> v = PInf \/ exists r', r = Z.of_nat r' /\ (r' < h /\ SEnd.given self b t r' j) /\ v = D r' j).
    { intros j r v Hj Hin. destruct (cells_in _ _ F Hj Hin) as (r' & -> & Hr & ->). apply cells_iff in Hin; try assumption. destruct Hin as [Hd _]. unfold masked. destruct (Z.leb_spec (Z.abs (Z.of_nat r' - Z.of_nat j)) b); [left; reflexivity|].
      right. exists r'. split; [reflexivity|]. split; [|reflexivity]. split; [exact Hr|]. apply given_delivered. auto. }
    split.
    - apply safe_rbind, Hs. cbn [rbind]. apply safe_rbind. eapply safe_impl; [|apply (mixed_merged HG)]. intros [mp l] (L1 & L2 & G). cbn [fst snd] in *. split; [exact L1|]. split; [exact L2|].
      intros j Hj. destruct (G j Hj) as (v & i & n & E1 & E2 & HR). exists v, i. split; [exact E1|]. split; [exact E2|].
      destruct HR as [[-> HA]|(Fv & Hi & HA & _)]; [left; split; [reflexivity|]; intros r Hr; eapply HA, HP; [exact Hj|exact Hr]|]. right. split; [apply (isfinite_lt _ Fv)|].
      destruct (HC j _ _ Hj Hi) as [->|(r & -> & Hr & ->)]; [discriminate|]. exists r. split; [exact Hr|]. do 2 (split; [reflexivity|]). intros r' Hr'. eapply HA, HP; [exact Hj|exact Hr'].
    - intros j rows r Hj best Hnd Hrows Hne. assert (Hex : exists r0, best r0) by (destruct rows as [|r0 rows]; [congruence|]; exists r0; apply Hrows; left; reflexivity). destruct Hex as (r0 & Hr0).
      set (v := D r0 j). pose proof Hr0 as ((R1 & R2) & R3 & R4). fold v in R3, R4.
      assert (N1 : isnan v = false) by (apply Hnan; assumption).
      assert (Fv : isfinite v = true) by (assert (N2 : v <> NInf) by (apply Hninf; assumption); destruct v; try discriminate; [congruence|reflexivity]).
      assert (Hbest : forall r, r < h -> delivered self t r j -> feqb (masked b D r j) v = true -> best r).
      { intros r1 H1 H2 H3. apply feqb_finite in H3. assert (Hg : SEnd.given self b t r1 j) by (apply given_delivered; split; [exact H2|]; unfold masked in H3; destruct (Z.leb_spec (Z.abs (Z.of_nat r1 - Z.of_nat j)) b); [rewrite <- H3 in Fv; discriminate|assumption]).
        rewrite (given_masked D Hg) in H3. split; [auto|]. rewrite H3. split; [exact R3|exact R4]. }
      assert (Hval : forall r, best r -> r < h /\ feqb (masked b D r j) v = true).
      { intros r1 ((H1 & H2) & H3 & H4). split; [exact H1|]. rewrite (given_masked D H2). apply feqb_eq. split; [|apply Hnan; assumption]. apply min_eq; [apply Hnan; assumption|exact N1|apply R4; auto|apply H4; auto]. }
      assert (Htot : count v (cells j (evs t)) = list_sum (map (fun r => weight self t r j) rows)).
      { rewrite (count_sum v (cells j (evs t)) Hnd).
        - f_equal. apply map_ext_in. intros r1 Hr1. destruct (Hval r1 (proj1 (Hrows r1) Hr1)) as [H1 H2]. rewrite (count_row_weight v F H1 Hj), H2. reflexivity.
        - intros r1 x Hin Hx. destruct (cells_in _ _ F Hj Hin) as (r' & -> & Hr & ->). exists r'. split; [reflexivity|]. apply Hrows, Hbest; [exact Hr| |exact Hx]. apply (cells_iff _ F Hr Hj) in Hin. apply Hin. }
      assert (HPr : (prob (rbind T (@mrs_idx A NA)) (fun l => at_row (Z.of_nat r) (nth_error l j)) == frac (count_row (Z.of_nat r) v (cells j (evs t))) (count v (cells j (evs t))))%Q).
      { eapply Qeq_trans; [|apply (@mixed_merged_prob A NA OL h w (evs t) j (Z.of_nat r) v HG Hj Fv)].
        - unfold prob. rewrite expect_bind, He. cbn [rbind]. rewrite <- expect_bind. reflexivity.
        - apply in_map_iff. exists (Z.of_nat r0, v). split; [reflexivity|]. apply HP; [exact Hj|auto].
        - intros r1 x Hx. destruct (HC j _ _ Hj Hx) as [->|(r' & -> & Hr' & ->)]; [destruct v; reflexivity|]. apply R4. exact Hr'. }
      rewrite Htot in HPr. split; intro Hbr; rewrite HPr.
      + destruct (Hval r Hbr) as [H1 H2]. rewrite (count_row_weight v F H1 Hj), H2. reflexivity.
      + rewrite count_row_none; [unfold frac; cbn; reflexivity|]. intro C. destruct (cells_in _ _ F Hj C) as (r' & Er & Hr & Ev). apply Nat2Z.inj in Er. subst r'. apply Hbr, Hbest; [exact Hr| |rewrite <- Ev; apply feqb_eq; auto].
        apply (cells_iff _ F Hr Hj) in C. apply C.
  Qed.

  (** Diagonals first, without repetition, then columns: every cell counts once. *)
  Lemma weight_one t1 t2 r j : cols_in t1 = [] -> diags_in t2 = [] -> NoDup (diags_in t1) -> (forall d, In d (diags_in t1) -> b < Z.abs d /\ (self = true -> 0 <= d))%Z -> (self = true -> (0 <= b)%Z) ->
    delivered self (t1 ++ t2) r j -> weight self (t1 ++ t2) r j = 1.
  Proof.
    clear. intros Hc Hd Hnd Hb Hs Hdel. rewrite weight_fold. unfold deliveries. rewrite flat_map_app, fold_left_app. fold (deliveries t1) (deliveries t2).
    assert (E1 : deliveries t1 = map inr (diags_in t1)).
    { clear - Hc. unfold deliveries, diags_in, cols_in in *. induction t1 as [|p t IH]; [reflexivity|]. cbn [flat_map] in *. apply app_eq_nil in Hc. destruct Hc as [C1 C2]. rewrite map_app, (IH C2). f_equal. destruct p as [c n|ds]; [|reflexivity]. rewrite C1. reflexivity. }
    assert (E2 : deliveries t2 = map inl (cols_in t2)).
    { clear - Hd. unfold deliveries, diags_in, cols_in in *. induction t2 as [|p t IH]; [reflexivity|]. cbn [flat_map] in *. apply app_eq_nil in Hd. destruct Hd as [C1 C2]. rewrite map_app, (IH C2). f_equal. destruct p as [c n|ds]; [reflexivity|]. rewrite C1. reflexivity. }
    rewrite E1, E2.
    assert (EC : forall cs n, fold_left (add r j) (map inl cs) n = if in_dec Nat.eq_dec j cs then 1 else n).
    { clear. induction cs as [|c cs IH]; intro n; [reflexivity|]. cbn [map fold_left add]. rewrite IH. destruct (in_dec Nat.eq_dec j cs) as [Hin|Hin]; destruct (in_dec Nat.eq_dec j (c :: cs)) as [Hin'|Hin']; cbn [In] in Hin'; try tauto.
      - destruct (Nat.eqb_spec c j); [reflexivity|]. exfalso. tauto.
      - destruct (Nat.eqb_spec c j); [exfalso; tauto|reflexivity]. }
    rewrite EC. destruct (in_dec Nat.eq_dec j (cols_in t2)) as [Hin|Hin]; [reflexivity|].
    assert (ED : forall ds n, NoDup ds -> (forall d, In d ds -> b < Z.abs d /\ (self = true -> 0 <= d))%Z ->
      fold_left (add r j) (map inr ds) n = n + (if in_dec Z.eq_dec (Z.of_nat j - Z.of_nat r)%Z ds then 1 else 0) + (if self then if in_dec Z.eq_dec (Z.of_nat r - Z.of_nat j)%Z ds then 1 else 0 else 0)).
    { clear - Hs. induction ds as [|d ds IH]; intros n Hnd Hds; [cbn; destruct self; lia|]. inversion Hnd as [|? ? Hx Hnd']; subst. cbn [map fold_left]. rewrite (IH _ Hnd') by (intros; apply Hds; right; assumption). cbn [add].
      destruct (in_dec Z.eq_dec (Z.of_nat j - Z.of_nat r)%Z ds) as [I1|I1]; destruct (in_dec Z.eq_dec (Z.of_nat j - Z.of_nat r)%Z (d :: ds)) as [I2|I2]; cbn [In] in I2; try (exfalso; tauto);
      destruct (in_dec Z.eq_dec (Z.of_nat r - Z.of_nat j)%Z ds) as [I3|I3]; destruct (in_dec Z.eq_dec (Z.of_nat r - Z.of_nat j)%Z (d :: ds)) as [I4|I4]; cbn [In] in I4; try (exfalso; tauto);
      destruct (Z.eqb_spec d (Z.of_nat j - Z.of_nat r)) as [J1|J1]; destruct (Z.eqb_spec d (Z.of_nat r - Z.of_nat j)) as [J2|J2]; try (exfalso; rewrite <- J1 in I1; contradiction); try (exfalso; rewrite <- J2 in I3; contradiction); try (exfalso; subst; tauto); destruct self; cbn [andb]; lia. }
    rewrite (ED _ _ Hnd Hb). unfold delivered in Hdel. unfold cols_in, diags_in in Hdel. rewrite !flat_map_app in Hdel. fold (cols_in t1) (cols_in t2) (diags_in t1) (diags_in t2) in Hdel. rewrite Hc, Hd, app_nil_r in Hdel. cbn [app] in Hdel.
    destruct (in_dec Z.eq_dec (Z.of_nat j - Z.of_nat r)%Z (diags_in t1)) as [I1|I1]; destruct (in_dec Z.eq_dec (Z.of_nat r - Z.of_nat j)%Z (diags_in t1)) as [I2|I2]; destruct self; cbn; try reflexivity.
    - exfalso. destruct (Hb _ I1) as [B1 S1]. destruct (Hb _ I2) as [B2 S2]. specialize (S1 eq_refl). specialize (S2 eq_refl). specialize (Hs eq_refl). lia.
    - exfalso. destruct Hdel as [H|[H|[H _]]]; [exact (Hin H)|exact (I1 H)|discriminate].
    - exfalso. destruct Hdel as [H|[H|[_ H]]]; [exact (Hin H)|exact (I1 H)|exact (I2 H)].
    - exfalso. destruct Hdel as [H|[H|[H _]]]; [exact (Hin H)|exact (I1 H)|discriminate].
  Qed.
End One.
