(** * PResMix: reservoir profile over any mixture of diagonals and columns. *)
From Coq Require Import QArith.
From Verif Require Import Np NpFacts Mat SLog PLog MProfile PProfile MRand SRand PRand MReservoir SReservoir PReservoir PResProb PResCol.
Set Implicit Arguments.
Open Scope nat_scope.

Section PResMix.
  Context {A : Type} {NA : NumOps A} {OL : OrdLaws A}.
  Notation num := (Np.num A).

  Lemma since_snoc c (es : list (event num)) e : since c (es ++ [e]) = if is_col_of c e then [e] else since c es ++ [e].
  Proof.
    induction es as [|x es IH]; cbn [since app existsb]; [destruct (is_col_of c e); reflexivity|].
    rewrite existsb_app, IH. cbn [existsb]. rewrite orb_false_r. destruct (is_col_of c e); [rewrite orb_true_r; reflexivity|].
    rewrite orb_false_r. destruct (existsb (is_col_of c) es); reflexivity.
  Qed.
  Lemma since_no_shift c (es : list (event num)) : Forall no_shift es -> Forall no_shift (since c es).
  Proof. induction 1 as [|e es He Hes IH]; cbn [since]; [constructor|]. destruct (existsb _ es); [exact IH|constructor; assumption]. Qed.

  (** The cells that count for column [c] *)
  Definition now (l : bool) (c : nat) (es : list (event num)) : list (Z * num) := sel (side_rows l (Z.of_nat c)) (Z.of_nat c) (log (since c es)).

  Lemma now_diag l c es d vals rest : Forall no_shift es -> now l c (es ++ [EDiag d (vals :: rest)]) = now l c es ++ new_cell l d vals c.
  Proof. intro Hn. unfold now. rewrite since_snoc. cbn [is_col_of]. apply sel_new_cell, since_no_shift, Hn. Qed.
  Lemma now_other l c es c' vs : Forall no_shift es -> c' <> c -> now l c (es ++ [ECol c' vs]) = now l c es.
  Proof.
    intros Hn Hc. unfold now. rewrite since_snoc. cbn [is_col_of]. destruct (Nat.eqb_spec c' c); [contradiction|]. rewrite log_snoc, sel_app. destruct (no_shift_qs (since_no_shift c Hn)) as [-> ->].
    destruct vs as [|vals rest]; cbn [event_cells]; [apply app_nil_r|]. rewrite sel_col. destruct (Z.eqb_spec (0 + Z.of_nat c') (Z.of_nat c)); [lia|]. apply app_nil_r.
  Qed.
  (** The rows of a column on one side *)
  Definition col_part (l : bool) (c : nat) (vals : list num) : list (Z * num) :=
    if l then mapi (fun k v => (Z.of_nat k, v)) (firstn (c + 1) vals) else mapi (fun k v => (Z.of_nat (c + 1) + Z.of_nat k, v)%Z) (skipn (c + 1) vals).
  Lemma now_col l c es vals rest : now l c (es ++ [ECol c (vals :: rest)]) = col_part l c vals.
  Proof.
    unfold now. rewrite since_snoc. cbn [is_col_of]. rewrite Nat.eqb_refl. unfold log. cbn [log_from event_cells app]. rewrite ?app_nil_r. unfold col_part, side_rows. change (Z.of_nat c) with (0 + Z.of_nat c)%Z. destruct l.
    - rewrite sel_col_left. replace (Z.to_nat (Z.max 0 (Z.of_nat c + 1 + (0 - 0)))) with (c + 1) by lia. reflexivity.
    - rewrite sel_col_right. cbv zeta. replace (Z.to_nat (Z.max 0 (Z.of_nat c + 1 + (0 - 0)))) with (c + 1) by lia. reflexivity.
  Qed.

  (** One entry *)
  Lemma kept_step cells v i k r x v' i' k' : kept cells v i k -> x <> NInf -> rres v i k r x v' i' k' -> kept (cells ++ [(r, x)]) v' i' k'.
  Proof.
    intros [[-> H]|(F & I & M & ->)] Hx HR.
    - destruct HR as [(El & -> & -> & ->)|[(El & Ee & -> & Hi & ->)|(El & Ee & -> & -> & ->)]].
      + assert (R0 : res_ok cells PInf (-1)%Z 0) by (left; auto). assert (rres PInf (-1) 0 r x x r 1) as R1 by (left; auto).
        destruct (res_ok_step R0 Hx R1) as [(E & _)|(F & I & M & E)]; [subst x; discriminate|right; auto].
      + apply andb_true_iff in Ee. destruct Ee as [Ee Fx]. apply feqb_finite in Ee. subst x. discriminate.
      + left. split; [reflexivity|]. intros r0 x0 Hi. apply in_app_or in Hi. destruct Hi as [Hi|[[= <- <-]|[]]]; [eapply H; exact Hi|exact El].
    - assert (R0 : res_ok cells v i (count v cells)) by (right; auto). destruct (res_ok_step R0 Hx HR) as [(-> & _ & _ & E)|R1]; [left; auto|right; auto].
  Qed.
  Lemma kept_det cells v i n v' i' n' : kept cells v i n -> kept cells v' i' n' -> v = v' /\ (isfinite v = true -> n = n').
  Proof.
    assert (T : forall v i n, kept cells v i n -> res_ok cells v (if isfinite v then i else -1)%Z (if isfinite v then n else 0)).
    { intros v0 i0 n0 [[-> H]|(F & H)]; [left; auto|right; rewrite F; auto]. }
    intros H1 H2. destruct (res_ok_det (T _ _ _ H1) (T _ _ _ H2)) as [<- E]. split; [reflexivity|]. intro F. rewrite F in E. exact E.
  Qed.
  Lemma kept_app_nil cells v i n : kept cells v i n -> kept (cells ++ []) v i n.
  Proof. rewrite app_nil_r. auto. Qed.

  Lemma in_mapi0 {T} (f : nat -> num -> T) l y : In y (mapi f l) <-> exists k x, nth_error l k = Some x /\ y = f k x.
  Proof. apply in_mapi. Qed.
  Lemma count_mapi v (f : nat -> Z) l : count v (mapi (fun k x => (f k, x)) l) = ties v l.
  Proof.
    unfold count, ties, mapi. generalize 0. induction l as [|x l IH]; intro k; [reflexivity|]. cbn [mapi_from filter snd]. destruct (feqb x v); cbn [length]; rewrite IH; reflexivity.
  Qed.
  Lemma ninf_finite (v : num) : v <> NInf -> isnan v = false -> v = PInf \/ isfinite v = true.
  Proof. destruct v; cbn; auto; intros; congruence. Qed.

  (** One column *)
  Lemma col_part_in l c vals r x : In (r, x) (col_part l c vals) <-> exists k, r = Z.of_nat k /\ (if l then k < c + 1 else c + 1 <= k) /\ nth_error vals k = Some x.
  Proof.
    unfold col_part. destruct l; rewrite in_mapi; split.
    - intros (k & y & Hk & E). injection E as -> ->. rewrite nth_error_firstn in Hk. destruct (Nat.ltb_spec k (c + 1)); [|discriminate]. eauto.
    - intros (k & -> & Hk & E). exists k, x. rewrite nth_error_firstn. destruct (Nat.ltb_spec k (c + 1)); [auto|lia].
    - intros (k & y & Hk & E). injection E as -> ->. rewrite nth_error_skipn in Hk. exists (c + 1 + k). split; [lia|]. split; [lia|exact Hk].
    - intros (k & -> & Hk & E). exists (k - (c + 1)), x. rewrite nth_error_skipn. replace (c + 1 + (k - (c + 1))) with k by lia. split; [exact E|]. f_equal. lia.
  Qed.
  Lemma count_col_part l c v vals : count v (col_part l c vals) = ties v (if l then firstn (c + 1) vals else skipn (c + 1) vals).
  Proof. unfold col_part. destruct l; [apply (count_mapi v Z.of_nat)|apply (count_mapi v (fun k => (Z.of_nat (c + 1) + Z.of_nat k)%Z))]. Qed.

  Lemma col_kept (l : bool) c vals v i n : ~ In NInf vals -> no_nan vals -> (if l then col_ok vals 0 (Nat.min (c + 1) (length vals)) v i n else col_ok vals (c + 1) (length vals) v i n) -> kept (col_part l c vals) v i n.
  Proof.
    intros Hni Hn H.
    assert (G : exists k, i = Z.of_nat k /\ (if l then k < c + 1 else c + 1 <= k) /\ nth_error vals k = Some v).
    { destruct l; destruct H as ((k & -> & Hk & E) & _); exists k; (split; [reflexivity|]; split; [lia|exact E]). }
    assert (M : forall r x, In (r, x) (col_part l c vals) -> fltb x v = false).
    { intros r x Hin. apply col_part_in in Hin. destruct Hin as (k & _ & Hk & E). pose proof (nth_error_some_lt _ _ E). destruct l; destruct H as (_ & H & _); (eapply H; [|exact E]); lia. }
    assert (N : n = count v (col_part l c vals)).
    { rewrite count_col_part. destruct l; destruct H as (_ & _ & ->); f_equal; unfold lslice.
      - rewrite Nat.sub_0_r. cbn [skipn]. destruct (Nat.le_gt_cases (c + 1) (length vals)); [rewrite Nat.min_l by assumption; reflexivity|]. rewrite Nat.min_r by lia. rewrite !firstn_all2; auto; lia.
      - rewrite firstn_all2; [reflexivity|]. rewrite skipn_length. lia. }
    destruct G as (k & -> & Hk & E). assert (Hv : In v vals) by (eapply nth_error_In; exact E).
    destruct (@ninf_finite v) as [->|F]; [intro Ev; subst v; contradiction|apply Hn, Hv| |].
    - left. split; [reflexivity|exact M].
    - right. split; [exact F|]. split; [apply col_part_in; eauto|]. auto.
  Qed.

  (** Invariant *)
  Definition entry (l : bool) (s : @mrs A) (c : nat) := ent3 (side_mp l s) (side_idx l s) (side_nm l s) c.
  Definition mixed_ok (h w : nat) (es : list (event num)) (s : mrs) : Prop :=
    mrs_shape h w s /\ forall l c, c < w -> exists v i n, entry l s c = Some (v, i, n) /\ kept (now l c es) v i n.

  Lemma mixed_init h w : mixed_ok h w [] (mrs_init h w).
  Proof.
    split; [split; [reflexivity|]; unfold mrs_len; cbn; rewrite !repeat_length; auto 10|]. intros l c Hc. exists PInf, (-1)%Z, 0. split.
    - unfold entry, ent3. destruct l; cbn; rewrite !nth_error_repeat'; destruct (Nat.ltb_spec c w); try lia; reflexivity.
    - left. split; [reflexivity|]. intros ? ? [].
  Qed.

  Lemma mrs_diag_rres h w s d vals rest : mrs_shape h w s -> fits h w (EDiag d (vals :: rest)) ->
    safe (mrs_diag s d (vals :: rest)) (fun s' => mrs_shape h w s' /\ forall l c v i k, entry l s c = Some (v, i, k) ->
      match new_cell l d vals c with
      | [] => entry l s' c = Some (v, i, k)
      | (r, x) :: _ => exists v' i' k', entry l s' c = Some (v', i', k') /\ rres v i k r x v' i' k'
      end).
  Proof.
    intros (Hr & L1 & L2 & L3 & L4 & L5 & L6) (Hd & vals' & rest' & E & Hv1 & Hv2). injection E as <- <-. unfold mrs_diag. cbn [row0 lift rbind]. rewrite Hr. set (rg := arange 0 (Nat.max w h)).
    destruct (Z.leb_spec 0 d) as [Hpos|Hneg].
    - assert (Li : length (lslice rg 0 (length vals)) = length vals) by (unfold rg; rewrite length_lslice, length_arange; lia).
      eapply safe_bind; [apply (@update_res_at_safe _ _ vals _ (r_left s) (r_ileft s) (r_nleft s) (Z.to_nat d) Li); lia|].
      intros [[a b] c0] (M1 & M2 & M3 & M4). cbn [safe]. split; [split; [reflexivity|]; unfold mrs_len; cbn; lia|].
      intros l c v i k He. unfold new_cell, on_side. destruct (Z.leb_spec 0 d); [|lia]. destruct l; cbn [Bool.eqb]; [|exact He]. cbn [side_mp side_idx side_nm] in *.
      specialize (M4 c v i k He). unfold diag_cell. replace (Z.to_nat (Z.max 0 d)) with (Z.to_nat d) by lia. destruct ((Z.to_nat d <=? c) && (c <? Z.to_nat d + length vals)) eqn:Eb; [|exact M4].
      destruct M4 as (x & r & v' & i' & k' & Hx & Hr' & He' & HR). rewrite Hx. exists v', i', k'. split; [exact He'|].
      assert (r = Z.max 0 (- d) + Z.of_nat (c - Z.to_nat d))%Z as <-; [|exact HR]. change (length vals) with (0 + length vals) in Hr'. unfold rg in Hr'. apply nth_error_some_lt in Hx. rewrite range_slice in Hr' by lia. injection Hr' as <-. lia.
    - set (n := Z.to_nat (- d)). assert (Li : length (lslice rg n (n + length vals)) = length vals) by (unfold rg; rewrite length_lslice, length_arange; lia).
      eapply safe_bind; [apply (@update_res_at_safe _ _ vals _ (r_right s) (r_iright s) (r_nright s) 0 Li); lia|].
      intros [[a b] c0] (M1 & M2 & M3 & M4). cbn [safe]. split; [split; [reflexivity|]; unfold mrs_len; cbn; lia|].
      intros l c v i k He. unfold new_cell, on_side. destruct (Z.leb_spec 0 d); [lia|]. destruct l; cbn [Bool.eqb]; [exact He|]. cbn [side_mp side_idx side_nm] in *.
      specialize (M4 c v i k He). unfold diag_cell. replace (Z.to_nat (Z.max 0 d)) with 0 by lia. destruct ((0 <=? c) && (c <? 0 + length vals)) eqn:Eb; [|exact M4].
      destruct M4 as (x & r & v' & i' & k' & Hx & Hr' & He' & HR). rewrite Hx. exists v', i', k'. split; [exact He'|].
      assert (r = Z.max 0 (- d) + Z.of_nat (c - 0))%Z as <-; [|exact HR]. unfold rg in Hr'. apply nth_error_some_lt in Hx. rewrite range_slice in Hr' by lia. injection Hr' as <-. lia.
  Qed.

  Lemma new_cell_one l d (vals : list num) c : ~ In NInf vals -> new_cell l d vals c = [] \/ exists r x, new_cell l d vals c = [(r, x)] /\ x <> NInf.
  Proof.
    intro Hni. unfold new_cell, diag_cell. destruct (on_side l d); [|auto]. destruct (_ && _); [|auto]. destruct (nth_error vals _) as [x|] eqn:Ex; [|auto].
    right. do 2 eexists. split; [reflexivity|]. intros ->. apply Hni. eapply nth_error_In; exact Ex.
  Qed.

  (** Only full, NaN-free columns *)
  Definition good (h w : nat) (e : event num) : Prop := no_shift e /\ fits h w e /\ full_cols h e /\ cols_no_nan e /\ no_ninf e.

  (** Rows beyond the end of the matrix do not occur. *)
  Lemma now_right_nil h w c es : Forall (good h w) es -> h <= c + 1 -> now false c es = [].
  Proof.
    intros HG Hc. induction es as [|e es IH] using rev_ind; [reflexivity|]. apply Forall_app in HG. destruct HG as [HG He]. apply Forall_inv in He. specialize (IH HG).
    assert (Hn : Forall no_shift es) by (eapply Forall_impl; [|exact HG]; intros ? H; apply H).
    destruct He as (Hs & Hf & Hfc & _). destruct e as [d vs|c' vs|n|n]; try destruct Hs.
    - destruct Hf as (Hd & vals & rest & -> & Hv1 & Hv2). rewrite now_diag, IH by assumption. cbn [app]. unfold new_cell, on_side. destruct (Z.leb_spec 0 d); cbn [Bool.eqb]; [reflexivity|].
      unfold diag_cell. replace (Z.to_nat (Z.max 0 d)) with 0 by lia. destruct (Nat.ltb_spec c (0 + length vals)); [|reflexivity]. exfalso. lia.
    - destruct Hf as (Hd & vals & rest & -> & Hv1 & _). destruct (Nat.eq_dec c' c) as [->|Hne]; [|rewrite now_other; assumption].
      rewrite now_col. unfold col_part. rewrite skipn_all2; [reflexivity|]. specialize (Hfc vals (or_introl eq_refl)). lia.
  Qed.

  Lemma mixed_step h w es s e : Forall (good h w) es -> good h w e -> mixed_ok h w es s -> safe (mrs_step s e) (mixed_ok h w (es ++ [e])).
  Proof.
    intros HG He (Hsh & Hent). assert (Hn : Forall no_shift es) by (eapply Forall_impl; [|exact HG]; intros ? H; apply H).
    destruct He as (Hs & Hf & Hfc & Hnn & Hni). destruct e as [d vs|c' vs|n|n]; try destruct Hs; cbn [mrs_step].
    - pose proof Hf as (_ & vals & rest & -> & _). specialize (Hni vals (or_introl eq_refl)). eapply safe_impl; [|apply (mrs_diag_rres Hsh Hf)]. intros s' [Hsh' H]. split; [exact Hsh'|].
      intros l c Hc. destruct (Hent l c Hc) as (v & i & k & E & HK). specialize (H l c v i k E). rewrite now_diag by assumption.
      destruct (new_cell_one l d vals c Hni) as [En|(r & x & En & Hx)]; rewrite En in H |- *; [exists v, i, k; rewrite app_nil_r; auto|]. destruct H as (v' & i' & k' & E' & HR). exists v', i', k'. split; [exact E'|]. eapply kept_step; eassumption.
    - destruct Hf as (Hc' & vals & rest & -> & Hv & _). specialize (Hni vals (or_introl eq_refl)). assert (Hnn' : no_nan vals) by exact (Hnn vals (or_introl eq_refl)). assert (Hh : length vals = h) by exact (Hfc vals (or_introl eq_refl)).
      assert (Hne : vals <> []) by (intros ->; cbn in Hv; lia).
      eapply safe_impl; [|apply (mrs_col_lemma rest (proj2 Hsh) Hc' Hne Hnn')]. intros s' (Hr & Hl & Ho & Hleft & Hright). split; [split; [rewrite Hr; apply Hsh|exact Hl]|].
      intros l c Hc. destruct (Nat.eq_dec c' c) as [->|Hcc].
      + rewrite now_col. destruct l.
        * destruct Hleft as (v & i & n & E & HK). exists v, i, n. split; [exact E|]. apply col_kept; assumption.
        * destruct (Nat.leb_spec (c + 2) (length vals)) as [H2|H2].
          -- destruct Hright as (v & i & n & E & HK). exists v, i, n. split; [exact E|]. apply col_kept; assumption.
          -- destruct (Hent false c Hc) as (v & i & n & E & HK). exists v, i, n. split; [unfold entry; cbn [side_mp side_idx side_nm] in *; rewrite Hright; exact E|].
             rewrite (@now_right_nil h w c es HG) in HK by lia. unfold col_part. rewrite skipn_all2 by lia. exact HK.
      + rewrite now_other by auto. destruct (Hent l c Hc) as (v & i & k & E & HK). exists v, i, k. split; [|exact HK]. destruct (Ho c ltac:(congruence)) as [O1 O2]. unfold entry. destruct l; cbn [side_mp side_idx side_nm] in *; [rewrite O1|rewrite O2]; exact E.
  Qed.

  Lemma mixed_run h w es : Forall (good h w) es -> safe (mrs_run (mrs_init h w) es) (mixed_ok h w es).
  Proof.
    intro HG. induction es as [|e es IH] using rev_ind; [apply mixed_init|]. apply Forall_app in HG. destruct HG as [HG He]. apply Forall_inv in He.
    unfold mrs_run. apply rfold_app_safe. eapply safe_bind; [apply IH, HG|]. intros s Hs. apply mixed_step; assumption.
  Qed.

  (** Probabilities *)
  Lemma prob_zero {X} (t : rnd X) P f : safe t P -> (forall x, P x -> f x = false) -> (prob t f == 0)%Q.
  Proof. intros Hs H. unfold prob. rewrite (@expect_ext _ _ _ _ (fun _ => 0%Q) Hs); [apply (expect_const _ _ _ Hs)|]. intros x Hx. rewrite (H x Hx). reflexivity. Qed.

  Lemma count_row_none r v cells : ~ In (r, v) cells -> count_row r v cells = 0.
  Proof.
    intro H. unfold count_row. induction cells as [|[r0 x] cells IH]; [reflexivity|]. cbn [filter fst snd]. assert (IH' := IH ltac:(intro; apply H; right; assumption)).
    destruct (feqb x v && (r0 =? r)%Z) eqn:E; [|exact IH']. exfalso. apply andb_true_iff in E. destruct E as [E1 E2]. apply feqb_finite in E1. apply Z.eqb_eq in E2. subst. apply H. left. reflexivity.
  Qed.
  Lemma count_row_once r v cells : NoDup (map fst cells) -> isnan v = false -> In (r, v) cells -> count_row r v cells = 1.
  Proof.
    intros Hd Hn Hin. unfold count_row. induction cells as [|[r0 x] cells IH]; [destruct Hin|]. cbn [map fst] in Hd. inversion Hd as [|? ? Hx Hd']; subst. cbn [filter fst snd]. destruct Hin as [E|Hin].
    - injection E as -> ->. assert (feqb v v = true) as -> by (apply feqb_eq; auto). rewrite Z.eqb_refl. cbn [andb length]. f_equal. apply count_row_none. intro C. apply Hx. apply in_map_iff. exists (r, v). auto.
    - assert (r0 <> r) by (intros ->; apply Hx; apply in_map_iff; exists (r, v); auto). destruct (Z.eqb_spec r0 r); [contradiction|]. rewrite andb_false_r. apply IH; assumption.
  Qed.
  Lemma mapi_fst_nodup (f : nat -> Z) (l : list num) : (forall a b, f a = f b -> a = b) -> NoDup (map fst (mapi (fun k x => (f k, x)) l)).
  Proof.
    intro Hf. assert (G : forall k, NoDup (map fst (mapi_from (fun k x => (f k, x)) k l)) /\ forall y, In y (map fst (mapi_from (fun k x => (f k, x)) k l)) -> exists j, k <= j /\ y = f j).
    { induction l as [|x l IH]; intro k; cbn [mapi_from map fst]; [split; [constructor|intros ? []]|]. destruct (IH (S k)) as [I1 I2]. split.
      - constructor; [|exact I1]. intro C. apply I2 in C. destruct C as (j & Hj & E). apply Hf in E. lia.
      - intros y [<-|Hy]; [exists k; auto|]. destruct (I2 y Hy) as (j & Hj & ->). exists j. split; [lia|reflexivity]. }
    apply (G 0).
  Qed.
  Lemma col_part_nodup l c (vals : list num) : NoDup (map fst (col_part l c vals)).
  Proof. unfold col_part. destruct l; apply (@mapi_fst_nodup); intros; lia. Qed.

  Lemma col_prob l h w es s c vals rest r v i k : mixed_ok h w es s -> c < w -> vals <> [] -> no_nan vals -> ~ In NInf vals -> length vals = h ->
    kept (col_part l c vals) v i k -> isfinite v = true ->
    (prob (mrs_col s c (vals :: rest)) (fun s' => at_row r (nth_error (side_idx l s') c)) == frac (count_row r v (col_part l c vals)) k)%Q.
  Proof.
    intros (Hsh & _) Hc Hne Hn Hni Hh HK Fv. destruct HK as [[-> _]|(_ & Hin & HM & ->)]; [discriminate|]. destruct (isfinite_lt _ Fv) as [_ Nv].
    destruct (in_dec (fun a b : Z => Z.eq_dec a b) r (map fst (filter (fun x => feqb (snd x) v) (col_part l c vals)))) as [Hr|Hr].
    - apply in_map_iff in Hr. destruct Hr as ([r0 x] & E & Hr). cbn [fst] in E. subst r0. apply filter_In in Hr. destruct Hr as [Hr Ex]. cbn [snd] in Ex. apply feqb_finite in Ex. subst x.
      rewrite (@count_row_once r v _ (col_part_nodup l c vals) Nv Hr), count_col_part. apply col_part_in in Hr. destruct Hr as (k & -> & Hk & E).
      assert (HM' : forall k x, (if l then k < c + 1 else c + 1 <= k) -> nth_error vals k = Some x -> fltb x v = false) by (intros k' x Hk' Hx; apply (HM (Z.of_nat k') x), col_part_in; eauto).
      destruct l; cbn [side_idx].
      + eapply Qeq_trans; [apply (mrs_col_prob_left rest (proj2 Hsh) Hc Hne Hn Hk E HM')|]. unfold lslice. rewrite Nat.sub_0_r. cbn [skipn].
        destruct (Nat.le_gt_cases (c + 1) (length vals)); [rewrite Nat.min_l by assumption; reflexivity|]. rewrite Nat.min_r by lia. rewrite !firstn_all2 by lia. reflexivity.
      + eapply Qeq_trans; [apply (mrs_col_prob_right rest (proj2 Hsh) Hc Hn Hk E HM')|]. unfold lslice. rewrite firstn_all2; [reflexivity|]. rewrite skipn_length. lia.
    - assert (Hnot : ~ In (r, v) (col_part l c vals)).
      { intro C. apply Hr, in_map_iff. exists (r, v). split; [reflexivity|]. apply filter_In. split; [exact C|]. apply feqb_eq. auto. }
      rewrite (count_row_none _ _ _ Hnot). eapply Qeq_trans; [eapply prob_zero; [apply (mrs_col_lemma rest (proj2 Hsh) Hc Hne Hn)|]|unfold frac; cbn; reflexivity].
      cbn beta. intros s' (_ & _ & _ & Hleft & Hright). 
      assert (G : exists v' i' n', entry l s' c = Some (v', i', n') /\ kept (col_part l c vals) v' i' n').
      { destruct l.
        - destruct Hleft as (v' & i' & n' & E & HK). exists v', i', n'. split; [exact E|]. apply col_kept; assumption.
        - destruct (Nat.leb_spec (c + 2) (length vals)); [|exfalso].
          + destruct Hright as (v' & i' & n' & E & HK). exists v', i', n'. split; [exact E|]. apply col_kept; assumption.
          + unfold col_part in Hin. rewrite skipn_all2 in Hin by lia. destruct Hin. }
      destruct G as (v' & i' & n' & E & HK). destruct (kept_det HK (or_intror (conj Fv (conj Hin (conj HM eq_refl))))) as [-> _]. apply ent3_inv in E. destruct E as (_ & E & _). rewrite E. cbn [at_row].
      destruct (Z.eqb_spec i' r) as [->|]; [|reflexivity]. exfalso. destruct HK as [[-> _]|(_ & C & _)]; [discriminate|exact (Hnot C)].
  Qed.

  Lemma mixed_prob h w es l c r v i k : Forall (good h w) es -> c < w -> kept (now l c es) v i k -> isfinite v = true ->
    (prob (mrs_run (mrs_init h w) es) (fun s => at_row r (nth_error (side_idx l s) c)) == frac (count_row r v (now l c es)) k)%Q.
  Proof.
    intros HG Hc. revert v i k. induction es as [|e es IH] using rev_ind; intros v i k Hok Fv; [destruct Hok as [[-> _]|(_ & [] & _)]; discriminate|].
    apply Forall_app in HG. destruct HG as [HG He]. apply Forall_inv in He. specialize (IH HG). assert (Hn : Forall no_shift es) by (eapply Forall_impl; [|exact HG]; intros ? H; apply H).
    pose proof (mixed_run HG) as Hs. unfold prob, mrs_run. rewrite rfold_app_expect, expect_bind. fold (mrs_run (mrs_init h w) es).
    assert (Hdet : forall s, mixed_ok h w es s -> exists v1 i1 k1, entry l s c = Some (v1, i1, k1) /\ nth_error (side_idx l s) c = Some i1 /\ kept (now l c es) v1 i1 k1).
    { intros s (_ & H). destruct (H l c Hc) as (v1 & i1 & k1 & E & HK). exists v1, i1, k1. split; [exact E|]. split; [|exact HK]. apply ent3_inv in E. apply E. }
    destruct (safe_ex _ _ Hs) as [s0 Hs0]. destruct (Hdet s0 Hs0) as (v0 & i0 & k0 & _ & _ & Hok0). clear s0 Hs0.
    destruct He as (Hns & Hf & Hfc & Hnn & Hni). destruct e as [d vs|c' vs|n|n]; try destruct Hns; cbn [mrs_step].
    - pose proof Hf as (_ & vals & rest & -> & _). specialize (Hni vals (or_introl eq_refl)). rewrite now_diag in Hok |- * by assumption. set (cells := now l c es) in *. set (new := new_cell l d vals c) in *. set (g := fun o => ind (at_row r o)).
      assert (Hkeep : isfinite v0 = true -> (expect (mrs_run (mrs_init h w) es) (fun s => g (nth_error (side_idx l s) c)) == frac (count_row r v0 cells) k0)%Q) by (intro F0; apply (IH v0 i0 k0 Hok0 F0)).
      assert (Hfin : isfinite v0 = true -> forall k1 i1, kept cells v0 i1 k1 -> k1 = k0) by (intros F0 k1 i1 HK; apply (kept_det HK Hok0), F0).
      assert (E : forall s, mixed_ok h w es s -> exists i1 k1, nth_error (side_idx l s) c = Some i1 /\ (isfinite v0 = true -> k1 = k0) /\ (expect (mrs_diag s d (vals :: rest)) (fun s' => g (nth_error (side_idx l s') c)) == step_expect g v0 i1 k1 new)%Q).
      { intros s Hms. destruct (Hdet s Hms) as (v1 & i1 & k1 & Hent & Hi1 & Hk1). destruct (kept_det Hok0 Hk1) as [<- _]. exists i1, k1. split; [exact Hi1|]. split; [intro F0; apply (Hfin F0 _ _ Hk1)|].
        apply (@mrs_diag_expect _ _ h w s d vals rest l c v0 i1 k1 g (proj1 Hms) Hf Hent). }
      fold g. destruct (new_cell_one l d vals c Hni) as [En|(r' & x & En & Hx)]; fold new in En; rewrite En in *.
      + rewrite app_nil_r in *. destruct (kept_det Hok0 Hok) as [-> Ek]. specialize (Ek Fv). subst k0. rewrite <- (Hkeep Fv). eapply expect_ext; [exact Hs|]. intros s Hms. destruct (E s Hms) as (i1 & k1 & E1 & _ & E2). eapply Qeq_trans; [exact E2|]. rewrite E1. reflexivity.
      + rewrite count_row_app. unfold count_row at 2. cbn [filter snd fst]. destruct (fltb x v0) eqn:El.
        * assert (R : rres v0 i0 k0 r' x x r' 1) by (left; auto). destruct (kept_det Hok (kept_step Hok0 Hx R)) as [-> Ek]. specialize (Ek Fv). subst k.
          rewrite (@expect_ext _ _ _ _ (fun _ => g (Some r')) Hs) by (intros s Hms; destruct (E s Hms) as (i1 & k1 & _ & _ & E2); eapply Qeq_trans; [exact E2|]; cbn [step_expect]; rewrite El; reflexivity).
          rewrite (expect_const _ _ _ Hs). unfold g, at_row. assert (feqb x x = true) as -> by (apply feqb_eq; split; [reflexivity|apply (isfinite_lt _ Fv)]). cbn [andb].
          assert (count_row r x cells = 0) as ->.
          { apply count_row_none. intro C. destruct Hok0 as [[-> HH]|(_ & _ & HH & _)]; rewrite (HH _ _ C) in El; discriminate. }
          destruct (r' =? r)%Z; cbn [length plus ind]; unfold frac; simpl; reflexivity.
        * destruct (feqb x v0 && isfinite x) eqn:Ee.
          -- assert (R : rres v0 i0 k0 r' x v0 i0 (S k0)) by (right; left; repeat split; auto). destruct (kept_det Hok (kept_step Hok0 Hx R)) as [-> Ek]. specialize (Ek Fv). subst k. pose proof Ee as Ee'.
             apply andb_true_iff in Ee. destruct Ee as [Ee Fx]. rewrite Ee. cbn [andb].
             rewrite (@expect_ext _ _ _ _ (fun s => frac 1 (S k0) * g (Some r') + (1 - frac 1 (S k0)) * g (nth_error (side_idx l s) c))%Q Hs).
             2:{ intros s Hms. destruct (E s Hms) as (i1 & k1 & E1 & E3 & E2). eapply Qeq_trans; [exact E2|]. rewrite E1. cbn [step_expect]. rewrite El, Ee', (E3 Fv). reflexivity. }
             rewrite (expect_affine _ _ _ _ _ Hs), (Hkeep Fv).
             assert (K0 : k0 <> 0). { destruct Hok0 as [[-> _]|(_ & I & _ & ->)]; [discriminate|]. pose proof (count_pos _ _ _ I). destruct (isfinite_lt _ Fv). lia. }
             unfold g, at_row. destruct (r' =? r)%Z; cbn [length ind].
             ++ destruct (frac_split (count_row r v0 cells) k0) as [EE|]; [|lia]. rewrite Nat.add_1_r, <- EE. ring.
             ++ destruct (frac_split0 (count_row r v0 cells) k0) as [EE|]; [|lia]. rewrite Nat.add_0_r, <- EE. ring.
          -- assert (R : rres v0 i0 k0 r' x v0 i0 k0) by (right; right; auto). destruct (kept_det Hok (kept_step Hok0 Hx R)) as [-> Ek]. specialize (Ek Fv). subst k.
             assert (feqb x v0 = false) as ->. { destruct (feqb x v0) eqn:EE; [|reflexivity]. pose proof (feqb_finite _ _ EE) as ->. rewrite Fv in Ee. discriminate. }
             cbn [andb length]. rewrite Nat.add_0_r, <- (Hkeep Fv). eapply expect_ext; [exact Hs|]. intros s Hms. destruct (E s Hms) as (i1 & k1 & E1 & _ & E2). eapply Qeq_trans; [exact E2|]. rewrite E1. cbn [step_expect]. rewrite El, Ee. reflexivity.
    - destruct Hf as (Hc' & vals & rest & -> & Hv & _). specialize (Hni vals (or_introl eq_refl)). assert (Hnn' : no_nan vals) by exact (Hnn vals (or_introl eq_refl)). assert (Hh : length vals = h) by exact (Hfc vals (or_introl eq_refl)).
      assert (Hne : vals <> []) by (intros ->; cbn in Hv; lia). destruct (Nat.eq_dec c' c) as [->|Hcc].
      + rewrite now_col in Hok |- *. rewrite (@expect_ext _ _ _ _ (fun _ => frac (count_row r v (col_part l c vals)) k) Hs); [apply (expect_const _ _ _ Hs)|]. intros s Hms. eapply col_prob; eassumption.
      + rewrite now_other in Hok |- * by assumption. rewrite <- (IH v i k Hok Fv). unfold prob. eapply expect_ext; [exact Hs|]. intros s Hms.
        assert (Hcs := mrs_col_lemma rest (proj2 (proj1 Hms)) Hc' Hne Hnn'). rewrite (@expect_ext _ _ _ _ (fun _ => ind (at_row r (nth_error (side_idx l s) c))) Hcs); [apply (expect_const _ _ _ Hcs)|].
        intros s' (_ & _ & Ho & _). destruct (Ho c ltac:(congruence)) as [O1 O2]. destruct (Hdet s Hms) as (v1 & i1 & k1 & Hent & Hi1 & _). rewrite Hi1. unfold entry in Hent.
        destruct l; cbn [side_mp side_idx side_nm] in *; [rewrite <- O1 in Hent|rewrite <- O2 in Hent]; apply ent3_inv in Hent; destruct Hent as (_ & -> & _); reflexivity.
  Qed.

  (** The merged profile *)
  Notation cells c es := (sel all_rows (Z.of_nat c) (log (since c es))).
  Definition norm_i (v : num) (i : Z) : Z := if isfinite v then i else (-1)%Z.
  Definition norm_n (v : num) (n : nat) : nat := if isfinite v then n else 0.
  Lemma kept_res L v i n : kept L v i n -> res_ok L v (norm_i v i) (norm_n v n).
  Proof. unfold norm_i, norm_n. intros [[-> H]|(F & H)]; [left; auto|right; rewrite F; auto]. Qed.
  Lemma res_kept L v i n : res_ok L v i n -> kept L v i n.
  Proof. intros [(H1 & _ & _ & H2)|H]; [left; auto|right; auto]. Qed.
  Lemma kept_inf L i n i' n' : kept L PInf i n -> kept L PInf i' n'.
  Proof. intros [[_ H]|(F & _)]; [left; auto|discriminate]. Qed.

  Lemma kept_merge c es vl il nl vr ir nr : kept (now true c es) vl il nl -> kept (now false c es) vr ir nr ->
    (exists n, kept (cells c es) (merged vl vr) (if fltb vl vr then il else ir) n) /\
    (feqb vl vr = true -> exists n, kept (cells c es) (merged vl vr) il n).
  Proof.
    intros K1 K2. pose proof (kept_res K1) as R1. pose proof (kept_res K2) as R2. unfold now in R1, R2. cbn [side_rows] in R1, R2.
    destruct (res_ok_merge _ _ R1 R2) as [M1 M2]. split.
    - apply res_kept in M1. unfold merged in *. destruct (fltb vl vr) eqn:El.
      + destruct (isfinite vl) eqn:F; [unfold norm_i in M1; rewrite F in M1; eauto|]. destruct K1 as [[-> _]|(F' & _)]; [destruct vr; discriminate|congruence].
      + destruct (isfinite vr) eqn:F; [unfold norm_i in M1; rewrite F in M1; eauto|]. destruct K2 as [[-> _]|(F' & _)]; [|congruence]. exists 0. eapply kept_inf; exact M1.
    - intro Eq. destruct (isfinite vl) eqn:F.
      + specialize (M2 Eq eq_refl). apply res_kept in M2. unfold norm_i in M2. rewrite F in M2. eauto.
      + apply feqb_finite in Eq. subst vr. destruct K1 as [[-> _]|(F' & _)]; [|congruence]. exists 0. apply res_kept in M1. unfold merged in *. cbn in M1 |- *. eapply kept_inf; exact M1.
  Qed.

  Lemma mixed_merged h w es : Forall (good h w) es ->
    safe (rbind (mrs_run (mrs_init h w) es) (fun s => rbind (mrs_idx s) (fun l => Ret (mrs_mp s, l)))) (fun r =>
      length (fst r) = w /\ length (snd r) = w /\
      forall c, c < w -> exists v i n, nth_error (fst r) c = Some v /\ nth_error (snd r) c = Some i /\ kept (cells c es) v i n).
  Proof.
    intro HG. eapply safe_bind; [apply mixed_run; eassumption|]. intros s ((_ & Hlen) & Hent). pose proof Hlen as (A1 & A2 & A3 & B1 & B2 & B3).
    set (Q := fun c (l : list Z) => exists i n, nth_error l c = Some i /\ exists v, nth_error (mrs_mp s) c = Some v /\ kept (cells c es) v i n).
    assert (Hc : forall c, c < w -> safe (mrs_idx s) (fun l => length l = w /\ Q c l)).
    { intros c Hc. destruct (Hent true c Hc) as (vl & il & nl & E1 & R1). destruct (Hent false c Hc) as (vr & ir & nr & E2 & R2). unfold entry in E1, E2. cbn [side_mp side_idx side_nm] in E1, E2.
      eapply safe_impl; [|exact (mrs_idx_safe _ Hlen E1 E2)]. intros l [Ll H]. split; [exact Ll|]. destruct (kept_merge _ _ R1 R2) as [(n1 & M1) M2]. apply ent3_inv in E1, E2.
      assert (Em : nth_error (mrs_mp s) c = Some (merged vl vr)) by (unfold mrs_mp, merge_mp; rewrite nth_error_zip_with; destruct E1 as [-> _], E2 as [-> _]; reflexivity).
      destruct (feqb vl vr && negb (nl =? 0)) eqn:Eq; [|unfold Q; eauto 10]. apply andb_true_iff in Eq. destruct Eq as [Eq _]. destruct H as [H|H].
      - destruct (M2 Eq) as (n2 & M2'). unfold Q. eauto 10.
      - assert (fltb vl vr = false) as El. { destruct (fltb vl vr) eqn:El; [|reflexivity]. unfold feqb in Eq. rewrite (fltb_fleb_false _ _ El), andb_false_r in Eq. discriminate. }
        rewrite El in M1. unfold Q. eauto 10. }
    assert (Hall : forall n, n <= w -> safe (mrs_idx s) (fun l => length l = w /\ forall c, c < n -> Q c l)).
    { induction n as [|n IH]; intro Hn.
      - eapply safe_impl; [|unfold mrs_idx; apply merge_draws_safe]; try (rewrite ?length_where; rewrite !length_zip_with; lia). intros l [Ll _]. split; [|lia]. rewrite Ll, !length_zip_with. lia.
      - assert (Hn' : n < w) by lia. eapply safe_impl; [|apply (safe_and _ _ _ (IH ltac:(lia)) (Hc n Hn'))].
        intros l [[Ll H1] [_ H2]]. split; [exact Ll|]. intros c Hcn. destruct (Nat.eq_dec c n) as [->|]; [exact H2|]. apply H1. lia. }
    eapply safe_bind; [apply (Hall w); lia|]. intros l [Ll H]. cbn [safe fst snd]. split; [unfold mrs_mp, merge_mp; rewrite length_zip_with; lia|]. split; [exact Ll|].
    intros c Hcw. destruct (H c Hcw) as (i & n & Hi & v & Hv & HR). exists v, i, n. auto.
  Qed.

  Lemma count_lt_kept v L v' i n : kept L v' i n -> fltb v v' = true -> count v L = 0.
  Proof. intros K Hlt. eapply count_lt_zero; [apply kept_res, K|exact Hlt]. Qed.

  Lemma mixed_merged_prob h w es c r v : Forall (good h w) es -> c < w ->
    isfinite v = true -> In v (map snd (cells c es)) -> (forall r x, In (r, x) (cells c es) -> fltb x v = false) ->
    (prob (rbind (mrs_run (mrs_init h w) es) (@mrs_idx A NA)) (fun l => at_row r (nth_error l c)) == frac (count_row r v (cells c es)) (count v (cells c es)))%Q.
  Proof.
    intros HG Hc F Hin Hm. apply in_map_iff in Hin. destruct Hin as ([i v'] & E & Hin). cbn in E. subst v'.
    pose proof (mixed_run HG) as Hs. destruct (safe_ex _ _ Hs) as [s0 (_ & H0)].
    destruct (H0 true c Hc) as (vl & il & nl & _ & Rl). destruct (H0 false c Hc) as (vr & ir & nr & _ & Rr). clear H0 s0. set (a := Z.of_nat c) in *.
    destruct (res_ok_merge _ _ (kept_res Rl) (kept_res Rr)) as [Rm _]. fold a in Rm.
    assert (Rv : res_ok (cells c es) v i (count v (cells c es))) by (right; auto). destruct (res_ok_det Rv Rm) as [Ev En].
    set (g := fun o => ind (at_row r o)). unfold prob. rewrite expect_bind.
    assert (Hfl : forall k i1, isfinite vl = true -> kept (now true c es) vl i1 k -> k = nl) by (intros k i1 F1 K; apply (kept_det K Rl), F1).
    assert (Hfr : forall k i1, isfinite vr = true -> kept (now false c es) vr i1 k -> k = nr) by (intros k i1 F1 K; apply (kept_det K Rr), F1).
    assert (Cl : isfinite vl = true -> nl = count vl (now true c es) /\ 0 < nl).
    { intro F1. destruct Rl as [[-> _]|(_ & I & _ & ->)]; [discriminate|]. split; [reflexivity|]. eapply count_pos; [exact I|apply (isfinite_lt _ F1)]. }
    assert (Cr : isfinite vr = true -> nr = count vr (now false c es) /\ 0 < nr).
    { intro F1. destruct Rr as [[-> _]|(_ & I & _ & ->)]; [discriminate|]. split; [reflexivity|]. eapply count_pos; [exact I|apply (isfinite_lt _ F1)]. }
    assert (Fin2 : feqb vl vr = true -> vl = v /\ vr = v).
    { intro Eq. pose proof (feqb_finite _ _ Eq). subst vr. unfold merged in Ev. destruct (fltb vl vl); auto. }
    rewrite (@expect_ext _ _ _ _ (fun s =>
      if feqb vl vr then frac nl (nl + nr) * g (nth_error (r_ileft s) c) + (1 - frac nl (nl + nr)) * g (nth_error (r_iright s) c)
      else if fltb vl vr then g (nth_error (r_ileft s) c) else g (nth_error (r_iright s) c))%Q Hs).
    2:{ intros s ((_ & Hlen) & Hent). destruct (Hent true c Hc) as (vl' & il' & nl' & E1 & Rl'). destruct (Hent false c Hc) as (vr' & ir' & nr' & E2 & Rr'). unfold entry in E1, E2. cbn [side_mp side_idx side_nm] in E1, E2.
        destruct (kept_det Rl Rl') as [<- _]. destruct (kept_det Rr Rr') as [<- _]. etransitivity; [exact (mrs_idx_expect _ Hlen E1 E2 g)|]. apply ent3_inv in E1, E2. destruct E1 as (_ & -> & _), E2 as (_ & -> & _).
        destruct (feqb vl vr) eqn:Eq.
        - destruct (Fin2 eq_refl) as [-> ->]. rewrite (Hfl _ _ F Rl'), (Hfr _ _ F Rr'). destruct (Cl F) as [_ P]. destruct (Nat.eqb_spec nl 0); [lia|]. reflexivity.
        - cbn [andb]. destruct (fltb vl vr); reflexivity. }
    pose proof (fun P1 P2 => @mixed_prob h w es true c r vl il nl HG Hc P1 P2) as Pl. pose proof (fun P1 P2 => @mixed_prob h w es false c r vr ir nr HG Hc P1 P2) as Pr.
    specialize (Pl Rl). specialize (Pr Rr). cbn [side_idx] in Pl, Pr. unfold prob in Pl, Pr. fold a.
    rewrite count_row_sides, count_sides. change (sel (is_left a) a (log (since c es))) with (now true c es). change (sel (is_right a) a (log (since c es))) with (now false c es).
    destruct (feqb vl vr) eqn:Eq.
    - destruct (Fin2 eq_refl) as [-> ->]. rewrite expect_plus, !expect_scale. unfold g. rewrite (Pl F), (Pr F). destruct (Cl F) as [<- P1]. destruct (Cr F) as [<- P2]. apply frac_merge; assumption.
    - destruct (fltb vl vr) eqn:El.
      + unfold merged in Ev. rewrite El in Ev. subst vl. unfold g. rewrite (Pl F). rewrite (count_row_zero r v (now false c es)) by (eapply count_lt_kept; [exact Rr|exact El]).
        rewrite (count_lt_kept _ Rr El), !Nat.add_0_r. destruct (Cl F) as [<- _]. reflexivity.
      + unfold merged in Ev. rewrite El in Ev. subst vr. unfold g. rewrite (Pr F).
        assert (Z0 : count v (now true c es) = 0).
        { eapply count_lt_kept; [exact Rl|]. destruct (fltb v vl) eqn:E; [reflexivity|]. exfalso.
          assert (Nl : isnan vl = false) by (destruct Rl as [[-> _]|(F' & _)]; [reflexivity|apply (isfinite_lt _ F')]). destruct (isfinite_lt _ F) as [_ Nv].
          unfold feqb in Eq. rewrite (fltb_false_fleb v vl), (fltb_false_fleb vl v) in Eq by assumption. discriminate. }
        rewrite (count_row_zero r _ _ Z0), Z0. cbn [plus]. destruct (Cr F) as [<- _]. reflexivity.
  Qed.
End PResMix.
