(** * PRoundEu: the Euclidean generator with rounding *)
From Coq Require Import QArith Reals Lra Sorted.
From Verif Require Import Np NpFacts MRing PRing MUtil MArith MCache MEuclid SReal SCalc SGen SRound PArith PDiagonal PGenRun PEuclid PRoundGen.
Set Implicit Arguments.
Open Scope nat_scope.

Lemma all_fin_list l : Forall isfin l -> exists D, l = fin D.
Proof. induction 1 as [|x l (a & ->) _ (D & ->)]; [exists []; reflexivity|]. exists (a :: D). reflexivity. Qed.
Lemma ssorted_nth (l : list R) : StronglySorted Rle l -> forall i j x y, i <= j -> nth_error l i = Some x -> nth_error l j = Some y -> (x <= y)%R.
Proof.
  induction 1 as [|a l Hl IH Ha]; intros i j x y Hij Hi Hj; [destruct i; discriminate|]. destruct i as [|i], j as [|j]; cbn in Hi, Hj; try lia.
  - assert (x = y) by congruence. lra.
  - injection Hi as <-. rewrite Forall_forall in Ha. apply Ha. eapply nth_error_In, Hj.
  - eapply IH; [|exact Hi|exact Hj]. lia.
Qed.

Section Euclid.
  Variable rnd : R -> R.
  Hypothesis HS : sane rnd.
  Local Instance NR : NumOps R := NumRnd rnd.

  (** ** Cumulative sums *)
  Fixpoint scan (a : R) (l : list R) : list R := match l with [] => [] | x :: l' => let b := rnd (a + x) in b :: scan b l' end.
  Definition scan0 (l : list R) : list R := 0%R :: match l with [] => [] | x :: l' => x :: scan x l' end.
  Lemma cumsum_from_scan l : forall a, cumsum_from (Fin a) (fin l) = fin (scan a l).
  Proof. induction l as [|x l IH]; intro a; [reflexivity|]. cbn. f_equal. apply IH. Qed.
  Lemma cumsum_scan l : fzero :: cumsum (fin l) = fin (scan0 l).
  Proof. unfold scan0. cbn [map]. f_equal. destruct l as [|x l]; [reflexivity|]. cbn. f_equal. apply cumsum_from_scan. Qed.
  Lemma length_scan l : forall a, length (scan a l) = length l.
  Proof. induction l; intro; cbn; [reflexivity|]. f_equal. auto. Qed.
  Lemma length_scan0 l : length (scan0 l) = length l + 1.
  Proof. unfold scan0. destruct l; cbn; [reflexivity|]. rewrite length_scan. lia. Qed.
  Lemma scan_sorted l : forall a, rnd a = a -> Forall (fun x => 0 <= x)%R l -> StronglySorted Rle (a :: scan a l).
  Proof.
    induction l as [|x l IH]; intros a Ha Hl; [repeat constructor|]. inversion Hl; subst. cbn. assert (Hb : (a <= rnd (a + x))%R) by (rewrite <- Ha at 1; apply (sane_mono HS); lra).
    assert (S1 : StronglySorted Rle (rnd (a + x) :: scan (rnd (a + x)) l)) by (apply IH; [apply (sane_idem HS)|assumption]).
    constructor; [exact S1|]. constructor; [exact Hb|]. inversion S1; subst. eapply Forall_impl; [|eassumption]. cbn. intros y Hy. lra.
  Qed.
  Lemma scan0_sorted l : Forall (fun x => 0 <= x /\ rnd x = x)%R l -> StronglySorted Rle (scan0 l).
  Proof.
    intro H. unfold scan0. destruct H as [|x l [H0 Hx] Hl]; [repeat constructor|]. assert (S1 : StronglySorted Rle (x :: scan x l)) by (apply scan_sorted; [exact Hx|eapply Forall_impl; [|exact Hl]; cbn; tauto]).
    constructor; [exact S1|]. constructor; [exact H0|]. inversion S1; subst. eapply Forall_impl; [|eassumption]. cbn. intros y Hy. lra.
  Qed.
  (** cumsum[m:] - cumsum[:n-m] *)
  Lemma window_diff (c : list R) m : m <= length c ->
    bop fsub (slice (fin c) (Z.of_nat m) (Z.of_nat (length (fin c)))) (slice (fin c) 0 (Z.of_nat (length (fin c)) - Z.of_nat m)) =
    Ok (fin (map (fun j => rnd (nth (j + m) c 0 - nth j c 0)) (seq 0 (length c - m))))%R.
  Proof.
    intro Hm. rewrite map_length. replace (Z.of_nat (length c) - Z.of_nat m)%Z with (Z.of_nat (length c - m)) by lia. change 0%Z with (Z.of_nat 0). rewrite !slice_nat.
    rewrite bop_eq by (unfold lslice; rewrite !firstn_length, !skipn_length, !map_length; lia). f_equal. apply nth_error_ext. intro i.
    rewrite nth_error_zip_with, !nth_error_lslice, !nth_error_map, !nth_error_seq. cbn [Nat.add]. rewrite Nat.sub_0_r.
    destruct (Nat.ltb_spec i (length c - m)); [|reflexivity].
    assert (G : forall k, k < length c -> nth_error c k = Some (nth k c 0%R)) by (intros k Hk; rewrite (nth_error_nth' c 0%R Hk); reflexivity).
    rewrite !G by lia. cbn [option_map]. rewrite (Nat.add_comm m i). reflexivity.
  Qed.
  Lemma sq_diff_rnd a b : sq_diff (Fin a) (Fin b) = Fin (rnd (rnd (a - b) * rnd (a - b))).
  Proof. reflexivity. Qed.

  (** ** Diagonals are numbers *)
  Lemma eu_diag_fin g d g' ds : cfin g -> eu_calc_diagonal g d = Ok (g', ds) -> g' = g /\ Forall nonneg ds.
  Proof.
    intros C E. unfold eu_calc_diagonal in E. apply bind_ok in E. destruct E as (sq & Es & E). apply bind_ok in E. destruct E as (dd & Ed & E). injection E as <- <-. split; [reflexivity|].
    pose proof (cfin_query C) as HQ. destruct C as (_ & _ & (_ & _ & HV) & _).
    set (P := fun x : num R => exists a, x = Fin a /\ (0 <= a)%R /\ rnd a = a).
    assert (Hs : Forall P sq).
    { assert (T : forall x y, isfin x -> isfin y -> P (sq_diff x y)).
      { intros x y (a & ->) (b & ->). rewrite sq_diff_rnd. eexists. split; [reflexivity|]. split; [apply (rnd_nonneg HS); nra|apply (sane_idem HS)]. }
      destruct (0 <=? d)%Z; (eapply all_bop; [exact T|apply all_slice; exact HQ|apply all_slice; exact HV|exact Es]). }
    destruct (@all_fin_list sq) as (D & ->); [eapply Forall_impl; [|exact Hs]; intros x (a & -> & _); exists a; reflexivity|].
    assert (HD : Forall (fun x => 0 <= x /\ rnd x = x)%R D).
    { rewrite Forall_map in Hs. eapply Forall_impl; [|exact Hs]. cbn. intros x (a & Ea & Ha). injection Ea as ->. exact Ha. }
    rewrite cumsum_scan in Ed. pose proof (scan0_sorted HD) as SS. revert Ed SS. generalize (scan0 D) as c. intros c Ed SS. destruct (Nat.le_gt_cases (ch_m g) (length c)) as [Hm|Hm].
    - rewrite window_diff in Ed by exact Hm. injection Ed as <-. rewrite !map_map, Forall_map. apply Forall_forall. intros j Hj. apply in_seq in Hj.
      apply (froot_nonneg HS). eexists. split; [reflexivity|]. apply (rnd_nonneg HS).
      assert (nth j c 0 <= nth (j + ch_m g) c 0)%R; [|lra].
      apply (ssorted_nth SS (i := j) (j := j + ch_m g)); [lia| |]; apply nth_error_nth'; lia.
    - assert (L : slice (fin c) (Z.of_nat (ch_m g)) (Z.of_nat (length (fin c))) = []).
      { rewrite slice_nat. unfold lslice. rewrite map_length, skipn_all2 by (rewrite map_length; lia). apply firstn_nil. }
      rewrite L in Ed. destruct (slice (fin c) 0 _) as [|? [|? ?]]; cbn in Ed; try discriminate; injection Ed as <-; constructor.
  Qed.

  (** ** Columns are numbers or NaN *)
  Lemma eu_full_nonneg a b v : Forall isfin a -> Forall isfin b -> euclidean_distance_squared a b = Ok v -> Forall nonneg v.
  Proof.
    intros Ha Hb E. unfold euclidean_distance_squared in E. apply bind_ok in E. destruct E as (ws & Ew & E). assert (Ev : forall x y : list (num R), Ok x = Ok y -> x = y) by (intros; congruence). apply Ev in E. subst v. rewrite map_map, Forall_map.
    eapply Forall_impl; [|exact (@windows_fin a _ ws Ha Ew)]. intros w [_ Hw].
    assert (F : isfin (fadd (fsub (fdot w w) (fmul (fofZ 2) (fdot w b))) (fdot b b))).
    { apply fadd_fin; [apply fsub_fin; [|apply fmul_fin; [apply fofZ_fin|]]|]; apply (fdot_fin rnd); assumption. }
    destruct F as (x & ->). destruct (EPSILON_pos HS) as (e & Ee & He). change (@EPSILON R NR = Fin e) in Ee. rewrite Ee. cbn. unfold Rltb. destruct (Rlt_dec x e); [exists 0%R; split; [reflexivity|lra]|]. exists x. split; [reflexivity|lra].
  Qed.
  Lemma eu_full_fin a b v : Forall isfin a -> Forall isfin b -> euclidean_distance_squared a b = Ok v -> Forall isfin v.
  Proof. intros Ha Hb E. eapply Forall_impl; [|exact (eu_full_nonneg Ha Hb E)]. apply nonneg_fin. Qed.
  Lemma sq_diff_isfin x y : isfin x -> isfin y -> isfin (sq_diff x y).
  Proof. intros (a & ->) (b & ->). rewrite sq_diff_rnd. eexists. reflexivity. Qed.
  Lemma eu_col_fin mem g c g' ds : cfin g -> eu_calc_column mem g c = Ok (g', ds) ->
    cfin g' /\ Forall (fun x => nonneg x \/ x = NaN) ds /\ (c = 0 \/ ch_prev g <> Some (Z.of_nat c - 1)%Z -> Forall nonneg ds).
  Proof.
    intros C E. unfold eu_calc_column in E. apply bind_ok in E. destruct E as ([c' v] & Ec & E). injection E as <- <-. cbn [fst snd].
    destruct (@cfin_col rnd euclidean_distance_squared sq_diff eu_full_fin sq_diff_isfin mem g c c' v C Ec) as (C' & Fv & _). split; [exact C'|]. split.
    - rewrite Forall_map. eapply Forall_impl; [|exact Fv]. intros x (a & ->). unfold froot, fsqrt. cbn. unfold Rltb. destruct (Rlt_dec a 0); [right; reflexivity|]. left. eexists. split; [reflexivity|]. apply (rnd_nonneg HS), sqrt_pos.
    - intro Hc. rewrite Forall_map. assert (Fn : Forall nonneg v).
      { unfold cache_col in Ec. apply bind_ok in Ec. destruct Ec as ([[fi bl] v0] & E0 & E). injection E as _ <-.
        assert (B : negb (match ch_prev g with Some p => (p =? Z.of_nat c - 1)%Z | None => false end) || (c =? 0) = true).
        { destruct Hc as [->|Hc]; [apply orb_true_r|]. destruct (ch_prev g) as [p|]; [|reflexivity]. destruct (Z.eqb_spec p (Z.of_nat c - 1)); [congruence|reflexivity]. }
        rewrite B in E0. apply bind_ok in E0. destruct E0 as (v & Ev & E0). injection E0 as _ _ <-. eapply eu_full_nonneg; [| |exact Ev]; [apply (cfin_query C)|]. apply all_lslice. destruct C as (_ & _ & (_ & _ & HV) & _). exact HV. }
      eapply Forall_impl; [|exact Fn]. apply (froot_nonneg HS).
  Qed.

  (** ** Histories *)
  Variables (m W Wq : nat) (self : bool).
  Hypothesis Hm : 0 < m.
  Hypothesis HW : m <= W.
  Lemma fixed_prefix (H : list (gcall R)) o : fixed_series (H ++ [o]) -> fixed_series H.
  Proof. intros N H1 c0 H2 xs E Hx. apply (N H1 c0 (H2 ++ [o]) xs); [rewrite E, <- app_assoc; reflexivity|apply in_or_app; left; exact Hx]. Qed.
  (** What the calls [H] leave behind: the windows, and a cached column that was asked for *)
  Definition einv (H : list (gcall R)) (g : @cache R) : Prop :=
    cfin g /\ ch_m g = m /\ ch_self g = self /\ rb_max (ch_series g) = W /\ rb_view (ch_series g) = fin (wS W H) /\
    (self = false -> rb_max (ch_qbuf g) = Wq /\ rb_view (ch_qbuf g) = fin (lastn Wq (q_points H))) /\
    (forall p, ch_prev g = Some p -> exists c, In (CCol c) H /\ (p <= Z.of_nat c)%Z /\ (fixed_series H -> p = Z.of_nat c)).
  Lemma einv_query H g : einv H g -> rb_view (ch_query g) = fin (wQ self W Wq H).
  Proof. intros (_ & _ & E & _ & V & Q & _). unfold ch_query, wQ. rewrite E. destruct self; [exact V|]. apply Q. reflexivity. Qed.
  Lemma s_snoc (H : list (gcall R)) o : s_points (H ++ [o]) = s_points H ++ match o with CSeries xs => xs | _ => [] end.
  Proof. unfold s_points. rewrite flat_map_app. cbn. rewrite app_nil_r. reflexivity. Qed.
  Lemma q_snoc (H : list (gcall R)) o : q_points (H ++ [o]) = q_points H ++ match o with CQuery xs => xs | _ => [] end.
  Proof. unfold q_points. rewrite flat_map_app. cbn. rewrite app_nil_r. reflexivity. Qed.
  Definition eu_rcalls (mem : nat -> num R) := grun (eu_calc_column mem) (@eu_calc_diagonal R NR) (@eu_append_series R) (@eu_append_query R).

  Lemma einv_step mem H g o g' : einv H g -> gstep (eu_calc_column mem) (@eu_calc_diagonal R NR) (@eu_append_series R) (@eu_append_query R) g (finc o) = Ok g' -> einv (H ++ [o]) g'.
  Proof.
    intros (C & I1 & I2 & I3 & I4 & I5 & I6) E. unfold einv. unfold wS in *. rewrite s_snoc, q_snoc.
    assert (I6' : forall p, ch_prev g = Some p -> exists c, In (CCol c) (H ++ [o]) /\ (p <= Z.of_nat c)%Z /\ (fixed_series (H ++ [o]) -> p = Z.of_nat c)).
    { intros p Hp. destruct (I6 p Hp) as (c & A & B & D). exists c. split; [apply in_or_app; left; exact A|]. split; [exact B|]. intro N. apply D. eapply fixed_prefix, N. }
    destruct o as [xs|xs|c|d]; cbn in E.
    - rewrite app_nil_r. unfold eu_append_series in E. rewrite map_length in E. destruct (Nat.eqb_spec (length xs) 0) as [L|L].
      + injection E as <-. destruct xs; [|discriminate]. rewrite app_nil_r. repeat (split; [assumption|]). exact I6'.
      + destruct (cfin_append_s C (all_fin xs) E) as (C' & M' & S'). split; [exact C'|]. split; [congruence|]. split; [congruence|].
        unfold cache_append_s in E. apply bind_ok in E. destruct E as ([s k] & Ep & E). cbn [fst snd] in E. destruct C as (_ & _ & Cs & _). destruct (rbx_push Cs (all_fin xs) Ep) as (_ & P2 & P3).
        assert (V : rb_view s = fin (lastn W (s_points H ++ xs))) by (rewrite P3, I3, I4, <- map_app, PRoundGen.lastn_map, lastn_app; reflexivity).
        rewrite I2 in E. clear Ep. revert E I5. case self; intros E I5; injection E as <-; cbn [ch_series ch_qbuf ch_prev].
        * split; [congruence|]. split; [exact V|]. split; [discriminate|discriminate].
        * split; [congruence|]. split; [exact V|]. split; [exact I5|]. intros p Hp. destruct (ch_prev g) as [p0|]; [|discriminate]. destruct (I6' p0 eq_refl) as (c & A & B & D).
          exists c. split; [exact A|]. split; [destruct (0 <? _)%Z eqn:Ez in Hp; injection Hp as <-; [apply Z.ltb_lt in Ez; lia|exact B]|].
          intro N. exfalso. apply in_app_or in A. destruct A as [A|[A|[]]]; [|discriminate]. apply in_split in A. destruct A as (H1 & H2 & ->). apply (N H1 c (H2 ++ [CSeries xs]) xs); [rewrite <- app_assoc; reflexivity|apply in_or_app; right; left; reflexivity].
    - rewrite app_nil_r. unfold eu_append_query in E. destruct (ch_self g) eqn:Es; [discriminate|]. rewrite map_length in E. destruct (Nat.eqb_spec (length xs) 0) as [L|L].
      + injection E as <-. destruct xs; [|discriminate]. rewrite app_nil_r. repeat (split; [assumption|]). split; [congruence|]. repeat (split; [assumption|]). exact I6'.
      + destruct (cfin_append_q C Es (all_fin xs) E) as (C' & M' & S'). split; [exact C'|]. split; [congruence|]. split; [congruence|].
        unfold cache_append_q in E. apply bind_ok in E. destruct E as ([s k] & Ep & E). cbn [fst snd] in E. destruct C as (_ & _ & _ & Cq & _). destruct (rbx_push (Cq Es) (all_fin xs) Ep) as (_ & P2 & P3).
        injection E as <-. cbn [ch_series ch_qbuf ch_prev]. split; [exact I3|]. split; [exact I4|]. split; [|discriminate].
        intro Hs. destruct (I5 Hs) as [J1 J2]. split; [congruence|]. rewrite P3, J1, J2, <- map_app, PRoundGen.lastn_map, lastn_app. reflexivity.
    - rewrite !app_nil_r. apply bind_ok in E. destruct E as ([g1 ds] & E & E1). injection E1 as <-. cbn [fst]. destruct (eu_col_fin _ _ C E) as (C' & _). split; [exact C'|].
      unfold eu_calc_column in E. apply bind_ok in E. destruct E as ([c' v] & Ec & E). injection E as <- _. cbn [fst]. unfold cache_col in Ec. apply bind_ok in Ec. destruct Ec as ([[fi bl] v0] & _ & E). injection E as <- <-.
      cbn [ch_m ch_self ch_series ch_qbuf ch_prev]. repeat (split; [assumption|]). intros p Hp. injection Hp as <-. exists c. split; [apply in_or_app; right; left; reflexivity|]. split; [lia|reflexivity].
    - rewrite !app_nil_r. apply bind_ok in E. destruct E as ([g1 ds] & E & E1). injection E1 as <-. cbn [fst]. destruct (eu_diag_fin _ C E) as [-> _]. repeat (split; [assumption|]). exact I6'.
  Qed.
  Lemma einv_run mem H2 : forall H1 g g', einv H1 g -> eu_rcalls mem g (map finc H2) = Ok g' -> einv (H1 ++ H2) g'.
  Proof.
    induction H2 as [|o H2 IH]; intros H1 g g' I E; [injection E as <-; rewrite app_nil_r; exact I|]. unfold eu_rcalls, grun in E. cbn [map foldM] in E. apply bind_ok in E. destruct E as (g1 & E1 & E).
    replace (H1 ++ o :: H2) with ((H1 ++ [o]) ++ H2) by (rewrite <- app_assoc; reflexivity). eapply IH; [eapply einv_step; eassumption|exact E].
  Qed.
  Lemma einv_streaming mem sf g : (1 <= sf)%Q -> (self = false -> 0 < Wq) -> eu_prepare_streaming mem sf m W (if self then None else Some Wq) = Ok g -> einv [] g.
  Proof.
    intros Hsf HWq E. unfold eu_prepare_streaming in E. destruct (negb _); [discriminate|]. apply bind_ok in E. destruct E as (s & Es & E). assert (HW' : 0 < W) by lia.
    destruct (@rbx_empty _ isfin _ _ _ _ Hsf HW' Es) as (P1 & M1 & V1). unfold einv, wS. change (s_points (@nil (gcall R))) with (@nil R). change (q_points (@nil (gcall R))) with (@nil R). assert (Ln : forall n, lastn n (@nil R) = []) by (intro; apply skipn_nil). rewrite !Ln. revert HWq E. case self; intros HWq E.
    - injection E as <-. split; [apply cfin_mk; cbn [cache_new ch_m ch_series ch_self ch_qbuf ch_first ch_vals]; [lia|lia|exact P1|discriminate|discriminate|constructor]|].
      cbn [cache_new ch_m ch_series ch_self ch_qbuf ch_prev]. split; [reflexivity|]. split; [reflexivity|]. split; [exact M1|]. split; [exact V1|]. split; discriminate.
    - apply bind_ok in E. destruct E as (q & Eq & E). injection E as <-. destruct (@rbx_empty _ isfin _ _ _ _ Hsf (HWq eq_refl) Eq) as (P2 & M2 & V2).
      split; [apply cfin_mk; cbn [cache_new ch_m ch_series ch_self ch_qbuf ch_first ch_vals]; [lia|lia|exact P1|intros _; exact P2|discriminate|constructor]|].
      cbn [cache_new ch_m ch_series ch_self ch_qbuf ch_prev]. split; [reflexivity|]. split; [reflexivity|]. split; [exact M1|]. split; [exact V1|]. split; [intros _; split; assumption|discriminate].
  Qed.
  Lemma einv_full H g c : einv H g -> calculated_fully H c -> c = 0 \/ ch_prev g <> Some (Z.of_nat c - 1)%Z.
  Proof.
    intros (_ & _ & _ & _ & _ & _ & I) [->|Hc]; [left; reflexivity|]. destruct (Nat.eq_dec c 0) as [|Nc]; [left; assumption|]. right. intro Ep. destruct (I _ Ep) as (c' & A & B & D). destruct Hc as [Hc|[Hf Hc]].
    - specialize (Hc _ A). lia.
    - specialize (D Hf). apply Hc. replace (c - 1) with c' by lia. exact A.
  Qed.
End Euclid.

Lemma einv_batch mem sf m (S : list R) q g : 0 < m -> m <= length S -> 0 < length (query_or S q) -> eu_prepare mem sf m (fin S) (option_map (map (@Fin R)) q) = Ok g ->
  einv m (length S) (length (query_or S q)) (self_of q) (loaded S q) g.
Proof.
  intros Hm HS HQ E. unfold eu_prepare in E. destruct (negb _); [discriminate|]. apply bind_ok in E. destruct E as (s & Es & E).
  assert (B : forall (l : list R) b, 0 < length l -> rb_new mem (Some (fin l)) None true 1 = Ok b -> rbx isfin b /\ rb_max b = length l /\ rb_view b = fin l).
  { intros l b Hl Eb. destruct (@win_data (num R) mem (fin l) 1) as (b' & Eb' & Wb); [discriminate|discriminate|rewrite map_length; lia|]. rewrite Eb in Eb'. injection Eb' as <-. rewrite map_length in Wb. destruct Wb as (W1 & W2 & _ & W4 & _).
    split; [|split; assumption]. split; [exact W1|]. split; [lia|]. rewrite W4. apply all_fin. }
  assert (HS' : 0 < length S) by lia. destruct (B S s HS' Es) as (P1 & M1 & V1).
  assert (Ln : forall l : list R, lastn (length l) l = l) by (intro l; unfold lastn; rewrite Nat.sub_diag; reflexivity).
  unfold einv, wS, loaded. destruct q as [q|]; cbn [option_map self_of query_or] in *.
  - apply bind_ok in E. destruct E as (b & Eb & E). injection E as <-. destruct (B q b HQ Eb) as (P2 & M2 & V2).
    split; [apply cfin_mk; cbn [cache_new ch_m ch_series ch_self ch_qbuf ch_first ch_vals]; [lia|lia|exact P1|intros _; exact P2|discriminate|constructor]|].
    cbn [cache_new ch_m ch_series ch_self ch_qbuf ch_prev]. unfold s_points, q_points. cbn [flat_map app]. rewrite !app_nil_r, !Ln. repeat (split; [reflexivity || assumption|]). split; [intros _; split; assumption|discriminate].
  - injection E as <-. split; [apply cfin_mk; cbn [cache_new ch_m ch_series ch_self ch_qbuf ch_first ch_vals]; [lia|lia|exact P1|discriminate|discriminate|constructor]|].
    cbn [cache_new ch_m ch_series ch_self ch_qbuf ch_prev]. unfold s_points, q_points. cbn [flat_map app]. rewrite !app_nil_r, !Ln. repeat (split; [reflexivity || assumption|]). split; discriminate.
Qed.

(** ** The error of a diagonal *)
Section Error.
  Variables (rnd : R -> R) (u t : R).
  Hypothesis Hu : (0 <= u)%R.
  Hypothesis Ht : (0 <= t <= 1)%R.
  Hypothesis Ha : accurate u t rnd.
  Open Scope R_scope.
  Definition grow (n : nat) : R := (1 + u) ^ n - 1.
  Lemma grow_S n : grow (S n) = u * (1 + u) ^ n + grow n.
  Proof. unfold grow. simpl. ring. Qed.
  Lemma pow_ge1 n : 1 <= (1 + u) ^ n.
  Proof. apply pow_R1_Rle. lra. Qed.
  Lemma grow_pos n : 0 <= grow n.
  Proof. unfold grow. pose proof (pow_ge1 n). lra. Qed.
  Lemma grow_mono n k : (n <= k)%nat -> grow n <= grow k.
  Proof. intro H. unfold grow. assert ((1 + u) ^ n <= (1 + u) ^ k) by (apply Rle_pow; [lra|exact H]). lra. Qed.
  (** [x] is [X] after [n] roundings, with [c] underflows *)
  Definition off (n c : nat) (x X : R) : Prop := 0 <= X /\ Rabs (x - X) <= grow n * (X + INR c * t).
  Lemma tiny_pos c : 0 <= INR c * t.
  Proof. apply Rmult_le_pos; [apply pos_INR|lra]. Qed.
  Lemma off_le n k c x X : (n <= k)%nat -> off n c x X -> off k c x X.
  Proof. intros H [H1 H2]. split; [exact H1|]. eapply Rle_trans; [exact H2|]. pose proof (tiny_pos c). apply Rmult_le_compat_r; [lra|apply grow_mono, H]. Qed.
  Lemma rnd_err y Y B n : Rabs Y + t <= B -> Rabs (y - Y) <= grow n * B -> Rabs (rnd y - Y) <= grow (S n) * B.
  Proof.
    intros HB H. assert (Hy : Rabs y + t <= (1 + u) ^ n * B).
    { assert (Rabs y <= Rabs (y - Y) + Rabs Y) by (replace y with ((y - Y) + Y) at 1 by ring; apply Rabs_triang). unfold grow in H. lra. }
    replace (rnd y - Y) with ((rnd y - y) + (y - Y)) by ring. eapply Rle_trans; [apply Rabs_triang|]. rewrite grow_S. pose proof (Ha y) as E.
    assert (u * (Rabs y + t) <= u * ((1 + u) ^ n * B)) by (apply Rmult_le_compat_l; [exact Hu|exact Hy]). lra.
  Qed.
  Lemma off_rnd n c y Y : (1 <= c)%nat -> off n c y Y -> off (S n) c (rnd y) Y.
  Proof.
    intros Hc [H1 H2]. split; [exact H1|]. apply rnd_err; [|exact H2]. rewrite Rabs_pos_eq by exact H1.
    assert (1 * t <= INR c * t) by (apply Rmult_le_compat_r; [lra|]; apply (le_INR 1), Hc). lra.
  Qed.
  Lemma off_add n c k x X y Y : off n c x X -> off n k y Y -> off n (c + k) (x + y) (X + Y).
  Proof.
    intros [H1 H2] [H3 H4]. split; [lra|]. replace (x + y - (X + Y)) with ((x - X) + (y - Y)) by ring. eapply Rle_trans; [apply Rabs_triang|]. rewrite plus_INR. lra.
  Qed.
  Lemma off_square a b : off 4 1 (rnd (rnd (a - b) * rnd (a - b))) (sqdiff a b).
  Proof.
    apply off_rnd; [lia|]. set (s := a - b). unfold sqdiff. fold s. assert (H0 : 0 <= s * s) by nra. split; [exact H0|]. cbn [INR]. rewrite Rmult_1_l.
    pose proof (Ha s) as E. set (e := rnd s - s) in E. replace (rnd s) with (s + e) by (unfold e; ring).
    replace ((s + e) * (s + e) - s * s) with (2 * s * e + e * e) by ring. eapply Rle_trans; [apply Rabs_triang|]. rewrite !Rabs_mult, (Rabs_pos_eq 2) by lra.
    assert (T : s * s = Rabs s * Rabs s) by (rewrite <- Rabs_mult, Rabs_pos_eq by exact H0; reflexivity). rewrite T. pose proof (Rabs_pos s) as A0. pose proof (Rabs_pos e) as E0. set (A := Rabs s) in *.
    apply Rle_trans with (2 * A * (u * (A + t)) + (u * (A + t)) * (u * (A + t))).
    { apply Rplus_le_compat; [apply Rmult_le_compat_l; [lra|exact E]|apply Rmult_le_compat; assumption]. }
    assert (G1 : 2 * A * t <= t + A * A).
    { assert (0 <= (A - 1) * (A - 1)) by apply Rle_0_sqr. assert (2 * A * t <= (1 + A * A) * t) by (apply Rmult_le_compat_r; lra).
      assert (A * A * t <= A * A * 1) by (apply Rmult_le_compat_l; [nra|lra]). lra. }
    assert (G2 : t * t <= t) by nra. assert (U2 : 0 <= u * u) by nra. assert (U3 : 0 <= u * u * u) by nra.
    replace (grow 3) with (3 * u + 3 * (u * u) + u * u * u) by (unfold grow; simpl; ring).
    replace (2 * A * (u * (A + t)) + u * (A + t) * (u * (A + t))) with (u * (2 * (A * A)) + u * (2 * A * t) + u * u * (A * A + 2 * A * t + t * t)) by ring.
    assert (AA : 0 <= A * A) by nra.
    assert (u * (2 * A * t) <= u * (t + A * A)) by (apply Rmult_le_compat_l; lra).
    assert (u * u * (A * A + 2 * A * t + t * t) <= u * u * (2 * (A * A) + 2 * t)) by (apply Rmult_le_compat_l; lra).
    assert (0 <= u * t) by nra. assert (0 <= u * u * (A * A)) by (apply Rmult_le_pos; assumption). assert (0 <= u * u * u * (A * A + t)) by (apply Rmult_le_pos; lra).
    assert (0 <= u * u * t) by (apply Rmult_le_pos; lra). lra.
  Qed.
  Lemma off_scan D T : Forall2 (off 4 1) D T -> forall n c a X, (4 <= n)%nat -> off n c a X -> forall k y, nth_error (scan rnd a D) k = Some y -> off (n + k + 1) (c + k + 1) y (X + rsum (firstn (k + 1) T)).
  Proof.
    induction 1 as [|x s D T Hx _ IH]; intros n c a X Hn HX k y E; [destruct k; discriminate|]. cbn [scan] in E.
    assert (H1 : off (S n) (c + 1) (rnd (a + x)) (X + s)) by (apply off_rnd; [lia|]; apply off_add; [exact HX|apply off_le with 4%nat; assumption]).
    destruct k as [|k]; cbn [nth_error] in E.
    - injection E as <-. cbn [Nat.add firstn rsum fold_right]. replace (n + 0 + 1)%nat with (S n) by lia. replace (c + 0 + 1)%nat with (c + 1)%nat by lia. unfold rsum. cbn [fold_right]. rewrite Rplus_0_r. exact H1.
    - assert (HSn : (4 <= S n)%nat) by lia. pose proof (IH (S n) _ _ _ HSn H1 k y E) as G. replace (n + S k + 1)%nat with (S n + k + 1)%nat by lia. replace (c + S k + 1)%nat with (c + 1 + k + 1)%nat by lia.
      replace (X + rsum (firstn (S k + 1) (s :: T))) with (X + s + rsum (firstn (k + 1) T)); [exact G|]. cbn [Nat.add firstn]. unfold rsum. cbn [fold_right]. ring.
  Qed.
  Lemma off_scan0 D T : Forall2 (off 4 1) D T -> forall k y, nth_error (scan0 rnd D) k = Some y -> off (k + 3) k y (rsum (firstn k T)).
  Proof.
    intros H k y E. unfold scan0 in E. destruct k as [|k]; cbn [nth_error] in E.
    - injection E as <-. unfold rsum. cbn [firstn fold_right INR]. split; [lra|]. replace (0 - 0) with 0 by ring. cbn [INR]. rewrite Rabs_R0. lra.
    - destruct H as [|x s D T Hx H]; [destruct k; discriminate|]. destruct k as [|k]; cbn [nth_error] in E.
      + injection E as <-. unfold rsum. cbn [firstn fold_right]. rewrite Rplus_0_r. exact Hx.
      + pose proof (off_scan H (n := 4) (le_n 4) Hx k E) as G. replace (S (S k) + 3)%nat with (4 + k + 1)%nat by lia. replace (S (S k)) with (1 + k + 1)%nat at 1 by lia.
        replace (rsum (firstn (S (S k)) (s :: T))) with (s + rsum (firstn (k + 1) T)); [exact G|]. rewrite (Nat.add_1_r k). reflexivity.
  Qed.
  Lemma sqrt_off v D : 0 <= v -> 0 <= D -> Rabs (sqrt v - sqrt D) <= sqrt (Rabs (v - D)).
  Proof.
    intros Hv HD. assert (A : forall x y, 0 <= x -> x <= y -> sqrt y - sqrt x <= sqrt (y - x)).
    { intros x y Hx Hxy. assert (sqrt y <= sqrt x + sqrt (y - x)); [|lra]. rewrite <- (sqrt_square (sqrt x + sqrt (y - x))) by (pose proof (sqrt_pos x); pose proof (sqrt_pos (y - x)); lra).
      apply sqrt_le_1_alt. pose proof (sqrt_pos x). pose proof (sqrt_pos (y - x)). assert (S1 := sqrt_sqrt x Hx). assert (S2 := sqrt_sqrt (y - x) ltac:(lra)). nra. }
    destruct (Rle_lt_dec v D) as [H|H].
    - rewrite Rabs_left1 by (pose proof (sqrt_le_1_alt v D H); lra). rewrite Rabs_left1 by lra. replace (- (v - D)) with (D - v) by ring. specialize (A v D Hv H). lra.
    - rewrite Rabs_pos_eq by (pose proof (sqrt_le_1_alt D v ltac:(lra)); lra). rewrite Rabs_pos_eq by lra. apply A; lra.
  Qed.
  (** The last step: the root of [v], which is off by at most [e] from [D] *)
  Lemma root_off v D e : 0 <= v -> 0 <= D -> Rabs (v - D) <= e -> Rabs (rnd (sqrt v) - sqrt D) <= (1 + u) * sqrt e + u * (sqrt D + t).
  Proof.
    intros Hv HD He. pose proof (sqrt_off Hv HD) as H. pose proof (sqrt_le_1_alt _ _ He) as H1. pose proof (Ha (sqrt v)) as H2. rewrite (Rabs_pos_eq (sqrt v)) in H2 by apply sqrt_pos.
    replace (rnd (sqrt v) - sqrt D) with ((rnd (sqrt v) - sqrt v) + (sqrt v - sqrt D)) by ring. eapply Rle_trans; [apply Rabs_triang|].
    assert (sqrt v <= sqrt D + sqrt e). { assert (sqrt v - sqrt D <= Rabs (sqrt v - sqrt D)) by apply Rle_abs. lra. }
    assert (u * (sqrt v + t) <= u * (sqrt D + sqrt e + t)) by (apply Rmult_le_compat_l; lra). lra.
  Qed.
End Error.

Section Diagonal.
  Variables (rnd : R -> R) (u t : R).
  Hypothesis HS : sane rnd.
  Hypothesis Hu : (0 <= u)%R.
  Hypothesis Ht : (0 <= t <= 1)%R.
  Hypothesis Ha : accurate u t rnd.
  Lemma eu_diag_error g m (S Q : list R) d : 0 < m -> cfin g -> ch_m g = m -> rb_view (ch_series g) = fin S -> rb_view (ch_query g) = fin Q -> has_diag m S Q d ->
    exists ds, @eu_calc_diagonal R (NR rnd) g d = Ok (g, ds) /\ length ds = Z.to_nat (dlen (length Q + 1 - m) (length S + 1 - m) d) /\
      let a := Z.to_nat (Z.max 0 (- d)) in let b := Z.to_nat (Z.max 0 d) in
      forall r, r < length ds -> exists x, nth_error ds r = Some (Fin x) /\ (0 <= x)%R /\
        let err := (((1 + u) ^ (r + m + 4) - 1) * (sqd (sub (r + m) Q a) (sub (r + m) S b) + sqd (sub r Q a) (sub r S b) + INR (2 * r + m) * t))%R in
        (Rabs (x - euclid (sub m Q (a + r)) (sub m S (b + r))) <= (1 + u) * sqrt err + u * (euclid (sub m Q (a + r)) (sub m S (b + r)) + t))%R.
  Proof.
    intros Hm C Em VS VQ Hd. set (f := fun a b : R => rnd (rnd (a - b) * rnd (a - b))).
    destruct (@diag_align (@sq_diff R (NR rnd)) f m S Q d (sq_diff_rnd rnd) Hm Hd) as (E1' & E2 & E3 & E4 & E5 & E6 & E7).
    set (n := Z.to_nat (diag_length (Z.of_nat (length (fin Q))) (Z.of_nat (length (fin S))) d)) in *. set (a := Z.to_nat (Z.max 0 (- d))) in *. set (b := Z.to_nat (Z.max 0 d)) in *.
    set (D := zip_with f (sub n Q a) (sub n S b)) in *.
    assert (E : exists ds, @eu_calc_diagonal R (NR rnd) g d = Ok (g, ds) /\ ds = map (@froot R (NR rnd)) (fin (map (fun j => rnd (nth (j + m) (scan0 rnd D) 0 - nth j (scan0 rnd D) 0)) (seq 0 (length (scan0 rnd D) - m))))%R).
    { eexists. split; [|reflexivity]. unfold eu_calc_diagonal. rewrite VQ, VS, Em. fold n. rewrite E2. cbn [bind]. rewrite cumsum_scan. rewrite window_diff by (rewrite length_scan0; lia). reflexivity. }
    destruct E as (ds & E & Eds). exists ds. split; [exact E|]. rewrite length_scan0, E6 in Eds.
    assert (L : length ds = n + 1 - m) by (rewrite Eds, !map_length, seq_length; reflexivity). split; [rewrite L, <- E7, Nat2Z.id; reflexivity|]. cbn zeta. intros r Hr.
    destruct (eu_diag_fin HS _ C E) as [_ HN].
    set (T := zip_with sqdiff (sub n Q a) (sub n S b)).
    assert (F2 : Forall2 (off u t 4 1) D T).
    { unfold D, T. generalize (sub n Q a) (sub n S b). clear - Hu Ht Ha. unfold f. induction l as [|x xs IH]; intros [|y ys]; cbn; try constructor; [apply off_square; assumption|apply IH]. }
    assert (LT : length T = n) by (unfold T; rewrite length_zip_with, !length_sub; lia).
    assert (LC : length (scan0 rnd D) = n + 1) by (rewrite length_scan0, E6; reflexivity).
    assert (P : forall k, k <= n -> off u t (k + 3) k (nth k (scan0 rnd D) 0%R) (sqd (sub k Q a) (sub k S b))).
    { intros k Hk. replace (sqd (sub k Q a) (sub k S b)) with (rsum (firstn k T)).
      - apply (off_scan0 Hu Ht Ha F2). apply nth_error_nth'. lia.
      - change (firstn k T) with (sub k T 0). unfold T. rewrite sub_zip, !sub_sub, !Nat.add_0_r by lia. reflexivity. }
    set (c1 := nth (r + m) (scan0 rnd D) 0%R) in *. set (c0 := nth r (scan0 rnd D) 0%R) in *.
    assert (Er : nth_error ds r = Some (@froot R (NR rnd) (Fin (rnd (c1 - c0))))).
    { rewrite Eds, !nth_error_map, nth_error_seq. destruct (Nat.ltb_spec r (n + 1 - m)); [reflexivity|lia]. }
    destruct (P (r + m) ltac:(lia)) as [P1 P2]. destruct (P r ltac:(lia)) as [P3 P4]. fold c1 in P2. fold c0 in P4.
    clearbody c1 c0.
    assert (Hp : (0 <= rnd (c1 - c0))%R).
    { rewrite Forall_forall in HN. destruct (HN _ (nth_error_In _ _ Er)) as (x & Ex & _). destruct (Rlt_dec (rnd (c1 - c0)) 0) as [N|N]; [|lra]. exfalso. unfold froot, fsqrt in Ex. cbn [nltb NR NumRnd nzero] in Ex. unfold Rltb in Ex. destruct (Rlt_dec (rnd (c1 - c0)) 0); [discriminate Ex|contradiction]. }
    exists (rnd (sqrt (rnd (c1 - c0)))). split; [rewrite Er; unfold froot, fsqrt; cbn; unfold Rltb; destruct (Rlt_dec (rnd (c1 - c0)) 0); [lra|reflexivity]|].
    split; [apply (rnd_nonneg HS), sqrt_pos|]. unfold euclid. apply (root_off Hu Ha); [exact Hp|apply sqd_nonneg|].
    assert (W : sqd (sub m Q (a + r)) (sub m S (b + r)) = (sqd (sub (r + m) Q a) (sub (r + m) S b) - sqd (sub r Q a) (sub r S b))%R).
    { assert (K : forall k, k <= n -> sqd (sub k Q a) (sub k S b) = rsum (firstn k T)) by (intros k Hk; change (firstn k T) with (sub k T 0); unfold T; rewrite sub_zip, !sub_sub, !Nat.add_0_r by lia; reflexivity).
      rewrite !K by lia. rewrite rsum_sub by lia. unfold T. rewrite sub_zip, !sub_sub by lia. reflexivity. }
    rewrite W. set (T1 := sqd (sub (r + m) Q a) (sub (r + m) S b)) in *. set (T0 := sqd (sub r Q a) (sub r S b)) in *.
    replace (r + m + 4) with (Datatypes.S (r + m + 3)) by lia. change ((1 + u) ^ Datatypes.S (r + m + 3) - 1)%R with (grow u (Datatypes.S (r + m + 3))). apply (rnd_err Hu Ha).
    - assert (1 * t <= INR (2 * r + m) * t)%R by (apply Rmult_le_compat_r; [lra|]; apply (le_INR 1); lia). assert (Rabs (T1 - T0) <= T1 + T0)%R by (apply Rabs_le; lra). lra.
    - replace (c1 - c0 - (T1 - T0))%R with ((c1 - T1) + - (c0 - T0))%R by ring. eapply Rle_trans; [apply Rabs_triang|]. rewrite Rabs_Ropp.
      replace (T1 + T0 + INR (2 * r + m) * t)%R with ((T1 + INR (r + m) * t) + (T0 + INR r * t))%R by (replace (2 * r + m) with ((r + m) + r) by lia; rewrite (plus_INR (r + m) r); ring).
      rewrite Rmult_plus_distr_l. apply Rplus_le_compat; [exact P2|]. eapply Rle_trans; [exact P4|]. apply Rmult_le_compat_r; [|apply grow_mono; [exact Hu|lia]].
      pose proof (@tiny_pos t Ht r). lra.
  Qed.
End Diagonal.
