(** * PRaiseJoin: joins in which consumers raise, with the generators of the package *)
From Coq Require Import QArith Permutation.
From Verif Require Import Np NpFacts Mat MUtil MRing SLog PLog MProfile PShift MCalc SCalc SMixed SStream PCalc PCalcRun PStream SReal SGen SEnd SEndStream PArith PEndStream SEndAll SEndCons SEndStreamAll PEndStreamAll MRaise SRaise PRaise MStreamRaise SStreamRaise PStreamRaise PRaiseSelf SRaiseJoin.
Set Implicit Arguments.
Open Scope nat_scope.

Section Told.
  Context {A : Type} {NA : NumOps A} {OL : OrdLaws A}.
  Notation num := (Np.num A).
  Context {X : Type}.
  Variables (E : list X -> list X -> num) (m W Wq ndim : nat) (dimf : nat -> nat) (id : nat).
  Hypothesis Hm : 1 <= m <= W.
  Hypothesis HmQ : m <= Wq.
  Hypothesis HE : forall x y, isnan (E x y) = false.
  Hypothesis Hd : dimf id < ndim.
  Notation d := (dimf id).
  Notation join_column := (join_column E m W Wq).
  Notation heard := (heard false m W Wq ndim (-1) dimf (fun _ s q j => join_column s q j)).
  Notation paced := (paced (measured m W) false ndim).
  Notation w := (W + 1 - m).
  Notation h := (Wq + 1 - m).
  Notation D S Q := (fun r a => E (sub m Q r) (sub m S a)).

  Lemma paced_cut (ops : list (xop X)) op : paced (ops ++ [op]) -> paced ops.
  Proof. intros H pre o post E0. apply (H pre o (post ++ [op])). rewrite E0, <- app_assoc. reflexivity. Qed.

  Lemma join_column_values s rest q restq j : j < subseqs m W (length s) ->
    hide (-1) j (join_column s q j) = map (fun i => D (s ++ rest) (q ++ restq) (lost Wq (length q) + i) (lost W (length s) + j)) (seq 0 (subseqs m Wq (length q))).
  Proof.
    intro Hj. assert (LK : length (lastn Wq q) + 1 - m = subseqs m Wq (length q)) by (rewrite length_lastn; unfold subseqs; lia).
    apply nth_error_ext. intro i. unfold hide, SRaiseJoin.join_column. rewrite nth_error_mapi, LK, !nth_error_map, nth_error_seq. destruct (Nat.ltb_spec i (subseqs m Wq (length q))) as [Hi|Hi]; [|reflexivity]. cbn [option_map Nat.add]. f_equal.
    destruct (Z.leb_spec (Z.abs (Z.of_nat i - Z.of_nat j)) (-1)) as [Hb|_]; [lia|]. f_equal.
    - rewrite sub_lastn. symmetry. apply sub_app_l. unfold lost, subseqs in *. lia.
    - rewrite sub_lastn. symmetry. apply sub_app_l. unfold lost, subseqs in *. lia.
  Qed.

  Lemma join_points ids ops ss qs evs : heard ids ops ss qs evs -> (block ndim (length (hd [] ss)) ss /\ forall d', d' < ndim -> nth d' ss [] = arrived ndim d' ops) /\ (block ndim (length (hd [] qs)) qs /\ forall d', d' < ndim -> nth d' qs [] = arrived_q ndim d' ops) /\
    sshift evs = Z.of_nat (lost W (length (hd [] ss))) /\ qshift evs = Z.of_nat (lost Wq (length (hd [] qs))).
  Proof.
    assert (Hnd : 0 < ndim) by lia. intro H. induction H as [|ops ss qs evs v rows n H IH Hr s|ops ss qs evs v rows n Es H IH Hr q|ops ss qs evs op H IH Hmf|ops ss qs evs intr start upto j n H IH Hj].
    - assert (Eh : length (hd [] (repeat (@nil X) ndim)) = 0) by (destruct ndim; reflexivity). rewrite Eh. assert (B : block ndim 0 (repeat (@nil X) ndim)) by (split; [apply repeat_length|intros r Hr; apply repeat_spec in Hr; subst r; reflexivity]).
      split; [split; [exact B|intros; apply nth_repeat]|]. split; [split; [exact B|intros; apply nth_repeat]|]. split; reflexivity.
    - destruct IH as ([B I1] & [Bq Iq] & I2 & I3). destruct (block_append B (rows_block Hr)) as [B1 B2]. fold s in B1, I2. rewrite (block_hd Hnd B1). split; [split; [exact B1|]|].
      + intros d' Hd'. rewrite B2 by exact Hd'. unfold arrived. rewrite flat_map_app. fold (arrived ndim d' ops). rewrite (I1 d' Hd'). f_equal. cbn [flat_map]. destruct Hr as (R1 & R2 & R3). destruct v as [xs|rs]; subst rows; [rewrite map_length in R1|]; rewrite R1, Nat.eqb_refl, app_nil_r; reflexivity.
      + split; [split; [exact Bq|intros d' Hd'; rewrite (Iq d' Hd'); unfold arrived_q; rewrite flat_map_app; cbn; rewrite app_nil_r; reflexivity]|].
        assert (K : lost W s <= lost W (s + n)) by (unfold lost; lia). rewrite qshift_app, sshift_app, I2, I3. destruct (lost W (s + n) - lost W s) eqn:Ek; cbn [sshift qshift event_sshift event_qshift]; lia.
    - destruct IH as ([B I1] & [Bq Iq] & I2 & I3). destruct (block_append Bq (rows_block Hr)) as [B1 B2]. fold q in B1, I3. rewrite (block_hd Hnd B1).
      split; [split; [exact B|intros d' Hd'; rewrite (I1 d' Hd'); unfold arrived; rewrite flat_map_app; cbn; rewrite app_nil_r; reflexivity]|]. split; [split; [exact B1|]|].
      + intros d' Hd'. rewrite B2 by exact Hd'. unfold arrived_q. rewrite flat_map_app. fold (arrived_q ndim d' ops). rewrite (Iq d' Hd'). f_equal. cbn [flat_map]. destruct Hr as (R1 & R2 & R3). destruct v as [xs|rs]; subst rows; [rewrite map_length in R1|]; rewrite R1, Nat.eqb_refl, app_nil_r; reflexivity.
      + assert (K : lost Wq q <= lost Wq (q + n)) by (unfold lost; lia). rewrite qshift_app, sshift_app, I2, I3. destruct (lost Wq (q + n) - lost Wq q) eqn:Ek; cbn [sshift qshift event_sshift event_qshift]; lia.
    - destruct IH as ([B I1] & [Bq Iq] & I2 & I3). split; [split; [exact B|]|split; [split; [exact Bq|]|auto]]; intros d' Hd'; [rewrite (I1 d' Hd'); unfold arrived|rewrite (Iq d' Hd'); unfold arrived_q]; rewrite flat_map_app; cbn [flat_map]; rewrite app_nil_r;
        destruct op as [[xs|rs]|[xs|rs]|]; cbn [misfit as_rows] in Hmf; try contradiction; try (symmetry; apply app_nil_r); try (destruct Hmf as [Hmf|Hmf]; [discriminate|]); destruct (_ =? ndim); try discriminate; symmetry; apply app_nil_r.
    - destruct IH as ([B I1] & [Bq Iq] & I2 & I3). split; [split; [exact B|intros d' Hd'; rewrite (I1 d' Hd'); unfold arrived; rewrite flat_map_app; cbn; rewrite app_nil_r; reflexivity]|].
      split; [split; [exact Bq|intros d' Hd'; rewrite (Iq d' Hd'); unfold arrived_q; rewrite flat_map_app; cbn; rewrite app_nil_r; reflexivity]|].
      rewrite qshift_app, sshift_app, I2, I3. assert (Z0 : forall (l : list nat) (f : nat -> list (list num)), sshift (map (fun j => ECol j (f j)) l) = 0%Z /\ qshift (map (fun j => ECol j (f j)) l) = 0%Z) by (intros l f; induction l as [|a l [IH1 IH2]]; [split; reflexivity|]; cbn [map sshift qshift]; rewrite IH1, IH2; split; reflexivity).
      destruct (Z0 (seq j n) (fun j => map (fun id0 => hide (-1) j (join_column (nth (dimf id0) ss []) (nth (dimf id0) qs []) j)) ids)) as [-> ->]. lia.
  Qed.

  (** The moments at which columns were calculated, the cells that were delivered *)
  Definition told (ms : list (nat * nat * nat)) (S Q : list X) (evs : list (event num)) : Prop :=
    (forall r a v, In (r, a, v) (log evs) <-> exists r' a', r = Z.of_nat r' /\ a = Z.of_nat a' /\ (exists n nq, In (a', n, nq) ms /\ in_window m Wq nq r') /\ v = D S Q r' a') /\
    Forall (fits h w) evs /\ Forall cols_no_nan evs.
  Definition moments_ok (ms : list (nat * nat * nat)) (ns nq : nat) : Prop := forall a n k, In (a, n, k) ms -> n <= ns /\ k <= nq /\ in_window m W n a /\ m <= k.

  Lemma join_log ops ss qs evs : heard [id] ops ss qs evs -> paced ops -> forall S rest Q restq, S = nth d ss [] ++ rest -> Q = nth d qs [] ++ restq ->
    exists ms, moments_ok ms (length (nth d ss [])) (length (nth d qs [])) /\ told ms S Q evs.
  Proof.
    assert (Hnd : 0 < ndim) by lia.
    assert (Stay : forall ns nq ns' nq' (evs evs' : list (event num)) S Q, (exists ms, moments_ok ms ns nq /\ told ms S Q evs) -> ns <= ns' -> nq <= nq' ->
      (forall qs ss, log_from qs ss evs' = []) -> Forall (fun e => match e with EDiag _ _ | ECol _ _ => False | _ => True end) evs' -> exists ms, moments_ok ms ns' nq' /\ told ms S Q (evs ++ evs')).
    { intros ns nq ns' nq' evs1 evs' S Q (ms & M1 & M2 & M3 & M4) L1 L2 Hl HF. exists ms. split; [intros a n k Hin; destruct (M1 a n k Hin) as (? & ? & ? & ?); repeat split; try assumption; try lia; apply H1|].
      split; [intros r a v; unfold log; rewrite log_from_app, Hl, app_nil_r; apply M2|].
      split; apply Forall_app; (split; [assumption|]); (eapply Forall_impl; [|exact HF]); intros e He; destruct e; try contradiction; exact I. }
    intro H. induction H as [|ops ss qs evs v rows n H IH Hr s|ops ss qs evs v rows n Es H IH Hr q|ops ss qs evs op H IH Hmf|ops ss qs evs intr start upto j n H IH Hj]; intros HP S rest Q restq ES EQ.
    - exists []. split; [intros a n k []|]. split; [|split; constructor]. intros r a v. cbn. split; [intros []|intros (r' & a' & _ & _ & (n & nq & [] & _) & _)].
    - destruct (join_points H) as ([B _] & _). destruct (block_append B (rows_block Hr)) as [_ B2]. rewrite B2, <- app_assoc in ES by exact Hd. apply Stay with (ns := length (nth d ss [])) (nq := length (nth d qs [])); [eapply IH; [eapply paced_cut; exact HP|exact ES|exact EQ]|rewrite B2, app_length by exact Hd; lia|lia| |].
      + intros q0 s0. destruct (lost W (s + n) - lost W s); reflexivity.
      + destruct (lost W (s + n) - lost W s); repeat constructor.
    - destruct (join_points H) as (_ & [B _] & _). destruct (block_append B (rows_block Hr)) as [_ B2]. rewrite B2, <- app_assoc in EQ by exact Hd. apply Stay with (ns := length (nth d ss [])) (nq := length (nth d qs [])); [eapply IH; [eapply paced_cut; exact HP|exact ES|exact EQ]|lia|rewrite B2, app_length by exact Hd; lia| |].
      + intros q0 s0. destruct (lost Wq (q + n) - lost Wq q); reflexivity.
      + destruct (lost Wq (q + n) - lost Wq q); repeat constructor.
    - eapply IH; [eapply paced_cut; exact HP|exact ES|exact EQ].
    - destruct (join_points H) as ([B _] & [Bq Aq] & Sh & Qh). pose proof HP as HP0. apply paced_cut in HP0. destruct (IH HP0 S rest Q restq ES EQ) as (ms & M1 & M2 & M3 & M4). set (s := length (hd [] ss)) in *. set (q := length (hd [] qs)) in *.
      assert (Ls : length (nth d ss []) = s) by (apply (block_nth B Hd)). assert (Lq : length (nth d qs []) = q) by (apply (block_nth Bq Hd)).
      assert (Hq : m <= q). { pose proof (HP ops (XCols intr start upto) [] eq_refl) as K. cbn in K. rewrite <- (Aq 0 Hnd), (block_nth Bq Hnd) in K. exact K. }
      assert (EV : map (fun j => ECol j (map (fun id0 => hide (-1) j (join_column (nth (dimf id0) ss []) (nth (dimf id0) qs []) j)) [id])) (seq j n) = map (fun j => ECol j [map (fun i => D S Q (lost Wq q + i) (lost W s + j)) (seq 0 (subseqs m Wq q))]) (seq j n)).
      { apply map_ext_in. intros j0 Hj0. apply in_seq in Hj0. cbn [map]. rewrite (@join_column_values (nth d ss []) rest (nth d qs []) restq j0) by (rewrite Ls; lia). rewrite <- ES, <- EQ, Ls, Lq. reflexivity. }
      rewrite EV. exists (ms ++ map (fun j => (lost W s + j, s, q)) (seq j n)). split; [|split].
      + intros a k kq Hin. apply in_app_iff in Hin. destruct Hin as [Hin|Hin]; [exact (M1 a k kq Hin)|]. apply in_map_iff in Hin. destruct Hin as (j0 & Ej & Hj0). injection Ej as <- <- <-. apply in_seq in Hj0. unfold in_window. lia.
      + intros r a v. unfold log. rewrite log_from_app, in_app_iff, Sh, Qh, !Z.add_0_l. fold (log evs). rewrite M2, log_cols by (intro; eexists _, _; reflexivity).
        assert (COL : forall j0, In (r, a, v) (event_cells (Z.of_nat (lost Wq q)) (Z.of_nat (lost W s)) (ECol j0 [map (fun i => D S Q (lost Wq q + i) (lost W s + j0)) (seq 0 (subseqs m Wq q))])) <->
          exists r', r = Z.of_nat r' /\ a = Z.of_nat (lost W s + j0) /\ in_window m Wq q r' /\ v = D S Q r' (lost W s + j0)).
        { intro j0. cbn [event_cells]. unfold col_cells, in_window. rewrite in_mapi. split.
          - intros (i & x & Hi & Ex). injection Ex as -> -> ->. rewrite nth_error_map, nth_error_seq in Hi. destruct (Nat.ltb_spec i (subseqs m Wq q)) as [Hk|]; [|discriminate]. injection Hi as <-. exists (lost Wq q + i). split; [lia|]. split; [lia|]. split; [lia|reflexivity].
          - intros (r' & -> & -> & Hb & ->). exists (r' - lost Wq q). eexists. split.
            + rewrite nth_error_map, nth_error_seq. destruct (Nat.ltb_spec (r' - lost Wq q) (subseqs m Wq q)); [|lia]. reflexivity.
            + cbn [Nat.add]. replace (lost Wq q + (r' - lost Wq q)) with r' by lia. f_equal. f_equal; lia. }
        split.
        * intros [(r' & a' & -> & -> & (k & kq & H3 & H4) & ->)|(j0 & Hj0 & Hin)].
          -- exists r', a'. do 2 (split; [reflexivity|]). split; [|reflexivity]. exists k, kq. split; [apply in_app_iff; left; exact H3|exact H4].
          -- apply COL in Hin. destruct Hin as (r' & -> & -> & Hb & ->). exists r', (lost W s + j0). do 2 (split; [reflexivity|]). split; [|reflexivity]. exists s, q. split; [apply in_app_iff; right; apply in_map_iff; eauto|exact Hb].
        * intros (r' & a' & -> & -> & (k & kq & H3 & H4) & ->). apply in_app_iff in H3. destruct H3 as [H3|H3]; [left; exists r', a'; do 2 (split; [reflexivity|]); split; [|reflexivity]; exists k, kq; auto|]. right.
          apply in_map_iff in H3. destruct H3 as (j0 & Ej & Hj0). injection Ej as <- <- <-. exists j0. split; [exact Hj0|]. apply COL. exists r'. auto.
      + split; apply Forall_app; (split; [assumption|]); apply Forall_forall; intros e He; apply in_map_iff in He; destruct He as (j0 & <- & Hj0); apply in_seq in Hj0.
        * split; [unfold subseqs in Hj; lia|]. eexists _, []. split; [reflexivity|]. rewrite map_length, seq_length. unfold subseqs in *. lia.
        * intros vals [<-|[]] x Hx. apply in_map_iff in Hx. destruct Hx as (i & <- & _). apply HE.
  Qed.

  Lemma best_join ms evs S Q (P : Z -> bool) a v i : told ms S Q evs ->
    is_best (sel P (Z.of_nat a) (log evs)) v i -> smallest (fun r => seen (-1) (cells_join m Wq ms) a r /\ P (Z.of_nat r) = true) (fun r => D S Q r a) v i.
  Proof.
    intros [HL _] HB.
    assert (Cs : forall r, seen (-1) (cells_join m Wq ms) a r <-> exists n nq, In (a, n, nq) ms /\ in_window m Wq nq r).
    { intro r. unfold seen, cells_join, in_window. split.
      - intros (_ & lo & n & Hin & Hb). apply in_map_iff in Hin. destruct Hin as ([[a' k] kq] & Ek & Hin). injection Ek as -> <- <-. cbn [snd] in Hb. eauto.
      - intros (n & nq & Hin & Hb). split; [lia|]. exists (lost Wq nq), (subseqs m Wq nq). split; [|exact Hb]. apply in_map_iff. exists (a, n, nq). auto. }
    assert (Hrow : forall r, seen (-1) (cells_join m Wq ms) a r /\ P (Z.of_nat r) = true -> In (Z.of_nat r, D S Q r a) (sel P (Z.of_nat a) (log evs))).
    { intros r [Hs Hr]. apply in_sel. split; [|exact Hr]. apply HL. exists r, a. do 2 (split; [reflexivity|]). split; [apply Cs; exact Hs|reflexivity]. }
    destruct HB as [[-> HB]|(Hlt & Hin & HB)].
    - left. split; [reflexivity|]. intros r Hr. eapply HB, Hrow, Hr.
    - right. split; [exact Hlt|]. apply in_sel in Hin. destruct Hin as [Hin HP]. apply HL in Hin. destruct Hin as (r & a' & -> & Ea & Hw & ->). apply Nat2Z.inj in Ea. subst a'.
      exists r. split; [split; [apply Cs; exact Hw|exact HP]|]. do 2 (split; [reflexivity|]). intros r' Hr'. eapply HB, Hrow, Hr'.
  Qed.

  (** A ShiftingMatrixProfileLR that was told [evs] *)
  Lemma smp_join memn memz sfc ops ss qs evs : (1 <= sfc)%Q -> (sfc <= 2)%Q -> heard [id] ops ss qs evs -> paced ops -> let S := arrived ndim d ops in let Q := arrived_q ndim d ops in let first := lost W (length S) in
    exists c0 c ms, smp_init memn memz sfc h w = Ok c0 /\ smp_run c0 evs = Ok c /\ moments_ok ms (length S) (length Q) /\
      (forall j pre vals post, evs = pre ++ ECol (j + Z.to_nat (sshift post)) vals :: post -> exists n nq, In (first + j, n, nq) ms) /\
      window_profile (D S Q) first w (seen (-1) (cells_join m Wq ms)) (smp_mp c, smp_idx c) /\
      window_profile (D S Q) first w (fun a r => seen (-1) (cells_join m Wq ms) a r /\ r <= a) (rb_view (s_left c), rb_view (s_ileft c)) /\
      window_profile (D S Q) first w (fun a r => seen (-1) (cells_join m Wq ms) a r /\ a < r) (rb_view (s_right c), rb_view (s_iright c)).
  Proof.
    intros S1 S2 H HP S Q first. assert (Hnd : 0 < ndim) by lia. destruct (join_points H) as ([B ES] & [Bq EQ] & Sh & _). specialize (ES d Hd). specialize (EQ d Hd). fold S in ES. fold Q in EQ.
    assert (EL : length (hd [] ss) = length S) by (rewrite <- ES; symmetry; apply (block_nth B Hd)). rewrite EL in Sh. fold first in Sh.
    destruct (join_log H HP (S := S) [] (Q := Q) []) as (ms & M1 & TD); [rewrite app_nil_r; symmetry; exact ES|rewrite app_nil_r; symmetry; exact EQ|]. rewrite ES, EQ in M1. pose proof TD as (M2 & HF & HN).
    destruct (@C38_lemma A NA OL memn memz sfc h w evs S1 S2 ltac:(lia) HF HN) as (c0 & c & Ei & Er & _ & _ & L1 & L2 & L3 & L4 & HB).
    destruct (@C38_merged_lemma A NA OL memn memz sfc h w evs S1 S2 ltac:(lia) HF HN) as (c0' & c' & Ei' & Er' & L5 & L6 & HB'). rewrite Ei in Ei'. injection Ei' as <-. rewrite Er in Er'. injection Er' as <-.
    exists c0, c, ms. split; [exact Ei|]. split; [exact Er|]. split; [exact M1|]. split; [|split; [|split]].
    - intros j pre vals post Ev. assert (Hf : fits h w (ECol (j + Z.to_nat (sshift post)) vals)) by (rewrite Forall_forall in HF; apply HF; rewrite Ev; apply in_or_app; right; left; reflexivity).
      destruct Hf as (_ & vs & rs & -> & Hv & _). destruct vs as [|v0 vs]; [cbn in Hv; lia|].
      assert (Hin : In (qshift pre, (sshift pre + Z.of_nat (j + Z.to_nat (sshift post)))%Z, v0) (log evs)) by (rewrite Ev; unfold log; rewrite log_from_app; apply in_or_app; right; cbn [log_from]; apply in_or_app; left; left; cbn; rewrite Z.add_0_r; reflexivity).
      apply M2 in Hin. destruct Hin as (r' & a' & _ & Ea & (n & nq & Hn & _) & _). exists n, nq. replace (first + j) with a'; [exact Hn|].
      assert (P : (0 <= sshift post)%Z) by (clear; induction post as [|e l IH]; cbn [sshift]; [lia|]; destruct e; cbn [event_sshift]; lia). rewrite Ev, sshift_app in Sh. cbn [sshift event_sshift] in Sh. lia.
    - split; [exact L5|]. split; [exact L6|]. intros j Hj. destruct (HB' j Hj) as (v & i & E1 & E2 & Bs). rewrite Sh, <- Nat2Z.inj_add in Bs. exists v, i. split; [exact E1|]. split; [exact E2|].
      eapply best_join in Bs; [|exact TD]. eapply smallest_ext; [|exact Bs]. intro r. unfold all_rows. tauto.
    - split; [exact L1|]. split; [exact L3|]. intros j Hj. destruct (HB j Hj) as (vl & il & vr & ir & E1 & E2 & E3 & E4 & B1 & B2). rewrite Sh, <- Nat2Z.inj_add in B1. exists vl, il. split; [exact E1|]. split; [exact E2|].
      apply first_best_best in B1. eapply best_join in B1; [|exact TD]. eapply smallest_ext; [|exact B1]. intro r. unfold is_left. rewrite Z.leb_le. rewrite <- Nat2Z.inj_le. tauto.
    - split; [exact L2|]. split; [exact L4|]. intros j Hj. destruct (HB j Hj) as (vl & il & vr & ir & E1 & E2 & E3 & E4 & B1 & B2). rewrite Sh, <- Nat2Z.inj_add in B2. exists vr, ir. split; [exact E3|]. split; [exact E4|].
      apply first_best_best in B2. eapply best_join in B2; [|exact TD]. eapply smallest_ext; [|exact B2]. intro r. unfold is_right. rewrite negb_true_iff, Z.leb_gt. rewrite <- Nat2Z.inj_lt. tauto.
  Qed.
End Told.

(** ** Generators that answer after calls of measured clients *)
Section Gen.
  Context {A : Type}.
  Notation num := (Np.num A).
  Variables (X G : Type).
  Variable g_col : G -> nat -> res (G * list num).
  Variable g_diag : G -> Z -> res (G * list num).
  Variable g_s g_q : G -> list X -> res G.
  Variables (E : list X -> list X -> num) (m W Wq : nat) (valid : list X -> Prop) (g0 : G).
  Hypothesis Hm : 0 < m.
  Hypothesis HmQ : m <= Wq.

  Definition roomy (H : list (gcall X)) : Prop := forall H1 xs H2, H = H1 ++ CSeries xs :: H2 -> existsb asks_col H1 = false \/ length (wS W H1) = W \/ length (wS W H1) + 2 * length xs <= W.
  Definition JoinInv (_ : nat) (s q : list X) (g : G) : Prop :=
    exists H, grun g_col g_diag g_s g_q g0 H = Ok g /\ in_range false m W Wq H /\ valid_calls valid H /\ roomy H /\ s_points H = s /\ q_points H = q.
  Lemma JoinInv_nil id : JoinInv id [] [] g0.
  Proof. exists []. split; [reflexivity|]. split; [intros H1 o H2 Ex; destruct H1; discriminate|]. split; [intros o []|]. split; [intros [|] ? ? Ex; discriminate|]. split; reflexivity. Qed.

  Lemma points_snoc (H : list (gcall X)) o : s_points (H ++ [o]) = s_points H ++ (match o with CSeries xs => xs | _ => [] end) /\ q_points (H ++ [o]) = q_points H ++ match o with CQuery xs => xs | _ => [] end.
  Proof. unfold s_points, q_points. rewrite !flat_map_app. cbn [flat_map]. rewrite !app_nil_r. split; reflexivity. Qed.
  Lemma no_columns (H : list (gcall X)) : in_range false m W Wq H -> length (s_points H) < m -> existsb asks_col H = false.
  Proof.
    intros Hr Hl. apply Bool.not_true_is_false. intro Ht. apply existsb_exists in Ht. destruct Ht as (o & Hin & Ho). destruct o as [|x|c|]; try discriminate. apply in_split in Hin. destruct Hin as (H1 & H2 & ->).
    destruct (Hr H1 (CCol c) H2 eq_refl) as [K _]. unfold wS in K. rewrite length_lastn in K. unfold s_points in *. rewrite flat_map_app, app_length in Hl. lia.
  Qed.
  Lemma roomy_snoc (H : list (gcall X)) o : in_range false m W Wq H -> roomy H -> match o with CSeries xs => forall nq, measured m W (length (s_points H)) nq (Some (length xs)) | _ => True end -> roomy (H ++ [o]).
  Proof.
    intros Hr HR Ho H1 xs H2 Ex. destruct H2 as [|y H2].
    - apply app_inj_tail in Ex. destruct Ex as [<- ->]. destruct (Ho 0) as [K|[K|K]]; [left; apply no_columns; assumption| |]; right; unfold wS; rewrite length_lastn; [left|right]; lia.
    - destruct (exists_last (l := y :: H2) ltac:(discriminate)) as (H3 & z & E'). rewrite E' in Ex. change (CSeries xs :: H3 ++ [z]) with ((CSeries xs :: H3) ++ [z]) in Ex. rewrite app_assoc in Ex. apply app_inj_tail in Ex. destruct Ex as [Ex _]. exact (HR H1 xs H3 Ex).
  Qed.
  Lemma roomy_trusted (H : list (gcall X)) : roomy H -> trusted false W H.
  Proof. intro HR. right. left. exact HR. Qed.

  Lemma answers_join : answers g_col g_diag g_s g_q E false m W Wq valid g0 ->
    may_stream_if false m W Wq valid (fun _ s q j => join_column E m W Wq s q j) (measured m W) (keep g_col) (keep_a g_s) (keep_a g_q) JoinInv.
  Proof.
    intros HA id s q g (H & R1 & R2 & R3 & R4 & R5 & R6).
    assert (SN : forall o, match o with CSeries xs => valid xs /\ forall nq, measured m W (length s) nq (Some (length xs)) | CQuery xs => valid xs | CCol c => has_col m (wS W H) (wQ false W Wq H) c | CDiag _ => False end -> valid_calls valid (H ++ [o]) /\ in_range false m W Wq (H ++ [o]) /\ roomy (H ++ [o])).
    { intros o Ho. split; [intros x Hx; apply in_app_iff in Hx; destruct Hx as [Hx|[<-|[]]]; [exact (R3 x Hx)|destruct o; tauto]|]. split; [apply in_range_snoc; [exact R2|]; destruct o; tauto|]. apply roomy_snoc; [exact R2|exact R4|]. rewrite R5. destruct o; tauto. }
    split; [|split].
    - intros xs g' HL Hv Ea. unfold keep_a in Ea. destruct (g_s g xs) as [g1|e] eqn:Eg; [|discriminate]. injection Ea as ->. destruct (SN (CSeries xs) (conj Hv (fun _ => HL))) as (V1 & V2 & V3). destruct (points_snoc H (CSeries xs)) as [P1 P2].
      exists (H ++ [CSeries xs]). split; [rewrite (@run_snoc _ _ _ g_col g_diag g_s g_q g0 H (CSeries xs) g R1); exact Eg|]. do 3 (split; [assumption|]). rewrite P1, P2, app_nil_r, R5. auto.
    - intros _ xs g' Hv Ea. unfold keep_a in Ea. destruct (g_q g xs) as [g1|e] eqn:Eg; [|discriminate]. injection Ea as ->. destruct (SN (CQuery xs) Hv) as (V1 & V2 & V3). destruct (points_snoc H (CQuery xs)) as [P1 P2].
      exists (H ++ [CQuery xs]). split; [rewrite (@run_snoc _ _ _ g_col g_diag g_s g_q g0 H (CQuery xs) g R1); exact Eg|]. do 3 (split; [assumption|]). rewrite P1, P2, app_nil_r, R6. auto.
    - intros j HL Hj. cbn [measured] in HL. assert (ES : wS W H = lastn W s) by (unfold wS; rewrite R5; reflexivity). assert (EQ : wQ false W Wq H = lastn Wq q) by (unfold wQ; rewrite R6; reflexivity).
      assert (Hc : has_col m (wS W H) (wQ false W Wq H) j) by (rewrite ES, EQ; unfold has_col; rewrite !length_lastn; unfold subseqs in Hj; lia).
      destruct (HA H R2 (roomy_trusted R4) R3) as (g1 & Eg1 & HC). rewrite R1 in Eg1. injection Eg1 as <-. destruct (SN (CCol j) Hc) as (V1 & V2 & V3). destruct (HC j Hc (roomy_trusted V3)) as (g' & Eg'). unfold keep. rewrite Eg'. cbn [fst snd].
      destruct (points_snoc H (CCol j)) as [P1 P2]. split.
      + exists (H ++ [CCol j]). split; [rewrite (@run_snoc _ _ _ g_col g_diag g_s g_q g0 H (CCol j) g R1); cbn [gstep]; rewrite Eg'; reflexivity|]. do 3 (split; [assumption|]). rewrite P1, P2, !app_nil_r. auto.
      + intros v Ev. injection Ev as <-. rewrite ES. try unfold wQ. rewrite R6. split; [reflexivity|]. rewrite map_length, seq_length, length_lastn. unfold subseqs. lia.
  Qed.
  (** Their appends return. *)
  Lemma join_append : answers g_col g_diag g_s g_q E false m W Wq valid g0 -> forall id s q g xs, JoinInv id s q g ->
    valid xs -> (measured m W (length s) (length q) (Some (length xs)) -> snd (keep_a g_s g xs) = None) /\ snd (keep_a g_q g xs) = None.
  Proof.
    intros HA id s q g xs (H & R1 & R2 & R3 & R4 & R5 & R6) Hv. split; [intro HL|].
    - destruct (HA (H ++ [CSeries xs])) as (g' & Eg & _); [apply in_range_snoc; [exact R2|exact I]|apply roomy_trusted, roomy_snoc; [exact R2|exact R4|rewrite R5; intros nq; exact HL]|intros x Hx; apply in_app_iff in Hx; destruct Hx as [Hx|[<-|[]]]; [exact (R3 x Hx)|exact Hv]|].
      rewrite (@run_snoc _ _ _ g_col g_diag g_s g_q g0 H (CSeries xs) g R1) in Eg. cbn [gstep] in Eg. unfold keep_a. rewrite Eg. reflexivity.
    - destruct (HA (H ++ [CQuery xs])) as (g' & Eg & _); [apply in_range_snoc; [exact R2|reflexivity]|apply roomy_trusted, roomy_snoc; [exact R2|exact R4|exact I]|intros x Hx; apply in_app_iff in Hx; destruct Hx as [Hx|[<-|[]]]; [exact (R3 x Hx)|exact Hv]|].
      rewrite (@run_snoc _ _ _ g_col g_diag g_s g_q g0 H (CQuery xs) g R1) in Eg. cbn [gstep] in Eg. unfold keep_a. rewrite Eg. reflexivity.
  Qed.
End Gen.
