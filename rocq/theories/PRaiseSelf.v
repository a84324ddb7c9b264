(** * PRaiseSelf: self-joins in which consumers raise, with the generators of the package *)
From Coq Require Import QArith Permutation.
From Verif Require Import Np NpFacts Mat MUtil MRing SLog PLog MProfile PShift MCalc SCalc SMixed SStream PCalc PCalcRun PStream SReal SGen SEnd SEndStream PArith PEndStream SEndAll SEndCons SEndStreamAll PEndStreamAll MRaise SRaise PRaise MStreamRaise SStreamRaise PStreamRaise.
Set Implicit Arguments.
Open Scope nat_scope.

Section Told.
  Context {A : Type} {NA : NumOps A} {OL : OrdLaws A}.
  Notation num := (Np.num A).
  Context {X : Type}.
  Variables (E : list X -> list X -> num) (m W ndim : nat) (tmb : Z) (dimf : nat -> nat) (id : nat).
  Hypothesis Hm : 1 <= m <= W.
  Hypothesis HE : forall x y, isnan (E x y) = false.
  Hypothesis Hd : dimf id < ndim.
  Notation d := (dimf id).
  Notation self_column := (self_column E m W).
  Notation heard := (heard true m W W ndim tmb dimf (fun _ s _ j => self_column s j)).
  Notation w := (W + 1 - m).
  Notation D S := (fun r a => E (sub m S r) (sub m S a)).

  Lemma self_column_values s rest j : j < subseqs m W (length s) ->
    hide tmb j (self_column s j) = map (fun i => masked tmb (D (s ++ rest)) (lost W (length s) + i) (lost W (length s) + j)) (seq 0 (subseqs m W (length s))).
  Proof.
    intro Hj. assert (LK : length (lastn W s) + 1 - m = subseqs m W (length s)) by (rewrite length_lastn; unfold subseqs; lia).
    assert (SC : forall i, i < subseqs m W (length s) -> sub m (lastn W s) i = sub m (s ++ rest) (lost W (length s) + i)).
    { intros i Hi. rewrite sub_lastn. symmetry. apply sub_app_l. unfold lost, subseqs in *. lia. }
    apply nth_error_ext. intro i. unfold hide, SStreamRaise.self_column. rewrite nth_error_mapi, LK, !nth_error_map, nth_error_seq. destruct (Nat.ltb_spec i (subseqs m W (length s))) as [Hi|Hi]; [|reflexivity]. cbn [option_map Nat.add]. f_equal.
    unfold masked. rewrite (SC i Hi), (SC j Hj). replace (Z.abs (Z.of_nat (lost W (length s) + i) - Z.of_nat (lost W (length s) + j)) <=? tmb)%Z with (Z.abs (Z.of_nat i - Z.of_nat j) <=? tmb)%Z; [reflexivity|]. f_equal. f_equal. lia.
  Qed.

  Lemma heard_points ids ops ss qs evs : heard ids ops ss qs evs -> block ndim (length (hd [] ss)) ss /\ nth d ss [] = arrived ndim d ops /\ sshift evs = Z.of_nat (lost W (length (hd [] ss))) /\ qshift evs = Z.of_nat (lost W (length (hd [] ss))).
  Proof.
    assert (Hnd : 0 < ndim) by lia. intro H. induction H as [|ops ss qs evs v rows n H IH Hr s|ops ss qs evs v rows n Es|ops ss qs evs op H IH Hmf|ops ss qs evs intr start upto j n H IH Hj]; [| |discriminate| |].
    - assert (Eh : length (hd [] (repeat (@nil X) ndim)) = 0) by (destruct ndim; reflexivity). rewrite Eh. split; [split; [apply repeat_length|intros r Hr; apply repeat_spec in Hr; subst r; reflexivity]|]. split; [rewrite nth_repeat; reflexivity|]. split; reflexivity.
    - destruct IH as (B & I1 & I2 & I3). pose proof (rows_block Hr) as HB. destruct (block_append B HB) as [B1 B2]. fold s in B1, I2, I3. rewrite (block_hd Hnd B1). split; [exact B1|]. split; [|].
      + rewrite B2 by exact Hd. unfold arrived. rewrite flat_map_app. fold (arrived ndim d ops). rewrite I1. f_equal. cbn [flat_map]. destruct Hr as (R1 & R2 & R3). destruct v as [xs|rs]; subst rows; [rewrite map_length in R1|]; rewrite R1, Nat.eqb_refl, app_nil_r; reflexivity.
      + assert (K : lost W s <= lost W (s + n)) by (unfold lost; lia). rewrite qshift_app, sshift_app, I2, I3. destruct (lost W (s + n) - lost W s) eqn:Ek; cbn [sshift qshift event_sshift event_qshift]; lia.
    - destruct IH as (B & I1 & I2 & I3). split; [exact B|]. split; [|auto]. unfold arrived. rewrite flat_map_app. fold (arrived ndim d ops). rewrite I1. rewrite <- (app_nil_r (arrived ndim d ops)) at 1. f_equal.
      destruct op as [[xs|rs]|v|]; cbn [misfit] in Hmf; [| |reflexivity|destruct Hmf]; cbn [flat_map as_rows] in *; destruct (_ =? ndim); try discriminate; reflexivity.
    - destruct IH as (B & I1 & I2 & I3). split; [exact B|]. split; [unfold arrived; rewrite flat_map_app; fold (arrived ndim d ops); rewrite I1; cbn; rewrite app_nil_r; reflexivity|].
      rewrite qshift_app, sshift_app, I2, I3. assert (Z0 : forall (l : list nat) (f : nat -> list (list num)), sshift (map (fun j => ECol j (f j)) l) = 0%Z /\ qshift (map (fun j => ECol j (f j)) l) = 0%Z) by (intros l f; induction l as [|a l [IH1 IH2]]; [split; reflexivity|]; cbn [map sshift qshift]; rewrite IH1, IH2; split; reflexivity).
      destruct (Z0 (seq j n) (fun j => map (fun id0 => hide tmb j (self_column (nth (dimf id0) ss []) j)) ids)) as [-> ->]. lia.
  Qed.

  Lemma heard_log ops ss qs evs : heard [id] ops ss qs evs -> forall S rest, S = nth d ss [] ++ rest ->
    exists moments, (forall a n, In (a, n) moments -> n <= length (nth d ss []) /\ in_window m W n a) /\
      (forall r a v, In (r, a, v) (log evs) <-> exists r' a', r = Z.of_nat r' /\ a = Z.of_nat a' /\ (exists n, In (a', n) moments /\ in_window m W n r') /\ v = masked tmb (D S) r' a') /\
      Forall (fits w w) evs /\ Forall cols_no_nan evs.
  Proof.
    assert (Hnd : 0 < ndim) by lia.
    assert (Stay : forall (ss ss' : list (list X)) (evs evs' : list (event num)) S,
      (exists moments, (forall a n, In (a, n) moments -> n <= length (nth d ss []) /\ in_window m W n a) /\
        (forall r a v, In (r, a, v) (log evs) <-> exists r' a', r = Z.of_nat r' /\ a = Z.of_nat a' /\ (exists n, In (a', n) moments /\ in_window m W n r') /\ v = masked tmb (D S) r' a') /\ Forall (fits w w) evs /\ Forall cols_no_nan evs) ->
      length (nth d ss []) <= length (nth d ss' []) -> (forall qs ss, log_from qs ss evs' = []) -> Forall (fun e => match e with EDiag _ _ | ECol _ _ => False | _ => True end) evs' ->
      (exists moments, (forall a n, In (a, n) moments -> n <= length (nth d ss' []) /\ in_window m W n a) /\
        (forall r a v, In (r, a, v) (log (evs ++ evs')) <-> exists r' a', r = Z.of_nat r' /\ a = Z.of_nat a' /\ (exists n, In (a', n) moments /\ in_window m W n r') /\ v = masked tmb (D S) r' a') /\ Forall (fits w w) (evs ++ evs') /\ Forall cols_no_nan (evs ++ evs'))).
    { intros ss1 ss' evs1 evs' S (ms & M1 & M2 & M3 & M4) HL Hl HF. exists ms. split; [intros a n Hin; destruct (M1 a n Hin); split; [lia|assumption]|]. split; [intros r a v; unfold log; rewrite log_from_app, Hl, app_nil_r; apply M2|].
      split; apply Forall_app; (split; [assumption|]); (eapply Forall_impl; [|exact HF]); intros e He; destruct e; try contradiction; exact I. }
    intro H. induction H as [|ops ss qs evs v rows n H IH Hr s|ops ss qs evs v rows n Es|ops ss qs evs op H IH Hmf|ops ss qs evs intr start upto j n H IH Hj]; intros S rest ES; [| |discriminate| |].
    - exists []. split; [intros a n []|]. split; [|split; constructor]. intros r a v. cbn. split; [intros []|intros (r' & a' & _ & _ & (n & [] & _) & _)].
    - destruct (heard_points H) as (B & _). destruct (block_append B (rows_block Hr)) as [_ B2]. rewrite B2, <- app_assoc in ES by exact Hd. apply Stay with (ss := ss); [eapply IH; exact ES|rewrite B2, app_length by exact Hd; lia| |].
      + intros q0 s0. destruct (lost W (s + n) - lost W s); reflexivity.
      + destruct (lost W (s + n) - lost W s); repeat constructor.
    - eapply IH. exact ES.
    - destruct (heard_points H) as (B & _ & Sh & Qh). destruct (IH S rest ES) as (ms & M1 & M2 & M3 & M4). set (s := length (hd [] ss)) in *. assert (Ls : length (nth d ss []) = s) by (apply (block_nth B Hd)).
      assert (EV : map (fun j => ECol j (map (fun id0 => hide tmb j (self_column (nth (dimf id0) ss []) j)) [id])) (seq j n) = map (fun j => ECol j [map (fun i => masked tmb (D S) (lost W s + i) (lost W s + j)) (seq 0 (subseqs m W s))]) (seq j n)).
      { apply map_ext_in. intros j0 Hj0. apply in_seq in Hj0. cbn [map]. rewrite (@self_column_values (nth d ss []) rest j0) by (rewrite Ls; lia). rewrite <- ES, Ls. reflexivity. }
      rewrite EV. exists (ms ++ map (fun j => (lost W s + j, s)) (seq j n)). split; [|split].
      + intros a k Hin. apply in_app_iff in Hin. destruct Hin as [Hin|Hin]; [exact (M1 a k Hin)|]. apply in_map_iff in Hin. destruct Hin as (j0 & Ej & Hj0). injection Ej as <- <-. apply in_seq in Hj0. split; [lia|]. unfold in_window. lia.
      + intros r a v. unfold log. rewrite log_from_app, in_app_iff, Sh, Qh, !Z.add_0_l. fold (log evs). rewrite M2, log_cols by (intro; eexists _, _; reflexivity).
        assert (COL : forall j0, In (r, a, v) (event_cells (Z.of_nat (lost W s)) (Z.of_nat (lost W s)) (ECol j0 [map (fun i => masked tmb (D S) (lost W s + i) (lost W s + j0)) (seq 0 (subseqs m W s))])) <->
          exists r', r = Z.of_nat r' /\ a = Z.of_nat (lost W s + j0) /\ in_window m W s r' /\ v = masked tmb (D S) r' (lost W s + j0)).
        { intro j0. cbn [event_cells]. unfold col_cells, in_window. rewrite in_mapi. split.
          - intros (i & x & Hi & Ex). injection Ex as -> -> ->. rewrite nth_error_map, nth_error_seq in Hi. destruct (Nat.ltb_spec i (subseqs m W s)) as [Hk|]; [|discriminate]. injection Hi as <-. exists (lost W s + i). split; [lia|]. split; [lia|]. split; [lia|reflexivity].
          - intros (r' & -> & -> & Hb & ->). exists (r' - lost W s). eexists. split.
            + rewrite nth_error_map, nth_error_seq. destruct (Nat.ltb_spec (r' - lost W s) (subseqs m W s)); [|lia]. reflexivity.
            + cbn [Nat.add]. replace (lost W s + (r' - lost W s)) with r' by lia. f_equal. f_equal; lia. }
        split.
        * intros [(r' & a' & -> & -> & (k & H3 & H4) & ->)|(j0 & Hj0 & Hin)].
          -- exists r', a'. do 2 (split; [reflexivity|]). split; [|reflexivity]. exists k. split; [apply in_app_iff; left; exact H3|exact H4].
          -- apply COL in Hin. destruct Hin as (r' & -> & -> & Hb & ->). exists r', (lost W s + j0). do 2 (split; [reflexivity|]). split; [|reflexivity]. exists s. split; [apply in_app_iff; right; apply in_map_iff; eauto|exact Hb].
        * intros (r' & a' & -> & -> & (k & H3 & H4) & ->). apply in_app_iff in H3. destruct H3 as [H3|H3]; [left; exists r', a'; do 2 (split; [reflexivity|]); split; [|reflexivity]; exists k; auto|]. right.
          apply in_map_iff in H3. destruct H3 as (j0 & Ej & Hj0). injection Ej as <- <-. exists j0. split; [exact Hj0|]. apply COL. exists r'. auto.
      + split; apply Forall_app; (split; [assumption|]); apply Forall_forall; intros e He; apply in_map_iff in He; destruct He as (j0 & <- & Hj0); apply in_seq in Hj0.
        * split; [unfold subseqs in Hj; lia|]. eexists _, []. split; [reflexivity|]. rewrite map_length, seq_length. unfold subseqs in *. lia.
        * intros vals [<-|[]] x Hx. apply in_map_iff in Hx. destruct Hx as (i & <- & _). unfold masked. destruct (Z.leb _ _); [reflexivity|apply HE].
  Qed.

  Lemma best_told ms (L : list (cell num)) S (P : Z -> bool) a v i :
    (forall r a v, In (r, a, v) L <-> exists r' a', r = Z.of_nat r' /\ a = Z.of_nat a' /\ (exists n, In (a', n) ms /\ in_window m W n r') /\ v = masked tmb (D S) r' a') ->
    is_best (sel P (Z.of_nat a) L) v i -> smallest (fun r => seen tmb (cells_at m W ms) a r /\ P (Z.of_nat r) = true) (fun r => D S r a) v i.
  Proof.
    intros HL HB.
    assert (Cs : forall r, (exists lo n, In (a, lo, n) (cells_at m W ms) /\ lo <= r < lo + n) <-> exists n, In (a, n) ms /\ in_window m W n r).
    { intro r. unfold cells_at, in_window. split.
      - intros (lo & n & Hin & Hb). apply in_map_iff in Hin. destruct Hin as ([a' k] & Ek & Hin). injection Ek as -> <- <-. cbn [snd] in Hb. eauto.
      - intros (n & Hin & Hb). exists (lost W n), (subseqs m W n). split; [|exact Hb]. apply in_map_iff. exists (a, n). auto. }
    assert (Hrow : forall r, seen tmb (cells_at m W ms) a r /\ P (Z.of_nat r) = true -> In (Z.of_nat r, D S r a) (sel P (Z.of_nat a) L)).
    { intros r [(Hf & Hin) Hr]. apply in_sel. split; [|exact Hr]. apply HL. exists r, a. do 2 (split; [reflexivity|]). split; [apply Cs; exact Hin|]. unfold masked. destruct (Z.leb_spec (Z.abs (Z.of_nat r - Z.of_nat a)) tmb); [lia|reflexivity]. }
    destruct HB as [[-> HB]|(Hlt & Hin & HB)].
    - left. split; [reflexivity|]. intros r Hr. eapply HB, Hrow, Hr.
    - right. split; [exact Hlt|]. apply in_sel in Hin. destruct Hin as [Hin HP]. apply HL in Hin. destruct Hin as (r & a' & -> & Ea & Hw & ->). apply Nat2Z.inj in Ea. subst a'. unfold masked in *.
      destruct (Z.leb_spec (Z.abs (Z.of_nat r - Z.of_nat a)) tmb); [discriminate|]. exists r. split; [split; [split; [lia|apply Cs; exact Hw]|exact HP]|]. do 2 (split; [reflexivity|]). intros r' Hr'. eapply HB, Hrow, Hr'.
  Qed.

  (** A ShiftingMatrixProfileLR that was told [evs] *)
  Lemma smp_told memn memz sfc ops ss qs evs : (1 <= sfc)%Q -> (sfc <= 2)%Q -> heard [id] ops ss qs evs -> let S := arrived ndim d ops in let first := lost W (length S) in
    exists c0 c moments, smp_init memn memz sfc w w = Ok c0 /\ smp_run c0 evs = Ok c /\
      (forall a n, In (a, n) moments -> n <= length S /\ in_window m W n a) /\
      (forall j pre vals post, evs = pre ++ ECol (j + Z.to_nat (sshift post)) vals :: post -> exists n, In (first + j, n) moments) /\
      window_profile (D S) first w (seen tmb (cells_at m W moments)) (smp_mp c, smp_idx c) /\
      window_profile (D S) first w (fun a r => seen tmb (cells_at m W moments) a r /\ r <= a) (rb_view (s_left c), rb_view (s_ileft c)) /\
      window_profile (D S) first w (fun a r => seen tmb (cells_at m W moments) a r /\ a < r) (rb_view (s_right c), rb_view (s_iright c)).
  Proof.
    intros S1 S2 H S first. assert (Hnd : 0 < ndim) by lia. destruct (heard_points H) as (B & ES & Sh & _). fold S in ES.
    assert (EL : length (hd [] ss) = length S) by (rewrite <- ES; symmetry; apply (block_nth B Hd)). rewrite EL in Sh. fold first in Sh.
    destruct (heard_log H (S := S) []) as (ms & M1 & M2 & HF & HN); [rewrite app_nil_r; symmetry; exact ES|]. rewrite ES in M1.
    destruct (@C38_lemma A NA OL memn memz sfc w w evs S1 S2 ltac:(lia) HF HN) as (c0 & c & Ei & Er & _ & _ & L1 & L2 & L3 & L4 & HB).
    destruct (@C38_merged_lemma A NA OL memn memz sfc w w evs S1 S2 ltac:(lia) HF HN) as (c0' & c' & Ei' & Er' & L5 & L6 & HB'). rewrite Ei in Ei'. injection Ei' as <-. rewrite Er in Er'. injection Er' as <-.
    exists c0, c, ms. split; [exact Ei|]. split; [exact Er|]. split; [exact M1|]. split; [|split; [|split]].
    - intros j pre vals post Ev. assert (Hf : fits w w (ECol (j + Z.to_nat (sshift post)) vals)) by (rewrite Forall_forall in HF; apply HF; rewrite Ev; apply in_or_app; right; left; reflexivity).
      destruct Hf as (_ & vs & rs & -> & Hv & _). destruct vs as [|v0 vs]; [cbn in Hv; lia|].
      assert (Hin : In (qshift pre, (sshift pre + Z.of_nat (j + Z.to_nat (sshift post)))%Z, v0) (log evs)) by (rewrite Ev; unfold log; rewrite log_from_app; apply in_or_app; right; cbn [log_from]; apply in_or_app; left; left; cbn; rewrite Z.add_0_r; reflexivity).
      apply M2 in Hin. destruct Hin as (r' & a' & _ & Ea & (n & Hn & _) & _). exists n. replace (first + j) with a'; [exact Hn|].
      assert (P : (0 <= sshift post)%Z) by (clear; induction post as [|e l IH]; cbn [sshift]; [lia|]; destruct e; cbn [event_sshift]; lia). rewrite Ev, sshift_app in Sh. cbn [sshift event_sshift] in Sh. lia.
    - split; [exact L5|]. split; [exact L6|]. intros j Hj. destruct (HB' j Hj) as (v & i & E1 & E2 & Bs). rewrite Sh, <- Nat2Z.inj_add in Bs. exists v, i. split; [exact E1|]. split; [exact E2|].
      eapply best_told in Bs; [|exact M2]. eapply smallest_ext; [|exact Bs]. intro r. unfold all_rows. tauto.
    - split; [exact L1|]. split; [exact L3|]. intros j Hj. destruct (HB j Hj) as (vl & il & vr & ir & E1 & E2 & E3 & E4 & B1 & B2). rewrite Sh, <- Nat2Z.inj_add in B1. exists vl, il. split; [exact E1|]. split; [exact E2|].
      apply first_best_best in B1. eapply best_told in B1; [|exact M2]. eapply smallest_ext; [|exact B1]. intro r. unfold is_left. rewrite Z.leb_le. rewrite <- Nat2Z.inj_le. tauto.
    - split; [exact L2|]. split; [exact L4|]. intros j Hj. destruct (HB j Hj) as (vl & il & vr & ir & E1 & E2 & E3 & E4 & B1 & B2). rewrite Sh, <- Nat2Z.inj_add in B2. exists vr, ir. split; [exact E3|]. split; [exact E4|].
      apply first_best_best in B2. eapply best_told in B2; [|exact M2]. eapply smallest_ext; [|exact B2]. intro r. unfold is_right. rewrite negb_true_iff, Z.leb_gt. rewrite <- Nat2Z.inj_lt. tauto.
  Qed.
End Told.

(** ** Generators that answer after any calls (self-joins) *)
Section Gen.
  Context {A : Type}.
  Notation num := (Np.num A).
  Variables (X G : Type).
  Variable g_col : G -> nat -> res (G * list num).
  Variable g_diag : G -> Z -> res (G * list num).
  Variable g_s g_q : G -> list X -> res G.
  Variables (E : list X -> list X -> num) (m W : nat) (valid : list X -> Prop) (g0 : G).
  Hypothesis Hm : 0 < m.

  Definition SelfInv (_ : nat) (s _ : list X) (g : G) : Prop :=
    exists H, grun g_col g_diag g_s g_q g0 H = Ok g /\ in_range true m W W H /\ valid_calls valid H /\ s_points H = s.
  Lemma SelfInv_nil id q : SelfInv id [] q g0.
  Proof. exists []. split; [reflexivity|]. split; [intros H1 o H2 Ex; destruct H1; discriminate|]. split; [intros o []|reflexivity]. Qed.
  Lemma answers_may : answers g_col g_diag g_s g_q E true m W W valid g0 -> may_stream true m W W valid (fun _ s _ j => self_column E m W s j) (keep g_col) (keep_a g_s) (keep_a g_q) SelfInv.
  Proof.
    intros HA id s q g (H & R1 & R2 & R3 & R4).
    assert (SN : forall o, match o with CSeries xs => valid xs | CQuery _ => False | CCol c => has_col m (wS W H) (wQ true W W H) c | CDiag _ => False end -> valid_calls valid (H ++ [o]) /\ in_range true m W W (H ++ [o])).
    { intros o Ho. split; [intros x Hx; apply in_app_iff in Hx; destruct Hx as [Hx|[<-|[]]]; [exact (R3 x Hx)|destruct o; tauto]|]. apply in_range_snoc; [exact R2|]. destruct o; tauto. }
    split; [|split; [discriminate|]].
    - intros xs g' Hv Ea. unfold keep_a in Ea. destruct (g_s g xs) as [g1|e] eqn:Eg; [|discriminate]. injection Ea as ->. destruct (SN (CSeries xs) Hv) as [V1 V2]. exists (H ++ [CSeries xs]). split; [rewrite (@run_snoc _ _ _ g_col g_diag g_s g_q g0 H (CSeries xs) g R1); exact Eg|]. split; [exact V2|]. split; [exact V1|].
      unfold s_points in *. rewrite flat_map_app, R4. cbn. rewrite app_nil_r. reflexivity.
    - intros j Hj. assert (ES : wS W H = lastn W s) by (unfold wS; rewrite R4; reflexivity). assert (EQ : wQ true W W H = lastn W s) by exact ES.
      assert (Hc : has_col m (wS W H) (wQ true W W H) j) by (rewrite ES, EQ; unfold has_col; rewrite length_lastn; unfold subseqs in Hj; lia).
      destruct (HA H R2 (or_introl eq_refl) R3) as (g1 & Eg1 & HC). rewrite R1 in Eg1. injection Eg1 as <-. destruct (HC j Hc (or_introl eq_refl)) as (g' & Eg'). unfold keep. rewrite Eg'. cbn [fst snd].
      destruct (SN (CCol j) Hc) as [V1 V2]. split.
      + exists (H ++ [CCol j]). split; [rewrite (@run_snoc _ _ _ g_col g_diag g_s g_q g0 H (CCol j) g R1); cbn [gstep]; rewrite Eg'; reflexivity|]. split; [exact V2|]. split; [exact V1|]. unfold s_points in *. rewrite flat_map_app, R4. cbn. rewrite app_nil_r. reflexivity.
      + intros v Ev. injection Ev as <-. change (wQ true W W H) with (wS W H). rewrite ES. split; [reflexivity|]. rewrite map_length, seq_length, length_lastn. unfold subseqs. lia.
  Qed.
  (** Their appends return. *)
  Lemma answers_append : answers g_col g_diag g_s g_q E true m W W valid g0 -> forall id s q g xs, SelfInv id s q g -> valid xs -> snd (keep_a g_s g xs) = None.
  Proof.
    intros HA id s q g xs (H & R1 & R2 & R3 & R4) Hv. destruct (HA (H ++ [CSeries xs])) as (g' & Eg & _); [apply in_range_snoc; [exact R2|exact I]|left; reflexivity|intros x Hx; apply in_app_iff in Hx; destruct Hx as [Hx|[<-|[]]]; [exact (R3 x Hx)|exact Hv]|].
    rewrite (@run_snoc _ _ _ g_col g_diag g_s g_q g0 H (CSeries xs) g R1) in Eg. cbn [gstep] in Eg. unfold keep_a. rewrite Eg. reflexivity.
  Qed.
End Gen.

Lemma after_run {A} {NA : NumOps A} {C} (c_step : C -> event (Np.num A) -> C * option exn) (inj : @smp A -> C) : (forall s e s', smp_step s e = Ok s' -> c_step (inj s) e = (inj s', None)) ->
  forall evs s s', smp_run s evs = Ok s' -> after c_step evs (inj s) = inj s'.
Proof.
  intros Hi evs. unfold smp_run, after. induction evs as [|e evs IH]; intros s s' Er; cbn [foldM] in Er; [injection Er as <-; reflexivity|].
  destruct (smp_step s e) as [s1|x] eqn:E1; [|discriminate]. cbn [bind] in Er. cbn [fold_left]. rewrite (Hi _ _ _ E1). apply IH. exact Er.
Qed.

Lemma run_shifts {A} {NA : NumOps A} {C} (c_step : C -> event (Np.num A) -> C * option exn) (inj : @smp A -> C) : (forall s e s', smp_step s e = Ok s' -> c_step (inj s) e = (inj s', None)) ->
  forall pre e post s s', smp_run s (pre ++ e :: post) = Ok s' -> snd (c_step (after c_step pre (inj s)) e) = None.
Proof.
  intros Hi pre e post s s' Er. unfold smp_run in Er. rewrite foldM_app in Er. destruct (foldM smp_step pre s) as [s1|x] eqn:E1; [|discriminate]. cbn [bind foldM] in Er.
  rewrite (after_run _ _ Hi _ _ E1). destruct (smp_step s1 e) as [s2|x] eqn:E2; [|discriminate]. rewrite (Hi _ _ _ E2). reflexivity.
Qed.
