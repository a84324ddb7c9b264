(** * PEndPlain: consumers without shift methods in streaming programs *)
From Coq Require Import QArith Sorted.
From Verif Require Import Np NpFacts Mat SLog PLog MProfile PProfile SMulti MCalc SReal SCalc SStream PStream SMixed SEnd SEndStream PEndStream SEndAll SEndCons SEndStreamAll PCalcEnd PEndStreamAll.
Set Implicit Arguments.
Open Scope nat_scope.

(** ** MatrixProfileLR: columns that are delivered once, complete or not *)
Section Profile.
  Context {A : Type} {NA : NumOps A} {OL : OrdLaws A}.
  Notation num := (Np.num A).

  Definition cols_of (es : list (event num)) : list nat := flat_map (fun e => match e with ECol c _ => [c] | _ => [] end) es.
  Definition only_cols_ev (e : event num) : Prop := match e with ECol _ _ => True | _ => False end.
  Lemma only_cols_no_shift es : Forall only_cols_ev es -> Forall no_shift es.
  Proof. apply Forall_impl. intros []; cbn; tauto. Qed.
  Lemma log_cols es r a v : Forall only_cols_ev es -> In (r, a, v) (log es) -> exists c, In c (cols_of es) /\ a = Z.of_nat c.
  Proof.
    induction es as [|e es IH] using rev_ind; intros Ho Hi; [destruct Hi|]. apply Forall_app in Ho. destruct Ho as [Ho He]. apply Forall_inv in He. pose proof (no_shift_qs (only_cols_no_shift Ho)) as [Q S].
    rewrite log_snoc in Hi. apply in_app_or in Hi. unfold cols_of. rewrite flat_map_app. destruct Hi as [Hi|Hi].
    - destruct (IH Ho Hi) as (c & Hc & ->). exists c. split; [apply in_or_app; left; exact Hc|reflexivity].
    - destruct e as [d vs|c vs|n|n]; try destruct He. exists c. split; [apply in_or_app; right; left; reflexivity|]. rewrite Q, S in Hi. cbn [event_cells] in Hi. destruct vs as [|vals vs]; [destruct Hi|].
      apply in_mapi in Hi. destruct Hi as (k & y & Hk & E). injection E as _ -> _. lia.
  Qed.

  Lemma mplr_once_col h w es s c vs : Forall only_cols_ev es -> mplr_mix_ok h w es s -> Forall (fits h w) (es ++ [ECol c vs]) -> cols_no_nan (ECol c vs) -> ~ In c (cols_of es) ->
    exists s', mplr_col s c vs = Ok s' /\ mplr_mix_ok h w (es ++ [ECol c vs]) s'.
  Proof.
    intros Ho (Hr & Hl & Hri) Hf Hnan Hnew. apply Forall_app in Hf. destruct Hf as [Hf Hfe].
    apply Forall_inv in Hfe. destruct Hfe as (Hc & vals & rest & -> & Hv1 & Hv2).
    assert (Hnv : no_nan vals) by exact (Hnan vals (or_introl eq_refl)).
    pose proof (only_cols_no_shift Ho) as Hn. destruct (no_shift_qs Hn) as [Q S].
    pose proof Hl as (L1 & L2 & L3). pose proof Hri as (R1 & R2 & R3).
    destruct (@mplr_col_ok A NA OL w s c vals rest L1 L2 R1 R2 Hc) as
      (s' & E & E0 & E1 & E2 & E3 & E4 & Hother & (vl & il & Ev & Ei & Hlow) & Hright); [destruct vals; [simpl in *; lia|discriminate]|exact Hnv|].
    exists s'. split; [exact E|]. split; [congruence|].
    assert (HC : forall P r x, In (r, x) (sel P (Z.of_nat c) (log (es ++ [ECol c (vals :: rest)]))) <->
       exists k, r = Z.of_nat k /\ nth_error vals k = Some x /\ P r = true).
    { intros P r x. rewrite in_sel, log_snoc, in_app_iff. cbn [event_cells]. rewrite Q, S. split.
      - intros [[Hi|Hi] HP].
        + destruct (log_cols _ _ _ Ho Hi) as (c' & Hc' & Ec). apply Nat2Z.inj in Ec. subst c'. contradiction.
        + apply in_mapi in Hi. destruct Hi as (k & y & Hk & [= -> ->]). exists k. auto.
      - intros (k & -> & E' & HP). split; [|exact HP]. right. apply in_mapi. exists k, x. auto. }
    split.
    - eapply side_best_other; try eassumption; [intros j Hj; split; apply Hother, Hj|].
      intros _. exists vl, (Z.of_nat il). split; [unfold ent; rewrite Ev, Ei; reflexivity|].
      eapply is_lowest_best; [|exact Hlow|].
      + eapply no_nan_nth; [exact Hnv|apply Hlow].
      + intros r x. rewrite HC. unfold is_left. split.
        * intros (k & -> & Hx & HP). pose proof (nth_error_some_lt _ _ Hx). exists k. apply Z.leb_le in HP. split; [lia|auto].
        * intros (k & Hk & -> & Hx). exists k. split; [reflexivity|]. split; [exact Hx|].
          apply Z.leb_le. lia.
    - destruct (Nat.leb_spec (c + 2) (length vals)) as [Hlen|Hlen].
      + destruct Hright as (vr & ir & Ev' & Ei' & Hlow').
        eapply side_best_other; try eassumption; [intros j Hj; split; apply Hother, Hj|].
        intros _. exists vr, (Z.of_nat ir). split; [unfold ent; rewrite Ev', Ei'; reflexivity|].
        eapply is_lowest_best; [|exact Hlow'|].
        * eapply no_nan_nth; [exact Hnv|apply Hlow'].
        * intros r x. rewrite HC. unfold is_right. split.
          -- intros (k & -> & Hx & HP). pose proof (nth_error_some_lt _ _ Hx). exists k. apply negb_true_iff, Z.leb_gt in HP. split; [lia|auto].
          -- intros (k & Hk & -> & Hx). exists k. split; [reflexivity|]. split; [exact Hx|].
             apply negb_true_iff, Z.leb_gt. lia.
      + destruct Hright as [Hr1 Hr2].
        eapply side_best_other; try eassumption; [intros j Hj; split; apply Hother, Hj|].
        intros _. destruct (R3 c Hc) as (v & i & Eb & B). exists v, i.
        unfold ent in *. rewrite Hr1, Hr2. split; [exact Eb|].
        eapply is_best_ext; [|exact B]. intros r x. rewrite HC, in_sel. unfold is_right. split.
        * intros [Hi HP]. destruct (log_cols _ _ _ Ho Hi) as (c' & Hc' & Ec). apply Nat2Z.inj in Ec. subst c'. contradiction.
        * intros (k & -> & Hx & HP). pose proof (nth_error_some_lt _ _ Hx). apply negb_true_iff, Z.leb_gt in HP. lia.
  Qed.

  Lemma mplr_once h w es : Forall only_cols_ev es -> Forall (fits h w) es -> Forall cols_no_nan es -> NoDup (cols_of es) ->
    exists s, foldM mplr_step es (mplr_init h w) = Ok s /\ mplr_mix_ok h w es s.
  Proof.
    induction es as [|e es IH] using rev_ind; intros Ho Hf Hnan Hnd; [eexists; split; [reflexivity|apply mplr_init_mix]|].
    pose proof Hf as Hf0. apply Forall_app in Ho, Hf, Hnan. destruct Ho as [Ho Hoe], Hf as [Hf _], Hnan as [Hnan Hne]. apply Forall_inv in Hoe, Hne. destruct e as [d vs|c vs|n|n]; try destruct Hoe.
    unfold cols_of in Hnd. rewrite flat_map_app in Hnd. cbn [flat_map app] in Hnd. apply NoDup_remove in Hnd. rewrite app_nil_r in Hnd. destruct Hnd as [Hnd Hnew].
    destruct (IH Ho Hf Hnan Hnd) as (s & E & Hs). destruct (mplr_once_col Ho Hs Hf0 Hne Hnew) as (s' & E' & Hs'). exists s'. split; [|exact Hs']. rewrite foldM_app, E. cbn [bind foldM]. cbn [mplr_step]. rewrite E'. reflexivity.
  Qed.
End Profile.

(** ** Events of histories that lose no points *)
Lemma lost_mono W s n : lost W s <= lost W (s + n).
Proof. unfold lost. lia. Qed.
Lemma history_no_shift {A X} self m W Wq ndim tmb dim (valid : list X -> Prop) (F : nat -> list (gop X) -> nat -> list (num A)) ops p evs ids : history self m W Wq ndim tmb dim valid F ops p evs ->
  lost W (p_s p) = 0 -> (self = false -> lost Wq (p_q p) = 0) -> Forall only_cols_ev (evs ids).
Proof.
  induction 1 as [|ops op p p' evs evs' Hh IH Hd]; intros HS HQ; [constructor|]. apply Forall_app.
  assert (HS' : lost W (p_s p) = 0) by (destruct Hd; cbn [p_s p_q] in *; try exact HS; pose proof (lost_mono W s n); lia).
  assert (HQ' : self = false -> lost Wq (p_q p) = 0) by (intro E; specialize (HQ E); destruct Hd; cbn [p_s p_q] in *; try exact HQ; pose proof (lost_mono Wq q n); lia).
  split; [apply IH; assumption|]. destruct Hd; cbn [p_s p_q] in *.
  - rewrite HS, HS'. constructor.
  - rewrite (HQ H0), (HQ' H0). constructor.
  - apply Forall_forall. intros x Hx. apply in_map_iff in Hx. destruct Hx as (j & <- & _). exact I.
Qed.
Lemma delivered_cols {A} (es : list (event (num A))) ss : Forall only_cols_ev es -> delivered_from ss es = map (fun c => (ss + Z.of_nat c)%Z) (cols_of es).
Proof. induction 1 as [|e es He Hes IH]; [reflexivity|]. destruct e as [d vs|c vs|n|n]; try destruct He. cbn. f_equal. exact IH. Qed.
Lemma sorted_nodup l : StronglySorted Z.lt l -> NoDup l.
Proof. induction 1 as [|x l Hl IH Hx]; constructor; [|assumption]. intro Hin. rewrite Forall_forall in Hx. specialize (Hx x Hin). lia. Qed.

Section Plain.
  Context {A : Type} {NA : NumOps A} {OL : OrdLaws A}.
  Notation num := (Np.num A).
  Context {X : Type}.
  Variables (E : list X -> list X -> num) (self : bool) (m W Wq ndim : nat) (tmb : Z) (dimf : nat -> nat) (valid : list X -> Prop).
  Hypothesis Hndim : 0 < ndim.
  Hypothesis Hm : 1 <= m <= W.
  Hypothesis HmQ : m <= Wq.
  Hypothesis Hself : self = true -> Wq = W.
  Hypothesis Htmb : self = true \/ (tmb < 0)%Z.
  Hypothesis HE : forall x y, real (E x y).
  Variables (ops : list (sop X)) (p : progress X) (evs : list nat -> list (event num)).
  Hypothesis Hh : history self m W Wq ndim tmb dimf valid (fun _ : nat => window_column E self m W Wq) ops p evs.
  Hypothesis HL : lost W (p_s p) = 0.
  Hypothesis HLq : self = false -> lost Wq (p_q p) = 0.
  Notation H := (p_hist p).
  Notation cells := (calculated self m W Wq 0 0 H).
  Notation D id := (stream_entry E self m (dimf id) H).
  Notation h := (Wq + 1 - m).
  Notation w := (W + 1 - m).

  Lemma mplr_of id : dimf id < ndim -> exists s, foldM mplr_step (evs [id]) (mplr_init h w) = Ok s /\
      window_profile (D id) 0 w (seen tmb cells) (mplr_mp s, mplr_idx s) /\
      window_profile (D id) 0 w (fun a r => seen tmb cells a r /\ r <= a) (mp_left s, mp_ileft s) /\
      window_profile (D id) 0 w (fun a r => seen tmb cells a r /\ a < r) (mp_right s, mp_iright s).
  Proof.
    intro Hd. destruct (@evs_single A X E self m W Wq ndim tmb dimf valid Hm HmQ Hself Htmb HE ops p evs Hh id Hd) as (HF & HN & _).
    pose proof (@history_no_shift A X self m W Wq ndim tmb dimf valid _ ops p evs [id] Hh HL HLq) as HO.
    destruct (@C32_lemma A X self m W Wq ndim tmb dimf valid _ ops p evs [id] Hndim Hm Hh) as [HSt _]. unfold SStream.delivered in HSt. rewrite (delivered_cols 0 HO) in HSt. apply sorted_nodup in HSt.
    destruct (@mplr_once A NA OL h w (evs [id]) HO HF HN) as (s & Es & _ & (L1 & L2 & L3) & (R1 & R2 & R3)); [exact (NoDup_map_inv _ _ HSt)|].
    exists s. split; [exact Es|].
    pose proof (@best_window A NA X E self m W Wq ndim tmb dimf valid Hm HmQ Hself Htmb HE ops p evs Hh id) as BW.
    split; [|split].
    - assert (LM : length (merge_mp (mp_left s) (mp_right s)) = w) by (unfold merge_mp; rewrite length_zip_with; lia). split; [exact LM|]. split.
      + cbn [snd]. unfold mplr_idx, merge_idx. rewrite !length_zip_with. lia.
      + intros j Hj. destruct (L3 j Hj) as (vl & il & El & Bl). destruct (R3 j Hj) as (vr & ir & Er & Br). apply ent_inv in El, Er. destruct El as [El1 El2], Er as [Er1 Er2].
        eexists _, _. split; [apply nth_merge; eassumption|]. split; [cbn [snd]; apply nth_merge_idx; eassumption|]. cbn [Nat.add].
        eapply smallest_ext; [|apply (BW all_rows j _ _ Hd), merge_best; eassumption]. intro r. unfold all_rows. tauto.
    - split; [exact L1|]. split; [exact L2|]. intros j Hj. destruct (L3 j Hj) as (v & i & El & Bl). apply ent_inv in El. destruct El as [El1 El2]. exists v, i. split; [exact El1|]. split; [exact El2|]. cbn [Nat.add].
      eapply smallest_ext; [|exact (BW _ j v i Hd Bl)]. intro r. unfold is_left. rewrite Z.leb_le, <- Nat2Z.inj_le. tauto.
    - split; [exact R1|]. split; [exact R2|]. intros j Hj. destruct (R3 j Hj) as (v & i & El & Bl). apply ent_inv in El. destruct El as [El1 El2]. exists v, i. split; [exact El1|]. split; [exact El2|]. cbn [Nat.add].
      eapply smallest_ext; [|exact (BW _ j v i Hd Bl)]. intro r. unfold is_right. rewrite negb_true_iff, Z.leb_gt, <- Nat2Z.inj_lt. tauto.
  Qed.

  (** The events are the calculated columns, each with the rows that it had when it was calculated *)
  Lemma plain_events ids : (forall id, In id ids -> dimf id < ndim) ->
    evs ids = map (fun x => ECol (fst (fst x)) (map (fun id => column_of (snd x) (masked tmb (D id)) (fst (fst x))) ids)) cells /\
    Forall (fun x => fst (fst x) < w /\ snd (fst x) = 0 /\ 0 < snd x <= h) cells.
  Proof.
    intro Hids. clear HE.
    assert (G : forall H', (forall id, In id ids -> exists rs rq, stream_of (dimf id) H' = stream_of (dimf id) H ++ rs /\ query_stream (dimf id) H' = query_stream (dimf id) H ++ rq) ->
      evs ids = map (fun x => ECol (fst (fst x)) (map (fun id => column_of (snd x) (masked tmb (stream_entry E self m (dimf id) H')) (fst (fst x))) ids)) cells /\
      Forall (fun x => fst (fst x) < w /\ snd (fst x) = 0 /\ 0 < snd x <= h) cells).
    { revert HL HLq. induction Hh as [|ops0 op p0 p' evs0 evs' Hh0 IH Hd]; intros HS HQ H' Hpre; [split; [reflexivity|constructor]|].
      assert (HS' : lost W (p_s p0) = 0) by (destruct Hd; cbn [p_s p_q] in *; try exact HS; pose proof (lost_mono W s n); lia).
      assert (HQ' : self = false -> lost Wq (p_q p0) = 0) by (intro Es; specialize (HQ Es); destruct Hd; cbn [p_s p_q] in *; try exact HQ; pose proof (lost_mono Wq q n); lia).
      assert (Hpre0 : forall id, In id ids -> exists rs rq, stream_of (dimf id) H' = stream_of (dimf id) (p_hist p0) ++ rs /\ query_stream (dimf id) H' = query_stream (dimf id) (p_hist p0) ++ rq).
      { intros id Hid. destruct (Hpre id Hid) as (rs & rq & P1 & P2). destruct (prefix_of (dimf id) Hh0 Hd) as (rs' & rq' & P3 & P4). rewrite P1, P2, P3, P4, <- !app_assoc. eauto. }
      destruct (IH Hh0 HS' HQ' H' Hpre0) as [IH1 IH2]. clear IH. destruct (history_calculated Hndim Hh0) as (C3 & C4 & _).
      destruct Hd as [v rows n s q nx H0 Hr _|v rows n s q nx H0 Es Hr _|intr upto u n s q nx H0 c Hu Hrn Hrow]; cbn [p_hist p_s p_q] in *; rewrite IH1.
      - rewrite calculated_app. cbn [calculated]. rewrite app_nil_r, HS, HS'. cbn [Nat.sub]. rewrite app_nil_r. split; [reflexivity|exact IH2].
      - rewrite calculated_app. cbn [calculated]. rewrite app_nil_r, (HQ Es), (HQ' Es). cbn [Nat.sub]. rewrite app_nil_r. split; [reflexivity|exact IH2].
      - destruct (@cols_events _ _ E self m W Wq ndim tmb dimf valid Hm Hself Htmb ids ops0 s q nx H0 evs0 u upto intr n H' Hids Hh0 Hu Hrn Hpre0) as [EV BD]. fold c in EV, BD. cbn beta in *. rewrite EV.
        rewrite calculated_app, calculated_cols, C3, C4. cbn [Nat.add]. rewrite map_app, map_map.
        assert (LO : (if self then lost W s else lost Wq q) = 0) by (destruct self; auto).
        split.
        + f_equal. apply map_ext. intro j. unfold col_event. cbn [fst snd]. rewrite LO, HS'. cbn [Nat.add]. reflexivity.
        + apply Forall_app. split; [exact IH2|]. apply Forall_forall. intros x Hx. apply in_map_iff in Hx. destruct Hx as (j & <- & Hj). cbn [fst snd]. rewrite LO, HS'. cbn [Nat.add]. pose proof (BD j Hj) as B. unfold subseqs in B. split; [lia|]. split; [reflexivity|].
          split; [apply Hrow; apply in_seq in Hj; lia|]. unfold subseqs. destruct self; [rewrite (Hself eq_refl)|]; lia. }
    apply G. intros id _. exists [], []. rewrite !app_nil_r. auto.
  Qed.

  (** As events of a function from columns to values *)
  Definition height (j : nat) : nat := match find (fun x => fst (fst x) =? j) cells with Some x => snd x | None => h end.
  Lemma plain_once id : dimf id < ndim ->
    let cs := map (fun x => fst (fst x)) cells in
    evs [id] = map (fun c => ECol c [column_of (height c) (masked tmb (D id)) c]) cs /\ NoDup cs /\ (forall c, In c cs -> c < w) /\ (forall c, 0 < height c) /\
    (forall c r, was_calculated cells c r <-> In c cs /\ r < height c) /\ (forall c lo n, In (c, lo, n) cells -> lo = 0 /\ n = height c).
  Proof.
    intros Hd cs. destruct (@plain_events [id]) as [EV HC]; [intros i [<-|[]]; exact Hd|]. rewrite Forall_forall in HC.
    assert (ND : NoDup cs).
    { pose proof (@history_no_shift A X self m W Wq ndim tmb dimf valid _ ops p evs [id] Hh HL HLq) as HO.
      destruct (@C32_lemma A X self m W Wq ndim tmb dimf valid _ ops p evs [id] Hndim Hm Hh) as [HSt _]. unfold SStream.delivered in HSt. rewrite (delivered_cols 0 HO) in HSt. apply sorted_nodup in HSt. apply NoDup_map_inv in HSt.
      rewrite EV in HSt. unfold cols_of in HSt. rewrite flat_map_concat_map, map_map in HSt. cbn beta iota in HSt. rewrite <- flat_map_concat_map in HSt.
      assert (EF : forall l : list (nat * nat * nat), flat_map (fun x => [fst (fst x)]) l = map (fun x => fst (fst x)) l) by (induction l as [|x l IH]; [reflexivity|cbn; f_equal; exact IH]). rewrite EF in HSt. exact HSt. }
    assert (HT : forall x, In x cells -> height (fst (fst x)) = snd x).
    { intros x Hx. unfold height. destruct (find (fun y => fst (fst y) =? fst (fst x)) cells) as [y|] eqn:Ef.
      - apply find_some in Ef. destruct Ef as [Hy Ey]. apply Nat.eqb_eq in Ey. f_equal. revert Hx Hy Ey. subst cs. generalize cells, ND. clear. intros l ND Hx Hy Ey. induction l as [|z l IH]; [destruct Hx|]. cbn [map] in ND. inversion ND as [|? ? Hn Hnd]; subst.
        destruct Hx as [->|Hx], Hy as [->|Hy]; auto; exfalso; apply Hn; [rewrite <- Ey|rewrite Ey]; apply in_map_iff; eexists; (split; [reflexivity|assumption]).
      - pose proof (find_none _ _ Ef x Hx) as C. cbn beta in C. rewrite Nat.eqb_refl in C. discriminate. }
    split; [|split; [exact ND|split; [|split; [|split]]]].
    - rewrite EV. subst cs. rewrite map_map. apply map_ext_in. intros x Hx. cbn [map]. rewrite (HT x Hx). reflexivity.
    - intros c Hc. apply in_map_iff in Hc. destruct Hc as (x & <- & Hx). apply (HC x Hx).
    - intro c. unfold height. destruct (find _ _) as [x|] eqn:Ef; [|lia]. apply find_some in Ef. destruct Ef as [Hx _]. apply HC in Hx. lia.
    - intros c r. split.
      + intros (lo & n & Hin & Hr). pose proof (HC _ Hin) as B. pose proof (HT _ Hin) as T. cbn [fst snd] in B, T. split; [apply in_map_iff; exists (c, lo, n); auto|]. lia.
      + intros (Hc & Hr). apply in_map_iff in Hc. destruct Hc as ([[c' lo] n] & Ec & Hin). cbn [fst snd] in Ec. subst c'. pose proof (HC _ Hin) as B. pose proof (HT _ Hin) as T. cbn [fst snd] in B, T. exists lo, n. split; [exact Hin|]. lia.
    - intros c lo n Hin. pose proof (HC _ Hin) as B. pose proof (HT _ Hin) as T. cbn [fst snd] in B, T. split; [apply B|congruence].
  Qed.
End Plain.
