(** * PCmpRun: histories of ContextualMatrixProfile *)
From Coq Require Import QArith Permutation.
From Verif Require Import Np NpFacts Mat SLog PLog MRing PRing PFullRb MProfile PProfile MContext SContext PContext PCmp.
Set Implicit Arguments.
Open Scope nat_scope.

Section Run.
  Context {A : Type} {NA : NumOps A} {OL : OrdLaws A}.
  Notation num := (Np.num A).

  Lemma full_fits h w (e : event num) : 0 < h -> full_event h w e -> fits h w e.
  Proof.
    intros Hh. destruct e as [d vs|c vs|n|n]; cbn [full_event fits]; auto.
    - intros (Hd & vals & rest & -> & _ & Hl). split; [exact Hd|]. exists vals, rest. split; [reflexivity|]. lia.
    - intros (Hc & vals & rest & -> & _ & Hl). split; [exact Hc|]. exists vals, rest. split; [reflexivity|]. lia.
  Qed.

  Context {M : Type} (MO : ManagerOps M).
  Variables (h w H W : nat) (QA SA : nat -> Z -> Prop) (inv : M -> Z -> Z -> nat -> nat -> Prop).
  Hypothesis SMg : stream_manager MO h w H W QA SA inv.
  Hypotheses (Hh : 0 < h) (HW : 0 < W).

  Definition RR (ks i j : nat) (r c : Z) : Prop := QA (i + 0) r /\ SA (j + ks) c.

  Lemma push_best (s s' : @cm A M) L ks k ss :
    (forall i j, i < H -> j < W ->
       dv_ent (cm_dist s') i j = (if j + k <? W then dv_ent (cm_dist s) i (j + k) else Some PInf) /\
       dv_ent (cm_ms s') i j = (if j + k <? W then dv_ent (cm_ms s) i (j + k) else Some (-1)%Z) /\
       dv_ent (cm_mq s') i j = (if j + k <? W then dv_ent (cm_mq s) i (j + k) else Some (-1)%Z)) ->
    (forall r c v, In (r, c, v) L -> (c < ss + Z.of_nat w)%Z) ->
    (forall j c, (c < ss + Z.of_nat w)%Z -> SA j c -> j < ks + W) ->
    best_ok H W (RR ks) L s -> best_ok H W (RR (ks + k)) L s'.
  Proof.
    intros Hs HL Hnew Hb i j Hi Hj. destruct (Hs i j Hi Hj) as (E1 & E2 & E3). unfold ent.
    destruct (Nat.ltb_spec (j + k) W) as [Hlt|Hge].
    - destruct (Hb i (j + k) Hi Hlt) as (v & q & r & (F1 & F2 & F3) & Nv & HB). exists v, q, r.
      rewrite E1, E2, E3. split; [auto|]. split; [exact Nv|]. unfold RR in *. replace (j + (ks + k)) with (j + k + ks) by lia. exact HB.
    - exists PInf, (-1)%Z, (-1)%Z. rewrite E1, E2, E3. split; [auto|]. split; [reflexivity|]. left. repeat split.
      intros r c x Hin [_ HS]. exfalso. specialize (Hnew _ c (HL _ _ _ Hin) HS). lia.
  Qed.

  Lemma man_after_snoc (m : M) es (e : event num) st : man_after MO m (es ++ [e]) = Ok st ->
    exists st1, man_after MO m es = Ok st1 /\ man_event MO st1 e = Ok st.
  Proof.
    unfold man_after. rewrite foldM_app. destruct (foldM _ es _) as [st1|] eqn:E; cbn [bind]; [|discriminate].
    cbn [foldM]. intro H1. exists st1. split; [reflexivity|]. destruct (man_event MO st1 e); cbn [bind] in H1; exact H1.
  Qed.

  Lemma cm_run_ok (memn : nat -> list num) memz sf m0 es m ks : inv m0 0 0 0 0 -> man_shape MO m0 = Ok (H, W) ->
    (1 <= sf)%Q -> (sf <= 2)%Q -> Forall (full_event h w) es -> man_after MO m0 es = Ok (m, 0, ks) ->
    exists s0 s, cm_init MO memn memz sf m0 h w = Ok s0 /\ cm_run MO s0 es = Ok s /\ cm_ok H W s /\
      best_ok H W (RR ks) (log es) s.
  Proof.
    intros I0 Sh S1 S2 HF.
    assert (Hinit : exists s0, cm_init MO memn memz sf m0 h w = Ok s0 /\ cm_ok H W s0 /\ cm_man s0 = m0 /\ cm_nq s0 = h /\ cm_ns s0 = w /\
       cm_qs s0 = 0%Z /\ cm_ss s0 = 0%Z /\ best_ok H W (RR 0) (log []) s0).
    { unfold cm_init. rewrite (proj2 (Qle_bool_iff _ _) S1). cbn [negb]. rewrite Sh. cbn [bind fst snd].
      destruct (@dv_new_ok _ memn H W PInf sf S1 S2 HW) as (b1 & -> & D1 & G1). cbn [bind].
      destruct (@dv_new_ok _ memz H W (-1)%Z sf S1 S2 HW) as (b2 & -> & D2 & G2). cbn [bind].
      eexists. split; [reflexivity|]. cbn [cm_man cm_nq cm_ns cm_qs cm_ss cm_height].
      split; [split; [reflexivity|split; [exact D1|split; exact D2]]|]. do 5 (split; [reflexivity|]).
      intros i j Hi Hj. exists PInf, (-1)%Z, (-1)%Z. split; [split; [apply G1|split; apply G2]; assumption|]. split; [reflexivity|].
      left. repeat split. intros r c x []. }
    destruct Hinit as (s0 & E0 & Hok0 & Hm0 & Hq0 & Hs0 & Hqs0 & Hss0 & Hb0).
    intro HA. exists s0. 
    cut (exists s, cm_run MO s0 es = Ok s /\ cm_ok H W s /\ cm_man s = m /\ cm_nq s = h /\ cm_ns s = w /\ cm_qs s = qshift es /\ cm_ss s = sshift es /\
       inv m (qshift es) (sshift es) 0 ks /\ best_ok H W (RR ks) (log es) s).
    { intros (s & E & Hok & _ & _ & _ & _ & _ & _ & Hb). exists s. auto. }
    revert m ks HA. induction es as [|e es IH] using rev_ind; intros m ks HA.
    - injection HA as <- <-. exists s0. cbn [qshift sshift]. split; [reflexivity|]. auto 12.
    - apply Forall_app in HF. destruct HF as [HF He]. apply Forall_inv in He. specialize (IH HF).
      apply man_after_snoc in HA. destruct HA as (((m1 & kq1) & ks1) & HA1 & HA2).
      assert (Hfit : Forall (fits h w) es) by (eapply Forall_impl; [|exact HF]; intros; apply full_fits; assumption).
      assert (HLb : forall r c v, In (r, c, v) (log es) -> (c < sshift es + Z.of_nat w)%Z).
      { intros r c v Hin. apply (log_bound Hfit _ _ _ Hin). }
      unfold cm_run. rewrite log_snoc, qshift_app, sshift_app. cbn [qshift sshift].
      destruct e as [d vs|c vs|n|n]; cbn [man_event] in HA2.
      + injection HA2 as -> -> ->. destruct (IH _ _ HA1) as (s & E & Hok & Hm & Hnq & Hns & Hqs & Hss & HI & Hb).
        rewrite foldM_app. unfold cm_run in E. rewrite E. cbn [bind foldM cm_step].
        destruct (@cm_diag_ok _ _ _ _ MO h w H W (fun i r => QA (i + 0) r) (fun j c => SA (j + ks) c) s (log es) d vs Hok Hnq Hns) as (s' & E' & Hok' & (Z1 & Z2 & Z3 & Z4 & Z5 & Z6) & Hb').
        { rewrite Hm, Hqs, Hss. exact (sm_lookup SMg _ _ _ _ _ HI). }
        { exact Hh. } { exact He. } { exact Hb. }
        rewrite E'. cbn [bind]. exists s'. cbn [event_qshift event_sshift]. rewrite !Z.add_0_r. rewrite Hqs, Hss in Hb'.
        split; [reflexivity|]. split; [exact Hok'|]. do 5 (split; [congruence|]). split; [exact HI|exact Hb'].
      + injection HA2 as -> -> ->. destruct (IH _ _ HA1) as (s & E & Hok & Hm & Hnq & Hns & Hqs & Hss & HI & Hb).
        rewrite foldM_app. unfold cm_run in E. rewrite E. cbn [bind foldM cm_step].
        destruct (@cm_col_ok _ _ _ _ MO h w H W (fun i r => QA (i + 0) r) (fun j c => SA (j + ks) c) s (log es) c vs Hok Hnq Hns) as (s' & E' & Hok' & (Z1 & Z2 & Z3 & Z4 & Z5 & Z6) & Hb').
        { rewrite Hm, Hqs, Hss. exact (sm_lookup SMg _ _ _ _ _ HI). }
        { exact Hh. } { exact He. } { exact Hb. }
        rewrite E'. cbn [bind]. exists s'. cbn [event_qshift event_sshift]. rewrite !Z.add_0_r. rewrite Hqs, Hss in Hb'.
        split; [reflexivity|]. split; [exact Hok'|]. do 5 (split; [congruence|]). split; [exact HI|exact Hb'].
      + destruct (man_shift_series MO m1 n) as [[m' k]|] eqn:Em; cbn [bind fst snd] in HA2; [|discriminate].
        injection HA2 as <- -> <-. destruct (IH _ _ HA1) as (s & E & Hok & Hm & Hnq & Hns & Hqs & Hss & HI & Hb).
        rewrite foldM_app. unfold cm_run in E. rewrite E. cbn [bind foldM cm_step]. unfold cm_shift_series. rewrite Hm, Em. cbn [bind].
        cbn [event_cells event_qshift event_sshift]. rewrite app_nil_r, !Z.add_0_r.
        pose proof (sm_series SMg _ _ _ _ _ n HI Em) as HI'.
        destruct (Nat.ltb_spec 0 k) as [Hk|Hk].
        * destruct Hok as (O1 & O2 & O3 & O4). rewrite O1.
          destruct (dv_push_ok PInf HW Hk O2) as (d' & -> & P2 & G2). cbn [bind].
          destruct (dv_push_ok (-1)%Z HW Hk O3) as (ms' & -> & P3 & G3). cbn [bind].
          destruct (dv_push_ok (-1)%Z HW Hk O4) as (mq' & -> & P4 & G4). cbn [bind].
          eexists. split; [reflexivity|]. cbn [cm_man cm_nq cm_ns cm_qs cm_ss].
          split; [split; [reflexivity|split; [exact P2|split; [exact P3|exact P4]]]|]. split; [reflexivity|]. do 4 (split; [congruence|]).
          split; [exact HI'|].
          eapply push_best; [|exact HLb| |exact Hb].
          -- intros i j Hi Hj. cbn [cm_dist cm_ms cm_mq]. rewrite G2, G3, G4 by assumption. auto.
          -- intros j c Hc HS. eapply (sm_new_s SMg); eassumption.
        * replace k with 0 in * by lia. rewrite Nat.add_0_r in *. eexists. split; [reflexivity|]. cbn [cm_man cm_nq cm_ns cm_qs cm_ss].
          split; [exact Hok|]. split; [reflexivity|]. do 4 (split; [congruence|]). split; [exact HI'|exact Hb].
      + destruct (man_shift_query MO m1 n) as [[m' k]|] eqn:Em; cbn [bind fst snd] in HA2; [|discriminate].
        injection HA2 as <- Hk <-. assert (kq1 = 0) by lia. assert (k = 0) by lia. subst kq1 k.
        destruct (IH _ _ HA1) as (s & E & Hok & Hm & Hnq & Hns & Hqs & Hss & HI & Hb).
        rewrite foldM_app. unfold cm_run in E. rewrite E. cbn [bind foldM cm_step]. unfold cm_shift_query. rewrite Hm, Em. cbn [bind].
        cbn [event_cells event_qshift event_sshift]. rewrite app_nil_r, !Z.add_0_r.
        pose proof (sm_query SMg _ _ _ _ _ n HI Em) as HI'. cbn [Nat.ltb Nat.leb].
        eexists. split; [reflexivity|]. cbn [cm_man cm_nq cm_ns cm_qs cm_ss].
        split; [exact Hok|]. split; [reflexivity|]. do 4 (split; [congruence|]). split; [exact HI'|exact Hb].
  Qed.

  (** In terms of indexing the three tables *)
  Lemma cm_run_lemma (memn : nat -> list num) memz sf m0 es m ks : inv m0 0 0 0 0 -> man_shape MO m0 = Ok (H, W) ->
    (1 <= sf)%Q -> (sf <= 2)%Q -> Forall (full_event h w) es -> man_after MO m0 es = Ok (m, 0, ks) ->
    exists s0 s, cm_init MO memn memz sf m0 h w = Ok s0 /\ cm_run MO s0 es = Ok s /\
      forall i j, i < H -> j < W -> exists v q r,
        dv_get (cm_dist s) i j = Ok v /\ dv_get (cm_mq s) i j = Ok q /\ dv_get (cm_ms s) i j = Ok r /\
        rect_best (log es) (fun r c => QA i r /\ SA (j + ks) c) v q r.
  Proof.
    intros I0 Sh S1 S2 HF HA. destruct (@cm_run_ok memn memz sf m0 es m ks I0 Sh S1 S2 HF HA) as (s0 & s & E0 & E & _ & Hb).
    exists s0, s. split; [exact E0|]. split; [exact E|]. intros i j Hi Hj.
    destruct (Hb i j Hi Hj) as (v & q & r & (F1 & F2 & F3) & _ & HB). exists v, q, r. unfold RR in HB. rewrite Nat.add_0_r in HB.
    split; [apply dv_ent_get, F1|]. split; [apply dv_ent_get, F2|]. split; [apply dv_ent_get, F3|exact HB].
  Qed.
End Run.

(** ** The static manager fulfils the contract *)
Lemma intersects_iff a b c : intersects a b c = true <-> (c_start c < c_stop c /\ c_start c < b /\ a < c_stop c)%Z.
Proof. unfold intersects. rewrite !andb_true_iff, !Z.ltb_lt. tauto. Qed.

Lemma given_lookup input lookup n H : ranges_valid input ->
  (forall a b, exists l, lookup a b = Ok l /\ Permutation l (filter (intersects a b) (all_given input))) ->
  (forall s e id, given input s e id -> (s < e)%Z -> id < H) ->
  lookup_ok lookup n H (in_context input).
Proof.
  intros HV HL HH a b Hab Hb. destruct (HL a b) as (l & E & P). exists l. split; [exact E|]. split.
  - intros c Hc. apply (Permutation_in _ P) in Hc. apply filter_In in Hc. destruct Hc as [Hc Hi]. apply intersects_iff in Hi.
    destruct c as [[s e] id]. cbn [c_start c_stop c_id fst snd] in *. apply all_given_in in Hc.
    assert (0 <= s)%Z.
    { destruct Hc as (el & r & Hel & Hr & <- & <-). apply (HV el r); [eapply nth_error_In; exact Hel|exact Hr]. }
    split; [lia|]. split; [lia|]. split; [lia|]. split; [eapply HH; [exact Hc|lia]|]. intros x Hx _. exists s, e. auto.
  - intros i x Hx (s & e & Hg & Hse). exists (s, e, i). cbn [c_start c_stop c_id fst snd]. split; [|auto].
    apply (Permutation_in _ (Permutation_sym P)). apply filter_In. split; [apply all_given_in; exact Hg|]. apply intersects_iff. cbn [c_start c_stop fst snd]. lia.
Qed.

Definition static_inv (g0 : gsm) (m : gsm) (qs ss : Z) (kq ks : nat) : Prop := m = g0 /\ qs = 0%Z /\ ss = 0%Z /\ kq = 0 /\ ks = 0.

Lemma in_nonempty_id input (l : list ctx) : l = filter (fun c => (c_start c <? c_stop c)%Z) (all_given input) ->
  forall s e id, given input s e id -> (s < e)%Z -> id < max_id l + 1.
Proof.
  intros -> s e id Hg Hse. assert (Hin : In (s, e, id) (filter (fun c => (c_start c <? c_stop c)%Z) (all_given input))).
  { apply filter_In. split; [apply all_given_in; exact Hg|]. cbn [c_start c_stop fst snd]. apply Z.ltb_lt, Hse. }
  apply max_id_le in Hin. cbn [c_id snd] in Hin. lia.
Qed.

Lemma static_manager series query g h w : gsm_inv series query g -> g_series g <> [] ->
  stream_manager gsm_ops h w (max_id (g_query g) + 1) (max_id (g_series g) + 1) (in_context query) (in_context series) (static_inv g).
Proof.
  intros I Hne.
  assert (Hq := @in_nonempty_id _ _ (gi_query I)). assert (Hs := @in_nonempty_id _ _ (gi_series I)).
  constructor.
  - intros m qs ss kq ks (-> & -> & -> & -> & ->). split.
    + assert (X : lookup_ok (gsm_query g) h (max_id (g_query g) + 1) (in_context query)).
      { apply given_lookup; [exact (gi_qv I)| |exact Hq]. intros a b. apply gsm_query_ok with (1 := I). }
      intros a b Hab Hb. destruct (X a b Hab Hb) as (l & E & X1 & X2). exists l. split; [exact E|]. split.
      * intros c Hc. destruct (X1 c Hc) as (Y1 & Y2 & Y3 & Y4 & Y5). do 4 (split; [assumption|]). intros x Hx Hx2. rewrite Nat.add_0_r. apply Y5; assumption.
      * intros i x Hx HM. rewrite Nat.add_0_r in HM. apply X2; assumption.
    + assert (X : lookup_ok (gsm_series g) w (max_id (g_series g) + 1) (in_context series)).
      { apply given_lookup; [exact (gi_sv I)| |exact Hs]. intros a b. eexists. split; [apply gsm_series_ok with (1 := I); exact Hne|apply Permutation_refl]. }
      intros a b Hab Hb. destruct (X a b Hab Hb) as (l & E & X1 & X2). exists l. split; [exact E|]. split.
      * intros c Hc. destruct (X1 c Hc) as (Y1 & Y2 & Y3 & Y4 & Y5). do 4 (split; [assumption|]). intros x Hx Hx2. rewrite Nat.add_0_r. apply Y5; assumption.
      * intros i x Hx HM. rewrite Nat.add_0_r in HM. apply X2; assumption.
  - intros m qs ss kq ks n m' k _ E. discriminate.
  - intros m qs ss kq ks n m' k _ E. discriminate.
  - intros m qs ss kq ks i r (-> & -> & -> & -> & ->) _ (s & e & Hg & Hse). apply (Hq s e i Hg). lia.
  - intros m qs ss kq ks i r (-> & -> & -> & -> & ->) _ (s & e & Hg & Hse). apply (Hs s e i Hg). lia.
Qed.

Lemma man_after_no_shift {T M} (MO : ManagerOps M) (m : M) (es : list (event T)) : Forall no_shift es -> man_after MO m es = Ok (m, 0, 0).
Proof.
  unfold man_after. induction 1 as [|e es He _ IH]; [reflexivity|]. destruct e; cbn in He; try contradiction; cbn [foldM man_event bind]; exact IH.
Qed.

Lemma C47_lemma {A} {NA : NumOps A} {OL : OrdLaws A} argsort series query g h w (memn : nat -> list (Np.num A)) memz sf es :
  sorts argsort -> gsm_new argsort series query = Ok g ->
  (exists s e id, given series s e id /\ (s < e)%Z) ->
  0 < h -> (1 <= sf)%Q -> (sf <= 2)%Q -> Forall (full_event h w) es -> Forall no_shift es ->
  exists H W s0 s, gsm_shape g = Ok (H, W) /\ cm_init gsm_ops memn memz sf g h w = Ok s0 /\ cm_run gsm_ops s0 es = Ok s /\
    (forall i x, in_context (query_input series query) i x -> i < H) /\ (forall j x, in_context series j x -> j < W) /\
    forall i j, i < H -> j < W -> exists v q r,
      dv_get (cm_dist s) i j = Ok v /\ dv_get (cm_mq s) i j = Ok q /\ dv_get (cm_ms s) i j = Ok r /\
      rect_best (log es) (fun r c => in_context (query_input series query) i r /\ in_context series j c) v q r.
Proof.
  intros Hsort Eg (s1 & e1 & id1 & Hg1 & Hse1) Hh S1 S2 HF HN.
  assert (I := gsm_new_ok _ _ Hsort Eg).
  assert (Hne : g_series g <> []).
  { intro E. rewrite (gi_series I) in E. assert (Hin : In (s1, e1, id1) (filter (fun c => (c_start c <? c_stop c)%Z) (all_given series))).
    { apply filter_In. split; [apply all_given_in; exact Hg1|]. cbn [c_start c_stop fst snd]. apply Z.ltb_lt, Hse1. }
    rewrite E in Hin. destruct Hin. }
  assert (Esh : gsm_shape g = Ok (max_id (g_query g) + 1, max_id (g_series g) + 1)).
  { unfold gsm_shape. pose proof (gi_ne I). destruct (g_query g); [congruence|]. destruct (g_series g); [congruence|]. reflexivity. }
  pose proof (@static_manager series (query_input series query) g h w I Hne) as SM.
  destruct (@cm_run_lemma A NA OL _ gsm_ops h w _ _ _ _ _ SM Hh ltac:(lia) memn memz sf g es g 0) as (s0 & s & E0 & E & G).
  - repeat split.
  - exact Esh.
  - exact S1.
  - exact S2.
  - exact HF.
  - apply man_after_no_shift, HN.
  - eexists _, _, s0, s. split; [exact Esh|]. split; [exact E0|]. split; [exact E|].
    split; [intros i x (s2 & e2 & Hg2 & Hx); apply (@in_nonempty_id _ _ (gi_query I) _ _ _ Hg2); lia|].
    split; [intros i x (s2 & e2 & Hg2 & Hx); apply (@in_nonempty_id _ _ (gi_series I) _ _ _ Hg2); lia|].
    intros i j Hi Hj. destruct (G i j Hi Hj) as (v & q & r & G1 & G2 & G3 & G4). rewrite Nat.add_0_r in G4. exists v, q, r. auto.
Qed.

(** ** The block manager fulfils the contract *)
Definition in_block (b : Z) (i : nat) (x : Z) : Prop := (Z.of_nat i * b <= x < (Z.of_nat i + 1) * b)%Z.

Lemma block_lookup_ok b H n pos : (0 < b)%Z -> (0 <= pos)%Z -> (Z.of_nat n <= (Z.of_nat H - 1) * b)%Z ->
  lookup_ok (block_lookup b H pos) n H (fun i x => in_block b (i + Z.to_nat (pos / b)) (pos + x)).
Proof.
  intros Hb Hpos Hn lo hi Hlo Hhi. unfold block_lookup. eexists. split; [reflexivity|].
  assert (Hk : (0 <= pos / b)%Z) by (apply Z.div_pos; lia).
  assert (Hdm := Z.div_mod pos b ltac:(lia)). assert (Hmb := Z.mod_pos_bound pos b Hb).
  split.
  - intros c Hc. apply filter_In in Hc. destruct Hc as [Hc Hi]. apply intersects_iff in Hi. apply in_map_iff in Hc. destruct Hc as (i & <- & Hi2).
    apply in_seq in Hi2. cbn [c_start c_stop c_id fst snd] in *. split; [lia|]. split; [lia|]. split; [lia|]. split; [lia|].
    intros x Hx _. unfold in_block. rewrite Nat2Z.inj_add, Z2Nat.id by lia. lia.
  - intros i x Hx HM. unfold in_block in HM. rewrite Nat2Z.inj_add, Z2Nat.id in HM by lia.
    assert (i < H).
    { assert (Z.of_nat i < Z.of_nat H)%Z; [|lia]. apply Z.nle_gt. intro Hge. assert ((Z.of_nat H + pos / b) * b <= (Z.of_nat i + pos / b) * b)%Z by (apply Z.mul_le_mono_nonneg_r; lia). lia. }
    exists (Z.max 0 ((pos / b + Z.of_nat i) * b - pos), ((pos / b + Z.of_nat i + 1) * b - pos), i)%Z.
    cbn [c_start c_stop c_id fst snd]. split; [|split; [reflexivity|lia]]. apply filter_In. split.
    + apply in_map_iff. exists i. split; [reflexivity|]. apply in_seq. lia.
    + apply intersects_iff. cbn [c_start c_stop fst snd]. lia.
Qed.

Definition block_inv (bq bs : Z) (m : Z * Z) (qs ss : Z) (kq ks : nat) : Prop :=
  m = (qs, ss) /\ (0 <= qs)%Z /\ (0 <= ss)%Z /\ kq = Z.to_nat (qs / bq) /\ ks = Z.to_nat (ss / bs).

Lemma block_shift b pos n : (0 < b)%Z -> (0 <= pos)%Z ->
  (Z.to_nat (pos / b) + Z.to_nat ((pos + Z.of_nat n) / b - pos / b) = Z.to_nat ((pos + Z.of_nat n) / b))%nat.
Proof.
  intros Hb Hp. assert (0 <= pos / b)%Z by (apply Z.div_pos; lia). assert (pos / b <= (pos + Z.of_nat n) / b)%Z by (apply Z.div_le_mono; lia). lia.
Qed.

Lemma block_new b H n pos i r : (0 < b)%Z -> (0 <= pos)%Z -> (Z.of_nat n <= (Z.of_nat H - 1) * b)%Z ->
  (r < pos + Z.of_nat n)%Z -> in_block b i r -> (i < Z.to_nat (pos / b) + H)%nat.
Proof.
  intros Hb Hp Hn Hr [H1 _]. assert (0 <= pos / b)%Z by (apply Z.div_pos; lia).
  assert (Hdm := Z.div_mod pos b ltac:(lia)). assert (Hmb := Z.mod_pos_bound pos b Hb).
  assert (Z.of_nat i < pos / b + Z.of_nat H)%Z; [|lia]. apply Z.nle_gt. intro Hge.
  assert ((pos / b + Z.of_nat H) * b <= Z.of_nat i * b)%Z by (apply Z.mul_le_mono_nonneg_r; lia). lia.
Qed.

Lemma block_stream bq bs H W h w : (0 < bq)%Z -> (0 < bs)%Z -> (Z.of_nat h <= (Z.of_nat H - 1) * bq)%Z -> (Z.of_nat w <= (Z.of_nat W - 1) * bs)%Z ->
  stream_manager (block_manager bq bs H W) h w H W (in_block bq) (in_block bs) (block_inv bq bs).
Proof.
  intros Bq Bs Hh Hw. constructor.
  - intros m qs ss kq ks (-> & Q & S & -> & ->). split; cbn [block_manager man_query man_series fst snd]; apply block_lookup_ok; assumption.
  - intros m qs ss kq ks n m' k (-> & Q & S & -> & ->) E. cbn [block_manager man_shift_query fst snd] in E. injection E as <- <-.
    split; [reflexivity|]. split; [lia|]. split; [lia|]. split; [apply block_shift; lia|reflexivity].
  - intros m qs ss kq ks n m' k (-> & Q & S & -> & ->) E. cbn [block_manager man_shift_series fst snd] in E. injection E as <- <-.
    split; [reflexivity|]. split; [lia|]. split; [lia|]. split; [reflexivity|apply block_shift; lia].
  - intros m qs ss kq ks i r (-> & Q & S & -> & ->) Hr HB. eapply block_new; eassumption.
  - intros m qs ss kq ks i r (-> & Q & S & -> & ->) Hr HB. eapply block_new; eassumption.
Qed.

(** ** Remaining lemmas for C46 and C47 *)
Lemma C46_series_lemma argsort series query g a b :
  sorts argsort -> gsm_new argsort series query = Ok g -> (exists s e id, given series s e id /\ (s < e)%Z) ->
  exists l, gsm_series g a b = Ok l /\ Permutation l (filter (intersects a b) (all_given series)).
Proof.
  intros Hsort Eg (s1 & e1 & id1 & Hg1 & Hse1). assert (I := gsm_new_ok _ _ Hsort Eg).
  eexists. split; [apply gsm_series_ok with (1 := I)|apply Permutation_refl].
  intro E. rewrite (gi_series I) in E. assert (Hin : In (s1, e1, id1) (filter (fun c => (c_start c <? c_stop c)%Z) (all_given series))).
  { apply filter_In. split; [apply all_given_in; exact Hg1|]. cbn [c_start c_stop fst snd]. apply Z.ltb_lt, Hse1. }
  rewrite E in Hin. destruct Hin.
Qed.

Lemma C46_meaning_lemma input a b s e id : (a < b)%Z ->
  In (s, e, id) (filter (intersects a b) (all_given input)) <->
  given input s e id /\ exists x, (s <= x < e)%Z /\ (a <= x < b)%Z.
Proof.
  intro Hab. rewrite filter_In, all_given_in, intersects_iff. cbn [c_start c_stop fst snd]. split.
  - intros [Hg Hi]. split; [exact Hg|]. exists (Z.max s a). lia.
  - intros [Hg (x & Hx)]. split; [exact Hg|]. lia.
Qed.

Lemma C46_init_lemma argsort series query : sorts argsort ->
  (exists g, gsm_new argsort series query = Ok g) <->
  (ranges_valid series /\ ranges_valid (query_input series query) /\
   exists s e id, given (query_input series query) s e id /\ (s < e)%Z).
Proof.
  intro Hs. split.
  - intros [g E]. assert (I := gsm_new_ok _ _ Hs E). split; [exact (gi_sv I)|]. split; [exact (gi_qv I)|].
    pose proof (gi_ne I) as Hne. destruct (g_query g) as [|[[s e] id] l] eqn:Eq; [congruence|]. rewrite (gi_query I) in Eq.
    assert (Hin : In (s, e, id) (filter (fun c => (c_start c <? c_stop c)%Z) (all_given (query_input series query)))) by (rewrite Eq; left; reflexivity).
    apply filter_In in Hin. destruct Hin as [Hin Hlt]. exists s, e, id. split; [apply all_given_in, Hin|apply Z.ltb_lt, Hlt].
  - intros (V1 & V2 & Hx). apply gsm_new_exists; assumption.
Qed.

Lemma rect_best_unique {A} {NA : NumOps A} {OL : OrdLaws A} (L : list (cell (Np.num A))) R v q r v' q' r' :
  rect_best L R v q r -> rect_best L R v' q' r' -> v = v'.
Proof.
  intros [(-> & _ & _ & H1)|(H1 & I1 & R1 & B1)] [(-> & _ & _ & H2)|(H2 & I2 & R2 & B2)].
  - reflexivity.
  - specialize (H1 _ _ _ I2 R2). congruence.
  - specialize (H2 _ _ _ I1 R1). congruence.
  - specialize (B1 _ _ _ I2 R2). specialize (B2 _ _ _ I1 R1).
    apply fltb_nonnan in H1. apply fltb_nonnan in H2. apply fle_antisym; apply fltb_false_fleb; tauto.
Qed.
