(** * Property C104: what every entry of a contextual matrix profile stands for *)
From Coq Require Import QArith.
From Verif Require Import Np NpFacts Mat SLog MDist MContext SContext SHeld PLog PDist PContext PCmp PCmpRun PHeld Inst PropContext.
Open Scope nat_scope.

(** C104. Streaming managers whose contexts are fixed in absolute positions, every history of columns (which may be shorter than the window), diagonals and shifts, also those that drop query contexts: the run
    raises what the manager raises, and ValueError at the first column that has a series context and ends before a query context of the window begins ([missing]); otherwise every entry is the smallest of the cells that it stands for, with the position of a cell that has it. Which cells these are is [held_after]:
    - a delivery adds to entry (i, j) the delivered cells of query context i + kq and series context j + ks, of which kq and ks were dropped;
    - dropping k query contexts gives row i the cells of row i - k, counted cyclically, and empties the last k rows;
    - dropping k series contexts gives column j the cells of column j + k and empties the last k columns; but those are taken from the table as it was before the
      query contexts were dropped that were dropped since the last time a series context was dropped, without what was delivered since. *)
Theorem C104_entries : forall (A : Type) (NA : NumOps A) (OL : OrdLaws A) (M : Type) (MO : ManagerOps M)
    h w H W QA SA inv, stream_manager MO h w H W QA SA inv -> 0 < h -> 0 < W ->
  forall (memn : nat -> list (Np.num A)) memz sf m0 es,
  inv m0 0%Z 0%Z 0 0 -> man_shape MO m0 = Ok (H, W) -> (1 <= sf)%Q -> (sf <= 2)%Q -> Forall (any_event h w) es ->
  exists s0, cm_init MO memn memz sf m0 h w = Ok s0 /\
  match held_after MO h H W QA SA m0 es with
  | Err e => cm_run MO s0 es = Err e
  | Ok hs => exists s, cm_run MO s0 es = Ok s /\
      forall i j, i < H -> j < W -> exists v q r,
        dv_get (cm_dist s) i j = Ok v /\ dv_get (cm_mq s) i j = Ok q /\ dv_get (cm_ms s) i j = Ok r /\ best_of (hd_shown hs i j) v q r
  end.
Proof. exact (@held_lemma). Qed.
Print Assumptions C104_entries.

(** C104. The value is determined, and so is the position if no two of the cells have equal values. *)
Theorem C104_unique : forall (A : Type) (NA : NumOps A) (OL : OrdLaws A) (K : @cells A) v q r v' q' r',
  (forall a b x, K a b x -> isnan x = false) -> best_of K v q r -> best_of K v' q' r' -> fltb v v' = false /\ fltb v' v = false /\ (v = PInf <-> v' = PInf).
Proof.
  intros A NA OL K v q r v' q' r' HN B B'. unfold best_of in *.
  destruct B as [(-> & _ & _ & L)|(F & Kv & L)], B' as [(-> & _ & _ & L')|(F' & Kv' & L')].
  - repeat split; auto.
  - rewrite (L _ _ _ Kv') in F'. discriminate.
  - rewrite (L' _ _ _ Kv) in F. discriminate.
  - split; [eapply L'; exact Kv|]. split; [eapply L; exact Kv'|]. split; intros ->; cbn in *; discriminate.
Qed.
Print Assumptions C104_unique.

(** C104. The cells that entries stand for were all delivered. *)
Lemma held_delivered (A M : Type) (MO : ManagerOps M) h H W QA SA : forall es (hs hs' : @held A M) L,
  (forall i j r c x, hd_shown hs i j r c x -> In (r, c, x) L) -> (forall K i j r c x, hd_beneath hs = Some K -> K i j r c x -> In (r, c, x) L) ->
  foldM (held_step MO h H W QA SA) es hs = Ok hs' -> forall i j r c x, hd_shown hs' i j r c x -> In (r, c, x) (L ++ log_from (hd_qs hs) (hd_ss hs) es).
Proof.
  induction es as [|e es IH]; intros hs hs' L HS HB E; cbn [foldM] in E.
  { injection E as <-. cbn [log_from]. rewrite app_nil_r. exact HS. }
  destruct (held_step MO h H W QA SA hs e) as [hs1|] eqn:E1; cbn [bind] in E; [|discriminate]. cbn [log_from]. rewrite app_assoc.
  assert (ADD : hs1 = held_add QA SA hs e -> event_qshift e = 0%Z -> event_sshift e = 0%Z -> forall i j r c x, hd_shown hs' i j r c x -> In (r, c, x) ((L ++ event_cells (hd_qs hs) (hd_ss hs) e) ++ log_from (hd_qs hs + event_qshift e) (hd_ss hs + event_sshift e) es)).
  { intros -> -> ->. rewrite !Z.add_0_r. apply (IH (held_add QA SA hs e) hs'); [| |exact E].
    - intros i j r c x [Hx|(Hx & _)]; apply in_or_app; [left; eapply HS; exact Hx|right; exact Hx].
    - intros K i j r c x HK Hx. apply in_or_app. left. eapply HB; [exact HK|exact Hx]. }
  assert (OLD : forall i j r c x, match hd_beneath hs with Some b => b | None => hd_shown hs end i j r c x -> In (r, c, x) L).
  { intros i j r c x. destruct (hd_beneath hs) as [K|] eqn:EK; [apply (HB K); reflexivity|apply HS]. }
  destruct e as [d vs|cc vs|n|n]; cbn [held_step] in E1.
  - apply ADD; try reflexivity. congruence.
  - apply ADD; try reflexivity. destruct (missing _ _ _ _ _) as [[]|]; cbn [bind] in E1; try discriminate. congruence.
  - clear ADD. cbn [event_cells event_qshift event_sshift]. rewrite app_nil_r, Z.add_0_r. destruct (man_shift_series MO (hd_man hs) n) as [[m' k]|]; cbn [bind fst snd] in E1; [|discriminate]. injection E1 as <-.
    refine (IH _ hs' L _ _ E); cbn [hd_shown hd_beneath].
    + intros i j r c x. destruct (0 <? k); [|apply HS]. destruct (j + k <? W); [|intros []]. apply OLD.
    + intros K i j r c x. destruct (0 <? k); [discriminate|]. apply HB.
  - clear ADD. cbn [event_cells event_qshift event_sshift]. rewrite app_nil_r, Z.add_0_r. destruct (man_shift_query MO (hd_man hs) n) as [[m' k]|]; cbn [bind fst snd] in E1; [|discriminate]. injection E1 as <-.
    refine (IH _ hs' L _ _ E); cbn [hd_shown hd_beneath].
    + intros i j r c x. destruct (0 <? k); [|apply HS]. destruct (i + k <? H); [|intros []]. apply HS.
    + intros K i j r c x. destruct (0 <? k); [|apply HB]. intros [= <-]. apply OLD.
Qed.
Theorem C104_delivered : forall (A M : Type) (MO : ManagerOps M) h H W QA SA m0 (es : list (event (Np.num A))) hs, held_after MO h H W QA SA m0 es = Ok hs ->
  forall i j r c x, hd_shown hs i j r c x -> In (r, c, x) (log es).
Proof.
  intros A M MO h H W QA SA m0 es hs E. apply (held_delivered A M MO h H W QA SA es (held_new m0) hs []); [intros i j r c x []|intros K i j r c x HK; discriminate HK|exact E].
Qed.
Print Assumptions C104_delivered.

(** What entry (i, j) ought to stand for: the delivered cells of its two contexts *)
Definition intended {A} (QA SA : nat -> Z -> Prop) (kq ks : nat) (L : list (cell (Np.num A))) (i j : nat) : @cells A :=
  fun r c x => In (r, c, x) L /\ QA (i + kq) r /\ SA (j + ks) c.

(** Histories without a query shift that drops some but neither all nor exactly half of the contexts, nor a dropped series context after a dropped query context *)
Fixpoint safe {M T} (MO : ManagerOps M) (H : nat) (m : M) (dropped : bool) (es : list (event T)) : Prop :=
  match es with
  | [] => True
  | EShiftQ n :: es' => match man_shift_query MO m n with
      | Ok (m', k) => (k = 0 \/ H <= k \/ 2 * k = H) /\ safe MO H m' (dropped || (0 <? k)) es'
      | Err _ => True
      end
  | EShiftS n :: es' => match man_shift_series MO m n with
      | Ok (m', k) => (k = 0 \/ dropped = false) /\ safe MO H m' dropped es'
      | Err _ => True
      end
  | _ :: es' => safe MO H m dropped es'
  end.

Lemma event_cells_bound T h w qs ss (e : event T) : fits h w e -> forall r c v, In (r, c, v) (event_cells qs ss e) -> (r < qs + Z.of_nat h)%Z /\ (c < ss + Z.of_nat w)%Z.
Proof.
  intros He r c v Hi. destruct e as [d vs|cc vs|n|n]; cbn [event_cells] in *; [| |destruct Hi|destruct Hi];
    destruct He as (Hd & vals & rest & -> & Hv1 & Hv2); apply in_mapi in Hi; destruct Hi as (k & x & Hk & [= -> -> ->]); apply nth_error_some_lt in Hk; lia.
Qed.

Lemma full_any A h w (e : event (Np.num A)) : 0 < h -> full_event h w e -> any_event h w e.
Proof. intros Hh He. destruct e as [d vs|c vs|n|n]; try exact He. destruct He as (Hc & vals & rest & -> & Hn & Hl). split; [exact Hc|]. exists vals, rest. repeat split; auto; lia. Qed.
Lemma any_fits A h w (e : event (Np.num A)) : 0 < h -> any_event h w e -> fits h w e.
Proof.
  intros Hh He. destruct e as [d vs|c vs|n|n]; [eapply full_fits; [exact Hh|exact He]| |exact I|exact I]. destruct He as (Hc & vals & rest & -> & _ & Hl). split; [exact Hc|]. exists vals, rest. repeat split; lia.
Qed.

Section Safe.
  Context (A : Type) (NA : NumOps A) (M : Type) (MO : ManagerOps M) (h w H W : nat) (QA SA : nat -> Z -> Prop) (inv : M -> Z -> Z -> nat -> nat -> Prop).
  Hypothesis SMg : stream_manager MO h w H W QA SA inv.
  Hypothesis Hh : 0 < h.
  Notation num := (Np.num A).
  Definition holds (hs : @held A M) (L : list (cell num)) : Prop := forall i j r c x, i < H -> j < W -> (hd_shown hs i j r c x <-> intended QA SA (hd_kq hs) (hd_ks hs) L i j r c x).
  Lemma safe_run : forall es hs L hs' d, Forall (any_event h w) es -> inv (hd_man hs) (hd_qs hs) (hd_ss hs) (hd_kq hs) (hd_ks hs) ->
    (forall r c v, In (r, c, v) L -> (r < hd_qs hs + Z.of_nat h)%Z /\ (c < hd_ss hs + Z.of_nat w)%Z) -> (d = false -> hd_beneath hs = None) -> holds hs L ->
    safe MO H (hd_man hs) d es -> foldM (held_step MO h H W QA SA) es hs = Ok hs' ->
    holds hs' (L ++ log_from (hd_qs hs) (hd_ss hs) es) /\ foldM (man_event MO) es (hd_man hs, hd_kq hs, hd_ks hs) = Ok (hd_man hs', hd_kq hs', hd_ks hs').
  Proof.
    induction es as [|e es IH]; intros hs L hs' d HF HI HL HD HH HS E; cbn [foldM] in *.
    { injection E as <-. cbn [log_from]. rewrite app_nil_r. auto. }
    pose proof (Forall_inv HF) as He. apply Forall_inv_tail in HF. cbn [log_from].
    assert (DEL : match e with EDiag _ _ | ECol _ _ => True | _ => False end ->
      holds hs' (L ++ event_cells (hd_qs hs) (hd_ss hs) e ++ log_from (hd_qs hs + event_qshift e) (hd_ss hs + event_sshift e) es) /\
      (do y <- man_event MO (hd_man hs, hd_kq hs, hd_ks hs) e; foldM (man_event MO) es y) = Ok (hd_man hs', hd_kq hs', hd_ks hs')).
    { intro De. set (hs1 := held_add QA SA hs e).
      assert (E1 : held_step MO h H W QA SA hs e = Ok hs1).
      { destruct e as [dd vs|cc vs|n|n]; try contradiction; [reflexivity|]. cbn [held_step] in *. destruct (missing _ _ _ _ _) as [[]|]; cbn [bind] in *; [discriminate|reflexivity|discriminate]. }
      rewrite E1 in E. cbn [bind] in E.
      assert (E2 : man_event MO (hd_man hs, hd_kq hs, hd_ks hs) e = Ok (hd_man hs, hd_kq hs, hd_ks hs)) by (destruct e; try contradiction; reflexivity). rewrite E2. cbn [bind].
      replace (hd_qs hs + event_qshift e)%Z with (hd_qs hs1) by (destruct e; try contradiction; cbn; lia). replace (hd_ss hs + event_sshift e)%Z with (hd_ss hs1) by (destruct e; try contradiction; cbn; lia).
      rewrite app_assoc. apply (IH hs1 _ hs' d); auto.
      - intros r c v Hin. apply in_app_iff in Hin. destruct Hin as [Hin|Hin]; [apply (HL r c v Hin)|]. cbn [hd_qs hd_ss hs1]. apply (event_cells_bound _ h w _ _ e (any_fits _ h w e Hh He) r c v Hin).
      - intros i j r c x Hi Hj. specialize (HH i j r c x Hi Hj). unfold intended in *. unfold hs1, held_add; cbn [hd_shown hd_kq hd_ks]. rewrite in_app_iff. tauto.
      - destruct e; try contradiction; exact HS. }
    destruct e as [dd vs|cc vs|n|n]; [apply DEL; exact I|apply DEL; exact I| |]; clear DEL; cbn [safe held_step man_event event_cells event_qshift event_sshift app] in *.
    - destruct (man_shift_series MO (hd_man hs) n) as [[m' k]|] eqn:Em; cbn [bind fst snd] in *; [|discriminate]. destruct HS as [Hk HS]. pose proof (sm_series SMg _ _ _ _ _ n HI Em) as HI'. rewrite Z.add_0_r.
      match type of E with foldM _ _ ?s = _ => set (hs1 := s) in E end. change (hd_ss hs + Z.of_nat n)%Z with (hd_ss hs1). change (hd_qs hs) with (hd_qs hs1).
      apply (IH hs1 L hs' d); auto.
      + intros r c v Hin. destruct (HL r c v Hin). cbn [hd_qs hd_ss hs1]. lia.
      + intro Dd. cbn [hd_beneath hs1]. rewrite (HD Dd). destruct (0 <? k); reflexivity.
      + intros i j r c x Hi Hj. cbn [hd_shown hd_kq hd_ks hs1]. destruct (Nat.ltb_spec 0 k) as [Hp|Hp]; [|replace (hd_ks hs + k) with (hd_ks hs) by lia; apply HH; assumption].
        destruct Hk as [Hk|Hk]; [lia|]. rewrite (HD Hk). unfold intended. replace (j + (hd_ks hs + k)) with (j + k + hd_ks hs) by lia.
        destruct (Nat.ltb_spec (j + k) W); [apply HH; assumption|]. split; [intros []|]. intros (Hin & _ & HSA). assert (j + k + hd_ks hs < hd_ks hs + W) by (eapply (sm_new_s SMg); [exact HI|exact (proj2 (HL _ _ _ Hin))|exact HSA]). lia.
    - destruct (man_shift_query MO (hd_man hs) n) as [[m' k]|] eqn:Em; cbn [bind fst snd] in *; [|discriminate]. destruct HS as [Hk HS]. pose proof (sm_query SMg _ _ _ _ _ n HI Em) as HI'. rewrite Z.add_0_r.
      match type of E with foldM _ _ ?s = _ => set (hs1 := s) in E end. change (hd_qs hs + Z.of_nat n)%Z with (hd_qs hs1). change (hd_ss hs) with (hd_ss hs1).
      apply (IH hs1 L hs' (d || (0 <? k))); auto.
      + intros r c v Hin. destruct (HL r c v Hin). cbn [hd_qs hd_ss hs1]. lia.
      + intro Dd. apply orb_false_iff in Dd. destruct Dd as [Dd Hk0]. cbn [hd_beneath hs1]. rewrite Hk0. apply HD, Dd.
      + intros i j r c x Hi Hj. cbn [hd_shown hd_kq hd_ks hs1]. destruct (Nat.ltb_spec 0 k) as [Hp|Hp]; [|replace (hd_kq hs + k) with (hd_kq hs) by lia; apply HH; assumption].
        unfold intended. replace (i + (hd_kq hs + k)) with (i + k + hd_kq hs) by lia. destruct (Nat.ltb_spec (i + k) H) as [Hlt|Hge].
        * assert (F : (i + (H - k mod H)) mod H = i + k) by (rewrite (Nat.mod_small k H) by lia; replace (i + (H - k)) with (i + k) by lia; apply Nat.mod_small; exact Hlt). rewrite F. apply HH; assumption.
        * split; [intros []|]. intros (Hin & HQA & _). assert (i + k + hd_kq hs < hd_kq hs + H) by (eapply (sm_new_q SMg); [exact HI|exact (proj1 (HL _ _ _ Hin))|exact HQA]). lia.
  Qed.
End Safe.

(** For these histories the entries are right in general, ... *)
Theorem C104_safe : forall (A : Type) (NA : NumOps A) (OL : OrdLaws A) (M : Type) (MO : ManagerOps M)
    h w H W QA SA inv, stream_manager MO h w H W QA SA inv -> 0 < h -> 0 < W ->
  forall (memn : nat -> list (Np.num A)) memz sf m0 es hs,
  inv m0 0%Z 0%Z 0 0 -> man_shape MO m0 = Ok (H, W) -> (1 <= sf)%Q -> (sf <= 2)%Q ->
  Forall (any_event h w) es -> safe MO H m0 false es -> held_after MO h H W QA SA m0 es = Ok hs ->
  exists s0 s, cm_init MO memn memz sf m0 h w = Ok s0 /\ cm_run MO s0 es = Ok s /\ man_after MO m0 es = Ok (hd_man hs, hd_kq hs, hd_ks hs) /\
    forall i j, i < H -> j < W -> exists v q r,
      dv_get (cm_dist s) i j = Ok v /\ dv_get (cm_mq s) i j = Ok q /\ dv_get (cm_ms s) i j = Ok r /\
      rect_best (log es) (fun r c => QA (i + hd_kq hs) r /\ SA (j + hd_ks hs) c) v q r.
Proof.
  intros A NA OL M MO h w H W QA SA inv SMg Hh HW memn memz sf m0 es hs I0 Sh S1 S2 HF HS K.
  destruct (C104_entries A NA OL M MO h w H W QA SA inv SMg Hh HW memn memz sf m0 es I0 Sh S1 S2 HF) as (s0 & E0 & G).
  rewrite K in G. destruct G as (s & Es & G). exists s0, s. split; [exact E0|]. split; [exact Es|].
  destruct (safe_run A M MO h w H W QA SA inv SMg Hh es (held_new m0) [] hs false HF I0) as [HH E]; auto.
  { intros r c v []. }
  { intros i j r c x Hi Hj. split; [intros []|intros ([] & _)]. }
  split; [exact E|]. cbn [held_new hd_qs hd_ss app] in HH. fold (log es) in HH.
  intros i j Hi Hj. destruct (G i j Hi Hj) as (v & q & r & G1 & G2 & G3 & HB). exists v, q, r. split; [exact G1|]. split; [exact G2|]. split; [exact G3|].
  unfold holds, intended in HH. destruct HB as [(B1 & B2 & B3 & B4)|(B1 & B2 & B3)].
  - left. repeat split; auto. intros r' c' x Hin [HQ HSA]. apply (B4 r' c'). apply HH; auto.
  - right. split; [exact B1|]. apply HH in B2; [|assumption|assumption]. destruct B2 as (B2 & B4). split; [exact B2|]. split; [exact B4|]. intros r' c' x Hin [HQ HSA]. apply (B3 r' c'). apply HH; auto.
Qed.
Print Assumptions C104_safe.

Lemma full_not_missing (M : Type) (MO : ManagerOps M) h w H W QA SA inv : stream_manager MO h w H W QA SA inv -> 0 < h -> forall m qs ss kq ks c, inv m qs ss kq ks -> c < w -> missing MO h m c h = Ok false.
Proof.
  intros SMg Hh m qs ss kq ks c HI Hc. destruct (sm_lookup SMg _ _ _ _ _ HI) as [MQ MS]. unfold missing. destruct (MS (Z.of_nat c) (Z.of_nat c + 1)%Z) as (c1s & -> & _); [lia|lia|]. cbn [bind].
  destruct (MQ 0%Z (Z.of_nat h)) as (c0s & -> & G0 & _); [lia|lia|]. cbn [bind]. assert (E : existsb (fun c0 => (Z.of_nat h <=? c_start c0)%Z) c0s = false).
  { destruct (existsb _ c0s) eqn:Hex; [|reflexivity]. apply existsb_exists in Hex. destruct Hex as (c0 & Hin & Hle). apply Z.leb_le in Hle. destruct (G0 c0 Hin) as (_ & G & _). lia. }
  rewrite E, andb_false_r. reflexivity.
Qed.

(** ... and complete columns never raise: C48 holds for these histories. Entry (i, j) has the minimum of query context i + kq and series context j + ks. *)
Theorem C48_safe_shifts : forall (A : Type) (NA : NumOps A) (OL : OrdLaws A) (M : Type) (MO : ManagerOps M)
    h w H W QA SA inv, stream_manager MO h w H W QA SA inv -> 0 < h -> 0 < W ->
  forall (memn : nat -> list (Np.num A)) memz sf m0 es m kq ks,
  inv m0 0%Z 0%Z 0 0 -> man_shape MO m0 = Ok (H, W) -> (1 <= sf)%Q -> (sf <= 2)%Q ->
  Forall (full_event h w) es -> man_after MO m0 es = Ok (m, kq, ks) -> safe MO H m0 false es ->
  exists s0 s, cm_init MO memn memz sf m0 h w = Ok s0 /\ cm_run MO s0 es = Ok s /\
    forall i j, i < H -> j < W -> exists v q r,
      dv_get (cm_dist s) i j = Ok v /\ dv_get (cm_mq s) i j = Ok q /\ dv_get (cm_ms s) i j = Ok r /\
      rect_best (log es) (fun r c => QA (i + kq) r /\ SA (j + ks) c) v q r.
Proof.
  intros A NA OL M MO h w H W QA SA inv SMg Hh HW memn memz sf m0 es m kq ks I0 Sh S1 S2 HF HA HS.
  assert (K : exists hs, held_after MO h H W QA SA m0 es = Ok hs).
  { clear HS Sh. unfold man_after, held_after in *. change (m0, 0, 0) with (hd_man (@held_new A M m0), hd_kq (@held_new A M m0), hd_ks (@held_new A M m0)) in HA.
    change (inv (hd_man (@held_new A M m0)) (hd_qs (@held_new A M m0)) (hd_ss (@held_new A M m0)) (hd_kq (@held_new A M m0)) (hd_ks (@held_new A M m0))) in I0.
    revert HA I0. generalize (@held_new A M m0). induction es as [|e es IH]; intros hs HA I0; cbn [foldM] in *; [eexists; reflexivity|].
    pose proof (Forall_inv HF) as He. apply Forall_inv_tail in HF. specialize (IH HF).
    destruct e as [dd vs|cc vs|n|n]; cbn [held_step man_event bind] in *.
    - apply (IH (held_add QA SA hs _)); assumption.
    - destruct He as (Hc & vals & rest & -> & _ & Hl). rewrite Hl, (full_not_missing M MO h w H W QA SA inv SMg Hh _ _ _ _ _ cc I0 Hc). cbn [bind]. apply (IH (held_add QA SA hs _)); assumption.
    - destruct (man_shift_series MO (hd_man hs) n) as [[m' k]|] eqn:Em; cbn [bind fst snd] in *; [|discriminate]. pose proof (sm_series SMg _ _ _ _ _ n I0 Em). eapply (IH (mkHeld _ _ _ _ _ _ _)); eassumption.
    - destruct (man_shift_query MO (hd_man hs) n) as [[m' k]|] eqn:Em; cbn [bind fst snd] in *; [|discriminate]. pose proof (sm_query SMg _ _ _ _ _ n I0 Em). eapply (IH (mkHeld _ _ _ _ _ _ _)); eassumption. }
  destruct K as (hs & K). assert (HF' : Forall (any_event h w) es) by (eapply Forall_impl; [|exact HF]; intros e He; apply full_any; [exact Hh|exact He]).
  destruct (C104_safe A NA OL M MO h w H W QA SA inv SMg Hh HW memn memz sf m0 es hs I0 Sh S1 S2 HF' HS K) as (s0 & s & E0 & Es & E & G). rewrite HA in E. injection E as E1 E2 E3. rewrite <- E2, <- E3 in G.
  exists s0, s. auto.
Qed.
Print Assumptions C48_safe_shifts.

(** Three contexts of one row each, the first one is dropped, then the value 7 is delivered for the middle one, then a series context is dropped: row 1 first stands for the cell of the dropped
    context, and at the end the first row shows the results of the dropped query context again and 7 is lost. *)
Definition example_history : list (event (Np.num Z)) := [ECol 1 [[Fz 5; Fz 6]]; EShiftQ 1; ECol 1 [[Fz 7; Fz 8]]; EShiftS 1].
Example C104_case :
  Forall (full_event 2 2) example_history /\
  (do s <- cm_init (block_manager 1 1 3 3) no_mem no_mem 2 (0, 0)%Z 2 2;
   do s2 <- cm_run (block_manager 1 1 3 3) s (firstn 2 example_history);
   do s3 <- cm_run (block_manager 1 1 3 3) s (firstn 3 example_history);
   do s4 <- cm_run (block_manager 1 1 3 3) s example_history;
   Ok (fst (fst (cm_tables s2)), fst (fst (cm_tables s3)), fst (fst (cm_tables s4)))) =
  Ok ([[PInf; PInf; PInf]; [PInf; Fz 5; PInf]; [PInf; PInf; PInf]], [[PInf; PInf; PInf]; [Fz 7; Fz 5; PInf]; [PInf; PInf; PInf]], [[Fz 5; Fz 6; PInf]; [PInf; PInf; PInf]; [PInf; PInf; PInf]]) /\
  match held_after (block_manager 1 1 3 3) 2 3 3 (in_block 1) (in_block 1) (0, 0)%Z example_history with
  | Ok hs => hd_shown hs 0 0 0%Z 1%Z (Fz 5) /\ hd_kq hs = 1 /\ forall r c, ~ hd_shown hs 0 0 r c (Fz 7)
  | Err _ => False
  end.
Proof.
  split; [unfold example_history; apply Forall_cons; [|apply Forall_cons; [exact I|apply Forall_cons; [|apply Forall_cons; [exact I|constructor]]]]; (split; [lia|]); eexists; eexists; (split; [reflexivity|split; [intros x [<-|[<-|[]]]; reflexivity|reflexivity]])|]. split; [vm_compute; reflexivity|].
  cbn. split; [right; split; [auto|split; split; cbn; lia]|]. split; [reflexivity|]. intros r c [[]|[[E|[E|[]]] _]]; discriminate E.
Qed.

(** Four contexts, two of them dropped: a safe history; the results of the third context are in the first row. *)
Example C48_safe_case :
  safe (block_manager 1 1 4 2) 4 (0, 0)%Z false [ECol 0 [[Fz 4; Fz 3; Fz 2]]; EShiftQ 2; ECol 0 [[Fz 5; Fz 1; Fz 9]]] /\
  (do s <- cm_init (block_manager 1 1 4 2) no_mem no_mem 2 (0, 0)%Z 3 1;
   do s <- cm_run (block_manager 1 1 4 2) s [ECol 0 [[Fz 4; Fz 3; Fz 2]]; EShiftQ 2; ECol 0 [[Fz 5; Fz 1; Fz 9]]];
   Ok (cm_tables s)) =
  Ok ([[Fz 2; Fz 1; Fz 9; PInf]; [PInf; PInf; PInf; PInf]], [[2; 3; 4; -1]; [-1; -1; -1; -1]], [[0; 0; 0; -1]; [-1; -1; -1; -1]])%Z.
Proof. split; [cbn; auto|]. vm_compute. reflexivity. Qed.

(** Columns shorter than the window: two of three query contexts have begun. The column without the third raises, unless the third is outside the window. *)
Example C104_short_case :
  held_after (block_manager 1 1 3 2) 2 3 2 (in_block 1) (in_block 1) (0, 0)%Z [ECol 0 [[Fz 4]]] = Err ValueError /\
  (do s <- cm_init (block_manager 1 1 3 2) no_mem no_mem 2 (0, 0)%Z 2 1; cm_run (block_manager 1 1 3 2) s [ECol 0 [[Fz 4]]]) = Err ValueError /\
  (exists hs, held_after (block_manager 2 1 2 2) 2 2 2 (in_block 2) (in_block 1) (0, 0)%Z [ECol 0 [[Fz 4]]] = Ok hs) /\
  (do s <- cm_init (block_manager 2 1 2 2) no_mem no_mem 2 (0, 0)%Z 2 1; do s <- cm_run (block_manager 2 1 2 2) s [ECol 0 [[Fz 4]]]; Ok (cm_tables s)) =
    Ok ([[Fz 4; PInf]; [PInf; PInf]], [[0; -1]; [-1; -1]], [[0; -1]; [-1; -1]])%Z.
Proof. split; [reflexivity|]. split; [vm_compute; reflexivity|]. split; [eexists; reflexivity|]. vm_compute. reflexivity. Qed.
