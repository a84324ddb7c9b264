(** * PHeld: every history of a contextual matrix profile *)
From Coq Require Import QArith.
From Verif Require Import Np NpFacts Mat SLog PLog MRing PRing PFullRb MDist PDist MProfile PProfile MContext SContext SHeld PContext PCmp PCmpRun.
Set Implicit Arguments.
Open Scope nat_scope.

Section Dv.
  Context {T : Type}.
  (** The ring buffer beneath a replaced view *)
  Definition beneath (d : dv T) : dv T := mkDv (dv_rb d) None.
  Definition det (d : dv T) : bool := match dv_det d with Some _ => true | None => false end.
  Definition dvx (H W : nat) (d : dv T) : Prop :=
    dv_ok H W (beneath d) /\ length (dv_view d) = W /\ forall col, In col (dv_view d) -> length col = H.
  Lemma dvx_attached H W d : dv_ok H W d -> dvx H W d /\ det d = false.
  Proof. destruct d as [b o]. intros (Hn & F & Hc). cbn in Hn. subst o. split; [|reflexivity]. split; [split; [reflexivity|split; [exact F|exact Hc]]|]. split; [exact (f_len F)|exact Hc]. Qed.
  Lemma attached_ent d i j : det d = false -> dv_ent (beneath d) i j = dv_ent d i j.
  Proof. destruct d as [b [v|]]; [discriminate|reflexivity]. Qed.

  Lemma dvx_ent_some H W d i j : dvx H W d -> i < H -> j < W -> exists x, dv_ent d i j = Some x.
  Proof.
    intros (_ & L & Hc) Hi Hj. unfold dv_ent. destruct (@nth_error_lt_some _ (dv_view d) j) as [col Hcol]; [lia|]. rewrite Hcol.
    apply nth_error_lt_some. rewrite (Hc col); [exact Hi|]. eapply nth_error_In; exact Hcol.
  Qed.
  Lemma dvx_set H W d i j x : dvx H W d -> i < H -> j < W ->
    exists d', dv_set d i j x = Ok d' /\ dvx H W d' /\ det d' = det d /\ (det d = true -> dv_rb d' = dv_rb d) /\
      forall i' j', dv_ent d' i' j' = if (i' =? i) && (j' =? j) then Some x else dv_ent d i' j'.
  Proof.
    destruct d as [b [v|]]; intros (H1 & H2 & H3) Hi Hj.
    - cbn [dv_view dv_det] in H2, H3. unfold dv_set, dv_set_view. cbn [dv_view dv_det dv_rb].
      destruct (@nth_error_lt_some _ v j) as [col Hcol]; [lia|]. assert (Lc : length col = H) by (apply H3; eapply nth_error_In; exact Hcol).
      rewrite (proj2 (getitem_ok _ _ _) Hcol). cbn [bind]. rewrite setitem_ok by lia. cbn [bind]. rewrite setitem_ok by lia. cbn [bind].
      eexists; split; [reflexivity|].
      assert (NV : forall j', nth_error (splice v j [splice col i [x]]) j' = if j' =? j then Some (splice col i [x]) else nth_error v j') by (intro j'; apply nth_error_set1; lia).
      split; [split; [exact H1|split]|].
      + cbn [dv_view dv_det]. rewrite length_set1 by lia. exact H2.
      + cbn [dv_view dv_det]. intros col' H'. apply In_nth_error in H'. destruct H' as [j' Hj']. rewrite NV in Hj'.
        destruct (j' =? j); [injection Hj' as <-; rewrite length_set1; lia|apply H3; eapply nth_error_In; exact Hj'].
      + split; [reflexivity|]. split; [reflexivity|]. intros i' j'. unfold dv_ent. cbn [dv_view dv_det]. rewrite NV.
        destruct (Nat.eqb_spec j' j) as [->|]; [|rewrite andb_false_r; reflexivity]. rewrite andb_true_r, Hcol. rewrite nth_error_set1 by lia. reflexivity.
    - destruct (dv_set_ok x H1 Hi Hj) as (d' & E & D & G). exists d'. destruct (dvx_attached D) as [D1 D2]. split; [exact E|]. split; [exact D1|]. split; [exact D2|]. split; [discriminate|exact G].
  Qed.
  Lemma dvx_push H W d k x : 0 < W -> 0 < k -> dvx H W d ->
    exists d', dv_push d (repeat (repeat x H) k) = Ok d' /\ dvx H W d' /\ det d' = false /\
      forall i j, i < H -> j < W -> dv_ent d' i j = if j + k <? W then dv_ent (beneath d) i (j + k) else Some x.
  Proof.
    intros HW Hk (H1 & _). destruct (dv_push_ok x HW Hk H1) as (d' & E & D & G). exists d'. destruct (dvx_attached D) as [D1 D2].
    split; [|split; [exact D1|split; [exact D2|exact G]]]. rewrite <- E. unfold dv_push, beneath. cbn [dv_rb dv_det]. destruct k; [lia|reflexivity].
  Qed.
  Lemma dvx_shift H W d k n x : dvx H W d ->
    let d' := dv_fill_last (dv_roll d k) n x in dvx H W d' /\ det d' = true /\ dv_rb d' = dv_rb d /\
    forall i j, i < H -> j < W -> dv_ent d' i j = if i + n <? H then dv_ent d ((i + (H - k mod H)) mod H) j else Some x.
  Proof.
    intros (H1 & HL & HC). unfold dv_fill_last, dv_roll. cbn [dv_view dv_set_view dv_det dv_rb]. split; [split; [exact H1|split]|].
    - cbn [dv_view dv_det]. rewrite !map_length. exact HL.
    - cbn [dv_view dv_det]. intros col Hc. apply in_map_iff in Hc. destruct Hc as (c1 & <- & Hc). apply in_map_iff in Hc. destruct Hc as (c0 & <- & Hc). rewrite length_fill_slice, length_roll_left. apply HC, Hc.
    - split; [reflexivity|]. split; [reflexivity|]. intros i j Hi Hj. unfold dv_ent. cbn [dv_view dv_det].
      destruct (nth_error (dv_view d) j) as [col|] eqn:Ej; [|apply nth_error_None in Ej; lia].
      assert (Hlen : length col = H) by (apply HC; eapply nth_error_In; exact Ej).
      rewrite !nth_error_map, Ej. cbn [option_map]. rewrite nth_error_fill_slice, length_roll_left, nth_roll_left, Hlen by lia.
      destruct (Nat.ltb_spec (i + n) H).
      + destruct (Nat.leb_spec (H - n) i); [lia|]. reflexivity.
      + assert (Hm : (i + (H - k mod H)) mod H < H) by (apply Nat.mod_upper_bound; lia).
        destruct (Nat.leb_spec (H - n) i); [|lia]. rewrite (proj2 (Nat.ltb_lt i H)) by lia. cbn [andb].
        destruct (nth_error col ((i + (H - k mod H)) mod H)) eqn:E; [reflexivity|]. apply nth_error_None in E. lia.
  Qed.
End Dv.

Section Held.
  Context {A : Type} {NA : NumOps A} {OL : OrdLaws A}.
  Context {M : Type} (MO : ManagerOps M).
  Notation num := (Np.num A).
  Notation cm := (@cm A M).
  Variables (h w H W : nat) (QA SA : nat -> Z -> Prop) (inv : M -> Z -> Z -> nat -> nat -> Prop).
  Hypothesis SMg : stream_manager MO h w H W QA SA inv.
  Hypotheses (Hh : 0 < h) (HW : 0 < W).

  Definition cmx (b : bool) (s : cm) : Prop :=
    cm_height s = H /\ (dvx H W (cm_dist s) /\ det (cm_dist s) = b) /\ (dvx H W (cm_ms s) /\ det (cm_ms s) = b) /\ (dvx H W (cm_mq s) /\ det (cm_mq s) = b).
  Definition frame (b : bool) (s s' : cm) : Prop := b = true -> dv_rb (cm_dist s') = dv_rb (cm_dist s) /\ dv_rb (cm_ms s') = dv_rb (cm_ms s) /\ dv_rb (cm_mq s') = dv_rb (cm_mq s).

  Lemma upd_x b s x : cmx b s -> cd_i x < H -> cd_j x < W ->
    exists s', upd s x = Ok s' /\ cmx b s' /\ frame b s s' /\
      forall i j v q r, i < H -> j < W -> ent s i j v q r ->
        (i = cd_i x /\ j = cd_j x /\ fltb (cd_v x) v = true /\ ent s' i j (cd_v x) (cd_q x) (cd_s x)) \/
        (~ (i = cd_i x /\ j = cd_j x /\ fltb (cd_v x) v = true) /\ ent s' i j v q r).
  Proof.
    intros (Hz & [D1 B1] & [D2 B2] & [D3 B3]) Hi Hj. unfold upd, cm_update.
    destruct (dvx_ent_some D1 Hi Hj) as [cur Hcur]. rewrite (dv_ent_get _ _ _ Hcur). cbn [bind].
    destruct (fltb (cd_v x) cur) eqn:E.
    - destruct (dvx_set (cd_v x) D1 Hi Hj) as (d & -> & Dd & Bd & Rd & Gd). cbn [bind].
      destruct (dvx_set (cd_q x) D3 Hi Hj) as (q & -> & Dq & Bq & Rq & Gq). cbn [bind].
      destruct (dvx_set (cd_s x) D2 Hi Hj) as (r & -> & Dr & Br & Rr & Gr). cbn [bind].
      eexists; split; [reflexivity|]. split; [split; [exact Hz|split; [|split]]; split; first [assumption|cbn; congruence]|]. split; [intro Eb; cbn [cm_dist cm_ms cm_mq]; split; [apply Rd|split; [apply Rr|apply Rq]]; congruence|].
      intros i j v q0 r0 Hi' Hj' (E1 & E2 & E3). unfold ent. cbn [cm_dist cm_mq cm_ms]. rewrite Gd, Gq, Gr.
      destruct (Nat.eqb_spec i (cd_i x)) as [->|]; [destruct (Nat.eqb_spec j (cd_j x)) as [->|]|]; cbn [andb].
      + left. repeat split; auto. congruence.
      + right. split; [tauto|auto].
      + right. split; [tauto|auto].
    - exists s. split; [reflexivity|]. split; [split; [exact Hz|auto]|]. split; [intros _; auto|]. intros i j v q0 r0 Hi' Hj' He. right. split; [|exact He].
      intros (-> & -> & Hlt). destruct He as (E1 & _). congruence.
  Qed.
  Lemma upds_x b : forall cands s, cmx b s -> (forall x, In x cands -> cd_i x < H /\ cd_j x < W /\ isnan (cd_v x) = false) ->
    exists s', foldM upd cands s = Ok s' /\ cmx b s' /\ frame b s s' /\
      forall i j v q r, i < H -> j < W -> isnan v = false -> ent s i j v q r ->
        exists v' q' r', ent s' i j v' q' r' /\ isnan v' = false /\ improved i j cands v q r v' q' r'.
  Proof.
    induction cands as [|x cands IH]; intros s Hok Hin.
    - exists s. split; [reflexivity|]. split; [exact Hok|]. split; [intros _; auto|]. intros i j v q r Hi Hj Nv He. exists v, q, r. split; [exact He|]. split; [exact Nv|].
      split; [left; reflexivity|intros x []].
    - destruct (Hin x (or_introl eq_refl)) as (Hi & Hj & Nx).
      destruct (upd_x x Hok Hi Hj) as (s1 & E1 & Hok1 & F1 & G1).
      destruct (IH s1 Hok1) as (s' & E' & Hok' & F' & G'); [intros y Hy; apply Hin; right; exact Hy|].
      exists s'. split; [cbn [foldM]; rewrite E1; exact E'|]. split; [exact Hok'|].
      split; [intro Eb; destruct (F1 Eb) as (? & ? & ?), (F' Eb) as (? & ? & ?); split; [|split]; congruence|].
      intros i j v q r Hi' Hj' Nv He. destruct (G1 i j v q r Hi' Hj' He) as [(-> & -> & Hlt & He1)|[Hno He1]].
      + destruct (G' (cd_i x) (cd_j x) _ _ _ Hi' Hj' Nx He1) as (v' & q' & r' & He' & Nv' & Himp & Hlow).
        exists v', q', r'. split; [exact He'|]. split; [exact Nv'|].
        assert (Hle : fltb (cd_v x) v' = false).
        { destruct Himp as [[= -> -> ->]|[Hl _]]; [apply fltb_irrefl|apply fltb_asym, Hl]. }
        split.
        * right. destruct Himp as [[= -> -> ->]|[Hl (y & Hy & Hrest)]].
          -- split; [exact Hlt|]. exists x. split; [left; reflexivity|auto].
          -- split; [eapply fltb_trans; [exact Hl|exact Hlt]|]. exists y. split; [right; exact Hy|exact Hrest].
        * intros y [<-|Hy] Hyi Hyj; [exact Hle|apply Hlow; assumption].
      + destruct (G' i j _ _ _ Hi' Hj' Nv He1) as (v' & q' & r' & He' & Nv' & Himp & Hlow).
        exists v', q', r'. split; [exact He'|]. split; [exact Nv'|]. split.
        * destruct Himp as [E|[Hl (y & Hy & Hrest)]]; [left; exact E|]. right. split; [exact Hl|]. exists y. split; [right; exact Hy|exact Hrest].
        * intros y [<-|Hy] Hyi Hyj; [|apply Hlow; assumption].
          assert (Hge : fltb (cd_v x) v = false) by (destruct (fltb (cd_v x) v) eqn:E; [exfalso; apply Hno; auto|reflexivity]).
          destruct Himp as [[= -> -> ->]|[Hl _]]; [exact Hge|].
          destruct (fltb (cd_v x) v') eqn:E; [|reflexivity]. assert (fltb (cd_v x) v = true) by (eapply fltb_trans; eassumption). congruence.
  Qed.

  (** The entries are the best of the contents *)
  Definition shows (K : contents) (s : cm) : Prop := forall i j, i < H -> j < W -> exists v q r, ent s i j v q r /\ isnan v = false /\ best_of (K i j) v q r.
  Definition under (s : cm) : cm := mkCm (cm_man s) (cm_nq s) (cm_ns s) (cm_height s) (beneath (cm_dist s)) (beneath (cm_ms s)) (beneath (cm_mq s)) (cm_qs s) (cm_ss s).

  Lemma deliver_x b R N cands K s : cmx b s -> shows K s -> cands_ok H W R N cands ->
    exists s', foldM upd cands s = Ok s' /\ cmx b s' /\ frame b s s' /\ shows (fun i j r c x => K i j r c x \/ In (r, c, x) N /\ R i j r c) s'.
  Proof.
    intros Hok Hb [Hs Hc]. destruct (@upds_x b cands s Hok) as (s' & E & Hok' & F & G).
    { intros x Hx. destruct (Hs x Hx) as (?&?&?&_). auto. }
    exists s'. split; [exact E|]. split; [exact Hok'|]. split; [exact F|]. intros i j Hi Hj. destruct (Hb i j Hi Hj) as (v & q & r & He & Nv & HB).
    destruct (G i j v q r Hi Hj Nv He) as (v' & q' & r' & He' & Nv' & Himp & Hlow). exists v', q', r'. split; [exact He'|]. split; [exact Nv'|].
    assert (HN : forall r c x, In (r, c, x) N -> R i j r c -> fltb x v' = false).
    { intros r0 c0 x0 Hx HR. destruct (Hc i j r0 c0 x0 Hi Hj Hx HR) as (y & Hy & Hyi & Hyj & Hle).
      specialize (Hlow y Hy Hyi Hyj). destruct (Hs y Hy) as (_ & _ & Ny & _).
      eapply fltb_false_trans; [exact Ny|exact Hle|exact Hlow]. }
    assert (Hvv : fltb v v' = false).
    { destruct Himp as [[= -> -> ->]|[Hl _]]; [apply fltb_irrefl|apply fltb_asym, Hl]. }
    assert (HL : forall r c x, K i j r c x -> fltb x v' = false).
    { intros r0 c0 x0 Hx. eapply fltb_false_trans; [exact Nv| |exact Hvv].
      destruct HB as [(-> & _ & _ & HB)|(_ & _ & HB)]; eapply HB; eassumption. }
    assert (Hall : forall r c x, K i j r c x \/ In (r, c, x) N /\ R i j r c -> fltb x v' = false).
    { intros r0 c0 x0 [Hx|[Hx HR]]; [eapply HL|eapply HN]; eassumption. }
    destruct Himp as [[= -> -> ->]|[Hl (y & Hy & Hyi & Hyj & <- & <- & <-)]].
    - destruct HB as [(-> & -> & -> & _)|(Hlt & Hin & _)].
      + left. auto.
      + right. split; [exact Hlt|]. split; [left; exact Hin|exact Hall].
    - destruct (Hs y Hy) as (_ & _ & _ & HyN & HyR). rewrite Hyi, Hyj in HyR. right.
      split; [|split; [right; split; [exact HyN|exact HyR]|exact Hall]].
      destruct HB as [(-> & _)|(Hlt & _)]; [exact Hl|eapply fltb_trans; [exact Hl|exact Hlt]].
  Qed.

  Definition detached (o : option (@contents A)) : bool := match o with Some _ => true | None => false end.
  Record agrees (hs : @held A M) (s : cm) : Prop := {
    ag_ok : cmx (detached (hd_beneath hs)) s;
    ag_man : cm_man s = hd_man hs; ag_nq : cm_nq s = h; ag_ns : cm_ns s = w; ag_qs : cm_qs s = hd_qs hs; ag_ss : cm_ss s = hd_ss hs;
    ag_inv : inv (hd_man hs) (hd_qs hs) (hd_ss hs) (hd_kq hs) (hd_ks hs);
    ag_shown : shows (hd_shown hs) s;
    ag_beneath : forall K, hd_beneath hs = Some K -> shows K (under s)
  }.
  Lemma under_shows hs s : agrees hs s -> shows (match hd_beneath hs with Some K => K | None => hd_shown hs end) (under s).
  Proof.
    intros [Hok _ _ _ _ _ _ Hs Hb]. destruct (hd_beneath hs) as [K|]; [apply Hb; reflexivity|].
    destruct Hok as (_ & [_ B1] & [_ B2] & [_ B3]). cbn [detached] in B1, B2, B3.
    intros i j Hi Hj. destruct (Hs i j Hi Hj) as (v & q & r & (E1 & E2 & E3) & Nv & HB). exists v, q, r. split; [|split; [exact Nv|exact HB]].
    unfold ent, under. cbn [cm_dist cm_mq cm_ms]. rewrite !attached_ent by assumption. auto.
  Qed.
  Lemma under_frame b s s' K : frame b s s' -> b = true -> shows K (under s) -> shows K (under s').
  Proof. intros F Eb. destruct (F Eb) as (R1 & R2 & R3). unfold shows, ent, under, beneath. cbn [cm_dist cm_mq cm_ms]. rewrite R1, R2, R3. auto. Qed.

  Lemma start_inv m qs ss kq ks c : inv m qs ss kq ks -> c < w -> exists c1s c0s, man_series MO m (Z.of_nat c) (Z.of_nat c + 1) = Ok c1s /\ man_query MO m 0 (Z.of_nat h) = Ok c0s /\
    (forall c1, In c1 c1s -> c_id c1 < W) /\ (forall c0, In c0 c0s -> (0 <= c_start c0 < c_stop c0)%Z /\ c_id c0 < H).
  Proof.
    intros HI Hc. destruct (sm_lookup SMg _ _ _ _ _ HI) as [MQ MS]. destruct (MS (Z.of_nat c) (Z.of_nat c + 1)%Z) as (c1s & E1 & G1 & _); [lia|lia|]. destruct (MQ 0%Z (Z.of_nat h)) as (c0s & E0 & G0 & _); [lia|lia|].
    exists c1s, c0s. split; [exact E1|]. split; [exact E0|]. split; [intros c1 H1; apply (G1 c1 H1)|]. intros c0 H0. destruct (G0 c0 H0) as (X1 & _ & _ & X2 & _). auto.
  Qed.

  Lemma deliver_cands hs s s1 e cands : agrees hs s -> s1 = held_add QA SA hs e ->
    cands_ok H W (fun i j r c => QA (i + hd_kq hs) r /\ SA (j + hd_ks hs) c) (event_cells (hd_qs hs) (hd_ss hs) e) cands -> cm_step MO s e = foldM upd cands s ->
    exists s', cm_step MO s e = Ok s' /\ agrees s1 s'.
  Proof.
    intros [Hok Hm Hnq Hns Hqs Hss HI Hs Hb] -> HC Ec. destruct (deliver_x Hok Hs HC) as (s' & E' & Hok' & F & Hs'). exists s'. split; [congruence|].
    pose proof (upds_same _ _ E') as (Z1 & Z2 & Z3 & Z4 & Z5 & Z6). unfold held_add.
    constructor; cbn [hd_man hd_kq hd_ks hd_qs hd_ss hd_shown hd_beneath]; try congruence; auto.
    intros K HK. eapply under_frame; [exact F|rewrite HK; reflexivity|]. apply Hb, HK.
  Qed.

  (** A column that ends before a query context begins *)
  Lemma col_pair_empty c vals j (s : cm) c0 : (0 <= c_start c0 < c_stop c0)%Z -> (Z.of_nat (length vals) <= c_start c0)%Z -> cm_col_pair c vals j s c0 = Err ValueError.
  Proof.
    intros H0 H1. unfold cm_col_pair. assert (E : slice vals (c_start c0) (c_stop c0) = []).
    { unfold slice. rewrite !norm_idx_nonneg by lia. apply length_zero_iff_nil. rewrite length_lslice. lia. }
    rewrite E. reflexivity.
  Qed.
  Lemma col_pair_runs b c vals j (s : cm) c0 : (forall x, In x vals -> isnan x = false) -> cmx b s -> (0 <= c_start c0 < c_stop c0)%Z -> (c_start c0 < Z.of_nat (length vals))%Z -> c_id c0 < H -> j < W ->
    exists s', cm_col_pair c vals j s c0 = Ok s' /\ cmx b s'.
  Proof.
    intros Hn Hok H0 H1 Hi Hj. unfold cm_col_pair.
    assert (Esl : slice vals (c_start c0) (c_stop c0) = slice vals (c_start c0) (Z.min (c_stop c0) (Z.of_nat (length vals)))).
    { unfold slice. f_equal. rewrite !norm_idx_nonneg by lia. lia. }
    destruct (@slice_min _ _ _ vals (c_start c0) (Z.min (c_stop c0) (Z.of_nat (length vals))) Hn) as (rel & v & F1 & F2 & _); [lia|lia|]. rewrite Esl, F1. cbn [bind]. rewrite F2. cbn [bind].
    destruct (@upd_x b s (mkCand (c_id c0) j v (Z.of_nat rel + c_start c0 + cm_qs s)%Z (Z.of_nat c + cm_ss s)%Z) Hok Hi Hj) as (s' & E & Hok' & _). exists s'. split; [exact E|exact Hok'].
  Qed.
  Lemma col_raises b c vals j c0s : (forall x, In x vals -> isnan x = false) -> j < W -> (forall c0, In c0 c0s -> (0 <= c_start c0 < c_stop c0)%Z /\ c_id c0 < H) ->
    existsb (fun c0 => (Z.of_nat (length vals) <=? c_start c0)%Z) c0s = true -> forall s : cm, cmx b s -> foldM (cm_col_pair c vals j) c0s s = Err ValueError.
  Proof.
    intros Hn Hj. induction c0s as [|c0 c0s IH]; intros H0 Hex s Hok; [discriminate|]. cbn [foldM existsb] in *. destruct (H0 c0 (or_introl eq_refl)) as [G1 G2].
    destruct (Z.leb_spec (Z.of_nat (length vals)) (c_start c0)) as [Hle|Hgt].
    - rewrite col_pair_empty by assumption. reflexivity.
    - destruct (@col_pair_runs b c vals j s c0 Hn Hok G1 Hgt G2 Hj) as (s' & -> & Hok'). cbn [bind]. apply IH; auto. intros c1 H1. apply H0. right. exact H1.
  Qed.

  Lemma delivery hs s e : agrees hs s -> any_event h w e -> match e with EDiag _ _ | ECol _ _ => True | _ => False end ->
    match held_step MO h H W QA SA hs e with
    | Ok s1 => exists s', cm_step MO s e = Ok s' /\ agrees s1 s'
    | Err x => cm_step MO s e = Err x
    end.
  Proof.
    intros AG He Hd. pose proof AG as [Hok Hm Hnq Hns Hqs Hss HI Hs Hb].
    pose proof (sm_lookup SMg _ _ _ _ _ HI) as HM. destruct e as [d vs|c vs|n|n]; try contradiction.
    - cbn [held_step]. rewrite <- Hqs, <- Hss in HM. rewrite <- Hm in HM.
      destruct (@cm_diag_cands _ _ _ _ MO h w H W (fun i r => QA (i + hd_kq hs) r) (fun j c => SA (j + hd_ks hs) c) s d vs Hnq Hns HM Hh He) as (cands & HC & Ec). rewrite Hqs, Hss in HC.
      eapply deliver_cands; [exact AG|reflexivity|exact HC|exact Ec].
    - destruct He as (Hc & vals & rest & -> & Hn & Hl). cbn [held_step]. unfold missing.
      destruct (start_inv HI Hc) as (c1s & c0s & E1 & E0 & G1 & G0). rewrite E1. cbn [bind]. rewrite E0. cbn [bind].
      destruct (existsb _ c0s) eqn:Hex.
      + destruct c1s as [|c1 c1s]; cbn [length Nat.eqb negb andb].
        * eapply deliver_cands with (cands := []); [exact AG|reflexivity| |].
          -- split; [intros x []|]. intros i j r a v Hi Hj Hin [_ HSA]. exfalso. destruct HM as [_ MS]. destruct (MS (Z.of_nat c) (Z.of_nat c + 1)%Z) as (l & El & _ & Hcov); [lia|lia|]. assert (l = []) by congruence. subst l.
             cbn [event_cells] in Hin. unfold col_cells in Hin. apply in_mapi in Hin. destruct Hin as (k & x & _ & [= -> -> ->]). destruct (Hcov j (Z.of_nat c) ltac:(lia) HSA) as (c2 & [] & _).
          -- cbn [cm_step]. unfold cm_col. cbn [row0 bind]. rewrite Hm, E1. reflexivity.
        * cbn [cm_step]. unfold cm_col. cbn [row0 bind]. rewrite Hm, E1. cbn [bind foldM]. rewrite Hm, Hnq, E0. cbn [bind].
          rewrite (@col_raises _ c vals (c_id c1) c0s Hn (G1 c1 (or_introl eq_refl)) G0 Hex s Hok). reflexivity.
      + rewrite andb_false_r. rewrite <- Hqs, <- Hss in HM. rewrite <- Hm in HM, E0.
        destruct (@cm_col_cands_any _ _ _ _ MO h w H W (fun i r => QA (i + hd_kq hs) r) (fun j c0 => SA (j + hd_ks hs) c0) s c vals rest Hnq Hns HM Hh Hc Hn ltac:(lia)) as (cands & HC & Ec).
        { intros l c0 El Hin. assert (l = c0s) by congruence. subst l. destruct (Z.ltb_spec (c_start c0) (Z.of_nat (length vals))) as [|Hge]; [assumption|]. exfalso.
          assert (existsb (fun c0 => (Z.of_nat (length vals) <=? c_start c0)%Z) c0s = true) by (apply existsb_exists; exists c0; split; [exact Hin|apply Z.leb_le; lia]). congruence. }
        rewrite Hqs, Hss in HC. eapply deliver_cands; [exact AG|reflexivity|exact HC|exact Ec].
  Qed.

  Lemma held_start (memn : nat -> list num) memz sf m0 : inv m0 0 0 0 0 -> man_shape MO m0 = Ok (H, W) -> (1 <= sf)%Q -> (sf <= 2)%Q ->
    exists s0, cm_init MO memn memz sf m0 h w = Ok s0 /\ agrees (held_new m0) s0.
  Proof.
    intros I0 Sh S1 S2. unfold cm_init. rewrite (proj2 (Qle_bool_iff _ _) S1). cbn [negb]. rewrite Sh. cbn [bind fst snd].
    destruct (@dv_new_ok _ memn H W PInf sf S1 S2 HW) as (b1 & -> & D1 & G1). cbn [bind].
    destruct (@dv_new_ok _ memz H W (-1)%Z sf S1 S2 HW) as (b2 & -> & D2 & G2). cbn [bind].
    eexists. split; [reflexivity|]. constructor; cbn; auto; try discriminate.
    - split; [reflexivity|]. split; [apply dvx_attached, D1|]. split; apply dvx_attached, D2.
    - intros i j Hi Hj. exists PInf, (-1)%Z, (-1)%Z. split; [split; [apply G1|split; apply G2]; assumption|]. split; [reflexivity|]. left. repeat split. intros r c x [].
  Qed.

  Lemma query_x hs s n s1 : agrees hs s -> held_step MO h H W QA SA hs (EShiftQ n) = Ok s1 -> exists s', cm_step MO s (EShiftQ n) = Ok s' /\ agrees s1 s'.
  Proof.
    intros AG E1. pose proof (under_shows AG) as HU. destruct AG as [Hok Hm Hnq Hns Hqs Hss HI Hs Hb]. cbn [held_step cm_step] in *. unfold cm_shift_query. rewrite Hm.
    destruct (man_shift_query MO (hd_man hs) n) as [[m' k]|] eqn:Em; cbn [bind fst snd] in *; [|discriminate]. injection E1 as <-. pose proof (sm_query SMg _ _ _ _ _ n HI Em) as HI'.
    destruct (Nat.ltb_spec 0 k) as [Hk|Hk].
    - destruct Hok as (Hz & [D1 B1] & [D2 B2] & [D3 B3]). rewrite Hz. set (q := Nat.min k H).
      destruct (@dvx_shift _ H W (cm_dist s) k q PInf D1) as (P1 & Q1 & R1 & G1). destruct (@dvx_shift _ H W (cm_ms s) k q (-1)%Z D2) as (P2 & Q2 & R2 & G2). destruct (@dvx_shift _ H W (cm_mq s) k q (-1)%Z D3) as (P3 & Q3 & R3 & G3).
      eexists. split; [reflexivity|]. constructor; cbn [hd_man hd_kq hd_ks hd_qs hd_ss hd_shown hd_beneath cm_man cm_nq cm_ns cm_qs cm_ss]; try congruence; auto.
      + split; [reflexivity|]. auto.
      + intros i j Hi Hj. unfold ent. cbn [cm_dist cm_mq cm_ms]. rewrite G1, G2, G3 by assumption.
        assert (L : (i + q <? H) = (i + k <? H)) by (unfold q; destruct (Nat.ltb_spec (i + k) H); [apply Nat.ltb_lt|apply Nat.ltb_ge]; lia). rewrite L.
        destruct (Nat.ltb_spec (i + k) H).
        * apply Hs; [apply Nat.mod_upper_bound; lia|exact Hj].
        * exists PInf, (-1)%Z, (-1)%Z. split; [auto|]. split; [reflexivity|]. left. repeat split. intros r c x [].
      + intros K [= <-]. unfold shows, ent, under, beneath in *. cbn [cm_dist cm_mq cm_ms] in *. rewrite R1, R2, R3. exact HU.
    - replace k with 0 in * by lia. rewrite Nat.add_0_r in *. eexists. split; [reflexivity|]. constructor; cbn; try congruence; auto.
  Qed.
  Lemma series_x hs s n s1 : agrees hs s -> held_step MO h H W QA SA hs (EShiftS n) = Ok s1 -> exists s', cm_step MO s (EShiftS n) = Ok s' /\ agrees s1 s'.
  Proof.
    intros AG E1. pose proof (under_shows AG) as HU. destruct AG as [Hok Hm Hnq Hns Hqs Hss HI Hs Hb]. cbn [held_step cm_step] in *. unfold cm_shift_series. rewrite Hm.
    destruct (man_shift_series MO (hd_man hs) n) as [[m' k]|] eqn:Em; cbn [bind fst snd] in *; [|discriminate]. injection E1 as <-. pose proof (sm_series SMg _ _ _ _ _ n HI Em) as HI'.
    destruct (Nat.ltb_spec 0 k) as [Hk|Hk].
    - destruct Hok as (Hz & [D1 B1] & [D2 B2] & [D3 B3]). rewrite Hz.
      destruct (@dvx_push _ H W (cm_dist s) k PInf HW Hk D1) as (d' & -> & P1 & Q1 & G1). cbn [bind]. destruct (@dvx_push _ H W (cm_ms s) k (-1)%Z HW Hk D2) as (ms' & -> & P2 & Q2 & G2). cbn [bind].
      destruct (@dvx_push _ H W (cm_mq s) k (-1)%Z HW Hk D3) as (mq' & -> & P3 & Q3 & G3). cbn [bind].
      eexists. split; [reflexivity|]. constructor; cbn [hd_man hd_kq hd_ks hd_qs hd_ss hd_shown hd_beneath cm_man cm_nq cm_ns cm_qs cm_ss]; try congruence; auto; try discriminate.
      + split; [reflexivity|]. auto.
      + intros i j Hi Hj. unfold ent. cbn [cm_dist cm_mq cm_ms]. rewrite G1, G2, G3 by assumption. destruct (Nat.ltb_spec (j + k) W).
        * apply HU; assumption.
        * exists PInf, (-1)%Z, (-1)%Z. split; [auto|]. split; [reflexivity|]. left. repeat split. intros r c x [].
    - replace k with 0 in * by lia. rewrite Nat.add_0_r in *. eexists. split; [reflexivity|]. constructor; cbn; try congruence; auto.
  Qed.

  Lemma held_run es : forall hs s hs', agrees hs s -> Forall (any_event h w) es -> foldM (held_step MO h H W QA SA) es hs = Ok hs' -> exists s', cm_run MO s es = Ok s' /\ agrees hs' s'.
  Proof.
    unfold cm_run. induction es as [|e es IH]; intros hs s hs' AG HF E; cbn [foldM] in *; [injection E as <-; exists s; auto|].
    destruct (held_step MO h H W QA SA hs e) as [hs1|] eqn:E1; cbn [bind] in E; [|discriminate]. pose proof (Forall_inv HF) as He. apply Forall_inv_tail in HF.
    assert (K : exists s1, cm_step MO s e = Ok s1 /\ agrees hs1 s1).
    { destruct e as [d vs|c vs|n|n]; [| |eapply series_x; eauto|eapply query_x; eauto];
        (pose proof (delivery _ AG He I) as K; rewrite E1 in K; exact K). }
    destruct K as (s1 & -> & AG1). cbn [bind]. eapply IH; eassumption.
  Qed.
  Lemma held_run_err es e : forall hs s, agrees hs s -> Forall (any_event h w) es -> foldM (held_step MO h H W QA SA) es hs = Err e -> cm_run MO s es = Err e.
  Proof.
    unfold cm_run. induction es as [|x es IH]; intros hs s AG HF E; cbn [foldM] in *; [discriminate|].
    pose proof (Forall_inv HF) as He. destruct (held_step MO h H W QA SA hs x) as [hs1|] eqn:E1; cbn [bind] in E.
    - apply Forall_inv_tail in HF. destruct (@held_run [x] hs s hs1 AG) as (s1 & Es & AG1); [repeat constructor; exact He|cbn [foldM]; rewrite E1; reflexivity|].
      unfold cm_run in Es. cbn [foldM] in Es. destruct (cm_step MO s x) as [s2|]; cbn [bind] in *; [|discriminate]. injection Es as <-. eapply IH; eassumption.
    - injection E as <-. destruct x as [d vs|c vs|n|n]; [discriminate| | |].
      + pose proof (delivery _ AG He I) as K. rewrite E1 in K. rewrite K. reflexivity.
      + cbn [held_step cm_step] in *. unfold cm_shift_series. rewrite (ag_man AG). destruct (man_shift_series MO (hd_man hs) n) as [r|]; cbn [bind] in *; [discriminate|congruence].
      + cbn [held_step cm_step] in *. unfold cm_shift_query. rewrite (ag_man AG). destruct (man_shift_query MO (hd_man hs) n) as [r|]; cbn [bind] in *; [discriminate|congruence].
  Qed.
  Lemma held_lemma (memn : nat -> list num) memz sf m0 es : inv m0 0%Z 0%Z 0 0 -> man_shape MO m0 = Ok (H, W) -> (1 <= sf)%Q -> (sf <= 2)%Q -> Forall (any_event h w) es ->
    exists s0, cm_init MO memn memz sf m0 h w = Ok s0 /\
    match held_after MO h H W QA SA m0 es with
    | Err e => cm_run MO s0 es = Err e
    | Ok hs => exists s, cm_run MO s0 es = Ok s /\
        forall i j, i < H -> j < W -> exists v q r, dv_get (cm_dist s) i j = Ok v /\ dv_get (cm_mq s) i j = Ok q /\ dv_get (cm_ms s) i j = Ok r /\ best_of (hd_shown hs i j) v q r
    end.
  Proof.
    intros I0 Sh S1 S2 HF. destruct (@held_start memn memz sf m0 I0 Sh S1 S2) as (s0 & E0 & AG0). exists s0. split; [exact E0|].
    destruct (held_after MO h H W QA SA m0 es) as [hs|e] eqn:E; [|eapply held_run_err; eassumption]. destruct (@held_run es _ _ _ AG0 HF E) as (s & Es & AG).
    exists s. split; [exact Es|]. intros i j Hi Hj. destruct (ag_shown AG Hi Hj) as (v & q & r & (F1 & F2 & F3) & _ & HB). exists v, q, r.
    split; [apply dv_ent_get, F1|]. split; [apply dv_ent_get, F2|]. split; [apply dv_ent_get, F3|exact HB].
  Qed.
End Held.
