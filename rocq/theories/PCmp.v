(** * PCmp: proofs about ContextualMatrixProfile (MContext.v) *)
From Coq Require Import QArith Permutation.
From Verif Require Import Np NpFacts Mat SLog PLog MRing PRing PFullRb MProfile MContext SContext PContext PSort.
Set Implicit Arguments.
Open Scope nat_scope.

Section Dv.
  Context {T : Type}.

  Definition dv_ok (H W : nat) (d : dv T) : Prop :=
    dv_det d = None /\ full_rb W (dv_rb d) /\ forall col, In col (rb_view (dv_rb d)) -> length col = H.
  Definition dv_ent (d : dv T) (i j : nat) : option T :=
    match nth_error (dv_view d) j with Some col => nth_error col i | None => None end.

  Lemma dv_ent_get d i j x : dv_ent d i j = Some x -> dv_get d i j = Ok x.
  Proof. unfold dv_ent, dv_get, getitem. destruct (nth_error (dv_view d) j) as [col|]; [|discriminate]. cbn [bind]. intros ->. reflexivity. Qed.

  Lemma dv_ent_some H W d i j : dv_ok H W d -> i < H -> j < W -> exists x, dv_ent d i j = Some x.
  Proof.
    intros (Hn & F & Hc) Hi Hj. unfold dv_ent, dv_view. rewrite Hn.
    destruct (@nth_error_lt_some _ (rb_view (dv_rb d)) j) as [col Hcol]; [rewrite (f_len F); exact Hj|]. rewrite Hcol.
    apply nth_error_lt_some. rewrite (Hc col); [exact Hi|]. eapply nth_error_In; exact Hcol.
  Qed.

  Lemma dv_set_ok H W d i j x : dv_ok H W d -> i < H -> j < W ->
    exists d', dv_set d i j x = Ok d' /\ dv_ok H W d' /\
      forall i' j', dv_ent d' i' j' = if (i' =? i) && (j' =? j) then Some x else dv_ent d i' j'.
  Proof.
    intros (Hn & F & Hc) Hi Hj. unfold dv_set, dv_view, dv_set_view. rewrite Hn.
    destruct (@nth_error_lt_some _ (rb_view (dv_rb d)) j) as [col Hcol]; [rewrite (f_len F); exact Hj|].
    assert (Lc : length col = H) by (apply Hc; eapply nth_error_In; exact Hcol).
    rewrite (proj2 (getitem_ok _ _ _) Hcol). cbn [bind]. rewrite setitem_ok by lia. cbn [bind].
    rewrite setitem_ok by (rewrite (f_len F); exact Hj). cbn [bind].
    destruct (@full_set_view _ W (dv_rb d) (splice (rb_view (dv_rb d)) j [splice col i [x]]) F) as [F' V'].
    { rewrite length_set1; rewrite ?(f_len F); lia. }
    eexists; split; [reflexivity|].
    assert (NV : forall j', nth_error (splice (rb_view (dv_rb d)) j [splice col i [x]]) j' =
       if j' =? j then Some (splice col i [x]) else nth_error (rb_view (dv_rb d)) j') by (intro j'; apply nth_error_set1; rewrite (f_len F); exact Hj).
    split; [split; [reflexivity|]; cbn [dv_rb]; split; [exact F'|]|].
    - intros col' H'. rewrite V' in H'. apply In_nth_error in H'. destruct H' as [j' Hj']. rewrite NV in Hj'.
      destruct (j' =? j); [injection Hj' as <-; rewrite length_set1; lia|apply Hc; eapply nth_error_In; exact Hj'].
    - intros i' j'. unfold dv_ent, dv_view. cbn [dv_det dv_rb]. rewrite V', NV, Hn.
      destruct (Nat.eqb_spec j' j) as [->|]; [|rewrite andb_false_r; reflexivity]. rewrite andb_true_r, Hcol.
      rewrite nth_error_set1 by lia. reflexivity.
  Qed.

  Lemma dv_push_ok H W d k x : 0 < W -> 0 < k -> dv_ok H W d ->
    exists d', dv_push d (repeat (repeat x H) k) = Ok d' /\ dv_ok H W d' /\
      forall i j, i < H -> j < W -> dv_ent d' i j = if j + k <? W then dv_ent d i (j + k) else Some x.
  Proof.
    intros HW Hk (Hn & F & Hc). unfold dv_push. destruct (@full_push _ W (dv_rb d) (repeat (repeat x H) k) HW F) as (b' & E & F' & V').
    rewrite E. cbn [bind fst]. assert (Er : (match repeat (repeat x H) k with [] => dv_det d | _ => None end) = None) by (destruct k; [lia|reflexivity]).
    rewrite Er. eexists; split; [reflexivity|].
    assert (NV : forall j, j < W -> nth_error (rb_view b') j = if j + k <? W then nth_error (rb_view (dv_rb d)) (j + k) else Some (repeat x H)).
    { intros j Hj. rewrite V', nth_lastn_push by (rewrite ?(f_len F); auto). rewrite repeat_length.
      destruct (Nat.ltb_spec (j + k) W); [reflexivity|]. rewrite nth_error_repeat'. destruct (Nat.ltb_spec (j + k - W) k); [reflexivity|lia]. }
    split; [split; [reflexivity|split; [exact F'|]]|].
    - cbn [dv_rb]. intros col H'. apply In_nth_error in H'. destruct H' as [j Hj]. rewrite NV in Hj.
      + destruct (j + k <? W); [apply Hc; eapply nth_error_In; exact Hj|injection Hj as <-; apply repeat_length].
      + rewrite <- (f_len F'). eapply nth_error_some_lt; exact Hj.
    - intros i j Hi Hj. unfold dv_ent, dv_view. cbn [dv_det dv_rb]. rewrite NV by exact Hj. rewrite Hn.
      destruct (j + k <? W); [reflexivity|]. rewrite nth_error_repeat'. destruct (Nat.ltb_spec i H); [reflexivity|lia].
  Qed.

  Lemma dv_new_ok mem H W x sf : (1 <= sf)%Q -> (sf <= 2)%Q -> 0 < W ->
    exists b, rb_new mem (Some (repeat (repeat x H) W)) None true sf = Ok b /\ dv_ok H W (mkDv b None) /\
      forall i j, i < H -> j < W -> dv_ent (mkDv b None) i j = Some x.
  Proof.
    intros H1 H2 HW. destruct (@full_new _ mem (repeat (repeat x H) W) sf H1 H2) as (b & E & F & V); [rewrite repeat_length; exact HW|].
    rewrite repeat_length in F. exists b. split; [exact E|]. split; [split; [reflexivity|split; [exact F|]]|].
    - cbn [dv_rb]. rewrite V. intros col Hc. apply repeat_spec in Hc. subst col. apply repeat_length.
    - intros i j Hi Hj. unfold dv_ent, dv_view. cbn [dv_det dv_rb]. rewrite V, nth_error_repeat'.
      destruct (Nat.ltb_spec j W); [|lia]. rewrite nth_error_repeat'. destruct (Nat.ltb_spec i H); [reflexivity|lia].
  Qed.
End Dv.

Section Cmp.
  Context {A : Type} {NA : NumOps A} {OL : OrdLaws A}.
  Context {M : Type} (MO : ManagerOps M).
  Notation num := (Np.num A).
  Notation cm := (@cm A M).

  (** Candidate for entry (i, j) *)
  Record cand := mkCand { cd_i : nat; cd_j : nat; cd_v : num; cd_q : Z; cd_s : Z }.
  Definition upd (s : cm) (x : cand) : res cm := cm_update s (cd_i x) (cd_j x) (cd_v x) (cd_q x) (cd_s x).

  Definition cm_ok (H W : nat) (s : cm) : Prop :=
    cm_height s = H /\ dv_ok H W (cm_dist s) /\ dv_ok H W (cm_ms s) /\ dv_ok H W (cm_mq s).
  Definition same (s s' : cm) : Prop :=
    cm_man s' = cm_man s /\ cm_nq s' = cm_nq s /\ cm_ns s' = cm_ns s /\ cm_height s' = cm_height s /\
    cm_qs s' = cm_qs s /\ cm_ss s' = cm_ss s.
  Definition ent (s : cm) (i j : nat) (v : num) (q r : Z) : Prop :=
    dv_ent (cm_dist s) i j = Some v /\ dv_ent (cm_mq s) i j = Some q /\ dv_ent (cm_ms s) i j = Some r.

  Lemma same_refl s : same s s.
  Proof. repeat split. Qed.
  Lemma same_trans s1 s2 s3 : same s1 s2 -> same s2 s3 -> same s1 s3.
  Proof. intros (?&?&?&?&?&?) (?&?&?&?&?&?). repeat split; congruence. Qed.

  Lemma upd_same s x s' : upd s x = Ok s' -> same s s'.
  Proof.
    unfold upd, cm_update. destruct (dv_get _ _ _); cbn [bind]; [|discriminate]. destruct (fltb _ _); [|intros [= <-]; apply same_refl].
    destruct (dv_set (cm_dist s) _ _ _); cbn [bind]; [|discriminate]. destruct (dv_set (cm_mq s) _ _ _); cbn [bind]; [|discriminate].
    destruct (dv_set (cm_ms s) _ _ _); cbn [bind]; [|discriminate]. intros [= <-]. repeat split.
  Qed.

  Lemma upd_ok H W s x : cm_ok H W s -> cd_i x < H -> cd_j x < W ->
    exists s', upd s x = Ok s' /\ cm_ok H W s' /\
      forall i j v q r, i < H -> j < W -> ent s i j v q r ->
        (i = cd_i x /\ j = cd_j x /\ fltb (cd_v x) v = true /\ ent s' i j (cd_v x) (cd_q x) (cd_s x)) \/
        (~ (i = cd_i x /\ j = cd_j x /\ fltb (cd_v x) v = true) /\ ent s' i j v q r).
  Proof.
    intros (Hh & D1 & D2 & D3) Hi Hj. unfold upd, cm_update.
    destruct (dv_ent_some D1 Hi Hj) as [cur Hcur]. rewrite (dv_ent_get _ _ _ Hcur). cbn [bind].
    destruct (fltb (cd_v x) cur) eqn:E.
    - destruct (dv_set_ok (cd_v x) D1 Hi Hj) as (d & -> & Dd & Gd). cbn [bind].
      destruct (dv_set_ok (cd_q x) D3 Hi Hj) as (q & -> & Dq & Gq). cbn [bind].
      destruct (dv_set_ok (cd_s x) D2 Hi Hj) as (r & -> & Dr & Gr). cbn [bind].
      eexists; split; [reflexivity|]. split; [split; [exact Hh|repeat split; apply Dd || apply Dr || apply Dq]|].
      intros i j v q0 r0 Hi' Hj' (E1 & E2 & E3). unfold ent. cbn [cm_dist cm_mq cm_ms]. rewrite Gd, Gq, Gr.
      destruct (Nat.eqb_spec i (cd_i x)) as [->|]; [destruct (Nat.eqb_spec j (cd_j x)) as [->|]|]; cbn [andb].
      + left. repeat split; auto. congruence.
      + right. split; [tauto|auto].
      + right. split; [tauto|auto].
    - exists s. split; [reflexivity|]. split; [split; auto|]. intros i j v q0 r0 Hi' Hj' He. right. split; [|exact He].
      intros (-> & -> & Hlt). destruct He as (E1 & _). congruence.
  Qed.

  (** The effect of a list of candidates on one entry *)
  Definition improved (i j : nat) (cands : list cand) (v : num) (q r : Z) (v' : num) (q' r' : Z) : Prop :=
    ((v', q', r') = (v, q, r) \/ (fltb v' v = true /\ exists x, In x cands /\ cd_i x = i /\ cd_j x = j /\ cd_v x = v' /\ cd_q x = q' /\ cd_s x = r')) /\
    (forall x, In x cands -> cd_i x = i -> cd_j x = j -> fltb (cd_v x) v' = false).

  Lemma upds_ok H W : forall cands s, cm_ok H W s -> (forall x, In x cands -> cd_i x < H /\ cd_j x < W /\ isnan (cd_v x) = false) ->
    exists s', foldM upd cands s = Ok s' /\ cm_ok H W s' /\
      forall i j v q r, i < H -> j < W -> isnan v = false -> ent s i j v q r ->
        exists v' q' r', ent s' i j v' q' r' /\ isnan v' = false /\ improved i j cands v q r v' q' r'.
  Proof.
    induction cands as [|x cands IH]; intros s Hok Hin.
    - exists s. split; [reflexivity|]. split; [exact Hok|]. intros i j v q r Hi Hj Nv He. exists v, q, r. split; [exact He|]. split; [exact Nv|].
      split; [left; reflexivity|intros x []].
    - destruct (Hin x (or_introl eq_refl)) as (Hi & Hj & Nx).
      destruct (upd_ok x Hok Hi Hj) as (s1 & E1 & Hok1 & G1).
      destruct (IH s1 Hok1) as (s' & E' & Hok' & G'); [intros y Hy; apply Hin; right; exact Hy|].
      exists s'. split; [cbn [foldM]; rewrite E1; exact E'|]. split; [exact Hok'|].
      intros i j v q r Hi' Hj' Nv He. destruct (G1 i j v q r Hi' Hj' He) as [(-> & -> & Hlt & He1)|[Hno He1]].
      + destruct (G' (cd_i x) (cd_j x) _ _ _ Hi' Hj' Nx He1) as (v' & q' & r' & He' & Nv' & Himp & Hlow).
        exists v', q', r'. split; [exact He'|]. split; [exact Nv'|].
        assert (Hle : fltb (cd_v x) v' = false).
        { destruct Himp as [[= -> -> ->]|[Hl _]]; [apply fltb_irrefl|apply fltb_asym, Hl]. }
        split.
        * right. destruct Himp as [[= -> -> ->]|[Hl (y & Hy & Hrest)]].
          -- split; [exact Hlt|]. exists x. split; [left; reflexivity|auto].
          -- split; [eapply fltb_trans; [exact Hl|exact Hlt]|]. exists y. split; [right; exact Hy|exact Hrest].
        * intros y [<-|Hy] Hyi Hyj; [exact Hle|apply Hlow; assumption].
      + destruct (G' i j _ _ _ Hi' Hj' Nv He1) as (v' & q' & r' & He' & Nv' & Himp & Hlow).
        exists v', q', r'. split; [exact He'|]. split; [exact Nv'|]. split.
        * destruct Himp as [E|[Hl (y & Hy & Hrest)]]; [left; exact E|]. right. split; [exact Hl|]. exists y. split; [right; exact Hy|exact Hrest].
        * intros y [<-|Hy] Hyi Hyj; [|apply Hlow; assumption].
          assert (Hge : fltb (cd_v x) v = false) by (destruct (fltb (cd_v x) v) eqn:E; [exfalso; apply Hno; auto|reflexivity]).
          destruct Himp as [[= -> -> ->]|[Hl _]]; [exact Hge|].
          destruct (fltb (cd_v x) v') eqn:E; [|reflexivity]. assert (fltb (cd_v x) v = true) by (eapply fltb_trans; eassumption). congruence.
  Qed.

  (** Candidates of an event: sound (each is a delivered cell of its rectangle) and complete (every delivered cell of a
      rectangle is beaten by a candidate of the rectangle). *)
  Definition cands_ok (H W : nat) (R : nat -> nat -> Z -> Z -> Prop) (N : list (cell num)) (cands : list cand) : Prop :=
    (forall x, In x cands -> cd_i x < H /\ cd_j x < W /\ isnan (cd_v x) = false /\ In (cd_q x, cd_s x, cd_v x) N /\ R (cd_i x) (cd_j x) (cd_q x) (cd_s x)) /\
    (forall i j r c v, i < H -> j < W -> In (r, c, v) N -> R i j r c ->
       exists x, In x cands /\ cd_i x = i /\ cd_j x = j /\ fltb v (cd_v x) = false).

  Definition best_ok (H W : nat) (R : nat -> nat -> Z -> Z -> Prop) (L : list (cell num)) (s : cm) : Prop :=
    forall i j, i < H -> j < W -> exists v q r, ent s i j v q r /\ isnan v = false /\ rect_best L (R i j) v q r.

  Lemma best_step H W R L N cands s : cm_ok H W s -> best_ok H W R L s -> cands_ok H W R N cands ->
    exists s', foldM upd cands s = Ok s' /\ cm_ok H W s' /\ best_ok H W R (L ++ N) s'.
  Proof.
    intros Hok Hb [Hs Hc]. destruct (@upds_ok H W cands s Hok) as (s' & E & Hok' & G).
    { intros x Hx. destruct (Hs x Hx) as (?&?&?&_). auto. }
    exists s'. split; [exact E|]. split; [exact Hok'|]. intros i j Hi Hj. destruct (Hb i j Hi Hj) as (v & q & r & He & Nv & HB).
    destruct (G i j v q r Hi Hj Nv He) as (v' & q' & r' & He' & Nv' & Himp & Hlow). exists v', q', r'. split; [exact He'|]. split; [exact Nv'|].
    assert (HN : forall r c x, In (r, c, x) N -> R i j r c -> fltb x v' = false).
    { intros r0 c0 x0 Hx HR. destruct (Hc i j r0 c0 x0 Hi Hj Hx HR) as (y & Hy & Hyi & Hyj & Hle).
      specialize (Hlow y Hy Hyi Hyj). destruct (Hs y Hy) as (_ & _ & Ny & _).
      eapply fltb_false_trans; [exact Ny|exact Hle|exact Hlow]. }
    assert (Hvv : fltb v v' = false).
    { destruct Himp as [[= -> -> ->]|[Hl _]]; [apply fltb_irrefl|apply fltb_asym, Hl]. }
    assert (HL : forall r c x, In (r, c, x) L -> R i j r c -> fltb x v' = false).
    { intros r0 c0 x0 Hx HR. eapply fltb_false_trans; [exact Nv| |exact Hvv].
      destruct HB as [(-> & _ & _ & HB)|(_ & _ & _ & HB)]; eapply HB; eassumption. }
    assert (Hall : forall r c x, In (r, c, x) (L ++ N) -> R i j r c -> fltb x v' = false).
    { intros r0 c0 x0 Hx HR. apply in_app_or in Hx. destruct Hx; [eapply HL|eapply HN]; eassumption. }
    destruct Himp as [[= -> -> ->]|[Hl (y & Hy & Hyi & Hyj & <- & <- & <-)]].
    - destruct HB as [(-> & -> & -> & _)|(Hlt & Hin & HR & _)].
      + left. auto.
      + right. split; [exact Hlt|]. split; [apply in_or_app; left; exact Hin|]. split; [exact HR|exact Hall].
    - destruct (Hs y Hy) as (_ & _ & _ & HyN & HyR). rewrite Hyi, Hyj in HyR. right.
      split; [|split; [apply in_or_app; right; exact HyN|split; [exact HyR|exact Hall]]].
      destruct HB as [(-> & _)|(Hlt & _)]; [exact Hl|eapply fltb_trans; [exact Hl|exact Hlt]].
  Qed.

  Lemma upds_same cs : forall s s', foldM upd cs s = Ok s' -> same s s'.
  Proof.
    induction cs as [|c cs IHc]; intros s s' E; cbn [foldM] in E.
    - injection E as <-. apply same_refl.
    - destruct (upd s c) as [s2|] eqn:E2; cbn [bind] in E; [|discriminate]. eapply same_trans; [eapply upd_same; exact E2|apply IHc, E].
  Qed.

  (** A loop whose steps perform updates performs the concatenation of the updates, as long as what the steps
      do does not depend on the updated tables. *)
  Lemma loop_upds {X} (f : cm -> X -> res cm) (P : X -> list cand -> Prop) s0 : forall xs,
    (forall x, In x xs -> exists cs, P x cs /\ forall s, same s0 s -> f s x = foldM upd cs s) ->
    exists css, Forall2 P xs css /\ forall s, same s0 s -> foldM f xs s = foldM upd (concat css) s.
  Proof.
    induction xs as [|x xs IH]; intros H1.
    - exists []. split; [constructor|]. reflexivity.
    - destruct IH as (css & HF & HE); [intros; apply H1; right; assumption|].
      destruct (H1 x (or_introl eq_refl)) as (cs & HP & HS).
      exists (cs :: css). split; [constructor; assumption|]. intros s Hsm. cbn [foldM concat]. rewrite foldM_app.
      rewrite (HS s Hsm). destruct (foldM upd cs s) as [s1|e] eqn:E; cbn [bind]; [|reflexivity].
      apply HE. eapply same_trans; [exact Hsm|eapply upds_same; exact E].
  Qed.

  Lemma Forall2_in_l {X Y} (P : X -> Y -> Prop) xs ys x : Forall2 P xs ys -> In x xs -> exists y, In y ys /\ P x y.
  Proof. induction 1 as [|a b xs ys Hab _ IH]; intros []; [subst; exists b; split; [left; reflexivity|exact Hab]|]. destruct (IH H) as (y & Hy & HP). exists y. split; [right; exact Hy|exact HP]. Qed.
  Lemma Forall2_in_r {X Y} (P : X -> Y -> Prop) xs ys y : Forall2 P xs ys -> In y ys -> exists x, In x xs /\ P x y.
  Proof. induction 1 as [|a b xs ys Hab _ IH]; intros []; [subst; exists a; split; [left; reflexivity|exact Hab]|]. destruct (IH H) as (x & Hx & HP). exists x. split; [right; exact Hx|exact HP]. Qed.

  Lemma slice_min (values : list num) (lo hi : Z) : no_nan values -> (0 <= lo < hi)%Z -> (hi <= Z.of_nat (length values))%Z ->
    exists rel v, amin (slice values lo hi) = Ok v /\ argmin (slice values lo hi) = Ok rel /\ (lo + Z.of_nat rel < hi)%Z /\
      nth_error values (Z.to_nat lo + rel) = Some v /\ isnan v = false /\
      forall p x, (lo <= Z.of_nat p < hi)%Z -> nth_error values p = Some x -> fltb x v = false.
  Proof.
    intros Hn Hlo Hhi. set (l := slice values lo hi).
    assert (Hl : forall i, nth_error l i = if Z.to_nat lo + i <? Z.to_nat hi then nth_error values (Z.to_nat lo + i) else None).
    { intro i. unfold l, slice. rewrite !norm_idx_nonneg by lia. rewrite nth_error_lslice. replace (Nat.min (length values) (Z.to_nat hi)) with (Z.to_nat hi) by lia. replace (Nat.min (length values) (Z.to_nat lo)) with (Z.to_nat lo) by lia. destruct (Nat.ltb_spec (Z.to_nat lo + i) (Z.to_nat hi)), (Nat.ltb_spec i (Z.to_nat hi - Z.to_nat lo)); try reflexivity; lia. }
    destruct (@amin_argmin _ _ _ l) as (rel & v & E1 & E2 & H1 & H2 & _).
    - intro E. specialize (Hl 0). rewrite E, Nat.add_0_r in Hl. destruct (Nat.ltb_spec (Z.to_nat lo) (Z.to_nat hi)); [|lia].
      symmetry in Hl. apply nth_error_None in Hl. lia.
    - intros x Hx. apply In_nth_error in Hx. destruct Hx as [i Hi]. rewrite Hl in Hi. destruct (_ <? _); [|discriminate]. eapply no_nan_nth; [exact Hn|exact Hi].
    - rewrite Hl in H1. destruct (Nat.ltb_spec (Z.to_nat lo + rel) (Z.to_nat hi)); [|discriminate].
      exists rel, v. split; [exact E2|]. split; [exact E1|]. split; [lia|]. split; [exact H1|]. split; [eapply no_nan_nth; [exact Hn|exact H1]|].
      intros p x Hp Hx. apply (H2 (p - Z.to_nat lo) x). rewrite Hl. replace (Z.to_nat lo + (p - Z.to_nat lo)) with p by lia.
      destruct (Nat.ltb_spec p (Z.to_nat hi)); [exact Hx|lia].
  Qed.

  (** Arithmetic of the part of a diagonal that lies in one query context *)
  Lemma diag_arith (h' w' n d idx1 cs ce : Z) : (0 < h')%Z -> (0 <= w')%Z -> (- h' < d < w')%Z ->
    n = Z.min (h' - Z.max 0 (- d)) (w' - Z.max 0 d) -> idx1 = Z.max 0 d -> (0 <= cs < ce)%Z ->
    (Z.max 0 (- d) < ce)%Z -> (cs < (if (0 <=? d) then n else h'))%Z ->
    let s1 := Z.min (Z.max 0 (cs + d)) w' in let e1 := Z.min w' (Z.min h' ce + d) in
    (s1 = e1 /\ forall p, (0 <= p < n)%Z -> ~ (cs <= p + idx1 - d < ce)%Z) \/
    ((0 <= s1 < e1)%Z /\ (e1 <= w')%Z /\ (idx1 <= s1)%Z /\ (e1 - idx1 <= n)%Z /\
       forall p, (0 <= p < n)%Z -> ((cs <= p + idx1 - d < ce)%Z <-> (s1 <= p + idx1 < e1)%Z)).
  Proof.
    intros Hh Hw Hd Hn Hi Hc H1 H2 s1 e1. destruct (Z.leb_spec 0 d).
    - rewrite (Z.max_l 0 (- d)), (Z.max_r 0 d) in * by lia. subst idx1.
      assert (E1 : s1 = (cs + d)%Z) by (subst s1; lia). assert (E2 : e1 = Z.min w' (Z.min h' ce + d)) by reflexivity.
      clearbody s1 e1. subst s1. right. repeat split; lia.
    - rewrite (Z.max_r 0 (- d)), (Z.max_l 0 d) in * by lia. subst idx1.
      assert (E2 : e1 = Z.min w' (Z.min h' ce + d)) by reflexivity.
      destruct (Z.le_gt_cases w' (Z.max 0 (cs + d))) as [Hge|Hlt].
      + left. assert (E1 : s1 = w') by (subst s1; lia). clearbody s1 e1. split; lia.
      + right. assert (E1 : s1 = Z.max 0 (cs + d)) by (subst s1; lia). clearbody s1 e1. repeat split; lia.
  Qed.

  Variables h w H W : nat.
  Variables R1 R2 : nat -> Z -> Prop.
  Let R := fun i j r c => R1 i r /\ R2 j c.

  Lemma cm_diag_cands s d vs : cm_nq s = h -> cm_ns s = w ->
    man_ok MO (cm_man s) h w H W (fun i x => R1 i (cm_qs s + x)%Z) (fun j x => R2 j (cm_ss s + x)%Z) ->
    0 < h -> full_event h w (EDiag d vs) ->
    exists cands, cands_ok H W R (event_cells (cm_qs s) (cm_ss s) (EDiag d vs)) cands /\ cm_diag MO s d vs = foldM upd cands s.
  Proof.
    intros Hnq Hns [MQ MS] Hh (Hd & vals & rest & -> & Hn & Hlen). unfold cm_diag. cbn [row0 bind event_cells].
    set (qs := cm_qs s) in *. set (ss := cm_ss s) in *. set (N := diag_cells qs ss d vals).
    set (idx1 := Z.max 0 d).
    assert (HN : forall r c v, In (r, c, v) N <-> exists p, nth_error vals p = Some v /\ (r = qs + Z.of_nat p + idx1 - d)%Z /\ (c = ss + Z.of_nat p + idx1)%Z).
    { intros r c v. unfold N, diag_cells. rewrite in_mapi. split.
      - intros (p & x & Hp & E). injection E as E1 E2 E3. subst x. exists p. split; [exact Hp|]. subst idx1. lia.
      - intros (p & Hp & -> & ->). exists p, v. split; [exact Hp|]. f_equal; f_equal; subst idx1; lia. }
    (* the query contexts *)
    assert (E0 : exists a b, (0 <= a < b)%Z /\ (b <= Z.of_nat h)%Z /\ a = Z.max 0 (- d) /\ (a + Z.of_nat (length vals) <= b)%Z /\
      (if (0 <=? d)%Z then do c0s <- man_query MO (cm_man s) 0 (Z.of_nat (length vals)); foldM (cm_diag_ctx MO d vals d) c0s s
       else do c0s <- man_query MO (cm_man s) (- d) (Z.of_nat (cm_nq s)); foldM (cm_diag_ctx MO d vals 0) c0s s) =
      (do c0s <- man_query MO (cm_man s) a b; foldM (cm_diag_ctx MO d vals idx1) c0s s) /\ 
      b = (if (0 <=? d)%Z then Z.of_nat (length vals) else Z.of_nat h)).
    { destruct (Z.leb_spec 0 d).
      - exists 0%Z, (Z.of_nat (length vals)). replace idx1 with d by (subst idx1; lia).
        split; [lia|]. split; [lia|]. split; [lia|]. split; [lia|]. split; reflexivity.
      - exists (- d)%Z, (Z.of_nat h). replace idx1 with 0%Z by (subst idx1; lia). rewrite Hnq.
        split; [lia|]. split; [lia|]. split; [lia|]. split; [lia|]. split; reflexivity. }
    destruct E0 as (a & b & Hab & Hbh & Ha & Hbl & -> & Hb0).
    assert (Hrow : forall p, (Z.of_nat p < Z.of_nat (length vals))%Z -> (a <= Z.of_nat p + idx1 - d < b)%Z) by (intros p Hp; subst idx1; lia).
    assert (Hctx := fun c0 => @diag_arith (Z.of_nat h) (Z.of_nat w) (Z.of_nat (length vals)) d idx1 (c_start c0) (c_stop c0) ltac:(lia) ltac:(lia) Hd Hlen eq_refl).
    rewrite <- Ha, <- Hb0 in Hctx. cbv zeta in Hctx. clearbody idx1. clear Ha Hb0 Hlen Hd.
    destruct (MQ a b Hab Hbh) as (c0s & E0 & Hs0 & Hc0). rewrite E0. cbn [bind].
    set (P := fun (c0 : ctx) (cs : list cand) =>
      (forall x, In x cs -> cd_i x = c_id c0 /\ cd_j x < W /\ isnan (cd_v x) = false /\ In (cd_q x, cd_s x, cd_v x) N /\ R (cd_i x) (cd_j x) (cd_q x) (cd_s x)) /\
      (forall j p v, nth_error vals p = Some v -> (c_start c0 <= Z.of_nat p + idx1 - d < c_stop c0)%Z -> R2 j (ss + (Z.of_nat p + idx1)) ->
         exists x, In x cs /\ cd_i x = c_id c0 /\ cd_j x = j /\ fltb v (cd_v x) = false)).
    destruct (@loop_upds ctx (cm_diag_ctx MO d vals idx1) P s c0s) as (css & HF & HE).
    { intros c0 Hc. destruct (Hs0 c0 Hc) as (G1 & G2 & G3 & G4 & G5).
      set (s1 := Z.min (Z.max 0 (c_start c0 + d)) (Z.of_nat w)).
      set (e1 := Z.min (Z.of_nat w) (Z.min (Z.of_nat h) (c_stop c0) + d)).
      assert (Hun : forall t, same s t -> cm_diag_ctx MO d vals idx1 t c0 =
         if (s1 =? e1)%Z then Ok t else do c1s <- man_series MO (cm_man s) s1 e1; foldM (cm_diag_pair d vals idx1 s1 e1 (c_id c0)) c1s t).
      { intros t (T1 & T2 & T3 & _). unfold cm_diag_ctx. rewrite T1, T2, T3, Hnq, Hns. reflexivity. }
      pose proof (Hctx c0 G1 G3 G2) as HX. fold s1 in HX. fold e1 in HX. clear Hctx.
      clearbody s1 e1. destruct HX as [[Heq Hnone]|(Hse & Hew & His & Hel & Hiff)].
      - exists []. split; [split; [intros x []|]|].
        + intros j p v Hp Hr _. exfalso. apply (Hnone (Z.of_nat p)); [apply nth_error_some_lt in Hp; lia|exact Hr].
        + intros t Ht. rewrite (Hun t Ht). destruct (Z.eqb_spec s1 e1); [reflexivity|contradiction].
      - destruct (MS s1 e1 Hse Hew) as (c1s & E1 & Hs1 & Hc1).
        set (P1 := fun (c1 : ctx) (cs : list cand) =>
          (forall x, In x cs -> cd_i x = c_id c0 /\ cd_j x = c_id c1 /\ isnan (cd_v x) = false /\ In (cd_q x, cd_s x, cd_v x) N /\ R (cd_i x) (cd_j x) (cd_q x) (cd_s x)) /\
          (forall p v, nth_error vals p = Some v -> (s1 <= Z.of_nat p + idx1 < e1)%Z -> (c_start c1 <= Z.of_nat p + idx1 < c_stop c1)%Z ->
             exists x, In x cs /\ cd_i x = c_id c0 /\ cd_j x = c_id c1 /\ fltb v (cd_v x) = false)).
        destruct (@loop_upds ctx (cm_diag_pair d vals idx1 s1 e1 (c_id c0)) P1 s c1s) as (css & HF & HE).
        { intros c1 Hc1'. destruct (Hs1 c1 Hc1') as (K1 & K2 & K3 & K4 & K5).
          destruct (@slice_min vals (Z.max s1 (c_start c1) - idx1) (Z.min e1 (c_stop c1) - idx1) Hn) as (rel & v & F1 & F2 & F3 & F4 & F5 & F6); [clear - K1 K2 K3 His Hse; lia|clear - Hel; lia|].
          exists [mkCand (c_id c0) (c_id c1) v (Z.of_nat rel + (Z.max s1 (c_start c1) - d) + qs) (Z.of_nat rel + Z.max s1 (c_start c1) + ss)].
          set (p0 := Z.to_nat (Z.max s1 (c_start c1) - idx1) + rel) in *.
          assert (Hp0 : (Z.of_nat p0 + idx1 = Z.max s1 (c_start c1) + Z.of_nat rel)%Z) by (subst p0; clear - His; lia).
          assert (Lp0 : (Z.of_nat p0 < Z.of_nat (length vals))%Z) by (apply nth_error_some_lt in F4; lia).
          split; [split|].
          - intros x [<-|[]]. cbn [cd_i cd_j cd_v cd_q cd_s]. split; [reflexivity|]. split; [reflexivity|]. split; [exact F5|]. split.
            + apply HN. exists p0. split; [exact F4|]. clear - Hp0. lia.
            + split.
              * replace (Z.of_nat rel + (Z.max s1 (c_start c1) - d) + qs)%Z with (qs + (Z.of_nat p0 + idx1 - d))%Z by (clear - Hp0; lia).
                assert (Hr : (c_start c0 <= Z.of_nat p0 + idx1 - d < c_stop c0)%Z) by (apply (Hiff (Z.of_nat p0)); [|rewrite Hp0]; clear - Lp0 F3; lia).
                apply G5; [exact Hr|]. specialize (Hrow p0 Lp0). clear - Hrow Hbh. lia.
              * replace (Z.of_nat rel + Z.max s1 (c_start c1) + ss)%Z with (ss + (Z.of_nat p0 + idx1))%Z by (clear - Hp0; lia).
                apply K5; rewrite Hp0; clear - F3 Hew; lia.
          - intros p x Hp Hp1 Hp2. eexists. split; [left; reflexivity|]. cbn [cd_i cd_j cd_v]. split; [reflexivity|]. split; [reflexivity|].
            apply (F6 p x); [clear - Hp1 Hp2; lia|exact Hp].
          - intros t (T1 & T2 & T3 & T4 & T5 & T6). unfold cm_diag_pair. rewrite F1. cbn [bind]. rewrite F2. cbn [bind foldM]. unfold upd.
            cbn [cd_i cd_j cd_v cd_q cd_s]. rewrite T5, T6. fold qs ss.
            destruct (cm_update _ _ _ _ _ _); reflexivity. }
        exists (concat css). split; [split|].
        + intros x Hx. apply in_concat in Hx. destruct Hx as (cs & Hcs & Hx). destruct (Forall2_in_r _ HF Hcs) as (c1 & Hc1' & HP1 & _).
          destruct (HP1 x Hx) as (X1 & X2 & X3 & X4 & X5). split; [exact X1|]. split; [rewrite X2; apply (Hs1 c1 Hc1')|auto].
        + intros j p v Hp Hr0 HR2. assert (Lp : (Z.of_nat p < Z.of_nat (length vals))%Z) by (apply nth_error_some_lt in Hp; lia).
          assert (Hcol : (s1 <= Z.of_nat p + idx1 < e1)%Z) by (apply (Hiff (Z.of_nat p)); [clear - Lp; lia|exact Hr0]).
          destruct (Hc1 j (Z.of_nat p + idx1)%Z Hcol HR2) as (c1 & Hc1' & Hid & Hr1). destruct (Forall2_in_l _ HF Hc1') as (cs & Hcs & _ & HP1).
          destruct (HP1 p v Hp Hcol Hr1) as (x & Hx & X1 & X2 & X3). exists x. split; [apply in_concat; eauto|]. split; [exact X1|]. split; [congruence|exact X3].
        + intros t Ht. rewrite (Hun t Ht). destruct (Z.eqb_spec s1 e1); [lia|]. rewrite E1. cbn [bind]. apply HE, Ht. }
    assert (HC : cands_ok H W R N (concat css)).
    { split.
      - intros x Hx. apply in_concat in Hx. destruct Hx as (cs & Hcs & Hx). destruct (Forall2_in_r _ HF Hcs) as (c0 & Hc0' & HP & _).
        destruct (HP x Hx) as (X1 & X2 & X3 & X4 & X5). split; [rewrite X1; apply (Hs0 c0 Hc0')|]. auto.
      - intros i j r c v Hi Hj HNin [HR1 HR2]. apply HN in HNin. destruct HNin as (p & Hp & -> & ->).
        assert (Lp : (Z.of_nat p < Z.of_nat (length vals))%Z) by (apply nth_error_some_lt in Hp; lia).
        destruct (Hc0 i (Z.of_nat p + idx1 - d)%Z) as (c0 & Hc0' & <- & Hr0).
        { apply Hrow, Lp. }
        { replace (qs + (Z.of_nat p + idx1 - d))%Z with (qs + Z.of_nat p + idx1 - d)%Z by lia. exact HR1. }
        destruct (Forall2_in_l _ HF Hc0') as (cs & Hcs & _ & HP). destruct (HP j p v Hp Hr0) as (x & Hx & X).
        { replace (ss + (Z.of_nat p + idx1))%Z with (ss + Z.of_nat p + idx1)%Z by lia. exact HR2. }
        exists x. split; [apply in_concat; eauto|exact X]. }
    exists (concat css). split; [exact HC|]. apply HE, same_refl.
  Qed.
  Lemma cm_diag_ok s L d vs : cm_ok H W s -> cm_nq s = h -> cm_ns s = w ->
    man_ok MO (cm_man s) h w H W (fun i x => R1 i (cm_qs s + x)%Z) (fun j x => R2 j (cm_ss s + x)%Z) ->
    0 < h -> full_event h w (EDiag d vs) -> best_ok H W R L s ->
    exists s', cm_diag MO s d vs = Ok s' /\ cm_ok H W s' /\ same s s' /\
      best_ok H W R (L ++ event_cells (cm_qs s) (cm_ss s) (EDiag d vs)) s'.
  Proof.
    intros Hok Hnq Hns HM Hh He Hb. destruct (@cm_diag_cands s d vs Hnq Hns HM Hh He) as (cands & HC & ->).
    destruct (best_step Hok Hb HC) as (s' & E' & Hok' & Hb'). exists s'. split; [exact E'|]. split; [exact Hok'|]. split; [eapply upds_same; exact E'|exact Hb'].
  Qed.

  Lemma cm_col_cands_any s c vals rest : cm_nq s = h -> cm_ns s = w ->
    man_ok MO (cm_man s) h w H W (fun i x => R1 i (cm_qs s + x)%Z) (fun j x => R2 j (cm_ss s + x)%Z) ->
    0 < h -> c < w -> (forall x, In x vals -> isnan x = false) -> length vals <= h ->
    (forall c0s c0, man_query MO (cm_man s) 0 (Z.of_nat h) = Ok c0s -> In c0 c0s -> (c_start c0 < Z.of_nat (length vals))%Z) ->
    exists cands, cands_ok H W R (event_cells (cm_qs s) (cm_ss s) (ECol c (vals :: rest))) cands /\ cm_col MO s c (vals :: rest) = foldM upd cands s.
  Proof.
    intros Hnq Hns [MQ MS] Hh Hc Hn Hlen Hstart. unfold cm_col. cbn [row0 bind event_cells].
    set (qs := cm_qs s) in *. set (ss := cm_ss s) in *. set (N := col_cells qs ss c vals).
    assert (HN : forall r a v, In (r, a, v) N <-> exists p, nth_error vals p = Some v /\ (r = qs + Z.of_nat p)%Z /\ (a = ss + Z.of_nat c)%Z).
    { intros r a v. unfold N, col_cells. rewrite in_mapi. split.
      - intros (p & x & Hp & E). injection E as E1 E2 E3. subst x. exists p. auto.
      - intros (p & Hp & -> & ->). exists p, v. auto. }
    destruct (MS (Z.of_nat c) (Z.of_nat c + 1)%Z) as (c1s & E1 & Hs1 & Hc1); [lia|lia|]. rewrite E1. cbn [bind].
    destruct (MQ 0%Z (Z.of_nat h)) as (c0s & E0 & Hs0 & Hc0); [lia|lia|].
    set (P := fun (c1 : ctx) (cs : list cand) =>
      (forall x, In x cs -> cd_i x < H /\ cd_j x = c_id c1 /\ isnan (cd_v x) = false /\ In (cd_q x, cd_s x, cd_v x) N /\ R (cd_i x) (cd_j x) (cd_q x) (cd_s x)) /\
      (forall i p v, nth_error vals p = Some v -> R1 i (qs + Z.of_nat p) ->
         exists x, In x cs /\ cd_i x = i /\ cd_j x = c_id c1 /\ fltb v (cd_v x) = false)).
    match goal with |- context [foldM ?F c1s s] => destruct (@loop_upds ctx F P s c1s) as (css & HF & HE) end.
    { intros c1 Hc1'. destruct (Hs1 c1 Hc1') as (K1 & K2 & K3 & K4 & K5).
      set (P0 := fun (c0 : ctx) (cs : list cand) =>
        (forall x, In x cs -> cd_i x = c_id c0 /\ cd_j x = c_id c1 /\ isnan (cd_v x) = false /\ In (cd_q x, cd_s x, cd_v x) N /\ R (cd_i x) (cd_j x) (cd_q x) (cd_s x)) /\
        (forall p v, nth_error vals p = Some v -> (c_start c0 <= Z.of_nat p < c_stop c0)%Z ->
           exists x, In x cs /\ cd_i x = c_id c0 /\ cd_j x = c_id c1 /\ fltb v (cd_v x) = false)).
      destruct (@loop_upds ctx (cm_col_pair c vals (c_id c1)) P0 s c0s) as (css & HF & HE).
      { intros c0 Hc0'. destruct (Hs0 c0 Hc0') as (G1 & G2 & G3 & G4 & G5). pose proof (Hstart c0s c0 E0 Hc0') as G6.
        assert (Esl : slice vals (c_start c0) (c_stop c0) = slice vals (c_start c0) (Z.min (c_stop c0) (Z.of_nat (length vals)))).
        { unfold slice. f_equal. rewrite !norm_idx_nonneg by lia. lia. }
        destruct (@slice_min vals (c_start c0) (Z.min (c_stop c0) (Z.of_nat (length vals))) Hn) as (rel & v & F1 & F2 & F3 & F4 & F5 & F6); [lia|lia|].
        rewrite <- Esl in F1, F2.
        exists [mkCand (c_id c0) (c_id c1) v (Z.of_nat rel + c_start c0 + qs) (Z.of_nat c + ss)]. split; [split|].
        - intros x [<-|[]]. cbn [cd_i cd_j cd_v cd_q cd_s]. split; [reflexivity|]. split; [reflexivity|]. split; [exact F5|]. split.
          + apply HN. eexists. split; [exact F4|]. lia.
          + split.
            * replace (Z.of_nat rel + c_start c0 + qs)%Z with (qs + (c_start c0 + Z.of_nat rel))%Z by lia. apply G5; lia.
            * rewrite Z.add_comm. apply K5; lia.
        - intros p x Hp Hp1. eexists. split; [left; reflexivity|]. cbn [cd_i cd_j cd_v]. split; [reflexivity|]. split; [reflexivity|].
          apply (F6 p x); [|exact Hp]. apply nth_error_some_lt in Hp. lia.
        - intros t (T1 & T2 & T3 & T4 & T5 & T6). unfold cm_col_pair. rewrite F1. cbn [bind]. rewrite F2. cbn [bind foldM]. unfold upd.
          cbn [cd_i cd_j cd_v cd_q cd_s]. rewrite T5, T6. fold qs ss.
          destruct (cm_update _ _ _ _ _ _); reflexivity. }
      exists (concat css). split; [split|].
      + intros x Hx. apply in_concat in Hx. destruct Hx as (cs & Hcs & Hx). destruct (Forall2_in_r _ HF Hcs) as (c0 & Hc0' & HP0 & _).
        destruct (HP0 x Hx) as (X1 & X2). split; [rewrite X1; apply (Hs0 c0 Hc0')|exact X2].
      + intros i p v Hp HR1. destruct (Hc0 i (Z.of_nat p)) as (c0 & Hc0' & <- & Hr0); [apply nth_error_some_lt in Hp; lia|exact HR1|].
        destruct (Forall2_in_l _ HF Hc0') as (cs & Hcs & _ & HP0). destruct (HP0 p v Hp Hr0) as (x & Hx & X). exists x. split; [apply in_concat; eauto|exact X].
      + intros t Ht. pose proof Ht as (T1 & T2 & _). rewrite T1, T2, Hnq, E0. cbn [bind]. apply HE, Ht. }
    assert (HC : cands_ok H W R N (concat css)).
    { split.
      - intros x Hx. apply in_concat in Hx. destruct Hx as (cs & Hcs & Hx). destruct (Forall2_in_r _ HF Hcs) as (c1 & Hc1' & HP & _).
        destruct (HP x Hx) as (X1 & X2 & X3). split; [exact X1|]. split; [rewrite X2; apply (Hs1 c1 Hc1')|exact X3].
      - intros i j r a v Hi Hj HNin [HR1 HR2]. apply HN in HNin. destruct HNin as (p & Hp & -> & ->).
        destruct (Hc1 j (Z.of_nat c)) as (c1 & Hc1' & <- & Hr1); [lia|exact HR2|].
        destruct (Forall2_in_l _ HF Hc1') as (cs & Hcs & _ & HP). destruct (HP i p v Hp HR1) as (x & Hx & X).
        exists x. split; [apply in_concat; eauto|exact X]. }
    exists (concat css). split; [exact HC|]. apply HE, same_refl.
  Qed.
  Lemma cm_col_cands s c vs : cm_nq s = h -> cm_ns s = w ->
    man_ok MO (cm_man s) h w H W (fun i x => R1 i (cm_qs s + x)%Z) (fun j x => R2 j (cm_ss s + x)%Z) ->
    0 < h -> full_event h w (ECol c vs) ->
    exists cands, cands_ok H W R (event_cells (cm_qs s) (cm_ss s) (ECol c vs)) cands /\ cm_col MO s c vs = foldM upd cands s.
  Proof.
    intros Hnq Hns HM Hh (Hc & vals & rest & -> & Hn & Hlen). apply cm_col_cands_any; auto; [lia|].
    intros c0s c0 E Hin. destruct HM as [MQ _]. destruct (MQ 0%Z (Z.of_nat h)) as (l & E0 & Hs0 & _); [lia|lia|]. assert (l = c0s) by congruence. subst l. destruct (Hs0 c0 Hin) as (_ & G & _). lia.
  Qed.
  Lemma cm_col_ok s L c vs : cm_ok H W s -> cm_nq s = h -> cm_ns s = w ->
    man_ok MO (cm_man s) h w H W (fun i x => R1 i (cm_qs s + x)%Z) (fun j x => R2 j (cm_ss s + x)%Z) ->
    0 < h -> full_event h w (ECol c vs) -> best_ok H W R L s ->
    exists s', cm_col MO s c vs = Ok s' /\ cm_ok H W s' /\ same s s' /\
      best_ok H W R (L ++ event_cells (cm_qs s) (cm_ss s) (ECol c vs)) s'.
  Proof.
    intros Hok Hnq Hns HM Hh He Hb. destruct (@cm_col_cands s c vs Hnq Hns HM Hh He) as (cands & HC & ->).
    destruct (best_step Hok Hb HC) as (s' & E' & Hok' & Hb'). exists s'. split; [exact E'|]. split; [exact Hok'|]. split; [eapply upds_same; exact E'|exact Hb'].
  Qed.
End Cmp.
