From Verif Require Import Np NpFacts MInsights SInsights.
Set Implicit Arguments.

Section Insights.
  Context {A : Type} {NA : NumOps A} {OA : OrdLaws A}.
  Notation num := (num A).
  Variable orig : list num.
  Variable d : nat.

  (** The working array: excluded and non-finite positions hold +inf, others the original value. *)
  Definition masked (chosen : list nat) (arr : list num) : Prop :=
    length arr = length orig /\
    forall i x, nth_error arr i = Some x ->
      (exists v, x = Fin v /\ eligible orig d chosen i v) \/
      (x = PInf /\ forall v, ~ eligible orig d chosen i v).

  Lemma masked_eligible chosen arr i v : masked chosen arr -> eligible orig d chosen i v ->
    nth_error arr i = Some (Fin v).
  Proof.
    intros [L H] He. pose proof He as [Ho _].
    destruct (@nth_error_lt_some _ arr i) as (x & Ex); [apply nth_error_some_lt in Ho; lia|].
    destruct (H i x Ex) as [(v' & -> & [Ho' _])|(-> & Hn)].
    - congruence.
    - exfalso. eapply Hn; exact He.
  Qed.

  Lemma masked_nonan chosen arr : masked chosen arr -> no_nan arr.
  Proof.
    intros [L H] x Hx. apply In_nth_error in Hx. destruct Hx as (i & Ei).
    destruct (H i x Ei) as [(v & -> & _)|(-> & _)]; reflexivity.
  Qed.

  Lemma masked_fill chosen arr m : masked chosen arr ->
    masked (m :: chosen) (fill_slice arr (m - d) (m + d + 1) PInf).
  Proof.
    intros [L H]. split; [rewrite length_fill_slice; exact L|].
    intros i x Hx. rewrite nth_error_fill_slice in Hx.
    destruct ((m - d <=? i) && (i <? m + d + 1) && (i <? length arr)) eqn:E.
    - right. inversion Hx; subst. split; [reflexivity|]. intros v [_ Hc].
      specialize (Hc m (or_introl eq_refl)). unfold apart in Hc. lia.
    - assert (Hi : apart d i m).
      { apply nth_error_some_lt in Hx. unfold apart. lia. }
      destruct (H i x Hx) as [(v & -> & [Ho Hc])|(-> & Hn)].
      + left. exists v. split; [reflexivity|]. split; [exact Ho|].
        intros j [<-|Hj]; [exact Hi|apply Hc; exact Hj].
      + right. split; [reflexivity|]. intros v [Ho Hc]. apply (Hn v). split; [exact Ho|].
        intros j Hj. apply Hc. right; exact Hj.
  Qed.

  (** Number of finite entries: the measure of the loop. *)
  Fixpoint nfin (l : list num) : nat :=
    match l with [] => 0 | x :: l' => (if isfinite x then 1 else 0) + nfin l' end.

  Lemma nfin_le l : nfin l <= length l.
  Proof. induction l as [|x l IH]; simpl; [lia|]. destruct (isfinite x); lia. Qed.

  Lemma nfin_mono : forall l l' : list num, length l = length l' ->
    (forall i x y, nth_error l i = Some x -> nth_error l' i = Some y -> isfinite y = true -> isfinite x = true) ->
    nfin l' <= nfin l /\
    ((exists i x y, nth_error l i = Some x /\ nth_error l' i = Some y /\ isfinite x = true /\ isfinite y = false) ->
     nfin l' < nfin l).
  Proof.
    induction l as [|x l IH]; intros [|y l'] L H; simpl in L; try discriminate.
    - simpl. split; [lia|]. intros (i & ? & ? & E & _). destruct i; discriminate.
    - destruct (IH l') as [H1 H2]; [lia|intros i; apply (H (S i))|].
      assert (H0 := H 0 x y eq_refl eq_refl). simpl. split.
      + destruct (isfinite y); [rewrite H0 by reflexivity; lia|]. destruct (isfinite x); lia.
      + intros (i & a & b & Ea & Eb & Fa & Fb). destruct i; simpl in *.
        * inversion Ea; inversion Eb; subst. rewrite Fa, Fb. lia.
        * assert (nfin l' < nfin l) by (apply H2; exists i, a, b; auto).
          destruct (isfinite y); [rewrite H0 by reflexivity; lia|]. destruct (isfinite x); lia.
  Qed.

  Lemma lvi_loop_spec : forall fuel arr chosen m v,
    nfin arr <= fuel -> masked chosen arr -> first_min arr m v ->
    exists out, lvi_loop fuel arr d m = Ok out /\ greedy nltb orig d chosen out.
  Proof.
    induction fuel as [|fuel IH]; intros arr chosen m v Hf Hm Hmin.
    - destruct Hmin as (Em & Hle & Hlt). pose proof Hm as [L Hmask].
      simpl. unfold getitem. rewrite Em. simpl.
      destruct (Hmask m v Em) as [(a & -> & Ha)|(-> & _)].
      + exfalso. assert (G : forall l : list num, forall k a, nth_error l k = Some (Fin a) -> 0 < nfin l).
        { induction l as [|x l IHl]; intros [|k] b E; simpl in *; try discriminate.
          - inversion E; subst. simpl. lia.
          - specialize (IHl k b E). lia. }
        specialize (G arr m a Em). lia.
      + unfold feqb. simpl. exists []. split; [reflexivity|]. constructor. intros i w He.
        pose proof (masked_eligible Hm He) as Ei. specialize (Hle i _ Ei). discriminate.
    - pose proof Hmin as (Em & Hle & Hlt). pose proof Hm as [L Hmask].
      cbn [lvi_loop]. unfold getitem. rewrite Em. cbn [bind].
      destruct (Hmask m v Em) as [(a & -> & Ha)|(-> & _)].
      + change (feqb (Fin a) PInf) with false. cbn iota.
        set (arr' := fill_slice arr (m - d) (m + d + 1) PInf).
        pose proof (masked_fill m Hm) as Hm'. fold arr' in Hm'.
        assert (L' : length arr' = length arr) by apply length_fill_slice.
        assert (Hlm : m < length arr) by (eapply nth_error_some_lt; eassumption).
        assert (Hne : arr' <> []) by (intro E0; rewrite E0 in L'; simpl in L'; lia).
        destruct (amin_argmin Hne (masked_nonan Hm')) as (m' & v' & Ea & _ & Hmin').
        rewrite Ea. cbn [bind].
        assert (Hfuel : nfin arr' <= fuel).
        { destruct (@nfin_mono arr arr') as [_ Hs].
          - congruence.
          - intros i x y Ex Ey Fy. unfold arr' in Ey. rewrite nth_error_fill_slice in Ey.
            destruct ((m - d <=? i) && (i <? m + d + 1) && (i <? length arr)).
            + inversion Ey; subst. discriminate.
            + congruence.
          - assert (nfin arr' < nfin arr); [|lia]. apply Hs. exists m, (Fin a), PInf.
            split; [exact Em|]. split; [|auto]. unfold arr'. rewrite nth_error_fill_slice.
            replace ((m - d <=? m) && (m <? m + d + 1) && (m <? length arr)) with true by lia. reflexivity. }
        destruct (IH arr' (m :: chosen) m' v' Hfuel Hm' Hmin') as (out & Eo & Go).
        rewrite Eo. cbn [bind]. exists (m :: out). split; [reflexivity|].
        econstructor; [exact Ha| |exact Go].
        intros i' w He. pose proof (masked_eligible Hm He) as Ei. split.
        * specialize (Hle i' _ Ei). exact Hle.
        * intro Hi. specialize (Hlt i' _ Hi Ei). exact Hlt.
      + unfold feqb. simpl. exists []. split; [reflexivity|]. constructor. intros i w He.
        pose proof (masked_eligible Hm He) as Ei. specialize (Hle i _ Ei). discriminate.
  Qed.

  Lemma masked_init : masked [] (map (fun x : num => if isfinite x then x else PInf) orig).
  Proof.
    split; [apply map_length|]. intros i x Hx. rewrite nth_error_map in Hx.
    destruct (nth_error orig i) as [y|] eqn:E; simpl in Hx; [|discriminate]. inversion Hx; subst.
    destruct y; simpl; try (right; split; [reflexivity|intros v [Ho _]; congruence]).
    left. eexists; split; [reflexivity|]. split; [exact E|]. intros j [].
  Qed.

  Lemma lvi_spec fuel : orig <> [] -> length orig <= fuel ->
    exists out, lowest_value_idxs fuel orig (Z.of_nat d) = Ok out /\ greedy nltb orig d [] out.
  Proof.
    intros Hne Hf. unfold lowest_value_idxs.
    destruct (Z.ltb_spec (Z.of_nat d) 0); [lia|]. rewrite Nat2Z.id.
    set (arr := map (fun x : num => if isfinite x then x else PInf) orig).
    assert (Hne' : arr <> []) by (unfold arr; destruct orig; simpl; congruence).
    pose proof masked_init as Hm. fold arr in Hm.
    destruct (amin_argmin Hne' (masked_nonan Hm)) as (m & v & Ea & _ & Hmin).
    rewrite Ea. cbn [bind]. eapply lvi_loop_spec; eauto.
    pose proof (nfin_le arr). unfold arr in *. rewrite map_length in *. lia.
  Qed.

  (** ** Consequences of the greedy order *)
  Section Consequences.
    Variable better : A -> A -> bool.

    Notation greedy := (greedy better orig d).

    Lemma greedy_eligible chosen out : greedy chosen out ->
      forall i, In i out -> exists v, eligible orig d chosen i v.
    Proof.
      induction 1 as [|chosen i v rest He Hb Hg IH]; intros k Hk; [destruct Hk|].
      destruct Hk as [<-|Hk]; [eauto|]. destruct (IH k Hk) as (w & Ho & Hc). exists w. split; [exact Ho|].
      intros j Hj. apply Hc. right; exact Hj.
    Qed.

    Lemma greedy_pairwise chosen out : greedy chosen out ->
      forall p q i j, nth_error out p = Some i -> nth_error out q = Some j -> p <> q -> apart d i j.
    Proof.
      assert (Sym : forall i j, apart d i j -> apart d j i) by (unfold apart; tauto).
      induction 1 as [|chosen i v rest He Hb Hg IH]; intros p q a b Ha Hb' Hpq.
      - destruct p; discriminate.
      - assert (G : forall k, In k rest -> apart d k i).
        { intros k Hk. destruct (greedy_eligible Hg k Hk) as (w & _ & Hc). apply Hc. left; reflexivity. }
        destruct p as [|p], q as [|q]; simpl in *.
        + congruence.
        + inversion Ha; subst. apply Sym, G. eapply nth_error_In; eassumption.
        + inversion Hb'; subst. apply G. eapply nth_error_In; eassumption.
        + eapply IH; eauto.
    Qed.

    (** Values come in non-improving order. *)
    Lemma greedy_sorted chosen out : greedy chosen out ->
      forall p q i j v w, nth_error out p = Some i -> nth_error out q = Some j -> p < q ->
        nth_error orig i = Some (Fin v) -> nth_error orig j = Some (Fin w) -> better w v = false.
    Proof.
      induction 1 as [|chosen i v rest He Hb Hg IH]; intros p q a b x y Ha Hb' Hpq Hx Hy.
      - destruct p; discriminate.
      - destruct p as [|p], q as [|q]; simpl in *; try lia.
        + inversion Ha; subst a. destruct He as [Ho _]. assert (x = v) by congruence. subst x.
          destruct (greedy_eligible Hg b) as (w & Hw & Hc); [eapply nth_error_In; eassumption|].
          assert (w = y) by congruence. subst w.
          apply (Hb b y). split; [exact Hw|]. intros j Hj. apply Hc. right; exact Hj.
        + apply (IH p q a b x y); auto; lia.
    Qed.

    (** Every finite position is within distance [d] of a chosen one that is at least as good. *)
    Lemma greedy_covers chosen out : greedy chosen out ->
      forall i v, eligible orig d chosen i v ->
      exists j w, In j out /\ nth_error orig j = Some (Fin w) /\ ~ apart d i j /\ better v w = false.
    Proof.
      induction 1 as [chosen Hn|chosen m a rest He Hb Hg IH]; intros i v Hi.
      - exfalso. eapply Hn; eassumption.
      - assert (D : apart d i m \/ ~ apart d i m) by (unfold apart; lia).
        destruct D as [D|D].
        + destruct (IH i v) as (j & w & Hj & Hw & Hd & Hbv).
          { destruct Hi as [Ho Hc]. split; [exact Ho|]. intros j [<-|Hj]; auto. }
          exists j, w. split; [right; exact Hj|]. auto.
        + exists m, a. split; [left; reflexivity|]. destruct He as [Ho Hc]. split; [exact Ho|].
          split; [exact D|]. apply (Hb i v Hi).
    Qed.
  End Consequences.
End Insights.

Section Statements.
  Context {A : Type} {NA : NumOps A} {OA : OrdLaws A}.

  Lemma C09_lemma (array : list (num A)) (d fuel : nat) : array <> [] -> length array <= fuel ->
    exists out, lowest_value_idxs fuel array (Z.of_nat d) = Ok out /\ greedy nltb array d [] out.
  Proof. intros H1 H2. apply lvi_spec; assumption. Qed.

  Lemma C09_consequences_lemma (array : list (num A)) (d fuel : nat) out :
    array <> [] -> length array <= fuel ->
    lowest_value_idxs fuel array (Z.of_nat d) = Ok out ->
    (forall p q i j v w, nth_error out p = Some i -> nth_error out q = Some j -> p < q ->
       nth_error array i = Some (Fin v) -> nth_error array j = Some (Fin w) -> nltb w v = false) /\
    (forall p q i j, nth_error out p = Some i -> nth_error out q = Some j -> p <> q -> apart d i j) /\
    (forall i, In i out -> exists v, nth_error array i = Some (Fin v)) /\
    (forall i v, nth_error array i = Some (Fin v) ->
       exists j w, In j out /\ nth_error array j = Some (Fin w) /\ ~ apart d i j /\ nltb v w = false).
  Proof.
    intros H1 H2 E. destruct (lvi_spec d H1 H2) as (out' & E' & G). rewrite E in E'. inversion E'; subst out'.
    split; [|split; [|split]].
    - intros p q i j v w Hp Hq Hpq Hv Hw. exact (greedy_sorted G Hp Hq Hpq Hv Hw).
    - intros p q i j Hp Hq Hpq. eapply greedy_pairwise; [exact G|exact Hp|exact Hq|exact Hpq].
    - intros i Hi. destruct (greedy_eligible G i Hi) as (v & Hv & _). eauto.
    - intros i v Hv. apply (greedy_covers G). split; [exact Hv|]. intros j [].
  Qed.

  Lemma greedy_opp {OP : OppLaws A} (array : list (num A)) d chosen out :
    greedy nltb (map fopp array) d chosen out -> greedy (fun a b => nltb b a) array d chosen out.
  Proof.
    assert (El : forall c i v, eligible array d c i v -> eligible (map fopp array) d c i (nsub nzero v)).
    { intros c i v [Ho Hc]. split; [|exact Hc]. rewrite nth_error_map, Ho. reflexivity. }
    assert (Er : forall c i v, eligible (map fopp array) d c i v ->
       exists w, v = nsub nzero w /\ eligible array d c i w).
    { intros c i v [Ho Hc]. rewrite nth_error_map in Ho. destruct (nth_error array i) as [x|] eqn:E; [|discriminate].
      simpl in Ho. destruct x; simpl in Ho; inversion Ho; subst. exists a. split; [reflexivity|]. split; auto. }
    induction 1 as [chosen Hn|chosen i v rest He Hb Hg IH].
    - constructor. intros i v He. eapply Hn. apply El; eassumption.
    - destruct (Er _ _ _ He) as (w & -> & Hw). econstructor; [exact Hw| |exact IH].
      intros i' v' He'. destruct (Hb i' _ (El _ _ _ He')) as [B1 B2]. rewrite !nopp_lt in *. auto.
  Qed.

  Lemma C10_lemma {OP : OppLaws A} (array : list (num A)) (d fuel : nat) : array <> [] -> length array <= fuel ->
    exists out, highest_value_idxs fuel array (Z.of_nat d) = Ok out /\
      greedy (fun a b => nltb b a) array d [] out.
  Proof.
    intros H1 H2. unfold highest_value_idxs.
    destruct (@lvi_spec A NA OA (map fopp array) d fuel) as (out & E & G).
    - destruct array; simpl; congruence.
    - rewrite map_length; exact H2.
    - exists out. split; [exact E|]. apply greedy_opp; exact G.
  Qed.

  Lemma C10_consequences_lemma {OP : OppLaws A} (array : list (num A)) (d fuel : nat) out :
    array <> [] -> length array <= fuel ->
    highest_value_idxs fuel array (Z.of_nat d) = Ok out ->
    (forall p q i j v w, nth_error out p = Some i -> nth_error out q = Some j -> p < q ->
       nth_error array i = Some (Fin v) -> nth_error array j = Some (Fin w) -> nltb v w = false) /\
    (forall p q i j, nth_error out p = Some i -> nth_error out q = Some j -> p <> q -> apart d i j) /\
    (forall i, In i out -> exists v, nth_error array i = Some (Fin v)) /\
    (forall i v, nth_error array i = Some (Fin v) ->
       exists j w, In j out /\ nth_error array j = Some (Fin w) /\ ~ apart d i j /\ nltb w v = false).
  Proof.
    intros H1 H2 E. destruct (C10_lemma d H1 H2) as (out' & E' & G). rewrite E in E'. inversion E'; subst out'.
    split; [|split; [|split]].
    - intros p q i j v w Hp Hq Hpq Hv Hw. exact (greedy_sorted G Hp Hq Hpq Hv Hw).
    - intros p q i j Hp Hq Hpq. eapply greedy_pairwise; [exact G|exact Hp|exact Hq|exact Hpq].
    - intros i Hi. destruct (greedy_eligible G i Hi) as (v & Hv & _). eauto.
    - intros i v Hv. apply (greedy_covers G). split; [exact Hv|]. intros j [].
  Qed.
End Statements.
