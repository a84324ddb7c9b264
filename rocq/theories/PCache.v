(** * PCache: the cached calculation of columns on finite data. *)
From Coq Require Import QArith Reals Lra.
From Verif Require Import Np NpFacts MRing PRing MArith MCache SReal PArith.
Set Implicit Arguments.
Open Scope nat_scope.

Section Cache.
  Variable full : list (num R) -> list (num R) -> res (list (num R)).
  Variable term : num R -> num R -> num R.
  Variable mem : nat -> num R.
  Variable f : R -> R -> R.
  (** admissible errors, pairs of subsequences on which [full] has such an error *)
  Variable E : R -> Prop.
  Variable okp : list R -> list R -> Prop.
  Variable m : nat.
  Hypothesis Hm : 0 < m.
  Hypothesis f_sym : forall a b, f a b = f b a.
  Hypothesis okp_sym : forall a b, okp a b -> okp b a.
  Hypothesis term_fin : forall a b, term (Fin a) (Fin b) = Fin (f a b).
  Hypothesis full_fin : forall l y, length y = m -> m <= length l -> (forall i, i + m <= length l -> okp (sub m l i) y) ->
    exists vs, full (fin l) (fin y) = Ok (fin vs) /\ length vs = length l + 1 - m /\
      forall i, i + m <= length l -> E (psum f (sub m l i) y - nth i vs 0)%R.

  Definition near (l y vs : list R) : Prop :=
    length vs = length l + 1 - m /\ forall i, i + m <= length l -> E (psum f (sub m l i) y - nth i vs 0)%R.
  Definition okall (S Q : list R) : Prop := forall i j, i + m <= length Q -> j + m <= length S -> okp (sub m Q i) (sub m S j).

  (** [S], [Q]: current windows; [last] bounds the columns calculated so far (relative to the current window); [exact]: the
      cached index is right; [used]: a column was calculated *)
  Record cinv (W Wq : nat) (self exact used : bool) (S Q : list R) (last : Z) (g : @cache R) : Prop := {
    ci_m : ch_m g = m;
    ci_self : ch_self g = self;
    ci_W : m <= W;
    ci_s : win W (fin S) (ch_series g);
    ci_q : if self then Q = S else win Wq (fin Q) (ch_qbuf g);
    ci_used : used = false -> ch_prev g = None;
    ci_first : forall b, ch_first g = Some b -> exists S0 new v,
      length new = ch_backlog g /\ m <= length S0 <= W /\ S = lastn W (S0 ++ new) /\ m <= length Q /\
      win (W + 1 - m) (fin v) b /\ near S0 (sub m Q 0) v;
    ci_prev : forall p, ch_prev g = Some p -> exists gap,
      (p + Z.of_nat gap <= last)%Z /\ (exact = true -> gap = 0) /\
      ((0 <= p)%Z -> exists vs, ch_vals g = fin vs /\ Z.to_nat p + gap + m <= length S /\ m <= length Q /\ near Q (sub m S (Z.to_nat p + gap)) vs)
  }.

  Lemma ci_query W Wq self exact used S Q last g : cinv W Wq self exact used S Q last g -> rb_view (ch_query g) = fin Q.
  Proof.
    intros [H1 H2 H3 H4 H5 _ _ _]. unfold ch_query. rewrite H2. destruct self.
    - subst Q. apply H4.
    - apply H5.
  Qed.

  Lemma cinv_data W Wq (self : bool) s q S Q : m <= W -> win W (fin S) s -> (if self then Q = S else win Wq (fin Q) q) ->
    cinv W Wq self true false S Q (-1) (cache_new m self s q).
  Proof.
    intros H1 H2 H3. constructor; cbn [cache_new ch_m ch_self ch_series ch_qbuf ch_first ch_prev]; auto; try discriminate.
  Qed.

  (** ** Appending to the series *)
  Definition shifted (W : nat) (S xs : list R) : nat := length S + length xs - W.
  (** The calls of [append_series] that keep the cached index right *)
  Definition counted (W : nat) (S xs : list R) : bool := (length S =? W) || (length S + 2 * length xs <=? W).

  Lemma cinv_append_s W Wq self exact used S Q last g xs : 0 < length xs -> cinv W Wq self exact used S Q last g ->
    exists g', cache_append_s g (fin xs) = Ok g' /\
      cinv W Wq self (exact && (self || negb used || counted W S xs)) used (lastn W (S ++ xs)) (if self then lastn W (S ++ xs) else Q)
        (last - Z.of_nat (shifted W S xs)) g'.
  Proof. clear full_fin okp_sym term_fin f_sym okp mem full term.
    intros Hx [H1 H2 H3 H4 H5 H8 H6 H7]. unfold cache_append_s.
    pose proof (win_len H4) as LS. rewrite map_length in LS.
    destruct (win_push (fin xs) H4) as (b & Eb & Wb). rewrite <- map_app, lastn_map in Wb. rewrite !map_length in Eb.
    rewrite Eb. cbn [bind fst snd].
    pose proof Wb as (_ & Mb & _ & Vb & _). rewrite Vb, Mb, !map_length, length_lastn, app_length.
    eexists; split; [reflexivity|]. rewrite H1, H2. unfold shifted, counted. destruct self.
    - subst Q. constructor; cbn [ch_m ch_self ch_series ch_qbuf ch_first ch_prev ch_backlog ch_vals]; auto; [|discriminate].
      intros b0 Eb0. destruct (Nat.eqb_spec (length S + length xs - W) 0) as [Z0|]; [|discriminate].
      destruct (H6 _ Eb0) as (S0 & new & v & A1 & A2 & A3 & A4 & A5 & A6).
      exists S0, (new ++ xs), v. rewrite app_length. split; [lia|]. split; [lia|].
      split; [|split; [|split; [exact A5|]]].
      + rewrite A3 at 1. rewrite lastn_app, app_assoc. reflexivity.
      + rewrite length_lastn, app_length. lia.
      + rewrite lastn_all by (rewrite app_length; lia). rewrite sub_app_l by lia. exact A6.
    - constructor; cbn [ch_m ch_self ch_series ch_qbuf ch_first ch_prev ch_backlog ch_vals]; auto.
      + intro Hu. rewrite (H8 Hu). reflexivity.
      + intros b0 Eb0. destruct (H6 _ Eb0) as (S0 & new & v & A1 & A2 & A3 & A4 & A5 & A6).
        exists S0, (new ++ xs), v. rewrite app_length. split; [lia|]. split; [lia|]. split; [|auto].
        rewrite A3 at 1. rewrite lastn_app, app_assoc. reflexivity.
      + intros p Ep. destruct (ch_prev g) as [p0|]; [|discriminate]. destruct (H7 _ eq_refl) as (gap & B1 & B2 & B3).
        set (k := (Z.of_nat (length xs) - (Z.of_nat W - Z.of_nat (Nat.min W (length S + length xs))))%Z) in *.
        assert (Ep' : (p = p0 - Z.max 0 k)%Z) by (destruct (Z.ltb_spec 0 k); injection Ep as <-; lia).
        exists (gap + (Z.to_nat (Z.max 0 k) - (length S + length xs - W))).
        assert (K : (Z.of_nat (length S + length xs - W) <= Z.max 0 k)%Z) by (unfold k; lia).
        split; [lia|]. split.
        * cbn [orb]. intro Ex. apply andb_prop in Ex as [Ex1 Ex2]. rewrite (B2 Ex1).
          apply orb_prop in Ex2 as [Ex2|Ex2]; [destruct used; [discriminate|discriminate (H8 eq_refl)]|].
          apply orb_prop in Ex2 as [Ex2|Ex2]; [apply Nat.eqb_eq in Ex2|apply Nat.leb_le in Ex2]; unfold k; lia.
        * intro Hp. destruct B3 as (vs & C1 & C2 & C3 & C4); [lia|].
          exists vs. split; [exact C1|]. rewrite length_lastn, app_length.
          split; [lia|]. split; [exact C3|].
          replace (sub m (lastn W (S ++ xs)) (Z.to_nat p + (gap + (Z.to_nat (Z.max 0 k) - (length S + length xs - W)))))
            with (sub m S (Z.to_nat p0 + gap)); [exact C4|].
          rewrite sub_lastn, app_length.
          replace (length S + length xs - W + (Z.to_nat p + (gap + (Z.to_nat (Z.max 0 k) - (length S + length xs - W)))))
            with (Z.to_nat p0 + gap) by lia.
          rewrite sub_app_l by lia. reflexivity.
  Qed.

  (** ** Appending to the query *)
  Lemma cinv_append_q W Wq exact used S Q last g xs : cinv W Wq false exact used S Q last g ->
    exists g', cache_append_q g (fin xs) = Ok g' /\ cinv W Wq false exact used S (lastn Wq (Q ++ xs)) last g'.
  Proof. clear full_fin okp_sym term_fin f_sym okp mem full term.
    intros [H1 H2 H3 H4 H5 H8 H6 H7]. unfold cache_append_q.
    pose proof (win_len H5) as LQ. rewrite map_length in LQ.
    destruct (win_push (fin xs) H5) as (b & Eb & Wb). rewrite <- map_app, lastn_map in Wb. rewrite !map_length in Eb.
    rewrite Eb. cbn [bind fst snd]. eexists; split; [reflexivity|].
    constructor; cbn [ch_m ch_self ch_series ch_qbuf ch_first ch_prev ch_backlog ch_vals]; auto; [|discriminate].
    intros b0 Eb0. destruct (Nat.eqb_spec (length Q + length xs - Wq) 0) as [Z0|]; [|discriminate].
    destruct (H6 _ Eb0) as (S0 & new & v & A1 & A2 & A3 & A4 & A5 & A6).
    exists S0, new, v. repeat (split; [auto; lia|]). rewrite lastn_all by (rewrite app_length; lia).
    rewrite app_length, sub_app_l by lia. split; [lia|]. auto.
  Qed.

  (** ** The first row *)
  Lemma near_first W Wq self exact used S Q last g : cinv W Wq self exact used S Q last g ->
    m <= length Q -> m <= length S -> okall S Q ->
    exists b v, cache_first full mem g = Ok b /\ win (W + 1 - m) (fin v) b /\ near S (sub m Q 0) v.
  Proof.
    intros I HQ HS Hok. pose proof (ci_query I) as VQ. destruct I as [H1 H2 H3 H4 H5 _ H6 _].
    pose proof (win_len H4) as LS. rewrite map_length in LS.
    unfold cache_first. rewrite VQ, H1. pose proof H4 as (_ & MS & _ & VS & _). rewrite VS, MS.
    change (lslice (fin Q) 0 m) with (lslice (fin Q) 0 (0 + m)). rewrite lslice_sub, sub_map.
    assert (Lq : length (sub m Q 0) = m) by (rewrite length_sub; lia).
    assert (Hok0 : forall l, (exists k, l = lastn k S) -> forall i, i + m <= length l -> okp (sub m l i) (sub m Q 0)).
    { intros l (k & ->) i Hi. rewrite length_lastn in Hi. rewrite sub_lastn. apply okp_sym, Hok; lia. }
    destruct (ch_first g) as [b|] eqn:Ef.
    - destruct (H6 _ eq_refl) as (S0 & new & v & A1 & A2 & A3 & A4 & A5 & A6).
      destruct (Nat.ltb_spec 0 (ch_backlog g)) as [Hb|Hb].
      + set (l := lastn (ch_backlog g + m - 1) S).
        replace (slice_from (fin S) _) with (fin l).
        2:{ unfold l. rewrite <- lastn_map, <- slice_from_neg by lia. f_equal. lia. }
        assert (LS2 : length S = Nat.min W (length S0 + length new)) by (rewrite A3, length_lastn, app_length; reflexivity).
        destruct (@full_fin l (sub m Q 0) Lq) as (vs & Ev & Lv & Nv).
        { unfold l. rewrite length_lastn. lia. }
        { apply Hok0. unfold l. eauto. }
        rewrite Ev. cbn [bind]. destruct (win_push (fin vs) A5) as (b' & Eb & Wb). rewrite Eb. cbn [bind fst].
        rewrite <- map_app, lastn_map in Wb. destruct A6 as [Lv0 Nv0].
        exists b', (lastn (W + 1 - m) (v ++ vs)). split; [reflexivity|]. split; [exact Wb|].
        unfold l in Lv. rewrite length_lastn in Lv.
        split.
        * rewrite length_lastn, app_length. lia.
        * intros i Hi. rewrite nth_lastn, app_length.
          destruct (Nat.lt_ge_cases (length v + length vs - (W + 1 - m) + i) (length v)) as [Hlt|Hge].
          -- rewrite app_nth1 by exact Hlt.
             replace (sub m S i) with (sub m S0 (length v + length vs - (W + 1 - m) + i)); [apply Nv0; lia|].
             rewrite A3, sub_lastn, app_length.
             replace (length S0 + length new - W + i) with (length v + length vs - (W + 1 - m) + i) by lia.
             rewrite sub_app_l by lia. reflexivity.
          -- rewrite app_nth2 by exact Hge.
             specialize (Nv (length v + length vs - (W + 1 - m) + i - length v)).
             unfold l in Nv. rewrite length_lastn, sub_lastn in Nv.
             replace (length S - (ch_backlog g + m - 1) + (length v + length vs - (W + 1 - m) + i - length v)) with i in Nv by lia.
             apply Nv. lia.
      + exists b, v. split; [reflexivity|]. split; [exact A5|].
        replace S with S0; [exact A6|]. destruct new; [|simpl in *; lia].
        rewrite A3, app_nil_r, lastn_all by lia. reflexivity.
    - destruct (@full_fin S (sub m Q 0) Lq HS) as (vs & Ev & Lv & Nv).
      { apply Hok0. exists (length S). rewrite lastn_all; auto. }
      rewrite Ev. cbn [bind]. destruct (@win_new _ mem (fin vs) (W + 1 - m) 2) as (b & Eb & Wb).
      + discriminate.
      + discriminate.
      + lia.
      + rewrite map_length. lia.
      + exists b, vs. split; [exact Eb|]. split; [exact Wb|]. split; [exact Lv|exact Nv].
  Qed.

  (** ** Columns *)
  Lemma near_ext l y vs vs' : length vs' = length vs -> (forall i, i < length vs -> nth i vs' 0%R = nth i vs 0%R) -> near l y vs -> near l y vs'.
  Proof. intros L H [H1 H2]. split; [congruence|]. intros i Hi. rewrite H by lia. auto. Qed.

  Lemma cinv_col W Wq self exact used S Q last g c : cinv W Wq self exact used S Q last g ->
    c + m <= length S -> m <= length Q -> okall S Q -> exact = true \/ (last < Z.of_nat c)%Z ->
    exists g' vs, cache_col full term mem g c = Ok (g', fin vs) /\ near Q (sub m S c) vs /\
      cinv W Wq self exact true S Q (Z.max last (Z.of_nat c)) g'.
  Proof.
    intros I Hc HQ Hok Hx. pose proof (ci_query I) as VQ.
    pose proof I as [H1 H2 H3 H4 H5 H8 H6 H7]. pose proof H4 as (_ & MS & _ & VS & _).
    unfold cache_col. rewrite VQ, VS, H1.
    (* what remains once the values are known *)
    assert (Fin1 : forall vs fr bl, near Q (sub m S c) vs ->
      (forall b, fr = Some b -> exists S0 new v, length new = bl /\ m <= length S0 <= W /\ S = lastn W (S0 ++ new) /\
        m <= length Q /\ win (W + 1 - m) (fin v) b /\ near S0 (sub m Q 0) v) ->
      cinv W Wq self exact true S Q (Z.max last (Z.of_nat c)) (mkCache m (ch_self g) (ch_series g) (ch_qbuf g) fr bl (Some (Z.of_nat c)) (fin vs))).
    { intros vs fr bl Nv Hf. constructor; cbn [ch_m ch_self ch_series ch_qbuf ch_first ch_prev ch_backlog ch_vals]; auto; [discriminate|].
      intros p Ep. injection Ep as <-. exists 0. split; [lia|]. split; [auto|]. intros _. exists vs. rewrite Nat2Z.id, Nat.add_0_r. auto. }
    destruct (negb _ || _) eqn:Ec.
    - rewrite lslice_sub, sub_map.
      destruct (@full_fin Q (sub m S c)) as (vs & Ev & Lv & Nv).
      { rewrite length_sub. lia. }
      { exact HQ. }
      { intros i Hi. apply Hok; lia. }
      rewrite Ev. cbn [bind]. do 2 eexists. split; [reflexivity|]. split; [split; assumption|].
      apply Fin1; [split; assumption|exact H6].
    - apply orb_false_elim in Ec as [Ec1 Ec2]. apply negb_false_iff in Ec1. apply Nat.eqb_neq in Ec2.
      destruct (ch_prev g) as [p|] eqn:Ep; [|discriminate]. apply Z.eqb_eq in Ec1.
      destruct (H7 _ eq_refl) as (gap & B1 & B2 & B3).
      assert (gap = 0) as ->.
      { destruct Hx as [Hx|Hx]; [auto|lia]. }
      destruct B3 as (pv & C1 & C2 & C3 & [C4 C5]); [lia|]. rewrite Nat.add_0_r in *.
      replace (Z.to_nat p) with (c - 1) in * by lia.
      destruct (near_first I HQ) as (b & v & Eb & Wb & [Lv Nv]); [lia|exact Hok|].
      rewrite Eb. cbn [bind].
      rewrite (proj2 (getitem_ok (fin S) (c - 1) (Fin (nth (c - 1) S 0%R)))).
      2:{ rewrite nth_error_map, (nth_error_nth' S 0%R) by lia. reflexivity. }
      cbn [bind]. rewrite (proj2 (getitem_ok (fin S) (c + m - 1) (Fin (nth (c + m - 1) S 0%R)))).
      2:{ rewrite nth_error_map, (nth_error_nth' S 0%R) by lia. reflexivity. }
      cbn [bind]. rewrite C1, map_length.
      set (n := length Q - m) in *. assert (Lpv : length pv = n + 1) by lia.
      replace (slice (fin pv) 0 (-1)) with (fin (firstn n pv)).
      2:{ unfold slice, norm_idx, lslice. cbn [Z.ltb Z.compare]. rewrite map_length, Lpv, <- firstn_map.
          replace (Z.to_nat (Z.max 0 (Z.min (Z.of_nat (n + 1)) 0))) with 0 by lia. cbn [skipn]. f_equal. lia. }
      replace (slice (fin Q) 0 (Z.of_nat (length Q) - Z.of_nat m)) with (fin (firstn n Q)).
      2:{ replace (Z.of_nat (length Q) - Z.of_nat m)%Z with (Z.of_nat n) by lia. change 0%Z with (Z.of_nat 0).
          rewrite slice_nat. unfold lslice. cbn [skipn]. rewrite firstn_map. f_equal. f_equal. lia. }
      rewrite skipn_map', !map_map.
      rewrite bop_eq. 2:{ rewrite !map_length, !firstn_length. lia. }
      cbn [bind]. rewrite bop_eq. 2:{ rewrite length_zip_with, !map_length, !firstn_length, skipn_length. lia. }
      cbn [bind]. rewrite (map_ext (fun x => term (Fin (nth (c - 1) S 0%R)) (Fin x)) (fun x => Fin (f (nth (c - 1) S 0%R) x))) by (intro; apply term_fin).
      rewrite (map_ext (fun x => term (Fin (nth (c + m - 1) S 0%R)) (Fin x)) (fun x => Fin (f (nth (c + m - 1) S 0%R) x))) by (intro; apply term_fin).
      rewrite <- (map_map (f (nth (c - 1) S 0%R)) (@Fin R)), <- (map_map (f (nth (c + m - 1) S 0%R)) (@Fin R)).
      rewrite zip_with_map, (zip_with_ext _ (fun x y => Fin (x - y)%R)) by reflexivity.
      rewrite <- (map_zip_with Rminus (@Fin R)).
      rewrite zip_with_map, (zip_with_ext _ (fun x y => Fin (x + y)%R)) by reflexivity.
      rewrite <- (map_zip_with Rplus (@Fin R)).
      set (w := zip_with Rplus _ _).
      assert (Lw : length w = n).
      { unfold w. rewrite !length_zip_with, !map_length, !firstn_length, skipn_length. lia. }
      rewrite set_slice_ok; [|rewrite map_length; lia|rewrite map_length; lia|rewrite !map_length; lia].
      cbn [bind].
      rewrite (proj2 (getitem_ok (rb_view b) c (Fin (nth c v 0%R)))).
      2:{ destruct Wb as (_ & _ & _ & -> & _). rewrite nth_error_map, (nth_error_nth' v 0%R) by lia. reflexivity. }
      cbn [bind]. rewrite setitem_ok by (rewrite length_splice; rewrite ?map_length; lia).
      cbn [bind].
      replace (splice (splice (fin pv) 1 (fin w)) 0 [Fin (nth c v 0%R)]) with (fin (nth c v 0%R :: w)).
      2:{ destruct pv as [|p0 pv]; [simpl in Lpv; lia|]. unfold splice. rewrite map_length, Lw. simpl in Lpv.
          cbn [firstn skipn app map length Nat.add]. f_equal. rewrite skipn_all2 by (rewrite map_length; lia).
          rewrite app_nil_r. reflexivity. }
      do 2 eexists. split; [reflexivity|].
      assert (NV : near Q (sub m S c) (nth c v 0%R :: w)).
      { split; [cbn [length]; lia|]. intros [|i] Hi; cbn [nth].
        - replace (psum f (sub m Q 0) (sub m S c)) with (psum f (sub m S c) (sub m Q 0)) by (apply psum_sym, f_sym).
          apply Nv. lia.
        - assert (Ew : nth i w 0%R = (nth i pv 0 - f (nth (c - 1) S 0%R) (nth i Q 0%R) + f (nth (c + m - 1) S 0%R) (nth (i + m) Q 0%R))%R).
          { apply nth_error_nth. unfold w. rewrite !nth_error_zip_with, !nth_error_map, !nth_error_firstn, nth_error_skipn.
            destruct (Nat.ltb_spec i n); [|lia].
            rewrite (nth_error_nth' pv 0%R), (nth_error_nth' Q 0%R), (nth_error_nth' Q 0%R (n := m + i)) by lia. cbn [option_map].
            rewrite (Nat.add_comm m i). reflexivity. }
          rewrite Ew. specialize (C5 i). replace c with (Datatypes.S (c - 1)) at 1 by lia.
          rewrite psum_slide by lia. replace (c - 1 + m) with (c + m - 1) by lia.
          rewrite (f_sym (nth i Q 0%R)), (f_sym (nth (i + m) Q 0%R)).
          match goal with |- E ?x => replace x with (psum f (sub m Q i) (sub m S (c - 1)) - nth i pv 0)%R by lra end.
          apply C5. lia. }
      split; [exact NV|]. apply Fin1; [exact NV|].
      intros b0 Eb0. injection Eb0 as <-. exists S, [], v. rewrite app_nil_r, lastn_all by (pose proof (win_len H4) as L4; rewrite map_length in L4; lia).
      pose proof (win_len H4) as L4; rewrite map_length in L4.
      split; [reflexivity|]. split; [lia|]. split; [reflexivity|]. split; [exact HQ|]. split; [exact Wb|]. split; assumption.
  Qed.
End Cache.
