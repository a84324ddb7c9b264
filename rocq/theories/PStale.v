(** * PStale: columns derived from a kept column that is not the one before *)
From Coq Require Import QArith Reals Lra Bool.
From Verif Require Import Np NpFacts MRing PRing MArith MCache SReal SGen SStale PArith PCache.
Set Implicit Arguments.
Open Scope nat_scope.

Definition forget (g : @cache R) : @cache R :=
  mkCache (ch_m g) (ch_self g) (ch_series g) (ch_qbuf g) (ch_first g) (ch_backlog g) None (ch_vals g).

Lemma staleb_spec k c : staleb k c = true <-> stale k c.
Proof.
  unfold stale. destruct k as [|l [p|]]; cbn [staleb].
  - split; [discriminate|]. intros (_ & p & E & _). discriminate.
  - rewrite !andb_true_iff, Nat.ltb_lt, Z.eqb_eq, negb_true_iff, Z.eqb_neq. split.
    + intros [[A ->] B]. split; [exact A|]. eexists. split; [reflexivity|]. congruence.
    + intros (A & p' & E & N). injection E as -> <-. repeat split; [exact A|]. congruence.
  - rewrite andb_true_iff, Nat.ltb_lt, Z.eqb_eq. split.
    + intros [A ->]. split; [exact A|]. eexists. split; [reflexivity|]. discriminate.
    + intros (A & p' & E & N). injection E as -> <-. auto.
Qed.

Section Stale.
  Variable full : list (num R) -> list (num R) -> res (list (num R)).
  Variable term : num R -> num R -> num R.
  Variable mem : nat -> num R.
  Variable f : R -> R -> R.
  Variable E : R -> Prop.
  Variable okp : list R -> list R -> Prop.
  Variable m : nat.
  Hypothesis Hm : 0 < m.
  Hypothesis f_sym : forall a b, f a b = f b a.
  Hypothesis okp_sym : forall a b, okp a b -> okp b a.
  Hypothesis term_fin : forall a b, term (Fin a) (Fin b) = Fin (f a b).
  Hypothesis full_fin : forall l y, length y = m -> m <= length l -> (forall i, i + m <= length l -> okp (sub m l i) y) ->
    exists vs, full (fin l) (fin y) = Ok (fin vs) /\ length vs = length l + 1 - m /\
      forall i, i + m <= length l -> E (psum f (sub m l i) y - nth i vs 0)%R.
  Variables (W Wq : nat) (self : bool).
  Notation cinv := (cinv f E m W Wq self true true).
  Notation near := (near f E m).

  (** What the kept values are *)
  Definition keeps (k : kept) (S Q : list R) (g : @cache R) : Prop :=
    match k with
    | Nothing => ch_prev g = None
    | Kept l p => ch_prev g = Some l /\ (forall q, p = Some q -> (l <= q)%Z) /\
        ((0 <= l)%Z -> exists vs, ch_vals g = fin vs /\ length vs = length Q + 1 - m /\ m <= length Q /\
          forall q, p = Some q -> Z.to_nat q + m <= length S /\ near Q (sub m S (Z.to_nat q)) vs)
    end.
  Definition kinv (k : kept) (S Q : list R) (g : @cache R) : Prop := cinv S Q (-1) (forget g) /\ keeps k S Q g.

  Lemma cinv_forget ex u S Q last g : PCache.cinv f E m W Wq self ex u S Q last g -> cinv S Q (-1) (forget g).
  Proof.
    clear. intros [H1 H2 H3 H4 H5 H8 H6 H7]. constructor; cbn [forget ch_m ch_self ch_series ch_qbuf ch_first ch_prev ch_backlog ch_vals]; auto; discriminate.
  Qed.
  Lemma kinv_new S Q g : PCache.cinv f E m W Wq self true false S Q (-1) g -> kinv Nothing S Q g.
  Proof. clear. intro I. split; [eapply cinv_forget; exact I|]. exact (ci_used I eq_refl). Qed.

  Lemma append_s_forget g xs : cache_append_s (forget g) xs = match cache_append_s g xs with Ok g' => Ok (forget g') | Err e => Err e end.
  Proof.
    clear. unfold cache_append_s. cbn [forget ch_m ch_self ch_series ch_qbuf ch_first ch_prev ch_backlog ch_vals].
    destruct (rb_push (ch_series g) xs) as [r|]; cbn [bind]; [|reflexivity]. destruct (ch_self g); reflexivity.
  Qed.
  Lemma append_q_forget g xs : cache_append_q (forget g) xs = match cache_append_q g xs with Ok g' => Ok (forget g') | Err e => Err e end.
  Proof.
    clear. unfold cache_append_q. cbn [forget ch_m ch_self ch_series ch_qbuf ch_first ch_prev ch_backlog ch_vals].
    destruct (rb_push (ch_qbuf g) xs) as [r|]; reflexivity.
  Qed.

  Lemma kinv_s k S Q g n xs : 0 < length xs -> kinv k S Q g -> length S = Nat.min W n ->
    exists g', cache_append_s g (fin xs) = Ok g' /\
      kinv (kept_step self W n k (CSeries xs)) (lastn W (S ++ xs)) (if self then lastn W (S ++ xs) else Q) g'.
  Proof.
    clear okp okp_sym term_fin full_fin f_sym full term mem.
    intros Hx [I K] Hn. destruct (cinv_append_s Hm xs Hx I) as (g1 & E1 & I1). rewrite append_s_forget in E1.
    destruct (cache_append_s g (fin xs)) as [g'|] eqn:Eg; [|discriminate]. injection E1 as <-. exists g'. split; [reflexivity|].
    split; [apply cinv_forget in I1; exact I1|].
    pose proof I as [H1 H2 H3 H4 H5 _ _ _]. cbn [forget ch_m ch_self ch_series ch_qbuf] in *.
    pose proof (win_len H4) as LS. rewrite map_length in LS.
    unfold cache_append_s in Eg. destruct (win_push (fin xs) H4) as (b & Eb & Wb). rewrite Eb in Eg. cbn [bind fst snd] in Eg.
    rewrite <- map_app, lastn_map in Wb. pose proof Wb as (_ & Mb & _ & Vb & _).
    rewrite Vb, Mb, !map_length, length_lastn, app_length in Eg. rewrite H2 in Eg. injection Eg as <-.
    assert (KS : kept_step self W n k (CSeries xs) = if self then Nothing else match k with
      | Kept l p => Kept (l - Z.max 0 (Z.of_nat (length xs) - Z.of_nat (W - (n + length xs))))
          (option_map (fun q => q - Z.of_nat (Nat.min W n + length xs - Nat.min W (n + length xs)))%Z p)
      | Nothing => Nothing end) by (destruct xs; [simpl in Hx; lia|reflexivity]).
    rewrite KS. clear KS. destruct self.
    { reflexivity. }
    destruct k as [|l p]; cbn [keeps] in K |- *.
    { cbn [ch_prev]. rewrite K. reflexivity. }
    destruct K as (K1 & K2 & K3). cbn [ch_prev ch_vals]. rewrite K1.
    set (nd := (Z.of_nat (length xs) - _)%Z). set (left := Nat.min W n + length xs - Nat.min W (n + length xs)).
    assert (Nd : nd = (Z.of_nat (length xs) - Z.of_nat (W - (n + length xs)))%Z) by (unfold nd; lia).
    assert (Le : (Z.of_nat left <= Z.max 0 nd)%Z) by (unfold left; lia).
    split; [rewrite <- Nd; destruct (Z.ltb_spec 0 nd); f_equal; lia|].
    rewrite <- Nd. split.
    - intros q Eq. destruct p as [q0|]; [|discriminate]. injection Eq as <-. specialize (K2 q0 eq_refl). lia.
    - intro Hl. destruct K3 as (vs & C1 & C2 & C3 & C4); [lia|]. exists vs. repeat (split; [assumption|]).
      intros q Eq. destruct p as [q0|]; [|discriminate]. injection Eq as <-. destruct (C4 q0 eq_refl) as [C5 C6]. specialize (K2 q0 eq_refl).
      rewrite length_lastn, app_length. unfold left in *. split; [lia|].
      rewrite sub_lastn, app_length.
      replace (length S + length xs - W + Z.to_nat (q0 - Z.of_nat (Nat.min W n + length xs - Nat.min W (n + length xs)))) with (Z.to_nat q0) by lia.
      rewrite sub_app_l by lia. exact C6.
  Qed.
  Lemma kinv_q k S Q g xs : self = false -> 0 < length xs -> kinv k S Q g ->
    exists g', cache_append_q g (fin xs) = Ok g' /\ kinv Nothing S (lastn Wq (Q ++ xs)) g'.
  Proof.
    clear okp okp_sym term_fin full_fin f_sym full term mem.
    intros Hs Hx [I K]. unfold kinv in *. rewrite Hs in I |- *. destruct (cinv_append_q Hm xs I) as (g1 & E1 & I1). rewrite append_q_forget in E1.
    destruct (cache_append_q g (fin xs)) as [g'|] eqn:Eg; [|discriminate]. injection E1 as <-. exists g'. split; [reflexivity|].
    split; [exact I1|]. unfold cache_append_q in Eg. destruct (rb_push (ch_qbuf g) (fin xs)); cbn [bind] in Eg; [|discriminate]. injection Eg as <-. reflexivity.
  Qed.

  Lemma full_col S Q g c : cinv S Q (-1) (forget g) -> c + m <= length S -> m <= length Q -> okall okp m S Q ->
    match ch_prev g with Some p => (p =? Z.of_nat c - 1)%Z | None => false end = false \/ c = 0 ->
    exists g' vs, cache_col full term mem g c = Ok (g', fin vs) /\ near Q (sub m S c) vs /\ cinv S Q (-1) (forget g') /\
      ch_prev g' = Some (Z.of_nat c) /\ ch_vals g' = fin vs.
  Proof.
    intros I Hc HQ Hok Hx. 
    assert (Ef : cache_col full term mem g c = cache_col full term mem (forget g) c).
    { unfold cache_col. cbn [forget ch_m ch_self ch_series ch_qbuf ch_first ch_prev ch_backlog ch_vals].
      change (ch_query (forget g)) with (ch_query g). cbn [negb orb].
      replace (negb _ || (c =? 0)) with true; [reflexivity|]. destruct Hx as [->| ->]; [reflexivity|]. rewrite orb_true_r. reflexivity. }
    rewrite Ef. destruct (@cinv_col full term mem f E okp m Hm f_sym okp_sym term_fin full_fin W Wq self true true S Q (-1)%Z (forget g) c I Hc HQ Hok) as (g' & vs & E1 & N & I').
    { left. reflexivity. }
    exists g', vs. split; [exact E1|]. split; [exact N|]. split; [eapply cinv_forget; exact I'|].
    unfold cache_col in E1. cbn [forget ch_prev negb orb] in E1.
    match type of E1 with bind (bind ?x _) _ = _ => destruct x as [v|] end; cbn [bind] in E1; [|discriminate]. injection E1 as <- <-. auto.
  Qed.

  Lemma derived_col S Q g c pv : cinv S Q (-1) (forget g) -> c + m <= length S -> m <= length Q -> okall okp m S Q ->
    0 < c -> ch_prev g = Some (Z.of_nat c - 1)%Z -> ch_vals g = fin pv -> length pv = length Q + 1 - m ->
    exists g' vs, cache_col full term mem g c = Ok (g', fin vs) /\ length vs = length Q + 1 - m /\
      E (psum f (sub m Q 0) (sub m S c) - nth 0 vs 0)%R /\
      (forall i, i + 1 + m <= length Q ->
        nth (i + 1) vs 0%R = (psum f (sub m Q (i + 1)) (sub m S c) + nth i pv 0 - psum f (sub m Q i) (sub m S (c - 1)))%R) /\
      cinv S Q (-1) (forget g') /\ ch_prev g' = Some (Z.of_nat c) /\ ch_vals g' = fin vs.
  Proof.
    intros I Hc HQ Hok Hc0 Ep C1 C4. pose proof (ci_query I) as VQ. change (ch_query (forget g)) with (ch_query g) in VQ.
    pose proof I as [H1 H2 H3 H4 H5 H8 H6 H7]. cbn [forget ch_m ch_self ch_series ch_qbuf ch_first ch_backlog] in *.
    pose proof H4 as (_ & MS & _ & VS & _).
    unfold cache_col. rewrite VQ, VS, H1, Ep, Z.eqb_refl. destruct (Nat.eqb_spec c 0) as [|_]; [lia|]. cbn [negb orb].
    destruct (@near_first full term mem f E okp m Hm f_sym okp_sym term_fin full_fin W Wq self true true S Q (-1)%Z (forget g) I HQ) as (b & v & Eb & Wb & [Lv Nv]); [lia|exact Hok|].
    change (cache_first full mem (forget g)) with (cache_first full mem g) in Eb.
    rewrite Eb. cbn [bind].
    rewrite (proj2 (getitem_ok (fin S) (c - 1) (Fin (nth (c - 1) S 0%R)))).
    2:{ rewrite nth_error_map, (nth_error_nth' S 0%R) by lia. reflexivity. }
    cbn [bind]. rewrite (proj2 (getitem_ok (fin S) (c + m - 1) (Fin (nth (c + m - 1) S 0%R)))).
    2:{ rewrite nth_error_map, (nth_error_nth' S 0%R) by lia. reflexivity. }
    cbn [bind]. rewrite C1, map_length.
    set (n := length Q - m) in *. assert (Lpv : length pv = n + 1) by lia.
    replace (slice (fin pv) 0 (-1)) with (fin (firstn n pv)).
    2:{ unfold slice, norm_idx, lslice. cbn [Z.ltb Z.compare]. rewrite map_length, Lpv, <- firstn_map.
        replace (Z.to_nat (Z.max 0 (Z.min (Z.of_nat (n + 1)) 0))) with 0 by lia. cbn [skipn]. f_equal. lia. }
    replace (slice (fin Q) 0 (Z.of_nat (length Q) - Z.of_nat m)) with (fin (firstn n Q)).
    2:{ replace (Z.of_nat (length Q) - Z.of_nat m)%Z with (Z.of_nat n) by lia. change 0%Z with (Z.of_nat 0).
        rewrite slice_nat. unfold lslice. cbn [skipn]. rewrite firstn_map. f_equal. f_equal. lia. }
    rewrite skipn_map', !map_map.
    rewrite bop_eq. 2:{ rewrite !map_length, !firstn_length. lia. }
    cbn [bind]. rewrite bop_eq. 2:{ rewrite length_zip_with, !map_length, !firstn_length, skipn_length. lia. }
    cbn [bind]. rewrite (map_ext (fun x => term (Fin (nth (c - 1) S 0%R)) (Fin x)) (fun x => Fin (f (nth (c - 1) S 0%R) x))) by (intro; apply term_fin).
    rewrite (map_ext (fun x => term (Fin (nth (c + m - 1) S 0%R)) (Fin x)) (fun x => Fin (f (nth (c + m - 1) S 0%R) x))) by (intro; apply term_fin).
    rewrite <- (map_map (f (nth (c - 1) S 0%R)) (@Fin R)), <- (map_map (f (nth (c + m - 1) S 0%R)) (@Fin R)).
    rewrite zip_with_map, (zip_with_ext _ (fun x y => Fin (x - y)%R)) by reflexivity.
    rewrite <- (map_zip_with Rminus (@Fin R)).
    rewrite zip_with_map, (zip_with_ext _ (fun x y => Fin (x + y)%R)) by reflexivity.
    rewrite <- (map_zip_with Rplus (@Fin R)).
    set (w := zip_with Rplus _ _).
    assert (Lw : length w = n).
    { unfold w. rewrite !length_zip_with, !map_length, !firstn_length, skipn_length. lia. }
    rewrite set_slice_ok; [|rewrite map_length; lia|rewrite map_length; lia|rewrite !map_length; lia].
    cbn [bind].
    rewrite (proj2 (getitem_ok (rb_view b) c (Fin (nth c v 0%R)))).
    2:{ destruct Wb as (_ & _ & _ & -> & _). rewrite nth_error_map, (nth_error_nth' v 0%R) by lia. reflexivity. }
    cbn [bind]. rewrite setitem_ok by (rewrite length_splice; rewrite ?map_length; lia).
    cbn [bind].
    replace (splice (splice (fin pv) 1 (fin w)) 0 [Fin (nth c v 0%R)]) with (fin (nth c v 0%R :: w)).
    2:{ destruct pv as [|p0 pv]; [simpl in Lpv; lia|]. unfold splice. rewrite map_length, Lw. simpl in Lpv.
        cbn [firstn skipn app map length Nat.add]. f_equal. rewrite skipn_all2 by (rewrite map_length; lia).
        rewrite app_nil_r. reflexivity. }
    exists (mkCache m (ch_self g) (ch_series g) (ch_qbuf g) (Some b) 0 (Some (Z.of_nat c)) (fin (nth c v 0%R :: w))), (nth c v 0%R :: w).
    split; [reflexivity|]. split; [cbn [length]; lia|]. split; [|split; [|split; [|split; reflexivity]]].
    - cbn [nth]. replace (psum f (sub m Q 0) (sub m S c)) with (psum f (sub m S c) (sub m Q 0)) by (apply psum_sym, f_sym).
      apply Nv. lia.
    - intros i Hi. replace (i + 1) with (Datatypes.S i) by lia. cbn [nth].
      assert (Ew : nth i w 0%R = (nth i pv 0 - f (nth (c - 1) S 0%R) (nth i Q 0%R) + f (nth (c + m - 1) S 0%R) (nth (i + m) Q 0%R))%R).
      { apply nth_error_nth. unfold w. rewrite !nth_error_zip_with, !nth_error_map, !nth_error_firstn, nth_error_skipn.
        destruct (Nat.ltb_spec i n); [|lia].
        rewrite (nth_error_nth' pv 0%R), (nth_error_nth' Q 0%R), (nth_error_nth' Q 0%R (n := m + i)) by lia. cbn [option_map].
        rewrite (Nat.add_comm m i). reflexivity. }
      rewrite Ew. replace (sub m S c) with (sub m S (Datatypes.S (c - 1))) by (f_equal; lia).
      rewrite psum_slide by lia. replace (c - 1 + m) with (c + m - 1) by lia.
      rewrite (f_sym (nth i Q 0%R)), (f_sym (nth (i + m) Q 0%R)). lra.
    - constructor; cbn [forget ch_m ch_self ch_series ch_qbuf ch_first ch_prev ch_backlog ch_vals]; auto; [|discriminate].
      intros b0 Eb0. injection Eb0 as <-. exists S, [], v. rewrite app_nil_r, lastn_all by (pose proof (win_len H4) as L4; rewrite map_length in L4; lia).
      pose proof (win_len H4) as L4; rewrite map_length in L4.
      split; [reflexivity|]. split; [lia|]. split; [reflexivity|]. split; [exact HQ|]. split; [exact Wb|]. split; assumption.
  Qed.

  (** The values behind a column in every state *)
  Definition col_spec (k : kept) (S Q : list R) (c : nat) (vs : list R) : Prop :=
    length vs = length Q + 1 - m /\
    (~ stale k c -> near Q (sub m S c) vs) /\
    (forall q, 0 < c -> k = Kept (Z.of_nat c - 1) (Some q) -> (0 <= q)%Z /\ Z.to_nat q + m <= length S /\
       E (psum f (sub m Q 0) (sub m S c) - nth 0 vs 0)%R /\
       forall i, i + 1 + m <= length Q ->
         E (psum f (sub m Q (i + 1)) (sub m S c) + (psum f (sub m Q i) (sub m S (Z.to_nat q)) - psum f (sub m Q i) (sub m S (c - 1))) - nth (i + 1) vs 0)%R).

  Lemma kinv_col k S Q g c n : kinv k S Q g -> c + m <= length S -> m <= length Q -> okall okp m S Q ->
    exists g' vs, cache_col full term mem g c = Ok (g', fin vs) /\ col_spec k S Q c vs /\ kinv (kept_step self W n k (@CCol R c)) S Q g'.
  Proof.
    intros [I K] Hc HQ Hok. cbn [kept_step].
    assert (D : (0 < c /\ exists p, k = Kept (Z.of_nat c - 1) p) \/ match ch_prev g with Some p => (p =? Z.of_nat c - 1)%Z | None => false end = false \/ c = 0).
    { destruct (Nat.eq_dec c 0) as [Z0|Z0]; [auto|]. destruct k as [|l p]; cbn [keeps] in K.
      - right. left. rewrite K. reflexivity.
      - destruct K as (-> & _). destruct (Z.eqb_spec l (Z.of_nat c - 1)) as [->|]; [|auto]. left. split; [lia|]. eauto. }
    destruct D as [(Hc0 & p & ->)|D].
    - destruct K as (K1 & K2 & K3). destruct K3 as (pv & C1 & C2 & C3 & C4); [lia|].
      destruct (@derived_col S Q g c pv I Hc HQ Hok Hc0 K1 C1 C2) as (g' & vs & E1 & L & N0 & N1 & I' & P1 & P2).
      exists g', vs. split; [exact E1|].
      assert (CS : col_spec (Kept (Z.of_nat c - 1) p) S Q c vs).
      { split; [exact L|].
        assert (A : forall q, p = Some q -> forall i, i + 1 + m <= length Q ->
          E (psum f (sub m Q (i + 1)) (sub m S c) + (psum f (sub m Q i) (sub m S (Z.to_nat q)) - psum f (sub m Q i) (sub m S (c - 1))) - nth (i + 1) vs 0)%R).
        { intros q Eq i Hi. rewrite N1 by exact Hi. destruct (C4 q Eq) as (_ & _ & C6).
          match goal with |- E ?x => replace x with (psum f (sub m Q i) (sub m S (Z.to_nat q)) - nth i pv 0)%R by lra end. apply C6. lia. }
        split.
        - intro NS. assert (Ep : p = Some (Z.of_nat c - 1)%Z).
          { destruct p as [q|].
            - destruct (Z.eq_dec q (Z.of_nat c - 1)) as [->|NE]; [reflexivity|]. exfalso. apply NS. split; [exact Hc0|]. eexists. split; [reflexivity|]. congruence.
            - exfalso. apply NS. split; [exact Hc0|]. eexists. split; [reflexivity|]. discriminate. }
          split; [exact L|]. intros [|i] Hi; [exact N0|]. specialize (A _ Ep i ltac:(lia)).
          replace (Z.to_nat (Z.of_nat c - 1)) with (c - 1) in A by lia. replace (i + 1) with (Datatypes.S i) in A by lia.
          match type of A with E ?x => match goal with |- E ?y => replace y with x by lra end end. exact A.
        - intros q _ Eq. injection Eq as ->. specialize (K2 q eq_refl). split; [lia|]. destruct (C4 q eq_refl) as (C5 & _). split; [exact C5|]. split; [exact N0|]. apply A. reflexivity. }
      split; [exact CS|]. split; [exact I'|]. cbn [keeps]. split; [exact P1|].
      destruct (staleb (Kept (Z.of_nat c - 1) p) c) eqn:Es.
      + split; [discriminate|]. intros _. exists vs. split; [exact P2|]. split; [exact L|]. split; [exact HQ|]. discriminate.
      + split; [intros q Eq; injection Eq as <-; lia|]. intros _. exists vs. split; [exact P2|]. split; [exact L|]. split; [exact HQ|].
        intros q Eq. injection Eq as <-. rewrite Nat2Z.id. split; [exact Hc|]. apply CS. rewrite <- staleb_spec, Es. discriminate.
    - destruct (@full_col S Q g c I Hc HQ Hok D) as (g' & vs & E1 & N & I' & P1 & P2).
      assert (NS : forall p, 0 < c -> k <> Kept (Z.of_nat c - 1) p).
      { intros p Hc0 ->. destruct K as (K1 & _). rewrite K1, Z.eqb_refl in D. destruct D; [discriminate|lia]. }
      exists g', vs. split; [exact E1|]. split.
      + split; [apply N|]. split; [auto|]. intros q Hc0 Ek. exfalso. exact (NS _ Hc0 Ek).
      + split; [exact I'|]. cbn [keeps]. split; [exact P1|].
        destruct (staleb k c) eqn:Es.
        * apply staleb_spec in Es. destruct Es as (Hc0 & p & Ek & _). exfalso. exact (NS _ Hc0 Ek).
        * split; [intros q Eq; injection Eq as <-; lia|]. intros _. exists vs. split; [exact P2|]. split; [apply N|]. split; [exact HQ|].
          intros q Eq. injection Eq as <-. rewrite Nat2Z.id. split; [exact Hc|exact N].
  Qed.
End Stale.
