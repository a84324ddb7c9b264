(** * PMulti: proofs about MultidimensionalMatrixProfileLR (MMulti.v) *)
From Coq Require Import QArith Permutation Sorted.
From Verif Require Import Np NpFacts Mat SLog PLog MRing PRing PFullRb MProfile PProfile PShift PSort SCounters MMulti SMulti.
Set Implicit Arguments.
Open Scope nat_scope.

Lemma sorted_perm_unique {U} (R : U -> U -> Prop) : forall l l', 
  (forall x y, In x l -> In y l -> R x y -> R y x -> x = y) ->
  StronglySorted R l -> StronglySorted R l' -> Permutation l l' -> l = l'.
Proof.
  induction l as [|x l IH]; intros l' Ha Hs Hs' P.
  - symmetry. apply Permutation_nil. exact P.
  - destruct l' as [|y l']; [apply Permutation_sym, Permutation_nil in P; discriminate|].
    assert (E : x = y).
    { assert (Hx : In x (y :: l')) by (apply (Permutation_in _ P); left; reflexivity).
      assert (Hy : In y (x :: l)) by (apply (Permutation_in _ (Permutation_sym P)); left; reflexivity).
      destruct Hx as [Hx|Hx]; [auto|]. destruct Hy as [Hy|Hy]; [auto|].
      apply Ha; [left; reflexivity|right; exact Hy| |].
      - inversion Hs as [|? ? _ F]; subst. apply (proj1 (Forall_forall _ _) F _ Hy).
      - inversion Hs' as [|? ? _ F]; subst. apply (proj1 (Forall_forall _ _) F _ Hx). }
    subst y. f_equal. apply IH.
    + intros a b Ia Ib. apply Ha; right; assumption.
    + inversion Hs; assumption.
    + inversion Hs'; assumption.
    + eapply Permutation_cons_inv; exact P.
Qed.

Lemma sorted_app {U} (R : U -> U -> Prop) l l' : StronglySorted R l -> StronglySorted R l' ->
  (forall x y, In x l -> In y l' -> R x y) -> StronglySorted R (l ++ l').
Proof.
  induction 1 as [|x l Hl IH Hx]; intros Hs' H; [exact Hs'|]. cbn [app]. constructor.
  - apply IH; [exact Hs'|]. intros a b Ia Ib. apply H; [right; exact Ia|exact Ib].
  - apply Forall_app. split; [exact Hx|]. apply Forall_forall. intros y Hy. apply H; [left; reflexivity|exact Hy].
Qed.

Lemma nth_sorted {U} (R : U -> U -> Prop) l : (forall p q a b, p < q -> nth_error l p = Some a -> nth_error l q = Some b -> R a b) -> StronglySorted R l.
Proof.
  induction l as [|x l IH]; intro H; [constructor|]. constructor.
  - apply IH. intros p q a b Hpq Ha Hb. apply (H (S p) (S q)); [lia|exact Ha|exact Hb].
  - apply Forall_forall. intros y Hy. apply In_nth_error in Hy. destruct Hy as [q Hq]. apply (H 0 (S q)); [lia|reflexivity|exact Hq].
Qed.

Lemma nodup_app {U} (a b : list U) : NoDup a -> NoDup b -> (forall i, In i b -> ~ In i a) -> NoDup (a ++ b).
Proof.
  induction a as [|y a IHa]; intros Na Nb Hab; [exact Nb|]. cbn [app]. inversion Na as [|? ? Ny Na']; subst. constructor.
  - intro Hi. apply in_app_or in Hi. destruct Hi as [Hi|Hi]; [contradiction|]. apply (Hab y Hi). left. reflexivity.
  - apply IHa; [exact Na'|exact Nb|]. intros i Hi Hia. apply (Hab i Hi). right. exact Hia.
Qed.
Lemma nodup_firstn {U} n (l : list U) : NoDup l -> NoDup (firstn n l).
Proof.
  revert n; induction l as [|x l IH]; intros n H; destruct n; cbn [firstn]; try constructor; inversion H as [|? ? Hx Hl]; subst.
  - intro Hi. apply Hx. rewrite <- (firstn_skipn n l). apply in_or_app. left. exact Hi.
  - apply IH, Hl.
Qed.

Lemma lanes_loop {C L} (f : C * list L -> nat -> res (C * list L)) (cs : nat -> C) (P : nat -> L -> L -> Prop) lanes :
  (forall k ls lane, nth_error lanes k = Some lane -> length ls = length lanes -> nth_error ls k = Some lane ->
     exists lane', P k lane lane' /\ f (cs k, ls) k = Ok (cs (S k), splice ls k [lane'])) ->
  exists lanes', foldM f (seq 0 (length lanes)) (cs 0, lanes) = Ok (cs (length lanes), lanes') /\ length lanes' = length lanes /\
    forall k lane, nth_error lanes k = Some lane -> exists lane', nth_error lanes' k = Some lane' /\ P k lane lane'.
Proof.
  intro H. cut (forall n, n <= length lanes -> exists lanes', foldM f (seq 0 n) (cs 0, lanes) = Ok (cs n, lanes') /\ length lanes' = length lanes /\
    forall k lane, nth_error lanes k = Some lane -> if k <? n then exists lane', nth_error lanes' k = Some lane' /\ P k lane lane' else nth_error lanes' k = Some lane).
  { intro G. destruct (G (length lanes) (le_n _)) as (l' & E & L' & G'). exists l'. split; [exact E|]. split; [exact L'|].
    intros k lane Hk. specialize (G' k lane Hk). apply nth_error_some_lt in Hk. destruct (Nat.ltb_spec k (length lanes)); [exact G'|lia]. }
  induction n as [|n IH]; intro Hn.
  - exists lanes. split; [reflexivity|]. split; [reflexivity|]. intros k lane Hk. exact Hk.
  - destruct IH as (l1 & E & L1 & G); [lia|]. rewrite seq_S, foldM_app, E. cbn [bind Nat.add foldM].
    destruct (@nth_error_lt_some _ lanes n) as [lane Hl]; [lia|]. pose proof (G n lane Hl) as Hl1. rewrite Nat.ltb_irrefl in Hl1.
    destruct (H n l1 lane Hl L1 Hl1) as (lane' & HP & ->). cbn [bind]. eexists. split; [reflexivity|]. split; [rewrite length_set1; lia|].
    intros k lk Hk. rewrite nth_error_set1 by lia. specialize (G k lk Hk). destruct (Nat.eqb_spec k n) as [->|].
    + destruct (Nat.ltb_spec n (S n)); [|lia]. exists lane'. split; [reflexivity|]. congruence.
    + destruct (Nat.ltb_spec k n), (Nat.ltb_spec k (S n)); try lia; exact G.
Qed.

Section Multi.
  Context {A : Type} {NA : NumOps A} {OL : OrdLaws A} {AL : AvgLaws A}.
  Notation num := (Np.num A).
  Notation sd := (@sd A).
  Notation md := (@md A).

  (** ** Averages *)
  Definition cum (k : nat) (vals : list num) : num := fold_left fadd (firstn k (fsort vals)) (Fin nzero).
  Definition avg (k : nat) (vals : list num) : num := fdivp (cum (k + 1) vals) (nofZ (Z.of_nat k + 1)).

  Lemma real_nan (x : num) : real x -> isnan x = false.
  Proof. intros [H _]. destruct x; congruence || reflexivity. Qed.
  Lemma real_fadd (x y : num) : real x -> real y -> real (fadd x y).
  Proof. intros [H1 H2] [H3 H4]. destruct x, y; cbn [fadd]; try congruence; split; discriminate. Qed.
  Lemma real_fin (a : A) : real (Fin a).
  Proof. split; discriminate. Qed.
  Lemma real_fold (l : list num) : forall x, real x -> (forall y, In y l -> real y) -> real (fold_left fadd l x).
  Proof. induction l as [|y l IH]; intros x Hx Hl; [exact Hx|]. cbn [fold_left]. apply IH; [apply real_fadd; [exact Hx|apply Hl; left; reflexivity]|intros; apply Hl; right; assumption]. Qed.
  Lemma real_fdivp (x : num) d : real x -> real (fdivp x d).
  Proof. intros [H1 H2]. destruct x; cbn [fdivp]; try congruence; split; discriminate. Qed.
  Lemma in_firstn {U} n (l : list U) x : In x (firstn n l) -> In x l.
  Proof. intro H. rewrite <- (firstn_skipn n l). apply in_or_app. left. exact H. Qed.
  Lemma real_cum k vals : (forall x, In x vals -> real x) -> real (cum k vals).
  Proof. intro H. apply real_fold; [apply real_fin|]. intros y Hy. apply in_firstn in Hy. apply H. apply (Permutation_in _ (Permutation_sym (fsort_perm vals))). exact Hy. Qed.
  Lemma real_avg k vals : (forall x, In x vals -> real x) -> real (avg k vals).
  Proof. intro H. apply real_fdivp, real_cum, H. Qed.

  Lemma fdivp_mono (x y : num) k : fltb x y = false -> isnan x = false -> isnan y = false ->
    fltb (fdivp x (nofZ (Z.of_nat k + 1))) (fdivp y (nofZ (Z.of_nat k + 1))) = false.
  Proof. intros H Nx Ny. destruct x, y; cbn [fdivp fltb isnan] in *; try congruence. apply avg_mono, H. Qed.

  Lemma sort_le_fltb (x y : num) : isnan x = false -> isnan y = false -> sort_le x y = negb (fltb y x).
  Proof. intros Hx Hy. unfold sort_le. rewrite Hx, Hy. unfold fleb. destruct x, y; cbn in *; try congruence; reflexivity. Qed.

  Lemma k_best_sorted vals k ns : (forall x, In x vals -> isnan x = false) -> NoDup ns -> length ns = k + 1 -> (forall i, In i ns -> i < length vals) ->
      (forall p q i j x y, p < q -> nth_error ns p = Some i -> nth_error ns q = Some j ->
         nth_error vals i = Some x -> nth_error vals j = Some y -> fltb y x = false) ->
      (forall i j x y, In i ns -> ~ In j ns -> nth_error vals i = Some x -> nth_error vals j = Some y -> fltb y x = false) ->
    map (fun i => nth i vals NaN) ns = firstn (k + 1) (fsort vals).
  Proof.
    intros Hn Hnd Hl Hr Hs Ho. set (g := fun i => nth i vals NaN).
    set (rest := filter (fun j => negb (existsb (Nat.eqb j) ns)) (seq 0 (length vals))).
    assert (Hrest : forall j, In j rest <-> j < length vals /\ ~ In j ns).
    { intro j. unfold rest. rewrite filter_In, in_seq, negb_true_iff. split.
      - intros [H1 H2]. split; [lia|]. intro H3. assert (existsb (Nat.eqb j) ns = true); [|congruence]. apply existsb_exists. exists j. split; [exact H3|apply Nat.eqb_refl].
      - intros [H1 H2]. split; [lia|]. destruct (existsb (Nat.eqb j) ns) eqn:E; [|reflexivity]. apply existsb_exists in E. destruct E as (x & Hx & E). apply Nat.eqb_eq in E. subst x. contradiction. }
    assert (Pseq : Permutation (ns ++ rest) (seq 0 (length vals))).
    { apply NoDup_Permutation.
      - assert (Nr : NoDup rest) by (apply NoDup_filter, seq_NoDup).
        apply nodup_app; [exact Hnd|exact Nr|]. intros i Hi. apply Hrest in Hi. tauto.
      - apply seq_NoDup.
      - intro j. rewrite in_app_iff, Hrest, in_seq. split.
        + intros [Hj|Hj]; [apply Hr in Hj; lia|lia].
        + intros Hj. destruct (in_dec Nat.eq_dec j ns); [left; assumption|right; split; [lia|assumption]]. }
    assert (Pm : Permutation (map g ns ++ fsort (map g rest)) vals).
    { rewrite <- (fsort_perm (map g rest)), <- map_app, Pseq. unfold g. clear. induction vals as [|x vals IH] using rev_ind; [reflexivity|].
      rewrite app_length. cbn [length]. rewrite Nat.add_1_r, seq_S, map_app. cbn [map Nat.add]. rewrite app_nth2, Nat.sub_diag by lia. cbn [nth].
      apply Permutation_app; [|reflexivity]. rewrite <- IH at 2. erewrite map_ext_in; [reflexivity|]. intros i Hi. apply in_seq in Hi. apply app_nth1. lia. }
    assert (Hg : forall i, i < length vals -> nth_error vals i = Some (g i)) by (intros i Hi; apply nth_error_nth'; exact Hi).
    assert (Hgn : forall i, i < length vals -> isnan (g i) = false) by (intros i Hi; apply Hn; eapply nth_error_In, Hg, Hi).
    assert (E : map g ns ++ fsort (map g rest) = fsort vals).
    { apply (@sorted_perm_unique _ (fun a b => sort_le a b = true)).
      - intros x y Hx Hy H1 H2. apply (Permutation_in _ Pm) in Hx. apply (Permutation_in _ Pm) in Hy.
        apply Hn in Hx. apply Hn in Hy. unfold sort_le in H1, H2. rewrite Hx, Hy in *. apply fle_antisym; assumption.
      - apply sorted_app.
        + apply nth_sorted. intros p q a b Hpq Ha Hb. rewrite nth_error_map in Ha, Hb.
          destruct (nth_error ns p) as [i|] eqn:Ei; [|discriminate]. destruct (nth_error ns q) as [j|] eqn:Ej; [|discriminate].
          injection Ha as <-. injection Hb as <-. assert (i < length vals) by (apply Hr; eapply nth_error_In; exact Ei). assert (j < length vals) by (apply Hr; eapply nth_error_In; exact Ej).
          rewrite sort_le_fltb by (apply Hgn; assumption). apply negb_true_iff. apply (Hs p q i j (g i) (g j) Hpq Ei Ej); apply Hg; assumption.
        + apply fsort_sorted.
        + intros x y Hx Hy. apply (Permutation_in _ (Permutation_sym (fsort_perm _))) in Hy. apply in_map_iff in Hx. apply in_map_iff in Hy.
          destruct Hx as (i & <- & Hi). destruct Hy as (j & <- & Hj). apply Hrest in Hj. destruct Hj as [Hj1 Hj2]. assert (i < length vals) by (apply Hr; exact Hi).
          rewrite sort_le_fltb by (apply Hgn; assumption). apply negb_true_iff. apply (Ho i j (g i) (g j) Hi Hj2); apply Hg; assumption.
      - apply fsort_sorted.
      - rewrite Pm. apply fsort_perm. }
    rewrite <- E, firstn_app, map_length, Hl, Nat.sub_diag, firstn_O, app_nil_r, firstn_all2 by (rewrite map_length; lia). reflexivity.
  Qed.

  Lemma k_best_avg vals k ds s : (forall x, In x vals -> isnan x = false) -> k_best vals k ds s -> s = avg k vals.
  Proof.
    intros Hn (ns & _ & H1 & H2 & H3 & H4 & H5 & ->). unfold avg, cum. rewrite (@k_best_sorted vals k ns); auto.
  Qed.

  Lemma argsort_k_best argsort vals k : argsorts argsort -> (forall x, In x vals -> isnan x = false) -> k < length vals ->
    k_best vals k (map Z.of_nat (firstn (k + 1) (argsort vals))) (avg k vals).
  Proof.
    intros Ha Hn Hk. destruct (Ha vals Hn) as [P S].
    assert (Hlen : length (argsort vals) = length vals) by (rewrite (Permutation_length P), seq_length; reflexivity).
    assert (Nd : NoDup (argsort vals)) by (apply (Permutation_NoDup (Permutation_sym P)), seq_NoDup).
    set (ns := firstn (k + 1) (argsort vals)).
    assert (H1 : NoDup ns) by (apply nodup_firstn, Nd).
    assert (H2 : length ns = k + 1) by (unfold ns; rewrite firstn_length; lia).
    assert (H3 : forall i, In i ns -> i < length vals).
    { intros i Hi. apply in_firstn in Hi. apply (Permutation_in _ P) in Hi. apply in_seq in Hi. lia. }
    assert (H4 : forall p q i j x y, p < q -> nth_error ns p = Some i -> nth_error ns q = Some j ->
         nth_error vals i = Some x -> nth_error vals j = Some y -> fltb y x = false).
    { intros p q i j x y Hpq Hi Hj. unfold ns in *. rewrite nth_error_firstn in Hi, Hj. destruct (p <? k + 1); [|discriminate]. destruct (q <? k + 1); [|discriminate].
      apply (S p q i j x y Hpq Hi Hj). }
    assert (H5 : forall i j x y, In i ns -> ~ In j ns -> nth_error vals i = Some x -> nth_error vals j = Some y -> fltb y x = false).
    { intros i j x y Hi Hj Hx Hy. apply In_nth_error in Hi. destruct Hi as [p Hp]. unfold ns in Hp. rewrite nth_error_firstn in Hp. destruct (Nat.ltb_spec p (k + 1)); [|discriminate].
      assert (Hj2 : In j (argsort vals)) by (apply (Permutation_in _ (Permutation_sym P)), in_seq; apply nth_error_some_lt in Hy; lia).
      apply In_nth_error in Hj2. destruct Hj2 as [q Hq]. destruct (Nat.lt_ge_cases q (k + 1)).
      - exfalso. apply Hj. unfold ns. apply nth_error_In with (n := q). rewrite nth_error_firstn. destruct (Nat.ltb_spec q (k + 1)); [exact Hq|lia].
      - apply (S p q i j x y); [lia|assumption|assumption|assumption|assumption]. }
    exists ns. split; [reflexivity|]. split; [exact H1|]. split; [exact H2|]. split; [exact H3|]. split; [exact H4|]. split; [exact H5|].
    unfold avg, cum. rewrite (@k_best_sorted vals k ns); auto.
  Qed.

  (** ** One side for one number of dimensions *)
  Definition sd_ok (w : nat) (s : sd) : Prop := full_rb w (sd_mp s) /\ full_rb w (sd_ix s) /\ full_rb w (sd_dm s).
  Definition sent (s : sd) (c : nat) (x : num * Z * list Z) : Prop :=
    nth_error (rb_view (sd_mp s)) c = Some (fst (fst x)) /\ nth_error (rb_view (sd_ix s)) c = Some (snd (fst x)) /\ nth_error (rb_view (sd_dm s)) c = Some (snd x).

  Lemma sent_some w s c : sd_ok w s -> c < w -> exists x, sent s c x.
  Proof.
    intros (F1 & F2 & F3) Hc.
    destruct (@nth_error_lt_some _ (rb_view (sd_mp s)) c) as [v Hv]; [rewrite (f_len F1); exact Hc|].
    destruct (@nth_error_lt_some _ (rb_view (sd_ix s)) c) as [q Hq]; [rewrite (f_len F2); exact Hc|].
    destruct (@nth_error_lt_some _ (rb_view (sd_dm s)) c) as [d Hd]; [rewrite (f_len F3); exact Hc|].
    exists (v, q, d). repeat split; assumption.
  Qed.
  Lemma sent_fun s c x y : sent s c x -> sent s c y -> x = y.
  Proof. intros (A1 & A2 & A3) (B1 & B2 & B3). destruct x as [[v q] d], y as [[v' q'] d']. cbn [fst snd] in *. congruence. Qed.

  Lemma sd_init_ok memn memz memd sf w k : (1 <= sf)%Q -> (sf <= 2)%Q -> 0 < w ->
    exists s, sd_init memn memz memd sf w k = Ok s /\ sd_ok w s /\ forall c, c < w -> sent s c (PInf, (-1)%Z, repeat (-1)%Z (k + 1)).
  Proof.
    intros S1 S2 Hw. unfold sd_init.
    destruct (@full_new _ memn (repeat PInf w) sf S1 S2) as (b1 & -> & F1 & V1); [rewrite repeat_length; exact Hw|]. cbn [bind].
    destruct (@full_new _ memz (repeat (-1)%Z w) sf S1 S2) as (b2 & -> & F2 & V2); [rewrite repeat_length; exact Hw|]. cbn [bind].
    destruct (@full_new _ memd (repeat (repeat (-1)%Z (k + 1)) w) sf S1 S2) as (b3 & -> & F3 & V3); [rewrite repeat_length; exact Hw|]. cbn [bind].
    rewrite repeat_length in F1, F2, F3. eexists. split; [reflexivity|]. split; [repeat split; apply F1 || apply F2 || apply F3|].
    intros c Hc. unfold sent. cbn [sd_mp sd_ix sd_dm fst snd]. rewrite V1, V2, V3, !nth_error_repeat'. destruct (Nat.ltb_spec c w); [auto|lia].
  Qed.

  Lemma sd_update_ok w s dist idx dims lo n : sd_ok w s -> length dist = n -> length idx = n -> length dims = n -> lo + n <= w ->
    exists s', sd_update dist idx dims s lo (lo + n) = Ok s' /\ sd_ok w s' /\
      forall c x, sent s c x -> 
        (exists d i m, lo <= c /\ nth_error dist (c - lo) = Some d /\ nth_error idx (c - lo) = Some i /\ nth_error dims (c - lo) = Some m /\
           fltb d (fst (fst x)) = true /\ sent s' c (d, i, m)) \/
        ((forall d, lo <= c -> nth_error dist (c - lo) = Some d -> fltb d (fst (fst x)) = false) /\ sent s' c x).
  Proof.
    intros (F1 & F2 & F3) L1 L2 L3 Hlo. unfold sd_update.
    assert (LS : forall U (l : list U), length l = w -> length (lslice l lo (lo + n)) = n).
    { intros U l Hl. unfold lslice. rewrite firstn_length, skipn_length. lia. }
    rewrite !LS by (apply F1 || apply F2 || apply F3). rewrite L1, L2, L3, !Nat.eqb_refl. cbn [andb negb].
    set (mp := lslice (rb_view (sd_mp s)) lo (lo + n)). set (ix := lslice (rb_view (sd_ix s)) lo (lo + n)). set (dm := lslice (rb_view (sd_dm s)) lo (lo + n)).
    set (upd := zip_with fltb dist mp).
    assert (SP : forall U (b : rb U) (new : list U), full_rb w b -> length new = n -> full_rb w (rb_set_view b (splice (rb_view b) lo new)) /\
       rb_view (rb_set_view b (splice (rb_view b) lo new)) = splice (rb_view b) lo new).
    { intros U b new F Hn. apply full_set_view; [exact F|]. rewrite length_splice; rewrite ?(f_len F); lia. }
    assert (Lm : length mp = n) by (apply LS, F1). assert (Li : length ix = n) by (apply LS, F2). assert (Ld : length dm = n) by (apply LS, F3).
    assert (Lu : length upd = n) by (unfold upd; rewrite length_zip_with; lia).
    assert (Z1 : forall U (a b : list U), length a = n -> length b = n -> length (zip_with (fun (u : bool) x => if u then fst x else snd x) upd (zip_with pair a b)) = n).
    { intros U a b Ha Hb. rewrite !length_zip_with. lia. }
    destruct (SP _ (sd_mp s) _ F1 (Z1 _ dist mp L1 Lm)) as [G1 V1]. destruct (SP _ (sd_ix s) _ F2 (Z1 _ idx ix L2 Li)) as [G2 V2].
    destruct (SP _ (sd_dm s) _ F3 (Z1 _ dims dm L3 Ld)) as [G3 V3].
    eexists. split; [reflexivity|]. split; [split; [exact G1|split; [exact G2|exact G3]]|].
    intros c [[v q] d0] (E1 & E2 & E3). cbn [fst snd] in *. unfold sent. cbn [sd_mp sd_ix sd_dm fst snd]. rewrite V1, V2, V3.
    destruct (Nat.lt_ge_cases c lo) as [Hc|Hc].
    - right. split; [intros; lia|]. rewrite !nth_error_splice by (rewrite ?(f_len F1), ?(f_len F2), ?(f_len F3), ?Z1; auto; lia).
      destruct (Nat.ltb_spec c lo); [auto|lia].
    - destruct (Nat.lt_ge_cases c (lo + n)) as [Hc2|Hc2].
      + set (p := c - lo). assert (Hp : p < n) by (subst p; lia).
        destruct (@nth_error_lt_some _ dist p) as [d Hd]; [lia|]. destruct (@nth_error_lt_some _ idx p) as [i Hi]; [lia|]. destruct (@nth_error_lt_some _ dims p) as [m Hm]; [lia|].
        assert (Mv : nth_error mp p = Some v).
        { unfold mp. rewrite nth_error_lslice. destruct (Nat.ltb_spec p (lo + n - lo)); [|lia]. subst p. replace (lo + (c - lo)) with c by lia. exact E1. }
        assert (Mi : nth_error ix p = Some q).
        { unfold ix. rewrite nth_error_lslice. destruct (Nat.ltb_spec p (lo + n - lo)); [|lia]. subst p. replace (lo + (c - lo)) with c by lia. exact E2. }
        assert (Md : nth_error dm p = Some d0).
        { unfold dm. rewrite nth_error_lslice. destruct (Nat.ltb_spec p (lo + n - lo)); [|lia]. subst p. replace (lo + (c - lo)) with c by lia. exact E3. }
        assert (NV : forall U (a b base : list U) x y, length a = n -> length b = n -> length base = w -> nth_error a p = Some x -> nth_error b p = Some y ->
          nth_error (splice base lo (zip_with (fun (u : bool) x => if u then fst x else snd x) upd (zip_with pair a b))) c = Some (if fltb d v then x else y)).
        { intros U a b base x y La Lb Lbase Ha Hb. rewrite nth_error_splice by (rewrite ?Z1; auto; lia). destruct (Nat.ltb_spec c lo); [lia|].
          rewrite Z1 by assumption. destruct (Nat.ltb_spec c (lo + n)); [|lia]. fold p. rewrite !nth_error_zip_with. unfold upd. rewrite nth_error_zip_with, Hd, Mv, Ha, Hb. cbn [fst snd]. reflexivity. }
        rewrite (NV _ dist mp _ d v L1 Lm (f_len F1) Hd Mv), (NV _ idx ix _ i q L2 Li (f_len F2) Hi Mi), (NV _ dims dm _ m d0 L3 Ld (f_len F3) Hm Md).
        destruct (fltb d v) eqn:Elt.
        * left. exists d, i, m. auto 10.
        * right. split; [|auto]. intros d' _ Hd'. congruence.
      + right. split; [intros d _ Hd; apply nth_error_some_lt in Hd; lia|].
        rewrite !nth_error_splice by (rewrite ?(f_len F1), ?(f_len F2), ?(f_len F3), ?Z1; auto; lia). rewrite !Z1 by assumption.
        destruct (Nat.ltb_spec c lo); [lia|]. destruct (Nat.ltb_spec c (lo + n)); [lia|auto].
  Qed.

  Lemma sd_put_ok w s c v q ds : sd_ok w s -> c < w ->
    exists s', sd_put c v q ds s = Ok s' /\ sd_ok w s' /\
      forall c' x, sent s c' x -> (c' = c /\ fltb v (fst (fst x)) = true /\ sent s' c' (v, q, ds)) \/
        (~ (c' = c /\ fltb v (fst (fst x)) = true) /\ sent s' c' x).
  Proof.
    intros Hok Hc. pose proof Hok as (F1 & F2 & F3). unfold sd_put. destruct (@sent_some w s c Hok Hc) as [x0 Hx0]. pose proof Hx0 as (E1 & E2 & E3).
    rewrite (proj2 (getitem_ok _ _ _) E1). cbn [bind]. destruct (fltb v (fst (fst x0))) eqn:Elt.
    - destruct (full_setitem v F1 Hc) as (b1 & -> & G1 & V1). cbn [bind]. destruct (full_setitem q F2 Hc) as (b2 & -> & G2 & V2). cbn [bind].
      destruct (full_setitem ds F3 Hc) as (b3 & -> & G3 & V3). cbn [bind]. eexists. split; [reflexivity|]. split; [split; [exact G1|split; [exact G2|exact G3]]|].
      intros c' x Hx. unfold sent. cbn [sd_mp sd_ix sd_dm]. rewrite V1, V2, V3. destruct (Nat.eqb_spec c' c) as [->|Hne].
      + left. rewrite (sent_fun Hx Hx0). auto.
      + right. split; [tauto|exact Hx].
    - exists s. split; [reflexivity|]. split; [exact Hok|]. intros c' x Hx. right. split; [|exact Hx]. intros [-> Hlt]. rewrite (sent_fun Hx Hx0) in Hlt. congruence.
  Qed.

  Lemma sd_push_ok w s k n : 0 < w -> sd_ok w s ->
    exists s', sd_push n k s = Ok s' /\ sd_ok w s' /\
      forall c, c < w -> (c + n < w -> forall x, sent s (c + n) x -> sent s' c x) /\ (w <= c + n -> sent s' c (PInf, (-1)%Z, repeat (-1)%Z (k + 1))).
  Proof.
    intros Hw (F1 & F2 & F3). unfold sd_push.
    destruct (@full_push _ w (sd_mp s) (repeat PInf n) Hw F1) as (b1 & -> & G1 & V1). cbn [bind].
    destruct (@full_push _ w (sd_ix s) (repeat (-1)%Z n) Hw F2) as (b2 & -> & G2 & V2). cbn [bind].
    destruct (@full_push _ w (sd_dm s) (repeat (repeat (-1)%Z (k + 1)) n) Hw F3) as (b3 & -> & G3 & V3). cbn [bind fst].
    eexists. split; [reflexivity|]. split; [split; [exact G1|split; [exact G2|exact G3]]|].
    intros c Hc. unfold sent. cbn [sd_mp sd_ix sd_dm]. rewrite V1, V2, V3, !nth_lastn_push by (rewrite ?(f_len F1), ?(f_len F2), ?(f_len F3); auto).
    rewrite !repeat_length. split; intro Hn.
    - destruct (Nat.ltb_spec (c + n) w); [|lia]. intros x Hx. exact Hx.
    - destruct (Nat.ltb_spec (c + n) w); [lia|]. rewrite !nth_error_repeat'. destruct (Nat.ltb_spec (c + n - w) n); [auto|lia].
  Qed.

  (** ** Best entries, with [avg] as the value of a cell *)
  Definition mdb (L : list (cell (list num))) (P : Z -> bool) (a : Z) (k : nat) (x : num * Z * list Z) : Prop :=
    (x = (PInf, (-1)%Z, repeat (-1)%Z (k + 1)) /\ forall r vals, In (r, a, vals) L -> P r = true -> fltb (avg k vals) PInf = false) \/
    (fltb (fst (fst x)) PInf = true /\ P (snd (fst x)) = true /\ (exists vals, In (snd (fst x), a, vals) L /\ k_best vals k (snd x) (fst (fst x))) /\
       forall r vals, In (r, a, vals) L -> P r = true -> fltb (avg k vals) (fst (fst x)) = false).

  Lemma mdb_nan L P a k x : mdb L P a k x -> isnan (fst (fst x)) = false.
  Proof. intros [[-> _]|[H _]]; [reflexivity|]. apply fltb_nonnan in H. tauto. Qed.

  Lemma mdb_step L N P a k x x' : mdb L P a k x ->
    (x' = x \/ (fltb (fst (fst x')) (fst (fst x)) = true /\ P (snd (fst x')) = true /\ exists vals, In (snd (fst x'), a, vals) N /\ k_best vals k (snd x') (fst (fst x')))) ->
    (forall r vals, In (r, a, vals) N -> P r = true -> fltb (avg k vals) (fst (fst x')) = false) ->
    mdb (L ++ N) P a k x'.
  Proof.
    intros HB Hx HN. pose proof (mdb_nan HB) as Nx.
    assert (HL : forall r vals, In (r, a, vals) L -> P r = true -> fltb (avg k vals) (fst (fst x)) = false).
    { destruct HB as [[-> HB]|(_ & _ & _ & HB)]; exact HB. }
    destruct Hx as [->|(Hlt & HP & vals & Hin & HK)].
    - destruct HB as [[-> HB]|(H1 & H2 & (vals & H3 & H4) & H5)].
      + left. split; [reflexivity|]. intros r vals Hi. apply in_app_or in Hi. destruct Hi; [eapply HB|eapply HN]; eassumption.
      + right. split; [exact H1|]. split; [exact H2|]. split; [exists vals; split; [apply in_or_app; left; exact H3|exact H4]|].
        intros r v Hi. apply in_app_or in Hi. destruct Hi; [eapply HL|eapply HN]; eassumption.
    - right. split; [|split; [exact HP|split; [exists vals; split; [apply in_or_app; right; exact Hin|exact HK]|]]].
      + destruct HB as [[-> _]|[H1 _]]; [exact Hlt|eapply fltb_trans; eassumption].
      + intros r v Hi HPr. apply in_app_or in Hi. destruct Hi as [Hi|Hi]; [|eapply HN; eassumption].
        eapply fltb_false_trans; [exact Nx|eapply HL; eassumption|]. apply fltb_asym, Hlt.
  Qed.

  Lemma mdb_nil P a k : mdb [] P a k (PInf, (-1)%Z, repeat (-1)%Z (k + 1)).
  Proof. left. split; [reflexivity|]. intros r vals []. Qed.

  Lemma mdb_weaken L P a k x : mdb L P a k x -> mdb (L ++ []) P a k x.
  Proof. rewrite app_nil_r. auto. Qed.

  Lemma mdb_md_best L P a k x : (forall r c vals, In (r, c, vals) L -> forall y, In y vals -> isnan y = false) -> mdb L P a k x -> md_best L P a k x.
  Proof.
    intros HL. destruct x as [[v q] ds]. intros [[E H]|(H1 & H2 & H3 & H4)]; cbn [fst snd] in *.
    - injection E as -> -> ->. left. do 3 (split; [reflexivity|]). intros r vals ds' s' Hi HP HK. rewrite (@k_best_avg vals k ds' s'); [eapply H; eassumption|apply (HL _ _ _ Hi)|exact HK].
    - right. split; [exact H1|]. split; [exact H2|]. split; [exact H3|]. intros r vals ds' s' Hi HP HK. rewrite (@k_best_avg vals k ds' s'); [eapply H4; eassumption|apply (HL _ _ _ Hi)|exact HK].
  Qed.
End Multi.
