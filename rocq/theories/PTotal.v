(** * PTotal: calls of the generators that make sense do not raise, whatever the arithmetic and whatever was called before *)
From Coq Require Import QArith.
From Verif Require Import Np NpFacts MRing PRing MUtil MArith MStats MCache MEuclid MZnorm SReal SCalc SGen PArith PGenRun.
Set Implicit Arguments.
Open Scope nat_scope.

Lemma getitem_in {T} (l : list T) i : i < length l -> exists x, getitem l i = Ok x.
Proof. intro H. destruct (nth_error l i) as [x|] eqn:E; [exists x; apply getitem_ok, E|]. apply nth_error_None in E. lia. Qed.

Section Cache.
  Context {A : Type} {NA : NumOps A}.
  Notation num := (Np.num A).
  Variable m : nat.
  Hypothesis Hm : 0 < m.

  (** [S], [Q]: the data in the windows *)
  Record linv (W Wq : nat) (self : bool) (S Q : list num) (g : @cache A) : Prop := {
    li_m : ch_m g = m;
    li_self : ch_self g = self;
    li_W : m <= W;
    li_s : win W S (ch_series g);
    li_q : if self then Q = S else win Wq Q (ch_qbuf g);
    li_first : forall b, ch_first g = Some b -> exists v, win (W + 1 - m) v b /\ m <= length S /\ length S + 1 - m = Nat.min (W + 1 - m) (length v + ch_backlog g);
    li_prev : forall p, ch_prev g = Some p -> m <= length Q /\ length (ch_vals g) = length Q + 1 - m
  }.
  Ltac fields := cbn [ch_m ch_self ch_series ch_qbuf ch_first ch_backlog ch_prev ch_vals].
  Lemma li_query W Wq self S Q g : linv W Wq self S Q g -> rb_view (ch_query g) = Q.
  Proof. intros [H1 H2 H3 H4 H5 _ _]. unfold ch_query. rewrite H2. destruct self; [subst Q; apply H4|apply H5]. Qed.
  Lemma linv_new W Wq (self : bool) S Q s q : m <= W -> win W S s -> (if self then Q = S else win Wq Q q) -> linv W Wq self S Q (cache_new m self s q).
  Proof. intros. constructor; cbn [cache_new ch_m ch_self ch_series ch_qbuf ch_first ch_prev]; auto; discriminate. Qed.
  Lemma linv_append_s W Wq self S Q g xs : linv W Wq self S Q g ->
    exists g', cache_append_s g xs = Ok g' /\ linv W Wq self (lastn W (S ++ xs)) (if self then lastn W (S ++ xs) else Q) g'.
  Proof.
    intros [H1 H2 H3 H4 H5 H6 H7]. pose proof (win_len H4) as LS. unfold cache_append_s. destruct (win_push xs H4) as (b & Eb & Wb). rewrite Eb. cbn [bind fst snd]. eexists. split; [reflexivity|].
    assert (F : forall b0, ch_first g = Some b0 -> exists v, win (W + 1 - m) v b0 /\ m <= length (lastn W (S ++ xs)) /\ length (lastn W (S ++ xs)) + 1 - m = Nat.min (W + 1 - m) (length v + (ch_backlog g + length xs))).
    { intros b0 E0. destruct (H6 _ E0) as (v & A1 & A2 & A3). exists v. split; [exact A1|]. rewrite length_lastn, app_length. lia. }
    rewrite H2. destruct self.
    - subst Q. constructor; fields; auto; [|discriminate]. intros b0 E0. destruct (_ =? 0); [|discriminate]. apply F, E0.
    - constructor; fields; auto. intros p Ep. destruct (ch_prev g) as [p0|]; [|discriminate]. apply (H7 p0 eq_refl).
  Qed.
  Lemma linv_append_q W Wq S Q g xs : linv W Wq false S Q g -> exists g', cache_append_q g xs = Ok g' /\ linv W Wq false S (lastn Wq (Q ++ xs)) g'.
  Proof.
    intros [H1 H2 H3 H4 H5 H6 H7]. unfold cache_append_q. destruct (win_push xs H5) as (b & Eb & Wb). rewrite Eb. cbn [bind fst snd]. eexists. split; [reflexivity|].
    constructor; fields; auto; [|discriminate]. intros b0 E0. destruct (_ =? 0); [|discriminate]. apply H6, E0.
  Qed.
  Variable full : list num -> list num -> res (list num).
  Variable term : num -> num -> num.
  Variable mem : nat -> num.
  Hypothesis full_len : forall l y, 0 < length y -> length y <= length l -> exists v, full l y = Ok v /\ length v = length l + 1 - length y.
  Lemma linv_first W Wq self S Q g : linv W Wq self S Q g -> m <= length Q -> m <= length S ->
    exists b v, cache_first full mem g = Ok b /\ win (W + 1 - m) v b /\ length v = length S + 1 - m.
  Proof.
    intros I HQ HS. pose proof (li_query I) as VQ. destruct I as [H1 H2 H3 H4 H5 H6 _]. pose proof (win_len H4) as LS. unfold cache_first. rewrite VQ, H1. pose proof H4 as (_ & MS & _ & VS & _). rewrite VS, MS.
    assert (Ly : length (lslice Q 0 m) = m) by (rewrite length_lslice; lia). destruct (ch_first g) as [b|].
    - destruct (H6 _ eq_refl) as (v & A1 & A2 & A3). pose proof (win_len A1) as LV. destruct (Nat.ltb_spec 0 (ch_backlog g)) as [Hb|Hb].
      + replace (- (Z.of_nat (ch_backlog g) + Z.of_nat m - 1))%Z with (- Z.of_nat (ch_backlog g + m - 1))%Z by lia. rewrite slice_from_neg by lia.
        destruct (@full_len (lastn (ch_backlog g + m - 1) S) (lslice Q 0 m)) as (vs & Ev & Lv); [lia|rewrite length_lastn; lia|]. rewrite Ev. cbn [bind]. rewrite Ly, length_lastn in Lv.
        destruct (win_push vs A1) as (b' & Eb & Wb). rewrite Eb. cbn [bind fst]. exists b', (lastn (W + 1 - m) (v ++ vs)). split; [reflexivity|]. split; [exact Wb|]. rewrite length_lastn, app_length. lia.
      + exists b, v. split; [reflexivity|]. split; [exact A1|]. lia.
    - destruct (@full_len S (lslice Q 0 m)) as (vs & Ev & Lv); [lia|lia|]. rewrite Ev. cbn [bind]. rewrite Ly in Lv. destruct (@win_new _ mem vs (W + 1 - m) 2) as (b & Eb & Wb); [discriminate|discriminate|lia|lia|].
      exists b, vs. split; [exact Eb|]. split; [exact Wb|exact Lv].
  Qed.
  Lemma linv_col W Wq self S Q g c : linv W Wq self S Q g -> has_col m S Q c ->
    exists g' v, cache_col full term mem g c = Ok (g', v) /\ length v = length Q + 1 - m /\ linv W Wq self S Q g'.
  Proof.
    intros I [Hc HQ]. pose proof (li_query I) as VQ. pose proof I as [H1 H2 H3 H4 H5 H6 H7]. pose proof H4 as (_ & MS & _ & VS & _). unfold cache_col. rewrite VQ, VS, H1. destruct (negb _ || _) eqn:Ec.
    - destruct (@full_len Q (lslice S c (c + m))) as (v & Ev & Lv); [rewrite length_lslice; lia|rewrite length_lslice; lia|]. rewrite length_lslice in Lv. rewrite Ev. cbn [bind]. do 2 eexists. split; [reflexivity|]. assert (L : length v = length Q + 1 - m) by lia. split; [exact L|].
      constructor; fields; auto.
    - apply orb_false_elim in Ec as [Ec1 Ec2]. apply negb_false_iff in Ec1. apply Nat.eqb_neq in Ec2. destruct (ch_prev g) as [p|] eqn:Ep; [|discriminate]. destruct (H7 _ eq_refl) as (_ & Lp).
      destruct (linv_first I HQ) as (b & v & Eb & Wb & Lv); [lia|]. rewrite Eb. cbn [bind]. destruct (@getitem_in _ S (c - 1)) as (s & ->); [lia|]. cbn [bind]. destruct (@getitem_in _ S (c + m - 1)) as (a & ->); [lia|]. cbn [bind].
      set (n := length Q - m) in *.
      assert (L1 : length (slice (ch_vals g) 0 (-1)) = n). { unfold slice, norm_idx. cbn [Z.ltb Z.compare]. rewrite length_lslice. lia. }
      assert (L2 : length (slice Q 0 (Z.of_nat (length Q) - Z.of_nat m)) = n). { replace (Z.of_nat (length Q) - Z.of_nat m)%Z with (Z.of_nat n) by lia. change 0%Z with (Z.of_nat 0). rewrite slice_nat, length_lslice. lia. }
      rewrite bop_eq by (rewrite map_length; lia). cbn [bind]. rewrite bop_eq by (rewrite length_zip_with, !map_length, skipn_length; lia). cbn [bind].
      match goal with |- context [set_slice _ _ _ ?w] => set (w0 := w); assert (Lw : length w0 = n) by (unfold w0; rewrite !length_zip_with, !map_length, skipn_length; lia) end.
      rewrite set_slice_ok by lia. cbn [bind]. destruct (@getitem_in _ (rb_view b) c) as (x & ->); [destruct Wb as (_ & _ & _ & -> & _); lia|]. cbn [bind].
      rewrite setitem_ok by (rewrite length_splice; lia). cbn [bind]. do 2 eexists. split; [reflexivity|].
      match goal with |- length ?v = _ /\ _ => assert (L : length v = length Q + 1 - m) by (rewrite !length_splice; cbn [length]; rewrite ?length_splice; lia) end. split; [exact L|].
      constructor; fields; auto. intros b0 E0. injection E0 as <-. exists v. split; [exact Wb|]. pose proof (win_len Wb). lia.
  Qed.
End Cache.

(** ** Diagonals *)
Lemma diag_lens {T U} (term : T -> T -> U) m (S Q : list T) d : 0 < m -> has_diag m S Q d ->
  let dl := diag_length (Z.of_nat (length Q)) (Z.of_nat (length S)) d in
  let n := Z.to_nat dl in
  let a := Z.to_nat (Z.max 0 (- d)) in
  let b := Z.to_nat (Z.max 0 d) in
  dl = Z.of_nat n /\ m <= n /\ a + n <= length Q /\ b + n <= length S /\ Z.of_nat (n + 1 - m) = dlen (length Q + 1 - m) (length S + 1 - m) d /\
  exists l, (if (0 <=? d)%Z then bop term (slice Q 0 dl) (slice S d (d + dl)) else bop term (slice Q (- d) (- d + dl)) (slice S 0 dl)) = Ok l /\ length l = n.
Proof.
  intros Hm (i & j & Hi & Hj & Hd) dl n a b.
  assert (L : (dl = Z.min (Z.of_nat (length Q) - Z.max 0 (- d)) (Z.of_nat (length S) - Z.max 0 d))%Z).
  { unfold dl, diag_length. destruct (Z.leb_spec 0 d); lia. }
  clearbody dl. assert (En : dl = Z.of_nat n) by (unfold n; lia).
  assert (Ha : a + n <= length Q) by (unfold a; lia). assert (Hb : b + n <= length S) by (unfold b; lia).
  split; [exact En|]. split; [lia|]. split; [exact Ha|]. split; [exact Hb|]. split; [unfold dlen; lia|].
  clear L. clearbody n. subst dl. destruct (Z.leb_spec 0 d).
  - replace d with (Z.of_nat b) by lia. rewrite <- Nat2Z.inj_add. change 0%Z with (Z.of_nat 0). rewrite !slice_nat.
    rewrite bop_eq by (rewrite !length_lslice; lia). eexists. split; [reflexivity|]. rewrite length_zip_with, !length_lslice. lia.
  - replace (- d)%Z with (Z.of_nat a) by lia. rewrite <- Nat2Z.inj_add. change 0%Z with (Z.of_nat 0). rewrite !slice_nat.
    rewrite bop_eq by (rewrite !length_lslice; lia). eexists. split; [reflexivity|]. rewrite length_zip_with, !length_lslice. lia.
Qed.
Lemma length_slice_nat {T} (l : list T) a b : a <= b -> b <= length l -> length (slice l (Z.of_nat a) (Z.of_nat b)) = b - a.
Proof. intros. rewrite slice_nat, length_lslice. lia. Qed.

Section Gens.
  Context {A : Type} {NA : NumOps A}.
  Notation num := (Np.num A).
  Variable mem : nat -> num.

  Lemma length_cumsum (l : list num) : length (cumsum l) = length l.
  Proof.
    assert (K : forall l (x : num), length (cumsum_from x l) = length l) by (induction l0 as [|y l0 IH]; intro x; cbn; [reflexivity|rewrite IH; reflexivity]).
    destruct l; cbn; [reflexivity|rewrite K; reflexivity].
  Qed.
  Lemma eds_len (l y : list num) : 0 < length y -> length y <= length l -> exists v, euclidean_distance_squared l y = Ok v /\ length v = length l + 1 - length y.
  Proof. intros H1 H2. unfold euclidean_distance_squared. rewrite windows_ok by assumption. cbn [bind]. eexists. split; [reflexivity|]. rewrite !map_length, seq_length. reflexivity. Qed.
  Lemma dots_len (l y : list num) : 0 < length y -> length y <= length l -> exists v, dot_products l y = Ok v /\ length v = length l + 1 - length y.
  Proof.
    intros H1 H2. unfold dot_products, convolve_valid. rewrite rev_length. destruct (Nat.ltb_spec (length l) (length y)); [lia|]. rewrite rev_length.
    destruct (Nat.eqb_spec (length y) 0); [lia|]. eexists. split; [reflexivity|]. rewrite map_length, seq_length. lia.
  Qed.

  (** *** Euclidean *)
  Section Eu.
    Variables (m W Wq : nat) (self : bool).
    Hypothesis Hm : 0 < m.
    Notation linv := (@linv A m W Wq self).
    Lemma eu_s S Q g xs : linv S Q g -> exists g', eu_append_series g xs = Ok g' /\ linv (lastn W (S ++ xs)) (if self then lastn W (S ++ xs) else Q) g'.
    Proof.
      intro I. unfold eu_append_series. destruct (Nat.eqb_spec (length xs) 0) as [E|E].
      - destruct xs; [|discriminate]. rewrite app_nil_r. pose proof (win_len (li_s I)). rewrite lastn_all by lia. exists g. split; [reflexivity|].
        pose proof (li_q I) as Hq. destruct self; [subst Q|]; exact I.
      - apply (linv_append_s Hm xs I).
    Qed.
    Lemma eu_q S Q g xs : self = false -> linv S Q g -> exists g', eu_append_query g xs = Ok g' /\ linv S (lastn Wq (Q ++ xs)) g'.
    Proof.
      intros E0 I. unfold eu_append_query. rewrite (li_self I), E0. subst self. destruct (Nat.eqb_spec (length xs) 0) as [E|E].
      - destruct xs; [|discriminate]. rewrite app_nil_r. pose proof (win_len (li_q I)). rewrite lastn_all by lia. exists g. auto.
      - apply (linv_append_q xs I).
    Qed.
    Lemma eu_c S Q g c : linv S Q g -> has_col m S Q c -> exists g' v, eu_calc_column mem g c = Ok (g', v) /\ length v = length Q + 1 - m /\ linv S Q g'.
    Proof.
      intros I Hc. unfold eu_calc_column. destruct (@linv_col A NA m Hm euclidean_distance_squared sq_diff mem eds_len W Wq self S Q g c I Hc) as (g' & v & E & L & I').
      rewrite E. cbn [bind fst snd]. do 2 eexists. split; [reflexivity|]. rewrite map_length. auto.
    Qed.
    Lemma eu_d S Q g d : linv S Q g -> has_diag m S Q d -> exists v, eu_calc_diagonal g d = Ok (g, v) /\ Z.of_nat (length v) = dlen (length Q + 1 - m) (length S + 1 - m) d.
    Proof.
      intros I Hd. unfold eu_calc_diagonal. rewrite (li_query I), (li_m I). pose proof (li_s I) as (_ & _ & _ & VS & _). rewrite VS.
      destruct (diag_lens sq_diff Hm Hd) as (E1 & E2 & E3 & E4 & E5 & l & El & Ll). rewrite El. cbn [bind]. set (n := Z.to_nat _) in *.
      assert (Lc : length (fzero :: cumsum l) = n + 1) by (cbn [length]; rewrite length_cumsum; lia). rewrite Lc.
      replace (Z.of_nat (n + 1) - Z.of_nat m)%Z with (Z.of_nat (n + 1 - m)) by lia. change 0%Z with (Z.of_nat 0).
      rewrite bop_eq by (rewrite !length_slice_nat; lia). cbn [bind]. eexists. split; [reflexivity|]. rewrite map_length, length_zip_with, !length_slice_nat by lia. lia.
    Qed.
  End Eu.

  (** *** z-normalised *)
  Definition zlen (n k : nat) (z : @zstats A) : Prop :=
    exists mu sd nz, win n mu (zs_mu z) /\ win n sd (zs_std z) /\ win n nz (zs_nz z) /\ length mu = k /\ length sd = k /\ length nz = k.
  Lemma zlen_views n k z : zlen n k z -> length (rb_view (zs_mu z)) = k /\ length (rb_view (zs_std z)) = k /\ length (rb_view (zs_nz z)) = k.
  Proof. intros (mu & sd & nz & (_ & _ & _ & -> & _) & (_ & _ & _ & -> & _) & (_ & _ & _ & -> & _) & L). exact L. Qed.
  Definition fins (l : list num) : Prop := Forall (fun x => isfinite x = true) l.
  Lemma fins_app l1 l2 : fins (l1 ++ l2) <-> fins l1 /\ fins l2.
  Proof. unfold fins. rewrite Forall_app. tauto. Qed.
  Lemma fins_lastn n l : fins l -> fins (lastn n l).
  Proof. unfold fins. rewrite !Forall_forall. intros H x Hx. apply H. unfold lastn in Hx. rewrite <- (firstn_skipn (length l - n) l). apply in_or_app. right. exact Hx. Qed.
  Lemma zlen_append m W (S xs : list num) z : 0 < m -> m <= W -> length S <= W -> 0 < length xs -> fins (S ++ xs) -> zlen (W + 1 - m) (length S + 1 - m) z ->
    exists z', zstats_append m (lastn W (S ++ xs)) (length xs) z = Ok z' /\ zlen (W + 1 - m) (length (lastn W (S ++ xs)) + 1 - m) z'.
  Proof.
    intros Hm HW LS Lx HF (mu & sd & nz & W1 & W2 & W3 & L1 & L2 & L3). unfold zstats_append. pose proof (length_lastn W (S ++ xs)) as LV. rewrite app_length in LV.
    apply (fins_lastn W) in HF. set (V := lastn W (S ++ xs)) in *. clearbody V. destruct (Nat.leb_spec m (length V)) as [H|H].
    - replace (- (Z.of_nat (length xs) + Z.of_nat m - 1))%Z with (- Z.of_nat (length xs + m - 1))%Z by lia. rewrite slice_from_neg by lia.
      pose proof (length_lastn (length xs + m - 1) V) as LU. apply (fins_lastn (length xs + m - 1)) in HF. set (U := lastn _ V) in *. clearbody U.
      unfold sliding_mean_std, sliding_mean_with. destruct (Z.leb_spec (Z.of_nat m) 0); [lia|].
      replace (forallb isfinite U) with true by (symmetry; apply forallb_forall; apply Forall_forall; exact HF). cbn [negb]. rewrite Nat2Z.id, windows_ok by lia. cbn [bind fst snd].
      match goal with |- context [rb_push (zs_mu z) ?a] => set (d1 := a); assert (K1 : length d1 = length U + 1 - m) by (unfold d1; rewrite !map_length, seq_length; reflexivity) end.
      match goal with |- context [rb_push (zs_std z) ?a] => set (d2 := a); assert (K2 : length d2 = length U + 1 - m) by (unfold d2; rewrite !map_length, seq_length; reflexivity) end.
      match goal with |- context [rb_push (zs_nz z) ?a] => set (d3 := a); assert (K3 : length d3 = length U + 1 - m) by (unfold d3; rewrite map_length; exact K2) end.
      clearbody d1 d2 d3. destruct (win_push d1 W1) as (b1 & -> & P1). destruct (win_push d2 W2) as (b2 & -> & P2). destruct (win_push d3 W3) as (b3 & -> & P3). cbn [bind fst].
      eexists. split; [reflexivity|]. exists (lastn (W + 1 - m) (mu ++ d1)), (lastn (W + 1 - m) (sd ++ d2)), (lastn (W + 1 - m) (nz ++ d3)). cbn [zs_mu zs_std zs_nz]. rewrite !length_lastn, !app_length.
      split; [exact P1|]. split; [exact P2|]. split; [exact P3|]. lia.
    - exists z. split; [reflexivity|]. exists mu, sd, nz. split; [exact W1|]. split; [exact W2|]. split; [exact W3|]. lia.
  Qed.
  Section Zn.
    Variables (m W Wq : nat) (self : bool).
    Hypothesis Hm : 0 < m.
    Hypothesis HWq : self = false -> m <= Wq.
    Definition zinvl (S Q : list num) (g : @zn A) : Prop :=
      @linv A m W Wq self S Q (zn_c g) /\ fins S /\ fins Q /\ zlen (W + 1 - m) (length S + 1 - m) (zn_s g) /\ (self = false -> zlen (Wq + 1 - m) (length Q + 1 - m) (zn_q g)).
    Lemma zinvl_qstats S Q g : zinvl S Q g -> exists n, zlen n (length Q + 1 - m) (zn_qstats g).
    Proof.
      intros (I & _ & _ & H1 & H2). unfold zn_qstats. rewrite (li_self I). pose proof (li_q I) as Hq. destruct self; [subst Q; eauto|eexists; apply H2; reflexivity].
    Qed.
    Lemma zn_s_ok S Q g xs : zinvl S Q g -> fins xs -> exists g', zn_append_series g xs = Ok g' /\ zinvl (lastn W (S ++ xs)) (if self then lastn W (S ++ xs) else Q) g'.
    Proof.
      intros (I & F1 & F2 & Z1 & Z2) Fx. unfold zn_append_series. pose proof (win_len (li_s I)) as LS. destruct (Nat.eqb_spec (length xs) 0) as [E|E].
      - destruct xs; [|discriminate]. rewrite app_nil_r, lastn_all by lia. exists g. split; [reflexivity|].
        pose proof (li_q I) as Hq. unfold zinvl. destruct self; [subst Q|]; tauto.
      - destruct (linv_append_s Hm xs I) as (c & Ec & Ic). rewrite Ec. cbn [bind]. rewrite (li_m Ic). pose proof (li_s Ic) as (_ & _ & _ & VS & _). rewrite VS.
        assert (FF : fins (S ++ xs)) by (apply fins_app; auto). destruct (@zlen_append m W S xs (zn_s g) Hm (li_W I) LS ltac:(lia) FF Z1) as (z & Ez & Iz). rewrite Ez. cbn [bind]. eexists. split; [reflexivity|].
        split; [exact Ic|]. cbn [zn_s zn_q]. split; [apply fins_lastn, FF|]. split; [destruct self; [apply fins_lastn, FF|exact F2]|]. split; [exact Iz|]. intro E1. rewrite E1. apply Z2, E1.
    Qed.
    Lemma zn_q_ok S Q g xs : self = false -> zinvl S Q g -> fins xs -> exists g', zn_append_query g xs = Ok g' /\ zinvl S (lastn Wq (Q ++ xs)) g'.
    Proof.
      intros E0 (I & F1 & F2 & Z1 & Z2) Fx. unfold zn_append_query. rewrite (li_self I), E0. pose proof (HWq E0) as HW'. specialize (Z2 E0). pose proof (li_q I) as Wn. rewrite E0 in Wn. pose proof (win_len Wn) as LQ. destruct (Nat.eqb_spec (length xs) 0) as [E|E].
      - destruct xs; [|discriminate]. rewrite app_nil_r, lastn_all by lia. exists g. split; [reflexivity|]. unfold zinvl. tauto.
      - assert (I' : @linv A m W Wq false S Q (zn_c g)) by (rewrite <- E0; exact I). destruct (linv_append_q xs I') as (c & Ec & Ic). rewrite Ec. cbn [bind]. rewrite (li_m Ic). pose proof (li_q Ic) as (_ & _ & _ & VS & _). rewrite VS.
        assert (FF : fins (Q ++ xs)) by (apply fins_app; auto). destruct (@zlen_append m Wq Q xs (zn_q g) Hm HW' LQ ltac:(lia) FF Z2) as (z & Ez & Iz). rewrite Ez. cbn [bind]. eexists. split; [reflexivity|].
        split; [rewrite E0; exact Ic|]. cbn [zn_s zn_q]. split; [exact F1|]. split; [apply fins_lastn, FF|]. split; [exact Z1|]. intros _. exact Iz.
    Qed.
    Lemma stats_of_ok n mu sd nz : length mu = n -> length sd = n -> length nz = n -> exists l, @stats_of A n mu sd nz = Ok l /\ length l = n.
    Proof. intros H1 H2 H3. unfold stats_of. rewrite H1, H2, H3, Nat.eqb_refl. exists (combine (combine mu sd) nz). split; [reflexivity|]. unfold stat. rewrite !combine_length. lia. Qed.
    Lemma zn_c_ok S Q g c : zinvl S Q g -> has_col m S Q c -> exists g' v, zn_calc_column mem g c = Ok (g', v) /\ length v = length Q + 1 - m /\ zinvl S Q g'.
    Proof.
      intros Z Hc. pose proof (zinvl_qstats Z) as (nq & Zq). destruct (zlen_views Zq) as (Q1 & Q2 & Q3). pose proof Z as (I & F1 & F2 & Z1 & Z2). destruct (zlen_views Z1) as (S1 & S2 & S3). pose proof Hc as [Hc1 Hc2].
      unfold zn_calc_column. rewrite (li_query I), (li_m I). destruct (Nat.ltb_spec (length Q + 1) m); [lia|].
      destruct (@linv_col A NA m Hm dot_products fmul mem dots_len W Wq self S Q (zn_c g) c I Hc) as (g' & v & E & L & I'). rewrite E. cbn [bind fst snd].
      destruct (@getitem_in _ (rb_view (zs_mu (zn_s g))) c) as (x1 & ->); [lia|]. destruct (@getitem_in _ (rb_view (zs_std (zn_s g))) c) as (x2 & ->); [lia|]. destruct (@getitem_in _ (rb_view (zs_nz (zn_s g))) c) as (x3 & ->); [lia|]. cbn [bind].
      destruct (stats_of_ok _ _ _ Q1 Q2 Q3) as (l & -> & Ll). cbn [bind]. rewrite L, Nat.eqb_refl. do 2 eexists. split; [reflexivity|]. split; [rewrite length_zip_with; lia|]. unfold zinvl. cbn [zn_c zn_s zn_q]. tauto.
    Qed.
    Lemma zn_d_ok S Q g d : zinvl S Q g -> has_diag m S Q d -> exists v, zn_calc_diagonal g d = Ok (g, v) /\ Z.of_nat (length v) = dlen (length Q + 1 - m) (length S + 1 - m) d.
    Proof.
      intros Z Hd. pose proof (zinvl_qstats Z) as (nq & Zq). destruct (zlen_views Zq) as (Q1 & Q2 & Q3). pose proof Z as (I & F1 & F2 & Z1 & Z2). destruct (zlen_views Z1) as (S1 & S2 & S3).
      unfold zn_calc_diagonal. rewrite (li_query I), (li_m I). pose proof (li_s I) as (_ & _ & _ & VS & _). rewrite VS. cbn zeta.
      destruct (diag_lens fmul Hm Hd) as (E1 & E2 & E3 & E4 & E5 & l & El & Ll). set (dl := diag_length _ _ _) in *. set (n := Z.to_nat dl) in *. destruct (Z.ltb_spec (dl - Z.of_nat m + 1) 0); [lia|]. rewrite El. cbn [bind].
      assert (Lc : length (fzero :: cumsum l) = n + 1) by (cbn [length]; rewrite length_cumsum; lia). rewrite Lc.
      replace (dl - Z.of_nat m + 1)%Z with (Z.of_nat (n + 1 - m)) by lia. set (k := n + 1 - m) in *. change (slice (fzero :: cumsum l) 0 (Z.of_nat k)) with (slice (fzero :: cumsum l) (Z.of_nat 0) (Z.of_nat k)).
      rewrite bop_eq by (rewrite !length_slice_nat; lia). cbn [bind]. rewrite Nat2Z.id.
      assert (Ea : (if (0 <=? d)%Z then 0%Z else (- d)%Z) = Z.of_nat (Z.to_nat (Z.max 0 (- d)))) by (destruct (Z.leb_spec 0 d); lia).
      assert (Eb : (if (0 <=? d)%Z then d else 0%Z) = Z.of_nat (Z.to_nat (Z.max 0 d))) by (destruct (Z.leb_spec 0 d); lia).
      rewrite Ea, Eb, <- !Nat2Z.inj_add. set (a := Z.to_nat (Z.max 0 (- d))) in *. set (b := Z.to_nat (Z.max 0 d)) in *.
      assert (SL : forall T (w : list T) o t, o + k <= t -> length w = t -> length (slice w (Z.of_nat o) (Z.of_nat (o + k))) = k) by (intros T w o t Ho Hw; rewrite length_slice_nat; lia).
      assert (Ha : a + k <= length Q + 1 - m) by lia. assert (Hb : b + k <= length S + 1 - m) by lia.
      destruct (stats_of_ok _ _ _ (SL _ _ _ _ Ha Q1) (SL _ _ _ _ Ha Q2) (SL _ _ _ _ Ha Q3)) as (lq & -> & Lq). destruct (stats_of_ok _ _ _ (SL _ _ _ _ Hb S1) (SL _ _ _ _ Hb S2) (SL _ _ _ _ Hb S3)) as (ls & -> & Ls). cbn [bind].
      match goal with |- context [length ?w =? k] => set (w0 := w); assert (Lw : length w0 = k) by (unfold w0; rewrite length_zip_with, !length_slice_nat by lia; lia) end. rewrite Lw, Nat.eqb_refl.
      eexists. split; [reflexivity|]. rewrite length_zip_with, combine_length. lia.
    Qed.
    Lemma zn_1_ok S Q g r c dot : zinvl S Q g -> r + m <= length Q -> c + m <= length S -> exists x, zn_calc_single g r c dot = Ok x.
    Proof.
      intros Z Hr Hc. pose proof (zinvl_qstats Z) as (nq & Zq). destruct (zlen_views Zq) as (Q1 & Q2 & Q3). pose proof Z as (I & F1 & F2 & Z1 & Z2). destruct (zlen_views Z1) as (S1 & S2 & S3).
      unfold zn_calc_single. rewrite (li_query I), (li_m I). pose proof (li_s I) as (_ & _ & _ & VS & _). rewrite VS. cbn zeta.
      destruct (@getitem_in _ (rb_view (zs_std (zn_qstats g))) r) as (x1 & ->); [lia|]. destruct (@getitem_in _ (rb_view (zs_std (zn_s g))) c) as (x2 & ->); [lia|]. destruct (@getitem_in _ (rb_view (zs_mu (zn_qstats g))) r) as (x3 & ->); [lia|]. destruct (@getitem_in _ (rb_view (zs_mu (zn_s g))) c) as (x4 & ->); [lia|]. cbn [bind].
      rewrite bop_eq by (rewrite !length_lslice; lia). cbn [bind]. destruct (_ && _); [eauto|]. destruct (_ || _); cbn [bind]; [eauto|]. destruct dot as [dt|]; [destruct (feqb dt fzero)|]; cbn [bind]; eauto.
    Qed.
  End Zn.
End Gens.

(** ** Sequences of calls *)
Section Runs.
  Variables (A X G : Type).
  Variable g_col : G -> nat -> res (G * list (num A)).
  Variable g_diag : G -> Z -> res (G * list (num A)).
  Variable g_s g_q : G -> list X -> res G.
  Variables (self : bool) (m W Wq : nat).
  Variable data : list X -> Prop.
  Variable Inv : list X -> list X -> G -> Prop.
  Hypothesis Inv_s : forall S Q g xs, Inv S Q g -> data xs -> exists g', g_s g xs = Ok g' /\ Inv (lastn W (S ++ xs)) (if self then lastn W (S ++ xs) else Q) g'.
  Hypothesis Inv_q : self = false -> forall S Q g xs, Inv S Q g -> data xs -> exists g', g_q g xs = Ok g' /\ Inv S (lastn Wq (Q ++ xs)) g'.
  Hypothesis Inv_c : forall S Q g c, Inv S Q g -> has_col m S Q c -> exists g' v, g_col g c = Ok (g', v) /\ Inv S Q g'.
  Hypothesis Inv_d : forall S Q g d, Inv S Q g -> has_diag m S Q d -> exists g' v, g_diag g d = Ok (g', v) /\ Inv S Q g'.
  Definition data_call (o : gcall X) : Prop := match o with CSeries xs | CQuery xs => data xs | _ => True end.
  Lemma total_run H0 g0 H : Inv (wS W H0) (wQ self W Wq H0) g0 -> in_range self m W Wq (H0 ++ H) -> Forall data_call H ->
    exists g, grun g_col g_diag g_s g_q g0 H = Ok g /\ Inv (wS W (H0 ++ H)) (wQ self W Wq (H0 ++ H)) g.
  Proof.
    intros I0. induction H as [|o H IH] using rev_ind; intros Hr Hd.
    - exists g0. rewrite app_nil_r. auto.
    - apply Forall_app in Hd. destruct Hd as [Hd Ho]. inversion Ho as [|? ? Hd' _]. subst. rewrite app_assoc in *. destruct IH as (g & Eg & Ig); auto.
      { intros H1 o' H2 E. apply (Hr H1 o' (H2 ++ [o])). rewrite E, <- app_assoc. reflexivity. }
      specialize (Hr (H0 ++ H) o [] eq_refl). unfold grun in *. rewrite foldM_app, Eg. cbn [bind foldM]. unfold wQ, wS in *. rewrite s_points_snoc, q_points_snoc.
      destruct o as [xs|xs|c|d]; cbn [gstep data_call] in *; rewrite ?app_nil_r.
      + destruct (Inv_s Ig Hd') as (g' & E & I). rewrite E. exists g'. split; [reflexivity|]. rewrite lastn_app in I. revert I. case self; auto.
      + rewrite Hr in *. destruct (Inv_q eq_refl Ig Hd') as (g' & E & I). rewrite E. exists g'. split; [reflexivity|]. rewrite lastn_app in I. exact I.
      + destruct (Inv_c Ig Hr) as (g' & v & E & I). rewrite E. cbn [bind fst]. exists g'. auto.
      + destruct (Inv_d Ig Hr) as (g' & v & E & I). rewrite E. cbn [bind fst]. exists g'. auto.
  Qed.
End Runs.

Section Starts.
  Context {A : Type} {NA : NumOps A}.
  Notation num := (Np.num A).
  Variable mem : nat -> num.
  Lemma lastn_len {T} (l : list T) : lastn (length l) l = l.
  Proof. apply lastn_all. lia. Qed.
  Lemma wS_nil {X} W : wS W (@nil (gcall X)) = [].
  Proof. apply skipn_nil. Qed.
  Lemma wQ_nil {X} self W Wq : wQ self W Wq (@nil (gcall X)) = [].
  Proof. unfold wQ. rewrite wS_nil. case self; [reflexivity|]. apply skipn_nil. Qed.
  Lemma eu_streaming_ok sf m W Wq (self : bool) : 0 < m -> m <= W -> (self = false -> 0 < Wq) -> (1 <= sf)%Q -> (sf <= 2)%Q ->
    exists g, eu_prepare_streaming mem sf m W (if self then None else Some Wq) = Ok g /\ @linv A m W Wq self (wS W []) (wQ self W Wq []) g.
  Proof.
    intros Hm HW HWq H1 H2. rewrite wS_nil, wQ_nil. unfold eu_prepare_streaming. rewrite (proj2 (Qle_bool_iff _ _) H1). cbn [negb]. destruct (@win_empty _ mem W sf H1 H2) as (s & Es & Ws); [lia|]. rewrite Es. cbn [bind]. destruct self.
    - eexists. split; [reflexivity|]. apply linv_new; auto.
    - destruct (@win_empty _ mem Wq sf H1 H2) as (q & Eq & Wn); [auto|]. rewrite Eq. cbn [bind]. eexists. split; [reflexivity|]. apply linv_new; auto.
  Qed.
  Lemma eu_batch_ok sf m (S : list num) q : 0 < m -> m <= length S -> 0 < length (query_or S q) -> (1 <= sf)%Q ->
    exists g, eu_prepare mem sf m S q = Ok g /\ @linv A m (length S) (length (query_or S q)) (self_of q) S (query_or S q) g.
  Proof.
    intros Hm HW HWq H1. unfold eu_prepare. rewrite (proj2 (Qle_bool_iff _ _) H1). cbn [negb]. destruct (@win_data _ mem S 1) as (s & Es & Ws); [discriminate|discriminate|lia|]. rewrite Es. cbn [bind]. destruct q as [q|]; cbn [query_or self_of] in *.
    - destruct (@win_data _ mem q 1) as (b & Eq & Wn); [discriminate|discriminate|lia|]. rewrite Eq. cbn [bind]. eexists. split; [reflexivity|]. apply linv_new; auto.
    - eexists. split; [reflexivity|]. apply linv_new; auto.
  Qed.
  Variable memb : nat -> bool.
  Lemma zlen_new sf n : 0 < n -> (1 <= sf)%Q -> (sf <= 2)%Q -> exists z, zstats_new mem memb sf n = Ok z /\ zlen n 0 z.
  Proof.
    intros Hn H1 H2. unfold zstats_new. destruct (@win_empty _ mem n sf H1 H2 Hn) as (b & -> & Wb). cbn [bind]. destruct (@win_empty _ memb n sf H1 H2 Hn) as (b' & -> & Wb'). cbn [bind]. eexists. split; [reflexivity|].
    exists [], [], []. cbn. tauto.
  Qed.
  Lemma zn_empty_ok noise sf m W Wq (self : bool) : 0 < m -> m <= W -> (self = false -> m <= Wq) -> (1 <= sf)%Q -> (sf <= 2)%Q ->
    exists g, zn_empty mem memb noise sf m W (if self then None else Some Wq) = Ok g /\ @zinvl A m W Wq self [] [] g.
  Proof.
    intros Hm HW HWq H1 H2. unfold zn_empty. destruct (@win_empty _ mem W sf H1 H2) as (s & Es & Ws); [lia|]. rewrite Es. cbn [bind]. destruct (@zlen_new sf (W + 1 - m)) as (z & Ez & Lz); [lia|exact H1|exact H2|]. rewrite Ez. cbn [bind].
    assert (E0 : length (@nil num) + 1 - m = 0) by (cbn [length]; lia). destruct self.
    - eexists. split; [reflexivity|]. split; [apply linv_new; auto|]. cbn [zn_s zn_q]. rewrite E0. split; [constructor|]. split; [constructor|]. split; [exact Lz|discriminate].
    - destruct (@win_empty _ mem Wq sf H1 H2) as (q & Eq & Wn); [specialize (HWq eq_refl); lia|]. rewrite Eq. cbn [bind]. destruct (@zlen_new sf (Wq + 1 - m)) as (zq & Ezq & Lzq); [specialize (HWq eq_refl); lia|exact H1|exact H2|]. rewrite Ezq. cbn [bind].
      eexists. split; [reflexivity|]. split; [apply linv_new; auto|]. cbn [zn_s zn_q]. rewrite E0. split; [constructor|]. split; [constructor|]. split; [exact Lz|intros _; exact Lzq].
  Qed.
  Lemma zn_config_ok noise sf : fltb noise fzero = false -> (1 <= sf)%Q -> zn_config noise sf = Ok tt.
  Proof. intros H1 H2. unfold zn_config. rewrite H1, (proj2 (Qle_bool_iff _ _) H2). reflexivity. Qed.
  Lemma zn_batch_ok noise sf m (S : list num) q : fltb noise fzero = false -> 0 < m -> m <= length S -> m <= length (query_or S q) -> (1 <= sf)%Q -> fins S -> fins (query_or S q) ->
    exists g, zn_prepare mem memb noise sf m S q = Ok g /\ @zinvl A m (length S) (length (query_or S q)) (self_of q) S (query_or S q) g.
  Proof.
    intros Hn Hm HW HWq H1 F1 F2. unfold zn_prepare. rewrite zn_config_ok by assumption. cbn [bind].
    destruct (@zn_empty_ok noise 1 m (length S) (length (query_or S q)) (self_of q) Hm HW) as (g & Eg & Ig); [auto|discriminate|discriminate|].
    replace (option_map (@length num) q) with (if self_of q then None else Some (length (query_or S q))) by (destruct q; reflexivity). rewrite Eg. cbn [bind].
    destruct (@zn_s_ok A NA mem m (length S) (length (query_or S q)) (self_of q) Hm (fun _ => HWq) [] [] g S Ig F1) as (g1 & E1 & I1). rewrite E1. cbn [bind]. cbn [app] in I1. rewrite lastn_len in I1. destruct q as [q|]; cbn [self_of query_or] in *.
    - destruct (@zn_q_ok A NA mem m (length S) (length q) false Hm (fun _ => HWq) S [] g1 q eq_refl I1 F2) as (g2 & E2 & I2). cbn [app] in I2. rewrite lastn_len in I2. eauto.
    - eauto.
  Qed.
End Starts.
