(** * PStaleRun: arbitrary histories of calls of the generators *)
From Coq Require Import QArith Reals Lra Bool Sorted.
From Verif Require Import Np NpFacts MRing PRing MUtil MArith MStats MCache MEuclid MZnorm SReal SCalc SGen SStale.
From Verif Require Import PArith PStats PCache PGenRun PDiagonal PZdist PEuclid PZnorm PStale.
Set Implicit Arguments.
Open Scope nat_scope.

Section Kept.
  Context {X : Type}.
  Variables (self : bool) (W : nat).
  Lemma kept_from_app n k (H1 H2 : list (gcall X)) :
    kept_from self W n k (H1 ++ H2) = kept_from self W (n + length (s_points H1)) (kept_from self W n k H1) H2.
  Proof.
    revert n k. induction H1 as [|o H1 IH]; intros n k; cbn [app kept_from].
    - f_equal. simpl. lia.
    - rewrite IH. f_equal. unfold s_points. cbn [flat_map]. rewrite app_length. destruct o; cbn [grow length]; lia.
  Qed.
  Lemma kept_snoc (H : list (gcall X)) o : kept_after self W (H ++ [o]) = kept_step self W (length (s_points H)) (kept_after self W H) o.
  Proof. unfold kept_after. rewrite kept_from_app. reflexivity. Qed.

  (** Trusted histories are never stale *)
  Lemma trusted_kept (H : list (gcall X)) : trusted self W H ->
    match kept_after self W H with
    | Nothing => True
    | Kept l p => exists q, p = Some q /\ (l <= q)%Z /\ (gh_exact (ghost_of self W H) = true -> l = q) /\
        (q <= gh_last (ghost_of self W H) - Z.of_nat (length (s_points H) - W))%Z /\ existsb asks_col H = true
    end.
  Proof.
    induction H as [|o H IH] using rev_ind; intro T; [exact I|].
    specialize (IH (trusted_prefix _ _ T)). rewrite kept_snoc, ghost_snoc, s_points_snoc, app_length, existsb_app.
    set (n := length (s_points H)) in *.
    destruct o as [xs|xs|c|d].
    - destruct xs as [|x xs].
      + cbn [kept_step ghost_step gh_exact gh_last length]. destruct (kept_after self W H) as [|l p]; [exact I|].
        destruct IH as (q & I1 & I2 & I3 & I4 & I5). exists q. rewrite I5. repeat (split; [assumption|]).
        split; [|split; [|reflexivity]].
        * intro Hx. apply andb_true_iff in Hx. apply I3. apply Hx.
        * replace (n + 0 - W) with (n - W) by lia. exact I4.
      + cbn [kept_step]. destruct self eqn:Es; [exact I|]. destruct (kept_after false W H) as [|l p]; [exact I|].
        destruct IH as (q & I1 & I2 & I3 & I4 & I5). rewrite I1. cbn [option_map]. eexists. split; [reflexivity|].
        cbn [ghost_step gh_exact gh_last]. rewrite ghost_used, ghost_n, I5. cbn [negb orb].
        split; [cbn [length] in *; lia|]. split; [|split; [|reflexivity]].
        * intro Hx. apply andb_true_iff in Hx as [Hx1 Hx2]. specialize (I3 Hx1). unfold counted_n in Hx2. fold n in Hx2.
          apply orb_true_iff in Hx2. rewrite Nat.eqb_eq, Nat.leb_le in Hx2. cbn [length] in *. lia.
        * cbn [length] in *. lia.
    - assert (D : kept_step self W n (kept_after self W H) (CQuery xs) = Nothing \/ kept_step self W n (kept_after self W H) (CQuery xs) = kept_after self W H).
      { destruct xs; cbn [kept_step]; auto. }
      destruct D as [->| ->]; [exact I|]. cbn [ghost_step length]. rewrite Nat.add_0_r. destruct (kept_after self W H); [exact I|].
      destruct IH as (q & I1 & I2 & I3 & I4 & I5). exists q. rewrite I5. auto.
    - cbn [kept_step]. destruct (staleb (kept_after self W H) c) eqn:Es.
      + exfalso. apply staleb_spec in Es as (Hc & p & Ek & Np). rewrite Ek in IH. destruct IH as (q & -> & I2 & I3 & I4 & _).
        destruct (trusted_ghost _ _ T) as [A|A].
        * apply Np. f_equal. specialize (I3 A). lia.
        * rewrite ghost_n in A. fold n in A. apply Np. f_equal. lia.
      + eexists. split; [reflexivity|]. split; [lia|]. split; [reflexivity|]. cbn [ghost_step gh_last length existsb asks_col]. rewrite ghost_n. fold n.
        split; [lia|]. apply orb_true_r.
    - cbn [kept_step ghost_step length]. rewrite Nat.add_0_r. destruct (kept_after self W H); [exact I|].
      destruct IH as (q & I1 & I2 & I3 & I4 & I5). exists q. rewrite I5. auto.
  Qed.
  Lemma trusted_fresh (H : list (gcall X)) c : trusted self W (H ++ [CCol c]) -> ~ stale (kept_after self W H) c.
  Proof.
    intros T (Hc & p & Ek & Np). pose proof (trusted_kept (trusted_prefix _ _ T)) as IH. rewrite Ek in IH. destruct IH as (q & -> & I2 & I3 & I4 & _).
    destruct (trusted_ghost _ _ T) as [A|A].
    - apply Np. f_equal. specialize (I3 A). lia.
    - rewrite ghost_n in A. apply Np. f_equal. lia.
  Qed.
End Kept.

Section Runs.
  Variable G : Type.
  Variable g_col : G -> nat -> res (G * list (num R)).
  Variable g_diag : G -> Z -> res (G * list (num R)).
  Variable g_s g_q : G -> list (num R) -> res G.
  Variables (self : bool) (m W Wq : nat).
  Variable good : list R -> list R -> Prop.
  Variable Inv : kept -> list R -> list R -> G -> Prop.
  Hypothesis Inv_s : forall k S Q g n xs, Inv k S Q g -> length S = Nat.min W n -> exists g', g_s g (fin xs) = Ok g' /\
    Inv (kept_step self W n k (CSeries xs)) (lastn W (S ++ xs)) (if self then lastn W (S ++ xs) else Q) g'.
  Hypothesis Inv_q : self = false -> forall k S Q g n xs, Inv k S Q g -> exists g', g_q g (fin xs) = Ok g' /\
    Inv (kept_step self W n k (CQuery xs)) S (lastn Wq (Q ++ xs)) g'.
  Hypothesis Inv_c : forall k S Q g n c, Inv k S Q g -> has_col m S Q c -> good S Q ->
    exists g' v, g_col g c = Ok (g', v) /\ Inv (kept_step self W n k (@CCol R c)) S Q g'.
  Hypothesis Inv_d : forall k S Q g d, Inv k S Q g -> has_diag m S Q d -> exists v, g_diag g d = Ok (g, v).

  Lemma runs_any g0 H : Inv Nothing [] [] g0 -> in_range self m W Wq H ->
    (forall H1 c H2, H = H1 ++ CCol c :: H2 -> good (wS W H1) (wQ self W Wq H1)) ->
    exists g, grun g_col g_diag g_s g_q g0 (map finc H) = Ok g /\ Inv (kept_after self W H) (wS W H) (wQ self W Wq H) g.
  Proof.
    intros I0. induction H as [|o H IH] using rev_ind; intros Hr Hg.
    - exists g0. split; [reflexivity|]. replace (wQ self W Wq []) with (@nil R); [exact I0|]. unfold wQ, wS. case self; reflexivity.
    - destruct IH as (g & Eg & Ig).
      { intros H1 o' H2 E. apply (Hr H1 o' (H2 ++ [o])). rewrite E, <- app_assoc. reflexivity. }
      { intros H1 c H2 ->. apply (Hg H1 c (H2 ++ [o])). rewrite <- app_assoc. reflexivity. }
      rewrite map_app. unfold grun in *. rewrite foldM_app, Eg. cbn [bind map foldM].
      specialize (Hr H o [] eq_refl). rewrite kept_snoc. unfold wQ, wS in *. rewrite s_points_snoc, q_points_snoc.
      destruct o; cbn [finc gstep] in *; rewrite ?app_nil_r.
      + destruct (Inv_s (length (s_points H)) xs Ig) as (g' & E & I'); [apply length_lastn|]. rewrite E. exists g'. split; [reflexivity|].
        rewrite lastn_app in I'. revert I'. case self; auto.
      + rewrite Hr in *. destruct (Inv_q eq_refl (length (s_points H)) xs Ig) as (g' & E & I'). rewrite E. exists g'. split; [reflexivity|].
        rewrite lastn_app in I'. exact I'.
      + destruct (Inv_c (length (s_points H)) Ig Hr (Hg H c [] eq_refl)) as (g' & v & E & I'). rewrite E. cbn [bind fst]. exists g'. auto.
      + destruct (Inv_d Ig Hr) as (v & E). rewrite E. cbn [bind fst]. exists g. auto.
  Qed.
End Runs.

(** ** The Euclidean generator *)
Section Eu.
  Variables (mem : nat -> num R) (m W Wq : nat) (self : bool).
  Hypothesis Hm : 0 < m.
  Variables (E : R -> Prop) (okp : list R -> list R -> Prop).
  Hypothesis okE : forall x y, okp x y -> E (sqd x y - clip (sqd x y))%R.
  Hypothesis okp_sym : forall x y, okp x y -> okp y x.
  Notation kinv := (kinv sqdiff E m W Wq self).

  Lemma EK_s k S Q g n xs : kinv k S Q g -> length S = Nat.min W n -> exists g', eu_append_series g (fin xs) = Ok g' /\
    kinv (kept_step self W n k (CSeries xs)) (lastn W (S ++ xs)) (if self then lastn W (S ++ xs) else Q) g'.
  Proof.
    clear okE okp_sym okp. intros I Hn. unfold eu_append_series. rewrite map_length. destruct (Nat.eqb_spec (length xs) 0) as [L|L].
    - exists g. split; [reflexivity|]. destruct xs; [|discriminate]. cbn [kept_step]. rewrite app_nil_r, lastn_all by lia.
      pose proof (ci_q (proj1 I)) as Q0. revert I Q0. case self; intros; subst; auto.
    - apply kinv_s; auto. lia.
  Qed.
  Lemma EK_q : self = false -> forall k S Q g n xs, kinv k S Q g -> exists g', eu_append_query g (fin xs) = Ok g' /\
    kinv (kept_step self W n k (CQuery xs)) S (lastn Wq (Q ++ xs)) g'.
  Proof.
    clear okE okp_sym okp. intros Hs k S Q g n xs I. unfold eu_append_query. pose proof (ci_self (proj1 I)) as Es. cbn [forget ch_self] in Es. replace (ch_self g) with false by congruence.
    rewrite map_length. destruct (Nat.eqb_spec (length xs) 0) as [L|L].
    - exists g. split; [reflexivity|]. destruct xs; [|discriminate]. cbn [kept_step]. pose proof (proj1 I) as I1. rewrite Hs in I1.
      pose proof (win_len (ci_q I1)) as LW. rewrite map_length in LW. rewrite app_nil_r, lastn_all by lia. exact I.
    - destruct xs as [|x xs]; [contradiction L; reflexivity|]. cbn [kept_step]. apply (@kinv_q sqdiff E m Hm W Wq self k S Q g (x :: xs) Hs); [cbn [length]; lia|exact I].
  Qed.
  Lemma EK_col k S Q g n c : kinv k S Q g -> has_col m S Q c -> okall okp m S Q ->
    exists g' vs, eu_calc_column mem g c = Ok (g', map root vs) /\ col_spec sqdiff E m k S Q c vs /\ kinv (kept_step self W n k (@CCol R c)) S Q g'.
  Proof.
    intros I [Hc HQ] Hok. unfold eu_calc_column.
    destruct (@kinv_col euclidean_distance_squared sq_diff mem sqdiff E okp m Hm sqdiff_sym okp_sym sq_diff_fin (full_E mem Hm E okp okE)
      W Wq self k S Q g c n I Hc HQ Hok) as (g' & vs & Eq & N & I').
    rewrite Eq. cbn [bind fst snd]. exists g', vs. split; [|auto]. rewrite map_map. reflexivity.
  Qed.
  Lemma EK_c k S Q g n c : kinv k S Q g -> has_col m S Q c -> okall okp m S Q ->
    exists g' v, eu_calc_column mem g c = Ok (g', v) /\ kinv (kept_step self W n k (@CCol R c)) S Q g'.
  Proof. intros I Hc Hok. destruct (EK_col n I Hc Hok) as (g' & vs & H1 & _ & H2). eauto. Qed.
  Lemma EK_diag k S Q g d : kinv k S Q g -> has_diag m S Q d -> eu_calc_diagonal g d = Ok (g, diag_dist euclid m S Q d).
  Proof.
    clear okE okp_sym okp. intros [I _] Hd. pose proof (@EInv_diag mem m W Wq self Hm E _ _ _ _ _ _ _ I Hd) as X. unfold eu_calc_diagonal in *.
    cbn [forget ch_m ch_series] in X. change (ch_query (forget g)) with (ch_query g) in X.
    repeat match type of X with bind ?x _ = _ => destruct x; cbn [bind] in *; [|discriminate] end. injection X as <-. reflexivity.
  Qed.
  Lemma EK_d k S Q g d : kinv k S Q g -> has_diag m S Q d -> exists v, eu_calc_diagonal g d = Ok (g, v).
  Proof. intros I Hd. eexists. eapply EK_diag; eassumption. Qed.

  Lemma eu_any sf H : (1 <= sf)%Q -> (sf <= 2)%Q -> m <= W -> (self = false -> 0 < Wq) -> in_range self m W Wq H ->
    (forall H1 c H2, H = H1 ++ CCol c :: H2 -> okall okp m (wS W H1) (wQ self W Wq H1)) ->
    exists g0 g, eu_prepare_streaming mem sf m W (if self then None else Some Wq) = Ok g0 /\ eu_run mem g0 (map finc H) = Ok g /\
      kinv (kept_after self W H) (wS W H) (wQ self W Wq H) g.
  Proof.
    intros H1 H2 H3 H4 Hr Hg. destruct (@eu_streaming_state mem m W Wq self Hm E sf H1 H2 H3 H4) as (g0 & E0' & I0).
    assert (I1 : kinv Nothing [] [] g0).
    { apply kinv_new. unfold state_after in I0. cbn [ghost_of fold_left gh_exact gh_used gh_n gh_last] in I0.
      replace (-1 - Z.of_nat (0 - W))%Z with (-1)%Z in I0 by lia.
      replace (wQ self W Wq []) with (@nil R) in I0; [exact I0|]. unfold wQ, wS. case self; reflexivity. }
    destruct (@runs_any _ (eu_calc_column mem) (@eu_calc_diagonal R NumR) eu_append_series eu_append_query self m W Wq (okall okp m) kinv EK_s EK_q EK_c EK_d g0 H I1 Hr Hg)
      as (g & Eg & Ig). exists g0, g. auto.
  Qed.
End Eu.

(** ** The z-normalised generator *)
Lemma formula_off x y d : length x = length y -> (0 < length x)%nat -> (0 < std x)%R -> (0 < std y)%R ->
  formula (Fin (INR (length x))) (Fin (dotp x y + d)%R) (Fin (mean x)) (Fin (mean y)) (Fin (std x)) (Fin (std y)) = Fin (sqd (znorm x) (znorm y) - 2 * d / (std x * std y))%R.
Proof.
  intros L H Px Py. unfold formula. cbn [fmul fsub nmul nsub NumR]. rewrite fdiv_fin by (apply Rmult_lt_0_compat; assumption).
  cbn [fmul fsub nmul nsub nofZ fofZ NumR]. f_equal. rewrite <- sqd_znorm by assumption. cbn [nofZ NumR]. field. lra.
Qed.
Lemma col_cell_off noise x y d : length x = length y -> (0 < length x)%nat ->
  col_cell (Fin (INR (length x))) (Fin noise) (stat_of y) (Fin (dotp x y + d)%R) (stat_of x) = Fin (zdist_off noise d x y).
Proof.
  intros L H. unfold col_cell, stat_of, zdist_off, zsq. fold eps12. rewrite noise_zero.
  destruct (uneven x) eqn:Ux; destruct (uneven y) eqn:Uy; cbn [xorb andb orb]; unfold fzero; cbn [nzero NumR];
    try apply uneven_std in Ux; try apply uneven_std in Uy;
    rewrite ?formula_off by assumption;
    destruct (Req_EM_T noise 0) as [->|Hn]; cbn [negb];
    rewrite ?correction_fin by (auto using Rmax_pos_l, Rmax_pos_r); cbn [fsub nsub NumR]; rewrite ?no_noise, ?Rminus_0_r;
    match goal with |- context [fltb (Fin ?v) EPS] => match goal with |- _ = Fin (if Rltb ?w _ then _ else _) => replace w with v by lra end end; apply root_clip.
Qed.

Section Zn.
  Variables (mem : nat -> num R) (memb : nat -> bool) (noise : R).
  Variables (m W Wq : nat) (self : bool).
  Hypothesis Hm : 0 < m.
  Hypothesis HWq : self = false -> m <= Wq.
  Definition forgetz (g : @zn R) : @zn R := mkZn (forget (zn_c g)) (zn_noise g) (zn_s g) (zn_q g).
  Notation kinv := (kinv Rmult EZ m W Wq self).
  Definition zinv (k : kept) (S Q : list R) (g : @zn R) : Prop :=
    ZInv noise m W Wq self true true S Q (-1) (forgetz g) /\ keeps Rmult EZ m k S Q (zn_c g).

  Lemma zinv_kinv k S Q g : zinv k S Q g -> kinv k S Q (zn_c g).
  Proof. intros [I K]. split; [exact (zi_c I)|exact K]. Qed.

  Lemma ZK_s k S Q g n xs : zinv k S Q g -> length S = Nat.min W n -> exists g', zn_append_series g (fin xs) = Ok g' /\
    zinv (kept_step self W n k (CSeries xs)) (lastn W (S ++ xs)) (if self then lastn W (S ++ xs) else Q) g'.
  Proof.
    intros I Hn. unfold zn_append_series. rewrite map_length. destruct (Nat.eqb_spec (length xs) 0) as [L|L].
    - exists g. split; [reflexivity|]. destruct xs; [|discriminate]. cbn [kept_step]. rewrite app_nil_r, lastn_all by lia.
      pose proof (ci_q (zi_c (proj1 I))) as Q0. revert I Q0. clear HWq. unfold zinv. case self; intros; subst; auto.
    - destruct (@ZInv_s mem memb noise m W Wq self Hm HWq true true S Q (-1)%Z (forgetz g) xs (proj1 I)) as (z & Ez & Iz).
      destruct (@kinv_s Rmult EZ m Hm W Wq self k S Q (zn_c g) n xs ltac:(lia) (zinv_kinv I) Hn) as (c & Ec & Ic). rewrite Ec. cbn [bind].
      unfold zn_append_series in Ez. rewrite map_length in Ez. destruct (Nat.eqb_spec (length xs) 0) as [L'|_]; [contradiction|].
      cbn [forgetz zn_c zn_noise zn_s zn_q] in Ez. rewrite append_s_forget, Ec in Ez. cbn [bind forget ch_m ch_series] in Ez.
      destruct (zstats_append _ _ _ _) as [zs|]; cbn [bind] in Ez |- *; [|discriminate]. injection Ez as <-.
      eexists. split; [reflexivity|]. split; [|exact (proj2 Ic)].
      constructor; cbn [forgetz zn_c zn_noise zn_s zn_q].
      + exact (proj1 Ic).
      + exact (zi_noise Iz).
      + exact (zi_s Iz).
      + intro Es. exact (zi_q Iz Es).
  Qed.
  Lemma ZK_q : self = false -> forall k S Q g n xs, zinv k S Q g -> exists g', zn_append_query g (fin xs) = Ok g' /\
    zinv (kept_step self W n k (CQuery xs)) S (lastn Wq (Q ++ xs)) g'.
  Proof.
    intros Hs k S Q g n xs I. unfold zn_append_query. pose proof (ci_self (zi_c (proj1 I))) as Es. cbn [forgetz zn_c forget ch_self] in Es. replace (ch_self (zn_c g)) with false by congruence.
    rewrite map_length. destruct (Nat.eqb_spec (length xs) 0) as [L|L].
    - exists g. split; [reflexivity|]. destruct xs; [|discriminate]. cbn [kept_step]. pose proof (zi_c (proj1 I)) as I1. rewrite Hs in I1.
      pose proof (win_len (ci_q I1)) as LW. rewrite map_length in LW. rewrite app_nil_r, lastn_all by lia. exact I.
    - destruct (@ZInv_q mem memb noise m W Wq self Hm HWq Hs true true S Q (-1)%Z (forgetz g) xs (proj1 I)) as (z & Ez & Iz).
      destruct (@kinv_q Rmult EZ m Hm W Wq self k S Q (zn_c g) xs Hs ltac:(lia) (zinv_kinv I)) as (c & Ec & Ic). rewrite Ec. cbn [bind].
      unfold zn_append_query in Ez. cbn [forgetz zn_c zn_noise zn_s zn_q] in Ez. change (ch_self (forget (zn_c g))) with (ch_self (zn_c g)) in Ez.
      rewrite Es, Hs, map_length in Ez. destruct (Nat.eqb_spec (length xs) 0) as [L'|_]; [contradiction|].
      rewrite append_q_forget, Ec in Ez. cbn [bind forget ch_m ch_qbuf] in Ez.
      destruct (zstats_append _ _ _ _) as [zs|]; cbn [bind] in Ez |- *; [|discriminate]. injection Ez as <-.
      eexists. split; [reflexivity|]. destruct xs as [|x xs]; [contradiction L; reflexivity|]. cbn [kept_step]. split; [|exact (proj2 Ic)].
      constructor; cbn [forgetz zn_c zn_noise zn_s zn_q].
      + exact (proj1 Ic).
      + exact (zi_noise Iz).
      + exact (zi_s Iz).
      + intro Es'. exact (zi_q Iz Es').
  Qed.

  (** The entries of a column whose dot products are [vs] *)
  Definition zcol (S Q : list R) (c : nat) (vs : list R) : list (num R) :=
    map (fun r => Fin (zdist_off noise (nth r vs 0 - dotp (sub m Q r) (sub m S c)) (sub m Q r) (sub m S c))%R) (seq 0 (length Q + 1 - m)).
  Lemma ZK_col k S Q g n c : zinv k S Q g -> has_col m S Q c ->
    exists g' vs, zn_calc_column mem g c = Ok (g', zcol S Q c vs) /\ col_spec Rmult EZ m k S Q c vs /\ zinv (kept_step self W n k (@CCol R c)) S Q g'.
  Proof.
    intros I [Hc HQ]. pose proof I as [J K]. pose proof J as [I1 I2 I3 I4]. unfold zn_calc_column.
    pose proof (ci_query I1) as VQ. change (ch_query (zn_c (forgetz g))) with (ch_query (zn_c g)) in VQ.
    pose proof (ci_m I1) as VM. change (ch_m (zn_c (forgetz g))) with (ch_m (zn_c g)) in VM. rewrite VQ, VM, map_length.
    destruct (Nat.ltb_spec (length Q + 1) m); [lia|].
    destruct (@kinv_col dot_products fmul mem Rmult EZ okz m Hm Rmult_sym (fun _ _ H => H) fmul_fin (fun l y H1 H2 H3 => @dots_full m l y Hm H1 H2 H3)
        W Wq self k S Q (zn_c g) c n (zinv_kinv I) Hc HQ (fun _ _ _ _ => Logic.I)) as (c' & vs & Eq & CS & I').
    rewrite Eq. cbn [bind fst snd].
    destruct (zi_series J) as (V1 & V2 & V3). destruct (zi_query J) as (V4 & V5 & V6).
    change (zn_s (forgetz g)) with (zn_s g) in *. change (zn_qstats (forgetz g)) with (zn_qstats g) in *. rewrite V1, V2, V3, V4, V5, V6.
    rewrite (getitem_fin _ _ _ (getitem_windowed mem memb Hm mean S c Hc)), (getitem_fin _ _ _ (getitem_windowed mem memb Hm std S c Hc)), (getitem_windowed mem memb Hm uneven S c Hc). cbn [bind].
    rewrite stats_all. cbn [bind]. destruct CS as [Lv CS]. rewrite map_length, Lv, Nat.eqb_refl. cbn [forgetz zn_noise] in I2. rewrite I2, fofZ_m.
    eexists. exists vs. split; [apply f_equal; apply f_equal2; [reflexivity|]|].
    - change (Fin (mean (sub m S c)), Fin (std (sub m S c)), uneven (sub m S c)) with (stat_of (sub m S c)).
      unfold zcol. apply nth_error_ext. intro i. rewrite nth_error_zip_with, !nth_error_map, nth_error_windowed, nth_error_seq.
      destruct (Nat.ltb_spec i (length Q + 1 - m)) as [Hi|Hi].
      + rewrite (nth_error_nth' vs 0%R) by lia. cbn [option_map Nat.add]. f_equal.
        assert (L1 : length (sub m Q i) = m) by (rewrite length_sub; lia). assert (L2 : length (sub m S c) = m) by (rewrite length_sub; lia).
        rewrite <- (@col_cell_off noise (sub m Q i) (sub m S c)) by lia. rewrite L1. f_equal. f_equal. lra.
      + destruct (nth_error vs i); reflexivity.
    - split; [split; [exact Lv|exact CS]|]. destruct I' as [I'1 I'2]. split; [|exact I'2].
      constructor; cbn [forgetz zn_c zn_noise zn_s zn_q]; auto.
  Qed.
  Lemma ZK_c k S Q g n c : zinv k S Q g -> has_col m S Q c -> True ->
    exists g' v, zn_calc_column mem g c = Ok (g', v) /\ zinv (kept_step self W n k (@CCol R c)) S Q g'.
  Proof. intros I Hc _. destruct (ZK_col n I Hc) as (g' & vs & H1 & _ & H2). eauto. Qed.
  Lemma ZK_diag k S Q g d : zinv k S Q g -> has_diag m S Q d -> zn_calc_diagonal g d = Ok (g, diag_dist (zdist noise) m S Q d).
  Proof.
    intros [I _] Hd. pose proof (@ZInv_diag mem memb noise m W Wq self Hm HWq _ _ _ _ _ _ _ I Hd) as X. unfold zn_calc_diagonal in *.
    change (ch_query (zn_c (forgetz g))) with (ch_query (zn_c g)) in X. change (ch_series (zn_c (forgetz g))) with (ch_series (zn_c g)) in X.
    change (ch_m (zn_c (forgetz g))) with (ch_m (zn_c g)) in X. change (zn_s (forgetz g)) with (zn_s g) in X. change (zn_qstats (forgetz g)) with (zn_qstats g) in X.
    change (zn_noise (forgetz g)) with (zn_noise g) in X. cbv zeta in X |- *.
    match type of X with (if ?b then _ else _) = _ => destruct b; [discriminate|] end.
    repeat match type of X with bind ?x _ = _ => destruct x; cbn [bind] in *; [|discriminate] end.
    match type of X with (if ?b then _ else _) = _ => destruct b; [|discriminate] end. injection X as X. rewrite X. reflexivity.
  Qed.
  Lemma ZK_d k S Q g d : zinv k S Q g -> has_diag m S Q d -> exists v, zn_calc_diagonal g d = Ok (g, v).
  Proof. intros I Hd. eexists. eapply ZK_diag; eassumption. Qed.
  Lemma ZK_single k S Q g r c dp : zinv k S Q g -> r + m <= length Q -> c + m <= length S -> (dp = None \/ dp = Some (Fin (dotp (sub m Q r) (sub m S c)))) ->
    zn_calc_single g r c dp = Ok (Fin (zdist noise (sub m Q r) (sub m S c))).
  Proof. intros [I _] Hr Hc Hd. exact (@ZInv_single mem memb noise m W Wq self Hm HWq _ _ _ _ _ _ _ _ dp I Hr Hc Hd). Qed.

  Lemma zn_any sf H : (0 <= noise)%R -> (1 <= sf)%Q -> (sf <= 2)%Q -> m <= W -> in_range self m W Wq H ->
    exists g0 g, zn_prepare_streaming mem memb (Fin noise) sf m W (if self then None else Some Wq) = Ok g0 /\ zn_run mem g0 (map finc H) = Ok g /\
      zinv (kept_after self W H) (wS W H) (wQ self W Wq H) g.
  Proof.
    intros Hn H1 H2 H3 Hr. destruct (@zn_streaming_state mem memb noise m W Wq self Hm HWq sf Hn H1 H2 H3) as (g0 & E0' & I0).
    assert (I1 : zinv Nothing [] [] g0).
    { unfold state_after in I0. cbn [ghost_of fold_left gh_exact gh_used gh_n gh_last] in I0.
      replace (-1 - Z.of_nat (0 - W))%Z with (-1)%Z in I0 by lia.
      replace (wQ self W Wq []) with (@nil R) in I0 by (unfold wQ, wS; case self; reflexivity). destruct I0 as [J1 J2 J3 J4]. split.
      - constructor; cbn [forgetz zn_c zn_noise zn_s zn_q]; auto. eapply cinv_forget. exact J1.
      - exact (ci_used J1 eq_refl). }
    destruct (@runs_any _ (zn_calc_column mem) (@zn_calc_diagonal R NumR) zn_append_series zn_append_query self m W Wq (fun _ _ => True) zinv ZK_s ZK_q ZK_c ZK_d g0 H I1 Hr (fun _ _ _ _ => Logic.I))
      as (g & Eg & Ig). exists g0, g. auto.
  Qed.
End Zn.
