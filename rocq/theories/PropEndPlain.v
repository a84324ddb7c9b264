(** * PropEndPlain: consumers without shift methods in complete streaming programs *)
From Coq Require Import QArith Reals Lra Sorted Permutation.
From Verif Require Import Np NpFacts Inst Mat SLog MProfile MCounters SCounters SInsights SCols PCounters PEndCols MEuclid MCalc SReal SCalc SStream PStream SMulti SMixed SGen SFilter SEnd SEndStream PArith PCalcEnd PEndStream SEndAll SEndCons PEndCons PEndProg SEndStreamAll PEndStreamAll PEndPlain
  PropMulti PropEnd PropEndStream PropEndStreamAll.
Set Implicit Arguments.
Open Scope nat_scope.

(** The class has no shift_series and no shift_query *)
Definition shiftless {C E} (c_step : C -> event E -> res C) : Prop := forall s n x, c_step s (EShiftS n) <> Ok x /\ c_step s (EShiftQ n) <> Ok x.
(** Points left the window of the series, or of the query *)
Definition dropped (W : nat) (qw : option nat) {X} (p : progress X) : Prop := 0 < lost W (p_s p) \/ (exists Wq, qw = Some Wq /\ 0 < lost Wq (p_q p)).

(** ** C92. As soon as points leave a window, the program raises if it has a consumer of a class without shift methods.  *)
Lemma shiftless_shifts C E (c_step : C -> event E -> res C) es s x : shiftless c_step -> foldM c_step es s = Ok x -> sshift es = 0%Z /\ qshift es = 0%Z.
Proof.
  intro HN. revert s. induction es as [|e es IH]; intros s Ef; [auto|]. cbn [foldM bind] in Ef. destruct (c_step s e) as [s'|] eqn:Es; [|discriminate]. destruct (IH s' Ef) as [I1 I2].
  destruct e as [d vs|c vs|n|n]; cbn [sshift qshift event_sshift event_qshift]; rewrite ?I1, ?I2; auto; destruct (HN s n s'); contradiction.
Qed.
Theorem C92_raises : forall e k u m W qw ndim buffer dims, sur_ok e -> stream_posed k u m W qw ndim buffer dims ->
  forall C (c_step : C -> event (num R) -> res C) consumers ops p evs, (forall ids init id, In (ids, init) consumers -> In id ids -> id < length dims) ->
  stream_history k u m W qw ndim buffer dims ops p evs -> shiftless c_step -> consumers <> [] -> dropped W qw p ->
  forall cns, ksprogram e k c_step (Z.of_nat m) (Z.of_nat W) (option_map Z.of_nat qw) ndim buffer (map Z.of_nat dims) consumers ops <> Ok cns.
Proof.
  intros e k u m W qw ndim buffer dims HS HP C c_step consumers ops p evs Hids Hh HN Hne Hd cns Ec. apply (@C86_consumers e k u m W qw ndim buffer dims HS HP C c_step consumers ops p evs Hids Hh) in Ec.
  destruct consumers as [|ci consumers]; [congruence|]. inversion Ec as [|? c ? cs (c0 & _ & Ef)]; subst. destruct (shiftless_shifts _ _ HN Ef) as [S1 S2]. destruct (history_shifts (fst ci) Hh) as [Sh Qh]. rewrite S1 in Sh. rewrite S2 in Qh.
  destruct Hd as [Hd|(Wq & -> & Hd)]; [lia|]. cbn [is_self] in Qh. lia.
Qed.
Print Assumptions C92_raises.
(** These are the classes without shift methods, with one channel (MatrixProfileLRReservoir is modelled separately). *)
Theorem C92_classes : shiftless (@mplr_step R NumR) /\ shiftless (@tc_step R NumR) /\ (forall argsort, shiftless (@dtc_step R NumR argsort)) /\ shiftless (@rp0_step R NumR) /\ shiftless (@rp_step R NumR) /\
  ~ shiftless (@smp_step R NumR) /\ ~ shiftless (@MDist.dm_step R).
Proof.
  do 5 (split; [repeat split; discriminate|]). split; intro H.
  - destruct (@smp_init R (fun _ => NaN) (fun _ => 0%Z) 1 1 1) as [s|] eqn:E0; [|vm_compute in E0; discriminate]. destruct (smp_step s (EShiftS 0)) as [s'|] eqn:E1; [exact (proj1 (H s 0 s') E1)|]. vm_compute in E0. injection E0 as <-. vm_compute in E1. discriminate.
  - exact (proj1 (H [] 0 []) eq_refl).
Qed.
Print Assumptions C92_classes.

(** ** C93. As long as no points left the windows, such consumers hold the same as when all of the points are known beforehand, for the
    rows that were present when a column was calculated. *)
Lemma not_dropped W (qw : option nat) X (p : progress X) : ~ dropped W qw p -> lost W (p_s p) = 0 /\ (is_self qw = false -> lost (match qw with Some q => q | None => W end) (p_q p) = 0).
Proof.
  intro H. split; [destruct (lost W (p_s p)) eqn:E; [reflexivity|]; exfalso; apply H; left; lia|]. destruct qw as [Wq|]; [|discriminate]. intros _. destruct (lost Wq (p_q p)) eqn:E; [reflexivity|]. exfalso. apply H. right. exists Wq. split; [reflexivity|lia].
Qed.

Theorem C93_profiles : forall e k u m W qw ndim buffer dims, sur_ok e -> stream_posed k u m W qw ndim buffer dims ->
  forall ids ops p evs, (forall id, In id ids -> id < length dims) -> stream_history k u m W qw ndim buffer dims ops p evs -> ~ dropped W qw p ->
  let self := is_self qw in let Wq := match qw with Some q => q | None => W end in let b := buffer_used qw (Z.of_nat m) buffer in let w := W + 1 - m in
  let rows := seen b (calculated self m W Wq 0 0 (p_hist p)) in
  exists cns, ksprogram e k mplr_step (Z.of_nat m) (Z.of_nat W) (option_map Z.of_nat qw) ndim buffer (map Z.of_nat dims)
      (map (fun id => ([id], fun _ q s => Ok (mplr_init (Z.to_nat q) (Z.to_nat s)))) ids) ops = Ok cns /\
    Forall2 (fun id c => let D := stream_entry (dist_or_inf (kdist k)) self m (nth id dims 0) (p_hist p) in
      window_profile D 0 w rows (mplr_mp c, mplr_idx c) /\
      window_profile D 0 w (fun a r => rows a r /\ r <= a) (mp_left c, mp_ileft c) /\
      window_profile D 0 w (fun a r => rows a r /\ a < r) (mp_right c, mp_iright c)) ids cns.
Proof.
  intros e k u m W qw ndim buffer dims HS HP ids ops p evs Hids Hh Hd self Wq b w rows. pose proof HP as (H1 & H2 & H3 & H4 & H5 & H6 & H7). destruct (not_dropped Hd) as [HL HLq].
  apply (@stream_each e k u m W qw ndim buffer dims HS HP _ mplr_step nat (fun id => [id]) _ ids ops p evs); [intros x id Hx [<-|[]]; auto|exact Hh|].
  intros id Hid. destruct (@mplr_of R NumR OrdR (num R) (dist_or_inf (kdist k)) self m W Wq ndim b (fun id => nth id dims 0) (stream_data k u) H5 H3 H4 (@posed_self W qw) (@posed_buffer m qw buffer) (or_inf_real (kdist k)) ops p evs Hh HL HLq id (posed_dim HP (Hids id Hid)))
    as (c & E1 & P1 & P2 & P3).
  eexists _, c. rewrite !Nat2Z.id. split; [reflexivity|]. split; [exact E1|]. split; [exact P1|]. split; [exact P2|exact P3].
Qed.
Print Assumptions C93_profiles.

(** Column-wise consumers *)
Lemma plain_each e k u m W qw ndim buffer dims : sur_ok e -> stream_posed k u m W qw ndim buffer dims ->
  let self := is_self qw in let Wq := match qw with Some q => q | None => W end in let b := buffer_used qw (Z.of_nat m) buffer in let w := W + 1 - m in let h := Wq + 1 - m in
  forall C (c_step : C -> event (num R) -> res C) (init : nat -> Z -> Z -> res C) ids ops p evs (Post : nat -> C -> Prop), let cells := calculated self m W Wq 0 0 (p_hist p) in
  (forall id, In id ids -> id < length dims) -> stream_history k u m W qw ndim buffer dims ops p evs -> ~ dropped W qw p ->
  (forall id cs n, In id ids -> let D := stream_entry (dist_or_inf (kdist k)) self m (nth id dims 0) (p_hist p) in
    NoDup cs -> (forall c, In c cs -> c < w) -> (forall c, 0 < n c) -> (forall c r, was_calculated cells c r <-> In c cs /\ r < n c) -> (forall c lo n', In (c, lo, n') cells -> n' = n c) -> (forall c, In c cs <-> exists lo n', In (c, lo, n') cells) ->
    exists c0 c, init 1 (Z.of_nat h) (Z.of_nat w) = Ok c0 /\ foldM c_step (map (fun c => ECol c [column_of (n c) (masked b D) c]) cs) c0 = Ok c /\ Post id c) ->
  exists cns, ksprogram e k c_step (Z.of_nat m) (Z.of_nat W) (option_map Z.of_nat qw) ndim buffer (map Z.of_nat dims) (map (fun id => ([id], init)) ids) ops = Ok cns /\ Forall2 Post ids cns.
Proof.
  intros HS HP self Wq b w h C c_step init ids ops p evs Post cells Hids Hh Hd HX. pose proof HP as (H1 & H2 & H3 & H4 & H5 & H6 & H7). destruct (not_dropped Hd) as [HL HLq].
  apply (@stream_each e k u m W qw ndim buffer dims HS HP _ c_step nat (fun id => [id]) init ids ops p evs); [intros x id Hx [<-|[]]; auto|exact Hh|].
  intros id Hid. destruct (@plain_once R (num R) (dist_or_inf (kdist k)) self m W Wq ndim b (fun id => nth id dims 0) (stream_data k u) H5 H3 H4 (@posed_self W qw) (@posed_buffer m qw buffer) ops p evs Hh HL HLq id (posed_dim HP (Hids id Hid)))
    as (EV & ND & CW & HP' & WC & HC).
  destruct (HX id _ _ Hid ND CW HP' WC (fun c lo n' Hin => proj2 (HC c lo n' Hin))) as (c0 & c & E0 & E1 & P).
  - intro c. rewrite in_map_iff. split; [intros ([[c' lo] n'] & Ec & Hin); cbn in Ec; subst c'; eauto|intros (lo & n' & Hin); exists (c, lo, n'); auto].
  - exists c0, c. split; [exact E0|]. split; [rewrite EV; exact E1|exact P].
Qed.

(** ThresholdCounter: the number of calculated rows within the threshold *)
Theorem C93_thresholds : forall e k u m W qw ndim buffer dims, sur_ok e -> stream_posed k u m W qw ndim buffer dims ->
  forall thr ids ops p evs, (forall id, In id ids -> id < length dims) -> stream_history k u m W qw ndim buffer dims ops p evs -> ~ dropped W qw p ->
  let self := is_self qw in let Wq := match qw with Some q => q | None => W end in let b := buffer_used qw (Z.of_nat m) buffer in let w := W + 1 - m in
  let cells := calculated self m W Wq 0 0 (p_hist p) in
  exists cns, ksprogram e k tc_step (Z.of_nat m) (Z.of_nat W) (option_map Z.of_nat qw) ndim buffer (map Z.of_nat dims)
      (map (fun id => ([id], fun _ q s => Ok (tc_init thr (Z.to_nat q) (Z.to_nat s)))) ids) ops = Ok cns /\
    Forall2 (fun id s => let D := stream_entry (dist_or_inf (kdist k)) self m (nth id dims 0) (p_hist p) in
      forall i x j, nth_error thr i = Some x -> j < w -> exists c, mget (tc_counts s) i j = Ok c /\ how_many (fun r => was_calculated cells j r /\ fleb (masked b D r j) x = true) c) ids cns.
Proof.
  intros e k u m W qw ndim buffer dims HS HP thr ids ops p evs Hids Hh Hd self Wq b w cells.
  apply (@plain_each e k u m W qw ndim buffer dims HS HP _ tc_step _ ids ops p evs _ Hids Hh Hd).
  intros id cs n Hid D ND CW HN WC HC HI. change (forall c r, was_calculated cells c r <-> In c cs /\ r < n c) in WC. change (forall c lo n', In (c, lo, n') cells -> n' = n c) in HC. change (forall c, In c cs <-> exists lo n', In (c, lo, n') cells) in HI.
  destruct (@tc_columns R NumR (Wq + 1 - m) w thr (fun c => column_of (n c) (masked b D) c) cs CW) as (s & E & _ & _ & G).
  eexists _, s. rewrite !Nat2Z.id. split; [reflexivity|]. split; [exact E|]. cbn zeta. fold D. intros i x j Hi Hj. destruct (G i x j Hi Hj) as (c & Ec & G1 & G2). exists c. split; [exact Ec|].
  destruct (in_dec Nat.eq_dec j cs) as [Hin|Hin].
  - rewrite (G1 Hin). eapply how_many_ext; [|apply count_column]. intro r. cbn beta.  rewrite WC. tauto.
  - rewrite (G2 Hin). exists []. split; [constructor|]. split; [|reflexivity]. intro r.  rewrite WC. cbn [In]. tauto.
Qed.
Print Assumptions C93_thresholds.

(** DistancedThresholdCounter *)
Lemma spaced_rows n (f : nat -> num R) argsort excl x picks : (forall r, r < n -> isnan (f r) = false) -> orders_columns argsort -> scan excl [] (argsort (map f (seq 0 n))) picks ->
  spaced (fun r => r < n /\ fleb (f r) x = true) f excl (filter (le_at (map f (seq 0 n)) x) picks).
Proof.
  intros HF Ha Hsc. set (col := map f (seq 0 n)) in *.
  assert (NTH : forall r v, nth_error col r = Some v <-> r < n /\ v = f r).
  { intros r v. unfold col. rewrite nth_error_map, nth_error_seq. destruct (Nat.ltb_spec r n); cbn [option_map]; split; [intros [= <-]; auto|intros [_ ->]; reflexivity|discriminate|intros [C _]; lia]. }
  assert (NN : no_nan col) by (intros y Hy; apply in_map_iff in Hy; destruct Hy as (r & <- & Hr); apply in_seq in Hr; apply HF; lia).
  destruct (@C42_picks_lemma R NumR OrdR col (argsort col) excl picks x NN (Ha _ NN) Hsc) as (P1 & P2 & P3).
  assert (AP : forall i j', In i (filter (le_at col x) picks) -> In j' (filter (le_at col x) picks) -> i <> j' -> apart excl i j').
  { intros i j' Hi Hj' Hne'. apply In_nth_error in Hi. apply In_nth_error in Hj'. destruct Hi as (pi & Hi). destruct Hj' as (pj & Hj'). apply (P2 pi pj); auto. intros ->. congruence. }
  split; [|split; [|split; [exact AP|]]].
  - apply NoDup_nth_error. intros i j' Hi Eij. destruct (Nat.eq_dec i j') as [|Hne']; [assumption|]. exfalso. destruct (nth_error (filter (le_at col x) picks) i) as [a|] eqn:Ea; [|apply nth_error_None in Ea; lia]. symmetry in Eij. pose proof (P2 i j' a a Ea Eij Hne') as HA. unfold apart in HA. lia.
  - intros r Hr. destruct (P1 r Hr) as (v & Hv & Hl). apply NTH in Hv. destruct Hv as [Hv ->]. auto.
  - intros r [Hr Hl]. destruct (P3 r (f r)) as (r' & v & G1 & G2 & G3 & G4); [apply NTH; auto|exact Hl|]. apply NTH in G2. destruct G2 as [_ ->]. exists r'. auto.
Qed.
Theorem C93_counters : forall e k u m W qw ndim buffer dims, sur_ok e -> stream_posed k u m W qw ndim buffer dims ->
  forall argsort thr excl ids ops p evs, orders_columns argsort -> no_nan thr -> thr <> [] -> (forall id, In id ids -> id < length dims) -> stream_history k u m W qw ndim buffer dims ops p evs -> ~ dropped W qw p ->
  let self := is_self qw in let Wq := match qw with Some q => q | None => W end in let b := buffer_used qw (Z.of_nat m) buffer in let w := W + 1 - m in
  let cells := calculated self m W Wq 0 0 (p_hist p) in
  exists cns, ksprogram e k (dtc_step argsort) (Z.of_nat m) (Z.of_nat W) (option_map Z.of_nat qw) ndim buffer (map Z.of_nat dims)
      (map (fun id => ([id], fun _ q s => Ok (dtc_init thr excl (Z.to_nat q) (Z.to_nat s)))) ids) ops = Ok cns /\
    Forall2 (fun id s => let D := stream_entry (dist_or_inf (kdist k)) self m (nth id dims 0) (p_hist p) in
      Permutation thr (dt_thr s) /\ (forall p q x y, p < q -> nth_error (dt_thr s) p = Some x -> nth_error (dt_thr s) q = Some y -> fleb x y = true) /\
      forall i x j, nth_error (dt_thr s) i = Some x -> j < w -> exists rows, mget (dt_counts s) i j = Ok (length rows) /\
        spaced (fun r => was_calculated cells j r /\ fleb (masked b D r j) x = true) (fun r => masked b D r j) excl rows) ids cns.
Proof.
  intros e k u m W qw ndim buffer dims HS HP argsort thr excl ids ops p evs Ha N0 Hne Hids Hh Hd self Wq b w cells.
  apply (@plain_each e k u m W qw ndim buffer dims HS HP _ (dtc_step argsort) _ ids ops p evs _ Hids Hh Hd).
  intros id cs n Hid D ND CW HN WC HC HI. change (forall c r, was_calculated cells c r <-> In c cs /\ r < n c) in WC. change (forall c lo n', In (c, lo, n') cells -> n' = n c) in HC. change (forall c, In c cs <-> exists lo n', In (c, lo, n') cells) in HI.
  assert (MN : forall r j, isnan (masked b D r j) = false) by (intros r j; unfold masked; destruct (_ <=? _)%Z; [reflexivity|]; unfold D, stream_entry; destruct (or_inf_real (kdist k) (sub m (if self then stream_of (nth id dims 0) (p_hist p) else query_stream (nth id dims 0) (p_hist p)) r) (sub m (stream_of (nth id dims 0) (p_hist p)) j)) as [C _]; destruct (dist_or_inf _ _ _); try reflexivity; congruence).
  assert (NN : forall c, no_nan (column_of (n c) (masked b D) c)) by (intros c x Hx; apply in_map_iff in Hx; destruct Hx as (r & <- & _); apply MN).
  destruct (@counter_columns R NumR OrdR (Wq + 1 - m) w (fun c => column_of (n c) (masked b D) c) argsort thr excl cs N0 Hne) as (s & E & HPm & Hs & G); [intros c Hc; split; [apply NN|apply Ha, NN]|exact CW|].
  eexists _, s. rewrite !Nat2Z.id. split; [reflexivity|]. split; [exact E|]. cbn zeta. fold D. split; [exact HPm|]. split; [exact Hs|]. intros i x j Hi Hj.
  destruct (@scan_exists excl (argsort (column_of (n j) (masked b D) j)) []) as (picks & Hsc). specialize (G i x j picks Hi Hj Hsc).
  destruct (in_dec Nat.eq_dec j cs) as [Hin|Hin].
  - exists (filter (le_at (column_of (n j) (masked b D) j) x) picks). rewrite (NoDup_count_occ' Nat.eq_dec cs) in ND. rewrite (ND j Hin), Nat.mul_1_l in G. split; [exact G|].
    destruct (@spaced_rows (n j) (fun r => masked b D r j) argsort excl x picks (fun r _ => MN r j) Ha Hsc) as (S1 & S2 & S3 & S4). split; [exact S1|]. split; [|split; [exact S3|]].
    + intros r Hr. destruct (S2 r Hr). rewrite WC. auto.
    + intros r [Hr Hx]. apply WC in Hr. apply S4. tauto.
  - exists []. rewrite (proj1 (count_occ_not_In Nat.eq_dec cs j) Hin) in G. split; [exact G|]. split; [constructor|]. split; [intros r []|]. split; [intros r r' []|]. intros r [Hr _]. apply WC in Hr. tauto.
Qed.
Print Assumptions C93_counters.

(** RadiusProfile0: [n] is the number of rows that column [j] had *)
Theorem C93_radius0 : forall e k u m W qw ndim buffer dims, sur_ok e -> stream_posed k u m W qw ndim buffer dims ->
  forall track ids ops p evs, track <> [] -> (forall x, In x track -> (0 <= x)%Z) -> (forall id, In id ids -> id < length dims) -> stream_history k u m W qw ndim buffer dims ops p evs -> ~ dropped W qw p ->
  let self := is_self qw in let Wq := match qw with Some q => q | None => W end in let b := buffer_used qw (Z.of_nat m) buffer in let w := W + 1 - m in
  let cells := calculated self m W Wq 0 0 (p_hist p) in
  exists cns, ksprogram e k rp0_step (Z.of_nat m) (Z.of_nat W) (option_map Z.of_nat qw) ndim buffer (map Z.of_nat dims)
      (map (fun id => ([id], fun _ q s => rp_init track 0 (Z.to_nat q) (Z.to_nat s))) ids) ops = Ok cns /\
    Forall2 (fun id s => let D := stream_entry (dist_or_inf (kdist k)) self m (nth id dims 0) (p_hist p) in
      Permutation (map Z.of_nat (rp_track s)) track /\ StronglySorted le (rp_track s) /\
      forall i x j, nth_error (rp_track s) i = Some x -> j < w -> exists v, mget (rp_values s) i j = Ok v /\
        (forall lo n, In (j, lo, n) cells -> kth_smallest x (column_of n (masked b D) j) v) /\ ((forall lo n, ~ In (j, lo, n) cells) -> v = NaN)) ids cns.
Proof.
  intros e k u m W qw ndim buffer dims HS HP track ids ops p evs T1 T2 Hids Hh Hd self Wq b w cells.
  apply (@plain_each e k u m W qw ndim buffer dims HS HP _ rp0_step _ ids ops p evs _ Hids Hh Hd).
  intros id cs n Hid D ND CW HN WC HC HI. change (forall c r, was_calculated cells c r <-> In c cs /\ r < n c) in WC. change (forall c lo n', In (c, lo, n') cells -> n' = n c) in HC. change (forall c, In c cs <-> exists lo n', In (c, lo, n') cells) in HI.
  destruct (@rp0_columns R NumR OrdR (Wq + 1 - m) w track (fun c => column_of (n c) (masked b D) c) cs T1 T2 CW) as (s0 & s & E0 & E & HPm & HSt & _ & G).
  exists s0, s. rewrite !Nat2Z.id. split; [exact E0|]. split; [exact E|]. cbn zeta. fold D. split; [exact HPm|]. split; [exact HSt|]. intros i x j Hi Hj. destruct (G i x j Hi Hj) as (v & Ev & G1 & G2). exists v. split; [exact Ev|]. split.
  - intros lo n' Hin. rewrite (HC _ _ _ Hin). apply G1, HI. eauto.
  - intro Hno. apply G2. intro C. apply HI in C. destruct C as (lo & n' & C). eapply Hno, C.
Qed.
Print Assumptions C93_radius0.

(** RadiusProfile *)
Theorem C93_radius : forall e k u m W qw ndim buffer dims, sur_ok e -> stream_posed k u m W qw ndim buffer dims ->
  forall track d ids ops p evs, track <> [] -> (forall x, In x track -> (0 <= x)%Z) -> (forall id, In id ids -> id < length dims) -> stream_history k u m W qw ndim buffer dims ops p evs -> ~ dropped W qw p ->
  let self := is_self qw in let Wq := match qw with Some q => q | None => W end in let b := buffer_used qw (Z.of_nat m) buffer in let w := W + 1 - m in
  let cells := calculated self m W Wq 0 0 (p_hist p) in
  exists cns, ksprogram e k rp_step (Z.of_nat m) (Z.of_nat W) (option_map Z.of_nat qw) ndim buffer (map Z.of_nat dims)
      (map (fun id => ([id], fun _ q s => rp_init track (Z.of_nat d) (Z.to_nat q) (Z.to_nat s))) ids) ops = Ok cns /\
    Forall2 (fun id s => let D := stream_entry (dist_or_inf (kdist k)) self m (nth id dims 0) (p_hist p) in
      Permutation (map Z.of_nat (rp_track s)) track /\ StronglySorted le (rp_track s) /\
      forall i x j, nth_error (rp_track s) i = Some x -> j < w -> exists v, mget (rp_values s) i j = Ok v /\
        (forall lo n rows, In (j, lo, n) cells -> greedy nltb (column_of n (masked b D) j) d [] rows -> rises (rp_track s) 0 i ->
          match nth_error rows x with Some r => v = masked b D r j | None => v = NaN end) /\
        ((forall lo n, ~ In (j, lo, n) cells) \/ ~ rises (rp_track s) 0 i -> v = NaN)) ids cns.
Proof.
  intros e k u m W qw ndim buffer dims HS HP track d ids ops p evs T1 T2 Hids Hh Hd self Wq b w cells.
  apply (@plain_each e k u m W qw ndim buffer dims HS HP _ rp_step _ ids ops p evs _ Hids Hh Hd).
  intros id cs n Hid D ND CW HN WC HC HI. change (forall c r, was_calculated cells c r <-> In c cs /\ r < n c) in WC. change (forall c lo n', In (c, lo, n') cells -> n' = n c) in HC. change (forall c, In c cs <-> exists lo n', In (c, lo, n') cells) in HI.
  assert (NE : forall c, column_of (n c) (masked b D) c <> []) by (intros c C; apply (f_equal (@length _)) in C; unfold column_of in C; rewrite map_length, seq_length in C; specialize (HN c); cbn in C; lia).
  destruct (@radius_columns R NumR OrdR (Wq + 1 - m) w (fun c => column_of (n c) (masked b D) c) track d cs (fun c _ => NE c) T1 T2 CW) as (s0 & s & E0 & E & HPm & HSt & _ & G).
  exists s0, s. rewrite !Nat2Z.id. split; [exact E0|]. split; [exact E|]. cbn zeta. fold D. split; [exact HPm|]. split; [exact HSt|]. intros i x j Hi Hj.
  destruct (@PInsights.C09_lemma R NumR OrdR (column_of (n j) (masked b D) j) d _ (NE j) (le_n _)) as (out & _ & Hg). destruct (G j out Hj Hg i x Hi) as (v & Ev & G1 & G2). exists v. split; [exact Ev|]. split.
  - intros lo n' rows Hin Hgr Hr. rewrite (HC _ _ _ Hin) in Hgr. destruct (G j rows Hj Hgr i x Hi) as (v' & Ev' & G1' & _). rewrite Ev in Ev'. injection Ev' as <-. assert (Hc : In j cs) by (apply HI; eauto). specialize (G1' Hc Hr).
    destruct (nth_error rows x) as [r|]; [|exact G1']. unfold column_of in G1'. rewrite nth_error_map, nth_error_seq in G1'. destruct (r <? n j); [|discriminate]. injection G1' as <-. reflexivity.
  - intros [Hno|Hno]; apply G2; [left|right; exact Hno]. intro C. apply HI in C. destruct C as (lo & n' & C). eapply Hno, C.
Qed.
Print Assumptions C93_radius.

(** Integers: |x - y| (subsequences of 2 points), windows of 4 points; 3 points, then one column, then one point, then everything *)
Local Notation zs := (map (@Fin Z)).
Definition stay_Z : list (sop (num Z)) := [OSeries (Pts [zs [0; 3; 0]; zs [4; 0; 3]]); OCols never (RInt 1); OSeries (Pt (zs [9; 0])); OCols never (RFloat (Fin 1%Q))]%Z.
Definition drop_Z : list (sop (num Z)) := stay_Z ++ [OSeries (Pt (zs [1; 1]))]%Z.
Definition plain_Z C (c_step : C -> event (num Z) -> res C) (init : Z -> Z -> res C) ops := sprogram_Z c_step 2 4 None 2 (Some 0%Z) [1; 0]%Z (map (fun id => ([id], fun _ q s => init q s)) [0; 1]) ops.
Example C92_example : plain_Z mplr_step (fun q s => Ok (mplr_init (Z.to_nat q) (Z.to_nat s))) drop_Z = Err AttributeError /\
  plain_Z tc_step (fun q s => Ok (tc_init (zs [4]%Z) (Z.to_nat q) (Z.to_nat s))) drop_Z = Err AttributeError /\
  plain_Z (dtc_step fargsort) (fun q s => Ok (dtc_init (zs [4]%Z) 1 (Z.to_nat q) (Z.to_nat s))) drop_Z = Err AttributeError /\
  plain_Z rp0_step (fun q s => rp_init [0; 1]%Z 0 (Z.to_nat q) (Z.to_nat s)) drop_Z = Err AttributeError /\
  plain_Z rp_step (fun q s => rp_init [0; 1]%Z 1 (Z.to_nat q) (Z.to_nat s)) drop_Z = Err AttributeError.
Proof. vm_compute. repeat split. Qed.
(** Nothing is dropped: column 0 was calculated when there were 2 rows *)
Example C93_example_profiles : bind (plain_Z mplr_step (fun q s => Ok (mplr_init (Z.to_nat q) (Z.to_nat s))) stay_Z) (fun l => Ok (map (fun s => (mplr_mp s, mplr_idx s)) l)) =
  Ok [(zs [5; 4; 1], [1; 2; 0]); (zs [4; 4; 6], [1; 0; 0])]%Z.
Proof. vm_compute. reflexivity. Qed.
Example C93_example_thresholds : bind (plain_Z tc_step (fun q s => Ok (tc_init (zs [5; 7]%Z) (Z.to_nat q) (Z.to_nat s))) stay_Z) (fun l => Ok (map tc_counts l)) = Ok [[[1; 2; 2]; [1; 2; 2]]; [[1; 1; 0]; [1; 1; 1]]].
Proof. vm_compute. reflexivity. Qed.
Example C93_example_counters : bind (plain_Z (dtc_step fargsort) (fun q s => Ok (dtc_init (zs [5; 7]%Z) 1 (Z.to_nat q) (Z.to_nat s))) stay_Z) (fun l => Ok (map dt_counts l)) = Ok [[[1; 2; 1]; [1; 2; 1]]; [[1; 1; 0]; [1; 1; 1]]].
Proof. vm_compute. reflexivity. Qed.
Example C93_example_radius0 : bind (plain_Z rp0_step (fun q s => rp_init [0; 1]%Z 0 (Z.to_nat q) (Z.to_nat s)) stay_Z) (fun l => Ok (map rp_values l)) =
  Ok [[zs [5; 4; 1]; [PInf; Fin 5; Fin 4]]; [zs [4; 4; 6]; [PInf; Fin 9; Fin 9]]]%Z.
Proof. vm_compute. reflexivity. Qed.
Example C93_example_radius : bind (plain_Z rp_step (fun q s => rp_init [0; 1]%Z 0 (Z.to_nat q) (Z.to_nat s)) stay_Z) (fun l => Ok (map rp_values l)) =
  Ok [[zs [5; 4; 1]; [NaN; Fin 5; Fin 4]]; [zs [4; 4; 6]; [NaN; Fin 9; Fin 9]]]%Z.
Proof. vm_compute. reflexivity. Qed.

(** Hypotheses: a history of the same calls that drops nothing *)
Definition stay_R : list (sop (num R)) := [OSeries (Pts [[Fin 0; NaN; Fin 0]; [Fin 1; Fin 2; Fin 5]]%R); OCols never (RInt 1); OSeries (Pt [NInf; Fin 3]%R); OCols never (RFloat (Fin 1%Q))].
Example C93_example_hyps : stream_posed (KFiltered 1) 1 2 4 None 2 None [1; 0; 1] /\
  exists p evs, stream_history (KFiltered 1) 1 2 4 None 2 None [1; 0; 1] stay_R p evs /\ ~ dropped 4 None p /\ calculated true 2 4 4 0 0 (p_hist p) = [(0, 0, 2); (1, 0, 3); (2, 0, 3)].
Proof.
  split.
  - split; [cbn; lra|]. split; [exact I|]. do 3 (split; [lia|]). split; [cbn; lia|]. cbn [In]. intros d Hd. lia.
  - assert (V : forall (xs : list (num R)) x, stream_data (KFiltered 1) 1 (x :: xs)) by (intros xs x; discriminate).
    eexists _, _. split.
    + unfold stream_history. cbn [is_self].
      eapply (history_snoc (ops := firstn 3 stay_R)).
      * eapply (history_snoc (ops := firstn 2 stay_R)).
        -- eapply (history_snoc (ops := firstn 1 stay_R)).
           ++ eapply (history_snoc (ops := [])); [constructor|]. eapply does_series with (rows := [[Fin 0; NaN; Fin 0]; [Fin 1; Fin 2; Fin 5]]%R) (n := 3); [split; [reflexivity|]; split; [intros r [<-|[<-|[]]]; reflexivity|reflexivity]|]. intros r [<-|[<-|[]]]; apply V.
           ++ eapply does_cols with (u := 1) (n := 1); [apply PCalc.resolves_ok; [lia|reflexivity]|apply PCalc.runs_never_iff; reflexivity|cbn; lia].
        -- eapply does_series with (rows := [[NInf]; [Fin 3]]%R) (n := 1); [split; [reflexivity|]; split; [intros r [<-|[<-|[]]]; reflexivity|reflexivity]|]. intros r [<-|[<-|[]]]; apply V.
      * eapply does_cols with (u := 3) (n := 2); [apply PCalc.resolves_ok; [lia|reflexivity]|apply PCalc.runs_never_iff; reflexivity|cbn; lia].
    + split; [|reflexivity]. intros [H|(Wq & H & _)]; [cbn in H; lia|discriminate].
Qed.
