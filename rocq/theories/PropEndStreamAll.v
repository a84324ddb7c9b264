(** * PropEndStreamAll: complete streaming programs with any generators and every streaming consumer class *)
From Coq Require Import QArith Reals Lra Sorted Permutation.
From Verif Require Import Np NpFacts Inst Mat SLog MProfile MEuclid MZnorm MFilter MDist MContext SContext PCmpRun MMulti SMulti PSort PMulti MCalc SReal SCalc SStream PStream SMixed SGen SFilter SEnd SEndStream PArith PCalcEnd PEndStream PEuclid PZgeo PZnorm PFilter PFilterReal
  SEndAll SEndCons PEndProg SEndStreamAll PEndStreamAll PropCalc PropZnorm PropFilter PropContext PropMulti PropEnd PropEndStream.
Set Implicit Arguments.
Open Scope nat_scope.

(** ** The generators *)
Lemma finite_all xs : SEndAll.all_finite xs <-> forallb finite xs = true.
Proof. symmetry. apply forallb_forall. Qed.
Lemma answers_or_inf G (g_col : G -> nat -> res (G * list (num R))) g_diag g_s g_q dist (valid : list (num R) -> Prop) self m W Wq g0 : (forall xs, valid xs -> forallb finite xs = true) ->
  answers g_col g_diag g_s g_q (entry_of dist) self m W Wq valid g0 -> answers g_col g_diag g_s g_q (dist_or_inf dist) self m W Wq valid g0.
Proof.
  intros HV HA H Hr Ht Hv. destruct (HA H Hr Ht Hv) as (g & Eg & HC). exists g. split; [exact Eg|]. intros c Hc Htc. destruct (HC c Hc Htc) as (g' & Ec). exists g'. rewrite Ec. f_equal. f_equal. apply map_ext. intro r.
  assert (SUB : forall (l : list (num R)) j, (forall x, In x l -> finite x = true) -> forallb finite (sub m l j) = true).
  { intros l j Hl. apply forallb_forall. intros x Hx. apply Hl. unfold sub in Hx. rewrite <- (firstn_skipn j l). apply in_or_app. right. rewrite <- (firstn_skipn m (skipn j l)). apply in_or_app. left. exact Hx. }
  assert (LN : forall (l : list (num R)) n, (forall x, In x l -> finite x = true) -> forall x, In x (lastn n l) -> finite x = true).
  { intros l n Hl x Hx. apply Hl. unfold lastn in Hx. rewrite <- (firstn_skipn (length l - n) l). apply in_or_app. right. exact Hx. }
  assert (PS : forall x, In x (s_points H) -> finite x = true).
  { intros x Hx. apply in_flat_map in Hx. destruct Hx as (o & Ho & Hx). specialize (Hv o Ho). destruct o; try (destruct Hx; fail). apply HV in Hv. rewrite forallb_forall in Hv. auto. }
  assert (PQ : forall x, In x (q_points H) -> finite x = true).
  { intros x Hx. apply in_flat_map in Hx. destruct Hx as (o & Ho & Hx). specialize (Hv o Ho). destruct o; try (destruct Hx; fail). apply HV in Hv. rewrite forallb_forall in Hv. auto. }
  assert (WS : forall x, In x (wS W H) -> finite x = true) by (apply LN; exact PS).
  assert (WQ : forall x, In x (wQ self W Wq H) -> finite x = true) by (unfold wQ; destruct self; [exact WS|apply LN; exact PQ]).
  unfold entry_of, dist_or_inf. rewrite !SUB by assumption. reflexivity.
Qed.

Lemma kind_streams e k u m W (qw : option nat) : let self := is_self qw in let Wq := match qw with Some q => q | None => W end in
  sur_ok e -> kind_ok k -> quantum_ok k u -> 1 <= m <= W -> m <= Wq ->
  exists g0 (Inv : nat -> list (gop (num R)) -> sstate k -> Prop), sprepare (u_mem e) (u_memb e) (u_memb' e) (u_sf e) (u_sf' e) k (Z.of_nat m) (Z.of_nat W) (option_map Z.of_nat qw) = Ok g0 /\ (forall id, Inv id [] g0) /\
    streams (scol (u_mem e) k) (@sappend_series k) (@sappend_query k) self m W Wq (stream_data k u) Inv (fun _ => window_column (dist_or_inf (kdist k)) self m W Wq).
Proof.
  intros self Wq (S1 & S2 & S3 & S4 & _) Hk Hu Hm HmQ. assert (Hself : self = true -> Wq = W) by (subst self Wq; destruct qw; [discriminate|reflexivity]).
  assert (Eo : forall T (f : option nat -> T), f (option_map Z.to_nat (option_map Z.of_nat qw)) = f (if self then None else Some Wq)).
  { intros T f. subst self Wq. destruct qw; cbn; rewrite ?Nat2Z.id; reflexivity. }
  assert (FIN : forall G g_col g_diag g_s g_q (g0 : G), answers g_col g_diag g_s g_q (dist_or_inf (kdist k)) self m W Wq (stream_data k u) g0 ->
    exists Inv : nat -> list (gop (num R)) -> G -> Prop, (forall id, Inv id [] g0) /\ streams g_col g_s g_q self m W Wq (stream_data k u) Inv (fun _ => window_column (dist_or_inf (kdist k)) self m W Wq)).
  { intros G g_col g_diag g_s g_q g0 HA. exists (fun _ => RunInv g_col g_diag g_s g_q self m W Wq (stream_data k u) g0). split; [intro; apply RunInv_nil|]. apply gen_streams; [lia|exact Hself|exact HA]. }
  destruct k as [noise| |noise]; cbn [kind_ok quantum_ok kdist stream_data sprepare scol sappend_series sappend_query sstate] in *.
  - destruct (@zn_stream_all (u_mem e) (u_memb e) noise (u_sf e) m W Wq self) as (g0 & E0 & HA); auto; try lia. exists g0.
    destruct (FIN _ (zn_calc_column (u_mem e)) (@zn_calc_diagonal R NumR) (@zn_append_series R NumR) (@zn_append_query R NumR) g0) as (Inv & I1 & I2).
    { apply answers_or_inf; [intros xs; apply finite_all|]. apply real_answers; [intros xs; apply finite_all|]. intros H Hr Ht _. destruct (HA H Hr Ht) as (g & Eg & _ & HC). exists g. split; [exact Eg|exact HC]. }
    exists Inv. split; [rewrite <- E0, !Nat2Z.id; apply Eo|]. split; assumption.
  - destruct (@eu_stream_all (u_mem e) (u_sf e) u m W Wq self) as (g0 & E0 & HA); auto; try lia. exists g0.
    destruct (FIN _ (eu_calc_column (u_mem e)) (@eu_calc_diagonal R NumR) (@eu_append_series R) (@eu_append_query R) g0) as (Inv & I1 & I2).
    { apply answers_or_inf; [intros xs; apply grid_finite|]. apply real_answers; [intros xs; apply grid_finite|]. exact HA. }
    exists Inv. split; [rewrite <- E0, !Nat2Z.id; apply Eo|]. split; assumption.
  - destruct (@C24_nonfinite_znorm_partial (u_mem e) (u_memb e) (u_memb' e) noise (u_sf e) (u_sf' e) m W Wq self) as (f0 & E0 & HA); auto; try lia. exists f0.
    destruct (FIN _ (fs_calc_column (zn_calc_column (u_mem e))) (fs_calc_diagonal (@zn_calc_diagonal R NumR)) (fs_append_series (@zn_append_series R NumR) (@is_not_finite R)) (fs_append_query (@zn_append_query R NumR) (@is_not_finite R)) f0) as (Inv & I1 & I2).
    { intros H Hr Ht Hv. destruct (HA H Hr Ht Hv) as (f & Ef & _ & HC). exists f. split; [exact Ef|exact HC]. }
    exists Inv. split; [rewrite <- E0, !Nat2Z.id; apply Eo|]. split; assumption.
Qed.

Lemma or_inf_real dist x y : real (dist_or_inf dist x y).
Proof. unfold dist_or_inf. destruct (_ && _); split; discriminate. Qed.

(** ** C86. What every consumer of a streaming program is told, whatever its class and its generators: after any history of appends
    and calculations, exactly the events of the history. *)
Theorem C86_consumers : forall e k u m W qw ndim buffer dims, sur_ok e -> stream_posed k u m W qw ndim buffer dims ->
  forall C (c_step : C -> event (num R) -> res C) consumers ops p evs,
  (forall ids init id, In (ids, init) consumers -> In id ids -> id < length dims) -> stream_history k u m W qw ndim buffer dims ops p evs ->
  let Wq := match qw with Some q => q | None => W end in
  forall cns, ksprogram e k c_step (Z.of_nat m) (Z.of_nat W) (option_map Z.of_nat qw) ndim buffer (map Z.of_nat dims) consumers ops = Ok cns <->
    Forall2 (fun ci c => exists c0, snd ci (length (fst ci)) (Z.of_nat (Wq + 1 - m)) (Z.of_nat (W + 1 - m)) = Ok c0 /\ foldM c_step (evs (fst ci)) c0 = Ok c) consumers cns.
Proof.
  intros e k u m W qw ndim buffer dims HS (H1 & H2 & H3 & H4 & H5 & H6 & H7) C c_step consumers ops p evs Hids Hh Wq cns.
  destruct (@kind_streams e k u m W qw HS H1 H2 H3 H4) as (g0 & Inv & E0 & I0 & ST). unfold ksprogram.
  apply (@streaming_told R (num R) (sstate k) C (scol (u_mem e) k) (@sappend_series k) (@sappend_query k) (sprepare (u_mem e) (u_memb e) (u_memb' e) (u_sf e) (u_sf' e) k) c_step (u_set e) (proj2 (proj2 (proj2 (proj2 HS)))) g0 m W qw ndim buffer dims (stream_data k u) Inv
    (fun _ => window_column (dist_or_inf (kdist k)) (is_self qw) m W Wq) consumers ops p evs); assumption.
Qed.
Print Assumptions C86_consumers.

(** What these events say: the calculated cells, each with the distances of all generators of the consumer in the matrix of the
    complete streams (+inf for trivial matches), after which the window is at the last points. *)
Theorem C86_told : forall k u m W qw ndim buffer dims, stream_posed k u m W qw ndim buffer dims ->
  forall ops p evs ids, stream_history k u m W qw ndim buffer dims ops p evs -> ids <> [] -> (forall id, In id ids -> id < length dims) ->
  let self := is_self qw in let Wq := match qw with Some q => q | None => W end in let b := buffer_used qw (Z.of_nat m) buffer in
  (forall r a vs, In (r, a, vs) (mlog (evs ids)) <-> exists r' a', r = Z.of_nat r' /\ a = Z.of_nat a' /\ was_calculated (calculated self m W Wq 0 0 (p_hist p)) a' r' /\
     vs = map (fun id => masked b (stream_entry (dist_or_inf (kdist k)) self m (nth id dims 0) (p_hist p)) r' a') ids) /\
  sshift (evs ids) = Z.of_nat (lost W (p_s p)) /\ qshift (evs ids) = Z.of_nat (if self then lost W (p_s p) else lost Wq (p_q p)).
Proof.
  intros k u m W qw ndim buffer dims (H1 & H2 & H3 & H4 & H5 & H6 & H7) ops p evs ids Hh Hne Hids self Wq b. split; [|exact (history_shifts ids Hh)].
  apply (@history_mlog R (num R) (dist_or_inf (kdist k)) self m W Wq ndim b (fun id => nth id dims 0) (stream_data k u) H3) with (ops := ops); auto.
  - subst self Wq. destruct qw; [discriminate|reflexivity].
  - subst self b. destruct qw; [right; cbn; lia|left; reflexivity].
  - intros id Hid. apply H7, nth_In. auto.
  - intros id _. exists [], []. rewrite !app_nil_r. auto.
Qed.
Print Assumptions C86_told.

(** Consumers, one per element of [l], with the generators [gs x], that all do what is expected *)
Lemma stream_each e k u m W qw ndim buffer dims : sur_ok e -> stream_posed k u m W qw ndim buffer dims ->
  forall C (c_step : C -> event (num R) -> res C) T (gs : T -> list nat) (init : nat -> Z -> Z -> res C) l ops p evs (Post : T -> C -> Prop),
  (forall x id, In x l -> In id (gs x) -> id < length dims) -> stream_history k u m W qw ndim buffer dims ops p evs ->
  (forall x, In x l -> exists c0 c, init (length (gs x)) (Z.of_nat (match qw with Some q => q | None => W end + 1 - m)) (Z.of_nat (W + 1 - m)) = Ok c0 /\ foldM c_step (evs (gs x)) c0 = Ok c /\ Post x c) ->
  exists cns, ksprogram e k c_step (Z.of_nat m) (Z.of_nat W) (option_map Z.of_nat qw) ndim buffer (map Z.of_nat dims) (map (fun x => (gs x, init)) l) ops = Ok cns /\ Forall2 Post l cns.
Proof.
  intros HS HP C c_step T gs init l ops p evs Post Hids Hh HX. pose proof (@C86_consumers e k u m W qw ndim buffer dims HS HP C c_step (map (fun x => (gs x, init)) l) ops p evs) as HC.
  cbn zeta in HC. assert (HL : forall ids i id, In (ids, i) (map (fun x => (gs x, init)) l) -> In id ids -> id < length dims).
  { intros ids i id Hin Hid. apply in_map_iff in Hin. destruct Hin as (x & E & Hx). injection E as <- <-. eauto. }
  specialize (HC HL Hh). clear HL. 
  assert (EX : exists cns, Forall2 (fun ci c => exists c0, snd ci (length (fst ci)) (Z.of_nat (match qw with Some q => q | None => W end + 1 - m)) (Z.of_nat (W + 1 - m)) = Ok c0 /\ foldM c_step (evs (fst ci)) c0 = Ok c) (map (fun x => (gs x, init)) l) cns /\ Forall2 Post l cns).
  { clear HC Hids. induction l as [|x l IH]; [exists []; split; constructor|]. destruct IH as (cns & F1 & F2); [intros; apply HX; right; assumption|]. destruct (HX x ltac:(left; reflexivity)) as (c0 & c & E0 & E1 & P).
    exists (c :: cns). split; constructor; auto. exists c0. auto. }
  destruct EX as (cns & F1 & F2). exists cns. split; [apply HC, F1|exact F2].
Qed.

Lemma posed_self W (qw : option nat) : is_self qw = true -> match qw with Some q => q | None => W end = W.
Proof. destruct qw; [discriminate|reflexivity]. Qed.
Lemma posed_buffer m (qw : option nat) buffer : is_self qw = true \/ (buffer_used qw (Z.of_nat m) buffer < 0)%Z.
Proof. destruct qw; [right; cbn; lia|left; reflexivity]. Qed.
Lemma posed_dim k u m W qw ndim buffer dims id : stream_posed k u m W qw ndim buffer dims -> id < length dims -> nth id dims 0 < ndim.
Proof. intros HP H. destruct HP as (_ & _ & _ & _ & _ & _ & H7). apply H7, nth_In, H. Qed.

(** ShiftingMatrixProfileLR consumers, one per element of [ids], which is its generator: per column of the window, the smallest distance
    to the calculated rows (in the matrix of the complete streams, trivial matches excluded) and its row; the same for the rows on
    the left and those on the right. *)
Theorem C86_profiles : forall e k u m W qw ndim buffer dims, sur_ok e -> stream_posed k u m W qw ndim buffer dims ->
  forall memn memz sfc ids ops p evs, (1 <= sfc)%Q -> (sfc <= 2)%Q -> (forall id, In id ids -> id < length dims) -> stream_history k u m W qw ndim buffer dims ops p evs ->
  let self := is_self qw in let Wq := match qw with Some q => q | None => W end in let b := buffer_used qw (Z.of_nat m) buffer in let w := W + 1 - m in
  let rows := seen b (calculated self m W Wq 0 0 (p_hist p)) in
  exists cns, ksprogram e k smp_step (Z.of_nat m) (Z.of_nat W) (option_map Z.of_nat qw) ndim buffer (map Z.of_nat dims)
      (map (fun id => ([id], fun _ q s => smp_init memn memz sfc (Z.to_nat q) (Z.to_nat s))) ids) ops = Ok cns /\
    Forall2 (fun id c => let D := stream_entry (dist_or_inf (kdist k)) self m (nth id dims 0) (p_hist p) in
      window_profile D (lost W (p_s p)) w rows (smp_mp c, smp_idx c) /\
      window_profile D (lost W (p_s p)) w (fun a r => rows a r /\ r <= a) (MRing.rb_view (s_left c), MRing.rb_view (s_ileft c)) /\
      window_profile D (lost W (p_s p)) w (fun a r => rows a r /\ a < r) (MRing.rb_view (s_right c), MRing.rb_view (s_iright c))) ids cns.
Proof.
  intros e k u m W qw ndim buffer dims HS HP memn memz sfc ids ops p evs S1 S2 Hids Hh self Wq b w rows. pose proof HP as (H1 & H2 & H3 & H4 & H5 & H6 & H7).
  apply (@stream_each e k u m W qw ndim buffer dims HS HP _ smp_step nat (fun id => [id]) _ ids ops p evs); [intros x id Hx [<-|[]]; auto|exact Hh|].
  intros id Hid. destruct (@smp_of R NumR OrdR (num R) (dist_or_inf (kdist k)) self m W Wq ndim b (fun id => nth id dims 0) (stream_data k u) H3 H4 (@posed_self W qw) (@posed_buffer m qw buffer) (or_inf_real (kdist k)) ops p evs Hh memn memz sfc id S1 S2 (posed_dim HP (Hids id Hid)))
    as (c0 & c & E0 & E1 & P1 & P2 & P3).
  exists c0, c. rewrite !Nat2Z.id. split; [exact E0|]. split; [exact E1|]. split; [exact P1|]. split; [exact P2|exact P3].
Qed.
Print Assumptions C86_profiles.

(** ** C87. DistanceMatrix consumers: entry (i, j) is the distance of the points now at (i, j) of the window, +inf for a trivial match,
    if it was calculated when its row and column were in the window; NaN otherwise. *)
Theorem C87_distance_matrices : forall e k u m W qw ndim buffer dims, sur_ok e -> stream_posed k u m W qw ndim buffer dims ->
  forall ids ops p evs, (forall id, In id ids -> id < length dims) -> stream_history k u m W qw ndim buffer dims ops p evs ->
  let self := is_self qw in let Wq := match qw with Some q => q | None => W end in let b := buffer_used qw (Z.of_nat m) buffer in let h := Wq + 1 - m in let w := W + 1 - m in
  let done := was_calculated (calculated self m W Wq 0 0 (p_hist p)) in
  exists cns, ksprogram e k dm_step (Z.of_nat m) (Z.of_nat W) (option_map Z.of_nat qw) ndim buffer (map Z.of_nat dims)
      (map (fun id => ([id], fun d q s => dm_init d (Z.to_nat q) (Z.to_nat s))) ids) ops = Ok cns /\
    Forall2 (fun id x => let D := stream_entry (dist_or_inf (kdist k)) self m (nth id dims 0) (p_hist p) in is_mat h w x /\ forall i j, i < h -> j < w ->
      let r := (if self then lost W (p_s p) else lost Wq (p_q p)) + i in let a := lost W (p_s p) + j in
      exists v, mget x i j = Ok v /\ (done a r -> v = masked b D r a) /\ (~ done a r -> v = NaN)) ids cns.
Proof.
  intros e k u m W qw ndim buffer dims HS HP ids ops p evs Hids Hh self Wq b h w done. pose proof HP as (H1 & H2 & H3 & H4 & H5 & H6 & H7).
  apply (@stream_each e k u m W qw ndim buffer dims HS HP _ (@dm_step R) nat (fun id => [id]) _ ids ops p evs); [intros x id Hx [<-|[]]; auto|exact Hh|].
  intros id Hid. destruct (@dist_of R (num R) (dist_or_inf (kdist k)) self m W Wq ndim b (fun id => nth id dims 0) (stream_data k u) H3 H4 (@posed_self W qw) (@posed_buffer m qw buffer) (or_inf_real (kdist k)) ops p evs Hh id (posed_dim HP (Hids id Hid)))
    as (c0 & c & E0 & E1 & M & G).
  exists c0, c. cbn [length]. rewrite !Nat2Z.id. split; [exact E0|]. split; [exact E1|]. split; [exact M|exact G].
Qed.
Print Assumptions C87_distance_matrices.

(** ** C88. MultidimensionalMatrixProfileLR consumers, one per element of [groups], which are its generators: the smallest average of the
    k+1 best dimensions over the calculated rows, and of the rows on the left and on the right. *)
Theorem C88_multidim : forall e k u m W qw ndim buffer dims, sur_ok e -> stream_posed k u m W qw ndim buffer dims ->
  forall memn memz memd sfc argsort groups ops p evs, (1 <= sfc)%Q -> (sfc <= 2)%Q -> argsorts argsort -> (forall ids, In ids groups -> ids <> [] /\ forall id, In id ids -> id < length dims) -> stream_history k u m W qw ndim buffer dims ops p evs ->
  let self := is_self qw in let Wq := match qw with Some q => q | None => W end in let b := buffer_used qw (Z.of_nat m) buffer in let w := W + 1 - m in
  let rows := seen b (calculated self m W Wq 0 0 (p_hist p)) in
  exists cns, ksprogram e k (md_step argsort) (Z.of_nat m) (Z.of_nat W) (option_map Z.of_nat qw) ndim buffer (map Z.of_nat dims)
      (map (fun ids => (ids, fun d q s => md_init memn memz memd sfc d (Z.to_nat q) (Z.to_nat s))) groups) ops = Ok cns /\
    Forall2 (fun ids s => forall n j, n < length ids -> j < w -> exists l r x, md_left s n j = Ok l /\ md_right s n j = Ok r /\ md_merged s n j = Ok x /\
      let a := lost W (p_s p) + j in let values := fun r => map (fun id => stream_entry (dist_or_inf (kdist k)) self m (nth id dims 0) (p_hist p) r a) ids in
      smallest_average (fun r => rows a r /\ r <= a) values n l /\ smallest_average (fun r => rows a r /\ a < r) values n r /\ smallest_average (rows a) values n x) groups cns.
Proof.
  intros e k u m W qw ndim buffer dims HS HP memn memz memd sfc argsort groups ops p evs S1 S2 Ha Hids Hh self Wq b w rows. pose proof HP as (H1 & H2 & H3 & H4 & H5 & H6 & H7).
  apply (@stream_each e k u m W qw ndim buffer dims HS HP _ (md_step argsort) (list nat) (fun ids => ids) _ groups ops p evs); [intros x id Hx; apply Hids, Hx|exact Hh|].
  intros ids Hin. destruct (Hids ids Hin) as [Hne Hid].
  destruct (@multi_of R NumR OrdR (num R) (dist_or_inf (kdist k)) self m W Wq ndim b (fun id => nth id dims 0) (stream_data k u) H3 H4 (@posed_self W qw) (@posed_buffer m qw buffer) (or_inf_real (kdist k)) ops p evs Hh AvgR memn memz memd sfc argsort ids S1 S2 Ha Hne (fun id H => posed_dim HP (Hid id H)))
    as (c0 & c & E0 & E1 & G).
  exists c0, c. rewrite !Nat2Z.id. split; [exact E0|]. split; [exact E1|exact G].
Qed.
Print Assumptions C88_multidim.

(** ** C89. ContextualMatrixProfile consumers whose manager has contexts fixed in absolute positions: if the columns were complete when
    calculated and no query context was dropped, entry (i, j) is the smallest distance, in the matrix of the complete streams, of the
    calculated cells of query context [i] and series context [j + ks] (the first [ks] were dropped), and where it is.
    Missing from the full statement: dropped query contexts, for which it is false (C48_roll_refuted), and columns calculated before the
    query window is full. *)
Theorem C89_contexts_partial : forall e k u m W qw ndim buffer dims, sur_ok e -> stream_posed k u m W qw ndim buffer dims ->
  let self := is_self qw in let Wq := match qw with Some q => q | None => W end in let b := buffer_used qw (Z.of_nat m) buffer in let h := Wq + 1 - m in let w := W + 1 - m in
  forall M (MO : ManagerOps M) CH CW QA SA inv m0, stream_manager MO h w CH CW QA SA inv -> 0 < CW -> inv m0 0%Z 0%Z 0 0 -> man_shape MO m0 = Ok (CH, CW) ->
  forall memn memz sfc ids ops p evs, (1 <= sfc)%Q -> (sfc <= 2)%Q -> (forall id, In id ids -> id < length dims) -> stream_history k u m W qw ndim buffer dims ops p evs ->
  let cells := calculated self m W Wq 0 0 (p_hist p) in (forall a lo n, In (a, lo, n) cells -> n = h) ->
  forall m1 ks, (forall id, In id ids -> man_after MO m0 (evs [id]) = Ok (m1, 0, ks)) ->
  exists cns, ksprogram e k (cm_step MO) (Z.of_nat m) (Z.of_nat W) (option_map Z.of_nat qw) ndim buffer (map Z.of_nat dims)
      (map (fun id => ([id], fun _ q s => cm_init MO memn memz sfc m0 (Z.to_nat q) (Z.to_nat s))) ids) ops = Ok cns /\
    Forall2 (fun id s => forall i j, i < CH -> j < CW -> exists v q r, dv_get (cm_dist s) i j = Ok v /\ dv_get (cm_mq s) i j = Ok q /\ dv_get (cm_ms s) i j = Ok r /\
      smallest_cell (fun r a => seen b cells a r /\ QA i (Z.of_nat r) /\ SA (j + ks) (Z.of_nat a)) (stream_entry (dist_or_inf (kdist k)) self m (nth id dims 0) (p_hist p)) v q r) ids cns.
Proof.
  intros e k u m W qw ndim buffer dims HS HP self Wq b h w M MO CH CW QA SA inv m0 SM HCW Hi Hsh memn memz sfc ids ops p evs S1 S2 Hids Hh cells Hall m1 ks Hma. pose proof HP as (H1 & H2 & H3 & H4 & H5 & H6 & H7).
  apply (@stream_each e k u m W qw ndim buffer dims HS HP _ (cm_step MO) nat (fun id => [id]) _ ids ops p evs); [intros x id Hx [<-|[]]; auto|exact Hh|].
  intros id Hid. destruct (@context_of R NumR OrdR (num R) (dist_or_inf (kdist k)) self m W Wq ndim b (fun id => nth id dims 0) (stream_data k u) H3 H4 (@posed_self W qw) (@posed_buffer m qw buffer) (or_inf_real (kdist k)) ops p evs Hh
    M MO CH CW QA SA inv memn memz sfc m0 id m1 ks SM HCW Hi Hsh S1 S2 (posed_dim HP (Hids id Hid)) Hall (Hma id Hid)) as (c0 & c & E0 & E1 & G).
  exists c0, c. rewrite !Nat2Z.id. split; [exact E0|]. split; [exact E1|exact G].
Qed.
Print Assumptions C89_contexts_partial.

(** ** Examples: the programs on integers, with Euclidean without the root *)
Definition sprogram_Z {C} (c_step : C -> event (num Z) -> res C) := streaming_program (eu_calc_column (fun _ => NaN)) (@eu_append_series Z) (@eu_append_query Z)
  (fun m W qw => eu_prepare_streaming (fun _ => NaN) 2 (Z.to_nat m) (Z.to_nat W) (option_map Z.to_nat qw)) c_step quick.
Example C86_example : bind (sprogram_Z smp_step 2 4 None 2 (Some 0%Z) [1; 0]%Z (map (fun id => ([id], fun _ q s => smp_init (fun _ => NaN) (fun _ => 77%Z) 2 (Z.to_nat q) (Z.to_nat s))) [0; 1; 0]) ops_Z)
    (fun l => Ok (map (fun c => (smp_mp c, smp_idx c)) l)) =
  Ok [(zs [4; 5; 1], [1; 4; 2]); (zs [9; 8; 8], [3; 4; 3]); (zs [4; 5; 1], [1; 4; 2])]%Z.
Proof. vm_compute. reflexivity. Qed.
Example C87_example : sprogram_Z dm_step 2 4 None 2 (Some 0%Z) [1; 0]%Z (map (fun id => ([id], fun d q s => dm_init d (Z.to_nat q) (Z.to_nat s))) [0; 1]) ops_Z =
  Ok [[[PInf; Fin 5; Fin 1]; [Fin 5; PInf; Fin 5]; [NaN; Fin 5; PInf]]; [[PInf; Fin 9; Fin 12]; [Fin 9; PInf; Fin 8]; [NaN; Fin 8; PInf]]]%Z.
Proof. vm_compute. reflexivity. Qed.
(** The best dimension, then both *)
Definition smulti_Z ops := sprogram_Z (md_step fargsort) 2 4 None 2 (Some 0%Z) [1; 0]%Z [([1; 0], fun d q s => md_init (fun _ => NaN) (fun _ => 7%Z) (fun _ => []) 2 d (Z.to_nat q) (Z.to_nat s))] ops.
Example C88_example : bind (smulti_Z ops_Z) (mapM (fun s => mapM (fun n => mapM (md_merged s n) (seq 0 3)) [0; 1])) =
  Ok [[[(Fz 4, 1, [1]); (Fz 5, 4, [1]); (Fz 1, 2, [1])]; [(Fz 6, 1, [1; 0]); (Fz 6, 4, [1; 0]); (Fz 6, 2, [1; 0])]]]%Z.
Proof. vm_compute. reflexivity. Qed.
(** The query window is full from the start, series contexts have 2 columns, and one of these is dropped.  Columns of the tables are listed. *)
Definition ops_ctx : list (sop (num Z)) := [OQuery (Pts [zs [0; 3; 0]; zs [4; 0; 3]]); OSeries (Pts [zs [0; 3; 0]; zs [4; 0; 3]]); OCols never (RFloat (Fin 1%Q));
   OSeries (Pts [zs [9; 9; 1]; zs [0; 4; 0]]); OCols never (RFloat (Fin 1%Q))]%Z.
Definition ctx_Z bq bs H W ops := bind (sprogram_Z (cm_step (block_manager bq bs H W)) 2 4 (Some 3%Z) 2 None [1; 0]%Z
  (map (fun id => ([id], fun _ q s => cm_init (block_manager bq bs H W) no_mem no_mem 2 (0, 0)%Z (Z.to_nat q) (Z.to_nat s))) [0; 1]) ops) (fun l => Ok (map cm_tables l)).
Example C89_example : ctx_Z 4 2 2 3 ops_ctx =
  Ok [([[Fin 1; PInf]; [Fin 0; PInf]; [PInf; PInf]], [[0; -1]; [0; -1]; [-1; -1]], [[2; -1]; [4; -1]; [-1; -1]]);
      ([[Fin 6; PInf]; [Fin 6; PInf]; [PInf; PInf]], [[0; -1]; [1; -1]; [-1; -1]], [[2; -1]; [4; -1]; [-1; -1]])]%Z.
Proof. vm_compute. reflexivity. Qed.

(** Refuted without the condition on the columns: a column calculated while a query context has no points yet makes the program fail. *)
Theorem C89_contexts_refuted : exists bq bs H W ops, ctx_Z bq bs H W ops = Err ValueError /\
  stream_manager (block_manager bq bs H W) 2 3 H W (in_block bq) (in_block bs) (block_inv bq bs) /\
  ops = [OQuery (Pts [zs [0; 3]; zs [4; 0]]%Z); OSeries (Pts [zs [0; 3; 0]; zs [4; 0; 3]]%Z); OCols never (RFloat (Fin 1%Q))].
Proof. exists 1%Z, 2%Z, 3, 3. eexists. split; [|split; [apply C48_block_manager; first [reflexivity|lia]|reflexivity]]. vm_compute. reflexivity. Qed.
Print Assumptions C89_contexts_refuted.

(** Hypotheses: a join of two channels with the filtered generator and points that are not finite; the query window is full, the series
    window loses two points. *)
Definition join_R : list (sop (num R)) := [OQuery (Pts [[Fin 0; NaN; Fin 0]; [Fin 1; Fin 2; Fin 5]]%R); OSeries (Pts [[Fin 4; Fin 0; NaN]; [Fin 1; PInf; Fin 3]]%R); OCols never (RFloat (Fin 1%Q));
   OSeries (Pts [[Fin 9; Fin 9; NInf]; [Fin 0; Fin 1; Fin 2]]%R); OCols never (RFloat (Fin 1%Q))].
Example C86_example_hyps : sur_ok (mkSur (fun _ => NaN) (fun _ => true) (fun _ => false) 1 2 quick) /\ stream_posed (KFiltered 1) 1 2 4 (Some 3) 2 None [1; 0; 1] /\
  exists p evs, stream_history (KFiltered 1) 1 2 4 (Some 3) 2 None [1; 0; 1] join_R p evs /\ lost 4 (p_s p) = 2 /\
    calculated false 2 4 3 0 0 (p_hist p) = [(0, 0, 2); (1, 0, 2); (2, 0, 2); (3, 0, 2); (4, 0, 2)] /\
    stream_manager (block_manager 4 2 2 3) 2 3 2 3 (in_block 4) (in_block 2) (block_inv 4 2) /\ man_after (block_manager 4 2 2 3) (0, 0)%Z (evs [1]) = Ok ((0, 2)%Z, 0, 1).
Proof.
  split; [|split].
  - do 4 (split; [discriminate|]). split; [apply NoDup_nodup|intro x; apply nodup_In].
  - split; [cbn; lra|]. split; [exact I|]. do 3 (split; [lia|]). split; [cbn; lia|]. cbn [In]. intros d Hd. lia.
  - assert (V : forall (xs : list (num R)) x, stream_data (KFiltered 1) 1 (x :: xs)) by (intros xs x; discriminate).
    eexists _, _. split.
    + unfold stream_history, join_R. cbn [is_self].
      eapply (history_snoc (ops := firstn 4 join_R)).
      { eapply (history_snoc (ops := firstn 3 join_R)).
        - eapply (history_snoc (ops := firstn 2 join_R)).
          + eapply (history_snoc (ops := firstn 1 join_R)).
            * eapply (history_snoc (ops := [])); [constructor|]. eapply does_query with (rows := [[Fin 0; NaN; Fin 0]; [Fin 1; Fin 2; Fin 5]]%R) (n := 3); [reflexivity|split; [reflexivity|]; split; [intros r [<-|[<-|[]]]; reflexivity|reflexivity]|]. intros r [<-|[<-|[]]]; apply V.
            * eapply does_series with (rows := [[Fin 4; Fin 0; NaN]; [Fin 1; PInf; Fin 3]]%R) (n := 3); [split; [reflexivity|]; split; [intros r [<-|[<-|[]]]; reflexivity|reflexivity]|]. intros r [<-|[<-|[]]]; apply V.
          + eapply does_cols with (u := 2) (n := 2); [apply PCalc.resolves_ok; [lia|reflexivity]|apply PCalc.runs_never_iff; reflexivity|cbn; lia].
        - eapply does_series with (rows := [[Fin 9; Fin 9; NInf]; [Fin 0; Fin 1; Fin 2]]%R) (n := 3); [split; [reflexivity|]; split; [intros r [<-|[<-|[]]]; reflexivity|reflexivity]|]. intros r [<-|[<-|[]]]; apply V. }
      eapply does_cols with (u := 3) (n := 3); [apply PCalc.resolves_ok; [lia|reflexivity]|apply PCalc.runs_never_iff; reflexivity|cbn; lia].
    + split; [reflexivity|]. split; [reflexivity|]. split; [apply C48_block_manager; first [reflexivity|lia]|]. cbn. reflexivity.
Qed.
