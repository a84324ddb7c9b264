(** * PropEndAll: complete programs with any generators and every consumer class *)
From Coq Require Import QArith Reals Lra Permutation.
From Verif Require Import Np NpFacts Inst Mat MUtil SLog MProfile PProfile MDist MContext SContext PContext PCmpRun MCounters SCounters PCounters MRand SRand PRand MReservoir SReservoir MEuclid MCalc SReal SCalc SMixed SGen SFilter SEnd PArith PMixed PEnd SEndAll PEndAll PEndKind SEndCons PEndCons MMulti SMulti PMulti PEndMulti PEndProg PEndRes PropEnd PropMulti PropContext.
Set Implicit Arguments.
Open Scope nat_scope.

(** ** C78. What every consumer of a program is told, whatever its class and its generators *)
Theorem C78_consumers : forall e k m n nq series query buffer dims, world_ok e -> well_posed k m n nq series query buffer dims ->
  forall C (c_step : C -> event (num R) -> res C) consumers calls,
  (forall ids init id, In (ids, init) consumers -> In id ids -> id < length dims) -> Forall sensible_call calls ->
  let h := nq + 1 - m in let w := n + 1 - m in let b := buffer_used query (Z.of_nat m) buffer in
  exists t, delivers query m n nq buffer calls t /\
    forall cns, kprogram e k c_step (Z.of_nat m) series query buffer (map Z.of_nat dims) consumers calls = Ok cns <->
      Forall2 (fun ci c => exists c0, snd ci (length (fst ci)) (Z.of_nat h) (Z.of_nat w) = Ok c0 /\
        foldM c_step (told (matrix_of k m dims series query) h w (is_self query) b t (fst ci)) c0 = Ok c) consumers cns.
Proof. intros. apply kind_told; assumption. Qed.
Print Assumptions C78_consumers.

(** MatrixProfileLR consumers, one per element of [ids], which is its generator *)
Theorem C78_profiles : forall e k m n nq series query buffer dims, world_ok e -> well_posed k m n nq series query buffer dims ->
  forall ids calls, (forall id, In id ids -> id < length dims) -> Forall sensible_call calls ->
  let h := nq + 1 - m in let w := n + 1 - m in let b := buffer_used query (Z.of_nat m) buffer in let D := matrix_of k m dims series query in
  exists t cns, delivers query m n nq buffer calls t /\
    kprogram e k mplr_step (Z.of_nat m) series query buffer (map Z.of_nat dims) (map (fun id => ([id], fun _ q s => Ok (mplr_init (Z.to_nat q) (Z.to_nat s)))) ids) calls = Ok cns /\
    Forall2 (fun id c => profile_ok (D id) w (fun j r => r < h /\ SEnd.given (is_self query) b t r j) (mplr_mp c, mplr_idx c) /\
      (completes calls -> profile_ok (D id) w (outside b h) (mplr_mp c, mplr_idx c))) ids cns.
Proof.
  intros e k m n nq series query buffer dims HE HW ids calls Hids Hcalls h w b D. pose proof (pos_h HW) as Hh. apply (@kind_each e k m n nq series query buffer dims HE HW); [exact Hids|exact Hcalls|].
  intros t id Ht Hid. pose proof (delivers_fine HW Ht) as F. destruct (@profile_of R NumR OrdR (is_self query) h w b (D id) (@Dnan k m n nq series query dims id) (Dself HW (Hids id Hid)) Hh t F) as (s & E & L1 & L2 & G).
  eexists _, s. split; [cbn beta; rewrite !Nat2Z.id; reflexivity|]. split; [exact E|]. split; [exact (conj L1 (conj L2 G))|]. intro Hc.
  pose proof (completes_complete HW Ht Hc) as HC. split; [exact L1|]. split; [exact L2|]. cbn [fst snd]. intros j Hj. destruct (G j Hj) as (v & i & E1 & E2 & HS). exists v, i. split; [exact E1|]. split; [exact E2|].
  assert (Eqv : forall r, outside b h j r <-> r < h /\ SEnd.given (is_self query) b t r j).
  { intro r. unfold outside. split; intros [Hr Hx]; (split; [exact Hr|]).
    - apply (complete_cell HW Ht HC Hr Hj). unfold trivial. unfold b in Hx. lia.
    - apply (complete_cell HW Ht HC Hr Hj) in Hx. unfold trivial in Hx. unfold b. lia. }
  destruct HS as [[-> Hall]|(Hlt & r & Hr & -> & -> & Hall)].
  - left. split; [reflexivity|]. intros r Hr. apply Hall, Eqv, Hr.
  - right. split; [exact Hlt|]. exists r. split; [apply Eqv; exact Hr|]. do 2 (split; [reflexivity|]). intros r' Hr'. apply Hall, Eqv, Hr'.
Qed.
Print Assumptions C78_profiles.

(** ** C79. DistanceMatrix consumers hold the delivered cells of the matrix, +inf for delivered trivial matches, NaN elsewhere. *)
Theorem C79_distance_matrices : forall e k m n nq series query buffer dims, world_ok e -> well_posed k m n nq series query buffer dims ->
  forall ids calls, (forall id, In id ids -> id < length dims) -> Forall sensible_call calls ->
  let h := nq + 1 - m in let w := n + 1 - m in let b := buffer_used query (Z.of_nat m) buffer in let D := matrix_of k m dims series query in
  exists t cns, delivers query m n nq buffer calls t /\
    kprogram e k dm_step (Z.of_nat m) series query buffer (map Z.of_nat dims) (map (fun id => ([id], fun d q s => dm_init d (Z.to_nat q) (Z.to_nat s))) ids) calls = Ok cns /\
    Forall2 (fun id x => is_mat h w x /\ forall r j, r < h -> j < w -> exists v, mget x r j = Ok v /\
      (delivered (is_self query) t r j -> v = masked b (D id) r j) /\ (~ delivered (is_self query) t r j -> v = NaN) /\
      (completes calls -> ~ trivial b r j -> v = D id r j)) ids cns.
Proof.
  intros e k m n nq series query buffer dims HE HW ids calls Hids Hcalls h w b D. pose proof (pos_h HW) as Hh. apply (@kind_each e k m n nq series query buffer dims HE HW); [exact Hids|exact Hcalls|].
  intros t id Ht Hid. pose proof (delivers_fine HW Ht) as F. destruct (@dm_of R (is_self query) h w b (D id) (@Dnan k m n nq series query dims id) (Dself HW (Hids id Hid)) Hh t F) as (m0 & x & E0 & E & M & G).
  exists m0, x. split; [cbn beta; rewrite !Nat2Z.id; exact E0|]. split; [exact E|]. split; [exact M|]. intros r j Hr Hj. destruct (G r j Hr Hj) as (v & Ev & G1 & G2). exists v. split; [exact Ev|]. split; [exact G1|]. split; [exact G2|].
  intros Hc Hn. apply (complete_cell HW Ht (completes_complete HW Ht Hc) Hr Hj) in Hn. pose proof Hn as [_ Hd]. rewrite (G1 Hd). exact (given_masked (D id) Hn).
Qed.
Print Assumptions C79_distance_matrices.

(** ** C80. ContextualMatrixProfile consumers hold, for every pair of contexts, the smallest of the delivered cells (of non-trivial
    matches) of these contexts, and where it is. *)
Theorem C80_contextual : forall e k m n nq series query buffer dims, world_ok e -> well_posed k m n nq series query buffer dims ->
  forall ids calls, (forall id, In id ids -> id < length dims) -> Forall sensible_call calls ->
  forall argsort scontexts qcontexts g memn memz sf, sorts argsort -> gsm_new argsort scontexts qcontexts = Ok g ->
  (exists s x id, SContext.given scontexts s x id /\ (s < x)%Z) -> (1 <= sf)%Q -> (sf <= 2)%Q ->
  let h := nq + 1 - m in let w := n + 1 - m in let b := buffer_used query (Z.of_nat m) buffer in let D := matrix_of k m dims series query in
  exists t cns H W, delivers query m n nq buffer calls t /\ gsm_shape g = Ok (H, W) /\
    (forall i x, in_context (query_input scontexts qcontexts) i x -> i < H) /\ (forall j x, in_context scontexts j x -> j < W) /\
    kprogram e k (cm_step gsm_ops) (Z.of_nat m) series query buffer (map Z.of_nat dims) (map (fun id => ([id], fun _ q s => cm_init gsm_ops memn memz sf g (Z.to_nat q) (Z.to_nat s))) ids) calls = Ok cns /\
    Forall2 (fun id s => forall i j, i < H -> j < W -> exists v q r, dv_get (cm_dist s) i j = Ok v /\ dv_get (cm_mq s) i j = Ok q /\ dv_get (cm_ms s) i j = Ok r /\
      let inside := fun r c => r < h /\ c < w /\ in_context (query_input scontexts qcontexts) i (Z.of_nat r) /\ in_context scontexts j (Z.of_nat c) in
      smallest_cell (fun r c => inside r c /\ SEnd.given (is_self query) b t r c) (D id) v q r /\
      (completes calls -> smallest_cell (fun r c => inside r c /\ ~ trivial b r c) (D id) v q r)) ids cns.
Proof.
  intros e k m n nq series query buffer dims HE HW ids calls Hids Hcalls argsort sc qc g memn memz sf Hs Eg Hne S1 S2 h w b D. pose proof (pos_h HW) as Hh.
  assert (Hshape : exists H W, gsm_shape g = Ok (H, W) /\ (forall i x, in_context (query_input sc qc) i x -> i < H) /\ (forall j x, in_context sc j x -> j < W)).
  { destruct (@C47_lemma R NumR OrdR argsort sc qc g h w memn memz sf [] Hs Eg Hne Hh S1 S2 ltac:(constructor) ltac:(constructor)) as (H & W & _ & _ & E1 & _ & _ & HH & HW' & _). exists H, W. auto. }
  destruct Hshape as (H & W & Esh & HH & HWd).
  destruct (@kind_each e k m n nq series query buffer dims HE HW (@cm R gsm) (cm_step gsm_ops) (fun _ q s => cm_init gsm_ops memn memz sf g (Z.to_nat q) (Z.to_nat s)) ids calls
    (fun t id s => forall i j, i < H -> j < W -> exists v q r, dv_get (cm_dist s) i j = Ok v /\ dv_get (cm_mq s) i j = Ok q /\ dv_get (cm_ms s) i j = Ok r /\
      let inside := fun r c => r < h /\ c < w /\ in_context (query_input sc qc) i (Z.of_nat r) /\ in_context sc j (Z.of_nat c) in
      smallest_cell (fun r c => inside r c /\ SEnd.given (is_self query) b t r c) (D id) v q r /\
      (completes calls -> smallest_cell (fun r c => inside r c /\ ~ trivial b r c) (D id) v q r))) as (t & cns & H1 & H2 & H3); [exact Hids|exact Hcalls| |exists t, cns, H, W; auto 10].
  intros t id Ht Hid. pose proof (delivers_fine HW Ht) as F.
  destruct (@cm_of R NumR OrdR (is_self query) h w b (D id) (@Dnan k m n nq series query dims id) (Dself HW (Hids id Hid)) Hh argsort sc qc g memn memz sf t Hs Eg Hne S1 S2 F) as (H' & W' & s0 & s & E1 & E0 & E & _ & _ & G).
  assert (H' = H /\ W' = W) as [-> ->] by (rewrite Esh in E1; injection E1; auto).
  exists s0, s. split; [cbn beta; rewrite !Nat2Z.id; exact E0|]. split; [exact E|]. intros i j Hi Hj. destruct (G i j Hi Hj) as (v & q & r & G1 & G2 & G3 & G4). exists v, q, r. do 3 (split; [assumption|]). intro inside.
  assert (Ext : forall P, (forall r c, P r c <-> (r < h /\ c < w /\ SEnd.given (is_self query) b t r c) /\ in_context (query_input sc qc) i (Z.of_nat r) /\ in_context sc j (Z.of_nat c)) -> smallest_cell P (D id) v q r).
  { intros P HP. destruct G4 as [(-> & -> & -> & G4)|(G4 & r0 & c0 & P0 & -> & -> & -> & G5)].
    - left. do 3 (split; [reflexivity|]). intros r1 c1 H1. apply G4, HP, H1.
    - right. split; [exact G4|]. exists r0, c0. split; [apply HP, P0|]. do 3 (split; [reflexivity|]). intros r1 c1 H1. apply G5, HP, H1. }
  split; [apply Ext; intros r1 c1; unfold inside; tauto|]. intro Hc. apply Ext. intros r1 c1. unfold inside. pose proof (completes_complete HW Ht Hc) as HC. split.
  - intros ((A1 & A2 & A3) & A4). split; [|exact A3]. split; [exact A1|]. split; [exact A2|]. apply (complete_cell HW Ht HC A1 A2). exact A4.
  - intros ((A1 & A2 & A4) & A3). split; [tauto|]. apply (complete_cell HW Ht HC A1 A2). exact A4.
Qed.
Print Assumptions C80_contextual.

(** ** C81. ThresholdCounter consumers: the entry for threshold [x] and column [j] is the number of rows at a distance of at most [x],
    among those delivered, if only diagonals are calculated and a self-join excludes the main diagonal ... *)
Theorem C81_counters_partial : forall e k m n nq series query buffer dims, world_ok e -> well_posed k m n nq series query buffer dims ->
  forall ids calls thr, (forall id, In id ids -> id < length dims) -> Forall sensible_call calls -> 
  let h := nq + 1 - m in let w := n + 1 - m in let b := buffer_used query (Z.of_nat m) buffer in let D := matrix_of k m dims series query in
  Forall diags_call calls -> (is_self query = true -> (0 <= b)%Z) ->
  exists t cns, delivers query m n nq buffer calls t /\
    kprogram e k tc_step (Z.of_nat m) series query buffer (map Z.of_nat dims) (map (fun id => ([id], fun _ q s => Ok (tc_init thr (Z.to_nat q) (Z.to_nat s)))) ids) calls = Ok cns /\
    Forall2 (fun id s => forall i x j, nth_error thr i = Some x -> j < w -> exists c, mget (tc_counts s) i j = Ok c /\
      how_many (fun r => r < h /\ SEnd.given (is_self query) b t r j /\ fleb (D id r j) x = true) c /\
      (completes calls -> how_many (fun r => outside b h j r /\ fleb (D id r j) x = true) c)) ids cns.
Proof.
  intros e k m n nq series query buffer dims HE HW ids calls thr Hids Hcalls h w b D Hk Hb. pose proof (pos_h HW) as Hh. apply (@kind_each e k m n nq series query buffer dims HE HW); [exact Hids|exact Hcalls|].
  intros t id Ht Hid. pose proof (delivers_fine HW Ht) as F. destruct Ht as (order & p & HP & HM & Et). pose proof (only_diags Hk HM) as Hc. pose proof (diags_once _ _ _ HP HM) as Hnd. rewrite Et in Hc, Hnd. assert (Ht : delivers query m n nq buffer calls t) by (exists order, p; auto).
  destruct (@tc_of_diags R NumR (is_self query) h w b (D id) (@Dnan k m n nq series query dims id) (Dself HW (Hids id Hid)) Hh thr t F Hc Hnd Hb) as (s & E & G).
  eexists _, s. split; [cbn beta; rewrite !Nat2Z.id; reflexivity|]. split; [exact E|]. intros i x j Hi Hj. destruct (G i x j Hi Hj) as (c & Ec & G1). exists c. split; [exact Ec|]. split; [exact G1|].
  intro Hcs. eapply how_many_ext; [|exact G1]. intro r. cbn beta. unfold outside. split.
  - intros (A1 & A2 & A3). apply (complete_cell HW Ht (completes_complete HW Ht Hcs) A1 Hj) in A2. unfold trivial in A2. unfold b. split; [split; [exact A1|lia]|exact A3].
  - intros ((A1 & A2) & A3). split; [exact A1|]. split; [|exact A3]. apply (complete_cell HW Ht (completes_complete HW Ht Hcs) A1 Hj). unfold trivial. unfold b in A2. lia.
Qed.
Print Assumptions C81_counters_partial.

(** ... and if only columns are calculated: those of the whole column, with trivial matches at distance +inf. *)
Theorem C81_counters_columns_partial : forall e k m n nq series query buffer dims, world_ok e -> well_posed k m n nq series query buffer dims ->
  forall ids calls thr, (forall id, In id ids -> id < length dims) -> Forall sensible_call calls -> 
  let h := nq + 1 - m in let w := n + 1 - m in let b := buffer_used query (Z.of_nat m) buffer in let D := matrix_of k m dims series query in
  Forall cols_call calls ->
  exists t cns, delivers query m n nq buffer calls t /\
    kprogram e k tc_step (Z.of_nat m) series query buffer (map Z.of_nat dims) (map (fun id => ([id], fun _ q s => Ok (tc_init thr (Z.to_nat q) (Z.to_nat s)))) ids) calls = Ok cns /\
    Forall2 (fun id s => forall i x j, nth_error thr i = Some x -> j < w -> exists c, mget (tc_counts s) i j = Ok c /\
      (In j (cols_in t) -> how_many (fun r => r < h /\ fleb (masked b (D id) r j) x = true) c) /\ (~ In j (cols_in t) -> c = 0)) ids cns.
Proof.
  intros e k m n nq series query buffer dims HE HW ids calls thr Hids Hcalls h w b D Hk. pose proof (pos_h HW) as Hh. apply (@kind_each e k m n nq series query buffer dims HE HW); [exact Hids|exact Hcalls|].
  intros t id Ht Hid. pose proof (delivers_fine HW Ht) as F. destruct Ht as (order & p & HP & HM & Et). pose proof (only_cols Hk HM) as Hc. rewrite Et in Hc.
  destruct (@tc_of_columns R NumR (is_self query) h w b (D id) thr t F Hc) as (s & E & _ & G).
  eexists _, s. split; [cbn beta; rewrite !Nat2Z.id; reflexivity|]. split; [exact E|]. exact G.
Qed.
Print Assumptions C81_counters_columns_partial.

(** ** C82. RadiusProfile0 consumers: if no diagonal is delivered, entry [i] of column [j] is the [k_i]-th smallest value of the column
    (trivial matches at +inf), NaN for columns that were not delivered; if a diagonal is delivered, the program raises. *)
Theorem C82_radius : forall e k m n nq series query buffer dims, world_ok e -> well_posed k m n nq series query buffer dims ->
  forall ids calls track, (forall id, In id ids -> id < length dims) -> Forall sensible_call calls -> track <> [] -> (forall x, In x track -> (0 <= x)%Z) ->
  let h := nq + 1 - m in let w := n + 1 - m in let b := buffer_used query (Z.of_nat m) buffer in let D := matrix_of k m dims series query in
  let run := kprogram e k rp0_step (Z.of_nat m) series query buffer (map Z.of_nat dims) (map (fun id => ([id], fun _ q s => rp_init track 0 (Z.to_nat q) (Z.to_nat s))) ids) calls in
  exists t, delivers query m n nq buffer calls t /\ (Forall cols_call calls -> diags_in t = []) /\
    (diags_in t <> [] -> ids <> [] -> forall cns, run <> Ok cns) /\
    (diags_in t = [] -> exists cns, run = Ok cns /\
      Forall2 (fun id s => Permutation (map Z.of_nat (rp_track s)) track /\ Sorted.StronglySorted le (rp_track s) /\ is_mat (length track) w (rp_values s) /\
        forall i x j, nth_error (rp_track s) i = Some x -> j < w -> exists v, mget (rp_values s) i j = Ok v /\
          (In j (cols_in t) -> kth_smallest x (column_of h (masked b (D id)) j) v) /\ (~ In j (cols_in t) -> v = NaN)) ids cns).
Proof.
  intros e k m n nq series query buffer dims HE HW ids calls track Hids Hcalls Ht1 Ht2 h w b D run. pose proof (pos_h HW) as Hh.
  set (init := fun (_ : nat) q s => @rp_init R track 0 (Z.to_nat q) (Z.to_nat s)) in run.
  destruct (@kind_told e k m n nq series query buffer dims HE HW _ rp0_step (map (fun id => ([id], init)) ids) calls) as (t & Ht & HT); [|exact Hcalls|].
  { intros is' i id Hin Hi. apply in_map_iff in Hin. destruct Hin as (id' & E & Hin). injection E as <- <-. destruct Hi as [<-|[]]. auto. }
  fold h w b D in HT. exists t. split; [exact Ht|]. split; [|split].
  - intro Hk. destruct Ht as (order & p & HP & HM & Et). rewrite <- Et. exact (only_cols Hk HM).
  - intros Hd Hn cns E. apply HT in E. destruct ids as [|id ids']; [congruence|]. cbn [map] in E. inversion E as [|x y l l' (c0 & E0 & E1)]; subst. cbn [fst] in E1.
    assert (Hin : exists d vs, In (EDiag d vs) (told D h w (is_self query) b t [id])).
    { destruct (diags_in t) as [|d ds] eqn:Ed; [congruence|]. exists d. eexists. apply told_in. right. exists d. split; [rewrite Ed; left; reflexivity|left; reflexivity]. }
    destruct Hin as (d & vs & Hin). revert c0 E0 E1. generalize (told D h w (is_self query) b t [id]), Hin. clear. intros es Hin c0 _. revert c0. induction es as [|ev es IH]; [destruct Hin|]. intros c0 E. cbn [foldM bind] in E. destruct Hin as [->|Hin]; [discriminate|]. destruct (rp0_step c0 ev); [eapply IH; eauto|discriminate].
  - intro Hd. pose proof (delivers_fine HW Ht) as F.
    destruct (@all_post k m n nq series query buffer dims _ rp0_step (map (fun id => ([id], init)) ids) t
      (fun ci s => match fst ci with [id] => Permutation (map Z.of_nat (rp_track s)) track /\ Sorted.StronglySorted le (rp_track s) /\ is_mat (length track) w (rp_values s) /\
        forall i x j, nth_error (rp_track s) i = Some x -> j < w -> exists v, mget (rp_values s) i j = Ok v /\
          (In j (cols_in t) -> kth_smallest x (column_of h (masked b (D id)) j) v) /\ (~ In j (cols_in t) -> v = NaN) | _ => False end)) as (cns & HF & HP).
    + intros ci Hin. apply in_map_iff in Hin. destruct Hin as (id & <- & Hin). destruct (@rp0_of_columns R NumR OrdR (is_self query) h w b (D id) track t Ht1 Ht2 F Hd) as (s0 & s & E0 & E & G). exists s0, s. split; [cbn [fst snd length]; unfold init; rewrite !Nat2Z.id; exact E0|]. split; [exact E|]. exact G.
    + exists cns. split; [apply HT, HF|]. clear - HP. remember (map _ ids) as cis eqn:E. revert ids E. induction HP as [|ci c cis cns H HP IH]; intros [|id ids] E; try discriminate; [constructor|]. injection E as -> ->. constructor; [exact H|apply IH; reflexivity].
Qed.
Print Assumptions C82_radius.

(** ** C83. MatrixProfileLRReservoir consumers: whatever is drawn, the profile is exact and the index names a best match; every best match
    is drawn with a probability proportional to the number of times it was delivered since its column was last delivered. *)
Theorem C83_reservoir : forall e k m n nq series query buffer dims, world_ok e -> well_posed k m n nq series query buffer dims ->
  forall ids calls, (forall id, In id ids -> id < length dims) -> Forall sensible_call calls ->
  let h := nq + 1 - m in let w := n + 1 - m in let b := buffer_used query (Z.of_nat m) buffer in let D := matrix_of k m dims series query in
  exists t cns, delivers query m n nq buffer calls t /\
    kprogram e k mrs_next (Z.of_nat m) series query buffer (map Z.of_nat dims) (map (fun id => ([id], fun _ q s => Ok (Ret (mrs_init (Z.to_nat q) (Z.to_nat s))))) ids) calls = Ok cns /\
    Forall2 (fun id T =>
      safe (rbind T (fun s => rbind (mrs_idx s) (fun l => Ret (mrs_mp s, l)))) (profile_ok (D id) w (fun j r => r < h /\ SEnd.given (is_self query) b t r j)) /\
      forall j rows r, j < w -> let best := best_row (fun r => r < h /\ SEnd.given (is_self query) b t r j) (fun r => D id r j) in
        NoDup rows -> (forall r, In r rows <-> best r) -> rows <> [] ->
        (best r -> (prob (rbind T mrs_idx) (fun l => at_row (Z.of_nat r) (nth_error l j)) ==
                    frac (weight (is_self query) t r j) (list_sum (map (fun r => weight (is_self query) t r j) rows)))%Q) /\
        (~ best r -> (prob (rbind T mrs_idx) (fun l => at_row (Z.of_nat r) (nth_error l j)) == 0)%Q)) ids cns.
Proof.
  intros e k m n nq series query buffer dims HE HW ids calls Hids Hcalls h w b D. pose proof (pos_h HW) as Hh. apply (@kind_each e k m n nq series query buffer dims HE HW); [exact Hids|exact Hcalls|].
  intros t id Ht Hid. pose proof (delivers_fine HW Ht) as F.
  destruct (@mrs_of R NumR OrdR (is_self query) h w b (D id) (@Dnan k m n nq series query dims id) (Dself HW (Hids id Hid)) Hh (fun r c _ _ => @matrix_ninf k m dims series query id r c) t F) as (T & E & G).
  eexists _, T. split; [cbn beta; rewrite !Nat2Z.id; reflexivity|]. split; [exact E|]. exact G.
Qed.
Print Assumptions C83_reservoir.

(** All best matches are equally likely if no diagonals are asked for after columns.  Missing: the other orders of the calls, and negative
    trivial match buffers in self-joins. *)
Theorem C83_reservoir_partial : forall e k m n nq series query buffer dims, world_ok e -> well_posed k m n nq series query buffer dims ->
  forall ids calls1 calls2, (forall id, In id ids -> id < length dims) -> Forall sensible_call (calls1 ++ calls2) ->
  let h := nq + 1 - m in let w := n + 1 - m in let b := buffer_used query (Z.of_nat m) buffer in let D := matrix_of k m dims series query in
  Forall diags_call calls1 -> Forall cols_call calls2 -> (is_self query = true -> (0 <= b)%Z) ->
  exists t cns, delivers query m n nq buffer (calls1 ++ calls2) t /\
    kprogram e k mrs_next (Z.of_nat m) series query buffer (map Z.of_nat dims) (map (fun id => ([id], fun _ q s => Ok (Ret (mrs_init (Z.to_nat q) (Z.to_nat s))))) ids) (calls1 ++ calls2) = Ok cns /\
    Forall2 (fun id T =>
      forall j c r, j < w -> let best := best_row (fun r => r < h /\ SEnd.given (is_self query) b t r j) (fun r => D id r j) in how_many best c -> 0 < c ->
        (best r -> (prob (rbind T mrs_idx) (fun l => at_row (Z.of_nat r) (nth_error l j)) == frac 1 c)%Q) /\
        (~ best r -> (prob (rbind T mrs_idx) (fun l => at_row (Z.of_nat r) (nth_error l j)) == 0)%Q)) ids cns.
Proof.
  intros e k m n nq series query buffer dims HE HW ids calls1 calls2 Hids Hcalls h w b D Hk1 Hk2 Hb. pose proof (pos_h HW) as Hh. apply (@kind_each e k m n nq series query buffer dims HE HW); [exact Hids|exact Hcalls|].
  intros t id Ht Hid. pose proof (delivers_fine HW Ht) as F.
  destruct (@mrs_of R NumR OrdR (is_self query) h w b (D id) (@Dnan k m n nq series query dims id) (Dself HW (Hids id Hid)) Hh (fun r c _ _ => @matrix_ninf k m dims series query id r c) t F) as (T & E & _ & G).
  eexists _, T. split; [cbn beta; rewrite !Nat2Z.id; reflexivity|]. split; [exact E|].
  intros j c r Hj best (rows & N & Hrows & <-) Hc. assert (Hne : rows <> []) by (intros ->; cbn in Hc; lia).
  destruct Ht as (order & p & HP & HM & Et). destruct (mixture_split calls1 Hk2 HM) as (p1 & t2 & M1 & Es & Ed). pose proof (only_diags Hk1 M1) as Ec. pose proof (diags_once _ _ _ HP M1) as Hnd. rewrite Es in Et.
  assert (W : forall r, best r -> weight (is_self query) t r j = 1).
  { intros r0 ((_ & Hg) & _). rewrite <- Et. apply (@weight_one (is_self query) b); try assumption.
    - intros d Hd. destruct F as [_ Fd]. assert (In d (diags_in t)) as Hd' by (rewrite <- Et; unfold diags_in in *; rewrite flat_map_app; apply in_app_iff; auto). destruct (Fd d Hd') as (_ & F1 & F2). auto.
    - rewrite Et. apply given_delivered in Hg. apply Hg. }
  destruct (G j rows r Hj N Hrows Hne) as [G1 G2]. split; [|exact G2]. intro Hr. eapply Qeq_trans; [exact (G1 Hr)|]. rewrite (W r Hr).
  replace (list_sum _) with (length rows); [reflexivity|]. assert (Hall : forall r, In r rows -> weight (is_self query) t r j = 1) by (intros r0 H0; apply W, Hrows, H0). clear - Hall.
  induction rows as [|r rows IH]; [reflexivity|]. change (S (length rows) = weight (is_self query) t r j + list_sum (map (fun r => weight (is_self query) t r j) rows)). rewrite (Hall r) by (left; reflexivity). rewrite <- IH; [reflexivity|]. intros r0 H0. apply Hall. right. exact H0.
Qed.
Print Assumptions C83_reservoir_partial.

(** ** C84. MultidimensionalMatrixProfileLR consumers, of the generators [ids] each: entry (k, j) is the smallest average over the k+1
    best dimensions of the delivered rows of column [j] outside the trivial match zone, with the row and the dimensions; the left and right
    profiles take the rows up to [j] and the rows after [j].  If the query is longer than the series and a diagonal below the main diagonal
    is delivered, the program raises. *)
Theorem C84_multidim : forall e k m n nq series query buffer dims, world_ok e -> well_posed k m n nq series query buffer dims ->
  forall groups calls memn memz memd sf argsort, (forall ids, In ids groups -> ids <> [] /\ forall id, In id ids -> id < length dims) -> Forall sensible_call calls ->
  (1 <= sf)%Q -> (sf <= 2)%Q -> argsorts argsort ->
  let h := nq + 1 - m in let w := n + 1 - m in let b := buffer_used query (Z.of_nat m) buffer in let D := matrix_of k m dims series query in
  let run := kprogram e k (md_step argsort) (Z.of_nat m) series query buffer (map Z.of_nat dims) (map (fun ids => (ids, fun d q s => md_init memn memz memd sf d (Z.to_nat q) (Z.to_nat s))) groups) calls in
  exists t, delivers query m n nq buffer calls t /\ (Forall cols_call calls -> diags_in t = []) /\
    (nq <= n \/ (forall d, In d (diags_in t) -> (0 <= d)%Z) -> exists cns, run = Ok cns /\
      Forall2 (fun ids s => forall i j, i < length ids -> j < w -> exists l r x, md_left s i j = Ok l /\ md_right s i j = Ok r /\ md_merged s i j = Ok x /\
        let values := fun r => map (fun id => D id r j) ids in
        smallest_average (fun r => (r < h /\ SEnd.given (is_self query) b t r j) /\ r <= j) values i l /\
        smallest_average (fun r => (r < h /\ SEnd.given (is_self query) b t r j) /\ j < r) values i r /\
        smallest_average (fun r => r < h /\ SEnd.given (is_self query) b t r j) values i x /\
        (completes calls -> smallest_average (outside b h j) values i x)) groups cns) /\
    (n < nq -> (exists d, In d (diags_in t) /\ (d < 0)%Z) -> groups <> [] -> forall cns, run <> Ok cns).
Proof.
  intros e k m n nq series query buffer dims HE HW groups calls memn memz memd sf argsort Hg Hcalls S1 S2 Ha h w b D run. pose proof (pos_h HW) as Hh. pose proof (pos_w HW) as Hw.
  set (init := fun d q s => @md_init R memn memz memd sf d (Z.to_nat q) (Z.to_nat s)) in run.
  destruct (@kind_told e k m n nq series query buffer dims HE HW _ (md_step argsort) (map (fun ids => (ids, init)) groups) calls) as (t & Ht & HT); [|exact Hcalls|].
  { intros is' i id Hin Hi. apply in_map_iff in Hin. destruct Hin as (ids & E & Hin). injection E as <- <-. exact (proj2 (Hg ids Hin) id Hi). }
  fold h w b D in HT. pose proof (delivers_fine HW Ht) as F.
  assert (HR : forall id r c, real (D id r c)). { intros. split; [|apply matrix_ninf]. intro C. pose proof (matrix_nan k m dims series query id r c) as HN. unfold D in C. rewrite C in HN. discriminate. }
  assert (HS : forall ids, In ids groups -> is_self query = true -> h = w /\ forall id r c, In id ids -> r < h -> c < h -> D id r c = D id c r).
  { intros ids Hin Es. destruct (Hg ids Hin) as [Hne Hids]. destruct ids as [|id0 ids']; [congruence|]. split; [apply (Dself HW (Hids id0 ltac:(left; reflexivity)) Es)|]. intros id r c Hi. apply (Dself HW (Hids id Hi) Es). }
  exists t. split; [exact Ht|]. split; [intro Hk; destruct Ht as (order & p & HP & HM & Et); rewrite <- Et; exact (only_cols Hk HM)|]. split.
  - intro Hlong. set (post := fun ids s => forall i j, i < length ids -> j < w -> exists l r x, md_left s i j = Ok l /\ md_right s i j = Ok r /\ md_merged s i j = Ok x /\
      let values := fun r => map (fun id => D id r j) ids in
      smallest_average (fun r => (r < h /\ SEnd.given (is_self query) b t r j) /\ r <= j) values i l /\
      smallest_average (fun r => (r < h /\ SEnd.given (is_self query) b t r j) /\ j < r) values i r /\
      smallest_average (fun r => r < h /\ SEnd.given (is_self query) b t r j) values i x /\
      (completes calls -> smallest_average (outside b h j) values i x)).
    destruct (@all_post k m n nq series query buffer dims _ (md_step argsort) (map (fun ids => (ids, init)) groups) t (fun ci s => post (fst ci) s)) as (cns & HF & HP).
    + intros ci Hin. apply in_map_iff in Hin. destruct Hin as (ids & <- & Hin). destruct (Hg ids Hin) as [Hne Hids]. cbn [fst snd].
      destruct (@md_of R NumR OrdR AvgR (is_self query) h w b D ids) with (memn := memn) (memz := memz) (memd := memd) (sf := sf) (argsort := argsort) (t := t) as (s0 & s & E0 & E & G); try assumption.
      * intros; apply HR.
      * intros. apply matrix_pos.
      * exact (HS ids Hin).
      * destruct Hlong as [Hl|Hk]; [left; unfold h, w; lia|right; exact Hk].
      * exists s0, s. split; [unfold init; rewrite !Nat2Z.id; exact E0|]. split; [exact E|]. intros i j Hi Hj. destruct (G i j Hi Hj) as (l & r & x & G1 & G2 & G3 & G4 & G5 & G6). exists l, r, x. do 3 (split; [assumption|]). intro values. do 3 (split; [assumption|]). intro Hc. pose proof (completes_complete HW Ht Hc) as HC.
        assert (Eqv : forall r, outside b h j r <-> r < h /\ SEnd.given (is_self query) b t r j).
        { intro r1. unfold outside. split; intros [Hr Hx]; (split; [exact Hr|]).
          - apply (complete_cell HW Ht HC Hr Hj). unfold trivial. unfold b in Hx. lia.
          - apply (complete_cell HW Ht HC Hr Hj) in Hx. unfold trivial in Hx. unfold b. lia. }
        destruct x as [[v q] ds]. destruct G6 as [(-> & -> & -> & G6)|(Hlt & r1 & Hr & -> & Hk & G6)].
        -- left. do 3 (split; [reflexivity|]). intros r1 ds' s' Hr. apply G6, Eqv, Hr.
        -- right. split; [exact Hlt|]. exists r1. split; [apply Eqv; exact Hr|]. do 2 (split; [reflexivity || assumption|]). intros r2 ds' s' Hr'. apply G6, Eqv, Hr'.
    + exists cns. split; [apply HT, HF|]. clear - HP. remember (map _ groups) as cis eqn:E. revert groups E. induction HP as [|ci c cis cns H H3 IH]; intros [|ids groups] E; try discriminate; [constructor|]. injection E as -> ->. constructor; [exact H|apply IH; reflexivity].
  - intros Hl (d & Hd & Hneg) Hn cns E. apply HT in E. destruct groups as [|ids groups']; [congruence|]. cbn [map] in E. inversion E as [|x y l l' (c0 & E0 & E1)]; subst. cbn [fst snd] in E0, E1. destruct (Hg ids ltac:(left; reflexivity)) as [Hne Hids].
    destruct (@told_rejected R NumR OrdR AvgR (is_self query) h w b D ids) with (memn := memn) (memz := memz) (memd := memd) (sf := sf) (argsort := argsort) (t := t) (d := d) as (s0 & E0' & E'); try assumption.
    + intros; apply HR.
    + intros. apply matrix_pos.
    + apply HS. left. reflexivity.
    + unfold h, w. destruct HW as ((? & ?) & _). lia.
    + unfold init in E0. rewrite !Nat2Z.id in E0. rewrite E0' in E0. injection E0 as <-. rewrite E' in E1. discriminate.
Qed.
Print Assumptions C84_multidim.

(** ** Examples: Euclidean distances of subsequences of one point *)
Definition zprogram {C} (c_step : C -> event (num Z) -> res C) := program (eu_calc_column (fun _ => NaN)) (@eu_calc_diagonal Z NumZ) (fun m s q => eu_prepare (fun _ => NaN) 2 (Z.to_nat m) s q) c_step quick (fun l => rev l).
Local Notation zs := (map (@Fin Z)).
Definition two : list (list (num Z)) := [zs [4; 0; 3; 0; 4]; zs [0; 2; 2; 0; 0]]%Z.
Definition all_diags : list acall := [ADiags never (RInt 3); ADiags never (RFloat (Fin 1%Q))].
Definition all_cols : list acall := [ACols never None (RInt 2); ACols never None (RFloat (Fin 1%Q))].
Definition some_of_both : list acall := [ACols never None (RInt 2); ADiags never (RInt 3)].

Example C78_example_hyps : world_ok (mkWorld (fun _ => NaN) (fun _ => true) 1 2 quick (fun l => rev l)) /\
  well_posed KEuclid 1 3 3 [map Fin [0; 1; 5]%R; map Fin [2; 2; 0]%R] None None [1; 0] /\
  well_posed (KFiltered 1) 2 3 4 [map Fin [0; 1; 5]%R] (Some [[Fin 0%R; NaN; PInf; Fin 3%R]]) None [0; 0] /\
  Forall sensible_call (some_of_both ++ all_diags) /\ completes (some_of_both ++ all_diags).
Proof.
  split; [|split; [|split; [|split]]].
  - split; [discriminate|]. split; [discriminate|]. split; [split; [apply NoDup_nodup|intro x; apply nodup_In]|intro l; symmetry; apply Permutation_rev].
  - split; [|split; [discriminate|split; [exact I|]]].
    + repeat split; try lia; try (intros r [<-|[<-|[]]]; reflexivity); discriminate.
    + assert (HF : forall l : list R, all_finite (map Fin l)) by (intros l x Hx; apply in_map_iff in Hx; destruct Hx as (y & <- & _); reflexivity).
      assert (H15 : (/ 10 ^ 15 < 1)%R) by (rewrite <- Rinv_1; apply Rinv_lt_contravar; lra).
      assert (HS : forall d, d < 2 -> separated 1 (map val (nth d [map Fin [0; 1; 5]%R; map Fin [2; 2; 0]%R] [])) (map val (nth d [map Fin [0; 1; 5]%R; map Fin [2; 2; 0]%R] []))).
      { intros d Hd i j. revert H15. generalize (/ 10 ^ 15)%R. intros y Hy. destruct d as [|[|]]; [| |lia]; cbn [nth map val length]; intros Hi Hj; (destruct i as [|[|[|]]]; [| | |lia]); (destruct j as [|[|[|]]]; [| | |lia]); cbn; lra. }
      intros d Hd. assert (d < 2) by (cbn [In] in Hd; lia). split; [assumption|]. cbn [data_ok rows_or]. split; [|split; [|apply HS; assumption]]; (destruct d as [|[|]]; [apply HF|apply HF|lia]).
  - split; [|split; [discriminate|split; [cbn; lra|]]].
    + repeat split; try lia; try (intros r [<-|[]]; reflexivity); discriminate.
    + intros d Hd. split; [cbn [In length] in *; lia|exact I].
  - repeat constructor; discriminate.
  - left. eexists (some_of_both ++ [ADiags never (RInt 3)]). reflexivity.
Qed.

Example C78_example : bind (zprogram mplr_step 1 two None None [0; 1]%Z (map (fun id => ([id], fun _ q s => Ok (mplr_init (Z.to_nat q) (Z.to_nat s)))) [0; 1; 0]) all_diags)
    (fun l => Ok (map (fun c => (mplr_mp c, mplr_idx c)) l)) =
  Ok [(zs [0; 0; 1; 0; 0], [4; 3; 4; 1; 0]); (zs [0; 0; 0; 0; 0], [4; 2; 1; 4; 0]); (zs [0; 0; 1; 0; 0], [4; 3; 4; 1; 0])]%Z.
Proof. vm_compute. reflexivity. Qed.
Example C79_example : zprogram dm_step 1 two None None [0; 1]%Z (map (fun id => ([id], fun d q s => dm_init d (Z.to_nat q) (Z.to_nat s))) [1; 0]) some_of_both =
  Ok [[[PInf; Fin 2; NaN; Fin 0; Fin 0]; [Fin 2; PInf; NaN; NaN; Fin 2]; [Fin 2; Fin 0; NaN; NaN; NaN]; [Fin 0; Fin 2; NaN; NaN; NaN]; [Fin 0; Fin 2; NaN; NaN; NaN]];
      [[PInf; Fin 4; NaN; Fin 4; Fin 0]; [Fin 4; PInf; NaN; NaN; Fin 4]; [Fin 1; Fin 3; NaN; NaN; NaN]; [Fin 4; Fin 0; NaN; NaN; NaN]; [Fin 0; Fin 4; NaN; NaN; NaN]]]%Z.
Proof. vm_compute. reflexivity. Qed.
(** Query contexts: rows 0-2, rows 2-6; series contexts: columns 0-1, columns 1 and 3-8.  Columns of the tables are listed. *)
Example C80_example : (do g <- gsm_new zargsort [One (mkRange 0 2 1); Many [mkRange 1 2 1; mkRange 3 9 1]] (Some [One (mkRange 0 3 1); One (mkRange 2 7 1)]);
   do l <- zprogram (cm_step gsm_ops) 1 two None None [0; 1]%Z (map (fun id => ([id], fun _ q s => cm_init gsm_ops (fun _ => []) (fun _ => []) 2 g (Z.to_nat q) (Z.to_nat s))) [0; 1]) some_of_both;
   Ok (map cm_tables l)) =
  Ok [([zs [1; 0]; zs [0; 0]], [[2; 4]; [0; 3]], [[0; 0]; [4; 1]]); ([zs [0; 0]; zs [0; 0]], [[2; 3]; [2; 2]], [[1; 0]; [1; 1]])]%Z.
Proof. vm_compute. reflexivity. Qed.

Definition count_program (thr : list Z) (series : list (list Z)) (buffer : option Z) (dims : list Z) (ids : list nat) (calls : list acall) :=
  bind (zprogram tc_step 1 (map (fun r => zs r) series) None buffer dims (map (fun id => ([id], fun d q s => Ok (tc_init (zs thr) (Z.to_nat q) (Z.to_nat s)))) ids) calls) (fun l => Ok (map (@tc_counts Z) l)).
Example C81_example : forall calls, In calls [all_diags; all_cols] ->
  count_program [0; 1]%Z [[4; 0; 3; 0; 4]; [0; 2; 2; 0; 0]]%Z None [0; 1]%Z [1; 0] calls = Ok [[[2; 1; 1; 2; 2]; [2; 1; 1; 2; 2]]; [[1; 1; 0; 1; 1]; [2; 1; 2; 1; 2]]].
Proof. intros calls [<-|[<-|[]]]; vm_compute; reflexivity. Qed.
(** Refuted: columns and diagonals in one program, both complete.  Two equal points: each counts its only match twice. *)
Theorem C81_counters_refuted : exists calls, Forall sensible_call calls /\ completes calls /\
  how_many (fun r => outside 0 2 0 r /\ (Z.abs (nth r [5; 5] 0 - 5) <= 1)%Z) 1 /\ count_program [1]%Z [[5; 5]]%Z None [0]%Z [0] calls = Ok [[[2; 2]]].
Proof.
  exists (all_cols ++ all_diags). split; [repeat constructor; discriminate|]. split; [left; exists (all_cols ++ [ADiags never (RInt 3)]); reflexivity|]. split; [|vm_compute; reflexivity].
  exists [1]. split; [repeat constructor; intros []|]. split; [|reflexivity]. intro r. unfold outside. cbn [In]. split; [intros [<-|[]]; cbn; lia|]. intros [[H1 H2] _]. lia.
Qed.
Print Assumptions C81_counters_refuted.
(** Refuted: trivial match buffer -1.  One point: it counts itself twice, since the main diagonal is delivered twice. *)
Theorem C81_main_diagonal_refuted : exists calls, Forall diags_call calls /\ Forall sensible_call calls /\ completes calls /\
  how_many (fun r => outside (-1) 1 0 r /\ (Z.abs (nth r [5] 0 - 5) <= 1)%Z) 1 /\ count_program [1]%Z [[5]]%Z (Some (-1)%Z) [0]%Z [0] calls = Ok [[[2]]].
Proof.
  exists all_diags. split; [repeat constructor|]. split; [repeat constructor; discriminate|]. split; [left; exists [ADiags never (RInt 3)]; reflexivity|]. split; [|vm_compute; reflexivity].
  exists [0]. split; [repeat constructor; intros []|]. split; [|reflexivity]. intro r. unfold outside. cbn [In]. split; [intros [<-|[]]; cbn; lia|]. intros [[H1 H2] _]. lia.
Qed.
Print Assumptions C81_main_diagonal_refuted.

Definition radius_program (calls : list acall) :=
  bind (zprogram rp0_step 1 two None None [0; 1]%Z (map (fun id => ([id], fun d q s => rp_init [2; 1]%Z 0 (Z.to_nat q) (Z.to_nat s))) [1; 0]) calls) (fun l => Ok (map (fun s => (rp_track s, rp_values s)) l)).
Example C82_example : radius_program all_cols = Ok [([1; 2]%nat, [zs [0; 2; 2; 0; 0]; zs [2; 2; 2; 2; 2]]); ([1; 2]%nat, [zs [1; 3; 1; 3; 1]; zs [4; 4; 3; 4; 4]])]%Z.
Proof. vm_compute. reflexivity. Qed.
Example C82_example_raises : radius_program (all_cols ++ [ADiags never (RInt 1)]) = Err NotImplementedError.
Proof. vm_compute. reflexivity. Qed.

(** The probability of each row as the match of column [j] *)
Definition drawn (series : list Z) (buffer : option Z) (calls : list acall) (j : nat) :=
  bind (zprogram mrs_next 1 [zs series] None buffer [0]%Z [([0], fun _ q s => Ok (Ret (mrs_init (Z.to_nat q) (Z.to_nat s))))] calls)
    (fun l => Ok (map (fun T => map (fun r => Qred (prob (rbind T mrs_idx) (fun l => at_row (Z.of_nat r) (nth_error l j)))) (seq 0 (length series))) l)).
Example C83_example : drawn [5; 5; 6; 5]%Z (Some 0)%Z all_diags 0 = Ok [[0; 1 # 2; 0; 1 # 2]]%Q.
Proof. vm_compute. reflexivity. Qed.
(** Diagonals, then columns: uniform. *)
Example C83_example_columns_last : drawn [5; 5; 5]%Z (Some 0)%Z ([ADiags never (RInt 1)] ++ all_cols) 0 = Ok [[0; 1 # 2; 1 # 2]]%Q.
Proof. vm_compute. reflexivity. Qed.
(** The weights of C83_reservoir in the refutation below: diagonal 2 is delivered after the three columns. *)
Example C83_example_weights : map (fun r => weight true [PCols 0 3; PDiags [2%Z]] r 0) [1; 2] = [1; 2].
Proof. reflexivity. Qed.
(** Refuted: columns and diagonals in one program.  Three equal points: row 2, delivered twice for column 0, is twice as likely. *)
Theorem C83_reservoir_refuted : exists calls, Forall sensible_call calls /\ drawn [5; 5; 5]%Z (Some 0)%Z calls 0 = Ok [[0; 1 # 3; 2 # 3]]%Q.
Proof. exists (all_cols ++ [ADiags never (RInt 1)]). split; [repeat constructor; discriminate|vm_compute; reflexivity]. Qed.
Print Assumptions C83_reservoir_refuted.
(** Refuted: trivial match buffer -1.  Two equal points: row 0 is twice as likely as row 1 for column 0. *)
Theorem C83_main_diagonal_refuted : exists calls, Forall diags_call calls /\ Forall sensible_call calls /\ completes calls /\ drawn [5; 5]%Z (Some (-1))%Z calls 0 = Ok [[2 # 3; 1 # 3]]%Q.
Proof. exists all_diags. split; [repeat constructor|]. split; [repeat constructor; discriminate|]. split; [left; exists [ADiags never (RInt 3)]; reflexivity|]. vm_compute. reflexivity. Qed.
Print Assumptions C83_main_diagonal_refuted.

Definition multi_program (series : list (list Z)) (query : option (list (list (num Z)))) (dims : list Z) (groups : list (list nat)) (calls : list acall) :=
  zprogram (md_step fargsort) 1 (map (fun r => zs r) series) query None dims (map (fun ids => (ids, fun d q s => md_init (fun _ => NaN) (fun _ => 7%Z) (fun _ => []) 2 d (Z.to_nat q) (Z.to_nat s))) groups) calls.
(** Consumers of both channels (channel 1 first) and of channel 0 alone *)
Example C84_example_best : bind (multi_program [[4; 0; 3; 0; 4]; [0; 2; 2; 0; 0]]%Z None [0; 1]%Z [[1; 0]; [0]] all_diags) (mapM (fun s => mapM (md_merged s 0) (seq 0 5))) =
  Ok [[(Fz 0, 4, [0]); (Fz 0, 3, [1]); (Fz 0, 1, [0]); (Fz 0, 4, [0]); (Fz 0, 0, [0])]; [(Fz 0, 4, [0]); (Fz 0, 3, [0]); (Fz 1, 4, [0]); (Fz 0, 1, [0]); (Fz 0, 0, [0])]]%Z.
Proof. vm_compute. reflexivity. Qed.
Example C84_example_both : bind (multi_program [[4; 0; 3; 0; 4]; [0; 2; 2; 0; 0]]%Z None [0; 1]%Z [[1; 0]] all_diags) (mapM (fun s => mapM (md_left s 1) (seq 0 5))) =
  Ok [[(PInf, -1, [-1; -1]); (Fz 3, 0, [0; 1]); (Fz 1, 0, [1; 0]); (Fz 1, 1, [1; 0]); (Fz 0, 0, [0; 1])]]%Z.
Proof. vm_compute. reflexivity. Qed.
(** Refuted: a query longer than the series, diagonals. *)
Theorem C84_multidim_refuted : exists calls, Forall sensible_call calls /\ completes calls /\ multi_program [[5]]%Z (Some [zs [5; 5]%Z]) [0]%Z [[0]] calls = Err IndexError.
Proof. exists all_diags. split; [repeat constructor; discriminate|]. split; [left; exists [ADiags never (RInt 3)]; reflexivity|]. vm_compute. reflexivity. Qed.
Print Assumptions C84_multidim_refuted.
