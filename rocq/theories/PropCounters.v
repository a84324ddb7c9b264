(** * Properties C41-C44: threshold counters and radius profiles *)
From Coq Require Import Permutation Sorted.
From Verif Require Import Np NpFacts Mat SLog SInsights MInsights MCounters SCounters PSort PCounters Inst.

(** C41. After any diagonals every count is the number of delivered values of its column that are at most
    the threshold. *)
Theorem C41_diagonals : forall (A : Type) (NA : NumOps A) (thr : list (num A)) h w (es : list (event (num A))),
  Forall is_diag es -> Forall (fits h w) es ->
  exists s, tc_run (tc_init thr h w) es = Ok s /\ tc_thr s = thr /\
    forall i t c, nth_error thr i = Some t -> c < w ->
      mget (tc_counts s) i c = Ok (count_le t (map snd (sel all_rows (Z.of_nat c) (log es)))).
Proof. exact (@C41_lemma). Qed.
Print Assumptions C41_diagonals.

(** A column replaces the counts of that column only. *)
Theorem C41_column : forall (A : Type) (NA : NumOps A) (s : tc) w c (vals : list (num A)) rest,
  is_mat (length (tc_thr s)) w (tc_counts s) -> c < w ->
  exists s', tc_col s c (vals :: rest) = Ok s' /\ tc_thr s' = tc_thr s /\ is_mat (length (tc_thr s)) w (tc_counts s') /\
    forall i t j, nth_error (tc_thr s) i = Some t ->
      mget (tc_counts s') i j = if j =? c then Ok (count_le t vals) else mget (tc_counts s) i j.
Proof. exact (@C41_column_lemma). Qed.
Print Assumptions C41_column.

(** Both ways of processing agree when the diagonals delivered exactly the values of the column. *)
Theorem C41_agree : forall (A : Type) (NA : NumOps A) (thr : list (num A)) h w (es : list (event (num A))) c vals rest,
  Forall is_diag es -> Forall (fits h w) es -> c < w ->
  Permutation (map snd (sel all_rows (Z.of_nat c) (log es))) vals ->
  exists s s', tc_run (tc_init thr h w) es = Ok s /\ tc_col (tc_init thr h w) c (vals :: rest) = Ok s' /\
    forall i, i < length thr -> mget (tc_counts s) i c = mget (tc_counts s') i c.
Proof. exact (@C41_agree_lemma). Qed.
Print Assumptions C41_agree.

Example C41_case :
  (do s <- tc_run (tc_init [Fz 2; Fz 5] 2 3) [EDiag 0 [[Fz 1; Fz 4]]; EDiag 1 [[Fz 5; NaN]]; EDiag (-1) [[Fz 2]]]; Ok (tc_counts s))
  = Ok [[2; 0; 0]; [2; 2; 0]].
Proof. vm_compute. reflexivity. Qed.

(** C42. One column: the count of threshold [t] grows by the number of greedy picks not above [t]. *)
Theorem C42_column : forall (A : Type) (NA : NumOps A) (OA : OrdLaws A) (thr0 : list (num A)) excl h w,
  no_nan thr0 -> thr0 <> [] ->
  forall (ds : list (list nat * nat * list (num A))),
  (forall order c vals, In (order, c, vals) ds -> c < w /\ no_nan vals /\ sorting_order vals order) ->
  exists s ps, foldM (fun s d => match d with (order, c, vals) => dtc_col order s c [vals] end) ds (dtc_init thr0 excl h w) = Ok s /\
    Permutation thr0 (dt_thr s) /\
    (forall p q a b, p < q -> nth_error (dt_thr s) p = Some a -> nth_error (dt_thr s) q = Some b -> fleb a b = true) /\
    Forall2 (fun d picks => scan excl [] (fst (fst d)) picks) ds ps /\
    forall p t j, nth_error (dt_thr s) p = Some t -> j < w ->
      mget (dt_counts s) p j = Ok (fold_right (fun dp acc => match dp with (_, c, vals, picks) =>
          if c =? j then length (filter (le_at vals t) picks) + acc else acc end) 0 (combine ds ps)).
Proof. exact (@C42_run_lemma). Qed.
Print Assumptions C42_column.

(** The picks exist, are unique, at most [t], pairwise more than [excl] apart and cover every value <= [t]. *)
Theorem C42_picks : forall (A : Type) (NA : NumOps A) (OA : OrdLaws A) (vals : list (num A)) order excl picks t,
  no_nan vals -> sorting_order vals order -> scan excl [] order picks ->
  let ps := filter (le_at vals t) picks in
  (forall i, In i ps -> exists v, nth_error vals i = Some v /\ fleb v t = true) /\
  (forall p q i j, nth_error ps p = Some i -> nth_error ps q = Some j -> p <> q -> apart excl i j) /\
  (forall i v, nth_error vals i = Some v -> fleb v t = true ->
     exists j w, In j ps /\ nth_error vals j = Some w /\ ~ apart excl i j /\ fleb w v = true).
Proof. exact (@C42_picks_lemma). Qed.
Print Assumptions C42_picks.

Theorem C42_scan_functional : forall d order chosen,
  (exists picks, scan d chosen order picks) /\
  forall p p', scan d chosen order p -> scan d chosen order p' -> p = p'.
Proof. intros. split; [apply scan_exists|intros; eapply scan_unique; eassumption]. Qed.
Print Assumptions C42_scan_functional.

(** Exclusion 0 counts every value <= [t], as ThresholdCounter does. *)
Theorem C42_no_exclusion : forall (A : Type) (NA : NumOps A) (vals : list (num A)) order picks t,
  sorting_order vals order -> scan 0 [] order picks ->
  length (filter (le_at vals t) picks) = count_le t vals.
Proof. exact (@C42_no_exclusion_lemma). Qed.
Print Assumptions C42_no_exclusion.

Example C42_case :
  (do s <- dtc_col [1; 2; 4; 0; 3] (dtc_init [Fz 5; Fz 2] 1 5 2) 1 [[Fz 3; Fz 1; Fz 1; Fz 9; Fz 2]]; Ok (dt_thr s, dt_counts s))
  = Ok ([Fz 2; Fz 5], [[0; 2]; [0; 2]]).
Proof. vm_compute. reflexivity. Qed.

(** Processing the same column twice counts it twice, unlike ThresholdCounter. *)
Example C42_twice :
  (do s <- dtc_col [0] (dtc_init [Fz 2] 1 1 1) 0 [[Fz 1]]; do s <- dtc_col [0] s 0 [[Fz 1]]; Ok (dt_counts s)) = Ok [[2]].
Proof. vm_compute. reflexivity. Qed.

(** NaN is counted as a match by the implementation: the comparison that ends the loop is [threshold < value]. *)
Theorem C42_nan_refuted : exists (vals : list (num Z)) order,
  Permutation order (seq 0 (length vals)) /\
  exists s, dtc_col order (dtc_init [Fz 2] 0 1 1) 0 [vals] = Ok s /\ dt_counts s = [[1]] /\ count_le (Fz 2) vals = 0.
Proof. exists [NaN], [0]. split; [apply Permutation_refl|]. eexists. vm_compute. repeat split. Qed.
Print Assumptions C42_nan_refuted.

(** C43. RadiusProfile0. *)
Theorem C43_kth_smallest : forall (A : Type) (NA : NumOps A) (OA : OrdLaws A) (s : rp) w c (vals : list (num A)) rest,
  is_mat (length (rp_track s)) w (rp_values s) -> c < w ->
  exists s', rp0_col s c (vals :: rest) = Ok s' /\ rp_track s' = rp_track s /\ is_mat (length (rp_track s)) w (rp_values s') /\
    (forall i k, nth_error (rp_track s) i = Some k -> exists v, mget (rp_values s') i c = Ok v /\ kth_smallest k vals v) /\
    (forall i j, i < length (rp_track s) -> j <> c -> mget (rp_values s') i j = mget (rp_values s) i j).
Proof. exact (@C43_lemma). Qed.
Print Assumptions C43_kth_smallest.

(** The k-th smallest value is unique (NaN when there are at most k numbers). *)
Theorem C43_unique : forall (A : Type) (NA : NumOps A) (OA : OrdLaws A) k (l : list (num A)) v w,
  kth_smallest k l v -> kth_smallest k l w -> v = w.
Proof. exact (@kth_unique). Qed.
Print Assumptions C43_unique.

(** Initial state of both radius profiles: the tracked ranks, sorted. *)
Theorem C43_init : forall (A : Type) (NA : NumOps A) (track : list Z) excl h w,
  track <> [] -> (forall k, In k track -> (0 <= k)%Z) -> (0 <= excl)%Z ->
  exists s, @rp_init A track excl h w = Ok s /\ rp_excl s = excl /\ length (rp_track s) = length track /\
    Permutation (map Z.of_nat (rp_track s)) track /\ StronglySorted le (rp_track s) /\ is_mat (length (rp_track s)) w (rp_values s) /\
    (NoDup track -> StronglySorted lt (rp_track s)) /\
    (forall i c, i < length track -> c < w -> mget (rp_values s) i c = Ok NaN).
Proof. intros A NA. exact (@rp_init_lemma A). Qed.
Print Assumptions C43_init.

Example C43_case :
  (do s <- rp_init [3; 0]%Z 0 4 2; do s <- rp0_col s 1 [[Fz 4; NaN; Fz 2; Fz 7]]; Ok (rp_values s))
  = Ok [[NaN; Fz 2]; [NaN; NaN]].
Proof. vm_compute. reflexivity. Qed.

(** C44. RadiusProfile with pairwise distinct tracked ranks: entry of rank [k] is the distance of the k-th
    greedy non-trivial match; without a k-th match the entry keeps its previous value (NaN initially). *)
Theorem C44_kth_match_partial : forall (A : Type) (NA : NumOps A) (OA : OrdLaws A) (s : rp) w c (vals : list (num A)) rest d,
  StronglySorted lt (rp_track s) -> rp_track s <> [] ->
  rp_excl s = Z.of_nat d -> is_mat (length (rp_track s)) w (rp_values s) -> c < w -> vals <> [] ->
  exists s' out, rp_col s c (vals :: rest) = Ok s' /\ rp_track s' = rp_track s /\ is_mat (length (rp_track s)) w (rp_values s') /\
    greedy nltb vals d [] out /\
    (forall i k, nth_error (rp_track s) i = Some k ->
       match nth_error out k with
       | Some j => exists v, nth_error vals j = Some (Fin v) /\ mget (rp_values s') i c = Ok (Fin v)
       | None => mget (rp_values s') i c = mget (rp_values s) i c
       end) /\
    (forall i j, j <> c -> mget (rp_values s') i j = mget (rp_values s) i j).
Proof. exact (@C44_lemma). Qed.
Print Assumptions C44_kth_match_partial.

Example C44_case :
  (do s <- rp_init [1; 0; 5]%Z 1 5 2; do s <- rp_col s 0 [[Fz 4; Fz 1; Fz 2; Fz 7; Fz 3]]; Ok (rp_values s))
  = Ok [[Fz 1; NaN]; [Fz 3; NaN]; [NaN; NaN]].
Proof. vm_compute. reflexivity. Qed.

(** Refuted with a repeated rank: column [1; 2] has a 0th and 1st match, but track [0;0;1] stores only the
    first entry. *)
Theorem C44_duplicates_refuted : exists (track : list Z) (vals : list (num Z)) out,
  greedy nltb vals 0 [] out /\ nth_error out 1 = Some 1 /\ nth_error vals 1 = Some (Fz 2) /\
  exists s s', rp_init track 0 2 1 = Ok s /\ rp_track s = [0; 0; 1] /\ rp_col s 0 [vals] = Ok s' /\
    rp_values s' = [[Fz 1]; [NaN]; [NaN]].
Proof.
  exists [0; 0; 1]%Z, [Fz 1; Fz 2]. destruct (@PInsights.C09_lemma Z _ _ [Fz 1; Fz 2] 0 2) as (out & E & G); [discriminate|simpl; lia|].
  vm_compute in E. injection E as <-. exists [0; 1]. split; [exact G|]. split; [reflexivity|]. split; [reflexivity|].
  do 2 eexists. repeat split; vm_compute; reflexivity.
Qed.
Print Assumptions C44_duplicates_refuted.

(** Refuted as well when a column is processed twice and the second time has fewer matches: the entry is stale. *)
Theorem C44_stale_refuted : exists s s' s'' : @rp Z,
  rp_init [1]%Z 1 2 1 = Ok s /\ rp_col s 0 [[Fz 1; Fz 2; Fz 3]] = Ok s' /\ rp_values s' = [[Fz 3]] /\
  rp_col s' 0 [[Fz 1; Fz 2]] = Ok s'' /\ rp_values s'' = [[Fz 3]] /\ lowest_value_idxs 2 [Fz 1; Fz 2] 1 = Ok [0].
Proof. do 3 eexists. repeat split; vm_compute; reflexivity. Qed.
Print Assumptions C44_stale_refuted.
