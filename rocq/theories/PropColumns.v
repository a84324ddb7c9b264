(** * PropColumns: the consumers that process columns only, in complete programs *)
From Coq Require Import QArith Reals Lra Permutation Sorted.
From Verif Require Import Np NpFacts Inst Mat MUtil SLog MInsights SInsights MCounters SCounters SCols PCounters MCalc SReal SCalc PCalcRun SMixed PMixed SEnd PEnd PArith SEndAll PEndAll SEndCons PEndCons PEndKind PEndMulti PEndProg PropCounters PropMulti PropEnd PropEndAll PEndCols.
Set Implicit Arguments.
Open Scope nat_scope.

(** ** C44, for any ranks: an entry is the distance of the k-th non-trivial match if the ranks up to its own are pairwise different, and is
    left as it was otherwise. *)
Theorem C44_any_ranks : forall (A : Type) (NA : NumOps A) (OA : OrdLaws A) (s : rp) w c (vals : list (num A)) rest d,
  StronglySorted le (rp_track s) -> rp_track s <> [] -> rp_excl s = Z.of_nat d -> is_mat (length (rp_track s)) w (rp_values s) -> c < w -> vals <> [] ->
  exists s' out, rp_col s c (vals :: rest) = Ok s' /\ rp_track s' = rp_track s /\ is_mat (length (rp_track s)) w (rp_values s') /\
    greedy nltb vals d [] out /\
    (forall i k, nth_error (rp_track s) i = Some k ->
       (rises (rp_track s) 0 i -> match nth_error out k with
         | Some j => exists v, nth_error vals j = Some (Fin v) /\ mget (rp_values s') i c = Ok (Fin v)
         | None => mget (rp_values s') i c = mget (rp_values s) i c
         end) /\
       (~ rises (rp_track s) 0 i -> mget (rp_values s') i c = mget (rp_values s) i c)) /\
    (forall i j, j <> c -> mget (rp_values s') i j = mget (rp_values s) i j).
Proof. intros. destruct (@radius_column A NA OA s w c vals rest d) as (s' & out & H5 & H6 & _ & H7); auto. exists s', out. auto. Qed.
Print Assumptions C44_any_ranks.
(** Ranks 1, 1, 2: only the first is tracked. *)
Example C44_any_ranks_case : (do s <- rp_init [1; 2; 1]%Z 0 3 1; do s <- rp_col s 0 [[Fz 4; Fz 2; Fz 7]]; Ok (rp_track s, rp_values s)) = Ok ([1; 1; 2], [[Fz 4]; [NaN]; [NaN]]).
Proof. vm_compute. reflexivity. Qed.

(** ** C44, for any ranks and any columns, also when a column is delivered several times with different values: an entry is the distance of
    the k-th non-trivial match of the last delivery of the column that had one; NaN if there was none, or if a rank up to its own occurs
    twice. *)
Definition kth_match {A} {NA : NumOps A} (d k : nat) (vals : list (num A)) (v : A) : Prop := exists out p, greedy nltb vals d [] out /\ nth_error out k = Some p /\ nth_error vals p = Some (Fin v).
Definition no_kth_match {A} {NA : NumOps A} (d k : nat) (vals : list (num A)) : Prop := exists out, greedy nltb vals d [] out /\ nth_error out k = None.
Theorem C44_history : forall (A : Type) (NA : NumOps A) (OA : OrdLaws A) (track : list Z) d h w (cols : list (nat * list (num A))),
  track <> [] -> (forall k, In k track -> (0 <= k)%Z) -> (forall c vals, In (c, vals) cols -> c < w /\ vals <> []) ->
  exists s0 s, @rp_init A track (Z.of_nat d) h w = Ok s0 /\ foldM rp_step (map (fun x => ECol (fst x) [snd x]) cols) s0 = Ok s /\
    Permutation (map Z.of_nat (rp_track s)) track /\ StronglySorted le (rp_track s) /\
    forall i k j, nth_error (rp_track s) i = Some k -> j < w ->
      (~ rises (rp_track s) 0 i -> mget (rp_values s) i j = Ok NaN) /\
      (rises (rp_track s) 0 i ->
        (mget (rp_values s) i j = Ok NaN /\ forall vals, In (j, vals) cols -> no_kth_match d k vals) \/
        (exists before vals v after, cols = before ++ (j, vals) :: after /\ kth_match d k vals v /\ mget (rp_values s) i j = Ok (Fin v) /\
           forall vals', In (j, vals') after -> no_kth_match d k vals')).
Proof.
  intros A NA OA track d h w cols Ht Hp. destruct (@rp_init_lemma A track (Z.of_nat d) h w Ht Hp ltac:(lia)) as (s0 & E0 & Ex & L & HP & HS & M & _ & G0).
  assert (Hne : rp_track s0 <> []) by (intro C; rewrite C in L; destruct track; [congruence|discriminate]).
  intro Hc. exists s0. enough (H : exists s, foldM rp_step (map (fun x => ECol (fst x) [snd x]) cols) s0 = Ok s /\ rp_track s = rp_track s0 /\ rp_excl s = Z.of_nat d /\ is_mat (length (rp_track s)) w (rp_values s) /\
    forall i k j, nth_error (rp_track s) i = Some k -> j < w -> (~ rises (rp_track s) 0 i -> mget (rp_values s) i j = Ok NaN) /\
      (rises (rp_track s) 0 i ->
        (mget (rp_values s) i j = Ok NaN /\ forall vals, In (j, vals) cols -> no_kth_match d k vals) \/
        (exists before vals v after, cols = before ++ (j, vals) :: after /\ kth_match d k vals v /\ mget (rp_values s) i j = Ok (Fin v) /\
           forall vals', In (j, vals') after -> no_kth_match d k vals'))).
  { destruct H as (s & E & Et & _ & _ & G). exists s. split; [exact E0|]. split; [exact E|]. rewrite Et in *. auto. }
  revert Hc. induction cols as [|[c vals] cols IH] using rev_ind; intro Hc.
  - exists s0. split; [reflexivity|]. split; [reflexivity|]. split; [exact Ex|]. split; [exact M|]. intros i k j Hi Hj. assert (Hl : i < length track) by (rewrite <- L; apply nth_error_Some; congruence).
    split; [intros _; apply G0; assumption|]. intros _. left. split; [apply G0; assumption|intros ? []].
  - destruct IH as (s & E & Et & Ed & Ms & G); [intros; apply Hc, in_app_iff; auto|]. destruct (Hc c vals) as [Hcw Hv]; [apply in_app_iff; right; left; reflexivity|].
    rewrite map_app, foldM_app, E. cbn [map foldM bind fst snd rp_step]. rewrite Et in *.
    destruct (@C44_any_ranks A NA OA s w c vals [] d) as (s' & out & E' & Et' & M' & Gr & G1 & G2); [rewrite Et; exact HS|rewrite Et; exact Hne|exact Ed|rewrite Et; exact Ms|exact Hcw|exact Hv|]. rewrite E'. cbn [bind]. rewrite Et in *.
    exists s'. split; [reflexivity|]. split; [exact Et'|].
    assert (Ed' : rp_excl s' = Z.of_nat d). { rewrite <- Ed. clear - E'. unfold rp_col in E'. cbn [MProfile.row0 bind] in E'. destruct (lowest_value_idxs _ _ _); [|discriminate]. cbn [bind] in E'. destruct (rp_loop _ _ _ _ _ _ _); [|discriminate]. injection E' as <-. reflexivity. }
    split; [exact Ed'|]. rewrite Et'. split; [exact M'|]. intros i k j Hi Hj. destruct (G i k j Hi Hj) as [Ga Gb]. destruct (Nat.eq_dec j c) as [->|Hne'].
    + destruct (G1 i k Hi) as [H1 H2]. split; [intro Hr; rewrite (H2 Hr); auto|]. intro Hr. specialize (H1 Hr). destruct (nth_error out k) as [p|] eqn:Ep.
      * destruct H1 as (v & Ev & Em). right. exists cols, vals, v, []. split; [reflexivity|]. split; [exists out, p; auto|]. split; [exact Em|intros ? []].
      * rewrite H1. destruct (Gb Hr) as [[Gn Gm]|(bf & vs & v & af & -> & Hk & Em & Ha)].
        -- left. split; [exact Gn|]. intros vs Hin. apply in_app_iff in Hin. destruct Hin as [Hin|[Hin|[]]]; [auto|]. injection Hin as <-. exists out. auto.
        -- right. exists bf, vs, v, (af ++ [(c, vals)]). split; [rewrite <- app_assoc; reflexivity|]. split; [exact Hk|]. split; [exact Em|]. intros vs' Hin. apply in_app_iff in Hin. destruct Hin as [Hin|[Hin|[]]]; [auto|]. injection Hin as <-. exists out. auto.
    + rewrite (G2 i j Hne'). split; [exact Ga|]. intro Hr. destruct (Gb Hr) as [[Gn Gm]|(bf & vs & v & af & -> & Hk & Em & Ha)].
      * left. split; [exact Gn|]. intros vs Hin. apply in_app_iff in Hin. destruct Hin as [Hin|[Hin|[]]]; [auto|congruence].
      * right. exists bf, vs, v, (af ++ [(c, vals)]). split; [rewrite <- app_assoc; reflexivity|]. split; [exact Hk|]. split; [exact Em|]. intros vs' Hin. apply in_app_iff in Hin. destruct Hin as [Hin|[Hin|[]]]; [auto|congruence].
Qed.
Print Assumptions C44_history.
(** Ranks 0 and 1, exclusion 1: the second delivery has no second match, that of the first one stays. *)
Example C44_history_case : (do s <- rp_init [1; 0]%Z 1 3 1; do s <- foldM rp_step (map (fun x => ECol (fst x) [snd x]) [(0, [Fz 4; Fz 1; Fz 7]); (0, [Fz 5; Fz 2; Fz 5])]) s; Ok (rp_values s)) = Ok [[Fz 2]; [NaN]] /\
  (do s <- rp_init [1; 0]%Z 1 3 1; do s <- foldM rp_step (map (fun x => ECol (fst x) [snd x]) [(0, [Fz 1; Fz 4; Fz 7]); (0, [Fz 5; Fz 2; Fz 5])]) s; Ok (rp_values s)) = Ok [[Fz 2]; [Fz 7]].
Proof. split; vm_compute; reflexivity. Qed.

(** ** Programs with consumers that raise for diagonals *)
Lemma columns_only e k m n nq series query buffer dims : world_ok e -> well_posed k m n nq series query buffer dims ->
  let h := nq + 1 - m in let w := n + 1 - m in let b := buffer_used query (Z.of_nat m) buffer in let D := matrix_of k m dims series query in
  forall C (c_step : C -> event (num R) -> res C) (init : nat -> Z -> Z -> res C) ids calls (Post : list part -> nat -> C -> Prop),
  (forall id, In id ids -> id < length dims) -> Forall sensible_call calls -> (forall s d vs x, c_step s (EDiag d vs) <> Ok x) ->
  (forall t id, (forall c, In c (cols_in t) -> c < w) -> In id ids -> exists c0 c, init 1 (Z.of_nat h) (Z.of_nat w) = Ok c0 /\ foldM c_step (map (fun c => ECol c [column_of h (masked b (D id)) c]) (cols_in t)) c0 = Ok c /\ Post t id c) ->
  let run := kprogram e k c_step (Z.of_nat m) series query buffer (map Z.of_nat dims) (map (fun id => ([id], init)) ids) calls in
  exists t, delivers query m n nq buffer calls t /\ (Forall cols_call calls -> diags_in t = []) /\
    (diags_in t <> [] -> ids <> [] -> forall cns, run <> Ok cns) /\ (diags_in t = [] -> exists cns, run = Ok cns /\ Forall2 (Post t) ids cns).
Proof.
  intros HE HW h w b D C c_step init ids calls Post Hids Hcalls Hdiag HP run.
  destruct (@kind_told e k m n nq series query buffer dims HE HW _ c_step (map (fun id => ([id], init)) ids) calls) as (t & Ht & HT); [|exact Hcalls|].
  { intros is' i id Hin Hi. apply in_map_iff in Hin. destruct Hin as (id' & E & Hin). injection E as <- <-. destruct Hi as [<-|[]]. auto. }
  fold h w b D in HT. exists t. split; [exact Ht|]. split; [|split].
  - intro Hk. destruct Ht as (order & p & HPm & HM & Et). rewrite <- Et. exact (only_cols Hk HM).
  - intros Hd Hn cns E. apply HT in E. destruct ids as [|id ids']; [congruence|]. cbn [map] in E. inversion E as [|x y l l' (c0 & E0 & E1)]; subst. cbn [fst] in E1.
    assert (Hin : exists d vs, In (EDiag d vs) (told D h w (is_self query) b t [id])).
    { destruct (diags_in t) as [|d ds] eqn:Ed; [congruence|]. exists d. eexists. apply told_in. right. exists d. split; [rewrite Ed; left; reflexivity|left; reflexivity]. }
    destruct Hin as (d & vs & Hin). revert c0 E0 E1. generalize (told D h w (is_self query) b t [id]), Hin. clear - Hdiag. intros es Hin c0 _. revert c0. induction es as [|ev es IH]; [destruct Hin|]. intros c0 E. cbn [foldM bind] in E.
    destruct Hin as [->|Hin]; [destruct (c_step c0 (EDiag d vs)) eqn:Es; [exact (Hdiag _ _ _ _ Es)|discriminate]|]. destruct (c_step c0 ev); [eapply IH; eauto|discriminate].
  - intro Hd. pose proof (delivers_fine HW Ht) as F.
    destruct (@all_post k m n nq series query buffer dims _ c_step (map (fun id => ([id], init)) ids) t (fun ci s => match fst ci with [id] => Post t id s | _ => False end)) as (cns & HF & HP').
    + intros ci Hin. apply in_map_iff in Hin. destruct Hin as (id & <- & Hin). destruct (HP t id (proj1 F) Hin) as (s0 & s & E0 & E & G). exists s0, s. split; [exact E0|]. split; [|exact G]. rewrite <- E. cbn [fst]. fold h w b D.
      change (told D h w (is_self query) b t [id]) with (mixed_calls (fun _ => Dc h (D id)) (fun _ => Dd h w (D id)) (is_self query) b t [0]). rewrite (evs_columns (is_self query) h w b (D id) t Hd). f_equal. apply map_ext. intro c. rewrite hide_masked. reflexivity.
    + exists cns. split; [apply HT, HF|]. clear - HP'. remember (map _ ids) as cis eqn:E. revert ids E. induction HP' as [|ci c cis cns H HP IH]; intros [|id ids] E; try discriminate; [constructor|]. injection E as -> ->. constructor; [exact H|apply IH; reflexivity].
Qed.

(** ** C90. DistancedThresholdCounter: the entry for a threshold and a column is the number of rows of a set of matches (distance at most
    the threshold), pairwise more than [excl] apart, such that every other match lies within [excl] of one that is at least as good;
    once per delivery of the column.  Trivial matches are at +inf.  If a diagonal is delivered, the program raises. *)
Theorem C90_counters : forall e k m n nq series query buffer dims, world_ok e -> well_posed k m n nq series query buffer dims ->
  forall ids calls argsort thr excl, (forall id, In id ids -> id < length dims) -> Forall sensible_call calls -> orders_columns argsort -> no_nan thr -> thr <> [] ->
  let h := nq + 1 - m in let w := n + 1 - m in let b := buffer_used query (Z.of_nat m) buffer in let D := matrix_of k m dims series query in
  let run := kprogram e k (dtc_step argsort) (Z.of_nat m) series query buffer (map Z.of_nat dims) (map (fun id => ([id], fun _ q s => Ok (dtc_init thr excl (Z.to_nat q) (Z.to_nat s)))) ids) calls in
  exists t, delivers query m n nq buffer calls t /\ (Forall cols_call calls -> diags_in t = []) /\
    (diags_in t <> [] -> ids <> [] -> forall cns, run <> Ok cns) /\
    (diags_in t = [] -> exists cns, run = Ok cns /\
      Forall2 (fun id s => Permutation thr (dt_thr s) /\ (forall p q x y, p < q -> nth_error (dt_thr s) p = Some x -> nth_error (dt_thr s) q = Some y -> fleb x y = true) /\
        forall p x j, nth_error (dt_thr s) p = Some x -> j < w -> exists rows, spaced (fun r => r < h /\ fleb (masked b (D id) r j) x = true) (fun r => masked b (D id) r j) excl rows /\
          mget (dt_counts s) p j = Ok (count_occ Nat.eq_dec (cols_in t) j * length rows)) ids cns).
Proof.
  intros e k m n nq series query buffer dims HE HW ids calls argsort thr excl Hids Hcalls Ha N0 Hne h w b D run.
  apply (@columns_only e k m n nq series query buffer dims HE HW (@dtc R) (dtc_step argsort) (fun _ q s => Ok (dtc_init thr excl (Z.to_nat q) (Z.to_nat s))) ids calls
    (fun t id s => Permutation thr (dt_thr s) /\ (forall p q x y, p < q -> nth_error (dt_thr s) p = Some x -> nth_error (dt_thr s) q = Some y -> fleb x y = true) /\
        forall p x j, nth_error (dt_thr s) p = Some x -> j < w -> exists rows, spaced (fun r => r < h /\ fleb (masked b (D id) r j) x = true) (fun r => masked b (D id) r j) excl rows /\
          mget (dt_counts s) p j = Ok (count_occ Nat.eq_dec (cols_in t) j * length rows))); [exact Hids|exact Hcalls|discriminate|].
  intros t id Hw Hid. fold h w b D in Hw |- *. set (col := column_of h (masked b (D id))).
  assert (NN : forall c, c < w -> no_nan (col c)).
  { intros c Hc x Hx. unfold col, column_of in Hx. apply in_map_iff in Hx. destruct Hx as (r & <- & Hr). apply in_seq in Hr. unfold masked. destruct (_ <=? _)%Z; [reflexivity|]. apply (@Dnan k m n nq series query dims id); [lia|exact Hc]. }
  destruct (@counter_columns R NumR OrdR h w col argsort thr excl (cols_in t) N0 Hne) as (s & E & HP & Hs & G); [intros c Hc; split; [apply NN, Hc|apply Ha, NN, Hc]|exact Hw|].
  exists (dtc_init thr excl h w), s. split; [rewrite !Nat2Z.id; reflexivity|]. split; [exact E|]. split; [exact HP|]. split; [exact Hs|].
  intros p x j Hp Hj. destruct (@scan_exists excl (argsort (col j)) []) as (picks & Hsc). exists (filter (le_at (col j) x) picks). split; [|apply G; assumption].
  assert (NTH : forall r v, nth_error (col j) r = Some v <-> r < h /\ v = masked b (D id) r j).
  { intros r v. unfold col, column_of. rewrite nth_error_map, nth_error_seq. destruct (Nat.ltb_spec r h); cbn [option_map]; split; [intros [= <-]; auto|intros [_ ->]; reflexivity|discriminate|intros [C _]; lia]. }
  destruct (@C42_picks_lemma R NumR OrdR (col j) (argsort (col j)) excl picks x (NN j Hj) (Ha _ (NN j Hj)) Hsc) as (P1 & P2 & P3).
  assert (AP : forall i j', In i (filter (le_at (col j) x) picks) -> In j' (filter (le_at (col j) x) picks) -> i <> j' -> apart excl i j').
  { intros i j' Hi Hj' Hne'. apply In_nth_error in Hi. apply In_nth_error in Hj'. destruct Hi as (pi & Hi). destruct Hj' as (pj & Hj'). apply (P2 pi pj); auto. intros ->. congruence. }
  split; [|split; [|split; [exact AP|]]].
  - apply NoDup_nth_error. intros i j' Hi Eij. destruct (Nat.eq_dec i j') as [|Hne']; [assumption|]. exfalso. destruct (nth_error (filter (le_at (col j) x) picks) i) as [a|] eqn:Ea; [|apply nth_error_None in Ea; lia]. symmetry in Eij. destruct (P2 i j' a a Ea Eij Hne'); lia.
  - intros r Hr. destruct (P1 r Hr) as (v & Hv & Hl). apply NTH in Hv. destruct Hv as [Hv ->]. auto.
  - intros r [Hr Hl]. destruct (P3 r (masked b (D id) r j)) as (r' & v & H1 & H2 & H3 & H4); [apply NTH; auto|exact Hl|]. apply NTH in H2. destruct H2 as [_ ->]. exists r'. auto.
Qed.
Print Assumptions C90_counters.

(** ** C91. RadiusProfile: entry [i] of a delivered column [j] is the distance of the [k_i]-th of its non-trivial matches (chosen greedily, at least
    [d + 1] apart, in the column with trivial matches at +inf), NaN if there are not so many, or if one of the tracked ranks up to
    [k_i] is repeated; NaN for columns that were not delivered.  If a diagonal is delivered, the program raises. *)
Theorem C91_radius : forall e k m n nq series query buffer dims, world_ok e -> well_posed k m n nq series query buffer dims ->
  forall ids calls track d, (forall id, In id ids -> id < length dims) -> Forall sensible_call calls -> track <> [] -> (forall x, In x track -> (0 <= x)%Z) ->
  let h := nq + 1 - m in let w := n + 1 - m in let b := buffer_used query (Z.of_nat m) buffer in let D := matrix_of k m dims series query in
  let run := kprogram e k rp_step (Z.of_nat m) series query buffer (map Z.of_nat dims) (map (fun id => ([id], fun _ q s => rp_init track (Z.of_nat d) (Z.to_nat q) (Z.to_nat s))) ids) calls in
  exists t, delivers query m n nq buffer calls t /\ (Forall cols_call calls -> diags_in t = []) /\
    (diags_in t <> [] -> ids <> [] -> forall cns, run <> Ok cns) /\
    (diags_in t = [] -> exists cns, run = Ok cns /\
      Forall2 (fun id s => Permutation (map Z.of_nat (rp_track s)) track /\ StronglySorted le (rp_track s) /\ is_mat (length track) w (rp_values s) /\
        forall i x j, nth_error (rp_track s) i = Some x -> j < w -> exists v rows, mget (rp_values s) i j = Ok v /\ greedy nltb (column_of h (masked b (D id)) j) d [] rows /\
          (In j (cols_in t) -> rises (rp_track s) 0 i -> match nth_error rows x with Some r => v = D id r j | None => v = NaN end) /\
          (~ In j (cols_in t) \/ ~ rises (rp_track s) 0 i -> v = NaN)) ids cns).
Proof.
  intros e k m n nq series query buffer dims HE HW ids calls track d Hids Hcalls Ht1 Ht2 h w b D run. pose proof (pos_h HW) as Hh.
  apply (@columns_only e k m n nq series query buffer dims HE HW (@rp R) rp_step (fun _ q s => rp_init track (Z.of_nat d) (Z.to_nat q) (Z.to_nat s)) ids calls
    (fun t id s => Permutation (map Z.of_nat (rp_track s)) track /\ StronglySorted le (rp_track s) /\ is_mat (length track) w (rp_values s) /\
        forall i x j, nth_error (rp_track s) i = Some x -> j < w -> exists v rows, mget (rp_values s) i j = Ok v /\ greedy nltb (column_of h (masked b (D id)) j) d [] rows /\
          (In j (cols_in t) -> rises (rp_track s) 0 i -> match nth_error rows x with Some r => v = D id r j | None => v = NaN end) /\
          (~ In j (cols_in t) \/ ~ rises (rp_track s) 0 i -> v = NaN))); [exact Hids|exact Hcalls|discriminate|].
  intros t id Hw Hid. fold h w b D in Hw |- *. set (col := column_of h (masked b (D id))).
  assert (HC : forall c, c < w -> col c <> []) by (intros c _ E; apply (f_equal (@length _)) in E; unfold col, column_of in E; rewrite map_length, seq_length in E; cbn in E; lia).
  destruct (@radius_columns R NumR OrdR h w col track d (cols_in t) HC Ht1 Ht2 Hw) as (s0 & s & E0 & E & HP & HS & M & G).
  exists s0, s. split; [rewrite !Nat2Z.id; exact E0|]. split; [exact E|]. do 3 (split; [assumption|]). intros i x j Hi Hj.
  destruct (@PInsights.C09_lemma R NumR OrdR (col j) d (length (col j)) (HC j Hj) (le_n _)) as (out & _ & Hg). destruct (G j out Hj Hg i x Hi) as (v & Ev & V1 & V2). exists v, out. split; [exact Ev|]. split; [exact Hg|]. split; [|exact V2].
  intros Hin Hr. specialize (V1 Hin Hr). destruct (nth_error out x) as [r|] eqn:Er; [|exact V1].
  assert (FIN : exists y, nth_error (col j) r = Some (Fin y)).
  { clear - Hg Er. revert x Er. generalize (@nil nat) Hg. clear Hg. intros ch Hg. induction Hg as [ch Hs|ch i v rest He Hb Hg IH]; intros [|x] Er; try discriminate; [|exact (IH x Er)]. injection Er as <-. exists v. apply He. }
  destruct FIN as (y & Hy). rewrite Hy in V1. injection V1 as <-. unfold col, column_of in Hy. rewrite nth_error_map, nth_error_seq in Hy. destruct (r <? h); [|discriminate]. cbn [option_map] in Hy. injection Hy as Hy. unfold masked in Hy. destruct (_ <=? _)%Z; [discriminate|]. symmetry. exact Hy.
Qed.
Print Assumptions C91_radius.

(** Examples on integers: every column, the second one twice *)
Local Notation zs := (map (@Fin Z)).
Definition twice : list acall := all_cols ++ [ACols never (Some (RInt 1)) (RInt 2)].

Example C90_example : bind (zprogram (dtc_step fargsort) 1 two None (Some 0%Z) [0; 1]%Z (map (fun id => ([id], fun _ q s => Ok (dtc_init (zs [4; 1]%Z) 1 (Z.to_nat q) (Z.to_nat s)))) [1; 0]) twice)
    (fun l => Ok (map (fun s => (dt_thr s, dt_counts s)) l)) =
  Ok [(zs [1; 4]%Z, [[1; 2; 1; 2; 2]; [2; 6; 2; 3; 2]]); (zs [1; 4]%Z, [[2; 2; 2; 1; 2]; [2; 4; 2; 2; 2]])].
Proof. vm_compute. reflexivity. Qed.
Definition radius1 (track : list Z) (calls : list acall) := bind (zprogram rp_step 1 two None (Some 0%Z) [0; 1]%Z (map (fun id => ([id], fun _ q s => rp_init track 1 (Z.to_nat q) (Z.to_nat s))) [1; 0]) calls)
    (fun l => Ok (map (fun s => (rp_track s, rp_values s)) l)).
Example C91_example : radius1 [1; 0]%Z twice =
  Ok [([0; 1], [zs [0; 0; 0; 0; 0]; zs [2; 2; 2; 0; 0]]%Z); ([0; 1], [zs [0; 0; 1; 0; 0]; zs [1; 4; 1; 4; 1]]%Z)].
Proof. vm_compute. reflexivity. Qed.
Example C91_example_repeated : radius1 [1; 0; 0]%Z [ACols never None (RInt 1)] =
  Ok [([0; 0; 1], [[Fz 0; NaN; NaN; NaN; NaN]; repeat NaN 5; repeat NaN 5]); ([0; 0; 1], [[Fz 0; NaN; NaN; NaN; NaN]; repeat NaN 5; repeat NaN 5])].
Proof. vm_compute. reflexivity. Qed.
Example C91_example_raises : radius1 [1; 0]%Z all_diags = Err NotImplementedError.
Proof. vm_compute. reflexivity. Qed.
