(** * PEndCons: consumers that are told parts of a distance matrix *)
From Coq Require Import QArith Permutation.
From Verif Require Import Np NpFacts Mat MUtil SLog PLog PSort PMulti MDist SDist PDist MContext SContext PContext PCmpRun MCounters SCounters PCounters MRand SRand PRand MReservoir SReservoir PResCol MCalc SCalc PCalc PCalcRun SMixed PMixed SEnd PEnd SEndAll SEndCons.
Set Implicit Arguments.
Open Scope nat_scope.

Section One.
  Context {A : Type} {NA : NumOps A} {OL : OrdLaws A}.
  Notation num := (Np.num A).
  Variables (self : bool) (h w : nat) (b : Z) (D : nat -> nat -> num).
  Hypothesis Hnan : forall r c, r < h -> c < w -> isnan (D r c) = false.
  Hypothesis Hself : self = true -> h = w /\ forall r c, r < h -> c < h -> D r c = D c r.
  Hypothesis Hh : 0 < h.
  Notation evs t := (mixed_calls (fun _ => Dc h D) (fun _ => Dd h w D) self b t [0]).
  Notation fine := (fine self h w b).

  Lemma masked_Dm r j : Dm b D (Z.of_nat r) (Z.of_nat j) = masked b D r j.
  Proof. unfold Dm, Dz, masked. rewrite !Nat2Z.id. reflexivity. Qed.

  (** Cells of the log, with natural numbers *)
  Lemma log_nat t r j v : fine t -> r < h -> j < w -> In (Z.of_nat r, Z.of_nat j, v) (log (evs t)) <-> delivered self t r j /\ v = masked b D r j.
  Proof.
    intros F Hr Hj. rewrite (log_in D Hnan Hself Hh _ _ _ F), masked_Dm, Nat2Z.id. unfold delivered. split; [tauto|]. intros [Hd ->]. split; [lia|]. auto.
  Qed.
  Lemma delivered_dec t r j : {delivered self t r j} + {~ delivered self t r j}.
  Proof.
    unfold delivered. destruct (in_dec Nat.eq_dec j (cols_in t)); [left; auto|]. destruct (in_dec Z.eq_dec (Z.of_nat j - Z.of_nat r) (diags_in t))%Z; [left; auto|].
    destruct self; [|right; intros [H|[H|[H _]]]; auto; discriminate]. destruct (in_dec Z.eq_dec (Z.of_nat r - Z.of_nat j) (diags_in t))%Z; [left; auto|right; tauto].
  Qed.

  (** DistanceMatrix *)
  Lemma dm_of t : fine t -> exists m0 m, dm_init 1 h w = Ok m0 /\ foldM dm_step (evs t) m0 = Ok m /\ is_mat h w m /\
    forall r j, r < h -> j < w -> exists v, mget m r j = Ok v /\ (delivered self t r j -> v = masked b D r j) /\ (~ delivered self t r j -> v = NaN).
  Proof.
    intro F. destruct (evs_ok D Hnan Hself Hh F) as (Hns & Hf & _). destruct (C45_lemma Hf) as (m0 & m & E0 & E & M & G). exists m0, m. split; [exact E0|]. split; [exact E|]. split; [exact M|].
    intros r j Hr Hj. destruct (G r j Hr Hj) as (v & Ev & HL). exists v. split; [exact Ev|]. destruct (no_shift_qs Hns) as [Q1 Q2]. rewrite Q1, Q2 in HL. cbn [Z.add] in HL. destruct HL as [(bf & af & EL & _)|[-> HN]].
    - assert (Hin : In (Z.of_nat r, Z.of_nat j, v) (log (evs t))) by (rewrite EL; apply in_app_iff; right; left; reflexivity). apply (log_nat _ F Hr Hj) in Hin. destruct Hin as [Hd ->]. split; [reflexivity|]. intro C. exfalso; apply C, Hd.
    - split; [|reflexivity]. intro Hd. exfalso. apply (HN (masked b D r j)), (log_nat _ F Hr Hj). auto.
  Qed.

  (** ContextualMatrixProfile *)
  Lemma evs_full t : fine t -> Forall (full_event h w) (evs t).
  Proof.
    intros F. pose proof (evs_ok D Hnan Hself Hh F) as (_ & _ & _ & Hn). destruct F as [Fc Fd]. apply Forall_forall; intros e He. pose proof (proj1 (Forall_forall _ _) Hn _ He) as Hne. apply evs_in in He; destruct He as [(c & Hc & ->)|(d & Hd & He)].
    - split; [apply Fc, Hc|]. eexists _, []. split; [reflexivity|]. split; [|rewrite length_hide; apply length_Dc]. cbn [cols_no_nan] in Hne. apply Hne. left. reflexivity.
    - destruct (Fd d Hd) as (Hm & _ & Hs). unfold on_matrix in Hm.
      assert (NN : forall x, In x (Dd h w D d) -> isnan x = false).
      { intros x Hx. unfold Dd, diag_of in Hx. apply in_map_iff in Hx. destruct Hx as (k & <- & Hk). apply in_seq in Hk. unfold dlen in Hk. unfold Dz. apply Hnan; lia. }
      destruct He as [->|[Es ->]].
      + split; [exact Hm|]. exists (Dd h w D d), []. split; [reflexivity|]. split; [exact NN|]. rewrite length_Dd. unfold dlen. lia.
      + destruct (Hself Es) as [Eq _]. specialize (Hs Es). split; [lia|]. exists (Dd h w D d), []. split; [reflexivity|]. split; [exact NN|]. rewrite length_Dd. unfold dlen. lia.
  Qed.

  Lemma cm_of argsort series query g (memn : nat -> list num) memz sf t :
    sorts argsort -> gsm_new argsort series query = Ok g -> (exists s e id, SContext.given series s e id /\ (s < e)%Z) -> (1 <= sf)%Q -> (sf <= 2)%Q -> fine t ->
    exists H W s0 s, gsm_shape g = Ok (H, W) /\ cm_init gsm_ops memn memz sf g h w = Ok s0 /\ foldM (cm_step gsm_ops) (evs t) s0 = Ok s /\
      (forall i x, in_context (query_input series query) i x -> i < H) /\ (forall j x, in_context series j x -> j < W) /\
      forall i j, i < H -> j < W -> exists v q r, dv_get (cm_dist s) i j = Ok v /\ dv_get (cm_mq s) i j = Ok q /\ dv_get (cm_ms s) i j = Ok r /\
        smallest_cell (fun r c => (r < h /\ c < w /\ SEnd.given self b t r c) /\ in_context (query_input series query) i (Z.of_nat r) /\ in_context series j (Z.of_nat c)) D v q r.
  Proof.
    intros Hs Eg Hc S1 S2 F. pose proof (evs_ok D Hnan Hself Hh F) as (Hns & _). destruct (@C47_lemma A NA OL argsort series query g h w memn memz sf (evs t) Hs Eg Hc Hh S1 S2 (evs_full F) Hns) as (H & W & s0 & s & E1 & E2 & E3 & HH & HW & G).
    exists H, W, s0, s. do 5 (split; [assumption|]). intros i j Hi Hj. destruct (G i j Hi Hj) as (v & q & r & G1 & G2 & G3 & G4). exists v, q, r. do 3 (split; [assumption|]).
    assert (Hin : forall r c, r < h -> c < w -> SEnd.given self b t r c -> In (Z.of_nat r, Z.of_nat c, D r c) (log (evs t))).
    { intros r' c Hr Hc' [Hf Hg]. apply (log_nat _ F Hr Hc'). split; [exact Hg|]. unfold masked. unfold far in Hf. cbn [fst snd] in Hf. apply Z.ltb_lt in Hf. destruct (Z.leb_spec (Z.abs (Z.of_nat r' - Z.of_nat c)) b); [lia|reflexivity]. }
    destruct G4 as [(-> & -> & -> & G4)|(G4 & G5 & [G6 G7] & G8)].
    - left. do 3 (split; [reflexivity|]). intros r' c ((Hr & Hc' & Hg) & C1 & C2). eapply G4; [apply Hin; eassumption|auto].
    - right. split; [exact G4|]. pose proof G5 as G5'. apply (log_in D Hnan Hself Hh _ _ _ F) in G5'. destruct G5' as ((B1 & B2) & Ev & Hd). exists (Z.to_nat q), (Z.to_nat r). rewrite !Z2Nat.id by lia.
      assert (Em : Dm b D q r = D (Z.to_nat q) (Z.to_nat r)) by (unfold Dm, Dz in *; destruct (Z.leb_spec (Z.abs (q - r)) b); [rewrite Ev in G4; discriminate|reflexivity]).
      split; [|do 2 (split; [reflexivity|]); split; [congruence|]].
      + split; [|auto]. split; [lia|]. split; [lia|]. split.
        * unfold far. cbn [fst snd]. rewrite !Z2Nat.id by lia. apply Z.ltb_lt. unfold Dm in Ev. destruct (Z.leb_spec (Z.abs (q - r)) b); [subst v; discriminate|lia].
        * rewrite !Z2Nat.id by lia. exact Hd.
      + intros r' c ((Hr & Hc' & Hg) & C1 & C2). eapply G8; [apply Hin; eassumption|auto].
  Qed.

  (** Column-wise consumers *)
  Lemma evs_columns t : diags_in t = [] -> evs t = map (fun c => ECol c [hide b c (Dc h D c)]) (cols_in t).
  Proof.
    clear. unfold mixed_calls, cols_in, diags_in. induction t as [|p t IH]; [reflexivity|]. cbn [flat_map]. intro E. apply app_eq_nil in E. destruct E as [E1 E2]. rewrite map_app, (IH E2). f_equal.
    destruct p as [c n|ds]; [reflexivity|]. subst ds. reflexivity.
  Qed.
  Lemma hide_masked j : hide b j (Dc h D j) = column_of h (masked b D) j.
  Proof.
    clear. unfold column_of. apply nth_error_ext. intro i. unfold hide. rewrite nth_error_mapi. unfold Dc. rewrite !nth_error_map, nth_error_seq. destruct (i <? h); reflexivity.
  Qed.

  Lemma tc_columns thr (F : nat -> list num) cs : (forall c, In c cs -> c < w) ->
    exists s, foldM tc_step (map (fun c => ECol c [F c]) cs) (tc_init thr h w) = Ok s /\ tc_thr s = thr /\ is_mat (length thr) w (tc_counts s) /\
      forall i t j, nth_error thr i = Some t -> j < w -> exists n, mget (tc_counts s) i j = Ok n /\ (In j cs -> n = count_le t (F j)) /\ (~ In j cs -> n = 0).
  Proof.
    clear. induction cs as [|c cs IH] using rev_ind; intro Hw.
    - exists (tc_init thr h w). split; [reflexivity|]. split; [reflexivity|]. cbn [tc_init tc_counts]. split; [split; [apply repeat_length|intros x Hx; apply repeat_spec in Hx; subst x; apply repeat_length]|]. intros i t j Hi Hj. exists 0. split; [|split; [intros []|reflexivity]].
      assert (i < length thr) by (apply nth_error_Some; congruence). unfold mget, getitem. rewrite !nth_error_repeat by assumption. cbn [bind]. rewrite nth_error_repeat by assumption. reflexivity.
    - destruct IH as (s & E & Et & M & G); [intros; apply Hw, in_app_iff; auto|]. rewrite map_app, foldM_app, E. cbn [map foldM bind tc_step].
      assert (Hc : c < w) by (apply Hw, in_app_iff; right; left; reflexivity). rewrite <- Et in M. destruct (@C41_column_lemma A NA s w c (F c) [] M Hc) as (s' & E' & Et' & M' & G'). rewrite E'. cbn [bind]. exists s'. split; [reflexivity|]. split; [congruence|]. split; [rewrite Et in M'; exact M'|].
      intros i t j Hi Hj. rewrite (G' i t j) by (rewrite Et; exact Hi). destruct (Nat.eqb_spec j c) as [->|Hne].
      + eexists. split; [reflexivity|]. split; [reflexivity|]. intro C. exfalso. apply C, in_app_iff. right. left. reflexivity.
      + destruct (G i t j Hi Hj) as (n & En & H1 & H2). exists n. split; [exact En|]. split; intro Hin.
        * apply H1. apply in_app_iff in Hin. destruct Hin as [Hin|[Hin|[]]]; [exact Hin|congruence].
        * apply H2. intro C. apply Hin, in_app_iff. auto.
  Qed.

  Lemma rp0_columns track (F : nat -> list num) cs : track <> [] -> (forall k, In k track -> (0 <= k)%Z) -> (forall c, In c cs -> c < w) ->
    exists s0 s, @rp_init A track 0 h w = Ok s0 /\ foldM rp0_step (map (fun c => ECol c [F c]) cs) s0 = Ok s /\ Permutation (map Z.of_nat (rp_track s)) track /\ Sorted.StronglySorted le (rp_track s) /\ is_mat (length track) w (rp_values s) /\
      forall i k j, nth_error (rp_track s) i = Some k -> j < w -> exists v, mget (rp_values s) i j = Ok v /\ (In j cs -> kth_smallest k (F j) v) /\ (~ In j cs -> v = NaN).
  Proof.
    clear - OL. intros Ht Hp. destruct (@rp_init_lemma A track 0%Z h w Ht Hp ltac:(lia)) as (s0 & E0 & _ & L & HP & HS & M & _ & G0).
    induction cs as [|c cs IH] using rev_ind; intro Hw.
    - exists s0, s0. split; [exact E0|]. split; [reflexivity|]. split; [exact HP|]. split; [exact HS|]. rewrite <- L. split; [exact M|]. intros i k j Hi Hj. exists NaN. assert (i < length (rp_track s0)) by (apply nth_error_Some; congruence). split; [apply G0; lia|]. split; [intros []|reflexivity].
    - destruct IH as (s0' & s & E0' & E & HP' & HS' & M' & G); [intros; apply Hw, in_app_iff; auto|]. assert (s0' = s0) by congruence. subst s0'. exists s0. rewrite map_app, foldM_app, E. cbn [map foldM bind rp0_step].
      assert (Hc : c < w) by (apply Hw, in_app_iff; right; left; reflexivity). assert (Ls : length (rp_track s) = length track) by (rewrite <- (map_length Z.of_nat), (Permutation_length HP'); reflexivity). rewrite <- Ls in M'.
      destruct (@C43_lemma A NA OL s w c (F c) [] M' Hc) as (s' & E' & Et & M'' & G1 & G2). rewrite E'. cbn [bind]. exists s'. split; [exact E0|]. split; [reflexivity|]. rewrite Et. split; [exact HP'|]. split; [exact HS'|]. split; [rewrite <- Ls; exact M''|].
      intros i k j Hi Hj. destruct (Nat.eq_dec j c) as [->|Hne].
      + destruct (G1 i k Hi) as (v & Ev & Hk). exists v. split; [exact Ev|]. split; [intros _; exact Hk|]. intro C. exfalso. apply C, in_app_iff. right. left. reflexivity.
      + destruct (G i k j Hi Hj) as (v & Ev & H1 & H2). exists v. rewrite G2; [|apply nth_error_Some; congruence|exact Hne]. split; [exact Ev|]. split; intro Hin.
        * apply H1. apply in_app_iff in Hin. destruct Hin as [Hin|[Hin|[]]]; [exact Hin|congruence].
        * apply H2. intro C. apply Hin, in_app_iff. auto.
  Qed.

  Lemma filter_map_length {U V} (f : U -> V) p (l : list U) : length (filter p (map f l)) = length (filter (fun x => p (f x)) l).
  Proof. clear. induction l as [|x l IH]; [reflexivity|]. cbn. destruct (p (f x)); cbn; congruence. Qed.

  Lemma count_column t j : how_many (fun r => r < h /\ fleb (masked b D r j) t = true) (count_le t (column_of h (masked b D) j)).
  Proof.
    clear. exists (filter (fun r => fleb (masked b D r j) t) (seq 0 h)). split; [apply NoDup_filter, seq_NoDup|]. split.
    - intro r. rewrite filter_In, in_seq. split; intros [H1 H2]; split; try assumption; lia.
    - unfold count_le, column_of. rewrite filter_map_length. reflexivity.
  Qed.

  Lemma tc_of_columns thr t : fine t -> diags_in t = [] -> exists s, foldM tc_step (evs t) (tc_init thr h w) = Ok s /\ is_mat (length thr) w (tc_counts s) /\
    forall i x j, nth_error thr i = Some x -> j < w -> exists n, mget (tc_counts s) i j = Ok n /\
      (In j (cols_in t) -> how_many (fun r => r < h /\ fleb (masked b D r j) x = true) n) /\ (~ In j (cols_in t) -> n = 0).
  Proof.
    intros F Hd. rewrite (evs_columns _ Hd). destruct (@tc_columns thr (fun c => hide b c (Dc h D c)) (cols_in t) (proj1 F)) as (s & E & _ & M & G). exists s. split; [exact E|]. split; [exact M|].
    intros i x j Hi Hj. destruct (G i x j Hi Hj) as (n & En & H1 & H2). exists n. split; [exact En|]. split; [|exact H2]. intro Hin. rewrite (H1 Hin), hide_masked. apply count_column.
  Qed.
  Lemma rp0_of_columns track t : track <> [] -> (forall k, In k track -> (0 <= k)%Z) -> fine t -> diags_in t = [] ->
    exists s0 s, @rp_init A track 0 h w = Ok s0 /\ foldM rp0_step (evs t) s0 = Ok s /\ Permutation (map Z.of_nat (rp_track s)) track /\ Sorted.StronglySorted le (rp_track s) /\ is_mat (length track) w (rp_values s) /\
      forall i k j, nth_error (rp_track s) i = Some k -> j < w -> exists v, mget (rp_values s) i j = Ok v /\
        (In j (cols_in t) -> kth_smallest k (column_of h (masked b D) j) v) /\ (~ In j (cols_in t) -> v = NaN).
  Proof.
    intros Ht Hp F Hd. rewrite (evs_columns _ Hd). destruct (@rp0_columns track (fun c => hide b c (Dc h D c)) (cols_in t) Ht Hp (proj1 F)) as (s0 & s & E0 & E & HP & HS & M & G). exists s0, s. do 5 (split; [assumption|]).
    intros i k j Hi Hj. destruct (G i k j Hi Hj) as (v & Ev & H1 & H2). exists v. split; [exact Ev|]. split; [|exact H2]. intro Hin. rewrite <- hide_masked. auto.
  Qed.

  (** Diagonals only: every cell is delivered at most once *)
  Lemma evs_diags t : cols_in t = [] -> evs t = diagonal_calls (fun _ => Dd h w D) self (diags_in t) [0].
  Proof.
    clear. unfold mixed_calls, cols_in, diags_in, diagonal_calls. induction t as [|p t IH]; [reflexivity|]. cbn [flat_map]. intro E. apply app_eq_nil in E. destruct E as [E1 E2]. rewrite flat_map_app, (IH E2). f_equal.
    destruct p as [c n|ds]; [|reflexivity]. destruct n; [reflexivity|discriminate].
  Qed.
  Lemma log_once t : fine t -> cols_in t = [] -> NoDup (diags_in t) -> (self = true -> (0 <= b)%Z) -> NoDup (log (evs t)).
  Proof.
    intros F Hc Hnd Hb. destruct (evs_ok D Hnan Hself Hh F) as (Hns & _). rewrite (log_no_shift Hns), (evs_diags _ Hc). destruct F as [_ Fd]. unfold diagonal_calls. rewrite flat_map_concat_map. 
    assert (EQ : flat_map (event_cells 0 0) (flat_map (fun d => EDiag d (map (fun _ : nat => Dd h w D d) [0]) :: (if self then [EDiag (- d) (map (fun _ : nat => Dd h w D d) [0])] else [])) (diags_in t)) =
       flat_map (fun d => diag_cells 0 0 d (Dd h w D d) ++ (if self then diag_cells 0 0 (- d) (Dd h w D d) else [])) (diags_in t)).
    { generalize (diags_in t). induction l as [|d l IH]; [reflexivity|]. cbn [flat_map]. rewrite flat_map_app, IH. f_equal. cbn [map flat_map event_cells]. destruct self; cbn [flat_map event_cells]; rewrite ?app_nil_r; reflexivity. }
    rewrite <- flat_map_concat_map, EQ. clear EQ.
    assert (Hx : forall d r c v, In d (diags_in t) -> In (r, c, v) (diag_cells 0 0 d (Dd h w D d) ++ (if self then diag_cells 0 0 (- d) (Dd h w D d) else [])) -> if self then (Z.abs (c - r) = d)%Z else (c - r = d)%Z).
    { intros d r c v Hd Hin. destruct (Fd d Hd) as (Hm & Hbd & Hs). apply in_app_iff in Hin. destruct Hin as [Hin|Hin].
      - apply in_diag_of in Hin; [|exact Hm]. destruct self; [specialize (Hs eq_refl); specialize (Hb eq_refl)|]; lia.
      - destruct self; [|destruct Hin]. destruct (Hself eq_refl) as [Ehw _]. specialize (Hs eq_refl). specialize (Hb eq_refl). unfold Dd in Hin. rewrite Ehw in Hin. unfold on_matrix in Hm. apply in_diag_mirror in Hin; lia. }
    apply NoDup_flat_map; [exact Hnd| |].
    - intros d Hd. destruct (Fd d Hd) as (Hm & Hbd & Hs). destruct self; [|rewrite app_nil_r; apply diag_cells_nodup]. destruct (Hself eq_refl) as [Ehw _]. specialize (Hs eq_refl). specialize (Hb eq_refl). unfold on_matrix in Hm.
      apply nodup_app; [apply diag_cells_nodup|apply diag_cells_nodup|]. intros [[r c] v] H1 H2. apply in_diag_of in H2; [|lia]. unfold Dd in H1. rewrite Ehw in H1. apply in_diag_mirror in H1; lia.
    - intros d d' [[r c] v] Hd Hd' H1 H2. apply Hx in H1; [|exact Hd]. apply Hx in H2; [|exact Hd']. destruct self; lia.
  Qed.

  Lemma sel_in t r j v : fine t -> j < w -> In (r, v) (sel all_rows (Z.of_nat j) (log (evs t))) <-> exists r', r = Z.of_nat r' /\ r' < h /\ delivered self t r' j /\ v = masked b D r' j.
  Proof.
    intros F Hj. unfold sel. rewrite in_map_iff. split.
    - intros ([[r0 c0] v0] & E0 & Hf). injection E0 as -> ->. apply filter_In in Hf. destruct Hf as [Hf Hc]. apply andb_true_iff in Hc. destruct Hc as [Hc _]. apply Z.eqb_eq in Hc. subst c0.
      pose proof Hf as Hf'. apply (log_in D Hnan Hself Hh _ _ _ F) in Hf'. destruct Hf' as ((B1 & _) & _). exists (Z.to_nat r). rewrite Z2Nat.id by lia. split; [reflexivity|]. split; [lia|]. apply (log_nat _ F); [lia|exact Hj|]. rewrite Z2Nat.id by lia. exact Hf.
    - intros (r' & -> & Hr & Hd & ->). exists (Z.of_nat r', Z.of_nat j, masked b D r' j). split; [reflexivity|]. apply filter_In. split; [apply (log_nat _ F Hr Hj); auto|]. rewrite Z.eqb_refl. reflexivity.
  Qed.
  Lemma sel_once t j : NoDup (log (evs t)) -> NoDup (sel all_rows (Z.of_nat j) (log (evs t))).
  Proof.
    clear. generalize (log (evs t)). intros L HL. unfold sel. induction HL as [|[[r c] v] L Hx HL IH]; [constructor|]. cbn [filter]. destruct (Z.eqb_spec c (Z.of_nat j)) as [->|]; cbn [andb all_rows]; [|exact IH].
    cbn [map]. constructor; [|exact IH]. intro C. apply in_map_iff in C. destruct C as ([[r0 c0] v0] & E & Hin). injection E as -> ->. apply filter_In in Hin. destruct Hin as [Hin Hc]. apply andb_true_iff in Hc. destruct Hc as [Hc _]. apply Z.eqb_eq in Hc. subst c0. exact (Hx Hin).
  Qed.
  Lemma sel_rows t j (p : Z -> num -> bool) : fine t -> j < w -> NoDup (log (evs t)) ->
    how_many (fun r => r < h /\ delivered self t r j /\ p (Z.of_nat r) (masked b D r j) = true) (length (filter (fun x => p (fst x) (snd x)) (sel all_rows (Z.of_nat j) (log (evs t))))).
  Proof.
    intros F Hj HN. apply sel_once with (j := j) in HN. set (S := sel all_rows (Z.of_nat j) (log (evs t))) in *. assert (HS : forall r v, In (r, v) S <-> exists r', r = Z.of_nat r' /\ r' < h /\ delivered self t r' j /\ v = masked b D r' j) by (intros; apply sel_in; assumption).
    exists (map (fun x => Z.to_nat (fst x)) (filter (fun x => p (fst x) (snd x)) S)). split; [|split].
    - clearbody S. clear - HN HS. assert (HS' : forall r v, In (r, v) S -> exists r', r = Z.of_nat r' /\ v = masked b D r' j) by (intros r v H; apply HS in H; destruct H as (r' & ? & _ & _ & ?); eauto). clear HS.
      induction HN as [|[r v] S Hx HN IH]; [constructor|]. cbn [filter]. assert (IH' := IH ltac:(intros; apply HS'; right; assumption)). destruct (p (fst (r, v)) (snd (r, v))); [|exact IH']. cbn [map fst]. constructor; [|exact IH'].
      intro C. apply in_map_iff in C. destruct C as ([r0 v0] & E & Hin). cbn [fst] in E. apply filter_In in Hin. destruct Hin as [Hin _]. destruct (HS' r v ltac:(left; reflexivity)) as (r1 & -> & ->). destruct (HS' r0 v0 ltac:(right; exact Hin)) as (r2 & -> & ->). rewrite !Nat2Z.id in E. subst r2. exact (Hx Hin).
    - intro r. rewrite in_map_iff. split.
      + intros ([r0 v0] & <- & Hin). apply filter_In in Hin. destruct Hin as [Hin Hp]. apply HS in Hin. destruct Hin as (r' & -> & Hr & Hd & ->). cbn [fst snd] in *. rewrite Nat2Z.id. auto.
      + intros (Hr & Hd & Hp). exists (Z.of_nat r, masked b D r j). cbn [fst]. rewrite Nat2Z.id. split; [reflexivity|]. apply filter_In. split; [apply HS; eauto|exact Hp].
    - rewrite map_length. reflexivity.
  Qed.

  Lemma diag_given t r j : fine t -> cols_in t = [] -> delivered self t r j <-> SEnd.given self b t r j.
  Proof.
    intros [_ Fd] Hc. unfold SEnd.given. rewrite Hc. unfold delivered. rewrite Hc. split; [|tauto]. intro Hd. split; [|exact Hd]. unfold far. cbn [fst snd]. apply Z.ltb_lt.
    destruct Hd as [[]|[Hd|[_ Hd]]]; apply Fd in Hd; lia.
  Qed.
  Lemma given_masked t r j : SEnd.given self b t r j -> masked b D r j = D r j.
  Proof. clear. intros [Hf _]. unfold far in Hf. cbn [fst snd] in Hf. apply Z.ltb_lt in Hf. unfold masked. destruct (Z.leb_spec (Z.abs (Z.of_nat r - Z.of_nat j)) b); [lia|reflexivity]. Qed.
  Lemma how_many_ext (P P' : nat -> Prop) n : (forall r, P r <-> P' r) -> how_many P n -> how_many P' n.
  Proof. clear. intros H (rows & H1 & H2 & H3). exists rows. split; [exact H1|]. split; [|exact H3]. intro r. rewrite H2. apply H. Qed.
  Lemma evs_is_diag t : cols_in t = [] -> Forall is_diag (evs t).
  Proof.
    intro Hc. apply Forall_forall. intros e He. apply evs_in in He. rewrite Hc in He. destruct He as [(c & [] & _)|(d & _ & [->|[_ ->]])]; exact I.
  Qed.

  Lemma tc_of_diags thr t : fine t -> cols_in t = [] -> NoDup (diags_in t) -> (self = true -> (0 <= b)%Z) -> exists s, foldM tc_step (evs t) (tc_init thr h w) = Ok s /\ 
    forall i x j, nth_error thr i = Some x -> j < w -> exists n, mget (tc_counts s) i j = Ok n /\ how_many (fun r => r < h /\ SEnd.given self b t r j /\ fleb (D r j) x = true) n.
  Proof.
    intros F Hc Hnd Hb. destruct (evs_ok D Hnan Hself Hh F) as (_ & Hf & _). destruct (@C41_lemma A NA thr h w (evs t) (evs_is_diag _ Hc) Hf) as (s & E & _ & G). exists s. split; [exact E|].
    intros i x j Hi Hj. eexists. split; [apply (G i x j Hi Hj)|]. unfold count_le. rewrite filter_map_length. eapply how_many_ext; [|apply (@sel_rows t j (fun _ v => fleb v x) F Hj (log_once F Hc Hnd Hb))].
    intro r. cbn beta. rewrite (@diag_given t r j F Hc). split; intros (H1 & H2 & H3); rewrite ?(given_masked H2) in *; auto.
  Qed.

  (** MatrixProfileLRReservoir *)
  Lemma mrs_fold es : forall t, exists t', foldM mrs_next es t = Ok t' /\ (forall P : @mrs A -> Prop, safe (rbind t (fun s => mrs_run s es)) P -> safe t' P) /\
     (forall f : @mrs A -> Q, (expect t' f == expect (rbind t (fun s => mrs_run s es)) f)%Q).
  Proof.
    clear. induction es as [|e es IH]; intro t.
    - exists t. split; [reflexivity|]. split.
      + intros P. induction t as [s|x|a b0 k IH|n k IH]; cbn; auto. intros [H1 H2]. split; auto.
      + intro f. rewrite expect_bind. cbn. reflexivity.
    - cbn [foldM mrs_next bind]. destruct (IH (rbind t (fun s => mrs_step s e))) as (t' & E & Hs & He). exists t'. split; [exact E|]. split.
      + intros P H. apply Hs. clear IH E Hs He. revert H. unfold mrs_run. cbn [rfold]. intro H. induction t as [s|x|a b0 k IH|n k IH]; cbn [rbind safe] in *; auto. destruct H as [H1 H2]. split; auto.
      + intro f. rewrite He. unfold mrs_run. cbn [rfold]. apply rbind_assoc_expect.
  Qed.

  Lemma safe_rbind {X Y} (t : rnd X) (f : X -> rnd Y) P : safe (rbind t f) P <-> safe t (fun x => safe (f x) P).
  Proof. clear. induction t as [x|e|a b0 k IH|n k IH]; cbn [rbind safe]; [reflexivity|reflexivity| |]; [split; intros H o; apply IH, H|split; intros [H1 H2]; (split; [exact H1|]); intros i Hi; apply IH; auto]. Qed.
  Lemma how_many_unique P n n' : how_many P n -> how_many P n' -> n = n'.
  Proof. clear. intros (l & N & H & <-) (l' & N' & H' & <-). apply Permutation_length, NoDup_Permutation; auto. intro x. rewrite H, H'. reflexivity. Qed.
  Lemma how_many_le (P : nat -> Prop) : (forall r, P r -> r < h) -> (forall r, {P r} + {~ P r}) -> exists n, how_many P n.
  Proof.
    clear. intros H Hd. exists (length (filter (fun r => if Hd r then true else false) (seq 0 h))). eexists. split; [apply NoDup_filter, seq_NoDup|]. split; [|reflexivity]. intro r. rewrite filter_In, in_seq. destruct (Hd r); split; intros; try tauto; [|discriminate (proj2 H0)]. specialize (H r p). split; [lia|reflexivity].
  Qed.

  Lemma evs_ninf t : (forall r c, r < h -> c < w -> D r c <> NInf) -> fine t -> cols_in t = [] -> Forall no_ninf (evs t).
  Proof.
    intros Hn [_ Fd] Hc. apply Forall_forall. intros e He. apply evs_in in He. rewrite Hc in He. destruct He as [(c & [] & _)|(d & Hd & He)].
    destruct (Fd d Hd) as (Hm & _). unfold on_matrix in Hm. assert (NN : ~ In NInf (Dd h w D d)).
    { intro Hx. unfold Dd, diag_of in Hx. apply in_map_iff in Hx. destruct Hx as (k & E & Hk). apply in_seq in Hk. unfold dlen in Hk. unfold Dz in E. revert E. apply Hn; lia. }
    destruct He as [->|[_ ->]]; intros vals [<-|[]]; exact NN.
  Qed.

  Lemma min_eq (x y : num) : isnan x = false -> isnan y = false -> fltb x y = false -> fltb y x = false -> x = y.
  Proof. clear - OL. destruct x, y; cbn; intros; try discriminate; try reflexivity. f_equal. apply nltb_total; assumption. Qed.
End One.
