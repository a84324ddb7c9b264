(** * PEndStream: streaming calculations of a matrix profile *)
From Coq Require Import QArith Sorted.
From Verif Require Import Np NpFacts Mat SLog PLog PSort MRing MProfile PProfile PShift MCalc SReal SCalc PCalc SStream PStream PCalcRun PCalcEnd SMixed PMixed SEnd SGen PArith PGenRun SEndStream.
Set Implicit Arguments.
Open Scope nat_scope.

(** ** Facts about histories *)
Section Hist.
  Context {X : Type}.
  Lemma stream_of_app d (H1 H2 : list (hop X)) : stream_of d (H1 ++ H2) = stream_of d H1 ++ stream_of d H2.
  Proof. apply flat_map_app. Qed.
  Lemma query_stream_app d (H1 H2 : list (hop X)) : query_stream d (H1 ++ H2) = query_stream d H1 ++ query_stream d H2.
  Proof. apply flat_map_app. Qed.
  Lemma stream_of_cols d l : stream_of d (map (@HCol X) l) = [].
  Proof. induction l; auto. Qed.
  Lemma query_stream_cols d l : query_stream d (map (@HCol X) l) = [].
  Proof. induction l; auto. Qed.
  Lemma series_of_ghist d (H : list (hop X)) : series_of (ghist d true H) = stream_of d H.
  Proof.
    unfold series_of, ghist, stream_of. induction H as [|o H IH]; [reflexivity|]. cbn [flat_map]. rewrite flat_map_app, IH. f_equal. destruct o; cbn; rewrite ?app_nil_r; reflexivity.
  Qed.
  Lemma query_of_ghist d (H : list (hop X)) : query_of (ghist d true H) = query_stream d H.
  Proof.
    unfold query_of, ghist, query_stream. induction H as [|o H IH]; [reflexivity|]. cbn [flat_map]. rewrite flat_map_app, IH. f_equal. destruct o; cbn; rewrite ?app_nil_r; reflexivity.
  Qed.

  Definition s_count (H : list (hop X)) : nat := list_sum (map (fun o => match o with HSeries rows => length (hd [] rows) | _ => 0 end) H).
  Definition q_count (H : list (hop X)) : nat := list_sum (map (fun o => match o with HQuery rows => length (hd [] rows) | _ => 0 end) H).
  Lemma s_count_app H1 H2 : s_count (H1 ++ H2) = s_count H1 + s_count H2.
  Proof. unfold s_count. rewrite map_app, list_sum_app. reflexivity. Qed.
  Lemma q_count_app H1 H2 : q_count (H1 ++ H2) = q_count H1 + q_count H2.
  Proof. unfold q_count. rewrite map_app, list_sum_app. reflexivity. Qed.
  Lemma s_count_cols l : s_count (map (@HCol X) l) = 0.
  Proof. unfold s_count. induction l; auto. Qed.
  Lemma q_count_cols l : q_count (map (@HCol X) l) = 0.
  Proof. unfold q_count. induction l; auto. Qed.
  Lemma calculated_app self m W Wq (H1 H2 : list (hop X)) : forall s q,
    calculated self m W Wq s q (H1 ++ H2) = calculated self m W Wq s q H1 ++ calculated self m W Wq (s + s_count H1) (q + q_count H1) H2.
  Proof.
    induction H1 as [|o H1 IH]; intros s q; cbn [app calculated].
    - unfold s_count, q_count. cbn. rewrite !Nat.add_0_r. reflexivity.
    - unfold s_count, q_count in *. cbn [map list_sum fold_right]. destruct o; rewrite IH; cbn [app]; cbn [Nat.add]; rewrite ?Nat.add_assoc; reflexivity.
  Qed.
  Lemma calculated_cols self m W Wq s q l : calculated self m W Wq s q (map (@HCol X) l) =
    map (fun c => (lost W s + c, if self then lost W s else lost Wq q, if self then subseqs m W s else subseqs m Wq q)) l.
  Proof. induction l as [|c l IH]; cbn [map calculated]; [reflexivity|]. rewrite IH. reflexivity. Qed.
End Hist.

Lemma log_cols {T U} (f : U -> event T) (l : list U) : (forall j, exists c v, f j = ECol c v) ->
  forall qs ss x, In x (log_from qs ss (map f l)) <-> exists j, In j l /\ In x (event_cells qs ss (f j)).
Proof.
  intros Hf. induction l as [|j l IH]; intros qs ss x; cbn [map log_from].
  - split; [intros []|intros (j & [] & _)].
  - rewrite in_app_iff. destruct (Hf j) as (c & v & Ej). assert (E1 : event_qshift (f j) = 0%Z /\ event_sshift (f j) = 0%Z) by (rewrite Ej; split; reflexivity). destruct E1 as [-> ->]. rewrite !Z.add_0_r, IH. split.
    + intros [H|(k & Hk & H)]; [exists j; split; [left; reflexivity|exact H]|exists k; split; [right; exact Hk|exact H]].
    + intros (k & [<-|Hk] & H); [left; exact H|right; exists k; split; assumption].
Qed.

Section Cells.
  Context {A : Type} {NA : NumOps A}.
  Notation num := (Np.num A).
  Context {X : Type}.
  Variables (E : list X -> list X -> num) (self : bool) (m W Wq ndim : nat) (tmb : Z) (dimf : nat -> nat) (valid : list X -> Prop).
  Hypothesis Hm : 1 <= m <= W.
  Hypothesis Hself : self = true -> Wq = W.
  Hypothesis Htmb : self = true \/ (tmb < 0)%Z.
  Hypothesis Hdim : dimf 0 < ndim.
  Hypothesis Hnan : forall x y, length x = m -> length y = m -> isnan (E x y) = false.
  Notation F := (fun _ : nat => window_column E self m W Wq).
  Notation hist := (history self m W Wq ndim tmb dimf valid F).
  Notation d := (dimf 0).

  Lemma row_length (v : points X) rows n : rows_are ndim v rows n -> length (nth d rows []) = n /\ length (hd [] rows) = n.
  Proof.
    intros (L & HL & _). split.
    - apply HL, nth_In. lia.
    - destruct rows as [|r rows]; [cbn in L; lia|]. apply HL. left. reflexivity.
  Qed.

  Lemma history_counts ops p evs : hist ops p evs ->
    length (stream_of d (p_hist p)) = p_s p /\ length (query_stream d (p_hist p)) = p_q p /\ s_count (p_hist p) = p_s p /\ q_count (p_hist p) = p_q p.
  Proof.
    induction 1 as [|ops op p p' evs evs' _ (I1 & I2 & I3 & I4) Hd]; [auto|]. destruct Hd as [v rows n s q nx H Hr _|v rows n s q nx H _ Hr _|intr upto u n s q nx H c _ _ _]; cbn [p_hist p_s p_q] in *;
      rewrite stream_of_app, query_stream_app, s_count_app, q_count_app, !app_length.
    - apply row_length in Hr. unfold stream_of at 2, query_stream at 2, s_count at 2, q_count at 2. cbn. rewrite app_nil_r. lia.
    - apply row_length in Hr. unfold stream_of at 2, query_stream at 2, s_count at 2, q_count at 2. cbn. rewrite app_nil_r. lia.
    - rewrite stream_of_cols, query_stream_cols, s_count_cols, q_count_cols. cbn. lia.
  Qed.

  (** One column, in windows that are part of the streams [TS], [TQ] *)
  Lemma column_cells H (TS TQ restS restQ : list X) s q j r a v :
    TS = stream_of d H ++ restS -> TQ = query_stream d H ++ restQ -> length (stream_of d H) = s -> length (query_stream d H) = q -> j < subseqs m W s ->
    In (r, a, v) (event_cells (Z.of_nat (if self then lost W s else lost Wq q)) (Z.of_nat (lost W s)) (ECol j [hide tmb j (window_column E self m W Wq (ghist d true H) j)])) <->
    exists r', r = Z.of_nat r' /\ a = Z.of_nat (lost W s + j) /\
      (if self then lost W s else lost Wq q) <= r' < (if self then lost W s else lost Wq q) + (if self then subseqs m W s else subseqs m Wq q) /\
      v = if (Z.abs (r - a) <=? tmb)%Z then PInf else E (sub m (if self then TS else TQ) r') (sub m TS (lost W s + j)).
  Proof.
    clear Hnan. intros ES EQ LS LQ Hj. cbn [event_cells]. unfold col_cells. rewrite in_mapi.
    assert (LW : length (lastn W (stream_of d H)) = Nat.min W s) by (rewrite length_lastn, LS; reflexivity).
    set (Q := if self then lastn W (stream_of d H) else lastn Wq (query_stream d H)).
    set (lo := if self then lost W s else lost Wq q). set (k := if self then subseqs m W s else subseqs m Wq q).
    assert (LK : length Q + 1 - m = k).
    { unfold Q, k, subseqs. destruct self; rewrite length_lastn, ?LS, ?LQ; lia. }
    assert (SC : sub m (lastn W (stream_of d H)) j = sub m TS (lost W s + j)).
    { rewrite sub_lastn, LS, ES. symmetry. apply sub_app_l. unfold lost, subseqs in *. lia. }
    assert (SR : forall i, i < k -> sub m Q i = sub m (if self then TS else TQ) (lo + i)).
    { intros i Hi. unfold Q, lo, k, subseqs, lost in *. destruct self.
      - rewrite sub_lastn, LS, ES. symmetry. apply sub_app_l. lia.
      - rewrite sub_lastn, LQ, EQ. symmetry. apply sub_app_l. lia. }
    assert (NE : forall i, nth_error (hide tmb j (window_column E self m W Wq (ghist d true H) j)) i =
      if i <? k then Some (if (Z.abs (Z.of_nat i - Z.of_nat j) <=? tmb)%Z then PInf else E (sub m Q i) (sub m TS (lost W s + j))) else None).
    { intro i. unfold hide. rewrite nth_error_mapi. unfold window_column. rewrite series_of_ghist, query_of_ghist. fold Q. rewrite LK, nth_error_map, nth_error_seq. destruct (i <? k); [|reflexivity]. cbn [option_map Nat.add]. rewrite SC. reflexivity. }
    assert (HH : forall i, (Z.abs (Z.of_nat (lo + i) - Z.of_nat (lost W s + j)) <=? tmb)%Z = (Z.abs (Z.of_nat i - Z.of_nat j) <=? tmb)%Z).
    { intro i. unfold lo. destruct Htmb as [Es|Ht].
      - rewrite Es. f_equal. f_equal. lia.
      - destruct (Z.leb_spec (Z.abs (Z.of_nat i - Z.of_nat j)) tmb); [lia|]. apply Z.leb_gt. lia. }
    split.
    - intros (i & x & Hi & Ex). injection Ex as -> -> ->. rewrite NE in Hi. destruct (Nat.ltb_spec i k) as [Hk|]; [|discriminate]. injection Hi as <-. exists (lo + i). split; [lia|]. split; [lia|]. split; [lia|].
      rewrite <- !Nat2Z.inj_add. rewrite HH, (SR i Hk). reflexivity.
    - intros (r' & -> & -> & Hr & ->). exists (r' - lo). eexists. split.
      + rewrite NE. destruct (Nat.ltb_spec (r' - lo) k); [|lia]. reflexivity.
      + rewrite <- HH, SR by lia. replace (lo + (r' - lo)) with r' by lia. f_equal. f_equal; lia.
  Qed.

  Lemma cols_bound upto u s intr n c : resolves upto (Z.of_nat (W + 1 - m)) (Z.of_nat (subseqs m W s)) (Z.of_nat u) -> runs intr n (u - c) -> forall j, In j (seq c n) -> j < subseqs m W s.
  Proof. intros Hu [Hn _] j Hj. apply resolves_bounds in Hu; [|lia|lia]. apply in_seq in Hj. lia. Qed.

  Lemma history_log ops p evs TS TQ : hist ops p evs -> (exists rs, TS = stream_of d (p_hist p) ++ rs) -> (exists rq, TQ = query_stream d (p_hist p) ++ rq) ->
    forall r a v, In (r, a, v) (log (evs [0])) <->
      exists r' a' lo n, r = Z.of_nat r' /\ a = Z.of_nat a' /\ In (a', lo, n) (calculated self m W Wq 0 0 (p_hist p)) /\ lo <= r' < lo + n /\
        v = if (Z.abs (r - a) <=? tmb)%Z then PInf else E (sub m (if self then TS else TQ) r') (sub m TS a').
  Proof.
    intros Hh. induction Hh as [|ops op p p' evs evs' Hh IH Hd]; intros [rs ES] [rq EQ] r a v.
    - cbn. split; [intros []|intros (r' & a' & lo & n & _ & _ & [] & _)].
    - unfold log. rewrite log_from_app. cbn [Z.add]. rewrite in_app_iff. change (log_from 0 0 (evs [0])) with (log (evs [0])). destruct (history_shifts [0] Hh) as [Sh Qh]. destruct (history_counts Hh) as (C1 & C2 & C3 & C4).
      assert (Pre : (exists rs, TS = stream_of d (p_hist p) ++ rs) /\ (exists rq, TQ = query_stream d (p_hist p) ++ rq)).
      { destruct Hd; cbn [p_hist] in *; rewrite stream_of_app, <- app_assoc in ES; rewrite query_stream_app, <- app_assoc in EQ; eauto. }
      destruct Pre as [PS PQ]. rewrite (IH PS PQ r a v). rewrite Sh, Qh. clear IH.
      destruct Hd as [w rows n s q nx H Hr _|w rows n s q nx H _ Hr _|intr upto u n s q nx H c Hu Hrn Hrow]; cbn [p_hist p_s p_q] in *.
      + rewrite calculated_app. cbn [calculated]. rewrite app_nil_r. match goal with |- _ \/ In _ ?l <-> _ => assert (N : l = []) by (destruct (lost W (s + n) - lost W s); [reflexivity|destruct self; reflexivity]) end. rewrite N. cbn [In]. tauto.
      + rewrite calculated_app. cbn [calculated]. rewrite app_nil_r. match goal with |- _ \/ In _ ?l <-> _ => assert (N : l = []) by (destruct (lost Wq (q + n) - lost Wq q); reflexivity) end. rewrite N. cbn [In]. tauto.
      + rewrite calculated_app, calculated_cols, C3, C4. cbn [Nat.add]. rewrite log_cols by (intro j; eexists _, _; reflexivity).
        replace (if self then Z.of_nat (lost W s) else Z.of_nat (lost Wq q)) with (Z.of_nat (if self then lost W s else lost Wq q)) by (destruct self; reflexivity).
        assert (COL : forall j, In j (seq c n) -> (In (r, a, v) (event_cells (Z.of_nat (if self then lost W s else lost Wq q)) (Z.of_nat (lost W s)) (ECol j (map (fun id : nat => hide tmb j (window_column E self m W Wq (ghist (dimf id) true (H ++ map HCol (seq c (j - c)))) j)) [0]))) <->
          exists r', r = Z.of_nat r' /\ a = Z.of_nat (lost W s + j) /\
            (if self then lost W s else lost Wq q) <= r' < (if self then lost W s else lost Wq q) + (if self then subseqs m W s else subseqs m Wq q) /\
            v = if (Z.abs (r - a) <=? tmb)%Z then PInf else E (sub m (if self then TS else TQ) r') (sub m TS (lost W s + j)))).
        { intros j Hj. destruct PS as [rs' ES']. destruct PQ as [rq' EQ']. cbn [map]. apply column_cells with (restS := rs') (restQ := rq').
          - rewrite stream_of_app, stream_of_cols, app_nil_r. exact ES'.
          - rewrite query_stream_app, query_stream_cols, app_nil_r. exact EQ'.
          - rewrite stream_of_app, stream_of_cols, app_nil_r. exact C1.
          - rewrite query_stream_app, query_stream_cols, app_nil_r. exact C2.
          - eapply cols_bound; eassumption. }
        split.
        * intros [(r' & a' & lo & k & H1 & H2 & H3 & H4)|(j & Hj & Hin)].
          -- exists r', a', lo, k. split; [exact H1|]. split; [exact H2|]. split; [apply in_app_iff; left; exact H3|exact H4].
          -- apply (COL j Hj) in Hin. destruct Hin as (r' & -> & -> & Hb & ->). eexists r', (lost W s + j), _, _. split; [reflexivity|]. split; [reflexivity|]. split; [apply in_app_iff; right; apply in_map_iff; exists j; split; [reflexivity|exact Hj]|]. split; [exact Hb|reflexivity].
        * intros (r' & a' & lo & k & H1 & H2 & H3 & H4). apply in_app_iff in H3. destruct H3 as [H3|H3]; [left; exists r', a', lo, k; tauto|]. right.
          apply in_map_iff in H3. destruct H3 as (j & Ej & Hj). injection Ej as <- <- <-. exists j. split; [exact Hj|]. apply (COL j Hj). exists r'. tauto.
  Qed.

  Lemma history_events ops p evs : hist ops p evs -> m <= Wq -> Forall (fits (Wq + 1 - m) (W + 1 - m)) (evs [0]) /\ Forall cols_no_nan (evs [0]).
  Proof.
    intros Hh HmQ. induction Hh as [|ops op p p' evs evs' Hh [I1 I2] Hd]; [split; constructor|]. destruct (history_counts Hh) as (C1 & C2 & _). rewrite !Forall_app.
    destruct Hd as [v rows n s q nx H Hr _|v rows n s q nx H _ Hr _|intr upto u n s q nx H c Hu Hrn Hrow].
    - split; (split; [assumption|]); (destruct (lost W (s + n) - lost W s); [constructor|constructor; [exact I|destruct self; repeat constructor]]).
    - split; (split; [assumption|]); (destruct (lost Wq (q + n) - lost Wq q); repeat constructor).
    - cbn [p_hist p_s p_q] in C1, C2.
      assert (COL : forall j, In j (seq c n) -> let col := window_column E self m W Wq (ghist d true (H ++ map HCol (seq c (j - c)))) j in
          j < W + 1 - m /\ 0 < length col <= Wq + 1 - m /\ forall x, In x col -> isnan x = false).
      { intros j Hj. assert (Hb : j < subseqs m W s) by (eapply cols_bound; eassumption). cbn zeta. unfold window_column. rewrite map_length, seq_length, series_of_ghist, query_of_ghist, stream_of_app, stream_of_cols, app_nil_r, query_stream_app, query_stream_cols, app_nil_r.
        set (Q := if self then lastn W (stream_of d H) else lastn Wq (query_stream d H)).
        assert (LQ : length Q = if self then Nat.min W s else Nat.min Wq q) by (unfold Q; destruct self; rewrite length_lastn, ?C1, ?C2; reflexivity).
        assert (Hn : 0 < n) by (apply in_seq in Hj; lia). specialize (Hrow Hn). unfold rows_now in Hrow. cbn [p_s p_q] in Hrow.
        split; [unfold subseqs in Hb; lia|]. split.
        - rewrite LQ. unfold subseqs in *. destruct self; [rewrite (Hself eq_refl)|]; lia.
        - intros x Hx. apply in_map_iff in Hx. destruct Hx as (i & <- & Hi). apply in_seq in Hi. apply Hnan.
          + rewrite length_sub. unfold subseqs in Hrow. destruct self; lia.
          + rewrite length_sub, length_lastn, C1. unfold subseqs in Hb. lia. }
      split; (split; [assumption|]); apply Forall_forall; intros e He; apply in_map_iff in He; destruct He as (j & <- & Hj); destruct (COL j Hj) as (H1 & H2 & H3); cbn [map].
      + split; [exact H1|]. eexists _, []. split; [reflexivity|]. unfold hide. rewrite length_mapi. exact H2.
      + intros vals [<-|[]] x Hx. unfold hide in Hx. apply in_mapi in Hx. destruct Hx as (i & y & Hi & ->). destruct (_ <=? tmb)%Z; [reflexivity|]. apply H3. eapply nth_error_In. exact Hi.
  Qed.
End Cells.

(** ** Generators: what a generator answers after any calls makes it a streaming generator *)
Section Gen.
  Context {A : Type}.
  Notation num := (Np.num A).
  Variables (X G : Type).
  Variable g_col : G -> nat -> res (G * list num).
  Variable g_diag : G -> Z -> res (G * list num).
  Variable g_s g_q : G -> list X -> res G.
  Variables (E : list X -> list X -> num) (self : bool) (m W Wq : nat) (valid : list X -> Prop) (g0 : G).
  Hypothesis Hm : 0 < m.
  Hypothesis Hself : self = true -> Wq = W.

  Definition conv (o : gop X) : gcall X := match o with GSeries xs => CSeries xs | GQuery xs => CQuery xs | GCol c => CCol c end.
  Definition valid_calls (H : list (gcall X)) : Prop := forall o, In o H -> match o with CSeries xs | CQuery xs => valid xs | _ => True end.
  Notation run := (grun g_col g_diag g_s g_q g0).
  Definition answers : Prop := forall H, in_range self m W Wq H -> trusted self W H -> valid_calls H -> exists g, run H = Ok g /\
    forall c, has_col m (wS W H) (wQ self W Wq H) c -> trusted self W (H ++ [CCol c]) ->
      exists g', g_col g c = Ok (g', map (fun r => E (sub m (wQ self W Wq H) r) (sub m (wS W H) c)) (seq 0 (length (wQ self W Wq H) + 1 - m))).

  Definition RunInv (H : list (gop X)) (g : G) : Prop :=
    let K := map conv H in run K = Ok g /\ in_range self m W Wq K /\ valid_calls K /\ StronglySorted lt (asked W 0 H).

  Lemma s_points_conv H : s_points (map conv H) = series_of H.
  Proof. unfold s_points, series_of. induction H as [|o H IH]; [reflexivity|]. cbn [map flat_map]. rewrite IH. destruct o; reflexivity. Qed.
  Lemma q_points_conv H : q_points (map conv H) = query_of H.
  Proof. unfold q_points, query_of. induction H as [|o H IH]; [reflexivity|]. cbn [map flat_map]. rewrite IH. destruct o; reflexivity. Qed.
  Lemma asked_conv (H : list (gop X)) : forall n, cols_asked W n (map conv H) = asked W n H.
  Proof. induction H as [|o H IH]; intro n; [reflexivity|]. destruct o; cbn [map conv cols_asked asked]; rewrite IH; reflexivity. Qed.
  Lemma asked_snoc (H : list (gop X)) o : asked W 0 (H ++ [o]) = asked W 0 H ++ match o with GCol c => [lost W (length (series_of H)) + c] | _ => [] end.
  Proof.
    enough (P : forall n, asked W n (H ++ [o]) = asked W n H ++ match o with GCol c => [lost W (n + length (series_of H)) + c] | _ => [] end) by apply P.
    induction H as [|x H IH]; intro n.
    - destruct o; cbn; rewrite ?Nat.add_0_r; reflexivity.
    - destruct x; cbn [app asked series_of flat_map]; rewrite IH; destruct o; cbn [app]; rewrite ?app_nil_r; try reflexivity. rewrite app_length, Nat.add_assoc. reflexivity.
  Qed.
  Lemma run_snoc H o g : run H = Ok g -> run (H ++ [o]) = gstep g_col g_diag g_s g_q g o.
  Proof. intro Hr. unfold grun in *. rewrite foldM_app, Hr. cbn [bind foldM]. destruct (gstep _ _ _ _ g o); reflexivity. Qed.
  Lemma in_range_snoc (H : list (gcall X)) o : in_range self m W Wq H ->
    match o with CSeries _ => True | CQuery _ => self = false | CCol c => has_col m (wS W H) (wQ self W Wq H) c | CDiag d => has_diag m (wS W H) (wQ self W Wq H) d end ->
    in_range self m W Wq (H ++ [o]).
  Proof.
    intros Hr Ho H1 x H2 Ex. destruct H2 as [|y H2].
    - apply app_inj_tail in Ex. destruct Ex as [<- <-]. exact Ho.
    - destruct (exists_last (l := y :: H2)) as (H2' & z & Ez); [discriminate|]. rewrite Ez in Ex. rewrite app_comm_cons, app_assoc in Ex. apply app_inj_tail in Ex. destruct Ex as [-> _]. apply (Hr H1 x H2'). reflexivity.
  Qed.

  Lemma trusted_sorted H : StronglySorted lt (asked W 0 H) -> trusted self W (map conv H).
  Proof. intro Hs. right. right. rewrite asked_conv. exact Hs. Qed.

  Lemma gen_streams : answers -> streams g_col g_s g_q self m W Wq valid (fun _ => RunInv) (fun _ => window_column E self m W Wq).
  Proof.
    intro HA. assert (STEP : forall H g o, RunInv H g -> match conv o with CSeries xs => valid xs | CQuery xs => self = false /\ valid xs | CCol c => has_col m (wS W (map conv H)) (wQ self W Wq (map conv H)) c | CDiag _ => True end ->
      StronglySorted lt (asked W 0 (H ++ [o])) -> exists g', gstep g_col g_diag g_s g_q g (conv o) = Ok g' /\ RunInv (H ++ [o]) g').
    { intros H g o (R1 & R2 & R3 & R4) Ho Hs. assert (Hr : in_range self m W Wq (map conv (H ++ [o]))).
      { rewrite map_app. cbn [map]. apply in_range_snoc; [exact R2|]. destruct o; cbn [conv] in *; tauto. }
      assert (Hv : valid_calls (map conv (H ++ [o]))).
      { rewrite map_app. intros x Hx. apply in_app_iff in Hx. destruct Hx as [Hx|[<-|[]]]; [apply R3, Hx|]. destruct o; cbn [conv] in *; tauto. }
      destruct (HA _ Hr (trusted_sorted _ Hs) Hv) as (g' & Eg & _). exists g'. split.
      - rewrite <- (@run_snoc (map conv H) (conv o) g R1). rewrite map_app in Eg. exact Eg.
      - split; [exact Eg|]. auto. }
    constructor.
    - intros _ H g xs HI Hv. destruct (STEP H g (GSeries xs) HI Hv) as (g' & Eg & HI'); [|eauto]. rewrite asked_snoc, app_nil_r. apply HI.
    - intros Es _ H g xs HI Hv. destruct (STEP H g (GQuery xs) HI (conj Es Hv)) as (g' & Eg & HI'); [|eauto]. rewrite asked_snoc, app_nil_r. apply HI.
    - intros _ H g c HI Hc Hrow Hs.
      assert (ES : wS W (map conv H) = lastn W (series_of H)) by (unfold wS; rewrite s_points_conv; reflexivity).
      assert (EQ : wQ self W Wq (map conv H) = if self then lastn W (series_of H) else lastn Wq (query_of H)) by (unfold wQ; rewrite ES, q_points_conv; reflexivity).

      assert (Hcol : has_col m (wS W (map conv H)) (wQ self W Wq (map conv H)) c).
      { rewrite ES, EQ. unfold has_col. rewrite length_lastn. unfold subseqs in Hc. split; [lia|]. destruct HI as (_ & _ & _ & _). unfold rows_of, subseqs in Hrow. revert Hrow. destruct self; intro Hrow; rewrite length_lastn; lia. }
      destruct HI as (R1 & R2 & R3 & R4). destruct (HA _ R2 (trusted_sorted _ R4) R3) as (g1 & Eg1 & Hans). rewrite R1 in Eg1. injection Eg1 as <-.
      assert (Hs' : StronglySorted lt (asked W 0 H)) by exact R4.
      destruct (Hans c Hcol) as (g' & Eg'). { replace (map conv H ++ [CCol c]) with (map conv (H ++ [GCol c])) by (rewrite map_app; reflexivity). apply trusted_sorted, Hs. }
      exists g'. rewrite Eg'. split; [unfold window_column; rewrite ES, EQ; reflexivity|]. split.
      + destruct (STEP H g (GCol c) (conj R1 (conj R2 (conj R3 R4))) Hcol Hs) as (g2 & Eg2 & HI2). cbn [conv gstep] in Eg2. rewrite Eg' in Eg2. cbn [bind fst] in Eg2. injection Eg2 as <-. exact HI2.
      + unfold window_column. rewrite map_length, seq_length. unfold rows_of, subseqs. revert Hself. destruct self; intro Hs0; rewrite length_lastn; [rewrite (Hs0 eq_refl)|]; lia.
  Qed.

  Lemma RunInv_nil : RunInv [] g0.
  Proof.
    split; [reflexivity|]. split; [intros H1 o H2 Ex; destruct H1; discriminate|]. split; [intros o []|constructor].
  Qed.
End Gen.

(** ** The program *)
Section Program.
  Context {A : Type} {NA : NumOps A} {OL : OrdLaws A}.
  Notation num := (Np.num A).
  Variables (X G : Type).
  Variable g_col : G -> nat -> res (G * list num).
  Variable g_diag : G -> Z -> res (G * list num).
  Variable g_s g_q : G -> list X -> res G.
  Variable prepare : Z -> Z -> option Z -> res G.
  Variable set_order : list nat -> list nat.
  Variables (memn : nat -> num) (memz : nat -> Z) (sfc : Q).
  Hypothesis HSO : orders_sets set_order.

  Lemma stream_program_lemma E valid g0 m W qw ndim buffer dim ops p evs :
    let self := is_self qw in
    let Wq := match qw with Some q => q | None => W end in
    let b := buffer_used qw (Z.of_nat m) buffer in
    1 <= m <= W -> m <= Wq -> dim < ndim -> (1 <= sfc)%Q -> (sfc <= 2)%Q -> (-1 <= b < Z.of_nat (W + 1 - m))%Z ->
    prepare (Z.of_nat m) (Z.of_nat W) (option_map Z.of_nat qw) = Ok g0 -> answers g_col g_diag g_s g_q E self m W Wq valid g0 ->
    (forall x y, length x = m -> length y = m -> isnan (E x y) = false) ->
    history self m W Wq ndim b (fun _ => dim) valid (fun _ => window_column E self m W Wq) ops p evs ->
    exists res, stream_program g_col g_s g_q prepare set_order memn memz sfc (Z.of_nat m) (Z.of_nat W) (option_map Z.of_nat qw) ndim buffer (Z.of_nat dim) ops = Ok res /\
      let TS := stream_of dim (p_hist p) in let TQ := query_stream dim (p_hist p) in
      window_profile (fun r a => E (sub m (if self then TS else TQ) r) (sub m TS a)) (lost W (p_s p)) (W + 1 - m) (seen b (calculated self m W Wq 0 0 (p_hist p))) res.
  Proof.
    intros self Wq b Hm HmQ Hdim Hs1 Hs2 Hb Hp HA Hnan Hh.
    assert (EX : exists t0 : stm G (@smp A), stm_new G (@smp A) (Z.of_nat m) (Z.of_nat W) (option_map Z.of_nat qw) ndim buffer = Ok t0 /\ ca_tmb (st_calc t0) = b /\ ca_ndim (st_calc t0) = ndim /\ ca_m (st_calc t0) = Z.of_nat m /\
      ca_gens (st_calc t0) = [] /\ ca_cons (st_calc t0) = [] /\ ca_self (st_calc t0) = self /\ ca_ns (st_calc t0) = Z.of_nat (W + 1 - m) /\ ca_nq (st_calc t0) = Z.of_nat (Wq + 1 - m)).
    { unfold stm_new. subst self Wq b. destruct qw as [q|]; cbn [is_self option_map buffer_used] in *.
      - cbn [ca_new bind]. eexists. split; [reflexivity|]. cbn. repeat split; lia.
      - unfold ca_new, buffer_of in *.
        destruct (Z.leb_spec (-1) (match buffer with None => Z.of_nat m / 2 | Some b => b end)%Z); [|lia].
        destruct (Z.ltb_spec (match buffer with None => Z.of_nat m / 2 | Some b => b end) (Z.of_nat W - Z.of_nat m + 1))%Z; [|lia]. cbn [andb bind]. eexists. split; [reflexivity|]. cbn. repeat split; lia. }
    destruct EX as (t0 & E0 & Et & End & Em & Eg & Ec & Es & Ens & Enq).
    assert (Hself : self = true -> Wq = W) by (subst self Wq; destruct qw; [discriminate|reflexivity]).
    assert (Htmb : self = true \/ (b < 0)%Z) by (subst self b; destruct qw; [right; cbn; lia|left; reflexivity]).
    assert (Hnd : 0 < ndim) by lia.
    destruct (@history_events A X E self m W Wq ndim b (fun _ => dim) valid Hm Hself Htmb Hdim Hnan ops p evs Hh HmQ) as [HF HN].
    destruct (@C38_merged_lemma A NA OL memn memz sfc (Wq + 1 - m) (W + 1 - m) (evs [0]) Hs1 Hs2 ltac:(lia) HF HN) as (c0 & c1 & Ei & Er & L1 & L2 & HB).
    assert (Hh' : history self m W Wq ndim (ca_tmb (st_calc t0)) (fun id => nth id (map snd [(g0, dim)]) 0) valid (fun _ => window_column E self m W Wq) ops p evs -> True) by auto.
    assert (Hh2 : exists evs', history self m W Wq ndim (ca_tmb (st_calc t0)) (fun id => nth id (map snd [(g0, dim)]) 0) valid (fun _ => window_column E self m W Wq) ops p evs' /\ evs' [0] = evs [0]).
    { rewrite Et. clear - Hh. induction Hh as [|ops op p p' evs evs' Hh (ev1 & I1 & I2) Hd]; [exists (fun _ => []); split; [constructor|reflexivity]|].
      destruct Hd as [v rows n s q nx H Hr Hv|v rows n s q nx H Hsf Hr Hv|intr upto u n s q nx H c Hu Hrn Hrow]; (eexists; split; [eapply history_snoc; [exact I1|]|]).
      - eapply does_series; eassumption.
      - cbn beta. rewrite I2. reflexivity.
      - eapply does_query; eassumption.
      - cbn beta. rewrite I2. reflexivity.
      - eapply does_cols; eassumption.
      - cbn beta. rewrite I2. reflexivity. }
    destruct Hh2 as (evs2 & Hh2 & Ev). clear Hh'.
    destruct (@stream_lemma A X G (@smp A) g_col g_s g_q smp_step set_order m W qw ndim buffer t0 [(g0, dim)] [(c0, [0])] valid (fun _ => RunInv g_col g_diag g_s g_q self m W Wq valid g0) (fun _ => window_column E self m W Wq) ops p evs2) as [_ R2]; auto.
    { intros c ids id [Ex|[]] Hid. injection Ex as <- <-. destruct Hid as [<-|[]]. cbn. lia. }
    { intros g d [Ex|[]]. injection Ex as <- <-. exact Hdim. }
    { intros id g d Hg. destruct id as [|[|id]]; cbn in Hg; try discriminate. injection Hg as <- <-. apply RunInv_nil. }
    { apply gen_streams; [lia|exact Hself|exact HA]. }
    destruct (R2 [(c1, [0])]) as (t & Erun & Ecs).
    { constructor; [|constructor]. cbn [fst snd]. split; [reflexivity|]. rewrite Ev. exact Er. }
    exists (smp_mp c1, smp_idx c1). split.
    - unfold stream_program. rewrite E0. cbn [bind]. unfold stm_add_generator. rewrite End.
      destruct (Z.ltb_spec (Z.of_nat dim) 0); [lia|]. destruct (Z.leb_spec (Z.of_nat ndim) (Z.of_nat dim)); [lia|]. cbn [orb]. rewrite Es, Em, Ens, Enq, Eg.
      assert (Ep : (if negb self then prepare (Z.of_nat m) (Z.of_nat (W + 1 - m) + Z.of_nat m - 1)%Z (Some (Z.of_nat (Wq + 1 - m) + Z.of_nat m - 1)%Z) else prepare (Z.of_nat m) (Z.of_nat (W + 1 - m) + Z.of_nat m - 1)%Z None) = Ok g0).
      { rewrite <- Hp. replace (Z.of_nat (W + 1 - m) + Z.of_nat m - 1)%Z with (Z.of_nat W) by lia. replace (Z.of_nat (Wq + 1 - m) + Z.of_nat m - 1)%Z with (Z.of_nat Wq) by lia. subst self Wq. destruct qw; reflexivity. }
      rewrite Ep. cbn [bind st_calc st_sp st_qp]. unfold add_consumer. cbn [ca_upd ca_nq ca_ns ca_gens ca_cons ca_last]. rewrite Enq, Ens. cbn beta. rewrite !Nat2Z.id. rewrite Ei. cbn [bind]. rewrite Ec. cbn [app].
      unfold stm_with in Erun. unfold ca_upd in *. cbn [ca_self ca_m ca_ndim ca_ns ca_nq ca_tmb ca_last ca_gens ca_cons] in *. rewrite Erun. cbn [bind]. rewrite Ecs. reflexivity.
    - cbn zeta. split; [exact L1|]. split; [exact L2|]. intros j Hj. destruct (HB j Hj) as (v & i & Ev1 & Ei1 & HBest). cbn [fst snd]. exists v, i. split; [exact Ev1|]. split; [exact Ei1|].
      destruct (history_shifts [0] Hh) as [Sh _]. rewrite Sh in HBest. rewrite <- Nat2Z.inj_add in HBest. set (a := lost W (p_s p) + j) in *.
      set (TS := stream_of dim (p_hist p)) in *. set (TQ := query_stream dim (p_hist p)) in *.
      pose proof (@history_log A X E self m W Wq ndim b (fun _ => dim) valid Hm Hself Htmb Hdim ops p evs TS TQ Hh ltac:(exists []; rewrite app_nil_r; reflexivity) ltac:(exists []; rewrite app_nil_r; reflexivity)) as HL.
      set (D := fun r : nat => E (sub m (if self then TS else TQ) r) (sub m TS a)). set (P := seen b (calculated self m W Wq 0 0 (p_hist p)) a).
      assert (Hrow : forall r, P r -> In (Z.of_nat r, D r) (sel all_rows (Z.of_nat a) (log (evs [0])))).
      { intros r (Hf & lo & n & Hin & Hr). apply in_sel. split; [|reflexivity]. apply HL. exists r, a, lo, n. split; [reflexivity|]. split; [reflexivity|]. split; [exact Hin|]. split; [exact Hr|].
        destruct (Z.leb_spec (Z.abs (Z.of_nat r - Z.of_nat a)) b); [lia|reflexivity]. }
      assert (Hcell : forall r x, In (r, x) (sel all_rows (Z.of_nat a) (log (evs [0]))) -> x = PInf \/ exists r', r = Z.of_nat r' /\ P r' /\ x = D r').
      { intros r x Hin. apply in_sel in Hin. destruct Hin as [Hin _]. apply HL in Hin. destruct Hin as (r' & a' & lo & n & -> & Ea & Hin & Hr & ->). apply Nat2Z.inj in Ea. subst a'.
        destruct (Z.leb_spec (Z.abs (Z.of_nat r' - Z.of_nat a)) b); [left; reflexivity|]. right. exists r'. split; [reflexivity|]. split; [|reflexivity]. split; [lia|]. exists lo, n. split; assumption. }
      destruct HBest as [[-> HBest]|(Hlt & Hin & HBest)].
      + left. split; [reflexivity|]. intros r Hr. eapply HBest, Hrow, Hr.
      + right. split; [exact Hlt|]. destruct (Hcell _ _ Hin) as [->|(r & -> & Hr & ->)]; [discriminate|]. exists r. split; [exact Hr|]. do 2 (split; [reflexivity|]).
        intros r' Hr'. eapply HBest, Hrow, Hr'.
  Qed.
End Program.

(** Every column of the window before the next one was calculated *)
Lemma history_calculated {A X} self m W Wq ndim tmb dim valid (F : nat -> list (gop X) -> nat -> list (Np.num A)) ops p evs :
  0 < ndim -> history self m W Wq ndim tmb dim valid F ops p evs ->
  s_count (p_hist p) = p_s p /\ q_count (p_hist p) = p_q p /\
  forall a, lost W (p_s p) <= a < p_next p -> exists lo n, In (a, lo, n) (calculated self m W Wq 0 0 (p_hist p)).
Proof.
  intros Hnd. assert (RL : forall (v : points X) rows n, rows_are ndim v rows n -> length (hd [] rows) = n).
  { intros v rows n (L & HL & _). destruct rows as [|r rows]; [cbn in L; lia|]. apply HL. left. reflexivity. }
  induction 1 as [|ops op p p' evs evs' _ (I1 & I2 & I3) Hd]; [split; [reflexivity|]; split; [reflexivity|]; cbn; lia|].
  destruct Hd as [v rows n s q nx H Hr _|v rows n s q nx H _ Hr _|intr upto u n s q nx H c Hu Hrn _]; cbn [p_hist p_s p_q p_next] in *; rewrite s_count_app, q_count_app, calculated_app.
  - apply RL in Hr. unfold s_count at 2, q_count at 2. cbn. split; [lia|]. split; [lia|]. intros a Ha. destruct (I3 a) as (lo & k & Hin); [unfold lost in *; lia|]. exists lo, k. apply in_app_iff. left. exact Hin.
  - apply RL in Hr. unfold s_count at 2, q_count at 2. cbn. split; [lia|]. split; [lia|]. intros a Ha. destruct (I3 a Ha) as (lo & k & Hin). exists lo, k. apply in_app_iff. left. exact Hin.
  - rewrite s_count_cols, q_count_cols, calculated_cols, I1, I2. split; [lia|]. split; [lia|]. intros a Ha. destruct (Nat.lt_ge_cases a nx) as [Hlt|Hge].
    + destruct (I3 a) as (lo & k & Hin); [lia|]. exists lo, k. apply in_app_iff. left. exact Hin.
    + eexists _, _. apply in_app_iff. right. apply in_map_iff. exists (a - lost W s). cbn [Nat.add]. assert (Ea : lost W s + (a - lost W s) = a) by lia. rewrite Ea. split; [reflexivity|]. apply in_seq. subst c. lia.
Qed.
