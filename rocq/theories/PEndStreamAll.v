(** * PEndStreamAll: complete streaming programs with any generators and any consumers *)
From Coq Require Import QArith Sorted.
From Verif Require Import Np NpFacts Mat SLog PLog PSort MRing MProfile PProfile PShift MDist SDist PDist MContext SContext PCmpRun MMulti SMulti PMulti PMultiRun MCalc SReal SCalc PCalc SStream PStream PCalcRun PCalcEnd SMixed PMixed SEnd SGen PArith PGenRun SEndStream PEndStream SEndAll SEndCons PEndAll PEndMulti SEndStreamAll.
Set Implicit Arguments.
Open Scope nat_scope.

(** ** Consumers that are initialised and then receive events *)
Section Receive.
  Context {A : Type}.
  Notation num := (Np.num A).
  Variables (C : Type) (c_step : C -> event num -> res C) (h w : Z) (evs : list nat -> list (event num)).
  Lemma receive_combine (consumers : list (list nat * (nat -> Z -> Z -> res C))) c0s : Forall2 (fun ci c0 => snd ci (length (fst ci)) h w = Ok c0) consumers c0s ->
    forall cns', (exists cps, receive c_step evs (combine c0s (map fst consumers)) cps /\ cns' = map fst cps) <-> Forall2 (fun cc c => foldM c_step (evs (fst (fst cc))) (snd cc) = Ok c) (combine consumers c0s) cns'.
  Proof.
    intro HF0. induction HF0 as [|[ids init] c0 cis c0s Ei HF0 IH]; intro cns'; cbn [map combine fst snd].
    - split.
      + intros (cps & R & ->). inversion R. constructor.
      + intro R. inversion R. exists []. split; [constructor|reflexivity].
    - split.
      + intros (cps & R & ->). inversion R as [|x y l l' [R1 R2] R3]; subst. cbn [fst snd map] in *. constructor; [exact R2|]. apply IH. eauto.
      + intro R. inversion R as [|x y l l' R1 R2]; subst. cbn [fst snd] in *. apply IH in R2. destruct R2 as (cps & R2 & ->). exists ((y, ids) :: cps). split; [constructor; [split; [reflexivity|exact R1]|exact R2]|reflexivity].
  Qed.
  Lemma both_parts (consumers : list (list nat * (nat -> Z -> Z -> res C))) : forall cns,
    Forall2 (fun ci c => exists c0, snd ci (length (fst ci)) h w = Ok c0 /\ foldM c_step (evs (fst ci)) c0 = Ok c) consumers cns <->
      exists c0s, Forall2 (fun ci c0 => snd ci (length (fst ci)) h w = Ok c0) consumers c0s /\ Forall2 (fun cc c => foldM c_step (evs (fst (fst cc))) (snd cc) = Ok c) (combine consumers c0s) cns.
  Proof.
    induction consumers as [|ci cis IH]; intro cns; split.
    - intro H. inversion H. exists []. split; constructor.
    - intros (c0s & H1 & H2). inversion H1; subst. inversion H2. constructor.
    - intro H. inversion H as [|x c l l' (c0 & H1 & H2) H3]; subst. apply IH in H3. destruct H3 as (c0s & H3 & H4). exists (c0 :: c0s). split; [constructor; assumption|]. cbn [combine]. constructor; assumption.
    - intros (c0s & H1 & H2). inversion H1 as [|x c0 l l' H3 H4]; subst. cbn [combine] in H2. inversion H2 as [|x c k k' H5 H6]; subst. constructor; [exists c0; split; assumption|]. apply IH. eauto.
  Qed.
End Receive.

(** ** The program *)
Section Program.
  Context {A : Type} {NA : NumOps A}.
  Notation num := (Np.num A).
  Variables (X G C : Type).
  Variable g_col : G -> nat -> res (G * list num).
  Variable g_s g_q : G -> list X -> res G.
  Variable prepare : Z -> Z -> option Z -> res G.
  Variable c_step : C -> event num -> res C.
  Variable set_order : list nat -> list nat.
  Hypothesis HSO : orders_sets set_order.

  Lemma stream_add_generators m W qw ndim g0 dims : forall t : stm G C,
    ca_ndim (st_calc t) = ndim -> ca_m (st_calc t) = Z.of_nat m -> ca_self (st_calc t) = is_self qw -> ca_ns (st_calc t) = Z.of_nat (W + 1 - m) ->
    ca_nq (st_calc t) = Z.of_nat (match qw with Some q => q | None => W end + 1 - m) -> 1 <= m <= W -> m <= match qw with Some q => q | None => W end ->
    prepare (Z.of_nat m) (Z.of_nat W) (option_map Z.of_nat qw) = Ok g0 -> (forall d, In d dims -> d < ndim) ->
    foldM (stm_add_generator prepare) (map Z.of_nat dims) t = Ok (stm_with t (ca_gens (st_calc t) ++ map (fun d => (g0, d)) dims) (ca_cons (st_calc t))).
  Proof.
    clear. induction dims as [|d dims IH]; intros t End Em Es Ens Enq Hm HmQ Hp Hd; cbn [map foldM].
    - unfold stm_with, ca_upd. rewrite app_nil_r. destruct t as [[] ? ?]. reflexivity.
    - unfold stm_add_generator at 1. rewrite End. specialize (Hd d ltac:(left; reflexivity)) as Hd0.
      destruct (Z.ltb_spec (Z.of_nat d) 0); [lia|]. destruct (Z.leb_spec (Z.of_nat ndim) (Z.of_nat d)); [lia|]. cbn [orb]. rewrite Es, Em, Ens, Enq.
      assert (Ep : (if negb (is_self qw) then prepare (Z.of_nat m) (Z.of_nat (W + 1 - m) + Z.of_nat m - 1)%Z (Some (Z.of_nat (match qw with Some q => q | None => W end + 1 - m) + Z.of_nat m - 1)%Z) else prepare (Z.of_nat m) (Z.of_nat (W + 1 - m) + Z.of_nat m - 1)%Z None) = Ok g0).
      { rewrite <- Hp. replace (Z.of_nat (W + 1 - m) + Z.of_nat m - 1)%Z with (Z.of_nat W) by lia. destruct qw as [q|]; cbn [is_self negb option_map]; [|reflexivity]. do 2 f_equal. lia. }
      rewrite Ep. cbn [bind]. rewrite Nat2Z.id. rewrite IH; try assumption; [|intros; apply Hd; right; assumption]. unfold stm_with. cbn. rewrite <- app_assoc. reflexivity.
  Qed.

  Lemma streaming_told g0 m W qw ndim buffer dims valid (Inv : nat -> list (gop X) -> G -> Prop) F consumers ops p evs :
    let self := is_self qw in let Wq := match qw with Some q => q | None => W end in let b := buffer_used qw (Z.of_nat m) buffer in
    1 <= m <= W -> m <= Wq -> 0 < ndim -> (-1 <= b < Z.of_nat (W + 1 - m))%Z -> (forall d, In d dims -> d < ndim) ->
    prepare (Z.of_nat m) (Z.of_nat W) (option_map Z.of_nat qw) = Ok g0 -> (forall id, Inv id [] g0) -> streams g_col g_s g_q self m W Wq valid Inv F ->
    (forall ids init id, In (ids, init) consumers -> In id ids -> id < length dims) ->
    history self m W Wq ndim b (fun id => nth id dims 0) valid F ops p evs ->
    forall cns, streaming_program g_col g_s g_q prepare c_step set_order (Z.of_nat m) (Z.of_nat W) (option_map Z.of_nat qw) ndim buffer (map Z.of_nat dims) consumers ops = Ok cns <->
      Forall2 (fun ci c => exists c0, snd ci (length (fst ci)) (Z.of_nat (Wq + 1 - m)) (Z.of_nat (W + 1 - m)) = Ok c0 /\ foldM c_step (evs (fst ci)) c0 = Ok c) consumers cns.
  Proof.
    intros self Wq b Hm HmQ Hnd Hb Hd Hp HI HST Hids Hh cns.
    assert (EX : exists t0 : stm G C, stm_new G C (Z.of_nat m) (Z.of_nat W) (option_map Z.of_nat qw) ndim buffer = Ok t0 /\ ca_tmb (st_calc t0) = b /\ ca_ndim (st_calc t0) = ndim /\ ca_m (st_calc t0) = Z.of_nat m /\
      ca_gens (st_calc t0) = [] /\ ca_cons (st_calc t0) = [] /\ ca_self (st_calc t0) = self /\ ca_ns (st_calc t0) = Z.of_nat (W + 1 - m) /\ ca_nq (st_calc t0) = Z.of_nat (Wq + 1 - m)).
    { unfold stm_new. subst self Wq b. destruct qw as [q|]; cbn [is_self option_map buffer_used] in *.
      - cbn [ca_new bind]. eexists. split; [reflexivity|]. cbn. repeat split; lia.
      - unfold ca_new, buffer_of in *.
        destruct (Z.leb_spec (-1) (match buffer with None => Z.of_nat m / 2 | Some b => b end)%Z); [|lia].
        destruct (Z.ltb_spec (match buffer with None => Z.of_nat m / 2 | Some b => b end) (Z.of_nat W - Z.of_nat m + 1))%Z; [|lia]. cbn [andb bind]. eexists. split; [reflexivity|]. cbn. repeat split; lia. }
    destruct EX as (t0 & E0 & Et & End & Em & Eg & Ec & Es & Ens & Enq).
    set (gens := map (fun d => (g0, d)) dims).
    assert (Egs : map snd gens = dims) by (unfold gens; rewrite map_map; apply map_id).
    unfold streaming_program. rewrite E0. cbn [bind]. rewrite (@stream_add_generators m W qw ndim g0 dims t0 End Em Es Ens Enq Hm HmQ Hp Hd), Eg, Ec. cbn [bind app]. fold gens.
    set (t1 := stm_with t0 gens []).
    assert (A1 : ca_nq (st_calc t1) = Z.of_nat (Wq + 1 - m)) by exact Enq. assert (A2 : ca_ns (st_calc t1) = Z.of_nat (W + 1 - m)) by exact Ens.
    pose proof (@add_consumers G C (Z.of_nat (Wq + 1 - m)) (Z.of_nat (W + 1 - m)) consumers (st_calc t1) A1 A2) as AC. clear A1 A2.
    assert (Hgens : gens_ok (fun id g => Inv id [] g) gens).
    { intros id g d Hg. unfold gens in Hg. rewrite nth_error_map in Hg. destruct (nth_error dims id); [|discriminate]. injection Hg as <- _. apply HI. }
    assert (Hidk : forall c0s : list C, ids_ok gens (combine c0s (map fst consumers))).
    { intros c0s c ids id Hin Hid. apply in_combine_r in Hin. apply in_map_iff in Hin. destruct Hin as ([ids' init] & <- & Hin). unfold gens. rewrite map_length. eapply Hids; eassumption. }
    assert (Hgd : forall g d, In (g, d) gens -> d < ndim) by (intros g d Hg; unfold gens in Hg; apply in_map_iff in Hg; destruct Hg as (d' & E & Hin); injection E as _ <-; auto).
    assert (Hh' : history self m W Wq ndim (ca_tmb (st_calc t0)) (fun id => nth id (map snd gens) 0) valid F ops p evs) by (rewrite Et, Egs; exact Hh).
    pose proof (fun c0s : list C => (@stream_lemma A X G C g_col g_s g_q c_step set_order m W qw ndim buffer t0 gens (combine c0s (map fst consumers)) valid Inv F ops p evs
      Hm HmQ Hnd E0 HSO (Hidk c0s) Hgd Hgens HST Hh')) as RUN.
    assert (SH : forall c0s, mkStm (ca_upd (st_calc t1) (ca_gens (st_calc t1)) (ca_cons (st_calc t1) ++ combine c0s (map fst consumers)) (ca_last (st_calc t1))) (st_sp t1) (st_qp t1)
      = stm_with t0 gens (combine c0s (map fst consumers))) by (intro; reflexivity).
    rewrite both_parts. split.
    - destruct (foldM _ consumers (st_calc t1)) as [s1|e] eqn:E1; [|discriminate]. cbn [bind]. destruct (proj1 (AC s1) eq_refl) as (c0s & HF0 & ->). rewrite SH.
      destruct (foldM _ ops _) as [a2|e] eqn:E2; [|discriminate]. cbn [bind]. intro E. injection E as <-. destruct (RUN c0s) as [R1 _]. destruct (R1 a2 E2) as (R3 & _).
      exists c0s. split; [exact HF0|]. apply (@receive_combine A C c_step _ _ evs consumers c0s HF0). eauto.
    - intros (c0s & HF0 & R). apply (@receive_combine A C c_step _ _ evs consumers c0s HF0) in R. destruct R as (cps & R & ->). destruct (RUN c0s) as [_ R2]. destruct (R2 _ R) as (a2 & E2 & E3).
      assert (E1 : foldM (fun s c => add_consumer s (fst c) (snd c)) consumers (st_calc t1) = Ok (ca_upd (st_calc t1) (ca_gens (st_calc t1)) (ca_cons (st_calc t1) ++ combine c0s (map fst consumers)) (ca_last (st_calc t1)))) by (apply AC; eauto).
      rewrite E1. cbn [bind]. rewrite SH, E2. cbn [bind]. rewrite E3. reflexivity.
  Qed.
End Program.

(** ** The cells that consumers of several generators receive *)
Lemma tr_qshift {A} (es : list (event (Np.num A))) : qshift (map (@tr A) es) = qshift es.
Proof. induction es as [|e es IH]; [reflexivity|]. cbn [map qshift]. rewrite IH. destruct e; reflexivity. Qed.
Lemma tr_sshift {A} (es : list (event (Np.num A))) : sshift (map (@tr A) es) = sshift es.
Proof. induction es as [|e es IH]; [reflexivity|]. cbn [map sshift]. rewrite IH. destruct e; reflexivity. Qed.
Lemma chans_map {A} (f : nat -> nat -> Np.num A) ids k : ids <> [] -> chans (map (fun id => map (f id) (seq 0 k)) ids) = map (fun i => map (fun id => f id i) ids) (seq 0 k).
Proof.
  intro Hne. destruct ids as [|i0 ids]; [congruence|]. unfold chans. cbn [map]. rewrite map_length, seq_length.
  apply map_ext_in. intros i Hi. apply in_seq in Hi. unfold chan. rewrite <- (map_cons (fun id => map (f id) (seq 0 k)) i0 ids), map_map, <- (map_cons (fun id => f id i) i0 ids). apply map_ext. intro id.
  rewrite nth_indep with (d' := f id 0) by (rewrite map_length, seq_length; lia). rewrite map_nth, seq_nth by lia. reflexivity.
Qed.
(** One channel *)
Lemma mlog_single {A} (es : list (event (Np.num A))) : Forall (fun e => match e with EDiag _ vs | ECol _ vs => exists v, vs = [v] | _ => True end) es ->
  forall r a v, In (r, a, v) (log es) <-> In (r, a, [v]) (mlog es).
Proof.
  intro HF. unfold mlog, log. generalize 0%Z at 1 3. generalize 0%Z. induction HF as [|e es He _ IH]; intros ss qs r a v; cbn [map log_from]; [tauto|]. rewrite !in_app_iff.
  replace (event_qshift (tr e)) with (event_qshift e) by (destruct e; reflexivity). replace (event_sshift (tr e)) with (event_sshift e) by (destruct e; reflexivity). rewrite IH.
  enough (P : In (r, a, v) (event_cells qs ss e) <-> In (r, a, [v]) (event_cells qs ss (tr e))) by tauto.
  assert (CH : forall l : list (Np.num A), chans [l] = map (fun x => [x]) l).
  { intro l. unfold chans, chan. cbn [map]. rewrite <- (map_map (fun i => nth i l NaN) (fun x => [x])). f_equal. apply nth_error_ext. intro i. rewrite nth_error_map, nth_error_seq.
    destruct (Nat.ltb_spec i (length l)) as [Hi|Hi]; [cbn; symmetry; apply nth_error_nth'; exact Hi|symmetry; apply nth_error_None; exact Hi]. }
  destruct e as [d vs|c vs|n|n]; cbn [tr event_cells]; try tauto; destruct He as (l & ->); rewrite CH; unfold diag_cells, col_cells; rewrite !in_mapi; split.
  - intros (i & x & Hi & Ex). injection Ex as -> -> ->. exists i, [x]. split; [rewrite nth_error_map, Hi; reflexivity|reflexivity].
  - intros (i & x & Hi & Ex). injection Ex as -> -> <-. rewrite nth_error_map in Hi. destruct (nth_error l i) as [y|] eqn:Ey; [|discriminate]. injection Hi as ->. exists i, v. auto.
  - intros (i & x & Hi & Ex). injection Ex as -> -> ->. exists i, [x]. split; [rewrite nth_error_map, Hi; reflexivity|reflexivity].
  - intros (i & x & Hi & Ex). injection Ex as -> -> <-. rewrite nth_error_map in Hi. destruct (nth_error l i) as [y|] eqn:Ey; [|discriminate]. injection Hi as ->. exists i, v. auto.
Qed.

Section Cells.
  Context {A : Type} {NA : NumOps A}.
  Notation num := (Np.num A).
  Context {X : Type}.
  Variables (E : list X -> list X -> num) (self : bool) (m W Wq ndim : nat) (tmb : Z) (dimf : nat -> nat) (valid : list X -> Prop).
  Hypothesis Hm : 1 <= m <= W.
  Hypothesis Hself : self = true -> Wq = W.
  Hypothesis Htmb : self = true \/ (tmb < 0)%Z.
  Notation F := (fun _ : nat => window_column E self m W Wq).
  Notation hist := (history self m W Wq ndim tmb dimf valid F).
  Notation lo_of s q := (if self then lost W s else lost Wq q).
  Notation k_of s q := (if self then subseqs m W s else subseqs m Wq q).

  Lemma counts_any ops p evs d : d < ndim -> hist ops p evs -> length (stream_of d (p_hist p)) = p_s p /\ length (query_stream d (p_hist p)) = p_q p.
  Proof.
    clear. intro Hd0. assert (RL : forall (v : points X) rows n, rows_are ndim v rows n -> length (nth d rows []) = n) by (intros v rows n (L & HL & _); apply HL, nth_In; lia).
    induction 1 as [|ops op p p' evs evs' _ (I1 & I2) Hd]; [auto|]. destruct Hd as [v rows n s q nx H Hr _|v rows n s q nx H _ Hr _|intr upto u n s q nx H c _ _ _]; cbn [p_hist p_s p_q] in *;
      rewrite stream_of_app, query_stream_app, !app_length.
    - apply RL in Hr. unfold stream_of at 2, query_stream at 2. cbn. rewrite app_nil_r. lia.
    - apply RL in Hr. unfold stream_of at 2, query_stream at 2. cbn. rewrite app_nil_r. lia.
    - rewrite stream_of_cols, query_stream_cols. cbn. lia.
  Qed.

  (** One column of one channel, with the entries of the matrix of the complete streams *)
  Lemma column_values d H H' s q j rs rq : stream_of d H' = stream_of d H ++ rs -> query_stream d H' = query_stream d H ++ rq -> length (stream_of d H) = s -> length (query_stream d H) = q -> j < subseqs m W s ->
    hide tmb j (window_column E self m W Wq (ghist d true H) j) = map (fun i => masked tmb (stream_entry E self m d H') (lo_of s q + i) (lost W s + j)) (seq 0 (k_of s q)).
  Proof.
    intros ES EQ LS LQ Hj. set (Q := if self then lastn W (stream_of d H) else lastn Wq (query_stream d H)). set (lo := lo_of s q). set (k := k_of s q).
    assert (LK : length Q + 1 - m = k) by (unfold Q, k, subseqs; destruct self; rewrite length_lastn, ?LS, ?LQ; lia).
    assert (SC : sub m (lastn W (stream_of d H)) j = sub m (stream_of d H') (lost W s + j)).
    { rewrite sub_lastn, LS, ES. symmetry. apply sub_app_l. unfold lost, subseqs in *. lia. }
    assert (SR : forall i, i < k -> sub m Q i = sub m (if self then stream_of d H' else query_stream d H') (lo + i)).
    { intros i Hi. unfold Q, lo, k, subseqs, lost in *. destruct self.
      - rewrite sub_lastn, LS, ES. symmetry. apply sub_app_l. lia.
      - rewrite sub_lastn, LQ, EQ. symmetry. apply sub_app_l. lia. }
    apply nth_error_ext. intro i. unfold hide. rewrite nth_error_mapi. unfold window_column. rewrite series_of_ghist, query_of_ghist. fold Q. rewrite LK, !nth_error_map, nth_error_seq. destruct (Nat.ltb_spec i k) as [Hi|Hi]; [|reflexivity]. cbn [option_map Nat.add]. f_equal.
    unfold masked, stream_entry. rewrite SC, (SR i Hi). replace (Z.abs (Z.of_nat (lo + i) - Z.of_nat (lost W s + j)) <=? tmb)%Z with (Z.abs (Z.of_nat i - Z.of_nat j) <=? tmb)%Z; [reflexivity|].
    unfold lo. destruct Htmb as [Es|Ht].
    - rewrite Es. f_equal. f_equal. lia.
    - destruct (Z.leb_spec (Z.abs (Z.of_nat i - Z.of_nat j)) tmb); [lia|]. symmetry. apply Z.leb_gt. lia.
  Qed.

  (** The column events *)
  Definition col_event (ids : list nat) (H : list (hop X)) (s q j : nat) : event num :=
    ECol j (map (fun id => map (fun i => masked tmb (stream_entry E self m (dimf id) H) (lo_of s q + i) (lost W s + j)) (seq 0 (k_of s q))) ids).
  Lemma cols_events ids ops s q nx H evs' u upto intr n H' : (forall id, In id ids -> dimf id < ndim) -> hist ops (mkProgress s q nx H) evs' ->
    let c := nx - lost W s in
    resolves upto (Z.of_nat (W + 1 - m)) (Z.of_nat (subseqs m W s)) (Z.of_nat u) -> runs intr n (u - c) ->
    (forall id, In id ids -> exists rs rq, stream_of (dimf id) H' = stream_of (dimf id) H ++ rs /\ query_stream (dimf id) H' = query_stream (dimf id) H ++ rq) ->
    map (fun j => ECol j (map (fun id => hide tmb j (F id (ghist (dimf id) true (H ++ map HCol (seq c (j - c)))) j)) ids)) (seq c n) = map (col_event ids H' s q) (seq c n) /\ forall j, In j (seq c n) -> j < subseqs m W s.
  Proof.
    intros Hd Hh c Hu Hr Hpre. assert (B : forall j, In j (seq c n) -> j < subseqs m W s) by (intros j Hj; destruct Hr as [Hn _]; apply resolves_bounds in Hu; [|lia|lia]; apply in_seq in Hj; lia). split; [|exact B].
    apply map_ext_in. intros j Hj. unfold col_event. f_equal. apply map_ext_in. intros id Hid. destruct (Hpre id Hid) as (rs & rq & P1 & P2). destruct (counts_any (Hd id Hid) Hh) as [C1 C2]. cbn [p_hist p_s p_q] in C1, C2.
    apply column_values with (rs := rs) (rq := rq); rewrite ?stream_of_app, ?stream_of_cols, ?query_stream_app, ?query_stream_cols, ?app_nil_r; auto.
  Qed.

  (** Every event is a shift, or a column of what was calculated *)
  Lemma prefix_of ops op p p' (evs evs' : list nat -> list (event num)) d : hist ops p evs -> does self m W Wq ndim tmb dimf valid F op p p' evs' -> exists rs rq, stream_of d (p_hist p') = stream_of d (p_hist p) ++ rs /\ query_stream d (p_hist p') = query_stream d (p_hist p) ++ rq.
  Proof. clear. intros _ Hd. destruct Hd; cbn [p_hist]; rewrite stream_of_app, query_stream_app; eauto. Qed.

  Lemma history_mlog ids ops p evs H' : ids <> [] -> (forall id, In id ids -> dimf id < ndim) -> hist ops p evs ->
    (forall id, In id ids -> exists rs rq, stream_of (dimf id) H' = stream_of (dimf id) (p_hist p) ++ rs /\ query_stream (dimf id) H' = query_stream (dimf id) (p_hist p) ++ rq) ->
    (forall r a vs, In (r, a, vs) (mlog (evs ids)) <-> exists r' a', r = Z.of_nat r' /\ a = Z.of_nat a' /\ was_calculated (calculated self m W Wq 0 0 (p_hist p)) a' r' /\
        vs = map (fun id => masked tmb (stream_entry E self m (dimf id) H') r' a') ids) /\
    Forall (fun e => match e with ECol _ _ => exists s q j, e = col_event ids H' s q j /\ j < subseqs m W s /\ 0 < k_of s q /\ In (lost W s + j, lo_of s q, k_of s q) (calculated self m W Wq 0 0 (p_hist p)) | EDiag _ _ => False | _ => True end) (evs ids).
  Proof.
    intros Hne Hdm Hh. induction Hh as [|ops op p p' evs evs' Hh IH Hd]; intro Hpre.
    - split; [|constructor]. intros r a vs. cbn. split; [intros []|intros (r' & a' & _ & _ & (lo & n & [] & _) & _)].
    - assert (Hpre0 : forall id, In id ids -> exists rs rq, stream_of (dimf id) H' = stream_of (dimf id) (p_hist p) ++ rs /\ query_stream (dimf id) H' = query_stream (dimf id) (p_hist p) ++ rq).
      { intros id Hid. destruct (Hpre id Hid) as (rs & rq & P1 & P2). destruct (prefix_of (dimf id) Hh Hd) as (rs' & rq' & P3 & P4). rewrite P1, P2, P3, P4, <- !app_assoc. eauto. }
      destruct (IH Hpre0) as [IH1 IH2']. clear IH.
      assert (IH2 : Forall (fun e => match e with ECol _ _ => exists s q j, e = col_event ids H' s q j /\ j < subseqs m W s /\ 0 < k_of s q /\ In (lost W s + j, lo_of s q, k_of s q) (calculated self m W Wq 0 0 (p_hist p')) | EDiag _ _ => False | _ => True end) (evs ids)).
      { eapply Forall_impl; [|exact IH2']. intros e He. destruct e; try exact He. destruct He as (s & q & j & He1 & He2 & He3 & He4). exists s, q, j. do 3 (split; [assumption|]).
        destruct Hd; cbn [p_hist] in *; rewrite calculated_app; apply in_or_app; left; exact He4. }
      clear IH2'. destruct (history_shifts ids Hh) as [Sh Qh].
      assert (Hnd : 0 < ndim) by (destruct ids as [|i0 ids]; [congruence|]; specialize (Hdm i0 ltac:(left; reflexivity)); lia).
      destruct (history_calculated Hnd Hh) as (C3 & C4 & _). rewrite Forall_app. unfold mlog. rewrite map_app. unfold log. 
      assert (LG : forall x, In x (log_from 0 0 (map (@tr A) (evs ids) ++ map (@tr A) (evs' ids))) <-> In x (mlog (evs ids)) \/ In x (log_from (Z.of_nat (lo_of (p_s p) (p_q p))) (Z.of_nat (lost W (p_s p))) (map (@tr A) (evs' ids)))).
      { intro x. rewrite log_from_app, in_app_iff, tr_qshift, tr_sshift, Sh, Qh. reflexivity. }
      destruct Hd as [w rows n s q nx H Hr _|w rows n s q nx H _ Hr _|intr upto u n s q nx H c Hu Hrn Hrow]; cbn [p_hist p_s p_q] in *.
      + split; [|split; [exact IH2|]; destruct (lost W (s + n) - lost W s); [constructor|constructor; [exact I|destruct self; repeat constructor]]].
        intros r a vs. rewrite LG, IH1, calculated_app. cbn [calculated]. rewrite app_nil_r. match goal with |- _ \/ In _ ?l <-> _ => assert (N : l = []) by (destruct (lost W (s + n) - lost W s); [reflexivity|destruct self; reflexivity]) end. rewrite N. cbn [In]. tauto.
      + split; [|split; [exact IH2|]; destruct (lost Wq (q + n) - lost Wq q); repeat constructor].
        intros r a vs. rewrite LG, IH1, calculated_app. cbn [calculated]. rewrite app_nil_r. match goal with |- _ \/ In _ ?l <-> _ => assert (N : l = []) by (destruct (lost Wq (q + n) - lost Wq q); reflexivity) end. rewrite N. cbn [In]. tauto.
      + destruct (@cols_events ids ops s q nx H evs u upto intr n H' Hdm Hh Hu Hrn Hpre0) as [EV BD]. fold c in EV, BD. cbn beta in *. rewrite EV in *. split.
        * intros r a vs. rewrite LG, IH1, calculated_app, calculated_cols, C3, C4. cbn [Nat.add]. rewrite map_map, log_cols by (intro j; eexists _, _; reflexivity).
          assert (COL : forall j, In (r, a, vs) (event_cells (Z.of_nat (lo_of s q)) (Z.of_nat (lost W s)) (tr (col_event ids H' s q j))) <->
            exists r', r = Z.of_nat r' /\ a = Z.of_nat (lost W s + j) /\ lo_of s q <= r' < lo_of s q + k_of s q /\ vs = map (fun id => masked tmb (stream_entry E self m (dimf id) H') r' (lost W s + j)) ids).
          { intro j. unfold col_event. cbn [tr event_cells]. rewrite (chans_map (fun id i => masked tmb (stream_entry E self m (dimf id) H') (lo_of s q + i) (lost W s + j))) by exact Hne. unfold col_cells. rewrite in_mapi. split.
            - intros (i & x & Hi & Ex). injection Ex as -> -> ->. rewrite nth_error_map, nth_error_seq in Hi. destruct (Nat.ltb_spec i (k_of s q)) as [Hk|]; [|discriminate]. injection Hi as <-. exists (lo_of s q + i). split; [lia|]. split; [lia|]. split; [lia|reflexivity].
            - intros (r' & -> & -> & Hb & ->). exists (r' - lo_of s q). eexists. split.
              + rewrite nth_error_map, nth_error_seq. destruct (Nat.ltb_spec (r' - lo_of s q) (k_of s q)); [|lia]. reflexivity.
              + cbn [Nat.add]. replace (lo_of s q + (r' - lo_of s q)) with r' by lia. f_equal. f_equal; lia. }
          split.
          -- intros [(r' & a' & -> & -> & (lo & k & H3 & H4) & ->)|(j & Hj & Hin)].
             ++ exists r', a'. do 2 (split; [reflexivity|]). split; [|reflexivity]. exists lo, k. split; [apply in_app_iff; left; exact H3|exact H4].
             ++ apply COL in Hin. destruct Hin as (r' & -> & -> & Hb & ->). exists r', (lost W s + j). do 2 (split; [reflexivity|]). split; [|reflexivity]. eexists _, _. split; [apply in_app_iff; right; apply in_map_iff; exists j; split; [reflexivity|exact Hj]|exact Hb].
          -- intros (r' & a' & -> & -> & (lo & k & H3 & H4) & ->). apply in_app_iff in H3. destruct H3 as [H3|H3]; [left; exists r', a'; do 2 (split; [reflexivity|]); split; [|reflexivity]; exists lo, k; auto|]. right.
             apply in_map_iff in H3. destruct H3 as (j & Ej & Hj). injection Ej as <- <- <-. exists j. split; [exact Hj|]. apply COL. exists r'. auto.
        * split; [exact IH2|]. apply Forall_forall. intros e He. apply in_map_iff in He. destruct He as (j & <- & Hj). unfold col_event at 1. exists s, q, j. split; [reflexivity|]. split; [auto|]. split; [apply Hrow; apply in_seq in Hj; lia|]. rewrite calculated_app, calculated_cols, C3, C4. cbn [Nat.add]. apply in_or_app. right. apply in_map_iff. exists j. split; [reflexivity|exact Hj].
  Qed.
End Cells.

(** ** Consumers *)
Section Consumers.
  Context {A : Type} {NA : NumOps A} {OL : OrdLaws A}.
  Notation num := (Np.num A).
  Context {X : Type}.
  Variables (E : list X -> list X -> num) (self : bool) (m W Wq ndim : nat) (tmb : Z) (dimf : nat -> nat) (valid : list X -> Prop).
  Hypothesis Hm : 1 <= m <= W.
  Hypothesis HmQ : m <= Wq.
  Hypothesis Hself : self = true -> Wq = W.
  Hypothesis Htmb : self = true \/ (tmb < 0)%Z.
  Hypothesis HE : forall x y, real (E x y).
  Variables (ops : list (sop X)) (p : progress X) (evs : list nat -> list (event num)).
  Hypothesis Hh : history self m W Wq ndim tmb dimf valid (fun _ : nat => window_column E self m W Wq) ops p evs.
  Notation H := (p_hist p).
  Notation cells := (calculated self m W Wq 0 0 H).
  Notation D id := (stream_entry E self m (dimf id) H).
  Notation first := (lost W (p_s p)).
  Notation row0 := (if self then lost W (p_s p) else lost Wq (p_q p)).
  Notation h := (Wq + 1 - m).
  Notation w := (W + 1 - m).

  Lemma masked_fine id r a : real (masked tmb (D id) r a).
  Proof. unfold masked. destruct (Z.leb _ _); [split; discriminate|apply HE]. Qed.
  Lemma own_prefix (ids : list nat) : forall id, In id ids -> exists rs rq, stream_of (dimf id) H = stream_of (dimf id) H ++ rs /\ query_stream (dimf id) H = query_stream (dimf id) H ++ rq.
  Proof. intros id _. exists [], []. rewrite !app_nil_r. auto. Qed.

  Lemma evs_mfits ids : ids <> [] -> (forall id, In id ids -> dimf id < ndim) -> Forall (mfits (length ids) h w) (evs ids) /\ Forall (fun e => ~ is_diag e) (evs ids).
  Proof.
    intros Hne Hd. destruct (@history_mlog A X E self m W Wq ndim tmb dimf valid Hm Hself Htmb ids ops p evs H Hne Hd Hh (own_prefix ids)) as [_ HF]. split; (eapply Forall_impl; [|exact HF]); intros e He; cbn beta in He; destruct e as [d vs|c vs|n|n]; try contradiction; try exact I; try (intros []).
    destruct He as (s & q & j & Ej & Hj & Hk & _). injection Ej as -> ->. unfold subseqs in Hj. split; [lia|]. eexists. split; [split; [apply map_length|]|split; [exact Hk|]].
    - intros row Hr. apply in_map_iff in Hr. destruct Hr as (id & <- & Hid). rewrite map_length, seq_length. split; [reflexivity|]. intros x Hx. apply in_map_iff in Hx. destruct Hx as (i & <- & _). apply masked_fine.
    - unfold subseqs. destruct self; [rewrite (Hself eq_refl)|]; lia.
  Qed.
  Lemma evs_single id : dimf id < ndim -> Forall (fits h w) (evs [id]) /\ Forall cols_no_nan (evs [id]) /\ Forall (fun e => match e with EDiag _ vs | ECol _ vs => exists v, vs = [v] | _ => True end) (evs [id]).
  Proof.
    intros Hd. destruct (@evs_mfits [id] ltac:(discriminate) ltac:(intros i [<-|[]]; exact Hd)) as [HF HN]. rewrite !Forall_forall in *.
    assert (P : forall e, In e (evs [id]) -> fits h w e /\ cols_no_nan e /\ match e with EDiag _ vs | ECol _ vs => exists v, vs = [v] | _ => True end).
    { intros e He. specialize (HF e He). specialize (HN e He). destruct e as [d vs|c vs|n|n]; [destruct HN; exact I| |cbn; auto|cbn; auto].
      destruct HF as (Hc & n & (L & HR) & Hn1 & Hn2). destruct vs as [|v [|v' vs]]; try discriminate L. destruct (HR v ltac:(left; reflexivity)) as [Lv Hv]. split; [|split].
      - split; [exact Hc|]. exists v, []. split; [reflexivity|]. lia.
      - intros vals [<-|[]] x Hx. destruct (Hv x Hx) as [Hx' _]. destruct x; try reflexivity. congruence.
      - eauto. }
    split; [|split]; intros e He; apply P; exact He.
  Qed.
  Lemma evs_log id : dimf id < ndim -> forall r a v, In (r, a, v) (log (evs [id])) <->
    exists r' a', r = Z.of_nat r' /\ a = Z.of_nat a' /\ was_calculated cells a' r' /\ v = masked tmb (D id) r' a'.
  Proof.
    intros Hd r a v. rewrite (mlog_single (proj2 (proj2 (evs_single Hd)))). destruct (@history_mlog A X E self m W Wq ndim tmb dimf valid Hm Hself Htmb [id] ops p evs H ltac:(discriminate) ltac:(intros i [<-|[]]; exact Hd) Hh (own_prefix _)) as [HL _].
    rewrite HL. cbn [map]. split; intros (r' & a' & H1 & H2 & H3 & H4); exists r', a'; do 3 (split; [assumption|]); [injection H4 as ->; reflexivity|rewrite H4; reflexivity].
  Qed.

  (** ShiftingMatrixProfileLR *)
  Lemma best_window id (P : Z -> bool) a v i : dimf id < ndim -> is_best (sel P (Z.of_nat a) (log (evs [id]))) v i -> smallest (fun r => seen tmb cells a r /\ P (Z.of_nat r) = true) (fun r => D id r a) v i.
  Proof.
    intros Hd HB.
    assert (Hrow : forall r, seen tmb cells a r /\ P (Z.of_nat r) = true -> In (Z.of_nat r, D id r a) (sel P (Z.of_nat a) (log (evs [id])))).
    { intros r [(Hf & Hin) Hr]. apply in_sel. split; [|exact Hr]. apply evs_log; [exact Hd|]. exists r, a. do 2 (split; [reflexivity|]). split; [exact Hin|]. unfold masked. destruct (Z.leb_spec (Z.abs (Z.of_nat r - Z.of_nat a)) tmb); [lia|reflexivity]. }
    destruct HB as [[-> HB]|(Hlt & Hin & HB)].
    - left. split; [reflexivity|]. intros r Hr. eapply HB, Hrow, Hr.
    - right. split; [exact Hlt|]. apply in_sel in Hin. destruct Hin as [Hin HP]. apply evs_log in Hin; [|exact Hd]. destruct Hin as (r & a' & -> & Ea & Hw & ->). apply Nat2Z.inj in Ea. subst a'. unfold masked in *.
      destruct (Z.leb_spec (Z.abs (Z.of_nat r - Z.of_nat a)) tmb); [discriminate|]. exists r. split; [split; [split; [lia|exact Hw]|exact HP]|]. do 2 (split; [reflexivity|]). intros r' Hr'. eapply HB, Hrow, Hr'.
  Qed.
  Lemma smallest_ext (P P' : nat -> Prop) (f : nat -> num) v i : (forall r, P r <-> P' r) -> smallest P f v i -> smallest P' f v i.
  Proof.
    clear. intros HP [[-> HS]|(Hlt & r & Hr & -> & -> & HS)].
    - left. split; [reflexivity|]. intros r Hr. apply HS, HP, Hr.
    - right. split; [exact Hlt|]. exists r. split; [apply HP, Hr|]. do 2 (split; [reflexivity|]). intros r' Hr'. apply HS, HP, Hr'.
  Qed.
  Lemma smp_of memn memz sfc id : (1 <= sfc)%Q -> (sfc <= 2)%Q -> dimf id < ndim ->
    exists c0 c, smp_init memn memz sfc h w = Ok c0 /\ foldM smp_step (evs [id]) c0 = Ok c /\
      window_profile (D id) first w (seen tmb cells) (smp_mp c, smp_idx c) /\
      window_profile (D id) first w (fun a r => seen tmb cells a r /\ r <= a) (rb_view (s_left c), rb_view (s_ileft c)) /\
      window_profile (D id) first w (fun a r => seen tmb cells a r /\ a < r) (rb_view (s_right c), rb_view (s_iright c)).
  Proof.
    intros S1 S2 Hd. destruct (evs_single Hd) as (HF & HN & _). destruct (history_shifts [id] Hh) as [Sh _].
    destruct (@C38_lemma A NA OL memn memz sfc h w (evs [id]) S1 S2 ltac:(lia) HF HN) as (c0 & c & Ei & Er & _ & _ & L1 & L2 & L3 & L4 & HB).
    destruct (@C38_merged_lemma A NA OL memn memz sfc h w (evs [id]) S1 S2 ltac:(lia) HF HN) as (c0' & c' & Ei' & Er' & L5 & L6 & HB'). rewrite Ei in Ei'. injection Ei' as <-. rewrite Er in Er'. injection Er' as <-.
    exists c0, c. split; [exact Ei|]. split; [exact Er|]. split; [|split].
    - split; [exact L5|]. split; [exact L6|]. intros j Hj. destruct (HB' j Hj) as (v & i & E1 & E2 & B). rewrite Sh, <- Nat2Z.inj_add in B. exists v, i. split; [exact E1|]. split; [exact E2|].
      apply best_window in B; [|exact Hd]. eapply smallest_ext; [|exact B]. intro r. unfold all_rows. tauto.
    - split; [exact L1|]. split; [exact L3|]. intros j Hj. destruct (HB j Hj) as (vl & il & vr & ir & E1 & E2 & E3 & E4 & B1 & B2). rewrite Sh, <- Nat2Z.inj_add in B1. exists vl, il. split; [exact E1|]. split; [exact E2|].
      apply first_best_best, best_window in B1; [|exact Hd]. eapply smallest_ext; [|exact B1]. intro r. unfold is_left. rewrite Z.leb_le. rewrite <- Nat2Z.inj_le. tauto.
    - split; [exact L2|]. split; [exact L4|]. intros j Hj. destruct (HB j Hj) as (vl & il & vr & ir & E1 & E2 & E3 & E4 & B1 & B2). rewrite Sh, <- Nat2Z.inj_add in B2. exists vr, ir. split; [exact E3|]. split; [exact E4|].
      apply first_best_best, best_window in B2; [|exact Hd]. eapply smallest_ext; [|exact B2]. intro r. unfold is_right. rewrite negb_true_iff, Z.leb_gt. rewrite <- Nat2Z.inj_lt. tauto.
  Qed.

  (** DistanceMatrix *)
  Lemma dist_of id : dimf id < ndim -> exists m0 x, dm_init 1 h w = Ok m0 /\ foldM (@dm_step A) (evs [id]) m0 = Ok x /\ is_mat h w x /\
    forall i j, i < h -> j < w -> exists v, mget x i j = Ok v /\
      (was_calculated cells (first + j) (row0 + i) -> v = masked tmb (D id) (row0 + i) (first + j)) /\ (~ was_calculated cells (first + j) (row0 + i) -> v = NaN).
  Proof.
    intros Hd. destruct (evs_single Hd) as (HF & _ & _). destruct (history_shifts [id] Hh) as [Sh Qh]. destruct (@C45_lemma A h w (evs [id]) HF) as (m0 & x & E0 & E1 & M & G). exists m0, x. split; [exact E0|]. split; [exact E1|]. split; [exact M|].
    intros i j Hi Hj. destruct (G i j Hi Hj) as (v & Ev & HL). exists v. split; [exact Ev|]. rewrite Sh, Qh in HL. rewrite <- !Nat2Z.inj_add in HL. destruct HL as [(bf & af & EL & _)|[-> HN]].
    - assert (Hin : In (Z.of_nat (row0 + i), Z.of_nat (first + j), v) (log (evs [id]))) by (rewrite EL; apply in_or_app; right; left; reflexivity). apply evs_log in Hin; [|exact Hd]. destruct Hin as (r' & a' & Er & Ea & Hw & ->).
      apply Nat2Z.inj in Er, Ea. subst r' a'. split; [auto|]. intro N. destruct (N Hw).
    - split; [|auto]. intro Hw. exfalso. eapply HN. apply evs_log; [exact Hd|]. eexists _, _. do 2 (split; [reflexivity|]). split; [exact Hw|reflexivity].
  Qed.

  (** ContextualMatrixProfile, when all columns are complete *)
  Lemma evs_full id : dimf id < ndim -> (forall a lo n, In (a, lo, n) cells -> n = h) -> Forall (full_event h w) (evs [id]).
  Proof.
    intros Hd Hall. destruct (@history_mlog A X E self m W Wq ndim tmb dimf valid Hm Hself Htmb [id] ops p evs H ltac:(discriminate) ltac:(intros i [<-|[]]; exact Hd) Hh (own_prefix _)) as [_ HF].
    eapply Forall_impl; [|exact HF]. intros e He. cbn beta in He. destruct e as [d vs|c vs|n|n]; try contradiction; try exact I.
    destruct He as (s & q & j & Ej & Hj & Hk & Hin). injection Ej as -> ->. apply Hall in Hin. unfold subseqs in Hj. split; [lia|]. eexists _, []. split; [reflexivity|]. split.
    - intros x Hx. apply in_map_iff in Hx. destruct Hx as (i & <- & _). destruct (masked_fine id ((if self then lost W s else lost Wq q) + i) (lost W s + j)) as [N _]. destruct (masked _ _ _ _); try reflexivity. congruence.
    - rewrite map_length, seq_length. exact Hin.
  Qed.
  Lemma context_of M (MO : ManagerOps M) CH CW QA SA inv memn memz sf m0 id m1 ks : stream_manager MO h w CH CW QA SA inv -> 0 < CW -> inv m0 0%Z 0%Z 0 0 -> man_shape MO m0 = Ok (CH, CW) -> (1 <= sf)%Q -> (sf <= 2)%Q -> dimf id < ndim ->
    (forall a lo n, In (a, lo, n) cells -> n = h) -> man_after MO m0 (evs [id]) = Ok (m1, 0, ks) ->
    exists s0 s, cm_init MO memn memz sf m0 h w = Ok s0 /\ foldM (cm_step MO) (evs [id]) s0 = Ok s /\
      forall i j, i < CH -> j < CW -> exists v q r, dv_get (cm_dist s) i j = Ok v /\ dv_get (cm_mq s) i j = Ok q /\ dv_get (cm_ms s) i j = Ok r /\
        smallest_cell (fun r a => seen tmb cells a r /\ QA i (Z.of_nat r) /\ SA (j + ks) (Z.of_nat a)) (D id) v q r.
  Proof.
    intros SM HW Hi Hsh S1 S2 Hd Hall Hma. destruct (@cm_run_lemma A NA OL M MO h w CH CW QA SA inv SM ltac:(lia) HW memn memz sf m0 (evs [id]) m1 ks Hi Hsh S1 S2 (evs_full Hd Hall) Hma) as (s0 & s & E0 & E1 & G).
    exists s0, s. split; [exact E0|]. split; [exact E1|]. intros i j Hi' Hj. destruct (G i j Hi' Hj) as (v & q & r & G1 & G2 & G3 & HB). exists v, q, r. do 3 (split; [assumption|]).
    assert (Hcell : forall r' a', seen tmb cells a' r' /\ QA i (Z.of_nat r') /\ SA (j + ks) (Z.of_nat a') -> In (Z.of_nat r', Z.of_nat a', D id r' a') (log (evs [id])) /\ QA i (Z.of_nat r') /\ SA (j + ks) (Z.of_nat a')).
    { intros r' a' ((Hf & Hw') & HQ). split; [|exact HQ]. apply evs_log; [exact Hd|]. exists r', a'. do 2 (split; [reflexivity|]). split; [exact Hw'|]. unfold masked. destruct (Z.leb_spec (Z.abs (Z.of_nat r' - Z.of_nat a')) tmb); [lia|reflexivity]. }
    destruct HB as [(-> & -> & -> & HB)|(Hlt & Hin & HR & HB)].
    - left. do 3 (split; [reflexivity|]). intros r' a' Hr. destruct (Hcell r' a' Hr) as [C1 C2]. eapply HB; eassumption.
    - right. split; [exact Hlt|]. apply evs_log in Hin; [|exact Hd]. destruct Hin as (r' & a' & -> & -> & Hw' & ->). unfold masked in *. destruct (Z.leb_spec (Z.abs (Z.of_nat r' - Z.of_nat a')) tmb); [discriminate|].
      exists r', a'. split; [split; [split; [lia|exact Hw']|exact HR]|]. do 3 (split; [reflexivity|]). intros r2 a2 Hr2. destruct (Hcell r2 a2 Hr2) as [C1 C2]. eapply HB; eassumption.
  Qed.

  (** MultidimensionalMatrixProfileLR *)
  Context {AL : AvgLaws A}.
  Lemma multi_of memn memz memd sfc argsort ids : (1 <= sfc)%Q -> (sfc <= 2)%Q -> argsorts argsort -> ids <> [] -> (forall id, In id ids -> dimf id < ndim) ->
    exists s0 s, md_init memn memz memd sfc (length ids) h w = Ok s0 /\ foldM (md_step argsort) (evs ids) s0 = Ok s /\
      forall k j, k < length ids -> j < w -> exists l r x, md_left s k j = Ok l /\ md_right s k j = Ok r /\ md_merged s k j = Ok x /\
        let a := first + j in let values := fun r => map (fun id => D id r a) ids in
        smallest_average (fun r => seen tmb cells a r /\ r <= a) values k l /\ smallest_average (fun r => seen tmb cells a r /\ a < r) values k r /\ smallest_average (seen tmb cells a) values k x.
  Proof.
    intros S1 S2 Ha Hne Hd. destruct (evs_mfits Hne Hd) as [HF HN]. destruct (history_shifts ids Hh) as [Sh _].
    destruct (@history_mlog A X E self m W Wq ndim tmb dimf valid Hm Hself Htmb ids ops p evs H Hne Hd Hh (own_prefix ids)) as [HL _].
    destruct (@C49_lemma A NA OL AL memn memz memd sfc (length ids) h w argsort (evs ids) S1 S2 ltac:(destruct ids; [congruence|cbn; lia]) ltac:(lia) Ha HF HN) as (s0 & s & E0 & E1 & G).
    exists s0, s. split; [exact E0|]. split; [exact E1|]. intros k j Hk Hj. destruct (G k j Hk Hj) as (l & r & x & El & Er & Ex & B1 & B2 & B3). exists l, r, x. do 3 (split; [assumption|]). cbn zeta. rewrite Sh in B1, B2, B3. rewrite <- Nat2Z.inj_add in B1, B2, B3.
    set (a := first + j) in *. set (values := fun r => map (fun id => D id r a) ids).
    assert (FAR : forall r, (tmb < Z.abs (Z.of_nat r - Z.of_nat a))%Z -> map (fun id => masked tmb (D id) r a) ids = values r).
    { intros r' Hr'. apply map_ext. intro id. unfold masked. destruct (Z.leb_spec (Z.abs (Z.of_nat r' - Z.of_nat a)) tmb); [lia|reflexivity]. }
    assert (ST : forall P (P' : nat -> Prop) y, (forall r, seen tmb cells a r /\ P (Z.of_nat r) = true <-> P' r) -> md_best (mlog (evs ids)) P (Z.of_nat a) k y -> smallest_average P' values k y).
    { intros P P' [[v q] ds] HP HB.
      assert (Hcell : forall r', P' r' -> In (Z.of_nat r', Z.of_nat a, values r') (mlog (evs ids)) /\ P (Z.of_nat r') = true).
      { intros r' Hr'. apply HP in Hr'. destruct Hr' as [[Hf Hw] Hr']. split; [|exact Hr']. apply HL. exists r', a. do 2 (split; [reflexivity|]). split; [exact Hw|]. symmetry. apply FAR, Hf. }
      destruct HB as [(-> & -> & -> & HB)|(Hlt & Hq & (vs & Hin & Hkb) & HB)].
      - left. do 3 (split; [reflexivity|]). intros r' ds' s' Hr' Hkb. destruct (Hcell r' Hr') as [C1 C2]. eapply HB; eassumption.
      - right. split; [exact Hlt|]. apply HL in Hin. destruct Hin as (r' & a' & -> & Ea & Hw & ->). apply Nat2Z.inj in Ea. subst a'.
        assert (Hf : (tmb < Z.abs (Z.of_nat r' - Z.of_nat a))%Z).
        { destruct (Z_le_gt_dec (Z.abs (Z.of_nat r' - Z.of_nat a)) tmb) as [Hle|]; [|lia]. exfalso. apply k_best_inf in Hkb; [subst v; discriminate|]. intros y Hy. apply in_map_iff in Hy. destruct Hy as (id & <- & _). unfold masked. destruct (Z.leb_spec (Z.abs (Z.of_nat r' - Z.of_nat a)) tmb); [reflexivity|lia]. }
        rewrite (FAR _ Hf) in Hkb. exists r'. split; [apply HP; split; [split; [exact Hf|exact Hw]|exact Hq]|]. split; [reflexivity|]. split; [exact Hkb|]. intros r2 ds' s' Hr2 Hkb'. destruct (Hcell r2 Hr2) as [C1 C2]. eapply HB; eassumption. }
    split; [|split].
    - eapply ST; [|exact B1]. intro r'. unfold is_left. rewrite Z.leb_le, <- Nat2Z.inj_le. tauto.
    - eapply ST; [|exact B2]. intro r'. unfold is_right. rewrite negb_true_iff, Z.leb_gt, <- Nat2Z.inj_lt. tauto.
    - eapply ST; [|exact B3]. intro r'. unfold all_rows. tauto.
  Qed.
End Consumers.
