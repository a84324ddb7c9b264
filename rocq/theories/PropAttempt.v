(** * Property C106: what consumers receive when generators and consumers raise *)
From Coq Require Import QArith Permutation.
From Verif Require PEndProg.
From Verif Require Import Np NpFacts Mat MUtil SLog MProfile MCounters MCalc SCalc SMixed SEnd SEndAll SEndCons PEnd PEndCons PropCalc MRaise SRaise PRaise PRaiseEnd PropRaise SAttempt PAttempt PCalcRun PCalcEnd Inst.
Set Implicit Arguments.
Open Scope nat_scope.

(** C106. Any calls, any exceptions, caught by the client.  What has happened is a list of attempts; consumer [k] has received the calls
    [got_all k], no others.  Diagonals are attempted in order, each until it is done. *)
Theorem C106_attempts : forall A X G C (g_col : G -> nat -> G * res (list (Np.num A))) g_diag (c_step : C -> event (Np.num A) -> C * option exn) set_order shuffle m (series : list (list X)) query buffer h w
    (a0 : any X G C) gens cs I Fc Fd calls,
  built shuffle m series query buffer h w a0 -> orders_sets set_order -> ids_ok gens cs -> gens_ok I gens ->
  may_give g_col I Fc (fun c => c < w) (fun _ => h) -> may_give g_diag I Fd (on_matrix h w) (fun d => Z.to_nat (dlen h w d)) ->
  let a := persist g_col g_diag c_step set_order calls (with_parts a0 gens cs) in let b := buffer_used query m buffer in let order := an_order a0 in
  exists ats, tells c_step Fc Fd (is_self query) b w order (Forall from_last calls) cs (ca_cons (an_calc a)) ats /\
    diags_in (done ats) = firstn (an_next a) order /\ (Forall from_last calls -> cols_in (done ats) = seq 0 (Z.to_nat (ca_last (an_calc a) + 1))) /\
    (Forall diags_call calls -> Forall (fun x => is_diags (fst x)) ats) /\ (Forall cols_call calls -> Forall (fun x => is_cols (fst x)) ats).
Proof. intros. eapply persist_attempts; eassumption. Qed.
Print Assumptions C106_attempts.

(** A consumer that never raises itself has received whole columns and diagonals: those done, and those at which a consumer after it raised. *)
Theorem C106_whole : forall A C (c_step : C -> event (Np.num A) -> C * option exn) Fc Fd self b w order go cs cns ats k c ids,
  tells c_step Fc Fd self b w order go cs cns ats -> nth_error cs k = Some (c, ids) -> never_raises c_step Fc Fd self b w order ids c ->
  nth_error cns k = Some (after c_step (mixed_calls Fc Fd self b (complete_for k ats) ids) c, ids).
Proof.
  intros A C c_step Fc Fd self b w order go cs cns ats k c ids (_ & H1 & H2) Hk Hn. rewrite (H1 k c ids Hk). do 3 f_equal. eapply whole_parts; [exact H2|exact Hk|exact Hn|symmetry; apply app_nil_r].
Qed.
Print Assumptions C106_whole.

(** If in addition no consumer after it raises, it has received everything that is done once, and nothing else: as if nothing had been raised. *)
Theorem C106_once : forall A X G C (g_col : G -> nat -> G * res (list (Np.num A))) g_diag (c_step : C -> event (Np.num A) -> C * option exn) set_order shuffle m (series : list (list X)) query buffer h w
    (a0 : any X G C) gens cs I Fc Fd calls k c ids,
  built shuffle m series query buffer h w a0 -> orders_sets set_order -> ids_ok gens cs -> gens_ok I gens ->
  may_give g_col I Fc (fun c => c < w) (fun _ => h) -> may_give g_diag I Fd (on_matrix h w) (fun d => Z.to_nat (dlen h w d)) ->
  let a := persist g_col g_diag c_step set_order calls (with_parts a0 gens cs) in let b := buffer_used query m buffer in let order := an_order a0 in
  nth_error cs k = Some (c, ids) -> (forall k' c' ids', k <= k' -> nth_error cs k' = Some (c', ids') -> never_raises c_step Fc Fd (is_self query) b w order ids' c') ->
  (Forall diags_call calls -> nth_error (ca_cons (an_calc a)) k = Some (after c_step (diagonal_calls Fd (is_self query) (firstn (an_next a) order) ids) c, ids)) /\
  (Forall cols_call calls -> Forall from_last calls -> nth_error (ca_cons (an_calc a)) k = Some (after c_step (column_calls Fc b 0 (Z.to_nat (ca_last (an_calc a) + 1)) ids) c, ids)).
Proof.
  intros A X G C g_col g_diag c_step set_order shuffle m series query buffer h w a0 gens cs I Fc Fd calls k c ids HB HSO Hi Hg Hc Hd a b order Hk Hn.
  destruct (@C106_attempts A X G C g_col g_diag c_step set_order shuffle m series query buffer h w a0 gens cs I Fc Fd calls HB HSO Hi Hg Hc Hd) as (ats & HT & H1 & H2 & H3 & H4). fold a b order in HT, H1, H2, H3, H4.
  assert (E : complete_for k ats = done ats).
  { apply complete_done. intros x k0 n Hin. destruct (le_lt_dec k0 k) as [|Hlt]; [assumption|exfalso]. destruct HT as (_ & _ & HT). pose proof Hin as Hin'. apply in_split in Hin'. destruct Hin' as (p & q & Ep).
    destruct (HT p _ q Ep) as [[K _] _]. destruct (K k0 n eq_refl) as (c' & ids' & Hk' & _).
    destruct (@whole_parts A C c_step Fc Fd (is_self query) b w order (Forall from_last calls) cs ats HT k0 c' ids' Hk' (Hn k0 c' ids' ltac:(lia) Hk') ats [] (eq_sym (app_nil_r _))) as [_ W]. exact (W x n Hin). }
  assert (W : nth_error (ca_cons (an_calc a)) k = Some (after c_step (mixed_calls Fc Fd (is_self query) b (done ats) ids) c, ids)) by (rewrite <- E; eapply C106_whole; [exact HT|exact Hk|exact (Hn k c ids (le_n _) Hk)]).
  assert (P : forall Q : part -> Prop, Forall (fun x => Q (fst x)) ats -> Forall Q (done ats)).
  { intros Q HQ. apply Forall_forall. intros x Hx. apply done_in in Hx. rewrite Forall_forall in HQ. exact (HQ _ Hx). }
  split.
  - intro Hc1. rewrite W. do 3 f_equal. rewrite only_diag_parts by (apply P, H3, Hc1). rewrite H1. reflexivity.
  - intros Hc1 Hl. rewrite W. do 3 f_equal. rewrite only_col_parts by (apply P, H4, Hc1). rewrite (H2 Hl). reflexivity.
Qed.
Print Assumptions C106_once.

(** A ThresholdCounter among the consumers, anywhere: a row within the threshold is counted as often as its cell was delivered to the counter, since
    and including the last delivery of its column: once for what is done, and once more for every time a later consumer raised at it. *)
Theorem C106_counter : forall A (NA : NumOps A) X G C (g_col : G -> nat -> G * res (list (Np.num A))) g_diag (c_step : C -> event (Np.num A) -> C * option exn) set_order
    shuffle m (series : list (list X)) query buffer h w (a0 : any X G C) gens cs I Fc Fd calls (inj : @tc A -> C) k id (D : nat -> nat -> Np.num A) thr,
  orders_sets set_order -> built shuffle m series query buffer h w a0 -> ids_ok gens cs -> gens_ok I gens ->
  may_give g_col I Fc (fun c => c < w) (fun _ => h) -> may_give g_diag I Fd (on_matrix h w) (fun d => Z.to_nat (dlen h w d)) ->
  (forall s e s', tc_step s e = Ok s' -> c_step (inj s) e = (inj s', None)) -> nth_error cs k = Some (inj (tc_init thr h w), [id]) ->
  (forall j, j < w -> Fc id j = map (fun r => D r j) (seq 0 h)) -> (forall d, on_matrix h w d -> Fd id d = diag_of (fun r c => D (Z.to_nat r) (Z.to_nat c)) h w d) ->
  (forall r c, r < h -> c < w -> isnan (D r c) = false /\ D r c <> NInf) -> (query = None -> forall r c, r < h -> c < h -> D r c = D c r) ->
  let a := persist g_col g_diag c_step set_order calls (with_parts a0 gens cs) in let b := buffer_used query m buffer in let order := an_order a0 in
  exists ats s, tells c_step Fc Fd (is_self query) b w order (Forall from_last calls) cs (ca_cons (an_calc a)) ats /\ diags_in (done ats) = firstn (an_next a) order /\
    nth_error (ca_cons (an_calc a)) k = Some (inj s, [id]) /\
    forall i x j, nth_error thr i = Some x -> j < w ->
      mget (tc_counts s) i j = Ok (list_sum (map (fun r => if fleb (masked b D r j) x then weight (is_self query) (complete_for k ats) r j else 0) (seq 0 h))).
Proof.
  intros A NA X G C g_col g_diag c_step set_order shuffle m series query buffer h w a0 gens cs I Fc Fd calls inj k id D thr HSO HB Hi Hg Hc Hd Hinj Hk HFc HFd HD Hsym a b order.
  destruct (@C106_attempts A X G C g_col g_diag c_step set_order shuffle m series query buffer h w a0 gens cs I Fc Fd calls HB HSO Hi Hg Hc Hd) as (ats & HT & H1 & _). fold a b order in HT, H1.
  assert (Hself : is_self query = true -> h = w /\ forall r c, r < h -> c < h -> D r c = D c r).
  { destruct (built_fresh gens cs HB) as (b' & _ & _ & Hq). destruct query as [q|]; [discriminate|]. intros _. split; [apply Hq; reflexivity|]. apply Hsym. reflexivity. }
  assert (Hh : 0 < h) by apply HB. assert (Hord := @built_order X G C shuffle m series query buffer h w a0 gens cs HB). fold b order in Hord.
  assert (Hnan : forall r c, r < h -> c < w -> isnan (D r c) = false) by (intros; apply HD; assumption). assert (Hninf : forall r c, r < h -> c < w -> D r c <> NInf) by (intros; apply HD; assumption).
  pose proof (@tc_never A NA C c_step inj Hinj (is_self query) h w b D order Fc Fd id Hnan Hself Hh Hninf Hord HFc HFd thr) as Hn.
  destruct HT as (T1 & T2 & T3). pose proof (@complete_proper A C c_step Fc Fd (is_self query) b w order _ cs ats T3 k ats [] (eq_sym (app_nil_r _))) as HP.
  destruct (@tc_counts_of A NA C c_step inj Hinj (is_self query) h w b D Fc Fd id Hnan Hself Hh Hninf HFc HFd thr (complete_for k ats)) as (s & Es & _ & G').
  { apply proper_fine with (order := order) (D := D) (Fc := Fc) (Fd := Fd) (id := id); assumption. }
  exists ats, s. split; [split; [exact T1|split; [exact T2|exact T3]]|]. split; [exact H1|]. split; [|exact G'].
  rewrite (@C106_whole A C c_step Fc Fd (is_self query) b w order (Forall from_last calls) cs (ca_cons (an_calc a)) ats k _ _ (conj T1 (conj T2 T3)) Hk Hn). rewrite Es. reflexivity.
Qed.
Print Assumptions C106_counter.

(** If no consumer after the counter raises and only diagonals are calculated, the counts are right: generators and consumers before it may raise
    as often as they like. *)
Theorem C106_counter_last : forall A (NA : NumOps A) X G C (g_col : G -> nat -> G * res (list (Np.num A))) g_diag (c_step : C -> event (Np.num A) -> C * option exn) set_order
    shuffle m (series : list (list X)) query buffer h w (a0 : any X G C) gens cs I Fc Fd calls (inj : @tc A -> C) k id (D : nat -> nat -> Np.num A) thr,
  orders_sets set_order -> built shuffle m series query buffer h w a0 -> ids_ok gens cs -> gens_ok I gens ->
  may_give g_col I Fc (fun c => c < w) (fun _ => h) -> may_give g_diag I Fd (on_matrix h w) (fun d => Z.to_nat (dlen h w d)) ->
  (forall s e s', tc_step s e = Ok s' -> c_step (inj s) e = (inj s', None)) -> nth_error cs k = Some (inj (tc_init thr h w), [id]) ->
  (forall j, j < w -> Fc id j = map (fun r => D r j) (seq 0 h)) -> (forall d, on_matrix h w d -> Fd id d = diag_of (fun r c => D (Z.to_nat r) (Z.to_nat c)) h w d) ->
  (forall r c, r < h -> c < w -> isnan (D r c) = false /\ D r c <> NInf) -> (query = None -> forall r c, r < h -> c < h -> D r c = D c r) ->
  let a := persist g_col g_diag c_step set_order calls (with_parts a0 gens cs) in let b := buffer_used query m buffer in let order := an_order a0 in
  Forall diags_call calls -> (is_self query = true -> (0 <= b)%Z) -> an_next a = length order ->
  (forall k' c' ids', k < k' -> nth_error cs k' = Some (c', ids') -> never_raises c_step Fc Fd (is_self query) b w order ids' c') ->
  exists s, nth_error (ca_cons (an_calc a)) k = Some (inj s, [id]) /\
    forall i x j, nth_error thr i = Some x -> j < w -> exists n, mget (tc_counts s) i j = Ok n /\ how_many (fun r => outside b h j r /\ fleb (D r j) x = true) n.
Proof.
  intros A NA X G C g_col g_diag c_step set_order shuffle m series query buffer h w a0 gens cs I Fc Fd calls inj k id D thr HSO HB Hi Hg Hc Hd Hinj Hk HFc HFd HD Hsym a b order Hcalls Hb Hnext Hlater.
  destruct (built_fresh gens cs HB) as (b' & Hf & HP & Hq).
  assert (Hself : is_self query = true -> h = w /\ forall r c, r < h -> c < h -> D r c = D c r) by (destruct query as [q|]; [discriminate|]; intros _; split; [apply Hq; reflexivity|]; apply Hsym; reflexivity).
  assert (Hh : 0 < h) by apply HB. assert (Hord := @built_order X G C shuffle m series query buffer h w a0 gens cs HB). fold b order in Hord.
  assert (Hnan : forall r c, r < h -> c < w -> isnan (D r c) = false) by (intros; apply HD; assumption). assert (Hninf : forall r c, r < h -> c < w -> D r c <> NInf) by (intros; apply HD; assumption).
  pose proof (@tc_never A NA C c_step inj Hinj (is_self query) h w b D order Fc Fd id Hnan Hself Hh Hninf Hord HFc HFd thr) as Hn.
  destruct (@C106_once A X G C g_col g_diag c_step set_order shuffle m series query buffer h w a0 gens cs I Fc Fd calls k _ _ HB HSO Hi Hg Hc Hd Hk) as [W _].
  { intros k' c' ids' Hk' E. destruct (Nat.eq_dec k' k) as [->|]; [rewrite Hk in E; injection E as <- <-; exact Hn|]. eapply Hlater; [|exact E]. lia. }
  specialize (W Hcalls). cbv zeta in W. fold a order in W. rewrite Hnext, firstn_all in W.
  assert (Hnd : NoDup order). { eapply Permutation_NoDup; [symmetry; exact HP|]. unfold diagonals; apply PEndProg.nodup_pyrange. }
  destruct (@tc_diag_counts A NA C c_step inj Hinj (is_self query) h w b D order Fc Fd id Hnan Hself Hh Hord HFc HFd thr order (fun d H => H) Hnd Hb) as (s & Es & G').
  exists s. split; [rewrite W, Es; reflexivity|]. intros i x j Hx Hj. destruct (G' i x j Hx Hj) as (n & E & Hm). exists n. split; [exact E|]. eapply how_many_ext; [|exact Hm]. intro r. cbn beta. unfold outside.
  assert (Hbm : (-1 <= b)%Z). { pose proof (fr_tmb Hf) as E1. pose proof (fr_b Hf) as E2. cbn in E1. rewrite (built_buffer HB) in E1. fold b in E1. lia. }
  split.
  - intros (A1 & A2 & A3). destruct A2 as [A2 _]. unfold far in A2. cbn [fst snd] in A2. apply Z.ltb_lt in A2. auto.
  - intros ((A1 & A2) & A3). split; [exact A1|]. split; [|exact A3]. apply (@complete_given X query m buffer h w [PDiags order] r j); auto; [intro Eq; apply Hq; exact Eq| |].
    + right. intros d Hd'. cbn. rewrite app_nil_r. eapply Permutation_in; [symmetry; exact HP|exact Hd'].
    + unfold far. cbn [fst snd]. apply Z.ltb_lt. exact A2.
Qed.
Print Assumptions C106_counter_last.

(** ** Examples *)
(** The attempts of the client of C76_refuted: the second consumer raises in its second call, i.e. at the second diagonal, which the counter gets twice. *)
Definition b3 := (-1)%Z.
Definition Fc3 : nat -> nat -> list (Np.num Z) := fun _ c => map (fun r => tab (Z.of_nat r) (Z.of_nat c)) (seq 0 2).
Definition Fd3 : nat -> Z -> list (Np.num Z) := fun _ => diag_of tab 2 3.
Example C106_case : let order := an_order join3 in let cs := [(counter3, [0]); (Fl (Some 1), [0])] in
  let ats := [(PDiags [nth 0 order 0%Z], Done); (PDiags [nth 1 order 0%Z], Raised 1 0); (PDiags [nth 1 order 0%Z], Done); (PDiags [nth 2 order 0%Z], Done); (PDiags [nth 3 order 0%Z], Done)] in
  order = [2; 1; 0; -1]%Z /\ done ats = map (fun d => PDiags [d]) order /\
  complete_for 0 ats = map (fun d => PDiags [d]) [2; 1; 1; 0; -1]%Z /\ complete_for 1 ats = done ats /\
  ca_cons (an_calc (run3 None cs [complete3; complete3])) = map (fun k => let c := nth k cs (Fl None, []) in (after step3 (got_all Fc3 Fd3 false b3 k (snd c) ats) (fst c), snd c)) [0; 1] /\
  map (fun j => list_sum (map (fun r => weight false (complete_for 0 ats) r j) [0; 1])) [0; 1; 2] = [2; 3; 3].
Proof. repeat split; vm_compute; reflexivity. Qed.

(** With the counter behind the consumer that raises: the hypotheses of C106_counter_last hold, and the counts are right. *)
Lemma tab_no : forall r c : nat, isnan (tab (Z.of_nat r) (Z.of_nat c)) = false /\ tab (Z.of_nat r) (Z.of_nat c) <> NInf.
Proof. intros r c. unfold tab. split; [reflexivity|discriminate]. Qed.
Example C106_last_case : let cs := [(Fl (Some 1), [0]); (counter3, [0])] in let calls := [complete3; complete3; complete3] in let a := run3 (Some 2) cs calls in
  map snd [any_call_x (gen3_col 2) (gen3_diag 2 3) step3 dedup (run3 (Some 2) cs []) complete3; any_call_x (gen3_col 2) (gen3_diag 2 3) step3 dedup (run3 (Some 2) cs [complete3]) complete3;
    any_call_x (gen3_col 2) (gen3_diag 2 3) step3 dedup (run3 (Some 2) cs [complete3; complete3]) complete3] = [Some ValueError; Some ValueError; None] /\
  an_next a = 4 /\ map fst (ca_cons (an_calc a)) = [Fl None; Th (mkTc [Fz 100] [[2; 2; 2]])] /\
  exists s, nth_error (ca_cons (an_calc a)) 1 = Some (Th s, [0]) /\
    forall i x j, nth_error [Fz 100] i = Some x -> j < 3 -> exists n, mget (tc_counts s) i j = Ok n /\ how_many (fun r => outside b3 2 j r /\ fleb (tab (Z.of_nat r) (Z.of_nat j)) x = true) n.
Proof.
  intros cs calls a. do 3 (split; [vm_compute; reflexivity|]).
  eapply (@C106_counter_last Z NumZ) with (I := fun _ _ => True) (query := Some [[3; 1; 4]%Z]) (D := fun r c => tab (Z.of_nat r) (Z.of_nat c)) (1 := dedup_orders) (2 := join3_built) (5 := gen3_col_gives) (6 := gen3_diag_gives).
  - intros c ids id [E|[E|[]]] Hid; injection E as <- <-; destruct Hid as [<-|[]]; cbn; lia.
  - intros id g d _. exact Logic.I.
  - intros s e s' E. cbn [step3]. rewrite E. reflexivity.
  - reflexivity.
  - reflexivity.
  - intros d _. unfold diag_of. apply map_ext_in. intros k Hk. rewrite !Z2Nat.id by lia. reflexivity.
  - intros r c _ _. apply tab_no.
  - discriminate.
  - repeat constructor.
  - discriminate.
  - vm_compute. reflexivity.
  - intros [|[|[|]]] c' ids' Hk E; try lia; discriminate.
Qed.
