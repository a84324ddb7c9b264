(** * PRaise: proofs about calculations in which generators and consumers raise *)
From Coq Require Import QArith Permutation.
From Verif Require Import Np NpFacts Mat MUtil SLog MCalc SCalc SMixed PCalc PCalcRun MRaise SRaise.
Set Implicit Arguments.
Open Scope nat_scope.

Section Raise.
  Context {A : Type}.
  Notation num := (Np.num A).
  Variables (X G C : Type).
  Variable g_col : G -> nat -> G * res (list num).
  Variable g_diag : G -> Z -> G * res (list num).
  Variable c_step : C -> event num -> C * option exn.
  Variable set_order : list nat -> list nat.
  Notation calc := (calc G C).
  Notation any := (any X G C).

  (** ** Agreement with MCalc.v *)
  Definition same {T} (x : T * option exn) (r : res T) : Prop := match x with (t, None) => r = Ok t | (_, Some e) => r = Err e end.

  Lemma feed_same evs : forall c, same (feed c_step evs c) (foldM (plain_c c_step) evs c).
  Proof.
    induction evs as [|e evs IH]; intro c; cbn [feed foldM]; [reflexivity|]. unfold plain_c at 1. destruct (c_step c e) as [c' [x|]]; cbn [bind]; [reflexivity|apply IH].
  Qed.

  Lemma run_gens_same (g_calc : G -> G * res (list num)) n ids : forall gens dists,
    same (run_gens_x g_calc n ids gens dists) (run_gens (fun g => match g_calc g with (g', Ok v) => Ok (g', v) | (_, Err e) => Err e end) n ids gens dists).
  Proof.
    unfold run_gens. induction ids as [|id ids IH]; intros gens dists; cbn [run_gens_x foldM fst snd]; [reflexivity|].
    destruct (nth_error gens id) as [[g d]|] eqn:E; [rewrite (proj2 (getitem_ok _ _ _) E)|replace (getitem gens id) with (@Err (G * nat) IndexError) by (unfold getitem; rewrite E; reflexivity); reflexivity]. cbn [bind fst snd]. destruct (g_calc g) as [g' [v|e]]; cbn [bind fst snd]; [|reflexivity].
    destruct (getitem dists id) as [row|e]; cbn [bind]; [|reflexivity]. destruct (set_slice row 0 n v) as [row'|e]; cbn [bind]; [|reflexivity].
    destruct (setitem dists id row') as [dists'|e]; cbn [bind]; [|reflexivity].
    rewrite setitem_ok by (eapply nth_error_some_lt; exact E). cbn [bind]. apply IH.
  Qed.

  Lemma deliver_same mk dists cns : same (deliver_x c_step mk dists cns) (deliver (plain_c c_step) mk dists cns).
  Proof.
    unfold deliver. induction cns as [|[c ids] cns IH]; cbn [deliver_x mapM fst snd]; [reflexivity|].
    destruct (mapM (getitem dists) ids) as [vals|e]; cbn [bind]; [|reflexivity]. pose proof (feed_same (mk vals) c) as H. destruct (feed c_step (mk vals) c) as [c' [e|]]; cbn [same] in H; rewrite H; cbn [bind]; [reflexivity|].
    destruct (deliver_x c_step mk dists cns) as [r [e|]]; cbn [same] in *; rewrite IH; reflexivity.
  Qed.

  Lemma col_step_same ids rows st c : same (col_step_x g_col c_step ids rows st c) (col_step (plain_g g_col) (plain_c c_step) ids rows st c).
  Proof.
    unfold col_step_x, col_step. pose proof (run_gens_same (fun g => g_col g (Z.to_nat c)) rows ids (ca_gens (fst st)) (snd st)) as H. unfold plain_g.
    destruct (run_gens_x _ rows ids (ca_gens (fst st)) (snd st)) as [[gens dists] [e|]]; cbn [same] in H; rewrite H; cbn [bind fst snd]; [reflexivity|].
    pose proof (deliver_same (fun vals => [ECol (Z.to_nat c) vals]) (mask_column (ca_tmb (fst st)) c dists) (ca_cons (fst st))) as HD.
    destruct (deliver_x c_step _ _ _) as [cns [e|]]; cbn [same] in HD; rewrite HD; reflexivity.
  Qed.
  Lemma col_loop_same ids rows upto intr : forall fuel k c st, same (col_loop_x g_col c_step fuel intr k ids rows c upto st) (col_loop (plain_g g_col) (plain_c c_step) fuel intr k ids rows c upto st).
  Proof.
    induction fuel as [|fuel IH]; intros k c st; cbn [col_loop_x col_loop]; [reflexivity|]. destruct (_ && _); [|reflexivity].
    pose proof (col_step_same ids rows st c) as H. destruct (col_step_x g_col c_step ids rows st c) as [st' [e|]]; cbn [same] in H; rewrite H; cbn [bind]; [reflexivity|apply IH].
  Qed.
  Lemma diag_step_same ids (st : any * list (list num)) : same (diag_step_x g_diag c_step ids st) (diag_step (plain_g g_diag) (plain_c c_step) ids st).
  Proof.
    unfold diag_step_x, diag_step. destruct (getitem (an_order (fst st)) (an_next (fst st))) as [d|e]; cbn [bind]; [|reflexivity]. set (n := Z.to_nat _).
    pose proof (run_gens_same (fun g => g_diag g d) n ids (ca_gens (an_calc (fst st))) (snd st)) as H. unfold plain_g.
    destruct (run_gens_x _ n ids (ca_gens (an_calc (fst st))) (snd st)) as [[gens dists] [e|]]; cbn [same] in H; rewrite H; cbn [bind fst snd]; [reflexivity|].
    pose proof (deliver_same (diag_calls (ca_self (an_calc (fst st))) d) (map (firstn n) dists) (ca_cons (an_calc (fst st)))) as HD.
    destruct (deliver_x c_step _ _ _) as [cns [e|]]; cbn [same] in HD; rewrite HD; reflexivity.
  Qed.
  Lemma diag_loop_same ids v intr : forall fuel k (st : any * list (list num)), same (diag_loop_x g_diag c_step fuel intr k ids v st) (diag_loop (plain_g g_diag) (plain_c c_step) fuel intr k ids v st).
  Proof.
    induction fuel as [|fuel IH]; intros k st; cbn [diag_loop_x diag_loop]; [reflexivity|]. destruct (_ && _); [|reflexivity].
    pose proof (diag_step_same ids st) as H. destruct (diag_step_x g_diag c_step ids st) as [st' [e|]]; cbn [same] in H; rewrite H; cbn [bind]; [reflexivity|apply IH].
  Qed.

  Lemma any_call_same (a : any) call : same (any_call_x g_col g_diag c_step set_order a call) (any_call (plain_g g_col) (plain_g g_diag) (plain_c c_step) set_order (a : any) call).
  Proof.
    destruct call as [intr start upto|intr partial]; cbn [any_call_x any_call].
    - unfold any_columns_x, any_columns, calculate_columns_x, calculate_columns. set (s := an_calc a). destruct (ratio_to_int (match start with None => _ | Some _ => _ end) _ _) as [c|e]; cbn [bind]; [|reflexivity].
      destruct (ratio_to_int upto _ _) as [u|e]; cbn [bind]; [|reflexivity]. destruct (ca_nq s <? 0)%Z; cbn [bind]; [reflexivity|].
      match goal with |- context [col_loop_x _ _ ?f intr 0 ?ids ?r c u ?st] => pose proof (col_loop_same ids r u intr f 0 c st) as H; destruct (col_loop_x g_col c_step f intr 0 ids r c u st) as [st' [e|]] end; cbn [same] in H; rewrite H; reflexivity.
    - unfold calculate_diagonals_x, calculate_diagonals. destruct (_ <? 0)%Z; [reflexivity|]. destruct (ratio_to_int partial _ _) as [v|e]; cbn [bind]; [|reflexivity].
      match goal with |- context [diag_loop_x _ _ ?f intr 0 ?ids v ?st] => pose proof (diag_loop_same ids v intr f 0 st) as H; destruct (diag_loop_x g_diag c_step f intr 0 ids v st) as [st' [e|]] end; cbn [same] in H; rewrite H; reflexivity.
  Qed.

  (** ** Histories with exceptions *)
  Hypothesis HSO : orders_sets set_order.
  Variables (I : nat -> G -> Prop) (Fc : nat -> nat -> list num) (Fd : nat -> Z -> list num) (h w : nat).
  Hypothesis HGc : may_give g_col I Fc (fun c => c < w) (fun _ => h).
  Hypothesis HGd : may_give g_diag I Fd (on_matrix h w) (fun d => Z.to_nat (dlen h w d)).

  Lemma run_gens_x_ok (g_calc : G -> G * res (list num)) (F : nat -> list num) n L : n <= L ->
    (forall id g, I id g -> I id (fst (g_calc g)) /\ forall v, snd (g_calc g) = Ok v -> v = F id /\ length v = n) ->
    forall ids gens dists gens' dists' e, NoDup ids -> gens_ok I gens -> length dists = length gens -> (forall row, In row dists -> length row = L) ->
    run_gens_x g_calc n ids gens dists = (gens', dists', e) ->
    gens_ok I gens' /\ length gens' = length gens /\ length dists' = length dists /\ (forall row, In row dists' -> length row = L) /\
    (e = None -> (forall id, In id ids -> exists row, nth_error dists' id = Some row /\ firstn n row = F id) /\ (forall id, ~ In id ids -> nth_error dists' id = nth_error dists id)).
  Proof.
    intros HnL HC. induction ids as [|id ids IH]; intros gens dists gens' dists' e HND HG HL HR E; cbn [run_gens_x] in E.
    - injection E as E1 E2 E3; subst gens' dists' e. do 4 (split; [auto|]). intros _. split; [intros id []|reflexivity].
    - apply NoDup_cons_iff in HND. destruct HND as [HN1 HN2].
      destruct (nth_error gens id) as [[g d]|] eqn:Eg; [|injection E as <- <- <-; do 4 (split; [auto|]); discriminate].
      destruct (HC id g (HG _ _ _ Eg)) as [HI' HV]. destruct (g_calc g) as [g' r]. cbn [fst snd] in HI', HV. pose proof (nth_error_some_lt _ _ Eg) as Hid.
      set (gens1 := splice gens id [(g', d)]) in *. assert (Lg : length gens1 = length gens) by (apply length_set1; lia).
      assert (Ngens : forall j, nth_error gens1 j = if j =? id then Some (g', d) else nth_error gens j) by (intro j; apply nth_error_set1; lia).
      assert (HG1 : gens_ok I gens1). { intros j g0 d0 Hj. rewrite Ngens in Hj. destruct (Nat.eqb_spec j id); [injection Hj as <- <-; subst; exact HI'|eapply HG; exact Hj]. }
      destruct r as [v|x]; cbn [bind] in E; [|injection E as <- <- <-; do 4 (split; [auto|]); discriminate].
      destruct (HV v eq_refl) as [-> HLv]. destruct (@nth_error_lt_some _ dists id) as [row Hrow]; [lia|]. rewrite (proj2 (getitem_ok _ _ _) Hrow) in E. cbn [bind] in E.
      assert (Hn : length row = L) by (apply HR; eapply nth_error_In; exact Hrow). rewrite set_slice_ok in E by lia. cbn [bind] in E. rewrite setitem_ok in E by lia.
      set (row' := splice row 0 (F id)) in *. assert (Lrow : length row' = length row) by (unfold row'; rewrite length_splice; lia).
      set (dists1 := splice dists id [row']) in *. assert (Ld : length dists1 = length dists) by (apply length_set1; lia).
      assert (Ndists : forall j, nth_error dists1 j = if j =? id then Some row' else nth_error dists j) by (intro j; apply nth_error_set1; lia).
      destruct (IH gens1 dists1 gens' dists' e HN2 HG1) as (G1 & G2 & G3 & G4 & G5); [lia| |exact E|].
      { intros r0 Hr. apply In_nth_error in Hr. destruct Hr as [j Hj]. rewrite Ndists in Hj. destruct (j =? id); [injection Hj as <-; lia|]. apply HR. eapply nth_error_In; exact Hj. }
      split; [exact G1|]. split; [lia|]. split; [lia|]. split; [exact G4|]. intro En. destruct (G5 En) as [G6 G7]. split.
      + intros j [<-|Hj]; [|apply G6; exact Hj]. rewrite (G7 _ HN1), Ndists, Nat.eqb_refl. exists row'. split; [reflexivity|].
        unfold row', splice. cbn [firstn app]. rewrite firstn_app, <- HLv, firstn_all, Nat.sub_diag. cbn [firstn]. apply app_nil_r.
      + intros j Hj. rewrite G7 by (intro H; apply Hj; right; exact H). rewrite Ndists. destruct (Nat.eqb_spec j id); [exfalso; apply Hj; left; congruence|reflexivity].
  Qed.

  Lemma after_app evs evs' c : after c_step (evs ++ evs') c = after c_step evs' (after c_step evs c).
  Proof. unfold after. apply fold_left_app. Qed.

  Lemma feed_ok evs : forall c c' e, feed c_step evs c = (c', e) -> exists done, (exists rest, evs = done ++ rest) /\ c' = after c_step done c /\
    (e = None -> done = evs /\ forall b1 x b2, evs = b1 ++ x :: b2 -> snd (c_step (after c_step b1 c) x) = None).
  Proof.
    induction evs as [|x evs IH]; intros c c' e E; cbn [feed] in E.
    - injection E as <- <-. exists []. split; [exists []; reflexivity|]. split; [reflexivity|]. intros _. split; [reflexivity|]. intros [|] ? ? H; discriminate.
    - destruct (c_step c x) as [c1 [y|]] eqn:Ex.
      + injection E as <- <-. exists [x]. split; [exists evs; reflexivity|]. split; [cbn; rewrite Ex; reflexivity|discriminate].
      + destruct (IH c1 c' e E) as (dn & (rest & Hd) & Hc & Hn). exists (x :: dn). split; [exists rest; cbn; congruence|]. split; [unfold after in *; cbn [fold_left]; rewrite Ex; exact Hc|].
        intro He. destruct (Hn He) as [-> H]. split; [reflexivity|]. intros [|z b1] y b2 Hb; cbn [app] in Hb; injection Hb as <- Hb; [cbn; rewrite Ex; reflexivity|].
        unfold after. cbn [fold_left]. rewrite Ex. exact (H b1 y b2 Hb).
  Qed.

  (** One consumer [c] has become [c'] by calls that are elements of [evs (its generators)], all of them without exception if [full] *)
  Definition fed (full : Prop) (evs : list nat -> list (event num)) (c c' : C * list nat) : Prop :=
    snd c' = snd c /\ exists dn, (exists rest, evs (snd c) = dn ++ rest) /\ fst c' = after c_step dn (fst c) /\
      (full -> dn = evs (snd c) /\ forall b1 x b2, dn = b1 ++ x :: b2 -> snd (c_step (after c_step b1 (fst c)) x) = None).

  Lemma deliver_x_ok mk dists (F : nat -> list num) : forall cns cns' e,
    (forall c ids id, In (c, ids) cns -> In id ids -> nth_error dists id = Some (F id)) ->
    deliver_x c_step mk dists cns = (cns', e) -> Forall2 (fed (e = None) (fun ids => mk (map F ids))) cns cns'.
  Proof.
    assert (R : forall P evs (cns : list (C * list nat)), ~ P -> Forall2 (fed P evs) cns cns).
    { intros P evs cns HP. induction cns as [|x cns IH]; constructor; [|exact IH]. split; [reflexivity|]. exists []. split; [eexists; reflexivity|]. split; [reflexivity|]. intro HH. contradiction. }
    induction cns as [|[c ids] cns IH]; intros cns' e H E; cbn [deliver_x] in E; [injection E as <- <-; constructor|].
    rewrite (mapM_getitem dists F) in E by (intros id Hid; eapply H; [left; reflexivity|exact Hid]). destruct (feed c_step (mk (map F ids)) c) as [c' x] eqn:Ef. destruct (feed_ok _ _ Ef) as (dn & Hd & Hc & Hn).
    destruct x as [x|].
    - injection E as <- <-. constructor; [|apply R; discriminate]. split; [reflexivity|]. cbn [fst snd]. exists dn. split; [exact Hd|]. split; [exact Hc|discriminate].
    - destruct (deliver_x c_step mk dists cns) as [r y] eqn:Er. injection E as <- <-. constructor; [|apply IH; [intros; eapply H; [right; eassumption|assumption]|reflexivity]].
      split; [reflexivity|]. cbn [fst snd]. exists dn. split; [exact Hd|]. split; [exact Hc|]. intros _. destruct (Hn eq_refl) as [-> Hn']. split; [reflexivity|exact Hn'].
  Qed.

  Section Inv.
    Variables (ac : any) (dflt : Prop).
    Let cs := ca_cons (an_calc ac).
    Let self := ca_self (an_calc ac).
    Let tmb := ca_tmb (an_calc ac).
    Let order := an_order ac.
    Hypothesis Hids : ids_ok (ca_gens (an_calc ac)) cs.
    Hypothesis Hns : ca_ns (an_calc ac) = Z.of_nat w.
    Hypothesis Hnq : ca_nq (an_calc ac) = Z.of_nat h.
    Hypothesis Htmb : (-1 <= tmb)%Z.
    Hypothesis Horder : forall d, In d order -> on_matrix h w d.

    Definition told (next : nat) (last : Z) (c c' : C * list nat) : Prop :=
      snd c' = snd c /\ exists evs, fst c' = after c_step evs (fst c) /\
        Forall (right_call Fc Fd self tmb w order (snd c)) evs /\
        (forall d, In d (firstn next order) -> in_full c_step (diagonal_calls Fd self [d] (snd c)) evs (fst c)) /\
        (dflt -> forall j, (Z.of_nat j <= last)%Z -> in_full c_step (column_calls Fc tmb j 1 (snd c)) evs (fst c)).

    Lemma in_full_app block evs evs' c : in_full c_step block evs c -> in_full c_step block (evs ++ evs') c.
    Proof. intros (pre & post & -> & H). exists pre, (post ++ evs'). split; [rewrite <- !app_assoc; reflexivity|exact H]. Qed.
    Lemma in_full_last block evs c : (forall b1 e b2, block = b1 ++ e :: b2 -> snd (c_step (after c_step b1 (after c_step evs c)) e) = None) -> in_full c_step block (evs ++ block) c.
    Proof. intro H. exists evs, []. split; [rewrite app_nil_r; reflexivity|]. intros b1 e b2 Hb. rewrite after_app. eapply H; exact Hb. Qed.

    (** [told] after the calls of one column or diagonal *)
    Lemma told_fed next last next' last' full evs c c' c'' : told next last c c' -> fed full evs c' c'' ->
      (forall ids e, In e (evs ids) -> right_call Fc Fd self tmb w order ids e) ->
      (forall d, In d (firstn next' order) -> In d (firstn next order) \/ (full /\ forall ids, evs ids = diagonal_calls Fd self [d] ids)) ->
      (dflt -> forall j, (Z.of_nat j <= last')%Z -> (Z.of_nat j <= last)%Z \/ (full /\ forall ids, evs ids = column_calls Fc tmb j 1 ids)) ->
      told next' last' c c''.
    Proof.
      intros (T1 & done & T2 & T3 & T4 & T5) (F1 & dn & (rest & F2) & F3 & F4) HR Hd Hc. split; [congruence|]. exists (done ++ dn). rewrite T1 in *. split; [rewrite after_app, <- T2; exact F3|]. split; [|split].
      - apply Forall_app. split; [exact T3|]. apply Forall_forall. intros e He. apply HR. rewrite F2. apply in_or_app. left. exact He.
      - intros d Hin. destruct (Hd d Hin) as [H|[Hf Hev]]; [apply in_full_app, T4, H|]. destruct (F4 Hf) as [-> F5]. rewrite <- Hev. apply in_full_last. rewrite <- T2. exact F5.
      - intros HD j Hj. destruct (Hc HD j Hj) as [H|[Hf Hev]]; [apply in_full_app, T5; assumption|]. destruct (F4 Hf) as [-> F5]. rewrite <- Hev. apply in_full_last. rewrite <- T2. exact F5.
    Qed.
    Lemma told_mono next last next' last' c c' : told next last c c' -> (forall d, In d (firstn next' order) -> In d (firstn next order)) -> (last' <= last)%Z -> told next' last' c c'.
    Proof. intros (T1 & evs & T2 & T3 & T4 & T5) H1 H2. split; [exact T1|]. exists evs. split; [exact T2|]. split; [exact T3|]. split; [auto|]. intros HD j Hj. apply T5; [exact HD|lia]. Qed.

    Definition cinv (next : nat) (s : calc) : Prop :=
      same_conf (an_calc ac) s /\ gens_ok I (ca_gens s) /\ length (ca_gens s) = length (ca_gens (an_calc ac)) /\ (-1 <= ca_last s)%Z /\ Forall2 (told next (ca_last s)) cs (ca_cons s).

    Lemma told_ids next last cns : Forall2 (told next last) cs cns -> map snd cns = map snd cs.
    Proof. generalize cs. clear. induction 1 as [|x y l l' [H1 _] _ IH]; [reflexivity|]. cbn [map]. rewrite H1, IH. reflexivity. Qed.

    Definition dinv (L : nat) (dists : list (list num)) : Prop := length dists = length (ca_gens (an_calc ac)) /\ forall row, In row dists -> length row = L.

    Lemma forall2_fed next last next' last' full evs cns cns' : Forall2 (told next last) cs cns -> Forall2 (fed full evs) cns cns' ->
      (forall ids e, In e (evs ids) -> right_call Fc Fd self tmb w order ids e) ->
      (forall d, In d (firstn next' order) -> In d (firstn next order) \/ (full /\ forall ids, evs ids = diagonal_calls Fd self [d] ids)) ->
      (dflt -> forall j, (Z.of_nat j <= last')%Z -> (Z.of_nat j <= last)%Z \/ (full /\ forall ids, evs ids = column_calls Fc tmb j 1 ids)) ->
      Forall2 (told next' last') cs cns'.
    Proof.
      intros HT HF H1 H2 H3. enough (K : forall cs0 cns, Forall2 (told next last) cs0 cns -> forall cns', Forall2 (fed full evs) cns cns' -> Forall2 (told next' last') cs0 cns') by (eapply K; eassumption).
      clear HT HF cns cns'. induction 1 as [|x y l l' Hx HT IH]; intros cns' HF; inversion HF as [|y' z m m' Hy HF']; [constructor|]. constructor; [eapply told_fed; eassumption|apply IH, HF'].
    Qed.

    Lemma needed_ids N next last cns : N = needed set_order (an_calc ac) -> Forall2 (told next last) cs cns ->
      forall c ids id, In (c, ids) cns -> In id ids -> In id N.
    Proof.
      intros -> HT c ids id Hc Hid. destruct (@needed_spec G C set_order HSO (ca_gens (an_calc ac)) (an_calc ac) Hids) as (_ & _ & N3).
      assert (Hin : In ids (map snd cs)) by (rewrite <- (told_ids HT); apply in_map_iff; exists (c, ids); auto). apply in_map_iff in Hin. destruct Hin as ([c1 ids1] & E1 & Hin). cbn [snd] in E1. subst ids1. eapply N3; eassumption.
    Qed.

    Lemma col_step_x_ok next s dists c s' dists' e : c < w -> (dflt -> (Z.of_nat c <= ca_last s + 1)%Z) -> cinv next s -> dinv h dists ->
      col_step_x g_col c_step (needed set_order (an_calc ac)) h (s, dists) (Z.of_nat c) = (s', dists', e) ->
      cinv next s' /\ dinv h dists' /\ (e = None -> ca_last s' = Z.max (Z.of_nat c) (ca_last s)).
    Proof.
      intros Hc Hd (J1 & J2 & J3 & J4 & J5) (D1 & D2) E. unfold col_step_x in E. cbn [fst snd] in E. rewrite Nat2Z.id in E.
      destruct (run_gens_x _ h _ (ca_gens s) dists) as [[gens ds] x] eqn:Eg. destruct (@needed_spec G C set_order HSO (ca_gens (an_calc ac)) (an_calc ac) Hids) as (N1 & N2 & _).
      eapply (@run_gens_x_ok (fun g => g_col g c) (fun id => Fc id c) h h) in Eg; [|lia|intros id g Hg; exact (HGc Hg Hc)|exact N1|exact J2|lia|exact D2]. destruct Eg as (G1 & G2 & G3 & G4 & G5).
      assert (Conf : forall cns last, same_conf (an_calc ac) (ca_upd s gens cns last)) by (intros; exact J1). destruct x as [x|].
      - injection E as <- <- <-. split; [|split; [split; [lia|exact G4]|discriminate]]. split; [apply Conf|]. split; [exact G1|]. split; [cbn; lia|]. split; [exact J4|exact J5].
      - destruct (G5 eq_refl) as [G6 _]. assert (Et : ca_tmb s = tmb) by apply J1. rewrite Et in E.
        assert (DM : dinv h (mask_column tmb (Z.of_nat c) ds)).
        { unfold mask_column. split; [destruct (0 <=? tmb)%Z; [rewrite map_length|]; lia|]. destruct (0 <=? tmb)%Z; [|exact G4]. intros row Hr. apply in_map_iff in Hr. destruct Hr as (r0 & <- & Hr0). rewrite length_fill_slice. auto. }
        assert (HD : forall c0 ids id, In (c0, ids) (ca_cons s) -> In id ids -> nth_error (mask_column tmb (Z.of_nat c) ds) id = Some (hide tmb c (Fc id c))).
        { intros c0 ids id Hc0 Hid. destruct (G6 id (needed_ids eq_refl J5 _ _ _ Hc0 Hid)) as (row & Hrow & Hf). rewrite firstn_all2 in Hf by (rewrite (G4 row); [lia|eapply nth_error_In; exact Hrow]). subst row.
          rewrite <- (hide_mask c (Fc id c) Htmb). unfold mask_column. destruct (0 <=? tmb)%Z; [rewrite nth_error_map|]; rewrite Hrow; reflexivity. }
        destruct (deliver_x c_step _ _ (ca_cons s)) as [cns y] eqn:Ed. pose proof (@deliver_x_ok (fun vals => [ECol c vals]) _ (fun id => hide tmb c (Fc id c)) _ _ _ HD Ed) as HF.
        assert (HR : forall ids e0, In e0 [ECol c (map (fun id => hide tmb c (Fc id c)) ids)] -> right_call Fc Fd self tmb w order ids e0) by (intros ids e0 He; left; exists c; split; [exact Hc|exact He]).
        destruct y as [y|]; injection E as <- <- <-; (split; [|split; [exact DM|cbn; auto; discriminate]]); (split; [apply Conf|]; split; [exact G1|]; split; [cbn; lia|]; split; [cbn; lia|]); cbn [ca_upd ca_cons ca_last].
        + eapply forall2_fed; [exact J5|exact HF|exact HR|auto|auto].
        + eapply forall2_fed; [exact J5|exact HF|exact HR|auto|]. intros HDf j Hj. specialize (Hd HDf). destruct (Z.le_gt_cases (Z.of_nat j) (ca_last s)) as [|]; [left; assumption|]. right. split; [reflexivity|]. assert (j = c) as -> by lia. reflexivity.
    Qed.

    Lemma col_loop_x_ok next upto intr : upto <= w -> forall fuel k c st st' e, (dflt -> (Z.of_nat c <= ca_last (fst st) + 1)%Z) -> cinv next (fst st) -> dinv h (snd st) ->
      col_loop_x g_col c_step fuel intr k (needed set_order (an_calc ac)) h (Z.of_nat c) (Z.of_nat upto) st = (st', e) -> cinv next (fst st').
    Proof.
      intro Hu. induction fuel as [|fuel IH]; intros k c [s dists] st' e Hd HC HD E; cbn [col_loop_x] in E; [injection E as <- <-; exact HC|].
      destruct (Z.of_nat c <? Z.of_nat upto)%Z eqn:Ec; cbn [andb] in E; [|injection E as <- <-; exact HC]. apply Z.ltb_lt in Ec. destruct (negb (intr k)); [|injection E as <- <-; exact HC].
      destruct (col_step_x g_col c_step _ h (s, dists) (Z.of_nat c)) as [[s1 d1] x] eqn:Es. cbn [fst snd] in *. destruct (@col_step_x_ok next s dists c s1 d1 x ltac:(lia) Hd HC HD Es) as (H1 & H2 & H3).
      destruct x as [x|]; [injection E as <- <-; exact H1|]. replace (Z.of_nat c + 1)%Z with (Z.of_nat (S c)) in E by lia. eapply IH; [| | |exact E]; [|exact H1|exact H2]. intros _. cbn [fst]. rewrite (H3 eq_refl). lia.
    Qed.

    Definition inv (a : any) : Prop :=
      cinv (an_next a) (an_calc a) /\ an_order a = order /\ an_total a = an_total ac /\ an_next a <= length order /\ an_done a = size h w (firstn (an_next a) order).

    Lemma needed_same (s : calc) : map snd (ca_cons s) = map snd cs -> needed set_order s = needed set_order (an_calc ac).
    Proof. intro H. unfold needed. rewrite H. reflexivity. Qed.

    Lemma any_columns_x_ok intr (a : any) start upto : inv a -> (dflt -> start = None) -> inv (fst (any_columns_x g_col c_step set_order intr a start upto)).
    Proof.
      intros (HC & H1 & H2 & H3 & H4) Hs. unfold any_columns_x, calculate_columns_x. pose proof HC as (J1 & J2 & J3 & J4 & J5). assert (Ens : ca_ns (an_calc a) = Z.of_nat w) by (rewrite <- Hns; apply J1). assert (Enq : ca_nq (an_calc a) = Z.of_nat h) by (rewrite <- Hnq; apply J1). rewrite Ens, Enq.
      destruct (ratio_to_int (match start with None => _ | Some _ => _ end) _ _) as [c|e] eqn:E1; cbn [bind]; [|exact (conj HC (conj H1 (conj H2 (conj H3 H4))))].
      destruct (ratio_to_int upto _ _) as [u|e] eqn:E2; cbn [bind]; [|exact (conj HC (conj H1 (conj H2 (conj H3 H4))))]. destruct (Z.of_nat h <? 0)%Z eqn:E3; [apply Z.ltb_lt in E3; lia|]. cbn [bind].
      rewrite (needed_same (an_calc a) (told_ids J5)), Nat2Z.id.
      assert (B : forall r x, ratio_to_int r (Z.of_nat w) (Z.of_nat w) = Ok x -> (0 <= x <= Z.of_nat w)%Z) by (intros [z|[| |q|]|] x Ex; cbn in Ex; try discriminate; [injection Ex as <-; lia|destruct (_ || _); [discriminate|]; injection Ex as <-; lia]).
      pose proof (B _ _ E1) as B1. pose proof (B _ _ E2) as B2. rewrite <- (Z2Nat.id c), <- (Z2Nat.id u) by lia.
      match goal with |- context [col_loop_x _ _ ?f intr 0 ?ids ?r ?c' ?u' ?st] => destruct (col_loop_x g_col c_step f intr 0 ids r c' u' st) as [st' e] eqn:El end.
      cbn [fst snd]. split; [|split; [exact H1|split; [exact H2|split; [exact H3|exact H4]]]]. cbn [an_next an_calc].
      eapply (@col_loop_x_ok (an_next a) (Z.to_nat u) intr); [lia| | | |exact El]; cbn [fst snd].
      - intro HD. specialize (Hs HD). subst start. cbn in E1. injection E1 as <-. lia.
      - exact HC.
      - split; [rewrite repeat_length; exact J3|]. intros row Hr. apply repeat_spec in Hr. subst row. apply repeat_length.
    Qed.

    Lemma order_dlen d : In d order -> diag_length (Z.of_nat h) (Z.of_nat w) d = dlen h w d.
    Proof. intro H. apply dlen_length, Horder, H. Qed.

    Lemma firstn_S_nth (l : list Z) k d : nth_error l k = Some d -> firstn (S k) l = firstn k l ++ [d].
    Proof. clear. revert k. induction l as [|x l IH]; intros [|k] H; try discriminate; cbn [firstn app nth_error] in *; [congruence|]. f_equal. apply IH, H. Qed.

    Lemma diag_step_x_ok st st' e : inv (fst st) -> dinv (Nat.min h w) (snd st) -> diag_step_x g_diag c_step (needed set_order (an_calc ac)) st = (st', e) ->
      inv (fst st') /\ dinv (Nat.min h w) (snd st').
    Proof.
      destruct st as [a dists]. cbn [fst snd]. intros HI HDv E. pose proof HI as ((J1 & J2 & J3 & J4 & J5) & H1 & H2 & H3 & H4). destruct HDv as (D1 & D2). unfold diag_step_x in E. cbn [fst snd] in E.
      unfold getitem in E. rewrite H1 in E. destruct (nth_error order (an_next a)) as [d|] eqn:En; [|injection E as <- <-; split; [exact HI|split; assumption]].
      assert (Hin := nth_error_In _ _ En). assert (Ens : ca_ns (an_calc a) = Z.of_nat w) by (rewrite <- Hns; apply J1). assert (Enq : ca_nq (an_calc a) = Z.of_nat h) by (rewrite <- Hnq; apply J1). rewrite Ens, Enq, (order_dlen _ Hin) in E.
      set (n := Z.to_nat (dlen h w d)) in *. assert (HnL : n <= Nat.min h w) by (unfold n, dlen; lia).
      destruct (run_gens_x _ n _ (ca_gens (an_calc a)) dists) as [[gens ds] x] eqn:Eg. destruct (@needed_spec G C set_order HSO (ca_gens (an_calc ac)) (an_calc ac) Hids) as (N1 & N2 & _).
      eapply (@run_gens_x_ok (fun g => g_diag g d) (fun id => Fd id d) n (Nat.min h w)) in Eg; [|exact HnL|intros id g Hg; exact (HGd Hg (Horder _ Hin))|exact N1|exact J2|lia|exact D2]. destruct Eg as (G1 & G2 & G3 & G4 & G5).
      assert (DD : dinv (Nat.min h w) ds) by (split; [lia|exact G4]).
      assert (Eself : ca_self (an_calc a) = self) by apply J1. rewrite Eself in E. destruct x as [x|].
      - injection E as <- <-. split; [|exact DD]. split; [|split; [reflexivity|split; [exact H2|split; [exact H3|exact H4]]]]. split; [exact J1|]. split; [exact G1|]. split; [cbn; lia|]. split; [exact J4|exact J5].
      - destruct (G5 eq_refl) as [G6 _].
        assert (HD : forall c0 ids id, In (c0, ids) (ca_cons (an_calc a)) -> In id ids -> nth_error (map (firstn n) ds) id = Some (Fd id d)).
        { intros c0 ids id Hc0 Hid. destruct (G6 id (needed_ids eq_refl J5 _ _ _ Hc0 Hid)) as (row & Hrow & Hf). rewrite nth_error_map, Hrow. cbn [option_map]. congruence. }
        destruct (deliver_x c_step _ _ (ca_cons (an_calc a))) as [cns y] eqn:Ed. pose proof (@deliver_x_ok (diag_calls self d) _ (fun id => Fd id d) _ _ _ HD Ed) as HF.
        assert (Hev : forall ids, diag_calls self d (map (fun id => Fd id d) ids) = diagonal_calls Fd self [d] ids) by (intro ids; unfold diagonal_calls, diag_calls; cbn [flat_map]; rewrite app_nil_r; reflexivity).
        assert (HR : forall ids e0, In e0 (diag_calls self d (map (fun id => Fd id d) ids)) -> right_call Fc Fd self tmb w order ids e0) by (intros ids e0 He; right; exists d; split; [exact Hin|rewrite <- Hev; exact He]).
        destruct y as [y|]; injection E as <- <-; (split; [|exact DD]); (split; [split; [exact J1|]; split; [exact G1|]; split; [cbn; lia|]; split; [exact J4|]; cbn [an_calc an_next ca_upd ca_cons ca_last]|split; [reflexivity|split; [exact H2|]]]).
        + eapply forall2_fed; [exact J5|exact HF|exact HR|auto|auto].
        + split; [exact H3|exact H4].
        + eapply forall2_fed; [exact J5|exact HF|exact HR| |auto]. intros d' Hd'. cbn [fst an_next] in Hd'. rewrite (firstn_S_nth _ _ En) in Hd'. apply in_app_or in Hd'. destruct Hd' as [Hd'|[<-|[]]]; [left; exact Hd'|]. right. split; [reflexivity|exact Hev].
        + cbn [fst an_next an_done]. split; [apply nth_error_some_lt in En; lia|]. rewrite (firstn_S_nth _ _ En), size_app, H4. unfold size at 3. cbn [map fold_right]. lia.
    Qed.

    Lemma diag_loop_x_ok v intr : forall fuel k st st' e, inv (fst st) -> dinv (Nat.min h w) (snd st) ->
      diag_loop_x g_diag c_step fuel intr k (needed set_order (an_calc ac)) v st = (st', e) -> inv (fst st') /\ (e = None -> (forall i, intr i = false) -> (v <= an_done (fst st'))%Z).
    Proof.
      induction fuel as [|fuel IH]; intros k st st' e HI HD E; cbn [diag_loop_x] in E; [injection E as <- <-; split; [exact HI|discriminate]|].
      destruct (an_done (fst st) <? v)%Z eqn:Ec; cbn [andb] in E; [|injection E as <- <-; split; [exact HI|]; intros _ _; apply Z.ltb_ge in Ec; exact Ec].
      destruct (intr k) eqn:Ek; cbn [negb] in E; [injection E as <- <-; split; [exact HI|]; intros _ Hn; rewrite Hn in Ek; discriminate|].
      destruct (diag_step_x g_diag c_step _ st) as [st1 x] eqn:Es. destruct (diag_step_x_ok _ HI HD Es) as [H1 H2]. destruct x as [x|]; [injection E as <- <-; split; [exact H1|discriminate]|]. eapply IH; [exact H1|exact H2|exact E].
    Qed.

    Lemma any_diagonals_x_ok intr a partial a' e : inv a -> calculate_diagonals_x g_diag c_step set_order intr a partial = (a', e) ->
      inv a' /\ (e = None -> (forall i, intr i = false) -> exists v, ratio_to_int partial (an_total ac) (an_total ac) = Ok v /\ (v <= an_done a')%Z).
    Proof.
      intros HI E. pose proof HI as ((J1 & J2 & J3 & J4 & J5) & H1 & H2 & H3 & H4). unfold calculate_diagonals_x in E. assert (Ens : ca_ns (an_calc a) = Z.of_nat w) by (rewrite <- Hns; apply J1). assert (Enq : ca_nq (an_calc a) = Z.of_nat h) by (rewrite <- Hnq; apply J1). rewrite Ens, Enq, H2 in E.
      destruct (_ <? 0)%Z eqn:E0; [apply Z.ltb_lt in E0; lia|]. destruct (ratio_to_int partial _ _) as [v|x] eqn:Ev; [|injection E as <- <-; split; [exact HI|discriminate]].
      rewrite (needed_same (an_calc a) (told_ids J5)) in E. match type of E with context [diag_loop_x _ _ ?f intr 0 ?ids v ?st] => destruct (diag_loop_x g_diag c_step f intr 0 ids v st) as [st' x] eqn:El end. injection E as <- <-.
      pose proof El as El'. apply diag_loop_x_ok in El; [|exact HI|]; [destruct El as [K1 K2]; clear El'|].
      2: { split; [cbn [snd]; rewrite repeat_length; exact J3|]. intros row Hr. cbn [snd] in Hr. apply repeat_spec in Hr. subst row. rewrite repeat_length. lia. }
      cbn [fst snd]. split; [exact K1|]. intros He Hn. exists v. split; [reflexivity|]. apply K2; assumption.
    Qed.

    Lemma persist_inv calls : forall a, inv a -> (dflt -> Forall from_last calls) -> inv (persist g_col g_diag c_step set_order calls a).
    Proof.
      unfold persist. induction calls as [|call calls IH]; intros a HI HD; cbn [fold_left]; [exact HI|]. apply IH.
      - destruct call as [intr start upto|intr partial]; cbn [any_call_x].
        + apply any_columns_x_ok; [exact HI|]. intro Hd. specialize (HD Hd). inversion HD; subst. assumption.
        + destruct (calculate_diagonals_x g_diag c_step set_order intr a partial) as [a' e] eqn:E. exact (proj1 (any_diagonals_x_ok _ _ HI E)).
      - intro Hd. specialize (HD Hd). inversion HD; subst. assumption.
    Qed.
  End Inv.
End Raise.
