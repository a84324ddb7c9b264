(** * PEndAll: complete programs with an AnytimeCalculator *)
From Coq Require Import QArith Permutation.
From Verif Require Import Np NpFacts Mat MUtil SLog PLog PSort MCalc SCalc PCalc PCalcRun PCalcEnd SMixed PMixed SEnd SGen PEnd SEndAll.
Set Implicit Arguments.
Open Scope nat_scope.

Section Program.
  Context {A : Type} {NA : NumOps A}.
  Notation num := (Np.num A).
  Variables (X G C : Type).
  Variable g_col : G -> nat -> res (G * list num).
  Variable g_diag : G -> Z -> res (G * list num).
  Variable prepare : Z -> list X -> option (list X) -> res G.
  Variable c_step : C -> event num -> res C.
  Variable set_order : list nat -> list nat.
  Variable shuffle : list Z -> list Z.
  Hypothesis HSO : orders_sets set_order.
  Hypothesis HSH : forall l, Permutation (shuffle l) l.

  Lemma add_generators m (series : list (list X)) query dims : forall gs (a : any X G C),
    ca_ndim (an_calc a) = length series -> ca_m (an_calc a) = m -> an_series a = series -> an_query a = rows_or series query -> ca_self (an_calc a) = is_self query ->
    length (rows_or series query) = length series ->
    Forall2 (fun d g => d < length series /\ prepare m (nth d series []) (option_map (fun q => nth d q []) query) = Ok g) dims gs ->
    foldM (any_add_generator prepare) (map Z.of_nat dims) a = Ok (with_parts a (ca_gens (an_calc a) ++ combine gs dims) (ca_cons (an_calc a))).
  Proof.
    clear. induction dims as [|d dims IH]; intros gs a E1 E2 E3 E4 E5 EL HF; inversion HF as [|d' g dims' gs' [Hd Hp] HF']; subst.
    - cbn [map foldM combine]. rewrite app_nil_r. unfold with_parts, ca_upd. destruct a as [[] ? ? ? ? ? ?]. reflexivity.
    - cbn [map foldM combine].
      assert (E : any_add_generator prepare a (Z.of_nat d) = Ok (with_parts a (ca_gens (an_calc a) ++ [(g, d)]) (ca_cons (an_calc a)))).
      { unfold any_add_generator. rewrite E1. destruct (Z.ltb_spec (Z.of_nat d) 0); [lia|]. destruct (Z.leb_spec (Z.of_nat (length (an_series a))) (Z.of_nat d)); [lia|]. cbn [orb]. rewrite Nat2Z.id.
        unfold getitem. rewrite (nth_error_nth' _ [] Hd). cbn [bind]. rewrite E5, E4. destruct query as [q|]; cbn [is_self negb rows_or option_map] in *.
        - assert (Hdq : d < length q) by lia. rewrite (nth_error_nth' _ [] Hdq). cbn [bind]. rewrite Hp. unfold with_parts. rewrite E4. reflexivity.
        - rewrite Hp. unfold with_parts. rewrite E4. reflexivity. }
      rewrite E. cbn [bind]. rewrite (IH gs'); [|cbn; congruence..|exact EL|exact HF'].
      unfold with_parts, ca_upd. cbn. rewrite <- app_assoc. reflexivity.
  Qed.

  Lemma add_consumers (h w : Z) consumers : forall (s : calc G C), ca_nq s = h -> ca_ns s = w ->
    (forall s', foldM (fun s (c : list nat * (nat -> Z -> Z -> res C)) => add_consumer s (fst c) (snd c)) consumers s = Ok s' <->
      exists c0s, Forall2 (fun ci c0 => snd ci (length (fst ci)) h w = Ok c0) consumers c0s /\
        s' = ca_upd s (ca_gens s) (ca_cons s ++ combine c0s (map fst consumers)) (ca_last s)).
  Proof.
    clear. induction consumers as [|[ids init] consumers IH]; intros s E1 E2 s'; cbn [foldM].
    - split.
      + intro E. injection E as <-. exists []. split; [constructor|]. cbn. rewrite app_nil_r. destruct s. reflexivity.
      + intros (c0s & HF & ->). inversion HF. cbn. rewrite app_nil_r. destruct s. reflexivity.
    - unfold add_consumer at 1. cbn [fst snd]. rewrite E1, E2. split.
      + destruct (init (length ids) h w) as [c0|e] eqn:Ei; [|discriminate]. cbn [bind]. intro E. apply IH in E; [|exact E1|exact E2]. destruct E as (c0s & HF & ->).
        exists (c0 :: c0s). split; [constructor; [exact Ei|exact HF]|]. cbn. rewrite <- app_assoc. reflexivity.
      + intros (c0s & HF & ->). inversion HF as [|ci c0 cis c0s' Ei HF']; subst. cbn [fst snd] in Ei. rewrite Ei. cbn [bind]. apply IH; [reflexivity..|]. exists c0s'. split; [exact HF'|].
        cbn. rewrite <- app_assoc. reflexivity.
  Qed.

  Lemma program_told m n nq (series : list (list X)) query buffer dims consumers calls (gs : list G) (I : nat -> G -> Prop) (D : nat -> nat -> nat -> num) :
    let h := nq + 1 - m in let w := n + 1 - m in let b := buffer_used query (Z.of_nat m) buffer in
    proper_input m n nq series query buffer -> series <> [] ->
    Forall2 (fun d g => d < length series /\ prepare (Z.of_nat m) (nth d series []) (option_map (fun q => nth d q []) query) = Ok g) dims gs ->
    (forall id g, nth_error gs id = Some g -> I id g) ->
    gives g_col I (fun id => column_of h (D id)) (fun c => c < w) (fun _ => h) -> gives g_diag I (fun id => diagonal_of h w (D id)) (on_matrix h w) (fun d => Z.to_nat (dlen h w d)) ->
    (forall ids init id, In (ids, init) consumers -> In id ids -> id < length dims) -> Forall sensible_call calls ->
    exists order p, Permutation order (diagonals query (Z.of_nat m) buffer h w) /\ mixture h w order calls p /\
      forall cns, program g_col g_diag prepare c_step set_order shuffle (Z.of_nat m) series query buffer (map Z.of_nat dims) consumers calls = Ok cns <->
        Forall2 (fun ci c => exists c0, snd ci (length (fst ci)) (Z.of_nat h) (Z.of_nat w) = Ok c0 /\ foldM c_step (told D h w (is_self query) b (snd p) (fst ci)) c0 = Ok c) consumers cns.
  Proof.
    intros h w b (Hm & Hn & Hnq & HR & Hq & Hb) Hne HF HI Gc Gd Hids Hcalls.
    assert (Lhd : forall rows : list (list X), rows <> [] -> forall k, rows_have k rows -> length (hd [] rows) = k).
    { intros rows Hl k Hk. destruct rows as [|r0 rows]; [congruence|]. apply Hk. left. reflexivity. }
    assert (Lq : length (rows_or series query) = length series) by (destruct query; cbn; [apply Hq|reflexivity]).
    assert (EX : exists a0 : any X G C, any_new G C shuffle (Z.of_nat m) series query buffer = Ok a0 /\ ca_tmb (an_calc a0) = b /\ ca_ndim (an_calc a0) = length series /\ ca_m (an_calc a0) = Z.of_nat m /\ an_series a0 = series /\
       an_query a0 = rows_or series query /\ ca_gens (an_calc a0) = [] /\ ca_cons (an_calc a0) = [] /\ ca_self (an_calc a0) = is_self query).
    { unfold any_new. destruct query as [q|]; cbn [is_self rows_or].
      - destruct Hq as [Hq El]. rewrite El, Nat.eqb_refl. cbn [negb ca_new bind]. eexists. split; [reflexivity|]. cbn. repeat split; reflexivity.
      - rewrite Nat.eqb_refl. cbn [negb]. rewrite (Lhd series Hne n HR). unfold ca_new. subst b. cbn [buffer_used] in *. unfold buffer_of in *.
        destruct (Z.leb_spec (-1) (match buffer with None => Z.of_nat m / 2 | Some b => b end)%Z); [|lia].
        destruct (Z.ltb_spec (match buffer with None => Z.of_nat m / 2 | Some b => b end) (Z.of_nat n - Z.of_nat m + 1))%Z; [|lia]. cbn [andb bind]. eexists. split; [reflexivity|]. cbn. repeat split; reflexivity. }
    destruct EX as (a0 & E0 & Et & End & Em & Es & Eq & Eg & Ec & Eself).
    assert (HB : built shuffle (Z.of_nat m) series query buffer h w a0).
    { split; [exact HSH|]. split; [exact E0|]. split; [lia|]. split; [lia|]. rewrite (Lhd series Hne n HR). split; [lia|]. destruct query as [q|]; [|rewrite (Lhd series Hne n HR); lia].
      destruct Hq as [Hq El]. rewrite (Lhd q ltac:(destruct q; [destruct series; [congruence|discriminate]|discriminate]) nq Hq). lia. }
    destruct (built_fresh [] [] HB) as (b' & Hf & HP & Hs).
    assert (Hord : forall d, In d (an_order a0) -> on_matrix h w d) by exact (fr_order Hf).
    assert (Ens : ca_ns (an_calc a0) = Z.of_nat w) by exact (fr_ns Hf).
    assert (Enq : ca_nq (an_calc a0) = Z.of_nat h) by exact (fr_nq Hf).
    destruct (@mixture_total h w (an_order a0) ltac:(lia) ltac:(lia) Hord calls Hcalls) as (p & Hmix).
    exists (an_order a0), p. split; [exact HP|]. split; [exact Hmix|]. intro cns.
    assert (Hlen : length gs = length dims) by (clear - HF; induction HF; cbn; congruence).
    unfold program. rewrite E0. cbn [bind]. rewrite (@add_generators (Z.of_nat m) series query dims gs a0 End Em Es Eq Eself Lq HF), Eg, Ec. cbn [bind app].
    set (a1 := with_parts a0 (combine gs dims) []).
    assert (A1 : ca_nq (an_calc a1) = Z.of_nat h) by exact Enq. assert (A2 : ca_ns (an_calc a1) = Z.of_nat w) by exact Ens.
    pose proof (@add_consumers (Z.of_nat h) (Z.of_nat w) consumers (an_calc a1) A1 A2) as AC. clear A1 A2.
    assert (Hgens : gens_ok I (combine gs dims)).
    { intros id g d Hg. apply HI. clear - Hg. revert id dims Hg. induction gs as [|g0 gs IH]; intros [|id] [|d0 dims] Hg; try discriminate; cbn in *; [congruence|eauto]. }
    assert (Hidk : forall c0s : list C, ids_ok (combine gs dims) (combine c0s (map fst consumers))).
    { intros c0s c ids id Hin Hid. apply in_combine_r in Hin. apply in_map_iff in Hin. destruct Hin as ([ids' init] & <- & Hin). rewrite combine_length, Hlen, Nat.min_id. eapply Hids; eassumption. }
    pose proof (fun c0s : list C => (@any_mixed_at A X G C g_col g_diag c_step set_order shuffle (Z.of_nat m) series query buffer h w a0 (combine gs dims) (combine c0s (map fst consumers)) I
      (fun id => column_of h (D id)) (fun id => diagonal_of h w (D id)) calls p HB HSO (Hidk c0s) Hgens Gc Gd Hmix)) as RUN.
    rewrite Et in RUN. change (mixed_calls (fun id => column_of h (D id)) (fun id => diagonal_of h w (D id)) (is_self query) b (snd p)) with (told D h w (is_self query) b (snd p)) in RUN.
    assert (SH : forall c0s, mkAny (ca_upd (an_calc a1) (ca_gens (an_calc a1)) (ca_cons (an_calc a1) ++ combine c0s (map fst consumers)) (ca_last (an_calc a1))) (an_series a1) (an_query a1) (an_order a1) (an_total a1) (an_next a1) (an_done a1)
      = with_parts a0 (combine gs dims) (combine c0s (map fst consumers))) by (intro; reflexivity).
    assert (L12 : forall c0s : list C, Forall2 (fun ci c0 => snd ci (length (fst ci)) (Z.of_nat h) (Z.of_nat w) = Ok c0) consumers c0s ->
      forall cns', (exists cps, receive c_step (told D h w (is_self query) b (snd p)) (combine c0s (map fst consumers)) cps /\ cns' = map fst cps) <-> Forall2 (fun cc c => foldM c_step (told D h w (is_self query) b (snd p) (fst (fst cc))) (snd cc) = Ok c) (combine consumers c0s) cns').
    { clear. intros c0s HF0. induction HF0 as [|[ids init] c0 cis c0s Ei HF0 IH]; intro cns'; cbn [map combine fst snd].
      - split.
        + intros (cps & R & ->). inversion R. constructor.
        + intro R. inversion R. exists []. split; [constructor|reflexivity].
      - split.
        + intros (cps & R & ->). inversion R as [|x y l l' [R1 R2] R3]; subst. cbn [fst snd map] in *. constructor; [exact R2|]. apply IH. eauto.
        + intro R. inversion R as [|x y l l' R1 R2]; subst. cbn [fst snd] in *. apply IH in R2. destruct R2 as (cps & R2 & ->). exists ((y, ids) :: cps). split; [constructor; [split; [reflexivity|exact R1]|exact R2]|reflexivity]. }
    assert (L3 : Forall2 (fun ci c => exists c0, snd ci (length (fst ci)) (Z.of_nat h) (Z.of_nat w) = Ok c0 /\ foldM c_step (told D h w (is_self query) b (snd p) (fst ci)) c0 = Ok c) consumers cns <->
      exists c0s, Forall2 (fun ci c0 => snd ci (length (fst ci)) (Z.of_nat h) (Z.of_nat w) = Ok c0) consumers c0s /\ Forall2 (fun cc c => foldM c_step (told D h w (is_self query) b (snd p) (fst (fst cc))) (snd cc) = Ok c) (combine consumers c0s) cns).
    { clear. revert cns. induction consumers as [|ci cis IH]; intro cns; split.
      - intro H. inversion H. exists []. split; constructor.
      - intros (c0s & H1 & H2). inversion H1; subst. inversion H2. constructor.
      - intro H. inversion H as [|x c l l' (c0 & H1 & H2) H3]; subst. apply IH in H3. destruct H3 as (c0s & H3 & H4). exists (c0 :: c0s). split; [constructor; assumption|]. cbn [combine]. constructor; assumption.
      - intros (c0s & H1 & H2). inversion H1 as [|x c0 l l' H3 H4]; subst. cbn [combine] in H2. inversion H2 as [|x c k k' H5 H6]; subst. constructor; [exists c0; split; assumption|]. apply IH. eauto. }
    rewrite L3. split.
    - destruct (foldM _ consumers (an_calc a1)) as [s1|e] eqn:E1; [|discriminate]. cbn [bind]. destruct (proj1 (AC s1) eq_refl) as (c0s & HF0 & ->). rewrite SH.
      destruct (foldM _ calls _) as [a2|e] eqn:E2; [|discriminate]. cbn [bind]. intro E. injection E as <-. destruct (RUN c0s) as [R1 _]. destruct (R1 a2 E2) as (R3 & _).
      exists c0s. split; [exact HF0|]. apply L12; [exact HF0|]. eauto.
    - intros (c0s & HF0 & R). apply L12 in R; [|exact HF0]. destruct R as (cps & R & ->). destruct (RUN c0s) as [_ R2]. destruct (R2 _ R) as (a2 & E2 & E3).
      assert (E1 : foldM (fun s c => add_consumer s (fst c) (snd c)) consumers (an_calc a1) = Ok (ca_upd (an_calc a1) (ca_gens (an_calc a1)) (ca_cons (an_calc a1) ++ combine c0s (map fst consumers)) (ca_last (an_calc a1)))) by (apply AC; eauto).
      rewrite E1. cbn [bind]. rewrite SH, E2. cbn [bind]. rewrite E3. reflexivity.
  Qed.
End Program.
