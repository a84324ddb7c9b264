(** * PAttempt: proofs about what every consumer receives when generators and consumers raise *)
From Coq Require Import QArith Permutation.
From Verif Require Import Np NpFacts Mat MUtil SLog MCalc SCalc SMixed SEnd SEndAll PCalc PCalcRun MRaise SRaise PRaise PRaiseEnd SAttempt MCounters SEndCons PEndCons PMixed PCalcEnd PEnd PEndCount.
Set Implicit Arguments.
Open Scope nat_scope.

Lemma done_app p q : done (p ++ q) = done p ++ done q.
Proof. unfold done. apply flat_map_app. Qed.
Lemma diags_in_app t t' : diags_in (t ++ t') = diags_in t ++ diags_in t'.
Proof. unfold diags_in. apply flat_map_app. Qed.
Lemma cols_in_app t t' : cols_in (t ++ t') = cols_in t ++ cols_in t'.
Proof. unfold cols_in. apply flat_map_app. Qed.

Lemma list_last_split {T} (q : list T) : q = [] \/ exists q' z, q = q' ++ [z].
Proof. destruct q as [|x q]; [left; reflexivity|]. right. destruct (@exists_last _ (x :: q)) as (q' & z & E); [discriminate|]. exists q', z. exact E. Qed.

Section Attempt.
  Context {A : Type}.
  Notation num := (Np.num A).
  Variables (X G C : Type).
  Variable g_col : G -> nat -> G * res (list num).
  Variable g_diag : G -> Z -> G * res (list num).
  Variable c_step : C -> event num -> C * option exn.
  Variable set_order : list nat -> list nat.
  Notation calc := (calc G C).
  Notation any := (any X G C).

  Lemma feed_exact evs : forall c c' e, feed c_step evs c = (c', e) ->
    match e with
    | None => c' = after c_step evs c /\ forall b1 x b2, evs = b1 ++ x :: b2 -> snd (c_step (after c_step b1 c) x) = None
    | Some _ => exists n, n < length evs /\ c' = after c_step (firstn (S n) evs) c /\
        forall b1 x b2, firstn (S n) evs = b1 ++ x :: b2 -> (snd (c_step (after c_step b1 c) x) = None <-> length b1 <> n)
    end.
  Proof.
    induction evs as [|x evs IH]; intros c c' e E; cbn [feed] in E.
    - injection E as <- <-. split; [reflexivity|]. intros [|] ? ? H; discriminate.
    - destruct (c_step c x) as [c1 [y|]] eqn:Ex.
      + injection E as <- <-. exists 0. split; [cbn; lia|]. cbn [firstn]. split; [cbn; rewrite Ex; reflexivity|].
        intros [|z b1] y' b2 Hb; cbn [app] in Hb; [|destruct b1; discriminate]. injection Hb as <- _. cbn. rewrite Ex. cbn. split; [discriminate|lia].
      + specialize (IH c1 c' e E). destruct e as [e|].
        * destruct IH as (n & Hn & Hc & HS). exists (S n). split; [cbn; lia|]. split; [unfold after in *; cbn [fold_left]; cbn [firstn fold_left] in *; rewrite Ex; exact Hc|].
          intros [|z b1] y b2 Hb; change (firstn (S (S n)) (x :: evs)) with (x :: firstn (S n) evs) in Hb; cbn [app] in Hb; injection Hb as <- Hb; [cbn; rewrite Ex; cbn; split; [lia|reflexivity]|].
          unfold after. cbn [fold_left length]. rewrite Ex. specialize (HS b1 y b2 Hb). unfold after in HS. cbn [fst]. rewrite HS. lia.
        * destruct IH as (Hc & HS). split; [unfold after in *; cbn [fold_left]; rewrite Ex; exact Hc|].
          intros [|z b1] y b2 Hb; cbn [app] in Hb; injection Hb as <- Hb; [cbn; rewrite Ex; reflexivity|]. unfold after. cbn [fold_left]. rewrite Ex. exact (HS b1 y b2 Hb).
  Qed.

  (** The calls of consumer [k] *)
  Definition cut (evs : list (event num)) (k : nat) (o : outcome) : list (event num) :=
    match o with Done => evs | Raised k0 n => if k <? k0 then evs else if k =? k0 then firstn (S n) evs else [] end.

  Definition dealt (evs : list nat -> list (event num)) (o : outcome) (cns cns' : list (C * list nat)) : Prop :=
    length cns' = length cns /\
    (forall k c ids, nth_error cns k = Some (c, ids) -> nth_error cns' k = Some (after c_step (cut (evs ids) k o) c, ids) /\
      forall b1 x b2, cut (evs ids) k o = b1 ++ x :: b2 -> (snd (c_step (after c_step b1 c) x) = None <-> o <> Raised k (length b1))) /\
    (forall k n, o = Raised k n -> exists c ids, nth_error cns k = Some (c, ids) /\ n < length (evs ids)).

  Lemma deliver_exact mk dists (F : nat -> list num) : forall cns cns' e,
    (forall c ids id, In (c, ids) cns -> In id ids -> nth_error dists id = Some (F id)) ->
    deliver_x c_step mk dists cns = (cns', e) -> exists o, (o = Done <-> e = None) /\ dealt (fun ids => mk (map F ids)) o cns cns'.
  Proof.
    induction cns as [|[c ids] cns IH]; intros cns' e H E; cbn [deliver_x] in E.
    - injection E as <- <-. exists Done. split; [tauto|]. split; [reflexivity|]. split; [intros [|] ? ? Hk; discriminate|discriminate].
    - rewrite (mapM_getitem dists F) in E by (intros id Hid; eapply H; [left; reflexivity|exact Hid]). destruct (feed c_step (mk (map F ids)) c) as [c' x] eqn:Ef. pose proof (feed_exact _ _ Ef) as Hf.
      destruct x as [x|].
      + injection E as <- <-. destruct Hf as (n & Hn & Hc & HS). exists (Raised 0 n). split; [split; discriminate|]. split; [reflexivity|]. split.
        * intros [|k] c0 ids0 Hk; cbn [nth_error] in *.
          -- injection Hk as <- <-. cbn [cut Nat.ltb Nat.leb Nat.eqb]. split; [rewrite Hc; reflexivity|]. intros b1 y b2 Hb. rewrite (HS b1 y b2 Hb). split; [intros Hne He; injection He as He; lia|intros Hne He; apply Hne; congruence].
          -- cbn. split; [exact Hk|]. intros [|] ? ? Hb; discriminate.
        * intros k n' Er. injection Er as <- <-. exists c, ids. split; [reflexivity|exact Hn].
      + destruct Hf as (Hc & HS). destruct (deliver_x c_step mk dists cns) as [r y] eqn:Er. injection E as <- <-.
        destruct (IH r y ltac:(intros; eapply H; [right; eassumption|assumption]) eq_refl) as (o & Ho & L & D1 & D2).
        exists (match o with Done => Done | Raised k n => Raised (S k) n end). split; [destruct o; [exact Ho|split; [discriminate|intro Hy; destruct Ho as [_ Ho]; discriminate (Ho Hy)]]|].
        split; [cbn; lia|]. split.
        * intros [|k] c0 ids0 Hk; cbn [nth_error] in *.
          -- injection Hk as <- <-. assert (Ec : cut (mk (map F ids)) 0 (match o with Done => Done | Raised k n => Raised (S k) n end) = mk (map F ids)) by (destruct o; reflexivity). rewrite Ec. split; [rewrite Hc; reflexivity|].
             intros b1 z b2 Hb. rewrite (HS b1 z b2 Hb). split; [intros _; destruct o; discriminate|reflexivity].
          -- destruct (D1 k c0 ids0 Hk) as [K1 K2]. assert (Ec : cut (mk (map F ids0)) (S k) (match o with Done => Done | Raised k n => Raised (S k) n end) = cut (mk (map F ids0)) k o) by (destruct o; reflexivity). rewrite Ec. split; [exact K1|].
             intros b1 z b2 Hb. rewrite (K2 b1 z b2 Hb). destruct o as [|k1 n1]; [split; discriminate|]. split; intros Hne He; apply Hne; injection He; intros; subst; reflexivity.
        * intros k n Hk. destruct o as [|k1 n1]; [discriminate|]. injection Hk as <- <-. destruct (D2 k1 n1 eq_refl) as (c1 & ids1 & Hk & Hn). exists c1, ids1. split; [exact Hk|exact Hn].
  Qed.

  Hypothesis HSO : orders_sets set_order.
  Variables (I : nat -> G -> Prop) (Fc : nat -> nat -> list num) (Fd : nat -> Z -> list num) (h w : nat).
  Hypothesis HGc : may_give g_col I Fc (fun c => c < w) (fun _ => h).
  Hypothesis HGd : may_give g_diag I Fd (on_matrix h w) (fun d => Z.to_nat (dlen h w d)).

  Section Inv.
    Variables (ac : any) (go nocols nodiags : Prop).
    Let cs := ca_cons (an_calc ac).
    Let self := ca_self (an_calc ac).
    Let tmb := ca_tmb (an_calc ac).
    Let order := an_order ac.
    Hypothesis Hids : ids_ok (ca_gens (an_calc ac)) cs.
    Hypothesis Hns : ca_ns (an_calc ac) = Z.of_nat w.
    Hypothesis Hnq : ca_nq (an_calc ac) = Z.of_nat h.
    Hypothesis Htmb : (-1 <= tmb)%Z.
    Hypothesis Horder : forall d, In d order -> on_matrix h w d.

    Notation got_all := (got_all Fc Fd self tmb).
    Definition hist (next : nat) (last : Z) (ats : list attempt) (cns : list (C * list nat)) : Prop :=
      length cns = length cs /\ (forall k c ids, nth_error cs k = Some (c, ids) -> nth_error cns k = Some (after c_step (got_all k ids ats) c, ids)) /\
      (forall p a q, ats = p ++ a :: q -> explained c_step Fc Fd self tmb cs p a /\ in_turn w order go p (fst a)) /\
      diags_in (done ats) = firstn next order /\ (go -> (last + 1)%Z = Z.of_nat (length (cols_in (done ats)))) /\
      (nocols -> Forall (fun a => is_diags (fst a)) ats) /\ (nodiags -> Forall (fun a => is_cols (fst a)) ats).

    Lemma hist_in next last ats cns k c ids : hist next last ats cns -> nth_error cns k = Some (c, ids) -> exists c0, nth_error cs k = Some (c0, ids) /\ c = after c_step (got_all k ids ats) c0.
    Proof.
      intros (L & H & _) Hk. destruct (@nth_error_lt_some _ cs k) as [[c0 ids0] H0]; [apply nth_error_some_lt in Hk; lia|]. rewrite (H _ _ _ H0) in Hk. injection Hk as <- <-. eauto.
    Qed.

    Lemma hist_ids next last ats cns : hist next last ats cns -> map snd cns = map snd cs.
    Proof.
      intro H. apply nth_error_ext. intro k. rewrite !nth_error_map. destruct (nth_error cns k) as [[c ids]|] eqn:E.
      - destruct (hist_in _ H E) as (c0 & -> & _). reflexivity.
      - rewrite (proj2 (nth_error_None cs k)); [reflexivity|]. apply nth_error_None in E. destruct H as [L _]. lia.
    Qed.

    Lemma hist_step next last next' last' ats cns cns' x o (evs : list nat -> list (event num)) : hist next last ats cns -> dealt evs o cns cns' ->
      (forall ids, evs ids = part_calls Fc Fd self tmb x ids) -> in_turn w order go ats x ->
      (nocols -> is_diags x) -> (nodiags -> is_cols x) ->
      firstn next' order = firstn next order ++ diags_in (done [(x, o)]) -> (go -> (last' = last + Z.of_nat (length (cols_in (done [(x, o)]))))%Z) ->
      hist next' last' (ats ++ [(x, o)]) cns'.
    Proof.
      intros HH (D0 & D1 & D2) Hev HT Hnc Hnd Hd Hl. pose proof HH as (L & H1 & H2 & H3 & H4 & H5 & H6).
      assert (Hcut : forall k ids, cut (evs ids) k o = got Fc Fd self tmb k ids (x, o)) by (intros k ids; rewrite Hev; reflexivity).
      split; [lia|]. split; [|split; [|split; [|split; [|split]]]].
      - intros k c ids Hk. destruct (D1 k _ _ (H1 k c ids Hk)) as [E _]. rewrite E, Hcut. do 2 f_equal. unfold SAttempt.got_all. rewrite flat_map_app. cbn [flat_map]. rewrite app_nil_r. unfold after. rewrite fold_left_app. reflexivity.
      - intros p a q Ep. destruct (list_last_split q) as [->|(q' & z & ->)].
        + apply app_inj_tail in Ep. destruct Ep as [<- <-]. split; [|exact HT]. split.
          * intros k n Hk. cbn [snd fst] in *. destruct (D2 k n Hk) as (c & ids & Ec & Hn). destruct (hist_in _ HH Ec) as (c0 & E0 & _). exists c0, ids. split; [exact E0|]. rewrite <- Hev. exact Hn.
          * intros k c ids b1 e b2 Hk Hg. cbn [snd]. destruct (D1 k _ _ (H1 k c ids Hk)) as [_ E]. rewrite Hcut in E. specialize (E b1 e b2 Hg). unfold after in *. rewrite fold_left_app. exact E.
        + change (p ++ a :: q' ++ [z]) with (p ++ (a :: q') ++ [z]) in Ep. rewrite app_assoc in Ep. apply app_inj_tail in Ep. destruct Ep as [Ep _]. exact (H2 p a q' Ep).
      - rewrite done_app, diags_in_app, H3, Hd. reflexivity.
      - intro Hg. rewrite done_app, cols_in_app, app_length. specialize (H4 Hg). specialize (Hl Hg). lia.
      - intro Hn. apply Forall_app. split; [auto|]. constructor; [cbn; auto|constructor].
      - intro Hn. apply Forall_app. split; [auto|]. constructor; [cbn; auto|constructor].
    Qed.

    Definition einv (next : nat) (s : calc) : Prop :=
      same_conf (an_calc ac) s /\ gens_ok I (ca_gens s) /\ length (ca_gens s) = length (ca_gens (an_calc ac)) /\ (-1 <= ca_last s)%Z /\ exists ats, hist next (ca_last s) ats (ca_cons s).
    Definition dinv (L : nat) (dists : list (list num)) : Prop := length dists = length (ca_gens (an_calc ac)) /\ forall row, In row dists -> length row = L.

    Lemma needed_ids N next last ats cns : N = needed set_order (an_calc ac) -> hist next last ats cns -> forall c ids id, In (c, ids) cns -> In id ids -> In id N.
    Proof.
      intros -> HT c ids id Hc Hid. destruct (@needed_spec G C set_order HSO (ca_gens (an_calc ac)) (an_calc ac) Hids) as (_ & _ & N3).
      assert (Hin : In ids (map snd cs)) by (rewrite <- (hist_ids HT); apply in_map_iff; exists (c, ids); auto). apply in_map_iff in Hin. destruct Hin as ([c1 ids1] & E1 & Hin). cbn [snd] in E1. subst ids1. eapply N3; eassumption.
    Qed.

    Lemma col_step_exact next s dists c s' dists' e : c < w -> ~ nocols -> (go -> Z.of_nat c = ca_last s + 1)%Z -> einv next s -> dinv h dists ->
      col_step_x g_col c_step (needed set_order (an_calc ac)) h (s, dists) (Z.of_nat c) = (s', dists', e) ->
      einv next s' /\ dinv h dists' /\ (e = None -> ca_last s' = Z.max (Z.of_nat c) (ca_last s)).
    Proof.
      intros Hc Hnc Hd (J1 & J2 & J3 & J4 & ats & J5) (D1 & D2) E. unfold col_step_x in E. cbn [fst snd] in E. rewrite Nat2Z.id in E.
      destruct (run_gens_x _ h _ (ca_gens s) dists) as [[gens ds] x] eqn:Eg. destruct (@needed_spec G C set_order HSO (ca_gens (an_calc ac)) (an_calc ac) Hids) as (N1 & N2 & _).
      eapply (@run_gens_x_ok A G I (fun g => g_col g c) (fun id => Fc id c) h h) in Eg; [|lia|intros id g Hg; exact (HGc Hg Hc)|exact N1|exact J2|lia|exact D2]. destruct Eg as (G1 & G2 & G3 & G4 & G5).
      assert (Conf : forall cns last, same_conf (an_calc ac) (ca_upd s gens cns last)) by (intros; exact J1). destruct x as [x|].
      - injection E as <- <- <-. split; [|split; [split; [lia|exact G4]|discriminate]]. split; [apply Conf|]. split; [exact G1|]. split; [cbn; lia|]. split; [exact J4|exists ats; exact J5].
      - destruct (G5 eq_refl) as [G6 _]. assert (Et : ca_tmb s = tmb) by apply J1. rewrite Et in E.
        assert (DM : dinv h (mask_column tmb (Z.of_nat c) ds)).
        { unfold mask_column. split; [destruct (0 <=? tmb)%Z; [rewrite map_length|]; lia|]. destruct (0 <=? tmb)%Z; [|exact G4]. intros row Hr. apply in_map_iff in Hr. destruct Hr as (r0 & <- & Hr0). rewrite length_fill_slice. auto. }
        assert (HD : forall c0 ids id, In (c0, ids) (ca_cons s) -> In id ids -> nth_error (mask_column tmb (Z.of_nat c) ds) id = Some (hide tmb c (Fc id c))).
        { intros c0 ids id Hc0 Hid. destruct (G6 id (needed_ids eq_refl J5 _ _ _ Hc0 Hid)) as (row & Hrow & Hf). rewrite firstn_all2 in Hf by (rewrite (G4 row); [lia|eapply nth_error_In; exact Hrow]). subst row.
          rewrite <- (hide_mask c (Fc id c) Htmb). unfold mask_column. destruct (0 <=? tmb)%Z; [rewrite nth_error_map|]; rewrite Hrow; reflexivity. }
        destruct (deliver_x c_step _ _ (ca_cons s)) as [cns y] eqn:Ed. destruct (@deliver_exact (fun vals => [ECol c vals]) _ (fun id => hide tmb c (Fc id c)) _ _ _ HD Ed) as (o & Ho & HF).
        assert (HT : in_turn w order go ats (PCols c 1)). { split; [reflexivity|]. split; [exact Hc|]. intro Hg. destruct J5 as (_ & _ & _ & _ & K & _). specialize (K Hg). specialize (Hd Hg). lia. }
        assert (Hev : forall ids, [ECol c (map (fun id => hide tmb c (Fc id c)) ids)] = part_calls Fc Fd self tmb (PCols c 1) ids) by reflexivity.
        destruct y as [y|]; injection E as <- <- <-; (split; [|split; [exact DM|cbn; auto; discriminate]]); (split; [apply Conf|]; split; [exact G1|]; split; [cbn; lia|]; split; [cbn; lia|]); cbn [ca_upd ca_cons ca_last]; exists (ats ++ [(PCols c 1, o)]);
          eapply hist_step; try exact J5; try exact HF; try exact Hev; try exact HT; try (intros; exact Logic.I); try (intro; contradiction).
        + destruct o; [destruct Ho as [Ho _]; discriminate (Ho eq_refl)|]. cbn. rewrite app_nil_r. reflexivity.
        + destruct o; [destruct Ho as [Ho _]; discriminate (Ho eq_refl)|]. cbn. lia.
        + destruct Ho as [_ Ho]. rewrite (Ho eq_refl). cbn. rewrite app_nil_r. reflexivity.
        + destruct Ho as [_ Ho]. rewrite (Ho eq_refl). intro Hg. specialize (Hd Hg). cbn. lia.
    Qed.

    Lemma col_loop_exact next upto intr : upto <= w -> ~ nocols -> forall fuel k c st st' e, (go -> c < upto -> (Z.of_nat c = ca_last (fst st) + 1)%Z) -> einv next (fst st) -> dinv h (snd st) ->
      col_loop_x g_col c_step fuel intr k (needed set_order (an_calc ac)) h (Z.of_nat c) (Z.of_nat upto) st = (st', e) -> einv next (fst st').
    Proof.
      intros Hu Hnc. induction fuel as [|fuel IH]; intros k c [s dists] st' e Hd HC HD E; cbn [col_loop_x] in E; [injection E as <- <-; exact HC|].
      destruct (Z.of_nat c <? Z.of_nat upto)%Z eqn:Ec; cbn [andb] in E; [|injection E as <- <-; exact HC]. apply Z.ltb_lt in Ec. destruct (negb (intr k)); [|injection E as <- <-; exact HC].
      destruct (col_step_x g_col c_step _ h (s, dists) (Z.of_nat c)) as [[s1 d1] x] eqn:Es. cbn [fst snd] in *. assert (Hcu : c < upto) by lia. destruct (@col_step_exact next s dists c s1 d1 x ltac:(lia) Hnc (fun Hg => Hd Hg Hcu) HC HD Es) as (H1 & H2 & H3).
      destruct x as [x|]; [injection E as <- <-; exact H1|]. replace (Z.of_nat c + 1)%Z with (Z.of_nat (S c)) in E by lia. eapply IH; [| | |exact E]; [|exact H1|exact H2]. intros Hg _. cbn [fst]. rewrite (H3 eq_refl). specialize (Hd Hg Hcu). lia.
    Qed.

    Definition xinv (a : any) : Prop := einv (an_next a) (an_calc a) /\ an_order a = order /\ an_next a <= length order.

    Lemma needed_same (s : calc) : map snd (ca_cons s) = map snd cs -> needed set_order s = needed set_order (an_calc ac).
    Proof. intro H. unfold needed. rewrite H. reflexivity. Qed.

    Lemma any_columns_exact intr (a : any) start upto : ~ nocols -> xinv a -> (go -> start = None) -> xinv (fst (any_columns_x g_col c_step set_order intr a start upto)).
    Proof.
      intros Hnc (HC & H1 & H3) Hs. unfold any_columns_x, calculate_columns_x. pose proof HC as (J1 & J2 & J3 & J4 & ats & J5). assert (Ens : ca_ns (an_calc a) = Z.of_nat w) by (rewrite <- Hns; apply J1). assert (Enq : ca_nq (an_calc a) = Z.of_nat h) by (rewrite <- Hnq; apply J1). rewrite Ens, Enq.
      destruct (ratio_to_int (match start with None => _ | Some _ => _ end) _ _) as [c|e] eqn:E1; cbn [bind]; [|exact (conj HC (conj H1 H3))].
      destruct (ratio_to_int upto _ _) as [u|e] eqn:E2; cbn [bind]; [|exact (conj HC (conj H1 H3))]. destruct (Z.of_nat h <? 0)%Z eqn:E3; [apply Z.ltb_lt in E3; lia|]. cbn [bind].
      rewrite (needed_same (an_calc a) (hist_ids J5)), Nat2Z.id.
      assert (B : forall r x, ratio_to_int r (Z.of_nat w) (Z.of_nat w) = Ok x -> (0 <= x <= Z.of_nat w)%Z) by (intros [z|[| |q|]|] x Ex; cbn in Ex; try discriminate; [injection Ex as <-; lia|destruct (_ || _); [discriminate|]; injection Ex as <-; lia]).
      pose proof (B _ _ E1) as B1. pose proof (B _ _ E2) as B2. rewrite <- (Z2Nat.id c), <- (Z2Nat.id u) by lia.
      match goal with |- context [col_loop_x _ _ ?f intr 0 ?ids ?r ?c' ?u' ?st] => destruct (col_loop_x g_col c_step f intr 0 ids r c' u' st) as [st' e] eqn:El end.
      cbn [fst snd]. split; [|split; [exact H1|exact H3]]. cbn [an_next an_calc].
      eapply (@col_loop_exact (an_next a) (Z.to_nat u) intr); [lia|exact Hnc| | | |exact El]; cbn [fst snd].
      - intros HD Hcu. specialize (Hs HD). subst start. cbn in E1. injection E1 as <-. lia.
      - exact HC.
      - split; [rewrite repeat_length; exact J3|]. intros row Hr. apply repeat_spec in Hr. subst row. apply repeat_length.
    Qed.

    Lemma diag_step_exact st st' e : ~ nodiags -> xinv (fst st) -> dinv (Nat.min h w) (snd st) -> diag_step_x g_diag c_step (needed set_order (an_calc ac)) st = (st', e) ->
      xinv (fst st') /\ dinv (Nat.min h w) (snd st').
    Proof.
      intro Hnd. destruct st as [a dists]. cbn [fst snd]. intros HI HDv E. pose proof HI as ((J1 & J2 & J3 & J4 & ats & J5) & H1 & H3). destruct HDv as (D1 & D2). unfold diag_step_x in E. cbn [fst snd] in E.
      unfold getitem in E. rewrite H1 in E. destruct (nth_error order (an_next a)) as [d|] eqn:En; [|injection E as <- <-; split; [exact HI|split; assumption]].
      assert (Hin := nth_error_In _ _ En). assert (Ens : ca_ns (an_calc a) = Z.of_nat w) by (rewrite <- Hns; apply J1). assert (Enq : ca_nq (an_calc a) = Z.of_nat h) by (rewrite <- Hnq; apply J1). rewrite Ens, Enq, (@dlen_length h w d (Horder _ Hin)) in E.
      set (n := Z.to_nat (dlen h w d)) in *. assert (HnL : n <= Nat.min h w) by (unfold n, dlen; lia).
      destruct (run_gens_x _ n _ (ca_gens (an_calc a)) dists) as [[gens ds] x] eqn:Eg. destruct (@needed_spec G C set_order HSO (ca_gens (an_calc ac)) (an_calc ac) Hids) as (N1 & N2 & _).
      eapply (@run_gens_x_ok A G I (fun g => g_diag g d) (fun id => Fd id d) n (Nat.min h w)) in Eg; [|exact HnL|intros id g Hg; exact (HGd Hg (Horder _ Hin))|exact N1|exact J2|lia|exact D2]. destruct Eg as (G1 & G2 & G3 & G4 & G5).
      assert (DD : dinv (Nat.min h w) ds) by (split; [lia|exact G4]).
      assert (Eself : ca_self (an_calc a) = self) by apply J1. rewrite Eself in E. destruct x as [x|].
      - injection E as <- <-. split; [|exact DD]. split; [|split; [reflexivity|exact H3]]. split; [exact J1|]. split; [exact G1|]. split; [cbn; lia|]. split; [exact J4|exists ats; exact J5].
      - destruct (G5 eq_refl) as [G6 _].
        assert (HD : forall c0 ids id, In (c0, ids) (ca_cons (an_calc a)) -> In id ids -> nth_error (map (firstn n) ds) id = Some (Fd id d)).
        { intros c0 ids id Hc0 Hid. destruct (G6 id (needed_ids eq_refl J5 _ _ _ Hc0 Hid)) as (row & Hrow & Hf). rewrite nth_error_map, Hrow. cbn [option_map]. congruence. }
        destruct (deliver_x c_step _ _ (ca_cons (an_calc a))) as [cns y] eqn:Ed. destruct (@deliver_exact (diag_calls self d) _ (fun id => Fd id d) _ _ _ HD Ed) as (o & Ho & HF).
        assert (Hev : forall ids, diag_calls self d (map (fun id => Fd id d) ids) = part_calls Fc Fd self tmb (PDiags [d]) ids) by (intro ids; unfold part_calls, diagonal_calls, diag_calls; cbn [flat_map]; rewrite app_nil_r; reflexivity).
        assert (HT : in_turn w order go ats (PDiags [d])). { exists d. split; [reflexivity|]. destruct J5 as (_ & _ & _ & K & _). rewrite K, firstn_length, Nat.min_l by exact H3. exact En. }
        destruct y as [y|]; injection E as <- <-; (split; [|exact DD]); (split; [split; [exact J1|]; split; [exact G1|]; split; [cbn; lia|]; split; [exact J4|]; cbn [an_calc an_next ca_upd ca_cons ca_last]; exists (ats ++ [(PDiags [d], o)]);
          eapply hist_step; try exact J5; try exact HF; try exact Hev; try exact HT; try (intros; exact Logic.I); try (intro; contradiction)|split; [reflexivity|]]).
        + destruct o; [destruct Ho as [Ho _]; discriminate (Ho eq_refl)|]. cbn. rewrite app_nil_r. reflexivity.
        + destruct o; cbn; lia.
        + exact H3.
        + destruct Ho as [_ Ho]. rewrite (Ho eq_refl). cbn [done flat_map snd fst app diags_in]. apply firstn_S_nth. exact En.
        + destruct o; cbn; lia.
        + cbn [fst an_next]. apply nth_error_some_lt in En. lia.
    Qed.

    Lemma diag_loop_exact v intr : ~ nodiags -> forall fuel k st st' e, xinv (fst st) -> dinv (Nat.min h w) (snd st) ->
      diag_loop_x g_diag c_step fuel intr k (needed set_order (an_calc ac)) v st = (st', e) -> xinv (fst st').
    Proof.
      intro Hnd. induction fuel as [|fuel IH]; intros k st st' e HI HD E; cbn [diag_loop_x] in E; [injection E as <- <-; exact HI|].
      destruct ((an_done (fst st) <? v)%Z && negb (intr k)); [|injection E as <- <-; exact HI].
      destruct (diag_step_x g_diag c_step _ st) as [st1 x] eqn:Es. destruct (diag_step_exact _ Hnd HI HD Es) as [H1 H2]. destruct x as [x|]; [injection E as <- <-; exact H1|]. eapply IH; [exact H1|exact H2|exact E].
    Qed.

    Lemma any_diagonals_exact intr a partial : ~ nodiags -> xinv a -> xinv (fst (calculate_diagonals_x g_diag c_step set_order intr a partial)).
    Proof.
      intros Hnd HI. pose proof HI as ((J1 & J2 & J3 & J4 & ats & J5) & H1 & H3). unfold calculate_diagonals_x. assert (Ens : ca_ns (an_calc a) = Z.of_nat w) by (rewrite <- Hns; apply J1). assert (Enq : ca_nq (an_calc a) = Z.of_nat h) by (rewrite <- Hnq; apply J1). rewrite Ens, Enq.
      destruct (_ <? 0)%Z eqn:E0; [apply Z.ltb_lt in E0; lia|]. destruct (ratio_to_int partial _ _) as [v|x] eqn:Ev; [|exact HI].
      rewrite (needed_same (an_calc a) (hist_ids J5)). match goal with |- context [diag_loop_x _ _ ?f intr 0 ?ids v ?st] => destruct (diag_loop_x g_diag c_step f intr 0 ids v st) as [st' x] eqn:El end.
      cbn [fst snd]. eapply diag_loop_exact; [exact Hnd| | |exact El]; [exact HI|].
      split; [cbn [snd]; rewrite repeat_length; exact J3|]. intros row Hr. cbn [snd] in Hr. apply repeat_spec in Hr. subst row. rewrite repeat_length. lia.
    Qed.

    Lemma persist_exact calls : forall a, xinv a -> (go -> Forall from_last calls) -> (nocols -> Forall diags_call calls) -> (nodiags -> Forall cols_call calls) -> xinv (persist g_col g_diag c_step set_order calls a).
    Proof.
      unfold persist. induction calls as [|call calls IH]; intros a HI HD HN1 HN2; cbn [fold_left]; [exact HI|]. apply IH.
      - destruct call as [intr start upto|intr partial]; cbn [any_call_x].
        + apply any_columns_exact; [intro Hn; specialize (HN1 Hn); inversion HN1; subst; assumption|exact HI|]. intro Hd. specialize (HD Hd). inversion HD; subst. assumption.
        + apply any_diagonals_exact; [intro Hn; specialize (HN2 Hn); inversion HN2; subst; assumption|exact HI].
      - intro Hd. specialize (HD Hd). inversion HD; subst. assumption.
      - intro Hd. specialize (HN1 Hd). inversion HN1; subst. assumption.
      - intro Hd. specialize (HN2 Hd). inversion HN2; subst. assumption.
    Qed.
  End Inv.
End Attempt.

Section Whole.
  Context {A : Type}.
  Notation num := (Np.num A).
  Variable C : Type.
  Variable c_step : C -> event num -> C * option exn.
  Variables (Fc : nat -> nat -> list num) (Fd : nat -> Z -> list num) (self : bool) (tmb : Z) (w : nat) (order : list Z) (go : Prop) (cs : list (C * list nat)).
  Variable ats : list attempt.
  Hypothesis HA : forall p a q, ats = p ++ a :: q -> explained c_step Fc Fd self tmb cs p a /\ in_turn w order go p (fst a).

  Lemma turn_proper p x : in_turn w order go p x -> proper_part w order x.
  Proof. destruct x as [j n|ds]; cbn; [intros (-> & H & _); auto|]. intros (d & -> & H). exists d. split; [reflexivity|]. eapply nth_error_In, H. Qed.

  Lemma ats_proper a : In a ats -> proper_part w order (fst a).
  Proof. intro H. apply in_split in H. destruct H as (p & q & E). eapply turn_proper, (HA _ _ _ E). Qed.

  Lemma complete_for_app k p q : complete_for k (p ++ q) = complete_for k p ++ complete_for k q.
  Proof. apply flat_map_app. Qed.

  Lemma complete_in k p x : In x (complete_for k p) -> exists o, In (x, o) p.
  Proof.
    unfold complete_for. rewrite in_flat_map. intros ([y o] & Hin & Hx). cbn [fst snd] in Hx. exists o. destruct o as [|k0 n]; [|destruct (k <? k0); [|destruct Hx]]; destruct Hx as [<-|[]]; exact Hin.
  Qed.

  Lemma complete_proper k p q : ats = p ++ q -> Forall (proper_part w order) (complete_for k p).
  Proof. intro E. apply Forall_forall. intros x Hx. destruct (complete_in _ _ _ Hx) as [o Ho]. change x with (fst (x, o)). apply ats_proper. rewrite E. apply in_or_app. left. exact Ho. Qed.

  Variables (k : nat) (c : C) (ids : list nat).
  Hypothesis Hk : nth_error cs k = Some (c, ids).
  Hypothesis Hc : never_raises c_step Fc Fd self tmb w order ids c.
  Notation got_all := (got_all Fc Fd self tmb k ids).
  Notation mixed t := (mixed_calls Fc Fd self tmb t ids).

  Lemma whole_parts p : forall q, ats = p ++ q -> got_all p = mixed (complete_for k p) /\ (forall x n, ~ In (x, Raised k n) p).
  Proof.
    induction p as [|a p IH] using rev_ind; intros q E; [split; [reflexivity|intros x n []]|].
    rewrite <- app_assoc in E. cbn [app] in E. destruct (IH _ E) as [E1 E2]. destruct (HA _ _ _ E) as [[H1 H2] H3].
    assert (Hr : forall n, snd a <> Raised k n).
    { intros n Ea. destruct (H1 k n Ea) as (c1 & ids1 & Hk1 & Hn). rewrite Hk in Hk1. injection Hk1 as <- <-.
      set (calls := part_calls Fc Fd self tmb (fst a) ids) in *. destruct (nth_error calls n) as [e|] eqn:En; [|apply nth_error_None in En; lia].
      destruct (nth_error_split _ _ En) as (b1 & b2 & Eb & Lb).
      assert (Hg : got Fc Fd self tmb k ids a = b1 ++ e :: []).
      { unfold got. rewrite Ea, Nat.ltb_irrefl, Nat.eqb_refl. fold calls. rewrite Eb. replace (S n) with (length (b1 ++ [e])) by (rewrite app_length; cbn; lia). change (b1 ++ e :: b2) with (b1 ++ [e] ++ b2). rewrite app_assoc, firstn_app, firstn_all, Nat.sub_diag. cbn [firstn]. apply app_nil_r. }
      destruct (H2 k c ids b1 e [] Hk Hg) as [K _]. apply K; [|congruence]. rewrite E1. eapply Hc; [|exact Eb]. apply Forall_app. split; [eapply complete_proper; exact E|constructor; [eapply turn_proper, H3|constructor]]. }
    split.
    - unfold SAttempt.got_all in *. rewrite flat_map_app, E1, complete_for_app. unfold mixed_calls. rewrite flat_map_app. f_equal. cbn [flat_map]. rewrite app_nil_r. unfold complete_for, got. cbn [flat_map]. rewrite app_nil_r.
      destruct (snd a) as [|k0 n] eqn:Ea; [cbn [flat_map]; rewrite app_nil_r; reflexivity|]. destruct (k <? k0); [cbn [flat_map]; rewrite app_nil_r; reflexivity|]. destruct (Nat.eqb_spec k k0); [subst; destruct (Hr n eq_refl)|reflexivity].
    - intros x n Hin. apply in_app_or in Hin. destruct Hin as [Hin|[->|[]]]; [exact (E2 x n Hin)|exact (Hr n eq_refl)].
  Qed.
End Whole.

Lemma complete_done k ats : (forall x k0 n, In (x, Raised k0 n) ats -> k0 <= k) -> complete_for k ats = done ats.
Proof.
  unfold complete_for, done. induction ats as [|[x o] ats IH]; intro H; [reflexivity|]. cbn [flat_map fst snd]. rewrite IH by (intros; eapply H; right; eassumption). f_equal.
  destruct o as [|k0 n]; [reflexivity|]. specialize (H x k0 n (or_introl eq_refl)). destruct (Nat.ltb_spec k k0); [lia|reflexivity].
Qed.

Lemma only_diag_parts {A} (Fc : nat -> nat -> list (Np.num A)) Fd self tmb ids t : Forall is_diags t -> mixed_calls Fc Fd self tmb t ids = diagonal_calls Fd self (diags_in t) ids.
Proof.
  unfold mixed_calls, diagonal_calls, diags_in. induction t as [|x t IH]; intro H; [reflexivity|]. inversion H; subst. cbn [flat_map]. rewrite flat_map_app, IH by assumption. destruct x; [contradiction|reflexivity].
Qed.
Lemma only_col_parts {A} (Fc : nat -> nat -> list (Np.num A)) Fd self tmb ids t : Forall is_cols t -> mixed_calls Fc Fd self tmb t ids = map (fun j => ECol j (map (fun id => hide tmb j (Fc id j)) ids)) (cols_in t).
Proof.
  unfold mixed_calls, cols_in. induction t as [|x t IH]; intro H; [reflexivity|]. inversion H; subst. cbn [flat_map]. rewrite map_app, IH by assumption. destruct x; [reflexivity|contradiction].
Qed.

Lemma done_in ats x : In x (done ats) -> In (x, Done) ats.
Proof. unfold done. rewrite in_flat_map. intros ([y o] & Hin & Hx). cbn [fst snd] in Hx. destruct o; [destruct Hx as [<-|[]]; exact Hin|destruct Hx]. Qed.

(** Columns in turn *)
Lemma cols_in_turn w order ats : (forall p a q, ats = p ++ a :: q -> in_turn w order True p (fst a)) -> cols_in (done ats) = seq 0 (length (cols_in (done ats))).
Proof.
  induction ats as [|a ats IH] using rev_ind; intro H; [reflexivity|].
  assert (IH' : cols_in (done ats) = seq 0 (length (cols_in (done ats)))).
  { apply IH. intros p b q E. apply (H p b (q ++ [a])). rewrite E, <- app_assoc. reflexivity. }
  specialize (H ats a [] eq_refl). rewrite done_app, cols_in_app, app_length, seq_app, <- IH'. f_equal. destruct a as [x o]. unfold done. cbn [flat_map fst snd] in *. rewrite app_nil_r. destruct o; [|reflexivity].
  unfold cols_in. cbn [flat_map]. rewrite app_nil_r. destruct x as [j n|ds]; [|reflexivity]. destruct H as (-> & _ & H). cbn [seq length]. rewrite (H Logic.I). reflexivity.
Qed.

Section Built.
  Context {A : Type}.
  Notation num := (Np.num A).
  Variables (X G C : Type).
  Variable g_col : G -> nat -> G * res (list num).
  Variable g_diag : G -> Z -> G * res (list num).
  Variable c_step : C -> event num -> C * option exn.
  Variable set_order : list nat -> list nat.
  Hypothesis HSO : orders_sets set_order.
  Variables (shuffle : list Z -> list Z) (m : Z) (series : list (list X)) (query : option (list (list X))) (buffer : option Z) (h w : nat) (a0 : any X G C).
  Variables (gens : list (G * nat)) (cs : list (C * list nat)) (I : nat -> G -> Prop) (Fc : nat -> nat -> list num) (Fd : nat -> Z -> list num).
  Hypothesis HB : built shuffle m series query buffer h w a0.
  Hypothesis Hids : ids_ok gens cs.
  Hypothesis Hgens : gens_ok I gens.
  Hypothesis HGc : may_give g_col I Fc (fun c => c < w) (fun _ => h).
  Hypothesis HGd : may_give g_diag I Fd (on_matrix h w) (fun d => Z.to_nat (dlen h w d)).
  Notation ac := (with_parts a0 gens cs).

  Lemma persist_attempts calls : let a := persist g_col g_diag c_step set_order calls ac in let b := buffer_used query m buffer in let self := is_self query in let order := an_order a0 in
    exists ats, tells c_step Fc Fd self b w order (Forall from_last calls) cs (ca_cons (an_calc a)) ats /\
      diags_in (done ats) = firstn (an_next a) order /\ (Forall from_last calls -> cols_in (done ats) = seq 0 (Z.to_nat (ca_last (an_calc a) + 1))) /\
      (Forall diags_call calls -> Forall (fun x => is_diags (fst x)) ats) /\ (Forall cols_call calls -> Forall (fun x => is_cols (fst x)) ats).
  Proof.
    destruct (built_fresh gens cs HB) as (b' & Hf & _ & _). pose proof (built_buffer HB) as Eb. destruct Hf.
    assert (Hx : xinv c_step I Fc Fd w ac (Forall from_last calls) (Forall diags_call calls) (Forall cols_call calls) (persist g_col g_diag c_step set_order calls ac)).
    { apply (@persist_exact A X G C g_col g_diag c_step set_order HSO I Fc Fd h w HGc HGd ac (Forall from_last calls) (Forall diags_call calls) (Forall cols_call calls)); auto; [lia|].
      unfold xinv, einv. rewrite fr_next, fr_last. split; [|split; [reflexivity|lia]]. split; [unfold same_conf; repeat split; reflexivity|]. split; [exact Hgens|]. split; [reflexivity|]. split; [lia|].
      exists []. split; [reflexivity|]. split; [intros k c ids Hk; exact Hk|]. split; [intros [|] ? ? E; discriminate|]. split; [reflexivity|]. split; [intros _; cbn; lia|]. split; intros _; constructor. }
    destruct Hx as ((_ & _ & _ & _ & ats & L & H1 & H2 & H3 & H4 & H5 & H6) & _). intros a b self order. fold a in L, H1, H2, H3, H4, H5, H6. exists ats.
    change (ca_self (an_calc ac)) with (ca_self (an_calc a0)) in *. change (ca_tmb (an_calc ac)) with (ca_tmb (an_calc a0)) in *. change (an_order ac) with (an_order a0) in *. change (ca_cons (an_calc ac)) with cs in *.
    rewrite fr_self, Eb in *. split; [split; [exact L|split; [exact H1|exact H2]]|]. split; [exact H3|]. split; [|auto].
    intro Hg. specialize (H4 Hg). replace (Z.to_nat (ca_last (an_calc a) + 1)) with (length (cols_in (done ats))) by lia. apply (@cols_in_turn w (an_order a0)).
    intros p x q E. destruct (H2 p x q E) as [_ HT]. destruct (fst x); cbn in *; [|exact HT]. destruct HT as (T1 & T2 & T3). auto.
  Qed.

  (** The calculated diagonals *)
  Lemma built_order d : In d (an_order a0) -> on_matrix h w d /\ (buffer_used query m buffer < Z.abs d)%Z /\ (is_self query = true -> 0 <= d)%Z.
  Proof.
    destruct (built_fresh gens cs HB) as (b' & Hf & HP & Hq). intro Hd. split; [exact (fr_order Hf _ Hd)|]. pose proof (fr_tmb Hf) as E1. pose proof (fr_b Hf) as E2. cbn in E1. rewrite (built_buffer HB) in E1.
    apply (Permutation_in d HP) in Hd. unfold diagonals in Hd. apply in_pyrange in Hd. destruct query; cbn [buffer_used is_self] in *; split; try lia; discriminate.
  Qed.
End Built.

Section Counter.
  Context {A : Type} {NA : NumOps A} {OL : OrdLaws A}.
  Notation num := (Np.num A).
  Variable C : Type.
  Variable c_step : C -> event num -> C * option exn.
  Variable inj : @tc A -> C.
  Hypothesis Hinj : forall s e s', tc_step s e = Ok s' -> c_step (inj s) e = (inj s', None).
  Variables (self : bool) (h w : nat) (b : Z) (D : nat -> nat -> num) (order : list Z) (Fc : nat -> nat -> list num) (Fd : nat -> Z -> list num) (id : nat).
  Hypothesis Hnan : forall r c, r < h -> c < w -> isnan (D r c) = false.
  Hypothesis Hself : self = true -> h = w /\ forall r c, r < h -> c < h -> D r c = D c r.
  Hypothesis Hh : 0 < h.
  Hypothesis Hninf : forall r c, r < h -> c < w -> D r c <> NInf.
  Hypothesis Hord : forall d, In d order -> on_matrix h w d /\ (b < Z.abs d)%Z /\ (self = true -> 0 <= d)%Z.
  Hypothesis HFc : forall j, j < w -> Fc id j = Dc h D j.
  Hypothesis HFd : forall d, on_matrix h w d -> Fd id d = Dd h w D d.

  Lemma after_tc evs : forall s s', foldM tc_step evs s = Ok s' -> after c_step evs (inj s) = inj s'.
  Proof.
    induction evs as [|e evs IH]; intros s s' E; cbn [foldM] in E; [injection E as <-; reflexivity|].
    destruct (tc_step s e) as [s1|] eqn:Es; [|discriminate]. cbn [bind] in E. unfold after. cbn [fold_left]. rewrite (Hinj _ _ Es). apply IH, E.
  Qed.

  Lemma proper_fine t : Forall (proper_part w order) t -> fine self h w b t.
  Proof.
    intro H. rewrite Forall_forall in H. split.
    - intros c Hc. unfold cols_in in Hc. apply in_flat_map in Hc. destruct Hc as (p & Hp & Hc). specialize (H p Hp). destruct p as [j n|]; [|destruct Hc]. cbn in H. apply in_seq in Hc. lia.
    - intros d Hd. unfold diags_in in Hd. apply in_flat_map in Hd. destruct Hd as (p & Hp & Hd). specialize (H p Hp). destruct p as [|ds]; [destruct Hd|]. destruct H as (d' & -> & H). destruct Hd as [<-|[]]. apply Hord, H.
  Qed.

  Lemma fine_calls t : fine self h w b t -> mixed_calls Fc Fd self b t [id] = mixed_calls (fun _ => Dc h D) (fun _ => Dd h w D) self b t [0].
  Proof.
    intros [F1 F2]. unfold mixed_calls, cols_in, diags_in in *. induction t as [|x t IH]; [reflexivity|]. cbn [flat_map] in *. rewrite IH; [|intros c Hc; apply F1, in_or_app; right; exact Hc|intros d Hd; apply F2, in_or_app; right; exact Hd]. f_equal.
    destruct x as [c n|ds]; cbn [part_calls].
    - unfold column_calls. apply map_ext_in. intros j Hj. cbn [map]. rewrite HFc by (apply F1, in_or_app; left; exact Hj). reflexivity.
    - unfold diagonal_calls. assert (F : forall d, In d ds -> on_matrix h w d) by (intros d Hd; apply F2, in_or_app; left; exact Hd). clear - F HFd. induction ds as [|d ds IH]; [reflexivity|]. cbn [flat_map]. f_equal; [cbn [map]; rewrite HFd by (apply F; left; reflexivity); reflexivity|]. apply IH. intros; apply F; right; assumption.
  Qed.

  Lemma tc_never thr : never_raises c_step Fc Fd self b w order [id] (inj (tc_init thr h w)).
  Proof.
    intros t x b1 e b2 HP Hx. pose proof (proper_fine HP) as F. destruct (@tc_of A NA self h w b D Hnan Hself Hh Hninf thr (t ++ [x]) F) as (s & E & _). rewrite <- (fine_calls F) in E.
    unfold mixed_calls in E. rewrite flat_map_app in E. cbn [flat_map] in E. rewrite app_nil_r, Hx in E. fold (mixed_calls Fc Fd self b t [id]) in E.
    change (b1 ++ e :: b2) with (b1 ++ [e] ++ b2) in E. rewrite app_assoc, app_assoc, foldM_app in E. rewrite foldM_app in E.
    destruct (foldM tc_step (mixed_calls Fc Fd self b t [id] ++ b1) (tc_init thr h w)) as [s1|] eqn:E1; [|discriminate]. cbn [bind foldM] in E. rewrite (after_tc _ _ E1). destruct (tc_step s1 e) as [s2|] eqn:E2; [|discriminate]. rewrite (Hinj _ _ E2). reflexivity.
  Qed.

  Lemma tc_counts_of thr t : fine self h w b t -> exists s, after c_step (mixed_calls Fc Fd self b t [id]) (inj (tc_init thr h w)) = inj s /\ is_mat (length thr) w (tc_counts s) /\
    forall i x j, nth_error thr i = Some x -> j < w -> mget (tc_counts s) i j = Ok (list_sum (map (fun r => if fleb (masked b D r j) x then weight self t r j else 0) (seq 0 h))).
  Proof.
    intro F. destruct (@tc_of A NA self h w b D Hnan Hself Hh Hninf thr t F) as (s & E & M & G). exists s. rewrite (fine_calls F). split; [apply after_tc, E|]. split; [exact M|exact G].
  Qed.

  Lemma tc_diag_counts thr ds : (forall d, In d ds -> In d order) -> NoDup ds -> (self = true -> (0 <= b)%Z) -> exists s, after c_step (diagonal_calls Fd self ds [id]) (inj (tc_init thr h w)) = inj s /\
    forall i x j, nth_error thr i = Some x -> j < w -> exists n, mget (tc_counts s) i j = Ok n /\ how_many (fun r => r < h /\ SEnd.given self b [PDiags ds] r j /\ fleb (D r j) x = true) n.
  Proof.
    intros Hin Hnd Hb. assert (F : fine self h w b [PDiags ds]) by (split; [intros c []|intros d Hd; cbn in Hd; rewrite app_nil_r in Hd; apply Hord, Hin, Hd]).
    destruct (@tc_of_diags A NA self h w b D Hnan Hself Hh thr [PDiags ds] F eq_refl) as (s & E & G); [cbn; rewrite app_nil_r; exact Hnd|exact Hb|].
    exists s. split; [|exact G]. apply after_tc. rewrite <- E, <- (fine_calls F). f_equal. unfold mixed_calls. cbn [flat_map part_calls]. rewrite app_nil_r. reflexivity.
  Qed.
End Counter.
