(** * PMixed: mixtures of column and diagonal calculations *)
From Coq Require Import QArith Permutation.
From Verif Require Import Np NpFacts Mat MUtil SLog PLog PSort PMulti MCalc SCalc PCalc PCalcRun PCalcEnd SMixed.
Set Implicit Arguments.
Open Scope nat_scope.

Lemma sensible_resolves r full limit : (0 <= full)%Z -> (0 <= limit)%Z -> sensible r -> exists v, resolves r full limit v /\ (0 <= v <= limit)%Z.
Proof.
  intros Hf Hl Hr. destruct r as [z|[| |q|]|]; cbn [sensible] in Hr; try contradiction.
  - eexists. split; [apply resolves_ok; [exact Hf|reflexivity]|lia].
  - destruct Hr as [H1 H2]. eexists. split; [apply resolves_ok; [exact Hf|]; cbn [ratio_to_int]|].
    + rewrite (proj2 (Qle_bool_iff _ _) H1), (proj2 (Qle_bool_iff _ _) H2). reflexivity.
    + lia.
Qed.

Lemma resolves_bounds r full limit v : (0 <= full)%Z -> (0 <= limit)%Z -> resolves r full limit v -> (0 <= v <= limit)%Z.
Proof.
  intros Hf Hl Hr. apply resolves_ok in Hr; [|exact Hf]. destruct r as [z|[| |q|]|]; cbn [ratio_to_int] in Hr; try discriminate; [injection Hr as <-; lia|].
  destruct (_ || _); [discriminate|]. injection Hr as <-. lia.
Qed.

Section Mixed.
  Context {A : Type}.
  Notation num := (Np.num A).
  Variables (X G C : Type).
  Variable g_col : G -> nat -> res (G * list num).
  Variable g_diag : G -> Z -> res (G * list num).
  Variable c_step : C -> event num -> res C.
  Variable set_order : list nat -> list nat.
  Hypothesis HSO : orders_sets set_order.
  Variables (self : bool) (h w : nat) (tmb : Z) (order : list Z).
  Hypothesis Hh : 0 < h.
  Hypothesis Hw : 0 < w.
  Hypothesis Htmb : (-1 <= tmb)%Z.
  Hypothesis Hord : forall d, In d order -> on_matrix h w d.
  Variables (I : nat -> G -> Prop) (Fc : nat -> nat -> list num) (Fd : nat -> Z -> list num).
  Hypothesis HGc : gives g_col I Fc (fun c => c < w) (fun _ => h).
  Hypothesis HGd : gives g_diag I Fd (on_matrix h w) (fun d => Z.to_nat (dlen h w d)).
  Variable a0 : any X G C.
  Hypothesis HI : ids_ok (ca_gens (an_calc a0)) (ca_cons (an_calc a0)).

  Record live (last : Z) (t : list part) (a : any X G C) : Prop := {
    lv_self : ca_self (an_calc a) = self;
    lv_ns : ca_ns (an_calc a) = Z.of_nat w;
    lv_nq : ca_nq (an_calc a) = Z.of_nat h;
    lv_tmb : ca_tmb (an_calc a) = tmb;
    lv_last : ca_last (an_calc a) = last;
    lv_order : an_order a = order;
    lv_total : an_total a = size h w order;
    lv_next : diags_in t = firstn (an_next a) order;
    lv_len : an_next a <= length order;
    lv_done : an_done a = size h w (diags_in t);
    lv_gens : gens_ok I (ca_gens (an_calc a));
    lv_gids : map snd (ca_gens (an_calc a)) = map snd (ca_gens (an_calc a0));
    lv_recv : receive c_step (mixed_calls Fc Fd self tmb t) (ca_cons (an_calc a0)) (ca_cons (an_calc a))
  }.

  Notation step := (any_call g_col g_diag c_step set_order).

  Lemma live_ids last t a : live last t a -> ids_ok (ca_gens (an_calc a)) (ca_cons (an_calc a)).
  Proof.
    clear - HI. intro L. eapply ids_ok_same; [|eapply receive_ids; exact (lv_recv L)|exact HI].
    rewrite <- (map_length snd), (lv_gids L), map_length. reflexivity.
  Qed.

  Lemma size_pos l : (forall d, In d l -> on_matrix h w d) -> (0 <= size h w l)%Z.
  Proof.
    clear - Hh Hw. induction l as [|d l IH]; intro H; [cbn; lia|]. unfold size. cbn [map fold_right]. fold (size h w l).
    assert (0 < dlen h w d)%Z by (apply dlen_pos; auto; apply H; left; reflexivity). specialize (IH ltac:(intros; apply H; right; assumption)). lia.
  Qed.

  Lemma mixed_snoc t p ids : mixed_calls Fc Fd self tmb (t ++ [p]) ids = mixed_calls Fc Fd self tmb t ids ++ part_calls Fc Fd self tmb p ids.
  Proof. clear. unfold mixed_calls. rewrite flat_map_app. cbn [flat_map]. rewrite app_nil_r. reflexivity. Qed.
  Lemma receive_snoc t p cs cs1 cs2 : receive c_step (mixed_calls Fc Fd self tmb t) cs cs1 -> receive c_step (part_calls Fc Fd self tmb p) cs1 cs2 ->
    receive c_step (mixed_calls Fc Fd self tmb (t ++ [p])) cs cs2.
  Proof. clear. intros H1 H2. eapply receive_ext; [|apply receive_app; exists cs1; split; [exact H1|exact H2]]. intros. rewrite mixed_snoc. reflexivity. Qed.
  Lemma diags_snoc t p : diags_in (t ++ [p]) = diags_in t ++ diags_in [p].
  Proof. clear. unfold diags_in. apply flat_map_app. Qed.

  Lemma done_ok last t a k : live last t a -> done_after a k = size h w (firstn k order).
  Proof.
    clear - Hord. intros []. unfold done_after. rewrite lv_ns0, lv_nq0, lv_order0. unfold size, sumz. f_equal. apply map_ext_in.
    intros d Hd. apply dlen_length. apply Hord. eapply in_firstn; exact Hd.
  Qed.

  Lemma size_mono k k' : k <= k' -> (size h w (firstn k order) <= size h w (firstn k' order))%Z.
  Proof.
    clear - Hh Hw Hord. intro Hk. rewrite <- (firstn_skipn k (firstn k' order)). rewrite firstn_firstn, Nat.min_l by lia. rewrite size_app.
    enough (0 <= size h w (skipn k (firstn k' order)))%Z by lia. apply size_pos. intros d Hd. apply Hord. apply (in_firstn k'). rewrite <- (firstn_skipn k (firstn k' order)). apply in_or_app. auto.
  Qed.

  Lemma mixes_step call last t last' t' a : live last t a -> mixes h w order call (last, t) (last', t') ->
    exists p, t' = t ++ [p] /\
    (forall a', step a call = Ok a' -> live last' t' a' /\ receive c_step (part_calls Fc Fd self tmb p) (ca_cons (an_calc a)) (ca_cons (an_calc a'))) /\
    (forall cns, receive c_step (part_calls Fc Fd self tmb p) (ca_cons (an_calc a)) cns -> exists a', step a call = Ok a' /\ ca_cons (an_calc a') = cns).
  Proof.
    intros L Hm. pose proof (live_ids L) as HI1. destruct L. inversion Hm as [intr start upto l0 t0 c u n Hc Hu Hr E1 E2 E3|intr partial l0 t0 v new rest Hres Heq Hlt Hst E1 E2 E3]; subst l0 t0; subst t'; subst last'; try subst call.
    - exists (PCols c n). split; [reflexivity|].
      assert (Q := @calc_columns A G C g_col c_step set_order HSO I Fc (an_calc a) w h intr start upto c u n HGc HI1 lv_gens0).
      rewrite lv_tmb0, lv_ns0 in Q. destruct Q as [Q1 Q2]; auto; try lia.
      { unfold from_col. rewrite lv_last0. exact Hc. }
      pose proof Hr as (U1 & U2 & U3). cbn [any_call part_calls]. unfold any_columns. rewrite lv_ns0, lv_nq0. split.
      + intros a' E. apply bind_ok in E. destruct E as (s & E & E'). injection E' as <-. destruct (Q1 s E) as ((D1 & D2 & D3 & D4 & D5 & D6) & P2 & P3 & P4 & P5). cbn [an_calc]. split; [|exact P4].
        constructor; cbn [an_calc an_order an_total an_next an_done]; try congruence.
        * rewrite P5, lv_last0. reflexivity.
        * rewrite diags_snoc. cbn [diags_in flat_map]. rewrite !app_nil_r. exact lv_next0.
        * rewrite diags_snoc. cbn [diags_in flat_map]. rewrite !app_nil_r. exact lv_done0.
        * exact P2.
        * eapply receive_snoc; [exact lv_recv0|exact P4].
      + intros cns Hcn. destruct (Q2 cns Hcn) as (s & E & Es). rewrite E. eexists. split; [reflexivity|exact Es].
    - exists (PDiags new). split; [reflexivity|]. 
      assert (Ln : length (diags_in t) = an_next a) by (rewrite lv_next0, firstn_length; lia).
      assert (Hlen : length order = an_next a + length new + length rest) by (rewrite Heq, !app_length; lia).
      assert (Hpre : forall i, i <= length new -> diags_in t ++ firstn i new = firstn (an_next a + i) order).
      { intros i Hi. rewrite Heq. rewrite (firstn_app _ (diags_in t)), Ln, (@firstn_all2 _ (an_next a + i) (diags_in t)) by lia. apply f_equal. replace (an_next a + i - an_next a) with i by lia. rewrite firstn_app. replace (i - length new) with 0 by lia. cbn [firstn]. rewrite app_nil_r. reflexivity. }
      assert (L : live last t a) by (constructor; assumption).
      assert (T0 : (0 <= size h w order)%Z) by (apply size_pos; exact Hord).
      pose proof (@resolves_bounds partial _ _ v T0 T0 Hres) as Hv.
      assert (Hdone : forall k, done_after a k = size h w (firstn k order)) by (intro; eapply done_ok; exact L).
      assert (HE : exists K, enough a v (an_next a) K /\ length new <= K - an_next a /\ (length new < K - an_next a -> intr (length new) = true)).
      { destruct (Z.le_gt_cases v (size h w (diags_in t ++ new))) as [Hle|Hgt].
        - exists (an_next a + length new). split; [|split; [lia|intro; lia]]. split; [rewrite lv_order0; lia|]. split; [rewrite Hdone, <- Hpre, firstn_all by lia; exact Hle|].
          intros j Hj. rewrite Hdone. replace j with (an_next a + (j - an_next a)) by lia. rewrite <- Hpre by lia. apply Hlt. lia.
        - destruct (@enough_exists X G C (Z.of_nat h) (Z.of_nat w) a ltac:(rewrite lv_order0; exact Hord) v (an_next a)) as (K & HE); [rewrite lv_order0; lia|rewrite Hdone, lv_order0, firstn_all; lia|].
          exists K. split; [exact HE|]. destruct HE as (E1 & E2 & E3). rewrite Hdone in E2. assert (an_next a + length new < K).
          { destruct (Nat.lt_ge_cases (an_next a + length new) K); [assumption|]. exfalso. pose proof (@size_mono K (an_next a + length new) ltac:(lia)) as Hx. rewrite <- Hpre, firstn_all in Hx by lia. lia. }
          split; [lia|]. intros _. destruct Hst as [Hst|Hst]; [exact Hst|lia]. }
      destruct HE as (K & HE & HK & HK').
      assert (HR : runs intr (length new) (K - an_next a)) by (split; [exact HK|]; split; [intros i Hi; apply (Hlt i Hi)|exact HK']).
      assert (HG' : gives g_diag I Fd (fun d => - Z.of_nat h < d < Z.of_nat w)%Z (fun d => Z.to_nat (diag_length (Z.of_nat h) (Z.of_nat w) d))).
      { intros id g d Hg Hd. destruct (HGd Hg Hd) as (g' & X1 & X2 & X3). exists g'. rewrite dlen_length by exact Hd. auto. }
      assert (DL := @diagonals_lemma A X G C c_step set_order HSO g_diag I Fd (Z.of_nat h) (Z.of_nat w) HG' a lv_nq0 lv_ns0).
      rewrite lv_order0, lv_total0 in DL. specialize (DL Hord ltac:(lia) HI1 intr partial v K (length new) lv_gens0 T0). rewrite Hdone in DL.
      specialize (DL ltac:(rewrite <- lv_next0; exact lv_done0) Hres HE HR). cbv zeta in DL.
      assert (En : firstn (length new) (skipn (an_next a) order) = new).
      { rewrite Heq, skipn_app, Ln, skipn_all2 by lia. rewrite Nat.sub_diag. cbn [skipn app]. rewrite firstn_app, firstn_all, Nat.sub_diag. cbn [firstn]. apply app_nil_r. }
      rewrite En, lv_self0 in DL. destruct DL as [D1 D2]. cbn [any_call part_calls]. split; [|exact D2].
      intros a' E. destruct (D1 a' E) as (((C1 & C2 & C3 & C4 & C5 & C6) & S1 & S2 & S3 & S4 & S5) & P2 & P3 & P4 & P5 & P6 & P7). split; [|exact P7].
      assert (Es : diags_in (t ++ [PDiags new]) = diags_in t ++ new) by (rewrite diags_snoc; cbn [diags_in flat_map]; rewrite app_nil_r; reflexivity).
      constructor; try congruence.
      + rewrite Es, P5, <- Hpre, firstn_all by lia. reflexivity.
      + lia.
      + rewrite P6, Es, Hdone, <- Hpre, firstn_all by lia. reflexivity.
      + exact P2.
      + eapply receive_snoc; [exact lv_recv0|exact P7].
  Qed.

  Lemma mixture_run calls : forall p, mixture h w order calls p -> live (-1) [] a0 ->
    (forall a, foldM step calls a0 = Ok a -> live (fst p) (snd p) a) /\
    (forall cns, receive c_step (mixed_calls Fc Fd self tmb (snd p)) (ca_cons (an_calc a0)) cns -> exists a, foldM step calls a0 = Ok a /\ ca_cons (an_calc a) = cns).
  Proof.
    intros p Hm L0. induction Hm as [|calls call [last t] [last' t'] Hm [IH1 IH2] Hs]; cbn [fst snd] in *.
    - split.
      + intros a E. injection E as <-. exact L0.
      + intros cns R. apply receive_nil in R; [|reflexivity]. exists a0. split; [reflexivity|congruence].
    - split.
      + intros a E. rewrite foldM_app in E. apply bind_ok in E. destruct E as (a1 & E1 & E). cbn [foldM] in E. apply bind_ok in E. destruct E as (a2 & E2 & E). injection E as <-.
        destruct (mixes_step (IH1 a1 E1) Hs) as (q & -> & D1 & _). apply D1, E2.
      + intros cns R. assert (Hq : exists q, t' = t ++ [q]) by (inversion Hs; subst; eauto). destruct Hq as (q & ->).
        assert (R' : receive c_step (fun ids => mixed_calls Fc Fd self tmb t ids ++ part_calls Fc Fd self tmb q ids) (ca_cons (an_calc a0)) cns).
        { eapply receive_ext; [|exact R]. intros. apply mixed_snoc. }
        apply receive_app in R'. destruct R' as (c1 & R1 & R2). destruct (IH2 c1 R1) as (a1 & E1 & <-).
        destruct (mixes_step (IH1 a1 E1) Hs) as (q' & Eq & _ & D2). apply app_inv_head in Eq. injection Eq as <-. destruct (D2 cns R2) as (a' & E' & Ec).
        exists a'. split; [|exact Ec]. rewrite foldM_app, E1. cbn [bind foldM]. rewrite E'. reflexivity.
  Qed.

  (** Every sequence of sensible calls is a mixture *)
  Lemma mixes_total call last t : sensible_call call -> (exists k, k <= length order /\ diags_in t = firstn k order) ->
    exists last' t', mixes h w order call (last, t) (last', t') /\ exists k, k <= length order /\ diags_in t' = firstn k order.
  Proof.
    clear - Hh Hw Hord. intros Hc (k & Hk & Et). destruct call as [intr start upto|intr partial]; cbn [sensible_call] in Hc.
    - destruct Hc as [Hs Hu]. destruct (@sensible_resolves (match start with None => RInt (last + 1) | Some r => r end) (Z.of_nat w) (Z.of_nat w)) as (c & Rc & Bc); [lia|lia|destruct start; [exact Hs|exact Logic.I]|].
      destruct (@sensible_resolves upto (Z.of_nat w) (Z.of_nat w)) as (u & Ru & Bu); [lia|lia|exact Hu|].
      destruct (runs_exists intr (Z.to_nat u - Z.to_nat c)) as (n & Hr).
      eexists _, _. split; [eapply mixes_cols with (c := Z.to_nat c) (u := Z.to_nat u); [rewrite Z2Nat.id by lia; exact Rc|rewrite Z2Nat.id by lia; exact Ru|exact Hr]|].
      exists k. split; [exact Hk|]. rewrite diags_snoc. cbn [diags_in flat_map]. rewrite !app_nil_r. exact Et.
    - assert (T0 : (0 <= size h w order)%Z) by (apply size_pos; exact Hord).
      destruct (sensible_resolves partial T0 T0 Hc) as (v & Rv & Bv).
      assert (HE : forall r j, r = length order - j -> k <= j <= length order -> (forall i, k <= i < j -> intr (i - k) = false /\ (size h w (firstn i order) < v)%Z) ->
                exists j', k <= j' <= length order /\ (forall i, k <= i < j' -> intr (i - k) = false /\ (size h w (firstn i order) < v)%Z) /\ (intr (j' - k) = true \/ (v <= size h w (firstn j' order))%Z)).
      { induction r as [|r IH]; intros j Er Hj Hi.
        - exists j. split; [exact Hj|]. split; [exact Hi|]. right. replace j with (length order) by lia. rewrite firstn_all. lia.
        - destruct (intr (j - k)) eqn:Ei; [exists j; auto|]. destruct (Z.le_gt_cases v (size h w (firstn j order))); [exists j; auto|].
          apply (IH (S j)); [lia|lia|]. intros i Hi'. destruct (Nat.eq_dec i j) as [->|]; [split; [exact Ei|lia]|apply Hi; lia]. }
      destruct (HE (length order - k) k eq_refl ltac:(lia) ltac:(intros; lia)) as (j & Hj & Hi & Hend).
      assert (Hpre : forall i, k <= i <= length order -> diags_in t ++ firstn (i - k) (skipn k order) = firstn i order).
      { intros i Hb. rewrite Et. rewrite <- (firstn_skipn k (firstn i order)). rewrite firstn_firstn, Nat.min_l by lia. f_equal. rewrite skipn_firstn_comm. reflexivity. }
      assert (Ln : length (firstn (j - k) (skipn k order)) = j - k) by (rewrite firstn_length, skipn_length; lia).
      eexists _, _. split; [eapply mixes_diags with (v := v) (new := firstn (j - k) (skipn k order)) (rest := skipn j order)|].
      + exact Rv.
      + rewrite app_assoc, Hpre by lia. symmetry. apply firstn_skipn.
      + rewrite Ln. intros i Hi'. rewrite firstn_firstn, Nat.min_l by lia. specialize (Hi (k + i) ltac:(lia)). rewrite <- Hpre in Hi by lia. replace (k + i - k) with i in Hi by lia. exact Hi.
      + rewrite Ln, Hpre by lia. exact Hend.
      + exists j. split; [lia|]. rewrite diags_snoc. cbn [diags_in flat_map]. rewrite app_nil_r. apply Hpre. lia.
  Qed.
  Lemma mixture_total calls : Forall sensible_call calls -> exists p, mixture h w order calls p.
  Proof.
    clear - Hh Hw Hord. intro Hc. enough (exists p, mixture h w order calls p /\ exists k, k <= length order /\ diags_in (snd p) = firstn k order) by (destruct H as (p & H & _); eauto).
    induction calls as [|call calls IH] using rev_ind.
    - eexists. split; [constructor|]. exists 0. split; [lia|reflexivity].
    - apply Forall_app in Hc. destruct Hc as [Hc Hc1]. apply Forall_inv in Hc1. destruct (IH Hc) as ([last t] & Hm & Hk).
      destruct (@mixes_total call last t Hc1 Hk) as (last' & t' & Hs & Hk'). exists (last', t'). split; [econstructor; eassumption|exact Hk'].
  Qed.
End Mixed.

Section Any.
  Context {A : Type}.
  Notation num := (Np.num A).
  Variables (X G C : Type).
  Lemma any_mixed_at (g_col : G -> nat -> res (G * list num)) g_diag (c_step : C -> event num -> res C) set_order shuffle m (series : list (list X)) query buffer h w (a0 : any X G C) gens cs I Fc Fd calls p :
    built shuffle m series query buffer h w a0 -> orders_sets set_order -> ids_ok gens cs -> gens_ok I gens ->
    gives g_col I Fc (fun c => c < w) (fun _ => h) -> gives g_diag I Fd (on_matrix h w) (fun d => Z.to_nat (dlen h w d)) -> mixture h w (an_order a0) calls p ->
    (forall a, foldM (any_call g_col g_diag c_step set_order) calls (with_parts a0 gens cs) = Ok a ->
       receive c_step (mixed_calls Fc Fd (is_self query) (ca_tmb (an_calc a0)) (snd p)) cs (ca_cons (an_calc a)) /\ ca_last (an_calc a) = fst p /\ an_done a = size h w (diags_in (snd p))) /\
    (forall cns, receive c_step (mixed_calls Fc Fd (is_self query) (ca_tmb (an_calc a0)) (snd p)) cs cns -> exists a, foldM (any_call g_col g_diag c_step set_order) calls (with_parts a0 gens cs) = Ok a /\ ca_cons (an_calc a) = cns).
  Proof.
    intros HB HSO HI HG0 HGc HGd Hm. destruct (built_fresh gens cs HB) as (b & Hf & HP & _). pose proof HB as (_ & _ & Hh & Hw & _).
    assert (L0 : live c_step (is_self query) h w (ca_tmb (an_calc a0)) (an_order a0) I Fc Fd (with_parts a0 gens cs) (-1) [] (with_parts a0 gens cs)).
    { destruct Hf. constructor; cbn in *; try assumption; try reflexivity; try lia.
      - rewrite fr_next. reflexivity.
      - apply receive_nil; reflexivity. }
    assert (Ht : (-1 <= ca_tmb (an_calc a0))%Z) by (destruct Hf; cbn in *; lia).
    destruct (@mixture_run A X G C g_col g_diag c_step set_order HSO (is_self query) h w (ca_tmb (an_calc a0)) (an_order a0) Hh Hw Ht (fr_order Hf) I Fc Fd HGc HGd (with_parts a0 gens cs) HI calls p Hm L0) as [R1 R2].
    split; [|exact R2]. intros a E. destruct (R1 a E). auto.
  Qed.
  Lemma any_mixed (g_col : G -> nat -> res (G * list num)) g_diag (c_step : C -> event num -> res C) set_order shuffle m (series : list (list X)) query buffer h w (a0 : any X G C) gens cs I Fc Fd calls :
    built shuffle m series query buffer h w a0 -> orders_sets set_order -> ids_ok gens cs -> gens_ok I gens ->
    gives g_col I Fc (fun c => c < w) (fun _ => h) -> gives g_diag I Fd (on_matrix h w) (fun d => Z.to_nat (dlen h w d)) -> Forall sensible_call calls ->
    exists p, mixture h w (an_order a0) calls p /\
    (forall a, foldM (any_call g_col g_diag c_step set_order) calls (with_parts a0 gens cs) = Ok a ->
       receive c_step (mixed_calls Fc Fd (is_self query) (ca_tmb (an_calc a0)) (snd p)) cs (ca_cons (an_calc a)) /\ ca_last (an_calc a) = fst p /\ an_done a = size h w (diags_in (snd p))) /\
    (forall cns, receive c_step (mixed_calls Fc Fd (is_self query) (ca_tmb (an_calc a0)) (snd p)) cs cns -> exists a, foldM (any_call g_col g_diag c_step set_order) calls (with_parts a0 gens cs) = Ok a /\ ca_cons (an_calc a) = cns).
  Proof.
    intros HB HSO HI HG0 HGc HGd Hs. destruct (built_fresh gens cs HB) as (b & Hf & HP & _). pose proof HB as (_ & _ & Hh & Hw & _).
    destruct (@mixture_total h w (an_order a0) Hh Hw (fr_order Hf) calls Hs) as (p & Hm). exists p. split; [exact Hm|]. eapply any_mixed_at; eassumption.
  Qed.
End Any.
