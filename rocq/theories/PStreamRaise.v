(** * PStreamRaise: proofs about streaming calculations in which generators and consumers raise *)
From Coq Require Import QArith Permutation.
From Verif Require Import Np NpFacts Mat MUtil SLog MCalc SCalc SMixed SStream PCalc PCalcRun PStream MRaise SRaise PRaise MStreamRaise SStreamRaise.
Set Implicit Arguments.
Open Scope nat_scope.

Section Block.
  Variable X : Type.
  Lemma shift_points (Wx s n : nat) : 1 <= Wx -> window_shift (Z.of_nat Wx) (Z.of_nat s) (Z.of_nat n) = Z.of_nat (lost Wx (s + n) - lost Wx s).
  Proof. intro H. unfold window_shift, lost. destruct (Z.ltb_spec (Z.of_nat s) (Z.of_nat Wx)); lia. Qed.
  Definition block (ndim s : nat) (ss : list (list X)) : Prop := length ss = ndim /\ forall r, In r ss -> length r = s.
  Lemma block_hd ndim s ss : 0 < ndim -> block ndim s ss -> length (hd [] ss) = s.
  Proof. intros H (L & B). destruct ss as [|r ss]; [cbn in L; lia|]. apply B. left. reflexivity. Qed.
  Lemma block_nth ndim s ss d : block ndim s ss -> d < ndim -> length (nth d ss []) = s.
  Proof. intros (L & B) H. apply B, nth_In. lia. Qed.
  Lemma block_append ndim s n ss rows : block ndim s ss -> block ndim n rows -> block ndim (s + n) (append_rows ss rows) /\ forall d, d < ndim -> nth d (append_rows ss rows) [] = nth d ss [] ++ nth d rows [].
  Proof.
    intros (L & B) (L' & B'). unfold append_rows.
    assert (N : forall d, d < ndim -> nth_error (zip_with (@app X) ss rows) d = Some (nth d ss [] ++ nth d rows [])).
    { intros d Hd. rewrite nth_error_zip_with, (nth_error_nth' ss [] (n := d)), (nth_error_nth' rows [] (n := d)) by lia. reflexivity. }
    split; [split|].
    - rewrite length_zip_with. lia.
    - intros r Hr. apply In_nth_error in Hr. destruct Hr as [d Hd]. assert (Hl : d < ndim) by (apply nth_error_some_lt in Hd; rewrite length_zip_with in Hd; lia). rewrite N in Hd by exact Hl. injection Hd as <-. rewrite app_length, B, B'; [reflexivity|apply nth_In; lia|apply nth_In; lia].
    - intros d Hd. apply nth_error_nth. apply N. exact Hd.
  Qed.
  Lemma rows_block ndim v (rows : list (list X)) n : rows_are ndim v rows n -> block ndim n rows.
  Proof. intros (H1 & H2 & _). split; assumption. Qed.
  Lemma rows_given (valid : list X -> Prop) ndim v (rows : list (list X)) : as_rows ndim v = Ok rows -> is_array valid (XSeries v) -> exists n, rows_are ndim v rows n /\ forall r, In r rows -> valid r.
  Proof.
    destruct v as [xs|rs]; cbn [as_rows is_array]; intros E H.
    - destruct (Nat.eqb_spec (length xs) ndim); [|discriminate]. injection E as <-. exists 1. split; [split; [rewrite map_length; assumption|]; split; [|reflexivity]|]; intros r Hr; apply in_map_iff in Hr; destruct Hr as (x & <- & Hx); [reflexivity|exact (H x Hx)].
    - destruct (Nat.eqb_spec (length rs) ndim); [|discriminate]. injection E as <-. destruct H as [[n H] Hv]. exists n. split; [|exact Hv]. split; [assumption|]. split; [exact H|reflexivity].
  Qed.
End Block.
Lemma forall2_right {X Y} (P : X -> Y -> Prop) xs ys : Forall2 P xs ys -> forall y, In y ys -> exists x, In x xs /\ P x y.
Proof. induction 1 as [|a b l l' Hp _ IH]; intros y [].  - subst b. exists a. split; [left; reflexivity|exact Hp].  - destruct (IH y H) as (x & Hx & Hp'). exists x. split; [right; exact Hx|exact Hp']. Qed.

Section Raise.
  Context {A : Type}.
  Notation num := (Np.num A).
  Variables (X G C : Type).
  Variable g_col : G -> nat -> G * res (list num).
  Variable g_app_s g_app_q : G -> list X -> G * option exn.
  Variable c_step : C -> event num -> C * option exn.
  Variable set_order : list nat -> list nat.
  Notation calc := (calc G C).
  Notation stm := (stm G C).
  Notation after := (after c_step).
  Notation xcall := (xcall g_col g_app_s g_app_q c_step set_order).
  Notation go_on := (go_on g_col g_app_s g_app_q c_step set_order).

  (** ** Agreement with MCalc.v *)
  Lemma append_gens_same (g_app : G -> list X -> G * option exn) rows gens : same (append_gens_x g_app rows gens) (append_gens (plain_a g_app) gens rows).
  Proof.
    unfold append_gens. induction gens as [|[g d] gens IH]; [reflexivity|]. cbn [append_gens_x mapM fst snd]. destruct (getitem rows d) as [row|e]; cbn [bind]; [|reflexivity].
    unfold plain_a at 1. destruct (g_app g row) as [g' [e|]]; cbn [bind]; [reflexivity|]. destruct (append_gens_x g_app rows gens) as [r [e|]]; cbn [same] in *; rewrite IH; reflexivity.
  Qed.
  Lemma shift_all_same e cns : same (shift_all_x c_step e cns) (shift_all (plain_c c_step) e cns).
  Proof.
    unfold shift_all. induction cns as [|[c ids] cns IH]; [reflexivity|]. cbn [shift_all_x mapM fst snd]. unfold plain_c at 1. destruct (c_step c e) as [c' [x|]]; cbn [bind]; [reflexivity|].
    destruct (shift_all_x c_step e cns) as [r [x|]]; cbn [same] in *; rewrite IH; reflexivity.
  Qed.
  Lemma series_same (t : stm) v : same (append_series_x g_app_s c_step t v) (append_series (plain_a g_app_s) (plain_c c_step) t v).
  Proof.
    unfold append_series_x, append_series. destruct (as_rows _ v) as [rows|e]; cbn [bind]; [|reflexivity].
    pose proof (append_gens_same g_app_s rows (ca_gens (st_calc t))) as H. destruct (append_gens_x _ rows _) as [gens [e|]]; cbn [same] in H; rewrite H; cbn [bind]; [reflexivity|]. cbn zeta.
    set (k := window_shift _ _ _). destruct (k =? 0)%Z; [reflexivity|].
    pose proof (shift_all_same (EShiftS (Z.to_nat k)) (ca_cons (st_calc t))) as H1. destruct (shift_all_x c_step _ _) as [cns [e|]]; cbn [same] in H1; rewrite H1; cbn [bind]; [reflexivity|].
    destruct (ca_self (st_calc t)); [|reflexivity].
    pose proof (shift_all_same (EShiftQ (Z.to_nat k)) cns) as H2. destruct (shift_all_x c_step _ _) as [cns' [e|]]; cbn [same] in H2; rewrite H2; reflexivity.
  Qed.
  Lemma query_same (t : stm) v : same (append_query_x g_app_q c_step t v) (append_query (plain_a g_app_q) (plain_c c_step) t v).
  Proof.
    unfold append_query_x, append_query. destruct (ca_self (st_calc t)); [reflexivity|]. destruct (as_rows _ v) as [rows|e]; cbn [bind]; [|reflexivity].
    pose proof (append_gens_same g_app_q rows (ca_gens (st_calc t))) as H. destruct (append_gens_x _ rows _) as [gens [e|]]; cbn [same] in H; rewrite H; cbn [bind]; [reflexivity|]. cbn zeta.
    set (k := window_shift _ _ _). destruct (k =? 0)%Z; [reflexivity|].
    pose proof (shift_all_same (EShiftQ (Z.to_nat k)) (ca_cons (st_calc t))) as H1. destruct (shift_all_x c_step _ _) as [cns [e|]]; cbn [same] in H1; rewrite H1; reflexivity.
  Qed.
  Lemma columns_same (t : stm) intr start upto : same (stm_columns_x g_col c_step set_order intr t start upto) (stm_columns (plain_g g_col) (plain_c c_step) set_order intr t start upto).
  Proof.
    unfold stm_columns_x, stm_columns, calculate_columns_x, calculate_columns. destruct (ratio_to_int (match start with None => _ | Some _ => _ end) _ _) as [c|e]; cbn [bind]; [|reflexivity].
    destruct (ratio_to_int upto _ _) as [u|e]; cbn [bind]; [|reflexivity]. destruct (stm_max_row t <? 0)%Z; cbn [bind]; [reflexivity|].
    match goal with |- context [col_loop_x _ _ ?f intr 0 ?ids ?r c u ?st] => pose proof (col_loop_same g_col c_step ids r u intr f 0 c st) as H; destruct (col_loop_x g_col c_step f intr 0 ids r c u st) as [st' [e|]] end; cbn [same] in H; rewrite H; reflexivity.
  Qed.

  (** ** One calculation of columns *)
  Hypothesis HSO : orders_sets set_order.

  Lemma run_gens_x_dims (g_calc : G -> G * res (list num)) n ids : forall gens dists gens' dists' e, run_gens_x g_calc n ids gens dists = (gens', dists', e) -> map snd gens' = map snd gens.
  Proof.
    induction ids as [|id ids IH]; intros gens dists gens' dists' e E; cbn [run_gens_x] in E; [injection E as <- _ _; reflexivity|].
    destruct (nth_error gens id) as [[g d]|] eqn:Eg; [|injection E as <- _ _; reflexivity]. destruct (g_calc g) as [g' r].
    assert (K : map snd (splice gens id [(g', d)]) = map snd gens).
    { apply nth_error_ext. intro i. rewrite !nth_error_map, nth_error_set1 by (eapply nth_error_some_lt; exact Eg). destruct (Nat.eqb_spec i id) as [->|]; [rewrite Eg|]; reflexivity. }
    destruct (do vals <- r; _) as [d'|x]; [rewrite (IH _ _ _ _ _ E); exact K|injection E as <- _ _; exact K].
  Qed.

  Section Columns.
    Variables (I : nat -> G -> Prop) (Fc : nat -> nat -> list num) (h w : nat) (tmb : Z).
    Hypothesis HGc : may_give g_col I Fc (fun c => c < w) (fun _ => h).
    Hypothesis Htmb : (-1 <= tmb)%Z.
    Definition col_event (ids : list nat) (j : nat) : event num := ECol j (map (fun id => hide tmb j (Fc id j)) ids).
    Definition col_events ids j n := map (col_event ids) (seq j n).

    Definition fine (s : calc) : Prop := ca_tmb s = tmb /\ gens_ok I (ca_gens s) /\ ids_ok (ca_gens s) (ca_cons s).
    Definition kept (s s' : calc) : Prop := same_conf s s' /\ map snd (ca_gens s') = map snd (ca_gens s) /\ map snd (ca_cons s') = map snd (ca_cons s).
    Definition dfine (s : calc) (dists : list (list num)) : Prop := length dists = length (ca_gens s) /\ forall row, In row dists -> length row = h.

    Lemma fed_refl P evs (cns : list (C * list nat)) : ~ P -> Forall2 (fed c_step P evs) cns cns.
    Proof. intro HP. induction cns as [|x cns IH]; constructor; [|exact IH]. split; [reflexivity|]. exists []. split; [eexists; reflexivity|]. split; [reflexivity|]. intro HH. contradiction. Qed.
    Lemma fed_ids P evs cns cns' : Forall2 (fed c_step P evs) cns cns' -> map snd cns' = map snd cns.
    Proof. induction 1 as [|x y l l' [H _] _ IH]; [reflexivity|]. cbn [map]. congruence. Qed.
    Lemma ids_ok_snd (gens gens' : list (G * nat)) (cns cns' : list (C * list nat)) : length gens' = length gens -> map snd cns' = map snd cns -> ids_ok gens cns -> ids_ok gens' cns'.
    Proof.
      intros HL HM H c ids id Hc Hid. assert (Hin : In ids (map snd cns)) by (rewrite <- HM; apply in_map_iff; exists (c, ids); auto). apply in_map_iff in Hin. destruct Hin as ([c1 ids1] & E1 & Hin). cbn [snd] in E1. subst. rewrite HL. eapply H; eassumption.
    Qed.

    Lemma step_x s dists c s' dists' e : c < w -> fine s -> dfine s dists -> col_step_x g_col c_step (needed set_order s) h (s, dists) (Z.of_nat c) = (s', dists', e) ->
      fine s' /\ kept s s' /\ dfine s' dists' /\ ca_last s' = (match e with None => Z.max (Z.of_nat c) (ca_last s) | Some _ => ca_last s end) /\
      Forall2 (fed c_step (e = None) (fun ids => [col_event ids c])) (ca_cons s) (ca_cons s').
    Proof.
      intros Hc (Et & J2 & Hids) (D1 & D2) E. unfold col_step_x in E. cbn [fst snd] in E. rewrite Nat2Z.id in E.
      destruct (run_gens_x _ h _ (ca_gens s) dists) as [[gens ds] x] eqn:Eg. destruct (@needed_spec G C set_order HSO (ca_gens s) s Hids) as (N1 & N2 & N3). pose proof (run_gens_x_dims _ _ _ _ _ Eg) as ED.
      eapply (@run_gens_x_ok A G I (fun g => g_col g c) (fun id => Fc id c) h h) in Eg; [|lia|intros id g Hg; exact (HGc Hg Hc)|exact N1|exact J2|lia|exact D2]. destruct Eg as (G1 & G2 & G3 & G4 & G5).
      assert (Conf : forall cns last, same_conf s (ca_upd s gens cns last)) by (intros; repeat split). destruct x as [x|].
      - injection E as <- <- <-. split; [split; [exact Et|split; [exact G1|]]; eapply ids_ok_snd; [|reflexivity|exact Hids]; exact G2|]. split; [split; [apply Conf|split; [exact ED|reflexivity]]|]. split; [split; [cbn; lia|exact G4]|]. split; [reflexivity|]. apply fed_refl. discriminate.
      - destruct (G5 eq_refl) as [G6 _]. rewrite Et in E.
        assert (DM : length (mask_column tmb (Z.of_nat c) ds) = length ds /\ forall row, In row (mask_column tmb (Z.of_nat c) ds) -> length row = h).
        { unfold mask_column. split; [destruct (0 <=? tmb)%Z; [rewrite map_length|]; lia|]. destruct (0 <=? tmb)%Z; [|exact G4]. intros row Hr. apply in_map_iff in Hr. destruct Hr as (r0 & <- & Hr0). rewrite length_fill_slice. auto. }
        assert (HD : forall c0 ids id, In (c0, ids) (ca_cons s) -> In id ids -> nth_error (mask_column tmb (Z.of_nat c) ds) id = Some (hide tmb c (Fc id c))).
        { intros c0 ids id Hc0 Hid. destruct (G6 id ltac:(eapply N3; eassumption)) as (row & Hrow & Hf). rewrite firstn_all2 in Hf by (rewrite (G4 row); [lia|eapply nth_error_In; exact Hrow]). subst row.
          rewrite <- (hide_mask c (Fc id c) Htmb). unfold mask_column. destruct (0 <=? tmb)%Z; [rewrite nth_error_map|]; rewrite Hrow; reflexivity. }
        destruct (deliver_x c_step _ _ (ca_cons s)) as [cns y] eqn:Ed. pose proof (@deliver_x_ok A C c_step (fun vals => [ECol c vals]) _ (fun id => hide tmb c (Fc id c)) _ _ _ HD Ed) as HF.
        pose proof (fed_ids HF) as EI.
        destruct y as [y|]; injection E as <- <- <-; (split; [split; [exact Et|split; [exact G1|eapply ids_ok_snd; [exact G2|exact EI|exact Hids]]]|]); (split; [split; [apply Conf|split; [exact ED|exact EI]]|]);
          (split; [split; [cbn; lia|apply DM]|]); (split; [reflexivity|exact HF]).
    Qed.

    (** The calls that consumer [x] received, from column [c] on, and the columns counted as calculated *)
    Definition got (dflt : Prop) (last last' : Z) (c : nat) (x y : C * list nat) : Prop :=
      snd y = snd x /\ exists n, c + n <= w /\ fst y = after (col_events (snd x) c n) (fst x) /\
        (dflt -> forall j, (Z.of_nat j <= last')%Z -> (Z.of_nat j <= last)%Z \/ (c <= j < c + n /\ snd (c_step (after (col_events (snd x) c (j - c)) (fst x)) (col_event (snd x) j)) = None)).

    Lemma kept_refl s : kept s s. Proof. repeat split. Qed.
    Lemma kept_trans s s1 s2 : kept s s1 -> kept s1 s2 -> kept s s2.
    Proof. intros (H1 & H2 & H3) (K1 & K2 & K3). split; [|split; congruence]. unfold same_conf in *. intuition congruence. Qed.
    Lemma got_refl (dflt : Prop) last c cns : c <= w -> Forall2 (got dflt last last c) cns cns.
    Proof. intro H. induction cns as [|x cns IH]; constructor; [|exact IH]. split; [reflexivity|]. exists 0. split; [lia|]. split; [reflexivity|]. auto. Qed.
    Lemma needed_kept s s' : kept s s' -> needed set_order s' = needed set_order s.
    Proof. intros (_ & _ & H). unfold needed. rewrite H. reflexivity. Qed.

    Lemma got_trans (dflt : Prop) last last1 last2 c (full : bool) cns cns1 cns2 : c < w ->
      Forall2 (fed c_step (full = true) (fun ids => [col_event ids c])) cns cns1 ->
      (if full then Forall2 (got dflt last1 last2 (S c)) cns1 cns2 else cns2 = cns1 /\ last2 = last) -> (full = true -> last1 = Z.max (Z.of_nat c) last) -> (dflt -> (Z.of_nat c <= last + 1)%Z) ->
      Forall2 (got dflt last last2 c) cns cns2.
    Proof.
      intros Hc HF. revert cns2. induction HF as [|x y cns cns1 Hx HF IH]; intros cns2 HG HL Hd.
      - destruct full; [inversion HG; constructor|destruct HG as [-> _]; constructor].
      - destruct Hx as (F1 & dn & (rest & F2) & F3 & F4). destruct full.
        + inversion HG as [|? z ? cns2' Hz HG']; subst. constructor; [|apply IH; [exact HG'|exact HL|exact Hd]]. clear IH HG HG' HF. destruct (F4 eq_refl) as [-> F5]. destruct Hz as (Z1 & n & Z2 & Z3 & Z4). split; [congruence|].
          assert (F5' : snd (c_step (fst x) (col_event (snd x) c)) = None) by exact (F5 [] _ [] eq_refl).
          rewrite F1, F3 in *. exists (S n). split; [lia|]. split; [rewrite Z3; reflexivity|]. intros HD j Hj. destruct (Z4 HD j Hj) as [Hj'|[Hj' Hn]].
          * rewrite (HL eq_refl) in Hj'. specialize (Hd HD). destruct (Z.le_gt_cases (Z.of_nat j) last) as [|]; [left; assumption|]. right. assert (j = c) as -> by lia. split; [lia|]. rewrite Nat.sub_diag. exact F5'.
          * right. split; [lia|]. replace (j - c) with (S (j - S c)) by lia. cbn [col_events seq map]. exact Hn.
        + destruct HG as [-> ->]. constructor; [|apply IH; [split; reflexivity|exact HL|exact Hd]]. split; [exact F1|]. destruct dn as [|e dn].
          * exists 0. split; [lia|]. split; [exact F3|]. auto.
          * cbn [app] in F2. injection F2 as E1 E2. symmetry in E2. apply app_eq_nil in E2. destruct E2 as [-> _]. exists 1. split; [lia|]. split; [rewrite F3, <- E1; reflexivity|]. auto.
    Qed.

    Lemma loop_x (dflt : Prop) upto intr : upto <= w -> forall fuel k c s dists s' dists' e, c <= w -> (dflt -> (Z.of_nat c <= ca_last s + 1)%Z) -> fine s -> dfine s dists ->
      col_loop_x g_col c_step fuel intr k (needed set_order s) h (Z.of_nat c) (Z.of_nat upto) (s, dists) = (s', dists', e) ->
      fine s' /\ kept s s' /\ (ca_last s <= ca_last s')%Z /\ Forall2 (got dflt (ca_last s) (ca_last s') c) (ca_cons s) (ca_cons s').
    Proof.
      intro Hu. induction fuel as [|fuel IH]; intros k c s dists s' dists' e Hcw Hd HC HD E; cbn [col_loop_x] in E; [injection E as <- _ _; split; [exact HC|]; split; [apply kept_refl|]; split; [lia|]; apply got_refl; exact Hcw|].
      assert (Stop : (s, dists, @None exn) = (s', dists', e) -> fine s' /\ kept s s' /\ (ca_last s <= ca_last s')%Z /\ Forall2 (got dflt (ca_last s) (ca_last s') c) (ca_cons s) (ca_cons s')) by (intro E'; injection E' as <- _ _; split; [exact HC|]; split; [apply kept_refl|]; split; [lia|]; apply got_refl; exact Hcw).
      destruct (Z.of_nat c <? Z.of_nat upto)%Z eqn:Ec; cbn [andb] in E; [|exact (Stop E)]. apply Z.ltb_lt in Ec. destruct (negb (intr k)); [|exact (Stop E)]. clear Stop.
      destruct (col_step_x g_col c_step _ h (s, dists) (Z.of_nat c)) as [[s1 d1] x] eqn:Es. destruct (step_x (s := s) (dists := dists) (c := c) ltac:(lia) HC HD Es) as (H1 & H2 & H3 & H4 & H5).
      destruct x as [x|].
      - injection E as <- _ _. split; [exact H1|]. split; [exact H2|]. split; [lia|]. eapply (@got_trans dflt (ca_last s) 0%Z (ca_last s1) c false _ (ca_cons s1)); [lia| |split; [reflexivity|exact H4]|discriminate|exact Hd].
        clear -H5. induction H5 as [|a b l l' (E1 & dn & E2 & E3 & _) _ IH]; constructor; [|exact IH]. split; [exact E1|]. exists dn. split; [exact E2|]. split; [exact E3|discriminate].
      - replace (Z.of_nat c + 1)%Z with (Z.of_nat (S c)) in E by lia. rewrite <- (needed_kept H2) in E. destruct (IH (S k) (S c) s1 d1 s' dists' e ltac:(lia) ltac:(intros _; lia) H1 H3 E) as (I1 & I2 & I3 & I4).
        split; [exact I1|]. split; [eapply kept_trans; eassumption|]. split; [lia|]. eapply (@got_trans dflt (ca_last s) (ca_last s1) (ca_last s') c true _ (ca_cons s1)); [lia| |exact I4|intros _; exact H4|exact Hd].
        clear -H5. induction H5 as [|a b l l' (E1 & dn & E2 & E3 & E4) _ IH]; constructor; [|exact IH]. split; [exact E1|]. exists dn. split; [exact E2|]. split; [exact E3|]. intros _. exact (E4 eq_refl).
    Qed.
  End Columns.

  (** ** Whole runs *)
  Lemma append_gens_x_ok (g_app : G -> list X -> G * option exn) (I J : nat -> G -> Prop) rows : (forall id g d g', I id g -> d < length rows -> g_app g (nth d rows []) = (g', None) -> J id g') ->
    forall gens gens', (forall id g d, nth_error gens id = Some (g, d) -> I id g) -> append_gens_x g_app rows gens = (gens', None) -> (forall id g d, nth_error gens' id = Some (g, d) -> J id g) /\ map snd gens' = map snd gens.
  Proof.
    intros HA gens. revert I J HA. induction gens as [|[g d] gens IH]; intros I J HA gens' HI E; cbn [append_gens_x] in E; [injection E as <-; split; [intros [|] ? ? H; discriminate|reflexivity]|].
    destruct (getitem rows d) as [row|e] eqn:Er; [|discriminate]. apply getitem_ok in Er. destruct (g_app g row) as [g' [e|]] eqn:Eg; [discriminate|]. destruct (append_gens_x g_app rows gens) as [r x] eqn:Ex. injection E as <- ->.
    destruct (IH (fun id => I (S id)) (fun id => J (S id)) (fun id => HA (S id)) r (fun id => HI (S id)) eq_refl) as [H1 H2].
    split; [|cbn [map snd]; rewrite H2; reflexivity]. intros [|id] g0 d0 Hn; cbn [nth_error] in Hn; [|eapply H1; exact Hn]. injection Hn as <- <-. eapply HA; [exact (HI 0 g d eq_refl)|eapply nth_error_some_lt; exact Er|]. rewrite (nth_error_nth _ _ _ Er). exact Eg.
  Qed.
  Lemma shift_all_x_ok e : forall cns cns', shift_all_x c_step e cns = (cns', None) -> Forall2 (fun x y => snd y = snd x /\ fst y = after [e] (fst x)) cns cns'.
  Proof.
    induction cns as [|[c ids] cns IH]; intros cns' E; cbn [shift_all_x] in E; [injection E as <-; constructor|]. destruct (c_step c e) as [c' [x|]] eqn:Ec; [discriminate|]. destruct (shift_all_x c_step e cns) as [r x] eqn:Er. injection E as <- ->.
    constructor; [|apply IH; reflexivity]. split; [reflexivity|]. cbn [fst]. unfold SRaise.after. cbn [fold_left]. rewrite Ec. reflexivity.
  Qed.

  Variables (self : bool) (m W Wq ndim : nat) (tmb : Z) (dims : list nat) (cs : list (C * list nat)).
  Variables (Inv : nat -> list X -> list X -> G -> Prop) (F : nat -> list X -> list X -> nat -> list num).
  Hypothesis Hm : 1 <= m <= W.
  Hypothesis HmQ : m <= Wq.
  Hypothesis HWq : self = true -> Wq = W.
  Hypothesis Htmb : (-1 <= tmb)%Z.
  Hypothesis Hdim : forall d, In d dims -> d < ndim.
  Hypothesis Hids : forall c ids id, In (c, ids) cs -> In id ids -> id < length dims.
  Hypothesis Hnd : 0 < ndim.
  Variable valid : list X -> Prop.
  Variable lets : nat -> nat -> option nat -> Prop.
  Hypothesis HMS : may_stream_if self m W Wq valid F lets g_col g_app_s g_app_q Inv.
  Notation dim := (fun id => nth id dims 0).
  Notation heard := (heard self m W Wq ndim tmb dim F).

  Definition listened (dflt : Prop) (ops : list (xop X)) ss qs (last : Z) (c c' : C * list nat) : Prop :=
    snd c' = snd c /\ exists evs, fst c' = after evs (fst c) /\ heard (snd c) ops ss qs evs /\ (dflt -> forall j, (Z.of_nat j <= last)%Z -> processed c_step (fst c) evs j).

  Record at_x (dflt : Prop) (ops : list (xop X)) (ss qs : list (list X)) (t : stm) : Prop := {
    ax_self : ca_self (st_calc t) = self;
    ax_m : ca_m (st_calc t) = Z.of_nat m;
    ax_nd : ca_ndim (st_calc t) = ndim;
    ax_ns : ca_ns (st_calc t) = Z.of_nat (W + 1 - m);
    ax_nq : ca_nq (st_calc t) = Z.of_nat (Wq + 1 - m);
    ax_tmb : ca_tmb (st_calc t) = tmb;
    ax_dims : map snd (ca_gens (st_calc t)) = dims;
    ax_last : (-1 <= ca_last (st_calc t))%Z;
    ax_sp : st_sp t = Z.of_nat (length (hd [] ss));
    ax_qp : self = false -> st_qp t = Z.of_nat (length (hd [] qs));
    ax_as : length (hd [] ss) = length (arrived ndim 0 ops);
    ax_aq : length (hd [] qs) = if self then 0 else length (arrived_q ndim 0 ops);
    ax_ss : block ndim (length (hd [] ss)) ss;
    ax_qs : block ndim (length (hd [] qs)) qs;
    ax_gens : gens_ok (fun id g => Inv id (nth (dim id) ss []) (nth (dim id) qs []) g) (ca_gens (st_calc t));
    ax_cons : Forall2 (listened dflt ops ss qs (ca_last (st_calc t))) cs (ca_cons (st_calc t))
  }.

  Lemma listened_ids dflt ops ss qs last cns : Forall2 (listened dflt ops ss qs last) cs cns -> map snd cns = map snd cs.
  Proof. generalize cs. induction 1 as [|x y l l' [H _] _ IH]; [reflexivity|]. cbn [map]. congruence. Qed.

  Lemma sshift_app' (es es' : list (event num)) : sshift (es ++ es') = (sshift es + sshift es')%Z.
  Proof. induction es as [|e es IH]; [reflexivity|]. cbn [app sshift]. rewrite IH. lia. Qed.
  Lemma sshift_pos (es : list (event num)) : (0 <= sshift es)%Z.
  Proof. induction es as [|e es IH]; [cbn; lia|]. cbn [sshift]. destruct e; cbn [event_sshift]; lia. Qed.
  Lemma processed_app c evs evs' j k : sshift evs' = Z.of_nat k -> processed c_step c evs (j + k) -> processed c_step c (evs ++ evs') j.
  Proof.
    intros Hs (pre & vals & post & -> & Hn). pose proof (sshift_pos post) as Hp. assert (E : j + Z.to_nat (sshift (post ++ evs')) = j + k + Z.to_nat (sshift post)) by (rewrite sshift_app', Hs; lia).
    exists pre, vals, (post ++ evs'). rewrite E. split; [rewrite <- app_assoc; reflexivity|exact Hn].
  Qed.

  Lemma arrived_rows (ops : list (xop X)) v rows n : rows_are ndim v rows n -> length (arrived ndim 0 (ops ++ [XSeries v])) = length (arrived ndim 0 ops) + n /\ arrived_q ndim 0 (ops ++ [XSeries v]) = arrived_q ndim 0 ops.
  Proof.
    intros HR. pose proof (rows_block HR) as HB. unfold arrived, arrived_q. rewrite !flat_map_app. cbn [flat_map]. rewrite !app_nil_r, app_length. split; [|reflexivity]. f_equal.
    destruct HR as (R1 & R2 & R3). destruct v as [xs|rs]; subst rows; [rewrite map_length in R1|]; rewrite R1, Nat.eqb_refl; apply (block_nth HB Hnd).
  Qed.
  Lemma arrived_qrows (ops : list (xop X)) v rows n : rows_are ndim v rows n -> length (arrived_q ndim 0 (ops ++ [XQuery v])) = length (arrived_q ndim 0 ops) + n /\ arrived ndim 0 (ops ++ [XQuery v]) = arrived ndim 0 ops.
  Proof.
    intros HR. pose proof (rows_block HR) as HB. unfold arrived, arrived_q. rewrite !flat_map_app. cbn [flat_map]. rewrite !app_nil_r, app_length. split; [|reflexivity]. f_equal.
    destruct HR as (R1 & R2 & R3). destruct v as [xs|rs]; subst rows; [rewrite map_length in R1|]; rewrite R1, Nat.eqb_refl; apply (block_nth HB Hnd).
  Qed.
  Lemma arrived_cols (ops : list (xop X)) intr start upto : arrived ndim 0 (ops ++ [XCols intr start upto]) = arrived ndim 0 ops /\ arrived_q ndim 0 (ops ++ [XCols intr start upto]) = arrived_q ndim 0 ops.
  Proof. unfold arrived, arrived_q. rewrite !flat_map_app. cbn [flat_map]. rewrite !app_nil_r. split; reflexivity. Qed.
  Lemma arrived_misfit (ops : list (xop X)) op : misfit self ndim op -> arrived ndim 0 (ops ++ [op]) = arrived ndim 0 ops /\ (self = false -> arrived_q ndim 0 (ops ++ [op]) = arrived_q ndim 0 ops).
  Proof.
    intro Hop. unfold arrived, arrived_q. rewrite !flat_map_app. cbn [flat_map]. rewrite !app_nil_r.
    destruct op as [[xs|rs]|[xs|rs]|]; cbn [misfit as_rows] in Hop; [| | | |destruct Hop]; try (split; [destruct (_ =? ndim); [discriminate|apply app_nil_r]|intros _; apply app_nil_r]).
    all: split; [apply app_nil_r|]; intro Es; destruct Hop as [Hop|Hop]; [congruence|]; destruct (_ =? ndim); [discriminate|apply app_nil_r].
  Qed.

  Lemma at_misfit dflt ops ss qs t op : at_x dflt ops ss qs t -> misfit self ndim op -> fst (xcall t op) = t /\ at_x dflt (ops ++ [op]) ss qs t.
  Proof.
    intros H Hop. split.
    - destruct op as [v|v|]; cbn [misfit MStreamRaise.xcall] in *; [| |destruct Hop].
      + unfold append_series_x. rewrite (ax_nd H), Hop. reflexivity.
      + unfold append_query_x. rewrite (ax_self H), (ax_nd H). destruct Hop as [->|Hop]; [reflexivity|]. destruct self; [reflexivity|]. rewrite Hop. reflexivity.
    - destruct (arrived_misfit ops op Hop) as [A1 A2]. destruct H. constructor; try assumption; [rewrite A1; assumption|rewrite ax_aq0; destruct self; [reflexivity|rewrite A2 by reflexivity; reflexivity]|]. clear - ax_cons0 Hop. revert ax_cons0. generalize cs. intros cs0 ax_cons0. induction ax_cons0 as [|x y l l' (E1 & evs & E2 & E3 & E4) _ IH]; constructor; [|exact IH]. split; [exact E1|]. exists evs. split; [exact E2|]. split; [apply heard_misfit; assumption|exact E4].
  Qed.

  (** All consumers receive the same calls. *)
  Lemma listened_shift dflt ops ops' ss qs ss' qs' last last' k (evs : list (event num)) cns cns' :
    Forall2 (listened dflt ops ss qs last) cs cns -> Forall2 (fun x y => snd y = snd x /\ fst y = after evs (fst x)) cns cns' ->
    (forall ids es, heard ids ops ss qs es -> heard ids ops' ss' qs' (es ++ evs)) -> sshift evs = Z.of_nat k -> (forall j, (Z.of_nat j <= last')%Z -> (Z.of_nat (j + k) <= last)%Z) ->
    Forall2 (listened dflt ops' ss' qs' last') cs cns'.
  Proof.
    intros HL HS HH Hk Hlast. revert cns' HS. revert HL. generalize cs. intros cs0 HL. induction HL as [|x y l l' (E1 & es & E2 & E3 & E4) _ IH]; intros cns' HS; inversion HS as [|? z ? cns2 [Z1 Z2] HS']; subst; constructor; [|apply IH; exact HS'].
    split; [congruence|]. exists (es ++ evs). split; [rewrite (after_app c_step), <- E2; exact Z2|]. split; [apply HH, E3|]. intros HD j Hj. eapply processed_app; [exact Hk|]. apply E4; [exact HD|]. apply Hlast, Hj.
  Qed.
  Lemma forall2_trans_after e e' (a b c : list (C * list nat)) : Forall2 (fun x y => snd y = snd x /\ fst y = after e (fst x)) a b -> Forall2 (fun x y => snd y = snd x /\ fst y = after e' (fst x)) b c ->
    Forall2 (fun x y => snd y = snd x /\ fst y = after (e ++ e') (fst x)) a c.
  Proof.
    intro H. revert c. induction H as [|x y l l' [E1 E2] _ IH]; intros c H; inversion H as [|? z ? c' [Z1 Z2] H']; subst; constructor; [|apply IH; exact H']. split; [congruence|]. rewrite (after_app c_step), <- E2. exact Z2.
  Qed.
  Lemma forall2_self (a : list (C * list nat)) : Forall2 (fun x y => snd y = snd x /\ fst y = after [] (fst x)) a a.
  Proof. induction a as [|x a IH]; constructor; [split; reflexivity|exact IH]. Qed.

  Lemma gens_dim_x dflt ops ss qs t id g d : at_x dflt ops ss qs t -> nth_error (ca_gens (st_calc t)) id = Some (g, d) -> d = dim id /\ d < ndim.
  Proof.
    intros H E. assert (E' : nth_error dims id = Some d) by (rewrite <- (ax_dims H), nth_error_map, E; reflexivity). split; [symmetry; apply nth_error_nth; exact E'|]. apply Hdim. eapply nth_error_In; exact E'.
  Qed.

  (** The generators after the points of [rows] *)
  Lemma gens_after dflt ops ss qs t (g_app : G -> list X -> G * option exn) rows gens (J : nat -> G -> Prop) : at_x dflt ops ss qs t -> length rows = ndim ->
    (forall id g g', Inv id (nth (dim id) ss []) (nth (dim id) qs []) g -> dim id < ndim -> g_app g (nth (dim id) rows []) = (g', None) -> J id g') ->
    append_gens_x g_app rows (ca_gens (st_calc t)) = (gens, None) -> gens_ok J gens /\ map snd gens = dims.
  Proof.
    intros H L HA E. 
    assert (K : forall gens0 gens' off, (forall id g d, nth_error gens0 id = Some (g, d) -> Inv (off + id) (nth (dim (off + id)) ss []) (nth (dim (off + id)) qs []) g /\ d = dim (off + id) /\ d < ndim) -> append_gens_x g_app rows gens0 = (gens', None) ->
      (forall id g d, nth_error gens' id = Some (g, d) -> J (off + id) g) /\ map snd gens' = map snd gens0).
    { induction gens0 as [|[g d] gens0 IH]; intros gens' off HI Ea; cbn [append_gens_x] in Ea; [injection Ea as <-; split; [intros [|] ? ? Hn; discriminate|reflexivity]|].
      destruct (getitem rows d) as [row|e] eqn:Er; [|discriminate]. apply getitem_ok in Er. destruct (g_app g row) as [g' [e|]] eqn:Eg; [discriminate|]. destruct (append_gens_x g_app rows gens0) as [r x] eqn:Ex. injection Ea as <- ->.
      destruct (IH r (S off)) as [H1 H2]; [intros id g0 d0 Hn; replace (S off + id) with (off + S id) by lia; exact (HI (S id) g0 d0 Hn)|reflexivity|].
      destruct (HI 0 g d eq_refl) as (I1 & I2 & I3). split; [|cbn [map snd]; rewrite H2; reflexivity]. intros [|id] g0 d0 Hn; cbn [nth_error] in Hn.
      - injection Hn as <- <-. eapply HA; [exact I1|rewrite <- I2; exact I3|]. rewrite <- I2, (nth_error_nth _ _ _ Er). exact Eg.
      - replace (off + S id) with (S off + id) by lia. eapply H1. exact Hn. }
    destruct (K (ca_gens (st_calc t)) gens 0) as [K1 K2]; [|exact E|].
    - intros id g d Hn. cbn [Nat.add]. destruct (@gens_dim_x _ _ _ _ _ _ _ _ H Hn). split; [eapply (ax_gens H); exact Hn|auto].
    - split; [exact K1|rewrite K2; exact (ax_dims H)].
  Qed.

  Lemma at_series dflt ops ss qs t v : at_x dflt ops ss qs t -> is_array valid (XSeries v) -> (forall rows n, rows_are ndim v rows n -> lets (length (hd [] ss)) (length (hd [] qs)) (Some n)) -> snd (xcall t (XSeries v)) = None -> exists ss', at_x dflt (ops ++ [XSeries v]) ss' qs (fst (xcall t (XSeries v))).
  Proof.
    intros H Ha HLt. cbn [MStreamRaise.xcall]. unfold append_series_x. rewrite (ax_nd H). destruct (as_rows ndim v) as [rows|e] eqn:Er; [|discriminate]. destruct (@rows_given X valid _ _ _ Er) as (n & HR & HV); [exact Ha|].
    destruct (append_gens_x g_app_s rows _) as [gens [e|]] eqn:Eg; [discriminate|]. pose proof (rows_block HR) as HB. rewrite (block_hd Hnd HB). cbn zeta.
    set (s := length (hd [] ss)). destruct (block_append (ax_ss H) HB) as [B1 B2]. fold s in B1.
    assert (Ew : window_shift (ca_ns (st_calc t) + ca_m (st_calc t) - 1) (st_sp t) (Z.of_nat n) = Z.of_nat (lost W (s + n) - lost W s)).
    { rewrite (ax_ns H), (ax_m H), (ax_sp H). replace (Z.of_nat (W + 1 - m) + Z.of_nat m - 1)%Z with (Z.of_nat W) by lia. apply shift_points. lia. }
    rewrite Ew. set (k := lost W (s + n) - lost W s) in *. rewrite Nat2Z.id.
    assert (Hdims : forall id, id < length dims -> dim id < ndim) by (intros id Hid; apply Hdim, nth_In, Hid).
    destruct (@gens_after dflt ops ss qs t g_app_s rows gens (fun id g => Inv id (nth (dim id) (append_rows ss rows) []) (nth (dim id) qs []) g) H (proj1 HB)) as [G1 G2]; [|exact Eg|].
    { intros id g g' HI Hd Ega. rewrite B2 by exact Hd. destruct (HMS HI) as (M1 & _). assert (Lr : length (nth (dim id) rows []) = n) by (apply (block_nth HB Hd)). eapply M1; [|  |exact Ega]; [rewrite Lr, (block_nth (ax_ss H) Hd), (block_nth (ax_qs H) Hd); eapply HLt; exact HR|]. apply HV, nth_In. rewrite (proj1 HB). exact Hd. }
    assert (Es : forall cns last, (-1 <= last)%Z -> Forall2 (listened dflt (ops ++ [XSeries v]) (append_rows ss rows) qs last) cs cns -> at_x dflt (ops ++ [XSeries v]) (append_rows ss rows) qs (mkStm (ca_upd (st_calc t) gens cns last) (st_sp t + Z.of_nat n)%Z (st_qp t))).
    { intros cns last Hl HL. constructor; cbn [st_calc ca_upd ca_self ca_m ca_ndim ca_ns ca_nq ca_tmb ca_gens ca_cons ca_last st_sp st_qp]; try apply H; try assumption.
      - rewrite (ax_sp H), (block_hd Hnd B1). fold s. lia.
      - destruct (arrived_rows ops HR) as [A1 _]. rewrite A1, (block_hd Hnd B1), <- (ax_as H). reflexivity.
      - destruct (arrived_rows ops HR) as [_ A2]. rewrite A2. apply (ax_aq H).
      - rewrite (block_hd Hnd B1). exact B1. }
    assert (HH : forall ids es, heard ids ops ss qs es -> heard ids (ops ++ [XSeries v]) (append_rows ss rows) qs (es ++ if k =? 0 then [] else EShiftS k :: if self then [EShiftQ k] else [])).
    { intros ids es He. pose proof (heard_series (n := n) He HR) as K. cbn zeta in K. fold s in K. fold k in K. clearbody k. destruct k; exact K. }
    destruct (Z.eqb_spec (Z.of_nat k) 0) as [E0|E0]; cbn [fst snd].
    - intros _. exists (append_rows ss rows). apply Es; [apply H|]. assert (k = 0) as Ek by lia. rewrite Ek in HH. eapply listened_shift with (k := 0) (evs := []); [exact (ax_cons H)|apply forall2_self|exact HH|reflexivity|]. intros j Hj. rewrite Nat.add_0_r. exact Hj.
    - destruct (shift_all_x c_step _ (ca_cons (st_calc t))) as [cns [e|]] eqn:E1; [discriminate|]. apply shift_all_x_ok in E1. rewrite (ax_self H). destruct k as [|k'] eqn:Ek; [lia|]. clear Ek.
      destruct (if self then shift_all_x c_step (EShiftQ (S k')) cns else (cns, None)) as [cns' [e|]] eqn:E2; [discriminate|]. intros _. exists (append_rows ss rows). apply Es; [lia|]. cbn [Nat.eqb] in HH.
      assert (E3 : Forall2 (fun x y => snd y = snd x /\ fst y = after (EShiftS (S k') :: if self then [EShiftQ (S k')] else []) (fst x)) (ca_cons (st_calc t)) cns').
      { change (EShiftS (S k') :: if self then [EShiftQ (S k')] else []) with ([EShiftS (S k')] ++ if self then [@EShiftQ num (S k')] else []). eapply forall2_trans_after; [exact E1|]. destruct self; [apply shift_all_x_ok; exact E2|injection E2 as <-; apply forall2_self]. }
      eapply listened_shift with (k := S k'); [exact (ax_cons H)|exact E3|exact HH|destruct self; cbn; lia|]. intros j Hj. lia.
  Qed.

  Lemma at_query dflt ops ss qs t v : at_x dflt ops ss qs t -> is_array valid (XQuery v) -> snd (xcall t (XQuery v)) = None -> exists qs', at_x dflt (ops ++ [XQuery v]) ss qs' (fst (xcall t (XQuery v))).
  Proof.
    intros H Ha. cbn [MStreamRaise.xcall]. unfold append_query_x. rewrite (ax_nd H). destruct (ca_self (st_calc t)) eqn:Ecs; [discriminate|]. assert (Eself : self = false) by (rewrite <- (ax_self H); exact Ecs). destruct (as_rows ndim v) as [rows|e] eqn:Er; [|discriminate]. destruct (@rows_given X valid _ _ _ Er) as (n & HR & HV); [exact Ha|].
    destruct (append_gens_x g_app_q rows _) as [gens [e|]] eqn:Eg; [discriminate|]. pose proof (rows_block HR) as HB. rewrite (block_hd Hnd HB). cbn zeta.
    set (q := length (hd [] qs)). destruct (block_append (ax_qs H) HB) as [B1 B2]. fold q in B1.
    assert (Ew : window_shift (ca_nq (st_calc t) + ca_m (st_calc t) - 1) (st_qp t) (Z.of_nat n) = Z.of_nat (lost Wq (q + n) - lost Wq q)).
    { rewrite (ax_nq H), (ax_m H), (ax_qp H) by exact Eself. replace (Z.of_nat (Wq + 1 - m) + Z.of_nat m - 1)%Z with (Z.of_nat Wq) by lia. apply shift_points. lia. }
    rewrite Ew. set (k := lost Wq (q + n) - lost Wq q) in *. rewrite Nat2Z.id.
    destruct (@gens_after dflt ops ss qs t g_app_q rows gens (fun id g => Inv id (nth (dim id) ss []) (nth (dim id) (append_rows qs rows) []) g) H (proj1 HB)) as [G1 G2]; [|exact Eg|].
    { intros id g g' HI Hd Ega. rewrite B2 by exact Hd. destruct (HMS HI) as (_ & M1 & _). eapply M1; [exact Eself| |exact Ega]. apply HV, nth_In. rewrite (proj1 HB). exact Hd. }
    assert (Es : forall cns, Forall2 (listened dflt (ops ++ [XQuery v]) ss (append_rows qs rows) (ca_last (st_calc t))) cs cns -> at_x dflt (ops ++ [XQuery v]) ss (append_rows qs rows) (mkStm (ca_upd (st_calc t) gens cns (ca_last (st_calc t))) (st_sp t) (st_qp t + Z.of_nat n)%Z)).
    { intros cns HL. constructor; cbn [st_calc ca_upd ca_self ca_m ca_ndim ca_ns ca_nq ca_tmb ca_gens ca_cons ca_last st_sp st_qp]; try apply H; try assumption.
      - intros _. rewrite (ax_qp H) by exact Eself. rewrite (block_hd Hnd B1). fold q. lia.
      - destruct (arrived_qrows ops HR) as [_ A2]. rewrite A2. apply (ax_as H).
      - destruct (arrived_qrows ops HR) as [A1 _]. pose proof (ax_aq H) as A3. rewrite (block_hd Hnd B1). clear - A1 A3 Eself. subst q. rewrite Eself in *. lia.
      - rewrite (block_hd Hnd B1). exact B1. }
    assert (HH : forall ids es, heard ids ops ss qs es -> heard ids (ops ++ [XQuery v]) ss (append_rows qs rows) (es ++ if k =? 0 then [] else [EShiftQ k])).
    { intros ids es He. pose proof (heard_query (n := n) Eself He HR) as K. cbn zeta in K. fold q in K. fold k in K. clearbody k. destruct k; exact K. }
    destruct (Z.eqb_spec (Z.of_nat k) 0) as [E0|E0]; cbn [fst snd].
    - intros _. exists (append_rows qs rows). apply Es. assert (k = 0) as Ek by lia. rewrite Ek in HH. eapply listened_shift with (k := 0) (evs := []); [exact (ax_cons H)|apply forall2_self|exact HH|reflexivity|]. intros j Hj. rewrite Nat.add_0_r. exact Hj.
    - destruct (shift_all_x c_step _ (ca_cons (st_calc t))) as [cns [e|]] eqn:E1; [discriminate|]. apply shift_all_x_ok in E1. destruct k as [|k'] eqn:Ek; [lia|]. clear Ek. intros _. exists (append_rows qs rows). apply Es. 
      eapply listened_shift with (k := 0); [exact (ax_cons H)|exact E1|exact HH|reflexivity|]. intros j Hj. rewrite Nat.add_0_r. exact Hj.
  Qed.

  Lemma at_columns (dflt : Prop) ops ss qs t intr start upto : at_x dflt ops ss qs t -> lets (length (hd [] ss)) (length (hd [] qs)) None -> (dflt -> start = None) -> at_x dflt (ops ++ [XCols intr start upto]) ss qs (fst (xcall t (XCols intr start upto))).
  Proof.
    intros H HLt Hst. destruct (arrived_cols ops intr start upto) as [A1 A2]. set (w := subseqs m W (length (hd [] ss))). set (h := subseqs m Wq (length (hd [] (if self then ss else qs)))).
    assert (Ec : stm_max_column t = Z.of_nat w) by (unfold stm_max_column, w, subseqs; rewrite (ax_sp H), (ax_m H), (ax_ns H); lia).
    assert (Eh : stm_max_row t = Z.of_nat h).
    { unfold stm_max_row. rewrite Ec, (ax_self H). unfold h, w. pose proof (ax_qp H) as Eq. pose proof HWq as Ew. destruct self; [rewrite Ew by reflexivity; reflexivity|]. unfold subseqs. rewrite (Eq eq_refl), (ax_m H), (ax_nq H). lia. }
    assert (Same : at_x dflt (ops ++ [XCols intr start upto]) ss qs t).
    { destruct H. constructor; try assumption; [rewrite A1; assumption|rewrite A2; assumption|]. clear - ax_cons0. revert ax_cons0. generalize cs. intros cs0 ax_cons0. induction ax_cons0 as [|x y l l' (E1 & evs & E2 & E3 & E4) _ IH]; constructor; [|exact IH]. split; [exact E1|]. exists evs. split; [exact E2|]. split; [|exact E4].
      rewrite <- (app_nil_r evs). change (@nil (event num)) with (map (fun j => ECol j (map (fun id => hide tmb j (F id (nth (dim id) ss []) (nth (dim id) qs []) j)) (snd x))) (seq 0 0)). apply heard_columns; [exact E3|lia]. }
    cbn [MStreamRaise.xcall]. unfold stm_columns_x, calculate_columns_x. rewrite Ec, Eh.
    destruct (ratio_to_int (match start with None => _ | Some _ => _ end) _ _) as [c|e] eqn:E1; cbn [bind]; [|destruct t; exact Same].
    destruct (ratio_to_int upto _ _) as [u|e] eqn:E2; cbn [bind]; [|destruct t; exact Same]. destruct (Z.ltb_spec (Z.of_nat h) 0) as [E3|E3]; [lia|]. cbn [bind]. rewrite Nat2Z.id.
    assert (B : forall r full x, ratio_to_int r full (Z.of_nat w) = Ok x -> (0 <= x <= Z.of_nat w)%Z) by (intros [z|[| |qq|]|] full x Ex; cbn in Ex; try discriminate; [injection Ex as <-; lia|destruct (_ || _); [discriminate|]; injection Ex as <-; lia]).
    pose proof (B _ _ _ E1) as B1. pose proof (B _ _ _ E2) as B2. rewrite <- (Z2Nat.id c), <- (Z2Nat.id u) by lia.
    match goal with |- context [col_loop_x _ _ ?f intr 0 ?ids ?r ?c' ?u' ?st] => destruct (col_loop_x g_col c_step f intr 0 ids r c' u' st) as [[s' d'] e] eqn:El end. cbn [fst snd].
    assert (Bh : h = subseqs m Wq (length (hd [] (if self then ss else qs)))) by reflexivity.
    assert (HG : may_give g_col (fun id g => dim id < ndim /\ Inv id (nth (dim id) ss []) (nth (dim id) qs []) g) (fun id j => F id (nth (dim id) ss []) (nth (dim id) qs []) j) (fun c => c < w) (fun _ => h)).
    { intros id g j [Hd HI] Hj. destruct (HMS HI) as (_ & _ & M). destruct (M j) as [M1 M2]; [rewrite (block_nth (ax_ss H) Hd), (block_nth (ax_qs H) Hd); exact HLt|rewrite (block_nth (ax_ss H) Hd); exact Hj|]. split; [split; assumption|]. intros v Ev. destruct (M2 v Ev) as [-> L]. split; [reflexivity|]. rewrite L. unfold h. f_equal. destruct self; [apply (block_nth (ax_ss H) Hd)|apply (block_nth (ax_qs H) Hd)]. }
    assert (HF : fine (fun id g => dim id < ndim /\ Inv id (nth (dim id) ss []) (nth (dim id) qs []) g) tmb (st_calc t)).
    { split; [exact (ax_tmb H)|]. split; [intros id g d Hn; split; [destruct (@gens_dim_x _ _ _ _ _ _ _ _ H Hn) as [<- ?]; assumption|eapply (ax_gens H); exact Hn]|].
      intros c0 ids id Hc Hid. rewrite <- (map_length snd (ca_gens (st_calc t))), (ax_dims H). assert (Hin : In ids (map snd cs)) by (rewrite <- (listened_ids (ax_cons H)); apply in_map_iff; exists (c0, ids); auto). apply in_map_iff in Hin. destruct Hin as ([c1 ids1] & E & Hin). cbn [snd] in E. subst ids1. eapply Hids; eassumption. }
    eapply (@loop_x _ _ h w tmb HG Htmb dflt (Z.to_nat u) intr) in El; [|lia|lia| |exact HF|]; [destruct El as (L1 & L2 & L3 & L4)| |].
    2: intro HD; rewrite (Hst HD) in E1; cbn in E1; injection E1 as <-; pose proof (ax_last H); lia.
    2: split; [apply repeat_length|]; intros row Hr; apply repeat_spec in Hr; subst row; apply repeat_length.
    - destruct L2 as (K1 & K2 & K3). unfold same_conf in K1. destruct K1 as (K11 & K12 & K13 & K14 & K15 & K16). destruct L1 as (_ & L1 & _).
      constructor; cbn [st_calc st_sp st_qp]; try apply H; try (rewrite ?K11, ?K12, ?K13, ?K14, ?K15, ?K16, ?K2; apply H).
      + pose proof (ax_last H). lia.
      + rewrite A1. apply (ax_as H).
      + rewrite A2. apply (ax_aq H).
      + intros id g d Hn. eapply L1. exact Hn.
      + pose proof (ax_cons H) as HC. revert HC L4. clear E1 E2 E3. generalize cs (ca_cons (st_calc t)) (ca_cons s'). intros cs0 cns cns' HC. revert cns'. induction HC as [|x y l l' (E1 & es & E2 & E3 & E4) _ IH]; intros cns' L4; inversion L4 as [|? z ? cns2 (Z1 & n & Z2 & Z3 & Z4) L4']; subst; constructor; [|apply IH; exact L4'].
        split; [congruence|]. exists (es ++ col_events (fun id j => F id (nth (dim id) ss []) (nth (dim id) qs []) j) tmb (snd x) (Z.to_nat c) n). rewrite E1 in *. split; [rewrite (after_app c_step), <- E2; exact Z3|]. split; [apply heard_columns; [exact E3|exact Z2]|].
        intros HD j Hj. destruct (Z4 HD j Hj) as [Hj'|[Hj' Hn]].
        * eapply processed_app with (k := 0); [|rewrite Nat.add_0_r; apply E4; assumption]. unfold col_events. clear. generalize (seq (Z.to_nat c) n). intro l. induction l as [|a l IH]; [reflexivity|]. cbn [map sshift]. rewrite IH. reflexivity.
        * set (ce := col_event (fun id j => F id (nth (dim id) ss []) (nth (dim id) qs []) j) tmb (snd x)) in *.
          assert (Sp : seq (Z.to_nat c) n = seq (Z.to_nat c) (j - Z.to_nat c) ++ j :: seq (S j) (Z.to_nat c + n - S j)).
          { replace n with ((j - Z.to_nat c) + S (Z.to_nat c + n - S j)) at 1 by lia. rewrite seq_app. f_equal. cbn [seq]. f_equal; [lia|]. f_equal. lia. }
          assert (S0 : forall l, sshift (map ce l) = 0%Z) by (induction l0 as [|a l0 IHl]; [reflexivity|]; cbn [map sshift]; rewrite IHl; reflexivity).
          exists (es ++ map ce (seq (Z.to_nat c) (j - Z.to_nat c))), (map (fun id => hide tmb j (F id (nth (dim id) ss []) (nth (dim id) qs []) j)) (snd x)), (map ce (seq (S j) (Z.to_nat c + n - S j))). rewrite S0, Nat.add_0_r. split.
          -- unfold col_events. fold ce. rewrite Sp, map_app. cbn [map]. rewrite <- app_assoc. reflexivity.
          -- rewrite (after_app c_step), <- E2. exact Hn.
  Qed.

  Lemma paced_init (ops : list (xop X)) op : paced lets self ndim (ops ++ [op]) -> paced lets self ndim ops.
  Proof. intros H pre o post E. apply (H pre o (post ++ [op])). rewrite E, <- app_assoc. reflexivity. Qed.

  Lemma at_run (dflt : Prop) t0 : at_x dflt [] (repeat [] ndim) (repeat [] ndim) t0 -> forall ops, Forall (is_array valid) ops -> paced lets self ndim ops -> (dflt -> Forall (@default_start X) ops) ->
    appends_return self ndim g_col g_app_s g_app_q c_step set_order ops t0 -> exists ss qs, at_x dflt ops ss qs (go_on ops t0).
  Proof.
    intros H0 ops. induction ops as [|op ops IH] using rev_ind; intros HA HP HD HR; [exists (repeat [] ndim), (repeat [] ndim); exact H0|].
    apply Forall_app in HA. destruct HA as [HA HA']. inversion HA' as [|? ? Ha _]; subst. assert (HD' : dflt -> default_start op) by (intro X0; specialize (HD X0); apply Forall_app in HD; destruct HD as [_ HD]; inversion HD; assumption).
    pose proof (HP ops op [] eq_refl) as HLt. apply paced_init in HP. destruct IH as (ss & qs & IH); [exact HA|exact HP|intro X0; specialize (HD X0); apply Forall_app in HD; apply HD|intros pre o post E; specialize (HR pre o (post ++ [op])); rewrite E, <- app_assoc in HR; exact (HR eq_refl)|].
    specialize (HR ops op [] eq_refl). cbn zeta in HLt. rewrite <- (ax_as IH), <- (ax_aq IH) in HLt. unfold MStreamRaise.go_on. rewrite fold_left_app. cbn [fold_left]. change (fold_left _ ops t0) with (go_on ops t0).
    assert (Mis : misfit self ndim op -> exists ss' qs', at_x dflt (ops ++ [op]) ss' qs' (fst (xcall (go_on ops t0) op))) by (intro Hm'; destruct (at_misfit _ IH Hm') as [-> HH]; eauto).
    destruct op as [v|v|intr start upto].
    - destruct HR as [Hm'|Hn]; [exact (Mis Hm')|]. destruct (@at_series dflt ops ss qs _ v IH Ha HLt Hn) as [ss' HH]. eauto.
    - destruct HR as [Hm'|Hn]; [exact (Mis Hm')|]. destruct (@at_query dflt ops ss qs _ v IH Ha Hn) as [qs' HH]. eauto.
    - exists ss, qs. apply at_columns; [exact IH|exact HLt|exact HD'].
  Qed.

  (** ** Appends return when the generators accept the points and the consumers can be shifted *)
  Section Return.
    Hypothesis HGS : forall id s q g xs, Inv id s q g -> lets (length s) (length q) (Some (length xs)) -> valid xs -> snd (g_app_s g xs) = None.
    Hypothesis HGQ : self = false -> forall id s q g xs, Inv id s q g -> valid xs -> snd (g_app_q g xs) = None.
    Hypothesis HQ : forall c ids, In (c, ids) cs -> shifts_return (fun ops ss qs evs => heard ids ops ss qs evs /\ paced lets self ndim ops) c_step c.

    Lemma gens_return (g_app : G -> list X -> G * option exn) rows (I : nat -> G -> Prop) : (forall id g xs, I id g -> In xs rows -> snd (g_app g xs) = None) ->
      forall gens, (forall id g d, nth_error gens id = Some (g, d) -> I id g /\ d < length rows) -> snd (append_gens_x g_app rows gens) = None.
    Proof.
      intros HA gens. revert I HA. induction gens as [|[g d] gens IH]; intros I HA HI; [reflexivity|]. cbn [append_gens_x]. destruct (HI 0 g d eq_refl) as [I1 I2].
      rewrite (proj2 (getitem_ok rows d _) (nth_error_nth' rows [] I2)). destruct (g_app g _) as [g' x] eqn:Eg. pose proof (HA 0 g (nth d rows []) I1 (nth_In _ _ I2)) as K. rewrite Eg in K. cbn [snd] in K. subst x.
      specialize (IH (fun id => I (S id)) (fun id => HA (S id)) (fun id => HI (S id))). destruct (append_gens_x g_app rows gens). exact IH.
    Qed.
    Lemma shift_returns e : forall cns, Forall (fun c => snd (c_step (fst c) e) = None) cns -> snd (shift_all_x c_step e cns) = None.
    Proof.
      induction cns as [|[c ids] cns IH]; intro HF; [reflexivity|]. inversion HF as [|? ? H1 H2]; subst. cbn [shift_all_x fst] in *. destruct (c_step c e) as [c' x]. cbn [snd] in H1. subst x. specialize (IH H2). destruct (shift_all_x c_step e cns). exact IH.
    Qed.
    Lemma at_returns dflt ops ss qs t op : at_x dflt ops ss qs t -> is_array valid op -> paced lets self ndim (ops ++ [op]) -> match op with XCols _ _ _ => True | _ => misfit self ndim op \/ snd (xcall t op) = None end.
    Proof.
      intros H Ha HP. pose proof (HP ops op [] eq_refl) as HLt. cbn zeta in HLt. rewrite <- (ax_as H), <- (ax_aq H) in HLt. destruct op as [v|v|intr start upto]; [| |exact I].
      - cbn [misfit MStreamRaise.xcall]. destruct (as_rows ndim v) as [rows|e] eqn:Er; [|left; destruct v; cbn [as_rows] in Er; destruct (_ =? _); congruence]. right.
        unfold append_series_x. rewrite (ax_nd H), Er. destruct (@rows_given X valid _ _ _ Er) as (n & HR & HV); [exact Ha|]. pose proof (rows_block HR) as HB.
        assert (K : snd (append_gens_x g_app_s rows (ca_gens (st_calc t))) = None).
        { apply (@gens_return g_app_s rows (fun id g => Inv id (nth (dim id) ss []) (nth (dim id) qs []) g /\ dim id < ndim)); [intros id g xs [HI Hd] Hx; eapply HGS; [exact HI| |exact (HV xs Hx)]; rewrite (block_nth (ax_ss H) Hd), (block_nth (ax_qs H) Hd), (proj2 HB xs Hx); eapply HLt; exact HR|]. intros id g d Hn. split; [split; [eapply (ax_gens H); exact Hn|destruct (@gens_dim_x _ _ _ _ _ _ _ _ H Hn) as [<- ?]; assumption]|]. rewrite (proj1 HB). exact (proj2 (@gens_dim_x _ _ _ _ _ _ _ _ H Hn)). }
        destruct (append_gens_x g_app_s rows _) as [gens x]. cbn [snd] in K. subst x. rewrite (block_hd Hnd HB). cbn zeta. set (s := length (hd [] ss)).
        assert (Ew : window_shift (ca_ns (st_calc t) + ca_m (st_calc t) - 1) (st_sp t) (Z.of_nat n) = Z.of_nat (lost W (s + n) - lost W s)).
        { rewrite (ax_ns H), (ax_m H), (ax_sp H). replace (Z.of_nat (W + 1 - m) + Z.of_nat m - 1)%Z with (Z.of_nat W) by lia. apply shift_points. lia. }
        rewrite Ew. set (k := lost W (s + n) - lost W s) in *. rewrite Nat2Z.id. destruct (Z.eqb_spec (Z.of_nat k) 0) as [E0|E0]; [reflexivity|].
        assert (HH : forall ids es, heard ids ops ss qs es -> heard ids (ops ++ [XSeries v]) (append_rows ss rows) qs (es ++ EShiftS k :: if self then [EShiftQ k] else [])).
        { intros ids es He. pose proof (heard_series (n := n) He HR) as K. cbn zeta in K. fold s in K. fold k in K. clearbody k. destruct k; [lia|exact K]. }
        pose proof (ax_cons H) as HL.
        assert (K1 : snd (shift_all_x c_step (EShiftS k) (ca_cons (st_calc t))) = None).
        { apply shift_returns. apply Forall_forall. intros c' Hc'. destruct (forall2_right HL _ Hc') as ([c ids] & Hc & _ & es & E2 & E3 & _). rewrite E2. eapply HQ; [exact Hc|split; [exact (HH _ _ E3)|exact HP]|exact I]. }
        destruct (shift_all_x c_step _ (ca_cons (st_calc t))) as [cns x] eqn:E1. cbn [snd] in K1. subst x. apply shift_all_x_ok in E1. rewrite (ax_self H). destruct (Bool.bool_dec self true) as [Eself|Eself]; [|apply Bool.not_true_is_false in Eself; rewrite Eself; reflexivity].
        assert (Ei : (if self then [EShiftQ k] else []) = [@EShiftQ num k]) by (rewrite Eself; reflexivity). rewrite Ei in HH. clear Ei. rewrite Eself.
        assert (K2 : snd (shift_all_x c_step (EShiftQ k) cns) = None).
        { apply shift_returns. apply Forall_forall. intros c2 Hc2. destruct (forall2_right E1 _ Hc2) as (c' & Hc' & _ & E2'). destruct (forall2_right HL _ Hc') as ([c ids] & Hc & _ & es & E2 & E3 & _).
          rewrite E2', E2. cbn [fst]. rewrite <- (after_app c_step). eapply HQ with (post := []); [exact Hc| |exact I]. split; [|exact HP]. rewrite <- app_assoc. exact (HH _ _ E3). }
        destruct (shift_all_x c_step _ cns) as [cns' x]. cbn [snd] in K2. subst x. reflexivity.
      - cbn [misfit MStreamRaise.xcall]. unfold append_query_x. destruct (Bool.bool_dec self true) as [Eself|Eself]; [left; left; exact Eself|]. apply Bool.not_true_is_false in Eself. rewrite (ax_self H), Eself.
        destruct (as_rows ndim v) as [rows|e] eqn:Er; [|left; right; destruct v; cbn [as_rows] in Er; destruct (_ =? _); congruence]. right.
        rewrite (ax_nd H), Er. destruct (@rows_given X valid _ _ _ Er) as (n & HR & HV); [exact Ha|]. pose proof (rows_block HR) as HB.
        assert (K : snd (append_gens_x g_app_q rows (ca_gens (st_calc t))) = None).
        { apply (@gens_return g_app_q rows (fun id g => Inv id (nth (dim id) ss []) (nth (dim id) qs []) g)); [intros id g xs HI Hx; eapply HGQ; [exact Eself|exact HI|exact (HV xs Hx)]|]. intros id g d Hn. split; [eapply (ax_gens H); exact Hn|]. rewrite (proj1 HB). exact (proj2 (@gens_dim_x _ _ _ _ _ _ _ _ H Hn)). }
        destruct (append_gens_x g_app_q rows _) as [gens x]. cbn [snd] in K. subst x. rewrite (block_hd Hnd HB). cbn zeta. set (q := length (hd [] qs)).
        assert (Ew : window_shift (ca_nq (st_calc t) + ca_m (st_calc t) - 1) (st_qp t) (Z.of_nat n) = Z.of_nat (lost Wq (q + n) - lost Wq q)).
        { rewrite (ax_nq H), (ax_m H), (ax_qp H) by exact Eself. replace (Z.of_nat (Wq + 1 - m) + Z.of_nat m - 1)%Z with (Z.of_nat Wq) by lia. apply shift_points. lia. }
        rewrite Ew. set (k := lost Wq (q + n) - lost Wq q) in *. rewrite Nat2Z.id. destruct (Z.eqb_spec (Z.of_nat k) 0) as [E0|E0]; [reflexivity|].
        assert (HH : forall ids es, heard ids ops ss qs es -> heard ids (ops ++ [XQuery v]) ss (append_rows qs rows) (es ++ [EShiftQ k])).
        { intros ids es He. pose proof (heard_query (n := n) Eself He HR) as K. cbn zeta in K. fold q in K. fold k in K. clearbody k. destruct k; [lia|exact K]. }
        pose proof (ax_cons H) as HL.
        assert (K1 : snd (shift_all_x c_step (EShiftQ k) (ca_cons (st_calc t))) = None).
        { apply shift_returns. apply Forall_forall. intros c' Hc'. destruct (forall2_right HL _ Hc') as ([c ids] & Hc & _ & es & E2 & E3 & _). rewrite E2. eapply HQ; [exact Hc|split; [exact (HH _ _ E3)|exact HP]|exact I]. }
        destruct (shift_all_x c_step _ (ca_cons (st_calc t))) as [cns x]. cbn [snd] in K1. subst x. reflexivity.
    Qed.
    Lemma run_returns t0 : at_x False [] (repeat [] ndim) (repeat [] ndim) t0 -> forall ops, Forall (is_array valid) ops -> paced lets self ndim ops -> appends_return self ndim g_col g_app_s g_app_q c_step set_order ops t0.
    Proof.
      intros H0 ops. induction ops as [|o ops IH] using rev_ind; intros HA HP pre op post E; [destruct pre; discriminate|].
      apply Forall_app in HA. destruct HA as [HA HA']. inversion HA' as [|? ? Ha _]; subst. pose proof HP as HP'. apply paced_init in HP'. specialize (IH HA HP').
      destruct (exists_last (l := op :: post) ltac:(discriminate)) as (post' & o' & E'). rewrite E', app_assoc in E. apply app_inj_tail in E. destruct E as [E1 <-].
      destruct post' as [|p post'].
      - cbn [app] in E'. injection E' as -> _. rewrite app_nil_r in E1. subst pre. destruct (@at_run False t0 H0 ops HA HP' ltac:(intros []) IH) as (ss & qs & AX). exact (at_returns _ AX Ha HP).
      - cbn [app] in E'. injection E' as <- _. exact (IH pre op post' E1).
    Qed.
  End Return.
End Raise.
