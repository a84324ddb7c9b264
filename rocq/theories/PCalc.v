(** * PCalc: calculators *)
From Coq Require Import QArith Qround Permutation.
From Verif Require Import Np NpFacts Mat MUtil SLog PLog PSort MCalc SCalc.
Set Implicit Arguments.
Open Scope nat_scope.

(** ** Requests *)
Lemma resolves_ok r full limit v : (0 <= full)%Z -> resolves r full limit v <-> ratio_to_int r full limit = Ok v.
Proof.
  intro HF. destruct r as [z|[| |q|]|]; cbn [resolves ratio_to_int]; try (split; [intros []|discriminate]).
  - split; [intros ->; reflexivity|intro E; injection E as ->; reflexivity].
  - set (x := (q * inject_Z full)%Q). split.
    + intros (H0 & H1 & k & Hk & Hmin & ->). rewrite (proj2 (Qle_bool_iff _ _) H0), (proj2 (Qle_bool_iff _ _) H1). cbn [negb orb].
      assert (Qceiling x = k).
      { apply Z.le_antisymm; [|apply Hmin, Qle_ceiling]. pose proof (Qceiling_resp_le _ _ Hk) as X. rewrite Qceiling_Z in X. exact X. }
      rewrite H. assert (0 <= k)%Z; [|rewrite Z.max_r by assumption; reflexivity].
      rewrite <- H. change 0%Z with (Qceiling 0). apply Qceiling_resp_le. unfold x. apply Qmult_le_0_compat; [exact H0|]. change 0%Q with (inject_Z 0). rewrite <- Zle_Qle. exact HF.
    + destruct (Qle_bool 0 q) eqn:E0; [|discriminate]. destruct (Qle_bool q 1) eqn:E1; [|discriminate]. cbn [negb orb]. intro E. injection E as <-.
      apply Qle_bool_iff in E0, E1. split; [exact E0|]. split; [exact E1|]. exists (Qceiling x). split; [apply Qle_ceiling|]. split.
      * intros k' Hk'. pose proof (Qceiling_resp_le _ _ Hk') as X. rewrite Qceiling_Z in X. exact X.
      * f_equal. apply Z.max_r. change 0%Z with (Qceiling 0). apply Qceiling_resp_le. unfold x. apply Qmult_le_0_compat; [exact E0|]. change 0%Q with (inject_Z 0). rewrite <- Zle_Qle. exact HF.
Qed.

(** ** Interrupted loops *)
Lemma runs_exists intr total : exists n, runs intr n total.
Proof.
  revert intr. induction total as [|t IH]; intro intr.
  - exists 0. split; [lia|]. split; intros; lia.
  - destruct (intr 0) eqn:E.
    + exists 0. split; [lia|]. split; [intros; lia|intros; exact E].
    + destruct (IH (fun k => intr (S k))) as (n & H1 & H2 & H3). exists (S n). split; [lia|]. split.
      * intros [|i] Hi; [exact E|]. apply (H2 i). lia.
      * intro Hn. apply (H3 ltac:(lia)).
Qed.
Lemma runs_never n total : runs never n total -> n = total.
Proof. intros (H1 & _ & H3). destruct (Nat.eq_dec n total); [assumption|]. specialize (H3 ltac:(lia)). discriminate. Qed.
Lemma runs_never_iff n total : runs never n total <-> n = total.
Proof. split; [apply runs_never|]. intros ->. split; [lia|]. split; [reflexivity|lia]. Qed.

Section Calc.
  Context {A : Type}.
  Notation num := (Np.num A).
  Variables (X G C : Type).
  Variable c_step : C -> event num -> res C.
  Variable set_order : list nat -> list nat.
  Hypothesis HSO : orders_sets set_order.

  Lemma run_gens_ok (g_calc : G -> res (G * list num)) (I I' : nat -> G -> Prop) (F : nat -> list num) n : forall ids gens dists,
    (forall id g, In id ids -> I id g -> exists g', g_calc g = Ok (g', F id) /\ I' id g' /\ length (F id) = n) ->
    (forall id g, ~ In id ids -> I id g -> I' id g) ->
    NoDup ids -> gens_ok I gens -> (forall id, In id ids -> id < length gens) -> length dists = length gens -> (forall row, In row dists -> n <= length row) ->
    exists gens' dists', run_gens g_calc n ids gens dists = Ok (gens', dists') /\
      gens_ok I' gens' /\ map snd gens' = map snd gens /\ length dists' = length dists /\ (forall L, (forall row, In row dists -> length row = L) -> forall row, In row dists' -> length row = L) /\
      (forall id, In id ids -> exists row, nth_error dists' id = Some row /\ firstn n row = F id) /\
      (forall id, ~ In id ids -> nth_error dists' id = nth_error dists id).
  Proof.
    intros ids gens dists HC HC' HND HG.
    cut (NoDup ids -> (forall id g d, nth_error gens id = Some (g, d) -> In id ids -> I id g) -> (forall id, In id ids -> id < length gens) -> length dists = length gens -> (forall row, In row dists -> n <= length row) ->
    exists gens' dists', run_gens g_calc n ids gens dists = Ok (gens', dists') /\
      (forall id g d, nth_error gens' id = Some (g, d) -> In id ids -> I' id g) /\ (forall id, ~ In id ids -> nth_error gens' id = nth_error gens id) /\
      map snd gens' = map snd gens /\ length dists' = length dists /\ (forall L, (forall row, In row dists -> length row = L) -> forall row, In row dists' -> length row = L) /\
      (forall id, In id ids -> exists row, nth_error dists' id = Some row /\ firstn n row = F id) /\
      (forall id, ~ In id ids -> nth_error dists' id = nth_error dists id)).
    { intros HX HI HL HR. destruct HX as (gens' & dists' & E & G1 & G1' & G2 & G3); auto. { intros id g d H _. eapply HG; exact H. }
      exists gens', dists'. split; [exact E|]. split; [|auto]. intros id g d Hn. destruct (in_dec Nat.eq_dec id ids) as [Hi|Hi]; [eapply G1; eassumption|].
      apply HC'; [exact Hi|]. rewrite G1' in Hn by exact Hi. eapply HG; exact Hn. }
    clear HC' HND HG. unfold run_gens. revert gens dists HC. induction ids as [|id ids IH]; intros gens dists HC HND HG HI HL HR.
    - exists gens, dists. split; [reflexivity|]. split; [intros id g d _ []|]. do 4 (split; [auto|]). split; [intros id []|reflexivity].
    - cbn [foldM fst snd]. apply NoDup_cons_iff in HND. destruct HND as [HN1 HN2]. pose proof (HI id (or_introl eq_refl)) as Hid.
      destruct (@nth_error_lt_some _ gens id Hid) as [[g d] Hg]. rewrite (proj2 (getitem_ok _ _ _) Hg). cbn [bind fst snd].
      destruct (HC id g (or_introl eq_refl) (HG _ _ _ Hg (or_introl eq_refl))) as (g' & -> & HI' & HLF). cbn [bind fst snd].
      destruct (@nth_error_lt_some _ dists id) as [row Hrow]; [lia|]. rewrite (proj2 (getitem_ok _ _ _) Hrow). cbn [bind].
      assert (Hn : n <= length row) by (apply HR; eapply nth_error_In; exact Hrow).
      rewrite set_slice_ok by lia. cbn [bind]. rewrite setitem_ok by lia. cbn [bind]. rewrite setitem_ok by lia. cbn [bind].
      set (row' := splice row 0 (F id)).
      assert (Lrow : length row' = length row) by (unfold row'; rewrite length_splice; lia).
      set (gens1 := splice gens id [(g', d)]). set (dists1 := splice dists id [row']).
      assert (Lg : length gens1 = length gens) by (apply length_set1; lia). assert (Ld : length dists1 = length dists) by (apply length_set1; lia).
      assert (Ndists : forall j, nth_error dists1 j = if j =? id then Some row' else nth_error dists j) by (intro j; apply nth_error_set1; lia).
      assert (Ngens : forall j, nth_error gens1 j = if j =? id then Some (g', d) else nth_error gens j) by (intro j; apply nth_error_set1; lia).
      destruct (IH gens1 dists1) as (gens' & dists' & E & G1 & G1' & G2 & G3 & G4 & G5 & G6).
      + intros id' g0 Hi. apply HC. right. exact Hi.
      + exact HN2.
      + intros id' g0 d0 H0 Hi. rewrite Ngens in H0. destruct (Nat.eqb_spec id' id); [exfalso; congruence|eapply HG; [exact H0|right; exact Hi]].
      + intros id' Hi. rewrite Lg. apply HI. right. exact Hi.
      + lia.
      + intros r Hr. apply In_nth_error in Hr. destruct Hr as [j Hj]. rewrite Ndists in Hj. destruct (j =? id); [injection Hj as <-; lia|]. apply HR. eapply nth_error_In; exact Hj.
      + exists gens', dists'. split; [exact E|]. split.
        { intros j g0 d0 Hj [<-|Hi]; [|eapply G1; eassumption]. rewrite G1' in Hj by exact HN1. rewrite Ngens, Nat.eqb_refl in Hj. injection Hj as <- <-. exact HI'. }
        split. { intros j Hj. rewrite G1' by (intro H; apply Hj; right; exact H). rewrite Ngens. destruct (Nat.eqb_spec j id); [exfalso; apply Hj; left; congruence|reflexivity]. }
        split.
        { rewrite G2. apply nth_error_ext. intro j. rewrite !nth_error_map, Ngens. destruct (Nat.eqb_spec j id); [subst; rewrite Hg; reflexivity|reflexivity]. }
        split; [lia|]. split.
        { intros L HLL. apply G4. intros r Hr. apply In_nth_error in Hr. destruct Hr as [j Hj]. rewrite Ndists in Hj. destruct (j =? id); [injection Hj as <-; rewrite Lrow; apply HLL; eapply nth_error_In; exact Hrow|apply HLL; eapply nth_error_In; exact Hj]. }
        split.
        * intros j [<-|Hj]; [|apply G5; exact Hj]. rewrite (G6 _ HN1), Ndists, Nat.eqb_refl. exists row'. split; [reflexivity|].
          unfold row', splice. cbn [firstn app]. rewrite firstn_app, <- HLF, firstn_all, Nat.sub_diag. cbn [firstn]. apply app_nil_r.
        * intros j Hj. rewrite G6 by (intro H; apply Hj; right; exact H). rewrite Ndists. destruct (Nat.eqb_spec j id); [exfalso; apply Hj; left; congruence|reflexivity].
  Qed.

  Lemma mapM_getitem (dists : list (list num)) (F : nat -> list num) ids : (forall id, In id ids -> nth_error dists id = Some (F id)) ->
    mapM (getitem dists) ids = Ok (map F ids).
  Proof.
    induction ids as [|id ids IH]; intro H; [reflexivity|]. cbn [mapM map]. rewrite (proj2 (getitem_ok _ _ _) (H id (or_introl eq_refl))). cbn [bind].
    rewrite IH by (intros; apply H; right; assumption). reflexivity.
  Qed.

  (** Delivering a row of calls is exactly what the consumers do *)
  Lemma deliver_iff mk dists (F : nat -> list num) cns cns' :
    (forall c ids id, In (c, ids) cns -> In id ids -> nth_error dists id = Some (F id)) ->
    deliver c_step mk dists cns = Ok cns' <-> receive c_step (fun ids => mk (map F ids)) cns cns'.
  Proof.
    unfold deliver, receive. revert cns'. induction cns as [|[c ids] cns IH]; intros cns' H.
    - cbn [mapM]. split; [intro E; injection E as <-; constructor|intro E; inversion E; reflexivity].
    - cbn [mapM fst snd]. rewrite (mapM_getitem dists F) by (intros; eapply H; [left; reflexivity|assumption]). cbn [bind].
      assert (IH' := fun cns' => IH cns' (fun c ids id Hc Hi => H c ids id (or_intror Hc) Hi)).
      split.
      + intro E. destruct (foldM c_step (mk (map F ids)) c) as [c1|] eqn:E1; [|discriminate]. cbn [bind] in E.
        destruct (mapM _ cns) as [l|] eqn:E2; [|discriminate]. injection E as <-. constructor; [split; [reflexivity|exact E1]|apply IH'; reflexivity].
      + intro R. inversion R as [|x y l l' [R1 R2] R3]; subst. cbn [fst snd] in R1, R2. rewrite R2. cbn [bind]. apply IH' in R3. rewrite R3. destruct y as [y1 y2]. cbn [fst snd] in *. subst y2. reflexivity.
  Qed.

  Lemma receive_nil evs cs cs' : (forall ids, evs ids = []) -> receive c_step evs cs cs' <-> cs' = cs.
  Proof.
    intro H. unfold receive. split.
    - induction 1 as [|x y l l' [H1 H2] _ IH]; [reflexivity|]. rewrite H in H2. injection H2 as H2. f_equal; [|exact IH]. destruct x, y; cbn [fst snd] in *; congruence.
    - intros ->. induction cs as [|x l IH]; constructor; [split; [reflexivity|rewrite H; reflexivity]|exact IH].
  Qed.
  Lemma receive_app e1 e2 cs cs' : receive c_step (fun ids => e1 ids ++ e2 ids) cs cs' <-> exists cs1, receive c_step e1 cs cs1 /\ receive c_step e2 cs1 cs'.
  Proof.
    unfold receive. split.
    - induction 1 as [|x y l l' [H1 H2] _ IH]; [exists []; split; constructor|]. rewrite foldM_app in H2. destruct (foldM c_step (e1 (snd x)) (fst x)) as [c1|] eqn:E; [|discriminate]. cbn [bind] in H2.
      destruct IH as (cs1 & R1 & R2). exists ((c1, snd x) :: cs1). split; constructor; auto.
    - intros (cs1 & R1 & R2). revert cs' R2. induction R1 as [|x y l l' [H1 H2] _ IH]; intros cs' R2; inversion R2 as [|y' z m m' [H3 H4] R3]; subst; constructor.
      + split; [congruence|]. rewrite foldM_app, H2. cbn [bind]. rewrite H1 in H4. exact H4.
      + apply IH. exact R3.
  Qed.
  Lemma receive_ext e1 e2 cs cs' : (forall c ids, In (c, ids) cs -> e1 ids = e2 ids) -> receive c_step e1 cs cs' -> receive c_step e2 cs cs'.
  Proof.
    unfold receive. intros H R. induction R as [|x y l l' [H1 H2] _ IH]; constructor.
    - split; [exact H1|]. rewrite <- (H (fst x) (snd x)) by (left; destruct x; reflexivity). exact H2.
    - apply IH. intros c ids Hi. eapply H. right. exact Hi.
  Qed.
  Lemma receive_ids e cs cs' : receive c_step e cs cs' -> map snd cs' = map snd cs.
  Proof. induction 1 as [|x y l l' [H1 _] _ IH]; [reflexivity|]. cbn [map]. congruence. Qed.
  Lemma receive_fun e cs c1 c2 : receive c_step e cs c1 -> receive c_step e cs c2 -> c1 = c2.
  Proof.
    intro H. revert c2. induction H as [|x y l l' [H1 H2] _ IH]; intros c2 R; inversion R as [|x' y' m m' [H3 H4] R3]; subst; [reflexivity|].
    f_equal; [destruct y, y'; cbn [fst snd] in *; congruence|apply IH, R3].
  Qed.
  Lemma ids_ok_same (gens gens' : list (G * nat)) (cs cs' : list (C * list nat)) : length gens' = length gens -> map snd cs' = map snd cs -> ids_ok gens cs -> ids_ok gens' cs'.
  Proof.
    intros HL HM H c ids id Hc Hi. rewrite HL. assert (In ids (map snd cs)) by (rewrite <- HM; apply in_map_iff; exists (c, ids); auto).
    apply in_map_iff in H0. destruct H0 as ([c0 ids0] & E & Hin). cbn [snd] in E. subst ids0. eapply H; eassumption.
  Qed.
  Lemma needed_spec (gens : list (G * nat)) (s : calc G C) : ids_ok gens (ca_cons s) -> NoDup (needed set_order s) /\ (forall id, In id (needed set_order s) -> id < length gens) /\
    forall c ids id, In (c, ids) (ca_cons s) -> In id ids -> In id (needed set_order s).
  Proof.
    intro H. unfold needed. destruct (HSO (concat (map snd (ca_cons s)))) as [H1 H2]. split; [exact H1|]. split.
    - intros id Hi. apply H2, in_concat in Hi. destruct Hi as (ids & Hin & Hid). apply in_map_iff in Hin. destruct Hin as ([c ids'] & E & Hin). cbn [snd] in E. subst ids'. eapply H; eassumption.
    - intros c ids id Hc Hi. apply H2, in_concat. exists ids. split; [apply in_map_iff; exists (c, ids); auto|exact Hi].
  Qed.

  (** ** Columns *)
  Lemma hide_mask tmb c (row : list num) : (-1 <= tmb)%Z -> (if (0 <=? tmb)%Z then fill_slice row (Z.to_nat (Z.max 0 (Z.of_nat c - tmb))) (Z.to_nat (Z.of_nat c + tmb + 1)) PInf else row) = hide tmb c row.
  Proof.
    intro H. unfold hide. apply nth_error_ext. intro i. rewrite nth_error_mapi. destruct (Z.leb_spec 0 tmb) as [Hp|Hn].
    - rewrite nth_error_fill_slice. destruct (nth_error row i) as [v|] eqn:E; cbn [option_map].
      + apply nth_error_some_lt in E. destruct (Nat.ltb_spec i (length row)); [|lia].
        destruct (Z.leb_spec (Z.abs (Z.of_nat i - Z.of_nat c)) tmb);
          destruct (Nat.leb_spec (Z.to_nat (Z.max 0 (Z.of_nat c - tmb))) i); destruct (Nat.ltb_spec i (Z.to_nat (Z.of_nat c + tmb + 1))); cbn [andb]; try reflexivity; lia.
      + apply nth_error_None in E. destruct (Nat.ltb_spec i (length row)); [lia|]. rewrite andb_false_r. reflexivity.
    - destruct (nth_error row i); cbn [option_map]; [|reflexivity]. destruct (Z.leb_spec (Z.abs (Z.of_nat i - Z.of_nat c)) tmb); [lia|reflexivity].
  Qed.

  Definition same_conf (s s' : calc G C) : Prop := ca_self s' = ca_self s /\ ca_m s' = ca_m s /\ ca_ndim s' = ca_ndim s /\ ca_ns s' = ca_ns s /\ ca_nq s' = ca_nq s /\ ca_tmb s' = ca_tmb s.

  Section Columns.
    Variable g_col : G -> nat -> res (G * list num).
    (** [I c id g]: state of generator [id] when the columns before [c] have been calculated *)
    Variables (N : list nat) (I : nat -> nat -> G -> Prop) (F : nat -> nat -> list num) (cols rows : nat).
    Hypothesis HG : forall id g c, In id N -> I c id g -> c < cols -> exists g', g_col g c = Ok (g', F id c) /\ I (S c) id g' /\ length (F id c) = rows.
    Hypothesis HG' : forall id g c, ~ In id N -> I c id g -> I (S c) id g.

    (** Invariant of the loop's state *)
    Definition col_inv (s0 : calc G C) (c : nat) (st : calc G C * list (list num)) : Prop :=
      same_conf s0 (fst st) /\ gens_ok (I c) (ca_gens (fst st)) /\ map snd (ca_gens (fst st)) = map snd (ca_gens s0) /\ map snd (ca_cons (fst st)) = map snd (ca_cons s0) /\
      length (snd st) = length (ca_gens s0) /\ (forall row, In row (snd st) -> length row = rows).

    Lemma col_step_ok s0 st c : N = needed set_order s0 -> ids_ok (ca_gens s0) (ca_cons s0) -> (-1 <= ca_tmb s0)%Z -> c < cols -> col_inv s0 c st ->
      exists gens' dists', (forall cns', map snd cns' = map snd (ca_cons s0) -> col_inv s0 (S c) (ca_upd (fst st) gens' cns' (Z.max (Z.of_nat c) (ca_last (fst st))), dists')) /\
        forall st', col_step g_col c_step (needed set_order s0) rows st (Z.of_nat c) = Ok st' <->
          exists cns', receive c_step (column_calls F (ca_tmb s0) c 1) (ca_cons (fst st)) cns' /\
            st' = (ca_upd (fst st) gens' cns' (Z.max (Z.of_nat c) (ca_last (fst st))), dists').
    Proof.
      intros HN HI HT Hc (J1 & J2 & J3 & J4 & J5 & J6). destruct st as [s dists]. cbn [fst snd] in *.
      assert (HIs : ids_ok (ca_gens s) (ca_cons s)) by (eapply ids_ok_same; [|exact J4|exact HI]; rewrite <- (map_length snd), J3, map_length; reflexivity).
      destruct (@needed_spec (ca_gens s0) s0 HI) as (N1 & N2 & N3).
      assert (Lg : length (ca_gens s) = length (ca_gens s0)) by (rewrite <- (map_length snd), J3, map_length; reflexivity).
      destruct (@run_gens_ok (fun g => g_col g c) (I c) (I (S c)) (fun id => F id c) rows (needed set_order s0) (ca_gens s) dists) as (gens' & dists' & E & G1 & G2 & G3 & G4 & G5 & G6); auto.
      { intros id g Hid. subst N. auto. } { intros id g Hid. subst N. auto. } { intros id Hid. rewrite Lg. auto. } { lia. } { intros row Hr. rewrite (J6 row Hr). lia. }
      specialize (G4 rows J6).
      exists gens', (mask_column (ca_tmb s0) (Z.of_nat c) dists'). unfold col_step. cbn [fst snd]. rewrite Nat2Z.id, E. cbn [bind fst snd].
      destruct J1 as (C1 & C2 & C3 & C4 & C5 & C6). rewrite C6.
      assert (Hm : forall row, In row (mask_column (ca_tmb s0) (Z.of_nat c) dists') -> length row = rows).
      { intros row Hr. unfold mask_column in Hr. destruct (0 <=? ca_tmb s0)%Z; [|auto]. apply in_map_iff in Hr. destruct Hr as (r0 & <- & Hr0). rewrite length_fill_slice. auto. }
      split.
      - intros cns' Hcn. repeat (split; [cbn [fst snd ca_upd ca_self ca_m ca_ndim ca_ns ca_nq ca_tmb ca_gens ca_cons]|]); try assumption; try congruence.
        unfold mask_column. destruct (0 <=? ca_tmb s0)%Z; [rewrite map_length|]; lia.
      - intro st'. unfold column_calls. cbn [seq map].
        assert (HD : forall c0 ids id, In (c0, ids) (ca_cons s) -> In id ids -> nth_error (mask_column (ca_tmb s0) (Z.of_nat c) dists') id = Some (hide (ca_tmb s0) c (F id c))).
        { intros c0 ids id Hc0 Hid. assert (Hn : In id (needed set_order s0)).
          { assert (Hin : In ids (map snd (ca_cons s0))) by (rewrite <- J4; apply in_map_iff; exists (c0, ids); auto).
            apply in_map_iff in Hin. destruct Hin as ([c1 ids1] & E1 & Hin). cbn [snd] in E1. subst ids1. eapply N3; eassumption. }
          destruct (G5 id Hn) as (row & Hrow & Hf). rewrite firstn_all2 in Hf by (rewrite (G4 row); [lia|eapply nth_error_In; exact Hrow]). subst row.
          rewrite <- (hide_mask c (F id c) HT). unfold mask_column. destruct (0 <=? ca_tmb s0)%Z; [rewrite nth_error_map|]; rewrite Hrow; reflexivity. }
        split.
        + intro Est. apply bind_ok in Est. destruct Est as (cns' & Ed & Est). injection Est as <-. exists cns'. split; [|reflexivity].
          apply (deliver_iff (fun vals => [ECol c vals]) _ (fun id => hide (ca_tmb s0) c (F id c)) _ _ HD). exact Ed.
        + intros (cns' & Hr & ->). apply (deliver_iff (fun vals => [ECol c vals]) _ (fun id => hide (ca_tmb s0) c (F id c)) _ _ HD) in Hr. rewrite Hr. reflexivity.
    Qed.

    Lemma col_loop_ok s0 upto n : N = needed set_order s0 -> ids_ok (ca_gens s0) (ca_cons s0) -> (-1 <= ca_tmb s0)%Z -> upto <= cols -> forall fuel intr k c st, col_inv s0 c st -> upto - c < fuel ->
      runs (fun i => intr (k + i)) n (upto - c) ->
      let post := fun st' : calc G C * list (list num) => col_inv s0 (c + n) st' /\ ca_last (fst st') = (if n =? 0 then ca_last (fst st) else Z.max (ca_last (fst st)) (Z.of_nat (c + n) - 1)) in
      let ev := column_calls F (ca_tmb s0) c n in
      (forall st', col_loop g_col c_step fuel intr k (needed set_order s0) rows (Z.of_nat c) (Z.of_nat upto) st = Ok st' -> post st' /\ receive c_step ev (ca_cons (fst st)) (ca_cons (fst st'))) /\
      (forall cns', receive c_step ev (ca_cons (fst st)) cns' -> exists st', col_loop g_col c_step fuel intr k (needed set_order s0) rows (Z.of_nat c) (Z.of_nat upto) st = Ok st' /\ ca_cons (fst st') = cns').
    Proof.
      intros HN HI HT HU. induction n as [|n IH]; intros fuel intr k c st HJ Hf (R1 & R2 & R3); (destruct fuel as [|fuel]; [lia|]); cbv zeta; cbn [col_loop].
      - assert (Est : (Z.of_nat c <? Z.of_nat upto)%Z && negb (intr k) = false).
        { destruct (Z.ltb_spec (Z.of_nat c) (Z.of_nat upto)); [|reflexivity]. rewrite Nat.add_0_r in R3. rewrite R3 by lia. reflexivity. }
        rewrite Est. cbn [Nat.eqb]. split.
        + intros st' E. injection E as <-. split; [split; [rewrite Nat.add_0_r; exact HJ|reflexivity]|]. apply receive_nil; [reflexivity|reflexivity].
        + intros cns' Hr. apply receive_nil in Hr; [|reflexivity]. subst cns'. exists st. auto.
      - assert (Est : (Z.of_nat c <? Z.of_nat upto)%Z && negb (intr k) = true).
        { apply andb_true_iff. split; [apply Z.ltb_lt; lia|]. specialize (R2 0 ltac:(lia)). rewrite Nat.add_0_r in R2. rewrite R2. reflexivity. }
        rewrite Est. destruct (@col_step_ok s0 st c HN HI HT ltac:(lia) HJ) as (gens' & dists' & HP & HS).
        replace (Z.of_nat c + 1)%Z with (Z.of_nat (S c)) by lia.
        assert (HR : runs (fun i => intr (S k + i)) n (upto - S c)).
        { split; [lia|]. split.
          - intros i Hi. specialize (R2 (S i) ltac:(lia)). rewrite Nat.add_succ_r in R2. exact R2.
          - intro Hn. specialize (R3 ltac:(lia)). rewrite Nat.add_succ_r in R3. exact R3. }
        assert (Hev : forall ids, column_calls F (ca_tmb s0) c (S n) ids = column_calls F (ca_tmb s0) c 1 ids ++ column_calls F (ca_tmb s0) (S c) n ids) by reflexivity.
        split.
        + intros st' E. apply bind_ok in E. destruct E as (st1 & E1 & E). apply HS in E1. destruct E1 as (cns1 & Hr1 & ->).
          assert (HJ1 := HP cns1 (eq_trans (receive_ids Hr1) (proj1 (proj2 (proj2 (proj2 HJ)))))).
          destruct (IH fuel intr (S k) (S c) _ HJ1 ltac:(lia) HR) as [IH1 _]. destruct (IH1 st' E) as [[HJ' HL] Hr2]. cbn [fst ca_upd ca_cons ca_last] in *.
          split; [split; [rewrite Nat.add_succ_r; exact HJ'|]|].
          * cbn [Nat.eqb]. rewrite HL. destruct (Nat.eqb_spec n 0); lia.
          * eapply receive_ext; [intros; symmetry; apply Hev|]. apply receive_app. exists cns1. auto.
        + intros cns' Hr. eapply receive_ext in Hr; [|intros; apply Hev]. apply receive_app in Hr. destruct Hr as (cns1 & Hr1 & Hr2).
          assert (HJ1 := HP cns1 (eq_trans (receive_ids Hr1) (proj1 (proj2 (proj2 (proj2 HJ)))))).
          assert (Es := proj2 (HS _) (ex_intro _ cns1 (conj Hr1 eq_refl))). rewrite Es. cbn [bind].
          destruct (IH fuel intr (S k) (S c) _ HJ1 ltac:(lia) HR) as [_ IH2]. apply IH2. exact Hr2.
    Qed.

    (** The state after the loop, apart from the consumers *)
    Definition after_cols (s : calc G C) (c n : nat) (s' : calc G C) : Prop :=
      same_conf s s' /\ gens_ok (I (c + n)) (ca_gens s') /\ map snd (ca_gens s') = map snd (ca_gens s) /\ map snd (ca_cons s') = map snd (ca_cons s) /\
      ca_last s' = (if n =? 0 then ca_last s else Z.max (ca_last s) (Z.of_nat (c + n) - 1)).

    Lemma columns_lemma s intr start upto c u n : N = needed set_order s -> ids_ok (ca_gens s) (ca_cons s) -> gens_ok (I c) (ca_gens s) -> (-1 <= ca_tmb s)%Z -> (0 <= ca_ns s)%Z ->
      resolves (match start with None => RInt (ca_last s + 1) | Some r => r end) (ca_ns s) (Z.of_nat cols) (Z.of_nat c) ->
      resolves upto (ca_ns s) (Z.of_nat cols) (Z.of_nat u) -> runs intr n (u - c) ->
      (forall s', calculate_columns g_col c_step set_order (Z.of_nat cols) (Z.of_nat rows) intr s start upto = Ok s' ->
        after_cols s c n s' /\ receive c_step (column_calls F (ca_tmb s) c n) (ca_cons s) (ca_cons s')) /\
      (forall cns', receive c_step (column_calls F (ca_tmb s) c n) (ca_cons s) cns' ->
        exists s', calculate_columns g_col c_step set_order (Z.of_nat cols) (Z.of_nat rows) intr s start upto = Ok s' /\ ca_cons s' = cns').
    Proof.
      intros HNN HI HG0 HT HN Hc Hu HR. unfold calculate_columns. apply resolves_ok in Hc; [|exact HN]. apply resolves_ok in Hu; [|exact HN].
      rewrite Hc, Hu. cbn [bind]. destruct (Z.ltb_spec (Z.of_nat rows) 0); [lia|]. rewrite Nat2Z.id.
      assert (Hle : u <= cols).
      { assert (HX : forall r full l v, ratio_to_int r full l = Ok v -> (v <= l)%Z).
        { intros r full l v E. destruct r as [z|[| |q|]|]; cbn [ratio_to_int] in E; try discriminate; [injection E as <-; lia|]. destruct (_ || _); [discriminate|]. injection E as <-. lia. }
        apply HX in Hu. lia. }
      set (st := (s, repeat (repeat NaN rows) (length (ca_gens s)))).
      assert (HJ : col_inv s c st).
      { split; [repeat split|]. cbn [fst snd]. do 3 (split; [auto|]). split; [apply repeat_length|]. intros row Hr. apply repeat_spec in Hr. subst row. apply repeat_length. }
      destruct (@col_loop_ok s u n HNN HI HT Hle (S (Z.to_nat (Z.of_nat u - Z.of_nat c))) intr 0 c st HJ ltac:(lia) HR) as [L1 L2]. cbv zeta in L1, L2. split.
      - intros s' E. apply bind_ok in E. destruct E as (st' & E & Es). injection Es as <-. destruct (L1 st' E) as [[(K1 & K2 & K3 & K4 & _) KL] Hr]. split; [|exact Hr].
        split; [exact K1|]. split; [exact K2|]. split; [exact K3|]. split; [exact K4|exact KL].
      - intros cns' Hr. destruct (L2 cns' Hr) as (st' & -> & E). exists (fst st'). auto.
    Qed.
  End Columns.

  (** ** Diagonals *)
  Definition sumz (l : list Z) : Z := fold_right Z.add 0%Z l.
  Lemma sumz_app l l' : sumz (l ++ l') = (sumz l + sumz l')%Z.
  Proof. induction l as [|x l IH]; cbn [sumz app fold_right]; [reflexivity|]. fold (sumz (l ++ l')) (sumz l). lia. Qed.

  (** Number of values on the first [k] diagonals of the order *)
  Definition done_after (a : any X G C) (k : nat) : Z := sumz (map (diag_length (ca_nq (an_calc a)) (ca_ns (an_calc a))) (firstn k (an_order a))).

  Lemma done_S a k d : nth_error (an_order a) k = Some d -> done_after a (S k) = (done_after a k + diag_length (ca_nq (an_calc a)) (ca_ns (an_calc a)) d)%Z.
  Proof.
    intro H. unfold done_after. assert (E : firstn (S k) (an_order a) = firstn k (an_order a) ++ [d]).
    { clear -H. revert k H. induction (an_order a) as [|x l IH]; intros [|k] H; try discriminate; cbn [firstn app nth_error] in *; [congruence|]. f_equal. apply IH, H. }
    rewrite E, map_app, sumz_app. cbn [map sumz fold_right]. lia.
  Qed.

  Definition same_any (a a' : any X G C) : Prop :=
    same_conf (an_calc a) (an_calc a') /\ an_series a' = an_series a /\ an_query a' = an_query a /\ an_order a' = an_order a /\ an_total a' = an_total a /\ ca_last (an_calc a') = ca_last (an_calc a).

  Section Diagonals.
    Variable g_diag : G -> Z -> res (G * list num).
    Variables (I : nat -> G -> Prop) (F : nat -> Z -> list num) (h w : Z).
    Hypothesis HG : gives g_diag I F (fun d => - h < d < w)%Z (fun d => Z.to_nat (diag_length h w d)).

    Definition diag_inv (a0 : any X G C) (st : any X G C * list (list num)) : Prop :=
      same_any a0 (fst st) /\ gens_ok I (ca_gens (an_calc (fst st))) /\ map snd (ca_gens (an_calc (fst st))) = map snd (ca_gens (an_calc a0)) /\
      map snd (ca_cons (an_calc (fst st))) = map snd (ca_cons (an_calc a0)) /\ an_done (fst st) = done_after a0 (an_next (fst st)) /\
      length (snd st) = length (ca_gens (an_calc a0)) /\ (forall row, In row (snd st) -> length row = Z.to_nat (Z.min h w)).

    Variable a0 : any X G C.
    Hypothesis Hh : ca_nq (an_calc a0) = h.
    Hypothesis Hw : ca_ns (an_calc a0) = w.
    Hypothesis Hord : forall d, In d (an_order a0) -> (- h < d < w)%Z.
    Hypothesis Hpos : (0 <= h /\ 0 <= w)%Z.
    Hypothesis HI : ids_ok (ca_gens (an_calc a0)) (ca_cons (an_calc a0)).

    Lemma diag_step_ok st d : diag_inv a0 st -> nth_error (an_order a0) (an_next (fst st)) = Some d ->
      exists gens' dists', (forall cns', map snd cns' = map snd (ca_cons (an_calc a0)) ->
          diag_inv a0 (mkAny (ca_upd (an_calc (fst st)) gens' cns' (ca_last (an_calc (fst st)))) (an_series (fst st)) (an_query (fst st)) (an_order (fst st)) (an_total (fst st)) (S (an_next (fst st))) (an_done (fst st) + diag_length h w d)%Z, dists')) /\
        forall st', diag_step g_diag c_step (needed set_order (an_calc a0)) st = Ok st' <->
          exists cns', receive c_step (diagonal_calls F (ca_self (an_calc a0)) [d]) (ca_cons (an_calc (fst st))) cns' /\
            st' = (mkAny (ca_upd (an_calc (fst st)) gens' cns' (ca_last (an_calc (fst st)))) (an_series (fst st)) (an_query (fst st)) (an_order (fst st)) (an_total (fst st)) (S (an_next (fst st))) (an_done (fst st) + diag_length h w d)%Z, dists').
    Proof.
      intros ((JC & J1 & J2 & J3 & J4 & J4') & J5 & J6 & J7 & J8 & J9 & J10) Hd. destruct st as [a dists]. cbn [fst snd] in *.
      destruct JC as (C1 & C2 & C3 & C4 & C5 & C6).
      assert (Lg : length (ca_gens (an_calc a)) = length (ca_gens (an_calc a0))) by (rewrite <- (map_length snd), J6, map_length; reflexivity).
      destruct (@needed_spec (ca_gens (an_calc a0)) (an_calc a0) HI) as (N1 & N2 & N3).
      assert (Hdd := Hord _ (nth_error_In _ _ Hd)).
      set (n := Z.to_nat (diag_length h w d)) in *.
      assert (Hn : n <= Z.to_nat (Z.min h w)) by (unfold n, diag_length; destruct (0 <=? d)%Z eqn:Ed; [apply Z.leb_le in Ed|apply Z.leb_gt in Ed]; lia).
      destruct (@run_gens_ok (fun g => g_diag g d) I I (fun id => F id d) n (needed set_order (an_calc a0)) (ca_gens (an_calc a)) dists) as (gens' & dists' & E & G1 & G2 & G3 & G4 & G5 & G6); auto.
      { intros id g Hid Hg. exact (HG Hg Hdd). } { intros id Hid. rewrite Lg. auto. } { lia. } { intros row Hr. rewrite (J10 row Hr). exact Hn. }
      specialize (G4 _ J10). exists gens', dists'. unfold diag_step. cbn [fst snd]. rewrite J3, (proj2 (getitem_ok _ _ _) Hd). cbn [bind].
      rewrite C4, C5, Hh, Hw. fold n. rewrite E. cbn [bind fst snd]. rewrite C1. split.
      - intros cns' Hcn. split; [repeat split; assumption|]. cbn [fst snd an_calc ca_upd ca_gens ca_cons an_done an_next].
        split; [exact G1|]. split; [congruence|]. split; [exact Hcn|]. split; [|split; [lia|exact G4]]. rewrite (done_S _ _ Hd), J8, Hh, Hw. reflexivity.
      - intro st'. unfold diagonal_calls. cbn [flat_map app].
        assert (HD : forall c0 ids id, In (c0, ids) (ca_cons (an_calc a)) -> In id ids -> nth_error (map (firstn n) dists') id = Some (F id d)).
        { intros c0 ids id Hc0 Hid. assert (Hne : In id (needed set_order (an_calc a0))).
          { assert (Hin : In ids (map snd (ca_cons (an_calc a0)))) by (rewrite <- J7; apply in_map_iff; exists (c0, ids); auto).
            apply in_map_iff in Hin. destruct Hin as ([c1 ids1] & E1 & Hin). cbn [snd] in E1. subst ids1. eapply N3; eassumption. }
          destruct (G5 id Hne) as (row & Hrow & Hf). rewrite nth_error_map, Hrow. cbn [option_map]. congruence. }
        assert (Hiff := fun cns' => @deliver_iff (diag_calls (ca_self (an_calc a0)) d) (map (firstn n) dists') (fun id => F id d) (ca_cons (an_calc a)) cns' HD).
        assert (Hev : forall cns', receive c_step (fun ids => diag_calls (ca_self (an_calc a0)) d (map (fun id => F id d) ids)) (ca_cons (an_calc a)) cns' <->
                  receive c_step (fun ids => (EDiag d (map (fun id => F id d) ids) :: (if ca_self (an_calc a0) then [EDiag (- d) (map (fun id => F id d) ids)] else [])) ++ []) (ca_cons (an_calc a)) cns').
        { intro cns'. split; apply receive_ext; intros; unfold diag_calls; rewrite app_nil_r; reflexivity. }
        split.
        + intro Est. apply bind_ok in Est. destruct Est as (cns' & Ed & Est). injection Est as <-. exists cns'. split; [|reflexivity]. apply Hev, Hiff, Ed.
        + intros (cns' & Hr & ->). apply Hev, Hiff in Hr. rewrite Hr. reflexivity.
    Qed.

    (** Diagonals that are needed: the first position at which enough values have been calculated *)
    Definition enough (v : Z) (k K : nat) : Prop :=
      k <= K <= length (an_order a0) /\ (v <= done_after a0 K)%Z /\ forall j, k <= j < K -> (done_after a0 j < v)%Z.

    Lemma diag_loop_ok v K n : forall fuel intr i st, diag_inv a0 st -> enough v (an_next (fst st)) K -> K - an_next (fst st) < fuel ->
      runs (fun j => intr (i + j)) n (K - an_next (fst st)) ->
      let ev := diagonal_calls F (ca_self (an_calc a0)) (firstn n (skipn (an_next (fst st)) (an_order a0))) in
      (forall st', diag_loop g_diag c_step fuel intr i (needed set_order (an_calc a0)) v st = Ok st' ->
         diag_inv a0 st' /\ an_next (fst st') = an_next (fst st) + n /\ receive c_step ev (ca_cons (an_calc (fst st))) (ca_cons (an_calc (fst st')))) /\
      (forall cns', receive c_step ev (ca_cons (an_calc (fst st))) cns' ->
         exists st', diag_loop g_diag c_step fuel intr i (needed set_order (an_calc a0)) v st = Ok st' /\ ca_cons (an_calc (fst st')) = cns').
    Proof.
      induction n as [|n IH]; intros fuel intr i st HJ HE Hf (R1 & R2 & R3); (destruct fuel as [|fuel]; [lia|]); cbv zeta; cbn [diag_loop].
      - assert (Est : (an_done (fst st) <? v)%Z && negb (intr i) = false).
        { destruct HE as (E1 & E2 & E3). destruct HJ as (_ & _ & _ & _ & J8 & _). rewrite J8.
          destruct (Nat.eq_dec (an_next (fst st)) K) as [->|Hne]; [apply andb_false_iff; left; apply Z.ltb_ge; exact E2|].
          apply andb_false_iff. right. rewrite Nat.add_0_r in R3. rewrite R3 by lia. reflexivity. }
        rewrite Est. cbn [firstn]. split.
        + intros st' E. injection E as <-. split; [exact HJ|]. split; [lia|]. apply receive_nil; reflexivity.
        + intros cns' Hr. apply receive_nil in Hr; [|reflexivity]. subst cns'. exists st. auto.
      - assert (Est : (an_done (fst st) <? v)%Z && negb (intr i) = true).
        { destruct HE as (E1 & E2 & E3). destruct HJ as (_ & _ & _ & _ & J8 & _). rewrite J8. apply andb_true_iff. split; [apply Z.ltb_lt, E3; lia|].
          specialize (R2 0 ltac:(lia)). rewrite Nat.add_0_r in R2. rewrite R2. reflexivity. }
        rewrite Est. destruct (@nth_error_lt_some _ (an_order a0) (an_next (fst st))) as [d Hd]; [destruct HE; lia|].
        destruct (@diag_step_ok st d HJ Hd) as (gens' & dists' & HP & HS).
        assert (HR : runs (fun j => intr (S i + j)) n (K - S (an_next (fst st)))).
        { split; [lia|]. split.
          - intros j Hj. specialize (R2 (S j) ltac:(lia)). rewrite Nat.add_succ_r in R2. exact R2.
          - intro Hn. specialize (R3 ltac:(lia)). rewrite Nat.add_succ_r in R3. exact R3. }
        assert (HE' : enough v (S (an_next (fst st))) K) by (destruct HE as (E1 & E2 & E3); split; [lia|]; split; [exact E2|]; intros; apply E3; lia).
        assert (Hsk : skipn (an_next (fst st)) (an_order a0) = d :: skipn (S (an_next (fst st))) (an_order a0)).
        { clear -Hd. revert Hd. generalize (an_next (fst st)). induction (an_order a0) as [|x l IH]; intros [|k] H; try discriminate; [injection H as ->; reflexivity|]. exact (IH k H). }
        assert (Hev : forall ids, diagonal_calls F (ca_self (an_calc a0)) (firstn (S n) (skipn (an_next (fst st)) (an_order a0))) ids =
                   diagonal_calls F (ca_self (an_calc a0)) [d] ids ++ diagonal_calls F (ca_self (an_calc a0)) (firstn n (skipn (S (an_next (fst st))) (an_order a0))) ids).
        { intro ids. rewrite Hsk. cbn [firstn]. unfold diagonal_calls. cbn [flat_map]. rewrite app_nil_r. reflexivity. }
        split.
        + intros st' E. apply bind_ok in E. destruct E as (st1 & E1 & E). apply HS in E1. destruct E1 as (cns1 & Hr1 & ->).
          assert (HJ1 := HP cns1 (eq_trans (receive_ids Hr1) (proj1 (proj2 (proj2 (proj2 HJ)))))).
          destruct (IH fuel intr (S i) _ HJ1 HE' ltac:(cbn [fst an_next]; lia) HR) as [IH1 _]. destruct (IH1 st' E) as (HJ' & HN & Hr2). cbn [fst an_calc ca_upd ca_cons an_next] in *.
          split; [exact HJ'|]. split; [lia|]. eapply receive_ext; [intros; symmetry; apply Hev|]. apply receive_app. exists cns1. auto.
        + intros cns' Hr. eapply receive_ext in Hr; [|intros; apply Hev]. apply receive_app in Hr. destruct Hr as (cns1 & Hr1 & Hr2).
          assert (HJ1 := HP cns1 (eq_trans (receive_ids Hr1) (proj1 (proj2 (proj2 (proj2 HJ)))))).
          assert (Es := proj2 (HS _) (ex_intro _ cns1 (conj Hr1 eq_refl))). rewrite Es. cbn [bind].
          destruct (IH fuel intr (S i) _ HJ1 HE' ltac:(cbn [fst an_next]; lia) HR) as [_ IH2]. apply IH2. exact Hr2.
    Qed.

    Lemma diagonals_lemma intr partial v K n : gens_ok I (ca_gens (an_calc a0)) -> (0 <= an_total a0)%Z -> an_done a0 = done_after a0 (an_next a0) ->
      resolves partial (an_total a0) (an_total a0) v -> enough v (an_next a0) K -> runs intr n (K - an_next a0) ->
      let ev := diagonal_calls F (ca_self (an_calc a0)) (firstn n (skipn (an_next a0) (an_order a0))) in
      (forall a', calculate_diagonals g_diag c_step set_order intr a0 partial = Ok a' ->
        same_any a0 a' /\ gens_ok I (ca_gens (an_calc a')) /\ map snd (ca_gens (an_calc a')) = map snd (ca_gens (an_calc a0)) /\ map snd (ca_cons (an_calc a')) = map snd (ca_cons (an_calc a0)) /\
        an_next a' = an_next a0 + n /\ an_done a' = done_after a0 (an_next a0 + n) /\ receive c_step ev (ca_cons (an_calc a0)) (ca_cons (an_calc a'))) /\
      (forall cns', receive c_step ev (ca_cons (an_calc a0)) cns' ->
        exists a', calculate_diagonals g_diag c_step set_order intr a0 partial = Ok a' /\ ca_cons (an_calc a') = cns').
    Proof.
      intros HG0 HT HD Hv HE HR. unfold calculate_diagonals. rewrite Hh, Hw. destruct (Z.ltb_spec (Z.min h w) 0); [lia|].
      apply resolves_ok in Hv; [|exact HT]. rewrite Hv. cbn [bind].
      set (st := (a0, repeat (repeat NaN (Z.to_nat (Z.min h w))) (length (ca_gens (an_calc a0))))).
      assert (HJ : diag_inv a0 st).
      { split; [repeat split|]. cbn [fst snd]. do 4 (split; [auto|]). split; [apply repeat_length|]. intros row Hr. apply repeat_spec in Hr. subst row. apply repeat_length. }
      destruct (@diag_loop_ok v K n (S (S (length (an_order a0)))) intr 0 st HJ HE ltac:(destruct HE; cbn [fst]; lia) HR) as [L1 L2]. cbv zeta in L1, L2. split.
      - intros a' E. apply bind_ok in E. destruct E as (st' & E & Es). injection Es as <-. destruct (L1 st' E) as ((K1 & K2 & K3 & K4 & K5 & _) & KN & Hr).
        cbn [fst] in *. do 4 (split; [assumption|]). split; [exact KN|]. split; [rewrite K5; f_equal; exact KN|exact Hr].
      - intros cns' Hr. destruct (L2 cns' Hr) as (st' & -> & E). exists (fst st'). auto.
    Qed.

    Lemma enough_exists v k : k <= length (an_order a0) -> (v <= done_after a0 (length (an_order a0)))%Z -> exists K, enough v k K.
    Proof.
      intros Hk Hv. remember (length (an_order a0) - k) as t eqn:Et. revert k Hk Et. induction t as [|t IH]; intros k Hk Et.
      - exists k. split; [lia|]. replace k with (length (an_order a0)) by lia. split; [exact Hv|intros; lia].
      - destruct (Z.le_gt_cases v (done_after a0 k)) as [Hle|Hgt].
        + exists k. split; [lia|]. split; [exact Hle|intros; lia].
        + destruct (IH (S k) ltac:(lia) ltac:(lia)) as (K & E1 & E2 & E3). exists K. split; [lia|]. split; [exact E2|].
          intros j Hj. destruct (Nat.eq_dec j k) as [->|]; [lia|apply E3; lia].
    Qed.
  End Diagonals.
End Calc.
