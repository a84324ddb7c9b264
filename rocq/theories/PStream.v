(** * PStream: proofs about streaming calculations *)
From Coq Require Import QArith Sorted Permutation.
From Verif Require Import Np NpFacts Mat MUtil SLog PLog PSort MCalc SCalc PCalc PCalcRun SStream.
Set Implicit Arguments.
Open Scope nat_scope.

Lemma flat_map_snoc {U V} (f : U -> list V) l x : flat_map f (l ++ [x]) = flat_map f l ++ f x.
Proof. rewrite flat_map_app. cbn [flat_map]. rewrite app_nil_r. reflexivity. Qed.

Lemma asked_app {X} W : forall (H H' : list (gop X)) n, asked W n (H ++ H') = asked W n H ++ asked W (n + length (series_of H)) H'.
Proof.
  induction H as [|o H IH]; intros H' n; [cbn; rewrite Nat.add_0_r; reflexivity|]. destruct o as [xs|xs|c]; cbn [app asked series_of flat_map].
  - rewrite IH. f_equal. f_equal. change (flat_map _ H) with (series_of H). rewrite app_length. lia.
  - rewrite IH. reflexivity.
  - rewrite IH. reflexivity.
Qed.

Lemma sorted_snoc l x : StronglySorted lt l -> (forall y, In y l -> y < x) -> StronglySorted lt (l ++ [x]).
Proof.
  induction 1 as [|a l Hl IH Ha]; intro H; cbn [app]; [repeat constructor|]. constructor; [apply IH; intros; apply H; right; assumption|].
  apply Forall_app. split; [exact Ha|]. repeat constructor. apply H. left. reflexivity.
Qed.

Section Stream.
  Context {A : Type}.
  Notation num := (Np.num A).
  Variables (X G C : Type).
  Variable g_col : G -> nat -> res (G * list num).
  Variable g_app_s g_app_q : G -> list X -> res G.
  Variable c_step : C -> event num -> res C.
  Variable set_order : list nat -> list nat.
  Hypothesis HSO : orders_sets set_order.

  Lemma append_gens_ok (g_app : G -> list X -> res G) (I' : nat -> G -> Prop) rows : forall gens,
    (forall id g d, nth_error gens id = Some (g, d) -> d < length rows /\ exists g', g_app g (nth d rows []) = Ok g' /\ I' id g') ->
    exists gens', append_gens g_app gens rows = Ok gens' /\ gens_ok I' gens' /\ map snd gens' = map snd gens.
  Proof.
    intros gens H. destruct (@mapM_ok _ _ (fun g => do row <- getitem rows (snd g); do g' <- g_app (fst g) row; Ok (g', snd g)) gens) as (ys & E & L & P).
    - intros (g, d) Hin. apply In_nth_error in Hin. destruct Hin as (id & Hid). destruct (H _ _ _ Hid) as (Hd & g' & Eg & _). exists (g', d). cbn [fst snd].
      rewrite (proj2 (@getitem_ok _ rows d (nth d rows []))) by (apply nth_error_nth'; exact Hd). cbn [bind]. rewrite Eg. reflexivity.
    - exists ys. split; [exact E|].
      assert (Q : forall id g d, nth_error gens id = Some (g, d) -> exists g', nth_error ys id = Some (g', d) /\ I' id g').
      { intros id g d Hid. destruct (P _ _ Hid) as (y & Hy & Ey). destruct (H _ _ _ Hid) as (Hd & g' & Eg & Hg). exists g'. cbn [fst snd] in Ey.
        rewrite (proj2 (@getitem_ok _ rows d (nth d rows []))) in Ey by (apply nth_error_nth'; exact Hd). cbn [bind] in Ey. rewrite Eg in Ey. injection Ey as <-. auto. }
      split.
      + intros id g d Hid. assert (Hlt : id < length gens) by (rewrite <- L; apply nth_error_Some; congruence). destruct (nth_error gens id) as [(g0, d0)|] eqn:E0; [|apply nth_error_None in E0; lia].
        destruct (Q _ _ _ E0) as (g' & Hg' & Hi). rewrite Hg' in Hid. injection Hid as <- <-. exact Hi.
      + apply nth_error_ext. intro i. rewrite !nth_error_map. destruct (nth_error gens i) as [(g0, d0)|] eqn:E0; cbn [option_map].
        * destruct (Q _ _ _ E0) as (g' & Hg' & _). rewrite Hg'. reflexivity.
        * apply nth_error_None in E0. rewrite <- L in E0. apply nth_error_None in E0. rewrite E0. reflexivity.
  Qed.

  Lemma shift_all_iff e cns cns' : shift_all c_step e cns = Ok cns' <-> receive c_step (fun _ => [e]) cns cns'.
  Proof.
    unfold shift_all, receive. revert cns'. induction cns as [|(c, ids) cns IH]; intro cns'; cbn [mapM].
    - split; [intro E; injection E as <-; constructor|intro H; inversion H; reflexivity].
    - split.
      + intro E. apply bind_ok in E. destruct E as ((c1, ids1) & E1 & E). apply bind_ok in E. destruct E as (l & E2 & E). injection E as <-.
        cbn [fst snd] in E1. apply bind_ok in E1. destruct E1 as (c2 & E1 & E3). injection E3 as <- <-. constructor; [|apply IH, E2]. cbn [fst snd foldM]. rewrite E1. auto.
      + intro H. inversion H as [|? (c1, ids1) ? l [H1 H2] H3]; subst. cbn [fst snd foldM] in *. apply bind_ok in H2. destruct H2 as (c2 & H2 & H4). injection H4 as <-.
        rewrite H2. cbn [bind]. apply IH in H3. rewrite H3. cbn [bind]. subst. reflexivity.
  Qed.

  Variables (self : bool) (m W Wq ndim : nat) (tmb : Z) (dims : list nat) (idss : list (list nat)) (valid : list X -> Prop).
  Variables (Inv : nat -> list (gop X) -> G -> Prop) (F : nat -> list (gop X) -> nat -> list num).
  Hypothesis Hm : 1 <= m <= W.
  Hypothesis HmQ : m <= Wq.
  Hypothesis HWq : self = true -> Wq = W.
  Hypothesis Htmb : (-1 <= tmb)%Z.
  Hypothesis Hdim : forall d, In d dims -> d < ndim.
  Hypothesis Hids : forall ids id, In ids idss -> In id ids -> id < length dims.
  Hypothesis Hnd : 0 < ndim.

  Notation dim := (fun id => nth id dims 0).
  Notation does := (does self m W Wq ndim tmb dim valid F).
  Notation history := (history self m W Wq ndim tmb dim valid F).
  Notation call := (stm_call g_col g_app_s g_app_q c_step set_order).
  Definition used (id : nat) : bool := existsb (Nat.eqb id) (concat idss).

  Record at_p (p : progress X) (t : stm G C) : Prop := {
    at_self : ca_self (st_calc t) = self;
    at_m : ca_m (st_calc t) = Z.of_nat m;
    at_nd : ca_ndim (st_calc t) = ndim;
    at_ns : ca_ns (st_calc t) = Z.of_nat (W + 1 - m);
    at_nq : ca_nq (st_calc t) = Z.of_nat (Wq + 1 - m);
    at_tmb : ca_tmb (st_calc t) = tmb;
    at_dims : map snd (ca_gens (st_calc t)) = dims;
    at_ids : map snd (ca_cons (st_calc t)) = idss;
    at_last : (ca_last (st_calc t) + 1 = Z.of_nat (p_next p - lost W (p_s p)))%Z;
    at_sp : st_sp t = Z.of_nat (p_s p);
    at_qp : self = false -> st_qp t = Z.of_nat (p_q p);
    at_gens : gens_ok (fun id g => Inv id (ghist (dim id) (used id) (p_hist p)) g) (ca_gens (st_calc t));
    at_len : forall d b, d < ndim -> length (series_of (ghist d b (p_hist p))) = p_s p;
    at_lenq : forall d b, self = false -> d < ndim -> length (query_of (ghist d b (p_hist p))) = p_q p;
    at_asked : forall d, d < ndim -> StronglySorted lt (asked W 0 (ghist d true (p_hist p))) /\ forall a, In a (asked W 0 (ghist d true (p_hist p))) -> a < p_next p;
    at_next : p_next p <= lost W (p_s p) + subseqs m W (p_s p)
  }.

  Lemma max_col p t : at_p p t -> stm_max_column t = Z.of_nat (subseqs m W (p_s p)).
  Proof. intro H. unfold stm_max_column, subseqs. rewrite (at_sp H), (at_m H), (at_ns H). lia. Qed.
  Lemma max_row p t : at_p p t -> stm_max_row t = Z.of_nat (rows_now self m W Wq p).
  Proof.
    intro H. unfold stm_max_row, rows_now. pose proof (at_self H) as Es. destruct (ca_self (st_calc t)); rewrite <- Es; [apply max_col; exact H|].
    unfold subseqs. rewrite (at_qp H) by (symmetry; exact Es). rewrite (at_m H), (at_nq H). lia.
  Qed.

  Lemma as_rows_ok (v : points X) rows n : rows_are ndim v rows n -> as_rows ndim v = Ok rows /\ length (hd [] rows) = n.
  Proof.
    intros (L & Hr & Hv). split.
    - unfold as_rows. destruct v as [xs|rs]; subst rows; [rewrite map_length in L|]; rewrite (proj2 (Nat.eqb_eq _ _) L); reflexivity.
    - destruct rows as [|r rows]; [cbn in L; lia|]. apply Hr. left. reflexivity.
  Qed.

  Lemma window_shift_ok (Wx s n : nat) : 1 <= Wx -> window_shift (Z.of_nat Wx) (Z.of_nat s) (Z.of_nat n) = Z.of_nat (lost Wx (s + n) - lost Wx s).
  Proof. intro H. unfold window_shift, lost. destruct (Z.ltb_spec (Z.of_nat s) (Z.of_nat Wx)); lia. Qed.

  Lemma ghist_snoc d b H (o : hop X) : ghist d b (H ++ [o]) = ghist d b H ++ ghist d b [o].
  Proof. unfold ghist. rewrite flat_map_snoc. cbn [flat_map]. rewrite app_nil_r. reflexivity. Qed.

  Lemma gens_dim t p id g d : at_p p t -> nth_error (ca_gens (st_calc t)) id = Some (g, d) -> d = dim id /\ d < ndim.
  Proof.
    intros H E. assert (E' : nth_error dims id = Some d) by (rewrite <- (at_dims H), nth_error_map, E; reflexivity). split; [symmetry; apply nth_error_nth; exact E'|]. apply Hdim. eapply nth_error_In; exact E'.
  Qed.

  Hypothesis HST : streams g_col g_app_s g_app_q self m W Wq valid Inv F.

  Lemma step_series v p t p' evs : at_p p t -> does (OSeries v) p p' evs ->
    (forall t', call t (OSeries v) = Ok t' -> at_p p' t' /\ receive c_step evs (ca_cons (st_calc t)) (ca_cons (st_calc t'))) /\
    (forall cns, receive c_step evs (ca_cons (st_calc t)) cns -> exists t', call t (OSeries v) = Ok t' /\ ca_cons (st_calc t') = cns).
  Proof.
    intros H D. inversion D as [? rows n s q nx Hh HR HV Ev Ep Ep' Ee| |]; subst. destruct (as_rows_ok HR) as [Er El]. pose proof HR as (Lr & Hrow & _).
    cbn [stm_call]. unfold append_series. rewrite (at_nd H), Er. cbn [bind].
    destruct (@append_gens_ok g_app_s (fun id g => Inv id (ghist (dim id) (used id) (Hh ++ [HSeries rows])) g) rows (ca_gens (st_calc t))) as (gens & Eg & Hg & Hd).
    { intros id g d E. destruct (gens_dim _ H E) as [-> Hlt]. split; [rewrite Lr; exact Hlt|].
      destruct (streams_s HST id _ g (nth (dim id) rows []) (at_gens H _ E)) as (g' & G1 & G2). { apply HV, nth_In. rewrite Lr. exact Hlt. }
      exists g'. split; [exact G1|]. rewrite ghist_snoc. exact G2. }
    rewrite Eg. cbn [bind]. rewrite El, (at_ns H), (at_m H), (at_sp H). cbn [p_s]. replace (Z.of_nat (W + 1 - m) + Z.of_nat m - 1)%Z with (Z.of_nat W) by lia.
    rewrite window_shift_ok by lia. rewrite (at_self H).
    set (k := lost W (s + n) - lost W s).
    assert (AT : forall cns last, map snd cns = idss -> (last + 1 = Z.of_nat (nx - lost W (s + n)))%Z ->
      at_p (mkProgress (s + n) q nx (Hh ++ [HSeries rows])) (mkStm (ca_upd (st_calc t) gens cns last) (Z.of_nat s + Z.of_nat n) (st_qp t))).
    { intros cns last Hc Hl. constructor; cbn [st_calc ca_upd ca_self ca_m ca_ndim ca_ns ca_nq ca_tmb ca_gens ca_cons ca_last st_sp st_qp p_s p_q p_next p_hist]; try (destruct H; cbn in *; assumption || congruence).
      - lia.
      - intros d b Hd'. rewrite ghist_snoc. unfold series_of. rewrite flat_map_app, app_length. change (flat_map _ (ghist d b Hh)) with (series_of (ghist d b Hh)). rewrite (at_len H _ Hd'). cbn [p_s]. cbn [ghist flat_map app].
        rewrite app_nil_r. rewrite (Hrow (nth d rows [])); [reflexivity|apply nth_In; lia].
      - intros d b E Hd'. rewrite ghist_snoc. unfold query_of. rewrite flat_map_app, app_length. change (flat_map _ (ghist d b Hh)) with (query_of (ghist d b Hh)). rewrite (at_lenq H _ E Hd'). cbn [p_q]. cbn [ghist flat_map app length]. lia.
      - intros d Hd'. rewrite ghist_snoc, asked_app. cbn [ghist flat_map app asked]. rewrite app_nil_r. exact (at_asked H Hd').
      - pose proof (at_next H) as Hn. cbn [p_next p_s] in Hn. unfold lost, subseqs in *. lia. }
    pose proof (at_last H) as Hlast. cbn [p_next p_s] in Hlast. destruct (Z.eqb_spec (Z.of_nat k) 0) as [Ek|Ek].
    - replace k with 0 by lia. split.
      + intros t' E. injection E as <-. split; [|apply receive_nil; reflexivity]. apply AT; [apply (at_ids H)|]. fold k in Ek. unfold lost in *. lia.
      + intros cns Hc. apply receive_nil in Hc; [|reflexivity]. subst cns. eexists. split; [reflexivity|reflexivity].
    - destruct k as [|k'] eqn:Eqk; [lia|]. rewrite Nat2Z.id.
      assert (Hrec : forall cns, (do cns1 <- shift_all c_step (EShiftS (S k')) (ca_cons (st_calc t)); (if self then shift_all c_step (EShiftQ (S k')) cns1 else Ok cns1)) = Ok cns <->
        receive c_step (fun _ => EShiftS (S k') :: (if self then [EShiftQ (S k')] else [])) (ca_cons (st_calc t)) cns).
      { intro cns. split.
        - intro E. apply bind_ok in E. destruct E as (c1 & E1 & E2). apply shift_all_iff in E1.
          eapply receive_ext; [|apply receive_app; exists c1; split; [exact E1|]; instantiate (1 := fun _ => if self then [EShiftQ (S k')] else [])]; [reflexivity|].
          revert E2. case self; intro E2; [apply shift_all_iff; exact E2|]. injection E2 as <-. apply receive_nil; reflexivity.
        - intro R. assert (R' : receive c_step (fun ids : list nat => (fun _ => [EShiftS (S k')]) ids ++ (fun _ => if self then [EShiftQ (S k')] else []) ids) (ca_cons (st_calc t)) cns) by exact R.
          apply receive_app in R'. destruct R' as (c1 & R1 & R2). apply shift_all_iff in R1. rewrite R1. cbn [bind]. revert R2. case self; intro R2; [apply shift_all_iff; exact R2|]. apply receive_nil in R2; [|reflexivity]. rewrite R2. reflexivity. }
      assert (Hlast' : (Z.max (-1) (ca_last (st_calc t) - Z.of_nat (S k')) + 1 = Z.of_nat (nx - lost W (s + n)))%Z) by (clear - Hlast Eqk; subst k; unfold lost in *; lia).
      split.
      + intros t' E. apply bind_ok in E. destruct E as (c1 & E1 & E). apply bind_ok in E. destruct E as (c2 & E2 & E). injection E as <-.
        assert (R : receive c_step (fun _ => EShiftS (S k') :: (if self then [EShiftQ (S k')] else [])) (ca_cons (st_calc t)) c2) by (apply Hrec; rewrite E1; exact E2).
        split; [|exact R]. apply AT; [|exact Hlast']. rewrite (receive_ids R). apply (at_ids H).
      + intros cns R. apply Hrec in R. apply bind_ok in R. destruct R as (c1 & E1 & E2). rewrite E1. cbn [bind]. rewrite E2. cbn [bind]. eexists. split; [reflexivity|reflexivity].
  Qed.

  Lemma step_query v p t p' evs : at_p p t -> does (OQuery v) p p' evs ->
    (forall t', call t (OQuery v) = Ok t' -> at_p p' t' /\ receive c_step evs (ca_cons (st_calc t)) (ca_cons (st_calc t'))) /\
    (forall cns, receive c_step evs (ca_cons (st_calc t)) cns -> exists t', call t (OQuery v) = Ok t' /\ ca_cons (st_calc t') = cns).
  Proof.
    intros H D. inversion D as [|? rows n s q nx Hh Hself HR HV Ev Ep Ep' Ee|]; subst p p' evs v0. destruct (as_rows_ok HR) as [Er El]. pose proof HR as (Lr & Hrow & _).
    cbn [stm_call]. unfold append_query. rewrite (at_nd H), Er, (at_self H), Hself. cbn [bind].
    destruct (@append_gens_ok g_app_q (fun id g => Inv id (ghist (dim id) (used id) (Hh ++ [HQuery rows])) g) rows (ca_gens (st_calc t))) as (gens & Eg & Hg & Hd).
    { intros id g d E. destruct (gens_dim _ H E) as [-> Hlt]. split; [rewrite Lr; exact Hlt|].
      destruct (streams_q HST Hself id _ g (nth (dim id) rows []) (at_gens H _ E)) as (g' & G1 & G2). { apply HV, nth_In. rewrite Lr. exact Hlt. }
      exists g'. split; [exact G1|]. rewrite ghist_snoc. exact G2. }
    rewrite Eg. cbn [bind]. rewrite El, (at_nq H), (at_m H), (at_qp H Hself). cbn [p_q]. replace (Z.of_nat (Wq + 1 - m) + Z.of_nat m - 1)%Z with (Z.of_nat Wq) by lia.
    rewrite window_shift_ok by lia.
    set (k := lost Wq (q + n) - lost Wq q).
    assert (AT : forall cns, map snd cns = idss ->
      at_p (mkProgress s (q + n) nx (Hh ++ [HQuery rows])) (mkStm (ca_upd (st_calc t) gens cns (ca_last (st_calc t))) (st_sp t) (Z.of_nat q + Z.of_nat n))).
    { intros cns Hc. constructor; cbn [st_calc ca_upd ca_self ca_m ca_ndim ca_ns ca_nq ca_tmb ca_gens ca_cons ca_last st_sp st_qp p_s p_q p_next p_hist]; try (destruct H; cbn in *; assumption || congruence).
      - intros _. lia.
      - intros d b Hd'. rewrite ghist_snoc. unfold series_of. rewrite flat_map_app, app_length. change (flat_map _ (ghist d b Hh)) with (series_of (ghist d b Hh)). rewrite (at_len H _ Hd'). cbn [p_s]. cbn [ghist flat_map app length]. lia.
      - intros d b E Hd'. rewrite ghist_snoc. unfold query_of. rewrite flat_map_app, app_length. change (flat_map _ (ghist d b Hh)) with (query_of (ghist d b Hh)). rewrite (at_lenq H _ E Hd'). cbn [p_q]. cbn [ghist flat_map app length].
        rewrite app_nil_r. rewrite (Hrow (nth d rows [])); [reflexivity|apply nth_In; lia].
      - intros d Hd'. rewrite ghist_snoc, asked_app. cbn [ghist flat_map app asked]. rewrite app_nil_r. exact (at_asked H Hd'). }
    destruct (Z.eqb_spec (Z.of_nat k) 0) as [Ek|Ek].
    - replace k with 0 by lia. cbn [bind]. split.
      + intros t' E. injection E as <-. split; [|apply receive_nil; reflexivity]. apply AT. apply (at_ids H).
      + intros cns Hc. apply receive_nil in Hc; [|reflexivity]. subst cns. eexists. split; [reflexivity|reflexivity].
    - destruct k as [|k'] eqn:Eqk; [lia|]. rewrite Nat2Z.id. split.
      + intros t' E. apply bind_ok in E. destruct E as (c1 & E1 & E). injection E as <-. apply shift_all_iff in E1. split; [|exact E1]. apply AT. rewrite (receive_ids E1). apply (at_ids H).
      + intros cns R. apply shift_all_iff in R. rewrite R. cbn [bind]. eexists. split; [reflexivity|reflexivity].
  Qed.

  Lemma used_iff id : used id = true <-> In id (concat idss).
  Proof. unfold used. rewrite existsb_exists. split; [intros (x & Hx & E); apply Nat.eqb_eq in E; subst; exact Hx|intro Hx; exists id; split; [exact Hx|apply Nat.eqb_refl]]. Qed.

  Lemma ghist_cols d (b : bool) l : ghist d b (map (@HCol X) l) = if b then map (@GCol X) l else [].
  Proof. induction l as [|x l IH]; [destruct b; reflexivity|]. cbn [map ghist flat_map]. change (flat_map _ (map _ l)) with (ghist d b (map (@HCol X) l)). rewrite IH. destruct b; reflexivity. Qed.
  Lemma ghist_app d b (H H' : list (hop X)) : ghist d b (H ++ H') = ghist d b H ++ ghist d b H'.
  Proof. apply flat_map_app. Qed.
  Lemma series_cols l : series_of (map (@GCol X) l) = [].
  Proof. induction l; [reflexivity|exact IHl]. Qed.
  Lemma query_cols l : query_of (map (@GCol X) l) = [].
  Proof. induction l; [reflexivity|exact IHl]. Qed.
  Lemma asked_cols n l : asked W n (map (@GCol X) l) = map (fun c => lost W n + c) l.
  Proof. induction l as [|x l IH]; [reflexivity|]. cbn [map asked]. rewrite IH. reflexivity. Qed.
  Lemma series_app (H H' : list (gop X)) : series_of (H ++ H') = series_of H ++ series_of H'.
  Proof. apply flat_map_app. Qed.
  Lemma query_app (H H' : list (gop X)) : query_of (H ++ H') = query_of H ++ query_of H'.
  Proof. apply flat_map_app. Qed.

  Lemma sorted_extend l b c k : StronglySorted lt l -> (forall y, In y l -> y < b + c) -> StronglySorted lt (l ++ map (fun j => b + j) (seq c k)).
  Proof.
    revert c l. induction k as [|k IH]; intros c l Hl Hy; cbn [seq map]; [rewrite app_nil_r; exact Hl|].
    change (b + c :: map (fun j => b + j) (seq (S c) k)) with ([b + c] ++ map (fun j => b + j) (seq (S c) k)). rewrite app_assoc. apply IH; [apply sorted_snoc; assumption|].
    intros y H. apply in_app_or in H. destruct H as [H|[<-|[]]]; [specialize (Hy _ H)|]; lia.
  Qed.

  Lemma step_cols intr upto p t p' evs : at_p p t -> does (OCols intr upto) p p' evs ->
    (forall t', call t (OCols intr upto) = Ok t' -> at_p p' t' /\ receive c_step evs (ca_cons (st_calc t)) (ca_cons (st_calc t'))) /\
    (forall cns, receive c_step evs (ca_cons (st_calc t)) cns -> exists t', call t (OCols intr upto) = Ok t' /\ ca_cons (st_calc t') = cns).
  Proof.
    intros H D. inversion D as [| |? ? u n s q nx Hh c Hu Hr Hrows E1 E2 E3 E4]. subst intr0 upto0 p p' evs. cbn [stm_call]. unfold stm_columns. rewrite (max_col H), (max_row H). cbn [p_s].
    set (p := mkProgress s q nx Hh) in *. set (cols := subseqs m W s). set (rows := rows_now self m W Wq p).
    pose (cols' := if Nat.eqb rows 0 then c else cols).
    set (I := fun c' id g => c <= c' /\ Inv id (ghist (dim id) (used id) (Hh ++ map (@HCol X) (seq c (c' - c)))) g).
    set (F' := fun id j => F id (ghist (dim id) true (Hh ++ map (@HCol X) (seq c (j - c)))) j).
    (* the asked columns *)
    assert (Hask : forall d j, d < ndim -> c <= j -> StronglySorted lt (asked W 0 (ghist d true (Hh ++ map (@HCol X) (seq c (j - c))))) /\ forall a, In a (asked W 0 (ghist d true (Hh ++ map (@HCol X) (seq c (j - c))))) -> a < lost W s + j).
    { intros d j Hd Hj. destruct (at_asked H Hd) as [A1 A2]. pose proof (at_len H true Hd) as A3. cbn [p_hist p_next p_s p] in A1, A2, A3.
      rewrite ghist_app, asked_app, A3, Nat.add_0_l, ghist_cols, asked_cols. split.
      - apply sorted_extend; [exact A1|]. intros y Hy. specialize (A2 _ Hy). subst c. lia.
      - intros a Ha. apply in_app_or in Ha. destruct Ha as [Ha|Ha]; [specialize (A2 _ Ha); subst c; lia|]. apply in_map_iff in Ha. destruct Ha as (x & <- & Hx). apply in_seq in Hx. lia. }
    assert (Hlen : forall d b j, d < ndim -> length (series_of (ghist d b (Hh ++ map (@HCol X) (seq c (j - c))))) = s).
    { intros d b j Hd. rewrite ghist_app, series_app, ghist_cols. destruct b; [rewrite series_cols|cbn [series_of flat_map]]; rewrite app_nil_r; apply (at_len H _ Hd). }
    assert (Hlenq : forall d b j, self = false -> d < ndim -> length (query_of (ghist d b (Hh ++ map (@HCol X) (seq c (j - c))))) = q).
    { intros d b j Hs Hd. rewrite ghist_app, query_app, ghist_cols. destruct b; [rewrite query_cols|cbn [query_of flat_map]]; rewrite app_nil_r; apply (at_lenq H _ Hs Hd). }
    assert (Hrow : forall d b j, d < ndim -> rows_of self m Wq (ghist d b (Hh ++ map (@HCol X) (seq c (j - c)))) = rows).
    { intros d b j Hd. unfold rows_of, rows, rows_now. destruct (Bool.bool_dec self true) as [Es|Es]; [rewrite Es, Hlen by exact Hd; rewrite HWq by exact Es; reflexivity|]. apply Bool.not_true_is_false in Es. rewrite Es. rewrite Hlenq by auto. reflexivity. }
    assert (Hc : c <= cols) by (pose proof (at_next H) as Hn; cbn [p_next p_s p] in Hn; subst c; unfold cols; lia).
    set (N := needed set_order (st_calc t)).
    assert (HN : forall id, In id N <-> used id = true).
    { intro id. unfold N, needed. rewrite (proj2 (HSO _)), (at_ids H), used_iff. reflexivity. }
    assert (HNd : forall id, In id N -> dim id < ndim).
    { intros id Hid. apply Hdim, nth_In. apply HN, used_iff, in_concat in Hid. destruct Hid as (ids & H1 & H2). eapply Hids; eauto. }
    assert (Hidok : ids_ok (ca_gens (st_calc t)) (ca_cons (st_calc t))).
    { intros c1 ids id Hin Hid. rewrite <- (map_length snd), (at_dims H). eapply Hids; [|exact Hid]. rewrite <- (at_ids H). apply in_map_iff. exists (c1, ids). auto. }
    assert (HI0 : gens_ok (I c) (ca_gens (st_calc t))).
    { intros id g d E. split; [lia|]. rewrite Nat.sub_diag. cbn [seq map]. rewrite app_nil_r. exact (at_gens H _ E). }
    pose proof (at_last H) as Hlast. cbn [p_next p_s p] in Hlast. fold c in Hlast.
    assert (Hcc : c <= cols) by exact Hc.
    (* rows > 0 or nothing to do *)
    assert (L : (forall s', calculate_columns g_col c_step set_order (Z.of_nat cols) (Z.of_nat rows) intr (st_calc t) None upto = Ok s' ->
        after_cols I (st_calc t) c n s' /\ receive c_step (column_calls F' tmb c n) (ca_cons (st_calc t)) (ca_cons s')) /\
      (forall cns', receive c_step (column_calls F' tmb c n) (ca_cons (st_calc t)) cns' ->
        exists s', calculate_columns g_col c_step set_order (Z.of_nat cols) (Z.of_nat rows) intr (st_calc t) None upto = Ok s' /\ ca_cons s' = cns')).
    { rewrite <- (at_tmb H). destruct (Nat.eq_dec n 0) as [En|En].
      - subst n. clear Hrows. assert (Hst : ratio_to_int (RInt (ca_last (st_calc t) + 1)) (ca_ns (st_calc t)) (Z.of_nat cols) = Ok (Z.of_nat c)).
        { cbn [ratio_to_int]. f_equal. rewrite Hlast. lia. }
        assert (Hun : ratio_to_int upto (ca_ns (st_calc t)) (Z.of_nat cols) = Ok (Z.of_nat u)).
        { rewrite (at_ns H). apply resolves_ok; [lia|exact Hu]. }
        unfold calculate_columns. rewrite Hst. cbn [bind]. rewrite Hun. cbn [bind]. destruct (Z.ltb_spec (Z.of_nat rows) 0) as [Hbad|_]; [lia|].
        assert (Hcond : (Z.of_nat c <? Z.of_nat u)%Z && negb (intr 0) = false).
        { destruct Hr as (_ & _ & Hr). destruct (Z.ltb_spec (Z.of_nat c) (Z.of_nat u)); [|reflexivity]. rewrite Hr by lia. reflexivity. }
        cbn [col_loop]. rewrite Hcond. cbn [bind fst]. split.
        + intros s' E. injection E as <-. split; [|apply receive_nil; reflexivity]. unfold after_cols. rewrite Nat.add_0_r. repeat split; auto; try reflexivity; apply HI0 || idtac.
          all: try (eapply HI0; eassumption).
        + intros cns R. apply receive_nil in R; [|reflexivity]. subst cns. eexists. split; reflexivity.
      - assert (Hr0 : 0 < rows) by (apply Hrows; lia).
        apply (@columns_lemma A G C c_step set_order HSO g_col N I F' cols rows) with (u := u).
        + intros id g j Hid [Hj HIj] Hjc. pose proof (HNd _ Hid) as Hd. apply HN in Hid. rewrite Hid in HIj.
          destruct (@streams_c _ _ _ _ _ _ _ _ _ _ _ _ _ HST id _ g j HIj) as (g' & G1 & G2 & G3).
          { rewrite Hlen by exact Hd. exact Hjc. } { rewrite Hrow by exact Hd. exact Hr0. }
          { rewrite asked_app, Hlen by exact Hd. cbn [asked]. destruct (Hask _ j Hd Hj) as [A1 A2]. apply sorted_snoc; [exact A1|]. rewrite Nat.add_0_l. exact A2. }
          exists g'. split; [exact G1|]. split; [|unfold F'; rewrite G3; apply Hrow; exact Hd]. split; [lia|]. rewrite Hid.
          replace (S j - c) with (S (j - c)) by lia. rewrite seq_S, map_app, app_assoc. cbn [map]. rewrite ghist_snoc. replace (c + (j - c)) with j by lia. exact G2.
        + intros id g j Hid [Hj HIj]. split; [lia|]. assert (Eu : used id = false) by (destruct (used id) eqn:E; [exfalso; apply Hid, HN; exact E|reflexivity]). rewrite Eu in *.
          rewrite ghist_app, ghist_cols in *. exact HIj.
        + reflexivity.
        + exact Hidok.
        + exact HI0.
        + rewrite (at_tmb H). exact Htmb.
        + rewrite (at_ns H). lia.
        + cbn [resolves]. rewrite Hlast. lia.
        + rewrite (at_ns H). exact Hu.
        + exact Hr. }
    destruct L as [L1 L2]. split.
    - intros t' E. apply bind_ok in E. destruct E as (s' & Es & E). injection E as <-. destruct (L1 s' Es) as ((P1 & P2 & P3 & P4 & P5) & P6). cbn [st_calc]. split.
      2:{ eapply receive_ext; [|exact P6]. reflexivity. }
      destruct P1 as (D1 & D2 & D3 & D4 & D5 & D6).
      constructor; cbn [st_calc st_sp st_qp p_s p_q p_next p_hist]; try (destruct H; cbn in *; congruence).
      + rewrite P5. unfold lost in *. destruct (Nat.eqb_spec n 0) as [->|]; lia.
      + apply (at_qp H).
      + intros id g d E. apply P2 in E. destruct E as [_ E]. replace (c + n - c) with n in E by lia. exact E.
      + intros d b Hd. specialize (Hlen d b (c + n) Hd). replace (c + n - c) with n in Hlen by lia. exact Hlen.
      + intros d b Hs Hd. specialize (Hlenq d b (c + n) Hs Hd). replace (c + n - c) with n in Hlenq by lia. exact Hlenq.
      + intros d Hd. specialize (Hask d (c + n) Hd ltac:(lia)). replace (c + n - c) with n in Hask by lia. rewrite Nat.add_assoc in Hask. exact Hask.
      + destruct Hr as (Hr & _). assert (u <= cols); [|fold cols; lia].
        destruct upto as [z|[| |x|]|]; cbn [resolves] in Hu; [unfold cols; lia|destruct Hu|destruct Hu| |destruct Hu|destruct Hu]. destruct Hu as (_ & _ & j & _ & _ & Ej). unfold cols; lia.
    - intros cns R. destruct (L2 cns) as (s' & E & Ec). { eapply receive_ext; [|exact R]. reflexivity. }
      rewrite E. cbn [bind]. eexists. split; [reflexivity|exact Ec].
  Qed.

  Lemma step op p t p' evs : at_p p t -> does op p p' evs ->
    (forall t', call t op = Ok t' -> at_p p' t' /\ receive c_step evs (ca_cons (st_calc t)) (ca_cons (st_calc t'))) /\
    (forall cns, receive c_step evs (ca_cons (st_calc t)) cns -> exists t', call t op = Ok t' /\ ca_cons (st_calc t') = cns).
  Proof. destruct op as [v|v|intr upto]; [apply step_series|apply step_query|apply step_cols]. Qed.

  Lemma run_history t0 ops p evs : at_p (mkProgress 0 0 0 []) t0 -> history ops p evs ->
    (forall t, foldM call ops t0 = Ok t -> at_p p t /\ receive c_step evs (ca_cons (st_calc t0)) (ca_cons (st_calc t))) /\
    (forall cns, receive c_step evs (ca_cons (st_calc t0)) cns -> exists t, foldM call ops t0 = Ok t /\ ca_cons (st_calc t) = cns).
  Proof.
    intro H0. induction 1 as [|ops op p p' evs evs' Hh IH Hd].
    - split; [intros t E; injection E as <-; split; [exact H0|apply receive_nil; reflexivity]|]. intros cns R. apply receive_nil in R; [|reflexivity]. subst cns. exists t0. split; reflexivity.
    - destruct IH as [IH1 IH2]. split.
      + intros t E. rewrite foldM_app in E. apply bind_ok in E. destruct E as (t1 & E1 & E). cbn [foldM] in E. apply bind_ok in E. destruct E as (t2 & E2 & E). injection E as <-.
        destruct (IH1 _ E1) as [P1 R1]. destruct (step P1 Hd) as [S1 _]. destruct (S1 _ E2) as [P2 R2]. split; [exact P2|]. apply receive_app. exists (ca_cons (st_calc t1)). auto.
      + intros cns R. apply receive_app in R. destruct R as (c1 & R1 & R2). destruct (IH2 _ R1) as (t1 & E1 & <-). destruct (IH1 _ E1) as [P1 _]. destruct (step P1 Hd) as [_ S2].
        destruct (S2 _ R2) as (t2 & E2 & <-). exists t2. rewrite foldM_app, E1. cbn [bind foldM]. rewrite E2. split; reflexivity.
  Qed.
End Stream.

(** ** Consequences *)
Section History.
  Context {A : Type}.
  Notation num := (Np.num A).
  Variables (X : Type) (self : bool) (m W Wq ndim : nat) (tmb : Z) (dim : nat -> nat) (valid : list X -> Prop) (F : nat -> list (gop X) -> nat -> list num).
  Notation does := (does self m W Wq ndim tmb dim valid F).
  Notation history := (history self m W Wq ndim tmb dim valid F).

  Lemma rows_points v (rows : list (list X)) n : 0 < ndim -> rows_are ndim v rows n -> points_of v = n.
  Proof.
    intros Hn (L & Hr & Hv). destruct v as [xs|rs]; subst rows; cbn [points_of].
    - destruct xs as [|x xs]; [cbn in L; lia|]. symmetry. rewrite <- (Hr [x]); [reflexivity|left; reflexivity].
    - destruct rs as [|r rs]; [cbn in L; lia|]. apply Hr. left. reflexivity.
  Qed.

  Lemma history_points ops p evs : 0 < ndim -> history ops p evs -> p_s p = series_points ops /\ p_q p = query_points ops.
  Proof.
    intro Hn. induction 1 as [|ops op p p' evs evs' Hh [IH1 IH2] Hd]; [split; reflexivity|]. unfold series_points, query_points in *. rewrite !map_app, !list_sum_app, <- IH1, <- IH2.
    destruct Hd as [v rows n s q nx H HR|v rows n s q nx H Hs HR|]; cbn [map list_sum fold_right p_s p_q]; try rewrite (rows_points Hn HR); lia.
  Qed.

  Lemma sshift_cols (f : nat -> list (list num)) l : sshift (map (fun j => ECol j (f j)) l) = 0%Z.
  Proof. induction l as [|x l IH]; [reflexivity|]. cbn [map sshift event_sshift]. rewrite IH. reflexivity. Qed.
  Lemma qshift_cols (f : nat -> list (list num)) l : qshift (map (fun j => ECol j (f j)) l) = 0%Z.
  Proof. induction l as [|x l IH]; [reflexivity|]. cbn [map qshift event_qshift]. rewrite IH. reflexivity. Qed.

  Lemma history_shifts ops p evs ids : history ops p evs ->
    sshift (evs ids) = Z.of_nat (lost W (p_s p)) /\ qshift (evs ids) = Z.of_nat (if self then lost W (p_s p) else lost Wq (p_q p)).
  Proof.
    induction 1 as [|ops op p p' evs evs' Hh [IH1 IH2] Hd]; [split; [reflexivity|destruct self; reflexivity]|]. rewrite sshift_app, qshift_app, IH1, IH2.
    destruct Hd as [v rows n s q nx H HR|v rows n s q nx H Hs HR|intr upto u n s q nx H c]; cbn [p_s p_q].
    - set (k := lost W (s + n) - lost W s). assert (Hk : lost W (s + n) = lost W s + k) by (subst k; unfold lost; lia). rewrite Hk. clearbody k. destruct k as [|k]; destruct self; cbn [sshift qshift event_sshift event_qshift]; lia.
    - rewrite Hs. set (k := lost Wq (q + n) - lost Wq q). assert (Hk : lost Wq (q + n) = lost Wq q + k) by (subst k; unfold lost; lia). rewrite Hk. clearbody k. destruct k as [|k]; cbn [sshift qshift event_sshift event_qshift]; lia.
    - rewrite sshift_cols, qshift_cols. split; lia.
  Qed.

  Lemma delivered_app {T} (es es' : list (event T)) : forall ss, delivered_from ss (es ++ es') = delivered_from ss es ++ delivered_from (ss + sshift es) es'.
  Proof.
    induction es as [|e es IH]; intro ss; [cbn [app delivered_from sshift]; rewrite Z.add_0_r; reflexivity|].
    destruct e; cbn [app delivered_from sshift event_sshift]; rewrite IH; cbn [app]; rewrite ?Z.add_0_l, ?Z.add_0_r, ?Z.add_assoc; reflexivity.
  Qed.
  Lemma delivered_cols (f : nat -> list (list num)) ss l : delivered_from ss (map (fun j => ECol j (f j)) l) = map (fun j => ss + Z.of_nat j)%Z l.
  Proof. induction l as [|x l IH]; [reflexivity|]. cbn [map delivered_from]. rewrite IH. reflexivity. Qed.

  Lemma zsorted_extend (l : list Z) b c k : StronglySorted Z.lt l -> (forall y, In y l -> y < b + Z.of_nat c)%Z -> StronglySorted Z.lt (l ++ map (fun j => b + Z.of_nat j)%Z (seq c k)).
  Proof.
    revert c l. induction k as [|k IH]; intros c l Hl Hy; cbn [seq map]; [rewrite app_nil_r; exact Hl|].
    change ((b + Z.of_nat c)%Z :: map (fun j => b + Z.of_nat j)%Z (seq (S c) k)) with ([(b + Z.of_nat c)%Z] ++ map (fun j => b + Z.of_nat j)%Z (seq (S c) k)). rewrite app_assoc. apply IH.
    - clear - Hl Hy. induction Hl as [|a l Hl IH Ha]; cbn [app]; [repeat constructor|]. constructor; [apply IH; intros; apply Hy; right; assumption|].
      apply Forall_app. split; [exact Ha|]. repeat constructor. apply Hy. left. reflexivity.
    - intros y H. apply in_app_or in H. destruct H as [H|[<-|[]]]; [specialize (Hy _ H)|]; lia.
  Qed.

  Lemma history_delivered ops p evs ids : history ops p evs ->
    StronglySorted Z.lt (delivered (evs ids)) /\ (forall j, In j (delivered (evs ids)) -> j < Z.of_nat (p_next p))%Z /\
    (forall j, Z.of_nat (lost W (p_s p)) <= j < Z.of_nat (p_next p) -> In j (delivered (evs ids)))%Z.
  Proof.
    induction 1 as [|ops op p p' evs evs' Hh (IH1 & IH2 & IH3) Hd]; [split; [constructor|]; split; [intros j []|cbn; lia]|]. destruct (history_shifts ids Hh) as [Hs _].
    unfold delivered in *. rewrite delivered_app, Hs, Z.add_0_l.
    destruct Hd as [v rows n s q nx H HR|v rows n s q nx H Hse HR|intr upto u n s q nx H c]; cbn [p_s p_q p_next] in *.
    - assert (E : delivered_from (Z.of_nat (lost W s)) (match lost W (s + n) - lost W s with 0 => [] | S k => EShiftS (S k) :: (if self then [@EShiftQ num (S k)] else []) end) = []).
      { destruct (lost W (s + n) - lost W s); [reflexivity|]. destruct self; reflexivity. }
      rewrite E, app_nil_r. split; [exact IH1|]. split; [exact IH2|]. intros j Hj. apply IH3. unfold lost in *. lia.
    - assert (E : delivered_from (Z.of_nat (lost W s)) (match lost Wq (q + n) - lost Wq q with 0 => [] | S k => [@EShiftQ num (S k)] end) = []).
      { destruct (lost Wq (q + n) - lost Wq q); reflexivity. }
      rewrite E, app_nil_r. auto.
    - rewrite delivered_cols. split; [|split].
      + apply zsorted_extend; [exact IH1|]. intros y Hy. apply IH2 in Hy. subst c. lia.
      + intros j Hj. apply in_app_or in Hj. destruct Hj as [Hj|Hj]; [apply IH2 in Hj; subst c; lia|]. apply in_map_iff in Hj. destruct Hj as (x & <- & Hx). apply in_seq in Hx. lia.
      + intros j Hj. apply in_or_app. destruct (Z_lt_ge_dec j (Z.of_nat nx)); [left; apply IH3; lia|right]. apply in_map_iff. exists (Z.to_nat (j - Z.of_nat (lost W s))). split; [lia|]. apply in_seq. subst c. lia.
  Qed.

  (** [calculate_columns()] without interruption finishes the window. *)
  Lemma history_full ops p evs p' evs' : 1 <= m <= W -> history ops p evs -> does (OCols never (RFloat (Fin 1%Q))) p p' evs' -> lost W (p_s p') + subseqs m W (p_s p') <= p_next p'.
  Proof.
    intros Hm Hh Hd. inversion Hd as [| |intr upto u n s q nx H c Hu Hr Hrows E1 E2 E3 E4]. subst. cbn [p_s p_next]. apply runs_never in Hr.
    cbn [resolves] in Hu. destruct Hu as (_ & _ & k & K1 & K2 & Eu). assert (k = Z.of_nat (W + 1 - m)).
    { apply Z.le_antisymm; [apply K2; rewrite Qmult_1_l; apply Qle_refl|]. rewrite Qmult_1_l, <- Zle_Qle in K1. exact K1. }
    unfold subseqs in *. lia.
  Qed.
End History.

Section Start.
  Context {A : Type}.
  Notation num := (Np.num A).
  Variables (X G C : Type).
  Variables (m W ndim : nat) (qw : option nat) (Inv : nat -> list (gop X) -> G -> Prop).

  Lemma stm_start buffer (t0 : stm G C) gens cs : 1 <= m <= W -> (match qw with Some q => m <= q | None => True end) ->
    stm_new G C (Z.of_nat m) (Z.of_nat W) (option_map Z.of_nat qw) ndim buffer = Ok t0 -> gens_ok (fun id g => Inv id [] g) gens ->
    let self := match qw with Some _ => false | None => true end in
    let Wq := match qw with Some q => q | None => W end in
    (-1 <= ca_tmb (st_calc t0))%Z /\
    at_p self m W Wq ndim (ca_tmb (st_calc t0)) (map snd gens) (map snd cs) Inv (mkProgress 0 0 0 []) (stm_with t0 gens cs).
  Proof.
    intros Hm Hq E HG. unfold stm_new in E. destruct qw as [q|]; cbn [option_map] in E.
    - cbn [ca_new bind] in E. injection E as <-. cbn [st_calc ca_tmb stm_with ca_upd]. split; [lia|].
      constructor; cbn; auto; try lia; try constructor; auto; try (intros a []; fail). constructor.
    - unfold ca_new in E. destruct (_ && _) eqn:Eb; [|discriminate]. cbn [bind] in E. injection E as <-. apply andb_true_iff in Eb. destruct Eb as [B1 _]. apply Z.leb_le in B1.
      cbn [st_calc ca_tmb stm_with ca_upd]. split; [exact B1|]. constructor; cbn; auto; try lia; try discriminate; try constructor; auto; try (intros a []); try constructor.
  Qed.
End Start.
