(** * PropReject: rejected configurations and calls, and what they leave behind *)
From Coq Require Import QArith Reals Lra.
From Verif Require Import Np NpFacts Inst MRing PRing MUtil MArith MStats MCache MEuclid MZnorm MFilter MRejected SReal SCalc SGen PArith PStats PCache PGenRun PZnorm PZdist PZgeo PRejected PropZnorm.
Set Implicit Arguments.
Open Scope nat_scope.

(** ** C62. Invalid configurations are rejected; a self-join accepts no query points *)
Section Query.
  Context {A : Type} {NA : NumOps A}.
  Notation num := (Np.num A).
  Variables (mem : nat -> num) (memb : nat -> bool).

  Theorem C62_config_euclid : forall sf m, ~ (1 <= sf)%Q ->
    (forall W Wq, eu_prepare_streaming mem sf m W Wq = Err ValueError) /\ (forall s q, eu_prepare mem sf m s q = Err ValueError).
  Proof.
    intros sf m H. assert (E : Qle_bool 1 sf = false) by (apply not_true_is_false; intro E; apply H, Qle_bool_iff, E).
    unfold eu_prepare_streaming, eu_prepare. rewrite E. auto.
  Qed.
  Theorem C62_config_znorm : forall noise sf m, fltb noise fzero = true \/ ~ (1 <= sf)%Q ->
    (forall W Wq, zn_prepare_streaming mem memb noise sf m W Wq = Err ValueError) /\ (forall s q, zn_prepare mem memb noise sf m s q = Err ValueError).
  Proof.
    intros noise sf m H. unfold zn_prepare_streaming, zn_prepare, zn_config. destruct (fltb noise fzero) eqn:N; [auto|].
    destruct H as [H|H]; [discriminate|].
    assert (E : Qle_bool 1 sf = false) by (apply not_true_is_false; intro E; apply H, Qle_bool_iff, E). rewrite E. auto.
  Qed.
  Theorem C62_config_filter : forall G (p1 : nat -> nat -> option nat -> res G) (p2 : nat -> list num -> option (list num) -> res G) invalid sf m, ~ (1 <= sf)%Q ->
    (forall W Wq, fs_prepare memb p1 sf m W Wq = Err ValueError) /\ (forall s q, fb_prepare invalid p2 sf m s q = Err ValueError).
  Proof.
    intros G p1 p2 invalid sf m H. assert (E : Qle_bool 1 sf = false) by (apply not_true_is_false; intro E; apply H, Qle_bool_iff, E).
    unfold fs_prepare, fb_prepare. rewrite E. auto.
  Qed.

  Lemma foldM_keeps {S T} (f : S -> T -> res S) (P : S -> Prop) : (forall s x s', P s -> f s x = Ok s' -> P s') ->
    forall l s s', P s -> foldM f l s = Ok s' -> P s'.
  Proof.
    intros K l. induction l as [|x l IH]; intros s s' H E; cbn [foldM] in E; [congruence|].
    apply bind_ok in E as (s1 & E1 & E2). eauto.
  Qed.

  Lemma append_s_self (g g' : @cache A) v : cache_append_s g v = Ok g' -> ch_self g' = ch_self g.
  Proof. intro E. apply bind_ok in E as (r & _ & E). injection E as <-. destruct (ch_self g); reflexivity. Qed.
  Lemma append_q_self (g g' : @cache A) v : cache_append_q g v = Ok g' -> ch_self g' = ch_self g.
  Proof. intro E. apply bind_ok in E as (r & _ & E). injection E as <-. reflexivity. Qed.
  Lemma col_self full term (g : @cache A) c r : cache_col full term mem g c = Ok r -> ch_self (fst r) = ch_self g.
  Proof. intro E. apply bind_ok in E as (r' & _ & E). destruct r' as [[a b] v]. injection E as <-. reflexivity. Qed.

  Definition eu_calls := grun (eu_calc_column mem) (@eu_calc_diagonal A NA) (@eu_append_series A) (@eu_append_query A).
  Definition zn_calls := grun (zn_calc_column mem) (@zn_calc_diagonal A NA) (@zn_append_series A NA) (@zn_append_query A NA).

  Lemma eu_self g H g' : eu_calls g H = Ok g' -> ch_self g' = ch_self g.
  Proof.
    intro E. refine (@foldM_keeps _ _ _ (fun s => ch_self s = ch_self g) _ H g g' eq_refl E). clear. intros s o s' Hs E. rewrite <- Hs.
    destruct o; cbn [gstep] in E.
    - unfold eu_append_series in E. destruct (length xs =? 0); [congruence|]. eapply append_s_self; eauto.
    - unfold eu_append_query in E. destruct (ch_self s) eqn:Es; [discriminate|]. destruct (length xs =? 0); [congruence|]. rewrite <- Es. eapply append_q_self; eauto.
    - apply bind_ok in E as (r & E1 & E2). injection E2 as <-. apply bind_ok in E1 as (r' & E1 & E2). injection E2 as <-. cbn [fst]; eapply col_self; eauto.
    - apply bind_ok in E as (r & E1 & E2). injection E2 as <-. unfold eu_calc_diagonal in E1. apply bind_ok in E1 as (? & _ & E1).
      apply bind_ok in E1 as (? & _ & E1). injection E1 as <-. reflexivity.
  Qed.
  Lemma zn_series_self (g g' : @zn A) xs : zn_append_series g xs = Ok g' -> ch_self (zn_c g') = ch_self (zn_c g).
  Proof.
    unfold zn_append_series. destruct (length xs =? 0); [congruence|]. intro E. apply bind_ok in E as (c & E1 & E). apply bind_ok in E as (z & _ & E).
    injection E as <-. eapply append_s_self; eauto.
  Qed.
  Lemma zn_query_self (g g' : @zn A) xs : zn_append_query g xs = Ok g' -> ch_self (zn_c g') = ch_self (zn_c g).
  Proof.
    unfold zn_append_query. destruct (ch_self (zn_c g)) eqn:Es; [discriminate|]. destruct (length xs =? 0); [congruence|].
    intro E. apply bind_ok in E as (c & E1 & E). apply bind_ok in E as (z & _ & E). injection E as <-. rewrite <- Es. eapply append_q_self; eauto.
  Qed.
  Lemma zn_column_self (g : @zn A) c r : zn_calc_column mem g c = Ok r -> ch_self (zn_c (fst r)) = ch_self (zn_c g).
  Proof.
    unfold zn_calc_column. destruct (length (rb_view (ch_query (zn_c g))) + 1 <? ch_m (zn_c g)); [discriminate|]. intro E.
    apply bind_ok in E as (r' & E1 & E). do 4 (apply bind_ok in E as (? & _ & E)). destruct (length (snd r') =? _); [|discriminate].
    injection E as <-. cbn [fst zn_c]. eapply col_self; eauto.
  Qed.
  Lemma zn_diag_same (g : @zn A) d r : zn_calc_diagonal g d = Ok r -> fst r = g.
  Proof.
    unfold zn_calc_diagonal. destruct (_ <? 0)%Z; [discriminate|]. intro E. do 4 (apply bind_ok in E as (? & _ & E)).
    destruct (_ =? _); [|discriminate]. injection E as <-. reflexivity.
  Qed.
  Lemma zn_self g H g' : zn_calls g H = Ok g' -> ch_self (zn_c g') = ch_self (zn_c g).
  Proof.
    intro E. refine (@foldM_keeps _ _ _ (fun s => ch_self (zn_c s) = ch_self (zn_c g)) _ H g g' eq_refl E). clear. intros s o s' Hs E. rewrite <- Hs.
    destruct o; cbn [gstep] in E.
    - eapply zn_series_self; eauto.
    - eapply zn_query_self; eauto.
    - apply bind_ok in E as (r & E1 & E2). injection E2 as <-. eapply zn_column_self; eauto.
    - apply bind_ok in E as (r & E1 & E2). injection E2 as <-. rewrite (zn_diag_same _ _ E1). reflexivity.
  Qed.

  (** After any calls that succeeded *)
  Theorem C62_query_euclid : forall sf m g H g' values,
    (exists W, eu_prepare_streaming mem sf m W None = Ok g) \/ (exists s, eu_prepare mem sf m s None = Ok g) ->
    eu_calls g H = Ok g' -> eu_append_query g' values = Err RuntimeError.
  Proof.
    intros sf m g H g' values P E. unfold eu_append_query. rewrite (eu_self _ _ E). enough (ch_self g = true) as -> by reflexivity.
    destruct P as [(W & P)|(s & P)]; unfold eu_prepare_streaming, eu_prepare in P; destruct (negb _); try discriminate; apply bind_ok in P as (b & _ & P); injection P as <-; reflexivity.
  Qed.
  Theorem C62_query_znorm : forall noise sf m g H g' values,
    (exists W, zn_prepare_streaming mem memb noise sf m W None = Ok g) \/ (exists s, zn_prepare mem memb noise sf m s None = Ok g) ->
    zn_calls g H = Ok g' -> zn_append_query g' values = Err RuntimeError.
  Proof.
    intros noise sf m g H g' values P E. unfold zn_append_query. rewrite (zn_self _ _ E). enough (ch_self (zn_c g) = true) as -> by reflexivity.
    assert (K : forall f W g, zn_empty mem memb noise f m W None = Ok g -> ch_self (zn_c g) = true).
    { clear. intros f W g E. apply bind_ok in E as (? & _ & E). apply bind_ok in E as (? & _ & E). injection E as <-. reflexivity. }
    destruct P as [(W & P)|(s & P)]; unfold zn_prepare_streaming, zn_prepare in P; apply bind_ok in P as (u & _ & P).
    - eapply K; eauto.
    - apply bind_ok in P as (g0 & P1 & P). apply bind_ok in P as (g1 & P2 & P). injection P as <-. rewrite (zn_series_self _ _ P2). eapply K; eauto.
  Qed.
  (** Any wrapped generator, any validity function *)
  Theorem C62_query_filter : forall G (p1 : nat -> nat -> option nat -> res G) (gc : G -> nat -> res (G * list num)) (gd : G -> Z -> res (G * list num)) (gs gq : G -> list num -> res G) invalid sf m W f H f' values,
    fs_prepare memb p1 sf m W None = Ok f ->
    grun (fs_calc_column gc) (fs_calc_diagonal gd) (fs_append_series gs invalid) (fs_append_query gq invalid) f H = Ok f' ->
    fs_append_query gq invalid f' values = Err RuntimeError.
  Proof.
    intros G p1 gc gd gs gq invalid sf m W f H f' values P E. unfold fs_append_query. enough (fs_self f' = true) as -> by reflexivity.
    refine (@foldM_keeps _ _ _ (fun s => fs_self s = true) _ H f f' _ E).
    - clear. intros s o s' Hs E. destruct o; cbn [gstep] in E.
      + unfold fs_append_series in E. apply bind_ok in E as (((a & b) & c) & _ & E). apply bind_ok in E as (? & _ & E). injection E as <-. exact Hs.
      + unfold fs_append_query in E. rewrite Hs in E. discriminate.
      + apply bind_ok in E as (r & E1 & E2). injection E2 as <-. apply bind_ok in E1 as (b & _ & E1). destruct b; [injection E1 as <-; exact Hs|].
        apply bind_ok in E1 as (? & _ & E1). apply bind_ok in E1 as (? & _ & E1). injection E1 as <-. exact Hs.
      + apply bind_ok in E as (r & E1 & E2). injection E2 as <-. apply bind_ok in E1 as (b & _ & E1). injection E1 as <-. exact Hs.
    - unfold fs_prepare in P. destruct (negb _); [discriminate|]. do 3 (apply bind_ok in P as (? & _ & P)). injection P as <-. reflexivity.
  Qed.
End Query.
Print Assumptions C62_config_euclid.
Print Assumptions C62_config_znorm.
Print Assumptions C62_config_filter.
Print Assumptions C62_query_euclid.
Print Assumptions C62_query_znorm.
Print Assumptions C62_query_filter.

(** Examples *)
Definition none_Z : nat -> num Z := fun _ => NaN.
Definition eu_pull := eu_calls none_Z.
Example C62_example_self : exists g g', eu_prepare_streaming none_Z 1 2 4 None = Ok g /\
  eu_pull g [CSeries (map (@Fin Z) [0; 3; 4; 0; 3]%Z); CCol 0; CDiag 1%Z; CCol 1] = Ok g' /\
  eu_append_query g' [Fin 1%Z] = Err RuntimeError /\ eu_append_query g' [] = Err RuntimeError.
Proof. do 2 eexists. split; [vm_compute; reflexivity|]. split; [vm_compute; reflexivity|]. split; reflexivity. Qed.
Example C62_example_join : exists g g', eu_prepare_streaming none_Z 1 2 4 (Some 4) = Ok g /\
  eu_pull g [CSeries (map (@Fin Z) [0; 3; 4; 0; 3]%Z); CQuery [Fin 1%Z]] = Ok g' /\ is_ok (eu_append_query g' [Fin 1%Z]) = true.
Proof. do 2 eexists. split; [vm_compute; reflexivity|]. split; [vm_compute; reflexivity|]. reflexivity. Qed.
Example C62_example_config : eu_prepare_streaming none_Z (9 # 10) 2 4 None = Err ValueError /\
  zn_prepare none_Z (fun _ => true) (Fin (-1)%Z) 2 2 (map (@Fin Z) [1; 2; 3]%Z) None = Err ValueError.
Proof. split; reflexivity. Qed.

(** ** C63. What a rejected append leaves behind *)
(** StreamingStats, whatever was appended: data is the window of all points; an append raises if and only if it brings points and the window
    is not finite; mean and std are those of the last window that was finite. *)
Theorem C63_stats : forall mem m (l : list R) (chunks : list (list (num R))), 0 < m -> m <= length l ->
  let window k := lastn (length l) (fin l ++ concat (firstn k chunks)) in
  exists s0, stats_new mem (fin l) (Z.of_nat m) = Ok s0 /\
    let s := fst (stats_appends s0 chunks) in
    let raised := snd (stats_appends s0 chunks) in
    rb_view (ss_data s) = window (length chunks) /\
    (length raised = length chunks /\ forall k c, nth_error chunks k = Some c ->
      nth_error raised k = Some (if (length c =? 0) || forallb isfinite (window (k + 1)) then None else Some RuntimeError)) /\
    exists k good, k <= length chunks /\ window k = fin good /\ (forall k', k < k' <= length chunks -> forallb isfinite (window k') = false) /\
      rb_view (ss_mean s) = fin (windowed mean m good) /\ rb_view (ss_std s) = fin (windowed std m good).
Proof.
  intros mem m l chunks Hm Hl. cbn zeta. destruct (stats_new_loose mem l Hm Hl) as (s0 & E0 & I0). exists s0. split; [exact E0|].
  enough (K : (length (snd (stats_appends s0 chunks)) = length chunks /\ forall k c, nth_error chunks k = Some c ->
      nth_error (snd (stats_appends s0 chunks)) k = Some (if (length c =? 0) || forallb isfinite (lastn (length l) (fin l ++ concat (firstn (k + 1) chunks))) then None else Some RuntimeError)) /\
    exists k good, k <= length chunks /\ lastn (length l) (fin l ++ concat (firstn k chunks)) = fin good /\
      (forall k', k < k' <= length chunks -> forallb isfinite (lastn (length l) (fin l ++ concat (firstn k' chunks))) = false) /\
      sloose m (length l) (lastn (length l) (fin l ++ concat chunks)) good (fst (stats_appends s0 chunks))).
  { destruct K as (K1 & k & good & A1 & A2 & A3 & (_ & _ & _ & (_ & _ & _ & V1 & _) & (_ & _ & _ & V2 & _) & (_ & _ & _ & V3 & _))).
    split; [rewrite firstn_all; exact V1|]. split; [exact K1|]. exists k, good. auto. }
  induction chunks as [|c chunks IH] using rev_ind.
  - cbn [stats_appends fst snd length concat]. split; [split; [reflexivity|]; intros [|k] c; discriminate|]. exists 0, l. split; [lia|].
    cbn [firstn concat]. rewrite app_nil_r, lastn_all by (rewrite map_length; lia). split; [reflexivity|]. split; [intros; lia|]. exact I0.
  - destruct IH as ((L1 & R1) & k & good & A1 & A2 & A3 & A4). rewrite stats_appends_snoc. cbn [fst snd].
    destruct (stats_append_loose c Hm Hl A4) as (s' & E1 & Cs). rewrite E1. rewrite lastn_app, <- app_assoc in Cs.
    rewrite !app_length. cbn [length]. rewrite concat_app. cbn [concat]. rewrite app_nil_r.
    assert (Fo : forall k', k' <= length chunks -> firstn k' (chunks ++ [c]) = firstn k' chunks).
    { intros k' Hk'. rewrite firstn_app. replace (k' - length chunks) with 0 by lia. cbn [firstn]. apply app_nil_r. }
    assert (Fn : forall k', length chunks < k' -> concat (firstn k' (chunks ++ [c])) = concat chunks ++ c).
    { intros k' Hk'. rewrite firstn_all2 by (rewrite app_length; cbn; lia). rewrite concat_app. cbn [concat]. rewrite app_nil_r. reflexivity. }
    assert (Outs : forall o, snd (stats_append_st (fst (stats_appends s0 chunks)) c) = o ->
      o = (if (length c =? 0) || forallb isfinite (lastn (length l) (fin l ++ concat chunks ++ c)) then None else Some RuntimeError) ->
      forall k c0, nth_error (chunks ++ [c]) k = Some c0 -> nth_error (snd (stats_appends s0 chunks) ++ [snd (stats_append_st (fst (stats_appends s0 chunks)) c)]) k =
        Some (if (length c0 =? 0) || forallb isfinite (lastn (length l) (fin l ++ concat (firstn (k + 1) (chunks ++ [c])))) then None else Some RuntimeError)).
    { intros o Eo Ho k' c0 Hc. rewrite Eo. rewrite nth_error_app in Hc. rewrite nth_error_app. rewrite L1. destruct (Nat.ltb_spec k' (length chunks)).
      - rewrite Fo by lia. apply R1. exact Hc.
      - rewrite Fn by lia. destruct (k' - length chunks) as [|[|]]; try discriminate. injection Hc as <-. cbn [nth_error]. f_equal. exact Ho. }
    destruct Cs as [(B1 & B2 & good' & B3 & B4)|[(B1 & B2 & B3)|(B1 & B2 & B3 & B4)]].
    + split; [split; [rewrite L1; reflexivity|]; apply (Outs _ B1); rewrite B2, orb_true_r; reflexivity|].
      exists (length chunks + 1), good'. split; [lia|]. rewrite Fn by lia. split; [exact B3|]. split; [intros; lia|]. exact B4.
    + subst c. split; [split; [rewrite L1; reflexivity|]; apply (Outs _ B1); reflexivity|].
      destruct (Nat.eq_dec k (length chunks)) as [->|N].
      * exists (length chunks + 1), good. split; [lia|]. rewrite Fn, app_nil_r by lia. rewrite firstn_all in A2. split; [exact A2|]. split; [intros; lia|]. rewrite app_nil_r in B3. exact B3.
      * exists k, good. split; [lia|]. rewrite Fo by lia. split; [exact A2|]. split; [|exact B3].
        intros k' Hk'. destruct (le_lt_dec k' (length chunks)); [rewrite Fo by lia; apply A3; lia|]. rewrite Fn, app_nil_r by lia.
        rewrite <- (firstn_all chunks). apply A3. lia.
    + split; [split; [rewrite L1; reflexivity|]; apply (Outs _ B1); rewrite B3; destruct c; [congruence|reflexivity]|].
      exists k, good. split; [lia|]. rewrite Fo by lia. split; [exact A2|]. split; [|exact B4].
      intros k' Hk'. destruct (le_lt_dec k' (length chunks)); [rewrite Fo by lia; apply A3; lia|]. rewrite Fn by lia. exact B3.
Qed.
Print Assumptions C63_stats.

(** An append that raises has changed the object: the statistics are not those of the data. *)
Theorem C63_stats_refuted : forall mem, exists (s0 : @stats R) s e, stats_new mem (fin [1; 3; 3]%R) 2 = Ok s0 /\ stats_append s0 [Fin 5; NaN]%R = Err e /\
  stats_append_st s0 [Fin 5; NaN]%R = (s, Some e) /\ rb_view (ss_data s0) = fin [1; 3; 3]%R /\ rb_view (ss_data s) = [Fin 3; Fin 5; NaN]%R /\
  rb_view (ss_mean s) = rb_view (ss_mean s0).
Proof.
  intro mem. destruct (@stats_new_loose mem 2 [1; 3; 3]%R ltac:(lia) ltac:(cbn; lia)) as (s0 & E0 & I0). exists s0.
  destruct (@stats_append_loose 2 3 _ _ s0 [Fin 5; NaN]%R ltac:(lia) ltac:(lia) I0) as (s & Es & [(_ & F & _)|[(_ & F & _)|(F1 & _ & _ & F2)]]); [discriminate|discriminate|].
  exists s, RuntimeError. split; [exact E0|].
  destruct I0 as (Em & _ & _ & V0 & V1 & _). destruct F2 as (_ & _ & _ & V0' & V1' & _).
  assert (E : stats_append_st s0 [Fin 5; NaN]%R = (s, Some RuntimeError)) by (rewrite (surjective_pairing (stats_append_st s0 _)), Es, F1; reflexivity).
  split.
  - revert E. unfold stats_append_st, stats_append. cbn [length]. change (Z.of_nat 2 =? 0)%Z with false. cbv iota.
    destruct (rb_push (ss_data s0) _); cbn [bind]; [|intro E; injection E as _ ->; reflexivity].
    destruct (sliding_mean_std _ _); cbn [bind]; [|intro E; injection E as _ ->; reflexivity].
    destruct (rb_push (ss_mean s0) _); cbn [bind]; [|intro E; injection E as _ ->; reflexivity].
    destruct (rb_push (ss_std s0) _); cbn [bind]; [discriminate|intro E; injection E as _ ->; reflexivity].
  - split; [exact E|]. destruct V0 as (_ & _ & _ & -> & _). destruct V0' as (_ & _ & _ & -> & _). destruct V1 as (_ & _ & _ & -> & _). destruct V1' as (_ & _ & _ & -> & _). auto.
Qed.
Print Assumptions C63_stats_refuted.

(** Without exception the variants that keep the state are the functions themselves. *)
Theorem C63_same : forall A (NA : NumOps A) (g : @zn A) (s : @stats A) values,
  zn_append_series g values = (match zn_append_series_st g values with (g', None) => Ok g' | (_, Some e) => Err e end) /\
  zn_append_query g values = (match zn_append_query_st g values with (g', None) => Ok g' | (_, Some e) => Err e end) /\
  stats_append s values = (match stats_append_st s values with (s', None) => Ok s' | (_, Some e) => Err e end).
Proof.
  intros A NA g s values. unfold zn_append_series, zn_append_series_st, zn_append_query, zn_append_query_st, stats_append, stats_append_st. split; [|split].
  - destruct (length values =? 0); [reflexivity|]. destruct (cache_append_s _ _); cbn [bind]; [|reflexivity]. destruct (zstats_append _ _ _ _); reflexivity.
  - destruct (ch_self _); [reflexivity|]. destruct (length values =? 0); [reflexivity|]. destruct (cache_append_q _ _); cbn [bind]; [|reflexivity]. destruct (zstats_append _ _ _ _); reflexivity.
  - destruct (_ =? 0)%Z; [reflexivity|]. destruct (rb_push _ _); cbn [bind]; [|reflexivity]. destruct (sliding_mean_std _ _); cbn [bind]; [|reflexivity].
    destruct (rb_push _ _); cbn [bind]; [|reflexivity]. destruct (rb_push _ _); reflexivity.
Qed.
Print Assumptions C63_same.

(** The state in which a self-join starts *)
Lemma zn_start mem memb noise sf m W : 0 < m -> m <= W -> (1 <= sf)%Q -> (sf <= 2)%Q -> (0 <= noise)%R ->
  exists g0, zn_prepare_streaming mem memb (Fin noise) sf m W None = Ok g0 /\ zsome noise m W [] g0.
Proof.
  intros Hm HW S1 S2 Hn. destruct (@zn_streaming_state mem memb noise m W W true Hm ltac:(discriminate) sf Hn S1 S2 HW) as (g0 & E0 & I0).
  exists g0. split; [exact E0|]. unfold state_after in I0. cbn zeta in I0. destruct I0 as [I1 I2 (I3 & I4 & I5) _].
  do 3 eexists. constructor; eauto; [apply (ci_m I1)|apply (ci_self I1)|apply (ci_s I1)].
Qed.

(** The z-normalised generator (self-join), after any calls whose exceptions were caught: an append raises if and only if, with it, one of the
    last (number of points + m - 1) points of the window is not finite. *)
Theorem C63_raises : forall mem memb noise sf m W H g0 g values, 0 < m -> m <= W -> (1 <= sf)%Q -> (sf <= 2)%Q -> (0 <= noise)%R ->
  zn_prepare_streaming mem memb (Fin noise) sf m W None = Ok g0 -> foldM (zn_caught mem) H g0 = Ok g ->
  let window := lastn W (s_points H ++ values) in
  rb_view (ch_series (zn_c g)) = lastn W (s_points H) /\ rb_view (ch_series (zn_c (fst (zn_append_series_st g values)))) = window /\
  (snd (zn_append_series_st g values) = None \/ snd (zn_append_series_st g values) = Some RuntimeError) /\
  (snd (zn_append_series_st g values) = Some RuntimeError <->
   values <> [] /\ m <= length window /\ exists x, In x (lastn (length values + m - 1) window) /\ isfinite x = false).
Proof.
  intros mem memb noise sf m W H g0 g values Hm HW S1 S2 Hn E0 E window. destruct (zn_start mem memb Hm HW S1 S2 Hn) as (g0' & E0' & I0).
  assert (g0' = g0) as -> by congruence. pose proof (@zloose_run mem noise m W H Hm HW [] g0 g I0 E) as I. cbn [app] in I.
  destruct (zloose_append values Hm HW I) as (I' & Er). rewrite lastn_app in I'.
  destruct I as (? & ? & ? & [_ _ _ (_ & _ & _ & V & _) _ _ _]). destruct I' as (? & ? & ? & [_ _ _ (_ & _ & _ & V' & _) _ _ _]).
  split; [exact V|]. split; [exact V'|]. rewrite Er. unfold refused. rewrite lastn_app. fold window.
  split; [destruct (_ && _); auto|].
  assert (Nf : forall l : list (num R), forallb isfinite l = false <-> exists x, In x l /\ isfinite x = false).
  { clear. induction l as [|x l IH]; cbn [forallb]; [split; [discriminate|intros (x & [] & _)]|]. destruct (isfinite x) eqn:F; cbn [andb].
    - rewrite IH. split; [intros (y & Y1 & Y2); exists y; split; [right; exact Y1|exact Y2]|]. intros (y & [<-|Y1] & Y2); [congruence|eauto].
    - split; [|reflexivity]. intros _. exists x. split; [left; reflexivity|exact F]. }
  rewrite <- Nf. destruct (forallb isfinite _); destruct (Nat.leb_spec m (length window)); destruct values; cbn [length Nat.eqb negb andb]; split; try discriminate; try tauto;
    first [intros (A1 & A2 & A3); first [discriminate|congruence|lia] | intros _; split; [discriminate|auto]].
Qed.
Print Assumptions C63_raises.

(** It recovers: once more than a window of points was appended without exception, every calculation is right again, whatever happened before. *)
Theorem C63_recovers_partial : forall mem memb noise sf m W H chunks g0 g1 g, 0 < m -> m <= W -> (1 <= sf)%Q -> (sf <= 2)%Q -> (0 <= noise)%R ->
  zn_prepare_streaming mem memb (Fin noise) sf m W None = Ok g0 -> foldM (zn_caught mem) H g0 = Ok g1 ->
  foldM (@zn_append_series R NumR) (map (map (@Fin R)) chunks) g1 = Ok g -> W < length (concat chunks) ->
  let S := lastn W (concat chunks) in
  (forall d, has_diag m S S d -> zn_calc_diagonal g d = Ok (g, diag_dist (zdist noise) m S S d)) /\
  (forall c, c + m <= W -> exists g', zn_calc_column mem g c = Ok (g', col_dist (zdist noise) m S S c)) /\
  (forall r c, r + m <= W -> c + m <= W -> zn_calc_single g r c None = Ok (Fin (zdist noise (sub m S r) (sub m S c)))).
Proof.
  intros mem memb noise sf m W H chunks g0 g1 g Hm HW S1 S2 Hn E0 E1 E2 L S. destruct (zn_start mem memb Hm HW S1 S2 Hn) as (g0' & E0' & I0).
  assert (g0' = g0) as -> by congruence. pose proof (@zloose_run mem noise m W H Hm HW [] g0 g1 I0 E1) as I. cbn [app] in I.
  apply (zheal_start Hm) in I. apply (zheal_appends chunks Hm HW I) in E2. cbn [app] in E2.
  pose proof (@healed noise m W W _ _ g Hm HW L E2) as St.
  assert (Ew : wS W [CSeries (concat chunks)] = S) by (unfold wS, s_points; cbn [flat_map]; rewrite app_nil_r; reflexivity).
  assert (Ls : length S = W) by (unfold S; rewrite length_lastn; lia).
  pose proof (@zn_answer mem memb noise m W W true Hm ltac:(discriminate) _ _ St) as (A1 & A2). unfold wQ in A1, A2. rewrite Ew in A1, A2.
  split; [exact A1|]. split; [|intros r c Hr Hc; apply A2; auto; lia].
  intros c Hc. pose proof (@zn_column mem memb noise m W W true Hm ltac:(discriminate) _ _ c St) as A3. unfold wQ in A3. rewrite Ew in A3.
  apply A3; [unfold has_col; lia|left; reflexivity].
Qed.
Print Assumptions C63_recovers_partial.

(** A rejected append makes later results wrong, silently: after a NaN, column 0 of the generator compares the window [0, 1] as if it were flat. *)
Theorem C63_znorm_refuted : forall mem memb, exists (g0 g1 g2 g3 : @zn R) r,
  zn_prepare_streaming mem memb (Fin 0%R) 2 2 5 None = Ok g0 /\ zn_append_series g0 (fin [0; 0; 0; 1; 0]%R) = Ok g1 /\
  zn_append_series_st g1 [NaN] = (g2, Some RuntimeError) /\ rb_view (ch_series (zn_c g2)) = fin [0; 0; 1; 0]%R ++ [NaN] /\
  zn_calc_column mem g2 0 = Ok (g3, r) /\ nth_error r 1 = Some (Fin 0%R) /\ zdist 0 [0; 1]%R [0; 0]%R = sqrt 2.
Proof.
  intros mem memb. set (S := [0; 0; 0; 1; 0]%R).
  destruct (@zn_streaming_state mem memb 0%R 2 5 5 true ltac:(lia) ltac:(discriminate) 2 ltac:(lra) ltac:(discriminate) ltac:(discriminate) ltac:(lia)) as (g0 & E0 & I0).
  unfold state_after in I0. cbn zeta in I0.
  destruct (@ZInv_s mem memb 0%R 2 5 5 true ltac:(lia) ltac:(discriminate) _ _ _ _ _ g0 S I0) as (g1 & E1 & I1).
  change (lastn 5 (wS 5 [] ++ S)) with S in I1. exists g0, g1.
  pose proof I1 as [C1 Nz (M1 & M2 & M3) _].
  assert (Vn : rb_view (zs_nz (zn_s g1)) = [false; false; true; true]).
  { destruct M3 as (_ & _ & _ & -> & _). unfold windowed, S. cbn [length Nat.add Nat.sub seq map]. unfold sub. cbn [skipn firstn]. unfold uneven.
    rewrite (@std2 0 0 0)%R, (@std2 0 1 (1/2))%R, (@std2 1 0 (1/2))%R by lra. pose proof thr_pos. assert (thr < 1 / 2)%R by (unfold thr; lra). unfold thr in *. decide_Rltb. reflexivity. }
  destruct M1 as (_ & _ & _ & Vm & _). destruct M2 as (_ & _ & _ & Vs & _). clear M3.
  pose proof (ci_self C1) as Cs. pose proof (ci_m C1) as Cm. pose proof (ci_s C1) as Cw.
  assert (Cp : ch_prev (zn_c g1) = None) by (apply (ci_used C1); reflexivity).
  unfold zn_append_series_st. cbn [length Nat.eqb].
  destruct (cache_append_s_parts _ [NaN] Cw) as (c & Ec & Wc & Mc & Sc & _). rewrite Ec. pose proof Wc as (_ & _ & _ & Vc & _). unfold S in Vc. cbn [map app] in Vc. change (lastn 5 _) with [Fin 0; Fin 0; Fin 1; Fin 0; @NaN R]%R in Vc.
  rewrite Mc, Cm, Vc. change (zstats_append 2 _ 1 (zn_s g1)) with (@Err (@zstats R) RuntimeError).
  do 3 eexists. split; [exact E0|]. split; [exact E1|]. split; [reflexivity|]. cbn [zn_c ch_series]. split; [exact Vc|].
  unfold zn_calc_column. cbn [zn_c zn_noise zn_s zn_q ch_m]. unfold ch_query. cbn [ch_self ch_series]. rewrite Cs, Vc.
  unfold cache_col. unfold ch_query. cbn [ch_self ch_series ch_prev ch_first ch_backlog ch_m ch_qbuf ch_vals]. rewrite ?Cs, ?Vc, ?Cp.
  cbn [length Nat.add Nat.ltb Nat.leb negb orb].
  change (dot_products [Fin 0; Fin 0; Fin 1; Fin 0; @NaN R]%R (lslice [Fin 0; Fin 0; Fin 1; Fin 0; @NaN R]%R 0 2)) with
    (Ok (map (fun i => fdot (firstn 2 (skipn i [Fin 0; Fin 0; Fin 1; Fin 0; @NaN R]%R)) [Fin 0; Fin 0]%R) (seq 0 4))).
  cbn [bind fst snd]. unfold zn_qstats. cbn [zn_c ch_self zn_s]. rewrite ?Cs, Vm, Vs, Vn.
  unfold stats_of. rewrite !map_length, !length_windowed, seq_length. cbn [getitem nth_error fin windowed map S length Nat.add Nat.sub seq bind Nat.eqb andb].
  split; [reflexivity|].
  cbn [combine zip_with map seq nth_error col_cell negb andb orb]. rewrite Nz. split.
  - f_equal. unfold feqb, fleb, fzero. cbn [fltb nltb nzero NumR]. decide_Rltb. cbn [negb andb]. unfold EPS, fneg10. cbn [fltb nltb NumR].
    destruct (Rltb _ _); cbn [froot]; unfold fsqrt; cbn [nltb nzero nsqrt NumR]; decide_Rltb; rewrite sqrt_0; reflexivity.
  - rewrite zdist_def by (cbn; lia). unfold zdef, uneven. rewrite (@std2 0 1 (1/2))%R, (@std2 0 0 0)%R by lra.
    pose proof thr_pos. assert (thr < 1 / 2)%R by (unfold thr; lra). unfold thr in *. decide_Rltb. cbn [andb orb length INR]. reflexivity.
Qed.
Print Assumptions C63_znorm_refuted.

(** A NaN and a point after it are rejected; after five more points the statistics are those of the window again (integers, m = 2). *)
Example C63_example_recovers : exists g0 g1 g, zn_prepare_streaming none_Z (fun _ => true) (Fin 0%Z) 2 2 4 None = Ok g0 /\
  foldM (zn_caught none_Z) [CSeries (map (@Fin Z) [0; 2; 0; 0]%Z); CSeries [NaN]; CSeries [Fin 5%Z]] g0 = Ok g1 /\
  map snd [zn_append_series_st g0 [NaN]; zn_append_series_st g1 [NaN]; zn_append_series_st g1 [Fin 3%Z]] = [None; Some RuntimeError; None] /\
  foldM (@zn_append_series Z NumZ) (map (map (@Fin Z)) [[0]; [2; 2]; [0; 2]]%Z) g1 = Ok g /\
  rb_view (ch_series (zn_c g)) = map (@Fin Z) [2; 2; 0; 2]%Z /\ rb_view (zs_std (zn_s g)) = map (@Fin Z) [0; 1; 1]%Z.
Proof. do 3 eexists. split; [vm_compute; reflexivity|]. split; [vm_compute; reflexivity|]. split; [vm_compute; reflexivity|]. split; [vm_compute; reflexivity|]. split; vm_compute; reflexivity. Qed.
