(** * PCalcEnd: the calculator properties *)
From Coq Require Import QArith Permutation Sorted.
From Verif Require Import Np NpFacts Mat MUtil SLog PLog PSort MCalc SCalc PCalc PCalcRun SStream PStream.
Set Implicit Arguments.
Open Scope nat_scope.

Lemma resolves_one f : resolves (RFloat (Fin 1%Q)) f f f.
Proof.
  cbn [resolves]. split; [discriminate|]. split; [apply Qle_refl|]. exists f. split; [rewrite Qmult_1_l; apply Qle_refl|]. split; [|lia].
  intros k' Hk. rewrite Qmult_1_l, <- Zle_Qle in Hk. exact Hk.
Qed.

Section Any.
  Context {A : Type}.
  Notation num := (Np.num A).
  Variables (X G C : Type).

  Lemma built_fresh shuffle m (series : list (list X)) query buffer h w (a0 : any X G C) gens cs : built shuffle m series query buffer h w a0 ->
    exists b, fresh (is_self query) h w b (with_parts a0 gens cs) /\ Permutation (an_order a0) (diagonals query m buffer h w) /\
      (query = None -> h = w /\ b = buffer_of m buffer).
  Proof.
    intros (HS & E & Hh & Hw & Ew & Eh). destruct query as [q|].
    - destruct (@any_new_join X G C shuffle m series q buffer h w a0 HS E Ew Eh) as [[] HP]. exists (-1)%Z. split; [constructor; cbn; assumption|]. split; [exact HP|discriminate].
    - assert (h = w) by lia. subst h. destruct (@any_new_self X G C shuffle m series buffer w a0 HS E Ew) as (_ & [] & HP). exists (buffer_of m buffer). split; [constructor; cbn; assumption|]. split; [exact HP|auto].
  Qed.

  Section Diag.
  Variable g_diag : G -> Z -> res (G * list num).
  Variable c_step : C -> event num -> res C.
  Variable set_order : list nat -> list nat.

  Lemma calls_diag F self ds ids : Forall (fun e => is_diag e) (@diagonal_calls A F self ds ids).
  Proof.
    apply Forall_forall. intros e He. unfold diagonal_calls in He. apply in_flat_map in He. destruct He as (d & _ & [<-|He]); [exact I|]. destruct self; [|destruct He]. destruct He as [<-|[]]. exact I.
  Qed.

  Lemma C26_gen shuffle m (series : list (list X)) query buffer h w (a0 : any X G C) gens cs I F : built shuffle m series query buffer h w a0 ->
    orders_sets set_order -> ids_ok gens cs -> gens_ok I gens -> gives g_diag I F (on_matrix h w) (fun d => Z.to_nat (dlen h w d)) ->
    let a := with_parts a0 gens cs in
    let evs := diagonal_calls F (is_self query) (an_order a0) in
    (forall a', calculate_diagonals g_diag c_step set_order never a (RFloat (Fin 1%Q)) = Ok a' -> receive c_step evs cs (ca_cons (an_calc a'))) /\
    (forall cns, receive c_step evs cs cns -> exists a', calculate_diagonals g_diag c_step set_order never a (RFloat (Fin 1%Q)) = Ok a' /\ ca_cons (an_calc a') = cns).
  Proof.
    intros HB HSO HI HG0 HG a evs. destruct (built_fresh gens cs HB) as (b & Hf & HP & Hs). destruct HB as (_ & _ & Hh & Hw & _).
    fold a in Hf. assert (HI' : ids_ok (ca_gens (an_calc a)) (ca_cons (an_calc a))) by exact HI. assert (HG0' : gens_ok I (ca_gens (an_calc a))) by exact HG0.
    pose proof (reach_fresh c_step Hf Hh Hw F HG0') as R0. split.
    - intros a' E. pose proof (reach_full HSO Hf Hh Hw HG HI' R0 E) as (_ & _ & _ & _ & _ & _ & _ & R). exact R.
    - intros cns R. assert (T0 : (0 <= size h w (an_order a))%Z).
      { rewrite <- (fr_total Hf). assert (Hx : (0 <= fold_right Z.add 0 (map (dlen h w) (an_order a)))%Z); [|rewrite (fr_total Hf); exact Hx].
        pose proof (fr_order Hf) as Ho. induction (an_order a) as [|d l IHl]; cbn [map fold_right]; [lia|]. pose proof (@dlen_pos h w d ltac:(apply Ho; left; reflexivity) Hh Hw).
        specialize (IHl ltac:(intros; apply Ho; right; assumption)). lia. }
      assert (Hv : resolves (RFloat (Fin 1%Q)) (size h w (an_order a)) (size h w (an_order a)) (size h w (an_order a))).
      { apply resolves_one. }
      destruct (diag_call HSO Hf Hh Hw HG HI' never _ _ R0 Hv) as (new & rest & Ho & D1 & D2 & D3 & D4). destruct D4 as [D4|D4]; [discriminate|]. cbn [app] in *.
      assert (rest = []). { destruct rest as [|d rest]; [reflexivity|]. exfalso. pose proof (@size_firstn_mono X G C _ h w b a Hf Hh Hw (length new) (length (an_order a)) ltac:(rewrite Ho, app_length; cbn [length]; lia) (le_n _)) as Hx.
        rewrite firstn_all, Ho, firstn_app, firstn_all, Nat.sub_diag in Hx. cbn [firstn] in Hx. rewrite app_nil_r, <- Ho in Hx. lia. }
      subst rest. rewrite app_nil_r in Ho. rewrite <- Ho in D2. destruct (D2 cns R) as (a' & E & Ec). exists a'. auto.
  Qed.

  Lemma C26_join_lemma shuffle m (series : list (list X)) query buffer h w (a0 : any X G C) gens cs I (D : nat -> Z -> Z -> num) : built shuffle m series (Some query) buffer h w a0 ->
    orders_sets set_order -> ids_ok gens cs -> gens_ok I gens -> gives g_diag I (fun id => diag_of (D id) h w) (on_matrix h w) (fun d => Z.to_nat (dlen h w d)) ->
    exists evs : list nat -> list (event num),
      (forall a', calculate_diagonals g_diag c_step set_order never (with_parts a0 gens cs) (RFloat (Fin 1%Q)) = Ok a' -> receive c_step evs cs (ca_cons (an_calc a'))) /\
      (forall cns, receive c_step evs cs cns -> exists a', calculate_diagonals g_diag c_step set_order never (with_parts a0 gens cs) (RFloat (Fin 1%Q)) = Ok a' /\ ca_cons (an_calc a') = cns) /\
      (forall ids, Forall (fun e => is_diag e) (evs ids)) /\
      (forall ids i id, nth_error ids i = Some id -> Permutation (log (map (channel i) (evs ids))) (cells_of (D id) (positions h w))).
  Proof.
    intros HB HSO HI HG0 HG. destruct (C26_gen HB HSO HI HG0 HG) as [P1 P2]. eexists. split; [exact P1|]. split; [exact P2|]. split; [intro ids; apply calls_diag|].
    intros ids i id Hi. destruct (built_fresh gens cs HB) as (b & _ & HP & _). rewrite (diag_log _ _ _ _ _ Hi). cbn [is_self]. apply join_cells. exact HP.
  Qed.

  Lemma C26_self_lemma shuffle m (series : list (list X)) buffer n (a0 : any X G C) gens cs I (D : nat -> Z -> Z -> num) : built shuffle m series None buffer n n a0 -> (0 <= buffer_of m buffer)%Z ->
    orders_sets set_order -> ids_ok gens cs -> gens_ok I gens -> gives g_diag I (fun id => diag_of (D id) n n) (on_matrix n n) (fun d => Z.to_nat (dlen n n d)) ->
    exists evs : list nat -> list (event num),
      (forall a', calculate_diagonals g_diag c_step set_order never (with_parts a0 gens cs) (RFloat (Fin 1%Q)) = Ok a' -> receive c_step evs cs (ca_cons (an_calc a'))) /\
      (forall cns, receive c_step evs cs cns -> exists a', calculate_diagonals g_diag c_step set_order never (with_parts a0 gens cs) (RFloat (Fin 1%Q)) = Ok a' /\ ca_cons (an_calc a') = cns) /\
      (forall ids, Forall (fun e => is_diag e) (evs ids)) /\
      (forall ids i id, nth_error ids i = Some id -> Permutation (log (map (channel i) (evs ids))) (cells_of (mirror (D id)) (filter (far (buffer_of m buffer)) (positions n n)))).
  Proof.
    intros HB Hb HSO HI HG0 HG. destruct (C26_gen HB HSO HI HG0 HG) as [P1 P2]. eexists. split; [exact P1|]. split; [exact P2|]. split; [intro ids; apply calls_diag|].
    intros ids i id Hi. destruct (built_fresh gens cs HB) as (b & _ & HP & _). rewrite (diag_log _ _ _ _ _ Hi). cbn [is_self]. apply self_cells; [exact Hb|]. exact HP.
  Qed.

  Lemma C27_lemma shuffle m (series : list (list X)) query buffer h w (a0 : any X G C) gens cs I F calls a1 intr partial v : built shuffle m series query buffer h w a0 ->
    orders_sets set_order -> ids_ok gens cs -> gens_ok I gens -> gives g_diag I F (on_matrix h w) (fun d => Z.to_nat (dlen h w d)) ->
    foldM (fun a c => calculate_diagonals g_diag c_step set_order (fst c) a (snd c)) calls (with_parts a0 gens cs) = Ok a1 ->
    resolves partial (size h w (diagonals query m buffer h w)) (size h w (diagonals query m buffer h w)) v ->
    exists ds new rest, Permutation (ds ++ new ++ rest) (diagonals query m buffer h w) /\
      receive c_step (diagonal_calls F (is_self query) ds) cs (ca_cons (an_calc a1)) /\
      (forall a2, calculate_diagonals g_diag c_step set_order intr a1 partial = Ok a2 -> receive c_step (diagonal_calls F (is_self query) new) (ca_cons (an_calc a1)) (ca_cons (an_calc a2))) /\
      (forall cns, receive c_step (diagonal_calls F (is_self query) new) (ca_cons (an_calc a1)) cns ->
        exists a2, calculate_diagonals g_diag c_step set_order intr a1 partial = Ok a2 /\ ca_cons (an_calc a2) = cns) /\
      (forall i, i < length new -> intr i = false /\ (size h w (ds ++ firstn i new) < v)%Z) /\
      (intr (length new) = true \/ (v <= size h w (ds ++ new))%Z).
  Proof.
    intros HB HSO HI HG0 HG E Hv. destruct (built_fresh gens cs HB) as (b & Hf & HP & Hs). destruct HB as (_ & _ & Hh & Hw & _).
    destruct (diag_run_reach c_step HSO Hf Hh Hw HG HI HG0 calls E) as (ds & r & _ & HR). rewrite <- (size_perm h w HP) in Hv.
    destruct (diag_call HSO Hf Hh Hw HG HI intr _ _ HR Hv) as (new & rest & Ho & D1 & D2 & D3 & D4). exists ds, new, rest. cbn in Ho.
    split; [rewrite <- Ho; exact HP|]. split; [apply HR|]. split; [intros a2 E2; apply D1, E2|]. auto.
  Qed.

  Lemma C28_lemma shuffle m (series : list (list X)) query buffer h w (a0 : any X G C) gens cs I F calls a1 : built shuffle m series query buffer h w a0 ->
    orders_sets set_order -> ids_ok gens cs -> gens_ok I gens -> gives g_diag I F (on_matrix h w) (fun d => Z.to_nat (dlen h w d)) ->
    foldM (fun a c => calculate_diagonals g_diag c_step set_order (fst c) a (snd c)) calls (with_parts a0 gens cs) = Ok a1 ->
    (exists v a2, calculate_diagonals g_diag c_step set_order never (with_parts a0 gens cs) (RInt v) = Ok a2 /\ ca_cons (an_calc a2) = ca_cons (an_calc a1)) /\
    (forall a2, calculate_diagonals g_diag c_step set_order never a1 (RFloat (Fin 1%Q)) = Ok a2 ->
      exists a3, calculate_diagonals g_diag c_step set_order never (with_parts a0 gens cs) (RFloat (Fin 1%Q)) = Ok a3 /\ ca_cons (an_calc a3) = ca_cons (an_calc a2)) /\
    (forall a3, calculate_diagonals g_diag c_step set_order never (with_parts a0 gens cs) (RFloat (Fin 1%Q)) = Ok a3 ->
      exists a2, calculate_diagonals g_diag c_step set_order never a1 (RFloat (Fin 1%Q)) = Ok a2 /\ ca_cons (an_calc a2) = ca_cons (an_calc a3)).
  Proof.
    intros HB HSO HI HG0 HG E. pose proof (C26_gen HB HSO HI HG0 HG) as [P1 P2]. destruct (built_fresh gens cs HB) as (b & Hf & HP & Hs). pose proof HB as (_ & _ & Hh & Hw & _).
    destruct (diag_run_reach c_step HSO Hf Hh Hw HG HI HG0 calls E) as (ds & r & _ & HR). split; [|split].
    - destruct (reach_one HSO Hf Hh Hw HG HI HG0 HR) as (a2 & E2 & Ec). exists (size h w ds), a2. auto.
    - intros a2 E2. pose proof (reach_full HSO Hf Hh Hw HG HI HR E2) as (_ & _ & _ & _ & _ & _ & _ & R). apply P2 in R. exact R.
    - intros a3 E3. apply P1 in E3.
      destruct (diag_run_reach c_step HSO Hf Hh Hw HG HI HG0 calls E) as (ds' & r' & Ho & HR'). cbn in Ho. rewrite Ho in E3.
      assert (Hv : resolves (RFloat (Fin 1%Q)) (size h w (an_order (with_parts a0 gens cs))) (size h w (an_order (with_parts a0 gens cs))) (size h w (an_order (with_parts a0 gens cs)))).
      { apply resolves_one. }
      destruct (diag_call HSO Hf Hh Hw HG HI never _ _ HR' Hv) as (new & rest & Ho' & D1 & D2 & D3 & D4). destruct D4 as [D4|D4]; [discriminate|].
      assert (rest = []). { destruct rest as [|d rest]; [reflexivity|]. exfalso. pose proof (@size_firstn_mono X G C _ h w b (with_parts a0 gens cs) Hf Hh Hw (length (ds' ++ new)) (length (an_order (with_parts a0 gens cs))) ltac:(rewrite Ho', !app_length; cbn [length]; lia) (le_n _)) as Hx.
        rewrite firstn_all, Ho', app_assoc, firstn_app, firstn_all, Nat.sub_diag in Hx. cbn [firstn] in Hx. rewrite app_nil_r, <- app_assoc, <- Ho' in Hx. lia. }
      subst rest. rewrite app_nil_r in Ho'. cbn in Ho'. rewrite Ho in Ho'. apply app_inv_head in Ho'. subst r'.
      assert (R : receive c_step (fun ids => diagonal_calls F (is_self query) ds' ids ++ diagonal_calls F (is_self query) new ids) cs (ca_cons (an_calc a3))).
      { eapply receive_ext; [|exact E3]. intros c ids _. unfold diagonal_calls. rewrite flat_map_app. reflexivity. }
      apply receive_app in R. destruct R as (c1 & R1 & R2). pose proof HR' as (_ & _ & _ & _ & _ & _ & _ & R1'). rewrite (receive_fun R1 R1') in R2. destruct (D2 _ R2) as (a2 & E2 & Ec). exists a2. auto.
  Qed.

  End Diag.

  (** Columns *)
  Variable g_col : G -> nat -> res (G * list num).
  Variable c_step : C -> event num -> res C.
  Variable set_order : list nat -> list nat.
  Lemma built_cols shuffle m (series : list (list X)) query buffer h w (a0 : any X G C) : built shuffle m series query buffer h w a0 ->
    ca_ns (an_calc a0) = Z.of_nat w /\ ca_nq (an_calc a0) = Z.of_nat h /\ (-1 <= ca_tmb (an_calc a0))%Z /\ ca_last (an_calc a0) = (-1)%Z.
  Proof. intro HB. destruct (built_fresh [] [] HB) as (b & [] & _). cbn in *. subst b. auto. Qed.

  Lemma C30_lemma shuffle m (series : list (list X)) query buffer h w (a0 : any X G C) gens cs I F calls a1 : built shuffle m series query buffer h w a0 ->
    orders_sets set_order -> ids_ok gens cs -> gens_ok I gens -> gives g_col I F (fun c => c < w) (fun _ => h) ->
    foldM (fun a c => any_columns g_col c_step set_order (fst c) a None (snd c)) calls (with_parts a0 gens cs) = Ok a1 ->
    exists n, n <= w /\ receive c_step (column_calls F (ca_tmb (an_calc a0)) 0 n) cs (ca_cons (an_calc a1)) /\
      (exists a2, any_columns g_col c_step set_order never (with_parts a0 gens cs) None (RInt (Z.of_nat n)) = Ok a2 /\ ca_cons (an_calc a2) = ca_cons (an_calc a1)) /\
      (forall intr upto u k, resolves upto (Z.of_nat w) (Z.of_nat w) (Z.of_nat u) -> runs intr k (u - n) ->
        (forall a2, any_columns g_col c_step set_order intr a1 None upto = Ok a2 -> receive c_step (column_calls F (ca_tmb (an_calc a0)) n k) (ca_cons (an_calc a1)) (ca_cons (an_calc a2))) /\
        (forall cns, receive c_step (column_calls F (ca_tmb (an_calc a0)) n k) (ca_cons (an_calc a1)) cns -> exists a2, any_columns g_col c_step set_order intr a1 None upto = Ok a2 /\ ca_cons (an_calc a2) = cns)) /\
      (forall a2, any_columns g_col c_step set_order never a1 None (RFloat (Fin 1%Q)) = Ok a2 ->
        exists a3, any_columns g_col c_step set_order never (with_parts a0 gens cs) None (RFloat (Fin 1%Q)) = Ok a3 /\ ca_cons (an_calc a3) = ca_cons (an_calc a2)).
  Proof.
    intros HB HSO HI HG0 HG E. destruct (built_cols HB) as (Hns & Hnq & Hb & Hl).
    assert (Hrun := @col_run_reach A X G C g_col c_step set_order HSO I F h w (with_parts a0 gens cs) Hns Hnq Hb Hl HG HI HG0 calls a1 E). destruct Hrun as (n & HR). exists n.
    split; [apply HR|]. split; [apply HR|]. split; [apply (@creach_one A X G C g_col c_step set_order HSO I F h w (with_parts a0 gens cs) Hns Hnq Hb Hl HG HI HG0 n a1 HR)|]. split.
    - intros intr upto u k Hu Hr. destruct (@col_call A X G C g_col c_step set_order HSO I F h w (with_parts a0 gens cs) Hns Hnq Hb HG HI n a1 intr upto u k HR Hu Hr) as [D1 D2]. split; [intros a2 E2; apply D1, E2|exact D2].
    - intros a2 E2. pose proof (@creach_full A X G C g_col c_step set_order HSO I F h w (with_parts a0 gens cs) Hns Hnq Hb HG HI n a1 a2 HR E2) as (_ & _ & _ & _ & _ & R).
      pose proof (@creach_fresh A X G C c_step I F h w (with_parts a0 gens cs) Hl HG0) as R0.
      destruct (@col_call A X G C g_col c_step set_order HSO I F h w (with_parts a0 gens cs) Hns Hnq Hb HG HI 0 _ never (RFloat (Fin 1%Q)) w w R0) as [_ D2].
      { apply resolves_one. }
      { apply runs_never_iff. lia. }
      exact (D2 _ R).
  Qed.
End Any.

(** ** Streaming *)
Section Stm.
  Context {A : Type}.
  Notation num := (Np.num A).
  Variables (X G C : Type).
  Variable g_col : G -> nat -> res (G * list num).
  Variable g_app_s g_app_q : G -> list X -> res G.
  Variable c_step : C -> event num -> res C.
  Variable set_order : list nat -> list nat.

  Lemma stream_lemma m W qw ndim buffer (t0 : stm G C) gens cs valid Inv F ops p evs :
    let self := is_self qw in
    let Wq := match qw with Some q => q | None => W end in
    1 <= m <= W -> m <= Wq -> 0 < ndim -> stm_new G C (Z.of_nat m) (Z.of_nat W) (option_map Z.of_nat qw) ndim buffer = Ok t0 ->
    orders_sets set_order -> ids_ok gens cs -> (forall g d, In (g, d) gens -> d < ndim) -> gens_ok (fun id g => Inv id [] g) gens ->
    streams g_col g_app_s g_app_q self m W Wq valid Inv F ->
    history self m W Wq ndim (ca_tmb (st_calc t0)) (fun id => nth id (map snd gens) 0) valid F ops p evs ->
    (forall t, foldM (stm_call g_col g_app_s g_app_q c_step set_order) ops (stm_with t0 gens cs) = Ok t ->
      receive c_step evs cs (ca_cons (st_calc t)) /\
      stm_max_column t = Z.of_nat (subseqs m W (series_points ops)) /\
      stm_max_row t = Z.of_nat (if self then subseqs m W (series_points ops) else subseqs m Wq (query_points ops))) /\
    (forall cns, receive c_step evs cs cns -> exists t, foldM (stm_call g_col g_app_s g_app_q c_step set_order) ops (stm_with t0 gens cs) = Ok t /\ ca_cons (st_calc t) = cns).
  Proof.
    intros self Wq Hm HmQ Hnd E HSO HI Hdim HG HST Hh.
    destruct (@stm_start X G C m W ndim qw Inv buffer t0 gens cs Hm ltac:(destruct qw; [exact HmQ|exact Logic.I]) E HG) as [Hb H0].
    assert (Hself : self = true -> Wq = W) by (subst self Wq; destruct qw; [discriminate|reflexivity]).
    assert (Hd : forall d, In d (map snd gens) -> d < ndim) by (intros d Hd; apply in_map_iff in Hd; destruct Hd as ((g, d') & <- & Hin); eapply Hdim; exact Hin).
    assert (Hids : forall ids id, In ids (map snd cs) -> In id ids -> id < length (map snd gens)).
    { intros ids id Hin Hid. apply in_map_iff in Hin. destruct Hin as ((c, ids') & <- & Hin). rewrite map_length. eapply HI; eauto. }
    assert (L := @run_history A X G C g_col g_app_s g_app_q c_step set_order HSO self m W Wq ndim (ca_tmb (st_calc t0)) (map snd gens) (map snd cs) valid Inv F).
    specialize (L Hm HmQ Hself Hb Hd Hids Hnd HST (stm_with t0 gens cs) ops p evs H0 Hh). destruct L as [L1 L2]. split; [|exact L2].
    intros t Et. destruct (L1 t Et) as [P R]. destruct (history_points Hnd Hh) as [Hs Hq].
    split; [exact R|]. rewrite <- Hs, <- Hq. split.
    - eapply max_col; eassumption.
    - erewrite max_row; [|eassumption..]. unfold rows_now. reflexivity.
  Qed.
End Stm.

Lemma C31_shifts_lemma (A X : Type) self m W Wq ndim tmb dim valid (F : nat -> list (gop X) -> nat -> list (Np.num A)) ops p evs ids :
  0 < ndim -> history self m W Wq ndim tmb dim valid F ops p evs ->
  sshift (evs ids) = Z.of_nat (lost W (series_points ops)) /\
  qshift (evs ids) = Z.of_nat (if self then lost W (series_points ops) else lost Wq (query_points ops)).
Proof. intros Hn Hh. destruct (history_points Hn Hh) as [<- <-]. exact (history_shifts ids Hh). Qed.

Lemma C32_lemma (A X : Type) self m W Wq ndim tmb dim valid (F : nat -> list (gop X) -> nat -> list (Np.num A)) ops p evs ids :
  0 < ndim -> 1 <= m <= W -> history self m W Wq ndim tmb dim valid F ops p evs ->
  StronglySorted Z.lt (delivered (evs ids)) /\
  (forall p' evs', does self m W Wq ndim tmb dim valid F (OCols never (RFloat (Fin 1%Q))) p p' evs' ->
    forall j, (Z.of_nat (lost W (series_points ops)) <= j < Z.of_nat (lost W (series_points ops) + subseqs m W (series_points ops)))%Z -> In j (delivered (evs ids ++ evs' ids))).
Proof.
  intros Hn Hm Hh. split; [apply (history_delivered ids Hh)|]. intros p' evs' Hd j Hj.
  pose proof (history_full Hm Hh Hd) as Hfull. pose proof (history_snoc Hh Hd) as Hh'. destruct (history_delivered ids Hh') as (_ & _ & P). apply P.
  assert (Es : p_s p' = series_points ops).
  { destruct (history_points Hn Hh') as [-> _]. unfold series_points. rewrite map_app, list_sum_app. cbn. lia. }
  rewrite Es in *. lia.
Qed.

Lemma C60_any_self (X G C : Type) shuffle m (series : list (list X)) buffer : let n := (Z.of_nat (length (hd [] series)) - m + 1)%Z in
  ((-1 <= buffer_of m buffer < n)%Z -> exists a, any_new G C shuffle m series None buffer = Ok a /\ ca_tmb (an_calc a) = buffer_of m buffer) /\
  (~ (-1 <= buffer_of m buffer < n)%Z -> any_new G C shuffle m series None buffer = Err RuntimeError).
Proof.
  intro n. unfold any_new, ca_new. rewrite Nat.eqb_refl. fold (buffer_of m buffer). fold n. cbn [negb].
  destruct (Z.leb_spec (-1) (buffer_of m buffer)), (Z.ltb_spec (buffer_of m buffer) n); cbn [andb bind]; split; intro H1; try lia; try reflexivity. eexists. split; reflexivity.
Qed.
Lemma C60_any_join (X G C : Type) shuffle m (series query : list (list X)) buffer : length series = length query ->
  exists a, any_new G C shuffle m series (Some query) buffer = Ok a /\ ca_tmb (an_calc a) = (-1)%Z.
Proof. intro E. unfold any_new. rewrite E, Nat.eqb_refl. eexists. split; reflexivity. Qed.
Lemma C60_stm (G C : Type) m W ndim buffer :
  ((-1 <= buffer_of m buffer < W - m + 1)%Z -> exists t, stm_new G C m W None ndim buffer = Ok t /\ ca_tmb (st_calc t) = buffer_of m buffer) /\
  (~ (-1 <= buffer_of m buffer < W - m + 1)%Z -> stm_new G C m W None ndim buffer = Err RuntimeError) /\
  (forall qw, exists t, stm_new G C m W (Some qw) ndim buffer = Ok t /\ ca_tmb (st_calc t) = (-1)%Z).
Proof.
  unfold stm_new, ca_new. fold (buffer_of m buffer).
  destruct (Z.leb_spec (-1) (buffer_of m buffer)), (Z.ltb_spec (buffer_of m buffer) (W - m + 1)); cbn [andb bind]; repeat split; try (intro H1; lia); try reflexivity; try (intros; eexists; split; reflexivity).
Qed.
