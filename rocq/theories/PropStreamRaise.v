(** * Property C96: StreamingCalculators after exceptions *)
From Coq Require Import QArith Permutation.
From Verif Require Import Np NpFacts Inst Mat MUtil SLog MProfile MEuclid MZnorm MCache MCalc SCalc SMixed SStream SEndStream PCalc MRaise SRaise PRaise MRejected MStreamRaise SStreamRaise PStreamRaise PropCalc PropReject PropEnd PropEndStream.
Set Implicit Arguments.
Open Scope nat_scope.

Section Same.
  Context {A : Type}.
  Variables (X G C : Type) (g_col : G -> nat -> G * res (list (Np.num A))) (g_app_s g_app_q : G -> list X -> G * option exn) (c_step : C -> event (Np.num A) -> C * option exn) (set_order : list nat -> list nat).
  (** The methods of MCalc.v *)
  Definition plain_call (t : stm G C) (op : xop X) : res (stm G C) :=
    match op with
    | XSeries v => append_series (plain_a g_app_s) (plain_c c_step) t v
    | XQuery v => append_query (plain_a g_app_q) (plain_c c_step) t v
    | XCols intr start upto => stm_columns (plain_g g_col) (plain_c c_step) set_order intr t start upto
    end.
End Same.

(** C96. The model with exceptions (MStreamRaise.v) and the one without (MCalc.v) agree. *)
Theorem C96_same : forall A X G C (g_col : G -> nat -> G * res (list (Np.num A))) (g_app_s g_app_q : G -> list X -> G * option exn) (c_step : C -> event (Np.num A) -> C * option exn) set_order (t : stm G C) op,
  plain_call g_col g_app_s g_app_q c_step set_order t op =
  match xcall g_col g_app_s g_app_q c_step set_order t op with (t', None) => Ok t' | (_, Some e) => Err e end.
Proof.
  intros A X G C g_col g_app_s g_app_q c_step set_order t op.
  assert (K : forall T (x : T * option exn) y, same x y -> y = match x with (t', None) => Ok t' | (_, Some e) => Err e end) by (intros T [a [e|]] y H; exact H).
  apply K. destruct op as [v|v|intr start upto]; [apply series_same|apply query_same|apply columns_same].
Qed.
Print Assumptions C96_same.

Lemma start_0 : forall A X G C (c_step : C -> event (Np.num A) -> C * option exn) m W qw ndim buffer (t0 : stm G C) gens cs Inv (F : nat -> list X -> list X -> nat -> list (Np.num A)) (dflt : Prop),
  let self := is_self qw in let Wq := match qw with Some q => q | None => W end in
  1 <= m <= W -> m <= Wq -> 0 < ndim -> stm_new G C (Z.of_nat m) (Z.of_nat W) (option_map Z.of_nat qw) ndim buffer = Ok t0 -> gens_ok (fun id g => Inv id [] [] g) gens ->
  (-1 <= ca_tmb (st_calc t0))%Z /\ at_x c_step self m W Wq ndim (ca_tmb (st_calc t0)) (map snd gens) cs Inv F dflt [] (repeat [] ndim) (repeat [] ndim) (stm_with t0 gens cs).
Proof.
  intros A X G C c_step m W qw ndim buffer t0 gens cs Inv F dflt self Wq Hm HmQ Hnd E HG.
  assert (K : (-1 <= ca_tmb (st_calc t0))%Z /\ ca_self (st_calc t0) = self /\ ca_m (st_calc t0) = Z.of_nat m /\ ca_ndim (st_calc t0) = ndim /\ ca_ns (st_calc t0) = Z.of_nat (W + 1 - m) /\ ca_nq (st_calc t0) = Z.of_nat (Wq + 1 - m) /\
    ca_last (st_calc t0) = (-1)%Z /\ st_sp t0 = 0%Z /\ (self = false -> st_qp t0 = 0%Z)).
  { unfold stm_new in E. subst self Wq. destruct qw as [q|]; cbn [option_map is_self] in *.
    - cbn [ca_new bind] in E. injection E as <-. cbn. repeat split; lia.
    - unfold ca_new in E. destruct (_ && _) eqn:Eb; [|discriminate]. cbn [bind] in E. injection E as <-. apply andb_true_iff in Eb. destruct Eb as [B1 _]. apply Z.leb_le in B1. cbn. repeat split; try lia; try discriminate; try exact B1. }
  destruct K as (K1 & K2 & K3 & K4 & K5 & K6 & K7 & K8 & K9).
  assert (Hn : forall id, nth id (repeat (@nil X) ndim) [] = []) by (intro id; rewrite nth_repeat; reflexivity).
  assert (Hh : length (hd [] (repeat (@nil X) ndim)) = 0) by (destruct ndim; reflexivity).
  assert (Hbl : block ndim 0 (repeat (@nil X) ndim)) by (split; [apply repeat_length|intros r Hr; apply repeat_spec in Hr; subst r; reflexivity]).
  split; [exact K1|].
  constructor; cbn [stm_with st_calc ca_upd ca_self ca_m ca_ndim ca_ns ca_nq ca_tmb ca_gens ca_cons ca_last st_sp st_qp]; rewrite ?Hh; try assumption; auto; try lia.
  - destruct self; reflexivity.
  - intros id g d Hg. rewrite !Hn. eapply HG. exact Hg.
  - clear - K7. induction cs as [|[c ids] cs IH]; constructor; [|exact IH]. split; [reflexivity|]. exists []. split; [reflexivity|]. split; [constructor|]. rewrite K7. intros _ j Hj. lia.
Qed.
Lemma start_if : forall A X G C (g_col : G -> nat -> G * res (list (Np.num A))) (g_app_s g_app_q : G -> list X -> G * option exn) (c_step : C -> event (Np.num A) -> C * option exn) set_order m W qw ndim buffer
    (t0 : stm G C) gens cs valid lets Inv F ops,
  let self := is_self qw in let Wq := match qw with Some q => q | None => W end in
  1 <= m <= W -> m <= Wq -> 0 < ndim -> stm_new G C (Z.of_nat m) (Z.of_nat W) (option_map Z.of_nat qw) ndim buffer = Ok t0 ->
  orders_sets set_order -> ids_ok gens cs -> (forall g d, In (g, d) gens -> d < ndim) -> gens_ok (fun id g => Inv id [] [] g) gens ->
  may_stream_if self m W Wq valid F lets g_col g_app_s g_app_q Inv -> Forall (is_array valid) ops -> paced lets self ndim ops ->
  appends_return self ndim g_col g_app_s g_app_q c_step set_order ops (stm_with t0 gens cs) ->
  exists ss qs, at_x c_step self m W Wq ndim (ca_tmb (st_calc t0)) (map snd gens) cs Inv F (Forall (@default_start X) ops) ops ss qs (go_on g_col g_app_s g_app_q c_step set_order ops (stm_with t0 gens cs)).
Proof.
  intros A X G C g_col g_app_s g_app_q c_step set_order m W qw ndim buffer t0 gens cs valid lets Inv F ops self Wq Hm HmQ Hnd E HSO Hids Hgd HG HMS HA HP HR.
  assert (HWq : self = true -> Wq = W) by (subst self Wq; destruct qw; [discriminate|reflexivity]).
  destruct (@start_0 A X G C c_step m W qw ndim buffer t0 gens cs Inv F (Forall (@default_start X) ops) Hm HmQ Hnd E HG) as [K1 K2].
  eapply at_run with (lets := lets); try eassumption; auto.
  - intros d Hd. apply in_map_iff in Hd. destruct Hd as ([g d'] & <- & Hin). eapply Hgd. exact Hin.
  - intros c ids id Hc Hid. rewrite map_length. eapply Hids; eassumption.
Qed.
Lemma appends_if : forall A X G C (g_col : G -> nat -> G * res (list (Np.num A))) (g_app_s g_app_q : G -> list X -> G * option exn) (c_step : C -> event (Np.num A) -> C * option exn) set_order m W qw ndim buffer
    (t0 : stm G C) gens cs valid lets Inv F ops,
  let self := is_self qw in let Wq := match qw with Some q => q | None => W end in
  1 <= m <= W -> m <= Wq -> 0 < ndim -> stm_new G C (Z.of_nat m) (Z.of_nat W) (option_map Z.of_nat qw) ndim buffer = Ok t0 ->
  orders_sets set_order -> ids_ok gens cs -> (forall g d, In (g, d) gens -> d < ndim) -> gens_ok (fun id g => Inv id [] [] g) gens ->
  may_stream_if self m W Wq valid F lets g_col g_app_s g_app_q Inv -> Forall (is_array valid) ops -> paced lets self ndim ops ->
  (forall id s q g xs, Inv id s q g -> lets (length s) (length q) (Some (length xs)) -> valid xs -> snd (g_app_s g xs) = None) -> (self = false -> forall id s q g xs, Inv id s q g -> valid xs -> snd (g_app_q g xs) = None) ->
  (forall c ids, In (c, ids) cs -> shifts_return (fun ops ss qs evs => heard self m W Wq ndim (ca_tmb (st_calc t0)) (fun id => nth id (map snd gens) 0) F ids ops ss qs evs /\ paced lets self ndim ops) c_step c) ->
  appends_return self ndim g_col g_app_s g_app_q c_step set_order ops (stm_with t0 gens cs).
Proof.
  intros A X G C g_col g_app_s g_app_q c_step set_order m W qw ndim buffer t0 gens cs valid lets Inv F ops self Wq Hm HmQ Hnd E HSO Hids Hgd HG HMS HA HP H1 H2 H3.
  assert (HWq : self = true -> Wq = W) by (subst self Wq; destruct qw; [discriminate|reflexivity]).
  destruct (@start_0 A X G C c_step m W qw ndim buffer t0 gens cs Inv F False Hm HmQ Hnd E HG) as [K1 K2].
  eapply run_returns with (valid := valid) (lets := lets); try eassumption; auto.
  - intros d Hd. apply in_map_iff in Hd. destruct Hd as ([g d'] & <- & Hin). eapply Hgd. exact Hin.
  - intros c ids id Hc Hid. rewrite map_length. eapply Hids; eassumption.
Qed.
Lemma free_stream {A X G} self m W Wq valid F (g_col : G -> nat -> G * res (list (Np.num A))) (g_app_s g_app_q : G -> list X -> G * option exn) Inv :
  may_stream self m W Wq valid F g_col g_app_s g_app_q Inv -> may_stream_if self m W Wq valid F (fun _ _ _ => True) g_col g_app_s g_app_q Inv.
Proof. intros H id s q g HI. destruct (H id s q g HI) as (M1 & M2 & M3). split; [intros; eapply M1; eassumption|]. split; [exact M2|]. intros j _. apply M3. Qed.
Lemma free_paced {X} self ndim (ops : list (xop X)) : paced (fun _ _ _ => True) self ndim ops.
Proof. intros pre op post _ ns nq. destruct op; intros; exact I. Qed.
Lemma start_x : forall A X G C (g_col : G -> nat -> G * res (list (Np.num A))) (g_app_s g_app_q : G -> list X -> G * option exn) (c_step : C -> event (Np.num A) -> C * option exn) set_order m W qw ndim buffer
    (t0 : stm G C) gens cs valid Inv F ops,
  let self := is_self qw in let Wq := match qw with Some q => q | None => W end in
  1 <= m <= W -> m <= Wq -> 0 < ndim -> stm_new G C (Z.of_nat m) (Z.of_nat W) (option_map Z.of_nat qw) ndim buffer = Ok t0 ->
  orders_sets set_order -> ids_ok gens cs -> (forall g d, In (g, d) gens -> d < ndim) -> gens_ok (fun id g => Inv id [] [] g) gens ->
  may_stream self m W Wq valid F g_col g_app_s g_app_q Inv -> Forall (is_array valid) ops ->
  appends_return self ndim g_col g_app_s g_app_q c_step set_order ops (stm_with t0 gens cs) ->
  exists ss qs, at_x c_step self m W Wq ndim (ca_tmb (st_calc t0)) (map snd gens) cs Inv F (Forall (@default_start X) ops) ops ss qs (go_on g_col g_app_s g_app_q c_step set_order ops (stm_with t0 gens cs)).
Proof.
  intros A X G C g_col g_app_s g_app_q c_step set_order m W qw ndim buffer t0 gens cs valid Inv F ops self Wq Hm HmQ Hnd E HSO Hids Hgd HG HMS HA HR.
  eapply start_if with (lets := fun _ _ _ => True); try eassumption; [apply free_stream; exact HMS|apply free_paced].
Qed.

(** Appends return, or are rejected at once, when the generators accept the points and the shift methods of the consumers do not raise. *)
Theorem C96_appends : forall A X G C (g_col : G -> nat -> G * res (list (Np.num A))) (g_app_s g_app_q : G -> list X -> G * option exn) (c_step : C -> event (Np.num A) -> C * option exn) set_order m W qw ndim buffer
    (t0 : stm G C) gens cs valid Inv F ops,
  let self := is_self qw in let Wq := match qw with Some q => q | None => W end in
  1 <= m <= W -> m <= Wq -> 0 < ndim -> stm_new G C (Z.of_nat m) (Z.of_nat W) (option_map Z.of_nat qw) ndim buffer = Ok t0 ->
  orders_sets set_order -> ids_ok gens cs -> (forall g d, In (g, d) gens -> d < ndim) -> gens_ok (fun id g => Inv id [] [] g) gens ->
  may_stream self m W Wq valid F g_col g_app_s g_app_q Inv -> Forall (is_array valid) ops ->
  (forall id s q g xs, Inv id s q g -> valid xs -> snd (g_app_s g xs) = None) -> (self = false -> forall id s q g xs, Inv id s q g -> valid xs -> snd (g_app_q g xs) = None) ->
  (forall c ids, In (c, ids) cs -> shifts_return (heard self m W Wq ndim (ca_tmb (st_calc t0)) (fun id => nth id (map snd gens) 0) F ids) c_step c) ->
  appends_return self ndim g_col g_app_s g_app_q c_step set_order ops (stm_with t0 gens cs).
Proof.
  intros A X G C g_col g_app_s g_app_q c_step set_order m W qw ndim buffer t0 gens cs valid Inv F ops self Wq Hm HmQ Hnd E HSO Hids Hgd HG HMS HA H1 H2 H3.
  eapply appends_if with (lets := fun _ _ _ => True); try eassumption; [apply free_stream; exact HMS|apply free_paced|intros; eapply H1; eassumption|].
  intros c ids Hc ops' ss qs pre e post [He _] Hsh. exact (H3 c ids Hc ops' ss qs pre e post He Hsh).
Qed.
Print Assumptions C96_appends.

(** Any calls, with any exceptions in calculate_columns (of generators and consumers), and appends that are rejected at once; the client
    catches the exceptions and goes on.  Every consumer was told right columns only, and all shifts; unless the client skipped columns, it
    processed all columns that the calculator regards as calculated (now in the window).  Missing: appends in which a generator or a consumer
    raises (refuted below). *)
Theorem C96_partial : forall A X G C (g_col : G -> nat -> G * res (list (Np.num A))) (g_app_s g_app_q : G -> list X -> G * option exn) (c_step : C -> event (Np.num A) -> C * option exn) set_order m W qw ndim buffer
    (t0 : stm G C) gens cs valid Inv F ops,
  let self := is_self qw in let Wq := match qw with Some q => q | None => W end in
  1 <= m <= W -> m <= Wq -> 0 < ndim -> stm_new G C (Z.of_nat m) (Z.of_nat W) (option_map Z.of_nat qw) ndim buffer = Ok t0 ->
  orders_sets set_order -> ids_ok gens cs -> (forall g d, In (g, d) gens -> d < ndim) -> gens_ok (fun id g => Inv id [] [] g) gens ->
  may_stream self m W Wq valid F g_col g_app_s g_app_q Inv -> Forall (is_array valid) ops ->
  appends_return self ndim g_col g_app_s g_app_q c_step set_order ops (stm_with t0 gens cs) ->
  let t := go_on g_col g_app_s g_app_q c_step set_order ops (stm_with t0 gens cs) in
  exists ss qs, st_sp t = Z.of_nat (length (hd [] ss)) /\ (self = false -> st_qp t = Z.of_nat (length (hd [] qs))) /\
    Forall2 (fun c c' => snd c' = snd c /\ exists evs, fst c' = after c_step evs (fst c) /\
      heard self m W Wq ndim (ca_tmb (st_calc t0)) (fun id => nth id (map snd gens) 0) F (snd c) ops ss qs evs /\
      (Forall (@default_start X) ops -> forall j, (Z.of_nat j <= ca_last (st_calc t))%Z -> processed c_step (fst c) evs j)) cs (ca_cons (st_calc t)).
Proof.
  intros A X G C g_col g_app_s g_app_q c_step set_order m W qw ndim buffer t0 gens cs valid Inv F ops self Wq Hm HmQ Hnd E HSO Hids Hgd HG HMS HA HR t.
  destruct (@start_x A X G C g_col g_app_s g_app_q c_step set_order m W qw ndim buffer t0 gens cs valid Inv F ops Hm HmQ Hnd E HSO Hids Hgd HG HMS HA HR) as (ss & qs & AX).
  exists ss, qs. split; [exact (ax_sp AX)|]. split; [exact (ax_qp AX)|]. exact (ax_cons AX).
Qed.
Print Assumptions C96_partial.

Lemma loop_done : forall A G C (g_col : G -> nat -> G * res (list (Np.num A))) (c_step : C -> event (Np.num A) -> C * option exn) ids h upto fuel k c s dists s' dists',
  (upto - c <= Z.of_nat fuel)%Z -> col_loop_x g_col c_step fuel never k ids h c upto (s, dists) = (s', dists', None) -> (upto - 1 <= ca_last s' \/ (upto <= c /\ ca_last s' = ca_last s))%Z.
Proof.
  intros A G C g_col c_step ids h upto. induction fuel as [|fuel IH]; intros k c s dists s' dists' Hf E; cbn [col_loop_x] in E; [injection E as <- _; right; split; [lia|reflexivity]|].
  destruct (Z.ltb_spec c upto) as [Hc|Hc]; cbn [andb never negb] in E; [|injection E as <- _; right; split; [lia|reflexivity]].
  unfold never in E. cbn [negb] in E. destruct (col_step_x g_col c_step ids h (s, dists) c) as [[s1 d1] [x|]] eqn:Es; [discriminate|].
  assert (E1 : (c <= ca_last s1)%Z).
  { unfold col_step_x in Es. cbn [fst snd] in Es. destruct (run_gens_x _ _ _ _ _) as [[gens d2] [x|]]; [discriminate|]. destruct (deliver_x _ _ _ _) as [cns [x|]]; [discriminate|]. injection Es as <- _. cbn [ca_upd ca_last]. lia. }
  left. apply IH in E; [|lia]. destruct E as [H|[H1 H2]]; lia.
Qed.

(** Afterwards, a complete calculation that returns has calculated all columns of the window. *)
Theorem C96_finish : forall A X G C (g_col : G -> nat -> G * res (list (Np.num A))) (g_app_s g_app_q : G -> list X -> G * option exn) (c_step : C -> event (Np.num A) -> C * option exn) set_order m W qw ndim buffer
    (t0 : stm G C) gens cs valid Inv F ops,
  let self := is_self qw in let Wq := match qw with Some q => q | None => W end in
  1 <= m <= W -> m <= Wq -> 0 < ndim -> stm_new G C (Z.of_nat m) (Z.of_nat W) (option_map Z.of_nat qw) ndim buffer = Ok t0 ->
  orders_sets set_order -> ids_ok gens cs -> (forall g d, In (g, d) gens -> d < ndim) -> gens_ok (fun id g => Inv id [] [] g) gens ->
  may_stream self m W Wq valid F g_col g_app_s g_app_q Inv -> Forall (is_array valid) ops ->
  appends_return self ndim g_col g_app_s g_app_q c_step set_order ops (stm_with t0 gens cs) ->
  let t := go_on g_col g_app_s g_app_q c_step set_order ops (stm_with t0 gens cs) in
  forall t', xcall g_col g_app_s g_app_q c_step set_order t (XCols never None (RFloat (Fin 1%Q))) = (t', None) ->
  (Z.of_nat (subseqs m W (Z.to_nat (st_sp t))) - 1 <= ca_last (st_calc t'))%Z.
Proof.
  intros A X G C g_col g_app_s g_app_q c_step set_order m W qw ndim buffer t0 gens cs valid Inv F ops self Wq Hm HmQ Hnd E HSO Hids Hgd HG HMS HA HR t t'.
  destruct (@start_x A X G C g_col g_app_s g_app_q c_step set_order m W qw ndim buffer t0 gens cs valid Inv F ops Hm HmQ Hnd E HSO Hids Hgd HG HMS HA HR) as (ss & qs & AX).
  fold t in AX. cbn [xcall]. unfold stm_columns_x, calculate_columns_x. assert (Ew : stm_max_column t = Z.of_nat (subseqs m W (Z.to_nat (st_sp t)))) by (unfold stm_max_column, subseqs; rewrite (ax_sp AX), Nat2Z.id, (ax_m AX), (ax_ns AX); lia).
  rewrite <- Ew. pose proof (ax_last AX) as Hl. set (L := stm_max_column t) in *.
  assert (Hr : exists c, ratio_to_int (RInt (ca_last (st_calc t) + 1)) (ca_ns (st_calc t)) L = Ok c /\ (L <= c -> L - 1 <= ca_last (st_calc t))%Z) by (eexists; split; [reflexivity|lia]).
  assert (Hu : ratio_to_int (RFloat (Fin 1%Q)) (ca_ns (st_calc t)) L = Ok L).
  { rewrite (ax_ns AX). apply PCalc.resolves_ok; [lia|]. split; [discriminate|]. split; [discriminate|]. exists (Z.of_nat (W + 1 - m)). rewrite !Qmult_1_l. split; [apply Qle_refl|]. split; [intros k' Hk; rewrite Qmult_1_l, <- Zle_Qle in Hk; exact Hk|]. unfold subseqs in Ew. lia. }
  destruct Hr as (c & Er & Hc). rewrite Er, Hu. cbn [bind]. destruct (_ <? 0)%Z; [discriminate|].
  destruct (col_loop_x _ _ _ _ _ _ _ _ _ _) as [[s' d'] x] eqn:El. cbn [fst snd]. intro E1. injection E1 as <- ->. cbn [st_calc]. apply loop_done in El; [|lia]. destruct El as [H|[H1 H2]]; [exact H|]. rewrite H2. auto.
Qed.
Print Assumptions C96_finish.

(** ** Examples and refutations on integers *)
Local Notation zs := (map (@Fin Z)).
(** Consumers: a MatrixProfileLR, which has no shift methods, a ShiftingMatrixProfileLR, and one whose call number [n] (from 0) raises *)
Inductive cons4 : Type := Pf (s : @mplr Z) | Sp (s : @smp Z) | Fl (n : option nat).
Definition step4 (c : cons4) (e : event (Np.num Z)) : cons4 * option exn :=
  match c with
  | Pf s => match mplr_step s e with Ok s' => (Pf s', None) | Err x => (c, Some x) end
  | Sp s => match smp_step s e with Ok s' => (Sp s', None) | Err x => (c, Some x) end
  | Fl (Some 0) => (Fl None, Some ValueError)
  | Fl (Some (S n)) => (Fl (Some n), None)
  | Fl None => (Fl None, None)
  end.
Definition sp0 (h w : nat) : cons4 := match smp_init none_Z (fun _ => 77%Z) 2 h w with Ok s => Sp s | Err _ => Fl None end.
Definition shown (c : cons4) : option (list (Np.num Z) * list Z) := match c with Sp s => Some (smp_mp s, smp_idx s) | _ => None end.
(** Generators: Euclidean (without the root) and z-normalised *)
Inductive gen4 : Type := Eu (g : @cache Z) | Zn (g : @zn Z).
Definition col4 (g : gen4) (c : nat) : gen4 * res (list (Np.num Z)) :=
  match g with
  | Eu g0 => match eu_calc_column none_Z g0 c with Ok (g', v) => (Eu g', Ok v) | Err e => (g, Err e) end
  | Zn g0 => match zn_calc_column none_Z g0 c with Ok (g', v) => (Zn g', Ok v) | Err e => (g, Err e) end
  end.
Definition app4 (g : gen4) (xs : list (Np.num Z)) : gen4 * option exn :=
  match g with
  | Eu g0 => match eu_append_series g0 xs with Ok g' => (Eu g', None) | Err e => (g, Some e) end
  | Zn g0 => let (g', e) := zn_append_series_st g0 xs in (Zn g', e)
  end.
Definition eu_on (d : nat) : list (gen4 * nat) := match eu_prepare_streaming none_Z 2 2 4 None with Ok g => [(Eu g, d)] | Err _ => [] end.
Definition zn_on (d : nat) : list (gen4 * nat) := match zn_prepare_streaming none_Z (fun _ => true) (Fin 0%Z) 2 2 4 None with Ok g => [(Zn g, d)] | Err _ => [] end.
Definition start4 (ndim : nat) (gens : list (gen4 * nat)) (cs : list (cons4 * list nat)) : stm gen4 cons4 :=
  match stm_new gen4 cons4 2 4 None ndim (Some 0%Z) with Ok t => stm_with t gens cs | Err _ => mkStm (mkCalc true 0 0 0 0 0 [] [] 0) 0 0 end.
Definition run4 ndim gens cs ops := go_on col4 app4 app4 step4 quick ops (start4 ndim gens cs).
Definition raised4 ndim gens cs ops := map (fun k => snd (xcall col4 app4 app4 step4 quick (run4 ndim gens cs (firstn k ops)) (nth k ops (XCols never None (RInt 0))))) (seq 0 (length ops)).
Definition all4 : xop (Np.num Z) := XCols never None (RFloat (Fin 1%Q)).

(** Refuted for appends in which a consumer raises.  Both clients make the same calls, and the last one returns.  After the AttributeError of
    the MatrixProfileLR (its generator has all the points) the ShiftingMatrixProfileLR behind it was not shifted, and no column is calculated any more. *)
Theorem C96_consumer_refuted : exists ops,
  let p := (Pf (mplr_init 3 3), [0]) in
  let t := run4 1 (eu_on 0) [(sp0 3 3, [0])] ops in let t' := run4 1 (eu_on 0) [p; (sp0 3 3, [0])] ops in
  raised4 1 (eu_on 0) [(sp0 3 3, [0])] ops = [None; None; None; None] /\ raised4 1 (eu_on 0) [p; (sp0 3 3, [0])] ops = [None; None; Some AttributeError; None] /\
  st_sp t = 6%Z /\ st_sp t' = 6%Z /\ ca_last (st_calc t) = 2%Z /\ ca_last (st_calc t') = 2%Z /\
  map (fun c => shown (fst c)) (ca_cons (st_calc t)) = [Some (zs [4; 3; 3], [1; 4; 3])%Z] /\ map (fun c => shown (fst c)) (ca_cons (st_calc t')) = [None; Some (zs [3; 3; 4], [1; 0; 1])%Z].
Proof. exists [XSeries (Pts [zs [0; 3; 4; 0]]%Z); all4; XSeries (Pts [zs [2; 5]]%Z); all4]. repeat split; vm_compute; reflexivity. Qed.
Print Assumptions C96_consumer_refuted.

(** Refuted for appends in which a generator raises: the second channel brings a NaN, and its z-normalised generator rejects it.  The Euclidean
    generator of the first channel has appended the point, the calculator has not counted it, and the consumers were not shifted: the profile is
    neither the one without the point nor the one with it (which has indices from 1 to 3). *)
Theorem C96_generator_refuted : exists v bad good, let gens := eu_on 0 ++ zn_on 1 in let cs := [(sp0 3 3, [0])] in
  let profile ops := map (fun c => shown (fst c)) (ca_cons (st_calc (run4 2 gens cs ops))) in
  raised4 2 gens cs [v; bad; all4] = [None; Some RuntimeError; None] /\ raised4 2 gens cs [v; good; all4] = [None; None; None] /\
  st_sp (run4 2 gens cs [v; bad; all4]) = 4%Z /\
  profile [v; all4] = [Some (zs [3; 3; 4], [1; 0; 1])%Z] /\ profile [v; good; all4] = [Some (zs [3; 4; 3], [3; 3; 1])%Z] /\ profile [v; bad; all4] = [Some (zs [3; 4; 3], [2; 2; 0])%Z].
Proof. exists (XSeries (Pts [zs [0; 3; 4; 0]; zs [1; 2; 5; 6]]%Z)), (XSeries (Pts [zs [2]; [NaN]]%Z)), (XSeries (Pts [zs [2]; zs [1]]%Z)). repeat split; vm_compute; reflexivity. Qed.
Print Assumptions C96_generator_refuted.

(** A generator that keeps all points, |s_r - s_j| being its distances; its call number [fst g] (from 0) raises. *)
Definition F4 (s q : list Z) (j : nat) : list (Np.num Z) := map (fun r => Fz (Z.abs (nth r (skipn (lost 3 (length s)) s) 0%Z - nth j (skipn (lost 3 (length s)) s) 0%Z))) (seq 0 (subseqs 1 3 (length s))).
Definition lg_col (g : option nat * list Z) (j : nat) : (option nat * list Z) * res (list (Np.num Z)) :=
  match fst g with Some 0 => ((None, snd g), Err ValueError) | Some (S n) => ((Some n, snd g), Ok (F4 (snd g) [] j)) | None => (g, Ok (F4 (snd g) [] j)) end.
Definition lg_app (g : option nat * list Z) (xs : list Z) : (option nat * list Z) * option exn := ((fst g, snd g ++ xs), None).
Lemma lg_streams : may_stream true 1 3 3 (fun _ => True) (fun _ => F4) lg_col lg_app lg_app (fun _ s _ g => snd g = s).
Proof.
  intros id s q [f g] E. cbn [snd] in E. subst g. split; [intros xs g' _ E; injection E as <-; reflexivity|]. split; [discriminate|]. intros j Hj. unfold lg_col. cbn [fst snd].
  destruct f as [[|n]|]; cbn [fst snd]; (split; [reflexivity|]); intros v E; [discriminate| |]; injection E as <-; (split; [reflexivity|]); unfold F4; rewrite map_length, seq_length; reflexivity.
Qed.
Definition join4 : stm (option nat * list Z) cons4 := match stm_new (option nat * list Z) cons4 1 3 None 1 (Some 0%Z) with Ok t => t | Err _ => mkStm (mkCalc true 0 0 0 0 0 [] [] 0) 0 0 end.
Definition all5 : xop Z := XCols never None (RFloat (Fin 1%Q)).
(** The generator raises in its second column, the first consumer in its third call; two appends are rejected. *)
Definition ops5 : list (xop Z) := [XSeries (Pts [[5; 1; 9]]%Z); all5; XQuery (Pt [5]%Z); XSeries (Pt [5; 6]%Z); all5; all5; XSeries (Pts [[2; 7]]%Z); all5].
Definition gens5 : list ((option nat * list Z) * nat) := [((Some 1, []), 0)].
Definition cons5 : list (cons4 * list nat) := [(Fl (Some 2), [0]); (sp0 3 3, [0])].
Definition run5 ops := go_on lg_col lg_app lg_app step4 quick ops (stm_with join4 gens5 cons5).
Lemma ops5_return : appends_return true 1 lg_col lg_app lg_app step4 quick ops5 (stm_with join4 gens5 cons5).
Proof.
  intros pre op post E. unfold ops5 in E.
  do 8 (destruct pre as [|o pre]; [injection E as <- _; first [exact I|right; vm_compute; reflexivity|left; cbn; first [left; reflexivity|reflexivity]]|cbn [app] in E; injection E as <- E]).
  destruct pre; discriminate.
Qed.
Example C96_example : map (fun k => snd (xcall lg_col lg_app lg_app step4 quick (run5 (firstn k ops5)) (nth k ops5 all5))) (seq 0 8) =
    [None; Some ValueError; Some RuntimeError; Some RuntimeError; Some ValueError; None; None; None] /\
  ca_last (st_calc (run5 ops5)) = 2%Z /\ map (fun c => shown (fst c)) (ca_cons (st_calc (run5 ops5))) = [None; Some (zs [4; 5; 2], [0; 4; 2])%Z] /\
  exists ss qs, st_sp (run5 ops5) = Z.of_nat (length (hd [] ss)) /\ (true = false -> st_qp (run5 ops5) = Z.of_nat (length (hd [] qs))) /\
    Forall2 (fun c c' => snd c' = snd c /\ exists evs, fst c' = after step4 evs (fst c) /\ heard true 1 3 3 1 0 (fun id => nth id [0] 0) (fun _ => F4) (snd c) ops5 ss qs evs /\
      (Forall (@default_start Z) ops5 -> forall j, (Z.of_nat j <= ca_last (st_calc (run5 ops5)))%Z -> processed step4 (fst c) evs j)) cons5 (ca_cons (st_calc (run5 ops5))).
Proof.
  split; [vm_compute; reflexivity|]. split; [vm_compute; reflexivity|]. split; [vm_compute; reflexivity|].
  refine (@C96_partial Z Z (option nat * list Z) cons4 lg_col lg_app lg_app step4 quick 1 3 None 1 (Some 0%Z) join4 gens5 cons5 (fun _ => True) (fun _ s _ g => snd g = s) (fun _ => F4) ops5 _ _ _ eq_refl _ _ _ _ lg_streams _ ops5_return); try lia.
  - split; [apply NoDup_nodup|intro x; apply nodup_In].
  - intros c ids id [E|[E|[]]] Hid; injection E as <- <-; destruct Hid as [<-|[]]; cbn; lia.
  - intros g d [E|[]]. injection E as _ <-. lia.
  - intros [|[|id]] g d Hg; [injection Hg as <- _; reflexivity|discriminate|discriminate].
  - repeat constructor; try (exists 3; intros r [<-|[]]; reflexivity); try (exists 2; intros r [<-|[]]; reflexivity).
Qed.
Example C96_example_finish : (Z.of_nat (subseqs 1 3 (Z.to_nat (st_sp (run5 (removelast ops5))))) - 1 <= ca_last (st_calc (run5 ops5)))%Z.
Proof. vm_compute. discriminate. Qed.
