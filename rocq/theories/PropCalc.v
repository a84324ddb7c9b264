(** * Properties C25-C32, C60: the calculators *)
From Coq Require Import QArith Permutation Sorted.
From Verif Require Import Np NpFacts Mat MUtil SLog PLog PMulti MCalc SCalc PCalc PCalcRun SStream PStream PCalcEnd Inst.
Open Scope nat_scope.

(** C25. Requested amounts: an int is clamped, a ratio is rounded up and clamped, everything else is rejected. *)
Theorem C25_amounts : forall r full limit v, (0 <= full)%Z -> (resolves r full limit v <-> ratio_to_int r full limit = Ok v).
Proof. exact resolves_ok. Qed.
Print Assumptions C25_amounts.

Theorem C25_rejected : forall full limit,
  (forall q, (q < 0)%Q \/ (1 < q)%Q -> ratio_to_int (RFloat (Fin q)) full limit = Err ValueError) /\
  ratio_to_int (RFloat NaN) full limit = Err ValueError /\ ratio_to_int (RFloat PInf) full limit = Err ValueError /\
  ratio_to_int (RFloat NInf) full limit = Err ValueError /\ ratio_to_int ROther full limit = Err RuntimeError.
Proof.
  intros full limit. split; [|repeat split]. intros q Hq. unfold ratio_to_int. destruct (Qle_bool 0 q) eqn:E0; [|reflexivity]. destruct (Qle_bool q 1) eqn:E1; [|reflexivity].
  apply Qle_bool_iff in E0, E1. destruct Hq as [Hq|Hq]; destruct (Qlt_not_le _ _ Hq); assumption.
Qed.
Print Assumptions C25_rejected.

Example C25_example : ratio_to_int (RFloat (Fin (1 # 3))) 10 8 = Ok 4%Z /\ ratio_to_int (RFloat (Fin 1%Q)) 10 8 = Ok 8%Z /\
  ratio_to_int (RInt (-3)) 10 8 = Ok 0%Z /\ ratio_to_int (RInt 5) 10 8 = Ok 5%Z /\ ratio_to_int (RFloat (Fin (-1 # 3))) 10 8 = Err ValueError /\
  resolves (RFloat (Fin (1 # 3))) 10 8 4.
Proof. do 5 (split; [reflexivity|]). apply resolves_ok; [lia|reflexivity]. Qed.

(** C60. trivial_match_buffer *)
Theorem C60_self_join : forall (X G C : Type) shuffle m (series : list (list X)) buffer, let n := (Z.of_nat (length (hd [] series)) - m + 1)%Z in
  ((-1 <= buffer_of m buffer < n)%Z -> exists a, any_new G C shuffle m series None buffer = Ok a /\ ca_tmb (an_calc a) = buffer_of m buffer) /\
  (~ (-1 <= buffer_of m buffer < n)%Z -> any_new G C shuffle m series None buffer = Err RuntimeError).
Proof. exact @C60_any_self. Qed.
Print Assumptions C60_self_join.

Theorem C60_join : forall (X G C : Type) shuffle m (series query : list (list X)) buffer, length series = length query ->
  exists a, any_new G C shuffle m series (Some query) buffer = Ok a /\ ca_tmb (an_calc a) = (-1)%Z.
Proof. exact @C60_any_join. Qed.
Print Assumptions C60_join.

Theorem C60_streaming : forall (G C : Type) m W ndim buffer,
  ((-1 <= buffer_of m buffer < W - m + 1)%Z -> exists t, stm_new G C m W None ndim buffer = Ok t /\ ca_tmb (st_calc t) = buffer_of m buffer) /\
  (~ (-1 <= buffer_of m buffer < W - m + 1)%Z -> stm_new G C m W None ndim buffer = Err RuntimeError) /\
  (forall qw, exists t, stm_new G C m W (Some qw) ndim buffer = Ok t /\ ca_tmb (st_calc t) = (-1)%Z).
Proof. exact @C60_stm. Qed.
Print Assumptions C60_streaming.

Example C60_example : exists a, any_new unit unit (fun l => l) 4 [[1;2;3;4;5;6;7]%Z] None None = Ok a /\ ca_tmb (an_calc a) = 2%Z /\
  any_new unit unit (fun l => l) 4 [[1;2;3;4;5;6;7]%Z] None (Some 4%Z) = Err RuntimeError /\
  any_new unit unit (fun l => l) 4 [[1;2;3;4;5;6;7]%Z] None (Some (-2)%Z) = Err RuntimeError.
Proof. eexists. repeat split. Qed.

(** C26. A complete diagonal calculation delivers every cell exactly once: to every consumer, for each of its generators.
    The first two parts say that the calculation is exactly the delivery of [evs]; it can only fail when a consumer does. *)
Theorem C26_join_partial : forall (A X G C : Type) g_diag c_step set_order shuffle m series query buffer h w (a0 : any X G C) gens cs I (D : nat -> Z -> Z -> Np.num A),
  built shuffle m series (Some query) buffer h w a0 -> orders_sets set_order -> ids_ok gens cs -> gens_ok I gens ->
  gives g_diag I (fun id => diag_of (D id) h w) (on_matrix h w) (fun d => Z.to_nat (dlen h w d)) ->
  exists evs,
    (forall a', calculate_diagonals g_diag c_step set_order never (with_parts a0 gens cs) (RFloat (Fin 1%Q)) = Ok a' -> receive c_step evs cs (ca_cons (an_calc a'))) /\
    (forall cns, receive c_step evs cs cns -> exists a', calculate_diagonals g_diag c_step set_order never (with_parts a0 gens cs) (RFloat (Fin 1%Q)) = Ok a' /\ ca_cons (an_calc a') = cns) /\
    (forall ids, Forall (fun e => is_diag e) (evs ids)) /\
    (forall ids i id, nth_error ids i = Some id -> Permutation (log (map (channel i) (evs ids))) (cells_of (D id) (positions h w))).
Proof. intros. eapply C26_join_lemma; eauto. Qed.
Print Assumptions C26_join_partial.

(** Self-joins, for a buffer of at least 0.  Missing: buffer -1, for which it is false (below). *)
Theorem C26_self_partial : forall (A X G C : Type) g_diag c_step set_order shuffle m series buffer n (a0 : any X G C) gens cs I (D : nat -> Z -> Z -> Np.num A),
  built shuffle m series None buffer n n a0 -> (0 <= buffer_of m buffer)%Z -> orders_sets set_order -> ids_ok gens cs -> gens_ok I gens ->
  gives g_diag I (fun id => diag_of (D id) n n) (on_matrix n n) (fun d => Z.to_nat (dlen n n d)) ->
  exists evs,
    (forall a', calculate_diagonals g_diag c_step set_order never (with_parts a0 gens cs) (RFloat (Fin 1%Q)) = Ok a' -> receive c_step evs cs (ca_cons (an_calc a'))) /\
    (forall cns, receive c_step evs cs cns -> exists a', calculate_diagonals g_diag c_step set_order never (with_parts a0 gens cs) (RFloat (Fin 1%Q)) = Ok a' /\ ca_cons (an_calc a') = cns) /\
    (forall ids, Forall (fun e => is_diag e) (evs ids)) /\
    (forall ids i id, nth_error ids i = Some id -> Permutation (log (map (channel i) (evs ids))) (cells_of (mirror (D id)) (filter (far (buffer_of m buffer)) (positions n n)))).
Proof. intros. eapply C26_self_lemma; eauto. Qed.
Print Assumptions C26_self_partial.

(** A consumer that records its calls, and a generator of the matrix D(r, c) = 10 r + c *)
Definition rec_step (c : list (event (Np.num Z))) (e : event (Np.num Z)) : res (list (event (Np.num Z))) := Ok (c ++ [e]).
Definition tab (r c : Z) : Np.num Z := Fz (10 * r + c).
Definition tab_diag (h w : nat) (g : unit) (d : Z) : res (unit * list (Np.num Z)) := Ok (tt, diag_of tab h w d).
Definition tab_col (h : nat) (g : unit) (c : nat) : res (unit * list (Np.num Z)) := Ok (tt, map (fun r => tab (Z.of_nat r) (Z.of_nat c)) (seq 0 h)).
Definition dedup := nodup Nat.eq_dec.
Lemma dedup_orders : orders_sets dedup.
Proof. intro l. split; [apply NoDup_nodup|]. intro x. apply nodup_In. Qed.

Definition some_any : any Z unit (list (event (Np.num Z))) := mkAny (mkCalc true 0 0 0 0 0 [] [] 0) [] [] [] 0 0 0.
Definition get {T} (d : T) (r : res T) : T := match r with Ok x => x | Err _ => d end.
Definition three := get some_any (any_new unit (list (event (Np.num Z))) (fun l => l) 1 [[3; 4; 6]%Z] None (Some (-1)%Z)).

(** In a self-join with buffer -1 the cells of the main diagonal are delivered twice. *)
Theorem C26_self_refuted : exists (shuffle : list Z -> list Z) (m : Z) (series : list (list Z)) (n : nat) (a0 a' : any Z unit (list (event (Np.num Z)))) c,
  built shuffle m series None (Some (-1)%Z) n n a0 /\
  gives (tab_diag n n) (fun _ _ => True) (fun _ => diag_of tab n n) (on_matrix n n) (fun d => Z.to_nat (dlen n n d)) /\
  calculate_diagonals (tab_diag n n) rec_step dedup never (with_parts a0 [(tt, 0)] [([], [0])]) (RFloat (Fin 1%Q)) = Ok a' /\
  ca_cons (an_calc a') = [(c, [0])] /\ ~ NoDup (map fst (log c)).
Proof.
  exists (fun l => l), 1%Z, [[3; 4; 6]%Z], 3, three.
  exists (get some_any (calculate_diagonals (tab_diag 3 3) rec_step dedup never (with_parts three [(tt, 0)] [([], [0])]) (RFloat (Fin 1%Q)))).
  eexists. split; [|split; [|split; [vm_compute; reflexivity|split; [vm_compute; reflexivity|]]]].
  - split; [intro; apply Permutation_refl|]. repeat split; cbn; lia.
  - intros id g d _ Hd. exists tt. destruct g. split; [reflexivity|]. split; [exact Logic.I|]. unfold diag_of. rewrite map_length, seq_length. reflexivity.
  - vm_compute. intro H. inversion H as [|x l Hn _]; subst. apply Hn. right. right. left. reflexivity.
Qed.
Print Assumptions C26_self_refuted.

(** Self-joins with any buffer: the cells of the main diagonal are delivered once more if the buffer is -1. *)
Definition main_positions (n : nat) : list (Z * Z) := map (fun i => (Z.of_nat i, Z.of_nat i)) (seq 0 n).
Lemma far_main n : Permutation (filter (far (-1)) (positions n n)) (filter (far 0) (positions n n) ++ main_positions n).
Proof.
  assert (HM : forall r c, In (r, c) (main_positions n) <-> (0 <= r < Z.of_nat n /\ c = r)%Z).
  { intros r c. unfold main_positions. rewrite in_map_iff. split.
    - intros (i & [= <- <-] & Hi). apply in_seq in Hi. lia.
    - intros [H ->]. exists (Z.to_nat r). split; [f_equal; lia|apply in_seq; lia]. }
  apply NoDup_Permutation.
  - apply NoDup_filter, positions_nodup.
  - apply nodup_app; [apply NoDup_filter, positions_nodup|unfold main_positions; apply FinFun.Injective_map_NoDup; [intros a b [= E]; lia|apply seq_NoDup]|].
    intros [r c] H1 H2. rewrite HM in H1 || rewrite HM in H2. rewrite filter_In in H1 || rewrite filter_In in H2. unfold far in *. cbn [fst snd] in *. rewrite Z.ltb_lt in *. lia.
  - intros [r c]. rewrite in_app_iff, !filter_In, HM, in_positions. unfold far. cbn [fst snd]. rewrite !Z.ltb_lt. lia.
Qed.
Lemma self_cells_main {A} (D : Z -> Z -> Np.num A) n ds : 0 < n -> Permutation ds (pyrange 0 (Z.of_nat n)) ->
  Permutation (flat_map (fun d => diag_cells 0 0 d (diag_of D n n d) ++ diag_cells 0 0 (- d) (diag_of D n n d)) ds)
    (cells_of (mirror D) (filter (far (-1)) (positions n n) ++ main_positions n)).
Proof.
  intros Hn HP. assert (E0 : pyrange 0 (Z.of_nat n) = 0%Z :: pyrange 1 (Z.of_nat n)).
  { unfold pyrange, arange. replace (Z.to_nat (Z.of_nat n - 0)) with (S (Z.to_nat (Z.of_nat n - 1))) by lia. cbn [seq map]. f_equal. rewrite <- seq_shift, map_map. apply map_ext. intro; lia. }
  rewrite E0 in HP. rewrite (Permutation_flat_map _ HP). cbn [flat_map].
  pose proof (@self_cells A D n 0 (pyrange 1 (Z.of_nat n)) ltac:(lia) (Permutation_refl _)) as HS. rewrite HS.
  assert (E1 : diag_cells 0 0 0 (diag_of D n n 0) = cells_of (mirror D) (main_positions n)).
  { unfold diag_cells, diag_of, cells_of, main_positions. replace (Z.to_nat (dlen n n 0)) with n by (unfold dlen; lia).
    rewrite map_map. apply nth_error_ext. intro i. rewrite nth_error_mapi, !nth_error_map, nth_error_seq.
    destruct (i <? n); [|reflexivity]. cbn [option_map fst snd]. unfold mirror. destruct (Z.leb_spec (Z.of_nat (0 + i)) (Z.of_nat (0 + i))); [|lia]. repeat f_equal; lia. }
  cbn [Z.opp]. rewrite E1. unfold cells_of. rewrite <- !map_app. apply Permutation_map. rewrite (far_main n). rewrite <- !app_assoc.
  rewrite (Permutation_app_comm (main_positions n)). rewrite <- !app_assoc. rewrite (Permutation_app_comm (main_positions n) (filter _ _ ++ _)). rewrite <- !app_assoc. reflexivity.
Qed.
Theorem C26_self : forall (A X G C : Type) g_diag c_step set_order shuffle m series buffer n (a0 : any X G C) gens cs I (D : nat -> Z -> Z -> Np.num A),
  built shuffle m series None buffer n n a0 -> orders_sets set_order -> ids_ok gens cs -> gens_ok I gens ->
  gives g_diag I (fun id => diag_of (D id) n n) (on_matrix n n) (fun d => Z.to_nat (dlen n n d)) ->
  exists evs,
    (forall a', calculate_diagonals g_diag c_step set_order never (with_parts a0 gens cs) (RFloat (Fin 1%Q)) = Ok a' -> receive c_step evs cs (ca_cons (an_calc a'))) /\
    (forall cns, receive c_step evs cs cns -> exists a', calculate_diagonals g_diag c_step set_order never (with_parts a0 gens cs) (RFloat (Fin 1%Q)) = Ok a' /\ ca_cons (an_calc a') = cns) /\
    (forall ids, Forall (fun e => is_diag e) (evs ids)) /\
    (forall ids i id, nth_error ids i = Some id -> Permutation (log (map (channel i) (evs ids)))
       (cells_of (mirror (D id)) (filter (far (buffer_of m buffer)) (positions n n) ++ if (buffer_of m buffer =? -1)%Z then main_positions n else []))).
Proof.
  intros A X G C g_diag c_step set_order shuffle m series buffer n a0 gens cs I D HB HSO HI HG0 HG.
  destruct (C26_gen c_step HB HSO HI HG0 HG) as [P1 P2]. eexists. split; [exact P1|]. split; [exact P2|]. split; [intro ids; apply calls_diag|].
  intros ids i id Hi. destruct (built_fresh gens cs HB) as (b & _ & HP & _). rewrite (diag_log _ _ _ _ _ Hi). cbn [is_self]. unfold diagonals in HP.
  destruct HB as (_ & E & Hn & _ & Hw & _).
  destruct (Z_le_gt_dec (-1) (buffer_of m buffer)) as [Hb|Hb].
  - destruct (Z.eqb_spec (buffer_of m buffer) (-1)) as [Eb|Eb].
    + rewrite Eb in *. apply self_cells_main; [exact Hn|]. change (0%Z) with (-1 + 1)%Z. exact HP.
    + rewrite app_nil_r. apply self_cells; [lia|exact HP].
  - destruct (@C60_self_join X G C shuffle m series buffer) as [_ HR]. rewrite HR in E by lia. discriminate.
Qed.
Print Assumptions C26_self.
Example C26_self_case : built (fun l => l) 1 [[3; 4; 6]%Z] None (Some (-1)%Z) 3 3 three /\
  bind (calculate_diagonals (tab_diag 3 3) rec_step dedup never (with_parts three [(tt, 0)] [([], [0])]) (RFloat (Fin 1%Q))) (fun a => Ok (map (fun c => map fst (log (fst c))) (ca_cons (an_calc a)))) =
  Ok [[(0, 0); (1, 1); (2, 2); (0, 0); (1, 1); (2, 2); (0, 1); (1, 2); (1, 0); (2, 1); (0, 2); (2, 0)]%Z].
Proof. split; [|reflexivity]. split; [intro; apply Permutation_refl|]. repeat split; cbn; lia. Qed.

Definition four := get some_any (any_new unit (list (event (Np.num Z))) (fun l => rev l) 2 [[3; 4; 6; 1; 2]%Z] None (Some 1%Z)).
Example C26_example : built (fun l => rev l) 2 [[3; 4; 6; 1; 2]%Z] None (Some 1%Z) 4 4 four /\
  bind (calculate_diagonals (tab_diag 4 4) rec_step dedup never (with_parts four [(tt, 0)] [([], [0])]) (RFloat (Fin 1%Q))) (fun a => Ok (map fst (ca_cons (an_calc a)))) =
  Ok [[EDiag 3 [[Fz 3]]; EDiag (-3) [[Fz 3]]; EDiag 2 [[Fz 2; Fz 13]]; EDiag (-2) [[Fz 2; Fz 13]]]].
Proof. split; [|reflexivity]. split; [intro l; apply Permutation_sym, Permutation_rev|]. repeat split; cbn; lia. Qed.

(** C27. Whatever calls came before, calculate_diagonals continues where they stopped: the diagonals [ds] so far, [new] by
    this call and [rest] later are together all diagonals, each once.  [new] stops at the first point where the requested
    number of values is reached (or at the interruption), and not before. *)
Theorem C27_work : forall (A X G C : Type) g_diag c_step set_order shuffle m series query buffer h w (a0 : any X G C) gens cs I (F : nat -> Z -> list (Np.num A)) calls a1 intr partial v,
  built shuffle m series query buffer h w a0 -> orders_sets set_order -> ids_ok gens cs -> gens_ok I gens ->
  gives g_diag I F (on_matrix h w) (fun d => Z.to_nat (dlen h w d)) ->
  foldM (fun a c => calculate_diagonals g_diag c_step set_order (fst c) a (snd c)) calls (with_parts a0 gens cs) = Ok a1 ->
  resolves partial (size h w (diagonals query m buffer h w)) (size h w (diagonals query m buffer h w)) v ->
  exists ds new rest, Permutation (ds ++ new ++ rest) (diagonals query m buffer h w) /\
    receive c_step (diagonal_calls F (is_self query) ds) cs (ca_cons (an_calc a1)) /\
    (forall a2, calculate_diagonals g_diag c_step set_order intr a1 partial = Ok a2 -> receive c_step (diagonal_calls F (is_self query) new) (ca_cons (an_calc a1)) (ca_cons (an_calc a2))) /\
    (forall cns, receive c_step (diagonal_calls F (is_self query) new) (ca_cons (an_calc a1)) cns ->
      exists a2, calculate_diagonals g_diag c_step set_order intr a1 partial = Ok a2 /\ ca_cons (an_calc a2) = cns) /\
    (forall i, i < length new -> intr i = false /\ (size h w (ds ++ firstn i new) < v)%Z) /\
    (intr (length new) = true \/ (v <= size h w (ds ++ new))%Z).
Proof. intros. eapply C27_lemma; eassumption. Qed.
Print Assumptions C27_work.

Example C27_example : bind (calculate_diagonals (tab_diag 4 4) rec_step dedup never (with_parts four [(tt, 0)] [([], [0])]) (RInt 1)) (fun a =>
    bind (calculate_diagonals (tab_diag 4 4) rec_step dedup never a (RFloat (Fin (2 # 3)))) (fun a => Ok (map fst (ca_cons (an_calc a)), an_done a))) =
  Ok ([[EDiag 3 [[Fz 3]]; EDiag (-3) [[Fz 3]]; EDiag 2 [[Fz 2; Fz 13]]; EDiag (-2) [[Fz 2; Fz 13]]]], 3%Z) /\
  resolves (RFloat (Fin (2 # 3))) 3 3 2 /\ size 4 4 (diagonals (@None Z) 2 (Some 1%Z) 4 4) = 3%Z.
Proof. split; [reflexivity|]. split; [|reflexivity]. apply resolves_ok; [lia|reflexivity]. Qed.

(** C28. Splitting and interrupting: the consumers are in the state of one uninterrupted call; completing the calculation
    gives the state of one complete calculation (and succeeds if and only if that does). *)
Theorem C28_interrupt : forall (A X G C : Type) g_diag c_step set_order shuffle m series query buffer h w (a0 : any X G C) gens cs I (F : nat -> Z -> list (Np.num A)) calls a1,
  built shuffle m series query buffer h w a0 -> orders_sets set_order -> ids_ok gens cs -> gens_ok I gens ->
  gives g_diag I F (on_matrix h w) (fun d => Z.to_nat (dlen h w d)) ->
  foldM (fun a c => calculate_diagonals g_diag c_step set_order (fst c) a (snd c)) calls (with_parts a0 gens cs) = Ok a1 ->
  (exists v a2, calculate_diagonals g_diag c_step set_order never (with_parts a0 gens cs) (RInt v) = Ok a2 /\ ca_cons (an_calc a2) = ca_cons (an_calc a1)) /\
  (forall a2, calculate_diagonals g_diag c_step set_order never a1 (RFloat (Fin 1%Q)) = Ok a2 ->
    exists a3, calculate_diagonals g_diag c_step set_order never (with_parts a0 gens cs) (RFloat (Fin 1%Q)) = Ok a3 /\ ca_cons (an_calc a3) = ca_cons (an_calc a2)) /\
  (forall a3, calculate_diagonals g_diag c_step set_order never (with_parts a0 gens cs) (RFloat (Fin 1%Q)) = Ok a3 ->
    exists a2, calculate_diagonals g_diag c_step set_order never a1 (RFloat (Fin 1%Q)) = Ok a2 /\ ca_cons (an_calc a2) = ca_cons (an_calc a3)).
Proof. intros. eapply C28_lemma; eassumption. Qed.
Print Assumptions C28_interrupt.

Example C28_example : bind (calculate_diagonals (tab_diag 4 4) rec_step dedup (fun k => k =? 1) (with_parts four [(tt, 0)] [([], [0])]) (RFloat (Fin 1%Q))) (fun a =>
    bind (calculate_diagonals (tab_diag 4 4) rec_step dedup never a (RFloat (Fin 1%Q))) (fun a' => Ok (map fst (ca_cons (an_calc a)), map fst (ca_cons (an_calc a'))))) =
  Ok ([[EDiag 3 [[Fz 3]]; EDiag (-3) [[Fz 3]]]], [[EDiag 3 [[Fz 3]]; EDiag (-3) [[Fz 3]]; EDiag 2 [[Fz 2; Fz 13]]; EDiag (-2) [[Fz 2; Fz 13]]]]).
Proof. reflexivity. Qed.

(** C29. calculate_columns delivers exactly the columns from start (by default: after the last one) to upto, with the trivial
    matches hidden; in an AnytimeCalculator [cols] and [rows] are the size of the matrix, in a StreamingCalculator that of the
    current window. *)
Theorem C29_columns : forall (A G C : Type) g_col c_step set_order, orders_sets set_order -> forall I (F : nat -> nat -> list (Np.num A)) (s : calc G C) cols rows intr start upto c u n,
  gives g_col I F (fun c => c < cols) (fun _ => rows) -> ids_ok (ca_gens s) (ca_cons s) -> gens_ok I (ca_gens s) -> (-1 <= ca_tmb s)%Z -> (0 <= ca_ns s)%Z ->
  resolves (match start with None => RInt (ca_last s + 1) | Some r => r end) (ca_ns s) (Z.of_nat cols) (Z.of_nat c) -> resolves upto (ca_ns s) (Z.of_nat cols) (Z.of_nat u) -> runs intr n (u - c) ->
  (forall s', calculate_columns g_col c_step set_order (Z.of_nat cols) (Z.of_nat rows) intr s start upto = Ok s' ->
    same_conf s s' /\ gens_ok I (ca_gens s') /\ map snd (ca_gens s') = map snd (ca_gens s) /\
    receive c_step (column_calls F (ca_tmb s) c n) (ca_cons s) (ca_cons s') /\
    ca_last s' = (if n =? 0 then ca_last s else Z.max (ca_last s) (Z.of_nat (c + n) - 1))) /\
  (forall cns, receive c_step (column_calls F (ca_tmb s) c n) (ca_cons s) cns ->
    exists s', calculate_columns g_col c_step set_order (Z.of_nat cols) (Z.of_nat rows) intr s start upto = Ok s' /\ ca_cons s' = cns).
Proof. exact @calc_columns. Qed.
Print Assumptions C29_columns.

Example C29_example : bind (any_columns (tab_col 4) rec_step dedup never (with_parts four [(tt, 0)] [([], [0])]) (Some (RInt 1)) (RInt 3)) (fun a => Ok (map fst (ca_cons (an_calc a)), ca_last (an_calc a))) =
  Ok ([[ECol 1 [[PInf; PInf; PInf; Fz 31]]; ECol 2 [[Fz 2; PInf; PInf; PInf]]]], 2%Z).
Proof. reflexivity. Qed.

(** C30. A sequence of calculate_columns calls without start, each possibly interrupted: together they deliver the columns
    0 .. n-1, like one call; the next call delivers the columns after those; completing gives one complete calculation. *)
Theorem C30_interrupt : forall (A X G C : Type) g_col c_step set_order shuffle m series query buffer h w (a0 : any X G C) gens cs I (F : nat -> nat -> list (Np.num A)) calls a1,
  built shuffle m series query buffer h w a0 -> orders_sets set_order -> ids_ok gens cs -> gens_ok I gens -> gives g_col I F (fun c => c < w) (fun _ => h) ->
  foldM (fun a c => any_columns g_col c_step set_order (fst c) a None (snd c)) calls (with_parts a0 gens cs) = Ok a1 ->
  exists n, n <= w /\ receive c_step (column_calls F (ca_tmb (an_calc a0)) 0 n) cs (ca_cons (an_calc a1)) /\
    (exists a2, any_columns g_col c_step set_order never (with_parts a0 gens cs) None (RInt (Z.of_nat n)) = Ok a2 /\ ca_cons (an_calc a2) = ca_cons (an_calc a1)) /\
    (forall intr upto u k, resolves upto (Z.of_nat w) (Z.of_nat w) (Z.of_nat u) -> runs intr k (u - n) ->
      (forall a2, any_columns g_col c_step set_order intr a1 None upto = Ok a2 -> receive c_step (column_calls F (ca_tmb (an_calc a0)) n k) (ca_cons (an_calc a1)) (ca_cons (an_calc a2))) /\
      (forall cns, receive c_step (column_calls F (ca_tmb (an_calc a0)) n k) (ca_cons (an_calc a1)) cns -> exists a2, any_columns g_col c_step set_order intr a1 None upto = Ok a2 /\ ca_cons (an_calc a2) = cns)) /\
    (forall a2, any_columns g_col c_step set_order never a1 None (RFloat (Fin 1%Q)) = Ok a2 ->
      exists a3, any_columns g_col c_step set_order never (with_parts a0 gens cs) None (RFloat (Fin 1%Q)) = Ok a3 /\ ca_cons (an_calc a3) = ca_cons (an_calc a2)).
Proof. intros. eapply C30_lemma; eassumption. Qed.
Print Assumptions C30_interrupt.

Example C30_example : bind (any_columns (tab_col 4) rec_step dedup (fun k => k =? 2) (with_parts four [(tt, 0)] [([], [0])]) None (RFloat (Fin 1%Q))) (fun a =>
    bind (any_columns (tab_col 4) rec_step dedup never a None (RInt 3)) (fun a' => Ok (map (fun c => length (fst c)) (ca_cons (an_calc a)), ca_last (an_calc a), map fst (ca_cons (an_calc a'))))) =
  Ok ([2], 1%Z, [[ECol 0 [[PInf; PInf; Fz 20; Fz 30]]; ECol 1 [[PInf; PInf; PInf; Fz 31]]; ECol 2 [[Fz 2; PInf; PInf; PInf]]]]).
Proof. reflexivity. Qed.

(** ** Streaming *)
(** Every history of calls delivers exactly the events [evs] of the specification; C31: the number of columns and rows is that
    of the complete subsequences in the windows. *)
Theorem C31_windows : forall (A X G C : Type) g_col g_app_s g_app_q c_step set_order m W qw ndim buffer (t0 : stm G C) gens cs valid Inv (F : nat -> list (gop X) -> nat -> list (Np.num A)) ops p evs,
  let self := is_self qw in
  let Wq := match qw with Some q => q | None => W end in
  1 <= m <= W -> m <= Wq -> 0 < ndim -> stm_new G C (Z.of_nat m) (Z.of_nat W) (option_map Z.of_nat qw) ndim buffer = Ok t0 ->
  orders_sets set_order -> ids_ok gens cs -> (forall g d, In (g, d) gens -> d < ndim) -> gens_ok (fun id g => Inv id [] g) gens ->
  streams g_col g_app_s g_app_q self m W Wq valid Inv F ->
  history self m W Wq ndim (ca_tmb (st_calc t0)) (fun id => nth id (map snd gens) 0) valid F ops p evs ->
  (forall t, foldM (stm_call g_col g_app_s g_app_q c_step set_order) ops (stm_with t0 gens cs) = Ok t ->
    receive c_step evs cs (ca_cons (st_calc t)) /\
    stm_max_column t = Z.of_nat (subseqs m W (series_points ops)) /\
    stm_max_row t = Z.of_nat (if self then subseqs m W (series_points ops) else subseqs m Wq (query_points ops))) /\
  (forall cns, receive c_step evs cs cns -> exists t, foldM (stm_call g_col g_app_s g_app_q c_step set_order) ops (stm_with t0 gens cs) = Ok t /\ ca_cons (st_calc t) = cns).
Proof. exact @stream_lemma. Qed.
Print Assumptions C31_windows.

(** C31. The shifts announced to every consumer add up to the number of points that left the windows. *)
Theorem C31_shifts : forall (A X : Type) self m W Wq ndim tmb dim valid (F : nat -> list (gop X) -> nat -> list (Np.num A)) ops p evs ids,
  0 < ndim -> history self m W Wq ndim tmb dim valid F ops p evs ->
  sshift (evs ids) = Z.of_nat (lost W (series_points ops)) /\
  qshift (evs ids) = Z.of_nat (if self then lost W (series_points ops) else lost Wq (query_points ops)).
Proof. exact @C31_shifts_lemma. Qed.
Print Assumptions C31_shifts.

(** C32. Absolute columns are delivered in increasing order, so none twice, and after calculate_columns() without interruption
    every column in the window was delivered. *)
Theorem C32_columns : forall (A X : Type) self m W Wq ndim tmb dim valid (F : nat -> list (gop X) -> nat -> list (Np.num A)) ops p evs ids,
  0 < ndim -> 1 <= m <= W -> history self m W Wq ndim tmb dim valid F ops p evs ->
  StronglySorted Z.lt (delivered (evs ids)) /\
  (forall p' evs', does self m W Wq ndim tmb dim valid F (OCols never (RFloat (Fin 1%Q))) p p' evs' ->
    forall j, (Z.of_nat (lost W (series_points ops)) <= j < Z.of_nat (lost W (series_points ops) + subseqs m W (series_points ops)))%Z -> In j (delivered (evs ids ++ evs' ids))).
Proof. exact @C32_lemma. Qed.
Print Assumptions C32_columns.

(** A streaming generator: |x - y| for subsequences of one point *)
Definition abs_col (W : nat) (g : list Z) (c : nat) : res (list Z * list (Np.num Z)) :=
  let v := lastn W g in Ok (g, map (fun x => Fz (Z.abs (x - nth c v 0%Z))) v).
Definition abs_app (g xs : list Z) : res (list Z) := Ok (g ++ xs).
Definition abs_F (W : nat) (id : nat) (H : list (gop Z)) (c : nat) : list (Np.num Z) :=
  let v := lastn W (series_of H) in map (fun x => Fz (Z.abs (x - nth c v 0%Z))) v.
Lemma abs_streams W : streams (abs_col W) abs_app abs_app true 1 W W (fun _ => True) (fun _ H g => g = series_of H) (abs_F W).
Proof.
  constructor.
  - intros id H g xs -> _. eexists. split; [reflexivity|]. unfold series_of. rewrite flat_map_app. cbn [flat_map]. rewrite app_nil_r. reflexivity.
  - discriminate.
  - intros id H g c -> Hc Hr _. eexists. split; [reflexivity|]. split; [unfold series_of; rewrite flat_map_app; cbn [flat_map]; rewrite app_nil_r; reflexivity|].
    unfold abs_F, rows_of, subseqs, lastn. rewrite map_length, skipn_length. lia.
Qed.
Definition stm3 : stm (list Z) (list (event (Np.num Z))) :=
  match stm_new (list Z) (list (event (Np.num Z))) 1 3 None 1 (Some (-1)%Z) with Ok a => a | Err _ => mkStm (mkCalc true 0 0 0 0 0 [] [] 0) 0 0 end.
Definition ops3 : list (sop Z) := [OSeries (Pts [[1; 5]%Z]); OCols (fun k => k =? 1) (RFloat (Fin 1%Q)); OSeries (Pts [[7; 2]%Z]); OCols never (RFloat (Fin 1%Q))].
Example C32_example : foldM (stm_call (abs_col 3) abs_app abs_app rec_step dedup) ops3 (stm_with stm3 [([], 0)] [([], [0])]) =
    Ok (mkStm (ca_upd (st_calc stm3) [([1; 5; 7; 2]%Z, 0)] [([ECol 0 [[Fz 0; Fz 4]]; EShiftS 1; EShiftQ 1; ECol 0 [[Fz 0; Fz 2; Fz 3]]; ECol 1 [[Fz 2; Fz 0; Fz 5]]; ECol 2 [[Fz 3; Fz 5; Fz 0]]], [0])] 2) 4 (-1)) /\
  exists p evs, history true 1 3 3 1 (-1) (fun id => nth id [0] 0) (fun _ => True) (abs_F 3) ops3 p evs.
Proof.
  split; [reflexivity|].
  eexists _, _. eapply (history_snoc (ops := [OSeries (Pts [[1; 5]%Z]); OCols (fun k => k =? 1) (RFloat (Fin 1%Q)); OSeries (Pts [[7; 2]%Z])])).
  - eapply (history_snoc (ops := [OSeries (Pts [[1; 5]%Z]); OCols (fun k => k =? 1) (RFloat (Fin 1%Q))])).
    + eapply (history_snoc (ops := [OSeries (Pts [[1; 5]%Z])])).
      * eapply (history_snoc (ops := [])); [constructor|]. eapply does_series with (rows := [[1; 5]%Z]) (n := 2); [split; [reflexivity|]; split; [intros r [<-|[]]; reflexivity|reflexivity]|auto].
      * eapply does_cols with (u := 2) (n := 1); [apply resolves_ok; [lia|reflexivity]|split; [cbn; lia|]; split; [intros i Hi; destruct i; [reflexivity|lia]|reflexivity]|cbn; lia].
    + eapply does_series with (rows := [[7; 2]%Z]) (n := 2); [split; [reflexivity|]; split; [intros r [<-|[]]; reflexivity|reflexivity]|auto].
  - eapply does_cols with (u := 3) (n := 3); [apply resolves_ok; [lia|reflexivity]|apply runs_never_iff; reflexivity|cbn; lia].
Qed.
